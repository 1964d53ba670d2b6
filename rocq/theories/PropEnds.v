(** * C75: with the rule of repetition every game ends *)

From Coq Require Import String List Bool Arith NArith ZArith Lia.
From Verif Require Import Types Rules Bitboard Tables Zobrist Position Movegen Api Sfen Squares
  ValidPlay Moves Reach Decide Lines PerftSpec Witness Repeat Ends RookLines PropKeys PropRepeat PropDivide PropPerft.
Import ListNotations.
Local Open Scope nat_scope.

Local Opaque attack_info_new calculate_checkers N.pow.

(** C75: in every legal line of at least 6 * 29^81 * (M+1)^14 moves a position is there
    for the fourth time; M bounds the number of pieces of each kind. *)
Theorem C75_games_end cf ms0 p ms M : reachable cf ms0 p ->
  (forall k, (material (view cf p) k <= M)%N) -> legal_line (view cf p) ms ->
  (6 * 29 ^ 81 * (M + 1) ^ 14 <= N.of_nat (List.length ms))%N ->
  exists n, n <= List.length ms /\ fourfold (view cf p) ms n.
Proof.
  intros R. apply game_ends; [exact (reach_valid cf ms0 p R)|apply reach_hand_ok].
Qed.
Print Assumptions C75_games_end.

(** No sequence of moves of that length is still going on: not by the rule, and not for
    the referee that uses key(), whatever the Zobrist table. *)
Theorem C75_verdict cf ms0 p ms M n v : reachable cf ms0 p ->
  (forall k, (material (view cf p) k <= M)%N) ->
  (6 * 29 ^ 81 * (M + 1) ^ 14 <= N.of_nat (List.length ms))%N ->
  judged (view cf p) ms n v \/ referee cf ms p [] 0 = Some (n, v) -> v <> Ongoing.
Proof.
  intros R B Long H ->.
  assert (J : judged (view cf p) ms n Ongoing).
  { destruct H as [J|E]; [exact J|].
    destruct (C74_one_verdict (view cf p) ms) as [n' [v' [J _]]].
    destruct (C74_never_missed cf ms0 p ms n Ongoing n' v' R E J) as [[-> ->]|[_ [b [w X]]]];
      [exact J|discriminate]. }
  inversion J as [| | |n1 E L G]; subst.
  destruct (C75_games_end cf ms0 p ms M R B L Long) as [i [Bi F]].
  destruct (G i Bi) as [_ NF]. exact (NF F).
Qed.
Print Assumptions C75_verdict.

(** Without the rule there is no bound: from the start position, lines of every length. *)
Theorem C75_rule_needed n : exists ms, List.length ms = n /\ legal_line (game_of partial_startpos) ms /\
  forall i, i <= n -> ~ no_moves (after (game_of partial_startpos) ms i).
Proof.
  destruct (long_lines n) as [l [m [E [L Lm]]]]. exists l. split; [exact E|]. split; [exact L|].
  intros i B N. unfold after in N. rewrite <- E in B.
  destruct (nth_error l i) as [m'|] eqn:X.
  - apply (N m'). pose proof L as Y. rewrite <- (firstn_skipn (S i) l) in Y. apply legal_line_app in Y as [Y _].
    rewrite (firstn_snoc l i m' X) in Y. exact (proj2 (legal_line_last _ _ _ Y)).
  - apply nth_error_None in X. rewrite firstn_all2 in N by lia. exact (N m Lm).
Qed.
Print Assumptions C75_rule_needed.

(* the hypotheses hold of some line from the start position, M = 18 *)
Example C75_example cf : exists p ms, Yasai.new cf partial_startpos = Some p /\ reachable cf [] p /\
  (forall k, (material (view cf p) k <= 18)%N) /\ legal_line (view cf p) ms /\
  (6 * 29 ^ 81 * (18 + 1) ^ 14 <= N.of_nat (List.length ms))%N.
Proof.
  destruct (demo_new cf partial_startpos start_okp) as [p [l [N0 [R [G _]]]]].
  destruct (C75_rule_needed (N.to_nat (6 * 29 ^ 81 * (18 + 1) ^ 14))) as [ms [E [L _]]].
  exists p, ms. split; [exact N0|]. split; [exact R|]. rewrite G. split.
  - assert (H : forallb (fun k => (material (game_of partial_startpos) k <=? 18)%N) all_kinds = true)
      by (vm_compute; reflexivity).
    intros k. rewrite forallb_forall in H. apply N.leb_le, H, all_kinds_in.
  - split; [exact L|]. rewrite E, N2Nat.id. apply N.le_refl.
Qed.
