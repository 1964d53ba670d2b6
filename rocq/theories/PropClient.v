(** * C64: programs that use the crate *)

From Coq Require Import String List Bool NArith ZArith Lia.
From Verif Require Import Types Rules Bitboard Zobrist Position Movegen Perft Api Sfen
  Hash ValidPlay Reach Lines Squares Decide PerftSpec Witness Facts Client.
Import ListNotations.
Local Open Scope N_scope.

(** C64 *)

(* A program that asks a position questions, plays legal moves and takes back
   the last one, as [client] describes them: it ends without a panic, with a
   result it could have had if the answers had come from the rules of shogi,
   and with the position that belongs to the moves not taken back.  It may ask for
   the legal moves where they fit in the buffer, and capture where there is room in
   the hand; nothing else is asked of the pieces.  Its keys are those of C13. *)
Theorem C64_client_refines {A} cf (c : client A) ms p :
  reachable cf ms p ->
  keeps (cf_checks cf) true (keyed (zt cf) ms) c (mkT (view cf p) (Yasai.ply cf p) []) ->
  exists a q t', exec cf c p = Some (a, q) /\
    plays (keyed (zt cf) ms) c (mkT (view cf p) (Yasai.ply cf p) []) a t' /\
    same_game (view cf q) (t_game t') /\ Yasai.ply cf q = t_ply t' /\
    (t_past t' = [] -> q = p).
Proof.
  intros R K.
  assert (Sh : shows cf ms p p (mkT (view cf p) (Yasai.ply cf p) [])).
  { apply (S_start cf ms p); [exact R|apply same_refl|reflexivity]. }
  destruct (exec_plays cf ms c p p _ Sh K) as [a [q [t' [E [P Sq]]]]]. exists a, q, t'.
  destruct (shows_facts cf ms p q t' Sq) as [ms' [_ [G [Y _]]]].
  split; [exact E|]. split; [exact P|]. split; [exact G|]. split; [exact Y|].
  intros N. inversion Sq; subst; [reflexivity|discriminate].
Qed.
Print Assumptions C64_client_refines.

(* with the pieces of one set and both kings there are no such limits *)
Theorem C64_kings {A} cf K (c : client A) ms p :
  reachable cf ms p -> standard_material (view cf p) -> both_kings (view cf p) ->
  keeps (cf_checks cf) false K c (mkT (view cf p) (Yasai.ply cf p) []) ->
  keeps (cf_checks cf) true K c (mkT (view cf p) (Yasai.ply cf p) []).
Proof.
  intros R SM BK Kp. apply keeps_kings; [exact Kp| |constructor].
  split; [exact (reach_valid cf ms p R)|]. split; [apply reach_hand_ok|]. split; assumption.
Qed.
Print Assumptions C64_kings.

(* The result does not depend on the bitboard backend or the overflow mode; if the
   client asks for no key, not on the random table or on how the position came
   about either.  If it does, the two random tables and the keys it starts with must
   be the same. *)
Theorem C64_same_result {A} cf1 cf2 (c : client A) ms1 ms2 p1 p2 :
  reachable cf1 ms1 p1 -> reachable cf2 ms2 p2 ->
  same_game (view cf1 p1) (view cf2 p2) -> Yasai.ply cf1 p1 = Yasai.ply cf2 p2 ->
  keyless c \/ (cf_rng cf1 = cf_rng cf2 /\ Yasai.keys cf1 p1 = Yasai.keys cf2 p2) ->
  keeps (cf_checks cf1 || cf_checks cf2) true (keyed (zt cf1) ms1) c (mkT (view cf1 p1) (Yasai.ply cf1 p1) []) ->
  exists a q1 q2, exec cf1 c p1 = Some (a, q1) /\ exec cf2 c p2 = Some (a, q2) /\
    same_game (view cf1 q1) (view cf2 q2) /\ Yasai.ply cf1 q1 = Yasai.ply cf2 q2.
Proof.
  intros R1 R2 G Y Q K.
  assert (S1 : shows cf1 ms1 p1 p1 (mkT (view cf1 p1) (Yasai.ply cf1 p1) [])).
  { apply (S_start cf1 ms1 p1); [exact R1|apply same_refl|reflexivity]. }
  assert (S2 : shows cf2 ms2 p2 p2 (mkT (view cf1 p1) (Yasai.ply cf1 p1) [])).
  { apply (S_start cf2 ms2 p2); [exact R2|apply same_sym; exact G|symmetry; exact Y]. }
  assert (Q' : keyless c \/ (forall g n, keyed (zt cf1) ms1 g n = keyed (zt cf2) ms2 g n)).
  { destruct Q as [Q|[Er Ek]]; [left; exact Q|right]. intros g n.
    assert (Z : zt cf1 = zt cf2) by (unfold zt; rewrite Er; reflexivity).
    rewrite (proj1 (shows_keys _ _ _ _ _ S1)), (proj1 (shows_keys _ _ _ _ _ S2)) in Ek.
    injection Ek as Ek. unfold keys_at, keyed in *. cbn [t_game t_past List.length Nat.add] in Ek. rewrite Z in *.
    apply (f_equal (N.lxor (board_hash (zt cf2) (g_board (view cf1 p1))))) in Ek.
    rewrite <- !N.lxor_assoc, N.lxor_nilpotent, !N.lxor_0_l in Ek.
    assert (Eo : Nat.odd (List.length ms1) = Nat.odd (List.length ms2))
      by (destruct (Nat.odd (List.length ms1)), (Nat.odd (List.length ms2)); congruence).
    rewrite !Nat.odd_add, Eo. reflexivity. }
  destruct (exec_same cf1 cf2 ms1 ms2 c p1 p2 p1 p2 _ S1 S2 Q' K) as [a [q1 [q2 [t' [E1 [E2 [_ [T1 T2]]]]]]]].
  exists a, q1, q2. split; [exact E1|]. split; [exact E2|].
  destruct (shows_facts cf1 ms1 p1 q1 t' T1) as [_ [_ [G1 [Y1 _]]]].
  destruct (shows_facts cf2 ms2 p2 q2 t' T2) as [_ [_ [G2 [Y2 _]]]].
  split; [|congruence]. apply (same_trans _ _ _ G1). apply same_sym. exact G2.
Qed.
Print Assumptions C64_same_result.

(* A program that asks for keys: it plays a line on a clone and takes it back there,
   compares the keys of the clone with those it had before, then plays the first move
   on the position itself.  The keys on the clone are the same, and they are not after
   the move. *)
Fixpoint there (l : list move) (k : client bool) : client bool :=
  match l with [] => k | m :: l => DoM m (there l (UndoM m k)) end.
Definition same_keys (v w : N * N) : bool := (fst v =? fst w)%N && (snd v =? snd w)%N.
Definition probe (l : list move) : client bool :=
  KeysOf (fun v => OnClone (there l (KeysOf (fun w => Ret (same_keys v w))))
    (fun b => match l with
              | [] => Ret b
              | m :: _ => DoM m (KeysOf (fun w => Ret (b && negb (same_keys v w))))
              end)).

Lemma there_keeps ck K l : forall k t, decent (t_game t) -> legal_line (t_game t) l ->
  ck = false \/ t_ply t + N.of_nat (List.length l) <= 65535 ->
  keeps ck true K k t -> keeps ck true K (there l k) t.
Proof.
  induction l as [|m l IH]; intros k t D L B H; cbn [there]; [exact H|].
  destruct t as [g n h], L as [L1 L2]. cbn [t_game t_ply List.length] in *.
  assert (B1 : ck = false \/ n < 65535) by (destruct B; [tauto|right; lia]).
  constructor; [exact L1|exact B1|intros _; apply roomy_standard, D|].
  apply IH; cbn [t_game t_ply]; [apply decent_play; assumption|exact L2| |constructor; exact H].
  destruct B as [B|B]; [tauto|right]. rewrite next_ply_le; lia.
Qed.
Lemma there_plays K l : forall k t a t', plays K (there l k) t a t' -> plays K k t a t'.
Proof.
  induction l as [|m l IH]; intros k t a t' P; cbn [there] in P; [exact P|].
  inversion P as [| | | | | | | |? ? g n h ? ? P'| | | |]; subst. apply IH in P'.
  inversion P'; subst. assumption.
Qed.
Lemma same_keys_spec v w : same_keys v w = true <-> v = w.
Proof.
  destruct v, w. unfold same_keys. cbn [fst snd]. rewrite andb_true_iff, !N.eqb_eq.
  split; [intros [-> ->]; reflexivity|intros [= -> ->]; split; reflexivity].
Qed.

Theorem C64_probe cf ms p l :
  reachable cf ms p -> standard_material (view cf p) -> both_kings (view cf p) -> legal_line (view cf p) l ->
  cf_checks cf = false \/ Yasai.ply cf p + N.of_nat (List.length l) <= 65535 ->
  exists q, exec cf (probe l) p = Some (true, q) /\ do_line cf p (firstn 1 l) = Some q.
Proof.
  intros R SM BK L B.
  assert (D : decent (view cf p)).
  { split; [exact (reach_valid cf ms p R)|]. split; [apply reach_hand_ok|]. split; assumption. }
  set (t := mkT (view cf p) (Yasai.ply cf p) []). set (K := keyed (zt cf) ms).
  destruct (C64_client_refines cf (probe l) ms p R) as [a [q [t' [E [P [_ [_ Q]]]]]]].
  { fold t K. unfold probe. constructor. constructor.
    - apply there_keeps; [exact D|exact L|exact B|]. constructor. constructor.
    - intros b u _. destruct l as [|m l]; [constructor|]. destruct L as [L1 _]. constructor; [exact L1| |intros _; apply roomy_standard, D|].
      + destruct B as [B|B]; [tauto|right]. cbn [List.length] in B. lia.
      + constructor. constructor. }
  fold t K in P. unfold probe in P.
  inversion P as [| | | | | | | | | | |? ? ? ? P1|]; subst. clear P.
  inversion P1 as [| | | | | | | | | | | |? ? ? b u ? ? Pc P2]; subst. clear P1.
  apply there_plays in Pc. inversion Pc as [| | | | | | | | | | |? ? ? ? Pd|]; subst. clear Pc. inversion Pd; subst. clear Pd.
  rewrite (proj2 (same_keys_spec _ _) eq_refl) in P2. destruct l as [|m l].
  - inversion P2; subst. exists p. rewrite (Q eq_refl) in E. split; [exact E|reflexivity].
  - inversion P2 as [| | | | | | | |? ? g n h ? ? P3| | | |]; subst. clear P2.
    inversion P3 as [| | | | | | | | | | |? ? ? ? P4|]; subst. clear P3. inversion P4; subst. clear P4.
    assert (X : same_keys (keys_at K t) (keys_at K (mkT (play (view cf p) m) (next_ply (Yasai.ply cf p))
      [(m, view cf p, Yasai.ply cf p)])) = false).
    { apply not_true_is_false. intros X. apply same_keys_spec in X. apply (f_equal fst) in X.
      unfold K, keys_at, keyed in X. cbn [fst t_game t_past List.length t Nat.add] in X.
      apply (f_equal (fun x => N.testbit x 0)) in X. rewrite !N.lxor_spec, !board_hash_bit0 in X.
      rewrite Nat.odd_succ, <- Nat.negb_odd in X. destruct (Nat.odd (List.length ms)); discriminate. }
    rewrite X in E. exists q. split; [exact E|]. cbn [firstn do_line].
    cbn [probe exec] in E. revert E.
    destruct (Yasai.keys cf p) as [v|]; cbn [bind]; [|discriminate].
    destruct (exec cf (there (m :: l) _) p) as [r|]; cbn [bind]; [|discriminate].
    cbn [exec]. destruct (Yasai.do_move cf p m) as [q'|]; cbn [bind]; [|discriminate].
    destruct (Yasai.keys cf q') as [w|]; cbn [bind]; [|discriminate]. intros [= _ ->]. reflexivity.
Qed.
Print Assumptions C64_probe.

(* from the start position, three moves there and back *)
Definition out : list move :=
  [mv (n7, n7) (n7, n6) false; mv (n3, n3) (n3, n4) false; mv (n8, n8) (n2, n2) true].
Example C64_probe_example cf : exists p q,
  Yasai.new cf startpos = Some p /\ exec cf (probe out) p = Some (true, q) /\
  Yasai.do_move cf p (mv (n7, n7) (n7, n6) false) = Some q.
Proof.
  destruct (demo_new cf startpos startpos_ok) as [p [l [N [R [G [Y _]]]]]].
  destruct (C64_probe cf [] p out R (demo_std cf _ p startpos_ok G)) as [q [E D]].
  - rewrite G. intros []; [exists (Sq n5 n9)|exists (Sq n5 n1)]; reflexivity.
  - rewrite G. apply legal_lineb_spec. vm_compute. reflexivity.
  - right. rewrite Y. vm_compute. discriminate.
  - exists p, q. split; [exact N|]. split; [exact E|]. cbn [out firstn do_line] in D.
    destruct (Yasai.do_move cf p _) as [q'|]; [exact D|discriminate].
Qed.

(* One such program: the solver of mate problems, of any depth.  It finds out
   whether there is a forced mate by checks, and puts the position back.  The
   attacker needs no king, as in most mate problems. *)
Theorem C64_mate_solver cf d ms p :
  reachable cf ms p -> standard_material (view cf p) -> opponent_has_king (view cf p) ->
  cf_checks cf = false \/ Yasai.ply cf p + 2 * N.of_nat d <= 65535 ->
  exists b, exec cf (solve d Ret) p = Some (b, p) /\ (b = true <-> forced d (view cf p)).
Proof.
  intros R SM OK B.
  destruct (C64_client_refines cf (solve d Ret) ms p R) as [a [q [t' [E [P [_ [_ Q]]]]]]].
  { refine (solve_safe (keyed (zt cf) ms) (cf_checks cf) d (mkT (view cf p) (Yasai.ply cf p) [])
      (reach_valid cf ms p R) (reach_hand_ok cf p) SM OK B Ret _). intros b _. constructor. }
  apply solve_finds in P as [b [Hb P]]. inversion P; subst. cbn [t_past] in Q.
  rewrite (Q eq_refl) in E. exists a. split; [exact E|exact Hb].
Qed.
Print Assumptions C64_mate_solver.

(* a mate in two moves, and not in one *)
Definition problem := sfen "6k2/6p2/7S1/6P2/9/9/9/9/9" Black "BG".
Lemma problem_ok : demo_okb problem [] = true.
Proof. vm_compute. reflexivity. Qed.
Lemma problem_kings : opponent_has_king (game_of problem) /\ ~ both_kings (game_of problem).
Proof.
  split; [exists (Sq n3 n1); vm_compute; reflexivity|]. intros H. destruct (H Black) as [s E].
  assert (T : existsb (fun s => is_piece (g_board (game_of problem) s) (mkP King Black)) all_squares = true).
  { apply existsb_exists. exists s. split; [apply all_squares_in|]. apply is_piece_spec. exact E. }
  vm_compute in T. discriminate.
Qed.

Definition solved (cf : config) (d : nat) : option bool :=
  let* p := Yasai.new cf problem in let* r := exec cf (solve d Ret) p in Some (fst r).
Lemma some_solved : let cf := mkCfg X86_64 true (fun i => i) in
  solved cf 1 = Some false /\ solved cf 2 = Some true.
Proof. vm_compute. split; reflexivity. Qed.

Example C64_example : ~ both_kings (game_of problem) /\
  forced 2 (game_of problem) /\ ~ forced 1 (game_of problem) /\
  forall cf, solved cf 2 = Some true /\ solved cf 1 = Some false.
Proof.
  assert (X : forall cf d, (d <= 2)%nat -> exists b, solved cf d = Some b /\ (b = true <-> forced d (game_of problem))).
  { intros cf d D. destruct (demo_new cf problem problem_ok) as [p [l [N [R [G [Y _]]]]]].
    destruct (C64_mate_solver cf d [] p R (demo_std cf _ p problem_ok G)) as [b [E H]].
    { rewrite G. apply problem_kings. }
    { right. rewrite Y. change (pp_ply problem) with 1. lia. }
    exists b. unfold solved. rewrite N. cbn [bind]. rewrite E. rewrite G in H. split; [reflexivity|exact H]. }
  destruct some_solved as [S1 S2]. set (c0 := mkCfg X86_64 true (fun i => i)) in *.
  assert (F2 : forced 2 (game_of problem)).
  { destruct (X c0 2%nat) as [b [E H]]; [lia|]. apply H. rewrite S2 in E. injection E as <-. reflexivity. }
  assert (F1 : ~ forced 1 (game_of problem)).
  { destruct (X c0 1%nat) as [b [E H]]; [lia|]. intros F. apply H in F. subst b. rewrite S1 in E. discriminate. }
  split; [apply problem_kings|]. split; [exact F2|]. split; [exact F1|]. intros cf. split.
  - destruct (X cf 2%nat) as [b [E H]]; [lia|]. rewrite E. f_equal. apply H. exact F2.
  - destruct (X cf 1%nat) as [b [E H]]; [lia|]. rewrite E. f_equal. destruct b; [|reflexivity].
    exfalso. apply F1. apply H. reflexivity.
Qed.
