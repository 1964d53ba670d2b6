(** * C74: repetition of positions *)

From Coq Require Import String List Bool Arith NArith ZArith Lia.
From Verif Require Import Types Rules Bitboard Tables Zobrist Position Movegen Api Sfen Squares
  ValidPlay Moves Reach Decide Lines PerftSpec Witness Repeat Distinct PropDistinct PropKeys
  Collide PropCollide Count PropRare StdRng SeedTable Siblings PropSeed.
Import ListNotations.
Local Open Scope string_scope.
Local Open Scope list_scope.
Local Open Scope nat_scope.

Local Opaque attack_info_new calculate_checkers N.pow crate_rng crate_table.

(** C74, the rule itself: every sequence of moves has exactly one verdict. *)
Definition no_movesb (g : game) : bool := forallb (fun m => negb (legalb g m)) every_move.
Lemma no_moves_dec g : no_moves g \/ ~ no_moves g.
Proof.
  destruct (no_movesb g) eqn:E; unfold no_movesb in E.
  - left. intros m L. rewrite forallb_forall in E. specialize (E m (every_move_in m)).
    rewrite (proj2 (legalb_spec g m) L) in E. discriminate.
  - right. intros N. apply forallb_not in E as [m [_ E]]. apply negb_false_iff, legalb_spec in E. exact (N m E).
Qed.
Lemma same_gameb_iff g h : same_gameb g h = true <-> same_game g h.
Proof.
  split; [apply same_gameb_spec|]. intros [B [H S]]. unfold same_gameb. rewrite !andb_true_iff, !forallb_forall.
  split; [split|].
  - intros s _. rewrite B. destruct (g_board h s) as [x|]; [|reflexivity]. destruct (piece_eqb_spec x x); congruence.
  - intros c _. apply forallb_forall. intros k _. rewrite H. apply N.eqb_refl.
  - rewrite S. destruct (g_side h); reflexivity.
Qed.
Lemma fourfold_dec g ms n : fourfold g ms n \/ ~ fourfold g ms n.
Proof.
  set (f := fun i => same_gameb (after g ms i) (after g ms n)).
  assert (X : 4 <= List.length (filter f (seq 0 (S n))) <-> fourfold g ms n).
  { rewrite count_four. unfold fourfold. 
    assert (Y : forall i, (exists e, nth_error (seq 0 (S n)) i = Some e /\ f e = true) <->
                          i <= n /\ same_game (after g ms i) (after g ms n)).
    { intros i. unfold f. setoid_rewrite same_gameb_iff. split.
      - intros [e [E G]]. assert (B : i < S n).
        { rewrite <- (seq_length (S n) 0). apply nth_error_Some. rewrite E. discriminate. }
        apply (nth_error_nth _ _ 0) in E. rewrite seq_nth in E by exact B. cbn in E. subst e. split; [lia|exact G].
      - intros [B G]. exists i. split; [|exact G]. rewrite (nth_error_nth' _ 0) by (rewrite seq_length; lia).
        rewrite seq_nth by lia. reflexivity. }
    split; intros [I [N [E H]]]; exists I; (split; [exact N|]); (split; [exact E|]); intros i K; apply Y, H, K. }
  destruct (le_lt_dec 4 (List.length (filter f (seq 0 (S n))))) as [L|L]; [left; tauto|].
  right. intros F. apply X in F. lia.
Qed.
Definition perpetualb (g : game) (ms : list move) (n : nat) (c : color) : bool :=
  forallb (fun j => forallb (fun i =>
    negb ((j <=? i) && same_gameb (after g ms j) (after g ms n) && color_eqb (g_side (after g ms i)) (flip c)) ||
    in_checkb (g_board (after g ms i)) (flip c)) (seq 0 (S n))) (seq 0 (S n)).
Lemma perpetualb_spec g ms n c : perpetualb g ms n c = true <-> perpetual g ms n c.
Proof.
  unfold perpetualb. rewrite forallb_forall. setoid_rewrite forallb_forall. split.
  - intros H j i L B G S. specialize (H j ltac:(apply in_seq; lia) i ltac:(apply in_seq; lia)).
    rewrite (proj2 (Nat.leb_le j i) L), (proj2 (same_gameb_iff _ _) G), S in H.
    apply in_checkb_spec. destruct c; exact H.
  - intros H j Bj i Bi. apply in_seq in Bi. destruct (Nat.leb_spec j i) as [L|]; [|reflexivity].
    destruct (same_gameb (after g ms j) (after g ms n)) eqn:G; [|reflexivity].
    destruct (color_eqb_spec (g_side (after g ms i)) (flip c)) as [S|]; [|reflexivity]. cbn [andb negb orb].
    apply in_checkb_spec. apply (H j i L ltac:(lia)); [apply same_gameb_iff; exact G|exact S].
Qed.
Theorem C74_one_verdict g ms : exists n v, judged g ms n v /\
  forall n' v', judged g ms n' v' -> n' = n /\ v' = v.
Proof.
  assert (X : forall rest n, rest = skipn n ms -> n <= List.length ms -> legal_line g (firstn n ms) ->
    (forall i, i < n -> going g ms i) -> exists n' v, judged g ms n' v).
  { induction rest as [|m rest IH]; intros n Er Bn L Go;
      (destruct (no_moves_dec (after g ms n)) as [N|N]; [exists n, NoMoves; apply J_none; assumption|]);
      (destruct (fourfold_dec g ms n) as [F|F];
       [exists n, (Repeated (perpetualb g ms n Black) (perpetualb g ms n White));
        apply J_rep; try assumption; apply perpetualb_spec|]);
      (assert (Go' : forall i, i <= n -> going g ms i);
       [intros i Bi; destruct (Nat.eq_dec i n) as [->|]; [split; assumption|apply Go; lia]|]).
    - assert (E : List.length ms = n).
      { apply (f_equal (@List.length move)) in Er. rewrite skipn_length in Er. cbn in Er. lia. }
      exists n, Ongoing. apply J_ongoing; [congruence| |exact Go']. rewrite <- (firstn_all ms), E. exact L.
    - assert (Hm : nth_error ms n = Some m).
      { rewrite <- (firstn_skipn n ms), <- Er, nth_error_app2; rewrite firstn_length_le by lia; [|lia].
        rewrite Nat.sub_diag. reflexivity. }
      destruct (legalb (after g ms n) m) eqn:Lm.
      + apply legalb_spec in Lm. apply (IH (S n)).
        * clear - Er. revert n Er. generalize ms. intros l0.
          induction l0 as [|a l0 IHl]; intros [|n] Er; cbn in *; try congruence. apply IHl, Er.
        * apply Nat.lt_eq_cases in Bn as [Bn| ->]; [lia|].
          rewrite (proj2 (nth_error_None ms _)) in Hm by lia. discriminate.
        * rewrite (firstn_snoc ms n m Hm). apply legal_line_app. split; [exact L|]. cbn. tauto.
        * intros i Bi. apply Go'. lia.
      + exists n, Illegal. apply (J_illegal g ms n m); try assumption. intros Z.
        apply legalb_spec in Z. congruence. }
  destruct (X ms 0) as [n [v J]]; [reflexivity|lia|exact I|intros i B; lia|].
  exists n, v. split; [exact J|]. intros n' v' J'. exact (judged_unique g ms n' v' n v J' J).
Qed.
Print Assumptions C74_one_verdict.

(** A position comes back after an even number of moves and after four at the
    earliest, and it is there for the fourth time after twelve at the earliest. *)
Theorem C74_earliest g : (forall l, legal_line g l -> l <> [] -> same_game (play_line g l) g ->
    Nat.even (List.length l) = true /\ 4 <= List.length l) /\
  (forall ms n, n <= List.length ms -> legal_line g (firstn n ms) -> fourfold g ms n -> 12 <= n).
Proof. split; [apply no_early_return|apply fourfold_late]. Qed.
Print Assumptions C74_earliest.

(** If the positions of the game have different keys when they are different, the
    referee gives the verdict of the rule. *)
Theorem C74_referee cf ms0 p ms n v : reachable cf ms0 p ->
  (forall i j qi qj, i <= List.length ms -> j <= List.length ms ->
     legal_line (view cf p) (firstn i ms) -> legal_line (view cf p) (firstn j ms) ->
     do_line cf p (firstn i ms) = Some qi -> do_line cf p (firstn j ms) = Some qj ->
     Yasai.key cf qi = Yasai.key cf qj -> same_game (view cf qi) (view cf qj)) ->
  referee cf ms p [] 0 = Some (n, v) -> judged (view cf p) ms n v.
Proof.
  intros R F E. apply (referee_right cf ms0 p R ms ms 0 p [] n v); auto.
  - lia.
  - exact I.
  - split; [reflexivity|]. intros [|i] e; discriminate.
  - intros i B. lia.
Qed.
Print Assumptions C74_referee.

(** Whatever the keys are, no repetition is missed: a wrong verdict can only be that
    of a repetition, and it comes at the end of the game at the latest. *)
Theorem C74_never_missed cf ms0 p ms n v n' v' : reachable cf ms0 p ->
  referee cf ms p [] 0 = Some (n, v) -> judged (view cf p) ms n' v' ->
  (n = n' /\ v = v') \/ (n <= n' /\ exists b w, v = Repeated b w).
Proof.
  intros R E J.
  destruct (referee_right cf ms0 p R ms ms 0 p [] n v) as [S _]; auto.
  - lia.
  - exact I.
  - split; [reflexivity|]. intros [|i] e; discriminate.
  - intros i B. lia.
  - destruct v as [| |b w|]; try (left; exact (judged_unique _ _ _ _ _ _ S J)).
    right. split; [|eauto]. destruct S as [B [L [Go N]]].
    destruct (le_lt_dec n n') as [Q|Q]; [exact Q|exfalso].
    exact (judged_stop _ _ _ _ n J Q B L Go).
Qed.
Print Assumptions C74_never_missed.

(** It does not panic. *)
Theorem C74_no_panic cf ms0 p ms : reachable cf ms0 p -> standard_material (view cf p) ->
  both_kings (view cf p) ->
  cf_checks cf = false \/ (Yasai.ply cf p + N.of_nat (List.length ms) <= 65535)%N ->
  referee cf ms p [] 0 <> None.
Proof. intros R. apply referee_total. eauto. Qed.
Print Assumptions C74_no_panic.

(** For a game of [n] moves at most the part n (n + 1) / 2^64 of all tables of random
    numbers leads to a wrong verdict. *)
Lemma prefix_le {A} i (l : list A) : List.length (firstn i l) <= List.length l.
Proof. rewrite firstn_length. lia. Qed.
Theorem C74_rare be ck pp ms (bad : (N -> N) -> bool) :
  valid (game_of pp) -> standard_material (game_of pp) -> both_kings (game_of pp) ->
  (pp_ply pp + N.of_nat (List.length ms) <= 65535)%N ->
  (forall rng, bad rng = true -> let cf := mkCfg be ck rng in
     ~ exists p n v, Yasai.new cf pp = Some p /\ referee cf ms p [] 0 = Some (n, v) /\
         judged (game_of pp) ms n v) ->
  let n := N.of_nat (List.length ms) in
  (count_tables bad * 2 ^ 64 <= n * (n + 1) * (2 ^ 64) ^ 2520)%N.
Proof.
  intros V SM BK Py H n. set (g := game_of pp).
  set (L := map (fun i => (pp, firstn i ms)) (filter (fun i => legal_lineb g (firstn i ms)) (seq 0 (S (List.length ms))))).
  assert (InL : forall i, i <= List.length ms -> legal_line g (firstn i ms) -> In (pp, firstn i ms) L).
  { intros i B Li. unfold L. apply in_map_iff. exists i. split; [reflexivity|]. apply filter_In.
    split; [apply in_seq; lia|]. apply legal_lineb_spec. exact Li. }
  assert (GL : forall a, In a L -> game_line (fst a) (snd a)).
  { intros a I. unfold L in I. apply in_map_iff in I as [i [<- I]]. apply filter_In in I as [_ I].
    apply legal_lineb_spec in I. cbn [fst snd]. apply standard_line; try assumption.
    pose proof (prefix_le i ms). lia. }
  assert (LenL : List.length L <= S (List.length ms)).
  { unfold L. rewrite map_length. etransitivity; [apply filter_length_le|]. rewrite seq_length. lia. }
  assert (X : (count_tables bad * 2 ^ 64 <=
    N.of_nat (List.length L) * (N.of_nat (List.length L) - 1) * (2 ^ 64) ^ 2520)%N).
  { apply (C73_collisions_rare be ck L bad GL). intros rng E. apply H in E.
    set (cf := mkCfg be ck rng) in *. apply matched_any; [exact GL|].
    destruct (existsb (matched cf) (pairs L)) eqn:M; [reflexivity|exfalso]. apply E.
    destruct (start_reachable cf pp V SM ltac:(lia)) as [p [N [R [Ev Ep]]]].
    assert (T : referee cf ms p [] 0 <> None).
    { apply (C74_no_panic cf [] p ms R); rewrite ?Ev; try assumption. right. rewrite Ep. exact Py. }
    destruct (referee cf ms p [] 0) as [[n1 v1]|] eqn:Er; [|congruence].
    exists p, n1, v1. split; [exact N|]. split; [exact Er|]. rewrite <- Ev.
    apply (C74_referee cf [] p ms n1 v1 R); [|exact Er].
    intros i j qi qj Bi Bj Li Lj Di Dj K. rewrite Ev in Li, Lj. fold g in Li, Lj.
    pose proof (prefix_le i ms). pose proof (prefix_le j ms).
    destruct (after_line cf pp _ p qi V ltac:(lia) Li N Di) as [R1 G1].
    destruct (after_line cf pp _ p qj V ltac:(lia) Lj N Dj) as [R2 G2].
    assert (NA : ~ apart (pp, firstn i ms) (pp, firstn j ms)).
    { intros A. apply not_true_iff_false in M. apply M, matched_any; [exact GL|].
      exists (pp, firstn i ms), (pp, firstn j ms). split; [apply InL; assumption|].
      split; [apply InL; assumption|]. split; [exact A|].
      cbn [fst snd]. unfold key_after. rewrite N. cbn [bind]. rewrite Di, Dj. exact K. }
    assert (Q : apartb (pp, firstn i ms) (pp, firstn j ms) = false).
    { apply not_true_is_false. intros Z. apply NA, apartb_spec, Z. }
    unfold apartb in Q. apply negb_false_iff, same_gameb_spec in Q as [Qb [Qh Qs]].
    cbn [fst snd g_board g_hand g_side] in Qb, Qh, Qs.
    apply (same_trans _ _ _ G1), same_sym, (same_trans _ _ _ G2). split; [|split].
    - intros s. symmetry. apply Qb.
    - intros c k. symmetry. apply Qh.
    - rewrite !play_line_side. destruct (Nat.odd (List.length (firstn i ms))), (Nat.odd (List.length (firstn j ms))); congruence. }
  etransitivity; [exact X|]. apply N.mul_le_mono_r.
  revert LenL. unfold n. clear. generalize (List.length L) (List.length ms). intros a b Le.
  assert (Y : (N.of_nat a <= N.of_nat b + 1)%N) by lia.
  rewrite (N.mul_comm (N.of_nat b)). apply N.mul_le_mono; lia.
Qed.
Print Assumptions C74_rare.

(** Without different keys it fails: with a table of zeros the referee sees a
    repetition that is not there. *)
Definition shuffle : list move :=
  [mv (n2, n8) (n3, n8) false; mv (n8, n2) (n7, n2) false;
   mv (n3, n8) (n4, n8) false; mv (n7, n2) (n6, n2) false;
   mv (n4, n8) (n5, n8) false; mv (n6, n2) (n5, n2) false].
Definition zeros : config := mkCfg Portable true (fun _ => 0%N).
Definition run_referee (cf : config) (pp : partial) (ms : list move) : option (nat * verdict) :=
  let* p := Yasai.new cf pp in referee cf ms p [] 0.
Lemma zeros_repeated : run_referee zeros startpos shuffle = Some (6, Repeated false false).
Proof. vm_compute. reflexivity. Qed.
Theorem C74_keys_needed_refuted : exists p n v, Yasai.new zeros startpos = Some p /\ reachable zeros [] p /\
  legal_line (view zeros p) shuffle /\ referee zeros shuffle p [] 0 = Some (n, v) /\
  ~ judged (view zeros p) shuffle n v /\ judged (view zeros p) shuffle 6 Ongoing.
Proof.
  destruct (demo_new zeros startpos startpos_ok) as [p [l [N [R [G _]]]]].
  pose proof zeros_repeated as Z. unfold run_referee in Z. rewrite N in Z. cbn [bind] in Z.
  assert (L : legal_line (view zeros p) shuffle).
  { rewrite G. apply legal_lineb_spec. vm_compute. reflexivity. }
  exists p, 6, (Repeated false false). split; [exact N|]. split; [exact R|]. split; [exact L|]. split; [exact Z|].
  assert (NF : forall i, i <= 6 -> ~ fourfold (view zeros p) shuffle i).
  { intros i B F. apply fourfold_late in F; [lia|exact B|].
    apply (legal_firstn _ shuffle i 6 B). exact L. }
  split.
  - intros J. inversion J as [|n b w B Lf Go Nm F Hb Hw| |]; subst. exact (NF 6 (le_n 6) F).
  - apply J_ongoing; [reflexivity|exact L|]. intros i B. split; [|apply NF; exact B]. rewrite G. intros NM.
    assert (X : forallb (fun i => negb (no_movesb (after (game_of startpos) shuffle i))) (seq 0 7) = true)
      by (vm_compute; reflexivity).
    rewrite forallb_forall in X. specialize (X i ltac:(apply in_seq; lia)). apply negb_true_iff in X.
    apply forallb_not in X as [m [_ X]]. apply negb_false_iff, legalb_spec in X. exact (NM m X).
Qed.
Print Assumptions C74_keys_needed_refuted.

(* a rook that gives check with every move, and its king that runs to and fro *)
Definition chase := sfen "4k4/9/9/9/5R3/9/9/9/K8" Black "-".
Definition chase_moves : list move :=
  let round := [mv (n4, n5) (n5, n5) false; mv (n5, n1) (n4, n1) false;
                mv (n5, n5) (n4, n5) false; mv (n4, n1) (n5, n1) false] in
  round ++ round ++ round ++ round.
Lemma chase_ok : demo_okb chase chase_moves = true.
Proof. vm_compute. reflexivity. Qed.
Lemma chase_seeded : run_referee (mkCfg Portable true crate_rng) chase chase_moves = Some (12, Repeated true false).
Proof. vm_compute. reflexivity. Qed.
Lemma chase_going : forallb (fun i => negb (no_movesb (after (game_of chase) chase_moves i))) (seq 0 17) = true.
Proof. vm_compute. reflexivity. Qed.
Lemma chase_fourfold : forallb (fun i => same_gameb (after (game_of chase) chase_moves i)
  (after (game_of chase) chase_moves 12)) [0; 4; 8; 12] = true.
Proof. vm_compute. reflexivity. Qed.
Lemma chase_black : perpetualb (game_of chase) chase_moves 12 Black = true.
Proof. vm_compute. reflexivity. Qed.
Lemma chase_white : perpetualb (game_of chase) chase_moves 12 White = false.
Proof. vm_compute. reflexivity. Qed.
(* the verdict of the rule, and that of the referee with the random numbers of the crate *)
Example C74_example : judged (game_of chase) chase_moves 12 (Repeated true false) /\
  run_referee (mkCfg Portable true crate_rng) chase chase_moves = Some (12, Repeated true false).
Proof.
  split; [|exact chase_seeded].
  pose proof chase_ok as Ok. unfold demo_okb in Ok. rewrite !andb_true_iff in Ok. destruct Ok as [[[_ L] _] _].
  apply legal_lineb_spec in L.
  assert (Lp : forall i, i <= 16 -> legal_line (game_of chase) (firstn i chase_moves)).
  { intros i B. apply (legal_firstn _ _ i 16 B). exact L. }
  assert (NM : forall i, i <= 16 -> ~ no_moves (after (game_of chase) chase_moves i)).
  { intros i B N. pose proof chase_going as X. rewrite forallb_forall in X.
    specialize (X i ltac:(apply in_seq; lia)). apply negb_true_iff in X.
    apply forallb_not in X as [m [_ X]]. apply negb_false_iff, legalb_spec in X. exact (N m X). }
  apply J_rep.
  - cbn. lia.
  - apply Lp. lia.
  - intros i B. split; [apply NM; lia|]. intros F. apply fourfold_late in F; [lia|cbn; lia|apply Lp; lia].
  - apply NM. lia.
  - exists [0; 4; 8; 12]. split; [repeat constructor; cbn; lia|]. split; [reflexivity|]. intros i I. split.
    + cbn in I. lia.
    + apply same_gameb_spec. pose proof chase_fourfold as X. rewrite forallb_forall in X. apply X, I.
  - rewrite <- perpetualb_spec, chase_black. tauto.
  - rewrite <- perpetualb_spec, chase_white. tauto.
Qed.
(* the hypotheses of the theorems for this game *)
Example C74_example_rare be ck bad :
  (forall rng, bad rng = true -> let cf := mkCfg be ck rng in
     ~ exists p n v, Yasai.new cf chase = Some p /\ referee cf chase_moves p [] 0 = Some (n, v) /\
         judged (game_of chase) chase_moves n v) ->
  (count_tables bad * 2 ^ 64 <= 16 * 17 * (2 ^ 64) ^ 2520)%N.
Proof.
  intros H. pose proof chase_ok as Ok. unfold demo_okb in Ok. rewrite !andb_true_iff in Ok.
  destruct Ok as [[[[V M] _] _] _]. apply validb_spec in V. apply standardb_spec in M.
  apply (C74_rare be ck chase chase_moves bad V M); [|vm_compute; discriminate|exact H].
  intros []; [exists (Sq n9 n9)|exists (Sq n5 n1)]; reflexivity.
Qed.
