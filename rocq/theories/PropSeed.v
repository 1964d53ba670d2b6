(** * C66: the keys with the random numbers that the crate uses *)

From Coq Require Import String List Bool NArith ZArith Lia.
From Verif Require Import Types Rules Bitboard BackendCore BackendSimd Tables Zobrist Position Movegen
  Api Sfen Squares ValidPlay Hash Reach Decide Lines Facts Witness Collide PropPlay PropKeys
  StdRng SeedTable Digits Siblings SiblingsSpec.
Import ListNotations.

Local Opaque attack_info_new calculate_checkers crate_rng crate_table.

(* the crate as it is: the table filled from StdRng::seed_from_u64(2022) *)
Definition seeded (b : backend) (ck : bool) : config := mkCfg b ck crate_rng.

Lemma seeded_key b ck ms p : reachable (seeded b ck) ms p ->
  Yasai.key (seeded b ck) p =
  Some (N.lxor (hash crate_table (view (seeded b ck) p)) (if Nat.odd (length ms) then 1%N else 0%N)).
Proof.
  intros R. rewrite (C13_key_from_scratch _ ms p R). f_equal. unfold hash.
  change (zt (seeded b ck)) with crate_table.
  change (g_board (view (seeded b ck) p)) with (Yasai.piece_at (seeded b ck) p).
  change (g_hand (view (seeded b ck) p)) with (fun c k => hand_n (Yasai.hand (seeded b ck) p c) k).
  generalize (board_hash crate_table (Yasai.piece_at (seeded b ck) p))
    (hand_hash crate_table (fun c k => hand_n (Yasai.hand (seeded b ck) p c) k)).
  intros x y. destruct (Nat.odd (length ms)); xors.
Qed.
Lemma hash_same z g h : same_game g h -> hash z g = hash z h.
Proof.
  intros [B [H _]]. unfold hash. rewrite (board_hash_ext z _ _ B), (hand_hash_ext z _ _ H). reflexivity.
Qed.

(** C66: in every position of every game, the positions after two different
    legal moves have different keys. *)
Theorem C66_siblings b ck ms p l m1 m2 q1 q2 :
  let cf := seeded b ck in
  reachable cf ms p -> standard_material (view cf p) ->
  Yasai.legal_moves cf p = Some l -> In m1 l -> In m2 l -> m1 <> m2 ->
  Yasai.do_move cf p m1 = Some q1 -> Yasai.do_move cf p m2 = Some q2 ->
  Yasai.key cf q1 <> Yasai.key cf q2.
Proof.
  intros cf R M L I1 I2 N D1 D2.
  apply (api_legal_moves cf ms p l R L) in I1. apply (api_legal_moves cf ms p l R L) in I2.
  pose proof (api_do_move cf ms p m1 q1 R I1 D1) as G1.
  pose proof (api_do_move cf ms p m2 q2 R I2 D2) as G2.
  pose proof (seeded_key b ck (m1 :: ms) q1 (R_do cf ms p m1 q1 R I1 D1)) as K1.
  pose proof (seeded_key b ck (m2 :: ms) q2 (R_do cf ms p m2 q2 R I2 D2)) as K2.
  fold cf in K1, K2. rewrite K1, K2.
  rewrite (hash_same _ _ _ G1), (hash_same _ _ _ G2). cbn [length]. intros E.
  apply some_inj in E.
  apply (siblings_differ (view cf p) m1 m2); try assumption;
    [exact (reach_valid cf ms p R)|exact (reach_hand_ok cf p)|].
  revert E.
  generalize (hash crate_table (play (view cf p) m1)) (hash crate_table (play (view cf p) m2)).
  generalize (if Nat.odd (S (length ms)) then 1%N else 0%N). intros t x y E.
  apply (f_equal (fun u => N.lxor u t)) in E. rewrite !N.lxor_assoc, N.lxor_nilpotent, !N.lxor_0_r in E. exact E.
Qed.
Print Assumptions C66_siblings.

(** A position never gets the key of a position one, two or three moves before:
    no repetition is reported that is not there. *)
Theorem C66_no_early_repetition b ck ms p l q :
  let cf := seeded b ck in
  reachable cf ms p -> standard_material (view cf p) ->
  legal_line (view cf p) l -> (1 <= length l <= 3)%nat ->
  do_line cf p l = Some q ->
  Yasai.key cf q <> Yasai.key cf p.
Proof.
  intros cf R M L Len D.
  destruct (do_line_spec cf l ms p q R L D) as [R' [G _]].
  pose proof (seeded_key b ck ms p R) as K1. pose proof (seeded_key b ck _ q R') as K2.
  fold cf in K1, K2. rewrite K1, K2.
  rewrite (hash_same _ _ _ G), app_length, rev_length. intros E. apply some_inj in E.
  assert (B0 : forall g, N.testbit (hash crate_table g) 0 = false).
  { intros g. unfold hash. rewrite N.lxor_spec.
    assert (B : N.testbit (board_hash crate_table (g_board g)) 0 = false) by (apply clean_board; left; reflexivity).
    assert (H : N.testbit (hand_hash crate_table (g_hand g)) 0 = false) by (apply clean_hand; left; reflexivity).
    rewrite B, H. reflexivity. }
  assert (Odd : Nat.odd (length l) = true -> False).
  { intros O. apply (f_equal (fun x => N.testbit x 0)) in E. rewrite !N.lxor_spec, !B0 in E.
    rewrite Nat.odd_add, O in E. destruct (Nat.odd (length ms)); discriminate E. }
  destruct l as [|m1 [|m2 [|m3 [|m4 l]]]]; cbn [length] in *; try lia; try (apply Odd; reflexivity).
  destruct L as [L1 [L2 _]].
  apply (grandchild_differs (view cf p) m1 m2); try assumption;
    [exact (reach_valid cf ms p R)|exact (reach_hand_ok cf p)|].
  cbn [play_line fold_left] in E. rewrite Nat.odd_add in E.
  change (Nat.odd 2) with false in E. rewrite xorb_false_l in E. revert E.
  generalize (hash crate_table (play (play (view cf p) m1) m2)) (hash crate_table (view cf p)).
  generalize (if Nat.odd (length ms) then 1%N else 0%N). intros t x y E.
  apply (f_equal (fun u => N.lxor u t)) in E. rewrite !N.lxor_assoc, N.lxor_nilpotent, !N.lxor_0_r in E. exact E.
Qed.
Print Assumptions C66_no_early_repetition.

(** Every entry of the table is different from the others and from 0: positions
    that differ in the contents of one square have different keys. *)
Lemma entries_distinct : NoDup (code 20 0 :: concat board_rows ++ concat hand_rows).
Proof. apply (nodup_spec 20). vm_compute. reflexivity. Qed.

Lemma bq_in s c k : In (bq s c k) (concat board_rows ++ concat hand_rows).
Proof.
  assert (H : forallb (fun s => forallb (fun c => Nat.eqb (length (brow s c)) 14 &&
     Nat.ltb (2 * si s + ci c) (length board_rows)) all_colors) all_squares = true) by (vm_compute; reflexivity).
  rewrite forallb_forall in H. specialize (H s (all_squares_in s)).
  rewrite forallb_forall in H. specialize (H c (all_colors_in c)).
  apply andb_true_iff in H as [H1 H2]. apply Nat.eqb_eq in H1. apply Nat.ltb_lt in H2.
  apply in_or_app. left. apply in_concat. exists (brow s c). split; [apply nth_In; exact H2|].
  apply nth_In. rewrite H1. apply ki_lt.
Qed.

Lemma bq_inj s c k c' k' : bq s c k = bq s c' k' -> c = c' /\ k = k'.
Proof.
  assert (H : forall s, NoDup (brow s Black ++ brow s White) /\ length (brow s Black) = 14%nat /\ length (brow s White) = 14%nat).
  { assert (C : forallb (fun s => nodup 20 (brow s Black ++ brow s White) && Nat.eqb (length (brow s Black)) 14
       && Nat.eqb (length (brow s White)) 14) all_squares = true) by (vm_compute; reflexivity).
    intros u. rewrite forallb_forall in C. specialize (C u (all_squares_in u)).
    rewrite !andb_true_iff, !Nat.eqb_eq in C. destruct C as [[C L1] L2]. apply nodup_spec in C. tauto. }
  destruct (H s) as [ND [L1 L2]]. pose proof (ki_lt k) as Kk. pose proof (ki_lt k') as Kk'.
  intros E.
  assert (P : forall c k, bq s c k = nth (14 * ci c + ki k) (brow s Black ++ brow s White) QE).
  { intros d j. pose proof (ki_lt j). unfold bq. destruct d; cbn [ci].
    - rewrite app_nth1 by lia. f_equal.
    - rewrite app_nth2 by lia. f_equal. lia. }
  rewrite !P in E. pose proof (ci_lt c). pose proof (ci_lt c').
  apply (proj1 (NoDup_nth _ QE) ND) in E; [|rewrite app_length; lia..].
  assert (ci c = ci c' /\ ki k = ki k') as [A B] by lia. split.
  - destruct c, c'; cbn in A; congruence.
  - destruct k, k'; cbn in B; congruence.
Qed.

Lemma dg_0 : dg 0 = code 20 0.
Proof. vm_compute. reflexivity. Qed.
Lemma entry_not_0 s p : z_board_entry crate_table s (pcolor p) (pkind p) <> 0%N.
Proof.
  intros E. apply (f_equal dg) in E. rewrite bq_spec, dg_0 in E.
  pose proof entries_distinct as ND. apply NoDup_cons_iff in ND as [ND _]. apply ND. rewrite <- E. apply bq_in.
Qed.
Lemma entry_differs s x y : x <> y ->
  N.lxor (piece_entry crate_table s x) (piece_entry crate_table s y) <> 0%N.
Proof.
  intros N E. apply N. apply N.lxor_eq in E.
  destruct x as [p|], y as [r|]; cbn [piece_entry] in E.
  - apply (f_equal dg) in E. rewrite !bq_spec in E. apply bq_inj in E as [A B].
    destruct p as [k c], r as [k' c']. cbn [pkind pcolor] in A, B. subst. reflexivity.
  - exfalso. exact (entry_not_0 s p E).
  - exfalso. exact (entry_not_0 s r (eq_sym E)).
  - reflexivity.
Qed.

Theorem C66_one_square b ck ms1 ms2 p q s :
  let cf := seeded b ck in
  reachable cf ms1 p -> reachable cf ms2 q ->
  Nat.odd (length ms1) = Nat.odd (length ms2) ->
  (forall u, u <> s -> Yasai.piece_at cf p u = Yasai.piece_at cf q u) ->
  Yasai.piece_at cf p s <> Yasai.piece_at cf q s ->
  (forall c k, hand_n (Yasai.hand cf p c) k = hand_n (Yasai.hand cf q c) k) ->
  Yasai.key cf p <> Yasai.key cf q.
Proof.
  intros cf R1 R2 Par B Ns H E.
  pose proof (seeded_key b ck ms1 p R1) as K1. pose proof (seeded_key b ck ms2 q R2) as K2.
  fold cf in K1, K2. rewrite K1, K2, Par in E. apply some_inj in E.
  apply (f_equal (fun u => N.lxor u (if Nat.odd (length ms2) then 1%N else 0%N))) in E.
  rewrite !N.lxor_assoc, N.lxor_nilpotent, !N.lxor_0_r in E. unfold hash in E.
  rewrite (hand_hash_ext crate_table (g_hand (view cf p)) (g_hand (view cf q)) H) in E.
  assert (Eb : board_hash crate_table (g_board (view cf p)) = board_hash crate_table (g_board (view cf q))).
  { revert E. generalize (hand_hash crate_table (g_hand (view cf q))).
    generalize (board_hash crate_table (g_board (view cf p))) (board_hash crate_table (g_board (view cf q))).
    intros x y h E. apply (f_equal (fun u => N.lxor u h)) in E.
    rewrite !N.lxor_assoc, N.lxor_nilpotent, !N.lxor_0_r in E. exact E. }
  rewrite (board_hash_ext crate_table (g_board (view cf p))
    (upd (g_board (view cf q)) s (g_board (view cf p) s))) in Eb.
  - rewrite board_hash_upd in Eb.
    assert (X : N.lxor (piece_entry crate_table s (g_board (view cf q) s)) (piece_entry crate_table s (g_board (view cf p) s)) = 0%N).
    { revert Eb. generalize (board_hash crate_table (g_board (view cf q))).
      generalize (N.lxor (piece_entry crate_table s (g_board (view cf q) s)) (piece_entry crate_table s (g_board (view cf p) s))).
      intros x h F. apply (f_equal (N.lxor h)) in F. rewrite <- N.lxor_assoc, N.lxor_nilpotent, N.lxor_0_l in F. exact F. }
    revert X. apply entry_differs. intros F. apply Ns. symmetry. exact F.
  - intros u. unfold upd. destruct (sq_eqb_spec u s) as [->|N]; [reflexivity|apply B, N].
Qed.
Print Assumptions C66_one_square.

(** The hypotheses hold in play: the start position and its 30 moves, two of
    them; the key of the start position is a fixed number. *)
Example C66_example b ck : let cf := seeded b ck in exists p l q1 q2,
  Yasai.new cf startpos = Some p /\ reachable cf [] p /\ standard_material (view cf p) /\
  Yasai.legal_moves cf p = Some l /\ In (mv (n7, n7) (n7, n6) false) l /\ In (mv (n2, n7) (n2, n6) false) l /\
  Yasai.do_move cf p (mv (n7, n7) (n7, n6) false) = Some q1 /\
  Yasai.do_move cf p (mv (n2, n7) (n2, n6) false) = Some q2.
Proof.
  intros cf. destruct (demo_new cf startpos startpos_ok) as [p [l [N [R [G [Y E]]]]]].
  assert (L : forall m, legal_lineb (game_of startpos) [m] = true -> legal (view cf p) m).
  { intros m H. apply legal_lineb_spec in H as [H _]. rewrite G. exact H. }
  assert (L1 := L (mv (n7, n7) (n7, n6) false) ltac:(vm_compute; reflexivity)).
  assert (L2 := L (mv (n2, n7) (n2, n6) false) ltac:(vm_compute; reflexivity)).
  assert (T : forall m, legal (view cf p) m -> exists q, Yasai.do_move cf p m = Some q).
  { intros m Lm. destruct (Yasai.do_move cf p m) as [q|] eqn:D; [eauto|].
    apply (api_do_total cf [] p m R (demo_std cf _ p startpos_ok G) Lm) in D as [_ D].
    rewrite Y in D. vm_compute in D. discriminate. }
  destruct (T _ L1) as [q1 D1]. destruct (T _ L2) as [q2 D2].
  exists p, l, q1, q2. split; [exact N|]. split; [exact R|]. split; [exact (demo_std cf _ p startpos_ok G)|].
  split; [exact E|]. split; [apply (api_legal_moves cf [] p l R E); exact L1|].
  split; [apply (api_legal_moves cf [] p l R E); exact L2|]. split; assumption.
Qed.
Local Transparent crate_rng crate_table.
Example C66_start_key b ck : (let* p := Yasai.new (seeded b ck) startpos in Yasai.keys (seeded b ck) p)
  = Some (3894553740374445858, 0)%N.
Proof. destruct b, ck; vm_compute; reflexivity. Qed.
(* it depends on the numbers: with a constant stream the two moves collide *)
Example C66_other_numbers : let cf := mkCfg Portable true (fun _ => 0%N) in
  let key_of m := let* p := Yasai.new cf startpos in let* q := Yasai.do_move cf p m in Yasai.key cf q in
  key_of (mv (n7, n7) (n7, n6) false) = Some 1%N /\ key_of (mv (n2, n7) (n2, n6) false) = Some 1%N.
Proof. split; vm_compute; reflexivity. Qed.
