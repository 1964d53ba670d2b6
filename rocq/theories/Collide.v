(** * How many tables make two positions collide *)

From Coq Require Import List Bool NArith ZArith Lia.
From Verif Require Import Types Rules Bitboard Zobrist Position Api Squares ValidPlay Hash Moves Reach Lines
  Distinct.
Import ListNotations.
Local Open Scope N_scope.

(* the stream [rng] with the draw at place [i] replaced by [v] *)
Definition set_draw (rng : N -> N) (i v : N) : N -> N := fun j => if j =? i then v else rng j.

(* the entry that a draw becomes *)
Definition entry (v : N) : N := N.ldiff (N.land v 0xffffffffffffffff) KEY_COLOR.

Lemma board_entry_set rng i v s c k : z_board_entry (zobrist_table (set_draw rng i v)) s c k =
  if board_index s c k =? i then entry v else z_board_entry (zobrist_table rng) s c k.
Proof.
  unfold zobrist_table, set_draw. cbn [z_board_entry]. fold (board_index s c k).
  destruct (board_index s c k =? i); reflexivity.
Qed.
Lemma hand_entry_set rng i v c k n : In k hand_kinds ->
  z_hand_entry (zobrist_table (set_draw rng i v)) c k n =
  if hand_index c k n =? i then entry v else z_hand_entry (zobrist_table rng) c k n.
Proof.
  intros I. unfold zobrist_table, set_draw. cbn [z_hand_entry]. fold (hand_index c k n).
  cbn [hand_kinds In] in I. decompose [or] I; subst; try contradiction;
    destruct (hand_index _ _ _ =? i); reflexivity.
Qed.

Lemma hand_kind_of_slot c k : In (c, k) hand_slots -> In k hand_kinds.
Proof. intros I. apply in_flat_map in I as [d [_ I]]. apply in_map_iff in I as [k' [[= _ <-] I]]. exact I. Qed.

(* the two hashes as functions of one draw *)
Lemma board_hash_set rng s x v b :
  let i := board_index s (pcolor x) (pkind x) in
  board_hash (zobrist_table (set_draw rng i v)) b =
  N.lxor (board_hash (zobrist_table (set_draw rng i 0)) b)
         (match b s with Some y => if piece_eqb y x then entry v else 0 | None => 0 end).
Proof.
  intros i. unfold board_hash.
  rewrite (xor_map_change _ (fun u => piece_entry (zobrist_table (set_draw rng i 0)) u (b u)) s _
             all_squares_NoDup (all_squares_in s)).
  - f_equal. unfold piece_entry. destruct (b s) as [y|]; [|reflexivity].
    rewrite !board_entry_set. unfold i.
    destruct (piece_eqb_spec y x) as [->|Nx].
    + rewrite N.eqb_refl. apply N.lxor_0_l.
    + destruct (N.eqb_spec (board_index s (pcolor y) (pkind y)) (board_index s (pcolor x) (pkind x))) as [E|].
      * apply board_index_inj in E as [_ [E1 E2]]. destruct x, y; cbn in *; congruence.
      * apply N.lxor_nilpotent.
  - intros u Nu. unfold piece_entry. destruct (b u) as [y|]; [|reflexivity].
    rewrite !board_entry_set. unfold i.
    destruct (N.eqb_spec (board_index u (pcolor y) (pkind y)) (board_index s (pcolor x) (pkind x))) as [E|];
      [|reflexivity].
    apply board_index_inj in E. tauto.
Qed.
Lemma hand_hash_set_board rng i v h : i < 2268 ->
  hand_hash (zobrist_table (set_draw rng i v)) h = hand_hash (zobrist_table rng) h.
Proof.
  intros L. rewrite !hand_hash_slots. apply xor_map_ext. intros [c k] I. cbn [fst snd].
  apply hand_kind_of_slot in I. unfold held_hash. apply xor_map_ext. intros j _.
  rewrite hand_entry_set by exact I.
  destruct (N.eqb_spec (hand_index c k (N.of_nat j)) i) as [E|]; [|reflexivity].
  unfold hand_index in E. lia.
Qed.
Lemma board_hash_set_hand rng i v b : 2268 <= i ->
  board_hash (zobrist_table (set_draw rng i v)) b = board_hash (zobrist_table rng) b.
Proof.
  intros L. unfold board_hash. apply xor_map_ext. intros s _. unfold piece_entry.
  destruct (b s) as [y|]; [|reflexivity]. rewrite board_entry_set.
  pose proof (board_index_lt s (pcolor y) (pkind y)).
  destruct (N.eqb_spec (board_index s (pcolor y) (pkind y)) i); [lia|reflexivity].
Qed.

Lemma held_hash_set rng c k n v m : In k hand_kinds -> n < 18 -> m <= 18 ->
  let i := hand_index c k n in
  held_hash (zobrist_table (set_draw rng i v)) c k m =
  N.lxor (held_hash (zobrist_table (set_draw rng i 0)) c k m) (if n <? m then entry v else 0).
Proof.
  intros I Ln Lm i. unfold held_hash.
  assert (E : forall w j, (j < N.to_nat m)%nat ->
    z_hand_entry (zobrist_table (set_draw rng i w)) c k (N.of_nat j) =
    if Nat.eqb j (N.to_nat n) then entry w else z_hand_entry (zobrist_table rng) c k (N.of_nat j)).
  { intros w j Hj. rewrite hand_entry_set by exact I. unfold i.
    destruct (N.eqb_spec (hand_index c k (N.of_nat j)) (hand_index c k n)) as [E|N'].
    - apply hand_index_inj in E as [_ [_ E]]; try assumption; [|lia].
      destruct (Nat.eqb_spec j (N.to_nat n)); [reflexivity|lia].
    - destruct (Nat.eqb_spec j (N.to_nat n)) as [->|]; [|reflexivity]. rewrite N2Nat.id in N'. congruence. }
  assert (F : forall w, xor_all (map (fun j => z_hand_entry (zobrist_table (set_draw rng i w)) c k (N.of_nat j))
                (seq 0 (N.to_nat m))) =
              xor_all (map (fun j => if Nat.eqb j (N.to_nat n) then entry w
                 else z_hand_entry (zobrist_table rng) c k (N.of_nat j)) (seq 0 (N.to_nat m)))).
  { intros w. apply xor_map_ext. intros j Hj. apply in_seq in Hj. apply E. lia. }
  rewrite !F. destruct (N.ltb_spec n m) as [L|L].
  - rewrite (xor_map_change _ (fun j => if Nat.eqb j (N.to_nat n) then entry 0
                 else z_hand_entry (zobrist_table rng) c k (N.of_nat j)) (N.to_nat n)).
    + rewrite !Nat.eqb_refl. reflexivity.
    + apply seq_NoDup.
    + apply in_seq. lia.
    + intros j Nj. destruct (Nat.eqb_spec j (N.to_nat n)); [contradiction|reflexivity].
  - rewrite N.lxor_0_r. apply xor_map_ext. intros j Hj. apply in_seq in Hj.
    destruct (Nat.eqb_spec j (N.to_nat n)); [lia|reflexivity].
Qed.
Lemma hand_hash_set rng c k n v h : In k hand_kinds -> n < 18 -> (forall c k, h c k <= 18) ->
  let i := hand_index c k n in
  hand_hash (zobrist_table (set_draw rng i v)) h =
  N.lxor (hand_hash (zobrist_table (set_draw rng i 0)) h) (if n <? h c k then entry v else 0).
Proof.
  intros I Ln Lh i. rewrite !hand_hash_slots.
  rewrite (xor_map_change _
    (fun ck => held_hash (zobrist_table (set_draw rng i 0)) (fst ck) (snd ck) (h (fst ck) (snd ck)))
    (c, k) _ hand_slots_NoDup (hand_slots_in c k I)).
  - f_equal. cbn [fst snd]. unfold i. rewrite (held_hash_set rng c k n v (h c k)) by auto.
    set (a := held_hash _ c k (h c k)). set (e := if n <? h c k then entry v else 0). xors.
  - intros [d j] Nd. cbn [fst snd].
    destruct (in_dec kind_dec j hand_kinds) as [Ij|Ij].
    + unfold held_hash. apply xor_map_ext. intros u Hu. apply in_seq in Hu. specialize (Lh d j).
      rewrite !hand_entry_set by exact Ij. unfold i.
      destruct (N.eqb_spec (hand_index d j (N.of_nat u)) (hand_index c k n)) as [E|]; [|reflexivity].
      apply hand_index_inj in E; try assumption; [|lia]. destruct E as [-> [-> _]]. congruence.
    + unfold held_hash. apply xor_map_ext. intros u _.
      destruct j; try (exfalso; apply Ij; cbn; tauto); reflexivity.
Qed.

(** ** Keys without bit 0 *)

Definition clean (a : N) : Prop := forall n, n = 0 \/ 64 <= n -> N.testbit a n = false.
Lemma clean_0 : clean 0.
Proof. intros n _. apply N.bits_0. Qed.
Lemma clean_xor a b : clean a -> clean b -> clean (N.lxor a b).
Proof. intros A B n H. rewrite N.lxor_spec, (A n H), (B n H). reflexivity. Qed.
Lemma clean_entry v : clean (entry v).
Proof.
  intros n H. unfold entry. change 0xffffffffffffffff with (N.ones 64). change KEY_COLOR with (N.ones 1).
  rewrite N.ldiff_spec, N.land_spec. destruct H as [->|H].
  - rewrite (N.ones_spec_low 1 0) by lia. apply andb_false_r.
  - rewrite (N.ones_spec_high 64 n) by lia. rewrite andb_false_r. reflexivity.
Qed.
Lemma clean_all l : (forall a, In a l -> clean a) -> clean (xor_all l).
Proof.
  induction l as [|a l IH]; intros H; [apply clean_0|]. apply clean_xor; [apply H; left; reflexivity|].
  apply IH. intros b I. apply H. right. exact I.
Qed.
Lemma clean_board rng b : clean (board_hash (zobrist_table rng) b).
Proof.
  apply clean_all. intros a I. apply in_map_iff in I as [s [<- _]]. unfold piece_entry.
  destruct (b s); [apply clean_entry|apply clean_0].
Qed.
Lemma clean_hand rng h : clean (hand_hash (zobrist_table rng) h).
Proof.
  rewrite hand_hash_slots. apply clean_all. intros a I. apply in_map_iff in I as [[c k] [<- _]].
  apply clean_all. intros a I. apply in_map_iff in I as [j [<- _]]. cbn [fst snd].
  destruct k; first [apply clean_entry | apply clean_0].
Qed.

Lemma clean_even a : clean a -> N.even a = true /\ a + 1 < 2 ^ 64.
Proof.
  intros C. assert (E : N.even a = true).
  { rewrite <- N.negb_odd, <- N.bit0_odd, (C 0) by tauto. reflexivity. }
  split; [exact E|].
  assert (L : a < 2 ^ 64).
  { destruct (N.eq_dec a 0) as [->|Na]; [reflexivity|]. apply N.log2_lt_pow2; [lia|].
    destruct (N.lt_ge_cases (N.log2 a) 64) as [L|L]; [exact L|].
    pose proof (N.bit_log2 a Na) as B. rewrite (C _ (or_intror L)) in B. discriminate. }
  apply N.even_spec in E as [q ->]. change (2 ^ 64) with (2 * 2 ^ 63) in *. lia.
Qed.

(* two draws make any given entry *)
Lemma entry_is v a : v < 2 ^ 64 -> clean a -> (entry v = a <-> v = a \/ v = a + 1).
Proof.
  intros L C. destruct (clean_even a C) as [E _]. unfold entry.
  change 0xffffffffffffffff with (N.ones 64). change KEY_COLOR with (N.ones 1).
  rewrite N.land_ones, N.mod_small by exact L. rewrite N.ldiff_ones_r.
  rewrite N.shiftr_div_pow2, N.shiftl_mul_pow2. change (2 ^ 1) with 2.
  apply N.even_spec in E as [q ->]. pose proof (N.div_mod v 2 ltac:(discriminate)).
  pose proof (N.mod_lt v 2 ltac:(discriminate)). clear L C.
  revert H H0. generalize (v / 2) (v mod 2). intros a b H H0. split; [intros X|intros [X|X]]; lia.
Qed.

Lemma xor_solve a b e : N.lxor (N.lxor a e) b = 0 <-> e = N.lxor a b.
Proof.
  split; intros H.
  - apply N.lxor_eq. rewrite <- H. xors.
  - subst e. xors.
Qed.
Lemma xor_eq_0 a b : a = b <-> N.lxor a b = 0.
Proof. split; [intros ->; apply N.lxor_nilpotent|apply N.lxor_eq]. Qed.

(** ** One draw decides *)

(* [f v = g v] holds for exactly two values of [v] below 2^64, an even one and
   its successor *)
Definition decides (f g : N -> N) : Prop :=
  exists v0, N.even v0 = true /\ v0 + 1 < 2 ^ 64 /\
    forall v, v < 2 ^ 64 -> (f v = g v <-> v = v0 \/ v = v0 + 1).
Lemma decides_sym f g : decides f g -> decides g f.
Proof.
  intros [v0 [E [L H]]]. exists v0. split; [exact E|]. split; [exact L|]. intros v Lv.
  rewrite <- (H v Lv). split; congruence.
Qed.
Lemma decides_entry a b f g : clean a -> clean b -> (forall v, f v = N.lxor a (entry v)) -> (forall v, g v = b) ->
  decides f g.
Proof.
  intros A B F G. exists (N.lxor a b). destruct (clean_even _ (clean_xor _ _ A B)) as [E L].
  split; [exact E|]. split; [exact L|]. intros v Lv. rewrite F, G, xor_eq_0, xor_solve.
  apply entry_is; [exact Lv|]. apply clean_xor; assumption.
Qed.
Lemma decides_shift f g t : decides f g -> decides (fun v => N.lxor (f v) t) (fun v => N.lxor (g v) t).
Proof.
  intros [v0 [E [L H]]]. exists v0. split; [exact E|]. split; [exact L|]. intros v Lv.
  rewrite <- (H v Lv). split; [|congruence]. intros X. apply (f_equal (fun a => N.lxor a t)) in X.
  rewrite !N.lxor_assoc, N.lxor_nilpotent, !N.lxor_0_r in X. exact X.
Qed.

Definition bhash rng i v b := board_hash (zobrist_table (set_draw rng i v)) b.
Definition hhash rng i v h := hand_hash (zobrist_table (set_draw rng i v)) h.

Lemma board_decides b1 b2 s : b1 s <> b2 s -> exists i, i < 2268 /\ forall rng,
  decides (fun v => bhash rng i v b1) (fun v => bhash rng i v b2) /\
  forall h1 h2, decides (fun v => N.lxor (bhash rng i v b1) (hhash rng i v h1))
                        (fun v => N.lxor (bhash rng i v b2) (hhash rng i v h2)).
Proof.
  intros Ne.
  assert (G : forall rng b1 b2 x, b1 s = Some x -> b2 s <> Some x ->
    let i := board_index s (pcolor x) (pkind x) in
    decides (fun v => bhash rng i v b1) (fun v => bhash rng i v b2) /\
    forall h1 h2, decides (fun v => N.lxor (bhash rng i v b1) (hhash rng i v h1))
                          (fun v => N.lxor (bhash rng i v b2) (hhash rng i v h2))).
  { clear. intros rng b1 b2 x H1 H2 i.
    assert (X : forall v, bhash rng i v b1 = N.lxor (bhash rng i 0 b1) (entry v)).
    { intros v. unfold bhash, i. rewrite board_hash_set, H1.
      destruct (piece_eqb_spec x x); [reflexivity|congruence]. }
    assert (Y : forall v, bhash rng i v b2 = bhash rng i 0 b2).
    { intros v. unfold bhash, i. rewrite board_hash_set. destruct (b2 s) as [y|]; [|apply N.lxor_0_r].
      destruct (piece_eqb_spec y x); [congruence|apply N.lxor_0_r]. }
    assert (Z : forall v h, hhash rng i v h = hhash rng i 0 h).
    { intros v h. unfold hhash. rewrite !hand_hash_set_board by apply board_index_lt. reflexivity. }
    split.
    - apply (decides_entry (bhash rng i 0 b1) (bhash rng i 0 b2)); auto; apply clean_board.
    - intros h1 h2.
      apply (decides_entry (N.lxor (bhash rng i 0 b1) (hhash rng i 0 h1))
                           (N.lxor (bhash rng i 0 b2) (hhash rng i 0 h2))).
      + apply clean_xor; [apply clean_board|apply clean_hand].
      + apply clean_xor; [apply clean_board|apply clean_hand].
      + intros v. rewrite X, Z. set (a := bhash rng i 0 b1). set (c := hhash rng i 0 h1). set (e := entry v). xors.
      + intros v. rewrite Y, Z. reflexivity. }
  destruct (b1 s) as [x|] eqn:E1; [|destruct (b2 s) as [x|] eqn:E2; [|congruence]].
  - exists (board_index s (pcolor x) (pkind x)). split; [apply board_index_lt|].
    intros rng. apply G; [exact E1|congruence].
  - exists (board_index s (pcolor x) (pkind x)). split; [apply board_index_lt|].
    intros rng. destruct (G rng b2 b1 x E2) as [A B]; [congruence|]. split; [apply decides_sym; exact A|].
    intros h1 h2. apply decides_sym, B.
Qed.

Lemma hand_index_lt c k n : In k hand_kinds -> n < 18 -> 2268 <= hand_index c k n < 2520.
Proof.
  intros I L. apply hand_kind_lt in I. pose proof (color_index_lt c). unfold hand_index. lia.
Qed.
Lemma hand_decides h1 h2 c k : In k hand_kinds -> (forall c k, h1 c k <= 18) -> (forall c k, h2 c k <= 18) ->
  h1 c k <> h2 c k -> exists i, 2268 <= i < 2520 /\ forall rng,
  decides (fun v => hhash rng i v h1) (fun v => hhash rng i v h2) /\
  forall b1 b2, decides (fun v => N.lxor (bhash rng i v b1) (hhash rng i v h1))
                        (fun v => N.lxor (bhash rng i v b2) (hhash rng i v h2)).
Proof.
  intros I L1 L2 Ne.
  assert (G : forall rng h1 h2, (forall c k, h1 c k <= 18) -> (forall c k, h2 c k <= 18) -> h2 c k < h1 c k ->
    let i := hand_index c k (h2 c k) in
    decides (fun v => hhash rng i v h1) (fun v => hhash rng i v h2) /\
    forall b1 b2, decides (fun v => N.lxor (bhash rng i v b1) (hhash rng i v h1))
                          (fun v => N.lxor (bhash rng i v b2) (hhash rng i v h2))).
  { clear - I. intros rng h1 h2 L1 L2 Lt i. pose proof (L1 c k) as B1.
    assert (Li : 2268 <= i) by (apply hand_index_lt; [exact I|lia]).
    assert (X : forall v, hhash rng i v h1 = N.lxor (hhash rng i 0 h1) (entry v)).
    { intros v. unfold hhash, i. rewrite hand_hash_set by (assumption || lia).
      destruct (N.ltb_spec (h2 c k) (h1 c k)); [reflexivity|lia]. }
    assert (Y : forall v, hhash rng i v h2 = hhash rng i 0 h2).
    { intros v. unfold hhash, i. rewrite hand_hash_set by (assumption || lia).
      rewrite N.ltb_irrefl. apply N.lxor_0_r. }
    assert (Z : forall v b, bhash rng i v b = bhash rng i 0 b).
    { intros v b. unfold bhash. rewrite !board_hash_set_hand by exact Li. reflexivity. }
    split.
    - apply (decides_entry (hhash rng i 0 h1) (hhash rng i 0 h2)); auto; apply clean_hand.
    - intros b1 b2.
      apply (decides_entry (N.lxor (bhash rng i 0 b1) (hhash rng i 0 h1))
                           (N.lxor (bhash rng i 0 b2) (hhash rng i 0 h2))).
      + apply clean_xor; [apply clean_board|apply clean_hand].
      + apply clean_xor; [apply clean_board|apply clean_hand].
      + intros v. rewrite X, Z. symmetry. apply N.lxor_assoc.
      + intros v. rewrite Y, Z. reflexivity. }
  pose proof (L1 c k) as B1. pose proof (L2 c k) as B2.
  destruct (N.lt_gt_cases (h1 c k) (h2 c k)) as [D _]. destruct (D Ne) as [Lt|Lt].
  - exists (hand_index c k (h1 c k)). split; [apply hand_index_lt; [exact I|lia]|].
    intros rng. destruct (G rng h2 h1 L2 L1 Lt) as [A B]. split; [apply decides_sym; exact A|].
    intros b1 b2. apply decides_sym, B.
  - exists (hand_index c k (h2 c k)). split; [apply hand_index_lt; [exact I|lia]|].
    intros rng. exact (G rng h1 h2 L1 L2 Lt).
Qed.

(* two draws, one of each table *)
Lemma hand_hash_two rng i v j u h : i < 2268 ->
  hand_hash (zobrist_table (set_draw (set_draw rng i v) j u)) h = hhash rng j u h.
Proof.
  intros L. unfold hhash. rewrite !hand_hash_slots. apply xor_map_ext. intros [c k] I. cbn [fst snd].
  apply hand_kind_of_slot in I. unfold held_hash. apply xor_map_ext. intros n _.
  rewrite !hand_entry_set by exact I. destruct (hand_index c k (N.of_nat n) =? j); [reflexivity|].
  destruct (N.eqb_spec (hand_index c k (N.of_nat n)) i) as [E|]; [|reflexivity].
  unfold hand_index in E. lia.
Qed.
