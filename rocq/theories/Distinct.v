(** * No two contents have equal keys under every table *)

From Coq Require Import List Bool NArith ZArith Lia.
From Verif Require Import Types Rules Bitboard Zobrist Position Api Squares ValidPlay Hash Reach Lines Decide.
Import ListNotations.
Local Open Scope N_scope.

(* a stream that is 2 at one place and 0 elsewhere *)
Definition rng_at (j : N) : N -> N := fun i => if i =? j then 2 else 0.

Definition board_index (s : square) (c : color) (k : kind) : N :=
  (sq_index s * 2 + color_index c) * 14 + kind_index k.
Definition hand_index (c : color) (k : kind) (n : N) : N :=
  81 * 2 * 14 + (color_index c * 7 + kind_index k) * 18 + n.

Lemma kind_index_lt k : kind_index k < 14.
Proof. destruct k; reflexivity. Qed.
Lemma kind_index_inj k k' : kind_index k = kind_index k' -> k = k'.
Proof. destruct k, k'; intros H; try reflexivity; discriminate H. Qed.
Lemma hand_kind_lt k : In k hand_kinds -> kind_index k < 7.
Proof. cbn [hand_kinds In]. intros H. decompose [or] H; subst; try reflexivity; contradiction. Qed.
Lemma color_index_lt c : color_index c < 2.
Proof. destruct c; reflexivity. Qed.
Lemma color_index_inj c c' : color_index c = color_index c' -> c = c'.
Proof. destruct c, c'; intros H; try reflexivity; discriminate H. Qed.

Lemma board_index_lt s c k : board_index s c k < 2268.
Proof.
  unfold board_index. pose proof (sq_index_lt s). pose proof (color_index_lt c).
  pose proof (kind_index_lt k). lia.
Qed.
Lemma board_index_inj s c k s' c' k' : board_index s c k = board_index s' c' k' ->
  s = s' /\ c = c' /\ k = k'.
Proof.
  unfold board_index. pose proof (color_index_lt c). pose proof (color_index_lt c').
  pose proof (kind_index_lt k). pose proof (kind_index_lt k'). intros E.
  assert (E1 : kind_index k = kind_index k').
  { assert (forall a x, x < 14 -> (a * 14 + x) mod 14 = x) as M
      by (intros; rewrite N.add_comm, N.mod_add, N.mod_small; lia).
    rewrite <- (M (sq_index s * 2 + color_index c) (kind_index k)), E by assumption. apply M. assumption. }
  rewrite E1 in E. assert (E2 : sq_index s * 2 + color_index c = sq_index s' * 2 + color_index c') by lia.
  assert (E3 : color_index c = color_index c').
  { assert (forall a x, x < 2 -> (a * 2 + x) mod 2 = x) as M
      by (intros; rewrite N.add_comm, N.mod_add, N.mod_small; lia).
    rewrite <- (M (sq_index s) (color_index c)), E2 by assumption. apply M. assumption. }
  rewrite E3 in E2. split; [apply sq_index_inj; lia|].
  split; [apply color_index_inj|apply kind_index_inj]; assumption.
Qed.
Lemma hand_index_inj c k n c' k' n' : In k hand_kinds -> In k' hand_kinds -> n < 18 -> n' < 18 ->
  hand_index c k n = hand_index c' k' n' -> c = c' /\ k = k' /\ n = n'.
Proof.
  intros I I' L L'. apply hand_kind_lt in I, I'. unfold hand_index.
  pose proof (color_index_lt c). pose proof (color_index_lt c'). intros E.
  assert (E0 : (color_index c * 7 + kind_index k) * 18 + n = (color_index c' * 7 + kind_index k') * 18 + n') by lia.
  assert (E1 : n = n').
  { assert (forall a x, x < 18 -> (a * 18 + x) mod 18 = x) as M
      by (intros; rewrite N.add_comm, N.mod_add, N.mod_small; lia).
    rewrite <- (M (color_index c * 7 + kind_index k) n), E0 by assumption. apply M. assumption. }
  subst n'. assert (E2 : color_index c * 7 + kind_index k = color_index c' * 7 + kind_index k') by lia.
  assert (E3 : kind_index k = kind_index k').
  { assert (forall a x, x < 7 -> (a * 7 + x) mod 7 = x) as M
      by (intros; rewrite N.add_comm, N.mod_add, N.mod_small; lia).
    rewrite <- (M (color_index c) (kind_index k)), E2 by assumption. apply M. assumption. }
  rewrite E3 in E2. split; [apply color_index_inj; lia|]. split; [apply kind_index_inj; assumption|reflexivity].
Qed.

(* the entry drawn at place [i] *)
Lemma draw_at j i : N.ldiff (N.land (rng_at j i) 0xffffffffffffffff) KEY_COLOR = rng_at j i.
Proof. unfold rng_at. destruct (i =? j); reflexivity. Qed.

Lemma board_entry_at j s c k : z_board_entry (zobrist_table (rng_at j)) s c k = rng_at j (board_index s c k).
Proof. apply draw_at. Qed.
Lemma hand_entry_at j c k n : In k hand_kinds ->
  z_hand_entry (zobrist_table (rng_at j)) c k n = rng_at j (hand_index c k n).
Proof.
  intros I. cbn [hand_kinds In] in I. decompose [or] I; subst; try contradiction; apply draw_at.
Qed.

Lemma xor_zero {A} (l : list A) : xor_all (map (fun _ => 0) l) = 0.
Proof. induction l as [|x l IH]; [reflexivity|]. exact IH. Qed.
Lemma xor_only {A} (f : A -> key) a l : NoDup l -> In a l -> (forall x, x <> a -> f x = 0) ->
  xor_all (map f l) = f a.
Proof.
  intros ND I H. rewrite (xor_map_change f (fun _ => 0) a l ND I H), xor_zero. cbn beta.
  rewrite !N.lxor_0_l. reflexivity.
Qed.
Lemma xor_none {A} (f : A -> key) l : (forall x, In x l -> f x = 0) -> xor_all (map f l) = 0.
Proof. intros H. rewrite (xor_map_ext f (fun _ => 0) l H). apply xor_zero. Qed.

(* the stream that marks the piece [x] on [s] *)
Lemma board_hash_at s x b :
  board_hash (zobrist_table (rng_at (board_index s (pcolor x) (pkind x)))) b =
  match b s with Some y => if piece_eqb y x then 2 else 0 | None => 0 end.
Proof.
  set (j := board_index s (pcolor x) (pkind x)).
  assert (E : forall u y, z_board_entry (zobrist_table (rng_at j)) u (pcolor y) (pkind y) =
    if sq_eqb u s && piece_eqb y x then 2 else 0).
  { intros u y. rewrite board_entry_at. unfold rng_at, j.
    destruct (N.eqb_spec (board_index u (pcolor y) (pkind y)) (board_index s (pcolor x) (pkind x))) as [E|N].
    - apply board_index_inj in E as [-> [E1 E2]]. rewrite sq_eqb_refl. cbn [andb].
      destruct x, y; cbn in *; subst. destruct (piece_eqb_spec (mkP pkind pcolor) (mkP pkind pcolor)); congruence.
    - destruct (sq_eqb_spec u s) as [->|]; [|reflexivity]. cbn [andb].
      destruct (piece_eqb_spec y x) as [->|]; congruence. }
  unfold board_hash. rewrite (xor_only _ s all_squares all_squares_NoDup (all_squares_in s)).
  - unfold piece_entry. destruct (b s) as [y|]; [|reflexivity]. rewrite E, sq_eqb_refl. reflexivity.
  - intros u N. unfold piece_entry. destruct (b u) as [y|]; [|reflexivity].
    rewrite E, (sq_eqb_neq u s N). reflexivity.
Qed.
Lemma hand_hash_board_at s x h :
  hand_hash (zobrist_table (rng_at (board_index s (pcolor x) (pkind x)))) h = 0.
Proof.
  rewrite hand_hash_slots. apply xor_none. intros [c k] I. cbn [fst snd].
  assert (Ik : In k hand_kinds).
  { apply in_flat_map in I as [d [_ I]]. apply in_map_iff in I as [k' [[= _ <-] I]]. exact I. }
  unfold held_hash. apply xor_none. intros i _. rewrite (hand_entry_at _ _ _ _ Ik). unfold rng_at.
  pose proof (board_index_lt s (pcolor x) (pkind x)) as L. 
  destruct (N.eqb_spec (hand_index c k (N.of_nat i)) (board_index s (pcolor x) (pkind x))) as [E|]; [|reflexivity].
  unfold hand_index in E. lia.
Qed.

(* the stream that marks the [n]-th piece of a kind in hand *)
Lemma held_hash_at c k n m : In k hand_kinds -> n < 18 -> m <= 18 ->
  held_hash (zobrist_table (rng_at (hand_index c k n))) c k m = if n <? m then 2 else 0.
Proof.
  intros I Ln Lm. unfold held_hash.
  assert (E : forall i, (i < N.to_nat m)%nat ->
    z_hand_entry (zobrist_table (rng_at (hand_index c k n))) c k (N.of_nat i) =
    if Nat.eqb i (N.to_nat n) then 2 else 0).
  { intros i Hi. rewrite (hand_entry_at _ _ _ _ I). unfold rng_at.
    destruct (N.eqb_spec (hand_index c k (N.of_nat i)) (hand_index c k n)) as [E|N'].
    - apply hand_index_inj in E as [_ [_ E]]; try assumption; [|lia].
      destruct (Nat.eqb_spec i (N.to_nat n)); [reflexivity|lia].
    - destruct (Nat.eqb_spec i (N.to_nat n)) as [->|]; [|reflexivity]. rewrite N2Nat.id in N'. congruence. }
  rewrite (xor_map_ext _ (fun i => if Nat.eqb i (N.to_nat n) then 2 else 0)).
  2: { intros i Hi. apply in_seq in Hi. apply E. lia. }
  destruct (N.ltb_spec n m) as [L|L].
  - rewrite (xor_only _ (N.to_nat n)); [rewrite Nat.eqb_refl; reflexivity|apply seq_NoDup|apply in_seq; lia|].
    intros i Ni. destruct (Nat.eqb_spec i (N.to_nat n)); [contradiction|reflexivity].
  - apply xor_none. intros i Hi. apply in_seq in Hi.
    destruct (Nat.eqb_spec i (N.to_nat n)); [lia|reflexivity].
Qed.
Lemma hand_hash_at c k n h : In k hand_kinds -> n < 18 -> (forall c k, h c k <= 18) ->
  hand_hash (zobrist_table (rng_at (hand_index c k n))) h = if n <? h c k then 2 else 0.
Proof.
  intros I Ln Lh. rewrite hand_hash_slots.
  rewrite (xor_only _ (c, k) hand_slots hand_slots_NoDup (hand_slots_in c k I)).
  - cbn [fst snd]. apply held_hash_at; auto.
  - intros [d j] N. cbn [fst snd].
    destruct (in_dec kind_dec j hand_kinds) as [Ij|Ij].
    + unfold held_hash. apply xor_none. intros i Hi. apply in_seq in Hi. specialize (Lh d j).
      rewrite (hand_entry_at _ _ _ _ Ij). unfold rng_at.
      destruct (N.eqb_spec (hand_index d j (N.of_nat i)) (hand_index c k n)) as [E|]; [|reflexivity].
      apply hand_index_inj in E; try assumption; [|lia]. destruct E as [-> [-> _]]. congruence.
    + unfold held_hash. apply xor_none. intros i _.
      destruct j; try (exfalso; apply Ij; cbn; tauto); reflexivity.
Qed.
Lemma board_hash_hand_at c k n b :
  board_hash (zobrist_table (rng_at (hand_index c k n))) b = 0.
Proof.
  unfold board_hash. apply xor_none. intros s _. unfold piece_entry. destruct (b s) as [y|]; [|reflexivity].
  rewrite board_entry_at. unfold rng_at. pose proof (board_index_lt s (pcolor y) (pkind y)).
  destruct (N.eqb_spec (board_index s (pcolor y) (pkind y)) (hand_index c k n)) as [E|]; [|reflexivity].
  unfold hand_index in E. lia.
Qed.

Lemma board_blind b1 b2 s : b1 s <> b2 s -> exists rng,
  N.testbit (board_hash (zobrist_table rng) b1) 1 <> N.testbit (board_hash (zobrist_table rng) b2) 1 /\
  forall h, hand_hash (zobrist_table rng) h = 0.
Proof.
  intros N. assert (H : exists x, (b1 s = Some x /\ b2 s <> Some x) \/ (b2 s = Some x /\ b1 s <> Some x)).
  { destruct (b1 s) as [x|]; [exists x; left; split; congruence|].
    destruct (b2 s) as [x|]; [exists x; right; split; congruence|]. congruence. }
  destruct H as [x H]. exists (rng_at (board_index s (pcolor x) (pkind x))).
  split; [|intros h; apply hand_hash_board_at]. rewrite !board_hash_at.
  assert (R : piece_eqb x x = true) by (destruct (piece_eqb_spec x x); congruence).
  destruct H as [[-> H]|[-> H]]; rewrite R.
  - destruct (b2 s) as [y|]; [|discriminate]. destruct (piece_eqb_spec y x) as [->|]; [congruence|discriminate].
  - destruct (b1 s) as [y|]; [|discriminate]. destruct (piece_eqb_spec y x) as [->|]; [congruence|discriminate].
Qed.
Lemma hand_blind h1 h2 c k : In k hand_kinds -> (forall c k, h1 c k <= 18) -> (forall c k, h2 c k <= 18) ->
  h1 c k <> h2 c k -> exists rng,
  N.testbit (hand_hash (zobrist_table rng) h1) 1 <> N.testbit (hand_hash (zobrist_table rng) h2) 1 /\
  forall b, board_hash (zobrist_table rng) b = 0.
Proof.
  intros I L1 L2 N. pose proof (L1 c k). pose proof (L2 c k).
  exists (rng_at (hand_index c k (N.min (h1 c k) (h2 c k)))).
  split; [|intros b; apply board_hash_hand_at]. rewrite !hand_hash_at by (assumption || lia).
  destruct (N.ltb_spec (N.min (h1 c k) (h2 c k)) (h1 c k)), (N.ltb_spec (N.min (h1 c k) (h2 c k)) (h2 c k));
    try discriminate; lia.
Qed.
