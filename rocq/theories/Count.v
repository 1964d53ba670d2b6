(** * Counting the tables of random numbers

    The generator of zobrist.rs 66-86 draws 2520 numbers of 64 bits.  [count n P]
    is the number of ways to choose the first [n] draws such that [P] holds. *)

From Coq Require Import List Bool NArith ZArith Lia.
From Verif Require Import Types Zobrist Collide.
Import ListNotations.
Local Open Scope N_scope.

(* f 0 + ... + f (M - 1) *)
Definition sum_below (M : N) (f : N -> N) : N := N.recursion 0 (fun v acc => acc + f v) M.
Lemma sum_0 f : sum_below 0 f = 0.
Proof. reflexivity. Qed.
Lemma sum_succ M f : sum_below (N.succ M) f = sum_below M f + f M.
Proof.
  unfold sum_below. rewrite (N.recursion_succ (A := N) eq); [reflexivity|reflexivity|].
  intros a b -> c d ->. reflexivity.
Qed.
Lemma sum_le M f g : (forall v, v < M -> f v <= g v) -> sum_below M f <= sum_below M g.
Proof.
  induction M as [|M IH] using N.peano_ind; intros H; [reflexivity|]. rewrite !sum_succ.
  apply N.add_le_mono; [apply IH; intros; apply H; lia|apply H; lia].
Qed.
Lemma sum_ext M f g : (forall v, v < M -> f v = g v) -> sum_below M f = sum_below M g.
Proof. intros H. apply N.le_antisymm; apply sum_le; intros v L; rewrite (H v L); reflexivity. Qed.
Lemma sum_const M c : sum_below M (fun _ => c) = c * M.
Proof.
  induction M as [|M IH] using N.peano_ind; [rewrite N.mul_0_r; reflexivity|]. rewrite sum_succ, IH. lia.
Qed.
Lemma sum_add M f g : sum_below M (fun v => f v + g v) = sum_below M f + sum_below M g.
Proof. induction M as [|M IH] using N.peano_ind; [reflexivity|]. rewrite !sum_succ, IH. lia. Qed.
Lemma sum_swap M K f :
  sum_below M (fun v => sum_below K (fun w => f v w)) = sum_below K (fun w => sum_below M (fun v => f v w)).
Proof.
  induction M as [|M IH] using N.peano_ind.
  - rewrite (sum_ext K _ (fun _ => 0)) by (intros; apply sum_0). rewrite sum_const, sum_0. reflexivity.
  - rewrite sum_succ, IH. rewrite (sum_ext K (fun w => sum_below (N.succ M) (fun v => f v w))
      (fun w => sum_below M (fun v => f v w) + f M w)) by (intros w _; rewrite sum_succ; reflexivity).
    rewrite sum_add. reflexivity.
Qed.

Definition one (b : bool) : N := if b then 1 else 0.
(* at most two numbers *)
Lemma sum_two M f v0 : (forall v, v < M -> f v = true -> v = v0 \/ v = v0 + 1) ->
  sum_below M (fun v => one (f v)) <= 2.
Proof.
  intros H. assert (G : sum_below M (fun v => one (f v)) <= one (v0 <? M) + one (v0 + 1 <? M)); 
    [|destruct (v0 <? M), (v0 + 1 <? M); cbn in G |- *; lia].
  induction M as [|M IH] using N.peano_ind; [rewrite sum_0; lia|]. rewrite sum_succ.
  assert (A : sum_below M (fun v => one (f v)) <= one (v0 <? M) + one (v0 + 1 <? M)).
  { apply IH. intros v L. apply H. lia. }
  pose proof (H M ltac:(lia)) as HM. unfold one in *.
  destruct (f M) eqn:E.
  - destruct (HM eq_refl) as [->| ->]; destruct (N.ltb_spec v0 v0), (N.ltb_spec (v0 + 1) v0),
      (N.ltb_spec v0 (N.succ v0)), (N.ltb_spec (v0 + 1) (N.succ v0)), (N.ltb_spec v0 (v0 + 1)),
      (N.ltb_spec (v0 + 1) (v0 + 1)), (N.ltb_spec v0 (N.succ (v0 + 1))),
      (N.ltb_spec (v0 + 1) (N.succ (v0 + 1))); lia.
  - destruct (N.ltb_spec v0 M), (N.ltb_spec (v0 + 1) M), (N.ltb_spec v0 (N.succ M)),
      (N.ltb_spec (v0 + 1) (N.succ M)); lia.
Qed.

Lemma sum_two_eq M f v0 : v0 + 1 < M -> (forall v, v < M -> (f v = true <-> v = v0 \/ v = v0 + 1)) ->
  sum_below M (fun v => one (f v)) = 2.
Proof.
  intros L H. apply N.le_antisymm; [apply (sum_two M f v0); intros v Lv; apply H, Lv|].
  assert (O : forall a b, one (a <? b) = if a <? b then 1 else 0) by reflexivity.
  assert (G : forall K, K <= M -> one (v0 <? K) + one (v0 + 1 <? K) <= sum_below K (fun v => one (f v))).
  { induction K as [|K IH] using N.peano_ind; intros LK; [destruct v0; reflexivity|]. rewrite sum_succ.
    specialize (IH ltac:(lia)). pose proof (H K ltac:(lia)) as HK.
    assert (F : K = v0 \/ K = v0 + 1 -> one (f K) = 1) by (intros X; rewrite (proj2 HK X); reflexivity).
    rewrite !O in *. revert IH F. generalize (sum_below K (fun v => one (f v))) (one (f K)). intros a b IH F.
    destruct (N.ltb_spec v0 K), (N.ltb_spec (v0 + 1) K), (N.ltb_spec v0 (N.succ K)),
      (N.ltb_spec (v0 + 1) (N.succ K)); lia. }
  specialize (G M (N.le_refl _)). rewrite !O in G.
  destruct (N.ltb_spec v0 M), (N.ltb_spec (v0 + 1) M); lia.
Qed.

(** ** Streams *)

Section Count.
Context (M : N).

Fixpoint count_draws (n : nat) (P : (N -> N) -> bool) (rng : N -> N) : N :=
  match n with
  | O => one (P rng)
  | S n => sum_below M (fun v => count_draws n P (set_draw rng (N.of_nat n) v))
  end.

Lemma count_le n P Q : forall rng, (forall r, P r = true -> Q r = true) -> count_draws n P rng <= count_draws n Q rng.
Proof.
  induction n as [|n IH]; intros rng H; cbn [count_draws].
  - specialize (H rng). unfold one. destruct (P rng), (Q rng); try lia; discriminate (H eq_refl).
  - apply sum_le. intros v _. apply IH, H.
Qed.
Lemma count_or n P Q : forall rng,
  count_draws n (fun r => P r || Q r) rng <= count_draws n P rng + count_draws n Q rng.
Proof.
  induction n as [|n IH]; intros rng; cbn [count_draws].
  - unfold one. destruct (P rng), (Q rng); cbn; lia.
  - rewrite <- sum_add. apply sum_le. intros v _. apply IH.
Qed.
Lemma count_false n : forall rng, count_draws n (fun _ => false) rng = 0.
Proof.
  induction n as [|n IH]; intros rng; cbn [count_draws]; [reflexivity|].
  rewrite (sum_ext M _ (fun _ => 0)) by (intros; apply IH). rewrite sum_const. lia.
Qed.
Lemma count_true n : forall rng, count_draws n (fun _ => true) rng = M ^ N.of_nat n.
Proof.
  induction n as [|n IH]; intros rng; cbn [count_draws]; [reflexivity|].
  rewrite (sum_ext M _ (fun _ => M ^ N.of_nat n)) by (intros; apply IH).
  rewrite sum_const, Nat2N.inj_succ, N.pow_succ_r'. lia.
Qed.

(* only the first [K] draws matter *)
Definition local (K : N) (P : (N -> N) -> bool) : Prop :=
  forall r r', (forall i, i < K -> r i = r' i) -> P r = P r'.
Lemma count_local K P n : local K P -> forall r r',
  (forall i, N.of_nat n <= i < K -> r i = r' i) -> count_draws n P r = count_draws n P r'.
Proof.
  intros L. induction n as [|n IH]; intros r r' H; cbn [count_draws].
  - f_equal. apply L. intros i Li. apply H. lia.
  - apply sum_ext. intros v _. apply IH. intros i Li. unfold set_draw.
    destruct (N.eqb_spec i (N.of_nat n)) as [|Ne]; [reflexivity|]. apply H. lia.
Qed.

(* one draw decides *)
Lemma count_outer K P c i n : local K P ->
  (forall rng, sum_below M (fun v => one (P (set_draw rng i v))) <= c) -> (N.of_nat n <= i) ->
  forall rng, sum_below M (fun v => count_draws n P (set_draw rng i v)) <= c * M ^ N.of_nat n.
Proof.
  intros L H. induction n as [|n IH]; intros Le rng; cbn [count_draws].
  - rewrite N.mul_1_r. apply H.
  - rewrite sum_swap.
    apply N.le_trans with (sum_below M (fun _ => c * M ^ N.of_nat n)).
    + apply sum_le. intros w _.
      rewrite (sum_ext M _ (fun v => count_draws n P (set_draw (set_draw rng (N.of_nat n) w) i v))); [apply IH; lia|].
      intros v _. apply (count_local K P n L). intros j _. unfold set_draw.
      destruct (N.eqb_spec j (N.of_nat n)), (N.eqb_spec j i); try reflexivity. lia.
    + rewrite sum_const, Nat2N.inj_succ, N.pow_succ_r'. lia.
Qed.
Lemma count_decided K P c i n : local K P ->
  (forall rng, sum_below M (fun v => one (P (set_draw rng i v))) <= c) -> (i < N.of_nat n) ->
  forall rng, count_draws n P rng * M <= c * M ^ N.of_nat n.
Proof.
  intros L H. induction n as [|n IH]; intros Li rng; [lia|]. cbn [count_draws].
  rewrite Nat2N.inj_succ, N.pow_succ_r'.
  destruct (N.eq_dec i (N.of_nat n)) as [->|Ne].
  - pose proof (count_outer K P c _ n L H (N.le_refl _) rng) as X.
    apply (N.mul_le_mono_r _ _ M) in X. lia.
  - assert (X : sum_below M (fun v => count_draws n P (set_draw rng (N.of_nat n) v) * M) <=
      sum_below M (fun _ => c * M ^ N.of_nat n)).
    { apply sum_le. intros v _. apply IH. lia. }
    rewrite sum_const in X.
    assert (Y : forall f K, sum_below K (fun v => f v * M) = sum_below K f * M).
    { intros f. induction K0 as [|K0 IHK] using N.peano_ind; [reflexivity|]. rewrite !sum_succ, IHK. lia. }
    rewrite Y in X. lia.
Qed.

Lemma count_outer_eq K P c i n : local K P ->
  (forall rng, sum_below M (fun v => one (P (set_draw rng i v))) = c) -> (N.of_nat n <= i) ->
  forall rng, sum_below M (fun v => count_draws n P (set_draw rng i v)) = c * M ^ N.of_nat n.
Proof.
  intros L H. induction n as [|n IH]; intros Le rng; cbn [count_draws].
  - rewrite N.mul_1_r. apply H.
  - rewrite sum_swap.
    transitivity (sum_below M (fun _ => c * M ^ N.of_nat n)).
    + apply sum_ext. intros w _.
      rewrite (sum_ext M _ (fun v => count_draws n P (set_draw (set_draw rng (N.of_nat n) w) i v))); [apply IH; lia|].
      intros v _. apply (count_local K P n L). intros j _. unfold set_draw.
      destruct (N.eqb_spec j (N.of_nat n)), (N.eqb_spec j i); try reflexivity. lia.
    + rewrite sum_const, Nat2N.inj_succ, N.pow_succ_r'. lia.
Qed.
Lemma count_decided_eq K P c i n : local K P ->
  (forall rng, sum_below M (fun v => one (P (set_draw rng i v))) = c) -> (i < N.of_nat n) ->
  forall rng, count_draws n P rng * M = c * M ^ N.of_nat n.
Proof.
  intros L H. induction n as [|n IH]; intros Li rng; [lia|]. cbn [count_draws].
  rewrite Nat2N.inj_succ, N.pow_succ_r'.
  destruct (N.eq_dec i (N.of_nat n)) as [->|Ne].
  - pose proof (count_outer_eq K P c _ n L H (N.le_refl _) rng) as X.
    rewrite X. lia.
  - assert (X : sum_below M (fun v => count_draws n P (set_draw rng (N.of_nat n) v) * M) =
      sum_below M (fun _ => c * M ^ N.of_nat n)).
    { apply sum_ext. intros v _. apply IH. lia. }
    rewrite sum_const in X.
    assert (Y : forall f K, sum_below K (fun v => f v * M) = sum_below K f * M).
    { intros f. induction K0 as [|K0 IHK] using N.peano_ind; [reflexivity|]. rewrite !sum_succ, IHK. lia. }
    rewrite Y in X. lia.
Qed.

(* any of a list of events *)
Lemma count_any {A} (l : list A) (P : A -> (N -> N) -> bool) n b rng :
  (forall a, In a l -> count_draws n (P a) rng * M <= b) ->
  count_draws n (fun r => existsb (fun a => P a r) l) rng * M <= N.of_nat (length l) * b.
Proof.
  induction l as [|a l IH]; intros H; cbn [existsb length].
  - rewrite count_false. lia.
  - pose proof (count_or n (P a) (fun r => existsb (fun a => P a r) l) rng) as X.
    apply (N.mul_le_mono_r _ _ M) in X. rewrite N.mul_add_distr_r in X.
    assert (A1 := H a (or_introl eq_refl)). assert (A2 := IH (fun x I => H x (or_intror I))). lia.
Qed.
End Count.

(** ** The tables of the crate *)

Definition draws : nat := 2520.
Definition word : N := 2 ^ 64.
Definition count_tables (P : (N -> N) -> bool) : N := count_draws word draws P (fun _ => 0).
Definition all_tables : N := word ^ N.of_nat draws.
Lemma all_tables_count : count_tables (fun _ => true) = all_tables.
Proof. unfold count_tables, all_tables. generalize word draws. intros M n. apply count_true. Qed.

Lemma tables_le P Q : (forall r, P r = true -> Q r = true) -> count_tables P <= count_tables Q.
Proof. unfold count_tables. generalize word draws. intros M n. apply count_le. Qed.
Lemma tables_any {A} (l : list A) (P : A -> (N -> N) -> bool) b :
  (forall a, In a l -> count_tables (P a) * word <= b) ->
  count_tables (fun r => existsb (fun a => P a r) l) * word <= N.of_nat (length l) * b.
Proof. unfold count_tables. generalize word draws. intros M n. apply count_any. Qed.

(* all pairs of a list, each once *)
Fixpoint pairs {A} (l : list A) : list (A * A) :=
  match l with [] => [] | a :: l => map (pair a) l ++ pairs l end.
Lemma pairs_length {A} (l : list A) :
  2 * N.of_nat (length (pairs l)) = N.of_nat (length l) * (N.of_nat (length l) - 1).
Proof.
  induction l as [|a l IH]; [reflexivity|]. cbn [pairs length]. rewrite app_length, map_length.
  rewrite Nat2N.inj_add, N.mul_add_distr_l, IH, Nat2N.inj_succ.
  generalize (N.of_nat (length l)). intros n. destruct (N.eq_dec n 0) as [->|]; [reflexivity|].
  nia.
Qed.
Lemma pairs_in {A} (l : list A) a b : In (a, b) (pairs l) -> In a l /\ In b l.
Proof.
  induction l as [|c l IH]; [intros []|]. cbn [pairs]. rewrite in_app_iff, in_map_iff.
  intros [[x [[= <- <-] I]]|I]; [cbn; tauto|]. destruct (IH I). cbn. tauto.
Qed.
Lemma in_pairs {A} (l : list A) a b : In a l -> In b l -> a <> b -> In (a, b) (pairs l) \/ In (b, a) (pairs l).
Proof.
  induction l as [|c l IH]; [intros []|]. cbn [pairs]. rewrite !in_app_iff, !in_map_iff.
  intros [->|Ia] [->|Ib] Ne.
  - congruence.
  - left. left. eauto.
  - right. left. eauto.
  - destruct (IH Ia Ib Ne); tauto.
Qed.
