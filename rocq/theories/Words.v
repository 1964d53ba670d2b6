(** * Machine words: trailing zeros, leading zeros, population count *)

From Coq Require Import List Bool NArith ZArith Lia.
From Verif Require Import Types Bitboard.
Import ListNotations.
Open Scope N_scope.

Lemma N_ext a b : (forall i, N.testbit a i = N.testbit b i) -> a = b.
Proof. apply N.bits_inj. Qed.

Lemma testbit_high a n i : a < 2 ^ n -> n <= i -> N.testbit a i = false.
Proof.
  intros Ha Hi. destruct (N.eq_dec a 0) as [->|Ha0].
  - apply N.bits_0.
  - apply N.bits_above_log2. apply N.log2_lt_pow2 in Ha; lia.
Qed.

Lemma lt_pow2_testbit a n :
  (forall i, n <= i -> N.testbit a i = false) -> a < 2 ^ n.
Proof.
  intros H. destruct (N.eq_dec a 0) as [->|Ha].
  - apply N.neq_0_lt_0. apply N.pow_nonzero. lia.
  - apply N.log2_lt_pow2; [lia|].
    destruct (N.lt_ge_cases (N.log2 a) n) as [|Hge]; [assumption|].
    specialize (H _ Hge). rewrite N.bit_log2 in H by assumption. discriminate.
Qed.

Lemma nonzero_bit a : a <> 0 -> exists i, N.testbit a i = true.
Proof. intros H. exists (N.log2 a). apply N.bit_log2. assumption. Qed.

(** ** ctz *)

Lemma pos_ctz_spec p :
  N.testbit (Npos p) (pos_ctz p) = true /\
  forall j, j < pos_ctz p -> N.testbit (Npos p) j = false.
Proof.
  induction p as [p IH|p IH|].
  - split; [reflexivity|]. cbn. intros j Hj. lia.
  - destruct IH as [IH1 IH2]. cbn [pos_ctz]. split.
    + change (Npos p~0) with (2 * Npos p). rewrite N.testbit_even_succ by lia.
      assumption.
    + intros j Hj. change (Npos p~0) with (2 * Npos p).
      destruct (N.eq_dec j 0) as [->|Hj0].
      * apply N.testbit_even_0.
      * replace j with (N.succ (N.pred j)) by lia.
        rewrite N.testbit_even_succ by lia. apply IH2. lia.
  - split; [reflexivity|]. cbn. intros j Hj. lia.
Qed.

Lemma ctz_set w a : a <> 0 -> N.testbit a (ctz w a) = true.
Proof. destruct a as [|p]; [congruence|]. intros _. apply pos_ctz_spec. Qed.

Lemma ctz_below w a j : a <> 0 -> j < ctz w a -> N.testbit a j = false.
Proof. destruct a as [|p]; [congruence|]. intros _. apply pos_ctz_spec. Qed.

Lemma ctz_le w a j : N.testbit a j = true -> ctz w a <= j.
Proof.
  intros H. destruct (N.lt_ge_cases j (ctz w a)) as [Hlt|]; [|assumption].
  assert (a <> 0) by (intros ->; rewrite N.bits_0 in H; discriminate).
  rewrite (ctz_below w a j) in H by assumption. discriminate.
Qed.

Lemma ctz_lt w n a : a <> 0 -> a < 2 ^ n -> ctz w a < n.
Proof.
  intros Ha Hn. destruct (N.lt_ge_cases (ctz w a) n) as [|Hge]; [assumption|].
  pose proof (ctz_set w a Ha) as H. rewrite (testbit_high a n) in H by assumption.
  discriminate.
Qed.

(* i <= ctz a iff no lower bit is set *)
Lemma le_ctz w a i : a <> 0 ->
  (i <= ctz w a <-> forall j, j < i -> N.testbit a j = false).
Proof.
  intros Ha. split.
  - intros Hi j Hj. apply (ctz_below w); [assumption|lia].
  - intros H. destruct (N.le_gt_cases i (ctz w a)) as [|Hgt]; [assumption|].
    specialize (H _ Hgt). rewrite ctz_set in H by assumption. discriminate.
Qed.

(* 2^i - 1 *)
Lemma ones_spec n i : N.testbit (N.ones n) i = (i <? n).
Proof.
  destruct (N.ltb_spec i n).
  - apply N.ones_spec_low. assumption.
  - apply N.ones_spec_high. assumption.
Qed.

Lemma shiftl1_pred n : N.shiftl 1 n - 1 = N.ones n.
Proof. unfold N.ones. rewrite N.sub_1_r. reflexivity. Qed.

Lemma ones64_ones : ones64 = N.ones 64.
Proof. reflexivity. Qed.

Lemma land_ones64 a i :
  N.testbit (N.land a ones64) i = N.testbit a i && (i <? 64).
Proof. rewrite ones64_ones, N.land_spec, ones_spec. reflexivity. Qed.

(* x ^ (x - 1): the bits up to and including the lowest set one *)
Lemma lxor_pred p :
  N.lxor (Npos p) (N.pred (Npos p)) = N.ones (N.succ (pos_ctz p)).
Proof.
  induction p as [p IH|p IH|].
  - cbn [pos_ctz]. apply N_ext. intros i. rewrite N.lxor_spec, ones_spec.
    replace (N.pred (N.pos p~1)) with (2 * Npos p) by (cbn; lia).
    change (N.pos p~1) with (2 * Npos p + 1).
    destruct (N.eq_dec i 0) as [->|Hi].
    + rewrite N.testbit_odd_0, N.testbit_even_0. reflexivity.
    + replace i with (N.succ (N.pred i)) by lia.
      rewrite N.testbit_odd_succ, N.testbit_even_succ by lia.
      rewrite xorb_nilpotent. symmetry. apply N.ltb_ge. lia.
  - cbn [pos_ctz]. apply N_ext. intros i.
    rewrite N.lxor_spec, ones_spec.
    replace (N.pred (N.pos p~0)) with (2 * N.pred (Npos p) + 1) by lia.
    change (N.pos p~0) with (2 * Npos p).
    destruct (N.eq_dec i 0) as [->|Hi].
    + rewrite N.testbit_odd_0, N.testbit_even_0. symmetry.
      apply N.ltb_lt. lia.
    + replace i with (N.succ (N.pred i)) by lia.
      rewrite N.testbit_odd_succ, N.testbit_even_succ by lia.
      rewrite <- N.lxor_spec, IH, ones_spec.
      destruct (N.ltb_spec (N.pred i) (N.succ (pos_ctz p)));
      destruct (N.ltb_spec (N.succ (N.pred i)) (N.succ (N.succ (pos_ctz p))));
      lia.
  - reflexivity.
Qed.

Lemma lxor_pred_spec w a i : a <> 0 ->
  N.testbit (N.lxor a (a - 1)) i = (i <=? ctz w a).
Proof.
  destruct a as [|p]; [congruence|]. intros _.
  rewrite N.sub_1_r, lxor_pred, ones_spec. cbn [ctz].
  destruct (N.ltb_spec i (N.succ (pos_ctz p)));
  destruct (N.leb_spec i (pos_ctz p)); lia.
Qed.

(* x & (x - 1): the lowest set bit is cleared *)
Lemma land_pred_spec w a i : a <> 0 ->
  N.testbit (N.land a (a - 1)) i = N.testbit a i && negb (i =? ctz w a).
Proof.
  intros Ha. pose proof (lxor_pred_spec w a i Ha) as H.
  rewrite N.lxor_spec in H. rewrite N.land_spec.
  destruct (N.testbit a i) eqn:E; [|reflexivity]. cbn in *.
  pose proof (ctz_le w a i E).
  destruct (N.eqb_spec i (ctz w a)); destruct (N.leb_spec i (ctz w a));
    destruct (N.testbit (a - 1) i); cbn in *; try reflexivity; try lia;
    discriminate.
Qed.

Lemma two64_pow : two64 = 2 ^ 64.
Proof. reflexivity. Qed.

Lemma land_ones64_small a : a < 2 ^ 64 -> N.land a ones64 = a.
Proof.
  intros H. rewrite ones64_ones, N.land_ones. apply N.mod_small. assumption.
Qed.

(* wrapping arithmetic as used by the SIMD code *)
Lemma wadd64_ones a : a < 2 ^ 64 ->
  wadd64 a ones64 = if a =? 0 then ones64 else a - 1.
Proof.
  intros H. unfold wadd64.
  destruct (N.eqb_spec a 0) as [->|Ha].
  - reflexivity.
  - rewrite ones64_ones, N.land_ones.
    replace (a + N.ones 64) with ((a - 1) + 1 * 2 ^ 64)
      by (change (N.ones 64) with (2 ^ 64 - 1); lia).
    rewrite N.mod_add by (apply N.pow_nonzero; lia).
    apply N.mod_small. lia.
Qed.

Lemma wsub64_ge a b : a < 2 ^ 64 -> b <= a -> wsub64 a b = a - b.
Proof.
  intros Ha Hb. unfold wsub64.
  rewrite ones64_ones, N.land_ones, two64_pow.
  replace (a + 2 ^ 64 - b) with ((a - b) + 1 * 2 ^ 64) by lia.
  rewrite N.mod_add by (apply N.pow_nonzero; lia).
  apply N.mod_small. lia.
Qed.

Lemma wsub64_ones a : a < 2 ^ 64 ->
  wsub64 a ones64 = if a =? ones64 then 0 else a + 1.
Proof.
  intros H. unfold wsub64.
  destruct (N.eqb_spec a ones64) as [->|Ha].
  - reflexivity.
  - rewrite ones64_ones, N.land_ones, two64_pow.
    replace (a + 2 ^ 64 - N.ones 64) with (a + 1)
      by (change (N.ones 64) with (2 ^ 64 - 1); lia).
    apply N.mod_small. change ones64 with (2 ^ 64 - 1) in Ha. lia.
Qed.

(** ** clz, through log2 *)

Lemma clz_log2 w a : a <> 0 -> a < 2 ^ w -> clz w a = w - 1 - N.log2 a.
Proof.
  intros Ha Hw. unfold clz. rewrite N.size_log2 by assumption. lia.
Qed.

Lemma log2_ge a j : N.testbit a j = true -> j <= N.log2 a.
Proof.
  intros H. destruct (N.le_gt_cases j (N.log2 a)) as [|Hgt]; [assumption|].
  rewrite N.bits_above_log2 in H by assumption. discriminate.
Qed.

Lemma log2_le a i : a <> 0 ->
  (N.log2 a <= i <-> forall j, i < j -> N.testbit a j = false).
Proof.
  intros Ha. split.
  - intros Hi j Hj. apply N.bits_above_log2. lia.
  - intros H. destruct (N.le_gt_cases (N.log2 a) i) as [|Hgt]; [assumption|].
    specialize (H _ Hgt). rewrite N.bit_log2 in H by assumption. discriminate.
Qed.

(** ** Population count and enumeration of the set bits *)

Fixpoint Nseq (start : N) (len : nat) : list N :=
  match len with O => [] | S len => start :: Nseq (start + 1) len end.

Lemma in_Nseq len start i :
  In i (Nseq start len) <-> start <= i < start + N.of_nat len.
Proof.
  revert start. induction len as [|len IH]; intros start.
  - cbn. lia.
  - cbn [Nseq In]. rewrite IH. lia.
Qed.

Lemma Nseq_app a b start :
  Nseq start (a + b) = Nseq start a ++ Nseq (start + N.of_nat a) b.
Proof.
  revert start. induction a as [|a IH]; intros start.
  - cbn. f_equal. lia.
  - cbn [Nseq Nat.add app]. f_equal. rewrite IH. do 2 f_equal. lia.
Qed.

Lemma Nseq_map_add len start k :
  Nseq (start + k) len = map (fun i => i + k) (Nseq start len).
Proof.
  revert start. induction len as [|len IH]; intros start; [reflexivity|].
  cbn [Nseq map]. f_equal. rewrite <- IH. f_equal. lia.
Qed.

Definition bits (a : N) (w : nat) : list N := filter (N.testbit a) (Nseq 0 w).

Lemma filter_none {A} (f : A -> bool) l :
  (forall x, In x l -> f x = false) -> filter f l = [].
Proof.
  induction l as [|x l IH]; intros H; [reflexivity|].
  cbn. rewrite H by (left; reflexivity). apply IH. intros y Hy. apply H.
  right. assumption.
Qed.

Lemma filter_map_comm {A B} (f : B -> bool) (g : A -> B) l :
  filter f (map g l) = map g (filter (fun x => f (g x)) l).
Proof.
  induction l as [|x l IH]; [reflexivity|]. cbn.
  destruct (f (g x)); cbn; rewrite IH; reflexivity.
Qed.

Lemma count_ones_double a : count_ones (2 * a) = count_ones a.
Proof. destruct a; reflexivity. Qed.

Lemma count_ones_double1 a : count_ones (2 * a + 1) = 1 + count_ones a.
Proof. destruct a as [|p]; [reflexivity|]. change (N.succ (pos_ones p) = 1 + pos_ones p). lia. Qed.

Lemma count_ones_bits w : forall a, a < 2 ^ N.of_nat w ->
  count_ones a = N.of_nat (length (bits a w)).
Proof.
  induction w as [|w IH]; intros a Ha.
  - cbn in Ha. replace a with 0 by lia. reflexivity.
  - rewrite (N.div2_odd a) at 1. unfold bits. cbn [Nseq filter].
    change (0 + 1) with (0 + 1). rewrite Nseq_map_add, filter_map_comm.
    assert (E : filter (fun x => N.testbit a (x + 1)) (Nseq 0 w)
                = bits (N.div2 a) w).
    { unfold bits. apply filter_ext. intros i.
      rewrite N.div2_spec, N.shiftr_spec by lia. reflexivity. }
    rewrite E.
    assert (Hd : N.div2 a < 2 ^ N.of_nat w).
    { rewrite N.div2_div. apply N.div_lt_upper_bound; [lia|].
      rewrite <- N.pow_succ_r by lia. rewrite <- Nat2N.inj_succ. assumption. }
    specialize (IH _ Hd). rewrite N.bit0_odd.
    destruct (N.odd a); cbn [N.b2n].
    + rewrite count_ones_double1. cbn [length]. rewrite map_length, IH. lia.
    + rewrite N.add_0_r, count_ones_double, map_length, IH. reflexivity.
Qed.

Lemma bits_zero w : bits 0 w = [].
Proof.
  unfold bits. apply filter_none. intros. apply N.bits_0.
Qed.

Lemma bits_pop a w : a <> 0 -> a < 2 ^ N.of_nat w ->
  bits a w = ctz 64 a :: bits (N.land a (a - 1)) w.
Proof.
  intros Ha Hw. pose proof (ctz_lt 64 _ _ Ha Hw) as Hk.
  set (k := ctz 64 a) in *. unfold bits.
  assert (Ew : w = (N.to_nat k + (1 + (w - N.to_nat k - 1)))%nat) by lia.
  rewrite Ew. rewrite !Nseq_app, !filter_app. rewrite N.add_0_l, N2Nat.id.
  rewrite (filter_none _ (Nseq 0 (N.to_nat k))).
  2:{ intros i Hi. apply in_Nseq in Hi. apply (ctz_below 64); [assumption|].
      fold k. lia. }
  rewrite (filter_none (N.testbit (N.land a (a - 1))) (Nseq 0 (N.to_nat k))).
  2:{ intros i Hi. apply in_Nseq in Hi. rewrite (land_pred_spec 64) by assumption.
      rewrite (ctz_below 64) by (try assumption; fold k; lia). reflexivity. }
  cbn [app Nseq filter]. rewrite (land_pred_spec 64) by assumption.
  fold k. rewrite N.eqb_refl, andb_false_r. unfold k at 1.
  rewrite ctz_set by assumption. cbn [app]. f_equal.
  apply filter_ext_in. intros i Hi. apply in_Nseq in Hi.
  rewrite (land_pred_spec 64) by assumption. fold k.
  destruct (N.eqb_spec i k); [lia|]. rewrite andb_true_r. reflexivity.
Qed.

Lemma bits_length a w : (length (bits a w) <= w)%nat.
Proof.
  assert (L : forall s n, length (Nseq s n) = n).
  { intros s n. revert s. induction n as [|n IH]; intros s; [reflexivity|].
    cbn. rewrite IH. reflexivity. }
  unfold bits. rewrite <- (L 0 w) at 2. generalize (Nseq 0 w). intros l.
  induction l as [|x l IH]; [cbn; lia|]. cbn. destruct (N.testbit a x); cbn; lia.
Qed.

Lemma in_bits a w i :
  In i (bits a w) <-> i < N.of_nat w /\ N.testbit a i = true.
Proof.
  unfold bits. rewrite filter_In, in_Nseq. rewrite N.add_0_l.
  intuition lia.
Qed.
