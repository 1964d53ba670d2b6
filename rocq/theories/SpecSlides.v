(** * Sliding on two-lane bitboards *)

From Coq Require Import List Bool NArith ZArith Lia.
From Verif Require Import Types Bitboard Words Squares BBSpec SpecLanes.
Import ListNotations.
Open Scope N_scope.

(* no blocker strictly before (after) [t] *)
Definition nb_before (a : v128) (t : square) : Prop :=
  forall u, ltest a u = true -> sq_index t <= sq_index u.
Definition nb_after (a : v128) (t : square) : Prop :=
  forall u, ltest a u = true -> sq_index u <= sq_index t.

Lemma slid_pos_lanes occ m t :
  slid_pos (ltest occ) (ltest m) t <->
  ltest m t = true /\ nb_before (v_and occ m) t.
Proof.
  unfold slid_pos, nb_before. split; intros [H1 H2]; split; try assumption.
  - intros u Hu. rewrite ltest_and in Hu. apply andb_prop in Hu as [Ho Hm]. auto.
  - intros u Hm Ho. apply H2. rewrite ltest_and, Hm, Ho. reflexivity.
Qed.
Lemma slid_neg_lanes occ m t :
  slid_neg (ltest occ) (ltest m) t <->
  ltest m t = true /\ nb_after (v_and occ m) t.
Proof.
  unfold slid_neg, nb_after. split; intros [H1 H2]; split; try assumption.
  - intros u Hu. rewrite ltest_and in Hu. apply andb_prop in Hu as [Ho Hm]. auto.
  - intros u Hm Ho. apply H2. rewrite ltest_and, Hm, Ho. reflexivity.
Qed.

Lemma ltest_lane0 a u : sq_index u < 63 -> ltest a u = N.testbit (fst a) (sq_index u).
Proof. intros H. unfold ltest. apply N.ltb_lt in H. rewrite H. reflexivity. Qed.
Lemma ltest_lane1 a u : 63 <= sq_index u ->
  ltest a u = N.testbit (snd a) (sq_index u - 63).
Proof. intros H. unfold ltest. apply N.ltb_ge in H. rewrite H. reflexivity. Qed.

Lemma zero_lane0 a : lwf a ->
  (fst a = 0 <-> forall u, sq_index u < 63 -> ltest a u = false).
Proof.
  intros [H0 _]. split.
  - intros E u Hu. rewrite ltest_lane0 by assumption. rewrite E. apply N.bits_0.
  - intros H. apply N_ext. intros i. rewrite N.bits_0.
    destruct (N.lt_ge_cases i 63).
    + rewrite <- ltest_sq0 by assumption. apply H. rewrite sq0_index; assumption.
    + apply (testbit_high _ 63); assumption.
Qed.
Lemma zero_lane1 a : lwf a ->
  (snd a = 0 <-> forall u, 63 <= sq_index u -> ltest a u = false).
Proof.
  intros [_ H0]. split.
  - intros E u Hu. rewrite ltest_lane1 by assumption. rewrite E. apply N.bits_0.
  - intros H. apply N_ext. intros i. rewrite N.bits_0.
    destruct (N.lt_ge_cases i 18).
    + rewrite <- ltest_sq1 by assumption. apply H. rewrite sq1_index; lia.
    + apply (testbit_high _ 18); assumption.
Qed.

Lemma before0 a t : lwf a -> sq_index t < 63 ->
  (nb_before a t <-> forall j, j < sq_index t -> N.testbit (fst a) j = false).
Proof.
  intros Ha Ht. split.
  - intros H j Hj. apply not_true_iff_false. intros Hb.
    rewrite <- ltest_sq0 in Hb by lia. apply H in Hb. rewrite sq0_index in Hb; lia.
  - intros H u Hu. destruct (N.le_gt_cases (sq_index t) (sq_index u)); [assumption|].
    rewrite ltest_lane0, H in Hu by lia. discriminate.
Qed.
Lemma before1 a t : lwf a -> 63 <= sq_index t ->
  (nb_before a t <-> fst a = 0 /\
     forall j, j < sq_index t - 63 -> N.testbit (snd a) j = false).
Proof.
  intros Ha Ht. pose proof (sq_index_lt t). rewrite zero_lane0 by assumption. split.
  - intros H1. split.
    + intros u Hu. apply not_true_iff_false. intros Hb. apply H1 in Hb. lia.
    + intros j Hj. apply not_true_iff_false. intros Hb.
      rewrite <- ltest_sq1 in Hb by lia. apply H1 in Hb.
      rewrite sq1_index in Hb; lia.
  - intros [Z H1] u Hu.
    destruct (N.le_gt_cases (sq_index t) (sq_index u)); [assumption|].
    destruct (N.lt_ge_cases (sq_index u) 63).
    + rewrite Z in Hu by assumption. discriminate.
    + rewrite ltest_lane1, H1 in Hu by lia. discriminate.
Qed.
Lemma after0 a t : lwf a -> sq_index t < 63 ->
  (nb_after a t <-> snd a = 0 /\
     forall j, sq_index t < j -> N.testbit (fst a) j = false).
Proof.
  intros Ha Ht. rewrite zero_lane1 by assumption. split.
  - intros H1. split.
    + intros u Hu. apply not_true_iff_false. intros Hb. apply H1 in Hb. lia.
    + intros j Hj. apply not_true_iff_false. intros Hb.
      destruct (N.lt_ge_cases j 63).
      * rewrite <- ltest_sq0 in Hb by lia. apply H1 in Hb.
        rewrite sq0_index in Hb; lia.
      * rewrite (testbit_high _ 63) in Hb by (try assumption; apply Ha).
        discriminate.
  - intros [Z H1] u Hu.
    destruct (N.le_gt_cases (sq_index u) (sq_index t)); [assumption|].
    destruct (N.lt_ge_cases (sq_index u) 63).
    + rewrite ltest_lane0, H1 in Hu by lia. discriminate.
    + rewrite Z in Hu by assumption. discriminate.
Qed.
Lemma after1 a t : lwf a -> 63 <= sq_index t ->
  (nb_after a t <->
     forall j, sq_index t - 63 < j -> N.testbit (snd a) j = false).
Proof.
  intros Ha Ht. pose proof (sq_index_lt t). split.
  - intros H1 j Hj. apply not_true_iff_false. intros Hb.
    destruct (N.lt_ge_cases j 18).
    + rewrite <- ltest_sq1 in Hb by lia. apply H1 in Hb.
      rewrite sq1_index in Hb; lia.
    + rewrite (testbit_high _ 18) in Hb by (try assumption; apply Ha).
      discriminate.
  - intros H1 u Hu.
    destruct (N.le_gt_cases (sq_index u) (sq_index t)); [assumption|].
    rewrite ltest_lane1, H1 in Hu by lia. discriminate.
Qed.

(** ** The consecutive variants *)

(* x ^ (x - 1) with wrap-around at 0 *)
Lemma blsmsk_spec a i : a < 2 ^ 64 -> i < 64 ->
  (N.testbit (N.lxor a (wadd64 a ones64)) i = true <->
   forall j, j < i -> N.testbit a j = false).
Proof.
  intros Ha Hi. rewrite wadd64_ones by assumption.
  destruct (N.eqb_spec a 0) as [->|N0].
  - rewrite N.lxor_0_l, ones64_ones, ones_spec.
    apply N.ltb_lt in Hi. rewrite Hi. split; [|reflexivity].
    intros _ j _. apply N.bits_0.
  - rewrite (lxor_pred_spec 64) by assumption. rewrite N.leb_le.
    apply le_ctz. assumption.
Qed.

Lemma file_index u : sqf u = sqf (sq_of_u8 (sq_index u + 1)).
Proof. rewrite sq_of_u8_index. reflexivity. Qed.

Definition lane0_file (f : i9) : bool :=
  match f with n8 | n9 => false | _ => true end.
Lemma lane0_file_spec u : (sq_index u <? 63) = lane0_file (sqf u).
Proof.
  apply eqb_prop. revert u.
  apply (sq_forall (fun u => Bool.eqb (sq_index u <? 63) (lane0_file (sqf u)))).
  vm_compute. reflexivity.
Qed.

Lemma one_file_lanes m u v : one_file (ltest m) ->
  ltest m u = true -> ltest m v = true ->
  (sq_index u < 63 <-> sq_index v < 63).
Proof.
  intros H Hu Hv. pose proof (H u v Hu Hv) as E.
  rewrite <- !N.ltb_lt, !lane0_file_spec, E. tauto.
Qed.

Lemma lwf_slide_pos_c occ m : lwf occ -> lwf m -> lwf (lanes_slide_pos_c occ m).
Proof. intros Ho Hm. apply lwf_and_r, Hm. Qed.

Lemma v_eq_refl a : v_eq a a = (ones64, ones64).
Proof. unfold v_eq, v_map2. rewrite !N.eqb_refl. reflexivity. Qed.

Lemma lanes_slide_pos_c_spec occ m t : lwf occ -> lwf m ->
  one_file (ltest m) ->
  (ltest (lanes_slide_pos_c occ m) t = true <->
   slid_pos (ltest occ) (ltest m) t).
Proof.
  intros Ho Hm Hf. rewrite slid_pos_lanes.
  unfold lanes_slide_pos_c. rewrite v_eq_refl, ltest_and, andb_true_iff.
  set (a := v_and occ m). assert (Ha : lwf a) by (apply lwf_and; assumption).
  destruct (lwf_64 a Ha) as [A0 A1].
  assert (Hmt : ltest m t = true ->
    (ltest (v_xor a (v_add a (ones64, ones64))) t = true <-> nb_before a t)).
  { intros Ht. pose proof (sq_index_lt t).
    destruct (N.lt_ge_cases (sq_index t) 63) as [L|L].
    - rewrite before0 by assumption. rewrite ltest_lane0 by assumption.
      cbn [v_xor v_add v_map2 fst snd]. apply blsmsk_spec; [assumption|lia].
    - rewrite before1 by assumption. rewrite ltest_lane1 by assumption.
      cbn [v_xor v_add v_map2 fst snd].
      rewrite blsmsk_spec by (try assumption; lia).
      assert (Z : fst a = 0).
      { apply zero_lane0; [assumption|]. intros u Hu. apply not_true_iff_false.
        unfold a. rewrite ltest_and. intros Hb. apply andb_prop in Hb as [_ Hb].
        apply (one_file_lanes m u t Hf Hb Ht) in Hu. lia. }
      tauto. }
  tauto.
Qed.

Lemma lwf_slide_neg_c occ m : lwf occ -> lwf m -> lwf (lanes_slide_neg_c occ m).
Proof. intros Ho Hm. apply lwf_andc, Hm. Qed.

(* the smeared word: some bit 1..8 places higher is set *)
Definition smear (a : N) : N :=
  let m := N.lor a (wshr64 a 1) in
  let m := N.lor m (wshr64 m 2) in
  let m := N.lor m (wshr64 m 4) in
  wshr64 m 1.

Lemma smear_spec a i :
  N.testbit (smear a) i = true <->
  exists d, 1 <= d <= 8 /\ N.testbit a (i + d) = true.
Proof.
  unfold smear. rewrite !wshr_spec, !N.lor_spec, !wshr_spec, !N.lor_spec,
    !wshr_spec, !N.lor_spec, !wshr_spec.
  rewrite !orb_true_iff. split.
  - intros H.
    repeat match goal with
    | H : _ \/ _ |- _ => destruct H as [H|H]
    end; (eexists; split; [|rewrite <- H; f_equal; rewrite <- ?N.add_assoc; reflexivity]);
      lia.
  - intros [d [Hd H]].
    assert (C : d = 1 \/ d = 2 \/ d = 3 \/ d = 4 \/ d = 5 \/ d = 6 \/ d = 7 \/ d = 8)
      by lia.
    rewrite <- ?N.add_assoc.
    destruct C as [ -> | [ -> | [ -> | [ -> | [ -> | [ -> | [ -> | -> ]]]]]]]; cbn [N.add Pos.add Pos.succ];
      tauto.
Qed.

Lemma lanes_slide_neg_c_smear occ m :
  lanes_slide_neg_c occ m =
  v_andc m (smear (fst (v_and occ m)), smear (snd (v_and occ m))).
Proof. reflexivity. Qed.

Lemma file_span u v : sqf u = sqf v -> sq_index v <= sq_index u ->
  sq_index u <= sq_index v + 8.
Proof.
  unfold sq_index. intros -> _. destruct (sqr u), (sqr v); cbn [i9N]; lia.
Qed.

Lemma lanes_slide_neg_c_spec occ m t : lwf occ -> lwf m ->
  one_file (ltest m) ->
  (ltest (lanes_slide_neg_c occ m) t = true <->
   slid_neg (ltest occ) (ltest m) t).
Proof.
  intros Ho Hm Hf. rewrite slid_neg_lanes.
  rewrite lanes_slide_neg_c_smear, ltest_andc, andb_true_iff, negb_true_iff.
  set (a := v_and occ m). assert (Ha : lwf a) by (apply lwf_and; assumption).
  assert (Am : forall u, ltest a u = true -> ltest m u = true).
  { intros u. unfold a. rewrite ltest_and. intros H. apply andb_prop in H. tauto. }
  assert (Hmt : ltest m t = true ->
    (ltest (smear (fst a), smear (snd a)) t = false <-> nb_after a t)).
  { intros Ht. pose proof (sq_index_lt t).
    destruct (N.lt_ge_cases (sq_index t) 63) as [L|L].
    - rewrite after0 by assumption. rewrite ltest_lane0 by assumption.
      cbn [fst snd]. rewrite <- not_true_iff_false, smear_spec.
      assert (Z : snd a = 0).
      { apply zero_lane1; [assumption|]. intros u Hu. apply not_true_iff_false.
        intros Hb. apply Am in Hb.
        apply (one_file_lanes m t u Hf Ht Hb) in L. lia. }
      split.
      + intros H1. split; [assumption|]. intros j Hj.
        apply not_true_iff_false. intros Hb. apply H1.
        destruct (N.lt_ge_cases j 63).
        2:{ rewrite (testbit_high _ 63) in Hb by (try assumption; apply Ha).
            discriminate. }
        exists (j - sq_index t). rewrite <- ltest_sq0 in Hb by assumption.
        pose proof (file_span (sq0 j) t (Hf _ _ (Am _ Hb) Ht)) as F.
        rewrite sq0_index in F by assumption. split; [lia|].
        replace (sq_index t + (j - sq_index t)) with j by lia.
        rewrite <- ltest_sq0; assumption.
      + intros [_ H1] [d [Hd Hb]]. rewrite H1 in Hb by lia. discriminate.
    - rewrite after1 by assumption. rewrite ltest_lane1 by assumption.
      cbn [fst snd]. rewrite <- not_true_iff_false, smear_spec.
      split.
      + intros H1 j Hj.
        apply not_true_iff_false. intros Hb. apply H1.
        destruct (N.lt_ge_cases j 18).
        2:{ rewrite (testbit_high _ 18) in Hb by (try assumption; apply Ha).
            discriminate. }
        exists (j - (sq_index t - 63)). rewrite <- ltest_sq1 in Hb by assumption.
        pose proof (file_span (sq1 j) t (Hf _ _ (Am _ Hb) Ht)) as F.
        rewrite sq1_index in F by assumption. split; [lia|].
        replace (sq_index t - 63 + (j - (sq_index t - 63))) with j by lia.
        rewrite <- ltest_sq1; assumption.
      + intros H1 [d [Hd Hb]]. rewrite H1 in Hb by lia. discriminate. }
  tauto.
Qed.

(** ** The two-word scans of aarch64 and wasm32 *)

Lemma lanes_masked_0 i j : i <= 64 ->
  N.testbit (fst (lanes_masked i)) j = (j <? i).
Proof.
  intros Hi. unfold lanes_masked. rewrite shiftl1_pred. cbn [fst].
  rewrite land_ones64, ones_spec.
  destruct (N.ltb_spec j i), (N.ltb_spec j 64); cbn; reflexivity || lia.
Qed.
Lemma lanes_masked_0' i j : 64 <= i -> j < 64 ->
  N.testbit (fst (lanes_masked i)) j = true.
Proof.
  intros Hi Hj. unfold lanes_masked. rewrite shiftl1_pred. cbn [fst].
  rewrite land_ones64, ones_spec.
  destruct (N.ltb_spec j i), (N.ltb_spec j 64); cbn; reflexivity || lia.
Qed.
Lemma lanes_masked_1 i j : 64 <= i <= 128 ->
  N.testbit (snd (lanes_masked i)) j = (j <? i - 64).
Proof.
  intros Hi. unfold lanes_masked. rewrite shiftl1_pred. cbn [snd].
  rewrite land_ones64, N.shiftr_spec', ones_spec.
  destruct (N.ltb_spec (j + 64) i), (N.ltb_spec j 64), (N.ltb_spec j (i - 64));
    cbn; reflexivity || lia.
Qed.
Lemma lanes_masked_1' i j : i <= 64 ->
  N.testbit (snd (lanes_masked i)) j = false.
Proof.
  intros Hi. unfold lanes_masked. rewrite shiftl1_pred. cbn [snd].
  rewrite land_ones64, N.shiftr_spec', ones_spec.
  destruct (N.ltb_spec (j + 64) i); cbn; reflexivity || lia.
Qed.

Lemma lwf_slide_pos occ m : lwf m -> lwf (lanes_slide_pos occ m).
Proof. intros Hm. apply lwf_and_l, Hm. Qed.
Lemma lwf_slide_neg occ m : lwf m -> lwf (lanes_slide_neg occ m).
Proof. intros Hm. apply lwf_andc, Hm. Qed.

Lemma lor_nonzero_r a b : b <> 0 -> N.lor a b <> 0.
Proof. intros Hb H. apply N.lor_eq_0_iff in H. tauto. Qed.

Lemma lanes_slide_pos_spec occ m t : lwf occ -> lwf m ->
  (ltest (lanes_slide_pos occ m) t = true <->
   slid_pos (ltest occ) (ltest m) t).
Proof.
  intros Ho Hm. rewrite slid_pos_lanes.
  unfold lanes_slide_pos, lanes_tz. set (a := v_and occ m).
  assert (Ha : lwf a) by (apply lwf_and; assumption).
  rewrite ltest_and, andb_true_iff.
  assert (H : ltest (lanes_masked
     ((if fst a =? 0 then ctz 64 (N.lor (snd a) 131072) + 64
       else ctz 64 (fst a)) + 1)) t = true <-> nb_before a t); [|tauto].
  pose proof (sq_index_lt t). destruct Ha as [A0 A1].
  destruct (N.eqb_spec (fst a) 0) as [E|E].
  - set (b := N.lor (snd a) 131072).
    assert (Hb : b <> 0) by (apply lor_nonzero_r; discriminate).
    assert (Hb17 : ctz 64 b <= 17).
    { apply ctz_le. unfold b. rewrite N.lor_spec. rewrite orb_true_iff. right.
      reflexivity. }
    destruct (N.lt_ge_cases (sq_index t) 63) as [L|L].
    + rewrite before0 by (try split; assumption). rewrite ltest_lane0 by assumption.
      rewrite lanes_masked_0' by lia. rewrite E.
      split; [intros _ j _; apply N.bits_0|reflexivity].
    + rewrite before1 by (try split; assumption). rewrite ltest_lane1 by assumption.
      rewrite lanes_masked_1 by lia. rewrite N.ltb_lt.
      assert (Q : sq_index t - 63 < ctz 64 b + 64 + 1 - 64 <->
                  sq_index t - 63 <= ctz 64 b) by lia.
      rewrite Q, le_ctz by assumption.
      assert (R : forall j, j < sq_index t - 63 ->
                 N.testbit b j = N.testbit (snd a) j).
      { intros j Hj. unfold b. rewrite N.lor_spec.
        change 131072 with (2 ^ 17). rewrite N.pow2_bits_eqb.
        destruct (N.eqb_spec 17 j); [lia|]. apply orb_false_r. }
      split.
      * intros H1. split; [assumption|]. intros j Hj. rewrite <- R by assumption.
        apply H1. assumption.
      * intros [_ H1] j Hj. rewrite R by assumption. apply H1. assumption.
  - pose proof (ctz_lt 64 63 (fst a) E A0) as C.
    destruct (N.lt_ge_cases (sq_index t) 63) as [L|L].
    + rewrite before0 by (try split; assumption). rewrite ltest_lane0 by assumption.
      rewrite lanes_masked_0 by lia. rewrite N.ltb_lt.
      assert (Q : sq_index t < ctz 64 (fst a) + 1 <->
                  sq_index t <= ctz 64 (fst a)) by lia.
      rewrite Q. apply le_ctz. assumption.
    + rewrite before1 by (try split; assumption). rewrite ltest_lane1 by assumption.
      rewrite lanes_masked_1' by lia. split; [discriminate|tauto].
Qed.

Lemma lanes_slide_neg_spec occ m t : lwf occ -> lwf m ->
  (ltest (lanes_slide_neg occ m) t = true <->
   slid_neg (ltest occ) (ltest m) t).
Proof.
  intros Ho Hm. rewrite slid_neg_lanes.
  unfold lanes_slide_neg, lanes_lz. set (a := v_and occ m).
  assert (Ha : lwf a) by (apply lwf_and; assumption).
  rewrite ltest_andc, andb_true_iff, negb_true_iff.
  assert (H : ltest (lanes_masked
     (127 - (if snd a =? 0 then clz 64 (N.lor (fst a) 1) + 64
       else clz 64 (snd a)))) t = false <-> nb_after a t); [|tauto].
  pose proof (sq_index_lt t). pose proof (lwf_64 a Ha) as [B0 B1].
  destruct (N.eqb_spec (snd a) 0) as [E|E].
  - set (b := N.lor (fst a) 1).
    assert (Hb : b <> 0) by (apply lor_nonzero_r; discriminate).
    assert (Hb64 : b < 2 ^ 63).
    { apply lt_pow2_testbit. intros i Hi. unfold b. rewrite N.lor_spec.
      rewrite (testbit_high (fst a) 63) by (try apply Ha; assumption).
      change 1 with (2 ^ 0). rewrite N.pow2_bits_eqb.
      destruct (N.eqb_spec 0 i); [lia|reflexivity]. }
    assert (Hlog : N.log2 b < 63) by (apply N.log2_lt_pow2; [lia|assumption]).
    rewrite (clz_log2 64 b) by (try assumption; apply lt63_64; assumption).
    replace (127 - (64 - 1 - N.log2 b + 64)) with (N.log2 b) by lia.
    destruct (N.lt_ge_cases (sq_index t) 63) as [L|L].
    + rewrite after0 by assumption. rewrite ltest_lane0 by assumption.
      rewrite lanes_masked_0 by lia. rewrite N.ltb_ge, log2_le by assumption.
      assert (R : forall j, sq_index t < j ->
                 N.testbit b j = N.testbit (fst a) j).
      { intros j Hj. unfold b. rewrite N.lor_spec.
        change 1 with (2 ^ 0). rewrite N.pow2_bits_eqb.
        destruct (N.eqb_spec 0 j); [lia|]. apply orb_false_r. }
      split.
      * intros H1. split; [assumption|]. intros j Hj. rewrite <- R by assumption.
        apply H1. assumption.
      * intros [_ H1] j Hj. rewrite R by assumption. apply H1. assumption.
    + rewrite after1 by assumption. rewrite ltest_lane1 by assumption.
      rewrite lanes_masked_1' by lia. rewrite E.
      split; [intros _ j _; apply N.bits_0|reflexivity].
  - assert (Hlog : N.log2 (snd a) < 18)
      by (apply N.log2_lt_pow2; [lia|apply Ha]).
    rewrite (clz_log2 64 (snd a)) by assumption.
    replace (127 - (64 - 1 - N.log2 (snd a))) with (64 + N.log2 (snd a)) by lia.
    destruct (N.lt_ge_cases (sq_index t) 63) as [L|L].
    + rewrite after0 by assumption. rewrite ltest_lane0 by assumption.
      rewrite lanes_masked_0' by lia. split; [discriminate|tauto].
    + rewrite after1 by assumption. rewrite ltest_lane1 by assumption.
      rewrite lanes_masked_1 by lia. rewrite N.ltb_ge.
      replace (64 + N.log2 (snd a) - 64) with (N.log2 (snd a)) by lia.
      apply log2_le. assumption.
Qed.
