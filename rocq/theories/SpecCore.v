(** * The portable backend meets the specification *)

From Coq Require Import List Bool NArith ZArith Lia.
From Verif Require Import Types Bitboard BackendCore Words Squares BBSpec
  SpecLanes SpecSlides SpecVacant SpecSimd.
Import ListNotations.
Open Scope N_scope.

(* the value made of the 81 square bits only *)
Definition cwf (b : u128) : Prop :=
  forall i, N.testbit b i = true -> exists s, sq_bit s = i.

Lemma sq_bit_le s t : sq_bit s <= sq_bit t <-> sq_index s <= sq_index t.
Proof.
  unfold sq_bit. destruct (N.ltb_spec (sq_index s) 63), (N.ltb_spec (sq_index t) 63); lia.
Qed.

Lemma sq_bit_inj s t : sq_bit s = sq_bit t -> s = t.
Proof.
  intros H. apply sq_index_inj.
  assert (sq_index s <= sq_index t) by (apply sq_bit_le; lia).
  assert (sq_index t <= sq_index s) by (apply sq_bit_le; lia). lia.
Qed.

Lemma sq_bit_lt s : sq_bit s < 82.
Proof.
  pose proof (sq_index_lt s). unfold sq_bit. destruct (N.ltb_spec (sq_index s) 63); lia.
Qed.

(** ** Boolean operations *)

Lemma cwf_0 : cwf 0.
Proof. intros i H. rewrite N.bits_0 in H. discriminate. Qed.

Lemma cwf_ext a b : cwf a -> cwf b ->
  (forall s, core_contains a s = core_contains b s) -> a = b.
Proof.
  intros Ha Hb H. apply N_ext. intros i. apply eq_true_iff_eq. split; intros E.
  - destruct (Ha i E) as [s <-]. rewrite <- (H s : N.testbit a _ = N.testbit b _). assumption.
  - destruct (Hb i E) as [s <-]. rewrite (H s : N.testbit a _ = N.testbit b _). assumption.
Qed.

Lemma cwf_single s : cwf (core_single s).
Proof.
  intros i H. unfold core_single in H. rewrite shiftl1_spec in H.
  apply N.eqb_eq in H. exists s. congruence.
Qed.
Lemma core_single_spec s t : core_contains (core_single s) t = sq_eqb t s.
Proof.
  unfold core_contains, core_single. rewrite shiftl1_spec.
  destruct (sq_eqb_spec t s) as [->|N]; [apply N.eqb_refl|].
  apply N.eqb_neq. intros E. apply N. apply sq_bit_inj. assumption.
Qed.

Lemma cwf_land_l a b : cwf a -> cwf (N.land a b).
Proof. intros H i. rewrite N.land_spec, andb_true_iff. intros [E _]. auto. Qed.
Lemma cwf_land_r a b : cwf b -> cwf (N.land a b).
Proof. intros H i. rewrite N.land_spec, andb_true_iff. intros [_ E]. auto. Qed.
Lemma cwf_lor a b : cwf a -> cwf b -> cwf (N.lor a b).
Proof. intros Ha Hb i. rewrite N.lor_spec, orb_true_iff. intros [E|E]; auto. Qed.
Lemma cwf_lxor a b : cwf a -> cwf b -> cwf (N.lxor a b).
Proof.
  intros Ha Hb i. rewrite N.lxor_spec. destruct (N.testbit a i) eqn:A; [auto|].
  destruct (N.testbit b i) eqn:B; [auto|discriminate].
Qed.

(* a finite check on the bits of a constant *)
Lemma cwf_check b : b < 2 ^ 128 ->
  forallb (fun i => implb (N.testbit b i) (existsb (fun s => sq_bit s =? i) all_squares))
    (Nseq 0 128) = true -> cwf b.
Proof.
  intros Hb H i Hi. rewrite forallb_forall in H.
  assert (L : i < 128).
  { destruct (N.lt_ge_cases i 128) as [|G]; [assumption|].
    rewrite (testbit_high b 128) in Hi by assumption. discriminate. }
  specialize (H i). rewrite Hi in H.
  assert (E : existsb (fun s => sq_bit s =? i) all_squares = true).
  { apply H. apply in_Nseq. cbn. lia. }
  apply existsb_exists in E as [s [_ E]]. exists s. apply N.eqb_eq, E.
Qed.

Lemma cwf_mask : cwf core_mask.
Proof. apply cwf_check; vm_compute; reflexivity. Qed.
Lemma core_mask_spec s : core_contains core_mask s = true.
Proof. revert s. apply sq_forall. vm_compute. reflexivity. Qed.

Lemma cwf_ldiff a b : cwf a -> cwf (N.ldiff a b).
Proof. intros H i. rewrite N.ldiff_spec, andb_true_iff. intros [E _]. auto. Qed.
Lemma core_not_spec a s : core_contains (core_not a) s = negb (core_contains a s).
Proof.
  unfold core_contains, core_not. rewrite N.ldiff_spec.
  change (N.testbit core_mask (sq_bit s)) with (core_contains core_mask s).
  rewrite core_mask_spec. reflexivity.
Qed.

Lemma core_is_empty_spec a : cwf a ->
  (a =? 0) = negb (existsb (core_contains a) all_squares).
Proof.
  intros Ha. destruct (existsb (core_contains a) all_squares) eqn:E; cbn [negb].
  - apply N.eqb_neq. intros ->. apply existsb_exists in E as [s [_ E]].
    unfold core_contains in E. rewrite N.bits_0 in E. discriminate.
  - apply N.eqb_eq. apply N_ext. intros i. rewrite N.bits_0.
    apply not_true_iff_false. intros H. destruct (Ha i H) as [s <-].
    apply not_true_iff_false in E. apply E. apply existsb_exists.
    exists s. split; [apply all_squares_in|assumption].
Qed.

(** ** Lanes *)

Definition csplit (b : u128) : v128 := (N.land b ones64, N.shiftr b 64).

Lemma csplit_ltest b s : ltest (csplit b) s = core_contains b s.
Proof.
  unfold ltest, csplit, core_contains, sq_bit. cbn [fst snd].
  pose proof (sq_index_lt s).
  destruct (N.ltb_spec (sq_index s) 63) as [L|L].
  - rewrite land_ones64. destruct (N.ltb_spec (sq_index s) 64); [|lia].
    apply andb_true_r.
  - rewrite N.shiftr_spec'. f_equal. lia.
Qed.

Lemma csplit_lwf b : cwf b -> lwf (csplit b).
Proof.
  intros H. apply lwf_bits; unfold csplit; cbn [fst snd]; intros i Hi;
    apply not_true_iff_false; intros E.
  - rewrite land_ones64, andb_true_iff, N.ltb_lt in E. destruct E as [E L].
    destruct (H i E) as [s S]. unfold sq_bit in S.
    destruct (N.ltb_spec (sq_index s) 63); lia.
  - rewrite N.shiftr_spec' in E. destruct (H _ E) as [s S].
    pose proof (sq_bit_lt s). lia.
Qed.

Lemma csplit_value b : b = fst (csplit b) + 2 ^ 64 * snd (csplit b).
Proof.
  unfold csplit. cbn [fst snd]. rewrite ones64_ones, N.land_ones, N.shiftr_div_pow2.
  rewrite N.add_comm. apply N.div_mod. discriminate.
Qed.

Lemma core_count_spec a : cwf a ->
  count_ones a = N.of_nat (length (filter (core_contains a) all_squares)).
Proof.
  intros Ha.
  assert (B : a < 2 ^ N.of_nat 82).
  { apply lt_pow2_testbit. intros i Hi. apply not_true_iff_false. intros E.
    destruct (Ha i E) as [s S]. pose proof (sq_bit_lt s).
    change (N.of_nat 82) with 82 in Hi. lia. }
  rewrite (count_ones_bits 82) by assumption.
  rewrite (filter_ext (core_contains a) (ltest (csplit a)))
    by (intros s; symmetry; apply csplit_ltest).
  rewrite filter_ltest, app_length, !map_length.
  unfold bits. change 82%nat with (63 + (1 + 18))%nat.
  rewrite !Nseq_app, !filter_app, !app_length.
  f_equal. f_equal.
  - f_equal. apply filter_ext_in. intros i Hi. apply in_Nseq in Hi.
    change (0 + N.of_nat 63) with 63 in Hi.
    unfold csplit. cbn [fst]. rewrite land_ones64.
    destruct (N.ltb_spec i 64); [symmetry; apply andb_true_r|lia].
  - rewrite (filter_none _ (Nseq (0 + N.of_nat 63) 1)).
    + change (0 + N.of_nat 63 + N.of_nat 1) with (0 + 64).
      rewrite Nseq_map_add, filter_map_comm, map_length. cbn [length Nat.add].
      f_equal. apply filter_ext. intros i. unfold csplit. cbn [snd].
      rewrite N.shiftr_spec'. reflexivity.
    + intros i Hi. apply in_Nseq in Hi.
      change (0 + N.of_nat 63 + N.of_nat 1) with 64 in Hi.
      change (0 + N.of_nat 63) with 63 in Hi.
      apply not_true_iff_false. intros E. destruct (Ha i E) as [s S].
      unfold sq_bit in S. destruct (N.ltb_spec (sq_index s) 63); lia.
Qed.

(** ** Shifts *)

Lemma cwf_rows r : (r =? 1) || (r =? 8) = true -> cwf (rows_from r).
Proof.
  rewrite orb_true_iff, !N.eqb_eq.
  intros [ -> | -> ]; apply cwf_check; vm_compute; reflexivity.
Qed.

Lemma core_shl_spec a : cwf a ->
  cwf (core_shift_down a 1) /\
  forall t, core_contains (core_shift_down a 1) t =
    match sq_shift t 0 (-1) with Some s => core_contains a s | None => false end.
Proof.
  intros Ha. split; [apply cwf_land_r, cwf_rows; reflexivity|].
  intros t. unfold core_contains, core_shift_down. rewrite N.land_spec.
  assert (F : match sq_shift t 0 (-1) with
    | Some s => (sq_bit t =? sq_bit s + 1) && N.testbit (rows_from 1) (sq_bit t)
    | None => negb (N.testbit (rows_from 1) (sq_bit t)) end = true).
  { revert t. apply (sq_forall (fun t => match sq_shift t 0 (-1) with
    | Some s => (sq_bit t =? sq_bit s + 1) && N.testbit (rows_from 1) (sq_bit t)
    | None => negb (N.testbit (rows_from 1) (sq_bit t)) end)).
    vm_compute. reflexivity. }
  destruct (sq_shift t 0 (-1)) as [s|].
  - apply andb_prop in F as [E R]. rewrite R, andb_true_r. apply N.eqb_eq in E.
    rewrite E, N.shiftl_spec_high' by lia. f_equal. lia.
  - apply negb_true_iff in F. rewrite F. apply andb_false_r.
Qed.

Lemma core_shr_spec a : cwf a ->
  cwf (core_shift_up a 1) /\
  forall t, core_contains (core_shift_up a 1) t =
    match sq_shift t 0 1 with Some s => core_contains a s | None => false end.
Proof.
  intros Ha. split.
  - assert (R : cwf (N.shiftr (rows_from 1) 1)).
    { apply cwf_check; vm_compute; reflexivity. }
    intros i. unfold core_shift_up. rewrite N.shiftr_spec', N.land_spec.
    rewrite andb_true_iff. intros [_ E]. apply R. rewrite N.shiftr_spec'. exact E.
  - intros t. unfold core_contains, core_shift_up. rewrite N.shiftr_spec', N.land_spec.
    assert (F : match sq_shift t 0 1 with
      | Some s => (sq_bit t + 1 =? sq_bit s) && N.testbit (rows_from 1) (sq_bit s)
      | None => negb (N.testbit (rows_from 1) (sq_bit t + 1)) end = true).
    { revert t. apply (sq_forall (fun t => match sq_shift t 0 1 with
      | Some s => (sq_bit t + 1 =? sq_bit s) && N.testbit (rows_from 1) (sq_bit s)
      | None => negb (N.testbit (rows_from 1) (sq_bit t + 1)) end)).
      vm_compute. reflexivity. }
    destruct (sq_shift t 0 1) as [s|].
    + apply andb_prop in F as [E R]. apply N.eqb_eq in E. rewrite E, R.
      apply andb_true_r.
    + apply negb_true_iff in F. rewrite F. apply andb_false_r.
Qed.

(** ** Sliding *)

Lemma masked_bbs_spec i t : core_contains (masked_bbs i) t = (sq_bit t <? i).
Proof.
  unfold core_contains, masked_bbs. rewrite N.land_spec.
  change (N.testbit core_mask (sq_bit t)) with (core_contains core_mask t).
  rewrite core_mask_spec, shiftl1_pred. apply ones_spec.
Qed.

Lemma core_slide_pos_spec occ m t : cwf occ -> cwf m ->
  (core_contains (core_slide_pos occ m) t = true <->
   slid_pos (core_contains occ) (core_contains m) t).
Proof.
  intros Ho Hm. unfold core_slide_pos, core_tz, slid_pos. cbv zeta.
  set (a := N.lor (N.land occ m) bb_9i).
  assert (Hb : N.testbit bb_9i 81 = true) by reflexivity.
  assert (Ha : a <> 0).
  { intros E. assert (C : N.testbit a 81 = true).
    { unfold a. rewrite N.lor_spec, Hb. apply orb_true_r. }
    rewrite E, N.bits_0 in C. discriminate. }
  assert (L : core_contains (N.land m (masked_bbs (ctz 128 a + 1))) t =
              core_contains m t && (sq_bit t <? ctz 128 a + 1)).
  { rewrite <- masked_bbs_spec. apply N.land_spec. }
  rewrite L, andb_true_iff, N.ltb_lt. clear L.
  assert (Q : sq_bit t < ctz 128 a + 1 <-> sq_bit t <= ctz 128 a) by lia.
  rewrite Q, (le_ctz 128 a _ Ha). clear Q. split; intros [H0 H]; (split; [assumption|]).
  - intros u Hu Hou. apply sq_bit_le.
    destruct (N.le_gt_cases (sq_bit t) (sq_bit u)) as [|G]; [assumption|].
    specialize (H _ G). unfold a in H. rewrite N.lor_spec, N.land_spec in H.
    unfold core_contains in Hu, Hou. rewrite Hu, Hou in H. discriminate.
  - intros j Hj. unfold a. rewrite N.lor_spec, N.land_spec.
    apply not_true_iff_false. intros E. apply orb_prop in E as [E|E].
    + apply andb_prop in E as [E1 E2]. destruct (Ho j E1) as [u <-].
      specialize (H u E2 E1). apply sq_bit_le in H. lia.
    + assert (j = 81) as ->.
      { unfold bb_9i, core_single in E. rewrite shiftl1_spec in E.
        apply N.eqb_eq in E. exact E. }
      pose proof (sq_bit_lt t). lia.
Qed.

Lemma core_slide_neg_spec occ m t : cwf occ -> cwf m ->
  (core_contains (core_slide_neg occ m) t = true <->
   slid_neg (core_contains occ) (core_contains m) t).
Proof.
  intros Ho Hm. unfold core_slide_neg, core_lz, slid_neg. cbv zeta.
  set (a := N.lor (N.land occ m) bb_1a).
  assert (Hb : N.testbit bb_1a 0 = true) by reflexivity.
  assert (Ha : a <> 0).
  { intros E. assert (C : N.testbit a 0 = true).
    { unfold a. rewrite N.lor_spec, Hb. apply orb_true_r. }
    rewrite E, N.bits_0 in C. discriminate. }
  assert (W : cwf a).
  { apply cwf_lor; [apply cwf_land_l, Ho|]. unfold bb_1a. apply cwf_single. }
  assert (B82 : a < 2 ^ 82).
  { apply lt_pow2_testbit. intros i Hi. apply not_true_iff_false. intros E.
    destruct (W i E) as [s S]. pose proof (sq_bit_lt s). lia. }
  assert (B : a < 2 ^ 128) by (eapply N.lt_trans; [exact B82|reflexivity]).
  assert (LG : N.log2 a < 82) by (apply N.log2_lt_pow2; [lia|assumption]).
  rewrite clz_log2 by assumption.
  replace (127 - (128 - 1 - N.log2 a)) with (N.log2 a) by lia.
  assert (L : core_contains (N.land m (core_not (masked_bbs (N.log2 a)))) t =
              core_contains m t && negb (sq_bit t <? N.log2 a)).
  { rewrite <- masked_bbs_spec, <- core_not_spec. apply N.land_spec. }
  rewrite L, andb_true_iff, negb_true_iff, N.ltb_ge. clear L.
  rewrite (log2_le a _ Ha). split; intros [H0 H]; (split; [assumption|]).
  - intros u Hu Hou. apply sq_bit_le.
    destruct (N.le_gt_cases (sq_bit u) (sq_bit t)) as [|G]; [assumption|].
    specialize (H _ G). unfold a in H. rewrite N.lor_spec, N.land_spec in H.
    unfold core_contains in Hu, Hou. rewrite Hu, Hou in H. discriminate.
  - intros j Hj. unfold a. rewrite N.lor_spec, N.land_spec.
    apply not_true_iff_false. intros E. apply orb_prop in E as [E|E].
    + apply andb_prop in E as [E1 E2]. destruct (Ho j E1) as [u <-].
      specialize (H u E2 E1). apply sq_bit_le in H. lia.
    + assert (j = 0) as ->.
      { unfold bb_1a, core_single in E. rewrite shiftl1_spec in E.
        apply N.eqb_eq in E. exact E. }
      lia.
Qed.

(** ** Vacant files *)

Definition cjoin (a : v128) : u128 := fst a + 2 ^ 64 * snd a.

Lemma cjoin_testbit a i : fst a < 2 ^ 64 ->
  N.testbit (cjoin a) i = if i <? 64 then N.testbit (fst a) i
                          else N.testbit (snd a) (i - 64).
Proof.
  intros H. unfold cjoin.
  assert (D : N.land (fst a) (N.shiftl (snd a) 64) = 0).
  { apply N_ext. intros j. rewrite N.land_spec, N.bits_0.
    destruct (N.lt_ge_cases j 64).
    - rewrite N.shiftl_spec_low by assumption. apply andb_false_r.
    - rewrite (testbit_high (fst a) 64) by assumption. reflexivity. }
  assert (E : fst a + 2 ^ 64 * snd a = N.lor (fst a) (N.shiftl (snd a) 64)).
  { rewrite <- N.lxor_lor by assumption. rewrite <- N.add_nocarry_lxor by assumption.
    rewrite N.shiftl_mul_pow2. lia. }
  rewrite E, N.lor_spec. destruct (N.ltb_spec i 64).
  - rewrite N.shiftl_spec_low by assumption. apply orb_false_r.
  - rewrite N.shiftl_spec_high' by assumption.
    rewrite (testbit_high (fst a) 64) by assumption. reflexivity.
Qed.

Lemma cjoin_land a b : fst a < 2 ^ 64 -> fst b < 2 ^ 64 ->
  N.land (cjoin a) (cjoin b) = cjoin (v_and a b).
Proof.
  intros Ha Hb. apply N_ext. intros i.
  rewrite N.land_spec, !cjoin_testbit; try assumption.
  - unfold v_and, v_map2. cbn [fst snd]. destruct (_ <? _); rewrite N.land_spec; reflexivity.
  - cbn [v_and v_map2 fst]. apply land_small. assumption.
Qed.

Lemma lxor_small a b n : a < 2 ^ n -> b < 2 ^ n -> N.lxor a b < 2 ^ n.
Proof.
  intros Ha Hb. apply lt_pow2_testbit. intros i Hi.
  rewrite N.lxor_spec, (testbit_high a n), (testbit_high b n) by assumption. reflexivity.
Qed.

Lemma cjoin_lxor a b : fst a < 2 ^ 64 -> fst b < 2 ^ 64 ->
  N.lxor (cjoin a) (cjoin b) = cjoin (v_xor a b).
Proof.
  intros Ha Hb. apply N_ext. intros i.
  rewrite N.lxor_spec, !cjoin_testbit; try assumption.
  - unfold v_xor, v_map2. cbn [fst snd]. destruct (_ <? _); rewrite N.lxor_spec; reflexivity.
  - cbn [v_xor v_map2 fst]. apply lxor_small; assumption.
Qed.

Lemma cjoin_sub a b : fst b <= fst a -> snd b <= snd a ->
  cjoin b <= cjoin a /\
  cjoin a - cjoin b = cjoin (fst a - fst b, snd a - snd b).
Proof. intros H0 H1. unfold cjoin. cbn [fst snd]. change (2 ^ 64) with 18446744073709551616. lia. Qed.

Lemma cjoin_mul k a b : cjoin (k * a, k * b) = k * cjoin (a, b).
Proof. unfold cjoin. cbn [fst snd]. lia. Qed.

Lemma cwf_cjoin a : lwf a -> cwf (cjoin a).
Proof.
  intros Ha i. rewrite cjoin_testbit by (apply lwf_64, Ha).
  destruct (N.ltb_spec i 64) as [L|L]; intros E.
  - destruct (N.lt_ge_cases i 63) as [L'|L'].
    + exists (sq0 i). unfold sq_bit. rewrite sq0_index by assumption.
      apply N.ltb_lt in L'. rewrite L'. reflexivity.
    + rewrite (testbit_high _ 63) in E; [discriminate|apply Ha|assumption].
  - destruct (N.lt_ge_cases (i - 64) 18) as [L'|L'].
    + exists (sq1 (i - 64)). unfold sq_bit. rewrite sq1_index by assumption.
      destruct (N.ltb_spec (63 + (i - 64)) 63); lia.
    + rewrite (testbit_high _ 18) in E; [discriminate|apply Ha|assumption].
Qed.

Lemma cjoin_contains a s : lwf a -> core_contains (cjoin a) s = ltest a s.
Proof.
  intros Ha. unfold core_contains. rewrite cjoin_testbit by (apply lwf_64, Ha).
  unfold ltest, sq_bit. destruct (N.ltb_spec (sq_index s) 63).
  - destruct (N.ltb_spec (sq_index s) 64); [reflexivity|lia].
  - destruct (N.ltb_spec (sq_index s + 1) 64); [lia|]. f_equal. lia.
Qed.

Lemma rows_8 : rows_from 8 = vacant_mask.
Proof. vm_compute. reflexivity. Qed.
Lemma vacant_mask_join :
  vacant_mask = cjoin (und (fun _ => 256) files0, und (fun _ => 256) files1).
Proof. vm_compute. reflexivity. Qed.

Lemma sub128_ge checks a b : b <= a -> sub128 checks a b = Some (a - b).
Proof. intros H. unfold sub128. apply N.leb_le in H. rewrite H. reflexivity. Qed.

Lemma core_vacant_spec checks b : cwf b ->
  (forall s t, core_contains b s = true -> core_contains b t = true ->
               sqf s = sqf t -> sqr s = n9 -> s = t) ->
  core_vacant_files checks b = Some (cjoin (vac_of (csplit b))) /\
  exists d e, core_vacant_values checks b = Some (d, e) /\ cwf d /\ cwf e.
Proof.
  intros Hb U. set (a := csplit b).
  assert (Ha : lwf a) by (apply csplit_lwf, Hb).
  assert (U' : forall s t, ltest a s = true -> ltest a t = true -> sqf s = sqf t -> sqr s = n9 -> s = t).
  { intros s t. unfold a. rewrite !csplit_ltest. apply U. }
  pose proof (of_rank_digits a Ha) as E.
  assert (Eb : b = cjoin (of_digits (rank_digit a))).
  { rewrite <- E. apply csplit_value. }
  pose proof (rank_digit_le a U') as B.
  destruct (vac_group (rank_digit a) files0 B) as [L0 [M0 [D0 V0]]].
  destruct (vac_group (rank_digit a) files1 B) as [L1 [M1 [D1 V1]]].
  unfold core_vacant_files, core_vacant_values, core_shift_up. rewrite rows_8, vacant_mask_join.
  unfold vac_of, of_digits. rewrite <- V0, <- V1. clear V0 V1.
  set (m0 := und (fun _ => 256) files0) in *.
  set (m1 := und (fun _ => 256) files1) in *.
  assert (P0 : m0 < 2 ^ 64) by reflexivity.
  assert (R0 : m0 < 2 ^ 63) by reflexivity.
  assert (R1 : m1 < 2 ^ 18) by reflexivity.
  clearbody m0 m1.
  assert (S1 : cjoin (of_digits (rank_digit a)) <= cjoin (m0, m1) /\
    cjoin (m0, m1) - cjoin (of_digits (rank_digit a)) =
    cjoin (m0 - und (rank_digit a) files0, m1 - und (rank_digit a) files1)).
  { apply (cjoin_sub (m0, m1) (of_digits (rank_digit a))); assumption. }
  destruct S1 as [S1 S2]. rewrite <- Eb in S1, S2.
  rewrite sub128_ge by exact S1. cbn [bind]. rewrite S2.
  assert (Q0 : m0 - und (rank_digit a) files0 < 2 ^ 64)
    by (eapply N.le_lt_trans; [apply N.le_sub_l|exact P0]).
  rewrite cjoin_land by assumption. unfold v_and, v_map2. cbn [fst snd].
  assert (SH : N.shiftr (cjoin (N.land (m0 - und (rank_digit a) files0) m0,
                                N.land (m1 - und (rank_digit a) files1) m1)) 8 =
    cjoin (N.shiftr (N.land (m0 - und (rank_digit a) files0) m0) 8,
           N.shiftr (N.land (m1 - und (rank_digit a) files1) m1) 8)).
  { rewrite D0, D1, !und_mul.
    rewrite cjoin_mul.
    rewrite !N.shiftr_div_pow2. change (2 ^ 8) with 256.
    rewrite !(N.mul_comm 256), !N.div_mul by discriminate. reflexivity. }
  rewrite SH.
  set (d0 := N.shiftr (N.land (m0 - und (rank_digit a) files0) m0) 8) in *.
  set (d1 := N.shiftr (N.land (m1 - und (rank_digit a) files1) m1) 8) in *.
  destruct (cjoin_sub (m0, m1) (d0, d1) M0 M1) as [S3 S4].
  rewrite sub128_ge by exact S3. cbn [bind]. rewrite S4. cbn [fst snd].
  assert (Q1 : m0 - d0 < 2 ^ 64)
    by (eapply N.le_lt_trans; [apply N.le_sub_l|exact P0]).
  rewrite cjoin_lxor by assumption. split; [reflexivity|].
  eexists _, _. split; [reflexivity|]. split; apply cwf_cjoin; split; cbn [fst snd];
    (eapply N.le_lt_trans; [apply N.le_sub_l|assumption]).
Qed.

Definition core_bbspec (checks : bool) : bbspec (core_ops checks).
Proof.
  refine (mkSpec (core_ops checks) cwf _ _ _ _ _ _ _ _ _ _ _ _ _ _ _ _ _ _ _ _ _ _ _ _ _ _ _ _);
    cbn [core_ops bb bempty bsingle band bor bxor bnot bis_empty bcontains bcount
         biter bshl bshr bslide_pos_c bslide_neg_c bslide_pos2 bslide_neg2 bvacant].
  - exact cwf_ext.
  - exact cwf_0.
  - intros s. apply N.bits_0.
  - exact cwf_single.
  - exact core_single_spec.
  - intros a b Ha. apply cwf_land_l, Ha.
  - intros a b Hb. rewrite N.land_comm. apply cwf_land_l, Hb.
  - intros a b s. apply N.land_spec.
  - exact cwf_lor.
  - intros a b s. apply N.lor_spec.
  - exact cwf_lxor.
  - intros a b s. apply N.lxor_spec.
  - intros a. apply cwf_ldiff, cwf_mask.
  - exact core_not_spec.
  - exact core_is_empty_spec.
  - exact core_count_spec.
  - reflexivity.
  - intros a Ha _. apply core_shl_spec, Ha.
  - intros a Ha _. apply core_shr_spec, Ha.
  - intros occ m _ Hm. apply cwf_land_l, Hm.
  - intros occ m t Ho Hm _. apply core_slide_pos_spec; assumption.
  - intros occ m _ Hm. apply cwf_land_l, Hm.
  - intros occ m t Ho Hm _. apply core_slide_neg_spec; assumption.
  - intros occ ms _ H0 H1. apply cwf_lor; apply cwf_land_l; assumption.
  - intros occ ms t Ho H0 H1. rewrite <- !core_slide_pos_spec by assumption.
    unfold core_contains. rewrite N.lor_spec. apply orb_true_iff.
  - intros occ ms _ H0 H1. apply cwf_lor; apply cwf_land_l; assumption.
  - intros occ ms t Ho H0 H1. rewrite <- !core_slide_neg_spec by assumption.
    unfold core_contains. rewrite N.lor_spec. apply orb_true_iff.
  - intros a Ha U. exists (cjoin (vac_of (csplit a))).
    split; [apply (core_vacant_spec checks a Ha U)|].
    split; [apply cwf_cjoin, lwf_vac_of|].
    intros t. rewrite cjoin_contains by apply lwf_vac_of.
    rewrite ltest_vac_of. f_equal. apply existsb_ext_fun. intros s.
    rewrite csplit_ltest. reflexivity.
Defined.
