(** * src/bitboard/core.rs: its text does what [core_ops] does *)

From Coq Require Import List Bool NArith ZArith Lia.
From Verif Require Import Types Bitboard BackendCore BackendSimd Intrinsics Words SpecLanes Unsafe RustSyntax RustNames RustSem TextDefs BitsDefs BitsRun.
Import ListNotations.

Section Ops.
Context {o : bbops} (checks : bool).
Notation steps := (steps o checks core_prog none).
Notation gives := (@gives o checks core_prog).
Notation B := id_Bitboard.

Lemma t_shl a : gives B id_shl [raw a] (raw (core_shift_down a 1)).
Proof. intros e k. go. apply b_end. reflexivity. Qed.
Lemma t_shr a : gives B id_shr [raw a] (raw (core_shift_up a 1)).
Proof. intros e k. go. apply b_end. reflexivity. Qed.

Definition masked_arr : list (val o) := map (fun n => VRaw o (masked_bbs (N.of_nat n))) (seq 0 83).
Definition masked_body := Eval vm_compute in const_body core_prog id_MASKED_BBS.
Lemma t_masked : forall e k, steps (Run o (CStmts o masked_body) [(id_Self, VStr o id_)] (KScope o 1 :: KConst o e :: k))
  (Resume o (VArr o masked_arr) e k).
Proof. unfold masked_body. constant. Qed.
Lemma get_masked i : (i < 83)%N -> list_get o masked_arr (Z.of_N i) = Some (VRaw o (masked_bbs i)).
Proof. intros H. unfold masked_arr. rewrite get_seq by exact H. rewrite N2Nat.id. reflexivity. Qed.

Lemma tz_next a m :
  arith checks Usize (Z.of_N (ctz 128 (Z.to_N (Z.of_N (N.lor (N.land a m) bb_9i)))) + 1) = Some (Z.of_N (core_tz a m + 1)).
Proof.
  destruct (core_index a m) as [I _]. rewrite N2Z.id. fold (core_tz a m).
  change 1%Z with (Z.of_N 1). rewrite <- N2Z.inj_add. apply arith_ok, (range_width Usize 64 _ eq_refl).
  change (2 ^ 64)%Z with 18446744073709551616%Z. lia.
Qed.
Lemma lz_next a m :
  arith checks Usize (127 - Z.of_N (clz 128 (Z.to_N (Z.of_N (N.lor (N.land a m) bb_1a))))) = Some (Z.of_N (127 - core_lz a m)).
Proof.
  destruct (core_index a m) as [_ [I _]]. rewrite N2Z.id. fold (core_lz a m).
  change 127%Z with (Z.of_N 127). rewrite <- N2Z.inj_sub by exact I. apply arith_ok, (range_width Usize 64 _ eq_refl).
  change (2 ^ 64)%Z with 18446744073709551616%Z. lia.
Qed.
Lemma t_pos a m : gives id_ id_sliding_positive [raw a; raw m] (raw (core_slide_pos a m)).
Proof.
  intros e k. destruct (core_index a m) as [I _]. go. call t_masked. go.
  eapply b_some; [exact (f_equal (option_map (VInt o Usize)) (tz_next a m))|]. go.
  eapply b_some; [exact (get_masked _ I)|]. go. apply b_end. reflexivity.
Qed.
Lemma t_neg a m : N.land m core_mask = m -> gives id_ id_sliding_negative [raw a; raw m] (raw (core_slide_neg a m)).
Proof.
  intros H e k. destruct (core_index a m) as [_ [_ I]]. specialize (I H). go. call t_masked. go.
  eapply b_some; [exact (f_equal (option_map (VInt o Usize)) (lz_next a m))|]. go.
  eapply b_some; [exact (get_masked _ I)|]. go. apply b_end. reflexivity.
Qed.
Lemma t_pos_c a m : gives B id_sliding_positive_consecutive [raw a; raw m] (raw (core_slide_pos a m)).
Proof. intros e k. into. go0. call (t_pos a m). go. apply b_end. reflexivity. Qed.
Lemma t_neg_c a m : N.land m core_mask = m -> gives B id_sliding_negative_consecutive [raw a; raw m] (raw (core_slide_neg a m)).
Proof. intros H e k. into. go0. call (t_neg a m H). go. apply b_end. reflexivity. Qed.
Lemma t_pos2 a m n : gives B id_sliding_positives [raw a; VArr o [raw m; raw n]] (raw (N.lor (core_slide_pos a m) (core_slide_pos a n))).
Proof. intros e k. into. go0. call (t_pos a m). go0. call (t_pos a n). go. apply b_end. reflexivity. Qed.
Lemma t_neg2 a m n : N.land m core_mask = m -> N.land n core_mask = n ->
  gives B id_sliding_negatives [raw a; VArr o [raw m; raw n]] (raw (N.lor (core_slide_neg a m) (core_slide_neg a n))).
Proof. intros Hm Hn e k. into. go0. call (t_neg a m Hm). go0. call (t_neg a n Hn). go. apply b_end. reflexivity. Qed.

Lemma sub_arith x b : (x < two128 -> b < two128 ->
  arith checks U128 (Z.of_N x - Z.of_N b) = option_map Z.of_N (sub128 checks x b))%N.
Proof.
  intros Hx Hb. unfold two128 in *. unfold sub128, arith, in_range, wrap. cbn [width].
  change (2 ^ 128)%Z with (Z.of_N two128). unfold two128.
  destruct (N.leb_spec b x) as [L|L].
  - rewrite (proj2 (Z.leb_le _ _)) by lia. rewrite (proj2 (Z.ltb_lt _ _)) by lia. cbn [andb option_map]. f_equal. lia.
  - rewrite (proj2 (Z.leb_gt _ _)) by lia. cbn [andb]. destruct checks; [reflexivity|]. cbn [option_map]. f_equal.
    rewrite <- (Z.mod_add _ 1) by discriminate. rewrite Z.mod_small by lia. lia.
Qed.
Lemma up_small d : (core_shift_up d 8 < two128)%N.
Proof.
  unfold core_shift_up. rewrite N.shiftr_div_pow2.
  assert (H : (N.land d (rows_from 8) < 2 ^ 96)%N) by (rewrite N.land_comm; apply land_small; vm_compute; reflexivity).
  eapply N.le_lt_trans; [apply N.div_le_upper_bound with (q := N.land d (rows_from 8)); [discriminate|]|].
  - change (2 ^ 8)%N with 256%N. lia.
  - eapply N.lt_trans; [exact H|reflexivity].
Qed.
Lemma b_none x e k : x = None -> steps (BrO o x e k (Halt o (RPanic o))) (Halt o (RPanic o)).
Proof. intros ->. apply steps_one, steps_refl. Qed.
(* the two subtractions can panic *)
Lemma t_vacant a : (a < two128)%N ->
  match core_vacant_files checks a with
  | Some v => gives B id_vacant_files [raw a] (raw v)
  | None => forall e k, steps (Enter o B id_vacant_files [raw a] e k) (Halt o (RPanic o))
  end.
Proof.
  intros Ha. unfold core_vacant_files, core_vacant_values.
  pose proof (sub_arith vacant_mask a eq_refl Ha) as E1.
  destruct (sub128 checks vacant_mask a) as [d|]; cbn [bind option_map] in *.
  - pose proof (sub_arith vacant_mask (core_shift_up d 8) eq_refl (up_small d)) as E2.
    destruct (sub128 checks vacant_mask (core_shift_up d 8)) as [x|]; cbn [bind option_map snd] in *.
    + intros e k. go. eapply b_some; [exact (f_equal (option_map (VInt o U128)) E1)|]. go. rewrite N2Z.id.
      apply steps_one; st. go.
      eapply b_some; [exact (f_equal (option_map (VInt o U128)) E2)|]. go.
      apply b_end. rewrite N2Z.id. reflexivity.
    + intros e k. go. eapply b_some; [exact (f_equal (option_map (VInt o U128)) E1)|]. go. rewrite N2Z.id.
      apply steps_one; st. go.
      apply b_none. exact (f_equal (option_map (VInt o U128)) E2).
  - intros e k. go. apply b_none. exact (f_equal (option_map (VInt o U128)) E1).
Qed.
End Ops.
