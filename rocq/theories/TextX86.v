(** * src/bitboard/x86_64.rs: its text does what [x86_ops] does *)

From Coq Require Import List Bool NArith ZArith Lia.
From Verif Require Import Types Bitboard BackendCore BackendSimd Intrinsics Words SpecLanes Unsafe RustSyntax RustNames RustSem TextDefs BitsDefs BitsRun.
Import ListNotations.

Section Ops.
Context {o : bbops} (checks : bool).
Notation steps := (steps o checks x86_prog none).
Notation gives := (@gives o checks x86_prog).
Notation changes := (@changes o checks x86_prog).
Notation yields := (@yields o checks x86_prog).
Notation B := id_Bitboard.
Notation I := id_SquareIterator.

Ltac line := intros e k; go; apply b_end; reflexivity.

Lemma t_empty : gives B id_empty [] (reg v_zero).
Proof. line. Qed.
Lemma t_shl a : gives B id_shl [reg a] (reg (lanes_shl a)).
Proof. line. Qed.
Lemma t_shr a : gives B id_shr [reg a] (reg (lanes_shr a)).
Proof. line. Qed.
Lemma t_pos_c a m : gives B id_sliding_positive_consecutive [reg a; reg m] (reg (lanes_slide_pos_c a m)).
Proof. line. Qed.
Lemma t_neg_c a m : gives B id_sliding_negative_consecutive [reg a; reg m] (reg (lanes_slide_neg_c a m)).
Proof. line. Qed.
Lemma t_pos2 a m n : gives B id_sliding_positives [reg a; VArr o [reg m; reg n]] (reg (x86_slide_pos2 a (m, n))).
Proof. line. Qed.
Lemma t_vacant a : gives B id_vacant_files [reg a] (reg (lanes_vacant_files a)).
Proof.
  intros e k. go. apply b_end. rewrite v_and_comm. reflexivity.
Qed.
Lemma t_and a b : gives B id_bitand [reg a; reg b] (reg (v_and a b)).
Proof. line. Qed.
Lemma t_or a b : gives B id_bitor [reg a; reg b] (reg (v_or a b)).
Proof. line. Qed.
Lemma t_xor a b : gives B id_bitxor [reg a; reg b] (reg (v_xor a b)).
Proof. line. Qed.
Lemma t_not a : gives B id_not [reg a] (reg (x86_not a)).
Proof. line. Qed.
Ltac line2 := intros k; go; apply b_end; reflexivity.
Lemma t_and_to a b : changes B id_bitand_assign (reg a) [reg b] (VUnit o) (reg (v_and a b)).
Proof. line2. Qed.
Lemma t_or_to a b : changes B id_bitor_assign (reg a) [reg b] (VUnit o) (reg (v_or a b)).
Proof. line2. Qed.
Lemma t_xor_to a b : changes B id_bitxor_assign (reg a) [reg b] (VUnit o) (reg (v_xor a b)).
Proof. line2. Qed.

Lemma no_bits_1 a : ((if no_bits a then 1 else 0) =? 1)%Z = no_bits a.
Proof. destruct (no_bits a); reflexivity. Qed.
Lemma no_bits_0 a : ((if no_bits a then 1 else 0) =? 0)%Z = negb (no_bits a).
Proof. destruct (no_bits a); reflexivity. Qed.
Lemma t_is_empty a : gives B id_is_empty [reg a] (VBool o (x86_is_empty a)).
Proof. intros e k. go. apply b_end. rewrite no_bits_1. reflexivity. Qed.
Lemma t_eq a b : gives B id_eq [reg a; reg b] (VBool o (x86_eq a b)).
Proof. intros e k. go. apply b_end. rewrite no_bits_1. reflexivity. Qed.

Definition single_arr : list (val o) :=
  map (fun s => VTup o [VInt o Lit (if (sq_index s <? 63)%N then Z.shiftl 1 (Z.of_N (sq_index s)) else 0);
                        VInt o Lit (if (sq_index s <? 63)%N then 0 else Z.shiftl 1 (Z.of_N (sq_index s) - 63))]) all_squares.
Definition singles_body := Eval vm_compute in const_body x86_prog id_SINGLE_VALUES.
Lemma t_singles : forall e k, steps (Run o (CStmts o singles_body) [(id_Self, VStr o id_)] (KScope o 1 :: KConst o e :: k))
  (Resume o (VArr o single_arr) e k).
Proof. unfold singles_body. constant. Qed.
Lemma get_single s :
  exists x y, list_get o single_arr (Z.of_N (sq_index s)) = Some (VTup o [VInt o Lit x; VInt o Lit y]) /\
              (lane x, lane y) = lanes_single s.
Proof. destruct s as [[] []]; eexists; eexists; (split; [reflexivity|reflexivity]). Qed.
Lemma t_single s : gives B id_single [VSq o s] (reg (lanes_single s)).
Proof.
  intros e k. go. call t_singles. go. destruct (get_single s) as [x [y [G E]]].
  eapply b_some; [exact G|]. go. apply b_end. rewrite E. reflexivity.
Qed.
Lemma t_contains a s : gives B id_contains [reg a; VSq o s] (VBool o (x86_contains a s)).
Proof.
  intros e k. into. go0. call t_single. go. apply b_end. rewrite no_bits_0. reflexivity.
Qed.
Lemma t_values a : gives B id_values [reg a] (words o a).
Proof. line. Qed.
Lemma t_into_iter a : gives B id_into_iter [reg a] (sq_iter a).
Proof. line. Qed.
Lemma t_count a : (fst a < 2 ^ 64 -> snd a < 2 ^ 64 -> gives B id_count [reg a] (VInt o U8 (Z.of_N (lanes_count a))))%N.
Proof.
  intros H0 H1 e k. go. eapply b_some; [exact (f_equal (option_map (VInt o U32)) (ones_sum checks _ _ H0 H1))|]. go. apply b_end.
  rewrite wrap8. reflexivity.
Qed.

Definition masked_arr : list (val o) :=
  map (fun v => VTup o [VInt o Lit (if (fst v =? ones64)%N then -1 else Z.of_N (fst v)); VInt o Lit (Z.of_N (snd v))]) x86_masked_values.
Lemma get_masked i : (i < 16)%N ->
  exists x y, list_get o masked_arr (Z.of_N i) = Some (VTup o [VInt o Lit x; VInt o Lit y]) /\
              (lane x, lane y) = x86_masked i.
Proof.
  intros H. assert (C : In (N.to_nat i) (seq 0 16)) by (apply in_seq; lia).
  rewrite <- (N2Nat.id i). revert C. generalize (N.to_nat i). intros n C. cbn [seq In] in C.
  repeat (destruct C as [<-|C]; [eexists; eexists; split; reflexivity|]). destruct C.
Qed.
Lemma mask_bits a b : wrap U32 (Z.of_N (w_movemask8 (w_eq8 a b))) = Z.of_N (cmpeq8_movemask a b).
Proof.
  rewrite w_movemask_eq8. pose proof (movemask_small a b).
  apply (wrap_width U32 32 _ eq_refl). change (2 ^ 32)%Z with (Z.of_N (2 ^ 32)). lia.
Qed.
Lemma index0 mv : (mv < 2 ^ 32)%N ->
  arith checks Usize (15 - Z.of_N (clz 32 (Z.to_N (Z.lor (Z.lxor (Z.of_N mv) 4294967295) 65536)))) =
  Some (Z.of_N (15 - x86_lz0 mv)).
Proof.
  intros H. pose proof (x86_index mv H) as X.
  change 4294967295%Z with (Z.of_N 4294967295). rewrite <- of_lxor. change 65536%Z with (Z.of_N 65536). rewrite <- of_lor, N2Z.id.
  change (clz 32 (N.lor (N.lxor mv 4294967295) 65536)) with (x86_lz0 mv).
  replace (15 - Z.of_N (x86_lz0 mv))%Z with (Z.of_N (15 - x86_lz0 mv)) by lia.
  apply arith_ok, (range_width Usize 64 _ eq_refl). change (2 ^ 64)%Z with 18446744073709551616%Z. lia.
Qed.
Lemma index1 mv : (mv < 2 ^ 32)%N ->
  arith checks Usize (31 - Z.of_N (clz 32 (Z.to_N (Z.lor (Z.lxor (Z.land (Z.of_N mv) 65535) 65535) 1)))) =
  Some (Z.of_N (31 - x86_lz1 mv)).
Proof.
  intros H. pose proof (x86_index mv H) as X.
  change 65535%Z with (Z.of_N 65535). rewrite <- of_land, <- of_lxor. change 1%Z with (Z.of_N 1). rewrite <- of_lor, N2Z.id.
  change (clz 32 (N.lor (N.lxor (N.land mv 65535) 65535) 1)) with (x86_lz1 mv).
  replace (31 - Z.of_N (x86_lz1 mv))%Z with (Z.of_N (31 - x86_lz1 mv)) by lia.
  apply arith_ok, (range_width Usize 64 _ eq_refl). change (2 ^ 64)%Z with 18446744073709551616%Z. lia.
Qed.
Lemma t_neg2 a m n : gives B id_sliding_negatives [reg a; VArr o [reg m; reg n]] (reg (x86_slide_neg2 a (m, n))).
Proof.
  intros e k. go. rewrite mask_bits.
  set (mv := cmpeq8_movemask (w_and (w_broadcast a) (w_set m n)) (v_zero, v_zero)).
  assert (H : (mv < 2 ^ 32)%N) by apply movemask_small.
  pose proof (x86_index mv H) as X.
  destruct (get_masked (15 - x86_lz0 mv)) as [x0 [y0 [G0 E0]]]; [lia|].
  destruct (get_masked (31 - x86_lz1 mv)) as [x1 [y1 [G1 E1]]]; [lia|].
  eapply b_some; [exact (f_equal (option_map (VInt o Usize)) (index0 mv H))|]. go.
  eapply b_some; [exact G0|]. go.
  eapply b_some; [exact (f_equal (option_map (VInt o Usize)) (index1 mv H))|]. go.
  eapply b_some; [exact G1|]. go.
  apply b_end. rewrite E0, E1. reflexivity.
Qed.

(** ** The iterator *)

Lemma t_next0 a b : (a < 2 ^ 64)%N -> a <> 0%N ->
  changes I id_next (sq_iter (a, b)) [] (VOpt o (Some (VSq o (sq_of_u8 (ctz 64 a + 1))))) (sq_iter (N.land a (a - 1), b)%N).
Proof.
  intros H H0 k. go. eapply b_true; [rewrite of_N_0; apply negb_true_iff, N.eqb_neq; exact H0|]. go.
  eapply b_some; [exact (f_equal (option_map (VInt o U8)) (pop_pos checks a 1 H H0 ltac:(lia)))|]. go.
  apply b_end. rewrite N2Z.id, (pop_rest a H H0). reflexivity.
Qed.
Lemma t_next1 b : (b < 2 ^ 64)%N -> b <> 0%N ->
  changes I id_next (sq_iter (0, b)%N) [] (VOpt o (Some (VSq o (sq_of_u8 (ctz 64 b + 64))))) (sq_iter (0, N.land b (b - 1))%N).
Proof.
  intros H H0 k. go. eapply b_false; [reflexivity|]. go.
  eapply b_true; [rewrite of_N_0; apply negb_true_iff, N.eqb_neq; exact H0|]. go.
  eapply b_some; [exact (f_equal (option_map (VInt o U8)) (pop_pos checks b 64 H H0 ltac:(lia)))|]. go.
  apply b_end. rewrite N2Z.id, (pop_rest b H H0). reflexivity.
Qed.
Lemma t_next2 : changes I id_next (sq_iter (0, 0)%N) [] (VOpt o None) (sq_iter (0, 0)%N).
Proof. intros k. go. eapply b_false; [reflexivity|]. go. eapply b_false; [reflexivity|]. go. apply b_end. reflexivity. Qed.

Lemma t_iter a : lwf a -> yields (lanes_iter a) (sq_iter a).
Proof. apply iter_yields; [exact t_next0|exact t_next1|exact t_next2]. Qed.
End Ops.
