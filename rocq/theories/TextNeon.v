(** * src/bitboard/aarch64.rs: its text does what [neon_ops] does *)

From Coq Require Import List Bool NArith ZArith Lia.
From Verif Require Import Types Bitboard BackendCore BackendSimd Intrinsics Words SpecLanes Unsafe RustSyntax RustNames RustSem TextDefs BitsDefs BitsRun.
Import ListNotations.

Section Ops.
Context {o : bbops} (checks : bool).
Notation steps := (steps o checks neon_prog none).
Notation gives := (@gives o checks neon_prog).
Notation changes := (@changes o checks neon_prog).
Notation yields := (@yields o checks neon_prog).
Notation B := id_Bitboard.
Notation I := id_SquareIterator.

Ltac line := intros e k; go; apply b_end; reflexivity.

Lemma t_empty : gives B id_empty [] (reg v_zero).
Proof. line. Qed.
Lemma t_shl a : gives B id_shl [reg a] (reg (lanes_shl a)).
Proof. line. Qed.
Lemma t_shr a : gives B id_shr [reg a] (reg (lanes_shr a)).
Proof. line. Qed.
Lemma t_pos_c a m : gives B id_sliding_positive_consecutive [reg a; reg m] (reg (lanes_slide_pos_c a m)).
Proof. intros e k. go. apply b_end. rewrite v_xor_comm. reflexivity. Qed.
Lemma t_neg_c a m : gives B id_sliding_negative_consecutive [reg a; reg m] (reg (lanes_slide_neg_c a m)).
Proof. line. Qed.
Lemma t_vacant a : gives B id_vacant_files [reg a] (reg (lanes_vacant_files a)).
Proof. line. Qed.
Lemma t_and a b : gives B id_bitand [reg a; reg b] (reg (v_and a b)).
Proof. line. Qed.
Lemma t_or a b : gives B id_bitor [reg a; reg b] (reg (v_or a b)).
Proof. line. Qed.
Lemma t_xor a b : gives B id_bitxor [reg a; reg b] (reg (v_xor a b)).
Proof. line. Qed.
Lemma t_not a : gives B id_not [reg a] (reg (neon_not a)).
Proof. line. Qed.
Ltac line2 := intros k; go; apply b_end; reflexivity.
Lemma t_and_to a b : changes B id_bitand_assign (reg a) [reg b] (VUnit o) (reg (v_and a b)).
Proof. line2. Qed.
Lemma t_or_to a b : changes B id_bitor_assign (reg a) [reg b] (VUnit o) (reg (v_or a b)).
Proof. line2. Qed.
Lemma t_xor_to a b : changes B id_bitxor_assign (reg a) [reg b] (VUnit o) (reg (v_xor a b)).
Proof. line2. Qed.

Lemma t_is_empty a : gives B id_is_empty [reg a] (VBool o (neon_is_empty a)).
Proof. intros e k. go. apply b_end. rewrite of_N_0. reflexivity. Qed.
Lemma t_eq a b : gives B id_eq [reg a; reg b] (VBool o (neon_eq a b)).
Proof. intros e k. go. apply b_end. rewrite of_N_0. reflexivity. Qed.

Definition single_arr : list (val o) :=
  map (fun s => VArr o [VInt o Lit (if (sq_index s <? 63)%N then Z.shiftl 1 (Z.of_N (sq_index s)) else 0);
                        VInt o Lit (if (sq_index s <? 63)%N then 0 else Z.shiftl 1 (Z.of_N (sq_index s) - 63))]) all_squares.
Definition singles_body := Eval vm_compute in const_body neon_prog id_SINGLE_VALUES.
Lemma t_singles : forall e k, steps (Run o (CStmts o singles_body) [(id_Self, VStr o id_)] (KScope o 1 :: KConst o e :: k))
  (Resume o (VArr o single_arr) e k).
Proof. unfold singles_body. constant. Qed.
Lemma get_single s :
  exists x y, list_get o single_arr (Z.of_N (sq_index s)) = Some (VArr o [VInt o Lit x; VInt o Lit y]) /\
              (lane x, lane y) = lanes_single s.
Proof. destruct s as [[] []]; eexists; eexists; (split; [reflexivity|reflexivity]). Qed.
Lemma t_single s : gives B id_single [VSq o s] (reg (lanes_single s)).
Proof.
  intros e k. go. call t_singles. go. destruct (get_single s) as [x [y [G E]]].
  eapply b_some; [exact G|]. go. apply b_end. rewrite E. reflexivity.
Qed.
Lemma t_contains a s : gives B id_contains [reg a; VSq o s] (VBool o (neon_contains a s)).
Proof.
  intros e k. into. go0. call t_single. go. apply b_end. rewrite of_N_0. reflexivity.
Qed.
Lemma t_values a : gives B id_values [reg a] (words o a).
Proof. line. Qed.
Lemma t_into_iter a : gives B id_into_iter [reg a] (sq_iter a).
Proof. line. Qed.
Lemma t_count a : (fst a < 2 ^ 64 -> snd a < 2 ^ 64 -> gives B id_count [reg a] (VInt o U8 (Z.of_N (lanes_count a))))%N.
Proof.
  intros H0 H1 e k. go. eapply b_some; [exact (f_equal (option_map (VInt o U32)) (ones_sum checks _ _ H0 H1))|]. go. apply b_end.
  rewrite wrap8. reflexivity.
Qed.

Definition masked_arr : list (val o) := map (fun n => words o (lanes_masked (N.of_nat n))) (seq 0 83).
Definition masked_body := Eval vm_compute in const_body neon_prog id_MASKED_VALUES.
Lemma t_masked : forall e k, steps (Run o (CStmts o masked_body) [(id_Self, VStr o id_)] (KScope o 1 :: KConst o e :: k))
  (Resume o (VArr o masked_arr) e k).
Proof. unfold masked_body. constant. Qed.
Lemma get_masked i : (i < 83)%N -> list_get o masked_arr (Z.of_N i) = Some (words o (lanes_masked i)).
Proof. intros H. unfold masked_arr. rewrite get_seq by exact H. rewrite N2Nat.id. reflexivity. Qed.
Lemma t_pos a m : lwf m -> gives B id_sliding_positive [reg a; reg m] (reg (lanes_slide_pos a m)).
Proof.
  intros [H0 H1] e k. destruct (lanes_index a m H0 H1) as [I _].
  go. apply b_if; intros E; rewrite of_N_0 in E; [apply N.eqb_eq in E|apply N.eqb_neq in E]; go.
  - eapply b_some; [exact (f_equal (option_map (VInt o U32)) (tz_high checks a m H0 H1 E))|]. go. call t_masked. go.
    eapply b_some; [exact (f_equal (option_map (VInt o Usize)) (tz_next checks a m H0 H1))|]. go.
    eapply b_some; [exact (get_masked _ I)|]. go.
    apply b_end. exact (f_equal (fun r => Resume o (reg (v_and m r)) e k) (lane_masked _)).
  - call t_masked. go.
    eapply b_some; [exact (f_equal (option_map (VInt o Usize)) (tz_low checks a m H0 H1 E))|]. go.
    eapply b_some; [exact (get_masked _ I)|]. go.
    apply b_end. exact (f_equal (fun r => Resume o (reg (v_and m r)) e k) (lane_masked _)).
Qed.
Lemma t_neg a m : lwf m -> gives B id_sliding_negative [reg a; reg m] (reg (lanes_slide_neg a m)).
Proof.
  intros [H0 H1] e k. destruct (lanes_index a m H0 H1) as [_ [_ I]].
  go. apply b_if; intros E; rewrite of_N_0 in E; [apply N.eqb_eq in E|apply N.eqb_neq in E]; go.
  - eapply b_some; [exact (f_equal (option_map (VInt o U32)) (lz_low checks a m H0 H1 E))|]. go. call t_masked. go.
    eapply b_some; [exact (f_equal (option_map (VInt o Usize)) (lz_next checks a m H0 H1))|]. go.
    eapply b_some; [exact (get_masked _ I)|]. go.
    apply b_end. exact (f_equal (fun r => Resume o (reg (v_andc m r)) e k) (lane_masked _)).
  - call t_masked. go.
    eapply b_some; [exact (f_equal (option_map (VInt o Usize)) (lz_high checks a m H0 H1 E))|]. go.
    eapply b_some; [exact (get_masked _ I)|]. go.
    apply b_end. exact (f_equal (fun r => Resume o (reg (v_andc m r)) e k) (lane_masked _)).
Qed.
Lemma t_pos2 a m n : lwf m -> lwf n -> gives B id_sliding_positives [reg a; VArr o [reg m; reg n]] (reg (v_or (lanes_slide_pos a m) (lanes_slide_pos a n))).
Proof.
  intros Hm Hn e k. into. go0. call (t_pos a m Hm). go0. call (t_pos a n Hn). go. apply b_end. reflexivity.
Qed.
Lemma t_neg2 a m n : lwf m -> lwf n -> gives B id_sliding_negatives [reg a; VArr o [reg m; reg n]] (reg (v_or (lanes_slide_neg a m) (lanes_slide_neg a n))).
Proof.
  intros Hm Hn e k. into. go0. call (t_neg a m Hm). go0. call (t_neg a n Hn). go. apply b_end. reflexivity.
Qed.

(** ** The iterator *)

Lemma t_next0 a b : (a < 2 ^ 64)%N -> a <> 0%N ->
  changes I id_next (sq_iter (a, b)) [] (VOpt o (Some (VSq o (sq_of_u8 (ctz 64 a + 1))))) (sq_iter (N.land a (a - 1), b)%N).
Proof.
  intros H H0 k. go. eapply b_true; [rewrite of_N_0; apply negb_true_iff, N.eqb_neq; exact H0|]. go.
  eapply b_some; [exact (f_equal (option_map (VInt o U8)) (pop_pos checks a 1 H H0 ltac:(lia)))|]. go.
  apply b_end. rewrite N2Z.id, (pop_rest a H H0). reflexivity.
Qed.
Lemma t_next1 b : (b < 2 ^ 64)%N -> b <> 0%N ->
  changes I id_next (sq_iter (0, b)%N) [] (VOpt o (Some (VSq o (sq_of_u8 (ctz 64 b + 64))))) (sq_iter (0, N.land b (b - 1))%N).
Proof.
  intros H H0 k. go. eapply b_false; [reflexivity|]. go.
  eapply b_true; [rewrite of_N_0; apply negb_true_iff, N.eqb_neq; exact H0|]. go.
  eapply b_some; [exact (f_equal (option_map (VInt o U8)) (pop_pos checks b 64 H H0 ltac:(lia)))|]. go.
  apply b_end. rewrite N2Z.id, (pop_rest b H H0). reflexivity.
Qed.
Lemma t_next2 : changes I id_next (sq_iter (0, 0)%N) [] (VOpt o None) (sq_iter (0, 0)%N).
Proof. intros k. go. eapply b_false; [reflexivity|]. go. eapply b_false; [reflexivity|]. go. apply b_end. reflexivity. Qed.

Lemma t_iter a : lwf a -> yields (lanes_iter a) (sq_iter a).
Proof. apply iter_yields; [exact t_next0|exact t_next1|exact t_next2]. Qed.
End Ops.
