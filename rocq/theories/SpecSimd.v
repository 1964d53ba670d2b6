(** * The three SIMD backends meet the specification *)

From Coq Require Import List Bool NArith ZArith Lia.
From Verif Require Import Types Bitboard BackendSimd Words Squares BBSpec
  SpecLanes SpecSlides SpecX86 SpecVacant.
Import ListNotations.
Open Scope N_scope.

Lemma existsb_ext_fun {A} (f g : A -> bool) l :
  (forall x, f x = g x) -> existsb f l = existsb g l.
Proof.
  intros H. induction l as [|x l IH]; [reflexivity|]. cbn. rewrite H, IH. reflexivity.
Qed.

Lemma slid_pos_ext o o' m m' t : (forall s, o s = o' s) -> (forall s, m s = m' s) ->
  (slid_pos o m t <-> slid_pos o' m' t).
Proof.
  intros Ho Hm. unfold slid_pos. rewrite Hm. split; intros [H1 H2]; (split; [assumption|]);
    intros u; [rewrite <- Hm, <- Ho|rewrite Hm, Ho]; apply H2.
Qed.
Lemma slid_neg_ext o o' m m' t : (forall s, o s = o' s) -> (forall s, m s = m' s) ->
  (slid_neg o m t <-> slid_neg o' m' t).
Proof.
  intros Ho Hm. unfold slid_neg. rewrite Hm. split; intros [H1 H2]; (split; [assumption|]);
    intros u; [rewrite <- Hm, <- Ho|rewrite Hm, Ho]; apply H2.
Qed.
Lemma one_file_ext m m' : (forall s, m s = m' s) -> one_file m -> one_file m'.
Proof. intros H O u v. rewrite <- !H. apply O. Qed.

Section Lanes.
Variable cont : v128 -> square -> bool.
Hypothesis Hcont : forall a s, cont a s = ltest a s.
Variable emp : v128 -> bool.
Hypothesis Hemp : forall a, emp a = (fst a =? 0) && (snd a =? 0).
Variables pc nc : v128 -> v128 -> v128.
Variables p2 n2 : v128 -> v128 * v128 -> v128.
Hypothesis Hpc_wf : forall occ m, lwf occ -> lwf m -> lwf (pc occ m).
Hypothesis Hnc_wf : forall occ m, lwf occ -> lwf m -> lwf (nc occ m).
Hypothesis Hpc : forall occ m t, lwf occ -> lwf m -> one_file (ltest m) ->
  (ltest (pc occ m) t = true <-> slid_pos (ltest occ) (ltest m) t).
Hypothesis Hnc : forall occ m t, lwf occ -> lwf m -> one_file (ltest m) ->
  (ltest (nc occ m) t = true <-> slid_neg (ltest occ) (ltest m) t).
Hypothesis Hp2_wf : forall occ ms, lwf occ -> lwf (fst ms) -> lwf (snd ms) ->
  lwf (p2 occ ms).
Hypothesis Hn2_wf : forall occ ms, lwf occ -> lwf (fst ms) -> lwf (snd ms) ->
  lwf (n2 occ ms).
Hypothesis Hp2 : forall occ ms t, lwf occ -> lwf (fst ms) -> lwf (snd ms) ->
  (ltest (p2 occ ms) t = true <->
   slid_pos (ltest occ) (ltest (fst ms)) t \/ slid_pos (ltest occ) (ltest (snd ms)) t).
Hypothesis Hn2 : forall occ ms t, lwf occ -> lwf (fst ms) -> lwf (snd ms) ->
  (ltest (n2 occ ms) t = true <->
   slid_neg (ltest occ) (ltest (fst ms)) t \/ slid_neg (ltest occ) (ltest (snd ms)) t).

Definition lanes_ops : bbops :=
  mkOps v128 v_zero lanes_single v_and v_or v_xor (v_andc lanes_ones) emp cont
    lanes_count lanes_iter lanes_shl lanes_shr pc nc p2 n2
    (fun b => Some (lanes_vacant_files b)).

Lemma cont_filter a : filter (ltest a) all_squares = filter (cont a) all_squares.
Proof. apply filter_ext. intros s. symmetry. apply Hcont. Qed.

Definition lanes_bbspec : bbspec lanes_ops.
Proof.
  refine (mkSpec lanes_ops lwf _ _ _ _ _ _ _ _ _ _ _ _ _ _ _ _ _ _ _ _ _ _ _ _ _ _ _ _);
    cbn [lanes_ops bb bempty bsingle band bor bxor bnot bis_empty bcontains bcount
         biter bshl bshr bslide_pos_c bslide_neg_c bslide_pos2 bslide_neg2 bvacant].
  - intros a b Ha Hb H. apply ltest_ext; try assumption.
    intros s. rewrite <- !Hcont. apply H.
  - apply lwf_zero.
  - intros s. rewrite Hcont. apply ltest_zero.
  - apply lwf_single.
  - intros s t. rewrite Hcont. apply ltest_single.
  - intros a b Ha. apply lwf_and_l, Ha.
  - intros a b Hb. apply lwf_and_r, Hb.
  - intros a b s. rewrite !Hcont. apply ltest_and.
  - intros a b Ha Hb. apply lwf_or; assumption.
  - intros a b s. rewrite !Hcont. apply ltest_or.
  - intros a b Ha Hb. apply lwf_xor; assumption.
  - intros a b s. rewrite !Hcont. apply ltest_xor.
  - intros a. apply lwf_not.
  - intros a s. rewrite !Hcont. apply ltest_not.
  - intros a Ha. rewrite Hemp, (existsb_ext_fun (cont a) (ltest a)) by (intros; apply Hcont).
    apply lwf_zero_test, Ha.
  - intros a Ha. rewrite lanes_count_spec by assumption. rewrite cont_filter. reflexivity.
  - intros a Ha. rewrite lanes_iter_spec by assumption. apply cont_filter.
  - intros a Ha H. destruct (lanes_shl_spec a Ha) as [W S].
    { intros s Hs. apply H. rewrite Hcont. assumption. }
    split; [assumption|]. intros t. rewrite Hcont, S.
    destruct (sq_shift t 0 (-1)); [symmetry; apply Hcont|reflexivity].
  - intros a Ha H. destruct (lanes_shr_spec a Ha) as [W S].
    { intros s Hs. apply H. rewrite Hcont. assumption. }
    split; [assumption|]. intros t. rewrite Hcont, S.
    destruct (sq_shift t 0 1); [symmetry; apply Hcont|reflexivity].
  - assumption.
  - intros occ m t Ho Hm H1. rewrite Hcont.
    rewrite Hpc; try assumption; [apply slid_pos_ext; intros; symmetry; apply Hcont|].
    apply (one_file_ext (cont m)); [intros; apply Hcont|assumption].
  - assumption.
  - intros occ m t Ho Hm H1. rewrite Hcont.
    rewrite Hnc; try assumption; [apply slid_neg_ext; intros; symmetry; apply Hcont|].
    apply (one_file_ext (cont m)); [intros; apply Hcont|assumption].
  - assumption.
  - intros occ ms t Ho H0 H1. rewrite Hcont, Hp2 by assumption.
    rewrite (slid_pos_ext (cont occ) (ltest occ) (cont (fst ms)) (ltest (fst ms)))
      by (intros; apply Hcont).
    rewrite (slid_pos_ext (cont occ) (ltest occ) (cont (snd ms)) (ltest (snd ms)))
      by (intros; apply Hcont).
    reflexivity.
  - assumption.
  - intros occ ms t Ho H0 H1. rewrite Hcont, Hn2 by assumption.
    rewrite (slid_neg_ext (cont occ) (ltest occ) (cont (fst ms)) (ltest (fst ms)))
      by (intros; apply Hcont).
    rewrite (slid_neg_ext (cont occ) (ltest occ) (cont (snd ms)) (ltest (snd ms)))
      by (intros; apply Hcont).
    reflexivity.
  - intros a Ha U. exists (vac_of a). rewrite lanes_vacant_spec; [|assumption|].
    + split; [reflexivity|]. split; [apply lwf_vac_of|].
      intros t. rewrite Hcont, ltest_vac_of. f_equal.
      apply existsb_ext_fun. intros s. rewrite Hcont. reflexivity.
    + intros s t Hs Ht. apply U; rewrite Hcont; assumption.
Defined.

End Lanes.

(* testing one square bit *)
Lemma land_single_zero a n :
  (N.land a (N.shiftl 1 n) =? 0) = negb (N.testbit a n).
Proof.
  destruct (N.testbit a n) eqn:E.
  - apply N.eqb_neq. intros H.
    assert (C : N.testbit (N.land a (N.shiftl 1 n)) n = true).
    { rewrite N.land_spec, shiftl1_spec, N.eqb_refl, E. reflexivity. }
    rewrite H, N.bits_0 in C. discriminate.
  - apply N.eqb_eq. apply N_ext. intros i. rewrite N.land_spec, shiftl1_spec, N.bits_0.
    destruct (N.eqb_spec i n) as [->|]; [rewrite E; reflexivity|apply andb_false_r].
Qed.

Lemma and_single_zero a s :
  ((fst (v_and a (lanes_single s)) =? 0) && (snd (v_and a (lanes_single s)) =? 0))
  = negb (ltest a s).
Proof.
  unfold lanes_single, ltest. destruct (N.ltb_spec (sq_index s) 63);
    cbn [v_and v_map2 fst snd]; rewrite land_single_zero, N.land_0_r; cbn.
  - apply andb_true_r.
  - reflexivity.
Qed.

Lemma v_and_comm a b : v_and a b = v_and b a.
Proof. unfold v_and, v_map2. f_equal; apply N.land_comm. Qed.

(** ** x86_64 *)

Lemma x86_contains_spec a s : x86_contains a s = ltest a s.
Proof.
  unfold x86_contains. cbv zeta. rewrite and_single_zero. apply negb_involutive.
Qed.

Definition x86_bbspec : bbspec x86_ops.
Proof.
  refine (lanes_bbspec x86_contains x86_contains_spec x86_is_empty _
    lanes_slide_pos_c lanes_slide_neg_c x86_slide_pos2 x86_slide_neg2
    lwf_slide_pos_c lwf_slide_neg_c lanes_slide_pos_c_spec lanes_slide_neg_c_spec
    _ _ x86_pos2_spec x86_neg2_spec).
  - intros a. unfold x86_is_empty. rewrite !N.land_diag. reflexivity.
  - intros occ ms _. apply lwf_x86_pos2.
  - intros occ ms _. apply lwf_x86_neg2.
Defined.

(** ** aarch64 and wasm32 *)

Section Two.
Context (f : v128 -> v128 -> v128) (S : (square -> bool) -> (square -> bool) -> square -> Prop).
Hypothesis Hwf : forall occ m, lwf m -> lwf (f occ m).
Hypothesis Hf : forall occ m t, lwf occ -> lwf m ->
  (ltest (f occ m) t = true <-> S (ltest occ) (ltest m) t).

Lemma two_wf occ ms : lwf occ -> lwf (fst ms) -> lwf (snd ms) ->
  lwf (v_or (f occ (fst ms)) (f occ (snd ms))).
Proof. intros. apply lwf_or; apply Hwf; assumption. Qed.
Lemma two_spec occ (ms : v128 * v128) t : lwf occ -> lwf (fst ms) -> lwf (snd ms) ->
  (ltest (v_or (f occ (fst ms)) (f occ (snd ms))) t = true <->
   S (ltest occ) (ltest (fst ms)) t \/ S (ltest occ) (ltest (snd ms)) t).
Proof. intros. rewrite ltest_or, orb_true_iff, !Hf by assumption. reflexivity. Qed.
End Two.

Lemma sat32_zero x : (sat32 x =? 0) = (x =? 0).
Proof.
  unfold sat32. destruct (N.ltb_spec x 0x100000000); [reflexivity|].
  destruct (N.eqb_spec x 0); [lia|reflexivity].
Qed.

Lemma neon_is_empty_spec a : neon_is_empty a = (fst a =? 0) && (snd a =? 0).
Proof.
  unfold neon_is_empty. rewrite <- (sat32_zero (fst a)), <- (sat32_zero (snd a)).
  apply eq_true_iff_eq. rewrite andb_true_iff, !N.eqb_eq, N.lor_eq_0_iff.
  rewrite N.shiftl_eq_0_iff. reflexivity.
Qed.

Lemma neon_contains_spec a s : neon_contains a s = ltest a s.
Proof.
  unfold neon_contains. rewrite neon_is_empty_spec, v_and_comm, and_single_zero.
  apply negb_involutive.
Qed.

Definition neon_bbspec : bbspec neon_ops.
Proof.
  refine (lanes_bbspec neon_contains neon_contains_spec neon_is_empty neon_is_empty_spec
    lanes_slide_pos_c lanes_slide_neg_c _ _
    lwf_slide_pos_c lwf_slide_neg_c lanes_slide_pos_c_spec lanes_slide_neg_c_spec
    (two_wf lanes_slide_pos lwf_slide_pos) (two_wf lanes_slide_neg lwf_slide_neg)
    (two_spec lanes_slide_pos slid_pos lanes_slide_pos_spec)
    (two_spec lanes_slide_neg slid_neg lanes_slide_neg_spec)).
Defined.

Lemma wasm_is_empty_spec a : wasm_is_empty a = (fst a =? 0) && (snd a =? 0).
Proof.
  unfold wasm_is_empty, v_any_true. rewrite negb_orb, !negb_involutive. reflexivity.
Qed.

Lemma wasm_contains_spec a s : wasm_contains a s = ltest a s.
Proof.
  unfold wasm_contains, v_any_true. rewrite <- negb_andb, and_single_zero.
  apply negb_involutive.
Qed.

Definition wasm_bbspec : bbspec wasm_ops.
Proof.
  refine (lanes_bbspec wasm_contains wasm_contains_spec wasm_is_empty wasm_is_empty_spec
    lanes_slide_pos_c lanes_slide_neg _ _
    lwf_slide_pos_c (fun occ m _ H => lwf_slide_neg occ m H) lanes_slide_pos_c_spec
    (fun occ m t H H' _ => lanes_slide_neg_spec occ m t H H')
    (two_wf lanes_slide_pos lwf_slide_pos) (two_wf lanes_slide_neg lwf_slide_neg)
    (two_spec lanes_slide_pos slid_pos lanes_slide_pos_spec)
    (two_spec lanes_slide_neg slid_neg lanes_slide_neg_spec)).
Defined.
