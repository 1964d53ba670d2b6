(** * The sliding functions of the x86_64 backend *)

From Coq Require Import List Bool NArith ZArith Lia.
From Verif Require Import Types Bitboard BackendSimd Words Squares BBSpec
  SpecLanes SpecSlides.
Import ListNotations.
Open Scope N_scope.

(** ** sliding_positives *)

Definition half_pos (occ mask : v128) : v128 :=
  let masked := v_and occ mask in
  let add := v_add masked (ones64, ones64) in
  let cmp := v_eq add (ones64, ones64) in
  let shl := (0, fst (v_xor cmp (ones64, ones64))) in
  let dec := v_sub add shl in
  v_and (v_xor masked dec) mask.

(* lia after generalising quotients and remainders *)
Ltac gdm := repeat match goal with
 | H : context [?a / ?b] |- _ => let q := fresh "q" in set (q := a / b) in *; clearbody q
 | |- context [?a / ?b] => let q := fresh "q" in set (q := a / b) in *; clearbody q
 | H : context [?a mod ?b] |- _ => let q := fresh "q" in set (q := a mod b) in *; clearbody q
 | |- context [?a mod ?b] => let q := fresh "q" in set (q := a mod b) in *; clearbody q
 end.
Ltac dlia := gdm; lia.

Lemma x86_pos2_halves occ ms :
  x86_slide_pos2 occ ms = v_or (half_pos occ (snd ms)) (half_pos occ (fst ms)).
Proof.
  unfold x86_slide_pos2, w_eq64, w_map2, w_broadcast, w_set. cbn [fst snd].
  rewrite v_eq_refl. reflexivity.
Qed.

Lemma wadd64_lt a b : wadd64 a b < 2 ^ 64.
Proof. unfold wadd64. rewrite ones64_ones, N.land_ones. apply N.mod_lt. discriminate. Qed.

Lemma half_pos_spec occ m t : lwf occ -> lwf m ->
  (ltest (half_pos occ m) t = true <-> slid_pos (ltest occ) (ltest m) t).
Proof.
  intros Ho Hm. rewrite slid_pos_lanes. unfold half_pos.
  set (a := v_and occ m). assert (Ha : lwf a) by (apply lwf_and; assumption).
  destruct (lwf_64 a Ha) as [A0 A1]. rewrite ltest_and, andb_true_iff.
  cbv zeta.
  match goal with |- (ltest ?x t = true /\ _) <-> _ => set (b := x) end.
  assert (H : ltest b t = true <-> nb_before a t); [|tauto].
  pose proof (sq_index_lt t) as Lt.
  assert (B0 : fst b = N.lxor (fst a) (wadd64 (fst a) ones64)).
  { unfold b. cbn [v_xor v_sub v_add v_map2 fst snd]. f_equal.
    rewrite wsub64_ge; [lia|apply wadd64_lt|lia]. }
  assert (B1 : snd b = if fst a =? 0 then N.lxor (snd a) (wadd64 (snd a) ones64)
                       else 0).
  { unfold b. cbn [v_xor v_eq v_sub v_add v_map2 fst snd].
    rewrite (wadd64_ones (fst a)) by assumption.
    destruct (N.eqb_spec (fst a) 0) as [E|E].
    - rewrite N.eqb_refl, N.lxor_nilpotent.
      rewrite wsub64_ge; [f_equal; lia|apply wadd64_lt|lia].
    - destruct (N.eqb_spec (fst a - 1) ones64) as [F|F].
      + change ones64 with (2 ^ 64 - 1) in F. lia.
      + rewrite N.lxor_0_l, wsub64_ones by apply wadd64_lt.
        rewrite wadd64_ones by assumption.
        destruct (N.eqb_spec (snd a) 0) as [G|G].
        * rewrite N.eqb_refl, G. reflexivity.
        * destruct (N.eqb_spec (snd a - 1) ones64) as [K|K].
          -- change ones64 with (2 ^ 64 - 1) in K. lia.
          -- replace (snd a - 1 + 1) with (snd a) by lia. apply N.lxor_nilpotent. }
  destruct (N.lt_ge_cases (sq_index t) 63) as [L|L].
  - rewrite before0 by assumption. rewrite ltest_lane0 by assumption.
    rewrite B0. apply blsmsk_spec; [assumption|lia].
  - rewrite before1 by assumption. rewrite ltest_lane1 by assumption.
    rewrite B1. destruct (N.eqb_spec (fst a) 0) as [E|E].
    + rewrite blsmsk_spec by (try assumption; lia). tauto.
    + rewrite N.bits_0. split; [discriminate|tauto].
Qed.

Lemma lwf_half_pos occ m : lwf m -> lwf (half_pos occ m).
Proof. intros H. apply lwf_and_r, H. Qed.

(** ** sliding_negatives *)

Definition smear16 (x : N) : N :=
  let m := N.lor x (map16 (fun x => N.shiftr x 1) x) in
  let m := N.lor m (map16 (fun x => N.shiftr x 2) m) in
  let m := N.lor m (map16 (fun x => N.shiftr x 4) m) in
  map16 (fun x => N.shiftr x 1) m.

Definition half_neg (occ mask : v128) (top : N) : v128 :=
  let a := v_and occ mask in
  v_andc mask (v_or (smear16 (fst a), smear16 (snd a)) (x86_masked top)).

Definition top_hi (mv : N) : N :=
  15 - clz 32 (N.lor (N.lxor mv 0xffffffff) 0x00010000).
Definition top_lo (mv : N) : N :=
  31 - clz 32 (N.lor (N.lxor (N.land mv 0xffff) 0xffff) 0x0001).
Definition movemask (a : v256) : N := cmpeq8_movemask a (v_zero, v_zero).

Lemma x86_neg2_halves occ ms :
  let mv := movemask (v_and occ (snd ms), v_and occ (fst ms)) in
  x86_slide_neg2 occ ms =
  v_or (half_neg occ (snd ms) (top_lo mv)) (half_neg occ (fst ms) (top_hi mv)).
Proof. reflexivity. Qed.

Lemma chunk_spec w a i j : N.testbit (chunk w a i) j = (j <? w) && N.testbit a (w * i + j).
Proof.
  unfold chunk. rewrite N.land_spec, ones_spec, N.shiftr_spec', andb_comm.
  f_equal. f_equal. lia.
Qed.

Lemma map16_piece n a j i :
  N.testbit (N.shiftl (N.shiftr (chunk 16 a j) n) (16 * j)) i =
  (16 * j <=? i) && (i + n <? 16 * j + 16) && N.testbit a (i + n).
Proof.
  destruct (N.leb_spec (16 * j) i) as [H|H].
  - rewrite N.shiftl_spec_high' by assumption.
    rewrite N.shiftr_spec', chunk_spec.
    replace (16 * j + (i - 16 * j + n)) with (i + n) by lia.
    destruct (N.ltb_spec (i - 16 * j + n) 16), (N.ltb_spec (i + n) (16 * j + 16));
      cbn; reflexivity || lia.
  - rewrite N.shiftl_spec_low by assumption. reflexivity.
Qed.

Lemma map16_spec n a i :
  N.testbit (map16 (fun x => N.shiftr x n) a) i = true <->
  i < 64 /\ (i + n) / 16 = i / 16 /\ N.testbit a (i + n) = true.
Proof.
  unfold map16. cbn [fold_right].
  rewrite !N.lor_spec, !map16_piece, N.bits_0, orb_false_r.
  rewrite !orb_true_iff, !andb_true_iff, !N.leb_le, !N.ltb_lt.
  assert (D : i < 64 /\ (i + n) / 16 = i / 16 <->
    (exists j, j < 4 /\ 16 * j <= i /\ i + n < 16 * j + 16)).
  { split.
    - intros [H E]. exists (i / 16).
      pose proof (N.div_mod i 16 ltac:(lia)). pose proof (N.mod_lt i 16 ltac:(lia)).
      pose proof (N.div_mod (i + n) 16 ltac:(lia)) as D1.
      pose proof (N.mod_lt (i + n) 16 ltac:(lia)) as D2.
      rewrite E in D1. clear E.
      assert (i / 16 < 4) by (apply N.div_lt_upper_bound; lia).
      set (q := i / 16) in *. set (r := i mod 16) in *.
      set (r' := (i + n) mod 16) in *. clearbody q r r'. lia.
    - intros [j [Hj [H1 H2]]]. split; [lia|].
      assert (E1 : (i + n) / 16 = j).
      { symmetry. apply (N.div_unique _ _ _ (i + n - 16 * j)); lia. }
      assert (E2 : i / 16 = j).
      { symmetry. apply (N.div_unique _ _ _ (i - 16 * j)); lia. }
      congruence. }
  split.
  - intros H. assert (B : N.testbit a (i + n) = true) by tauto.
    rewrite and_assoc in *. rewrite <- and_assoc, D. split; [|assumption].
    destruct H as [H|[H|[H|H]]]; [exists 0|exists 1|exists 2|exists 3]; lia.
  - intros H. rewrite <- and_assoc, D in H. destruct H as [[j [Hj H]] B].
    assert (C : j = 0 \/ j = 1 \/ j = 2 \/ j = 3) by lia.
    destruct C as [ -> | [ -> | [ -> | -> ]]]; tauto.
Qed.

Lemma div16_mono a b : a <= b -> a / 16 <= b / 16.
Proof. intros H. apply N.div_le_mono; [lia|assumption]. Qed.

Lemma smear16_sound x i : N.testbit (smear16 x) i = true ->
  exists d, 1 <= d /\ N.testbit x (i + d) = true.
Proof.
  unfold smear16. cbv zeta. rewrite map16_spec. intros [_ [_ H]].
  rewrite N.lor_spec, orb_true_iff, map16_spec in H.
  assert (S1 : forall j, N.testbit (N.lor x (map16 (fun x0 => N.shiftr x0 1) x)) j
              = true -> exists d, N.testbit x (j + d) = true).
  { intros j Hj. rewrite N.lor_spec, orb_true_iff, map16_spec in Hj.
    destruct Hj as [Hj|[_ [_ Hj]]]; [exists 0|exists 1; assumption].
    rewrite N.add_0_r. assumption. }
  set (m1 := N.lor x (map16 (fun x0 => N.shiftr x0 1) x)) in *.
  assert (S2 : forall j, N.testbit (N.lor m1 (map16 (fun x0 => N.shiftr x0 2) m1)) j
              = true -> exists d, N.testbit x (j + d) = true).
  { intros j Hj. rewrite N.lor_spec, orb_true_iff, map16_spec in Hj.
    destruct Hj as [Hj|[_ [_ Hj]]]; apply S1 in Hj as [d Hd].
    - exists d. assumption.
    - exists (2 + d). rewrite N.add_assoc. assumption. }
  destruct H as [H|[_ [_ H]]]; apply S2 in H as [d Hd].
  - exists (1 + d). split; [lia|]. rewrite N.add_assoc. assumption.
  - exists (1 + 4 + d). split; [lia|]. rewrite !N.add_assoc. assumption.
Qed.

Lemma smear16_complete x i d : i < 64 -> 1 <= d <= 8 ->
  (i + d) / 16 = i / 16 -> N.testbit x (i + d) = true ->
  N.testbit (smear16 x) i = true.
Proof.
  intros Hi Hd Hc Hb. unfold smear16. cbv zeta.
  assert (M : forall e, e <= d -> (i + e) / 16 = i / 16).
  { intros e He. pose proof (div16_mono i (i + e) ltac:(lia)).
    pose proof (div16_mono (i + e) (i + d) ltac:(lia)). lia. }
  (* write d - 1 in binary *)
  set (e := d - 1).
  assert (B : exists b0 b1 b2 : bool,
     d = 1 + (if b2 then 4 else 0) + (if b1 then 2 else 0) + (if b0 then 1 else 0)).
  { assert (C : d = 1 \/ d = 2 \/ d = 3 \/ d = 4 \/ d = 5 \/ d = 6 \/ d = 7 \/ d = 8)
      by lia.
    destruct C as [ -> | [ -> | [ -> | [ -> | [ -> | [ -> | [ -> | -> ]]]]]]].
    - exists false, false, false. reflexivity.
    - exists true, false, false. reflexivity.
    - exists false, true, false. reflexivity.
    - exists true, true, false. reflexivity.
    - exists false, false, true. reflexivity.
    - exists true, false, true. reflexivity.
    - exists false, true, true. reflexivity.
    - exists true, true, true. reflexivity. }
  destruct B as [b0 [b1 [b2 E]]].
  assert (lt_all : forall e, e <= d -> i + e < 64).
  { intros e' He. pose proof (M e' He) as Q.
    assert (i / 16 <= 3) by (apply N.lt_succ_r; apply N.div_lt_upper_bound; lia).
    pose proof (N.div_mod (i + e') 16 ltac:(lia)).
    pose proof (N.mod_lt (i + e') 16 ltac:(lia)). lia. }
  assert (ST : forall n (b : bool) y p,
     p <= d -> p + (if b then n else 0) <= d ->
     N.testbit y (i + (p + if b then n else 0)) = true ->
     N.testbit (N.lor y (map16 (fun x => N.shiftr x n) y)) (i + p) = true).
  { intros n b y p Hp Hpn Hy. rewrite N.lor_spec, orb_true_iff.
    destruct b.
    - right. apply map16_spec. split; [apply lt_all; assumption|].
      rewrite <- N.add_assoc. split; [|assumption].
      rewrite !M by assumption. reflexivity.
    - left. rewrite N.add_0_r in Hy. assumption. }
  apply map16_spec. split; [assumption|].
  split; [apply M; lia|].
  apply (ST 4 b2); [lia|destruct b2; lia|].
  apply (ST 2 b1); [destruct b2; lia|destruct b1, b2; lia|].
  apply (ST 1 b0); [destruct b1, b2; lia|destruct b0, b1, b2; lia|].
  rewrite <- E. assumption.
Qed.

(* all 128 bits of a vector, numbered through *)
Definition wtest (a : v128) (g : N) : bool :=
  if g <? 64 then N.testbit (fst a) g else N.testbit (snd a) (g - 64).
Definition gbit (t : square) : N :=
  if sq_index t <? 63 then sq_index t else sq_index t + 1.

Lemma gbit_lt t : gbit t < 82.
Proof.
  pose proof (sq_index_lt t). unfold gbit. destruct (N.ltb_spec (sq_index t) 63); lia.
Qed.

Lemma ltest_wtest a t : ltest a t = wtest a (gbit t).
Proof.
  unfold ltest, wtest, gbit. destruct (N.ltb_spec (sq_index t) 63).
  - destruct (N.ltb_spec (sq_index t) 64); [reflexivity|lia].
  - destruct (N.ltb_spec (sq_index t + 1) 64); [lia|]. f_equal. lia.
Qed.

Lemma nb_after_wtest a t : lwf a ->
  (nb_after a t <-> forall g, gbit t < g -> wtest a g = false).
Proof.
  intros Ha. pose proof (sq_index_lt t). unfold gbit, wtest.
  destruct (N.ltb_spec (sq_index t) 63) as [L|L].
  - rewrite after0 by assumption. split.
    + intros [Z H1] g Hg. destruct (N.ltb_spec g 64); [auto|].
      rewrite Z. apply N.bits_0.
    + intros H1. split.
      * apply N_ext. intros i. rewrite N.bits_0.
        specialize (H1 (i + 64)). destruct (N.ltb_spec (i + 64) 64); [lia|].
        rewrite <- H1 by lia. f_equal. lia.
      * intros j Hj. destruct (N.lt_ge_cases j 64) as [Hlt|Hge].
        -- specialize (H1 j Hj). destruct (N.ltb_spec j 64); [assumption|lia].
        -- apply (testbit_high _ 63); [apply Ha|lia].
  - rewrite after1 by assumption. split.
    + intros H1 g Hg. destruct (N.ltb_spec g 64); [lia|]. apply H1. lia.
    + intros H1 j Hj. specialize (H1 (j + 64)).
      destruct (N.ltb_spec (j + 64) 64); [lia|].
      rewrite <- H1 by lia. f_equal. lia.
Qed.

(* byte [i] of the vector has a set bit *)
Definition byte_set (a : v128) (i : N) : Prop :=
  exists g, g / 8 = i /\ wtest a g = true.

(* [top] is the highest non-zero byte, or 0 if there is none *)
Definition is_top (a : v128) (top : N) : Prop :=
  top < 16 /\ (top = 0 \/ byte_set a top) /\
  (forall i, top < i -> ~ byte_set a i).

Lemma x86_masked_lanes top : top < 16 -> x86_masked top = lanes_masked (8 * top).
Proof.
  intros H. assert (Hin : In top (Nseq 0 16)) by (apply in_Nseq; cbn; lia).
  assert (A : forallb (fun t => (fst (x86_masked t) =? fst (lanes_masked (8 * t)))
      && (snd (x86_masked t) =? snd (lanes_masked (8 * t)))) (Nseq 0 16) = true)
    by (vm_compute; reflexivity).
  rewrite forallb_forall in A. specialize (A _ Hin).
  apply andb_prop in A as [A B]. apply N.eqb_eq in A, B.
  destruct (x86_masked top), (lanes_masked (8 * top)). cbn in *. congruence.
Qed.

Lemma wtest_masked n g : n <= 128 -> g < 128 ->
  wtest (lanes_masked n) g = (g <? n).
Proof.
  intros Hn Hg. unfold wtest. destruct (N.ltb_spec g 64).
  - destruct (N.le_gt_cases n 64).
    + rewrite lanes_masked_0 by assumption. reflexivity.
    + rewrite lanes_masked_0' by lia. symmetry. apply N.ltb_lt. lia.
  - destruct (N.le_gt_cases n 64).
    + rewrite lanes_masked_1' by assumption. symmetry. apply N.ltb_ge. lia.
    + rewrite lanes_masked_1 by lia.
      destruct (N.ltb_spec (g - 64) (n - 64)), (N.ltb_spec g n); lia.
Qed.

Lemma wtest_or a b g : wtest (v_or a b) g = wtest a g || wtest b g.
Proof.
  unfold wtest. destruct (g <? 64); cbn [v_or v_map2 fst snd]; apply N.lor_spec.
Qed.

Lemma half_neg_spec occ m top t : lwf occ -> lwf m ->
  is_top (v_and occ m) top ->
  (ltest (half_neg occ m top) t = true <-> slid_neg (ltest occ) (ltest m) t).
Proof.
  intros Ho Hm Htop. rewrite slid_neg_lanes. unfold half_neg.
  set (a := v_and occ m) in *. assert (Ha : lwf a) by (apply lwf_and; assumption).
  cbv zeta. rewrite ltest_andc, andb_true_iff, negb_true_iff.
  destruct Htop as [T16 [T0 Tabove]].
  rewrite x86_masked_lanes by assumption.
  assert (H : ltest (v_or (smear16 (fst a), smear16 (snd a)) (lanes_masked (8 * top))) t
              = false <-> nb_after a t); [|tauto].
  pose proof (gbit_lt t) as G82.
  rewrite ltest_wtest, nb_after_wtest, wtest_or by assumption.
  rewrite wtest_masked by dlia. set (g := gbit t) in *. clearbody g.
  rewrite orb_false_iff, N.ltb_ge. split.
  - intros [Hs HT] g' Hg'. apply not_true_iff_false. intros Hb.
    assert (Le : g' / 8 <= top).
    { destruct (N.le_gt_cases (g' / 8) top) as [|C]; [assumption|].
      exfalso. apply (Tabove _ C). exists g'. split; [reflexivity|assumption]. }
    assert (Dg := N.div_mod g 8 ltac:(dlia)). assert (Mg := N.mod_lt g 8 ltac:(dlia)).
    assert (Dg' := N.div_mod g' 8 ltac:(dlia)). assert (Mg' := N.mod_lt g' 8 ltac:(dlia)).
    assert (E : g' / 8 = g / 8) by dlia.
    assert (Hd : g' - g <= 7) by dlia.
    assert (E16 : forall k, (8 * (g / 8) + k) / 16 = (g / 8) / 2 \/ 8 <= k).
    { intros k. destruct (N.le_gt_cases 8 k); [right; assumption|left].
      change 16 with (8 * 2). rewrite <- N.div_div by dlia. f_equal.
      symmetry. apply (N.div_unique _ _ _ k); dlia. }
    apply not_true_iff_false in Hs. apply Hs. unfold wtest in *. cbn [fst snd].
    assert (E64 : (g <? 64) = (g' <? 64)).
    { destruct (N.ltb_spec g 64), (N.ltb_spec g' 64); try reflexivity; exfalso; dlia. }
    rewrite E64. destruct (N.ltb_spec g' 64) as [L|L].
    + apply (smear16_complete _ _ (g' - g)); [dlia|dlia| |].
      * replace (g + (g' - g)) with g' by dlia.
        destruct (E16 (g mod 8)) as [Q|Q]; [|dlia]. rewrite <- Dg in Q.
        destruct (E16 (g' mod 8)) as [Q'|Q']; [|dlia].
        rewrite <- E, <- Dg' in Q'. congruence.
      * replace (g + (g' - g)) with g' by dlia. assumption.
    + apply (smear16_complete _ _ (g' - g)); [dlia|dlia| |].
      * replace (g - 64 + (g' - g)) with (g' - 64) by dlia.
        destruct (E16 (g mod 8)) as [Q|Q]; [|dlia]. rewrite <- Dg in Q.
        destruct (E16 (g' mod 8)) as [Q'|Q']; [|dlia].
        rewrite <- E, <- Dg' in Q'.
        assert (S : forall x, 64 <= x -> (x - 64) / 16 + 4 = x / 16).
        { intros x Hx. rewrite <- N.div_add by discriminate. f_equal. dlia. }
        apply N.ltb_ge in E64.
        apply (N.add_cancel_r _ _ 4). rewrite (S g E64), (S g' L). congruence.
      * replace (g - 64 + (g' - g)) with (g' - 64) by (apply N.ltb_ge in E64; dlia).
        assumption.
  - intros H. split.
    + apply not_true_iff_false. intros Hs. unfold wtest in Hs.
      destruct (N.ltb_spec g 64) as [L|L]; cbn [fst snd] in Hs;
        apply smear16_sound in Hs as [d [Hd Hs]].
      * destruct (N.lt_ge_cases (g + d) 64) as [L'|L'].
        -- specialize (H (g + d) ltac:(dlia)). unfold wtest in H.
           apply N.ltb_lt in L'. rewrite L' in H. congruence.
        -- rewrite (testbit_high _ 63) in Hs; [discriminate|apply Ha|dlia].
      * specialize (H (g + d) ltac:(dlia)). unfold wtest in H.
        destruct (N.ltb_spec (g + d) 64); [dlia|].
        replace (g + d - 64) with (g - 64 + d) in H by dlia. congruence.
    + destruct (N.le_gt_cases (8 * top) g) as [|C]; [assumption|exfalso].
      destruct T0 as [->|[g' [E' Hb]]]; [dlia|].
      rewrite H in Hb; [discriminate|].
      assert (Dg' := N.div_mod g' 8 ltac:(dlia)). dlia.
Qed.

Lemma lwf_half_neg occ m top : lwf m -> lwf (half_neg occ m top).
Proof. intros H. apply lwf_andc, H. Qed.

(** ** The byte scan *)

Lemma fold_bits f l j :
  N.testbit (fold_right (fun i acc =>
    N.lor (if f i : bool then N.shiftl 1 i else 0) acc) 0 l) j =
  existsb (fun i => f i && (j =? i)) l.
Proof.
  induction l as [|i l IH]; [apply N.bits_0|].
  cbn [fold_right existsb]. rewrite N.lor_spec, IH. f_equal.
  destruct (f i); [apply shiftl1_spec|apply N.bits_0].
Qed.

Lemma chunk_zero_iff x i :
  (chunk 8 x i =? chunk 8 0 i) = true <->
  forall k, k < 8 -> N.testbit x (8 * i + k) = false.
Proof.
  assert (Z : chunk 8 0 i = 0).
  { apply N_ext. intros j. rewrite chunk_spec, !N.bits_0. apply andb_false_r. }
  rewrite Z, N.eqb_eq. split.
  - intros H k Hk. assert (E : N.testbit (chunk 8 x i) k = false)
      by (rewrite H; apply N.bits_0).
    rewrite chunk_spec in E. apply N.ltb_lt in Hk. rewrite Hk in E. assumption.
  - intros H. apply N_ext. intros k. rewrite chunk_spec, N.bits_0.
    destruct (N.ltb_spec k 8); [apply H; assumption|reflexivity].
Qed.

Lemma cmp64_spec x j :
  N.testbit (cmpeq8_movemask64 x 0) j = true <->
  j < 8 /\ forall k, k < 8 -> N.testbit x (8 * j + k) = false.
Proof.
  unfold cmpeq8_movemask64.
  rewrite (fold_bits (fun i => chunk 8 x i =? chunk 8 0 i)).
  rewrite existsb_exists. split.
  - intros [i [Hi H]]. apply andb_prop in H as [H E]. apply N.eqb_eq in E. subst j.
    split; [|apply chunk_zero_iff; assumption].
    repeat destruct Hi as [<-|Hi]; try dlia. destruct Hi.
  - intros [Hj H]. exists j. split.
    + assert (C : j = 0 \/ j = 1 \/ j = 2 \/ j = 3 \/ j = 4 \/ j = 5 \/ j = 6 \/ j = 7)
        by dlia.
      unfold bytes8. cbn [In]. intuition congruence.
    + rewrite N.eqb_refl, andb_true_r. apply chunk_zero_iff. assumption.
Qed.

(* the zero bytes of one half *)
Definition zeros (a : v128) : N :=
  N.lor (cmpeq8_movemask64 (fst a) 0) (N.shiftl (cmpeq8_movemask64 (snd a) 0) 8).

Lemma zeros_spec a i : i < 16 ->
  (N.testbit (zeros a) i = false <-> byte_set a i).
Proof.
  intros Hi. unfold zeros. rewrite N.lor_spec, orb_false_iff.
  rewrite <- !not_true_iff_false.
  destruct (N.lt_ge_cases i 8) as [L|L].
  - rewrite (N.shiftl_spec_low _ _ i) by assumption. rewrite cmp64_spec. split.
    + intros [H _].
      assert (Ex : existsb (fun k => N.testbit (fst a) (8 * i + k)) (Nseq 0 8) = true).
      { apply not_false_iff_true. intros F. apply H. split; [assumption|].
        intros k Hk. apply not_true_iff_false. intros Hb.
        apply not_true_iff_false in F. apply F. apply existsb_exists. exists k.
        split; [apply in_Nseq; cbn; dlia|assumption]. }
      apply existsb_exists in Ex as [k [Hk Hb]]. apply in_Nseq in Hk. cbn in Hk.
      exists (8 * i + k). split.
      * symmetry. apply (N.div_unique _ _ _ k); dlia.
      * unfold wtest. destruct (N.ltb_spec (8 * i + k) 64); [assumption|dlia].
    + intros [g [Eg Hb]]. split; [|discriminate]. intros [_ H].
      assert (Dg := N.div_mod g 8 ltac:(dlia)). assert (Mg := N.mod_lt g 8 ltac:(dlia)).
      unfold wtest in Hb. destruct (N.ltb_spec g 64); [|dlia].
      rewrite Dg, Eg, H in Hb by assumption. discriminate.
  - rewrite N.shiftl_spec_high' by assumption. rewrite !cmp64_spec. split.
    + intros [_ H].
      assert (Ex : existsb (fun k => N.testbit (snd a) (8 * (i - 8) + k)) (Nseq 0 8)
                   = true).
      { apply not_false_iff_true. intros F. apply H. split; [dlia|].
        intros k Hk. apply not_true_iff_false. intros Hb.
        apply not_true_iff_false in F. apply F. apply existsb_exists. exists k.
        split; [apply in_Nseq; cbn; dlia|assumption]. }
      apply existsb_exists in Ex as [k [Hk Hb]]. apply in_Nseq in Hk. cbn in Hk.
      exists (8 * i + k). split.
      * symmetry. apply (N.div_unique _ _ _ k); dlia.
      * unfold wtest. destruct (N.ltb_spec (8 * i + k) 64); [dlia|].
        replace (8 * i + k - 64) with (8 * (i - 8) + k) by dlia. assumption.
    + intros [g [Eg Hb]]. split; [dlia|]. intros [_ H].
      assert (Dg := N.div_mod g 8 ltac:(dlia)). assert (Mg := N.mod_lt g 8 ltac:(dlia)).
      unfold wtest in Hb. destruct (N.ltb_spec g 64); [dlia|].
      replace (g - 64) with (8 * (i - 8) + g mod 8) in Hb by dlia.
      rewrite H in Hb by assumption. discriminate.
Qed.

Lemma movemask_split lo hi :
  movemask (lo, hi) = N.lor (zeros lo) (N.shiftl (zeros hi) 16).
Proof.
  unfold movemask, cmpeq8_movemask, zeros. cbn [fst snd].
  change (fst v_zero) with 0. change (snd v_zero) with 0.
  rewrite N.shiftl_lor, N.shiftl_shiftl. reflexivity.
Qed.

Lemma zeros_high a i : 16 <= i -> N.testbit (zeros a) i = false.
Proof.
  intros Hi. unfold zeros. rewrite N.lor_spec, orb_false_iff.
  rewrite N.shiftl_spec_high' by dlia. rewrite <- !not_true_iff_false, !cmp64_spec.
  split; intros [H _]; dlia.
Qed.

Lemma byte_set_lt a i : lwf a -> byte_set a i -> i < 16.
Proof.
  intros Ha [g [Eg Hb]].
  assert (g < 82).
  { unfold wtest in Hb. destruct (N.ltb_spec g 64) as [|L]; [dlia|].
    destruct (N.lt_ge_cases g 82) as [|C]; [assumption|].
    rewrite (testbit_high _ 18) in Hb; [discriminate|apply Ha|dlia]. }
  rewrite <- Eg. apply N.div_lt_upper_bound; dlia.
Qed.

Lemma log2_is_top a b k : lwf a ->
  (* the bits k .. k+15 of [b] are the non-zero bytes of [a], bit [k] forced *)
  (forall i, i < 16 -> (N.testbit b (k + i) = true <-> i = 0 \/ byte_set a i)) ->
  (forall i, k + 16 <= i -> N.testbit b i = false) ->
  k <= N.log2 b /\ is_top a (N.log2 b - k).
Proof.
  intros Ha H Hh.
  assert (Bk : N.testbit b k = true).
  { specialize (H 0 ltac:(dlia)). rewrite N.add_0_r in H. apply H. left. reflexivity. }
  assert (b <> 0) as B0 by (intros ->; rewrite N.bits_0 in Bk; discriminate).
  assert (Lk : k <= N.log2 b) by (apply log2_ge; assumption).
  assert (Lh : N.log2 b < k + 16).
  { destruct (N.lt_ge_cases (N.log2 b) (k + 16)) as [|C]; [assumption|].
    pose proof (N.bit_log2 b B0) as E. rewrite Hh in E by assumption. discriminate. }
  split; [assumption|]. split; [dlia|]. split.
  - apply H; [dlia|]. replace (k + (N.log2 b - k)) with (N.log2 b) by dlia.
    apply N.bit_log2. assumption.
  - intros i Hi Hs. pose proof (byte_set_lt a i Ha Hs) as Hi16.
    assert (E : N.testbit b (k + i) = true) by (apply H; [assumption|right; assumption]).
    apply log2_ge in E. dlia.
Qed.

Lemma top_lo_spec lo hi : lwf lo -> is_top lo (top_lo (movemask (lo, hi))).
Proof.
  intros Ha. unfold top_lo.
  set (b := N.lor (N.lxor (N.land (movemask (lo, hi)) 65535) 65535) 1).
  assert (Hb : forall i, N.testbit b i =
             (i <? 16) && (negb (N.testbit (zeros lo) i) || (i =? 0))).
  { intros i. unfold b. rewrite N.lor_spec, N.lxor_spec, N.land_spec, movemask_split.
    change 65535 with (N.ones 16). rewrite !ones_spec.
    rewrite N.lor_spec.
    assert (E1 : N.testbit 1 i = (i =? 0)).
    { change 1 with (2 ^ 0). rewrite N.pow2_bits_eqb. apply N.eqb_sym. }
    rewrite E1.
    destruct (N.ltb_spec i 16) as [L|L].
    - rewrite N.shiftl_spec_low by assumption. rewrite orb_false_r, andb_true_r.
      destruct (N.testbit (zeros lo) i), (i =? 0); reflexivity.
    - rewrite andb_false_r. destruct (N.eqb_spec i 0); [dlia|reflexivity]. }
  assert (B0 : b <> 0).
  { intros E. specialize (Hb 0). rewrite E, N.bits_0 in Hb.
    destruct (N.testbit (zeros lo) 0); discriminate. }
  assert (B32 : b < 2 ^ 32).
  { apply lt_pow2_testbit. intros i Hi. rewrite Hb.
    destruct (N.ltb_spec i 16); [dlia|reflexivity]. }
  destruct (log2_is_top lo b 0 Ha) as [_ HT].
  - intros i Hi. rewrite N.add_0_l, Hb, <- zeros_spec by assumption.
    apply N.ltb_lt in Hi. rewrite Hi. cbn [andb].
    rewrite orb_true_iff, negb_true_iff, N.eqb_eq. tauto.
  - intros i Hi. rewrite Hb. destruct (N.ltb_spec i 16); [dlia|reflexivity].
  - rewrite N.sub_0_r in HT. rewrite clz_log2 by assumption.
    replace (31 - (32 - 1 - N.log2 b)) with (N.log2 b); [assumption|].
    apply N.log2_lt_pow2 in B32; dlia.
Qed.

Lemma top_hi_spec lo hi : lwf hi -> is_top hi (top_hi (movemask (lo, hi))).
Proof.
  intros Ha. unfold top_hi.
  set (b := N.lor (N.lxor (movemask (lo, hi)) 4294967295) 65536).
  assert (Hb : forall i, 16 <= i -> N.testbit b i =
             (i <? 32) && (negb (N.testbit (zeros hi) (i - 16)) || (i =? 16))).
  { intros i Hi. unfold b. rewrite N.lor_spec, N.lxor_spec, movemask_split.
    change 4294967295 with (N.ones 32). rewrite !ones_spec.
    rewrite N.lor_spec, zeros_high by assumption. cbn [orb].
    rewrite N.shiftl_spec_high' by assumption.
    assert (E1 : N.testbit 65536 i = (i =? 16)).
    { change 65536 with (2 ^ 16). rewrite N.pow2_bits_eqb. apply N.eqb_sym. }
    rewrite E1.
    destruct (N.ltb_spec i 32) as [L|L].
    - destruct (N.testbit (zeros hi) (i - 16)), (i =? 16); reflexivity.
    - rewrite zeros_high by dlia. destruct (N.eqb_spec i 16); [dlia|reflexivity]. }
  assert (B0 : b <> 0).
  { intros E. specialize (Hb 16 ltac:(dlia)). rewrite E, N.bits_0 in Hb.
    destruct (N.testbit (zeros hi) (16 - 16)); discriminate. }
  assert (B32 : b < 2 ^ 32).
  { apply lt_pow2_testbit. intros i Hi. rewrite Hb by dlia.
    destruct (N.ltb_spec i 32); [dlia|reflexivity]. }
  destruct (log2_is_top hi b 16 Ha) as [L16 HT].
  - intros i Hi. rewrite Hb by dlia. rewrite <- zeros_spec by assumption.
    destruct (N.ltb_spec (16 + i) 32); [|dlia]. cbn [andb].
    replace (16 + i - 16) with i by dlia.
    rewrite orb_true_iff, negb_true_iff, N.eqb_eq.
    assert (Q : 16 + i = 16 <-> i = 0) by dlia. tauto.
  - intros i Hi. rewrite Hb by dlia. destruct (N.ltb_spec i 32); [dlia|reflexivity].
  - rewrite clz_log2 by assumption.
    apply N.log2_lt_pow2 in B32; [|dlia].
    replace (15 - (32 - 1 - N.log2 b)) with (N.log2 b - 16) by dlia. assumption.
Qed.

(** ** Both functions *)

Lemma x86_pos2_spec occ ms t : lwf occ -> lwf (fst ms) -> lwf (snd ms) ->
  (ltest (x86_slide_pos2 occ ms) t = true <->
   slid_pos (ltest occ) (ltest (fst ms)) t \/
   slid_pos (ltest occ) (ltest (snd ms)) t).
Proof.
  intros Ho H0 H1. rewrite x86_pos2_halves, ltest_or, orb_true_iff.
  rewrite !half_pos_spec by assumption. tauto.
Qed.

Lemma x86_neg2_spec occ ms t : lwf occ -> lwf (fst ms) -> lwf (snd ms) ->
  (ltest (x86_slide_neg2 occ ms) t = true <->
   slid_neg (ltest occ) (ltest (fst ms)) t \/
   slid_neg (ltest occ) (ltest (snd ms)) t).
Proof.
  intros Ho H0 H1. rewrite x86_neg2_halves, ltest_or, orb_true_iff.
  rewrite !half_neg_spec; try assumption; [tauto| |].
  - apply top_hi_spec, lwf_and; assumption.
  - apply top_lo_spec, lwf_and; assumption.
Qed.

Lemma lwf_x86_pos2 occ ms : lwf (fst ms) -> lwf (snd ms) ->
  lwf (x86_slide_pos2 occ ms).
Proof.
  intros H0 H1. rewrite x86_pos2_halves. apply lwf_or; apply lwf_half_pos; assumption.
Qed.
Lemma lwf_x86_neg2 occ ms : lwf (fst ms) -> lwf (snd ms) ->
  lwf (x86_slide_neg2 occ ms).
Proof.
  intros H0 H1. rewrite x86_neg2_halves. apply lwf_or; apply lwf_half_neg; assumption.
Qed.
