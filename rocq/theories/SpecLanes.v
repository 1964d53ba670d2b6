(** * Two-lane bitboards: facts shared by the SIMD backends *)

From Coq Require Import List Bool NArith ZArith Lia.
From Verif Require Import Types Bitboard Words Squares BBSpec.
Import ListNotations.
Open Scope N_scope.

Definition lwf (a : v128) : Prop := fst a < 2 ^ 63 /\ snd a < 2 ^ 18.

Definition ltest (a : v128) (s : square) : bool :=
  let i := sq_index s in
  if i <? 63 then N.testbit (fst a) i else N.testbit (snd a) (i - 63).

Lemma lwf_64 a : lwf a -> fst a < 2 ^ 64 /\ snd a < 2 ^ 64.
Proof.
  intros [H0 H1]. split; eapply N.lt_trans; try eassumption; reflexivity.
Qed.

Lemma lwf_bits a :
  (forall i, 63 <= i -> N.testbit (fst a) i = false) ->
  (forall i, 18 <= i -> N.testbit (snd a) i = false) -> lwf a.
Proof. intros H0 H1. split; apply lt_pow2_testbit; assumption. Qed.

(* a square for each bit of each lane *)
Definition sq0 (i : N) : square := sq_of_u8 (i + 1).
Definition sq1 (i : N) : square := sq_of_u8 (i + 64).

Lemma sq0_index i : i < 63 -> sq_index (sq0 i) = i.
Proof. intros H. apply sq_index_of. lia. Qed.
Lemma sq1_index i : i < 18 -> sq_index (sq1 i) = 63 + i.
Proof.
  intros H. unfold sq1. replace (i + 64) with (63 + i + 1) by lia.
  apply sq_index_of. lia.
Qed.
Lemma ltest_sq0 a i : i < 63 -> ltest a (sq0 i) = N.testbit (fst a) i.
Proof.
  intros H. unfold ltest. rewrite sq0_index by assumption.
  destruct (N.ltb_spec i 63); [reflexivity|lia].
Qed.
Lemma ltest_sq1 a i : i < 18 -> ltest a (sq1 i) = N.testbit (snd a) i.
Proof.
  intros H. unfold ltest. rewrite sq1_index by assumption.
  destruct (N.ltb_spec (63 + i) 63); [lia|]. f_equal. lia.
Qed.

Lemma ltest_ext a b : lwf a -> lwf b -> (forall s, ltest a s = ltest b s) -> a = b.
Proof.
  intros [A0 A1] [B0 B1] H. destruct a as [a0 a1], b as [b0 b1]. cbn in *.
  f_equal; apply N_ext; intros i.
  - destruct (N.lt_ge_cases i 63) as [Hi|Hi].
    + specialize (H (sq0 i)). rewrite !ltest_sq0 in H by assumption. assumption.
    + rewrite (testbit_high a0 63), (testbit_high b0 63) by assumption. reflexivity.
  - destruct (N.lt_ge_cases i 18) as [Hi|Hi].
    + specialize (H (sq1 i)). rewrite !ltest_sq1 in H by assumption. assumption.
    + rewrite (testbit_high a1 18), (testbit_high b1 18) by assumption. reflexivity.
Qed.

(** ** Boolean operations *)

Lemma lwf_zero : lwf v_zero.
Proof. split; reflexivity. Qed.
Lemma ltest_zero s : ltest v_zero s = false.
Proof. unfold ltest, v_zero. cbn [fst snd]. destruct (_ <? _); apply N.bits_0. Qed.

Lemma shiftl1_spec n i : N.testbit (N.shiftl 1 n) i = (i =? n).
Proof.
  rewrite N.shiftl_1_l, N.pow2_bits_eqb. apply N.eqb_sym.
Qed.

Lemma lwf_single s : lwf (lanes_single s).
Proof.
  pose proof (sq_index_lt s) as H. unfold lanes_single.
  apply lwf_bits; intros i Hi; destruct (N.ltb_spec (sq_index s) 63); cbn [fst snd];
    rewrite ?shiftl1_spec; try apply N.bits_0;
    apply N.eqb_neq; lia.
Qed.

Lemma ltest_single s t : ltest (lanes_single s) t = sq_eqb t s.
Proof.
  unfold ltest, lanes_single.
  assert (E : sq_eqb t s = (sq_index t =? sq_index s)).
  { destruct (sq_eqb_spec t s) as [->|Hn].
    - symmetry. apply N.eqb_refl.
    - symmetry. apply N.eqb_neq. intros H. apply Hn, sq_index_inj, H. }
  rewrite E.
  destruct (N.ltb_spec (sq_index s) 63); destruct (N.ltb_spec (sq_index t) 63);
    cbn [fst snd]; rewrite ?shiftl1_spec, ?N.bits_0.
  - reflexivity.
  - symmetry. apply N.eqb_neq. lia.
  - symmetry. apply N.eqb_neq. lia.
  - destruct (N.eqb_spec (sq_index t - 63) (sq_index s - 63));
    destruct (N.eqb_spec (sq_index t) (sq_index s)); lia.
Qed.

Lemma lwf_and a b : lwf a -> lwf b -> lwf (v_and a b).
Proof.
  intros [A0 A1] _. apply lwf_bits; intros i Hi; cbn [v_and v_or v_xor v_andc v_map2 v_zero fst snd]; rewrite N.land_spec.
  - rewrite (testbit_high (fst a) 63) by assumption. reflexivity.
  - rewrite (testbit_high (snd a) 18) by assumption. reflexivity.
Qed.
Lemma lwf_and_l a b : lwf a -> lwf (v_and a b).
Proof.
  intros [A0 A1]. apply lwf_bits; intros i Hi; cbn [v_and v_or v_xor v_andc v_map2 v_zero fst snd]; rewrite N.land_spec.
  - rewrite (testbit_high (fst a) 63) by assumption. reflexivity.
  - rewrite (testbit_high (snd a) 18) by assumption. reflexivity.
Qed.
Lemma lwf_and_r a b : lwf b -> lwf (v_and a b).
Proof.
  intros [A0 A1]. apply lwf_bits; intros i Hi; cbn [v_and v_or v_xor v_andc v_map2 v_zero fst snd]; rewrite N.land_spec.
  - rewrite (testbit_high (fst b) 63) by assumption. apply andb_false_r.
  - rewrite (testbit_high (snd b) 18) by assumption. apply andb_false_r.
Qed.
Lemma ltest_and a b s : ltest (v_and a b) s = ltest a s && ltest b s.
Proof. unfold ltest. destruct (_ <? _); cbn [v_and v_or v_xor v_andc v_map2 v_zero fst snd]; apply N.land_spec. Qed.

Lemma lwf_or a b : lwf a -> lwf b -> lwf (v_or a b).
Proof.
  intros [A0 A1] [B0 B1]. apply lwf_bits; intros i Hi; cbn [v_and v_or v_xor v_andc v_map2 v_zero fst snd]; rewrite N.lor_spec.
  - rewrite (testbit_high (fst a) 63), (testbit_high (fst b) 63) by assumption.
    reflexivity.
  - rewrite (testbit_high (snd a) 18), (testbit_high (snd b) 18) by assumption.
    reflexivity.
Qed.
Lemma ltest_or a b s : ltest (v_or a b) s = ltest a s || ltest b s.
Proof. unfold ltest. destruct (_ <? _); cbn [v_and v_or v_xor v_andc v_map2 v_zero fst snd]; apply N.lor_spec. Qed.

Lemma lwf_xor a b : lwf a -> lwf b -> lwf (v_xor a b).
Proof.
  intros [A0 A1] [B0 B1]. apply lwf_bits; intros i Hi; cbn [v_and v_or v_xor v_andc v_map2 v_zero fst snd]; rewrite N.lxor_spec.
  - rewrite (testbit_high (fst a) 63), (testbit_high (fst b) 63) by assumption.
    reflexivity.
  - rewrite (testbit_high (snd a) 18), (testbit_high (snd b) 18) by assumption.
    reflexivity.
Qed.
Lemma ltest_xor a b s : ltest (v_xor a b) s = xorb (ltest a s) (ltest b s).
Proof. unfold ltest. destruct (_ <? _); cbn [v_and v_or v_xor v_andc v_map2 v_zero fst snd]; apply N.lxor_spec. Qed.

Lemma lwf_andc a b : lwf a -> lwf (v_andc a b).
Proof.
  intros [A0 A1]. apply lwf_bits; intros i Hi; cbn [v_and v_or v_xor v_andc v_map2 v_zero fst snd]; rewrite N.ldiff_spec.
  - rewrite (testbit_high (fst a) 63) by assumption. reflexivity.
  - rewrite (testbit_high (snd a) 18) by assumption. reflexivity.
Qed.
Lemma ltest_andc a b s : ltest (v_andc a b) s = ltest a s && negb (ltest b s).
Proof. unfold ltest. destruct (_ <? _); cbn [v_and v_or v_xor v_andc v_map2 v_zero fst snd]; apply N.ldiff_spec. Qed.

Lemma lwf_ones : lwf lanes_ones.
Proof. split; reflexivity. Qed.
Lemma ltest_ones s : ltest lanes_ones s = true.
Proof.
  revert s. apply sq_forall. vm_compute. reflexivity.
Qed.

Lemma lwf_not a : lwf (v_andc lanes_ones a).
Proof. apply lwf_andc, lwf_ones. Qed.
Lemma ltest_not a s : ltest (v_andc lanes_ones a) s = negb (ltest a s).
Proof. rewrite ltest_andc, ltest_ones. reflexivity. Qed.

(** ** Emptiness *)

Lemma lwf_zero_test a : lwf a ->
  ((fst a =? 0) && (snd a =? 0)) = negb (existsb (ltest a) all_squares).
Proof.
  intros Ha. destruct (existsb (ltest a) all_squares) eqn:E; cbn.
  - apply existsb_exists in E as [s [_ Hs]].
    apply not_true_iff_false. intros H. apply andb_prop in H as [H0 H1].
    apply N.eqb_eq in H0, H1. unfold ltest in Hs. rewrite H0, H1 in Hs.
    destruct (_ <? _); rewrite N.bits_0 in Hs; discriminate.
  - assert (Z : a = v_zero).
    { apply ltest_ext; [assumption|apply lwf_zero|]. intros s.
      rewrite ltest_zero. apply not_true_iff_false. intros H.
      apply not_true_iff_false in E. apply E. apply existsb_exists.
      exists s. split; [apply all_squares_in|assumption]. }
    rewrite Z. reflexivity.
Qed.

(** ** Count and iteration *)

Lemma filter_ltest a :
  filter (ltest a) all_squares =
  map sq0 (bits (fst a) 63) ++ map sq1 (bits (snd a) 18).
Proof.
  rewrite all_squares_map. change 81%nat with (63 + 18)%nat.
  rewrite Nseq_app, map_app, filter_app. f_equal.
  - rewrite filter_map_comm. unfold bits.
    erewrite filter_ext_in; [reflexivity|]. intros i Hi. cbn beta.
    apply in_Nseq in Hi. apply (ltest_sq0 a). cbn in Hi. lia.
  - change (0 + N.of_nat 63) with (0 + 63). rewrite Nseq_map_add, map_map.
    rewrite filter_map_comm. unfold bits.
    rewrite (map_ext _ sq1)
      by (intros i; unfold sq1; f_equal; lia).
    erewrite filter_ext_in; [reflexivity|]. intros i Hi. cbn beta.
    apply in_Nseq in Hi. rewrite <- ltest_sq1 by (cbn in Hi; lia).
    unfold sq1. do 2 f_equal. lia.
Qed.

Lemma lanes_count_spec a : lwf a ->
  lanes_count a = N.of_nat (length (filter (ltest a) all_squares)).
Proof.
  intros [A0 A1]. rewrite filter_ltest, app_length, !map_length.
  unfold lanes_count.
  rewrite (count_ones_bits 63 (fst a)), (count_ones_bits 18 (snd a))
    by assumption.
  pose proof (bits_length (fst a) 63). pose proof (bits_length (snd a) 18).
  change 0xff with (N.ones 8). rewrite N.land_ones.
  rewrite N.mod_small; [lia|]. change (2 ^ 8) with 256. lia.
Qed.

Lemma lt63_64 a : a < 2 ^ 63 -> a < 2 ^ 64.
Proof. intros H. eapply N.lt_trans; [eassumption|reflexivity]. Qed.
Lemma lt18_64 a : a < 2 ^ 18 -> a < 2 ^ 64.
Proof. intros H. eapply N.lt_trans; [eassumption|reflexivity]. Qed.

Lemma pop_lsb_spec n : n <> 0 -> n < 2 ^ 64 ->
  pop_lsb n = (ctz 64 n, N.land n (n - 1)).
Proof.
  intros H0 H. unfold pop_lsb. rewrite wsub64_ge by (try assumption; lia).
  reflexivity.
Qed.

Lemma land_small a b n : a < 2 ^ n -> N.land a b < 2 ^ n.
Proof.
  intros H. apply lt_pow2_testbit. intros i Hi. rewrite N.land_spec.
  rewrite (testbit_high a n) by assumption. reflexivity.
Qed.

Lemma land_255 a : a < 256 -> N.land a 255 = a.
Proof.
  intros H. change 255 with (N.ones 8). rewrite N.land_ones.
  apply N.mod_small. assumption.
Qed.

Lemma length_cons {A} (x : A) l : length (x :: l) = S (length l).
Proof. reflexivity. Qed.

(* the successive values of the iterator *)
Lemma lanes_iter_u8_spec fuel : forall a, lwf a ->
  (length (bits (fst a) 63) + length (bits (snd a) 18) < fuel)%nat ->
  lanes_iter_u8 fuel a =
  map (fun i => i + 1) (bits (fst a) 63) ++
  map (fun i => i + 64) (bits (snd a) 18).
Proof.
  induction fuel as [|fuel IH]; intros [l0 l1] Ha Hf; [lia|].
  destruct Ha as [H0 H1]. cbn [fst snd] in *.
  cbn [lanes_iter_u8].
  destruct (N.eqb_spec l0 0) as [->|N0]; cbn [negb].
  - destruct (N.eqb_spec l1 0) as [->|N1]; cbn [negb].
    + rewrite !bits_zero. reflexivity.
    + rewrite pop_lsb_spec by (try apply lt18_64; assumption). cbv beta iota.
      assert (E : bits l1 18 = ctz 64 l1 :: bits (N.land l1 (l1 - 1)) 18)
        by (apply bits_pop; assumption).
      assert (L : length (bits l1 18)
                  = S (length (bits (N.land l1 (l1 - 1)) 18)))
        by (rewrite E; apply length_cons).
      rewrite IH; unfold lwf; cbn [fst snd].
      * rewrite E, bits_zero, !map_cons.
        rewrite land_255 by (pose proof (ctz_lt 64 18 l1 N1 H1); lia).
        reflexivity.
      * split; [reflexivity|apply land_small; assumption].
      * rewrite bits_zero in *. lia.
  - rewrite pop_lsb_spec by (try apply lt63_64; assumption). cbv beta iota.
    assert (E : bits l0 63 = ctz 64 l0 :: bits (N.land l0 (l0 - 1)) 63)
      by (apply bits_pop; assumption).
    assert (L : length (bits l0 63)
                = S (length (bits (N.land l0 (l0 - 1)) 63)))
      by (rewrite E; apply length_cons).
    rewrite IH; unfold lwf; cbn [fst snd].
    + rewrite E, !map_cons, <- app_comm_cons.
      rewrite land_255 by (pose proof (ctz_lt 64 63 l0 N0 H0); lia).
      reflexivity.
    + split; [apply land_small|]; assumption.
    + lia.
Qed.

Lemma lanes_iter_u8_129 a : lwf a ->
  lanes_iter_u8 129 a =
  map (fun i => i + 1) (bits (fst a) 63) ++
  map (fun i => i + 64) (bits (snd a) 18).
Proof.
  intros Ha. apply lanes_iter_u8_spec; [assumption|].
  pose proof (bits_length (fst a) 63). pose proof (bits_length (snd a) 18). lia.
Qed.

Lemma map_sq0 a : map (fun s => sq_index s + 1) (map sq0 (bits a 63))
  = map (fun i => i + 1) (bits a 63).
Proof.
  rewrite map_map. apply map_ext_in. intros i Hi.
  apply in_bits in Hi as [Hi _].
  rewrite sq0_index by exact Hi. reflexivity.
Qed.
Lemma map_sq1 a : map (fun s => sq_index s + 1) (map sq1 (bits a 18))
  = map (fun i => i + 64) (bits a 18).
Proof.
  rewrite map_map. apply map_ext_in. intros i Hi.
  apply in_bits in Hi as [Hi _].
  rewrite sq1_index by exact Hi. lia.
Qed.

(* the numbers given to the unsafe constructor are indices of members *)
Lemma lanes_iter_u8_members a : lwf a ->
  lanes_iter_u8 129 a =
  map (fun s => sq_index s + 1) (filter (ltest a) all_squares).
Proof.
  intros Ha. rewrite lanes_iter_u8_129 by assumption.
  rewrite filter_ltest, map_app, map_sq0, map_sq1. reflexivity.
Qed.

Lemma lanes_iter_spec a : lwf a -> lanes_iter a = filter (ltest a) all_squares.
Proof.
  intros Ha. unfold lanes_iter. rewrite lanes_iter_u8_members by assumption.
  rewrite map_map. rewrite <- (map_id (filter _ _)) at 2. apply map_ext.
  intros s. apply sq_of_u8_index.
Qed.

(** ** Shifts *)

Lemma idx_rank9 s : (sq_index s mod 9 =? 8) = i9_eqb (sqr s) n9.
Proof.
  apply eqb_prop. revert s. apply (sq_forall (fun s =>
    Bool.eqb (sq_index s mod 9 =? 8) (i9_eqb (sqr s) n9))).
  vm_compute. reflexivity.
Qed.
Lemma idx_rank1 s : (sq_index s mod 9 =? 0) = i9_eqb (sqr s) n1.
Proof.
  apply eqb_prop. revert s. apply (sq_forall (fun s =>
    Bool.eqb (sq_index s mod 9 =? 0) (i9_eqb (sqr s) n1))).
  vm_compute. reflexivity.
Qed.

Definition up_ok (t : square) : bool :=
  match sq_shift t 0 (-1) with
  | Some s => (sq_index s + 1 =? sq_index t) && negb (i9_eqb (sqr t) n1)
  | None => i9_eqb (sqr t) n1
  end.
Definition down_ok (t : square) : bool :=
  match sq_shift t 0 1 with
  | Some s => (sq_index s =? sq_index t + 1) && negb (i9_eqb (sqr t) n9)
  | None => i9_eqb (sqr t) n9
  end.
Lemma up_ok_all t : up_ok t = true.
Proof. revert t. apply sq_forall. vm_compute. reflexivity. Qed.
Lemma down_ok_all t : down_ok t = true.
Proof. revert t. apply sq_forall. vm_compute. reflexivity. Qed.

Lemma wshl1_spec a i : N.testbit (wshl64 a 1) i =
  (1 <=? i) && (i <? 64) && N.testbit a (i - 1).
Proof.
  unfold wshl64. rewrite land_ones64.
  destruct (N.leb_spec 1 i).
  - rewrite N.shiftl_spec_high' by assumption.
    destruct (i <? 64), (N.testbit a (i - 1)); reflexivity.
  - rewrite N.shiftl_spec_low by lia. reflexivity.
Qed.
Lemma wshr_spec a n i : N.testbit (wshr64 a n) i = N.testbit a (i + n).
Proof. apply N.shiftr_spec'. Qed.

Lemma no_bit0 a s i : lwf a -> i < 63 -> sq_index s = i ->
  ltest a s = false -> N.testbit (fst a) i = false.
Proof.
  intros _ Hi Hs H. unfold ltest in H. rewrite Hs in H.
  destruct (N.ltb_spec i 63); [assumption|lia].
Qed.

Lemma lanes_shl_spec a : lwf a ->
  (forall s, ltest a s = true -> sqr s <> n9) ->
  lwf (lanes_shl a) /\
  forall t, ltest (lanes_shl a) t =
    match sq_shift t 0 (-1) with Some s => ltest a s | None => false end.
Proof.
  intros [H0 H1] Hr. 
  assert (R0 : forall i, i < 63 -> i mod 9 = 8 -> N.testbit (fst a) i = false).
  { intros i Hi Hm. rewrite <- ltest_sq0 by assumption. apply not_true_iff_false.
    intros H. apply (Hr _ H). pose proof (idx_rank9 (sq0 i)) as E.
    rewrite sq0_index, Hm in E by assumption. rewrite N.eqb_refl in E.
    destruct (i9_eqb_spec (sqr (sq0 i)) n9); [assumption|discriminate]. }
  assert (R1 : forall i, i < 18 -> i mod 9 = 8 -> N.testbit (snd a) i = false).
  { intros i Hi Hm. rewrite <- ltest_sq1 by assumption. apply not_true_iff_false.
    intros H. apply (Hr _ H). pose proof (idx_rank9 (sq1 i)) as E.
    rewrite sq1_index in E by assumption.
    replace (63 + i) with (i + 7 * 9) in E by lia.
    rewrite N.mod_add, Hm in E by lia. rewrite N.eqb_refl in E.
    destruct (i9_eqb_spec (sqr (sq1 i)) n9); [assumption|discriminate]. }
  split.
  - apply lwf_bits; intros i Hi; cbn [lanes_shl v_shl v_map fst snd];
      rewrite wshl1_spec.
    + destruct (N.eq_dec i 63) as [->|Hn].
      * change (63 - 1) with 62. rewrite (R0 62) by reflexivity.
        rewrite andb_false_r. reflexivity.
      * rewrite (testbit_high (fst a) 63) by (try assumption; lia).
        apply andb_false_r.
    + destruct (N.eq_dec i 18) as [->|Hn].
      * change (18 - 1) with 17. rewrite (R1 17) by reflexivity. reflexivity.
      * rewrite (testbit_high (snd a) 18) by (try assumption; lia).
        apply andb_false_r.
  - intros t. pose proof (up_ok_all t) as U. unfold up_ok in U.
    pose proof (sq_index_lt t) as Ht. unfold ltest at 1.
    cbn [lanes_shl v_shl v_map fst snd]. rewrite !wshl1_spec.
    pose proof (idx_rank1 t) as M1.
    destruct (sq_shift t 0 (-1)) as [s|].
    + apply andb_prop in U as [U1 U2]. apply N.eqb_eq in U1.
      unfold ltest.
      destruct (N.ltb_spec (sq_index t) 63).
      * destruct (N.ltb_spec (sq_index s) 63); [|lia].
        replace (sq_index t - 1) with (sq_index s) by lia.
        destruct (N.leb_spec 1 (sq_index t)); [|lia].
        destruct (N.ltb_spec (sq_index t) 64); [|lia]. reflexivity.
      * destruct (N.ltb_spec (sq_index s) 63).
        { assert (sq_index t = 63) as E by lia. rewrite E in M1.
          apply negb_true_iff in U2. rewrite U2 in M1. discriminate. }
        replace (sq_index t - 63 - 1) with (sq_index s - 63) by lia.
        destruct (N.leb_spec 1 (sq_index t - 63)); [|lia].
        destruct (N.ltb_spec (sq_index t - 63) 64); [|lia]. reflexivity.
    + rewrite U in M1. apply N.eqb_eq in M1.
      destruct (N.ltb_spec (sq_index t) 63).
      * destruct (N.eq_dec (sq_index t) 0) as [E|E].
        { rewrite E. reflexivity. }
        rewrite (R0 (sq_index t - 1)).
        { apply andb_false_r. } { lia. }
        assert (D := N.div_mod (sq_index t) 9 ltac:(lia)). rewrite M1 in D.
        set (q := sq_index t / 9) in *. rewrite D in *.
        replace (9 * q + 0 - 1) with (8 + (q - 1) * 9) by lia.
        rewrite N.mod_add by lia. reflexivity.
      * destruct (N.eq_dec (sq_index t) 63) as [E|E].
        { rewrite E. reflexivity. }
        rewrite (R1 (sq_index t - 63 - 1)).
        { apply andb_false_r. } { lia. }
        assert (D := N.div_mod (sq_index t) 9 ltac:(lia)). rewrite M1 in D.
        set (q := sq_index t / 9) in *. rewrite D in *.
        replace (9 * q + 0 - 63 - 1) with (8 + (q - 8) * 9) by lia.
        rewrite N.mod_add by lia. reflexivity.
Qed.

Lemma lanes_shr_spec a : lwf a ->
  (forall s, ltest a s = true -> sqr s <> n1) ->
  lwf (lanes_shr a) /\
  forall t, ltest (lanes_shr a) t =
    match sq_shift t 0 1 with Some s => ltest a s | None => false end.
Proof.
  intros [H0 H1] Hr.
  assert (R0 : forall i, i < 63 -> i mod 9 = 0 -> N.testbit (fst a) i = false).
  { intros i Hi Hm. rewrite <- ltest_sq0 by assumption. apply not_true_iff_false.
    intros H. apply (Hr _ H). pose proof (idx_rank1 (sq0 i)) as E.
    rewrite sq0_index, Hm in E by assumption. rewrite N.eqb_refl in E.
    destruct (i9_eqb_spec (sqr (sq0 i)) n1); [assumption|discriminate]. }
  assert (R1 : forall i, i < 18 -> i mod 9 = 0 -> N.testbit (snd a) i = false).
  { intros i Hi Hm. rewrite <- ltest_sq1 by assumption. apply not_true_iff_false.
    intros H. apply (Hr _ H). pose proof (idx_rank1 (sq1 i)) as E.
    rewrite sq1_index in E by assumption.
    replace (63 + i) with (i + 7 * 9) in E by lia.
    rewrite N.mod_add, Hm in E by lia. rewrite N.eqb_refl in E.
    destruct (i9_eqb_spec (sqr (sq1 i)) n1); [assumption|discriminate]. }
  split.
  - apply lwf_bits; intros i Hi; cbn [lanes_shr v_shr v_map fst snd];
      rewrite wshr_spec.
    + apply (testbit_high _ 63); [assumption|lia].
    + apply (testbit_high _ 18); [assumption|lia].
  - intros t. pose proof (down_ok_all t) as U. unfold down_ok in U.
    pose proof (sq_index_lt t) as Ht. unfold ltest at 1.
    cbn [lanes_shr v_shr v_map fst snd]. rewrite !wshr_spec.
    pose proof (idx_rank9 t) as M1.
    destruct (sq_shift t 0 1) as [s|].
    + apply andb_prop in U as [U1 U2]. apply N.eqb_eq in U1.
      unfold ltest. rewrite U1.
      destruct (N.ltb_spec (sq_index t) 63).
      * destruct (N.ltb_spec (sq_index t + 1) 63); [reflexivity|].
        assert (sq_index t = 62) as E by lia. rewrite E in M1.
        apply negb_true_iff in U2. rewrite U2 in M1. discriminate.
      * destruct (N.ltb_spec (sq_index t + 1) 63); [lia|].
        f_equal. lia.
    + rewrite U in M1. apply N.eqb_eq in M1.
      assert (Em : (sq_index t + 1) mod 9 = 0).
      { rewrite N.add_mod, M1 by lia. reflexivity. }
      destruct (N.ltb_spec (sq_index t) 63).
      * destruct (N.eq_dec (sq_index t) 62) as [E|E].
        { rewrite E. apply (testbit_high _ 63); [assumption|lia]. }
        apply R0; [lia|assumption].
      * destruct (N.eq_dec (sq_index t) 80) as [E|E].
        { rewrite E. apply (testbit_high _ 18); [assumption|lia]. }
        apply R1; [lia|].
        replace (sq_index t + 1) with (sq_index t - 63 + 1 + 7 * 9) in Em by lia.
        rewrite N.mod_add in Em by lia. assumption.
Qed.
