(** * The vacant-file computation

    Each file of a bitboard is a digit in base 512.  The subtraction trick of
    [vacant_files] works digit by digit, because no digit exceeds 256. *)

From Coq Require Import List Bool NArith ZArith Lia.
From Verif Require Import Types Bitboard BackendCore Words Squares BBSpec SpecLanes.
Import ListNotations.
Open Scope N_scope.

Fixpoint und {A} (d : A -> N) (l : list A) : N :=
  match l with [] => 0 | x :: l => d x + 512 * und d l end.

Lemma testbit_digit d x i : d < 512 ->
  N.testbit (d + 512 * x) i = if i <? 9 then N.testbit d i else N.testbit x (i - 9).
Proof.
  intros Hd.
  assert (E : d + 512 * x = N.lor d (N.shiftl x 9)).
  { rewrite N.shiftl_mul_pow2. change (2 ^ 9) with 512.
    rewrite <- N.lxor_lor.
    - rewrite <- N.add_nocarry_lxor; [lia|].
      apply N_ext. intros j. rewrite N.land_spec, N.bits_0.
      change 512 with (2 ^ 9). rewrite <- N.shiftl_mul_pow2.
      destruct (N.lt_ge_cases j 9).
      + rewrite N.shiftl_spec_low by assumption. apply andb_false_r.
      + rewrite (testbit_high d 9) by assumption. reflexivity.
    - apply N_ext. intros j. rewrite N.land_spec, N.bits_0.
      change 512 with (2 ^ 9). rewrite <- N.shiftl_mul_pow2.
      destruct (N.lt_ge_cases j 9).
      + rewrite N.shiftl_spec_low by assumption. apply andb_false_r.
      + rewrite (testbit_high d 9) by assumption. reflexivity. }
  rewrite E, N.lor_spec. destruct (N.ltb_spec i 9).
  - rewrite N.shiftl_spec_low by assumption. apply orb_false_r.
  - rewrite N.shiftl_spec_high' by assumption.
    rewrite (testbit_high d 9) by assumption. reflexivity.
Qed.

Section Digits.
Context {A : Type}.
Implicit Types (d e : A -> N) (l : list A).

Lemma und_ext d e l : (forall x, In x l -> d x = e x) -> und d l = und e l.
Proof.
  induction l as [|x l IH]; intros H; [reflexivity|]. cbn [und].
  rewrite H by (left; reflexivity). rewrite IH by (intros; apply H; right; assumption).
  reflexivity.
Qed.

Lemma und_le d e l : (forall x, d x <= e x) -> und d l <= und e l.
Proof.
  intros H. induction l as [|x l IH]; [apply N.le_refl|]. cbn [und].
  specialize (H x). lia.
Qed.

Lemma und_sub d e l : (forall x, d x <= e x) ->
  und e l - und d l = und (fun x => e x - d x) l.
Proof.
  intros H. induction l as [|x l IH]; [reflexivity|]. cbn [und].
  rewrite <- IH. pose proof (H x). pose proof (und_le d e l H). lia.
Qed.

Lemma und_testbit d x l i : (forall x, d x < 512) ->
  N.testbit (und d (x :: l)) i =
  if i <? 9 then N.testbit (d x) i else N.testbit (und d l) (i - 9).
Proof. intros H. cbn [und]. apply testbit_digit, H. Qed.

Lemma und_land d e l : (forall x, d x < 512) -> (forall x, e x < 512) ->
  N.land (und d l) (und e l) = und (fun x => N.land (d x) (e x)) l.
Proof.
  intros Hd He. assert (H : forall x, N.land (d x) (e x) < 512).
  { intros x. change 512 with (2 ^ 9). apply land_small. apply Hd. }
  induction l as [|x l IH]; [reflexivity|].
  apply N_ext. intros i. rewrite N.land_spec, !und_testbit by assumption.
  rewrite <- IH, !N.land_spec. destruct (_ <? _); reflexivity.
Qed.

Lemma und_lxor d e l : (forall x, d x < 512) -> (forall x, e x < 512) ->
  N.lxor (und d l) (und e l) = und (fun x => N.lxor (d x) (e x)) l.
Proof.
  intros Hd He. assert (H : forall x, N.lxor (d x) (e x) < 512).
  { intros x. change 512 with (2 ^ 9). apply lt_pow2_testbit. intros i Hi.
    rewrite N.lxor_spec, !(testbit_high _ 9) by (try assumption; apply Hd || apply He).
    reflexivity. }
  induction l as [|x l IH]; [reflexivity|].
  apply N_ext. intros i. rewrite N.lxor_spec, !und_testbit by assumption.
  rewrite <- IH, !N.lxor_spec. destruct (_ <? _); reflexivity.
Qed.

Lemma und_mul d l k : und (fun x => k * d x) l = k * und d l.
Proof. induction l as [|x l IH]; [cbn; lia|]. cbn [und]. rewrite IH. lia. Qed.

Lemma und_shr d l : und (fun x => 256 * d x) l / 256 = und d l.
Proof. rewrite und_mul, N.mul_comm. apply N.div_mul. discriminate. Qed.

Lemma und_bound d l : (forall x, d x < 512) -> und d l < 512 ^ N.of_nat (length l).
Proof.
  intros H. induction l as [|x l IH]; [reflexivity|].
  cbn [und length]. rewrite Nat2N.inj_succ, N.pow_succ_r'. specialize (H x). nia.
Qed.

(* the trick, on one group of files *)
Definition vac_digit (d : N) : N := if d =? 0 then 511 else 0.

Lemma vac_group d l : (forall x, d x <= 256) ->
  let m := und (fun _ => 256) l in
  und d l <= m /\
  N.shiftr (N.land (m - und d l) m) 8 <= m /\
  N.land (m - und d l) m = und (fun x => 256 * if d x =? 0 then 1 else 0) l /\
  N.lxor m (m - N.shiftr (N.land (m - und d l) m) 8)
  = und (fun x => vac_digit (d x)) l.
Proof.
  intros H m. split; [apply und_le, H|].
  assert (E : N.shiftr (N.land (m - und d l) m) 8
              = und (fun x => if d x =? 0 then 1 else 0) l /\
              N.land (m - und d l) m = und (fun x => 256 * if d x =? 0 then 1 else 0) l).
  { assert (E1 : N.land (m - und d l) m = und (fun x => 256 * if d x =? 0 then 1 else 0) l).
    { unfold m. rewrite und_sub by assumption. rewrite und_land.
      - apply und_ext. intros x _. specialize (H x).
        destruct (N.eqb_spec (d x) 0) as [E|E]; [rewrite E; reflexivity|].
        apply N_ext. intros i. rewrite N.land_spec, N.mul_0_r, N.bits_0.
        change 256 with (2 ^ 8) at 2. rewrite N.pow2_bits_eqb.
        destruct (N.eqb_spec 8 i) as [<-|]; [|apply andb_false_r].
        rewrite (testbit_high _ 8); [reflexivity| |lia].
        change (2 ^ 8) with 256. lia.
      - intros x. lia.
      - intros _. reflexivity. }
    split; [|exact E1].
    rewrite E1, N.shiftr_div_pow2. change (2 ^ 8) with 256. apply und_shr. }
  destruct E as [E E1]. rewrite E. split; [|split; [exact E1|]].
  - apply und_le. intros x. destruct (_ =? _); lia.
  - unfold m. rewrite und_sub by (intros x; destruct (_ =? _); lia).
    rewrite und_lxor.
    + apply und_ext. intros x _. unfold vac_digit. destruct (_ =? _); reflexivity.
    + intros _. reflexivity.
    + intros x. destruct (_ =? _); reflexivity.
Qed.

End Digits.

(** ** Two lanes *)

Definition files0 : list i9 := [n1; n2; n3; n4; n5; n6; n7].
Definition files1 : list i9 := [n8; n9].
Definition of_digits (d : i9 -> N) : v128 := (und d files0, und d files1).

Lemma lwf_of_digits d : (forall f, d f < 512) -> lwf (of_digits d).
Proof.
  intros H. split; cbn [of_digits fst snd].
  - apply (und_bound d files0 H).
  - apply (und_bound d files1 H).
Qed.

Lemma ltest_of_digits d s : (forall f, d f < 512) ->
  ltest (of_digits d) s = N.testbit (d (sqf s)) (i9N (sqr s)).
Proof.
  intros H. destruct s as [f r]. unfold ltest, of_digits, files0, files1.
  cbn [fst snd sqf sqr].
  destruct f, r; cbn [sq_index sqf sqr i9N];
    match goal with |- context [?x <? 63] =>
      let y := eval vm_compute in (x <? 63) in change (x <? 63) with y end;
    cbv iota;
    repeat (rewrite und_testbit by assumption;
      match goal with |- context [?x <? 9] =>
        let y := eval vm_compute in (x <? 9) in change (x <? 9) with y end;
      cbv iota);
    reflexivity.
Qed.

(* the digits of a bitboard *)
Definition nine_digit (b1 b2 b3 b4 b5 b6 b7 b8 b9 : bool) : N :=
  N.b2n b1 + 2 * N.b2n b2 + 4 * N.b2n b3 + 8 * N.b2n b4 + 16 * N.b2n b5 + 32 * N.b2n b6
  + 64 * N.b2n b7 + 128 * N.b2n b8 + 256 * N.b2n b9.
Definition rank_digit (a : v128) (f : i9) : N :=
  nine_digit (ltest a (Sq f n1)) (ltest a (Sq f n2)) (ltest a (Sq f n3)) (ltest a (Sq f n4))
    (ltest a (Sq f n5)) (ltest a (Sq f n6)) (ltest a (Sq f n7)) (ltest a (Sq f n8)) (ltest a (Sq f n9)).

Lemma rank_digit_lt a f : rank_digit a f < 512.
Proof.
  unfold rank_digit, nine_digit.
  repeat match goal with |- context [N.b2n ?b] =>
    assert (N.b2n b <= 1) by (destruct b; vm_compute; discriminate); generalize dependent (N.b2n b); intros end.
  lia.
Qed.

(* no member on rank 9 of a file with another member *)
Lemma rank_digit_le a :
  (forall s t, ltest a s = true -> ltest a t = true -> sqf s = sqf t -> sqr s = n9 -> s = t) ->
  forall f, rank_digit a f <= 256.
Proof.
  intros U f. destruct (ltest a (Sq f n9)) eqn:E.
  - assert (H : forall r, r <> n9 -> ltest a (Sq f r) = false).
    { intros r Hr. apply not_true_iff_false. intros X.
      pose proof (U _ _ E X eq_refl eq_refl) as C. congruence. }
    unfold rank_digit. rewrite E, !H by discriminate. vm_compute. discriminate.
  - unfold rank_digit, nine_digit. rewrite E. clear E.
    repeat match goal with |- context [N.b2n (ltest a ?b)] =>
      assert (N.b2n (ltest a b) <= 1) by (destruct (ltest a b); vm_compute; discriminate);
      generalize dependent (N.b2n (ltest a b)); intros end.
    cbn [N.b2n]. lia.
Qed.

Lemma rank_digit_zero a f :
  (rank_digit a f =? 0) = negb (existsb (fun r => ltest a (Sq f r)) all9).
Proof.
  unfold rank_digit, all9. cbn [existsb].
  destruct (ltest a (Sq f n1)), (ltest a (Sq f n2)), (ltest a (Sq f n3)), (ltest a (Sq f n4)),
    (ltest a (Sq f n5)), (ltest a (Sq f n6)), (ltest a (Sq f n7)), (ltest a (Sq f n8)), (ltest a (Sq f n9));
    reflexivity.
Qed.

Lemma rank_digit_bit a f r : N.testbit (rank_digit a f) (i9N r) = ltest a (Sq f r).
Proof.
  unfold rank_digit.
  assert (G : forall b1 b2 b3 b4 b5 b6 b7 b8 b9,
    N.testbit (nine_digit b1 b2 b3 b4 b5 b6 b7 b8 b9) (i9N r) =
    match r with n1 => b1 | n2 => b2 | n3 => b3 | n4 => b4 | n5 => b5 | n6 => b6 | n7 => b7
               | n8 => b8 | n9 => b9 end).
  { intros [] [] [] [] [] [] [] [] []; destruct r; reflexivity. }
  rewrite G. destruct r; reflexivity.
Qed.

Lemma of_rank_digits a : lwf a -> a = of_digits (rank_digit a).
Proof.
  intros Ha. pose proof (rank_digit_lt a) as B.
  apply ltest_ext; [assumption|apply lwf_of_digits, B|].
  intros s. rewrite ltest_of_digits by assumption. rewrite rank_digit_bit.
  destruct s; reflexivity.
Qed.

Definition vac_of (a : v128) : v128 :=
  of_digits (fun f => vac_digit (rank_digit a f)).

Lemma vac_digit_lt d : vac_digit d < 512.
Proof. unfold vac_digit. destruct (_ =? _); reflexivity. Qed.

Lemma lwf_vac_of a : lwf (vac_of a).
Proof. apply lwf_of_digits. intros f. apply vac_digit_lt. Qed.

Lemma ltest_vac_of a t : ltest (vac_of a) t =
  negb (existsb (fun s => ltest a s && i9_eqb (sqf s) (sqf t)) all_squares).
Proof.
  unfold vac_of. rewrite ltest_of_digits by (intros; apply vac_digit_lt).
  unfold vac_digit. rewrite rank_digit_zero.
  assert (E : existsb (fun r => ltest a (Sq (sqf t) r)) all9 =
    existsb (fun s => ltest a s && i9_eqb (sqf s) (sqf t)) all_squares).
  { apply eq_true_iff_eq. rewrite !existsb_exists. split.
    - intros [r [_ H]]. exists (Sq (sqf t) r). split; [apply all_squares_in|].
      rewrite H. cbn [sqf]. destruct (i9_eqb_spec (sqf t) (sqf t)); [reflexivity|congruence].
    - intros [s [_ H]]. apply andb_prop in H as [H E].
      exists (sqr s). split; [apply all9_in|].
      destruct (i9_eqb_spec (sqf s) (sqf t)) as [F|]; [|discriminate].
      rewrite <- F. destruct s; exact H. }
  rewrite E. destruct (existsb _ all_squares); cbn [negb].
  - apply N.bits_0.
  - destruct (sqr t); reflexivity.
Qed.

Lemma lanes_vacant_spec a : lwf a ->
  (forall s t, ltest a s = true -> ltest a t = true -> sqf s = sqf t -> sqr s = n9 -> s = t) ->
  lanes_vacant_files a = vac_of a.
Proof.
  intros Ha U. pose proof (of_rank_digits a Ha) as E.
  pose proof (rank_digit_le a U) as B.
  destruct (vac_group (rank_digit a) files0 B) as [L0 [M0 [_ V0]]].
  destruct (vac_group (rank_digit a) files1 B) as [L1 [M1 [_ V1]]].
  unfold lanes_vacant_files, vac_of, of_digits. cbv zeta.
  rewrite <- V0, <- V1. rewrite E at 1.
  change lanes_vacant with (und (fun _ => 256) files0, und (fun _ => 256) files1).
  unfold v_sub, v_and, v_xor, v_shr, v_map2, v_map, of_digits. cbn [fst snd].
  set (m0 := und (fun _ => 256) files0) in *.
  set (m1 := und (fun _ => 256) files1) in *.
  assert (P0 : m0 < 2 ^ 64) by reflexivity. assert (P1 : m1 < 2 ^ 64) by reflexivity.
  clearbody m0 m1.
  rewrite !(wsub64_ge _ (und _ _)) by assumption.
  unfold wshr64.
  rewrite !wsub64_ge by assumption. reflexivity.
Qed.
