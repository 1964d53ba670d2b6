(** * C67 of properties.jsonl: the raw memory accesses *)

From Coq Require Import List Bool Arith NArith Lia.
From Verif Require Import Types Rules Bitboard BackendSimd Words Squares Init InitSpec SpecLanes Unsafe Memory PropInit.
Import ListNotations.
Local Open Scope nat_scope.

(** The store in values() stays inside the buffer and gives every byte of it a
    value; what is then read are the two lanes, in order.  This is without the
    rules of aliasing. *)
Theorem C67_values : forall raw be a lo hi,
  N.modulo a 8 = 0%N -> (lo < 2 ^ 64)%N -> (hi < 2 ^ 64)%N ->
  exists m, values (mkRules false raw) be (lo, hi) (scratch a) = Done (lo, hi) m.
Proof. intros raw be a lo hi A L H. apply values_done; assumption. Qed.
Print Assumptions C67_values.

(** With the rules of aliasing values() is undefined behaviour, whatever the
    bitboard: it writes through a pointer made from a shared reference. *)
Theorem C67_aliasing_refuted : forall raw be a v,
  values (mkRules true raw) be v (scratch a) = Undefined Borrow.
Proof. intros raw be a v. apply values_refused. Qed.
Print Assumptions C67_aliasing_refuted.

(** With [as_mut_ptr] instead of [as_ptr] it would be correct under all rules. *)
Theorem C67_repaired : forall R be a lo hi,
  N.modulo a 8 = 0%N -> (lo < 2 ^ 64)%N -> (hi < 2 ^ 64)%N ->
  exists m, values_mut R be (lo, hi) (scratch a) = Done (lo, hi) m.
Proof. intros R be a lo hi A L H. apply values_mut_done; assumption. Qed.
Print Assumptions C67_repaired.

(** The loads of aarch64.rs, from the tables that the loops leave and from the
    literals, at any address: inside the table, aligned, with initialised bytes,
    allowed by the rules of aliasing, and with the row as result. *)
Definition loads (a : N) (t : list v128) (i : N) (v : v128) : Prop :=
  forall R be, exists p m, load_row R be (length t) (N.to_nat i) = Some p /\ p (rows be a t) = Done v m.

Theorem C67_loads : forall a, N.modulo a 8 = 0%N ->
  (forall t, while_runs 81 single_values_body 0 (repeat (0, 0)%N 81) (Some t) ->
     forall s, loads a t (sq_index s) (lanes_single s)) /\
  (forall t, while_runs 83 masked_values_body 0 (repeat (0, 0)%N 83) (Some t) ->
     forall occ mask : v128, (fst mask < 2 ^ 63)%N -> (snd mask < 2 ^ 18)%N ->
       loads a t (lanes_tz occ mask + 1) (lanes_masked (lanes_tz occ mask + 1)) /\
       loads a t (127 - lanes_lz occ mask) (lanes_masked (127 - lanes_lz occ mask))) /\
  loads a [lanes_vacant] 0 lanes_vacant /\
  loads a [lanes_ones] 0 lanes_ones.
Proof.
  intros a A.
  assert (G : forall t i v, arr_get t i = Some v -> (fst v < 2 ^ 64)%N -> (snd v < 2 ^ 64)%N -> loads a t i v).
  { intros t i v E L H R be. apply load_row_done; assumption. }
  split; [|split; [|split; apply G; reflexivity]].
  - intros t T s. destruct C53_single_values as [t' [U [_ H]]].
    apply U in T. injection T as ->. destruct (H s) as [x0 [x1 [E [<- [B0 B1]]]]].
    apply G; [exact E| |]; cbn [fst snd]; apply lt_pow2_testbit; intros n N;
      [specialize (B0 n); destruct (N.testbit x0 n)|specialize (B1 n); destruct (N.testbit x1 n)];
      try reflexivity.
    + destruct B0 as [B0 _]. specialize (B0 eq_refl). lia.
    + destruct B1 as [B1 _]. specialize (B1 eq_refl). pose proof (sq_index_lt s). lia.
  - intros t T occ mask M0 M1. destruct C53_masked_values as [t' [U [_ H]]].
    apply U in T. injection T as ->.
    assert (K : forall i, (i < 83)%N -> loads a t' i (lanes_masked i)).
    { intros i I. destruct (H i I) as [x0 [x1 [E [<- [B0 B1]]]]].
      apply G; [exact E| |]; cbn [fst snd]; apply lt_pow2_testbit; intros n N;
        [specialize (B0 n); destruct (N.testbit x0 n)|specialize (B1 n); destruct (N.testbit x1 n)];
        try reflexivity.
      - destruct B0 as [B0 _]. specialize (B0 eq_refl). lia.
      - destruct B1 as [B1 _]. specialize (B1 eq_refl). lia. }
    destruct (lanes_index occ mask M0 M1) as [I1 [_ I2]]. split; apply K; assumption.
Qed.
Print Assumptions C67_loads.

(** Cases, and accesses that the machine refuses: a store that needs 16-byte
    alignment (_mm_store_si128), assume_init before the store, a store of 32
    bytes, a load beyond the last row. *)
Example C67_example :
  (exists m, values (mkRules false true) false (5, 2 ^ 63)%N (scratch 1000) = Done (5, 2 ^ 63)%N m) /\
  (exists m, values_mut (mkRules true true) false (5, 2 ^ 63)%N (scratch 1000) = Done (5, 2 ^ 63)%N m) /\
  store (mkRules false true) 16 owner (bytes_of_v false (5, 7)%N) (scratch 1000) = Undefined Misaligned /\
  load (mkRules false true) 8 owner 16 (scratch 1000) = Undefined Uninitialised /\
  store (mkRules false true) 1 owner (repeat 0%N 32) (scratch 1000) = Undefined OutOfBounds /\
  load (mkRules false true) 8 (mkPtr 16 0) 16 (rows true 1000 [lanes_ones]) = Undefined OutOfBounds /\
  load_row (mkRules true true) false 1 1 = None.
Proof.
  split; [eexists; vm_compute; reflexivity|]. split; [eexists; vm_compute; reflexivity|].
  repeat split; vm_compute; reflexivity.
Qed.

(** The tables of [C67_loads] exist. *)
Example C67_tables :
  (exists t, while_runs 81 single_values_body 0 (repeat (0, 0)%N 81) (Some t)) /\
  (exists t, while_runs 83 masked_values_body 0 (repeat (0, 0)%N 83) (Some t)).
Proof.
  destruct C53_single_values as [t [H _]]. destruct C53_masked_values as [u [K _]].
  split; [exists t; now apply H|exists u; now apply K].
Qed.
