(** * Unchecked values: squares, bitboards and table indices *)

From Coq Require Import List Bool NArith ZArith Lia.
From Verif Require Import Types Rules Bitboard BackendCore BackendSimd Tables Zobrist Position Movegen
  Api Words Squares Geometry BBSpec SpecLanes SpecSimd SpecCore Backends Facts.
Import ListNotations.
Open Scope N_scope.

(** ** Shifts of any set of squares *)

Lemma lanes_shr_source a t : lwf a -> ltest (lanes_shr a) t = true ->
  exists s, ltest a s = true /\ sq_index s = sq_index t + 1.
Proof.
  intros [H0 H1]. unfold ltest at 1. cbn [lanes_shr v_shr v_map fst snd]. rewrite !wshr_spec.
  destruct (N.ltb_spec (sq_index t) 63) as [L|L]; intros H.
  - assert (B : sq_index t + 1 < 63).
    { destruct (N.lt_ge_cases (sq_index t + 1) 63) as [?|G]; [assumption|].
      rewrite (testbit_high (fst a) 63) in H by assumption. discriminate. }
    exists (sq0 (sq_index t + 1)). rewrite ltest_sq0, sq0_index by assumption. tauto.
  - assert (B : sq_index t - 63 + 1 < 18).
    { destruct (N.lt_ge_cases (sq_index t - 63 + 1) 18) as [?|G]; [assumption|].
      rewrite (testbit_high (snd a) 18) in H by assumption. discriminate. }
    exists (sq1 (sq_index t - 63 + 1)). rewrite ltest_sq1, sq1_index by assumption.
    split; [assumption|lia].
Qed.

Lemma lanes_shl_source a t : lwf a -> ltest (lanes_shl a) t = true ->
  exists s, ltest a s = true /\ sq_index s + 1 = sq_index t.
Proof.
  intros [H0 H1]. unfold ltest at 1. cbn [lanes_shl v_shl v_map fst snd]. rewrite !wshl1_spec.
  pose proof (sq_index_lt t) as Lt.
  destruct (N.ltb_spec (sq_index t) 63) as [L|L]; rewrite !andb_true_iff, N.leb_le; intros [[H _] T].
  - exists (sq0 (sq_index t - 1)). rewrite ltest_sq0, sq0_index by lia. split; [assumption|lia].
  - exists (sq1 (sq_index t - 63 - 1)). rewrite ltest_sq1, sq1_index by lia. split; [assumption|lia].
Qed.

Lemma shr_source b ck (a : bb (ops_of b ck)) t : on_board b ck a ->
  bcontains _ (bshr _ a) t = true ->
  exists s, bcontains _ a s = true /\ sq_index s = sq_index t + 1.
Proof.
  intros W. pose proof (proj1 (on_board_wf b ck a) W) as W'.
  destruct b; cbn [ops_of bb bcontains bshr core_ops x86_ops neon_ops wasm_ops] in *.
  - rewrite (proj2 (core_shr_spec a W')). pose proof (down_ok_all t) as U. unfold down_ok in U.
    destruct (sq_shift t 0 1) as [s|]; [|discriminate]. intros H. exists s.
    apply andb_prop in U as [U _]. apply N.eqb_eq in U. tauto.
  - rewrite x86_contains_spec. intros H. destruct (lanes_shr_source a t W H) as [s [C E]].
    exists s. rewrite x86_contains_spec. tauto.
  - rewrite neon_contains_spec. intros H. destruct (lanes_shr_source a t W H) as [s [C E]].
    exists s. rewrite neon_contains_spec. tauto.
  - rewrite wasm_contains_spec. intros H. destruct (lanes_shr_source a t W H) as [s [C E]].
    exists s. rewrite wasm_contains_spec. tauto.
Qed.

Lemma shl_source b ck (a : bb (ops_of b ck)) t : on_board b ck a ->
  bcontains _ (bshl _ a) t = true ->
  exists s, bcontains _ a s = true /\ sq_index s + 1 = sq_index t.
Proof.
  intros W. pose proof (proj1 (on_board_wf b ck a) W) as W'.
  destruct b; cbn [ops_of bb bcontains bshl core_ops x86_ops neon_ops wasm_ops] in *.
  - rewrite (proj2 (core_shl_spec a W')). pose proof (up_ok_all t) as U. unfold up_ok in U.
    destruct (sq_shift t 0 (-1)) as [s|]; [|discriminate]. intros H. exists s.
    apply andb_prop in U as [U _]. apply N.eqb_eq in U. tauto.
  - rewrite x86_contains_spec. intros H. destruct (lanes_shl_source a t W H) as [s [C E]].
    exists s. rewrite x86_contains_spec. tauto.
  - rewrite neon_contains_spec. intros H. destruct (lanes_shl_source a t W H) as [s [C E]].
    exists s. rewrite neon_contains_spec. tauto.
  - rewrite wasm_contains_spec. intros H. destruct (lanes_shl_source a t W H) as [s [C E]].
    exists s. rewrite wasm_contains_spec. tauto.
Qed.

(* an intersection with a set of squares is a set of squares *)
Lemma and_on_board_r b ck (x y : bb (ops_of b ck)) :
  on_board b ck y -> on_board b ck (band _ x y).
Proof.
  rewrite !on_board_wf. destruct b; cbn [backend_spec ops_of core_bbspec x86_bbspec neon_bbspec wasm_bbspec].
  - apply cwf_land_r.
  - apply lwf_and_r.
  - apply lwf_and_r.
  - apply lwf_and_r.
Qed.

Lemma in_iter b ck (a : bb (ops_of b ck)) s : on_board b ck a ->
  (In s (biter _ a) <-> bcontains _ a s = true).
Proof.
  intros W. apply on_board_wf in W. rewrite (sp_iter _ _ a W), filter_In.
  pose proof (all_squares_in s). tauto.
Qed.

(** ** The source of pawn moves *)

Lemma push_forward_normal c d f t m : In m (push_forward c d f t) -> exists pr, m = Normal f t pr.
Proof.
  unfold push_forward. intros I. repeat (apply in_app_or in I as [I|I]);
    repeat (match type of I with context [if ?x then _ else _] => destruct x end);
    cbn [In] in I; intuition (subst; eexists; reflexivity).
Qed.

Lemma gen_fu_source b ck (p : inner (ops_of b ck)) target m :
  on_board b ck (piece_bb _ p Pawn) -> on_board b ck target ->
  In m (gen_fu (ops_of b ck) p target) ->
  exists t pr, let n := fu_from_u8 (i_side _ p) t in
    m = Normal (sq_of_u8 n) t pr /\ 1 <= n <= 81 /\
    bcontains _ (piece_bb _ p Pawn) (sq_of_u8 n) = true /\
    bcontains _ (player_bb _ p (i_side _ p)) (sq_of_u8 n) = true /\
    bcontains _ target t = true.
Proof.
  intros Wp Wt I. unfold gen_fu in I. apply in_flat_map in I as [t [It Ip]].
  apply push_forward_normal in Ip as [pr ->]. unfold iter_and in It.
  assert (It' : bcontains _ (band (ops_of b ck) (match i_side (ops_of b ck) p with
      | Black => bshr (ops_of b ck) (piece_bitboard (ops_of b ck) p Pawn Black)
      | White => bshl (ops_of b ck) (piece_bitboard (ops_of b ck) p Pawn White)
      end) target) t = true).
  { apply in_iter; [apply and_on_board_r; assumption|exact It]. }
  clear It. rewrite (sp_and _ (backend_spec b ck)) in It'. apply andb_prop in It' as [C Ct].
  exists t, pr. cbv zeta. unfold fu_from.
  assert (Wc : forall c, on_board b ck (piece_bitboard _ p Pawn c)) .
  { intros c. unfold piece_bitboard. destruct b; cbn in *.
    - rewrite <- Wp at 2. rewrite <- !N.land_assoc. f_equal. apply N.land_comm.
    - apply (lwf_and_l (piece_bb _ p Pawn)). exact Wp.
    - apply (lwf_and_l (piece_bb _ p Pawn)). exact Wp.
    - apply (lwf_and_l (piece_bb _ p Pawn)). exact Wp. }
  assert (Hs : exists s, bcontains _ (piece_bitboard _ p Pawn (i_side _ p)) s = true /\
             fu_from_u8 (i_side _ p) t = sq_index s + 1).
  { destruct (i_side _ p).
    - destruct (shr_source b ck _ t (Wc Black) C) as [s [Cs E]]. exists s. split; [assumption|].
      pose proof (sq_index_lt s). unfold fu_from_u8. rewrite land_255; lia.
    - destruct (shl_source b ck _ t (Wc White) C) as [s [Cs E]]. exists s. split; [assumption|].
      pose proof (sq_index_lt s). unfold fu_from_u8. change 255 with (N.ones 8) at 2.
      rewrite N.land_ones. replace (sq_index t + 1 + 255) with (sq_index s + 1 + 1 * 2 ^ 8) by (cbn; lia).
      rewrite N.mod_add by discriminate. apply N.mod_small. cbn. lia. }
  destruct Hs as [s [Cs E]]. rewrite E, sq_of_u8_index. pose proof (sq_index_lt s) as Ls.
  unfold piece_bitboard in Cs. rewrite (sp_and _ (backend_spec b ck)) in Cs. apply andb_prop in Cs as [Cp Cc].
  split; [|split; [lia|tauto]]. f_equal; congruence.
Qed.

(** ** Table indices *)

Lemma ctz_le w n i : N.testbit n i = true -> ctz w n <= i.
Proof.
  destruct n as [|p]; [rewrite N.bits_0; discriminate|]. cbn [ctz]. revert i.
  induction p as [p IH|p IH|]; intros i H; cbn [pos_ctz]; try lia.
  destruct i as [|i]; [discriminate|].
  assert (H' : N.testbit (N.pos p) (N.pred (N.pos i)) = true).
  { change (N.pos p~0) with (2 * N.pos p) in H.
    rewrite <- (N.succ_pred (N.pos i)) in H by discriminate.
    rewrite N.testbit_even_succ in H by lia. exact H. }
  specialize (IH _ H'). lia.
Qed.

Lemma size_gt n i : N.testbit n i = true -> i < N.size n.
Proof.
  intros H. destruct n as [|p]; [rewrite N.bits_0 in H; discriminate|].
  rewrite N.size_log2 by discriminate.
  destruct (N.lt_ge_cases (N.log2 (N.pos p)) i) as [L|L]; [|lia].
  rewrite N.bits_above_log2 in H by assumption. discriminate.
Qed.
Lemma size_le n k : n < 2 ^ k -> N.size n <= k.
Proof.
  intros H. destruct n as [|p]; [cbn; lia|]. rewrite N.size_log2 by discriminate.
  assert (N.log2 (N.pos p) < k) by (apply N.log2_lt_pow2; [lia|assumption]). lia.
Qed.
Lemma clz_le w n i : N.testbit n i = true -> clz w n <= w - 1 - i.
Proof. intros H. apply size_gt in H. unfold clz. lia. Qed.

Lemma ctz_word w n : n < 2 ^ w -> ctz w n <= w.
Proof.
  intros H. destruct n as [|p]; [cbn; lia|].
  pose proof (ctz_le w (N.pos p) (N.log2 (N.pos p)) ltac:(apply N.bit_log2; discriminate)) as L.
  pose proof (proj1 (N.log2_lt_pow2 (N.pos p) w ltac:(lia)) H). lia.
Qed.

Lemma cwf_small a : N.land a core_mask = a -> a < 2 ^ 82.
Proof.
  intros <-. rewrite N.land_comm. apply land_small. vm_compute. reflexivity.
Qed.
Lemma lor_small a b n : a < 2 ^ n -> b < 2 ^ n -> N.lor a b < 2 ^ n.
Proof.
  intros Ha Hb. destruct (N.eq_dec (N.lor a b) 0) as [->|Nz]; [lia|].
  apply N.log2_lt_pow2; [lia|]. rewrite N.log2_lor.
  destruct (N.eq_dec a 0) as [->|Na]; destruct (N.eq_dec b 0) as [->|Nb].
  - exfalso. apply Nz. reflexivity.
  - rewrite N.max_r by (cbn; lia). apply N.log2_lt_pow2; [lia|assumption].
  - rewrite N.max_l by (cbn; lia). apply N.log2_lt_pow2; [lia|assumption].
  - apply N.max_lub_lt; apply N.log2_lt_pow2; lia.
Qed.

Lemma core_index bb mask :
  core_tz bb mask + 1 < 83 /\ core_lz bb mask <= 127 /\
  (N.land mask core_mask = mask -> 127 - core_lz bb mask < 83).
Proof.
  split; [|split].
  - unfold core_tz. enough (ctz 128 (N.lor (N.land bb mask) bb_9i) <= 81) by lia.
    apply ctz_le. rewrite N.lor_spec. apply orb_true_iff. right. reflexivity.
  - unfold core_lz.
    pose proof (clz_le 128 (N.lor (N.land bb mask) bb_1a) 0) as H. cbn [N.sub] in H.
    change (128 - 1 - 0) with 127 in H. apply H.
    rewrite N.lor_spec. apply orb_true_iff. right. reflexivity.
  - intros W. unfold core_lz, clz.
    assert (L : N.size (N.lor (N.land bb mask) bb_1a) <= 82).
    { apply size_le, lor_small; [|reflexivity]. rewrite N.land_comm. apply land_small.
      apply cwf_small. assumption. }
    assert (0 < N.size (N.lor (N.land bb mask) bb_1a)).
    { apply size_gt. rewrite N.lor_spec. apply orb_true_iff. right. reflexivity. }
    lia.
Qed.

Lemma lanes_index occ mask : fst mask < 2 ^ 63 -> snd mask < 2 ^ 18 ->
  lanes_tz occ mask + 1 < 83 /\ lanes_lz occ mask <= 127 /\ 127 - lanes_lz occ mask < 83.
Proof.
  intros H0 H1. unfold lanes_tz, lanes_lz, v_and, v_map2. cbn [fst snd].
  set (x := N.land (fst occ) (fst mask)). set (y := N.land (snd occ) (snd mask)).
  assert (Hx : x < 2 ^ 63) by (unfold x; rewrite N.land_comm; apply land_small; assumption).
  assert (Hy : y < 2 ^ 18) by (unfold y; rewrite N.land_comm; apply land_small; assumption).
  clearbody x y. split; [|].
  - destruct (N.eqb_spec x 0) as [E|E].
    + enough (ctz 64 (N.lor y 0x20000) <= 17) by lia.
      apply ctz_le. rewrite N.lor_spec. apply orb_true_iff. right. reflexivity.
    + assert (ctz 64 x <= N.log2 x) by (apply ctz_le, N.bit_log2; assumption).
      assert (N.log2 x < 63) by (apply N.log2_lt_pow2; lia). lia.
  - destruct (N.eqb_spec y 0) as [E|E].
    + assert (clz 64 (N.lor x 1) <= 64 - 1 - 0).
      { apply clz_le. rewrite N.lor_spec. apply orb_true_iff. right. reflexivity. }
      lia.
    + assert (N.size y <= 18) by (apply size_le; assumption).
      assert (N.log2 y < N.size y) by (apply size_gt, N.bit_log2; assumption).
      unfold clz. lia.
Qed.

Lemma x86_index mv : mv < 2 ^ 32 ->
  x86_lz0 mv <= 15 /\ x86_lz1 mv <= 31 /\ 31 - x86_lz1 mv < 16.
Proof.
  intros H. unfold x86_lz0, x86_lz1. split; [|split].
  - change 15 with (32 - 1 - 16). apply clz_le. rewrite N.lor_spec. apply orb_true_iff. right. reflexivity.
  - change 31 with (32 - 1 - 0). apply clz_le. rewrite N.lor_spec. apply orb_true_iff. right. reflexivity.
  - set (w := N.lor _ _). assert (w < 2 ^ 16).
    { apply lor_small; [|reflexivity]. apply lxor_small; [|reflexivity].
      rewrite N.land_comm. apply land_small. reflexivity. }
    assert (N.size w <= 16) by (apply size_le; assumption).
    unfold clz. lia.
Qed.

Lemma movemask64_small a b : cmpeq8_movemask64 a b < 2 ^ 8.
Proof.
  unfold cmpeq8_movemask64, bytes8. cbn [fold_right].
  repeat (apply lor_small; [destruct (_ =? _); reflexivity|]). reflexivity.
Qed.
Lemma movemask_small a b : cmpeq8_movemask a b < 2 ^ 32.
Proof.
  unfold cmpeq8_movemask.
  assert (S : forall x y n k, x < 2 ^ 8 -> y = n -> n + 8 <= k -> N.shiftl x y < 2 ^ k).
  { intros x y n k Hx -> Hk. rewrite N.shiftl_mul_pow2.
    apply N.lt_le_trans with (2 ^ 8 * 2 ^ n).
    - apply N.mul_lt_mono_pos_r; [|assumption]. apply N.neq_0_lt_0, N.pow_nonzero. discriminate.
    - rewrite <- N.pow_add_r. apply N.pow_le_mono_r; lia. }
  pose proof movemask64_small as M.
  apply lor_small; apply lor_small.
  - apply N.lt_le_trans with (2 ^ 8); [apply M|apply N.pow_le_mono_r; lia].
  - apply (S _ _ 8); [apply M|reflexivity|lia].
  - apply (S _ _ 16); [apply M|reflexivity|lia].
  - apply (S _ _ 24); [apply M|reflexivity|lia].
Qed.

(** ** Equality of bitboards *)

Definition beq_of (b : backend) (ck : bool) : bb (ops_of b ck) -> bb (ops_of b ck) -> bool :=
  match b with
  | Portable => N.eqb
  | X86_64 => x86_eq | Aarch64 => neon_eq | Wasm32 => wasm_eq
  end.

Lemma lxor_zero a b : (N.lxor a b =? 0) = (a =? b).
Proof.
  destruct (N.eqb_spec a b) as [->|E]; [rewrite N.lxor_nilpotent; reflexivity|].
  apply N.eqb_neq. intros H. apply E. apply N.lxor_eq. assumption.
Qed.

Lemma beq_spec b ck x y : beq_of b ck x y = true <-> x = y.
Proof.
  assert (P : forall x y : N * N, (fst x =? fst y) && (snd x =? snd y) = true <-> x = y).
  { intros [x0 x1] [y0 y1]. cbn [fst snd]. rewrite andb_true_iff, !N.eqb_eq.
    split; [intros [-> ->]|intros [= -> ->]]; tauto. }
  destruct b; cbn [beq_of ops_of bb core_ops x86_ops neon_ops wasm_ops] in *.
  - apply N.eqb_eq.
  - unfold x86_eq, x86_is_empty, v_xor, v_map2. cbn [fst snd]. rewrite !N.land_diag, !lxor_zero. apply P.
  - unfold neon_eq. rewrite neon_is_empty_spec. unfold v_xor, v_map2. cbn [fst snd].
    rewrite !lxor_zero. apply P.
  - unfold wasm_eq, v_eq, v_map2. cbn [fst snd]. rewrite <- P.
    destruct (fst x =? fst y), (snd x =? snd y); cbn; tauto.
Qed.
