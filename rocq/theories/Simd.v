(** * The backends with two lanes agree in every position *)

From Coq Require Import List Bool NArith ZArith Lia.
From Verif Require Import Types Rules Bitboard BackendCore BackendSimd Tables Zobrist Position Movegen Api
  Squares BBSpec SpecLanes SpecSimd Backends Rep Agree Bisim Twins Facts.
Import ListNotations.

(** ** Shifts and vacant files of two-lane bitboards *)

Lemma lanes_agr (c1 c2 : v128 -> square -> bool) : (forall a s, c1 a s = ltest a s) ->
  (forall a s, c2 a s = ltest a s) ->
  forall a a', lwf a -> lwf a' -> (forall s, c1 a s = c2 a' s) ->
  (forall s, c1 (lanes_shr a) s = c2 (lanes_shr a') s) /\
  (forall s, c1 (lanes_shl a) s = c2 (lanes_shl a') s) /\
  (forall s, c1 (lanes_vacant_files a) s = c2 (lanes_vacant_files a') s).
Proof.
  intros H1 H2 a a' W W' E.
  assert (a = a') as <-.
  { apply ltest_ext; [assumption..|]. intros s. rewrite <- H1, <- H2. apply E. }
  repeat split; intros s; rewrite H1, H2; reflexivity.
Qed.

Lemma simd_agr b1 b2 c1 c2 (a : bb (ops_of b1 c1)) (a' : bb (ops_of b2 c2)) :
  b1 <> Portable -> b2 <> Portable ->
  sim _ _ (backend_spec b1 c1) (backend_spec b2 c2) a a' ->
  agr _ _ (bshr _ a) (bshr _ a') /\ agr _ _ (bshl _ a) (bshl _ a') /\
  exists v w, bvacant _ a = Some v /\ bvacant _ a' = Some w /\ agr _ _ v w.
Proof.
  intros N1 N2 [W1 [W2 E]].
  assert (G : exists k1 k2 : v128 -> square -> bool, (forall a s, k1 a s = ltest a s) /\
    (forall a s, k2 a s = ltest a s) /\
    ((forall a a' : v128, lwf a -> lwf a' -> (forall s, k1 a s = k2 a' s) ->
      (forall s, k1 (lanes_shr a) s = k2 (lanes_shr a') s) /\
      (forall s, k1 (lanes_shl a) s = k2 (lanes_shl a') s) /\
      (forall s, k1 (lanes_vacant_files a) s = k2 (lanes_vacant_files a') s)) ->
     agr _ _ (bshr _ a) (bshr _ a') /\ agr _ _ (bshl _ a) (bshl _ a') /\
     exists v w, bvacant _ a = Some v /\ bvacant _ a' = Some w /\ agr _ _ v w)).
  { set (k b := match b with X86_64 => x86_contains | Aarch64 => neon_contains | _ => wasm_contains end).
    exists (k b1), (k b2).
    assert (K : forall b a s, k b a s = ltest a s).
    { intros []; [apply wasm_contains_spec|apply x86_contains_spec|apply neon_contains_spec|
        apply wasm_contains_spec]. }
    split; [apply K|]. split; [apply K|]. intros H.
    destruct b1, b2; try congruence; specialize (H a a' W1 W2 E) as [H1 [H2 H3]];
      (split; [exact H1|]; split; [exact H2|]; eexists _, _; split; [reflexivity|]; split; [reflexivity|]; exact H3). }
  destruct G as [k1 [k2 [K1 [K2 G]]]]. apply G, lanes_agr; assumption.
Qed.

Lemma legal_moves_shift_agr o1 o2 (S1 : bbspec o1) (S2 : bbspec o2) p q :
  (forall a a', sim o1 o2 S1 S2 a a' -> agr o1 o2 (bshr o1 a) (bshr o2 a') /\ agr o1 o2 (bshl o1 a) (bshl o2 a') /\
     exists v w, bvacant o1 a = Some v /\ bvacant o2 a' = Some w /\ agr o1 o2 v w) ->
  simP o1 o2 S1 S2 p q -> legal_moves o1 p = legal_moves o2 q.
Proof.
  intros H T. pose proof (sp_inner _ _ _ _ p q T) as J.
  apply (sim_legal_moves_agr _ _ _ _ _ _ T).
  - unfold pawn_steps. rewrite <- (si_side _ _ _ _ _ _ J).
    assert (B : forall c, sim _ _ S1 S2
      (piece_bitboard _ (p_inner _ p) Pawn c) (piece_bitboard _ (p_inner _ q) Pawn c)).
    { intros c. unfold piece_bitboard. apply sim_and; [apply (si_piece _ _ _ _ _ _ J)|apply (si_player _ _ _ _ _ _ J)]. }
    destruct (i_side _ _).
    + exact (proj1 (H _ _ (B Black))).
    + exact (proj1 (proj2 (H _ _ (B White)))).
  - intros _. exact (proj2 (proj2 (H _ _ (sim_own _ _ _ _ _ _ J Pawn)))).
Qed.

Lemma twin_legal_moves_simd cf b p q : cf_backend cf <> Portable -> b <> Portable -> twin cf b p q ->
  Yasai.legal_moves cf p = Yasai.legal_moves (with_backend cf b) q.
Proof.
  intros N1 N2 T. apply (legal_moves_shift_agr _ _ _ _ _ _) with (2 := T).
  intros a a' E. exact (simd_agr _ _ _ _ _ _ N1 N2 E).
Qed.

Lemma simd_backends_agree cf b pp cs : cf_backend cf <> Portable -> b <> Portable ->
  match (let* p := Yasai.new cf pp in run cf p cs),
        (let* q := Yasai.new (with_backend cf b) pp in run (with_backend cf b) q cs) with
  | Some p, Some q => same_obs cf (with_backend cf b) p q /\
      Yasai.legal_moves cf p = Yasai.legal_moves (with_backend cf b) q
  | None, None => True
  | _, _ => False
  end.
Proof.
  intros N1 N2.
  assert (B : both (twin cf b) (let* p := Yasai.new cf pp in run cf p cs)
    (let* q := Yasai.new (with_backend cf b) pp in run (with_backend cf b) q cs)).
  { apply (both_bind (twin cf b)); [apply twin_new|]. intros. apply twin_run. assumption. }
  destruct (let* p := Yasai.new cf pp in _) as [p|], (let* q := Yasai.new (with_backend cf b) pp in _) as [q|];
    try exact B. split; [apply twin_obs; exact B|]. apply twin_legal_moves_simd; assumption.
Qed.
