(** * Intrinsics on bytes

    _mm256_cmpeq_epi8 and _mm256_movemask_epi8, which x86_64.rs uses one after the
    other (lines 134 and 135).  [BackendSimd.v] has the two in one; here they are
    apart, and together they are the same. *)

From Coq Require Import List Bool NArith ZArith Lia.
From Verif Require Import Types Bitboard BackendSimd.
Import ListNotations.
Open Scope N_scope.

(* byte i of the result is all ones iff the bytes are equal *)
Definition eq8 (a b : N) : N :=
  fold_right (fun i acc => N.lor (if chunk 8 a i =? chunk 8 b i then N.shiftl 0xff (8 * i) else 0) acc) 0 bytes8.
Definition w_eq8 : v256 -> v256 -> v256 := w_map2 (v_map2 eq8).
(* the top bits of the bytes *)
Definition movemask8 (a : N) : N :=
  fold_right (fun i acc => N.lor (if N.testbit a (8 * i + 7) then N.shiftl 1 i else 0) acc) 0 bytes8.
Definition w_movemask8 (a : v256) : N :=
  N.lor (N.lor (movemask8 (fst (fst a))) (N.shiftl (movemask8 (snd (fst a))) 8))
        (N.lor (N.shiftl (movemask8 (fst (snd a))) 16) (N.shiftl (movemask8 (snd (snd a))) 24)).

Lemma movemask_eq8 a b : movemask8 (eq8 a b) = cmpeq8_movemask64 a b.
Proof.
  unfold movemask8, eq8, cmpeq8_movemask64, bytes8. cbn [fold_right].
  repeat match goal with |- context [chunk 8 a ?i =? chunk 8 b ?i] => generalize (chunk 8 a i =? chunk 8 b i); intro end.
  repeat match goal with x : bool |- _ => destruct x end; reflexivity.
Qed.
Lemma w_movemask_eq8 a b : w_movemask8 (w_eq8 a b) = cmpeq8_movemask a b.
Proof.
  unfold w_movemask8, w_eq8, cmpeq8_movemask, w_map2, v_map2. cbn [fst snd]. rewrite !movemask_eq8. reflexivity.
Qed.
