(** * The SIMD backends

    src/bitboard/x86_64.rs (AVX2), src/bitboard/aarch64.rs (NEON) and
    src/bitboard/wasm32.rs (SIMD128).  Each intrinsic is modelled by its
    documented effect on unsigned lanes (trusted base).  The impls of
    BitAnd, BitOr and BitXor, and the assigning ones, come from the macros of
    src/bitboard.rs 21-83: each applies one intrinsic. *)

From Coq Require Import List Bool NArith ZArith.
From Verif Require Import Types Bitboard.
Import ListNotations.
Open Scope N_scope.

(** ** x86_64 *)

(* 256-bit vectors: low and high 128-bit halves *)
Definition v256 := (v128 * v128)%type.
Definition w_map2 (f : v128 -> v128 -> v128) (a b : v256) : v256 :=
  (f (fst a) (fst b), f (snd a) (snd b)).
Definition w_map (f : v128 -> v128) (a : v256) : v256 :=
  (f (fst a), f (snd a)).

(* _mm256_broadcastsi128_si256 *)
Definition w_broadcast (a : v128) : v256 := (a, a).
(* _mm256_set_m128i(hi, lo) *)
Definition w_set (hi lo : v128) : v256 := (lo, hi).
Definition w_and := w_map2 v_and.       (* _mm256_and_si256 *)
Definition w_or := w_map2 v_or.         (* _mm256_or_si256 *)
Definition w_xor := w_map2 v_xor.       (* _mm256_xor_si256 *)
Definition w_add := w_map2 v_add.       (* _mm256_add_epi64 *)
Definition w_sub := w_map2 v_sub.       (* _mm256_sub_epi64 *)
Definition w_eq64 := w_map2 v_eq.       (* _mm256_cmpeq_epi64 *)
(* _mm256_andnot_si256(a, b) = !a & b *)
Definition w_andnot (a b : v256) : v256 := w_map2 v_andc b a.
(* _mm256_slli_si256::<8>: each 128-bit half shifted left by 8 bytes *)
Definition w_bslli8 : v256 -> v256 := w_map (fun a => (0, fst a)).

(* the [i]-th chunk of [w] bits of a word *)
Definition chunk (w : N) (a i : N) : N :=
  N.land (N.shiftr a (w * i)) (N.ones w).
(* apply [f] to each of the four 16-bit chunks of a 64-bit lane *)
Definition map16 (f : N -> N) (a : N) : N :=
  fold_right (fun i acc => N.lor (N.shiftl (f (chunk 16 a i)) (16 * i)) acc)
    0 [0; 1; 2; 3].
(* _mm256_srli_epi16::<n> *)
Definition w_srli16 (n : N) : v256 -> v256 :=
  w_map (v_map (map16 (fun x => N.shiftr x n))).

Definition bytes8 : list N := [0; 1; 2; 3; 4; 5; 6; 7].
(* _mm256_cmpeq_epi8 followed by _mm256_movemask_epi8, for one 64-bit lane:
   bit i is set iff byte i of [a] equals byte i of [b].  (The intermediate
   vector has all-ones or all-zeros bytes, of which movemask takes the top
   bits.) *)
Definition cmpeq8_movemask64 (a b : N) : N :=
  fold_right (fun i acc =>
    N.lor (if chunk 8 a i =? chunk 8 b i then N.shiftl 1 i else 0) acc)
    0 bytes8.
Definition cmpeq8_movemask (a b : v256) : N :=
  N.lor (N.lor (cmpeq8_movemask64 (fst (fst a)) (fst (fst b)))
               (N.shiftl (cmpeq8_movemask64 (snd (fst a)) (snd (fst b))) 8))
        (N.lor (N.shiftl (cmpeq8_movemask64 (fst (snd a)) (fst (snd b))) 16)
               (N.shiftl (cmpeq8_movemask64 (snd (snd a)) (snd (snd b))) 24)).

(* MASKED_VALUES, x86_64.rs 21-38 (-1 is all ones) *)
Definition x86_masked_values : list v128 :=
  [ (0, 0);
    (0x00000000000000ff, 0);
    (0x000000000000ffff, 0);
    (0x0000000000ffffff, 0);
    (0x00000000ffffffff, 0);
    (0x000000ffffffffff, 0);
    (0x0000ffffffffffff, 0);
    (0x00ffffffffffffff, 0);
    (ones64, 0);
    (ones64, 0x00000000000000ff);
    (ones64, 0x000000000000ffff);
    (ones64, 0x0000000000ffffff);
    (ones64, 0x00000000ffffffff);
    (ones64, 0x000000ffffffffff);
    (ones64, 0x0000ffffffffffff);
    (ones64, 0x00ffffffffffffff) ].
Definition x86_masked (i : N) : v128 :=
  nth (N.to_nat i) x86_masked_values (0, 0).

(* x86_64.rs 54-56: _mm_test_all_zeros(a, a) == 1 *)
Definition x86_is_empty (a : v128) : bool :=
  (N.land (fst a) (fst a) =? 0) && (N.land (snd a) (snd a) =? 0).
(* x86_64.rs 58-60 *)
Definition x86_contains (a : v128) (s : square) : bool :=
  let m := v_and a (lanes_single s) in
  negb ((fst m =? 0) && (snd m =? 0)).
(* x86_64.rs 185-211: _mm_andnot_si128(self, ones) *)
Definition x86_not (a : v128) : v128 := v_andc lanes_ones a.

(* x86_64.rs 108-127 *)
Definition x86_slide_pos2 (occ : v128) (masks : v128 * v128) : v128 :=
  let self256 := w_broadcast occ in
  let mask256 := w_set (fst masks) (snd masks) in
  let masked := w_and self256 mask256 in
  let all := w_eq64 self256 self256 in
  let add := w_add masked all in
  let cmp := w_eq64 add all in
  let shl := w_bslli8 (w_xor cmp all) in
  let dec := w_sub add shl in
  let xor := w_xor masked dec in
  let ret := w_and xor mask256 in
  v_or (fst ret) (snd ret).

(* x86_64.rs 136 and 137: the leading zeros *)
Definition x86_lz0 (mv : N) : N := clz 32 (N.lor (N.lxor mv 0xffffffff) 0x00010000).
Definition x86_lz1 (mv : N) : N :=
  clz 32 (N.lor (N.lxor (N.land mv 0xffff) 0xffff) 0x0001).

(* x86_64.rs 128-153 *)
Definition x86_slide_neg2 (occ : v128) (masks : v128 * v128) : v128 :=
  let self256 := w_broadcast occ in
  let mask256 := w_set (fst masks) (snd masks) in
  let masked := w_and self256 mask256 in
  let mv := cmpeq8_movemask masked (v_zero, v_zero) in
  let e0 := x86_masked (15 - x86_lz0 mv) in
  let e1 := x86_masked (31 - x86_lz1 mv) in
  let m := masked in
  let m := w_or m (w_srli16 1 m) in
  let m := w_or m (w_srli16 2 m) in
  let m := w_or m (w_srli16 4 m) in
  (* _mm256_set_epi64x(e0.1, e0.0, e1.1, e1.0): e1 is the low half *)
  let m := w_or (w_srli16 1 m) (e1, e0) in
  let ret := w_andnot m mask256 in
  v_or (fst ret) (snd ret).

(* PartialEq, x86_64.rs 213-222 (used by the tests of the crate only) *)
Definition x86_eq (a b : v128) : bool := x86_is_empty (v_xor a b).

Definition x86_ops : bbops := {|
  bb := v128;
  bempty := v_zero;                    (* x86_64.rs 45-47 *)
  bsingle := lanes_single;             (* 49-52 *)
  band := v_and;                       (* 167-171 *)
  bor := v_or;                         (* 173-177 *)
  bxor := v_xor;                       (* 179-183 *)
  bnot := x86_not;
  bis_empty := x86_is_empty;
  bcontains := x86_contains;
  bcount := lanes_count;
  biter := lanes_iter;
  bshl := lanes_shl;
  bshr := lanes_shr;
  bslide_pos_c := lanes_slide_pos_c;
  bslide_neg_c := lanes_slide_neg_c;
  bslide_pos2 := x86_slide_pos2;
  bslide_neg2 := x86_slide_neg2;
  bvacant := fun b => Some (lanes_vacant_files b)
|}.

(** ** aarch64 *)

(* vqmovn_u64 on one lane: saturating narrowing to 32 bits *)
Definition sat32 (a : N) : N := if a <? 0x100000000 then a else 0xffffffff.
(* aarch64.rs 46-52: narrow both lanes, reinterpret the pair as one u64 *)
Definition neon_is_empty (a : v128) : bool :=
  N.lor (sat32 (fst a)) (N.shiftl (sat32 (snd a)) 32) =? 0.
(* aarch64.rs 54-56 *)
Definition neon_contains (a : v128) (s : square) : bool :=
  negb (neon_is_empty (v_and (lanes_single s) a)).
(* aarch64.rs 164-190: vbicq_u64(ones, self) = ones & !self *)
Definition neon_not (a : v128) : v128 := v_andc lanes_ones a.

(* PartialEq, aarch64.rs 192-197 *)
Definition neon_eq (a b : v128) : bool := neon_is_empty (v_xor a b).

Definition neon_ops : bbops := {|
  bb := v128;
  bempty := v_zero;                    (* aarch64.rs 37-39 *)
  bsingle := lanes_single;             (* 41-44 *)
  band := v_and;                       (* 146-150 *)
  bor := v_or;                         (* 152-156 *)
  bxor := v_xor;                       (* 158-162 *)
  bnot := neon_not;
  bis_empty := neon_is_empty;
  bcontains := neon_contains;
  bcount := lanes_count;
  biter := lanes_iter;
  bshl := lanes_shl;
  bshr := lanes_shr;
  bslide_pos_c := lanes_slide_pos_c;
  bslide_neg_c := lanes_slide_neg_c;
  bslide_pos2 := fun b ms =>           (* 129-131 *)
    v_or (lanes_slide_pos b (fst ms)) (lanes_slide_pos b (snd ms));
  bslide_neg2 := fun b ms =>           (* 133-135 *)
    v_or (lanes_slide_neg b (fst ms)) (lanes_slide_neg b (snd ms));
  bvacant := fun b => Some (lanes_vacant_files b)
|}.

(** ** wasm32 *)

(* v128_any_true *)
Definition v_any_true (a : v128) : bool :=
  negb (fst a =? 0) || negb (snd a =? 0).
(* wasm32.rs 47-49 *)
Definition wasm_is_empty (a : v128) : bool := negb (v_any_true a).
(* wasm32.rs 51-53 *)
Definition wasm_contains (a : v128) (s : square) : bool :=
  v_any_true (v_and a (lanes_single s)).
(* wasm32.rs 145-161: v128_andnot(ONES, self) = ONES & !self *)
Definition wasm_not (a : v128) : v128 := v_andc lanes_ones a.

(* PartialEq, wasm32.rs 163-168: u64x2_all_true of u64x2_eq *)
Definition wasm_eq (a b : v128) : bool :=
  let e := v_eq a b in negb (fst e =? 0) && negb (snd e =? 0).

Definition wasm_ops : bbops := {|
  bb := v128;
  bempty := v_zero;                    (* wasm32.rs 39-41 *)
  bsingle := lanes_single;             (* 43-45 *)
  band := v_and;                       (* 127-131 *)
  bor := v_or;                         (* 133-137 *)
  bxor := v_xor;                       (* 139-143 *)
  bnot := wasm_not;
  bis_empty := wasm_is_empty;
  bcontains := wasm_contains;
  bcount := lanes_count;
  biter := lanes_iter;
  bshl := lanes_shl;
  bshr := lanes_shr;
  bslide_pos_c := lanes_slide_pos_c;
  bslide_neg_c := lanes_slide_neg;     (* 107-109 *)
  bslide_pos2 := fun b ms =>           (* 111-113 *)
    v_or (lanes_slide_pos b (fst ms)) (lanes_slide_pos b (snd ms));
  bslide_neg2 := fun b ms =>           (* 115-117 *)
    v_or (lanes_slide_neg b (fst ms)) (lanes_slide_neg b (snd ms));
  bvacant := fun b => Some (lanes_vacant_files b)
|}.
