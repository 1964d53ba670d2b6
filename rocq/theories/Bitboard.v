(** * Bitboards: the interface shared by the four backends

    src/bitboard.rs selects one of four modules that all define a type
    [Bitboard] with the same methods.  [bbops] collects these methods; the
    rest of the model takes a value of this record as a parameter. *)

From Coq Require Import List Bool NArith ZArith.
From Verif Require Import Types.
Import ListNotations.
Open Scope N_scope.

Record bbops := mkOps {
  bb : Type;
  bempty : bb;                          (* Bitboard::empty *)
  bsingle : square -> bb;               (* Bitboard::single *)
  band : bb -> bb -> bb;                (* & *)
  bor : bb -> bb -> bb;                 (* | *)
  bxor : bb -> bb -> bb;                (* ^ *)
  bnot : bb -> bb;                      (* ! *)
  bis_empty : bb -> bool;               (* is_empty *)
  bcontains : bb -> square -> bool;     (* contains *)
  bcount : bb -> N;                     (* count *)
  biter : bb -> list square;            (* into_iter, run to the end *)
  (* trait Occupied, src/bitboard.rs 1-19 *)
  bshl : bb -> bb;                      (* shl: one rank to the south *)
  bshr : bb -> bb;                      (* shr: one rank to the north *)
  bslide_pos_c : bb -> bb -> bb;        (* sliding_positive_consecutive *)
  bslide_neg_c : bb -> bb -> bb;        (* sliding_negative_consecutive *)
  bslide_pos2 : bb -> bb * bb -> bb;    (* sliding_positives *)
  bslide_neg2 : bb -> bb * bb -> bb;    (* sliding_negatives *)
  bvacant : bb -> option bb             (* vacant_files; None: panic *)
}.

(** ** Machine words *)

(* n.trailing_zeros() for a word of width [w] *)
Fixpoint pos_ctz (p : positive) : N :=
  match p with xO p => N.succ (pos_ctz p) | _ => 0 end.
Definition ctz (w : N) (n : N) : N :=
  match n with N0 => w | Npos p => pos_ctz p end.

(* n.leading_zeros() for a word of width [w] *)
Definition clz (w : N) (n : N) : N := w - N.size n.

(* n.count_ones() *)
Fixpoint pos_ones (p : positive) : N :=
  match p with
  | xH => 1 | xO p => pos_ones p | xI p => N.succ (pos_ones p)
  end.
Definition count_ones (n : N) : N :=
  match n with N0 => 0 | Npos p => pos_ones p end.

Definition two64 : N := 0x10000000000000000.
Definition ones64 : N := 0xffffffffffffffff.

(* 64-bit wrapping arithmetic; arguments are below 2^64 *)
Definition wadd64 (a b : N) : N := N.land (a + b) ones64.
Definition wsub64 (a b : N) : N := N.land (a + two64 - b) ones64.
Definition wshl64 (a n : N) : N := N.land (N.shiftl a n) ones64.
Definition wshr64 (a n : N) : N := N.shiftr a n.

(** ** A bitboard as two 64-bit lanes

    Used by the three SIMD backends (x86_64.rs, aarch64.rs, wasm32.rs): lane 0
    holds the squares of index 0..62 (files 1-7), lane 1 those of index 63..80
    (files 8 and 9). *)

Definition v128 := (N * N)%type.   (* lane 0, lane 1 *)

Definition v_map2 (f : N -> N -> N) (a b : v128) : v128 :=
  (f (fst a) (fst b), f (snd a) (snd b)).
Definition v_map (f : N -> N) (a : v128) : v128 := (f (fst a), f (snd a)).

Definition v_zero : v128 := (0, 0).
Definition v_and := v_map2 N.land.
Definition v_or := v_map2 N.lor.
Definition v_xor := v_map2 N.lxor.
(* first argument and not second argument *)
Definition v_andc := v_map2 N.ldiff.
Definition v_add := v_map2 wadd64.
Definition v_sub := v_map2 wsub64.
Definition v_shl (n : N) := v_map (fun a => wshl64 a n).
Definition v_shr (n : N) := v_map (fun a => wshr64 a n).
(* lane-wise equality: all ones or all zeros *)
Definition v_eq := v_map2 (fun a b => if a =? b then ones64 else 0).

(* SINGLE_VALUES / SINGLES: x86_64.rs 7-19, aarch64.rs 7-19, wasm32.rs 6-18 *)
Definition lanes_single (s : square) : v128 :=
  let i := sq_index s in
  if i <? 63 then (N.shiftl 1 i, 0) else (0, N.shiftl 1 (i - 63)).

(* The complement mask: x86_64.rs 193, aarch64.rs 171, wasm32.rs 32 *)
Definition lanes_ones : v128 := (0x7fffffffffffffff, 0x0003ffff).

(* The vacant_files mask: x86_64.rs 156, aarch64.rs 138, wasm32.rs 119 *)
Definition lanes_vacant : v128 := (0x4020100804020100, 0x00020100).

(* count(): x86_64.rs 62-65, aarch64.rs 58-61, wasm32.rs 55-58 *)
Definition lanes_count (b : v128) : N :=
  N.land (count_ones (fst b) + count_ones (snd b)) 0xff.

(* SquareIterator::pop_lsb: x86_64.rs 226-233, aarch64.rs 201-208,
   wasm32.rs 172-179; returns the position and the new word. *)
Definition pop_lsb (n : N) : N * N :=
  (ctz 64 n, N.land n (wsub64 n 1)).

(* Successive calls of SquareIterator::next: x86_64.rs 235-248, aarch64.rs
   210-223, wasm32.rs 181-194.  This returns the numbers handed to
   Square::from_u8_unchecked; [fuel] bounds the number of calls (128 bits at
   most can be set). *)
Fixpoint lanes_iter_u8 (fuel : nat) (b : v128) : list N :=
  match fuel with
  | O => []
  | S fuel =>
    let (l0, l1) := b in
    if negb (l0 =? 0) then
      let (p, l0') := pop_lsb l0 in
      N.land (p + 1) 0xff :: lanes_iter_u8 fuel (l0', l1)
    else if negb (l1 =? 0) then
      let (p, l1') := pop_lsb l1 in
      N.land (p + 64) 0xff :: lanes_iter_u8 fuel (l0, l1')
    else []
  end.

Definition lanes_iter (b : v128) : list square :=
  map sq_of_u8 (lanes_iter_u8 129 b).

(* shl / shr: x86_64.rs 78-84, aarch64.rs 102-108, wasm32.rs 91-97 *)
Definition lanes_shl (b : v128) : v128 := v_shl 1 b.
Definition lanes_shr (b : v128) : v128 := v_shr 1 b.

(* sliding_positive_consecutive: x86_64.rs 85-97, aarch64.rs 109-117,
   wasm32.rs 99-105 *)
Definition lanes_slide_pos_c (occ mask : v128) : v128 :=
  let and_ := v_and occ mask in
  let all := v_eq occ occ in
  let add := v_add and_ all in
  let xor := v_xor and_ add in
  v_and xor mask.

(* sliding_negative_consecutive: x86_64.rs 98-107, aarch64.rs 118-127 *)
Definition lanes_slide_neg_c (occ mask : v128) : v128 :=
  let m := v_and occ mask in
  let m := v_or m (v_shr 1 m) in
  let m := v_or m (v_shr 2 m) in
  let m := v_or m (v_shr 4 m) in
  let m := v_shr 1 m in
  v_andc mask m.

(* vacant_files: x86_64.rs 154-164, aarch64.rs 136-143, wasm32.rs 118-124 *)
Definition lanes_vacant_files (b : v128) : v128 :=
  let mask := lanes_vacant in
  let sub := v_sub mask b in
  let shr := v_shr 8 (v_and sub mask) in
  v_xor mask (v_sub mask shr).

(* MASKED_VALUES of aarch64.rs 21-30 and wasm32.rs 20-29: entry i, i < 83 *)
Definition lanes_masked (i : N) : v128 :=
  let u := N.shiftl 1 i - 1 in
  (N.land u ones64, N.land (N.shiftr u 64) ones64).

(* sliding_positive: aarch64.rs 70-83, wasm32.rs 66-74 *)
Definition lanes_tz (occ mask : v128) : N :=
  let m := v_and occ mask in
  if fst m =? 0 then ctz 64 (N.lor (snd m) 0x20000) + 64 else ctz 64 (fst m).
Definition lanes_slide_pos (occ mask : v128) : v128 :=
  v_and mask (lanes_masked (lanes_tz occ mask + 1)).

(* sliding_negative: aarch64.rs 84-97, wasm32.rs 75-86 *)
Definition lanes_lz (occ mask : v128) : N :=
  let m := v_and occ mask in
  if snd m =? 0 then clz 64 (N.lor (fst m) 1) + 64 else clz 64 (snd m).
Definition lanes_slide_neg (occ mask : v128) : v128 :=
  v_andc mask (lanes_masked (127 - lanes_lz occ mask)).
