(** * The portable backend, src/bitboard/core.rs

    The type is [shogi_core::Bitboard]; its own methods are external (trusted
    base).  A value is modelled by its [to_u128()]: bit 9(f-1)+(r-1) for the
    files 1..7, one bit further for the files 8 and 9 (core.rs, line 5 and the
    mask on line 12). *)

From Coq Require Import List Bool NArith ZArith.
From Verif Require Import Types Bitboard.
Import ListNotations.
Open Scope N_scope.

Definition u128 := N.

(* bit of a square in to_u128(), core.rs line 5 *)
Definition sq_bit (s : square) : N :=
  let i := sq_index s in if i <? 63 then i else i + 1.

(* core.rs 12: the 81 square bits *)
Definition core_mask : u128 := 0x0003ffff7fffffffffffffff.

Definition two128 : N := 0x100000000000000000000000000000000.

(** shogi_core::Bitboard (external) *)
Definition core_single (s : square) : u128 := N.shiftl 1 (sq_bit s).
Definition core_not (b : u128) : u128 := N.ldiff core_mask b.
Definition core_contains (b : u128) (s : square) : bool :=
  N.testbit b (sq_bit s).
(* iteration in increasing order of the square index *)
Definition core_iter (b : u128) : list square :=
  filter (core_contains b) all_squares.

(* the squares of rank [r] and greater (0-based), all files *)
Definition rows_from (r : N) : u128 :=
  fold_left (fun acc s => if r <=? i9N (sqr s) then N.lor acc (core_single s)
                          else acc) all_squares 0.
(* Bitboard::shift_down(d): each square d ranks down, dropping the squares
   that leave the board *)
Definition core_shift_down (b : u128) (d : N) : u128 :=
  N.land (N.shiftl b d) (rows_from d).
(* Bitboard::shift_up(d): each square d ranks up, dropping the squares that
   leave the board *)
Definition core_shift_up (b : u128) (d : N) : u128 :=
  N.shiftr (N.land b (rows_from d)) d.

(** core.rs *)

(* core.rs 6 *)
Definition vacant_mask : u128 := 0x000201004020100804020100.
(* core.rs 8, 9 *)
Definition bb_1a : u128 := core_single (Sq n1 n1).
Definition bb_9i : u128 := core_single (Sq n9 n9).

(* MASKED_BBS[i], core.rs 11-20; i < 83, otherwise the index panics *)
Definition masked_bbs (i : N) : u128 := N.land core_mask (N.shiftl 1 i - 1).

(* core.rs 27-30; that the table index is in range is C37_masked_index_in_range *)
Definition core_tz (bb mask : u128) : N :=
  ctz 128 (N.lor (N.land bb mask) bb_9i).
Definition core_slide_pos (bb mask : u128) : u128 :=
  let tz := core_tz bb mask in
  N.land mask (masked_bbs (tz + 1)).

(* core.rs 37-40 *)
Definition core_lz (bb mask : u128) : N :=
  clz 128 (N.lor (N.land bb mask) bb_1a).
Definition core_slide_neg (bb mask : u128) : u128 :=
  let lz := core_lz bb mask in
  N.land mask (core_not (masked_bbs (127 - lz))).

(* u128 subtraction: panics on underflow in builds with overflow checks,
   wraps otherwise *)
Definition sub128 (checks : bool) (a b : u128) : option u128 :=
  if b <=? a then Some (a - b)
  else if checks then None else Some (a + two128 - b).

(* core.rs 68-77 *)
(* the values given to the two from_u128_unchecked, lines 74 and 76 *)
Definition core_vacant_values (checks : bool) (b : u128) : option (u128 * u128) :=
  let* d := sub128 checks vacant_mask b in
  let* e := sub128 checks vacant_mask (core_shift_up d 8) in
  Some (d, e).
Definition core_vacant_files (checks : bool) (b : u128) : option u128 :=
  let* v := core_vacant_values checks b in
  Some (N.lxor vacant_mask (snd v)).

(* core.rs 42-78; [checks]: overflow checks enabled (debug build) *)
Definition core_ops (checks : bool) : bbops := {|
  bb := u128;
  bempty := 0;
  bsingle := core_single;
  band := N.land;
  bor := N.lor;
  bxor := N.lxor;
  bnot := core_not;
  bis_empty := fun b => b =? 0;
  bcontains := core_contains;
  bcount := count_ones;
  biter := core_iter;
  bshl := fun b => core_shift_down b 1;
  bshr := fun b => core_shift_up b 1;
  bslide_pos_c := core_slide_pos;
  bslide_neg_c := core_slide_neg;
  bslide_pos2 := fun b ms => N.lor (core_slide_pos b (fst ms))
                                   (core_slide_pos b (snd ms));
  bslide_neg2 := fun b ms => N.lor (core_slide_neg b (fst ms))
                                   (core_slide_neg b (snd ms));
  bvacant := core_vacant_files checks
|}.
