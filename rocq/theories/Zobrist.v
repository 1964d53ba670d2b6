(** * src/zobrist.rs *)

From Coq Require Import List Bool NArith ZArith.
From Verif Require Import Types.
Import ListNotations.
Open Scope N_scope.

(* Key, zobrist.rs 8-48: a u64 with xor *)
Definition key := N.
Definition KEY_ZERO : key := 0.      (* 12 *)
Definition KEY_COLOR : key := 1.     (* 13 *)

(* ZobristTable::MAX_HAND_NUM, zobrist.rs 56 *)
Definition MAX_HAND_NUM : N := 18.

Record ztable := mkZ {
  z_board_entry : square -> color -> kind -> key;
  z_hand_entry : color -> kind -> N -> key }.

(* ZobristTable::board, zobrist.rs 58-60 *)
Definition z_board (z : ztable) (s : square) (p : piece) : key :=
  z_board_entry z s (pcolor p) (pkind p).

(* ZobristTable::hand, zobrist.rs 61-63: the kind indexes an array of 8, the
   count an array of 18; out of bounds panics *)
Definition z_hand (z : ztable) (c : color) (k : kind) (num : N) : option key :=
  if (kind_index k <? 8) && (num <? MAX_HAND_NUM)
  then Some (z_hand_entry z c k num) else None.

Definition color_index (c : color) : N :=
  match c with Black => 0 | White => 1 end.

(* ZOBRIST_TABLE, zobrist.rs 66-86.  The random number generator (StdRng from
   a fixed seed, external) is an arbitrary stream of u64 values; entries are
   drawn in the order of the loops and have bit 0 (Key::COLOR) cleared. *)
Definition zobrist_table (rng : N -> N) : ztable :=
  let draw i := N.ldiff (N.land (rng i) 0xffffffffffffffff) KEY_COLOR in
  {| z_board_entry := fun s c k =>
       draw ((sq_index s * 2 + color_index c) * 14 + kind_index k);
     z_hand_entry := fun c k num =>
       match k with
       | King | ProPawn | ProLance | ProKnight | ProSilver | ProBishop
       | ProRook => KEY_ZERO   (* never assigned *)
       | _ => draw (81 * 2 * 14
                    + (color_index c * 7 + kind_index k) * 18 + num)
       end |}.
