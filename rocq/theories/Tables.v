(** * src/tables.rs

    The lazily initialised tables are modelled as functions: an entry is the
    value the initialiser stores for that index. *)

From Coq Require Import List Bool NArith ZArith.
From Verif Require Import Types Bitboard.
Import ListNotations.
Open Scope Z_scope.

(* tables.rs 6-26; (file, rank) *)
Definition delta := (Z * Z)%type.
Definition dN : delta := (0, -1).
Definition dE : delta := (-1, 0).
Definition dS : delta := (0, 1).
Definition dW : delta := (1, 0).
Definition dNE : delta := (-1, -1).
Definition dSE : delta := (-1, 1).
Definition dSW : delta := (1, 1).
Definition dNW : delta := (1, -1).
Definition dNNE : delta := (-1, -2).
Definition dNNW : delta := (1, -2).
Definition dSSE : delta := (-1, 2).
Definition dSSW : delta := (1, 2).

(* tables.rs 31-40 *)
Definition fu_deltas (c : color) : list delta :=
  match c with Black => [dN] | White => [dS] end.
Definition ke_deltas (c : color) : list delta :=
  match c with Black => [dNNE; dNNW] | White => [dSSE; dSSW] end.
Definition gi_deltas (c : color) : list delta :=
  match c with
  | Black => [dN; dNE; dSE; dSW; dNW]
  | White => [dS; dNE; dSE; dSW; dNW]
  end.
Definition ki_deltas (c : color) : list delta :=
  match c with
  | Black => [dN; dE; dS; dW; dNE; dNW]
  | White => [dN; dE; dS; dW; dSE; dSW]
  end.
Definition ou_deltas (c : color) : list delta :=
  match c with
  | Black => [dN; dE; dS; dW; dNE; dSE; dSW; dNW]
  | White => [dN; dE; dS; dW; dNE; dSE; dSW; dNW]
  end.

(* tables.rs 228-236 *)
Definition RELATIVE_RANKS (s : square) (c : color) : Z := relative_rank s c.

(* tables.rs 238-248 *)
Definition PROMOTABLE (s : square) (c : color) : bool :=
  RELATIVE_RANKS s c <=? 3.

Section Tables.
Context (o : bbops).
Notation BB := (bb o).

(* PieceAttackTable::new and attack, tables.rs 42-58 *)
Definition piece_attack (deltas : color -> list delta) (s : square) (c : color)
  : BB :=
  fold_left (fun acc d =>
    match sq_shift s (fst d) (snd d) with
    | Some to => bor o acc (bsingle o to)
    | None => acc
    end) (deltas c) (bempty o).

(* sliding_attack, tables.rs 62-73.  The loop visits at most 8 squares; the
   fuel of 9 is never exhausted (theorem sliding_fuel_enough). *)
Fixpoint sliding_loop (fuel : nat) (curr : option square) (occ : BB)
  (d : delta) (acc : BB) : BB :=
  match fuel with
  | O => acc
  | S fuel =>
    match curr with
    | None => acc
    | Some to =>
      let acc := bor o acc (bsingle o to) in
      if bcontains o occ to then acc
      else sliding_loop fuel (sq_shift to (fst d) (snd d)) occ d acc
    end
  end.
Definition sliding_attack (s : square) (occ : BB) (d : delta) : BB :=
  sliding_loop 9 (sq_shift s (fst d) (snd d)) occ d (bempty o).

(* LanceAttackTable, tables.rs 79-106 *)
Definition ky_mask (s : square) (c : color) : BB :=
  sliding_attack s (bempty o) (match c with Black => dN | White => dS end).
Definition ky_attack (s : square) (c : color) (occ : BB) : BB :=
  let mask := ky_mask s c in
  match c with
  | Black => bslide_neg_c o occ mask
  | White => bslide_pos_c o occ mask
  end.

(* SlidingAttackTable, tables.rs 109-143.  A table is given by its deltas
   [[d00; d01]; [d10; d11]]. *)
Definition sdeltas := ((delta * delta) * (delta * delta))%type.
Definition s_masks (ds : sdeltas) (s : square) : (BB * BB) * (BB * BB) :=
  let m d := sliding_attack s (bempty o) d in
  ((m (fst (fst ds)), m (snd (fst ds))), (m (fst (snd ds)), m (snd (snd ds)))).
Definition s_merged (ds : sdeltas) (s : square) : BB :=
  let ms := s_masks ds s in
  bor o (bor o (bor o (bor o (bempty o) (fst (fst ms))) (snd (fst ms)))
               (fst (snd ms))) (snd (snd ms)).
Definition s_attack (ds : sdeltas) (s : square) (occ : BB) : BB :=
  let ms := s_masks ds s in
  bor o (bslide_neg2 o occ (fst ms)) (bslide_pos2 o occ (snd ms)).

(* ATTACK_TABLE, tables.rs 186-195 *)
Definition ka_deltas : sdeltas := ((dNE, dSE), (dSW, dNW)).
Definition hi_deltas : sdeltas := ((dN, dE), (dS, dW)).
Definition fu_attack := piece_attack fu_deltas.
Definition ke_attack := piece_attack ke_deltas.
Definition gi_attack := piece_attack gi_deltas.
Definition ki_attack := piece_attack ki_deltas.
Definition ou_attack := piece_attack ou_deltas.
Definition ka_attack := s_attack ka_deltas.
Definition hi_attack := s_attack hi_deltas.

(* AttackTable::attack, tables.rs 157-174 *)
Definition attack (k : kind) (s : square) (c : color) (occ : BB) : BB :=
  match k with
  | Pawn => fu_attack s c
  | Lance => ky_attack s c occ
  | Knight => ke_attack s c
  | Silver => gi_attack s c
  | Bishop => ka_attack s occ
  | Rook => hi_attack s occ
  | Gold | ProPawn | ProLance | ProKnight | ProSilver => ki_attack s c
  | King => ou_attack s c
  | ProBishop => bor o (ka_attack s occ) (ou_attack s c)
  | ProRook => bor o (hi_attack s occ) (ou_attack s c)
  end.

(* AttackTable::pseudo_attack, tables.rs 176-183 *)
Definition pseudo_attack (k : kind) (s : square) (c : color) : BB :=
  match k with
  | Lance => ky_mask s c
  | Bishop | ProBishop => s_merged ka_deltas s
  | Rook | ProRook => s_merged hi_deltas s
  | _ => attack k s c (bempty o)
  end.

(* BETWEEN_TABLE, tables.rs 198-226; i8 arithmetic on values in -8..8 *)
Definition between_delta (df dr : Z) : option delta :=
  match df ?= 0, dr ?= 0 with
  | Eq, Lt => Some dN
  | Lt, Eq => Some dE
  | Eq, Gt => Some dS
  | Gt, Eq => Some dW
  | Lt, Lt => Some dNE
  | Lt, Gt => Some dSE
  | Gt, Gt => Some dSW
  | Gt, Lt => Some dNW
  | Eq, Eq => None   (* unreachable!(), excluded by the test before *)
  end.
Definition BETWEEN_TABLE (s0 s1 : square) : BB :=
  let df := fileZ s1 - fileZ s0 in
  let dr := rankZ s1 - rankZ s0 in
  if (Z.lor df dr =? 0)
     || (negb (df =? 0) && negb (dr =? 0) && negb (Z.abs df =? Z.abs dr))
  then bempty o
  else match between_delta df dr with
       | Some d => band o (sliding_attack s0 (bsingle o s1) d)
                          (bnot o (bsingle o s1))
       | None => bempty o
       end.

(* FILES, tables.rs 250-256: the squares of the file of [s] *)
Definition FILES (f : i9) : BB :=
  fold_left (fun acc s => if i9_eqb (sqf s) f then bor o acc (bsingle o s)
                          else acc) all_squares (bempty o).

End Tables.
