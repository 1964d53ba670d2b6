(** * How the tables are filled

    The loops behind the static tables of src/tables.rs and src/zobrist.rs and
    behind the constant tables of src/bitboard/*.rs, with arrays whose indices
    are checked.  Tables.v, Zobrist.v and the backends use the values that an
    entry has afterwards; InitSpec.v proves that the loops end without a panic
    and leave exactly these values. *)

From Coq Require Import List Bool NArith ZArith.
From Verif Require Import Types Bitboard BackendCore BackendSimd Tables Zobrist.
Import ListNotations.

(** ** Arrays and loops *)

(* a[i]; None: index out of bounds, a panic *)
Definition arr_get {A} (a : list A) (i : N) : option A := nth_error a (N.to_nat i).
Fixpoint list_set {A} (a : list A) (n : nat) (x : A) : option (list A) :=
  match a, n with
  | [], _ => None
  | _ :: a, O => Some (x :: a)
  | y :: a, S n => let* a := list_set a n x in Some (y :: a)
  end.
(* a[i] = x *)
Definition arr_set {A} (a : list A) (i : N) (x : A) : option (list A) := list_set a (N.to_nat i) x.
(* an assignment through a[i], such as a[i] |= x or a[i][j] = x *)
Definition arr_upd {A} (a : list A) (i : N) (g : A -> option A) : option (list A) :=
  let* x := arr_get a i in
  let* y := g x in
  arr_set a i y.

(* for x in l { body } *)
Fixpoint for_each {A T} (l : list A) (body : A -> T -> option T) (t : T) : option T :=
  match l with
  | [] => Some t
  | x :: l => let* t := body x t in for_each l body t
  end.

(* while i < n { body; i += 1 }, as a relation: the derivation is the run *)
Inductive while_runs {T} (n : N) (body : N -> T -> option T) : N -> T -> option T -> Prop :=
  | wr_end i t : (n <= i)%N -> while_runs n body i t (Some t)
  | wr_panic i t : (i < n)%N -> body i t = None -> while_runs n body i t None
  | wr_step i t t' r : (i < n)%N -> body i t = Some t' ->
      while_runs n body (i + 1)%N t' r -> while_runs n body i t r.

(** ** src/tables.rs *)

Section Tables.
Context (o : bbops).
Notation BB := (bb o).

(* PieceAttackTable::new, tables.rs 42-54 *)
Definition piece_table_init (deltas : list (list delta)) : option (list (list BB)) :=
  for_each all_squares (fun sq table =>
    for_each all_colors (fun c table =>
      let* ds := arr_get deltas (color_index c) in
      for_each ds (fun d table =>
        match sq_shift sq (fst d) (snd d) with
        | Some to =>
            arr_upd table (sq_index sq) (fun row =>
              arr_upd row (color_index c) (fun b => Some (bor o b (bsingle o to))))
        | None => Some table
        end) table) table)
    (repeat (repeat (bempty o) 2) 81).
(* tables.rs 56-58 *)
Definition piece_table_attack (t : list (list BB)) (s : square) (c : color) : option BB :=
  let* row := arr_get t (sq_index s) in arr_get row (color_index c).

(* the loop of sliding_attack, tables.rs 65-71, as a relation: [walk] from the
   current square and the squares collected so far *)
Inductive walk (occ : BB) (d : delta) : option square -> BB -> BB -> Prop :=
  | walk_end acc : walk occ d None acc acc
  | walk_break to acc : bcontains o occ to = true ->
      walk occ d (Some to) acc (bor o acc (bsingle o to))
  | walk_on to acc r : bcontains o occ to = false ->
      walk occ d (sq_shift to (fst d) (snd d)) (bor o acc (bsingle o to)) r ->
      walk occ d (Some to) acc r.

(* LanceAttackTable::new, tables.rs 80-93 *)
Definition lance_table_init : option (list (list BB)) :=
  for_each all_squares (fun sq masks =>
    for_each all_colors (fun c masks =>
      let d := match c with Black => dN | White => dS end in
      arr_upd masks (sq_index sq) (fun row =>
        arr_set row (color_index c) (sliding_attack o sq (bempty o) d))) masks)
    (repeat (repeat (bempty o) 2) 81).
(* tables.rs 96-98 *)
Definition lance_table_pseudo (t : list (list BB)) (s : square) (c : color) : option BB :=
  let* row := arr_get t (sq_index s) in arr_get row (color_index c).
(* tables.rs 100-106 *)
Definition lance_table_attack (t : list (list BB)) (s : square) (c : color) (occ : BB) : option BB :=
  let* row := arr_get t (sq_index s) in
  let* mask := arr_get row (color_index c) in
  Some (match c with
        | Black => bslide_neg_c o occ mask
        | White => bslide_pos_c o occ mask
        end).

(* SlidingAttackTable, tables.rs 109-112 *)
Record sliding_table := mkST { st_masks : list (list (list BB)); st_merged : list BB }.
(* SlidingAttackTable::new, tables.rs 115-132; [enumerate] as explicit pairs *)
Definition sliding_table_init (deltas : list (list delta)) : option sliding_table :=
  let* r := for_each all_squares (fun sq st =>
    let* st := for_each (combine [0%N; 1%N] deltas) (fun ids st =>
        for_each (combine [0%N; 1%N] (snd ids)) (fun jd st =>
            let b := sliding_attack o sq (bempty o) (snd jd) in
            let* masks := arr_upd (fst (fst st)) (sq_index sq) (fun m =>
              arr_upd m (fst ids) (fun row => arr_set row (fst jd) b)) in
            (* merged_mask |= masks[sq][i][j] *)
            let* m := arr_get masks (sq_index sq) in
            let* row := arr_get m (fst ids) in
            let* v := arr_get row (fst jd) in
            Some ((masks, snd (fst st)), bor o (snd st) v)) st)
      (st, bempty o) in
    let* merged := arr_set (snd (fst st)) (sq_index sq) (snd st) in
    Some (fst (fst st), merged))
    (repeat (repeat (repeat (bempty o) 2) 2) 81, repeat (bempty o) 81) in
  Some (mkST (fst r) (snd r)).
(* tables.rs 135-137 *)
Definition sliding_table_pseudo (t : sliding_table) (s : square) : option BB :=
  arr_get (st_merged t) (sq_index s).
(* tables.rs 139-142 *)
Definition sliding_table_attack (t : sliding_table) (s : square) (occ : BB) : option BB :=
  let* ms := arr_get (st_masks t) (sq_index s) in
  let* neg := arr_get ms 0 in
  let* n0 := arr_get neg 0 in let* n1 := arr_get neg 1 in
  let* pos := arr_get ms 1 in
  let* p0 := arr_get pos 0 in let* p1 := arr_get pos 1 in
  Some (bor o (bslide_neg2 o occ (n0, n1)) (bslide_pos2 o occ (p0, p1))).

(* AttackTable, tables.rs 145-154 *)
Record attack_table := mkAT {
  at_fu : list (list BB); at_ky : list (list BB); at_ke : list (list BB); at_gi : list (list BB);
  at_ka : sliding_table; at_hi : sliding_table; at_ki : list (list BB); at_ou : list (list BB) }.
(* ATTACK_TABLE, tables.rs 186-195 *)
Definition attack_table_init : option attack_table :=
  let* fu := piece_table_init [fu_deltas Black; fu_deltas White] in
  let* ky := lance_table_init in
  let* ke := piece_table_init [ke_deltas Black; ke_deltas White] in
  let* gi := piece_table_init [gi_deltas Black; gi_deltas White] in
  let* ka := sliding_table_init [[dNE; dSE]; [dSW; dNW]] in
  let* hi := sliding_table_init [[dN; dE]; [dS; dW]] in
  let* ki := piece_table_init [ki_deltas Black; ki_deltas White] in
  let* ou := piece_table_init [ou_deltas Black; ou_deltas White] in
  Some (mkAT fu ky ke gi ka hi ki ou).

(* AttackTable::attack, tables.rs 157-174 *)
Definition table_attack (t : attack_table) (k : kind) (s : square) (c : color) (occ : BB) : option BB :=
  match k with
  | Pawn => piece_table_attack (at_fu t) s c
  | Lance => lance_table_attack (at_ky t) s c occ
  | Knight => piece_table_attack (at_ke t) s c
  | Silver => piece_table_attack (at_gi t) s c
  | Bishop => sliding_table_attack (at_ka t) s occ
  | Rook => sliding_table_attack (at_hi t) s occ
  | Gold | ProPawn | ProLance | ProKnight | ProSilver => piece_table_attack (at_ki t) s c
  | King => piece_table_attack (at_ou t) s c
  | ProBishop =>
      let* a := sliding_table_attack (at_ka t) s occ in
      let* b := piece_table_attack (at_ou t) s c in Some (bor o a b)
  | ProRook =>
      let* a := sliding_table_attack (at_hi t) s occ in
      let* b := piece_table_attack (at_ou t) s c in Some (bor o a b)
  end.
(* AttackTable::pseudo_attack, tables.rs 176-183 *)
Definition table_pseudo_attack (t : attack_table) (k : kind) (s : square) (c : color) : option BB :=
  match k with
  | Lance => lance_table_pseudo (at_ky t) s c
  | Bishop | ProBishop => sliding_table_pseudo (at_ka t) s
  | Rook | ProRook => sliding_table_pseudo (at_hi t) s
  | _ => table_attack t k s c (bempty o)
  end.

(* BETWEEN_TABLE, tables.rs 198-226; unreachable!() is a panic *)
Definition between_table_init : option (list (list BB)) :=
  for_each all_squares (fun sq0 bbs =>
    for_each all_squares (fun sq1 bbs =>
      let df := (fileZ sq1 - fileZ sq0)%Z in
      let dr := (rankZ sq1 - rankZ sq0)%Z in
      if (Z.lor df dr =? 0)%Z
         || (negb (df =? 0)%Z && negb (dr =? 0)%Z && negb (Z.abs df =? Z.abs dr)%Z)
      then Some bbs
      else
        let* d := between_delta df dr in
        arr_upd bbs (sq_index sq0) (fun row =>
          arr_set row (sq_index sq1)
            (band o (sliding_attack o sq0 (bsingle o sq1) d) (bnot o (bsingle o sq1))))) bbs)
    (repeat (repeat (bempty o) 81) 81).
Definition between_table_get (t : list (list BB)) (s0 s1 : square) : option BB :=
  let* row := arr_get t (sq_index s0) in arr_get row (sq_index s1).

(* FILES, tables.rs 250-256: ten entries, the first one is not used *)
Definition files_init : option (list BB) :=
  for_each all_squares (fun sq bbs =>
    arr_upd bbs (Z.to_N (fileZ sq)) (fun b => Some (bor o b (bsingle o sq))))
    (repeat (bempty o) 10).

End Tables.

(* RELATIVE_RANKS, tables.rs 228-236 *)
Definition relative_ranks_init : option (list (list Z)) :=
  for_each all_squares (fun sq ranks =>
    for_each all_colors (fun c ranks =>
      arr_upd ranks (sq_index sq) (fun row =>
        arr_set row (color_index c) (relative_rank sq c))) ranks)
    (repeat (repeat 0%Z 2) 81).
(* PROMOTABLE, tables.rs 238-248, which reads RELATIVE_RANKS *)
Definition promotable_init (ranks : list (list Z)) : option (list (list bool)) :=
  for_each all_squares (fun sq table =>
    for_each all_colors (fun c table =>
      let* row := arr_get ranks (sq_index sq) in
      let* r := arr_get row (color_index c) in
      if (r <=? 3)%Z then
        arr_upd table (sq_index sq) (fun row => arr_set row (color_index c) true)
      else Some table) table)
    (repeat (repeat false 2) 81).
Definition by_square_color {A} (t : list (list A)) (s : square) (c : color) : option A :=
  let* row := arr_get t (sq_index s) in arr_get row (color_index c).

(** ** src/zobrist.rs *)

(* ZobristTable, zobrist.rs 50-53 *)
Record zarrays := mkZA {
  za_board : list (list (list key));
  za_hands : list (list (list key)) }.
(* the numbers drawn so far count the state of the generator: rng.gen() *)
Definition draw (rng : N -> N) (n : N) : key :=
  N.ldiff (N.land (rng n) 0xffffffffffffffff) KEY_COLOR.
Definition Nrange (n : nat) : list N := map N.of_nat (seq 0 n).
(* ZOBRIST_TABLE, zobrist.rs 66-86 *)
Definition zobrist_init (rng : N -> N) : option zarrays :=
  let* bn := for_each all_squares (fun sq st =>
    for_each all_colors (fun c st =>
      for_each all_kinds (fun k st =>
        let* b := arr_upd (fst st) (sq_index sq) (fun m =>
          arr_upd m (color_index c) (fun row => arr_set row (kind_index k) (draw rng (snd st)))) in
        Some (b, (snd st + 1)%N)) st) st)
    (repeat (repeat (repeat KEY_ZERO 14) 2) 81, 0%N) in
  let* hn := for_each all_colors (fun c st =>
    for_each hand_kinds (fun k st =>
      for_each (Nrange 18) (fun num st =>
        let* h := arr_upd (fst st) (color_index c) (fun m =>
          arr_upd m (kind_index k) (fun row => arr_set row num (draw rng (snd st)))) in
        Some (h, (snd st + 1)%N)) st) st)
    (repeat (repeat (repeat KEY_ZERO 18) 8) 2, snd bn) in
  Some (mkZA (fst bn) (fst hn)).
(* ZobristTable::board, zobrist.rs 58-60 *)
Definition za_board_get (z : zarrays) (s : square) (p : piece) : option key :=
  let* m := arr_get (za_board z) (sq_index s) in
  let* row := arr_get m (color_index (pcolor p)) in
  arr_get row (kind_index (pkind p)).
(* ZobristTable::hand, zobrist.rs 61-63 *)
Definition za_hand_get (z : zarrays) (c : color) (k : kind) (num : N) : option key :=
  let* m := arr_get (za_hands z) (color_index c) in
  let* row := arr_get m (kind_index k) in
  arr_get row num.

(** ** Constant tables of the backends *)

(* 1 << i in a word of [w] bits; an overflow in a constant does not compile *)
Definition shl_one (w i : N) : option N := if (i <? w)%N then Some (N.shiftl 1 i) else None.

(* SINGLE_VALUES, x86_64.rs 7-19 and aarch64.rs 7-19; SINGLES, wasm32.rs 6-18.
   In x86_64.rs the words are i64; no entry reaches the sign bit. *)
Definition single_values_body (i : N) (values : list v128) : option (list v128) :=
  if (i <? 63)%N then
    let* x := shl_one 64 i in arr_set values i (x, 0%N)
  else
    let* x := shl_one 64 (i - 63) in arr_set values i (0%N, x).
(* MASKED_VALUES, aarch64.rs 21-30 and wasm32.rs 20-29 *)
Definition masked_values_body (i : N) (values : list v128) : option (list v128) :=
  let* x := shl_one 128 i in
  let u := (x - 1)%N in
  arr_set values i (N.land u ones64, N.land (N.shiftr u 64) ones64).
(* MASKED_BBS, core.rs 11-20 *)
Definition masked_bbs_body (i : N) (bbs : list u128) : option (list u128) :=
  let* x := shl_one 128 i in
  arr_set bbs i (N.land core_mask (x - 1)).
