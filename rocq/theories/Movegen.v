(** * src/movegen.rs

    Generators return the moves in the order in which they are pushed;
    [push_all] then performs the pushes on the bounded buffer.  This differs
    from the code only in that a panic of a later generator is not preceded by
    the pushes of the earlier ones, which cannot be observed. *)

From Coq Require Import List Bool NArith ZArith.
From Verif Require Import Types Bitboard Tables Zobrist Position.
Import ListNotations.

(* MAX_LEGAL_MOVES, movegen.rs 7 *)
Definition MAX_LEGAL_MOVES : nat := Z.to_nat 593.

(* ArrayVec::push (external): panics when the buffer is full *)
Definition av_push (av : list move) (m : move) : option (list move) :=
  if Nat.ltb (length av) MAX_LEGAL_MOVES then Some (av ++ [m]) else None.
Definition push_all (ms : list move) : option (list move) :=
  fold_left (fun av m => let* av := av in av_push av m) ms (Some []).

(* ArrayVec::swap_remove (external): the last element takes the place of the
   removed one; panics out of bounds *)
Fixpoint set_nth {A} (i : nat) (x : A) (l : list A) : list A :=
  match l, i with
  | [], _ => []
  | _ :: l, O => x :: l
  | y :: l, S i => y :: set_nth i x l
  end.
Definition swap_remove {A} (i : nat) (l : list A) : option (list A) :=
  if Nat.ltb i (length l) then
    match rev l with
    | x :: _ => Some (removelast (set_nth i x l))
    | [] => None
    end
  else None.

(* the loop of legal_moves, movegen.rs 18-25.  [fuel] bounds the number of
   iterations (theorem C25: length l suffices). *)
Fixpoint filter_loop {A} (fuel : nat) (p : A -> bool) (i : nat) (l : list A)
  : option (list A) :=
  if Nat.eqb i (length l) then Some l
  else match fuel with
       | O => None
       | S fuel =>
           match nth_error l i with
           | Some m =>
               if p m then filter_loop fuel p (S i) l
               else let* l := swap_remove i l in filter_loop fuel p i l
           | None => None
           end
       end.

Section Movegen.
Context (o : bbops).
Notation BB := (bb o).
Notation inner := (inner o).
Notation attack_info := (attack_info o).

Definition iter_and (a b : BB) : list square := biter o (band o a b).

(* attackers_to, movegen.rs 381-391 *)
Definition attackers_to (p : inner) (c : color) (to : square) (occ : BB) : BB :=
  let opp := flip c in
  let pb := piece_bb o p in
  band o
   (bor o (bor o (bor o (bor o (bor o (bor o
     (band o (fu_attack o to opp) (pb Pawn))
     (band o (ky_attack o to opp occ) (pb Lance)))
     (band o (ke_attack o to opp) (pb Knight)))
     (band o (gi_attack o to opp)
        (bor o (bor o (pb Silver) (pb ProRook)) (pb King))))
     (band o (ka_attack o to occ) (bor o (pb Bishop) (pb ProBishop))))
     (band o (hi_attack o to occ) (bor o (pb Rook) (pb ProRook))))
     (band o (ki_attack o to opp)
        (bor o (bor o (bor o (bor o (bor o (bor o (pb Gold) (pb ProPawn))
          (pb ProLance)) (pb ProKnight)) (pb ProSilver)) (pb ProBishop))
          (pb King))))
   (player_bb o p c).

(* attackers_to_except_klp, movegen.rs 394-403 *)
Definition attackers_to_except_klp (p : inner) (c : color) (to : square) : BB :=
  let opp := flip c in
  let occ := occupied o p in
  let pb := piece_bb o p in
  band o
   (bor o (bor o (bor o (bor o
     (band o (ke_attack o to opp) (pb Knight))
     (band o (gi_attack o to opp) (bor o (pb Silver) (pb ProRook))))
     (band o (ka_attack o to occ) (bor o (pb Bishop) (pb ProBishop))))
     (band o (hi_attack o to occ) (bor o (pb Rook) (pb ProRook))))
     (band o (ki_attack o to opp)
        (bor o (bor o (bor o (bor o (bor o (pb Gold) (pb ProPawn))
          (pb ProLance)) (pb ProKnight)) (pb ProSilver)) (pb ProBishop))))
   (player_bb o p c).

(* is_pawn_drop_mate, movegen.rs 349-379 *)
Definition is_pawn_drop_mate (p : inner) (ai : attack_info) (sq : square)
  : bool :=
  let c := i_side o p in
  if bis_empty o (attackers_to p c sq (occupied o p)) then false
  else
    let capture_candidates := attackers_to_except_klp p (flip c) sq in
    if negb (bis_empty o (band o capture_candidates
               (bor o (bnot o (ai_pinned_of o ai (flip c)))
                      (FILES o (sqf sq)))))
    then false
    else
      match king_position o p (flip c) with
      | Some king =>
          let single := bsingle o sq in
          let escape := band o (band o (ou_attack o king (flip c))
                                       (bnot o (player_bb o p (flip c))))
                               (bnot o single) in
          let occ := bor o (occupied o p) single in
          forallb (fun to => negb (bis_empty o (attackers_to p c to occ)))
                  (biter o escape)
      | None => true
      end.

(* is_legal, movegen.rs 324-348 *)
Definition is_legal (p : inner) (ai : attack_info) (m : move) : bool :=
  match move_from m with
  | Some from =>
      let c := i_side o p in
      if (match i_piece_at o p from with
          | Some x => piece_eqb x (mkP King c)
          | None => false
          end)
         && negb (bis_empty o
                   (attackers_to p (flip c) (move_to m) (occupied o p)))
      then false
      else if bcontains o (ai_pinned_of o ai c) from then
        match king_position o p c with
        | Some sq => stays_on_line o sq from (move_to m)
        | None => true
        end
      else true
  | None => true
  end.

(* the promotion choices of pawn, lance and knight moves: movegen.rs 95-114,
   121-140, 148-167 *)
Definition push_forward (c : color) (min_rank : Z) (from to : square)
  : list move :=
  if PROMOTABLE to c then
    Normal from to true ::
      (if (RELATIVE_RANKS to c >? min_rank)%Z then [Normal from to false]
       else [])
  else [Normal from to false].

(* the promotion choices of silver, bishop and rook moves: movegen.rs 176-187,
   196-207, 216-227 *)
Definition push_optional (c : color) (from to : square) : list move :=
  Normal from to false ::
    (if PROMOTABLE from c || PROMOTABLE to c then [Normal from to true]
     else []).

Definition push_plain (from to : square) : list move :=
  [Normal from to false].

(* piece_bitboard, position.rs 218-221 *)
Definition piece_bitboard (p : inner) (k : kind) (c : color) : BB :=
  band o (piece_bb o p k) (player_bb o p c).

(* generate_for_fu, movegen.rs 87-116; [from] by u8 arithmetic on the index:
   the argument of Square::from_u8_unchecked (line 94) *)
Definition fu_from_u8 (c : color) (to : square) : N :=
  let delta := match c with Black => 1 | White => 255 end%N in
  N.land (sq_index to + 1 + delta) 255.
Definition fu_from (c : color) (to : square) : square := sq_of_u8 (fu_from_u8 c to).
Definition gen_fu (p : inner) (target : BB) : list move :=
  let c := i_side o p in
  let to_bb := match c with
               | Black => bshr o (piece_bitboard p Pawn Black)
               | White => bshl o (piece_bitboard p Pawn White)
               end in
  flat_map (fun to => push_forward c 1 (fu_from c to) to) (iter_and to_bb target).

(* "for from in ... { for to in attack & target { ... } }" *)
Definition gen_from (froms : BB) (att : square -> BB) (target : BB)
  (push : square -> square -> list move) : list move :=
  flat_map (fun from => flat_map (push from) (iter_and (att from) target))
           (biter o froms).

Definition own (p : inner) (k : kind) : BB :=
  band o (player_bb o p (i_side o p)) (piece_bb o p k).

(* generate_for_ky, movegen.rs 117-143 *)
Definition gen_ky (p : inner) (target : BB) : list move :=
  let c := i_side o p in
  gen_from (own p Lance) (fun from => ky_attack o from c (occupied o p)) target
           (push_forward c 1).

(* generate_for_ke, movegen.rs 144-170 *)
Definition gen_ke (p : inner) (target : BB) : list move :=
  let c := i_side o p in
  gen_from (own p Knight) (fun from => ke_attack o from c) target
           (push_forward c 2).

(* generate_for_gi, movegen.rs 171-190 *)
Definition gen_gi (p : inner) (target : BB) : list move :=
  let c := i_side o p in
  gen_from (own p Silver) (fun from => gi_attack o from c) target
           (push_optional c).

(* generate_for_ka, movegen.rs 191-210 *)
Definition gen_ka (p : inner) (target : BB) : list move :=
  let c := i_side o p in
  gen_from (own p Bishop) (fun from => ka_attack o from (occupied o p)) target
           (push_optional c).

(* generate_for_hi, movegen.rs 211-230 *)
Definition gen_hi (p : inner) (target : BB) : list move :=
  let c := i_side o p in
  gen_from (own p Rook) (fun from => hi_attack o from (occupied o p)) target
           (push_optional c).

(* generate_for_ki, movegen.rs 231-249 *)
Definition gen_ki (p : inner) (target : BB) : list move :=
  let c := i_side o p in
  gen_from
    (band o (bor o (bor o (bor o (bor o (piece_bb o p Gold)
       (piece_bb o p ProPawn)) (piece_bb o p ProLance))
       (piece_bb o p ProKnight)) (piece_bb o p ProSilver)) (player_bb o p c))
    (fun from => ki_attack o from c) target push_plain.

(* generate_for_ou, movegen.rs 250-261 *)
Definition gen_ou (p : inner) (target : BB) : list move :=
  let c := i_side o p in
  gen_from (own p King) (fun from => ou_attack o from c) target push_plain.

(* generate_for_um, movegen.rs 262-276 *)
Definition gen_um (p : inner) (target : BB) : list move :=
  let c := i_side o p in
  gen_from (own p ProBishop)
    (fun from => bor o (ka_attack o from (occupied o p)) (ou_attack o from c))
    target push_plain.

(* generate_for_ry, movegen.rs 277-291 *)
Definition gen_ry (p : inner) (target : BB) : list move :=
  let c := i_side o p in
  gen_from (own p ProRook)
    (fun from => bor o (hi_attack o from (occupied o p)) (ou_attack o from c))
    target push_plain.

(* the target of pawn drops, movegen.rs 297-307; None: vacant_files panics *)
Definition pawn_drop_target (p : inner) (ai : attack_info) (target : BB)
  : option BB :=
  let c := i_side o p in
  let* vac := bvacant o (own p Pawn) in
  let target := band o target vac in
  Some
    match king_position o p (flip c) with
    | Some sq =>
        match hd_error (biter o (fu_attack o sq (flip c))) with
        | Some to =>
            if bcontains o target to && is_pawn_drop_mate p ai to
            then band o target (bnot o (bsingle o to))
            else target
        | None => target
        end
    | None => target
    end.

(* the rank condition of drops, movegen.rs 311-317 *)
Definition drop_rank_ok (c : color) (k : kind) (to : square) : bool :=
  match k with
  | Pawn | Lance => RELATIVE_RANKS to c >? 1
  | Knight => RELATIVE_RANKS to c >? 2
  | _ => true
  end%Z.

(* generate_drop, movegen.rs 292-322 *)
Definition gen_drop_kind (p : inner) (ai : attack_info) (target : BB) (k : kind)
  : option (list move) :=
  let c := i_side o p in
  let* target := if kind_eqb k Pawn then pawn_drop_target p ai target
                 else Some target in
  Some (map (fun to => Drop to (mkP k c))
            (filter (drop_rank_ok c k) (biter o target))).
Definition gen_drop (p : inner) (ai : attack_info) (target : BB)
  : option (list move) :=
  let hand := i_hand o p (i_side o p) in
  fold_left (fun acc k =>
      let* acc := acc in
      let* ms := gen_drop_kind p ai target k in
      Some (acc ++ ms))
    (filter (fun k => (0 <? match hand_count hand k with
                            | Some n => n | None => 0 end)%N) hand_kinds)
    (Some []).

(* generate_all, movegen.rs 29-42 *)
Definition generate_all (p : inner) (ai : attack_info) : option (list move) :=
  let target := bnot o (player_bb o p (i_side o p)) in
  let board_moves :=
    gen_fu p target ++ gen_ky p target ++ gen_ke p target ++ gen_gi p target
    ++ gen_ka p target ++ gen_hi p target ++ gen_ki p target
    ++ gen_ou p target ++ gen_um p target ++ gen_ry p target in
  let* drops := gen_drop p ai (band o (bnot o (occupied o p))
                                      (bnot o (bempty o))) in
  Some (board_moves ++ drops).

(* the loop over the checkers, movegen.rs 48-60; None: a checker's square is
   empty *)
Definition checker_attack (p : inner) (king ch : square) : option BB :=
  let c := i_side o p in
  let* x := i_piece_at o p ch in
  let k := pkind x in
  Some (if kind_eqb k ProRook && negb (i9_eqb (sqf ch) (sqf king))
           && negb (i9_eqb (sqr ch) (sqr king))
        then hi_attack o ch (occupied o p)
        else pseudo_attack o k ch (flip c)).
Definition checkers_attacks (p : inner) (king : square) (chs : list square)
  : option BB :=
  fold_left (fun acc ch =>
      let* acc := acc in
      let* a := checker_attack p king ch in
      Some (bor o acc a))
    chs (Some (bempty o)).

(* generate_evasions, movegen.rs 44-86 *)
Definition generate_evasions (p : inner) (ai : attack_info)
  : option (list move) :=
  let c := i_side o p in
  let* king := king_position o p c in
  let chs := biter o (ai_checkers o ai) in
  let* ca := checkers_attacks p king chs in
  let king_moves :=
    map (fun to => Normal king to false)
        (biter o (band o (band o (ou_attack o king c)
                                 (bnot o (player_bb o p c))) (bnot o ca))) in
  if Nat.ltb 1 (length chs) then Some king_moves
  else
    let* ch := hd_error (biter o (ai_checkers o ai)) in
    let target_drop := BETWEEN_TABLE o ch king in
    let target_move := bor o target_drop (ai_checkers o ai) in
    let board_moves :=
      gen_fu p target_move ++ gen_ky p target_move ++ gen_ke p target_move
      ++ gen_gi p target_move ++ gen_ka p target_move ++ gen_hi p target_move
      ++ gen_ki p target_move ++ gen_um p target_move
      ++ gen_ry p target_move in
    let* drops := if negb (bis_empty o target_drop)
                  then gen_drop p ai target_drop else Some [] in
    Some (king_moves ++ board_moves ++ drops).

(* legal_moves, movegen.rs 10-27 *)
Definition legal_moves (pos : position o) : option (list move) :=
  let p := p_inner o pos in
  let* st := pos_state o pos in
  let ai := s_attack_info o st in
  let* ms := if negb (bis_empty o (ai_checkers o ai))
             then generate_evasions p ai else generate_all p ai in
  let* av := push_all ms in
  filter_loop (length av) (is_legal p ai) 0 av.

End Movegen.
