(** * The crate as it runs: arrays, lazy tables, one move buffer

    src/position.rs and src/movegen.rs once more.  The fields of a position are
    arrays (Flat.v); the tables are the lazy statics (Statics.v), dereferenced
    at each use and indexed with a check; the generators push onto one bounded
    buffer as they go. *)

From Coq Require Import List Bool NArith ZArith Lia.
From Verif Require Import Types Bitboard Tables Zobrist Position Movegen Init Lazy Statics Flat.
Import ListNotations.

Section Source.
Context (o : bbops) (checks : bool).
Notation BB := (bb o).
Notation P := (prog (cty o)).
Notation ret := (PRet (cty o) _).
Notation "'let!' x := e 'in' f" := (pbind (cty o) e (fun x => f))
  (at level 200, x name, e at level 100, f at level 200, right associativity).

(* a read that panics on [None]: an index, or an unwrap *)
Definition ck {A} (x : option A) : P A := plift (cty o) x.

Definition and_ (a b : P BB) : P BB := let! x := a in let! y := b in ret (band o x y).
Definition or_ (a b : P BB) : P BB := let! x := a in let! y := b in ret (bor o x y).
Definition not_ (a : P BB) : P BB := let! x := a in ret (bnot o x).
Infix "&!" := and_ (at level 40, left associativity).
Infix "|!" := or_ (at level 50, left associativity).

(** ** The statics *)

(* ATTACK_TABLE.fu.attack(s, c) and so on *)
Definition s_fu (s : square) (c : color) : P BB :=
  PGet _ _ CAttack (fun t => ck (piece_table_attack o (at_fu o t) s c)).
Definition s_ky (s : square) (c : color) (occ : BB) : P BB :=
  PGet _ _ CAttack (fun t => ck (lance_table_attack o (at_ky o t) s c occ)).
Definition s_ke (s : square) (c : color) : P BB :=
  PGet _ _ CAttack (fun t => ck (piece_table_attack o (at_ke o t) s c)).
Definition s_gi (s : square) (c : color) : P BB :=
  PGet _ _ CAttack (fun t => ck (piece_table_attack o (at_gi o t) s c)).
Definition s_ka (s : square) (occ : BB) : P BB :=
  PGet _ _ CAttack (fun t => ck (sliding_table_attack o (at_ka o t) s occ)).
Definition s_hi (s : square) (occ : BB) : P BB :=
  PGet _ _ CAttack (fun t => ck (sliding_table_attack o (at_hi o t) s occ)).
Definition s_ki (s : square) (c : color) : P BB :=
  PGet _ _ CAttack (fun t => ck (piece_table_attack o (at_ki o t) s c)).
Definition s_ou (s : square) (c : color) : P BB :=
  PGet _ _ CAttack (fun t => ck (piece_table_attack o (at_ou o t) s c)).
Definition s_pseudo (k : kind) (s : square) (c : color) : P BB :=
  PGet _ _ CAttack (fun t => ck (table_pseudo_attack o t k s c)).
(* BETWEEN_TABLE[s][t], RELATIVE_RANKS[s][c], PROMOTABLE[s][c], FILES[f] *)
Definition s_between (s t : square) : P BB :=
  PGet _ _ CBetween (fun tb => ck (between_table_get o tb s t)).
Definition s_rank (s : square) (c : color) : P Z :=
  PGet _ _ CRanks (fun t => ck (by_square_color t s c)).
Definition s_promotable (s : square) (c : color) : P bool :=
  PGet _ _ CPromotable (fun t => ck (by_square_color t s c)).
Definition s_files (f : i9) : P BB :=
  PGet _ _ CFiles (fun t => ck (arr_get t (Z.to_N (i9Z f)))).
(* ZOBRIST_TABLE.board(s, x), ZOBRIST_TABLE.hand(c, k, n) *)
Definition s_zboard (s : square) (x : piece) : P key :=
  PGet _ _ CZobrist (fun t => ck (za_board_get t s x)).
Definition s_zhand (c : color) (k : kind) (n : N) : P key :=
  PGet _ _ CZobrist (fun t => ck (za_hand_get t c k n)).

(* BETWEEN_TABLE[k][f].contains(t) || BETWEEN_TABLE[k][t].contains(f) *)
Definition s_stays (king from to : square) : P bool :=
  let! a := s_between king from in
  if bcontains o a to then ret true
  else let! b := s_between king to in ret (bcontains o b from).

(** ** src/position.rs *)
Notation finner := (finner o).
Notation fposition := (fposition o).
Notation piece_ p k := (ck (f_piece o p k)).
Notation player_ p c := (ck (f_player o p c)).

(* AttackInfo::new, the loop over the colours, position.rs 363-378 *)
Definition s_pinned_step (p : finner) (occ : BB) (c : color) (pinned : list BB) : P (list BB) :=
  let! k := ck (f_king_position o p c) in
  match k with
  | Some sq =>
      let! snipers :=
        (  (s_pseudo Lance sq c &! piece_ p Lance)
        |! (s_pseudo Bishop sq c &! (piece_ p Bishop |! piece_ p ProBishop))
        |! (s_pseudo Rook sq c &! (piece_ p Rook |! piece_ p ProRook))) &! player_ p (flip c) in
      pfor _ (biter o snipers) (fun sniper pinned =>
        let! b := s_between sq sniper in
        let blockers := band o b occ in
        if (bcount o blockers =? 1)%N
        then ck (arr_upd pinned (color_index c) (fun x => Some (bor o x blockers)))
        else ret pinned) pinned
  | None => ret pinned
  end.

(* AttackInfo::new, position.rs 359-411 *)
Definition s_info_new (checkers : BB) (p : finner) : P (finfo o) :=
  let opp := flip (f_side o p) in
  let! occ := ck (f_occupied o p) in
  let! pinned := pfor _ all_colors (s_pinned_step p occ) [bempty o; bempty o] in
  let! k := ck (f_king_position o p opp) in
  match k with
  | Some sq =>
      let! ka := s_ka sq occ in
      let! hi := s_hi sq occ in
      let! ki := s_ki sq opp in
      let! gi := s_gi sq opp in
      let! fu := s_fu sq opp in
      let! ky := s_ky sq opp occ in
      let! ke := s_ke sq opp in
      ret (mkFA o checkers
        [fu; ky; ke; gi; ki; ka; hi; bempty o; ki; ki; ki; ki; bor o ka ki; bor o hi gi] pinned)
  | None => ret (mkFA o checkers (repeat (bempty o) 14) pinned)
  end.

(* AttackInfo::calculate_checkers, position.rs 412-430 *)
Definition s_checkers_of (p : finner) : P BB :=
  let c := f_side o p in
  let! occ := ck (f_occupied o p) in
  let! k := ck (f_king_position o p c) in
  match k with
  | Some sq =>
      (  (s_fu sq c &! piece_ p Pawn)
      |! (s_ky sq c occ &! piece_ p Lance)
      |! (s_ke sq c &! piece_ p Knight)
      |! (s_gi sq c &! (piece_ p Silver |! piece_ p ProRook))
      |! (s_ka sq occ &! (piece_ p Bishop |! piece_ p ProBishop))
      |! (s_hi sq occ &! (piece_ p Rook |! piece_ p ProRook))
      |! (s_ki sq c &! (piece_ p Gold |! piece_ p ProPawn |! piece_ p ProLance |! piece_ p ProKnight
                        |! piece_ p ProSilver |! piece_ p ProBishop)))
      &! player_ p (flip c)
  | None => ret (bempty o)
  end.

(* Position::new, position.rs 15-43 *)
Fixpoint s_hand_loop (c : color) (k : kind) (i : N) (n : nat) (acc : key) : P key :=
  match n with
  | O => ret acc
  | S n => let! h := s_zhand c k i in s_hand_loop c k (i + 1)%N n (N.lxor acc h)
  end.
Definition s_new (pp : partial) : P fposition :=
  let! p := ck (f_from o pp) in
  let! k0 := pfor _ all_squares (fun s acc =>
      let! x := ck (f_piece_at o p s) in
      match x with
      | Some x => let! h := s_zboard s x in ret (N.lxor acc h)
      | None => ret acc
      end) KEY_ZERO in
  let! k1 := pfor _ all_colors (fun c acc =>
      pfor _ hand_kinds (fun k acc =>
        let! h := ck (f_hand o p c) in
        match hand_count h k with
        | Some num => s_hand_loop c k 0 (N.to_nat num) acc
        | None => ret acc
        end) acc) KEY_ZERO in
  let! checkers := s_checkers_of p in
  let! ai := s_info_new checkers p in
  ret (mkFP o p [mkFS o (k0, k1) None None ai]).

(* checkers, pinned, checkable, position.rs 238-253: all through state() *)
Definition s_info (p : fposition) : P (finfo o) :=
  let! st := ck (f_state o p) in ret (fs_attack_info o st).
Definition s_checkers (p : fposition) : P BB := let! ai := s_info p in ret (fa_checkers o ai).
Definition s_pinned (p : fposition) (c : color) : P BB := let! ai := s_info p in ck (f_pinned_of o ai c).
Definition s_checkable (p : fposition) (k : kind) (s : square) : P bool :=
  let! ai := s_info p in ck (f_checkable o ai k s).

(* in_check, position.rs 68-71 *)
Definition s_in_check (p : fposition) : P bool := let! ch := s_checkers p in ret (negb (bis_empty o ch)).

(* is_check_move, position.rs 72-96 *)
Definition s_is_check_move (p : fposition) (m : move) : P bool :=
  match m with
  | Normal from to promote =>
      let! x := ck (f_piece_at o (fp_inner o p) from) in
      let! piece := ck x in
      let pk := pkind piece in
      let pk := if promote then match promote_kind pk with Some k => k | None => pk end else pk in
      let! b := s_checkable p pk to in
      if b then ret true
      else
        let c := flip (f_side o (fp_inner o p)) in
        let! pn := s_pinned p c in
        if bcontains o pn from then
          let! k := ck (f_king_position o (fp_inner o p) c) in
          let! sq := ck k in
          let! s := s_stays sq from to in
          ret (negb s)
        else ret false
  | Drop to piece => s_checkable p (pkind piece) to
  end.

(* do_move, position.rs 97-175 *)
Definition s_do_move (pos : fposition) (m : move) : P fposition :=
  let p := fp_inner o pos in
  let c := f_side o p in
  let! is_check := s_is_check_move pos m in
  let! captured := ck (f_piece_at o p (move_to m)) in
  let! st := ck (f_state o pos) in
  let keys := fs_keys o st in
  let! r :=
    match m with
    | Normal from to promote =>
        let! x := ck (f_piece_at o p from) in
        let! piece := ck x in
        let! pk :=
          match captured with
          | Some x =>
              let pk := pkind x in
              let pk := match unpromote_kind pk with Some k => k | None => pk end in
              let! zb := s_zboard to x in
              let! h := ck (f_hand o p c) in
              let! n := ck (hand_count h pk) in
              let! hk := s_zhand c pk n in
              let keys := (N.lxor (fst keys) zb, N.lxor (snd keys) hk) in
              let! p := ck (f_xor_piece o p to x) in
              let! h := ck (f_hand o p c) in
              let! h := ck (hand_added h pk) in
              let! p := ck (f_set_hand o p c h) in
              ret (p, keys)
          | None => ret (p, keys)
          end in
        let p := fst pk in
        let keys := snd pk in
        let! target := ck (if promote then promote_piece piece else Some piece) in
        let! p := ck (f_xor_piece o p from piece) in
        let! p := ck (f_xor_piece o p to target) in
        let! p := ck (f_set_piece_at o p from None) in
        let! p := ck (f_set_piece_at o p to (Some target)) in
        let p := f_set_side o p (flip c) in
        let! z1 := s_zboard from piece in
        let! z2 := s_zboard to target in
        let keys := (N.lxor (N.lxor (fst keys) z1) z2, snd keys) in
        let! checkers := (if is_check then s_checkers_of p else ret (bempty o)) in
        ret (p, keys, Some piece, checkers)
    | Drop to piece =>
        let! p := ck (f_xor_piece o p to piece) in
        let! p := ck (f_set_piece_at o p to (Some piece)) in
        let! h := ck (f_hand o p c) in
        let! h := ck (hand_removed h (pkind piece)) in
        let! p := ck (f_set_hand o p c h) in
        let p := f_set_side o p (flip c) in
        let! h := ck (f_hand o p c) in
        let! n := ck (hand_count h (pkind piece)) in
        let! hk := s_zhand c (pkind piece) n in
        let! zb := s_zboard to piece in
        let keys := (N.lxor (fst keys) zb, N.lxor (snd keys) hk) in
        ret (p, keys, Some piece, if is_check then bsingle o to else bempty o)
    end in
  match r with
  | (p, keys, last_moved, checkers) =>
      let! n := ck (incr16 checks (f_ply o p)) in
      let p := f_set_ply o p n in
      let keys := (N.lxor (fst keys) KEY_COLOR, snd keys) in
      let! ai := s_info_new checkers p in
      ret (mkFP o p (fp_states o pos ++ [mkFS o keys captured last_moved ai]))
  end.

(* undo_move, position.rs 176-208, uses no table *)
Definition s_undo_move (pos : fposition) (m : move) : P fposition := ck (f_undo_move o checks pos m).

(** ** src/movegen.rs *)

(* the ArrayVec that the generators push onto *)
Notation buffer := (list move).
Definition push (av : buffer) (m : move) : P buffer := ck (av_push av m).

(* attackers_to, movegen.rs 381-391 *)
Definition s_attackers (p : finner) (c : color) (to : square) (occ : BB) : P BB :=
  let opp := flip c in
  (  (s_fu to opp &! piece_ p Pawn)
  |! (s_ky to opp occ &! piece_ p Lance)
  |! (s_ke to opp &! piece_ p Knight)
  |! (s_gi to opp &! (piece_ p Silver |! piece_ p ProRook |! piece_ p King))
  |! (s_ka to occ &! (piece_ p Bishop |! piece_ p ProBishop))
  |! (s_hi to occ &! (piece_ p Rook |! piece_ p ProRook))
  |! (s_ki to opp &! (piece_ p Gold |! piece_ p ProPawn |! piece_ p ProLance |! piece_ p ProKnight
                      |! piece_ p ProSilver |! piece_ p ProBishop |! piece_ p King)))
  &! player_ p c.

(* attackers_to_except_klp, movegen.rs 394-403 *)
Definition s_attackers_except (p : finner) (c : color) (to : square) : P BB :=
  let opp := flip c in
  let! occ := ck (f_occupied o p) in
  (  (s_ke to opp &! piece_ p Knight)
  |! (s_gi to opp &! (piece_ p Silver |! piece_ p ProRook))
  |! (s_ka to occ &! (piece_ p Bishop |! piece_ p ProBishop))
  |! (s_hi to occ &! (piece_ p Rook |! piece_ p ProRook))
  |! (s_ki to opp &! (piece_ p Gold |! piece_ p ProPawn |! piece_ p ProLance |! piece_ p ProKnight
                      |! piece_ p ProSilver |! piece_ p ProBishop)))
  &! player_ p c.

(* the loop over the escapes, movegen.rs 372-376: it returns at the first safe one *)
Fixpoint s_no_escape (p : finner) (c : color) (occ : BB) (l : list square) : P bool :=
  match l with
  | [] => ret true
  | to :: l =>
      let! a := s_attackers p c to occ in
      if bis_empty o a then ret false else s_no_escape p c occ l
  end.

(* is_pawn_drop_mate, movegen.rs 349-379 *)
Definition s_pawn_drop_mate (pos : fposition) (sq : square) : P bool :=
  let p := fp_inner o pos in
  let c := f_side o p in
  let! occ := ck (f_occupied o p) in
  let! a := s_attackers p c sq occ in
  if bis_empty o a then ret false
  else
    let! cand := s_attackers_except p (flip c) sq in
    let! free := (not_ (s_pinned pos (flip c)) |! s_files (sqf sq)) in
    if negb (bis_empty o (band o cand free)) then ret false
    else
      let! k := ck (f_king_position o p (flip c)) in
      match k with
      | Some king =>
          let single := bsingle o sq in
          let! escape := s_ou king (flip c) &! not_ (player_ p (flip c)) &! ret (bnot o single) in
          let! occ := ck (f_occupied o p) in
          s_no_escape p c (bor o occ single) (biter o escape)
      | None => ret true
      end.

(* is_legal, movegen.rs 324-348 *)
Definition s_is_legal (pos : fposition) (m : move) : P bool :=
  let p := fp_inner o pos in
  match move_from m with
  | Some from =>
      let c := f_side o p in
      let! king := ck (arr_get [mkP King Black; mkP King White] (color_index c)) in
      let! x := ck (f_piece_at o p from) in
      let! suicide :=
        if (match x with Some y => piece_eqb y king | None => false end) then
          let! occ := ck (f_occupied o p) in
          let! a := s_attackers p (flip c) (move_to m) occ in
          ret (negb (bis_empty o a))
        else ret false in
      if suicide then ret false
      else
        let! pn := s_pinned pos c in
        if bcontains o pn from then
          let! k := ck (f_king_position o p c) in
          match k with
          | Some sq => s_stays sq from (move_to m)
          | None => ret true
          end
        else ret true
  | None => ret true
  end.

(* the pushes of movegen.rs 95-114, 121-140, 148-167 *)
Definition s_push_forward (c : color) (min_rank : Z) (from to : square) (av : buffer) : P buffer :=
  let! pr := s_promotable to c in
  if pr then
    let! av := push av (Normal from to true) in
    let! r := s_rank to c in
    if (r >? min_rank)%Z then push av (Normal from to false) else ret av
  else push av (Normal from to false).
(* the pushes of movegen.rs 176-187, 196-207, 216-227 *)
Definition s_push_optional (c : color) (opponent_field : bool) (from to : square) (av : buffer) : P buffer :=
  let! av := push av (Normal from to false) in
  let! b := (if opponent_field then ret true else s_promotable to c) in
  if b then push av (Normal from to true) else ret av.

(* generate_for_fu, movegen.rs 87-116: both entries of the array are computed *)
Definition s_gen_fu (p : finner) (target : BB) (av : buffer) : P buffer :=
  let c := f_side o p in
  let! b := piece_ p Pawn &! player_ p Black in
  let! w := piece_ p Pawn &! player_ p White in
  let! r := ck (arr_get [(bshr o b, 1%N); (bshl o w, 255%N)] (color_index c)) in
  pfor _ (biter o (band o (fst r) target)) (fun to av =>
    let from := sq_of_u8 (N.land (sq_index to + 1 + snd r) 255) in
    s_push_forward c 1 from to av) av.

(* generate_for_ky, movegen.rs 117-143 *)
Definition s_gen_ky (p : finner) (target : BB) (av : buffer) : P buffer :=
  let c := f_side o p in
  let! froms := player_ p c &! piece_ p Lance in
  pfor _ (biter o froms) (fun from av =>
    let! occ := ck (f_occupied o p) in
    let! a := s_ky from c occ in
    pfor _ (biter o (band o a target)) (s_push_forward c 1 from) av) av.

(* generate_for_ke, movegen.rs 144-170 *)
Definition s_gen_ke (p : finner) (target : BB) (av : buffer) : P buffer :=
  let c := f_side o p in
  let! froms := player_ p c &! piece_ p Knight in
  pfor _ (biter o froms) (fun from av =>
    let! a := s_ke from c in
    pfor _ (biter o (band o a target)) (s_push_forward c 2 from) av) av.

(* generate_for_gi, movegen.rs 171-190 *)
Definition s_gen_gi (p : finner) (target : BB) (av : buffer) : P buffer :=
  let c := f_side o p in
  let! froms := player_ p c &! piece_ p Silver in
  pfor _ (biter o froms) (fun from av =>
    let! opponent_field := s_promotable from c in
    let! a := s_gi from c in
    pfor _ (biter o (band o a target)) (s_push_optional c opponent_field from) av) av.

(* generate_for_ka, movegen.rs 191-210 *)
Definition s_gen_ka (p : finner) (target : BB) (av : buffer) : P buffer :=
  let c := f_side o p in
  let! froms := player_ p c &! piece_ p Bishop in
  pfor _ (biter o froms) (fun from av =>
    let! opponent_field := s_promotable from c in
    let! occ := ck (f_occupied o p) in
    let! a := s_ka from occ in
    pfor _ (biter o (band o a target)) (s_push_optional c opponent_field from) av) av.

(* generate_for_hi, movegen.rs 211-230 *)
Definition s_gen_hi (p : finner) (target : BB) (av : buffer) : P buffer :=
  let c := f_side o p in
  let! froms := player_ p c &! piece_ p Rook in
  pfor _ (biter o froms) (fun from av =>
    let! opponent_field := s_promotable from c in
    let! occ := ck (f_occupied o p) in
    let! a := s_hi from occ in
    pfor _ (biter o (band o a target)) (s_push_optional c opponent_field from) av) av.

(* generate_for_ki, movegen.rs 231-249 *)
Definition s_gen_ki (p : finner) (target : BB) (av : buffer) : P buffer :=
  let c := f_side o p in
  let! froms := (piece_ p Gold |! piece_ p ProPawn |! piece_ p ProLance |! piece_ p ProKnight
                 |! piece_ p ProSilver) &! player_ p c in
  pfor _ (biter o froms) (fun from av =>
    let! a := s_ki from c in
    pfor _ (biter o (band o a target)) (fun to av => push av (Normal from to false)) av) av.

(* generate_for_ou, movegen.rs 250-261 *)
Definition s_gen_ou (p : finner) (target : BB) (av : buffer) : P buffer :=
  let c := f_side o p in
  let! froms := player_ p c &! piece_ p King in
  pfor _ (biter o froms) (fun from av =>
    let! a := s_ou from c in
    pfor _ (biter o (band o a target)) (fun to av => push av (Normal from to false)) av) av.

(* generate_for_um, movegen.rs 262-276 *)
Definition s_gen_um (p : finner) (target : BB) (av : buffer) : P buffer :=
  let c := f_side o p in
  let! froms := player_ p c &! piece_ p ProBishop in
  pfor _ (biter o froms) (fun from av =>
    let! occ := ck (f_occupied o p) in
    let! a := s_ka from occ |! s_ou from c in
    pfor _ (biter o (band o a target)) (fun to av => push av (Normal from to false)) av) av.

(* generate_for_ry, movegen.rs 277-291 *)
Definition s_gen_ry (p : finner) (target : BB) (av : buffer) : P buffer :=
  let c := f_side o p in
  let! froms := player_ p c &! piece_ p ProRook in
  pfor _ (biter o froms) (fun from av =>
    let! occ := ck (f_occupied o p) in
    let! a := s_hi from occ |! s_ou from c in
    pfor _ (biter o (band o a target)) (fun to av => push av (Normal from to false)) av) av.

(* the target of pawn drops, movegen.rs 297-307 *)
Definition s_pawn_target (pos : fposition) (target : BB) : P BB :=
  let p := fp_inner o pos in
  let c := f_side o p in
  let! own := player_ p c &! piece_ p Pawn in
  let! vac := ck (bvacant o own) in
  let target := band o target vac in
  let! k := ck (f_king_position o p (flip c)) in
  match k with
  | Some sq =>
      let! a := s_fu sq (flip c) in
      match hd_error (biter o a) with
      | Some to =>
          if bcontains o target to then
            let! mate := s_pawn_drop_mate pos to in
            ret (if mate then band o target (bnot o (bsingle o to)) else target)
          else ret target
      | None => ret target
      end
  | None => ret target
  end.

(* generate_drop, movegen.rs 292-322 *)
Definition s_drop_ok (c : color) (k : kind) (to : square) : P bool :=
  match k with
  | Pawn | Lance => let! r := s_rank to c in ret (r >? 1)%Z
  | Knight => let! r := s_rank to c in ret (r >? 2)%Z
  | _ => ret true
  end.
Definition s_gen_drop (pos : fposition) (target : BB) (av : buffer) : P buffer :=
  let p := fp_inner o pos in
  let c := f_side o p in
  let! hand := ck (f_hand o p c) in
  pfor _ (filter (fun k => (0 <? match hand_count hand k with Some n => n | None => 0 end)%N) hand_kinds)
    (fun k av =>
      let! target := (if kind_eqb k Pawn then s_pawn_target pos target else ret target) in
      pfor _ (biter o target) (fun to av =>
        let! ok := s_drop_ok c k to in
        if ok then push av (Drop to (mkP k c)) else ret av) av) av.

(* generate_all, movegen.rs 29-42 *)
Definition s_generate_all (pos : fposition) (av : buffer) : P buffer :=
  let p := fp_inner o pos in
  let! target := not_ (player_ p (f_side o p)) in
  let! av := s_gen_fu p target av in
  let! av := s_gen_ky p target av in
  let! av := s_gen_ke p target av in
  let! av := s_gen_gi p target av in
  let! av := s_gen_ka p target av in
  let! av := s_gen_hi p target av in
  let! av := s_gen_ki p target av in
  let! av := s_gen_ou p target av in
  let! av := s_gen_um p target av in
  let! av := s_gen_ry p target av in
  let! empty := not_ (ck (f_occupied o p)) &! ret (bnot o (bempty o)) in
  s_gen_drop pos empty av.

(* generate_evasions, movegen.rs 44-86 *)
Definition s_generate_evasions (pos : fposition) (av : buffer) : P buffer :=
  let p := fp_inner o pos in
  let c := f_side o p in
  let! k := ck (f_king_position o p c) in
  let! king := ck k in
  let! chs := s_checkers pos in
  let! r := pfor _ (biter o chs) (fun ch acc =>
      let! x := ck (f_piece_at o p ch) in
      let! y := ck x in
      let pk := pkind y in
      let! a :=
        if kind_eqb pk ProRook && negb (i9_eqb (sqf ch) (sqf king)) && negb (i9_eqb (sqr ch) (sqr king))
        then (let! occ := ck (f_occupied o p) in s_hi ch occ)
        else s_pseudo pk ch (flip c) in
      ret (bor o (fst acc) a, S (snd acc))) (bempty o, 0%nat) in
  let! escape := s_ou king c &! not_ (player_ p c) &! ret (bnot o (fst r)) in
  let! av := pfor _ (biter o escape) (fun to av => push av (Normal king to false)) av in
  if Nat.ltb 1 (snd r) then ret av
  else
    let! chs := s_checkers pos in
    let! ch := ck (hd_error (biter o chs)) in
    let! target_drop := s_between ch king in
    let! target_move := ret target_drop |! s_checkers pos in
    let! av := s_gen_fu p target_move av in
    let! av := s_gen_ky p target_move av in
    let! av := s_gen_ke p target_move av in
    let! av := s_gen_gi p target_move av in
    let! av := s_gen_ka p target_move av in
    let! av := s_gen_hi p target_move av in
    let! av := s_gen_ki p target_move av in
    let! av := s_gen_um p target_move av in
    let! av := s_gen_ry p target_move av in
    if negb (bis_empty o target_drop) then s_gen_drop pos target_drop av else ret av.

(* the loop of legal_moves, movegen.rs 18-25; [fuel] bounds the iterations *)
Fixpoint s_filter (fuel : nat) (pos : fposition) (i : nat) (av : buffer) : P buffer :=
  if Nat.eqb i (length av) then ret av
  else match fuel with
       | O => PPanic _ _
       | S fuel =>
           let! m := ck (nth_error av i) in
           let! b := s_is_legal pos m in
           if b then s_filter fuel pos (S i) av
           else let! av := ck (swap_remove i av) in s_filter fuel pos i av
       end.

(* legal_moves, movegen.rs 10-27 *)
Definition s_legal_moves (pos : fposition) : P buffer :=
  let! ic := s_in_check pos in
  let! av := (if ic then s_generate_evasions pos [] else s_generate_all pos []) in
  s_filter (length av) pos 0 av.
End Source.
