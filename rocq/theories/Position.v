(** * src/position.rs *)

From Coq Require Import List Bool NArith ZArith.
From Verif Require Import Types Bitboard Tables Zobrist.
Import ListNotations.

Section Position.
(* [o]: bitboard backend; [z]: Zobrist table; [checks]: arithmetic overflow
   checks are compiled in (debug build) *)
Context (o : bbops) (z : ztable) (checks : bool).
Notation BB := (bb o).

(* PartialPosition, position.rs 262-271 *)
Record inner := mkI {
  i_side : color;
  i_ply : N;
  i_hands : carr hand;
  i_board : sqarr (option piece);
  i_player_bb : carr BB;
  i_piece_bb : karr BB }.

(* AttackInfo, position.rs 348-356 *)
Record attack_info := mkAI {
  ai_checkers : BB;
  ai_checkables : karr BB;
  ai_pinned : carr BB }.

(* State, position.rs 337-346 *)
Record state := mkS {
  s_keys : key * key;
  s_captured : option piece;
  s_last_moved : option piece;
  s_attack_info : attack_info }.

(* Position, position.rs 6-12; the last element of the Vec is the head *)
Record position := mkPos { p_inner : inner; p_states : list state }.

(** ** PartialPosition *)

(* xor_piece, position.rs 274-280 *)
Definition xor_piece (p : inner) (s : square) (x : piece) : inner :=
  let single := bsingle o s in
  let k := pkind x in
  let c := pcolor x in
  mkI (i_side p) (i_ply p) (i_hands p) (i_board p)
      (c_set (i_player_bb p) c (bxor o (c_get (i_player_bb p) c) single))
      (k_set (i_piece_bb p) k (bxor o (k_get (i_piece_bb p) k) single)).

(* piece_at, position.rs 281-284 *)
Definition i_piece_at (p : inner) (s : square) : option piece :=
  sa_get (i_board p) s.

(* *piece_at_mut(s) = x, position.rs 285-288 *)
Definition set_piece_at (p : inner) (s : square) (x : option piece) : inner :=
  mkI (i_side p) (i_ply p) (i_hands p) (sa_set (i_board p) s x)
      (i_player_bb p) (i_piece_bb p).

(* hand_of_a_player, position.rs 289-292 *)
Definition i_hand (p : inner) (c : color) : hand := c_get (i_hands p) c.

(* *hand_of_a_player_mut(c) = h, position.rs 293-296 *)
Definition set_hand (p : inner) (c : color) (h : hand) : inner :=
  mkI (i_side p) (i_ply p) (c_set (i_hands p) c h) (i_board p)
      (i_player_bb p) (i_piece_bb p).

Definition set_side (p : inner) (c : color) : inner :=
  mkI c (i_ply p) (i_hands p) (i_board p) (i_player_bb p) (i_piece_bb p).

Definition set_ply (p : inner) (n : N) : inner :=
  mkI (i_side p) n (i_hands p) (i_board p) (i_player_bb p) (i_piece_bb p).

Definition player_bb (p : inner) (c : color) : BB := c_get (i_player_bb p) c.
Definition piece_bb (p : inner) (k : kind) : BB := k_get (i_piece_bb p) k.

(* occupied_bitboard, position.rs 297-300 *)
Definition occupied (p : inner) : BB :=
  bor o (player_bb p Black) (player_bb p White).

(* king_position, position.rs 301-306 *)
Definition king_position (p : inner) (c : color) : option square :=
  hd_error (biter o (band o (player_bb p c) (piece_bb p King))).

(* From<shogi_core::PartialPosition>, position.rs 309-335 *)
Definition add_square (pp : partial) (acc : carr BB * karr BB) (s : square)
  : carr BB * karr BB :=
  match sa_get (pp_board pp) s with
  | Some p =>
      (c_set (fst acc) (pcolor p)
         (bor o (c_get (fst acc) (pcolor p)) (bsingle o s)),
       k_set (snd acc) (pkind p)
         (bor o (k_get (snd acc) (pkind p)) (bsingle o s)))
  | None => acc
  end.
Definition inner_of_partial (pp : partial) : inner :=
  let bbs := fold_left (add_square pp) all_squares
               (C2 (bempty o) (bempty o), k_const (bempty o)) in
  mkI (pp_side pp) (pp_ply pp) (pp_hands pp) (pp_board pp)
      (fst bbs) (snd bbs).

(** ** AttackInfo *)

(* the snipers of AttackInfo::new, position.rs 366-370 *)
Definition snipers (p : inner) (c : color) (sq : square) : BB :=
  band o
    (bor o (bor o
      (band o (pseudo_attack o Lance sq c) (piece_bb p Lance))
      (band o (pseudo_attack o Bishop sq c)
              (bor o (piece_bb p Bishop) (piece_bb p ProBishop))))
      (band o (pseudo_attack o Rook sq c)
              (bor o (piece_bb p Rook) (piece_bb p ProRook))))
    (player_bb p (flip c)).

(* position.rs 363-378, for one colour *)
Definition pinned_for (p : inner) (c : color) : BB :=
  let occ := occupied p in
  match king_position p c with
  | Some sq =>
      fold_left (fun acc sniper =>
        let blockers := band o (BETWEEN_TABLE o sq sniper) occ in
        if (bcount o blockers =? 1)%N then bor o acc blockers else acc)
        (biter o (snipers p c sq)) (bempty o)
  | None => bempty o
  end.

(* position.rs 379-410 *)
Definition checkables_for (p : inner) : karr BB :=
  let opp := flip (i_side p) in
  let occ := occupied p in
  match king_position p opp with
  | Some sq =>
      let ka := ka_attack o sq occ in
      let hi := hi_attack o sq occ in
      let ki := ki_attack o sq opp in
      let gi := gi_attack o sq opp in
      K14 (fu_attack o sq opp) (ky_attack o sq opp occ) (ke_attack o sq opp)
          gi ki ka hi (bempty o) ki ki ki ki (bor o ka ki) (bor o hi gi)
  | None => k_const (bempty o)
  end.

(* AttackInfo::new, position.rs 359-411 *)
Definition attack_info_new (checkers : BB) (p : inner) : attack_info :=
  mkAI checkers (checkables_for p) (C2 (pinned_for p Black) (pinned_for p White)).

(* AttackInfo::calculate_checkers, position.rs 412-430 *)
Definition calculate_checkers (p : inner) : BB :=
  let c := i_side p in
  let occ := occupied p in
  match king_position p c with
  | Some sq =>
    band o
     (bor o (bor o (bor o (bor o (bor o (bor o
       (band o (fu_attack o sq c) (piece_bb p Pawn))
       (band o (ky_attack o sq c occ) (piece_bb p Lance)))
       (band o (ke_attack o sq c) (piece_bb p Knight)))
       (band o (gi_attack o sq c)
               (bor o (piece_bb p Silver) (piece_bb p ProRook))))
       (band o (ka_attack o sq occ)
               (bor o (piece_bb p Bishop) (piece_bb p ProBishop))))
       (band o (hi_attack o sq occ)
               (bor o (piece_bb p Rook) (piece_bb p ProRook))))
       (band o (ki_attack o sq c)
               (bor o (bor o (bor o (bor o (bor o (piece_bb p Gold)
                 (piece_bb p ProPawn)) (piece_bb p ProLance))
                 (piece_bb p ProKnight)) (piece_bb p ProSilver))
                 (piece_bb p ProBishop))))
     (player_bb p (flip c))
  | None => bempty o
  end.

(* AttackInfo::checkable, position.rs 439-442 *)
Definition ai_checkable (ai : attack_info) (k : kind) (s : square) : bool :=
  bcontains o (k_get (ai_checkables ai) k) s.
(* AttackInfo::pinned, position.rs 435-438 *)
Definition ai_pinned_of (ai : attack_info) (c : color) : BB :=
  c_get (ai_pinned ai) c.

(** ** Position *)

(* state, position.rs 246-249: panics on an empty history *)
Definition pos_state (p : position) : option state := hd_error (p_states p).

(* the board part of the keys, position.rs 18-22 *)
Definition board_keys (p : inner) : key :=
  fold_left (fun acc s =>
    match i_piece_at p s with
    | Some x => N.lxor acc (z_board z s x)
    | None => acc
    end) all_squares KEY_ZERO.

(* the inner loop of position.rs 26-28: i = 0 .. num-1 *)
Fixpoint hand_keys_loop (c : color) (k : kind) (i : N) (n : nat) (acc : key)
  : option key :=
  match n with
  | O => Some acc
  | S n =>
      let* h := z_hand z c k i in
      hand_keys_loop c k (i + 1)%N n (N.lxor acc h)
  end.

(* position.rs 23-31 *)
Definition hand_keys (p : inner) : option key :=
  fold_left (fun acc ck =>
    let* a := acc in
    match hand_count (i_hand p (fst ck)) (snd ck) with
    | Some num => hand_keys_loop (fst ck) (snd ck) 0 (N.to_nat num) a
    | None => Some a
    end)
    (flat_map (fun c => map (fun k => (c, k)) hand_kinds) all_colors)
    (Some KEY_ZERO).

(* Position::new, position.rs 15-43 *)
Definition pos_new (pp : partial) : option position :=
  let p := inner_of_partial pp in
  let* hk := hand_keys p in
  let checkers := calculate_checkers p in
  Some (mkPos p [mkS (board_keys p, hk) None None
                     (attack_info_new checkers p)]).

(* side_to_move, ply, hand, piece_at; position.rs 44-59 *)
Definition side_to_move (p : position) : color := i_side (p_inner p).
Definition ply (p : position) : N := i_ply (p_inner p).
Definition hand_of (p : position) (c : color) : hand := i_hand (p_inner p) c.
Definition piece_at (p : position) (s : square) : option piece :=
  i_piece_at (p_inner p) s.

(* keys, key; position.rs 60-67 *)
Definition pos_keys (p : position) : option (N * N) :=
  let* st := pos_state p in Some (s_keys st).
Definition pos_key (p : position) : option N :=
  let* st := pos_state p in Some (N.lxor (fst (s_keys st)) (snd (s_keys st))).

(* in_check, position.rs 68-71 *)
Definition pos_in_check (p : position) : option bool :=
  let* st := pos_state p in
  Some (negb (bis_empty o (ai_checkers (s_attack_info st)))).

(* The moving piece stays on the line through the king: position.rs 89-90 and
   movegen.rs 339-340 *)
Definition stays_on_line (king from to : square) : bool :=
  bcontains o (BETWEEN_TABLE o king from) to
  || bcontains o (BETWEEN_TABLE o king to) from.

(* is_check_move, position.rs 72-96 *)
Definition is_check_move (p : position) (m : move) : option bool :=
  let i := p_inner p in
  let* st := pos_state p in
  let ai := s_attack_info st in
  match m with
  | Normal from to promote =>
      let* piece := i_piece_at i from in
      let pk := pkind piece in
      let pk := if promote then
                  match promote_kind pk with Some k => k | None => pk end
                else pk in
      if ai_checkable ai pk to then Some true
      else
        let c := flip (i_side i) in
        if bcontains o (ai_pinned_of ai c) from then
          let* sq := king_position i c in
          Some (negb (stays_on_line sq from to))
        else Some false
  | Drop to piece => Some (ai_checkable ai (pkind piece) to)
  end.

(* u16 increment and decrement *)
Definition incr16 (n : N) : option N :=
  if (n =? 65535)%N then (if checks then None else Some 0%N)
  else Some (n + 1)%N.
Definition decr16 (n : N) : option N :=
  if (n =? 0)%N then (if checks then None else Some 65535%N)
  else Some (n - 1)%N.

(* the capture part of do_move, position.rs 107-121 *)
Definition do_capture (p : inner) (keys : key * key) (c : color) (to : square)
  (captured : option piece) : option (inner * (key * key)) :=
  match captured with
  | Some x =>
      let pk := pkind x in
      let pk_unpromoted :=
        match unpromote_kind pk with Some k => k | None => pk end in
      let* n := hand_count (i_hand p c) pk_unpromoted in
      let* hk := z_hand z c pk_unpromoted n in
      let keys := (N.lxor (fst keys) (z_board z to x),
                   N.lxor (snd keys) hk) in
      let p := xor_piece p to x in
      let* h := hand_added (i_hand p c) pk_unpromoted in
      Some (set_hand p c h, keys)
  | None => Some (p, keys)
  end.

(* do_move, position.rs 97-175 *)
Definition do_move (pos : position) (m : move) : option position :=
  let p := p_inner pos in
  let c := i_side p in
  let* is_check := is_check_move pos m in
  let captured := i_piece_at p (move_to m) in
  let* st := pos_state pos in
  let keys := s_keys st in
  let* r :=
    match m with
    | Normal from to promote =>
        let* piece := i_piece_at p from in
        let* pk := do_capture p keys c to captured in
        let p := fst pk in
        let keys := snd pk in
        let* target_piece :=
          (if promote then promote_piece piece else Some piece) in
        let p := xor_piece p from piece in
        let p := xor_piece p to target_piece in
        let p := set_piece_at p from None in
        let p := set_piece_at p to (Some target_piece) in
        let p := set_side p (flip c) in
        let keys :=
          (N.lxor (N.lxor (fst keys) (z_board z from piece))
                  (z_board z to target_piece), snd keys) in
        let checkers := if is_check then calculate_checkers p else bempty o in
        Some (p, keys, Some piece, checkers)
    | Drop to piece =>
        let p := xor_piece p to piece in
        let p := set_piece_at p to (Some piece) in
        let* h := hand_removed (i_hand p c) (pkind piece) in
        let p := set_hand p c h in
        let p := set_side p (flip c) in
        let* n := hand_count (i_hand p c) (pkind piece) in
        let* hk := z_hand z c (pkind piece) n in
        let keys := (N.lxor (fst keys) (z_board z to piece),
                     N.lxor (snd keys) hk) in
        let checkers := if is_check then bsingle o to else bempty o in
        Some (p, keys, Some piece, checkers)
    end in
  match r with
  | (p, keys, last_moved, checkers) =>
      let* n := incr16 (i_ply p) in
      let p := set_ply p n in
      let keys := (N.lxor (fst keys) KEY_COLOR, snd keys) in
      Some (mkPos p (mkS keys captured last_moved
                         (attack_info_new checkers p) :: p_states pos))
  end.

(* undo_move, position.rs 176-208 *)
Definition undo_move (pos : position) (m : move) : option position :=
  let p := p_inner pos in
  let c := flip (i_side p) in
  let* p :=
    match m with
    | Normal from to _ =>
        let* st := pos_state pos in
        let* last_moved := s_last_moved st in
        let captured := s_captured st in
        let* p :=
          match captured with
          | Some x =>
              let pk := pkind x in
              let pk_unpromoted :=
                match unpromote_kind pk with Some k => k | None => pk end in
              let p := xor_piece p to x in
              let* h := hand_removed (i_hand p c) pk_unpromoted in
              Some (set_hand p c h)
          | None => Some p
          end in
        let p := xor_piece p from last_moved in
        let* target := i_piece_at p to in
        let p := xor_piece p to target in
        let p := set_piece_at p from (Some last_moved) in
        let p := set_piece_at p to captured in
        Some p
    | Drop to piece =>
        let p := xor_piece p to piece in
        let p := set_piece_at p to None in
        let* h := hand_added (i_hand p c) (pkind piece) in
        Some (set_hand p c h)
    end in
  let p := set_side p c in
  let* n := decr16 (i_ply p) in
  Some (mkPos (set_ply p n) (tl (p_states pos))).

End Position.
