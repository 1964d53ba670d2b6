(** * src/position.rs on arrays

    [Position.v] keeps the arrays of a position as maps from squares, colours and
    piece kinds, which cannot be indexed out of bounds.  Here the fields are
    flat arrays as in the code, indexed by [array_index] with a check, and the
    history is a vector whose last element is the current state.  The functions
    of this file compute those of [Position.v]. *)

From Coq Require Import List Bool NArith ZArith Lia.
From Verif Require Import Types Bitboard Tables Zobrist Position Init Squares.
Import ListNotations.

Section Flat.
Context (o : bbops) (z : ztable) (checks : bool).
Notation BB := (bb o).

(* PartialPosition, position.rs 262-271 *)
Record finner := mkFI {
  f_side : color;
  f_ply : N;
  f_hands : list hand;
  f_board : list (option piece);
  f_player_bb : list BB;
  f_piece_bb : list BB }.

(* AttackInfo, position.rs 348-356 *)
Record finfo := mkFA {
  fa_checkers : BB;
  fa_checkables : list BB;
  fa_pinned : list BB }.

(* State, position.rs 337-346 *)
Record fstate := mkFS {
  fs_keys : key * key;
  fs_captured : option piece;
  fs_last_moved : option piece;
  fs_attack_info : finfo }.

(* Position, position.rs 6-12 *)
Record fposition := mkFP { fp_inner : finner; fp_states : list fstate }.

(** ** PartialPosition *)

(* xor_piece, position.rs 274-280 *)
Definition f_xor_piece (p : finner) (s : square) (x : piece) : option finner :=
  let single := bsingle o s in
  let* pl := arr_upd (f_player_bb p) (color_index (pcolor x)) (fun b => Some (bxor o b single)) in
  let* pk := arr_upd (f_piece_bb p) (kind_index (pkind x)) (fun b => Some (bxor o b single)) in
  Some (mkFI (f_side p) (f_ply p) (f_hands p) (f_board p) pl pk).

(* piece_at, position.rs 281-284 *)
Definition f_piece_at (p : finner) (s : square) : option (option piece) :=
  arr_get (f_board p) (sq_index s).

(* *piece_at_mut(s) = x, position.rs 285-288 *)
Definition f_set_piece_at (p : finner) (s : square) (x : option piece) : option finner :=
  let* b := arr_set (f_board p) (sq_index s) x in
  Some (mkFI (f_side p) (f_ply p) (f_hands p) b (f_player_bb p) (f_piece_bb p)).

(* hand_of_a_player, position.rs 289-292 *)
Definition f_hand (p : finner) (c : color) : option hand := arr_get (f_hands p) (color_index c).

(* *hand_of_a_player_mut(c) = h, position.rs 293-296 *)
Definition f_set_hand (p : finner) (c : color) (h : hand) : option finner :=
  let* hs := arr_set (f_hands p) (color_index c) h in
  Some (mkFI (f_side p) (f_ply p) hs (f_board p) (f_player_bb p) (f_piece_bb p)).

Definition f_set_side (p : finner) (c : color) : finner :=
  mkFI c (f_ply p) (f_hands p) (f_board p) (f_player_bb p) (f_piece_bb p).
Definition f_set_ply (p : finner) (n : N) : finner :=
  mkFI (f_side p) n (f_hands p) (f_board p) (f_player_bb p) (f_piece_bb p).

Definition f_player (p : finner) (c : color) : option BB := arr_get (f_player_bb p) (color_index c).
Definition f_piece (p : finner) (k : kind) : option BB := arr_get (f_piece_bb p) (kind_index k).

(* occupied_bitboard, position.rs 297-300: the indices are literals *)
Definition f_occupied (p : finner) : option BB :=
  let* b := arr_get (f_player_bb p) 0 in
  let* w := arr_get (f_player_bb p) 1 in
  Some (bor o b w).

(* king_position, position.rs 301-306 *)
Definition f_king_position (p : finner) (c : color) : option (option square) :=
  let* b := f_player p c in
  let* k := f_piece p King in
  Some (hd_error (biter o (band o b k))).

(* From<shogi_core::PartialPosition>, position.rs 309-335 *)
Definition f_from (pp : partial) : option finner :=
  let* hands := for_each all_colors (fun c hands => arr_set hands (color_index c) (c_get (pp_hands pp) c))
                  (repeat hand_empty 2) in
  let* r := for_each all_squares (fun sq r =>
      match r with (board, player, kinds) =>
        let piece_at := sa_get (pp_board pp) sq in
        let* board := arr_set board (sq_index sq) piece_at in
        match piece_at with
        | Some p =>
            let* player := arr_upd player (color_index (pcolor p)) (fun b => Some (bor o b (bsingle o sq))) in
            let* kinds := arr_upd kinds (kind_index (pkind p)) (fun b => Some (bor o b (bsingle o sq))) in
            Some (board, player, kinds)
        | None => Some (board, player, kinds)
        end
      end) (repeat None 81, repeat (bempty o) 2, repeat (bempty o) 14) in
  match r with (board, player, kinds) =>
    Some (mkFI (pp_side pp) (pp_ply pp) hands board player kinds)
  end.

(** ** AttackInfo *)

(* position.rs 364-377, the body of the loop over the colours *)
Definition f_pinned_step (p : finner) (occ : BB) (c : color) (pinned : list BB) : option (list BB) :=
  let* k := f_king_position p c in
  match k with
  | Some sq =>
      let* l := f_piece p Lance in
      let* b := f_piece p Bishop in
      let* pb := f_piece p ProBishop in
      let* r := f_piece p Rook in
      let* pr := f_piece p ProRook in
      let* opp := f_player p (flip c) in
      let snipers := band o
        (bor o (bor o (band o (pseudo_attack o Lance sq c) l)
                      (band o (pseudo_attack o Bishop sq c) (bor o b pb)))
               (band o (pseudo_attack o Rook sq c) (bor o r pr))) opp in
      for_each (biter o snipers) (fun sniper pinned =>
        let blockers := band o (BETWEEN_TABLE o sq sniper) occ in
        if (bcount o blockers =? 1)%N
        then arr_upd pinned (color_index c) (fun x => Some (bor o x blockers))
        else Some pinned) pinned
  | None => Some pinned
  end.
(* position.rs 362-378 *)
Definition f_pinned (p : finner) : option (list BB) :=
  let* occ := f_occupied p in
  for_each all_colors (f_pinned_step p occ) [bempty o; bempty o].

(* AttackInfo::new, position.rs 359-411: the array literal in the order of the code *)
Definition f_info_new (checkers : BB) (p : finner) : option finfo :=
  let opp := flip (f_side p) in
  let* occ := f_occupied p in
  let* pinned := f_pinned p in
  let* k := f_king_position p opp in
  match k with
  | Some sq =>
      let ka := ka_attack o sq occ in
      let hi := hi_attack o sq occ in
      let ki := ki_attack o sq opp in
      let gi := gi_attack o sq opp in
      Some (mkFA checkers
        [fu_attack o sq opp; ky_attack o sq opp occ; ke_attack o sq opp; gi; ki; ka; hi; bempty o;
         ki; ki; ki; ki; bor o ka ki; bor o hi gi] pinned)
  | None => Some (mkFA checkers (repeat (bempty o) 14) pinned)
  end.

(* AttackInfo::calculate_checkers, position.rs 412-430 *)
Definition f_checkers (p : finner) : option BB :=
  let c := f_side p in
  let* occ := f_occupied p in
  let* k := f_king_position p c in
  match k with
  | Some sq =>
      let* xP := f_piece p Pawn in
      let* xL := f_piece p Lance in
      let* xN := f_piece p Knight in
      let* xS := f_piece p Silver in
      let* xPR := f_piece p ProRook in
      let* xB := f_piece p Bishop in
      let* xPB := f_piece p ProBishop in
      let* xR := f_piece p Rook in
      let* xG := f_piece p Gold in
      let* xPP := f_piece p ProPawn in
      let* xPL := f_piece p ProLance in
      let* xPN := f_piece p ProKnight in
      let* xPS := f_piece p ProSilver in
      let* opp := f_player p (flip c) in
      Some (band o
       (bor o (bor o (bor o (bor o (bor o (bor o
         (band o (fu_attack o sq c) xP)
         (band o (ky_attack o sq c occ) xL))
         (band o (ke_attack o sq c) xN))
         (band o (gi_attack o sq c) (bor o xS xPR)))
         (band o (ka_attack o sq occ) (bor o xB xPB)))
         (band o (hi_attack o sq occ) (bor o xR xPR)))
         (band o (ki_attack o sq c)
            (bor o (bor o (bor o (bor o (bor o xG xPP) xPL) xPN) xPS) xPB)))
       opp)
  | None => Some (bempty o)
  end.

(* AttackInfo::checkable and pinned, position.rs 435-442 *)
Definition f_checkable (ai : finfo) (k : kind) (s : square) : option bool :=
  let* b := arr_get (fa_checkables ai) (kind_index k) in
  Some (bcontains o b s).
Definition f_pinned_of (ai : finfo) (c : color) : option BB :=
  arr_get (fa_pinned ai) (color_index c).

(** ** Position *)

(* state, position.rs 246-249: states.last().expect(..) *)
Definition f_state (p : fposition) : option fstate := hd_error (rev (fp_states p)).

(* position.rs 18-22 *)
Definition f_board_keys (p : finner) : option key :=
  for_each all_squares (fun s acc =>
    let* x := f_piece_at p s in
    match x with
    | Some x => Some (N.lxor acc (z_board z s x))
    | None => Some acc
    end) KEY_ZERO.

(* position.rs 23-31 *)
Definition f_hand_keys (p : finner) : option key :=
  for_each all_colors (fun c acc =>
    for_each hand_kinds (fun k acc =>
      let* h := f_hand p c in
      match hand_count h k with
      | Some num => hand_keys_loop z c k 0 (N.to_nat num) acc
      | None => Some acc
      end) acc) KEY_ZERO.

(* Position::new, position.rs 15-43 *)
Definition f_new (pp : partial) : option fposition :=
  let* p := f_from pp in
  let* k0 := f_board_keys p in
  let* k1 := f_hand_keys p in
  let* checkers := f_checkers p in
  let* ai := f_info_new checkers p in
  Some (mkFP p [mkFS (k0, k1) None None ai]).

(* is_check_move, position.rs 72-96 *)
Definition f_is_check_move (p : fposition) (m : move) : option bool :=
  let i := fp_inner p in
  match m with
  | Normal from to promote =>
      let* x := f_piece_at i from in
      let* piece := x in
      let pk := pkind piece in
      let pk := if promote then match promote_kind pk with Some k => k | None => pk end else pk in
      let* st := f_state p in
      let* b := f_checkable (fs_attack_info st) pk to in
      if b then Some true
      else
        let c := flip (f_side i) in
        let* pn := f_pinned_of (fs_attack_info st) c in
        if bcontains o pn from then
          let* k := f_king_position i c in
          let* sq := k in
          Some (negb (stays_on_line o sq from to))
        else Some false
  | Drop to piece =>
      let* st := f_state p in
      f_checkable (fs_attack_info st) (pkind piece) to
  end.

(* the capture part of do_move, position.rs 107-121 *)
Definition f_capture (p : finner) (keys : key * key) (c : color) (to : square)
  (captured : option piece) : option (finner * (key * key)) :=
  match captured with
  | Some x =>
      let pk := pkind x in
      let pk := match unpromote_kind pk with Some k => k | None => pk end in
      let* h := f_hand p c in
      let* n := hand_count h pk in
      let* hk := z_hand z c pk n in
      let keys := (N.lxor (fst keys) (z_board z to x), N.lxor (snd keys) hk) in
      let* p := f_xor_piece p to x in
      let* h := f_hand p c in
      let* h := hand_added h pk in
      let* p := f_set_hand p c h in
      Some (p, keys)
  | None => Some (p, keys)
  end.

(* do_move, position.rs 97-175 *)
Definition f_do_move (pos : fposition) (m : move) : option fposition :=
  let p := fp_inner pos in
  let c := f_side p in
  let* is_check := f_is_check_move pos m in
  let* captured := f_piece_at p (move_to m) in
  let* st := f_state pos in
  let keys := fs_keys st in
  let* r :=
    match m with
    | Normal from to promote =>
        let* x := f_piece_at p from in
        let* piece := x in
        let* pk := f_capture p keys c to captured in
        let p := fst pk in
        let keys := snd pk in
        let* target := (if promote then promote_piece piece else Some piece) in
        let* p := f_xor_piece p from piece in
        let* p := f_xor_piece p to target in
        let* p := f_set_piece_at p from None in
        let* p := f_set_piece_at p to (Some target) in
        let p := f_set_side p (flip c) in
        let keys := (N.lxor (N.lxor (fst keys) (z_board z from piece)) (z_board z to target), snd keys) in
        let* checkers := (if is_check then f_checkers p else Some (bempty o)) in
        Some (p, keys, Some piece, checkers)
    | Drop to piece =>
        let* p := f_xor_piece p to piece in
        let* p := f_set_piece_at p to (Some piece) in
        let* h := f_hand p c in
        let* h := hand_removed h (pkind piece) in
        let* p := f_set_hand p c h in
        let p := f_set_side p (flip c) in
        let* h := f_hand p c in
        let* n := hand_count h (pkind piece) in
        let* hk := z_hand z c (pkind piece) n in
        let keys := (N.lxor (fst keys) (z_board z to piece), N.lxor (snd keys) hk) in
        Some (p, keys, Some piece, if is_check then bsingle o to else bempty o)
    end in
  match r with
  | (p, keys, last_moved, checkers) =>
      let* n := incr16 checks (f_ply p) in
      let p := f_set_ply p n in
      let keys := (N.lxor (fst keys) KEY_COLOR, snd keys) in
      let* ai := f_info_new checkers p in
      Some (mkFP p (fp_states pos ++ [mkFS keys captured last_moved ai]))
  end.

(* undo_move, position.rs 176-208 *)
Definition f_undo_move (pos : fposition) (m : move) : option fposition :=
  let p := fp_inner pos in
  let c := flip (f_side p) in
  let* p :=
    match m with
    | Normal from to _ =>
        let* st := f_state pos in
        let* last_moved := fs_last_moved st in
        let captured := fs_captured st in
        let* p :=
          match captured with
          | Some x =>
              let pk := pkind x in
              let pk := match unpromote_kind pk with Some k => k | None => pk end in
              let* p := f_xor_piece p to x in
              let* h := f_hand p c in
              let* h := hand_removed h pk in
              f_set_hand p c h
          | None => Some p
          end in
        let* p := f_xor_piece p from last_moved in
        let* x := f_piece_at p to in
        let* target := x in
        let* p := f_xor_piece p to target in
        let* p := f_set_piece_at p from (Some last_moved) in
        f_set_piece_at p to captured
    | Drop to piece =>
        let* p := f_xor_piece p to piece in
        let* p := f_set_piece_at p to None in
        let* h := f_hand p c in
        let* h := hand_added h (pkind piece) in
        f_set_hand p c h
    end in
  let p := f_set_side p c in
  let* n := decr16 checks (f_ply p) in
  Some (mkFP (f_set_ply p n) (removelast (fp_states pos))).

(** ** The arrays of a position of [Position.v] *)

Definition enc_c {A} (v : carr A) : list A := map (c_get v) all_colors.
Definition enc_k {A} (v : karr A) : list A := map (k_get v) all_kinds.
Definition enc_sq {A} (v : sqarr A) : list A := map (sa_get v) all_squares.
Definition enc_inner (p : inner o) : finner :=
  mkFI (i_side o p) (i_ply o p) (enc_c (i_hands o p)) (enc_sq (i_board o p))
       (enc_c (i_player_bb o p)) (enc_k (i_piece_bb o p)).
Definition enc_info (a : attack_info o) : finfo :=
  mkFA (ai_checkers o a) (enc_k (ai_checkables o a)) (enc_c (ai_pinned o a)).
Definition enc_state (s : state o) : fstate :=
  mkFS (s_keys o s) (s_captured o s) (s_last_moved o s) (enc_info (s_attack_info o s)).
Definition enc (p : position o) : fposition :=
  mkFP (enc_inner (p_inner o p)) (rev (map enc_state (p_states o p))).

Lemma enc_c_get {A} (v : carr A) c : arr_get (enc_c v) (color_index c) = Some (c_get v c).
Proof. destruct c; reflexivity. Qed.
Lemma enc_c_set {A} (v : carr A) c x : arr_set (enc_c v) (color_index c) x = Some (enc_c (c_set v c x)).
Proof. destruct c; reflexivity. Qed.
Lemma enc_k_get {A} (v : karr A) k : arr_get (enc_k v) (kind_index k) = Some (k_get v k).
Proof. destruct k; reflexivity. Qed.
Lemma enc_k_set {A} (v : karr A) k x : arr_set (enc_k v) (kind_index k) x = Some (enc_k (k_set v k x)).
Proof. destruct v, k; reflexivity. Qed.
Lemma enc_sq_get {A} (v : sqarr A) s : arr_get (enc_sq v) (sq_index s) = Some (sa_get v s).
Proof. destruct s as [[] []]; reflexivity. Qed.
Lemma enc_sq_set {A} (v : sqarr A) s x : arr_set (enc_sq v) (sq_index s) x = Some (enc_sq (sa_set v s x)).
Proof. destruct v as [[] [] [] [] [] [] [] [] []], s as [[] []]; reflexivity. Qed.

Lemma upd_c {A} (v : carr A) c (g : A -> A) :
  arr_upd (enc_c v) (color_index c) (fun x => Some (g x)) = Some (enc_c (c_set v c (g (c_get v c)))).
Proof. unfold arr_upd. rewrite enc_c_get. cbn [bind]. apply enc_c_set. Qed.
Lemma upd_k {A} (v : karr A) k (g : A -> A) :
  arr_upd (enc_k v) (kind_index k) (fun x => Some (g x)) = Some (enc_k (k_set v k (g (k_get v k)))).
Proof. unfold arr_upd. rewrite enc_k_get. cbn [bind]. apply enc_k_set. Qed.

Lemma enc_xor p s x : f_xor_piece (enc_inner p) s x = Some (enc_inner (xor_piece o p s x)).
Proof.
  unfold f_xor_piece. cbn [enc_inner f_player_bb f_piece_bb].
  rewrite (upd_c _ _ (fun b => bxor o b (bsingle o s))). cbn [bind].
  rewrite (upd_k _ _ (fun b => bxor o b (bsingle o s))). reflexivity.
Qed.
Lemma enc_at p s : f_piece_at (enc_inner p) s = Some (i_piece_at o p s).
Proof. apply enc_sq_get. Qed.
Lemma enc_set_at p s x : f_set_piece_at (enc_inner p) s x = Some (enc_inner (set_piece_at o p s x)).
Proof. unfold f_set_piece_at. cbn [enc_inner f_board]. rewrite enc_sq_set. reflexivity. Qed.
Lemma enc_hand p c : f_hand (enc_inner p) c = Some (i_hand o p c).
Proof. apply enc_c_get. Qed.
Lemma enc_set_hand p c h : f_set_hand (enc_inner p) c h = Some (enc_inner (set_hand o p c h)).
Proof. unfold f_set_hand. cbn [enc_inner f_hands]. rewrite enc_c_set. reflexivity. Qed.
Lemma enc_set_side p c : f_set_side (enc_inner p) c = enc_inner (set_side o p c).
Proof. reflexivity. Qed.
Lemma enc_set_ply p n : f_set_ply (enc_inner p) n = enc_inner (set_ply o p n).
Proof. reflexivity. Qed.
Lemma enc_player p c : f_player (enc_inner p) c = Some (player_bb o p c).
Proof. apply enc_c_get. Qed.
Lemma enc_piece p k : f_piece (enc_inner p) k = Some (piece_bb o p k).
Proof. apply enc_k_get. Qed.
Lemma enc_occ p : f_occupied (enc_inner p) = Some (occupied o p).
Proof. reflexivity. Qed.
Lemma enc_king p c : f_king_position (enc_inner p) c = Some (king_position o p c).
Proof. unfold f_king_position. rewrite enc_player, enc_piece. reflexivity. Qed.

Lemma for_each_some {A T U} (e : U -> T) (f : A -> T -> option T) (g : U -> A -> U) :
  (forall x u, f x (e u) = Some (e (g u x))) ->
  forall l u, for_each l f (e u) = Some (e (fold_left g l u)).
Proof.
  intros H. induction l as [|x l IH]; intros u; cbn [for_each fold_left]; [reflexivity|].
  rewrite H. cbn [bind]. apply IH.
Qed.

Lemma enc_pinned_step p c v : c_get v c = bempty o ->
  f_pinned_step (enc_inner p) (occupied o p) c (enc_c v) = Some (enc_c (c_set v c (pinned_for o p c))).
Proof.
  intros E. unfold f_pinned_step. rewrite enc_king. cbn [bind]. unfold pinned_for.
  assert (V : v = c_set v c (bempty o)) by (rewrite <- E; destruct c, v; reflexivity).
  destruct (king_position o p c) as [sq|]; [|rewrite <- V; reflexivity].
  rewrite !enc_piece. cbn [bind]. rewrite enc_player. cbn [bind].
  rewrite V at 1.
  apply (for_each_some (fun x => enc_c (c_set v c x))).
  intros sniper acc. cbv zeta. destruct (_ =? 1)%N; [|reflexivity].
  rewrite (upd_c _ _ (fun x => bor o x (band o (BETWEEN_TABLE o sq sniper) (occupied o p)))).
  destruct c; reflexivity.
Qed.

Lemma enc_pinned p : f_pinned (enc_inner p) = Some (enc_c (C2 (pinned_for o p Black) (pinned_for o p White))).
Proof.
  unfold f_pinned. rewrite enc_occ. cbn [bind].
  change [bempty o; bempty o] with (enc_c (C2 (bempty o) (bempty o))).
  cbn [for_each all_colors]. rewrite enc_pinned_step by reflexivity. cbn [bind].
  rewrite enc_pinned_step by reflexivity. reflexivity.
Qed.

Lemma enc_info_new b p : f_info_new b (enc_inner p) = Some (enc_info (attack_info_new o b p)).
Proof.
  unfold f_info_new. rewrite enc_occ. cbn [bind]. rewrite enc_pinned. cbn [bind]. rewrite enc_king.
  cbn [bind]. unfold attack_info_new, checkables_for. cbn [f_side enc_inner].
  destruct (king_position o p (flip (i_side o p))); reflexivity.
Qed.

Lemma enc_checkers p : f_checkers (enc_inner p) = Some (calculate_checkers o p).
Proof.
  unfold f_checkers. rewrite enc_occ. cbn [bind]. rewrite enc_king. cbn [bind].
  unfold calculate_checkers. cbn [f_side enc_inner].
  change (mkFI _ _ _ _ _ _) with (enc_inner p).
  destruct (king_position o p (i_side o p)); [|reflexivity].
  rewrite !enc_piece. cbn [bind]. rewrite enc_player. reflexivity.
Qed.

Lemma enc_last p : f_state (enc p) = option_map enc_state (pos_state o p).
Proof. unfold f_state, enc, pos_state. cbn [fp_states]. rewrite rev_involutive. now destruct (p_states o p). Qed.

Lemma enc_checkable a k s : f_checkable (enc_info a) k s = Some (ai_checkable o a k s).
Proof. unfold f_checkable. cbn [enc_info fa_checkables]. rewrite enc_k_get. reflexivity. Qed.
Lemma enc_pinned_of a c : f_pinned_of (enc_info a) c = Some (ai_pinned_of o a c).
Proof. apply enc_c_get. Qed.

Lemma enc_is_check p m : f_is_check_move (enc p) m = is_check_move o p m.
Proof.
  unfold f_is_check_move, is_check_move. rewrite enc_last. destruct m as [f t pr|t x]; cbn [fp_inner enc].
  - rewrite enc_at. cbn [bind]. destruct (pos_state o p) as [st|]; cbn [bind option_map].
    2:{ destruct (i_piece_at o (p_inner o p) f); reflexivity. }
    destruct (i_piece_at o (p_inner o p) f) as [y|]; cbn [bind]; [|reflexivity].
    cbn [fs_attack_info enc_state]. rewrite enc_checkable. cbn [bind].
    destruct (ai_checkable o (s_attack_info o st) _ t); [reflexivity|].
    rewrite enc_pinned_of. cbn [bind f_side enc_inner].
    destruct (bcontains o _ f); [|reflexivity].
    change (mkFI _ _ _ _ _ _) with (enc_inner (p_inner o p)). rewrite enc_king. reflexivity.
  - destruct (pos_state o p) as [st|]; cbn [bind option_map]; [|reflexivity]. apply enc_checkable.
Qed.

Lemma enc_capture p keys c to cap : f_capture (enc_inner p) keys c to cap =
  option_map (fun r => (enc_inner (fst r), snd r)) (do_capture o z p keys c to cap).
Proof.
  unfold f_capture, do_capture. destruct cap as [x|]; [|reflexivity].
  rewrite enc_hand. cbn [bind]. destruct (hand_count _ _) as [n|]; cbn [bind]; [|reflexivity].
  destruct (z_hand z c _ n) as [hk|]; cbn [bind]; [|reflexivity].
  rewrite enc_xor. cbn [bind]. rewrite enc_hand. cbn [bind].
  destruct (hand_added _ _) as [h|]; cbn [bind]; [|reflexivity].
  rewrite enc_set_hand. reflexivity.
Qed.

Lemma enc_push p i s : mkFP (enc_inner i) (fp_states (enc p) ++ [enc_state s]) =
  enc (mkPos o i (s :: p_states o p)).
Proof. reflexivity. Qed.

(** do_move on the arrays is do_move: in particular no index is out of bounds. *)
Theorem enc_do_move p m : f_do_move (enc p) m = option_map enc (do_move o z checks p m).
Proof.
  unfold f_do_move, do_move. rewrite enc_is_check.
  destruct (is_check_move o p m) as [ic|]; cbn [bind]; [|reflexivity].
  cbn [fp_inner enc]. rewrite enc_at. cbn [bind]. rewrite enc_last.
  destruct (pos_state o p) as [st|]; cbn [bind option_map]; [|reflexivity].
  cbn [f_side enc_inner fs_keys enc_state]. change (mkFI _ _ _ _ _ _) with (enc_inner (p_inner o p)).
  destruct m as [f t pr|t x]; cbn [move_to].
  - rewrite enc_at. cbn [bind]. destruct (i_piece_at o (p_inner o p) f) as [y|]; cbn [bind]; [|reflexivity].
    rewrite enc_capture. destruct (do_capture o z _ _ _ _ _) as [[q ks]|]; cbn [bind option_map fst snd]; [|reflexivity].
    destruct (if pr then promote_piece y else Some y) as [y'|]; cbn [bind]; [|reflexivity].
    rewrite enc_xor. cbn [bind]. rewrite enc_xor. cbn [bind]. rewrite enc_set_at. cbn [bind].
    rewrite enc_set_at. cbn [bind]. rewrite enc_set_side.
    replace (if ic then f_checkers _ else Some (bempty o)) with
      (Some (if ic then calculate_checkers o (set_side o
        (set_piece_at o (set_piece_at o (xor_piece o (xor_piece o q f y) t y') f None) t (Some y'))
        (flip (i_side o (p_inner o p)))) else bempty o)) by (destruct ic; [rewrite enc_checkers|]; reflexivity).
    cbn [bind]. cbn [f_ply enc_inner]. change (mkFI _ _ _ _ _ _) with (enc_inner (set_side o
        (set_piece_at o (set_piece_at o (xor_piece o (xor_piece o q f y) t y') f None) t (Some y'))
        (flip (i_side o (p_inner o p))))).
    destruct (incr16 checks _) as [n|]; cbn [bind option_map]; [|reflexivity].
    rewrite enc_set_ply, enc_info_new. cbn [bind]. rewrite <- enc_push. reflexivity.
  - rewrite enc_xor. cbn [bind]. rewrite enc_set_at. cbn [bind]. rewrite enc_hand. cbn [bind].
    destruct (hand_removed _ _) as [h|]; cbn [bind]; [|reflexivity].
    rewrite enc_set_hand. cbn [bind]. rewrite enc_set_side, enc_hand. cbn [bind].
    destruct (hand_count _ _) as [n|]; cbn [bind]; [|reflexivity].
    destruct (z_hand z _ _ n) as [hk|]; cbn [bind]; [|reflexivity].
    match goal with |- context [incr16 checks (f_ply (enc_inner ?q))] =>
      change (f_ply (enc_inner q)) with (i_ply o q) end.
    destruct (incr16 checks _) as [n'|]; cbn [bind option_map]; [|reflexivity].
    rewrite enc_set_ply, enc_info_new. cbn [bind]. rewrite <- enc_push. reflexivity.
Qed.

Lemma removelast_rev {A} (l : list A) : removelast (rev l) = rev (tl l).
Proof. destruct l as [|x l]; [reflexivity|]. cbn [rev tl]. apply removelast_last. Qed.

Lemma enc_pop p i : mkFP (enc_inner i) (removelast (fp_states (enc p))) = enc (mkPos o i (tl (p_states o p))).
Proof. unfold enc. cbn [fp_states p_inner p_states]. rewrite removelast_rev. now destruct (p_states o p). Qed.

Theorem enc_undo_move p m : f_undo_move (enc p) m = option_map enc (undo_move o checks p m).
Proof.
  unfold f_undo_move, undo_move.
  cbn [fp_inner enc f_side enc_inner]. change (mkFI _ _ _ _ _ _) with (enc_inner (p_inner o p)).
  change (mkFP (enc_inner (p_inner o p)) _) with (enc p).
  match goal with |- bind ?a ?f = option_map enc (bind ?b ?g) =>
    assert (E : a = option_map enc_inner b); [|rewrite E; destruct b as [q|]; [|reflexivity]] end.
  - destruct m as [f t pr|t x].
    + rewrite enc_last. destruct (pos_state o p) as [st|]; cbn [bind option_map]; [|reflexivity].
      cbn [fs_last_moved fs_captured enc_state].
      destruct (s_last_moved o st) as [lm|]; cbn [bind]; [|reflexivity].
      match goal with |- bind ?a ?f = option_map enc_inner (bind ?b ?g) =>
        assert (E : a = option_map enc_inner b); [|rewrite E; destruct b as [q|]; [|reflexivity]] end.
      * destruct (s_captured o st) as [y|]; [|reflexivity].
        rewrite enc_xor. cbn [bind]. rewrite enc_hand. cbn [bind].
        destruct (hand_removed _ _) as [h|]; cbn [bind]; [|reflexivity]. apply enc_set_hand.
      * cbn [bind option_map]. rewrite enc_xor. cbn [bind]. rewrite enc_at. cbn [bind].
        destruct (i_piece_at o _ t) as [y|]; cbn [bind]; [|reflexivity].
        rewrite enc_xor. cbn [bind]. rewrite enc_set_at. cbn [bind]. apply enc_set_at.
    + rewrite enc_xor. cbn [bind]. rewrite enc_set_at. cbn [bind]. rewrite enc_hand. cbn [bind].
      destruct (hand_added _ _) as [h|]; cbn [bind]; [|reflexivity]. apply enc_set_hand.
  - cbn [bind option_map]. rewrite enc_set_side. change (f_ply (enc_inner ?q)) with (i_ply o q).
    destruct (decr16 checks _) as [n|]; cbn [bind option_map]; [|reflexivity].
    rewrite enc_set_ply, <- enc_pop. reflexivity.
Qed.

Lemma for_each_fold {A T} (f : A -> T -> option T) l : forall t,
  for_each l f t = fold_left (fun acc x => let* a := acc in f x a) l (Some t).
Proof.
  assert (N : forall l, fold_left (fun acc x => let* a := acc in f x a) l None = None).
  { clear l. induction l as [|x l IH]; [reflexivity|]. exact IH. }
  induction l as [|x l IH]; intros t; cbn [for_each fold_left bind]; [reflexivity|].
  destruct (f x t) as [t'|]; cbn [bind]; [apply IH|]. symmetry. apply N.
Qed.

Lemma for_each_app {A T} (f : A -> T -> option T) l1 l2 : forall t,
  for_each (l1 ++ l2) f t = let* t := for_each l1 f t in for_each l2 f t.
Proof.
  induction l1 as [|x l1 IH]; intros t; cbn [app for_each bind]; [reflexivity|].
  destruct (f x t); cbn [bind]; [apply IH|reflexivity].
Qed.

Lemma for_each_flat {A B T} (g : A -> list B) (f : B -> T -> option T) l : forall t,
  for_each (flat_map g l) f t = for_each l (fun x t => for_each (g x) f t) t.
Proof.
  induction l as [|x l IH]; intros t; cbn [flat_map for_each]; [reflexivity|].
  rewrite for_each_app. destruct (for_each (g x) f t); cbn [bind]; [apply IH|reflexivity].
Qed.

Lemma for_each_map {A B T} (g : A -> B) (f : B -> T -> option T) l : forall t,
  for_each (map g l) f t = for_each l (fun x t => f (g x) t) t.
Proof.
  induction l as [|x l IH]; intros t; cbn [map for_each]; [reflexivity|].
  destruct (f (g x) t); cbn [bind]; [apply IH|reflexivity].
Qed.

Lemma for_each_ext {A T} (f g : A -> T -> option T) : (forall x t, f x t = g x t) ->
  forall l t, for_each l f t = for_each l g t.
Proof.
  intros H. induction l as [|x l IH]; intros t; cbn [for_each]; [reflexivity|].
  rewrite H. destruct (g x t); cbn [bind]; [apply IH|reflexivity].
Qed.

Lemma enc_board_keys p : f_board_keys (enc_inner p) = Some (board_keys o z p).
Proof.
  unfold f_board_keys, board_keys. apply (for_each_some (fun k => k)).
  intros s acc. rewrite enc_at. cbn [bind]. destruct (i_piece_at o p s); reflexivity.
Qed.

Lemma enc_hand_keys p : f_hand_keys (enc_inner p) = hand_keys o z p.
Proof.
  unfold f_hand_keys, hand_keys.
  rewrite <- (for_each_fold (fun ck a =>
    match hand_count (i_hand o p (fst ck)) (snd ck) with
    | Some num => hand_keys_loop z (fst ck) (snd ck) 0 (N.to_nat num) a
    | None => Some a
    end)).
  rewrite for_each_flat. apply for_each_ext. intros c t. rewrite for_each_map.
  apply for_each_ext. intros k t'. rewrite enc_hand. reflexivity.
Qed.

Lemma sa_copy {A} (v w : sqarr A) : fold_left (fun b s => sa_set b s (sa_get v s)) all_squares w = v.
Proof.
  assert (H : forall l w s, In s l \/ sa_get w s = sa_get v s ->
    sa_get (fold_left (fun b s => sa_set b s (sa_get v s)) l w) s = sa_get v s).
  { induction l as [|x l IH]; intros u s H; cbn [fold_left]; [destruct H as [[]|H]; exact H|].
    apply IH. rewrite sa_get_set. destruct (sq_eqb_spec s x) as [->|N]; [right; reflexivity|].
    destruct H as [[H|H]|H]; [congruence|left; exact H|right; exact H]. }
  apply sa_ext. intros s. apply H. left. apply all_squares_in.
Qed.

Lemma enc_from pp : f_from pp = Some (enc_inner (inner_of_partial o pp)).
Proof.
  unfold f_from.
  replace (for_each all_colors _ (repeat hand_empty 2)) with (Some (enc_c (pp_hands pp))) by reflexivity.
  cbn [bind].
  set (e := fun u : sqarr (option piece) * (carr BB * karr BB) =>
    (enc_sq (fst u), enc_c (fst (snd u)), enc_k (snd (snd u)))).
  change (repeat None 81, repeat (bempty o) 2, repeat (bempty o) 14) with
    (e (sa_make (fun _ => None), (C2 (bempty o) (bempty o), k_const (bempty o)))).
  rewrite (for_each_some e _ (fun u s => (sa_set (fst u) s (sa_get (pp_board pp) s), add_square o pp (snd u) s))).
  - cbn [bind].
    assert (F : forall l u v, fold_left (fun (u : sqarr (option piece) * (carr BB * karr BB)) s =>
        (sa_set (fst u) s (sa_get (pp_board pp) s), add_square o pp (snd u) s)) l (u, v) =
      (fold_left (fun b s => sa_set b s (sa_get (pp_board pp) s)) l u, fold_left (add_square o pp) l v)).
    { induction l as [|x l IH]; intros u v; cbn [fold_left fst snd]; [reflexivity|]. apply IH. }
    rewrite F, sa_copy. unfold inner_of_partial, e.
    generalize (fold_left (add_square o pp) all_squares (C2 (bempty o) (bempty o), k_const (bempty o))).
    intros [pl ks]. reflexivity.
  - intros s [b [pl ks]]. unfold e. cbn [fst snd]. rewrite enc_sq_set. cbn [bind]. unfold add_square.
    destruct (sa_get (pp_board pp) s) as [x|]; cbn [fst snd]; [|reflexivity].
    rewrite (upd_c _ _ (fun b => bor o b (bsingle o s))). cbn [bind].
    rewrite (upd_k _ _ (fun b => bor o b (bsingle o s))). reflexivity.
Qed.

Theorem enc_new pp : f_new pp = option_map enc (pos_new o z pp).
Proof.
  unfold f_new, pos_new. rewrite enc_from. cbn [bind]. rewrite enc_board_keys. cbn [bind].
  rewrite enc_hand_keys. destruct (hand_keys o z _) as [hk|]; cbn [bind option_map]; [|reflexivity].
  rewrite enc_checkers. cbn [bind]. rewrite enc_info_new. reflexivity.
Qed.

End Flat.
