(** * do_move and undo_move statement by statement

    [Position.do_move] and [Position.undo_move] are functions that give no position when
    the code panics. Here the same code is a program on a mutable position, so
    that what a panic leaves behind can be stated. *)

From Coq Require Import List Bool NArith ZArith.
From Verif Require Import Types Bitboard Tables Zobrist Position.
Import ListNotations.

Section Imper.
Context (o : bbops) (z : ztable) (checks : bool).

(* a program: the position afterwards, and the value unless it panicked *)
Definition prog (A : Type) : Type := position o -> position o * option A.
Definition pret {A} (a : A) : prog A := fun p => (p, Some a).
Definition pbind {A B} (m : prog A) (k : A -> prog B) : prog B := fun p =>
  match m p with
  | (q, Some a) => k a q
  | (q, None) => (q, None)
  end.
(* an expression that reads the position and may panic *)
Definition pread {A} (f : position o -> option A) : prog A := fun p => (p, f p).
(* an assignment to a part of self.inner *)
Definition pmod (f : inner o -> inner o) : prog unit := fun p =>
  (mkPos o (f (p_inner o p)) (p_states o p), Some tt).
(* an expression without self: unwrap, expect, indexing, checked arithmetic *)
Definition popt {A} (a : option A) : prog A := fun p => (p, a).
(* self.states.push, self.states.pop *)
Definition ppush (f : inner o -> state o) : prog unit := fun p =>
  (mkPos o (p_inner o p) (f (p_inner o p) :: p_states o p), Some tt).
Definition ppop : prog unit := fun p => (mkPos o (p_inner o p) (tl (p_states o p)), Some tt).

Notation "'do*' x := m 'in' k" := (pbind m (fun x => k)) (at level 200, x pattern, m at level 100, k at level 200).
Notation "m ';;*' k" := (pbind m (fun _ => k)) (at level 199, right associativity).

Definition of_inner {A} (f : inner o -> A) : position o -> option A := fun p => Some (f (p_inner o p)).

(* the capture part of do_move, position.rs 107-121 *)
Definition capture_prog (c : color) (to : square) (captured : option piece) (keys : key * key) : prog (key * key) :=
  match captured with
  | None => pret keys
  | Some x =>
      let pk := pkind x in
      let pk_unpromoted := match unpromote_kind pk with Some k => k | None => pk end in
      let key0 := N.lxor (fst keys) (z_board z to x) in
      do* n := pread (fun p => hand_count (i_hand o (p_inner o p) c) pk_unpromoted) in
      do* hk := popt (z_hand z c pk_unpromoted n) in
      let key1 := N.lxor (snd keys) hk in
      pmod (fun i => xor_piece o i to x) ;;*
      do* h := pread (fun p => hand_added (i_hand o (p_inner o p) c) pk_unpromoted) in
      pmod (fun i => set_hand o i c h) ;;*
      pret (key0, key1)
  end.

(* do_move, position.rs 97-175 *)
Definition do_prog (m : move) : prog unit :=
  do* c := pread (of_inner (i_side o)) in
  do* is_check := pread (fun p => is_check_move o p m) in
  do* captured := pread (of_inner (fun i => i_piece_at o i (move_to m))) in
  do* st := pread (pos_state o) in
  let keys := s_keys o st in
  do* r :=
    match m with
    | Normal from to promote =>
        do* piece := pread (fun p => i_piece_at o (p_inner o p) from) in
        do* keys := capture_prog c to captured keys in
        do* target_piece := popt (if promote then promote_piece piece else Some piece) in
        pmod (fun i => xor_piece o i from piece) ;;*
        pmod (fun i => xor_piece o i to target_piece) ;;*
        pmod (fun i => set_piece_at o i from None) ;;*
        pmod (fun i => set_piece_at o i to (Some target_piece)) ;;*
        pmod (fun i => set_side o i (flip c)) ;;*
        let keys := (N.lxor (N.lxor (fst keys) (z_board z from piece)) (z_board z to target_piece), snd keys) in
        do* checkers := pread (of_inner (fun i => if is_check then calculate_checkers o i else bempty o)) in
        pret (keys, piece, checkers)
    | Drop to piece =>
        pmod (fun i => xor_piece o i to piece) ;;*
        pmod (fun i => set_piece_at o i to (Some piece)) ;;*
        do* h := pread (fun p => hand_removed (i_hand o (p_inner o p) c) (pkind piece)) in
        pmod (fun i => set_hand o i c h) ;;*
        pmod (fun i => set_side o i (flip c)) ;;*
        do* n := pread (fun p => hand_count (i_hand o (p_inner o p) c) (pkind piece)) in
        do* hk := popt (z_hand z c (pkind piece) n) in
        let keys := (N.lxor (fst keys) (z_board z to piece), N.lxor (snd keys) hk) in
        do* checkers := pret (if is_check then bsingle o to else bempty o) in
        pret (keys, piece, checkers)
    end in
  match r with
  | (keys, last_moved, checkers) =>
      do* n := pread (fun p => incr16 checks (i_ply o (p_inner o p))) in
      pmod (fun i => set_ply o i n) ;;*
      ppush (fun i => mkS o (N.lxor (fst keys) KEY_COLOR, snd keys) captured (Some last_moved)
                          (attack_info_new o checkers i))
  end.

(* undo_move, position.rs 176-208 *)
Definition undo_prog (m : move) : prog unit :=
  do* c := pread (of_inner (fun i => flip (i_side o i))) in
  match m with
  | Normal from to _ =>
      do* st := pread (pos_state o) in
      do* last_moved := popt (s_last_moved o st) in
      let captured := s_captured o st in
      match captured with
      | Some x =>
          let pk := pkind x in
          let pk_unpromoted := match unpromote_kind pk with Some k => k | None => pk end in
          pmod (fun i => xor_piece o i to x) ;;*
          do* h := pread (fun p => hand_removed (i_hand o (p_inner o p) c) pk_unpromoted) in
          pmod (fun i => set_hand o i c h)
      | None => pret tt
      end ;;*
      pmod (fun i => xor_piece o i from last_moved) ;;*
      do* target := pread (fun p => i_piece_at o (p_inner o p) to) in
      pmod (fun i => xor_piece o i to target) ;;*
      pmod (fun i => set_piece_at o i from (Some last_moved)) ;;*
      pmod (fun i => set_piece_at o i to captured)
  | Drop to piece =>
      pmod (fun i => xor_piece o i to piece) ;;*
      pmod (fun i => set_piece_at o i to None) ;;*
      do* h := pread (fun p => hand_added (i_hand o (p_inner o p) c) (pkind piece)) in
      pmod (fun i => set_hand o i c h)
  end ;;*
  pmod (fun i => set_side o i c) ;;*
  do* n := pread (fun p => decr16 checks (i_ply o (p_inner o p))) in
  pmod (fun i => set_ply o i n) ;;*
  ppop.

(* the value of the functions of Position.v: the final position, if any *)
Definition final {A} (r : position o * option A) : option (position o) :=
  match r with (q, Some _) => Some q | (_, None) => None end.

(** ** The programs compute the functions *)

Local Opaque is_check_move attack_info_new calculate_checkers z_hand z_board.

Lemma bind_some {A B} (a : A) (k : A -> option B) : bind (Some a) k = k a.
Proof. reflexivity. Qed.

Ltac run := cbv beta delta [pbind pread pmod popt pret ppush ppop of_inner]; cbn iota beta.

Theorem do_prog_final p m : final (do_prog m p) = do_move o z checks p m.
Proof.
  unfold do_prog, do_move, final. run.
  destruct (is_check_move o p m) as [ic|]; [|reflexivity]. cbn iota beta. rewrite bind_some.
  destruct (pos_state o p) as [st|]; [|reflexivity]. cbn iota beta. rewrite bind_some.
  destruct m as [f t pr|t x]; cbn [move_to].
  - destruct (i_piece_at o (p_inner o p) f) as [y|]; [|reflexivity]. cbn iota beta. rewrite bind_some.
    unfold capture_prog, do_capture.
    destruct (i_piece_at o (p_inner o p) t) as [x|]; run.
    + destruct (hand_count _ _) as [n|]; [|reflexivity]. cbn iota beta. rewrite bind_some.
      destruct (z_hand _ _ _ _) as [hk|]; [|reflexivity]. cbn iota beta. rewrite bind_some. cbn [p_inner].
      destruct (hand_added _ _) as [h|]; [|reflexivity]. cbn iota beta. rewrite !bind_some. cbn [p_inner fst snd].
      destruct (if pr then promote_piece y else Some y) as [tp|]; [|reflexivity]. cbn iota beta. rewrite !bind_some.
      cbn [p_inner p_states]. destruct (incr16 _ _); reflexivity.
    + rewrite bind_some. cbn [fst snd].
      destruct (if pr then promote_piece y else Some y) as [tp|]; [|reflexivity]. cbn iota beta. rewrite !bind_some.
      cbn [p_inner p_states]. destruct (incr16 _ _); reflexivity.
  - cbn [p_inner p_states].
    destruct (hand_removed _ _) as [h|]; [|reflexivity]. cbn iota beta. rewrite !bind_some. cbn [p_inner p_states].
    destruct (hand_count _ _) as [n|]; [|reflexivity]. cbn iota beta. rewrite bind_some.
    destruct (z_hand _ _ _ _) as [hk|]; [|reflexivity]. cbn iota beta. rewrite !bind_some. cbn [p_inner p_states].
    destruct (incr16 _ _); reflexivity.
Qed.

Theorem undo_prog_final p m : final (undo_prog m p) = undo_move o checks p m.
Proof.
  unfold undo_prog, undo_move, final. destruct m as [f t pr|t x]; run.
  - destruct (pos_state o p) as [st|]; [|reflexivity]. cbn iota beta. rewrite bind_some.
    destruct (s_last_moved o st) as [y|]; [|reflexivity]. cbn iota beta. rewrite bind_some.
    destruct (s_captured o st) as [x|]; cbn iota beta; cbn [p_inner p_states].
    + destruct (hand_removed _ _) as [h|]; [|reflexivity]. cbn iota beta. rewrite !bind_some. cbn [p_inner p_states].
      destruct (i_piece_at o _ t) as [tg|]; [|reflexivity]. cbn iota beta. rewrite !bind_some.
      cbn [p_inner p_states]. destruct (decr16 _ _); reflexivity.
    + rewrite bind_some. destruct (i_piece_at o _ t) as [tg|]; [|reflexivity]. cbn iota beta. rewrite !bind_some.
      cbn [p_inner p_states]. destruct (decr16 _ _); reflexivity.
  - cbn [p_inner p_states]. destruct (hand_added _ _) as [h|]; [|reflexivity]. cbn iota beta. rewrite !bind_some.
    cbn [p_inner p_states]. destruct (decr16 _ _); reflexivity.
Qed.

End Imper.
