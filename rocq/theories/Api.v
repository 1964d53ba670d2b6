(** * The public API, for each build configuration *)

From Coq Require Import List Bool NArith ZArith.
From Verif Require Import Types Rules Bitboard BackendCore BackendSimd Tables
  Zobrist Position Movegen Perft.
Import ListNotations.

(* The cfg_if! of src/bitboard.rs 85-111 chooses one of these modules. *)
Inductive backend := Portable | X86_64 | Aarch64 | Wasm32.

(* A build of the crate: the bitboard module, whether arithmetic overflow
   checks are on (debug profile), and the stream of random numbers that
   filled the Zobrist table. *)
Record config := mkCfg { cf_backend : backend; cf_checks : bool; cf_rng : N -> N }.

Definition ops_of (b : backend) (checks : bool) : bbops :=
  match b with
  | Portable => core_ops checks
  | X86_64 => x86_ops
  | Aarch64 => neon_ops
  | Wasm32 => wasm_ops
  end.

Definition ops (cf : config) : bbops := ops_of (cf_backend cf) (cf_checks cf).
Definition zt (cf : config) : ztable := zobrist_table (cf_rng cf).

(** The methods of [yasai::Position] (src/position.rs 14-208, src/movegen.rs
    9-27) and the search of examples/perft.rs; [None] is a panic. *)
Module Yasai.
Section Api.
Context (cf : config).
Definition Position : Type := position (ops cf).
Definition new : partial -> option Position := pos_new (ops cf) (zt cf).
(* impl Default for Position, position.rs 256-260 *)
Definition default : option Position := new partial_startpos.
Definition side_to_move : Position -> color := side_to_move (ops cf).
Definition ply : Position -> N := ply (ops cf).
Definition hand : Position -> color -> hand := hand_of (ops cf).
Definition piece_at : Position -> square -> option piece := piece_at (ops cf).
Definition key : Position -> option N := pos_key (ops cf).
Definition keys : Position -> option (N * N) := pos_keys (ops cf).
Definition in_check : Position -> option bool := pos_in_check (ops cf).
Definition is_check_move : Position -> move -> option bool :=
  is_check_move (ops cf).
Definition do_move : Position -> move -> option Position :=
  do_move (ops cf) (zt cf) (cf_checks cf).
Definition undo_move : Position -> move -> option Position :=
  undo_move (ops cf) (cf_checks cf).
Definition legal_moves : Position -> option (list move) :=
  legal_moves (ops cf).
Definition perft (depth : nat) : Position -> option (N * Position) :=
  perft (ops cf) (zt cf) (cf_checks cf) depth.
(* of the unit test, position.rs 563-574 *)
Definition test_perft (depth : nat) : Position -> option (N * Position) :=
  test_perft (ops cf) (zt cf) (cf_checks cf) depth.

(* The accessors that only the crate sees, position.rs 209-253; the move
   generator's model reads the same fields directly. *)
Definition Bitboard : Type := bb (ops cf).
Definition contains : Bitboard -> square -> bool := bcontains (ops cf).
Definition player_bitboard (p : Position) (c : color) : Bitboard :=
  player_bb (ops cf) (p_inner (ops cf) p) c.
Definition piece_kind_bitboard (p : Position) (k : kind) : Bitboard :=
  piece_bb (ops cf) (p_inner (ops cf) p) k.
Definition piece_bitboard (p : Position) (x : piece) : Bitboard :=
  band (ops cf) (piece_kind_bitboard p (pkind x)) (player_bitboard p (pcolor x)).
Definition occupied_bitboard (p : Position) : Bitboard :=
  occupied (ops cf) (p_inner (ops cf) p).
Definition king_position (p : Position) (c : color) : option square :=
  king_position (ops cf) (p_inner (ops cf) p) c.
Definition captured (p : Position) : option (option piece) :=
  let* st := pos_state (ops cf) p in Some (s_captured (ops cf) st).
Definition last_moved (p : Position) : option (option piece) :=
  let* st := pos_state (ops cf) p in Some (s_last_moved (ops cf) st).
Definition checkers (p : Position) : option Bitboard :=
  let* st := pos_state (ops cf) p in Some (ai_checkers (ops cf) (s_attack_info (ops cf) st)).
Definition pinned (p : Position) (c : color) : option Bitboard :=
  let* st := pos_state (ops cf) p in Some (ai_pinned_of (ops cf) (s_attack_info (ops cf) st) c).
Definition checkable (p : Position) (k : kind) (s : square) : option bool :=
  let* st := pos_state (ops cf) p in Some (ai_checkable (ops cf) (s_attack_info (ops cf) st) k s).
End Api.
End Yasai.

(** ** What the API shows of a position *)

Definition hand_n (h : hand) (k : kind) : N :=
  match hand_count h k with Some n => n | None => 0%N end.

(* the game position shown by piece_at, hand and side_to_move *)
Definition view (cf : config) (p : Yasai.Position cf) : game :=
  mkG (Yasai.piece_at cf p)
      (fun c k => hand_n (Yasai.hand cf p c) k)
      (Yasai.side_to_move cf p).

(* the game position described by a shogi_core::PartialPosition *)
Definition game_of (pp : partial) : game :=
  mkG (fun s => sa_get (pp_board pp) s)
      (fun c k => hand_n (c_get (pp_hands pp) c) k)
      (pp_side pp).

(** ** Reachable positions *)

(* [reachable cf ms p]: [p] can be obtained from a valid position by legal
   do_move calls and matching undo_move calls; [ms] are the moves done and
   not yet undone, last one first. *)
Inductive reachable (cf : config) : list move -> Yasai.Position cf -> Prop :=
| R_new pp p :
    valid (game_of pp) -> (pp_ply pp <= 65535)%N ->
    Yasai.new cf pp = Some p -> reachable cf [] p
| R_do ms p m q :
    reachable cf ms p -> legal (view cf p) m ->
    Yasai.do_move cf p m = Some q -> reachable cf (m :: ms) q
| R_undo ms p m q :
    reachable cf (m :: ms) p ->
    Yasai.undo_move cf p m = Some q -> reachable cf ms q.

(* the opponent of the side to move has a king on the board *)
Definition opponent_has_king (g : game) : Prop :=
  exists s, g_board g s = Some (mkP King (flip (g_side g))).
