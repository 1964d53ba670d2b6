(** * The rules of shogi

    The specification against which the move generator is verified.  It is
    written from the rules of the game, over integer board coordinates, and
    uses nothing of the model of yasai (only the plain data types). *)

From Coq Require Import List Bool NArith ZArith.
From Verif Require Import Types.
Import ListNotations.
Open Scope Z_scope.

(** ** How pieces move *)

(* Displacements (file, rank), as seen by Black, who moves towards rank 1. *)
Definition gold_steps : list (Z * Z) :=
  [(0, -1); (-1, -1); (1, -1); (-1, 0); (1, 0); (0, 1)].
Definition diagonals : list (Z * Z) := [(-1, -1); (1, -1); (-1, 1); (1, 1)].
Definition orthogonals : list (Z * Z) := [(0, -1); (0, 1); (-1, 0); (1, 0)].

(* moves of exactly one displacement, jumping allowed (knight) *)
Definition steps (k : kind) : list (Z * Z) :=
  match k with
  | Pawn => [(0, -1)]
  | Knight => [(-1, -2); (1, -2)]
  | Silver => [(0, -1); (-1, -1); (1, -1); (-1, 1); (1, 1)]
  | Gold | ProPawn | ProLance | ProKnight | ProSilver => gold_steps
  | King => orthogonals ++ diagonals
  | ProBishop => orthogonals
  | ProRook => diagonals
  | Lance | Bishop | Rook => []
  end.

(* moves of one or more displacements over empty squares *)
Definition rides (k : kind) : list (Z * Z) :=
  match k with
  | Lance => [(0, -1)]
  | Bishop | ProBishop => diagonals
  | Rook | ProRook => orthogonals
  | _ => []
  end.

Definition orient (c : color) (v : Z * Z) : Z * Z :=
  match c with Black => v | White => (- fst v, - snd v) end.

(* [t] is [s] displaced [n] times by [v] *)
Definition displaced (s : square) (v : Z * Z) (n : Z) (t : square) : Prop :=
  fileZ t = fileZ s + n * fst v /\ rankZ t = rankZ s + n * snd v.

(** ** Positions *)

Definition board := square -> option piece.

Record game := mkG {
  g_board : board;
  g_hand : color -> kind -> N;
  g_side : color }.

(* A piece of kind [k] and colour [c] standing on [s] can go to [t], as far as
   its way of moving and the pieces in between are concerned. *)
Definition reaches (b : board) (c : color) (k : kind) (s t : square) : Prop :=
  (exists v, In v (steps k) /\ displaced s (orient c v) 1 t) \/
  (exists v n, In v (rides k) /\ 1 <= n /\ displaced s (orient c v) n t /\
     forall i u, 0 < i < n -> displaced s (orient c v) i u -> b u = None).

(* some piece of colour [c] attacks [t] *)
Definition attacked (b : board) (c : color) (t : square) : Prop :=
  exists s k, b s = Some (mkP k c) /\ reaches b c k s t.

(* the piece on [s] is of colour [c] and attacks [t] *)
Definition attacks (b : board) (c : color) (s t : square) : Prop :=
  exists k, b s = Some (mkP k c) /\ reaches b c k s t.

(* [u] is strictly between [s] and [t] on a rank, file or diagonal *)
Definition between (s u t : square) : Prop :=
  exists v n i, In v (orthogonals ++ diagonals) /\ 0 < i < n /\
    displaced s v n t /\ displaced s v i u.

Definition in_check (b : board) (c : color) : Prop :=
  exists s, b s = Some (mkP King c) /\ attacked b (flip c) s.

(** ** Moves *)

(* the three far ranks *)
Definition promotion_zone (c : color) (s : square) : Prop :=
  match c with Black => rankZ s <= 3 | White => 7 <= rankZ s end.

(* number of ranks ahead of [s] *)
Definition ranks_ahead (c : color) (s : square) : Z :=
  match c with Black => rankZ s - 1 | White => 9 - rankZ s end.

(* an unpromoted piece could never move again from [s] *)
Definition dead_square (c : color) (k : kind) (s : square) : Prop :=
  match k with
  | Pawn | Lance => ranks_ahead c s < 1
  | Knight => ranks_ahead c s < 2
  | _ => False
  end.

(* A move that obeys everything except king safety and pawn-drop mate. *)
Definition pseudo_legal (g : game) (m : move) : Prop :=
  let b := g_board g in
  let c := g_side g in
  match m with
  | Normal from to promote =>
      exists k, b from = Some (mkP k c) /\
        (forall k', b to <> Some (mkP k' c)) /\
        reaches b c k from to /\
        (if promote
         then promote_kind k <> None /\
              (promotion_zone c from \/ promotion_zone c to)
         else ~ dead_square c k to)
  | Drop to p =>
      pcolor p = c /\
      (0 < g_hand g c (pkind p))%N /\
      b to = None /\
      ~ dead_square c (pkind p) to /\
      (pkind p = Pawn ->
         forall s, b s = Some (mkP Pawn c) -> fileZ s <> fileZ to)
  end.

Definition base_kind (k : kind) : kind :=
  match unpromote_kind k with Some u => u | None => k end.

Definition promoted_kind (k : kind) : kind :=
  match promote_kind k with Some p => p | None => k end.

Definition upd (b : board) (s : square) (x : option piece) : board :=
  fun u => if sq_eqb u s then x else b u.

Definition upd_hand (h : color -> kind -> N) (c : color) (k : kind) (n : N)
  : color -> kind -> N :=
  fun c' k' => if color_eqb c' c && kind_eqb k' k then n else h c' k'.

(* the position after a move *)
Definition play (g : game) (m : move) : game :=
  let b := g_board g in
  let c := g_side g in
  match m with
  | Normal from to promote =>
      let moved :=
        match b from with
        | Some p => Some (mkP (if promote then promoted_kind (pkind p)
                               else pkind p) (pcolor p))
        | None => None
        end in
      mkG (upd (upd b from None) to moved)
          (match b to with
           | Some q => let k := base_kind (pkind q) in
                       upd_hand (g_hand g) c k (g_hand g c k + 1)
           | None => g_hand g
           end)
          (flip c)
  | Drop to p =>
      mkG (upd b to (Some p))
          (upd_hand (g_hand g) c (pkind p) (g_hand g c (pkind p) - 1))
          (flip c)
  end.

(* the side to move is in check and no move gets it out of check *)
Definition checkmated (g : game) : Prop :=
  in_check (g_board g) (g_side g) /\
  forall m, pseudo_legal g m -> in_check (g_board (play g m)) (g_side g).

Definition is_pawn_drop (m : move) : Prop :=
  match m with Drop _ p => pkind p = Pawn | Normal _ _ _ => False end.

Definition legal (g : game) (m : move) : Prop :=
  pseudo_legal g m /\
  ~ in_check (g_board (play g m)) (g_side g) /\
  ~ (is_pawn_drop m /\ checkmated (play g m)).

(** ** Valid positions *)

Record valid (g : game) : Prop := {
  (* at most one king per side *)
  v_king : forall c s t, g_board g s = Some (mkP King c) ->
                         g_board g t = Some (mkP King c) -> s = t;
  (* the side that has just moved is not in check *)
  v_check : ~ in_check (g_board g) (flip (g_side g));
  (* no pawn on its last rank *)
  v_pawn : forall c s, g_board g s = Some (mkP Pawn c) ->
                       ~ dead_square c Pawn s;
  (* no two unpromoted pawns of one side on one file *)
  v_nifu : forall c s t, g_board g s = Some (mkP Pawn c) ->
                         g_board g t = Some (mkP Pawn c) ->
                         fileZ s = fileZ t -> s = t }.

(* less than [valid]: what the list of legal moves depends on *)
Record orderly (g : game) : Prop := {
  (* at most one king per side *)
  o_king : forall c s t, g_board g s = Some (mkP King c) ->
                         g_board g t = Some (mkP King c) -> s = t;
  (* the two kings are not adjacent *)
  o_apart : forall s t, g_board g s = Some (mkP King (g_side g)) ->
                        g_board g t = Some (mkP King (flip (g_side g))) ->
                        ~ reaches (g_board g) (g_side g) King s t;
  (* no pawn of the side to move on its last rank *)
  o_pawn : forall s, g_board g s = Some (mkP Pawn (g_side g)) ->
                     ~ dead_square (g_side g) Pawn s;
  (* if the side to move can drop a pawn: the opponent is not in check, and
     no pawn of the side to move on rank 9 has another on its file *)
  o_drop : (0 < g_hand g (g_side g) Pawn)%N ->
           ~ in_check (g_board g) (flip (g_side g)) /\
           forall s t, g_board g s = Some (mkP Pawn (g_side g)) ->
                       g_board g t = Some (mkP Pawn (g_side g)) ->
                       fileZ s = fileZ t -> rankZ s = 9%Z -> s = t }.

(* how many pieces of base kind [k] there are, on the board and in hand *)
Definition is_base (k : kind) (x : option piece) : bool :=
  match x with Some p => kind_eqb (base_kind (pkind p)) k | None => false end.

Definition material (g : game) (k : kind) : N :=
  (N.of_nat (length (filter (fun s => is_base k (g_board g s)) all_squares))
   + g_hand g Black k + g_hand g White k)%N.

(* the standard set of 40 pieces *)
Definition full_set (k : kind) : N :=
  match k with
  | Pawn => 18 | Lance | Knight | Silver | Gold => 4
  | Bishop | Rook | King => 2
  | _ => 0
  end.

(* all pieces come from one standard set (some may be missing) *)
Definition standard_material (g : game) : Prop :=
  forall k, (material g k <= full_set k)%N.

(** ** Lines of play *)

(* same board, hands and side to move *)
Definition same_game (g h : game) : Prop :=
  (forall s, g_board g s = g_board h s) /\
  (forall c k, g_hand g c k = g_hand h c k) /\
  g_side g = g_side h.

(* a sequence of legal moves *)
Fixpoint legal_line (g : game) (ms : list move) : Prop :=
  match ms with
  | [] => True
  | m :: ms => legal g m /\ legal_line (play g m) ms
  end.

Definition play_line (g : game) (ms : list move) : game :=
  fold_left play ms g.
