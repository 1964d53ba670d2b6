(** * Data types of the external crate [shogi_core] 0.1.4 used by yasai.

    The crate itself is not part of /repo (see Cargo.toml, line 15); this
    file states what yasai relies on.  It is part of the trusted base. *)

From Coq Require Import List Bool NArith ZArith Lia.
Import ListNotations.

(** ** Colours *)

(* shogi_core::Color; [Color::all()] is Black, White; [array_index] 0, 1. *)
Inductive color := Black | White.

Definition flip (c : color) : color :=
  match c with Black => White | White => Black end.

Definition color_eqb (a b : color) : bool :=
  match a, b with Black, Black | White, White => true | _, _ => false end.

Definition all_colors : list color := [Black; White].

(** ** Piece kinds *)

(* shogi_core::PieceKind in declaration order (array_index 0..13); the order
   is the one assumed by the [checkables] array, src/position.rs 386-401. *)
Inductive kind :=
| Pawn | Lance | Knight | Silver | Gold | Bishop | Rook | King
| ProPawn | ProLance | ProKnight | ProSilver | ProBishop | ProRook.

Definition all_kinds : list kind :=
  [Pawn; Lance; Knight; Silver; Gold; Bishop; Rook; King;
   ProPawn; ProLance; ProKnight; ProSilver; ProBishop; ProRook].

(* PieceKind::array_index *)
Definition kind_index (k : kind) : N :=
  match k with
  | Pawn => 0 | Lance => 1 | Knight => 2 | Silver => 3 | Gold => 4
  | Bishop => 5 | Rook => 6 | King => 7 | ProPawn => 8 | ProLance => 9
  | ProKnight => 10 | ProSilver => 11 | ProBishop => 12 | ProRook => 13
  end%N.

Definition kind_eqb (a b : kind) : bool :=
  match a, b with
  | Pawn, Pawn | Lance, Lance | Knight, Knight | Silver, Silver
  | Gold, Gold | Bishop, Bishop | Rook, Rook | King, King
  | ProPawn, ProPawn | ProLance, ProLance | ProKnight, ProKnight
  | ProSilver, ProSilver | ProBishop, ProBishop | ProRook, ProRook => true
  | _, _ => false
  end.

(* PieceKind::promote: None for pieces that cannot promote. *)
Definition promote_kind (k : kind) : option kind :=
  match k with
  | Pawn => Some ProPawn | Lance => Some ProLance | Knight => Some ProKnight
  | Silver => Some ProSilver | Bishop => Some ProBishop | Rook => Some ProRook
  | _ => None
  end.

(* PieceKind::unpromote: None for pieces that are not promoted. *)
Definition unpromote_kind (k : kind) : option kind :=
  match k with
  | ProPawn => Some Pawn | ProLance => Some Lance | ProKnight => Some Knight
  | ProSilver => Some Silver | ProBishop => Some Bishop | ProRook => Some Rook
  | _ => None
  end.

(** ** Pieces *)

(* shogi_core::Piece; [to_parts] gives kind and colour. *)
Record piece := mkP { pkind : kind; pcolor : color }.

Definition piece_eqb (a b : piece) : bool :=
  kind_eqb (pkind a) (pkind b) && color_eqb (pcolor a) (pcolor b).

(* Piece::promote *)
Definition promote_piece (p : piece) : option piece :=
  match promote_kind (pkind p) with
  | Some k => Some (mkP k (pcolor p))
  | None => None
  end.

(** ** Squares *)

Inductive i9 := n1 | n2 | n3 | n4 | n5 | n6 | n7 | n8 | n9.

Definition all9 : list i9 := [n1; n2; n3; n4; n5; n6; n7; n8; n9].

Definition i9Z (i : i9) : Z :=
  match i with
  | n1 => 1 | n2 => 2 | n3 => 3 | n4 => 4 | n5 => 5
  | n6 => 6 | n7 => 7 | n8 => 8 | n9 => 9
  end%Z.

Definition i9N (i : i9) : N :=
  match i with
  | n1 => 0 | n2 => 1 | n3 => 2 | n4 => 3 | n5 => 4
  | n6 => 5 | n7 => 6 | n8 => 7 | n9 => 8
  end%N.

Definition i9_of_Z (z : Z) : option i9 :=
  match z with
  | 1 => Some n1 | 2 => Some n2 | 3 => Some n3 | 4 => Some n4 | 5 => Some n5
  | 6 => Some n6 | 7 => Some n7 | 8 => Some n8 | 9 => Some n9
  | _ => None
  end%Z.

Definition i9_eqb (a b : i9) : bool :=
  match a, b with
  | n1, n1 | n2, n2 | n3, n3 | n4, n4 | n5, n5
  | n6, n6 | n7, n7 | n8, n8 | n9, n9 => true
  | _, _ => false
  end.

(* shogi_core::Square: file 1..9 (1 = the rightmost, "east", file), rank 1..9
   (1 = the "north" rank, the far rank of Black). *)
Record square := Sq { sqf : i9; sqr : i9 }.

Definition sq_eqb (a b : square) : bool :=
  i9_eqb (sqf a) (sqf b) && i9_eqb (sqr a) (sqr b).

(* Square::file, Square::rank *)
Definition fileZ (s : square) : Z := i9Z (sqf s).
Definition rankZ (s : square) : Z := i9Z (sqr s).

(* Square::array_index: 9 * (file - 1) + (rank - 1), in 0..80;
   Square::index is one more, in 1..81. *)
Definition sq_index (s : square) : N := (9 * i9N (sqf s) + i9N (sqr s))%N.

(* Square::all(): increasing index. *)
Definition all_squares : list square :=
  flat_map (fun f => map (fun r => Sq f r) all9) all9.

(* Square::shift *)
Definition sq_shift (s : square) (df dr : Z) : option square :=
  match i9_of_Z (fileZ s + df), i9_of_Z (rankZ s + dr) with
  | Some f, Some r => Some (Sq f r)
  | _, _ => None
  end.

(* Square::relative_rank *)
Definition relative_rank (s : square) (c : color) : Z :=
  match c with Black => rankZ s | White => 10 - rankZ s end.

(* Square::from_u8_unchecked(n): undefined behaviour unless 1 <= n <= 81.
   The model returns an arbitrary square outside that range; the theorems of
   C24 show that yasai never gets there. *)
Definition sq_of_u8 (n : N) : square :=
  nth (N.to_nat (n - 1)) all_squares (Sq n1 n1).

(** ** Moves *)

(* shogi_core::Move *)
Inductive move :=
| Normal (from to : square) (promote : bool)
| Drop (to : square) (p : piece).

Definition move_to (m : move) : square :=
  match m with Normal _ t _ => t | Drop t _ => t end.

Definition move_from (m : move) : option square :=
  match m with Normal f _ _ => Some f | Drop _ _ => None end.

(** ** Hands *)

(* shogi_core::Hand: up to 255 pieces of each of the seven kinds. *)
Record hand := mkH {
  hPawn : N; hLance : N; hKnight : N; hSilver : N;
  hGold : N; hBishop : N; hRook : N }.

Definition hand_empty : hand := mkH 0 0 0 0 0 0 0.

(* Hand::all_hand_pieces *)
Definition hand_kinds : list kind :=
  [Pawn; Lance; Knight; Silver; Gold; Bishop; Rook].

(* Hand::count *)
Definition hand_count (h : hand) (k : kind) : option N :=
  match k with
  | Pawn => Some (hPawn h) | Lance => Some (hLance h)
  | Knight => Some (hKnight h) | Silver => Some (hSilver h)
  | Gold => Some (hGold h) | Bishop => Some (hBishop h)
  | Rook => Some (hRook h)
  | _ => None
  end.

Definition hand_set (h : hand) (k : kind) (n : N) : hand :=
  match h with
  | mkH p l kn s g b r =>
    match k with
    | Pawn => mkH n l kn s g b r
    | Lance => mkH p n kn s g b r
    | Knight => mkH p l n s g b r
    | Silver => mkH p l kn n g b r
    | Gold => mkH p l kn s n b r
    | Bishop => mkH p l kn s g n r
    | Rook => mkH p l kn s g b n
    | _ => h
    end
  end.

(* Hand::added: None for a kind that cannot be held or a full counter. *)
Definition hand_added (h : hand) (k : kind) : option hand :=
  match hand_count h k with
  | Some n => if (n <? 255)%N then Some (hand_set h k (n + 1)) else None
  | None => None
  end.

(* Hand::removed: None for a kind that cannot be held or an empty counter. *)
Definition hand_removed (h : hand) (k : kind) : option hand :=
  match hand_count h k with
  | Some n => if (0 <? n)%N then Some (hand_set h k (n - 1)) else None
  | None => None
  end.

(** ** Fixed-size arrays *)

(* [T; 9] *)
Record v9 (A : Type) := V9
  { e1 : A; e2 : A; e3 : A; e4 : A; e5 : A; e6 : A; e7 : A; e8 : A; e9 : A }.
Arguments V9 {A}. Arguments e1 {A}. Arguments e2 {A}. Arguments e3 {A}.
Arguments e4 {A}. Arguments e5 {A}. Arguments e6 {A}. Arguments e7 {A}.
Arguments e8 {A}. Arguments e9 {A}.

Definition v9_get {A} (v : v9 A) (i : i9) : A :=
  match i with
  | n1 => e1 v | n2 => e2 v | n3 => e3 v | n4 => e4 v | n5 => e5 v
  | n6 => e6 v | n7 => e7 v | n8 => e8 v | n9 => e9 v
  end.

Definition v9_set {A} (v : v9 A) (i : i9) (x : A) : v9 A :=
  match v with
  | V9 a b c d e f g h j =>
    match i with
    | n1 => V9 x b c d e f g h j | n2 => V9 a x c d e f g h j
    | n3 => V9 a b x d e f g h j | n4 => V9 a b c x e f g h j
    | n5 => V9 a b c d x f g h j | n6 => V9 a b c d e x g h j
    | n7 => V9 a b c d e f x h j | n8 => V9 a b c d e f g x j
    | n9 => V9 a b c d e f g h x
    end
  end.

Definition v9_make {A} (f : i9 -> A) : v9 A :=
  V9 (f n1) (f n2) (f n3) (f n4) (f n5) (f n6) (f n7) (f n8) (f n9).

(* [T; Square::NUM], indexed by squares *)
Definition sqarr (A : Type) := v9 (v9 A).
Definition sa_get {A} (v : sqarr A) (s : square) : A :=
  v9_get (v9_get v (sqf s)) (sqr s).
Definition sa_set {A} (v : sqarr A) (s : square) (x : A) : sqarr A :=
  v9_set v (sqf s) (v9_set (v9_get v (sqf s)) (sqr s) x).
Definition sa_make {A} (f : square -> A) : sqarr A :=
  v9_make (fun i => v9_make (fun j => f (Sq i j))).

(* [T; Color::NUM], indexed by colours *)
Record carr (A : Type) := C2 { atB : A; atW : A }.
Arguments C2 {A}. Arguments atB {A}. Arguments atW {A}.
Definition c_get {A} (v : carr A) (c : color) : A :=
  match c with Black => atB v | White => atW v end.
Definition c_set {A} (v : carr A) (c : color) (x : A) : carr A :=
  match c with Black => C2 x (atW v) | White => C2 (atB v) x end.

(* [T; PieceKind::NUM], indexed by piece kinds *)
Record karr (A : Type) := K14
  { kP : A; kL : A; kN : A; kS : A; kG : A; kB : A; kR : A; kK : A;
    kPP : A; kPL : A; kPN : A; kPS : A; kPB : A; kPR : A }.
Arguments K14 {A}. Arguments kP {A}. Arguments kL {A}. Arguments kN {A}.
Arguments kS {A}. Arguments kG {A}. Arguments kB {A}. Arguments kR {A}.
Arguments kK {A}. Arguments kPP {A}. Arguments kPL {A}. Arguments kPN {A}.
Arguments kPS {A}. Arguments kPB {A}. Arguments kPR {A}.
Definition k_get {A} (v : karr A) (k : kind) : A :=
  match k with
  | Pawn => kP v | Lance => kL v | Knight => kN v | Silver => kS v
  | Gold => kG v | Bishop => kB v | Rook => kR v | King => kK v
  | ProPawn => kPP v | ProLance => kPL v | ProKnight => kPN v
  | ProSilver => kPS v | ProBishop => kPB v | ProRook => kPR v
  end.
Definition k_set {A} (v : karr A) (k : kind) (x : A) : karr A :=
  match v with
  | K14 a b c d e f g h i j l m n o =>
    match k with
    | Pawn => K14 x b c d e f g h i j l m n o
    | Lance => K14 a x c d e f g h i j l m n o
    | Knight => K14 a b x d e f g h i j l m n o
    | Silver => K14 a b c x e f g h i j l m n o
    | Gold => K14 a b c d x f g h i j l m n o
    | Bishop => K14 a b c d e x g h i j l m n o
    | Rook => K14 a b c d e f x h i j l m n o
    | King => K14 a b c d e f g x i j l m n o
    | ProPawn => K14 a b c d e f g h x j l m n o
    | ProLance => K14 a b c d e f g h i x l m n o
    | ProKnight => K14 a b c d e f g h i j x m n o
    | ProSilver => K14 a b c d e f g h i j l x n o
    | ProBishop => K14 a b c d e f g h i j l m x o
    | ProRook => K14 a b c d e f g h i j l m n x
    end
  end.

Definition k_const {A} (x : A) : karr A := K14 x x x x x x x x x x x x x x.

(** ** shogi_core::PartialPosition, the input of [Position::new] *)

(* Only the accessors used by /repo/src/position.rs lines 309-335:
   side_to_move, ply (a u16), hand_of_a_player, piece_at. *)
Record partial := mkPartial {
  pp_side : color;
  pp_ply : N;
  pp_hands : carr hand;
  pp_board : sqarr (option piece) }.

(** ** Panics *)

(* [None] stands for a panic (unwrap on None, index out of bounds, capacity
   or arithmetic overflow). *)
Definition bind {A B} (x : option A) (f : A -> option B) : option B :=
  match x with Some a => f a | None => None end.
Notation "'let*' x ':=' a 'in' b" := (bind a (fun x => b))
  (at level 61, x name, a at next level, b at level 200, right associativity).

(* PartialPosition::startpos() (external): the usual starting position *)
Definition back_rank (f : i9) : kind :=
  match f with
  | n1 | n9 => Lance | n2 | n8 => Knight | n3 | n7 => Silver
  | n4 | n6 => Gold | n5 => King
  end.
Definition startpos_at (s : square) : option piece :=
  match s with
  | Sq f n1 => Some (mkP (back_rank f) White)
  | Sq n8 n2 => Some (mkP Rook White)
  | Sq n2 n2 => Some (mkP Bishop White)
  | Sq _ n3 => Some (mkP Pawn White)
  | Sq _ n7 => Some (mkP Pawn Black)
  | Sq n8 n8 => Some (mkP Bishop Black)
  | Sq n2 n8 => Some (mkP Rook Black)
  | Sq f n9 => Some (mkP (back_rank f) Black)
  | _ => None
  end.
Definition partial_startpos : partial :=
  mkPartial Black 1 (C2 hand_empty hand_empty) (sa_make startpos_at).
