(** * What the programs of [RustSyntax.v] do

    A machine that runs the abstract syntax in small steps.  Values are tagged
    and checked when they are used: a program that would need a conversion or a
    method that is not here stops with [RStuck], which is not a panic.

    Frames hold the variables of one function by name.  A shared reference is the
    value that it points to, since nothing here has interior mutability.  A
    unique reference [&mut] is a place of the current frame: a variable and a
    list of fields and indices.  A parameter of type [&mut T] is passed by
    copying the value in and out again; for a program that the borrow checker
    accepts nobody else can look at the place in between.  A reference that a
    function returns into its [&mut self] becomes a place of the caller.

    The items of other crates are given by their effect on values: those of
    [shogi_core] by [Types.v], the bitboards by a backend [o : bbops], vectors
    and iterators by lists, the random generator by a stream of numbers.  Integers carry their type; a literal carries the
    type [Lit] until it meets another integer.  The vector registers of the four
    architectures are their 64-bit lanes, and the intrinsics are functions on them
    ([Intrinsics.v]); a signed 64-bit integer that was read from a register is
    represented by its bits, as a [u64].

    The order of evaluation is that of Rust, except that the right side of [a op= b]
    is always evaluated first. *)

From Coq Require Import List Bool NArith ZArith.
From Verif Require Import Types Bitboard Zobrist RustSyntax RustNames Init Movegen BackendCore BackendSimd Intrinsics.
Import ListNotations.
(* names are numbers; see [RustNames.v] *)
Local Notation name := N.
Local Notation path := (gpath N).
Local Notation pat := (gpat N).
Local Notation expr := (gexpr N).
Local Notation stmt := (gstmt N).
Local Notation param := (gparam N).
Local Notation fndecl := (gfn N).
Local Notation constdecl := (gconst N).
Local Notation program := (gprog N).
Fixpoint pos_same (a b : positive) : bool :=
  match a, b with
  | xH, xH => true
  | xO a, xO b => pos_same a b
  | xI a, xI b => pos_same a b
  | _, _ => false
  end.
Definition same (a b : name) : bool :=
  match a, b with
  | N0, N0 => true
  | Npos a, Npos b => pos_same a b
  | _, _ => false
  end.

Inductive ity := U8 | U16 | U32 | U64 | U128 | Usize | I8 | Lit.

Inductive proj := PF (f : name) | PI (n : Z).
Definition place := (name * list proj)%type.

Section Sem.
Context (o : bbops).

Inductive val :=
| VUninit
| VTup (l : list val)
| VBool (b : bool)
| VInt (t : ity) (n : Z)
| VStr (s : name)
| VColor (c : color)
| VKind (k : kind)
| VPiece (p : piece)
| VSq (s : square)
| VMove (m : move)
| VHand (h : hand)
| VPartial (p : partial)
| VBB (b : bb o)
| VOpt (x : option val)
| VOrd (c : comparison)
| VArr (l : list val)                          (* arrays and slices *)
| VVec (cap : option N) (l : list val)         (* Vec, ArrayVec *)
| VIter (l : list val)
| VStruct (t : name) (l : list (name * val))
| VClos (ps : list pat) (e : expr)
| VRef (p : place)
| VGen (g : N -> N -> N)                        (* random generators: seed, number of draws so far *)
| VRng (f : N -> N) (n : N)                     (* one of them *)
| VRaw (n : N)                                  (* shogi_core::Bitboard, by its bits *)
| VReg (a : v128)                               (* a register of 128 bits *)
| VReg2 (a : v256).                             (* a register of 256 bits *)
Definition VUnit : val := VTup [].

Definition env := list (name * val).
Fixpoint cat {A} (l m : list A) : list A := match l with [] => m | x :: l => x :: cat l m end.

(** ** Variables, fields, places *)

Fixpoint look (x : name) (l : env) : option val :=
  match l with
  | [] => None
  | (y, v) :: l => if same x y then Some v else look x l
  end.
Fixpoint upd (x : name) (v : val) (l : env) : env :=
  match l with
  | [] => []
  | (y, w) :: l => if same x y then (y, v) :: l else (y, w) :: upd x v l
  end.
Fixpoint elen (l : env) : nat := match l with [] => O | _ :: l => S (elen l) end.
Fixpoint edrop (n : nat) (l : env) : env :=
  match n, l with S n, _ :: l => edrop n l | _, _ => l end.
(* drop the variables above the n oldest *)
Definition trim (n : nat) (e : env) : env := edrop (elen e - n) e.

(* entry n of a list, and the list with another entry n *)
Definition list_at (l : list val) (n : Z) : val := nth (Z.to_nat n) l VUninit.
Definition list_put (l : list val) (n : Z) (v : val) : list val := set_nth (Z.to_nat n) v l.
Definition list_get (l : list val) (n : Z) : option val := nth_error l (Z.to_nat n).
(* fields of tuples *)
Definition digits : list name := [id_0; id_1; id_2; id_3; id_4; id_5; id_6; id_7; id_8; id_9].
Fixpoint tup_get (f : name) (ns : list name) (l : list val) : option val :=
  match ns, l with
  | n :: ns, v :: l => if same f n then Some v else tup_get f ns l
  | _, _ => None
  end.
Fixpoint tup_set (f : name) (w : val) (ns : list name) (l : list val) : list val :=
  match ns, l with
  | n :: ns, v :: l => if same f n then w :: l else v :: tup_set f w ns l
  | _, _ => l
  end.

Definition field (v : val) (f : name) : option val :=
  match v with
  | VStruct _ l => look f l
  | VTup l => tup_get f digits l
  | _ => None
  end.
Definition set_field (v : val) (f : name) (w : val) : val :=
  match v with
  | VStruct t l => VStruct t (upd f w l)
  | VTup l => VTup (tup_set f w digits l)
  | _ => v
  end.
(* what is at a place, for indices that are in range *)
Fixpoint get (v : val) (ps : list proj) : option val :=
  match ps with
  | [] => Some v
  | PF f :: ps => match field v f with Some w => get w ps | None => None end
  | PI n :: ps => match v with
                  | VArr l => get (list_at l n) ps
                  | _ => None
                  end
  end.
Fixpoint put (v : val) (ps : list proj) (w : val) : val :=
  match ps with
  | [] => w
  | PF f :: ps => match field v f with Some x => set_field v f (put x ps w) | None => v end
  | PI n :: ps => match v with
                  | VArr l => VArr (list_put l n (put (list_at l n) ps w))
                  | _ => v
                  end
  end.
Definition read (e : env) (p : place) : option val :=
  match look (fst p) e with Some v => get v (snd p) | None => None end.
Definition write (e : env) (p : place) (w : val) : env :=
  match look (fst p) e with Some v => upd (fst p) (put v (snd p) w) e | None => e end.
(* the same, between the frames of a caller and a callee *)
Definition fetch := read.
Definition store := write.
Definition below (p : place) (ps : list proj) : place := (fst p, cat (snd p) ps).
Definition deeper := below.

(** ** Integers *)

Definition width (t : ity) : option Z :=
  match t with
  | U8 => Some 8%Z | U16 => Some 16%Z | U32 => Some 32%Z | U64 | Usize => Some 64%Z | U128 => Some 128%Z
  | I8 | Lit => None
  end.
(* the type of a result; a literal takes the other type *)
Definition join (a b : ity) : option ity :=
  match a, b with
  | Lit, t | t, Lit => Some t
  | U8, U8 => Some U8 | U16, U16 => Some U16 | U64, U64 => Some U64
  | Usize, Usize => Some Usize | I8, I8 => Some I8 | U32, U32 => Some U32 | U128, U128 => Some U128
  | _, _ => None
  end.
(* a result that may be out of range: with overflow checks a panic, else it
   wraps.  Integers of type [Lit] are not bounded. *)
Definition in_range (t : ity) (n : Z) : bool :=
  match width t with
  | Some w => (0 <=? n)%Z && (n <? 2 ^ w)%Z
  | None => match t with I8 => (-128 <=? n)%Z && (n <? 128)%Z | _ => true end
  end.
Definition wrap (t : ity) (n : Z) : Z :=
  match width t with
  | Some w => n mod 2 ^ w
  | None => match t with I8 => (n + 128) mod 256 - 128 | _ => n end
  end%Z.
Definition arith (checks : bool) (t : ity) (n : Z) : option Z :=
  if in_range t n then Some n else if checks then None else Some (wrap t n).
Definition ty_of (s : name) : option ity :=
  match s with
  | id_u8 => Some U8 | id_u16 => Some U16 | id_u64 => Some U64 | id_usize => Some Usize | id_i8 => Some I8
  | id_u32 => Some U32 | id_u128 => Some U128
  | _ => None
  end.
Definition cast (a t : ity) (n : Z) : Z :=
  match a, t with
  | U8, Usize | U8, U64 | U8, U16 | U16, Usize | Usize, Usize | U32, Usize => n
  | _, _ => wrap t n
  end.
(* x << y (or x >> y): an amount that is not below the width is a panic with
   overflow checks, else it wraps *)
Definition shift (checks left : bool) (t : ity) (x y : Z) : option Z :=
  let go y := if left then wrap t (Z.shiftl x y) else Z.shiftr x y in
  match width t with
  | None => Some (go y)
  | Some w => if ((0 <=? y) && (y <? w))%Z then Some (go y) else if checks then None else Some (go (y mod w)%Z)
  end.
Definition lit (n : N) : Z := match n with N0 => Z0 | Npos p => Zpos p end.
(* a, a + 1, ..., b - 1 *)
Definition zrange (a b : Z) : list Z :=
  map (fun i => (a + Z.of_nat i)%Z) (seq 0 (Z.to_nat (b - a))).
Definition usize (n : N) : val := VInt Usize (Z.of_N n).

(** ** Items of other crates *)

Inductive prim :=
| PVal (v : val)
| PMay (x : option val)               (* a panic if there is none *)
| PElse (x : option val) (w : val)    (* w if there is none *)
| PTest (b : bool) (v : val)          (* a panic if not *)
| PBad.                               (* no such item for these values *)

Definition vopt {A} (f : A -> val) (x : option A) : val := VOpt (option_map f x).

Definition kind_of_name (s : name) : option kind :=
  match s with
  | id_Pawn => Some Pawn | id_Lance => Some Lance | id_Knight => Some Knight | id_Silver => Some Silver
  | id_Gold => Some Gold | id_Bishop => Some Bishop | id_Rook => Some Rook | id_King => Some King
  | id_ProPawn => Some ProPawn | id_ProLance => Some ProLance | id_ProKnight => Some ProKnight
  | id_ProSilver => Some ProSilver | id_ProBishop => Some ProBishop | id_ProRook => Some ProRook
  | _ => None
  end.

(* associated constants and constructors without arguments *)
Definition ext_const (p : path) : option val :=
  match p with
  | [id_true] => Some (VBool true)
  | [id_false] => Some (VBool false)
  | [id_None] => Some (VOpt None)
  | [t; x] =>
      match t, x with
      | id_Color, id_Black => Some (VColor Black)
      | id_Color, id_White => Some (VColor White)
      | id_Color, id_NUM => Some (VInt Usize 2)
      | id_Square, id_NUM => Some (VInt Usize 81)
      | id_Square, id_SQ_1A => Some (VSq (Sq n1 n1))
      | id_Square, id_SQ_9I => Some (VSq (Sq n9 n9))
      | id_PieceKind, id_NUM => Some (VInt Usize 14)
      | id_PieceKind, k => match kind_of_name k with Some k => Some (VKind k) | None => None end
      | id_Piece, id_B_P => Some (VPiece (mkP Pawn Black))
      | id_Piece, id_W_P => Some (VPiece (mkP Pawn White))
      | id_Piece, id_B_K => Some (VPiece (mkP King Black))
      | id_Piece, id_W_K => Some (VPiece (mkP King White))
      | _, _ => None
      end
  | _ => None
  end.

(* shogi_core::Bitboard by its bits, under the name raw *)
Definition raw_fn (f : name) (args : list val) : prim :=
  match f, args with
  | id_empty, [] => PVal (VRaw 0%N)
  | id_single, [VSq s] => PVal (VRaw (core_single s))
  | id_from_u128_unchecked, [VInt _ n] => PVal (VRaw (Z.to_N n))
  | _, _ => PBad
  end.
(* a constant generic argument is the last name of a path *)
Definition digit (d : name) : option N :=
  match d with
  | id_0 => Some 0%N | id_1 => Some 1%N | id_2 => Some 2%N | id_4 => Some 4%N | id_8 => Some 8%N
  | _ => None
  end.
Definition lane (z : Z) : N := Z.to_N (z mod 2 ^ 64).
Definition word (n : N) : val := VInt U64 (Z.of_N n).
Definition words (a : v128) : val := VArr [word (fst a); word (snd a)].
Definition with_digit (d : name) (g : N -> val) : prim :=
  match digit d with Some n => PVal (g n) | None => PBad end.
Definition no_bits (a : v128) : bool := ((fst a =? 0) && (snd a =? 0))%N.

(* std::arch::x86_64 *)
Definition x86_fn (f : name) (args : list val) : prim :=
  match args with
  | [] =>
      match f with
      | id__mm_setzero_si128 => PVal (VReg v_zero)
      | id__mm256_setzero_si256 => PVal (VReg2 (v_zero, v_zero))
      | _ => PBad
      end
  | [VReg a] =>
      match f with
      | id__mm256_broadcastsi128_si256 => PVal (VReg2 (w_broadcast a))
      | _ => PBad
      end
  | [VReg2 a] =>
      match f with
      | id__mm256_castsi256_si128 => PVal (VReg (fst a))
      | id__mm256_movemask_epi8 => PVal (VInt Lit (Z.of_N (w_movemask8 a)))
      | _ => PBad
      end
  | [VInt _ a; VInt _ b] =>
      match f with
      | id__mm_set_epi64x => PVal (VReg (lane b, lane a))
      | _ => PBad
      end
  | [VReg a; VReg b] =>
      match f with
      | id__mm_test_all_zeros => PVal (VInt Lit (if no_bits (v_and a b) then 1 else 0))
      | id__mm_and_si128 => PVal (VReg (v_and a b))
      | id__mm_or_si128 => PVal (VReg (v_or a b))
      | id__mm_xor_si128 => PVal (VReg (v_xor a b))
      | id__mm_andnot_si128 => PVal (VReg (v_andc b a))
      | id__mm_cmpeq_epi64 => PVal (VReg (v_eq a b))
      | id__mm_add_epi64 => PVal (VReg (v_add a b))
      | id__mm_sub_epi64 => PVal (VReg (v_sub a b))
      | id__mm256_set_m128i => PVal (VReg2 (w_set a b))
      | _ => PBad
      end
  | [VReg2 a; VReg2 b] =>
      match f with
      | id__mm256_and_si256 => PVal (VReg2 (w_and a b))
      | id__mm256_or_si256 => PVal (VReg2 (w_or a b))
      | id__mm256_xor_si256 => PVal (VReg2 (w_xor a b))
      | id__mm256_andnot_si256 => PVal (VReg2 (w_andnot a b))
      | id__mm256_cmpeq_epi64 => PVal (VReg2 (w_eq64 a b))
      | id__mm256_cmpeq_epi8 => PVal (VReg2 (w_eq8 a b))
      | id__mm256_add_epi64 => PVal (VReg2 (w_add a b))
      | id__mm256_sub_epi64 => PVal (VReg2 (w_sub a b))
      | _ => PBad
      end
  | [VInt _ a; VInt _ b; VInt _ c; VInt _ d] =>
      match f with
      | id__mm256_set_epi64x => PVal (VReg2 ((lane d, lane c), (lane b, lane a)))
      | _ => PBad
      end
  | _ => PBad
  end.
(* std::arch::aarch64 *)
Definition neon_fn (f : name) (args : list val) : prim :=
  match args with
  | [VInt t n] =>
      match f with
      | id_vdupq_n_u64 => PVal (VReg (lane n, lane n))
      (* a register of 64 bits is its bits *)
      | id_vreinterpret_u64_u32 => PVal (VInt t n)
      | _ => PBad
      end
  | [VReg a] =>
      match f with
      | id_vqmovn_u64 => PVal (word (N.lor (sat32 (fst a)) (N.shiftl (sat32 (snd a)) 32)))
      | _ => PBad
      end
  | [VReg a; VReg b] =>
      match f with
      | id_vandq_u64 => PVal (VReg (v_and a b))
      | id_vorrq_u64 => PVal (VReg (v_or a b))
      | id_veorq_u64 => PVal (VReg (v_xor a b))
      | id_vbicq_u64 => PVal (VReg (v_andc a b))
      | id_vceqq_u64 => PVal (VReg (v_eq a b))
      | id_vaddq_u64 => PVal (VReg (v_add a b))
      | id_vsubq_u64 => PVal (VReg (v_sub a b))
      | _ => PBad
      end
  | _ => PBad
  end.
(* std::arch::wasm32 *)
Definition wasm_fn (f : name) (args : list val) : prim :=
  match args with
  | [VInt _ a; VInt _ b] =>
      match f with
      | id_u64x2 => PVal (VReg (lane a, lane b))
      | _ => PBad
      end
  | [VReg a] =>
      match f with
      | id_v128_any_true => PVal (VBool (v_any_true a))
      | id_u64x2_all_true => PVal (VBool (negb (fst a =? 0) && negb (snd a =? 0))%N)
      | _ => PBad
      end
  | [VReg a; VInt _ n] =>
      match f with
      | id_u64x2_shl => PVal (VReg (v_shl (Z.to_N n) a))
      | id_u64x2_shr => PVal (VReg (v_shr (Z.to_N n) a))
      | _ => PBad
      end
  | [VReg a; VReg b] =>
      match f with
      | id_v128_and => PVal (VReg (v_and a b))
      | id_v128_or => PVal (VReg (v_or a b))
      | id_v128_xor => PVal (VReg (v_xor a b))
      | id_v128_andnot => PVal (VReg (v_andc a b))
      | id_u64x2_eq => PVal (VReg (v_eq a b))
      | id_u64x2_add => PVal (VReg (v_add a b))
      | id_u64x2_sub => PVal (VReg (v_sub a b))
      | _ => PBad
      end
  | _ => PBad
  end.
(* f::<d>(args) *)
Definition generic_fn (f d : name) (args : list val) : prim :=
  match args with
  | [VReg a] =>
      match f with
      | id__mm_slli_epi64 | id_vshlq_n_u64 => with_digit d (fun n => VReg (v_shl n a))
      | id__mm_srli_epi64 | id_vshrq_n_u64 => with_digit d (fun n => VReg (v_shr n a))
      | id_u64x2_extract_lane => match d with
                                | id_0 => PVal (word (fst a))
                                | id_1 => PVal (word (snd a))
                                | _ => PBad
                                end
      | _ => PBad
      end
  | [VReg2 a] =>
      match f with
      | id__mm256_slli_si256 => match d with id_8 => PVal (VReg2 (w_bslli8 a)) | _ => PBad end
      | id__mm256_srli_epi16 => with_digit d (fun n => VReg2 (w_srli16 n a))
      | id__mm256_extracti128_si256 => match d with id_1 => PVal (VReg (snd a)) | _ => PBad end
      | _ => PBad
      end
  | [VInt t n] =>
      match f with
      | id_vget_lane_u64 => match d with id_0 => PVal (VInt t n) | _ => PBad end
      | _ => PBad
      end
  | _ => PBad
  end.
Definition arch_fn (t f : name) (args : list val) : prim :=
  match t with
  | id_raw => raw_fn f args
  | id_x86_64 => x86_fn f args
  | id_aarch64 => neon_fn f args
  | id_wasm32 => wasm_fn f args
  | id_MaybeUninit => match f, args with id_uninit, [] => PVal VUninit | _, _ => PBad end
  | _ => generic_fn t f args
  end.
(* the intrinsics that use memory: the new environment, and the result *)
Definition memory (t f : name) (vs : list val) (e : env) : option (env * val) :=
  match t, vs with
  | id_x86_64, [VRef p; VReg a] =>
      match f with id__mm_storeu_si128 => Some (write e p (words a), VUnit) | _ => None end
  | id_aarch64, [VRef p; VReg a] =>
      match f with id_vst1q_u64 => Some (write e p (words a), VUnit) | _ => None end
  | id_aarch64, [VRef p] =>
      match f, read e p with
      | id_vld1q_u64, Some (VArr [VInt _ a; VInt _ b]) => Some (e, VReg (lane a, lane b))
      | _, _ => None
      end
  | id_aarch64, [VArr [VInt _ a; VInt _ b]] =>
      match f with id_vld1q_u64 => Some (e, VReg (lane a, lane b)) | _ => None end
  | _, _ => None
  end.

(* associated functions *)
Definition ext_fn (t f : name) (args : list val) : prim :=
  match t, f, args with
  | id_Bitboard, id_empty, [] => PVal (VBB (bempty o))
  | id_Bitboard, id_single, [VSq s] => PVal (VBB (bsingle o s))
  | id_Square, id_all, [] => PVal (VIter (map VSq all_squares))
  | id_Square, id_from_u8_unchecked, [VInt U8 n] => PVal (VSq (sq_of_u8 (Z.to_N n)))
  | id_Color, id_all, [] => PVal (VIter (map VColor all_colors))
  | id_PieceKind, id_all, [] => PVal (VIter (map VKind all_kinds))
  | id_Hand, id_all_hand_pieces, [] => PVal (VIter (map VKind hand_kinds))
  | id_Hand, id_default, [] => PVal (VHand hand_empty)
  | id_Piece, id_new, [VKind k; VColor c] => PVal (VPiece (mkP k c))
  | id_PartialPosition, id_startpos, [] => PVal (VPartial partial_startpos)
  | id_usize, id_from, [VInt U8 n] => PVal (VInt Usize n)
  | _, _, _ => arch_fn t f args
  end.

(* methods that do not change their receiver *)
Definition ext_method (checks : bool) (m : name) (v : val) (args : list val) : prim :=
  match v with
  | VColor c =>
      match m, args with
      | id_flip, [] => PVal (VColor (flip c))
      | id_array_index, [] => PVal (usize (color_index c))
      | _, _ => PBad
      end
  | VKind k =>
      match m, args with
      | id_array_index, [] => PVal (usize (kind_index k))
      | id_promote, [] => PVal (vopt VKind (promote_kind k))
      | id_unpromote, [] => PVal (vopt VKind (unpromote_kind k))
      | _, _ => PBad
      end
  | VPiece p =>
      match m, args with
      | id_piece_kind, [] => PVal (VKind (pkind p))
      | id_color, [] => PVal (VColor (pcolor p))
      | id_to_parts, [] => PVal (VTup [VKind (pkind p); VColor (pcolor p)])
      | id_promote, [] => PVal (vopt VPiece (promote_piece p))
      | _, _ => PBad
      end
  | VSq s =>
      match m, args with
      | id_array_index, [] => PVal (usize (sq_index s))
      | id_index, [] => PVal (VInt U8 (Z.of_N (sq_index s + 1)))
      | id_file, [] => PVal (VInt U8 (fileZ s))
      | id_rank, [] => PVal (VInt U8 (rankZ s))
      | id_relative_rank, [VColor c] => PVal (VInt U8 (relative_rank s c))
      | id_shift, [VInt _ f; VInt _ r] => PVal (vopt VSq (sq_shift s f r))
      | _, _ => PBad
      end
  | VMove x =>
      match m, args with
      | id_from, [] => PVal (vopt VSq (move_from x))
      | id_to, [] => PVal (VSq (move_to x))
      (* only printed: the move stands for its text *)
      | id_to_usi_owned, [] => PVal (VMove x)
      | _, _ => PBad
      end
  | VHand h =>
      match m, args with
      | id_count, [VKind k] => PVal (vopt (fun n => VInt U8 (Z.of_N n)) (hand_count h k))
      | id_added, [VKind k] => PVal (vopt VHand (hand_added h k))
      | id_removed, [VKind k] => PVal (vopt VHand (hand_removed h k))
      | _, _ => PBad
      end
  | VPartial p =>
      match m, args with
      | id_hand_of_a_player, [VColor c] => PVal (VHand (c_get (pp_hands p) c))
      | id_piece_at, [VSq s] => PVal (vopt VPiece (sa_get (pp_board p) s))
      | id_side_to_move, [] => PVal (VColor (pp_side p))
      | id_ply, [] => PVal (VInt U16 (Z.of_N (pp_ply p)))
      | _, _ => PBad
      end
  | VBB b =>
      match m, args with
      | id_is_empty, [] => PVal (VBool (bis_empty o b))
      | id_contains, [VSq s] => PVal (VBool (bcontains o b s))
      | id_count, [] => PVal (VInt U8 (Z.of_N (bcount o b)))
      | id_shl, [] => PVal (VBB (bshl o b))
      | id_shr, [] => PVal (VBB (bshr o b))
      | id_vacant_files, [] => PMay (option_map VBB (bvacant o b))
      | id_sliding_positive_consecutive, [VBB m] => PVal (VBB (bslide_pos_c o b m))
      | id_sliding_negative_consecutive, [VBB m] => PVal (VBB (bslide_neg_c o b m))
      | id_sliding_positives, [VArr [VBB m; VBB n]] => PVal (VBB (bslide_pos2 o b (m, n)))
      | id_sliding_negatives, [VArr [VBB m; VBB n]] => PVal (VBB (bslide_neg2 o b (m, n)))
      | id_into_iter, [] => PVal (VIter (map VSq (biter o b)))
      | _, _ => PBad
      end
  | VIter l =>
      match m, args with
      | id_next, [] => PVal (VOpt (hd_error l))          (* of a temporary *)
      | id_enumerate, [] => PVal (VIter (map (fun x => VTup [VInt Usize (Z.of_nat (fst x)); snd x])
                                            (combine (seq 0 (List.length l)) l)))
      | _, _ => PBad
      end
  | VArr l =>
      match m, args with
      | id_iter, [] => PVal (VIter l)
      | id_as_ptr, [] => PVal (VArr l)                   (* of a temporary *)
      | id_assume_init, [] => PVal (VArr l)
      | _, _ => PBad
      end
  | VVec _ l =>
      match m, args with
      | id_last, [] => PVal (VOpt (hd_error (rev l)))
      | id_len, [] => PVal (usize (N.of_nat (List.length l)))
      | _, _ => PBad
      end
  | VOpt x =>
      match m, args with
      | id_unwrap, [] => PMay x
      | id_expect, [VStr _] => PMay x
      | id_unwrap_or, [w] => PElse x w
      | id_unwrap_or_default, [] => PElse x (VInt U8 0)  (* of an Option<u8> *)
      | _, _ => PBad
      end
  | VInt t a =>
      match m, args with
      | id_wrapping_add, [VInt u b] => match join t u with
                                      | Some t => PVal (VInt t (wrap t (a + b))) | None => PBad end
      | id_abs, [] => match t with I8 => PMay (option_map (VInt I8) (arith checks I8 (Z.abs a))) | _ => PBad end
      | id_wrapping_sub, [VInt u b] => match join t u with
                                      | Some t => PVal (VInt t (wrap t (a - b))) | None => PBad end
      | id_trailing_zeros, [] => match width t with
                                | Some w => PVal (VInt U32 (Z.of_N (ctz (Z.to_N w) (Z.to_N a)))) | None => PBad end
      | id_leading_zeros, [] => match width t with
                               | Some w => PVal (VInt U32 (Z.of_N (clz (Z.to_N w) (Z.to_N a)))) | None => PBad end
      | id_count_ones, [] => match width t with
                            | Some _ => PVal (VInt U32 (Z.of_N (count_ones (Z.to_N a)))) | None => PBad end
      | id_cmp, [VInt u b] => match join t u with Some _ => PVal (VOrd (a ?= b)%Z) | None => PBad end
      | _, _ => PBad
      end
  | VRaw b =>
      match m, args with
      | id_to_u128, [] => PVal (VInt U128 (Z.of_N b))
      | id_shift_up, [VInt _ n] => PVal (VRaw (core_shift_up b (Z.to_N n)))
      | id_shift_down, [VInt _ n] => PVal (VRaw (core_shift_down b (Z.to_N n)))
      | _, _ => PBad
      end
  | _ => PBad
  end.

(** ** Operators *)

Definition int_cmp (op : name) (a b : Z) : option bool :=
  match op with
  | id_op_eq => Some (a =? b)%Z
  | id_op_ne => Some (negb (a =? b)%Z)
  | id_op_lt => Some (a <? b)%Z
  | id_op_le => Some (a <=? b)%Z
  | id_op_gt => Some (a >? b)%Z
  | id_op_ge => Some (a >=? b)%Z
  | _ => None
  end.
Definition opt_piece_eqb (a b : option val) : bool :=
  match a, b with
  | Some (VPiece x), Some (VPiece y) => piece_eqb x y
  | None, None => true
  | _, _ => false
  end.

Definition bin (checks : bool) (op : name) (a b : val) : prim :=
  match a, b with
  | VBB x, VBB y =>
      match op with
      | id_op_amp => PVal (VBB (band o x y))
      | id_op_bar => PVal (VBB (bor o x y))
      | id_op_caret => PVal (VBB (bxor o x y))
      | _ => PBad
      end
  | VRaw x, VRaw y =>
      match op with
      | id_op_amp => PVal (VRaw (N.land x y))
      | id_op_bar => PVal (VRaw (N.lor x y))
      | id_op_caret => PVal (VRaw (N.lxor x y))
      | _ => PBad
      end
  | VInt t x, VInt u y =>
      match op with
      | id_op_shl => PMay (option_map (VInt t) (shift checks true t x y))
      | id_op_shr => PMay (option_map (VInt t) (shift checks false t x y))
      | _ =>
      match join t u with
      | None => PBad
      | Some t =>
          match op with
          | id_op_add => PMay (option_map (VInt t) (arith checks t (x + y)))
          | id_op_sub => PMay (option_map (VInt t) (arith checks t (x - y)))
          | id_op_amp => PVal (VInt t (Z.land x y))
          | id_op_bar => PVal (VInt t (Z.lor x y))
          | id_op_caret => PVal (VInt t (Z.lxor x y))
          | id_op_dots => PVal (VIter (map (VInt t) (zrange x y)))
          | _ => match int_cmp op x y with Some c => PVal (VBool c) | None => PBad end
          end
      end
      end
  | VKind x, VKind y =>
      match op with
      | id_op_eq => PVal (VBool (kind_eqb x y))
      | id_op_ne => PVal (VBool (negb (kind_eqb x y)))
      | _ => PBad
      end
  | VOpt x, VOpt y =>
      match op with
      | id_op_eq => PVal (VBool (opt_piece_eqb x y))
      | _ => PBad
      end
  | _, _ => PBad
  end.
Definition un (op : name) (a : val) : prim :=
  match op with
  | id_op_bang => match a with
           | VBool b => PVal (VBool (negb b))
           | VBB b => PVal (VBB (bnot o b))
           | VRaw b => PVal (VRaw (core_not b))
           | VInt Lit n => PVal (VInt Lit (-1 - n))
           | VInt U64 n => PVal (VInt U64 (2 ^ 64 - 1 - n))
           | _ => PBad
           end
  | id_op_sub => match a with VInt Lit n => PVal (VInt Lit (- n)) | _ => PBad end
  | id_op_star | id_op_amp => PVal a
  | _ => PBad
  end.
(* the trait methods that operators stand for *)
Definition op_method (op : name) : name :=
  match op with id_op_amp => id_bitand | id_op_bar => id_bitor | id_op_caret => id_bitxor | id_op_bang => id_not | _ => id_ end.
Definition opa_method (op : name) : name :=
  match op with id_op_amp => id_bitand_assign | id_op_bar => id_bitor_assign | id_op_caret => id_bitxor_assign | _ => id_ end.

(* what "for" walks over *)
Definition elements (v : val) : option (list val) :=
  match v with
  | VIter l => Some l
  | VArr l => Some l
  | VVec _ l => Some l
  | VBB b => Some (map VSq (biter o b))
  | _ => None
  end.

(** ** Patterns *)

(* A pattern may ask for one test on the data. *)
Inductive pm :=
| MYes (bs : env)
| MNo
| MTest (b : bool) (bs : env)
| MSome (x : option val) (p : pat)    (* there is a value, and it matches p *)
| MNone (x : option val)
| MBad.

Definition m_and (a b : pm) : pm :=
  match a, b with
  | MYes l, MYes m => MYes (cat l m)
  | MYes l, MTest b m => MTest b (cat l m)
  | MTest b l, MYes m => MTest b (cat l m)
  | MTest b l, MTest c m => MTest (b && c) (cat l m)
  | MNo, _ => MNo
  | MYes _, MNo | MTest _ _, MNo => MNo
  | _, _ => MBad
  end.
Definition m_or (a b : pm) : pm :=
  match a, b with
  | MTest b [], MTest c [] => MTest (b || c) []
  | MNo, x => x
  | _, _ => MBad
  end.
Definition ord_name (s : name) : option comparison :=
  match s with id_Less => Some Lt | id_Equal => Some Eq | id_Greater => Some Gt | _ => None end.
Definition ord_eqb (a b : comparison) : bool :=
  match a, b with Lt, Lt | Eq, Eq | Gt, Gt => true | _, _ => false end.

Definition match_path (p : path) (v : val) : pm :=
  match v, p with
  | VOpt x, [id_None] => MNone x
  | VColor c, [id_Color; id_Black] => MTest (color_eqb c Black) []
  | VColor c, [id_Color; id_White] => MTest (color_eqb c White) []
  | VKind x, [id_PieceKind; k] =>
      match kind_of_name k with Some k => MTest (kind_eqb x k) [] | None => MBad end
  | VOrd x, [id_Ordering; c] =>
      match ord_name c with Some c => MTest (ord_eqb x c) [] | None => MBad end
  | _, _ => MBad
  end.
(* the fields of a variant of shogi_core::Move *)
Definition variant (p : path) (v : val) : option (option env) :=
  match v, p with
  | VMove (Normal f t b), [id_Move; id_Normal] => Some (Some [(id_from, VSq f); (id_to, VSq t); (id_promote, VBool b)])
  | VMove (Drop _ _), [id_Move; id_Normal] => Some None
  | VMove (Normal _ _ _), [id_Move; id_Drop] => Some None
  | VMove (Drop t x), [id_Move; id_Drop] => Some (Some [(id_to, VSq t); (id_piece, VPiece x)])
  | _, _ => None
  end.

Fixpoint pmatch (p : pat) (v : val) : pm :=
  match p with
  | PWild => MYes []
  | PId x => MYes [(x, v)]
  | PRef p => pmatch p v
  | PPath p => match_path p v
  | PCon p l =>
      match p, l, v with
      | [id_Some], [q], VOpt x => MSome x q
      | _, _, _ => MBad
      end
  | PTup l =>
      match v with
      | VTup vs =>
          (fix go (l : list pat) (vs : list val) : pm :=
             match l, vs with
             | [], [] => MYes []
             | p :: l, v :: vs => m_and (pmatch p v) (go l vs)
             | _, _ => MBad
             end) l vs
      | _ => MBad
      end
  | PStruct p l =>
      match variant p v with
      | Some (Some fs) =>
          (fix go (l : list (name * pat)) : pm :=
             match l with
             | [] => MYes []
             | (f, p) :: l =>
                 match look f fs with Some w => m_and (pmatch p w) (go l) | None => MBad end
             end) l
      | Some None => MNo
      | None => MBad
      end
  | POr l =>
      (fix go (l : list pat) : pm :=
         match l with
         | [] => MNo
         | [p] => pmatch p v
         | p :: l => m_or (pmatch p v) (go l)
         end) l
  end.
(* bind a pattern that cannot fail *)
Definition bind_pat (p : pat) (v : val) : option env :=
  match pmatch p v with MYes bs => Some bs | _ => None end.

(** ** The machine *)

(* what to build from a list of values *)
Inductive build :=
| BTup
| BArr
| BStruct (t : name) (fs : list name)
| BMove (v : name) (fs : list name)       (* Move::Normal, Move::Drop *)
| BCall (t f : name)                        (* t::f(..) *)
| BMethod (v : val) (m : name)
| BMut (p : place) (v : val) (m : name)
| BMacro (m : name).

Inductive ctl :=
| CEval (e : expr)
| CPlace (e : expr)                           (* evaluate to a place *)
| CVal (v : val)
| CAt (p : place) (v : val)                   (* a place, and what is there *)
| CStmts (l : list stmt)
| CMatch (v : val) (arms : list (pat * expr))
| CReturn (v : val)
| CBreak
| CContinue.

Inductive frame :=
| KBin1 (op : name) (e : expr)
| KBin2 (op : name) (v : val)
| KUn (op : name)
| KAnd (e : expr)
| KOr (e : expr)
| KCast (t : name)
| KField (f : name)
| KIndex1 (e : expr)
| KIndex2 (v : val)
| KArgs (b : build) (done : list val) (todo : list expr) (ms : list bool)   (* done: last first *)
| KRecv (m : name) (args : list expr)
| KRecvMut (m : name) (args : list expr)
| KRepeat1 (n : expr)
| KRepeat2 (v : val)
| KIf (t e : expr)
| KMatch (arms : list (pat * expr))
| KArm (p : pat) (b : expr)
| KNext (v : val) (arms : list (pat * expr))
| KLet (p : pat) (l : list stmt)
| KSeq (l : list stmt)
| KScope (n : nat)
| KAssign (a : expr)
| KOpAssign (op : name) (a : expr)
| KStore (v : val)
| KOpStore (op : name) (v : val)
| KSet (p : place)
| KSwap (p : place)
| KToRef
| KPField (f : name)
| KPIndex1 (e : expr)
| KPIndex2 (p : place) (v : val)
| KPIndex3 (p : place) (n : Z)                (* the index is in range *)
| KPDeref
| KPRead (p : place)
| KForIn (p : pat) (b : expr)
| KFor (p : pat) (b : expr) (l : list val) (n : nat)
| KWhileC (c b : expr)
| KWhileB (c b : expr) (n : nat)
| KWhileLet (p : pat) (c b : expr)
| KWhileBind (p : pat) (q : pat) (c b : expr)
| KWhileLetB (p : pat) (c b : expr) (n : nat)
| KReturn
| KCall (n : nat) (outs : list (name * place)) (e : env)    (* the end of a function *)
| KConst (e : env)                                            (* the end of a constant *)
| KFilter (ps : list pat) (b : expr) (v : val) (l acc : list val) (n : nat).
Definition kont := list frame.

Inductive result :=
| RDone (v : val) (e : env)
| RPanic
| RStuck (s : name).

(** A configuration is a step of evaluation or waits for a decision that depends
    on data. *)
Inductive cfg :=
| Run (c : ctl) (e : env) (k : kont)
| BrB (b : bool) (c1 c2 : cfg)                                    (* an "if" *)
| BrO (x : option val) (e : env) (k : kont) (c2 : cfg)            (* there is a value, or not *)
| BrL (l : list val) (p : pat) (b : expr) (e : env) (k : kont)    (* a "for" *)
| BrF (l : list val) (ps : list pat) (b : expr) (acc : list val) (e : env) (k : kont)    (* a filter *)
| Enter (t f : name) (args : list val) (e : env) (k : kont)     (* a call *)
| Resume (v : val) (e : env) (k : kont)                             (* the end of a call or a loop *)
| Halt (r : result).

Context (checks : bool) (prog : program) (statics : name -> option val).
(* [statics]: the values of statics that are known, and the random generators
   under the name StdRng.  A static that is not known is evaluated when it is used. *)

Fixpoint find_fn_in (t f : name) (l : list fndecl) : option fndecl :=
  match l with
  | [] => None
  | d :: l => if same f (fn_name d)
              then (if same t (fn_self d) then Some d else find_fn_in t f l)
              else find_fn_in t f l
  end.
Definition find_fn (t f : name) : option fndecl := find_fn_in t f (pr_fns prog).
Fixpoint find_const_in (t c : name) (l : list constdecl) : option expr :=
  match l with
  | [] => None
  | d :: l => if same c (cd_name d)
              then (if same t (cd_self d) then Some (cd_expr d) else find_const_in t c l)
              else find_const_in t c l
  end.
Definition find_const (t c : name) : option expr := find_const_in t c (pr_consts prog).
Fixpoint assoc {A} (x : name) (l : list (name * A)) : option A :=
  match l with
  | [] => None
  | (y, v) :: l => if same x y then Some v else assoc x l
  end.
Fixpoint firsts {A B} (l : list (A * B)) : list A := match l with [] => [] | (a, _) :: l => a :: firsts l end.
Fixpoint seconds {A B} (l : list (A * B)) : list B := match l with [] => [] | (_, b) :: l => b :: seconds l end.
Fixpoint revapp {A} (l m : list A) : list A := match l with [] => m | x :: l => revapp l (x :: m) end.
(* the parameters that are &mut *)
Definition modes (t f : name) : list bool :=
  match find_fn t f with Some d => seconds (fn_params d) | None => [] end.
(* does a method of this name change its receiver? *)
Fixpoint mut_fn (m : name) (l : list fndecl) : bool :=
  match l with
  | [] => false
  | d :: l => if same m (fn_name d)
              then match fn_params d with (_, b) :: _ => b | [] => false end
              else mut_fn m l
  end.
Definition is_mut (m : name) : bool :=
  match m with id_push | id_pop | id_swap_remove | id_gen => true | _ => mut_fn m (pr_fns prog) end.
(* the type that Self stands for *)
Definition self_ty (e : env) (t : name) : name :=
  if same t id_Self then match look id_Self e with Some (VStr s) => s | _ => t end else t.
(* a literal in a field takes the type of the field *)
Fixpoint typed_fields (ts : list (name * name)) (l : env) : env :=
  match l with
  | [] => []
  | (f, v) :: l =>
      (f, match v with
          | VInt Lit n => match assoc f ts with
                          | Some t => match ty_of t with Some t => VInt t n | None => v end
                          | None => v
                          end
          | _ => v
          end) :: typed_fields ts l
  end.
Definition new_struct (t : name) (l : env) : val :=
  VStruct t (match assoc t (pr_structs prog) with Some ts => typed_fields ts l | None => l end).
Fixpoint zip {A B} (l : list A) (m : list B) : list (A * B) :=
  match l, m with a :: l, b :: m => (a, b) :: zip l m | _, _ => [] end.
Definition stuck (s : name) : cfg := Halt (RStuck s).
Definition prim_cfg (p : prim) (e : env) (k : kont) (msg : name) : cfg :=
  match p with
  | PVal v => Run (CVal v) e k
  | PMay x => BrO x e k (Halt RPanic)
  | PElse x w => BrO x e k (Run (CVal w) e k)
  | PTest b v => BrB b (Run (CVal v) e k) (Halt RPanic)
  | PBad => stuck msg
  end.

(* the call of a function: its variables, and the places to write back *)
Fixpoint bind_params (e : env) (ps : list param) (args : list val)
  : option (env * list (name * place)) :=
  match ps, args with
  | [], [] => Some ([], [])
  | (p, m) :: ps, a :: args =>
      if m then
        match p, a with
        | PId x, VRef q =>
            match fetch e q with
            | Some v => match bind_params e ps args with
                        | Some (bs, outs) => Some ((x, v) :: bs, (x, q) :: outs)
                        | None => None
                        end
            | None => None
            end
        | _, _ => None
        end
      else match bind_pat p a with
           | Some l => match bind_params e ps args with
                       | Some (bs, outs) => Some ((cat l bs), outs)
                       | None => None
                       end
           | None => None
           end
  | _, _ => None
  end.
(* write the &mut parameters of the callee back *)
Fixpoint write_back (outs : list (name * place)) (callee e : env) : option env :=
  match outs with
  | [] => Some e
  | (x, q) :: outs =>
      match look x callee with
      | Some v => write_back outs callee (store e q v)
      | None => None
      end
  end.
(* a reference that is returned is a place of the caller *)
Definition ret_val (outs : list (name * place)) (v : val) : option val :=
  match v with
  | VRef (x, ps) => match assoc x outs with Some q => Some (VRef (deeper q ps)) | None => None end
  | _ => Some v
  end.
Definition leave (n : nat) (outs : list (name * place)) (saved : env) (v : val) (e : env) (k : kont) : cfg :=
  match write_back outs (trim n e) saved, ret_val outs v with
  | Some e', Some v' => Resume v' e' k
  | _, _ => stuck id_
  end.

(* the last step of a call or a literal *)
Definition apply (b : build) (vs : list val) (e : env) (k : kont) : cfg :=
  match b with
  | BTup => Run (CVal (VTup vs)) e k
  | BArr => Run (CVal (VArr vs)) e k
  | BStruct t fs => Run (CVal (new_struct t (zip fs vs))) e k
  | BMove v fs =>
      let l := zip fs vs in
      match v, look id_from l, look id_to l, look id_promote l, look id_piece l with
      | id_Normal, Some (VSq f), Some (VSq t), Some (VBool b), None => Run (CVal (VMove (Normal f t b))) e k
      | id_Drop, None, Some (VSq t), None, Some (VPiece p) => Run (CVal (VMove (Drop t p))) e k
      | _, _, _, _, _ => stuck id_
      end
  (* println! is in TextPrint.v: no run here gets past it *)
  | BMacro m =>
      match m with
      | id_vec => Run (CVal (VVec None vs)) e k
      | id_unreachable => Halt RPanic
      | _ => stuck m
      end
  | BCall t f =>
      match find_fn t f with
      | Some _ => Enter t f vs e k
      | None =>
          match memory t f vs e with
          | Some (e, v) => Run (CVal v) e k
          | None =>
          match t, f, vs with
          | id_, id_Some, [v] => Run (CVal (VOpt (Some v))) e k
          | id_, _, _ =>
              (* a tuple struct *)
              match assoc (self_ty e f) (pr_structs prog) with
              | Some _ => Run (CVal (new_struct (self_ty e f) (zip digits vs))) e k
              | None => stuck f
              end
          | id_ArrayVec, id_new, [] =>
              (* the capacity is in the type of the result of legal_moves *)
              match find_const id_ id_MAX_LEGAL_MOVES with
              | Some (ELit n) => Run (CVal (VVec (Some n) [])) e k
              | _ => stuck id_
              end
          | id_StdRng, id_seed_from_u64, [VInt _ s] =>
              match statics id_StdRng with
              | Some (VGen g) => Run (CVal (VRng (g (Z.to_N s)) 0%N)) e k
              | _ => stuck f
              end
          | id_Lazy, id_new, [VClos [] b] => Run (CEval b) [] (KConst e :: k)
          | _, _, _ => prim_cfg (ext_fn t f vs) e k f
          end
          end
      end
  | BMethod v m =>
      match v with
      | VStruct t _ => match find_fn t m with
                       | Some _ => Enter t m (v :: vs) e k
                       | None => stuck m
                       end
      | VIter l => match m, vs with
                   | id_filter, [VClos ps b] => BrF l ps b [] e k
                   | _, _ => prim_cfg (ext_method checks m v vs) e k m
                   end
      | _ => prim_cfg (ext_method checks m v vs) e k m
      end
  | BMut p v m =>
      match v with
      | VStruct t _ => match find_fn t m with
                       | Some _ => Enter t m (VRef p :: vs) e k
                       | None => stuck m
                       end
      | VVec cap l =>
          match m, vs with
          | id_push, [x] =>
              let c := Run (CVal VUnit) (write e p (VVec cap (rev (x :: rev l)))) k in
              match cap with
              | Some n => BrB (N.of_nat (List.length l) <? n)%N c (Halt RPanic)
              | None => c
              end
          | id_pop, [] => Run (CVal (VOpt (hd_error (rev l)))) (write e p (VVec cap (removelast l))) k
          | id_swap_remove, [VInt _ n] =>
              BrO (option_map (fun l' => VTup [VVec cap l'; list_at l n]) (swap_remove (Z.to_nat n) l))
                  e (KSwap p :: k) (Halt RPanic)
          | _, _ => stuck m
          end
      | VRng g n =>
          match m, vs with
          (* of type u64, as the field of Key *)
          | id_gen, [] => Run (CVal (VInt U64 (Z.of_N (N.land (g n) 0xffffffffffffffff)))) (write e p (VRng g (n + 1)%N)) k
          | _, _ => stuck m
          end
      | _ => stuck m
      end
  end.

(* evaluate the arguments that are left *)
Definition args (b : build) (done : list val) (todo : list expr) (ms : list bool) (e : env) (k : kont) : cfg :=
  match todo with
  | [] => apply b (revapp done []) e k
  | a :: todo =>
      match ms with
      | true :: ms => Run (CPlace a) e (KArgs b done todo ms :: k)
      | _ :: ms => Run (CEval a) e (KArgs b done todo ms :: k)
      | [] => Run (CEval a) e (KArgs b done todo [] :: k)
      end
  end.
Definition scoped (b : expr) (bs e : env) (k : kont) : cfg :=
  Run (CEval b) (cat bs e) (KScope (elen e) :: k).

(* the last two names of a path *)
Fixpoint last2 (p : path) : name * name :=
  match p with
  | [] => (id_, id_)
  | [f] => (id_, f)
  | [t; f] => (t, f)
  | _ :: p => last2 p
  end.

Definition step_eval (x : expr) (e : env) (k : kont) : cfg :=
  match x with
  | ELit n => Run (CVal (VInt Lit (lit n))) e k
  | EStr s => Run (CVal (VStr s)) e k
  | EPath p =>
      let (t, f) := last2 p in
      match (match t with id_ => look f e | _ => None end) with
      | Some v => Run (CVal v) e k
      | None =>
          match ext_const p with
          | Some v => Run (CVal v) e k
          | None =>
              match (match t with id_ => statics f | _ => None end) with
              | Some v => Run (CVal v) e k
              | None =>
                  match find_const (self_ty e t) f with
                  | Some c => Run (CEval c) [(id_Self, VStr (self_ty e t))] (KConst e :: k)
                  | None => stuck f
                  end
              end
          end
      end
  | EUn op a =>
      match op with
      | id_op_ampmut => Run (CPlace a) e (KToRef :: k)
      | _ => Run (CEval a) e (KUn op :: k)
      end
  | EBin op a b =>
      match op with
      | id_op_andand => Run (CEval a) e (KAnd b :: k)
      | id_op_oror => Run (CEval a) e (KOr b :: k)
      | _ => Run (CEval a) e (KBin1 op b :: k)
      end
  | EAssign a b => Run (CEval b) e (KAssign a :: k)
  | EOpAssign op a b => Run (CEval b) e (KOpAssign op a :: k)
  | ECast a t => Run (CEval a) e (KCast t :: k)
  | ECall f l =>
      match f with
      | EPath p => let (t, f) := last2 p in
                   let t := self_ty e t in
                   args (BCall t f) [] l (modes t f) e k
      | _ => stuck id_
      end
  | EMethod a m l =>
      (* a pointer to a variable is its place *)
      if (match a with EPath [_] => same m id_as_ptr | _ => false end) then Run (CPlace a) e (KToRef :: k)
      else if is_mut m then Run (CPlace a) e (KRecvMut m l :: k) else Run (CEval a) e (KRecv m l :: k)
  | EField a f => Run (CEval a) e (KField f :: k)
  | EIndex a i => Run (CEval a) e (KIndex1 i :: k)
  | EStruct p l =>
      match p with
      | [id_Move; v] => args (BMove v (firsts l)) [] (seconds l) [] e k
      | [t] => args (BStruct (self_ty e t) (firsts l)) [] (seconds l) [] e k
      | _ => stuck id_
      end
  | ETup l => args BTup [] l [] e k
  | EArr l => args BArr [] l [] e k
  | ERepeat a n => Run (CEval a) e (KRepeat1 n :: k)
  | EBlock b => Run (CStmts b) e (KScope (elen e) :: k)
  | EIf c t f => Run (CEval c) e (KIf t f :: k)
  | EIfLet p c t f => Run (CEval c) e (KMatch [(p, t); (PWild, f)] :: k)
  | EMatch c arms => Run (CEval c) e (KMatch arms :: k)
  | EWhile c b => Run (CEval c) e (KWhileC c b :: k)
  | EWhileLet p c b => Run (CEval c) e (KWhileLet p c b :: k)
  | EFor p c b => Run (CEval c) e (KForIn p b :: k)
  | EReturn a => Run (CEval a) e (KReturn :: k)
  | EBreak => Run CBreak e k
  | EContinue => Run CContinue e k
  | EClosure ps b => Run (CVal (VClos ps b)) e k
  | EMacro m l => args (BMacro m) [] l [] e k
  end.

Definition step_place (x : expr) (e : env) (k : kont) : cfg :=
  match x with
  | EPath [x] =>
      match look x e with
      | Some (VRef p) => BrO (read e p) e (KPRead p :: k) (stuck x)
      | Some v => Run (CAt (x, []) v) e k
      | None => stuck x
      end
  | EField a f => Run (CPlace a) e (KPField f :: k)
  | EIndex a i => Run (CPlace a) e (KPIndex1 i :: k)
  | EUn id_op_ampmut a => Run (CPlace a) e k
  (* a parameter of type &mut is the value in the callee *)
  | EUn id_op_star (EPath [x]) => Run (CPlace (EPath [x])) e k
  | EUn id_op_star a => Run (CEval a) e (KPDeref :: k)
  | _ => stuck id_
  end.

Definition index (v : val) (n : Z) (e : env) (k : kont) : cfg :=
  match v with
  | VArr l => BrO (list_get l n) e k (Halt RPanic)
  | VVec _ l => BrO (list_get l n) e k (Halt RPanic)
  | _ => stuck id_
  end.
Definition val_for (v : val) (p : pat) (b : expr) (e : env) (k : kont) : cfg :=
  match elements v with Some l => BrL l p b e k | None => stuck id_ end.

(* a value arrives at a frame *)
Definition step_val (v : val) (e : env) (f : frame) (k : kont) : cfg :=
  match f with
  | KBin1 op b => Run (CEval b) e (KBin2 op v :: k)
  | KBin2 op a =>
      match a with
      | VStruct t _ => Enter t (op_method op) [a; v] e k
      | _ => prim_cfg (bin checks op a v) e k op
      end
  | KUn op =>
      match v, op with
      | VRef p, id_op_star => BrO (read e p) e k (stuck id_)
      | VStruct t _, id_op_bang => Enter t (op_method op) [v] e k
      | _, _ => prim_cfg (un op v) e k op
      end
  | KAnd b => match v with
              | VBool x => BrB x (Run (CEval b) e k) (Run (CVal (VBool false)) e k) | _ => stuck id_ end
  | KOr b => match v with
             | VBool x => BrB x (Run (CVal (VBool true)) e k) (Run (CEval b) e k) | _ => stuck id_ end
  | KCast t => match v, ty_of t with
               | VInt a n, Some t => Run (CVal (VInt t (cast a t n))) e k
               | VRef _, None => Run (CVal v) e k        (* a pointer as a pointer *)
               | _, _ => stuck id_
               end
  | KField f => match v with
                | VRef p => BrO (read e p) e (KField f :: k) (stuck f)
                | _ => match field v f with Some w => Run (CVal w) e k | None => stuck f end
                end
  | KIndex1 i => Run (CEval i) e (KIndex2 v :: k)
  | KIndex2 a => match v with VInt _ n => index a n e k | _ => stuck id_ end
  | KArgs b done todo ms => args b (v :: done) todo ms e k
  | KRecv m l =>
      match v with
      | VRef p => BrO (read e p) e (KRecv m l :: k) (stuck m)
      | VStruct t _ => args (BMethod v m) [] l (tl (modes t m)) e k
      | _ => args (BMethod v m) [] l [] e k
      end
  | KRepeat1 n => Run (CEval n) e (KRepeat2 v :: k)
  | KRepeat2 a => match v with
                  | VInt _ n => Run (CVal (VArr (repeat a (Z.to_nat n)))) e k | _ => stuck id_ end
  | KIf t f => match v with VBool x => BrB x (Run (CEval t) e k) (Run (CEval f) e k) | _ => stuck id_ end
  | KMatch arms => Run (CMatch v arms) e k
  | KArm p b => match bind_pat p v with Some bs => scoped b bs e k | None => stuck id_ end
  | KNext w arms => Run (CMatch w arms) e k
  | KLet p l => match bind_pat p v with Some bs => Run (CStmts l) (cat bs e) k | None => stuck id_ end
  | KSeq l => Run (CStmts l) e k
  | KScope n => Run (CVal v) (trim n e) k
  | KAssign a => Run (CPlace a) e (KStore v :: k)
  | KOpAssign op a => Run (CPlace a) e (KOpStore op v :: k)
  | KSet p => Run (CVal VUnit) (write e p v) k
  | KSwap p => match v with VTup [w; r] => Run (CVal r) (write e p w) k | _ => stuck id_ end
  | KPIndex2 p a => match v with VInt _ n => index a n e (KPIndex3 p n :: k) | _ => stuck id_ end
  | KPIndex3 p n => Run (CAt (below p [PI n]) v) e k
  | KPDeref => match v with VRef p => BrO (read e p) e (KPRead p :: k) (stuck id_) | _ => stuck id_ end
  | KPRead p => Run (CAt p v) e k
  | KForIn p b => val_for v p b e k
  | KFor p b l n => BrL l p b (trim n e) k
  | KWhileC c b => match v with
                   | VBool x => BrB x (Run (CEval b) e (KWhileB c b (elen e) :: k)) (Resume VUnit e k)
                   | _ => stuck id_
                   end
  | KWhileB c b n => Run (CEval (EWhile c b)) (trim n e) k
  | KWhileLet p c b =>
      match pmatch p v with
      | MSome x q => BrO x e (KWhileBind p q c b :: k) (Resume VUnit e k)
      | _ => stuck id_
      end
  | KWhileBind p q c b =>
      match bind_pat q v with
      | Some bs => Run (CEval b) (cat bs e) (KWhileLetB p c b (elen e) :: k)
      | None => stuck id_
      end
  | KWhileLetB p c b n => Run (CEval (EWhileLet p c b)) (trim n e) k
  | KReturn => Run (CReturn v) e k
  | KCall n outs saved => leave n outs saved v e k
  | KConst saved => Resume v saved k
  | KFilter ps b x l acc n =>
      match v with
      | VBool c => BrB c (BrF l ps b (x :: acc) (trim n e) k) (BrF l ps b acc (trim n e) k)
      | _ => stuck id_
      end
  | _ => stuck id_
  end.

(* a place arrives at a frame *)
Definition step_at (p : place) (v : val) (e : env) (f : frame) (k : kont) : cfg :=
  match f with
  | KPField f => match field v f with Some w => Run (CAt (below p [PF f]) w) e k | None => stuck f end
  | KPIndex1 i => Run (CEval i) e (KPIndex2 p v :: k)
  | KToRef => Run (CVal (VRef p)) e k
  | KArgs b done todo ms => args b (VRef p :: done) todo ms e k
  | KRecvMut m l =>
      match v with
      | VStruct t _ => args (BMut p v m) [] l (tl (modes t m)) e k
      | _ => args (BMut p v m) [] l [] e k
      end
  | KStore w => Run (CVal VUnit) (write e p w) k
  | KOpStore op w =>
      match v with
      | VStruct t _ => Enter t (opa_method op) [VRef p; w] e k
      | _ => prim_cfg (bin checks op v w) e (KSet p :: k) op
      end
  | _ => stuck id_
  end.

Definition step_match (v : val) (arms : list (pat * expr)) (e : env) (k : kont) : cfg :=
  match arms with
  | [] => stuck id_
  | (p, b) :: arms =>
      match pmatch p v with
      | MYes bs => scoped b bs e k
      | MNo => Run (CMatch v arms) e k
      | MTest c bs => BrB c (scoped b bs e k) (Run (CMatch v arms) e k)
      | MSome x q => BrO x e (KArm q b :: k) (Run (CMatch v arms) e k)
      | MNone x => BrO x e (KNext v arms :: k) (scoped b [] e k)
      | MBad => stuck id_
      end
  end.

Definition step_stmts (l : list stmt) (e : env) (k : kont) : cfg :=
  match l with
  | [] => Run (CVal VUnit) e k
  | [STail x] => Run (CEval x) e k
  | SExpr x :: l => Run (CEval x) e (KSeq l :: k)
  | SLet (PId x) None :: l => Run (CStmts l) ((x, VUninit) :: e) k
  | SLet p (Some x) :: l => Run (CEval x) e (KLet p l :: k)
  | _ => stuck id_
  end.

(* "return", "break", "continue" pass a frame *)
Definition step_return (v : val) (e : env) (f : frame) (k : kont) : cfg :=
  match f with
  | KCall n outs saved => leave n outs saved v e k
  | _ => Run (CReturn v) e k
  end.
Definition step_break (e : env) (f : frame) (k : kont) : cfg :=
  match f with
  | KFor _ _ _ n => Resume VUnit (trim n e) k
  | KWhileB _ _ n => Resume VUnit (trim n e) k
  | KWhileLetB _ _ _ n => Resume VUnit (trim n e) k
  | KCall _ _ _ => stuck id_
  | _ => Run CBreak e k
  end.
Definition step_continue (e : env) (f : frame) (k : kont) : cfg :=
  match f with
  | KFor p b l n => BrL l p b (trim n e) k
  | KWhileB c b n => Run (CEval (EWhile c b)) (trim n e) k
  | KWhileLetB p c b n => Run (CEval (EWhileLet p c b)) (trim n e) k
  | KCall _ _ _ => stuck id_
  | _ => Run CContinue e k
  end.

Definition step_run (c : ctl) (e : env) (k : kont) : cfg :=
  match c with
  | CEval x => step_eval x e k
  | CPlace x => step_place x e k
  | CStmts l => step_stmts l e k
  | CMatch v arms => step_match v arms e k
  | CVal v => match k with
              | f :: k => step_val v e f k
              | [] => Halt (RDone v e)
              end
  | CAt p v => match k with f :: k => step_at p v e f k | [] => stuck id_ end
  | CReturn v => match k with f :: k => step_return v e f k | [] => stuck id_ end
  | CBreak => match k with f :: k => step_break e f k | [] => stuck id_ end
  | CContinue => match k with f :: k => step_continue e f k | [] => stuck id_ end
  end.

Definition enter (t f : name) (vs : list val) (e : env) (k : kont) : cfg :=
  match find_fn t f with
  | Some d =>
      match bind_params e (fn_params d) vs with
      | Some (bs, outs) =>
          let e' := (cat bs [(id_Self, VStr t)]) in
          Run (CEval (fn_body d)) e' (KCall (elen e') outs e :: k)
      | None => stuck f
      end
  | None => stuck f
  end.

Definition step (c : cfg) : cfg :=
  match c with
  | Run c e k => step_run c e k
  | BrB b c1 c2 => if b then c1 else c2
  | BrO x e k c2 => match x with Some v => Run (CVal v) e k | None => c2 end
  | BrL l p b e k =>
      match l with
      | [] => Resume VUnit e k
      | x :: l => match bind_pat p x with
                  | Some bs => Run (CEval b) (cat bs e) (KFor p b l (elen e) :: k)
                  | None => stuck id_
                  end
      end
  | BrF l ps b acc e k =>
      match l with
      | [] => Resume (VIter (rev acc)) e k
      | x :: l => match ps with
                  | [p] => match bind_pat p x with
                           | Some bs => Run (CEval b) (cat bs e) (KFilter ps b x l acc (elen e) :: k)
                           | None => stuck id_
                           end
                  | _ => stuck id_
                  end
      end
  | Enter t f vs e k => enter t f vs e k
  | Resume v e k => Run (CVal v) e k
  | Halt _ => c
  end.

Fixpoint iter (n : nat) (c : cfg) : cfg := match n with O => c | S n => iter n (step c) end.

(** The call of a function with the given arguments in the environment [e] ends
    with the result [r]. *)
Definition calls (t f : name) (vs : list val) (e : env) (r : result) : Prop :=
  exists n, iter n (Enter t f vs e []) = Halt r.

Lemma iter_add n m c : iter (n + m) c = iter m (iter n c).
Proof. revert c. induction n as [|n IH]; intros c; cbn [iter Nat.add]; [reflexivity|apply IH]. Qed.
Lemma iter_halt n r : iter n (Halt r) = Halt r.
Proof. induction n as [|n IH]; cbn [iter step]; [reflexivity|exact IH]. Qed.

(** There is only one result. *)
Lemma calls_fun t f vs e r r' : calls t f vs e r -> calls t f vs e r' -> r = r'.
Proof.
  intros [n H] [m H'].
  assert (E : iter (n + m) (Enter t f vs e []) = iter (m + n) (Enter t f vs e [])) by (f_equal; apply PeanoNat.Nat.add_comm).
  rewrite !iter_add, H, H', !iter_halt in E. congruence.
Qed.

(** ** Runs in large steps *)

(* to the next statement, arm of a match, or decision *)
Fixpoint run (n : nat) (c : cfg) : cfg :=
  match n with
  | O => c
  | S n => match c with
           | Run (CStmts _) _ _ | Run (CMatch _ _) _ _ => c
           | Run _ _ _ => run n (step c)
           | _ => c
           end
  end.
Definition steps (c c' : cfg) : Prop := exists n, iter n c = c'.

Lemma steps_refl c : steps c c.
Proof. exists O. reflexivity. Qed.
Lemma steps_trans a b c : steps a b -> steps b c -> steps a c.
Proof. intros [n H] [m H']. exists (n + m)%nat. rewrite iter_add, H. exact H'. Qed.
Lemma steps_one c c' : steps (step c) c' -> steps c c'.
Proof. intros [n H]. exists (S n). exact H. Qed.
Lemma steps_run n : forall c c', steps (run n c) c' -> steps c c'.
Proof.
  induction n as [|n IH]; intros c c' H; cbn [run] in H; [exact H|].
  destruct c as [[]| | | | | | |]; try exact H; apply steps_one, IH, H.
Qed.
Lemma steps_calls t f vs e r c : steps (Enter t f vs e []) c -> steps c (Halt r) -> calls t f vs e r.
Proof. intros H H'. exact (steps_trans _ _ _ H H'). Qed.
End Sem.
