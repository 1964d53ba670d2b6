(** * The changes of the key by all moves, with the table of the crate *)

From Coq Require Import List Bool NArith ZArith Lia Permutation.
From Verif Require Import Types Rules Zobrist Squares StdRng SeedTable Digits.
Import ListNotations.

(* the table of the crate: ZOBRIST_TABLE with the numbers of StdRng *)
Definition crate_table : ztable := zobrist_table crate_rng.

(** ** The entries as digits *)

Definition cut (x : N) : digits := code 20 (N.shiftr (N.ldiff (N.land x 0xffffffffffffffff) 1) 1).
Definition board_rows : list (list digits) := Eval vm_compute in
  map (fun r => map (fun j => cut (drawn (14 * r + j))) (seq 0 14)) (seq 0 162).
Definition hand_rows : list (list digits) := Eval vm_compute in
  map (fun r => map (fun j => cut (drawn (2268 + 18 * r + j))) (seq 0 18)) (seq 0 14).
Definition ci (c : color) : nat := match c with Black => 0 | White => 1 end.
Definition ki (k : kind) : nat := Eval cbv in N.to_nat (kind_index k).
Definition i9n (i : i9) : nat :=
  match i with n1 => 0 | n2 => 1 | n3 => 2 | n4 => 3 | n5 => 4 | n6 => 5 | n7 => 6 | n8 => 7 | n9 => 8 end.
Definition si (s : square) : nat := 9 * i9n (sqf s) + i9n (sqr s).
Definition brow (s : square) (c : color) : list digits := nth (2 * si s + ci c) board_rows [].
Definition hrow (c : color) (k : kind) : list digits := nth (7 * ci c + ki k) hand_rows [].
Definition bq (s : square) (c : color) (k : kind) : digits := nth (ki k) (brow s c) QE.
Definition hq (c : color) (k : kind) (n : nat) : digits := nth n (hrow c k) QE.

(** ** What moves can do to the key *)

(* the piece [k] comes from [s], is [k'] afterwards *)
Record arrival := mkA { a_from : square; a_kind : kind; a_new : kind }.
Inductive change :=
| Taking (c : color) (t : square) (a : arrival) (cap : kind) (n : nat)
| Quiet (c : color) (t : square) (a : arrival)
| Placing (c : color) (t : square) (k : kind) (n : nat).

(* where a piece that goes to [t] by [n] displacements comes from *)
Definition source (c : color) (t : square) (v : Z * Z) (n : Z) : option square :=
  let w := orient c v in sq_shift t (- (n * fst w)) (- (n * snd w)).
Definition strides (k : kind) : list ((Z * Z) * Z) :=
  map (fun v => (v, 1%Z)) (steps k) ++
  flat_map (fun v => map (fun n => (v, n)) [1; 2; 3; 4; 5; 6; 7; 8]%Z) (rides k).
Definition vec_eqb (a b : Z * Z) : bool := Z.eqb (fst a) (fst b) && Z.eqb (snd a) (snd b).
(* of two opposite ways of moving only one is counted *)
Definition canonical (k : kind) (v : Z * Z) : bool :=
  negb (existsb (vec_eqb (- fst v, - snd v)%Z) (steps k ++ rides k))
  || (0 <? fst v)%Z || ((fst v =? 0) && (0 <? snd v))%Z.
Definition zoneb (c : color) (s : square) : bool :=
  match c, sqr s with
  | Black, (n1 | n2 | n3) | White, (n7 | n8 | n9) => true
  | _, _ => false
  end.
Definition arrivals_by (quiet : bool) (c : color) (t : square) (k : kind) : list arrival :=
  flat_map (fun vn =>
    match source c t (fst vn) (snd vn) with
    | None => []
    | Some s =>
      (if negb quiet || canonical k (fst vn) then [mkA s k k] else []) ++
      match promote_kind k with
      | Some k' => if zoneb c s || zoneb c t then [mkA s k k'] else []
      | None => []
      end
    end) (strides k).
Definition arrivals (quiet : bool) (c : color) (t : square) : list arrival :=
  flat_map (arrivals_by quiet c t) all_kinds.
Definition full (k : kind) : nat :=
  match k with
  | Pawn => 18 | Lance | Knight | Silver | Gold => 4 | Bishop | Rook => 2 | _ => 0
  end.
Definition prizes : list (kind * nat) :=
  flat_map (fun k => map (fun n => (k, n)) (seq 0 (full (base_kind k)))) all_kinds.
Definition held : list (kind * nat) :=
  flat_map (fun k => map (fun n => (k, n)) (seq 0 (full k))) hand_kinds.

Definition changes_at (c : color) (t : square) : list change :=
  flat_map (fun a => map (fun p => Taking c t a (fst p) (snd p)) prizes) (arrivals false c t) ++
  map (Quiet c t) (arrivals true c t) ++
  map (fun p => Placing c t (fst p) (snd p)) held.
Definition changes : list change :=
  flat_map (fun c => flat_map (changes_at c) all_squares) all_colors.

Definition arrive (c : color) (t : square) (a : arrival) : digits :=
  qxor (bq (a_from a) c (a_kind a)) (bq t c (a_new a)).
Definition prize (c : color) (t : square) (p : kind * nat) : digits :=
  qxor (bq t (flip c) (fst p)) (hq c (base_kind (fst p)) (snd p)).
Definition effect (x : change) : digits :=
  match x with
  | Taking c t a cap n => qxor (arrive c t a) (prize c t (cap, n))
  | Quiet c t a => arrive c t a
  | Placing c t k n => qxor (bq t c k) (hq c k n)
  end.

(** ** The check *)

Definition sift_at (d : digit) (c : color) (acc : list digits) (t : square) : option (list digits) :=
  match split4 (map (prize c t) prizes) [] [] [] [] with
  | None => None
  | Some f =>
      let acc := fold_left (add_row d f) (map (arrive c t) (arrivals false c t)) acc in
      let acc := add_rests d (map (arrive c t) (arrivals true c t)) acc in
      Some (add_rests d (map (fun p => qxor (bq t c (fst p)) (hq c (fst p) (snd p))) held) acc)
  end.
Fixpoint sift (d : digit) (l : list (color * square)) (acc : list digits) : option (list digits) :=
  match l with
  | [] => Some acc
  | (c, t) :: l => match sift_at d c acc t with Some acc => sift d l acc | None => None end
  end.
Definition all_ct : list (color * square) := list_prod all_colors all_squares.
Definition distinct (d : digit) : bool :=
  match sift d all_ct [] with Some l => nodup 19 l | None => false end.

Lemma distinct0 : distinct D0 = true.
Proof. vm_cast_no_check (eq_refl true). Qed.
Lemma distinct1 : distinct D1 = true.
Proof. vm_cast_no_check (eq_refl true). Qed.
Lemma distinct2 : distinct D2 = true.
Proof. vm_cast_no_check (eq_refl true). Qed.
Lemma distinct3 : distinct D3 = true.
Proof. vm_cast_no_check (eq_refl true). Qed.
Lemma board_rows_ok : board_rows =
  map (fun r => map (fun j => cut (drawn (14 * r + j))) (seq 0 14)) (seq 0 162).
Proof. vm_cast_no_check (eq_refl board_rows). Qed.
Lemma hand_rows_ok : hand_rows =
  map (fun r => map (fun j => cut (drawn (2268 + 18 * r + j))) (seq 0 18)) (seq 0 14).
Proof. vm_cast_no_check (eq_refl hand_rows). Qed.
