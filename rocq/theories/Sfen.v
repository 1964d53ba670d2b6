(** * Concrete positions, for the examples and witnesses

    Reads the board and hand fields of an SFEN string.  Not part of the model
    (yasai leaves parsing to shogi_usi_parser). *)

From Coq Require Import List Bool NArith ZArith String Ascii.
From Verif Require Import Types.
Import ListNotations.
Local Open Scope char_scope.

Definition letter (a : ascii) : option piece :=
  match a with
  | "P" => Some (mkP Pawn Black) | "p" => Some (mkP Pawn White)
  | "L" => Some (mkP Lance Black) | "l" => Some (mkP Lance White)
  | "N" => Some (mkP Knight Black) | "n" => Some (mkP Knight White)
  | "S" => Some (mkP Silver Black) | "s" => Some (mkP Silver White)
  | "G" => Some (mkP Gold Black) | "g" => Some (mkP Gold White)
  | "B" => Some (mkP Bishop Black) | "b" => Some (mkP Bishop White)
  | "R" => Some (mkP Rook Black) | "r" => Some (mkP Rook White)
  | "K" => Some (mkP King Black) | "k" => Some (mkP King White)
  | _ => None
  end.

Definition digit (a : ascii) : option N :=
  let n := N_of_ascii a in
  if ((48 <=? n) && (n <=? 57))%N then Some (n - 48)%N else None.

Definition next_sq (f r : Z) : option square :=
  match i9_of_Z f, i9_of_Z r with
  | Some f, Some r => Some (Sq f r)
  | _, _ => None
  end.

(* rank by rank from the top, each from file 9 down to file 1 *)
Fixpoint read_board (s : string) (f r : Z) (pro : bool)
  (b : sqarr (option piece)) : sqarr (option piece) :=
  match s with
  | EmptyString => b
  | String a s =>
      match a with
      | "/" => read_board s 9 (r + 1) false b
      | "+" => read_board s f r true b
      | _ =>
          match digit a with
          | Some n => read_board s (f - Z.of_N n) r false b
          | None =>
              let x := letter a in
              let x := if pro then match x with
                                   | Some p => promote_piece p
                                   | None => None end else x in
              let b := match next_sq f r with
                       | Some q => sa_set b q x | None => b end in
              read_board s (f - 1) r false b
          end
      end
  end.

Fixpoint read_hands (s : string) (num : N) (h : carr hand) : carr hand :=
  match s with
  | EmptyString => h
  | String a s =>
      match digit a with
      | Some n => read_hands s (10 * num + n) h
      | None =>
          match letter a with
          | Some p =>
              let n := if (num =? 0)%N then 1%N else num in
              read_hands s 0 (c_set h (pcolor p)
                 (hand_set (c_get h (pcolor p)) (pkind p) n))
          | None => read_hands s 0 h
          end
      end
  end.

Definition sfen (b : string) (c : color) (h : string) : partial :=
  mkPartial c 1 (read_hands h 0 (C2 hand_empty hand_empty))
    (read_board b 9 1 false (sa_make (fun _ => None))).

Definition startpos : partial :=
  sfen "lnsgkgsnl/1r5b1/ppppppppp/9/9/9/PPPPPPPPP/1B5R1/LNSGKGSNL" Black "-".
