(** * The text of moves and of the lines of examples/perft.rs

    shogi_core is not part of /repo: ToUsi is taken to write moves as the USI protocol
    has them. *)

From Coq Require Import List Bool NArith String Ascii Decimal DecimalString DecimalN.
From Verif Require Import Types.
Import ListNotations.
Open Scope string_scope.

(* shogi_core: the file is a digit *)
Definition file_char (i : i9) : ascii :=
  match i with
  | n1 => "1" | n2 => "2" | n3 => "3" | n4 => "4" | n5 => "5"
  | n6 => "6" | n7 => "7" | n8 => "8" | n9 => "9"
  end%char.
(* shogi_core: the rank is a letter *)
Definition rank_char (i : i9) : ascii :=
  match i with
  | n1 => "a" | n2 => "b" | n3 => "c" | n4 => "d" | n5 => "e"
  | n6 => "f" | n7 => "g" | n8 => "h" | n9 => "i"
  end%char.
(* shogi_core: Square::to_usi, followed by [s] *)
Definition square_text (q : square) (s : string) : string :=
  String (file_char (sqf q)) (String (rank_char (sqr q)) s).
(* shogi_core: the letter of a piece, without its colour *)
Definition kind_text (k : kind) : string :=
  match k with
  | Pawn => "P" | Lance => "L" | Knight => "N" | Silver => "S" | Gold => "G" | Bishop => "B" | Rook => "R" | King => "K"
  | ProPawn => "+P" | ProLance => "+L" | ProKnight => "+N" | ProSilver => "+S" | ProBishop => "+B" | ProRook => "+R"
  end.
(* shogi_core: Move::to_usi_owned (examples/perft.rs:43) *)
Definition usi (m : move) : string :=
  match m with
  | Normal f t b => square_text f (square_text t (if b then "+" else ""))
  | Drop t p => kind_text (pkind p) ++ "*" ++ square_text t ""
  end.
(* Display of usize *)
Definition decimal (n : N) : string := NilEmpty.string_of_uint (N.to_uint n).
(* examples/perft.rs:43: println!("{}: {count}", m.to_usi_owned()) *)
Definition newline : ascii := "010".
Definition line_text (x : move * N) : string := usi (fst x) ++ ": " ++ decimal (snd x) ++ String newline "".
(* all that perft prints *)
Definition output (l : list (move * N)) : string := fold_right (fun x s => line_text x ++ s) "" l.

Lemma file_inj i j : file_char i = file_char j -> i = j.
Proof. destruct i, j; cbn; intros H; try reflexivity; discriminate H. Qed.
Lemma rank_inj i j : rank_char i = rank_char j -> i = j.
Proof. destruct i, j; cbn; intros H; try reflexivity; discriminate H. Qed.
Lemma square_inj q r s t : square_text q s = square_text r t -> q = r /\ s = t.
Proof.
  destruct q as [f r0], r as [f' r1]. unfold square_text. cbn [sqf sqr]. intros H. injection H as A B C.
  rewrite (file_inj _ _ A), (rank_inj _ _ B), C. auto.
Qed.
Lemma app_assoc_s a b c : (a ++ b) ++ c = a ++ (b ++ c).
Proof. induction a as [|x a IH]; cbn; [reflexivity|]. f_equal. exact IH. Qed.

(* the moves are the same but for the colour of a piece that is dropped *)
Definition alike (m m' : move) : Prop :=
  match m, m' with
  | Normal _ _ _, Normal _ _ _ => m = m'
  | Drop t p, Drop t' p' => t = t' /\ pkind p = pkind p'
  | _, _ => False
  end.
Lemma kind_inj k k' s s' : kind_text k ++ "*" ++ s = kind_text k' ++ "*" ++ s' -> k = k' /\ s = s'.
Proof. destruct k, k'; cbn; intros H; try discriminate H; injection H as H; auto. Qed.
Lemma kind_square q s k t : square_text q s <> kind_text k ++ t.
Proof. destruct q as [f r]. unfold square_text. cbn [sqf sqr]. destruct k; cbn; intros H; injection H as A _; destruct f; discriminate A. Qed.
Lemma usi_inj m m' s s' : usi m ++ ": " ++ s = usi m' ++ ": " ++ s' -> alike m m' /\ s = s'.
Proof.
  destruct m as [f t b|t [k c]], m' as [f' t' b'|t' [k' c']]; cbn [usi pkind alike].
  - intros H.
    change (square_text f (square_text t ((if b then "+" else "") ++ ": " ++ s)) =
            square_text f' (square_text t' ((if b' then "+" else "") ++ ": " ++ s'))) in H.
    destruct (square_inj _ _ _ _ H) as [-> H1]. destruct (square_inj _ _ _ _ H1) as [-> H2].
    destruct b, b'; cbn in H2; try discriminate H2; injection H2 as H2; auto.
  - intros H. rewrite app_assoc_s in H.
    change (square_text f (square_text t ((if b then "+" else "") ++ ": " ++ s)) = kind_text k' ++ ("*" ++ square_text t' "") ++ ": " ++ s') in H.
    destruct (kind_square _ _ _ _ H).
  - intros H. rewrite app_assoc_s in H.
    change (kind_text k ++ ("*" ++ square_text t "") ++ ": " ++ s = square_text f' (square_text t' ((if b' then "+" else "") ++ ": " ++ s'))) in H.
    destruct (kind_square _ _ _ _ (eq_sym H)).
  - intros H. rewrite !app_assoc_s in H. change (kind_text k ++ "*" ++ square_text t (": " ++ s) = kind_text k' ++ "*" ++ square_text t' (": " ++ s')) in H.
    destruct (kind_inj _ _ _ _ H) as [-> H1]. destruct (square_inj _ _ _ _ H1) as [-> H2].
    cbn in H2. injection H2 as H2. auto.
Qed.
Lemma digits_inj u : forall u' s s', NilEmpty.string_of_uint u ++ String newline s = NilEmpty.string_of_uint u' ++ String newline s' -> u = u' /\ s = s'.
Proof.
  induction u as [|u IH|u IH|u IH|u IH|u IH|u IH|u IH|u IH|u IH|u IH]; intros u' s s' H; destruct u';
    cbn [NilEmpty.string_of_uint append] in H; try discriminate H; injection H as H; try (destruct (IH _ _ _ H) as [-> ->]; auto).
  subst s'. auto.
Qed.
Lemma decimal_inj n n' s s' : decimal n ++ String newline s = decimal n' ++ String newline s' -> n = n' /\ s = s'.
Proof.
  intros H. destruct (digits_inj _ _ _ _ H) as [E ->]. split; [|reflexivity].
  rewrite <- (DecimalN.Unsigned.of_to n), E. apply DecimalN.Unsigned.of_to.
Qed.
Lemma line_inj x y s s' : line_text x ++ s = line_text y ++ s' -> alike (fst x) (fst y) /\ snd x = snd y /\ s = s'.
Proof.
  unfold line_text. rewrite !app_assoc_s. intros H. destruct (usi_inj _ _ _ _ H) as [A H1].
  cbn [append] in H1. destruct (decimal_inj _ _ _ _ H1) as [B C]. auto.
Qed.
Lemma line_not_empty x s : line_text x ++ s <> "".
Proof. destruct x as [[[f r] t b|t [k c]] n]; [discriminate|]. destruct k; discriminate. Qed.
