(** * Moves that do_move refuses *)

From Coq Require Import List Bool NArith ZArith.
From Verif Require Import Types Rules Bitboard Tables Zobrist Position Movegen Api.
Import ListNotations.

Local Opaque fu_attack ky_attack ke_attack gi_attack ki_attack ou_attack ka_attack
  hi_attack pseudo_attack BETWEEN_TABLE FILES attack_info_new calculate_checkers.

Section Panics.
Context (cf : config) (p : Yasai.Position cf).
Notation o := (ops cf).

Lemma panic_empty f t pr : Yasai.piece_at cf p f = None ->
  Yasai.do_move cf p (Normal f t pr) = None.
Proof.
  intros H. unfold Yasai.piece_at, piece_at in H. unfold Yasai.do_move, do_move. cbv zeta.
  destruct (is_check_move _ _ _); cbn [bind]; [|reflexivity].
  destruct (pos_state _ _); cbn [bind]; [|reflexivity]. rewrite H. reflexivity.
Qed.

Lemma panic_king f t pr c : Yasai.piece_at cf p t = Some (mkP King c) ->
  Yasai.do_move cf p (Normal f t pr) = None.
Proof.
  intros H. unfold Yasai.piece_at, piece_at in H. unfold Yasai.do_move, do_move. cbv zeta.
  destruct (is_check_move _ _ _); cbn [bind]; [|reflexivity].
  destruct (pos_state _ _); cbn [bind]; [|reflexivity].
  destruct (i_piece_at _ _ f); cbn [bind]; [|reflexivity].
  cbn [move_to]. rewrite H. reflexivity.
Qed.

Lemma panic_promote f t x : Yasai.piece_at cf p f = Some x -> promote_kind (pkind x) = None ->
  Yasai.do_move cf p (Normal f t true) = None.
Proof.
  intros H E. unfold Yasai.piece_at, piece_at in H. unfold Yasai.do_move, do_move. cbv zeta.
  destruct (is_check_move _ _ _); cbn [bind]; [|reflexivity].
  destruct (pos_state _ _); cbn [bind]; [|reflexivity].
  rewrite H. cbn [bind]. destruct (do_capture _ _ _ _ _ _ _); cbn [bind]; [|reflexivity].
  unfold promote_piece. rewrite E. reflexivity.
Qed.

Lemma panic_drop t x : hand_n (Yasai.hand cf p (Yasai.side_to_move cf p)) (pkind x) = 0%N ->
  Yasai.do_move cf p (Drop t x) = None.
Proof.
  intros H. unfold Yasai.hand, hand_of, Yasai.side_to_move, side_to_move in H.
  unfold Yasai.do_move, do_move. cbv zeta.
  destruct (is_check_move _ _ _); cbn [bind]; [|reflexivity].
  destruct (pos_state _ _); cbn [bind]; [|reflexivity].
  match goal with |- context[hand_removed ?h ?k] => assert (E : hand_removed h k = None) end.
  { unfold hand_removed, hand_n in *. unfold i_hand in *. cbn [set_piece_at xor_piece i_hands].
    destruct (hand_count _ _) as [n|]; cbn [bind]; [|reflexivity]. rewrite H. reflexivity. }
  rewrite E. reflexivity.
Qed.
End Panics.
