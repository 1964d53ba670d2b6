(** * C69 of properties.jsonl: positions as arrays *)

From Coq Require Import String List Bool NArith ZArith Lia.
From Verif Require Import Types Rules Bitboard Tables Zobrist Position Api Sfen Hash ValidPlay Reach Init
  Lines Twins Consequences Facts Witness Flat PropAgree PropPlay.
Import ListNotations.

(* the calls on the arrays of one build *)
Definition f_call cf (p : fposition (ops cf)) (c : call) : option (fposition (ops cf)) :=
  match c with
  | DoMove m => f_do_move (ops cf) (zt cf) (cf_checks cf) p m
  | UndoMove m => f_undo_move (ops cf) (cf_checks cf) p m
  end.
Fixpoint f_run cf (p : fposition (ops cf)) (cs : list call) : option (fposition (ops cf)) :=
  match cs with
  | [] => Some p
  | c :: cs => let* p := f_call cf p c in f_run cf p cs
  end.

(** Any calls, legal or not, from any PartialPosition: the code on arrays with
    checked indices panics exactly when the code on maps does, and else leaves
    the arrays of the position that the code on maps leaves. *)
Theorem C69_calls cf pp cs :
  (let* a := f_new (ops cf) (zt cf) pp in f_run cf a cs) =
  option_map (enc (ops cf)) (let* p := Yasai.new cf pp in run cf p cs).
Proof.
  assert (H : forall p, f_run cf (enc (ops cf) p) cs = option_map (enc (ops cf)) (run cf p cs)).
  { induction cs as [|c cs IH]; intros p; cbn [f_run run]; [reflexivity|].
    replace (f_call cf (enc (ops cf) p) c) with (option_map (enc (ops cf)) (step cf p c)).
    2:{ symmetry. destruct c; [apply enc_do_move|apply enc_undo_move]. }
    destruct (step cf p c) as [q|]; cbn [bind option_map]; [apply IH|reflexivity]. }
  rewrite enc_new. change (pos_new (ops cf) (zt cf) pp) with (Yasai.new cf pp).
  destruct (Yasai.new cf pp) as [p|]; cbn [bind option_map]; [apply H|reflexivity].
Qed.
Print Assumptions C69_calls.

(** What the arrays hold: the entry at the index of a square is what piece_at
    says, and so on; the arrays always have their length, and the last element
    of the history is the current state. *)
Theorem C69_reads cf (p : Yasai.Position cf) :
  let a := enc (ops cf) p in let i := fp_inner _ a in
  (forall s, nth_error (f_board _ i) (N.to_nat (sq_index s)) = Some (Yasai.piece_at cf p s)) /\
  (forall c, nth_error (f_hands _ i) (N.to_nat (color_index c)) = Some (Yasai.hand cf p c)) /\
  f_side _ i = Yasai.side_to_move cf p /\ f_ply _ i = Yasai.ply cf p /\
  option_map (fs_keys _) (f_state _ a) = Yasai.keys cf p /\
  (forall m, f_is_check_move _ a m = Yasai.is_check_move cf p m) /\
  List.length (f_board _ i) = 81%nat /\ List.length (f_hands _ i) = 2%nat /\
  List.length (f_player_bb _ i) = 2%nat /\ List.length (f_piece_bb _ i) = 14%nat /\
  List.length (fp_states _ a) = List.length (p_states _ p) /\
  Forall (fun st => List.length (fa_checkables _ (fs_attack_info _ st)) = 14%nat /\
                    List.length (fa_pinned _ (fs_attack_info _ st)) = 2%nat) (fp_states _ a).
Proof.
  intros a i.
  split; [intros s; exact (enc_at (ops cf) (p_inner _ p) s)|].
  split; [intros c; exact (enc_hand (ops cf) (p_inner _ p) c)|].
  split; [reflexivity|]. split; [reflexivity|].
  split. { unfold a. rewrite enc_last. unfold Yasai.keys, pos_keys. now destruct (pos_state (ops cf) p). }
  split; [intros m; apply enc_is_check|].
  split; [unfold i, a, enc; cbn [fp_inner enc_inner f_board]; unfold enc_sq; apply map_length|].
  split; [reflexivity|]. split; [reflexivity|]. split; [reflexivity|].
  split; [unfold a, enc; cbn [fp_states]; now rewrite rev_length, map_length|].
  unfold a, enc. cbn [fp_states]. apply Forall_forall. intros st H. apply in_rev, in_map_iff in H as [s [<- _]].
  split; reflexivity.
Qed.
Print Assumptions C69_reads.

(** So no index is out of bounds when legal moves are played and taken back. *)
Theorem C69_no_panic cf ms p m :
  reachable cf ms p -> standard_material (view cf p) -> legal (view cf p) m ->
  cf_checks cf = false \/ Yasai.ply cf p <> 65535%N ->
  exists q, f_do_move (ops cf) (zt cf) (cf_checks cf) (enc (ops cf) p) m = Some (enc (ops cf) q) /\
    Yasai.do_move cf p m = Some q /\
    exists r, f_undo_move (ops cf) (cf_checks cf) (enc (ops cf) q) m = Some (enc (ops cf) r) /\
      Yasai.undo_move cf q m = Some r.
Proof.
  intros R SM L Y. destruct (Yasai.do_move cf p m) as [q|] eqn:E.
  2:{ apply (C21_do_move_total cf ms p m R SM L) in E. destruct Y; intuition congruence. }
  exists q. rewrite enc_do_move. change (do_move (ops cf) (zt cf) (cf_checks cf) p m) with (Yasai.do_move cf p m).
  rewrite E. split; [reflexivity|]. split; [reflexivity|].
  pose proof (C21_undo_move_total cf ms q m (R_do cf ms p m q R L E)) as U.
  rewrite enc_undo_move. change (undo_move (ops cf) (cf_checks cf) q m) with (Yasai.undo_move cf q m).
  destruct (Yasai.undo_move cf q m) as [r|]; [|congruence]. exists r. split; reflexivity.
Qed.
Print Assumptions C69_no_panic.

(* a line with captures, a promotion and a drop *)
Example C69_example cf : exists p,
  (let* a := f_new (ops cf) (zt cf) startpos in f_run cf a (map DoMove opening)) = Some (enc (ops cf) p) /\
  reachable cf (rev opening) p.
Proof.
  destruct (C23_example cf) as [p [E R]]. exists p. split; [|exact R]. rewrite C69_calls, E. reflexivity.
Qed.

(* an index that is out of bounds is a panic on arrays *)
Example C69_out_of_bounds : arr_get [Black; White] (kind_index Knight) = None.
Proof. reflexivity. Qed.
