(** * Programs over the code of Source.v *)

From Coq Require Import List Bool NArith ZArith Lia.
From Verif Require Import Types Rules Bitboard Tables Zobrist Position Movegen Init Api Lazy Statics Flat Source
  SourceSpec Client.
Import ListNotations.

(* A client of Client.v that calls the functions of Source.v: Position::new, then
   what [c] does with it.  The methods that only read a field are position.rs
   44-67. *)
Section SourceClient.
Context (cf : config).
Notation o := (ops cf).
Notation checks := (cf_checks cf).
Notation P := (prog (cty o)).
Local Notation "'let!' x := e 'in' f" := (pbind (cty o) e (fun x => f)) (at level 200, x name, e at level 200).

Fixpoint s_exec {A} (c : client A) (p : fposition o) : P (A * fposition o) :=
  match c with
  | Ret a => PRet _ _ (a, p)
  | PieceAt s k => let! x := ck o (f_piece_at o (fp_inner o p) s) in s_exec (k x) p
  | HandOf d x k => let! h := ck o (f_hand o (fp_inner o p) d) in s_exec (k (hand_n h x)) p
  | SideToMove k => s_exec (k (f_side o (fp_inner o p))) p
  | PlyOf k => s_exec (k (f_ply o (fp_inner o p))) p
  | InCheck k => let! b := s_in_check o p in s_exec (k b) p
  | IsCheckMove m k => let! b := s_is_check_move o p m in s_exec (k b) p
  | LegalMoves k => let! l := s_legal_moves o p in s_exec (k l) p
  | DoM m k => let! q := s_do_move o checks p m in s_exec k q
  | UndoM m k => let! q := s_undo_move o checks p m in s_exec k q
  | KeyOf k => let! st := ck o (f_state o p) in s_exec (k (N.lxor (fst (fs_keys o st)) (snd (fs_keys o st)))) p
  | KeysOf k => let! st := ck o (f_state o p) in s_exec (k (fs_keys o st)) p
  | OnClone c k => let! r := s_exec c p in s_exec (k (fst r)) p
  end.

Definition s_job {A} (pp : partial) (c : client A) : P A :=
  let! p := s_new o pp in let! r := s_exec c p in PRet _ _ (fst r).

Context (val : forall c, cty o c).
Hypothesis HA : forall k s c occ, table_attack o (val CAttack) k s c occ = Some (attack o k s c occ).
Hypothesis HP : forall k s c, table_pseudo_attack o (val CAttack) k s c = Some (pseudo_attack o k s c).
Hypothesis HB : forall s t, between_table_get o (val CBetween) s t = Some (BETWEEN_TABLE o s t).
Hypothesis HR : forall s c, by_square_color (val CRanks) s c = Some (RELATIVE_RANKS s c).
Hypothesis HM : forall s c, by_square_color (val CPromotable) s c = Some (PROMOTABLE s c).
Hypothesis HF : forall f, arr_get (val CFiles) (Z.to_N (i9Z f)) = Some (FILES o f).
Hypothesis HZ : forall s p, za_board_get (val CZobrist) s p = Some (z_board (zt cf) s p).
Hypothesis HH : forall c k n, za_hand_get (val CZobrist) c k n = z_hand (zt cf) c k n.
Notation D := (den (cty o) val).

Lemma d_exec {A} (c : client A) : forall p,
  D (s_exec c (enc o p)) = option_map (fun r => (fst r, enc o (snd r))) (exec cf c p).
Proof.
  induction c as [a|s k IH|d x k IH|k IH|k IH|k IH|m k IH|k IH|m k IH|m k IH|k IH|k IH|c IHc k IH]; intros p; cbn [s_exec exec].
  - reflexivity.
  - cbn [fp_inner enc]. rewrite den_bind. unfold ck. rewrite den_lift, enc_at. cbn [bind]. apply IH.
  - cbn [fp_inner enc]. rewrite den_bind. unfold ck. rewrite den_lift, enc_hand. cbn [bind]. apply IH.
  - apply IH.
  - apply IH.
  - rewrite den_bind, (d_in_check o val p). unfold Yasai.in_check.
    destruct (pos_in_check _ p); cbn [bind]; [apply IH|reflexivity].
  - rewrite den_bind, (d_is_check o val HB p m). unfold Yasai.is_check_move.
    destruct (is_check_move _ p m); cbn [bind]; [apply IH|reflexivity].
  - rewrite den_bind, (d_legal_moves o val HA HP HB HR HM HF p). unfold Yasai.legal_moves.
    destruct (legal_moves _ p); cbn [bind]; [apply IH|reflexivity].
  - rewrite den_bind, (d_do_move o checks (zt cf) val HA HP HB HZ HH p m). unfold Yasai.do_move.
    destruct (do_move _ _ _ p m); cbn [bind option_map]; [apply IH|reflexivity].
  - rewrite den_bind, (d_undo_move o checks val p m). unfold Yasai.undo_move.
    destruct (undo_move _ _ p m); cbn [bind option_map]; [apply IH|reflexivity].
  - rewrite den_bind. unfold ck. rewrite den_lift, enc_last. unfold Yasai.key, pos_key.
    destruct (pos_state _ p); cbn [bind option_map]; [apply IH|reflexivity].
  - rewrite den_bind. unfold ck. rewrite den_lift, enc_last. unfold Yasai.keys, pos_keys.
    destruct (pos_state _ p); cbn [bind option_map]; [apply IH|reflexivity].
  - rewrite den_bind, IHc. destruct (exec cf c p) as [[a q]|]; cbn [bind option_map fst]; [apply IH|reflexivity].
Qed.

Lemma d_job {A} pp (c : client A) :
  D (s_job pp c) = let* p := Yasai.new cf pp in option_map fst (exec cf c p).
Proof.
  unfold s_job. rewrite den_bind, (d_new o (zt cf) val HA HP HB HZ HH pp). unfold Yasai.new.
  destruct (pos_new _ _ pp) as [p|]; cbn [bind option_map]; [|reflexivity].
  rewrite den_bind, d_exec. destruct (exec cf c p); reflexivity.
Qed.
End SourceClient.
