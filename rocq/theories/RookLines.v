(** * There are at least 6^d lines of d moves from the start *)

From Coq Require Import List Bool NArith ZArith Lia.
From Verif Require Import Types Rules Zobrist Position Api Squares ValidPlay Lines Decide PerftSpec PropKeys.
Import ListNotations.
Local Open Scope nat_scope.

(* The two rooks move along their rank: Black's is on file i of rank 8, White's
   on file j of rank 2; everything else is as at the start. *)
Definition start_game : game := game_of partial_startpos.
Definition rook_state : Type := color * i9 * i9.
Definition rooks (s : rook_state) : game :=
  let '(c, i, j) := s in
  mkG (fun u => if sq_eqb u (Sq i n8) then Some (mkP Rook Black)
                else if sq_eqb u (Sq j n2) then Some (mkP Rook White)
                else if sq_eqb u (Sq n2 n8) || sq_eqb u (Sq n8 n2) then None
                else g_board start_game u)
      (g_hand start_game) c.
Definition black_files := [n1; n2; n3; n4; n5; n6; n7].
Definition white_files := [n3; n4; n5; n6; n7; n8; n9].
Definition targets (s : rook_state) : list i9 :=
  let '(c, i, j) := s in
  match c with
  | Black => filter (fun k => negb (i9_eqb k i)) black_files
  | White => filter (fun k => negb (i9_eqb k j)) white_files
  end.
Definition rook_move (s : rook_state) (k : i9) : move :=
  let '(c, i, j) := s in
  match c with
  | Black => Normal (Sq i n8) (Sq k n8) false
  | White => Normal (Sq j n2) (Sq k n2) false
  end.
Definition rook_next (s : rook_state) (k : i9) : rook_state :=
  let '(c, i, j) := s in
  match c with Black => (White, k, j) | White => (Black, i, k) end.
Definition good (s : rook_state) : Prop :=
  let '(_, i, j) := s in In i black_files /\ In j white_files.
Definition rook_states : list rook_state :=
  flat_map (fun c => flat_map (fun i => map (fun j => (c, i, j)) white_files) black_files) [Black; White].

Fixpoint rook_lines (d : nat) (s : rook_state) : list (list move) :=
  match d with
  | O => [[]]
  | S d => flat_map (fun k => map (cons (rook_move s k)) (rook_lines d (rook_next s k))) (targets s)
  end.

Definition rook_okb (s : rook_state) : bool :=
  Nat.eqb (length (targets s)) 6 &&
  forallb (fun k => legalb (rooks s) (rook_move s k) &&
    same_gameb (play (rooks s) (rook_move s k)) (rooks (rook_next s k))) (targets s).
Lemma rook_ok : forallb rook_okb rook_states = true.
Proof. vm_compute. reflexivity. Qed.

Lemma good_in s : good s -> In s rook_states.
Proof.
  destruct s as [[c i] j]. intros [I J]. unfold rook_states. apply in_flat_map. exists c.
  split; [destruct c; cbn; tauto|]. apply in_flat_map. exists i. split; [exact I|].
  apply in_map_iff. exists j. tauto.
Qed.
Lemma good_next s k : good s -> In k (targets s) -> good (rook_next s k).
Proof.
  destruct s as [[[] i] j]; intros [I J] K; apply filter_In in K as [K _]; split; assumption.
Qed.
Lemma good_step s k : good s -> In k (targets s) ->
  legal (rooks s) (rook_move s k) /\ same_game (play (rooks s) (rook_move s k)) (rooks (rook_next s k)).
Proof.
  intros G K. pose proof rook_ok as H. rewrite forallb_forall in H. specialize (H s (good_in s G)).
  apply andb_true_iff in H as [_ H]. rewrite forallb_forall in H. specialize (H k K).
  apply andb_true_iff in H as [H1 H2]. split; [apply legalb_spec; exact H1|apply same_gameb_spec; exact H2].
Qed.
Lemma good_six s : good s -> length (targets s) = 6.
Proof.
  intros G. pose proof rook_ok as H. rewrite forallb_forall in H. specialize (H s (good_in s G)).
  apply andb_true_iff in H as [H _]. apply Nat.eqb_eq. exact H.
Qed.

Lemma rook_lines_legal d : forall s l, good s -> In l (rook_lines d s) ->
  length l = d /\ legal_line (rooks s) l.
Proof.
  induction d as [|d IH]; intros s l G I; cbn [rook_lines] in I.
  - destruct I as [<-|[]]. split; [reflexivity|exact I].
  - apply in_flat_map in I as [k [K I]]. apply in_map_iff in I as [l' [<- I]].
    destruct (good_step s k G K) as [L P]. destruct (IH _ _ (good_next s k G K) I) as [E H].
    split; [cbn; congruence|]. split; [exact L|].
    apply (legal_line_same l' (rooks (rook_next s k))); [apply same_sym; exact P|exact H].
Qed.

Lemma rook_lines_length d : forall s, good s -> length (rook_lines d s) = 6 ^ d.
Proof.
  induction d as [|d IH]; intros s G; [reflexivity|]. cbn [rook_lines].
  rewrite Nat.pow_succ_r'. pattern 6 at 1. rewrite <- (good_six s G).
  pose proof (fun k => good_next s k G) as H. revert H. generalize (targets s) as ts.
  induction ts as [|k ts IHt]; intros H; [reflexivity|]. cbn [flat_map length].
  rewrite app_length, map_length, IH by (apply H; left; reflexivity).
  rewrite IHt by (intros k' K; apply H; right; exact K). reflexivity.
Qed.

Lemma rook_move_inj s k k' : rook_move s k = rook_move s k' -> k = k'.
Proof. destruct s as [[[] i] j]; cbn; congruence. Qed.
Lemma targets_nodup s : NoDup (targets s).
Proof.
  destruct s as [[[] i] j]; apply NoDup_filter; unfold black_files, white_files;
    repeat constructor; cbn; intuition discriminate.
Qed.
Lemma rook_lines_nodup d : forall s, NoDup (rook_lines d s).
Proof.
  induction d as [|d IH]; intros s; cbn [rook_lines]; [repeat constructor; intros []|].
  pose proof (targets_nodup s) as N. revert N. generalize (targets s) as ts.
  induction ts as [|k ts IHt]; intros N; [constructor|]. cbn [flat_map]. inversion N; subst.
  apply NoDup_app; [apply NoDup_cons_map, IH|apply IHt; assumption|].
  intros l I J. apply in_map_iff in I as [l1 [<- _]]. apply in_flat_map in J as [k' [K J]].
  apply in_map_iff in J as [l2 [E _]]. injection E as E _. apply rook_move_inj in E. subst k'. contradiction.
Qed.

Theorem start_lines_many d L : lists_lines start_game d L -> 6 ^ d <= length L.
Proof.
  intros [_ H]. set (s0 := (Black, n2, n8) : rook_state).
  assert (G0 : good s0) by (unfold s0, good, black_files, white_files; cbn; tauto).
  rewrite <- (rook_lines_length d s0 G0). apply NoDup_incl_length; [apply rook_lines_nodup|].
  intros l I. apply H. destruct (rook_lines_legal d s0 l G0 I) as [E K]. split; [exact E|].
  apply (legal_line_same l (rooks s0)); [|exact K].
  apply same_gameb_spec. vm_compute. reflexivity.
Qed.
