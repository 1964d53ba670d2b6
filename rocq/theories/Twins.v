(** * History independence and agreement of builds *)

From Coq Require Import List Bool NArith ZArith Lia.
From Verif Require Import Types Rules Bitboard Tables Zobrist Position Movegen Perft Api
  Words Squares Geometry BBSpec Backends Rep Legality PawnDrop Moves Hash ValidPlay Undo Reach Agree Bisim.
Import ListNotations.

Local Opaque attack_info_new calculate_checkers.

Notation spec_of cf := (backend_spec (cf_backend cf) (cf_checks cf)).

(** ** Same board, hands and side *)

Lemma simI_same o1 o2 S1 S2 p q : rep o1 S1 p -> rep o2 S2 q ->
  same_game (gview o1 p) (gview o2 q) -> simI o1 o2 S1 S2 p q.
Proof.
  intros R1 R2 [B [H Sd]]. cbn [gview g_board g_hand g_side] in *. constructor.
  - assumption.
  - intros c. apply hand_n_ext. intros k. apply H.
  - assumption.
  - intros c. split; [apply (rep_wf_player _ _ _ R1)|]. split; [apply (rep_wf_player _ _ _ R2)|].
    intros s. rewrite (rep_player _ _ _ R1), (rep_player _ _ _ R2), B. reflexivity.
  - intros k. split; [apply (rep_wf_piece _ _ _ R1)|]. split; [apply (rep_wf_piece _ _ _ R2)|].
    intros s. rewrite (rep_piece _ _ _ R1), (rep_piece _ _ _ R2), B. reflexivity.
Qed.

(* replace the ply counter and forget the history but for the attack info *)
Definition bare (o : bbops) (p : position o) (st : state o) : position o :=
  mkPos o (set_ply o (p_inner o p) 0) [mkS o (0, 0)%N None None (s_attack_info o st)].

Section Bare.
Context (o : bbops) (p : position o) (st : state o) (E : pos_state o p = Some st).
Lemma bare_in_check : pos_in_check o (bare o p st) = pos_in_check o p.
Proof. unfold pos_in_check. rewrite E. reflexivity. Qed.
Lemma bare_is_check_move m : is_check_move o (bare o p st) m = is_check_move o p m.
Proof. unfold is_check_move. rewrite E. reflexivity. Qed.
Lemma bare_legal_moves : legal_moves o (bare o p st) = legal_moves o p.
Proof. unfold legal_moves. rewrite E. reflexivity. Qed.
End Bare.

Lemma same_answers cf1 cf2 ms1 ms2 p q :
  reachable cf1 ms1 p -> reachable cf2 ms2 q -> same_game (view cf1 p) (view cf2 q) ->
  Yasai.legal_moves cf1 p = Yasai.legal_moves cf2 q /\
  Yasai.in_check cf1 p = Yasai.in_check cf2 q /\
  forall m, Yasai.is_check_move cf1 p m = Yasai.is_check_move cf2 q m.
Proof.
  intros R1 R2 G. destruct (reachable_inv cf1 ms1 p R1) as [st1 [I1 _]].
  destruct (reachable_inv cf2 ms2 q R2) as [st2 [I2 _]].
  pose proof (simI_same _ _ _ _ _ _ (inv_rep _ _ _ _ I1) (inv_rep _ _ _ _ I2) G) as J.
  assert (P : simP _ _ (spec_of cf1) (spec_of cf2) (bare _ p st1) (bare _ q st2)).
  { constructor.
    - apply simI_ply. exact J.
    - reflexivity.
    - constructor; [|constructor]. constructor; cbn [s_keys s_captured s_last_moved s_attack_info];
        [reflexivity..|].
      rewrite (inv_ai _ _ _ _ I1), (inv_ai _ _ _ _ I2).
      apply sim_attack_info; [exact J|]. apply sim_checkers. exact J. }
  pose proof (inv_st _ _ _ _ I1) as E1. pose proof (inv_st _ _ _ _ I2) as E2.
  unfold Yasai.legal_moves, Yasai.in_check, Yasai.is_check_move.
  split; [|split].
  - rewrite <- (bare_legal_moves _ p st1 E1), <- (bare_legal_moves _ q st2 E2).
    apply (sim_legal_moves _ _ _ _ _ _ P).
    + apply rep_set_ply. exact (inv_rep _ _ _ _ I1).
    + exact (inv_valid _ _ _ _ I1).
  - rewrite <- (bare_in_check _ p st1 E1), <- (bare_in_check _ q st2 E2).
    apply (sim_in_check _ _ _ _ _ _ P).
  - intros m. rewrite <- (bare_is_check_move _ p st1 E1), <- (bare_is_check_move _ q st2 E2).
    apply (sim_is_check_move _ _ _ _ _ _ P).
Qed.

(** ** Programs that use a position *)

(* calls that change a position, with any moves, legal or not *)
Inductive call := DoMove (m : move) | UndoMove (m : move).
Definition step (cf : config) (p : Yasai.Position cf) (c : call) : option (Yasai.Position cf) :=
  match c with DoMove m => Yasai.do_move cf p m | UndoMove m => Yasai.undo_move cf p m end.
Fixpoint run (cf : config) (p : Yasai.Position cf) (cs : list call) : option (Yasai.Position cf) :=
  match cs with
  | [] => Some p
  | c :: cs => let* q := step cf p c in run cf q cs
  end.

(* what the methods of [&self] show, but for legal_moves *)
Record same_obs (cf1 cf2 : config) (p : Yasai.Position cf1) (q : Yasai.Position cf2) : Prop := {
  so_piece : forall s, Yasai.piece_at cf1 p s = Yasai.piece_at cf2 q s;
  so_hand : forall c, Yasai.hand cf1 p c = Yasai.hand cf2 q c;
  so_side : Yasai.side_to_move cf1 p = Yasai.side_to_move cf2 q;
  so_ply : Yasai.ply cf1 p = Yasai.ply cf2 q;
  so_keys : Yasai.keys cf1 p = Yasai.keys cf2 q;
  so_key : Yasai.key cf1 p = Yasai.key cf2 q;
  so_in_check : Yasai.in_check cf1 p = Yasai.in_check cf2 q;
  so_is_check_move : forall m, Yasai.is_check_move cf1 p m = Yasai.is_check_move cf2 q m }.

(* the same build but for the bitboard module *)
Definition with_backend (cf : config) (b : backend) : config :=
  mkCfg b (cf_checks cf) (cf_rng cf).

Section Twins.
Context (cf : config) (b : backend).
Notation cf' := (with_backend cf b).
Definition twin (p : Yasai.Position cf) (q : Yasai.Position cf') : Prop :=
  simP _ _ (spec_of cf) (spec_of cf') p q.

Lemma twin_new pp : both twin (Yasai.new cf pp) (Yasai.new cf' pp).
Proof. apply sim_new. Qed.
Lemma twin_step p q c : twin p q -> both twin (step cf p c) (step cf' q c).
Proof. intros T. destruct c; [apply sim_do_move|apply sim_undo_move]; exact T. Qed.
Lemma twin_run cs : forall p q, twin p q -> both twin (run cf p cs) (run cf' q cs).
Proof.
  induction cs as [|c cs IH]; intros p q T; cbn [run]; [exact T|].
  exact (both_bind _ _ _ _ _ _ (twin_step p q c T) IH).
Qed.

Lemma twin_obs p q : twin p q -> same_obs cf cf' p q.
Proof.
  intros T. pose proof (sp_inner _ _ _ _ _ _ T) as J. constructor.
  - apply (si_board _ _ _ _ _ _ J).
  - apply (si_hand _ _ _ _ _ _ J).
  - apply (si_side _ _ _ _ _ _ J).
  - apply (sp_ply _ _ _ _ _ _ T).
  - apply (sim_keys _ _ _ _ _ _ T).
  - apply (sim_key _ _ _ _ _ _ T).
  - apply (sim_in_check _ _ _ _ _ _ T).
  - intros m. apply (sim_is_check_move _ _ _ _ _ _ T).
Qed.

Lemma backends_agree pp cs :
  both (same_obs cf cf') (let* p := Yasai.new cf pp in run cf p cs)
                         (let* q := Yasai.new cf' pp in run cf' q cs).
Proof.
  apply (both_bind twin); [apply twin_new|]. intros p q T.
  pose proof (twin_run cs p q T) as H. destruct (run cf p cs), (run cf' q cs); cbn in *; try tauto.
  apply twin_obs. assumption.
Qed.

Lemma twin_reachable ms p : reachable cf ms p ->
  exists q, reachable cf' ms q /\ twin p q.
Proof.
  intros R. apply reachable_built in R.
  induction R as [pp p V P N|ms p m q B [p' [R' T]] L D].
  - pose proof (twin_new pp) as H. rewrite N in H. destruct (Yasai.new cf' pp) as [q|] eqn:E; [|destruct H].
    exists q. split; [|exact H]. apply (R_new cf' pp); assumption.
  - pose proof (twin_step p p' (DoMove m) T) as H. cbn [step] in H. rewrite D in H.
    destruct (Yasai.do_move cf' p' m) as [q'|] eqn:E; [|destruct H]. exists q'. split; [|exact H].
    apply (R_do cf' ms p'); [assumption| |assumption].
    apply (legal_same (view cf p)); [|assumption]. destruct (twin_obs p p' T) as [O1 O2 O3 _ _ _ _ _].
    split; [exact O1|]. split; [|exact O3]. intros c k. cbn [view g_hand]. rewrite O2. reflexivity.
Qed.
End Twins.
