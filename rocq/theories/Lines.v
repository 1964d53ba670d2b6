(** * Lines of play *)

From Coq Require Import List Bool NArith ZArith Lia.
From Verif Require Import Types Rules Bitboard Tables Zobrist Position Movegen Api
  Words Squares Geometry BBSpec Backends Attacks KingSafety Rep Legality PawnDrop Gen Drops Exact
  Loops ValidPlay Moves Hash Play Undo Reach Decide Capacity.
Import ListNotations.

Local Opaque fu_attack ky_attack ke_attack gi_attack ki_attack ou_attack ka_attack
  hi_attack pseudo_attack BETWEEN_TABLE FILES.

(* several do_move calls *)
Fixpoint do_line (cf : config) (p : Yasai.Position cf) (ms : list move)
  : option (Yasai.Position cf) :=
  match ms with
  | [] => Some p
  | m :: ms => match Yasai.do_move cf p m with Some q => do_line cf q ms | None => None end
  end.
(* several undo_move calls *)
Fixpoint undo_line (cf : config) (p : Yasai.Position cf) (ms : list move)
  : option (Yasai.Position cf) :=
  match ms with
  | [] => Some p
  | m :: ms => match Yasai.undo_move cf p m with Some q => undo_line cf q ms | None => None end
  end.

Lemma legal_line_same ms : forall g h, same_game g h -> legal_line g ms -> legal_line h ms.
Proof.
  induction ms as [|m ms IH]; intros g h E; cbn [legal_line]; [tauto|]. intros [L R]. split.
  - apply (legal_same g); assumption.
  - apply (IH (play g m)); [apply play_same; assumption|assumption].
Qed.
Lemma play_line_same ms : forall g h, same_game g h -> same_game (play_line g ms) (play_line h ms).
Proof.
  induction ms as [|m ms IH]; intros g h E; cbn; [assumption|]. apply IH. apply play_same. assumption.
Qed.

Section Lines.
Context (cf : config).

Lemma do_line_app l1 : forall l2 p, do_line cf p (l1 ++ l2) =
  match do_line cf p l1 with Some q => do_line cf q l2 | None => None end.
Proof.
  induction l1 as [|m l1 IH]; intros l2 p; cbn [app do_line]; [reflexivity|].
  destruct (Yasai.do_move cf p m); [apply IH|reflexivity].
Qed.
Lemma undo_line_app l1 : forall l2 p, undo_line cf p (l1 ++ l2) =
  match undo_line cf p l1 with Some q => undo_line cf q l2 | None => None end.
Proof.
  induction l1 as [|m l1 IH]; intros l2 p; cbn [app undo_line]; [reflexivity|].
  destruct (Yasai.undo_move cf p m); [apply IH|reflexivity].
Qed.

Lemma do_line_spec l : forall ms p q, reachable cf ms p -> legal_line (view cf p) l ->
  do_line cf p l = Some q ->
  reachable cf (rev l ++ ms) q /\ same_game (view cf q) (play_line (view cf p) l) /\
  undo_line cf q (rev l) = Some p.
Proof.
  induction l as [|m l IH]; intros ms p q R L D; cbn [do_line legal_line rev] in *.
  - injection D as <-. split; [assumption|]. split; [apply same_refl|reflexivity].
  - destruct L as [L Ll]. destruct (Yasai.do_move cf p m) as [p1|] eqn:E; [|discriminate].
    pose proof (api_do_move cf ms p m p1 R L E) as G.
    assert (Ll' : legal_line (view cf p1) l).
    { apply (legal_line_same l (play (view cf p) m)); [apply same_sym; exact G|assumption]. }
    destruct (IH (m :: ms) p1 q (R_do cf ms p m p1 R L E) Ll' D) as [R' [G' U']].
    split; [rewrite <- app_assoc; exact R'|]. split.
    + apply (same_trans _ (play_line (view cf p1) l)); [assumption|].
      apply (play_line_same l _ (play (view cf p) m)). exact G.
    + rewrite undo_line_app, U'. cbn [undo_line]. rewrite (api_undo cf ms p m p1 R L E). reflexivity.
Qed.

(* no panic while the ply counter has room *)
Lemma do_line_total l : forall ms p, reachable cf ms p -> standard_material (view cf p) -> legal_line (view cf p) l ->
  cf_checks cf = false \/ (Yasai.ply cf p + N.of_nat (length l) <= 65535)%N ->
  exists q, do_line cf p l = Some q.
Proof.
  induction l as [|m l IH]; intros ms p R M L P; cbn [do_line legal_line] in *; [eauto|].
  destruct L as [L Ll]. pose proof (api_do_total cf ms p m R M L) as T.
  destruct (Yasai.do_move cf p m) as [p1|] eqn:E.
  - apply (IH (m :: ms) p1).
    + apply (R_do cf ms p); assumption.
    + apply (api_do_standard cf ms p m p1); assumption.
    + apply (legal_line_same l (play (view cf p) m)); [|assumption].
      apply same_sym. apply (api_do_move cf ms p m p1 R L E).
    + destruct P as [P|P]; [tauto|]. right. cbn [length] in P.
      rewrite (api_ply cf ms p m p1 R L E).
      destruct (N.eqb_spec (Yasai.ply cf p) 65535); lia.
  - destruct (proj1 T eq_refl) as [T1 T2]. destruct P as [P|P]; [congruence|].
    cbn [length] in P. lia.
Qed.

Lemma start_fit pp : valid (game_of pp) -> hands_fit (g_hand (game_of pp)) ->
  (pp_ply pp <= 65535)%N ->
  exists p, Yasai.new cf pp = Some p /\ reachable cf [] p /\ view cf p = game_of pp /\
    Yasai.ply cf p = pp_ply pp.
Proof.
  intros V F P. pose proof (new_some cf pp F) as E. eexists.
  split; [exact E|]. split; [apply (R_new cf pp); [assumption|assumption|exact E]|]. split; reflexivity.
Qed.
Lemma start_reachable pp : valid (game_of pp) -> standard_material (game_of pp) ->
  (pp_ply pp <= 65535)%N ->
  exists p, Yasai.new cf pp = Some p /\ reachable cf [] p /\ view cf p = game_of pp /\
    Yasai.ply cf p = pp_ply pp.
Proof.
  intros V M P. pose proof (new_some cf pp (material_fit _ M)) as E. eexists.
  split; [exact E|]. split; [apply (R_new cf pp); [assumption|assumption|exact E]|]. split; reflexivity.
Qed.

Lemma line_reachable pp l : valid (game_of pp) -> standard_material (game_of pp) ->
  (pp_ply pp + N.of_nat (length l) <= 65535)%N -> legal_line (game_of pp) l ->
  exists p, reachable cf (rev l) p /\ same_game (view cf p) (play_line (game_of pp) l).
Proof.
  intros V M P L. destruct (start_reachable pp V M ltac:(lia)) as [p [_ [R [Ev Ep]]]].
  rewrite <- Ev in *. destruct (do_line_total l [] p R M L) as [q D]; [right; lia|].
  destruct (do_line_spec l [] p q R L D) as [R' [G _]]. rewrite app_nil_r in R'. eauto.
Qed.

(** ** legal_moves does not panic *)

Lemma api_legal_moves_total ms p : reachable cf ms p -> standard_material (view cf p) -> opponent_has_king (view cf p) ->
  exists l, Yasai.legal_moves cf p = Some l.
Proof.
  intros R M [K EK]. destruct (reachable_inv cf ms p R) as [st [I _]].
  destruct (legal_moves_spec _ _ p st (inv_rep _ _ _ _ I) (valid_orderly _ (inv_valid _ _ _ _ I))
              (inv_st _ _ _ _ I) (inv_ai _ _ _ _ I)) as [cs [_ [ND [P [T _]]]]].
  apply T. apply (pseudo_legal_bound (view cf p) (reach_valid cf ms p R) (reach_hand_ok cf p)
    M K EK); assumption.
Qed.

(** ** Turns and keys *)

Lemma play_line_side l : forall g, g_side (play_line g l) =
  if Nat.odd (length l) then flip (g_side g) else g_side g.
Proof.
  induction l as [|m l IH]; intros g; cbn [play_line fold_left]; [reflexivity|].
  change (fold_left play l (play g m)) with (play_line (play g m) l). rewrite IH.
  assert (E : g_side (play g m) = flip (g_side g)) by (destruct m; reflexivity). rewrite E, flip_flip.
  cbn [length]. rewrite Nat.odd_succ, <- Nat.negb_odd. destruct (Nat.odd (length l)); reflexivity.
Qed.

Lemma turn_bit_app l ms : turn_bit (rev l ++ ms) =
  N.lxor (turn_bit ms) (if Nat.odd (length l) then 1%N else 0%N).
Proof.
  unfold turn_bit. rewrite app_length, rev_length, Nat.odd_add.
  destruct (Nat.odd (length l)), (Nat.odd (length ms)); reflexivity.
Qed.

Lemma transposition ms p l1 l2 q1 q2 : reachable cf ms p ->
  legal_line (view cf p) l1 -> legal_line (view cf p) l2 ->
  do_line cf p l1 = Some q1 -> do_line cf p l2 = Some q2 ->
  same_game (view cf q1) (view cf q2) ->
  Yasai.keys cf q1 = Yasai.keys cf q2 /\ Yasai.key cf q1 = Yasai.key cf q2.
Proof.
  intros R L1 L2 D1 D2 [Gb [Gh Gs]].
  destruct (do_line_spec l1 ms p q1 R L1 D1) as [R1 [[_ [_ S1]] _]].
  destruct (do_line_spec l2 ms p q2 R L2 D2) as [R2 [[_ [_ S2]] _]].
  assert (O : Nat.odd (length l1) = Nat.odd (length l2)).
  { rewrite play_line_side in S1, S2. rewrite S1, S2 in Gs.
    destruct (Nat.odd (length l1)), (Nat.odd (length l2)); try reflexivity;
      destruct (g_side (view cf p)); discriminate. }
  assert (K : Yasai.keys cf q1 = Yasai.keys cf q2).
  { rewrite (api_keys cf _ q1 R1), (api_keys cf _ q2 R2), !turn_bit_app, O.
    rewrite (board_hash_ext _ _ _ Gb), (hand_hash_ext _ _ _ Gh). reflexivity. }
  split; [assumption|].
  unfold Yasai.keys, pos_keys in K. unfold Yasai.key, pos_key.
  destruct (pos_state (ops cf) q1), (pos_state (ops cf) q2); cbn [bind] in *; try discriminate;
    [|reflexivity].
  injection K as ->. reflexivity.
Qed.

(** ** Kings *)

Lemma kings_persist l : forall g c, valid g -> hand_ok g -> legal_line g l ->
  (exists s, g_board g s = Some (mkP King c)) ->
  exists s, g_board (play_line g l) s = Some (mkP King c).
Proof.
  induction l as [|m l IH]; intros g c V HO L K; [exact K|]. destruct L as [L Ll].
  apply (IH (play g m) c); [apply valid_play; assumption|apply hand_ok_play; [assumption..|apply L]|assumption|].
  destruct K as [s K]. destruct m as [f t pr|t x].
  - destruct L as [P _]. pose proof (no_king_capture g f t pr c V P) as NC.
    destruct P as [k [Bf [Ct [Rf Pr]]]]. rewrite (play_normal_board g f t pr k _ Bf).
    destruct (sq_eqb_spec s f) as [Es|N].
    + subst s. rewrite K in Bf. injection Bf as <- <-. exists t. rewrite after_t.
      destruct pr; reflexivity.
    + exists s. rewrite after_other; [assumption| |].
      * intros ->. contradiction.
      * apply sq_eqb_neq. assumption.
  - destruct L as [P _]. exists s. rewrite play_drop_board, after_other; [assumption| |reflexivity].
    intros ->. destruct P as [_ [_ [P _]]]. congruence.
Qed.

Lemma material_line l : forall g k, valid g -> hand_ok g -> legal_line g l ->
  material (play_line g l) k = material g k.
Proof.
  induction l as [|m l IH]; intros g k V HO L; [reflexivity|]. destruct L as [L Ll]. cbn.
  fold (play_line (play g m) l). rewrite IH.
  - apply material_play; [assumption|apply L].
  - apply valid_play; assumption.
  - apply hand_ok_play; [assumption..|apply L].
  - assumption.
Qed.

End Lines.
