(** * Two builds given the same calls

    [simP] relates positions of two backends that cannot be told apart; it is
    preserved by every call, for legal and illegal moves alike. *)

From Coq Require Import List Bool NArith ZArith Lia.
From Verif Require Import Types Rules Bitboard Tables Zobrist Position Movegen Perft Api
  Words Squares Geometry BBSpec Attacks KingSafety Rep Legality PawnDrop Gen Drops Moves Hash Agree.
Import ListNotations.

Local Opaque fu_attack ky_attack ke_attack gi_attack ki_attack ou_attack ka_attack
  hi_attack pseudo_attack BETWEEN_TABLE FILES attack_info_new calculate_checkers.

(* both panic or both return related values *)
Definition both {A B} (R : A -> B -> Prop) (x : option A) (y : option B) : Prop :=
  match x, y with
  | Some a, Some b => R a b
  | None, None => True
  | _, _ => False
  end.

Lemma both_bind {A B C D} (R : A -> B -> Prop) (Q : C -> D -> Prop) x y f g :
  both R x y -> (forall a b, R a b -> both Q (f a) (g b)) -> both Q (bind x f) (bind y g).
Proof. destruct x, y; cbn; try tauto. intros H F. apply F. assumption. Qed.

Lemma both_eq {A} (x y : option A) : both eq x y <-> x = y.
Proof. destruct x, y; cbn; split; intros H; try tauto; try congruence. Qed.

Section Bisim.
Context (o1 o2 : bbops) (S1 : bbspec o1) (S2 : bbspec o2) (z : ztable) (ck : bool).
Notation sim := (sim o1 o2 S1 S2).
Notation simI := (simI o1 o2 S1 S2).
Notation simA := (simA o1 o2 S1 S2).

Record simS (a : state o1) (b : state o2) : Prop := {
  ss_keys : s_keys o1 a = s_keys o2 b;
  ss_captured : s_captured o1 a = s_captured o2 b;
  ss_last : s_last_moved o1 a = s_last_moved o2 b;
  ss_ai : simA (s_attack_info o1 a) (s_attack_info o2 b) }.

Record simP (p : position o1) (q : position o2) : Prop := {
  sp_inner : simI (p_inner o1 p) (p_inner o2 q);
  sp_ply : i_ply o1 (p_inner o1 p) = i_ply o2 (p_inner o2 q);
  sp_states : Forall2 simS (p_states o1 p) (p_states o2 q) }.

(** ** Updates *)

Lemma simI_xor p q s x : simI p q -> simI (xor_piece o1 p s x) (xor_piece o2 q s x).
Proof.
  intros [Sd H B C K]. constructor; try assumption.
  - intros c. unfold player_bb, xor_piece. cbn [i_player_bb]. rewrite !c_get_set.
    destruct (color_eqb c (pcolor x)); [|apply C]. apply sim_xor; [apply C|apply sim_single].
  - intros k. unfold piece_bb, xor_piece. cbn [i_piece_bb]. rewrite !k_get_set.
    destruct (kind_eqb k (pkind x)); [|apply K]. apply sim_xor; [apply K|apply sim_single].
Qed.
Lemma simI_piece p q s x : simI p q -> simI (set_piece_at o1 p s x) (set_piece_at o2 q s x).
Proof.
  intros [Sd H B C K]. constructor; try assumption. intros t. unfold i_piece_at, set_piece_at.
  cbn [i_board]. rewrite !sa_get_set. destruct (sq_eqb t s); [reflexivity|apply B].
Qed.
Lemma simI_hand p q c h : simI p q -> simI (set_hand o1 p c h) (set_hand o2 q c h).
Proof.
  intros [Sd H B C K]. constructor; try assumption. intros d. unfold i_hand, set_hand.
  cbn [i_hands]. rewrite !c_get_set. destruct (color_eqb d c); [reflexivity|apply H].
Qed.
Lemma simI_side p q c : simI p q -> simI (set_side o1 p c) (set_side o2 q c).
Proof. intros [Sd H B C K]. constructor; try assumption. reflexivity. Qed.
Lemma simI_ply p q n m : simI p q -> simI (set_ply o1 p n) (set_ply o2 q m).
Proof. intros [Sd H B C K]. constructor; assumption. Qed.

(** ** Observations *)

Section Obs.
Context (p : position o1) (q : position o2) (P : simP p q).
Notation ip := (p_inner o1 p).
Notation iq := (p_inner o2 q).

Lemma sim_state : both simS (pos_state o1 p) (pos_state o2 q).
Proof. unfold pos_state. destruct (sp_states p q P); cbn; [exact I|assumption]. Qed.

Lemma sim_keys : pos_keys o1 p = pos_keys o2 q.
Proof.
  apply both_eq. unfold pos_keys. apply (both_bind simS); [apply sim_state|].
  intros a b H. cbn. apply (ss_keys a b H).
Qed.
Lemma sim_key : pos_key o1 p = pos_key o2 q.
Proof.
  apply both_eq. unfold pos_key. apply (both_bind simS); [apply sim_state|].
  intros a b H. cbn. rewrite (ss_keys a b H). reflexivity.
Qed.
Lemma sim_in_check : pos_in_check o1 p = pos_in_check o2 q.
Proof.
  apply both_eq. unfold pos_in_check. apply (both_bind simS); [apply sim_state|].
  intros a b H. cbn. f_equal. apply (sim_is_empty o1 o2 S1 S2).
  apply (sa_checkers _ _ _ _ _ _ (ss_ai a b H)).
Qed.

Lemma sim_is_check_move m : is_check_move o1 p m = is_check_move o2 q m.
Proof.
  apply both_eq. unfold is_check_move. cbv zeta. apply (both_bind simS); [apply sim_state|].
  intros a b H. pose proof (ss_ai a b H) as A. pose proof (sp_inner p q P) as J.
  assert (CK : forall k t, ai_checkable o1 (s_attack_info o1 a) k t =
                           ai_checkable o2 (s_attack_info o2 b) k t)
    by (intros; apply (sa_checkables _ _ _ _ _ _ A)).
  destruct m as [f t pr|t x]; [|cbn; apply CK].
  rewrite <- (si_board _ _ _ _ _ _ J f). destruct (i_piece_at o1 ip f) as [y|]; cbn [bind]; [|exact I].
  rewrite <- CK. destruct (ai_checkable o1 _ _ t); [reflexivity|].
  rewrite <- (si_side _ _ _ _ _ _ J).
  rewrite <- (sim_has o1 o2 S1 S2 _ _ f (sa_pinned _ _ _ _ _ _ A (flip (i_side o1 ip)))).
  destruct (bcontains o1 _ f); [|reflexivity].
  rewrite <- (sim_king _ _ _ _ _ _ J). destruct (king_position o1 ip _); cbn [bind both]; [|exact I].
  f_equal. apply (sim_stays o1 o2 S1 S2).
Qed.

(* no pawn of the side to move is on its last rank; if it holds a pawn, no two
   of its pawns are on a file *)
Lemma sim_legal_moves_agr :
  agr o1 o2 (pawn_steps o1 ip) (pawn_steps o2 iq) ->
  ((0 < hand_n (i_hand o1 ip (i_side o1 ip)) Pawn)%N -> vacant_agr o1 o2 ip iq) ->
  legal_moves o1 p = legal_moves o2 q.
Proof.
  intros NL NF. apply both_eq. unfold legal_moves. cbv zeta. apply (both_bind simS); [apply sim_state|].
  intros a b H. pose proof (ss_ai a b H) as A. pose proof (sp_inner p q P) as J.
  rewrite <- (sim_is_empty o1 o2 S1 S2 _ _ (sa_checkers _ _ _ _ _ _ A)).
  rewrite (sim_generate_evasions o1 o2 S1 S2 ip iq J _ _ A NL NF).
  rewrite (sim_generate_all o1 o2 S1 S2 ip iq J _ _ A NL NF).
  apply both_eq.
  destruct (if negb _ then _ else _) as [ms|]; cbn [bind]; [|reflexivity].
  destruct (push_all ms) as [av|]; cbn [bind]; [|reflexivity].
  generalize (length av) 0%nat. intros n. revert av.
  induction n as [|n IH]; intros av i; cbn [filter_loop]; [reflexivity|].
  destruct (Nat.eqb i (length av)); [reflexivity|].
  destruct (nth_error av i) as [m|]; [|reflexivity].
  rewrite <- (sim_is_legal o1 o2 S1 S2 ip iq J _ _ A). destruct (is_legal o1 ip _ m); [apply IH|].
  destruct (swap_remove i av); cbn [bind]; [apply IH|reflexivity].
Qed.

Lemma sim_legal_moves_pawns :
  (forall s, bcontains o1 (piece_bitboard o1 ip Pawn (i_side o1 ip)) s = true ->
     sqr s <> match i_side o1 ip with Black => n1 | White => n9 end) ->
  ((0 < hand_n (i_hand o1 ip (i_side o1 ip)) Pawn)%N ->
   forall s t, bcontains o1 (own o1 ip Pawn) s = true ->
     bcontains o1 (own o1 ip Pawn) t = true -> sqf s = sqf t -> sqr s = n9 -> s = t) ->
  legal_moves o1 p = legal_moves o2 q.
Proof.
  intros NL NF. pose proof (sp_inner p q P) as J. apply sim_legal_moves_agr.
  - exact (agr_steps o1 o2 S1 S2 ip iq J NL).
  - intros H. exact (agr_vacant o1 o2 S1 S2 ip iq J (NF H)).
Qed.

(* pawns neither on their last rank nor doubled *)
Context (Rp : rep o1 S1 ip) (V : valid (gview o1 ip)).

Lemma sim_legal_moves : legal_moves o1 p = legal_moves o2 q.
Proof.
  apply sim_legal_moves_pawns.
  - intros s H. assert (E : i_piece_at o1 ip s = Some (mkP Pawn (i_side o1 ip))).
    { unfold piece_bitboard in H.
      rewrite (sp_and o1 S1), (rep_piece o1 S1 ip Rp), (rep_player o1 S1 ip Rp) in H.
      apply andb_true_iff in H as [H1 H2]. apply kindb_true in H1 as [c' H1].
      apply colorb_true in H2 as [k H2]. congruence. }
    intros F. apply (v_pawn _ V _ s E). cbn [dead_square].
    destruct (i_side o1 ip); cbn [ranks_ahead]; unfold rankZ; rewrite F; reflexivity.
  - intros _ s t Hs Ht F _. apply (own_in o1 S1 ip Rp) in Hs. apply (own_in o1 S1 ip Rp) in Ht.
    apply (v_nifu _ V (i_side o1 ip) s t Hs Ht). unfold fileZ. rewrite F. reflexivity.
Qed.
End Obs.

(** ** Calls *)

Lemma simI_partial pp : simI (inner_of_partial o1 pp) (inner_of_partial o2 pp).
Proof.
  pose proof (inner_of_partial_rep o1 S1 pp) as R1. pose proof (inner_of_partial_rep o2 S2 pp) as R2.
  constructor; try reflexivity.
  - intros c. split; [apply (rep_wf_player _ _ _ R1)|]. split; [apply (rep_wf_player _ _ _ R2)|].
    intros s. rewrite (rep_player _ _ _ R1), (rep_player _ _ _ R2). reflexivity.
  - intros k. split; [apply (rep_wf_piece _ _ _ R1)|]. split; [apply (rep_wf_piece _ _ _ R2)|].
    intros s. rewrite (rep_piece _ _ _ R1), (rep_piece _ _ _ R2). reflexivity.
Qed.

Lemma sim_new pp : both simP (pos_new o1 z pp) (pos_new o2 z pp).
Proof.
  unfold pos_new. cbv zeta. pose proof (simI_partial pp) as J.
  change (hand_keys o2 z (inner_of_partial o2 pp)) with (hand_keys o1 z (inner_of_partial o1 pp)).
  destruct (hand_keys o1 z (inner_of_partial o1 pp)) as [hk|]; cbn [bind both]; [|exact I].
  constructor; [exact J|reflexivity|]. constructor; [|constructor].
  constructor; cbn [s_keys s_captured s_last_moved s_attack_info].
  - rewrite !board_keys_spec. reflexivity.
  - reflexivity.
  - reflexivity.
  - apply sim_attack_info; [exact J|]. apply sim_checkers. exact J.
Qed.

Lemma sim_capture p q keys c t x : simI p q -> i_ply o1 p = i_ply o2 q ->
  both (fun a b => simI (fst a) (fst b) /\ i_ply o1 (fst a) = i_ply o2 (fst b) /\ snd a = snd b)
    (do_capture o1 z p keys c t x) (do_capture o2 z q keys c t x).
Proof.
  intros J Pl. unfold do_capture. destruct x as [x|]; [|cbn; tauto]. cbv zeta.
  rewrite <- (si_hand _ _ _ _ _ _ J c).
  destruct (hand_count _ _) as [n|]; cbn [bind both]; [|exact I].
  destruct (z_hand _ _ _ _) as [hk|]; cbn [bind both]; [|exact I].
  pose proof (simI_xor p q t x J) as J'. rewrite <- (si_hand _ _ _ _ _ _ J' c).
  destruct (hand_added _ _) as [h|]; cbn [bind both fst snd]; [|exact I].
  split; [apply simI_hand; assumption|]. split; [exact Pl|reflexivity].
Qed.

Lemma sim_do_move p q m : simP p q -> both simP (do_move o1 z ck p m) (do_move o2 z ck q m).
Proof.
  intros P. pose proof (sp_inner p q P) as J. pose proof (sp_ply p q P) as Pl.
  unfold do_move. cbv zeta. rewrite <- (sim_is_check_move p q P m).
  destruct (is_check_move o1 p m) as [chk|]; cbn [bind both]; [|exact I].
  rewrite <- (si_board _ _ _ _ _ _ J (move_to m)), <- (si_side _ _ _ _ _ _ J).
  apply (both_bind simS); [apply sim_state; assumption|]. intros a b H.
  rewrite <- (ss_keys a b H).
  apply (both_bind (fun r1 r2 : _ * (key * key) * option piece * _ =>
    match r1, r2 with (p1, k1, l1, c1), (p2, k2, l2, c2) =>
      simI p1 p2 /\ i_ply o1 p1 = i_ply o2 p2 /\ k1 = k2 /\ l1 = l2 /\ sim c1 c2 end)).
  - destruct m as [f t pr|t x].
    + rewrite <- (si_board _ _ _ _ _ _ J f).
      destruct (i_piece_at o1 (p_inner o1 p) f) as [y|]; cbn [bind both]; [|exact I].
      refine (both_bind _ _ _ _ _ _ (sim_capture _ _ _ _ _ _ J Pl) _).
      intros [p1 k1] [p2 k2] [J1 [Pl1 Ek]]. cbn [fst snd] in *. subst k2.
      destruct (if pr then _ else _) as [tp|]; cbn [bind both]; [|exact I].
      match goal with |- simI ?a ?b /\ _ => assert (J2 : simI a b) end.
      { apply simI_side, simI_piece, simI_piece, simI_xor, simI_xor. assumption. }
      split; [exact J2|]. split; [exact Pl1|]. split; [reflexivity|]. split; [reflexivity|].
      destruct chk; [apply sim_checkers; exact J2|apply sim_empty].
    + pose proof (simI_piece _ _ t (Some x) (simI_xor _ _ t x J)) as J1.
      rewrite <- (si_hand _ _ _ _ _ _ J1 (i_side o1 (p_inner o1 p))).
      destruct (hand_removed _ _) as [h|]; cbn [bind both]; [|exact I].
      pose proof (simI_side _ _ (flip (i_side o1 (p_inner o1 p)))
        (simI_hand _ _ (i_side o1 (p_inner o1 p)) h J1)) as J2.
      rewrite <- (si_hand _ _ _ _ _ _ J2 (i_side o1 (p_inner o1 p))).
      destruct (hand_count _ _) as [n|]; cbn [bind both]; [|exact I].
      destruct (z_hand _ _ _ _) as [hk|]; cbn [bind both]; [|exact I].
      split; [exact J2|]. split; [exact Pl|]. split; [reflexivity|]. split; [reflexivity|].
      destruct chk; [apply sim_single|apply sim_empty].
  - intros [[[p1 k1] l1] c1] [[[p2 k2] l2] c2] [J1 [Pl1 [Ek [El C]]]]. subst k2 l2.
    rewrite <- Pl1. destruct (incr16 ck (i_ply o1 p1)) as [n|]; cbn [bind both]; [|exact I].
    pose proof (simI_ply _ _ n n J1) as J2.
    constructor; [exact J2|reflexivity|].
    cbn [p_states]. constructor; [|apply (sp_states p q P)].
    constructor; cbn [s_keys s_captured s_last_moved s_attack_info]; [reflexivity..|].
    apply sim_attack_info; [exact J2|exact C].
Qed.

Lemma sim_undo_move p q m : simP p q -> both simP (undo_move o1 ck p m) (undo_move o2 ck q m).
Proof.
  intros P. pose proof (sp_inner p q P) as J. pose proof (sp_ply p q P) as Pl.
  unfold undo_move. cbv zeta. rewrite <- (si_side _ _ _ _ _ _ J).
  apply (both_bind (fun p1 p2 => simI p1 p2 /\ i_ply o1 p1 = i_ply o2 p2)).
  - destruct m as [f t pr|t x].
    + apply (both_bind simS); [apply sim_state; assumption|]. intros a b H.
      rewrite <- (ss_last a b H), <- (ss_captured a b H).
      destruct (s_last_moved o1 a) as [lm|]; cbn [bind both]; [|exact I].
      apply (both_bind (fun p1 p2 => simI p1 p2 /\ i_ply o1 p1 = i_ply o2 p2)).
      * destruct (s_captured o1 a) as [x|]; [|cbn; tauto].
        pose proof (simI_xor _ _ t x J) as J1.
        rewrite <- (si_hand _ _ _ _ _ _ J1 (flip (i_side o1 (p_inner o1 p)))).
        destruct (hand_removed _ _) as [h|]; cbn [bind both]; [|exact I].
        split; [apply simI_hand; exact J1|exact Pl].
      * intros p1 p2 [J1 Pl1]. pose proof (simI_xor _ _ f lm J1) as J2.
        rewrite <- (si_board _ _ _ _ _ _ J2 t).
        destruct (i_piece_at o1 _ t) as [y|]; cbn [bind both]; [|exact I].
        split; [|exact Pl1]. apply simI_piece, simI_piece, simI_xor. exact J2.
    + pose proof (simI_piece _ _ t None (simI_xor _ _ t x J)) as J1.
      rewrite <- (si_hand _ _ _ _ _ _ J1 (flip (i_side o1 (p_inner o1 p)))).
      destruct (hand_added _ _) as [h|]; cbn [bind both]; [|exact I].
      split; [apply simI_hand; exact J1|exact Pl].
  - intros p1 p2 [J1 Pl1]. cbn [set_side i_ply]. rewrite <- Pl1.
    destruct (decr16 ck (i_ply o1 p1)) as [n|]; cbn [bind both]; [|exact I].
    constructor; [|reflexivity|].
    + apply simI_ply, simI_side. assumption.
    + cbn [p_states]. destruct (sp_states p q P); cbn [tl]; [constructor|assumption].
Qed.

End Bisim.
