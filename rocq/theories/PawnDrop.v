(** * is_pawn_drop_mate decides mate by a dropped pawn *)

From Coq Require Import List Bool NArith ZArith Lia.
From Verif Require Import Types Rules Bitboard Tables Zobrist Position Movegen Api
  Words Squares Geometry BBSpec Attacks KingSafety Rep Legality.
Import ListNotations.

Local Opaque fu_attack ky_attack ke_attack gi_attack ki_attack ou_attack ka_attack
  hi_attack pseudo_attack BETWEEN_TABLE FILES.

(* the game position of an inner position; [view] without the history *)
Definition gview (o : bbops) (p : inner o) : game :=
  mkG (i_piece_at o p) (fun c k => hand_n (i_hand o p c) k) (i_side o p).

Section PawnDrop.
Context (o : bbops) (S : bbspec o).
Notation has := (bcontains o).
Context (p : inner o) (R : rep o S p) (ai : attack_info o).
Notation B := (i_piece_at o p).
Notation c := (i_side o p).
Context (U : kings_ok B).
Context (Pin : ai_pinned_of o ai (flip c) = pinned_for o p (flip c)).
Context (K to : square).
Context (BK : B K = Some (mkP King (flip c))) (Bto : B to = None).
Context (Front : stepb c Pawn to K = true).
Context (Safe : forall s, ~ att B c s K).
Notation b1 := (after B nothing to (mkP Pawn c)).

Lemma pd_king : king_position o p (flip c) = Some K.
Proof. apply (king_position_iff o S p R); assumption. Qed.

Lemma wf_occ1 : wf S (bor o (occupied o p) (bsingle o to)).
Proof. apply (sp_wf_or o S); [apply (wf_occupied o S p R)|apply (sp_wf_single o S)]. Qed.

Lemma has_occ1 u : has (bor o (occupied o p) (bsingle o to)) u = occb b1 u.
Proof.
  rewrite (sp_or o S), (sp_single o S), (occupied_spec o S p R).
  unfold occb, after, nothing. destruct (sq_eqb u to); [apply orb_true_r|apply orb_false_r].
Qed.

Lemma pd_support : bis_empty o (attackers_to o p c to (occupied o p)) = false <->
  exists s, att b1 c s to.
Proof.
  rewrite (is_empty_false o S) by (apply wf_attackers_to; [assumption|apply wf_occupied; assumption]).
  split.
  - intros [s H]. exists s.
    rewrite (attackers_to_spec o S p R) in H by (apply wf_occupied; assumption).
    destruct (B s) as [[k c']|] eqn:Bs; [|discriminate].
    apply andb_true_iff in H as [H1 H2].
    destruct (color_eqb_spec c' c) as [->|]; [|discriminate].
    rewrite (reachb_occ o S p R) in H2.
    exists k. rewrite after_other; [|congruence|reflexivity]. split; [assumption|].
    rewrite (reach_to (gview o p) to). assumption.
  - intros [s [k [Bs H]]]. exists s.
    rewrite (attackers_to_spec o S p R) by (apply wf_occupied; assumption).
    rewrite (reach_to (gview o p) to) in H. cbn [gview g_board] in H.
    assert (Ns : s <> to) by (eapply reach_neq; eassumption).
    rewrite after_other in Bs by easy. rewrite Bs, color_eqb_refl, (reachb_occ o S p R), H.
    reflexivity.
Qed.

Lemma pd_escape t : adjacent K t ->
  (bis_empty o (attackers_to o p c t (bor o (occupied o p) (bsingle o to))) = false <->
   exists s, att b1 c s t).
Proof.
  intros Adj. pose proof wf_occ1 as W.
  rewrite (is_empty_false o S) by (apply wf_attackers_to; assumption).
  split.
  - intros [s H]. exists s.
    rewrite (attackers_to_spec o S p R) in H by assumption.
    destruct (B s) as [[k c']|] eqn:Bs; [|discriminate].
    apply andb_true_iff in H as [H1 H2].
    destruct (color_eqb_spec c' c) as [->|]; [|discriminate].
    exists k. rewrite after_other; [|congruence|reflexivity]. split; [assumption|].
    rewrite <- H2. symmetry. apply reachb_ext. apply has_occ1.
  - intros [s [k [Bs H]]]. exists s.
    rewrite (attackers_to_spec o S p R) by assumption.
    destruct (sq_eqb_spec s to) as [->|Ns].
    + (* the pawn itself attacks only the king *)
      exfalso. rewrite after_t in Bs. injection Bs as <-.
      rewrite reach_step in H by reflexivity.
      apply stepb_spec in H as [v [[<-|[]] [F1 R1]]].
      apply stepb_spec in Front as [v [[<-|[]] [F2 R2]]].
      destruct Adj as [N _]. apply N. apply sq_Z_inj; congruence.
    + rewrite after_other in Bs by easy. rewrite Bs, color_eqb_refl. cbn [andb].
      rewrite <- H. apply reachb_ext. apply has_occ1.
Qed.

Lemma pd_capture f :
  has (band o (attackers_to_except_klp o p (flip c) to)
        (bor o (bnot o (ai_pinned_of o ai (flip c))) (FILES o (sqf to)))) f = true <->
  exists k, B f = Some (mkP k (flip c)) /\ k <> King /\
    reachb (occb B) (flip c) k f to = true /\
    (pinned b1 (flip c) K f -> stays K f to = true).
Proof.
  rewrite (sp_and o S), (sp_or o S), (sp_not o S), Pin, (files_spec o S).
  rewrite (attackers_klp_spec o S p R).
  assert (PF : has (pinned_for o p (flip c)) f = true <-> pinned B (flip c) K f).
  { rewrite (pinned_for_spec o S p R), pd_king. split.
    - intros [K' [[= <-] H]]. assumption.
    - intros H. exists K. tauto. }
  assert (FF : i9_eqb (sqf f) (sqf to) = true <-> fileZ f = fileZ to).
  { destruct (i9_eqb_spec (sqf f) (sqf to)) as [E|E].
    - unfold fileZ. rewrite E. tauto.
    - split; [discriminate|]. intros H. apply i9Z_inj in H. contradiction. }
  rewrite andb_true_iff, orb_true_iff, negb_true_iff, FF. split.
  - intros [H1 H2]. destruct (B f) as [[k c']|] eqn:Bf; [|discriminate].
    apply andb_true_iff in H1 as [H1 Hr]. apply andb_true_iff in H1 as [Hc Hk].
    destruct (color_eqb_spec c' (flip c)) as [->|]; [|discriminate].
    assert (Nk : k <> King) by (intros ->; discriminate).
    exists k. repeat (split; [tauto|]).
    apply (pawn_mate_pin (gview o p) K to BK Bto Front Safe f k Bf Hr Nk).
    intros P. apply PF in P. destruct H2 as [H2|H2]; [congruence|assumption].
  - intros [k [Bf [Nk [Hr H]]]].
    destruct (no_klp_capture (gview o p) K to BK Bto Front Safe f k Bf Hr Nk) as [N1 N2].
    rewrite Bf, color_eqb_refl, Hr. split.
    { destruct k; try reflexivity; congruence. }
    pose proof (proj1 (pawn_mate_pin (gview o p) K to BK Bto Front Safe f k Bf Hr Nk) H) as H'.
    cbn [gview g_board g_side] in H'.
    destruct (has (pinned_for o p (flip c)) f) eqn:E; [|tauto].
    right. apply H'. apply PF. reflexivity.
Qed.

Lemma pawn_drop_mate_spec :
  is_pawn_drop_mate o p ai to = true <->
  checkmated (play (gview o p) (Drop to (mkP Pawn c))).
Proof.
  pose proof (pawn_mate_iff (gview o p) U K to BK Bto Front Safe) as M.
  cbn [gview g_board g_side] in M. cbn [gview g_side] in *. rewrite M. clear M.
  unfold is_pawn_drop_mate.
  assert (AdjTo : adjacent K to) by (apply (front_adjacent (gview o p)); assumption).
  destruct (bis_empty o (attackers_to o p c to (occupied o p))) eqn:E1.
  { split; [discriminate|]. intros [M1 _]. exfalso.
    assert (bis_empty o (attackers_to o p c to (occupied o p)) = false); [|congruence].
    apply pd_support. apply M1; [assumption|]. congruence. }
  apply pd_support in E1. cbv zeta.
  set (cap := band o (attackers_to_except_klp o p (flip c) to) _).
  assert (Wc : wf S cap).
  { apply (sp_wf_and o S); [apply wf_attackers_klp; assumption|].
    apply (sp_wf_or o S); [apply (sp_wf_not o S)|apply wf_files]. }
  destruct (bis_empty o cap) eqn:E2; cbn [negb].
  - rewrite pd_king, forallb_forall.
    pose proof (proj1 (is_empty_true o S cap Wc) E2) as E3.
    assert (We : wf S (band o (band o (ou_attack o K (flip c))
        (bnot o (player_bb o p (flip c)))) (bnot o (bsingle o to)))).
    { repeat apply (sp_wf_and o S); try apply (sp_wf_not o S). apply wf_ou. }
    split.
    + intros H. split.
      * intros t Adj Ct. destruct (sq_eqb_spec t to) as [->|Nt]; [assumption|].
        apply (pd_escape t Adj).
        specialize (H t). rewrite negb_true_iff in H. apply H.
        apply (iter_in o S); [assumption|].
        rewrite !(sp_and o S), !(sp_not o S), (sp_single o S), (ou_attack_spec o S),
          (rep_player o S p R).
        rewrite (proj2 (king_step_adjacent (flip c) K t) Adj), sq_eqb_neq by assumption.
        destruct (colorb (flip c) (B t)) eqn:Q; [|reflexivity].
        apply colorb_true in Q as [k Q]. exfalso. exact (Ct k Q).
      * intros f k Bf Nk Hr Hp.
        assert (C : has cap f = true); [|rewrite E3 in C; discriminate].
        apply pd_capture. exists k. tauto.
    + intros [M1 M2] t Ht. apply (iter_in o S) in Ht; [|assumption].
      rewrite !(sp_and o S), !(sp_not o S), (sp_single o S), (ou_attack_spec o S),
          (rep_player o S p R), !andb_true_iff, !negb_true_iff in Ht.
      destruct Ht as [[A C] N]. apply king_step_adjacent in A.
      rewrite negb_true_iff. apply (pd_escape t A). apply M1; [assumption|].
      intros k Q. assert (C' : colorb (flip c) (B t) = true); [|congruence].
      apply colorb_true. eauto.
  - split; [discriminate|]. intros [_ M2]. exfalso.
    apply (is_empty_false o S) in E2 as [f Hf]; [|assumption].
    apply pd_capture in Hf as [k [Bf [Nk [Hr Hp]]]]. exact (M2 f k Bf Nk Hr Hp).
Qed.

End PawnDrop.
