(** * What generate_drop generates, and what is_legal tests *)

From Coq Require Import List Bool NArith ZArith Lia FinFun.
From Verif Require Import Types Rules Bitboard Tables Zobrist Position Movegen Api
  Words Squares Geometry BBSpec Attacks KingSafety Rep Legality PawnDrop Gen.
Import ListNotations.

Local Opaque fu_attack ky_attack ke_attack gi_attack ki_attack ou_attack ka_attack
  hi_attack pseudo_attack BETWEEN_TABLE FILES.

Lemma drop_rank_spec c k t : drop_rank_ok c k t = true <-> ~ dead_square c k t.
Proof.
  destruct k; cbn [drop_rank_ok dead_square]; try tauto; rewrite rel_rank_dead; lia.
Qed.

Lemma hand_kinds_NoDup : NoDup hand_kinds.
Proof. repeat constructor; cbn; intuition discriminate. Qed.
Lemma hand_n_kinds h k : (0 < hand_n h k)%N -> In k hand_kinds.
Proof. destruct k; cbn; intros H; try tauto; lia. Qed.

Section Drops.
Context (o : bbops) (S : bbspec o).
Notation BB := (bb o).
Notation has := (bcontains o).
Context (p : inner o) (R : rep o S p) (ai : attack_info o).
Notation B := (i_piece_at o p).
Notation c := (i_side o p).
Notation g := (gview o p).
Context (U : kings_ok B).
Context (Pin : ai_pinned_of o ai (flip c) = pinned_for o p (flip c)).
Context (Safe : (0 < hand_n (i_hand o p c) Pawn)%N -> ~ in_check B (flip c)).
Context (Nifu : (0 < hand_n (i_hand o p c) Pawn)%N -> forall s t, B s = Some (mkP Pawn c) -> B t = Some (mkP Pawn c) ->
                            fileZ s = fileZ t -> rankZ s = 9%Z -> s = t).

Definition no_pawn (t : square) : Prop :=
  forall s, B s = Some (mkP Pawn c) -> fileZ s <> fileZ t.

Lemma safe_att K : (0 < hand_n (i_hand o p c) Pawn)%N -> B K = Some (mkP King (flip c)) -> forall s, ~ att B c s K.
Proof.
  intros Held BK s A. apply (Safe Held). apply (in_check_att B (flip c) K U BK).
  exists s. rewrite flip_flip. assumption.
Qed.

(* a dropped pawn can only mate from the square in front of the king *)
Lemma mate_front t : (0 < hand_n (i_hand o p c) Pawn)%N -> B t = None -> checkmated (play g (Drop t (mkP Pawn c))) ->
  exists K, B K = Some (mkP King (flip c)) /\ stepb c Pawn t K = true.
Proof.
  intros Held Bt [[K [BK A]] _].
  rewrite play_drop_board in BK, A. cbn [play g_side gview g_board] in BK, A.
  assert (BK' : B K = Some (mkP King (flip c))).
  { unfold after in BK. destruct (sq_eqb K t); [discriminate|]. exact BK. }
  exists K. split; [assumption|].
  rewrite flip_flip in A. apply attacked_att in A as [s A].
  apply (check_drop B c K t Pawn Bt) in A; [|congruence|apply safe_att; assumption].
  destruct A as [_ A]. rewrite reach_step in A by reflexivity. assumption.
Qed.

Lemma pawn_step_inj d s t K : stepb d Pawn s K = true -> stepb d Pawn t K = true -> s = t.
Proof.
  intros H1 H2. rewrite <- (fu_from_step d s K H1). exact (fu_from_step d t K H2).
Qed.

Lemma vacant_spec : (0 < hand_n (i_hand o p c) Pawn)%N -> exists v, bvacant o (own o p Pawn) = Some v /\ wf S v /\
  forall t, has v t = true <-> no_pawn t.
Proof.
  intros Held. destruct (sp_vacant o S (own o p Pawn)) as [v [E [W H]]].
  - apply (wf_own o S p R).
  - intros s t Hs Ht F F9. apply (own_in o S p R) in Hs. apply (own_in o S p R) in Ht.
    apply (Nifu Held); [assumption|assumption|unfold fileZ; rewrite F; reflexivity|].
    unfold rankZ. rewrite F9. reflexivity.
  - exists v. split; [assumption|]. split; [assumption|]. intros t.
    rewrite H, negb_true_iff. unfold no_pawn. split.
    + intros Q s Bs F. assert (C : existsb (fun s : square =>
        has (own o p Pawn) s && i9_eqb (sqf s) (sqf t)) all_squares = true); [|congruence].
      apply existsb_exists. exists s. split; [apply all_squares_in|].
      rewrite (proj2 (own_in o S p R Pawn s) Bs). apply i9Z_inj in F. rewrite F.
      destruct (i9_eqb_spec (sqf t) (sqf t)); [reflexivity|congruence].
    + intros Q. match goal with |- ?x = false => destruct x eqn:Ex; [|reflexivity] end.
      apply existsb_exists in Ex as [s [_ Ex]]. apply andb_true_iff in Ex as [E1 E2].
      apply (own_in o S p R) in E1. exfalso. apply (Q s E1). unfold fileZ.
      destruct (i9_eqb_spec (sqf s) (sqf t)); congruence.
Qed.

Lemma pawn_drop_target_spec tg : (0 < hand_n (i_hand o p c) Pawn)%N -> wf S tg -> (forall t, has tg t = true -> B t = None) ->
  exists v, pawn_drop_target o p ai tg = Some v /\ wf S v /\
    forall t, has v t = true <->
      has tg t = true /\ no_pawn t /\ ~ checkmated (play g (Drop t (mkP Pawn c))).
Proof.
  intros Held W Emp. unfold pawn_drop_target. cbv zeta.
  destruct (vacant_spec Held) as [vac [-> [Wv V]]]. cbn [bind].
  set (tg' := band o tg vac).
  assert (W' : wf S tg') by (apply (sp_wf_and o S); assumption).
  assert (T' : forall t, has tg' t = true <-> has tg t = true /\ no_pawn t).
  { intros t. unfold tg'. rewrite (sp_and o S), andb_true_iff, V. tauto. }
  assert (NoMate : forall t, has tg' t = true ->
     (forall K, B K = Some (mkP King (flip c)) -> stepb c Pawn t K = false) ->
     ~ checkmated (play g (Drop t (mkP Pawn c)))).
  { intros t Ht H M. apply T' in Ht as [Ht _]. apply (mate_front t Held) in M as [K [BK F]]; [|auto].
    rewrite (H K BK) in F. discriminate. }
  eexists. split; [reflexivity|].
  destruct (king_position o p (flip c)) as [K|] eqn:EK.
  - pose proof (king_position_some o S p R _ _ EK) as BK.
    assert (UK : forall K', B K' = Some (mkP King (flip c)) -> K' = K)
      by (intros K' BK'; apply (U (flip c)); assumption).
    pose proof (iter_hd o S (fu_attack o K (flip c)) (wf_fu o S K (flip c))) as Hd.
    destruct (hd_error (biter o (fu_attack o K (flip c)))) as [to|].
    + rewrite (fu_attack_spec o S), stepb_flip in Hd.
      assert (Other : forall t, has tg' t = true -> t <> to ->
         ~ checkmated (play g (Drop t (mkP Pawn c)))).
      { intros t Ht N. apply NoMate; [assumption|]. intros K' BK'. rewrite (UK _ BK').
        destruct (stepb c Pawn t K) eqn:E; [|reflexivity]. exfalso. apply N.
        apply (pawn_step_inj c _ _ K); assumption. }
      assert (Spec : has tg' to = true ->
        (is_pawn_drop_mate o p ai to = true <-> checkmated (play g (Drop to (mkP Pawn c))))).
      { intros Ht. apply T' in Ht as [Ht _].
        apply (pawn_drop_mate_spec o S p R ai U Pin K to BK (Emp _ Ht) Hd).
        apply safe_att; assumption. }
      destruct (has tg' to) eqn:Hto; cbn [andb].
      * specialize (Spec eq_refl).
        destruct (is_pawn_drop_mate o p ai to) eqn:Em.
        -- split; [apply (sp_wf_and o S); [assumption|apply (sp_wf_not o S)]|].
           intros t. rewrite (sp_and o S), (sp_not o S), (sp_single o S), andb_true_iff, T'.
           rewrite negb_true_iff.
           destruct (sq_eqb_spec t to) as [->|N]; [intuition congruence|].
           split; [|tauto]. intros [H _]. pose proof (Other t). rewrite T' in H0. tauto.
        -- split; [assumption|]. intros t.
           assert (Nm : has tg' t = true -> ~ checkmated (play g (Drop t (mkP Pawn c)))).
           { intros Ht. destruct (sq_eqb_spec t to) as [->|N]; [|auto].
             rewrite <- Spec. discriminate. }
           rewrite T' in *. tauto.
      * split; [assumption|]. intros t.
        assert (Nm : has tg' t = true -> ~ checkmated (play g (Drop t (mkP Pawn c)))).
        { intros Ht. apply Other; congruence. }
        rewrite T' in *. tauto.
    + split; [assumption|]. intros t.
      assert (Nm : has tg' t = true -> ~ checkmated (play g (Drop t (mkP Pawn c)))).
      { intros Ht. apply NoMate; [assumption|]. intros K' BK'. rewrite (UK _ BK').
        rewrite <- stepb_flip, <- (fu_attack_spec o S). apply Hd. }
      rewrite T' in *. tauto.
  - split; [assumption|]. intros t.
    assert (Nm : has tg' t = true -> ~ checkmated (play g (Drop t (mkP Pawn c)))).
    { intros Ht. apply NoMate; [assumption|]. intros K' BK'. exfalso.
      exact (king_position_none o S p R _ EK K' BK'). }
    rewrite T' in *. tauto.
Qed.

(* a drop on [tg] that obeys the rules (except for the own king's safety) *)
Definition dkind (tg : BB) (k : kind) (m : move) : Prop :=
  exists t, m = Drop t (mkP k c) /\ has tg t = true /\ ~ dead_square c k t /\
    (k = Pawn -> no_pawn t /\ ~ checkmated (play g m)).
Definition dmove (tg : BB) (m : move) : Prop :=
  exists k, (0 < hand_n (i_hand o p c) k)%N /\ dkind tg k m.

Lemma gen_drop_kind_spec tg k : (0 < hand_n (i_hand o p c) k)%N -> wf S tg -> (forall t, has tg t = true -> B t = None) ->
  exists l, gen_drop_kind o p ai tg k = Some l /\ NoDup l /\
    forall m, In m l <-> dkind tg k m.
Proof.
  intros Held W Emp. unfold gen_drop_kind. cbv zeta.
  assert (H : exists v, (if kind_eqb k Pawn then pawn_drop_target o p ai tg else Some tg) = Some v /\
     wf S v /\ forall t, has v t = true <-> has tg t = true /\
       (k = Pawn -> no_pawn t /\ ~ checkmated (play g (Drop t (mkP Pawn c))))).
  { destruct (kind_eqb_spec k Pawn) as [->|N].
    - destruct (pawn_drop_target_spec tg Held W Emp) as [v [E [Wv V]]]. exists v.
      repeat (split; [assumption|]). intros t. rewrite V. tauto.
    - exists tg. repeat (split; [easy|]). tauto. }
  destruct H as [v [-> [Wv V]]]. cbn [bind]. eexists. split; [reflexivity|]. split.
  - apply Injective_map_NoDup.
    + intros x y [= E]. assumption.
    + apply NoDup_filter. apply (iter_NoDup o S). assumption.
  - intros m. rewrite in_map_iff. unfold dkind. split.
    + intros [t [<- Ht]]. apply filter_In in Ht as [Ht Hr].
      apply (iter_in o S) in Ht; [|assumption]. apply V in Ht as [Ht Hp].
      apply drop_rank_spec in Hr. exists t. repeat (split; [easy|]). intros ->. auto.
    + intros [t [-> [Ht [Hr Hp]]]]. exists t. split; [reflexivity|]. apply filter_In. split.
      * apply (iter_in o S); [assumption|]. apply V. split; [assumption|]. intros ->. auto.
      * apply drop_rank_spec. assumption.
Qed.

Lemma dkind_inj tg k k' m : dkind tg k m -> dkind tg k' m -> k = k'.
Proof. intros [t [-> _]] [t' [E _]]. congruence. Qed.

Lemma gen_drop_fold tg ks : wf S tg -> (forall t, has tg t = true -> B t = None) ->
  (forall k, In k ks -> (0 < hand_n (i_hand o p c) k)%N) -> NoDup ks -> forall acc, exists l,
  fold_left (fun acc k =>
      let* acc := acc in
      let* ms := gen_drop_kind o p ai tg k in
      Some (acc ++ ms)) ks (Some acc) = Some (acc ++ l) /\ NoDup l /\
  forall m, In m l <-> exists k, In k ks /\ dkind tg k m.
Proof.
  intros W Emp. induction ks as [|k ks IH]; intros Hks ND acc; cbn [fold_left].
  - exists []. rewrite app_nil_r. split; [reflexivity|]. split; [constructor|].
    intros m. split; [intros []|]. intros [k [[] _]].
  - inversion ND as [|? ? Nk ND']; subst. cbn [bind].
    destruct (gen_drop_kind_spec tg k (Hks k (or_introl eq_refl)) W Emp) as [l1 [-> [N1 E1]]]. cbn [bind].
    destruct (IH (fun k' I => Hks k' (or_intror I)) ND' (acc ++ l1)) as [l2 [-> [N2 E2]]].
    exists (l1 ++ l2). rewrite app_assoc. split; [reflexivity|]. split.
    + apply NoDup_app; [assumption|assumption|]. intros m H1 H2.
      apply E1 in H1. apply E2 in H2 as [k' [Hk H2]].
      assert (k = k') by (eapply dkind_inj; eassumption). subst. contradiction.
    + intros m. rewrite in_app_iff, E1, E2. cbn [In]. split.
      * intros [H|[k' [Hk H]]]; [exists k; tauto|exists k'; tauto].
      * intros [k' [[<-|Hk] H]]; [tauto|]. right. exists k'. tauto.
Qed.

Lemma gen_drop_spec tg : wf S tg -> (forall t, has tg t = true -> B t = None) ->
  exists l, gen_drop o p ai tg = Some l /\ NoDup l /\ forall m, In m l <-> dmove tg m.
Proof.
  intros W Emp. unfold gen_drop. cbv zeta.
  match goal with |- context [filter ?f hand_kinds] => set (ks := filter f hand_kinds) end.
  assert (Hk : forall k, In k ks -> (0 < hand_n (i_hand o p c) k)%N).
  { intros k Ik. apply filter_In in Ik as [_ Ik]. apply N.ltb_lt in Ik. exact Ik. }
  destruct (gen_drop_fold tg ks W Emp Hk (NoDup_filter _ hand_kinds_NoDup) []) as [l [E [N H]]].
  exists l. split; [exact E|]. split; [assumption|]. intros m. rewrite H. unfold dmove.
  split; intros [k [H1 H2]]; exists k; (split; [|assumption]).
  - unfold ks in H1. apply filter_In in H1 as [_ H1]. apply N.ltb_lt in H1. exact H1.
  - unfold ks. apply filter_In. split; [eapply hand_n_kinds; eassumption|].
    apply N.ltb_lt. exact H1.
Qed.

(** ** The final test *)

Lemma is_legal_normal f t pr k : ai_pinned_of o ai c = pinned_for o p c ->
  B f = Some (mkP k c) ->
  (is_legal o p ai (Normal f t pr) = true <->
   (k = King -> forall s, ~ att B (flip c) s t) /\
   (forall K, B K = Some (mkP King c) -> pinned B c K f -> stays K f t = true)).
Proof.
  intros Pin' Bf. unfold is_legal. cbn [move_from move_to].
  rewrite Bf.
  assert (W : wf S (attackers_to o p (flip c) t (occupied o p))).
  { apply wf_attackers_to; [assumption|apply wf_occupied; assumption]. }
  assert (A : bis_empty o (attackers_to o p (flip c) t (occupied o p)) = true <->
              forall s, ~ att B (flip c) s t).
  { rewrite (is_empty_true o S) by assumption. split.
    - intros H s [k' [Bs Rs]]. specialize (H s).
      rewrite (attackers_to_spec o S p R) in H by (apply wf_occupied; assumption).
      rewrite Bs, color_eqb_refl, (reachb_occ o S p R), Rs in H. discriminate.
    - intros H s. rewrite (attackers_to_spec o S p R) by (apply wf_occupied; assumption).
      destruct (B s) as [[k' c']|] eqn:Bs; [|reflexivity].
      destruct (color_eqb_spec c' (flip c)) as [->|]; [|reflexivity]. cbn [andb].
      rewrite (reachb_occ o S p R).
      destruct (reachb (occb B) (flip c) k' s t) eqn:Rs; [|reflexivity].
      exfalso. apply (H s). exists k'. tauto. }
  assert (Pn : (if has (ai_pinned_of o ai c) f
     then match king_position o p c with
          | Some sq => stays_on_line o sq f t
          | None => true
          end
     else true) = true <->
     (forall K, B K = Some (mkP King c) -> pinned B c K f -> stays K f t = true)).
  { rewrite Pin'. destruct (has (pinned_for o p c) f) eqn:E.
    - apply (pinned_for_spec o S p R) in E as [K [EK P]]. rewrite EK, (stays_spec o S).
      pose proof (king_position_some o S p R _ _ EK) as BK. split.
      + intros H K' BK' _. rewrite (U c _ _ BK' BK). assumption.
      + intros H. apply H; assumption.
    - split; [|reflexivity]. intros _ K BK P. exfalso.
      assert (C : has (pinned_for o p c) f = true); [|congruence].
      apply (pinned_for_spec o S p R). exists K. split; [|assumption].
      apply (king_position_iff o S p R); assumption. }
  destruct (piece_eqb_spec (mkP k c) (mkP King c)) as [E|E].
  - injection E as ->. cbn [andb].
    destruct (bis_empty o (attackers_to o p (flip c) t (occupied o p))); cbn [negb].
    + rewrite Pn. split; [|tauto]. intros H. split; [|assumption]. intros _. apply A. reflexivity.
    + split; [discriminate|]. intros [H _]. apply (proj2 A). auto.
  - cbn [andb]. rewrite Pn. split; [|tauto]. intros H. split; [|assumption]. intros ->. congruence.
Qed.

End Drops.
