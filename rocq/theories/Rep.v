(** * The bitboards of a position represent its board

    [rep p] relates the bitboards of a PartialPosition to its board; under it
    the attack information is what the rules say. *)

From Coq Require Import List Bool NArith ZArith Lia Btauto.
From Verif Require Import Types Rules Bitboard Tables Zobrist Position Movegen
  Words Squares Geometry BBSpec Attacks KingSafety.
Import ListNotations.

Local Opaque fu_attack ky_attack ke_attack gi_attack ki_attack ou_attack ka_attack
  hi_attack pseudo_attack BETWEEN_TABLE FILES.

Definition colorb (c : color) (x : option piece) : bool :=
  match x with Some q => color_eqb (pcolor q) c | None => false end.
Definition kindb (k : kind) (x : option piece) : bool :=
  match x with Some q => kind_eqb (pkind q) k | None => false end.

Lemma colorb_true c x : colorb c x = true <-> exists k, x = Some (mkP k c).
Proof.
  destruct x as [[k c']|]; cbn.
  - destruct (color_eqb_spec c' c) as [->|N]; split; intros H; try reflexivity; try discriminate.
    + exists k. reflexivity.
    + destruct H as [k' H]. congruence.
  - split; [discriminate|]. intros [k H]. discriminate.
Qed.
Lemma kindb_true k x : kindb k x = true <-> exists c, x = Some (mkP k c).
Proof.
  destruct x as [[k' c]|]; cbn.
  - destruct (kind_eqb_spec k' k) as [->|N]; split; intros H; try reflexivity; try discriminate.
    + exists c. reflexivity.
    + destruct H as [c' H]. congruence.
  - split; [discriminate|]. intros [c H]. discriminate.
Qed.

(** ** Kinds that move like two tables together *)

Lemma silver_gold_king c s t : stepb c Silver s t || stepb c Gold s t = stepb c King s t.
Proof.
  unfold stepb. cbn [steps gold_steps orthogonals diagonals app existsb]. btauto.
Qed.

Lemma step_sub c k k' s t : (forall v, In v (steps k) -> In v (steps k')) ->
  stepb c k s t = true -> stepb c k' s t = true.
Proof.
  intros H. unfold stepb. rewrite !existsb_exists. intros [v [Hv D]]. exists v. auto.
Qed.

Lemma silver_rook_dragon occ c s t :
  stepb c Silver s t || reachb occ c Rook s t = reachb occ c ProRook s t.
Proof.
  apply eq_true_iff_eq. rewrite orb_true_iff. split.
  - intros [H|H]; [|apply rook_reach_dragon; assumption].
    unfold stepb in H. apply existsb_exists in H as [v [Hv D]].
    cbn [steps In] in Hv. destruct Hv as [<-|Hv].
    + apply (step_is_ride occ c (0, -1)%Z); [cbn; tauto|apply in_dirs8; tauto|assumption].
    + unfold reachb. apply orb_true_iff. left. unfold stepb. apply existsb_exists.
      exists v. split; [|assumption]. cbn [steps diagonals In]. tauto.
  - unfold reachb. rewrite orb_true_iff. intros [H|H].
    + left. revert H. apply step_sub. cbn [steps diagonals In]. tauto.
    + right. apply orb_true_iff. tauto.
Qed.

Lemma gold_bishop_horse occ c s t :
  stepb c Gold s t || reachb occ c Bishop s t = reachb occ c ProBishop s t.
Proof.
  apply eq_true_iff_eq. rewrite orb_true_iff. split.
  - intros [H|H].
    + unfold stepb in H. apply existsb_exists in H as [v [Hv D]].
      cbn [steps gold_steps In] in Hv.
      assert (C : In v orthogonals \/ In v diagonals)
        by (unfold orthogonals, diagonals; cbn [In]; tauto).
      destruct C as [C|C].
      * unfold reachb. apply orb_true_iff. left. unfold stepb. apply existsb_exists.
        exists v. split; assumption.
      * apply (step_is_ride occ c v); [assumption| |assumption].
        apply in_or_app. tauto.
    + unfold reachb in *. cbn [stepb steps existsb orb] in H.
      change (rideb c ProBishop s t) with (rideb c Bishop s t). rewrite H. apply orb_true_r.
  - unfold reachb. rewrite orb_true_iff. intros [H|H].
    + left. revert H. apply step_sub. cbn [steps orthogonals gold_steps In]. tauto.
    + right. apply orb_true_iff. tauto.
Qed.

Lemma reach_step occ c k s t : rides k = [] -> reachb occ c k s t = stepb c k s t.
Proof.
  intros E. unfold reachb, rideb. rewrite E. destruct (dirof s t); apply orb_false_r.
Qed.

Section Rep.
Context (o : bbops) (S : bbspec o).
Notation BB := (bb o).
Notation has := (bcontains o).
Notation inner := (inner o).

Record rep (p : inner) : Prop := {
  rep_wf_player : forall c, wf S (player_bb o p c);
  rep_wf_piece : forall k, wf S (piece_bb o p k);
  rep_player : forall c s, has (player_bb o p c) s = colorb c (i_piece_at o p s);
  rep_piece : forall k s, has (piece_bb o p k) s = kindb k (i_piece_at o p s) }.

(** ** Iterators and emptiness *)

Lemma iter_in a s : wf S a -> (In s (biter o a) <-> has a s = true).
Proof.
  intros W. rewrite (sp_iter o S) by assumption. rewrite filter_In.
  pose proof (all_squares_in s). tauto.
Qed.
Lemma iter_NoDup a : wf S a -> NoDup (biter o a).
Proof.
  intros W. rewrite (sp_iter o S) by assumption. apply NoDup_filter. apply all_squares_NoDup.
Qed.
Lemma is_empty_true a : wf S a -> (bis_empty o a = true <-> forall s, has a s = false).
Proof.
  intros W. rewrite (sp_is_empty o S) by assumption. rewrite negb_true_iff. split.
  - intros E s. destruct (has a s) eqn:H; [|reflexivity]. rewrite <- E. symmetry.
    apply existsb_exists. exists s. split; [apply all_squares_in|assumption].
  - intros H. destruct (existsb (has a) all_squares) eqn:E; [|reflexivity].
    apply existsb_exists in E as [s [_ E]]. rewrite H in E. discriminate.
Qed.
Lemma is_empty_false a : wf S a -> (bis_empty o a = false <-> exists s, has a s = true).
Proof.
  intros W. rewrite (sp_is_empty o S) by assumption. rewrite negb_false_iff, existsb_exists.
  split; [intros [s [_ H]]; eauto|]. intros [s H]. exists s. split; [apply all_squares_in|].
  assumption.
Qed.

Lemma iter_hd a : wf S a ->
  match hd_error (biter o a) with
  | Some s => has a s = true
  | None => forall s, has a s = false
  end.
Proof.
  intros W. destruct (biter o a) as [|s l] eqn:E; cbn.
  - intros s. destruct (has a s) eqn:H; [|reflexivity].
    apply iter_in in H; [|assumption]. rewrite E in H. destruct H.
  - apply iter_in; [assumption|]. rewrite E. left. reflexivity.
Qed.

Lemma count_one a : wf S a ->
  ((bcount o a =? 1)%N = true <-> exists s, forall t, has a t = sq_eqb t s).
Proof.
  intros W. rewrite (sp_count o S) by assumption. rewrite N.eqb_eq.
  assert (E : forall l : list square, N.of_nat (length l) = 1%N <-> exists s, l = [s]).
  { intros [|x [|y l]]; cbn; split; intros H; try lia; try (destruct H; discriminate);
      eauto. }
  rewrite E. split.
  - intros [s H]. exists s. intros t. apply eq_true_iff_eq.
    assert (I : In t (filter (has a) all_squares) <-> has a t = true).
    { rewrite filter_In. pose proof (all_squares_in t). tauto. }
    rewrite <- I, H. cbn. destruct (sq_eqb_spec t s); intuition congruence.
  - intros [s H]. exists s.
    assert (I : forall t, In t (filter (has a) all_squares) <-> t = s).
    { intros t. rewrite filter_In, H. pose proof (all_squares_in t).
      destruct (sq_eqb_spec t s); intuition congruence. }
    pose proof (NoDup_filter (has a) all_squares_NoDup) as ND.
    destruct (filter (has a) all_squares) as [|x [|y l]].
    + exfalso. apply (I s). reflexivity.
    + f_equal. apply I. left. reflexivity.
    + exfalso. assert (x = s) by (apply I; cbn; tauto).
      assert (y = s) by (apply I; cbn; tauto). subst. inversion ND. cbn in *. tauto.
Qed.

Ltac wfs := repeat match goal with
  | |- wf _ (fu_attack _ _ _) => apply wf_fu
  | |- wf _ (ke_attack _ _ _) => apply wf_ke
  | |- wf _ (gi_attack _ _ _) => apply wf_gi
  | |- wf _ (ki_attack _ _ _) => apply wf_ki
  | |- wf _ (ou_attack _ _ _) => apply wf_ou
  | |- wf _ (ky_attack _ _ _ _) => apply wf_ky_attack
  | |- wf _ (ka_attack _ _ _) => apply wf_ka
  | |- wf _ (hi_attack _ _ _) => apply wf_hi
  | |- wf _ (pseudo_attack _ _ _ _) => apply wf_pseudo_attack
  | |- wf _ (BETWEEN_TABLE _ _ _) => apply wf_between
  | |- wf _ (FILES _ _) => apply wf_files
  | |- wf _ (bempty _) => apply (sp_wf_empty o S)
  | |- wf _ (bsingle _ _) => apply (sp_wf_single o S)
  | |- wf _ (band _ _ _) => apply (sp_wf_and o S)
  | |- wf _ (bor _ _ _) => apply (sp_wf_or o S)
  | |- wf _ (bxor _ _ _) => apply (sp_wf_xor o S)
  | |- wf _ (bnot _ _) => apply (sp_wf_not o S)
  | |- wf _ (player_bb _ _ _) => apply rep_wf_player
  | |- wf _ (piece_bb _ _ _) => apply rep_wf_piece
  | _ => assumption
  end.

Section Board.
Context (p : inner) (R : rep p).
Notation B := (i_piece_at o p).
Notation occ := (occupied o p).

Lemma wf_occupied : wf S occ.
Proof. apply (sp_wf_or o S); apply (rep_wf_player p R). Qed.

Lemma occupied_spec s : has occ s = occb B s.
Proof.
  unfold occupied. rewrite (sp_or o S), !(rep_player p R).
  unfold occb, colorb. destruct (B s) as [[k []]|]; reflexivity.
Qed.

Lemma reachb_occ c k s t : reachb (has occ) c k s t = reachb (occb B) c k s t.
Proof. apply reachb_ext. apply occupied_spec. Qed.

Lemma king_position_some c s : king_position o p c = Some s -> B s = Some (mkP King c).
Proof.
  unfold king_position. intros H.
  pose proof (iter_hd (band o (player_bb o p c) (piece_bb o p King))) as Q.
  rewrite H in Q.
  rewrite (sp_and o S), (rep_player p R), (rep_piece p R), andb_true_iff in Q.
  destruct Q as [Q1 Q2].
  { apply (sp_wf_and o S); [apply (rep_wf_player p R)|apply (rep_wf_piece p R)]. }
  apply colorb_true in Q1 as [k Q1]. apply kindb_true in Q2 as [c' Q2]. congruence.
Qed.
Lemma king_position_none c : king_position o p c = None ->
  forall s, B s <> Some (mkP King c).
Proof.
  unfold king_position. intros H s Bs.
  pose proof (iter_hd (band o (player_bb o p c) (piece_bb o p King))) as Q.
  rewrite H in Q.
  assert (W : wf S (band o (player_bb o p c) (piece_bb o p King))).
  { apply (sp_wf_and o S); [apply (rep_wf_player p R)|apply (rep_wf_piece p R)]. }
  specialize (Q W s). rewrite (sp_and o S), (rep_player p R), (rep_piece p R), Bs in Q.
  cbn in Q. rewrite color_eqb_refl in Q. discriminate.
Qed.
Lemma king_position_iff c s : kings_ok B ->
  (king_position o p c = Some s <-> B s = Some (mkP King c)).
Proof.
  intros U. split; [apply king_position_some|]. intros Bs.
  destruct (king_position o p c) as [s'|] eqn:E.
  - apply king_position_some in E. f_equal. apply (U c); assumption.
  - exfalso. exact (king_position_none c E s Bs).
Qed.

(** ** Attackers *)

Ltac tbl := repeat first [rewrite (sp_and o S)|rewrite (sp_or o S)];
  rewrite ?(rep_player p R), ?(rep_piece p R).

Ltac kinds := cbn [colorb kindb pkind pcolor kind_eqb];
  rewrite ?andb_true_r, ?andb_false_r, ?orb_false_r, ?orb_false_l, ?andb_false_l, ?andb_true_l.

Lemma wf_attackers_to c t oc : wf S oc -> wf S (attackers_to o p c t oc).
Proof.
  intros Ho. unfold attackers_to.
  wfs.
Qed.

Lemma attackers_to_spec c t oc s : wf S oc ->
  has (attackers_to o p c t oc) s =
  match B s with
  | Some (mkP k c') => color_eqb c' c && reachb (has oc) c k s t
  | None => false
  end.
Proof.
  intros Ho. unfold attackers_to. cbv zeta. tbl.
  rewrite (fu_attack_spec o S), (ke_attack_spec o S), (gi_attack_spec o S),
    (ki_attack_spec o S).
  rewrite (ky_attack_spec o S), (ka_attack_spec o S (flip c)),
    (hi_attack_spec o S (flip c)) by assumption.
  rewrite ?stepb_flip, ?reachb_flip.
  destruct (B s) as [[k c']|]; [|cbn [colorb]; apply andb_false_r].
  destruct k; kinds;
    rewrite ?(reach_step _ c _ s t) by reflexivity;
    rewrite ?silver_gold_king, ?silver_rook_dragon;
    rewrite ?(orb_comm (reachb _ c Bishop s t)), ?gold_bishop_horse;
    apply andb_comm.
Qed.

Lemma wf_attackers_klp c t : wf S (attackers_to_except_klp o p c t).
Proof.
  unfold attackers_to_except_klp. cbv zeta. pose proof wf_occupied.
  wfs.
Qed.

Definition is_klp (k : kind) : bool :=
  match k with King | Lance | Pawn => true | _ => false end.

Lemma attackers_klp_spec c t s :
  has (attackers_to_except_klp o p c t) s =
  match B s with
  | Some (mkP k c') => color_eqb c' c && negb (is_klp k) && reachb (occb B) c k s t
  | None => false
  end.
Proof.
  unfold attackers_to_except_klp. cbv zeta. tbl.
  rewrite (ke_attack_spec o S), (gi_attack_spec o S), (ki_attack_spec o S).
  rewrite (ka_attack_spec o S (flip c)),
    (hi_attack_spec o S (flip c)) by apply wf_occupied.
  rewrite ?stepb_flip, ?reachb_flip, ?reachb_occ.
  destruct (B s) as [[k c']|]; [|cbn [colorb]; apply andb_false_r].
  destruct k; kinds; cbn [is_klp negb];
    rewrite ?andb_true_r, ?andb_false_r, ?andb_false_l;
    try reflexivity;
    rewrite ?(reach_step _ c _ s t) by reflexivity;
    rewrite ?silver_gold_king, ?silver_rook_dragon;
    rewrite ?(orb_comm (reachb _ c Bishop s t)), ?gold_bishop_horse;
    apply andb_comm.
Qed.

Definition is_king (k : kind) : bool := match k with King => true | _ => false end.

Lemma wf_checkers : wf S (calculate_checkers o p).
Proof.
  unfold calculate_checkers. cbv zeta. pose proof wf_occupied.
  destruct (king_position o p (i_side o p)); [|apply (sp_wf_empty o S)].
  wfs.
Qed.

Lemma checkers_spec s :
  has (calculate_checkers o p) s =
  match king_position o p (i_side o p), B s with
  | Some K, Some (mkP k c') =>
      color_eqb c' (flip (i_side o p)) && negb (is_king k)
      && reachb (occb B) (flip (i_side o p)) k s K
  | _, _ => false
  end.
Proof.
  unfold calculate_checkers. cbv zeta. set (c := i_side o p).
  destruct (king_position o p c) as [K|]; [|apply (sp_empty o S)].
  tbl.
  rewrite (fu_attack_spec o S), (ke_attack_spec o S), (gi_attack_spec o S),
    (ki_attack_spec o S).
  rewrite (ky_attack_spec o S), (ka_attack_spec o S c),
    (hi_attack_spec o S c) by apply wf_occupied.
  rewrite ?reachb_occ.
  assert (F1 : forall k, stepb c k K s = stepb (flip c) k s K).
  { intros k. rewrite <- (flip_flip c) at 1. apply stepb_flip. }
  assert (F2 : forall k, reachb (occb B) c k K s = reachb (occb B) (flip c) k s K).
  { intros k. rewrite <- (flip_flip c) at 1. apply reachb_flip. }
  rewrite !F1, !F2.
  destruct (B s) as [[k c']|]; [|cbn [colorb]; apply andb_false_r].
  destruct k; kinds; cbn [is_king negb];
    rewrite ?andb_true_r, ?andb_false_r, ?andb_false_l;
    try reflexivity;
    rewrite ?(reach_step _ (flip c) _ s K) by reflexivity;
    rewrite ?silver_gold_king, ?silver_rook_dragon;
    rewrite ?(orb_comm (reachb _ (flip c) Bishop s K)), ?gold_bishop_horse;
    apply andb_comm.
Qed.

(** ** Pins *)

Lemma wf_snipers c K : wf S (snipers o p c K).
Proof.
  unfold snipers.
  wfs.
Qed.

Lemma snipers_spec c K s :
  has (snipers o p c K) s =
  match B s with
  | Some (mkP k c') => color_eqb c' (flip c) && rideb (flip c) k s K
  | None => false
  end.
Proof.
  unfold snipers. tbl. rewrite !(pseudo_attack_spec o S). cbn [pseudo_reach].
  assert (F : forall k, rideb c k K s = rideb (flip c) k s K).
  { intros k. rewrite <- (flip_flip c) at 1. apply rideb_flip. }
  rewrite !F. destruct (B s) as [[k c']|]; [|cbn [colorb]; apply andb_false_r].
  destruct k; kinds; try apply andb_comm;
    unfold rideb; cbn [rides existsb]; destruct (dirof s K); rewrite ?andb_false_r; reflexivity.
Qed.

Lemma pinned_fold sq oc l : wf S oc -> forall acc, wf S acc ->
  let r := fold_left (fun acc sniper =>
        let blockers := band o (BETWEEN_TABLE o sq sniper) oc in
        if (bcount o blockers =? 1)%N then bor o acc blockers else acc) l acc in
  wf S r /\ forall u, has r u = true <-> has acc u = true \/
    exists s, In s l /\ betweenb sq u s = true /\ has oc u = true /\
      forall v, betweenb sq v s = true -> has oc v = true -> v = u.
Proof.
  intros Ho. induction l as [|s l IH]; intros acc Ha; cbn [fold_left].
  - split; [assumption|]. intros u. split; [tauto|]. intros [H|[s [[] _]]]. assumption.
  - cbv zeta.
    set (bl := band o (BETWEEN_TABLE o sq s) oc).
    assert (Wb : wf S bl) by (apply (sp_wf_and o S); [apply wf_between|assumption]).
    assert (Hb : forall u, has bl u = betweenb sq u s && has oc u).
    { intros u. unfold bl. rewrite (sp_and o S), (between_table_spec o S). reflexivity. }
    destruct (bcount o bl =? 1)%N eqn:Q.
    + apply count_one in Q as [x Q]; [|assumption].
      destruct (IH (bor o acc bl)) as [W E]; [apply (sp_wf_or o S); assumption|].
      split; [assumption|]. intros u. rewrite E, (sp_or o S), orb_true_iff. split.
      * intros [[H|H]|[s' [H1 H2]]]; [tauto| |right; exists s'; cbn [In]; tauto].
        right. exists s. split; [left; reflexivity|].
        pose proof H as H'. rewrite Hb in H'. apply andb_true_iff in H' as [H1 H2].
        repeat (split; [assumption|]). intros v V1 V2.
        assert (Hv : has bl v = true) by (rewrite Hb, V1, V2; reflexivity).
        rewrite Q in H, Hv.
        destruct (sq_eqb_spec u x), (sq_eqb_spec v x); congruence.
      * intros [H|[s' [[<-|H1] H2]]]; [tauto| |right; exists s'; tauto].
        left. right. rewrite Hb. destruct H2 as [-> [-> _]]. reflexivity.
    + destruct (IH acc Ha) as [W E]. split; [assumption|]. intros u. rewrite E. split.
      * intros [H|[s' [H1 H2]]]; [tauto|]. right. exists s'. cbn [In]. tauto.
      * intros [H|[s' [[<-|H1] H2]]]; [tauto| |right; exists s'; tauto].
        exfalso. assert (C : (bcount o bl =? 1)%N = true); [|congruence].
        apply count_one; [assumption|]. exists u. intros t. rewrite Hb.
        destruct H2 as [H2 [H3 H4]]. destruct (sq_eqb_spec t u) as [->|N].
        -- rewrite H2, H3. reflexivity.
        -- destruct (betweenb sq t s) eqn:E1; [|reflexivity].
           destruct (has oc t) eqn:E2; [|reflexivity]. exfalso. auto.
Qed.

Lemma wf_pinned c : wf S (pinned_for o p c).
Proof.
  unfold pinned_for. cbv zeta. destruct (king_position o p c); [|apply (sp_wf_empty o S)].
  apply pinned_fold; [apply wf_occupied|apply (sp_wf_empty o S)].
Qed.

Lemma pinned_for_spec c u :
  has (pinned_for o p c) u = true <->
  exists K, king_position o p c = Some K /\ pinned B c K u.
Proof.
  unfold pinned_for. cbv zeta. destruct (king_position o p c) as [K|].
  - destruct (pinned_fold K occ (biter o (snipers o p c K)) wf_occupied (bempty o)
      (sp_wf_empty o S)) as [_ E].
    rewrite E, (sp_empty o S). clear E. split.
    + intros [H|[s [H1 [H2 [H3 H4]]]]]; [discriminate|]. exists K. split; [reflexivity|].
      apply iter_in in H1; [|apply wf_snipers]. rewrite snipers_spec in H1.
      destruct (B s) as [[k c']|] eqn:Bs; [|discriminate].
      apply andb_true_iff in H1 as [Hc Hr].
      destruct (color_eqb_spec c' (flip c)) as [->|]; [|discriminate].
      exists s. split; [exists k; tauto|]. split; [assumption|].
      rewrite occupied_spec in H3. split; [apply occb_true; assumption|].
      intros v V1 V2. apply H4; [assumption|]. rewrite occupied_spec. apply occb_true.
      assumption.
    + intros [K' [[= <-] [s [[k [Bs Hr]] [H2 [H3 H4]]]]]]. right. exists s. split.
      { apply iter_in; [apply wf_snipers|]. rewrite snipers_spec, Bs, color_eqb_refl, Hr.
        reflexivity. }
      split; [assumption|]. rewrite occupied_spec. split; [apply occb_true; assumption|].
      intros v V1 V2. apply H4; [assumption|]. rewrite occupied_spec in V2. apply occb_true.
      assumption.
  - rewrite (sp_empty o S). split; [discriminate|]. intros [K [H _]]. discriminate.
Qed.

(** ** Squares that give check *)

Lemma wf_checkables k : wf S (k_get (checkables_for o p) k).
Proof.
  unfold checkables_for. cbv zeta. pose proof wf_occupied.
  destruct (king_position o p (flip (i_side o p)));
    [|rewrite k_get_const; apply (sp_wf_empty o S)].
  destruct k; cbn [k_get kP kL kN kS kG kB kR kK kPP kPL kPN kPS kPB kPR]; wfs.
Qed.

Lemma checkables_spec k t :
  has (k_get (checkables_for o p) k) t =
  match king_position o p (flip (i_side o p)) with
  | Some K => negb (is_king k) && reachb (occb B) (i_side o p) k t K
  | None => false
  end.
Proof.
  unfold checkables_for. cbv zeta. set (c := i_side o p).
  destruct (king_position o p (flip c)) as [K|];
    [|rewrite k_get_const; apply (sp_empty o S)].
  assert (G1 : forall k, stepb (flip c) k K t = stepb c k t K) by (intros; apply stepb_flip).
  assert (G2 : forall k, reachb (has occ) (flip c) k K t = reachb (occb B) c k t K).
  { intros k'. rewrite reachb_flip. apply reachb_occ. }
  destruct k; cbn [k_get kP kL kN kS kG kB kR kK kPP kPL kPN kPS kPB kPR is_king negb andb].
  - rewrite (fu_attack_spec o S), G1. symmetry. apply reach_step. reflexivity.
  - rewrite (ky_attack_spec o S) by apply wf_occupied. apply G2.
  - rewrite (ke_attack_spec o S), G1. symmetry. apply reach_step. reflexivity.
  - rewrite (gi_attack_spec o S), G1. symmetry. apply reach_step. reflexivity.
  - rewrite (ki_attack_spec o S), G1. symmetry. apply reach_step. reflexivity.
  - rewrite (ka_attack_spec o S (flip c)) by apply wf_occupied. apply G2.
  - rewrite (hi_attack_spec o S (flip c)) by apply wf_occupied. apply G2.
  - apply (sp_empty o S).
  - rewrite (ki_attack_spec o S), G1, reach_step; reflexivity.
  - rewrite (ki_attack_spec o S), G1, reach_step; reflexivity.
  - rewrite (ki_attack_spec o S), G1, reach_step; reflexivity.
  - rewrite (ki_attack_spec o S), G1, reach_step; reflexivity.
  - rewrite (sp_or o S), (ki_attack_spec o S), (ka_attack_spec o S (flip c))
      by apply wf_occupied.
    rewrite G1, G2, orb_comm. apply gold_bishop_horse.
  - rewrite (sp_or o S), (gi_attack_spec o S), (hi_attack_spec o S (flip c))
      by apply wf_occupied.
    rewrite G1, G2, orb_comm. apply silver_rook_dragon.
Qed.

Lemma stays_spec K f t : stays_on_line o K f t = stays K f t.
Proof.
  unfold stays_on_line, stays. rewrite !(between_table_spec o S). reflexivity.
Qed.

End Board.
End Rep.
