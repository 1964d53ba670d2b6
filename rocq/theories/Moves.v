(** * do_move plays the move and keeps the state consistent *)

From Coq Require Import List Bool NArith ZArith Lia.
From Verif Require Import Types Rules Bitboard Tables Zobrist Position Movegen Api
  Words Squares Geometry BBSpec Attacks KingSafety Rep Legality PawnDrop Gen Drops Exact
  ValidPlay.
Import ListNotations.

Local Opaque fu_attack ky_attack ke_attack gi_attack ki_attack ou_attack ka_attack
  hi_attack pseudo_attack BETWEEN_TABLE FILES.

(** ** Hands *)

Lemma hand_count_set h k n j : hand_count h k <> None ->
  hand_count (hand_set h k n) j = if kind_eqb j k then Some n else hand_count h j.
Proof. destruct h. destruct k, j; cbn; congruence. Qed.
Lemma hand_count_some h k : In k hand_kinds <-> hand_count h k = Some (hand_n h k).
Proof. destruct k; cbn; intuition discriminate. Qed.
Lemma hand_n_set h k n j : In k hand_kinds ->
  hand_n (hand_set h k n) j = if kind_eqb j k then n else hand_n h j.
Proof.
  intros I. unfold hand_n. rewrite hand_count_set.
  - destruct (kind_eqb j k); reflexivity.
  - apply hand_count_some with (h := h) in I. congruence.
Qed.
Lemma hand_n_not h k : ~ In k hand_kinds -> hand_n h k = 0%N.
Proof. destruct k; cbn; intuition. Qed.
Lemma hand_n_ext h h' : (forall k, hand_n h k = hand_n h' k) -> h = h'.
Proof.
  intros H. destruct h, h'.
  pose proof (H Pawn). pose proof (H Lance). pose proof (H Knight). pose proof (H Silver).
  pose proof (H Gold). pose proof (H Bishop). pose proof (H Rook). cbn in *. congruence.
Qed.
Lemma hand_set_set h k n m : hand_set (hand_set h k n) k m = hand_set h k m.
Proof. destruct h, k; reflexivity. Qed.
Lemma hand_set_same h k : hand_set h k (hand_n h k) = h.
Proof. destruct h, k; reflexivity. Qed.

Section Moves.
Context (o : bbops) (S : bbspec o).
Notation BB := (bb o).
Notation has := (bcontains o).
Notation rep := (rep o S).

(** ** Bitboards and boards *)

Record reps (p : inner o) (b : board) : Prop := {
  reps_wf_player : forall c, wf S (player_bb o p c);
  reps_wf_piece : forall k, wf S (piece_bb o p k);
  reps_player : forall c s, has (player_bb o p c) s = colorb c (b s);
  reps_piece : forall k s, has (piece_bb o p k) s = kindb k (b s) }.

Lemma reps_rep p : reps p (i_piece_at o p) <-> rep p.
Proof. split; intros []; constructor; assumption. Qed.

Lemma reps_ext p b b' : (forall s, b s = b' s) -> reps p b -> reps p b'.
Proof.
  intros E []. constructor; try assumption; intros; rewrite <- E; auto.
Qed.

Lemma reps_bbs p q b : i_player_bb o p = i_player_bb o q -> i_piece_bb o p = i_piece_bb o q ->
  reps p b -> reps q b.
Proof.
  intros E1 E2 []. unfold player_bb, piece_bb in *. rewrite E1, E2 in *.
  constructor; assumption.
Qed.

Lemma reps_xor p b s x y : reps p b ->
  (b s = None /\ y = Some x) \/ (b s = Some x /\ y = None) ->
  reps (xor_piece o p s x) (upd b s y).
Proof.
  intros [W1 W2 H1 H2] C. unfold xor_piece. constructor; unfold player_bb, piece_bb in *;
    cbn [i_player_bb i_piece_bb].
  - intros c. rewrite c_get_set. destruct (color_eqb c (pcolor x)); [|apply W1].
    apply (sp_wf_xor o S); [apply W1|apply (sp_wf_single o S)].
  - intros k. rewrite k_get_set. destruct (kind_eqb k (pkind x)); [|apply W2].
    apply (sp_wf_xor o S); [apply W2|apply (sp_wf_single o S)].
  - intros c u. rewrite c_get_set. unfold upd.
    destruct (color_eqb_spec c (pcolor x)) as [->|N].
    + rewrite (sp_xor o S), (sp_single o S), H1.
      destruct (sq_eqb_spec u s) as [->|Nu]; [|apply xorb_false_r].
      destruct C as [[-> ->]|[-> ->]]; cbn [colorb]; rewrite color_eqb_refl; reflexivity.
    + rewrite H1. destruct (sq_eqb_spec u s) as [->|Nu]; [|reflexivity].
      destruct C as [[-> ->]|[-> ->]]; cbn [colorb];
        destruct (color_eqb_spec (pcolor x) c); congruence.
  - intros k u. rewrite k_get_set. unfold upd.
    destruct (kind_eqb_spec k (pkind x)) as [->|N].
    + rewrite (sp_xor o S), (sp_single o S), H2.
      destruct (sq_eqb_spec u s) as [->|Nu]; [|apply xorb_false_r].
      destruct C as [[-> ->]|[-> ->]]; cbn [kindb]; rewrite kind_eqb_refl; reflexivity.
    + rewrite H2. destruct (sq_eqb_spec u s) as [->|Nu]; [|reflexivity].
      destruct C as [[-> ->]|[-> ->]]; cbn [kindb];
        destruct (kind_eqb_spec (pkind x) k); congruence.
Qed.

(** A PartialPosition is determined by its board, hands, side and ply. *)
Lemma inner_ext p q : rep p -> rep q ->
  (forall s, i_piece_at o p s = i_piece_at o q s) -> i_hands o p = i_hands o q ->
  i_side o p = i_side o q -> i_ply o p = i_ply o q -> p = q.
Proof.
  intros Rp Rq Hb Hh Hs Hn.
  assert (E1 : i_player_bb o p = i_player_bb o q).
  { apply c_ext. intros c. apply (sp_ext o S).
    - apply (rep_wf_player o S p Rp).
    - apply (rep_wf_player o S q Rq).
    - intros s. pose proof (rep_player o S p Rp c s) as E. pose proof (rep_player o S q Rq c s) as E'.
      rewrite <- Hb in E'. unfold player_bb in *. congruence. }
  assert (E2 : i_piece_bb o p = i_piece_bb o q).
  { apply k_ext. intros k. apply (sp_ext o S).
    - apply (rep_wf_piece o S p Rp).
    - apply (rep_wf_piece o S q Rq).
    - intros s. pose proof (rep_piece o S p Rp k s) as E. pose proof (rep_piece o S q Rq k s) as E'.
      rewrite <- Hb in E'. unfold piece_bb in *. congruence. }
  assert (E3 : i_board o p = i_board o q) by (apply sa_ext; exact Hb).
  destruct p, q; cbn in *; congruence.
Qed.

(** ** From<shogi_core::PartialPosition> *)

Lemma add_fold pp l : forall acc,
  (forall c, wf S (c_get (fst acc) c)) -> (forall k, wf S (k_get (snd acc) k)) ->
  let r := fold_left (add_square o pp) l acc in
  (forall c, wf S (c_get (fst r) c)) /\ (forall k, wf S (k_get (snd r) k)) /\
  (forall c s, has (c_get (fst r) c) s = true <->
     has (c_get (fst acc) c) s = true \/ In s l /\ colorb c (sa_get (pp_board pp) s) = true) /\
  (forall k s, has (k_get (snd r) k) s = true <->
     has (k_get (snd acc) k) s = true \/ In s l /\ kindb k (sa_get (pp_board pp) s) = true).
Proof.
  induction l as [|x l IH]; intros acc W1 W2; cbn [fold_left].
  - cbv zeta. repeat (split; [assumption|]). split; intros; cbn [In]; tauto.
  - set (acc' := add_square o pp acc x).
    assert (A : (forall c, wf S (c_get (fst acc') c)) /\ (forall k, wf S (k_get (snd acc') k)) /\
      (forall c s, has (c_get (fst acc') c) s = true <->
         has (c_get (fst acc) c) s = true \/ x = s /\ colorb c (sa_get (pp_board pp) s) = true) /\
      (forall k s, has (k_get (snd acc') k) s = true <->
         has (k_get (snd acc) k) s = true \/ x = s /\ kindb k (sa_get (pp_board pp) s) = true)).
    { unfold acc', add_square. destruct (sa_get (pp_board pp) x) as [y|] eqn:Ex; cbn [fst snd].
      - repeat split.
        + intros c. rewrite c_get_set. destruct (color_eqb c (pcolor y)); [|apply W1].
          apply (sp_wf_or o S); [apply W1|apply (sp_wf_single o S)].
        + intros k. rewrite k_get_set. destruct (kind_eqb k (pkind y)); [|apply W2].
          apply (sp_wf_or o S); [apply W2|apply (sp_wf_single o S)].
        + rewrite c_get_set. destruct (color_eqb_spec c (pcolor y)) as [->|N]; [|tauto].
          rewrite (sp_or o S), (sp_single o S), orb_true_iff.
          destruct (sq_eqb_spec s x) as [->|]; [|intuition congruence].
          intros _. right. split; [reflexivity|]. rewrite Ex. cbn. apply color_eqb_refl.
        + rewrite c_get_set. intros [H|[<- H]].
          * destruct (color_eqb_spec c (pcolor y)) as [->|N]; [|assumption].
            rewrite (sp_or o S), H. reflexivity.
          * rewrite Ex in H. cbn in H. destruct (color_eqb_spec (pcolor y) c) as [Ec|]; [subst c|discriminate].
            rewrite color_eqb_refl, (sp_or o S), (sp_single o S), sq_eqb_refl. apply orb_true_r.
        + rewrite k_get_set. destruct (kind_eqb_spec k (pkind y)) as [->|N]; [|tauto].
          rewrite (sp_or o S), (sp_single o S), orb_true_iff.
          destruct (sq_eqb_spec s x) as [->|]; [|intuition congruence].
          intros _. right. split; [reflexivity|]. rewrite Ex. cbn. apply kind_eqb_refl.
        + rewrite k_get_set. intros [H|[<- H]].
          * destruct (kind_eqb_spec k (pkind y)) as [->|N]; [|assumption].
            rewrite (sp_or o S), H. reflexivity.
          * rewrite Ex in H. cbn in H. destruct (kind_eqb_spec (pkind y) k) as [Ec|]; [subst k|discriminate].
            rewrite kind_eqb_refl, (sp_or o S), (sp_single o S), sq_eqb_refl. apply orb_true_r.
      - repeat (split; [assumption|]). split; intros; (split; [tauto|]); intros [H|[<- H]];
          try assumption; rewrite Ex in H; discriminate. }
    destruct A as [A1 [A2 [A3 A4]]]. destruct (IH acc' A1 A2) as [B1 [B2 [B3 B4]]].
    cbv zeta in *. repeat (split; [assumption|]). split; intros; cbn [In].
    + rewrite B3, A3. tauto.
    + rewrite B4, A4. tauto.
Qed.

Lemma inner_of_partial_rep pp : rep (inner_of_partial o pp).
Proof.
  destruct (add_fold pp all_squares (C2 (bempty o) (bempty o), k_const (bempty o)))
    as [W1 [W2 [H1 H2]]].
  - intros []; apply (sp_wf_empty o S).
  - intros k. cbn [snd]. rewrite k_get_const. apply (sp_wf_empty o S).
  - cbv zeta in *. constructor.
    + exact W1.
    + exact W2.
    + intros c s. apply eq_true_iff_eq. unfold player_bb, inner_of_partial, i_piece_at.
      cbv zeta. cbn [i_player_bb i_board]. rewrite H1. cbn [fst].
      assert (E : has (c_get (C2 (bempty o) (bempty o)) c) s = false)
        by (destruct c; apply (sp_empty o S)).
      rewrite E. pose proof (all_squares_in s). intuition congruence.
    + intros k s. apply eq_true_iff_eq. unfold piece_bb, inner_of_partial, i_piece_at.
      cbv zeta. cbn [i_piece_bb i_board]. rewrite H2. cbn [snd].
      rewrite k_get_const, (sp_empty o S). pose proof (all_squares_in s). intuition congruence.
Qed.

(** ** The consistency of a position *)

Record inv (pos : position o) (st : state o) : Prop := {
  inv_rep : rep (p_inner o pos);
  inv_valid : valid (gview o (p_inner o pos));
  inv_fit : forall c k, (hand_n (i_hand o (p_inner o pos) c) k <= 18)%N;
  inv_st : pos_state o pos = Some st;
  inv_ai : s_attack_info o st =
           attack_info_new o (calculate_checkers o (p_inner o pos)) (p_inner o pos);
  inv_ply : (i_ply o (p_inner o pos) <= 65535)%N }.

Lemma gview_hand_ok p : hand_ok (gview o p).
Proof. intros c k N. cbn. apply hand_n_not. assumption. Qed.

(** ** is_check_move *)

Section Check.
Context (pos : position o) (st : state o) (I : inv pos st).
Notation p := (p_inner o pos).
Notation B := (i_piece_at o p).
Notation c := (i_side o p).
Notation g := (gview o p).

Lemma chk_kings : kings_ok B.
Proof. exact (v_king g (inv_valid _ _ I)). Qed.

Lemma chk_safe K : B K = Some (mkP King (flip c)) -> forall s, ~ att B c s K.
Proof.
  intros BK s A. apply (v_check g (inv_valid _ _ I)). cbn [gview g_board g_side].
  apply (in_check_att B (flip c) K chk_kings BK). exists s. rewrite flip_flip. assumption.
Qed.

Lemma checkable_spec k t K : B K = Some (mkP King (flip c)) ->
  ai_checkable o (s_attack_info o st) k t =
  negb (is_king k) && reachb (occb B) c k t K.
Proof.
  intros BK. unfold ai_checkable. rewrite (inv_ai _ _ I). unfold attack_info_new.
  cbn [ai_checkables]. rewrite (checkables_spec o S p (inv_rep _ _ I)).
  rewrite (proj2 (king_position_iff o S p (inv_rep _ _ I) (flip c) K chk_kings) BK).
  reflexivity.
Qed.
Lemma checkable_none k t : (forall K, B K <> Some (mkP King (flip c))) ->
  ai_checkable o (s_attack_info o st) k t = false.
Proof.
  intros N. unfold ai_checkable. rewrite (inv_ai _ _ I). unfold attack_info_new.
  cbn [ai_checkables]. rewrite (checkables_spec o S p (inv_rep _ _ I)).
  destruct (king_position o p (flip c)) as [K|] eqn:E; [|reflexivity].
  apply (king_position_some o S p (inv_rep _ _ I)) in E. exfalso. exact (N K E).
Qed.
Lemma chk_pin d : ai_pinned_of o (s_attack_info o st) d = pinned_for o p d.
Proof. rewrite (inv_ai _ _ I). destruct d; reflexivity. Qed.

Lemma is_check_move_spec m : legal g m ->
  exists b, is_check_move o pos m = Some b /\
    (b = true <-> in_check (g_board (play g m)) (flip c)).
Proof.
  intros L. pose proof (inv_rep _ _ I) as R. pose proof (inv_valid _ _ I) as V.
  unfold is_check_move. rewrite (inv_st _ _ I). cbn [bind].
  pose proof (valid_play g m V (gview_hand_ok p) L) as V'.
  destruct m as [f t pr|t x].
  - pose proof L as [P _]. pose proof P as P'.
    destruct P' as [k [Bf [Ct [Rf Pr]]]].
    change (g_board g f) with (B f) in Bf. cbn [gview g_side] in Bf.
    apply reachb_spec in Rf. rewrite Bf. cbn [bind pkind].
    change (if pr then match promote_kind k with Some k0 => k0 | None => k end else k)
      with (if pr then promoted_kind k else k).
    set (k' := if pr then promoted_kind k else k).
    assert (Pk : k' = k \/ promote_kind k = Some k').
    { unfold k'. destruct pr; [|tauto]. right. cbn in Pr. unfold promoted_kind.
      destruct (promote_kind k); tauto. }
    rewrite (play_normal_board g f t pr k c Bf). fold k'.
    change (g_board g) with B in *. cbn [gview g_side] in *.
    assert (Board : g_board (play g (Normal f t pr)) = after B (only f) t (mkP k' c))
      by (apply (play_normal_board g f t pr k c Bf)).
    pose proof (v_king _ V') as U'. rewrite Board in U'.
    rewrite chk_pin.
    destruct (king_position o p (flip c)) as [K|] eqn:EK.
    + pose proof (king_position_some o S p R _ _ EK) as BK.
      rewrite (checkable_spec k' t K BK).
      assert (NKt : K <> t).
      { intros ->. apply (no_king_capture g f t pr (flip c) V P). exact BK. }
      assert (NKf : K <> f).
      { intros ->. rewrite BK in Bf. injection Bf as _ Bf. destruct c; discriminate. }
      assert (BK' : after B (only f) t (mkP k' c) K = Some (mkP King (flip c))).
      { rewrite after_other; [assumption|assumption|apply sq_eqb_neq; assumption]. }
      assert (Ct' : forall q, B t = Some q -> pcolor q = flip c).
      { intros [k0 d] Bt. destruct (color_cases c d) as [->| ->]; [|reflexivity].
        exfalso. exact (Ct _ Bt). }
      assert (Chk : in_check (after B (only f) t (mkP k' c)) (flip c) <->
        reachb (occb B) c k' t K = true \/ (pinned B (flip c) K f /\ stays K f t = false)).
      { rewrite (in_check_att _ _ K U' BK'), flip_flip.
        apply (check_move B c K f t k k' Bf BK Rf Pk (chk_safe K BK) Ct'). }
      setoid_rewrite Chk.
      assert (Kg : k' = King -> reachb (occb B) c k' t K = false).
      { intros Ek. destruct (reachb (occb B) c k' t K) eqn:E; [exfalso|reflexivity].
        assert (k = King) as ->.
        { unfold k' in Ek. destruct pr; [apply promoted_king|]; assumption. }
        destruct L as [_ [L _]]. apply L. cbn [gview g_side]. rewrite Board.
        exists t. rewrite after_t. split; [rewrite Ek; reflexivity|]. exists K, King. split; [assumption|].
        left. rewrite Ek, reach_step_king in E. apply king_step_adjacent in E as [N D].
        assert (D' : stepb (flip c) King K t = true).
        { apply king_step_adjacent. split; [congruence|]. unfold dist in *. lia. }
        apply stepb_spec in D'. exact D'. }
      assert (PF : has (pinned_for o p (flip c)) f = true <-> pinned B (flip c) K f).
      { rewrite (pinned_for_spec o S p R), EK. split.
        - intros [K' [[= <-] H]]. assumption.
        - intros H. exists K. tauto. }
      destruct (negb (is_king k') && reachb (occb B) c k' t K) eqn:E1.
      * exists true. split; [reflexivity|]. apply andb_true_iff in E1 as [_ E1]. tauto.
      * assert (E2 : reachb (occb B) c k' t K = false).
        { destruct (kind_eqb_spec k' King) as [Ek|Nk]; [auto|].
          apply andb_false_iff in E1 as [E1|E1]; [|assumption].
          destruct k'; try discriminate. congruence. }
        rewrite E2. destruct (has (pinned_for o p (flip c)) f) eqn:E3.
        -- cbn [bind]. eexists. split; [reflexivity|].
           rewrite (stays_spec o S), negb_true_iff. assert (true = true) by reflexivity.
           intuition discriminate.
        -- exists false. split; [reflexivity|]. split; [discriminate|].
           intros [H|[H _]]; [discriminate|]. apply PF in H. discriminate.
    + pose proof (king_position_none o S p R _ EK) as N.
      rewrite (checkable_none k' t N). exists false. split.
      * destruct (has (pinned_for o p (flip c)) f) eqn:E3; [|reflexivity].
        apply (pinned_for_spec o S p R) in E3 as [K [E3 _]]. congruence.
      * split; [discriminate|]. intros Q. exfalso. revert Q. apply no_king_no_check.
        intros s. unfold after. destruct (sq_eqb s t).
        -- intros [= _ E]. destruct c; discriminate.
        -- destruct (only f s); [discriminate|]. apply N.
  - pose proof L as [P _]. eexists. split; [reflexivity|].
    rewrite play_drop_board. pose proof (v_king _ V') as U'. rewrite play_drop_board in U'.
    destruct x as [k d]. destruct P as [Cx [Hx [Bt [Dx Nx]]]].
    cbn [pcolor pkind gview g_side g_board g_hand] in *. subst d.
    assert (Nk : k <> King) by (intros ->; cbn in Hx; lia).
    destruct (king_position o p (flip c)) as [K|] eqn:EK.
    + pose proof (king_position_some o S p R _ _ EK) as BK.
      rewrite (checkable_spec k t K BK).
      assert (BK' : after B nothing t (mkP k c) K = Some (mkP King (flip c))).
      { rewrite after_other; [assumption|congruence|reflexivity]. }
      rewrite (in_check_att _ _ K U' BK'), flip_flip.
      pose proof (check_drop B c K t k Bt ltac:(congruence) (chk_safe K BK)) as CD.
      assert (Ek : is_king k = false) by (destruct k; try reflexivity; congruence).
      rewrite Ek. cbn [negb andb]. split.
      * intros H. exists t. apply CD. tauto.
      * intros [s H]. apply CD in H. tauto.
    + pose proof (king_position_none o S p R _ EK) as N.
      rewrite (checkable_none k t N). split; [discriminate|]. intros Q. exfalso. revert Q.
      apply no_king_no_check. intros s. unfold after. destruct (sq_eqb s t); [|apply N].
      congruence.
Qed.

End Check.
End Moves.
