(** * Checks under arbitrary moves of one's own pieces

    The data that new and do_move cache about checks and pins stays exact under
    all accepted moves of the mover's own pieces, legal or not, that do not jump
    over a piece on a line, as long as the opposing king is not attacked before
    the move. *)

From Coq Require Import List Bool NArith ZArith Lia.
From Verif Require Import Types Rules Bitboard Tables Zobrist Position Movegen Api
  Words Squares Geometry BBSpec Backends Attacks KingSafety Rep Legality PawnDrop Drops Exact ValidPlay Moves Hash
  Play Undo Reach AnyMove Panics Lines Accept Tidy Consequences.
Import ListNotations.

(** ** Boards *)

(* a piece other than the king attacks the king of [c] *)
Definition checked (b : board) (c : color) : Prop :=
  exists K s k, b K = Some (mkP King c) /\ b s = Some (mkP k (flip c)) /\ k <> King /\
    reaches b (flip c) k s K.

(* own piece, another square, nothing on the line in between; a drop of one's
   own colour on an empty square *)
Definition fair (g : game) (m : move) : Prop :=
  match m with
  | Normal f t _ => f <> t /\ (exists k, g_board g f = Some (mkP k (g_side g))) /\
      forall s, between f s t -> g_board g s = None
  | Drop t x => g_board g t = None /\ pcolor x = g_side g
  end.

Definition lone (g : game) : Prop := kings_ok (g_board g).

Definition natt (b : board) (c : color) (s t : square) : Prop :=
  exists k, b s = Some (mkP k c) /\ k <> King /\ reachb (occb b) c k s t = true.

Lemma natt_alt b c s t : natt b c s t <->
  exists k, b s = Some (mkP k c) /\ k <> King /\ geo c k s t = true /\
            forall u, betweenb s u t = true -> b u = None.
Proof.
  split; intros [k [B [N H]]]; exists k; (split; [assumption|]; split; [assumption|]).
  - apply reach_alt in H as [G C]. split; [assumption|]. intros u Hu.
    apply occb_false. auto.
  - apply reach_alt. destruct H as [G C]. split; [assumption|]. intros u Hu.
    apply occb_false. auto.
Qed.

Lemma checked_natt b c : checked b c <-> exists K s, b K = Some (mkP King c) /\ natt b (flip c) s K.
Proof.
  split.
  - intros [K [s [k [BK [Bs [N H]]]]]]. exists K, s. split; [assumption|]. exists k.
    apply reachb_spec in H. tauto.
  - intros [K [s [BK [k [Bs [N H]]]]]]. exists K, s, k. apply reachb_spec in H. tauto.
Qed.

Lemma natt_same b b' c s t : (forall u, b u = b' u) -> natt b c s t -> natt b' c s t.
Proof.
  intros E. rewrite !natt_alt. intros [k [B [N [G C]]]]. exists k. rewrite <- E. repeat (split; [assumption|]).
  intros u Hu. rewrite <- E. auto.
Qed.

Lemma checked_same b b' c : (forall u, b u = b' u) -> checked b c -> checked b' c.
Proof.
  intros E. rewrite !checked_natt. intros [K [s [BK A]]]. exists K, s. rewrite <- E.
  split; [assumption|]. exact (natt_same b b' _ _ _ E A).
Qed.

Lemma rideb_king c s t : rideb c King s t = false.
Proof. unfold rideb. destruct (dirof s t) as [d|]; [|reflexivity]. destruct c, d; reflexivity. Qed.

Lemma check_fair_drop b c K t k : b t = None -> k <> King -> (forall s, ~ natt b c s K) ->
  forall s, natt (after b nothing t (mkP k c)) c s K <->
            s = t /\ reachb (occb b) c k t K = true.
Proof.
  intros Bt Nk Safe s. rewrite natt_alt. split.
  - intros [k' [B [Nk' [G C]]]]. destruct (sq_eqb_spec s t) as [->|N].
    + rewrite after_t in B. injection B as <-. split; [reflexivity|].
      apply reach_alt. split; [assumption|]. intros u Hu. apply occb_false.
      specialize (C u Hu). apply after_none in C as [_ [Q|Q]]; [discriminate|assumption].
    + exfalso. apply (Safe s). apply natt_alt. rewrite after_other in B by easy.
      exists k'. repeat (split; [assumption|]). intros u Hu.
      specialize (C u Hu). apply after_none in C as [_ [Q|Q]]; [discriminate|assumption].
  - intros [-> R]. exists k. rewrite after_t. split; [reflexivity|]. split; [assumption|].
    apply reach_alt in R as [G C]. split; [assumption|]. intros u Hu. apply after_none.
    split; [apply between_neq in Hu; tauto|]. right. apply occb_false. auto.
Qed.

Lemma check_fair_move b c K f t k k' : b f = Some (mkP k c) -> f <> t ->
  (forall s, betweenb f s t = true -> b s = None) ->
  (k' = k \/ promote_kind k = Some k') ->
  (forall s, ~ natt b c s K) ->
  (exists s, natt (after b (only f) t (mkP k' c)) c s K) <->
  (k' <> King /\ reachb (occb b) c k' t K = true) \/ (pinned b (flip c) K f /\ stays K f t = false).
Proof.
  intros Bf Nft Path Pk Safe.
  split.
  - intros [s A]. apply natt_alt in A as [k1 [B [Nk [G C]]]].
    destruct (sq_eqb_spec s t) as [->|N].
    + left. rewrite after_t in B. injection B as <-. split; [assumption|].
      apply reach_alt. split; [assumption|]. intros u Hu.
      pose proof (C u Hu) as Cu. apply after_none in Cu as [_ [Q|Q]];
        [|apply occb_false; assumption].
      exfalso. unfold only in Q. destruct (sq_eqb_spec u f) as [->|]; [|discriminate].
      (* the piece retreats on its line *)
      assert (Ri : rideb c k' t K = true).
      { unfold geo in G. apply orb_true_iff in G as [G|G]; [|assumption].
        rewrite (step_no_between _ _ _ f _ G) in Hu. discriminate. }
      apply (promoted_rides c k k') in Ri; [|assumption].
      apply (Safe f). apply natt_alt. exists k. split; [assumption|].
      split; [intros ->; rewrite rideb_king in Ri; discriminate|].
      destruct (between_dir _ _ _ Hu) as [d [D1 [D2 D3]]]. split.
      * unfold geo. apply orb_true_iff. right.
        unfold rideb in *. rewrite D3. rewrite D1 in Ri. assumption.
      * intros v Hv. destruct (between_trans3 _ _ _ _ Hu Hv) as [H1 H2].
        specialize (C v H1). apply after_none in C as [_ [Q2|Q2]]; [|assumption].
        unfold only in Q2. destruct (sq_eqb_spec v f) as [Ev|]; [subst v|discriminate].
        apply between_neq in Hv. tauto.
    + right. assert (Rs : only f s = false).
      { unfold after in B. rewrite sq_eqb_neq in B by assumption.
        destruct (only f s); [discriminate|reflexivity]. }
      rewrite after_other in B by assumption.
      assert (C' : forall u, betweenb s u K = true -> u <> t /\ (u = f \/ b u = None)).
      { intros u Hu. specialize (C u Hu). apply after_none in C as [Q1 Q2].
        split; [assumption|]. destruct Q2 as [Q2|Q2]; [left|right; assumption].
        unfold only in Q2. destruct (sq_eqb_spec u f); [assumption|discriminate]. }
      destruct (betweenb s f K) eqn:F.
      * assert (Ri : rideb c k1 s K = true).
        { unfold geo in G. apply orb_true_iff in G as [G|G]; [|assumption].
          rewrite (step_no_between _ _ _ f _ G) in F. discriminate. }
        rewrite between_sym in F. split.
        -- exists s. split; [exists k1; rewrite flip_flip; tauto|].
           split; [assumption|]. split; [congruence|].
           intros u Hu Bu. rewrite between_sym in Hu. destruct (C' u Hu) as [_ [Q|Q]];
             [assumption|contradiction].
        -- destruct (stays K f t) eqn:St; [exfalso|reflexivity].
           unfold stays in St. apply orb_true_iff in St as [St|St].
           ++ assert (H : betweenb K t s = true) by (eapply between_trans2; eassumption).
              rewrite between_sym in H. destruct (C' t H). congruence.
           ++ destruct (between_dir _ _ _ St) as [d [D1 [D2 _]]].
              destruct (between_dir _ _ _ F) as [d' [D1' [D2' _]]].
              assert (d = d') by congruence. subst d'.
              destruct (ray_cases _ _ _ _ D1 D1') as [H|[H|H]]; [congruence| |].
              ** rewrite between_sym in H. destruct (C' t H). congruence.
              ** destruct (between_trans _ _ _ _ F H) as [_ Q].
                 specialize (Path s Q). congruence.
      * exfalso. apply (Safe s). apply natt_alt. exists k1.
        repeat (split; [assumption|]). intros u Hu.
        destruct (C' u Hu) as [_ [->|Q]]; [congruence|assumption].
  - intros [[Nk Rt]|[[s [[k1 [B Ri]] [F [_ Sole]]]] St]].
    + exists t. apply natt_alt. exists k'. rewrite after_t. split; [reflexivity|]. split; [assumption|].
      apply reach_alt in Rt as [G C]. split; [assumption|]. intros u Hu. apply after_none.
      split; [apply between_neq in Hu; tauto|]. right. apply occb_false. auto.
    + exists s. apply natt_alt. exists k1. rewrite flip_flip in B, Ri.
      assert (Nst : s <> t).
      { intros ->. unfold stays in St. rewrite F, orb_true_r in St. discriminate. }
      assert (Nsf : s <> f). { intros ->. apply between_neq in F. tauto. }
      rewrite after_other; [|assumption|unfold only; apply sq_eqb_neq; assumption].
      split; [assumption|].
      split; [intros ->; rewrite rideb_king in Ri; discriminate|].
      split; [unfold geo; rewrite Ri; apply orb_true_r|].
      intros u Hu. rewrite between_sym in Hu. apply after_none. split.
      * intros ->. rewrite (same_ray_stays K f t s) in St by assumption. discriminate.
      * unfold only. destruct (sq_eqb_spec u f); [tauto|]. right.
        destruct (b u) eqn:Bu; [|reflexivity]. exfalso. apply n. apply Sole; congruence.
Qed.

(** ** The model *)

Section Fair.
Context (cf : config).
Notation o := (ops cf).
Notation Sp := (backend_spec (cf_backend cf) (cf_checks cf)).

(* the cached data are those of the board *)
Record cached (n : nat) (p : Yasai.Position cf) : Prop := {
  ca_steady : steady cf n p;
  ca_lone : lone (view cf p);
  ca_ply : (Yasai.ply cf p <= 65535)%N;
  ca_hands : forall c k, (hand_n (Yasai.hand cf p c) k <= 18)%N;
  ca_info : exists st, pos_state o p = Some st /\
    s_attack_info o st = attack_info_new o (calculate_checkers o (p_inner o p)) (p_inner o p) }.

Lemma do_move_info (p q : Yasai.Position cf) m : Yasai.do_move cf p m = Some q ->
  exists ic st, Yasai.is_check_move cf p m = Some ic /\ pos_state o q = Some st /\
    s_attack_info o st = attack_info_new o
      (if ic then match m with Normal _ _ _ => calculate_checkers o (p_inner o q) | Drop t _ => bsingle o t end
       else bempty o) (p_inner o q).
Proof.
  unfold Yasai.do_move, do_move. unfold Yasai.is_check_move. intros D.
  destruct (is_check_move o p m) as [ic|]; [cbn [bind] in D|discriminate].
  destruct (pos_state o p) as [st|] eqn:Est; [cbn [bind] in D|discriminate].
  exists ic. destruct m as [f t pr|t x].
  - cbn [move_to] in D.
    destruct (i_piece_at o (p_inner o p) f) as [y|] eqn:Bf; [cbn [bind] in D|discriminate].
    destruct (do_capture _ _ _ _ _ _ _) as [[p1 ks]|] eqn:Ec; [cbn [bind fst snd] in D|discriminate].
    destruct (if pr then promote_piece y else Some y) as [tp|] eqn:Et; [cbn [bind] in D|discriminate].
    match type of D with (let* n := ?a in _) = _ => destruct a as [n1|] eqn:En end;
      [cbn [bind] in D|discriminate].
    injection D as <-. eexists. split; [reflexivity|]. split; [reflexivity|]. reflexivity.
  - cbn [move_to] in D.
    destruct (hand_removed _ _) as [h|] eqn:Eh; [cbn [bind] in D|discriminate].
    match type of D with context [hand_count ?a ?b] => destruct (hand_count a b) as [n0|] end;
      [cbn [bind] in D|discriminate].
    destruct (z_hand _ _ _ _) as [hk|]; [cbn [bind] in D|discriminate].
    match type of D with (let* n := ?a in _) = _ => destruct a as [n1|] eqn:En end;
      [cbn [bind] in D|discriminate].
    injection D as <-. eexists. split; [reflexivity|]. split; [reflexivity|]. reflexivity.
Qed.

(* the cached set of checking pieces, from the board *)
Lemma checkers_natt (p : Yasai.Position cf) s : rep o Sp (p_inner o p) -> lone (view cf p) ->
  bcontains o (calculate_checkers o (p_inner o p)) s = true <->
  exists K, Yasai.piece_at cf p K = Some (mkP King (Yasai.side_to_move cf p)) /\
    natt (Yasai.piece_at cf p) (flip (Yasai.side_to_move cf p)) s K.
Proof.
  intros R U. change (Yasai.side_to_move cf p) with (i_side o (p_inner o p)).
  change (Yasai.piece_at cf p) with (i_piece_at o (p_inner o p)).
  rewrite (checkers_spec o Sp _ R). split.
  - destruct (king_position o (p_inner o p) _) as [K|] eqn:EK; [|discriminate].
    destruct (i_piece_at o (p_inner o p) s) as [[k c']|] eqn:Bs; [|discriminate]. intros H.
    apply andb_true_iff in H as [H1 H2]. apply andb_true_iff in H1 as [H1 H3].
    exists K. split; [apply (king_position_some o Sp _ R); assumption|].
    destruct (color_eqb_spec c' (flip (i_side o (p_inner o p)))) as [->|]; [|discriminate].
    exists k. split; [assumption|]. split; [intros ->; discriminate|assumption].
  - intros [K [BK [k [Bs [N H]]]]].
    rewrite (proj2 (king_position_iff o Sp _ R _ K U) BK), Bs, color_eqb_refl, H.
    destruct k; try reflexivity. congruence.
Qed.

Lemma checkers_checked (p : Yasai.Position cf) : rep o Sp (p_inner o p) -> lone (view cf p) ->
  bis_empty o (calculate_checkers o (p_inner o p)) = false <->
  checked (Yasai.piece_at cf p) (Yasai.side_to_move cf p).
Proof.
  intros R U. rewrite (is_empty_false o Sp _ (wf_checkers o Sp _ R)), checked_natt. split.
  - intros [s H]. apply (checkers_natt p s R U) in H as [K H]. eauto.
  - intros [K [s H]]. exists s. apply (checkers_natt p s R U). eauto.
Qed.

(* the board after an accepted move *)
Lemma fair_board (p q : Yasai.Position cf) m : fair (view cf p) m -> Yasai.do_move cf p m = Some q ->
  let B := Yasai.piece_at cf p in
  let c := Yasai.side_to_move cf p in
  match m with
  | Normal f t pr => exists k k', B f = Some (mkP k c) /\ (k' = k \/ promote_kind k = Some k') /\
      k' = (if pr then promoted_kind k else k) /\
      (forall d, B t <> Some (mkP King d)) /\
      forall s, Yasai.piece_at cf q s = after B (only f) t (mkP k' c) s
  | Drop t x => pkind x <> King /\ B t = None /\
      forall s, Yasai.piece_at cf q s = after B nothing t (mkP (pkind x) c) s
  end.
Proof.
  intros F D. cbv zeta. pose proof (do_move_effects cf p q m D) as [_ E].
  destruct m as [f t pr|t x].
  - destruct F as [Nft [[k Bf] Path]]. change (g_board (view cf p)) with (Yasai.piece_at cf p) in *.
    cbn [view g_side] in Bf. change (Yasai.side_to_move cf p) with (side_to_move o p) in *.
    destruct (accepted_source cf p q f t pr D) as [y [Ey Hy]].
    rewrite Bf in Ey. injection Ey as <-. cbn [pkind] in Hy.
    exists k, (if pr then promoted_kind k else k). split; [assumption|]. split.
    { destruct pr; [|tauto]. right. unfold promoted_kind. destruct (promote_kind k); [reflexivity|].
      exfalso. apply Hy; reflexivity. }
    split; [reflexivity|]. split.
    { intros d Bt. rewrite (panic_king cf p f t pr d Bt) in D. discriminate. }
    intros s. destruct E as [E _]. rewrite E, Bf. unfold after, only.
    destruct (sq_eqb s t); [|reflexivity]. destruct pr; [|reflexivity]. cbn [pkind pcolor].
    unfold promoted_kind. destruct (promote_kind k); [reflexivity|]. exfalso. apply Hy; reflexivity.
  - destruct F as [Bt Cx]. change (g_board (view cf p)) with (Yasai.piece_at cf p) in *.
    pose proof (accepted_drop cf p q t x D) as Pos. split.
    { intros Ek. rewrite Ek, hand_n_not in Pos; [lia|]. cbn. intuition discriminate. }
    split; [assumption|]. intros s. destruct E as [E _]. rewrite E. unfold after, nothing.
    destruct (sq_eqb s t); [|reflexivity]. destruct x as [k d]. cbn [pkind pcolor] in *. rewrite Cx. reflexivity.
Qed.

Lemma fair_lone (p q : Yasai.Position cf) m : fair (view cf p) m -> Yasai.do_move cf p m = Some q ->
  lone (view cf p) -> lone (view cf q).
Proof.
  intros F D U. pose proof (fair_board p q m F D) as E. cbv zeta in E. unfold lone in *.
  change (g_board (view cf p)) with (Yasai.piece_at cf p) in *.
  change (g_board (view cf q)) with (Yasai.piece_at cf q) in *.
  destruct m as [f t pr|t x].
  - destruct E as [k [k' [Bf [Pk [Ek [NK E]]]]]].
    intros d u v. rewrite !E. apply (kings_after_move _ f t k k' _ U Bf).
    intros ->. destruct Pk as [Pk|Pk]; [congruence|]. destruct k; discriminate.
  - destruct E as [Nk [Bt E]]. intros d u v. rewrite !E. apply kings_after_drop; assumption.
Qed.

Lemma do_ply_le (p q : Yasai.Position cf) m : (Yasai.ply cf p <= 65535)%N ->
  (forall c k, (hand_n (Yasai.hand cf p c) k <= 18)%N) ->
  Yasai.do_move cf p m = Some q -> (Yasai.ply cf q <= 65535)%N.
Proof.
  intros P H D. assert (T : typed cf (p_inner o p)).
  { split; [exact P|]. intros c k. pose proof (H c k) as L. unfold Yasai.hand, hand_of in L. lia. }
  exact (proj1 (do_move_typed cf p q m T D)).
Qed.

Section Step.
Context (n : nat) (p : Yasai.Position cf) (Ca : cached n p).
Notation B := (Yasai.piece_at cf p).
Notation c := (Yasai.side_to_move cf p).
Context (Calm : ~ checked B (flip c)).

Lemma st_safe K : B K = Some (mkP King (flip c)) -> forall s, ~ natt B c s K.
Proof.
  intros BK s A. apply Calm. apply checked_natt. exists K, s. rewrite flip_flip. tauto.
Qed.

Lemma st_checkable st k t : pos_state o p = Some st ->
  s_attack_info o st = attack_info_new o (calculate_checkers o (p_inner o p)) (p_inner o p) ->
  ai_checkable o (s_attack_info o st) k t =
  match king_position o (p_inner o p) (flip c) with
  | Some K => negb (is_king k) && reachb (occb B) c k t K
  | None => false
  end.
Proof.
  intros _ Ai. unfold ai_checkable. rewrite Ai. unfold attack_info_new. cbn [ai_checkables].
  exact (checkables_spec o Sp _ (sd_rep _ _ _ (ca_steady _ _ Ca)) k t).
Qed.

Lemma not_king_bool k : negb (is_king k) = true <-> k <> King.
Proof. destruct k; cbn; split; congruence. Qed.

Lemma fair_check q m : fair (view cf p) m -> Yasai.do_move cf p m = Some q ->
  exists ic, Yasai.is_check_move cf p m = Some ic /\
    (ic = true <-> checked (Yasai.piece_at cf q) (flip c)).
Proof.
  intros F D. pose proof (fair_board p q m F D) as E. cbv zeta in E.
  pose proof (sd_rep _ _ _ (ca_steady _ _ Ca)) as R.
  pose proof (ca_lone _ _ Ca) as U. unfold lone in U. cbn [view g_board] in U.
  destruct (ca_info _ _ Ca) as [st [St Ai]].
  unfold Yasai.is_check_move, is_check_move. rewrite St. cbn [bind].
  assert (Pin : forall d, ai_pinned_of o (s_attack_info o st) d = pinned_for o (p_inner o p) d)
    by (intros d; rewrite Ai; destruct d; reflexivity).
  destruct m as [f t pr|t x].
  - destruct F as [Nft [_ Path]]. destruct E as [k [k' [Bf [Pk [Ek [NK E]]]]]].
    assert (Bf' : i_piece_at o (p_inner o p) f = Some (mkP k c)) by exact Bf.
    rewrite Bf'. cbn [bind pkind].
    change (if pr then match promote_kind k with Some k0 => k0 | None => k end else k)
      with (if pr then promoted_kind k else k).
    rewrite <- Ek. rewrite (st_checkable st k' t St Ai), Pin.
    change (i_side o (p_inner o p)) with c.
    assert (Path' : forall s, betweenb f s t = true -> B s = None).
    { intros s Hs. apply Path. apply between_spec. assumption. }
    destruct (king_position o (p_inner o p) (flip c)) as [K|] eqn:EK.
    + pose proof (king_position_some o Sp _ R _ _ EK) as BK.
      change (i_piece_at o (p_inner o p) K) with (B K) in BK.
      assert (NKt : K <> t) by (intros ->; exact (NK _ BK)).
      assert (NKf : K <> f).
      { intros ->. rewrite BK in Bf. injection Bf as _ Bf. destruct c; discriminate. }
      assert (BK' : Yasai.piece_at cf q K = Some (mkP King (flip c))).
      { rewrite E, after_other; [assumption|assumption|apply sq_eqb_neq; assumption]. }
      assert (U' : kings_ok (Yasai.piece_at cf q)).
      { intros d u v. rewrite !E. apply (kings_after_move _ f t k k' _ U Bf).
        intros ->. destruct Pk as [Pk|Pk]; [congruence|]. destruct k; discriminate. }
      assert (Chk : checked (Yasai.piece_at cf q) (flip c) <->
        (k' <> King /\ reachb (occb B) c k' t K = true) \/ (pinned B (flip c) K f /\ stays K f t = false)).
      { rewrite <- (check_fair_move B c K f t k k' Bf Nft Path' Pk (st_safe K BK)), checked_natt, flip_flip. split.
        - intros [K' [s [BK2 A]]]. rewrite (U' _ _ _ BK2 BK') in A.
          exists s. exact (natt_same _ _ _ _ _ E A).
        - intros [s A]. exists K, s. split; [assumption|].
          refine (natt_same _ _ _ _ _ _ A). intros u. rewrite E. reflexivity. }
      assert (PF : bcontains o (pinned_for o (p_inner o p) (flip c)) f = true <-> pinned B (flip c) K f).
      { rewrite (pinned_for_spec o Sp _ R), EK. split.
        - intros [K' [[= <-] H]]. assumption.
        - intros H. exists K. split; [reflexivity|assumption]. }
      destruct (negb (is_king k') && reachb (occb B) c k' t K) eqn:E1.
      * exists true. split; [reflexivity|]. apply andb_true_iff in E1 as [E0 E1].
        apply not_king_bool in E0. tauto.
      * destruct (bcontains o (pinned_for o (p_inner o p) (flip c)) f) eqn:E2.
        -- cbn [bind]. eexists. split; [reflexivity|]. rewrite Chk, (stays_spec o Sp).
           assert (Q : ~ (k' <> King /\ reachb (occb B) c k' t K = true)).
           { intros [Q1 Q2]. apply not_king_bool in Q1. rewrite Q1, Q2 in E1. discriminate. }
           assert (P1 : pinned B (flip c) K f) by (apply PF; reflexivity).
           destruct (stays K f t); cbn [negb]; intuition congruence.
        -- exists false. split; [reflexivity|]. split; [discriminate|].
           intros H. apply Chk in H as [[Q1 Q2]|[H _]].
           ++ apply not_king_bool in Q1. rewrite Q1, Q2 in E1. discriminate.
           ++ apply PF in H. discriminate.
    + assert (N0 : bcontains o (pinned_for o (p_inner o p) (flip c)) f = false).
      { destruct (bcontains o (pinned_for o (p_inner o p) (flip c)) f) eqn:H; [|reflexivity].
        apply (pinned_for_spec o Sp _ R) in H as [K [H _]]. congruence. }
      rewrite N0. exists false. split; [reflexivity|]. split; [discriminate|].
      intros H. apply checked_natt in H as [K [s [BK _]]]. exfalso.
      rewrite E in BK. unfold after, only in BK.
      destruct (sq_eqb K t); [injection BK as _ BK; destruct c; discriminate|].
      destruct (sq_eqb K f); [discriminate|].
      exact (king_position_none o Sp _ R _ EK K BK).
  - destruct E as [Nk [Bt E]].
    eexists. split; [reflexivity|]. rewrite (st_checkable st (pkind x) t St Ai).
    destruct (king_position o (p_inner o p) (flip c)) as [K|] eqn:EK.
    + pose proof (king_position_some o Sp _ R _ _ EK) as BK.
      change (i_piece_at o (p_inner o p) K) with (B K) in BK.
      assert (NKt : K <> t) by (intros ->; congruence).
      assert (BK' : Yasai.piece_at cf q K = Some (mkP King (flip c))).
      { rewrite E, after_other; [assumption|assumption|reflexivity]. }
      assert (U' : kings_ok (Yasai.piece_at cf q)).
      { intros d u v. rewrite !E. apply kings_after_drop; assumption. }
      rewrite (proj2 (not_king_bool _) Nk). cbn [andb].
      rewrite checked_natt, flip_flip. split.
      * intros H. exists K, t. split; [assumption|].
        apply (natt_same (after B nothing t (mkP (pkind x) c))); [intros u; rewrite E; reflexivity|].
        apply (check_fair_drop B c K t (pkind x) Bt Nk (st_safe K BK)). tauto.
      * intros [K' [s [BK2 A]]]. rewrite (U' _ _ _ BK2 BK') in A.
        apply (natt_same _ _ _ _ _ E) in A.
        apply (check_fair_drop B c K t (pkind x) Bt Nk (st_safe K BK)) in A. tauto.
    + split; [discriminate|]. intros H. apply checked_natt in H as [K [s [BK _]]]. exfalso.
      rewrite E in BK. unfold after, nothing in BK.
      destruct (sq_eqb K t); [injection BK as BK _; congruence|].
      exact (king_position_none o Sp _ R _ EK K BK).
Qed.

Lemma fair_tidy m : fair (view cf p) m -> tidy cf p m.
Proof. destruct m; intros F; [exact (proj1 F)|exact (proj1 F)]. Qed.

Lemma fair_cached q m : fair (view cf p) m -> Yasai.do_move cf p m = Some q -> cached (S n) q.
Proof.
  intros F D.
  pose proof (do_move_steady cf n p q m (ca_steady _ _ Ca) (fair_tidy m F) D) as Sq.
  pose proof (fair_lone p q m F D (ca_lone _ _ Ca)) as Lq.
  destruct (ca_info _ _ Ca) as [st0 [St0 Ai0]].
  assert (Sn : sane cf p).
  { constructor; [exists st0; eauto|]. exact (ca_hands _ _ Ca). }
  pose proof (do_move_sane cf p q m Sn D) as Sn'.
  constructor; [assumption|assumption|exact (do_ply_le p q m (ca_ply _ _ Ca) (ca_hands _ _ Ca) D)|exact (sane_hands _ _ Sn')|].
  destruct (do_move_info p q m D) as [ic [st [Ei [St Ai]]]].
  exists st. split; [assumption|]. rewrite Ai. f_equal.
  destruct (fair_check q m F D) as [ic' [Ei' Hc]]. rewrite Ei in Ei'. injection Ei' as <-.
  pose proof (sd_rep _ _ _ Sq) as Rq.
  pose proof (do_move_effects cf p q m D) as [Sd _].
  destruct ic.
  - destruct m as [f t pr|t x]; [reflexivity|].
    apply (sp_ext o Sp); [apply (sp_wf_single o Sp)|apply (wf_checkers o Sp _ Rq)|].
    intros s. apply eq_true_iff_eq. rewrite (checkers_natt q s Rq Lq), (sp_single o Sp), Sd, flip_flip.
    pose proof (fair_board p q _ F D) as E. cbv zeta in E. destruct E as [Nk [Bt E]].
    assert (Key : forall K s, Yasai.piece_at cf q K = Some (mkP King (flip c)) -> natt (Yasai.piece_at cf q) c s K -> s = t).
    { intros K s' BK A. assert (BK0 : B K = Some (mkP King (flip c))).
      { rewrite E in BK. unfold after, nothing in BK. destruct (sq_eqb_spec K t) as [->|]; [|assumption].
        injection BK as Ek _. congruence. }
      apply (natt_same _ _ _ _ _ E) in A.
      apply (check_fair_drop B c K t (pkind x) Bt Nk (st_safe K BK0)) in A. tauto. }
    destruct (proj1 Hc eq_refl) as [K [s0 [k0 [BK [Bs [N0 Re]]]]]].
    assert (A0 : natt (Yasai.piece_at cf q) c s0 K).
    { exists k0. rewrite flip_flip in Bs, Re. split; [assumption|]. split; [assumption|].
      apply reachb_spec. assumption. }
    split.
    + intros Q. assert (s = t) as -> by (destruct (sq_eqb_spec s t); [assumption|congruence]).
      rewrite <- (Key K s0 BK A0). eauto.
    + intros [K' [BK' A]]. rewrite (Key K' s BK' A). apply sq_eqb_refl.
  - apply (sp_ext o Sp); [apply (sp_wf_empty o Sp)|apply (wf_checkers o Sp _ Rq)|].
    intros s. rewrite (sp_empty o Sp). symmetry.
    destruct (bcontains o (calculate_checkers o (p_inner o q)) s) eqn:H; [|reflexivity]. exfalso.
    apply (checkers_natt q s Rq Lq) in H as [K [BK A]]. rewrite Sd in BK, A.
    assert (Q : false = true); [|discriminate]. apply Hc. apply checked_natt. exists K, s. tauto.
Qed.

End Step.

Lemma new_cached pp p : lone (game_of pp) -> (pp_ply pp <= 65535)%N -> Yasai.new cf pp = Some p -> cached 0 p.
Proof.
  intros U P E. pose proof (new_steady cf pp p E) as Hs. pose proof (sane_hands _ _ (new_sane cf pp p E)) as Hh.
  rewrite (new_some cf pp (new_fit cf pp p E)) in E. injection E as <-.
  constructor; [exact Hs|exact U|exact P|exact Hh|]. eexists. split; reflexivity.
Qed.

(** ** Fair play *)

(* from anything that new accepts, with at most one king a side: moves that are
   fair, each played while the opposing king is not attacked, and undone at will *)
Inductive fair_play : list move -> Yasai.Position cf -> Prop :=
| F_new pp p :
    lone (game_of pp) -> (pp_ply pp <= 65535)%N -> Yasai.new cf pp = Some p -> fair_play [] p
| F_do ms p m q :
    fair_play ms p -> ~ checked (Yasai.piece_at cf p) (flip (Yasai.side_to_move cf p)) ->
    fair (view cf p) m -> Yasai.do_move cf p m = Some q -> fair_play (m :: ms) q
| F_undo ms p m q :
    fair_play (m :: ms) p -> Yasai.undo_move cf p m = Some q -> fair_play ms q.

Inductive fair_built : list move -> Yasai.Position cf -> Prop :=
| FB_new pp p :
    lone (game_of pp) -> (pp_ply pp <= 65535)%N -> Yasai.new cf pp = Some p -> fair_built [] p
| FB_do ms p m q :
    fair_built ms p -> ~ checked (Yasai.piece_at cf p) (flip (Yasai.side_to_move cf p)) ->
    fair (view cf p) m -> Yasai.do_move cf p m = Some q -> fair_built (m :: ms) q.

Lemma fair_built_cached ms p : fair_built ms p -> cached (length ms) p.
Proof.
  induction 1 as [pp p U P E|ms p m q B IH C F D].
  - exact (new_cached pp p U P E).
  - exact (fair_cached _ p IH C q m F D).
Qed.

Lemma fair_undo n p m q : cached n p -> fair (view cf p) m -> Yasai.do_move cf p m = Some q ->
  Yasai.undo_move cf q m = Some p.
Proof.
  intros Ca F D. apply undo_any; [exact (ca_ply _ _ Ca)| | |exact D].
  - intros c k. pose proof (ca_hands _ _ Ca c k). lia.
  - intros t x ->. exact (proj1 F).
Qed.

Lemma fair_play_built ms p : fair_play ms p -> fair_built ms p.
Proof.
  induction 1 as [pp p U P E|ms p m q B IH C F D|ms p m q B IH U].
  - exact (FB_new pp p U P E).
  - exact (FB_do ms p m q IH C F D).
  - inversion IH as [|ms' p0 m' q' B0 C F D E1 E2]; subst.
    rewrite (fair_undo _ p0 m p (fair_built_cached _ _ B0) F D) in U. injection U as <-. assumption.
Qed.

Lemma fair_play_cached ms p : fair_play ms p -> cached (length ms) p.
Proof. intros F. exact (fair_built_cached _ _ (fair_play_built _ _ F)). Qed.

Lemma valid_calm g : valid g -> ~ checked (g_board g) (flip (g_side g)).
Proof.
  intros V [K [s [k [BK [Bs [_ H]]]]]]. apply (v_check g V). exists K. split; [assumption|].
  exists s, k. split; assumption.
Qed.

Lemma legal_fair g m : legal g m -> fair g m.
Proof.
  intros [P _]. destruct m as [f t pr|t x].
  - destruct P as [k [Bf [Ct [Rf _]]]]. split; [intros ->; exact (Ct _ Bf)|]. split; [eauto|].
    intros s Hs. apply between_spec in Hs. apply reachb_spec, reach_alt in Rf as [_ C].
    apply occb_false. auto.
  - unfold pseudo_legal in P. split; tauto.
Qed.

Lemma reachable_fair ms p : reachable cf ms p -> fair_play ms p.
Proof.
  induction 1 as [pp p V P E|ms p m q R IH L D|ms p m q R IH U].
  - exact (F_new pp p (v_king _ V) P E).
  - apply (F_do ms p m q IH); [|exact (legal_fair _ m L)|exact D].
    exact (valid_calm _ (reach_valid cf ms p R)).
  - exact (F_undo ms p m q IH U).
Qed.

End Fair.
