(** * Which moves leave the king attacked

    Facts about boards only: nothing of the model of yasai is used here. *)

From Coq Require Import List Bool NArith ZArith Lia.
From Verif Require Import Types Rules Words Squares Geometry.
Import ListNotations.
Open Scope Z_scope.

(* a piece attacks along a clear line *)
Definition geo (c : color) (k : kind) (s t : square) : bool :=
  stepb c k s t || rideb c k s t.

Lemma reach_alt occ c k s t :
  reachb occ c k s t = true <->
  geo c k s t = true /\ forall u, betweenb s u t = true -> occ u = false.
Proof.
  split.
  - intros H. split.
    + unfold reachb in H. unfold geo. apply orb_true_iff. apply orb_true_iff in H.
      rewrite andb_true_iff in H. tauto.
    + intros u. apply (reach_clear' _ _ _ _ _ _ H).
  - intros [G C]. unfold geo in G. unfold reachb. apply orb_true_iff in G. apply orb_true_iff.
    destruct G as [G|G]; [tauto|]. right. rewrite G. apply clearb_spec. assumption.
Qed.

(* the piece on [s], of colour [c], attacks [t] *)
Definition att (b : board) (c : color) (s t : square) : Prop :=
  exists k, b s = Some (mkP k c) /\ reachb (occb b) c k s t = true.

Lemma occb_false b u : occb b u = false <-> b u = None.
Proof. unfold occb. destruct (b u); split; congruence. Qed.
Lemma occb_true b u : occb b u = true <-> b u <> None.
Proof. unfold occb. destruct (b u); split; congruence. Qed.

Lemma att_alt b c s t : att b c s t <->
  exists k, b s = Some (mkP k c) /\ geo c k s t = true /\
            forall u, betweenb s u t = true -> b u = None.
Proof.
  split; intros [k [B H]]; exists k; (split; [assumption|]).
  - apply reach_alt in H as [G C]. split; [assumption|]. intros u Hu.
    apply occb_false. auto.
  - apply reach_alt. destruct H as [G C]. split; [assumption|]. intros u Hu.
    apply occb_false. auto.
Qed.

Lemma attacked_att b c t : attacked b c t <-> exists s, att b c s t.
Proof.
  unfold attacked, att. split.
  - intros [s [k [B R]]]. exists s, k. split; [assumption|]. apply reachb_spec. assumption.
  - intros [s [k [B R]]]. exists s, k. split; [assumption|]. apply reachb_spec. assumption.
Qed.

Definition kings_ok (b : board) : Prop :=
  forall c s t, b s = Some (mkP King c) -> b t = Some (mkP King c) -> s = t.

Lemma in_check_att b c K : kings_ok b -> b K = Some (mkP King c) ->
  (in_check b c <-> exists s, att b (flip c) s K).
Proof.
  intros U BK. rewrite <- attacked_att. unfold in_check. split.
  - intros [s [Bs A]]. rewrite (U _ _ _ BK Bs). assumption.
  - intros A. exists K. tauto.
Qed.

Lemma no_king_no_check b c : (forall s, b s <> Some (mkP King c)) -> ~ in_check b c.
Proof. intros N [s [B _]]. exact (N _ B). Qed.

(* [f] is the only piece between the king on [K] and the rider on [s] *)
Definition pinner (b : board) (c : color) (K f s : square) : Prop :=
  (exists k, b s = Some (mkP k (flip c)) /\ rideb (flip c) k s K = true) /\
  betweenb K f s = true /\ b f <> None /\
  forall u, betweenb K u s = true -> b u <> None -> u = f.
Definition pinned (b : board) (c : color) (K f : square) : Prop :=
  exists s, pinner b c K f s.

(* a piece on [f] going to [t] stays on its line with [K] *)
Definition stays (K f t : square) : bool := betweenb K t f || betweenb K f t.

Lemma same_ray_stays K f t s : betweenb K f s = true -> betweenb K t s = true -> f <> t ->
  stays K f t = true.
Proof.
  intros H1 H2 N. destruct (between_dir _ _ _ H1) as [d [A1 [A2 _]]].
  destruct (between_dir _ _ _ H2) as [d' [B1 [B2 _]]].
  assert (d = d') by congruence. subst d'. unfold stays. apply orb_true_iff.
  destruct (ray_cases _ _ _ _ A2 B2) as [H|[H|H]]; tauto.
Qed.

(** ** After a board move or a drop *)

(* A piece [x] appears on [t]; the squares [rem] are emptied. *)
Definition after (b : board) (rem : square -> bool) (t : square) (x : piece) : board :=
  fun u => if sq_eqb u t then Some x else if rem u then None else b u.

Lemma after_t b rem t x : after b rem t x t = Some x.
Proof. unfold after. rewrite sq_eqb_refl. reflexivity. Qed.
Lemma after_other b rem t x u : u <> t -> rem u = false -> after b rem t x u = b u.
Proof. intros N R. unfold after. rewrite (sq_eqb_neq u t), R by assumption. reflexivity. Qed.
Lemma after_none b rem t x u : after b rem t x u = None <-> u <> t /\ (rem u = true \/ b u = None).
Proof.
  unfold after. destruct (sq_eqb_spec u t) as [->|N].
  - split; [discriminate|tauto].
  - destruct (rem u); intuition congruence.
Qed.

(* who attacks [K] afterwards, among the pieces that did not move *)
Lemma att_after b rem t x c s K : pcolor x = flip c ->
  att (after b rem t x) c s K <->
  s <> t /\ rem s = false /\
  exists k, b s = Some (mkP k c) /\ geo c k s K = true /\
    forall u, betweenb s u K = true -> u <> t /\ (rem u = true \/ b u = None).
Proof.
  intros Hx. rewrite att_alt. split.
  - intros [k [B [G C]]]. unfold after in B.
    destruct (sq_eqb_spec s t) as [->|N].
    + injection B as ->. cbn in Hx. destruct c; discriminate.
    + destruct (rem s); [discriminate|]. split; [assumption|]. split; [reflexivity|].
      exists k. split; [assumption|]. split; [assumption|]. intros u Hu.
      apply (after_none b rem t x). auto.
  - intros [N [R [k [B [G C]]]]]. exists k.
    rewrite after_other by assumption. split; [assumption|]. split; [assumption|].
    intros u Hu. apply after_none. auto.
Qed.

Definition only (f : square) : square -> bool := fun u => sq_eqb u f.
Definition nothing : square -> bool := fun _ => false.

(* drops *)
Lemma safe_drop b c K t x : pcolor x = c -> b t = None ->
  (forall s, ~ att (after b nothing t x) (flip c) s K) <->
  (forall s, att b (flip c) s K -> betweenb s t K = true).
Proof.
  intros Hx Bt. split.
  - intros H s A. apply att_alt in A as [k [B [G C]]].
    destruct (betweenb s t K) eqn:E; [reflexivity|exfalso].
    apply (H s). apply att_after; [rewrite flip_flip; assumption|].
    split; [congruence|]. split; [reflexivity|]. exists k. repeat (split; [assumption|]).
    intros u Hu. split; [congruence|]. right. auto.
  - intros H s A. apply att_after in A; [|rewrite flip_flip; assumption].
    destruct A as [N [_ [k [B [G C]]]]].
    assert (A : att b (flip c) s K).
    { apply att_alt. exists k. repeat (split; [assumption|]). intros u Hu.
      destruct (C u Hu) as [_ [Q|Q]]; [discriminate|assumption]. }
    specialize (H s A). destruct (C t H). congruence.
Qed.

(* moves of pieces other than the king *)
Lemma safe_move b c K f t x occ k0 : pcolor x = c ->
  b f <> None -> (forall q, b f = Some q -> pcolor q = c) ->
  (forall u, occ u = occb b u) -> reachb occ c k0 f t = true ->
  (forall s, ~ att (after b (only f) t x) (flip c) s K) <->
  (forall s, att b (flip c) s K -> t = s \/ betweenb s t K = true) /\
  (pinned b c K f -> stays K f t = true).
Proof.
  intros Hx Bf Cf Hocc R.
  assert (Nft : f <> t) by (eapply reach_neq; eassumption).
  assert (Path : forall s, betweenb f s t = true -> b s = None).
  { intros s Hs. apply occb_false. rewrite <- Hocc. eapply reach_clear'; eassumption. }
  split.
  - intros H. split.
    + intros s A. apply att_alt in A as [k [B [G C]]].
      destruct (sq_eqb_spec t s) as [E|E]; [tauto|]. right.
      destruct (betweenb s t K) eqn:E2; [reflexivity|exfalso].
      apply (H s). apply att_after; [rewrite flip_flip; assumption|].
      split; [congruence|]. split.
      * apply sq_eqb_neq. intros ->. apply Cf in B. cbn in B. destruct c; discriminate.
      * exists k. repeat (split; [assumption|]). intros u Hu.
        split; [congruence|]. right. auto.
    + intros [s [[k [B Ri]] [F [_ Sole]]]].
      destruct (sq_eqb_spec t s) as [->|E].
      * unfold stays. rewrite F. apply orb_true_r.
      * destruct (betweenb K t s) eqn:E2.
        -- apply (same_ray_stays K f t s); assumption.
        -- exfalso. apply (H s). apply att_after; [rewrite flip_flip; assumption|].
           split; [congruence|]. split.
           { apply sq_eqb_neq. intros ->. apply between_neq in F. tauto. }
           exists k. split; [assumption|]. split.
           { unfold geo. rewrite Ri. apply orb_true_r. }
           intros u Hu. rewrite between_sym in Hu. split; [congruence|].
           destruct (b u) eqn:Bu; [|tauto]. left. unfold only.
           rewrite (Sole u Hu) by congruence. apply sq_eqb_refl.
  - intros [HA HB] s A. apply att_after in A; [|rewrite flip_flip; assumption].
    destruct A as [N [Rs [k [B [G C]]]]].
    destruct (betweenb s f K) eqn:F.
    + (* a discovered line *)
      assert (Ri : rideb (flip c) k s K = true).
      { unfold geo in G. apply orb_true_iff in G as [G|G]; [|assumption].
        rewrite (step_no_between _ _ _ f _ G) in F. discriminate. }
      rewrite between_sym in F.
      assert (P : pinned b c K f).
      { exists s. split; [exists k; tauto|]. split; [assumption|]. split; [assumption|].
        intros u Hu Bu. rewrite between_sym in Hu.
        destruct (C u Hu) as [_ [Q|Q]]; [|contradiction].
        unfold only in Q. destruct (sq_eqb_spec u f); [assumption|discriminate]. }
      specialize (HB P). unfold stays in HB. apply orb_true_iff in HB as [HB|HB].
      * assert (H : betweenb K t s = true) by (eapply between_trans2; eassumption).
        rewrite between_sym in H. destruct (C t H). congruence.
      * destruct (between_dir _ _ _ HB) as [d [D1 [D2 _]]].
        destruct (between_dir _ _ _ F) as [d' [D1' [D2' _]]].
        assert (d = d') by congruence. subst d'.
        destruct (ray_cases _ _ _ _ D1 D1') as [H|[H|H]]; [congruence| |].
        -- rewrite between_sym in H. destruct (C t H). congruence.
        -- destruct (between_trans _ _ _ _ F H) as [_ Q].
           specialize (Path s Q). congruence.
    + assert (A : att b (flip c) s K).
      { apply att_alt. exists k. repeat (split; [assumption|]). intros u Hu.
        destruct (C u Hu) as [_ [Q|Q]]; [|assumption].
        unfold only in Q. destruct (sq_eqb_spec u f); [subst|discriminate]. congruence. }
      destruct (HA s A) as [Q|Q]; [congruence|]. destruct (C t Q). congruence.
Qed.

(** ** King moves *)

Definition adjacent (s t : square) : Prop := s <> t /\ dist s t <= 1.

Lemma king_step_adjacent c s t : stepb c King s t = true <-> adjacent s t.
Proof.
  unfold adjacent. split.
  - intros H. split.
    + apply (reach_neq (fun _ => false) c King). unfold reachb. rewrite H. reflexivity.
    + apply stepb_spec in H as [v [Hv [F R]]]. unfold dist.
      cbn [steps orthogonals diagonals app In] in Hv.
      repeat destruct Hv as [<-|Hv]; try contradiction; destruct c;
        cbn [orient fst snd] in *; lia.
  - intros [N L]. apply stepb_spec. unfold dist in L.
    exists (orient c (fileZ t - fileZ s, rankZ t - rankZ s)). split.
    + assert (Q : fileZ t - fileZ s <> 0 \/ rankZ t - rankZ s <> 0).
      { destruct (Z.eq_dec (fileZ t) (fileZ s)) as [E1|E1]; [|lia].
        destruct (Z.eq_dec (rankZ t) (rankZ s)) as [E2|E2]; [|lia].
        exfalso. apply N. symmetry. apply sq_Z_inj; assumption. }
      revert L Q. generalize (fileZ t - fileZ s) (rankZ t - rankZ s). intros x y L Q.
      cbn [steps]. change (In (orient c (x, y)) dirs8). apply in_dirs8.
      assert (Hx : x = -1 \/ x = 0 \/ x = 1) by lia.
      assert (Hy : y = -1 \/ y = 0 \/ y = 1) by lia.
      clear L. destruct Hx as [ -> | [ -> | -> ] ], Hy as [ -> | [ -> | -> ] ];
        destruct c; cbn; try tauto; lia.
    + split; destruct c; cbn [orient fst snd]; lia.
Qed.

(* from one rider's square: the king's square and an adjacent one *)
Lemma rider_near d e s K t : dirof s K = Some d -> dirof s t = Some e -> adjacent K t ->
  (In d orthogonals /\ In e orthogonals) \/ (In d diagonals /\ In e diagonals) ->
  forall u, betweenb s u t = true -> u = K \/ betweenb s u K = true.
Proof.
  intros E1 E2 [N L] O u Hu.
  destruct (dirof_displaced _ _ _ E1) as [_ [L1 [F1 R1]]].
  destruct (dirof_displaced _ _ _ E2) as [_ [L2 [F2 R2]]].
  destruct (dir_eqb_spec d e) as [<-|De].
  - destruct (between_dir _ _ _ Hu) as [e [D1 [D2 D3]]].
    assert (e = d) by congruence. subst e.
    destruct (ray_cases _ _ _ _ D2 E1) as [H|[H|H]]; [tauto|tauto|].
    exfalso. destruct (between_trans _ _ _ _ H Hu) as [H1 H2].
    apply between_dirs in H1. apply between_dirs in H2. lia.
  - exfalso. assert (dist s t <= 1); [|apply between_dirs in Hu; lia].
    unfold dist in L at 1. revert F1 R1 F2 R2 L1 L2 L.
    generalize (dist s K) (dist s t). intros m n F1 R1 F2 R2 L1 L2 L.
    destruct O as [[Hd He]|[Hd He]];
      cbn [orthogonals diagonals In] in Hd, He;
      repeat destruct Hd as [<-|Hd]; try contradiction;
      repeat destruct He as [<-|He]; try contradiction;
      try (exfalso; apply De; reflexivity);
      cbn [fst snd] in *; lia.
Qed.

Lemma rider_same_class c k d e :
  (exists v, In v (rides k) /\ d = orient c v) -> (exists v, In v (rides k) /\ e = orient c v) ->
  (In d orthogonals /\ In e orthogonals) \/ (In d diagonals /\ In e diagonals).
Proof.
  intros [v [Hv ->]] [w [Hw ->]].
  destruct k; cbn [rides diagonals orthogonals In] in Hv, Hw; try contradiction;
    repeat destruct Hv as [<-|Hv]; try contradiction;
    repeat destruct Hw as [<-|Hw]; try contradiction;
    destruct c; cbn; tauto.
Qed.

(* The squares a checker takes away from the king, as generate_evasions sees
   them: everything on its lines, except for a dragon giving check
   diagonally, whose lines are followed up to the first piece. *)
Definition takes (occ : square -> bool) (c : color) (k : kind) (s K t : square) : bool :=
  if kind_eqb k ProRook && negb (i9_eqb (sqf s) (sqf K)) && negb (i9_eqb (sqr s) (sqr K))
  then reachb occ c Rook s t
  else match k with
       | Lance | Bishop | ProBishop | Rook | ProRook => rideb c k s t
       | _ => stepb c k s t
       end.

Lemma rook_reach_dragon occ c s t :
  reachb occ c Rook s t = true -> reachb occ c ProRook s t = true.
Proof.
  unfold reachb. cbn [stepb steps existsb orb]. intros H.
  change (rideb c ProRook s t) with (rideb c Rook s t). rewrite H. apply orb_true_r.
Qed.

Lemma safe_king b c K t x : pcolor x = c -> b K = Some (mkP King c) ->
  adjacent K t ->
  (forall s, ~ att (after b (only K) t x) (flip c) s t) <->
  (forall s, ~ att b (flip c) s t) /\
  (forall s k, b s = Some (mkP k (flip c)) -> reachb (occb b) (flip c) k s K = true ->
     takes (occb b) (flip c) k s K t = false).
Proof.
  intros Hx BK Adj.
  assert (Mono : forall s, att b (flip c) s t -> att (after b (only K) t x) (flip c) s t).
  { intros s A. apply att_alt in A as [k [B [G C]]]. apply att_after.
    { rewrite flip_flip. assumption. }
    split.
    { intros ->. apply (reach_neq (fun _ => false) (flip c) k t t); [|reflexivity].
      apply reach_alt. tauto. }
    split.
    { apply sq_eqb_neq. intros ->. rewrite BK in B. injection B as _ B.
      destruct c; discriminate. }
    exists k. repeat (split; [assumption|]). intros u Hu. split.
    - apply between_neq in Hu. tauto.
    - right. auto. }
  split.
  - intros H. split.
    + intros s A. apply (H s). auto.
    + intros s k B R. destruct (takes (occb b) (flip c) k s K t) eqn:T; [exfalso|reflexivity].
      apply (H s). unfold takes in T.
      destruct (kind_eqb k ProRook && negb (i9_eqb (sqf s) (sqf K)) &&
                negb (i9_eqb (sqr s) (sqr K))) eqn:Sp.
      * apply andb_true_iff in Sp as [Sp _]. apply andb_true_iff in Sp as [Sp _].
        destruct (kind_eqb_spec k ProRook) as [->|]; [|discriminate].
        apply Mono. exists ProRook. split; [assumption|]. apply rook_reach_dragon.
        assumption.
      * apply att_after; [rewrite flip_flip; assumption|].
        assert (G : geo (flip c) k s t = true).
        { unfold geo. apply orb_true_iff. destruct k; tauto. }
        split.
        { intros ->. apply (reach_neq (fun _ => false) (flip c) k t t); [|reflexivity].
          apply reach_alt. split; [assumption|]. reflexivity. }
        split.
        { apply sq_eqb_neq. intros ->. rewrite BK in B. injection B as _ B.
          destruct c; discriminate. }
        exists k. repeat (split; [assumption|]). intros u Hu.
        split. { apply between_neq in Hu. tauto. }
        assert (W : u = K \/ betweenb s u K = true).
        { assert (Ri : rideb (flip c) k s t = true).
          { unfold geo in G. apply orb_true_iff in G as [G|G]; [|assumption].
            rewrite (step_no_between _ _ _ u _ G) in Hu. discriminate. }
          apply rideb_spec in Ri as [v [Hv Ev]].
          unfold reachb in R. apply orb_true_iff in R as [R|R].
          - (* attacked by a step: bishop or rook, promoted *)
            exfalso.
            destruct Adj as [_ L]. unfold dist in L.
            assert (L2 : 2 <= dist s t) by (apply between_dirs in Hu; lia).
            destruct (dirof_displaced _ _ _ Ev) as [_ [_ [F2 R2]]].
            apply stepb_spec in R as [w [Hw [F1 R1]]].
            destruct k; cbn [rides steps diagonals orthogonals In] in Hv, Hw;
              try contradiction.
            + (* ProBishop *)
              revert F2 R2 L2. generalize (dist s t). intros n F2 R2 L2.
              repeat destruct Hv as [<-|Hv]; try contradiction;
              repeat destruct Hw as [<-|Hw]; try contradiction;
              destruct c; cbn [flip orient fst snd] in *; lia.
            + (* ProRook *)
              cbn [kind_eqb andb] in Sp.
              assert (Q : fileZ s <> fileZ K /\ rankZ s <> rankZ K).
              { repeat destruct Hw as [<-|Hw]; try contradiction;
                  destruct c; cbn [flip orient fst snd] in *; lia. }
              destruct (i9_eqb_spec (sqf s) (sqf K)) as [E|E].
              { unfold fileZ in Q. rewrite E in Q. tauto. }
              destruct (i9_eqb_spec (sqr s) (sqr K)) as [E'|E'].
              { unfold rankZ in Q. rewrite E' in Q. tauto. }
              discriminate.
          - apply andb_true_iff in R as [Ri _].
            apply rideb_spec in Ri as [w [Hw Ew]].
            apply (rider_near _ _ s K t Ew Ev Adj).
            + apply (rider_same_class (flip c) k); eauto.
            + assumption. }
        destruct W as [->|W].
        -- left. apply sq_eqb_refl.
        -- right. apply occb_false. eapply reach_clear'; eassumption.
  - intros [H1 H2] s A. apply att_after in A; [|rewrite flip_flip; assumption].
    destruct A as [N [Rs [k [B [G C]]]]].
    destruct (betweenb s K t) eqn:E.
    + assert (Ri : rideb (flip c) k s t = true).
      { unfold geo in G. apply orb_true_iff in G as [G|G]; [|assumption].
        rewrite (step_no_between _ _ _ K _ G) in E. discriminate. }
      destruct (between_dir _ _ _ E) as [d [D1 [D2 D3]]].
      assert (RK : rideb (flip c) k s K = true).
      { unfold rideb in *. rewrite D2. rewrite D1 in Ri. assumption. }
      assert (R : reachb (occb b) (flip c) k s K = true).
      { apply reach_alt. split; [unfold geo; rewrite RK; apply orb_true_r|].
        intros u Hu. apply occb_false.
        destruct (C u) as [_ [Q|Q]]; [eapply between_trans2; eassumption| |assumption].
        unfold only in Q. destruct (sq_eqb_spec u K) as [->|]; [|discriminate].
        apply between_neq in Hu. tauto. }
      specialize (H2 s k B R). unfold takes in H2.
      destruct (kind_eqb k ProRook && negb (i9_eqb (sqf s) (sqf K)) &&
                negb (i9_eqb (sqr s) (sqr K))) eqn:Sp.
      * apply andb_true_iff in Sp as [Sp Sr]. apply andb_true_iff in Sp as [Sp Sf].
        destruct (kind_eqb_spec k ProRook) as [Ek|]; [subst k|discriminate].
        apply rideb_spec in RK as [w [Hw Ew]].
        apply dirof_displaced in Ew as [_ [_ [F R']]].
        assert (Q : fileZ s = fileZ K \/ rankZ s = rankZ K).
        { cbn [rides orthogonals In] in Hw.
          repeat destruct Hw as [<-|Hw]; try contradiction;
            destruct c; cbn [flip orient fst snd] in *; lia. }
        apply negb_true_iff in Sf, Sr.
        destruct (i9_eqb_spec (sqf s) (sqf K)) as [E1|E1]; [discriminate|].
        destruct (i9_eqb_spec (sqr s) (sqr K)) as [E2|E2]; [discriminate|].
        destruct Q as [Q|Q]; apply i9Z_inj in Q; contradiction.
      * destruct k; try congruence; cbn [rideb rides existsb] in Ri;
          unfold rideb in Ri; cbn [rides existsb] in Ri; destruct (dirof s t); discriminate.
    + apply (H1 s). apply att_alt. exists k. repeat (split; [assumption|]).
      intros u Hu. destruct (C u Hu) as [_ [Q|Q]]; [|assumption].
      unfold only in Q. destruct (sq_eqb_spec u K) as [->|]; [congruence|discriminate].
Qed.

(** ** Double check *)

Lemma one_evasion_square b c K s1 s2 t : att b c s1 K -> att b c s2 K ->
  (t = s1 \/ betweenb s1 t K = true) -> (t = s2 \/ betweenb s2 t K = true) -> s1 = s2.
Proof.
  intros A1 A2 H1 H2. apply att_alt in A1 as [k1 [B1 [_ C1]]].
  apply att_alt in A2 as [k2 [B2 [_ C2]]].
  destruct H1 as [->|H1], H2 as [H2|H2]; [assumption| | |].
  - specialize (C2 _ H2). congruence.
  - subst t. specialize (C1 _ H1). congruence.
  - rewrite between_sym in H1, H2.
    destruct (between_dir _ _ _ H1) as [d [D1 [D2 _]]].
    destruct (between_dir _ _ _ H2) as [d' [D1' [D2' _]]].
    assert (d = d') by congruence. subst d'.
    destruct (ray_cases _ _ _ _ D1 D1') as [H|[H|H]]; [assumption| |];
      rewrite between_sym in H; [specialize (C2 _ H)|specialize (C1 _ H)]; congruence.
Qed.

(** ** Giving check *)

(* [K] is the king of the opponent of [c], not attacked before the move *)

Lemma check_drop b c K t k : b t = None -> b K <> None -> (forall s, ~ att b c s K) ->
  forall s, att (after b nothing t (mkP k c)) c s K <->
            s = t /\ reachb (occb b) c k t K = true.
Proof.
  intros Bt BK Safe s. rewrite att_alt. split.
  - intros [k' [B [G C]]]. destruct (sq_eqb_spec s t) as [->|N].
    + rewrite after_t in B. injection B as <-. split; [reflexivity|].
      apply reach_alt. split; [assumption|]. intros u Hu. apply occb_false.
      specialize (C u Hu). apply after_none in C as [_ [Q|Q]]; [discriminate|assumption].
    + exfalso. apply (Safe s). apply att_alt. rewrite after_other in B by easy.
      exists k'. repeat (split; [assumption|]). intros u Hu.
      specialize (C u Hu). apply after_none in C as [_ [Q|Q]]; [discriminate|assumption].
  - intros [-> R]. exists k. rewrite after_t. split; [reflexivity|].
    apply reach_alt in R as [G C]. split; [assumption|]. intros u Hu. apply after_none.
    split; [apply between_neq in Hu; tauto|]. right. apply occb_false. auto.
Qed.

Lemma promoted_rides c k k' s t : k' = k \/ promote_kind k = Some k' ->
  rideb c k' s t = true -> rideb c k s t = true.
Proof.
  intros [->|P]; [tauto|].
  destruct k; cbn in P; try discriminate; injection P as <-;
    unfold rideb; destruct (dirof s t); cbn; try discriminate; tauto.
Qed.

Lemma check_move b c K f t k k' : b f = Some (mkP k c) ->
  b K = Some (mkP King (flip c)) ->
  reachb (occb b) c k f t = true ->
  (k' = k \/ promote_kind k = Some k') ->
  (forall s, ~ att b c s K) ->
  (forall q, b t = Some q -> pcolor q = flip c) ->
  (exists s, att (after b (only f) t (mkP k' c)) c s K) <->
  reachb (occb b) c k' t K = true \/ (pinned b (flip c) K f /\ stays K f t = false).
Proof.
  intros Bf BK R Pk Safe Ct.
  assert (Nft : f <> t) by (eapply reach_neq; eassumption).
  assert (Path : forall s, betweenb f s t = true -> b s = None).
  { intros s Hs. apply occb_false. eapply reach_clear'; eassumption. }
  split.
  - intros [s A]. apply att_alt in A as [k1 [B [G C]]].
    destruct (sq_eqb_spec s t) as [->|N].
    + left. rewrite after_t in B. injection B as <-.
      apply reach_alt. split; [assumption|]. intros u Hu.
      pose proof (C u Hu) as Cu. apply after_none in Cu as [_ [Q|Q]];
        [|apply occb_false; assumption].
      exfalso. unfold only in Q. destruct (sq_eqb_spec u f) as [->|]; [|discriminate].
      (* the piece retreats on its line *)
      assert (Ri : rideb c k' t K = true).
      { unfold geo in G. apply orb_true_iff in G as [G|G]; [|assumption].
        rewrite (step_no_between _ _ _ f _ G) in Hu. discriminate. }
      apply (Safe f). apply att_alt. exists k. split; [assumption|].
      destruct (between_dir _ _ _ Hu) as [d [D1 [D2 D3]]]. split.
      * unfold geo. apply orb_true_iff. right.
        apply (promoted_rides c k k') in Ri; [|assumption].
        unfold rideb in *. rewrite D3. rewrite D1 in Ri. assumption.
      * intros v Hv. destruct (between_trans3 _ _ _ _ Hu Hv) as [H1 H2].
        specialize (C v H1). apply after_none in C as [_ [Q2|Q2]]; [|assumption].
        unfold only in Q2. destruct (sq_eqb_spec v f) as [Ev|]; [subst v|discriminate].
        apply between_neq in Hv. tauto.
    + right. assert (Rs : only f s = false).
      { unfold after in B. rewrite sq_eqb_neq in B by assumption.
        destruct (only f s); [discriminate|reflexivity]. }
      rewrite after_other in B by assumption.
      assert (C' : forall u, betweenb s u K = true -> u <> t /\ (u = f \/ b u = None)).
      { intros u Hu. specialize (C u Hu). apply after_none in C as [Q1 Q2].
        split; [assumption|]. destruct Q2 as [Q2|Q2]; [left|right; assumption].
        unfold only in Q2. destruct (sq_eqb_spec u f); [assumption|discriminate]. }
      destruct (betweenb s f K) eqn:F.
      * assert (Ri : rideb c k1 s K = true).
        { unfold geo in G. apply orb_true_iff in G as [G|G]; [|assumption].
          rewrite (step_no_between _ _ _ f _ G) in F. discriminate. }
        rewrite between_sym in F. split.
        -- exists s. split; [exists k1; rewrite flip_flip; tauto|].
           split; [assumption|]. split; [congruence|].
           intros u Hu Bu. rewrite between_sym in Hu. destruct (C' u Hu) as [_ [Q|Q]];
             [assumption|contradiction].
        -- destruct (stays K f t) eqn:St; [exfalso|reflexivity].
           unfold stays in St. apply orb_true_iff in St as [St|St].
           ++ assert (H : betweenb K t s = true) by (eapply between_trans2; eassumption).
              rewrite between_sym in H. destruct (C' t H). congruence.
           ++ destruct (between_dir _ _ _ St) as [d [D1 [D2 _]]].
              destruct (between_dir _ _ _ F) as [d' [D1' [D2' _]]].
              assert (d = d') by congruence. subst d'.
              destruct (ray_cases _ _ _ _ D1 D1') as [H|[H|H]]; [congruence| |].
              ** rewrite between_sym in H. destruct (C' t H). congruence.
              ** destruct (between_trans _ _ _ _ F H) as [_ Q].
                 specialize (Path s Q). congruence.
      * exfalso. apply (Safe s). apply att_alt. exists k1.
        repeat (split; [assumption|]). intros u Hu.
        destruct (C' u Hu) as [_ [->|Q]]; [congruence|assumption].
  - intros [Rt|[[s [[k1 [B Ri]] [F [_ Sole]]]] St]].
    + exists t. apply att_alt. exists k'. rewrite after_t. split; [reflexivity|].
      apply reach_alt in Rt as [G C]. split; [assumption|]. intros u Hu. apply after_none.
      split; [apply between_neq in Hu; tauto|]. right. apply occb_false. auto.
    + exists s. apply att_alt. exists k1. rewrite flip_flip in B, Ri.
      assert (Nst : s <> t).
      { intros ->. apply Ct in B. cbn in B. destruct c; discriminate. }
      assert (Nsf : s <> f). { intros ->. apply between_neq in F. tauto. }
      rewrite after_other; [|assumption|unfold only; apply sq_eqb_neq; assumption].
      split; [assumption|]. split; [unfold geo; rewrite Ri; apply orb_true_r|].
      intros u Hu. rewrite between_sym in Hu. apply after_none. split.
      * intros ->. rewrite (same_ray_stays K f t s) in St by assumption. discriminate.
      * unfold only. destruct (sq_eqb_spec u f); [tauto|]. right.
        destruct (b u) eqn:Bu; [|reflexivity]. exfalso. apply n. apply Sole; congruence.
Qed.
