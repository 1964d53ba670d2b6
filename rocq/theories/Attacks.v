(** * The attack tables hold exactly the squares attacked by the rules *)

From Coq Require Import List Bool NArith ZArith Lia Btauto.
From Verif Require Import Types Rules Bitboard Tables Words Squares Geometry BBSpec.
Import ListNotations.
Open Scope Z_scope.

Arguments wf {o}.

Create HintDb wf.
Global Hint Resolve sp_wf_empty sp_wf_single sp_wf_and sp_wf_or sp_wf_xor sp_wf_not
  sp_wf_pos_c sp_wf_neg_c sp_wf_pos2 sp_wf_neg2 : wf.

(** ** Square::shift *)

Lemma i9_of_Z_spec z i : i9_of_Z z = Some i <-> i9Z i = z.
Proof.
  split.
  - unfold i9_of_Z. repeat match goal with |- context [match ?x with _ => _ end] =>
      destruct x; try discriminate end; intros [= <-]; reflexivity.
  - intros <-. destruct i; reflexivity.
Qed.

Lemma i9_of_Z_range z : 1 <= z <= 9 -> exists i, i9_of_Z z = Some i.
Proof.
  intros H. assert (C : z = 1 \/ z = 2 \/ z = 3 \/ z = 4 \/ z = 5 \/ z = 6 \/ z = 7 \/
    z = 8 \/ z = 9) by lia.
  repeat destruct C as [->|C]; try subst z; cbn; eauto.
Qed.

Lemma i9Z_range i : 1 <= i9Z i <= 9.
Proof. destruct i; cbn; lia. Qed.

Lemma sq_shift_spec s df dr t :
  sq_shift s df dr = Some t <-> displacedb s (df, dr) t = true.
Proof.
  unfold sq_shift, displacedb. cbn [fst snd]. rewrite andb_true_iff, !Z.eqb_eq.
  destruct (i9_of_Z (fileZ s + df)) as [f|] eqn:F, (i9_of_Z (rankZ s + dr)) as [r|] eqn:R;
    split; try discriminate;
    rewrite ?i9_of_Z_spec in *.
  - intros [= <-]. unfold fileZ, rankZ in *. cbn [sqf sqr]. lia.
  - intros [Hf Hr]. f_equal. apply sq_Z_inj; unfold fileZ, rankZ in *; cbn [sqf sqr]; lia.
  - intros [_ Hr]. exfalso. destruct (i9_of_Z_range (rankZ s + dr)) as [i Hi]; [|congruence].
    rewrite <- Hr. apply i9Z_range.
  - intros [Hf _]. exfalso. destruct (i9_of_Z_range (fileZ s + df)) as [i Hi]; [|congruence].
    rewrite <- Hf. apply i9Z_range.
  - intros [Hf _]. exfalso. destruct (i9_of_Z_range (fileZ s + df)) as [i Hi]; [|congruence].
    rewrite <- Hf. apply i9Z_range.
Qed.

(* the next square towards [t] *)
Lemma shift_towards s t d : dirof s t = Some d ->
  exists u, sq_shift s (fst d) (snd d) = Some u /\ dirof s u = Some d /\ dist s u = 1 /\
    (u = t \/ betweenb s u t = true).
Proof.
  intros E. destruct (dirof_displaced _ _ _ E) as [Hd [L [F R]]].
  assert (Q : forall a b x, 1 <= a <= 9 -> 1 <= b <= 9 -> -1 <= x <= 1 ->
     b = a + dist s t * x -> 1 <= a + x <= 9) by (clear - L; intros; nia).
  assert (B : -1 <= fst d <= 1 /\ -1 <= snd d <= 1).
  { apply in_dirs8 in Hd. repeat destruct Hd as [->|Hd]; try subst d; cbn; lia. }
  destruct (i9_of_Z_range (fileZ s + fst d)) as [f Hf].
  { apply (Q _ (fileZ t)); try apply i9Z_range; tauto. }
  destruct (i9_of_Z_range (rankZ s + snd d)) as [r Hr].
  { apply (Q _ (rankZ t)); try apply i9Z_range; tauto. }
  exists (Sq f r). unfold sq_shift. rewrite Hf, Hr. split; [reflexivity|].
  apply i9_of_Z_spec in Hf, Hr.
  assert (D : displaced s d 1 (Sq f r)).
  { split; unfold fileZ, rankZ in *; cbn [sqf sqr]; lia. }
  destruct (displaced_dirof _ _ _ _ Hd ltac:(apply Z.le_refl) D) as [E1 L1].
  split; [assumption|]. split; [assumption|].
  destruct (ray_cases _ _ _ _ E E1) as [->|[H|H]]; [tauto| |tauto].
  exfalso. apply between_dirs in H. lia.
Qed.

(** ** Ray walking without bitboards *)

Fixpoint walk (fuel : nat) (curr : option square) (occ : square -> bool) (d : delta)
  : list square :=
  match fuel, curr with
  | S fuel, Some u =>
      u :: (if occ u then [] else walk fuel (sq_shift u (fst d) (snd d)) occ d)
  | _, _ => []
  end.

Lemma walk_spec fuel : forall occ d s t, In d dirs8 ->
  In t (walk fuel (sq_shift s (fst d) (snd d)) occ d) <->
  dirof s t = Some d /\ dist s t <= Z.of_nat fuel /\ clearb occ s t = true.
Proof.
  induction fuel as [|fuel IH]; intros occ d s t Hd.
  - cbn. split; [tauto|]. intros [E [L _]].
    destruct (dirof_displaced _ _ _ E) as [_ [L' _]]. lia.
  - cbn [walk]. destruct (sq_shift s (fst d) (snd d)) as [u|] eqn:SH.
    + assert (E : dirof s u = Some d /\ dist s u = 1).
      { apply displaced_dirof; [assumption|lia|].
        apply sq_shift_spec in SH. rewrite displacedb_spec in SH.
        destruct d; exact SH. }
      destruct E as [E L]. cbn [In].
      assert (IH' : In t (if occ u then [] else walk fuel (sq_shift u (fst d) (snd d)) occ d)
         <-> occ u = false /\ dirof u t = Some d /\ dist u t <= Z.of_nat fuel /\
             clearb occ u t = true).
      { destruct (occ u); [|rewrite IH by assumption; tauto].
        split; [contradiction|]. intros [C _]. discriminate. }
      rewrite IH'. clear IH' IH. rewrite Nat2Z.inj_succ. split.
      * intros [<-|[O [E2 [L2 C]]]].
        -- split; [assumption|]. split; [lia|]. apply clearb_spec. intros v Hv.
           apply between_dirs in Hv. lia.
        -- pose proof (between_intro _ _ _ _ E E2) as B.
           destruct (between_dirs _ _ _ B) as [E3 [_ [L3 _]]].
           split; [congruence|]. split; [lia|]. rewrite clearb_spec in *.
           intros v Hv. assert (V : dirof s v = Some d).
           { destruct (between_dir _ _ _ Hv) as [d' [D1 [D2 D3]]]. congruence. }
           destruct (ray_cases _ _ _ _ E V) as [<-|[H|H]]; [assumption| |].
           ++ apply C. apply (between_trans s u v t); assumption.
           ++ exfalso. apply between_dirs in H. lia.
      * intros [E2 [L2 C]]. destruct (ray_cases _ _ _ _ E E2) as [->|[H|H]].
        -- tauto.
        -- right. rewrite clearb_spec in *. split; [apply C; assumption|].
           destruct (between_dirs _ _ _ H) as [D1 [D2 [D3 _]]].
           split; [congruence|]. split; [lia|].
           intros v Hv. apply C.
           apply (between_trans3 s u v t); assumption.
        -- exfalso. apply between_dirs in H. lia.
    + split; [contradiction|]. intros [E _].
      destruct (shift_towards _ _ _ E) as [u [SH' _]]. congruence.
Qed.

Lemma dist_le_8 s t : dist s t <= 8.
Proof.
  unfold dist. pose proof (i9Z_range (sqf s)). pose proof (i9Z_range (sqr s)).
  pose proof (i9Z_range (sqf t)). pose proof (i9Z_range (sqr t)).
  unfold fileZ, rankZ. lia.
Qed.

(** ** Order of indices on a ray *)

Definition weight (d : Z * Z) : Z := 9 * fst d + snd d.

Lemma sq_index_Z s : Z.of_N (sq_index s) = 9 * (fileZ s - 1) + (rankZ s - 1).
Proof. destruct s as [f r]. destruct f, r; reflexivity. Qed.

Lemma ray_index s t d : dirof s t = Some d ->
  Z.of_N (sq_index t) = Z.of_N (sq_index s) + dist s t * weight d.
Proof.
  intros E. destruct (dirof_displaced _ _ _ E) as [_ [_ [F R]]].
  rewrite !sq_index_Z. unfold weight. lia.
Qed.

Definition on_ray (s : square) (d : Z * Z) (t : square) : bool :=
  opt_dir_eqb (dirof s t) (Some d).
Lemma on_ray_spec s d t : on_ray s d t = true <-> dirof s t = Some d.
Proof.
  unfold on_ray. split; [apply opt_dir_eqb_eq|]. intros ->. cbn.
  destruct (dir_eqb_spec d d); congruence.
Qed.

Lemma slid_neg_ray occ s d t : weight d < 0 ->
  slid_neg occ (on_ray s d) t <-> dirof s t = Some d /\ clearb occ s t = true.
Proof.
  intros W. unfold slid_neg. rewrite on_ray_spec, clearb_spec.
  split; intros [E H]; (split; [assumption|]); intros u Hu.
  - destruct (occ u) eqn:O; [exfalso|reflexivity].
    destruct (between_dir _ _ _ Hu) as [d' [D1 [D2 D3]]].
    assert (D : dirof s u = Some d) by congruence.
    assert (L : Z.of_N (sq_index u) <= Z.of_N (sq_index t)).
    { apply N2Z.inj_le. apply H; [apply on_ray_spec|]; assumption. }
    rewrite (ray_index s u d), (ray_index s t d) in L by assumption.
    apply between_dirs in Hu. nia.
  - intros O. apply on_ray_spec in Hu. apply N2Z.inj_le.
    rewrite (ray_index s u d), (ray_index s t d) by assumption.
    assert (L : dist s t <= dist s u); [|nia].
    destruct (ray_cases _ _ _ _ E Hu) as [->|[B|B]].
    + lia.
    + apply between_dirs in B. lia.
    + rewrite (H u B) in O. discriminate.
Qed.

Lemma slid_pos_ray occ s d t : 0 < weight d ->
  slid_pos occ (on_ray s d) t <-> dirof s t = Some d /\ clearb occ s t = true.
Proof.
  intros W. unfold slid_pos. rewrite on_ray_spec, clearb_spec.
  split; intros [E H]; (split; [assumption|]); intros u Hu.
  - destruct (occ u) eqn:O; [exfalso|reflexivity].
    destruct (between_dir _ _ _ Hu) as [d' [D1 [D2 D3]]].
    assert (D : dirof s u = Some d) by congruence.
    assert (L : Z.of_N (sq_index t) <= Z.of_N (sq_index u)).
    { apply N2Z.inj_le. apply H; [apply on_ray_spec|]; assumption. }
    rewrite (ray_index s u d), (ray_index s t d) in L by assumption.
    apply between_dirs in Hu. nia.
  - intros O. apply on_ray_spec in Hu. apply N2Z.inj_le.
    rewrite (ray_index s u d), (ray_index s t d) by assumption.
    assert (L : dist s t <= dist s u); [|nia].
    destruct (ray_cases _ _ _ _ E Hu) as [->|[B|B]].
    + lia.
    + apply between_dirs in B. lia.
    + rewrite (H u B) in O. discriminate.
Qed.

Lemma slid_neg_ext' o m m' t : (forall s, m s = m' s) ->
  (slid_neg o m t <-> slid_neg o m' t).
Proof.
  intros Hm. unfold slid_neg. rewrite Hm. split; intros [H1 H2]; (split; [assumption|]);
    intros u; [rewrite <- Hm|rewrite Hm]; apply H2.
Qed.
Lemma slid_pos_ext' o m m' t : (forall s, m s = m' s) ->
  (slid_pos o m t <-> slid_pos o m' t).
Proof.
  intros Hm. unfold slid_pos. rewrite Hm. split; intros [H1 H2]; (split; [assumption|]);
    intros u; [rewrite <- Hm|rewrite Hm]; apply H2.
Qed.

Section Attacks.
Context (o : bbops) (S : bbspec o).
Notation BB := (bb o).
Notation has := (bcontains o).

(** ** Step tables *)

Lemma wf_piece_attack deltas s c : wf S (piece_attack o deltas s c).
Proof.
  unfold piece_attack. generalize (bempty o) (sp_wf_empty o S).
  induction (deltas c) as [|d l IH]; intros acc Hacc; [assumption|].
  cbn [fold_left]. apply IH. destruct (sq_shift s (fst d) (snd d)); auto with wf.
Qed.

Lemma piece_attack_spec deltas s c t :
  has (piece_attack o deltas s c) t = existsb (fun d => displacedb s d t) (deltas c).
Proof.
  unfold piece_attack.
  assert (G : forall l acc, has (fold_left (fun acc d =>
      match sq_shift s (fst d) (snd d) with
      | Some to => bor o acc (bsingle o to) | None => acc end) l acc) t =
      has acc t || existsb (fun d => displacedb s d t) l).
  { induction l as [|d l IH]; intros acc; cbn [fold_left existsb].
    - symmetry. apply orb_false_r.
    - rewrite IH. rewrite orb_assoc. f_equal.
      assert (E : displacedb s d t = match sq_shift s (fst d) (snd d) with
                    Some u => sq_eqb t u | None => false end).
      { apply eq_true_iff_eq. destruct d as [df dr]. cbn [fst snd].
        rewrite <- sq_shift_spec. destruct (sq_shift s df dr) as [u|].
        - destruct (sq_eqb_spec t u); split; congruence.
        - split; discriminate. }
      rewrite E. destruct (sq_shift s (fst d) (snd d)) as [u|].
      + rewrite (sp_or o S), (sp_single o S). reflexivity.
      + symmetry. apply orb_false_r. }
  rewrite G, (sp_empty o S). reflexivity.
Qed.

Ltac step_table :=
  rewrite piece_attack_spec; unfold stepb;
  repeat match goal with c : color |- _ => destruct c end;
  cbn [existsb steps gold_steps diagonals orthogonals app orient fst snd Z.opp fu_deltas ke_deltas gi_deltas ki_deltas ou_deltas];
  unfold dN, dE, dS, dW, dNE, dSE, dSW, dNW, dNNE, dNNW, dSSE, dSSW; btauto.

Lemma fu_attack_spec s c t : has (fu_attack o s c) t = stepb c Pawn s t.
Proof. unfold fu_attack. step_table. Qed.
Lemma ke_attack_spec s c t : has (ke_attack o s c) t = stepb c Knight s t.
Proof. unfold ke_attack. step_table. Qed.
Lemma gi_attack_spec s c t : has (gi_attack o s c) t = stepb c Silver s t.
Proof. unfold gi_attack. step_table. Qed.
Lemma ki_attack_spec s c t : has (ki_attack o s c) t = stepb c Gold s t.
Proof. unfold ki_attack. step_table. Qed.
Lemma ou_attack_spec s c t : has (ou_attack o s c) t = stepb c King s t.
Proof. unfold ou_attack. step_table. Qed.

(** ** Sliding tables *)

Lemma wf_sliding_loop fuel : forall curr occ d acc, wf S acc ->
  wf S (sliding_loop o fuel curr occ d acc).
Proof.
  induction fuel as [|fuel IH]; intros curr occ d acc H; [assumption|].
  cbn [sliding_loop]. destruct curr as [u|]; [|assumption].
  destruct (has occ u); auto with wf.
Qed.
Lemma wf_sliding_attack s occ d : wf S (sliding_attack o s occ d).
Proof. apply wf_sliding_loop. auto with wf. Qed.

Lemma sliding_loop_spec fuel : forall curr occ d acc t,
  has (sliding_loop o fuel curr occ d acc) t = true <->
  has acc t = true \/ In t (walk fuel curr (has occ) d).
Proof.
  induction fuel as [|fuel IH]; intros curr occ d acc t; cbn [sliding_loop walk].
  - cbn. tauto.
  - destruct curr as [u|]; [|cbn; tauto].
    assert (A : has (bor o acc (bsingle o u)) t = true <-> has acc t = true \/ u = t).
    { rewrite (sp_or o S), (sp_single o S), orb_true_iff.
      destruct (sq_eqb_spec t u); intuition congruence. }
    destruct (has occ u); cbn [In].
    + rewrite A. tauto.
    + rewrite IH, A. tauto.
Qed.

Lemma sliding_attack_spec s occ d t : In d dirs8 ->
  (has (sliding_attack o s occ d) t = true <->
   dirof s t = Some d /\ clearb (has occ) s t = true).
Proof.
  intros Hd. unfold sliding_attack. rewrite sliding_loop_spec, walk_spec by assumption.
  rewrite (sp_empty o S). pose proof (dist_le_8 s t) as L.
  change (Z.of_nat 9) with 9. intuition (congruence || lia).
Qed.

Lemma sliding_mask_spec s d t : In d dirs8 ->
  has (sliding_attack o s (bempty o) d) t = on_ray s d t.
Proof.
  intros Hd. apply eq_true_iff_eq. rewrite sliding_attack_spec, on_ray_spec by assumption.
  assert (C : clearb (has (bempty o)) s t = true).
  { apply clearb_spec. intros u _. apply (sp_empty o S). }
  tauto.
Qed.

Lemma wf_ky_mask s c : wf S (ky_mask o s c).
Proof. apply wf_sliding_attack. Qed.
Lemma ky_mask_spec s c t : has (ky_mask o s c) t = rideb c Lance s t.
Proof.
  unfold ky_mask. rewrite sliding_mask_spec by (destruct c; vm_compute; tauto).
  unfold rideb, on_ray. destruct (dirof s t) as [d|]; [|reflexivity].
  cbn [opt_dir_eqb existsb rides]. rewrite orb_false_r. destruct c; reflexivity.
Qed.

Lemma wf_ky_attack s c occ : wf S occ -> wf S (ky_attack o s c occ).
Proof.
  intros H. unfold ky_attack. pose proof (wf_ky_mask s c). destruct c; auto with wf.
Qed.

Lemma ray_one_file s d : (fst d = 0) ->
  one_file (on_ray s d).
Proof.
  intros Hd u v Hu Hv. apply on_ray_spec in Hu, Hv.
  apply dirof_displaced in Hu as [_ [_ [Fu _]]]. apply dirof_displaced in Hv as [_ [_ [Fv _]]].
  rewrite Hd in Fu, Fv. apply i9Z_inj. unfold fileZ in *. lia.
Qed.

Lemma one_file_ext' m m' : (forall s, m s = m' s) -> one_file m -> one_file m'.
Proof. intros H O u v. rewrite <- !H. apply O. Qed.

Lemma ky_attack_spec s c occ t : wf S occ ->
  has (ky_attack o s c occ) t = reachb (has occ) c Lance s t.
Proof.
  intros Ho. unfold reachb. change (stepb c Lance s t) with false. cbn [orb].
  apply eq_true_iff_eq. rewrite andb_true_iff.
  assert (R : rideb c Lance s t = true <->
     dirof s t = Some (match c with Black => dN | White => dS end)).
  { unfold rideb. destruct (dirof s t) as [d|]; [|split; discriminate].
    cbn [existsb rides]. rewrite orb_false_r.
    destruct c; unfold dN, dS; cbn [orient fst snd Z.opp];
      (match goal with |- dir_eqb d ?e = true <-> _ => destruct (dir_eqb_spec d e) end);
      split; intros H; (subst; reflexivity) || (discriminate H) || (injection H as H; contradiction). }
  rewrite R. unfold ky_attack. cbv zeta.
  assert (M : forall u, has (ky_mask o s c) u =
     on_ray s (match c with Black => dN | White => dS end) u).
  { intros u. unfold ky_mask. apply sliding_mask_spec. destruct c; vm_compute; tauto. }
  assert (F : one_file (has (ky_mask o s c))).
  { eapply one_file_ext'; [intros u; symmetry; apply M|].
    apply ray_one_file. destruct c; reflexivity. }
  destruct c.
  - rewrite (sp_neg_c o S) by auto using wf_ky_mask.
    rewrite (slid_neg_ext' _ _ _ _ M). apply slid_neg_ray. reflexivity.
  - rewrite (sp_pos_c o S) by auto using wf_ky_mask.
    rewrite (slid_pos_ext' _ _ _ _ M). apply slid_pos_ray. reflexivity.
Qed.

Definition neg_pos (ds : sdeltas) : Prop :=
  In (fst (fst ds)) dirs8 /\ In (snd (fst ds)) dirs8 /\
  In (fst (snd ds)) dirs8 /\ In (snd (snd ds)) dirs8 /\
  weight (fst (fst ds)) < 0 /\ weight (snd (fst ds)) < 0 /\
  0 < weight (fst (snd ds)) /\ 0 < weight (snd (snd ds)).

Lemma wf_s_attack ds s occ : wf S occ -> wf S (s_attack o ds s occ).
Proof.
  intros H. unfold s_attack, s_masks. cbn [fst snd].
  apply (sp_wf_or o S); [apply (sp_wf_neg2 o S)|apply (sp_wf_pos2 o S)];
    cbn [fst snd]; auto using wf_sliding_attack.
Qed.
Lemma wf_s_merged ds s : wf S (s_merged o ds s).
Proof.
  unfold s_merged, s_masks. cbn [fst snd].
  repeat apply (sp_wf_or o S); auto using wf_sliding_attack with wf.
Qed.

Definition in_sdeltas (ds : sdeltas) (d : Z * Z) : Prop :=
  d = fst (fst ds) \/ d = snd (fst ds) \/ d = fst (snd ds) \/ d = snd (snd ds).

Lemma s_attack_spec ds s occ t : neg_pos ds -> wf S occ ->
  (has (s_attack o ds s occ) t = true <->
   (exists d, dirof s t = Some d /\ in_sdeltas ds d) /\ clearb (has occ) s t = true).
Proof.
  intros [D1 [D2 [D3 [D4 [W1 [W2 [W3 W4]]]]]]] Ho.
  unfold s_attack, s_masks. cbn [fst snd].
  rewrite (sp_or o S), orb_true_iff.
  rewrite (sp_neg2 o S), (sp_pos2 o S) by (cbn [fst snd]; auto using wf_sliding_attack).
  cbn [fst snd].
  rewrite (slid_neg_ext' _ _ _ _ (fun u => sliding_mask_spec s _ u D1)).
  rewrite (slid_neg_ext' _ _ _ _ (fun u => sliding_mask_spec s _ u D2)).
  rewrite (slid_pos_ext' _ _ _ _ (fun u => sliding_mask_spec s _ u D3)).
  rewrite (slid_pos_ext' _ _ _ _ (fun u => sliding_mask_spec s _ u D4)).
  rewrite !slid_neg_ray, !slid_pos_ray by assumption.
  unfold in_sdeltas. split.
  - intros [[[E C]|[E C]]|[[E C]|[E C]]]; (split; [|assumption]); eauto 6.
  - intros [[d [E [ -> | [ -> | [ -> | -> ] ] ]]] C]; tauto.
Qed.

Lemma s_merged_spec ds s t : neg_pos ds ->
  (has (s_merged o ds s) t = true <-> exists d, dirof s t = Some d /\ in_sdeltas ds d).
Proof.
  intros [D1 [D2 [D3 [D4 _]]]]. unfold s_merged, s_masks. cbn [fst snd].
  rewrite !(sp_or o S), (sp_empty o S), !orb_true_iff, !sliding_mask_spec, !on_ray_spec
    by assumption.
  unfold in_sdeltas. split.
  - intros [[[[C|E]|E]|E]|E]; [discriminate|..]; eauto 6.
  - intros [d [E [ -> | [ -> | [ -> | -> ] ] ]]]; tauto.
Qed.

Lemma neg_pos_ka : neg_pos ka_deltas.
Proof. unfold neg_pos. rewrite !in_dirs8. cbn. repeat split; tauto || lia. Qed.
Lemma neg_pos_hi : neg_pos hi_deltas.
Proof. unfold neg_pos. rewrite !in_dirs8. cbn. repeat split; tauto || lia. Qed.

Lemma ride_ka c k s t : rides k = diagonals ->
  rideb c k s t = true <-> exists d, dirof s t = Some d /\ in_sdeltas ka_deltas d.
Proof.
  intros E. rewrite rideb_spec, E. unfold in_sdeltas. cbn [ka_deltas fst snd].
  split.
  - intros [v [Hv D]]. exists (orient c v). split; [assumption|].
    cbn [diagonals In] in Hv.
    repeat destruct Hv as [<-|Hv]; try contradiction; destruct c; cbn; tauto.
  - intros [d [D H]]. exists (orient c d). split.
    + unfold diagonals. repeat destruct H as [->|H]; try subst d; destruct c; cbn; tauto.
    + rewrite D. f_equal. destruct d, c; unfold orient; cbn [fst snd]; rewrite ?Z.opp_involutive; reflexivity.
Qed.
Lemma ride_hi c k s t : rides k = orthogonals ->
  rideb c k s t = true <-> exists d, dirof s t = Some d /\ in_sdeltas hi_deltas d.
Proof.
  intros E. rewrite rideb_spec, E. unfold in_sdeltas. cbn [hi_deltas fst snd].
  split.
  - intros [v [Hv D]]. exists (orient c v). split; [assumption|].
    cbn [orthogonals In] in Hv.
    repeat destruct Hv as [<-|Hv]; try contradiction; destruct c; cbn; tauto.
  - intros [d [D H]]. exists (orient c d). split.
    + unfold orthogonals. repeat destruct H as [->|H]; try subst d; destruct c; cbn; tauto.
    + rewrite D. f_equal. destruct d, c; unfold orient; cbn [fst snd]; rewrite ?Z.opp_involutive; reflexivity.
Qed.

Lemma ka_attack_spec c s occ t : wf S occ ->
  has (ka_attack o s occ) t = reachb (has occ) c Bishop s t.
Proof.
  intros Ho. apply eq_true_iff_eq. unfold ka_attack.
  rewrite s_attack_spec by (assumption || apply neg_pos_ka).
  unfold reachb. change (stepb c Bishop s t) with false. cbn [orb].
  rewrite andb_true_iff, <- (ride_ka c Bishop) by reflexivity. reflexivity.
Qed.
Lemma hi_attack_spec c s occ t : wf S occ ->
  has (hi_attack o s occ) t = reachb (has occ) c Rook s t.
Proof.
  intros Ho. apply eq_true_iff_eq. unfold hi_attack.
  rewrite s_attack_spec by (assumption || apply neg_pos_hi).
  unfold reachb. change (stepb c Rook s t) with false. cbn [orb].
  rewrite andb_true_iff, <- (ride_hi c Rook) by reflexivity. reflexivity.
Qed.

(** ** The combined table *)

Lemma wf_attack k s c occ : wf S occ -> wf S (attack o k s c occ).
Proof.
  intros H. destruct k; cbn [attack];
    first [apply wf_piece_attack|apply wf_ky_attack; assumption|apply wf_s_attack; assumption
          |apply (sp_wf_or o S); [apply wf_s_attack; assumption|apply wf_piece_attack]].
Qed.

(* the squares next to a square *)
Lemma king_step_split c s t :
  stepb c King s t = stepb c ProBishop s t || stepb c ProRook s t.
Proof. unfold stepb. cbn [steps]. rewrite existsb_app. reflexivity. Qed.

Lemma step_on_line c v s t : In v dirs8 -> displacedb s (orient c v) t = true ->
  dirof s t = Some (orient c v) /\ forall u, betweenb s u t = false.
Proof.
  intros Hv D. apply displacedb_spec in D.
  assert (H8 : In (orient c v) dirs8).
  { apply in_dirs8 in Hv. apply in_dirs8. unfold orient.
    repeat destruct Hv as [->|Hv]; try subst v; destruct c; cbn; tauto. }
  destruct (displaced_dirof _ _ _ _ H8 ltac:(apply Z.le_refl) D) as [E L].
  split; [assumption|]. intros u. destruct (betweenb s u t) eqn:B; [exfalso|reflexivity].
  apply between_dirs in B. lia.
Qed.

Lemma step_is_ride occ c v k s t : In v (rides k) -> In v dirs8 ->
  displacedb s (orient c v) t = true -> reachb occ c k s t = true.
Proof.
  intros Hk Hv D. destruct (step_on_line _ _ _ _ Hv D) as [E N].
  unfold reachb. apply orb_true_iff. right. apply andb_true_iff. split.
  - apply rideb_spec. exists v. split; assumption.
  - apply clearb_spec. intros u Hu. rewrite N in Hu. discriminate.
Qed.

Lemma attack_spec k s c occ t : wf S occ ->
  has (attack o k s c occ) t = reachb (has occ) c k s t.
Proof.
  intros Ho.
  assert (ST : forall k', rides k' = [] -> reachb (has occ) c k' s t = stepb c k' s t).
  { intros k' E. unfold reachb, rideb. rewrite E. destruct (dirof s t); apply orb_false_r. }
  destruct k; cbn [attack]; rewrite ?ST by reflexivity.
  - apply fu_attack_spec.
  - apply ky_attack_spec. assumption.
  - apply ke_attack_spec.
  - apply gi_attack_spec.
  - apply ki_attack_spec.
  - apply ka_attack_spec. assumption.
  - apply hi_attack_spec. assumption.
  - apply ou_attack_spec.
  - apply ki_attack_spec.
  - apply ki_attack_spec.
  - apply ki_attack_spec.
  - apply ki_attack_spec.
  - rewrite (sp_or o S), (ka_attack_spec c), ou_attack_spec, king_step_split by assumption.
    change (reachb (has occ) c ProBishop s t) with
      (stepb c ProBishop s t || reachb (has occ) c Bishop s t).
    destruct (stepb c ProRook s t) eqn:E; [|btauto].
    rewrite (orb_comm _ true). cbn [orb]. rewrite orb_true_r.
    symmetry. apply orb_true_iff. right.
    apply existsb_exists in E as [v [Hv D]].
    apply (step_is_ride _ _ v); [assumption| |assumption].
    apply in_or_app. right. assumption.
  - rewrite (sp_or o S), (hi_attack_spec c), ou_attack_spec, king_step_split by assumption.
    change (reachb (has occ) c ProRook s t) with
      (stepb c ProRook s t || reachb (has occ) c Rook s t).
    destruct (stepb c ProBishop s t) eqn:E; [|btauto].
    rewrite orb_true_l, orb_true_r.
    symmetry. apply orb_true_iff. right.
    apply existsb_exists in E as [v [Hv D]].
    apply (step_is_ride _ _ v); [assumption| |assumption].
    apply in_or_app. left. assumption.
Qed.

(* the squares reached on an empty board by riding, or else by stepping *)
Definition pseudo_reach (c : color) (k : kind) (s t : square) : bool :=
  match k with
  | Lance | Bishop | ProBishop | Rook | ProRook => rideb c k s t
  | _ => stepb c k s t
  end.

Lemma wf_pseudo_attack k s c : wf S (pseudo_attack o k s c).
Proof.
  destruct k; cbn [pseudo_attack]; auto using wf_ky_mask, wf_s_merged, wf_attack with wf.
Qed.

Lemma pseudo_attack_spec k s c t :
  has (pseudo_attack o k s c) t = pseudo_reach c k s t.
Proof.
  assert (ST : forall k', rides k' = [] ->
     has (attack o k' s c (bempty o)) t = stepb c k' s t).
  { intros k' E. rewrite attack_spec by auto with wf.
    unfold reachb, rideb. rewrite E. destruct (dirof s t); apply orb_false_r. }
  destruct k; cbn [pseudo_attack pseudo_reach]; try (apply ST; reflexivity).
  - apply ky_mask_spec.
  - apply eq_true_iff_eq. rewrite s_merged_spec by apply neg_pos_ka.
    symmetry. apply ride_ka. reflexivity.
  - apply eq_true_iff_eq. rewrite s_merged_spec by apply neg_pos_hi.
    symmetry. apply ride_hi. reflexivity.
  - apply eq_true_iff_eq. rewrite s_merged_spec by apply neg_pos_ka.
    symmetry. apply ride_ka. reflexivity.
  - apply eq_true_iff_eq. rewrite s_merged_spec by apply neg_pos_hi.
    symmetry. apply ride_hi. reflexivity.
Qed.

Lemma wf_fu s c : wf S (fu_attack o s c).
Proof. apply wf_piece_attack. Qed.
Lemma wf_ke s c : wf S (ke_attack o s c).
Proof. apply wf_piece_attack. Qed.
Lemma wf_gi s c : wf S (gi_attack o s c).
Proof. apply wf_piece_attack. Qed.
Lemma wf_ki s c : wf S (ki_attack o s c).
Proof. apply wf_piece_attack. Qed.
Lemma wf_ou s c : wf S (ou_attack o s c).
Proof. apply wf_piece_attack. Qed.
Lemma wf_ka s occ : wf S occ -> wf S (ka_attack o s occ).
Proof. apply wf_s_attack. Qed.
Lemma wf_hi s occ : wf S occ -> wf S (hi_attack o s occ).
Proof. apply wf_s_attack. Qed.

(** ** Squares between *)

Lemma between_delta_dirof s t :
  (let df := fileZ t - fileZ s in let dr := rankZ t - rankZ s in
   if (Z.lor df dr =? 0)
      || (negb (df =? 0) && negb (dr =? 0) && negb (Z.abs df =? Z.abs dr))
   then None else between_delta df dr) = dirof s t.
Proof.
  unfold dirof. cbv zeta. set (df := fileZ t - fileZ s). set (dr := rankZ t - rankZ s).
  assert (L : (Z.lor df dr =? 0) = (df =? 0) && (dr =? 0)).
  { apply eq_true_iff_eq. rewrite andb_true_iff, !Z.eqb_eq. apply Z.lor_eq_0_iff. }
  rewrite L. unfold between_delta.
  destruct (Z.compare_spec df 0) as [E|E|E], (Z.compare_spec dr 0) as [E'|E'|E'];
    destruct (Z.eqb_spec df 0); try lia; destruct (Z.eqb_spec dr 0); try lia;
    cbn [andb orb negb]; try reflexivity;
    rewrite ?(Z.sgn_neg df), ?(Z.sgn_pos df), ?(Z.sgn_neg dr), ?(Z.sgn_pos dr) by lia;
    try (subst; reflexivity);
    try (destruct (Z.abs df =? Z.abs dr); reflexivity);
    try (rewrite ?e, ?e0; reflexivity).
Qed.

Lemma between_table_unfold s t : BETWEEN_TABLE o s t =
  match dirof s t with
  | Some d => band o (sliding_attack o s (bsingle o t) d) (bnot o (bsingle o t))
  | None => bempty o
  end.
Proof.
  rewrite <- between_delta_dirof. unfold BETWEEN_TABLE. cbv zeta.
  destruct (_ || _); reflexivity.
Qed.

Lemma wf_between s t : wf S (BETWEEN_TABLE o s t).
Proof.
  rewrite between_table_unfold. destruct (dirof s t); auto using wf_sliding_attack with wf.
Qed.

Lemma between_table_spec s t u : has (BETWEEN_TABLE o s t) u = betweenb s u t.
Proof.
  rewrite between_table_unfold. destruct (dirof s t) as [d|] eqn:E.
  - apply eq_true_iff_eq.
    rewrite (sp_and o S), (sp_not o S), (sp_single o S), andb_true_iff, negb_true_iff.
    destruct (dirof_displaced _ _ _ E) as [Hd _].
    rewrite sliding_attack_spec by assumption. rewrite clearb_spec. split.
    + intros [[D C] N]. destruct (ray_cases _ _ _ _ E D) as [->|[B|B]].
      * rewrite sq_eqb_refl in N. discriminate.
      * specialize (C t B). rewrite (sp_single o S), sq_eqb_refl in C. discriminate.
      * assumption.
    + intros B. destruct (between_dir _ _ _ B) as [d' [D1 [D2 D3]]].
      split; [split; [congruence|]|].
      * intros v Hv. rewrite (sp_single o S). apply sq_eqb_neq. intros ->.
        apply between_dirs in B. apply between_dirs in Hv. lia.
      * apply sq_eqb_neq. apply between_neq in B. tauto.
  - rewrite (sp_empty o S). unfold betweenb. rewrite E. reflexivity.
Qed.

(** ** Files *)

Lemma files_aux f l : forall acc, wf S acc ->
  let r := fold_left (fun acc s => if i9_eqb (sqf s) f then bor o acc (bsingle o s)
                                   else acc) l acc in
  wf S r /\ forall t, has r t = has acc t || existsb (fun s => i9_eqb (sqf s) f && sq_eqb t s) l.
Proof.
  induction l as [|s l IH]; intros acc Hacc; cbn [fold_left existsb].
  - split; [assumption|]. intros t. symmetry. apply orb_false_r.
  - destruct (i9_eqb (sqf s) f); cbn [andb].
    + destruct (IH (bor o acc (bsingle o s)) ltac:(auto with wf)) as [W E].
      split; [assumption|]. intros t. rewrite E, (sp_or o S), (sp_single o S).
      symmetry. apply orb_assoc.
    + destruct (IH acc Hacc) as [W E]. split; [assumption|]. intros t. apply E.
Qed.

Lemma wf_files f : wf S (FILES o f).
Proof. apply files_aux. auto with wf. Qed.

Lemma files_spec f t : has (FILES o f) t = i9_eqb (sqf t) f.
Proof.
  unfold FILES.
  destruct (files_aux f all_squares (bempty o) (sp_wf_empty o S)) as [_ E].
  rewrite E, (sp_empty o S). cbn [orb]. apply eq_true_iff_eq. rewrite existsb_exists. split.
  - intros [s [_ H]]. apply andb_prop in H as [H1 H2].
    destruct (sq_eqb_spec t s) as [->|]; [assumption|discriminate].
  - intros H. exists t. split; [apply all_squares_in|]. rewrite H, sq_eqb_refl. reflexivity.
Qed.

End Attacks.
