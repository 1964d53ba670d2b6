(** * Lines on the board

    Boolean versions of the notions of [Rules.v], and facts about two or three
    squares. *)

From Coq Require Import List Bool NArith ZArith Lia.
From Verif Require Import Types Rules Words Squares.
Import ListNotations.
Open Scope Z_scope.

Definition dir_eqb (a b : Z * Z) : bool := (fst a =? fst b) && (snd a =? snd b).

Lemma dir_eqb_spec a b : reflect (a = b) (dir_eqb a b).
Proof.
  destruct a as [x y], b as [x' y']. unfold dir_eqb. cbn [fst snd].
  destruct (Z.eqb_spec x x'), (Z.eqb_spec y y'); constructor; congruence.
Qed.

Definition dirs8 : list (Z * Z) := orthogonals ++ diagonals.

(* the direction from [s] to [t], if they are on a common line *)
Definition dirof (s t : square) : option (Z * Z) :=
  let df := fileZ t - fileZ s in
  let dr := rankZ t - rankZ s in
  if (df =? 0) && (dr =? 0) then None
  else if (df =? 0) || (dr =? 0) || (Z.abs df =? Z.abs dr)
       then Some (Z.sgn df, Z.sgn dr) else None.

Definition dist (s t : square) : Z :=
  Z.max (Z.abs (fileZ t - fileZ s)) (Z.abs (rankZ t - rankZ s)).

(* [u] is strictly between [s] and [t] *)
Definition betweenb (s u t : square) : bool :=
  match dirof s t, dirof s u with
  | Some d, Some e => dir_eqb d e && (dist s u <? dist s t)
  | _, _ => false
  end.

Definition displacedb (s : square) (v : Z * Z) (t : square) : bool :=
  (fileZ t =? fileZ s + fst v) && (rankZ t =? rankZ s + snd v).

Definition stepb (c : color) (k : kind) (s t : square) : bool :=
  existsb (fun v => displacedb s (orient c v) t) (steps k).

Definition rideb (c : color) (k : kind) (s t : square) : bool :=
  match dirof s t with
  | Some d => existsb (fun v => dir_eqb d (orient c v)) (rides k)
  | None => false
  end.

(* nothing of [occ] strictly between [s] and [t] *)
Definition clearb (occ : square -> bool) (s t : square) : bool :=
  forallb (fun u => negb (betweenb s u t && occ u)) all_squares.

Definition reachb (occ : square -> bool) (c : color) (k : kind) (s t : square) : bool :=
  stepb c k s t || (rideb c k s t && clearb occ s t).

Definition occb (b : board) (s : square) : bool :=
  match b s with Some _ => true | None => false end.

(** ** Agreement with the rules *)

Lemma i9Z_inj a b : i9Z a = i9Z b -> a = b.
Proof. destruct a, b; cbn; intros H; congruence || lia. Qed.
Lemma sq_Z_inj s t : fileZ s = fileZ t -> rankZ s = rankZ t -> s = t.
Proof.
  destruct s as [f r], t as [f' r']. unfold fileZ, rankZ. cbn.
  intros Hf Hr. rewrite (i9Z_inj _ _ Hf), (i9Z_inj _ _ Hr). reflexivity.
Qed.

Lemma displacedb_spec s v t : displacedb s v t = true <-> displaced s v 1 t.
Proof.
  unfold displacedb, displaced. rewrite andb_true_iff, !Z.eqb_eq. lia.
Qed.

Lemma stepb_spec c k s t :
  stepb c k s t = true <-> exists v, In v (steps k) /\ displaced s (orient c v) 1 t.
Proof.
  unfold stepb. rewrite existsb_exists. split; intros [v [H1 H2]]; exists v;
    (split; [assumption|]); apply displacedb_spec; assumption.
Qed.

Lemma in_dirs8 v : In v dirs8 <->
  v = (0, -1) \/ v = (0, 1) \/ v = (-1, 0) \/ v = (1, 0) \/
  v = (-1, -1) \/ v = (1, -1) \/ v = (-1, 1) \/ v = (1, 1).
Proof.
  unfold dirs8, orthogonals, diagonals. cbn [app In].
  intuition congruence.
Qed.

Lemma rides_dirs8 c k v : In v (rides k) -> In (orient c v) dirs8.
Proof.
  intros H. apply in_dirs8. unfold orient.
  destruct k; cbn [rides diagonals orthogonals In] in H; try contradiction;
    repeat destruct H as [<-|H]; try contradiction; destruct c; cbn; tauto.
Qed.

Lemma displaced_dirof s v n t : In v dirs8 -> 1 <= n -> displaced s v n t ->
  dirof s t = Some v /\ dist s t = n.
Proof.
  intros Hv Hn [Hf Hr]. apply in_dirs8 in Hv.
  unfold dirof, dist. cbv zeta.
  replace (fileZ t - fileZ s) with (n * fst v) by lia.
  replace (rankZ t - rankZ s) with (n * snd v) by lia.
  clear Hf Hr.
  repeat destruct Hv as [->|Hv]; try subst v; cbn [fst snd];
  (match goal with |- context [if ?x then _ else _] => replace x with false
     by (symmetry; apply andb_false_iff; rewrite !Z.eqb_neq; lia) end);
  (match goal with |- context [if ?x then _ else _] => replace x with true
     by (symmetry; rewrite !orb_true_iff, !Z.eqb_eq; lia) end);
  (split; [f_equal; f_equal; lia|lia]).
Qed.

Lemma dirof_displaced s t d : dirof s t = Some d ->
  In d dirs8 /\ 1 <= dist s t /\ displaced s d (dist s t) t.
Proof.
  unfold dirof, dist, displaced. cbv zeta.
  set (df := fileZ t - fileZ s). set (dr := rankZ t - rankZ s).
  destruct (Z.eqb_spec df 0) as [E|E], (Z.eqb_spec dr 0) as [E'|E']; cbn [andb orb];
    try discriminate.
  - intros [= <-]. cbn [fst snd]. split; [|lia]. apply in_dirs8.
    destruct (Z.lt_ge_cases dr 0).
    + left. f_equal; lia.
    + right; left. f_equal; lia.
  - intros [= <-]. cbn [fst snd]. split; [|lia]. apply in_dirs8.
    destruct (Z.lt_ge_cases df 0).
    + right; right; left. f_equal; lia.
    + right; right; right; left. f_equal; lia.
  - destruct (Z.eqb_spec (Z.abs df) (Z.abs dr)) as [A|A]; [|discriminate].
    intros [= <-]. cbn [fst snd].
    assert (Q : dr = df \/ dr = - df) by lia.
    destruct (Z.lt_ge_cases df 0), Q.
    + rewrite (Z.sgn_neg df), (Z.sgn_neg dr) by lia. split; [|lia]. apply in_dirs8. tauto.
    + rewrite (Z.sgn_neg df), (Z.sgn_pos dr) by lia. split; [|lia]. apply in_dirs8. tauto.
    + rewrite (Z.sgn_pos df), (Z.sgn_pos dr) by lia. split; [|lia]. apply in_dirs8. tauto.
    + rewrite (Z.sgn_pos df), (Z.sgn_neg dr) by lia. split; [|lia]. apply in_dirs8. tauto.
Qed.

Lemma betweenb_spec s u t : betweenb s u t = true <->
  exists d, dirof s t = Some d /\ exists i, 0 < i < dist s t /\ displaced s d i u.
Proof.
  unfold betweenb. split.
  - destruct (dirof s t) as [d|]; [|discriminate].
    destruct (dirof s u) as [e|] eqn:E; [|discriminate].
    rewrite andb_true_iff, Z.ltb_lt. intros [H L].
    destruct (dir_eqb_spec d e) as [<-|]; [|discriminate].
    exists d. split; [reflexivity|]. apply dirof_displaced in E as [_ [E1 E2]].
    exists (dist s u). split; [lia|assumption].
  - intros [d [E [i [Hi D]]]]. rewrite E.
    destruct (dirof_displaced _ _ _ E) as [Hd _].
    destruct (displaced_dirof s d i u Hd ltac:(lia) D) as [E1 E2]. rewrite E1, E2.
    destruct (dir_eqb_spec d d); [|congruence]. cbn. apply Z.ltb_lt. lia.
Qed.

Lemma rideb_spec c k s t : rideb c k s t = true <->
  exists v, In v (rides k) /\ dirof s t = Some (orient c v).
Proof.
  unfold rideb. destruct (dirof s t) as [d|].
  - rewrite existsb_exists. split; intros [v [H1 H2]]; exists v; (split; [assumption|]).
    + destruct (dir_eqb_spec d (orient c v)); congruence.
    + injection H2 as ->. destruct (dir_eqb_spec (orient c v) (orient c v)); congruence.
  - split; [discriminate|]. intros [v [_ H]]. discriminate.
Qed.

Lemma clearb_spec occ s t : clearb occ s t = true <->
  forall u, betweenb s u t = true -> occ u = false.
Proof.
  unfold clearb. rewrite forallb_forall. split; intros H u.
  - intros Hb. specialize (H u (all_squares_in u)). rewrite Hb in H.
    apply negb_true_iff in H. assumption.
  - intros _. apply negb_true_iff. destruct (betweenb s u t) eqn:E; [|reflexivity].
    apply H. assumption.
Qed.

Lemma reachb_spec b c k s t : reachb (occb b) c k s t = true <-> reaches b c k s t.
Proof.
  unfold reachb, reaches. rewrite orb_true_iff, andb_true_iff, stepb_spec, rideb_spec,
    clearb_spec. split; (intros [H|H]; [left; exact H|right]).
  - destruct H as [[v [Hv E]] C]. exists v, (dist s t).
    destruct (dirof_displaced _ _ _ E) as [_ [D1 D2]].
    split; [assumption|]. split; [assumption|]. split; [assumption|].
    intros i u Hi Hu. specialize (C u). unfold occb in C.
    destruct (b u); [|reflexivity]. discriminate C. apply betweenb_spec.
    exists (orient c v). split; [assumption|]. exists i. split; assumption.
  - destruct H as [v [n [Hv [Hn [D C]]]]].
    destruct (displaced_dirof _ _ _ _ (rides_dirs8 c k v Hv) Hn D) as [E1 E2].
    split; [exists v; split; assumption|].
    intros u Hu. apply betweenb_spec in Hu as [d [Ed [i [Hi Du]]]].
    rewrite E1 in Ed. injection Ed as <-. rewrite E2 in Hi.
    unfold occb. rewrite (C i u Hi Du). reflexivity.
Qed.

Lemma clearb_ext occ occ' s t :
  (forall u, betweenb s u t = true -> occ u = occ' u) ->
  clearb occ s t = clearb occ' s t.
Proof.
  intros H. apply eq_true_iff_eq. rewrite !clearb_spec.
  split; intros C u Hu; [rewrite <- H|rewrite H]; auto.
Qed.

Lemma reachb_ext occ occ' c k s t : (forall u, occ u = occ' u) ->
  reachb occ c k s t = reachb occ' c k s t.
Proof. intros H. unfold reachb. rewrite (clearb_ext occ occ'); auto. Qed.

(** ** Sweeps *)

Definition opt_dir_eqb (a b : option (Z * Z)) : bool :=
  match a, b with
  | Some x, Some y => dir_eqb x y
  | None, None => true
  | _, _ => false
  end.
Lemma opt_dir_eqb_eq a b : opt_dir_eqb a b = true -> a = b.
Proof.
  destruct a as [a|], b as [b|]; cbn; try congruence.
  destruct (dir_eqb_spec a b); congruence.
Qed.

Definition opp_dir (d : Z * Z) : Z * Z := (- fst d, - snd d).

Lemma opp_opp d : opp_dir (opp_dir d) = d.
Proof. destruct d. unfold opp_dir. cbn. f_equal; lia. Qed.

(* symmetry *)
Lemma dirof_sym s t :
  dirof t s = match dirof s t with Some d => Some (opp_dir d) | None => None end.
Proof.
  apply opt_dir_eqb_eq. revert s t.
  apply (sq_forall2 (fun s t => opt_dir_eqb (dirof t s)
    match dirof s t with Some d => Some (opp_dir d) | None => None end)).
  vm_compute. reflexivity.
Qed.
Lemma dist_sym s t : dist t s = dist s t.
Proof. unfold dist. lia. Qed.

(* the third side of a line *)
Lemma between_dirs s u t : betweenb s u t = true ->
  dirof u t = dirof s t /\ dirof s u = dirof s t /\ dist s u + dist u t = dist s t
  /\ 0 < dist s u /\ 0 < dist u t.
Proof.
  rewrite betweenb_spec. intros [d [E [i [Hi [F R]]]]].
  destruct (dirof_displaced _ _ _ E) as [Hd [_ [F' R']]].
  assert (D1 : displaced s d i u) by (split; assumption).
  assert (D2 : displaced u d (dist s t - i) t) by (split; lia).
  destruct (displaced_dirof s d i u Hd ltac:(lia) D1) as [E1 L1].
  destruct (displaced_dirof u d (dist s t - i) t Hd ltac:(lia) D2) as [E2 L2].
  rewrite E, E1, E2, L1, L2. repeat split; lia.
Qed.

Lemma between_intro s u t d : dirof s u = Some d -> dirof u t = Some d ->
  betweenb s u t = true.
Proof.
  intros E1 E2. destruct (dirof_displaced _ _ _ E1) as [Hd [L1 [F1 R1]]].
  destruct (dirof_displaced _ _ _ E2) as [_ [L2 [F2 R2]]].
  assert (D : displaced s d (dist s u + dist u t) t) by (split; lia).
  destruct (displaced_dirof s d (dist s u + dist u t) t Hd ltac:(lia) D) as [E L].
  apply betweenb_spec. exists d. split; [assumption|]. exists (dist s u).
  split; [lia|split; assumption].
Qed.

Lemma between_dir_lt s u t d : dirof s t = Some d -> dirof s u = Some d ->
  betweenb s u t = (dist s u <? dist s t).
Proof.
  intros E1 E2. unfold betweenb. rewrite E1, E2.
  destruct (dir_eqb_spec d d); [reflexivity|congruence].
Qed.

Lemma between_sym s u t : betweenb t u s = betweenb s u t.
Proof.
  assert (H : forall s u t, betweenb s u t = true -> betweenb t u s = true).
  { clear. intros s u t H. destruct (between_dirs _ _ _ H) as [E1 [E2 _]].
    apply betweenb_spec in H as [d [E _]]. rewrite E in E1, E2.
    apply (between_intro t u s (opp_dir d)); rewrite dirof_sym;
      [rewrite E1|rewrite E2]; reflexivity. }
  apply eq_true_iff_eq. split; apply H.
Qed.

Lemma between_neq s u t : betweenb s u t = true -> u <> s /\ u <> t /\ s <> t.
Proof.
  intros H. destruct (between_dirs _ _ _ H) as [_ [_ [_ [L1 L2]]]].
  assert (Z0 : forall x, dist x x = 0) by (intros x; unfold dist; lia).
  repeat split; intros ->; rewrite ?Z0 in *; try lia.
  unfold betweenb, dirof in H. rewrite !Z.sub_diag in H. discriminate.
Qed.

(* on one ray from [s] *)
Lemma ray_cases s t u d : dirof s t = Some d -> dirof s u = Some d ->
  t = u \/ betweenb s t u = true \/ betweenb s u t = true.
Proof.
  intros E1 E2. rewrite (between_dir_lt s t u d), (between_dir_lt s u t d) by assumption.
  rewrite !Z.ltb_lt.
  destruct (Z.lt_trichotomy (dist s t) (dist s u)) as [H|[H|H]]; [tauto| |tauto].
  left. destruct (dirof_displaced _ _ _ E1) as [_ [_ [F1 R1]]].
  destruct (dirof_displaced _ _ _ E2) as [_ [_ [F2 R2]]].
  rewrite H in F1, R1. apply sq_Z_inj; lia.
Qed.

Lemma between_dir s u t : betweenb s u t = true ->
  exists d, dirof s t = Some d /\ dirof s u = Some d /\ dirof u t = Some d.
Proof.
  intros H. destruct (between_dirs _ _ _ H) as [E1 [E2 _]].
  apply betweenb_spec in H as [d [E _]]. exists d. rewrite E1, E2. tauto.
Qed.

(* s .. a .. b .. t *)
Lemma between_trans s a b t : betweenb s a b = true -> betweenb s b t = true ->
  betweenb s a t = true /\ betweenb a b t = true.
Proof.
  intros H1 H2. destruct (between_dir _ _ _ H1) as [d [A1 [A2 A3]]].
  destruct (between_dir _ _ _ H2) as [e [B1 [B2 B3]]].
  rewrite A1 in B2. injection B2 as <-. split.
  - rewrite (between_dir_lt s a t d) by assumption.
    rewrite (between_dir_lt s a b d) in H1 by assumption.
    rewrite (between_dir_lt s b t d) in H2 by assumption.
    apply Z.ltb_lt in H1, H2. apply Z.ltb_lt. lia.
  - apply (between_intro _ _ _ d); assumption.
Qed.

Lemma between_trans2 s a b t : betweenb s b t = true -> betweenb s a b = true ->
  betweenb s a t = true.
Proof. intros H1 H2. exact (proj1 (between_trans _ _ _ _ H2 H1)). Qed.

(* s .. a .. t and a .. b .. t *)
Lemma between_trans3 s a b t : betweenb s a t = true -> betweenb a b t = true ->
  betweenb s b t = true /\ betweenb s a b = true.
Proof.
  intros H1 H2. rewrite <- between_sym in H1, H2.
  destruct (between_trans _ _ _ _ H2 H1) as [H3 H4].
  rewrite between_sym in H3, H4. tauto.
Qed.

Lemma clearb_sym occ s t : clearb occ s t = clearb occ t s.
Proof.
  unfold clearb. apply eq_true_iff_eq. rewrite !forallb_forall.
  split; intros H u Hu; rewrite between_sym; auto.
Qed.

(** ** Pieces seen from the target *)

Lemma displacedb_sym s v t : displacedb t (opp_dir v) s = displacedb s v t.
Proof.
  unfold displacedb, opp_dir. cbn [fst snd]. apply eq_true_iff_eq.
  rewrite !andb_true_iff, !Z.eqb_eq. lia.
Qed.
Lemma orient_flip c v : orient (flip c) v = opp_dir (orient c v).
Proof. destruct v, c; unfold orient, opp_dir; cbn; f_equal; lia. Qed.

Lemma stepb_flip c k s t : stepb (flip c) k t s = stepb c k s t.
Proof.
  unfold stepb. induction (steps k) as [|v l IH]; [reflexivity|]. cbn [existsb].
  rewrite IH, orient_flip, displacedb_sym. reflexivity.
Qed.

Lemma rideb_flip c k s t : rideb (flip c) k t s = rideb c k s t.
Proof.
  unfold rideb. rewrite dirof_sym. destruct (dirof s t) as [d|]; [|reflexivity].
  induction (rides k) as [|v l IH]; [reflexivity|]. cbn [existsb].
  rewrite IH, orient_flip. f_equal.
  unfold dir_eqb, opp_dir. cbn [fst snd]. apply eq_true_iff_eq.
  rewrite !andb_true_iff, !Z.eqb_eq. lia.
Qed.

Lemma reachb_flip occ c k s t : reachb occ (flip c) k t s = reachb occ c k s t.
Proof. unfold reachb. rewrite stepb_flip, rideb_flip, clearb_sym. reflexivity. Qed.

(** ** Steps *)

(* a step jumps over nothing *)
Lemma step_no_between c k s u t : stepb c k s t = true -> betweenb s u t = false.
Proof.
  rewrite stepb_spec. intros [v [Hv [F R]]].
  destruct (betweenb s u t) eqn:B; [exfalso|reflexivity].
  apply betweenb_spec in B as [d [E [i [Hi [F1 R1]]]]].
  destruct (dirof_displaced _ _ _ E) as [Hd [L [F2 R2]]].
  assert (Q : (dist s t = 1) \/ dirof s t = None).
  { unfold dist, dirof.
    replace (fileZ t - fileZ s) with (fst (orient c v)) by lia.
    replace (rankZ t - rankZ s) with (snd (orient c v)) by lia.
    clear - Hv. destruct k; cbn [steps gold_steps orthogonals diagonals app In] in Hv;
      repeat destruct Hv as [<-|Hv]; try contradiction;
      destruct c; cbn; auto. }
  destruct Q as [Q|Q]; [lia|congruence].
Qed.

Lemma reach_clear occ c k s t : reachb occ c k s t = true ->
  clearb occ s t = true.
Proof.
  unfold reachb. rewrite orb_true_iff, andb_true_iff. intros [H|[_ H]]; [|assumption].
  apply clearb_spec. intros u Hu. rewrite (step_no_between c k) in Hu by assumption.
  discriminate.
Qed.

Lemma reach_clear' occ c k s t u : reachb occ c k s t = true ->
  betweenb s u t = true -> occ u = false.
Proof. intros H. apply reach_clear in H. rewrite clearb_spec in H. auto. Qed.

Lemma reach_neq occ c k s t : reachb occ c k s t = true -> s <> t.
Proof.
  intros H ->. unfold reachb, rideb, dirof in H. rewrite !Z.sub_diag in H.
  cbn in H. rewrite orb_false_r in H. apply stepb_spec in H as [v [Hv [F R]]].
  assert (Q : fst (orient c v) = 0 /\ snd (orient c v) = 0) by lia.
  clear F R. destruct k; cbn [steps gold_steps orthogonals diagonals app In] in Hv;
    repeat destruct Hv as [<-|Hv]; try contradiction;
    destruct c; cbn in Q; lia.
Qed.
