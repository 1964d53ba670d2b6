(** * Different moves change the key of the crate differently *)

From Coq Require Import List Bool NArith ZArith Lia Permutation.
From Verif Require Import Types Rules Zobrist Squares Geometry ValidPlay Hash StdRng SeedTable Digits Siblings.
Import ListNotations.
Local Open Scope nat_scope.

(* the digits used for comparison *)
Definition dg (x : N) : digits := code 20 (N.shiftr x 1).
Lemma cut_dg x : cut x = dg (N.ldiff (N.land x 0xffffffffffffffff) KEY_COLOR).
Proof. unfold cut, dg, KEY_COLOR. reflexivity. Qed.
Local Opaque drawn cut crate_rng board_rows hand_rows.

(** ** The entries *)

Lemma nth_map2 (f : nat -> nat -> digits) n m r j : r < n -> j < m ->
  nth j (nth r (map (fun r => map (f r) (seq 0 m)) (seq 0 n)) []) QE = f r j.
Proof.
  intros R J.
  rewrite (nth_indep _ [] (map (f 0) (seq 0 m))) by (rewrite map_length, seq_length; exact R).
  rewrite (map_nth (fun r => map (f r) (seq 0 m)) (seq 0 n) 0 r), seq_nth by exact R.
  rewrite (nth_indep _ QE (f (0 + r) 0)) by (rewrite map_length, seq_length; exact J).
  rewrite map_nth, seq_nth by exact J. reflexivity.
Qed.

Lemma si_lt s : si s < 81.
Proof. destruct s as [f r]. unfold si. cbn [sqf sqr]. destruct f, r; cbn; lia. Qed.
Lemma si_index s : sq_index s = N.of_nat (si s).
Proof. destruct s as [f r]. destruct f, r; reflexivity. Qed.
Lemma ki_lt k : ki k < 14.
Proof. destruct k; cbn; lia. Qed.
Lemma ki_index k : kind_index k = N.of_nat (ki k).
Proof. destruct k; reflexivity. Qed.
Lemma ci_index c : color_index c = N.of_nat (ci c).
Proof. destruct c; reflexivity. Qed.
Lemma ci_lt c : ci c < 2.
Proof. destruct c; cbn; lia. Qed.

Lemma dg_lxor x y : dg (N.lxor x y) = qxor (dg x) (dg y).
Proof. unfold dg. rewrite N.shiftr_lxor. apply code_lxor. Qed.
Lemma code_QE n x : code (S n) x <> QE.
Proof. cbn [code]. destruct (N.testbit x 0), (N.testbit x 1); discriminate. Qed.
Lemma dg_QE x : dg x <> QE.
Proof. exact (code_QE 19 _). Qed.
Local Opaque dg.
Lemma qxor_QE a b : a <> QE -> b <> QE -> qxor a b <> QE.
Proof. destruct a, b; cbn [qxor]; try congruence; discriminate. Qed.

Lemma bq_spec s c k : dg (z_board_entry crate_table s c k) = bq s c k.
Proof.
  unfold crate_table, zobrist_table. cbn [z_board_entry].
  unfold bq, brow. rewrite board_rows_ok.
  pose proof (si_lt s). pose proof (ci_lt c). pose proof (ki_lt k).
  rewrite (nth_map2 (fun r j => cut (drawn (14 * r + j)))) by lia.
  rewrite si_index, ci_index, ki_index.
  replace ((N.of_nat (si s) * 2 + N.of_nat (ci c)) * 14 + N.of_nat (ki k))%N
    with (N.of_nat (14 * (2 * si s + ci c) + ki k)) by lia.
  rewrite drawn_ok by lia. symmetry. apply cut_dg.
Qed.
Lemma hq_spec c k n : In k hand_kinds -> n < 18 ->
  dg (z_hand_entry crate_table c k (N.of_nat n)) = hq c k n.
Proof.
  intros I L.
  assert (K : ki k < 7) by (cbn in I; intuition (subst; cbn; lia)).
  pose proof (ci_lt c).
  assert (E : z_hand_entry crate_table c k (N.of_nat n) =
     N.ldiff (N.land (crate_rng (N.of_nat (2268 + 18 * (7 * ci c + ki k) + n))) 0xffffffffffffffff) KEY_COLOR).
  { unfold crate_table, zobrist_table. cbn [z_hand_entry].
    replace (N.of_nat (2268 + 18 * (7 * ci c + ki k) + n))
      with (81 * 2 * 14 + (color_index c * 7 + kind_index k) * 18 + N.of_nat n)%N
      by (rewrite ci_index, ki_index; lia).
    cbn in I. intuition (subst; reflexivity). }
  rewrite E, drawn_ok by lia.
  unfold hq, hrow. rewrite hand_rows_ok.
  rewrite (nth_map2 (fun r j => cut (drawn (2268 + 18 * r + j)))) by lia. symmetry. apply cut_dg.
Qed.

(** ** All effects are different *)

Lemma effects_at c t : map effect (changes_at c t) =
  flat_map (fun a => map (qxor a) (map (prize c t) prizes)) (map (arrive c t) (arrivals false c t)) ++
  map (arrive c t) (arrivals true c t) ++
  map (fun p => qxor (bq t c (fst p)) (hq c (fst p) (snd p))) held.
Proof.
  unfold changes_at. rewrite !map_app, !map_map. f_equal.
  induction (arrivals false c t) as [|a l IH]; [reflexivity|]. cbn [flat_map map].
  rewrite map_app, IH, !map_map. reflexivity.
Qed.

Lemma permute3 {A} (x y z w : list A) : Permutation (z ++ y ++ x ++ w) ((x ++ y ++ z) ++ w).
Proof.
  rewrite !app_assoc. apply Permutation_app_tail. rewrite <- !app_assoc.
  rewrite (Permutation_app_comm z), <- app_assoc, (Permutation_app_comm y), <- app_assoc.
  apply Permutation_app_head, Permutation_app_comm.
Qed.
Lemma some_inj {A} (x y : A) : Some x = Some y -> x = y.
Proof. congruence. Qed.
Lemma sift_gen d ps rows quiet drops acc f : split4 ps [] [] [] [] = Some f ->
  Permutation (add_rests d drops (add_rests d quiet (fold_left (add_row d f) rows acc)))
    (rests d (flat_map (fun a => map (qxor a) ps) rows ++ quiet ++ drops) ++ acc).
Proof.
  intros E. rewrite add_rests_spec, add_rests_spec, (add_rows_spec d ps f rows E acc), !rests_app.
  apply permute3.
Qed.
Lemma sift_at_spec d c acc t r : sift_at d c acc t = Some r ->
  Permutation r (rests d (map effect (changes_at c t)) ++ acc).
Proof.
  unfold sift_at. destruct (split4 _ [] [] [] []) as [f|] eqn:E; [|discriminate]. intros H.
  apply some_inj in H. rewrite <- H, effects_at. exact (sift_gen d _ _ _ _ acc f E).
Qed.

Local Opaque sift_at changes_at effect.
Lemma sift_cons d c t l acc : sift d ((c, t) :: l) acc =
  match sift_at d c acc t with Some acc => sift d l acc | None => None end.
Proof. reflexivity. Qed.
Lemma sift_spec d l : forall acc r, sift d l acc = Some r ->
  Permutation r (rests d (map effect (flat_map (fun ct => changes_at (fst ct) (snd ct)) l)) ++ acc).
Proof.
  induction l as [|[c t] l IH]; intros acc r E.
  - injection E as <-. apply Permutation_refl.
  - rewrite sift_cons in E. destruct (sift_at d c acc t) as [b|] eqn:F; [|discriminate].
    rewrite (IH b r E), (sift_at_spec d c acc t b F). cbn [flat_map fst snd].
    rewrite map_app, rests_app, !app_assoc. apply Permutation_app_tail, Permutation_app_comm.
Qed.

Local Transparent changes_at effect.
Definition all_changes : list change := flat_map (fun ct => changes_at (fst ct) (snd ct)) all_ct.

Lemma in_changes c t x : In x (changes_at c t) -> In x all_changes.
Proof.
  intros I. apply in_flat_map. exists (c, t). split; [|exact I].
  apply in_prod; [apply all_colors_in|apply all_squares_in].
Qed.

Lemma prizes_in k n : In (k, n) prizes <-> n < full (base_kind k).
Proof.
  unfold prizes. rewrite in_flat_map. split.
  - intros [j [_ I]]. apply in_map_iff in I as [i [[= -> ->] I]]. apply in_seq in I. lia.
  - intros L. exists k. split; [apply all_kinds_in|]. apply in_map_iff. exists n. split; [reflexivity|].
    apply in_seq. lia.
Qed.
Lemma held_in k n : In (k, n) held <-> n < full k.
Proof.
  unfold held. rewrite in_flat_map. split.
  - intros [j [_ I]]. apply in_map_iff in I as [i [[= -> ->] I]]. apply in_seq in I. lia.
  - intros L. exists k. split; [destruct k; cbn in L; try lia; cbn; tauto|].
    apply in_map_iff. exists n. split; [reflexivity|]. apply in_seq. lia.
Qed.
Lemma full_kinds k n : n < full k -> In k hand_kinds /\ n < 18.
Proof. destruct k; cbn; intros; split; try lia; tauto. Qed.

Lemma bq_QE s c k : bq s c k <> QE.
Proof. rewrite <- bq_spec. apply dg_QE. Qed.
Lemma hq_QE c k n : n < full k -> hq c k n <> QE.
Proof. intros L. apply full_kinds in L as [I L]. rewrite <- hq_spec by assumption. apply dg_QE. Qed.

Lemma effects_QE : ~ In QE (map effect all_changes).
Proof.
  intros I. apply in_map_iff in I as [x [E I]]. apply in_flat_map in I as [[c t] [_ I]]. cbn [fst snd] in I.
  revert E. unfold changes_at in I. apply in_app_or in I as [I|I]; [|apply in_app_or in I as [I|I]].
  - apply in_flat_map in I as [a [_ I]]. apply in_map_iff in I as [[k n] [<- I]]. apply prizes_in in I.
    cbn [effect fst snd]. unfold arrive, prize. cbn [fst snd].
    repeat apply qxor_QE; try apply bq_QE. apply hq_QE, I.
  - apply in_map_iff in I as [a [<- _]]. cbn [effect]. unfold arrive. apply qxor_QE; apply bq_QE.
  - apply in_map_iff in I as [[k n] [<- I]]. apply held_in in I. cbn [effect fst snd].
    apply qxor_QE; [apply bq_QE|apply hq_QE, I].
Qed.

Lemma distinct_spec d : distinct d = true -> NoDup (rests d (map effect all_changes)).
Proof.
  unfold distinct. destruct (sift d all_ct []) as [l|] eqn:E; [|discriminate]. intros H.
  apply sift_spec in E. rewrite app_nil_r in E. apply (Permutation_NoDup E).
  apply (nodup_spec _ _ H).
Qed.

Lemma effects_NoDup : NoDup (map effect all_changes).
Proof.
  apply NoDup_rests; [exact effects_QE|]. intros d. apply distinct_spec.
  destruct d; [exact distinct0|exact distinct1|exact distinct2|exact distinct3].
Qed.

Lemma effect_inj x y : In x all_changes -> In y all_changes -> effect x = effect y -> x = y.
Proof. exact (nodup_map_inj effect all_changes x y effects_NoDup). Qed.

(** ** Every legal move makes one of the changes *)

Lemma i9_of_Z_i9Z i : i9_of_Z (i9Z i) = Some i.
Proof. destruct i; reflexivity. Qed.
Lemma source_of c s t v n : displaced s (orient c v) n t -> source c t v n = Some s.
Proof.
  intros [F R]. unfold source, sq_shift.
  replace (fileZ t + - (n * fst (orient c v)))%Z with (fileZ s) by lia.
  replace (rankZ t + - (n * snd (orient c v)))%Z with (rankZ s) by lia.
  unfold fileZ, rankZ. rewrite !i9_of_Z_i9Z. destruct s; reflexivity.
Qed.
Lemma i9Z_bounds i : (1 <= i9Z i <= 9)%Z.
Proof. destruct i; cbn; lia. Qed.

Lemma ride_length s t v n : In v (orthogonals ++ diagonals) -> (1 <= n)%Z -> displaced s v n t -> (n <= 8)%Z.
Proof.
  intros I L [F R]. unfold fileZ, rankZ in *.
  pose proof (i9Z_bounds (sqf s)). pose proof (i9Z_bounds (sqr s)).
  pose proof (i9Z_bounds (sqf t)). pose proof (i9Z_bounds (sqr t)).
  cbn in I. intuition (subst; cbn [fst snd] in *; lia).
Qed.

Lemma reaches_stride b c k s t : reaches b c k s t ->
  exists v n, In (v, n) (strides k) /\ displaced s (orient c v) n t.
Proof.
  intros [[v [I D]]|[v [n [I [L [D _]]]]]].
  - exists v, 1%Z. split; [|exact D]. apply in_or_app. left. apply in_map_iff. eauto.
  - exists v, n. split; [|exact D]. apply in_or_app. right. apply in_flat_map. exists v. split; [exact I|].
    apply in_map_iff. exists n. split; [reflexivity|].
    pose proof (ride_length s t _ n (rides_dirs8 c k v I) L D) as U.
    assert (E : (n = 1 \/ n = 2 \/ n = 3 \/ n = 4 \/ n = 5 \/ n = 6 \/ n = 7 \/ n = 8)%Z) by lia.
    cbn. intuition auto.
Qed.

Definition opp (v : Z * Z) : Z * Z := (- fst v, - snd v)%Z.
Lemma canonical_or k v n : In (v, n) (strides k) ->
  canonical k v = true \/ (canonical k (opp v) = true /\ In (opp v, n) (strides k)).
Proof.
  assert (H : forall k, forallb (fun vn => canonical k (fst vn) ||
    (canonical k (opp (fst vn)) && existsb (fun wm => vec_eqb (fst wm) (opp (fst vn)) && Z.eqb (snd wm) (snd vn)) (strides k)))
    (strides k) = true) by (clear; intros []; vm_compute; reflexivity).
  intros I. specialize (H k). rewrite forallb_forall in H. specialize (H _ I). cbn [fst snd] in H.
  apply orb_true_iff in H as [H|H]; [left; exact H|right]. apply andb_true_iff in H as [H E]. split; [exact H|].
  apply existsb_exists in E as [[w m] [J E]]. cbn [fst snd] in E. unfold vec_eqb in E.
  rewrite !andb_true_iff, !Z.eqb_eq in E. destruct E as [[E1 E2] ->].
  replace (opp v) with w; [exact J|]. destruct w. unfold opp in *. cbn [fst snd] in *. congruence.
Qed.

Lemma displaced_opp s t c v n : displaced s (orient c v) n t -> displaced t (orient c (opp v)) n s.
Proof. unfold displaced. destruct c; cbn [orient opp fst snd]; lia. Qed.

Lemma zoneb_spec c s : zoneb c s = true <-> promotion_zone c s.
Proof.
  destruct s as [f r]. unfold zoneb, promotion_zone, rankZ. cbn [sqr].
  destruct c, r; cbn; split; intros; try reflexivity; try discriminate; lia.
Qed.

Lemma arrivals_stay q c s t k v n : In (v, n) (strides k) -> displaced s (orient c v) n t ->
  (q = true -> canonical k v = true) -> In (mkA s k k) (arrivals q c t).
Proof.
  intros I D C. apply in_flat_map. exists k. split; [apply all_kinds_in|].
  apply in_flat_map. exists (v, n). split; [exact I|]. cbn [fst snd]. rewrite (source_of _ _ _ _ _ D).
  apply in_or_app. left. replace (negb q || canonical k v) with true; [left; reflexivity|].
  destruct q; [rewrite (C eq_refl)|]; reflexivity.
Qed.
Lemma arrivals_promote q c s t k k' v n : In (v, n) (strides k) -> displaced s (orient c v) n t ->
  promote_kind k = Some k' -> promotion_zone c s \/ promotion_zone c t -> In (mkA s k k') (arrivals q c t).
Proof.
  intros I D P Z. apply in_flat_map. exists k. split; [apply all_kinds_in|].
  apply in_flat_map. exists (v, n). split; [exact I|]. cbn [fst snd]. rewrite (source_of _ _ _ _ _ D).
  apply in_or_app. right. rewrite P. rewrite <- !zoneb_spec, <- orb_true_iff in Z. rewrite Z. left. reflexivity.
Qed.

(* which move of a position makes a change *)
Definition makes (g : game) (m : move) (x : change) : Prop :=
  match x with
  | Taking c t a cap n =>
      c = g_side g /\ m = Normal (a_from a) t (negb (kind_eqb (a_new a) (a_kind a))) /\ g_board g t <> None
  | Quiet c t a =>
      c = g_side g /\
      ((m = Normal (a_from a) t (negb (kind_eqb (a_new a) (a_kind a))) /\ g_board g t = None) \/
       (m = Normal t (a_from a) false /\ g_board g t <> None))
  | Placing c t k n => c = g_side g /\ m = Drop t (mkP k c)
  end.
Lemma makes_inj g m1 m2 x : makes g m1 x -> makes g m2 x -> m1 = m2.
Proof.
  destruct x as [c t a cap n|c t a|c t k n]; cbn [makes].
  - intros [_ [-> _]] [_ [-> _]]. reflexivity.
  - intros [_ [[-> A]|[-> A]]] [_ [[-> B]|[-> B]]]; congruence.
  - intros [_ ->] [_ ->]. reflexivity.
Qed.

Definition hash (z : ztable) (g : game) : N :=
  N.lxor (board_hash z (g_board g)) (hand_hash z (g_hand g)).
Definition diff (g h : game) : N := N.lxor (hash crate_table g) (hash crate_table h).

Lemma diff_quiet g s t pr k : g_board g s = Some (mkP k (g_side g)) -> g_board g t = None ->
  diff g (play g (Normal s t pr)) =
  N.lxor (z_board_entry crate_table s (g_side g) k)
         (z_board_entry crate_table t (g_side g) (if pr then promoted_kind k else k)).
Proof.
  intros Bs Bt. assert (N : sq_eqb t s = false) by (apply sq_eqb_neq; congruence).
  unfold diff, hash, play. rewrite Bs, Bt. cbn [g_board g_hand pkind pcolor].
  rewrite !board_hash_upd. unfold upd. rewrite N, Bs, Bt. cbn [piece_entry pkind pcolor].
  generalize (board_hash crate_table (g_board g)) (hand_hash crate_table (g_hand g)). intros x y.
  generalize (z_board_entry crate_table s (g_side g) k)
    (z_board_entry crate_table t (g_side g) (if pr then promoted_kind k else k)). intros u v. xors.
Qed.

Lemma diff_take g s t pr k q : g_board g s = Some (mkP k (g_side g)) -> g_board g t = Some q ->
  pcolor q = flip (g_side g) -> In (base_kind (pkind q)) hand_kinds ->
  diff g (play g (Normal s t pr)) =
  N.lxor (N.lxor (z_board_entry crate_table s (g_side g) k)
                 (z_board_entry crate_table t (g_side g) (if pr then promoted_kind k else k)))
         (N.lxor (z_board_entry crate_table t (flip (g_side g)) (pkind q))
                 (z_hand_entry crate_table (g_side g) (base_kind (pkind q)) (g_hand g (g_side g) (base_kind (pkind q))))).
Proof.
  intros Bs Bt Cq I. assert (N : sq_eqb t s = false).
  { apply sq_eqb_neq. intros ->. rewrite Bs in Bt. injection Bt as <-. cbn in Cq. destruct (g_side g); discriminate. }
  unfold diff, hash, play. rewrite Bs, Bt. cbn [g_board g_hand pkind pcolor].
  rewrite !board_hash_upd, hand_hash_upd, held_hash_succ by exact I.
  unfold upd. rewrite N, Bs, Bt. cbn [piece_entry pkind pcolor]. rewrite Cq.
  generalize (board_hash crate_table (g_board g)) (hand_hash crate_table (g_hand g)). intros x y.
  generalize (z_board_entry crate_table s (g_side g) k)
    (z_board_entry crate_table t (g_side g) (if pr then promoted_kind k else k))
    (z_board_entry crate_table t (flip (g_side g)) (pkind q))
    (z_hand_entry crate_table (g_side g) (base_kind (pkind q)) (g_hand g (g_side g) (base_kind (pkind q))))
    (held_hash crate_table (g_side g) (base_kind (pkind q)) (g_hand g (g_side g) (base_kind (pkind q)))).
  intros u v w i j. xors.
Qed.

Lemma diff_drop g t p : g_board g t = None -> In (pkind p) hand_kinds -> pcolor p = g_side g ->
  (0 < g_hand g (g_side g) (pkind p))%N ->
  diff g (play g (Drop t p)) =
  N.lxor (z_board_entry crate_table t (g_side g) (pkind p))
         (z_hand_entry crate_table (g_side g) (pkind p) (g_hand g (g_side g) (pkind p) - 1)).
Proof.
  intros Bt I C P. unfold diff, hash, play. cbn [g_board g_hand].
  rewrite board_hash_upd, hand_hash_upd by exact I. rewrite Bt. cbn [piece_entry]. rewrite C.
  assert (E : held_hash crate_table (g_side g) (pkind p) (g_hand g (g_side g) (pkind p)) =
    N.lxor (held_hash crate_table (g_side g) (pkind p) (g_hand g (g_side g) (pkind p) - 1))
      (z_hand_entry crate_table (g_side g) (pkind p) (g_hand g (g_side g) (pkind p) - 1))).
  { rewrite <- held_hash_succ. f_equal. lia. }
  rewrite E.
  generalize (board_hash crate_table (g_board g)) (hand_hash crate_table (g_hand g)). intros x y.
  generalize (held_hash crate_table (g_side g) (pkind p) (g_hand g (g_side g) (pkind p) - 1))
   (z_hand_entry crate_table (g_side g) (pkind p) (g_hand g (g_side g) (pkind p) - 1))
   (z_board_entry crate_table t (g_side g) (pkind p)). intros u v w. xors.
Qed.

Lemma full_set_full k : k <> King -> full_set k = N.of_nat (full k).
Proof. destruct k; try reflexivity. congruence. Qed.

Lemma change_of g m : valid g -> standard_material g -> hand_ok g -> legal g m ->
  exists x, In x all_changes /\ makes g m x /\ dg (diff g (play g m)) = effect x.
Proof.
  intros V M H [P _]. destruct m as [s t pr|t p].
  - pose proof (no_king_capture g s t pr (flip (g_side g)) V P) as NK.
    destruct P as [k [Bs [Nt [R Q]]]]. destruct (reaches_stride _ _ _ _ _ R) as [v [n [I D]]].
    set (c := g_side g) in *. set (k' := if pr then promoted_kind k else k).
    assert (Pr : pr = negb (kind_eqb k' k)).
    { unfold k'. destruct pr; [|rewrite kind_eqb_refl; reflexivity].
      destruct Q as [Q _]. unfold promoted_kind. destruct k; cbn in *; congruence. }
    assert (A : In (mkA s k k') (arrivals false c t)).
    { unfold k'. destruct pr; [|apply (arrivals_stay false c s t k v n I D); discriminate].
      destruct Q as [Q Z]. destruct (promote_kind k) as [j|] eqn:E; [|congruence].
      unfold promoted_kind. rewrite E. apply (arrivals_promote false c s t k j v n I D E Z). }
    destruct (g_board g t) as [q|] eqn:Bt.
    + assert (Cq : pcolor q = flip c).
      { destruct (color_cases c (pcolor q)) as [E|E]; [|exact E]. exfalso. apply (Nt (pkind q)).
        rewrite <- E. destruct q; reflexivity. }
      assert (Nq : pkind q <> King).
      { intros E. apply NK. rewrite <- E, <- Cq. destruct q; reflexivity. }
      assert (Kb : In (base_kind (pkind q)) hand_kinds /\ base_kind (pkind q) <> King)
        by (destruct (pkind q); cbn; split; try tauto; congruence).
      set (j := base_kind (pkind q)) in *. set (h := N.to_nat (g_hand g c j)).
      assert (L : h < full j).
      { pose proof (M j) as Mj. rewrite material_count in Mj.
        pose proof (count_upd (is_base j) (g_board g) t None) as CU.
        rewrite Bt in CU. cbn [is_base] in CU. fold j in CU. rewrite kind_eqb_refl in CU. cbn [b2n] in CU.
        rewrite full_set_full in Mj by apply Kb. unfold h. destruct c; lia. }
      exists (Taking c t (mkA s k k') (pkind q) h). split; [|split].
      * apply (in_changes c t). apply in_or_app. left. apply in_flat_map. exists (mkA s k k'). split; [exact A|].
        apply in_map_iff. exists (pkind q, h). split; [reflexivity|]. apply prizes_in. exact L.
      * cbn [makes a_from a_new a_kind]. rewrite <- Pr. split; [reflexivity|]. split; [reflexivity|]. congruence.
      * rewrite (diff_take g s t pr k q Bs Bt Cq (proj1 Kb)). fold c j k'. rewrite !dg_lxor, !bq_spec.
        replace (g_hand g c j) with (N.of_nat h) by (unfold h; lia).
        rewrite hq_spec; [reflexivity|apply Kb|apply (full_kinds j h L)].
    + assert (E : dg (diff g (play g (Normal s t pr))) = qxor (bq s c k) (bq t c k')).
      { rewrite (diff_quiet g s t pr k Bs Bt). fold c k'. rewrite dg_lxor, !bq_spec. reflexivity. }
      destruct pr.
      * exists (Quiet c t (mkA s k k')). split; [|split; [|exact E]].
        -- apply (in_changes c t). apply in_or_app. right. apply in_or_app. left. apply in_map.
           destruct Q as [Q Z]. unfold k', promoted_kind. destruct (promote_kind k) as [j|] eqn:Ek; [|congruence].
           apply (arrivals_promote true c s t k j v n I D Ek Z).
        -- cbn [makes a_from a_new a_kind]. rewrite <- Pr. split; [reflexivity|]. left. split; [reflexivity|exact Bt].
      * destruct (canonical_or k v n I) as [Cn|[Cn I']].
        -- exists (Quiet c t (mkA s k k')). split; [|split; [|exact E]].
           ++ apply (in_changes c t). apply in_or_app. right. apply in_or_app. left. apply in_map.
              apply (arrivals_stay true c s t k v n I D). intros _. exact Cn.
           ++ cbn [makes a_from a_new a_kind]. rewrite <- Pr. split; [reflexivity|]. left. split; [reflexivity|exact Bt].
        -- exists (Quiet c s (mkA t k k')). split; [|split].
           ++ apply (in_changes c s). apply in_or_app. right. apply in_or_app. left. apply in_map.
              apply (arrivals_stay true c t s k (opp v) n I' (displaced_opp s t c v n D)). intros _. exact Cn.
           ++ cbn [makes a_from a_new a_kind]. split; [reflexivity|]. right. split; [reflexivity|]. congruence.
           ++ rewrite E. cbn [effect]. unfold arrive, k'. cbn [a_from a_new a_kind].
              rewrite <- !bq_spec, <- !dg_lxor, N.lxor_comm. reflexivity.
  - destruct P as [C [Pos [Bt _]]]. set (c := g_side g) in *.
    assert (I : In (pkind p) hand_kinds).
    { destruct (in_dec kind_dec (pkind p) hand_kinds) as [I|I]; [exact I|]. rewrite (H c _ I) in Pos. lia. }
    assert (K : pkind p <> King) by (intros E; rewrite E in I; cbn in I; intuition discriminate).
    set (h := N.to_nat (g_hand g c (pkind p) - 1)).
    assert (L : h < full (pkind p)).
    { pose proof (M (pkind p)) as Mj. rewrite material_count, full_set_full in Mj by exact K.
      unfold h. destruct c; lia. }
    exists (Placing c t (pkind p) h). split; [|split].
    + apply (in_changes c t). apply in_or_app. right. apply in_or_app. right.
      apply in_map_iff. exists (pkind p, h). split; [reflexivity|]. apply held_in. exact L.
    + split; [reflexivity|]. rewrite <- C. destruct p; reflexivity.
    + rewrite (diff_drop g t p Bt I C Pos). fold c.
      replace (g_hand g c (pkind p) - 1)%N with (N.of_nat h) by (unfold h; lia).
      rewrite dg_lxor, bq_spec, hq_spec; [reflexivity|exact I|apply (full_kinds _ h L)].
Qed.

(** ** The two results *)

Lemma siblings_differ g m1 m2 : valid g -> standard_material g -> hand_ok g ->
  legal g m1 -> legal g m2 -> m1 <> m2 ->
  hash crate_table (play g m1) <> hash crate_table (play g m2).
Proof.
  intros V M H L1 L2 N E. apply N.
  destruct (change_of g m1 V M H L1) as [x1 [I1 [S1 D1]]].
  destruct (change_of g m2 V M H L2) as [x2 [I2 [S2 D2]]].
  assert (x1 = x2) as ->.
  { apply effect_inj; [assumption..|]. rewrite <- D1, <- D2. unfold diff. rewrite E. reflexivity. }
  exact (makes_inj g m1 m2 x2 S1 S2).
Qed.

Lemma makes_side g m x : makes g m x -> match x with Taking c _ _ _ _ | Quiet c _ _ | Placing c _ _ _ => c end = g_side g.
Proof. destruct x; cbn [makes]; tauto. Qed.

Lemma side_play g m : g_side (play g m) = flip (g_side g).
Proof. destruct m; reflexivity. Qed.

Lemma grandchild_differs g m1 m2 : valid g -> standard_material g -> hand_ok g ->
  legal g m1 -> legal (play g m1) m2 ->
  hash crate_table (play (play g m1) m2) <> hash crate_table g.
Proof.
  intros V M H L1 L2 E.
  assert (V' : valid (play g m1)) by (apply valid_play; assumption).
  assert (H' : hand_ok (play g m1)) by (apply hand_ok_play; [assumption..|apply L1]).
  assert (M' : standard_material (play g m1)).
  { intros k. rewrite material_play; [apply M|exact H|apply L1]. }
  destruct (change_of g m1 V M H L1) as [x1 [I1 [S1 D1]]].
  destruct (change_of _ m2 V' M' H' L2) as [x2 [I2 [S2 D2]]].
  assert (x1 = x2) as ->.
  { apply effect_inj; [assumption..|]. rewrite <- D1, <- D2. unfold diff. rewrite E, N.lxor_comm. reflexivity. }
  apply makes_side in S1. apply makes_side in S2. rewrite side_play, S1 in S2. destruct (g_side g); discriminate.
Qed.
