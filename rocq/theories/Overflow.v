(** * When the move buffer overflows

    With no opposing king on the board up to 599 moves are generated, so the
    buffer of [MAX_LEGAL_MOVES] can overflow; in check it never does.  Here is
    the number of moves generated, and from it the exact condition. *)

From Coq Require Import List Bool Arith NArith ZArith Lia.
From Verif Require Import Types Rules Bitboard Position Movegen Words Squares Geometry BBSpec
  Attacks KingSafety Rep Legality PawnDrop Gen ValidPlay Decide Exact Loops Capacity Moves.
Import ListNotations.
Local Open Scope nat_scope.

(** ** Counting without the opposing king *)

Lemma filter_one {A} (P : A -> bool) l : NoDup l ->
  (forall x y, P x = true -> P y = true -> x = y) -> length (filter P l) <= 1.
Proof.
  intros ND H. pose proof (NoDup_filter P ND) as NF.
  assert (I : forall x, In x (filter P l) -> P x = true) by (intros x I; apply filter_In in I; tauto).
  destruct (filter P l) as [|x [|y r]]; cbn [length]; [lia|lia|exfalso].
  inversion NF as [|? ? N _]; subst. apply N. left. apply H; apply I; cbn; tauto.
Qed.

Lemma NoDup_front {A} (l l' : list A) : NoDup (l ++ l') -> NoDup l.
Proof.
  induction l as [|x l IH]; intros H; [constructor|]. inversion H as [|? ? N H']; subst.
  constructor; [|exact (IH H')]. intros I. apply N. apply in_app_iff. left. exact I.
Qed.

Lemma NoDup_map_on {A B} (f : A -> B) l : NoDup l ->
  (forall x y, In x l -> In y l -> f x = f y -> x = y) -> NoDup (map f l).
Proof.
  induction l as [|x l IH]; intros ND H; cbn [map]; constructor; inversion ND as [|? ? N ND']; subst.
  - intros I. apply in_map_iff in I as [y [E I]]. apply N.
    rewrite (H x y (or_introl eq_refl) (or_intror I) (eq_sym E)). exact I.
  - apply (IH ND'). intros y y' I I'. exact (H y y' (or_intror I) (or_intror I')).
Qed.

(* at most seven squares lie between two squares *)
Lemma between_count s K : length (filter (fun t => betweenb s t K) all_squares) <= 7.
Proof.
  assert (H : forallb (fun s => forallb (fun K =>
    Nat.leb (length (filter (fun t => betweenb s t K) all_squares)) 7)
    all_squares) all_squares = true) by (vm_cast_no_check (eq_refl true)).
  rewrite forallb_forall in H. specialize (H s (all_squares_in s)).
  rewrite forallb_forall in H. specialize (H K (all_squares_in K)).
  apply Nat.leb_le in H. exact H.
Qed.

Section Count.
Context (g : game) (V : valid g) (HO : hand_ok g) (M : standard_material g).
Notation b := (g_board g).
Notation c := (g_side g).

Lemma own_count_any k : own_count g k + b2n (held g k) <= N.to_nat (full_set k).
Proof.
  pose proof (M k) as H. rewrite material_count in H.
  assert (C : own_count g k <= count (is_base k) b).
  { unfold own_count, count. rewrite filter_length_sum. apply sum_le. intros s _.
    unfold own_base, is_base. destruct (b s) as [[k' d]|]; cbn [pcolor pkind b2n]; [|lia].
    destruct (color_eqb d c), (kind_eqb (base_kind k') k); cbn; lia. }
  assert (Hh : b2n (held g k) <= N.to_nat (g_hand g Black k + g_hand g White k)).
  { unfold held. destruct c; destruct (N.ltb_spec 0 (g_hand g Black k));
      destruct (N.ltb_spec 0 (g_hand g White k)); cbn [b2n]; lia. }
  lia.
Qed.

Lemma own_king_one : own_count g King <= 1.
Proof.
  unfold own_count. rewrite <- filter_length_sum. apply filter_one; [apply all_squares_NoDup|].
  assert (E : forall s, own_base g King (b s) = true -> b s = Some (mkP King c)).
  { intros s. unfold own_base. destruct (b s) as [[k d]|]; [|discriminate]. cbn [pcolor pkind].
    rewrite andb_true_iff. intros [H1 H2]. destruct (color_eqb_spec d c); [|discriminate].
    subst d. destruct k; try discriminate. reflexivity. }
  intros s t Hs Ht. exact (v_king g V c s t (E s Hs) (E t Ht)).
Qed.

Lemma from_own_any s k m : b s = Some (mkP k c) -> In m (moves_from s) ->
  pseudo_legalb g m = true -> alone_ok c k nowhere s m = true.
Proof.
  intros Bs I P. unfold moves_from in I. apply in_flat_map in I as [t [_ I]].
  assert (E : exists pr, m = Normal s t pr) by (cbn in I; destruct I as [<-|[<-|[]]]; eauto).
  destruct E as [pr ->]. cbn [alone_ok nowhere negb andb]. cbn [pseudo_legalb] in P. rewrite Bs in P.
  rewrite color_eqb_refl in P. cbn [andb] in P.
  apply andb_true_iff in P as [P P3]. apply andb_true_iff in P as [_ P2].
  apply andb_true_iff. split; [|exact P3].
  unfold reachb in P2. apply orb_true_iff in P2. apply orb_true_iff.
  destruct P2 as [P2|P2]; [tauto|]. right. apply andb_true_iff in P2. tauto.
Qed.

Lemma moves_from_bound s : length (filter (pseudo_legalb g) (moves_from s)) <=
  match b s with
  | Some p => if color_eqb (pcolor p) c then mobility c (pkind p) nowhere s else 0
  | None => 0
  end.
Proof.
  assert (NF : own_at b c s = false -> length (filter (pseudo_legalb g) (moves_from s)) = 0).
  { intros O. apply filter_none. intros m I. unfold moves_from in I.
    apply in_flat_map in I as [t [_ I]].
    assert (E : exists pr, m = Normal s t pr) by (cbn in I; destruct I as [<-|[<-|[]]]; eauto).
    destruct E as [pr ->]. cbn [pseudo_legalb]. unfold own_at in O.
    destruct (b s) as [[k d]|]; [|reflexivity]. cbn [pcolor] in O. rewrite O. reflexivity. }
  destruct (b s) as [[k d]|] eqn:Bs.
  - cbn [pcolor pkind]. destruct (color_eqb_spec d c) as [Ed|Nd].
    + subst d. apply filter_length_le. intros m I P. apply (from_own_any s k m Bs I P).
    + rewrite NF; [lia|]. unfold own_at. rewrite Bs. cbn [pcolor].
      destruct (color_eqb_spec d c); congruence.
  - rewrite NF; [lia|]. unfold own_at. rewrite Bs. reflexivity.
Qed.

Lemma drops_on_bound s : length (filter (pseudo_legalb g) (drops_on c s)) <=
  match b s with Some _ => 0 | None => droppable c (held g) s end.
Proof.
  destruct (b s) as [x|] eqn:Bs.
  - rewrite filter_none; [lia|]. intros m I. unfold drops_on in I.
    apply in_map_iff in I as [k [<- _]]. cbn [pseudo_legalb]. rewrite Bs.
    rewrite andb_false_r. reflexivity.
  - unfold droppable, drops_on. induction hand_kinds as [|k l IH]; cbn [map filter length]; [lia|].
    destruct (pseudo_legalb g (Drop s (mkP k c))) eqn:P.
    + cbn [pseudo_legalb pkind pcolor] in P. rewrite !andb_true_iff in P.
      unfold held at 1. destruct P as [[[[_ P1] _] P2] _]. rewrite P1, P2. cbn [andb length]. lia.
    + destruct (held g k && negb (deadb c k s)); cbn [length]; lia.
Qed.

(* every pseudo-legal move starts, or is dropped, on some square *)
Lemma pseudo_listed m : pseudo_legal g m ->
  match m with
  | Normal f t pr => In m (moves_from f)
  | Drop t x => In m (drops_on c t)
  end.
Proof.
  intros P. destruct m as [f t pr|t [k d]].
  - unfold moves_from. apply in_flat_map. exists t. split; [apply all_squares_in|].
    destruct pr; cbn; tauto.
  - unfold drops_on. destruct P as [Pc [Ph _]]. cbn [pcolor pkind] in Pc, Ph. subst d.
    apply (in_map (fun k => Drop t (mkP k c))).
    destruct (in_dec kind_dec k hand_kinds) as [I'|N]; [assumption|].
    rewrite (HO c k N) in Ph. lia.
Qed.

(* with or without an opposing king *)
Theorem pseudo_legal_bound_any l : NoDup l -> (forall m, In m l -> pseudo_legal g m) ->
  length l <= 599.
Proof.
  intros ND P.
  set (ms := flat_map (fun s => moves_from s ++ drops_on c s) all_squares).
  assert (L : length l <= length (filter (pseudo_legalb g) ms)).
  { apply NoDup_incl_length; [assumption|]. intros m I. apply filter_In.
    split; [|apply pseudo_legalb_spec; apply P; assumption].
    pose proof (pseudo_listed m (P m I)) as J. unfold ms. apply in_flat_map.
    destruct m as [f t pr|t x]; [exists f|exists t]; (split; [apply all_squares_in|]);
      apply in_app_iff; tauto. }
  unfold ms in L. rewrite filter_flat_map, length_flat_map in L. clear ND P.
  assert (Sq : forall s, length (filter (pseudo_legalb g) (moves_from s ++ drops_on c s)) <=
    droppable c (held g) s +
    match b s with
    | Some p => if color_eqb (pcolor p) c then gain (base_kind (pkind p)) + missing g else 0
    | None => 0
    end).
  { intros s. rewrite filter_app, app_length. pose proof (moves_from_bound s) as H1.
    pose proof (drops_on_bound s) as H2. destruct (b s) as [[k d]|]; [|lia].
    cbn [pcolor pkind] in *. destruct (color_eqb d c); [|lia].
    pose proof (gain_spec c k s). pose proof (droppable_less c (held g) s) as H3.
    fold (missing g) in H3. lia. }
  pose proof (sum_le _ _ all_squares (fun s _ => Sq s)) as B. clear Sq.
  rewrite sum_add, sum_droppable in B.
  rewrite (own_sum g (fun k => gain k + missing g)) in B.
  pose proof (own_count_any Pawn) as C1. pose proof (own_count_any Lance) as C2.
  pose proof (own_count_any Knight) as C3. pose proof (own_count_any Silver) as C4.
  pose proof (own_count_any Gold) as C5. pose proof (own_count_any Bishop) as C6.
  pose proof (own_count_any Rook) as C7. pose proof own_king_one as C8.
  assert (J : missing g + b2n (held g Pawn) + b2n (held g Lance) + b2n (held g Knight) +
    b2n (held g Silver) + b2n (held g Gold) + b2n (held g Bishop) + b2n (held g Rook) = 7).
  { unfold missing. rewrite filter_length_sum. cbn [sum hand_kinds].
    destruct (held g Pawn), (held g Lance), (held g Knight), (held g Silver), (held g Gold),
      (held g Bishop), (held g Rook); reflexivity. }
  cbn [gain full_set] in *.
  change (N.to_nat 18) with 18 in *. change (N.to_nat 4) with 4 in *. change (N.to_nat 2) with 2 in *.
  assert (T : (own_count g Pawn + own_count g Lance + own_count g Knight + own_count g Silver
    + own_count g Gold + own_count g Bishop + own_count g Rook + own_count g King) * missing g
    <= 39 * missing g) by (apply Nat.mul_le_mono_r; lia).
  rewrite !Nat.mul_add_distr_r in T. rewrite !Nat.mul_add_distr_l in B.
  assert (A : forall x, b2n x <= 1) by (intros []; cbn; lia).
  pose proof (A (held g Pawn)). pose proof (A (held g Lance)). pose proof (A (held g Knight)).
  pose proof (A (held g Silver)). pose proof (A (held g Gold)). pose proof (A (held g Bishop)).
  pose proof (A (held g Rook)). lia.
Qed.

End Count.

(** ** Counting in check, with any material

    The pieces that can go to a square stand on different lines through it, or
    a knight's jump away, and in check every move but the king's goes to one of
    at most eight squares. *)

(* how the piece on [f] goes to [t]: the direction, or the knight's jump *)
Definition way (f t : square) : Z * Z :=
  match dirof f t with
  | Some d => d
  | None => (fileZ t - fileZ f, rankZ t - rankZ f)%Z
  end.
Definition ways : list (Z * Z) := dirs8 ++ [(1, -2); (-1, -2); (1, 2); (-1, 2)]%Z.

Lemma step_ways c k v : In v (steps k) ->
  In (orient c v) dirs8 \/ In (orient c v) [(1, -2); (-1, -2); (1, 2); (-1, 2)]%Z.
Proof.
  intros H. rewrite in_dirs8. unfold orient.
  destruct k; cbn in H; try contradiction;
    repeat destruct H as [<-|H]; try contradiction; destruct c; cbn; tauto.
Qed.

Lemma jump_way v f t : In v [(1, -2); (-1, -2); (1, 2); (-1, 2)]%Z -> displaced f v 1 t ->
  dirof f t = None /\ way f t = v.
Proof.
  intros H [F R]. assert (D : dirof f t = None).
  { unfold dirof. cbv zeta.
    replace (fileZ t - fileZ f)%Z with (fst v) by lia. replace (rankZ t - rankZ f)%Z with (snd v) by lia.
    cbn [In] in H. repeat destruct H as [<-|H]; try contradiction; reflexivity. }
  split; [assumption|]. unfold way. rewrite D. destruct v as [x y]. cbn [fst snd] in *. f_equal; lia.
Qed.

Lemma reaches_way b c k f t : reaches b c k f t -> In (way f t) ways.
Proof.
  intros [[v [Hv D]]|[v [n [Hv [Hn [D _]]]]]]; unfold ways; apply in_app_iff.
  - destruct (step_ways c k v Hv) as [H|H].
    + left. unfold way. destruct (displaced_dirof _ _ _ _ H (Z.le_refl 1) D) as [-> _]. exact H.
    + right. destruct (jump_way _ _ _ H D) as [_ ->]. exact H.
  - left. pose proof (rides_dirs8 c k v Hv) as H. unfold way.
    destruct (displaced_dirof _ _ _ _ H Hn D) as [-> _]. exact H.
Qed.

(* a piece further away on the same line would be stopped *)
Lemma reaches_far b c k f t d u : reaches b c k f t -> dirof f t = Some d -> dirof u t = Some d ->
  (dist u t < dist f t)%Z -> b u = None.
Proof.
  intros R E Eu L. destruct (dirof_displaced _ _ _ E) as [Hd [Lf [Ff Rf]]].
  destruct (dirof_displaced _ _ _ Eu) as [_ [Lu [Fu Ru]]].
  destruct R as [[v [Hv D]]|[v [n [Hv [Hn [D C]]]]]].
  - exfalso. destruct (step_ways c k v Hv) as [H|H].
    + destruct (displaced_dirof _ _ _ _ H (Z.le_refl 1) D) as [_ D1]. lia.
    + destruct (jump_way _ _ _ H D) as [N _]. congruence.
  - destruct (displaced_dirof _ _ _ _ (rides_dirs8 c k v Hv) Hn D) as [E1 E2].
    rewrite E in E1. injection E1 as E1. subst d n.
    apply (C (dist f t - dist u t)%Z); [lia|]. split; lia.
Qed.

Lemma way_inj b c k k' f f' t : b f <> None -> b f' <> None -> reaches b c k f t ->
  reaches b c k' f' t -> way f t = way f' t -> f = f'.
Proof.
  intros N N' R R' E. unfold way in E.
  assert (X : forall k f, reaches b c k f t -> forall v, dirof f t = None ->
    v = (fileZ t - fileZ f, rankZ t - rankZ f)%Z -> ~ In v dirs8).
  { intros k0 f0 R0 v D -> I. pose proof (displaced_dirof f0 _ 1 t I (Z.le_refl 1)) as H.
    cbn [fst snd] in H. unfold displaced in H. cbn [fst snd] in H.
    destruct H as [H _]; [lia|congruence]. }
  destruct (dirof f t) as [d|] eqn:D, (dirof f' t) as [d'|] eqn:D'.
  - subst d'. destruct (dirof_displaced _ _ _ D) as [_ [_ [Ff Rf]]].
    destruct (dirof_displaced _ _ _ D') as [_ [_ [Ff' Rf']]].
    destruct (Z.lt_trichotomy (dist f t) (dist f' t)) as [L|[L|L]].
    + elim N. exact (reaches_far b c k' f' t d f R' D' D L).
    + rewrite L in *. apply sq_Z_inj; lia.
    + elim N'. exact (reaches_far b c k f t d f' R D D' L).
  - exfalso. apply (X k' f' R' d D' E). exact (proj1 (dirof_displaced _ _ _ D)).
  - exfalso. apply (X k f R d' D (eq_sym E)). exact (proj1 (dirof_displaced _ _ _ D')).
  - injection E as E1 E2. apply sq_Z_inj; lia.
Qed.

(* the moves in check, one by one *)
Definition slot : Type := square + (square * ((Z * Z) * bool) + square * kind).
Definition slot_of (K : square) (m : move) : slot :=
  match m with
  | Normal f t pr => if sq_eqb f K then inl t else inr (inl (t, (way f t, pr)))
  | Drop t x => inr (inr (t, pkind x))
  end.

Theorem evasion_bound g s K l : hand_ok g -> NoDup l -> (forall m, In m l -> pseudo_legal g m) ->
  (forall t pr, In (Normal K t pr) l -> pr = false) ->
  (forall f t pr, In (Normal f t pr) l -> f <> K -> t = s \/ betweenb s t K = true) ->
  (forall t x, In (Drop t x) l -> betweenb s t K = true) -> length l <= 322.
Proof.
  intros HO ND P HK HN D.
  set (ts := filter (fun t => betweenb s t K) all_squares).
  set (u := map inl all_squares ++
    map inr (map inl (list_prod (s :: ts) (list_prod ways [true; false])) ++
             map inr (list_prod ts hand_kinds)) : list slot).
  assert (L : length u <= 322).
  { unfold u. rewrite app_length, !map_length, app_length, !map_length, !prod_length.
    pose proof (between_count s K) as H. fold ts in H. cbn [length].
    change (length all_squares) with 81. change (length ways) with 12.
    change (length hand_kinds) with 7. lia. }
  etransitivity; [|exact L]. rewrite <- (map_length (slot_of K)).
  apply NoDup_incl_length.
  - apply NoDup_map_on; [assumption|]. intros m m' I I' E.
    pose proof (P m I) as Pm. pose proof (P m' I') as Pm'.
    destruct m as [f t pr|t [k d]], m' as [f' t' pr'|t' [k' d']]; cbn [slot_of] in E.
    + destruct (sq_eqb_spec f K) as [F|F], (sq_eqb_spec f' K) as [F'|F']; try discriminate.
      * injection E as E. subst. rewrite (HK _ _ I), (HK _ _ I'). reflexivity.
      * injection E as E1 E2 E3. subst t' pr'. f_equal.
        destruct Pm as [k [Bf [_ [R _]]]], Pm' as [k' [Bf' [_ [R' _]]]].
        apply (way_inj (g_board g) (g_side g) k k' f f' t); congruence.
    + destruct (sq_eqb f K); discriminate.
    + destruct (sq_eqb f' K); discriminate.
    + injection E as E1 E2. cbn [pkind] in E2. subst. destruct Pm as [C _], Pm' as [C' _].
      cbn [pcolor] in C, C'. congruence.
  - intros x I. apply in_map_iff in I as [m [<- I]]. pose proof (P m I) as Pm. unfold u.
    apply in_app_iff. destruct m as [f t pr|t [k d]]; cbn [slot_of].
    + destruct (sq_eqb_spec f K) as [F|F].
      * left. apply in_map, all_squares_in.
      * right. apply in_map, in_app_iff. left. apply in_map, in_prod.
        -- destruct (HN f t pr I F) as [->|H]; [left; reflexivity|right].
           apply filter_In. split; [apply all_squares_in|assumption].
        -- apply in_prod; [|destruct pr; cbn; tauto].
           destruct Pm as [k [_ [_ [R _]]]]. exact (reaches_way _ _ _ _ _ R).
    + right. apply in_map, in_app_iff. right. apply in_map, in_prod.
      * apply filter_In. split; [apply all_squares_in|]. exact (D _ _ I).
      * destruct Pm as [C [H _]]. cbn [pcolor pkind] in *. subst d.
        destruct (in_dec kind_dec k hand_kinds) as [J|N]; [assumption|].
        rewrite (HO _ k N) in H. lia.
Qed.

(* in check a legal move of another piece takes the checker or stands between *)
Lemma blocks_normal g K s f t pr : valid g -> g_board g K = Some (mkP King (g_side g)) ->
  att (g_board g) (flip (g_side g)) s K -> f <> K -> legal g (Normal f t pr) ->
  t = s \/ betweenb s t K = true.
Proof.
  intros V BK A N [P [Safe _]]. pose proof P as P'. destruct P' as [k [Bf [Ct [R _]]]].
  assert (Nk : k <> King) by (intros ->; apply N; exact (v_king g V _ _ _ Bf BK)).
  apply reachb_spec in R.
  apply (safe_nonking_iff g (v_king g V) K f t pr k BK Bf Nk Ct R) in Safe as [An _]. exact (An s A).
Qed.
Lemma blocks_drop g K s t x : valid g -> hand_ok g -> g_board g K = Some (mkP King (g_side g)) ->
  att (g_board g) (flip (g_side g)) s K -> legal g (Drop t x) -> betweenb s t K = true.
Proof.
  intros V HO BK A [P [Safe _]]. destruct P as [C [H [Bt _]]].
  assert (Nx : pkind x <> King).
  { intros E. rewrite E, (HO _ King) in H; [lia|]. cbn. intuition discriminate. }
  apply (proj1 (safe_drop_iff g (v_king g V) K t x BK Bt C Nx) Safe s A).
Qed.

(** ** The generated moves *)

(* a pseudo-legal move that is not a mating pawn drop *)
Definition generated (g : game) (m : move) : Prop :=
  pseudo_legal g m /\ ~ (is_pawn_drop m /\ checkmated (play g m)).

Section Panic.
Context (o : bbops) (S : bbspec o).
Context (pos : position o) (st : state o).
Notation p := (p_inner o pos).
Notation g := (gview o p).
Notation B := (i_piece_at o p).
Notation c := (i_side o p).
Notation ai := (s_attack_info o st).
Context (R : rep o S p) (V : valid g).
Context (St : pos_state o pos = Some st).
Context (Ai : ai = attack_info_new o (calculate_checkers o p) p).

Lemma in_check_checkers : bis_empty o (ai_checkers o ai) = false <-> in_check B c.
Proof.
  pose proof (wf_checkers o S p R) as W. rewrite (ai_checkers_eq o p ai Ai). split.
  - intros E. apply (is_empty_false o S) in E as [s E]; [|assumption].
    apply (checkers_att o S p R (valid_orderly _ V)) in E as [K [BK A]]. exists K. split; [assumption|].
    apply attacked_att. eauto.
  - intros [K [BK A]]. apply attacked_att in A as [s A].
    apply (is_empty_false o S); [assumption|]. exists s.
    apply (checkers_att o S p R (valid_orderly _ V)). eauto.
Qed.

Lemma legal_moves_none :
  legal_moves o pos = None <->
  ~ in_check (g_board g) (g_side g) /\
  exists l, NoDup l /\ length l = Datatypes.S MAX_LEGAL_MOVES /\ forall m, In m l -> generated g m.
Proof.
  cbn [g_board g_side gview].
  destruct (legal_moves_spec o S pos st R (valid_orderly _ V) St Ai) as [cs [E [ND [P [T [F _]]]]]].
  assert (X : legal_moves o pos = None <-> MAX_LEGAL_MOVES < length cs).
  { split; [|exact F]. intros N. destruct (Nat.lt_ge_cases MAX_LEGAL_MOVES (length cs)) as [H|H];
      [assumption|]. destruct (T H) as [l Hl]. congruence. }
  rewrite X. clear X T F. pose proof in_check_checkers as C. unfold candidates in E.
  destruct (bis_empty o (ai_checkers o ai)) eqn:Em; cbn [negb] in E.
  - destruct (generate_all_spec o S p R ai (valid_orderly _ V) Ai) as [l [El [NDl Il]]].
    assert (l = cs) by congruence. subst l.
    assert (NC : ~ in_check B c) by (intros H; apply C in H; discriminate).
    split.
    + intros L. split; [assumption|]. exists (firstn (Datatypes.S MAX_LEGAL_MOVES) cs).
      rewrite <- (firstn_skipn (Datatypes.S MAX_LEGAL_MOVES) cs) in ND. apply NoDup_front in ND.
      split; [assumption|]. split; [apply firstn_length_le; assumption|].
      intros m I. apply Il. rewrite <- (firstn_skipn (Datatypes.S MAX_LEGAL_MOVES) cs).
      apply in_app_iff. left. exact I.
    + intros [_ [l [Nl [Ll Gl]]]]. unfold lt. rewrite <- Ll. apply NoDup_incl_length; [assumption|].
      intros m I. apply Il. apply Gl. assumption.
  - pose proof (proj1 C eq_refl) as IC. split; [|intros [N _]; contradiction].
    intros L. exfalso. destruct IC as [K [BK A]]. apply attacked_att in A as [s A].
    destruct (evasions_spec o S p R ai (valid_orderly _ V) Ai K BK (ex_intro _ s A)) as [l [El [NDl Il]]].
    assert (l = cs) by congruence. subst l.
    assert (Bd : length cs <= 322); [|unfold MAX_LEGAL_MOVES in L; lia].
    apply (evasion_bound g s K cs (gview_hand_ok o p) ND P).
    + intros t pr I. apply P in I. destruct I as [k [Bk [_ [_ Pr]]]]. cbn [gview g_board g_side] in Bk.
      destruct pr; [|reflexivity]. assert (k = King) by congruence. subst k. cbn in Pr. tauto.
    + intros f t pr I NK.
      apply Il in I as [[t' [I _]]|[[f' [t' [pr' [k [I [_ [_ [_ An]]]]]]]]|[t' [k [I _]]]]];
        [congruence| |discriminate].
      injection I as -> -> ->. exact (An s A).
    + intros t x I. apply Il in I as [[t' [I _]]|[[f [t' [pr [k [I _]]]]]|[t' [k [I [_ [_ Bt]]]]]]];
        try discriminate. injection I as -> _. apply Bt. exact A.
Qed.

End Panic.
