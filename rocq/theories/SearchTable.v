(** * A client: alpha-beta with a transposition table

    The search of Search.v with a table of bounds, keyed by Position::key
    (position.rs 61-64) and the depth, as engines have it. *)

From Coq Require Import List Bool NArith ZArith Lia.
From Verif Require Import Types Rules Bitboard Tables Zobrist Position Movegen Perft Api
  ValidPlay Reach Lines Decide PerftSpec Client Repeat Search.
Import ListNotations.
Local Open Scope Z_scope.

(** ** The table *)

(* what is known of a value: it is at least [b_lo] and at most [b_hi] *)
Record bounds := mkBd { b_lo : option Z; b_hi : option Z }.
Definition within (b : bounds) (v : Z) : Prop :=
  (forall l, b_lo b = Some l -> l <= v) /\ (forall h, b_hi b = Some h -> v <= h).

(* the key, the depth and the bounds; the newest first *)
Definition ttable : Type := list (N * nat * bounds).
Fixpoint lookup (T : ttable) (key : N) (d : nat) : option bounds :=
  match T with
  | [] => None
  | (key', d', b) :: T => if (key' =? key)%N && (d' =? d)%nat then Some b else lookup T key d
  end.
Lemma lookup_in T key d b : lookup T key d = Some b -> In (key, d, b) T.
Proof.
  induction T as [|[[key' d'] b'] T IH]; cbn [lookup]; [discriminate|].
  destruct (N.eqb_spec key' key) as [->|]; cbn [andb]; [|intros H; right; apply IH, H].
  destruct (Nat.eqb_spec d' d) as [->|]; [|intros H; right; apply IH, H].
  intros [= ->]. left. reflexivity.
Qed.

(* do the bounds settle the value, cut off at the window? *)
Definition settled (b : bounds) (alpha beta : Z) : option Z :=
  match b_lo b, b_hi b with
  | Some l, Some h => if beta <=? l then Some beta else if h <=? alpha then Some alpha
                      else if l =? h then Some l else None
  | Some l, None => if beta <=? l then Some beta else None
  | None, Some h => if h <=? alpha then Some alpha else None
  | None, None => None
  end.
(* what the result of a search with this window says *)
Definition learnt (alpha beta r : Z) : bounds :=
  if r <=? alpha then mkBd None (Some alpha) else if beta <=? r then mkBd (Some beta) None else mkBd (Some r) (Some r).

Lemma settled_right b alpha beta v r : alpha < beta -> within b v -> settled b alpha beta = Some r ->
  r = clamp alpha beta v.
Proof.
  intros Lt [Wl Wh]. unfold settled, clamp. destruct (b_lo b) as [l|], (b_hi b) as [h|];
    try (specialize (Wl _ eq_refl)); try (specialize (Wh _ eq_refl));
    repeat match goal with |- context [Z.leb ?x ?y] => destruct (Z.leb_spec x y) end;
    try (destruct (Z.eqb_spec l h)); intros [= <-]; lia.
Qed.
Lemma learnt_right alpha beta v : alpha < beta -> within (learnt alpha beta (clamp alpha beta v)) v.
Proof.
  intros Lt. unfold learnt. destruct (Z.leb_spec (clamp alpha beta v) alpha) as [A|A];
    [|destruct (Z.leb_spec beta (clamp alpha beta v)) as [B|B]];
    unfold clamp in *; split; cbn [b_lo b_hi]; intros x; try discriminate; intros [= <-]; lia.
Qed.

(* the value depends on the board, the hands and the side only *)
Lemma score_same W g h : same_game g h -> score W g = score W h.
Proof.
  intros [B [H E]]. unfold score, points. rewrite E.
  assert (X : map (piece_points W g) all_squares = map (piece_points W h) all_squares).
  { apply map_ext. intros s. unfold piece_points. rewrite B. reflexivity. }
  assert (Y : map (hand_points W g) slots = map (hand_points W h) slots).
  { apply map_ext. intros [c k]. unfold hand_points. cbn [fst snd]. rewrite H. reflexivity. }
  rewrite X, Y. reflexivity.
Qed.
Lemma minimax_same W d : forall g h v, same_game g h -> minimax W d g v -> minimax W d h v.
Proof.
  induction d as [|d IH]; intros g h v S; cbn [minimax].
  - intros ->. apply score_same, S.
  - intros [[N E]|[[m [L H]] U]]; [left|right].
    + split; [|exact E]. intros m L. apply (N m), (legal_same h); [apply same_sym, S|exact L].
    + split.
      * exists m. split; [apply (legal_same g); assumption|]. apply (IH (play g m)); [apply play_same, S|exact H].
      * intros m' u L' H'. apply (U m'); [apply (legal_same h); [apply same_sym, S|exact L']|].
        apply (IH (play h m')); [apply play_same, same_sym, S|exact H'].
Qed.
Lemma mm_same W d g h : same_game g h -> mm W d g = mm W d h.
Proof.
  intros S. apply (minimax_mm W d h), (minimax_same W d g h _ S), minimax_mm. reflexivity.
Qed.

(** ** The search *)

Section SearchTable.
Context {A : Type} (W : weights).
(* a piece of a program that gets a value and works on the table *)
Definition tgetter : Type := ttable -> (Z -> ttable -> client A) -> client A.

Fixpoint tt_try_all (body : Z -> move -> tgetter) (alpha beta : Z) (l : list move) : tgetter := fun T k =>
  match l with
  | [] => k alpha T
  | m :: l => body alpha m T (fun v T =>
      if beta <=? v then k beta T else tt_try_all body (Z.max alpha v) beta l T k)
  end.

Fixpoint tt_search (d : nat) (alpha beta : Z) : tgetter := fun T k =>
  match d with
  | O => evaluate W (fun v => k (clamp alpha beta v) T)
  | S d' =>
      KeyOf (fun key =>
        match match lookup T key d with Some b => settled b alpha beta | None => None end with
        | Some r => k r T
        | None =>
            let store := fun r T => k r ((key, d, learnt alpha beta r) :: T) in
            LegalMoves (fun l =>
              match l with
              | [] => store (clamp alpha beta (- w_mate W)) T
              | _ => tt_try_all (fun alpha m T k =>
                       DoM m (tt_search d' (- beta) (- alpha) T (fun v T => UndoM m (k (- v) T)))) alpha beta l T store
              end)
        end)
  end.

(* several searches with one table, each with a depth and a window *)
Fixpoint tt_all (jobs : list (nat * Z * Z)) (T : ttable) (rs : list Z) (k : list Z -> client A) : client A :=
  match jobs with
  | [] => k rs
  | (d, alpha, beta) :: jobs => tt_search d alpha beta T (fun r T => tt_all jobs T (rs ++ [r]) k)
  end.

(** ** It finds the value if no two positions near the root have the same key *)

Context (K : keying).
Definition key_at (t : table) : N := N.lxor (fst (keys_at K t)) (snd (keys_at K t)).

Context (t0 : table) (D : nat).
(* [t] is the table after the legal line [l] from [t0] *)
Definition at_line (t : table) (l : list move) : Prop :=
  legal_line (t_game t0) l /\ t_game t = play_line (t_game t0) l /\
  List.length (t_past t) = (List.length (t_past t0) + List.length l)%nat.
Definition distinct_keys : Prop := forall t1 l1 t2 l2,
  at_line t1 l1 -> (List.length l1 < D)%nat -> at_line t2 l2 -> (List.length l2 < D)%nat ->
  key_at t1 = key_at t2 -> same_game (t_game t1) (t_game t2).
Definition right_table (T : ttable) : Prop := forall key d b, In (key, d, b) T ->
  exists t l, at_line t l /\ (List.length l < D)%nat /\ key_at t = key /\ within b (mm W d (t_game t)).

Definition tt_gets (f : tgetter) (t : table) (r : Z) : Prop := forall T k a t', right_table T ->
  plays K (f T k) t a t' -> exists T', right_table T' /\ plays K (k r T') t a t'.

Lemma after_step t l m g n h : at_line t l -> t = mkT g n h -> legal g m ->
  at_line (mkT (play g m) (next_ply n) ((m, g, n) :: h)) (l ++ [m]).
Proof.
  intros [L [G Y]] -> Lm. cbn [t_game t_past] in *. split; [|split].
  - apply legal_line_app. split; [exact L|]. rewrite <- G. cbn. tauto.
  - rewrite play_line_app, <- G. reflexivity.
  - cbn [t_past List.length]. rewrite Y, app_length. cbn [List.length]. lia.
Qed.

Lemma tt_try_all_gets body t beta f l :
  (forall m alpha, In m l -> alpha < beta -> tt_gets (body alpha m) t (clamp alpha beta (f m))) ->
  forall alpha, alpha < beta -> tt_gets (tt_try_all body alpha beta l) t (Z.min beta (maxl alpha (map f l))).
Proof.
  induction l as [|m l IH]; intros H alpha Lt T k a t' R P; cbn [tt_try_all map maxl] in *.
  - rewrite Z.min_r by lia. exists T. split; assumption.
  - apply (H m alpha (or_introl eq_refl) Lt) in P as [T1 [R1 P]]; [|exact R]. unfold clamp in P.
    destruct (Z.leb_spec beta (Z.max alpha (Z.min beta (f m)))) as [Le|Gt].
    + pose proof (maxl_ge (map f l) (Z.max alpha (f m))). rewrite Z.min_l by lia. exists T1. split; assumption.
    + apply (IH (fun m' al I => H m' al (or_intror I))) in P; [|lia|exact R1].
      replace (Z.max alpha (Z.max alpha (Z.min beta (f m)))) with (Z.max alpha (f m)) in P by lia. exact P.
Qed.

Lemma tt_search_gets (DK : distinct_keys) d : forall alpha beta t l, alpha < beta ->
  at_line t l -> (List.length l + d <= D)%nat ->
  tt_gets (tt_search d alpha beta) t (clamp alpha beta (mm W d (t_game t))).
Proof.
  induction d as [|d IH]; intros alpha beta t l Lt Af Le T k a t' R P.
  - cbn [tt_search] in P. apply evaluate_gets in P. exists T. split; [exact R|exact P].
  - cbn [tt_search] in P. inversion P as [| | | | | | | | | |? ? ? ? P'| |]; subst. clear P.
    change (N.lxor (fst (keys_at K t)) (snd (keys_at K t))) with (key_at t) in P'.
    destruct (match lookup T (key_at t) (S d) with Some b => settled b alpha beta | None => None end) as [r|] eqn:Hit.
    + exists T. split; [exact R|]. destruct (lookup T (key_at t) (S d)) as [b|] eqn:Lk; [|discriminate].
      apply lookup_in, R in Lk as [t1 [l1 [A1 [B1 [K1 W1]]]]].
      rewrite (mm_same W (S d) _ _ (DK t1 l1 t l A1 B1 Af ltac:(lia) K1)) in W1.
      rewrite <- (settled_right b alpha beta _ r Lt W1 Hit). exact P'.
    + clear Hit. inversion P' as [| | | | | | |ml ? ? ? ? ND HL P| | | | |]; subst. clear P'.
      assert (St : forall T' r, right_table T' -> r = clamp alpha beta (mm W (S d) (t_game t)) ->
        right_table ((key_at t, S d, learnt alpha beta r) :: T')).
      { intros T' r R' -> key e b [E|I]; [|apply R', I]. apply (f_equal fst) in E as E1.
        apply (f_equal snd) in E as E2. cbn [fst snd] in E1, E2. subst b.
        assert (key_at t = key) by congruence. assert (S d = e) by congruence. subst key e.
        exists t, l. split; [exact Af|]. split; [lia|]. split; [reflexivity|]. apply learnt_right, Lt. }
      destruct ml as [|m0 ml].
      * assert (E : mm W (S d) (t_game t) = - w_mate W).
        { symmetry. apply minimax_mm. left. split; [|reflexivity]. intros m L. apply HL in L. destruct L. }
        eexists. split; [apply (St T (clamp alpha beta (- w_mate W)) R); rewrite E; reflexivity|].
        rewrite E. exact P.
      * assert (G : forall m al, In m (m0 :: ml) -> al < beta ->
          tt_gets (fun T k => DoM m (tt_search d (- beta) (- al) T (fun v T => UndoM m (k (- v) T)))) t
            (clamp al beta (- mm W d (play (t_game t) m)))).
        { intros m al I La T' k' a' u R' Q. inversion Q as [| | | | | | | |? ? g n h ? ? P2| | | |]; subst. clear Q.
          apply HL in I. cbn [t_game] in I.
          pose proof (after_step _ l m g n h Af eq_refl I) as Af'.
          apply (IH (- beta) (- al) _ (l ++ [m])) in P2 as [T2 [R2 P2]];
            [|lia|exact Af'|rewrite app_length; cbn [List.length]; lia|exact R'].
          inversion P2 as [| | | | | | | | |? ? ? ? ? ? ? ? ? P3| | |]; subst. cbn [t_game] in *.
          exists T2. split; [exact R2|].
          replace (clamp al beta (- mm W d (play g m))) with (- clamp (- beta) (- al) (mm W d (play g m)))
            by (unfold clamp; lia). exact P3. }
        apply (tt_try_all_gets _ t beta (fun m => - mm W d (play (t_game t) m)) (m0 :: ml) G alpha Lt) in P
          as [T1 [R1 P]]; [|exact R].
        cbn [map maxl] in P. rewrite maxl_max in P.
        assert (E : Z.min beta (Z.max alpha (maxl (- mm W d (play (t_game t) m0))
            (map (fun m => - mm W d (play (t_game t) m)) ml))) = clamp alpha beta (mm W (S d) (t_game t))).
        { rewrite (mm_list W d (t_game t) m0 ml HL). unfold clamp. lia. }
        rewrite E in P. eexists. split; [apply (St T1 _ R1 eq_refl)|exact P].
Qed.

Lemma tt_all_gets (DK : distinct_keys) jobs : forall T rs k a t',
  right_table T -> (forall d alpha beta, In (d, alpha, beta) jobs -> (d <= D)%nat /\ alpha < beta) ->
  plays K (tt_all jobs T rs k) t0 a t' ->
  plays K (k (rs ++ map (fun j => match j with (d, alpha, beta) => clamp alpha beta (mm W d (t_game t0)) end) jobs)) t0 a t'.
Proof.
  induction jobs as [|[[d alpha] beta] jobs IH]; intros T rs k a t' R H P; cbn [tt_all map] in *.
  - rewrite app_nil_r. exact P.
  - destruct (H d alpha beta (or_introl eq_refl)) as [Ld Lt].
    apply (tt_search_gets DK d alpha beta t0 [] Lt) in P as [T1 [R1 P]].
    + apply IH in P; [|exact R1|intros d' al be I; apply H; right; exact I].
      rewrite <- app_assoc in P. exact P.
    + split; [exact I|]. split; [reflexivity|]. cbn [List.length]. lia.
    + cbn [List.length]. lia.
    + exact R.
Qed.

(* whatever is in the table, the moves are taken back *)
Definition tt_back (f : tgetter) (t : table) : Prop := forall T k a t',
  plays K (f T k) t a t' -> exists r T', plays K (k r T') t a t'.
Lemma tt_try_all_back body t beta l : (forall m alpha, tt_back (body alpha m) t) ->
  forall alpha, tt_back (tt_try_all body alpha beta l) t.
Proof.
  intros H. induction l as [|m l IH]; intros alpha T k a t' P; cbn [tt_try_all] in *; [eauto|].
  apply H in P as [r [T1 P]]. destruct (beta <=? r); [eauto|]. apply IH in P. exact P.
Qed.
Lemma tt_search_back d : forall alpha beta t, tt_back (tt_search d alpha beta) t.
Proof.
  induction d as [|d IH]; intros alpha beta t T k a t' P.
  - cbn [tt_search] in P. apply evaluate_gets in P. eauto.
  - cbn [tt_search] in P. inversion P as [| | | | | | | | | |? ? ? ? P'| |]; subst. clear P.
    destruct (match lookup T _ (S d) with Some b => settled b alpha beta | None => None end) as [r|]; [eauto|].
    inversion P' as [| | | | | | |ml ? ? ? ? ND HL P| | | | |]; subst. clear P'.
    destruct ml as [|m0 ml]; [eauto|].
    apply tt_try_all_back in P as [r [T1 P]]; [eauto|].
    intros m al T' k' a' u Q. inversion Q as [| | | | | | | |? ? g n h ? ? P2| | | |]; subst.
    apply IH in P2 as [r [T2 P2]]. inversion P2 as [| | | | | | | | |? ? ? ? ? ? ? ? ? P3| | |]; subst. eauto.
Qed.
Lemma tt_all_ends jobs : forall T rs k a t',
  (forall rs a t', plays K (k rs) t0 a t' -> t_past t' = t_past t0) ->
  plays K (tt_all jobs T rs k) t0 a t' -> t_past t' = t_past t0.
Proof.
  induction jobs as [|[[d alpha] beta] jobs IH]; intros T rs k a t' H P; cbn [tt_all] in P; [apply (H _ _ _ P)|].
  apply tt_search_back in P as [r [T1 P]]. exact (IH _ _ _ _ _ H P).
Qed.

(** ** It keeps to the rules, whatever is in the table *)

Definition tt_fine (ck : bool) (f : tgetter) (t : table) : Prop := forall T k,
  (forall v T', keeps ck true K (k v T') t) -> keeps ck true K (f T k) t.

Lemma tt_try_all_fine ck body beta t l : (forall m alpha, In m l -> tt_fine ck (body alpha m) t) ->
  forall alpha, tt_fine ck (tt_try_all body alpha beta l) t.
Proof.
  induction l as [|m l IH]; intros H alpha T k Kp; cbn [tt_try_all]; [apply Kp|].
  apply (H m alpha (or_introl eq_refl)). intros v T'. destruct (beta <=? v); [apply Kp|].
  apply (IH (fun m' al I => H m' al (or_intror I))). exact Kp.
Qed.
Lemma tt_search_fine ck d : forall alpha beta t, decent (t_game t) ->
  ck = false \/ (t_ply t + N.of_nat d <= 65535)%N -> tt_fine ck (tt_search d alpha beta) t.
Proof.
  induction d as [|d IH]; intros alpha beta t De Bd T k Kp; cbn [tt_search].
  - apply evaluate_fine. intros v. apply Kp.
  - constructor.
    destruct (match lookup T _ (S d) with Some b => settled b alpha beta | None => None end) as [r|]; [apply Kp|].
    constructor; [intros _; destruct De as [V [HO [M BK]]]; apply listable_king; auto; apply BK|]. intros l ND HL.
    assert (F : forall m al, In m l ->
      tt_fine ck (fun T k => DoM m (tt_search d (- beta) (- al) T (fun v T => UndoM m (k (- v) T)))) t).
    { intros m al I T' k' Kp'. apply HL in I. destruct t as [g n h]. cbn [t_game t_ply] in *.
      constructor; [exact I|destruct Bd; [tauto|right; lia]|intros _; apply roomy_standard, De|].
      apply IH; cbn [t_game t_ply].
      - apply decent_play; assumption.
      - destruct Bd as [Bd|Bd]; [tauto|right]. rewrite next_ply_le; lia.
      - intros v T2. constructor. apply Kp'. }
    destruct l as [|m0 l]; [apply Kp|]. apply (tt_try_all_fine ck _ beta t (m0 :: l) F).
    intros v T'. apply Kp.
Qed.
Lemma tt_all_fine ck jobs : decent (t_game t0) ->
  (forall d alpha beta, In (d, alpha, beta) jobs -> ck = false \/ (t_ply t0 + N.of_nat d <= 65535)%N) ->
  forall T rs k, (forall rs, keeps ck true K (k rs) t0) -> keeps ck true K (tt_all jobs T rs k) t0.
Proof.
  intros De. induction jobs as [|[[d alpha] beta] jobs IH]; intros H T rs k Kp; cbn [tt_all]; [apply Kp|].
  apply tt_search_fine; [exact De|apply (H d alpha beta); left; reflexivity|].
  intros v T'. apply IH; [intros d' al be I; apply (H d' al be); right; exact I|exact Kp].
Qed.
End SearchTable.
