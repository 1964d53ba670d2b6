(** * What the pieces in hand decide

    Only the kinds that the side to move holds matter for its moves: not how
    many of them, and nothing of the opponent's hand. *)

From Coq Require Import List Bool NArith ZArith Lia.
From Verif Require Import Types Rules Bitboard Tables Zobrist Position Movegen Api
  Squares BBSpec Backends Rep Legality PawnDrop Moves Hash ValidPlay Undo Reach Agree Bisim Twins Capture.
Import ListNotations.

(** ** In the rules *)

Definition same_board (g h : game) : Prop :=
  (forall s, g_board g s = g_board h s) /\ g_side g = g_side h.

(* every kind that [g]'s side to move holds is also held in [h] *)
Definition holds_less (g h : game) : Prop :=
  forall k, (0 < g_hand g (g_side g) k)%N -> (0 < g_hand h (g_side h) k)%N.

Lemma play_board_hands g h m : same_board g h -> same_board (play g m) (play h m).
Proof.
  intros [B Sd]. destruct m as [f t pr|t x]; cbn [play]; (split; [|cbn [g_side]; rewrite Sd; reflexivity]);
    intros s; cbn [g_board]; unfold upd; rewrite ?B; reflexivity.
Qed.

Lemma in_check_board b b' c : (forall s, b s = b' s) -> in_check b c -> in_check b' c.
Proof.
  intros B [s [K [u [k [A R]]]]]. exists s. rewrite <- B. split; [assumption|].
  exists u, k. rewrite <- B. split; [assumption|]. apply (reaches_same b); assumption.
Qed.

Lemma pseudo_normal_hands g h f t pr : same_board g h ->
  pseudo_legal g (Normal f t pr) -> pseudo_legal h (Normal f t pr).
Proof.
  intros [B Sd] [k [A [O [R P]]]]. exists k. rewrite <- Sd, <- !B.
  split; [assumption|]. split; [assumption|]. split; [|assumption].
  apply (reaches_same (g_board g)); assumption.
Qed.

(* if a pawn has just been dropped with check, no drop helps *)
Lemma drop_reply_in_check g t c u x K :
  g_side g = flip c -> g_board g t = Some (mkP Pawn c) ->
  g_board g K = Some (mkP King (flip c)) -> reaches (g_board g) c Pawn t K ->
  g_board g u = None -> in_check (g_board (play g (Drop u x))) (flip c).
Proof.
  intros Sd T KK R U. cbn [play g_board]. exists K. unfold upd.
  destruct (sq_eqb_spec K u) as [->|NK]; [congruence|].
  destruct (sq_eqb_spec t u) as [->|NT]; [congruence|].
  split; [assumption|]. exists t, Pawn.
  rewrite flip2. destruct (sq_eqb_spec t u) as [->|_]; [contradiction|]. split; [assumption|].
  destruct R as [R|[v [n [[] _]]]]. left. exact R.
Qed.

Lemma pawn_gives_check g t c : valid g -> c = g_side g -> g_board g t = None ->
  in_check (g_board (play g (Drop t (mkP Pawn c)))) (flip c) ->
  exists K, g_board (play g (Drop t (mkP Pawn c))) K = Some (mkP King (flip c)) /\
    reaches (g_board (play g (Drop t (mkP Pawn c)))) c Pawn t K.
Proof.
  intros V -> E [K [KK [s [k [A R]]]]]. rewrite flip2 in A, R. exists K. split; [assumption|].
  cbn [play g_board] in *.
  destruct (sq_eqb_spec s t) as [->|N].
  - unfold upd in A. destruct (sq_eqb_spec t t) as [_|]; [|congruence]. injection A as <-. assumption.
  - exfalso. apply (v_check _ V). exists K.
    assert (B : forall u, u <> t -> upd (g_board g) t (Some (mkP Pawn (g_side g))) u = g_board g u).
    { intros u Nu. unfold upd. destruct (sq_eqb_spec u t); [contradiction|reflexivity]. }
    assert (NK : K <> t).
    { intros ->. unfold upd in KK. destruct (sq_eqb_spec t t); [discriminate|congruence]. }
    rewrite B in KK by assumption. rewrite B in A by assumption.
    split; [assumption|]. rewrite flip2. exists s, k. split; [assumption|].
    destruct R as [R|[v [n [I [L [D H]]]]]]; [left; assumption|].
    right. exists v, n. split; [assumption|]. split; [assumption|]. split; [assumption|].
    intros i u Hi Du. specialize (H i u Hi Du). unfold upd in H.
    destruct (sq_eqb u t); [discriminate|assumption].
Qed.

Lemma drop_mate_hands g h t c : valid g -> same_board g h -> c = g_side g -> g_board g t = None ->
  checkmated (play g (Drop t (mkP Pawn c))) -> checkmated (play h (Drop t (mkP Pawn c))).
Proof.
  intros V G Ec E [C H]. pose proof (play_board_hands g h (Drop t (mkP Pawn c)) G) as [B Sd].
  set (g1 := play g (Drop t (mkP Pawn c))) in *. set (h1 := play h (Drop t (mkP Pawn c))) in *.
  assert (S1 : g_side g1 = flip c) by (unfold g1; rewrite side_play, Ec; reflexivity).
  split; [rewrite <- Sd; apply (in_check_board (g_board g1)); assumption|].
  intros [f u pr|u x] P.
  - apply (in_check_board (g_board (play g1 (Normal f u pr)))).
    { apply play_board_hands. split; assumption. }
    rewrite <- Sd. apply H. apply (pseudo_normal_hands h1); [|assumption].
    split; [intros s; symmetry; apply B|symmetry; assumption].
  - rewrite <- Sd, S1. rewrite S1 in C.
    destruct (pawn_gives_check g t c V Ec E C) as [K [KK R]]. fold g1 in KK, R.
    apply (drop_reply_in_check h1 t c u x K).
    + rewrite <- Sd. assumption.
    + rewrite <- B. unfold g1. cbn [play g_board]. unfold upd.
      destruct (sq_eqb_spec t t); [reflexivity|contradiction].
    + rewrite <- B. assumption.
    + apply (reaches_same (g_board g1)); assumption.
    + apply P.
Qed.

Theorem legal_hands g h m : valid h -> same_board g h ->
  match m with Normal _ _ _ => True | Drop _ x => (0 < g_hand h (g_side h) (pkind x))%N end ->
  legal g m -> legal h m.
Proof.
  intros V G Hd [P [C D]]. pose proof (play_board_hands g h m G) as [B _].
  assert (G' : same_board h g).
  { destruct G as [B' S']. split; [intros s; symmetry; apply B'|symmetry; assumption]. }
  split; [|split].
  - destruct m as [f t pr|t x]; [apply (pseudo_normal_hands g); assumption|].
    destruct G as [B' S']. destruct P as [P1 [P2 [P3 [P4 P5]]]].
    rewrite S' in P1, P4. split; [assumption|]. split; [assumption|]. rewrite <- B'.
    split; [assumption|]. split; [assumption|]. intros Ek s. rewrite <- B', <- S'. apply P5. assumption.
  - intros C'. apply C. apply (in_check_board (g_board (play h m))); [intros s; symmetry; apply B|].
    rewrite (proj2 G). assumption.
  - intros [Pd M]. apply D. split; [assumption|]. destruct m as [f t pr|t [k c]]; [destruct Pd|].
    cbn in Pd. subst k. destruct P as [P1 [_ [P3 _]]]. cbn [pcolor] in P1.
    apply (drop_mate_hands h g); try assumption.
    + rewrite P1. apply G.
    + destruct G as [B' _]. rewrite <- B'. assumption.
Qed.

(** ** In the code *)

Definition with_hands (o : bbops) (p : inner o) (h : carr hand) : inner o :=
  mkI o (i_side o p) (i_ply o p) h (i_board o p) (i_player_bb o p) (i_piece_bb o p).

Definition holds (h : hand) (k : kind) : bool :=
  (0 <? match hand_count h k with Some n => n | None => 0 end)%N.

Lemma filter_ext_l {A} (f g : A -> bool) l : (forall x, In x l -> f x = g x) -> filter f l = filter g l.
Proof.
  induction l as [|a l IH]; intros H; [reflexivity|]. cbn [filter].
  rewrite (H a) by (left; reflexivity). rewrite IH by (intros x I; apply H; right; exact I). reflexivity.
Qed.

Lemma gen_drop_hands o p h ai t :
  (forall k, In k hand_kinds -> holds (i_hand o p (i_side o p)) k = holds (c_get h (i_side o p)) k) ->
  gen_drop o (with_hands o p h) ai t = gen_drop o p ai t.
Proof.
  intros H. unfold gen_drop. cbv zeta.
  change (i_side o (with_hands o p h)) with (i_side o p).
  change (i_hand o (with_hands o p h) (i_side o p)) with (c_get h (i_side o p)).
  rewrite (filter_ext_l (fun k => (0 <? match hand_count (c_get h (i_side o p)) k with
                            | Some n => n | None => 0 end)%N)
                        (fun k => (0 <? match hand_count (i_hand o p (i_side o p)) k with
                            | Some n => n | None => 0 end)%N)).
  - reflexivity.
  - intros k I. symmetry. apply (H k I).
Qed.

Lemma generate_all_hands o p h ai :
  (forall k, In k hand_kinds -> holds (i_hand o p (i_side o p)) k = holds (c_get h (i_side o p)) k) ->
  generate_all o (with_hands o p h) ai = generate_all o p ai.
Proof.
  intros H. unfold generate_all. cbv zeta.
  rewrite gen_drop_hands by assumption. reflexivity.
Qed.
Lemma generate_evasions_hands o p h ai :
  (forall k, In k hand_kinds -> holds (i_hand o p (i_side o p)) k = holds (c_get h (i_side o p)) k) ->
  generate_evasions o (with_hands o p h) ai = generate_evasions o p ai.
Proof.
  intros H. unfold generate_evasions. cbv zeta.
  change (king_position o (with_hands o p h)) with (king_position o p).
  change (checkers_attacks o (with_hands o p h)) with (checkers_attacks o p).
  change (i_side o (with_hands o p h)) with (i_side o p).
  destruct (king_position o p (i_side o p)) as [K|]; [|reflexivity]. cbn [bind].
  destruct (checkers_attacks o p K (biter o (ai_checkers o ai))) as [ca|]; [|reflexivity]. cbn [bind].
  destruct (Nat.ltb 1 (length (biter o (ai_checkers o ai)))); [reflexivity|].
  destruct (hd_error (biter o (ai_checkers o ai))) as [ch|]; [|reflexivity]. cbn [bind].
  rewrite gen_drop_hands by assumption. reflexivity.
Qed.

Definition pos_with_hands (o : bbops) (p : position o) (h : carr hand) : position o :=
  mkPos o (with_hands o (p_inner o p) h) (p_states o p).

Lemma legal_moves_hands o p h :
  (forall k, In k hand_kinds ->
     holds (i_hand o (p_inner o p) (i_side o (p_inner o p))) k = holds (c_get h (i_side o (p_inner o p))) k) ->
  legal_moves o (pos_with_hands o p h) = legal_moves o p.
Proof.
  intros H. unfold legal_moves. cbv zeta.
  change (p_inner o (pos_with_hands o p h)) with (with_hands o (p_inner o p) h).
  change (pos_state o (pos_with_hands o p h)) with (pos_state o p).
  destruct (pos_state o p) as [st|]; [|reflexivity]. cbn [bind].
  rewrite generate_all_hands, generate_evasions_hands by assumption.
  change (is_legal o (with_hands o (p_inner o p) h)) with (is_legal o (p_inner o p)).
  reflexivity.
Qed.

Lemma rep_with_hands o S p h : rep o S p -> rep o S (with_hands o p h).
Proof. intros [A B C D]. constructor; assumption. Qed.

Notation spec_of cf := (backend_spec (cf_backend cf) (cf_checks cf)).
Local Opaque attack_info_new calculate_checkers.

Lemma same_answers_hands cf1 cf2 ms1 ms2 p q :
  reachable cf1 ms1 p -> reachable cf2 ms2 q ->
  (forall s, Yasai.piece_at cf1 p s = Yasai.piece_at cf2 q s) ->
  Yasai.side_to_move cf1 p = Yasai.side_to_move cf2 q ->
  Yasai.in_check cf1 p = Yasai.in_check cf2 q /\
  (forall m, Yasai.is_check_move cf1 p m = Yasai.is_check_move cf2 q m) /\
  ((forall k, In k hand_kinds ->
      holds (Yasai.hand cf1 p (Yasai.side_to_move cf1 p)) k =
      holds (Yasai.hand cf2 q (Yasai.side_to_move cf2 q)) k) ->
   Yasai.legal_moves cf1 p = Yasai.legal_moves cf2 q).
Proof.
  intros R1 R2 B Sd. destruct (reachable_inv cf1 ms1 p R1) as [st1 [I1 _]].
  destruct (reachable_inv cf2 ms2 q R2) as [st2 [I2 _]].
  set (h := i_hands _ (p_inner _ p)).
  set (q' := pos_with_hands (ops cf2) q h).
  assert (J : simI _ _ (spec_of cf1) (spec_of cf2) (p_inner _ p) (p_inner _ q')).
  { apply simI_same.
    - exact (inv_rep _ _ _ _ I1).
    - apply rep_with_hands. exact (inv_rep _ _ _ _ I2).
    - split; [exact B|]. split; [intros c k; reflexivity|exact Sd]. }
  assert (P : simP _ _ (spec_of cf1) (spec_of cf2) (bare _ p st1) (bare _ q' st2)).
  { constructor.
    - apply simI_ply. exact J.
    - reflexivity.
    - constructor; [|constructor]. constructor; cbn [s_keys s_captured s_last_moved s_attack_info];
        [reflexivity..|].
      rewrite (inv_ai _ _ _ _ I1), (inv_ai _ _ _ _ I2).
      change (attack_info_new (ops cf2) (calculate_checkers (ops cf2) (p_inner (ops cf2) q)) (p_inner (ops cf2) q))
        with (attack_info_new (ops cf2) (calculate_checkers (ops cf2) (p_inner (ops cf2) q')) (p_inner (ops cf2) q')).
      apply sim_attack_info; [exact J|]. apply sim_checkers. exact J. }
  pose proof (inv_st _ _ _ _ I1) as E1. pose proof (inv_st _ _ _ _ I2) as E2.
  assert (E2' : pos_state _ q' = Some st2) by exact E2.
  unfold Yasai.legal_moves, Yasai.in_check, Yasai.is_check_move.
  split; [|split].
  - transitivity (pos_in_check (ops cf2) q'); [|reflexivity].
    rewrite <- (bare_in_check _ p st1 E1), <- (bare_in_check _ q' st2 E2').
    apply (sim_in_check _ _ _ _ _ _ P).
  - intros m. transitivity (is_check_move (ops cf2) q' m); [|reflexivity].
    rewrite <- (bare_is_check_move _ p st1 E1), <- (bare_is_check_move _ q' st2 E2').
    apply (sim_is_check_move _ _ _ _ _ _ P).
  - intros H. transitivity (legal_moves (ops cf2) q').
    + rewrite <- (bare_legal_moves _ p st1 E1), <- (bare_legal_moves _ q' st2 E2').
      apply (sim_legal_moves _ _ _ _ _ _ P).
      * apply rep_set_ply. exact (inv_rep _ _ _ _ I1).
      * exact (inv_valid _ _ _ _ I1).
    + apply legal_moves_hands. intros k I. specialize (H k I). symmetry.
      etransitivity; [|exact H].
      change (i_side (ops cf2) (p_inner (ops cf2) q)) with (Yasai.side_to_move cf2 q).
      rewrite <- Sd. reflexivity.
Qed.

Definition bbs_of (o : bbops) (pp : partial) : carr (bb o) * karr (bb o) :=
  fold_left (add_square o pp) all_squares (C2 (bempty o) (bempty o), k_const (bempty o)).
Lemma inner_bbs o pp : inner_of_partial o pp =
  mkI o (pp_side pp) (pp_ply pp) (pp_hands pp) (pp_board pp) (fst (bbs_of o pp)) (snd (bbs_of o pp)).
Proof. unfold inner_of_partial, bbs_of. cbv zeta. reflexivity. Qed.
Lemma add_square_hands o pp h acc s :
  add_square o (mkPartial (pp_side pp) (pp_ply pp) h (pp_board pp)) acc s = add_square o pp acc s.
Proof. reflexivity. Qed.
Lemma bbs_hands o pp h :
  bbs_of o (mkPartial (pp_side pp) (pp_ply pp) h (pp_board pp)) = bbs_of o pp.
Proof.
  unfold bbs_of. generalize (C2 (bempty o) (bempty o), k_const (bempty o)).
  generalize all_squares. intros l. induction l as [|s l IH]; intros a; [reflexivity|].
  cbn [fold_left]. rewrite add_square_hands. apply IH.
Qed.
Lemma mkI_with_hands o sd n h h' bd (a a' : carr (bb o)) (b b' : karr (bb o)) i :
  i = mkI o sd n h bd a b -> a' = a -> b' = b -> mkI o sd n h' bd a' b' = with_hands o i h'.
Proof. intros -> -> ->. reflexivity. Qed.
Lemma inner_with_hands o pp h :
  inner_of_partial o (mkPartial (pp_side pp) (pp_ply pp) h (pp_board pp)) =
  with_hands o (inner_of_partial o pp) h.
Proof.
  etransitivity; [apply inner_bbs|].
  apply (mkI_with_hands o (pp_side pp) (pp_ply pp) (pp_hands pp) h (pp_board pp)
    (fst (bbs_of o pp)) _ (snd (bbs_of o pp)) _).
  - apply inner_bbs.
  - exact (f_equal fst (bbs_hands o pp h)).
  - exact (f_equal snd (bbs_hands o pp h)).
Qed.

(* any position that [new] accepts *)
Lemma new_hands cf pp h p q :
  Yasai.new cf pp = Some p ->
  Yasai.new cf (mkPartial (pp_side pp) (pp_ply pp) h (pp_board pp)) = Some q ->
  Yasai.in_check cf p = Yasai.in_check cf q /\
  (forall m, Yasai.is_check_move cf p m = Yasai.is_check_move cf q m) /\
  ((forall k, In k hand_kinds ->
      holds (Yasai.hand cf p (Yasai.side_to_move cf p)) k =
      holds (Yasai.hand cf q (Yasai.side_to_move cf q)) k) ->
   Yasai.legal_moves cf p = Yasai.legal_moves cf q).
Proof.
  unfold Yasai.new, pos_new. rewrite inner_with_hands.
  generalize (inner_of_partial (ops cf) pp). intros i.
  destruct (hand_keys (ops cf) (zt cf) i) as [hk|]; [|discriminate]. cbn [bind]. intros [= <-].
  destruct (hand_keys (ops cf) (zt cf) (with_hands (ops cf) i h)) as [hk'|]; [|discriminate].
  cbn [bind]. intros [= <-].
  split; [reflexivity|]. split; [reflexivity|]. intros H.
  unfold Yasai.legal_moves.
  transitivity (legal_moves (ops cf) (pos_with_hands (ops cf) (mkPos (ops cf) i
    [mkS (ops cf) (board_keys (ops cf) (zt cf) i, hk) None None
      (attack_info_new (ops cf) (calculate_checkers (ops cf) i) i)]) h)); [|reflexivity].
  symmetry. apply legal_moves_hands. exact H.
Qed.
