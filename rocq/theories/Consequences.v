(** * What the rules imply for lists of legal moves *)

From Coq Require Import List Bool NArith ZArith Lia Permutation.
From Verif Require Import Types Rules Bitboard Tables Zobrist Position Movegen Api
  Squares Geometry KingSafety Legality ValidPlay Reach Lines Decide Symmetry.
Import ListNotations.
Open Scope Z_scope.

Lemma attacks_att b c s t : attacks b c s t <-> att b c s t.
Proof.
  unfold attacks, att. split; intros [k [B R]]; exists k; (split; [assumption|]);
    apply reachb_spec; assumption.
Qed.

Lemma between_spec s u t : betweenb s u t = true <-> between s u t.
Proof.
  rewrite betweenb_spec. unfold between. split.
  - intros [d [E [i [Hi D]]]]. destruct (dirof_displaced _ _ _ E) as [Hd [_ Dt]].
    exists d, (dist s t), i. tauto.
  - intros [v [n [i [Hv [Hi [Dt Du]]]]]]. destruct (displaced_dirof s v n t Hv ltac:(lia) Dt) as [E <-].
    exists v. split; [assumption|]. exists i. tauto.
Qed.

(** ** Answers to an attack *)

(* an attack persists unless its piece is taken or its line is blocked *)
Lemma attack_persists b b' c s t K : att b c s K -> b' s = b s ->
  (forall u, u <> t -> b u = None -> b' u = None) ->
  betweenb s t K = false -> att b' c s K.
Proof.
  intros A E H N. apply att_alt in A as [k [B [G C]]]. apply att_alt. exists k.
  split; [congruence|]. split; [assumption|]. intros u Hu. apply H; [|auto].
  intros ->. congruence.
Qed.

(* moves a piece other than a king *)
Definition moves_king (b : board) (m : move) : Prop :=
  match m with Normal f _ _ => exists c, b f = Some (mkP King c) | Drop _ _ => False end.

Section Answer.
Context (g : game) (V : valid g) (HO : hand_ok g).
Notation b := (g_board g).
Notation c := (g_side g).

Lemma king_stays m K : pseudo_legal g m -> b K = Some (mkP King c) -> ~ moves_king b m ->
  g_board (play g m) K = Some (mkP King c).
Proof.
  intros P BK NK. destruct m as [f t pr|t x].
  - destruct P as [k [Bf [Ct _]]]. rewrite (play_normal_board g f t pr k _ Bf).
    rewrite after_other; [assumption| |].
    + intros ->. exact (Ct _ BK).
    + apply sq_eqb_neq. intros ->. apply NK. exists c. assumption.
  - rewrite play_drop_board, after_other; [assumption| |reflexivity].
    destruct P as [_ [_ [E _]]]. congruence.
Qed.

(* [b0]: the board, or the board with the moving piece taken off *)
Lemma answer m K s b0 : pseudo_legal g m -> ~ in_check (g_board (play g m)) c ->
  b K = Some (mkP King c) -> ~ moves_king b m ->
  (forall u, b0 u = b u \/ (b0 u = None /\ move_from m = Some u)) ->
  att b0 (flip c) s K -> move_to m = s \/ betweenb s (move_to m) K = true.
Proof.
  intros P NC BK NK H0 A.
  destruct (sq_eqb_spec (move_to m) s) as [E|N]; [tauto|].
  destruct (betweenb s (move_to m) K) eqn:E; [tauto|]. exfalso. apply NC.
  exists K. split; [apply king_stays; assumption|]. apply attacked_att. exists s.
  destruct A as [k [Bs Rs]].
  assert (Bs' : b s = Some (mkP k (flip c))) by (destruct (H0 s) as [H|[H _]]; congruence).
  assert (Other : forall u, u <> move_to m -> move_from m <> Some u -> g_board (play g m) u = b u).
  { intros u N1 N2. destruct m as [f t pr|t x].
    - destruct P as [k' [Bf _]]. rewrite (play_normal_board g f t pr k' _ Bf).
      apply after_other; [assumption|]. apply sq_eqb_neq. cbn in N2. congruence.
    - rewrite play_drop_board. apply after_other; [assumption|reflexivity]. }
  assert (From : forall u, u <> move_to m -> move_from m = Some u -> g_board (play g m) u = None).
  { intros u N1 N2. destruct m as [f t pr|t x]; [|discriminate]. injection N2 as ->.
    destruct P as [k' [Bf _]]. rewrite (play_normal_board g u t pr k' _ Bf).
    apply after_none. split; [assumption|]. left. apply sq_eqb_refl. }
  apply (attack_persists b0 _ _ s (move_to m) K).
  - exists k. tauto.
  - rewrite Other; [congruence|congruence|]. intros F. destruct m as [f t pr|t x]; [|discriminate].
    injection F as ->. destruct P as [k' [Bf _]]. rewrite Bf in Bs'. injection Bs' as _ C.
    destruct c; discriminate.
  - intros u Nu Eu. destruct (H0 u) as [H|[H F]].
    + destruct m as [f t pr|t x].
      * destruct (sq_eqb_spec u f) as [E'|Nf]; [subst u; apply From; [assumption|reflexivity]|].
        rewrite Other; [congruence|assumption|cbn; congruence].
      * rewrite Other; [congruence|assumption|discriminate].
    + apply From; assumption.
  - assumption.
Qed.

Lemma evasion m K s : legal g m -> b K = Some (mkP King c) -> ~ moves_king b m ->
  attacks b (flip c) s K -> move_to m = s \/ between s (move_to m) K.
Proof.
  intros [P [NC _]] BK NK A. apply attacks_att in A. rewrite <- between_spec.
  apply (answer m K s b); auto.
Qed.

Lemma double_check m K s1 s2 : legal g m -> b K = Some (mkP King c) ->
  attacks b (flip c) s1 K -> attacks b (flip c) s2 K -> s1 <> s2 -> moves_king b m.
Proof.
  intros L BK A1 A2 N. destruct m as [f t pr|t x].
  - pose proof L as [P [NC _]]. pose proof P as [k [Bf _]].
    destruct (kind_eqb_spec k King) as [E|Nk]; [subst k; exists c; assumption|exfalso].
    assert (NK : ~ moves_king b (Normal f t pr)) by (intros [d E]; congruence).
    apply N. apply attacks_att in A1. apply attacks_att in A2.
    apply (one_evasion_square b (flip c) K s1 s2 t A1 A2);
      eapply (answer (Normal f t pr)); eauto.
  - exfalso. apply N. pose proof L as [P [NC _]]. apply attacks_att in A1. apply attacks_att in A2.
    apply (one_evasion_square b (flip c) K s1 s2 t A1 A2);
      (eapply (answer (Drop t x)); eauto).
Qed.

(* the piece on [f] is all that keeps [s] from attacking the king on [K] *)
Lemma pinned_move f t pr K s : legal g (Normal f t pr) -> b K = Some (mkP King c) ->
  f <> K -> between K f s -> attacks (upd b f None) (flip c) s K ->
  t = s \/ between K t s.
Proof.
  intros [P [NC _]] BK N B A. apply attacks_att in A. rewrite <- between_spec, between_sym.
  apply (answer (Normal f t pr) K s (upd b f None)); try assumption.
  - intros [d E]. pose proof P as [k [Bf _]]. rewrite Bf in E. injection E as -> Ed.
    apply N. apply (v_king g V c); assumption.
  - intros u. unfold upd. destruct (sq_eqb_spec u f) as [E|]; [subst u|]; [|tauto].
    right. split; reflexivity.
Qed.
End Answer.

(** ** Promotion does not matter for the safety of the own king *)

Lemma king_safe_promotion g f t : forall p1 p2,
  pseudo_legal g (Normal f t p1) -> pseudo_legal g (Normal f t p2) ->
  in_check (g_board (play g (Normal f t p1))) (g_side g) ->
  in_check (g_board (play g (Normal f t p2))) (g_side g).
Proof.
  intros p1 p2 [k [Bf _]] _. rewrite !(play_normal_board g f t _ k _ Bf).
  set (c := g_side g) in *. set (b1 := after _ _ _ (mkP (if p1 then _ else _) _)).
  set (b2 := after _ _ _ (mkP (if p2 then _ else _) _)).
  assert (E : forall u, u <> t -> b1 u = b2 u).
  { intros u N. unfold b1, b2, after. rewrite (sq_eqb_neq u t N). reflexivity. }
  assert (Et : forall k' d, b1 t = Some (mkP k' d) -> d = c).
  { intros k' d H. unfold b1 in H. rewrite after_t in H. congruence. }
  intros [K [BK A]]. exists K. split.
  - destruct (sq_eqb_spec K t) as [->|N]; [|rewrite <- E; assumption].
    unfold b1 in BK. rewrite after_t in BK. unfold b2. rewrite after_t. injection BK as BK.
    f_equal. f_equal. destruct p1, p2; try assumption; [|rewrite BK; reflexivity].
    apply promoted_king. assumption.
  - apply attacked_att in A as [s A]. apply attacked_att. exists s.
    apply att_alt in A as [k' [Bs [G C]]]. apply att_alt. exists k'.
    assert (Ns : s <> t). { intros ->. apply Et in Bs. destruct c; discriminate. }
    split; [rewrite <- E; assumption|]. split; [assumption|]. intros u Hu. specialize (C u Hu).
    rewrite <- E; [assumption|]. intros ->. unfold b1 in C. rewrite after_t in C. discriminate.
Qed.

Lemma promotion_choice g f t pr k : legal g (Normal f t pr) ->
  g_board g f = Some (mkP k (g_side g)) ->
  (legal g (Normal f t true) <->
     promote_kind k <> None /\ (promotion_zone (g_side g) f \/ promotion_zone (g_side g) t)) /\
  (legal g (Normal f t false) <-> ~ dead_square (g_side g) k t).
Proof.
  intros [P [NC _]] Bf.
  assert (A : forall p2, (pseudo_legal g (Normal f t p2) <-> legal g (Normal f t p2))).
  { intros p2. split; [|intros L; apply L]. intros P2. split; [assumption|].
    split; [|intros [[] _]]. intros C. apply NC. revert C. apply king_safe_promotion; assumption. }
  pose proof P as [k' [Bf' [Ct [R _]]]]. rewrite Bf in Bf'. injection Bf' as <-.
  rewrite <- !A. cbn [pseudo_legal]. split.
  - split.
    + intros [k2 [B2 [_ [_ H]]]]. rewrite Bf in B2. injection B2 as <-. assumption.
    + intros H. exists k. tauto.
  - split.
    + intros [k2 [B2 [_ [_ H]]]]. rewrite Bf in B2. injection B2 as <-. assumption.
    + intros H. exists k. tauto.
Qed.

(** ** No legal moves *)

Lemma checkmated_no_legal g m : checkmated g -> ~ legal g m.
Proof. intros [_ H] [P [NC _]]. exact (NC (H m P)). Qed.

Lemma no_legal_checkmated g : in_check (g_board g) (g_side g) -> (forall m, ~ legal g m) ->
  checkmated g \/
  exists m, is_pawn_drop m /\ pseudo_legal g m /\ ~ in_check (g_board (play g m)) (g_side g) /\
    checkmated (play g m).
Proof.
  intros C N.
  destruct (existsb (fun m => pseudo_legalb g m && negb (in_checkb (g_board (play g m)) (g_side g)))
    every_move) eqn:E.
  - right. apply existsb_exists in E as [m [_ E]]. apply andb_true_iff in E as [E1 E2].
    apply pseudo_legalb_spec in E1. exists m. apply negb_true_iff in E2.
    assert (E3 : ~ in_check (g_board (play g m)) (g_side g)).
    { intros H. apply in_checkb_spec in H. congruence. }
    assert (D : (is_pawn_drop m /\ checkmated (play g m)) \/
                ~ (is_pawn_drop m /\ checkmated (play g m))).
    { destruct (pawn_dropb m && checkmatedb (play g m)) eqn:Ed.
      - left. apply andb_true_iff in Ed as [D1 D2]. apply pawn_dropb_spec in D1.
        apply checkmatedb_spec in D2. tauto.
      - right. intros [D1 D2]. apply pawn_dropb_spec in D1. apply checkmatedb_spec in D2.
        rewrite D1, D2 in Ed. discriminate. }
    destruct D as [D|D]; [tauto|]. exfalso. apply (N m). split; [assumption|]. tauto.
  - left. split; [assumption|]. intros m P.
    destruct (in_checkb (g_board (play g m)) (g_side g)) eqn:Ec; [apply in_checkb_spec; assumption|].
    exfalso. assert (H : existsb (fun m => pseudo_legalb g m &&
       negb (in_checkb (g_board (play g m)) (g_side g))) every_move = true); [|congruence].
    apply existsb_exists. exists m. split; [apply every_move_in|].
    apply pseudo_legalb_spec in P. rewrite P, Ec. reflexivity.
Qed.

(** ** Symmetric positions *)

Lemma symmetric_moves (y : symmetry) cf1 cf2 ms1 ms2 p q l1 l2 :
  reachable cf1 ms1 p -> reachable cf2 ms2 q ->
  same_game (view cf2 q) (sy_game y (view cf1 p)) ->
  Yasai.legal_moves cf1 p = Some l1 -> Yasai.legal_moves cf2 q = Some l2 ->
  Permutation (map (sy_move y) l1) l2.
Proof.
  intros R1 R2 G E1 E2.
  destruct (api_legal_moves cf1 ms1 p l1 R1 E1) as [N1 H1].
  destruct (api_legal_moves cf2 ms2 q l2 R2 E2) as [N2 H2].
  apply NoDup_Permutation; [|assumption|].
  - clear H1 E1. induction N1 as [|m l Nm N IH]; cbn; constructor; [|assumption].
    rewrite in_map_iff. intros [m' [E I]]. apply (f_equal (sy_move y)) in E.
    rewrite !sy_move_inv in E. congruence.
  - intros m. rewrite in_map_iff, H2. split.
    + intros [m' [<- I]]. apply H1 in I.
      apply (legal_same (sy_game y (view cf1 p))); [apply same_sym; assumption|].
      apply sy_legal. assumption.
    + intros L. exists (sy_move y m). split; [apply sy_move_inv|]. apply H1.
      apply (sy_legal_iff y). rewrite sy_move_inv. apply (legal_same (view cf2 q)); assumption.
Qed.
