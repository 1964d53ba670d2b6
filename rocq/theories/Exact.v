(** * The candidate moves that pass is_legal are the legal moves *)

From Coq Require Import List Bool NArith ZArith Lia FinFun Permutation.
From Verif Require Import Types Rules Bitboard Tables Zobrist Position Movegen Api
  Words Squares Geometry BBSpec Attacks KingSafety Rep Legality PawnDrop Gen Drops.
Import ListNotations.

Local Opaque fu_attack ky_attack ke_attack gi_attack ki_attack ou_attack ka_attack
  hi_attack pseudo_attack BETWEEN_TABLE FILES.

Section Exact.
Context (o : bbops) (S : bbspec o).
Notation BB := (bb o).
Notation has := (bcontains o).
Context (p : inner o) (R : rep o S p) (ai : attack_info o).
Notation B := (i_piece_at o p).
Notation c := (i_side o p).
Notation g := (gview o p).
Context (V : orderly g).
Context (Ai : ai = attack_info_new o (calculate_checkers o p) p).

Lemma ex_kings : kings_ok B.
Proof. exact (o_king g V). Qed.
Lemma ex_safe : (0 < hand_n (i_hand o p c) Pawn)%N -> ~ in_check B (flip c).
Proof. intros H. exact (proj1 (o_drop g V H)). Qed.
Lemma ex_pawn s : B s = Some (mkP Pawn c) -> ~ dead_square c Pawn s.
Proof. apply (o_pawn g V). Qed.
Lemma ex_nifu : (0 < hand_n (i_hand o p c) Pawn)%N -> forall s t, B s = Some (mkP Pawn c) -> B t = Some (mkP Pawn c) ->
  fileZ s = fileZ t -> rankZ s = 9%Z -> s = t.
Proof. intros H. exact (proj2 (o_drop g V H)). Qed.
Lemma ex_pin d : ai_pinned_of o ai d = pinned_for o p d.
Proof. rewrite Ai. destruct d; reflexivity. Qed.

(** ** Checkers *)

Lemma king_no_attack K s : B K = Some (mkP King c) -> B s = Some (mkP King (flip c)) ->
  reachb (occb B) (flip c) King s K = true -> False.
Proof.
  intros BK Bs H. apply (o_apart g V K s BK Bs). apply reachb_spec.
  rewrite reach_step_king in *. apply king_step_adjacent in H. apply king_step_adjacent.
  destruct H as [N L]. split; [congruence|]. unfold dist in *. lia.
Qed.

Lemma checkers_att s : has (calculate_checkers o p) s = true <->
  exists K, B K = Some (mkP King c) /\ att B (flip c) s K.
Proof.
  rewrite (checkers_spec o S p R). split.
  - destruct (king_position o p c) as [K|] eqn:EK; [|discriminate].
    destruct (B s) as [[k c']|] eqn:Bs; [|discriminate]. intros H.
    apply andb_true_iff in H as [H1 H2]. apply andb_true_iff in H1 as [H1 H3].
    exists K. split; [apply (king_position_some o S p R); assumption|].
    exists k. destruct (color_eqb_spec c' (flip c)) as [->|]; [tauto|discriminate].
  - intros [K [BK [k [Bs H]]]].
    rewrite (proj2 (king_position_iff o S p R c K ex_kings) BK), Bs, color_eqb_refl, H.
    destruct k; try reflexivity. exfalso. apply (king_no_attack K s); assumption.
Qed.

Lemma ai_checkers_eq : ai_checkers o ai = calculate_checkers o p.
Proof. rewrite Ai. reflexivity. Qed.

(** ** Moves of the rules *)

Lemma not_own_spec t :
  has (bnot o (player_bb o p c)) t = true <-> forall k, B t <> Some (mkP k c).
Proof.
  rewrite (sp_not o S), (rep_player o S p R), negb_true_iff. split.
  - intros H k E. assert (C : colorb c (B t) = true) by (apply colorb_true; eauto). congruence.
  - intros H. destruct (colorb c (B t)) eqn:E; [|reflexivity].
    apply colorb_true in E as [k E]. exfalso. exact (H k E).
Qed.

Lemma pseudo_normal f t pr : pseudo_legal g (Normal f t pr) <->
  exists k, B f = Some (mkP k c) /\ (forall k', B t <> Some (mkP k' c)) /\
    reachb (occb B) c k f t = true /\ promo_ok c k f t pr.
Proof.
  cbn [pseudo_legal gview g_board g_side]. unfold promo_ok.
  split; intros [k [H1 [H2 [H3 H4]]]]; exists k; repeat (split; [assumption|]);
    (split; [|assumption]); apply reachb_spec; assumption.
Qed.

Lemma pseudo_drop t k : pseudo_legal g (Drop t (mkP k c)) <->
  (0 < hand_n (i_hand o p c) k)%N /\ B t = None /\ ~ dead_square c k t /\
  (k = Pawn -> no_pawn o p t).
Proof. cbn [pseudo_legal gview g_board g_side g_hand pcolor pkind]. unfold no_pawn. tauto. Qed.

Lemma pseudo_drop_color t x : pseudo_legal g (Drop t x) -> x = mkP (pkind x) c.
Proof. destruct x as [k d]. cbn [pseudo_legal pcolor pkind]. intros [H _]. cbn in H. congruence. Qed.

(* the own king is safe after a board move *)
Lemma safe_normal f t pr k : B f = Some (mkP k c) -> pseudo_legal g (Normal f t pr) ->
  k <> King ->
  (~ in_check (g_board (play g (Normal f t pr))) c <->
   forall K, B K = Some (mkP King c) ->
     answers g K t /\ (pinned B c K f -> stays K f t = true)).
Proof.
  intros Bf P Nk. pose proof P as P'. apply pseudo_normal in P' as [k' [Bf' [Ct [Rf Pr]]]].
  assert (k' = k) by congruence. subst k'.
  destruct (king_position o p c) as [K|] eqn:EK.
  - pose proof (king_position_some o S p R _ _ EK) as BK.
    pose proof (safe_nonking_iff g ex_kings K f t pr k BK Bf Nk Ct Rf) as I.
    cbn [gview g_side g_board] in I. rewrite I.
    split; [|auto]. intros H K' BK'. rewrite (ex_kings c _ _ BK' BK). assumption.
  - pose proof (king_position_none o S p R _ EK) as N. split.
    + intros _ K BK. exfalso. exact (N K BK).
    + intros _. apply (no_king_safe g); [assumption|exact N|discriminate].
Qed.

Lemma safe_dropped t x : pseudo_legal g (Drop t x) ->
  (~ in_check (g_board (play g (Drop t x))) c <->
   forall K s, B K = Some (mkP King c) -> att B (flip c) s K -> betweenb s t K = true).
Proof.
  intros P.
  assert (Q : pkind x <> King).
  { destruct x as [k d]. cbn [pseudo_legal] in P. destruct P as [_ [P _]].
    cbn in P. intros E. cbn in E. subst k. cbn in P. lia. }
  assert (Q2 : B t = None /\ pcolor x = c). { cbn [pseudo_legal] in P. cbn in P. tauto. }
  destruct (king_position o p c) as [K|] eqn:EK.
  - pose proof (king_position_some o S p R _ _ EK) as BK.
    pose proof (safe_drop_iff g ex_kings K t x BK (proj1 Q2) (proj2 Q2) Q) as I.
    cbn [gview g_side g_board] in I. rewrite I.
    split; [|auto]. intros H K' s BK'. rewrite (ex_kings c _ _ BK' BK). apply H.
  - pose proof (king_position_none o S p R _ EK) as N. split.
    + intros _ K s BK. exfalso. exact (N K BK).
    + intros _. apply (no_king_safe g); [assumption|exact N|]. intros t' x' [= <- <-]. exact Q.
Qed.

Lemma legal_normal f t pr : legal g (Normal f t pr) <->
  pseudo_legal g (Normal f t pr) /\ ~ in_check (g_board (play g (Normal f t pr))) c.
Proof. unfold legal. cbn [is_pawn_drop gview g_side]. tauto. Qed.

Lemma legal_drop t k : legal g (Drop t (mkP k c)) <->
  pseudo_legal g (Drop t (mkP k c)) /\
  ~ in_check (g_board (play g (Drop t (mkP k c)))) c /\
  (k = Pawn -> ~ checkmated (play g (Drop t (mkP k c)))).
Proof. unfold legal. cbn [is_pawn_drop pkind]. cbn [gview g_side]. tauto. Qed.

Lemma legal_nonking_iff f t pr k : B f = Some (mkP k c) -> k <> King ->
  pseudo_legal g (Normal f t pr) ->
  (legal g (Normal f t pr) <->
   (forall K, B K = Some (mkP King c) -> answers g K t) /\
   is_legal o p ai (Normal f t pr) = true).
Proof.
  intros Bf Nk P. rewrite legal_normal, (safe_normal f t pr k Bf P Nk).
  rewrite (is_legal_normal o S p R ai ex_kings f t pr k (ex_pin c) Bf).
  split.
  - intros [_ H]. split; [intros K BK; apply H; assumption|]. split; [congruence|].
    intros K BK. apply H. assumption.
  - intros [H1 [_ H2]]. split; [assumption|]. intros K BK. split; [auto|]. apply H2. assumption.
Qed.

Lemma legal_king_iff K t pr : B K = Some (mkP King c) ->
  pseudo_legal g (Normal K t pr) ->
  (legal g (Normal K t pr) <->
   (forall s k, B s = Some (mkP k (flip c)) -> reachb (occb B) (flip c) k s K = true ->
      takes (occb B) (flip c) k s K t = false) /\
   is_legal o p ai (Normal K t pr) = true).
Proof.
  intros BK P. rewrite legal_normal.
  pose proof P as P'. apply pseudo_normal in P' as [k' [Bf' [Ct [Rf Pr]]]].
  assert (k' = King) by congruence. subst k'.
  pose proof (safe_king_iff g ex_kings K t pr BK Ct Rf) as I.
  cbn [gview g_side g_board] in I. rewrite I. clear I.
  rewrite (is_legal_normal o S p R ai ex_kings K t pr King (ex_pin c) BK).
  split.
  - intros [_ [H1 H2]]. split; [assumption|]. split; [auto|].
    intros K' BK' [s [_ [F _]]]. rewrite (ex_kings c _ _ BK' BK) in F.
    apply between_neq in F. tauto.
  - intros [H1 [H2 _]]. split; [assumption|]. split; [|assumption]. apply H2. reflexivity.
Qed.

Lemma legal_drop_iff t k : pseudo_legal g (Drop t (mkP k c)) ->
  (legal g (Drop t (mkP k c)) <->
   (forall K s, B K = Some (mkP King c) -> att B (flip c) s K -> betweenb s t K = true) /\
   (k = Pawn -> ~ checkmated (play g (Drop t (mkP k c))))).
Proof.
  intros P. rewrite legal_drop, (safe_dropped t _ P). tauto.
Qed.

(** ** generate_all *)

Notation all_target := (bnot o (player_bb o p c)).
Notation empty_target := (band o (bnot o (occupied o p)) (bnot o (bempty o))).

Lemma wf_all_target : wf S all_target.
Proof. apply (sp_wf_not o S). Qed.
Lemma wf_empty_target : wf S empty_target.
Proof. apply (sp_wf_and o S); apply (sp_wf_not o S). Qed.

Lemma empty_target_spec t : has empty_target t = true <-> B t = None.
Proof.
  rewrite (sp_and o S), !(sp_not o S), (sp_empty o S), (occupied_spec o S p R).
  cbn [negb]. rewrite andb_true_r, negb_true_iff. apply occb_false.
Qed.

Lemma bmove_pseudo k m : bmove o p all_target k m <->
  exists f t pr, m = Normal f t pr /\ B f = Some (mkP k c) /\ pseudo_legal g m.
Proof.
  unfold bmove. split.
  - intros [f [t [pr [-> [Bf [Rf [Ht Pr]]]]]]]. exists f, t, pr.
    repeat (split; [easy|]). apply pseudo_normal. exists k. pose proof (proj1 (not_own_spec t) Ht). tauto.
  - intros [f [t [pr [-> [Bf P]]]]]. exists f, t, pr. split; [reflexivity|].
    apply pseudo_normal in P as [k' [Bf' [Ct [Rf Pr]]]].
    assert (k' = k) by congruence. subst k'. rewrite not_own_spec. tauto.
Qed.

Lemma dmove_pseudo tg m : (forall t, has tg t = true -> B t = None) ->
  (dmove o p tg m <->
   exists t k, m = Drop t (mkP k c) /\ has tg t = true /\ pseudo_legal g m /\
     (k = Pawn -> ~ checkmated (play g m))).
Proof.
  intros Emp. unfold dmove, dkind. split.
  - intros [k [Hh [t [-> [Ht [Hd Hp]]]]]]. exists t, k. repeat (split; [easy|]).
    split; [|intros E; apply Hp; assumption]. apply pseudo_drop.
    repeat (split; [auto; fail|]). intros E. apply Hp. assumption.
  - intros [t [k [-> [Ht [P Hm]]]]]. exists k. apply pseudo_drop in P.
    destruct P as [P1 [P2 [P3 P4]]]. split; [assumption|]. exists t.
    repeat (split; [easy|]). intros E. auto.
Qed.

Lemma generate_all_spec :
  exists l, generate_all o p ai = Some l /\ NoDup l /\
    forall m, In m l <-> pseudo_legal g m /\ ~ (is_pawn_drop m /\ checkmated (play g m)).
Proof.
  unfold generate_all. cbv zeta.
  destruct (gen_drop_spec o S p R ai ex_kings (ex_pin (flip c)) ex_safe ex_nifu
    empty_target wf_empty_target (fun t => proj1 (empty_target_spec t)))
    as [ds [-> [ND ED]]]. cbn [bind]. eexists. split; [reflexivity|].
  set (tg := all_target).
  match goal with |- NoDup (?bm ++ ds) /\ _ =>
    assert (Pm : Permutation bm (gen_ou o p tg ++ gen_nonking o p tg)) end.
  { unfold gen_nonking.
    repeat match goal with
    | |- Permutation (gen_ou _ _ _ ++ _) _ => reflexivity
    | |- Permutation (?a ++ _) _ =>
        eapply Permutation_trans; [apply Permutation_app_head|apply Permutation_app_swap_app]
    end. }
  pose proof wf_all_target as W.
  assert (EB : forall m, In m (gen_ou o p tg ++ gen_nonking o p tg) <->
     exists f t pr, m = Normal f t pr /\ pseudo_legal g m).
  { intros m. rewrite in_app_iff, (gen_ou_in o S p R) by exact W.
    rewrite (gen_nonking_in o S p R ex_pawn) by exact W. split.
    - intros [H|[k [_ H]]]; apply bmove_pseudo in H as [f [t [pr H]]]; exists f, t, pr; tauto.
    - intros [f [t [pr [E P]]]]. pose proof P as P'. rewrite E in P'.
      apply pseudo_normal in P' as [k [Bf _]].
      assert (Q : bmove o p tg k m). { apply bmove_pseudo. exists f, t, pr. tauto. }
      destruct (kind_eqb_spec k King) as [->|Nk]; [left; assumption|right; eauto]. }
  assert (NB : NoDup (gen_ou o p tg ++ gen_nonking o p tg)).
  { apply NoDup_app.
    - apply (gen_ou_NoDup o S p R). exact W.
    - apply (gen_nonking_NoDup o S p R ex_pawn). exact W.
    - intros m H1 H2. apply (gen_ou_in o S p R) in H1; [|exact W].
      apply (gen_nonking_in o S p R ex_pawn) in H2 as [k [Nk H2]]; [|exact W].
      apply Nk. symmetry. eapply bmove_kind; eassumption. }
  split.
  - apply NoDup_app.
    + eapply Permutation_NoDup; [symmetry; exact Pm|exact NB].
    + assumption.
    + intros m H1 H2. eapply Permutation_in in H1; [|exact Pm]. apply EB in H1 as [f [t [pr [-> _]]]].
      apply ED in H2 as [k [_ [t' [E _]]]]. discriminate.
  - intros m. rewrite in_app_iff, ED.
    rewrite (dmove_pseudo _ _ (fun t => proj1 (empty_target_spec t))).
    assert (E2 : forall l, In m l <-> In m l) by tauto.
    match goal with |- In m ?l \/ _ <-> _ =>
      assert (E3 : In m l <-> exists f t pr, m = Normal f t pr /\ pseudo_legal g m) end.
    { rewrite <- EB. split; apply Permutation_in; [exact Pm|symmetry; exact Pm]. }
    rewrite E3. clear E2 E3. split.
    + intros [[f [t [pr [-> P]]]]|[t [k [-> [Ht [P Hm]]]]]].
      * split; [assumption|]. cbn [is_pawn_drop]. tauto.
      * split; [assumption|]. cbn [is_pawn_drop pkind]. tauto.
    + intros [P Hm]. destruct m as [f t pr|t x].
      * left. exists f, t, pr. tauto.
      * right. pose proof (pseudo_drop_color t x P) as Ex. exists t, (pkind x).
        rewrite <- Ex. split; [reflexivity|]. split.
        -- apply empty_target_spec. cbn [pseudo_legal] in P. cbn in P. tauto.
        -- split; [assumption|]. intros E Q. apply Hm. split; [exact E|exact Q].
Qed.

(** ** generate_evasions *)

Lemma checkers_attacks_fold K l : B K = Some (mkP King c) ->
  (forall s, In s l -> att B (flip c) s K) ->
  forall acc, wf S acc -> exists ca,
    fold_left (fun acc ch =>
      let* acc := acc in
      let* a := checker_attack o p K ch in
      Some (bor o acc a)) l (Some acc) = Some ca /\ wf S ca /\
    forall t, has ca t = true <-> has acc t = true \/
      exists s k, In s l /\ B s = Some (mkP k (flip c)) /\
        takes (occb B) (flip c) k s K t = true.
Proof.
  intros BK. induction l as [|s l IH]; intros A acc Wa; cbn [fold_left].
  - exists acc. split; [reflexivity|]. split; [assumption|]. intros t. split; [tauto|].
    intros [H|[s [k [[] _]]]]. assumption.
  - cbn [bind]. destruct (A s (or_introl eq_refl)) as [k [Bs Rs]].
    unfold checker_attack at 2. cbv zeta. rewrite Bs. cbn [bind pkind].
    match goal with |- context [bor o acc ?x] => set (a := x) end.
    assert (Wa' : wf S a).
    { unfold a. destruct (_ && _ && _); [apply wf_hi; apply wf_occupied; assumption|].
      apply wf_pseudo_attack. }
    assert (Ha : forall t, has a t = takes (occb B) (flip c) k s K t).
    { intros t. unfold a, takes. destruct (_ && _ && _).
      - rewrite (hi_attack_spec o S (flip c)) by (apply wf_occupied; assumption).
        apply (reachb_occ o S p R).
      - rewrite (pseudo_attack_spec o S). destruct k; reflexivity. }
    destruct (IH (fun u H => A u (or_intror H)) (bor o acc a)) as [ca [E [W H]]].
    { apply (sp_wf_or o S); assumption. }
    exists ca. split; [exact E|]. split; [assumption|]. intros t.
    rewrite H, (sp_or o S), orb_true_iff, Ha. cbn [In]. split.
    + intros [[Q|Q]|[s' [k' Q]]]; [tauto| |].
      * right. exists s, k. tauto.
      * right. exists s', k'. tauto.
    + intros [Q|[s' [k' [[<-|Q1] [Q2 Q3]]]]]; [tauto| |].
      * left. right. congruence.
      * right. exists s', k'. tauto.
Qed.

Section Checked.
Context (K : square) (BK : B K = Some (mkP King c)).

Lemma chs_in s : In s (biter o (ai_checkers o ai)) <-> att B (flip c) s K.
Proof.
  rewrite ai_checkers_eq, (iter_in o S) by (apply wf_checkers; assumption).
  rewrite checkers_att. split.
  - intros [K' [BK' A]]. rewrite (ex_kings c _ _ BK BK'). assumption.
  - intros A. exists K. tauto.
Qed.
Lemma chs_NoDup : NoDup (biter o (ai_checkers o ai)).
Proof.
  rewrite ai_checkers_eq. apply (iter_NoDup o S). apply wf_checkers. assumption.
Qed.

Definition king_evasion (m : move) : Prop :=
  exists t, m = Normal K t false /\ pseudo_legal g m /\
    forall s k, B s = Some (mkP k (flip c)) -> reachb (occb B) (flip c) k s K = true ->
      takes (occb B) (flip c) k s K t = false.

Lemma king_pseudo t pr : pseudo_legal g (Normal K t pr) <->
  pr = false /\ stepb c King K t = true /\ forall k', B t <> Some (mkP k' c).
Proof.
  rewrite pseudo_normal. split.
  - intros [k [Bk [Ct [Rf Pr]]]]. assert (k = King) by congruence. subst k.
    rewrite reach_step_king in Rf. repeat (split; [|tauto]).
    destruct pr; [|reflexivity]. cbn in Pr. tauto.
  - intros [-> [H1 H2]]. exists King. rewrite reach_step_king. repeat (split; [assumption|]).
    cbn. tauto.
Qed.

Lemma king_moves_spec : exists ca,
  checkers_attacks o p K (biter o (ai_checkers o ai)) = Some ca /\
  let l := map (fun to => Normal K to false)
        (biter o (band o (band o (ou_attack o K c)
                                 (bnot o (player_bb o p c))) (bnot o ca))) in
  NoDup l /\ forall m, In m l <-> king_evasion m.
Proof.
  destruct (checkers_attacks_fold K (biter o (ai_checkers o ai)) BK
    (fun s => proj1 (chs_in s)) (bempty o) (sp_wf_empty o S)) as [ca [E [W H]]].
  exists ca. split; [exact E|]. cbv zeta.
  assert (W' : wf S (band o (band o (ou_attack o K c)
                                 (bnot o (player_bb o p c))) (bnot o ca))).
  { repeat apply (sp_wf_and o S); try apply (sp_wf_not o S). apply wf_ou. }
  split.
  - apply Injective_map_NoDup; [intros x y [= Q]; exact Q|]. apply (iter_NoDup o S). assumption.
  - intros m. rewrite in_map_iff. unfold king_evasion. split.
    + intros [t [<- Ht]]. apply (iter_in o S) in Ht; [|assumption].
      rewrite !(sp_and o S), !andb_true_iff, not_own_spec in Ht. destruct Ht as [[H1 H2] H3].
      rewrite (ou_attack_spec o S) in H1. rewrite (sp_not o S), negb_true_iff in H3.
      exists t. split; [reflexivity|]. split; [apply king_pseudo; tauto|].
      intros s k Bs Rs. destruct (takes _ _ _ _ _ _) eqn:T; [|reflexivity]. exfalso.
      assert (C : has ca t = true); [|congruence]. apply H. right. exists s, k.
      split; [|tauto]. apply chs_in. exists k. tauto.
    + intros [t [-> [P Hs]]]. exists t. split; [reflexivity|]. apply (iter_in o S); [assumption|].
      apply king_pseudo in P as [_ [H1 H2]].
      rewrite !(sp_and o S), !andb_true_iff, not_own_spec, (ou_attack_spec o S).
      split; [tauto|]. rewrite (sp_not o S), negb_true_iff.
      destruct (has ca t) eqn:C; [|reflexivity]. exfalso.
      apply H in C as [C|[s [k [C1 [C2 C3]]]]]; [rewrite (sp_empty o S) in C; discriminate|].
      apply chs_in in C1 as [k' [C1 C4]]. assert (k' = k) by congruence. subst k'.
      rewrite (Hs s k C2 C4) in C3. discriminate.
Qed.

Definition block_move (m : move) : Prop :=
  exists f t pr k, m = Normal f t pr /\ B f = Some (mkP k c) /\ k <> King /\
    pseudo_legal g m /\ answers g K t.
Definition block_drop (m : move) : Prop :=
  exists t k, m = Drop t (mkP k c) /\ pseudo_legal g m /\
    (k = Pawn -> ~ checkmated (play g m)) /\
    forall s, att B (flip c) s K -> betweenb s t K = true.

Lemma evasions_spec : (exists s, att B (flip c) s K) ->
  exists l, generate_evasions o p ai = Some l /\ NoDup l /\
    forall m, In m l <-> king_evasion m \/ block_move m \/ block_drop m.
Proof.
  intros [s0 A0]. unfold generate_evasions. cbv zeta.
  rewrite (proj2 (king_position_iff o S p R c K ex_kings) BK). cbn [bind].
  destruct king_moves_spec as [ca [-> [NK EK]]]. cbn [bind].
  set (kms := map _ _) in *.
  pose proof chs_in as CI. pose proof chs_NoDup as CN.
  pose proof (proj2 (CI s0) A0) as C0.
  destruct (biter o (ai_checkers o ai)) as [|ch [|ch2 l]] eqn:Ec; [destruct C0| |].
  - (* one checker *)
    cbn [length Nat.ltb Nat.leb hd_error bind].
    assert (UA : forall s, att B (flip c) s K <-> s = ch).
    { intros s. rewrite <- CI. cbn. intuition congruence. }
    set (td := BETWEEN_TABLE o ch K). set (tm := bor o td (ai_checkers o ai)).
    assert (Wd : wf S td) by apply wf_between.
    assert (Wc : wf S (ai_checkers o ai)).
    { rewrite ai_checkers_eq. apply wf_checkers. assumption. }
    assert (Wm : wf S tm) by (apply (sp_wf_or o S); assumption).
    assert (Td : forall t, has td t = betweenb ch t K) by apply (between_table_spec o S).
    assert (Tc : forall s, has (ai_checkers o ai) s = true <-> s = ch).
    { intros s. rewrite <- (iter_in o S) by assumption. rewrite Ec. cbn. intuition congruence. }
    assert (Tm : forall t, has tm t = true <-> answers g K t).
    { intros t. unfold tm. rewrite (sp_or o S), orb_true_iff, Tc, Td. unfold answers.
      cbn [gview g_board g_side]. split.
      - intros H s A. apply UA in A. subst s. tauto.
      - intros H. destruct (H ch); [apply UA; reflexivity|tauto|tauto]. }
    assert (Emp : forall t, has td t = true -> B t = None).
    { intros t H. rewrite Td in H. assert (A : att B (flip c) ch K) by (apply UA; reflexivity).
      apply att_alt in A as [k [_ [_ C]]]. auto. }
    assert (Own : forall t, answers g K t -> forall k, B t <> Some (mkP k c)).
    { intros t H k Bt. apply Tm in H. unfold tm in H. rewrite (sp_or o S), orb_true_iff, Tc in H.
      destruct H as [H|H].
      - rewrite (Emp _ H) in Bt. discriminate.
      - subst t. assert (A : att B (flip c) ch K) by (apply UA; reflexivity).
        destruct A as [k' [A _]]. rewrite Bt in A. injection A as _ A. destruct c; discriminate. }
    assert (DB : exists ds, (if negb (bis_empty o td) then gen_drop o p ai td else Some []) = Some ds /\
       NoDup ds /\ forall m, In m ds <-> dmove o p td m).
    { destruct (bis_empty o td) eqn:Ee; cbn [negb].
      - exists []. split; [reflexivity|]. split; [constructor|]. intros m. split; [intros []|].
        intros [k [_ [t [_ [H _]]]]]. rewrite (proj1 (is_empty_true o S td Wd) Ee t) in H. discriminate.
      - apply (gen_drop_spec o S p R ai ex_kings (ex_pin (flip c)) ex_safe ex_nifu td Wd Emp). }
    destruct DB as [ds [-> [ND ED]]]. cbn [bind].
    eexists. split; [reflexivity|].
    fold (gen_nonking o p tm).
    assert (EB : forall m, In m (gen_nonking o p tm) <-> block_move m).
    { intros m. rewrite (gen_nonking_in o S p R ex_pawn tm m Wm). unfold block_move, bmove. split.
      - intros [k [Nk [f [t [pr [-> [Bf [Rf [Ht Pr]]]]]]]]]. apply Tm in Ht.
        exists f, t, pr, k. repeat (split; [easy|]). split; [|assumption].
        apply pseudo_normal. exists k. repeat (split; [auto; fail|]). assumption.
      - intros [f [t [pr [k [-> [Bf [Nk [P A]]]]]]]]. exists k. split; [assumption|].
        exists f, t, pr. apply pseudo_normal in P as [k' [Bf' [Ct [Rf Pr]]]].
        assert (k' = k) by congruence. subst k'. rewrite Tm. tauto. }
    assert (ED' : forall m, In m ds <-> block_drop m).
    { intros m. rewrite ED, (dmove_pseudo td m Emp). unfold block_drop. split.
      - intros [t [k [E [Ht [P Hm]]]]]. exists t, k. repeat (split; [assumption|]).
        intros s A. apply UA in A. subst s. rewrite <- Td. assumption.
      - intros [t [k [E [P [Hm A]]]]]. exists t, k. split; [assumption|]. rewrite Td.
        split; [apply A; apply UA; reflexivity|tauto]. }
    split.
    + apply NoDup_app; [assumption| |].
      * apply NoDup_app; [apply (gen_nonking_NoDup o S p R ex_pawn); assumption|assumption|].
        intros m H1 H2. apply EB in H1 as [f [t [pr [k [-> _]]]]].
        apply ED' in H2 as [t' [k' [E _]]]. discriminate.
      * intros m H1 H2. apply EK in H1 as [t [-> _]]. apply in_app_iff in H2 as [H2|H2].
        -- apply EB in H2 as [f [t' [pr [k [E [Bf [Nk _]]]]]]]. congruence.
        -- apply ED' in H2 as [t' [k' [E _]]]. discriminate.
    + intros m. rewrite !in_app_iff, EK, EB, ED'. tauto.
  - (* two checkers *)
    cbn [length Nat.ltb Nat.leb]. exists kms. split; [reflexivity|]. split; [assumption|].
    intros m. rewrite EK. split; [tauto|].
    assert (A1 : att B (flip c) ch K) by (apply CI; left; reflexivity).
    assert (A2 : att B (flip c) ch2 K) by (apply CI; right; left; reflexivity).
    assert (N12 : ch <> ch2).
    { inversion CN as [|? ? N _]; subst. intros ->. apply N. left. reflexivity. }
    intros [H|[[f [t [pr [k [_ [_ [_ [_ A]]]]]]]]|[t [k [_ [_ [_ A]]]]]]]; [assumption| |];
      exfalso; apply N12.
    + apply (one_evasion_square B (flip c) K ch ch2 t A1 A2); apply A; assumption.
    + apply (one_evasion_square B (flip c) K ch ch2 t A1 A2); right; apply A; assumption.
Qed.

End Checked.

(** ** The candidates *)

Definition candidates : option (list move) :=
  if negb (bis_empty o (ai_checkers o ai)) then generate_evasions o p ai
  else generate_all o p ai.

Theorem candidates_spec : exists l, candidates = Some l /\ NoDup l /\
  (forall m, In m l -> pseudo_legal g m) /\
  (forall m, In m l /\ is_legal o p ai m = true <-> legal g m).
Proof.
  unfold candidates.
  assert (Wc : wf S (ai_checkers o ai)).
  { rewrite ai_checkers_eq. apply wf_checkers. assumption. }
  destruct (bis_empty o (ai_checkers o ai)) eqn:E; cbn [negb].
  - (* not in check *)
    assert (NA : forall K s, B K = Some (mkP King c) -> ~ att B (flip c) s K).
    { intros K s BK A. pose proof (proj1 (is_empty_true o S _ Wc) E s) as H.
      rewrite ai_checkers_eq in H.
      assert (C : has (calculate_checkers o p) s = true); [|congruence].
      apply checkers_att. exists K. tauto. }
    destruct generate_all_spec as [l [-> [ND EL]]]. exists l. split; [reflexivity|].
    split; [assumption|]. split; [intros m H; apply EL; assumption|].
    intros m. rewrite EL. destruct m as [f t pr|t x].
    + assert (Q : pseudo_legal g (Normal f t pr) ->
        (legal g (Normal f t pr) <-> is_legal o p ai (Normal f t pr) = true)).
      { intros P. pose proof P as P'. apply pseudo_normal in P' as [k [Bf _]].
        destruct (kind_eqb_spec k King) as [Ek|Nk].
        - subst k. rewrite (legal_king_iff f t pr Bf P). split; [tauto|]. intros H.
          split; [|assumption]. intros s k Bs Rs. exfalso. apply (NA f s Bf). exists k. tauto.
        - rewrite (legal_nonking_iff f t pr k Bf Nk P). split; [tauto|]. intros H.
          split; [|assumption]. intros K BK s A. exfalso. apply (NA K s BK). exact A. }
      split.
      * intros [[P _] L]. apply Q; assumption.
      * intros L. pose proof L as [P [_ Hm]]. split; [tauto|]. apply Q; assumption.
    + split.
      * intros [[P Hm] _]. pose proof (pseudo_drop_color t x P) as Ex. rewrite Ex in *.
        apply (legal_drop_iff t (pkind x) P). split.
        -- intros K s BK A. exfalso. apply (NA K s BK A).
        -- intros Ek Q. apply Hm. split; [exact Ek|exact Q].
      * intros L. pose proof L as [P [_ Hm]]. split; [tauto|]. reflexivity.
  - (* in check *)
    apply (is_empty_false o S) in E as [s0 E]; [|assumption].
    rewrite ai_checkers_eq in E. apply checkers_att in E as [K [BK A0]].
    destruct (evasions_spec K BK (ex_intro _ s0 A0)) as [l [-> [ND EL]]].
    exists l. split; [reflexivity|]. split; [assumption|].
    assert (UK : forall K', B K' = Some (mkP King c) -> K' = K)
      by (intros K' BK'; apply (ex_kings c); assumption).
    split.
    { intros m H. apply EL in H as [[t [-> [P _]]]|[[f [t [pr [k [-> [_ [_ [P _]]]]]]]]|
        [t [k [-> [P _]]]]]]; assumption. }
    intros m. rewrite EL. split.
    + intros [[[t [-> [P H]]]|[[f [t [pr [k [-> [Bf [Nk [P A]]]]]]]]|[t [k [-> [P [Hm A]]]]]]] L].
      * apply (legal_king_iff K t false BK P). tauto.
      * apply (legal_nonking_iff f t pr k Bf Nk P). split; [|assumption].
        intros K' BK'. rewrite (UK _ BK'). assumption.
      * apply (legal_drop_iff t k P). split; [|assumption].
        intros K' s BK'. rewrite (UK _ BK'). apply A.
    + intros L. pose proof L as [P [_ Hm]]. destruct m as [f t pr|t x].
      * pose proof P as P'. apply pseudo_normal in P' as [k [Bf _]].
        destruct (kind_eqb_spec k King) as [Ek|Nk].
        -- subst k. pose proof (UK f Bf). subst f. apply (legal_king_iff K t pr Bf P) in L as [L1 L2].
           split; [|assumption]. left. exists t. apply (king_pseudo K BK) in P as Q.
           destruct Q as [-> _]. tauto.
        -- apply (legal_nonking_iff f t pr k Bf Nk P) in L as [L1 L2]. split; [|assumption].
           right. left. exists f, t, pr, k. repeat (split; [easy|]). apply L1. assumption.
      * pose proof (pseudo_drop_color t x P) as Ex. rewrite Ex in *.
        apply (legal_drop_iff t (pkind x) P) in L as [L1 L2]. split; [|reflexivity].
        right. right. exists t, (pkind x). repeat (split; [easy|]).
        intros s A. apply (L1 K s BK A).
Qed.

End Exact.

Lemma valid_orderly g : valid g -> orderly g.
Proof.
  intros V. constructor.
  - exact (v_king g V).
  - intros s t Bs Bt Rs. apply (v_check g V). exists t. split; [exact Bt|].
    rewrite flip_flip. exists s, King. split; assumption.
  - intros s. exact (v_pawn g V (g_side g) s).
  - intros _. split; [exact (v_check g V)|].
    intros s t Bs Bt F _. exact (v_nifu g V (g_side g) s t Bs Bt F).
Qed.
