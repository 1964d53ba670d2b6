(** * What the move generators generate *)

From Coq Require Import List Bool NArith ZArith Lia.
From Verif Require Import Types Rules Bitboard Tables Zobrist Position Movegen Api
  Words Squares Geometry BBSpec Attacks KingSafety Rep Legality PawnDrop.
Import ListNotations.

Local Opaque fu_attack ky_attack ke_attack gi_attack ki_attack ou_attack ka_attack
  hi_attack pseudo_attack BETWEEN_TABLE FILES.

(** ** Lists *)

Lemma NoDup_app {A} (l1 l2 : list A) : NoDup l1 -> NoDup l2 ->
  (forall x, In x l1 -> In x l2 -> False) -> NoDup (l1 ++ l2).
Proof.
  induction l1 as [|x l1 IH]; intros N1 N2 D; [assumption|].
  inversion N1; subst. cbn. constructor.
  - rewrite in_app_iff. intros [H|H]; [contradiction|]. apply (D x); [left; reflexivity|assumption].
  - apply IH; [assumption|assumption|]. intros y H1' H2'. apply (D y); [right|]; assumption.
Qed.

Lemma NoDup_flat_map {A B} (f : A -> list B) l : NoDup l ->
  (forall x, In x l -> NoDup (f x)) ->
  (forall x y m, In x l -> In y l -> In m (f x) -> In m (f y) -> x = y) ->
  NoDup (flat_map f l).
Proof.
  induction l as [|x l IH]; intros ND H1 H2; cbn; [constructor|].
  inversion ND as [|? ? Nx ND']; subst. apply NoDup_app.
  - apply H1. left. reflexivity.
  - apply IH; [assumption| |].
    + intros y Hy. apply H1. right. assumption.
    + intros y y' m Hy Hy'. apply H2; right; assumption.
  - intros m Hm Hm'. apply in_flat_map in Hm' as [y [Hy Hm']].
    apply Nx. rewrite (H2 x y m); auto; [left; reflexivity|right; assumption].
Qed.

(** ** Promotion *)

Definition promo_ok (c : color) (k : kind) (f t : square) (pr : bool) : Prop :=
  if pr then promote_kind k <> None /\ (promotion_zone c f \/ promotion_zone c t)
  else ~ dead_square c k t.

Lemma promotable_zone s c : PROMOTABLE s c = true <-> promotion_zone c s.
Proof.
  unfold PROMOTABLE, RELATIVE_RANKS, relative_rank. rewrite Z.leb_le.
  destruct c; cbn [promotion_zone]; lia.
Qed.

Lemma rel_rank_dead c s n : (RELATIVE_RANKS s c >? n)%Z = true <-> (n <= ranks_ahead c s)%Z.
Proof.
  unfold RELATIVE_RANKS, relative_rank. rewrite Z.gtb_lt. destruct c; cbn [ranks_ahead]; lia.
Qed.

(* pieces that only move forward *)
Definition forward (k : kind) : bool :=
  match k with Pawn | Lance | Knight => true | _ => false end.

Lemma forward_zone occ c k f t : forward k = true -> reachb occ c k f t = true ->
  promotion_zone c f -> promotion_zone c t.
Proof.
  intros F R Z. assert (Q : match c with Black => rankZ t <= rankZ f | White => rankZ f <= rankZ t end%Z).
  { unfold reachb in R. apply orb_true_iff in R as [R|R].
    - apply stepb_spec in R as [v [Hv [_ R]]].
      destruct k; try discriminate; cbn [steps In] in Hv;
        repeat destruct Hv as [<-|Hv]; try contradiction;
        destruct c; cbn [orient fst snd] in R; lia.
    - apply andb_true_iff in R as [R _]. apply rideb_spec in R as [v [Hv D]].
      apply dirof_displaced in D as [_ [L [_ R]]].
      destruct k; try discriminate; cbn [rides In] in Hv;
        repeat destruct Hv as [<-|Hv]; try contradiction;
        destruct c; cbn [orient fst snd] in R; lia. }
  destruct c; cbn [promotion_zone] in *; lia.
Qed.

Definition min_rank_of (k : kind) : Z := match k with Knight => 2 | _ => 1 end.

Lemma push_forward_in occ c k f t m : forward k = true -> reachb occ c k f t = true ->
  (In m (push_forward c (min_rank_of k) f t) <-> exists pr, m = Normal f t pr /\ promo_ok c k f t pr).
Proof.
  intros F R. unfold push_forward, promo_ok.
  assert (Z : promotion_zone c f -> promotion_zone c t) by (eapply forward_zone; eassumption).
  assert (P : promote_kind k <> None) by (destruct k; cbn in *; discriminate).
  assert (D : dead_square c k t <-> (ranks_ahead c t < min_rank_of k)%Z)
    by (destruct k; try discriminate; cbn [dead_square min_rank_of]; tauto).
  destruct (PROMOTABLE t c) eqn:E.
  - apply promotable_zone in E. cbn [In].
    destruct (RELATIVE_RANKS t c >? min_rank_of k)%Z eqn:E2.
    + apply rel_rank_dead in E2. cbn [In]. split.
      * intros [<-|[<-|[]]]; [exists true; tauto|]. exists false. rewrite D. split; [reflexivity|lia].
      * intros [[] [-> H]]; tauto.
    + assert (E3 : (ranks_ahead c t < min_rank_of k)%Z).
      { destruct (Z.lt_ge_cases (ranks_ahead c t) (min_rank_of k)) as [H|H]; [assumption|].
        apply rel_rank_dead in H. congruence. }
      cbn [In]. split.
      * intros [<-|[]]; exists true; tauto.
      * intros [[] [-> H]]; tauto.
  - assert (E' : ~ promotion_zone c t) by (rewrite <- promotable_zone; congruence).
    cbn [In]. split.
    + intros [<-|[]]. exists false. split; [reflexivity|]. rewrite D.
      intros H. apply E'. pose proof (ranks_range t).
      destruct k, c; try discriminate; cbn [min_rank_of ranks_ahead promotion_zone] in *; lia.
    + intros [[] [-> H]]; tauto.
Qed.

Definition optional (k : kind) : bool :=
  match k with Silver | Bishop | Rook => true | _ => false end.

Lemma push_optional_in c k f t m : optional k = true ->
  (In m (push_optional c f t) <-> exists pr, m = Normal f t pr /\ promo_ok c k f t pr).
Proof.
  intros F. unfold push_optional, promo_ok.
  assert (P : promote_kind k <> None) by (destruct k; cbn in *; discriminate).
  assert (D : ~ dead_square c k t) by (destruct k; try discriminate; cbn; tauto).
  assert (Z : PROMOTABLE f c || PROMOTABLE t c = true <->
              promotion_zone c f \/ promotion_zone c t)
    by (rewrite orb_true_iff, !promotable_zone; tauto).
  destruct (PROMOTABLE f c || PROMOTABLE t c); cbn [In]; split.
  - intros [<-|[<-|[]]]; [exists false|exists true]; tauto.
  - intros [[] [-> H]]; tauto.
  - intros [<-|[]]; exists false; tauto.
  - intros [[] [-> H]]; [|tauto]. destruct H as [_ H]. apply Z in H. discriminate.
Qed.

Definition plain (k : kind) : bool := negb (forward k) && negb (optional k).

Lemma push_plain_in c k f t m : plain k = true ->
  (In m (push_plain f t) <-> exists pr, m = Normal f t pr /\ promo_ok c k f t pr).
Proof.
  intros F. unfold push_plain, promo_ok.
  assert (P : promote_kind k = None) by (destruct k; cbn in *; try discriminate; reflexivity).
  assert (D : ~ dead_square c k t) by (destruct k; try discriminate; cbn; tauto).
  cbn [In]. split.
  - intros [<-|[]]. exists false. tauto.
  - intros [[] [-> H]]; [|tauto]. rewrite P in H. tauto.
Qed.

Lemma NoDup_push_forward c n f t : NoDup (push_forward c n f t).
Proof.
  unfold push_forward. destruct (PROMOTABLE t c); [destruct (RELATIVE_RANKS t c >? n)%Z|];
    repeat constructor; cbn; intuition discriminate.
Qed.
Lemma NoDup_push_optional c f t : NoDup (push_optional c f t).
Proof.
  unfold push_optional. destruct (_ || _); repeat constructor; cbn; intuition discriminate.
Qed.
Lemma NoDup_push_plain f t : NoDup (push_plain f t).
Proof. repeat constructor. cbn. tauto. Qed.

Lemma push_forward_shape c n f t m : In m (push_forward c n f t) ->
  exists pr, m = Normal f t pr.
Proof.
  unfold push_forward. destruct (PROMOTABLE t c); [destruct (RELATIVE_RANKS t c >? n)%Z|];
    cbn; intuition (subst; eauto).
Qed.
Lemma push_optional_shape c f t m : In m (push_optional c f t) -> exists pr, m = Normal f t pr.
Proof.
  unfold push_optional. destruct (_ || _); cbn; intuition (subst; eauto).
Qed.
Lemma push_plain_shape f t m : In m (push_plain f t) -> exists pr, m = Normal f t pr.
Proof. cbn. intuition (subst; eauto). Qed.

(* the square behind *)
Lemma fu_from_black t s : sq_shift t 0 1 = Some s -> fu_from Black t = s.
Proof.
  destruct t as [f r]. destruct r; destruct f; vm_compute; congruence.
Qed.
Lemma fu_from_white t s : sq_shift t 0 (-1) = Some s -> fu_from White t = s.
Proof.
  destruct t as [f r]. destruct r; destruct f; vm_compute; congruence.
Qed.

Section Gen.
Context (o : bbops) (S : bbspec o).
Notation BB := (bb o).
Notation has := (bcontains o).

Lemma iter_and_in a b t : wf S a -> wf S b ->
  (In t (iter_and o a b) <-> has a t = true /\ has b t = true).
Proof.
  intros Wa Wb. unfold iter_and. rewrite (iter_in o S) by (apply (sp_wf_and o S); assumption).
  rewrite (sp_and o S), andb_true_iff. tauto.
Qed.

Lemma gen_from_in froms att target push m : wf S froms -> (forall f, wf S (att f)) ->
  wf S target ->
  (In m (gen_from o froms att target push) <->
   exists f t, has froms f = true /\ has (att f) t = true /\ has target t = true /\
               In m (push f t)).
Proof.
  intros W1 W2 W3. unfold gen_from. rewrite in_flat_map. split.
  - intros [f [Hf H]]. apply in_flat_map in H as [t [Ht H]].
    apply (iter_in o S) in Hf; [|assumption]. apply iter_and_in in Ht; auto.
    exists f, t. tauto.
  - intros [f [t [H1 [H2 [H3 H4]]]]]. exists f. split; [apply (iter_in o S); assumption|].
    apply in_flat_map. exists t. split; [|assumption]. apply iter_and_in; auto.
Qed.

Lemma gen_from_NoDup froms att target push : wf S froms -> (forall f, wf S (att f)) ->
  wf S target -> (forall f t, NoDup (push f t)) ->
  (forall f t m, In m (push f t) -> exists pr, m = Normal f t pr) ->
  NoDup (gen_from o froms att target push).
Proof.
  intros W1 W2 W3 N Sh. unfold gen_from. apply NoDup_flat_map.
  - apply (iter_NoDup o S). assumption.
  - intros f _. apply NoDup_flat_map.
    + apply (iter_NoDup o S). apply (sp_wf_and o S); auto.
    + intros t _. apply N.
    + intros t t' m _ _ H H'. apply Sh in H as [pr ->]. apply Sh in H' as [pr' H']. congruence.
  - intros f f' m _ _ H H'. apply in_flat_map in H as [t [_ H]]. apply in_flat_map in H' as [t' [_ H']].
    apply Sh in H as [pr ->]. apply Sh in H' as [pr' H']. congruence.
Qed.

Context (p : inner o) (R : rep o S p).
Notation B := (i_piece_at o p).
Notation c := (i_side o p).

(* a board move of a piece of kind [k] to a square of [target] *)
Definition bmove (target : BB) (k : kind) (m : move) : Prop :=
  exists f t pr, m = Normal f t pr /\ B f = Some (mkP k c) /\
    reachb (occb B) c k f t = true /\ has target t = true /\ promo_ok c k f t pr.

Lemma own_in k f : has (own o p k) f = true <-> B f = Some (mkP k c).
Proof.
  unfold own. rewrite (sp_and o S), (rep_player o S p R), (rep_piece o S p R), andb_true_iff.
  rewrite colorb_true, kindb_true. split.
  - intros [[k' H1] [c' H2]]. congruence.
  - intros ->. split; eauto.
Qed.

Lemma wf_own k : wf S (own o p k).
Proof. apply (sp_wf_and o S); [apply (rep_wf_player o S p R)|apply (rep_wf_piece o S p R)]. Qed.

(* one kind, one table *)
Lemma gen_kind k att push target m : wf S target ->
  (forall f, wf S (att f)) ->
  (forall f t, has (att f) t = reachb (occb B) c k f t) ->
  (forall f t, reachb (occb B) c k f t = true ->
     (In m (push f t) <-> exists pr, m = Normal f t pr /\ promo_ok c k f t pr)) ->
  (In m (gen_from o (own o p k) att target push) <-> bmove target k m).
Proof.
  intros W1 W2 H1 H2. rewrite gen_from_in by (auto; apply wf_own). split.
  - intros [f [t [Hf [Ha [Ht Hm]]]]]. apply own_in in Hf. rewrite H1 in Ha.
    apply H2 in Hm as [pr [-> Hp]]; [|assumption]. exists f, t, pr. tauto.
  - intros [f [t [pr [-> [Hf [Ha [Ht Hp]]]]]]]. exists f, t. rewrite own_in, H1, H2 by assumption.
    repeat (split; [assumption|]). exists pr. tauto.
Qed.

Notation Wocc := (wf_occupied o S p R).

Lemma gen_ky_in tg m : wf S tg -> (In m (gen_ky o p tg) <-> bmove tg Lance m).
Proof.
  intros W. unfold gen_ky. apply gen_kind; [assumption| | |].
  - intros f. apply wf_ky_attack. apply Wocc.
  - intros f t. rewrite (ky_attack_spec o S) by apply Wocc. apply (reachb_occ o S p R).
  - intros f t H. apply (push_forward_in (occb B) c Lance); [reflexivity|assumption].
Qed.
Lemma gen_ke_in tg m : wf S tg -> (In m (gen_ke o p tg) <-> bmove tg Knight m).
Proof.
  intros W. unfold gen_ke. apply gen_kind; [assumption| | |].
  - intros f. apply wf_ke.
  - intros f t. rewrite (ke_attack_spec o S), reach_step; reflexivity.
  - intros f t H. apply (push_forward_in (occb B) c Knight); [reflexivity|assumption].
Qed.
Lemma gen_gi_in tg m : wf S tg -> (In m (gen_gi o p tg) <-> bmove tg Silver m).
Proof.
  intros W. unfold gen_gi. apply gen_kind; [assumption| | |].
  - intros f. apply wf_gi.
  - intros f t. rewrite (gi_attack_spec o S), reach_step; reflexivity.
  - intros f t H. apply push_optional_in. reflexivity.
Qed.
Lemma gen_ka_in tg m : wf S tg -> (In m (gen_ka o p tg) <-> bmove tg Bishop m).
Proof.
  intros W. unfold gen_ka. apply gen_kind; [assumption| | |].
  - intros f. apply wf_ka. apply Wocc.
  - intros f t. rewrite (ka_attack_spec o S c) by apply Wocc. apply (reachb_occ o S p R).
  - intros f t H. apply push_optional_in. reflexivity.
Qed.
Lemma gen_hi_in tg m : wf S tg -> (In m (gen_hi o p tg) <-> bmove tg Rook m).
Proof.
  intros W. unfold gen_hi. apply gen_kind; [assumption| | |].
  - intros f. apply wf_hi. apply Wocc.
  - intros f t. rewrite (hi_attack_spec o S c) by apply Wocc. apply (reachb_occ o S p R).
  - intros f t H. apply push_optional_in. reflexivity.
Qed.
Lemma gen_ou_in tg m : wf S tg -> (In m (gen_ou o p tg) <-> bmove tg King m).
Proof.
  intros W. unfold gen_ou. apply gen_kind; [assumption| | |].
  - intros f. apply wf_ou.
  - intros f t. rewrite (ou_attack_spec o S), reach_step; reflexivity.
  - intros f t H. apply push_plain_in. reflexivity.
Qed.

Lemma horse_attack f t :
  has (bor o (ka_attack o f (occupied o p)) (ou_attack o f c)) t = reachb (occb B) c ProBishop f t.
Proof.
  pose proof (attack_spec o S ProBishop f c (occupied o p) t Wocc) as H.
  cbn [attack] in H. rewrite H. apply (reachb_occ o S p R).
Qed.
Lemma dragon_attack f t :
  has (bor o (hi_attack o f (occupied o p)) (ou_attack o f c)) t = reachb (occb B) c ProRook f t.
Proof.
  pose proof (attack_spec o S ProRook f c (occupied o p) t Wocc) as H.
  cbn [attack] in H. rewrite H. apply (reachb_occ o S p R).
Qed.

Lemma gen_um_in tg m : wf S tg -> (In m (gen_um o p tg) <-> bmove tg ProBishop m).
Proof.
  intros W. unfold gen_um. apply gen_kind; [assumption| | |].
  - intros f. apply (sp_wf_or o S); [apply wf_ka; apply Wocc|apply wf_ou].
  - intros f t. apply horse_attack.
  - intros f t H. apply push_plain_in. reflexivity.
Qed.
Lemma gen_ry_in tg m : wf S tg -> (In m (gen_ry o p tg) <-> bmove tg ProRook m).
Proof.
  intros W. unfold gen_ry. apply gen_kind; [assumption| | |].
  - intros f. apply (sp_wf_or o S); [apply wf_hi; apply Wocc|apply wf_ou].
  - intros f t. apply dragon_attack.
  - intros f t H. apply push_plain_in. reflexivity.
Qed.

Definition goldlike (k : kind) : bool :=
  match k with Gold | ProPawn | ProLance | ProKnight | ProSilver => true | _ => false end.

Definition golds : BB :=
  band o (bor o (bor o (bor o (bor o (piece_bb o p Gold)
       (piece_bb o p ProPawn)) (piece_bb o p ProLance))
       (piece_bb o p ProKnight)) (piece_bb o p ProSilver)) (player_bb o p c).

Lemma wf_golds : wf S golds.
Proof.
  pose proof (rep_wf_piece o S p R). pose proof (rep_wf_player o S p R).
  unfold golds. apply (sp_wf_and o S); [|auto]. repeat apply (sp_wf_or o S); auto.
Qed.

Lemma golds_in f : has golds f = true <-> exists k, goldlike k = true /\ B f = Some (mkP k c).
Proof.
  unfold golds. rewrite (sp_and o S). repeat rewrite (sp_or o S).
  rewrite (rep_player o S p R). rewrite !(rep_piece o S p R).
  rewrite andb_true_iff, colorb_true. split.
  - intros [H1 [k H2]]. rewrite H2 in H1. exists k. split; [|assumption].
    cbn [kindb pkind] in H1. destruct k; cbn in *; congruence.
  - intros [k [H1 ->]]. split; [|eauto]. cbn [kindb pkind]. destruct k; cbn in *; congruence.
Qed.

Lemma gold_reach k f t : goldlike k = true ->
  reachb (occb B) c k f t = stepb c Gold f t.
Proof. intros H. destruct k; try discriminate; rewrite reach_step; reflexivity. Qed.

Lemma gen_ki_in tg m : wf S tg ->
  (In m (gen_ki o p tg) <-> exists k, goldlike k = true /\ bmove tg k m).
Proof.
  intros W. unfold gen_ki. cbv zeta. fold golds.
  rewrite gen_from_in; [|apply wf_golds|intros f; apply wf_ki|assumption]. split.
  - intros [f [t [Hf [Ha [Ht Hm]]]]]. apply golds_in in Hf as [k [Hk Hf]].
    rewrite (ki_attack_spec o S) in Ha. rewrite <- (gold_reach k) in Ha by assumption.
    apply (push_plain_in c k) in Hm as [pr [-> Hp]]; [|destruct k; easy].
    exists k. split; [assumption|]. exists f, t, pr. tauto.
  - intros [k [Hk [f [t [pr [-> [Hf [Ha [Ht Hp]]]]]]]]]. exists f, t. split; [|split; [|split]].
    + apply golds_in. eauto.
    + rewrite (ki_attack_spec o S), <- (gold_reach k); assumption.
    + assumption.
    + apply (push_plain_in c k); [destruct k; easy|]. eauto.
Qed.

(** ** Pawn moves *)

Context (PawnOk : forall s, B s = Some (mkP Pawn c) -> ~ dead_square c Pawn s).

Definition fu_to : BB :=
  match c with
  | Black => bshr o (piece_bitboard o p Pawn Black)
  | White => bshl o (piece_bitboard o p Pawn White)
  end.

Lemma piece_bitboard_in k d f : has (piece_bitboard o p k d) f = true <-> B f = Some (mkP k d).
Proof.
  unfold piece_bitboard.
  rewrite (sp_and o S), (rep_player o S p R), (rep_piece o S p R), andb_true_iff.
  rewrite colorb_true, kindb_true. split.
  - intros [[c' H2] [k' H1]]. congruence.
  - intros ->. split; eauto.
Qed.
Lemma wf_piece_bitboard k d : wf S (piece_bitboard o p k d).
Proof. apply (sp_wf_and o S); [apply (rep_wf_piece o S p R)|apply (rep_wf_player o S p R)]. Qed.

Lemma fu_to_spec : wf S fu_to /\ forall t, has fu_to t = true <->
  B (fu_from c t) = Some (mkP Pawn c) /\ stepb c Pawn (fu_from c t) t = true.
Proof.
  unfold fu_to. destruct c eqn:Ec.
  - assert (NL : forall s, has (piece_bitboard o p Pawn Black) s = true -> sqr s <> n1).
    { intros s H E. apply piece_bitboard_in in H. apply (PawnOk s H).
      cbn [dead_square ranks_ahead]. unfold rankZ. rewrite E. reflexivity. }
    destruct (sp_shr o S _ (wf_piece_bitboard Pawn Black) NL) as [W E].
    split; [assumption|]. intros t. rewrite E. split.
    + destruct (sq_shift t 0 1) as [s|] eqn:Sh; [|discriminate]. intros H.
      rewrite (fu_from_black t s Sh). apply piece_bitboard_in in H. split; [assumption|].
      apply sq_shift_spec in Sh. rewrite displacedb_spec in Sh. destruct Sh as [F Rk].
      apply stepb_spec. exists (0, -1)%Z. split; [left; reflexivity|].
      split; cbn [orient fst snd] in *; lia.
    + intros [H1 H2]. apply stepb_spec in H2 as [v [[<-|[]] [F Rk]]].
      assert (Sh : sq_shift t 0 1 = Some (fu_from Black t)).
      { apply sq_shift_spec. apply displacedb_spec. split; cbn [orient fst snd] in *; lia. }
      rewrite Sh. apply piece_bitboard_in. assumption.
  - assert (NL : forall s, has (piece_bitboard o p Pawn White) s = true -> sqr s <> n9).
    { intros s H E. apply piece_bitboard_in in H. apply (PawnOk s H).
      cbn [dead_square ranks_ahead]. unfold rankZ. rewrite E. reflexivity. }
    destruct (sp_shl o S _ (wf_piece_bitboard Pawn White) NL) as [W E].
    split; [assumption|]. intros t. rewrite E. split.
    + destruct (sq_shift t 0 (-1)) as [s|] eqn:Sh; [|discriminate]. intros H.
      rewrite (fu_from_white t s Sh). apply piece_bitboard_in in H. split; [assumption|].
      apply sq_shift_spec in Sh. rewrite displacedb_spec in Sh. destruct Sh as [F Rk].
      apply stepb_spec. exists (0, -1)%Z. split; [left; reflexivity|].
      split; cbn [orient fst snd] in *; lia.
    + intros [H1 H2]. apply stepb_spec in H2 as [v [[<-|[]] [F Rk]]].
      assert (Sh : sq_shift t 0 (-1) = Some (fu_from White t)).
      { apply sq_shift_spec. apply displacedb_spec. split; cbn [orient fst snd] in *; lia. }
      rewrite Sh. apply piece_bitboard_in. assumption.
Qed.

Lemma fu_from_step d f t : stepb d Pawn f t = true -> fu_from d t = f.
Proof.
  intros H. apply stepb_spec in H as [v [[<-|[]] [F Rk]]].
  destruct d; [apply fu_from_black|apply fu_from_white];
    apply sq_shift_spec; apply displacedb_spec; split; cbn [orient fst snd] in *; lia.
Qed.

Lemma gen_fu_in tg m : wf S tg -> (In m (gen_fu o p tg) <-> bmove tg Pawn m).
Proof.
  intros W. unfold gen_fu. cbv zeta. fold fu_to. destruct fu_to_spec as [W1 E].
  rewrite in_flat_map. split.
  - intros [t [Ht H]]. apply iter_and_in in Ht as [H1 H2]; [|assumption|assumption].
    apply E in H1 as [H1 H3]. rewrite <- (reach_step (occb B)) in H3 by reflexivity.
    apply (push_forward_in (occb B) c Pawn) in H as [pr [-> Hp]]; [|reflexivity|assumption].
    exists (fu_from c t), t, pr. tauto.
  - intros [f [t [pr [-> [Hf [Ha [Ht Hp]]]]]]].
    pose proof Ha as Ha'. rewrite reach_step in Ha by reflexivity.
    pose proof (fu_from_step _ _ _ Ha) as Ff. exists t. split.
    + apply iter_and_in; [assumption|assumption|]. split; [|assumption]. apply E.
      rewrite Ff. tauto.
    + rewrite Ff. apply (push_forward_in (occb B) c Pawn); [reflexivity|assumption|]. eauto.
Qed.

Lemma gen_fu_NoDup tg : wf S tg -> NoDup (gen_fu o p tg).
Proof.
  intros W. unfold gen_fu. cbv zeta. fold fu_to. destruct fu_to_spec as [W1 E].
  apply NoDup_flat_map.
  - apply (iter_NoDup o S). apply (sp_wf_and o S); assumption.
  - intros t _. apply NoDup_push_forward.
  - intros t t' m _ _ H H'. apply push_forward_shape in H as [pr ->].
    apply push_forward_shape in H' as [pr' H']. congruence.
Qed.

(** ** All board moves *)

Lemma bmove_kind tg k k' m : bmove tg k m -> bmove tg k' m -> k = k'.
Proof.
  intros [f [t [pr [-> [H _]]]]] [f' [t' [pr' [E [H' _]]]]]. congruence.
Qed.

(* all generators but the king's *)
Definition gen_nonking (tg : BB) : list move :=
  gen_fu o p tg ++ gen_ky o p tg ++ gen_ke o p tg ++ gen_gi o p tg
  ++ gen_ka o p tg ++ gen_hi o p tg ++ gen_ki o p tg ++ gen_um o p tg ++ gen_ry o p tg.

Lemma gen_nonking_in tg m : wf S tg ->
  (In m (gen_nonking tg) <-> exists k, k <> King /\ bmove tg k m).
Proof.
  intros W. unfold gen_nonking. rewrite !in_app_iff.
  rewrite gen_fu_in, gen_ky_in, gen_ke_in, gen_gi_in, gen_ka_in, gen_hi_in, gen_ki_in,
    gen_um_in, gen_ry_in by assumption.
  split.
  - intros H. repeat destruct H as [H|H];
      try (eexists; split; [|exact H]; discriminate).
    destruct H as [k [Hk H]]. exists k. split; [|assumption]. intros ->. discriminate.
  - intros [k [Nk H]].
    destruct k; try tauto;
      do 6 right; left; eexists; (split; [|exact H]); reflexivity.
Qed.

Lemma NoDup_app_kinds (l1 l2 : list move) (P1 P2 : move -> Prop) :
  NoDup l1 -> NoDup l2 -> (forall m, In m l1 -> P1 m) -> (forall m, In m l2 -> P2 m) ->
  (forall m, P1 m -> P2 m -> False) -> NoDup (l1 ++ l2).
Proof.
  intros N1 N2 H1 H2 D. apply NoDup_app; [assumption|assumption|].
  intros m I1 I2. apply (D m); auto.
Qed.

Definition kmove (tg : BB) (q : kind -> bool) (m : move) : Prop :=
  exists k, q k = true /\ bmove tg k m.

Lemma kmove_disj tg q q' m : (forall k, q k = true -> q' k = true -> False) ->
  kmove tg q m -> kmove tg q' m -> False.
Proof.
  intros D [k [Q H]] [k' [Q' H']]. assert (k = k') by (eapply bmove_kind; eassumption).
  subst. eauto.
Qed.

Lemma gen_ou_NoDup tg : wf S tg -> NoDup (gen_ou o p tg).
Proof.
  intros W. unfold gen_ou. apply gen_from_NoDup; [apply wf_own|intros; apply wf_ou|assumption| |].
  - intros. apply NoDup_push_plain.
  - apply push_plain_shape.
Qed.

Lemma gen_nonking_NoDup tg : wf S tg -> NoDup (gen_nonking tg).
Proof.
  intros W. unfold gen_nonking.
  assert (K1 : forall k m, bmove tg k m -> kmove tg (kind_eqb k) m).
  { intros k m H. exists k. split; [apply kind_eqb_refl|assumption]. }
  assert (D1 : NoDup (gen_ky o p tg)).
  { apply gen_from_NoDup; [apply wf_own|intros; apply wf_ky_attack; apply Wocc|assumption| |].
    - intros. apply NoDup_push_forward.
    - apply push_forward_shape. }
  assert (D2 : NoDup (gen_ke o p tg)).
  { apply gen_from_NoDup; [apply wf_own|intros; apply wf_ke|assumption| |].
    - intros. apply NoDup_push_forward.
    - apply push_forward_shape. }
  assert (D3 : NoDup (gen_gi o p tg)).
  { apply gen_from_NoDup; [apply wf_own|intros; apply wf_gi|assumption| |].
    - intros. apply NoDup_push_optional.
    - apply push_optional_shape. }
  assert (D4 : NoDup (gen_ka o p tg)).
  { apply gen_from_NoDup; [apply wf_own|intros; apply wf_ka; apply Wocc|assumption| |].
    - intros. apply NoDup_push_optional.
    - apply push_optional_shape. }
  assert (D5 : NoDup (gen_hi o p tg)).
  { apply gen_from_NoDup; [apply wf_own|intros; apply wf_hi; apply Wocc|assumption| |].
    - intros. apply NoDup_push_optional.
    - apply push_optional_shape. }
  assert (D6 : NoDup (gen_ki o p tg)).
  { apply gen_from_NoDup; [apply wf_golds|intros; apply wf_ki|assumption| |].
    - intros. apply NoDup_push_plain.
    - apply push_plain_shape. }
  assert (D7 : NoDup (gen_um o p tg)).
  { apply gen_from_NoDup; [apply wf_own| |assumption| |].
    - intros f. apply (sp_wf_or o S); [apply wf_ka; apply Wocc|apply wf_ou].
    - intros. apply NoDup_push_plain.
    - apply push_plain_shape. }
  assert (D8 : NoDup (gen_ry o p tg)).
  { apply gen_from_NoDup; [apply wf_own| |assumption| |].
    - intros f. apply (sp_wf_or o S); [apply wf_hi; apply Wocc|apply wf_ou].
    - intros. apply NoDup_push_plain.
    - apply push_plain_shape. }
  set (q8 := fun k => match k with ProRook => true | _ => false end).
  set (q7 := fun k => match k with ProBishop => true | _ => q8 k end).
  set (q6 := fun k => goldlike k || q7 k).
  set (q5 := fun k => match k with Rook => true | _ => q6 k end).
  set (q4 := fun k => match k with Bishop => true | _ => q5 k end).
  set (q3 := fun k => match k with Silver => true | _ => q4 k end).
  set (q2 := fun k => match k with Knight => true | _ => q3 k end).
  set (q1 := fun k => match k with Lance => true | _ => q2 k end).
  assert (M : forall q q' m, (forall k, q k = true -> q' k = true) -> kmove tg q m -> kmove tg q' m).
  { intros q q' m H [k [Q Hm]]. exists k. auto. }
  assert (I8 : forall m, In m (gen_ry o p tg) -> kmove tg q8 m).
  { intros m H. apply gen_ry_in in H; [|assumption]. exists ProRook. auto. }
  assert (I7 : forall m, In m (gen_um o p tg ++ gen_ry o p tg) -> kmove tg q7 m).
  { intros m H. apply in_app_iff in H as [H|H].
    - apply gen_um_in in H; [|assumption]. exists ProBishop. auto.
    - apply I8 in H. revert H. apply M. intros []; cbn; congruence. }
  assert (I6 : forall m, In m (gen_ki o p tg ++ gen_um o p tg ++ gen_ry o p tg) -> kmove tg q6 m).
  { intros m H. apply in_app_iff in H as [H|H].
    - apply gen_ki_in in H as [k [Hk H]]; [|assumption]. exists k. unfold q6. rewrite Hk. auto.
    - apply I7 in H. revert H. apply M. intros []; cbn; congruence. }
  assert (I5 : forall m, In m (gen_hi o p tg ++ gen_ki o p tg ++ gen_um o p tg ++ gen_ry o p tg)
     -> kmove tg q5 m).
  { intros m H. apply in_app_iff in H as [H|H].
    - apply gen_hi_in in H; [|assumption]. exists Rook. auto.
    - apply I6 in H. revert H. apply M. intros []; cbn; congruence. }
  assert (I4 : forall m, In m (gen_ka o p tg ++ gen_hi o p tg ++ gen_ki o p tg ++ gen_um o p tg
     ++ gen_ry o p tg) -> kmove tg q4 m).
  { intros m H. apply in_app_iff in H as [H|H].
    - apply gen_ka_in in H; [|assumption]. exists Bishop. auto.
    - apply I5 in H. revert H. apply M. intros []; cbn; congruence. }
  assert (I3 : forall m, In m (gen_gi o p tg ++ gen_ka o p tg ++ gen_hi o p tg ++ gen_ki o p tg
     ++ gen_um o p tg ++ gen_ry o p tg) -> kmove tg q3 m).
  { intros m H. apply in_app_iff in H as [H|H].
    - apply gen_gi_in in H; [|assumption]. exists Silver. auto.
    - apply I4 in H. revert H. apply M. intros []; cbn; congruence. }
  assert (I2 : forall m, In m (gen_ke o p tg ++ gen_gi o p tg ++ gen_ka o p tg ++ gen_hi o p tg
     ++ gen_ki o p tg ++ gen_um o p tg ++ gen_ry o p tg) -> kmove tg q2 m).
  { intros m H. apply in_app_iff in H as [H|H].
    - apply gen_ke_in in H; [|assumption]. exists Knight. auto.
    - apply I3 in H. revert H. apply M. intros []; cbn; congruence. }
  assert (I1 : forall m, In m (gen_ky o p tg ++ gen_ke o p tg ++ gen_gi o p tg ++ gen_ka o p tg
     ++ gen_hi o p tg ++ gen_ki o p tg ++ gen_um o p tg ++ gen_ry o p tg) -> kmove tg q1 m).
  { intros m H. apply in_app_iff in H as [H|H].
    - apply gen_ky_in in H; [|assumption]. exists Lance. auto.
    - apply I2 in H. revert H. apply M. intros []; cbn; congruence. }
  apply (NoDup_app_kinds _ _ (kmove tg (kind_eqb Pawn)) (kmove tg q1));
    [apply gen_fu_NoDup; assumption| |intros m H; apply gen_fu_in in H; auto|exact I1|
     intros m; apply kmove_disj; intros []; cbn; discriminate].
  apply (NoDup_app_kinds _ _ (kmove tg (kind_eqb Lance)) (kmove tg q2));
    [assumption| |intros m H; apply gen_ky_in in H; auto|exact I2|
     intros m; apply kmove_disj; intros []; cbn; discriminate].
  apply (NoDup_app_kinds _ _ (kmove tg (kind_eqb Knight)) (kmove tg q3));
    [assumption| |intros m H; apply gen_ke_in in H; auto|exact I3|
     intros m; apply kmove_disj; intros []; cbn; discriminate].
  apply (NoDup_app_kinds _ _ (kmove tg (kind_eqb Silver)) (kmove tg q4));
    [assumption| |intros m H; apply gen_gi_in in H; auto|exact I4|
     intros m; apply kmove_disj; intros []; cbn; discriminate].
  apply (NoDup_app_kinds _ _ (kmove tg (kind_eqb Bishop)) (kmove tg q5));
    [assumption| |intros m H; apply gen_ka_in in H; auto|exact I5|
     intros m; apply kmove_disj; intros []; cbn; discriminate].
  apply (NoDup_app_kinds _ _ (kmove tg (kind_eqb Rook)) (kmove tg q6));
    [assumption| |intros m H; apply gen_hi_in in H; auto|exact I6|
     intros m; apply kmove_disj; intros []; cbn; discriminate].
  apply (NoDup_app_kinds _ _ (kmove tg goldlike) (kmove tg q7));
    [assumption| |intros m H; apply gen_ki_in in H; auto|exact I7|
     intros m; apply kmove_disj; intros []; cbn; discriminate].
  apply (NoDup_app_kinds _ _ (kmove tg (kind_eqb ProBishop)) (kmove tg q8));
    [assumption|assumption|intros m H; apply gen_um_in in H; auto|exact I8|
     intros m; apply kmove_disj; intros []; cbn; discriminate].
Qed.

End Gen.
