(** * Legal moves keep positions valid (rules only) *)

From Coq Require Import List Bool NArith ZArith Lia.
From Verif Require Import Types Rules Words Squares Geometry KingSafety Legality.
Import ListNotations.
Open Scope Z_scope.

(** ** Kings are never captured *)

Lemma no_king_capture g f t pr d : valid g -> pseudo_legal g (Normal f t pr) ->
  g_board g t <> Some (mkP King d).
Proof.
  intros V [k [Bf [Ct [Rf _]]]] Bt.
  destruct (color_cases (g_side g) d) as [->| ->]; [exact (Ct _ Bt)|].
  apply (v_check g V). exists t. split; [assumption|]. exists f, k. rewrite flip_flip. tauto.
Qed.

Lemma king_stays g m d s : valid g -> pseudo_legal g m ->
  g_board g s = Some (mkP King d) -> exists s', g_board (play g m) s' = Some (mkP King d).
Proof.
  intros V P Bs. destruct m as [f t pr|t x].
  - pose proof P as P'. destruct P' as [k [Bf [Ct [Rf Pr]]]].
    rewrite (play_normal_board g f t pr k _ Bf).
    destruct (sq_eqb_spec s f) as [->|N].
    + exists t. rewrite after_t. rewrite Bf in Bs. injection Bs as -> ->.
      destruct pr; reflexivity.
    + exists s. rewrite after_other; [assumption| |apply sq_eqb_neq; assumption].
      intros ->. exact (no_king_capture g f t pr d V P Bs).
  - exists s. rewrite play_drop_board, after_other; [assumption| |reflexivity].
    intros ->. destruct P as [_ [_ [P _]]]. congruence.
Qed.

(** ** Validity *)

Lemma pawn_reach_file b c f t : reaches b c Pawn f t -> fileZ t = fileZ f.
Proof.
  intros [[v [[<-|[]] [F _]]]|[v [n [[] _]]]]. destruct c; cbn [orient fst snd] in F; lia.
Qed.

Lemma pawn_not_promoted k : promoted_kind k <> Pawn.
Proof. destruct k; discriminate. Qed.

Lemma flip_side c : flip c <> c.
Proof. destruct c; discriminate. Qed.

(* no kings in hand *)
Definition hand_ok (g : game) : Prop :=
  forall c k, ~ In k hand_kinds -> g_hand g c k = 0%N.

Lemma valid_play g m : valid g -> hand_ok g -> legal g m -> valid (play g m).
Proof.
  intros V HO [P [Safe _]]. destruct m as [f t pr|t x].
  - pose proof P as P'. destruct P' as [k [Bf [Ct [Rf Pr]]]].
    set (k' := if pr then promoted_kind k else k).
    assert (E : forall u, g_board (play g (Normal f t pr)) u =
      after (g_board g) (only f) t (mkP k' (g_side g)) u).
    { intros u. rewrite (play_normal_board g f t pr k _ Bf). reflexivity. }
    assert (PawnMoved : k' = Pawn -> k = Pawn /\ pr = false).
    { unfold k'. destruct pr; [|tauto]. intros H. destruct (pawn_not_promoted k H). }
    assert (Pawns : forall d s, after (g_board g) (only f) t (mkP k' (g_side g)) s = Some (mkP Pawn d) ->
       (s = t /\ k' = Pawn /\ d = g_side g) \/ (s <> f /\ g_board g s = Some (mkP Pawn d))).
    { intros d s H. unfold after, only in H. destruct (sq_eqb_spec s t) as [Es|N].
      - subst s. injection H as H1 H2. symmetry in H2. tauto.
      - destruct (sq_eqb_spec s f); [discriminate|]. tauto. }
    constructor.
    + intros c s u. rewrite !E.
      apply (kings_after_move (g_board g) f t k k' (g_side g) (v_king g V) Bf).
      unfold k'. destruct pr; [apply promoted_king|tauto].
    + cbn [play g_side]. rewrite flip_flip. exact Safe.
    + intros d s H. rewrite E in H. apply Pawns in H as [[-> [H ->]]|[_ H]].
      * apply PawnMoved in H as [-> ->]. exact Pr.
      * apply (v_pawn g V d s H).
    + intros d s u Hs Hu F. rewrite E in Hs, Hu.
      apply Pawns in Hs as [[-> [Hs ->]]|[Ns Hs]]; apply Pawns in Hu as [[-> [Hu Eu]]|[Nu Hu]].
      * reflexivity.
      * apply PawnMoved in Hs as [-> _]. apply pawn_reach_file in Rf.
        exfalso. apply Nu. apply (v_nifu g V (g_side g) u f); [assumption|assumption|congruence].
      * subst d. apply PawnMoved in Hu as [-> _]. apply pawn_reach_file in Rf.
        exfalso. apply Ns. apply (v_nifu g V (g_side g) s f); [assumption|assumption|congruence].
      * apply (v_nifu g V d); assumption.
  - destruct P as [Cx [Hx [Bt [Dx Nx]]]].
    assert (Nk : pkind x <> King).
    { intros E. rewrite E, (HO _ King) in Hx; [lia|]. cbn. intuition discriminate. }
    assert (Pawns : forall d s, g_board (play g (Drop t x)) s = Some (mkP Pawn d) ->
       (s = t /\ pkind x = Pawn /\ d = g_side g) \/ (s <> t /\ g_board g s = Some (mkP Pawn d))).
    { intros d s H. rewrite play_drop_board in H. unfold after, nothing in H.
      destruct (sq_eqb_spec s t) as [Es|N]; [|tauto]. subst s. injection H as ->. cbn in *. tauto. }
    constructor.
    + rewrite play_drop_board. exact (kings_after_drop (g_board g) t x (v_king g V) Nk).
    + cbn [play g_side]. rewrite flip_flip. exact Safe.
    + intros d s H. apply Pawns in H as [[-> [H ->]]|[_ H]].
      * rewrite H in Dx. exact Dx.
      * apply (v_pawn g V d s H).
    + intros d s u Hs Hu F.
      apply Pawns in Hs as [[-> [Hs ->]]|[Ns Hs]]; apply Pawns in Hu as [[-> [Hu Eu]]|[Nu Hu]].
      * reflexivity.
      * exfalso. apply (Nx Hs u Hu). congruence.
      * subst d. exfalso. apply (Nx Hu s Hs). congruence.
      * apply (v_nifu g V d); assumption.
Qed.

(** ** Material *)

Definition count (P : option piece -> bool) (b : board) : nat :=
  length (filter (fun s => P (b s)) all_squares).

Definition b2n (x : bool) : nat := if x then 1%nat else 0%nat.

Lemma count_list P (b : board) s x l : NoDup l ->
  (length (filter (fun u => P (upd b s x u)) l) + (if in_dec sq_dec s l then b2n (P (b s)) else 0) =
   length (filter (fun u => P (b u)) l) + (if in_dec sq_dec s l then b2n (P x) else 0))%nat.
Proof.
  induction l as [|y l IH]; intros ND; [reflexivity|].
  inversion ND as [|? ? Ny ND']; subst. specialize (IH ND'). cbn [filter].
  unfold upd at 1. destruct (sq_eqb_spec y s) as [->|N].
  - destruct (in_dec sq_dec s (s :: l)) as [_|Q]; [|exfalso; apply Q; left; reflexivity].
    destruct (in_dec sq_dec s l); [contradiction|].
    destruct (P x), (P (b s)); cbn [length b2n]; lia.
  - destruct (in_dec sq_dec s (y :: l)) as [[Q|Q]|Q]; [congruence| |].
    + destruct (in_dec sq_dec s l); [|contradiction]. destruct (P (b y)); cbn [length]; lia.
    + destruct (in_dec sq_dec s l) as [Q'|]; [exfalso; apply Q; right; assumption|].
      destruct (P (b y)); cbn [length]; lia.
Qed.

Lemma count_upd P b s x :
  (count P (upd b s x) + b2n (P (b s)) = count P b + b2n (P x))%nat.
Proof.
  pose proof (count_list P b s x all_squares all_squares_NoDup) as H.
  destruct (in_dec sq_dec s all_squares) as [_|N]; [exact H|].
  exfalso. apply N. apply all_squares_in.
Qed.

Lemma material_count g k :
  material g k = (N.of_nat (count (is_base k) (g_board g)) + g_hand g Black k + g_hand g White k)%N.
Proof. reflexivity. Qed.

Lemma base_promoted k : base_kind (promoted_kind k) = base_kind k.
Proof. destruct k; reflexivity. Qed.

Lemma hands_upd h c k n j :
  (upd_hand h c k n Black j + upd_hand h c k n White j + (if kind_eqb j k then h c k else 0) =
   h Black j + h White j + (if kind_eqb j k then n else 0))%N.
Proof.
  unfold upd_hand. destruct (kind_eqb_spec j k) as [->|N]; destruct c; cbn [color_eqb andb]; lia.
Qed.

Lemma material_play g m k : hand_ok g -> pseudo_legal g m ->
  material (play g m) k = material g k.
Proof.
  intros HO P. rewrite !material_count. destruct m as [f t pr|t x].
  - destruct P as [k0 [Bf [Ct [Rf Pr]]]].
    assert (Nft : f <> t) by (intros ->; exact (Ct _ Bf)).
    cbn [play g_board g_hand]. rewrite Bf. cbn [pkind pcolor].
    set (k' := if pr then promoted_kind k0 else k0).
    pose proof (count_upd (is_base k) (g_board g) f None) as H1.
    pose proof (count_upd (is_base k) (upd (g_board g) f None) t (Some (mkP k' (g_side g)))) as H2.
    assert (E : upd (g_board g) f None t = g_board g t).
    { unfold upd. rewrite sq_eqb_neq by congruence. reflexivity. }
    rewrite E in H2. rewrite Bf in H1.
    assert (Eb : is_base k (Some (mkP k' (g_side g))) = is_base k (Some (mkP k0 (g_side g)))).
    { cbn. f_equal. unfold k'. destruct pr; [apply base_promoted|reflexivity]. }
    rewrite Eb in H2. cbn [is_base b2n] in H1.
    destruct (g_board g t) as [q|].
    + pose proof (hands_upd (g_hand g) (g_side g) (base_kind (pkind q))
        (g_hand g (g_side g) (base_kind (pkind q)) + 1) k) as H3.
      cbn [is_base] in H2.
      destruct (kind_eqb_spec (base_kind (pkind q)) k) as [Ek|Nk];
      destruct (kind_eqb_spec k (base_kind (pkind q))) as [Ek'|Nk']; try congruence;
        cbn [b2n] in H2; lia.
    + cbn [is_base b2n] in H2. lia.
  - destruct P as [Cx [Hx [Bt _]]]. cbn [play g_board g_hand].
    assert (Bk : base_kind (pkind x) = pkind x).
    { destruct (in_dec kind_dec (pkind x) hand_kinds) as [I|I].
      - cbn in I. intuition (subst; match goal with H : _ = pkind x |- _ => rewrite <- H end; reflexivity).
      - rewrite (HO _ _ I) in Hx. lia. }
    pose proof (count_upd (is_base k) (g_board g) t (Some x)) as H1.
    rewrite Bt in H1. cbn [is_base b2n] in H1. rewrite Bk in H1.
    pose proof (hands_upd (g_hand g) (g_side g) (pkind x)
        (g_hand g (g_side g) (pkind x) - 1) k) as H3.
    destruct (kind_eqb_spec (pkind x) k) as [Ek|Nk];
      destruct (kind_eqb_spec k (pkind x)) as [Ek'|Nk']; try congruence; cbn [b2n] in H1; lia.
Qed.

Lemma hand_ok_play g m : valid g -> hand_ok g -> pseudo_legal g m -> hand_ok (play g m).
Proof.
  intros V HO P c k Nk. destruct m as [f t pr|t x].
  - pose proof (fun d => no_king_capture g f t pr d V P) as NC.
    cbn [play g_hand]. destruct (g_board g t) as [q|]; [|apply HO; assumption].
    unfold upd_hand. destruct (kind_eqb_spec k (base_kind (pkind q))) as [->|N].
    + exfalso. apply Nk. destruct q as [[] d]; cbn; try tauto. exfalso. apply (NC d). reflexivity.
    + rewrite andb_false_r. apply HO. assumption.
  - cbn [play g_hand]. unfold upd_hand.
    destruct (kind_eqb_spec k (pkind x)) as [->|N].
    + rewrite !(HO _ _ Nk). destruct (_ && _); reflexivity.
    + rewrite andb_false_r. apply HO. assumption.
Qed.

(* fewer than 18 pieces of a kind are in hand when one is on the board *)
Lemma base_full g k : standard_material g -> forall c, (g_hand g c k <= 18)%N.
Proof.
  intros M c. specialize (M k). rewrite material_count in M.
  assert (full_set k <= 18)%N by (destruct k; cbn; lia). destruct c; lia.
Qed.

Lemma hand_room g t q : standard_material g -> g_board g t = Some q ->
  forall c, (g_hand g c (base_kind (pkind q)) < 18)%N.
Proof.
  intros M Bt c. specialize (M (base_kind (pkind q))). rewrite material_count in M.
  pose proof (count_upd (is_base (base_kind (pkind q))) (g_board g) t None) as H.
  rewrite Bt in H. cbn [is_base] in H. rewrite kind_eqb_refl in H. cbn [b2n] in H.
  assert (full_set (base_kind (pkind q)) <= 18)%N by (destruct (pkind q); cbn; lia).
  destruct c; lia.
Qed.

(** ** Playing respects equality of games *)

Lemma upd_ext b b' s x x' : (forall u, b u = b' u) -> x = x' -> forall u, upd b s x u = upd b' s x' u.
Proof. intros H -> u. unfold upd. destruct (sq_eqb u s); auto. Qed.

Lemma same_refl g : same_game g g.
Proof. repeat split. Qed.
Lemma same_sym g h : same_game g h -> same_game h g.
Proof. intros [H1 [H2 H3]]. repeat split; intros; symmetry; auto. Qed.
Lemma same_trans g h i : same_game g h -> same_game h i -> same_game g i.
Proof.
  intros [H1 [H2 H3]] [K1 [K2 K3]]. repeat split; intros; congruence.
Qed.

Lemma play_same g h m : same_game g h -> same_game (play g m) (play h m).
Proof.
  intros [Hb [Hh Hs]]. destruct m as [f t pr|t x]; cbn [play].
  - rewrite <- !Hb, <- Hs. split; [|split; [|reflexivity]].
    + cbn [g_board]. intros u. apply upd_ext; [|reflexivity]. intros v. apply upd_ext; auto.
    + cbn [g_hand]. intros c k. destruct (g_board g t); [|apply Hh].
      unfold upd_hand. rewrite !Hh. reflexivity.
  - rewrite <- Hs. split; [|split; [|reflexivity]].
    + cbn [g_board]. intros u. apply upd_ext; auto.
    + cbn [g_hand]. intros c k. unfold upd_hand. rewrite !Hh. reflexivity.
Qed.

Lemma reaches_same b b' c k s t : (forall u, b u = b' u) -> reaches b c k s t -> reaches b' c k s t.
Proof.
  intros H [Q|[v [n [H1 [H2 [H3 H4]]]]]]; [left; assumption|right].
  exists v, n. repeat (split; [assumption|]). intros i u Hi Hd. rewrite <- H. eauto.
Qed.
Lemma attacked_same b b' c t : (forall u, b u = b' u) -> attacked b c t -> attacked b' c t.
Proof.
  intros H [s [k [B Rs]]]. exists s, k. split; [rewrite <- H; assumption|].
  apply (reaches_same b); assumption.
Qed.
Lemma in_check_same b b' c : (forall u, b u = b' u) -> (in_check b c <-> in_check b' c).
Proof.
  intros H. split; intros [s [B A]]; exists s.
  - split; [rewrite <- H; assumption|]. apply (attacked_same b); assumption.
  - split; [rewrite H; assumption|]. apply (attacked_same b'); [congruence|assumption].
Qed.

Lemma pseudo_same g h m : same_game g h -> pseudo_legal g m -> pseudo_legal h m.
Proof.
  intros [Hb [Hh Hs]]. destruct m as [f t pr|t x]; cbn [pseudo_legal].
  - rewrite <- Hs. intros [k [H1 [H2 [H3 H4]]]]. exists k. rewrite <- !Hb.
    repeat (split; [assumption|]). split; [|assumption].
    apply (reaches_same (g_board g)); assumption.
  - rewrite <- Hs, <- Hb, <- Hh. intros [H1 [H2 [H3 [H4 H5]]]]. repeat (split; [assumption|]).
    intros E s. rewrite <- Hb. auto.
Qed.

Lemma checkmated_same g h : same_game g h -> checkmated g -> checkmated h.
Proof.
  intros E [H1 H2]. pose proof E as [Hb [Hh Hs]]. split.
  - rewrite <- Hs. apply (in_check_same (g_board g)); [assumption|]. exact H1.
  - intros m P. rewrite <- Hs. apply (in_check_same (g_board (play g m))).
    + apply play_same. assumption.
    + apply H2. apply (pseudo_same h); [apply same_sym|]; assumption.
Qed.

Lemma legal_same g h m : same_game g h -> legal g m -> legal h m.
Proof.
  intros E [H1 [H2 H3]]. pose proof E as [Hb [Hh Hs]]. split; [|split].
  - apply (pseudo_same g); assumption.
  - rewrite <- Hs. rewrite <- (in_check_same (g_board (play g m))); [assumption|].
    apply play_same. assumption.
  - intros [Q1 Q2]. apply H3. split; [assumption|].
    apply (checkmated_same (play h m)); [|assumption]. apply play_same. apply same_sym. assumption.
Qed.

Lemma valid_same g h : same_game g h -> valid g -> valid h.
Proof.
  intros E V. pose proof E as [Hb [Hh Hs]]. constructor.
  - intros c s t. rewrite <- !Hb. apply (v_king g V).
  - rewrite <- Hs. rewrite <- (in_check_same (g_board g)); [apply (v_check g V)|assumption].
  - intros c s. rewrite <- Hb. apply (v_pawn g V).
  - intros c s t. rewrite <- !Hb. apply (v_nifu g V).
Qed.

Lemma material_same g h k : same_game g h -> material g k = material h k.
Proof.
  intros [Hb [Hh Hs]]. unfold material. rewrite !Hh. do 3 f_equal.
  f_equal. apply filter_ext. intros s. rewrite Hb. reflexivity.
Qed.
