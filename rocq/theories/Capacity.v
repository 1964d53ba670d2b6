(** * The move buffer is large enough

    Every list of distinct pseudo-legal moves has at most 593 elements when
    the opponent has a king.  A square gives at most as many drops as there
    are kinds in hand that may stand there; a piece of the mover gives at most
    the moves it has on an empty board, but takes away the drops on its
    square.  Summing the difference over the pieces that are left when one of
    each kind is in hand gives 599, and the square of the opposing king takes
    away six more (four on the last rank, where it also blocks the rook). *)

From Coq Require Import List Bool Arith NArith ZArith Lia.
From Verif Require Import Types Rules Words Squares Geometry KingSafety Legality ValidPlay Decide Gen.
Import ListNotations.
Local Open Scope nat_scope.

(** ** Sums *)

Fixpoint sum {A} (f : A -> nat) (l : list A) : nat :=
  match l with [] => 0 | x :: l => f x + sum f l end.

Lemma sum_le {A} (f g : A -> nat) l : (forall x, In x l -> f x <= g x) -> sum f l <= sum g l.
Proof.
  induction l as [|x l IH]; intros H; cbn [sum]; [lia|].
  pose proof (H x (or_introl eq_refl)). pose proof (IH (fun y I => H y (or_intror I))). lia.
Qed.
Lemma sum_ext {A} (f g : A -> nat) l : (forall x, In x l -> f x = g x) -> sum f l = sum g l.
Proof.
  induction l as [|x l IH]; intros H; cbn [sum]; [reflexivity|].
  rewrite (H x (or_introl eq_refl)), (IH (fun y I => H y (or_intror I))). reflexivity.
Qed.
Lemma sum_add {A} (f g : A -> nat) l : sum (fun x => f x + g x) l = sum f l + sum g l.
Proof. induction l as [|x l IH]; cbn [sum]; lia. Qed.
Lemma sum_mul {A} (f : A -> nat) n l : sum (fun x => f x * n) l = sum f l * n.
Proof. induction l as [|x l IH]; cbn [sum]; lia. Qed.
Lemma sum_zero {A} (f : A -> nat) l : (forall x, In x l -> f x = 0) -> sum f l = 0.
Proof.
  induction l as [|x l IH]; intros H; cbn [sum]; [reflexivity|].
  rewrite (H x (or_introl eq_refl)), (IH (fun y I => H y (or_intror I))). reflexivity.
Qed.
Lemma sum_single K n l : NoDup l -> In K l -> sum (fun s => if sq_eqb s K then n else 0) l = n.
Proof.
  induction l as [|x l IH]; intros ND I; [destruct I|]. apply NoDup_cons_iff in ND as [Nx ND].
  cbn [sum]. destruct I as [->|I].
  - rewrite sq_eqb_refl. rewrite sum_zero; [lia|]. intros y J.
    rewrite sq_eqb_neq; [reflexivity|]. intros ->. contradiction.
  - rewrite sq_eqb_neq; [|intros ->; contradiction]. rewrite IH by assumption. reflexivity.
Qed.
Lemma length_flat_map {A B} (f : A -> list B) l : length (flat_map f l) = sum (fun x => length (f x)) l.
Proof. induction l as [|x l IH]; cbn [flat_map sum]; [reflexivity|]. rewrite app_length, IH. reflexivity. Qed.
Lemma filter_flat_map {A B} (p : B -> bool) (f : A -> list B) l :
  filter p (flat_map f l) = flat_map (fun x => filter p (f x)) l.
Proof.
  induction l as [|x l IH]; cbn [flat_map]; [reflexivity|]. rewrite filter_app, IH. reflexivity.
Qed.
Lemma filter_length_le {A} (p q : A -> bool) l : (forall x, In x l -> p x = true -> q x = true) ->
  length (filter p l) <= length (filter q l).
Proof.
  induction l as [|x l IH]; intros H; cbn [filter]; [lia|].
  pose proof (IH (fun y I => H y (or_intror I))).
  pose proof (H x (or_introl eq_refl)). destruct (p x); [rewrite H1 by reflexivity; cbn; lia|].
  destruct (q x); cbn; lia.
Qed.
Lemma filter_length_sum {A} (p : A -> bool) l : length (filter p l) = sum (fun x => b2n (p x)) l.
Proof. induction l as [|x l IH]; cbn [filter sum]; [reflexivity|]. destruct (p x); cbn; lia. Qed.
Lemma filter_none {A} (p : A -> bool) l : (forall x, In x l -> p x = false) -> length (filter p l) = 0.
Proof.
  intros H. rewrite filter_length_sum. apply sum_zero. intros x I. rewrite H by assumption. reflexivity.
Qed.

(** ** Moves by square *)

Definition moves_from (s : square) : list move :=
  flat_map (fun t => [Normal s t false; Normal s t true]) all_squares.
Definition drops_on (c : color) (s : square) : list move :=
  map (fun k => Drop s (mkP k c)) hand_kinds.

(* moves of a piece alone on the board, not counting those to [no] *)
Definition alone_ok (c : color) (k : kind) (no : square -> bool) (s : square) (m : move) : bool :=
  match m with
  | Normal _ t pr =>
      negb (no t) && (stepb c k s t || rideb c k s t) &&
      (if pr then match promote_kind k with Some _ => zoneb c s || zoneb c t | None => false end
       else negb (deadb c k t))
  | Drop _ _ => false
  end.
Definition mobility (c : color) (k : kind) (no : square -> bool) (s : square) : nat :=
  length (filter (alone_ok c k no s) (moves_from s)).

(* kinds of [h] that may be dropped on [s] *)
Definition droppable (c : color) (h : kind -> bool) (s : square) : nat :=
  length (filter (fun k => h k && negb (deadb c k s)) hand_kinds).

(* what a piece of base kind [k] gains at most *)
Definition gain (k : kind) : nat :=
  match k with Rook => 28 | Bishop => 17 | Silver => 4 | Lance => 3 | King => 2 | _ => 0 end.

Definition everything (k : kind) : bool := true.
Definition nowhere (s : square) : bool := false.

Lemma gain_spec c k s : mobility c k nowhere s <= droppable c everything s + gain (base_kind k).
Proof.
  assert (H : forallb (fun c => forallb (fun k => forallb (fun s =>
    Nat.leb (mobility c k nowhere s) (droppable c everything s + gain (base_kind k)))
    all_squares) all_kinds) all_colors = true) by (vm_cast_no_check (eq_refl true)).
  rewrite forallb_forall in H. specialize (H c (all_colors_in c)).
  rewrite forallb_forall in H. assert (I : In k all_kinds) by (destruct k; cbn; tauto).
  specialize (H k I). rewrite forallb_forall in H. specialize (H s (all_squares_in s)).
  apply Nat.leb_le in H. exact H.
Qed.

(* the opposing king on the last rank blocks a rook there *)
Lemma gain_rook c k s K : ranks_ahead c K = 0%Z -> base_kind k = Rook -> s <> K ->
  mobility c k (sq_eqb K) s <= droppable c everything s + 26.
Proof.
  assert (H : forallb (fun c => forallb (fun k => forallb (fun K => forallb (fun s =>
    sq_eqb s K || Nat.leb (mobility c k (sq_eqb K) s) (droppable c everything s + 26))
    all_squares) (filter (fun K => (ranks_ahead c K =? 0)%Z) all_squares)) [Rook; ProRook])
    all_colors = true) by (vm_cast_no_check (eq_refl true)).
  intros EK Ek N. rewrite forallb_forall in H. specialize (H c (all_colors_in c)).
  rewrite forallb_forall in H.
  assert (I : In k [Rook; ProRook]) by (destruct k; try discriminate; cbn; tauto).
  specialize (H k I). rewrite forallb_forall in H. specialize (H K).
  rewrite forallb_forall in H. rewrite filter_In in H.
  specialize (H ltac:(split; [apply all_squares_in|lia]) s (all_squares_in s)).
  rewrite sq_eqb_neq in H by assumption. apply Nat.leb_le in H. exact H.
Qed.

Lemma mobility_le c k no no' s : (forall t, no' t = true -> no t = true) ->
  mobility c k no s <= mobility c k no' s.
Proof.
  intros H. apply filter_length_le. intros [f t pr|t x] _; cbn [alone_ok]; [|discriminate].
  rewrite !andb_true_iff, !negb_true_iff. intros [[H1 H2] H3]. split; [|assumption].
  split; [|assumption]. destruct (no' t) eqn:E; [|reflexivity]. rewrite (H t E) in H1. discriminate.
Qed.

Lemma droppable_less c h s :
  droppable c everything s <= droppable c h s + length (filter (fun k => negb (h k)) hand_kinds).
Proof.
  unfold droppable, everything. cbn [andb].
  induction hand_kinds as [|k l IH]; cbn [filter length]; [lia|].
  destruct (deadb c k s), (h k); cbn [negb andb length]; lia.
Qed.

(* the squares where a kind may be dropped *)
Lemma drop_squares c k : In k hand_kinds ->
  sum (fun s => b2n (negb (deadb c k s))) all_squares =
  match k with Pawn | Lance => 72 | Knight => 63 | _ => 81 end.
Proof.
  intros I. cbn in I. destruct c; repeat (destruct I as [<-|I]; [vm_compute; reflexivity|]);
    contradiction.
Qed.

Lemma sum_droppable c h : sum (droppable c h) all_squares =
  b2n (h Pawn) * 72 + (b2n (h Lance) * 72 + (b2n (h Knight) * 63 + (b2n (h Silver) * 81 +
  (b2n (h Gold) * 81 + (b2n (h Bishop) * 81 + b2n (h Rook) * 81))))).
Proof.
  assert (E : forall k, In k hand_kinds ->
    sum (fun s => b2n (h k && negb (deadb c k s))) all_squares =
    b2n (h k) * match k with Pawn | Lance => 72 | Knight => 63 | _ => 81 end).
  { intros k I. rewrite <- (drop_squares c k I). destruct (h k); cbn [andb b2n].
    - lia.
    - rewrite sum_zero; [reflexivity|reflexivity]. }
  rewrite (sum_ext _ (fun s => b2n (h Pawn && negb (deadb c Pawn s)) +
    (b2n (h Lance && negb (deadb c Lance s)) + (b2n (h Knight && negb (deadb c Knight s)) +
    (b2n (h Silver && negb (deadb c Silver s)) + (b2n (h Gold && negb (deadb c Gold s)) +
    (b2n (h Bishop && negb (deadb c Bishop s)) + b2n (h Rook && negb (deadb c Rook s))))))))).
  - rewrite !sum_add, !E by (cbn; tauto). reflexivity.
  - intros s _. unfold droppable. rewrite filter_length_sum. cbn [sum hand_kinds]. lia.
Qed.

(** ** Counting *)

Section Count.
Context (g : game) (V : valid g) (HO : hand_ok g) (M : standard_material g)
  (K : square) (EK : g_board g K = Some (mkP King (flip (g_side g)))).
Notation b := (g_board g).
Notation c := (g_side g).

Definition held (k : kind) : bool := (0 <? g_hand g c k)%N.
Definition own_base (k : kind) (x : option piece) : bool :=
  match x with
  | Some p => color_eqb (pcolor p) c && kind_eqb (base_kind (pkind p)) k
  | None => false
  end.
Definition own_count (k : kind) : nat := sum (fun s => b2n (own_base k (b s))) all_squares.
Definition missing : nat := length (filter (fun k => negb (held k)) hand_kinds).
Definition gain' (k : kind) : nat :=
  match k with Rook => if (ranks_ahead c K =? 0)%Z then 26 else 28 | _ => gain k end.

Lemma own_count_le k : own_count k + b2n (held k) + b2n (kind_eqb k King) <= N.to_nat (full_set k).
Proof.
  pose proof (M k) as H. rewrite material_count in H.
  assert (C : own_count k + b2n (kind_eqb k King) <= count (is_base k) b).
  { unfold own_count, count. rewrite filter_length_sum.
    assert (E : sum (fun s => if sq_eqb s K then b2n (kind_eqb k King) else 0) all_squares =
                b2n (kind_eqb k King)) by (apply sum_single; [apply all_squares_NoDup|apply all_squares_in]).
    rewrite <- E, <- sum_add. apply sum_le. intros s _. unfold own_base, is_base.
    destruct (sq_eqb_spec s K) as [Es|Ns].
    - subst s. rewrite EK. cbn [pcolor pkind].
      assert (F : color_eqb (flip c) c = false) by (destruct c; reflexivity). rewrite F.
      cbn [andb b2n]. change (base_kind King) with King.
      destruct (kind_eqb_spec k King), (kind_eqb_spec King k); try congruence; cbn; lia.
    - destruct (b s) as [[k' d]|]; cbn [pcolor pkind b2n]; [|lia].
      destruct (color_eqb d c), (kind_eqb (base_kind k') k); cbn; lia. }
  assert (Hh : b2n (held k) <= N.to_nat (g_hand g Black k + g_hand g White k)).
  { unfold held. destruct c; destruct (N.ltb_spec 0 (g_hand g Black k));
      destruct (N.ltb_spec 0 (g_hand g White k)); cbn [b2n]; lia. }
  lia.
Qed.

Lemma from_own s k m : b s = Some (mkP k c) -> In m (moves_from s) ->
  pseudo_legalb g m = true -> alone_ok c k (sq_eqb K) s m = true.
Proof.
  intros Bs I P. unfold moves_from in I. apply in_flat_map in I as [t [_ I]].
  assert (E : exists pr, m = Normal s t pr) by (cbn in I; destruct I as [<-|[<-|[]]]; eauto).
  destruct E as [pr ->]. cbn [alone_ok].
  assert (Nt : sq_eqb K t = false).
  { apply sq_eqb_neq. intros <-. apply pseudo_legalb_spec in P.
    exact (no_king_capture g s K pr _ V P EK). }
  rewrite Nt. cbn [negb andb]. cbn [pseudo_legalb] in P. rewrite Bs in P.
  rewrite color_eqb_refl in P. cbn [andb] in P.
  apply andb_true_iff in P as [P P3]. apply andb_true_iff in P as [_ P2].
  apply andb_true_iff. split; [|exact P3].
  unfold reachb in P2. apply orb_true_iff in P2. apply orb_true_iff.
  destruct P2 as [P2|P2]; [tauto|]. right. apply andb_true_iff in P2. tauto.
Qed.

(* what one square contributes *)
Lemma square_bound s :
  length (filter (pseudo_legalb g) (moves_from s ++ drops_on c s)) +
    (if sq_eqb s K then droppable c held K else 0)
  <= droppable c held s +
     match b s with
     | Some p => if color_eqb (pcolor p) c then gain' (base_kind (pkind p)) + missing else 0
     | None => 0
     end.
Proof.
  rewrite filter_app, app_length.
  assert (NF : own_at b c s = false -> length (filter (pseudo_legalb g) (moves_from s)) = 0).
  { intros O. apply filter_none. intros m I. unfold moves_from in I.
    apply in_flat_map in I as [t [_ I]].
    assert (E : exists pr, m = Normal s t pr) by (cbn in I; destruct I as [<-|[<-|[]]]; eauto).
    destruct E as [pr ->]. cbn [pseudo_legalb]. unfold own_at in O.
    destruct (b s) as [[k d]|]; [|reflexivity]. cbn [pcolor] in O. rewrite O. reflexivity. }
  assert (ND : b s <> None -> length (filter (pseudo_legalb g) (drops_on c s)) = 0).
  { intros O. apply filter_none. intros m I. unfold drops_on in I.
    apply in_map_iff in I as [k [<- _]]. cbn [pseudo_legalb].
    destruct (b s); [|congruence]. rewrite andb_false_r. reflexivity. }
  destruct (b s) as [[k d]|] eqn:Bs.
  - rewrite ND by discriminate. cbn [pcolor pkind].
    destruct (color_eqb_spec d c) as [Ed|Nd].
    + subst d. rewrite (sq_eqb_neq s K).
      2:{ intros ->. rewrite EK in Bs. injection Bs as _ Bs. destruct c; discriminate. }
      assert (L : length (filter (pseudo_legalb g) (moves_from s)) <= mobility c k (sq_eqb K) s).
      { apply filter_length_le. intros m I P. apply (from_own s k m Bs I P). }
      assert (G : mobility c k (sq_eqb K) s <= droppable c everything s + gain' (base_kind k)).
      { unfold gain'. destruct (kind_eqb_spec (base_kind k) Rook) as [Er|Nr].
        - rewrite Er. destruct (Z.eqb_spec (ranks_ahead c K) 0) as [E0|E0].
          + apply gain_rook; [assumption|assumption|]. intros ->. rewrite EK in Bs.
            injection Bs as _ Bs. destruct c; discriminate.
          + pose proof (gain_spec c k s) as H. rewrite Er in H. cbn [gain] in H.
            pose proof (mobility_le c k (sq_eqb K) nowhere s ltac:(discriminate)). lia.
        - pose proof (gain_spec c k s) as H.
          pose proof (mobility_le c k (sq_eqb K) nowhere s ltac:(discriminate)).
          destruct (base_kind k); try congruence; lia. }
      pose proof (droppable_less c held s). fold missing in H. lia.
    + rewrite NF; [|unfold own_at; rewrite Bs; cbn [pcolor]; destruct (color_eqb_spec d c); congruence].
      destruct (sq_eqb_spec s K) as [Es|Ns]; [subst s|]; lia.
  - rewrite NF; [|unfold own_at; rewrite Bs; reflexivity].
    rewrite (sq_eqb_neq s K) by congruence.
    assert (D : length (filter (pseudo_legalb g) (drops_on c s)) <= droppable c held s).
    { unfold droppable, drops_on. clear NF ND.
      induction hand_kinds as [|k l IH]; cbn [map filter length]; [lia|].
      destruct (pseudo_legalb g (Drop s (mkP k c))) eqn:P.
      - cbn [pseudo_legalb pkind pcolor] in P. rewrite !andb_true_iff in P.
        unfold held at 1. destruct P as [[[[_ P1] _] P2] _]. rewrite P1, P2. cbn [andb length]. lia.
      - destruct (held k && negb (deadb c k s)); cbn [length]; lia. }
    lia.
Qed.

Lemma own_sum (w : kind -> nat) :
  sum (fun s => match b s with
     | Some p => if color_eqb (pcolor p) c then w (base_kind (pkind p)) else 0
     | None => 0 end) all_squares =
  own_count Pawn * w Pawn + (own_count Lance * w Lance + (own_count Knight * w Knight +
  (own_count Silver * w Silver + (own_count Gold * w Gold + (own_count Bishop * w Bishop +
  (own_count Rook * w Rook + own_count King * w King)))))).
Proof.
  unfold own_count. rewrite <- !sum_mul, <- !sum_add. apply sum_ext. intros s _. unfold own_base.
  destruct (b s) as [[k d]|]; [|reflexivity]. cbn [pcolor pkind].
  destruct (color_eqb d c); [|reflexivity]. destruct k; cbn; lia.
Qed.

Theorem pseudo_legal_bound l : NoDup l -> (forall m, In m l -> pseudo_legal g m) -> length l <= 593.
Proof.
  intros ND P.
  set (ms := flat_map (fun s => moves_from s ++ drops_on c s) all_squares).
  assert (L : length l <= length (filter (pseudo_legalb g) ms)).
  { apply NoDup_incl_length; [assumption|]. intros m I. apply filter_In.
    split; [|apply pseudo_legalb_spec; apply P; assumption].
    specialize (P m I). unfold ms. apply in_flat_map. destruct m as [f t pr|t [k d]].
    - exists f. split; [apply all_squares_in|]. apply in_app_iff. left. unfold moves_from.
      apply in_flat_map. exists t. split; [apply all_squares_in|]. destruct pr; cbn; tauto.
    - exists t. split; [apply all_squares_in|]. apply in_app_iff. right. unfold drops_on.
      destruct P as [Pc [Ph _]]. cbn [pcolor pkind] in Pc, Ph. subst d.
      apply (in_map (fun k => Drop t (mkP k c))).
      destruct (in_dec kind_dec k hand_kinds) as [I'|N]; [assumption|].
      rewrite (HO c k N) in Ph. lia. }
  unfold ms in L. rewrite filter_flat_map, length_flat_map in L.
  pose proof (sum_le _ _ all_squares (fun s _ => square_bound s)) as B.
  rewrite !sum_add in B. rewrite (sum_single K) in B by (apply all_squares_NoDup || apply all_squares_in).
  rewrite sum_droppable in B.
  rewrite (own_sum (fun k => gain' k + missing)) in B.
  pose proof (own_count_le Pawn) as C1. pose proof (own_count_le Lance) as C2.
  pose proof (own_count_le Knight) as C3. pose proof (own_count_le Silver) as C4.
  pose proof (own_count_le Gold) as C5. pose proof (own_count_le Bishop) as C6.
  pose proof (own_count_le Rook) as C7. pose proof (own_count_le King) as C8.
  assert (DK : held Pawn = true -> held Lance = true -> held Knight = true -> held Silver = true ->
    held Gold = true -> held Bishop = true -> held Rook = true ->
    6 + (if (ranks_ahead c K =? 0)%Z then 0 else 2) <= droppable c held K + 2).
  { intros E1 E2 E3 E4 E5 E6 E7. unfold droppable. rewrite filter_length_sum. cbn [sum hand_kinds].
    rewrite E1, E2, E3, E4, E5, E6, E7. cbn [andb deadb negb b2n].
    destruct (Z.eqb_spec (ranks_ahead c K) 0), (Z.ltb_spec (ranks_ahead c K) 1),
      (Z.ltb_spec (ranks_ahead c K) 2); cbn [negb b2n]; try lia.
    exfalso. revert n H. clear. destruct c, K as [f r]; destruct r; cbn; lia. }
  assert (J : missing + b2n (held Pawn) + b2n (held Lance) + b2n (held Knight) + b2n (held Silver)
    + b2n (held Gold) + b2n (held Bishop) + b2n (held Rook) = 7).
  { unfold missing. rewrite filter_length_sum. cbn [sum hand_kinds].
    destruct (held Pawn), (held Lance), (held Knight), (held Silver), (held Gold), (held Bishop),
      (held Rook); reflexivity. }
  assert (G : gain' Rook = if (ranks_ahead c K =? 0)%Z then 26 else 28) by reflexivity.
  change (gain' Pawn) with 0 in B. change (gain' Lance) with 3 in B. change (gain' Knight) with 0 in B.
  change (gain' Silver) with 4 in B. change (gain' Gold) with 0 in B. change (gain' Bishop) with 17 in B.
  change (gain' King) with 2 in B. rewrite G in B. clear G ND P.
  cbn [kind_eqb b2n full_set] in C1, C2, C3, C4, C5, C6, C7, C8.
  change (N.to_nat 18) with 18 in *. change (N.to_nat 4) with 4 in *. change (N.to_nat 2) with 2 in *.
  assert (T : (own_count Pawn + own_count Lance + own_count Knight + own_count Silver + own_count Gold
    + own_count Bishop + own_count Rook + own_count King) * missing <= 40 * missing)
    by (apply Nat.mul_le_mono_r; lia).
  rewrite !Nat.mul_add_distr_r in T. rewrite !Nat.mul_add_distr_l in B.
  assert (A : forall x, b2n x <= 1) by (intros []; cbn; lia).
  pose proof (A (held Pawn)). pose proof (A (held Lance)). pose proof (A (held Knight)).
  pose proof (A (held Silver)). pose proof (A (held Gold)). pose proof (A (held Bishop)).
  pose proof (A (held Rook)).
  destruct (Nat.eq_dec missing 0) as [J0|J0].
  - assert (A' : forall x, b2n x = 1 -> x = true) by (intros []; cbn; congruence).
    specialize (DK ltac:(apply A'; lia) ltac:(apply A'; lia) ltac:(apply A'; lia)
      ltac:(apply A'; lia) ltac:(apply A'; lia) ltac:(apply A'; lia) ltac:(apply A'; lia)).
    rewrite J0 in *. destruct (ranks_ahead c K =? 0)%Z; lia.
  - clear DK. assert (R : own_count Rook * (if (ranks_ahead c K =? 0)%Z then 26 else 28)
      <= own_count Rook * 28) by (destruct (_ =? 0)%Z; lia). lia.
Qed.

End Count.
