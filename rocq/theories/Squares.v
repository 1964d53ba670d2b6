(** * Basic facts about colours, kinds, squares and arrays *)

From Coq Require Import List Bool NArith ZArith Lia.
From Verif Require Import Types Words.
Import ListNotations.

(** ** Decidable equality *)

Lemma color_eqb_spec a b : reflect (a = b) (color_eqb a b).
Proof. destruct a, b; constructor; congruence. Qed.
Lemma kind_eqb_spec a b : reflect (a = b) (kind_eqb a b).
Proof. destruct a, b; constructor; congruence. Qed.
Lemma i9_eqb_spec a b : reflect (a = b) (i9_eqb a b).
Proof. destruct a, b; constructor; congruence. Qed.
Lemma sq_eqb_spec a b : reflect (a = b) (sq_eqb a b).
Proof.
  destruct a as [f r], b as [f' r']. unfold sq_eqb. cbn.
  destruct (i9_eqb_spec f f'), (i9_eqb_spec r r'); constructor; congruence.
Qed.
Lemma piece_eqb_spec a b : reflect (a = b) (piece_eqb a b).
Proof.
  destruct a as [k c], b as [k' c']. unfold piece_eqb. cbn.
  destruct (kind_eqb_spec k k'), (color_eqb_spec c c'); constructor; congruence.
Qed.

Lemma sq_eqb_refl s : sq_eqb s s = true.
Proof. destruct (sq_eqb_spec s s); congruence. Qed.
Lemma sq_eqb_sym s t : sq_eqb s t = sq_eqb t s.
Proof. destruct (sq_eqb_spec s t), (sq_eqb_spec t s); congruence. Qed.
Lemma sq_eqb_neq s t : s <> t -> sq_eqb s t = false.
Proof. destruct (sq_eqb_spec s t); congruence. Qed.
Lemma color_eqb_refl s : color_eqb s s = true.
Proof. destruct s; reflexivity. Qed.
Lemma kind_eqb_refl s : kind_eqb s s = true.
Proof. destruct s; reflexivity. Qed.

Lemma color_dec (a b : color) : {a = b} + {a <> b}.
Proof. decide equality. Qed.
Lemma kind_dec (a b : kind) : {a = b} + {a <> b}.
Proof. decide equality. Qed.
Lemma i9_dec (a b : i9) : {a = b} + {a <> b}.
Proof. decide equality. Qed.
Lemma sq_dec (a b : square) : {a = b} + {a <> b}.
Proof. decide equality; apply i9_dec. Qed.
Lemma piece_dec (a b : piece) : {a = b} + {a <> b}.
Proof. decide equality; [apply color_dec|apply kind_dec]. Qed.
Lemma move_dec (a b : move) : {a = b} + {a <> b}.
Proof. decide equality; try apply sq_dec; try apply piece_dec; apply bool_dec. Qed.

Lemma flip_flip c : flip (flip c) = c.
Proof. destruct c; reflexivity. Qed.
Lemma flip_neq c : flip c <> c.
Proof. destruct c; discriminate. Qed.
Lemma color_cases c d : d = c \/ d = flip c.
Proof. destruct c, d; auto. Qed.

(** ** Enumerations *)

Lemma all9_in i : In i all9.
Proof. destruct i; cbn; tauto. Qed.

Lemma all_squares_in s : In s all_squares.
Proof.
  destruct s as [f r]. unfold all_squares. apply in_flat_map.
  exists f. split; [apply all9_in|]. apply in_map_iff. exists r.
  split; [reflexivity|apply all9_in].
Qed.

Lemma all_kinds_in k : In k all_kinds.
Proof. destruct k; cbn; tauto. Qed.
Lemma all_colors_in c : In c all_colors.
Proof. destruct c; cbn; tauto. Qed.

Lemma sq_forall (P : square -> bool) :
  forallb P all_squares = true -> forall s, P s = true.
Proof. intros H s. rewrite forallb_forall in H. apply H, all_squares_in. Qed.

Lemma sq_forall2 (P : square -> square -> bool) :
  forallb (fun s => forallb (P s) all_squares) all_squares = true ->
  forall s t, P s t = true.
Proof. intros H s t. apply (sq_forall (P s)). revert s. apply sq_forall, H. Qed.

Lemma sq_forall3 (P : square -> square -> square -> bool) :
  forallb (fun s => forallb (fun t => forallb (P s t) all_squares) all_squares)
    all_squares = true ->
  forall s t u, P s t u = true.
Proof.
  intros H s t u. apply (sq_forall (P s t)). revert s t.
  apply (sq_forall2 (fun s t => forallb (P s t) all_squares)), H.
Qed.

Lemma all_squares_NoDup : NoDup all_squares.
Proof.
  assert (H : forall l : list square,
    (fix nd l := match l with
      | [] => true | x :: l => negb (existsb (sq_eqb x) l) && nd l end) l = true
    -> NoDup l).
  { induction l as [|x l IH]; intros H; constructor.
    - apply andb_prop in H as [H _]. intros Hin.
      rewrite negb_true_iff in H. apply not_true_iff_false in H. apply H.
      apply existsb_exists. exists x. split; [assumption|apply sq_eqb_refl].
    - apply IH. apply andb_prop in H. tauto. }
  apply H. vm_compute. reflexivity.
Qed.

(** ** Indices *)

Lemma sq_index_lt s : (sq_index s < 81)%N.
Proof.
  apply N.ltb_lt. revert s.
  apply (sq_forall (fun s => (sq_index s <? 81)%N)). vm_compute. reflexivity.
Qed.

Lemma sq_of_u8_index s : sq_of_u8 (sq_index s + 1) = s.
Proof.
  assert (H : sq_eqb (sq_of_u8 (sq_index s + 1)) s = true).
  { revert s. apply (sq_forall (fun s => sq_eqb (sq_of_u8 (sq_index s + 1)) s)).
    vm_compute. reflexivity. }
  destruct (sq_eqb_spec (sq_of_u8 (sq_index s + 1)) s); [assumption|discriminate].
Qed.

Lemma sq_index_inj s t : sq_index s = sq_index t -> s = t.
Proof.
  intros H. rewrite <- (sq_of_u8_index s), <- (sq_of_u8_index t), H. reflexivity.
Qed.

Lemma map_sq_index : map sq_index all_squares = Nseq 0 81.
Proof. vm_compute. reflexivity. Qed.

Lemma all_squares_map : all_squares = map (fun i => sq_of_u8 (i + 1)) (Nseq 0 81).
Proof. vm_compute. reflexivity. Qed.

Lemma sq_index_of i : (i < 81)%N -> sq_index (sq_of_u8 (i + 1)) = i.
Proof.
  intros H. assert (Hin : In i (Nseq 0 81)) by (apply in_Nseq; cbn; lia).
  rewrite <- map_sq_index in Hin. apply in_map_iff in Hin as [s [<- _]].
  rewrite sq_of_u8_index. reflexivity.
Qed.

(** ** Arrays *)

Lemma v9_get_set_eq {A} (v : v9 A) i x : v9_get (v9_set v i x) i = x.
Proof. destruct v, i; reflexivity. Qed.
Lemma v9_get_set_neq {A} (v : v9 A) i j x : i <> j ->
  v9_get (v9_set v i x) j = v9_get v j.
Proof. destruct v, i, j; congruence || reflexivity. Qed.
Lemma v9_set_get {A} (v : v9 A) i : v9_set v i (v9_get v i) = v.
Proof. destruct v, i; reflexivity. Qed.
Lemma v9_set_set {A} (v : v9 A) i x y : v9_set (v9_set v i x) i y = v9_set v i y.
Proof. destruct v, i; reflexivity. Qed.
Lemma v9_set_comm {A} (v : v9 A) i j x y : i <> j ->
  v9_set (v9_set v i x) j y = v9_set (v9_set v j y) i x.
Proof. destruct v, i, j; congruence || reflexivity. Qed.
Lemma v9_ext {A} (v w : v9 A) : (forall i, v9_get v i = v9_get w i) -> v = w.
Proof.
  intros H. destruct v, w.
  pose proof (H n1); pose proof (H n2); pose proof (H n3); pose proof (H n4);
  pose proof (H n5); pose proof (H n6); pose proof (H n7); pose proof (H n8);
  pose proof (H n9). cbn in *. congruence.
Qed.

Lemma sa_get_set {A} (v : sqarr A) s x t :
  sa_get (sa_set v s x) t = if sq_eqb t s then x else sa_get v t.
Proof.
  unfold sa_get, sa_set. destruct s as [f r], t as [f' r']. cbn [sqf sqr].
  unfold sq_eqb. cbn [sqf sqr].
  destruct (i9_eqb_spec f' f) as [->|Hf]; cbn.
  - rewrite v9_get_set_eq. destruct (i9_eqb_spec r' r) as [->|Hr].
    + apply v9_get_set_eq.
    + apply v9_get_set_neq. congruence.
  - rewrite v9_get_set_neq by congruence. reflexivity.
Qed.
Lemma sa_ext {A} (v w : sqarr A) : (forall s, sa_get v s = sa_get w s) -> v = w.
Proof.
  intros H. apply v9_ext. intros i. apply v9_ext. intros j. apply (H (Sq i j)).
Qed.
Lemma v9_get_make {A} (f : i9 -> A) i : v9_get (v9_make f) i = f i.
Proof. destruct i; reflexivity. Qed.
Lemma sa_get_make {A} (f : square -> A) s : sa_get (sa_make f) s = f s.
Proof.
  destruct s as [i j]. unfold sa_get, sa_make. cbn.
  rewrite !v9_get_make. reflexivity.
Qed.

Lemma c_get_set {A} (v : carr A) c x d :
  c_get (c_set v c x) d = if color_eqb d c then x else c_get v d.
Proof. destruct c, d; reflexivity. Qed.
Lemma c_ext {A} (v w : carr A) : (forall c, c_get v c = c_get w c) -> v = w.
Proof.
  intros H. destruct v, w. pose proof (H Black). pose proof (H White).
  cbn in *. congruence.
Qed.
Lemma k_get_set {A} (v : karr A) k x j :
  k_get (k_set v k x) j = if kind_eqb j k then x else k_get v j.
Proof. destruct v, k, j; reflexivity. Qed.
Lemma k_ext {A} (v w : karr A) : (forall c, k_get v c = k_get w c) -> v = w.
Proof.
  intros H. destruct v, w.
  pose proof (H Pawn); pose proof (H Lance); pose proof (H Knight);
  pose proof (H Silver); pose proof (H Gold); pose proof (H Bishop);
  pose proof (H Rook); pose proof (H King); pose proof (H ProPawn);
  pose proof (H ProLance); pose proof (H ProKnight); pose proof (H ProSilver);
  pose proof (H ProBishop); pose proof (H ProRook). cbn in *. congruence.
Qed.
Lemma k_get_const {A} (x : A) k : k_get (k_const x) k = x.
Proof. destruct k; reflexivity. Qed.
