(** * The buffer of legal_moves and its filtering loop *)

From Coq Require Import List Bool Arith NArith ZArith Lia Permutation.
From Verif Require Import Types Rules Bitboard Tables Zobrist Position Movegen Api
  Words Squares Geometry BBSpec Attacks KingSafety Rep Legality PawnDrop Gen Drops Exact.
Import ListNotations.
Local Open Scope nat_scope.

Lemma set_nth_app {A} (a b : list A) x y : set_nth (length a) y (a ++ x :: b) = a ++ y :: b.
Proof. induction a as [|z a IH]; cbn; [reflexivity|]. rewrite IH. reflexivity. Qed.

Lemma swap_remove_last {A} (a : list A) x : swap_remove (length a) (a ++ [x]) = Some a.
Proof.
  unfold swap_remove. rewrite app_length. cbn [length].
  destruct (Nat.ltb_spec (length a) (length a + 1)); [|lia].
  rewrite rev_app_distr. cbn [rev app]. rewrite set_nth_app.
  rewrite removelast_app by discriminate. cbn. rewrite app_nil_r. reflexivity.
Qed.

Lemma swap_remove_mid {A} (a b : list A) x y :
  swap_remove (length a) (a ++ x :: b ++ [y]) = Some (a ++ y :: b).
Proof.
  unfold swap_remove. rewrite app_length. cbn [length].
  destruct (Nat.ltb_spec (length a) (length a + Datatypes.S (length (b ++ [y])))); [|lia].
  rewrite rev_app_distr. cbn [rev]. rewrite rev_app_distr. cbn [rev app].
  rewrite set_nth_app. f_equal. rewrite app_comm_cons, app_assoc.
  rewrite removelast_app by discriminate. cbn. apply app_nil_r.
Qed.

Lemma filter_loop_inv {A} (p : A -> bool) fuel : forall a b, length b <= fuel ->
  exists r, filter_loop fuel p (length a) (a ++ b) = Some r /\
            Permutation r (a ++ filter p b).
Proof.
  induction fuel as [|fuel IH]; intros a b L.
  - destruct b; [|cbn in L; lia]. exists a. cbn [filter_loop]. rewrite app_nil_r.
    rewrite Nat.eqb_refl. split; [reflexivity|]. cbn. rewrite app_nil_r. reflexivity.
  - cbn [filter_loop]. destruct b as [|x b].
    + rewrite app_nil_r, Nat.eqb_refl. exists a. split; [reflexivity|]. cbn.
      rewrite app_nil_r. reflexivity.
    + rewrite app_length. cbn [length] in *.
      destruct (Nat.eqb_spec (length a) (length a + Datatypes.S (length b))); [lia|].
      rewrite nth_error_app2, Nat.sub_diag by lia. cbn [nth_error filter].
      destruct (p x).
      * destruct (IH (a ++ [x]) b) as [r [E P]]; [lia|].
        rewrite app_length in E. cbn [length] in E. rewrite Nat.add_1_r in E.
        rewrite <- app_assoc in E. exists r. split; [exact E|].
        rewrite <- app_assoc in P. exact P.
      * destruct b as [|y b] using rev_ind; [|clear IHb].
        -- rewrite swap_remove_last. cbn [bind]. destruct (IH a [] ltac:(cbn; lia)) as [r [E P]].
           rewrite app_nil_r in E. exists r. split; [exact E|exact P].
        -- rewrite swap_remove_mid. cbn [bind]. rewrite app_length in L. cbn [length] in L.
           destruct (IH a (y :: b)) as [r [E P]]; [cbn; lia|].
           exists r. split; [exact E|]. rewrite P. apply Permutation_app_head.
           rewrite filter_app. cbn [filter]. destruct (p y).
           ++ apply Permutation_cons_append.
           ++ rewrite app_nil_r. reflexivity.
Qed.

(** The loop ends and keeps the accepted elements, each as often as it was
    there. *)
Lemma filter_loop_spec {A} (p : A -> bool) n l : length l <= n ->
  exists r, filter_loop n p 0 l = Some r /\ Permutation r (filter p l).
Proof. intros L. exact (filter_loop_inv p n [] l L). Qed.

(** ** The buffer *)

Lemma push_fold ms : forall av, length av <= MAX_LEGAL_MOVES ->
  fold_left (fun av m => let* av := av in av_push av m) ms (Some av) =
  if Nat.leb (length av + length ms) MAX_LEGAL_MOVES then Some (av ++ ms) else None.
Proof.
  assert (N : forall ms, fold_left (fun av m => let* av := av in av_push av m) ms None = None).
  { clear. induction ms as [|m ms IH]; [reflexivity|]. exact IH. }
  induction ms as [|m ms IH]; intros av L; cbn [fold_left length].
  - rewrite Nat.add_0_r, app_nil_r. destruct (Nat.leb_spec (length av) MAX_LEGAL_MOVES);
      [reflexivity|lia].
  - cbn [bind]. unfold av_push at 2. destruct (Nat.ltb_spec (length av) MAX_LEGAL_MOVES) as [H|H].
    + rewrite IH by (rewrite app_length; cbn [length]; lia).
      rewrite app_length, <- app_assoc. cbn [length app].
      replace (length av + 1 + length ms) with (length av + Datatypes.S (length ms)) by lia.
      reflexivity.
    + rewrite N. destruct (Nat.leb_spec (length av + Datatypes.S (length ms)) MAX_LEGAL_MOVES);
        [lia|reflexivity].
Qed.

Lemma push_all_spec ms :
  push_all ms = if Nat.leb (length ms) MAX_LEGAL_MOVES then Some ms else None.
Proof. unfold push_all. rewrite push_fold by (cbn [length]; lia). reflexivity. Qed.

(** ** legal_moves *)

Section Moves.
Context (o : bbops) (S : bbspec o).
Context (pos : position o) (st : state o).
Notation p := (p_inner o pos).
Notation g := (gview o p).
Context (R : rep o S p) (V : orderly g).
Context (St : pos_state o pos = Some st).
Context (Ai : s_attack_info o st = attack_info_new o (calculate_checkers o p) p).

Lemma legal_moves_spec : exists cs,
  candidates o p (s_attack_info o st) = Some cs /\ NoDup cs /\
  (forall m, In m cs -> pseudo_legal g m) /\
  (length cs <= MAX_LEGAL_MOVES -> exists l, legal_moves o pos = Some l) /\
  (MAX_LEGAL_MOVES < length cs -> legal_moves o pos = None) /\
  (forall l, legal_moves o pos = Some l ->
     NoDup l /\ forall m, In m l <-> legal g m).
Proof.
  destruct (candidates_spec o S p R (s_attack_info o st) V Ai) as [cs [E [ND [P L]]]].
  exists cs. split; [exact E|]. split; [assumption|]. split; [assumption|].
  assert (H : legal_moves o pos =
     let* av := push_all cs in filter_loop (length av) (is_legal o p (s_attack_info o st)) 0 av).
  { unfold legal_moves. rewrite St. cbn [bind]. unfold candidates in E.
    rewrite E. reflexivity. }
  rewrite H, push_all_spec.
  destruct (filter_loop_spec (is_legal o p (s_attack_info o st)) (length cs) cs (le_n _))
    as [r [Er Pr]].
  destruct (Nat.leb_spec (length cs) MAX_LEGAL_MOVES) as [Le|Le]; cbn [bind].
  - rewrite Er. split; [eauto|]. split; [lia|].
    intros l [= <-]. split.
    + eapply Permutation_NoDup; [symmetry; exact Pr|]. apply NoDup_filter. assumption.
    + intros m. rewrite <- L, <- filter_In.
      split; apply Permutation_in; [exact Pr|symmetry; exact Pr].
  - split; [lia|]. split; [reflexivity|]. discriminate.
Qed.

End Moves.
