(** * Checking that many keys are different

    Keys are compared by 20 digits of two bits (bits 1 to 40); [nodup] sorts a
    list digit by digit. *)

From Coq Require Import List Bool NArith Lia Permutation.
Import ListNotations.

Inductive digits := QE | Q0 (_ : digits) | Q1 (_ : digits) | Q2 (_ : digits) | Q3 (_ : digits).

Fixpoint qxor (a b : digits) : digits :=
  match a with
  | QE => QE
  | Q0 a => match b with QE => QE | Q0 b => Q0 (qxor a b) | Q1 b => Q1 (qxor a b)
                    | Q2 b => Q2 (qxor a b) | Q3 b => Q3 (qxor a b) end
  | Q1 a => match b with QE => QE | Q0 b => Q1 (qxor a b) | Q1 b => Q0 (qxor a b)
                    | Q2 b => Q3 (qxor a b) | Q3 b => Q2 (qxor a b) end
  | Q2 a => match b with QE => QE | Q0 b => Q2 (qxor a b) | Q1 b => Q3 (qxor a b)
                    | Q2 b => Q0 (qxor a b) | Q3 b => Q1 (qxor a b) end
  | Q3 a => match b with QE => QE | Q0 b => Q3 (qxor a b) | Q1 b => Q2 (qxor a b)
                    | Q2 b => Q1 (qxor a b) | Q3 b => Q0 (qxor a b) end
  end.

(* [n] digits of [x], the lowest first *)
Fixpoint code (n : nat) (x : N) : digits :=
  match n with
  | O => QE
  | S n =>
      let r := code n (N.shiftr x 2) in
      match N.testbit x 0, N.testbit x 1 with
      | false, false => Q0 r | true, false => Q1 r
      | false, true => Q2 r | true, true => Q3 r
      end
  end.

Lemma code_lxor n : forall x y, code n (N.lxor x y) = qxor (code n x) (code n y).
Proof.
  induction n as [|n IH]; intros x y; [reflexivity|]. cbn [code].
  rewrite !N.lxor_spec, N.shiftr_lxor, IH.
  destruct (N.testbit x 0), (N.testbit x 1), (N.testbit y 0), (N.testbit y 1); reflexivity.
Qed.

(* the rests of the elements that start with a given digit *)
Inductive digit := D0 | D1 | D2 | D3.
Definition dxor (a b : digit) : digit :=
  match a with
  | D0 => b
  | D1 => match b with D0 => D1 | D1 => D0 | D2 => D3 | D3 => D2 end
  | D2 => match b with D0 => D2 | D1 => D3 | D2 => D0 | D3 => D1 end
  | D3 => match b with D0 => D3 | D1 => D2 | D2 => D1 | D3 => D0 end
  end.
Definition put (d : digit) (x : digits) : digits :=
  match d with D0 => Q0 x | D1 => Q1 x | D2 => Q2 x | D3 => Q3 x end.
Definition rest (d : digit) (x : digits) : list digits :=
  match d, x with
  | D0, Q0 y | D1, Q1 y | D2, Q2 y | D3, Q3 y => [y]
  | _, _ => []
  end.
Definition rests (d : digit) (l : list digits) : list digits := flat_map (rest d) l.

Lemma rest_put d e x : rest d (put e x) = if match d, e with
  | D0, D0 | D1, D1 | D2, D2 | D3, D3 => true | _, _ => false end then [x] else [].
Proof. destruct d, e; reflexivity. Qed.
Lemma in_rests d l y : In y (rests d l) <-> In (put d y) l.
Proof.
  unfold rests. rewrite in_flat_map. split.
  - intros [x [I J]]. destruct d, x; cbn in J; try contradiction; destruct J as [<-|[]]; exact I.
  - intros I. exists (put d y). split; [exact I|]. destruct d; left; reflexivity.
Qed.
Lemma rests_app d l r : rests d (l ++ r) = rests d l ++ rests d r.
Proof. apply flat_map_app. Qed.

Lemma NoDup_rests l : ~ In QE l -> (forall d, NoDup (rests d l)) -> NoDup l.
Proof.
  induction l as [|x l IH]; intros NE H; constructor.
  - intros I. assert (E : exists d y, x = put d y).
    { destruct x as [|y|y|y|y]; [exfalso; apply NE; left; reflexivity| | | |];
        [exists D0, y|exists D1, y|exists D2, y|exists D3, y]; reflexivity. }
    destruct E as [d [y ->]]. specialize (H d). cbn [rests flat_map] in H.
    assert (R : rest d (put d y) = [y]) by (destruct d; reflexivity). rewrite R in H. cbn [app] in H.
    apply NoDup_cons_iff in H as [H _]. apply H. apply in_rests. exact I.
  - apply IH; [intros I; apply NE; right; exact I|]. intros d. specialize (H d). cbn [rests flat_map] in H.
    clear - H. induction (rest d x) as [|y r IH]; [exact H|]. apply IH. apply NoDup_cons_iff in H. apply H.
Qed.

(** ** Sorting by the first digit *)

Definition four := (list digits * list digits * list digits * list digits)%type.
Fixpoint split4 (l a b c d : list digits) : option four :=
  match l with
  | [] => Some (a, b, c, d)
  | x :: l =>
    match x with
    | QE => None
    | Q0 x => split4 l (x :: a) b c d
    | Q1 x => split4 l a (x :: b) c d
    | Q2 x => split4 l a b (x :: c) d
    | Q3 x => split4 l a b c (x :: d)
    end
  end.
Definition pick (d : digit) (f : four) : list digits :=
  match f with (x, y, z, w) => match d with D0 => x | D1 => y | D2 => z | D3 => w end end.

Lemma split4_spec l : forall a b c d f, split4 l a b c d = Some f ->
  ~ In QE l /\
  pick D0 f = rev (rests D0 l) ++ a /\ pick D1 f = rev (rests D1 l) ++ b /\
  pick D2 f = rev (rests D2 l) ++ c /\ pick D3 f = rev (rests D3 l) ++ d.
Proof.
  induction l as [|x l IH]; intros a b c d f E.
  - injection E as <-. split; [intros []|]. repeat split.
  - destruct x as [|x|x|x|x]; cbn [split4] in E; [discriminate| | | |];
      apply IH in E as [NE [A [B [C D]]]];
      (split; [intros [I|I]; [discriminate|contradiction]|]);
      unfold rests in *; cbn [flat_map rest app rev]; rewrite A, B, C, D, <- ?app_assoc; repeat split.
Qed.

Fixpoint nodup (n : nat) (l : list digits) : bool :=
  match l with
  | [] => true
  | [_] => true
  | _ =>
    match n with
    | O => false
    | S n =>
      match split4 l [] [] [] [] with
      | None => false
      | Some (a, b, c, d) =>
          if nodup n a then if nodup n b then if nodup n c then nodup n d else false else false else false
      end
    end
  end.

Lemma nodup_unfold n l : nodup (S n) l = match l with
  | [] => true | [_] => true
  | _ => match split4 l [] [] [] [] with
      | None => false
      | Some (a, b, c, d) =>
          if nodup n a then if nodup n b then if nodup n c then nodup n d else false else false else false
      end end.
Proof. destruct l as [|x [|y l]]; reflexivity. Qed.

Lemma nodup_spec n : forall l, nodup n l = true -> NoDup l.
Proof.
  induction n as [|n IH]; intros l H.
  - destruct l as [|x [|y l]]; [constructor|repeat constructor; intros []|discriminate].
  - rewrite nodup_unfold in H.
    assert (T : match split4 l [] [] [] [] with
      | None => false
      | Some (a, b, c, d) =>
          if nodup n a then if nodup n b then if nodup n c then nodup n d else false else false else false
      end = true -> NoDup l).
    { destruct (split4 l [] [] [] []) as [[[[a b] c] d]|] eqn:E; [|discriminate].
      apply split4_spec in E as [NE [A [B [C D]]]]. cbn [pick] in *. rewrite app_nil_r in *.
      destruct (nodup n a) eqn:Na; [|discriminate]. destruct (nodup n b) eqn:Nb; [|discriminate].
      destruct (nodup n c) eqn:Nc; [|discriminate]. intros Nd.
      apply NoDup_rests; [exact NE|].
      intros e. apply (Permutation_NoDup (Permutation_sym (Permutation_rev (rests e l)))).
      destruct e; [rewrite <- A|rewrite <- B|rewrite <- C|rewrite <- D]; apply IH; assumption. }
    destruct l as [|x [|y l]]; [constructor|repeat constructor; intros []|exact (T H)].
Qed.

(** ** Sums of two lists, by first digit *)

(* [rev_append] of the sums of [x] with the elements of [l] *)
Fixpoint add_sums (x : digits) (l acc : list digits) : list digits :=
  match l with [] => acc | y :: l => add_sums x l (qxor x y :: acc) end.

Lemma add_sums_spec x l : forall acc, Permutation (add_sums x l acc) (map (qxor x) l ++ acc).
Proof.
  induction l as [|y l IH]; intros acc; [apply Permutation_refl|]. cbn [add_sums map app].
  rewrite IH. symmetry. apply Permutation_middle.
Qed.

(* the rests of the sums of [a] with a list given by its four parts *)
Definition add_row (d : digit) (f : four) (acc : list digits) (a : digits) : list digits :=
  match a with
  | QE => acc
  | Q0 x => add_sums x (pick d f) acc
  | Q1 x => add_sums x (pick (dxor D1 d) f) acc
  | Q2 x => add_sums x (pick (dxor D2 d) f) acc
  | Q3 x => add_sums x (pick (dxor D3 d) f) acc
  end.

Lemma rests_map d e x l : rests d (map (qxor (put e x)) l) = map (qxor x) (rests (dxor e d) l).
Proof.
  unfold rests. induction l as [|y l IH]; [reflexivity|]. cbn [map flat_map]. rewrite IH, map_app. f_equal.
  destruct d, e, y; reflexivity.
Qed.
Lemma rests_QE d l : rests d (map (qxor QE) l) = [].
Proof. induction l as [|y l IH]; [reflexivity|]. cbn [map rests flat_map]. fold (rests d (map (qxor QE) l)). rewrite IH. destruct d; reflexivity. Qed.

Lemma pick_split d l f : split4 l [] [] [] [] = Some f -> Permutation (pick d f) (rests d l).
Proof.
  intros E. apply split4_spec in E as [_ [A [B [C D]]]]. rewrite app_nil_r in *.
  destruct d; [rewrite A|rewrite B|rewrite C|rewrite D]; symmetry; apply Permutation_rev.
Qed.

Lemma add_row_spec d l f acc a : split4 l [] [] [] [] = Some f ->
  Permutation (add_row d f acc a) (rests d (map (qxor a) l) ++ acc).
Proof.
  intros E. destruct a as [|x|x|x|x]; cbn [add_row].
  - rewrite rests_QE. apply Permutation_refl.
  - change (Q0 x) with (put D0 x). rewrite rests_map, add_sums_spec, (pick_split _ _ _ E). apply Permutation_refl.
  - change (Q1 x) with (put D1 x). rewrite rests_map, add_sums_spec, (pick_split _ _ _ E). apply Permutation_refl.
  - change (Q2 x) with (put D2 x). rewrite rests_map, add_sums_spec, (pick_split _ _ _ E). apply Permutation_refl.
  - change (Q3 x) with (put D3 x). rewrite rests_map, add_sums_spec, (pick_split _ _ _ E). apply Permutation_refl.
Qed.

Lemma add_rows_spec d l f (as_ : list digits) : split4 l [] [] [] [] = Some f -> forall acc,
  Permutation (fold_left (add_row d f) as_ acc) (rests d (flat_map (fun a => map (qxor a) l) as_) ++ acc).
Proof.
  intros E. induction as_ as [|a as_ IH]; intros acc; [apply Permutation_refl|]. cbn [fold_left flat_map].
  rewrite IH, (add_row_spec d l f acc a E), rests_app, app_assoc, <- app_assoc.
  rewrite app_assoc. apply Permutation_app_tail. apply Permutation_app_comm.
Qed.

Fixpoint add_rests (d : digit) (l acc : list digits) : list digits :=
  match l with
  | [] => acc
  | x :: l => add_rests d l (match rest d x with [y] => y :: acc | _ => acc end)
  end.
Lemma add_rests_spec d l : forall acc, Permutation (add_rests d l acc) (rests d l ++ acc).
Proof.
  induction l as [|x l IH]; intros acc; [apply Permutation_refl|]. cbn [add_rests rests flat_map].
  fold (rests d l). rewrite IH.
  assert (R : rest d x = [] \/ exists y, rest d x = [y]) by (destruct d, x; cbn; eauto).
  destruct R as [->|[y ->]]; [apply Permutation_refl|]. cbn [app]. symmetry. apply Permutation_middle.
Qed.

Lemma nodup_map_inj {A B} (f : A -> B) l x y :
  NoDup (map f l) -> In x l -> In y l -> f x = f y -> x = y.
Proof.
  induction l as [|a l IH]; [intros _ []|]. cbn [map]. intros ND I J E. apply NoDup_cons_iff in ND as [Na ND].
  destruct I as [->|I], J as [->|J]; [reflexivity| | |auto].
  - exfalso. apply Na. rewrite E. apply in_map. exact J.
  - exfalso. apply Na. rewrite <- E. apply in_map. exact I.
Qed.
