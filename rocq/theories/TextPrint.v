(** * What a run prints

    The machine of RustSem.v is stuck at println!.  Here it goes on, with the unit as
    the value, and the arguments are kept together with the variables, which the
    format can name (examples/perft.rs:43, the only println! in what is run). *)

From Coq Require Import List Bool NArith ZArith String Lia.
From Verif Require Import Types Bitboard Tables Zobrist Position Movegen RustSyntax RustNames RustSem TextDefs TextRun TextInit TextZob TextAlone.
Import ListNotations.

Section Print.
Context (o : bbops) (checks : bool) (P : gprog N) (St : N -> option (val o)).
Notation step := (step o checks P St).
Notation iter := (iter o checks P St).
Notation steps := (steps o checks P St).

(* the arguments and the variables *)
Definition line : Type := list (val o) * env o.
(* all the arguments of println! have been evaluated *)
Definition printing (c : cfg o) : option (line * kont o) :=
  match c with
  | Run _ (CVal _ v) e (KArgs _ (BMacro _ m) l [] _ :: k) =>
      if (m =? id_println)%N then Some ((revapp (v :: l) [], e), k) else None
  | _ => None
  end.
Definition pstep (c : cfg o) : cfg o * list line :=
  match printing c with
  | Some (l, k) => (Run o (CVal o (VUnit o)) (snd l) k, [l])
  | None => (step c, [])
  end.
Fixpoint piter (n : nat) (c : cfg o) : cfg o * list line :=
  match n with
  | O => (c, [])
  | S n => let x := pstep c in let y := piter n (fst x) in (fst y, (snd x ++ snd y)%list)
  end.
Definition psteps (c : cfg o) (l : list line) (c' : cfg o) : Prop := exists n, piter n c = (c', l).
(* the call ends with the result [r] and has printed [l] *)
Definition pcalls (t f : N) (vs : list (val o)) (e : env o) (r : result o) (l : list line) : Prop :=
  psteps (Enter o t f vs e []) l (Halt o r).

Lemma piter_add n m c : piter (n + m) c =
  (fst (piter m (fst (piter n c))), (snd (piter n c) ++ snd (piter m (fst (piter n c))))%list).
Proof.
  revert c. induction n as [|n IH]; intros c; cbn [piter Nat.add fst snd]; [destruct (piter m c); reflexivity|].
  rewrite IH. cbn [fst snd]. rewrite app_assoc. reflexivity.
Qed.
Lemma piter_halt n r : piter n (Halt o r) = (Halt o r, []).
Proof. induction n as [|n IH]; cbn [piter]; [reflexivity|]. cbn. rewrite IH. reflexivity. Qed.
Lemma psteps_refl c : psteps c [] c.
Proof. exists O. reflexivity. Qed.
Lemma psteps_trans a l b l' c : psteps a l b -> psteps b l' c -> psteps a (l ++ l') c.
Proof. intros [n H] [m H']. exists (n + m)%nat. rewrite piter_add, H. cbn [fst snd]. rewrite H'. reflexivity. Qed.
Lemma psteps_print c l k : printing c = Some (l, k) -> psteps c [l] (Run o (CVal o (VUnit o)) (snd l) k).
Proof. intros H. exists 1%nat. cbn [piter]. unfold pstep. rewrite H. reflexivity. Qed.

(* one result, one output *)
Lemma pcalls_fun t f vs e r l r' l' : pcalls t f vs e r l -> pcalls t f vs e r' l' -> r = r' /\ l = l'.
Proof.
  intros [n H] [m H'].
  assert (E : piter (n + m) (Enter o t f vs e []) = piter (m + n) (Enter o t f vs e [])) by (f_equal; apply PeanoNat.Nat.add_comm).
  rewrite !piter_add, H, H' in E. cbn [fst snd] in E. rewrite !piter_halt in E. cbn [fst snd] in E.
  rewrite !app_nil_r in E. split; congruence.
Qed.

Definition is_ok (c : cfg o) : Prop := forall s, c <> Halt o (RStuck o s).
Lemma print_stuck c x : printing c = Some x -> step c = Halt o (RStuck o id_println).
Proof.
  destruct c as [c e k| | | | | | |]; try discriminate. destruct c; try discriminate.
  destruct k as [|f k]; [discriminate|]. destruct f; try discriminate. destruct b; try discriminate.
  destruct todo; try discriminate. cbn [printing].
  destruct (N.eqb_spec m id_println) as [->|]; [reflexivity|discriminate].
Qed.
(* a run of the machine without printing prints nothing *)
Lemma quiet c c' : is_ok c' -> steps c c' -> psteps c [] c'.
Proof.
  intros K [n H]. revert c H. induction n as [|n IH]; intros c H; [exists O; cbn in *; congruence|].
  cbn [RustSem.iter] in H. destruct (printing c) as [x|] eqn:E.
  - rewrite (print_stuck c x E), iter_halt in H. destruct (K _ (eq_sym H)).
  - destruct (IH _ H) as [m M]. exists (S m). cbn [piter]. unfold pstep. rewrite E. cbn [fst snd]. rewrite M. reflexivity.
Qed.
(* and what is printed comes from println! only *)
Lemma quiet_calls t f vs e r : is_ok (Halt o r) -> calls o checks P St t f vs e r -> pcalls t f vs e r [].
Proof. intros K H. exact (quiet _ _ K H). Qed.
End Print.

(** With the statics evaluated from the text *)
Section Alone.
Context (o : bbops) (g : N -> N -> N) (checks : bool).
Let z := zobrist_table (g 2022%N).
Notation St := (statics o z).
Notation Al := (alone o g).

Lemma p_alone r l : result_ok o r -> forall n c, piter o checks source St n c = (Halt o r, l) -> psteps o checks source Al c l (Halt o r).
Proof.
  intros K n. revert l. induction n as [|n IH]; intros l c H; [injection H as -> <-; apply psteps_refl|].
  cbn [piter] in H. destruct (printing o c) as [x|] eqn:Pr.
  - unfold pstep in H. rewrite Pr in H. destruct x as [x k]. cbn [fst snd] in H.
    destruct (piter o checks source St n (Run o (CVal o (VUnit o)) (snd x) k)) as [c' l'] eqn:E. cbn [fst snd] in H.
    injection H as -> <-. exact (psteps_trans _ _ _ _ _ [x] _ _ _ (psteps_print _ _ _ _ c x k Pr) (IH _ _ E)).
  - unfold pstep in H. rewrite Pr in H. cbn [fst snd] in H.
    destruct (piter o checks source St n (step o checks source St c)) as [c' l'] eqn:E. cbn [fst snd app] in H. injection H as -> <-.
    assert (One : forall c1, step o checks source Al c = c1 -> psteps o checks source Al c [] c1).
    { intros c1 <-. exists 1%nat. cbn [piter]. unfold pstep. rewrite Pr. reflexivity. }
    destruct (same_step o g checks St (fun _ _ H => or_introl H) c) as [S|[[s S]|[x [v [c' [e [k [Sx [F [S A]]]]]]]]]].
    + exact (psteps_trans _ _ _ _ _ [] _ _ _ (One _ (eq_sym S)) (IH _ _ E)).
    + rewrite S, piter_halt in E. injection E as E _. destruct (K s (eq_sym E)).
    + rewrite S in E. destruct (init_of o g checks x v Sx c' e k F) as [j J].
      refine (psteps_trans _ _ _ _ _ [] _ l' _ (One _ A) _).
      refine (psteps_trans _ _ _ _ _ [] _ l' _ (quiet _ _ _ _ _ _ _ (ex_intro _ j J)) _).
      * intros s X. discriminate X.
      * refine (psteps_trans _ _ _ _ _ [] _ l' _ _ (IH _ _ E)).
        apply quiet; [intros s X; discriminate X|]. exists 1%nat. reflexivity.
Qed.
Lemma pcalls_alone t f vs e r l : result_ok o r ->
  pcalls o checks source St t f vs e r l -> pcalls o checks source Al t f vs e r l.
Proof. intros K [n H]. exact (p_alone r l K n _ H). Qed.
End Alone.
