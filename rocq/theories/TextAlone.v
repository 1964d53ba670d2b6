(** * The text alone

    The runs of TextPos.v to TextMoves.v take the values of the statics from
    [statics].  Here they come from the text: a static is evaluated from its
    initialiser whenever it is used ([alone]).  Every run that ends, ends with
    the same result. *)

From Coq Require Import List Bool NArith ZArith String Lia.
From Verif Require Import Types Bitboard Tables Zobrist Position Movegen RustSyntax RustNames RustSem TextDefs TextRun TextInit TextZob.
Import ListNotations.

Section Alone.
Context (o : bbops) (g : N -> N -> N) (checks : bool).
Let z := zobrist_table (g 2022%N).
Notation Al := (alone o g).
(* some of the values are known *)
Context (St : N -> option (val o)) (known : forall x v, St x = Some v -> statics o z x = Some v \/ Al x = Some v).
Definition is_stuck (c : cfg o) := exists s, c = Halt o (RStuck o s).

Lemma apply_same b vs e k : apply o checks source St b vs e k = apply o checks source Al b vs e k \/ is_stuck (apply o checks source St b vs e k).
Proof.
  destruct b; try (left; reflexivity). unfold apply.
  destruct (St id_StdRng) as [w|] eqn:E.
  { destruct (known _ _ E) as [H|H]; [discriminate H|]. rewrite H. left. reflexivity. }
  generalize (Al id_StdRng). intros y.
  destruct (find_fn source t f); [left; reflexivity|].
  destruct (memory o t f vs e) as [[? ?]|]; [left; reflexivity|].
  destruct t as [|t]; [left; reflexivity|]. do 9 (try (destruct t as [t|t|]; try (left; reflexivity))).
  destruct f as [|f]; [left; reflexivity|]. do 9 (try (destruct f as [f|f|]; try (left; reflexivity))).
  destruct vs as [|v [|]]; try (left; reflexivity); destruct v; try (left; reflexivity).
  right. eexists. reflexivity.
Qed.
Lemma args_same b d t m e k : args o checks source St b d t m e k = args o checks source Al b d t m e k \/ is_stuck (args o checks source St b d t m e k).
Proof. destruct t as [|x t]; unfold args; [exact (apply_same b (revapp d []) e k)|]. left. reflexivity. Qed.

Definition looks (x : N) (v : val o) (cs ca : cfg o) := exists c e k,
  statics o z x = Some v /\ find_const source id_ x = Some c /\ cs = Run o (CVal o v) e k /\
  ca = Run o (CEval o c) [(id_Self, VStr o id_)] (KConst o e :: k).
(* one step: the same, or stuck, or the value of a static *)
Definition similar (cs ca : cfg o) := cs = ca \/ is_stuck cs \/ exists x v, looks x v cs ca.
Lemma same_args b d t m e k : similar (args o checks source St b d t m e k) (args o checks source Al b d t m e k).
Proof. destruct (args_same b d t m e k) as [E|E]; [left; exact E|right; left; exact E]. Qed.
Lemma static_ids f v : statics o z f = Some v ->
  f = id_ATTACK_TABLE \/ f = id_BETWEEN_TABLE \/ f = id_RELATIVE_RANKS \/ f = id_PROMOTABLE \/ f = id_FILES \/ f = id_ZOBRIST_TABLE.
Proof.
  intros H. unfold statics in H. destruct f as [|f]; [discriminate H|].
  do 9 (try (destruct f as [f|f|]; try discriminate H)); tauto.
Qed.
Lemma static_known f v : statics o z f = Some v -> Al f = None /\ exists c, find_const source id_ f = Some c.
Proof.
  intros H. pose proof (static_ids f v H) as C.
  clear H. repeat (destruct C as [->|C]); [..|subst f]; (split; [reflexivity|]); eexists; vm_compute; reflexivity.
Qed.
Lemma gen_known f v : Al f = Some v -> find_const source id_ f = None.
Proof.
  intros H. assert (C : f = id_StdRng).
  { unfold alone in H. destruct f as [|f]; [discriminate H|].
    do 9 (try (destruct f as [f|f|]; try discriminate H)); reflexivity. }
  subst f. vm_compute. reflexivity.
Qed.
Lemma same_path p e k : similar (step_eval o checks source St (EPath p) e k) (step_eval o checks source Al (EPath p) e k).
Proof.
  unfold step_eval. destruct (last2 p) as [t f].
  destruct t as [|t].
  2: { left. reflexivity. }
  change (self_ty o e id_) with id_.
  destruct (look o f e) as [v|]; [left; reflexivity|].
  destruct (ext_const o p) as [v|]; [left; reflexivity|].
  destruct (St f) as [v|] eqn:S.
  - destruct (known f v S) as [S'|S']; [|left; rewrite S'; reflexivity]. destruct (static_known f v S') as [-> [c F]]. right. right. exists f, v, c, e, k.
    split; [exact S'|]. split; [exact F|]. split; [reflexivity|]. change (self_ty o e 0) with id_. rewrite F. reflexivity.
  - destruct (Al f) as [v|] eqn:A; [|left; reflexivity].
    right. left. change (self_ty o e 0) with id_. rewrite (gen_known f v A). eexists. reflexivity.
Qed.
Lemma same_eval x e k : similar (step_eval o checks source St x e k) (step_eval o checks source Al x e k).
Proof.
  destruct x; lazymatch goal with |- similar (step_eval _ _ _ _ (EPath _) _ _) _ => apply same_path | _ => unfold step_eval end.
  all: lazymatch goal with
  | |- similar ?a ?a => left; reflexivity
  | |- similar (args _ _ _ _ _ _ _ _ _ _) _ => apply same_args
  | _ => idtac
  end.
  - destruct x; lazymatch goal with |- similar ?a ?a => left; reflexivity | _ => idtac end. destruct (last2 p) as [t f]. apply same_args.
  - repeat match goal with
    | |- similar ?a ?a => left; reflexivity
    | |- similar (args _ _ _ _ _ _ _ _ _ _) _ => apply same_args
    | |- similar (match ?x with _ => _ end) _ => is_var x; destruct x
    end.
Qed.
Lemma same_val v e f k : similar (step_val o checks source St v e f k) (step_val o checks source Al v e f k).
Proof.
  destruct f; unfold step_val.
  all: lazymatch goal with
  | |- similar ?a ?a => left; reflexivity
  | |- similar (args _ _ _ _ _ _ _ _ _ _) _ => apply same_args
  | _ => idtac
  end.
  all: destruct v; lazymatch goal with |- similar ?a ?a => left; reflexivity | _ => apply same_args end.
Qed.
Lemma same_at p v e f k : similar (step_at o checks source St p v e f k) (step_at o checks source Al p v e f k).
Proof.
  destruct f; unfold step_at.
  all: lazymatch goal with
  | |- similar ?a ?a => left; reflexivity
  | |- similar (args _ _ _ _ _ _ _ _ _ _) _ => apply same_args
  | _ => idtac
  end.
  all: destruct v; lazymatch goal with |- similar ?a ?a => left; reflexivity | _ => apply same_args end.
Qed.
Lemma same_step c : similar (step o checks source St c) (step o checks source Al c).
Proof.
  destruct c as [c e k| | | | | | |]; unfold step; [|left; reflexivity ..].
  unfold step_run. destruct c; lazymatch goal with
  | |- similar ?a ?a => left; reflexivity
  | |- similar (step_eval _ _ _ _ _ _ _) _ => apply same_eval
  | _ => destruct k as [|f k]; lazymatch goal with
    | |- similar ?a ?a => left; reflexivity
    | |- similar (step_val _ _ _ _ _ _ _ _) _ => apply same_val
    | |- similar (step_at _ _ _ _ _ _ _ _ _) _ => apply same_at
    end
  end.
Qed.

(** The initialiser of every static ends with the value [statics] has. *)
Lemma init_of x v : statics o z x = Some v -> init_ends o g checks x v.
Proof.
  intros H. destruct (static_ids x v H) as [->|[->|[->|[->|[->| ->]]]]]; cbn [statics] in H; injection H as <-.
  - exact (in_attack o g checks). - exact (in_between o g checks). - exact (in_ranks o g checks).
  - exact (in_promotable o g checks). - exact (in_files o g checks). - exact (in_zobrist o g checks).
Qed.
Definition result_ok (r : result o) := forall s, r <> RStuck o s.
Lemma iter_from n c d m r : iter o checks source Al n c = d -> iter o checks source Al m d = Halt o r -> exists n, iter o checks source Al n c = Halt o r.
Proof. intros <- H. exists (n + m)%nat. rewrite iter_add. exact H. Qed.
Lemma run_alone r : result_ok r -> forall n c, iter o checks source St n c = Halt o r -> exists m, iter o checks source Al m c = Halt o r.
Proof.
  intros K. induction n as [|n IH]; intros c H; [exists 0%nat; exact H|].
  cbn [iter] in H. destruct (same_step c) as [E|[[s E]|[x [v [c' [e [k [Sx [F [E A]]]]]]]]]].
  - rewrite E in H. destruct (IH _ H) as [m M]. exists (S m). exact M.
  - rewrite E, iter_halt in H. injection H as <-. destruct (K s eq_refl).
  - rewrite E in H. destruct (IH _ H) as [m M]. destruct (init_of x v Sx c' e k F) as [j J].
    apply (iter_from 1%nat c _ (j + S m)%nat r A). rewrite iter_add, J. exact M.
Qed.
Lemma calls_alone t f vs e r : result_ok r -> calls o checks source St t f vs e r -> calls o checks source Al t f vs e r.
Proof. intros K [n H]. exact (run_alone r K n _ H). Qed.

End Alone.

Section Use.
Context (o : bbops) (g : N -> N -> N) (checks : bool).
(* the use of a static *)
Definition static_runs (x : N) (v : val o) : Prop := forall e, look o x e = None ->
  exists n, iter o checks source (alone o g) n (Run o (CEval o (EPath [x])) e []) = Halt o (RDone o v e).
Lemma use_static x v : statics o (zobrist_table (g 2022%N)) x = Some v -> static_runs x v.
Proof.
  intros S e L. apply (run_alone o g checks _ (fun _ _ H => or_introl H) (RDone o v e)) with (n := 2%nat); [intros s; discriminate|].
  assert (E : ext_const o [x] = None).
  { destruct (static_ids o g x v S) as [->|[->|[->|[->|[->| ->]]]]]; reflexivity. }
  cbn [iter step step_run]. unfold step_eval. cbn [last2]. rewrite L, E, S. reflexivity.
Qed.
End Use.
