(** * The lazy statics of the crate *)

From Coq Require Import List Bool NArith ZArith Lia.
From Verif Require Import Types Bitboard Tables Zobrist Init Lazy.
Import ListNotations.

(* tables.rs 186, 198, 228, 238, 250; zobrist.rs 66 *)
Inductive cell := CAttack | CBetween | CRanks | CPromotable | CFiles | CZobrist.
Definition cell_eq (a b : cell) : {a = b} + {a <> b}.
Proof. decide equality. Defined.
Definition all_cells : list cell := [CAttack; CBetween; CRanks; CPromotable; CFiles; CZobrist].

Section Statics.
Context (o : bbops) (rng : N -> N).

Definition cty (c : cell) : Type :=
  match c with
  | CAttack => attack_table o
  | CBetween => list (list (bb o))
  | CRanks => list (list Z)
  | CPromotable => list (list bool)
  | CFiles => list (bb o)
  | CZobrist => zarrays
  end.
Notation prog := (prog cty).
Notation PGet := (PGet cty _).
Notation PRet := (PRet cty _).

(* PROMOTABLE, tables.rs 238-248: every access to RELATIVE_RANKS dereferences it *)
Definition promotable_prog : prog (list (list bool)) :=
  pfor cty all_squares (fun sq table =>
    pfor cty all_colors (fun c table =>
      PGet CRanks (fun ranks =>
        pbind cty (plift cty (by_square_color ranks sq c)) (fun r =>
          if (r <=? 3)%Z then
            plift cty (arr_upd table (sq_index sq) (fun row => arr_set row (color_index c) true))
          else PRet table))) table)
    (repeat (repeat false 2) 81).

(* the closures given to Lazy::new: tables.rs 186-195, 198-226, 228-236, 238-248,
   250-256; zobrist.rs 66-86 *)
Definition cinit (c : cell) : prog (cty c) :=
  match c with
  | CAttack => plift cty (attack_table_init o)
  | CBetween => plift cty (between_table_init o)
  | CRanks => plift cty relative_ranks_init
  | CPromotable => promotable_prog
  | CFiles => plift cty (files_init o)
  | CZobrist => plift cty (zobrist_init rng)
  end.

(* only PROMOTABLE reads another table *)
Definition crank (c : cell) : nat := match c with CPromotable => 1 | _ => 0 end.

Lemma den_bind val {A B} (p : prog A) (f : A -> prog B) :
  den cty val (pbind cty p f) = let* a := den cty val p in den cty val (f a).
Proof. induction p as [a| |c k IH]; [reflexivity..|]. cbn [pbind den]. apply IH. Qed.
Lemma den_lift val {A} (x : option A) : den cty val (plift cty x) = x.
Proof. destruct x; reflexivity. Qed.
Lemma den_for val {A T} (l : list A) (body : A -> T -> prog T) : forall t,
  den cty val (pfor cty l body t) = for_each l (fun x t => den cty val (body x t)) t.
Proof.
  induction l as [|x l IH]; intros t; [reflexivity|]. cbn [pfor for_each]. rewrite den_bind.
  destruct (den cty val (body x t)) as [t'|]; [|reflexivity]. apply IH.
Qed.
Lemma each_ext {A T} (l : list A) (f g : A -> T -> option T) : (forall x t, f x t = g x t) ->
  forall t, for_each l f t = for_each l g t.
Proof.
  intros E. induction l as [|x l IH]; intros t; [reflexivity|]. cbn [for_each]. rewrite E.
  destruct (g x t); [apply IH|reflexivity].
Qed.
Lemma den_promotable val : den cty val promotable_prog = promotable_init (val CRanks).
Proof.
  unfold promotable_prog, promotable_init. rewrite den_for. apply each_ext. intros sq t.
  rewrite den_for. apply each_ext. intros c t'. cbn [den]. rewrite den_bind, den_lift.
  unfold by_square_color. destruct (arr_get (val CRanks) (sq_index sq)) as [row|]; [|reflexivity]. cbn [bind].
  destruct (arr_get row (color_index c)) as [r|]; [|reflexivity]. cbn [bind].
  destruct (r <=? 3)%Z; [apply den_lift|reflexivity].
Qed.

Lemma below_bind r {A B} (p : prog A) (f : A -> prog B) : below cty crank r p ->
  (forall a, below cty crank r (f a)) -> below cty crank r (pbind cty p f).
Proof.
  intros H Hf. induction p as [a| |c k IH]; [apply Hf|exact I|]. cbn [pbind below] in *.
  destruct H as [L H]. split; [exact L|]. intros v. apply IH. apply H.
Qed.
Lemma below_lift r {A} (x : option A) : below cty crank r (plift cty x).
Proof. destruct x; exact I. Qed.
Lemma below_for r {A T} (l : list A) (body : A -> T -> prog T) :
  (forall x t, below cty crank r (body x t)) -> forall t, below cty crank r (pfor cty l body t).
Proof.
  intros H. induction l as [|x l IH]; intros t; [exact I|]. cbn [pfor]. apply below_bind; [apply H|exact IH].
Qed.
Lemma cinit_acyclic c : below cty crank (crank c) (cinit c).
Proof.
  destruct c; try apply below_lift. cbn [cinit]. unfold promotable_prog.
  apply below_for. intros sq t. apply below_for. intros c t'. cbn [below].
  split; [cbn; lia|]. intros v. apply below_bind; [apply below_lift|]. intros r.
  destruct (r <=? 3)%Z; [apply below_lift|exact I].
Qed.
Lemma all_cells_in c : In c all_cells.
Proof. destruct c; cbn; tauto. Qed.
End Statics.
