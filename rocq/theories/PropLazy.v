(** * C65: the lazy statics, with any number of threads *)

From Coq Require Import List Bool NArith ZArith Lia.
From Verif Require Import Types Bitboard Tables Zobrist Api Init InitSpec Lazy Statics.
Import ListNotations.

(** C65 *)

(* the result of a thread that has ended; None: it panicked *)
Definition result {o R} (th : thread (cty o) (R := R)) : option R :=
  match main _ th with PRet _ _ r => Some r | _ => None end.

(* The values of the tables; whatever the threads do with them and however
   they are interleaved, in every state: a thread that has ended has the result
   it would have if the tables had always been there; no initialiser panics;
   none is started twice; and unless all threads have ended some thread can go
   on.  As the number of steps is bounded, every execution ends with all
   threads at their results. *)
Theorem C65_lazy_tables b checks rng :
  let o := ops_of b checks in
  exists val : forall c, cty o c,
  (forall k s c occ, table_attack o (val CAttack) k s c occ = Some (attack o k s c occ)) /\
  (forall k s c, table_pseudo_attack o (val CAttack) k s c = Some (pseudo_attack o k s c)) /\
  (forall s t, between_table_get o (val CBetween) s t = Some (BETWEEN_TABLE o s t)) /\
  (forall s c, by_square_color (val CRanks) s c = Some (RELATIVE_RANKS s c)) /\
  (forall s c, by_square_color (val CPromotable) s c = Some (PROMOTABLE s c)) /\
  (forall f, arr_get (val CFiles) (Z.to_N (i9Z f)) = Some (FILES o f)) /\
  (forall s p, za_board_get (val CZobrist) s p = Some (z_board (zobrist_table rng) s p)) /\
  (forall c k n, za_hand_get (val CZobrist) c k n = z_hand (zobrist_table rng) c k n) /\
  forall R (ps : list (prog (cty o) R)), exists bound,
  forall tr m ths, runs (cty o) (cinit o rng) (fresh (cty o) ps) tr (m, ths) ->
    (length tr <= bound)%nat /\ length ths = length ps /\
    (forall i p th, nth_error ps i = Some p -> nth_error ths i = Some th -> finished _ th ->
       result th = den (cty o) val p) /\
    (forall th c q fs, In th ths -> stack _ th = existT _ c q :: fs -> q <> PPanic _ _) /\
    (forall c l1 l2, tr = l1 ++ Some c :: l2 -> ~ In (Some c) l2) /\
    ((forall th, In th ths -> finished _ th) \/ exists lab s, step (cty o) (cinit o rng) (m, ths) lab s).
Proof.
  intros o.
  destruct (attack_table_init_spec o) as [T [ET [HT HP]]].
  destruct (between_table_init_spec o) as [B [EB HB]].
  destruct relative_ranks_init_spec as [K [EK HK]].
  destruct (promotable_init_spec K HK) as [P [EP HPr]].
  destruct (files_init_spec o) as [F [EF [HF _]]].
  destruct (zobrist_init_spec rng) as [Z [EZ [HZb HZh]]].
  set (val := fun c => match c return cty o c with
    | CAttack => T | CBetween => B | CRanks => K | CPromotable => P | CFiles => F | CZobrist => Z end).
  exists val. do 8 (split; [assumption|]). intros R ps.
  assert (Good : forall c, den (cty o) val (cinit o rng c) = Some (val c)).
  { intros []; cbn [cinit]; rewrite ?den_lift; [exact ET|exact EB|exact EK| |exact EF|exact EZ].
    rewrite den_promotable. exact EP. }
  pose proof (fresh_inv (cty o) val crank ps) as I0.
  exists (weight (cty o) (cinit o rng) val all_cells (fresh (cty o) ps)). intros tr m ths Rs.
  destruct (runs_inv cell_eq (cty o) (cinit o rng) val Good crank (cinit_acyclic o rng) _ _ _ I0 Rs) as [Iv E].
  assert (Len : length ths = length ps).
  { apply (f_equal (@length _)) in E. rewrite !map_length in E. cbn [fresh snd] in E. rewrite map_length in E. exact E. }
  split; [|split; [exact Len|split; [|split; [|split]]]].
  - pose proof (runs_weight cell_eq (cty o) (cinit o rng) val Good crank (cinit_acyclic o rng) all_cells all_cells_in
      _ _ _ I0 Rs) as W. lia.
  - intros i p th Np Nt [Fs Fw].
    assert (Em : den (cty o) val (main _ th) = den (cty o) val p).
    { apply (f_equal (fun l => nth_error l i)) in E. cbn [fresh snd] in E.
      rewrite map_map in E. cbn [main] in E.
      rewrite (map_nth_error _ _ _ Nt), (map_nth_error _ _ _ Np) in E. injection E as E. exact E. }
    rewrite <- Em. unfold result. destruct (main _ th); [reflexivity..|discriminate].
  - intros th c q fs H Es ->. apply In_nth_error in H as [i N].
    pose proof (i_chain _ _ _ _ Iv i th N) as C. rewrite Es in C. cbn [chain] in C. destruct C as [_ [D _]]. discriminate.
  - intros c l1 l2 Et. exact (proj2 (once cell_eq (cty o) (cinit o rng) _ _ _ c Rs) l1 l2 Et).
  - apply (progress cell_eq (cty o) (cinit o rng) val crank all_cells all_cells_in (m, ths) Iv).
Qed.
Print Assumptions C65_lazy_tables.

(* A thread that fills PROMOTABLE, another that waits for it: the second cannot
   go on, the first starts RELATIVE_RANKS. *)
Definition reader {o} : prog (cty o) bool := PGet _ _ CPromotable (fun t =>
  plift _ (by_square_color t (Sq n5 n3) Black)).
Example C65_example b checks rng : let o := ops_of b checks in
  exists m ths, runs (cty o) (cinit o rng) (fresh (cty o) [reader; reader]) [Some CPromotable] (m, ths) /\
    (forall lab s, step (cty o) (cinit o rng) (m, ths) lab s -> lab = Some CRanks) /\
    exists s, step (cty o) (cinit o rng) (m, ths) (Some CRanks) s.
Proof.
  intros o.
  pose (m := upd cell_eq (cty o) (fun _ => Empty _ _) CPromotable (Busy _ _ 0)).
  pose (busy := mkTh (cty o) [existT _ CPromotable (cinit o rng CPromotable)] (@reader o)).
  exists m, [busy; mkTh _ [] reader].
  assert (W : want (cty o) busy = Some CRanks) by reflexivity.
  split; [|split].
  - apply (R_more _ _ _ _ (fresh (cty o) [reader; reader])); [apply R_here|].
    refine (Step (cty o) (cinit o rng) _ m [] (mkTh _ [] reader) busy [mkTh _ [] reader] _ _).
    apply (T_start (cty o) (cinit o rng) 0 _ m (mkTh _ [] reader) CPromotable); [reflexivity..|].
    intros d N. apply upd_other. exact N.
  - intros lab s St. inversion St as [m1 m2 l1 th th' l2 lab1 T E1 E2 E3]. subst m1 lab1.
    match goal with H : _ ++ _ :: _ = _ |- _ => rename H into El end.
    destruct l1 as [|x [|y l1]].
    + injection El as Eb _. subst th.
      destruct (tstep_want _ _ _ _ _ _ _ _ CRanks T W) as [[_ H]|[v H]]; [exact H|discriminate].
    + injection El as _ Eb _. subst th.
      destruct (tstep_want _ _ _ _ _ _ _ _ CPromotable T eq_refl) as [[H _]|[v H]]; discriminate.
    + destruct l1; discriminate.
  - eexists. refine (Step (cty o) (cinit o rng) m _ [] busy _ [mkTh _ [] reader] _ _).
    apply (T_start (cty o) (cinit o rng) 0 m (upd cell_eq (cty o) m CRanks (Busy _ _ 0)) busy CRanks W); [reflexivity..|].
    intros d N. apply upd_other. exact N.
Qed.

(* With a cycle a thread would wait for itself: the model of the cells does not
   rule this out by itself. *)
Example C65_cycle_would_hang :
  let ty := fun _ : unit => nat in
  let ini := fun c : unit => PGet ty nat c (PRet ty nat) in
  exists m ths, runs ty ini (fresh ty [PGet ty nat tt (PRet ty nat)]) [Some tt] (m, ths) /\
    (forall lab s, ~ step ty ini (m, ths) lab s) /\ ~ (forall th, In th ths -> finished _ th).
Proof.
  intros ty ini.
  pose (p := PGet ty nat tt (PRet ty nat)). pose (m := fun c : unit => Busy ty c 0).
  pose (th := mkTh ty [existT _ tt (ini tt)] p).
  exists m, [th]. split; [|split].
  - apply (R_more _ _ _ _ (fresh ty [p])); [apply R_here|].
    refine (Step ty ini _ m [] (mkTh _ [] p) th [] _ _).
    apply (T_start ty ini 0 _ m (mkTh _ [] p) tt); [reflexivity..|]. intros [] N. destruct N. reflexivity.
  - intros lab s St. inversion St as [m1 m2 l1 th0 th' l2 lab1 T E1 E2 E3]. subst m1 lab1.
    match goal with H : _ ++ _ :: _ = _ |- _ => rename H into El end. destruct l1 as [|x [|y l1]]; [|discriminate..].
    injection El as Eb _. subst th0.
    destruct (tstep_want _ _ _ _ _ _ _ _ tt T eq_refl) as [[H _]|[v H]]; discriminate.
  - intros H. destruct (H th (or_introl eq_refl)) as [Hs _]. discriminate.
Qed.
