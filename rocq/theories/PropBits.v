(** * Properties of the bitboards: C22 and C24 of properties.jsonl *)

From Coq Require Import List Bool NArith ZArith Lia Sorted.
From Verif Require Import Types Rules Bitboard BackendCore BackendSimd Tables Api
  Words Squares Geometry BBSpec SpecLanes Backends Facts Unsafe.
Import ListNotations.

(** C22: [occ] is any set of squares; [bd] is any board with exactly these
    squares occupied.  [reaches] (Rules.v) is defined by walking. *)
Theorem C22_attacks_by_walking b checks (occ : bb (ops_of b checks)) bd k s c t :
  on_board b checks occ ->
  (forall u, bcontains _ occ u = true <-> bd u <> None) ->
  (bcontains _ (attack (ops_of b checks) k s c occ) t = true <-> reaches bd c k s t).
Proof. intros W. exact (attack_rules b checks occ W bd k s c t). Qed.
Print Assumptions C22_attacks_by_walking.

(* every set of squares is such a bitboard *)
Fixpoint bb_of (o : bbops) (l : list square) : bb o :=
  match l with [] => bempty o | s :: l => bor o (bsingle o s) (bb_of o l) end.
Lemma bb_of_spec b checks l :
  on_board b checks (bb_of (ops_of b checks) l) /\
  forall s, bcontains _ (bb_of (ops_of b checks) l) s = true <-> In s l.
Proof.
  rewrite on_board_wf. induction l as [|x l [W IH]]; cbn [bb_of In].
  - split; [apply sp_wf_empty|]. intros s. rewrite (sp_empty _ (backend_spec b checks)).
    split; [discriminate|tauto].
  - split; [apply sp_wf_or; [apply sp_wf_single|assumption]|]. intros s.
    rewrite (sp_or _ (backend_spec b checks)), (sp_single _ (backend_spec b checks)), orb_true_iff, IH.
    destruct (sq_eqb_spec s x); intuition (subst; congruence || discriminate || tauto).
Qed.
Example C22_example b checks (f : square -> bool) : exists occ (bd : board),
  on_board b checks occ /\
  (forall u, bcontains _ occ u = true <-> bd u <> None) /\
  (forall u, bd u <> None <-> f u = true).
Proof.
  exists (bb_of _ (filter f all_squares)), (fun u => if f u then Some (mkP Pawn Black) else None).
  destruct (bb_of_spec b checks (filter f all_squares)) as [W H]. split; [assumption|].
  split; intros u; [rewrite H, filter_In|].
  - pose proof (all_squares_in u). destruct (f u); intuition congruence.
  - destruct (f u); intuition congruence.
Qed.

(** C24 *)
Definition index_lt (s t : square) : Prop := (sq_index s < sq_index t)%N.
Lemma sorted_filter (R : square -> square -> Prop) f l :
  StronglySorted R l -> StronglySorted R (filter f l).
Proof.
  induction 1 as [|x l _ IH F]; cbn; [constructor|]. destruct (f x); [|assumption].
  constructor; [assumption|]. rewrite Forall_forall in *. intros y I. apply filter_In in I. apply F, I.
Qed.
Lemma all_squares_sorted : StronglySorted index_lt all_squares.
Proof.
  assert (H : forall l, (fix chk l := match l with
     | [] => true
     | x :: l => forallb (fun y => (sq_index x <? sq_index y)%N) l && chk l end) l = true ->
     StronglySorted index_lt l).
  { induction l as [|x l IH]; [constructor|]. rewrite andb_true_iff, forallb_forall. intros [H1 H2].
    constructor; [apply IH, H2|]. apply Forall_forall. intros y I. apply N.ltb_lt, H1, I. }
  apply H. vm_compute. reflexivity.
Qed.

Theorem C24_iteration b checks (a : bb (ops_of b checks)) :
  on_board b checks a ->
  (* the members, each once, by increasing index *)
  (forall s, In s (biter _ a) <-> bcontains _ a s = true) /\
  NoDup (biter _ a) /\
  StronglySorted (fun s t => (sq_index s < sq_index t)%N) (biter _ a) /\
  bcount _ a = N.of_nat (length (biter _ a)) /\
  (bis_empty _ a = true <-> forall s, bcontains _ a s = false).
Proof.
  intros W. apply on_board_wf in W. rewrite (sp_iter _ _ a W).
  split; [intros s; rewrite filter_In; pose proof (all_squares_in s); tauto|].
  split; [apply NoDup_filter, all_squares_NoDup|].
  split; [apply sorted_filter, all_squares_sorted|].
  split; [apply (sp_count _ (backend_spec b checks) a W)|].
  rewrite (sp_is_empty _ (backend_spec b checks) a W), negb_true_iff. split.
  - intros E s. destruct (bcontains _ a s) eqn:C; [|reflexivity]. exfalso.
    assert (existsb (bcontains _ a) all_squares = true); [|congruence].
    apply existsb_exists. exists s. split; [apply all_squares_in|assumption].
  - intros H. destruct (existsb _ _) eqn:E; [|reflexivity]. exfalso.
    apply existsb_exists in E as [s [_ E]]. rewrite H in E. discriminate.
Qed.
Print Assumptions C24_iteration.

(* PartialEq (Unsafe.v, [beq_of]): equal exactly if the members are the same *)
Theorem C24_equality b checks (x y : bb (ops_of b checks)) :
  on_board b checks x -> on_board b checks y ->
  (beq_of b checks x y = true <-> forall s, bcontains _ x s = bcontains _ y s).
Proof.
  intros X Y. apply on_board_wf in X, Y. rewrite beq_spec.
  split; [intros ->; reflexivity|exact (sp_ext _ _ x y X Y)].
Qed.
Print Assumptions C24_equality.
(* two sets that differ in the second lane only *)
Example C24_equality_example : let x := (5, 1)%N in let y := (5, 2)%N in
  on_board Wasm32 true x /\ on_board Wasm32 true y /\ beq_of Wasm32 true x y = false.
Proof. repeat split; vm_compute; reflexivity. Qed.

(* the numbers given to Square::from_u8_unchecked by the iterators of the SIMD
   backends (the portable one is in shogi_core): all between 1 and 81, and the
   iterator stops within its 129 calls *)
Theorem C24_unsafe_in_range (a : N * N) :
  (fst a < 2 ^ 63 -> snd a < 2 ^ 18 ->
   forall fuel, (129 <= fuel)%nat ->
   lanes_iter_u8 fuel a = lanes_iter_u8 129 a /\
   forall n, In n (lanes_iter_u8 fuel a) -> 1 <= n <= 81)%N.
Proof.
  intros H0 H1 fuel F.
  pose proof (bits_length (fst a) 63) as L0. pose proof (bits_length (snd a) 18) as L1.
  rewrite (lanes_iter_u8_spec fuel a (conj H0 H1)) by lia.
  rewrite <- (lanes_iter_u8_129 a (conj H0 H1)). split; [reflexivity|].
  rewrite (lanes_iter_u8_members a (conj H0 H1)). intros n I.
  apply in_map_iff in I as [s [<- _]]. pose proof (sq_index_lt s). lia.
Qed.
Print Assumptions C24_unsafe_in_range.

(* the full board and the square 9i *)
Example C24_example : on_board Wasm32 true lanes_ones /\
  length (biter wasm_ops lanes_ones) = 81%nat /\
  lanes_iter_u8 129 (0%N, 131072%N) = [81%N].
Proof. repeat split; vm_compute; reflexivity. Qed.
