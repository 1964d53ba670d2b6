(** * The statics of the text: the initialisers, run by the machine of
    [RustSem.v], give the tables the rules of shogi describe *)

From Coq Require Import List Bool NArith ZArith String Lia.
From Verif Require Import Types Rules Bitboard BackendCore BackendSimd Tables Zobrist Position Api Squares Geometry BBSpec SpecLanes Backends Facts Unsafe Attacks Consequences PropBits PropInit Gen Init Decide
  RustSyntax RustNames SourceText RustSem TextDefs TextRun TextTables TextInit TextZob TextAlone PropText.
Import ListNotations.
Open Scope string_scope.

Section Static.
Context (o : bbops) (g : N -> N -> N) (checks : bool).
(* the expression [x], where no variable has this name, has the value [v] *)
Definition text_static (x : string) (v : val o) : Prop := forall e, look o (intern x) e = None ->
  exists n, iter o checks text_program (alone o g) n (Run o (CEval o (EPath [intern x])) e []) = Halt o (RDone o v e).
(* a call of the function [f] of impl [t] *)
Definition text_call (t f : string) (vs : list (val o)) (x : option (val o)) : Prop := forall e,
  calls o checks text_program (alone o g) (intern t) (intern f) vs e (outcome o x e).
Lemma static_text x v : statics o (zobrist_table (g 2022%N)) (intern x) = Some v -> text_static x v.
Proof. intros H. unfold text_static. rewrite text_is_source. exact (use_static o g checks (intern x) v H). Qed.
Lemma call_text t f vs x :
  (forall e k, steps o checks source (statics o (zobrist_table (g 2022%N))) (Enter o (intern t) (intern f) vs e k) (pan o x (fun v => Resume o v e k))) ->
  text_call t f vs x.
Proof.
  intros H e. rewrite text_is_source. apply (calls_alone o g checks _ (fun _ _ H => or_introl H)); [apply outcome_ok|].
  eapply steps_calls; [apply H|]. destruct x as [v|]; cbn [pan outcome]; [|apply steps_refl].
  apply steps_one, steps_one. apply steps_refl.
Qed.
End Static.

(** C81 *)

Theorem C81_attack_table b checks g : let o := ops_of b checks in
  exists T, text_static o g checks "ATTACK_TABLE" T
  /\ (forall k s c occ, on_board b checks occ ->
        exists a, text_call o g checks "AttackTable" "attack" [T; VKind o k; VSq o s; VColor o c; VBB o occ] (Some (VBB o a))
          /\ on_board b checks a
          /\ forall bd, (forall u, bcontains _ occ u = true <-> bd u <> None) ->
               forall t, bcontains _ a t = true <-> reaches bd c k s t)
  /\ (forall k s c,
        exists a, text_call o g checks "AttackTable" "pseudo_attack" [T; VKind o k; VSq o s; VColor o c] (Some (VBB o a))
          /\ on_board b checks a
          /\ forall t, bcontains _ a t = true <-> reaches (fun _ => None) c (rider k) s t).
Proof.
  cbv zeta. exists (v_attack_table _). split; [apply static_text; reflexivity|].
  destruct (C52_attack_table b checks) as [T [_ [H H']]]. split.
  - intros k s c occ W. destruct (H k s c occ W) as [a [_ [B [-> R]]]]. eexists. split; [|split; [exact B|exact R]].
    apply call_text. intros e q. apply sp_attack.
  - intros k s c. destruct (H' k s c) as [a [_ [B [-> R]]]]. eexists. split; [|split; [exact B|exact R]].
    apply call_text. intros e q. apply sp_pseudo.
Qed.
Print Assumptions C81_attack_table.

Theorem C81_between_table b checks g : let o := ops_of b checks in
  exists T, text_static o g checks "BETWEEN_TABLE" (by_square o (fun s => by_square o (fun t => VBB o (T s t))))
  /\ forall s t, on_board b checks (T s t) /\ forall u, bcontains _ (T s t) u = true <-> between s u t.
Proof.
  cbv zeta. exists (BETWEEN_TABLE _). split; [apply static_text; reflexivity|].
  destruct (C52_between_table b checks) as [T [_ H]]. intros s t. destruct (H s t) as [a [_ [B [-> R]]]]. split; assumption.
Qed.
Print Assumptions C81_between_table.

(* FILES[0] is empty *)
Theorem C81_files b checks g : let o := ops_of b checks in
  exists T, text_static o g checks "FILES" (VArr o (VBB o (bempty o) :: map (fun f => VBB o (T f)) all9))
  /\ forall f, on_board b checks (T f) /\ forall u, bcontains _ (T f) u = true <-> sqf u = f.
Proof.
  cbv zeta. exists (FILES _). split; [apply static_text; reflexivity|].
  intros f. split; [apply on_board_wf; apply (wf_files _ (backend_spec b checks))|].
  intros u. rewrite (files_spec _ (backend_spec b checks)). destruct (sqf u), f; split; (reflexivity || discriminate).
Qed.
Print Assumptions C81_files.

Theorem C81_ranks o checks g :
  text_static o g checks "RELATIVE_RANKS" (by_square o (fun s => by_color o (fun c => VInt o Usize (ranks_ahead c s + 1))))
  /\ exists P, text_static o g checks "PROMOTABLE" (by_square o (fun s => by_color o (fun c => VBool o (P s c))))
       /\ forall s c, P s c = true <-> promotion_zone c s.
Proof.
  split; [apply static_text|exists PROMOTABLE; split; [apply static_text; reflexivity|exact promotable_zone]].
  change (statics o (zobrist_table (g 2022%N)) (intern "RELATIVE_RANKS")) with (Some (v_ranks o)).
  apply f_equal. unfold v_ranks, by_square. refine (f_equal (VArr o) (map_ext _ _ _ _)). intros s.
  unfold by_color. refine (f_equal (VArr o) (map_ext _ _ _ _)). intros c. apply f_equal.
  destruct s as [f r], c, r; reflexivity.
Qed.
Print Assumptions C81_ranks.

(* the generator that is seeded with 2022 gives 2520 numbers *)
Theorem C81_zobrist_table o checks g :
  exists Z, text_static o g checks "ZOBRIST_TABLE" Z /\
  exists look : entry -> option N,
  let key n := VStruct o (intern "Key") [(intern "0", VInt o U64 (Z.of_N n))] in
  (forall s p, text_call o g checks "ZobristTable" "board" [Z; VSq o s; VPiece o p] (option_map key (look (EBoard s p))))
  /\ (forall c k n, text_call o g checks "ZobristTable" "hand" [Z; VColor o c; VKind o k; VInt o U8 (Z.of_N n)] (option_map key (look (EHand c k n))))
  (* a draw of its own for every entry: the low bit cleared, cut to 64 bits *)
  /\ (exists turn : entry -> N,
     (forall e, drawn e -> (turn e < 2520)%N /\
        exists v, look e = Some v /\
          forall i, N.testbit v i = true <-> (0 < i < 64)%N /\ N.testbit (g 2022%N (turn e)) i = true) /\
     (forall e e', drawn e -> drawn e' -> turn e = turn e' -> e = e') /\
     (forall n, (n < 2520)%N -> exists e, drawn e /\ turn e = n))
  (* the rest of the array is zero, or not there *)
  /\ (forall c k n, ~ drawn (EHand c k n) ->
     look (EHand c k n) = if kind_eqb k King && (n <? 18)%N then Some 0%N else None).
Proof.
  exists (v_zobrist o (zobrist_table (g 2022%N))). split; [apply static_text; reflexivity|].
  destruct (C54_zobrist_table (g 2022%N)) as [z [_ [Hb [Hh [T R]]]]]. exists (lookup z). cbv zeta.
  split; [|split; [|split; [exact T|exact R]]].
  - intros s p. cbn [lookup]. rewrite Hb. apply call_text. intros e q. apply sp_board.
  - intros c k n. cbn [lookup]. rewrite Hh. apply call_text. intros e q.
    eapply steps_trans; [apply sp_hand|]. destruct (z_hand _ _ _ _); apply steps_refl.
Qed.
Print Assumptions C81_zobrist_table.

(* Lazy: when the values of some statics are known from an earlier use, every
   call that ends, ends with the same result *)
Definition static_names := ["ATTACK_TABLE"; "BETWEEN_TABLE"; "RELATIVE_RANKS"; "PROMOTABLE"; "FILES"; "ZOBRIST_TABLE"].
Theorem C81_lazy o checks g known t f vs e r :
  (forall i v, known i = Some v -> i = intern "StdRng" /\ v = VGen o g
     \/ exists x, In x static_names /\ i = intern x /\ text_static o g checks x v) ->
  calls o checks text_program known (intern t) (intern f) vs e r -> (forall x, r <> RStuck o x) ->
  calls o checks text_program (alone o g) (intern t) (intern f) vs e r.
Proof.
  intros K H S. rewrite text_is_source in *. refine (calls_alone o g checks known _ _ _ _ _ _ S H).
  intros i v E. destruct (K i v E) as [[-> ->]|[x [I [-> T]]]]; [right; reflexivity|]. left.
  assert (X : exists w, statics o (zobrist_table (g 2022%N)) (intern x) = Some w).
  { unfold static_names in I. repeat (destruct I as [<-|I]); [..|destruct I]; eexists; reflexivity. }
  destruct X as [w W]. destruct (T [] eq_refl) as [n N]. rewrite text_is_source in N.
  destruct (use_static o g checks (intern x) w W [] eq_refl) as [m M].
  assert (Q : Halt o (RDone o v []) = Halt o (RDone o w [])).
  { rewrite <- (iter_halt o checks source (alone o g) m), <- N, <- iter_add.
    rewrite <- (iter_halt o checks source (alone o g) n (RDone o w [])), <- M, <- iter_add.
    apply (f_equal (fun j => iter o checks source (alone o g) j _)). apply PeanoNat.Nat.add_comm. }
  injection Q as <-. exact W.
Qed.
Print Assumptions C81_lazy.

(* a rook on 5e with a piece on 5c: from the text it reaches 5c and 9e, not 5b *)
Example C81_example b checks g : exists T a occ, let o := ops_of b checks in
  text_static o g checks "ATTACK_TABLE" T
  /\ (forall u, bcontains _ occ u = true <-> u = Sq n5 n3)
  /\ text_call o g checks "AttackTable" "attack" [T; VKind o Rook; VSq o (Sq n5 n5); VColor o Black; VBB o occ] (Some (VBB o a))
  /\ bcontains _ a (Sq n5 n3) = true /\ bcontains _ a (Sq n9 n5) = true /\ bcontains _ a (Sq n5 n2) = false.
Proof.
  destruct (C81_attack_table b checks g) as [T [S [A _]]].
  destruct (bb_of_spec b checks [Sq n5 n3]) as [W H].
  destruct (A Rook (Sq n5 n5) Black _ W) as [a [C [_ R]]].
  exists T, a, (bb_of _ [Sq n5 n3]). cbv zeta. split; [exact S|].
  assert (H' : forall u, bcontains _ (bb_of (ops_of b checks) [Sq n5 n3]) u = true <-> u = Sq n5 n3).
  { intros u. rewrite H. cbn [In]. intuition congruence. }
  split; [exact H'|]. split; [exact C|].
  set (bd := fun u => if sq_eqb u (Sq n5 n3) then Some (mkP Pawn White) else None).
  assert (Q : forall t, bcontains _ a t = true <-> reachb (occb bd) Black Rook (Sq n5 n5) t = true).
  { intros t. rewrite reachb_spec. apply (R bd). intros u. rewrite H'. unfold bd. destruct (sq_eqb_spec u (Sq n5 n3)); intuition congruence. }
  split; [apply Q; vm_compute; reflexivity|]. split; [apply Q; vm_compute; reflexivity|].
  apply not_true_iff_false. rewrite Q. vm_compute. discriminate.
Qed.
