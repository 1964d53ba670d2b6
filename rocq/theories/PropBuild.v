(** * C68 of properties.jsonl: the choice of the backend *)

From Coq Require Import List Bool NArith String.
From Verif Require Import Types Rules Position Api Sfen ValidPlay Lines Reach Consequences Facts Witness PropAgree Build.
Import ListNotations.

(** Exactly one module is compiled: a SIMD module if and only if the crate's
    feature is on and the target has its architecture and its target feature. *)
Theorem C68_choice : forall t,
  (select t = X86_64 <-> simd t = true /\ arch_of t = A_x86_64 /\ enabled t AVX2 = true) /\
  (select t = Aarch64 <-> simd t = true /\ arch_of t = A_aarch64 /\ enabled t NEON = true) /\
  (select t = Wasm32 <-> simd t = true /\ arch_of t = A_wasm32 /\ enabled t SIMD128 = true) /\
  (simd t = false -> select t = Portable) /\
  (arch_of t = A_other -> select t = Portable).
Proof.
  intros [[] [] e]; unfold select; cbn [simd arch_of enabled andb];
    repeat match goal with |- context [if e ?f then _ else _] => destruct (e f) end;
    repeat split; try tauto; try congruence; intros [? [? ?]]; congruence.
Qed.
Print Assumptions C68_choice.

(** Every intrinsic that the chosen module calls exists on the architecture and
    needs a feature that is enabled. *)
Theorem C68_instructions : forall t, coherent t ->
  forall n a f, In (n, a, f) (intrinsics (select t)) -> arch_of t = a /\ enabled t f = true.
Proof. exact select_needs. Qed.
Print Assumptions C68_instructions.

(** Whatever the targets and the profiles of two builds, they give the same
    answers in the same positions. *)
Theorem C68_same_answers : forall t1 t2 checks1 checks2 rng1 rng2 ms1 ms2 p q,
  let cf1 := mkCfg (select t1) checks1 rng1 in
  let cf2 := mkCfg (select t2) checks2 rng2 in
  reachable cf1 ms1 p -> reachable cf2 ms2 q -> same_game (view cf1 p) (view cf2 q) ->
  Yasai.legal_moves cf1 p = Yasai.legal_moves cf2 q /\
  Yasai.in_check cf1 p = Yasai.in_check cf2 q /\
  (forall m, Yasai.is_check_move cf1 p m = Yasai.is_check_move cf2 q m).
Proof. intros. exact (C12_history_independent cf1 cf2 ms1 ms2 p q H H0 H1). Qed.
Print Assumptions C68_same_answers.

(* targets as rustc sees them: x86-64-v3, baseline x86-64, aarch64, wasm32 *)
Definition v3 (f : feature) : bool := match f with NEON | SIMD128 => false | _ => true end.
Definition only (g f : feature) : bool :=
  match g, f with SSE2, SSE2 | NEON, NEON | SIMD128, SIMD128 => true | _, _ => false end.

Example C68_example :
  Forall coherent [mkTarget true A_x86_64 v3; mkTarget true A_x86_64 (only SSE2);
                   mkTarget true A_aarch64 (only NEON); mkTarget true A_wasm32 (only SIMD128);
                   mkTarget false A_x86_64 v3; mkTarget true A_other (fun _ => false)] /\
  map select [mkTarget true A_x86_64 v3; mkTarget true A_x86_64 (only SSE2);
              mkTarget true A_aarch64 (only NEON); mkTarget true A_wasm32 (only SIMD128);
              mkTarget false A_x86_64 v3; mkTarget true A_other (fun _ => false)] =
    [X86_64; Portable; Aarch64; Wasm32; Portable; Portable] /\
  In ("_mm_test_all_zeros"%string, A_x86_64, SSE41) (intrinsics X86_64).
Proof.
  split; [|split; [reflexivity|cbn; tauto]].
  repeat (apply Forall_cons || apply Forall_nil); (split; [cbn; congruence|]);
    intros [] [] H E; cbn in *; try discriminate; try reflexivity; intuition discriminate.
Qed.

(* the start position under two targets *)
Example C68_start : forall checks rng,
  let cf1 := mkCfg (select (mkTarget true A_x86_64 v3)) checks rng in
  let cf2 := mkCfg (select (mkTarget true A_wasm32 (only SIMD128))) checks rng in
  exists p q, reachable cf1 [] p /\ reachable cf2 [] q /\ same_game (view cf1 p) (view cf2 q).
Proof.
  intros. destruct (demo_new cf1 startpos startpos_ok) as [p [_ [_ [R [G _]]]]].
  destruct (demo_new cf2 startpos startpos_ok) as [q [_ [_ [R' [G' _]]]]].
  exists p, q. split; [exact R|]. split; [exact R'|]. rewrite G, G'. apply same_refl.
Qed.
