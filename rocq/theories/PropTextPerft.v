(** * The text of the function perft of examples/perft.rs, run by the machine

    The type of an integer that was only added up from literals is [Lit]: the
    machine does not infer that it is usize. *)

From Coq Require Import List Bool NArith ZArith String Lia.
From Verif Require Import Types Rules Bitboard Tables Zobrist Position Movegen Api ValidPlay Moves Decide Reach Lines Perft PerftPanic PerftSpec
  Divide DivideSpec Init Flat Sfen Witness
  RustSyntax RustNames SourceText RustSem TextDefs TextRun TextPos TextGen TextMoves TextAlone TextPrint TextPerft PropText PropInternal PropDivide.
Import ListNotations.
Open Scope string_scope.

Notation var := (intern "pos").
Section Any.
Context (o : bbops) (g : N -> N -> N) (checks : bool).
Notation z := (zobrist_table (g 2022%N)).

(* a call of a function of no impl, all of it run from the text, and what it prints *)
Definition fn_run (f : string) (vs : list (val o)) (e : env o) (r : result o) (printed : list (line o)) : Prop :=
  pcalls o checks text_program (alone o g) (intern "") (intern f) vs e r printed.
(* perft(&mut pos, depth, is_root) *)
Definition search_args (d : nat) (root : bool) : list (val o) := [VRef o (var, []); VInt o Usize (Z.of_nat d); VBool o root].
(* the value n as a usize *)
Definition is_usize (v : val o) (n : N) : Prop :=
  v = VInt _ Usize (Z.of_N n) \/ v = VInt _ Lit (Z.of_N n) /\ (n <= 593)%N.

(* println!("{}: {count}", m.to_usi_owned()) where the variable count is c *)
Definition prints_line (l : line o) (x : move * N) : Prop :=
  fst l = [VStr o (intern "{}: {count}"); VMove o (fst x)] /\
  exists u, look o (intern "count") (snd l) = Some (VInt o u (Z.of_N (snd x))).

Lemma runs_steps f vs e r l : result_ok _ r ->
  pcalls o checks source (statics o z) id_ (intern f) vs e r l -> fn_run f vs e r l.
Proof. intros K H. unfold fn_run. rewrite text_is_source. exact (pcalls_alone o g checks _ _ _ _ _ _ K H). Qed.
Lemma fn_one_result f vs e r l r' l' : fn_run f vs e r l -> fn_run f vs e r' l' -> r = r' /\ l = l'.
Proof. apply pcalls_fun. Qed.

(* on any bitboards, from the positions of a search *)
Lemma search_run (R : position o -> Prop) (Lg : position o -> move -> Prop)
  (R_ply : forall p, R p -> (ply o p < 65536)%N)
  (R_legal : forall p l m, R p -> legal_moves o p = Some l -> In m l -> Lg p m)
  (R_step : forall p m q, R p -> Lg p m -> do_move o z checks p m = Some q -> R q /\ undo_move o checks q m = Some p)
  (R_fit : forall p l, R p -> legal_moves o p = Some l -> (List.length l <= 593)%nat)
  p d root : R p -> (Z.of_nat d < 2 ^ 64)%Z ->
  match perft_io o z checks 64 d root p with
  | None => exists ls, fn_run "perft" (search_args d root) [(var, vpos _ p)] (RPanic _) ls
  | Some (n, q, out) => q = p /\ exists v ls, is_usize v n /\ Forall2 prints_line ls out /\
      fn_run "perft" (search_args d root) [(var, vpos _ p)] (RDone _ v [(var, vpos _ p)]) ls
  end.
Proof.
  intros Rp B.
  pose proof (sp_perft o z checks R Lg R_ply R_legal R_step R_fit d B root p (var, []) [(var, vpos _ p)] [] Rp (fetch_one _ _ _)) as H.
  pose proof (io_pos o z checks R Lg R_legal R_step d root p) as Q.
  destruct (perft_io o z checks 64 d root p) as [[[n q] out]|].
  - specialize (Q _ Rp eq_refl). cbn [fst snd] in Q.
    subst q. split; [reflexivity|]. destruct H as [t [ls [T [Ln H]]]]. exists (VInt _ t (Z.of_N n)), ls.
    split; [|split; [exact Ln|]].
    { unfold typed in T. unfold is_usize. destruct (d <=? 1)%nat.
      - destruct T as [-> T]. right. split; [reflexivity|lia].
      - destruct T as [-> |[-> ->]]; [left; reflexivity|right; split; [reflexivity|lia]]. }
    apply runs_steps; [discriminate|]. rewrite store_one in H. unfold pcalls. rewrite <- (app_nil_r ls).
    refine (psteps_trans _ _ _ _ _ _ _ _ _ H _). apply quiet; [intros s; discriminate|]. apply steps_one, steps_one. apply steps_refl.
  - destruct H as [ls H]. exists ls. apply runs_steps; [discriminate|exact H].
Qed.
End Any.
Notation runs_fn cf := (fn_run (ops cf) (gen cf) (cf_checks cf)).
Notation perft_args cf d root := (search_args (ops cf) d root).

(** The lines that the root of a search prints, one for each legal move *)
Definition root_lines (g : game) (d : nat) (out : list (move * N)) : Prop :=
  NoDup (map fst out) /\ (forall m, In m (map fst out) <-> legal g m) /\
  forall m c, In (m, c) out -> exists L, NoDup L /\
    (forall l, In l L <-> List.length l = Nat.pred d /\ legal_line (play g m) l) /\ c = (N.of_nat (List.length L) mod 2 ^ 64)%N.
Definition printed o (g : game) (d : nat) (root : bool) (ls : list (line o)) : Prop :=
  exists out, Forall2 (prints_line o) ls out /\ if root then root_lines g d out else out = [].

Lemma prog_lines cf ms q d root n q' out : reachable cf ms q -> perft_prog cf 64 d root q = Some (n, q', out) ->
  if root then root_lines (view cf q) d out else out = [].
Proof.
  intros R E. replace (perft_prog cf 64 d root q) with (perft_prog cf 64 (S (Nat.pred d)) root q) in E by (destruct d; reflexivity).
  assert (X := E). unfold perft_prog in X. rewrite perft_io_body in X.
  destruct (legal_moves (ops cf) q) as [l|] eqn:El; [|discriminate X]. cbn [bind] in X. destruct root.
  - destruct (prog_prints cf 64 ltac:(discriminate) (Nat.pred d) ms q n q' out l R E El) as [Ml [C _]].
    destruct (api_legal_moves cf ms q l R El) as [ND I]. unfold root_lines. rewrite Ml. split; [exact ND|]. split; [exact I|].
    intros m c Im. destruct (C m c Im) as [L [[NL HL] Ec]]. exists L. auto.
  - exact (io_loop_silent _ _ _ _ _ _ _ _ _ X).
Qed.
Lemma root_lines_same g h d out : same_game g h -> root_lines g d out -> root_lines h d out.
Proof.
  intros G [ND [I C]]. split; [exact ND|]. split.
  - intros m. rewrite I. split; [apply (legal_same _ _ m G)|apply (legal_same _ _ m (ValidPlay.same_sym _ _ G))].
  - intros m c Im. destruct (C m c Im) as [L [NL [HL Ec]]].
    destruct (lists_lines_same (play g m) (play h m) (Nat.pred d) L (play_same _ _ m G) (conj NL HL)) as [N1 H1]. exists L. auto.
Qed.

(** C83 *)

(* the text of perft does what the model of the program does *)
Theorem C83_perft cf ms p d root : reachable cf ms p -> (Z.of_nat d < 2 ^ 64)%Z ->
  match perft_prog cf 64 d root p with
  | None => exists ls, runs_fn cf "perft" (perft_args cf d root) [(var, vpos _ p)] (RPanic _) ls
  | Some (n, q, out) => q = p /\ exists v ls, is_usize (ops cf) v n /\ Forall2 (prints_line (ops cf)) ls out /\
      runs_fn cf "perft" (perft_args cf d root) [(var, vpos _ p)] (RDone _ v [(var, vpos _ p)]) ls
  end.
Proof.
  intros R. apply (search_run (ops cf) (gen cf) (cf_checks cf) (fun p => exists ms, reachable cf ms p) (fun p m => legal (view cf p) m)).
  - intros p0 [ms0 R0]. destruct (reachable_inv cf ms0 p0 R0) as [st [I _]]. pose proof (inv_ply _ _ _ _ I). unfold ply. lia.
  - intros p0 l m [ms0 R0] E. exact (proj1 (proj2 (api_legal_moves cf ms0 p0 l R0 E) m)).
  - intros p0 m q [ms0 R0] L D. split; [exists (m :: ms0); exact (R_do cf ms0 p0 m q R0 L D)|]. exact (api_undo cf ms0 p0 m q R0 L D).
  - intros p0 l _. exact (fits cf p0 l).
  - exists ms. exact R.
Qed.
Print Assumptions C83_perft.

Theorem C83_one_result cf f vs e r l r' l' : runs_fn cf f vs e r l -> runs_fn cf f vs e r' l' -> r = r' /\ l = l'.
Proof. apply fn_one_result. Qed.
Print Assumptions C83_one_result.

(* what perft of a game of the text returns: the number of lines of legal moves *)
Theorem C83_counts cf ms v g n d root : text_game cf ms v -> shows cf v g n -> (Z.of_nat d < 2 ^ 64)%Z ->
  let runs := runs_fn cf "perft" (perft_args cf d root) [(var, v)] in
  (exists r ls, runs r ls) /\
  (forall r ls, runs r ls ->
     r = RPanic _ \/
     exists L w, NoDup L /\ (forall l, In l L <-> List.length l = Nat.max 1 d /\ legal_line g l) /\
       r = RDone _ w [(var, v)] /\ is_usize (ops cf) w (N.of_nat (List.length L) mod 2 ^ 64)%N /\
       (* and what it prints *)
       printed (ops cf) g d root ls) /\
  (* when it does not panic *)
  (standard_material g -> (forall c, exists s, g_board g s = Some (mkP King c)) ->
   cf_checks cf = false \/ (n + N.of_nat (Nat.max 1 d) <= 65536)%N ->
   exists L, NoDup L /\ (forall l, In l L <-> List.length l = Nat.max 1 d /\ legal_line g l) /\
     (cf_checks cf = true -> (2 ^ 64 <= N.of_nat (List.length L))%N -> exists ls, runs (RPanic _) ls) /\
     (cf_checks cf = false \/ (N.of_nat (List.length L) < 2 ^ 64)%N ->
      exists w ls, is_usize (ops cf) w (N.of_nat (List.length L) mod 2 ^ 64)%N /\ runs (RDone _ w [(var, v)]) ls)).
Proof.
  intros T S B. destruct (text_reachable cf ms v T) as [p [-> R]]. cbv zeta.
  destruct (shows_same cf _ _ _ _ _ S (shows_view cf p)) as [G ->].
  pose proof (C83_perft cf ms p d root R B) as H. pose proof (prog_lines cf ms p d root) as Pl0.
  replace (perft_prog cf 64 d root p) with (perft_prog cf 64 (Datatypes.S (Nat.pred d)) root p) in H, Pl0 by (destruct d; reflexivity).
  replace (Nat.max 1 d) with (Datatypes.S (Nat.pred d)) by lia. set (d0 := Nat.pred d) in *.
  split; [|split].
  - destruct (perft_prog cf 64 (Datatypes.S d0) root p) as [[[c q] out]|]; [|destruct H as [ls H]; eauto].
    destruct H as [_ [w [ls [_ [_ H]]]]]. eauto.
  - intros r ls Hr.
    pose proof (perft_io_spec (ops cf) (zt cf) (cf_checks cf) 64 ltac:(discriminate) (fits cf) d0 root p) as P.
    fold (perft_prog cf 64 (Datatypes.S d0) root p) in P. fold (Yasai.perft cf (Datatypes.S d0) p) in P.
    destruct (perft_prog cf 64 (Datatypes.S d0) root p) as [[[c q] out]|].
    + destruct H as [-> [w [l1 [W [Ln H]]]]]. right.
      destruct (Yasai.perft cf (Datatypes.S d0) p) as [[n0 q0]|] eqn:E; [|discriminate].
      destruct (perft_lines cf d0 ms p n0 q0 R E) as [-> [L [HL ->]]].
      destruct (lists_lines_same _ _ _ _ (ValidPlay.same_sym _ _ G) HL) as [ND I].
      exists L, w. split; [exact ND|]. split; [exact I|].
      destruct (C83_one_result _ _ _ _ _ _ _ _ Hr H) as [-> ->]. split; [reflexivity|]. split.
      * destruct (mach (cf_checks cf) 64 (N.of_nat (List.length L))) as [c'|] eqn:M; [|discriminate].
        destruct P as [out' P]. injection P as -> _. rewrite <- (mach_mod cf 64 _ _ M). exact W.
      * exists out. split; [exact Ln|]. pose proof (Pl0 c p out R eq_refl) as X. destruct root; [|exact X].
        exact (root_lines_same _ _ _ _ (ValidPlay.same_sym _ _ G) X).
    + left. destruct H as [l1 H]. exact (proj1 (C83_one_result _ _ _ _ _ _ _ _ Hr H)).
  - intros SM BK Pl.
    destruct (prog_counts cf 64 ltac:(discriminate) d0 root ms p R) as [L [HL [P1 P2]]].
    { intros k. rewrite <- (material_same _ _ k G). exact (SM k). }
    { intros c. destruct (BK c) as [s Hs]. exists s. rewrite <- (proj1 G s). exact Hs. }
    { destruct Pl as [Pl|Pl]; [left; exact Pl|right; lia]. }
    destruct (lists_lines_same _ _ _ _ (ValidPlay.same_sym _ _ G) HL) as [ND I].
    exists L. split; [exact ND|]. split; [exact I|]. split.
    + intros C Big. rewrite (P1 C Big) in H. exact H.
    + intros C. destruct (P2 C) as [out [E _]]. rewrite E in H. destruct H as [_ [w [ls [W [_ H]]]]]. eauto.
Qed.
Print Assumptions C83_counts.

(* what is called through Position prints nothing *)
Theorem C83_quiet o g checks f vs e r : (forall s, r <> RStuck o s) -> text_run o g checks f vs e r ->
  pcalls o checks text_program (alone o g) (intern "Position") (intern f) vs e r [].
Proof. intros K H. apply quiet_calls; [|exact H]. intros s E. injection E as E. exact (K s E). Qed.
Print Assumptions C83_quiet.

(* from the initial position: 30 at depth 1, and an answer at the depths up to 4 *)
Example C83_example cf : exists v, text_game cf [] v /\
  (exists w ls, is_usize (ops cf) w 30 /\ List.length ls = 30%nat /\ runs_fn cf "perft" (perft_args cf 1 true) [(var, v)] (RDone _ w [(var, v)]) ls) /\
  (forall d, (d <= 4)%nat -> exists w ls, runs_fn cf "perft" (perft_args cf d true) [(var, v)] (RDone _ w [(var, v)]) ls).
Proof.
  destruct (demo_new cf partial_startpos start_okp) as [p [l [N [R [G [Y El]]]]]].
  exists (vpos _ p). split; [apply C80_games; eauto|].
  pose proof (demo_std cf _ p start_okp G) as SM. pose proof (start_kings cf p G) as BK.
  assert (Q : forall d, (d <= 4)%nat -> exists L out, lists_lines (view cf p) (S (Nat.pred d)) L /\
    perft_prog cf 64 d true p = Some (N.of_nat (List.length L), p, out)).
  { intros d D. assert (Pl : cf_checks cf = false \/ (Yasai.ply cf p + N.of_nat (Nat.pred d) <= 65535)%N).
    { right. rewrite Y. change (pp_ply partial_startpos) with 1%N. lia. }
    destruct (perft_total cf (Nat.pred d) [] p R SM BK Pl) as [n E].
    destruct (prog_counts cf 64 ltac:(discriminate) (Nat.pred d) true [] p R SM BK Pl) as [L [HL [_ P]]].
    destruct (perft_lines cf _ [] p n p R E) as [_ [L' [HL' ->]]]. apply perft_bound in E.
    rewrite (lists_lines_length _ _ L' L HL' HL) in E.
    assert (Sm : (N.of_nat (List.length L) < 2 ^ 64)%N).
    { eapply N.le_lt_trans; [exact E|]. apply N.le_lt_trans with (593 ^ 4)%N; [|reflexivity].
      apply N.pow_le_mono_r; [discriminate|]. lia. }
    destruct (P (or_intror Sm)) as [out [Ep _]]. rewrite N.mod_small in Ep by exact Sm.
    exists L, out. split; [exact HL|]. destruct d as [|d]; exact Ep. }
  assert (W : forall d, (d <= 4)%nat -> exists L w ls, lists_lines (view cf p) (S (Nat.pred d)) L /\ List.length ls = List.length l /\
    is_usize (ops cf) w (N.of_nat (List.length L)) /\ runs_fn cf "perft" (perft_args cf d true) [(var, vpos _ p)] (RDone _ w [(var, vpos _ p)]) ls).
  { intros d D. destruct (Q d D) as [L [out [HL E]]]. pose proof (C83_perft cf [] p d true R ltac:(lia)) as H.
    rewrite E in H. destruct H as [_ [w [ls [U [Ln H]]]]]. exists L, w, ls. split; [exact HL|]. split; [|auto].
    replace (perft_prog cf 64 d true p) with (perft_prog cf 64 (S (Nat.pred d)) true p) in E by (destruct d; reflexivity).
    destruct (prog_prints cf 64 ltac:(discriminate) _ [] p _ _ _ l R E El) as [<- _].
    rewrite map_length. clear - Ln. induction Ln; cbn; congruence. }
  assert (Len30 : List.length l = 30%nat).
  { destruct (C47_thirty_moves cf) as [p' [l' [N' [El' Len]]]].
    unfold Yasai.default in N'. rewrite N in N'. injection N' as <-. rewrite El in El'. injection El' as <-. exact Len. }
  destruct (api_legal_moves cf [] p l R El) as [ND I].
  split.
  - destruct (W 1%nat ltac:(lia)) as [L [w [ls [HL [Ll [U H]]]]]]. exists w, ls. split; [|split; [rewrite Ll; exact Len30|exact H]].
    rewrite (lists_lines_length _ _ L _ HL (lists_lines_one _ l ND I)), map_length in U. clear - U Len30. rewrite Len30 in U. exact U.
  - intros d D. destruct (W d D) as [L [w [ls [_ [_ [_ H]]]]]]. eauto.
Qed.
