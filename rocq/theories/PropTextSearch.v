(** * perft on the text of a backend (C84)

    The text of examples/perft.rs and of the crate it calls, on a bitboard library
    whose operations give what the text of a backend gives. *)

From Coq Require Import List Bool NArith ZArith String Lia.
From Verif Require Import Types Rules Bitboard Tables Zobrist Position Movegen Api BBSpec Backends Squares Words ValidPlay Rep Legality PawnDrop Moves Hash Undo Decide Reach Lines Perft PerftPanic PerftSpec Divide DivideSpec Bisim Agree Twins Sfen Witness
  RustSyntax RustNames SourceText RustSem TextDefs TextRun TextPos TextMoves PropText TextLink PropTextLink TextPrint TextPerft PropTextPerft.
Import ListNotations.
Open Scope string_scope.

Section Any.
Context (o : bbops) (g : N -> N -> N) (checks : bool) (Sb : bbspec o).
Notation z := (zobrist_table (g 2022%N)).
Let cf := mkCfg Portable checks (g 2022%N).
Notation pair q p := (simP (ops cf) o (backend_spec Portable checks) Sb q p).
Notation io o d := (perft_io o z checks 64 d).

(* the moves and the undoing of them on the two sides *)
Lemma two_steps ms q p m : reachable cf ms q -> pair q p -> legal (view cf q) m -> lbuilt o g checks ms p ->
  match do_move (ops cf) z checks q m, do_move o z checks p m with
  | Some q1, Some p1 => reachable cf (m :: ms) q1 /\ pair q1 p1 /\ lbuilt o g checks (m :: ms) p1
      /\ undo_move (ops cf) checks q1 m = Some q /\ undo_move o checks p1 m = Some p
  | None, None => True
  | _, _ => False
  end.
Proof.
  intros R T L B. pose proof (sim_do_move (ops cf) o (backend_spec Portable checks) Sb z checks q p m T) as H.
  assert (Lp : legal (gview o (p_inner o p)) m) by (apply (legal_same _ _ m (pair_same o g checks Sb q p T)); exact L).
  destruct (do_move (ops cf) z checks q m) as [q1|] eqn:Q, (do_move o z checks p m) as [p1|] eqn:P; try exact H.
  split; [exact (R_do cf ms q m q1 R L Q)|]. split; [exact H|]. split; [exact (LB_do o g checks ms p m p1 B Lp P)|].
  split; [exact (api_undo cf ms q m q1 R L Q)|].
  destruct (lbuilt_inv o g checks Sb ms p B) as [_ [st [_ [_ I]]]].
  exact (undo_do o Sb z checks p st m p1 I Lp P).
Qed.
Lemma two_lists ms q p : reachable cf ms q -> pair q p -> legal_moves (ops cf) q = legal_moves o p.
Proof.
  intros R T. destruct (reachable_inv cf ms q R) as [st [I _]].
  exact (sim_legal_moves (ops cf) o (backend_spec Portable checks) Sb q p T (inv_rep _ _ _ _ I) (inv_valid _ _ _ _ I)).
Qed.

(* the positions of a search on [o] *)
Let Rs p := exists ms, lbuilt o g checks ms p.
Let Ls p m := legal (gview o (p_inner o p)) m.
Lemma s_ply p : Rs p -> (ply o p < 65536)%N.
Proof. intros [ms B]. destruct (lbuilt_inv o g checks Sb ms p B) as [_ [st [_ [_ I]]]]. exact (lply o Sb p st I). Qed.
Lemma s_legal p l m : Rs p -> legal_moves o p = Some l -> In m l -> Ls p m.
Proof.
  intros [ms B] E M. destruct (lbuilt_inv o g checks Sb ms p B) as [q [st [R [T I]]]].
  rewrite <- (two_lists ms q p R T) in E. apply (legal_same _ _ m (pair_same o g checks Sb q p T)).
  exact (proj1 (proj2 (api_legal_moves cf ms q l R E) m) M).
Qed.
Lemma s_step p m p1 : Rs p -> Ls p m -> do_move o z checks p m = Some p1 -> Rs p1 /\ undo_move o checks p1 m = Some p.
Proof.
  intros [ms B] L D. split; [exists (m :: ms); exact (LB_do o g checks ms p m p1 B L D)|].
  destruct (lbuilt_inv o g checks Sb ms p B) as [_ [st [_ [_ I]]]]. exact (undo_do o Sb z checks p st m p1 I L D).
Qed.
Lemma s_fit p l : Rs p -> legal_moves o p = Some l -> (List.length l <= 593)%nat.
Proof.
  intros [ms B] E. destruct (lbuilt_inv o g checks Sb ms p B) as [q [st [R [T I]]]].
  rewrite <- (two_lists ms q p R T) in E. exact (fits cf q l E).
Qed.
Let text_io p d root := search_run o g checks Rs Ls s_ply s_legal s_step s_fit p d root.
Let pos_o := io_pos o z checks Rs Ls s_legal s_step.

Lemma pos_q d root ms q x : reachable cf ms q -> io (ops cf) d root q = Some x -> snd (fst x) = q.
Proof.
  intros R. apply (io_pos (ops cf) z checks (fun p => exists ms, reachable cf ms p) (fun p m => legal (view cf p) m)).
  - intros p0 l m [ms0 R0] E. exact (proj1 (proj2 (api_legal_moves cf ms0 p0 l R0 E) m)).
  - intros p0 m p1 [ms0 R0] L D. split; [exists (m :: ms0); exact (R_do cf ms0 p0 m p1 R0 L D)|exact (api_undo cf ms0 p0 m p1 R0 L D)].
  - exists ms. exact R.
Qed.

(* the counts are those of the crate on the portable bitboards *)
Definition told {o} (x : option (N * position o * list (move * N))) : option (N * list (move * N)) :=
  option_map (fun x => (fst (fst x), snd x)) x.
Lemma io_same d : forall root ms q p, reachable cf ms q -> pair q p -> lbuilt o g checks ms p ->
  told (io (ops cf) d root q) = told (io o d root p).
Proof.
  induction d as [d IH] using (well_founded_induction Nat.lt_wf_0). intros root ms q p R T B.
  rewrite !io_body, (two_lists ms q p R T). destruct (legal_moves o p) as [l|] eqn:El; [|reflexivity]. cbn [bind].
  assert (Lq : forall m, In m l -> legal (view cf q) m).
  { intros m. pose proof (two_lists ms q p R T) as E. rewrite El in E. exact (proj1 (proj2 (api_legal_moves cf ms q l R E) m)). }
  assert (Bd : forall m, In m l ->
    match body_io (ops cf) z checks 64 (Nat.pred d) q m, body_io o z checks 64 (Nat.pred d) p m with
    | Some (c, q'), Some (c', p') => c = c' /\ q' = q /\ p' = p
    | None, None => True
    | _, _ => False
    end).
  { intros m Im. pose proof (two_steps ms q p m R T (Lq m Im) B) as H. destruct d as [|[|d]]; [cbn; auto..|]. cbn [Nat.pred].
    unfold body_io. destruct (do_move (ops cf) z checks q m) as [q1|], (do_move o z checks p m) as [p1|]; [|destruct H..|exact I].
    cbn [bind]. destruct H as [R1 [T1 [B1 [Uq Up]]]]. destruct d as [|d].
    - rewrite (two_lists _ q1 p1 R1 T1). destruct (legal_moves o p1) as [l1|]; [|exact I]. cbn [bind fst snd].
      rewrite Uq, Up. cbn [bind fst snd]. auto.
    - pose proof (IH (S (S d)) ltac:(lia) false (m :: ms) q1 p1 R1 T1 B1) as Eq.
      pose proof (pos_o (S (S d)) false p1) as Xo. pose proof (pos_q (S (S d)) false (m :: ms) q1) as Xq.
      destruct (io (ops cf) (S (S d)) false q1) as [x|], (io o (S (S d)) false p1) as [y|]; try discriminate Eq; [|exact I].
      cbn [bind fst snd]. injection Eq as Ec _.
      rewrite (Xq x R1 eq_refl), (Xo y (ex_intro _ _ B1) eq_refl), Uq, Up. cbn [bind fst snd]. auto. }
  clear El Lq. generalize 0%N, (@nil (move * N)). induction l as [|m l IHl]; intros r ou; cbn [io_loop]; [reflexivity|].
  pose proof (Bd m (or_introl eq_refl)) as H.
  destruct (body_io (ops cf) z checks 64 (Nat.pred d) q m) as [[c q']|], (body_io o z checks 64 (Nat.pred d) p m) as [[c' p']|]; try destruct H; [|reflexivity].
  subst c'. destruct H0 as [-> ->]. cbn [bind fst snd]. destruct (usize_add checks 64 r c) as [s|]; [|reflexivity]. cbn [bind].
  apply IHl. intros m' I'. apply Bd. right. exact I'.
Qed.

(** What perft of a game of the text returns: the number of lines of legal moves *)
Lemma lib_counts ms v gm n d root : lib_game o g checks ms v -> lib_shows o g checks v gm n -> (Z.of_nat d < 2 ^ 64)%Z ->
  let runs := fn_run o g checks "perft" (search_args o d root) [(var, v)] in
  (exists r ls, runs r ls) /\
  (forall r ls, runs r ls ->
     r = RPanic _ \/
     exists L w, NoDup L /\ (forall l, In l L <-> List.length l = Nat.max 1 d /\ legal_line gm l) /\
       r = RDone _ w [(var, v)] /\ is_usize o w (N.of_nat (List.length L) mod 2 ^ 64)%N /\
       (* and what it prints *)
       printed o gm d root ls) /\
  (* when it does not panic *)
  (standard_material gm -> (forall c, exists s, g_board gm s = Some (mkP King c)) ->
   checks = false \/ (n + N.of_nat (Nat.max 1 d) <= 65536)%N ->
   exists L, NoDup L /\ (forall l, In l L <-> List.length l = Nat.max 1 d /\ legal_line gm l) /\
     (checks = true -> (2 ^ 64 <= N.of_nat (List.length L))%N -> exists ls, runs (RPanic _) ls) /\
     (checks = false \/ (N.of_nat (List.length L) < 2 ^ 64)%N ->
      exists w ls, is_usize o w (N.of_nat (List.length L) mod 2 ^ 64)%N /\ runs (RDone _ w [(var, v)]) ls)).
Proof.
  intros G W D. destruct (lib_built o g checks Sb ms v G) as [p [-> B]]. cbv zeta.
  destruct (lbuilt_inv o g checks Sb ms p B) as [q [st [R [T I]]]].
  destruct (lshows_same o g checks _ _ _ _ _ W (lshows o g checks Sb q p T)) as [Sm ->].
  pose proof (text_io p d root (ex_intro _ ms B) D) as H.
  pose proof (io_same d root ms q p R T B) as Eq.
  pose proof (prog_lines cf ms q d root) as Pl0. change (perft_prog cf 64 d root q) with (io (ops cf) d root q) in Pl0.
  assert (Ed : perft_prog cf 64 (S (Nat.pred d)) root q = io (ops cf) d root q) by (destruct d; reflexivity).
  replace (Nat.max 1 d) with (S (Nat.pred d)) by lia.
  set (d0 := Nat.pred d) in *. 
  split; [|split].
  - destruct (io o d root p) as [[[c p'] ou]|]; [|destruct H as [ls H]; eauto]. destruct H as [_ [w [ls [_ [_ H]]]]]. eauto.
  - intros r ls Hr.
    pose proof (perft_io_spec (ops cf) (zt cf) (cf_checks cf) 64 ltac:(discriminate) (fits cf) d0 root q) as P.
    fold (perft_prog cf 64 (S d0) root q) in P. rewrite Ed in P. fold (Yasai.perft cf (S d0) q) in P.
    destruct (io o d root p) as [[[c p'] ou]|]; [|left; destruct H as [l1 H]; exact (proj1 (fn_one_result _ _ _ _ _ _ _ _ _ _ Hr H))].
    destruct H as [-> [w [l1 [Iw [Ln H]]]]]. right.
    destruct (io (ops cf) d root q) as [[[c1 q'] ou']|]; [|discriminate Eq]. injection Eq as -> ->.
    destruct (Yasai.perft cf (S d0) q) as [[n0 q0]|] eqn:E; [|discriminate].
    destruct (perft_lines cf d0 ms q n0 q0 R E) as [-> [L [HL ->]]].
    destruct (lists_lines_same _ _ _ _ (ValidPlay.same_sym _ _ Sm) HL) as [ND IL].
    exists L, w. split; [exact ND|]. split; [exact IL|].
    destruct (fn_one_result _ _ _ _ _ _ _ _ _ _ Hr H) as [-> ->]. split; [reflexivity|]. split.
    2: { exists ou. split; [exact Ln|]. pose proof (Pl0 _ _ _ R eq_refl) as X. destruct root; [|exact X].
         exact (root_lines_same _ _ _ _ (ValidPlay.same_sym _ _ Sm) X). }
    destruct (mach (cf_checks cf) 64 (N.of_nat (List.length L))) as [c'|] eqn:M; [|discriminate].
    destruct P as [out' P]. injection P as -> _. rewrite <- (mach_mod cf 64 _ _ M). exact Iw.
  - intros SM BK Pl.
    destruct (prog_counts cf 64 ltac:(discriminate) d0 root ms q R) as [L [HL [P1 P2]]].
    { intros k. pose proof (material_same _ _ k Sm) as Q. pose proof (SM k) as M. rewrite Q in M. exact M. }
    { intros c. destruct (BK c) as [s Hs]. exists s. pose proof (proj1 Sm s) as Q. rewrite Hs in Q. symmetry. exact Q. }
    { destruct Pl as [Pl|Pl]; [left; exact Pl|right]. change (Yasai.ply cf q) with (Yasai.ply (mkCfg Portable checks (g 2022%N)) q). lia. }
    destruct (lists_lines_same _ _ _ _ (ValidPlay.same_sym _ _ Sm) HL) as [ND IL]. rewrite Ed in P1, P2.
    exists L. split; [exact ND|]. split; [exact IL|]. split.
    + intros C Big. rewrite (P1 C Big) in Eq. destruct (io o d root p); [discriminate Eq|exact H].
    + intros C. destruct (P2 C) as [ou [E _]]. rewrite E in Eq.
      destruct (io o d root p) as [[[c p'] ou']|]; [|discriminate Eq]. injection Eq as <- _.
      destruct H as [_ [w [ls [Iw [_ H]]]]]. eauto.
Qed.
(* and what it prints is what the model prints on the portable bitboards *)
Lemma lib_prints ms v gm n d w e ls : lib_game o g checks ms v -> lib_shows o g checks v gm n -> (Z.of_nat d < 2 ^ 64)%Z ->
  fn_run o g checks "perft" (search_args o d true) [(var, v)] (RDone _ w e) ls ->
  exists q c q' out, reachable cf ms q /\ same_game gm (view cf q) /\ perft_prog cf 64 (S (Nat.pred d)) true q = Some (c, q', out) /\
    Forall2 (prints_line o) ls out.
Proof.
  intros G W D Hr. destruct (lib_built o g checks Sb ms v G) as [p [-> B]].
  destruct (lbuilt_inv o g checks Sb ms p B) as [q [st [R [T I]]]].
  destruct (lshows_same o g checks _ _ _ _ _ W (lshows o g checks Sb q p T)) as [Sm _].
  pose proof (text_io p d true (ex_intro _ ms B) D) as H.
  pose proof (io_same d true ms q p R T B) as Eq.
  assert (Ed : perft_prog cf 64 (S (Nat.pred d)) true q = io (ops cf) d true q) by (destruct d; reflexivity).
  destruct (io o d true p) as [[[c p'] ou]|]; [|destruct H as [l1 H]; discriminate (proj1 (fn_one_result _ _ _ _ _ _ _ _ _ _ Hr H))].
  destruct H as [_ [w' [l1 [_ [Ln H]]]]]. rewrite (proj2 (fn_one_result _ _ _ _ _ _ _ _ _ _ Hr H)).
  destruct (io (ops cf) d true q) as [[[c1 q'] ou']|]; [|discriminate Eq]. injection Eq as -> ->.
  exists q, c, q', ou. split; [exact R|]. split; [exact Sm|]. split; [exact Ed|exact Ln].
Qed.
End Any.

Theorem C84_perft b checks o enc g ms v gm n d root : text_library b checks o enc ->
  lib_game o g checks ms v -> lib_shows o g checks v gm n -> (Z.of_nat d < 2 ^ 64)%Z ->
  let runs := fn_run o g checks "perft" (search_args o d root) [(var, v)] in
  (exists r ls, runs r ls) /\
  (forall r ls, runs r ls ->
     r = RPanic _ \/
     exists L w, NoDup L /\ (forall l, In l L <-> List.length l = Nat.max 1 d /\ legal_line gm l) /\
       r = RDone _ w [(var, v)] /\ is_usize o w (N.of_nat (List.length L) mod 2 ^ 64)%N /\
       (* and what it prints *)
       printed o gm d root ls) /\
  (* when it does not panic *)
  (standard_material gm -> (forall c, exists s, g_board gm s = Some (mkP King c)) ->
   checks = false \/ (n + N.of_nat (Nat.max 1 d) <= 65536)%N ->
   exists L, NoDup L /\ (forall l, In l L <-> List.length l = Nat.max 1 d /\ legal_line gm l) /\
     (checks = true -> (2 ^ 64 <= N.of_nat (List.length L))%N -> exists ls, runs (RPanic _) ls) /\
     (checks = false \/ (N.of_nat (List.length L) < 2 ^ 64)%N ->
      exists w ls, is_usize o w (N.of_nat (List.length L) mod 2 ^ 64)%N /\ runs (RDone _ w [(var, v)]) ls)).
Proof. intros T. exact (lib_counts o g checks (text_spec b checks o enc T) ms v gm n d root). Qed.
Print Assumptions C84_perft.

(* from the initial position *)
Example C84_example_perft b checks o enc g : text_library b checks o enc -> exists v, lib_game o g checks [] v /\
  exists L, NoDup L /\ (forall l, In l L <-> List.length l = 3%nat /\ legal_line (game_of partial_startpos) l) /\
    ((N.of_nat (List.length L) < 2 ^ 64)%N -> exists w ls, is_usize o w (N.of_nat (List.length L)) /\
     fn_run o g checks "perft" (search_args o 3 true) [(var, v)] (RDone _ w [(var, v)]) ls /\
     printed o (game_of partial_startpos) 3 true ls).
Proof.
  intros T.
  destruct (C84_text_new b checks o enc g partial_startpos T) as [v [N [G W]]];
    [apply validb_spec; vm_compute; reflexivity|vm_compute; discriminate|
     intros c k; apply material_fit, standardb_spec; vm_compute; reflexivity|].
  exists v. split; [exact G|].
  destruct (C84_perft b checks o enc g [] v _ _ 3 true T G W ltac:(reflexivity)) as [_ [Rn H]].
  destruct H as [L [ND [IL [_ P]]]].
  - apply standardb_spec. vm_compute. reflexivity.
  - intros c. destruct c; [exists (Sq n5 n9)|exists (Sq n5 n1)]; vm_compute; reflexivity.
  - right. vm_compute. discriminate.
  - exists L. split; [exact ND|]. split; [exact IL|]. intros Sm. destruct (P (or_intror Sm)) as [w [ls [Iw H]]].
    rewrite N.mod_small in Iw by exact Sm. exists w, ls. split; [exact Iw|]. split; [exact H|].
    destruct (Rn _ _ H) as [X|[L' [w' [_ [_ [_ [_ X]]]]]]]; [discriminate X|exact X].
Qed.
