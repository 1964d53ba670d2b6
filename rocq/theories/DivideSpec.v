(** * What examples/perft.rs prints, and when its counter overflows *)

From Coq Require Import List Bool NArith ZArith Lia.
From Verif Require Import Types Rules Bitboard Tables Zobrist Position Movegen Perft Api
  ValidPlay Reach Lines Loops Decide PerftSpec Divide.
Import ListNotations.
Local Open Scope nat_scope.

Section Spec.
Context (cf : config) (w : N) (W : (10 <= w)%N).
Notation o := (ops cf).

Definition perft_prog (depth : nat) (is_root : bool) (p : Yasai.Position cf)
  : option (N * Yasai.Position cf * list (move * N)) :=
  perft_io o (zt cf) (cf_checks cf) w depth is_root p.
Definition main_prog (arg : option nat) (nanos : N) : option outcome :=
  main o (zt cf) (cf_checks cf) w arg nanos.

Lemma lists_lines_nil g : lists_lines g 0 [[]].
Proof.
  split; [repeat constructor; intros []|]. intros l. destruct l; cbn; intuition (discriminate || congruence).
Qed.

(* one turn of the loop *)
Lemma body_lines d ms p m c q : reachable cf ms p -> legal (view cf p) m ->
  body o (zt cf) (cf_checks cf) d p m = Some (c, q) ->
  q = p /\ exists L, lists_lines (play (view cf p) m) d L /\ c = N.of_nat (length L).
Proof.
  intros R Lm E. destruct d as [|d]; cbn [body] in E.
  - injection E as <- <-. split; [reflexivity|]. exists [[]]. split; [apply lists_lines_nil|reflexivity].
  - fold (Yasai.do_move cf p m) in E.
    destruct (Yasai.do_move cf p m) as [p1|] eqn:D; [|discriminate]. cbn [bind] in E.
    pose proof (R_do cf ms p m p1 R Lm D) as R1.
    pose proof (api_do_move cf ms p m p1 R Lm D) as G.
    pose proof (api_undo cf ms p m p1 R Lm D) as U.
    destruct d as [|d].
    + fold (Yasai.legal_moves cf p1) in E.
      destruct (Yasai.legal_moves cf p1) as [l|] eqn:El; [|discriminate]. cbn [bind fst snd] in E.
      fold (Yasai.undo_move cf p1 m) in E. rewrite U in E. cbn [bind] in E. injection E as <- <-.
      split; [reflexivity|]. exists (map (fun m => [m]) l). rewrite map_length. split; [|reflexivity].
      destruct (api_legal_moves cf _ p1 l R1 El) as [ND H].
      apply (lists_lines_same _ _ _ _ G). apply lists_lines_one; assumption.
    + fold (Yasai.perft cf (S (S d)) p1) in E.
      destruct (Yasai.perft cf (S (S d)) p1) as [[n q1]|] eqn:Ep; [|discriminate].
      destruct (perft_lines cf (S d) _ p1 n q1 R1 Ep) as [-> [L [HL ->]]].
      cbn [bind fst snd] in E. fold (Yasai.undo_move cf p1 m) in E. rewrite U in E.
      cbn [bind] in E. injection E as <- <-. split; [reflexivity|]. exists L.
      split; [|reflexivity]. exact (lists_lines_same _ _ _ _ G HL).
Qed.

Lemma fits pos l : legal_moves o pos = Some l -> (length l <= 593)%nat.
Proof. exact (legal_moves_length cf pos l). Qed.

Lemma body_io_lines d ms p m c q : reachable cf ms p -> legal (view cf p) m ->
  body_io o (zt cf) (cf_checks cf) w d p m = Some (c, q) ->
  q = p /\ exists L, lists_lines (play (view cf p) m) d L /\
    mach (cf_checks cf) w (N.of_nat (length L)) = Some c.
Proof.
  intros R Lm E. destruct d as [|d].
  - injection E as <- <-. split; [reflexivity|]. exists [[]]. split; [apply lists_lines_nil|].
    apply mach_small; [exact W|discriminate].
  - rewrite body_io_spec in E; [|exact W|exact fits|apply perft_io_spec; [exact W|exact fits]].
    destruct (body o (zt cf) (cf_checks cf) (S d) p m) as [[c0 q0]|] eqn:Eb; [|discriminate].
    cbn [bind fst snd] in E. destruct (mach (cf_checks cf) w c0) as [c1|] eqn:Em; [|discriminate].
    cbn [bind] in E. injection E as <- <-.
    destruct (body_lines _ ms p m c0 q0 R Lm Eb) as [-> [L [HL ->]]].
    split; [reflexivity|]. exists L. split; assumption.
Qed.

Lemma mach_mod n n' : mach (cf_checks cf) w n = Some n' -> n' = (n mod 2 ^ w)%N.
Proof.
  unfold mach. destruct (cf_checks cf).
  - destruct (N.ltb_spec n (2 ^ w)); [|discriminate]. intros [= <-]. symmetry. apply N.mod_small. assumption.
  - intros [= <-]. reflexivity.
Qed.

Theorem prog_prints d ms p n q out l : reachable cf ms p ->
  perft_prog (S d) true p = Some (n, q, out) -> Yasai.legal_moves cf p = Some l ->
  map fst out = l /\
  (forall m c, In (m, c) out -> exists L, lists_lines (play (view cf p) m) d L /\
     c = (N.of_nat (length L) mod 2 ^ w)%N) /\
  (n = fold_right N.add 0 (map snd out) mod 2 ^ w)%N.
Proof.
  intros R E El. pose proof E as E0. unfold perft_prog in E. rewrite perft_io_body in E.
  fold (Yasai.legal_moves cf p) in E. rewrite El in E. cbn [bind] in E.
  destruct (api_legal_moves cf ms p l R El) as [ND H].
  destruct (fun C => io_loop_printed o (cf_checks cf) w _ p l C _ _ _ _ _ E) as [l0 [-> [F [C Sm]]]].
  - intros m c q' I Eb. apply H in I. exact (proj1 (body_io_lines d ms p m c q' R I Eb)).
  - cbn [app]. split; [exact F|]. split.
    + intros m c I. pose proof (C m c I) as Eb.
      assert (Il : In m l) by (rewrite <- F; exact (in_map fst l0 (m, c) I)).
      apply H in Il. destruct (body_io_lines d ms p m c p R Il Eb) as [_ [L [HL M]]].
      exists L. split; [exact HL|]. apply mach_mod. exact M.
    + rewrite N.add_0_l in Sm. rewrite <- Sm. symmetry. apply N.mod_small.
      pose proof (perft_io_spec o (zt cf) (cf_checks cf) w W fits d true p) as S0.
      unfold perft_prog in E0. rewrite E0 in S0.
      destruct (perft o (zt cf) (cf_checks cf) (S d) p) as [[n0 q0]|]; [|discriminate].
      destruct (mach (cf_checks cf) w n0) as [n1|] eqn:M; [|discriminate].
      destruct S0 as [o1 [= <- <- <-]]. apply mach_mod in M. subst n.
      apply N.mod_lt. apply N.pow_nonzero. discriminate.
Qed.

Theorem prog_counts d root ms p : reachable cf ms p -> standard_material (view cf p) ->
  both_kings (view cf p) ->
  cf_checks cf = false \/ (Yasai.ply cf p + N.of_nat d <= 65535)%N ->
  exists L, lists_lines (view cf p) (S d) L /\
  (cf_checks cf = true -> (2 ^ w <= N.of_nat (length L))%N -> perft_prog (S d) root p = None) /\
  (cf_checks cf = false \/ (N.of_nat (length L) < 2 ^ w)%N ->
   exists out, perft_prog (S d) root p = Some ((N.of_nat (length L) mod 2 ^ w)%N, p, out) /\
     (root = false -> out = [])).
Proof.
  intros R SM BK P. destruct (perft_total cf d ms p R SM BK P) as [n E].
  destruct (perft_lines cf d ms p n p R E) as [_ [L [HL ->]]]. exists L. split; [exact HL|].
  pose proof (perft_io_spec o (zt cf) (cf_checks cf) w W fits d root p) as S0.
  fold (Yasai.perft cf (S d) p) in S0. rewrite E in S0. fold (perft_prog (S d) root p) in S0.
  split.
  - intros C B. unfold mach in S0. rewrite C in S0.
    destruct (N.ltb_spec (N.of_nat (length L)) (2 ^ w)); [lia|]. exact S0.
  - intros C. destruct (mach (cf_checks cf) w (N.of_nat (length L))) as [n'|] eqn:M.
    + destruct S0 as [out S0]. exists out. rewrite <- (mach_mod _ _ M). split; [exact S0|].
      intros ->. clear - S0. unfold perft_prog in S0. rewrite perft_io_body in S0.
      destruct (legal_moves o p) as [l|]; [|discriminate]. cbn [bind] in S0.
      apply io_loop_silent in S0. exact S0.
    + exfalso. unfold mach in M. destruct (cf_checks cf); [|discriminate].
      destruct C as [C|C]; [discriminate|].
      destruct (N.ltb_spec (N.of_nat (length L)) (2 ^ w)); [discriminate|lia].
Qed.

Lemma prog_zero root p : perft_prog 0 root p = perft_prog 1 root p.
Proof. reflexivity. Qed.
End Spec.
