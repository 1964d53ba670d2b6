(** * The text of the source files, run by the machine of [RustSem.v]

    [text_program] is what the parser reads from the text of src/position.rs,
    src/movegen.rs, src/tables.rs and src/zobrist.rs ([SourceText.v]).  What the
    text does not say is the bitboard library [o], the generator of random
    numbers [g] (its n-th number after a seed) and the overflow [checks]. *)

From Coq Require Import List Bool NArith ZArith String Lia.
From Verif Require Import Types Rules Bitboard Tables Zobrist Position Movegen Api ValidPlay Moves Decide Reach Lines PerftPanic Init Flat Sfen Witness
  RustSyntax RustNames SourceText RustSem TextDefs TextRun TextTables TextInit TextZob TextPos TextGen TextMoves TextAlone.
Import ListNotations.
Open Scope string_scope.

Definition text_program : gprog N := get_prog (parse_all source_text).
Lemma text_is_source : text_program = source.
Proof. vm_compute. reflexivity. Qed.

Section Text.
Context (o : bbops) (g : N -> N -> N) (checks : bool).
Let z := zobrist_table (g 2022%N).

(* a call of the function [f] of impl Position ends with [r]: a value and the
   variables of the caller, or a panic *)
Definition text_run (f : string) (vs : list (val o)) (e : env o) (r : result o) : Prop :=
  calls o checks text_program (alone o g) (intern "Position") (intern f) vs e r.
Definition outcome (x : option (val o)) (e : env o) : result o :=
  match x with Some v => RDone o v e | None => RPanic o end.
Lemma text_steps f vs e r : result_ok o r -> calls o checks source (statics o z) id_Position (intern f) vs e r -> text_run f vs e r.
Proof. intros K H. unfold text_run. rewrite text_is_source. exact (calls_alone o g checks _ (fun _ _ H => or_introl H) _ _ _ _ _ K H). Qed.
Lemma outcome_ok x e : result_ok o (outcome x e).
Proof. destruct x; discriminate. Qed.
(* a call that changes no variable of the caller *)
Definition text_gives (f : string) (vs : list (val o)) (x : option (val o)) : Prop :=
  forall e, text_run f vs e (outcome x e).

Lemma gives_at p f vs x : at_pos o z checks p (intern f) vs x -> text_gives f (vpos o p :: vs) x.
Proof.
  intros H e. apply text_steps; [apply outcome_ok|].
  eapply steps_calls; [apply H|]. destruct x as [v|]; cbn [pan outcome]; [|apply steps_refl].
  apply steps_one, steps_one. apply steps_refl.
Qed.
Lemma gives_any f vs x :
  (forall e k, steps o checks source (statics o z) (Enter o id_Position (intern f) vs e k) (pan o x (fun v => Resume o v e k))) ->
  text_gives f vs x.
Proof.
  intros H e. apply text_steps; [apply outcome_ok|].
  eapply steps_calls; [apply H|]. destruct x as [v|]; cbn [pan outcome]; [|apply steps_refl].
  apply steps_one, steps_one. apply steps_refl.
Qed.
Lemma same_refl x : same x x = true.
Proof. destruct x as [|p]; [reflexivity|]. cbn [same]. induction p; cbn [pos_same]; assumption || reflexivity. Qed.
Lemma fetch_one x v : fetch o [(x, v)] (x, []) = Some v.
Proof. unfold fetch, read. cbn [fst snd look]. rewrite same_refl. reflexivity. Qed.
Lemma store_one x v w : store o [(x, v)] (x, []) w = [(x, w)].
Proof. unfold store, write. cbn [fst snd look]. rewrite same_refl. cbn [put upd]. rewrite same_refl. reflexivity. Qed.
Lemma runs_mut f vs e (x : option (position o)) e' :
  steps o checks source (statics o z) (Enter o id_Position (intern f) vs e [])
    (pan o x (fun p => Resume o (VUnit o) (e' p) [])) ->
  text_run f vs e (match x with Some p => RDone o (VUnit o) (e' p) | None => RPanic o end).
Proof.
  intros H. apply text_steps; [destruct x; discriminate|].
  eapply steps_calls; [apply H|]. destruct x as [v|]; cbn [pan]; [|apply steps_refl].
  apply steps_one, steps_one. apply steps_refl.
Qed.
End Text.

(** C79 *)

(* the text is a program, and the numbers of its names stand for its names *)
Theorem C79_text_parses : exists p, parse_all source_text = Some p /\ text_program = ren_prog intern p /\ ren_prog name_of text_program = p.
Proof.
  exists (ren_prog name_of source). split; [exact source_ok|]. rewrite text_is_source. split; [|reflexivity].
  rewrite <- text_is_source. unfold text_program. rewrite source_ok. reflexivity.
Qed.
Print Assumptions C79_text_parses.

Theorem C79_one_result o g checks f vs e r r' :
  text_run o g checks f vs e r -> text_run o g checks f vs e r' -> r = r'.
Proof. apply calls_fun. Qed.
Print Assumptions C79_one_result.

Theorem C79_new o g checks pp : text_gives o g checks "new" [VPartial o pp] (option_map (vpos o) (pos_new o (zobrist_table (g 2022%N)) pp)).
Proof.
  apply gives_any. intros e k. change (intern "new") with id_new.
  eapply steps_trans; [apply sp_new|]. destruct (pos_new o (zobrist_table (g 2022%N)) pp); apply steps_refl.
Qed.
Print Assumptions C79_new.

Theorem C79_default o g checks : text_gives o g checks "default" [] (option_map (vpos o) (pos_new o (zobrist_table (g 2022%N)) partial_startpos)).
Proof.
  apply gives_any. intros e k. change (intern "default") with id_default.
  eapply steps_trans; [apply sp_default|]. destruct (pos_new o (zobrist_table (g 2022%N)) _); apply steps_refl.
Qed.
Print Assumptions C79_default.

Theorem C79_accessors o g checks p :
  let gives f vs := text_gives o g checks f (vpos o p :: vs) in
  gives "side_to_move" [] (Some (VColor o (side_to_move o p)))
  /\ gives "ply" [] (Some (VInt o U16 (Z.of_N (ply o p))))
  /\ (forall c, gives "hand" [VColor o c] (Some (VHand o (hand_of o p c))))
  /\ (forall s, gives "piece_at" [VSq o s] (Some (vpiece_opt o (piece_at o p s))))
  /\ gives "key" [] (option_map (fun n => VInt o U64 (Z.of_N n)) (pos_key o p))
  /\ gives "keys" [] (option_map (fun ks => VTup o [VInt o U64 (Z.of_N (fst ks)); VInt o U64 (Z.of_N (snd ks))]) (pos_keys o p))
  /\ gives "in_check" [] (option_map (VBool o) (pos_in_check o p))
  /\ (forall m, gives "is_check_move" [VMove o m] (option_map (VBool o) (is_check_move o p m))).
Proof.
  cbv zeta. repeat split; intros; apply gives_at.
  - exact (sp_side o _ checks p). - exact (sp_ply o _ checks p). - exact (sp_hand_of o _ checks p c).
  - exact (sp_at o _ checks p s). - exact (sp_key o _ checks p). - exact (sp_keys o _ checks p).
  - exact (sp_in_check o _ checks p). - exact (sp_is_check_move o _ checks p m).
Qed.
Print Assumptions C79_accessors.

Theorem C79_legal_moves o g checks p :
  text_gives o g checks "legal_moves" [vpos o p] (option_map (vmoves o) (legal_moves o p)).
Proof.
  apply gives_any. intros e k. change (intern "legal_moves") with id_legal_moves.
  eapply steps_trans; [apply sp_legal_moves|]. destruct (legal_moves o p); apply steps_refl.
Qed.
Print Assumptions C79_legal_moves.

(* [pos.do_move(m)], where [pos] is a variable of the caller *)
Theorem C79_do_move o g checks p m x : (ply o p < 65536)%N ->
  text_run o g checks "do_move" [VRef o (x, []); VMove o m] [(x, vpos o p)]
    (match do_move o (zobrist_table (g 2022%N)) checks p m with Some q => RDone o (VUnit o) [(x, vpos o q)] | None => RPanic o end).
Proof.
  intros H. apply (runs_mut o g checks "do_move" _ _ (do_move o (zobrist_table (g 2022%N)) checks p m) (fun q => [(x, vpos o q)])).
  eapply steps_trans; [apply (sp_do_move o _ checks p m (x, []) [(x, vpos o p)] [] H), fetch_one|].
  destruct (do_move o (zobrist_table (g 2022%N)) checks p m); cbn [pan]; [rewrite store_one|]; apply steps_refl.
Qed.
Print Assumptions C79_do_move.

Theorem C79_undo_move o g checks p m x : (ply o p < 65536)%N ->
  text_run o g checks "undo_move" [VRef o (x, []); VMove o m] [(x, vpos o p)]
    (match undo_move o checks p m with Some q => RDone o (VUnit o) [(x, vpos o q)] | None => RPanic o end).
Proof.
  intros H. apply (runs_mut o g checks "undo_move" _ _ (undo_move o checks p m) (fun q => [(x, vpos o q)])).
  eapply steps_trans; [apply (sp_undo_move o _ checks p m (x, []) [(x, vpos o p)] [] H), fetch_one|].
  destruct (undo_move o checks p m); cbn [pan]; [rewrite store_one|]; apply steps_refl.
Qed.
Print Assumptions C79_undo_move.

(* the generator that after the seed 2022 gives the numbers of [cf] *)
Definition gen (cf : config) (seed : N) : N -> N := if (seed =? 2022)%N then cf_rng cf else fun _ => 0%N.
Notation runs cf := (text_run (ops cf) (gen cf) (cf_checks cf)).
Lemma text_new cf pp : text_gives (ops cf) (gen cf) (cf_checks cf) "new" [VPartial _ pp] (option_map (vpos _) (pos_new (ops cf) (zt cf) pp)).
Proof. exact (C79_new (ops cf) (gen cf) (cf_checks cf) pp). Qed.
Lemma text_do cf p m x : (ply (ops cf) p < 65536)%N ->
  runs cf "do_move" [VRef _ (x, []); VMove _ m] [(x, vpos _ p)]
    (match do_move (ops cf) (zt cf) (cf_checks cf) p m with Some q => RDone _ (VUnit _) [(x, vpos _ q)] | None => RPanic _ end).
Proof. exact (C79_do_move (ops cf) (gen cf) (cf_checks cf) p m x). Qed.
(* the text of do_move does a move, and panics if there is no piece to move *)
Example C79_example cf : exists p q, Yasai.new cf partial_startpos = Some p /\ Yasai.do_move cf p (mv (n7, n7) (n7, n6) false) = Some q /\
  text_run (ops cf) (gen cf) (cf_checks cf) "do_move" [VRef _ (id_pos, []); VMove _ (mv (n7, n7) (n7, n6) false)]
    [(id_pos, vpos _ p)] (RDone _ (VUnit _) [(id_pos, vpos _ q)]) /\
  text_run (ops cf) (gen cf) (cf_checks cf) "do_move" [VRef _ (id_pos, []); VMove _ (mv (n5, n5) (n5, n4) false)]
    [(id_pos, vpos _ p)] (RPanic _).
Proof.
  destruct (start_reachable cf partial_startpos) as [p [E [R [W Q]]]];
    [apply validb_spec; vm_compute; reflexivity|apply standardb_spec; vm_compute; reflexivity|vm_compute; discriminate|].
  assert (L : legal (view cf p) (mv (n7, n7) (n7, n6) false))
    by (rewrite W; apply legalb_spec; vm_compute; reflexivity).
  destruct (Yasai.do_move cf p (mv (n7, n7) (n7, n6) false)) as [q|] eqn:D.
  2: { apply (api_do_total cf [] p _ R) in D; [|rewrite W; apply standardb_spec; vm_compute; reflexivity|exact L].
       rewrite Q in D. destruct D as [_ D]. discriminate D. }
  exists p, q. split; [exact E|]. split; [exact D|].
  assert (B : (ply (ops cf) p < 65536)%N) by (change (Yasai.ply cf p < 65536)%N; rewrite Q; reflexivity).
  split.
  - pose proof (text_do cf p (mv (n7, n7) (n7, n6) false) id_pos B) as H.
    unfold Yasai.do_move in D. rewrite D in H. exact H.
  - pose proof (text_do cf p (mv (n5, n5) (n5, n4) false) id_pos B) as H.
    replace (do_move _ _ _ _ _) with (@None (position (ops cf))) in H; [exact H|].
    unfold do_move, is_check_move. destruct (pos_state (ops cf) p); [|reflexivity].
    assert (N : g_board (view cf p) (Sq n5 n5) = None) by (rewrite W; reflexivity).
    cbn [bind mv fst snd]. change (i_piece_at (ops cf) (p_inner (ops cf) p) (Sq n5 n5)) with (g_board (view cf p) (Sq n5 n5)).
    rewrite N. reflexivity.
Qed.

(** C80 *)

(* the value of a variable after pos = Position::new(pp) and calls pos.do_move(m)
   and pos.undo_move(m), all run from the text; [ms]: the moves not undone *)
Notation var := (intern "pos").
Definition shows cf (v : val (ops cf)) (g : game) (n : N) : Prop :=
  (forall s, runs cf "piece_at" [v; VSq _ s] [] (RDone _ (VOpt _ (option_map (VPiece _) (g_board g s))) []))
  /\ (forall c, exists h, runs cf "hand" [v; VColor _ c] [] (RDone _ (VHand _ h) []) /\ forall k, hand_n h k = g_hand g c k)
  /\ runs cf "side_to_move" [v] [] (RDone _ (VColor _ (g_side g)) [])
  /\ runs cf "ply" [v] [] (RDone _ (VInt _ U16 (Z.of_N n)) []).
Inductive text_game cf : list move -> val (ops cf) -> Prop :=
| T_new pp v : valid (game_of pp) -> (pp_ply pp <= 65535)%N ->
    runs cf "new" [VPartial _ pp] [] (RDone _ v []) -> text_game cf [] v
| T_do ms v g n m v' : text_game cf ms v -> shows cf v g n -> legal g m ->
    runs cf "do_move" [VRef _ (var, []); VMove _ m] [(var, v)] (RDone _ (VUnit _) [(var, v')]) ->
    text_game cf (m :: ms) v'
| T_undo ms m v v' : text_game cf (m :: ms) v ->
    runs cf "undo_move" [VRef _ (var, []); VMove _ m] [(var, v)] (RDone _ (VUnit _) [(var, v')]) ->
    text_game cf ms v'.

Lemma shows_view cf p : shows cf (vpos _ p) (view cf p) (Yasai.ply cf p).
Proof.
  destruct (C79_accessors (ops cf) (gen cf) (cf_checks cf) p) as [S [P [H [A _]]]].
  split; [intros s; exact (A s [])|]. split; [intros c; exists (Yasai.hand cf p c); split; [exact (H c [])|reflexivity]|].
  split; [exact (S [])|exact (P [])].
Qed.
Lemma shows_same cf v g h n n' : shows cf v g n -> shows cf v h n' -> same_game g h /\ n = n'.
Proof.
  intros [A [B [C D]]] [A' [B' [C' D']]]. split; [split; [|split]|].
  - intros s. pose proof (C79_one_result _ _ _ _ _ _ _ _ (A s) (A' s)) as E.
    injection E as E. destruct (g_board g s), (g_board h s); cbn in E; congruence.
  - intros c k. destruct (B c) as [x [X K]], (B' c) as [y [Y K']]. rewrite <- K, <- K'.
    pose proof (C79_one_result _ _ _ _ _ _ _ _ X Y) as E. injection E as ->. reflexivity.
  - pose proof (C79_one_result _ _ _ _ _ _ _ _ C C') as E. injection E as E. exact E.
  - pose proof (C79_one_result _ _ _ _ _ _ _ _ D D') as E. injection E as E. lia.
Qed.
Lemma text_reachable cf ms v : text_game cf ms v -> exists p, v = vpos _ p /\ reachable cf ms p.
Proof.
  induction 1 as [pp v V P N|ms v g n m v' T [p [-> R]] S L D|ms m v v' T [p [-> R]] U].
  - pose proof (C79_one_result _ _ _ _ _ _ _ _ N (text_new cf pp [])) as E.
    destruct (pos_new (ops cf) (zt cf) pp) as [p|] eqn:Q; cbn in E; [|discriminate].
    injection E as ->. exists p. split; [reflexivity|]. exact (R_new cf pp p V P Q).
  - destruct (shows_same cf _ _ _ _ _ S (shows_view cf p)) as [G _].
    destruct (reachable_inv cf ms p R) as [st [I _]]. pose proof (inv_ply _ _ _ _ I) as B.
    assert (B' : (ply (ops cf) p < 65536)%N) by (unfold ply; lia).
    pose proof (C79_one_result _ _ _ _ _ _ _ _ D (text_do cf p m var B')) as E.
    destruct (do_move (ops cf) (zt cf) (cf_checks cf) p m) as [q|] eqn:Q; [|discriminate].
    injection E as ->. exists q. split; [reflexivity|]. apply (R_do cf ms p m q R); [|exact Q].
    apply (legal_same _ _ m G). exact L.
  - destruct (reachable_inv cf (m :: ms) p R) as [st [I _]]. pose proof (inv_ply _ _ _ _ I) as B.
    assert (B' : (ply (ops cf) p < 65536)%N) by (unfold ply; lia).
    pose proof (C79_one_result _ _ _ _ _ _ _ _ U (C79_undo_move (ops cf) (gen cf) (cf_checks cf) p m var B')) as E.
    destruct (undo_move (ops cf) (cf_checks cf) p m) as [q|] eqn:Q; [|discriminate].
    injection E as ->. exists q. split; [reflexivity|]. exact (R_undo cf ms p m q R Q).
Qed.

Theorem C80_text_new cf pp : valid (game_of pp) -> (pp_ply pp <= 65535)%N ->
  (forall c k, In k hand_kinds -> (g_hand (game_of pp) c k <= 18)%N) ->
  exists v, runs cf "new" [VPartial _ pp] [] (RDone _ v []) /\ text_game cf [] v /\ shows cf v (game_of pp) (pp_ply pp).
Proof.
  intros V P F. pose proof (text_new cf pp []) as N.
  destruct (start_fit cf pp V F P) as [p [E [R [W Q]]]]. unfold Yasai.new in E. rewrite E in N.
  exists (vpos _ p). split; [exact N|]. split; [exact (T_new cf pp _ V P N)|].
  rewrite <- W, <- Q. apply shows_view.
Qed.
Print Assumptions C80_text_new.

Theorem C80_text_game cf ms v : text_game cf ms v ->
  exists g n, shows cf v g n /\ valid g /\ (n <= 65535)%N
  (* legal_moves() *)
  /\ (runs cf "legal_moves" [v] [] (RPanic _) /\ overfull g
      \/ exists l, runs cf "legal_moves" [v] [] (RDone _ (VVec _ (Some 593%N) (map (VMove _) l)) [])
           /\ NoDup l /\ forall m, In m l <-> legal g m)
  /\ (standard_material g -> (exists s, g_board g s = Some (mkP King (flip (g_side g)))) -> ~ overfull g)
  (* in_check() and is_check_move() *)
  /\ (exists b, runs cf "in_check" [v] [] (RDone _ (VBool _ b) []) /\ (b = true <-> in_check (g_board g) (g_side g)))
  /\ (forall m, legal g m -> exists b, runs cf "is_check_move" [v; VMove _ m] [] (RDone _ (VBool _ b) [])
        /\ (b = true <-> in_check (g_board (play g m)) (flip (g_side g))))
  (* do_move(m) of a legal move *)
  /\ (forall m, legal g m ->
        runs cf "do_move" [VRef _ (var, []); VMove _ m] [(var, v)] (RPanic _) /\ blocked (cf_checks cf) n g m
        \/ exists v' h, runs cf "do_move" [VRef _ (var, []); VMove _ m] [(var, v)] (RDone _ (VUnit _) [(var, v')])
             /\ text_game cf (m :: ms) v'
             /\ shows cf v' h (if (n =? 65535)%N then 0%N else (n + 1)%N) /\ same_game h (play g m)
             (* and undo_move(m) *)
             /\ runs cf "undo_move" [VRef _ (var, []); VMove _ m] [(var, v')] (RDone _ (VUnit _) [(var, v)])).
Proof.
  intros T. destruct (text_reachable cf ms v T) as [p [-> R]].
  exists (view cf p), (Yasai.ply cf p). pose proof (shows_view cf p) as S. split; [exact S|].
  split; [exact (reach_valid cf ms p R)|].
  destruct (reachable_inv cf ms p R) as [st [I _]]. pose proof (inv_ply _ _ _ _ I) as B.
  assert (B' : (ply (ops cf) p < 65536)%N) by (unfold ply; lia).
  split; [exact B|].
  destruct (C79_accessors (ops cf) (gen cf) (cf_checks cf) p) as [_ [_ [_ [_ [_ [_ [C M]]]]]]].
  split; [|split; [|split; [|split]]].
  - pose proof (C79_legal_moves (ops cf) (gen cf) (cf_checks cf) p []) as L.
    destruct (legal_moves (ops cf) p) as [l|] eqn:E.
    + right. exists l. split; [exact L|]. exact (api_legal_moves cf ms p l R E).
    + left. split; [exact L|]. exact (proj1 (api_overfull cf ms p R) E).
  - intros SM K O. apply (api_overfull cf ms p R) in O.
    destruct (api_legal_moves_total cf ms p R SM K) as [l E]. congruence.
  - destruct (api_in_check cf ms p R) as [b [E H]]. exists b. split; [|exact H].
    unfold Yasai.in_check in E. rewrite E in C. exact (C []).
  - intros m L. destruct (api_is_check_move cf ms p m R L) as [b [E H]]. exists b. split; [|exact H].
    specialize (M m). unfold Yasai.is_check_move in E. rewrite E in M. exact (M []).
  - intros m L. pose proof (text_do cf p m var B') as D.
    destruct (do_move (ops cf) (zt cf) (cf_checks cf) p m) as [q|] eqn:E.
    + right. pose proof (R_do cf ms p m q R L E) as R'. exists (vpos _ q), (view cf q).
      split; [exact D|]. split; [exact (T_do cf ms _ _ _ m _ T S L D)|].
      pose proof (api_ply cf ms p m q R L E) as Q. rewrite <- Q. split; [apply shows_view|].
      split; [exact (api_do_move cf ms p m q R L E)|].
      assert (Bq : (ply (ops cf) q < 65536)%N).
      { destruct (reachable_inv cf _ q R') as [st' [I' _]]. pose proof (inv_ply _ _ _ _ I'). unfold ply. lia. }
      pose proof (C79_undo_move (ops cf) (gen cf) (cf_checks cf) q m var Bq) as U.
      pose proof (api_undo cf ms p m q R L E) as UE. unfold Yasai.undo_move in UE. rewrite UE in U. exact U.
    + left. split; [exact D|]. exact (proj1 (api_blocked cf ms p m R L) E).
Qed.
Print Assumptions C80_text_game.

(* the games of the text are the games of the model *)
Theorem C80_games cf ms v : text_game cf ms v <-> exists p, v = vpos _ p /\ reachable cf ms p.
Proof.
  split; [apply text_reachable|]. intros [p [-> R]].
  induction R as [pp p V P N|ms p m q R IH L D|ms p m q R IH U].
  - apply (T_new cf pp _ V P). pose proof (text_new cf pp []) as H.
    unfold Yasai.new in N. rewrite N in H. exact H.
  - apply (T_do cf ms _ _ _ m _ IH (shows_view cf p) L).
    destruct (reachable_inv cf ms p R) as [st [I _]]. pose proof (inv_ply _ _ _ _ I) as B.
    assert (B' : (ply (ops cf) p < 65536)%N) by (unfold ply; lia).
    pose proof (text_do cf p m var B') as H.
    unfold Yasai.do_move in D. rewrite D in H. exact H.
  - apply (T_undo cf ms m _ _ IH).
    destruct (reachable_inv cf _ p R) as [st [I _]]. pose proof (inv_ply _ _ _ _ I) as B.
    assert (B' : (ply (ops cf) p < 65536)%N) by (unfold ply; lia).
    pose proof (C79_undo_move (ops cf) (gen cf) (cf_checks cf) p m var B') as H.
    unfold Yasai.undo_move in U. rewrite U in H. exact H.
Qed.
Print Assumptions C80_games.

(* a game from the initial position, done by the text, and its legal moves *)
Example C80_example cf : exists v, text_game cf (rev opening) v /\
  exists l, runs cf "legal_moves" [v] [] (RDone _ (VVec _ (Some 593%N) (map (VMove _) l)) [])
    /\ In (mv (n2, n2) (n3, n3) false) l /\ ~ In (mv (n8, n3) (n8, n4) false) l.
Proof.
  destruct (demo cf startpos opening opening_ok) as [p [l [R [G [_ E]]]]].
  exists (vpos _ p). split; [apply C80_games; eauto|]. exists l.
  pose proof (C79_legal_moves (ops cf) (gen cf) (cf_checks cf) p []) as H.
  unfold Yasai.legal_moves in E. rewrite E in H. split; [exact H|].
  destruct (api_legal_moves cf _ p l R E) as [_ L]. split.
  - apply L. apply (demo_legal cf p _ _ G). vm_compute. reflexivity.
  - rewrite L. apply (demo_illegal cf p _ _ G). vm_compute. reflexivity.
Qed.
