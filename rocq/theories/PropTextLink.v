(** * The text of the crate on the text of a backend (C84)

    The text of position.rs, movegen.rs, tables.rs and zobrist.rs runs on a bitboard
    library [o]; each operation of [o] gives what the text of bitboard.rs and of
    x86_64.rs, aarch64.rs or wasm32.rs gives, or core.rs on [shogi_core::Bitboard]
    ([text_library], TextLink.v).  Of the model of the crate only the data are in the
    statements: moves, pieces, and the words that are the value of a bitboard. *)

From Coq Require Import List Bool NArith ZArith String Lia.
From Verif Require Import Types Rules Bitboard Tables Zobrist Position Movegen Api BBSpec Backends Squares Words ValidPlay Rep Legality PawnDrop Moves Hash Undo Decide Reach Lines PerftPanic Agree Bisim Twins Sfen Witness
  RustSyntax RustNames SourceText RustSem TextDefs TextRun TextTables TextPos TextMoves PropText BitsDefs BitsRun PropTextBits TextLink.
Import ListNotations.
Open Scope string_scope.

Notation var := (intern "pos").

(** ** Games of the text on a bitboard library *)

Section Any.
Context (o : bbops) (g : N -> N -> N) (checks : bool).
Notation runs := (text_run o g checks).

Definition lib_shows (v : val o) (gm : game) (n : N) : Prop :=
  (forall s, runs "piece_at" [v; VSq _ s] [] (RDone _ (VOpt _ (option_map (VPiece _) (g_board gm s))) []))
  /\ (forall c, exists h, runs "hand" [v; VColor _ c] [] (RDone _ (VHand _ h) []) /\ forall k, hand_n h k = g_hand gm c k)
  /\ runs "side_to_move" [v] [] (RDone _ (VColor _ (g_side gm)) [])
  /\ runs "ply" [v] [] (RDone _ (VInt _ U16 (Z.of_N n)) []).
Inductive lib_game : list move -> val o -> Prop :=
| L_new pp v : valid (game_of pp) -> (pp_ply pp <= 65535)%N ->
    runs "new" [VPartial _ pp] [] (RDone _ v []) -> lib_game [] v
| L_do ms v gm n m v' : lib_game ms v -> lib_shows v gm n -> legal gm m ->
    runs "do_move" [VRef _ (var, []); VMove _ m] [(var, v)] (RDone _ (VUnit _) [(var, v')]) ->
    lib_game (m :: ms) v'
| L_undo ms m v v' : lib_game (m :: ms) v ->
    runs "undo_move" [VRef _ (var, []); VMove _ m] [(var, v)] (RDone _ (VUnit _) [(var, v')]) ->
    lib_game ms v'.

(** ** The positions of the model behind the values *)

Context (S : bbspec o).
Notation z := (zobrist_table (g 2022%N)).
Let cf := mkCfg Portable checks (g 2022%N).
Notation Sp := (backend_spec Portable checks).
Notation pair p q := (simP (ops cf) o Sp S p q).

Inductive lbuilt : list move -> position o -> Prop :=
| LB_new pp p : valid (game_of pp) -> (pp_ply pp <= 65535)%N -> pos_new o z pp = Some p -> lbuilt [] p
| LB_do ms p m q : lbuilt ms p -> legal (gview o (p_inner o p)) m -> do_move o z checks p m = Some q -> lbuilt (m :: ms) q.

Lemma lnew_inv pp p : valid (game_of pp) -> (pp_ply pp <= 65535)%N -> pos_new o z pp = Some p ->
  exists st, inv o S p st.
Proof.
  intros V P N. destruct (hands_fit_dec (g_hand (game_of pp))) as [F|F].
  - unfold pos_new in N. cbv zeta in N. rewrite (proj1 (hand_keys_spec z o (inner_of_partial o pp)) F) in N.
    cbn [bind] in N. injection N as <-. eexists. constructor; try reflexivity; try assumption; [apply inner_of_partial_rep|].
    intros c k. destruct (in_dec kind_dec k hand_kinds) as [Ik|Nk]; [exact (F c k Ik)|].
    cbn [p_inner]. rewrite (hand_n_not _ _ Nk). lia.
  - unfold pos_new in N. cbv zeta in N. rewrite (proj2 (hand_keys_spec z o (inner_of_partial o pp)) F) in N. discriminate N.
Qed.
Lemma pair_same q p : pair q p -> same_game (view cf q) (gview o (p_inner o p)).
Proof.
  intros T. pose proof (sp_inner _ _ _ _ _ _ T) as J. split; [|split].
  - exact (si_board _ _ _ _ _ _ J).
  - intros c k. cbn [view gview g_hand]. f_equal. exact (si_hand _ _ _ _ _ _ J c).
  - exact (si_side _ _ _ _ _ _ J).
Qed.
Lemma lbuilt_inv ms p : lbuilt ms p -> exists q st, reachable cf ms q /\ pair q p /\ inv o S p st.
Proof.
  induction 1 as [pp p V P N|ms p m p' B [q [st [R [T I]]]] L D].
  - pose proof (sim_new (ops cf) o Sp S z pp) as H. rewrite N in H.
    destruct (pos_new (ops cf) z pp) as [q|] eqn:E; [|destruct H].
    destruct (lnew_inv pp p V P N) as [st I]. exists q, st.
    split; [exact (R_new cf pp q V P E)|]. tauto.
  - pose proof (sim_do_move (ops cf) o Sp S z checks q p m T) as H. rewrite D in H.
    destruct (do_move (ops cf) z checks q m) as [q'|] eqn:E; [|destruct H].
    destruct (do_move_inv o S z checks p st m p' I L D) as [st' [I' _]]. exists q', st'.
    split; [|tauto]. refine (R_do cf ms q m q' R _ E). apply (legal_same _ _ m (same_sym _ _ (pair_same q p T))). exact L.
Qed.
Lemma lshows q p : pair q p -> lib_shows (vpos o p) (view cf q) (Yasai.ply cf q).
Proof.
  intros T. pose proof (sp_inner _ _ _ _ _ _ T) as J.
  destruct (C79_accessors o g checks p) as [Sd [P [H [A _]]]].
  split; [|split; [|split]].
  - intros s. pose proof (A s []) as X. unfold piece_at in X. rewrite <- (si_board _ _ _ _ _ _ J s) in X. exact X.
  - intros c. exists (hand_of o p c). split; [exact (H c [])|]. intros k. cbn [view g_hand].
    unfold hand_of. rewrite <- (si_hand _ _ _ _ _ _ J c). reflexivity.
  - pose proof (Sd []) as X. unfold side_to_move in X. rewrite <- (si_side _ _ _ _ _ _ J) in X. exact X.
  - pose proof (P []) as X. unfold ply in X. rewrite <- (Bisim.sp_ply _ _ _ _ _ _ T) in X. exact X.
Qed.
Lemma lshows_same v gm h n n' : lib_shows v gm n -> lib_shows v h n' -> same_game gm h /\ n = n'.
Proof.
  intros [A [B [C D]]] [A' [B' [C' D']]]. split; [split; [|split]|].
  - intros s. pose proof (C79_one_result _ _ _ _ _ _ _ _ (A s) (A' s)) as E.
    injection E as E. destruct (g_board gm s), (g_board h s); cbn in E; congruence.
  - intros c k. destruct (B c) as [x [X K]], (B' c) as [y [Y K']]. rewrite <- K, <- K'.
    pose proof (C79_one_result _ _ _ _ _ _ _ _ X Y) as E. injection E as ->. reflexivity.
  - pose proof (C79_one_result _ _ _ _ _ _ _ _ C C') as E. injection E as E. exact E.
  - pose proof (C79_one_result _ _ _ _ _ _ _ _ D D') as E. injection E as E. lia.
Qed.
Lemma lply p st : inv o S p st -> (ply o p < 65536)%N.
Proof. intros I. pose proof (inv_ply _ _ _ _ I) as B. unfold ply. lia. Qed.
Lemma lib_built ms v : lib_game ms v -> exists p, v = vpos o p /\ lbuilt ms p.
Proof.
  induction 1 as [pp v V P N|ms v gm n m v' T [p [-> B]] W L D|ms m v v' T [p [-> B]] U].
  - pose proof (C79_one_result _ _ _ _ _ _ _ _ N (C79_new o g checks pp [])) as E.
    destruct (pos_new o z pp) as [p|] eqn:Q; cbn in E; [|discriminate].
    injection E as ->. exists p. split; [reflexivity|]. exact (LB_new pp p V P Q).
  - destruct (lbuilt_inv ms p B) as [q [st [R [J I]]]].
    destruct (lshows_same _ _ _ _ _ W (lshows q p J)) as [G _].
    pose proof (C79_one_result _ _ _ _ _ _ _ _ D (C79_do_move o g checks p m var (lply p st I))) as E.
    destruct (do_move o z checks p m) as [p'|] eqn:Q; [|discriminate].
    injection E as ->. exists p'. split; [reflexivity|]. apply (LB_do ms p m p' B); [|exact Q].
    apply (legal_same _ _ m (pair_same q p J)), (legal_same _ _ m G). exact L.
  - destruct (lbuilt_inv _ p B) as [q [st [R [J I]]]].
    pose proof (C79_one_result _ _ _ _ _ _ _ _ U (C79_undo_move o g checks p m var (lply p st I))) as E.
    inversion B as [|ms' p0 m' p' B0 L D E1 E2]; subst.
    destruct (lbuilt_inv ms p0 B0) as [q0 [st0 [_ [_ I0]]]].
    rewrite (undo_do o S z checks p0 st0 m p I0 L D) in E. injection E as ->.
    exists p0. split; [reflexivity|exact B0].
Qed.

Lemma lib_new pp : valid (game_of pp) -> (pp_ply pp <= 65535)%N ->
  (forall c k, In k hand_kinds -> (g_hand (game_of pp) c k <= 18)%N) ->
  exists v, runs "new" [VPartial _ pp] [] (RDone _ v []) /\ lib_game [] v /\ lib_shows v (game_of pp) (pp_ply pp).
Proof.
  intros V P F. destruct (start_fit cf pp V F P) as [q [E [R [W Q]]]].
  pose proof (sim_new (ops cf) o Sp S z pp) as H. unfold Yasai.new in E. change (zt cf) with z in E. rewrite E in H.
  pose proof (C79_new o g checks pp []) as N.
  destruct (pos_new o z pp) as [p|]; [|destruct H].
  exists (vpos o p). split; [exact N|]. split; [exact (L_new pp _ V P N)|].
  rewrite <- W, <- Q. exact (lshows q p H).
Qed.

Lemma lib_rules ms v : lib_game ms v ->
  exists gm n, lib_shows v gm n /\ valid gm /\ (n <= 65535)%N
  (* legal_moves() *)
  /\ (runs "legal_moves" [v] [] (RPanic _) /\ overfull gm
      \/ exists l, runs "legal_moves" [v] [] (RDone _ (VVec _ (Some 593%N) (map (VMove _) l)) [])
           /\ NoDup l /\ forall m, In m l <-> legal gm m)
  /\ (standard_material gm -> (exists s, g_board gm s = Some (mkP King (flip (g_side gm)))) -> ~ overfull gm)
  (* in_check() and is_check_move() *)
  /\ (exists b, runs "in_check" [v] [] (RDone _ (VBool _ b) []) /\ (b = true <-> in_check (g_board gm) (g_side gm)))
  /\ (forall m, legal gm m -> exists b, runs "is_check_move" [v; VMove _ m] [] (RDone _ (VBool _ b) [])
        /\ (b = true <-> in_check (g_board (play gm m)) (flip (g_side gm))))
  (* do_move(m) of a legal move *)
  /\ (forall m, legal gm m ->
        runs "do_move" [VRef _ (var, []); VMove _ m] [(var, v)] (RPanic _) /\ blocked checks n gm m
        \/ exists v' h, runs "do_move" [VRef _ (var, []); VMove _ m] [(var, v)] (RDone _ (VUnit _) [(var, v')])
             /\ lib_game (m :: ms) v'
             /\ lib_shows v' h (if (n =? 65535)%N then 0%N else (n + 1)%N) /\ same_game h (play gm m)
             (* and undo_move(m) *)
             /\ runs "undo_move" [VRef _ (var, []); VMove _ m] [(var, v')] (RDone _ (VUnit _) [(var, v)])).
Proof.
  intros G. destruct (lib_built ms v G) as [p [-> B]].
  destruct (lbuilt_inv ms p B) as [q [st [R [T I]]]].
  exists (view cf q), (Yasai.ply cf q). pose proof (lshows q p T) as W. split; [exact W|].
  split; [exact (reach_valid cf ms q R)|].
  destruct (reachable_inv cf ms q R) as [stq [Iq _]].
  split; [exact (inv_ply _ _ _ _ Iq)|].
  destruct (C79_accessors o g checks p) as [_ [_ [_ [_ [_ [_ [C M]]]]]]].
  assert (LM : Yasai.legal_moves cf q = legal_moves o p).
  { exact (sim_legal_moves (ops cf) o Sp S q p T (inv_rep _ _ _ _ Iq) (inv_valid _ _ _ _ Iq)). }
  split; [|split; [|split; [|split]]].
  - pose proof (C79_legal_moves o g checks p []) as L.
    destruct (legal_moves o p) as [l|] eqn:E.
    + right. exists l. split; [exact L|]. exact (api_legal_moves cf ms q l R LM).
    + left. split; [exact L|]. exact (proj1 (api_overfull cf ms q R) LM).
  - intros SM K O. apply (api_overfull cf ms q R) in O.
    destruct (api_legal_moves_total cf ms q R SM K) as [l E]. congruence.
  - destruct (api_in_check cf ms q R) as [b [E H]]. exists b. split; [|exact H].
    unfold Yasai.in_check in E. rewrite (sim_in_check (ops cf) o Sp S q p T) in E. rewrite E in C. exact (C []).
  - intros m L. destruct (api_is_check_move cf ms q m R L) as [b [E H]]. exists b. split; [|exact H].
    specialize (M m). unfold Yasai.is_check_move in E. rewrite (sim_is_check_move (ops cf) o Sp S q p T) in E.
    rewrite E in M. exact (M []).
  - intros m L. pose proof (C79_do_move o g checks p m var (lply p st I)) as D.
    pose proof (sim_do_move (ops cf) o Sp S z checks q p m T) as H.
    assert (Lp : legal (gview o (p_inner o p)) m) by (apply (legal_same _ _ m (pair_same q p T)); exact L).
    destruct (do_move o z checks p m) as [p'|] eqn:E.
    + destruct (do_move (ops cf) z checks q m) as [q'|] eqn:Q; [|destruct H].
      right. pose proof (R_do cf ms q m q' R L Q) as R'. exists (vpos o p'), (view cf q').
      split; [exact D|]. split; [exact (L_do ms _ _ _ m _ G W L D)|].
      pose proof (api_ply cf ms q m q' R L Q) as X. rewrite <- X. split; [exact (lshows q' p' H)|].
      split; [exact (api_do_move cf ms q m q' R L Q)|].
      destruct (do_move_inv o S z checks p st m p' I Lp E) as [st' [I' _]].
      pose proof (C79_undo_move o g checks p' m var (lply p' st' I')) as U.
      rewrite (undo_do o S z checks p st m p' I Lp E) in U. exact U.
    + left. split; [exact D|]. apply (api_blocked cf ms q m R L).
      change (Yasai.do_move cf q m) with (do_move (ops cf) z checks q m).
      destruct (do_move (ops cf) z checks q m); [destruct H|reflexivity].
Qed.
End Any.

(** ** The library is the text of a backend *)

Theorem C84_text_new b checks o enc g pp : text_library b checks o enc ->
  valid (game_of pp) -> (pp_ply pp <= 65535)%N ->
  (forall c k, In k hand_kinds -> (g_hand (game_of pp) c k <= 18)%N) ->
  exists v, text_run o g checks "new" [VPartial _ pp] [] (RDone _ v [])
    /\ lib_game o g checks [] v /\ lib_shows o g checks v (game_of pp) (pp_ply pp).
Proof. intros T. exact (lib_new o g checks (text_spec b checks o enc T) pp). Qed.
Print Assumptions C84_text_new.

Theorem C84_text_game b checks o enc g ms v : text_library b checks o enc ->
  lib_game o g checks ms v ->
  let runs := text_run o g checks in
  exists gm n, lib_shows o g checks v gm n /\ valid gm /\ (n <= 65535)%N
  (* legal_moves() *)
  /\ (runs "legal_moves" [v] [] (RPanic _) /\ overfull gm
      \/ exists l, runs "legal_moves" [v] [] (RDone _ (VVec _ (Some 593%N) (map (VMove _) l)) [])
           /\ NoDup l /\ forall m, In m l <-> legal gm m)
  /\ (standard_material gm -> (exists s, g_board gm s = Some (mkP King (flip (g_side gm)))) -> ~ overfull gm)
  (* in_check() and is_check_move() *)
  /\ (exists c, runs "in_check" [v] [] (RDone _ (VBool _ c) []) /\ (c = true <-> in_check (g_board gm) (g_side gm)))
  /\ (forall m, legal gm m -> exists c, runs "is_check_move" [v; VMove _ m] [] (RDone _ (VBool _ c) [])
        /\ (c = true <-> in_check (g_board (play gm m)) (flip (g_side gm))))
  (* do_move(m) of a legal move *)
  /\ (forall m, legal gm m ->
        runs "do_move" [VRef _ (var, []); VMove _ m] [(var, v)] (RPanic _) /\ blocked checks n gm m
        \/ exists v' h, runs "do_move" [VRef _ (var, []); VMove _ m] [(var, v)] (RDone _ (VUnit _) [(var, v')])
             /\ lib_game o g checks (m :: ms) v'
             /\ lib_shows o g checks v' h (if (n =? 65535)%N then 0%N else (n + 1)%N) /\ same_game h (play gm m)
             (* and undo_move(m) *)
             /\ runs "undo_move" [VRef _ (var, []); VMove _ m] [(var, v')] (RDone _ (VUnit _) [(var, v)])).
Proof. intros T. exact (lib_rules o g checks (text_spec b checks o enc T) ms v). Qed.
Print Assumptions C84_text_game.

(* &=, |= and ^= of the text give what the machine takes for them *)
Theorem C84_assignments b checks o enc t u : b <> Portable -> text_library b checks o enc ->
  let mt f x := bits_mut o b checks "Bitboard" f (enc t) [enc u] (VUnit o) (enc x) in
  mt "bitand_assign" (band o t u) /\ mt "bitor_assign" (bor o t u) /\ mt "bitxor_assign" (bxor o t u).
Proof.
  intros NP T. apply library_related in T. cbv zeta.
  destruct (r_value _ _ _ _ T t) as [a A], (r_value _ _ _ _ T u) as [c C].
  destruct (r_sets _ _ _ _ T t u a c A C) as [E1 [E2 [E3 _]]]. rewrite E1, E2, E3, A, C.
  destruct b; [destruct (NP eq_refl)|..].
  - split; [mutfn (@TextX86.t_and_to o checks a c)|]. split; [mutfn (@TextX86.t_or_to o checks a c)|].
    mutfn (@TextX86.t_xor_to o checks a c).
  - split; [mutfn (@TextNeon.t_and_to o checks a c)|]. split; [mutfn (@TextNeon.t_or_to o checks a c)|].
    mutfn (@TextNeon.t_xor_to o checks a c).
  - split; [mutfn (@TextWasm.t_and_to o checks a c)|]. split; [mutfn (@TextWasm.t_or_to o checks a c)|].
    mutfn (@TextWasm.t_xor_to o checks a c).
Qed.
Print Assumptions C84_assignments.

(* there is such a library for each of the backends *)
Theorem C84_library b checks : exists o enc, text_library b checks o enc.
Proof. exists (ops_of b checks). apply backend_library. Qed.
Print Assumptions C84_library.

(* 7g7f from the initial position *)
Example C84_example b checks o enc g : text_library b checks o enc ->
  exists v v' l, lib_game o g checks [] v /\ lib_game o g checks [mv (n7, n7) (n7, n6) false] v' /\
  text_run o g checks "legal_moves" [v'] [] (RDone _ (VVec _ (Some 593%N) (map (VMove _) l)) []) /\
  In (mv (n3, n3) (n3, n4) false) l /\ ~ In (mv (n7, n6) (n7, n5) false) l.
Proof.
  intros T.
  destruct (C84_text_new b checks o enc g partial_startpos T) as [v [N [G W]]];
    [apply validb_spec; vm_compute; reflexivity|vm_compute; discriminate|
     intros c k; apply material_fit, standardb_spec; vm_compute; reflexivity|].
  destruct (C84_text_game b checks o enc g [] v T G) as [gm [n [W' [_ [_ [_ [_ [_ [_ D]]]]]]]]].
  destruct (lshows_same o g checks v _ _ _ _ W W') as [Sm En]. subst n.
  assert (L0 : legal (game_of partial_startpos) (mv (n7, n7) (n7, n6) false)) by (apply legalb_spec; vm_compute; reflexivity).
  assert (L : legal gm (mv (n7, n7) (n7, n6) false)) by (apply (legal_same _ _ _ Sm); exact L0).
  destruct (D _ L) as [[_ K]|[v' [h [_ [G' [W2 [S2 _]]]]]]].
  { exfalso. destruct K as [[_ K]|K]; [discriminate K|]. destruct K as [f [t [pr [x [E [Bt _]]]]]]. injection E as <- <- <-.
    destruct Sm as [Sb _]. rewrite <- Sb in Bt. discriminate Bt. }
  exists v, v'. 
  destruct (C84_text_game b checks o enc g _ v' T G') as [g2 [n2 [W3 [_ [_ [LM [NO _]]]]]]].
  destruct (lshows_same o g checks v' _ _ _ _ W2 W3) as [S3 _].
  assert (Q : same_game (play (game_of partial_startpos) (mv (n7, n7) (n7, n6) false)) g2).
  { eapply same_trans; [|eapply same_trans; [|exact S3]].
    - apply play_same. exact Sm.
    - apply same_sym. exact S2. }
  destruct LM as [[_ OF]|[l [RL [_ IL]]]].
  - exfalso. apply NO; [| |exact OF].
    + intros k. rewrite <- (material_same _ _ k Q). revert k. apply standardb_spec. vm_compute. reflexivity.
    + destruct Q as [Qb [_ Qs]]. exists (Sq n5 n9). rewrite <- Qb, <- Qs. vm_compute. reflexivity.
  - exists l. split; [exact G|]. split; [exact G'|]. split; [exact RL|]. rewrite !IL. split.
    + apply (legal_same _ _ _ Q). apply legalb_spec. vm_compute. reflexivity.
    + intros X. apply (legal_same _ _ _ (same_sym _ _ Q)) in X. apply legalb_spec in X. vm_compute in X. discriminate X.
Qed.
