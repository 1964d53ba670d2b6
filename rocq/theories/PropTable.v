(** * C72: searches with a transposition table *)

From Coq Require Import String List Bool NArith ZArith Lia.
From Verif Require Import Types Rules Bitboard Tables Zobrist Position Movegen Perft Api Sfen Squares
  Moves Hash ValidPlay Reach Decide Lines PerftSpec Client PerftPanic TransTable Witness
  PropKeys StdRng SeedTable Siblings SiblingsSpec PropSeed.
Import ListNotations.
Local Open Scope string_scope.
Local Open Scope list_scope.
Local Open Scope nat_scope.

Local Opaque attack_info_new calculate_checkers crate_rng crate_table.

(** C72: if no two different positions less than [D] moves from [p] have the same
    key(), searches of [p] to depths of at most [D], one after the other with one
    table from keys and depths to counts, return what the search without a table
    returns, and leave [p] as it was.  They panic only if the search without a
    table does. *)
Theorem C72_table_exact cf ms p D ds : reachable cf ms p ->
  (forall l1 q1 l2 q2,
     (List.length l1 < D /\ legal_line (view cf p) l1 /\ do_line cf p l1 = Some q1) ->
     (List.length l2 < D /\ legal_line (view cf p) l2 /\ do_line cf p l2 = Some q2) ->
     Yasai.key cf q1 = Yasai.key cf q2 -> same_game (view cf q1) (view cf q2)) ->
  Forall (fun d => d <= D /\ Yasai.test_perft cf d p <> None) ds ->
  exists ns t, tt_searches cf ds p [] = Some (ns, p, t) /\
    Forall2 (fun d n => Yasai.test_perft cf d p = Some (n, p)) ds ns.
Proof.
  intros R NC F. destruct (tt_searches_right cf D ms p R NC ds [] F) as [ns [t [E [_ H]]]].
  - intros k d n [].
  - exists ns, t. tauto.
Qed.
Print Assumptions C72_table_exact.

(** With the random numbers of the crate there are no such collisions up to
    depth two, in any position with the pieces of one set. *)
Theorem C72_depth_two b ck ms p ds : let cf := seeded b ck in
  reachable cf ms p -> standard_material (view cf p) ->
  Forall (fun d => d <= 2 /\ Yasai.test_perft cf d p <> None) ds ->
  exists ns t, tt_searches cf ds p [] = Some (ns, p, t) /\
    Forall2 (fun d n => Yasai.test_perft cf d p = Some (n, p)) ds ns.
Proof.
  intros cf R M F.
  destruct (Yasai.legal_moves cf p) as [l|] eqn:El.
  - apply (C72_table_exact cf ms p 2 ds R); [|exact F].
    intros l1 q1 l2 q2 [B1 [L1 D1]] [B2 [L2 D2]] K.
    destruct l1 as [|m1 [|]]; [| |cbn in B1; lia]; (destruct l2 as [|m2 [|]]; [| |cbn in B2; lia]).
    + assert (q1 = q2) as -> by (cbn in D1, D2; congruence). apply same_refl.
    + exfalso. assert (p = q1) as -> by (cbn in D1; congruence).
      apply (C66_no_early_repetition b ck ms q1 [m2] q2 R M L2 ltac:(cbn; lia) D2). symmetry. exact K.
    + exfalso. assert (p = q2) as -> by (cbn in D2; congruence).
      apply (C66_no_early_repetition b ck ms q2 [m1] q1 R M L1 ltac:(cbn; lia) D1). exact K.
    + destruct (move_dec m1 m2) as [->|Ne].
      * assert (q1 = q2) as -> by congruence. apply same_refl.
      * exfalso. destruct L1 as [L1 _]. destruct L2 as [L2 _]. cbn [do_line] in D1, D2.
        assert (X : forall m q, match Yasai.do_move cf p m with Some q => Some q | None => None end = Some q ->
          Yasai.do_move cf p m = Some q) by (intros m q; destruct (Yasai.do_move cf p m); congruence).
        apply X in D1. apply X in D2.
        apply (C66_siblings b ck ms p l m1 m2 q1 q2 R M El); try assumption;
          apply (api_legal_moves cf ms p l R El); assumption.
  - (* only depth 0 *)
    assert (Z : Forall (fun d => d <= 0 /\ Yasai.test_perft cf d p <> None) ds).
    { eapply Forall_impl; [|exact F]. intros d [_ T]. split; [|exact T]. destruct d as [|d]; [lia|exfalso].
      apply T, (test_perft_panics cf (S d) ms p R), trouble_step. left.
      apply (api_overfull cf ms p R). exact El. }
    apply (C72_table_exact cf ms p 0 ds R); [|exact Z]. intros l1 q1 l2 q2 [B1 _]. lia.
Qed.
Print Assumptions C72_depth_two.

(** One table for two positions made by Position::new is wrong for every table of
    random numbers, because their keys do not tell the side to move (C15): here
    Black has moves and White has none. *)
Definition stalemate := sfen "8k/9/8G/7R1/9/9/9/9/4K4" Black "-".
Lemma stalemate_ok : demo_okb stalemate [] = true.
Proof. vm_compute. reflexivity. Qed.
Lemma stalemate_other : demo_okb (other_side stalemate) [] = true.
Proof. vm_compute. reflexivity. Qed.
Lemma stalemate_none : forallb (fun m => negb (legalb (game_of (other_side stalemate)) m)) every_move = true.
Proof. vm_compute. reflexivity. Qed.
Lemma stalemate_some : legalb (game_of stalemate) (mv (n5, n9) (n5, n8) false) = true.
Proof. vm_compute. reflexivity. Qed.
Lemma test_perft_1 cf ms p l : reachable cf ms p -> standard_material (view cf p) ->
  Yasai.legal_moves cf p = Some l -> (Yasai.ply cf p < 65535)%N ->
  Yasai.test_perft cf 1 p = Some (N.of_nat (List.length l), p).
Proof.
  intros R M El P. destruct (api_legal_moves cf ms p l R El) as [ND H].
  destruct (Yasai.test_perft cf 1 p) as [[n q]|] eqn:E.
  - destruct (test_perft_lines cf 1 ms p n q R E) as [-> [L [HL ->]]].
    rewrite (lists_lines_length _ _ L _ HL (lists_lines_one _ l ND H)), map_length. reflexivity.
  - exfalso. apply (test_perft_panics cf 1 ms p R), trouble_step in E as [E|[m [L [E|E]]]].
    + apply (api_overfull cf ms p R) in E. congruence.
    + apply (api_blocked cf ms p m R L) in E. apply (api_do_total cf ms p m R M L) in E as [_ E]. lia.
    + exact (trouble_none _ _ _ E).
Qed.
Theorem C72_shared_table_refuted cf : exists p q n t,
  reachable cf [] p /\ reachable cf [] q /\
  tt_perft cf 1 p [] = Some (n, p, t) /\ Yasai.test_perft cf 1 p = Some (n, p) /\
  tt_perft cf 1 q t = Some (n, q, t) /\ Yasai.test_perft cf 1 q = Some (0%N, q) /\ n <> 0%N.
Proof.
  destruct (demo_new cf stalemate stalemate_ok) as [p [l [N1 [R1 [G1 [Y1 E1]]]]]].
  destruct (demo_new cf (other_side stalemate) stalemate_other) as [q [l' [N2 [R2 [G2 [Y2 E2]]]]]].
  destruct (new_other_side cf stalemate p q N1 N2) as [_ [_ [_ Ks]]].
  pose proof (test_perft_1 cf [] p l R1 (demo_std cf _ p stalemate_ok G1) E1) as T1.
  pose proof (test_perft_1 cf [] q l' R2 (demo_std cf _ q stalemate_other G2) E2) as T2.
  rewrite Y1 in T1. rewrite Y2 in T2. specialize (T1 eq_refl). specialize (T2 eq_refl).
  assert (l' = []) as ->.
  { destruct l' as [|m l']; [reflexivity|exfalso].
    assert (L : legal (view cf q) m) by (apply (api_legal_moves cf [] q _ R2 E2); left; reflexivity).
    rewrite G2 in L. apply legalb_spec in L. pose proof stalemate_none as S.
    rewrite forallb_forall in S. specialize (S m (every_move_in m)). rewrite L in S. discriminate. }
  assert (Hl : l <> []).
  { intros ->. pose proof stalemate_some as S. apply legalb_spec in S. rewrite <- G1 in S.
    apply (api_legal_moves cf [] p [] R1 E1) in S. exact S. }
  assert (K : exists k, Yasai.key cf p = Some k /\ Yasai.key cf q = Some k).
  { destruct (reachable_inv cf [] p R1) as [sp [Ip _]]. destruct (reachable_inv cf [] q R2) as [sq [Iq _]].
    unfold Yasai.keys, pos_keys in Ks. unfold Yasai.key, pos_key.
    rewrite (inv_st _ _ _ _ Ip), (inv_st _ _ _ _ Iq) in *. cbn [bind] in *. injection Ks as ->. eauto. }
  destruct K as [k [K1 K2]].
  destruct (C72_table_exact cf [] p 1 [1] R1) as [ns [t [E H]]].
  - intros l1 q1 l2 q2 [B1 [_ D1]] [B2 [_ D2]] _. destruct l1; [|cbn in B1; lia]. destruct l2; [|cbn in B2; lia].
    assert (q1 = q2) as -> by (cbn in D1, D2; congruence). apply same_refl.
  - constructor; [|constructor]. split; [lia|congruence].
  - inversion H as [|d0 n l0 ns' Hn H']; subst. inversion H'; subst.
    cbn [tt_searches] in E. destruct (tt_perft cf 1 p []) as [[[n1 p1] t1]|] eqn:Et; [|discriminate].
    cbn [bind fst snd] in E. injection E as -> -> ->.
    exists p, q, n, t. split; [exact R1|]. split; [exact R2|]. split; [exact Et|]. split; [exact Hn|].
    split; [apply (tt_answers cf 0 q t n k K2), (tt_stores cf 0 p [] n p t k Et K1)|].
    split; [exact T2|]. rewrite T1 in Hn. injection Hn as <-. destruct l; [congruence|discriminate].
Qed.
Print Assumptions C72_shared_table_refuted.

(* iterative deepening of the start position with the crate's random numbers *)
Example C72_example b ck : let cf := seeded b ck in exists p n1 n2 t,
  Yasai.new cf startpos = Some p /\ reachable cf [] p /\ standard_material (view cf p) /\
  tt_searches cf [1; 2; 2] p [] = Some ([n1; n2; n2], p, t) /\
  Yasai.test_perft cf 1 p = Some (n1, p) /\ Yasai.test_perft cf 2 p = Some (n2, p).
Proof.
  intros cf. destruct (demo_new cf startpos startpos_ok) as [p [l [N [R [G [Y E]]]]]].
  assert (SM := demo_std cf _ p startpos_ok G).
  assert (BK : both_kings (view cf p)).
  { rewrite G. intros []; [exists (Sq n5 n9)|exists (Sq n5 n1)]; reflexivity. }
  assert (T : forall d, d <= 2 -> Yasai.test_perft cf d p <> None).
  { intros d Le. destruct (test_perft_total cf d [] p R SM BK) as [n ->]; [|discriminate].
    right. rewrite Y. change (pp_ply startpos) with 1%N. lia. }
  destruct (C72_depth_two b ck [] p [1; 2; 2] R SM) as [ns [t [Es F]]].
  { repeat constructor; try lia; apply T; lia. }
  inversion F as [|d1 n1 l1 ns1 H1 F1]; subst. inversion F1 as [|d2 n2 l2 ns2 H2 F2]; subst.
  inversion F2 as [|d3 n3 l3 ns3 H3 F3]; subst. inversion F3; subst.
  fold cf in H1, H2, H3, Es. rewrite H2 in H3. injection H3 as <-.
  exists p, n1, n2, t. tauto.
Qed.
