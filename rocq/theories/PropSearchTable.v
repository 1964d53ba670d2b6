(** * C77: alpha-beta with a transposition table keyed by Position::key *)

From Coq Require Import String List Bool NArith ZArith Lia.
From Verif Require Import Types Rules Bitboard Tables Zobrist Position Movegen Init Api Sfen Squares
  Moves Hash ValidPlay Reach Decide Lines PerftSpec Witness Client PropClient PropKeys Distinct PropDistinct
  Collide PropCollide Count StdRng SeedTable Siblings PropSeed PropTable PropRare PropRepeat Search PropSearch SearchTable.
Import ListNotations.
Local Open Scope Z_scope.

Local Opaque attack_info_new calculate_checkers N.pow crate_rng crate_table.

(* no two legal lines of less than [D] moves from [p] end in different positions with the same key *)
Definition no_collision (cf : config) (p : Yasai.Position cf) (D : nat) : Prop := forall l1 q1 l2 q2,
  ((List.length l1 < D)%nat /\ legal_line (view cf p) l1 /\ do_line cf p l1 = Some q1) ->
  ((List.length l2 < D)%nat /\ legal_line (view cf p) l2 /\ do_line cf p l2 = Some q2) ->
  Yasai.key cf q1 = Yasai.key cf q2 -> same_game (view cf q1) (view cf q2).

(* [r] is the value [v], cut off at the window *)
Definition cut (alpha beta v r : Z) : Prop :=
  (v <= alpha -> r = alpha) /\ (alpha <= v <= beta -> r = v) /\ (beta <= v -> r = beta).
Definition right_answer (W : weights) (g : game) (j : nat * Z * Z) (r : Z) : Prop :=
  match j with (d, alpha, beta) => forall v, minimax W d g v -> cut alpha beta v r end.

Lemma at_line_key cf ms p t l : reachable cf ms p -> standard_material (view cf p) ->
  cf_checks cf = false \/ (Yasai.ply cf p + N.of_nat (List.length l) <= 65535)%N ->
  at_line (mkT (view cf p) (Yasai.ply cf p) []) t l ->
  exists q, do_line cf p l = Some q /\ same_game (view cf q) (t_game t) /\
    Yasai.key cf q = Some (key_at (keyed (zt cf) ms) t).
Proof.
  intros R SM B [L [G Y]]. cbn [t_game t_past List.length Nat.add] in *.
  destruct (do_line_total cf l ms p R SM L B) as [q Dq].
  destruct (do_line_spec cf l ms p q R L Dq) as [Rq [Gq _]]. rewrite <- G in Gq.
  exists q. split; [exact Dq|]. split; [exact Gq|].
  assert (E : Yasai.keys cf q = Some (keys_at (keyed (zt cf) ms) t)).
  { rewrite (api_keys cf _ q Rq). unfold keys_at, keyed, turn_bit. rewrite Y, app_length, rev_length.
    destruct Gq as [Bq [Hq _]]. rewrite (board_hash_ext _ _ _ Bq), (hand_hash_ext _ _ _ Hq). reflexivity. }
  revert E. unfold Yasai.keys, pos_keys, Yasai.key, pos_key, key_at.
  destruct (pos_state (ops cf) q) as [st|]; cbn [bind]; [|discriminate]. intros [= ->]. reflexivity.
Qed.

(** C77 *)

(* Any number of searches, each with its own depth and window, that share one table
   of bounds keyed by key() and the depth: if no two positions less than [D] moves
   from the root have the same key, each search has the minimax value. *)
Theorem C77_table_search cf W jobs D ms p :
  reachable cf ms p -> standard_material (view cf p) -> both_kings (view cf p) ->
  cf_checks cf = false \/ (Yasai.ply cf p + N.of_nat D <= 65535)%N ->
  (forall d alpha beta, In (d, alpha, beta) jobs -> (d <= D)%nat /\ alpha < beta) ->
  no_collision cf p D ->
  exists rs, exec cf (tt_all W jobs [] [] Ret) p = Some (rs, p) /\
    Forall2 (right_answer W (view cf p)) jobs rs.
Proof.
  intros R SM BK B J NC. set (t0 := mkT (view cf p) (Yasai.ply cf p) []).
  assert (De : decent (view cf p)).
  { split; [exact (reach_valid cf ms p R)|]. split; [apply reach_hand_ok|]. split; assumption. }
  destruct (C64_client_refines cf (tt_all W jobs [] [] Ret) ms p R) as [a [q [t' [E [P [_ [_ Q]]]]]]].
  { apply tt_all_fine; [exact De| |intros rs; constructor]. intros d alpha beta I. destruct (J _ _ _ I) as [Le _].
    cbn [t_ply]. destruct B as [B|B]; [tauto|right; lia]. }
  fold t0 in P.
  apply (tt_all_gets W (keyed (zt cf) ms) t0 D) in P.
  - inversion P; subst. cbn [t_past t0] in Q. rewrite (Q eq_refl) in E. eexists. split; [exact E|].
    cbn [app]. subst t0. clear - J. induction jobs as [|[[d alpha] beta] jobs IH]; cbn [map]; constructor.
    + intros v H. apply minimax_mm in H. cbn [t_game]. rewrite <- H. unfold cut, clamp.
      destruct (J d alpha beta (or_introl eq_refl)). lia.
    + apply IH. intros d' al be I. apply (J d' al be). right. exact I.
  - intros t1 l1 t2 l2 A1 B1 A2 B2 Ek.
    destruct (at_line_key cf ms p t1 l1 R SM) as [q1 [D1 [G1 K1]]]; [destruct B as [B|B]; [tauto|right; lia]|exact A1|].
    destruct (at_line_key cf ms p t2 l2 R SM) as [q2 [D2 [G2 K2]]]; [destruct B as [B|B]; [tauto|right; lia]|exact A2|].
    apply (same_trans _ _ _ (same_sym _ _ G1)), (same_trans _ (view cf q2)); [|exact G2].
    apply (NC l1 q1 l2 q2).
    + split; [exact B1|]. split; [apply A1|exact D1].
    + split; [exact B2|]. split; [apply A2|exact D2].
    + rewrite K1, K2, Ek. reflexivity.
  - intros key d b [].
  - exact J.
Qed.
Print Assumptions C77_table_search.

(* With the random numbers of the crate there is no collision up to depth two. *)
Lemma no_collision_two b ck ms p : let cf := seeded b ck in
  reachable cf ms p -> standard_material (view cf p) -> both_kings (view cf p) -> no_collision cf p 2.
Proof.
  intros cf R M BK.
  destruct (api_listable cf ms p R) as [l El].
  { apply listable_king; [exact (reach_valid cf ms p R)|apply reach_hand_ok|exact M|apply BK]. }
  intros l1 q1 l2 q2 [B1 [L1 D1]] [B2 [L2 D2]] K.
  destruct l1 as [|m1 [|]]; [| |cbn in B1; lia]; (destruct l2 as [|m2 [|]]; [| |cbn in B2; lia]).
  - assert (q1 = q2) as -> by (cbn in D1, D2; congruence). apply same_refl.
  - exfalso. assert (p = q1) as -> by (cbn in D1; congruence).
    apply (C66_no_early_repetition b ck ms q1 [m2] q2 R M L2 ltac:(cbn; lia) D2). symmetry. exact K.
  - exfalso. assert (p = q2) as -> by (cbn in D2; congruence).
    apply (C66_no_early_repetition b ck ms q2 [m1] q1 R M L1 ltac:(cbn; lia) D1). exact K.
  - destruct (move_dec m1 m2) as [->|Ne].
    + assert (q1 = q2) as -> by congruence. apply same_refl.
    + exfalso. destruct L1 as [L1 _]. destruct L2 as [L2 _]. cbn [do_line] in D1, D2.
      assert (X : forall m q, match Yasai.do_move cf p m with Some q => Some q | None => None end = Some q ->
        Yasai.do_move cf p m = Some q) by (intros m q; destruct (Yasai.do_move cf p m); congruence).
      apply X in D1. apply X in D2.
      apply (C66_siblings b ck ms p l m1 m2 q1 q2 R M El); try assumption;
        apply (api_legal_moves cf ms p l R El); assumption.
Qed.
Theorem C77_depth_two b ck W jobs ms p : let cf := seeded b ck in
  reachable cf ms p -> standard_material (view cf p) -> both_kings (view cf p) ->
  ck = false \/ (Yasai.ply cf p + 2 <= 65535)%N ->
  (forall d alpha beta, In (d, alpha, beta) jobs -> (d <= 2)%nat /\ alpha < beta) ->
  exists rs, exec cf (tt_all W jobs [] [] Ret) p = Some (rs, p) /\
    Forall2 (right_answer W (view cf p)) jobs rs.
Proof.
  intros cf R M BK B J. apply (C77_table_search cf W jobs 2 ms p R M BK B J).
  exact (no_collision_two b ck ms p R M BK).
Qed.
Print Assumptions C77_depth_two.

(* Few tables of random numbers have collisions near the start. *)
Lemma collisions_rare be ck pp D (L : list (list move)) (bad : (N -> N) -> bool) :
  valid (game_of pp) -> standard_material (game_of pp) -> (pp_ply pp + N.of_nat D <= 65535)%N ->
  (forall l, legal_line (game_of pp) l -> (List.length l < D)%nat -> In l L) ->
  (forall l, In l L -> legal_line (game_of pp) l /\ (List.length l < D)%nat) ->
  (forall rng p, bad rng = true -> let cf := mkCfg be ck rng in
     Yasai.new cf pp = Some p -> reachable cf [] p -> view cf p = game_of pp ->
     Yasai.ply cf p = pp_ply pp -> ~ no_collision cf p D) ->
  let n := N.of_nat (List.length L) in
  (count_tables bad * 2 ^ 64 <= n * (n - 1) * (2 ^ 64) ^ 2520)%N.
Proof.
  intros V SM Py LA LB H n.
  assert (GL : forall a, In a (map (pair pp) L) -> game_line (fst a) (snd a)).
  { intros a I. apply in_map_iff in I as [l [<- I]]. cbn [fst snd]. destruct (LB l I).
    apply standard_line; try assumption. lia. }
  unfold n. rewrite <- (map_length (pair pp) L).
  apply (C73_collisions_rare be ck (map (pair pp) L) bad GL). intros rng E.
  set (cf := mkCfg be ck rng) in *. apply matched_any; [exact GL|].
  destruct (existsb (matched cf) (pairs (map (pair pp) L))) eqn:M; [reflexivity|exfalso].
  destruct (start_reachable cf pp V SM ltac:(lia)) as [p [N [R [Ev Ep]]]].
  apply (H rng p E N R Ev Ep). fold cf.
  intros l1 q1 l2 q2 [B1 [L1 D1]] [B2 [L2 D2]] K. rewrite Ev in L1, L2.
  destruct (after_line cf pp l1 p q1 V ltac:(lia) L1 N D1) as [R1 G1].
  destruct (after_line cf pp l2 p q2 V ltac:(lia) L2 N D2) as [R2 G2].
  assert (NA : ~ apart (pp, l1) (pp, l2)).
  { intros A. apply not_true_iff_false in M. apply M, matched_any; [exact GL|].
    exists (pp, l1), (pp, l2). split; [apply in_map, LA; assumption|]. split; [apply in_map, LA; assumption|].
    split; [exact A|]. cbn [fst snd]. unfold key_after. rewrite N. cbn [bind]. rewrite D1, D2. exact K. }
  assert (Q : apartb (pp, l1) (pp, l2) = false).
  { apply not_true_is_false. intros X. apply NA, apartb_spec, X. }
  unfold apartb in Q. apply negb_false_iff, same_gameb_spec in Q as [Qb [Qh Qs]].
  cbn [fst snd g_board g_hand g_side] in Qb, Qh, Qs.
  apply (same_trans _ _ _ G1), same_sym, (same_trans _ _ _ G2). split; [|split].
  - intros s. symmetry. apply Qb.
  - intros c k. symmetry. apply Qh.
  - rewrite !play_line_side. destruct (Nat.odd (List.length l1)), (Nat.odd (List.length l2)); congruence.
Qed.

(* Few tables of random numbers spoil it: with [n] legal lines of less than [D] moves
   at most the part n (n - 1) / 2^64.  [bad] is any test that only tables pass with
   which some search has not the minimax value. *)
Theorem C77_rare be ck W jobs pp D (L : list (list move)) (bad : (N -> N) -> bool) :
  valid (game_of pp) -> standard_material (game_of pp) -> both_kings (game_of pp) ->
  (pp_ply pp + N.of_nat D <= 65535)%N ->
  (forall d alpha beta, In (d, alpha, beta) jobs -> (d <= D)%nat /\ alpha < beta) ->
  (forall l, legal_line (game_of pp) l -> (List.length l < D)%nat -> In l L) ->
  (forall l, In l L -> legal_line (game_of pp) l /\ (List.length l < D)%nat) ->
  (forall rng, bad rng = true -> let cf := mkCfg be ck rng in
     ~ exists p rs, Yasai.new cf pp = Some p /\ exec cf (tt_all W jobs [] [] Ret) p = Some (rs, p) /\
         Forall2 (right_answer W (game_of pp)) jobs rs) ->
  let n := N.of_nat (List.length L) in
  (count_tables bad * 2 ^ 64 <= n * (n - 1) * (2 ^ 64) ^ 2520)%N.
Proof.
  intros V SM BK Py J LA LB H. apply (collisions_rare be ck pp D L bad V SM Py LA LB).
  intros rng p E cf N R Ev Ep NC. apply (H rng E). fold cf.
  destruct (C77_table_search cf W jobs D [] p R) as [rs [S F]].
  - rewrite Ev. exact SM.
  - rewrite Ev. exact BK.
  - right. rewrite Ep. exact Py.
  - exact J.
  - exact NC.
  - exists p, rs. rewrite Ev in F. split; [exact N|]. split; [exact S|exact F].
Qed.
Print Assumptions C77_rare.

(* Without different keys it fails: with a table of zeros a search to depth three
   gets 5 points for 7. *)
Definition run_tt (cf : config) (jobs : list (nat * Z * Z)) : option (list Z) :=
  let* p := Yasai.new cf exchange in let* r := exec cf (tt_all plain jobs [] [] Ret) p in Some (fst r).
Definition run_ab (cf : config) (d : nat) : option Z :=
  let* p := Yasai.new cf exchange in let* r := exec cf (alpha_beta plain d (-10000) 10000 Ret) p in Some (fst r).
Lemma run_ab_right cf d v : (d <= 3)%nat -> run_ab cf d = Some v -> -10000 < v < 10000 -> minimax plain d (game_of exchange) v.
Proof.
  intros Le. destruct (demo_new cf exchange exchange_ok) as [p [l [N [R [G [Y _]]]]]].
  unfold run_ab. rewrite N. cbn [bind].
  destruct (C76_alpha_beta cf plain d (-10000) 10000 [] p R (demo_std cf _ p exchange_ok G)) as [r [E H]].
  - rewrite G. intros []; [exists (Sq n5 n9)|exists (Sq n5 n1)]; reflexivity.
  - right. rewrite Y. change (pp_ply exchange) with 1%N. lia.
  - lia.
  - rewrite E. cbn [bind fst]. intros X B. assert (r = v) by congruence. subst r. rewrite G in H.
    destruct (C76_one_value plain d (game_of exchange)) as [w [Hw _]]. destruct (H w Hw) as [H1 [H2 H3]].
    replace v with w by lia. exact Hw.
Qed.
Lemma zeros_search : run_tt zeros [(3%nat, -10000, 10000)] = Some [5] /\ run_ab zeros 3 = Some 7.
Proof. vm_compute. split; reflexivity. Qed.
Theorem C77_keys_needed_refuted : exists p r, Yasai.new zeros exchange = Some p /\ reachable zeros [] p /\
  exec zeros (tt_all plain [(3%nat, -10000, 10000)] [] [] Ret) p = Some ([r], p) /\
  ~ minimax plain 3 (view zeros p) r /\ minimax plain 3 (view zeros p) 7.
Proof.
  destruct (demo_new zeros exchange exchange_ok) as [p [l [N [R [G [Y _]]]]]].
  destruct zeros_search as [Z1 Z2]. unfold run_tt in Z1. rewrite N in Z1. cbn [bind] in Z1.
  destruct (C64_client_refines zeros (tt_all plain [(3%nat, -10000, 10000)] [] [] Ret) [] p R) as [a [q [t' [E [P [_ [_ Q]]]]]]].
  { apply tt_all_fine; [| |intros rs; constructor].
    - split; [exact (reach_valid zeros [] p R)|]. split; [apply reach_hand_ok|].
      split; [exact (demo_std zeros _ p exchange_ok G)|]. cbn [t_game].
      rewrite G. intros []; [exists (Sq n5 n9)|exists (Sq n5 n1)]; reflexivity.
    - intros d alpha beta [I|[]]. right. assert (d = 3%nat) as -> by congruence. cbn [t_ply]. rewrite Y.
      change (pp_ply exchange) with 1%N. lia. }
  assert (M : minimax plain 3 (game_of exchange) 7) by (apply (run_ab_right zeros); [lia|exact Z2|lia]).
  rewrite E in Z1. cbn [bind fst] in Z1. assert (a = [5]) as -> by congruence.
  apply (tt_all_ends plain (keyed (zt zeros) [])) in P; [|intros k a' t'' X; inversion X; reflexivity].
  rewrite (Q P) in E.
  exists p, 5. split; [exact N|]. split; [exact R|]. split; [exact E|]. rewrite G. split; [|exact M].
  intros X. apply minimax_mm in M, X. rewrite <- M in X. discriminate X.
Qed.
Print Assumptions C77_keys_needed_refuted.

(* the rook and the gold: deepening with the random numbers of the crate *)
Example C77_example b ck : let cf := seeded b ck in exists p, Yasai.new cf exchange = Some p /\
  exec cf (tt_all plain [(1%nat, -10000, 10000); (2%nat, -10000, 10000); (2%nat, 5, 9)] [] [] Ret) p = Some ([15; 3; 5], p).
Proof.
  intros cf. destruct (demo_new cf exchange exchange_ok) as [p [l [N [R [G [Y _]]]]]].
  destruct C76_example as [M1 [M2 _]].
  destruct (C77_depth_two b ck plain [(1%nat, -10000, 10000); (2%nat, -10000, 10000); (2%nat, 5, 9)] [] p R
    (demo_std cf _ p exchange_ok G)) as [rs [E F]].
  - fold cf. rewrite G. intros []; [exists (Sq n5 n9)|exists (Sq n5 n1)]; reflexivity.
  - right. fold cf. rewrite Y. change (pp_ply exchange) with 1%N. lia.
  - intros d alpha beta [I|[I|[I|[]]]]; assert (X := f_equal (fun x => fst (fst x)) I);
      assert (X2 := f_equal (fun x => snd (fst x)) I); assert (X3 := f_equal snd I); cbn in X, X2, X3; lia.
  - fold cf in E, F. rewrite G in F. exists p. split; [exact N|]. rewrite E.
    inversion F as [|? r1 ? rs1 H1 F1]; subst. inversion F1 as [|? r2 ? rs2 H2 F2]; subst.
    inversion F2 as [|? r3 ? rs3 H3 F3]; subst. inversion F3; subst. cbn [right_answer] in *.
    destruct (H1 15 M1) as [_ [-> _]]; [|lia]. destruct (H2 3 M2) as [_ [-> _]]; [|lia].
    destruct (H3 3 M2) as [-> _]; [|lia]. reflexivity.
Qed.

(* searches of the start position to depth two: 31 lines of less than two moves *)
Example C77_example_rare be ck bad :
  (forall rng, bad rng = true -> let cf := mkCfg be ck rng in
     ~ exists p rs, Yasai.new cf startpos = Some p /\
         exec cf (tt_all plain [(1%nat, -10000, 10000); (2%nat, -10000, 10000)] [] [] Ret) p = Some (rs, p) /\
         Forall2 (right_answer plain (game_of startpos)) [(1%nat, -10000, 10000); (2%nat, -10000, 10000)] rs) ->
  (count_tables bad * 2 ^ 64 <= 31 * 30 * (2 ^ 64) ^ 2520)%N.
Proof.
  intros H. set (g := game_of startpos).
  pose (L := [] :: map (fun m => [m]) (filter (legalb g) every_move)).
  assert (E : List.length L = 31%nat) by (vm_compute; reflexivity).
  assert (HL : L = [] :: map (fun m => [m]) (filter (legalb g) every_move)) by reflexivity. clearbody L.
  pose proof startpos_ok as O. unfold demo_okb in O. rewrite !andb_true_iff in O. destruct O as [[[[V M] _] _] _].
  apply validb_spec in V. apply standardb_spec in M.
  pose proof (C77_rare be ck plain [(1%nat, -10000, 10000); (2%nat, -10000, 10000)] startpos 2 L bad V M) as X.
  rewrite E in X. subst L. apply X; clear X E; try assumption.
  - intros []; [exists (Sq n5 n9)|exists (Sq n5 n1)]; reflexivity.
  - discriminate.
  - intros d alpha beta [I|[I|[]]]; assert (X := f_equal (fun x => fst (fst x)) I);
      assert (X2 := f_equal (fun x => snd (fst x)) I); assert (X3 := f_equal snd I); cbn in X, X2, X3; lia.
  - intros [|m [|]] Ll Len; [left; reflexivity| |cbn in Len; lia]. right. apply in_map_iff. exists m.
    split; [reflexivity|]. apply filter_In. split; [apply every_move_in|]. apply legalb_spec, Ll.
  - intros l [<-|I]; [split; [exact Logic.I|cbn; lia]|]. apply (proj1 (in_map_iff _ _ _)) in I as [m [<- I]].
    apply (proj1 (filter_In _ _ _)) in I as [_ I]. apply legalb_spec in I. split; [split; [exact I|exact Logic.I]|cbn; lia].
Qed.
