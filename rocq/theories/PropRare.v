(** * C73: few tables of random numbers give false matches *)

From Coq Require Import String List Bool NArith ZArith Lia.
From Verif Require Import Types Rules Bitboard Tables Zobrist Position Movegen Perft Api Sfen Squares
  Moves Hash ValidPlay Reach Decide Lines PerftSpec Client PerftPanic TransTable Witness Distinct
  PropDistinct PropKeys Collide PropCollide Count PropTable.
Import ListNotations.
Local Open Scope N_scope.

Local Opaque attack_info_new calculate_checkers N.pow.

(* two lines lead to different boards, hands or sides to move (C15: the sides of
   the first positions do not count) *)
Definition apart (a b : partial * list move) : Prop :=
  (exists s, g_board (play_line (game_of (fst a)) (snd a)) s <> g_board (play_line (game_of (fst b)) (snd b)) s) \/
  (exists c k, g_hand (play_line (game_of (fst a)) (snd a)) c k <> g_hand (play_line (game_of (fst b)) (snd b)) c k) \/
  Nat.odd (List.length (snd a)) <> Nat.odd (List.length (snd b)).

Lemma forallb_not {A} (f : A -> bool) l : forallb f l = false -> exists a, In a l /\ f a = false.
Proof.
  induction l as [|a l IH]; [discriminate|]. cbn [forallb]. destruct (f a) eqn:E.
  - intros H. destruct (IH H) as [b [I Hb]]. exists b. split; [right; exact I|exact Hb].
  - intros _. exists a. split; [left; reflexivity|exact E].
Qed.
Definition apartb (a b : partial * list move) : bool :=
  negb (same_gameb (mkG (g_board (play_line (game_of (fst a)) (snd a))) (g_hand (play_line (game_of (fst a)) (snd a)))
            (if Nat.odd (List.length (snd a)) then White else Black))
         (mkG (g_board (play_line (game_of (fst b)) (snd b))) (g_hand (play_line (game_of (fst b)) (snd b)))
            (if Nat.odd (List.length (snd b)) then White else Black))).
Lemma apartb_spec a b : apartb a b = true <-> apart a b.
Proof.
  unfold apartb. rewrite negb_true_iff. split.
  - unfold same_gameb. cbn [g_board g_hand g_side]. rewrite !andb_false_iff. intros [[H|H]|H].
    + apply forallb_not in H as [s [_ H]]. left. exists s. intros E. rewrite E in H.
      destruct (g_board _ s) as [x|]; [|discriminate]. destruct (piece_eqb_spec x x); congruence.
    + apply forallb_not in H as [c [_ H]]. apply forallb_not in H as [k [_ H]]. right. left. exists c, k.
      intros E. rewrite E, N.eqb_refl in H. discriminate.
    + right. right. intros E. rewrite E in H. destruct (Nat.odd _); discriminate.
  - intros H. apply not_true_is_false. intros E. apply same_gameb_spec in E as [B [Hd S]].
    cbn [g_board g_hand g_side] in *. destruct H as [[s N]|[[c [k N]]|N]].
    + exact (N (B s)).
    + exact (N (Hd c k)).
    + destruct (Nat.odd _), (Nat.odd _); congruence.
Qed.
Lemma apart_ne a b : apart a b -> a <> b.
Proof. intros [[s N]|[[c [k N]]|N]] ->; congruence. Qed.
Lemma apart_sym a b : apart a b -> apart b a.
Proof.
  intros [[s N]|[[c [k N]]|N]]; [left|right; left|right; right].
  - exists s. congruence.
  - exists c, k. congruence.
  - congruence.
Qed.

Definition key_eqb (a b : option N) : bool :=
  match a, b with Some x, Some y => x =? y | _, _ => false end.
Definition matched (cf : config) (ab : (partial * list move) * (partial * list move)) : bool :=
  apartb (fst ab) (snd ab) &&
  key_eqb (key_after cf (fst (fst ab)) (snd (fst ab))) (key_after cf (fst (snd ab)) (snd (snd ab))).

(** ** Keys depend on the 2520 draws *)

Lemma board_hash_local r r' b : (forall i, i < 2520 -> r i = r' i) ->
  board_hash (zobrist_table r) b = board_hash (zobrist_table r') b.
Proof.
  intros H. unfold board_hash. apply xor_map_ext. intros s _. unfold piece_entry.
  destruct (b s) as [x|]; [|reflexivity]. unfold zobrist_table. cbn [z_board_entry].
  fold (board_index s (pcolor x) (pkind x)). pose proof (board_index_lt s (pcolor x) (pkind x)).
  rewrite (H (board_index s (pcolor x) (pkind x))) by lia. reflexivity.
Qed.
Lemma hand_hash_local r r' h : (forall c k, h c k <= 18) -> (forall i, i < 2520 -> r i = r' i) ->
  hand_hash (zobrist_table r) h = hand_hash (zobrist_table r') h.
Proof.
  intros Lh H. rewrite !hand_hash_slots. apply xor_map_ext. intros [c k] I. apply hand_kind_of_slot in I.
  cbn [fst snd]. unfold held_hash. apply xor_map_ext. intros j J. apply in_seq in J. specialize (Lh c k).
  unfold zobrist_table. cbn [z_hand_entry]. fold (hand_index c k (N.of_nat j)).
  pose proof (hand_index_lt c k (N.of_nat j) I ltac:(lia)).
  rewrite (H (hand_index c k (N.of_nat j))) by lia. reflexivity.
Qed.
Lemma key_local be ck pp l : game_line pp l -> forall r r', (forall i, i < 2520 -> r i = r' i) ->
  key_after (mkCfg be ck r) pp l = key_after (mkCfg be ck r') pp l.
Proof.
  intros G r r' H. destruct (keys_after_spec (mkCfg be ck r) pp l G) as [_ ->].
  destruct (keys_after_spec (mkCfg be ck r') pp l G) as [_ ->]. unfold zt. cbn [cf_rng].
  rewrite (board_hash_local r r' _ H), (hand_hash_local r r' _ (proj1 (game_line_hands pp l G)) H). reflexivity.
Qed.

Lemma pair_count be ck a b : game_line (fst a) (snd a) -> game_line (fst b) (snd b) ->
  count_tables (fun r => matched (mkCfg be ck r) (a, b)) * word <= 2 * all_tables.
Proof.
  intros Ga Gb. unfold count_tables, all_tables. generalize (fun _ : N => 0). intros rng.
  assert (Z : (forall r, matched (mkCfg be ck r) (a, b) = false) ->
    count_draws word draws (fun r => matched (mkCfg be ck r) (a, b)) rng * word <= 2 * word ^ N.of_nat draws).
  { intros F. generalize word draws. intros M n.
    pose proof (count_le M n (fun r => matched (mkCfg be ck r) (a, b)) (fun _ => false) rng) as X.
    rewrite count_false in X. rewrite (proj1 (N.le_0_r _) (X ltac:(intros r E; rewrite F in E; discriminate))). lia. }
  destruct (apartb a b) eqn:Ap.
  2: { apply Z. intros r. unfold matched. cbn [fst snd]. rewrite Ap. reflexivity. }
  pose proof (proj1 (apartb_spec a b) Ap) as A.
  destruct (bool_dec (Nat.odd (List.length (snd a))) (Nat.odd (List.length (snd b)))) as [Par|Par].
  - destruct (C63_key_collisions (fst a) (snd a) (fst b) (snd b) Ga Gb) as [i [Li H]];
      [unfold apart in A; tauto|exact Par|].
    apply (count_decided word 2520 _ 2 i draws).
    + intros r r' E. unfold matched. cbn [fst snd].
      rewrite (key_local be ck _ _ Ga r r' E), (key_local be ck _ _ Gb r r' E). reflexivity.
    + intros r. destruct (H r) as [v0 [_ Hv]]. apply (sum_two word _ v0). intros v Lv E.
      unfold matched in E. cbn [fst snd] in E. apply andb_true_iff in E as [_ E].
      destruct (Hv be ck v Lv) as [k1 [k2 [K1 [K2 HK]]]]. rewrite K1, K2 in E. apply HK, N.eqb_eq, E.
    + replace (N.of_nat draws) with 2520 by reflexivity. exact Li.
  - apply Z. intros r. unfold matched. cbn [fst snd]. apply andb_false_iff. right.
    destruct (C63_parity (mkCfg be ck r) _ _ _ _ Ga Gb Par) as [_ [_ [a1 [a2 [_ [_ [-> [-> [_ Na]]]]]]]]].
    cbn. apply N.eqb_neq. exact Na.
Qed.

Lemma matched_any cf L : (forall a, In a L -> game_line (fst a) (snd a)) ->
  existsb (matched cf) (pairs L) = true <->
  exists a b, In a L /\ In b L /\ apart a b /\
    key_after cf (fst a) (snd a) = key_after cf (fst b) (snd b).
Proof.
  intros G. rewrite existsb_exists. split.
  - intros [[a b] [I E]]. destruct (pairs_in L a b I) as [Ia Ib]. unfold matched in E. cbn [fst snd] in E.
    apply andb_true_iff in E as [E1 E2]. exists a, b. split; [exact Ia|]. split; [exact Ib|].
    split; [apply apartb_spec; exact E1|]. unfold key_eqb in E2.
    destruct (key_after cf (fst a) (snd a)), (key_after cf (fst b) (snd b)); try discriminate.
    apply N.eqb_eq in E2. congruence.
  - intros [a [b [Ia [Ib [A K]]]]].
    assert (X : forall a b, In a L -> apart a b ->
      key_after cf (fst a) (snd a) = key_after cf (fst b) (snd b) -> matched cf (a, b) = true).
    { clear - G. intros a b Ia A K. unfold matched. cbn [fst snd]. rewrite (proj2 (apartb_spec a b) A), <- K.
      destruct (keys_after_spec cf _ _ (G a Ia)) as [_ ->]. cbn. apply N.eqb_refl. }
    destruct (in_pairs L a b Ia Ib (apart_ne a b A)) as [I|I].
    + exists (a, b). split; [exact I|]. apply X; assumption.
    + exists (b, a). split; [exact I|]. apply X; [exact Ib|apply apart_sym; exact A|congruence].
Qed.

(** C73: of the (2^64)^2520 tables of random numbers that the generator can draw, at
    most the part n (n - 1) / 2^64 gives two different positions among [n] the
    same key().  [bad] is any test that only such tables pass. *)
Theorem C73_collisions_rare be ck (L : list (partial * list move)) (bad : (N -> N) -> bool) :
  (forall a, In a L -> game_line (fst a) (snd a)) ->
  (forall rng, bad rng = true -> exists a b, In a L /\ In b L /\ apart a b /\
     key_after (mkCfg be ck rng) (fst a) (snd a) = key_after (mkCfg be ck rng) (fst b) (snd b)) ->
  let n := N.of_nat (List.length L) in
  count_tables bad * 2 ^ 64 <= n * (n - 1) * (2 ^ 64) ^ 2520.
Proof.
  intros G H n.
  assert (X : count_tables bad <= count_tables (fun r => existsb (matched (mkCfg be ck r)) (pairs L))).
  { apply tables_le. intros r E. apply matched_any; [exact G|]. apply H, E. }
  assert (Y : count_tables (fun r => existsb (matched (mkCfg be ck r)) (pairs L)) * word <=
    N.of_nat (List.length (pairs L)) * (2 * all_tables)).
  { apply (tables_any (pairs L) (fun ab r => matched (mkCfg be ck r) ab)). intros [a b] I.
    destruct (pairs_in L a b I) as [Ia Ib]. apply (pair_count be ck a b (G a Ia) (G b Ib)). }
  pose proof (pairs_length L) as PL. fold n in PL.
  replace ((2 ^ 64) ^ 2520) with all_tables by reflexivity.
  replace (2 ^ 64) with word by reflexivity.
  revert X Y PL.
  generalize (count_tables bad), (count_tables (fun r => existsb (matched (mkCfg be ck r)) (pairs L))),
    (N.of_nat (List.length (pairs L))), all_tables, word, n.
  clear. intros a b l T M n X Y PL. apply (N.mul_le_mono_r _ _ M) in X. rewrite <- PL. lia.
Qed.
Print Assumptions C73_collisions_rare.

(** For two positions the bound is met: exactly the part 2^-63 of the tables gives
    two different positions with the same number of moves modulo 2 the same key. *)
Theorem C73_pair_exact be ck a b (same : (N -> N) -> bool) :
  game_line (fst a) (snd a) -> game_line (fst b) (snd b) ->
  apart a b -> Nat.odd (List.length (snd a)) = Nat.odd (List.length (snd b)) ->
  (forall rng, same rng = true <->
     key_after (mkCfg be ck rng) (fst a) (snd a) = key_after (mkCfg be ck rng) (fst b) (snd b)) ->
  count_tables same * 2 ^ 64 = 2 * (2 ^ 64) ^ 2520.
Proof.
  intros Ga Gb A Par H.
  destruct (C63_key_collisions (fst a) (snd a) (fst b) (snd b) Ga Gb) as [i [Li D]];
    [unfold apart in A; tauto|exact Par|].
  assert (X : forall rng, count_draws word draws same rng * word = 2 * word ^ N.of_nat draws).
  { apply (count_decided_eq word 2520 same 2 i draws).
    - intros r r' E. apply Bool.eq_iff_eq_true. rewrite !H.
      rewrite (key_local be ck _ _ Ga r r' E), (key_local be ck _ _ Gb r r' E). reflexivity.
    - intros r. destruct (D r) as [v0 [L0 Hv]]. apply (sum_two_eq word _ v0 L0). intros v Lv.
      rewrite H. destruct (Hv be ck v Lv) as [k1 [k2 [K1 [K2 HK]]]]. rewrite K1, K2, <- HK.
      split; [congruence|intros ->; reflexivity].
    - replace (N.of_nat draws) with 2520 by reflexivity. exact Li. }
  replace ((2 ^ 64) ^ 2520) with (word ^ N.of_nat draws) by reflexivity.
  replace (2 ^ 64) with word by reflexivity. apply X.
Qed.
Print Assumptions C73_pair_exact.

(** Searches with a table (C72) go wrong for few tables of random numbers: if there
    are [n] legal lines of less than [D] moves, for at most the part n (n - 1) / 2^64.
    [bad] is any test that only tables pass with which some search to one of
    the depths [ds] is not what it is without a table. *)
Theorem C73_searches_rare be ck pp D ds (L : list (list move)) (bad : (N -> N) -> bool) :
  valid (game_of pp) -> standard_material (game_of pp) -> both_kings (game_of pp) ->
  pp_ply pp + N.of_nat D <= 65535 -> Forall (fun d => (d <= D)%nat) ds ->
  (forall l, legal_line (game_of pp) l -> (List.length l < D)%nat -> In l L) ->
  (forall l, In l L -> legal_line (game_of pp) l /\ (List.length l < D)%nat) ->
  (forall rng, bad rng = true -> let cf := mkCfg be ck rng in
     ~ exists p ns t, Yasai.new cf pp = Some p /\ tt_searches cf ds p [] = Some (ns, p, t) /\
         Forall2 (fun d n => Yasai.test_perft cf d p = Some (n, p)) ds ns) ->
  let n := N.of_nat (List.length L) in
  count_tables bad * 2 ^ 64 <= n * (n - 1) * (2 ^ 64) ^ 2520.
Proof.
  intros V SM BK Py Fd LA LB H n.
  assert (GL : forall a, In a (map (pair pp) L) -> game_line (fst a) (snd a)).
  { intros a I. apply in_map_iff in I as [l [<- I]]. cbn [fst snd]. destruct (LB l I).
    apply standard_line; try assumption. lia. }
  unfold n. rewrite <- (map_length (pair pp) L).
  apply (C73_collisions_rare be ck (map (pair pp) L) bad GL). intros rng E. apply H in E.
  set (cf := mkCfg be ck rng) in *. apply matched_any; [exact GL|].
  destruct (existsb (matched cf) (pairs (map (pair pp) L))) eqn:M; [reflexivity|exfalso]. apply E.
  destruct (start_reachable cf pp V SM ltac:(lia)) as [p [N [R [Ev Ep]]]].
  destruct (C72_table_exact cf [] p D ds R) as [ns [t [S F]]].
  - intros l1 q1 l2 q2 [B1 [L1 D1]] [B2 [L2 D2]] K. rewrite Ev in L1, L2.
    destruct (after_line cf pp l1 p q1 V ltac:(lia) L1 N D1) as [R1 G1].
    destruct (after_line cf pp l2 p q2 V ltac:(lia) L2 N D2) as [R2 G2].
    assert (NA : ~ apart (pp, l1) (pp, l2)).
    { intros A. apply not_true_iff_false in M. apply M, matched_any; [exact GL|].
      exists (pp, l1), (pp, l2). split; [apply in_map, LA; assumption|]. split; [apply in_map, LA; assumption|].
      split; [exact A|]. cbn [fst snd]. unfold key_after. rewrite N. cbn [bind]. rewrite D1, D2. exact K. }
    assert (Q : apartb (pp, l1) (pp, l2) = false).
    { apply not_true_is_false. intros X. apply NA, apartb_spec, X. }
    unfold apartb in Q. apply negb_false_iff, same_gameb_spec in Q as [Qb [Qh Qs]].
    cbn [fst snd g_board g_hand g_side] in Qb, Qh, Qs.
    apply (same_trans _ _ _ G1), same_sym, (same_trans _ _ _ G2). split; [|split].
    + intros s. symmetry. apply Qb.
    + intros c k. symmetry. apply Qh.
    + rewrite !play_line_side. destruct (Nat.odd (List.length l1)), (Nat.odd (List.length l2)); congruence.
  - rewrite Forall_forall in *. intros d I. specialize (Fd d I). split; [exact Fd|].
    destruct (test_perft_total cf d [] p R) as [m ->]; try (rewrite Ev; assumption); [|discriminate].
    right. lia.
  - exists p, ns, t. tauto.
Qed.
Print Assumptions C73_searches_rare.

(* the number of all tables; the start position and the trade of bishops *)
Example C73_example be ck : count_tables (fun _ => true) = (2 ^ 64) ^ 2520 /\
  count_tables (fun rng => key_eqb (key_after (mkCfg be ck rng) startpos opening4)
                                   (key_after (mkCfg be ck rng) startpos opening2)) * 2 ^ 64 =
    2 * (2 ^ 64) ^ 2520.
Proof.
  split; [exact all_tables_count|].
  assert (G4 := line_of _ _ opening4_ok). assert (G2 := line_of _ _ opening2_ok).
  apply (C73_pair_exact be ck (startpos, opening4) (startpos, opening2)); cbn [fst snd].
  - exact G4.
  - exact G2.
  - left. exists (Sq n2 n2). cbn [fst snd]. vm_compute. discriminate.
  - reflexivity.
  - intros rng. destruct (keys_after_spec (mkCfg be ck rng) _ _ G4) as [_ ->].
    destruct (keys_after_spec (mkCfg be ck rng) _ _ G2) as [_ ->]. cbn [key_eqb].
    rewrite N.eqb_eq. split; congruence.
Qed.

(* searches of the start position to depths 1 and 2: 31 lines of less than two moves *)
Example C73_example_search be ck bad :
  (forall rng, bad rng = true -> let cf := mkCfg be ck rng in
     ~ exists p ns t, Yasai.new cf startpos = Some p /\ tt_searches cf [1; 2]%nat p [] = Some (ns, p, t) /\
         Forall2 (fun d n => Yasai.test_perft cf d p = Some (n, p)) [1; 2]%nat ns) ->
  count_tables bad * 2 ^ 64 <= 31 * 30 * (2 ^ 64) ^ 2520.
Proof.
  intros H. set (g := game_of startpos).
  pose (L := [] :: map (fun m => [m]) (filter (legalb g) every_move)).
  assert (E : List.length L = 31%nat) by (vm_compute; reflexivity).
  assert (HL : L = [] :: map (fun m => [m]) (filter (legalb g) every_move)) by reflexivity. clearbody L.
  pose proof startpos_ok as O. unfold demo_okb in O. rewrite !andb_true_iff in O. destruct O as [[[[V M] _] _] _].
  apply validb_spec in V. apply standardb_spec in M.
  pose proof (C73_searches_rare be ck startpos 2 [1; 2]%nat L bad V M) as X.
  rewrite E in X. subst L. apply X; clear X E; try assumption.
  - intros []; [exists (Sq n5 n9)|exists (Sq n5 n1)]; reflexivity.
  - discriminate.
  - repeat constructor.
  - intros [|m [|]] Ll Len; [left; reflexivity| |cbn in Len; lia]. right. apply in_map_iff. exists m.
    split; [reflexivity|]. apply filter_In. split; [apply every_move_in|]. apply legalb_spec, Ll.
  - intros l [<-|I]; [split; [exact Logic.I|cbn; lia]|]. apply (proj1 (in_map_iff _ _ _)) in I as [m [<- I]].
    apply (proj1 (filter_In _ _ _)) in I as [_ I]. apply legalb_spec in I. split; [split; [exact I|exact Logic.I]|cbn; lia].
Qed.
