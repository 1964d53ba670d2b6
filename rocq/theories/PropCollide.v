(** * C63: how often keys collide *)

From Coq Require Import String List Bool NArith ZArith Lia.
From Verif Require Import Types Rules Bitboard Zobrist Position Api Sfen Squares ValidPlay Hash Reach Lines
  Decide Facts Witness Client Distinct PropDistinct Collide.
Import ListNotations.
Local Open Scope N_scope.

Local Opaque attack_info_new calculate_checkers.

(* keys() and key() after a start position and a line *)
Definition keys_after (cf : config) (pp : partial) (l : list move) : option (N * N) :=
  let* p := Yasai.new cf pp in let* q := do_line cf p l in Yasai.keys cf q.
Definition key_after (cf : config) (pp : partial) (l : list move) : option N :=
  let* p := Yasai.new cf pp in let* q := do_line cf p l in Yasai.key cf q.

(* no hand holds 18 pieces of a kind when one more is captured (roomy: Client.v) *)
Definition roomy_line (g : game) (l : list move) : Prop :=
  forall l1 m l2, l = l1 ++ m :: l2 -> roomy (play_line g l1) m.
(* a legal line from a valid position, within the limits of hands and ply counter *)
Definition game_line (pp : partial) (l : list move) : Prop :=
  valid (game_of pp) /\ hands_fit (g_hand (game_of pp)) /\
  pp_ply pp + N.of_nat (length l) <= 65535 /\ legal_line (game_of pp) l /\ roomy_line (game_of pp) l.

Lemma roomy_tail g m l : roomy_line g (m :: l) -> roomy_line (play g m) l.
Proof. intros H l1 m' l2 ->. exact (H (m :: l1) m' l2 eq_refl). Qed.
Lemma roomy_line_same g h l : same_game g h -> roomy_line g l -> roomy_line h l.
Proof. intros G H l1 m l2 E. apply (roomy_same _ _ m (play_line_same l1 g h G)), (H l1 m l2 E). Qed.
Lemma do_line_roomy cf l : forall ms p, reachable cf ms p -> legal_line (view cf p) l ->
  roomy_line (view cf p) l -> Yasai.ply cf p + N.of_nat (length l) <= 65535 ->
  exists q, do_line cf p l = Some q.
Proof.
  induction l as [|m l IH]; intros ms p R L Rm P; cbn [do_line legal_line length] in *; [eauto|].
  destruct L as [L Ll].
  destruct (api_roomy cf ms p m R L (Rm [] m l eq_refl)) as [p1 E]; [right; lia|]. rewrite E.
  pose proof (same_sym _ _ (api_do_move cf ms p m p1 R L E)) as G.
  apply (IH (m :: ms) p1 (R_do cf ms p m p1 R L E)).
  - apply (legal_line_same l _ _ G Ll).
  - apply (roomy_line_same _ _ l G), roomy_tail, Rm.
  - rewrite (api_ply cf ms p m p1 R L E). destruct (N.eqb_spec (Yasai.ply cf p) 65535); lia.
Qed.
Lemma legal_line_prefix l1 l2 : forall g, legal_line g (l1 ++ l2) -> legal_line g l1.
Proof.
  induction l1 as [|m l1 IH]; intros g; cbn [app legal_line]; [intros _; exact I|].
  intros [L Ll]. split; [exact L|apply IH, Ll].
Qed.
(* with the pieces of one set the limits of the hands are kept *)
Lemma standard_line pp l : valid (game_of pp) -> standard_material (game_of pp) ->
  pp_ply pp + N.of_nat (length l) <= 65535 -> legal_line (game_of pp) l -> game_line pp l.
Proof.
  intros V M P L. split; [exact V|]. split; [apply material_fit, M|]. split; [exact P|]. split; [exact L|].
  intros l1 m l2 ->. apply roomy_standard. apply (line_standard pp l1 _ V M); [|apply same_refl].
  apply legal_line_prefix in L. exact L.
Qed.

Lemma game_line_plays cf pp l : game_line pp l ->
  exists p q, Yasai.new cf pp = Some p /\ do_line cf p l = Some q.
Proof.
  intros [V [F [P [L Rm]]]]. destruct (start_fit cf pp V F) as [p [N [R [Ev Ep]]]]; [lia|].
  destruct (do_line_roomy cf l [] p R) as [q D]; try (rewrite Ev; assumption); [lia|]. eauto.
Qed.
Lemma keys_after_spec cf pp l : game_line pp l ->
  let g := play_line (game_of pp) l in
  let kb := N.lxor (board_hash (zt cf) (g_board g)) (turn_bit l) in
  let kh := hand_hash (zt cf) (g_hand g) in
  keys_after cf pp l = Some (kb, kh) /\ key_after cf pp l = Some (N.lxor kb kh).
Proof.
  intros GL g kb kh. destruct (game_line_plays cf pp l GL) as [p [q [N D]]].
  destruct GL as [V [F [P [L _]]]].
  destruct (after_line cf pp l p q V ltac:(lia) L N D) as [R' [B [H _]]].
  unfold keys_after, key_after. rewrite N. cbn [bind]. rewrite D. cbn [bind].
  pose proof (api_keys cf _ q R') as K.
  assert (T : turn_bit (rev l) = turn_bit l) by (unfold turn_bit; rewrite rev_length; reflexivity).
  rewrite (board_hash_ext _ _ _ B), (hand_hash_ext _ _ _ H), T in K. fold g kb kh in K.
  rewrite (key_of_keys cf _ q _ R' K), K. split; reflexivity.
Qed.

Lemma turn_parity (l1 l2 : list move) : Nat.odd (length l1) = Nat.odd (length l2) -> turn_bit l1 = turn_bit l2.
Proof. unfold turn_bit. intros ->. reflexivity. Qed.

(** C63 *)

(* Boards that differ: there is a draw such that, whatever the other draws are,
   exactly two of its 2^64 values give the two positions the same board key;
   so with uniform draws the probability is 2^-63. *)
Theorem C63_board_collisions pp1 l1 pp2 l2 s :
  game_line pp1 l1 -> game_line pp2 l2 ->
  g_board (play_line (game_of pp1) l1) s <> g_board (play_line (game_of pp2) l2) s ->
  Nat.odd (length l1) = Nat.odd (length l2) ->
  exists i, i < 2268 /\ forall rng, exists v0, v0 + 1 < 2 ^ 64 /\
    forall be ck v, v < 2 ^ 64 ->
    let cf := mkCfg be ck (set_draw rng i v) in
    exists k1 k2, keys_after cf pp1 l1 = Some k1 /\ keys_after cf pp2 l2 = Some k2 /\
      (fst k1 = fst k2 <-> v = v0 \/ v = v0 + 1).
Proof.
  intros G1 G2 Ne Par. destruct (board_decides _ _ s Ne) as [i [Li D]].
  exists i. split; [exact Li|]. intros rng. destruct (D rng) as [D' _]. clear D.
  apply (decides_shift _ _ (turn_bit l1)) in D'. destruct D' as [v0 [_ [L0 D]]].
  exists v0. split; [exact L0|]. intros be ck v Lv cf.
  destruct (keys_after_spec cf pp1 l1 G1) as [K1 _]. destruct (keys_after_spec cf pp2 l2 G2) as [K2 _].
  eexists. eexists. split; [exact K1|]. split; [exact K2|]. cbn [fst]. rewrite <- (D v Lv).
  rewrite (turn_parity l1 l2 Par). reflexivity.
Qed.
Print Assumptions C63_board_collisions.

Lemma game_line_hands pp l : game_line pp l ->
  (forall c k, g_hand (play_line (game_of pp) l) c k <= 18) /\ hand_ok (play_line (game_of pp) l).
Proof.
  intros GL. destruct (game_line_plays (mkCfg X86_64 false (fun i => i)) pp l GL) as [p [q [N D]]].
  destruct GL as [V [F [P [L _]]]].
  exact (after_line_hands (mkCfg X86_64 false (fun i => i)) pp l p q V ltac:(lia) L N D).
Qed.
Lemma differ_kind pp1 l1 pp2 l2 c k : game_line pp1 l1 -> game_line pp2 l2 ->
  g_hand (play_line (game_of pp1) l1) c k <> g_hand (play_line (game_of pp2) l2) c k -> In k hand_kinds.
Proof.
  intros G1 G2 N. destruct (game_line_hands _ _ G1) as [_ O1]. destruct (game_line_hands _ _ G2) as [_ O2].
  destruct (in_dec kind_dec k hand_kinds) as [I|I]; [assumption|]. exfalso. apply N.
  rewrite (O1 c k I), (O2 c k I). reflexivity.
Qed.

Theorem C63_hand_collisions pp1 l1 pp2 l2 c k :
  game_line pp1 l1 -> game_line pp2 l2 ->
  g_hand (play_line (game_of pp1) l1) c k <> g_hand (play_line (game_of pp2) l2) c k ->
  exists i, 2268 <= i < 2520 /\ forall rng, exists v0, v0 + 1 < 2 ^ 64 /\
    forall be ck v, v < 2 ^ 64 ->
    let cf := mkCfg be ck (set_draw rng i v) in
    exists k1 k2, keys_after cf pp1 l1 = Some k1 /\ keys_after cf pp2 l2 = Some k2 /\
      (snd k1 = snd k2 <-> v = v0 \/ v = v0 + 1).
Proof.
  intros G1 G2 Ne. pose proof (differ_kind _ _ _ _ c k G1 G2 Ne) as I.
  destruct (hand_decides _ _ c k I (proj1 (game_line_hands _ _ G1)) (proj1 (game_line_hands _ _ G2)) Ne)
    as [i [Li D]]. exists i. split; [exact Li|]. intros rng. destruct (D rng) as [[v0 [_ [L0 D']]] _].
  clear D. rename D' into D. exists v0. split; [exact L0|]. intros be ck v Lv cf.
  destruct (keys_after_spec cf pp1 l1 G1) as [K1 _]. destruct (keys_after_spec cf pp2 l2 G2) as [K2 _].
  eexists. eexists. split; [exact K1|]. split; [exact K2|]. cbn [snd]. exact (D v Lv).
Qed.
Print Assumptions C63_hand_collisions.

(* the single key(), which mixes the two: boards or hands differ *)
Theorem C63_key_collisions pp1 l1 pp2 l2 :
  game_line pp1 l1 -> game_line pp2 l2 ->
  (exists s, g_board (play_line (game_of pp1) l1) s <> g_board (play_line (game_of pp2) l2) s) \/
  (exists c k, g_hand (play_line (game_of pp1) l1) c k <> g_hand (play_line (game_of pp2) l2) c k) ->
  Nat.odd (length l1) = Nat.odd (length l2) ->
  exists i, i < 2520 /\ forall rng, exists v0, v0 + 1 < 2 ^ 64 /\
    forall be ck v, v < 2 ^ 64 ->
    let cf := mkCfg be ck (set_draw rng i v) in
    exists k1 k2, key_after cf pp1 l1 = Some k1 /\ key_after cf pp2 l2 = Some k2 /\
      (k1 = k2 <-> v = v0 \/ v = v0 + 1).
Proof.
  intros G1 G2 Ne Par.
  set (h1 := g_hand (play_line (game_of pp1) l1)) in *. set (h2 := g_hand (play_line (game_of pp2) l2)) in *.
  set (b1 := g_board (play_line (game_of pp1) l1)) in *. set (b2 := g_board (play_line (game_of pp2) l2)) in *.
  assert (D : exists i, i < 2520 /\ forall rng,
    decides (fun v => N.lxor (bhash rng i v b1) (hhash rng i v h1))
            (fun v => N.lxor (bhash rng i v b2) (hhash rng i v h2))).
  { destruct Ne as [[s Ne]|[c [k Ne]]].
    - destruct (board_decides b1 b2 s Ne) as [i [Li D]]. exists i. split; [lia|].
      intros rng. apply (proj2 (D rng)).
    - pose proof (differ_kind _ _ _ _ c k G1 G2 Ne) as I.
      destruct (hand_decides h1 h2 c k I (proj1 (game_line_hands _ _ G1)) (proj1 (game_line_hands _ _ G2)) Ne)
        as [i [Li D]]. exists i. split; [lia|]. intros rng. apply (proj2 (D rng)). }
  destruct D as [i [Li D']]. exists i. split; [exact Li|]. intros rng. specialize (D' rng).
  apply (decides_shift _ _ (turn_bit l1)) in D'. destruct D' as [v0 [_ [L0 D]]].
  exists v0. split; [exact L0|]. intros be ck v Lv cf.
  destruct (keys_after_spec cf pp1 l1 G1) as [_ K1]. destruct (keys_after_spec cf pp2 l2 G2) as [_ K2].
  eexists. eexists. split; [exact K1|]. split; [exact K2|]. rewrite <- (D v Lv).
  rewrite (turn_parity l1 l2 Par).
  rewrite (N.lxor_comm (board_hash (zt cf) _) (turn_bit l2)), (N.lxor_comm (board_hash (zt cf) (g_board (play_line (game_of pp2) l2))) (turn_bit l2)).
  rewrite !N.lxor_assoc.
  rewrite (N.lxor_comm (turn_bit l2)), (N.lxor_comm (turn_bit l2)). rewrite !N.lxor_assoc. reflexivity.
Qed.
Print Assumptions C63_key_collisions.

(* both halves: with boards and hands that differ, two draws decide
   independently, so both halves collide with probability 2^-126 *)
Theorem C63_keys_collisions pp1 l1 pp2 l2 s c k :
  game_line pp1 l1 -> game_line pp2 l2 ->
  g_board (play_line (game_of pp1) l1) s <> g_board (play_line (game_of pp2) l2) s ->
  g_hand (play_line (game_of pp1) l1) c k <> g_hand (play_line (game_of pp2) l2) c k ->
  Nat.odd (length l1) = Nat.odd (length l2) ->
  exists i j, i < 2268 /\ 2268 <= j < 2520 /\ forall rng, exists v0 u0, v0 + 1 < 2 ^ 64 /\ u0 + 1 < 2 ^ 64 /\
    forall be ck v u, v < 2 ^ 64 -> u < 2 ^ 64 ->
    let cf := mkCfg be ck (set_draw (set_draw rng i v) j u) in
    exists k1 k2, keys_after cf pp1 l1 = Some k1 /\ keys_after cf pp2 l2 = Some k2 /\
      (k1 = k2 <-> (v = v0 \/ v = v0 + 1) /\ (u = u0 \/ u = u0 + 1)).
Proof.
  intros G1 G2 Nb Nh Par. destruct (board_decides _ _ s Nb) as [i [Li Db]].
  pose proof (differ_kind _ _ _ _ c k G1 G2 Nh) as I.
  destruct (hand_decides _ _ c k I (proj1 (game_line_hands _ _ G1)) (proj1 (game_line_hands _ _ G2)) Nh)
    as [j [Lj Dh]].
  exists i, j. split; [exact Li|]. split; [exact Lj|]. intros rng.
  destruct (Db rng) as [D' _]. destruct (Dh rng) as [[u0 [_ [L1 E]]] _].
  apply (decides_shift _ _ (turn_bit l1)) in D'. destruct D' as [v0 [_ [L0 D]]].
  exists v0, u0. split; [exact L0|]. split; [exact L1|].
  intros be ck v u Lv Lu cf.
  destruct (keys_after_spec cf pp1 l1 G1) as [K1 _]. destruct (keys_after_spec cf pp2 l2 G2) as [K2 _].
  eexists. eexists. split; [exact K1|]. split; [exact K2|]. rewrite <- (D v Lv), <- (E u Lu).
  change (zt cf) with (zobrist_table (set_draw (set_draw rng i v) j u)).
  rewrite !hand_hash_two by exact Li.
  rewrite !(board_hash_set_hand (set_draw rng i v) j u) by lia.
  fold (bhash rng i v (g_board (play_line (game_of pp1) l1))).
  fold (bhash rng i v (g_board (play_line (game_of pp2) l2))).
  rewrite (turn_parity l1 l2 Par). split.
  - intros [= -> ->]. tauto.
  - intros [-> ->]. reflexivity.
Qed.
Print Assumptions C63_keys_collisions.

(* An odd and an even number of moves: the board keys, and the single keys,
   differ under every table. *)
Theorem C63_parity cf pp1 l1 pp2 l2 :
  game_line pp1 l1 -> game_line pp2 l2 -> Nat.odd (length l1) <> Nat.odd (length l2) ->
  exists k1 k2 a1 a2, keys_after cf pp1 l1 = Some k1 /\ keys_after cf pp2 l2 = Some k2 /\
    key_after cf pp1 l1 = Some a1 /\ key_after cf pp2 l2 = Some a2 /\ fst k1 <> fst k2 /\ a1 <> a2.
Proof.
  intros G1 G2 Par.
  destruct (keys_after_spec cf pp1 l1 G1) as [K1 A1]. destruct (keys_after_spec cf pp2 l2 G2) as [K2 A2].
  do 4 eexists. split; [exact K1|]. split; [exact K2|]. split; [exact A1|]. split; [exact A2|]. cbn [fst].
  assert (B : forall b, N.testbit (board_hash (zt cf) b) 0 = false) by (intros; apply clean_board; left; reflexivity).
  assert (H : forall h, N.testbit (hand_hash (zt cf) h) 0 = false) by (intros; apply clean_hand; left; reflexivity).
  assert (T : N.testbit (turn_bit l1) 0 <> N.testbit (turn_bit l2) 0).
  { unfold turn_bit. destruct (Nat.odd (length l1)), (Nat.odd (length l2)); cbn; congruence. }
  split; intros E; apply (f_equal (fun x => N.testbit x 0)) in E;
    rewrite ?N.lxor_spec, ?B, ?H, ?xorb_false_l, ?xorb_false_r in E; contradiction.
Qed.
Print Assumptions C63_parity.

Lemma line_of pp l : demo_okb pp l = true -> game_line pp l.
Proof.
  unfold demo_okb. rewrite !andb_true_iff. intros [[[[V M] LL] P] K]. apply standard_line.
  - apply validb_spec. assumption.
  - apply standardb_spec. assumption.
  - apply N.leb_le. assumption.
  - apply legal_lineb_spec. assumption.
Qed.
Lemma opening4_ok : demo_okb startpos opening4 = true.
Proof. vm_compute. reflexivity. Qed.
Lemma opening2_ok : demo_okb startpos opening2 = true.
Proof. vm_compute. reflexivity. Qed.
(* the start position, and the position after a trade of bishops *)
Example C63_example : exists i j, i < 2268 /\ 2268 <= j < 2520 /\ forall rng, exists v0 u0, v0 + 1 < 2 ^ 64 /\ u0 + 1 < 2 ^ 64 /\
  forall be ck v u, v < 2 ^ 64 -> u < 2 ^ 64 ->
  let cf := mkCfg be ck (set_draw (set_draw rng i v) j u) in
  exists k1 k2, keys_after cf startpos opening4 = Some k1 /\ keys_after cf startpos opening2 = Some k2 /\
    (k1 = k2 <-> (v = v0 \/ v = v0 + 1) /\ (u = u0 \/ u = u0 + 1)).
Proof.
  apply (C63_keys_collisions startpos opening4 startpos opening2 (Sq n2 n2) Black Bishop).
  - apply line_of, opening4_ok.
  - apply line_of, opening2_ok.
  - vm_compute. discriminate.
  - vm_compute. discriminate.
  - reflexivity.
Qed.
