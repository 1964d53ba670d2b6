(** * Properties of the key table: C49 of properties.jsonl *)

From Coq Require Import String List Bool NArith ZArith Lia.
From Verif Require Import Types Rules Bitboard BackendCore BackendSimd Tables Zobrist Position Movegen
  Api Sfen Squares Moves ValidPlay Hash Reach Decide Lines Facts Witness Distinct.
Import ListNotations.

Local Opaque attack_info_new calculate_checkers.

(* the position after a start position and a legal line *)
Lemma after_line cf pp l p q : valid (game_of pp) ->
  (pp_ply pp <= 65535)%N -> legal_line (game_of pp) l ->
  Yasai.new cf pp = Some p -> do_line cf p l = Some q ->
  reachable cf (rev l) q /\ same_game (view cf q) (play_line (game_of pp) l).
Proof.
  intros V P L N D. destruct (start_fit cf pp V (new_fit cf pp p N) P) as [p' [N' [R [Ev _]]]].
  assert (p' = p) as -> by congruence. rewrite <- Ev in L.
  destruct (do_line_spec cf l [] p q R L D) as [R' [G _]]. rewrite app_nil_r in R'. rewrite Ev in G.
  split; assumption.
Qed.
Lemma reach_fit cf ms p : reachable cf ms p -> forall c k, (g_hand (view cf p) c k <= 18)%N.
Proof. intros R. destruct (reachable_inv cf ms p R) as [st [I _]]. exact (inv_fit _ _ _ _ I). Qed.
Lemma after_line_hands cf pp l p q : valid (game_of pp) ->
  (pp_ply pp <= 65535)%N -> legal_line (game_of pp) l ->
  Yasai.new cf pp = Some p -> do_line cf p l = Some q ->
  (forall c k, (g_hand (play_line (game_of pp) l) c k <= 18)%N) /\ hand_ok (play_line (game_of pp) l).
Proof.
  intros V P L N D. destruct (after_line cf pp l p q V P L N D) as [R [_ [Gh _]]]. split; intros c k.
  - rewrite <- Gh. exact (reach_fit cf _ q R c k).
  - rewrite <- Gh. apply reach_hand_ok.
Qed.
Lemma line_hands pp l : valid (game_of pp) -> standard_material (game_of pp) ->
  (pp_ply pp <= 65535)%N -> legal_line (game_of pp) l ->
  (forall c k, (g_hand (play_line (game_of pp) l) c k <= 18)%N) /\ hand_ok (play_line (game_of pp) l).
Proof.
  intros V M P L. set (cf := mkCfg X86_64 false (fun i => i)).
  destruct (start_reachable cf pp V M P) as [p [N [R [Ev _]]]].
  destruct (do_line_total cf l [] p R) as [q D]; [rewrite Ev; exact M|rewrite Ev; exact L|left; reflexivity|].
  destruct (after_line cf pp l p q V P L N D) as [R' G']. pose proof (line_standard pp l _ V M L G') as M'.
  destruct G' as [_ [Gh _]]. split.
  - intros c k. rewrite <- Gh. apply base_full. exact M'.
  - intros c k. rewrite <- Gh. apply reach_hand_ok.
Qed.

Lemma hands_bounded_dec (h : color -> kind -> N) :
  {forall c k, (h c k <= 18)%N} + {~ forall c k, (h c k <= 18)%N}.
Proof.
  destruct (forallb (fun c => forallb (fun k => h c k <=? 18)%N all_kinds) all_colors) eqn:E.
  - left. intros c k. rewrite forallb_forall in E. specialize (E c (all_colors_in c)).
    rewrite forallb_forall in E. apply N.leb_le. exact (E k (all_kinds_in k)).
  - right. intros H. assert (X : forallb (fun c => forallb (fun k => h c k <=? 18)%N all_kinds) all_colors = true); [|congruence].
    apply forallb_forall. intros c _. apply forallb_forall. intros k _. apply N.leb_le, H.
Qed.

Lemma key_of_keys cf ms p a : reachable cf ms p -> Yasai.keys cf p = Some a ->
  Yasai.key cf p = Some (N.lxor (fst a) (snd a)).
Proof.
  intros _. unfold Yasai.keys, pos_keys, Yasai.key, pos_key.
  destruct (pos_state (ops cf) p) as [st|]; cbn [bind]; [|discriminate]. intros [= <-]. reflexivity.
Qed.

Lemma turn_bit_1 ms : N.testbit (turn_bit ms) 1 = false.
Proof. unfold turn_bit. destruct (Nat.odd (length ms)); reflexivity. Qed.

(** C49: every square, piece, side and every count of every kind in hand enters
    the keys: contents that differ anywhere are told apart by some table *)
Theorem C49_no_blind_spot_board pp1 pp2 l1 l2 s :
  valid (game_of pp1) -> (pp_ply pp1 <= 65535)%N ->
  valid (game_of pp2) -> (pp_ply pp2 <= 65535)%N ->
  legal_line (game_of pp1) l1 -> legal_line (game_of pp2) l2 ->
  g_board (play_line (game_of pp1) l1) s <> g_board (play_line (game_of pp2) l2) s ->
  exists rng, forall be ck p1 q1 p2 q2,
    let cf := mkCfg be ck rng in
    Yasai.new cf pp1 = Some p1 -> do_line cf p1 l1 = Some q1 ->
    Yasai.new cf pp2 = Some p2 -> do_line cf p2 l2 = Some q2 ->
    option_map fst (Yasai.keys cf q1) <> option_map fst (Yasai.keys cf q2) /\
    Yasai.key cf q1 <> Yasai.key cf q2.
Proof.
  intros V1 P1 V2 P2 L1 L2 N. destruct (board_blind _ _ s N) as [rng [Hb Hh]].
  exists rng. intros be ck p1 q1 p2 q2 cf N1 D1 N2 D2.
  destruct (after_line cf pp1 l1 p1 q1 V1 P1 L1 N1 D1) as [R1 [B1 [H1 _]]].
  destruct (after_line cf pp2 l2 p2 q2 V2 P2 L2 N2 D2) as [R2 [B2 [H2 _]]].
  pose proof (api_keys cf _ q1 R1) as K1. pose proof (api_keys cf _ q2 R2) as K2.
  rewrite (key_of_keys cf _ q1 _ R1 K1), (key_of_keys cf _ q2 _ R2 K2), K1, K2.
  cbn [option_map fst snd]. change (zt cf) with (zobrist_table rng) in *. rewrite !Hh, !N.lxor_0_r.
  rewrite (board_hash_ext _ _ _ B1), (board_hash_ext _ _ _ B2).
  split; intros [= E]; apply (f_equal (fun x => N.testbit x 1)) in E;
    rewrite !N.lxor_spec, !turn_bit_1, !xorb_false_r in E; contradiction.
Qed.
Print Assumptions C49_no_blind_spot_board.

Theorem C49_no_blind_spot_hands pp1 pp2 l1 l2 c k :
  valid (game_of pp1) -> (pp_ply pp1 <= 65535)%N ->
  valid (game_of pp2) -> (pp_ply pp2 <= 65535)%N ->
  legal_line (game_of pp1) l1 -> legal_line (game_of pp2) l2 ->
  g_hand (play_line (game_of pp1) l1) c k <> g_hand (play_line (game_of pp2) l2) c k ->
  exists rng, forall be ck p1 q1 p2 q2,
    let cf := mkCfg be ck rng in
    Yasai.new cf pp1 = Some p1 -> do_line cf p1 l1 = Some q1 ->
    Yasai.new cf pp2 = Some p2 -> do_line cf p2 l2 = Some q2 ->
    option_map snd (Yasai.keys cf q1) <> option_map snd (Yasai.keys cf q2) /\
    Yasai.key cf q1 <> Yasai.key cf q2.
Proof.
  intros V1 P1 V2 P2 L1 L2 N.
  destruct (hands_bounded_dec (g_hand (play_line (game_of pp1) l1))) as [F1|F1].
  2: { exists (fun i => i). intros be ck p1 q1 p2 q2 cf N1 D1 _ _. exfalso. apply F1.
       apply (after_line_hands cf pp1 l1 p1 q1 V1 P1 L1 N1 D1). }
  destruct (hands_bounded_dec (g_hand (play_line (game_of pp2) l2))) as [F2|F2].
  2: { exists (fun i => i). intros be ck p1 q1 p2 q2 cf _ _ N2 D2. exfalso. apply F2.
       apply (after_line_hands cf pp2 l2 p2 q2 V2 P2 L2 N2 D2). }
  destruct (in_dec kind_dec k hand_kinds) as [I|I].
  2: { exists (fun i => i). intros be ck p1 q1 p2 q2 cf N1 D1 N2 D2. exfalso. apply N.
       destruct (after_line_hands cf pp1 l1 p1 q1 V1 P1 L1 N1 D1) as [_ O1].
       destruct (after_line_hands cf pp2 l2 p2 q2 V2 P2 L2 N2 D2) as [_ O2].
       rewrite (O1 c k I), (O2 c k I). reflexivity. }
  destruct (hand_blind _ _ c k I F1 F2 N) as [rng [Hh Hb]].
  exists rng. intros be ck p1 q1 p2 q2 cf N1 D1 N2 D2.
  destruct (after_line cf pp1 l1 p1 q1 V1 P1 L1 N1 D1) as [R1 [B1 [H1 _]]].
  destruct (after_line cf pp2 l2 p2 q2 V2 P2 L2 N2 D2) as [R2 [B2 [H2 _]]].
  pose proof (api_keys cf _ q1 R1) as K1. pose proof (api_keys cf _ q2 R2) as K2.
  rewrite (key_of_keys cf _ q1 _ R1 K1), (key_of_keys cf _ q2 _ R2 K2), K1, K2.
  cbn [option_map fst snd]. change (zt cf) with (zobrist_table rng) in *. rewrite !Hb, !N.lxor_0_l.
  rewrite (hand_hash_ext _ _ _ H1), (hand_hash_ext _ _ _ H2).
  split; intros [= E]; apply (f_equal (fun x => N.testbit x 1)) in E;
    rewrite ?N.lxor_spec, ?turn_bit_1, ?xorb_false_l in E; contradiction.
Qed.
Print Assumptions C49_no_blind_spot_hands.

(* six pawns in hand and seven *)
Definition six_pawns := sfen "4k4/9/9/9/9/9/9/9/4K4" Black "6P".
Definition seven_pawns := sfen "4k4/9/9/9/9/9/9/9/4K4" Black "7P".
Example C49_example : exists rng, forall be ck p1 p2,
  let cf := mkCfg be ck rng in
  Yasai.new cf six_pawns = Some p1 -> Yasai.new cf seven_pawns = Some p2 ->
  Yasai.key cf p1 <> Yasai.key cf p2.
Proof.
  destruct (C49_no_blind_spot_hands six_pawns seven_pawns [] [] Black Pawn) as [rng H];
    [apply validb_spec; vm_compute; reflexivity|vm_compute; discriminate
    |apply validb_spec; vm_compute; reflexivity|vm_compute; discriminate
    |exact I|exact I|vm_compute; discriminate|].
  exists rng. intros be ck p1 p2 cf N1 N2. exact (proj2 (H be ck p1 p1 p2 p2 N1 eq_refl N2 eq_refl)).
Qed.
Example C49_example_lines : exists rng, forall be ck p q1 q2,
  let cf := mkCfg be ck rng in
  Yasai.new cf startpos = Some p -> do_line cf p opening4 = Some q1 -> do_line cf p opening2 = Some q2 ->
  Yasai.key cf q1 <> Yasai.key cf q2.
Proof.
  destruct (C49_no_blind_spot_board startpos startpos opening4 opening2 (Sq n2 n2)) as [rng H];
    [apply validb_spec; vm_compute; reflexivity|vm_compute; discriminate
    |apply validb_spec; vm_compute; reflexivity|vm_compute; discriminate
    |apply legal_lineb_spec; vm_compute; reflexivity|apply legal_lineb_spec; vm_compute; reflexivity
    |vm_compute; discriminate|].
  exists rng. intros be ck p q1 q2 cf N D1 D2. exact (proj2 (H be ck p q1 p q2 N D1 N D2)).
Qed.
