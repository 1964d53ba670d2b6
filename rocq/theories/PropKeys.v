(** * Properties of the Zobrist keys: C13-C15 of properties.jsonl *)

From Coq Require Import String List Bool NArith ZArith Lia.
From Verif Require Import Types Rules Bitboard BackendCore BackendSimd Tables Zobrist Position Movegen
  Api Sfen ValidPlay Hash Reach Decide Lines Facts Witness PropPlay.
Import ListNotations.

Local Opaque attack_info_new calculate_checkers.

(** C13: [board_hash] and [hand_hash] (Hash.v) are the exclusive or of one
    table entry per piece on the board and per piece in hand. *)
Theorem C13_keys_from_scratch cf ms p :
  reachable cf ms p ->
  Yasai.keys cf p =
    Some (N.lxor (board_hash (zt cf) (Yasai.piece_at cf p))
                 (if Nat.odd (length ms) then 1%N else 0%N),
          hand_hash (zt cf) (fun c k => hand_n (Yasai.hand cf p c) k)).
Proof. exact (api_keys cf ms p). Qed.
Print Assumptions C13_keys_from_scratch.

(* key() is the exclusive or of the two *)
Theorem C13_key_from_scratch cf ms p :
  reachable cf ms p ->
  Yasai.key cf p =
    Some (N.lxor (N.lxor (board_hash (zt cf) (Yasai.piece_at cf p))
                         (if Nat.odd (length ms) then 1%N else 0%N))
                 (hand_hash (zt cf) (fun c k => hand_n (Yasai.hand cf p c) k))).
Proof.
  intros R. pose proof (C13_keys_from_scratch cf ms p R) as K. revert K.
  unfold Yasai.keys, pos_keys, Yasai.key, pos_key.
  destruct (pos_state (ops cf) p) as [st|]; cbn [bind]; [|discriminate].
  intros [= ->]. reflexivity.
Qed.
Print Assumptions C13_key_from_scratch.

Example C13_example cf : exists p, reachable cf (rev opening) p /\ length (rev opening) = 5%nat.
Proof.
  destruct (demo cf startpos opening opening_ok) as [p [_ [R _]]]. exists p.
  split; [assumption|reflexivity].
Qed.

(** C14 *)
Theorem C14_transpositions cf ms p l1 l2 q1 q2 :
  reachable cf ms p ->
  legal_line (view cf p) l1 -> legal_line (view cf p) l2 ->
  do_line cf p l1 = Some q1 -> do_line cf p l2 = Some q2 ->
  same_game (view cf q1) (view cf q2) ->
  Yasai.keys cf q1 = Yasai.keys cf q2 /\ Yasai.key cf q1 = Yasai.key cf q2.
Proof. exact (transposition cf ms p l1 l2 q1 q2). Qed.
Print Assumptions C14_transpositions.

(* two orders of the same three moves *)
Definition order1 : list move :=
  [mv (n7, n7) (n7, n6) false; mv (n3, n3) (n3, n4) false; mv (n2, n7) (n2, n6) false].
Definition order2 : list move :=
  [mv (n2, n7) (n2, n6) false; mv (n3, n3) (n3, n4) false; mv (n7, n7) (n7, n6) false].
Definition same_gameb (g h : game) : bool :=
  forallb (fun s => match g_board g s, g_board h s with
     | Some x, Some y => piece_eqb x y | None, None => true | _, _ => false end) all_squares &&
  forallb (fun c => forallb (fun k => (g_hand g c k =? g_hand h c k)%N) all_kinds) all_colors &&
  color_eqb (g_side g) (g_side h).
Lemma same_gameb_spec g h : same_gameb g h = true -> same_game g h.
Proof.
  unfold same_gameb. rewrite !andb_true_iff, !forallb_forall. intros [[H1 H2] H3].
  split; [|split].
  - intros s. specialize (H1 s (Squares.all_squares_in s)).
    destruct (g_board g s) as [x|], (g_board h s) as [y|]; try discriminate; [|reflexivity].
    destruct (Squares.piece_eqb_spec x y); [congruence|discriminate].
  - intros c k. specialize (H2 c (all_colors_in c)). rewrite forallb_forall in H2. apply N.eqb_eq.
    apply H2. destruct k; cbn; tauto.
  - destruct (Squares.color_eqb_spec (g_side g) (g_side h)); [assumption|discriminate].
Qed.

Example C14_example cf : exists p q1 q2, reachable cf [] p /\
  legal_line (view cf p) order1 /\ legal_line (view cf p) order2 /\
  do_line cf p order1 = Some q1 /\ do_line cf p order2 = Some q2 /\
  same_game (view cf q1) (view cf q2) /\ order1 <> order2.
Proof.
  destruct (demo_new cf startpos startpos_ok) as [p [l [_ [R [G [Y E]]]]]].
  assert (L1 : legal_line (view cf p) order1).
  { rewrite G. apply legal_lineb_spec. vm_compute. reflexivity. }
  assert (L2 : legal_line (view cf p) order2).
  { rewrite G. apply legal_lineb_spec. vm_compute. reflexivity. }
  destruct (do_line_total cf order1 [] p R (demo_std cf _ p startpos_ok G) L1) as [q1 D1]; [right; rewrite Y; vm_compute; discriminate|].
  destruct (do_line_total cf order2 [] p R (demo_std cf _ p startpos_ok G) L2) as [q2 D2]; [right; rewrite Y; vm_compute; discriminate|].
  exists p, q1, q2. repeat (split; [assumption|]). split; [|discriminate].
  destruct (do_line_spec cf order1 [] p q1 R L1 D1) as [_ [G1 _]].
  destruct (do_line_spec cf order2 [] p q2 R L2 D2) as [_ [G2 _]].
  apply (same_trans _ _ _ G1), same_sym, (same_trans _ _ _ G2). rewrite G. apply same_gameb_spec.
  vm_compute. reflexivity.
Qed.

(** C15: the claim is false.  Position::new ignores the side to move ... *)
Definition other_side (pp : partial) : partial :=
  mkPartial (flip (pp_side pp)) (pp_ply pp) (pp_hands pp) (pp_board pp).

Lemma other_startpos_ok : demo_okb (other_side startpos) [] = true.
Proof. vm_compute. reflexivity. Qed.

Lemma new_other_side cf pp p q :
  Yasai.new cf pp = Some p -> Yasai.new cf (other_side pp) = Some q ->
  (forall s, Yasai.piece_at cf p s = Yasai.piece_at cf q s) /\
  (forall c, Yasai.hand cf p c = Yasai.hand cf q c) /\
  Yasai.side_to_move cf p <> Yasai.side_to_move cf q /\
  Yasai.keys cf p = Yasai.keys cf q.
Proof.
  intros N N'.
  destruct (hands_fit_dec (g_hand (game_of pp))) as [F|F]; [|rewrite (new_none cf pp F) in N; discriminate].
  destruct (C29_new_faithful cf pp F) as [p' [E [B [H [Sd [_ [_ [_ K]]]]]]]].
  destruct (C29_new_faithful cf (other_side pp) F) as [q' [E' [B' [H' [Sd' [_ [_ [_ K']]]]]]]].
  assert (p' = p) by congruence. assert (q' = q) by congruence. subst p' q'.
  split; [intros s; rewrite B, B'; reflexivity|].
  split; [intros c; rewrite H, H'; reflexivity|].
  split; [rewrite Sd, Sd'; cbn [other_side pp_side]; destruct (pp_side pp); discriminate|].
  rewrite K, K'. reflexivity.
Qed.

Theorem C15_side_not_in_keys_refuted cf : exists p q,
  reachable cf [] p /\ reachable cf [] q /\
  (forall s, Yasai.piece_at cf p s = Yasai.piece_at cf q s) /\
  (forall c, Yasai.hand cf p c = Yasai.hand cf q c) /\
  Yasai.side_to_move cf p <> Yasai.side_to_move cf q /\
  Yasai.keys cf p = Yasai.keys cf q.
Proof.
  destruct (demo_new cf startpos startpos_ok) as [p [l [N [R [G _]]]]].
  destruct (demo_new cf (other_side startpos) other_startpos_ok) as [q [l' [N' [R' [G' _]]]]].
  exists p, q. split; [assumption|]. split; [assumption|]. exact (new_other_side cf startpos p q N N').
Qed.
Print Assumptions C15_side_not_in_keys_refuted.

(* bit 0 of the first key is the parity of the number of moves *)
Theorem C15_parity_in_keys cf ms1 ms2 p q :
  reachable cf ms1 p -> reachable cf ms2 q -> Nat.odd (length ms1) <> Nat.odd (length ms2) ->
  Yasai.keys cf p <> Yasai.keys cf q.
Proof.
  intros R1 R2 N E. destruct (key_bit0 cf ms1 p R1) as [a [h [E1 B1]]].
  destruct (key_bit0 cf ms2 q R2) as [a' [h' [E2 B2]]]. rewrite E1, E2 in E. injection E as -> ->.
  congruence.
Qed.
Print Assumptions C15_parity_in_keys.

(* exactly when two positions with the same board and hands have the same keys, and the
   same key: the side to move does not matter *)
Theorem C15_keys_exactly cf ms1 ms2 p q :
  reachable cf ms1 p -> reachable cf ms2 q ->
  (forall s, Yasai.piece_at cf p s = Yasai.piece_at cf q s) ->
  (forall c k, hand_n (Yasai.hand cf p c) k = hand_n (Yasai.hand cf q c) k) ->
  (Yasai.keys cf p = Yasai.keys cf q <-> Nat.odd (length ms1) = Nat.odd (length ms2)) /\
  (Yasai.key cf p = Yasai.key cf q <-> Nat.odd (length ms1) = Nat.odd (length ms2)).
Proof.
  intros R1 R2 B H. rewrite (C13_keys_from_scratch cf ms1 p R1), (C13_keys_from_scratch cf ms2 q R2).
  rewrite (C13_key_from_scratch cf ms1 p R1), (C13_key_from_scratch cf ms2 q R2).
  rewrite (board_hash_ext _ _ _ B), (hand_hash_ext _ _ _ H).
  set (b := board_hash _ _). set (h := hand_hash _ _).
  assert (X : forall x y, N.lxor b x = N.lxor b y -> x = y).
  { intros x y E. apply (f_equal (N.lxor b)) in E. rewrite <- !N.lxor_assoc, N.lxor_nilpotent, !N.lxor_0_l in E. exact E. }
  assert (Y : forall x y, N.lxor x h = N.lxor y h -> x = y).
  { intros x y E. apply (f_equal (fun v => N.lxor v h)) in E.
    rewrite !N.lxor_assoc, N.lxor_nilpotent, !N.lxor_0_r in E. exact E. }
  destruct (Nat.odd (length ms1)), (Nat.odd (length ms2)); split; split; try reflexivity; try discriminate; intros E; exfalso.
  - injection E as E. apply X in E. discriminate E.
  - injection E as E. apply Y, X in E. discriminate E.
  - injection E as E. apply X in E. discriminate E.
  - injection E as E. apply Y, X in E. discriminate E.
Qed.
Print Assumptions C15_keys_exactly.

(** ... so the position after one move and the same position made by
    Position::new have different keys. *)
Definition moved1 : partial :=
  sfen "lnsgkgsnl/1r5b1/ppppppppp/9/9/2P6/PP1PPPPPP/1B5R1/LNSGKGSNL" White "-".
Lemma moved1_ok : demo_okb moved1 [] = true.
Proof. vm_compute. reflexivity. Qed.
Lemma one_move_ok : demo_okb startpos ([] ++ [mv (n7, n7) (n7, n6) false]) = true.
Proof. vm_compute. reflexivity. Qed.
Theorem C15_new_vs_moves_refuted cf : exists p q,
  reachable cf [mv (n7, n7) (n7, n6) false] p /\ reachable cf [] q /\
  same_game (view cf p) (view cf q) /\ Yasai.keys cf p <> Yasai.keys cf q.
Proof.
  destruct (demo_step cf startpos [] _ one_move_ok) as [_ [p [_ [_ [_ [_ [R G]]]]]]].
  destruct (demo_new cf moved1 moved1_ok) as [q [l' [N' [R' [G' _]]]]].
  exists p, q. split; [assumption|]. split; [assumption|]. split.
  - apply (same_trans _ _ _ G). rewrite G'. apply same_gameb_spec. vm_compute. reflexivity.
  - apply (C15_parity_in_keys cf _ _ p q R R'). discriminate.
Qed.
Print Assumptions C15_new_vs_moves_refuted.

(** The part of the claim that holds: among the positions of one game (one
    call of Position::new), the keys tell the side to move. *)
Theorem C15_side_in_keys_partial cf ms p0 l1 l2 p q :
  reachable cf ms p0 ->
  legal_line (view cf p0) l1 -> legal_line (view cf p0) l2 ->
  do_line cf p0 l1 = Some p -> do_line cf p0 l2 = Some q ->
  Yasai.side_to_move cf p <> Yasai.side_to_move cf q ->
  Yasai.keys cf p <> Yasai.keys cf q.
Proof.
  intros R0 L1 L2 D1 D2 N.
  destruct (do_line_spec cf l1 ms p0 p R0 L1 D1) as [R1 [[_ [_ S1]] _]].
  destruct (do_line_spec cf l2 ms p0 q R0 L2 D2) as [R2 [[_ [_ S2]] _]].
  apply (C15_parity_in_keys cf _ _ p q R1 R2). rewrite !app_length, !rev_length, !Nat.odd_add. intros O.
  assert (O' : Nat.odd (length l1) = Nat.odd (length l2))
    by (destruct (Nat.odd (length l1)), (Nat.odd (length l2)), (Nat.odd (length ms)); discriminate || reflexivity).
  clear O. rename O' into O. apply N. change (g_side (view cf p) = g_side (view cf q)).
  rewrite S1, S2, !play_line_side, O. reflexivity.
Qed.
Print Assumptions C15_side_in_keys_partial.

Example C15_example cf : exists p0 p q, reachable cf [] p0 /\
  legal_line (view cf p0) opening /\ legal_line (view cf p0) opening4 /\
  do_line cf p0 opening = Some p /\ do_line cf p0 opening4 = Some q /\
  Yasai.side_to_move cf p <> Yasai.side_to_move cf q.
Proof.
  destruct (demo_new cf startpos startpos_ok) as [p [l [N [R [G [Y E]]]]]].
  assert (L1 : legal_line (view cf p) opening).
  { rewrite G. apply legal_lineb_spec. vm_compute. reflexivity. }
  assert (L2 : legal_line (view cf p) opening4).
  { rewrite G. apply legal_lineb_spec. vm_compute. reflexivity. }
  destruct (do_line_total cf opening [] p R (demo_std cf _ p startpos_ok G) L1) as [q1 D1]; [right; rewrite Y; vm_compute; discriminate|].
  destruct (do_line_total cf opening4 [] p R (demo_std cf _ p startpos_ok G) L2) as [q2 D2]; [right; rewrite Y; vm_compute; discriminate|].
  exists p, q1, q2. repeat (split; [assumption|]).
  destruct (do_line_spec cf opening [] p q1 R L1 D1) as [_ [[_ [_ S1]] _]].
  destruct (do_line_spec cf opening4 [] p q2 R L2 D2) as [_ [[_ [_ S2]] _]].
  change (g_side (view cf q1) <> g_side (view cf q2)). rewrite S1, S2, !play_line_side.
  destruct (g_side (view cf p)); discriminate.
Qed.
