(** * The rules said in another way, and what the answers depend on

    C59, C60 and C61 of properties.jsonl. *)

From Coq Require Import String List Bool NArith ZArith Lia Permutation.
From Verif Require Import Types Rules Bitboard BackendCore BackendSimd Tables Zobrist Position Movegen Perft
  Api Sfen Hash ValidPlay Reach Decide Lines Bisim Twins PerftSpec Symmetry Consequences Facts Witness
  Capture Hands PropPlay PropKeys PropMoves PropAgree.
Import ListNotations.

(** C59: the list, the check flag and mate, without the notion of check *)
Theorem C59_legal_by_capture cf ms p l m :
  reachable cf ms p -> Yasai.legal_moves cf p = Some l ->
  (In m l <-> legal_by_capture (view cf p) m).
Proof.
  intros R E. rewrite legal_by_capture_iff. apply (api_legal_moves cf ms p l R E).
Qed.
Print Assumptions C59_legal_by_capture.

Theorem C59_in_check_by_capture cf ms p b :
  reachable cf ms p -> Yasai.in_check cf p = Some b ->
  (b = true <-> exists r, takes_king (pass (view cf p)) r).
Proof.
  intros R B. destruct (api_in_check cf ms p R) as [b' [B' H]]. rewrite B in B'. injection B' as <-.
  rewrite H, pass_check. reflexivity.
Qed.
Print Assumptions C59_in_check_by_capture.

(* no reply to a listed move takes the king, as seen on the position after it *)
Theorem C59_no_capture_after cf ms p l m q :
  reachable cf ms p -> Yasai.legal_moves cf p = Some l -> In m l -> Yasai.do_move cf p m = Some q ->
  ~ exists r, takes_king (view cf q) r.
Proof.
  intros R E I D. pose proof (proj1 (proj2 (api_legal_moves cf ms p l R E) m) I) as L.
  rewrite capture_check.
  assert (Rq : reachable cf (m :: ms) q) by (apply (R_do cf ms p m q); assumption).
  destruct (reachable_inv cf _ q Rq) as [st [J _]].
  exact (v_check _ (Moves.inv_valid _ _ _ _ J)).
Qed.
Print Assumptions C59_no_capture_after.

(* the king of [pinned] could be taken after the gold has stepped aside *)
Example C59_example cf : exists p l,
  reachable cf [] p /\ Yasai.legal_moves cf p = Some l /\
  legal_by_capture (view cf p) (mv (n5, n8) (n5, n7) false) /\
  pseudo_legal (view cf p) (mv (n5, n8) (n4, n8) false) /\
  takes_king (play (view cf p) (mv (n5, n8) (n4, n8) false)) (mv (n5, n1) (n5, n9) false) /\
  ~ In (mv (n5, n8) (n4, n8) false) l.
Proof.
  destruct (demo_new cf pinned pinned_ok) as [p [l [_ [R [G [_ E]]]]]]. exists p, l.
  assert (T : takes_king (play (view cf p) (mv (n5, n8) (n4, n8) false)) (mv (n5, n1) (n5, n9) false)).
  { rewrite G. split; [|vm_compute; reflexivity]. apply pseudo_legalb_spec. vm_compute. reflexivity. }
  split; [assumption|]. split; [assumption|]. split; [|split; [|split]].
  - rewrite G. apply legal_by_capture_iff, legalb_spec. vm_compute. reflexivity.
  - rewrite G. apply pseudo_legalb_spec. vm_compute. reflexivity.
  - exact T.
  - intros I. apply (C59_legal_by_capture cf [] p l _ R E) in I as [_ [N _]]. apply N.
    eexists. exact T.
Qed.

(** C60: of the hands, only which kinds the side to move holds *)
Theorem C60_hands_as_sets cf1 cf2 ms1 ms2 p q :
  reachable cf1 ms1 p -> reachable cf2 ms2 q ->
  (forall s, Yasai.piece_at cf1 p s = Yasai.piece_at cf2 q s) ->
  Yasai.side_to_move cf1 p = Yasai.side_to_move cf2 q ->
  Yasai.in_check cf1 p = Yasai.in_check cf2 q /\
  (forall m, Yasai.is_check_move cf1 p m = Yasai.is_check_move cf2 q m) /\
  ((forall k, In k hand_kinds ->
      ((0 < hand_n (Yasai.hand cf1 p (Yasai.side_to_move cf1 p)) k)%N <->
       (0 < hand_n (Yasai.hand cf2 q (Yasai.side_to_move cf2 q)) k)%N)) ->
   Yasai.legal_moves cf1 p = Yasai.legal_moves cf2 q).
Proof.
  intros R1 R2 B Sd. destruct (same_answers_hands cf1 cf2 ms1 ms2 p q R1 R2 B Sd) as [I [M L]].
  split; [exact I|]. split; [exact M|]. intros H. apply L. intros k Ik. specialize (H k Ik).
  unfold holds. unfold hand_n in H.
  apply eq_true_iff_eq. rewrite !N.ltb_lt. exact H.
Qed.
Print Assumptions C60_hands_as_sets.

(* also in positions that are not valid *)
Theorem C60_hands_as_sets_new cf pp h p q :
  Yasai.new cf pp = Some p ->
  Yasai.new cf (mkPartial (pp_side pp) (pp_ply pp) h (pp_board pp)) = Some q ->
  Yasai.in_check cf p = Yasai.in_check cf q /\
  (forall m, Yasai.is_check_move cf p m = Yasai.is_check_move cf q m) /\
  ((forall k, In k hand_kinds ->
      ((0 < hand_n (Yasai.hand cf p (Yasai.side_to_move cf p)) k)%N <->
       (0 < hand_n (Yasai.hand cf q (Yasai.side_to_move cf q)) k)%N)) ->
   Yasai.legal_moves cf p = Yasai.legal_moves cf q).
Proof.
  intros N1 N2. destruct (new_hands cf pp h p q N1 N2) as [I [M L]].
  split; [exact I|]. split; [exact M|]. intros H. apply L. intros k Ik. specialize (H k Ik).
  unfold holds. unfold hand_n in H. apply eq_true_iff_eq. rewrite !N.ltb_lt. exact H.
Qed.
Print Assumptions C60_hands_as_sets_new.

(* more kinds in hand: all moves of the board and all drops stay, and what is
   new is a drop of a new kind *)
Theorem C60_more_in_hand cf1 cf2 ms1 ms2 p q l1 l2 m :
  reachable cf1 ms1 p -> reachable cf2 ms2 q ->
  (forall s, Yasai.piece_at cf1 p s = Yasai.piece_at cf2 q s) ->
  Yasai.side_to_move cf1 p = Yasai.side_to_move cf2 q ->
  Yasai.legal_moves cf1 p = Some l1 -> Yasai.legal_moves cf2 q = Some l2 ->
  let held k := (0 < hand_n (Yasai.hand cf1 p (Yasai.side_to_move cf1 p)) k)%N in
  let held' k := (0 < hand_n (Yasai.hand cf2 q (Yasai.side_to_move cf2 q)) k)%N in
  match m with
  | Normal _ _ _ => In m l1 <-> In m l2
  | Drop _ x => held (pkind x) -> held' (pkind x) -> (In m l1 <-> In m l2)
  end.
Proof.
  intros R1 R2 B Sd E1 E2 held held'.
  destruct (reachable_inv cf1 ms1 p R1) as [st1 [I1 _]].
  destruct (reachable_inv cf2 ms2 q R2) as [st2 [I2 _]].
  pose proof (Moves.inv_valid _ _ _ _ I1) as V1. pose proof (Moves.inv_valid _ _ _ _ I2) as V2.
  assert (G : same_board (view cf1 p) (view cf2 q)) by (split; [exact B|exact Sd]).
  assert (G' : same_board (view cf2 q) (view cf1 p))
    by (split; [intros s; symmetry; apply B|symmetry; exact Sd]).
  pose proof (proj2 (api_legal_moves cf1 ms1 p l1 R1 E1) m) as X1.
  pose proof (proj2 (api_legal_moves cf2 ms2 q l2 R2 E2) m) as X2.
  destruct m as [f t pr|t x].
  - rewrite X1, X2. split; apply legal_hands; try assumption; exact I.
  - intros H1 H2. rewrite X1, X2. split; apply legal_hands; assumption.
Qed.
Print Assumptions C60_more_in_hand.

(* one pawn, or two pawns and a white rook and bishop *)
Definition drop_more := sfen "9/7pp/7gk/9/7G1/9/9/9/9" Black "2Prb".
Lemma drop_more_ok : demo_okb drop_more [] = true.
Proof. vm_compute. reflexivity. Qed.
Example C60_example cf1 cf2 : exists p q l,
  reachable cf1 [] p /\ reachable cf2 [] q /\ ~ same_game (view cf1 p) (view cf2 q) /\
  (forall s, Yasai.piece_at cf1 p s = Yasai.piece_at cf2 q s) /\
  Yasai.legal_moves cf1 p = Some l /\ Yasai.legal_moves cf2 q = Some l /\
  In (dr (n1, n4) Pawn Black) l.
Proof.
  destruct (demo_new cf1 drop_no_mate drop_no_mate_ok) as [p [l [_ [R [G [_ E]]]]]].
  destruct (demo_new cf2 drop_more drop_more_ok) as [q [l' [_ [R' [G' [_ E']]]]]].
  assert (B : forall s, Yasai.piece_at cf1 p s = Yasai.piece_at cf2 q s).
  { intros s. change (g_board (view cf1 p) s = g_board (view cf2 q) s). rewrite G, G'. reflexivity. }
  assert (Sd : Yasai.side_to_move cf1 p = Yasai.side_to_move cf2 q).
  { change (g_side (view cf1 p) = g_side (view cf2 q)). rewrite G, G'. reflexivity. }
  exists p, q, l. split; [assumption|]. split; [assumption|].
  split; [|split; [|split; [|split]]].
  - rewrite G, G'. intros [_ [H _]]. specialize (H Black Pawn). vm_compute in H. discriminate.
  - exact B.
  - exact E.
  - rewrite <- E. symmetry. apply (C60_hands_as_sets cf1 cf2 [] [] p q R R' B Sd).
    intros k _. change (hand_n (Yasai.hand cf1 p (Yasai.side_to_move cf1 p)) k)
      with (g_hand (view cf1 p) (g_side (view cf1 p)) k).
    change (hand_n (Yasai.hand cf2 q (Yasai.side_to_move cf2 q)) k)
      with (g_hand (view cf2 q) (g_side (view cf2 q)) k).
    rewrite G, G'. destruct k; vm_compute; tauto.
  - apply (api_legal_moves cf1 _ p l R E). rewrite G. apply legalb_spec. vm_compute. reflexivity.
Qed.

(** C61: perft of equal, rotated and mirrored positions *)
Lemma sy_line sy l : forall g, legal_line g l -> legal_line (sy_game sy g) (map (sy_move sy) l).
Proof.
  induction l as [|m l IH]; intros g H; [exact I|]. destruct H as [L H]. cbn [map legal_line].
  split; [apply sy_legal; assumption|].
  apply (legal_line_same _ (sy_game sy (play g m))); [|apply IH; assumption].
  apply same_sym, sy_play.
Qed.

Lemma line_count (f : move -> move) L L' n (P Q : list move -> Prop) :
  (forall m, f (f m) = m) -> NoDup L -> NoDup L' ->
  (forall l, In l L <-> length l = n /\ P l) -> (forall l, In l L' <-> length l = n /\ Q l) ->
  (forall l, P l -> Q (map f l)) -> (length L <= length L')%nat.
Proof.
  intros F N N' H H' PQ. rewrite <- (map_length (map f) L). apply NoDup_incl_length.
  - apply FinFun.Injective_map_NoDup; [|assumption]. intros a b E.
    rewrite <- (map_id a), <- (map_id b). rewrite <- (map_ext _ _ F a), <- (map_ext _ _ F b).
    rewrite <- !(map_map f f), E. reflexivity.
  - intros l I. apply in_map_iff in I as [l0 [<- I]]. apply H in I as [Ln Pl]. apply H'.
    rewrite map_length. split; [assumption|]. apply PQ. assumption.
Qed.

Lemma perft_symmetric sy cf1 cf2 ms1 ms2 p q d n1 n2 p' q' :
  reachable cf1 ms1 p -> reachable cf2 ms2 q ->
  same_game (view cf2 q) (sy_game sy (view cf1 p)) ->
  Yasai.perft cf1 (S d) p = Some (n1, p') -> Yasai.perft cf2 (S d) q = Some (n2, q') -> n1 = n2.
Proof.
  intros R1 R2 G E1 E2.
  destruct (C30_perft_counts_lines cf1 d ms1 p n1 p' R1 E1) as [_ [L1 [N1 [H1 ->]]]].
  destruct (C30_perft_counts_lines cf2 d ms2 q n2 q' R2 E2) as [_ [L2 [N2 [H2 ->]]]].
  f_equal. apply Nat.le_antisymm.
  - apply (line_count (sy_move sy) L1 L2 (S d) (legal_line (view cf1 p)) (legal_line (view cf2 q)));
      try assumption; [apply sy_move_inv|].
    intros l H. apply (legal_line_same _ (sy_game sy (view cf1 p))); [apply same_sym; assumption|].
    apply sy_line. assumption.
  - apply (line_count (sy_move sy) L2 L1 (S d) (legal_line (view cf2 q)) (legal_line (view cf1 p)));
      try assumption; [apply sy_move_inv|].
    intros l H. apply (legal_line_same _ (sy_game sy (sy_game sy (view cf1 p)))); [apply sy_game_inv|].
    apply sy_line. apply (legal_line_same _ (view cf2 q)); assumption.
Qed.

Theorem C61_perft_same_position cf1 cf2 ms1 ms2 p q d n1 n2 p' q' :
  reachable cf1 ms1 p -> reachable cf2 ms2 q -> same_game (view cf2 q) (view cf1 p) ->
  Yasai.perft cf1 (S d) p = Some (n1, p') -> Yasai.perft cf2 (S d) q = Some (n2, q') -> n1 = n2.
Proof.
  intros R1 R2 G E1 E2.
  destruct (C30_perft_counts_lines cf1 d ms1 p n1 p' R1 E1) as [_ [L1 [N1 [H1 ->]]]].
  destruct (C30_perft_counts_lines cf2 d ms2 q n2 q' R2 E2) as [_ [L2 [N2 [H2 ->]]]].
  f_equal. apply Nat.le_antisymm.
  - apply (line_count (fun m => m) L1 L2 (S d) (legal_line (view cf1 p)) (legal_line (view cf2 q)));
      try assumption; [reflexivity|].
    intros l. rewrite map_id. apply legal_line_same, same_sym. assumption.
  - apply (line_count (fun m => m) L2 L1 (S d) (legal_line (view cf2 q)) (legal_line (view cf1 p)));
      try assumption; [reflexivity|].
    intros l. rewrite map_id. apply legal_line_same. assumption.
Qed.
Print Assumptions C61_perft_same_position.

Theorem C61_perft_rotated cf1 cf2 ms1 ms2 p q d n1 n2 p' q' :
  reachable cf1 ms1 p -> reachable cf2 ms2 q -> same_game (view cf2 q) (rotate_game (view cf1 p)) ->
  Yasai.perft cf1 (S d) p = Some (n1, p') -> Yasai.perft cf2 (S d) q = Some (n2, q') -> n1 = n2.
Proof. exact (perft_symmetric rotation cf1 cf2 ms1 ms2 p q d n1 n2 p' q'). Qed.
Print Assumptions C61_perft_rotated.

Theorem C61_perft_mirrored cf1 cf2 ms1 ms2 p q d n1 n2 p' q' :
  reachable cf1 ms1 p -> reachable cf2 ms2 q -> same_game (view cf2 q) (mirror_game (view cf1 p)) ->
  Yasai.perft cf1 (S d) p = Some (n1, p') -> Yasai.perft cf2 (S d) q = Some (n2, q') -> n1 = n2.
Proof.
  intros R1 R2 G. apply (perft_symmetric reflection cf1 cf2 ms1 ms2 p q d n1 n2 p' q' R1 R2).
  apply (same_trans _ _ _ G). apply mirror_game_sy.
Qed.
Print Assumptions C61_perft_mirrored.

Example C61_example cf1 cf2 d : (N.of_nat d <= 65534)%N -> exists p q r n1 n2 n3,
  reachable cf1 [] p /\ reachable cf2 [] q /\ reachable cf2 [] r /\
  same_game (view cf2 q) (rotate_game (view cf1 p)) /\
  same_game (view cf2 r) (mirror_game (view cf1 p)) /\
  Yasai.perft cf1 (S d) p = Some (n1, p) /\ Yasai.perft cf2 (S d) q = Some (n2, q) /\
  Yasai.perft cf2 (S d) r = Some (n3, r).
Proof.
  intros H.
  assert (T : forall cf pp, demo_okb pp [] = true -> pp_ply pp = 1%N ->
    (forall c, existsb (fun s => is_piece (g_board (game_of pp) s) (mkP King c)) all_squares = true) ->
    exists p n, reachable cf [] p /\ view cf p = game_of pp /\ Yasai.perft cf (S d) p = Some (n, p)).
  { intros cf pp Ok Y1 K. destruct (demo_new cf pp Ok) as [p [l [_ [R [G [Y _]]]]]].
    destruct (C30_perft_total cf d [] p R (demo_std cf _ p Ok G)) as [n E].
    - intros c. specialize (K c). apply existsb_exists in K as [s [_ K]]. exists s.
      change (g_board (view cf p) s = Some (mkP King c)). rewrite G. apply is_piece_spec. exact K.
    - right. rewrite Y, Y1. lia.
    - exists p, n. tauto. }
  destruct (T cf1 moved1 moved1_ok) as [p [n1 [R1 [G1 E1]]]]; [reflexivity|intros []; vm_compute; reflexivity|].
  destruct (T cf2 moved1_rotated moved1_rotated_ok) as [q [n2 [R2 [G2 E2]]]];
    [reflexivity|intros []; vm_compute; reflexivity|].
  destruct (T cf2 moved1_mirrored moved1_mirrored_ok) as [r [n3 [R3 [G3 E3]]]];
    [reflexivity|intros []; vm_compute; reflexivity|].
  exists p, q, r, n1, n2, n3. repeat (split; [assumption|]).
  split; [rewrite G1, G2; apply same_gameb_spec; vm_compute; reflexivity|].
  split; [rewrite G1, G3; apply same_gameb_spec; vm_compute; reflexivity|].
  tauto.
Qed.
