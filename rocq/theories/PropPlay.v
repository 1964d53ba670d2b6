(** * Properties of new, do_move, undo_move, in_check and is_check_move

    C07-C11, C16, C20, C21, C28, C29 and C33 of properties.jsonl. *)

From Coq Require Import String List Bool NArith ZArith Lia.
From Verif Require Import Types Rules Bitboard BackendCore BackendSimd Tables Zobrist Position Movegen
  Api Sfen BBSpec Backends Rep Moves Hash ValidPlay Reach Decide Lines Panics Witness.
Import ListNotations.

Local Opaque attack_info_new calculate_checkers.

(** C07 *)
Theorem C07_in_check_exact cf ms p :
  reachable cf ms p ->
  exists b, Yasai.in_check cf p = Some b /\
    (b = true <-> in_check (Yasai.piece_at cf p) (Yasai.side_to_move cf p)).
Proof. exact (api_in_check cf ms p). Qed.
Print Assumptions C07_in_check_exact.

Example C07_example cf :
  (exists p, reachable cf (rev opening) p /\ Yasai.in_check cf p = Some true) /\
  (exists p, reachable cf (rev opening4) p /\ Yasai.in_check cf p = Some false).
Proof.
  split.
  - destruct (demo cf startpos opening opening_ok) as [p [l [R [G _]]]]. exists p.
    split; [assumption|]. destruct (C07_in_check_exact cf _ p R) as [b [-> H]]. f_equal. apply H.
    apply (in_check_game _ _ G). apply in_checkb_spec. vm_compute. reflexivity.
  - destruct (demo cf startpos opening4 opening4_ok) as [p [l [R [G _]]]]. exists p.
    split; [assumption|]. destruct (C07_in_check_exact cf _ p R) as [b [-> H]]. f_equal.
    destruct b; [|reflexivity]. exfalso.
    assert (C : in_check (g_board (view cf p)) (g_side (view cf p))) by (apply H; reflexivity).
    apply (in_check_game _ _ G) in C. apply in_checkb_spec in C. vm_compute in C. discriminate.
Qed.

(** C08 *)
Theorem C08_is_check_move_predicts cf ms p m q :
  reachable cf ms p -> legal (view cf p) m -> Yasai.do_move cf p m = Some q ->
  exists b, Yasai.is_check_move cf p m = Some b /\ Yasai.in_check cf q = Some b.
Proof.
  intros R L D. destruct (api_is_check_move cf ms p m R L) as [b [B H]].
  destruct (api_in_check cf (m :: ms) q (R_do cf ms p m q R L D)) as [b' [B' H']].
  exists b. split; [assumption|]. rewrite B'. f_equal.
  pose proof (in_check_game _ _ (api_do_move cf ms p m q R L D)) as E.
  replace (g_side (play (view cf p) m)) with (flip (side_to_move (ops cf) p)) in E
    by (destruct m; reflexivity).
  cbn [view g_board g_side] in E. unfold Yasai.piece_at, Yasai.side_to_move in E.
  rewrite <- E, <- H' in H. destruct b, b'; try reflexivity; intuition discriminate.
Qed.
Print Assumptions C08_is_check_move_predicts.

Example C08_example cf : exists p q,
  reachable cf (rev opening4) p /\ legal (view cf p) bishop_drop /\
  Yasai.do_move cf p bishop_drop = Some q /\ Yasai.is_check_move cf p bishop_drop = Some true.
Proof.
  destruct (demo_step cf startpos opening4 bishop_drop opening_step_ok)
    as [p [q [R [G [L [D [R' G']]]]]]].
  exists p, q. repeat (split; [assumption|]).
  destruct (C08_is_check_move_predicts cf _ p _ q R L D) as [b [-> B]].
  destruct (C07_in_check_exact cf _ q R') as [b' [B' H]].
  assert (b = b') by congruence. subst b'. f_equal. apply H.
  apply (in_check_game _ _ G'). apply in_checkb_spec. vm_compute. reflexivity.
Qed.

(** C09: [play] (Rules.v) is the move by the rules; [same_game] compares all
    81 squares, both hands and the side to move. *)
Theorem C09_do_move_plays cf ms p m q :
  reachable cf ms p -> legal (view cf p) m -> Yasai.do_move cf p m = Some q ->
  same_game (view cf q) (play (view cf p) m).
Proof. exact (api_do_move cf ms p m q). Qed.
Print Assumptions C09_do_move_plays.

(* a capture with promotion: the pieces and the hand afterwards *)
Example C09_example cf : exists p q,
  reachable cf (rev opening2) p /\ legal (view cf p) bishop_takes /\
  Yasai.do_move cf p bishop_takes = Some q /\
  Yasai.piece_at cf p (Sq n2 n2) = Some (mkP Bishop White) /\
  Yasai.piece_at cf q (Sq n2 n2) = Some (mkP ProBishop Black) /\
  Yasai.piece_at cf q (Sq n8 n8) = None /\
  hand_count (Yasai.hand cf q Black) Bishop = Some 1%N /\
  Yasai.side_to_move cf q = White.
Proof.
  destruct (demo_step cf startpos opening2 bishop_takes opening3_ok)
    as [p [q [R [[Gb _] [L [D [R' [Gb' [Gh' Gs']]]]]]]]].
  exists p, q. repeat (split; [assumption|]). cbn [view g_board g_hand g_side] in *.
  rewrite Gb, !Gb', Gs'. do 3 (split; [vm_compute; reflexivity|]). split; [|reflexivity].
  specialize (Gh' Black Bishop). unfold hand_n in Gh'. cbn [hand_count] in Gh' |- *. rewrite Gh'.
  vm_compute. reflexivity.
Qed.

(** C10: equality of the whole value *)
Theorem C10_undo_inverts_do cf ms p m q :
  reachable cf ms p -> legal (view cf p) m -> Yasai.do_move cf p m = Some q ->
  Yasai.undo_move cf q m = Some p.
Proof. exact (api_undo cf ms p m q). Qed.
Print Assumptions C10_undo_inverts_do.

Example C10_example cf : exists p q,
  reachable cf (rev opening2) p /\ legal (view cf p) bishop_takes /\
  Yasai.do_move cf p bishop_takes = Some q.
Proof.
  destruct (demo_step cf startpos opening2 bishop_takes opening3_ok)
    as [p [q [R [_ [L [D _]]]]]]. exists p, q. tauto.
Qed.

(** C11 *)
Theorem C11_lines_unwind cf ms p q l :
  reachable cf ms p -> legal_line (view cf p) l -> do_line cf p l = Some q ->
  undo_line cf q (rev l) = Some p.
Proof. intros R L D. apply (do_line_spec cf l ms p q R L D). Qed.
Print Assumptions C11_lines_unwind.

Example C11_example cf : exists p q, reachable cf [] p /\
  legal_line (view cf p) opening /\ do_line cf p opening = Some q.
Proof.
  destruct (demo_new cf startpos startpos_ok) as [p [l [_ [R [G [Y E]]]]]].
  assert (L : legal_line (view cf p) opening).
  { rewrite G. apply legal_lineb_spec. vm_compute. reflexivity. }
  destruct (do_line_total cf opening [] p R (demo_std cf _ p startpos_ok G) L) as [q D]; [right; rewrite Y; vm_compute; discriminate|].
  exists p, q. tauto.
Qed.

(** C16 *)
Theorem C16_material_do cf ms p m q k :
  reachable cf ms p -> legal (view cf p) m -> Yasai.do_move cf p m = Some q ->
  material (view cf q) k = material (view cf p) k.
Proof.
  intros R L D. rewrite (material_same _ _ k (api_do_move cf ms p m q R L D)).
  apply material_play; [apply reach_hand_ok|apply L].
Qed.
Print Assumptions C16_material_do.

Theorem C16_material_undo cf ms p m q k :
  reachable cf (m :: ms) p -> Yasai.undo_move cf p m = Some q ->
  material (view cf q) k = material (view cf p) k.
Proof.
  intros R U. destruct (api_undo_total cf ms p m R) as [q' [U' [Rq [L D]]]].
  rewrite U in U'. injection U' as <-. symmetry. exact (C16_material_do cf ms q m p k Rq L D).
Qed.
Print Assumptions C16_material_undo.

(* a bishop is captured: two bishops before and after *)
Example C16_example cf : exists p q,
  reachable cf (rev opening2) p /\ legal (view cf p) bishop_takes /\
  Yasai.do_move cf p bishop_takes = Some q /\
  material (view cf p) Bishop = 2%N /\ g_hand (view cf p) Black Bishop = 0%N /\
  g_hand (view cf q) Black Bishop = 1%N.
Proof.
  destruct (demo_step cf startpos opening2 bishop_takes opening3_ok)
    as [p [q [R [G [L [D [R' [_ [H' _]]]]]]]]]. exists p, q. repeat (split; [assumption|]).
  rewrite (material_same _ _ Bishop G), H'. destruct G as [_ [H _]]. rewrite H.
  repeat split; vm_compute; reflexivity.
Qed.

(** C20 *)
Theorem C20_valid_preserved cf ms p l m q :
  reachable cf ms p -> Yasai.legal_moves cf p = Some l -> In m l ->
  Yasai.do_move cf p m = Some q ->
  valid (view cf q) /\ (standard_material (view cf p) -> standard_material (view cf q)).
Proof.
  intros R E I D. apply (api_legal_moves cf ms p l R E) in I.
  pose proof (R_do cf ms p m q R I D) as R'.
  split; [exact (reach_valid cf _ q R')|exact (api_do_standard cf ms p m q R I D)].
Qed.
Print Assumptions C20_valid_preserved.

(* so every position reached through the API alone is reachable *)
Theorem C20_reachable_by_listed_moves cf ms p l m q :
  reachable cf ms p -> Yasai.legal_moves cf p = Some l -> In m l ->
  Yasai.do_move cf p m = Some q -> reachable cf (m :: ms) q.
Proof.
  intros R E I D. apply (api_legal_moves cf ms p l R E) in I. exact (R_do cf ms p m q R I D).
Qed.
Print Assumptions C20_reachable_by_listed_moves.

Example C20_example cf : exists p l q, reachable cf [] p /\ Yasai.legal_moves cf p = Some l /\
  In (mv (n7, n7) (n7, n6) false) l /\
  Yasai.do_move cf p (mv (n7, n7) (n7, n6) false) = Some q.
Proof.
  destruct (demo_new cf startpos startpos_ok) as [p [l [_ [R [G [Y E]]]]]].
  assert (L : legal (view cf p) (mv (n7, n7) (n7, n6) false)).
  { rewrite G. apply legalb_spec. vm_compute. reflexivity. }
  destruct (Yasai.do_move cf p (mv (n7, n7) (n7, n6) false)) as [q|] eqn:D.
  - exists p, l, q. repeat (split; [assumption|]). split; [|exact D].
    apply (api_legal_moves cf _ p l R E). assumption.
  - exfalso. apply (api_do_total cf _ p _ R (demo_std cf _ p startpos_ok G) L) in D as [_ D]. rewrite Y in D. vm_compute in D.
    discriminate.
Qed.

(** C21: the only panics are the overflow of the ply counter and a capture that
    the hand has no room for; the second cannot happen with one set of pieces *)
Theorem C21_do_move_panics_exactly cf ms p m :
  reachable cf ms p -> legal (view cf p) m ->
  (Yasai.do_move cf p m = None <->
   (cf_checks cf = true /\ Yasai.ply cf p = 65535%N) \/
   exists f t pr x, m = Normal f t pr /\ Yasai.piece_at cf p t = Some x /\
     hand_n (Yasai.hand cf p (Yasai.side_to_move cf p)) (base_kind (pkind x)) = 18%N).
Proof. exact (api_do_exactly cf ms p m). Qed.
Print Assumptions C21_do_move_panics_exactly.

Theorem C21_do_move_total cf ms p m :
  reachable cf ms p -> standard_material (view cf p) -> legal (view cf p) m ->
  (Yasai.do_move cf p m = None <-> cf_checks cf = true /\ Yasai.ply cf p = 65535%N).
Proof. exact (api_do_total cf ms p m). Qed.
Print Assumptions C21_do_move_total.

Theorem C21_is_check_move_total cf ms p m :
  reachable cf ms p -> legal (view cf p) m -> Yasai.is_check_move cf p m <> None.
Proof. intros R L E. destruct (api_is_check_move cf ms p m R L) as [b [B _]]. congruence. Qed.
Print Assumptions C21_is_check_move_total.

Theorem C21_undo_move_total cf ms p m :
  reachable cf (m :: ms) p -> Yasai.undo_move cf p m <> None.
Proof. intros R E. destruct (api_undo_total cf ms p m R) as [q [U _]]. congruence. Qed.
Print Assumptions C21_undo_move_total.

(* a position with the last ply and a legal move *)
Example C21_example cf : exists p, reachable cf [] p /\ standard_material (view cf p) /\
  legal (view cf p) (mv (n7, n7) (n7, n6) false) /\ Yasai.ply cf p = 65535%N.
Proof.
  destruct (demo_new cf last_ply last_ply_ok) as [p [l [_ [R [G [Y E]]]]]]. exists p.
  split; [assumption|]. split; [exact (demo_std cf _ p last_ply_ok G)|]. split; [|exact Y]. rewrite G. apply legalb_spec. vm_compute. reflexivity.
Qed.

(** C28 *)
Theorem C28_turn_and_ply cf ms p m q :
  reachable cf ms p -> legal (view cf p) m -> Yasai.do_move cf p m = Some q ->
  Yasai.side_to_move cf q = flip (Yasai.side_to_move cf p) /\
  Yasai.ply cf q = (if (Yasai.ply cf p =? 65535)%N then 0 else Yasai.ply cf p + 1)%N.
Proof.
  intros R L D. split; [|exact (api_ply cf ms p m q R L D)].
  destruct (api_do_move cf ms p m q R L D) as [_ [_ E]]. cbn [view g_side] in E. rewrite E.
  destruct m; reflexivity.
Qed.
Print Assumptions C28_turn_and_ply.

Theorem C28_undo cf ms p m q :
  reachable cf (m :: ms) p -> Yasai.undo_move cf p m = Some q ->
  Yasai.side_to_move cf q = flip (Yasai.side_to_move cf p) /\
  Yasai.ply cf p = (if (Yasai.ply cf q =? 65535)%N then 0 else Yasai.ply cf q + 1)%N.
Proof.
  intros R U. destruct (api_undo_total cf ms p m R) as [q' [U' [Rq [L D]]]].
  rewrite U in U'. injection U' as <-.
  destruct (C28_turn_and_ply cf ms q m p Rq L D) as [H1 H2]. split; [|assumption]. rewrite H1.
  destruct (Yasai.side_to_move cf q); reflexivity.
Qed.
Print Assumptions C28_undo.

(* at ply 65535: a panic with overflow checks, 0 without *)
Theorem C28_ply_overflow cf ms p m :
  reachable cf ms p -> standard_material (view cf p) -> legal (view cf p) m -> Yasai.ply cf p = 65535%N ->
  if cf_checks cf then Yasai.do_move cf p m = None
  else exists q, Yasai.do_move cf p m = Some q /\ Yasai.ply cf q = 0%N.
Proof.
  intros R M L Y. pose proof (api_do_total cf ms p m R M L) as T. destruct (cf_checks cf).
  - apply T. tauto.
  - destruct (Yasai.do_move cf p m) as [q|] eqn:D.
    + exists q. split; [reflexivity|]. rewrite (api_ply cf ms p m q R L D), Y. reflexivity.
    + destruct T as [T _]. destruct (T eq_refl). discriminate.
Qed.
Print Assumptions C28_ply_overflow.

Example C28_example cf : exists p q,
  reachable cf (rev opening4) p /\ legal (view cf p) bishop_drop /\
  Yasai.do_move cf p bishop_drop = Some q /\ reachable cf (bishop_drop :: rev opening4) q /\
  Yasai.side_to_move cf p = Black.
Proof.
  destruct (demo_step cf startpos opening4 bishop_drop opening_step_ok)
    as [p [q [R [[_ [_ G]] [L [D [R' G']]]]]]]. exists p, q. repeat (split; [assumption|]). exact G.
Qed.

(** C29 *)
Theorem C29_new_faithful cf pp :
  (forall c k, In k hand_kinds -> (g_hand (game_of pp) c k <= 18)%N) ->
  exists p, Yasai.new cf pp = Some p /\
    (forall s, Yasai.piece_at cf p s = sa_get (pp_board pp) s) /\
    (forall c, Yasai.hand cf p c = c_get (pp_hands pp) c) /\
    Yasai.side_to_move cf p = pp_side pp /\
    Yasai.ply cf p = pp_ply pp /\
    (forall c s, bcontains (ops cf) (player_bb (ops cf) (p_inner _ p) c) s = true <->
       exists k, Yasai.piece_at cf p s = Some (mkP k c)) /\
    (forall k s, bcontains (ops cf) (piece_bb (ops cf) (p_inner _ p) k) s = true <->
       exists c, Yasai.piece_at cf p s = Some (mkP k c)) /\
    Yasai.keys cf p = Some (board_hash (zt cf) (g_board (game_of pp)),
                            hand_hash (zt cf) (g_hand (game_of pp))).
Proof.
  intros H. eexists. split; [exact (new_some cf pp H)|].
  pose proof (inner_of_partial_rep (ops cf) (backend_spec (cf_backend cf) (cf_checks cf)) pp) as R.
  split; [reflexivity|]. split; [reflexivity|]. split; [reflexivity|]. split; [reflexivity|].
  split; [|split].
  - intros c s. cbn [p_inner]. rewrite (rep_player _ _ _ R). apply colorb_true.
  - intros k s. cbn [p_inner]. rewrite (rep_piece _ _ _ R). apply kindb_true.
  - reflexivity.
Qed.
Print Assumptions C29_new_faithful.

(* with more than 18 pieces of a kind in a hand Position::new panics *)
Theorem C29_new_panics cf pp c k :
  In k hand_kinds -> (18 < g_hand (game_of pp) c k)%N -> Yasai.new cf pp = None.
Proof.
  intros I H. apply new_none. intros F. specialize (F c k I). lia.
Qed.
Print Assumptions C29_new_panics.

Example C29_example :
  (forall c k, In k hand_kinds -> (g_hand (game_of startpos) c k <= 18)%N) /\
  (forall c k, In k hand_kinds -> (g_hand (game_of max593) c k <= 18)%N) /\
  (18 < g_hand (game_of (sfen "4k4/9/9/9/9/9/9/9/9" Black "19P"%string)) Black Pawn)%N.
Proof.
  split; [|split; [|vm_compute; reflexivity]]; intros c k I; destruct c, k; vm_compute; discriminate.
Qed.

(** C33 *)
Theorem C33_move_from_empty cf p f t pr :
  Yasai.piece_at cf p f = None -> Yasai.do_move cf p (Normal f t pr) = None.
Proof. exact (panic_empty cf p f t pr). Qed.
Print Assumptions C33_move_from_empty.

Theorem C33_capture_king cf p f t pr c :
  Yasai.piece_at cf p t = Some (mkP King c) -> Yasai.do_move cf p (Normal f t pr) = None.
Proof. exact (panic_king cf p f t pr c). Qed.
Print Assumptions C33_capture_king.

Theorem C33_promote_unpromotable cf p f t x :
  Yasai.piece_at cf p f = Some x -> promote_kind (pkind x) = None ->
  Yasai.do_move cf p (Normal f t true) = None.
Proof. exact (panic_promote cf p f t x). Qed.
Print Assumptions C33_promote_unpromotable.

Theorem C33_drop_not_in_hand cf p t x :
  hand_n (Yasai.hand cf p (Yasai.side_to_move cf p)) (pkind x) = 0%N ->
  Yasai.do_move cf p (Drop t x) = None.
Proof. exact (panic_drop cf p t x). Qed.
Print Assumptions C33_drop_not_in_hand.

Example C33_example cf : exists p, reachable cf [] p /\
  Yasai.piece_at cf p (Sq n5 n5) = None /\
  Yasai.piece_at cf p (Sq n5 n1) = Some (mkP King White) /\
  Yasai.piece_at cf p (Sq n4 n9) = Some (mkP Gold Black) /\ promote_kind Gold = None /\
  hand_n (Yasai.hand cf p (Yasai.side_to_move cf p)) Rook = 0%N.
Proof.
  destruct (demo_new cf startpos startpos_ok) as [p [l [_ [R [G _]]]]]. exists p.
  split; [assumption|]. change (Yasai.piece_at cf p) with (g_board (view cf p)).
  change (hand_n (Yasai.hand cf p (Yasai.side_to_move cf p)) Rook)
    with (g_hand (view cf p) (g_side (view cf p)) Rook). rewrite G. repeat split; reflexivity.
Qed.
