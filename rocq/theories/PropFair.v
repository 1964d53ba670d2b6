(** * Checks under arbitrary moves of one's own pieces: C57 of properties.jsonl *)

From Coq Require Import String List Bool NArith ZArith Lia.
From Verif Require Import Types Rules Bitboard BackendCore BackendSimd Tables Zobrist Position Movegen
  Api Sfen Squares Geometry BBSpec Backends Attacks KingSafety Rep Legality Exact Loops ValidPlay Moves
  PawnDrop Hash Reach Decide Consequences AnyMove Accept Tidy Agree Bisim Undo Twins Fair Witness PropLimits PropOrderly.
Import ListNotations.

Local Opaque attack_info_new calculate_checkers.

(** C57: in_check, whatever own moves were played, legal or not, as long as
    nothing jumped and no king was left en prise to the side to move. [checked]
    (in Fair.v) disregards the opposing king, as calculate_checkers does. *)
Theorem C57_in_check_exact cf ms p : fair_play cf ms p ->
  exists b, Yasai.in_check cf p = Some b /\
    (b = true <-> checked (Yasai.piece_at cf p) (Yasai.side_to_move cf p)).
Proof.
  intros F. pose proof (fair_play_cached cf ms p F) as Ca. destruct (ca_info _ _ _ Ca) as [st [St Ai]].
  unfold Yasai.in_check, pos_in_check. rewrite St. cbn [bind]. eexists. split; [reflexivity|].
  rewrite Ai. change (ai_checkers (ops cf) (attack_info_new (ops cf) ?x ?y)) with x.
  rewrite <- (checkers_checked cf p (sd_rep _ _ _ (ca_steady _ _ _ Ca)) (ca_lone _ _ _ Ca)).
  destruct (bis_empty _ _); cbn [negb]; split; congruence.
Qed.
Print Assumptions C57_in_check_exact.

(** what is_check_move says is what do_move brings about *)
Theorem C57_is_check_move_exact cf ms p m q : fair_play cf ms p ->
  ~ checked (Yasai.piece_at cf p) (flip (Yasai.side_to_move cf p)) ->
  fair (view cf p) m -> Yasai.do_move cf p m = Some q ->
  exists b, Yasai.is_check_move cf p m = Some b /\ Yasai.in_check cf q = Some b /\
    (b = true <-> checked (Yasai.piece_at cf q) (Yasai.side_to_move cf q)).
Proof.
  intros F C Fm D. destruct (fair_check cf _ p (fair_play_cached cf ms p F) C q m Fm D) as [b [E H]].
  destruct (C57_in_check_exact cf (m :: ms) q (F_do cf ms p m q F C Fm D)) as [b' [E' H']].
  destruct (do_move_effects cf p q m D) as [Sd _].
  exists b. split; [assumption|]. rewrite Sd in *. split; [|assumption].
  rewrite E'. f_equal. destruct b, b'; try reflexivity; intuition congruence.
Qed.
Print Assumptions C57_is_check_move_exact.

(** the checking pieces, the pinned pieces and the checking squares *)
Theorem C57_attack_info_exact cf ms p : fair_play cf ms p ->
  let b := Yasai.piece_at cf p in
  let c := Yasai.side_to_move cf p in
  (exists a, Yasai.checkers cf p = Some a /\ forall s, Yasai.contains cf a s = true <->
     exists K k, b K = Some (mkP King c) /\ b s = Some (mkP k (flip c)) /\ k <> King /\
       reaches b (flip c) k s K) /\
  (forall d, exists a, Yasai.pinned cf p d = Some a /\ forall u, Yasai.contains cf a u = true <->
     exists K s, b K = Some (mkP King d) /\ b u <> None /\ between K u s /\
       attacks (upd b u None) (flip d) s K) /\
  (forall k t, exists r, Yasai.checkable cf p k t = Some r /\ (r = true <->
     k <> King /\ exists K, b K = Some (mkP King (flip c)) /\ reaches b c k t K)).
Proof.
  intros F b c. pose proof (fair_play_cached cf ms p F) as Ca. destruct (ca_info _ _ _ Ca) as [st [St Ai]].
  set (Sp := backend_spec (cf_backend cf) (cf_checks cf)) in *.
  pose proof (sd_rep _ _ _ (ca_steady _ _ _ Ca)) as Rp. pose proof (ca_lone _ _ _ Ca) as U.
  assert (KP : forall d s, king_position (ops cf) (p_inner (ops cf) p) d = Some s <-> b s = Some (mkP King d))
    by (intros d s; exact (king_position_iff _ _ _ Rp d s U)).
  split; [|split].
  - unfold Yasai.checkers. rewrite St. cbn [bind]. eexists. split; [reflexivity|].
    intros s. rewrite Ai.
    change (ai_checkers (ops cf) (attack_info_new (ops cf) ?x ?y)) with x.
    unfold Yasai.contains. rewrite (checkers_natt cf p s Rp U). fold b c. split.
    + intros [K [BK [k [Bs [N R]]]]]. exists K, k. apply reachb_spec in R. tauto.
    + intros [K [k [BK [Bs [N R]]]]]. exists K. split; [assumption|]. exists k. apply reachb_spec in R. tauto.
  - intros d. unfold Yasai.pinned. rewrite St. cbn [bind]. eexists. split; [reflexivity|].
    intros u.
    assert (Pin : ai_pinned_of (ops cf) (s_attack_info (ops cf) st) d = pinned_for (ops cf) (p_inner (ops cf) p) d)
      by (rewrite Ai; destruct d; reflexivity).
    rewrite Pin. unfold Yasai.contains.
    rewrite (pinned_for_spec (ops cf) Sp _ Rp).
    change (i_piece_at (ops cf) (p_inner (ops cf) p)) with b. split.
    + intros [K [EK [s [[k [Bs Hr]] [Hb [Bu Ho]]]]]]. exists K, s. split; [apply KP; assumption|].
      split; [assumption|]. split; [apply between_spec; assumption|].
      assert (Nsu : s <> u). { intros ->. apply between_neq in Hb. tauto. }
      apply attacks_att, att_alt. exists k. unfold upd at 1. rewrite (sq_eqb_neq s u Nsu).
      split; [assumption|]. split; [unfold geo; rewrite Hr; apply orb_true_r|].
      intros v Hv. unfold upd. destruct (sq_eqb_spec v u) as [|Nv]; [reflexivity|].
      destruct (b v) eqn:Bv; [|reflexivity]. exfalso. apply Nv, Ho; [|congruence].
      rewrite between_sym. assumption.
    + intros [K [s [BK [Bu [Hb A]]]]]. exists K. split; [apply KP; assumption|]. exists s.
      apply between_spec in Hb. apply attacks_att, att_alt in A as [k [Bs [G C]]].
      assert (Nsu : s <> u). { intros ->. apply between_neq in Hb. tauto. }
      unfold upd in Bs at 1. rewrite (sq_eqb_neq s u Nsu) in Bs.
      split; [exists k; split; [assumption|]|].
      * unfold geo in G. apply orb_true_iff in G as [G|G]; [|assumption].
        exfalso. pose proof (step_no_between (flip d) k s u K G) as N. rewrite between_sym in N. congruence.
      * split; [assumption|]. split; [assumption|]. intros v Hv Bv.
        rewrite between_sym in Hv. specialize (C v Hv). unfold upd in C.
        destruct (sq_eqb_spec v u); [assumption|]. contradiction.
  - intros k t. unfold Yasai.checkable. rewrite St. cbn [bind]. eexists. split; [reflexivity|].
    rewrite (st_checkable cf _ p Ca st k t St Ai). fold b c.
    destruct (king_position (ops cf) (p_inner (ops cf) p) (flip c)) as [K|] eqn:EK.
    + apply KP in EK. rewrite andb_true_iff, not_king_bool. split.
      * intros [Nk Hr]. split; [assumption|]. exists K. split; [assumption|].
        apply reachb_spec. exact Hr.
      * intros [Nk [K' [BK' Hr]]]. assert (K' = K) by (exact (U _ K' K BK' EK)). subst K'.
        apply reachb_spec in Hr. split; assumption.
    + split; [discriminate|]. intros [_ [K [BK _]]]. apply KP in BK. congruence.
Qed.
Print Assumptions C57_attack_info_exact.

(** and legal_moves stays exact wherever it is exact at all (C55) *)
Theorem C57_legal_moves_exact cf ms p l : fair_play cf ms p -> orderly (view cf p) ->
  Yasai.legal_moves cf p = Some l ->
  NoDup l /\ forall m, In m l <-> legal (view cf p) m.
Proof.
  intros F V E. pose proof (fair_play_cached cf ms p F) as Ca. destruct (ca_info _ _ _ Ca) as [st [St Ai]].
  destruct (legal_moves_spec (ops cf) (backend_spec (cf_backend cf) (cf_checks cf)) p st
    (sd_rep _ _ _ (ca_steady _ _ _ Ca)) V St Ai) as [cs [_ [_ [_ [_ [_ H]]]]]].
  exact (H l E).
Qed.
Print Assumptions C57_legal_moves_exact.

(** two such positions that look alike answer alike, whatever was played to reach
    them and on whatever build *)
Theorem C57_history_independent cf1 cf2 ms1 ms2 p q :
  fair_play cf1 ms1 p -> fair_play cf2 ms2 q -> same_game (view cf1 p) (view cf2 q) ->
  Yasai.in_check cf1 p = Yasai.in_check cf2 q /\
  (forall m, Yasai.is_check_move cf1 p m = Yasai.is_check_move cf2 q m) /\
  (valid (view cf1 p) -> Yasai.legal_moves cf1 p = Yasai.legal_moves cf2 q).
Proof.
  intros F1 F2 G. pose proof (fair_play_cached cf1 ms1 p F1) as C1. pose proof (fair_play_cached cf2 ms2 q F2) as C2.
  destruct (ca_info _ _ _ C1) as [st1 [E1 A1]]. destruct (ca_info _ _ _ C2) as [st2 [E2 A2]].
  pose proof (sd_rep _ _ _ (ca_steady _ _ _ C1)) as R1. pose proof (sd_rep _ _ _ (ca_steady _ _ _ C2)) as R2.
  pose proof (simI_same _ _ _ _ _ _ R1 R2 G) as J.
  assert (P : simP _ _ (spec_of cf1) (spec_of cf2) (bare _ p st1) (bare _ q st2)).
  { constructor.
    - apply simI_ply. exact J.
    - reflexivity.
    - constructor; [|constructor]. constructor; cbn [s_keys s_captured s_last_moved s_attack_info];
        [reflexivity..|].
      rewrite A1, A2. apply sim_attack_info; [exact J|]. apply sim_checkers. exact J. }
  unfold Yasai.legal_moves, Yasai.in_check, Yasai.is_check_move.
  split; [|split].
  - rewrite <- (bare_in_check _ p st1 E1), <- (bare_in_check _ q st2 E2).
    apply (sim_in_check _ _ _ _ _ _ P).
  - intros m. rewrite <- (bare_is_check_move _ p st1 E1), <- (bare_is_check_move _ q st2 E2).
    apply (sim_is_check_move _ _ _ _ _ _ P).
  - intros V. rewrite <- (bare_legal_moves _ p st1 E1), <- (bare_legal_moves _ q st2 E2).
    apply (sim_legal_moves _ _ _ _ _ _ P); [apply rep_set_ply; exact R1|exact V].
Qed.
Print Assumptions C57_history_independent.

(** every such move is undone exactly *)
Theorem C57_undo_exact cf ms p m q : fair_play cf ms p -> fair (view cf p) m ->
  Yasai.do_move cf p m = Some q -> Yasai.undo_move cf q m = Some p.
Proof. intros F. exact (fair_undo cf _ p m q (fair_play_cached cf ms p F)). Qed.
Print Assumptions C57_undo_exact.

(** legal play is fair play *)
Theorem C57_legal_play cf ms p : reachable cf ms p -> fair_play cf ms p.
Proof. apply reachable_fair. Qed.
Print Assumptions C57_legal_play.

(** ** The conditions as tests *)

Definition checkedb (b : board) (c : color) : bool :=
  existsb (fun K => is_piece (b K) (mkP King c) &&
    existsb (fun s => match b s with
      | Some (mkP k d) => color_eqb d (flip c) && negb (is_king k) && reachb (occb b) (flip c) k s K
      | None => false end) all_squares) all_squares.
Lemma checkedb_spec b c : checkedb b c = true <-> checked b c.
Proof.
  unfold checkedb. rewrite existsb_exists. split.
  - intros [K [_ H]]. apply andb_true_iff in H as [BK H]. apply is_piece_spec in BK.
    apply existsb_exists in H as [s [_ H]]. destruct (b s) as [[k d]|] eqn:Bs; [|discriminate].
    rewrite !andb_true_iff in H. destruct H as [[H1 H2] H3].
    destruct (color_eqb_spec d (flip c)) as [->|]; [|discriminate].
    exists K, s, k. rewrite not_king_bool in H2. apply reachb_spec in H3. tauto.
  - intros [K [s [k [BK [Bs [N R]]]]]]. exists K. split; [apply all_squares_in|].
    rewrite (proj2 (is_piece_spec _ _) BK). cbn [andb]. apply existsb_exists. exists s.
    split; [apply all_squares_in|]. rewrite Bs, color_eqb_refl, (proj2 (not_king_bool k) N). cbn [andb].
    apply reachb_spec. assumption.
Qed.

Definition own (g : game) (f : square) : bool :=
  match g_board g f with Some x => color_eqb (pcolor x) (g_side g) | None => false end.
Definition clear (g : game) (f t : square) : bool :=
  forallb (fun s => negb (betweenb f s t) || negb (occb (g_board g) s)) all_squares.
Definition fairb (g : game) (m : move) : bool :=
  match m with
  | Normal f t _ => negb (sq_eqb f t) && own g f && clear g f t
  | Drop t x => negb (occb (g_board g) t) && color_eqb (pcolor x) (g_side g)
  end.
Lemma own_spec g f : own g f = true <-> exists k, g_board g f = Some (mkP k (g_side g)).
Proof.
  unfold own. destruct (g_board g f) as [[k c]|]; cbn [pcolor].
  - destruct (color_eqb_spec c (g_side g)) as [->|N]; split; try discriminate; eauto. intros [k' [= _ E]]. congruence.
  - split; [discriminate|]. intros [k E]. discriminate.
Qed.
Lemma clear_spec g f t : clear g f t = true <-> forall s, between f s t -> g_board g s = None.
Proof.
  unfold clear. rewrite forallb_forall. split.
  - intros H s Hs. apply between_spec in Hs. specialize (H s (all_squares_in s)). rewrite Hs in H. cbn [negb orb] in H.
    apply occb_false. apply negb_true_iff. assumption.
  - intros H s _. destruct (betweenb f s t) eqn:E; [|reflexivity]. cbn [negb orb]. apply negb_true_iff, occb_false.
    apply H. apply between_spec. assumption.
Qed.
Lemma fairb_spec g m : fairb g m = true <-> fair g m.
Proof.
  destruct m as [f t pr|t x]; cbn [fairb fair].
  - rewrite !andb_true_iff, own_spec, clear_spec.
    destruct (sq_eqb_spec f t) as [E|N]; cbn [negb]; intuition congruence.
  - rewrite andb_true_iff, negb_true_iff, occb_false.
    destruct (color_eqb_spec (pcolor x) (g_side g)); intuition congruence.
Qed.

Fixpoint fair_line (cf : config) (p : Yasai.Position cf) (l : list move) : option (Yasai.Position cf) :=
  match l with
  | [] => Some p
  | m :: l =>
      if negb (checkedb (Yasai.piece_at cf p) (flip (Yasai.side_to_move cf p))) && fairb (view cf p) m then
        match Yasai.do_move cf p m with Some q => fair_line cf q l | None => None end
      else None
  end.
Lemma fair_line_play cf l : forall ms p q, fair_play cf ms p -> fair_line cf p l = Some q ->
  fair_play cf (rev l ++ ms) q.
Proof.
  induction l as [|m l IH]; intros ms p q F E; cbn [fair_line] in E.
  - injection E as <-. assumption.
  - destruct (negb _ && _) eqn:C; [|discriminate]. apply andb_true_iff in C as [C1 C2].
    destruct (Yasai.do_move cf p m) as [p1|] eqn:D; [|discriminate].
    cbn [rev]. rewrite <- app_assoc. apply (IH (m :: ms) p1 q); [|exact E].
    apply (F_do cf ms p m p1 F); [|apply fairb_spec; assumption|exact D].
    intros H. apply checkedb_spec in H. rewrite H in C1. discriminate.
Qed.

(* from the start: two pawns go two and three ranks, the bishop checks, and
   White's king takes the gold beside it *)
Definition wild : list move :=
  [mv (n7, n7) (n7, n5) false; mv (n3, n3) (n3, n6) false; mv (n8, n8) (n3, n3) false].
Example C57_example b checks : exists p q, let cf := build b checks in
  fair_play cf (rev wild) p /\ Yasai.in_check cf p = Some true /\
  fair_play cf (mv (n5, n1) (n4, n1) false :: rev wild) q /\ Yasai.in_check cf q = Some false.
Proof.
  set (cf := build b checks).
  assert (H : match Yasai.new cf startpos with
    | Some p0 => match fair_line cf p0 wild with
       | Some p => match Yasai.in_check cf p, fair_line cf p [mv (n5, n1) (n4, n1) false] with
          | Some true, Some q => match Yasai.in_check cf q with Some r => negb r | None => false end
          | _, _ => false end
       | None => false end
    | None => false end = true) by (unfold cf; destruct b, checks; vm_compute; reflexivity).
  destruct (Yasai.new cf startpos) as [p0|] eqn:E0; [|discriminate].
  destruct (fair_line cf p0 wild) as [p|] eqn:E1; [|discriminate].
  destruct (Yasai.in_check cf p) as [[]|] eqn:E2; try discriminate.
  destruct (fair_line cf p _) as [q|] eqn:E3; [|discriminate].
  destruct (Yasai.in_check cf q) as [[]|] eqn:E4; try discriminate.
  assert (F0 : fair_play cf [] p0).
  { apply (F_new cf startpos); [|vm_compute; discriminate|exact E0].
    intros c s t. apply (kingsb_spec (game_of startpos)). vm_compute. reflexivity. }
  pose proof (fair_line_play cf wild [] p0 p F0 E1) as F1. rewrite app_nil_r in F1.
  pose proof (fair_line_play cf _ (rev wild) p q F1 E3) as F2.
  exists p, q. cbv zeta. tauto.
Qed.

(** ** No condition can be dropped *)

(* one move, after which in_check denies a check *)
Definition denied (cf : config) (p0 : Yasai.Position cf) (m : move) : bool :=
  match Yasai.do_move cf p0 m with
  | Some p => match Yasai.in_check cf p with
     | Some r => negb r && checkedb (Yasai.piece_at cf p) (Yasai.side_to_move cf p)
     | None => false end
  | None => false end.
Lemma denied_spec cf p0 m : denied cf p0 m = true -> exists p,
  Yasai.do_move cf p0 m = Some p /\ Yasai.in_check cf p = Some false /\
  checked (Yasai.piece_at cf p) (Yasai.side_to_move cf p).
Proof.
  unfold denied. intros H. destruct (Yasai.do_move cf p0 m) as [p|]; [|discriminate]. exists p.
  destruct (Yasai.in_check cf p) as [[]|] eqn:E; try discriminate. cbn [negb andb] in H.
  apply checkedb_spec in H. tauto.
Qed.

(* a gold shields the king from the rook and jumps back over the rook *)
Definition shield : partial := sfen "4k4/9/4G4/9/4R4/9/9/9/8K" Black "-".
Definition over_rook : move := mv (n5, n3) (n5, n7) false.
Theorem C57_jump_refuted b checks : exists p0 p, let cf := build b checks in
  fair_play cf [] p0 /\ ~ checked (Yasai.piece_at cf p0) (flip (Yasai.side_to_move cf p0)) /\
  (exists k, Yasai.piece_at cf p0 (Sq n5 n3) = Some (mkP k (Yasai.side_to_move cf p0))) /\
  Yasai.do_move cf p0 over_rook = Some p /\ Yasai.in_check cf p = Some false /\
  checked (Yasai.piece_at cf p) (Yasai.side_to_move cf p).
Proof.
  set (cf := build b checks).
  assert (H : match Yasai.new cf shield with
    | Some p0 => negb (checkedb (Yasai.piece_at cf p0) (flip (Yasai.side_to_move cf p0))) &&
        own (view cf p0) (Sq n5 n3) && denied cf p0 over_rook
    | None => false end = true) by (unfold cf; destruct b, checks; vm_compute; reflexivity).
  destruct (Yasai.new cf shield) as [p0|] eqn:E0; [|discriminate].
  rewrite !andb_true_iff in H. destruct H as [[H1 H2] H3].
  destruct (denied_spec cf p0 _ H3) as [p Hp]. exists p0, p. cbv zeta. fold cf.
  split.
  { apply (F_new cf shield); [|vm_compute; discriminate|exact E0].
    intros c s t. apply (kingsb_spec (game_of shield)). vm_compute. reflexivity. }
  split; [intros C; apply checkedb_spec in C; rewrite C in H1; discriminate|].
  split; [exact (proj1 (own_spec _ _) H2)|exact Hp].
Qed.
Print Assumptions C57_jump_refuted.

(* a rook that already gives check goes back along its file *)
Definition en_prise : partial := sfen "4k4/9/4R4/9/9/9/9/9/8K" Black "-".
Definition rook_back : move := mv (n5, n3) (n5, n7) false.
Theorem C57_en_prise_refuted b checks : exists p0 p, let cf := build b checks in
  fair_play cf [] p0 /\ fair (view cf p0) rook_back /\
  Yasai.do_move cf p0 rook_back = Some p /\ Yasai.in_check cf p = Some false /\
  checked (Yasai.piece_at cf p) (Yasai.side_to_move cf p).
Proof.
  set (cf := build b checks).
  assert (H : match Yasai.new cf en_prise with
    | Some p0 => fairb (view cf p0) rook_back && denied cf p0 rook_back
    | None => false end = true) by (unfold cf; destruct b, checks; vm_compute; reflexivity).
  destruct (Yasai.new cf en_prise) as [p0|] eqn:E0; [|discriminate].
  rewrite !andb_true_iff in H. destruct H as [H1 H2].
  destruct (denied_spec cf p0 _ H2) as [p Hp]. exists p0, p. cbv zeta. fold cf.
  split.
  { apply (F_new cf en_prise); [|vm_compute; discriminate|exact E0].
    intros c s t. apply (kingsb_spec (game_of en_prise)). vm_compute. reflexivity. }
  split; [apply fairb_spec; assumption|exact Hp].
Qed.
Print Assumptions C57_en_prise_refuted.

(* Black moves White's king onto the rook's file *)
Definition beside : partial := sfen "5k3/9/9/9/9/9/9/4R4/8K" Black "-".
Definition their_king : move := mv (n4, n1) (n5, n1) false.
Theorem C57_foreign_piece_refuted b checks : exists p0 p, let cf := build b checks in
  fair_play cf [] p0 /\ ~ checked (Yasai.piece_at cf p0) (flip (Yasai.side_to_move cf p0)) /\
  (forall s, between (Sq n4 n1) s (Sq n5 n1) -> Yasai.piece_at cf p0 s = None) /\
  Yasai.do_move cf p0 their_king = Some p /\ Yasai.in_check cf p = Some false /\
  checked (Yasai.piece_at cf p) (Yasai.side_to_move cf p).
Proof.
  set (cf := build b checks).
  assert (H : match Yasai.new cf beside with
    | Some p0 => negb (checkedb (Yasai.piece_at cf p0) (flip (Yasai.side_to_move cf p0))) &&
        clear (view cf p0) (Sq n4 n1) (Sq n5 n1) && denied cf p0 their_king
    | None => false end = true) by (unfold cf; destruct b, checks; vm_compute; reflexivity).
  destruct (Yasai.new cf beside) as [p0|] eqn:E0; [|discriminate].
  rewrite !andb_true_iff in H. destruct H as [[H1 H2] H3].
  destruct (denied_spec cf p0 _ H3) as [p Hp]. exists p0, p. cbv zeta. fold cf.
  split.
  { apply (F_new cf beside); [|vm_compute; discriminate|exact E0].
    intros c s t. apply (kingsb_spec (game_of beside)). vm_compute. reflexivity. }
  split; [intros C; apply checkedb_spec in C; rewrite C in H1; discriminate|].
  split; [exact (proj1 (clear_spec (view cf p0) _ _) H2)|exact Hp].
Qed.
Print Assumptions C57_foreign_piece_refuted.

(* two White kings, of which the rook attacks the second in square order *)
Definition two_kings : partial := sfen "4k3k/9/9/9/9/9/9/4R4/8K" White "-".
Theorem C57_two_kings_refuted b checks : exists p, let cf := build b checks in
  Yasai.new cf two_kings = Some p /\ Yasai.in_check cf p = Some false /\
  checked (Yasai.piece_at cf p) (Yasai.side_to_move cf p).
Proof.
  set (cf := build b checks).
  assert (H : match Yasai.new cf two_kings with
    | Some p => match Yasai.in_check cf p with
       | Some r => negb r && checkedb (Yasai.piece_at cf p) (Yasai.side_to_move cf p)
       | None => false end
    | None => false end = true) by (unfold cf; destruct b, checks; vm_compute; reflexivity).
  destruct (Yasai.new cf two_kings) as [p|] eqn:E0; [|discriminate].
  destruct (Yasai.in_check cf p) as [[]|] eqn:E; try discriminate. cbn [negb andb] in H.
  exists p. cbv zeta. fold cf. split; [exact E0|]. split; [exact E|]. apply checkedb_spec. exact H.
Qed.
Print Assumptions C57_two_kings_refuted.
