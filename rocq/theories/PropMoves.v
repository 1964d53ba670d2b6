(** * Properties of legal_moves

    C01-C06, C17-C19, C25-C27 and C32 of properties.jsonl.  [reachable cf ms p]
    (Api.v) ranges over every build, every valid start position and every
    sequence of legal do_move and matching undo_move calls. *)

From Coq Require Import String List Bool NArith ZArith Lia Permutation.
From Verif Require Import Types Rules Bitboard BackendCore BackendSimd Tables Zobrist Position Movegen
  Api Sfen BBSpec Backends Squares Hash KingSafety Legality Loops ValidPlay Moves Reach Decide Capacity Overflow Lines Twins Consequences Facts Witness.
Import ListNotations.

(** C01 *)
Theorem C01_legal_moves_sound cf ms p l :
  reachable cf ms p -> Yasai.legal_moves cf p = Some l ->
  forall m, In m l -> legal (view cf p) m.
Proof. intros R E m. apply (api_legal_moves cf ms p l R E). Qed.
Print Assumptions C01_legal_moves_sound.

(* after a promotion, a recapture and a drop that gives check *)
Example C01_example cf : exists p l,
  reachable cf (rev opening) p /\ Yasai.legal_moves cf p = Some l /\
  In (mv (n2, n2) (n3, n3) false) l /\ ~ In (mv (n8, n3) (n8, n4) false) l.
Proof.
  destruct (demo cf startpos opening opening_ok) as [p [l [R [G [_ E]]]]]. exists p, l.
  split; [assumption|]. split; [assumption|].
  destruct (api_legal_moves cf _ p l R E) as [_ H]. split.
  - apply H. apply (demo_legal cf p _ _ G). vm_compute. reflexivity.
  - rewrite H. apply (demo_illegal cf p _ _ G). vm_compute. reflexivity.
Qed.

(** C02 *)
Theorem C02_legal_moves_complete cf ms p l :
  reachable cf ms p -> Yasai.legal_moves cf p = Some l ->
  forall m, legal (view cf p) m -> In m l.
Proof. intros R E m. apply (api_legal_moves cf ms p l R E). Qed.
Print Assumptions C02_legal_moves_complete.

Example C02_example cf : exists p l,
  reachable cf (rev opening4) p /\ Yasai.legal_moves cf p = Some l /\
  legal (view cf p) (dr (n3, n3) Bishop Black).
Proof.
  destruct (demo cf startpos opening4 opening4_ok) as [p [l [R [G [_ E]]]]]. exists p, l.
  split; [assumption|]. split; [assumption|]. apply (demo_legal cf p _ _ G). vm_compute. reflexivity.
Qed.

(** C03 *)
Theorem C03_legal_moves_no_duplicates cf ms p l :
  reachable cf ms p -> Yasai.legal_moves cf p = Some l -> NoDup l.
Proof. intros R E. apply (api_legal_moves cf ms p l R E). Qed.
Print Assumptions C03_legal_moves_no_duplicates.

(* the length is the number of legal moves, however they are enumerated *)
Theorem C03_length cf ms p l L :
  reachable cf ms p -> Yasai.legal_moves cf p = Some l ->
  NoDup L -> (forall m, In m L <-> legal (view cf p) m) -> length l = length L.
Proof.
  intros R E N H. destruct (api_legal_moves cf ms p l R E) as [N' H'].
  apply Permutation_length. apply NoDup_Permutation; [assumption..|]. intros m. rewrite H, H'.
  reflexivity.
Qed.
Print Assumptions C03_length.

(* the hypotheses of C03_length can be met: the legal moves can be listed *)
Example C03_example cf : exists p l L,
  reachable cf (rev opening) p /\ Yasai.legal_moves cf p = Some l /\
  NoDup L /\ (forall m, In m L <-> legal (view cf p) m) /\ L <> [].
Proof.
  destruct (demo cf startpos opening opening_ok) as [p [l [R [G [_ E]]]]]. exists p, l, l.
  destruct (api_legal_moves cf _ p l R E) as [N H]. repeat (split; [assumption|]).
  assert (I : In (mv (n2, n2) (n3, n3) false) l).
  { apply H. apply (demo_legal cf p _ _ G). vm_compute. reflexivity. }
  destruct l; [destruct I|discriminate].
Qed.

(** C04: a pawn drop that obeys every other rule is left out exactly when it
    gives check and the opponent then has no legal reply. *)
Theorem C04_pawn_drop_mate_exact cf ms p l t :
  reachable cf ms p -> Yasai.legal_moves cf p = Some l ->
  let g := view cf p in
  let m := Drop t (mkP Pawn (g_side g)) in
  (0 < g_hand g (g_side g) Pawn)%N ->
  g_board g t = None ->
  ~ dead_square (g_side g) Pawn t ->
  (forall s, g_board g s = Some (mkP Pawn (g_side g)) -> fileZ s <> fileZ t) ->
  ~ in_check (g_board (play g m)) (g_side g) ->
  (~ In m l <->
   in_check (g_board (play g m)) (flip (g_side g)) /\ forall r, ~ legal (play g m) r).
Proof.
  intros R E g m H1 H2 H3 H4 H5.
  assert (P : pseudo_legal g m) by (cbn; tauto).
  rewrite (proj2 (api_legal_moves cf ms p l R E) m).
  pose proof (pawn_drop_reply g t (reach_valid cf ms p R) P) as D. cbv zeta in D. fold m in D.
  rewrite <- D. clear D. unfold legal.
  change (is_pawn_drop m) with (Pawn = Pawn). fold g.
  split; [|tauto]. intros N. destruct (checkmatedb (play g m)) eqn:C.
  - apply checkmatedb_spec. assumption.
  - exfalso. apply N. split; [assumption|]. split; [assumption|]. intros [_ D].
    apply checkmatedb_spec in D. congruence.
Qed.
Print Assumptions C04_pawn_drop_mate_exact.

(* a drop on 1d that mates and is left out, and one that does not *)
Example C04_example cf :
  (exists p l, reachable cf [] p /\ Yasai.legal_moves cf p = Some l /\
     pseudo_legal (view cf p) (dr (n1, n4) Pawn Black) /\
     ~ in_check (g_board (play (view cf p) (dr (n1, n4) Pawn Black))) Black /\
     ~ In (dr (n1, n4) Pawn Black) l) /\
  (exists p l, reachable cf [] p /\ Yasai.legal_moves cf p = Some l /\
     in_check (g_board (play (view cf p) (dr (n1, n4) Pawn Black))) White /\
     In (dr (n1, n4) Pawn Black) l).
Proof.
  split.
  - destruct (demo_new cf drop_mate drop_mate_ok) as [p [l [_ [R [G [_ E]]]]]]. exists p, l.
    split; [assumption|]. split; [assumption|].
    rewrite (proj2 (api_legal_moves cf _ p l R E)), G.
    split; [apply pseudo_legalb_spec; vm_compute; reflexivity|]. split.
    + rewrite <- in_checkb_spec. vm_compute. discriminate.
    + rewrite <- legalb_spec. vm_compute. discriminate.
  - destruct (demo_new cf drop_no_mate drop_no_mate_ok) as [p [l [_ [R [G [_ E]]]]]]. exists p, l.
    split; [assumption|]. split; [assumption|].
    rewrite (proj2 (api_legal_moves cf _ p l R E)), G.
    split; [apply in_checkb_spec|apply legalb_spec]; vm_compute; reflexivity.
Qed.

(** C05 *)
Theorem C05_no_doubled_pawns cf ms p l t c :
  reachable cf ms p -> Yasai.legal_moves cf p = Some l ->
  In (Drop t (mkP Pawn c)) l ->
  c = Yasai.side_to_move cf p /\
  forall s, fileZ s = fileZ t -> Yasai.piece_at cf p s <> Some (mkP Pawn c).
Proof.
  intros R E I. apply (api_legal_moves cf ms p l R E) in I as [[H1 [_ [_ [_ H5]]]] _].
  cbn [pcolor pkind] in *. split; [exact H1|]. intros s F B. rewrite H1 in B.
  exact (H5 eq_refl s B F).
Qed.
Print Assumptions C05_no_doubled_pawns.

(* the bit trick: the result has exactly the files without a member, if no file
   with a member on rank 9 has another *)
Theorem C05_vacant_files b checks (a : bb (ops_of b checks)) :
  on_board b checks a ->
  (forall s t, bcontains _ a s = true -> bcontains _ a t = true -> fileZ s = fileZ t -> rankZ s = 9%Z -> s = t) ->
  exists v, bvacant _ a = Some v /\ on_board b checks v /\
    forall t, bcontains _ v t = true <-> forall s, fileZ s = fileZ t -> bcontains _ a s = false.
Proof.
  intros W U. apply on_board_wf in W.
  destruct (sp_vacant _ (backend_spec b checks) a W) as [v [E [Wv H]]].
  { intros s t Hs Ht F F9. apply U; [assumption..|unfold fileZ; rewrite F; reflexivity|].
    unfold rankZ. rewrite F9. reflexivity. }
  exists v. split; [assumption|]. split; [apply on_board_wf; assumption|].
  intros t. rewrite H, negb_true_iff. split.
  - intros X s F. destruct (bcontains _ a s) eqn:C; [|reflexivity]. exfalso.
    assert (Y : existsb (fun s => bcontains _ a s && i9_eqb (sqf s) (sqf t)) all_squares = true);
      [|congruence].
    apply existsb_exists. exists s. split; [apply Squares.all_squares_in|]. rewrite C. cbn [andb].
    unfold fileZ in F. apply Geometry.i9Z_inj in F. rewrite F. destruct (sqf t); reflexivity.
  - intros X. destruct (existsb _ _) eqn:C; [|reflexivity]. exfalso.
    apply existsb_exists in C as [s [_ C]]. apply andb_true_iff in C as [C1 C2].
    rewrite X in C1; [discriminate|]. unfold fileZ.
    destruct (Squares.i9_eqb_spec (sqf s) (sqf t)) as [F|]; [rewrite F; reflexivity|discriminate].
Qed.
Print Assumptions C05_vacant_files.

(* a pawn drop that is listed; the bitboard of the squares 1a, 3i and 9e *)
Example C05_example cf : exists p l, reachable cf [] p /\ Yasai.legal_moves cf p = Some l /\
  In (dr (n1, n4) Pawn Black) l.
Proof.
  destruct (demo_new cf drop_no_mate drop_no_mate_ok) as [p [l [_ [R [G [_ E]]]]]]. exists p, l.
  split; [assumption|]. split; [assumption|].
  rewrite (proj2 (api_legal_moves cf _ p l R E)), G. apply legalb_spec. vm_compute. reflexivity.
Qed.
Example C05_example_files b checks :
  let o := ops_of b checks in
  let a := bor o (bsingle o (Sq n1 n1)) (bor o (bsingle o (Sq n3 n9)) (bsingle o (Sq n9 n5))) in
  on_board b checks a /\
  (forall s t, bcontains o a s = true -> bcontains o a t = true -> fileZ s = fileZ t -> rankZ s = 9%Z -> s = t).
Proof.
  intros o a. split.
  - apply on_board_wf. pose proof (backend_spec b checks) as Sp.
    repeat apply (sp_wf_or _ (backend_spec b checks)); apply sp_wf_single.
  - intros s t. unfold a, o. rewrite !(sp_or _ (backend_spec b checks)).
    rewrite !(sp_single _ (backend_spec b checks)).
    destruct (Squares.sq_eqb_spec s (Sq n1 n1)) as [E1|E1], (Squares.sq_eqb_spec s (Sq n3 n9)) as [E2|E2],
      (Squares.sq_eqb_spec s (Sq n9 n5)) as [E3|E3], (Squares.sq_eqb_spec t (Sq n1 n1)) as [E4|E4],
      (Squares.sq_eqb_spec t (Sq n3 n9)) as [E5|E5], (Squares.sq_eqb_spec t (Sq n9 n5)) as [E6|E6];
      cbn; intros; subst; congruence || discriminate.
Qed.

(** C06 *)
Theorem C06_promotion_choices cf ms p l f t pr k :
  reachable cf ms p -> Yasai.legal_moves cf p = Some l ->
  In (Normal f t pr) l ->
  let c := Yasai.side_to_move cf p in
  Yasai.piece_at cf p f = Some (mkP k c) ->
  (In (Normal f t true) l <->
     promote_kind k <> None /\ (promotion_zone c f \/ promotion_zone c t)) /\
  (In (Normal f t false) l <-> ~ dead_square c k t).
Proof.
  intros R E I c B. pose proof (proj2 (api_legal_moves cf ms p l R E)) as H. rewrite !H in *.
  exact (promotion_choice (view cf p) f t pr k I B).
Qed.
Print Assumptions C06_promotion_choices.

(* the bishop on 8h takes on 2b, promoting or not *)
Example C06_example cf : exists p l, reachable cf (rev opening2) p /\
  Yasai.legal_moves cf p = Some l /\
  In (mv (n8, n8) (n2, n2) true) l /\ In (mv (n8, n8) (n2, n2) false) l /\
  Yasai.piece_at cf p (Sq n8 n8) = Some (mkP Bishop (Yasai.side_to_move cf p)).
Proof.
  destruct (demo cf startpos opening2 opening2_ok) as [p [l [R [G [_ E]]]]]. exists p, l.
  split; [assumption|]. split; [assumption|]. rewrite !(proj2 (api_legal_moves cf _ p l R E)).
  split; [|split]; [apply (demo_legal cf p _ _ G); vm_compute; reflexivity..|].
  destruct G as [B [_ Sd]]. cbn [view g_board g_side] in *. rewrite B, Sd. reflexivity.
Qed.

(** C17 *)
Theorem C17_buffer_never_overflows cf ms p :
  reachable cf ms p -> standard_material (view cf p) -> opponent_has_king (view cf p) ->
  exists l, Yasai.legal_moves cf p = Some l.
Proof. exact (api_legal_moves_total cf ms p). Qed.
Print Assumptions C17_buffer_never_overflows.

(* no list of distinct pseudo-legal moves is longer than the buffer *)
Theorem C17_bound cf ms p l :
  reachable cf ms p -> standard_material (view cf p) -> opponent_has_king (view cf p) ->
  NoDup l -> (forall m, In m l -> pseudo_legal (view cf p) m) -> (length l <= 593)%nat.
Proof.
  intros R M [K BK] N H. apply (pseudo_legal_bound (view cf p)) with (K := K); try assumption.
  - exact (reach_valid cf ms p R).
  - apply reach_hand_ok.
Qed.
Print Assumptions C17_bound.

(* the bound is reached: movegen.rs 450-467 *)
Definition max_cfg := mkCfg X86_64 true (fun i => i).
Lemma max593_count : match Yasai.new max_cfg max593 with
  | Some p => match Yasai.legal_moves max_cfg p with Some l => (length l =? 593)%nat | None => false end
  | None => false end = true.
Proof. vm_compute. reflexivity. Qed.
Example C17_example cf : exists p l, reachable cf [] p /\ standard_material (view cf p) /\ opponent_has_king (view cf p) /\
  Yasai.legal_moves cf p = Some l /\ length l = 593%nat.
Proof.
  destruct (demo cf max593 [] max593_ok) as [p [l [R [G [O E]]]]].
  destruct (demo_new max_cfg max593 max593_ok) as [p0 [l0 [N0 [R0 [G0 [_ E0]]]]]].
  exists p, l. split; [assumption|]. split; [exact (demo_standard cf _ _ p max593_ok G)|].
  repeat (split; [assumption|]).
  assert (l = l0).
  { destruct (same_answers cf max_cfg _ _ p p0 R R0) as [A _]; [|congruence].
    rewrite G0. exact G. }
  subst l0. pose proof max593_count as C. rewrite N0, E0 in C. apply Nat.eqb_eq. assumption.
Qed.

(* more than a standard set of pieces is too much, also with both kings *)
Definition eight_rooks := sfen "8k/R8/1R7/2R6/3R5/4R4/5R3/6R2/K6R1" Black "RBGSNLP".
Lemma eight_rooks_panics : match Yasai.new max_cfg eight_rooks with
  | Some p => match Yasai.legal_moves max_cfg p with Some _ => false | None => true end
  | None => false end = true.
Proof. vm_compute. reflexivity. Qed.
Lemma eight_rooks_valid : validb (game_of eight_rooks) = true.
Proof. vm_compute. reflexivity. Qed.
Theorem C17_any_material_refuted cf :
  exists p, reachable cf [] p /\
  (forall c, exists s, Yasai.piece_at cf p s = Some (mkP King c)) /\ Yasai.legal_moves cf p = None.
Proof.
  pose proof eight_rooks_valid as V. apply validb_spec in V.
  assert (P : (pp_ply eight_rooks <= 65535)%N) by (vm_compute; discriminate).
  assert (F : hands_fit (g_hand (game_of eight_rooks))).
  { intros [] [] _; vm_compute; discriminate. }
  pose proof (new_some cf eight_rooks F) as E. pose proof (new_some max_cfg eight_rooks F) as E0.
  match type of E with _ = Some ?x => set (p := x) in * end.
  match type of E0 with _ = Some ?x => set (p0 := x) in * end.
  pose proof (R_new cf eight_rooks p V P E) as R. pose proof (R_new max_cfg eight_rooks p0 V P E0) as R0.
  exists p. split; [exact R|]. split.
  - change (Yasai.piece_at cf p) with (g_board (game_of eight_rooks)).
    intros []; [exists (Sq n9 n9)|exists (Sq n1 n1)]; vm_compute; reflexivity.
  - destruct (same_answers cf max_cfg _ _ p p0 R R0) as [-> _]; [apply same_refl|].
    pose proof eight_rooks_panics as C. rewrite E0 in C.
    destruct (Yasai.legal_moves max_cfg p0); [discriminate|reflexivity].
Qed.
Print Assumptions C17_any_material_refuted.

(** C18: the claim is false.  Without an opposing king 599 moves can be
    generated, and the buffer of 593 overflows, in every build. *)
Lemma max599_panics : match Yasai.new max_cfg max599 with
  | Some p => match Yasai.legal_moves max_cfg p with Some _ => false | None => true end
  | None => false end = true.
Proof. vm_compute. reflexivity. Qed.
Lemma max599_start : validb (game_of max599) && standardb (game_of max599) = true.
Proof. vm_compute. reflexivity. Qed.
Theorem C18_legal_moves_total_refuted cf :
  exists p, reachable cf [] p /\ standard_material (view cf p) /\ Yasai.legal_moves cf p = None.
Proof.
  pose proof max599_start as H. apply andb_true_iff in H as [H1 H2].
  apply validb_spec in H1. apply standardb_spec in H2.
  assert (P : (pp_ply max599 <= 65535)%N) by (vm_compute; discriminate).
  destruct (start_reachable cf max599 H1 H2 P) as [p [N [R [G _]]]].
  destruct (start_reachable max_cfg max599 H1 H2 P) as [p0 [N0 [R0 [G0 _]]]].
  exists p. split; [assumption|]. split; [rewrite G; exact H2|].
  destruct (same_answers cf max_cfg _ _ p p0 R R0) as [-> _].
  { rewrite G, G0. apply same_refl. }
  pose proof max599_panics as C. rewrite N0 in C.
  destruct (Yasai.legal_moves max_cfg p0); [discriminate|reflexivity].
Qed.
Print Assumptions C18_legal_moves_total_refuted.

(* what does hold: the buffer overflows exactly when the side to move is not
   in check and more than 593 different moves are generated, which are the
   pseudo-legal moves other than mating pawn drops *)
Theorem C18_panics_exactly cf ms p : reachable cf ms p ->
  (Yasai.legal_moves cf p = None <->
   ~ in_check (Yasai.piece_at cf p) (Yasai.side_to_move cf p) /\
   exists l, NoDup l /\ length l = 594%nat /\
     forall m, In m l -> pseudo_legal (view cf p) m /\
       ~ (is_pawn_drop m /\ checkmated (play (view cf p) m))).
Proof.
  intros R. destruct (reachable_inv cf ms p R) as [st [I _]].
  exact (legal_moves_none _ _ p st (inv_rep _ _ _ _ I) (inv_valid _ _ _ _ I)
    (inv_st _ _ _ _ I) (inv_ai _ _ _ _ I)).
Qed.
Print Assumptions C18_panics_exactly.

(* never in check, whatever the material and the kings *)
Theorem C18_in_check_total cf ms p : reachable cf ms p ->
  in_check (Yasai.piece_at cf p) (Yasai.side_to_move cf p) ->
  exists l, Yasai.legal_moves cf p = Some l.
Proof.
  intros R C. destruct (Yasai.legal_moves cf p) as [l|] eqn:E; [eauto|exfalso].
  apply (C18_panics_exactly cf ms p R) in E. tauto.
Qed.
Print Assumptions C18_in_check_total.

(* there are at most 322 then *)
Theorem C18_evasions cf ms p l : reachable cf ms p ->
  in_check (Yasai.piece_at cf p) (Yasai.side_to_move cf p) ->
  Yasai.legal_moves cf p = Some l -> (length l <= 322)%nat.
Proof.
  intros R [K [BK A]] E. destruct (api_legal_moves cf ms p l R E) as [ND H].
  change (Yasai.piece_at cf p) with (g_board (view cf p)) in *.
  change (Yasai.side_to_move cf p) with (g_side (view cf p)) in *.
  apply attacked_att in A as [s A].
  apply (evasion_bound (view cf p) s K l (reach_hand_ok cf p) ND).
  - intros m I. apply H in I. apply I.
  - intros t pr I. apply H in I as [[k [Bk [_ [_ Pr]]]] _]. destruct pr; [|reflexivity].
    assert (k = King) by congruence. subst k. cbn in Pr. tauto.
  - intros f t pr I N. apply H in I. exact (blocks_normal (view cf p) K s f t pr (reach_valid cf ms p R) BK A N I).
  - intros t x I. apply H in I. exact (blocks_drop (view cf p) K s t x (reach_valid cf ms p R) (reach_hand_ok cf p) BK A I).
Qed.
Print Assumptions C18_evasions.

(* a buffer of 599 moves would do for every position *)
Theorem C18_bound cf ms p l : reachable cf ms p -> standard_material (view cf p) ->
  NoDup l -> (forall m, In m l -> pseudo_legal (view cf p) m) -> (length l <= 599)%nat.
Proof.
  intros R M N H. apply (pseudo_legal_bound_any (view cf p)); try assumption.
  - exact (reach_valid cf ms p R).
  - apply reach_hand_ok.
Qed.
Print Assumptions C18_bound.

(* a check by a rook, with every kind in hand and no opposing king *)
Definition checked_alone := sfen "4r4/9/9/9/9/9/9/9/4K4" Black "RBGSNLP".
Lemma checked_alone_ok : validb (game_of checked_alone) && standardb (game_of checked_alone) &&
  in_checkb (g_board (game_of checked_alone)) Black &&
  negb (existsb (fun s => is_piece (g_board (game_of checked_alone) s) (mkP King White)) all_squares) = true.
Proof. vm_compute. reflexivity. Qed.
Example C18_example cf : exists p, reachable cf [] p /\ standard_material (view cf p) /\
  in_check (Yasai.piece_at cf p) (Yasai.side_to_move cf p) /\ ~ opponent_has_king (view cf p).
Proof.
  pose proof checked_alone_ok as H. rewrite !andb_true_iff, negb_true_iff in H.
  destruct H as [[[H1 H2] H3] H4]. apply validb_spec in H1. apply standardb_spec in H2.
  assert (P : (pp_ply checked_alone <= 65535)%N) by (vm_compute; discriminate).
  destruct (start_reachable cf checked_alone H1 H2 P) as [p [N [R [G _]]]].
  exists p. split; [assumption|]. split; [rewrite G; exact H2|]. split.
  - change (in_check (g_board (view cf p)) (g_side (view cf p))). rewrite G.
    apply in_checkb_spec. exact H3.
  - rewrite G. intros [s E]. change (flip (g_side (game_of checked_alone))) with White in E.
    assert (T : existsb (fun s => is_piece (g_board (game_of checked_alone) s) (mkP King White))
      all_squares = true); [|congruence].
    apply existsb_exists. exists s. split; [apply all_squares_in|]. apply is_piece_spec. exact E.
Qed.

(** C19 *)
Theorem C19_no_king_capture cf ms p l f t pr c :
  reachable cf ms p -> Yasai.legal_moves cf p = Some l ->
  In (Normal f t pr) l -> Yasai.piece_at cf p t <> Some (mkP King c).
Proof.
  intros R E I. apply (api_legal_moves cf ms p l R E) in I.
  exact (no_king_capture (view cf p) f t pr c (reach_valid cf ms p R) (proj1 I)).
Qed.
Print Assumptions C19_no_king_capture.

Theorem C19_kings_stay cf ms p q l c :
  reachable cf ms p -> legal_line (view cf p) l -> do_line cf p l = Some q ->
  (exists s, Yasai.piece_at cf p s = Some (mkP King c)) ->
  exists s, Yasai.piece_at cf q s = Some (mkP King c).
Proof.
  intros R L D K. destruct (do_line_spec cf l ms p q R L D) as [_ [[B _] _]].
  destruct (kings_persist l (view cf p) c (reach_valid cf ms p R) (reach_hand_ok cf p) L K) as [s H].
  exists s. cbn [view g_board] in B. rewrite B. assumption.
Qed.
Print Assumptions C19_kings_stay.

Example C19_example cf : exists p q l, reachable cf [] p /\ Yasai.legal_moves cf p = Some l /\
  In (mv (n7, n7) (n7, n6) false) l /\
  legal_line (view cf p) opening /\ do_line cf p opening = Some q /\
  forall c, exists s, Yasai.piece_at cf p s = Some (mkP King c).
Proof.
  destruct (demo_new cf startpos startpos_ok) as [p [l [_ [R [G [Y E]]]]]].
  assert (L : legal_line (view cf p) opening).
  { rewrite G. apply legal_lineb_spec. vm_compute. reflexivity. }
  destruct (do_line_total cf opening [] p R (demo_std cf _ p startpos_ok G) L) as [q D].
  { right. rewrite Y. vm_compute. discriminate. }
  exists p, q, l. repeat (split; [assumption|]). split.
  - rewrite (proj2 (api_legal_moves cf _ p l R E)), G. apply legalb_spec. vm_compute. reflexivity.
  - split; [assumption|]. split; [assumption|]. intros c.
    change (Yasai.piece_at cf p) with (g_board (view cf p)). rewrite G.
    destruct c; [exists (Sq n5 n9)|exists (Sq n5 n1)]; reflexivity.
Qed.

(** C25 *)
Theorem C25_filter_loop (f : move -> bool) (l : list move) :
  exists r, filter_loop (length l) f 0 l = Some r /\ Permutation r (filter f l).
Proof. exact (filter_loop_spec f (length l) l (le_n _)). Qed.
Print Assumptions C25_filter_loop.

(* the order is changed, the moves are the same *)
Example C25_example :
  let l := [mv (n1, n1) (n1, n2) false; mv (n2, n1) (n1, n2) false; mv (n3, n1) (n1, n2) false;
            mv (n4, n1) (n1, n2) false] in
  filter_loop 4 (fun m => negb (sq_eqb (move_to m) (Sq n1 n2)) ||
                          match move_from m with Some s => i9_eqb (sqf s) n3 || i9_eqb (sqf s) n4
                                               | None => false end) 0 l
  = Some [mv (n4, n1) (n1, n2) false; mv (n3, n1) (n1, n2) false].
Proof. vm_compute. reflexivity. Qed.

(** C26 *)
Theorem C26_empty_iff_no_legal_move cf ms p l :
  reachable cf ms p -> Yasai.legal_moves cf p = Some l ->
  (l = [] <-> forall m, ~ legal (view cf p) m).
Proof.
  intros R E. pose proof (proj2 (api_legal_moves cf ms p l R E)) as H. split.
  - intros -> m L. apply H in L. exact L.
  - intros N. destruct l as [|m l]; [reflexivity|]. exfalso. apply (N m). apply H. left. reflexivity.
Qed.
Print Assumptions C26_empty_iff_no_legal_move.

Theorem C26_decides_mate cf ms p l b :
  reachable cf ms p -> Yasai.legal_moves cf p = Some l -> Yasai.in_check cf p = Some b ->
  (l = [] /\ b = true <->
   in_check (g_board (view cf p)) (g_side (view cf p)) /\ forall m, ~ legal (view cf p) m).
Proof.
  intros R E B. rewrite (C26_empty_iff_no_legal_move cf ms p l R E).
  destruct (api_in_check cf ms p R) as [b' [B' H]]. rewrite B in B'. injection B' as <-.
  rewrite H. change (in_check (g_board (view cf p)) (g_side (view cf p)))
    with (in_check (piece_at (ops cf) p) (side_to_move (ops cf) p)). tauto.
Qed.
Print Assumptions C26_decides_mate.

(* [checkmated] asks that no move, pawn-drop mates included, gets out of check;
   the two notions differ only when every way out is such a drop *)
Theorem C26_checkmated cf ms p l :
  reachable cf ms p -> Yasai.legal_moves cf p = Some l ->
  (checkmated (view cf p) -> l = [] /\ Yasai.in_check cf p = Some true) /\
  (l = [] -> Yasai.in_check cf p = Some true ->
   checkmated (view cf p) \/
   exists m, is_pawn_drop m /\ pseudo_legal (view cf p) m /\
     ~ in_check (g_board (play (view cf p) m)) (g_side (view cf p)) /\ checkmated (play (view cf p) m)).
Proof.
  intros R E. destruct (api_in_check cf ms p R) as [b [B H]].
  pose proof (C26_decides_mate cf ms p l b R E B) as D. split.
  - intros C. assert (X : l = [] /\ b = true).
    { apply D. split; [exact (proj1 C)|]. intros m. apply checkmated_no_legal. assumption. }
    destruct X as [-> ->]. split; [reflexivity|assumption].
  - intros Z Y. rewrite B in Y. injection Y as ->. destruct D as [D _].
    destruct (D (conj Z eq_refl)) as [C N]. apply no_legal_checkmated; assumption.
Qed.
Print Assumptions C26_checkmated.

Example C26_example cf : exists p, reachable cf [] p /\
  Yasai.legal_moves cf p = Some [] /\ Yasai.in_check cf p = Some true /\ checkmated (view cf p).
Proof.
  destruct (demo_new cf mated mated_ok) as [p [l [_ [R [G [_ E]]]]]].
  assert (C : checkmated (view cf p)).
  { rewrite G. apply checkmatedb_spec. vm_compute. reflexivity. }
  destruct (proj1 (C26_checkmated cf _ p l R E) C) as [-> I].
  exists p. tauto.
Qed.

(** C27 *)
Theorem C27_double_check cf ms p l K s1 s2 m :
  reachable cf ms p -> Yasai.legal_moves cf p = Some l ->
  let b := Yasai.piece_at cf p in
  let c := Yasai.side_to_move cf p in
  b K = Some (mkP King c) ->
  attacks b (flip c) s1 K -> attacks b (flip c) s2 K -> s1 <> s2 ->
  In m l -> exists t pr, m = Normal K t pr.
Proof.
  intros R E b c BK A1 A2 N I. apply (api_legal_moves cf ms p l R E) in I.
  pose proof (double_check (view cf p) m K s1 s2 I BK A1 A2 N) as M.
  destruct m as [f t pr|]; [|destruct M]. destruct M as [d Bf].
  destruct I as [[k [Bf' _]] _]. rewrite Bf in Bf'. injection Bf' as <- ->.
  exists t, pr. rewrite (v_king _ (reach_valid cf ms p R) c f K Bf BK). reflexivity.
Qed.
Print Assumptions C27_double_check.

Theorem C27_single_check cf ms p l K s m :
  reachable cf ms p -> Yasai.legal_moves cf p = Some l ->
  let b := Yasai.piece_at cf p in
  let c := Yasai.side_to_move cf p in
  b K = Some (mkP King c) ->
  attacks b (flip c) s K ->
  In m l -> move_from m <> Some K ->
  move_to m = s \/ between s (move_to m) K.
Proof.
  intros R E b c BK A I F. apply (api_legal_moves cf ms p l R E) in I.
  apply (evasion (view cf p) m K s I BK); [|assumption].
  destruct m as [f t pr|]; [|tauto]. intros [d Bf]. apply F. cbn.
  destruct I as [[k [Bf' _]] _]. rewrite Bf in Bf'. injection Bf' as <- ->.
  rewrite (v_king _ (reach_valid cf ms p R) c f K Bf BK). reflexivity.
Qed.
Print Assumptions C27_single_check.

Example C27_example_double cf : exists p l, reachable cf [] p /\ Yasai.legal_moves cf p = Some l /\
  attacks (Yasai.piece_at cf p) White (Sq n5 n1) (Sq n5 n9) /\
  attacks (Yasai.piece_at cf p) White (Sq n4 n7) (Sq n5 n9) /\
  In (mv (n5, n9) (n4, n9) false) l.
Proof.
  destruct (demo_new cf double double_ok) as [p [l [_ [R [G [_ E]]]]]]. exists p, l.
  split; [assumption|]. split; [assumption|]. rewrite (proj2 (api_legal_moves cf _ p l R E)).
  change (Yasai.piece_at cf p) with (g_board (view cf p)). rewrite G, !attacks_att.
  split; [|split]; [apply attb_spec; vm_compute; reflexivity..|].
  apply legalb_spec. vm_compute. reflexivity.
Qed.
Example C27_example_single cf : exists p l, reachable cf [] p /\ Yasai.legal_moves cf p = Some l /\
  attacks (Yasai.piece_at cf p) White (Sq n5 n1) (Sq n5 n9) /\
  In (dr (n5, n4) Gold Black) l /\ ~ In (dr (n4, n4) Gold Black) l.
Proof.
  destruct (demo_new cf single single_ok) as [p [l [_ [R [G [_ E]]]]]]. exists p, l.
  split; [assumption|]. split; [assumption|]. rewrite !(proj2 (api_legal_moves cf _ p l R E)).
  change (Yasai.piece_at cf p) with (g_board (view cf p)). rewrite G, !attacks_att.
  split; [apply attb_spec; vm_compute; reflexivity|]. rewrite <- !legalb_spec.
  split; vm_compute; [reflexivity|discriminate].
Qed.

(** C32 *)
Theorem C32_pinned cf ms p l f t pr K s :
  reachable cf ms p -> Yasai.legal_moves cf p = Some l ->
  let b := Yasai.piece_at cf p in
  let c := Yasai.side_to_move cf p in
  b K = Some (mkP King c) ->
  (* [f] stands between the king and [s], and is all that stops the attack *)
  between K f s -> attacks (upd b f None) (flip c) s K ->
  In (Normal f t pr) l ->
  t = s \/ between K t s.
Proof.
  intros R E b c BK B A I. apply (api_legal_moves cf ms p l R E) in I.
  apply (pinned_move (view cf p) (reach_valid cf ms p R) f t pr K s I BK); [|assumption..].
  intros ->. apply between_spec in B. unfold Geometry.betweenb in B.
  unfold Geometry.dirof at 2 in B. rewrite !Z.sub_diag in B.
  destruct (Geometry.dirof K s); discriminate.
Qed.
Print Assumptions C32_pinned.

Example C32_example cf : exists p l, reachable cf [] p /\ Yasai.legal_moves cf p = Some l /\
  between (Sq n5 n9) (Sq n5 n8) (Sq n5 n1) /\
  attacks (upd (Yasai.piece_at cf p) (Sq n5 n8) None) White (Sq n5 n1) (Sq n5 n9) /\
  In (mv (n5, n8) (n5, n7) false) l /\ ~ In (mv (n5, n8) (n4, n8) false) l.
Proof.
  destruct (demo_new cf pinned pinned_ok) as [p [l [_ [R [G [_ E]]]]]]. exists p, l.
  split; [assumption|]. split; [assumption|]. rewrite !(proj2 (api_legal_moves cf _ p l R E)).
  change (Yasai.piece_at cf p) with (g_board (view cf p)). rewrite G, !attacks_att.
  split; [apply between_spec; vm_compute; reflexivity|].
  split; [apply attb_spec; vm_compute; reflexivity|]. rewrite <- !legalb_spec.
  split; vm_compute; [reflexivity|discriminate].
Qed.
