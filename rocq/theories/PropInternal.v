(** * Properties of the data the crate keeps between calls

    C43-C47 of properties.jsonl: bitboards, attack info and undo data agree
    with the board; keys; bounds on counts; the two perft searches. *)

From Coq Require Import String List Bool NArith ZArith Lia.
From Verif Require Import Types Rules Bitboard BackendCore BackendSimd Tables Zobrist Position Movegen
  Perft Api Sfen Squares Geometry BBSpec Backends KingSafety Rep Legality ValidPlay Moves Hash Play Undo Reach
  Decide Lines Twins Facts Consequences PerftSpec Witness.
Import ListNotations.

Local Opaque attack_info_new calculate_checkers.

(** C43 *)
Theorem C43_bitboards_in_sync cf ms p :
  reachable cf ms p ->
  let b := Yasai.piece_at cf p in
  (forall c s, Yasai.contains cf (Yasai.player_bitboard cf p c) s = true <->
               exists k, b s = Some (mkP k c)) /\
  (forall k s, Yasai.contains cf (Yasai.piece_kind_bitboard cf p k) s = true <->
               exists c, b s = Some (mkP k c)) /\
  (forall x s, Yasai.contains cf (Yasai.piece_bitboard cf p x) s = true <-> b s = Some x) /\
  (forall s, Yasai.contains cf (Yasai.occupied_bitboard cf p) s = true <-> b s <> None) /\
  (forall c s, Yasai.king_position cf p c = Some s <-> b s = Some (mkP King c)).
Proof.
  intros R b. destruct (reachable_inv cf ms p R) as [st [I _]].
  pose proof (inv_rep _ _ _ _ I) as Rp.
  assert (H1 : forall c s, Yasai.contains cf (Yasai.player_bitboard cf p c) s = colorb c (b s))
    by (exact (rep_player _ _ _ Rp)).
  assert (H2 : forall k s, Yasai.contains cf (Yasai.piece_kind_bitboard cf p k) s = kindb k (b s))
    by (exact (rep_piece _ _ _ Rp)).
  split; [intros c s; rewrite H1; apply colorb_true|].
  split; [intros k s; rewrite H2; apply kindb_true|].
  split; [|split].
  - intros [k c] s.
    assert (E : Yasai.contains cf (Yasai.piece_bitboard cf p (mkP k c)) s =
      Yasai.contains cf (Yasai.piece_kind_bitboard cf p k) s &&
      Yasai.contains cf (Yasai.player_bitboard cf p c) s)
      by apply (sp_and _ (backend_spec (cf_backend cf) (cf_checks cf))).
    rewrite E, H1, H2, andb_true_iff, kindb_true, colorb_true. clear E.
    split; [intros [[c' E] [k' E']]; congruence|]. intros E. eauto.
  - intros s. change (Yasai.contains cf (Yasai.occupied_bitboard cf p) s) with
      (bcontains (ops cf) (occupied (ops cf) (p_inner (ops cf) p)) s).
    rewrite (occupied_spec _ (backend_spec (cf_backend cf) (cf_checks cf)) _ Rp). apply occb_true.
  - intros c s. exact (king_position_iff _ _ _ Rp c s (v_king _ (inv_valid _ _ _ _ I))).
Qed.
Print Assumptions C43_bitboards_in_sync.

(** C44 *)
Theorem C44_attack_info_exact cf ms p :
  reachable cf ms p ->
  let b := Yasai.piece_at cf p in
  let c := Yasai.side_to_move cf p in
  (* the pieces that give check *)
  (exists a, Yasai.checkers cf p = Some a /\ forall s, Yasai.contains cf a s = true <->
     exists K, b K = Some (mkP King c) /\ attacks b (flip c) s K) /\
  (* the pieces of either colour that alone keep a slider from attacking a king *)
  (forall d, exists a, Yasai.pinned cf p d = Some a /\ forall u, Yasai.contains cf a u = true <->
     exists K s, b K = Some (mkP King d) /\ b u <> None /\ between K u s /\
       attacks (upd b u None) (flip d) s K) /\
  (* the squares from which a piece would attack the other king *)
  (forall k t, exists r, Yasai.checkable cf p k t = Some r /\ (r = true <->
     k <> King /\ exists K, b K = Some (mkP King (flip c)) /\ reaches b c k t K)).
Proof.
  intros R b c. destruct (reachable_inv cf ms p R) as [st [I _]].
  set (Sp := backend_spec (cf_backend cf) (cf_checks cf)) in *.
  pose proof (inv_rep _ _ _ _ I) as Rp. pose proof (inv_valid _ _ _ _ I) as V.
  pose proof (v_king _ V) as U.
  assert (KP : forall d s, king_position (ops cf) (p_inner (ops cf) p) d = Some s <-> b s = Some (mkP King d))
    by (intros d s; exact (king_position_iff _ _ _ Rp d s U)).
  split; [|split].
  - unfold Yasai.checkers. rewrite (inv_st _ _ _ _ I). cbn [bind]. eexists. split; [reflexivity|].
    intros s. rewrite (inv_ai _ _ _ _ I). 
    change (ai_checkers (ops cf) (attack_info_new (ops cf) ?x ?y)) with x.
    unfold Yasai.contains. rewrite (checkers_spec (ops cf) Sp _ Rp).
    fold (Yasai.side_to_move cf p). 
    change (i_side (ops cf) (p_inner (ops cf) p)) with c.
    change (i_piece_at (ops cf) (p_inner (ops cf) p)) with b.
    destruct (king_position (ops cf) (p_inner (ops cf) p) c) as [K|] eqn:EK.
    + apply KP in EK. split.
      * destruct (b s) as [[k d]|] eqn:Bs; [|discriminate]. intros H.
        apply andb_true_iff in H as [H Hr]. apply andb_true_iff in H as [Hd _].
        destruct (color_eqb_spec d (flip c)) as [->|]; [|discriminate]. exists K. split; [assumption|].
        apply attacks_att. exists k. tauto.
      * intros [K' [BK' A]]. assert (K' = K) by (exact (U c K' K BK' EK)). subst K'.
        apply attacks_att in A. pose proof A as [k [Bs Hr]]. rewrite Bs, color_eqb_refl, Hr, andb_true_r.
        cbn [andb]. destruct k; try reflexivity. exfalso.
        (* the other king would itself be attacked by ours *)
        apply (v_check _ V). exists s. split; [exact Bs|]. apply attacked_att. exists K, King.
        rewrite flip_flip. split; [exact EK|]. rewrite reachb_flip in Hr. exact Hr.
    + split; [discriminate|]. intros [K [BK _]]. apply KP in BK. congruence.
  - intros d. unfold Yasai.pinned. rewrite (inv_st _ _ _ _ I). cbn [bind]. eexists. split; [reflexivity|].
    intros u. rewrite (chk_pin _ _ _ _ I). unfold Yasai.contains.
    rewrite (pinned_for_spec (ops cf) Sp _ Rp).
    change (i_piece_at (ops cf) (p_inner (ops cf) p)) with b. split.
    + intros [K [EK [s [[k [Bs Hr]] [Hb [Bu Ho]]]]]]. exists K, s. split; [apply KP; assumption|].
      split; [assumption|]. split; [apply between_spec; assumption|].
      assert (Nsu : s <> u). { intros ->. apply between_neq in Hb. tauto. }
      apply attacks_att, att_alt. exists k. unfold upd at 1. rewrite (sq_eqb_neq s u Nsu).
      split; [assumption|]. split; [unfold geo; rewrite Hr; apply orb_true_r|].
      intros v Hv. unfold upd. destruct (sq_eqb_spec v u) as [|Nv]; [reflexivity|].
      destruct (b v) eqn:Bv; [|reflexivity]. exfalso. apply Nv, Ho; [|congruence].
      rewrite between_sym. assumption.
    + intros [K [s [BK [Bu [Hb A]]]]]. exists K. split; [apply KP; assumption|]. exists s.
      apply between_spec in Hb. apply attacks_att, att_alt in A as [k [Bs [G C]]].
      assert (Nsu : s <> u). { intros ->. apply between_neq in Hb. tauto. }
      unfold upd in Bs at 1. rewrite (sq_eqb_neq s u Nsu) in Bs.
      split; [exists k; split; [assumption|]|].
      * unfold geo in G. apply orb_true_iff in G as [G|G]; [|assumption].
        exfalso. pose proof (step_no_between (flip d) k s u K G) as N. rewrite between_sym in N. congruence.
      * split; [assumption|]. split; [assumption|]. intros v Hv Bv.
        rewrite between_sym in Hv. specialize (C v Hv). unfold upd in C.
        destruct (sq_eqb_spec v u); [assumption|]. contradiction.
  - intros k t. unfold Yasai.checkable. rewrite (inv_st _ _ _ _ I). cbn [bind]. eexists. split; [reflexivity|].
    destruct (king_position (ops cf) (p_inner (ops cf) p) (flip c)) as [K|] eqn:EK.
    + apply KP in EK. rewrite (checkable_spec _ _ _ _ I k t K EK), andb_true_iff. split.
      * intros [Nk Hr]. split; [intros ->; discriminate|]. exists K. split; [assumption|].
        apply reachb_spec. exact Hr.
      * intros [Nk [K' [BK' Hr]]]. assert (K' = K) by (exact (U _ K' K BK' EK)). subst K'.
        apply reachb_spec in Hr. split; [destruct k; try reflexivity; congruence|exact Hr].
    + rewrite (checkable_none _ _ _ _ I).
      * split; [discriminate|]. intros [_ [K [BK _]]]. apply KP in BK. congruence.
      * intros K BK. pose proof (proj2 (KP (flip c) K) BK). congruence.
Qed.
Print Assumptions C44_attack_info_exact.

(** C45 *)
Theorem C45_undo_data cf ms p m q :
  reachable cf ms p -> legal (view cf p) m -> Yasai.do_move cf p m = Some q ->
  match m with
  | Normal f t _ => Yasai.captured cf q = Some (Yasai.piece_at cf p t) /\
                    Yasai.last_moved cf q = Some (Yasai.piece_at cf p f)
  | Drop _ x => Yasai.captured cf q = Some None /\ Yasai.last_moved cf q = Some (Some x)
  end.
Proof.
  intros R L D. destruct (reachable_inv cf ms p R) as [st [I _]].
  destruct (do_move_effect _ _ (zt cf) (cf_checks cf) p st m I L
    (do_move_room (ops cf) (zt cf) (cf_checks cf) p m q D)) as [p' [ks [_ E]]].
  unfold Yasai.do_move in D. rewrite E in D. destruct (incr16 _ _); [|discriminate]. cbn [bind] in D.
  injection D as <-. unfold Yasai.captured, Yasai.last_moved, pos_state.
  cbn [p_states hd_error bind s_captured s_last_moved]. destruct m as [f t pr|t x].
  - split; [reflexivity|]. cbn [last_moved]. reflexivity.
  - destruct L as [P _]. split; [|reflexivity]. cbn [move_to]. f_equal.
    unfold pseudo_legal in P. decompose [and] P. assumption.
Qed.
Print Assumptions C45_undo_data.

(* a pawn drop, a slider pinning a gold, and a position in check *)
Example C43_example cf : exists p, reachable cf (rev opening) p /\
  Yasai.contains cf (Yasai.piece_bitboard cf p (mkP Bishop Black)) (Sq n3 n3) = true /\
  Yasai.contains cf (Yasai.occupied_bitboard cf p) (Sq n8 n8) = false /\
  Yasai.king_position cf p White = Some (Sq n5 n1).
Proof.
  destruct (demo cf startpos opening opening_ok) as [p [l [R [[B _] _]]]]. exists p.
  split; [assumption|]. destruct (C43_bitboards_in_sync cf _ p R) as [_ [_ [H3 [H4 H5]]]].
  change (Yasai.piece_at cf p) with (g_board (view cf p)) in H3, H4, H5.
  split; [apply H3; rewrite B; reflexivity|]. split; [|apply H5; rewrite B; reflexivity].
  apply not_true_iff_false. rewrite H4, B. intros N. apply N. reflexivity.
Qed.

Example C44_example cf :
  (exists p a, reachable cf (rev opening) p /\ Yasai.checkers cf p = Some a /\
     Yasai.contains cf a (Sq n3 n3) = true) /\
  (exists p a, reachable cf [] p /\ Yasai.pinned cf p Black = Some a /\
     Yasai.contains cf a (Sq n5 n8) = true) /\
  (exists p, reachable cf (rev opening4) p /\ Yasai.checkable cf p Bishop (Sq n3 n3) = Some true).
Proof.
  split; [|split].
  - destruct (demo cf startpos opening opening_ok) as [p [l [R [[B [_ Sd]] _]]]].
    destruct (C44_attack_info_exact cf _ p R) as [[a [E H]] _]. exists p, a.
    split; [assumption|]. split; [assumption|]. apply H. exists (Sq n5 n1).
    change (Yasai.piece_at cf p) with (g_board (view cf p)).
    change (Yasai.side_to_move cf p) with (g_side (view cf p)). rewrite Sd.
    split; [rewrite B; reflexivity|]. apply attacks_att.
    apply (att_same _ _ _ _ _ B). apply attb_spec. vm_compute. reflexivity.
  - destruct (demo_new cf pinned pinned_ok) as [p [l [_ [R [G _]]]]].
    destruct (C44_attack_info_exact cf _ p R) as [_ [H _]].
    destruct (H Black) as [a [E Ha]]. exists p, a.
    split; [assumption|]. split; [assumption|]. apply Ha. exists (Sq n5 n9), (Sq n5 n1).
    change (Yasai.piece_at cf p) with (g_board (view cf p)). rewrite G.
    split; [reflexivity|]. split; [discriminate|].
    split; [apply between_spec; vm_compute; reflexivity|].
    apply attacks_att, attb_spec. vm_compute. reflexivity.
  - destruct (demo cf startpos opening4 opening4_ok) as [p [l [R [[B [_ Sd]] _]]]].
    destruct (C44_attack_info_exact cf _ p R) as [_ [_ H]].
    destruct (H Bishop (Sq n3 n3)) as [r [E Hr]]. exists p. split; [assumption|]. rewrite E. f_equal.
    apply Hr. split; [discriminate|]. exists (Sq n5 n1).
    change (Yasai.piece_at cf p) with (g_board (view cf p)).
    change (Yasai.side_to_move cf p) with (g_side (view cf p)). rewrite Sd.
    split; [rewrite B; reflexivity|]. apply reachb_spec. 
    rewrite (reachb_ext (occb (g_board (view cf p))) (occb (g_board (play_line (game_of startpos) opening4)))).
    + vm_compute. reflexivity.
    + intros u. unfold occb. rewrite B. reflexivity.
Qed.

Example C45_example cf : exists p q, reachable cf (rev opening2) p /\ legal (view cf p) bishop_takes /\
  Yasai.do_move cf p bishop_takes = Some q /\
  Yasai.captured cf q = Some (Some (mkP Bishop White)) /\
  Yasai.last_moved cf q = Some (Some (mkP Bishop Black)).
Proof.
  destruct (demo_step cf startpos opening2 bishop_takes opening3_ok)
    as [p [q [R [[B _] [L [D _]]]]]].
  exists p, q. repeat (split; [assumption|]).
  destruct (C45_undo_data cf _ p _ q R L D) as [-> ->].
  change (Yasai.piece_at cf p) with (g_board (view cf p)). rewrite !B. split; reflexivity.
Qed.

(** C46: [board_key] is a function of the board and the parity of the number of
    moves, [hand_key] one of the hands, whatever the start position *)
Theorem C46_keys_depend_on_contents cf ms1 ms2 p q a b :
  reachable cf ms1 p -> reachable cf ms2 q ->
  Yasai.keys cf p = Some a -> Yasai.keys cf q = Some b ->
  ((forall s, Yasai.piece_at cf p s = Yasai.piece_at cf q s) ->
     Nat.odd (length ms1) = Nat.odd (length ms2) -> fst a = fst b) /\
  ((forall s, Yasai.piece_at cf p s = Yasai.piece_at cf q s) ->
     Nat.odd (length ms1) <> Nat.odd (length ms2) -> fst a <> fst b) /\
  ((forall c k, hand_n (Yasai.hand cf p c) k = hand_n (Yasai.hand cf q c) k) -> snd a = snd b).
Proof.
  intros R1 R2. rewrite (api_keys cf ms1 p R1), (api_keys cf ms2 q R2). intros [= <-] [= <-].
  cbn [fst snd]. unfold turn_bit. split; [|split].
  - intros B ->. f_equal. apply board_hash_ext. exact B.
  - intros B N E. apply N.
    rewrite (board_hash_ext _ (g_board (view cf p)) (g_board (view cf q)) B) in E.
    apply (f_equal (fun x => N.testbit x 0)) in E. rewrite !N.lxor_spec in E.
    destruct (N.testbit (board_hash _ _) 0), (Nat.odd (length ms1)), (Nat.odd (length ms2));
      try reflexivity; discriminate E.
  - intros H. apply hand_hash_ext. exact H.
Qed.
Print Assumptions C46_keys_depend_on_contents.

Example C46_example cf : exists p q a b, reachable cf (rev opening4) p /\ reachable cf (rev opening) q /\
  Yasai.keys cf p = Some a /\ Yasai.keys cf q = Some b /\ Nat.odd (length (rev opening4)) <> Nat.odd (length (rev opening)).
Proof.
  destruct (demo cf startpos opening4 opening4_ok) as [p [_ [R _]]].
  destruct (demo cf startpos opening opening_ok) as [q [_ [R' _]]].
  exists p, q. rewrite (api_keys cf _ p R), (api_keys cf _ q R'). eexists _, _.
  repeat (split; [assumption || reflexivity|]). discriminate.
Qed.

(** C47: the plain search of the unit test and the search of the example and
    the benchmark, which reads the length of the list at depth 2 and does not
    stop at depth 0, count the same *)
Theorem C47_perft_variants_agree cf d ms p n1 p1 n2 p2 :
  reachable cf ms p ->
  Yasai.perft cf (S d) p = Some (n1, p1) -> Yasai.test_perft cf (S d) p = Some (n2, p2) ->
  n1 = n2 /\ p1 = p /\ p2 = p.
Proof.
  intros R E1 E2. destruct (perft_lines cf d ms p n1 p1 R E1) as [-> [L1 [[N1 H1] ->]]].
  destruct (test_perft_lines cf (S d) ms p n2 p2 R E2) as [-> [L2 [[N2 H2] ->]]].
  split; [|split; reflexivity]. f_equal. apply Nat.le_antisymm; apply NoDup_incl_length; try assumption;
    intros l I; [apply H2, H1|apply H1, H2]; assumption.
Qed.
Print Assumptions C47_perft_variants_agree.

Theorem C47_test_perft_total cf d ms p :
  reachable cf ms p -> standard_material (view cf p) ->
  (forall c, exists s, Yasai.piece_at cf p s = Some (mkP King c)) ->
  cf_checks cf = false \/ (Yasai.ply cf p + N.of_nat d <= 65535)%N ->
  exists n, Yasai.test_perft cf d p = Some (n, p).
Proof. exact (test_perft_total cf d ms p). Qed.
Print Assumptions C47_test_perft_total.

(* the first position of the example: "assert_eq!(30, pos.legal_moves().len())",
   examples/perft.rs 10 *)
Definition some_cfg : config := mkCfg X86_64 false (fun i => i).
Lemma thirty_at_start : match Yasai.new some_cfg partial_startpos with
  | Some p => match Yasai.legal_moves some_cfg p with Some l => Nat.eqb (length l) 30 | None => false end
  | None => false end = true.
Proof. vm_compute. reflexivity. Qed.
Theorem C47_thirty_moves cf : exists p l,
  Yasai.default cf = Some p /\ Yasai.legal_moves cf p = Some l /\ length l = 30%nat.
Proof.
  assert (OK : demo_okb partial_startpos [] = true) by (vm_compute; reflexivity).
  destruct (demo_new cf partial_startpos OK) as [p [l [N [R [G [_ E]]]]]]. exists p, l.
  split; [exact N|]. split; [exact E|].
  destruct (demo_new some_cfg partial_startpos OK) as [q [l' [N' [R' [G' [_ E']]]]]].
  destruct (same_answers cf some_cfg _ _ p q R R') as [L _]; [rewrite G, G'; apply same_refl|].
  pose proof thirty_at_start as H. rewrite N', E' in H. rewrite E, E' in L. injection L as ->.
  apply Nat.eqb_eq. exact H.
Qed.
Print Assumptions C47_thirty_moves.

(* at depth 0 the two searches differ *)
Theorem C47_perft_zero_refuted cf : exists p,
  Yasai.default cf = Some p /\ Yasai.test_perft cf 0 p = Some (1%N, p) /\
  Yasai.perft cf 0 p = Some (30%N, p).
Proof.
  destruct (C47_thirty_moves cf) as [p [l [N [E L]]]]. exists p. split; [exact N|].
  split; [reflexivity|].
  change (Yasai.perft cf 0 p) with
    (let* l := Yasai.legal_moves cf p in perft_loop (ops cf) (fun pos m => Some (1%N, pos)) l p 0).
  rewrite E. cbn [bind].
  assert (H : forall l r, perft_loop (ops cf) (fun pos m => Some (1%N, pos)) l p r =
    Some ((r + N.of_nat (length l))%N, p)).
  { clear. induction l as [|m l IH]; intros r; cbn [perft_loop length bind fst snd].
    - rewrite N.add_0_r. reflexivity.
    - rewrite IH. do 2 f_equal. lia. }
  rewrite H, L. reflexivity.
Qed.
Print Assumptions C47_perft_zero_refuted.

Example C47_example cf d : (N.of_nat d <= 65533)%N -> exists p n, reachable cf [] p /\
  Yasai.perft cf (S d) p = Some (n, p) /\ Yasai.test_perft cf (S d) p = Some (n, p).
Proof.
  intros H. destruct (demo_new cf startpos startpos_ok) as [p [l [_ [R [G [Y _]]]]]].
  assert (K : forall c, exists s, Yasai.piece_at cf p s = Some (mkP King c)).
  { intros c. change (Yasai.piece_at cf p) with (g_board (view cf p)). rewrite G.
    destruct c; [exists (Sq n5 n9)|exists (Sq n5 n1)]; reflexivity. }
  assert (P : (Yasai.ply cf p + N.of_nat (S d) <= 65535)%N).
  { rewrite Y. change (pp_ply startpos) with 1%N. lia. }
  destruct (perft_total cf d [] p R (demo_std cf _ p startpos_ok G) K) as [n E]; [right; lia|].
  destruct (C47_test_perft_total cf (S d) [] p R (demo_std cf _ p startpos_ok G) K) as [n' E']; [right; exact P|].
  exists p, n. split; [assumption|]. split; [assumption|].
  destruct (C47_perft_variants_agree cf d [] p n p n' p R E E') as [-> _]. exact E'.
Qed.

(** C48: bounds in every position, valid or not; with a 64-bit usize no perft
    total overflows up to depth 6 *)
Theorem C48_list_fits cf p l : Yasai.legal_moves cf p = Some l -> (length l <= 593)%nat.
Proof. exact (legal_moves_length cf p l). Qed.
Print Assumptions C48_list_fits.
Theorem C48_perft_bound cf d p q n :
  Yasai.perft cf (S d) p = Some (n, q) -> (n <= 593 ^ N.of_nat (S d))%N.
Proof. exact (perft_bound cf d p q n). Qed.
Print Assumptions C48_perft_bound.
Theorem C48_perft_usize cf d p q n : (d < 6)%nat ->
  Yasai.perft cf (S d) p = Some (n, q) -> (n < 2 ^ 64)%N.
Proof.
  intros D E. apply perft_bound in E. eapply N.le_lt_trans; [exact E|].
  apply N.le_lt_trans with (593 ^ 6)%N; [|reflexivity]. apply N.pow_le_mono_r; lia.
Qed.
Print Assumptions C48_perft_usize.

Example C48_example cf : exists p n, Yasai.perft cf 6 p = Some (n, p) /\ (n <= 593 ^ 6)%N.
Proof.
  destruct (C47_example cf 5) as [p [n [_ [E _]]]]; [discriminate|]. exists p, n.
  split; [exact E|]. exact (C48_perft_bound cf 5 p p n E).
Qed.
