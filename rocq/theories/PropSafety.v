(** * Properties for arbitrary calls, legal or not

    C35 to C39 of properties.jsonl: undo of any accepted move, the values
    handed to unchecked constructors and used as table indices, and the domain
    of the bitboard operations. *)

From Coq Require Import String List Bool NArith ZArith Lia.
From Verif Require Import Types Rules Bitboard BackendCore BackendSimd Tables Zobrist Position Movegen
  Api Sfen Squares BBSpec Backends SpecLanes SpecCore Agree Bisim Twins Facts AnyMove Unsafe Domain Witness.
Import ListNotations.

(* the fields of a PartialPosition are machine integers: u16 and u8 *)
Definition machine_sized (pp : partial) : Prop :=
  (pp_ply pp <= 65535)%N /\ forall c k, (hand_n (c_get (pp_hands pp) c) k <= 255)%N.

Lemma machine_sized_check pp :
  ((pp_ply pp <=? 65535)%N &&
   forallb (fun c => forallb (fun k => (hand_n (c_get (pp_hands pp) c) k <=? 255)%N)
     [Pawn; Lance; Knight; Silver; Gold; Bishop; Rook; King; ProPawn; ProLance; ProKnight; ProSilver;
      ProBishop; ProRook]) [Black; White])%bool = true -> machine_sized pp.
Proof.
  intros H. apply andb_prop in H as [H1 H2]. split; [apply N.leb_le; assumption|].
  intros c k. rewrite forallb_forall in H2. specialize (H2 c). cbv beta in H2. rewrite forallb_forall in H2.
  apply N.leb_le, H2; [destruct c|destruct k]; cbn; tauto.
Qed.

Lemma run_typed cf pp cs p : machine_sized pp ->
  (let* p := Yasai.new cf pp in run cf p cs) = Some p -> typed cf (p_inner _ p).
Proof.
  intros [H1 H2]. destruct (Yasai.new cf pp) as [p0|] eqn:N; [|discriminate]. cbn [bind].
  assert (T : typed cf (p_inner _ p0)) by (eapply new_typed; eassumption). clear N. revert p0 T.
  induction cs as [|c cs IH]; intros p0 T; cbn [run]; [intros [= <-]; exact T|].
  destruct (step cf p0 c) as [p1|] eqn:E; [|discriminate]. cbn [bind]. apply IH.
  destruct c; [eapply do_move_typed|eapply undo_move_typed]; eassumption.
Qed.

(** C35: no assumption that the position is valid or the move legal; only that
    a piece is not dropped on another one. *)
Theorem C35_undo_any_move cf pp cs p m q :
  machine_sized pp ->
  (let* p := Yasai.new cf pp in run cf p cs) = Some p ->
  (forall t x, m = Drop t x -> Yasai.piece_at cf p t = None) ->
  Yasai.do_move cf p m = Some q ->
  Yasai.undo_move cf q m = Some p.
Proof.
  intros M E H D. destruct (run_typed cf pp cs p M E) as [T1 T2]. exact (undo_any cf p q m T1 T2 H D).
Qed.
Print Assumptions C35_undo_any_move.

(* Black's pawn jumps over White's pawns and captures the bishop, in a
   position reached through an illegal move *)
Definition jump : move := mv (n7, n7) (n2, n2) false.
Example C35_example : exists cf p q,
  machine_sized startpos /\
  (let* p := Yasai.new cf startpos in run cf p [DoMove (mv (n5, n9) (n5, n4) false);
     DoMove (mv (n5, n1) (n1, n6) false)]) = Some p /\
  Yasai.do_move cf p jump = Some q.
Proof.
  set (cf := mkCfg X86_64 true (fun i => (i * 7919)%N)). exists cf.
  set (r := let* p := Yasai.new cf startpos in run cf p [DoMove (mv (n5, n9) (n5, n4) false);
     DoMove (mv (n5, n1) (n1, n6) false)]).
  assert (H : match r with Some p => match Yasai.do_move cf p jump with Some _ => true | None => false end
              | None => false end = true) by (vm_compute; reflexivity).
  destruct r as [p|]; [|discriminate]. exists p. destruct (Yasai.do_move cf p jump) as [q|]; [|discriminate].
  exists q. split; [apply machine_sized_check; vm_compute; reflexivity|]. split; reflexivity.
Qed.

(** C36: whatever was done to the position, its bitboards have only square
    bits, and generate_for_fu, for any target set, gives
    Square::from_u8_unchecked a number from 1 to 81, the square of one of the
    pawns of the side to move. *)
Theorem C36_bitboards_on_board cf pp cs p :
  (let* p := Yasai.new cf pp in run cf p cs) = Some p ->
  (forall k, on_board (cf_backend cf) (cf_checks cf) (piece_bb _ (p_inner _ p) k)) /\
  (forall c, on_board (cf_backend cf) (cf_checks cf) (player_bb _ (p_inner _ p) c)) /\
  Forall (fun st => let ai := s_attack_info _ st in
    on_board (cf_backend cf) (cf_checks cf) (ai_checkers _ ai) /\
    (forall c, on_board (cf_backend cf) (cf_checks cf) (ai_pinned_of _ ai c)) /\
    (forall k, on_board (cf_backend cf) (cf_checks cf) (k_get (ai_checkables _ ai) k))) (p_states _ p).
Proof.
  intros E. set (S := backend_spec (cf_backend cf) (cf_checks cf)).
  pose proof (sim_program (ops cf) (ops cf) S S (zt cf) (cf_checks cf) pp cs) as B.
  assert (R : (let* p := pos_new (ops cf) (zt cf) pp in run_ops (ops cf) (zt cf) (cf_checks cf) p cs) = Some p).
  { rewrite <- E. change (Yasai.new cf pp) with (pos_new (ops cf) (zt cf) pp).
    destruct (pos_new (ops cf) (zt cf) pp) as [p0|]; [apply run_ops_run|reflexivity]. }
  rewrite R in B. destruct B as [J _ F]. split; [|split].
  - intros k. apply on_board_wf. apply (si_piece _ _ _ _ _ _ J k).
  - intros c. apply on_board_wf. apply (si_player _ _ _ _ _ _ J c).
  - clear -F. induction F as [|a b l l' [_ _ _ A] _ IH]; constructor; [|assumption].
    cbv zeta. rewrite on_board_wf. split; [apply (sa_checkers _ _ _ _ _ _ A)|].
    split; intros x; apply on_board_wf; [apply (sa_pinned _ _ _ _ _ _ A)|apply (sa_checkables _ _ _ _ _ _ A)].
Qed.
Print Assumptions C36_bitboards_on_board.

Theorem C36_pawn_source_in_range cf pp cs p target f t pr :
  (let* p := Yasai.new cf pp in run cf p cs) = Some p ->
  on_board (cf_backend cf) (cf_checks cf) target ->
  In (Normal f t pr) (gen_fu (ops cf) (p_inner _ p) target) ->
  let n := fu_from_u8 (Yasai.side_to_move cf p) t in
  (1 <= n <= 81)%N /\ (n = sq_index f + 1)%N /\
  bcontains _ (piece_bb _ (p_inner _ p) Pawn) f = true /\
  bcontains _ (player_bb _ (p_inner _ p) (Yasai.side_to_move cf p)) f = true.
Proof.
  intros E W I. destruct (C36_bitboards_on_board cf pp cs p E) as [Hk _].
  destruct (gen_fu_source (cf_backend cf) (cf_checks cf) (p_inner _ p) target _ (Hk Pawn) W I)
    as [t' [pr' [Em [R [Cp [Cc _]]]]]].
  injection Em as Ef Et _. subst t'. cbv zeta. unfold Yasai.side_to_move, side_to_move.
  change (ops_of (cf_backend cf) (cf_checks cf)) with (ops cf) in *.
  set (n := fu_from_u8 (i_side (ops cf) (p_inner (ops cf) p)) t) in *. rewrite <- Ef in *.
  split; [exact R|]. split; [|tauto].
  assert (G : forall n, (1 <= n <= 81)%N -> (n = sq_index (sq_of_u8 n) + 1)%N).
  { clear. intros n H.
    assert (A : forallb (fun i => N.eqb (sq_index (sq_of_u8 i) + 1) i) (map N.of_nat (seq 1 81)) = true)
      by (vm_compute; reflexivity).
    rewrite forallb_forall in A. symmetry. apply N.eqb_eq, A. apply in_map_iff. exists (N.to_nat n).
    split; [lia|]. apply in_seq. lia. }
  rewrite Ef. apply G. exact R.
Qed.
Print Assumptions C36_pawn_source_in_range.

(* the move 9c-9d of White after an illegal first move of Black *)
Example C36_example : exists cf p,
  (let* p := Yasai.new cf startpos in run cf p [DoMove (mv (n5, n9) (n5, n4) false)]) = Some p /\
  In (mv (n9, n3) (n9, n4) false) (gen_fu (ops cf) (p_inner _ p) (bnot _ (bempty (ops cf)))).
Proof.
  set (cf := mkCfg Wasm32 true (fun i => (i * 7919)%N)). exists cf.
  set (r := let* p := Yasai.new cf startpos in run cf p [DoMove (mv (n5, n9) (n5, n4) false)]).
  assert (H : match r with Some p => existsb (fun m => match m with
        | Normal f t pr => sq_eqb f (Sq n9 n3) && sq_eqb t (Sq n9 n4) && negb pr | _ => false end)
        (gen_fu (ops cf) (p_inner _ p) (bnot _ (bempty (ops cf)))) | None => false end = true)
    by (vm_compute; reflexivity).
  destruct r as [p|]; [|discriminate]. exists p. split; [reflexivity|].
  apply existsb_exists in H as [m [I H]].
  destruct m as [f t pr|]; [|discriminate]. apply andb_prop in H as [H Hp]. apply andb_prop in H as [Hf Ht].
  destruct (sq_eqb_spec f (Sq n9 n3)) as [->|]; [|discriminate].
  destruct (sq_eqb_spec t (Sq n9 n4)) as [->|]; [|discriminate].
  destruct pr; [discriminate|]. exact I.
Qed.

(** C37: table indices of the sliding attacks and the usize subtractions, for
    every occupancy and every mask of square bits; and the values given to
    Bitboard::from_u128_unchecked by the portable vacant_files. *)
Theorem C37_masked_index_in_range :
  (* core.rs 28-29 and 38-39: MASKED_BBS has 83 entries *)
  (forall occ mask : N, N.land mask core_mask = mask ->
     core_tz occ mask + 1 < 83 /\ core_lz occ mask <= 127 /\ 127 - core_lz occ mask < 83)%N /\
  (* aarch64.rs 70-97, wasm32.rs 66-86: MASKED_VALUES has 83 entries *)
  (forall occ mask : N * N, fst mask < 2 ^ 63 -> snd mask < 2 ^ 18 ->
     lanes_tz occ mask + 1 < 83 /\ lanes_lz occ mask <= 127 /\ 127 - lanes_lz occ mask < 83)%N /\
  (* x86_64.rs 135-137: MASKED_VALUES has 16 entries *)
  (forall a b, let mv := cmpeq8_movemask a b in
     x86_lz0 mv <= 15 /\ x86_lz1 mv <= 31 /\ 31 - x86_lz1 mv < 16)%N /\
  length x86_masked_values = 16%nat.
Proof.
  split; [|split; [|split; [|reflexivity]]].
  - intros occ mask W. pose proof (core_index occ mask) as H. tauto.
  - exact lanes_index.
  - intros a b mv. apply x86_index, movemask_small.
Qed.
Print Assumptions C37_masked_index_in_range.

(* the bounds are met: the last entries are used *)
Example C37_index_example :
  core_tz 0 core_mask = 81%N /\ core_lz 0 core_mask = 127%N /\
  lanes_tz (0, 0)%N lanes_ones = 81%N /\ lanes_lz lanes_ones lanes_ones = 46%N /\
  x86_lz0 0 = 0%N /\ x86_lz1 0 = 16%N.
Proof. vm_compute. tauto. Qed.

Theorem C37_vacant_values_valid checks (b : N) :
  N.land b core_mask = b ->
  (forall s t, core_contains b s = true -> core_contains b t = true -> sqf s = sqf t ->
     sqr s = n9 -> s = t) ->
  exists d e, core_vacant_values checks b = Some (d, e) /\
    N.land d core_mask = d /\ N.land e core_mask = e.
Proof.
  intros W U. apply (on_board_wf Portable checks) in W.
  destruct (core_vacant_spec checks b W U) as [_ [d [e [E [Wd We]]]]]. exists d, e.
  split; [assumption|]. split; apply (on_board_wf Portable checks); assumption.
Qed.
Print Assumptions C37_vacant_values_valid.

(* without the restriction it is false: a pawn on rank 9 and another on file 7
   borrow from the next file *)
Theorem C37_vacant_values_doubled_refuted :
  exists b, N.land b core_mask = b /\
    (exists d e, core_vacant_values false b = Some (d, e) /\ N.land d core_mask <> d).
Proof.
  exists (N.lor (core_single (Sq n7 n9)) (core_single (Sq n7 n8))). split; [vm_compute; reflexivity|].
  eexists _, _. split; [vm_compute; reflexivity|]. vm_compute. discriminate.
Qed.
Print Assumptions C37_vacant_values_doubled_refuted.

Example C37_vacant_example :
  let b := N.lor (core_single (Sq n7 n9)) (core_single (Sq n8 n1)) in
  N.land b core_mask = b /\ core_vacant_values true b <> None.
Proof. vm_compute. split; [reflexivity|discriminate]. Qed.

(** C38: the operations with a precondition (iteration, emptiness and count of
    square bits only; shifts without members on the last rank; sliding with
    square bits only; vacant_files without a pawn on rank 9 of a file with
    another) may be replaced by
    anything outside of it.  No call but legal_moves notices, *)
Theorem C38_operations_in_domain cf j pp cs :
  match (let* p := Yasai.new cf pp in run cf p cs),
        (let* q := pos_new (stray cf j) (zt cf) pp in run_ops (stray cf j) (zt cf) (cf_checks cf) q cs) with
  | Some p, Some q => same_shown (ops cf) (stray cf j) p q
  | None, None => True
  | _, _ => False
  end.
Proof.
  pose proof (stray_program cf j pp cs) as B.
  destruct (let* p := Yasai.new cf pp in _) as [p|], (let* q := pos_new (stray cf j) _ _ in _) as [q|];
    try exact B. apply stray_shown. exact B.
Qed.
Print Assumptions C38_operations_in_domain.

(** and legal_moves does not notice in reachable positions. *)
Theorem C38_legal_moves_in_domain cf j pp cs ms p :
  (let* p := Yasai.new cf pp in run cf p cs) = Some p -> reachable cf ms p ->
  exists q,
    (let* q := pos_new (stray cf j) (zt cf) pp in run_ops (stray cf j) (zt cf) (cf_checks cf) q cs) = Some q /\
    Yasai.legal_moves cf p = legal_moves (stray cf j) q.
Proof.
  intros E R. pose proof (stray_program cf j pp cs) as B. rewrite E in B.
  destruct (let* q := pos_new (stray cf j) _ _ in _) as [q|]; [|destruct B].
  exists q. split; [reflexivity|]. exact (stray_legal_moves cf j ms p q R B).
Qed.
Print Assumptions C38_legal_moves_in_domain.

(* junk that differs from the real operations *)
Example C38_example cf : exists (j : junk (bb (ops cf))) p,
  (let* p := Yasai.new cf startpos in run cf p []) = Some p /\ reachable cf [] p /\
  (forall a, j_iter j a = [Sq n1 n1]) /\ (forall a, j_vacant j a = None).
Proof.
  destruct (demo_new cf startpos startpos_ok) as [p [l [N [R _]]]].
  exists (mkJ _ (fun _ => true) (fun _ => 200%N) (fun _ => [Sq n1 n1]) (fun a => a) (fun a => a)
    (fun a _ => a) (fun a _ => a) (fun a _ => a) (fun a _ => a) (fun _ => None)), p.
  rewrite N. repeat split; assumption || reflexivity.
Qed.

(** C39: Position::default() does not panic and starts a reachable game *)
Theorem C39_default cf : exists p,
  Yasai.default cf = Some p /\ reachable cf [] p /\
  (forall s, Yasai.piece_at cf p s = startpos_at s) /\
  (forall c k, hand_n (Yasai.hand cf p c) k = 0%N) /\
  Yasai.side_to_move cf p = Black /\ Yasai.ply cf p = 1%N /\ Yasai.in_check cf p = Some false.
Proof.
  assert (OK : demo_okb partial_startpos [] = true) by (vm_compute; reflexivity).
  destruct (demo_new cf partial_startpos OK) as [p [l [N [R [G [Y E]]]]]]. exists p.
  split; [exact N|]. split; [exact R|].
  assert (Hb : forall s, Yasai.piece_at cf p s = startpos_at s).
  { intros s. change (Yasai.piece_at cf p s) with (g_board (view cf p) s). rewrite G.
    cbn [game_of g_board]. destruct s as [[] []]; reflexivity. }
  split; [exact Hb|]. split.
  { intros c k. change (hand_n (Yasai.hand cf p c) k) with (g_hand (view cf p) c k). rewrite G.
    destruct c, k; reflexivity. }
  split; [change (Yasai.side_to_move cf p) with (g_side (view cf p)); rewrite G; reflexivity|].
  split; [rewrite Y; reflexivity|].
  destruct (Reach.api_in_check cf [] p R) as [ic [Ei Hi]].
  rewrite Ei. f_equal. destruct ic; [|reflexivity]. exfalso.
  assert (I : Rules.in_check (g_board (view cf p)) (g_side (view cf p))) by (apply Hi; reflexivity).
  rewrite G in I. apply Decide.in_checkb_spec in I. vm_compute in I. discriminate.
Qed.
Print Assumptions C39_default.
