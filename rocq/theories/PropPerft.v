(** * When the perft searches panic

    More of C30, C47 and C62 of properties.jsonl. *)

From Coq Require Import String List Bool NArith ZArith Lia.
From Verif Require Import Types Rules Bitboard Tables Zobrist Position Movegen Perft Api
  Hash ValidPlay Reach Lines PerftSpec Client PerftPanic Decide Witness Sfen PropKeys
  Divide DivideSpec RookLines PropInternal PropDivide.
Import ListNotations.
Local Open Scope string_scope.
Local Open Scope list_scope.
Local Open Scope nat_scope.

(** C30: whatever the pieces and the kings, the search of the example panics
    exactly if some line of play gets to a position whose moves do not fit in the
    buffer, or to a move that do_move cannot play: the counter of plies is full
    (with overflow checks) or the captured piece does not fit in the hand. *)
Theorem C30_panics_exactly cf d ms p : reachable cf ms p ->
  (Yasai.perft cf (S d) p = None <->
   exists l, legal_line (view cf p) l /\ let g := play_line (view cf p) l in
     ((List.length l <= d)%nat /\
      ~ in_check (g_board g) (g_side g) /\
      exists gs, NoDup gs /\ List.length gs = 594%nat /\
        forall m, In m gs -> pseudo_legal g m /\ ~ (is_pawn_drop m /\ checkmated (play g m))) \/
     ((List.length l < d)%nat /\ exists m, legal g m /\
      ((cf_checks cf = true /\ (Yasai.ply cf p + N.of_nat (List.length l) = 65535)%N) \/
       exists f t pr x, m = Normal f t pr /\ g_board g t = Some x /\
         g_hand g (g_side g) (base_kind (pkind x)) = 18%N))).
Proof.
  intros R. rewrite (perft_panics cf d ms p R). unfold trouble, overfull, blocked.
  split; intros [l [L [[X T]|T]]]; exists l; (split; [exact L|]); try (right; exact T); left;
    (split; [lia|exact T]).
Qed.
Print Assumptions C30_panics_exactly.

(** C47: the plain search does not list the moves at the end of the lines. *)
Theorem C47_test_panics_exactly cf d ms p : reachable cf ms p ->
  (Yasai.test_perft cf d p = None <->
   exists l, legal_line (view cf p) l /\ (List.length l < d)%nat /\ let g := play_line (view cf p) l in
     (~ in_check (g_board g) (g_side g) /\
      exists gs, NoDup gs /\ List.length gs = 594%nat /\
        forall m, In m gs -> pseudo_legal g m /\ ~ (is_pawn_drop m /\ checkmated (play g m))) \/
     exists m, legal g m /\
      ((cf_checks cf = true /\ (Yasai.ply cf p + N.of_nat (List.length l) = 65535)%N) \/
       exists f t pr x, m = Normal f t pr /\ g_board g t = Some x /\
         g_hand g (g_side g) (base_kind (pkind x)) = 18%N)).
Proof.
  intros R. rewrite (test_perft_panics cf d ms p R). unfold trouble, overfull, blocked.
  split.
  - intros [l [L [[X T]|[X T]]]]; exists l; (split; [exact L|]); (split; [exact X|]); [left|right]; exact T.
  - intros [l [L [X [T|T]]]]; exists l; (split; [exact L|]); [left|right]; (split; [exact X|exact T]).
Qed.
Print Assumptions C47_test_panics_exactly.

(* at the same depth the plain search returns in fewer cases, but in no fewer than
   the other one with one move more *)
Theorem C47_returns cf d ms p : reachable cf ms p ->
  (Yasai.test_perft cf (S d) p <> None -> Yasai.perft cf (S d) p <> None) /\
  (Yasai.perft cf (S (S d)) p <> None -> Yasai.test_perft cf (S d) p <> None).
Proof.
  intros R. rewrite (test_perft_panics cf (S d) ms p R), (perft_panics cf d ms p R),
    (perft_panics cf (S d) ms p R).
  split; intros N T; apply N; destruct T as [l [L [[X T]|[X T]]]]; exists l; (split; [exact L|]).
  - left. split; [lia|exact T].
  - right. split; [lia|exact T].
  - left. split; [lia|exact T].
  - right. split; [lia|exact T].
Qed.
Print Assumptions C47_returns.

(** C62: the example with its counter of [w] bits, for any pieces. *)
Theorem C62_panics_exactly cf w d is_root ms p : (10 <= w)%N -> reachable cf ms p ->
  (perft_prog cf w (S d) is_root p = None <->
   trouble (cf_checks cf) (Yasai.ply cf p) (view cf p) (S d) d \/
   (cf_checks cf = true /\ exists L, NoDup L /\
      (forall l, In l L <-> List.length l = S d /\ legal_line (view cf p) l) /\
      (2 ^ w <= N.of_nat (List.length L))%N)).
Proof.
  intros W R. rewrite <- (perft_panics cf d ms p R).
  pose proof (perft_io_spec (ops cf) (zt cf) (cf_checks cf) w W (fits cf) d is_root p) as S0.
  fold (Yasai.perft cf (S d) p) in S0. fold (perft_prog cf w (S d) is_root p) in S0.
  destruct (Yasai.perft cf (S d) p) as [[n q]|] eqn:E; [|tauto].
  destruct (perft_lines cf d ms p n q R E) as [-> [L [HL ->]]]. unfold mach in S0.
  destruct (cf_checks cf) eqn:C.
  - destruct (N.ltb_spec (N.of_nat (List.length L)) (2 ^ w)) as [Lt|Ge].
    + destruct S0 as [out S0]. split; [congruence|]. intros [X|[_ [L' [N' [H' B]]]]]; [discriminate|].
      exfalso. rewrite (lists_lines_length _ _ L' L (conj N' H') HL) in B. lia.
    + split; [|intros _; exact S0]. intros _. right. split; [reflexivity|]. exists L.
      destruct HL as [N H]. tauto.
  - destruct S0 as [out S0]. split; [congruence|]. intros [X|[X _]]; discriminate.
Qed.
Print Assumptions C62_panics_exactly.

Lemma legal_line_last l m : forall g, legal_line g (l ++ [m]) -> legal_line g l /\ legal (play_line g l) m.
Proof.
  induction l as [|m' l IH]; intros g; cbn; [tauto|]. intros [L1 L2]. destruct (IH _ L2) as [L3 L4]. tauto.
Qed.
Lemma long_lines n : exists l m, List.length l = n /\ legal_line start_game l /\ legal (play_line start_game l) m.
Proof.
  set (s0 := (Black, n2, n8) : rook_state).
  assert (G0 : good s0) by (unfold s0, good, black_files, white_files; cbn; tauto).
  pose proof (rook_lines_length (S n) s0 G0) as E.
  destruct (rook_lines (S n) s0) as [|l L] eqn:F.
  { exfalso. symmetry in E. apply Nat.pow_nonzero in E; [exact E|discriminate]. }
  destruct (rook_lines_legal (S n) s0 l G0) as [El K]; [rewrite F; left; reflexivity|].
  destruct (@exists_last _ l) as [l' [m ->]]; [intros ->; discriminate|].
  rewrite app_length in El. cbn in El. exists l', m. split; [lia|]. apply legal_line_last.
  apply (legal_line_same _ (rooks s0)); [|exact K]. apply same_gameb_spec. vm_compute. reflexivity.
Qed.

(* the whole program panics exactly if the clock stands still, or, with overflow
   checks, if the counter of plies or that of the lines overflows *)
Theorem C62_main_panics_exactly cf w d nanos : (10 <= w)%N ->
  (main_prog cf w (Some d) nanos = None <->
   nanos = 0%N \/
   (cf_checks cf = true /\
    ((65536 <= N.of_nat d)%N \/
     exists L, NoDup L /\
       (forall l, In l L <-> List.length l = Nat.max 1 d /\ legal_line (game_of partial_startpos) l) /\
       (2 ^ w <= N.of_nat (List.length L))%N))).
Proof.
  intros W. destruct (C47_thirty_moves cf) as [p [l [N0 [El Len]]]].
  destruct (demo_new cf partial_startpos start_okp) as [p' [l' [N1 [R [G [Y E]]]]]].
  unfold Yasai.default in N0. rewrite N0 in N1. injection N1 as <-.
  rewrite El in E. injection E as <-.
  set (d0 := Nat.pred d). assert (Ed : S d0 = Nat.max 1 d) by (unfold d0; lia).
  assert (Ep : perft_prog cf w d true p = perft_prog cf w (S d0) true p).
  { unfold d0. destruct d; [apply prog_zero|reflexivity]. }
  assert (M : main_prog cf w (Some d) nanos =
    let* r := perft_prog cf w (S d0) true p in
    if (nanos =? 0)%N then None
    else Some (Report (snd r) (fst (fst r)) (fst (fst r) * 1000000000 / nanos)%N)).
  { rewrite <- Ep. unfold main_prog, main.
    change (pos_new (ops cf) (zt cf) partial_startpos) with (Yasai.new cf partial_startpos).
    rewrite N0. cbn [bind].
    change (legal_moves (ops cf) p) with (Yasai.legal_moves cf p). rewrite El. cbn [bind].
    rewrite Len. reflexivity. }
  rewrite M. clear M Ep. change (pp_ply partial_startpos) with 1%N in Y.
  pose proof (C62_panics_exactly cf w d0 true [] p W R) as X. rewrite Y, G in X.
  rewrite <- Ed.
  assert (T : trouble (cf_checks cf) 1 (game_of partial_startpos) (S d0) d0 <->
              cf_checks cf = true /\ (65536 <= N.of_nat d)%N).
  { rewrite <- Y, <- G, <- (perft_panics cf d0 [] p R). split.
    - intros F. destruct (cf_checks cf) eqn:C.
      + split; [reflexivity|]. destruct (N.le_gt_cases 65536 (N.of_nat d)) as [K|K]; [exact K|exfalso].
        destruct (perft_total cf d0 [] p R (demo_std cf _ p start_okp G) (start_kings cf p G)) as [n Fn]; [|congruence].
        right. rewrite Y. unfold d0. lia.
      + exfalso. destruct (perft_total cf d0 [] p R (demo_std cf _ p start_okp G) (start_kings cf p G)) as [n Fn]; [|congruence].
        left. exact C.
    - intros [C K]. destruct (long_lines (N.to_nat 65534)) as [l1 [m [E1 [L1 Lm]]]].
      apply (perft_panics cf d0 [] p R). rewrite G, Y. exists l1. split; [exact L1|]. right.
      split; [unfold d0; lia|]. exists m. split; [exact Lm|]. left. split; [exact C|].
      rewrite E1, N2Nat.id. reflexivity. }
  rewrite T in X. clear T. revert X.
  destruct (perft_prog cf w (S d0) true p) as [[[n q] out]|]; intros X; cbn [bind fst snd].
  - assert (X' : ~ (cf_checks cf = true /\ ((65536 <= N.of_nat d)%N \/
     exists L, NoDup L /\
       (forall l, In l L <-> List.length l = S d0 /\ legal_line (game_of partial_startpos) l) /\
       (2 ^ w <= N.of_nat (List.length L))%N))).
    { intros [C [F|F]]; [discriminate (proj2 X (or_introl (conj C F)))|discriminate (proj2 X (or_intror (conj C F)))]. }
    destruct (N.eqb_spec nanos 0) as [->|Nz].
    + tauto.
    + split; [discriminate|tauto].
  - pose proof (proj1 X eq_refl). tauto.
Qed.
Print Assumptions C62_main_panics_exactly.

(* eighteen pawns in hand and one more to take *)
Definition full_hand := sfen "4k4/9/9/9/9/9/9/4p4/4K4" Black "18P".
Lemma full_hand_ok : validb (game_of full_hand) &&
  legalb (game_of full_hand) (mv (n5, n9) (n5, n8) false) &&
  in_checkb (g_board (game_of full_hand)) Black = true.
Proof. vm_compute. reflexivity. Qed.
Lemma full_hand_fit : hands_fit (g_hand (game_of full_hand)).
Proof. intros c k _. destruct c, k; vm_compute; discriminate. Qed.
Example C30_panic_example cf : exists p, reachable cf [] p /\
  (exists n, Yasai.perft cf 1 p = Some (n, p)) /\ Yasai.perft cf 2 p = None /\
  Yasai.test_perft cf 1 p = None.
Proof.
  pose proof full_hand_ok as H. rewrite !andb_true_iff in H. destruct H as [[V L] C].
  apply validb_spec in V. apply legalb_spec in L. apply in_checkb_spec in C.
  assert (P : (pp_ply full_hand <= 65535)%N) by (vm_compute; discriminate).
  destruct (start_fit cf full_hand V full_hand_fit P) as [p [_ [R [G _]]]].
  assert (Bl : blocked (cf_checks cf) (Yasai.ply cf p + 0)%N (game_of full_hand) (mv (n5, n9) (n5, n8) false)).
  { right. exists (Sq n5 n9), (Sq n5 n8), false, (mkP Pawn White). split; [reflexivity|].
    split; vm_compute; reflexivity. }
  exists p. split; [exact R|]. split; [|split].
  - destruct (Yasai.perft cf 1 p) as [[n p']|] eqn:E.
    + exists n. rewrite (proj1 (perft_lines cf 0 [] p n p' R E)). reflexivity.
    + exfalso. apply (perft_panics cf 0 [] p R), trouble_list in E as [E _]. rewrite G in E. exact (E C).
  - apply (C30_panics_exactly cf 1 [] p R). exists []. split; [exact I|]. right. split; [cbn; lia|].
    rewrite G. exists (mv (n5, n9) (n5, n8) false). split; [exact L|exact Bl].
  - apply (C47_test_panics_exactly cf 1 [] p R). exists []. split; [exact I|]. split; [cbn; lia|]. right.
    rewrite G. exists (mv (n5, n9) (n5, n8) false). split; [exact L|exact Bl].
Qed.
