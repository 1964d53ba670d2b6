(** * C62: the program of examples/perft.rs *)

From Coq Require Import List Bool NArith ZArith Lia.
From Verif Require Import Types Rules Bitboard Zobrist Position Movegen Perft Api
  ValidPlay Reach Lines Decide PerftSpec Witness Divide DivideSpec RookLines PropInternal.
Import ListNotations.
Local Open Scope N_scope.

(** C62 *)

(* [w] is the width of usize.  The call returns the number of legal lines,
   reduced modulo 2^w, and leaves the position as it was; with overflow checks
   it panics exactly if that number does not fit. *)
Theorem C62_perft_in_usize cf w d is_root ms p :
  10 <= w -> reachable cf ms p -> standard_material (view cf p) ->
  (forall c, exists s, Yasai.piece_at cf p s = Some (mkP King c)) ->
  cf_checks cf = false \/ Yasai.ply cf p + N.of_nat d <= 65535 ->
  exists L, NoDup L /\ (forall l, In l L <-> length l = S d /\ legal_line (view cf p) l) /\
  (cf_checks cf = true -> 2 ^ w <= N.of_nat (length L) -> perft_prog cf w (S d) is_root p = None) /\
  (cf_checks cf = false \/ N.of_nat (length L) < 2 ^ w ->
   exists out, perft_prog cf w (S d) is_root p = Some (N.of_nat (length L) mod 2 ^ w, p, out) /\
     (is_root = false -> out = [])).
Proof.
  intros W R SM BK P. destruct (prog_counts cf w W d is_root ms p R SM BK P) as [L [[N H] [A B]]].
  exists L. tauto.
Qed.
Print Assumptions C62_perft_in_usize.

(* The lines printed: the list of legal_moves, in its order, and beside each
   move the number of legal lines after it; the total is the sum of them. *)
Theorem C62_printed_lines cf w d ms p n q out l :
  10 <= w -> reachable cf ms p -> perft_prog cf w (S d) true p = Some (n, q, out) ->
  Yasai.legal_moves cf p = Some l ->
  map fst out = l /\
  (forall m c, In (m, c) out -> exists L, NoDup L /\
     (forall k, In k L <-> length k = d /\ legal_line (play (view cf p) m) k) /\
     c = N.of_nat (length L) mod 2 ^ w) /\
  n = fold_right N.add 0 (map snd out) mod 2 ^ w.
Proof.
  intros W R E El. destruct (prog_prints cf w W d ms p n q out l R E El) as [A [B C]].
  split; [exact A|]. split; [|exact C]. intros m c I. destruct (B m c I) as [L [[N H] ->]].
  exists L. tauto.
Qed.
Print Assumptions C62_printed_lines.

Lemma start_okp : demo_okb partial_startpos [] = true.
Proof. vm_compute. reflexivity. Qed.
Lemma start_kings cf p : view cf p = game_of partial_startpos ->
  forall c, exists s, Yasai.piece_at cf p s = Some (mkP King c).
Proof.
  intros G c. change (Yasai.piece_at cf p) with (g_board (view cf p)). rewrite G.
  destruct c; [exists (Sq n5 n9)|exists (Sq n5 n1)]; reflexivity.
Qed.

(* The whole program: the usage text without a number as argument; otherwise
   the assertion about the 30 moves holds, and the only panics left are the
   overflow of the counter, the overflow of the ply and a clock that stands
   still. *)
Theorem C62_main_usage cf w nanos : main_prog cf w None nanos = Some Usage.
Proof. reflexivity. Qed.
Print Assumptions C62_main_usage.
Theorem C62_main cf w d nanos : 10 <= w -> 0 < nanos ->
  cf_checks cf = false \/ N.of_nat d <= 65535 ->
  exists L, NoDup L /\
  (forall l, In l L <-> length l = Nat.max 1 d /\ legal_line (game_of partial_startpos) l) /\
  (cf_checks cf = true -> 2 ^ w <= N.of_nat (length L) -> main_prog cf w (Some d) nanos = None) /\
  (cf_checks cf = false \/ N.of_nat (length L) < 2 ^ w ->
   exists out, let total := N.of_nat (length L) mod 2 ^ w in
     main_prog cf w (Some d) nanos = Some (Report out total (total * 1000000000 / nanos)) /\
     NoDup (map fst out) /\ length out = 30%nat /\
     forall m, In m (map fst out) <-> legal (game_of partial_startpos) m).
Proof.
  intros W Nz P. destruct (C47_thirty_moves cf) as [p [l [N0 [El Len]]]].
  destruct (demo_new cf partial_startpos start_okp) as [p' [l' [N1 [R [G [Y E]]]]]].
  unfold Yasai.default in N0. rewrite N0 in N1. injection N1 as <-.
  rewrite El in E. injection E as <-.
  destruct (api_legal_moves cf [] p l R El) as [ND H].
  set (d0 := Nat.pred d). assert (Ed : S d0 = Nat.max 1 d) by (unfold d0; lia).
  assert (Ep : perft_prog cf w d true p = perft_prog cf w (S d0) true p).
  { unfold d0. destruct d; [apply prog_zero|reflexivity]. }
  destruct (C62_perft_in_usize cf w d0 true [] p W R (demo_std cf _ p start_okp G) (start_kings cf p G))
    as [L [NL [HL [A B]]]].
  { destruct P as [P|P]; [left; exact P|right]. rewrite Y. change (pp_ply partial_startpos) with 1.
    unfold d0. destruct d; lia. }
  assert (M : main_prog cf w (Some d) nanos =
    let* r := perft_prog cf w (S d0) true p in
    if nanos =? 0 then None
    else Some (Report (snd r) (fst (fst r)) (fst (fst r) * 1000000000 / nanos))).
  { rewrite <- Ep. unfold main_prog, main.
    change (pos_new (ops cf) (zt cf) partial_startpos) with (Yasai.new cf partial_startpos).
    rewrite N0. cbn [bind].
    change (legal_moves (ops cf) p) with (Yasai.legal_moves cf p). rewrite El. cbn [bind].
    rewrite Len. reflexivity. }
  exists L. split; [exact NL|]. split; [intros k; rewrite HL, Ed, G; reflexivity|]. rewrite M.
  split.
  - intros C K. rewrite (A C K). reflexivity.
  - intros C. destruct (B C) as [out [E _]]. exists out. cbv zeta. rewrite E. cbn [bind fst snd].
    destruct (N.eqb_spec nanos 0); [lia|]. split; [reflexivity|].
    destruct (C62_printed_lines cf w d0 [] p _ p out l W R E El) as [F _]. rewrite F.
    split; [exact ND|]. split; [rewrite <- (map_length fst), F; exact Len|].
    intros m. rewrite H, G. reflexivity.
Qed.
Print Assumptions C62_main.

(* The count outgrows every counter: from the start there are at least 6^d
   lines of d moves. *)
Theorem C62_start_lines d L : NoDup L ->
  (forall l, In l L <-> length l = d /\ legal_line (game_of partial_startpos) l) ->
  (6 ^ d <= length L)%nat.
Proof. intros N H. apply (start_lines_many d L). split; assumption. Qed.
Print Assumptions C62_start_lines.

(* "perft returns the number of lines" is false of large depths: with overflow
   checks the program panics, without them the total printed is another
   number. *)
Theorem C62_counter_refuted cf w d nanos : 10 <= w -> 0 < nanos -> 2 ^ w <= 6 ^ N.of_nat d ->
  N.of_nat d <= 65535 ->
  (cf_checks cf = true -> main_prog cf w (Some d) nanos = None) /\
  (cf_checks cf = false -> exists L out total nps, NoDup L /\
    (forall l, In l L <-> length l = d /\ legal_line (game_of partial_startpos) l) /\
    main_prog cf w (Some d) nanos = Some (Report out total nps) /\ total < N.of_nat (length L)).
Proof.
  intros W Nz B D.
  assert (D0 : (0 < d)%nat).
  { destruct d; [|lia]. exfalso. assert (2 ^ 10 <= 2 ^ w) by (apply N.pow_le_mono_r; [discriminate|exact W]).
    change (6 ^ N.of_nat 0) with 1 in B. change (2 ^ 10) with 1024 in H. lia. }
  destruct (C62_main cf w d nanos W Nz (or_intror D)) as [L [N [H [P1 P2]]]].
  replace (Nat.max 1 d) with d in H by lia.
  pose proof (C62_start_lines d L N H) as M.
  assert (M' : 6 ^ N.of_nat d <= N.of_nat (length L)).
  { change 6 with (N.of_nat 6). rewrite <- Nat2N.inj_pow. lia. }
  split.
  - intros C. apply P1; [exact C|]. lia.
  - intros C. destruct (P2 (or_introl C)) as [out [E _]]. exists L, out, (N.of_nat (length L) mod 2 ^ w),
      (N.of_nat (length L) mod 2 ^ w * 1000000000 / nanos).
    split; [exact N|]. split; [exact H|]. split; [exact E|].
    apply N.lt_le_trans with (2 ^ w); [|lia]. apply N.mod_lt, N.pow_nonzero. discriminate.
Qed.
Print Assumptions C62_counter_refuted.

(* 64 bits: the depths 1 to 6 are counted exactly, depth 25 is not; 32 bits
   (wasm32): 1 to 3 are, depth 13 is not *)
Example C62_widths : 593 ^ 6 < 2 ^ 64 /\ 2 ^ 64 <= 6 ^ 25 /\ 593 ^ 3 < 2 ^ 32 /\ 2 ^ 32 <= 6 ^ 13.
Proof. vm_compute. repeat split; discriminate. Qed.
Theorem C62_small_depths cf w d ms p n q : reachable cf ms p ->
  593 ^ N.of_nat (S d) < 2 ^ w -> 10 <= w ->
  Yasai.perft cf (S d) p = Some (n, q) ->
  exists out, perft_prog cf w (S d) true p = Some (n, p, out).
Proof.
  intros R B W E. pose proof (perft_bound cf d p q n E) as Le.
  pose proof (perft_io_spec (ops cf) (zt cf) (cf_checks cf) w W (fits cf) d true p) as S0.
  fold (Yasai.perft cf (S d) p) in S0. rewrite E in S0.
  destruct (perft_lines cf d ms p n q R E) as [-> _].
  fold (perft_prog cf w (S d) true p) in S0.
  unfold mach in S0. destruct (N.ltb_spec n (2 ^ w)); [|lia].
  rewrite N.mod_small in S0 by assumption. destruct (cf_checks cf); exact S0.
Qed.
Print Assumptions C62_small_depths.

Example C62_example cf d : N.of_nat d <= 4 -> exists out total nps,
  main_prog cf 64 (Some d) 1000 = Some (Report out total nps) /\ length out = 30%nat.
Proof.
  intros D. destruct (C62_main cf 64 d 1000) as [L [N [H [_ P]]]]; [discriminate|reflexivity|right; lia|].
  destruct P as [out [E [_ [K _]]]]; [|exists out; eauto].
  right. destruct (demo_new cf partial_startpos start_okp) as [p [l [_ [R [G [Y _]]]]]].
  destruct (perft_total cf (Nat.pred d) [] p R (demo_std cf _ p start_okp G) (start_kings cf p G)) as [n E].
  { right. rewrite Y. change (pp_ply partial_startpos) with 1. lia. }
  destruct (perft_lines cf _ [] p n p R E) as [_ [L' [HL' ->]]]. rewrite G in HL'.
  apply perft_bound in E.
  rewrite (lists_lines_length (game_of partial_startpos) (S (Nat.pred d)) L L'); [| |exact HL'].
  - eapply N.le_lt_trans; [exact E|]. apply N.le_lt_trans with (593 ^ 4); [|reflexivity].
    apply N.pow_le_mono_r; [discriminate|]. lia.
  - split; [exact N|]. intros k. rewrite H. replace (Nat.max 1 d) with (S (Nat.pred d)) by lia. reflexivity.
Qed.
Example C62_example_overflow cf nanos : 0 < nanos -> cf_checks cf = true ->
  main_prog cf 32 (Some 13%nat) nanos = None.
Proof.
  intros Nz C. apply (C62_counter_refuted cf 32 13 nanos); [discriminate|exact Nz|vm_compute; discriminate|discriminate|exact C].
Qed.
