(** * C71: how many pieces give check *)

From Coq Require Import String List Bool NArith ZArith Lia.
From Verif Require Import Types Rules Bitboard Zobrist Position Movegen Api Sfen
  Squares Geometry KingSafety ValidPlay Reach Lines Decide Consequences Facts Witness Checkers.
Import ListNotations.
Local Open Scope nat_scope.

(** C71 *)

(* In every position of a game but the first: at most two pieces give check, one
   after a drop, and if there are two, one of them is the piece that has moved. *)
Theorem C71_two_checkers cf ms m p K l :
  reachable cf (m :: ms) p ->
  let b := Yasai.piece_at cf p in
  let c := Yasai.side_to_move cf p in
  b K = Some (mkP King c) -> NoDup l -> (forall s, In s l -> attacks b (flip c) s K) ->
  length l <= 2 /\ (move_from m = None -> length l <= 1) /\ (length l = 2 -> In (move_to m) l).
Proof.
  intros R b c BK ND H. destruct (api_undo_total cf ms p m R) as [p0 [_ [R0 [L D]]]].
  destruct (api_do_move cf ms p0 m p R0 L D) as [B [_ Sd]].
  change (g_board (view cf p)) with b in B. change (g_side (view cf p)) with c in Sd.
  assert (E : g_side (play (view cf p0) m) = flip (g_side (view cf p0))) by (destruct m; reflexivity).
  rewrite E in Sd. assert (F : flip c = g_side (view cf p0)) by (rewrite Sd; apply flip_flip).
  apply (checkers_after (view cf p0) m K l (reach_valid cf ms p0 R0) L).
  - rewrite <- B, <- Sd. exact BK.
  - exact ND.
  - intros s I. rewrite <- F. apply attacks_att. destruct (H s I) as [k [Bs Rs]]. exists k.
    rewrite <- B. split; [exact Bs|]. apply reachb_spec. apply reachb_spec in Rs. rewrite <- Rs.
    apply reachb_ext. intros u. unfold occb. rewrite B. reflexivity.
Qed.
Print Assumptions C71_two_checkers.

(* any other piece that gives check does so across the square that was left *)
Theorem C71_discovered cf ms m p K s :
  reachable cf (m :: ms) p ->
  let b := Yasai.piece_at cf p in
  let c := Yasai.side_to_move cf p in
  b K = Some (mkP King c) -> attacks b (flip c) s K -> s <> move_to m ->
  exists f, move_from m = Some f /\ between s f K.
Proof.
  intros R b c BK A N. destruct (api_undo_total cf ms p m R) as [p0 [_ [R0 [L D]]]].
  destruct (api_do_move cf ms p0 m p R0 L D) as [B [_ Sd]].
  change (g_board (view cf p)) with b in B. change (g_side (view cf p)) with c in Sd.
  assert (E : g_side (play (view cf p0) m) = flip (g_side (view cf p0))) by (destruct m; reflexivity).
  rewrite E in Sd. assert (F : flip c = g_side (view cf p0)) by (rewrite Sd; apply flip_flip).
  destruct (checker_after (view cf p0) m s K (reach_valid cf ms p0 R0) L)
    as [X|[f [X Y]]].
  - rewrite <- B, <- Sd. exact BK.
  - rewrite <- F. apply attacks_att. destruct A as [k [Bs Rs]]. exists k.
    rewrite <- B. split; [exact Bs|]. apply reachb_spec. apply reachb_spec in Rs. rewrite <- Rs.
    apply reachb_ext. intros u. unfold occb. rewrite B. reflexivity.
  - contradiction.
  - exists f. split; [exact X|]. apply between_spec. exact Y.
Qed.
Print Assumptions C71_discovered.

(* the knight goes from 5e to 4g and opens the line of the rook on 5a *)
Definition unmask := sfen "4r3k/9/9/9/4n4/9/9/9/4K4" White "-".
Definition unmask_line := [mv (n5, n5) (n4, n7) false].
Lemma unmask_ok : demo_okb unmask unmask_line = true.
Proof. vm_compute. reflexivity. Qed.
Example C71_example cf : exists p, reachable cf (rev unmask_line) p /\
  Yasai.piece_at cf p (Sq n5 n9) = Some (mkP King (Yasai.side_to_move cf p)) /\
  attacks (Yasai.piece_at cf p) White (Sq n4 n7) (Sq n5 n9) /\
  attacks (Yasai.piece_at cf p) White (Sq n5 n1) (Sq n5 n9) /\
  between (Sq n5 n1) (Sq n5 n5) (Sq n5 n9).
Proof.
  destruct (demo cf unmask unmask_line unmask_ok) as [p [l [R [G _]]]]. exists p.
  split; [exact R|]. destruct G as [B [_ Sd]].
  change (g_board (view cf p)) with (Yasai.piece_at cf p) in B.
  change (g_side (view cf p)) with (Yasai.side_to_move cf p) in Sd.
  assert (X : forall s, attacks (g_board (play_line (game_of unmask) unmask_line)) White s (Sq n5 n9) ->
    attacks (Yasai.piece_at cf p) White s (Sq n5 n9)).
  { intros s [k [Bs Rs]]. exists k. rewrite B. split; [exact Bs|]. apply reachb_spec.
    apply reachb_spec in Rs. rewrite <- Rs. apply reachb_ext. intros u. unfold occb. rewrite B. reflexivity. }
  split; [rewrite B, Sd; vm_compute; reflexivity|].
  split; [|split]; [apply X, attacks_att, attb_spec; vm_compute; reflexivity..|].
  apply between_spec. vm_compute. reflexivity.
Qed.

(* a first position may have more: two rooks and a knight *)
Definition three := sfen "4r3k/9/9/9/9/9/5n3/9/r3K4" Black "-".
Lemma three_ok : demo_okb three [] = true.
Proof. vm_compute. reflexivity. Qed.
Theorem C71_every_position_refuted cf : exists p K l, reachable cf [] p /\
  Yasai.piece_at cf p K = Some (mkP King (Yasai.side_to_move cf p)) /\ NoDup l /\ length l = 3 /\
  forall s, In s l -> attacks (Yasai.piece_at cf p) (flip (Yasai.side_to_move cf p)) s K.
Proof.
  destruct (demo_new cf three three_ok) as [p [L [_ [R [G _]]]]].
  exists p, (Sq n5 n9), [Sq n5 n1; Sq n4 n7; Sq n9 n9]. split; [exact R|].
  change (Yasai.piece_at cf p) with (g_board (view cf p)).
  change (Yasai.side_to_move cf p) with (g_side (view cf p)). rewrite G.
  split; [vm_compute; reflexivity|]. split.
  { repeat constructor; cbn; intuition discriminate. }
  split; [reflexivity|]. change (flip (g_side (game_of three))) with White.
  intros s [<-|[<-|[<-|[]]]]; apply attacks_att, attb_spec; vm_compute; reflexivity.
Qed.
Print Assumptions C71_every_position_refuted.
