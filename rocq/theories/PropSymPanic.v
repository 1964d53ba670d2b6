(** * Rotated and mirrored positions panic together

    C31, C34 and C61 of properties.jsonl. *)

From Coq Require Import String List Bool NArith ZArith Lia Permutation.
From Verif Require Import Types Rules Bitboard BackendCore BackendSimd Tables Zobrist Position Movegen Perft
  Api Sfen ValidPlay Hash Reach Decide Lines PerftSpec Symmetry Witness PerftPanic Client Bisim Twins PropPlay PropKeys PropMoves PropAgree PropPerft PropRules.
Import ListNotations.
Local Open Scope nat_scope.

Section Sym.
Context (y : symmetry).
Notation f := (sy_sq y).
Notation ga := (sy_col y).
Notation sg := (sy_game y).
Notation sm := (sy_move y).

Lemma sy_overfull g : overfull g -> overfull (sg g).
Proof.
  intros [C [l [ND [L P]]]]. split.
  - cbn [sy_game g_board g_side]. rewrite sy_in_check_iff. exact C.
  - exists (map sm l). split; [|split].
    + apply FinFun.Injective_map_NoDup; [|exact ND]. intros a b E.
      rewrite <- (sy_move_inv y a), E. apply sy_move_inv.
    + rewrite map_length. exact L.
    + intros m I. apply in_map_iff in I as [m0 [<- I]]. destruct (P m0 I) as [P1 P2].
      split; [apply sy_pseudo; exact P1|]. intros [K M]. apply P2. split; [destruct m0; exact K|].
      apply (sy_checkmated_iff y). exact (checkmated_same _ _ (sy_play y g m0) M).
Qed.

Lemma sy_blocked ck n g m : blocked ck n g m -> blocked ck n (sg g) (sm m).
Proof.
  intros [X|[a [t [pr [[k c] [-> [B H]]]]]]]; [left; exact X|right].
  exists (f a), (f t), pr, (mkP k (ga c)). split; [reflexivity|]. split; [apply sy_at; exact B|].
  cbn [sy_game g_hand g_side pkind] in *. rewrite sy_col_inv. exact H.
Qed.

Lemma sy_play_line l : forall g, same_game (play_line (sg g) (map sm l)) (sg (play_line g l)).
Proof.
  induction l as [|m l IH]; intros g; [repeat split|].
  apply (same_trans _ (play_line (sg (play g m)) (map sm l))); [|apply IH].
  exact (play_line_same (map sm l) _ _ (sy_play y g m)).
Qed.

Lemma sy_trouble ck n g a b : trouble ck n g a b -> trouble ck n (sg g) a b.
Proof.
  intros [l [L T]]. exists (map sm l). split; [apply sy_line; exact L|]. rewrite map_length.
  pose proof (same_sym _ _ (sy_play_line l g)) as G. destruct T as [[Ll O]|[Ll [m [Lm Bm]]]].
  - left. split; [exact Ll|]. exact (overfull_same _ _ G (sy_overfull _ O)).
  - right. split; [exact Ll|]. exists (sm m). split; [exact (legal_same _ _ _ G (sy_legal y _ _ Lm))|].
    exact (blocked_same _ _ _ _ _ G (sy_blocked _ _ _ _ Bm)).
Qed.

Lemma sy_back g h : same_game h (sg g) -> same_game (sg h) g.
Proof.
  intros [B [H E]]. destruct (sy_game_inv y g) as [B' [H' E']].
  split; [|split]; cbn [sy_game g_board g_hand g_side] in *.
  - intros s. rewrite <- B'. unfold sy_board at 1 2. rewrite B. reflexivity.
  - intros c k. rewrite <- H', H. reflexivity.
  - rewrite <- E', E. reflexivity.
Qed.

Context (cf1 cf2 : config) (ms1 ms2 : list move) (p : position (ops cf1)) (q : position (ops cf2))
  (R1 : reachable cf1 ms1 p) (R2 : reachable cf2 ms2 q)
  (G : same_game (view cf2 q) (sg (view cf1 p))).

Lemma sym_list_panics : Yasai.legal_moves cf1 p = None <-> Yasai.legal_moves cf2 q = None.
Proof.
  rewrite (api_overfull cf1 ms1 p R1), (api_overfull cf2 ms2 q R2). split; intros O.
  - apply (overfull_same _ _ (same_sym _ _ G)), sy_overfull, O.
  - apply (overfull_same _ _ (sy_back _ _ G)), sy_overfull, O.
Qed.

Context (Ck : cf_checks cf1 = cf_checks cf2) (Y : Yasai.ply cf1 p = Yasai.ply cf2 q).

Lemma sym_do_panics m : legal (view cf1 p) m ->
  (Yasai.do_move cf1 p m = None <-> Yasai.do_move cf2 q (sm m) = None).
Proof.
  intros L.
  assert (L' : legal (view cf2 q) (sm m)) by exact (legal_same _ _ _ (same_sym _ _ G) (sy_legal y _ _ L)).
  rewrite (api_blocked cf1 ms1 p m R1 L), (api_blocked cf2 ms2 q _ R2 L'), Ck, Y. split; intros B.
  - apply (blocked_same _ _ _ _ _ (same_sym _ _ G)), sy_blocked, B.
  - apply (sy_blocked) in B. rewrite sy_move_inv in B. exact (blocked_same _ _ _ _ _ (sy_back _ _ G) B).
Qed.

Lemma sym_trouble a b : trouble (cf_checks cf1) (Yasai.ply cf1 p) (view cf1 p) a b <->
  trouble (cf_checks cf2) (Yasai.ply cf2 q) (view cf2 q) a b.
Proof.
  rewrite Ck, Y. split; intros T.
  - apply (trouble_same _ _ _ _ _ _ (same_sym _ _ G)), sy_trouble, T.
  - apply (trouble_same _ _ _ _ _ _ (sy_back _ _ G)), sy_trouble, T.
Qed.

Lemma sym_perft_panics d :
  Yasai.perft cf1 (S d) p = None <-> Yasai.perft cf2 (S d) q = None.
Proof. rewrite (perft_panics cf1 d ms1 p R1), (perft_panics cf2 d ms2 q R2). apply sym_trouble. Qed.
End Sym.

(** C31 *)
Theorem C31_panics_together cf1 cf2 ms1 ms2 p q :
  reachable cf1 ms1 p -> reachable cf2 ms2 q -> same_game (view cf2 q) (rotate_game (view cf1 p)) ->
  (Yasai.legal_moves cf1 p = None <-> Yasai.legal_moves cf2 q = None).
Proof. exact (sym_list_panics rotation cf1 cf2 ms1 ms2 p q). Qed.
Print Assumptions C31_panics_together.

Theorem C31_moves_panic_together cf1 cf2 ms1 ms2 p q m :
  reachable cf1 ms1 p -> reachable cf2 ms2 q -> same_game (view cf2 q) (rotate_game (view cf1 p)) ->
  cf_checks cf1 = cf_checks cf2 -> Yasai.ply cf1 p = Yasai.ply cf2 q -> legal (view cf1 p) m ->
  (Yasai.do_move cf1 p m = None <-> Yasai.do_move cf2 q (rotate_move m) = None).
Proof.
  intros R1 R2 G Ck Y L.
  pose proof (sym_do_panics rotation cf1 cf2 ms1 ms2 p q R1 R2 G Ck Y m L) as H. destruct m; exact H.
Qed.
Print Assumptions C31_moves_panic_together.

(** C34 *)
Theorem C34_panics_together cf1 cf2 ms1 ms2 p q :
  reachable cf1 ms1 p -> reachable cf2 ms2 q -> same_game (view cf2 q) (mirror_game (view cf1 p)) ->
  (Yasai.legal_moves cf1 p = None <-> Yasai.legal_moves cf2 q = None).
Proof.
  intros R1 R2 G. apply (sym_list_panics reflection cf1 cf2 ms1 ms2 p q R1 R2).
  apply (same_trans _ _ _ G). apply mirror_game_sy.
Qed.
Print Assumptions C34_panics_together.

Theorem C34_moves_panic_together cf1 cf2 ms1 ms2 p q m :
  reachable cf1 ms1 p -> reachable cf2 ms2 q -> same_game (view cf2 q) (mirror_game (view cf1 p)) ->
  cf_checks cf1 = cf_checks cf2 -> Yasai.ply cf1 p = Yasai.ply cf2 q -> legal (view cf1 p) m ->
  (Yasai.do_move cf1 p m = None <-> Yasai.do_move cf2 q (mirror_move m) = None).
Proof.
  intros R1 R2 G Ck Y L. rewrite <- mirror_move_sy.
  apply (sym_do_panics reflection cf1 cf2 ms1 ms2 p q R1 R2); try assumption.
  apply (same_trans _ _ _ G). apply mirror_game_sy.
Qed.
Print Assumptions C34_moves_panic_together.

(** C61 *)
Theorem C61_panics_together cf1 cf2 ms1 ms2 p q d :
  reachable cf1 ms1 p -> reachable cf2 ms2 q ->
  same_game (view cf2 q) (view cf1 p) \/ same_game (view cf2 q) (rotate_game (view cf1 p)) \/
    same_game (view cf2 q) (mirror_game (view cf1 p)) ->
  cf_checks cf1 = cf_checks cf2 -> Yasai.ply cf1 p = Yasai.ply cf2 q ->
  (Yasai.perft cf1 (S d) p = None <-> Yasai.perft cf2 (S d) q = None).
Proof.
  intros R1 R2 [G|[G|G]] Ck Y.
  - rewrite (perft_panics cf1 d ms1 p R1), (perft_panics cf2 d ms2 q R2), Ck, Y.
    split; apply trouble_same; [apply same_sym|]; exact G.
  - exact (sym_perft_panics rotation cf1 cf2 ms1 ms2 p q R1 R2 G Ck Y d).
  - apply (sym_perft_panics reflection cf1 cf2 ms1 ms2 p q R1 R2); try assumption.
    apply (same_trans _ _ _ G). apply mirror_game_sy.
Qed.
Print Assumptions C61_panics_together.

(* eighteen pawns in hand and one more to take, for both sides *)
Definition full_hand_rotated := sfen "4k4/4P4/9/9/9/9/9/9/4K4" White "18p".
Lemma full_hand_rotated_ok : validb (game_of full_hand_rotated) &&
  same_gameb (game_of full_hand_rotated) (rotate_game (game_of full_hand)) = true.
Proof. vm_compute. reflexivity. Qed.
Lemma full_hand_rotated_fit : hands_fit (g_hand (game_of full_hand_rotated)).
Proof. intros c k _. destruct c, k; vm_compute; discriminate. Qed.
Example C61_panic_example cf : exists p q,
  reachable cf [] p /\ reachable cf [] q /\ same_game (view cf q) (rotate_game (view cf p)) /\
  Yasai.ply cf p = Yasai.ply cf q /\ legal (view cf p) (mv (n5, n9) (n5, n8) false) /\
  Yasai.do_move cf p (mv (n5, n9) (n5, n8) false) = None /\
  Yasai.do_move cf q (mv (n5, n1) (n5, n2) false) = None /\
  Yasai.perft cf 2 p = None /\ Yasai.perft cf 2 q = None.
Proof.
  pose proof full_hand_ok as H. rewrite !andb_true_iff in H. destruct H as [[V L] C].
  apply validb_spec in V. apply legalb_spec in L.
  pose proof full_hand_rotated_ok as H. rewrite !andb_true_iff in H. destruct H as [V' S].
  apply validb_spec in V'. apply same_gameb_spec in S.
  assert (P : (pp_ply full_hand <= 65535)%N) by (vm_compute; discriminate).
  assert (P' : (pp_ply full_hand_rotated <= 65535)%N) by (vm_compute; discriminate).
  destruct (start_fit cf full_hand V full_hand_fit P) as [p [_ [R [G Y]]]].
  destruct (start_fit cf full_hand_rotated V' full_hand_rotated_fit P') as [q [_ [R' [G' Y']]]].
  assert (SG : same_game (view cf q) (rotate_game (view cf p))) by (rewrite G, G'; exact S).
  assert (SY : Yasai.ply cf p = Yasai.ply cf q) by (rewrite Y, Y'; reflexivity).
  assert (Bl : blocked (cf_checks cf) (Yasai.ply cf p) (game_of full_hand) (mv (n5, n9) (n5, n8) false)).
  { right. exists (Sq n5 n9), (Sq n5 n8), false, (mkP Pawn White). split; [reflexivity|].
    split; vm_compute; reflexivity. }
  assert (D : Yasai.do_move cf p (mv (n5, n9) (n5, n8) false) = None).
  { apply (api_blocked cf [] p _ R); rewrite G; assumption. }
  assert (F : Yasai.perft cf 2 p = None).
  { apply (perft_panics cf 1 [] p R). rewrite G. exists []. split; [exact I|]. right. split; [cbn; lia|].
    exists (mv (n5, n9) (n5, n8) false). split; [exact L|]. rewrite N.add_0_r. exact Bl. }
  exists p, q. repeat (split; [assumption|]). split; [rewrite G; exact L|]. split; [exact D|]. split.
  - apply (C31_moves_panic_together cf cf [] [] p q (mv (n5, n9) (n5, n8) false) R R' SG eq_refl SY);
      [rewrite G; exact L|exact D].
  - split; [exact F|].
    apply (C61_panics_together cf cf [] [] p q 1 R R'); [right; left; exact SG|reflexivity|exact SY|exact F].
Qed.

(* more than 593 moves, and the mirror image *)
Definition max599_mirrored :=
  sfen "8R/1SS1S1K2/4B4/9/9/9/9/9/3L1L1L1" Black "RBGSNLP3g3n17p".
Lemma max599_mirrored_ok : validb (game_of max599_mirrored) && standardb (game_of max599_mirrored) &&
  same_gameb (game_of max599_mirrored) (mirror_game (game_of max599)) = true.
Proof. vm_compute. reflexivity. Qed.
Example C34_panic_example cf : exists p q,
  reachable cf [] p /\ reachable cf [] q /\ same_game (view cf q) (mirror_game (view cf p)) /\
  Yasai.legal_moves cf p = None /\ Yasai.legal_moves cf q = None.
Proof.
  pose proof max599_start as H. rewrite !andb_true_iff in H. destruct H as [V M].
  apply validb_spec in V. apply standardb_spec in M.
  pose proof max599_mirrored_ok as H. rewrite !andb_true_iff in H. destruct H as [[V' M'] S].
  apply validb_spec in V'. apply standardb_spec in M'. apply same_gameb_spec in S.
  assert (P : (pp_ply max599 <= 65535)%N) by (vm_compute; discriminate).
  assert (P' : (pp_ply max599_mirrored <= 65535)%N) by (vm_compute; discriminate).
  destruct (start_reachable cf max599 V M P) as [p [_ [R [G _]]]].
  destruct (start_reachable cf max599_mirrored V' M' P') as [q [_ [R' [G' _]]]].
  destruct (start_reachable max_cfg max599 V M P) as [p0 [N0 [R0 [G0 _]]]].
  assert (SG : same_game (view cf q) (mirror_game (view cf p))) by (rewrite G, G'; exact S).
  assert (E : Yasai.legal_moves cf p = None).
  { destruct (same_answers cf max_cfg _ _ p p0 R R0) as [-> _]; [rewrite G, G0; apply same_refl|].
    pose proof max599_panics as C. rewrite N0 in C.
    destruct (Yasai.legal_moves max_cfg p0); [discriminate|reflexivity]. }
  exists p, q. repeat (split; [assumption|]).
  apply (C34_panics_together cf cf [] [] p q R R' SG). exact E.
Qed.
