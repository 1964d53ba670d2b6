(** * Properties relating several positions or several builds

    C12, C23, C30 and C31 of properties.jsonl. *)

From Coq Require Import String List Bool NArith ZArith Lia Permutation.
From Verif Require Import Types Rules Bitboard BackendCore BackendSimd Tables Zobrist Position Movegen Perft
  Api Sfen Hash ValidPlay Reach Decide Lines Bisim Twins PerftSpec Symmetry Consequences Facts Witness PropPlay PropKeys.
Import ListNotations.

(** C12: whatever the builds and the histories *)
Theorem C12_history_independent cf1 cf2 ms1 ms2 p q :
  reachable cf1 ms1 p -> reachable cf2 ms2 q -> same_game (view cf1 p) (view cf2 q) ->
  Yasai.legal_moves cf1 p = Yasai.legal_moves cf2 q /\
  Yasai.in_check cf1 p = Yasai.in_check cf2 q /\
  (forall m, Yasai.is_check_move cf1 p m = Yasai.is_check_move cf2 q m).
Proof. exact (same_answers cf1 cf2 ms1 ms2 p q). Qed.
Print Assumptions C12_history_independent.

(* one position reached by a move, and made by Position::new *)
Example C12_example cf1 cf2 : exists p q,
  reachable cf1 [mv (n7, n7) (n7, n6) false] p /\ reachable cf2 [] q /\
  same_game (view cf1 p) (view cf2 q).
Proof.
  destruct (demo_step cf1 startpos [] _ one_move_ok) as [_ [p [_ [_ [_ [_ [R G]]]]]]].
  destruct (demo_new cf2 moved1 moved1_ok) as [q [l' [N' [R' [G' _]]]]].
  exists p, q. split; [assumption|]. split; [assumption|].
  apply (same_trans _ _ _ G). rewrite G'. apply same_gameb_spec. vm_compute. reflexivity.
Qed.

(** C23: the same calls under two backends (same table, same profile), legal
    or not, from any PartialPosition: either both panic or both return, and
    then everything but legal_moves is the same; *)
Theorem C23_backends_agree cf b pp cs :
  match (let* p := Yasai.new cf pp in run cf p cs),
        (let* q := Yasai.new (with_backend cf b) pp in run (with_backend cf b) q cs) with
  | Some p, Some q => same_obs cf (with_backend cf b) p q
  | None, None => True
  | _, _ => False
  end.
Proof.
  pose proof (backends_agree cf b pp cs) as H.
  destruct (let* p := Yasai.new cf pp in run cf p cs), (let* q := Yasai.new (with_backend cf b) pp in _);
    exact H.
Qed.
Print Assumptions C23_backends_agree.

(** on reachable positions the move lists are the same too, in order. *)
Theorem C23_legal_moves_agree cf b pp cs ms p :
  (let* p := Yasai.new cf pp in run cf p cs) = Some p -> reachable cf ms p ->
  exists q,
    (let* q := Yasai.new (with_backend cf b) pp in run (with_backend cf b) q cs) = Some q /\
    same_obs cf (with_backend cf b) p q /\
    Yasai.legal_moves cf p = Yasai.legal_moves (with_backend cf b) q.
Proof. exact (backends_agree_reachable cf b pp cs ms p). Qed.
Print Assumptions C23_legal_moves_agree.

(* all four backends, after a line with captures, a promotion and a drop *)
Example C23_example cf : exists p,
  (let* p := Yasai.new cf startpos in run cf p (map DoMove opening)) = Some p /\
  reachable cf (rev opening) p.
Proof.
  destruct (demo_new cf startpos startpos_ok) as [p [l [N [R [G [Y E]]]]]].
  assert (L : legal_line (view cf p) opening).
  { rewrite G. apply legal_lineb_spec. vm_compute. reflexivity. }
  destruct (do_line_total cf opening [] p R (demo_std cf _ p startpos_ok G) L) as [q D]; [right; rewrite Y; vm_compute; discriminate|].
  exists q. rewrite N. cbn [bind]. split.
  - clear - D. revert p D. induction opening as [|m l IH]; intros p D; cbn [map run do_line] in *; [exact D|].
    cbn [step]. destruct (Yasai.do_move cf p m) as [p'|]; [|discriminate]. cbn [bind]. auto.
  - destruct (do_line_spec cf opening [] p q R L D) as [R' _]. rewrite app_nil_r in R'. exact R'.
Qed.

(** C30 *)
Theorem C30_perft_counts_lines cf d ms p n p' :
  reachable cf ms p -> Yasai.perft cf (S d) p = Some (n, p') ->
  p' = p /\
  exists L, NoDup L /\ (forall l, In l L <-> length l = S d /\ legal_line (view cf p) l) /\
    n = N.of_nat (length L).
Proof.
  intros R E. destruct (perft_lines cf d ms p n p' R E) as [H [L [[N I] C]]].
  split; [assumption|]. exists L. tauto.
Qed.
Print Assumptions C30_perft_counts_lines.

Theorem C30_perft_total cf d ms p :
  reachable cf ms p -> standard_material (view cf p) ->
  (forall c, exists s, Yasai.piece_at cf p s = Some (mkP King c)) ->
  cf_checks cf = false \/ (Yasai.ply cf p + N.of_nat d <= 65535)%N ->
  exists n, Yasai.perft cf (S d) p = Some (n, p).
Proof. exact (perft_total cf d ms p). Qed.
Print Assumptions C30_perft_total.

Example C30_example cf d : (N.of_nat d <= 65534)%N ->
  exists p n, reachable cf [] p /\ Yasai.perft cf (S d) p = Some (n, p).
Proof.
  intros H. destruct (demo_new cf startpos startpos_ok) as [p [l [_ [R [G [Y _]]]]]].
  destruct (C30_perft_total cf d [] p R (demo_std cf _ p startpos_ok G)) as [n E].
  - intros c. change (Yasai.piece_at cf p) with (g_board (view cf p)). rewrite G.
    destruct c; [exists (Sq n5 n9)|exists (Sq n5 n1)]; reflexivity.
  - right. rewrite Y. change (pp_ply startpos) with 1%N. lia.
  - exists p, n. tauto.
Qed.

(** C31 *)
Definition swap_piece (x : piece) : piece := mkP (pkind x) (flip (pcolor x)).
Definition rotate_game (g : game) : game :=
  mkG (fun s => option_map swap_piece (g_board g (rotate_sq s)))
      (fun c => g_hand g (flip c)) (flip (g_side g)).
Definition rotate_move (m : move) : move :=
  match m with
  | Normal f t pr => Normal (rotate_sq f) (rotate_sq t) pr
  | Drop t x => Drop (rotate_sq t) (swap_piece x)
  end.

Theorem C31_colour_symmetry cf1 cf2 ms1 ms2 p q l1 l2 :
  reachable cf1 ms1 p -> reachable cf2 ms2 q ->
  same_game (view cf2 q) (rotate_game (view cf1 p)) ->
  Yasai.legal_moves cf1 p = Some l1 -> Yasai.legal_moves cf2 q = Some l2 ->
  Permutation (map rotate_move l1) l2.
Proof. exact (symmetric_moves rotation cf1 cf2 ms1 ms2 p q l1 l2). Qed.
Print Assumptions C31_colour_symmetry.

(* after 7g7f, and the same position seen from the other side *)
Definition moved1_rotated : partial :=
  sfen "lnsgkgsnl/1r5b1/pppppp1pp/6p2/9/9/PPPPPPPPP/1B5R1/LNSGKGSNL" Black "-".
Lemma moved1_rotated_ok : demo_okb moved1_rotated [] = true.
Proof. vm_compute. reflexivity. Qed.
Example C31_example cf1 cf2 : exists p q l1 l2,
  reachable cf1 [] p /\ reachable cf2 [] q /\
  same_game (view cf2 q) (rotate_game (view cf1 p)) /\
  Yasai.legal_moves cf1 p = Some l1 /\ Yasai.legal_moves cf2 q = Some l2 /\
  In (mv (n3, n3) (n3, n4) false) l1.
Proof.
  destruct (demo_new cf1 moved1 moved1_ok) as [p [l [_ [R [G [_ E]]]]]].
  destruct (demo_new cf2 moved1_rotated moved1_rotated_ok) as [q [l' [_ [R' [G' [_ E']]]]]].
  exists p, q, l, l'. split; [assumption|]. split; [assumption|]. split.
  - rewrite G, G'. apply same_gameb_spec. vm_compute. reflexivity.
  - split; [assumption|]. split; [assumption|]. apply (api_legal_moves cf1 _ p l R E). rewrite G.
    apply legalb_spec. vm_compute. reflexivity.
Qed.

(** C34: the left-right mirror image *)
Definition mirror_game (g : game) : game :=
  mkG (fun s => g_board g (reflect_sq s)) (g_hand g) (g_side g).
Definition mirror_move (m : move) : move :=
  match m with
  | Normal f t pr => Normal (reflect_sq f) (reflect_sq t) pr
  | Drop t x => Drop (reflect_sq t) x
  end.
Lemma mirror_move_sy m : sy_move reflection m = mirror_move m.
Proof. destruct m as [f t pr|t [k c]]; reflexivity. Qed.
Lemma mirror_game_sy g : same_game (mirror_game g) (sy_game reflection g).
Proof.
  split; [|split]; [|reflexivity..]. intros s. cbn [mirror_game sy_game g_board]. unfold sy_board.
  cbn [reflection sy_sq]. destruct (g_board g (reflect_sq s)) as [[k c]|]; reflexivity.
Qed.

Theorem C34_mirror_symmetry cf1 cf2 ms1 ms2 p q l1 l2 :
  reachable cf1 ms1 p -> reachable cf2 ms2 q ->
  same_game (view cf2 q) (mirror_game (view cf1 p)) ->
  Yasai.legal_moves cf1 p = Some l1 -> Yasai.legal_moves cf2 q = Some l2 ->
  Permutation (map mirror_move l1) l2.
Proof.
  intros R1 R2 G E1 E2.
  rewrite <- (map_ext (sy_move reflection)) by apply mirror_move_sy.
  apply (symmetric_moves reflection cf1 cf2 ms1 ms2 p q l1 l2 R1 R2); [|assumption..].
  apply (same_trans _ _ _ G). apply mirror_game_sy.
Qed.
Print Assumptions C34_mirror_symmetry.

Definition moved1_mirrored : partial :=
  sfen "lnsgkgsnl/1b5r1/ppppppppp/9/9/6P2/PPPPPP1PP/1R5B1/LNSGKGSNL" White "-".
Lemma moved1_mirrored_ok : demo_okb moved1_mirrored [] = true.
Proof. vm_compute. reflexivity. Qed.
Example C34_example cf1 cf2 : exists p q l1 l2,
  reachable cf1 [] p /\ reachable cf2 [] q /\
  same_game (view cf2 q) (mirror_game (view cf1 p)) /\
  Yasai.legal_moves cf1 p = Some l1 /\ Yasai.legal_moves cf2 q = Some l2 /\
  In (mv (n3, n3) (n3, n4) false) l1.
Proof.
  destruct (demo_new cf1 moved1 moved1_ok) as [p [l [_ [R [G [_ E]]]]]].
  destruct (demo_new cf2 moved1_mirrored moved1_mirrored_ok) as [q [l' [_ [R' [G' [_ E']]]]]].
  exists p, q, l, l'. split; [assumption|]. split; [assumption|]. split.
  - rewrite G, G'. apply same_gameb_spec. vm_compute. reflexivity.
  - split; [assumption|]. split; [assumption|]. apply (api_legal_moves cf1 _ p l R E). rewrite G.
    apply legalb_spec. vm_compute. reflexivity.
Qed.
