(** * Concrete positions that meet the hypotheses of the theorems *)

From Coq Require Import String List Bool NArith ZArith Lia.
From Verif Require Import Types Rules Bitboard Zobrist Position Movegen Api Sfen
  Squares Rep Legality PawnDrop Gen Drops Exact ValidPlay Moves Reach Decide Capacity Lines.
Import ListNotations.

(* a valid start, a legal line, and the king of the side not to move is there *)
Definition demo_okb (pp : partial) (l : list move) : bool :=
  let g := game_of pp in
  let h := play_line g l in
  validb g && standardb g && legal_lineb g l && (pp_ply pp + N.of_nat (length l) <=? 65535)%N &&
  existsb (fun s => is_piece (g_board h s) (mkP King (flip (g_side h)))) all_squares.

Lemma opponent_has_king_same g h : same_game g h -> opponent_has_king g -> opponent_has_king h.
Proof.
  intros [B [_ Sd]] [s H]. exists s. rewrite <- B, <- Sd. assumption.
Qed.

Lemma line_standard pp l h : valid (game_of pp) -> standard_material (game_of pp) ->
  legal_line (game_of pp) l -> same_game h (play_line (game_of pp) l) -> standard_material h.
Proof.
  intros V M L G k. rewrite (material_same _ _ k G).
  rewrite (material_line l _ k V); [apply M| |exact L].
  intros c j Nj. cbn [game_of g_hand]. apply hand_n_not. exact Nj.
Qed.
Lemma demo_standard cf pp l p : demo_okb pp l = true -> same_game (view cf p) (play_line (game_of pp) l) ->
  standard_material (view cf p).
Proof.
  unfold demo_okb. rewrite !andb_true_iff. intros [[[[V M] LL] _] _].
  apply (line_standard pp l).
  - apply validb_spec. assumption.
  - apply standardb_spec. assumption.
  - apply legal_lineb_spec. assumption.
Qed.

Lemma demo cf pp l : demo_okb pp l = true ->
  exists p L, reachable cf (rev l) p /\ same_game (view cf p) (play_line (game_of pp) l) /\
    opponent_has_king (view cf p) /\ Yasai.legal_moves cf p = Some L.
Proof.
  intros Ok. pose proof Ok as Ok'. revert Ok'.
  unfold demo_okb. rewrite !andb_true_iff. intros [[[[V M] LL] P] K].
  destruct (line_reachable cf pp l) as [p [R G]].
  - apply validb_spec. assumption.
  - apply standardb_spec. assumption.
  - apply N.leb_le. assumption.
  - apply legal_lineb_spec. assumption.
  - assert (O : opponent_has_king (view cf p)).
    { apply (opponent_has_king_same (play_line (game_of pp) l)); [apply same_sym; assumption|].
      apply existsb_exists in K as [s [_ K]]. exists s. apply is_piece_spec. assumption. }
    destruct (api_legal_moves_total cf _ p R (demo_standard cf pp l p Ok G) O) as [L E].
    exists p, L. tauto.
Qed.

(* what the rules say of the position reached *)
Lemma demo_legal cf p g m : same_game (view cf p) g -> legalb g m = true -> legal (view cf p) m.
Proof. intros G L. apply (legal_same g); [apply same_sym; assumption|]. apply legalb_spec. assumption. Qed.
Lemma demo_illegal cf p g m : same_game (view cf p) g -> legalb g m = false -> ~ legal (view cf p) m.
Proof.
  intros G L H. apply (legal_same _ g) in H; [|assumption]. apply legalb_spec in H. congruence.
Qed.
Lemma demo_line cf p g l : same_game (view cf p) g -> legal_lineb g l = true -> legal_line (view cf p) l.
Proof.
  intros G L. apply (legal_line_same l g); [apply same_sym; assumption|]. apply legal_lineb_spec.
  assumption.
Qed.

Definition mv (f t : i9 * i9) (pr : bool) : move :=
  Normal (Sq (fst f) (snd f)) (Sq (fst t) (snd t)) pr.
Definition dr (t : i9 * i9) (k : kind) (c : color) : move := Drop (Sq (fst t) (snd t)) (mkP k c).

(* position.rs 491-559: a promotion with capture, a recapture, a drop with check *)
Definition opening : list move :=
  [mv (n7, n7) (n7, n6) false; mv (n3, n3) (n3, n4) false; mv (n8, n8) (n2, n2) true;
   mv (n3, n1) (n2, n2) false; dr (n3, n3) Bishop Black].
Definition opening4 : list move := firstn 4 opening.
Definition opening2 : list move := firstn 2 opening.

Definition drop_mate := sfen "9/7pp/8k/7P1/7G1/9/9/9/9" Black "P".
Definition drop_no_mate := sfen "9/7pp/7gk/9/7G1/9/9/9/9" Black "P".
Definition double := sfen "4r3k/9/9/9/9/9/5n3/9/4K4" Black "-".
Definition single := sfen "4r3k/9/9/9/9/9/9/9/4K4" Black "G".
Definition pinned := sfen "4r3k/9/9/9/9/9/9/4G4/4K4" Black "-".
Definition mated := sfen "4k4/4G4/4P4/9/9/9/9/9/4K4" White "-".
Definition last_ply :=
  mkPartial Black 65535 (pp_hands startpos) (pp_board startpos).
Definition max593 :=
  sfen "R8/2K1S1SSk/4B4/9/9/9/9/9/1L1L1L3" Black "RBGSNLP3g3n17p".
Definition max599 :=
  sfen "R8/2K1S1SS1/4B4/9/9/9/9/9/1L1L1L3" Black "RBGSNLP3g3n17p".

Lemma opening_ok : demo_okb startpos opening = true.
Proof. vm_compute. reflexivity. Qed.
Lemma opening4_ok : demo_okb startpos opening4 = true.
Proof. vm_compute. reflexivity. Qed.
Lemma opening2_ok : demo_okb startpos opening2 = true.
Proof. vm_compute. reflexivity. Qed.
Lemma startpos_ok : demo_okb startpos [] = true.
Proof. vm_compute. reflexivity. Qed.
Lemma drop_mate_ok : demo_okb drop_mate [] = true.
Proof. vm_compute. reflexivity. Qed.
Lemma drop_no_mate_ok : demo_okb drop_no_mate [] = true.
Proof. vm_compute. reflexivity. Qed.
Lemma double_ok : demo_okb double [] = true.
Proof. vm_compute. reflexivity. Qed.
Lemma single_ok : demo_okb single [] = true.
Proof. vm_compute. reflexivity. Qed.
Lemma pinned_ok : demo_okb pinned [] = true.
Proof. vm_compute. reflexivity. Qed.
Lemma mated_ok : demo_okb mated [] = true.
Proof. vm_compute. reflexivity. Qed.
Lemma max593_ok : demo_okb max593 [] = true.
Proof. vm_compute. reflexivity. Qed.
Lemma last_ply_ok : demo_okb last_ply [] = true.
Proof. vm_compute. reflexivity. Qed.

(* a demo position as made by Position::new *)
Lemma demo_new cf pp : demo_okb pp [] = true ->
  exists p L, Yasai.new cf pp = Some p /\ reachable cf [] p /\ view cf p = game_of pp /\
    Yasai.ply cf p = pp_ply pp /\ Yasai.legal_moves cf p = Some L.
Proof.
  unfold demo_okb. rewrite !andb_true_iff. intros [[[[V M] LL] P] K].
  cbn [length N.of_nat] in P. rewrite N.add_0_r in P. apply N.leb_le in P.
  destruct (start_reachable cf pp (validb_spec _ V) (standardb_spec _ M) P) as [p [N [R [G Y]]]].
  assert (O : opponent_has_king (view cf p)).
  { rewrite G. apply existsb_exists in K as [s [_ K]]. exists s. apply is_piece_spec. assumption. }
  destruct (api_legal_moves_total cf _ p R ltac:(rewrite G; exact (standardb_spec _ M)) O) as [L E]. exists p, L. tauto.
Qed.

Lemma demo_std cf pp p : demo_okb pp [] = true -> view cf p = game_of pp -> standard_material (view cf p).
Proof. intros Ok G. apply (demo_standard cf pp [] p Ok). rewrite G. apply same_refl. Qed.

(* the last step of a line *)
Lemma demo_step cf pp l m : demo_okb pp (l ++ [m]) = true ->
  exists p q, reachable cf (rev l) p /\ same_game (view cf p) (play_line (game_of pp) l) /\
    legal (view cf p) m /\ Yasai.do_move cf p m = Some q /\ reachable cf (m :: rev l) q /\
    same_game (view cf q) (play_line (game_of pp) (l ++ [m])).
Proof.
  unfold demo_okb. rewrite !andb_true_iff. intros [[[[V M] LL] P] K].
  apply validb_spec in V. apply standardb_spec in M. apply N.leb_le in P.
  apply legal_lineb_spec in LL.
  destruct (start_reachable cf pp V M ltac:(lia)) as [p0 [_ [R0 [Ev Ep]]]]. rewrite <- Ev in *.
  destruct (do_line_total cf (l ++ [m]) [] p0 R0 M LL) as [q D]; [right; lia|].
  destruct (do_line_spec cf _ [] p0 q R0 LL D) as [R' [G' _]].
  rewrite app_nil_r, rev_app_distr in R'. cbn [rev app] in R'.
  rewrite do_line_app in D. destruct (do_line cf p0 l) as [p|] eqn:Dp; [|discriminate].
  assert (LL' : legal_line (view cf p0) l).
  { clear - LL. revert LL. generalize (view cf p0). induction l as [|x l IH]; intros g; cbn; [tauto|].
    intros [H1 H2]. split; [assumption|]. apply IH. assumption. }
  destruct (do_line_spec cf l [] p0 p R0 LL' Dp) as [R [G _]]. rewrite app_nil_r in R.
  cbn [do_line] in D. destruct (Yasai.do_move cf p m) as [q'|] eqn:Dm; [|discriminate]. injection D as ->.
  exists p, q. repeat (split; [assumption|]). split; [|tauto].
  apply (legal_same (play_line (view cf p0) l)); [apply same_sym; assumption|].
  clear - LL. revert LL. generalize (view cf p0). induction l as [|x l IH]; intros g; cbn; [tauto|].
  intros [_ H2]. apply IH. assumption.
Qed.

Lemma in_check_game g h : same_game g h ->
  (in_check (g_board g) (g_side g) <-> in_check (g_board h) (g_side h)).
Proof. intros [B [_ E]]. rewrite E. apply in_check_same. assumption. Qed.

Definition bishop_drop : move := dr (n3, n3) Bishop Black.
Lemma opening_step_ok : demo_okb startpos (opening4 ++ [bishop_drop]) = true.
Proof. exact opening_ok. Qed.
Definition bishop_takes : move := mv (n8, n8) (n2, n2) true.
Lemma opening3_ok : demo_okb startpos (opening2 ++ [bishop_takes]) = true.
Proof. vm_compute. reflexivity. Qed.
