(** * legal_moves and in_check in positions that are not valid: C55 of properties.jsonl *)

From Coq Require Import String List Bool NArith ZArith Lia.
From Verif Require Import Types Rules Bitboard BackendCore BackendSimd Tables Zobrist Position Movegen
  Api Sfen Squares Geometry BBSpec Backends Attacks KingSafety Rep Legality Exact Loops ValidPlay Moves
  PawnDrop Hash Reach Decide Witness PropLimits.
Import ListNotations.

Local Opaque attack_info_new calculate_checkers.

(** C55: whatever pieces there are, whoever is in check, and whatever the pawns
    of the opponent: [orderly] (in Rules.v) is all that legal_moves needs *)
Theorem C55_legal_moves_exact cf pp p l :
  Yasai.new cf pp = Some p -> orderly (game_of pp) -> Yasai.legal_moves cf p = Some l ->
  NoDup l /\ forall m, In m l <-> legal (game_of pp) m.
Proof.
  intros N V E. rewrite (new_some cf pp (new_fit cf pp p N)) in N. injection N as <-.
  match type of E with Yasai.legal_moves _ ?q = _ => destruct (legal_moves_spec (ops cf)
    (backend_spec (cf_backend cf) (cf_checks cf)) q _
    (inner_of_partial_rep _ _ pp) V eq_refl eq_refl) as [cs [_ [_ [_ [_ [_ H]]]]]] end.
  exact (H l E).
Qed.
Print Assumptions C55_legal_moves_exact.

Theorem C55_in_check_exact cf pp p :
  Yasai.new cf pp = Some p -> orderly (game_of pp) ->
  exists b, Yasai.in_check cf p = Some b /\
    (b = true <-> in_check (g_board (game_of pp)) (g_side (game_of pp))).
Proof.
  intros N V. rewrite (new_some cf pp (new_fit cf pp p N)) in N. injection N as <-.
  set (Sp := backend_spec (cf_backend cf) (cf_checks cf)).
  set (q := inner_of_partial (ops cf) pp). pose proof (inner_of_partial_rep (ops cf) Sp pp) as Rp.
  fold q in Rp. eexists. split; [reflexivity|]. 
  change (negb (bis_empty (ops cf) (calculate_checkers (ops cf) q)) = true <->
    in_check (i_piece_at (ops cf) q) (i_side (ops cf) q)).
  change (orderly (gview (ops cf) q)) in V.
  destruct (bis_empty (ops cf) (calculate_checkers (ops cf) q)) eqn:E; cbn [negb].
  - split; [discriminate|]. intros [K [BK A]]. apply attacked_att in A as [s A].
    assert (has : bcontains (ops cf) (calculate_checkers (ops cf) q) s = true).
    { apply (checkers_att (ops cf) Sp q Rp V). exists K. tauto. }
    rewrite (proj1 (is_empty_true (ops cf) Sp _ (wf_checkers (ops cf) Sp _ Rp)) E s) in has. discriminate.
  - split; [|reflexivity]. intros _.
    apply (is_empty_false (ops cf) Sp _ (wf_checkers (ops cf) Sp _ Rp)) in E as [s E].
    apply (checkers_att (ops cf) Sp q Rp V) in E as [K [BK A]].
    exists K. split; [exact BK|]. apply attacked_att. exists s. exact A.
Qed.
Print Assumptions C55_in_check_exact.

(** ** The conditions as tests *)

Definition kingsb (g : game) : bool :=
  forallb (fun c => forallb (fun s => forallb (fun t =>
    negb (is_piece (g_board g s) (mkP King c) && is_piece (g_board g t) (mkP King c)) || sq_eqb s t)
    all_squares) all_squares) all_colors.
Definition apartb (g : game) : bool :=
  forallb (fun s => forallb (fun t =>
    negb (is_piece (g_board g s) (mkP King (g_side g)) &&
          is_piece (g_board g t) (mkP King (flip (g_side g)))) ||
    negb (attb (g_board g) (g_side g) s t)) all_squares) all_squares.
Definition pawnb (g : game) : bool :=
  forallb (fun s => negb (is_piece (g_board g s) (mkP Pawn (g_side g))) ||
    negb (deadb (g_side g) Pawn s)) all_squares.
Definition singleb (g : game) : bool :=
  forallb (fun s => forallb (fun t =>
    negb (is_piece (g_board g s) (mkP Pawn (g_side g)) &&
          is_piece (g_board g t) (mkP Pawn (g_side g)) && (fileZ s =? fileZ t)%Z && (rankZ s =? 9)%Z) || sq_eqb s t)
    all_squares) all_squares.
Definition calmb (g : game) : bool := negb (in_checkb (g_board g) (flip (g_side g))).

Lemma kingsb_spec g : kingsb g = true -> forall c s t, g_board g s = Some (mkP King c) ->
  g_board g t = Some (mkP King c) -> s = t.
Proof.
  intros H c s t Bs Bt. unfold kingsb in H. rewrite forallb_forall in H. specialize (H c (all_colors_in c)).
  rewrite forallb_forall in H. specialize (H s (all_squares_in s)).
  rewrite forallb_forall in H. specialize (H t (all_squares_in t)).
  rewrite (proj2 (is_piece_spec _ _) Bs), (proj2 (is_piece_spec _ _) Bt) in H.
  destruct (sq_eqb_spec s t); [assumption|discriminate].
Qed.
Lemma apartb_spec g : apartb g = true -> forall s t, g_board g s = Some (mkP King (g_side g)) ->
  g_board g t = Some (mkP King (flip (g_side g))) -> ~ reaches (g_board g) (g_side g) King s t.
Proof.
  intros H s t Bs Bt Rs. unfold apartb in H. rewrite forallb_forall in H. specialize (H s (all_squares_in s)).
  rewrite forallb_forall in H. specialize (H t (all_squares_in t)).
  rewrite (proj2 (is_piece_spec _ _) Bs), (proj2 (is_piece_spec _ _) Bt) in H.
  apply orb_true_iff in H as [H|H]; [discriminate|]. apply negb_true_iff in H.
  assert (A : attb (g_board g) (g_side g) s t = true); [|congruence].
  apply attb_spec. exists King. split; [assumption|]. apply reachb_spec. assumption.
Qed.
Lemma pawnb_spec g : pawnb g = true -> forall s, g_board g s = Some (mkP Pawn (g_side g)) ->
  ~ dead_square (g_side g) Pawn s.
Proof.
  intros H s Bs D. unfold pawnb in H. rewrite forallb_forall in H. specialize (H s (all_squares_in s)).
  rewrite (proj2 (is_piece_spec _ _) Bs) in H. apply deadb_spec in D. rewrite D in H. discriminate.
Qed.
Lemma singleb_spec g : singleb g = true -> forall s t, g_board g s = Some (mkP Pawn (g_side g)) ->
  g_board g t = Some (mkP Pawn (g_side g)) -> fileZ s = fileZ t -> rankZ s = 9%Z -> s = t.
Proof.
  intros H s t Bs Bt F F9. unfold singleb in H. rewrite forallb_forall in H. specialize (H s (all_squares_in s)).
  rewrite forallb_forall in H. specialize (H t (all_squares_in t)).
  rewrite (proj2 (is_piece_spec _ _) Bs), (proj2 (is_piece_spec _ _) Bt), F, F9, !Z.eqb_refl in H.
  destruct (sq_eqb_spec s t); [assumption|discriminate].
Qed.
Lemma calmb_spec g : calmb g = true -> ~ in_check (g_board g) (flip (g_side g)).
Proof. unfold calmb. intros H C. apply in_checkb_spec in C. rewrite C in H. discriminate. Qed.

Definition heldb (g : game) : bool := (0 <? g_hand g (g_side g) Pawn)%N.
Lemma orderlyb_spec g :
  kingsb g && apartb g && pawnb g && (negb (heldb g) || calmb g && singleb g) = true -> orderly g.
Proof.
  rewrite !andb_true_iff. intros [[[H1 H2] H3] H4]. constructor.
  - apply kingsb_spec. assumption.
  - apply apartb_spec. assumption.
  - apply pawnb_spec. assumption.
  - intros P. unfold heldb in H4. apply N.ltb_lt in P. rewrite P in H4. cbn [negb orb] in H4.
    apply andb_true_iff in H4 as [H4 H5]. split; [apply calmb_spec|apply singleb_spec]; assumption.
Qed.


(* an invalid position (the White king en prise, a White pawn on the last rank,
   three Black pawns on a file, five golds in hand, no pawn to drop) and one
   with a pawn to drop and two Black pawns on a file *)
Definition much_wrong : partial := sfen "4k4/9/4P4/4P4/4P4/9/9/9/4R1K1p" Black "5G".
Definition pawns_wrong : partial := sfen "4k4/9/9/4P4/4P4/9/9/9/P5K1p" Black "P".
Example C55_example cf : exists p q,
  Yasai.new cf much_wrong = Some p /\ Yasai.new cf pawns_wrong = Some q /\
  validb (game_of much_wrong) = false /\ validb (game_of pawns_wrong) = false /\
  standardb (game_of much_wrong) = false /\
  orderly (game_of much_wrong) /\ orderly (game_of pawns_wrong) /\
  legal (game_of pawns_wrong) (dr (n4, n5) Pawn Black).
Proof.
  assert (F1 : hands_fit (g_hand (game_of much_wrong))) by (intros [] [] _; vm_compute; discriminate).
  assert (F2 : hands_fit (g_hand (game_of pawns_wrong))) by (intros [] [] _; vm_compute; discriminate).
  eexists _, _. split; [exact (new_some cf much_wrong F1)|]. split; [exact (new_some cf pawns_wrong F2)|].
  split; [vm_compute; reflexivity|]. split; [vm_compute; reflexivity|]. split; [vm_compute; reflexivity|].
  split; [apply orderlyb_spec; vm_compute; reflexivity|]. split; [apply orderlyb_spec; vm_compute; reflexivity|].
  apply legalb_spec. vm_compute. reflexivity.
Qed.

(** ** None of the conditions can be dropped *)

Definition lone_kings (g : game) : Prop := forall c s t,
  g_board g s = Some (mkP King c) -> g_board g t = Some (mkP King c) -> s = t.
Definition kings_apart (g : game) : Prop := forall s t,
  g_board g s = Some (mkP King (g_side g)) -> g_board g t = Some (mkP King (flip (g_side g))) ->
  ~ reaches (g_board g) (g_side g) King s t.
Definition live_pawns (g : game) : Prop := forall s,
  g_board g s = Some (mkP Pawn (g_side g)) -> ~ dead_square (g_side g) Pawn s.
Definition calm_drops (g : game) : Prop := (0 < g_hand g (g_side g) Pawn)%N ->
  ~ in_check (g_board g) (flip (g_side g)).
Definition low_pawns (g : game) : Prop := (0 < g_hand g (g_side g) Pawn)%N -> forall s t,
  g_board g s = Some (mkP Pawn (g_side g)) -> g_board g t = Some (mkP Pawn (g_side g)) ->
  fileZ s = fileZ t -> rankZ s = 9%Z -> s = t.

Theorem C55_orderly_parts g : orderly g <->
  lone_kings g /\ kings_apart g /\ live_pawns g /\ calm_drops g /\ low_pawns g.
Proof.
  split.
  - intros [H1 H2 H3 H4]. split; [exact H1|]. split; [exact H2|]. split; [exact H3|].
    split; intros H; [exact (proj1 (H4 H))|exact (proj2 (H4 H))].
  - intros [H1 [H2 [H3 [H4 H5]]]]. constructor; try assumption.
    intros H. split; [exact (H4 H)|exact (H5 H)].
Qed.
Print Assumptions C55_orderly_parts.

(* an illegal move is listed *)
Definition lists_illegal (cf : config) (pp : partial) : Prop := exists p l m,
  Yasai.new cf pp = Some p /\ Yasai.legal_moves cf p = Some l /\ In m l /\ ~ legal (game_of pp) m.

Definition same_moveb (m n : move) : bool :=
  match m, n with
  | Normal f t r, Normal f' t' r' => sq_eqb f f' && sq_eqb t t' && Bool.eqb r r'
  | Drop t x, Drop t' x' => sq_eqb t t' && piece_eqb x x'
  | _, _ => false
  end.
Lemma same_moveb_spec m n : same_moveb m n = true -> m = n.
Proof.
  destruct m as [f t r|t x], n as [f' t' r'|t' x']; cbn [same_moveb]; try discriminate; intros H.
  - apply andb_true_iff in H as [H Hr]. apply andb_true_iff in H as [Hf Ht].
    destruct (sq_eqb_spec f f'), (sq_eqb_spec t t'); try discriminate. apply Bool.eqb_prop in Hr. congruence.
  - apply andb_true_iff in H as [Ht Hx].
    destruct (sq_eqb_spec t t'), (piece_eqb_spec x x'); try discriminate. congruence.
Qed.

Definition listsb (cf : config) (pp : partial) (m : move) : bool :=
  match (let* p := Yasai.new cf pp in Yasai.legal_moves cf p) with
  | Some l => existsb (same_moveb m) l
  | None => false
  end.
Lemma lists_illegal_at cf pp m : listsb cf pp m = true -> legalb (game_of pp) m = false -> lists_illegal cf pp.
Proof.
  intros H1 H2. unfold listsb in H1.
  destruct (Yasai.new cf pp) as [p|] eqn:Ep; cbn [bind] in H1; [|discriminate].
  destruct (Yasai.legal_moves cf p) as [l|] eqn:El; [|discriminate].
  exists p, l, m. split; [exact Ep|]. split; [exact El|]. split.
  - apply existsb_exists in H1 as [n [I E]]. apply same_moveb_spec in E as ->. exact I.
  - intros L. apply legalb_spec in L. congruence.
Qed.

Ltac parts := match goal with
  | |- lone_kings _ => refine (kingsb_spec _ _); vm_compute; reflexivity
  | |- kings_apart _ => refine (apartb_spec _ _); vm_compute; reflexivity
  | |- live_pawns _ => refine (pawnb_spec _ _); vm_compute; reflexivity
  | |- _ => intros H; vm_compute in H; discriminate H
  | |- calm_drops _ => intros _; refine (calmb_spec _ _); vm_compute; reflexivity
  | |- low_pawns _ => intros _; refine (singleb_spec _ _); vm_compute; reflexivity
  end.

(* two Black kings *)
Definition two_kings : partial := sfen "4r3k/9/9/9/9/9/8K/9/4K4" Black "-".
Theorem C55_two_kings_refuted b checks : exists pp,
  kings_apart (game_of pp) /\ live_pawns (game_of pp) /\ calm_drops (game_of pp) /\ low_pawns (game_of pp) /\
  lists_illegal (build b checks) pp.
Proof.
  exists two_kings. repeat (split; [parts|]).
  apply lists_illegal_at with (mv (n1, n7) (n1, n6) false).
  - destruct b, checks; vm_compute; reflexivity.
  - vm_compute. reflexivity.
Qed.
Print Assumptions C55_two_kings_refuted.

(* adjacent kings: the other king gives check, but is not seen as a checker *)
Definition near_kings : partial := sfen "9/9/9/9/9/9/4k4/4K4/1G7" Black "-".
Theorem C55_adjacent_kings_refuted b checks : exists pp,
  lone_kings (game_of pp) /\ live_pawns (game_of pp) /\ calm_drops (game_of pp) /\ low_pawns (game_of pp) /\
  lists_illegal (build b checks) pp.
Proof.
  exists near_kings. repeat (split; [parts|]).
  apply lists_illegal_at with (mv (n8, n9) (n8, n8) false).
  - destruct b, checks; vm_compute; reflexivity.
  - vm_compute. reflexivity.
Qed.
Print Assumptions C55_adjacent_kings_refuted.

(* a pawn on its last rank; not in the portable backend *)
Theorem C55_dead_pawn_refuted b checks : b <> Portable -> exists pp,
  lone_kings (game_of pp) /\ kings_apart (game_of pp) /\ calm_drops (game_of pp) /\ low_pawns (game_of pp) /\
  lists_illegal (build b checks) pp.
Proof.
  intros NP. exists dead_pawn. repeat (split; [parts|]).
  apply lists_illegal_at with (mv (n5, n1) (n4, n9) false).
  - destruct b, checks; try congruence; vm_compute; reflexivity.
  - vm_compute. reflexivity.
Qed.
Print Assumptions C55_dead_pawn_refuted.

(* the opponent is checkmated already: every pawn drop that leaves them so is
   forbidden, but only the drop in front of the king is examined *)
Definition mated_already : partial := sfen "4k4/4G4/4P4/9/9/9/9/9/4K4" Black "P".
Theorem C55_mated_already_refuted b checks : exists pp,
  lone_kings (game_of pp) /\ kings_apart (game_of pp) /\ live_pawns (game_of pp) /\ low_pawns (game_of pp) /\
  lists_illegal (build b checks) pp.
Proof.
  exists mated_already. repeat (split; [parts|]).
  apply lists_illegal_at with (dr (n1, n6) Pawn Black).
  - destruct b, checks; vm_compute; reflexivity.
  - vm_compute. reflexivity.
Qed.
Print Assumptions C55_mated_already_refuted.

(* a pawn on rank 9 and another on the file: a third one may be dropped there *)
Theorem C55_doubled_pawn_refuted b checks : exists pp,
  lone_kings (game_of pp) /\ kings_apart (game_of pp) /\ live_pawns (game_of pp) /\ calm_drops (game_of pp) /\
  lists_illegal (build b checks) pp.
Proof.
  exists doubled_pawns. repeat (split; [parts|]).
  apply lists_illegal_at with (dr (n7, n5) Pawn Black).
  - destruct b, checks; vm_compute; reflexivity.
  - vm_compute. reflexivity.
Qed.
Print Assumptions C55_doubled_pawn_refuted.
