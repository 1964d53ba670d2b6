(** * Auxiliary facts used by the property theorems *)

From Coq Require Import List Bool NArith ZArith Lia.
From Verif Require Import Types Rules Bitboard BackendCore BackendSimd Tables Zobrist Position Movegen
  Api Words Squares Geometry BBSpec SpecLanes SpecSimd SpecCore Backends Attacks KingSafety Rep Legality PawnDrop
  Loops ValidPlay Moves Hash Undo Reach Decide Capacity Lines Bisim Twins Consequences.
Import ListNotations.

Local Opaque fu_attack ky_attack ke_attack gi_attack ki_attack ou_attack ka_attack
  hi_attack pseudo_attack BETWEEN_TABLE FILES.

(** ** Pawn drops that give check *)

Lemma pawn_geo c s t : geo c Pawn s t = true -> forall u, betweenb s u t = false.
Proof.
  intros G u. unfold geo in G. apply orb_true_iff in G as [G|G].
  - exact (step_no_between c Pawn s u t G).
  - unfold rideb in G. cbn [rides existsb] in G. destruct (dirof s t); discriminate.
Qed.

Lemma pawn_drop_reply g t : valid g ->
  let m := Drop t (mkP Pawn (g_side g)) in
  pseudo_legal g m ->
  (checkmated (play g m) <->
   in_check (g_board (play g m)) (flip (g_side g)) /\ forall r, ~ legal (play g m) r).
Proof.
  intros V m P. split.
  - intros C. split; [exact (proj1 C)|]. intros r. apply checkmated_no_legal. assumption.
  - intros [C N]. destruct (no_legal_checkmated (play g m) C N) as [H|[r [D [Pr [NC _]]]]]; [assumption|].
    exfalso. destruct C as [K [BK A]]. apply attacked_att in A as [s A].
    assert (Et : g_board g t = None) by apply P.
    assert (S : s = t).
    { destruct (sq_eqb_spec s t) as [E|Ns]; [assumption|exfalso]. apply (v_check g V).
      exists K. assert (NK : K <> t).
      { intros ->. cbn [play m g_board] in BK. unfold upd in BK. rewrite sq_eqb_refl in BK.
        discriminate. }
      cbn [play m g_board] in BK. unfold upd in BK. rewrite sq_eqb_neq in BK by assumption.
      split; [assumption|]. apply attacked_att. exists s. apply att_alt in A as [k [Bs [G C]]].
      apply att_alt. exists k. cbn [play m g_board] in Bs, C. unfold upd in Bs, C.
      rewrite sq_eqb_neq in Bs by assumption. split; [assumption|]. split; [assumption|].
      intros u Hu. specialize (C u Hu). destruct (sq_eqb_spec u t); [discriminate|assumption]. }
    subst s. pose proof A as A'. apply att_alt in A' as [k [Bt [G _]]].
    cbn [play m g_board] in Bt. unfold upd in Bt. rewrite sq_eqb_refl in Bt.
    injection Bt as <- _.
    destruct r as [f t' pr|t' x]; [exact D|]. destruct (answer (play g m) (Drop t' x) K t
      (g_board (play g m)) Pr NC BK) as [E|E]; cbn [move_to] in *.
    + intros [].
    + intros u. left. reflexivity.
    + exact A.
    + subst t'. destruct Pr as [_ [_ [E _]]]. cbn [play m g_board] in E. unfold upd in E.
      rewrite sq_eqb_refl in E. discriminate.
    + rewrite pawn_geo with (c := flip (flip (g_side g))) in E; [discriminate|assumption].
Qed.

(** ** Bit 0 of the keys *)

Lemma xor_all_bit0 l : (forall k, In k l -> N.testbit k 0 = false) -> N.testbit (xor_all l) 0 = false.
Proof.
  induction l as [|k l IH]; intros H; cbn [xor_all fold_right]; [reflexivity|].
  rewrite N.lxor_spec, (H k) by (left; reflexivity). fold (xor_all l). rewrite IH; [reflexivity|].
  intros k' I. apply H. right. assumption.
Qed.
Lemma board_hash_bit0 cf b : N.testbit (board_hash (zt cf) b) 0 = false.
Proof.
  unfold board_hash. apply xor_all_bit0. intros k I. apply in_map_iff in I as [s [<- _]].
  unfold piece_entry. destruct (b s) as [x|]; [|reflexivity].
  cbn [zt zobrist_table z_board_entry]. rewrite N.ldiff_spec. cbn. apply andb_false_r.
Qed.

Lemma key_bit0 cf ms p : reachable cf ms p ->
  exists a h, Yasai.keys cf p = Some (a, h) /\ N.testbit a 0 = Nat.odd (length ms).
Proof.
  intros R. rewrite (api_keys cf ms p R). eexists _, _. split; [reflexivity|].
  rewrite N.lxor_spec, board_hash_bit0. unfold turn_bit. destruct (Nat.odd (length ms)); reflexivity.
Qed.

(** ** legal_moves under another backend *)

Lemma twin_legal_moves cf b ms p q : reachable cf ms p -> twin cf b p q ->
  Yasai.legal_moves cf p = Yasai.legal_moves (with_backend cf b) q.
Proof.
  intros R T. destruct (reachable_inv cf ms p R) as [st [I _]].
  apply (sim_legal_moves _ _ _ _ _ _ T).
  - exact (inv_rep _ _ _ _ I).
  - exact (inv_valid _ _ _ _ I).
Qed.

(* any position: only the pawns of the side to move matter *)
Lemma twin_legal_moves_pawns cf b p q : twin cf b p q ->
  let pawns := Yasai.piece_bitboard cf p (mkP Pawn (Yasai.side_to_move cf p)) in
  (forall s, Yasai.contains cf pawns s = true ->
     sqr s <> match Yasai.side_to_move cf p with Black => n1 | White => n9 end) ->
  ((0 < hand_n (Yasai.hand cf p (Yasai.side_to_move cf p)) Pawn)%N ->
   forall s t, Yasai.contains cf pawns s = true -> Yasai.contains cf pawns t = true ->
     sqf s = sqf t -> sqr s = n9 -> s = t) ->
  Yasai.legal_moves cf p = Yasai.legal_moves (with_backend cf b) q.
Proof.
  intros T pawns NL NF. apply (sim_legal_moves_pawns _ _ _ _ _ _ T).
  - exact NL.
  - assert (E : forall s, bcontains (ops cf) (own (ops cf) (p_inner _ p) Pawn) s = Yasai.contains cf pawns s).
    { intros s. unfold own. rewrite (sp_and _ (spec_of cf)).
      etransitivity; [|symmetry; apply (sp_and _ (spec_of cf))]. apply andb_comm. }
    intros H s t. rewrite !E. apply NF. exact H.
Qed.

Lemma backends_agree_reachable cf b pp cs ms p :
  (let* p := Yasai.new cf pp in run cf p cs) = Some p -> reachable cf ms p ->
  exists q, (let* q := Yasai.new (with_backend cf b) pp in run (with_backend cf b) q cs) = Some q /\
    same_obs cf (with_backend cf b) p q /\
    Yasai.legal_moves cf p = Yasai.legal_moves (with_backend cf b) q.
Proof.
  intros E R. assert (B : both (twin cf b) (let* p := Yasai.new cf pp in run cf p cs)
    (let* q := Yasai.new (with_backend cf b) pp in run (with_backend cf b) q cs)).
  { apply (both_bind (twin cf b)); [apply twin_new|]. intros. apply twin_run. assumption. }
  rewrite E in B. destruct (let* q := Yasai.new (with_backend cf b) pp in _) as [q|]; [|destruct B].
  exists q. split; [reflexivity|]. split; [apply twin_obs; exact B|].
  exact (twin_legal_moves cf b ms p q R B).
Qed.

Lemma calls_agree cf b pp cs p q :
  (let* p := Yasai.new cf pp in run cf p cs) = Some p ->
  (let* q := Yasai.new (with_backend cf b) pp in run (with_backend cf b) q cs) = Some q ->
  let pawns := Yasai.piece_bitboard cf p (mkP Pawn (Yasai.side_to_move cf p)) in
  (forall s, Yasai.contains cf pawns s = true ->
     sqr s <> match Yasai.side_to_move cf p with Black => n1 | White => n9 end) ->
  ((0 < hand_n (Yasai.hand cf p (Yasai.side_to_move cf p)) Pawn)%N ->
   forall s t, Yasai.contains cf pawns s = true -> Yasai.contains cf pawns t = true ->
     sqf s = sqf t -> sqr s = n9 -> s = t) ->
  Yasai.legal_moves cf p = Yasai.legal_moves (with_backend cf b) q.
Proof.
  intros E1 E2. assert (B : both (twin cf b) (let* p := Yasai.new cf pp in run cf p cs)
    (let* q := Yasai.new (with_backend cf b) pp in run (with_backend cf b) q cs)).
  { apply (both_bind (twin cf b)); [apply twin_new|]. intros. apply twin_run. assumption. }
  rewrite E1, E2 in B. exact (twin_legal_moves_pawns cf b p q B).
Qed.

Lemma new_agree cf b pp p q :
  Yasai.new cf pp = Some p -> Yasai.new (with_backend cf b) pp = Some q ->
  let c := pp_side pp in
  (forall s, sa_get (pp_board pp) s = Some (mkP Pawn c) ->
     sqr s <> match c with Black => n1 | White => n9 end) ->
  ((0 < hand_n (c_get (pp_hands pp) c) Pawn)%N ->
   forall s t, sa_get (pp_board pp) s = Some (mkP Pawn c) -> sa_get (pp_board pp) t = Some (mkP Pawn c) ->
     sqf s = sqf t -> sqr s = n9 -> s = t) ->
  Yasai.legal_moves cf p = Yasai.legal_moves (with_backend cf b) q.
Proof.
  intros E1 E2 c NL NF.
  assert (Ep : p_inner (ops cf) p = inner_of_partial (ops cf) pp).
  { revert E1. unfold Yasai.new, pos_new. destruct (hand_keys _ _ _); [|discriminate]. intros [= <-]. reflexivity. }
  assert (W : forall s, Yasai.contains cf (Yasai.piece_bitboard cf p (mkP Pawn (Yasai.side_to_move cf p))) s = true ->
    sa_get (pp_board pp) s = Some (mkP Pawn c)).
  { intros s. unfold Yasai.contains, Yasai.piece_bitboard, Yasai.piece_kind_bitboard, Yasai.player_bitboard,
      Yasai.side_to_move, side_to_move. cbn [pkind pcolor].
    rewrite Ep. pose proof (inner_of_partial_rep (ops cf) (spec_of cf) pp) as Rp.
    rewrite (sp_and (ops cf) (spec_of cf)).
    pose proof (rep_piece (ops cf) (spec_of cf) _ Rp Pawn s) as E1'.
    pose proof (rep_player (ops cf) (spec_of cf) _ Rp (i_side (ops cf) (inner_of_partial (ops cf) pp)) s) as E2'.
    rewrite E1', E2'.
    intros H. apply andb_true_iff in H as [H1 H2]. apply kindb_true in H1 as [c' H1].
    apply colorb_true in H2 as [k H2]. change (i_side (ops cf) (inner_of_partial (ops cf) pp)) with c in *.
    change (i_piece_at (ops cf) (inner_of_partial (ops cf) pp) s) with (sa_get (pp_board pp) s) in *. congruence. }
  assert (Sd : Yasai.side_to_move cf p = c).
  { unfold Yasai.side_to_move, side_to_move. rewrite Ep. reflexivity. }
  assert (Hd : Yasai.hand cf p (Yasai.side_to_move cf p) = c_get (pp_hands pp) c).
  { rewrite Sd. unfold Yasai.hand, hand_of. rewrite Ep. reflexivity. }
  apply (calls_agree cf b pp [] p q).
  - rewrite E1. reflexivity.
  - rewrite E2. reflexivity.
  - intros s H. rewrite Sd. apply NL. apply W. exact H.
  - intros H s t Hs Ht. apply NF; [rewrite <- Hd; exact H|apply W; exact Hs|apply W; exact Ht].
Qed.

(** ** Bitboards made of the 81 square bits *)

Definition on_board (b : backend) (checks : bool) : bb (ops_of b checks) -> Prop :=
  match b with
  | Portable => fun a : N => N.land a core_mask = a
  | X86_64 | Aarch64 | Wasm32 => fun a : N * N => (fst a < 2 ^ 63 /\ snd a < 2 ^ 18)%N
  end.

Lemma core_mask_bit i : N.testbit core_mask i = true -> exists s, sq_bit s = i.
Proof.
  intros H. destruct (N.lt_ge_cases i 82) as [L|G].
  - assert (A : forallb (fun i => negb (N.testbit core_mask i) ||
      existsb (fun s => (sq_bit s =? i)%N) all_squares) (map N.of_nat (seq 0 82)) = true)
      by (vm_compute; reflexivity).
    rewrite forallb_forall in A. specialize (A i). cbv beta in A. rewrite H in A. cbn [negb orb] in A.
    assert (I : In i (map N.of_nat (seq 0 82))).
    { apply in_map_iff. exists (N.to_nat i). split; [lia|]. apply in_seq. lia. }
    specialize (A I). apply existsb_exists in A as [s [_ E]]. exists s. apply N.eqb_eq. assumption.
  - exfalso. rewrite N.bits_above_log2 in H; [discriminate|].
    replace (N.log2 core_mask) with 81%N by (vm_compute; reflexivity). lia.
Qed.
Lemma core_mask_sq s : N.testbit core_mask (sq_bit s) = true.
Proof.
  revert s. apply (sq_forall (fun s => N.testbit core_mask (sq_bit s))). vm_compute. reflexivity.
Qed.

Lemma on_board_wf b checks a : on_board b checks a <-> wf (backend_spec b checks) a.
Proof.
  destruct b; try reflexivity. change (N.land a core_mask = a <-> cwf a). split.
  - intros E i H. rewrite <- E, N.land_spec in H. apply andb_true_iff in H as [_ H].
    apply core_mask_bit. assumption.
  - intros W. apply N.bits_inj. intros i. rewrite N.land_spec.
    destruct (N.testbit a i) eqn:E; [|reflexivity]. destruct (W i E) as [s <-].
    rewrite core_mask_sq. reflexivity.
Qed.

Lemma attack_rules b checks occ : on_board b checks occ ->
  forall (bd : board) (k : kind) (s : square) (c : color) (t : square),
  (forall u, bcontains (ops_of b checks) occ u = true <-> bd u <> None) ->
  (bcontains (ops_of b checks) (attack (ops_of b checks) k s c occ) t = true <-> reaches bd c k s t).
Proof.
  intros W bd k s c t H. apply on_board_wf in W.
  rewrite (attack_spec _ (backend_spec b checks) k s c occ t W), <- reachb_spec.
  assert (E : forall u, bcontains (ops_of b checks) occ u = occb bd u).
  { intros u. specialize (H u). unfold occb. destruct (bd u), (bcontains (ops_of b checks) occ u);
      try reflexivity; intuition congruence. }
  unfold reachb, clearb.
  replace (forallb (fun u => negb (betweenb s u t && bcontains (ops_of b checks) occ u)) all_squares)
    with (forallb (fun u => negb (betweenb s u t && occb bd u)) all_squares); [reflexivity|].
  clear - E. induction all_squares as [|u l IH]; cbn [forallb]; [reflexivity|]. rewrite E, IH. reflexivity.
Qed.

(** ** The loop of sliding_attack ends within its fuel *)

Fixpoint shifts (n : nat) (curr : option square) (d : delta) : option square :=
  match n with
  | O => curr
  | S n => match curr with Some u => shifts n (sq_shift u (fst d) (snd d)) d | None => None end
  end.

Lemma sliding_loop_more o n : forall k curr occ d acc, shifts n curr d = None ->
  sliding_loop o (n + k) curr occ d acc = sliding_loop o n curr occ d acc.
Proof.
  induction n as [|n IH]; intros k curr occ d acc H; cbn [shifts sliding_loop Nat.add] in *.
  - subst curr. destruct k; reflexivity.
  - destruct curr as [u|]; [|reflexivity]. destruct (bcontains o occ u); [reflexivity|].
    apply IH. assumption.
Qed.

Lemma shifts_leave s d : In d dirs8 -> shifts 9 (sq_shift s (fst d) (snd d)) d = None.
Proof.
  intros Hd. assert (A : forallb (fun s => forallb (fun d =>
     match shifts 9 (sq_shift s (fst d) (snd d)) d with None => true | Some _ => false end) dirs8)
     all_squares = true) by (vm_compute; reflexivity).
  rewrite forallb_forall in A. specialize (A s (all_squares_in s)). rewrite forallb_forall in A.
  specialize (A d Hd). destruct (shifts 9 _ d); [discriminate|reflexivity].
Qed.

(* any amount of fuel from 9 on gives the same result *)
Lemma sliding_fuel_enough o s occ d k : In d dirs8 ->
  sliding_loop o (9 + k) (sq_shift s (fst d) (snd d)) occ d (bempty o) = sliding_attack o s occ d.
Proof. intros Hd. apply sliding_loop_more. apply shifts_leave. assumption. Qed.
