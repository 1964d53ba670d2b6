(** * Reachable positions *)

From Coq Require Import List Bool NArith ZArith Lia.
From Verif Require Import Types Rules Bitboard Tables Zobrist Position Movegen Api
  Words Squares Geometry BBSpec Backends Attacks KingSafety Rep Legality PawnDrop Gen Drops Exact
  Loops ValidPlay Moves Hash Play Undo.
Import ListNotations.

Local Opaque fu_attack ky_attack ke_attack gi_attack ki_attack ou_attack ka_attack
  hi_attack pseudo_attack BETWEEN_TABLE FILES.

Section Reach.
Context (cf : config).
Let o := ops cf.
Let Sp : bbspec o := backend_spec (cf_backend cf) (cf_checks cf).

Definition Inv (p : Yasai.Position cf) (st : state o) : Prop := inv o Sp p st.

(** ** Position::new *)

Lemma new_some pp : hands_fit (g_hand (game_of pp)) ->
  Yasai.new cf pp =
  Some (mkPos o (inner_of_partial o pp)
    [mkS o (board_hash (zt cf) (g_board (game_of pp)), hand_hash (zt cf) (g_hand (game_of pp)))
       None None
       (attack_info_new o (calculate_checkers o (inner_of_partial o pp)) (inner_of_partial o pp))]).
Proof.
  intros H. unfold Yasai.new, pos_new. fold o.
  pose proof (proj1 (hand_keys_spec (zt cf) o (inner_of_partial o pp)) H) as E.
  cbv zeta. rewrite E. cbn [bind]. rewrite board_keys_spec. reflexivity.
Qed.
Lemma new_none pp : ~ hands_fit (g_hand (game_of pp)) -> Yasai.new cf pp = None.
Proof.
  intros H. unfold Yasai.new, pos_new. fold o.
  pose proof (proj2 (hand_keys_spec (zt cf) o (inner_of_partial o pp)) H) as E.
  cbv zeta. rewrite E. reflexivity.
Qed.

Lemma material_fit g : standard_material g -> hands_fit (g_hand g).
Proof. intros M c k _. apply base_full. assumption. Qed.

Lemma hands_fit_dec h : {hands_fit h} + {~ hands_fit h}.
Proof.
  destruct (forallb (fun ck => (h (fst ck) (snd ck) <=? 18)%N) hand_slots) eqn:E.
  - left. intros c k I. apply (proj1 (N.leb_le _ _)).
    apply (proj1 (forallb_forall _ _) E (c, k)). apply hand_slots_in. assumption.
  - right. intros H. assert (forallb (fun ck => (h (fst ck) (snd ck) <=? 18)%N) hand_slots = true).
    { apply forallb_forall. intros [c k] J. apply N.leb_le. apply H.
      apply in_flat_map in J as [d [_ J]]. apply in_map_iff in J as [j [[= <- <-] J]]. assumption. }
    congruence.
Qed.

Lemma new_fit pp p : Yasai.new cf pp = Some p -> hands_fit (g_hand (game_of pp)).
Proof.
  intros E. destruct (hands_fit_dec (g_hand (game_of pp))) as [F|N]; [assumption|].
  rewrite (new_none pp N) in E. discriminate.
Qed.

Lemma new_inv pp p : valid (game_of pp) ->
  (pp_ply pp <= 65535)%N -> Yasai.new cf pp = Some p ->
  exists st, Inv p st /\ p_states o p = [st] /\ view cf p = game_of pp /\
    s_keys o st = (board_hash (zt cf) (g_board (game_of pp)),
                   hand_hash (zt cf) (g_hand (game_of pp))).
Proof.
  intros V P N. pose proof (new_fit pp p N) as F. rewrite (new_some pp F) in N. injection N as <-.
  eexists. split; [|split; [reflexivity|split; [reflexivity|reflexivity]]].
  constructor; try reflexivity; try assumption; [apply inner_of_partial_rep|].
  intros c k. destruct (in_dec kind_dec k hand_kinds) as [Ik|Nk].
  - exact (F c k Ik).
  - cbn [p_inner]. rewrite (hand_n_not _ _ Nk). lia.
Qed.

(** ** Undoing gives back an earlier position *)

Inductive built : list move -> Yasai.Position cf -> Prop :=
| B_new pp p :
    valid (game_of pp) -> (pp_ply pp <= 65535)%N ->
    Yasai.new cf pp = Some p -> built [] p
| B_do ms p m q :
    built ms p -> legal (view cf p) m -> Yasai.do_move cf p m = Some q -> built (m :: ms) q.

(* the lowest bit is flipped once per move *)
Definition turn_bit (ms : list move) : key := if Nat.odd (length ms) then 1%N else 0%N.

Lemma turn_bit_cons m ms : turn_bit (m :: ms) = N.lxor (turn_bit ms) 1.
Proof.
  unfold turn_bit. cbn [length]. rewrite Nat.odd_succ, <- Nat.negb_odd.
  destruct (Nat.odd (length ms)); reflexivity.
Qed.

Lemma built_inv ms p : built ms p ->
  exists st, Inv p st /\ length (p_states o p) = Datatypes.S (length ms) /\
    fst (s_keys o st) = N.lxor (board_hash (zt cf) (g_board (view cf p))) (turn_bit ms) /\
    snd (s_keys o st) = hand_hash (zt cf) (g_hand (view cf p)).
Proof.
  induction 1 as [pp p V P N|ms p m q B IH L D].
  - destruct (new_inv pp p V P N) as [st [I [E [Ev Ek]]]]. exists st.
    split; [assumption|]. rewrite E, Ek, Ev. split; [reflexivity|].
    split; [|reflexivity]. cbn [fst]. symmetry. apply N.lxor_0_r.
  - destruct IH as [st [I [El [K1 K2]]]].
    destruct (do_move_inv o Sp (zt cf) (cf_checks cf) p st m q I L D)
      as [st' [I' [Es [_ [_ [_ [_ [K1' K2']]]]]]]].
    exists st'. split; [assumption|]. rewrite Es. cbn [length]. rewrite El.
    split; [reflexivity|]. split.
    + rewrite K1', K1, turn_bit_cons. unfold KEY_COLOR.
      change (g_board (view cf p)) with (i_piece_at o (p_inner o p)).
      change (g_board (view cf q)) with (i_piece_at o (p_inner o q)).
      generalize (board_hash (zt cf) (i_piece_at o (p_inner o p)))
        (board_hash (zt cf) (i_piece_at o (p_inner o q))) (turn_bit ms). intros a b c. 
      generalize 1%N. intros d. xors.
    + rewrite K2', K2.
      change (g_hand (view cf p)) with (fun c k => hand_n (i_hand o (p_inner o p) c) k).
      change (g_hand (view cf q)) with (fun c k => hand_n (i_hand o (p_inner o q) c) k).
      xors.
Qed.

Lemma reachable_built ms p : reachable cf ms p -> built ms p.
Proof.
  induction 1 as [pp p V P N|ms p m q R IH L D|ms p m q R IH U].
  - apply (B_new pp); assumption.
  - apply (B_do ms p); assumption.
  - inversion IH as [|ms' p0 m' q' B L D E1 E2]; subst.
    destruct (built_inv ms p0 B) as [st [I _]].
    pose proof (undo_do o Sp (zt cf) (cf_checks cf) p0 st m p I L D) as U'.
    unfold Yasai.undo_move in U. fold o in U. rewrite U' in U. injection U as <-. assumption.
Qed.

Lemma built_reachable ms p : built ms p -> reachable cf ms p.
Proof.
  induction 1 as [pp p V P N|ms p m q B IH L D].
  - apply (R_new cf pp); assumption.
  - apply (R_do cf ms p); assumption.
Qed.

Lemma reachable_inv ms p : reachable cf ms p ->
  exists st, Inv p st /\ length (p_states o p) = Datatypes.S (length ms) /\
    fst (s_keys o st) = N.lxor (board_hash (zt cf) (g_board (view cf p))) (turn_bit ms) /\
    snd (s_keys o st) = hand_hash (zt cf) (g_hand (view cf p)).
Proof. intros R. apply built_inv. apply reachable_built. assumption. Qed.

Lemma reach_valid ms p : reachable cf ms p -> valid (view cf p).
Proof. intros R. destruct (reachable_inv ms p R) as [st [I _]]. exact (inv_valid _ _ _ _ I). Qed.
Lemma reach_hand_ok p : hand_ok (view cf p).
Proof. exact (gview_hand_ok o (p_inner o p)). Qed.

(** ** The API on reachable positions *)

Lemma api_in_check ms p : reachable cf ms p ->
  exists b, Yasai.in_check cf p = Some b /\
    (b = true <-> in_check (piece_at o p) (side_to_move o p)).
Proof.
  intros R. destruct (reachable_inv ms p R) as [st [I _]].
  unfold Yasai.in_check, pos_in_check. fold o. rewrite (inv_st _ _ _ _ I). cbn [bind].
  rewrite (inv_ai _ _ _ _ I). cbn [attack_info_new ai_checkers]. eexists. split; [reflexivity|].
  pose proof (inv_rep _ _ _ _ I) as Rp. pose proof (inv_valid _ _ _ _ I) as V.
  destruct (bis_empty o (calculate_checkers o (p_inner o p))) eqn:E; cbn [negb].
  - split; [discriminate|]. intros [K [BK A]]. apply attacked_att in A as [s A].
    assert (has : bcontains o (calculate_checkers o (p_inner o p)) s = true).
    { apply (checkers_att o Sp (p_inner o p) Rp (valid_orderly _ V)). exists K. tauto. }
    rewrite (proj1 (is_empty_true o Sp _ (wf_checkers o Sp _ Rp)) E s) in has. discriminate.
  - split; [|reflexivity]. intros _.
    apply (is_empty_false o Sp _ (wf_checkers o Sp _ Rp)) in E as [s E].
    apply (checkers_att o Sp (p_inner o p) Rp (valid_orderly _ V)) in E as [K [BK A]].
    exists K. split; [exact BK|]. apply attacked_att. exists s. exact A.
Qed.

Lemma api_is_check_move ms p m : reachable cf ms p -> legal (view cf p) m ->
  exists b, Yasai.is_check_move cf p m = Some b /\
    (b = true <-> in_check (g_board (play (view cf p) m)) (flip (side_to_move o p))).
Proof.
  intros R L. destruct (reachable_inv ms p R) as [st [I _]].
  exact (is_check_move_spec o Sp p st I m L).
Qed.

Lemma api_do_move ms p m q : reachable cf ms p -> legal (view cf p) m ->
  Yasai.do_move cf p m = Some q -> same_game (view cf q) (play (view cf p) m).
Proof.
  intros R L D. destruct (reachable_inv ms p R) as [st [I _]].
  destruct (do_move_inv o Sp (zt cf) (cf_checks cf) p st m q I L D) as [st' [_ [_ [G _]]]].
  exact G.
Qed.

(* the kinds of pieces do not change *)
Lemma api_do_material ms p m q k : reachable cf ms p -> legal (view cf p) m ->
  Yasai.do_move cf p m = Some q -> material (view cf q) k = material (view cf p) k.
Proof.
  intros R L D. rewrite (material_same _ _ k (api_do_move ms p m q R L D)).
  apply material_play; [apply reach_hand_ok|apply L].
Qed.
Lemma api_do_standard ms p m q : reachable cf ms p -> legal (view cf p) m ->
  Yasai.do_move cf p m = Some q -> standard_material (view cf p) -> standard_material (view cf q).
Proof. intros R L D M k. rewrite (api_do_material ms p m q k R L D). apply M. Qed.

Lemma standard_room g m : standard_material g -> room g m.
Proof.
  intros M. destruct m as [f t pr|t x]; [|exact I]. intros q Bt.
  exact (hand_room g t q M Bt (g_side g)).
Qed.

Lemma api_do_total ms p m : reachable cf ms p -> standard_material (view cf p) -> legal (view cf p) m ->
  (Yasai.do_move cf p m = None <-> cf_checks cf = true /\ Yasai.ply cf p = 65535%N).
Proof.
  intros R M L. destruct (reachable_inv ms p R) as [st [I _]].
  exact (do_move_total o Sp (zt cf) (cf_checks cf) p st m I L (standard_room _ m M)).
Qed.

Lemma api_do_exactly ms p m : reachable cf ms p -> legal (view cf p) m ->
  (Yasai.do_move cf p m = None <->
   (cf_checks cf = true /\ Yasai.ply cf p = 65535%N) \/
   exists f t pr x, m = Normal f t pr /\ Yasai.piece_at cf p t = Some x /\
     hand_n (Yasai.hand cf p (Yasai.side_to_move cf p)) (base_kind (pkind x)) = 18%N).
Proof.
  intros R L. destruct (reachable_inv ms p R) as [st [I _]]. split.
  - intros D. destruct m as [f t pr|t x].
    + destruct (Yasai.piece_at cf p t) as [y|] eqn:Bt.
      * destruct (N.eq_dec (hand_n (Yasai.hand cf p (Yasai.side_to_move cf p)) (base_kind (pkind y))) 18) as [E|E].
        { right. exists f, t, pr, y. tauto. }
        left. apply (do_move_total o Sp (zt cf) (cf_checks cf) p st _ I L); [|exact D].
        intros y' Bt'. assert (y' = y) as ->.
        { unfold Yasai.piece_at, piece_at in Bt. cbn [gview g_board] in Bt'. fold o in Bt. congruence. }
        pose proof (inv_fit _ _ _ _ I (i_side o (p_inner o p)) (base_kind (pkind y))) as F.
        cbn [gview g_hand g_side].
        change (hand_n (i_hand o (p_inner o p) (i_side o (p_inner o p))) (base_kind (pkind y)) <> 18%N) in E.
        lia.
      * left. apply (do_move_total o Sp (zt cf) (cf_checks cf) p st _ I L); [|exact D].
        intros y' Bt'. unfold Yasai.piece_at, piece_at in Bt. cbn [gview g_board] in Bt'. fold o in Bt. congruence.
    + left. apply (do_move_total o Sp (zt cf) (cf_checks cf) p st _ I L); [exact Logic.I|exact D].
  - intros Q. destruct (Yasai.do_move cf p m) as [q|] eqn:D; [exfalso|reflexivity].
    pose proof (do_move_room o (zt cf) (cf_checks cf) p m q D) as Rm. destruct Q as [Q|[f [t [pr [x [-> [Bt E]]]]]]].
    + apply (do_move_total o Sp (zt cf) (cf_checks cf) p st m I L Rm) in Q.
      unfold Yasai.do_move in D. fold o in D. congruence.
    + specialize (Rm x Bt). cbn [gview g_hand g_side] in Rm.
      change (hand_n (i_hand o (p_inner o p) (i_side o (p_inner o p))) (base_kind (pkind x)) = 18%N) in E. lia.
Qed.

Lemma api_ply ms p m q : reachable cf ms p -> legal (view cf p) m ->
  Yasai.do_move cf p m = Some q ->
  Yasai.ply cf q = if (Yasai.ply cf p =? 65535)%N then 0%N else (Yasai.ply cf p + 1)%N.
Proof.
  intros R L D. destruct (reachable_inv ms p R) as [st [I _]].
  destruct (do_move_inv o Sp (zt cf) (cf_checks cf) p st m q I L D) as [st' [_ [_ [_ [E _]]]]].
  unfold incr16 in E. unfold Yasai.ply, ply. fold o.
  destruct (i_ply o (p_inner o p) =? 65535)%N; [|congruence].
  revert E. generalize (cf_checks cf). intros [] E; congruence.
Qed.

Lemma api_undo ms p m q : reachable cf ms p -> legal (view cf p) m ->
  Yasai.do_move cf p m = Some q -> Yasai.undo_move cf q m = Some p.
Proof.
  intros R L D. destruct (reachable_inv ms p R) as [st [I _]].
  exact (undo_do o Sp (zt cf) (cf_checks cf) p st m q I L D).
Qed.

Lemma api_undo_total ms p m : reachable cf (m :: ms) p ->
  exists q, Yasai.undo_move cf p m = Some q /\ reachable cf ms q /\
    legal (view cf q) m /\ Yasai.do_move cf q m = Some p.
Proof.
  intros R. pose proof (reachable_built _ _ R) as B.
  inversion B as [|ms' p0 m' q' B0 L D E1 E2]; subst.
  exists p0. pose proof (built_reachable _ _ B0) as R0. split; [|tauto].
  apply (api_undo ms p0 m p R0 L D).
Qed.

Lemma api_keys ms p : reachable cf ms p ->
  Yasai.keys cf p = Some (N.lxor (board_hash (zt cf) (g_board (view cf p))) (turn_bit ms),
                          hand_hash (zt cf) (g_hand (view cf p))).
Proof.
  intros R. destruct (reachable_inv ms p R) as [st [I [_ [K1 K2]]]].
  unfold Yasai.keys, pos_keys. fold o. rewrite (inv_st _ _ _ _ I). cbn [bind].
  rewrite <- K1, <- K2. destruct (s_keys o st); reflexivity.
Qed.

Lemma api_legal_moves ms p l : reachable cf ms p -> Yasai.legal_moves cf p = Some l ->
  NoDup l /\ forall m, In m l <-> legal (view cf p) m.
Proof.
  intros R E. destruct (reachable_inv ms p R) as [st [I _]].
  destruct (legal_moves_spec o Sp p st (inv_rep _ _ _ _ I) (valid_orderly _ (inv_valid _ _ _ _ I))
              (inv_st _ _ _ _ I) (inv_ai _ _ _ _ I)) as [cs [_ [_ [_ [_ [_ H]]]]]].
  exact (H l E).
Qed.

End Reach.
