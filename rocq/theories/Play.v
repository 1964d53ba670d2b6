(** * do_move and undo_move *)

From Coq Require Import List Bool NArith ZArith Lia.
From Verif Require Import Types Rules Bitboard Tables Zobrist Position Movegen Api
  Words Squares Geometry BBSpec Attacks KingSafety Rep Legality PawnDrop Gen Drops Exact
  ValidPlay Moves Hash.
Import ListNotations.

Local Opaque fu_attack ky_attack ke_attack gi_attack ki_attack ou_attack ka_attack
  hi_attack pseudo_attack BETWEEN_TABLE FILES.

Definition last_moved (g : game) (m : move) : option piece :=
  match m with Normal f _ _ => g_board g f | Drop _ x => Some x end.

Section Play.
Context (o : bbops) (S : bbspec o) (z : ztable) (checks : bool).
Notation BB := (bb o).
Notation has := (bcontains o).
Notation rep := (rep o S).
Notation inv := (inv o S).

Lemma no_checkers p : rep p -> ~ in_check (i_piece_at o p) (i_side o p) ->
  calculate_checkers o p = bempty o.
Proof.
  intros R N. apply (sp_ext o S); [apply (wf_checkers o S p R)|apply (sp_wf_empty o S)|].
  intros s. rewrite (sp_empty o S).
  destruct (has (calculate_checkers o p) s) eqn:E; [|reflexivity]. exfalso. apply N.
  pose proof E as E'. rewrite (checkers_spec o S p R) in E'.
  destruct (king_position o p (i_side o p)) as [K|] eqn:EK; [|discriminate].
  apply (king_position_some o S p R) in EK. exists K. split; [assumption|].
  apply attacked_att. exists s. unfold att. clear E N.
  destruct (i_piece_at o p s) as [[k d]|]; [|discriminate].
  apply andb_true_iff in E' as [E' E1]. apply andb_true_iff in E' as [E' _].
  destruct (color_eqb_spec d (flip (i_side o p))) as [Ed|]; [subst d|discriminate].
  exists k. tauto.
Qed.

Lemma att_same b b' c s t : (forall u, b u = b' u) -> att b c s t <-> att b' c s t.
Proof.
  intros E. unfold att. split; intros [k [B R]]; exists k; (split; [congruence|]);
    apply reachb_spec; apply reachb_spec in R.
  - apply (reaches_same b); assumption.
  - apply (reaches_same b'); [intros; symmetry; apply E|assumption].
Qed.

Lemma base_in_hand (q : piece) : pkind q <> King -> In (base_kind (pkind q)) hand_kinds.
Proof. destruct q as [[] d]; cbn; intros H; try tauto. Qed.
Lemma hand_kind_index k : In k hand_kinds -> (kind_index k <? 8)%N = true.
Proof. intros I. cbn in I. repeat (destruct I as [<-|I]; [reflexivity|]). contradiction. Qed.

(** The PartialPosition before the ply is updated, and its relation to the rules. *)
Record effect (pos : position o) (st : state o) (m : move) (p' : inner o) (ks : key * key)
  : Prop := {
  ef_rep : rep p';
  ef_game : same_game (gview o p') (play (gview o (p_inner o pos)) m);
  ef_ply : i_ply o p' = i_ply o (p_inner o pos);
  ef_board_key : fst ks =
    N.lxor (N.lxor (fst (s_keys o st))
      (N.lxor (board_hash z (i_piece_at o (p_inner o pos))) (board_hash z (i_piece_at o p'))))
      KEY_COLOR;
  ef_hand_key : snd ks =
    N.lxor (snd (s_keys o st))
      (N.lxor (hand_hash z (fun c k => hand_n (i_hand o (p_inner o pos) c) k))
              (hand_hash z (fun c k => hand_n (i_hand o p' c) k))) }.

(* the hand has room for what the move captures *)
Definition room (g : game) (m : move) : Prop :=
  match m with
  | Normal _ t _ => forall q, g_board g t = Some q -> (g_hand g (g_side g) (base_kind (pkind q)) < 18)%N
  | Drop _ _ => True
  end.

Lemma do_move_effect pos st m : inv pos st -> legal (gview o (p_inner o pos)) m ->
  room (gview o (p_inner o pos)) m ->
  exists p' ks, effect pos st m p' ks /\
    do_move o z checks pos m =
    (let* n := incr16 checks (i_ply o p') in
     Some (mkPos o (set_ply o p' n)
       (mkS o ks (i_piece_at o (p_inner o pos) (move_to m))
            (last_moved (gview o (p_inner o pos)) m)
            (attack_info_new o (calculate_checkers o (set_ply o p' n)) (set_ply o p' n))
        :: p_states o pos))).
Proof.
  intros I L M. pose proof (inv_rep _ _ _ _ I) as R. pose proof (inv_valid _ _ _ _ I) as V.
  pose proof (inv_fit _ _ _ _ I) as Hfit.
  set (p := p_inner o pos) in *.
  destruct (is_check_move_spec o S pos st I m L) as [b [Eb Hb]]. fold p in Hb.
  pose proof (valid_play _ m V (gview_hand_ok o p) L) as V'.
  unfold do_move. rewrite Eb. cbn [bind]. rewrite (inv_st _ _ _ _ I). cbn [bind].
  fold p. set (c := i_side o p) in *. destruct m as [f t pr|t x].
  - pose proof L as [P _]. pose proof (fun d => no_king_capture _ f t pr d V P) as NK.
    destruct P as [k [Bf [Ct [Rf Pr]]]]. cbn [gview g_board g_side g_hand] in *. fold c in Bf, Ct, Rf, Pr.
    rewrite Bf. cbn [bind move_to last_moved gview g_board]. rewrite Bf.
    assert (Nft : f <> t) by (intros ->; exact (Ct _ Bf)).
    set (k' := if pr then promoted_kind k else k).
    assert (Et : (if pr then promote_piece (mkP k c) else Some (mkP k c)) = Some (mkP k' c)).
    { unfold k', promote_piece, promoted_kind. destruct pr; [|reflexivity]. cbn [pkind pcolor].
      destruct (promote_kind k); [reflexivity|tauto]. }
    (* the capture *)
    assert (Cap : exists p1 ks1, do_capture o z p (s_keys o st) c t (i_piece_at o p t) = Some (p1, ks1) /\
      reps o S p1 (upd (i_piece_at o p) t None) /\
      i_board o p1 = i_board o p /\ i_ply o p1 = i_ply o p /\
      (forall d j, hand_n (i_hand o p1 d) j = match i_piece_at o p t with
        | Some q => upd_hand (g_hand (gview o p)) c (base_kind (pkind q))
                      (g_hand (gview o p) c (base_kind (pkind q)) + 1) d j
        | None => g_hand (gview o p) d j end) /\
      fst ks1 = N.lxor (fst (s_keys o st)) (piece_entry z t (i_piece_at o p t)) /\
      snd ks1 = N.lxor (snd (s_keys o st))
        (N.lxor (hand_hash z (g_hand (gview o p)))
                (hand_hash z (fun c k => hand_n (i_hand o p1 c) k)))).
    { unfold do_capture. destruct (i_piece_at o p t) as [q|] eqn:Bt.
      - change (match unpromote_kind (pkind q) with Some k0 => k0 | None => pkind q end)
          with (base_kind (pkind q)).
        assert (Nq : pkind q <> King).
        { destruct q as [kq dq]. cbn. intros ->. exact (NK dq eq_refl). }
        pose proof (base_in_hand q Nq) as Iq.
        pose proof (M q Bt) as Room. cbn [gview g_hand g_side] in Room. fold c in Room.
        rewrite (proj1 (hand_count_some _ _) Iq). cbn [bind]. unfold z_hand, MAX_HAND_NUM.
        rewrite (hand_kind_index _ Iq), (proj2 (N.ltb_lt _ _) Room). cbn [andb bind].
        change (i_hand o (xor_piece o p t q) c) with (i_hand o p c). unfold hand_added.
        rewrite (proj1 (hand_count_some _ _) Iq).
        assert (R255 : (hand_n (i_hand o p c) (base_kind (pkind q)) <? 255)%N = true)
          by (apply N.ltb_lt; lia).
        rewrite R255. cbn [bind].
        eexists _, _. split; [reflexivity|].
        assert (HH : forall d j, hand_n (i_hand o (set_hand o (xor_piece o p t q) c
            (hand_set (i_hand o p c) (base_kind (pkind q))
              (hand_n (i_hand o p c) (base_kind (pkind q)) + 1))) d) j =
            upd_hand (g_hand (gview o p)) c (base_kind (pkind q))
               (g_hand (gview o p) c (base_kind (pkind q)) + 1) d j).
        { intros d j. unfold i_hand, set_hand. cbn [i_hands xor_piece]. rewrite c_get_set.
          unfold upd_hand. cbn [gview g_hand]. unfold i_hand.
          destruct (color_eqb_spec d c) as [->|Nd]; cbn [andb]; [|reflexivity].
          apply hand_n_set. assumption. }
        split; [|split; [|split; [|split; [|split]]]]; try reflexivity.
        + apply (reps_bbs o S (xor_piece o p t q)); try reflexivity.
          apply reps_xor; [apply reps_rep; assumption|]. right. tauto.
        + exact HH.
        + cbn [snd]. rewrite (hand_hash_ext z _ _ HH), (hand_hash_upd z _ _ _ _ Iq).
          rewrite held_hash_succ. cbn [gview g_hand]. xors.
      - eexists _, _. split; [reflexivity|]. split; [|repeat split].
        + apply (reps_ext o S p (i_piece_at o p)); [|apply reps_rep; assumption].
          intros u. unfold upd. destruct (sq_eqb_spec u t) as [Eu|]; [subst u; assumption|reflexivity].
        + cbn [piece_entry]. rewrite N.lxor_0_r. reflexivity.
        + change (hand_hash z (g_hand (gview o p))) with
            (hand_hash z (fun c k => hand_n (i_hand o p c) k)).
          rewrite N.lxor_nilpotent, N.lxor_0_r. reflexivity. }
    destruct Cap as [p1 [ks1 [Ec [R1 [B1 [P1 [H1 [K1 K2]]]]]]]].
    rewrite Ec. cbn [bind fst snd]. rewrite Et. cbn [bind].
    set (p' := set_side o (set_piece_at o (set_piece_at o
      (xor_piece o (xor_piece o p1 f (mkP k c)) t (mkP k' c)) f None) t (Some (mkP k' c))) (flip c)).
    set (ks' := (N.lxor (N.lxor (N.lxor (fst ks1) (z_board z f (mkP k c)))
                   (z_board z t (mkP k' c))) KEY_COLOR, snd ks1)).
    assert (Bp : forall u, i_piece_at o p' u = after (i_piece_at o p) (only f) t (mkP k' c) u).
    { intros u. unfold p', i_piece_at, set_side, set_piece_at. cbn [i_board xor_piece].
      rewrite !sa_get_set, B1. unfold after, only.
      destruct (sq_eqb_spec u t) as [->|Nt]; [reflexivity|].
      destruct (sq_eqb_spec u f) as [->|Nf]; reflexivity. }
    assert (R' : rep p').
    { apply reps_rep.
      apply (reps_ext o S _ (upd (upd (upd (i_piece_at o p) t None) f None) t (Some (mkP k' c)))).
      - intros u. rewrite Bp. unfold upd, after, only.
        destruct (sq_eqb_spec u t) as [->|Nt]; [reflexivity|].
        destruct (sq_eqb_spec u f) as [->|Nf]; reflexivity.
      - apply (reps_bbs o S (xor_piece o (xor_piece o p1 f (mkP k c)) t (mkP k' c)));
          try reflexivity.
        apply reps_xor; [apply reps_xor; [assumption|]|].
        + right. split; [|reflexivity]. unfold upd. rewrite sq_eqb_neq by assumption. assumption.
        + left. split; [|reflexivity]. unfold upd.
          rewrite sq_eqb_neq by congruence. rewrite sq_eqb_refl. reflexivity. }
    assert (G' : same_game (gview o p') (play (gview o p) (Normal f t pr))).
    { split; [|split; [|reflexivity]].
      - intros u. rewrite (play_normal_board (gview o p) f t pr k c Bf). exact (Bp u).
      - intros d j. etransitivity; [exact (H1 d j)|]. cbn [play g_board gview].
        destruct (i_piece_at o p t); reflexivity. }
    exists p', ks'. split.
    + constructor.
      * assumption.
      * exact G'.
      * exact P1.
      * unfold ks'. cbn [fst]. rewrite K1.
        rewrite (board_hash_ext z (i_piece_at o p') (upd (upd (i_piece_at o p) f None) t (Some (mkP k' c))));
          [|exact Bp].
        rewrite !board_hash_upd. fold p. unfold upd at 1. rewrite sq_eqb_neq by congruence.
        rewrite Bf. cbn [piece_entry pcolor pkind]. unfold z_board. cbn [pcolor pkind]. xors.
      * exact K2.
    + assert (Ck : (if b then calculate_checkers o p' else bempty o) = calculate_checkers o p').
      { destruct b; [reflexivity|]. symmetry. apply no_checkers; [assumption|].
        intros Q. apply (in_check_same _ (g_board (play (gview o p) (Normal f t pr))))
          in Q; [|apply G']. apply Hb in Q. discriminate. }
      fold p'. rewrite Ck. destruct (incr16 checks (i_ply o p')); reflexivity.
  - pose proof L as [P _]. destruct x as [k d]. destruct P as [Cx [Hx [Bt [Dx Nx]]]].
    cbn [pcolor pkind gview g_side g_board g_hand] in *. fold c in Cx, Hx, Dx, Nx. subst d.
    cbn [move_to last_moved].
    assert (Ik : In k hand_kinds).
    { destruct (in_dec kind_dec k hand_kinds) as [Ik|N]; [assumption|].
      rewrite (hand_n_not _ _ N) in Hx. lia. }
    pose proof (Hfit c k) as Room. fold p in Room.
    change (i_hand o (set_piece_at o (xor_piece o p t (mkP k c)) t (Some (mkP k c))) c)
      with (i_hand o p c).
    unfold hand_removed. rewrite (proj1 (hand_count_some _ _) Ik).
    rewrite (proj2 (N.ltb_lt _ _) Hx). cbn [bind].
    set (h := hand_set (i_hand o p c) k (hand_n (i_hand o p c) k - 1)).
    set (p' := set_side o (set_hand o (set_piece_at o (xor_piece o p t (mkP k c)) t
                 (Some (mkP k c))) c h) (flip c)).
    assert (Hc : i_hand o p' c = h).
    { unfold p', i_hand, set_side, set_hand. cbn [i_hands]. rewrite c_get_set, color_eqb_refl.
      reflexivity. }
    rewrite Hc. rewrite (proj1 (hand_count_some _ _) Ik). cbn [bind].
    assert (Hn : hand_n h k = (hand_n (i_hand o p c) k - 1)%N).
    { unfold h. rewrite hand_n_set by assumption. rewrite kind_eqb_refl. reflexivity. }
    rewrite Hn. unfold z_hand, MAX_HAND_NUM. rewrite (hand_kind_index _ Ik).
    assert (R18 : (hand_n (i_hand o p c) k - 1 <? 18)%N = true) by (apply N.ltb_lt; lia).
    rewrite R18. cbn [andb bind fst snd].
    assert (HH : forall e j, hand_n (i_hand o p' e) j =
      upd_hand (g_hand (gview o p)) c k (g_hand (gview o p) c k - 1) e j).
    { intros e j. unfold p', i_hand, set_side, set_hand. cbn [i_hands set_piece_at xor_piece].
      rewrite c_get_set. unfold upd_hand. cbn [gview g_hand]. unfold i_hand.
      destruct (color_eqb_spec e c) as [->|Nd]; cbn [andb]; [|reflexivity].
      unfold h. apply hand_n_set. assumption. }
    assert (Bp : forall u, i_piece_at o p' u = after (i_piece_at o p) nothing t (mkP k c) u).
    { intros u. unfold p', i_piece_at, set_side, set_hand, set_piece_at. cbn [i_board xor_piece].
      rewrite sa_get_set. reflexivity. }
    assert (R' : rep p').
    { apply reps_rep. apply (reps_ext o S _ (upd (i_piece_at o p) t (Some (mkP k c)))).
      - intros u. rewrite Bp. reflexivity.
      - apply (reps_bbs o S (xor_piece o p t (mkP k c))); try reflexivity.
        apply reps_xor; [apply reps_rep; assumption|]. left. tauto. }
    assert (G' : same_game (gview o p') (play (gview o p) (Drop t (mkP k c)))).
    { split; [|split; [|reflexivity]].
      - intros u. rewrite play_drop_board. exact (Bp u).
      - intros e j. exact (HH e j). }
    exists p', (N.lxor (N.lxor (fst (s_keys o st)) (z_board z t (mkP k c))) KEY_COLOR,
                N.lxor (snd (s_keys o st)) (z_hand_entry z c k (hand_n (i_hand o p c) k - 1))).
    split.
    + constructor.
      * assumption.
      * exact G'.
      * reflexivity.
      * cbn [fst]. rewrite (board_hash_ext z (i_piece_at o p') (upd (i_piece_at o p) t (Some (mkP k c))));
          [|exact Bp].
        rewrite board_hash_upd, Bt. fold p. cbn [piece_entry pcolor pkind]. unfold z_board.
        cbn [pcolor pkind]. xors.
      * cbn [snd]. rewrite (hand_hash_ext z (fun c k => hand_n (i_hand o p' c) k) _ HH), (hand_hash_upd z _ _ _ _ Ik).
        change (g_hand (gview o p) c k) with (hand_n (i_hand o p c) k).
        assert (E : held_hash z c k (hand_n (i_hand o p c) k) =
          N.lxor (held_hash z c k (hand_n (i_hand o p c) k - 1))
                 (z_hand_entry z c k (hand_n (i_hand o p c) k - 1))).
        { rewrite <- held_hash_succ. f_equal. lia. }
        rewrite E. fold p. cbn [gview g_hand]. xors.
    + assert (Ck : (if b then bsingle o t else bempty o) = calculate_checkers o p').
      { pose proof (valid_same _ _ (same_sym _ _ G') V') as V2.
        destruct b.
        - apply (sp_ext o S); [apply (sp_wf_single o S)|apply (wf_checkers o S p' R')|].
          intros s. apply eq_true_iff_eq. rewrite (sp_single o S).
          rewrite (checkers_att o S p' R' (valid_orderly _ V2)).
          change (i_side o p') with (flip c). rewrite flip_flip.
          pose proof (proj1 Hb eq_refl) as Q. destruct Q as [K [BK Q]].
          rewrite play_drop_board in BK, Q. apply attacked_att in Q as [s0 Q].
          cbn [g_board gview] in BK, Q. rewrite flip_flip in Q.
          assert (NKt : K <> t).
          { intros ->. rewrite after_t in BK. injection BK as _ BK. destruct c; discriminate. }
          assert (BK0 : i_piece_at o p K = Some (mkP King (flip c))).
          { rewrite after_other in BK; [assumption|assumption|reflexivity]. }
          pose proof (check_drop _ c K t k Bt ltac:(congruence) (chk_safe o S pos st I K BK0)) as CD.
          assert (AE : forall s K0, att (i_piece_at o p') c s K0 <->
                        att (after (i_piece_at o p) nothing t (mkP k c)) c s K0).
          { intros. apply att_same. exact Bp. }
          split.
          + intros Es. destruct (sq_eqb_spec s t) as [->|]; [|discriminate]. exists K.
            rewrite Bp. split; [assumption|]. apply AE. apply CD.
            split; [reflexivity|]. apply CD in Q. tauto.
          + intros [K0 [BK1 A]]. rewrite Bp in BK1.
            assert (K0 = K) as ->.
            { apply (v_king _ V' (flip c)); rewrite play_drop_board; assumption. }
            apply AE in A. apply CD in A as [-> _]. apply sq_eqb_refl.
        - symmetry. apply no_checkers; [assumption|]. intros Q.
          apply (in_check_same _ (g_board (play (gview o p) (Drop t (mkP k c))))) in Q;
            [|apply G']. apply Hb in Q. discriminate. }
      fold p'. rewrite Ck. destruct (incr16 checks (i_ply o p')); reflexivity.
Qed.

End Play.
