(** * Invariants along do_move, and undo_move *)

From Coq Require Import List Bool NArith ZArith Lia.
From Verif Require Import Types Rules Bitboard Tables Zobrist Position Movegen Api
  Words Squares Geometry BBSpec Attacks KingSafety Rep Legality PawnDrop Gen Drops Exact
  ValidPlay Moves Hash Play.
Import ListNotations.

Local Opaque fu_attack ky_attack ke_attack gi_attack ki_attack ou_attack ka_attack
  hi_attack pseudo_attack BETWEEN_TABLE FILES.

Section Undo.
Context (o : bbops) (S : bbspec o) (z : ztable) (checks : bool).
Notation BB := (bb o).
Notation has := (bcontains o).
Notation rep := (rep o S).
Notation inv := (inv o S).

Lemma rep_set_ply p n : rep p -> rep (set_ply o p n).
Proof.
  intros R. apply reps_rep. apply (reps_bbs o S p); try reflexivity.
  apply (reps_rep o S p). assumption.
Qed.

Lemma incr16_le n n' : (n <= 65535)%N -> incr16 checks n = Some n' -> (n' <= 65535)%N.
Proof.
  unfold incr16. intros L. destruct (N.eqb_spec n 65535).
  - destruct checks; [discriminate|]. intros [= <-]. lia.
  - intros [= <-]. lia.
Qed.
Lemma decr_incr n n' : (n <= 65535)%N -> incr16 checks n = Some n' -> decr16 checks n' = Some n.
Proof.
  unfold incr16, decr16. intros L. destruct (N.eqb_spec n 65535) as [->|N].
  - destruct checks; [discriminate|]. intros [= <-]. reflexivity.
  - intros [= <-]. destruct (N.eqb_spec (n + 1) 0); [lia|]. f_equal. lia.
Qed.

Lemma do_move_room pos m q : do_move o z checks pos m = Some q -> room (gview o (p_inner o pos)) m.
Proof.
  destruct m as [f t pr|t x]; [|intros _; exact I]. intros D y Bt. cbn [gview g_board g_hand g_side] in *.
  unfold do_move in D.
  match type of D with (let* _ := ?e in _) = _ => destruct e as [b|] end; [cbn [bind] in D|discriminate].
  destruct (pos_state o pos) as [st|]; [cbn [bind move_to] in D|discriminate].
  match type of D with (let* _ := ?e in _) = _ => destruct e as [x|] eqn:E end; [clear D|discriminate].
  match type of E with (let* _ := ?e in _) = _ => destruct e as [pc|] end; [cbn [bind] in E|discriminate].
  match type of E with (let* _ := ?e in _) = _ => destruct e as [[p1 ks]|] eqn:Ec end; [clear E|discriminate].
  unfold do_capture in Ec. rewrite Bt in Ec. fold (base_kind (pkind y)) in Ec.
  unfold hand_n. destruct (hand_count (i_hand o (p_inner o pos) (i_side o (p_inner o pos))) (base_kind (pkind y))) as [n|];
    [cbn [bind] in Ec|discriminate].
  unfold z_hand, MAX_HAND_NUM in Ec. destruct (N.ltb_spec n 18) as [Lt|Ge]; [exact Lt|].
  rewrite andb_false_r in Ec. discriminate.
Qed.

Lemma fit_play g m : (forall c k, (g_hand g c k <= 18)%N) -> room g m ->
  forall c k, (g_hand (play g m) c k <= 18)%N.
Proof.
  intros F M c k. destruct m as [f t pr|t x]; cbn [play g_hand].
  - destruct (g_board g t) as [y|] eqn:Bt; [|apply F]. pose proof (M y Bt) as L. unfold upd_hand.
    destruct (color_eqb c (g_side g) && kind_eqb k (base_kind (pkind y))); [lia|apply F].
  - unfold upd_hand. destruct (color_eqb c (g_side g) && kind_eqb k (pkind x)); [|apply F].
    pose proof (F (g_side g) (pkind x)). lia.
Qed.

Lemma do_move_inv pos st m q : inv pos st -> legal (gview o (p_inner o pos)) m ->
  do_move o z checks pos m = Some q ->
  exists st', inv q st' /\ p_states o q = st' :: p_states o pos /\
    same_game (gview o (p_inner o q)) (play (gview o (p_inner o pos)) m) /\
    incr16 checks (i_ply o (p_inner o pos)) = Some (i_ply o (p_inner o q)) /\
    s_captured o st' = i_piece_at o (p_inner o pos) (move_to m) /\
    s_last_moved o st' = last_moved (gview o (p_inner o pos)) m /\
    fst (s_keys o st') =
      N.lxor (N.lxor (fst (s_keys o st))
        (N.lxor (board_hash z (i_piece_at o (p_inner o pos)))
                (board_hash z (i_piece_at o (p_inner o q))))) KEY_COLOR /\
    snd (s_keys o st') =
      N.lxor (snd (s_keys o st))
        (N.lxor (hand_hash z (fun c k => hand_n (i_hand o (p_inner o pos) c) k))
                (hand_hash z (fun c k => hand_n (i_hand o (p_inner o q) c) k))).
Proof.
  intros I L D. pose proof (do_move_room pos m q D) as M.
  destruct (do_move_effect o S z checks pos st m I L M) as [p' [ks [E Ed]]].
  rewrite Ed in D. rewrite (ef_ply _ _ _ _ _ _ _ _ E) in D.
  destruct (incr16 checks (i_ply o (p_inner o pos))) as [n|] eqn:En; [|discriminate].
  cbn [bind] in D. injection D as <-.
  pose proof (ef_game _ _ _ _ _ _ _ _ E) as G.
  eexists. split; [|split; [reflexivity|]].
  - constructor.
    + apply rep_set_ply. apply (ef_rep _ _ _ _ _ _ _ _ E).
    + apply (valid_same _ _ (same_sym _ _ G)). apply valid_play.
      * apply (inv_valid _ _ _ _ I).
      * apply gview_hand_ok.
      * assumption.
    + intros c k. destruct G as [_ [Gh _]]. pose proof (Gh c k) as Gk. cbn [gview g_hand] in Gk.
      change (i_hand o (p_inner o (mkPos o (set_ply o p' n) _)) c) with (i_hand o p' c).
      rewrite Gk. apply fit_play; [exact (inv_fit _ _ _ _ I)|exact M].
    + reflexivity.
    + reflexivity.
    + cbn [p_inner set_ply i_ply]. apply (incr16_le _ _ (inv_ply _ _ _ _ I) En).
  - split; [exact G|]. repeat (split; [reflexivity|]).
    split; [exact (ef_board_key _ _ _ _ _ _ _ _ E)|exact (ef_hand_key _ _ _ _ _ _ _ _ E)].
Qed.

(** do_move succeeds on legal moves, except when the ply counter overflows. *)
Lemma do_move_total pos st m : inv pos st -> legal (gview o (p_inner o pos)) m ->
  room (gview o (p_inner o pos)) m ->
  (do_move o z checks pos m = None <-> checks = true /\ i_ply o (p_inner o pos) = 65535%N).
Proof.
  intros I L M. destruct (do_move_effect o S z checks pos st m I L M) as [p' [ks [E Ed]]].
  rewrite Ed, (ef_ply _ _ _ _ _ _ _ _ E). unfold incr16.
  destruct (N.eqb_spec (i_ply o (p_inner o pos)) 65535) as [->|N].
  - destruct checks; cbn [bind]; intuition congruence.
  - cbn [bind]. intuition congruence.
Qed.

(** ** undo_move *)

Theorem undo_do pos st m q : inv pos st -> legal (gview o (p_inner o pos)) m ->
  do_move o z checks pos m = Some q -> undo_move o checks q m = Some pos.
Proof.
  intros I L D.
  destruct (do_move_inv pos st m q I L D) as [st' [I' [Es [G [En [Ec [El _]]]]]]].
  pose proof (inv_rep _ _ _ _ I) as R. pose proof (inv_valid _ _ _ _ I) as V.
  pose proof (inv_rep _ _ _ _ I') as R'.
  set (p := p_inner o pos) in *. set (p' := p_inner o q) in *.
  unfold undo_move. fold p'. destruct G as [Gb [Gh Gs]]. cbn [gview g_board g_hand g_side] in *.
  assert (Sd : i_side o p' = flip (i_side o p)) by (destruct m; exact Gs).
  rewrite Sd, flip_flip. set (c := i_side o p) in *.
  assert (Fin : forall p2, rep p2 -> (forall s, i_piece_at o p2 s = i_piece_at o p s) ->
    (forall d k, hand_n (i_hand o p2 d) k = hand_n (i_hand o p d) k) ->
    i_ply o p2 = i_ply o p' ->
    (let* n := decr16 checks (i_ply o (set_side o p2 c)) in
     Some (mkPos o (set_ply o (set_side o p2 c) n) (tl (p_states o q)))) = Some pos).
  { intros p2 R2 B2 H2 P2. change (i_ply o (set_side o p2 c)) with (i_ply o p2). rewrite P2.
    rewrite (decr_incr _ _ (inv_ply _ _ _ _ I) En). cbn [bind]. rewrite Es. cbn [tl].
    assert (E : set_ply o (set_side o p2 c) (i_ply o p) = p).
    { apply (inner_ext o S).
      - apply rep_set_ply. apply reps_rep. apply (reps_bbs o S p2); try reflexivity.
        apply (reps_rep o S p2). assumption.
      - assumption.
      - exact B2.
      - apply c_ext. intros d. apply hand_n_ext. intros k. exact (H2 d k).
      - reflexivity.
      - reflexivity. }
    transitivity (Some (mkPos o p (p_states o pos))); [f_equal; f_equal; exact E|].
    unfold p. destruct pos; reflexivity. }
  destruct m as [f t pr|t x].
  - destruct L as [P _]. pose proof (fun d => no_king_capture _ f t pr d V P) as NK.
    destruct P as [k [Bf [Ct [Rf Pr]]]]. cbn [gview g_board g_side g_hand] in *.
    fold c in Bf, Ct, Rf, Pr.
    assert (Nft : f <> t) by (intros ->; exact (Ct _ Bf)).
    set (k' := if pr then promoted_kind k else k).
    rewrite (inv_st _ _ _ _ I'). cbn [bind]. rewrite El. cbn [last_moved gview g_board].
    fold p. rewrite Bf. cbn [bind]. rewrite Ec. cbn [move_to].
    assert (Bp : forall u, i_piece_at o p' u = after (i_piece_at o p) (only f) t (mkP k' c) u).
    { intros u. rewrite Gb, (play_normal_board (gview o p) f t pr k c Bf). reflexivity. }
    assert (Cap : exists p1, match i_piece_at o p t with
      | Some x =>
          let pk := pkind x in
          let pk_unpromoted := match unpromote_kind pk with Some k => k | None => pk end in
          let p0 := xor_piece o p' t x in
          let* h := hand_removed (i_hand o p0 c) pk_unpromoted in
          Some (set_hand o p0 c h)
      | None => Some p' end = Some p1 /\
      (forall y, reps o S (xor_piece o (xor_piece o p1 f (mkP k c)) t (mkP k' c)) y <->
        reps o S (xor_piece o (xor_piece o (match i_piece_at o p t with
           | Some x => xor_piece o p' t x | None => p' end) f (mkP k c)) t (mkP k' c)) y) /\
      i_board o p1 = i_board o p' /\ i_ply o p1 = i_ply o p' /\
      (forall d j, hand_n (i_hand o p1 d) j = hand_n (i_hand o p d) j)).
    { cbn [play g_hand g_board g_side gview] in Gh. fold c in Gh.
      destruct (i_piece_at o p t) as [x|] eqn:Bt.
      - cbv zeta. change (match unpromote_kind (pkind x) with Some k0 => k0 | None => pkind x end)
          with (base_kind (pkind x)).
        assert (Nq : pkind x <> King).
        { destruct x as [kq dq]. cbn. intros ->. exact (NK dq eq_refl). }
        pose proof (base_in_hand x Nq) as Iq.
        change (i_hand o (xor_piece o p' t x) c) with (i_hand o p' c). unfold hand_removed.
        rewrite (proj1 (hand_count_some _ _) Iq).
        pose proof (Gh c (base_kind (pkind x))) as Hn. unfold upd_hand in Hn.
        rewrite color_eqb_refl, kind_eqb_refl in Hn. cbn [andb] in Hn.
        assert (Pos : (0 <? hand_n (i_hand o p' c) (base_kind (pkind x)))%N = true)
          by (apply N.ltb_lt; lia).
        rewrite Pos. cbn [bind]. eexists. split; [reflexivity|].
        split; [|split; [reflexivity|split; [reflexivity|]]].
        + intros y. split; apply reps_bbs; reflexivity.
        + intros d j. unfold i_hand, set_hand. cbn [i_hands xor_piece]. rewrite c_get_set.
          specialize (Gh d j). unfold upd_hand in Gh.
          destruct (color_eqb_spec d c) as [->|Nd]; cbn [andb] in Gh; [|exact Gh].
          rewrite hand_n_set by assumption.
          destruct (kind_eqb_spec j (base_kind (pkind x))) as [Ej|Nj]; [subst j|exact Gh].
          fold (i_hand o p c). fold (i_hand o p' c). lia.
      - exists p'. split; [reflexivity|]. split; [tauto|]. repeat (split; [reflexivity|]).
        exact Gh. }
    destruct Cap as [p1 [E1 [R1 [B1 [P1 H1]]]]]. cbv zeta in E1. cbv zeta. rewrite E1. cbn [bind].
    assert (At : i_piece_at o (xor_piece o p1 f (mkP k c)) t = Some (mkP k' c)).
    { change (i_piece_at o (xor_piece o p1 f (mkP k c)) t) with (sa_get (i_board o p1) t).
      rewrite B1. change (sa_get (i_board o p') t) with (i_piece_at o p' t).
      rewrite Bp. apply after_t. }
    rewrite At. cbn [bind]. apply Fin.
    + apply reps_rep.
      apply (reps_bbs o S (xor_piece o (xor_piece o p1 f (mkP k c)) t (mkP k' c)));
        try reflexivity.
      apply R1.
      assert (Q : forall s, i_piece_at o (set_piece_at o (set_piece_at o (xor_piece o
          (xor_piece o p1 f (mkP k c)) t (mkP k' c)) f (Some (mkP k c))) t (i_piece_at o p t)) s
          = i_piece_at o p s).
      { intros s. unfold i_piece_at, set_piece_at. cbn [i_board xor_piece].
        rewrite !sa_get_set, B1. destruct (sq_eqb_spec s t) as [->|Nt]; [reflexivity|].
        destruct (sq_eqb_spec s f) as [->|Nf]; [symmetry; exact Bf|].
        change (i_piece_at o p' s = i_piece_at o p s). rewrite Bp. unfold after, only.
        rewrite !sq_eqb_neq by assumption. reflexivity. }
      apply (reps_ext o S _ (i_piece_at o p)); [intros s; symmetry; apply Q|].
      pose proof (proj2 (reps_rep o S p') R') as Rp.
      (* three exclusive ors *)
      destruct (i_piece_at o p t) as [x|] eqn:Bt.
      * (* the square [to] holds two pieces for a moment, so use set algebra *)
        destruct Rp as [W1 W2 C1 C2].
        assert (WX : forall a y s, (forall d, wf S (player_bb o a d)) ->
           forall d, wf S (player_bb o (xor_piece o a s y) d)).
        { intros a y s W d. unfold player_bb, xor_piece. cbn [i_player_bb]. rewrite c_get_set.
          destruct (color_eqb d (pcolor y)); [|apply W].
          apply (sp_wf_xor o S); [apply W|apply (sp_wf_single o S)]. }
        assert (WK : forall a y s, (forall j, wf S (piece_bb o a j)) ->
           forall j, wf S (piece_bb o (xor_piece o a s y) j)).
        { intros a y s W j. unfold piece_bb, xor_piece. cbn [i_piece_bb]. rewrite k_get_set.
          destruct (kind_eqb j (pkind y)); [|apply W].
          apply (sp_wf_xor o S); [apply W|apply (sp_wf_single o S)]. }
        assert (XP : forall a y s d u, has (player_bb o (xor_piece o a s y) d) u =
           xorb (has (player_bb o a d) u) (color_eqb d (pcolor y) && sq_eqb u s)).
        { intros a y s d u. unfold player_bb, xor_piece. cbn [i_player_bb]. rewrite c_get_set.
          destruct (color_eqb_spec d (pcolor y)) as [->|Nd]; cbn [andb].
          - rewrite (sp_xor o S), (sp_single o S). reflexivity.
          - symmetry. apply xorb_false_r. }
        assert (XK : forall a y s j u, has (piece_bb o (xor_piece o a s y) j) u =
           xorb (has (piece_bb o a j) u) (kind_eqb j (pkind y) && sq_eqb u s)).
        { intros a y s j u. unfold piece_bb, xor_piece. cbn [i_piece_bb]. rewrite k_get_set.
          destruct (kind_eqb_spec j (pkind y)) as [->|Nd]; cbn [andb].
          - rewrite (sp_xor o S), (sp_single o S). reflexivity.
          - symmetry. apply xorb_false_r. }
        constructor.
        -- intros d. repeat apply WX. assumption.
        -- intros j. repeat apply WK. assumption.
        -- intros d u. rewrite !XP, C1, Bp. unfold after, only. cbn [pcolor].
           destruct (sq_eqb_spec u t) as [->|Nt].
           ++ rewrite (sq_eqb_neq t f) by congruence. rewrite Bt. cbn [colorb pcolor].
              rewrite !andb_true_r, andb_false_r.
              destruct (color_eqb_spec c d), (color_eqb_spec d c), (color_eqb_spec d (pcolor x)),
                (color_eqb_spec (pcolor x) d); try congruence; reflexivity.
           ++ rewrite !andb_false_r, !xorb_false_r.
              destruct (sq_eqb_spec u f) as [->|Nf].
              ** rewrite Bf. cbn [colorb pcolor]. rewrite andb_true_r.
                 destruct (color_eqb_spec c d), (color_eqb_spec d c); try congruence; reflexivity.
              ** rewrite andb_false_r. apply xorb_false_r.
        -- intros j u. rewrite !XK, C2, Bp. unfold after, only. cbn [pkind].
           destruct (sq_eqb_spec u t) as [->|Nt].
           ++ rewrite (sq_eqb_neq t f) by congruence. rewrite Bt. cbn [kindb pkind].
              rewrite !andb_true_r, andb_false_r.
              destruct (kind_eqb_spec k' j), (kind_eqb_spec j k'), (kind_eqb_spec j (pkind x)),
                (kind_eqb_spec (pkind x) j); try congruence; reflexivity.
           ++ rewrite !andb_false_r, !xorb_false_r.
              destruct (sq_eqb_spec u f) as [->|Nf].
              ** rewrite Bf. cbn [kindb pkind]. rewrite andb_true_r.
                 destruct (kind_eqb_spec k j), (kind_eqb_spec j k); try congruence; reflexivity.
              ** rewrite andb_false_r. apply xorb_false_r.
      * apply (reps_ext o S _ (upd (upd (i_piece_at o p') f (Some (mkP k c))) t None)).
        -- intros u. unfold upd. rewrite Bp. unfold after, only.
           destruct (sq_eqb_spec u t) as [->|Nt]; [symmetry; assumption|].
           destruct (sq_eqb_spec u f) as [->|Nf]; [symmetry; assumption|reflexivity].
        -- apply reps_xor; [apply reps_xor; [assumption|]|].
           ++ left. split; [|reflexivity]. rewrite Bp. unfold after, only.
              rewrite sq_eqb_neq by assumption. rewrite sq_eqb_refl. reflexivity.
           ++ right. split; [|reflexivity]. unfold upd. rewrite sq_eqb_neq by congruence.
              rewrite Bp. apply after_t.
    + intros s. unfold i_piece_at, set_piece_at. cbn [i_board xor_piece].
      rewrite !sa_get_set, B1. destruct (sq_eqb_spec s t) as [->|Nt]; [reflexivity|].
      destruct (sq_eqb_spec s f) as [->|Nf]; [symmetry; exact Bf|].
      change (i_piece_at o p' s = i_piece_at o p s). rewrite Bp. unfold after, only.
      rewrite !sq_eqb_neq by assumption. reflexivity.
    + exact H1.
    + exact P1.
  - destruct L as [P _]. destruct x as [k d]. destruct P as [Cx [Hx [Bt [Dx Nx]]]].
    cbn [pcolor pkind gview g_side g_board g_hand play] in *. fold c in Cx, Hx, Dx, Nx, Gh. subst d.
    assert (Ik : In k hand_kinds).
    { destruct (in_dec kind_dec k hand_kinds) as [Ik|N]; [assumption|].
      rewrite (hand_n_not _ _ N) in Hx. lia. }
    cbv zeta.
    change (i_hand o (set_piece_at o (xor_piece o p' t (mkP k c)) t None) c) with (i_hand o p' c).
    unfold hand_added. rewrite (proj1 (hand_count_some _ _) Ik).
    pose proof (Gh c k) as Hn. unfold upd_hand in Hn.
    rewrite color_eqb_refl, kind_eqb_refl in Hn. cbn [andb] in Hn.
    pose proof (inv_fit _ _ _ _ I c k) as Room. fold p in Room.
    assert (Fit : (hand_n (i_hand o p' c) k <? 255)%N = true) by (apply N.ltb_lt; lia).
    rewrite Fit. cbn [bind]. apply Fin.
    + apply reps_rep.
      apply (reps_ext o S _ (upd (i_piece_at o p') t None)).
      * intros s. unfold upd, i_piece_at, set_hand, set_piece_at. cbn [i_board xor_piece].
        rewrite sa_get_set. reflexivity.
      * apply (reps_bbs o S (xor_piece o p' t (mkP k c))); try reflexivity.
        apply reps_xor; [apply reps_rep; assumption|]. right. split; [|reflexivity].
        rewrite Gb. unfold upd. rewrite sq_eqb_refl. reflexivity.
    + intros s. unfold i_piece_at, set_hand, set_piece_at. cbn [i_board xor_piece].
      rewrite sa_get_set. destruct (sq_eqb_spec s t) as [->|Ns]; [symmetry; exact Bt|].
      change (i_piece_at o p' s = i_piece_at o p s). rewrite Gb. unfold upd.
      rewrite sq_eqb_neq by assumption. reflexivity.
    + intros d j. unfold i_hand, set_hand. cbn [i_hands set_piece_at xor_piece]. rewrite c_get_set.
      specialize (Gh d j). unfold upd_hand in Gh.
      destruct (color_eqb_spec d c) as [->|Nd]; cbn [andb] in Gh; [|exact Gh].
      rewrite hand_n_set by assumption.
      destruct (kind_eqb_spec j k) as [Ej|Nj]; [subst j|exact Gh].
      fold (i_hand o p c). fold (i_hand o p' c). lia.
    + reflexivity.
Qed.

End Undo.
