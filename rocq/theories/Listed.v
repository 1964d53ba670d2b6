(** * Listed moves in positions that need not be valid

    What every move listed by legal_moves satisfies in any position that new
    accepts: it moves an own piece to a square without own piece, or drops a
    piece that is in hand on an empty square. *)

From Coq Require Import List Bool NArith ZArith Lia Permutation.
From Verif Require Import Types Rules Bitboard Tables Zobrist Position Movegen Api
  Words Squares Geometry BBSpec Backends Attacks KingSafety Rep Legality PawnDrop Gen Drops Exact Loops ValidPlay
  Moves Hash Play Undo Reach AnyMove Panics Lines Facts Unsafe Accept Tidy.
Import ListNotations.

Lemma one_out (a b c d e f g k h i : list move) m :
  In m (a ++ b ++ c ++ d ++ e ++ f ++ g ++ k ++ h ++ i) ->
  In m (a ++ b ++ c ++ d ++ e ++ f ++ g ++ h ++ i) \/ In m k.
Proof.
  rewrite !in_app_iff. intros I.
  repeat destruct I as [I|I]; first [right; assumption|left; repeat ((left; assumption) || right); assumption].
Qed.

Section Listed.
Context (cf : config).
Notation o := (ops cf).
Notation Sp := (backend_spec (cf_backend cf) (cf_checks cf)).
Notation has := (bcontains o).
Context (p : inner o) (R : rep o Sp p) (ai : attack_info o).
Notation B := (i_piece_at o p).
Notation c := (i_side o p).

(* a cached set of checkers holds only pieces that attack the king *)
Definition real_checkers (ck : bb o) : Prop :=
  wf Sp ck /\ forall s, has ck s = true -> exists K, king_position o p c = Some K /\ att B (flip c) s K.

Lemma calculated_real : real_checkers (calculate_checkers o p).
Proof.
  split; [apply wf_checkers; exact R|]. intros s.
  rewrite (checkers_spec o Sp p R). destruct (king_position o p c) as [K|]; [|discriminate].
  destruct (B s) as [[k d]|] eqn:Bs; [|discriminate].
  rewrite !andb_true_iff. intros [[H1 _] H2]. exists K. split; [reflexivity|]. exists k.
  destruct (color_eqb_spec d (flip c)) as [->|]; [|discriminate]. split; assumption.
Qed.

Lemma empty_real : real_checkers (bempty o).
Proof. split; [apply (sp_wf_empty o Sp)|]. intros s. rewrite (sp_empty o Sp). discriminate. Qed.

Context (Ai : real_checkers (ai_checkers o ai)).

Definition board_move (tg : bb o) (m : move) : Prop :=
  exists f t pr k, m = Normal f t pr /\ B f = Some (mkP k c) /\
    (pr = true -> promote_kind k <> None) /\ has tg t = true.

Lemma bmove_board tg k m : bmove o p tg k m -> board_move tg m.
Proof.
  intros [f [t [pr [-> [Bf [_ [Ht Hp]]]]]]]. exists f, t, pr, k.
  repeat (split; [easy|]). split; [|assumption]. intros ->. apply Hp.
Qed.

Lemma fu_board tg m : wf Sp tg -> In m (gen_fu o p tg) -> board_move tg m.
Proof.
  intros W I.
  destruct (gen_fu_source (cf_backend cf) (cf_checks cf) p tg m) as [t [pr [-> [_ [H1 [H2 H3]]]]]].
  - apply on_board_wf. apply (rep_wf_piece _ _ _ R).
  - apply on_board_wf. exact W.
  - exact I.
  - exists (sq_of_u8 (fu_from_u8 c t)), t, pr, Pawn. split; [reflexivity|]. split; [|split].
    + apply (own_in o Sp p R). unfold own. rewrite (sp_and o Sp). apply andb_true_iff. split; assumption.
    + discriminate.
    + exact H3.
Qed.

Lemma nonking_board tg m : wf Sp tg -> In m (gen_nonking o p tg) -> board_move tg m.
Proof.
  intros W. unfold gen_nonking. rewrite !in_app_iff. intros [I|I]; [apply fu_board; assumption|].
  rewrite (gen_ky_in o Sp p R), (gen_ke_in o Sp p R), (gen_gi_in o Sp p R), (gen_ka_in o Sp p R),
    (gen_hi_in o Sp p R), (gen_ki_in o Sp p R), (gen_um_in o Sp p R), (gen_ry_in o Sp p R) in I by exact W.
  repeat destruct I as [I|I]; try exact (bmove_board _ _ _ I).
  destruct I as [k [_ I]]. exact (bmove_board _ _ _ I).
Qed.

Definition hand_drop (tg : bb o) (m : move) : Prop :=
  exists t k, m = Drop t (mkP k c) /\ (0 < hand_n (i_hand o p c) k)%N /\ has tg t = true.

Lemma wf_and_l a b : wf Sp a -> wf Sp (band o a b).
Proof.
  intros W. assert (E : band o a b = band o b a).
  { clear. unfold ops in *. destruct (cf_backend cf); cbn in *; [apply N.land_comm|..];
      unfold v_and, v_map2; f_equal; apply N.land_comm. }
  rewrite E. apply on_board_wf. apply and_on_board_r. apply on_board_wf. exact W.
Qed.

Lemma drop_target tg v t : pawn_drop_target o p ai tg = Some v -> wf Sp tg ->
  In t (biter o v) -> has tg t = true.
Proof.
  intros E W I. unfold pawn_drop_target in E. cbv zeta in E.
  destruct (bvacant o (own o p Pawn)) as [vac|]; [cbn [bind] in E|discriminate].
  assert (W' : wf Sp (band o tg vac)) by (apply wf_and_l; exact W).
  assert (H1 : forall u, In u (biter o (band o tg vac)) -> has tg u = true).
  { intros u Iu. apply (iter_in o Sp) in Iu; [|exact W']. rewrite (sp_and o Sp) in Iu.
    apply andb_true_iff in Iu. tauto. }
  injection E as <-.
  destruct (king_position o p (flip c)) as [K|]; [|auto].
  destruct (hd_error (biter o (fu_attack o K (flip c)))) as [to|]; [|auto].
  destruct (has (band o tg vac) to && is_pawn_drop_mate o p ai to); [|auto].
  apply (iter_in o Sp) in I; [|apply wf_and_l; exact W'].
  rewrite !(sp_and o Sp), !andb_true_iff in I. tauto.
Qed.

Lemma drops_hand tg l m : wf Sp tg -> gen_drop o p ai tg = Some l -> In m l -> hand_drop tg m.
Proof.
  intros W. unfold gen_drop.
  set (ks := filter _ hand_kinds).
  assert (Hk : forall k, In k ks -> (0 < hand_n (i_hand o p c) k)%N).
  { intros k I. apply filter_In in I as [_ I]. apply N.ltb_lt in I. exact I. }
  clearbody ks.
  assert (F : forall ks acc l, (forall k, In k ks -> (0 < hand_n (i_hand o p c) k)%N) ->
    fold_left (fun acc k => let* acc := acc in let* ms := gen_drop_kind o p ai tg k in Some (acc ++ ms))
      ks (Some acc) = Some l ->
    (forall m, In m acc -> hand_drop tg m) -> forall m, In m l -> hand_drop tg m).
  { clear -W R Ai. induction ks as [|k ks IH]; intros acc l Hk E Ha m I; cbn [fold_left] in E.
    - injection E as <-. auto.
    - cbn [bind] in E. destruct (gen_drop_kind o p ai tg k) as [ms|] eqn:Ek; cbn [bind] in E.
      + apply (IH (acc ++ ms) l); [intros; apply Hk; right; assumption|exact E| |exact I].
        intros m' I'. apply in_app_iff in I' as [I'|I']; [auto|].
        unfold gen_drop_kind in Ek. cbv zeta in Ek.
        match type of Ek with (let* _ := ?e in _) = _ => destruct e as [vv|] eqn:Ev end;
          [cbn [bind] in Ek|discriminate].
        injection Ek as <-. apply in_map_iff in I' as [t [<- It]]. apply filter_In in It as [It _].
        exists t, k. split; [reflexivity|]. split; [apply Hk; left; reflexivity|].
        destruct (kind_eqb k Pawn).
        * exact (drop_target tg vv t Ev W It).
        * injection Ev as <-. apply (iter_in o Sp); [exact W|exact It].
      + exfalso. clear -E. induction ks as [|k' ks IH]; cbn [fold_left bind] in E; [discriminate|auto]. }
  intros E I. apply (F ks [] l Hk E); [intros m' []|exact I].
Qed.

(* what a listed move satisfies *)
Definition listed_ok (m : move) : Prop :=
  match m with
  | Normal f t pr => exists k, B f = Some (mkP k c) /\ (pr = true -> promote_kind k <> None) /\
      forall k', B t <> Some (mkP k' c)
  | Drop t x => pcolor x = c /\ (0 < hand_n (i_hand o p c) (pkind x))%N /\ B t = None
  end.

Lemma board_ok tg m : (forall t, has tg t = true -> forall k', B t <> Some (mkP k' c)) ->
  board_move tg m -> listed_ok m.
Proof. intros H [f [t [pr [k [-> [Bf [Hp Ht]]]]]]]. exists k. repeat (split; [assumption|]). auto. Qed.
Lemma drop_ok tg m : (forall t, has tg t = true -> B t = None) -> hand_drop tg m -> listed_ok m.
Proof. intros H [t [k [-> [Hh Ht]]]]. cbn. repeat (split; [easy|]). auto. Qed.

Lemma candidates_ok cs m : candidates o p ai = Some cs -> In m cs -> listed_ok m.
Proof.
  pose proof (not_own_spec o Sp p R) as NO.
  unfold candidates.
  destruct Ai as [Wc Hc'].
  destruct (bis_empty o (ai_checkers o ai)); cbn [negb].
  - unfold generate_all. cbv zeta.
    destruct (gen_drop o p ai _) as [ds|] eqn:Ed; [cbn [bind]|discriminate]. intros [= <-] I.
    set (tg := bnot o (player_bb o p c)) in *.
    assert (W : wf Sp tg) by apply (sp_wf_not o Sp).
    apply in_app_iff in I as [I|I].
    + apply (board_ok tg); [intros t; apply NO|].
      assert (I' : In m (gen_nonking o p tg) \/ In m (gen_ou o p tg)).
      { apply one_out. exact I. }
      destruct I' as [I'|I']; [exact (nonking_board tg m W I')|].
      apply (gen_ou_in o Sp p R) in I'; [|exact W]. exact (bmove_board _ _ _ I').
    + eapply drop_ok; [|eapply drops_hand; [|exact Ed|exact I]].
      * intros t. apply (empty_target_spec o Sp p R).
      * apply (sp_wf_and o Sp); apply (sp_wf_not o Sp).
  - unfold generate_evasions. cbv zeta.
    destruct (king_position o p c) as [K|] eqn:EK; [cbn [bind]|discriminate].
    destruct (checkers_attacks o p K _) as [ca|]; [cbn [bind]|discriminate].
    set (kms := map _ _).
    assert (Hk : In m kms -> listed_ok m).
    { intros I. apply in_map_iff in I as [t [<- It]].
      apply (iter_in o Sp) in It.
      2:{ repeat apply (sp_wf_and o Sp); try apply (sp_wf_not o Sp). apply wf_ou. }
      rewrite !(sp_and o Sp), !andb_true_iff in It. destruct It as [[_ It] _].
      exists King. split; [apply (king_position_some o Sp p R); exact EK|].
      split; [discriminate|]. apply NO. exact It. }
    destruct (Nat.ltb 1 _); [intros [= <-]; exact Hk|].
    destruct (hd_error _) as [ch|] eqn:Eh; [cbn [bind]|discriminate].
    assert (Hc : has (ai_checkers o ai) ch = true).
    { pose proof (iter_hd o Sp _ Wc) as H. rewrite Eh in H. exact H. }
    assert (Hs : forall s, has (ai_checkers o ai) s = true -> att B (flip c) s K).
    { intros s Hs. destruct (Hc' s Hs) as [K' [H1 H2]]. congruence. }
    set (td := BETWEEN_TABLE o ch K).
    assert (Wd : wf Sp td) by apply wf_between.
    assert (Td : forall t, has td t = true -> B t = None).
    { intros t H. unfold td in H. rewrite (between_table_spec o Sp) in H.
      pose proof (Hs ch Hc) as A. apply att_alt in A as [k [_ [_ A]]]. auto. }
    set (tm := bor o td (ai_checkers o ai)).
    assert (Wm : wf Sp tm) by (apply (sp_wf_or o Sp); [exact Wd|exact Wc]).
    assert (Tm : forall t, has tm t = true -> forall k', B t <> Some (mkP k' c)).
    { intros t H k' E. unfold tm in H. rewrite (sp_or o Sp), orb_true_iff in H.
      destruct H as [H|H]; [rewrite (Td t H) in E; discriminate|].
      apply Hs in H as [k [H _]]. rewrite H in E. injection E as _ E. destruct (i_side o p); discriminate. }
    destruct (if negb (bis_empty o td) then gen_drop o p ai td else Some []) as [ds|] eqn:Ed;
      [cbn [bind]|discriminate]. intros [= <-] I.
    apply in_app_iff in I as [I|I]; [exact (Hk I)|].
    apply in_app_iff in I as [I|I].
    + apply (board_ok tm m Tm). apply nonking_board; [exact Wm|]. exact I.
    + destruct (negb (bis_empty o td)).
      * apply (drop_ok td m Td). exact (drops_hand td ds m Wd Ed I).
      * injection Ed as <-. destruct I.
Qed.

End Listed.

Local Opaque calculate_checkers BETWEEN_TABLE z_board checkables_for pinned_for.

Section Playable.
Context (cf : config).
Notation o := (ops cf).
Notation Sp := (backend_spec (cf_backend cf) (cf_checks cf)).

(* positions that play by listed moves leads to, from anything that new accepts *)
Inductive listed_play : nat -> Yasai.Position cf -> Prop :=
  | lp_new pp p : Yasai.new cf pp = Some p -> listed_play 0 p
  | lp_move n p l m q : listed_play n p -> Yasai.legal_moves cf p = Some l -> In m l ->
      Yasai.do_move cf p m = Some q -> listed_play (S n) q.

Definition kept (n : nat) (p : Yasai.Position cf) : Prop :=
  sane cf p /\ steady cf n p /\
  exists st, pos_state o p = Some st /\ real_checkers cf (p_inner o p) (ai_checkers o (s_attack_info o st)).

Lemma listed_shape n p l m : kept n p -> Yasai.legal_moves cf p = Some l -> In m l ->
  listed_ok cf (p_inner o p) m.
Proof.
  intros [_ [[R _] [st [Es Hr]]]] E I.
  unfold Yasai.legal_moves, legal_moves in E. rewrite Es in E. cbn [bind] in E.
  match type of E with (let* ms := ?a in _) = _ => destruct a as [cs|] eqn:Ec end;
    [cbn [bind] in E|discriminate].
  rewrite push_all_spec in E. destruct (Nat.leb _ _); [cbn [bind] in E|discriminate].
  match type of E with filter_loop _ ?f 0 _ = _ =>
    destruct (filter_loop_spec f (length cs) cs (le_n _)) as [r [Er Pr]] end.
  assert (r = l) by congruence. subst r.
  eapply candidates_ok; [exact R|exact Hr|exact Ec|].
  apply (Permutation_in _ Pr) in I. apply filter_In in I. tauto.
Qed.

Lemma listed_tidy n p l m : kept n p -> Yasai.legal_moves cf p = Some l -> In m l -> tidy cf p m.
Proof.
  intros N E I. pose proof (listed_shape n p l m N E I) as L.
  destruct m as [f t pr|t x]; cbn [tidy listed_ok] in *.
  - destruct L as [k [Bf [_ Ht]]]. intros ->. exact (Ht k Bf).
  - apply L.
Qed.

Lemma new_kept pp p : Yasai.new cf pp = Some p -> kept 0 p.
Proof.
  intros N. split; [exact (new_sane cf pp p N)|]. split; [exact (new_steady cf pp p N)|].
  pose proof (new_fit cf pp p N) as F. rewrite (new_some cf pp F) in N. injection N as <-.
  eexists. split; [reflexivity|]. cbn [s_attack_info attack_info_new ai_checkers p_inner].
  apply calculated_real. apply inner_of_partial_rep.
Qed.

Lemma move_kept n p q l m : kept n p -> Yasai.legal_moves cf p = Some l -> In m l ->
  Yasai.do_move cf p m = Some q -> kept (S n) q.
Proof.
  intros Kp E I D. pose proof (listed_shape n p l m Kp E I) as L.
  pose proof (listed_tidy n p l m Kp E I) as T.
  destruct Kp as [Hs [Hd Hr]].
  pose proof (do_move_sane cf p q m Hs D) as Sq. pose proof (do_move_steady cf n p q m Hd T D) as Dq.
  split; [exact Sq|]. split; [exact Dq|].
  destruct Hs as [[st0 [ck0 [Es Ea]]] _]. destruct Hd as [Rp _]. destruct Dq as [Rq _].
  pose proof (checkables_spec o Sp (p_inner o p) Rp) as CS.
  destruct (do_move_play cf p q m D) as [Bq [_ Sd]].
  clear Sq Hr. unfold Yasai.do_move, do_move in D.
  destruct (is_check_move o p m) as [ic|] eqn:Ic; [cbn [bind] in D|discriminate].
  rewrite Es in D. cbn [bind] in D.
  destruct m as [f t pr|t x].
  - destruct (i_piece_at o (p_inner o p) f) as [y|]; [cbn [bind] in D|discriminate].
    match type of D with context [do_capture ?a1 ?a2 ?a3 ?a4 ?a5 ?a6 ?a7] =>
      destruct (do_capture a1 a2 a3 a4 a5 a6 a7) as [[p1 ks]|] end; [cbn [bind fst snd] in D|discriminate].
    destruct (if pr then promote_piece y else Some y) as [y'|]; [cbn [bind] in D|discriminate].
    match type of D with context [incr16 ?a1 ?a2] => destruct (incr16 a1 a2) as [n1|] end;
      [cbn [bind] in D|discriminate].
    injection D as <-. eexists. split; [reflexivity|].
    cbn [s_attack_info attack_info_new ai_checkers p_inner] in *.
    destruct ic; [|apply empty_real; exact Rq].
    match goal with |- real_checkers _ ?a (calculate_checkers _ ?b) =>
      change (calculate_checkers o b) with (calculate_checkers o a) end.
    apply calculated_real. exact Rq.
  - match type of D with context [hand_removed ?a1 ?a2] => destruct (hand_removed a1 a2) as [h|] end;
      [cbn [bind] in D|discriminate].
    match type of D with context [hand_count ?a1 ?a2] => destruct (hand_count a1 a2) as [h1|] end;
      [cbn [bind] in D|discriminate].
    match type of D with context [z_hand ?a1 ?a2 ?a3 ?a4] => destruct (z_hand a1 a2 a3 a4) as [h2|] end;
      [cbn [bind] in D|discriminate].
    match type of D with context [incr16 ?a1 ?a2] => destruct (incr16 a1 a2) as [n1|] end;
      [cbn [bind] in D|discriminate].
    injection D as <-. eexists. split; [reflexivity|].
    cbn [s_attack_info attack_info_new ai_checkers p_inner] in *.
    destruct ic; [|apply empty_real; exact Rq].
    destruct L as [Cx [Hx Bt]]. destruct x as [k d]. cbn [pcolor pkind] in *. subst d.
    unfold is_check_move in Ic. rewrite Es in Ic. cbn [bind pkind] in Ic. injection Ic as Ic.
    unfold ai_checkable in Ic. rewrite Ea in Ic. cbn [attack_info_new ai_checkables] in Ic. rewrite CS in Ic.
    destruct (king_position o (p_inner o p) (flip (i_side o (p_inner o p)))) as [K|] eqn:EK; [|discriminate].
    apply andb_true_iff in Ic as [NK Rc].
    split; [apply (sp_wf_single o Sp)|]. intros s. rewrite (sp_single o Sp). intros Es'.
    assert (s = t) as -> by (destruct (sq_eqb_spec s t); [assumption|destruct (sq_eqb_spec t s); congruence]).
    clear Es'. exists K. split.
    + rewrite <- EK. unfold king_position, player_bb, piece_bb.
      cbn [i_side set_ply set_side set_hand set_piece_at xor_piece i_player_bb i_piece_bb pcolor pkind].
      rewrite c_get_set, k_get_set.
      assert (C1 : color_eqb (flip (i_side o (p_inner o p))) (i_side o (p_inner o p)) = false)
        by (destruct (i_side o (p_inner o p)); reflexivity).
      assert (C2 : kind_eqb King k = false) by (destruct k; (reflexivity || discriminate)).
      rewrite C1, C2. reflexivity.
    + apply att_alt. exists k. apply reach_alt in Rc as [G C].
      assert (Bq' : forall u, i_piece_at o (p_inner o p) u = None -> u <> t ->
        sa_get (i_board o (p_inner o (mkPos o (set_ply o
           (set_side o (set_hand o (set_piece_at o (xor_piece o (p_inner o p) t
             (mkP k (i_side o (p_inner o p)))) t (Some (mkP k (i_side o (p_inner o p)))))
             (i_side o (p_inner o p)) h) (flip (i_side o (p_inner o p)))) n1) []))) u = None).
      { intros u Bu Nu. cbn [p_inner set_ply set_side set_hand set_piece_at xor_piece i_board].
        rewrite sa_get_set. destruct (sq_eqb_spec u t); [contradiction|exact Bu]. }
      cbn [i_side set_ply set_side].
      rewrite (flip_flip (i_side o (p_inner o p))).
      split; [|split; [exact G|]].
      * unfold i_piece_at. cbn [set_ply set_side set_hand set_piece_at xor_piece i_board].
        rewrite sa_get_set, sq_eqb_refl. reflexivity.
      * intros u Hu. apply Bq'; [apply occb_false; auto|]. apply between_neq in Hu. tauto.
Qed.

Lemma listed_play_kept n p : listed_play n p -> kept n p.
Proof.
  induction 1 as [pp p N|n p l m q _ IH E I D].
  - exact (new_kept pp p N).
  - exact (move_kept n p q l m IH E I D).
Qed.

(* which listed moves do_move refuses *)
Lemma listed_refused n p l m : listed_play n p -> Yasai.legal_moves cf p = Some l -> In m l ->
  Yasai.do_move cf p m = None <->
  (exists x, Yasai.piece_at cf p (move_to m) = Some x /\
     (pkind x = King \/ hand_n (Yasai.hand cf p (Yasai.side_to_move cf p)) (base_kind (pkind x)) = 18%N)) \/
  (cf_checks cf = true /\ Yasai.ply cf p = 65535%N).
Proof.
  intros N E I. pose proof (listed_play_kept n p N) as Kp.
  pose proof (listed_shape n p l m Kp E I) as L.
  rewrite (do_move_refuses_any cf p m (proj1 Kp)).
  destruct m as [f t pr|t x]; cbn [refused move_to listed_ok] in *.
  - destruct L as [k [Bf [Hp _]]]. split.
    + intros [[H|[[d H]|[[x H]|[-> [x [H1 H2]]]]]]|H]; [| | | |tauto].
      * change (i_piece_at o (p_inner o p) f = None) in H. congruence.
      * left. exists (mkP King d). split; [assumption|left; reflexivity].
      * left. exists x. tauto.
      * exfalso. change (i_piece_at o (p_inner o p) f = Some x) in H1.
        assert (x = mkP k (i_side o (p_inner o p))) by congruence. subst x. exact (Hp eq_refl H2).
    + intros [[x [H [Hk|Hf]]]|H]; [| |tauto].
      * left. right. left. exists (pcolor x). rewrite H. destruct x; cbn in *; congruence.
      * left. right. right. left. eauto.
  - destruct L as [_ [Hh Ht]]. split; [|].
    + intros [H|H]; [|tauto]. exfalso. change (hand_n (i_hand o (p_inner o p) (i_side o (p_inner o p))) (pkind x) = 0%N) in H.
      lia.
    + intros [[y [H _]]|H]; [|tauto]. exfalso. change (i_piece_at o (p_inner o p) t = Some y) in H. congruence.
Qed.

End Playable.
