(** * What do_move accepts, and what it then does

    [do_move_play]: no assumption on the position or the move.
    [do_move_refuses]: the exact set of refused moves in a reachable position. *)

From Coq Require Import List Bool NArith ZArith Lia.
From Verif Require Import Types Rules Bitboard Tables Zobrist Position Movegen Api
  Words Squares Geometry BBSpec Backends PawnDrop ValidPlay Moves Hash Play Undo Reach AnyMove Panics Lines.
Import ListNotations.

Section Accept.
Context (cf : config).
Notation o := (ops cf).

Section Play.
Local Opaque attack_info_new calculate_checkers is_check_move z_hand z_board.

(* do_move as a whole, on the board, the hands and the side *)
Lemma do_move_play (p q : Yasai.Position cf) m :
  Yasai.do_move cf p m = Some q -> same_game (view cf q) (play (view cf p) m).
Proof.
  intros D. unfold Yasai.do_move, do_move in D.
  destruct (is_check_move o p m) as [ic|]; [cbn [bind] in D|discriminate].
  destruct (pos_state o p) as [st|] eqn:Est; [cbn [bind] in D|discriminate].
  set (p0 := p_inner o p) in *. set (c := i_side o p0) in *.
  destruct m as [f t pr|t x].
  - cbn [move_to] in D.
    destruct (i_piece_at o p0 f) as [pc|] eqn:Bf; [cbn [bind] in D|discriminate].
    destruct (do_capture o (zt cf) p0 (s_keys o st) c t (i_piece_at o p0 t)) as [[p1 ks]|] eqn:Ec;
      [cbn [bind fst snd] in D|discriminate].
    destruct (if pr then promote_piece pc else Some pc) as [tp|] eqn:Et; [cbn [bind] in D|discriminate].
    match type of D with (let* n := ?a in _) = _ => destruct a as [n|] eqn:En end;
      [cbn [bind] in D|discriminate].
    injection D as <-.
    assert (Tp : tp = mkP (if pr then promoted_kind (pkind pc) else pkind pc) (pcolor pc)).
    { destruct pr; [|injection Et as <-; destruct pc; reflexivity].
      unfold promote_piece in Et. unfold promoted_kind. destruct (promote_kind (pkind pc)); [|discriminate].
      injection Et as <-. reflexivity. }
    assert (C1 : (forall u, i_piece_at o p1 u = i_piece_at o p0 u) /\
      forall d k, hand_n (i_hand o p1 d) k = g_hand (play (view cf p) (Normal f t pr)) d k).
    { unfold do_capture in Ec. cbn [play g_hand view g_board].
      change (Yasai.piece_at cf p t) with (i_piece_at o p0 t).
      destruct (i_piece_at o p0 t) as [x|] eqn:Bt.
      - fold (base_kind (pkind x)) in Ec. set (k0 := base_kind (pkind x)) in *.
        destruct (hand_count (i_hand o p0 c) k0) as [n0|] eqn:Hn; [cbn [bind] in Ec|discriminate].
        destruct (z_hand (zt cf) c k0 n0) as [hk|]; [cbn [bind] in Ec|discriminate].
        change (i_hand o (xor_piece o p0 t x) c) with (i_hand o p0 c) in Ec.
        destruct (hand_added (i_hand o p0 c) k0) as [h|] eqn:Eh; [cbn [bind] in Ec|discriminate].
        injection Ec as <- _. split; [intros u; reflexivity|]. intros d k.
        unfold hand_added in Eh. rewrite Hn in Eh. destruct (n0 <? 255)%N; [|discriminate]. injection Eh as <-.
        unfold i_hand at 1. cbn [set_hand i_hands xor_piece]. rewrite c_get_set.
        unfold upd_hand. change (g_side (view cf p)) with c. cbn [view g_hand g_side].
        change (Yasai.hand cf p) with (i_hand o p0).
        destruct (color_eqb_spec d c) as [->|]; cbn [andb]; [|reflexivity].
        rewrite AnyMove.hand_n_set by congruence. destruct (kind_eqb k k0); [|reflexivity].
        unfold hand_n. fold (i_hand o p0 c). rewrite Hn. reflexivity.
      - injection Ec as <- _. split; intros; reflexivity. }
    destruct C1 as [B1 H1]. split; [|split; [|reflexivity]].
    + intros u. cbn [play g_board view]. change (Yasai.piece_at cf p f) with (i_piece_at o p0 f). rewrite Bf, <- Tp.
      unfold Yasai.piece_at, piece_at, i_piece_at.
      cbn [p_inner set_ply set_side set_piece_at xor_piece i_board]. rewrite !sa_get_set. unfold upd.
      destruct (sq_eqb u t); [reflexivity|]. destruct (sq_eqb u f); [reflexivity|]. apply B1.
    + intros d k. rewrite <- H1. reflexivity.
  - match type of D with context [hand_removed ?a _] => change a with (i_hand o p0 c) in D end.
    destruct (hand_removed (i_hand o p0 c) (pkind x)) as [h|] eqn:Eh; [cbn [bind] in D|discriminate].
    match type of D with context [hand_count ?a _] => destruct (hand_count a (pkind x)) as [hn|] end;
      [cbn [bind] in D|discriminate].
    destruct (z_hand (zt cf) c (pkind x) hn) as [hk|]; [cbn [bind] in D|discriminate].
    match type of D with (let* n := ?a in _) = _ => destruct a as [n|] eqn:En end;
      [cbn [bind] in D|discriminate].
    injection D as <-. split; [|split; [|reflexivity]].
    + intros u. cbn [play g_board view]. unfold Yasai.piece_at, piece_at, i_piece_at.
      cbn [p_inner set_ply set_side set_hand set_piece_at xor_piece i_board]. rewrite !sa_get_set. unfold upd.
      destruct (sq_eqb u t); reflexivity.
    + intros d k. cbn [play g_hand view g_side]. unfold upd_hand.
      change (Yasai.side_to_move cf p) with c. change (Yasai.hand cf p) with (i_hand o p0).
      unfold Yasai.hand, hand_of, i_hand at 1.
      cbn [p_inner set_ply set_side set_hand set_piece_at xor_piece i_hands]. rewrite c_get_set.
      destruct (color_eqb_spec d c) as [->|]; cbn [andb]; [|reflexivity].
      unfold hand_removed in Eh. destruct (hand_count (i_hand o p0 c) (pkind x)) as [n0|] eqn:Hn; [|discriminate].
      destruct (0 <? n0)%N; [|discriminate]. injection Eh as <-.
      rewrite AnyMove.hand_n_set by congruence.
      destruct (kind_eqb k (pkind x)); [|reflexivity]. unfold hand_n. rewrite Hn. reflexivity.
Qed.
End Play.

Local Opaque calculate_checkers BETWEEN_TABLE z_board.

(* what every position keeps that comes from new by accepted moves *)
Record sane (p : Yasai.Position cf) : Prop := {
  sane_state : exists st ck, pos_state o p = Some st /\
    s_attack_info o st = attack_info_new o ck (p_inner o p);
  sane_hands : forall c k, (hand_n (Yasai.hand cf p c) k <= 18)%N }.

Lemma inv_sane p st : inv o (backend_spec (cf_backend cf) (cf_checks cf)) p st -> sane p.
Proof.
  intros I. constructor.
  - exists st, (calculate_checkers o (p_inner o p)).
    split; [exact (inv_st _ _ _ _ I)|exact (inv_ai _ _ _ _ I)].
  - intros c k. exact (inv_fit _ _ _ _ I c k).
Qed.

Lemma new_sane pp p : Yasai.new cf pp = Some p -> sane p.
Proof.
  intros E. pose proof (new_fit cf pp p E) as F. rewrite (new_some cf pp F) in E. injection E as <-.
  constructor.
  - eexists _, _. split; reflexivity.
  - intros c k. destruct (in_dec kind_dec k hand_kinds) as [I|N].
    + exact (F c k I).
    + rewrite (hand_n_not _ _ N). lia.
Qed.

Lemma do_move_sane (p q : Yasai.Position cf) m :
  sane p -> Yasai.do_move cf p m = Some q -> sane q.
Proof.
  intros [_ Hh] D. pose proof D as D'. destruct (do_move_play p q m D) as [_ [H _]].
  assert (H' : forall d k, hand_n (Yasai.hand cf q d) k = g_hand (play (view cf p) m) d k) by exact H.
  clear H. constructor.
  - clear H' Hh D'. unfold Yasai.do_move, do_move in D.
    destruct (is_check_move o p m) as [ic|]; [cbn [bind] in D|discriminate].
    destruct (pos_state o p) as [st|]; [cbn [bind] in D|discriminate].
    match type of D with (let* r := ?a in _) = _ => destruct a as [[[[p1 ks] lm] ck]|] end;
      [cbn [bind] in D|discriminate].
    destruct (incr16 (cf_checks cf) (i_ply o p1)) as [n|]; [cbn [bind] in D|discriminate].
    injection D as <-. eexists _, _. split; reflexivity.
  - intros d k. rewrite H'. destruct m as [f t pr|t x]; cbn [play g_hand].
    + cbn [view g_board g_side]. destruct (Yasai.piece_at cf p t) as [x|] eqn:Bt; [|apply Hh].
      unfold upd_hand. cbn [g_hand view]. fold (Yasai.hand cf p).
      destruct (color_eqb_spec d (Yasai.side_to_move cf p)) as [->|]; cbn [andb]; [|apply Hh].
      destruct (kind_eqb_spec k (base_kind (pkind x))) as [->|]; [|apply Hh].
      assert (L : (hand_n (Yasai.hand cf p (Yasai.side_to_move cf p)) (base_kind (pkind x)) < 18)%N); [|lia].
      clear D H'. unfold Yasai.do_move, do_move in D'. cbn [move_to] in D'.
      destruct (is_check_move o p (Normal f t pr)) as [ic|]; [cbn [bind] in D'|discriminate].
      destruct (pos_state o p) as [st|]; [cbn [bind] in D'|discriminate].
      destruct (i_piece_at o (p_inner o p) f) as [y|]; [cbn [bind] in D'|discriminate].
      unfold Yasai.piece_at, piece_at in Bt. rewrite Bt in D'. unfold do_capture in D'.
      fold (base_kind (pkind x)) in D'. set (k0 := base_kind (pkind x)) in *.
      set (c := i_side o (p_inner o p)) in *.
      change (hand_n (i_hand o (p_inner o p) c) k0 < 18)%N.
      unfold hand_n. destruct (hand_count (i_hand o (p_inner o p) c) k0) as [n|]; [|discriminate].
      cbn [bind] in D'. unfold z_hand, MAX_HAND_NUM in D'.
      destruct (N.ltb_spec n 18); [assumption|]. rewrite andb_false_r in D'. discriminate.
    + unfold upd_hand. cbn [g_hand view g_side].
      destruct (color_eqb d _ && kind_eqb k (pkind x)); [|apply Hh].
      pose proof (Hh (Yasai.side_to_move cf p) (pkind x)). lia.
Qed.

Lemma do_line_sane l : forall p q, sane p -> do_line cf p l = Some q -> sane q.
Proof.
  induction l as [|m l IH]; intros p q Hs D; cbn [do_line] in D; [injection D as <-; assumption|].
  destruct (Yasai.do_move cf p m) as [p1|] eqn:E; [|discriminate].
  exact (IH p1 q (do_move_sane p p1 m Hs E) D).
Qed.

(* is_check_move panics on an empty source square only *)
Lemma is_check_move_some p m : sane p ->
  (forall f t pr, m = Normal f t pr -> Yasai.piece_at cf p f <> None) ->
  exists b, is_check_move o p m = Some b.
Proof.
  intros [[st [ck [St Ai]]] _] H. unfold is_check_move. rewrite St. cbn [bind].
  destruct m as [f t pr|t x]; [|eauto]. specialize (H f t pr eq_refl).
  unfold Yasai.piece_at, piece_at in H. destruct (i_piece_at o (p_inner o p) f) as [y|]; [|congruence].
  cbn [bind]. destruct (ai_checkable _ _ _ _); [eauto|].
  rewrite Ai.
  set (c := flip (i_side o (p_inner o p))).
  assert (E : ai_pinned_of o (attack_info_new o ck (p_inner o p)) c =
    pinned_for o (p_inner o p) c) by (destruct c; reflexivity).
  rewrite E. unfold pinned_for.
  destruct (king_position o (p_inner o p) c) as [k|]; cbn [bind].
  - destruct (bcontains o _ f); eauto.
  - pose proof (sp_empty o (backend_spec (cf_backend cf) (cf_checks cf)) f) as F. rewrite F. eauto.
Qed.

(* the conditions under which a move is refused *)
Definition refused (p : Yasai.Position cf) (m : move) : Prop :=
  match m with
  | Normal f t pr =>
      Yasai.piece_at cf p f = None \/
      (exists c, Yasai.piece_at cf p t = Some (mkP King c)) \/
      (exists x, Yasai.piece_at cf p t = Some x /\
         hand_n (Yasai.hand cf p (Yasai.side_to_move cf p)) (base_kind (pkind x)) = 18%N) \/
      (pr = true /\ exists x, Yasai.piece_at cf p f = Some x /\ promote_kind (pkind x) = None)
  | Drop t x => hand_n (Yasai.hand cf p (Yasai.side_to_move cf p)) (pkind x) = 0%N
  end.

Lemma refused_dec p m : refused p m \/ ~ refused p m.
Proof.
  destruct m as [f t pr|t x]; cbn [refused]; [|destruct (N.eq_dec (hand_n (Yasai.hand cf p (Yasai.side_to_move cf p)) (pkind x)) 0); tauto].
  set (h := Yasai.hand cf p (Yasai.side_to_move cf p)).
  destruct (Yasai.piece_at cf p f) as [y|]; [|left; left; reflexivity].
  assert (D1 : (pr = true /\ exists x, Some y = Some x /\ promote_kind (pkind x) = None) \/
    ~ (pr = true /\ exists x, Some y = Some x /\ promote_kind (pkind x) = None)).
  { destruct pr; [|right; intros [E _]; discriminate]. destruct (promote_kind (pkind y)) eqn:E.
    - right. intros [_ [x [[= <-] H]]]. congruence.
    - left. eauto. }
  destruct D1 as [D1|D1]; [left; tauto|].
  destruct (Yasai.piece_at cf p t) as [[k c]|].
  - destruct (kind_eqb_spec k King) as [->|N]; [left; right; left; eauto|].
    destruct (N.eq_dec (hand_n h (base_kind k)) 18) as [E|E]; [left; right; right; left; eauto|].
    right. intros [H|[[d H]|[[x [[= <-] H]]|H]]]; [discriminate|congruence|contradiction|contradiction].
  - right. intros [H|[[d H]|[[x [H _]]|H]]]; [discriminate|discriminate|discriminate|contradiction].
Qed.

Lemma panic_full p f t pr x :
  Yasai.piece_at cf p t = Some x ->
  hand_n (Yasai.hand cf p (Yasai.side_to_move cf p)) (base_kind (pkind x)) = 18%N ->
  Yasai.do_move cf p (Normal f t pr) = None.
Proof.
  intros Bt H. unfold Yasai.do_move, do_move. cbn [move_to].
  destruct (is_check_move o p (Normal f t pr)) as [ic|]; [cbn [bind]|reflexivity].
  destruct (pos_state o p) as [st|]; [cbn [bind]|reflexivity].
  destruct (i_piece_at o (p_inner o p) f) as [y|]; [cbn [bind]|reflexivity].
  unfold Yasai.piece_at, piece_at in Bt. rewrite Bt. unfold do_capture. fold (base_kind (pkind x)).
  unfold Yasai.hand, hand_of, Yasai.side_to_move, side_to_move, hand_n in H.
  destruct (hand_count (i_hand o (p_inner o p) (i_side o (p_inner o p))) (base_kind (pkind x)));
    [|discriminate]. subst. cbn [bind]. unfold z_hand, MAX_HAND_NUM. rewrite N.ltb_irrefl, andb_false_r.
  reflexivity.
Qed.

Lemma incr_room n : (cf_checks cf = true /\ n = 65535%N) \/ exists n', incr16 (cf_checks cf) n = Some n'.
Proof. unfold incr16. destruct (N.eqb_spec n 65535), (cf_checks cf); eauto. Qed.

Lemma do_move_cases p m : sane p ->
  ~ refused p m -> Yasai.do_move cf p m <> None <-> incr16 (cf_checks cf) (Yasai.ply cf p) <> None.
Proof.
  intros Hs NR. destruct (is_check_move_some p m Hs) as [ic Ei].
  { intros f t pr -> H. apply NR. left. exact H. }
  destruct Hs as [[st [ck [St _]]] Hh].
  unfold Yasai.do_move, do_move. rewrite Ei, St. cbn [bind].
  unfold Yasai.ply, ply. unfold Yasai.hand, hand_of in Hh.
  set (p0 := p_inner o p) in *. set (c := i_side o p0) in *.
  destruct m as [f t pr|t x]; cbn [refused] in NR; cbn [move_to];
    unfold Yasai.piece_at, Yasai.hand, Yasai.side_to_move, piece_at, hand_of, side_to_move in NR;
    fold p0 c in NR.
  - destruct (i_piece_at o p0 f) as [y|] eqn:Bf; [cbn [bind]|exfalso; apply NR; left; reflexivity].
    assert (C : exists p1 ks, do_capture o (zt cf) p0 (s_keys o st) c t (i_piece_at o p0 t) = Some (p1, ks) /\
      i_ply o p1 = i_ply o p0).
    { unfold do_capture. destruct (i_piece_at o p0 t) as [q|] eqn:Bt; [|eauto].
      assert (Nk : pkind q <> King).
      { intros E. apply NR. right. left. exists (pcolor q). rewrite <- E. destruct q; reflexivity. }
      pose proof (base_in_hand q Nk) as Ik.
      assert (Room : (hand_n (i_hand o p0 c) (base_kind (pkind q)) < 18)%N).
      { pose proof (Hh c (base_kind (pkind q))) as L.
        destruct (N.eq_dec (hand_n (i_hand o p0 c) (base_kind (pkind q))) 18) as [E|E]; [|lia].
        exfalso. apply NR. right. right. left. eauto. }
      fold (base_kind (pkind q)). set (k0 := base_kind (pkind q)) in *.
      rewrite (proj1 (hand_count_some _ _) Ik). cbn [bind].
      unfold z_hand, MAX_HAND_NUM. rewrite (hand_kind_index _ Ik), (proj2 (N.ltb_lt _ _) Room). cbn [andb bind].
      change (i_hand o (xor_piece o p0 t q) c) with (i_hand o p0 c).
      unfold hand_added. rewrite (proj1 (hand_count_some _ _) Ik).
      destruct (N.ltb_spec (hand_n (i_hand o p0 c) k0) 255); [|lia]. cbn [bind]. eexists _, _.
      split; reflexivity. }
    destruct C as [p1 [ks [-> Pl]]]. cbn [bind fst snd].
    assert (T : exists tp, (if pr then promote_piece y else Some y) = Some tp).
    { destruct pr; [|eauto]. unfold promote_piece. destruct (promote_kind (pkind y)) eqn:E; [eauto|].
      exfalso. apply NR. right. right. right. eauto. }
    destruct T as [tp ->]. cbn [bind].
    match goal with |- context [incr16 _ ?a] => change a with (i_ply o p1) end. rewrite Pl.
    destruct (incr16 (cf_checks cf) (i_ply o p0)); cbn [bind]; split; intros H'; (discriminate || (exfalso; apply H'; reflexivity)).
  - assert (Ik : In (pkind x) hand_kinds).
    { destruct (in_dec kind_dec (pkind x) hand_kinds) as [Ik|N]; [assumption|].
      exfalso. apply NR. apply hand_n_not. assumption. }
    pose proof (Hh c (pkind x)) as Room.
    match goal with |- context [hand_removed ?a _] => change a with (i_hand o p0 c) end.
    unfold hand_removed. rewrite (proj1 (hand_count_some _ _) Ik).
    destruct (N.ltb_spec 0 (hand_n (i_hand o p0 c) (pkind x))); [|lia]. cbn [bind].
    match goal with |- context [hand_count ?a (pkind x)] => set (h := a) end.
    assert (Eh : h = hand_set (i_hand o p0 c) (pkind x) (hand_n (i_hand o p0 c) (pkind x) - 1)).
    { unfold h, i_hand. cbn [set_side set_hand set_piece_at xor_piece i_hands]. rewrite c_get_set, color_eqb_refl.
      reflexivity. }
    rewrite (proj1 (hand_count_some h (pkind x)) Ik). cbn [bind].
    assert (En : hand_n h (pkind x) = (hand_n (i_hand o p0 c) (pkind x) - 1)%N).
    { rewrite Eh, AnyMove.hand_n_set, kind_eqb_refl; [reflexivity|]. rewrite (proj1 (hand_count_some _ _) Ik). discriminate. }
    rewrite En. unfold z_hand, MAX_HAND_NUM. rewrite (hand_kind_index _ Ik).
    destruct (N.ltb_spec (hand_n (i_hand o p0 c) (pkind x) - 1) 18); [|lia]. cbn [andb bind].
    match goal with |- context [incr16 _ ?a] => change a with (i_ply o p0) end.
    destruct (incr16 (cf_checks cf) (i_ply o p0)); cbn [bind]; split; intros H'; (discriminate || (exfalso; apply H'; reflexivity)).
Qed.

Lemma do_move_refuses_any p m : sane p ->
  Yasai.do_move cf p m = None <->
  refused p m \/ (cf_checks cf = true /\ Yasai.ply cf p = 65535%N).
Proof.
  intros I. destruct (refused_dec p m) as [Q|NQ].
  - split; [auto|]. intros _. destruct m as [f t pr|t x]; cbn [refused] in Q.
    + destruct Q as [H|[[c H]|[[x [H1 H2]]|[-> [x [H1 H2]]]]]].
      * apply panic_empty. assumption.
      * apply (panic_king cf p f t pr c). assumption.
      * apply (panic_full p f t pr x); assumption.
      * apply (panic_promote cf p f t x); assumption.
    + apply panic_drop. assumption.
  - pose proof (do_move_cases p m I NQ) as H.
    destruct (incr_room (Yasai.ply cf p)) as [[Ck Py]|[n E]].
    + split; [auto|]. intros _. destruct (Yasai.do_move cf p m) eqn:D; [|reflexivity].
      exfalso. apply (proj1 H); [discriminate|]. rewrite Ck, Py. reflexivity.
    + split.
      * intros D. exfalso. apply (proj2 H); [rewrite E; discriminate|exact D].
      * intros [Q|[Ck Py]]; [contradiction|]. rewrite Ck, Py in E. discriminate.
Qed.

(* in a reachable position no hand is full *)
Lemma do_move_refuses ms p m : reachable cf ms p -> standard_material (view cf p) ->
  Yasai.do_move cf p m = None <->
  match m with
  | Normal f t pr =>
      Yasai.piece_at cf p f = None \/
      (exists c, Yasai.piece_at cf p t = Some (mkP King c)) \/
      (pr = true /\ exists x, Yasai.piece_at cf p f = Some x /\ promote_kind (pkind x) = None)
  | Drop t x => hand_n (Yasai.hand cf p (Yasai.side_to_move cf p)) (pkind x) = 0%N
  end \/ (cf_checks cf = true /\ Yasai.ply cf p = 65535%N).
Proof.
  intros R M. destruct (reachable_inv cf ms p R) as [st [I _]].
  rewrite (do_move_refuses_any p m (inv_sane p st I)). destruct m as [f t pr|t x]; cbn [refused]; [|tauto].
  assert (F : ~ exists x, Yasai.piece_at cf p t = Some x /\
    hand_n (Yasai.hand cf p (Yasai.side_to_move cf p)) (base_kind (pkind x)) = 18%N); [|tauto].
  intros [x [Bt E]].
  pose proof (hand_room (gview o (p_inner o p)) t x M Bt (Yasai.side_to_move cf p)) as Room.
  unfold Yasai.hand, hand_of in E. cbn [gview g_hand] in Room. lia.
Qed.

(** ** The effect spelled out *)

Lemma accepted_source (p q : Yasai.Position cf) f t pr : Yasai.do_move cf p (Normal f t pr) = Some q ->
  exists x, Yasai.piece_at cf p f = Some x /\ (pr = true -> promote_kind (pkind x) <> None).
Proof.
  intros D. destruct (Yasai.piece_at cf p f) as [x|] eqn:E.
  - exists x. split; [reflexivity|]. intros -> F. rewrite (panic_promote cf p f t x E F) in D. discriminate.
  - rewrite (panic_empty cf p f t pr E) in D. discriminate.
Qed.
Lemma accepted_drop (p q : Yasai.Position cf) t x : Yasai.do_move cf p (Drop t x) = Some q ->
  (0 < hand_n (Yasai.hand cf p (Yasai.side_to_move cf p)) (pkind x))%N.
Proof.
  intros D. destruct (N.eq_dec (hand_n (Yasai.hand cf p (Yasai.side_to_move cf p)) (pkind x)) 0) as [E|]; [|lia].
  rewrite (panic_drop cf p t x E) in D. discriminate.
Qed.

Lemma do_move_effects (p q : Yasai.Position cf) m :
  Yasai.do_move cf p m = Some q ->
  let c := Yasai.side_to_move cf p in
  Yasai.side_to_move cf q = flip c /\
  match m with
  | Normal f t pr =>
      (forall s, Yasai.piece_at cf q s =
         if sq_eqb s t then
           match Yasai.piece_at cf p f with
           | Some x => if pr then option_map (fun k => mkP k (pcolor x)) (promote_kind (pkind x)) else Some x
           | None => None
           end
         else if sq_eqb s f then None else Yasai.piece_at cf p s) /\
      (forall d k, hand_n (Yasai.hand cf q d) k =
         (hand_n (Yasai.hand cf p d) k +
          match Yasai.piece_at cf p t with
          | Some x => if color_eqb d c && kind_eqb k (base_kind (pkind x)) then 1 else 0
          | None => 0
          end)%N)
  | Drop t x =>
      (forall s, Yasai.piece_at cf q s = if sq_eqb s t then Some x else Yasai.piece_at cf p s) /\
      (forall d k, hand_n (Yasai.hand cf p d) k =
         (hand_n (Yasai.hand cf q d) k + if color_eqb d c && kind_eqb k (pkind x) then 1 else 0)%N)
  end.
Proof.
  intros D c. destruct (do_move_play p q m D) as [B [H Sd]].
  assert (B' : forall s, Yasai.piece_at cf q s = g_board (play (view cf p) m) s) by exact B.
  assert (H' : forall d k, hand_n (Yasai.hand cf q d) k = g_hand (play (view cf p) m) d k) by exact H.
  split; [destruct m; exact Sd|]. destruct m as [f t pr|t x].
  - destruct (accepted_source p q f t pr D) as [y [Ey Hy]]. split.
    + intros s. rewrite B'. cbn [play g_board view]. rewrite Ey. unfold upd.
      destruct (sq_eqb s t); [|reflexivity]. destruct pr; [|destruct y; reflexivity].
      unfold promoted_kind. destruct (promote_kind (pkind y)); [reflexivity|]. exfalso. apply Hy; reflexivity.
    + intros d k. rewrite H'. cbn [play g_hand view g_board g_side].
      destruct (Yasai.piece_at cf p t) as [x|]; [|rewrite N.add_0_r; reflexivity].
      unfold upd_hand. cbn [g_hand view]. fold c. change (Yasai.side_to_move cf p) with c.
      destruct (color_eqb_spec d c) as [->|]; cbn [andb]; [|rewrite N.add_0_r; reflexivity].
      destruct (kind_eqb_spec k (base_kind (pkind x))) as [->|]; [reflexivity|rewrite N.add_0_r; reflexivity].
  - pose proof (accepted_drop p q t x D) as Pos. split.
    + intros s. rewrite B'. reflexivity.
    + intros d k. rewrite H'. cbn [play g_hand view g_side]. unfold upd_hand. cbn [g_hand view].
      subst c. destruct (color_eqb_spec d (Yasai.side_to_move cf p)) as [->|]; cbn [andb]; [|rewrite N.add_0_r; reflexivity].
      destruct (kind_eqb_spec k (pkind x)) as [->|]; [lia|rewrite N.add_0_r; reflexivity].
Qed.

Lemma do_line_play l : forall p q, do_line cf p l = Some q ->
  same_game (view cf q) (play_line (view cf p) l).
Proof.
  induction l as [|m l IH]; intros p q D; cbn [do_line] in D.
  - injection D as <-. apply same_refl.
  - destruct (Yasai.do_move cf p m) as [p1|] eqn:E; [|discriminate].
    apply (same_trans _ (play_line (view cf p1) l)); [apply IH; exact D|].
    apply (play_line_same l _ (play (view cf p) m)). apply do_move_play. exact E.
Qed.
End Accept.
