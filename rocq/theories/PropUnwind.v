(** * What a panic leaves behind: C58 of properties.jsonl *)

From Coq Require Import String List Bool NArith ZArith Lia.
From Verif Require Import Types Rules Bitboard BackendCore BackendSimd Tables Zobrist Position Movegen
  Api Sfen Squares BBSpec Backends Rep PawnDrop Drops ValidPlay Moves Hash Play Undo Reach Decide AnyMove Panics Lines Accept
  Imper Witness PropPlay PropLimits PropUndo.
Import ListNotations.

Local Opaque attack_info_new calculate_checkers.

(* the calls on a mutable position: what is left, and whether the call returned *)
Definition do_mut (cf : config) (m : move) (p : Yasai.Position cf) : Yasai.Position cf * bool :=
  match do_prog (ops cf) (zt cf) (cf_checks cf) m p with (q, r) => (q, if r then true else false) end.
Definition undo_mut (cf : config) (m : move) (p : Yasai.Position cf) : Yasai.Position cf * bool :=
  match undo_prog (ops cf) (cf_checks cf) m p with (q, r) => (q, if r then true else false) end.

(** C58: the programs compute the functions that all other theorems are about *)
Theorem C58_do_move_refines cf p m :
  Yasai.do_move cf p m = match do_mut cf m p with (q, true) => Some q | (_, false) => None end.
Proof.
  unfold Yasai.do_move, do_mut. rewrite <- do_prog_final. unfold final.
  destruct (do_prog _ _ _ m p) as [q [u|]]; reflexivity.
Qed.
Print Assumptions C58_do_move_refines.
Theorem C58_undo_move_refines cf p m :
  Yasai.undo_move cf p m = match undo_mut cf m p with (q, true) => Some q | (_, false) => None end.
Proof.
  unfold Yasai.undo_move, undo_mut. rewrite <- undo_prog_final. unfold final.
  destruct (undo_prog _ _ m p) as [q [u|]]; reflexivity.
Qed.
Print Assumptions C58_undo_move_refines.

Section Left.
Context (cf : config).
Notation o := (ops cf).
Local Opaque is_check_move z_hand z_board.

Ltac run := cbv beta delta [pbind pread pmod popt pret ppush ppop of_inner]; cbn iota beta.
Ltac runin H := cbv beta delta [pbind pread pmod popt pret ppush ppop of_inner] in H; cbn iota beta in H.

Lemma incr_full n : incr16 (cf_checks cf) n = None -> cf_checks cf = true /\ n = 65535%N.
Proof. unfold incr16. destruct (N.eqb_spec n 65535), (cf_checks cf); try discriminate; tauto. Qed.

Local Transparent is_check_move.
Lemma is_check_ply (p : Yasai.Position cf) n m :
  is_check_move o (mkPos o (set_ply o (p_inner o p) n) (p_states o p)) m = is_check_move o p m.
Proof. reflexivity. Qed.
Local Opaque is_check_move.

Lemma left_by_do (p q : Yasai.Position cf) m : sane cf p ->
  do_prog o (zt cf) (cf_checks cf) m p = (q, None) ->
  p_states o q = p_states o p /\ Yasai.ply cf q = Yasai.ply cf p /\
  let B := Yasai.piece_at cf p in
  let c := Yasai.side_to_move cf p in
  (match m with
  | Normal f t pr =>
      (q = p /\ (B f = None \/ (exists d, B t = Some (mkP King d)) \/
         (exists x, B t = Some x /\ hand_n (Yasai.hand cf p c) (base_kind (pkind x)) = 18%N) \/
         (pr = true /\ B t = None /\ exists y, B f = Some y /\ promote_kind (pkind y) = None))) \/
      (exists x y, pr = true /\ B t = Some x /\ B f = Some y /\ promote_kind (pkind y) = None /\
         pkind x <> King /\ (hand_n (Yasai.hand cf p c) (base_kind (pkind x)) < 18)%N /\
         (forall s, Yasai.piece_at cf q s = B s) /\ Yasai.side_to_move cf q = c /\
         forall d k, hand_n (Yasai.hand cf q d) k =
           (hand_n (Yasai.hand cf p d) k + if color_eqb d c && kind_eqb k (base_kind (pkind x)) then 1 else 0)%N)
  | Drop t x =>
      hand_n (Yasai.hand cf p c) (pkind x) = 0%N /\
      (forall s, Yasai.piece_at cf q s = if sq_eqb s t then Some x else B s) /\
      Yasai.side_to_move cf q = c /\
      (forall d k, hand_n (Yasai.hand cf q d) k = hand_n (Yasai.hand cf p d) k)
  end \/
  (cf_checks cf = true /\ Yasai.ply cf p = 65535%N /\ ~ refused cf p m /\
   same_game (view cf q) (play (view cf p) m))).
Proof.
  intros Hs H. pose proof (is_check_move_some cf p m Hs) as Ic.
  destruct (sane_state _ _ Hs) as [st0 [_ [St _]]]. pose proof (sane_hands _ _ Hs) as Hh.
  unfold Yasai.hand, hand_of in Hh.
  unfold do_prog in H. runin H. cbv zeta.
  set (p0 := mkPos o (set_ply o (p_inner o p) 0) (p_states o p)).
  assert (Ep0 : is_check_move o p0 m = is_check_move o p m) by apply is_check_ply.
  assert (Played : forall sts, Yasai.do_move cf p0 m = Some (mkPos o (set_ply o (p_inner o q) 1) sts) ->
    ~ refused cf p m /\ same_game (view cf q) (play (view cf p) m)).
  { intros sts E. split; [|exact (do_move_play cf p0 _ m E)]. intros Rf.
    assert (Hs0 : sane cf p0).
    { constructor; [|exact Hh]. destruct (sane_state _ _ Hs) as [st [ck [E1 E2]]]. exists st, ck.
      split; [exact E1|exact E2]. }
    pose proof (proj2 (do_move_refuses_any cf p0 m Hs0) (or_introl Rf)) as E'. rewrite E' in E. discriminate. }
  unfold Yasai.do_move, do_move in Played. rewrite Ep0 in Played.
  change (pos_state o p0) with (pos_state o p) in Played.
  rewrite St in Played. rewrite St in H. 
  destruct (is_check_move o p m) as [ic|] eqn:Ei; cbn iota beta in H.
  2:{ injection H as <-. split; [reflexivity|]. split; [reflexivity|]. left. destruct m as [f t pr|t x].
      - left. split; [reflexivity|]. left. destruct (Yasai.piece_at cf p f) eqn:Bf; [|reflexivity].
        destruct Ic as [b E]; [|discriminate]. intros f' t' pr' [= -> -> ->]. congruence.
      - destruct Ic as [b E]; [|discriminate]. intros; discriminate. }
  clear Ic. rewrite !bind_some in Played.
  destruct m as [f t pr|t x]; cbn [move_to] in *.
  - change (i_piece_at o (p_inner o p0)) with (i_piece_at o (p_inner o p)) in Played.
    change (i_side o (p_inner o p0)) with (i_side o (p_inner o p)) in Played.
    destruct (i_piece_at o (p_inner o p) f) as [y|] eqn:Bf; cbn iota beta in H.
    2:{ injection H as <-. split; [reflexivity|]. split; [reflexivity|]. left. left. split; [reflexivity|]. left. exact Bf. }
    rewrite !bind_some in Played.
    unfold capture_prog in H. unfold do_capture in Played.
    destruct (i_piece_at o (p_inner o p) t) as [x|] eqn:Bt; runin H.
    + fold (base_kind (pkind x)) in H, Played. set (k0 := base_kind (pkind x)) in *.
      change (i_hand o (p_inner o p0)) with (i_hand o (p_inner o p)) in Played.
      set (c := i_side o (p_inner o p)) in *.
      destruct (hand_count (i_hand o (p_inner o p) c) k0) as [n|] eqn:Hn; cbn iota beta in H.
      2:{ injection H as <-. split; [reflexivity|]. split; [reflexivity|]. left. left. split; [reflexivity|].
          right. left. exists (pcolor x). unfold Yasai.piece_at, piece_at. rewrite Bt. f_equal.
          destruct x as [kx cx]. cbn [pcolor]. f_equal. destruct (kind_eqb_spec kx King) as [->|N]; [reflexivity|].
          pose proof (proj1 (hand_count_some (i_hand o (p_inner o p) c) _) (base_in_hand (mkP kx cx) N)) as E.
          fold k0 in E. congruence. }
      rewrite !bind_some in Played.
      assert (En : n = hand_n (i_hand o (p_inner o p) c) k0) by (unfold hand_n; rewrite Hn; reflexivity).
      destruct (z_hand (zt cf) c k0 n) as [hk|] eqn:Hz; cbn iota beta in H.
      2:{ injection H as <-. split; [reflexivity|]. split; [reflexivity|]. left. left. split; [reflexivity|].
          right. right. left. exists x. split; [exact Bt|].
          Transparent z_hand. unfold z_hand in Hz. Opaque z_hand.
          assert (Ik : In k0 hand_kinds).
          { destruct (in_dec kind_dec k0 hand_kinds) as [I|N]; [assumption|]. exfalso.
            destruct k0; cbn in N, Hn; try discriminate; apply N; tauto. }
          rewrite (hand_kind_index _ Ik) in Hz. cbn [andb] in Hz. unfold MAX_HAND_NUM in Hz.
          destruct (N.ltb_spec n 18); [discriminate|]. pose proof (Hh c k0) as L.
          change (hand_n (i_hand o (p_inner o p) c) k0 = 18%N). lia. }
      rewrite !bind_some in Played. cbn [p_inner p_states] in H.
      change (i_hand o (xor_piece o (p_inner o p) t x) c) with (i_hand o (p_inner o p) c) in H.
      change (i_hand o (xor_piece o (p_inner o p0) t x) c) with (i_hand o (p_inner o p) c) in Played.
      destruct (hand_added (i_hand o (p_inner o p) c) k0) as [h|] eqn:Ha; cbn iota beta in H.
      2:{ exfalso. unfold hand_added in Ha. rewrite Hn in Ha. pose proof (Hh c k0) as L.
          destruct (N.ltb_spec n 255); [discriminate|lia]. }
      rewrite !bind_some in Played. cbn [p_inner p_states fst snd] in *.
      destruct (if pr then promote_piece y else Some y) as [tp|] eqn:Et; cbn iota beta in H.
      2:{ injection H as <-. split; [reflexivity|]. split; [reflexivity|]. left. right.
          destruct pr; [|discriminate]. exists x, y. split; [reflexivity|]. split; [exact Bt|]. split; [exact Bf|].
          split; [unfold promote_piece in Et; destruct (promote_kind (pkind y)); [discriminate|reflexivity]|].
          split.
          { intros Ek. destruct x as [kx cx]. cbn [pkind] in *. subst kx. discriminate. }
          split.
          { change (hand_n (i_hand o (p_inner o p) c) k0 < 18)%N. rewrite <- En.
            Transparent z_hand. unfold z_hand in Hz. Opaque z_hand.
            apply N.ltb_lt. unfold MAX_HAND_NUM in Hz. destruct (n <? 18)%N; [reflexivity|].
            rewrite andb_false_r in Hz. discriminate. }
          split; [reflexivity|]. split; [reflexivity|]. intros d k.
          destruct (hand_added_some _ _ _ Ha) as [_ E].
          unfold Yasai.hand, hand_of. cbn [p_inner]. unfold i_hand at 1. cbn [set_hand i_hands xor_piece].
          rewrite c_get_set. destruct (color_eqb_spec d c) as [->|Nd].
          - change (Yasai.side_to_move cf p) with c. rewrite color_eqb_refl. cbn [andb]. fold k0. rewrite E.
            destruct (kind_eqb_spec k k0) as [->|]; [reflexivity|rewrite N.add_0_r; reflexivity].
          - change (Yasai.side_to_move cf p) with c. destruct (color_eqb_spec d c); [contradiction|]. cbn [andb].
            rewrite N.add_0_r. reflexivity. }
      rewrite !bind_some in Played. cbn [p_inner p_states] in H, Played.
      destruct (incr16 (cf_checks cf) _) as [n1|] eqn:En1 in H; [discriminate|].
      injection H as <-. split; [reflexivity|]. split; [reflexivity|]. right.
      apply incr_full in En1 as [E1 E2]. split; [assumption|]. split; [exact E2|].
      eapply Played. reflexivity.
    + rewrite !bind_some in Played. cbn [p_inner p_states fst snd] in *.
      destruct (if pr then promote_piece y else Some y) as [tp|] eqn:Et; cbn iota beta in H.
      2:{ injection H as <-. split; [reflexivity|]. split; [reflexivity|]. left. left. split; [reflexivity|].
          right. right. right. destruct pr; [|discriminate]. split; [reflexivity|]. split; [exact Bt|].
          exists y. split; [exact Bf|].
          unfold promote_piece in Et. destruct (promote_kind (pkind y)); [discriminate|reflexivity]. }
      rewrite !bind_some in Played. cbn [p_inner p_states] in H, Played.
      destruct (incr16 (cf_checks cf) _) as [n1|] eqn:En1 in H; [discriminate|].
      injection H as <-. split; [reflexivity|]. split; [reflexivity|]. right.
      apply incr_full in En1 as [E1 E2]. split; [assumption|]. split; [exact E2|].
      eapply Played. reflexivity.
  - change (i_side o (p_inner o p0)) with (i_side o (p_inner o p)) in Played.
    set (c := i_side o (p_inner o p)) in *. cbn [p_inner p_states] in H.
    change (i_hand o (set_piece_at o (xor_piece o (p_inner o p) t x) t (Some x)) c) with (i_hand o (p_inner o p) c) in H.
    change (i_hand o (set_piece_at o (xor_piece o (p_inner o p0) t x) t (Some x)) c) with (i_hand o (p_inner o p) c) in Played.
    destruct (hand_removed (i_hand o (p_inner o p) c) (pkind x)) as [h|] eqn:Eh; cbn iota beta in H.
    2:{ injection H as <-. split; [reflexivity|]. split; [reflexivity|]. left.
        split; [apply hand_removed_none; exact Eh|].
        split; [intros s; unfold Yasai.piece_at, piece_at, i_piece_at; cbn [p_inner set_piece_at i_board xor_piece];
                apply sa_get_set|].
        split; reflexivity. }
    rewrite !bind_some in Played. cbn [p_inner p_states] in H.
    destruct (hand_removed_some _ _ _ Eh) as [Pos En]. pose proof (hand_n_kinds _ _ Pos) as Ik.
    assert (Hi : forall i, i_hand o (set_side o (set_hand o i c h) (flip c)) c = h).
    { intros i. unfold i_hand. cbn [set_side set_hand i_hands]. rewrite c_get_set, color_eqb_refl. reflexivity. }
    rewrite Hi in H, Played.
    rewrite (proj1 (hand_count_some h _) Ik) in H, Played. cbn iota beta in H. rewrite !bind_some in Played.
    assert (Z : exists hk, z_hand (zt cf) c (pkind x) (hand_n h (pkind x)) = Some hk).
    { Transparent z_hand. unfold z_hand. Opaque z_hand. rewrite (hand_kind_index _ Ik). cbn [andb]. unfold MAX_HAND_NUM.
      pose proof (Hh c (pkind x)) as L. pose proof (En (pkind x)) as E. rewrite kind_eqb_refl in E.
      destruct (N.ltb_spec (hand_n h (pkind x)) 18); [eauto|lia]. }
    destruct Z as [hk Hz]. rewrite Hz in H, Played. cbn iota beta in H. rewrite !bind_some in Played.
    cbn [p_inner p_states] in H, Played.
    destruct (incr16 (cf_checks cf) _) as [n1|] eqn:En1 in H; [discriminate|].
    injection H as <-. split; [reflexivity|]. split; [reflexivity|]. right.
    apply incr_full in En1 as [E1 E2]. split; [assumption|]. split; [exact E2|].
    eapply Played. reflexivity.
Qed.

(* the same position at another ply *)
Definition at_ply (p : Yasai.Position cf) (n : N) : Yasai.Position cf :=
  mkPos o (set_ply o (p_inner o p) n) (p_states o p).

Lemma left_by_undo (p q : Yasai.Position cf) m :
  undo_prog o (cf_checks cf) m p = (q, None) ->
  p_states o q = p_states o p /\ Yasai.ply cf q = Yasai.ply cf p /\
  let B := Yasai.piece_at cf p in
  let c := flip (Yasai.side_to_move cf p) in
  (match m with
  | Normal f t _ =>
      (q = p /\ forall x, Yasai.last_moved cf p <> Some (Some x)) \/
      (exists x, Yasai.captured cf p = Some (Some x) /\ hand_n (Yasai.hand cf p c) (base_kind (pkind x)) = 0%N /\
         same_game (view cf q) (view cf p)) \/
      (B t = None /\ (forall s, Yasai.piece_at cf q s = B s) /\ Yasai.side_to_move cf q = flip c /\
       exists x, Yasai.captured cf p = Some x /\
         forall d k, hand_n (Yasai.hand cf p d) k = (hand_n (Yasai.hand cf q d) k +
           match x with Some x => if color_eqb d c && kind_eqb k (base_kind (pkind x)) then 1 else 0 | None => 0 end)%N)
  | Drop t x =>
      (~ In (pkind x) hand_kinds \/ (255 <= hand_n (Yasai.hand cf p c) (pkind x))%N) /\
      (forall s, Yasai.piece_at cf q s = if sq_eqb s t then None else B s) /\
      Yasai.side_to_move cf q = flip c /\
      (forall d k, hand_n (Yasai.hand cf q d) k = hand_n (Yasai.hand cf p d) k)
  end \/
  (cf_checks cf = true /\ Yasai.ply cf p = 0%N /\
   exists r, Yasai.undo_move cf (at_ply p 1) m = Some r /\ same_game (view cf q) (view cf r))).
Proof.
  intros H. cbv zeta. unfold Yasai.last_moved, Yasai.captured.
  unfold Yasai.undo_move, undo_move in *.
  change (pos_state o (at_ply p 1)) with (pos_state o p) in *.
  change (i_side o (p_inner o (at_ply p 1))) with (i_side o (p_inner o p)) in *.
  assert (Dn : forall n, decr16 (cf_checks cf) n = None -> cf_checks cf = true /\ n = 0%N)
    by (intros n; apply decr16_none).
  unfold undo_prog in H. destruct m as [f t pr|t x]; runin H.
  - destruct (pos_state o p) as [st|] eqn:St; cbn iota beta in H.
    2:{ injection H as <-. split; [reflexivity|]. split; [reflexivity|]. left. left. split; [reflexivity|]. discriminate. }
    rewrite !bind_some.
    destruct (s_last_moved o st) as [y|] eqn:Lm; cbn iota beta in H.
    2:{ injection H as <-. split; [reflexivity|]. split; [reflexivity|]. left. left. split; [reflexivity|]. discriminate. }
    rewrite !bind_some in *. set (c := flip (i_side o (p_inner o p))) in *.
    destruct (s_captured o st) as [x|] eqn:Ca; cbn iota beta in H; cbn [p_inner p_states] in H.
    + fold (base_kind (pkind x)) in *. set (k0 := base_kind (pkind x)) in *.
      change (i_hand o (xor_piece o (p_inner o p) t x) c) with (i_hand o (p_inner o p) c) in *.
      change (i_hand o (xor_piece o (p_inner o (at_ply p 1)) t x) c) with (i_hand o (p_inner o p) c) in *.
      destruct (hand_removed (i_hand o (p_inner o p) c) k0) as [h|] eqn:Eh; cbn iota beta in H.
      2:{ injection H as <-. split; [reflexivity|]. split; [reflexivity|]. left. right. left.
          exists x. split; [reflexivity|]. split; [apply hand_removed_none; exact Eh|].
          split; [reflexivity|]. split; reflexivity. }
      rewrite !bind_some in *. cbn [p_inner p_states] in H.
      change (i_piece_at o (xor_piece o (set_hand o (xor_piece o (p_inner o p) t x) c h) f y) t)
        with (i_piece_at o (p_inner o p) t) in H.
      change (i_piece_at o (xor_piece o (set_hand o (xor_piece o (p_inner o (at_ply p 1)) t x) c h) f y) t)
        with (i_piece_at o (p_inner o p) t).
      destruct (i_piece_at o (p_inner o p) t) as [tg|] eqn:Bt; cbn iota beta in H.
      2:{ injection H as <-. split; [reflexivity|]. split; [reflexivity|]. left. right. right.
          split; [exact Bt|]. split; [reflexivity|]. split; [unfold c; rewrite flip_flip; reflexivity|].
          exists (Some x). split; [reflexivity|]. intros d k.
          destruct (hand_removed_some _ _ _ Eh) as [Pos E].
          unfold Yasai.hand, hand_of. cbn [p_inner]. unfold i_hand at 2. cbn [set_hand i_hands xor_piece].
          rewrite c_get_set. change (flip (Yasai.side_to_move cf p)) with c. fold k0.
          destruct (color_eqb_spec d c) as [->|Nd]; cbn [andb]; [|rewrite N.add_0_r; reflexivity].
          rewrite E. destruct (kind_eqb_spec k k0) as [->|]; [lia|rewrite N.add_0_r; reflexivity]. }
      rewrite !bind_some. cbn [p_inner p_states] in H.
      destruct (decr16 (cf_checks cf) _) as [n1|] eqn:En1 in H; [discriminate|].
      injection H as <-. split; [reflexivity|]. split; [reflexivity|]. right.
      apply Dn in En1 as [E1 E2]. split; [assumption|]. split; [exact E2|].
      eexists. split; [reflexivity|]. split; [reflexivity|]. split; reflexivity.
    + rewrite !bind_some.
      change (i_piece_at o (xor_piece o (p_inner o p) f y) t)
        with (i_piece_at o (p_inner o p) t) in H.
      change (i_piece_at o (xor_piece o (p_inner o (at_ply p 1)) f y) t)
        with (i_piece_at o (p_inner o p) t).
      destruct (i_piece_at o (p_inner o p) t) as [tg|] eqn:Bt; cbn iota beta in H.
      2:{ injection H as <-. split; [reflexivity|]. split; [reflexivity|]. left. right. right.
          split; [exact Bt|]. split; [reflexivity|]. split; [unfold c; rewrite flip_flip; reflexivity|].
          exists None. split; [reflexivity|]. intros d k. rewrite N.add_0_r. reflexivity. }
      rewrite !bind_some. cbn [p_inner p_states] in H.
      destruct (decr16 (cf_checks cf) _) as [n1|] eqn:En1 in H; [discriminate|].
      injection H as <-. split; [reflexivity|]. split; [reflexivity|]. right.
      apply Dn in En1 as [E1 E2]. split; [assumption|]. split; [exact E2|].
      eexists. split; [reflexivity|]. split; [reflexivity|]. split; reflexivity.
  - set (c := flip (i_side o (p_inner o p))) in *. cbn [p_inner p_states] in H.
    change (i_hand o (set_piece_at o (xor_piece o (p_inner o p) t x) t None) c) with (i_hand o (p_inner o p) c) in H.
    change (i_hand o (set_piece_at o (xor_piece o (p_inner o (at_ply p 1)) t x) t None) c) with (i_hand o (p_inner o p) c) in *.
    destruct (hand_added (i_hand o (p_inner o p) c) (pkind x)) as [h|] eqn:Eh; cbn iota beta in H.
    2:{ injection H as <-. split; [reflexivity|]. split; [reflexivity|]. left.
        split; [apply hand_added_none; exact Eh|].
        split; [intros s; unfold Yasai.piece_at, piece_at, i_piece_at; cbn [p_inner set_piece_at i_board xor_piece];
                apply sa_get_set|].
        split; [unfold c; rewrite flip_flip; reflexivity|]. reflexivity. }
    rewrite !bind_some. cbn [p_inner p_states] in H.
    destruct (decr16 (cf_checks cf) _) as [n1|] eqn:En1 in H; [discriminate|].
    injection H as <-. split; [reflexivity|]. split; [reflexivity|]. right.
    apply Dn in En1 as [E1 E2]. split; [assumption|]. split; [exact E2|].
    eexists. split; [reflexivity|]. split; [reflexivity|]. split; reflexivity.
Qed.
End Left.

(** C58: what a panicking do_move leaves, after any accepted moves from anything
    that new accepts.  The history is untouched, so the keys and the answer of
    in_check stay as they were; nothing else is touched either, unless a
    promotion fails onto a piece, a drop fails, or the ply overflows. *)
Theorem C58_left_by_do_move cf pp l p0 p m q :
  Yasai.new cf pp = Some p0 -> do_line cf p0 l = Some p -> do_mut cf m p = (q, false) ->
  Yasai.keys cf q = Yasai.keys cf p /\ Yasai.in_check cf q = Yasai.in_check cf p /\
  Yasai.ply cf q = Yasai.ply cf p /\
  let B := Yasai.piece_at cf p in
  let c := Yasai.side_to_move cf p in
  (match m with
  | Normal f t pr =>
      (* nothing has changed *)
      (q = p /\ (B f = None \/ (exists d, B t = Some (mkP King d)) \/
         (exists x, B t = Some x /\ hand_n (Yasai.hand cf p c) (base_kind (pkind x)) = 18%N) \/
         (pr = true /\ B t = None /\ exists y, B f = Some y /\ promote_kind (pkind y) = None))) \/
      (* a piece that cannot promote: the piece it takes is in hand already and
         still on the board *)
      (exists x y, pr = true /\ B t = Some x /\ B f = Some y /\ promote_kind (pkind y) = None /\
         pkind x <> King /\ (hand_n (Yasai.hand cf p c) (base_kind (pkind x)) < 18)%N /\
         (forall s, Yasai.piece_at cf q s = B s) /\ Yasai.side_to_move cf q = c /\
         forall d k, hand_n (Yasai.hand cf q d) k =
           (hand_n (Yasai.hand cf p d) k + if color_eqb d c && kind_eqb k (base_kind (pkind x)) then 1 else 0)%N)
  | Drop t x =>
      (* no such piece in hand: it is on the board all the same *)
      hand_n (Yasai.hand cf p c) (pkind x) = 0%N /\
      (forall s, Yasai.piece_at cf q s = if sq_eqb s t then Some x else B s) /\
      Yasai.side_to_move cf q = c /\
      (forall d k, hand_n (Yasai.hand cf q d) k = hand_n (Yasai.hand cf p d) k)
  end \/
  (* the ply overflows: the move has been played *)
  (cf_checks cf = true /\ Yasai.ply cf p = 65535%N /\ ~ refused cf p m /\
   same_game (view cf q) (play (view cf p) m))).
Proof.
  intros N D E. unfold do_mut in E.
  destruct (do_prog (ops cf) (zt cf) (cf_checks cf) m p) as [q' [u|]] eqn:H; [discriminate|]. injection E as <-.
  destruct (left_by_do cf p q' m (do_line_sane cf l p0 p (new_sane cf pp p0 N) D) H) as [Hst [Hp HH]].
  assert (St : pos_state (ops cf) q' = pos_state (ops cf) p) by (unfold pos_state; rewrite Hst; reflexivity).
  split; [unfold Yasai.keys, pos_keys; rewrite St; reflexivity|].
  split; [unfold Yasai.in_check, pos_in_check; rewrite St; reflexivity|].
  split; [exact Hp|exact HH].
Qed.
Print Assumptions C58_left_by_do_move.

(** so a board move with no piece on its square, onto a king or onto a piece
    that no longer fits in the hand leaves nothing behind *)
Theorem C58_untouched cf pp l p0 p f t pr :
  Yasai.new cf pp = Some p0 -> do_line cf p0 l = Some p ->
  Yasai.piece_at cf p f = None \/ (exists d, Yasai.piece_at cf p t = Some (mkP King d)) \/
  (exists x, Yasai.piece_at cf p t = Some x /\
     hand_n (Yasai.hand cf p (Yasai.side_to_move cf p)) (base_kind (pkind x)) = 18%N) ->
  do_mut cf (Normal f t pr) p = (p, false).
Proof.
  intros N D C.
  assert (Rf : refused cf p (Normal f t pr)) by (cbn [refused]; tauto).
  pose proof (do_line_sane cf l p0 p (new_sane cf pp p0 N) D) as Hs.
  pose proof (proj2 (do_move_refuses_any cf p _ Hs) (or_introl Rf)) as E.
  rewrite C58_do_move_refines in E.
  destruct (do_mut cf (Normal f t pr) p) as [q r] eqn:H. destruct r; [discriminate|].
  destruct (C58_left_by_do_move cf pp l p0 p _ q N D H) as [_ [_ [_ [[[-> _]|HH]|[_ [_ [NR _]]]]]]].
  - reflexivity.
  - exfalso. destruct HH as [x [y [_ [Bt [Bf [_ [Nk [Lt _]]]]]]]].
    destruct C as [C|[[d C]|[x' [C1 C2]]]].
    + congruence.
    + rewrite Bt in C. injection C as ->. apply Nk. reflexivity.
    + rewrite Bt in C1. injection C1 as <-. lia.
  - contradiction.
Qed.
Print Assumptions C58_untouched.

(** what a panicking undo_move leaves, whatever the position value *)
Theorem C58_left_by_undo_move cf p m q :
  undo_mut cf m p = (q, false) ->
  Yasai.keys cf q = Yasai.keys cf p /\ Yasai.in_check cf q = Yasai.in_check cf p /\
  Yasai.ply cf q = Yasai.ply cf p /\
  let B := Yasai.piece_at cf p in
  let c := flip (Yasai.side_to_move cf p) in
  (match m with
  | Normal f t _ =>
      (* no move to undo: nothing has changed *)
      (q = p /\ forall x, Yasai.last_moved cf p <> Some (Some x)) \/
      (* the captured piece is not in the hand: board, hands and side are as before *)
      (exists x, Yasai.captured cf p = Some (Some x) /\ hand_n (Yasai.hand cf p c) (base_kind (pkind x)) = 0%N /\
         same_game (view cf q) (view cf p)) \/
      (* the destination is empty: the captured piece has left the hand *)
      (B t = None /\ (forall s, Yasai.piece_at cf q s = B s) /\ Yasai.side_to_move cf q = flip c /\
       exists x, Yasai.captured cf p = Some x /\
         forall d k, hand_n (Yasai.hand cf p d) k = (hand_n (Yasai.hand cf q d) k +
           match x with Some x => if color_eqb d c && kind_eqb k (base_kind (pkind x)) then 1 else 0 | None => 0 end)%N)
  | Drop t x =>
      (* the hand does not take the piece: it is gone from the board *)
      (~ In (pkind x) hand_kinds \/ (255 <= hand_n (Yasai.hand cf p c) (pkind x))%N) /\
      (forall s, Yasai.piece_at cf q s = if sq_eqb s t then None else B s) /\
      Yasai.side_to_move cf q = flip c /\
      (forall d k, hand_n (Yasai.hand cf q d) k = hand_n (Yasai.hand cf p d) k)
  end \/
  (* the ply underflows: board, hands and side are those of a successful call *)
  (cf_checks cf = true /\ Yasai.ply cf p = 0%N /\
   exists r, Yasai.undo_move cf (at_ply cf p 1) m = Some r /\ same_game (view cf q) (view cf r))).
Proof.
  intros E. unfold undo_mut in E.
  destruct (undo_prog (ops cf) (cf_checks cf) m p) as [q' [u|]] eqn:H; [discriminate|]. injection E as <-.
  destruct (left_by_undo cf p q' m H) as [Hst [Hp HH]].
  assert (St : pos_state (ops cf) q' = pos_state (ops cf) p) by (unfold pos_state; rewrite Hst; reflexivity).
  split; [unfold Yasai.keys, pos_keys; rewrite St; reflexivity|].
  split; [unfold Yasai.in_check, pos_in_check; rewrite St; reflexivity|].
  split; [exact Hp|exact HH].
Qed.
Print Assumptions C58_left_by_undo_move.

(** ** A refused move is not always without effect *)

(* a gold takes a pawn and "promotes" *)
Definition gold_takes : partial := sfen "4k4/9/9/9/9/9/9/3p5/3G1K3" Black "-".
Definition gold_promotes : move := mv (n6, n9) (n6, n8) true.

(* the pawn is both on the board and in hand, in a position that is reachable *)
Theorem C58_refused_untouched_refuted b checks : exists p q, let cf := build b checks in
  reachable cf [] p /\ do_mut cf gold_promotes p = (q, false) /\
  Yasai.piece_at cf q (Sq n6 n8) = Some (mkP Pawn White) /\
  hand_n (Yasai.hand cf p Black) Pawn = 0%N /\ hand_n (Yasai.hand cf q Black) Pawn = 1%N.
Proof.
  set (cf := build b checks).
  assert (H : match Yasai.new cf gold_takes with
    | Some p => match do_mut cf gold_promotes p with
       | (q, false) => is_piece (Yasai.piece_at cf q (Sq n6 n8)) (mkP Pawn White) &&
            (hand_n (Yasai.hand cf p Black) Pawn =? 0)%N && (hand_n (Yasai.hand cf q Black) Pawn =? 1)%N
       | _ => false end
    | None => false end = true) by (unfold cf; destruct b, checks; vm_compute; reflexivity).
  destruct (Yasai.new cf gold_takes) as [p|] eqn:E0; [|discriminate].
  destruct (do_mut cf gold_promotes p) as [q []] eqn:E1; [discriminate|].
  rewrite !andb_true_iff, !N.eqb_eq, is_piece_spec in H. destruct H as [[H1 H2] H3].
  exists p, q. cbv zeta. fold cf. split.
  { apply (R_new cf gold_takes); [|vm_compute; discriminate|exact E0].
    apply validb_spec. vm_compute. reflexivity. }
  split; [exact E1|]. split; [exact H1|]. split; assumption.
Qed.
Print Assumptions C58_refused_untouched_refuted.

(* a rook out of nothing *)
Theorem C58_refused_drop_untouched_refuted b checks : exists p q, let cf := build b checks in
  reachable cf [] p /\ do_mut cf (dr (n5, n5) Rook Black) p = (q, false) /\
  Yasai.piece_at cf p (Sq n5 n5) = None /\ Yasai.piece_at cf q (Sq n5 n5) = Some (mkP Rook Black).
Proof.
  set (cf := build b checks).
  assert (H : match Yasai.new cf gold_takes with
    | Some p => match do_mut cf (dr (n5, n5) Rook Black) p with
       | (q, false) => is_piece (Yasai.piece_at cf q (Sq n5 n5)) (mkP Rook Black) &&
            match Yasai.piece_at cf p (Sq n5 n5) with None => true | _ => false end
       | _ => false end
    | None => false end = true) by (unfold cf; destruct b, checks; vm_compute; reflexivity).
  destruct (Yasai.new cf gold_takes) as [p|] eqn:E0; [|discriminate].
  destruct (do_mut cf (dr (n5, n5) Rook Black) p) as [q []] eqn:E1; [discriminate|].
  rewrite !andb_true_iff, is_piece_spec in H. destruct H as [H1 H2].
  destruct (Yasai.piece_at cf p (Sq n5 n5)) eqn:E2; [discriminate|].
  exists p, q. cbv zeta. fold cf. split.
  { apply (R_new cf gold_takes); [|vm_compute; discriminate|exact E0].
    apply validb_spec. vm_compute. reflexivity. }
  split; [exact E1|]. split; [exact E2|exact H1].
Qed.
Print Assumptions C58_refused_drop_untouched_refuted.

(* each kind of refusal occurs *)
Example C58_example b checks : exists p q r, let cf := build b checks in
  Yasai.new cf gold_takes = Some p /\
  do_mut cf (mv (n1, n1) (n2, n2) false) p = (p, false) /\
  do_mut cf gold_promotes p = (q, false) /\
  do_mut cf (mv (n6, n9) (n6, n8) false) p = (r, true).
Proof.
  set (cf := build b checks).
  assert (H : match Yasai.new cf gold_takes with
    | Some p => negb (snd (do_mut cf gold_promotes p)) && snd (do_mut cf (mv (n6, n9) (n6, n8) false) p) &&
       match Yasai.piece_at cf p (Sq n1 n1) with None => true | _ => false end
    | None => false end = true) by (unfold cf; destruct b, checks; vm_compute; reflexivity).
  destruct (Yasai.new cf gold_takes) as [p|] eqn:E0; [|discriminate].
  destruct (do_mut cf gold_promotes p) as [q []] eqn:E1; [discriminate|].
  destruct (do_mut cf (mv (n6, n9) (n6, n8) false) p) as [r []] eqn:E2; [|discriminate].
  destruct (Yasai.piece_at cf p (Sq n1 n1)) eqn:E3; [discriminate|].
  exists p, q, r. cbv zeta. fold cf. split; [exact E0|]. split; [|split; assumption].
  apply (C58_untouched cf gold_takes [] p p); [exact E0|reflexivity|]. left. exact E3.
Qed.
