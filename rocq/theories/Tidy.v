(** * Accepted moves that keep the position consistent

    do_move keeps the bitboards and the keys in step with the board under every
    move it accepts, legal or not, unless the move starts and ends on one square
    or drops on a piece. *)

From Coq Require Import List Bool NArith ZArith Lia.
From Verif Require Import Types Rules Bitboard Tables Zobrist Position Movegen Api
  Words Squares Geometry BBSpec Backends KingSafety Rep PawnDrop ValidPlay Moves Hash Play Undo Reach AnyMove Panics
  Lines Accept.
Import ListNotations.

Definition side_bit (n : nat) : N := if Nat.odd n then 1%N else 0%N.

Section Core.
Context (o : bbops) (S : bbspec o) (z : ztable) (checks : bool).

Definition tidy_at (p : position o) (m : move) : Prop :=
  match m with
  | Normal f t _ => f <> t
  | Drop t _ => i_piece_at o (p_inner o p) t = None
  end.
Record steady_at (n : nat) (p : position o) : Prop := {
  sda_rep : rep o S (p_inner o p);
  sda_keys : pos_keys o p =
    Some (N.lxor (board_hash z (i_piece_at o (p_inner o p))) (side_bit n),
          hand_hash z (fun c k => hand_n (i_hand o (p_inner o p) c) k)) }.

Local Opaque attack_info_new calculate_checkers is_check_move.

Lemma do_move_steady_at n (p q : position o) m :
  steady_at n p -> tidy_at p m -> do_move o z checks p m = Some q -> steady_at (Datatypes.S n) q.
Proof.
  intros [R K] T D.
  unfold do_move in D.
  destruct (is_check_move o p m) as [ic|]; [cbn [bind] in D|discriminate].
  destruct (pos_state o p) as [st|] eqn:Est; [cbn [bind] in D|discriminate].
  assert (Ks : s_keys o st =
    (N.lxor (board_hash z (i_piece_at o (p_inner o p))) (side_bit n),
     hand_hash z (fun c k => hand_n (i_hand o (p_inner o p) c) k))).
  { unfold pos_keys in K. rewrite Est in K. cbn [bind] in K. injection K as K.
    exact K. }
  assert (SB : side_bit (Datatypes.S n) = N.lxor (side_bit n) KEY_COLOR).
  { unfold side_bit. rewrite Nat.odd_succ, <- Nat.negb_odd. destruct (Nat.odd n); reflexivity. }
  clear K. set (p0 := p_inner o p) in *. set (c := i_side o p0) in *.
  destruct m as [f t pr|t x]; cbn [tidy_at] in T.
  - cbn [move_to] in D.
    destruct (i_piece_at o p0 f) as [y|] eqn:Bf; [cbn [bind] in D|discriminate].
    destruct (do_capture o z p0 (s_keys o st) c t (i_piece_at o p0 t)) as [[p1 ks]|] eqn:Ec;
      [cbn [bind fst snd] in D|discriminate].
    destruct (if pr then promote_piece y else Some y) as [tp|] eqn:Et; [cbn [bind] in D|discriminate].
    match type of D with (let* n := ?a in _) = _ => destruct a as [n1|] eqn:En end;
      [cbn [bind] in D|discriminate].
    injection D as <-.
    assert (C1 : reps o S p1 (upd (i_piece_at o p0) t None) /\ i_board o p1 = i_board o p0 /\
      fst ks = N.lxor (fst (s_keys o st)) (piece_entry z t (i_piece_at o p0 t)) /\
      snd ks = hand_hash z (fun c k => hand_n (i_hand o p1 c) k)).
    { unfold do_capture in Ec. destruct (i_piece_at o p0 t) as [q|] eqn:Bt.
      - fold (base_kind (pkind q)) in Ec. set (k0 := base_kind (pkind q)) in *.
        destruct (hand_count (i_hand o p0 c) k0) as [n0|] eqn:Hn; [cbn [bind] in Ec|discriminate].
        assert (Ik : In k0 hand_kinds).
        { destruct (in_dec kind_dec k0 hand_kinds) as [I|N]; [assumption|]. exfalso.
          destruct k0; cbn in N, Hn; try discriminate; apply N; tauto. }
        assert (E0 : n0 = hand_n (i_hand o p0 c) k0) by (unfold hand_n; rewrite Hn; reflexivity).
        unfold z_hand in Ec. rewrite (hand_kind_index _ Ik) in Ec. cbn [andb] in Ec.
        destruct (n0 <? MAX_HAND_NUM)%N; [cbn [bind] in Ec|discriminate].
        change (i_hand o (xor_piece o p0 t q) c) with (i_hand o p0 c) in Ec.
        destruct (hand_added (i_hand o p0 c) k0) as [h|] eqn:Eh; [cbn [bind] in Ec|discriminate].
        injection Ec as <- <-. split; [|split; [reflexivity|split; [reflexivity|]]].
        + apply (reps_bbs o S (xor_piece o p0 t q)); try reflexivity.
          apply reps_xor; [apply reps_rep; assumption|]. right. tauto.
        + cbn [snd]. rewrite Ks. cbn [snd].
          assert (HH : forall d j, hand_n (i_hand o (set_hand o (xor_piece o p0 t q) c h) d) j =
            upd_hand (fun d j => hand_n (i_hand o p0 d) j) c k0 (n0 + 1) d j).
          { intros d j. unfold i_hand at 1. cbn [set_hand i_hands xor_piece]. rewrite c_get_set.
            unfold upd_hand. destruct (color_eqb_spec d c) as [->|Nd]; cbn [andb]; [|reflexivity].
            unfold hand_added in Eh. rewrite Hn in Eh. destruct (n0 <? 255)%N; [|discriminate].
            injection Eh as <-. apply Moves.hand_n_set. assumption. }
          rewrite (hand_hash_ext _ _ _ HH), (hand_hash_upd _ _ _ _ _ Ik), held_hash_succ.
          cbv beta. rewrite <- E0. clear. xors.
      - injection Ec as <- <-. split; [|split; [reflexivity|split]].
        + apply (reps_ext o S p0 (i_piece_at o p0)); [|apply reps_rep; assumption].
          intros u. unfold upd. destruct (sq_eqb_spec u t) as [Eu|]; [subst u; assumption|reflexivity].
        + cbn [piece_entry]. rewrite N.lxor_0_r. reflexivity.
        + rewrite Ks. reflexivity. }
    destruct C1 as [R1 [B1 [K1 K2]]].
    set (p' := set_ply o (set_side o (set_piece_at o (set_piece_at o
      (xor_piece o (xor_piece o p1 f y) t tp) f None) t (Some tp)) (flip c)) n1).
    assert (Bp : forall u, i_piece_at o p' u = upd (upd (i_piece_at o p0) f None) t (Some tp) u).
    { intros u. unfold p', i_piece_at. cbn [set_ply set_side set_piece_at i_board xor_piece].
      rewrite !sa_get_set, B1. reflexivity. }
    constructor.
    + change (rep o S p'). apply reps_rep.
      apply (reps_ext o S _ (upd (upd (upd (i_piece_at o p0) t None) f None) t (Some tp))).
      * intros u. rewrite Bp. unfold upd. destruct (sq_eqb u t); [reflexivity|].
        destruct (sq_eqb u f); reflexivity.
      * apply (reps_bbs o S (xor_piece o (xor_piece o p1 f y) t tp)); try reflexivity.
        apply reps_xor; [apply reps_xor; [assumption|]|].
        -- right. split; [|reflexivity]. unfold upd. rewrite sq_eqb_neq by assumption. assumption.
        -- left. split; [|reflexivity]. unfold upd. rewrite sq_eqb_neq by congruence.
           rewrite sq_eqb_refl. reflexivity.
    + unfold pos_keys, pos_state. cbn [p_states hd_error bind s_keys]. f_equal. f_equal.
      * change (board_hash z (i_piece_at o (p_inner o _))) with (board_hash z (i_piece_at o p')).
        rewrite (board_hash_ext _ _ _ Bp), !board_hash_upd. cbn [fst]. rewrite K1, Ks, SB. cbn [fst].
        unfold upd at 1. rewrite sq_eqb_neq by congruence. rewrite Bf. cbn [piece_entry].
        unfold z_board. clear. xors.
      * cbn [snd]. exact K2.
  - match type of D with context [hand_removed ?a _] => change a with (i_hand o p0 c) in D end.
    destruct (hand_removed (i_hand o p0 c) (pkind x)) as [h|] eqn:Eh; [cbn [bind] in D|discriminate].
    unfold hand_removed in Eh.
    destruct (hand_count (i_hand o p0 c) (pkind x)) as [n0|] eqn:Hn; [|discriminate].
    assert (Ik : In (pkind x) hand_kinds).
    { destruct (in_dec kind_dec (pkind x) hand_kinds) as [I|N]; [assumption|]. exfalso.
      destruct (pkind x); cbn in N, Hn; try discriminate; apply N; tauto. }
    assert (E0 : n0 = hand_n (i_hand o p0 c) (pkind x)) by (unfold hand_n; rewrite Hn; reflexivity).
    destruct (N.ltb_spec 0 n0) as [P0|]; [|discriminate]. injection Eh as <-.
    match type of D with context [hand_count ?a (pkind x)] => set (h := a) in D end.
    assert (Hc : h = hand_set (i_hand o p0 c) (pkind x) (n0 - 1)).
    { unfold h, i_hand. cbn [set_side set_hand set_piece_at xor_piece i_hands].
      rewrite c_get_set, color_eqb_refl. reflexivity. }
    rewrite Hc, (proj1 (hand_count_some _ _) Ik) in D. cbn [bind] in D.
    rewrite Moves.hand_n_set, kind_eqb_refl in D by assumption.
    unfold z_hand in D. rewrite (hand_kind_index _ Ik) in D. cbn [andb] in D.
    destruct (n0 - 1 <? MAX_HAND_NUM)%N; [cbn [bind] in D|discriminate].
    match type of D with (let* n := ?a in _) = _ => destruct a as [n1|] eqn:En end;
      [cbn [bind] in D|discriminate].
    injection D as <-. clear h Hc.
    match goal with |- steady_at _ (mkPos _ ?a _) => set (p' := a) end.
    assert (Bp : forall u, i_piece_at o p' u = upd (i_piece_at o p0) t (Some x) u).
    { intros u. unfold p', i_piece_at. cbn [set_ply set_side set_hand set_piece_at i_board xor_piece].
      rewrite !sa_get_set. reflexivity. }
    assert (HH : forall e j, hand_n (i_hand o p' e) j =
      upd_hand (fun d j => hand_n (i_hand o p0 d) j) c (pkind x) (n0 - 1) e j).
    { intros e j. unfold p', i_hand at 1. cbn [set_ply set_side set_hand i_hands set_piece_at xor_piece].
      rewrite c_get_set. unfold upd_hand.
      destruct (color_eqb_spec e c) as [->|Nd]; cbn [andb]; [|reflexivity].
      apply Moves.hand_n_set. assumption. }
    fold p0 in T.
    constructor.
    + change (rep o S p'). apply reps_rep.
      apply (reps_ext o S _ (upd (i_piece_at o p0) t (Some x))); [intros u; symmetry; apply Bp|].
      apply (reps_bbs o S (xor_piece o p0 t x)); try reflexivity.
      apply reps_xor; [apply reps_rep; assumption|]. left. tauto.
    + unfold pos_keys, pos_state. cbn [p_states hd_error bind s_keys]. f_equal. f_equal.
      * change (board_hash z (i_piece_at o (p_inner o _))) with (board_hash z (i_piece_at o p')).
        rewrite (board_hash_ext _ _ _ Bp), !board_hash_upd. cbn [fst]. rewrite Ks, SB, T. cbn [fst piece_entry].
        unfold z_board. clear. xors.
      * cbn [snd].
        change (hand_hash z (fun c k => hand_n (i_hand o (p_inner o _) c) k)) with
          (hand_hash z (fun c k => hand_n (i_hand o p' c) k)).
        rewrite (hand_hash_ext _ _ _ HH), (hand_hash_upd _ _ _ _ _ Ik), Ks. cbn [snd]. cbv beta. rewrite <- E0.
        assert (Es : held_hash z c (pkind x) n0 =
          N.lxor (held_hash z c (pkind x) (n0 - 1)) (z_hand_entry z c (pkind x) (n0 - 1))).
        { rewrite <- held_hash_succ. f_equal. lia. }
        rewrite Es. clear. xors.
Qed.

End Core.

Section Tidy.
Context (cf : config).
Notation o := (ops cf).
Notation Sp := (backend_spec (cf_backend cf) (cf_checks cf)).

Definition tidy (p : Yasai.Position cf) (m : move) : Prop :=
  match m with
  | Normal f t _ => f <> t
  | Drop t _ => Yasai.piece_at cf p t = None
  end.

Fixpoint tidy_line (p : Yasai.Position cf) (l : list move) : Prop :=
  match l with
  | [] => True
  | m :: l => tidy p m /\ forall q, Yasai.do_move cf p m = Some q -> tidy_line q l
  end.

Record steady (n : nat) (p : Yasai.Position cf) : Prop := {
  sd_rep : rep o Sp (p_inner o p);
  sd_keys : Yasai.keys cf p =
    Some (N.lxor (board_hash (zt cf) (Yasai.piece_at cf p)) (side_bit n),
          hand_hash (zt cf) (fun c k => hand_n (Yasai.hand cf p c) k)) }.

Lemma new_steady pp p : Yasai.new cf pp = Some p -> steady 0 p.
Proof.
  intros E. pose proof (new_fit cf pp p E) as F. rewrite (new_some cf pp F) in E. injection E as <-.
  constructor.
  - apply inner_of_partial_rep.
  - unfold side_bit. rewrite N.lxor_0_r. reflexivity.
Qed.

Lemma do_move_steady n (p q : Yasai.Position cf) m :
  steady n p -> tidy p m -> Yasai.do_move cf p m = Some q -> steady (S n) q.
Proof.
  intros [R K] T D.
  destruct (do_move_steady_at o Sp (zt cf) (cf_checks cf) n p q m) as [R' K'].
  - constructor; assumption.
  - exact T.
  - exact D.
  - constructor; assumption.
Qed.

Lemma do_line_steady l : forall n p q, steady n p -> tidy_line p l -> do_line cf p l = Some q ->
  steady (n + length l) q.
Proof.
  induction l as [|m l IH]; intros n p q Hs T D; cbn [do_line length] in *.
  - injection D as <-. rewrite Nat.add_0_r. assumption.
  - destruct T as [T1 T2]. destruct (Yasai.do_move cf p m) as [p1|] eqn:E; [|discriminate].
    rewrite Nat.add_succ_r. apply (IH (S n) p1 q); [|exact (T2 p1 eq_refl)|exact D].
    exact (do_move_steady n p p1 m Hs T1 E).
Qed.

End Tidy.
