(** * do_move and undo_move on arbitrary moves

    No assumption on the position or on the legality of the move. *)

From Coq Require Import List Bool NArith ZArith Lia.
From Verif Require Import Types Rules Bitboard BackendCore BackendSimd Tables Zobrist Position Movegen Api
  Squares Moves Undo.
Import ListNotations.

Local Opaque attack_info_new calculate_checkers is_check_move z_hand z_board.

Section AnyMove.
Context (cf : config).
Notation o := (ops cf).

Lemma bxor_comm (a b : bb o) : bxor o a b = bxor o b a.
Proof.
  unfold ops in *. destruct (cf_backend cf); cbn in *; [apply N.lxor_comm|..];
    unfold v_xor, v_map2; f_equal; apply N.lxor_comm.
Qed.
Lemma bxor_assoc (a b c : bb o) : bxor o (bxor o a b) c = bxor o a (bxor o b c).
Proof.
  unfold ops in *. destruct (cf_backend cf); cbn in *; [apply N.lxor_assoc|..];
    unfold v_xor, v_map2; f_equal; apply N.lxor_assoc.
Qed.
Lemma bxor_twice (a b : bb o) : bxor o (bxor o a b) b = a.
Proof.
  unfold ops in *. destruct (cf_backend cf); cbn in *;
    [rewrite N.lxor_assoc, N.lxor_nilpotent, N.lxor_0_r; reflexivity|..];
    destruct a as [a0 a1], b as [b0 b1]; unfold v_xor, v_map2; cbn [fst snd];
    rewrite !N.lxor_assoc, !N.lxor_nilpotent, !N.lxor_0_r; reflexivity.
Qed.
Lemma bxor_swap (a b c : bb o) : bxor o (bxor o a b) c = bxor o (bxor o a c) b.
Proof. rewrite !bxor_assoc, (bxor_comm b c). reflexivity. Qed.

Definition inner_eq p q := i_side o p = i_side o q /\ i_ply o p = i_ply o q /\
  i_hands o p = i_hands o q /\ i_board o p = i_board o q /\
  i_player_bb o p = i_player_bb o q /\ i_piece_bb o p = i_piece_bb o q.
Lemma inner_eq_eq p q : inner_eq p q -> p = q.
Proof. destruct p, q. unfold inner_eq. cbn. intuition congruence. Qed.

Lemma xor_piece_swap p s x t y :
  xor_piece o (xor_piece o p s x) t y = xor_piece o (xor_piece o p t y) s x.
Proof.
  apply inner_eq_eq. repeat (split; [reflexivity|]). unfold xor_piece.
  cbn [i_player_bb i_piece_bb]. split.
  - apply c_ext. intros c. rewrite !c_get_set.
    destruct (color_eqb_spec c (pcolor x)) as [E1|N1], (color_eqb_spec c (pcolor y)) as [E2|N2];
      rewrite <- ?E1, <- ?E2, ?color_eqb_refl; try apply bxor_swap; try reflexivity.
    + destruct (color_eqb_spec c (pcolor y)); [contradiction|reflexivity].
    + destruct (color_eqb_spec c (pcolor x)); [contradiction|reflexivity].
  - apply k_ext. intros k. rewrite !k_get_set.
    destruct (kind_eqb_spec k (pkind x)) as [E1|N1], (kind_eqb_spec k (pkind y)) as [E2|N2];
      rewrite <- ?E1, <- ?E2, ?kind_eqb_refl; try apply bxor_swap; try reflexivity.
    + destruct (kind_eqb_spec k (pkind y)); [contradiction|reflexivity].
    + destruct (kind_eqb_spec k (pkind x)); [contradiction|reflexivity].
Qed.
Lemma xor_piece_twice p s x : xor_piece o (xor_piece o p s x) s x = p.
Proof.
  apply inner_eq_eq. repeat (split; [reflexivity|]). unfold xor_piece.
  cbn [i_player_bb i_piece_bb]. split.
  - apply c_ext. intros c. rewrite !c_get_set, color_eqb_refl.
    destruct (color_eqb_spec c (pcolor x)) as [->|]; [apply bxor_twice|reflexivity].
  - apply k_ext. intros k. rewrite !k_get_set, kind_eqb_refl.
    destruct (kind_eqb_spec k (pkind x)) as [->|]; [apply bxor_twice|reflexivity].
Qed.

(* the fields that each update leaves alone *)
Lemma hands_xor p s x : i_hands o (xor_piece o p s x) = i_hands o p. Proof. reflexivity. Qed.
Lemma hands_at p s x : i_hands o (set_piece_at o p s x) = i_hands o p. Proof. reflexivity. Qed.
Lemma hands_side p c : i_hands o (set_side o p c) = i_hands o p. Proof. reflexivity. Qed.
Lemma hands_ply p n : i_hands o (set_ply o p n) = i_hands o p. Proof. reflexivity. Qed.
Lemma hands_hand p c h : i_hands o (set_hand o p c h) = c_set (i_hands o p) c h. Proof. reflexivity. Qed.
Lemma board_xor p s x : i_board o (xor_piece o p s x) = i_board o p. Proof. reflexivity. Qed.
Lemma board_at p s x : i_board o (set_piece_at o p s x) = sa_set (i_board o p) s x. Proof. reflexivity. Qed.
Lemma board_side p c : i_board o (set_side o p c) = i_board o p. Proof. reflexivity. Qed.
Lemma board_ply p n : i_board o (set_ply o p n) = i_board o p. Proof. reflexivity. Qed.
Lemma board_hand p c h : i_board o (set_hand o p c h) = i_board o p. Proof. reflexivity. Qed.
Definition px (v : carr (bb o)) s x := c_set v (pcolor x) (bxor o (c_get v (pcolor x)) (bsingle o s)).
Definition kx (v : karr (bb o)) s x := k_set v (pkind x) (bxor o (k_get v (pkind x)) (bsingle o s)).
Lemma player_xor p s x : i_player_bb o (xor_piece o p s x) = px (i_player_bb o p) s x. Proof. reflexivity. Qed.
Lemma player_at p s x : i_player_bb o (set_piece_at o p s x) = i_player_bb o p. Proof. reflexivity. Qed.
Lemma player_side p c : i_player_bb o (set_side o p c) = i_player_bb o p. Proof. reflexivity. Qed.
Lemma player_ply p n : i_player_bb o (set_ply o p n) = i_player_bb o p. Proof. reflexivity. Qed.
Lemma player_hand p c h : i_player_bb o (set_hand o p c h) = i_player_bb o p. Proof. reflexivity. Qed.
Lemma piece_xor p s x : i_piece_bb o (xor_piece o p s x) = kx (i_piece_bb o p) s x. Proof. reflexivity. Qed.
Lemma piece_at' p s x : i_piece_bb o (set_piece_at o p s x) = i_piece_bb o p. Proof. reflexivity. Qed.
Lemma piece_side p c : i_piece_bb o (set_side o p c) = i_piece_bb o p. Proof. reflexivity. Qed.
Lemma piece_ply p n : i_piece_bb o (set_ply o p n) = i_piece_bb o p. Proof. reflexivity. Qed.
Lemma piece_hand p c h : i_piece_bb o (set_hand o p c h) = i_piece_bb o p. Proof. reflexivity. Qed.
Hint Rewrite player_xor player_at player_side player_ply player_hand
  piece_xor piece_at' piece_side piece_ply piece_hand : fields.
Hint Rewrite hands_xor hands_at hands_side hands_ply hands_hand
  board_xor board_at board_side board_ply board_hand : fields.

Lemma removed_added h k h' : hand_added h k = Some h' -> hand_removed h' k = Some h.
Proof.
  unfold hand_added, hand_removed. destruct (hand_count h k) as [n|] eqn:E; [|discriminate].
  destruct (n <? 255)%N; [|discriminate]. intros [= <-].
  rewrite hand_count_set by congruence. rewrite kind_eqb_refl.
  destruct (N.ltb_spec 0 (n + 1)); [|lia]. rewrite hand_set_set, N.add_sub. f_equal.
  assert (n = hand_n h k) as -> by (unfold hand_n; rewrite E; reflexivity). apply hand_set_same.
Qed.
Lemma added_removed h k h' : (hand_n h k <= 255)%N ->
  hand_removed h k = Some h' -> hand_added h' k = Some h.
Proof.
  unfold hand_added, hand_removed. unfold hand_n.
  destruct (hand_count h k) as [n|] eqn:E; [|discriminate]. intros L.
  destruct (N.ltb_spec 0 n); [|discriminate]. intros [= <-].
  rewrite hand_count_set by congruence. rewrite kind_eqb_refl.
  destruct (N.ltb_spec (n - 1) 255); [|lia]. rewrite hand_set_set.
  replace (n - 1 + 1)%N with n by lia. f_equal.
  assert (n = hand_n h k) as -> by (unfold hand_n; rewrite E; reflexivity). apply hand_set_same.
Qed.

(* An accepted board move is undone exactly, whatever the position and the move;
   an accepted drop, if its target was empty. *)
Lemma undo_any (p q : Yasai.Position cf) m :
  (Yasai.ply cf p <= 65535)%N ->
  (forall c k, (hand_n (Yasai.hand cf p c) k <= 255)%N) ->
  (forall t x, m = Drop t x -> Yasai.piece_at cf p t = None) ->
  Yasai.do_move cf p m = Some q -> Yasai.undo_move cf q m = Some p.
Proof.
  intros Hp Hh Hd D. unfold Yasai.do_move, do_move in D. unfold Yasai.undo_move, undo_move.
  destruct (is_check_move o p m) as [ic|]; [cbn [bind] in D|discriminate].
  destruct (pos_state o p) as [st|] eqn:Est; [cbn [bind] in D|discriminate].
  destruct m as [f t pr|t x].
  - cbn [move_to] in D.
    destruct (i_piece_at o (p_inner o p) f) as [pc|] eqn:Bf; [cbn [bind] in D|discriminate].
    destruct (do_capture o (zt cf) (p_inner o p) (s_keys o st) (i_side o (p_inner o p)) t
      (i_piece_at o (p_inner o p) t)) as [[p1 ks]|] eqn:Ec; [cbn [bind fst snd] in D|discriminate].
    destruct (if pr then promote_piece pc else Some pc) as [tp|] eqn:Et; [cbn [bind] in D|discriminate].
    match type of D with (let* n := ?a in _) = _ => destruct a as [n|] eqn:En end;
      [cbn [bind] in D|discriminate].
    injection D as <-.
    cbn [p_inner set_ply set_side i_side p_states pos_state hd_error bind s_last_moved s_captured tl].
    rewrite flip_flip.
    assert (Ep : decr16 (cf_checks cf) n = Some (i_ply o (p_inner o p))).
    { apply decr_incr; [exact Hp|]. rewrite <- En. f_equal.
      unfold do_capture in Ec. destruct (i_piece_at o (p_inner o p) t).
      - cbn [bind] in Ec. repeat (match type of Ec with (let* n := ?a in _) = _ => destruct a end;
          [cbn [bind] in Ec|discriminate]). injection Ec as <- _. reflexivity.
      - injection Ec as <- _. reflexivity. }
    set (c := i_side o (p_inner o p)) in *. set (p0 := p_inner o p) in *.
    unfold do_capture in Ec. destruct (i_piece_at o p0 t) as [x|] eqn:Bt.
    + set (pku := match unpromote_kind (pkind x) with Some k => k | None => pkind x end) in *.
      destruct (hand_count (i_hand o p0 c) pku); [cbn [bind] in Ec|discriminate].
      destruct (z_hand (zt cf) c pku n0); [cbn [bind] in Ec|discriminate].
      change (i_hand o (xor_piece o p0 t x) c) with (i_hand o p0 c) in Ec.
      destruct (hand_added (i_hand o p0 c) pku) as [h|] eqn:Eh; [cbn [bind] in Ec|discriminate].
      injection Ec as <- _.
      match goal with |- context [hand_removed ?a pku] => replace a with h end.
      2:{ unfold i_hand. autorewrite with fields.
          rewrite c_get_set, color_eqb_refl. reflexivity. }
      rewrite (removed_added _ _ _ Eh). cbn [bind].
      match goal with |- context [i_piece_at o ?a t] => replace (i_piece_at o a t) with (Some tp) end.
      2:{ unfold i_piece_at. autorewrite with fields.
          rewrite sa_get_set, sq_eqb_refl. reflexivity. }
      cbn [bind].
      match goal with |- context [decr16 _ ?a] => change a with n end.
      rewrite Ep. cbn [bind]. f_equal. transitivity (mkPos o p0 (p_states o p)); [f_equal|destruct p; reflexivity].
      apply inner_eq_eq. split; [reflexivity|]. split; [reflexivity|]. split; [|split].
      * autorewrite with fields.
        apply c_ext. intros d. rewrite !c_get_set. unfold i_hand.
        destruct (color_eqb_spec d c) as [->|]; reflexivity.
      * autorewrite with fields.
        apply sa_ext. intros u. rewrite !sa_get_set.
        destruct (sq_eqb_spec u t) as [->|]; [symmetry; exact Bt|].
        destruct (sq_eqb_spec u f) as [->|]; [symmetry; exact Bf|reflexivity].
      * assert (X : xor_piece o (xor_piece o (xor_piece o (xor_piece o (xor_piece o
          (xor_piece o p0 t x) f pc) t tp) t x) f pc) t tp = p0).
        { rewrite (xor_piece_swap (xor_piece o (xor_piece o p0 t x) f pc) t tp t x).
          rewrite (xor_piece_swap (xor_piece o p0 t x) f pc t x), (xor_piece_twice p0).
          rewrite (xor_piece_swap (xor_piece o p0 f pc) t tp f pc), (xor_piece_twice p0).
          apply xor_piece_twice. }
        pose proof (f_equal (i_player_bb o) X) as X1. pose proof (f_equal (i_piece_bb o) X) as X2.
        autorewrite with fields in *. split; assumption.
    + injection Ec as <- _. cbn [bind].
      match goal with |- context [i_piece_at o ?a t] => replace (i_piece_at o a t) with (Some tp) end.
      2:{ unfold i_piece_at. autorewrite with fields.
          rewrite sa_get_set, sq_eqb_refl. reflexivity. }
      cbn [bind].
      match goal with |- context [decr16 _ ?a] => change a with n end.
      rewrite Ep. cbn [bind]. f_equal. transitivity (mkPos o p0 (p_states o p)); [f_equal|destruct p; reflexivity].
      apply inner_eq_eq. split; [reflexivity|]. split; [reflexivity|]. split; [reflexivity|]. split.
      * autorewrite with fields.
        apply sa_ext. intros u. rewrite !sa_get_set.
        destruct (sq_eqb_spec u t) as [->|]; [symmetry; exact Bt|].
        destruct (sq_eqb_spec u f) as [->|]; [symmetry; exact Bf|reflexivity].
      * assert (X : xor_piece o (xor_piece o (xor_piece o (xor_piece o p0 f pc) t tp) f pc) t tp = p0).
        { rewrite (xor_piece_swap (xor_piece o p0 f pc) t tp f pc), (xor_piece_twice p0).
          apply xor_piece_twice. }
        pose proof (f_equal (i_player_bb o) X) as X1. pose proof (f_equal (i_piece_bb o) X) as X2.
        autorewrite with fields in *. split; assumption.
  - specialize (Hd t x eq_refl). set (p0 := p_inner o p) in *. set (c := i_side o p0) in *.
    match type of D with context [hand_removed ?a _] => change a with (i_hand o p0 c) in D end.
    destruct (hand_removed (i_hand o p0 c) (pkind x)) as [h|] eqn:Eh; [cbn [bind] in D|discriminate].
    match type of D with context [hand_count ?a _] => destruct (hand_count a (pkind x)) as [hn|] end;
      [cbn [bind] in D|discriminate].
    destruct (z_hand (zt cf) c (pkind x) hn); [cbn [bind] in D|discriminate].
    match type of D with (let* n := ?a in _) = _ => destruct a as [n|] eqn:En end;
      [cbn [bind] in D|discriminate].
    injection D as <-.
    cbn [p_inner set_ply set_side i_side p_states tl].
    rewrite flip_flip.
    match goal with |- context [hand_added ?a (pkind x)] => replace a with h end.
    2:{ unfold i_hand. autorewrite with fields.
        rewrite c_get_set, color_eqb_refl. reflexivity. }
    rewrite (added_removed _ _ _ (Hh c (pkind x)) Eh). cbn [bind].
    match goal with |- context [decr16 _ ?a] => change a with n end.
    change (incr16 (cf_checks cf) (i_ply o p0) = Some n) in En.
    rewrite (decr_incr _ _ _ Hp En). cbn [bind]. f_equal.
    transitivity (mkPos o p0 (p_states o p)); [f_equal|destruct p; reflexivity].
    apply inner_eq_eq. split; [reflexivity|]. split; [reflexivity|]. split; [|split].
    + autorewrite with fields.
      apply c_ext. intros d. rewrite !c_get_set. unfold i_hand.
      destruct (color_eqb_spec d c) as [->|]; reflexivity.
    + autorewrite with fields.
      apply sa_ext. intros u. rewrite !sa_get_set.
      destruct (sq_eqb_spec u t) as [->|]; [symmetry; exact Hd|reflexivity].
    + assert (X : xor_piece o (xor_piece o p0 t x) t x = p0) by apply xor_piece_twice.
      pose proof (f_equal (i_player_bb o) X) as X1. pose proof (f_equal (i_piece_bb o) X) as X2.
        autorewrite with fields in *. split; assumption.
Qed.

(** ** The ranges of the machine integers *)

Definition typed (p : inner o) : Prop :=
  (i_ply o p <= 65535)%N /\ forall c k, (hand_n (i_hand o p c) k <= 255)%N.

Lemma incr16_le ck n n' : (n <= 65535)%N -> incr16 ck n = Some n' -> (n' <= 65535)%N.
Proof.
  unfold incr16. destruct (N.eqb_spec n 65535); [destruct ck; intros _ [=]; lia|]. intros L [= <-]. lia.
Qed.
Lemma decr16_le ck n n' : (n <= 65535)%N -> decr16 ck n = Some n' -> (n' <= 65535)%N.
Proof.
  unfold decr16. destruct (N.eqb_spec n 0); [destruct ck; intros _ [=]; lia|]. intros L [= <-]. lia.
Qed.
Lemma hand_n_set h k n k' : hand_count h k <> None ->
  hand_n (hand_set h k n) k' = if kind_eqb k' k then n else hand_n h k'.
Proof. intros H. unfold hand_n. rewrite hand_count_set by assumption. destruct (kind_eqb k' k); reflexivity. Qed.
Lemma added_le h k h' : (forall j, hand_n h j <= 255)%N -> hand_added h k = Some h' ->
  forall j, (hand_n h' j <= 255)%N.
Proof.
  intros H. unfold hand_added. destruct (hand_count h k) as [n|] eqn:E; [|discriminate].
  destruct (N.ltb_spec n 255); [|discriminate]. intros [= <-] j. rewrite hand_n_set by congruence.
  destruct (kind_eqb j k); [lia|apply H].
Qed.
Lemma removed_le h k h' : (forall j, hand_n h j <= 255)%N -> hand_removed h k = Some h' ->
  forall j, (hand_n h' j <= 255)%N.
Proof.
  intros H. unfold hand_removed. pose proof (H k) as Hk. unfold hand_n in Hk.
  destruct (hand_count h k) as [n|] eqn:E; [|discriminate].
  destruct (N.ltb_spec 0 n); [|discriminate]. intros [= <-] j. rewrite hand_n_set by congruence.
  destruct (kind_eqb j k); [lia|apply H].
Qed.

Lemma typed_same p q : i_ply o q = i_ply o p -> i_hands o q = i_hands o p -> typed p -> typed q.
Proof. intros E1 E2 [H1 H2]. unfold typed, i_hand. rewrite E1, E2. split; assumption. Qed.
Lemma typed_hand p q c h : i_ply o q = i_ply o p -> i_hands o q = c_set (i_hands o p) c h ->
  (forall j, (hand_n h j <= 255)%N) -> typed p -> typed q.
Proof.
  intros E1 E2 Hh [H1 H2]. unfold typed, i_hand. rewrite E1, E2. split; [assumption|].
  intros d k. rewrite c_get_set. destruct (color_eqb d c); [apply Hh|apply H2].
Qed.
Lemma typed_ply p n : (n <= 65535)%N -> typed p -> typed (set_ply o p n).
Proof. intros L [H1 H2]. split; assumption. Qed.

Lemma do_move_typed (p q : Yasai.Position cf) m : typed (p_inner o p) ->
  Yasai.do_move cf p m = Some q -> typed (p_inner o q).
Proof.
  intros T D. unfold Yasai.do_move, do_move in D.
  destruct (is_check_move o p m) as [ic|]; [cbn [bind] in D|discriminate].
  destruct (pos_state o p) as [st|] eqn:Est; [cbn [bind] in D|discriminate].
  destruct m as [f t pr|t x].
  - cbn [move_to] in D.
    destruct (i_piece_at o (p_inner o p) f) as [pc|] eqn:Bf; [cbn [bind] in D|discriminate].
    destruct (do_capture o (zt cf) (p_inner o p) (s_keys o st) (i_side o (p_inner o p)) t
      (i_piece_at o (p_inner o p) t)) as [[p1 ks]|] eqn:Ec; [cbn [bind fst snd] in D|discriminate].
    destruct (if pr then promote_piece pc else Some pc) as [tp|] eqn:Et; [cbn [bind] in D|discriminate].
    match type of D with (let* n := ?a in _) = _ => destruct a as [n|] eqn:En end;
      [cbn [bind] in D|discriminate].
    injection D as <-. cbn [p_inner].
    assert (T1 : typed p1).
    { unfold do_capture in Ec. destruct (i_piece_at o (p_inner o p) t) as [x|].
      - cbv zeta in Ec. set (pku := match unpromote_kind (pkind x) with Some k => k | None => pkind x end) in *.
        destruct (hand_count _ pku); [cbn [bind] in Ec|discriminate].
        destruct (z_hand (zt cf) _ pku n0); [cbn [bind] in Ec|discriminate].
        destruct (hand_added _ pku) as [h|] eqn:Eh; [cbn [bind] in Ec|discriminate].
        injection Ec as <- _. eapply (typed_hand (p_inner o p)); [reflexivity|reflexivity| |exact T].
        eapply added_le; [|exact Eh]. intros j. apply T.
      - injection Ec as <- _. exact T. }
    apply typed_ply.
    + eapply incr16_le; [|exact En]. apply T1.
    + apply (typed_same p1); [reflexivity|reflexivity|exact T1].
  - cbn [move_to] in D.
    match type of D with context [hand_removed ?a _] => change a with (i_hand o (p_inner o p) (i_side o (p_inner o p))) in D end.
    destruct (hand_removed _ (pkind x)) as [h|] eqn:Eh; [cbn [bind] in D|discriminate].
    match type of D with context [hand_count ?a _] => destruct (hand_count a (pkind x)) as [hn|] end;
      [cbn [bind] in D|discriminate].
    destruct (z_hand (zt cf) _ (pkind x) hn); [cbn [bind] in D|discriminate].
    match type of D with (let* n := ?a in _) = _ => destruct a as [n|] eqn:En end;
      [cbn [bind] in D|discriminate].
    injection D as <-. cbn [p_inner]. apply typed_ply.
    + eapply incr16_le; [|exact En]. apply T.
    + eapply (typed_hand (p_inner o p)); [reflexivity|reflexivity| |exact T].
      eapply removed_le; [|exact Eh]. intros j. apply T.
Qed.

Lemma undo_move_typed (p q : Yasai.Position cf) m : typed (p_inner o p) ->
  Yasai.undo_move cf p m = Some q -> typed (p_inner o q).
Proof.
  intros T D. unfold Yasai.undo_move, undo_move in D. destruct m as [f t pr|t x].
  - destruct (pos_state o p) as [st|] eqn:Est; [cbn [bind] in D|discriminate].
    destruct (s_last_moved o st) as [lm|]; [cbn [bind] in D|discriminate].
    match type of D with context [bind (match s_captured o st with Some _ => _ | None => _ end)] => idtac end.
    set (cap := match s_captured o st with
          | Some x => _ | None => _ end) in D.
    destruct cap as [p1|] eqn:Ec; [cbn [bind] in D|discriminate].
    destruct (i_piece_at o _ t) as [tg|]; [cbn [bind] in D|discriminate].
    match type of D with (let* n := ?a in _) = _ => destruct a as [n|] eqn:En end;
      [cbn [bind] in D|discriminate].
    injection D as <-. cbn [p_inner].
    assert (T1 : typed p1).
    { unfold cap in Ec. destruct (s_captured o st) as [x|].
      - cbv zeta in Ec. destruct (hand_removed _ _) as [h|] eqn:Eh; [cbn [bind] in Ec|discriminate].
        injection Ec as <-. eapply (typed_hand (p_inner o p)); [reflexivity|reflexivity| |exact T].
        eapply removed_le; [|exact Eh]. intros j. apply T.
      - injection Ec as <-. exact T. }
    apply typed_ply.
    + eapply decr16_le; [|exact En]. apply T1.
    + apply (typed_same p1); [reflexivity|reflexivity|exact T1].
  - destruct (hand_added _ (pkind x)) as [h|] eqn:Eh; [cbn [bind] in D|discriminate].
    match type of D with (let* n := ?a in _) = _ => destruct a as [n|] eqn:En end;
      [cbn [bind] in D|discriminate].
    injection D as <-. cbn [p_inner]. apply typed_ply.
    + eapply decr16_le; [|exact En]. apply T.
    + eapply (typed_hand (p_inner o p)); [reflexivity|reflexivity| |exact T].
      eapply added_le; [|exact Eh]. intros j. apply T.
Qed.

Lemma new_typed pp (p : Yasai.Position cf) : (pp_ply pp <= 65535)%N ->
  (forall c k, (hand_n (c_get (pp_hands pp) c) k <= 255)%N) ->
  Yasai.new cf pp = Some p -> typed (p_inner o p).
Proof.
  intros Hp Hh. unfold Yasai.new, pos_new.
  destruct (hand_keys _ _ _); [cbn [bind]|discriminate]. intros [= <-]. split; [exact Hp|exact Hh].
Qed.
End AnyMove.
