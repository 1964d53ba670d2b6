(** * What undo_move does with any argument: C56 of properties.jsonl *)

From Coq Require Import String List Bool NArith ZArith Lia.
From Verif Require Import Types Rules Bitboard BackendCore BackendSimd Tables Zobrist Position Movegen
  Api Sfen Squares BBSpec Backends Rep Drops Moves Hash Reach Decide Witness PropPlay PropInternal PropLimits.
Import ListNotations.

Local Opaque attack_info_new calculate_checkers.

(** ** Hands *)

Lemma hand_removed_none h k : hand_removed h k = None <-> hand_n h k = 0%N.
Proof.
  unfold hand_removed, hand_n. destruct (hand_count h k) as [n|]; [|tauto].
  destruct (N.ltb_spec 0 n); split; intros E; try discriminate; try reflexivity; lia.
Qed.
Lemma hand_removed_some h k h' : hand_removed h k = Some h' ->
  (0 < hand_n h k)%N /\ forall j, hand_n h' j = (if kind_eqb j k then hand_n h k - 1 else hand_n h j)%N.
Proof.
  intros E. assert (P : (0 < hand_n h k)%N).
  { destruct (N.eq_dec (hand_n h k) 0) as [Z|]; [|lia]. apply hand_removed_none in Z. congruence. }
  split; [exact P|]. pose proof (hand_n_kinds h k P) as K. intros j.
  unfold hand_removed in E. unfold hand_n in P |- * at 2.
  destruct (hand_count h k) as [n|]; [|discriminate]. destruct (0 <? n)%N; [|discriminate].
  injection E as <-. rewrite (hand_n_set h k (n - 1) j K). reflexivity.
Qed.
Lemma hand_added_none h k : hand_added h k = None <-> ~ In k hand_kinds \/ (255 <= hand_n h k)%N.
Proof.
  unfold hand_added, hand_n. split.
  - destruct (hand_count h k) as [n|] eqn:E.
    + destruct (N.ltb_spec n 255); [discriminate|]. tauto.
    + intros _. left. intros I. destruct k; cbn in I; try discriminate; intuition discriminate.
  - intros [N|L].
    + destruct k; cbn in N; try tauto; reflexivity.
    + destruct (hand_count h k) as [n|]; [|reflexivity]. destruct (N.ltb_spec n 255); [lia|reflexivity].
Qed.
Lemma hand_added_some h k h' : hand_added h k = Some h' ->
  In k hand_kinds /\ forall j, hand_n h' j = (if kind_eqb j k then hand_n h k + 1 else hand_n h j)%N.
Proof.
  intros E. assert (K : In k hand_kinds).
  { destruct (in_dec kind_dec k hand_kinds) as [I|N]; [exact I|].
    assert (hand_added h k = None) by (apply hand_added_none; tauto). congruence. }
  split; [exact K|]. intros j. unfold hand_added in E. unfold hand_n at 2.
  destruct (hand_count h k) as [n|]; [|discriminate]. destruct (n <? 255)%N; [|discriminate].
  injection E as <-. apply (hand_n_set h k (n + 1) j K).
Qed.

Lemma decr16_none ck n : decr16 ck n = None <-> ck = true /\ n = 0%N.
Proof.
  unfold decr16. destruct (N.eqb_spec n 0) as [->|N].
  - destruct ck; split; intros H; try discriminate; tauto || reflexivity || (destruct H; discriminate).
  - split; [discriminate|]. tauto.
Qed.

(** C56: exactly when undo_move panics, for every position value and every
    argument.  Only these things are looked at; nothing else is checked. *)
Theorem C56_undo_refused_exactly cf p m :
  Yasai.undo_move cf p m = None <->
  match m with
  | Normal _ t _ =>
      (* the history is empty or the last state is the initial one *)
      (forall x, Yasai.last_moved cf p <> Some (Some x)) \/
      (* the captured piece is not in the hand of the side that moved last *)
      (exists x, Yasai.captured cf p = Some (Some x) /\
         hand_n (Yasai.hand cf p (flip (Yasai.side_to_move cf p))) (base_kind (pkind x)) = 0%N) \/
      Yasai.piece_at cf p t = None
  | Drop _ x =>
      ~ In (pkind x) hand_kinds \/
      (255 <= hand_n (Yasai.hand cf p (flip (Yasai.side_to_move cf p))) (pkind x))%N
  end \/
  (cf_checks cf = true /\ Yasai.ply cf p = 0%N).
Proof.
  rewrite <- (decr16_none (cf_checks cf)).
  unfold Yasai.undo_move, undo_move, Yasai.last_moved, Yasai.captured, Yasai.hand, Yasai.side_to_move,
    Yasai.piece_at, Yasai.ply, hand_of, side_to_move, piece_at, ply.
  cbv zeta. set (c := flip (i_side (ops cf) (p_inner (ops cf) p))).
  destruct m as [f t pr|t x].
  - destruct (pos_state (ops cf) p) as [st|]; cbn [bind].
    2:{ split; [|reflexivity]. intros _. left. left. discriminate. }
    destruct (s_last_moved (ops cf) st) as [y|]; cbn [bind].
    2:{ split; [|reflexivity]. intros _. left. left. discriminate. }
    destruct (s_captured (ops cf) st) as [x|].
    + fold (base_kind (pkind x)).
      change (i_hand (ops cf) (xor_piece (ops cf) (p_inner (ops cf) p) t x) c)
        with (i_hand (ops cf) (p_inner (ops cf) p) c).
      destruct (hand_removed (i_hand (ops cf) (p_inner (ops cf) p) c) (base_kind (pkind x))) as [h|] eqn:Eh;
        cbn [bind].
      * change (i_piece_at (ops cf)
          (xor_piece (ops cf) (set_hand (ops cf) (xor_piece (ops cf) (p_inner (ops cf) p) t x) c h) f y) t)
          with (i_piece_at (ops cf) (p_inner (ops cf) p) t).
        destruct (i_piece_at (ops cf) (p_inner (ops cf) p) t) as [w|]; cbn [bind].
        -- cbn [set_side set_piece_at xor_piece set_hand i_ply].
           destruct (decr16 (cf_checks cf) _); cbn [bind]; split; intros H0; try discriminate; try reflexivity; try (right; reflexivity);
          revert H0.
           intros [[H|[[z [Ez H]]|H]]|H].
           ++ exfalso. exact (H y eq_refl).
           ++ injection Ez as <-. apply hand_removed_none in H. congruence.
           ++ discriminate.
           ++ discriminate.
        -- tauto.
      * split; [|reflexivity]. intros _. left. right. left. exists x. split; [reflexivity|].
        apply hand_removed_none. exact Eh.
    + cbn [bind]. change (i_piece_at (ops cf) (xor_piece (ops cf) (p_inner (ops cf) p) f y) t)
        with (i_piece_at (ops cf) (p_inner (ops cf) p) t).
      destruct (i_piece_at (ops cf) (p_inner (ops cf) p) t) as [w|]; cbn [bind].
      * cbn [set_side set_piece_at xor_piece set_hand i_ply].
        destruct (decr16 (cf_checks cf) _); cbn [bind]; split; intros H0; try discriminate; try reflexivity; try (right; reflexivity);
          revert H0.
        intros [[H|[[z [Ez H]]|H]]|H]; [|discriminate..]. exfalso. exact (H y eq_refl).
      * tauto.
  - change (i_hand (ops cf) (set_piece_at (ops cf) (xor_piece (ops cf) (p_inner (ops cf) p) t x) t None) c)
      with (i_hand (ops cf) (p_inner (ops cf) p) c).
    destruct (hand_added (i_hand (ops cf) (p_inner (ops cf) p) c) (pkind x)) as [h|] eqn:Eh; cbn [bind].
    + cbn [set_side set_piece_at xor_piece set_hand i_ply].
      destruct (decr16 (cf_checks cf) _); cbn [bind]; split; intros H0; try discriminate; try reflexivity; try (right; reflexivity);
          revert H0.
      intros [H|H]; [|discriminate]. apply hand_added_none in H. congruence.
    + split; [|reflexivity]. intros _. left. apply hand_added_none. exact Eh.
Qed.
Print Assumptions C56_undo_refused_exactly.

(** and what it leaves when it returns *)
Theorem C56_undo_effect cf p m q :
  Yasai.undo_move cf p m = Some q ->
  let c := flip (Yasai.side_to_move cf p) in
  Yasai.side_to_move cf q = c /\
  Yasai.ply cf q = (if Yasai.ply cf p =? 0 then 65535 else Yasai.ply cf p - 1)%N /\
  p_states _ q = tl (p_states _ p) /\
  (forall k, hand_n (Yasai.hand cf q (flip c)) k = hand_n (Yasai.hand cf p (flip c)) k) /\
  match m with
  | Normal f t _ => exists y x, Yasai.last_moved cf p = Some (Some y) /\ Yasai.captured cf p = Some x /\
      (forall s, Yasai.piece_at cf q s =
         if sq_eqb s t then x else if sq_eqb s f then Some y else Yasai.piece_at cf p s) /\
      forall k, hand_n (Yasai.hand cf q c) k =
        match x with
        | Some z => if kind_eqb k (base_kind (pkind z)) then hand_n (Yasai.hand cf p c) k - 1
                    else hand_n (Yasai.hand cf p c) k
        | None => hand_n (Yasai.hand cf p c) k
        end%N
  | Drop t x =>
      (forall s, Yasai.piece_at cf q s = if sq_eqb s t then None else Yasai.piece_at cf p s) /\
      forall k, hand_n (Yasai.hand cf q c) k =
        (if kind_eqb k (pkind x) then hand_n (Yasai.hand cf p c) k + 1 else hand_n (Yasai.hand cf p c) k)%N
  end.
Proof.
  intros E c. unfold Yasai.undo_move, undo_move in E. cbv zeta in E.
  unfold Yasai.last_moved, Yasai.captured.
  change (flip (i_side (ops cf) (p_inner (ops cf) p))) with c in E.
  assert (Dec : forall n r, decr16 (cf_checks cf) n = Some r -> r = (if n =? 0 then 65535 else n - 1)%N).
  { intros n r. unfold decr16. destruct (n =? 0)%N; [destruct (cf_checks cf); [discriminate|]|]; congruence. }
  assert (Fc : color_eqb (flip c) c = false) by (destruct c; reflexivity).
  assert (Cc : color_eqb c c = true) by (destruct c; reflexivity).
  destruct m as [f t pr|t x].
  - destruct (pos_state (ops cf) p) as [st|]; cbn [bind] in E |- *; [|discriminate].
    destruct (s_last_moved (ops cf) st) as [y|]; cbn [bind] in E; [|discriminate].
    destruct (s_captured (ops cf) st) as [x|].
    + fold (base_kind (pkind x)) in E.
      change (i_hand (ops cf) (xor_piece (ops cf) (p_inner (ops cf) p) t x) c)
        with (i_hand (ops cf) (p_inner (ops cf) p) c) in E.
      destruct (hand_removed (i_hand (ops cf) (p_inner (ops cf) p) c) (base_kind (pkind x))) as [h|] eqn:Eh;
        cbn [bind] in E; [|discriminate].
      destruct (i_piece_at (ops cf) _ t) as [w|] in E; cbn [bind] in E; [|discriminate].
      cbn [set_side set_piece_at xor_piece set_hand i_ply] in E.
      destruct (decr16 (cf_checks cf) _) as [n|] eqn:En in E; cbn [bind] in E; [|discriminate].
      injection E as <-. apply hand_removed_some in Eh as [_ Eh].
      split; [reflexivity|]. split; [exact (Dec _ _ En)|]. split; [reflexivity|].
      unfold Yasai.hand, hand_of, i_hand, Yasai.piece_at, piece_at, i_piece_at.
      cbn [p_inner set_ply set_side set_hand set_piece_at xor_piece i_hands i_board]. split.
      * intros k. rewrite c_get_set, Fc. reflexivity.
      * exists y, (Some x). split; [reflexivity|]. split; [reflexivity|]. split.
        -- intros s. rewrite !sa_get_set. reflexivity.
        -- intros k. rewrite c_get_set, Cc, Eh. destruct (kind_eqb_spec k (base_kind (pkind x))) as [->|]; reflexivity.
    + cbn [bind] in E. destruct (i_piece_at (ops cf) _ t) as [w|] in E; cbn [bind] in E; [|discriminate].
      cbn [set_side set_piece_at xor_piece set_hand i_ply] in E.
      destruct (decr16 (cf_checks cf) _) as [n|] eqn:En in E; cbn [bind] in E; [|discriminate].
      injection E as <-.
      split; [reflexivity|]. split; [exact (Dec _ _ En)|]. split; [reflexivity|].
      split; [reflexivity|]. exists y, None. split; [reflexivity|]. split; [reflexivity|]. split.
      * intros s. unfold Yasai.piece_at, piece_at, i_piece_at. cbn [p_inner set_ply set_side set_hand set_piece_at xor_piece i_hands i_board].
        rewrite !sa_get_set. reflexivity.
      * reflexivity.
  - change (i_hand (ops cf) (set_piece_at (ops cf) (xor_piece (ops cf) (p_inner (ops cf) p) t x) t None) c)
      with (i_hand (ops cf) (p_inner (ops cf) p) c) in E.
    destruct (hand_added (i_hand (ops cf) (p_inner (ops cf) p) c) (pkind x)) as [h|] eqn:Eh; cbn [bind] in E;
      [|discriminate].
    cbn [set_side set_piece_at xor_piece set_hand i_ply] in E.
    destruct (decr16 (cf_checks cf) _) as [n|] eqn:En in E; cbn [bind] in E; [|discriminate].
    injection E as <-. apply hand_added_some in Eh as [_ Eh].
    split; [reflexivity|]. split; [exact (Dec _ _ En)|]. split; [reflexivity|].
    unfold Yasai.hand, hand_of, i_hand, Yasai.piece_at, piece_at, i_piece_at.
    cbn [p_inner set_ply set_side set_hand set_piece_at xor_piece i_hands i_board]. split; [|split].
    + intros k. rewrite c_get_set, Fc. reflexivity.
    + intros s. rewrite sa_get_set. reflexivity.
    + intros k. rewrite c_get_set, Cc, Eh. destruct (kind_eqb_spec k (pkind x)) as [->|]; reflexivity.
Qed.
Print Assumptions C56_undo_effect.

(** At the start of the history every board move is refused; undoing a drop there
    leaves a position on which every query of the history panics. *)
Theorem C56_undo_at_start cf pp p : Yasai.new cf pp = Some p ->
  (forall f t pr, Yasai.undo_move cf p (Normal f t pr) = None) /\
  (forall t x q, Yasai.undo_move cf p (Drop t x) = Some q ->
     Yasai.keys cf q = None /\ Yasai.key cf q = None /\ Yasai.in_check cf q = None /\
     Yasai.legal_moves cf q = None /\ Yasai.captured cf q = None /\
     (forall m, Yasai.is_check_move cf q m = None) /\ (forall m, Yasai.do_move cf q m = None) /\
     (forall f t pr, Yasai.undo_move cf q (Normal f t pr) = None)).
Proof.
  intros N. rewrite (new_some cf pp (new_fit cf pp p N)) in N. injection N as <-. split.
  - intros f t pr. apply C56_undo_refused_exactly. left. left. discriminate.
  - intros t x q E. apply C56_undo_effect in E as [_ [_ [E _]]]. cbn [p_states tl] in E.
    assert (St : pos_state (ops cf) q = None) by (unfold pos_state; rewrite E; reflexivity).
    unfold Yasai.keys, pos_keys, Yasai.key, pos_key, pos_keys, Yasai.in_check, pos_in_check,
      Yasai.legal_moves, legal_moves, Yasai.captured.
    rewrite St. cbn [bind]. repeat (split; [reflexivity|]).
    assert (Ic : forall m, Yasai.is_check_move cf q m = None).
    { intros m. unfold Yasai.is_check_move, is_check_move. rewrite St. reflexivity. }
    split; [exact Ic|]. split.
    + intros m. unfold Yasai.do_move, do_move. change (is_check_move (ops cf) q m) with (Yasai.is_check_move cf q m).
      rewrite Ic. reflexivity.
    + intros f u pr. apply C56_undo_refused_exactly. left. left. unfold Yasai.last_moved. rewrite St. discriminate.
Qed.
Print Assumptions C56_undo_at_start.

(** undo_move does not check that its argument is the last move: after 7g-7f the
    call for a move from 5e to 7f puts the pawn on 5e *)
Definition wrong_undo : move := mv (n5, n5) (n7, n6) false.
Theorem C56_undo_validates_refuted cf : exists p q r m,
  reachable cf [] p /\ legal (view cf p) m /\ Yasai.do_move cf p m = Some q /\ m <> wrong_undo /\
  Yasai.undo_move cf q wrong_undo = Some r /\
  Yasai.piece_at cf r (Sq n5 n5) = Some (mkP Pawn Black) /\ Yasai.piece_at cf p (Sq n5 n5) = None.
Proof.
  destruct (demo_new cf startpos startpos_ok) as [p [l [_ [R [G [Y _]]]]]].
  set (m := mv (n7, n7) (n7, n6) false).
  assert (M : standard_material (view cf p)) by (rewrite G; apply standardb_spec; vm_compute; reflexivity).
  assert (L : legal (view cf p) m) by (rewrite G; apply legalb_spec; vm_compute; reflexivity).
  assert (Yp : Yasai.ply cf p = 1%N) by (rewrite Y; reflexivity).
  destruct (Yasai.do_move cf p m) as [q|] eqn:D.
  2:{ apply (api_do_total cf [] p m R M L) in D as [_ D]. rewrite Yp in D. discriminate. }
  destruct (api_do_move cf [] p m q R L D) as [B _].
  destruct (C45_undo_data cf [] p m q R L D) as [Ec El].
  destruct (C28_turn_and_ply cf [] p m q R L D) as [_ Yq]. rewrite Yp in Yq.
  assert (Bp : forall s, Yasai.piece_at cf p s = startpos_at s).
  { intros s. change (Yasai.piece_at cf p s) with (g_board (view cf p) s). rewrite G.
    destruct s as [[] []]; reflexivity. }
  rewrite Bp in Ec, El.
  destruct (Yasai.undo_move cf q wrong_undo) as [r|] eqn:E.
  - exists p, q, r, m. split; [exact R|]. split; [exact L|]. split; [exact D|].
    split; [discriminate|]. split; [exact E|]. split; [|rewrite Bp; reflexivity].
    apply C56_undo_effect in E as [_ [_ [_ [_ [y [x [E1 [_ [E2 _]]]]]]]]]. rewrite E2.
    rewrite El in E1. injection E1 as <-. reflexivity.
  - exfalso. apply C56_undo_refused_exactly in E as [[E|[[x [E _]]|E]]|[_ E]].
    + rewrite El in E. exact (E _ eq_refl).
    + rewrite Ec in E. discriminate.
    + assert (Bq : Yasai.piece_at cf q (Sq n7 n6) = g_board (play (view cf p) m) (Sq n7 n6)) by apply B.
      change (Yasai.piece_at cf q (Sq n7 n6) = None) in E. rewrite Bq, G in E. vm_compute in E. discriminate.
    + rewrite Yq in E. discriminate.
Qed.
Print Assumptions C56_undo_validates_refuted.

(* a reachable position and an argument that is refused for each of the reasons *)
Example C56_example cf : exists p q,
  reachable cf (rev opening2) p /\ Yasai.do_move cf p bishop_takes = Some q /\
  (* an empty square *)
  Yasai.undo_move cf q (mv (n8, n8) (n5, n5) true) = None /\
  (* a king cannot be in hand *)
  Yasai.undo_move cf q (dr (n2, n2) King Black) = None /\
  Yasai.undo_move cf q bishop_takes = Some p.
Proof.
  destruct (demo_step cf startpos opening2 bishop_takes opening3_ok) as [p [q [R [_ [L [D [_ [B _]]]]]]]].
  exists p, q. split; [exact R|]. split; [exact D|]. split; [|split].
  - apply C56_undo_refused_exactly. left. right. right.
    change (Yasai.piece_at cf q) with (g_board (view cf q)). rewrite B. vm_compute. reflexivity.
  - apply C56_undo_refused_exactly. left. left. cbn. intuition discriminate.
  - exact (C10_undo_inverts_do cf _ p _ q R L D).
Qed.
