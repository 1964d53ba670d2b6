(** * The code of Source.v computes the functions of the model *)

From Coq Require Import List Bool NArith ZArith Lia.
From Verif Require Import Types Bitboard Tables Zobrist Position Movegen Init Lazy Statics Flat Source.
Import ListNotations.

Section SourceSpec.
Context (o : bbops) (checks : bool) (z : ztable) (val : forall c, cty o c).
Hypothesis HA : forall k s c occ, table_attack o (val CAttack) k s c occ = Some (attack o k s c occ).
Hypothesis HP : forall k s c, table_pseudo_attack o (val CAttack) k s c = Some (pseudo_attack o k s c).
Hypothesis HB : forall s t, between_table_get o (val CBetween) s t = Some (BETWEEN_TABLE o s t).
Hypothesis HR : forall s c, by_square_color (val CRanks) s c = Some (RELATIVE_RANKS s c).
Hypothesis HM : forall s c, by_square_color (val CPromotable) s c = Some (PROMOTABLE s c).
Hypothesis HF : forall f, arr_get (val CFiles) (Z.to_N (i9Z f)) = Some (FILES o f).
Hypothesis HZ : forall s p, za_board_get (val CZobrist) s p = Some (z_board z s p).
Hypothesis HH : forall c k n, za_hand_get (val CZobrist) c k n = z_hand z c k n.

Notation D := (den (cty o) val).
Notation BB := (bb o).

Lemma d_bind {A B} (p : prog (cty o) A) (f : A -> prog (cty o) B) :
  D (pbind (cty o) p f) = let* a := D p in D (f a).
Proof. apply den_bind. Qed.
Lemma d_ret {A} (a : A) : D (PRet (cty o) _ a) = Some a.
Proof. reflexivity. Qed.
Lemma d_ck {A} (x : option A) : D (ck o x) = x.
Proof. apply den_lift. Qed.
Lemma d_for {A T} (l : list A) (body : A -> T -> prog (cty o) T) t :
  D (pfor (cty o) l body t) = for_each l (fun x t => D (body x t)) t.
Proof. apply den_for. Qed.
Lemma d_and a b : D (and_ o a b) = let* x := D a in let* y := D b in Some (band o x y).
Proof. unfold and_. rewrite d_bind. destruct (D a); cbn [bind]; [|reflexivity]. now rewrite d_bind. Qed.
Lemma d_or a b : D (or_ o a b) = let* x := D a in let* y := D b in Some (bor o x y).
Proof. unfold or_. rewrite d_bind. destruct (D a); cbn [bind]; [|reflexivity]. now rewrite d_bind. Qed.
Lemma d_not a : D (not_ o a) = let* x := D a in Some (bnot o x).
Proof. unfold not_. now rewrite d_bind. Qed.

Lemma d_fu s c : D (s_fu o s c) = Some (fu_attack o s c).
Proof. unfold s_fu. cbn [den]. rewrite d_ck. exact (HA Pawn s c (bempty o)). Qed.
Lemma d_ky s c occ : D (s_ky o s c occ) = Some (ky_attack o s c occ).
Proof. unfold s_ky. cbn [den]. rewrite d_ck. exact (HA Lance s c occ). Qed.
Lemma d_ke s c : D (s_ke o s c) = Some (ke_attack o s c).
Proof. unfold s_ke. cbn [den]. rewrite d_ck. exact (HA Knight s c (bempty o)). Qed.
Lemma d_gi s c : D (s_gi o s c) = Some (gi_attack o s c).
Proof. unfold s_gi. cbn [den]. rewrite d_ck. exact (HA Silver s c (bempty o)). Qed.
Lemma d_ka s occ : D (s_ka o s occ) = Some (ka_attack o s occ).
Proof. unfold s_ka. cbn [den]. rewrite d_ck. exact (HA Bishop s Black occ). Qed.
Lemma d_hi s occ : D (s_hi o s occ) = Some (hi_attack o s occ).
Proof. unfold s_hi. cbn [den]. rewrite d_ck. exact (HA Rook s Black occ). Qed.
Lemma d_ki s c : D (s_ki o s c) = Some (ki_attack o s c).
Proof. unfold s_ki. cbn [den]. rewrite d_ck. exact (HA Gold s c (bempty o)). Qed.
Lemma d_ou s c : D (s_ou o s c) = Some (ou_attack o s c).
Proof. unfold s_ou. cbn [den]. rewrite d_ck. exact (HA King s c (bempty o)). Qed.
Lemma d_pseudo k s c : D (s_pseudo o k s c) = Some (pseudo_attack o k s c).
Proof. unfold s_pseudo. cbn [den]. rewrite d_ck. apply HP. Qed.
Lemma d_between s t : D (s_between o s t) = Some (BETWEEN_TABLE o s t).
Proof. unfold s_between. cbn [den]. rewrite d_ck. apply HB. Qed.
Lemma d_rank s c : D (s_rank o s c) = Some (RELATIVE_RANKS s c).
Proof. unfold s_rank. cbn [den]. rewrite d_ck. apply HR. Qed.
Lemma d_promotable s c : D (s_promotable o s c) = Some (PROMOTABLE s c).
Proof. unfold s_promotable. cbn [den]. rewrite d_ck. apply HM. Qed.
Lemma d_files f : D (s_files o f) = Some (FILES o f).
Proof. unfold s_files. cbn [den]. rewrite d_ck. apply HF. Qed.
Lemma d_zboard s x : D (s_zboard o s x) = Some (z_board z s x).
Proof. unfold s_zboard. cbn [den]. rewrite d_ck. apply HZ. Qed.
Lemma d_zhand c k n : D (s_zhand o c k n) = z_hand z c k n.
Proof. unfold s_zhand. cbn [den]. rewrite d_ck. apply HH. Qed.

Lemma d_stays k f t : D (s_stays o k f t) = Some (stays_on_line o k f t).
Proof.
  unfold s_stays, stays_on_line. rewrite d_bind, d_between. cbn [bind].
  destruct (bcontains o (BETWEEN_TABLE o k f) t); [reflexivity|].
  rewrite d_bind, d_between. reflexivity.
Qed.

Local Opaque BETWEEN_TABLE PROMOTABLE RELATIVE_RANKS FILES.

(* evaluate lookups *)
Ltac ev := repeat first
  [ rewrite d_bind | rewrite d_ret | rewrite d_and | rewrite d_or | rewrite d_not
  | rewrite d_fu | rewrite d_ky | rewrite d_ke | rewrite d_gi | rewrite d_ka | rewrite d_hi
  | rewrite d_ki | rewrite d_ou | rewrite d_pseudo | rewrite d_between | rewrite d_rank
  | rewrite d_promotable | rewrite d_files | rewrite d_zboard | rewrite d_zhand | rewrite d_stays
  | rewrite d_ck | rewrite enc_piece | rewrite enc_player | rewrite enc_king | rewrite enc_occ
  | rewrite enc_at | rewrite enc_hand | progress cbn [bind] ].

(** ** src/position.rs *)

Lemma d_pinned_step p c v :
  D (s_pinned_step o (enc_inner o p) (occupied o p) c v) = f_pinned_step o (enc_inner o p) (occupied o p) c v.
Proof.
  unfold s_pinned_step, f_pinned_step. ev.
  destruct (king_position o p c) as [sq|]; [|reflexivity]. ev. rewrite d_for.
  apply for_each_ext. intros sn pn. ev. cbv zeta.
  destruct (_ =? 1)%N; ev; reflexivity.
Qed.

Lemma d_info_new b p : D (s_info_new o b (enc_inner o p)) = Some (enc_info o (attack_info_new o b p)).
Proof.
  rewrite <- enc_info_new. unfold s_info_new, f_info_new. ev. rewrite d_for. unfold f_pinned. ev.
  rewrite (for_each_ext _ (f_pinned_step o (enc_inner o p) (occupied o p))) by (intros; apply d_pinned_step).
  destruct (for_each all_colors _ _); cbn [bind]; [|reflexivity]. ev.
  destruct (king_position o p _) as [sq|]; [|reflexivity]. ev. reflexivity.
Qed.

Lemma d_checkers_of p : D (s_checkers_of o (enc_inner o p)) = Some (calculate_checkers o p).
Proof.
  rewrite <- enc_checkers. unfold s_checkers_of, f_checkers. ev. cbn [f_side enc_inner].
  change (mkFI o _ _ _ _ _ _) with (enc_inner o p).
  destruct (king_position o p _) as [sq|]; [|reflexivity]. ev. reflexivity.
Qed.

Lemma d_hand_loop c k n : forall i acc, D (s_hand_loop o c k i n acc) = hand_keys_loop z c k i n acc.
Proof.
  induction n as [|n IH]; intros i acc; cbn [s_hand_loop hand_keys_loop]; [reflexivity|]. ev.
  destruct (z_hand z c k i); cbn [bind]; [apply IH|reflexivity].
Qed.

Theorem d_new pp : D (s_new o pp) = option_map (enc o) (pos_new o z pp).
Proof.
  rewrite <- enc_new. unfold s_new, f_new. rewrite d_bind, d_ck. rewrite enc_from. cbn [bind].
  set (p := inner_of_partial o pp). clearbody p.
  rewrite d_bind, d_for.
  replace (for_each all_squares _ KEY_ZERO) with (f_board_keys o z (enc_inner o p)).
  2:{ unfold f_board_keys. apply for_each_ext. intros s acc. ev. destruct (i_piece_at o p s); ev; reflexivity. }
  rewrite enc_board_keys. cbn [bind]. rewrite d_bind, d_for.
  replace (for_each all_colors _ KEY_ZERO) with (f_hand_keys o z (enc_inner o p)).
  2:{ unfold f_hand_keys. apply for_each_ext. intros c acc. rewrite d_for. apply for_each_ext. intros k acc'. ev.
      destruct (hand_count _ k); [symmetry; apply d_hand_loop|reflexivity]. }
  rewrite enc_hand_keys. destruct (hand_keys o z p); cbn [bind]; [|reflexivity].
  rewrite d_bind, d_checkers_of. cbn [bind]. rewrite d_bind, d_info_new. cbn [bind].
  rewrite enc_checkers. cbn [bind]. rewrite enc_info_new. reflexivity.
Qed.

Lemma d_info p : D (s_info o (enc o p)) = option_map (fun st => enc_info o (s_attack_info o st)) (pos_state o p).
Proof. unfold s_info. ev. rewrite enc_last. destruct (pos_state o p); reflexivity. Qed.
Lemma d_checkers p : D (s_checkers o (enc o p)) = option_map (fun st => ai_checkers o (s_attack_info o st)) (pos_state o p).
Proof. unfold s_checkers. rewrite d_bind, d_info. destruct (pos_state o p); reflexivity. Qed.
Lemma d_pinned p c : D (s_pinned o (enc o p) c) = option_map (fun st => ai_pinned_of o (s_attack_info o st) c) (pos_state o p).
Proof.
  unfold s_pinned. rewrite d_bind, d_info. destruct (pos_state o p); cbn [bind option_map]; [|reflexivity].
  rewrite d_ck. apply enc_pinned_of.
Qed.
Lemma d_checkable p k s : D (s_checkable o (enc o p) k s) =
  option_map (fun st => ai_checkable o (s_attack_info o st) k s) (pos_state o p).
Proof.
  unfold s_checkable. rewrite d_bind, d_info. destruct (pos_state o p); cbn [bind option_map]; [|reflexivity].
  rewrite d_ck. apply enc_checkable.
Qed.
Theorem d_in_check p : D (s_in_check o (enc o p)) = pos_in_check o p.
Proof. unfold s_in_check. rewrite d_bind, d_checkers. unfold pos_in_check. destruct (pos_state o p); reflexivity. Qed.
Theorem d_is_check p m : D (s_is_check_move o (enc o p) m) = is_check_move o p m.
Proof.
  unfold s_is_check_move, is_check_move. destruct m as [f t pr|t x].
  - cbn [fp_inner enc]. ev. change (mkFP o _ _) with (enc o p).
    destruct (pos_state o p) as [st|] eqn:E; cbn [bind].
    2:{ destruct (i_piece_at o (p_inner o p) f); cbn [bind]; [|reflexivity]. ev. rewrite d_checkable, E. reflexivity. }
    destruct (i_piece_at o (p_inner o p) f) as [y|]; cbn [bind]; [|reflexivity].
    rewrite d_bind, d_checkable, E. cbn [option_map bind].
    destruct (ai_checkable o (s_attack_info o st) _ t); [reflexivity|].
    rewrite d_bind, d_pinned, E. cbn [option_map bind f_side enc_inner].
    change (mkFI o _ _ _ _ _ _) with (enc_inner o (p_inner o p)).
    destruct (bcontains o _ f); [|reflexivity]. ev.
    destruct (king_position o (p_inner o p) _); cbn [bind]; [|reflexivity]. ev. reflexivity.
  - rewrite d_checkable. destruct (pos_state o p); reflexivity.
Qed.

Theorem d_do_move p m : D (s_do_move o checks (enc o p) m) = option_map (enc o) (do_move o z checks p m).
Proof.
  rewrite <- enc_do_move. unfold s_do_move, f_do_move. rewrite d_bind, d_is_check, enc_is_check.
  destruct (is_check_move o p m) as [ic|]; cbn [bind]; [|reflexivity].
  cbn [fp_inner enc]. rewrite d_bind, d_ck, enc_at. cbn [bind]. rewrite d_bind, d_ck.
  change (mkFP o (enc_inner o (p_inner o p)) _) with (enc o p). rewrite enc_last.
  destruct (pos_state o p) as [st|]; cbn [bind option_map]; [|reflexivity].
  cbn [f_side enc_inner]. change (mkFI o _ _ _ _ _ _) with (enc_inner o (p_inner o p)).
  rewrite d_bind.
  match goal with |- bind (D ?a) _ = bind ?b _ => assert (E : D a = b) end.
  - destruct m as [f t pr|t x].
    + ev. destruct (i_piece_at o (p_inner o p) f) as [y|]; cbn [bind]; [|reflexivity].
      rewrite d_bind.
      match goal with |- bind (D ?a) _ = bind ?b _ => replace (D a) with b end.
      2:{ unfold f_capture. cbn [move_to]. destruct (i_piece_at o (p_inner o p) t) as [x|]; [|reflexivity]. ev.
          destruct (hand_count _ _); cbn [bind]; [|reflexivity]. ev.
          destruct (z_hand z _ _ _); cbn [bind]; [|reflexivity]. ev.
          rewrite enc_xor. cbn [bind]. ev.
          destruct (hand_added _ _); cbn [bind]; [|reflexivity]. ev.
          rewrite enc_set_hand. reflexivity. }
      rewrite enc_capture. cbn [move_to].
      destruct (do_capture o z _ _ _ _ _) as [[q ks]|]; cbn [bind option_map fst snd]; [|reflexivity].
      rewrite d_bind, d_ck.
      destruct (if pr then promote_piece y else Some y) as [y'|]; cbn [bind]; [|reflexivity].
      rewrite d_bind, d_ck, enc_xor. cbn [bind]. rewrite d_bind, d_ck, enc_xor. cbn [bind].
      rewrite d_bind, d_ck, enc_set_at. cbn [bind]. rewrite d_bind, d_ck, enc_set_at. cbn [bind].
      rewrite enc_set_side. ev.
      destruct ic; [rewrite d_checkers_of, enc_checkers|]; reflexivity.
    + rewrite d_bind, d_ck, enc_xor. cbn [bind]. rewrite d_bind, d_ck, enc_set_at. cbn [bind].
      rewrite d_bind, d_ck, enc_hand. cbn [bind]. rewrite d_bind, d_ck.
      destruct (hand_removed _ _); cbn [bind]; [|reflexivity].
      rewrite d_bind, d_ck, enc_set_hand. cbn [bind]. rewrite enc_set_side. ev.
      destruct (hand_count _ _); cbn [bind]; [|reflexivity]. ev.
      destruct (z_hand z _ _ _); cbn [bind]; [|reflexivity]. ev. reflexivity.
  - rewrite E. clear E.
    match goal with |- bind ?b _ = _ => destruct b as [[[[q ks] lm] chs]|] eqn:Q; cbn [bind]; [|reflexivity] end.
    rewrite d_bind, d_ck. destruct (incr16 checks (f_ply o q)) as [n|]; cbn [bind]; [|reflexivity].
    rewrite d_bind.
    assert (Enc : exists q', q = enc_inner o q').
    { clear -Q. destruct m as [f t pr|t x].
      - rewrite enc_at in Q. cbn [bind] in Q.
        destruct (i_piece_at o (p_inner o p) f) as [y|]; cbn [bind] in Q; [|discriminate].
        rewrite enc_capture in Q.
        destruct (do_capture o z _ _ _ _ _) as [[q' ks']|]; cbn [bind option_map fst snd] in Q; [|discriminate].
        destruct (if pr then promote_piece y else Some y) as [y'|]; cbn [bind] in Q; [|discriminate].
        rewrite enc_xor in Q. cbn [bind] in Q. rewrite enc_xor in Q. cbn [bind] in Q.
        rewrite enc_set_at in Q. cbn [bind] in Q. rewrite enc_set_at in Q. cbn [bind] in Q.
        rewrite enc_set_side in Q.
        destruct ic; [rewrite enc_checkers in Q|]; cbn [bind] in Q; injection Q as <- _ _ _; eexists; reflexivity.
      - rewrite enc_xor in Q. cbn [bind] in Q. rewrite enc_set_at in Q. cbn [bind] in Q.
        rewrite enc_hand in Q. cbn [bind] in Q. destruct (hand_removed _ _); cbn [bind] in Q; [|discriminate].
        rewrite enc_set_hand in Q. cbn [bind] in Q. rewrite enc_set_side, enc_hand in Q. cbn [bind] in Q.
        destruct (hand_count _ _); cbn [bind] in Q; [|discriminate].
        destruct (z_hand z _ _ _); cbn [bind] in Q; [|discriminate].
        injection Q as <- _ _ _. eexists; reflexivity. }
    destruct Enc as [q' ->]. rewrite enc_set_ply, d_info_new, enc_info_new. reflexivity.
Qed.

Theorem d_undo_move p m : D (s_undo_move o checks (enc o p) m) = option_map (enc o) (undo_move o checks p m).
Proof. unfold s_undo_move. rewrite d_ck. apply enc_undo_move. Qed.

(** ** src/movegen.rs *)

Definition pushes (av ms : list move) : option (list move) := for_each ms (fun m av => av_push av m) av.

Lemma push_all_pushes ms : push_all ms = pushes [] ms.
Proof. unfold push_all, pushes. symmetry. apply for_each_fold. Qed.
Lemma pushes_app av l1 l2 : pushes av (l1 ++ l2) = let* av := pushes av l1 in pushes av l2.
Proof. apply for_each_app. Qed.
Lemma pushes_cons av m l : pushes av (m :: l) = let* av := av_push av m in pushes av l.
Proof. reflexivity. Qed.
Lemma pushes_one av m : pushes av [m] = av_push av m.
Proof. cbn. now destruct (av_push av m). Qed.

(* a loop that pushes the moves of [g x] for each [x] *)
Lemma d_push_loop {A} (l : list A) (body : A -> list move -> prog (cty o) (list move)) (g : A -> list move) av :
  (forall x av, D (body x av) = pushes av (g x)) ->
  D (pfor (cty o) l body av) = pushes av (flat_map g l).
Proof.
  intros H. rewrite d_for. unfold pushes. rewrite for_each_flat. apply for_each_ext. exact H.
Qed.

Lemma d_push av m : D (push o av m) = pushes av [m].
Proof. unfold push. rewrite d_ck. symmetry. apply pushes_one. Qed.

Lemma d_attackers p c to occ : D (s_attackers o (enc_inner o p) c to occ) = Some (attackers_to o p c to occ).
Proof. unfold s_attackers, attackers_to. cbv zeta. ev. reflexivity. Qed.
Lemma d_attackers_except p c to :
  D (s_attackers_except o (enc_inner o p) c to) = Some (attackers_to_except_klp o p c to).
Proof. unfold s_attackers_except, attackers_to_except_klp. cbv zeta. ev. reflexivity. Qed.

Lemma d_no_escape p c occ l : D (s_no_escape o (enc_inner o p) c occ l) =
  Some (forallb (fun to => negb (bis_empty o (attackers_to o p c to occ))) l).
Proof.
  induction l as [|to l IH]; cbn [s_no_escape forallb]; [reflexivity|].
  rewrite d_bind, d_attackers. cbn [bind]. destruct (bis_empty o _); [reflexivity|exact IH].
Qed.

Lemma d_pawn_drop_mate p st sq : pos_state o p = Some st ->
  D (s_pawn_drop_mate o (enc o p) sq) = Some (is_pawn_drop_mate o (p_inner o p) (s_attack_info o st) sq).
Proof.
  intros E. unfold s_pawn_drop_mate, is_pawn_drop_mate. cbn [fp_inner enc f_side enc_inner].
  change (mkFI o _ _ _ _ _ _) with (enc_inner o (p_inner o p)). change (mkFP o _ _) with (enc o p).
  rewrite d_bind, d_ck, enc_occ. cbn [bind]. rewrite d_bind, d_attackers. cbn [bind].
  destruct (bis_empty o (attackers_to o _ _ _ _)); [reflexivity|].
  rewrite d_bind, d_attackers_except. cbn [bind]. rewrite d_bind, d_or, d_not, d_pinned, E. cbn [option_map bind].
  rewrite d_files. cbn [bind]. destruct (negb (bis_empty o _)); [reflexivity|].
  rewrite d_bind, d_ck, enc_king. cbn [bind].
  destruct (king_position o (p_inner o p) _) as [king|]; [|reflexivity].
  ev. apply d_no_escape.
Qed.

Lemma d_is_legal p st m : pos_state o p = Some st ->
  D (s_is_legal o (enc o p) m) = Some (is_legal o (p_inner o p) (s_attack_info o st) m).
Proof.
  intros E. unfold s_is_legal, is_legal. cbn [fp_inner enc f_side enc_inner].
  change (mkFI o _ _ _ _ _ _) with (enc_inner o (p_inner o p)). change (mkFP o _ _) with (enc o p).
  destruct (move_from m) as [from|]; [|reflexivity].
  rewrite d_bind, d_ck.
  replace (arr_get [mkP King Black; mkP King White] (color_index (i_side o (p_inner o p)))) with
    (Some (mkP King (i_side o (p_inner o p)))) by now destruct (i_side o (p_inner o p)).
  cbn [bind]. rewrite d_bind, d_ck, enc_at. cbn [bind]. rewrite d_bind.
  destruct (match i_piece_at o (p_inner o p) from with Some x => _ | None => _ end); cbn [andb].
  - rewrite d_bind, d_ck, enc_occ. cbn [bind]. rewrite d_bind, d_attackers. cbn [bind]. rewrite d_ret. cbn [bind].
    destruct (negb (bis_empty o _)); [reflexivity|].
    rewrite d_bind, d_pinned, E. cbn [option_map bind]. destruct (bcontains o _ from); [|reflexivity].
    rewrite d_bind, d_ck, enc_king. cbn [bind]. destruct (king_position o _ _); [apply d_stays|reflexivity].
  - rewrite d_ret. cbn [bind].
    rewrite d_bind, d_pinned, E. cbn [option_map bind]. destruct (bcontains o _ from); [|reflexivity].
    rewrite d_bind, d_ck, enc_king. cbn [bind]. destruct (king_position o _ _); [apply d_stays|reflexivity].
Qed.

Lemma d_push_forward c r f t av : D (s_push_forward o c r f t av) = pushes av (push_forward c r f t).
Proof.
  unfold s_push_forward, push_forward. rewrite d_bind, d_promotable. cbn [bind].
  destruct (PROMOTABLE t c); [|apply d_push].
  rewrite d_bind, d_push, pushes_one, pushes_cons. destruct (av_push av _) as [av'|]; cbn [bind]; [|reflexivity].
  rewrite d_bind, d_rank. cbn [bind]. destruct (_ >? r)%Z; [apply d_push|reflexivity].
Qed.
Lemma d_push_optional c f t av :
  D (s_push_optional o c (PROMOTABLE f c) f t av) = pushes av (push_optional c f t).
Proof.
  unfold s_push_optional, push_optional.
  rewrite d_bind, d_push, pushes_one, pushes_cons. destruct (av_push av _) as [av'|]; cbn [bind]; [|reflexivity].
  rewrite d_bind. destruct (PROMOTABLE f c); cbn [orb].
  - rewrite d_ret. cbn [bind]. apply d_push.
  - rewrite d_promotable. cbn [bind]. destruct (PROMOTABLE t c); [apply d_push|reflexivity].
Qed.

Lemma fu_from_u8_eq c to : fu_from c to = sq_of_u8 (N.land (sq_index to + 1 + match c with Black => 1 | White => 255 end) 255).
Proof. reflexivity. Qed.

Lemma d_gen_fu p target av : D (s_gen_fu o (enc_inner o p) target av) = pushes av (gen_fu o p target).
Proof.
  unfold s_gen_fu, gen_fu. ev. cbn [f_side enc_inner].
  replace (arr_get _ (color_index (i_side o p))) with
    (Some (match i_side o p with
           | Black => bshr o (piece_bitboard o p Pawn Black)
           | White => bshl o (piece_bitboard o p Pawn White) end,
           match i_side o p with Black => 1%N | White => 255%N end)) by now destruct (i_side o p).
  cbn [bind fst snd]. apply d_push_loop. intros to av'. rewrite fu_from_u8_eq. apply d_push_forward.
Qed.

Ltac gen := intros; cbn [f_side enc_inner]; change (mkFI o _ _ _ _ _ _) with (enc_inner o) in *;
  ev; unfold gen_from; apply d_push_loop; intros from av'; ev.

Lemma d_gen_ky p target av : D (s_gen_ky o (enc_inner o p) target av) = pushes av (gen_ky o p target).
Proof.
  unfold s_gen_ky, gen_ky, gen_from, own, iter_and. ev. apply d_push_loop. intros from av'. ev.
  apply d_push_loop. intros to av''. apply d_push_forward.
Qed.
Lemma d_gen_ke p target av : D (s_gen_ke o (enc_inner o p) target av) = pushes av (gen_ke o p target).
Proof.
  unfold s_gen_ke, gen_ke, gen_from, own, iter_and. ev. apply d_push_loop. intros from av'. ev.
  apply d_push_loop. intros to av''. apply d_push_forward.
Qed.
Lemma d_gen_gi p target av : D (s_gen_gi o (enc_inner o p) target av) = pushes av (gen_gi o p target).
Proof.
  unfold s_gen_gi, gen_gi, gen_from, own, iter_and. ev. apply d_push_loop. intros from av'. ev.
  apply d_push_loop. intros to av''. apply d_push_optional.
Qed.
Lemma d_gen_ka p target av : D (s_gen_ka o (enc_inner o p) target av) = pushes av (gen_ka o p target).
Proof.
  unfold s_gen_ka, gen_ka, gen_from, own, iter_and. ev. apply d_push_loop. intros from av'. ev.
  apply d_push_loop. intros to av''. apply d_push_optional.
Qed.
Lemma d_gen_hi p target av : D (s_gen_hi o (enc_inner o p) target av) = pushes av (gen_hi o p target).
Proof.
  unfold s_gen_hi, gen_hi, gen_from, own, iter_and. ev. apply d_push_loop. intros from av'. ev.
  apply d_push_loop. intros to av''. apply d_push_optional.
Qed.
Lemma d_gen_ki p target av : D (s_gen_ki o (enc_inner o p) target av) = pushes av (gen_ki o p target).
Proof.
  unfold s_gen_ki, gen_ki, gen_from, own, iter_and. ev. apply d_push_loop. intros from av'. ev.
  apply d_push_loop. intros to av''. apply d_push.
Qed.
Lemma d_gen_ou p target av : D (s_gen_ou o (enc_inner o p) target av) = pushes av (gen_ou o p target).
Proof.
  unfold s_gen_ou, gen_ou, gen_from, own, iter_and. ev. apply d_push_loop. intros from av'. ev.
  apply d_push_loop. intros to av''. apply d_push.
Qed.
Lemma d_gen_um p target av : D (s_gen_um o (enc_inner o p) target av) = pushes av (gen_um o p target).
Proof.
  unfold s_gen_um, gen_um, gen_from, own, iter_and. ev. apply d_push_loop. intros from av'. ev.
  apply d_push_loop. intros to av''. apply d_push.
Qed.
Lemma d_gen_ry p target av : D (s_gen_ry o (enc_inner o p) target av) = pushes av (gen_ry o p target).
Proof.
  unfold s_gen_ry, gen_ry, gen_from, own, iter_and. ev. apply d_push_loop. intros from av'. ev.
  apply d_push_loop. intros to av''. apply d_push.
Qed.

Lemma d_pawn_target p st target : pos_state o p = Some st ->
  D (s_pawn_target o (enc o p) target) = pawn_drop_target o (p_inner o p) (s_attack_info o st) target.
Proof.
  intros E. unfold s_pawn_target, pawn_drop_target, own. cbn [fp_inner enc f_side enc_inner].
  change (mkFI o _ _ _ _ _ _) with (enc_inner o (p_inner o p)). change (mkFP o _ _) with (enc o p).
  ev. destruct (bvacant o _) as [vac|]; cbn [bind]; [|reflexivity]. ev.
  destruct (king_position o (p_inner o p) _) as [sq|]; [|reflexivity]. ev.
  destruct (hd_error _) as [to|]; [|reflexivity].
  destruct (bcontains o _ to); cbn [andb]; [|reflexivity].
  rewrite d_bind, (d_pawn_drop_mate p st to E). cbn [bind].
  destruct (is_pawn_drop_mate o _ _ to); reflexivity.
Qed.

Lemma d_drop_ok c k to : D (s_drop_ok o c k to) = Some (drop_rank_ok c k to).
Proof. destruct k; cbn [s_drop_ok drop_rank_ok]; ev; reflexivity. Qed.

Lemma flat_filter {A B} (f : A -> bool) (g : A -> B) l :
  flat_map (fun x => if f x then [g x] else []) l = map g (filter f l).
Proof.
  induction l as [|x l IH]; cbn [flat_map filter map]; [reflexivity|]. rewrite IH. now destruct (f x).
Qed.

Lemma pushes_each {A} (g : A -> option (list move)) l : forall acc av,
  for_each l (fun k av => let* ms := g k in pushes av ms) av =
  let* ms := fold_left (fun acc k => let* acc := acc in let* ms := g k in Some (acc ++ ms)) l (Some acc) in
  let* old := Some (skipn (length acc) ms) in pushes av old.
Proof.
  induction l as [|k l IH]; intros acc av; cbn [for_each fold_left bind].
  - rewrite skipn_all. reflexivity.
  - assert (N : fold_left (fun acc k => let* acc := acc in let* ms := g k in Some (acc ++ ms)) l None = None).
    { clear. induction l as [|k l IH]; [reflexivity|exact IH]. }
    destruct (g k) as [ms|]; cbn [bind]; [|rewrite N; reflexivity].
    assert (Pre : forall l' a r, fold_left (fun acc k => let* acc := acc in let* ms := g k in Some (acc ++ ms)) l' (Some a)
      = Some r -> exists b, r = a ++ b).
    { clear. induction l' as [|k l' IH]; intros a r H; cbn [fold_left bind] in H.
      - injection H as <-. exists []. now rewrite app_nil_r.
      - destruct (g k) as [ms|]; cbn [bind] in H.
        + apply IH in H as [b ->]. exists (ms ++ b). now rewrite app_assoc.
        + exfalso. clear -H. induction l' as [|k l' IH]; [discriminate|exact (IH H)]. }
    destruct (pushes av ms) as [av'|] eqn:Ep; cbn [bind].
    + rewrite (IH (acc ++ ms)). 
      destruct (fold_left _ l (Some (acc ++ ms))) as [r|] eqn:F; cbn [bind]; [|reflexivity].
      apply Pre in F as [b ->]. rewrite skipn_app, skipn_all, Nat.sub_diag. cbn [skipn app].
      rewrite <- app_assoc, skipn_app, skipn_all, Nat.sub_diag. cbn [skipn app].
      rewrite pushes_app, Ep. reflexivity.
    + destruct (fold_left _ l (Some (acc ++ ms))) as [r|] eqn:F; cbn [bind]; [|reflexivity].
      apply Pre in F as [b ->]. rewrite <- app_assoc, skipn_app, skipn_all, Nat.sub_diag. cbn [skipn app].
      rewrite pushes_app, Ep. reflexivity.
Qed.

Lemma d_gen_drop p st target av : pos_state o p = Some st ->
  D (s_gen_drop o (enc o p) target av) =
  let* ms := gen_drop o (p_inner o p) (s_attack_info o st) target in pushes av ms.
Proof.
  intros E. unfold s_gen_drop, gen_drop. cbn [fp_inner enc f_side enc_inner].
  change (mkFI o _ _ _ _ _ _) with (enc_inner o (p_inner o p)). change (mkFP o _ _) with (enc o p).
  ev. rewrite d_for.
  set (ks := filter _ hand_kinds).
  transitivity (for_each ks (fun k av =>
    let* ms := gen_drop_kind o (p_inner o p) (s_attack_info o st) target k in pushes av ms) av).
  - apply for_each_ext. intros k av'. rewrite d_bind. unfold gen_drop_kind.
    replace (D (if kind_eqb k Pawn then s_pawn_target o (enc o p) target else PRet (cty o) BB target)) with
      (if kind_eqb k Pawn then pawn_drop_target o (p_inner o p) (s_attack_info o st) target else Some target).
    2:{ destruct (kind_eqb k Pawn); [symmetry; apply d_pawn_target; exact E|reflexivity]. }
    destruct (if kind_eqb k Pawn then _ else _) as [tg|]; cbn [bind]; [|reflexivity].
    rewrite <- flat_filter. apply d_push_loop. intros to av''. rewrite d_bind, d_drop_ok. cbn [bind].
    destruct (drop_rank_ok _ k to); [apply d_push|reflexivity].
  - rewrite (pushes_each _ ks []). cbn [length skipn].
    destruct (fold_left _ ks (Some [])); reflexivity.
Qed.

Lemma d_generate_all p st av : pos_state o p = Some st ->
  D (s_generate_all o (enc o p) av) =
  let* ms := generate_all o (p_inner o p) (s_attack_info o st) in pushes av ms.
Proof.
  intros E. unfold s_generate_all, generate_all. cbn [fp_inner enc f_side enc_inner].
  change (mkFI o _ _ _ _ _ _) with (enc_inner o (p_inner o p)). change (mkFP o _ _) with (enc o p).
  rewrite d_bind, d_not, d_ck, enc_player. cbn [bind].
  set (tg := bnot o (player_bb o (p_inner o p) (i_side o (p_inner o p)))).
  set (occ := band o (bnot o (occupied o (p_inner o p))) (bnot o (bempty o))).
  destruct (gen_drop o (p_inner o p) (s_attack_info o st) occ) as [dr|] eqn:G; cbn [bind].
  - rewrite !pushes_app.
    rewrite d_bind, d_gen_fu. destruct (pushes av _) as [a1|]; cbn [bind]; [|reflexivity].
    rewrite !pushes_app.
    rewrite d_bind, d_gen_ky. destruct (pushes a1 _) as [a2|]; cbn [bind]; [|reflexivity]. rewrite !pushes_app.
    rewrite d_bind, d_gen_ke. destruct (pushes a2 _) as [a3|]; cbn [bind]; [|reflexivity]. rewrite !pushes_app.
    rewrite d_bind, d_gen_gi. destruct (pushes a3 _) as [a4|]; cbn [bind]; [|reflexivity]. rewrite !pushes_app.
    rewrite d_bind, d_gen_ka. destruct (pushes a4 _) as [a5|]; cbn [bind]; [|reflexivity]. rewrite !pushes_app.
    rewrite d_bind, d_gen_hi. destruct (pushes a5 _) as [a6|]; cbn [bind]; [|reflexivity]. rewrite !pushes_app.
    rewrite d_bind, d_gen_ki. destruct (pushes a6 _) as [a7|]; cbn [bind]; [|reflexivity]. rewrite !pushes_app.
    rewrite d_bind, d_gen_ou. destruct (pushes a7 _) as [a8|]; cbn [bind]; [|reflexivity]. rewrite !pushes_app.
    rewrite d_bind, d_gen_um. destruct (pushes a8 _) as [a9|]; cbn [bind]; [|reflexivity].
    rewrite d_bind, d_gen_ry. destruct (pushes a9 _) as [a10|]; cbn [bind]; [|reflexivity].
    ev. rewrite (d_gen_drop p st _ _ E). fold occ. rewrite G. reflexivity.
  - rewrite d_bind, d_gen_fu. destruct (pushes av _) as [a1|]; cbn [bind]; [|reflexivity].
    rewrite d_bind, d_gen_ky. destruct (pushes a1 _) as [a2|]; cbn [bind]; [|reflexivity].
    rewrite d_bind, d_gen_ke. destruct (pushes a2 _) as [a3|]; cbn [bind]; [|reflexivity].
    rewrite d_bind, d_gen_gi. destruct (pushes a3 _) as [a4|]; cbn [bind]; [|reflexivity].
    rewrite d_bind, d_gen_ka. destruct (pushes a4 _) as [a5|]; cbn [bind]; [|reflexivity].
    rewrite d_bind, d_gen_hi. destruct (pushes a5 _) as [a6|]; cbn [bind]; [|reflexivity].
    rewrite d_bind, d_gen_ki. destruct (pushes a6 _) as [a7|]; cbn [bind]; [|reflexivity].
    rewrite d_bind, d_gen_ou. destruct (pushes a7 _) as [a8|]; cbn [bind]; [|reflexivity].
    rewrite d_bind, d_gen_um. destruct (pushes a8 _) as [a9|]; cbn [bind]; [|reflexivity].
    rewrite d_bind, d_gen_ry. destruct (pushes a9 _) as [a10|]; cbn [bind]; [|reflexivity].
    ev. rewrite (d_gen_drop p st _ _ E). fold occ. rewrite G. reflexivity.
Qed.

Lemma d_checkers_attacks p king chs : forall acc n,
  for_each chs (fun ch acc => D (
      pbind (cty o) (ck o (f_piece_at o (enc_inner o p) ch)) (fun x =>
      pbind (cty o) (ck o x) (fun y =>
      pbind (cty o) (if kind_eqb (pkind y) ProRook && negb (i9_eqb (sqf ch) (sqf king)) && negb (i9_eqb (sqr ch) (sqr king))
        then pbind (cty o) (ck o (f_occupied o (enc_inner o p))) (fun occ => s_hi o ch occ)
        else s_pseudo o (pkind y) ch (flip (i_side o p))) (fun a =>
      PRet (cty o) _ (bor o (fst acc) a, S (snd acc))))))) (acc, n) =
  let* r := fold_left (fun acc ch => let* acc := acc in let* a := checker_attack o p king ch in Some (bor o acc a))
    chs (Some acc) in Some (r, (n + length chs)%nat).
Proof.
  induction chs as [|ch chs IH]; intros acc n; cbn [for_each fold_left bind length].
  - now rewrite Nat.add_0_r.
  - assert (N : fold_left (fun acc ch => let* acc := acc in let* a := checker_attack o p king ch in Some (bor o acc a))
      chs None = None).
    { clear. induction chs as [|k l IH]; [reflexivity|exact IH]. }
    rewrite d_bind, d_ck, enc_at. cbn [bind]. rewrite d_bind, d_ck. unfold checker_attack at 2.
    destruct (i_piece_at o p ch) as [yy|]; cbn [bind]; [|rewrite N; reflexivity].
    rewrite d_bind.
    match goal with |- context [D (if ?b then ?x else ?y)] =>
      assert (Ea : D (if b then x else y) = Some (if b then hi_attack o ch (occupied o p)
        else pseudo_attack o (pkind yy) ch (flip (i_side o p)))) end.
    { destruct (kind_eqb (pkind yy) ProRook && _ && _); [rewrite d_bind, d_ck, enc_occ; cbn [bind]|];
        [apply d_hi|apply d_pseudo]. }
    rewrite Ea. clear Ea.
    cbn [bind]. rewrite d_ret. cbn [bind fst snd].
    rewrite IH. rewrite Nat.add_succ_r. reflexivity.
Qed.

Lemma d_generate_evasions p st av : pos_state o p = Some st ->
  D (s_generate_evasions o (enc o p) av) =
  let* ms := generate_evasions o (p_inner o p) (s_attack_info o st) in pushes av ms.
Proof.
  intros E. unfold s_generate_evasions, generate_evasions. cbn [fp_inner enc f_side enc_inner].
  change (mkFI o _ _ _ _ _ _) with (enc_inner o (p_inner o p)). change (mkFP o _ _) with (enc o p).
  rewrite d_bind, d_ck, enc_king. cbn [bind]. rewrite d_bind, d_ck.
  destruct (king_position o (p_inner o p) _) as [king|]; cbn [bind]; [|reflexivity].
  rewrite d_bind, d_checkers, E. cbn [option_map bind].
  rewrite d_bind, d_for, d_checkers_attacks. unfold checkers_attacks.
  destruct (fold_left _ _ (Some (bempty o))) as [ca|]; cbn [bind fst snd]; [|reflexivity].
  rewrite d_bind, !d_and, d_ou, d_not, d_ck, enc_player. cbn [bind]. rewrite d_ret. cbn [bind].
  set (esc := band o _ (bnot o ca)).
  rewrite d_bind, (d_push_loop _ _ (fun to => [Normal king to false])) by (intros; apply d_push).
  replace (flat_map (fun to => [Normal king to false]) (biter o esc))
    with (map (fun to => Normal king to false) (biter o esc))
    by (induction (biter o esc) as [|to l IH]; cbn [map flat_map app]; [reflexivity|now rewrite IH]).
  set (km := map _ (biter o esc)). cbn [Nat.add].
  destruct (Nat.ltb 1 _).
  { cbn [bind]. destruct (pushes av km); reflexivity. }
  destruct (pushes av km) as [a0|] eqn:K; cbn [bind].
  2:{ destruct (hd_error _); cbn [bind]; [|reflexivity].
      destruct (if negb _ then _ else _) as [dr|]; cbn [bind]; [|reflexivity]. now rewrite pushes_app, K. }
  rewrite d_bind, d_checkers, E. cbn [option_map bind]. rewrite d_bind, d_ck.
  destruct (hd_error _) as [ch|]; cbn [bind]; [|reflexivity].
  rewrite d_bind, d_between. cbn [bind]. rewrite d_bind, d_or, d_ret, d_checkers, E. cbn [option_map bind].
  set (td := BETWEEN_TABLE o ch king). set (tm := bor o td _).
  set (X := (if negb (bis_empty o td) then gen_drop o (p_inner o p) (s_attack_info o st) td else Some [])).
  assert (EX : forall av, D (if negb (bis_empty o td) then s_gen_drop o (enc o p) td av else PRet (cty o) _ av) =
    let* dr := X in pushes av dr).
  { intros av'. unfold X. destruct (negb (bis_empty o td)); [apply d_gen_drop; exact E|reflexivity]. }
  clearbody X.
  rewrite d_bind, d_gen_fu. destruct (pushes a0 _) as [a1|] eqn:P1; cbn [bind];
    [|destruct X; cbn [bind]; rewrite ?pushes_app, ?K; cbn [bind]; rewrite ?pushes_app, ?P1; reflexivity].
  rewrite d_bind, d_gen_ky. destruct (pushes a1 _) as [a2|] eqn:P2; cbn [bind];
    [|destruct X; cbn [bind]; rewrite ?pushes_app, ?K; cbn [bind]; rewrite ?pushes_app, ?P1; cbn [bind];
      rewrite ?pushes_app, ?P2; reflexivity].
  rewrite d_bind, d_gen_ke. destruct (pushes a2 _) as [a3|] eqn:P3; cbn [bind];
    [|destruct X; cbn [bind]; rewrite ?pushes_app, ?K; cbn [bind]; rewrite ?pushes_app, ?P1; cbn [bind];
      rewrite ?pushes_app, ?P2; cbn [bind]; rewrite ?pushes_app, ?P3; reflexivity].
  rewrite d_bind, d_gen_gi. destruct (pushes a3 _) as [a4|] eqn:P4; cbn [bind];
    [|destruct X; cbn [bind]; rewrite ?pushes_app, ?K; cbn [bind]; rewrite ?pushes_app, ?P1; cbn [bind];
      rewrite ?pushes_app, ?P2; cbn [bind]; rewrite ?pushes_app, ?P3; cbn [bind]; rewrite ?pushes_app, ?P4; reflexivity].
  rewrite d_bind, d_gen_ka. destruct (pushes a4 _) as [a5|] eqn:P5; cbn [bind];
    [|destruct X; cbn [bind]; rewrite ?pushes_app, ?K; cbn [bind]; rewrite ?pushes_app, ?P1; cbn [bind];
      rewrite ?pushes_app, ?P2; cbn [bind]; rewrite ?pushes_app, ?P3; cbn [bind]; rewrite ?pushes_app, ?P4; cbn [bind];
      rewrite ?pushes_app, ?P5; reflexivity].
  rewrite d_bind, d_gen_hi. destruct (pushes a5 _) as [a6|] eqn:P6; cbn [bind];
    [|destruct X; cbn [bind]; rewrite ?pushes_app, ?K; cbn [bind]; rewrite ?pushes_app, ?P1; cbn [bind];
      rewrite ?pushes_app, ?P2; cbn [bind]; rewrite ?pushes_app, ?P3; cbn [bind]; rewrite ?pushes_app, ?P4; cbn [bind];
      rewrite ?pushes_app, ?P5; cbn [bind]; rewrite ?pushes_app, ?P6; reflexivity].
  rewrite d_bind, d_gen_ki. destruct (pushes a6 _) as [a7|] eqn:P7; cbn [bind];
    [|destruct X; cbn [bind]; rewrite ?pushes_app, ?K; cbn [bind]; rewrite ?pushes_app, ?P1; cbn [bind];
      rewrite ?pushes_app, ?P2; cbn [bind]; rewrite ?pushes_app, ?P3; cbn [bind]; rewrite ?pushes_app, ?P4; cbn [bind];
      rewrite ?pushes_app, ?P5; cbn [bind]; rewrite ?pushes_app, ?P6; cbn [bind]; rewrite ?pushes_app, ?P7; reflexivity].
  rewrite d_bind, d_gen_um. destruct (pushes a7 _) as [a8|] eqn:P8; cbn [bind];
    [|destruct X; cbn [bind]; rewrite ?pushes_app, ?K; cbn [bind]; rewrite ?pushes_app, ?P1; cbn [bind];
      rewrite ?pushes_app, ?P2; cbn [bind]; rewrite ?pushes_app, ?P3; cbn [bind]; rewrite ?pushes_app, ?P4; cbn [bind];
      rewrite ?pushes_app, ?P5; cbn [bind]; rewrite ?pushes_app, ?P6; cbn [bind]; rewrite ?pushes_app, ?P7; cbn [bind];
      rewrite ?pushes_app, ?P8; reflexivity].
  rewrite d_bind, d_gen_ry. destruct (pushes a8 _) as [a9|] eqn:P9; cbn [bind];
    [|destruct X; cbn [bind]; rewrite ?pushes_app, ?K; cbn [bind]; rewrite ?pushes_app, ?P1; cbn [bind];
      rewrite ?pushes_app, ?P2; cbn [bind]; rewrite ?pushes_app, ?P3; cbn [bind]; rewrite ?pushes_app, ?P4; cbn [bind];
      rewrite ?pushes_app, ?P5; cbn [bind]; rewrite ?pushes_app, ?P6; cbn [bind]; rewrite ?pushes_app, ?P7; cbn [bind];
      rewrite ?pushes_app, ?P8; cbn [bind]; rewrite ?P9; reflexivity].
  rewrite EX. destruct X as [dr|]; cbn [bind]; [|reflexivity].
  rewrite pushes_app, K. cbn [bind]. rewrite pushes_app, pushes_app, P1. cbn [bind].
  rewrite pushes_app, P2. cbn [bind]. rewrite pushes_app, P3. cbn [bind]. rewrite pushes_app, P4. cbn [bind].
  rewrite pushes_app, P5. cbn [bind]. rewrite pushes_app, P6. cbn [bind]. rewrite pushes_app, P7. cbn [bind].
  rewrite pushes_app, P8. cbn [bind]. rewrite P9. reflexivity.
Qed.

Lemma d_filter p st fuel : pos_state o p = Some st -> forall i av,
  D (s_filter o fuel (enc o p) i av) = filter_loop fuel (is_legal o (p_inner o p) (s_attack_info o st)) i av.
Proof.
  intros E. induction fuel as [|fuel IH]; intros i av; cbn [s_filter filter_loop];
    (destruct (Nat.eqb i (length av)); [reflexivity|]); [reflexivity|].
  rewrite d_bind, d_ck. destruct (nth_error av i) as [m|]; cbn [bind]; [|reflexivity].
  rewrite d_bind, (d_is_legal p st m E). cbn [bind]. destruct (is_legal o _ _ m); [apply IH|].
  rewrite d_bind, d_ck. destruct (swap_remove i av); cbn [bind]; [apply IH|reflexivity].
Qed.

Theorem d_legal_moves p : D (s_legal_moves o (enc o p)) = legal_moves o p.
Proof.
  unfold s_legal_moves, legal_moves. rewrite d_bind, d_in_check. unfold pos_in_check.
  destruct (pos_state o p) as [st|] eqn:E; cbn [bind]; [|reflexivity].
  rewrite d_bind. destruct (negb (bis_empty o _)).
  - rewrite (d_generate_evasions p st [] E).
    destruct (generate_evasions o _ _) as [ms|]; cbn [bind]; [|reflexivity].
    rewrite push_all_pushes. destruct (pushes [] ms); cbn [bind]; [|reflexivity]. now apply d_filter.
  - rewrite (d_generate_all p st [] E).
    destruct (generate_all o _ _) as [ms|]; cbn [bind]; [|reflexivity].
    rewrite push_all_pushes. destruct (pushes [] ms); cbn [bind]; [|reflexivity]. now apply d_filter.
Qed.
End SourceSpec.
