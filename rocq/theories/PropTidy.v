(** * Keys and bitboards under arbitrary accepted moves: C51 of properties.jsonl *)

From Coq Require Import String List Bool NArith ZArith Lia.
From Verif Require Import Types Rules Bitboard BackendCore BackendSimd Tables Zobrist Position Movegen
  Api Sfen Squares BBSpec Backends Rep Hash ValidPlay Reach Lines Twins AnyMove Facts Accept Tidy Witness PropPlay PropLimits.
Import ListNotations.

Local Opaque attack_info_new calculate_checkers.

(** C51: along any accepted line, legal or not, from anything that new accepts,
    the keys are those of the board and the hands from scratch, as long as no
    piece moves to its own square and no piece is dropped on another. *)
Theorem C51_keys_in_step cf pp l p0 p :
  Yasai.new cf pp = Some p0 -> tidy_line cf p0 l -> do_line cf p0 l = Some p ->
  Yasai.keys cf p =
    Some (N.lxor (board_hash (zt cf) (Yasai.piece_at cf p)) (if Nat.odd (length l) then 1%N else 0%N),
          hand_hash (zt cf) (fun c k => hand_n (Yasai.hand cf p c) k)).
Proof.
  intros N T D. exact (sd_keys _ _ _ (do_line_steady cf l 0 p0 p (new_steady cf pp p0 N) T D)).
Qed.
Print Assumptions C51_keys_in_step.

(** and so are the bitboards *)
Theorem C51_bitboards_in_step cf pp l p0 p :
  Yasai.new cf pp = Some p0 -> tidy_line cf p0 l -> do_line cf p0 l = Some p ->
  forall s,
    (forall k, bcontains (ops cf) (piece_bb (ops cf) (p_inner (ops cf) p) k) s = true <->
       exists c, Yasai.piece_at cf p s = Some (mkP k c)) /\
    (forall c, bcontains (ops cf) (player_bb (ops cf) (p_inner (ops cf) p) c) s = true <->
       exists k, Yasai.piece_at cf p s = Some (mkP k c)).
Proof.
  intros N T D s. pose proof (sd_rep _ _ _ (do_line_steady cf l 0 p0 p (new_steady cf pp p0 N) T D)) as R.
  split.
  - intros k. rewrite (rep_piece _ _ _ R). exact (kindb_true _ _).
  - intros c. rewrite (rep_player _ _ _ R). exact (colorb_true _ _).
Qed.
Print Assumptions C51_bitboards_in_step.

(* Black drops a pawn of White's colour, White's king jumps, Black's king takes
   the pawn from four ranks away and the keys still follow the board *)
Definition odd_line : list move :=
  [dr (n5, n5) Pawn White; mv (n5, n1) (n1, n4) false; mv (n5, n9) (n5, n5) false].
Example C51_example b checks : exists p0 p, let cf := build b checks in
  Yasai.new cf with_pawn = Some p0 /\ tidy_line cf p0 odd_line /\ do_line cf p0 odd_line = Some p.
Proof.
  set (cf := build b checks).
  assert (H : match Yasai.new cf with_pawn with
    | Some p => match Yasai.piece_at cf p (Sq n5 n5), do_line cf p odd_line with
       | None, Some _ => true | _, _ => false end
    | None => false end = true) by (unfold cf; destruct b, checks; vm_compute; reflexivity).
  destruct (Yasai.new cf with_pawn) as [p0|] eqn:E0; [|discriminate].
  destruct (Yasai.piece_at cf p0 (Sq n5 n5)) eqn:E1; [discriminate|].
  destruct (do_line cf p0 odd_line) as [p|] eqn:E2; [|discriminate].
  exists p0, p. cbv zeta. fold cf. split; [assumption|]. split; [|assumption].
  unfold odd_line, mv, dr. cbn [tidy_line tidy fst snd].
  split; [exact E1|]. intros q1 _. split; [discriminate|]. intros q2 _. split; [discriminate|]. intros; exact I.
Qed.

(** C51 without its restriction: a piece "moved" to its own square stays on the
    board and its entry leaves the key *)
Definition rook_and_kings : partial := sfen "4k4/9/9/9/9/9/9/9/R3K4" Black "-".
Theorem C51_own_square_refuted b checks :
  exists p0 p k, let cf := build b checks in
    Yasai.new cf rook_and_kings = Some p0 /\
    do_line cf p0 [mv (n9, n9) (n9, n9) false] = Some p /\
    Yasai.keys cf p = Some k /\
    Yasai.piece_at cf p (Sq n9 n9) = Some (mkP Rook Black) /\
    fst k <> N.lxor (board_hash (zt cf) (Yasai.piece_at cf p)) 1%N.
Proof.
  set (cf := build b checks).
  assert (H : match Yasai.new cf rook_and_kings with
    | Some p0 => match do_line cf p0 [mv (n9, n9) (n9, n9) false] with
       | Some p => match Yasai.keys cf p, Yasai.piece_at cf p (Sq n9 n9) with
          | Some k, Some x => piece_eqb x (mkP Rook Black) &&
               negb (fst k =? N.lxor (board_hash (zt cf) (Yasai.piece_at cf p)) 1)%N
          | _, _ => false end
       | None => false end
    | None => false end = true) by (unfold cf; destruct b, checks; vm_compute; reflexivity).
  destruct (Yasai.new cf rook_and_kings) as [p0|] eqn:E0; [|discriminate].
  destruct (do_line cf p0 [mv (n9, n9) (n9, n9) false]) as [p|] eqn:E1; [|discriminate].
  destruct (Yasai.keys cf p) as [k|] eqn:E2; [|discriminate].
  destruct (Yasai.piece_at cf p (Sq n9 n9)) as [x|] eqn:E3; [|discriminate].
  apply andb_prop in H as [Hx Hk].
  exists p0, p, k. cbv zeta. fold cf. split; [assumption|]. split; [assumption|]. split; [assumption|]. split.
  - rewrite E3. f_equal. destruct (piece_eqb_spec x (mkP Rook Black)); [assumption|discriminate].
  - intros E. rewrite E, N.eqb_refl in Hk. discriminate.
Qed.
Print Assumptions C51_own_square_refuted.

(** and a piece dropped on another one leaves both entries in the key *)
Theorem C51_drop_on_piece_refuted b checks :
  exists p0 p k, let cf := build b checks in
    Yasai.new cf with_pawn = Some p0 /\
    do_line cf p0 [dr (n5, n9) Pawn Black] = Some p /\
    Yasai.keys cf p = Some k /\
    Yasai.piece_at cf p (Sq n5 n9) = Some (mkP Pawn Black) /\
    fst k <> N.lxor (board_hash (zt cf) (Yasai.piece_at cf p)) 1%N.
Proof.
  set (cf := build b checks).
  assert (H : match Yasai.new cf with_pawn with
    | Some p0 => match do_line cf p0 [dr (n5, n9) Pawn Black] with
       | Some p => match Yasai.keys cf p, Yasai.piece_at cf p (Sq n5 n9) with
          | Some k, Some x => piece_eqb x (mkP Pawn Black) &&
               negb (fst k =? N.lxor (board_hash (zt cf) (Yasai.piece_at cf p)) 1)%N
          | _, _ => false end
       | None => false end
    | None => false end = true) by (unfold cf; destruct b, checks; vm_compute; reflexivity).
  destruct (Yasai.new cf with_pawn) as [p0|] eqn:E0; [|discriminate].
  destruct (do_line cf p0 [dr (n5, n9) Pawn Black]) as [p|] eqn:E1; [|discriminate].
  destruct (Yasai.keys cf p) as [k|] eqn:E2; [|discriminate].
  destruct (Yasai.piece_at cf p (Sq n5 n9)) as [x|] eqn:E3; [|discriminate].
  apply andb_prop in H as [Hx Hk].
  exists p0, p, k. cbv zeta. fold cf. split; [assumption|]. split; [assumption|]. split; [assumption|]. split.
  - rewrite E3. f_equal. destruct (piece_eqb_spec x (mkP Pawn Black)); [assumption|discriminate].
  - intros E. rewrite E, N.eqb_refl in Hk. discriminate.
Qed.
Print Assumptions C51_drop_on_piece_refuted.
