(** * Where the guarantees end

    C40-C42 of properties.jsonl: claims one might expect that are false of the
    code outside the reachable positions, each with a concrete witness. *)

From Coq Require Import String List Bool NArith ZArith Lia.
From Verif Require Import Types Rules Bitboard BackendCore BackendSimd Tables Zobrist Position Movegen
  Api Sfen Squares Geometry Rep Legality ValidPlay Reach Decide Twins Hash AnyMove Facts Simd Accept Tidy Listed Witness PropPlay PropSafety.
Import ListNotations.

Definition build (b : backend) (checks : bool) : config := mkCfg b checks (fun i => (i * 7919)%N).

Definition is_normal (f t : square) (m : move) : bool :=
  match m with Normal f' t' _ => sq_eqb f f' && sq_eqb t t' | Drop _ _ => false end.

(** C40: the backends need not agree on legal_moves in a position that new
    accepts but that is not valid.  A pawn on the last rank: the lane shifts of
    the SIMD backends carry it to the next file, the portable shift drops it. *)
Definition dead_pawn : partial := sfen "k3P4/9/9/9/9/9/9/9/8K" Black "-".

Definition lists_move (cf : config) (pp : partial) (f t : square) : option bool :=
  let* p := Yasai.new cf pp in
  let* l := Yasai.legal_moves cf p in Some (existsb (is_normal f t) l).

Theorem C40_backends_agree_everywhere_refuted b checks :
  b <> Portable ->
  exists pp p q lp lq m,
    Yasai.new (build Portable checks) pp = Some p /\ Yasai.new (build b checks) pp = Some q /\
    Yasai.legal_moves (build Portable checks) p = Some lp /\
    Yasai.legal_moves (build b checks) q = Some lq /\
    In m lq /\ ~ In m lp.
Proof.
  intros NP.
  assert (H1 : lists_move (build Portable checks) dead_pawn (Sq n5 n1) (Sq n4 n9) = Some false)
    by (destruct checks; vm_compute; reflexivity).
  assert (H2 : lists_move (build b checks) dead_pawn (Sq n5 n1) (Sq n4 n9) = Some true)
    by (destruct b, checks; try congruence; vm_compute; reflexivity).
  unfold lists_move in H1, H2.
  destruct (Yasai.new (build Portable checks) dead_pawn) as [p|] eqn:Ep; [|discriminate]. cbn [bind] in H1.
  destruct (Yasai.new (build b checks) dead_pawn) as [q|] eqn:Eq; [|discriminate]. cbn [bind] in H2.
  destruct (Yasai.legal_moves (build Portable checks) p) as [lp|] eqn:Lp; [|discriminate]. cbn [bind] in H1.
  destruct (Yasai.legal_moves (build b checks) q) as [lq|] eqn:Lq; [|discriminate]. cbn [bind] in H2.
  injection H1 as H1. injection H2 as H2. apply existsb_exists in H2 as [m [I Hm]].
  exists dead_pawn, p, q, lp, lq, m. repeat (split; [assumption|]).
  intros J. assert (C : existsb (is_normal (Sq n5 n1) (Sq n4 n9)) lp = true)
    by (apply existsb_exists; exists m; tauto). congruence.
Qed.
Print Assumptions C40_backends_agree_everywhere_refuted.

(* What is missing is only this: pawns of the side to move on its last rank,
   and a Black pawn on rank 9 with another on its file, Black having a pawn in
   hand. *)
Theorem C40_backends_agree_partial cf b pp p q :
  Yasai.new cf pp = Some p -> Yasai.new (with_backend cf b) pp = Some q ->
  let c := pp_side pp in
  (forall s, sa_get (pp_board pp) s = Some (mkP Pawn c) ->
     sqr s <> match c with Black => n1 | White => n9 end) ->
  ((0 < hand_n (c_get (pp_hands pp) c) Pawn)%N ->
   forall s t, sa_get (pp_board pp) s = Some (mkP Pawn c) -> sa_get (pp_board pp) t = Some (mkP Pawn c) ->
     sqf s = sqf t -> sqr s = n9 -> s = t) ->
  Yasai.legal_moves cf p = Yasai.legal_moves (with_backend cf b) q.
Proof. exact (new_agree cf b pp p q). Qed.
Print Assumptions C40_backends_agree_partial.

(* the same after any calls, in terms of the bitboard of those pawns *)
Theorem C40_backends_agree_calls_partial cf b pp cs p q :
  (let* p := Yasai.new cf pp in run cf p cs) = Some p ->
  (let* q := Yasai.new (with_backend cf b) pp in run (with_backend cf b) q cs) = Some q ->
  let pawns := Yasai.piece_bitboard cf p (mkP Pawn (Yasai.side_to_move cf p)) in
  (forall s, Yasai.contains cf pawns s = true ->
     sqr s <> match Yasai.side_to_move cf p with Black => n1 | White => n9 end) ->
  ((0 < hand_n (Yasai.hand cf p (Yasai.side_to_move cf p)) Pawn)%N ->
   forall s t, Yasai.contains cf pawns s = true -> Yasai.contains cf pawns t = true ->
     sqf s = sqf t -> sqr s = n9 -> s = t) ->
  Yasai.legal_moves cf p = Yasai.legal_moves (with_backend cf b) q.
Proof. exact (calls_agree cf b pp cs p q). Qed.
Print Assumptions C40_backends_agree_calls_partial.

(* The three SIMD backends agree everywhere: after any calls on anything that
   new accepts, all panic or none, and everything shown is the same. *)
Theorem C40_simd_backends_agree cf b pp cs :
  cf_backend cf <> Portable -> b <> Portable ->
  match (let* p := Yasai.new cf pp in run cf p cs),
        (let* q := Yasai.new (with_backend cf b) pp in run (with_backend cf b) q cs) with
  | Some p, Some q => same_obs cf (with_backend cf b) p q /\
      Yasai.legal_moves cf p = Yasai.legal_moves (with_backend cf b) q
  | None, None => True
  | _, _ => False
  end.
Proof. exact (simd_backends_agree cf b pp cs). Qed.
Print Assumptions C40_simd_backends_agree.

(* for instance in the position that separates them from the portable one *)
Example C40_simd_example cf : exists p, Yasai.new cf dead_pawn = Some p /\
  validb (game_of dead_pawn) = false.
Proof.
  assert (M : standard_material (game_of dead_pawn)) by (apply standardb_spec; vm_compute; reflexivity).
  eexists. split; [exact (new_some cf dead_pawn (material_fit _ M))|vm_compute; reflexivity].
Qed.

(* The condition on rank 9 is needed too: the subtraction for file 7 borrows
   from file 8 in the portable backend only, *)
Definition doubled_pawns : partial := sfen "k8/9/9/9/9/9/9/2P6/2P1K4" Black "P".
Definition is_drop (t : square) (k : kind) (m : move) : bool :=
  match m with Drop t' x => sq_eqb t t' && kind_eqb (pkind x) k | Normal _ _ _ => false end.
Definition lists_drop (cf : config) (pp : partial) (t : square) (k : kind) : option bool :=
  let* p := Yasai.new cf pp in
  let* l := Yasai.legal_moves cf p in Some (existsb (is_drop t k) l).

Theorem C40_doubled_pawns_refuted b checks :
  b <> Portable ->
  exists pp p q lp lq m,
    Yasai.new (build Portable checks) pp = Some p /\ Yasai.new (build b checks) pp = Some q /\
    (forall s, sa_get (pp_board pp) s = Some (mkP Pawn (pp_side pp)) -> sqr s <> n1) /\
    Yasai.legal_moves (build Portable checks) p = Some lp /\
    Yasai.legal_moves (build b checks) q = Some lq /\
    In m lq /\ ~ In m lp.
Proof.
  intros NP.
  assert (H1 : lists_drop (build Portable checks) doubled_pawns (Sq n8 n5) Pawn = Some false)
    by (destruct checks; vm_compute; reflexivity).
  assert (H2 : lists_drop (build b checks) doubled_pawns (Sq n8 n5) Pawn = Some true)
    by (destruct b, checks; try congruence; vm_compute; reflexivity).
  unfold lists_drop in H1, H2.
  destruct (Yasai.new (build Portable checks) doubled_pawns) as [p|] eqn:Ep; [|discriminate]. cbn [bind] in H1.
  destruct (Yasai.new (build b checks) doubled_pawns) as [q|] eqn:Eq; [|discriminate]. cbn [bind] in H2.
  destruct (Yasai.legal_moves (build Portable checks) p) as [lp|] eqn:Lp; [|discriminate]. cbn [bind] in H1.
  destruct (Yasai.legal_moves (build b checks) q) as [lq|] eqn:Lq; [|discriminate]. cbn [bind] in H2.
  injection H1 as H1. injection H2 as H2. apply existsb_exists in H2 as [m [I Hm]].
  exists doubled_pawns, p, q, lp, lq, m. split; [assumption|]. split; [assumption|]. split.
  - assert (F : forallb (fun s => match sa_get (pp_board doubled_pawns) s with
        | Some x => negb (piece_eqb x (mkP Pawn Black) && i9_eqb (sqr s) n1) | None => true end) all_squares = true)
      by (vm_compute; reflexivity).
    intros s H E. change (pp_side doubled_pawns) with Black in H.
    pose proof (proj1 (forallb_forall _ _) F s (all_squares_in s)) as G. cbn beta in G.
    rewrite H, E in G. discriminate.
  - split; [assumption|]. split; [assumption|]. split; [assumption|].
    intros J. assert (C : existsb (is_drop (Sq n8 n5) Pawn) lp = true)
      by (apply existsb_exists; exists m; tauto). congruence.
Qed.
Print Assumptions C40_doubled_pawns_refuted.

(* and on file 9 it underflows: legal_moves of the portable backend panics in a
   build with overflow checks *)
Definition doubled_edge : partial := sfen "4k4/9/9/9/9/9/9/P8/P3K4" Black "P".
Theorem C40_doubled_panic_refuted :
  exists pp, standard_material (game_of pp) /\
    (exists p, Yasai.new (build Portable true) pp = Some p /\ Yasai.legal_moves (build Portable true) p = None) /\
    forall b checks, (b, checks) <> (Portable, true) ->
      exists p l, Yasai.new (build b checks) pp = Some p /\ Yasai.legal_moves (build b checks) p = Some l.
Proof.
  exists doubled_edge.
  assert (M : standard_material (game_of doubled_edge)) by (apply standardb_spec; vm_compute; reflexivity).
  split; [exact M|].
  assert (H : forall b checks, (let* p := Yasai.new (build b checks) doubled_edge in
    Some match Yasai.legal_moves (build b checks) p with Some _ => true | None => false end) =
    Some (match b, checks with Portable, true => false | _, _ => true end)).
  { intros [] []; vm_compute; reflexivity. }
  split.
  - specialize (H Portable true).
    destruct (Yasai.new (build Portable true) doubled_edge) as [p|]; [|discriminate]. cbn [bind] in H.
    exists p. split; [reflexivity|]. destruct (Yasai.legal_moves _ p); [discriminate|reflexivity].
  - intros b checks NP. specialize (H b checks).
    destruct (Yasai.new (build b checks) doubled_edge) as [p|]; [|discriminate]. cbn [bind] in H.
    destruct (Yasai.legal_moves (build b checks) p) as [l|] eqn:E.
    + exists p, l. split; [reflexivity|exact E].
    + destruct b, checks; congruence || discriminate.
Qed.
Print Assumptions C40_doubled_panic_refuted.

(* an invalid position (a White pawn on the last rank, Black pawns doubled,
   the White king en prise) that meets the hypotheses *)
Definition odd_pawns : partial := sfen "4k4/9/9/4P4/4P4/9/9/9/4R1K1p" Black "G".
Example C40_partial_example cf b : exists p q,
  Yasai.new cf odd_pawns = Some p /\ Yasai.new (with_backend cf b) odd_pawns = Some q /\
  validb (game_of odd_pawns) = false /\
  (forall s, sa_get (pp_board odd_pawns) s = Some (mkP Pawn Black) -> sqr s <> n1) /\
  hand_n (c_get (pp_hands odd_pawns) Black) Pawn = 0%N.
Proof.
  assert (M : standard_material (game_of odd_pawns)) by (apply standardb_spec; vm_compute; reflexivity).
  eexists _, _. split; [exact (new_some cf odd_pawns (material_fit _ M))|].
  split; [exact (new_some (with_backend cf b) odd_pawns (material_fit _ M))|].
  split; [vm_compute; reflexivity|]. split; [|vm_compute; reflexivity].
  assert (F : forallb (fun s => match sa_get (pp_board odd_pawns) s with
      | Some x => negb (piece_eqb x (mkP Pawn Black) && i9_eqb (sqr s) n1) | None => true end) all_squares = true)
    by (vm_compute; reflexivity).
  intros s H E. pose proof (proj1 (forallb_forall _ _) F s (all_squares_in s)) as G. cbn beta in G.
  rewrite H, E in G. discriminate.
Qed.

(** C41: in a position that new accepts but where the side to move attacks the
    other king, legal_moves lists the capture of that king, and do_move panics
    on it. *)
Definition open_king : partial := sfen "4k4/9/9/9/9/9/9/9/4R3K" Black "-".
Definition takes_king : move := mv (n5, n9) (n5, n1) false.

Definition listed_panics (cf : config) (pp : partial) (m : move) : option bool :=
  let* p := Yasai.new cf pp in
  let* l := Yasai.legal_moves cf p in
  Some (existsb (fun m' => match m, m' with
          | Normal f t pr, Normal f' t' pr' => sq_eqb f f' && sq_eqb t t' && Bool.eqb pr pr'
          | _, _ => false end) l &&
        match Yasai.do_move cf p m with None => true | Some _ => false end).

Theorem C41_listed_moves_playable_refuted b checks :
  exists pp p l m, Yasai.new (build b checks) pp = Some p /\
    Yasai.legal_moves (build b checks) p = Some l /\ In m l /\
    Yasai.do_move (build b checks) p m = None.
Proof.
  assert (H : listed_panics (build b checks) open_king takes_king = Some true)
    by (destruct b, checks; vm_compute; reflexivity).
  unfold listed_panics in H.
  destruct (Yasai.new (build b checks) open_king) as [p|] eqn:Ep; [|discriminate]. cbn [bind] in H.
  destruct (Yasai.legal_moves (build b checks) p) as [l|] eqn:El; [|discriminate]. cbn [bind] in H.
  injection H as H. apply andb_prop in H as [H1 H2].
  exists open_king, p, l, takes_king. split; [assumption|]. split; [assumption|]. split.
  - apply existsb_exists in H1 as [[f t pr|] [I E]]; [|discriminate].
    unfold takes_king, mv in *. cbn [fst snd] in *.
    apply andb_prop in E as [E Epr]. apply andb_prop in E as [Ef Et].
    destruct (sq_eqb_spec (Sq n5 n9) f) as [<-|]; [|discriminate].
    destruct (sq_eqb_spec (Sq n5 n1) t) as [<-|]; [|discriminate].
    destruct pr; [discriminate|]. exact I.
  - destruct (Yasai.do_move (build b checks) p takes_king); [discriminate|reflexivity].
Qed.
Print Assumptions C41_listed_moves_playable_refuted.

(** exactly which listed moves do_move refuses, in any position that play by
    listed moves leads to from anything that new accepts *)
Theorem C41_listed_refused_exactly cf n p l m :
  listed_play cf n p -> Yasai.legal_moves cf p = Some l -> In m l ->
  Yasai.do_move cf p m = None <->
  (exists x, Yasai.piece_at cf p (move_to m) = Some x /\
     (pkind x = King \/ hand_n (Yasai.hand cf p (Yasai.side_to_move cf p)) (base_kind (pkind x)) = 18%N)) \/
  (cf_checks cf = true /\ Yasai.ply cf p = 65535%N).
Proof. exact (listed_refused cf n p l m). Qed.
Print Assumptions C41_listed_refused_exactly.

(** what a listed move is there, valid position or not: an own piece goes to a
    square without own piece, or a piece in hand goes to an empty square *)
Theorem C41_listed_shape cf n p l m :
  listed_play cf n p -> Yasai.legal_moves cf p = Some l -> In m l ->
  let c := Yasai.side_to_move cf p in
  match m with
  | Normal f t pr =>
      (exists k, Yasai.piece_at cf p f = Some (mkP k c) /\ (pr = true -> promote_kind k <> None)) /\
      (forall k, Yasai.piece_at cf p t <> Some (mkP k c))
  | Drop t x => pcolor x = c /\ (0 < hand_n (Yasai.hand cf p c) (pkind x))%N /\ Yasai.piece_at cf p t = None
  end.
Proof.
  intros P E I. pose proof (listed_shape cf n p l m (listed_play_kept cf n p P) E I) as L.
  destruct m as [f t pr|t x]; cbv zeta.
  - destruct L as [k [H1 [H2 H3]]]. split; [exists k; split; assumption|exact H3].
  - exact L.
Qed.
Print Assumptions C41_listed_shape.

(** and the keys stay those of the position from scratch *)
Theorem C41_listed_keys cf n p :
  listed_play cf n p ->
  Yasai.keys cf p =
    Some (N.lxor (board_hash (zt cf) (Yasai.piece_at cf p)) (if Nat.odd n then 1%N else 0%N),
          hand_hash (zt cf) (fun c k => hand_n (Yasai.hand cf p c) k)).
Proof. intros P. exact (sd_keys _ _ _ (proj1 (proj2 (listed_play_kept cf n p P)))). Qed.
Print Assumptions C41_listed_keys.

(* the rook leaves the file: play goes on from a position that is not valid *)
Definition rook_aside : move := mv (n5, n9) (n4, n9) false.
Example C41_example b checks : exists p l q, let cf := build b checks in
  Yasai.new cf open_king = Some p /\ Yasai.legal_moves cf p = Some l /\ In rook_aside l /\
  Yasai.do_move cf p rook_aside = Some q /\ listed_play cf 1 q.
Proof.
  set (cf := build b checks).
  assert (H : match Yasai.new cf open_king with
    | Some p => match Yasai.legal_moves cf p, Yasai.do_move cf p rook_aside with
        | Some l, Some q => existsb (is_normal (Sq n5 n9) (Sq n4 n9)) l &&
            forallb (fun m => match m with Normal _ _ pr => negb pr | Drop _ _ => true end)
              (filter (is_normal (Sq n5 n9) (Sq n4 n9)) l)
        | _, _ => false end
    | None => false end = true) by (unfold cf; destruct b, checks; vm_compute; reflexivity).
  destruct (Yasai.new cf open_king) as [p|] eqn:Ep; [|discriminate].
  destruct (Yasai.legal_moves cf p) as [l|] eqn:El; [|discriminate].
  destruct (Yasai.do_move cf p rook_aside) as [q|] eqn:Eq; [|discriminate].
  apply andb_prop in H as [H1 H2]. exists p, l, q. cbv zeta. fold cf.
  assert (I : In rook_aside l).
  { apply existsb_exists in H1 as [m [I E]].
    pose proof (proj1 (forallb_forall _ _) H2 m (proj2 (filter_In _ _ _) (conj I E))) as F. cbn beta in F.
    destruct m as [f t pr|]; [|discriminate]. cbn [is_normal] in E. apply andb_prop in E as [Ef Et].
    destruct (sq_eqb_spec (Sq n5 n9) f) as [<-|]; [|discriminate].
    destruct (sq_eqb_spec (Sq n4 n9) t) as [<-|]; [|discriminate].
    destruct pr; [discriminate|]. exact I. }
  repeat (split; [assumption|]).
  exact (lp_move cf 0 p l rook_aside q (lp_new cf open_king p Ep) El I Eq).
Qed.

(** C42: do_move does not validate.  The king jumps four ranks. *)
Definition king_jump : move := mv (n5, n9) (n5, n5) false.
Theorem C42_do_move_validates_refuted b checks :
  exists p q, reachable (build b checks) [] p /\ ~ legal (view (build b checks) p) king_jump /\
    Yasai.do_move (build b checks) p king_jump = Some q.
Proof.
  assert (H : match Yasai.new (build b checks) startpos with
    | Some p => match Yasai.do_move (build b checks) p king_jump with Some _ => true | None => false end
    | None => false end = true) by (destruct b, checks; vm_compute; reflexivity).
  destruct (demo_new (build b checks) startpos startpos_ok) as [p [l [N [R [G _]]]]].
  rewrite N in H. destruct (Yasai.do_move (build b checks) p king_jump) as [q|] eqn:D; [|discriminate].
  exists p, q. split; [assumption|]. split; [|exact D]. rewrite G.
  intros L. apply legalb_spec in L. vm_compute in L. discriminate.
Qed.
Print Assumptions C42_do_move_validates_refuted.

(** C35 without its restriction: a piece dropped on another one is not undone;
    the covered piece is lost. *)
Definition with_pawn : partial := sfen "4k4/9/9/9/9/9/9/9/4K4" Black "P".
Theorem C35_drop_on_piece_refuted b checks :
  exists pp p q r, let cf := build b checks in
    machine_sized pp /\ Yasai.new cf pp = Some p /\
    Yasai.do_move cf p (dr (n5, n9) Pawn Black) = Some q /\
    Yasai.undo_move cf q (dr (n5, n9) Pawn Black) = Some r /\
    Yasai.piece_at cf p (Sq n5 n9) <> None /\ Yasai.piece_at cf r (Sq n5 n9) = None.
Proof.
  set (cf := build b checks). set (m := dr (n5, n9) Pawn Black).
  assert (H : match Yasai.new cf with_pawn with
    | Some p => match Yasai.do_move cf p m with
       | Some q => match Yasai.undo_move cf q m with
          | Some r => match Yasai.piece_at cf p (Sq n5 n9), Yasai.piece_at cf r (Sq n5 n9) with
              | Some _, None => true | _, _ => false end
          | None => false end | None => false end
    | None => false end = true) by (unfold cf; destruct b, checks; vm_compute; reflexivity).
  exists with_pawn.
  destruct (Yasai.new cf with_pawn) as [p|] eqn:Ep; [|discriminate]. exists p.
  destruct (Yasai.do_move cf p m) as [q|] eqn:Eq; [|discriminate]. exists q.
  destruct (Yasai.undo_move cf q m) as [r|] eqn:Er; [|discriminate]. exists r. cbv zeta.
  fold cf. fold m.
  split; [apply machine_sized_check; vm_compute; reflexivity|]. split; [assumption|]. split; [assumption|].
  split; [assumption|].
  destruct (Yasai.piece_at cf p (Sq n5 n9)), (Yasai.piece_at cf r (Sq n5 n9)); try discriminate.
  split; [discriminate|reflexivity].
Qed.
Print Assumptions C35_drop_on_piece_refuted.
