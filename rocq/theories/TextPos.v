(** * The functions of position.rs, run from the text *)

From Coq Require Import List Bool NArith ZArith String Lia.
From Verif Require Import Types Bitboard Tables Zobrist Position Movegen Init Flat RustSyntax RustNames RustSem TextDefs TextRun TextTables.
Import ListNotations.

Section Specs.
Context (o : bbops) (z : ztable) (checks : bool).
Notation steps := (steps o checks source (statics o z)).
Notation pan := (pan o).
Notation Call := (Enter o).
Notation Ret := (Resume o).

(** ** PartialPosition *)

Lemma sp_occ (p : inner o) e k :
  steps (Call id_PartialPosition id_occupied_bitboard [vinner o p] e k) (Ret (VBB o (occupied o p)) e k).
Proof. into. go. apply steps_refl. Qed.
Lemma sp_king (p : inner o) c e k :
  steps (Call id_PartialPosition id_king_position [vinner o p; VColor o c] e k)
        (Ret (vopt o (VSq o) (king_position o p c)) e k).
Proof. into. go. rewrite hd_map. apply steps_refl. Qed.
Lemma sp_xor_piece (p : inner o) s x q e k : fetch o e q = Some (vinner o p) ->
  steps (Call id_PartialPosition id_xor_piece [VRef o q; VSq o s; VPiece o x] e k)
        (Ret (VUnit o) (store o e q (vinner o (xor_piece o p s x))) k).
Proof.
  intros H. enter_ref H. go. rewrite (put_co (VBB o)), (put_ki (VBB o)). apply steps_refl.
Qed.
Lemma sp_at_mut (p : inner o) s q e k : fetch o e q = Some (vinner o p) ->
  steps (Call id_PartialPosition id_piece_at_mut [VRef o q; VSq o s] e k)
        (Ret (VRef o (deeper q [PF id_board; PI (Z.of_N (sq_index s))])) (store o e q (vinner o p)) k).
Proof. intros H. enter_ref H. go. apply steps_refl. Qed.
Lemma sp_hand_mut (p : inner o) c q e k : fetch o e q = Some (vinner o p) ->
  steps (Call id_PartialPosition id_hand_of_a_player_mut [VRef o q; VColor o c] e k)
        (Ret (VRef o (deeper q [PF id_hands; PI (Z.of_N (color_index c))])) (store o e q (vinner o p)) k).
Proof. intros H. enter_ref H. go. apply steps_refl. Qed.

(** ** AttackInfo *)

Lemma sp_checkers (p : inner o) e k :
  steps (Call id_AttackInfo id_calculate_checkers [vinner o p] e k) (Ret (VBB o (calculate_checkers o p)) e k).
Proof.
  into. go. call (sp_occ p). go. call (sp_king p). go. unfold calculate_checkers.
  destruct (king_position o p (i_side o p)) as [sq|].
  - eapply steps_some; [reflexivity|]. got. apply steps_refl.
  - eapply steps_none; [reflexivity|]. go. apply steps_refl.
Qed.

Definition pin1 (p : inner o) (c : color) (sq : square) (v : carr (bb o)) (sniper : square) : carr (bb o) :=
  let blockers := band o (BETWEEN_TABLE o sq sniper) (occupied o p) in
  if (bcount o blockers =? 1)%N then c_set v c (bor o (c_get v c) blockers) else v.
Definition pins (p : inner o) (v : carr (bb o)) (c : color) : carr (bb o) :=
  match king_position o p c with
  | Some sq => fold_left (pin1 p c sq) (biter o (snipers o p c sq)) v
  | None => v
  end.
Lemma pins_ok p : fold_left (pins p) all_colors (C2 (bempty o) (bempty o)) = C2 (pinned_for o p Black) (pinned_for o p White).
Proof.
  assert (H : forall c v, c_get v c = bempty o -> pins p v c = c_set v c (pinned_for o p c)).
  { intros c v E. unfold pins, pinned_for. destruct (king_position o p c) as [sq|].
    - rewrite <- E. generalize (biter o (snipers o p c sq)). clear E. intros l.
      revert v. induction l as [|s l IH]; intros v; cbn [fold_left].
      + destruct v, c; reflexivity.
      + rewrite IH. unfold pin1. destruct (bcount o _ =? 1)%N; [|reflexivity]. destruct v, c; reflexivity.
    - rewrite <- E. destruct v, c; reflexivity. }
  cbn [all_colors fold_left]. rewrite (H Black) by reflexivity. rewrite (H White) by reflexivity. reflexivity.
Qed.

Lemma one_Z n : (Z.of_N n =? 1)%Z = (n =? 1)%N.
Proof. destruct (N.eqb_spec n 1); lia. Qed.
Lemma sp_info (p : inner o) b e k :
  steps (Call id_AttackInfo id_new [VBB o b; vinner o p] e k) (Ret (vinfo o (attack_info_new o b p)) e k).
Proof.
  into. go. call (sp_occ p). go.
  set (v0 := C2 (bempty o) (bempty o)).
  change [VBB o (bempty o); VBB o (bempty o)] with (map (fun c => VBB o (c_get v0 c)) all_colors).
  loop_fold (pins p) v0.
  { intros c l v. body. call (sp_king p). go. unfold pins.
    destruct (king_position o p c) as [sq|].
    - eapply steps_some; [reflexivity|]. got. loop_fold (pin1 p c sq) v.
      + intros s l' v'. body. unfold pin1. rewrite one_Z.
        destruct (bcount o _ =? 1)%N; go; [rewrite (put_co (VBB o))|]; apply steps_refl.
      + go. apply steps_refl.
    - eapply steps_none; [reflexivity|]. go. apply steps_refl. }
  rewrite pins_ok. unfold attack_info_new, checkables_for. go. call (sp_king p). go.
  destruct (king_position o p (flip (i_side o p))) as [sq|].
  - eapply steps_some; [reflexivity|]. got. apply steps_refl.
  - eapply steps_none; [reflexivity|]. got. apply steps_refl.
Qed.

(** ** From *)

Definition put_hand (pp : partial) (v : carr hand) (c : color) : carr hand := c_set v c (c_get (pp_hands pp) c).
Definition put_square (pp : partial) (t : sqarr (option piece) * (carr (bb o) * karr (bb o))) (s : square) :=
  (sa_set (fst t) s (sa_get (pp_board pp) s), add_square o pp (snd t) s).
Lemma put_hands pp v : fold_left (put_hand pp) all_colors v = pp_hands pp.
Proof. destruct pp as [? ? [] ?], v; reflexivity. Qed.
Lemma put_squares pp l t : fold_left (put_square pp) l t =
  (fold_left (fun v s => sa_set v s (sa_get (pp_board pp) s)) l (fst t), fold_left (add_square o pp) l (snd t)).
Proof.
  revert t. induction l as [|s l IH]; intros [b t]; cbn [fold_left]; [reflexivity|].
  rewrite IH. reflexivity.
Qed.
Lemma put_board (v w : sqarr (option piece)) : fold_left (fun v s => sa_set v s (sa_get w s)) all_squares v = w.
Proof. destruct v as [[] [] [] [] [] [] [] [] []], w as [[] [] [] [] [] [] [] [] []]; reflexivity. Qed.

Lemma sp_from (pp : partial) e k :
  steps (Call id_PartialPosition id_from [VPartial o pp] e k) (Ret (vinner o (inner_of_partial o pp)) e k).
Proof.
  into. go.
  set (h0 := C2 hand_empty hand_empty).
  change (repeat (VHand o hand_empty) (Z.to_nat 2)) with (map (fun c => VHand o (c_get h0 c)) all_colors).
  loop_fold (put_hand pp) h0.
  { intros c l v. body. rewrite (put_co (VHand o)). apply steps_refl. }
  rewrite put_hands. go.
  set (t0 := (sa_make (fun _ => @None piece), (C2 (bempty o) (bempty o), k_const (bempty o)))).
  change (repeat (VOpt o None) (Z.to_nat 81)) with
    (map (fun s => (fun x => VOpt o (option_map (VPiece o) x)) (sa_get (fst t0) s)) all_squares).
  change (repeat (VBB o (bempty o)) (Z.to_nat 2)) with (map (fun c => VBB o (c_get (fst (snd t0)) c)) all_colors).
  change (repeat (VBB o (bempty o)) (Z.to_nat 14)) with (map (fun c => VBB o (k_get (snd (snd t0)) c)) all_kinds).
  loop_fold (put_square pp) t0.
  { intros s l [b [t t']]. cbn [fst snd]. body. unfold put_square, add_square. cbn [fst snd].
    rewrite (put_sq (fun x => VOpt o (option_map (VPiece o) x))).
    destruct (sa_get (pp_board pp) s) as [x|].
    - eapply steps_some; [reflexivity|]. go. rewrite (put_co (VBB o)), (put_ki (VBB o)). apply steps_refl.
    - eapply steps_none; [reflexivity|]. go. apply steps_refl. }
  rewrite put_squares. unfold t0, inner_of_partial. cbn [fst snd]. rewrite put_board.
  generalize (fold_left (add_square o pp) all_squares (C2 (bempty o) (bempty o), k_const (bempty o))). intros t.
  go. apply steps_refl.
Qed.

(** ** Position: what it shows *)

Definition at_pos (p : position o) (f : N) (args : list (val o)) (r : option (val o)) : Prop :=
  forall e k, steps (Call id_Position f (vpos o p :: args) e k) (pan r (fun v => Ret v e k)).

Lemma sp_side p : at_pos p id_side_to_move [] (Some (VColor o (side_to_move o p))).
Proof. intros e k. into. go. apply steps_refl. Qed.
Lemma sp_ply p : at_pos p id_ply [] (Some (VInt o U16 (Z.of_N (ply o p)))).
Proof. intros e k. into. go. apply steps_refl. Qed.
Lemma sp_hand_of p c : at_pos p id_hand [VColor o c] (Some (VHand o (hand_of o p c))).
Proof. intros e k. into. go. apply steps_refl. Qed.
Lemma sp_inner_at (p : inner o) s e k :
  steps (Call id_PartialPosition id_piece_at [vinner o p; VSq o s] e k) (Ret (vpiece_opt o (i_piece_at o p s)) e k).
Proof. into. go. apply steps_refl. Qed.
Lemma sp_inner_hand (p : inner o) c e k :
  steps (Call id_PartialPosition id_hand_of_a_player [vinner o p; VColor o c] e k) (Ret (VHand o (i_hand o p c)) e k).
Proof. into. go. apply steps_refl. Qed.
Lemma sp_at p s : at_pos p id_piece_at [VSq o s] (Some (vpiece_opt o (piece_at o p s))).
Proof. intros e k. into. go. call (sp_inner_at (p_inner o p)). go. apply steps_refl. Qed.

Ltac open_state st := let v := eval cbv [vstate] in (vstate o st) in change (vstate o st) with v.
Lemma sp_state p : at_pos p id_state [] (option_map (vstate o) (pos_state o p)).
Proof.
  intros e k. into. go. unfold pos_state. rewrite rev_involutive, hd_map.
  destruct (hd_error (p_states o p)) as [st|]; cbn [option_map].
  - eapply steps_some; [reflexivity|]. open_state st. go. apply steps_refl.
  - apply steps_none; [reflexivity|]. apply steps_refl.
Qed.
(* what a function reads from the last state *)
Definition in_state (p : position o) (g : state o -> val o) : option (val o) := option_map g (pos_state o p).
Ltac state p :=
  call (sp_state p);
  let st := fresh "st" in
  destruct (pos_state o p) as [st|]; cbn [option_map bind]; [cbv [TextRun.pan]; open_state st; go|apply steps_refl].
Lemma sp_checkers_of p : at_pos p id_checkers [] (in_state p (fun st => VBB o (ai_checkers o (s_attack_info o st)))).
Proof. intros e k. unfold in_state. into. go. state p. into. go. apply steps_refl. Qed.
Lemma sp_pinned p c : at_pos p id_pinned [VColor o c] (in_state p (fun st => VBB o (ai_pinned_of o (s_attack_info o st) c))).
Proof. intros e k. unfold in_state. into. go. state p. into. go. apply steps_refl. Qed.
Lemma sp_checkable p x s :
  at_pos p id_checkable [VKind o x; VSq o s] (in_state p (fun st => VBool o (ai_checkable o (s_attack_info o st) x s))).
Proof. intros e k. unfold in_state. into. go. state p. into. go. apply steps_refl. Qed.
Lemma sp_captured p : at_pos p id_captured [] (in_state p (fun st => vpiece_opt o (s_captured o st))).
Proof. intros e k. unfold in_state. into. go. state p. apply steps_refl. Qed.
Lemma sp_last_moved p : at_pos p id_last_moved [] (in_state p (fun st => vpiece_opt o (s_last_moved o st))).
Proof. intros e k. unfold in_state. into. go. state p. apply steps_refl. Qed.
Lemma sp_player_bb p c : at_pos p id_player_bitboard [VColor o c] (Some (VBB o (player_bb o (p_inner o p) c))).
Proof. intros e k. into. go. apply steps_refl. Qed.
Lemma sp_kind_bb p x : at_pos p id_piece_kind_bitboard [VKind o x] (Some (VBB o (piece_bb o (p_inner o p) x))).
Proof. intros e k. into. go. apply steps_refl. Qed.
Lemma sp_piece_bb p x : at_pos p id_piece_bitboard [VPiece o x]
  (Some (VBB o (band o (piece_bb o (p_inner o p) (pkind x)) (player_bb o (p_inner o p) (pcolor x))))).
Proof. intros e k. into. go. apply steps_refl. Qed.
Lemma sp_occupied p : at_pos p id_occupied_bitboard [] (Some (VBB o (occupied o (p_inner o p)))).
Proof. intros e k. into. go. call (sp_occ (p_inner o p)). go. apply steps_refl. Qed.
Lemma sp_king_of p c : at_pos p id_king_position [VColor o c] (Some (vopt o (VSq o) (king_position o (p_inner o p) c))).
Proof. intros e k. into. go. call (sp_king (p_inner o p)). go. apply steps_refl. Qed.

Lemma sp_value a e k : steps (Call id_Key id_value [vkey o a] e k) (Ret (VInt o U64 (Z.of_N a)) e k).
Proof. into. go. apply steps_refl. Qed.
Lemma sp_key p : at_pos p id_key [] (option_map (fun n => VInt o U64 (Z.of_N n)) (pos_key o p)).
Proof.
  intros e k. unfold pos_key. into. go. call (sp_state p).
  pose proof (sp_state p) as H. unfold at_pos in H.
  destruct (pos_state o p) as [st|]; cbn [option_map bind]; [cbv [TextRun.pan]; open_state st; go|apply steps_refl].
  call H. cbv [TextRun.pan]. cbn [option_map]. open_state st. go. got. call sp_value. go. apply steps_refl.
Qed.
Lemma sp_keys p :
  at_pos p id_keys [] (option_map (fun n => VTup o [VInt o U64 (Z.of_N (fst n)); VInt o U64 (Z.of_N (snd n))]) (pos_keys o p)).
Proof.
  intros e k. unfold pos_keys. into. go. call (sp_state p).
  pose proof (sp_state p) as H. unfold at_pos in H.
  destruct (pos_state o p) as [st|]; cbn [option_map bind]; [cbv [TextRun.pan]; open_state st; go|apply steps_refl].
  call sp_value. go. call H. cbv [TextRun.pan]. cbn [option_map]. open_state st. go. call sp_value. go. apply steps_refl.
Qed.
Lemma sp_in_check p : at_pos p id_in_check [] (option_map (VBool o) (pos_in_check o p)).
Proof.
  intros e k. unfold pos_in_check. into. go. call (sp_checkers_of p). unfold in_state.
  destruct (pos_state o p) as [st|]; cbn [option_map bind]; [cbv [TextRun.pan]|apply steps_refl].
  go. apply steps_refl.
Qed.

(* a decision on an optional value *)
Tactic Notation "dec" constr(x) "as" ident(a) :=
  destruct x as [a|]; cbn [option_map bind];
  [eapply steps_some; [reflexivity|]; go|apply steps_none; [reflexivity|]].
(* a call that reads the last state [st] *)
Ltac call_st H := eapply steps_trans; [apply H|]; cbv [in_state]; cbn [option_map]; cbv [TextRun.pan]; go.

Lemma sp_is_check_move p m : at_pos p id_is_check_move [VMove o m] (option_map (VBool o) (is_check_move o p m)).
Proof.
  intros e k. unfold is_check_move. pose proof (sp_checkable p) as Hc. pose proof (sp_pinned p) as Hp.
  unfold at_pos, in_state in Hc, Hp. destruct m as [from to promote|to piece].
  - into. go. call (sp_inner_at (p_inner o p)). go.
    destruct (i_piece_at o (p_inner o p) from) as [piece|].
    2:{ apply steps_none; [reflexivity|]. destruct (pos_state o p); apply steps_refl. }
    eapply steps_some; [reflexivity|]. go.
    destruct promote; cbn [bind]; go.
    1: apply steps_else; go.
    all: call Hc; destruct (pos_state o p) as [st|]; cbn [option_map bind]; [cbv [TextRun.pan]; go|apply steps_refl].
    all: match goal with |- steps (BrB _ ?b _ _) _ => destruct b; go; [apply steps_refl|] end.
    all: call Hp; cbn [option_map bind]; cbv [TextRun.pan]; go.
    all: match goal with |- steps (BrB _ ?b _ _) _ => destruct b; go; [|apply steps_refl] end.
    all: call (sp_king_of p); cbn [option_map bind]; cbv [TextRun.pan]; go.
    all: destruct (king_position o (p_inner o p) _) as [sq|]; cbn [option_map bind];
         [eapply steps_some; [reflexivity|]; go|apply steps_none; [reflexivity|]; apply steps_refl].
    all: unfold stays_on_line.
    all: match goal with |- steps (BrB _ ?b _ _) _ => destruct b; go; apply steps_refl end.
  - into. go. call Hc. destruct (pos_state o p) as [st|]; cbn [option_map bind]; [cbv [TextRun.pan]; go|]; apply steps_refl.
Qed.

(** ** Position::new *)

Lemma for_fold_left {A T} (f : A -> T -> option T) l t :
  fold_left (fun acc x => let* a := acc in f x a) l (Some t) = for_each l f t.
Proof.
  assert (N : forall l, fold_left (fun acc x => let* a := acc in f x a) l None = None)
    by (intros l'; induction l' as [|y l' IH]; [reflexivity|exact IH]).
  revert t. induction l as [|x l IH]; intros t; cbn [fold_left for_each bind]; [reflexivity|].
  destruct (f x t); [apply IH|apply N].
Qed.
Lemma for_app {A T} (f : A -> T -> option T) l m t :
  for_each (l ++ m) f t = let* u := for_each l f t in for_each m f u.
Proof.
  revert t. induction l as [|x l IH]; intros t; cbn [for_each app bind]; [reflexivity|].
  destruct (f x t); [apply IH|reflexivity].
Qed.
Lemma for_map {A B T} (g : B -> A) (f : A -> T -> option T) l t :
  for_each (map g l) f t = for_each l (fun x => f (g x)) t.
Proof.
  revert t. induction l as [|x l IH]; intros t; cbn [for_each map]; [reflexivity|].
  destruct (f (g x) t); cbn [bind]; [apply IH|reflexivity].
Qed.
Lemma for_flat {A B T} (g : B -> list A) (f : A -> T -> option T) l t :
  for_each (flat_map g l) f t = for_each l (fun x => for_each (g x) f) t.
Proof.
  revert t. induction l as [|x l IH]; intros t; cbn [for_each flat_map]; [reflexivity|].
  rewrite for_app. destruct (for_each (g x) f t); cbn [bind]; [apply IH|reflexivity].
Qed.
Lemma for_ext {A T} (f g : A -> T -> option T) l t : (forall x t, f x t = g x t) -> for_each l f t = for_each l g t.
Proof.
  intros H. revert t. induction l as [|x l IH]; intros t; cbn [for_each]; [reflexivity|].
  rewrite H. destruct (g x t); cbn [bind]; [apply IH|reflexivity].
Qed.
Definition key_step (c : color) (x : kind) (n : N) (a : key) : option key :=
  let* h := z_hand z c x n in Some (N.lxor a h).
Definition numbers (n : N) : list N := map N.of_nat (seq 0 (N.to_nat n)).
Lemma keys_loop c x i n a :
  hand_keys_loop z c x i n a = for_each (map (fun j => i + N.of_nat j)%N (seq 0 n)) (key_step c x) a.
Proof.
  revert i a. induction n as [|n IH]; intros i a; [reflexivity|].
  cbn [hand_keys_loop seq map for_each]. unfold key_step at 1. rewrite N.add_0_r.
  destruct (z_hand z c x i); cbn [bind]; [|reflexivity].
  rewrite IH, <- seq_shift, map_map. f_equal. apply map_ext. intros j. lia.
Qed.
Definition key_kind (p : inner o) (c : color) (x : kind) (a : key) : option key :=
  match hand_count (i_hand o p c) x with
  | Some num => for_each (numbers num) (key_step c x) a
  | None => Some a
  end.
Definition key_color (p : inner o) (c : color) (a : key) : option key := for_each hand_kinds (key_kind p c) a.
Lemma hand_keys_each p : hand_keys o z p = for_each all_colors (key_color p) KEY_ZERO.
Proof.
  unfold hand_keys. rewrite for_fold_left, for_flat. apply for_ext. intros c t. rewrite for_map.
  apply for_ext. intros x t'. unfold key_kind. cbn [fst snd].
  destruct (hand_count _ _) as [n|]; [|reflexivity]. rewrite keys_loop. reflexivity.
Qed.
Lemma zrange_0 n : zrange 0 (Z.of_N n) = map Z.of_N (numbers n).
Proof.
  unfold zrange, numbers. rewrite Z.sub_0_r, map_map. replace (Z.to_nat (Z.of_N n)) with (N.to_nat n) by lia.
  apply map_ext. intros i. lia.
Qed.

Definition key_square (p : inner o) (a : key) (s : square) : key :=
  match i_piece_at o p s with Some x => N.lxor a (z_board z s x) | None => a end.
Lemma sp_new (pp : partial) e k :
  steps (Call id_Position id_new [VPartial o pp] e k) (pan (pos_new o z pp) (fun p => Ret (vpos o p) e k)).
Proof.
  into. go. call sp_from. unfold pos_new. generalize (inner_of_partial o pp). intros p. go.
  rewrite hand_keys_each. unfold board_keys.
  pose (a0 := KEY_ZERO). pose (b0 := KEY_ZERO).
  change (VTup o [_; _]) with (VTup o [vkey o a0; vkey o b0]).
  loop_fold (key_square p) a0.
  { intros s l a. body. unfold key_square, i_piece_at. destruct (sa_get (i_board o p) s) as [x|].
    - eapply steps_some; [reflexivity|]. got. call (sp_xor_assign o z checks a); [reflexivity|]. go. apply steps_refl.
    - eapply steps_none; [reflexivity|]. go. apply steps_refl. }
  change (fold_left _ all_squares KEY_ZERO) with (fold_left (key_square p) all_squares a0).
  generalize (fold_left (key_square p) all_squares a0). intros a. go.
  change KEY_ZERO with b0. loop (key_color p) b0.
  { intros c l b. body. unfold key_color. loop (key_kind p c) b.
    - intros x l' b'. body. unfold key_kind.
      change (i_hand o p c) with (c_get (i_hands o p) c).
      destruct (hand_count (c_get (i_hands o p) c) x) as [n|].
      + eapply steps_some; [reflexivity|]. go. rewrite zrange_0, map_map. loop (key_step c x) b'.
        * intros i l'' b''. body. call (sp_hand o z checks c x i). unfold key_step.
          destruct (z_hand z c x i) as [h|]; cbv [TextRun.pan bind]; [go|apply steps_refl].
          call (sp_xor_assign o z checks b''); [reflexivity|]. go. apply steps_refl.
        * destruct (for_each _ _ _); cbv [TextRun.pan]; [go|]; apply steps_refl.
      + eapply steps_none; [reflexivity|]. go. apply steps_refl.
    - destruct (for_each _ _ _); cbv [TextRun.pan]; [go|]; apply steps_refl. }
  destruct (for_each _ _ _) as [b|]; cbv [TextRun.pan bind]; [go|apply steps_refl].
  call (sp_checkers p). go. call (sp_info p). go. apply steps_refl.
Qed.
Lemma sp_default e k :
  steps (Call id_Position id_default [] e k) (pan (pos_new o z partial_startpos) (fun p => Ret (vpos o p) e k)).
Proof.
  into. go. call sp_new. destruct (pos_new o z partial_startpos) as [p|]; cbv [TextRun.pan]; [|apply steps_refl].
  go. apply steps_refl.
Qed.

(** ** do_move *)

Lemma incr_Z n : (n < 65536)%N -> arith checks U16 (Z.of_N n + 1) = option_map Z.of_N (incr16 checks n).
Proof.
  intros H. unfold arith, incr16, in_range, wrap. cbn [width].
  destruct (N.eqb_spec n 65535) as [->|D]; [destruct checks; reflexivity|].
  replace ((0 <=? Z.of_N n + 1)%Z && (Z.of_N n + 1 <? 2 ^ 16)%Z)%bool with true
    by (symmetry; apply andb_true_intro; change (2 ^ 16)%Z with 65536%Z; split; lia).
  cbn [option_map]. f_equal. lia.
Qed.
Lemma decr_Z n : (n < 65536)%N -> arith checks U16 (Z.of_N n - 1) = option_map Z.of_N (decr16 checks n).
Proof.
  intros H. unfold arith, decr16, in_range, wrap. cbn [width].
  destruct (N.eqb_spec n 0) as [->|D]; [destruct checks; reflexivity|].
  replace ((0 <=? Z.of_N n - 1)%Z && (Z.of_N n - 1 <? 2 ^ 16)%Z)%bool with true
    by (symmetry; apply andb_true_intro; change (2 ^ 16)%Z with 65536%Z; split; lia).
  cbn [option_map]. f_equal. lia.
Qed.

(* the board after a move and what remains to be done *)
Ltac put_board := rewrite (put_sq (fun x => VOpt o (option_map (VPiece o) x)) _ _ None) ||
                  rewrite (put_sq (fun x => VOpt o (option_map (VPiece o) x)) _ _ (Some _)).
Ltac end_move i Y K0 Hp :=
  match goal with |- context [arith checks U16 (Z.of_N ?n + 1)] => change n with (i_ply o i) end;
  match goal with |- context [incr16 checks ?n] => change n with (i_ply o i) end;
  rewrite (incr_Z (i_ply o i)) by exact Hp;
  let n := fresh "n" in
  destruct (incr16 checks (i_ply o i)) as [n|]; cbn [option_map bind];
  [eapply steps_some; [reflexivity|]; go|apply steps_none; [reflexivity|]; apply steps_refl];
  call (sp_xor_assign o z checks K0 KEY_COLOR); [reflexivity|]; go;
  call (sp_info (set_ply o Y n)); go;
  rewrite rev_involutive; apply steps_refl.
(* the rest of a move on the board; [X]: without the captured piece, [y]: the piece that arrives *)
Ltac rest_move X y k0 i from to piece chk Hp :=
  call (sp_xor_piece X); [reflexivity|]; go; call (sp_xor_piece (xor_piece o X from piece)); [reflexivity|]; go;
  call (sp_at_mut (xor_piece o (xor_piece o X from piece) to y)); [reflexivity|]; go;
  rewrite (put_sq (fun x => VOpt o (option_map (VPiece o) x)) _ from None);
  call (sp_at_mut (set_piece_at o (xor_piece o (xor_piece o X from piece) to y) from None)); [reflexivity|]; go;
  rewrite (put_sq (fun x => VOpt o (option_map (VPiece o) x)) _ to (Some y));
  got;
  call (sp_xor_assign o z checks k0); [reflexivity|]; got;
  call (sp_xor_assign o z checks (N.lxor k0 (z_board z from piece))); [reflexivity|]; go;
  let Y := fresh "Y" in
  pose (Y := set_side o (set_piece_at o (set_piece_at o (xor_piece o (xor_piece o X from piece) to y) from None) to (Some y)) (flip (i_side o i)));
  destruct chk; go; [call (sp_checkers Y); go|];
  end_move i Y (N.lxor (N.lxor k0 (z_board z from piece)) (z_board z to y)) Hp.
Lemma sp_do_move p m q e k : (ply o p < 65536)%N -> fetch o e q = Some (vpos o p) ->
  steps (Call id_Position id_do_move [VRef o q; VMove o m] e k)
        (pan (do_move o z checks p m) (fun p' => Ret (VUnit o) (store o e q (vpos o p')) k)).
Proof.
  intros Hp H. enter_ref H. go. call (sp_side p). cbv [TextRun.pan]. go. call (sp_is_check_move p).
  unfold do_move. destruct (is_check_move o p m) as [chk|]; cbn [option_map bind]; cbv [TextRun.pan]; [|apply steps_refl].
  go. call (sp_inner_at (p_inner o p)). go. call (sp_state p). clear H.
  destruct p as [i l]. unfold ply in Hp. cbn [p_inner p_states] in *. unfold pos_state. cbn [p_states].
  destruct l as [|st l]; cbn [hd_error option_map bind]; cbv [TextRun.pan]; [apply steps_refl|].
  open_state st. unfold side_to_move. cbn [p_inner]. destruct (s_keys o st) as [k0 k1].
  destruct m as [from to promote|to piece]; cbn [move_to]; go.
  - call (sp_inner_at i). go. dec (i_piece_at o i from) as piece; [|apply steps_refl].
    unfold do_capture. destruct (i_piece_at o i to) as [x|].
    + eapply steps_some; [reflexivity|]. go. apply steps_else. go. got.
      call (sp_xor_assign o z checks k0); [reflexivity|]. go.
      call (sp_inner_hand i). go.
      set (pk := match unpromote_kind (pkind x) with Some k0 => k0 | None => pkind x end).
      dec (hand_count (i_hand o i (i_side o i)) pk) as n; [|apply steps_refl].
      call (sp_hand o z checks (i_side o i) pk n). destruct (z_hand z (i_side o i) pk n) as [hk|]; cbn [bind]; cbv [TextRun.pan]; [|apply steps_refl].
      go. call (sp_xor_assign o z checks k1); [reflexivity|]. go.
      call (sp_xor_piece i); [reflexivity|]. go.
      call (sp_hand_mut (xor_piece o i to x)); [reflexivity|]. go. unfold i_hand.
      dec (hand_added (c_get (i_hands o (xor_piece o i to x)) (i_side o i)) pk) as h; [|apply steps_refl].
      rewrite (put_co (VHand o)). set (X := set_hand o (xor_piece o i to x) (i_side o i) h).
      cbn [fst snd bind].
      destruct promote; cbn [bind]; go.
      * dec (promote_piece piece) as y; [|apply steps_refl].
        rest_move X y (N.lxor k0 (z_board z to x)) i from to piece chk Hp.
      * rest_move X piece (N.lxor k0 (z_board z to x)) i from to piece chk Hp.
    + eapply steps_none; [reflexivity|]. go. cbn [fst snd bind]. destruct promote; cbn [bind]; go.
      * dec (promote_piece piece) as y; [|apply steps_refl]. rest_move i y k0 i from to piece chk Hp.
      * rest_move i piece k0 i from to piece chk Hp.
  - call (sp_xor_piece i); [reflexivity|]. go. call (sp_at_mut (xor_piece o i to piece)); [reflexivity|]. go.
    rewrite (put_sq (fun x => VOpt o (option_map (VPiece o) x)) _ to (Some piece)).
    set (X := set_piece_at o (xor_piece o i to piece) to (Some piece)).
    call (sp_hand_mut X); [reflexivity|]. go. unfold i_hand at 1.
    change (i_hands o (xor_piece o i to piece)) with (i_hands o X).
    dec (hand_removed (c_get (i_hands o X) (i_side o i)) (pkind piece)) as h; [|apply steps_refl].
    rewrite (put_co (VHand o)).
    set (Y := set_side o (set_hand o X (i_side o i) h) (flip (i_side o i))).
    call (sp_inner_hand Y). go.
    dec (hand_count (i_hand o Y (i_side o i)) (pkind piece)) as n; [|apply steps_refl].
    call (sp_hand o z checks (i_side o i) (pkind piece) n).
    destruct (z_hand z (i_side o i) (pkind piece) n) as [hk|]; cbn [bind]; cbv [TextRun.pan]; [|apply steps_refl]. go.
    call (sp_xor_assign o z checks k1); [reflexivity|]. got. cbn [fst snd].
    call (sp_xor_assign o z checks k0); [reflexivity|]. go.
    destruct chk; go; end_move i Y (N.lxor k0 (z_board z to piece)) Hp.
Qed.

(** ** undo_move *)

Lemma pop_map (l : list (state o)) : removelast (rev (map (vstate o) l)) = rev (map (vstate o) (tl l)).
Proof. destruct l as [|st l]; [reflexivity|]. cbn [map rev tl]. apply removelast_last. Qed.
Ltac end_undo i Hp :=
  match goal with |- context [arith checks U16 (Z.of_N ?n - 1)] => change n with (i_ply o i) end;
  match goal with |- context [decr16 checks ?n] => change n with (i_ply o i) end;
  rewrite (decr_Z (i_ply o i)) by exact Hp;
  let n := fresh "n" in
  destruct (decr16 checks (i_ply o i)) as [n|]; cbn [option_map bind];
  [eapply steps_some; [reflexivity|]; go|apply steps_none; [reflexivity|]; apply steps_refl];
  rewrite pop_map; apply steps_refl.
Ltac rest_undo X i from to lm cap Hp :=
  call (sp_xor_piece X); [reflexivity|]; go; call (sp_inner_at (xor_piece o X from lm)); go;
  let t := fresh "t" in
  dec (i_piece_at o (xor_piece o X from lm) to) as t; [|apply steps_refl];
  call (sp_xor_piece (xor_piece o X from lm)); [reflexivity|]; go;
  call (sp_at_mut (xor_piece o (xor_piece o X from lm) to t)); [reflexivity|]; go;
  rewrite (put_sq (fun x => VOpt o (option_map (VPiece o) x)) _ from (Some lm));
  call (sp_at_mut (set_piece_at o (xor_piece o (xor_piece o X from lm) to t) from (Some lm))); [reflexivity|]; go;
  rewrite (put_sq (fun x => VOpt o (option_map (VPiece o) x)) _ to cap);
  end_undo i Hp.

Lemma sp_undo_move p m q e k : (ply o p < 65536)%N -> fetch o e q = Some (vpos o p) ->
  steps (Call id_Position id_undo_move [VRef o q; VMove o m] e k)
        (pan (undo_move o checks p m) (fun p' => Ret (VUnit o) (store o e q (vpos o p')) k)).
Proof.
  intros Hp H. enter_ref H. go. call (sp_side p). cbv [TextRun.pan]. clear H. unfold undo_move, side_to_move.
  pose proof (sp_last_moved p) as Hl. pose proof (sp_captured p) as Hc. unfold at_pos, in_state in Hl, Hc.
  destruct p as [i l]. unfold ply in Hp. cbn [p_inner p_states] in *. unfold pos_state in *. cbn [p_states] in *.
  destruct m as [from to promote|to piece].
  - go. call Hl. destruct l as [|st l]; cbn [hd_error option_map bind] in *; cbv [TextRun.pan]; [apply steps_refl|].
    go. dec (s_last_moved o st) as lm; [|apply steps_refl].
    call Hc. cbv [TextRun.pan]. go. destruct (s_captured o st) as [x|].
    + eapply steps_some; [reflexivity|]. go. apply steps_else. go.
      call (sp_xor_piece i); [reflexivity|]. go.
      call (sp_hand_mut (xor_piece o i to x)); [reflexivity|]. go. unfold i_hand.
      set (pk := match unpromote_kind (pkind x) with Some k0 => k0 | None => pkind x end).
      dec (hand_removed (c_get (i_hands o (xor_piece o i to x)) (flip (i_side o i))) pk) as h; [|apply steps_refl].
      rewrite (put_co (VHand o)). set (X := set_hand o (xor_piece o i to x) (flip (i_side o i)) h).
      rest_undo X i from to lm (Some x) Hp.
    + eapply steps_none; [reflexivity|]. go. cbn [bind]. rest_undo i i from to lm (@None piece) Hp.
  - go. call (sp_xor_piece i); [reflexivity|]. go. call (sp_at_mut (xor_piece o i to piece)); [reflexivity|]. go.
    rewrite (put_sq (fun x => VOpt o (option_map (VPiece o) x)) _ to None).
    set (X := set_piece_at o (xor_piece o i to piece) to None).
    call (sp_hand_mut X); [reflexivity|]. go. unfold i_hand at 1.
    change (i_hands o (xor_piece o i to piece)) with (i_hands o X).
    dec (hand_added (c_get (i_hands o X) (flip (i_side o i))) (pkind piece)) as h; [|apply steps_refl].
    rewrite (put_co (VHand o)). end_undo i Hp.
Qed.
End Specs.
