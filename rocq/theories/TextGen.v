(** * The functions of movegen.rs, run from the text *)

From Coq Require Import List Bool NArith ZArith Lia.
From Verif Require Import Types Bitboard Tables Zobrist Position Movegen Init Flat RustSyntax RustNames RustSem TextDefs TextRun TextTables TextPos.
Import ListNotations.

Definition pushes (av : list move) (ms : list move) : option (list move) :=
  for_each ms (fun m av => av_push av m) av.
Lemma push_all_pushes ms : push_all ms = pushes [] ms.
Proof. unfold push_all. apply (for_fold_left (fun m av => av_push av m)). Qed.
Lemma pushes_app av l m : pushes av (l ++ m) = let* av := pushes av l in pushes av m.
Proof. apply for_app. Qed.

(* calls of the accessors *)
Ltac acc p :=
  eapply steps_trans;
  [first [apply (sp_side _ _ _ p) | apply (sp_player_bb _ _ _ p) | apply (sp_kind_bb _ _ _ p)
         | apply (sp_piece_bb _ _ _ p) | apply (sp_occupied _ _ _ p) | apply (sp_king_of _ _ _ p)
         | apply (sp_hand_of _ _ _ p) | apply (sp_at _ _ _ p)]|];
  lazymatch goal with |- steps ?o ?ch ?s ?st (TextRun.pan ?o (Some ?v) ?f) ?r => change (steps o ch s st (f v) r); cbv beta end.
Ltac goa p := repeat first [go1 | tab | acc p].
(* what a call reads from the last state *)
Ltac of_state p st E :=
  eapply steps_trans; [first [apply (sp_pinned _ _ _ p) | apply (sp_checkers_of _ _ _ p)]|];
  unfold in_state at 1; rewrite E at 1; cbn [option_map];
  lazymatch goal with |- steps ?o ?ch ?s ?st (TextRun.pan ?o (Some ?v) ?f) ?r => change (steps o ch s st (f v) r); cbv beta end.
Ltac goal_if := match goal with
  | |- steps _ _ _ _ (BrB _ (negb ?b) _ _) _ => destruct b; cbn [negb andb orb]
  | |- steps _ _ _ _ (BrB _ ?b _ _) _ => destruct b; cbn [negb andb orb]
  end.

Section Specs.
Context (o : bbops) (z : ztable) (checks : bool).
Notation steps := (steps o checks source (statics o z)).
Notation pan := (pan o).
Notation Call := (Enter o).
Notation Ret := (Resume o).

Lemma push_map l m : rev (VMove o m :: rev (map (VMove o) l)) = map (VMove o) (l ++ [m]).
Proof. cbn [rev]. rewrite rev_involutive, map_app. reflexivity. Qed.
Lemma push_len (l : list move) : (N.of_nat (List.length (map (VMove o) l)) <? 593)%N = Nat.ltb (List.length l) MAX_LEGAL_MOVES.
Proof.
  rewrite map_length. change MAX_LEGAL_MOVES with (N.to_nat 593).
  destruct (N.ltb_spec (N.of_nat (List.length l)) 593), (Nat.ltb_spec (List.length l) (N.to_nat 593)); lia.
Qed.


(** ** Attackers *)

Lemma sp_attackers (p : position o) c to occ e k :
  steps (Call id_Position id_attackers_to [vpos o p; VColor o c; VSq o to; VBB o occ] e k)
        (Ret (VBB o (attackers_to o (p_inner o p) c to occ)) e k).
Proof. into. goa p. apply steps_refl. Qed.
Lemma sp_attackers_klp (p : position o) c to e k :
  steps (Call id_Position id_attackers_to_except_klp [vpos o p; VColor o c; VSq o to] e k)
        (Ret (VBB o (attackers_to_except_klp o (p_inner o p) c to)) e k).
Proof. into. goa p. apply steps_refl. Qed.

(** ** Generators *)

Definition gens (p : position o) (f : N) (g : bb o -> list move) : Prop :=
  forall av target q e k, fetch o e q = Some (vmoves o av) ->
  steps (Call id_Position f [vpos o p; VRef o q; VBB o target] e k)
        (pan (pushes av (g target)) (fun av' => Ret (VUnit o) (store o e q (vmoves o av')) k)).

(* av.push(m), and the decisions about promotion *)
Ltac push1 :=
  lazymatch goal with
  | |- steps (BrB _ (N.of_nat _ <? 593)%N _ _) _ =>
      rewrite push_len; cbn [for_each app]; unfold av_push at 1;
      match goal with |- context [Nat.ltb ?n ?m] => destruct (Nat.ltb n m) end;
      cbn [bind]; go; [rewrite push_map|apply steps_refl]
  | |- steps (BrB _ ?b _ _) _ => destruct b; cbn [for_each bind orb]
  end.
Ltac push := cbv [push_forward push_optional push_plain]; repeat first [go1 | push1]; cbn [for_each]; apply steps_refl.
(* the end of a loop *)
Ltac end_loop := destruct (for_each _ _ _); cbv [TextRun.pan]; [go|]; apply steps_refl.
(* a generator with two loops *)
Ltac gen p att pf :=
  let av := fresh "av" in let target := fresh "target" in let q := fresh "q" in
  let e := fresh "e" in let k := fresh "k" in let H := fresh "H" in
  intros av target q e k H; enter_ref H; goa p; cbv [gen_ky gen_ke gen_gi gen_ka gen_hi gen_ki gen_ou gen_um gen_ry gen_from own side_to_move pushes]; rewrite for_flat;
  loop (fun from => for_each (flat_map (pf from) (iter_and o (att from) target)) (fun m av => av_push av m)) av;
  [let v := fresh "v" in
   intros ? ? v; body; goa p; rewrite for_flat;
   match goal with |- steps _ (TextRun.pan _ (for_each ?l ?f _) _) => loop f v end;
   [intros ? ? ?; body; push|end_loop]
  |end_loop].
Notation turn p := (i_side o (p_inner o p)).
Notation occ p := (occupied o (p_inner o p)).
Lemma gen_ky_ok p : gens p id_generate_for_ky (gen_ky o (p_inner o p)).
Proof. gen p (fun from => ky_attack o from (turn p) (occ p)) (push_forward (turn p) 1). Qed.
Lemma gen_ke_ok p : gens p id_generate_for_ke (gen_ke o (p_inner o p)).
Proof. gen p (fun from => ke_attack o from (turn p)) (push_forward (turn p) 2). Qed.
Lemma gen_gi_ok p : gens p id_generate_for_gi (gen_gi o (p_inner o p)).
Proof. gen p (fun from => gi_attack o from (turn p)) (push_optional (turn p)). Qed.
Lemma gen_ka_ok p : gens p id_generate_for_ka (gen_ka o (p_inner o p)).
Proof. gen p (fun from => ka_attack o from (occ p)) (push_optional (turn p)). Qed.
Lemma gen_hi_ok p : gens p id_generate_for_hi (gen_hi o (p_inner o p)).
Proof. gen p (fun from => hi_attack o from (occ p)) (push_optional (turn p)). Qed.
Lemma gen_ki_ok p : gens p id_generate_for_ki (gen_ki o (p_inner o p)).
Proof. gen p (fun from => ki_attack o from (turn p)) push_plain. Qed.
Lemma gen_ou_ok p : gens p id_generate_for_ou (gen_ou o (p_inner o p)).
Proof. gen p (fun from => ou_attack o from (turn p)) push_plain. Qed.
Lemma gen_um_ok p : gens p id_generate_for_um (gen_um o (p_inner o p)).
Proof. gen p (fun from => bor o (ka_attack o from (occ p)) (ou_attack o from (turn p))) push_plain. Qed.
Lemma gen_ry_ok p : gens p id_generate_for_ry (gen_ry o (p_inner o p)).
Proof. gen p (fun from => bor o (hi_attack o from (occ p)) (ou_attack o from (turn p))) push_plain. Qed.

Lemma from_black to : sq_of_u8 (Z.to_N (wrap U8 (Z.of_N (sq_index to + 1) + 1))) = fu_from Black to.
Proof. destruct to as [[] []]; reflexivity. Qed.
Lemma from_white to : sq_of_u8 (Z.to_N (wrap U8 (Z.of_N (sq_index to + 1) + -1))) = fu_from White to.
Proof. destruct to as [[] []]; reflexivity. Qed.
Lemma gen_fu_ok p : gens p id_generate_for_fu (gen_fu o (p_inner o p)).
Proof.
  intros av target q e k H; enter_ref H; goa p. unfold gen_fu, piece_bitboard, side_to_move, pushes. rewrite for_flat.
  destruct (i_side o (p_inner o p)); go.
  - loop (fun to => for_each (push_forward Black 1 (fu_from Black to) to) (fun m av => av_push av m)) av.
    + intros to l v. body. rewrite from_black. push.
    + end_loop.
  - loop (fun to => for_each (push_forward White 1 (fu_from White to) to) (fun m av => av_push av m)) av.
    + intros to l v. body. rewrite from_white. push.
    + end_loop.
Qed.

(** ** is_legal, is_pawn_drop_mate *)

Lemma get_king c : list_get o [VPiece o (mkP King Black); VPiece o (mkP King White)] (Z.of_N (color_index c)) =
                   Some (VPiece o (mkP King c)).
Proof. destruct c; reflexivity. Qed.
Lemma opt_eqb x y : opt_piece_eqb o (option_map (VPiece o) x) (Some (VPiece o y)) =
                    match x with Some x => piece_eqb x y | None => false end.
Proof. destruct x; reflexivity. Qed.
Ltac att := eapply steps_trans; [first [apply sp_attackers | apply sp_attackers_klp]|].
Lemma sp_is_legal p st m e k : pos_state o p = Some st ->
  steps (Call id_Position id_is_legal [vpos o p; VMove o m] e k)
        (Ret (VBool o (is_legal o (p_inner o p) (s_attack_info o st) m)) e k).
Proof.
  intros E. into. go. unfold is_legal. destruct (move_from m) as [from|].
  - eapply steps_some; [reflexivity|]. goa p. unfold side_to_move. eapply steps_some; [apply get_king|]. goa p.
    rewrite opt_eqb. unfold piece_at.
    goal_if; goa p; [att; goa p; goal_if; go; [|apply steps_refl]|]; cbn [andb].
    all: of_state p st E; go; goal_if; goa p; [|apply steps_refl].
    all: destruct (king_position o (p_inner o p) (turn p)) as [sq|];
         [eapply steps_some; [reflexivity|]; go|eapply steps_none; [reflexivity|]; go; apply steps_refl].
    all: unfold stays_on_line; goal_if; go; [apply steps_refl|].
    all: goal_if; go; apply steps_refl.
  - eapply steps_none; [reflexivity|]. go. apply steps_refl.
Qed.

Lemma sp_drop_mate p st sq e k : pos_state o p = Some st ->
  steps (Call id_Position id_is_pawn_drop_mate [vpos o p; VSq o sq] e k)
        (Ret (VBool o (is_pawn_drop_mate o (p_inner o p) (s_attack_info o st) sq)) e k).
Proof.
  intros E. into. goa p. unfold side_to_move. att. goa p. unfold is_pawn_drop_mate.
  goal_if; go; [apply steps_refl|]. goa p. att. go. of_state p st E. go.
  goal_if; go; [|apply steps_refl]. goa p.
  destruct (king_position o (p_inner o p) (flip (turn p))) as [king|].
  2:{ eapply steps_none; [reflexivity|]. go. apply steps_refl. }
  eapply steps_some; [reflexivity|]. goa p.
  set (oc := bor o (occ p) (bsingle o sq)).
  set (f := fun to => negb (bis_empty o (attackers_to o (p_inner o p) (turn p) to oc))).
  match goal with |- steps (BrL _ (map ?inj _) ?pt ?b ?e' ?k') _ =>
    eapply steps_trans; [apply (for_all o (statics o z) checks inj f pt b e' k' (Ret (VBool o false) e k))|]
  end.
  - intros to l. body. att. go. unfold f. goal_if; go; apply steps_refl.
  - destruct (forallb f _); go; apply steps_refl.
Qed.

(** ** generate_drop *)

Lemma filter_run {A} (inj : A -> val o) (f : A -> bool) ps b e k :
  (forall x l acc, steps (BrF o (inj x :: l) ps b acc e k) (BrF o l ps b (if f x then inj x :: acc else acc) e k)) ->
  forall l, steps (BrF o (map inj l) ps b [] e k) (Ret (VIter o (map inj (filter f l))) e k).
Proof.
  intros H l.
  assert (G : forall l acc, steps (BrF o (map inj l) ps b (map inj acc) e k) (Ret (VIter o (map inj (rev acc ++ filter f l))) e k)).
  { clear l. induction l as [|x l IH]; intros acc; cbn [map filter].
    - apply steps_one. rewrite app_nil_r, map_rev. apply steps_refl.
    - refine (steps_trans _ _ _ _ _ _ _ (H x (map inj l) (map inj acc)) _).
      destruct (f x).
      + specialize (IH (x :: acc)). cbn [map rev] in IH. rewrite <- app_assoc in IH. exact IH.
      + exact (IH acc). }
  exact (G l []).
Qed.
Definition drop_kind (p : position o) (st : state o) (target : bb o) (x : kind) (av : list move) : option (list move) :=
  let* ms := gen_drop_kind o (p_inner o p) (s_attack_info o st) target x in pushes av ms.

Lemma pushes_filter av (f : square -> bool) (g : square -> move) l :
  pushes av (map g (filter f l)) = for_each l (fun to av => if f to then av_push av (g to) else Some av) av.
Proof.
  revert av. induction l as [|x l IH]; intros av; cbn [map filter for_each]; [reflexivity|].
  destruct (f x); cbn [map]; [|exact (IH av)]. unfold pushes. cbn [for_each].
  destruct (av_push av (g x)) as [av'|]; cbn [bind]; [exact (IH av')|reflexivity].
Qed.

Lemma gt_Z n : (Z.of_N n >? 0)%Z = (0 <? n)%N.
Proof. destruct n; reflexivity. Qed.
(* the loop over the squares of the target *)
Ltac drops x v p :=
  go; cbn [bind]; rewrite pushes_filter;
  loop (fun to av => if drop_rank_ok (turn p) x to then av_push av (Drop to (mkP x (turn p))) else Some av) v;
  [intros ? ? ?; body; destruct x; go; unfold drop_rank_ok; repeat first [go1 | push1]; apply steps_refl
  |end_loop].
Lemma drop_loop p st av target q e k : pos_state o p = Some st -> fetch o e q = Some (vmoves o av) ->
  steps (Call id_Position id_generate_drop [vpos o p; VRef o q; VBB o target] e k)
        (pan (for_each (filter (fun k => (0 <? match hand_count (i_hand o (p_inner o p) (turn p)) k with
                            | Some n => n | None => 0 end)%N) hand_kinds) (drop_kind p st target) av)
             (fun av' => Ret (VUnit o) (store o e q (vmoves o av')) k)).
Proof.
  intros E H. enter_ref H. goa p.
  set (f := fun k => (0 <? match hand_count (i_hand o (p_inner o p) (turn p)) k with Some n => n | None => 0 end)%N).
  match goal with |- steps (BrF _ (map ?inj _) ?ps ?b _ ?e' ?k') _ =>
    eapply steps_trans; [apply (filter_run inj f ps b e' k')|] end.
  { intros x l acc. apply steps_one. do_ev. go.
    apply (steps_else o (statics o z) checks (fun n => VInt o U8 (Z.of_N n)) _ 0%N). go. unfold f.
    change (hand_of o p (side_to_move o p)) with (i_hand o (p_inner o p) (turn p)). rewrite gt_Z. goal_if; go; apply steps_refl. }
  go. loop (drop_kind p st target) av.
  2:{ end_loop. }
  intros x l v. body. unfold drop_kind, gen_drop_kind.
  change (side_to_move o p) with (turn p).
  goal_if; goa p.
  - unfold pawn_drop_target, own. destruct (bvacant o _) as [vac|]; cbn [option_map bind].
    2:{ apply steps_none; [reflexivity|]. apply steps_refl. }
    eapply steps_some; [reflexivity|]. goa p.
    destruct (king_position o (p_inner o p) (flip (turn p))) as [sq|].
    2:{ eapply steps_none; [reflexivity|]. drops x v p. }
    eapply steps_some; [reflexivity|]. goa p. rewrite hd_map.
    destruct (hd_error (biter o (fu_attack o sq (flip (turn p))))) as [to|].
    2:{ eapply steps_none; [reflexivity|]. drops x v p. }
    eapply steps_some; [reflexivity|]. go. goal_if; go.
    2:{ drops x v p. }
    call (sp_drop_mate p st to); [exact E|]. go. goal_if; drops x v p.
  - cbn [bind]. drops x v p.
Qed.
Lemma gen_drop_pushes p st av target :
  (let* ms := gen_drop o (p_inner o p) (s_attack_info o st) target in pushes av ms) =
  for_each (filter (fun k => (0 <? match hand_count (i_hand o (p_inner o p) (turn p)) k with
                            | Some n => n | None => 0 end)%N) hand_kinds) (drop_kind p st target) av.
Proof.
  unfold gen_drop.
  rewrite (for_fold_left (fun k acc => let* ms := gen_drop_kind o (p_inner o p) (s_attack_info o st) target k in Some (acc ++ ms))).
  generalize (filter (fun k => (0 <? match hand_count (i_hand o (p_inner o p) (turn p)) k with
                            | Some n => n | None => 0 end)%N) hand_kinds). intros l.
  assert (G : forall acc, (let* ms := for_each l (fun k acc => let* ms := gen_drop_kind o (p_inner o p) (s_attack_info o st) target k in Some (acc ++ ms)) acc in pushes av ms) =
     let* av := pushes av acc in for_each l (drop_kind p st target) av).
  { induction l as [|x l IH]; intros acc; cbn [for_each bind].
    - destruct (pushes av acc); reflexivity.
    - unfold drop_kind at 1. destruct (gen_drop_kind _ _ _ _ _) as [ms|]; cbn [bind].
      + rewrite IH, pushes_app. destruct (pushes av acc); reflexivity.
      + destruct (pushes av acc); reflexivity. }
  rewrite (G []). reflexivity.
Qed.
Lemma gen_drop_ok p st av target q e k : pos_state o p = Some st -> fetch o e q = Some (vmoves o av) ->
  steps (Call id_Position id_generate_drop [vpos o p; VRef o q; VBB o target] e k)
        (pan (let* ms := gen_drop o (p_inner o p) (s_attack_info o st) target in pushes av ms)
             (fun av' => Ret (VUnit o) (store o e q (vmoves o av')) k)).
Proof. rewrite gen_drop_pushes. apply drop_loop. Qed.

End Specs.
