(** * generate_all, generate_evasions and legal_moves, run from the text *)

From Coq Require Import List Bool NArith ZArith Lia.
From Verif Require Import Types Bitboard Tables Zobrist Position Movegen Init Flat RustSyntax RustNames RustSem TextDefs TextRun TextTables TextPos TextGen.
Import ListNotations.

Section Specs.
Context (o : bbops) (z : ztable) (checks : bool).
Notation steps := (steps o checks source (statics o z)).
Notation pan := (pan o).
Notation Call := (Enter o).
Notation Ret := (Resume o).
Notation turn p := (i_side o (p_inner o p)).
Notation occ p := (occupied o (p_inner o p)).

(** ** generate_all *)

(* a call of a generator *)
Ltac gcall L av :=
  call L; [reflexivity|];
  match goal with |- context [pushes ?a ?ms] => destruct (pushes a ms) as [av|]; cbn [bind]; [|apply steps_refl] end;
  lazymatch goal with |- steps (TextRun.pan o (Some ?v) ?f) ?r => change (steps (f v) r); cbv beta end.

Lemma sp_all p st av q e k : pos_state o p = Some st -> fetch o e q = Some (vmoves o av) ->
  steps (Call id_Position id_generate_all [vpos o p; VRef o q] e k)
        (pan (let* ms := generate_all o (p_inner o p) (s_attack_info o st) in pushes av ms)
             (fun av' => Ret (VUnit o) (store o e q (vmoves o av')) k)).
Proof.
  intros E H. enter_ref H. goa p. unfold generate_all. change (side_to_move o p) with (turn p).
  set (target := bnot o (player_bb o (p_inner o p) (turn p))).
  set (X := gen_drop o (p_inner o p) (s_attack_info o st) _).
  assert (M : forall ms, (let* ms := let* d := X in Some (ms ++ d) in pushes av ms) = let* a := pushes av ms in let* d := X in pushes a d).
  { intros ms. destruct X as [d|]; cbn [bind]; [apply pushes_app|]. destruct (pushes av ms); reflexivity. }
  rewrite M. clear M.
  rewrite pushes_app; gcall (gen_fu_ok o z checks p) av1; goa p.
  rewrite pushes_app; gcall (gen_ky_ok o z checks p) av2; goa p.
  rewrite pushes_app; gcall (gen_ke_ok o z checks p) av3; goa p.
  rewrite pushes_app; gcall (gen_gi_ok o z checks p) av4; goa p.
  rewrite pushes_app; gcall (gen_ka_ok o z checks p) av5; goa p.
  rewrite pushes_app; gcall (gen_hi_ok o z checks p) av6; goa p.
  rewrite pushes_app; gcall (gen_ki_ok o z checks p) av7; goa p.
  rewrite pushes_app; gcall (gen_ou_ok o z checks p) av8; goa p.
  rewrite pushes_app; gcall (gen_um_ok o z checks p) av9; goa p.
  gcall (gen_ry_ok o z checks p) av10; goa p.
  call (gen_drop_ok o z checks p st); [exact E|reflexivity|].
  fold X. destruct X as [d|]; cbn [bind]; [|apply steps_refl]. 
  match goal with |- context [pushes ?a ?ms] => destruct (pushes a ms) as [av11|] end; [|apply steps_refl].
  lazymatch goal with |- steps (TextRun.pan o (Some ?v) ?f) ?r => change (steps (f v) r); cbv beta end.
  go. apply steps_refl.
Qed.

(** ** generate_evasions *)

Lemma i9Z_eqb a b : (i9Z a =? i9Z b)%Z = i9_eqb a b.
Proof. destruct a, b; reflexivity. Qed.
Lemma count_Z n : (Z.of_nat n >? 1)%Z = (1 <? n)%nat.
Proof. rewrite Z.gtb_ltb. destruct (Z.ltb_spec 1 (Z.of_nat n)), (Nat.ltb_spec 1 n); lia. Qed.
(* av.push(m) *)
Ltac push1 :=
  lazymatch goal with
  | |- steps (BrB _ (N.of_nat _ <? 593)%N _ _) _ =>
      rewrite push_len; unfold av_push at 1;
      match goal with |- context [Nat.ltb ?n ?m] => destruct (Nat.ltb n m) end;
      go; [rewrite push_map|]; apply steps_refl
  end.
(* the loop over the checkers: the squares that they attack, and their number *)
Definition checker_step (p : inner o) king ch (v : bb o * Z) : option (bb o * Z) :=
  let* a := checker_attack o p king ch in Some (bor o (fst v) a, (snd v + 1)%Z).
Lemma checker_loop p king chs : for_each chs (checker_step p king) (bempty o, 0%Z)
  = option_map (fun b => (b, Z.of_nat (List.length chs))) (checkers_attacks o p king chs).
Proof.
  unfold checkers_attacks. change (Z.of_nat (List.length chs)) with (0 + Z.of_nat (List.length chs))%Z.
  generalize (bempty o), 0%Z. induction chs as [|ch chs IH]; intros a n.
  { cbn [for_each fold_left option_map List.length Z.of_nat]. rewrite Z.add_0_r. reflexivity. }
  cbn [for_each fold_left List.length]. unfold checker_step at 1. cbn [bind].
  destruct (checker_attack o p king ch) as [b|]; cbn [bind].
  - rewrite IH. cbn [fst snd]. destruct (fold_left _ chs _); [|reflexivity]. cbn [option_map].
    do 2 f_equal. lia.
  - replace (fold_left _ chs None) with (@None (bb o)); [reflexivity|]. clear. induction chs; [reflexivity|exact IHchs].
Qed.

Lemma sp_evasions p st av q e k : pos_state o p = Some st -> fetch o e q = Some (vmoves o av) ->
  steps (Call id_Position id_generate_evasions [vpos o p; VRef o q] e k)
        (pan (let* ms := generate_evasions o (p_inner o p) (s_attack_info o st) in pushes av ms)
             (fun av' => Ret (VUnit o) (store o e q (vmoves o av')) k)).
Proof.
  intros E H. enter_ref H. goa p.
  unfold generate_evasions. change (side_to_move o p) with (turn p).
  destruct (king_position o (p_inner o p) (turn p)) as [king|] eqn:K; cbn [option_map bind];
    [eapply steps_some; [reflexivity|]; goa p|eapply steps_none; [reflexivity|apply steps_refl]].
  of_state p st E. go. set (chs := biter o (ai_checkers o (s_attack_info o st))).
  lazymatch goal with
  | |- RustSem.steps ?o ?ch ?pr ?s (BrL _ (map ?inj _) ?p' ?b ?e ?k) _ =>
      let F := eval pattern (VBB o (bempty o)), (VInt o Lit 0) in e in
      lazymatch F with
      | ?F _ _ => eapply steps_trans;
         [apply (@for_loop o _ ch _ _ inj (fun v => F (VBB o (fst v)) (VInt o Lit (snd v))) (checker_step (p_inner o p) king) p' b k)
          with (t := (bempty o, 0%Z)); cbv beta|cbv beta]
      end
  end.
  - intros ch l [b n]. cbn [fst snd]. body. acc p. go. unfold checker_step, checker_attack, piece_at.
    destruct (i_piece_at o (p_inner o p) ch) as [x|]; cbn [option_map bind fst snd];
      [eapply steps_some; [reflexivity|]; go|eapply steps_none; [reflexivity|apply steps_refl]].
    rewrite <- !i9Z_eqb. change (i9Z (sqf ch)) with (fileZ ch). change (i9Z (sqr ch)) with (rankZ ch).
    change (i9Z (sqf king)) with (fileZ king). change (i9Z (sqr king)) with (rankZ king).
    destruct (kind_eqb (pkind x) ProRook); go; cbn [andb]; [|goa p; apply steps_refl].
    goal_if; go; [goa p; apply steps_refl|]. goal_if; goa p; apply steps_refl.
  - rewrite checker_loop. fold chs. destruct (checkers_attacks o (p_inner o p) king chs) as [ca|]; cbn [option_map bind]; [|apply steps_refl].
    lazymatch goal with |- steps (TextRun.pan o (Some ?v) ?f) ?r => change (steps (f v) r); cbv beta end.
    cbn [fst snd]. goa p.
    set (tos := biter o (band o (band o (ou_attack o king (turn p)) _) _)). 
    match goal with |- steps _ (TextRun.pan _ ?t _) => set (R1 := t) end.
    assert (M : R1 = let* av := pushes av (map (fun to => Normal king to false) tos) in
      if (1 <? List.length chs)%nat then Some av else let* ch := hd_error chs in 
      let target := bor o (BETWEEN_TABLE o ch king) (ai_checkers o (s_attack_info o st)) in
      let* av := pushes av (gen_fu o (p_inner o p) target ++ gen_ky o (p_inner o p) target ++ gen_ke o (p_inner o p) target
        ++ gen_gi o (p_inner o p) target ++ gen_ka o (p_inner o p) target ++ gen_hi o (p_inner o p) target
        ++ gen_ki o (p_inner o p) target ++ gen_um o (p_inner o p) target ++ gen_ry o (p_inner o p) target) in
      if negb (bis_empty o (BETWEEN_TABLE o ch king)) then
        let* d := gen_drop o (p_inner o p) (s_attack_info o st) (BETWEEN_TABLE o ch king) in pushes av d
      else Some av).
    { unfold R1. destruct (1 <? List.length chs)%nat; cbn [bind].
      { destruct (pushes _ _); reflexivity. }
      destruct (hd_error chs); cbn [bind]; [|destruct (pushes _ _); reflexivity]. cbv zeta.
      destruct (negb _); [destruct (gen_drop _ _ _ _)|]; cbn [bind]; rewrite ?pushes_app;
      destruct (pushes av _); cbn [bind]; try reflexivity. 
      - rewrite !pushes_app. reflexivity. 
      - destruct (pushes _ (_ ++ _)); reflexivity.
      - rewrite pushes_app. destruct (pushes _ (_ ++ _)); reflexivity. }
    rewrite M. clear M R1. unfold pushes at 1. rewrite for_map.
    loop (fun to av => av_push av (Normal king to false)) av.
    { intros to l v. body. push1. }
     destruct (for_each _ _ _) as [av1|]; cbn [bind]; [|apply steps_refl].
    lazymatch goal with |- steps (TextRun.pan o (Some ?v) ?f) ?r => change (steps (f v) r); cbv beta end.
    goa p. rewrite count_Z. goal_if; go; [apply steps_refl|].
    of_state p st E. go. fold chs. 
    destruct chs as [|ch rest]; cbn [hd_error map bind]; [eapply steps_none; [reflexivity|apply steps_refl]|].
    eapply steps_some; [reflexivity|]. goa p. of_state p st E. goa p.
    set (target := bor o (BETWEEN_TABLE o ch king) (ai_checkers o (s_attack_info o st))).
    rewrite pushes_app; gcall (gen_fu_ok o z checks p) av2; goa p.
    rewrite pushes_app; gcall (gen_ky_ok o z checks p) av3; goa p.
    rewrite pushes_app; gcall (gen_ke_ok o z checks p) av4; goa p.
    rewrite pushes_app; gcall (gen_gi_ok o z checks p) av5; goa p.
    rewrite pushes_app; gcall (gen_ka_ok o z checks p) av6; goa p.
    rewrite pushes_app; gcall (gen_hi_ok o z checks p) av7; goa p.
    rewrite pushes_app; gcall (gen_ki_ok o z checks p) av8; goa p.
    rewrite pushes_app; gcall (gen_um_ok o z checks p) av9; goa p.
    gcall (gen_ry_ok o z checks p) av10; goa p.
    goal_if; go; [apply steps_refl|].
    call (gen_drop_ok o z checks p st); [exact E|reflexivity|].
    destruct (gen_drop _ _ _ _) as [d|]; cbn [bind]; [|apply steps_refl].
    destruct (pushes av10 d) as [av11|]; [|apply steps_refl].
    lazymatch goal with |- steps (TextRun.pan o (Some ?v) ?f) ?r => change (steps (f v) r); cbv beta end.
    go. apply steps_refl.
Qed.

(** ** legal_moves *)

Lemma set_nth_map {A B} (f : A -> B) i x l : set_nth i (f x) (map f l) = map f (set_nth i x l).
Proof. revert i. induction l as [|y l IH]; intros [|i]; cbn [set_nth map]; [..|rewrite IH]; reflexivity. Qed.
Lemma removelast_map {A B} (f : A -> B) l : removelast (map f l) = map f (removelast l).
Proof. induction l as [|y [|x l] IH]; [reflexivity..|]. cbn [removelast map] in *. rewrite IH. reflexivity. Qed.
Lemma swap_map {A B} (f : A -> B) i l : swap_remove i (map f l) = option_map (map f) (swap_remove i l).
Proof.
  unfold swap_remove. rewrite map_length. destruct (i <? List.length l)%nat; [|reflexivity].
  rewrite <- map_rev. destruct (rev l) as [|x r]; cbn [map option_map]; [reflexivity|].
  rewrite set_nth_map, removelast_map. reflexivity.
Qed.
Lemma set_nth_length {A} i (x : A) l : List.length (set_nth i x l) = List.length l.
Proof. revert i. induction l as [|y l IH]; intros [|i]; cbn [set_nth List.length]; [..|rewrite IH]; reflexivity. Qed.
Lemma swap_length {A} i (l : list A) : (i < List.length l)%nat ->
  exists l', swap_remove i l = Some l' /\ S (List.length l') = List.length l.
Proof.
  intros H. unfold swap_remove. rewrite (proj2 (Nat.ltb_lt _ _) H).
  destruct (rev l) as [|x r] eqn:R.
  { apply (f_equal (@List.length A)) in R. rewrite rev_length in R. cbn in R. lia. }
  eexists. split; [reflexivity|]. rewrite <- (set_nth_length i x l) in *. set (m := set_nth i x l) in *.
  assert (N : m <> []) by (intros ->; cbn in H; lia).
  rewrite (app_removelast_last x N) at 2. rewrite app_length. cbn. lia.
Qed.
Lemma index_Z i n : (Z.of_nat i =? Z.of_N (N.of_nat n))%Z = Nat.eqb i n.
Proof. destruct (Z.eqb_spec (Z.of_nat i) (Z.of_N (N.of_nat n))), (Nat.eqb_spec i n); lia. Qed.

Lemma sp_legal_moves p e k :
  steps (Call id_Position id_legal_moves [vpos o p] e k)
        (pan (legal_moves o p) (fun ms => Ret (vmoves o ms) e k)).
Proof.
  into. go. call (sp_in_check o z checks p). unfold legal_moves, pos_in_check.
  destruct (pos_state o p) as [st|] eqn:E; cbn [bind option_map]; [|apply steps_refl].
  lazymatch goal with |- steps (TextRun.pan o (Some ?v) ?f) ?r => change (steps (f v) r); cbv beta end.
  go.
  assert (M : forall x : option (list move), (let* ms := x in let* av := push_all ms in filter_loop (List.length av) (is_legal o (p_inner o p) (s_attack_info o st)) 0 av)
     = let* av := let* ms := x in pushes [] ms in filter_loop (List.length av) (is_legal o (p_inner o p) (s_attack_info o st)) 0 av).
  { intros [ms|]; [cbn [bind]; rewrite push_all_pushes|]; reflexivity. }
  rewrite M. clear M.
  match goal with |- steps (BrB _ ?b ?c1 ?c2) ?r => set (c := BrB o b c1 c2) end.
  match goal with |- context [bind ?x (fun av => filter_loop _ _ _ _)] => set (X := x) end.
  eapply steps_trans with (b := ltac:(match goal with c := BrB _ _ (Run _ _ ((?n, _) :: ?e0) (KSeq _ ?R :: ?k0)) _ |- _ =>
    exact (pan X (fun av => Run o (CStmts o R) ((n, VVec o (Some 593%N) (map (VMove o) av)) :: e0) k0)) end)).
  { subst c X. clearbody R. goal_if; goa p; [call (sp_all p st [])|call (sp_evasions p st [])];
      [exact E|reflexivity| |exact E|reflexivity|];
      (match goal with |- steps (TextRun.pan _ ?t _) _ => destruct t as [av|] end; [|apply steps_refl]);
    lazymatch goal with |- steps (TextRun.pan o (Some ?v) ?f) ?r => change (steps (f v) r); cbv beta end;
      go; apply steps_refl. }
  clear c. destruct X as [av|]; [|apply steps_refl].
  lazymatch goal with |- steps (TextRun.pan o (Some ?v) ?f) ?r => change (steps (f v) r); cbv beta end.
  cbn [bind]. go.
  set (legal := is_legal o (p_inner o p) (s_attack_info o st)).
  match goal with |- RustSem.steps _ _ _ _ ?c ?r =>
    let F := eval pattern av, 0%Z in c in
    match F with ?F _ _ =>
      assert (L : forall n i l, (i <= List.length l <= i + n)%nat ->
        steps (F l (Z.of_nat i)) (pan (filter_loop n legal i l) (fun ms => Ret (vmoves o ms) e k))); cbv beta
    end
  end.
  2: { apply (L (List.length av) 0%nat av). lia. }
  intros n. induction n as [|n IH]; intros i l L; cbn [filter_loop]; rewrite map_length, index_Z.
  - replace i with (List.length l) by lia. rewrite Nat.eqb_refl. go. apply steps_refl.
  - destruct (Nat.eqb_spec i (List.length l)) as [N|N]; cbn [negb]; go.
    { apply steps_refl. }
    destruct (nth_error l i) as [m|] eqn:G; [|apply nth_error_None in G; lia].
    eapply steps_some; [unfold list_get; rewrite Nat2Z.id, nth_error_map, G; destruct (Z.ltb_spec (Z.of_nat i) 0); [lia|reflexivity]|].
    go. call (sp_is_legal o z checks p st m); [exact E|]. fold legal. go.
    destruct (legal m); go.
    + replace (Z.of_nat i + 1)%Z with (Z.of_nat (S i)) by lia. apply IH. lia.
    + destruct (swap_length i l) as [l' [S' N']]; [lia|]. rewrite Nat2Z.id, swap_map, S'. cbn [option_map bind].
      eapply steps_some; [reflexivity|]. go. apply IH. lia.
Qed.
End Specs.
