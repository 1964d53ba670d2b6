(** * The statics of tables.rs and zobrist.rs, evaluated from the text *)

From Coq Require Import List Bool NArith ZArith String Lia.
From Verif Require Import Types Bitboard Tables Zobrist Position Movegen Geometry Squares Facts Init InitSpec Flat RustSyntax RustNames RustSem TextDefs TextRun.
Import ListNotations.

(** ** Arrays that are filled *)

Section Fill.
Context {o : bbops} {A : Type} (h : A -> val o).
Notation V := (val o).
Notation idx := Z.of_N.
Definition set1 {K B} (eqb : K -> K -> bool) (F : K -> B) (a : K) (x : B) : K -> B :=
  fun b => if eqb b a then x else F b.
Definition set2 {K L B} (eqb : K -> K -> bool) (eqb' : L -> L -> bool) (F : K -> L -> B) a b (x : B) : K -> L -> B :=
  set1 eqb F a (set1 eqb' (F a) b x).

Lemma sput (F : square -> V) s x :
  list_put o (map F all_squares) (idx (sq_index s)) x = map (set1 sq_eqb F s x) all_squares.
Proof. destruct s as [[] []]; reflexivity. Qed.
Lemma cput (F : color -> V) c x :
  list_put o (map F all_colors) (idx (color_index c)) x = map (set1 color_eqb F c x) all_colors.
Proof. destruct c; reflexivity. Qed.
Lemma kput (F : kind -> V) k x :
  list_put o (map F all_kinds) (idx (kind_index k)) x = map (set1 kind_eqb F k x) all_kinds.
Proof. destruct k; reflexivity. Qed.

Lemma put_s (F : square -> A) s x :
  list_put o (map (fun t => h (F t)) all_squares) (idx (sq_index s)) (h x) =
  map (fun t => h (set1 sq_eqb F s x t)) all_squares.
Proof. rewrite sput. apply map_ext. intros t. unfold set1. destruct (sq_eqb t s); reflexivity. Qed.
Lemma put_c (F : color -> A) s x :
  list_put o (map (fun t => h (F t)) all_colors) (idx (color_index s)) (h x) =
  map (fun t => h (set1 color_eqb F s x t)) all_colors.
Proof. rewrite cput. apply map_ext. intros t. unfold set1. destruct (color_eqb t s); reflexivity. Qed.
Lemma put_k (F : kind -> A) s x :
  list_put o (map (fun t => h (F t)) all_kinds) (idx (kind_index s)) (h x) =
  map (fun t => h (set1 kind_eqb F s x t)) all_kinds.
Proof. rewrite kput. apply map_ext. intros t. unfold set1. destruct (kind_eqb t s); reflexivity. Qed.
End Fill.

(* a loop over keys that changes at each key its own entries *)
Lemma fold_keys {K X B} (eqb : K -> K -> bool) (step : (K -> X -> B) -> K -> K -> X -> B) (val : K -> X -> B -> B) :
  (forall a b, eqb a b = true <-> a = b) ->
  (forall F s t x, step F s t x = if eqb t s then val s x (F s x) else F t x) ->
  forall l F t x, NoDup l -> fold_left step l F t x = if existsb (eqb t) l then val t x (F t x) else F t x.
Proof.
  intros EQ ST l. induction l as [|s l IH]; intros F t x N; cbn [fold_left existsb]; [reflexivity|].
  inversion N as [|? ? NI N']; subst. rewrite (IH _ t x N'), (ST F s t x).
  destruct (eqb t s) eqn:E; cbn [orb]; [|reflexivity]. apply EQ in E. subst s.
  replace (existsb (eqb t) l) with false; [reflexivity|]. symmetry. apply not_true_is_false. intros I.
  apply existsb_exists in I. destruct I as [u [I E]]. apply EQ in E. subst u. contradiction.
Qed.
Lemma fold_squares {X B} (step : (square -> X -> B) -> square -> square -> X -> B) (val : square -> X -> B -> B) :
  (forall F s t x, step F s t x = if sq_eqb t s then val s x (F s x) else F t x) ->
  forall F t x, fold_left step all_squares F t x = val t x (F t x).
Proof.
  intros ST F t x. rewrite (fold_keys sq_eqb step val sq_eqb_iff ST all_squares F t x all_squares_NoDup).
  replace (existsb (sq_eqb t) all_squares) with true; [reflexivity|]. symmetry. apply existsb_exists.
  exists t. split; [apply all_squares_in|apply sq_eqb_iff; reflexivity].
Qed.

Lemma set_all {B} (v : square -> B) F t : fold_left (fun F s => set1 sq_eqb F s (v s)) all_squares F t = v t.
Proof.
  refine (eq_trans _ (fold_squares (X := unit) (fun F s t x => if sq_eqb t s then v s else F t x) (fun s _ _ => v s) _ (fun t _ => F t) t tt)).
  - generalize all_squares F. intros l. induction l as [|s l IH]; intros G; cbn [fold_left]; [reflexivity|].
    rewrite IH. reflexivity.
  - intros. reflexivity.
Qed.
Lemma fold_pair {A B X} (f : A -> X -> A) (h : B -> X -> B) l p :
  fold_left (fun p x => (f (fst p) x, h (snd p) x)) l p = (fold_left f l (fst p), fold_left h l (snd p)).
Proof.
  revert p. induction l as [|x l IH]; intros [a b]; cbn [fold_left fst snd]; [reflexivity|]. rewrite IH. reflexivity.
Qed.

(* up to the next statement *)
Ltac gos := repeat (lazymatch goal with
  | |- steps _ _ _ _ (Run _ (CStmts _ ?l) _ _) _ => tryif is_var l then fail else go1
  | _ => go1
  end).
(* the next round of a loop *)
Ltac again := lazymatch goal with |- steps _ _ _ _ (BrL _ _ _ ?b _ _) _ => show b end; body.
Section Specs.
Context (o : bbops) (g : N -> N -> N) (checks : bool).
Notation steps := (steps o checks source (alone o g)).
Notation pan := (pan o).
Notation V := (val o).

Definition vdelta (d : delta) : V :=
  VStruct o id_Delta [(id_file, VInt o I8 (fst d)); (id_rank, VInt o I8 (snd d))].

(** ** sliding_attack *)

Lemma sp_sliding s occ d e k : In d dirs8 ->
  steps (Enter o id_ id_sliding_attack [VSq o s; VBB o occ; vdelta d] e k)
        (Resume o (VBB o (sliding_attack o s occ d)) e k).
Proof.
  intros D. pose proof (shifts_leave s d D) as W. unfold sliding_attack. clear D.
  destruct d as [f r]. unfold vdelta. into. go.
  match goal with |- steps (BrO _ _ ?e ?k ?c2) _ =>
    let E := eval pattern (sq_shift s f r), (bempty o) in e in
    let C := eval pattern (sq_shift s f r), (bempty o) in c2 in
    lazymatch E with ?E _ _ => lazymatch C with ?C _ _ => set (E0 := E); set (C0 := C); set (K0 := k) end end
  end.
  change (steps (BrO o (option_map (VSq o) (sq_shift s f r)) (E0 (sq_shift s f r) (bempty o)) K0 (C0 (sq_shift s f r) (bempty o)))
                (Resume o (VBB o (sliding_loop o 9 (sq_shift s f r) occ (f, r) (bempty o))) e k)).
  revert W. change (fst (f, r)) with f. change (snd (f, r)) with r.
  generalize (bempty o) (sq_shift s f r). generalize 9%nat.
  induction n as [|n IH]; intros acc cur H; cbn [shifts sliding_loop] in *.
  - subst cur. apply steps_none; [reflexivity|]. subst C0 K0 E0. cbv beta. go. apply steps_refl.
  - destruct cur as [to|]; [|apply steps_none; [reflexivity|]; subst C0 K0 E0; cbv beta; go; apply steps_refl].
    eapply steps_some; [reflexivity|]. specialize (IH (bor o acc (bsingle o to)) _ H). cbn [fst snd] in *.
    subst K0 C0 E0. cbv beta in *. go. apply steps_if; intros B; rewrite B; go; [apply steps_refl|exact IH].
Qed.

(** ** PieceAttackTable::new *)

Definition vdeltas (l : list delta) : V := VArr o (map vdelta l).
Definition arr2 {A} (h : A -> V) (F : square -> color -> A) : list V :=
  map (fun s => VArr o (map (fun c => h (F s c)) all_colors)) all_squares.
Lemma arr2_at {A} (h : A -> V) F s : list_at o (arr2 h F) (Z.of_N (sq_index s)) = VArr o (map (fun c => h (F s c)) all_colors).
Proof. apply (at_sq (fun s => VArr o (map (fun c => h (F s c)) all_colors))). Qed.
Lemma arr2_get {A} (h : A -> V) F s : list_get o (arr2 h F) (Z.of_N (sq_index s)) = Some (VArr o (map (fun c => h (F s c)) all_colors)).
Proof. apply (get_sq (fun s => VArr o (map (fun c => h (F s c)) all_colors))). Qed.
Lemma arr2_put {A} (h : A -> V) F s c x :
  list_put o (arr2 h F) (Z.of_N (sq_index s))
    (VArr o (list_put o (map (fun c => h (F s c)) all_colors) (Z.of_N (color_index c)) (h x))) =
  arr2 h (set2 sq_eqb color_eqb F s c x).
Proof.
  rewrite put_c. unfold arr2. rewrite (put_s (fun G => VArr o (map (fun c => h (G c)) all_colors)) F s). reflexivity.
Qed.
Lemma arr2_ext {A} (h : A -> V) F G : (forall s c, F s c = G s c) -> arr2 h F = arr2 h G.
Proof. intros H. apply map_ext. intros s. f_equal. apply map_ext. intros c. rewrite H. reflexivity. Qed.

Lemma sp_pat_new (ds : color -> list delta) e k :
  steps (Enter o id_PieceAttackTable id_new [VArr o [vdeltas (ds Black); vdeltas (ds White)]] e k)
        (Resume o (v_pat o (piece_attack o ds)) e k).
Proof.
  into. go. unfold vdeltas.
  change (repeat (VArr o (repeat (VBB o (bempty o)) (Z.to_nat 2))) (Z.to_nat 81))
    with (arr2 (VBB o) (fun _ _ => bempty o)).
  pose (fd := fun s c (F : square -> color -> bb o) (d : delta) =>
     match sq_shift s (fst d) (snd d) with
     | Some to => set2 sq_eqb color_eqb F s c (bor o (F s c) (bsingle o to)) | None => F end).
  pose (fc := fun s F c => fold_left (fd s c) (ds c) F).
  pose (fs := fun F s => fold_left (fc s) all_colors F).
  loop_fold fs (fun (_ : square) (_ : color) => bempty o).
  { intros s l F. body. loop_fold (fc s) F.
    { intros c l' F'. body. rewrite get_two. eapply steps_some; [reflexivity|].
      replace (match c with Black => VArr o (map vdelta (ds Black)) | White => VArr o (map vdelta (ds White)) end)
        with (VArr o (map vdelta (ds c))) by (destruct c; reflexivity). go.
      loop_fold (fd s c) F'.
      { intros d l2 F2. unfold fd. destruct d as [f r]. cbn [fst snd].
        change (vdelta (f, r)) with (VStruct o id_Delta [(id_file, VInt o I8 f); (id_rank, VInt o I8 r)]). body.
        destruct (sq_shift s f r) as [to|]; [eapply steps_some; [reflexivity|]|apply steps_none; [reflexivity|]]; go.
        - rewrite arr2_at. cbv iota. rewrite arr2_put. apply steps_refl.
        - apply steps_refl. }
      go. apply steps_refl. }
    go. apply steps_refl. }
  go. refine (steps_to _ _ _ _ _ _ (steps_refl _ _ _ _ _) _).
  refine (f_equal (fun l => Resume o (VStruct o id_PieceAttackTable [(id_0, VArr o l)]) e k) (arr2_ext (VBB o) _ _ _)).
  intros s c.
  pose (fb := fun s (b : bb o) (d : delta) =>
     match sq_shift s (fst d) (snd d) with Some to => bor o b (bsingle o to) | None => b end).
  assert (A : forall s c l F t c', fold_left (fd s c) l F t c' =
    if sq_eqb t s then if color_eqb c' c then fold_left (fb s) l (F s c) else F t c' else F t c').
  { clear. intros s c l. induction l as [|d l IH]; intros F t c'; cbn [fold_left].
    - destruct (sq_eqb t s) eqn:E; [|reflexivity]. destruct (color_eqb c' c) eqn:E'; [|reflexivity].
      apply sq_eqb_iff in E. apply color_eqb_iff in E'. subst. reflexivity.
    - rewrite IH. unfold fd, fb. destruct (sq_shift s (fst d) (snd d)) as [to|]; [|reflexivity].
      unfold set2, set1. rewrite (proj2 (sq_eqb_iff s s) eq_refl), (proj2 (color_eqb_iff c c) eq_refl).
      destruct (sq_eqb t s) eqn:E; [|reflexivity]. destruct (color_eqb c' c) eqn:E'; [reflexivity|].
      apply sq_eqb_iff in E. subst. reflexivity. }
  rewrite (fold_squares fs (fun s c b => fold_left (fb s) (ds c) b)); [reflexivity|].
  clear s c. intros F s t c. unfold fs, fc. cbn [fold_left all_colors]. rewrite !A.
  rewrite (proj2 (sq_eqb_iff s s) eq_refl). destruct (sq_eqb t s) eqn:E; [|reflexivity].
  apply sq_eqb_iff in E. subst t. destruct c; reflexivity.
Qed.

(** ** LanceAttackTable::new *)

Ltac consts := repeat first [go1 | into].
Lemma sp_lat_new e k :
  steps (Enter o id_LanceAttackTable id_new [] e k) (Resume o (v_lat o) e k).
Proof.
  into. go.
  change (repeat (VArr o (repeat (VBB o (bempty o)) (Z.to_nat 2))) (Z.to_nat 81))
    with (arr2 (VBB o) (fun _ _ => bempty o)).
  pose (fc := fun s F c => set2 sq_eqb color_eqb F s c (ky_mask o s c)).
  pose (fs := fun F s => fold_left (fc s) all_colors F).
  loop_fold fs (fun (_ : square) (_ : color) => bempty o).
  { intros s l F. body. loop_fold (fc s) F.
    { intros c l' F'. unfold fc, ky_mask. destruct c.
      - body. call (sp_sliding s (bempty o) dN); [cbn; auto 9|]. go.
        rewrite arr2_at. cbv iota. rewrite (arr2_put (VBB o) F' s Black). apply steps_refl.
      - body. call (sp_sliding s (bempty o) dS); [cbn; auto 9|]. go.
        rewrite arr2_at. cbv iota. rewrite (arr2_put (VBB o) F' s White). apply steps_refl. }
    go. apply steps_refl. }
  go. refine (steps_to _ _ _ _ _ _ (steps_refl _ _ _ _ _) _).
  refine (f_equal (fun l => Resume o (VStruct o id_LanceAttackTable [(id_masks, VArr o l)]) e k) (arr2_ext (VBB o) _ _ _)).
  intros s c.
  rewrite (fold_squares fs (fun s c _ => ky_mask o s c)); [reflexivity|].
  clear s c. intros F s t c. unfold fs, fc. cbn [fold_left all_colors]. unfold set2, set1.
  rewrite (proj2 (sq_eqb_iff s s) eq_refl). destruct (sq_eqb t s) eqn:E; [|reflexivity].
  apply sq_eqb_iff in E. subst t. destruct c; reflexivity.
Qed.

(** ** SlidingAttackTable::new *)

Ltac enum := cbn [List.length seq combine map fst snd Z.of_nat Pos.of_succ_nat Pos.succ].
Definition quad := ((bb o * bb o) * (bb o * bb o))%type.
Notation vq q := (VArr o [VArr o [VBB o (fst (fst q)); VBB o (snd (fst q))]; VArr o [VBB o (fst (snd q)); VBB o (snd (snd q))]]).
Definition q00 (q : quad) x : quad := ((x, snd (fst q)), snd q).
Definition q01 (q : quad) x : quad := ((fst (fst q), x), snd q).
Definition q10 (q : quad) x : quad := (fst q, (x, snd (snd q))).
Definition q11 (q : quad) x : quad := (fst q, (fst (snd q), x)).
Ltac updq Q s u x :=
  lazymatch goal with
  | |- context [list_put o (map ?f all_squares) ?n ?v] =>
      let EE := fresh in
      assert (EE : list_put o (map f all_squares) n v = map (fun t => vq (set1 sq_eqb Q s (u (Q s) x) t)) all_squares)
        by (rewrite at_sq; exact (put_s (fun t => vq t) Q s (u (Q s) x)));
      rewrite EE; clear EE
  end.
Lemma sp_sat_new (d00 d01 d10 d11 : delta) e k :
  In d00 dirs8 -> In d01 dirs8 -> In d10 dirs8 -> In d11 dirs8 ->
  steps (Enter o id_SlidingAttackTable id_new [VArr o [VArr o [vdelta d00; vdelta d01]; VArr o [vdelta d10; vdelta d11]]] e k)
        (Resume o (v_sat o ((d00, d01), (d10, d11))) e k).
Proof.
  intros D00 D01 D10 D11.
  pose (v00 := vdelta d00). pose (v01 := vdelta d01). pose (v10 := vdelta d10). pose (v11 := vdelta d11).
  fold v00 v01 v10 v11.
  into. go.
  pose (P0 := ((fun _ => ((bempty o, bempty o), (bempty o, bempty o)), fun _ => bempty o) : (square -> quad) * (square -> bb o))).
  change (repeat (VBB o (bempty o)) (Z.to_nat 81)) with (map (fun s => VBB o (snd P0 s)) all_squares).
  change (repeat (VArr o (repeat (VArr o (repeat (VBB o (bempty o)) (Z.to_nat 2))) (Z.to_nat 2))) (Z.to_nat 81))
    with (map (fun s => vq (fst P0 s)) all_squares).
  pose (ds := ((d00, d01), (d10, d11)) : sdeltas).
  pose (fs := fun (P : (square -> quad) * (square -> bb o)) s =>
    (set1 sq_eqb (fst P) s (s_masks o ds s), set1 sq_eqb (snd P) s (s_merged o ds s))).
  loop_fold fs P0.
  { intros s l [Q M]. unfold fs. cbn [fst snd]. body. enum. body. enum. body.
    call (sp_sliding s (bempty o) d00); [exact D00|]. gos. updq Q s q00 (sliding_attack o s (bempty o) d00).
    remember (set1 sq_eqb Q s (q00 (Q s) (sliding_attack o s (bempty o) d00))) as Q1 eqn:E1.
    go. again. call (sp_sliding s (bempty o) d01); [exact D01|]. gos. updq Q1 s q01 (sliding_attack o s (bempty o) d01).
    remember (set1 sq_eqb Q1 s (q01 (Q1 s) (sliding_attack o s (bempty o) d01))) as Q2 eqn:E2.
    go. again. again. enum. again. call (sp_sliding s (bempty o) d10); [exact D10|]. gos. updq Q2 s q10 (sliding_attack o s (bempty o) d10).
    remember (set1 sq_eqb Q2 s (q10 (Q2 s) (sliding_attack o s (bempty o) d10))) as Q3 eqn:E3.
    go. again. call (sp_sliding s (bempty o) d11); [exact D11|]. gos. updq Q3 s q11 (sliding_attack o s (bempty o) d11).
    remember (set1 sq_eqb Q3 s (q11 (Q3 s) (sliding_attack o s (bempty o) d11))) as Q4 eqn:E4.
    go. again. again.
    rewrite (put_s (VBB o) M s).
    assert (SS : sq_eqb s s = true) by (apply sq_eqb_iff; reflexivity).
    assert (H1 : Q1 s = q00 (Q s) (sliding_attack o s (bempty o) d00)) by (rewrite E1; unfold set1; rewrite SS; reflexivity).
    assert (H2 : Q2 s = q01 (Q1 s) (sliding_attack o s (bempty o) d01)) by (rewrite E2; unfold set1; rewrite SS; reflexivity).
    assert (H3 : Q3 s = q10 (Q2 s) (sliding_attack o s (bempty o) d10)) by (rewrite E3; unfold set1; rewrite SS; reflexivity).
    assert (H4 : Q4 s = q11 (Q3 s) (sliding_attack o s (bempty o) d11)) by (rewrite E4; unfold set1; rewrite SS; reflexivity).
    assert (HQ : forall t, Q4 t = set1 sq_eqb Q s (s_masks o ds s) t).
    { intros t. unfold set1. destruct (sq_eqb t s) eqn:E.
      - apply sq_eqb_iff in E. subst t. rewrite H4, H3, H2, H1. reflexivity.
      - rewrite E4, E3, E2, E1. unfold set1. rewrite E. reflexivity. }
    refine (steps_to _ _ _ _ _ _ (steps_refl _ _ _ _ _) _).
    change (s_merged o ds s) with (bor o (bor o (bor o (bor o (bempty o) (fst (fst (s_masks o ds s)))) (snd (fst (s_masks o ds s))))
      (fst (snd (s_masks o ds s)))) (snd (snd (s_masks o ds s)))).
    rewrite H4, H3, H2, H1.
    refine (f_equal (fun x => BrL o l _ R0 [_; (id_masks, VArr o x); _; _] _) (map_ext (fun t => vq (Q4 t)) _ _ all_squares)).
    intros t. rewrite HQ. reflexivity. }
  assert (Z : forall t, fst (fold_left fs all_squares P0) t = s_masks o ds t /\ snd (fold_left fs all_squares P0) t = s_merged o ds t).
  { intros t. unfold fs.
    rewrite (fold_pair (fun F s => set1 sq_eqb F s (s_masks o ds s)) (fun F s => set1 sq_eqb F s (s_merged o ds s))).
    cbn [fst snd]. rewrite !set_all. split; reflexivity. }
  rewrite (map_ext _ (fun s => VBB o (s_merged o ds s)) (fun s => f_equal (VBB o) (proj2 (Z s)))).
  rewrite (map_ext _ (fun s => vq (s_masks o ds s)) (fun s => f_equal (fun q => vq q) (proj1 (Z s)))).
  go. apply steps_refl.
Qed.

(** ** The initialisers *)

(* the evaluation of the initialiser of a static *)
Definition init_ends (x : N) (v : V) := forall c e k, find_const source id_ x = Some c ->
  steps (Run o (CEval o c) [(id_Self, VStr o id_)] (KConst o e :: k)) (Resume o v e k).
Ltac start := intros c e k H; vm_compute in H; injection H as <-.

Lemma in_attack : init_ends id_ATTACK_TABLE (v_attack_table o).
Proof.
  assert (DD : forall d, In d [dN; dS; dE; dW; dNE; dNW; dSE; dSW] -> In d dirs8) by (intros d; cbn; intuition).
  start. go. call (sp_pat_new fu_deltas). go. call sp_lat_new. go. call (sp_pat_new ke_deltas). go. call (sp_pat_new gi_deltas). go.
  call (sp_sat_new dNE dSE dSW dNW); try (apply DD; cbn; tauto). go.
  call (sp_sat_new dN dE dS dW); try (apply DD; cbn; tauto). go.
  call (sp_pat_new ki_deltas). go. call (sp_pat_new ou_deltas). go. apply steps_refl.
Qed.

Notation e_at a i := (EIndex a (EMethod (EPath [i]) id_array_index [])).
Lemma ranks_loop e k :
  steps (BrL o (map (VSq o) all_squares) (PId id_sq)
           (EBlock [STail (EFor (PId id_c) (ECall (EPath [id_Color; id_all]) [])
             (EBlock [SExpr (EAssign (e_at (e_at (EPath [id_ranks]) id_sq) id_c)
                                     (ECast (EMethod (EPath [id_sq]) id_relative_rank [EPath [id_c]]) id_usize))]))])
           [(id_ranks, VArr o (repeat (VArr o (repeat (VInt o Lit 0) (Z.to_nat 2))) (Z.to_nat 81)))]
           (KSeq o [STail (EPath [id_ranks])] :: KScope o 0 :: KConst o [(id_Self, VStr o id_)] :: KConst o e :: k))
        (Resume o (v_ranks o) e k).
Proof.
  pose (i := fun v : V => v).
  change (repeat (VArr o (repeat (VInt o Lit 0) (Z.to_nat 2))) (Z.to_nat 81))
    with (arr2 i (fun _ _ => VInt o Lit 0)).
  pose (fc := fun s F c => set2 sq_eqb color_eqb F s c (VInt o Usize (RELATIVE_RANKS s c))).
  pose (fs := fun F s => fold_left (fc s) all_colors F).
  loop_fold fs (fun (_ : square) (_ : color) => VInt o Lit 0).
  { intros s l F. body. loop_fold (fc s) F.
    { intros c l' F'. unfold fc. body. rewrite arr2_at. cbv iota.
      change (VInt o Usize (relative_rank s c)) with (i (VInt o Usize (RELATIVE_RANKS s c))) at 1. rewrite arr2_put. apply steps_refl. }
    go. apply steps_refl. }
  go. refine (steps_to _ _ _ _ _ _ (steps_refl _ _ _ _ _) _).
  refine (f_equal (fun l => Resume o (VArr o l) e k) (arr2_ext i _ (fun s c => VInt o Usize (RELATIVE_RANKS s c)) _)).
  intros s c. rewrite (fold_squares fs (fun s c _ => VInt o Usize (RELATIVE_RANKS s c))); [reflexivity|].
  clear s c. intros F s t c. unfold fs, fc. cbn [fold_left all_colors]. unfold set2, set1.
  rewrite (proj2 (sq_eqb_iff s s) eq_refl). destruct (sq_eqb t s) eqn:E; [|reflexivity].
  apply sq_eqb_iff in E. subst t. destruct c; reflexivity.
Qed.

Lemma in_ranks : init_ends id_RELATIVE_RANKS (v_ranks o).
Proof. start. go. apply ranks_loop. Qed.

Lemma in_files : init_ends id_FILES (v_files o).
Proof.
  start. go.
  change (repeat (VBB o (bempty o)) (Z.to_nat 10)) with (VBB o (bempty o) :: map (fun f => VBB o ((fun _ => bempty o) f)) all9).
  pose (fs := fun F s f => if i9_eqb (sqf s) f then bor o (F f) (bsingle o s) else F f).
  loop_fold fs (fun _ : i9 => bempty o).
  { intros s l F. unfold fs. body. destruct s as [[] r]; apply steps_refl. }
  go. refine (steps_to _ _ _ _ _ _ (steps_refl _ _ _ _ _) _).
  refine (f_equal (fun l => Resume o (VArr o (VBB o (bempty o) :: l)) e k) (map_ext _ _ _ all9)).
  intros f. apply f_equal. unfold FILES. 
  change (bempty o) with ((fun _ : i9 => bempty o) f) at 2.
  generalize (fun _ : i9 => bempty o). generalize all_squares. intros l. 
  induction l as [|s l IH]; intros F; cbn [fold_left]; [reflexivity|]. rewrite IH. reflexivity.
Qed.

Lemma in_promotable : init_ends id_PROMOTABLE (v_promotable o).
Proof.
  start. go.
  pose (fc := fun s F c => if (RELATIVE_RANKS s c <=? 3)%Z then set2 sq_eqb color_eqb F s c true else F).
  pose (fs := fun F s => fold_left (fc s) all_colors F).
  change (repeat (VArr o (repeat (VBool o false) (Z.to_nat 2))) (Z.to_nat 81))
    with (arr2 (VBool o) (fun _ _ => false)).
  loop_fold fs (fun (_ : square) (_ : color) => false).
  { intros s l F. body. loop_fold (fc s) F.
    { intros c l' F'. body. call ranks_loop. go. unfold fc. apply steps_if; intros E; rewrite E; go; [|apply steps_refl].
      rewrite arr2_at. cbv iota. rewrite arr2_put. apply steps_refl. }
    go. apply steps_refl. }
  go. refine (steps_to _ _ _ _ _ _ (steps_refl _ _ _ _ _) _).
  refine (f_equal (fun l => Resume o (VArr o l) e k) (arr2_ext (VBool o) _ PROMOTABLE _)).
  intros s c. rewrite (fold_squares fs (fun s c b => if (RELATIVE_RANKS s c <=? 3)%Z then true else b)).
  { unfold PROMOTABLE. destruct (RELATIVE_RANKS s c <=? 3)%Z; reflexivity. }
  clear s c. intros F s t c. unfold fs, fc. cbn [fold_left all_colors]. unfold set2, set1.
  destruct c, (RELATIVE_RANKS s Black <=? 3)%Z, (RELATIVE_RANKS s White <=? 3)%Z; cbn [color_eqb];
    destruct (sq_eqb t s) eqn:E; try reflexivity; try (apply sq_eqb_iff in E; subst t);
    rewrite ?(proj2 (sq_eqb_iff s s) eq_refl); try reflexivity.
Qed.

Definition arrs {A} (h : A -> V) (F : square -> square -> A) := map (fun s => VArr o (map (fun t => h (F s t)) all_squares)) all_squares.
Lemma arrs_at {A} (h : A -> V) F s : list_at o (arrs h F) (Z.of_N (sq_index s)) = VArr o (map (fun t => h (F s t)) all_squares).
Proof. apply (at_sq (fun s => VArr o (map (fun c => h (F s c)) all_squares))). Qed.
Lemma arrs_put {A} (h : A -> V) F s c x :
  list_put o (arrs h F) (Z.of_N (sq_index s))
    (VArr o (list_put o (map (fun c => h (F s c)) all_squares) (Z.of_N (sq_index c)) (h x))) =
  arrs h (set2 sq_eqb sq_eqb F s c x).
Proof.
  rewrite (put_s h (F s)). unfold arrs. rewrite (put_s (fun G => VArr o (map (fun c => h (G c)) all_squares)) F s). reflexivity.
Qed.
Lemma arrs_ext {A} (h : A -> V) F G : (forall s c, F s c = G s c) -> arrs h F = arrs h G.
Proof. intros H. apply map_ext. intros s. f_equal. apply map_ext. intros c. rewrite H. reflexivity. Qed.
Lemma sub8 (x y : i9) :
  option_map (VInt o I8) (arith checks I8 (wrap I8 (i9Z x) - wrap I8 (i9Z y))) = Some (VInt o I8 (i9Z x - i9Z y)).
Proof. destruct x, y; reflexivity. Qed.
Lemma abs8 (x y : i9) :
  option_map (VInt o I8) (arith checks I8 (Z.abs (i9Z x - i9Z y))) = Some (VInt o I8 (Z.abs (i9Z x - i9Z y))).
Proof. destruct x, y; reflexivity. Qed.

Lemma in_between : init_ends id_BETWEEN_TABLE (v_between o).
Proof.
  start. go.
  change (repeat (VArr o (repeat (VBB o (bempty o)) (Z.to_nat 81))) (Z.to_nat 81))
    with (arrs (VBB o) (fun _ _ => bempty o)).
  pose (fc := fun s F t => let df := (fileZ t - fileZ s)%Z in let dr := (rankZ t - rankZ s)%Z in
    if ((Z.lor df dr =? 0) || (negb (df =? 0) && negb (dr =? 0) && negb (Z.abs df =? Z.abs dr)))%Z then F
    else set2 sq_eqb sq_eqb F s t (BETWEEN_TABLE o s t)).
  pose (fs := fun F s => fold_left (fc s) all_squares F).
  loop_fold fs (fun (_ _ : square) => bempty o).
  { intros s l F. body. loop_fold (fc s) F.
    { intros t l' F'. body. eapply steps_some; [apply (sub8 (sqf t) (sqf s))|]. go.
      eapply steps_some; [apply (sub8 (sqr t) (sqr s))|]. go.
      assert (AF := abs8 (sqf t) (sqf s)). assert (AR := abs8 (sqr t) (sqr s)).
      unfold fc. change (fileZ t - fileZ s)%Z with (i9Z (sqf t) - i9Z (sqf s))%Z. change (rankZ t - rankZ s)%Z with (i9Z (sqr t) - i9Z (sqr s))%Z.
      set (df := (i9Z (sqf t) - i9Z (sqf s))%Z) in *. set (dr := (i9Z (sqr t) - i9Z (sqr s))%Z) in *. cbv zeta.
      apply steps_if; intros E1; rewrite E1; cbn [orb]; go; [apply steps_refl|].
      assert (T : (negb (df =? 0) && negb (dr =? 0) && negb (Z.abs df =? Z.abs dr))%Z = false ->
        BETWEEN_TABLE o s t = match between_delta df dr with Some d => band o (sliding_attack o s (bsingle o t) d) (bnot o (bsingle o t)) | None => bempty o end).
      { intros E. unfold BETWEEN_TABLE. fold df dr. unfold fileZ, rankZ. fold df dr. rewrite E1, E. reflexivity. }
      assert (EE : df = 0%Z -> dr = 0%Z -> False).
      { intros A B. rewrite A, B in E1. discriminate E1. }
      apply steps_if; intros E2; rewrite E2 in *; cbn [andb] in *; go.
      1: apply steps_if; intros E3; rewrite E3 in *; cbn [andb] in *; go.
      1: eapply steps_some; [exact AF|]; go; eapply steps_some; [exact AR|]; go.
      1: apply steps_if; intros E4; rewrite E4 in *; go; [apply steps_refl|].
      all: rewrite (T eq_refl); clear T AF AR; unfold between_delta.
      all: destruct (Z.compare_spec df 0) as [F0|F0|F0], (Z.compare_spec dr 0) as [D0|D0|D0]; try (destruct (EE F0 D0)); go.
      all: lazymatch goal with |- context [sliding_attack o ?s ?b ?d] =>
             call (sp_sliding s b d); [cbn; tauto|] end; go;
           rewrite arrs_at; cbv iota; rewrite arrs_put; apply steps_refl. }
    go. apply steps_refl. }
  go. refine (steps_to _ _ _ _ _ _ (steps_refl _ _ _ _ _) _).
  refine (f_equal (fun l => Resume o (VArr o l) e k) (arrs_ext (VBB o) _ (BETWEEN_TABLE o) _)).
  intros s t.
  pose (w := fun s u x => let df := (fileZ u - fileZ s)%Z in let dr := (rankZ u - rankZ s)%Z in
    if ((Z.lor df dr =? 0) || (negb (df =? 0) && negb (dr =? 0) && negb (Z.abs df =? Z.abs dr)))%Z then x else BETWEEN_TABLE o s u).
  assert (B : forall s F v t u, fc s F v t u = if sq_eqb t s && sq_eqb u v then w s u (F t u) else F t u).
  { clear. intros s F v t u. unfold fc, w. cbv zeta.
    destruct (sq_eqb u v) eqn:E.
    - apply sq_eqb_iff in E. subst v. rewrite andb_true_r.
      destruct (_ || _); [destruct (sq_eqb t s); reflexivity|]. unfold set2, set1.
      destruct (sq_eqb t s); [rewrite (proj2 (sq_eqb_iff u u) eq_refl)|]; reflexivity.
    - rewrite andb_false_r. destruct (_ || _); [reflexivity|]. unfold set2, set1.
      destruct (sq_eqb t s) eqn:E'; [apply sq_eqb_iff in E'; subst; rewrite E|]; reflexivity. }
  assert (A : forall s l F t u, NoDup l -> fold_left (fc s) l F t u =
    if sq_eqb t s && existsb (sq_eqb u) l then w s u (F t u) else F t u).
  { intros s' l. clearbody w fc. induction l as [|v l IH]; intros F t' u N; cbn [fold_left existsb].
    - rewrite andb_false_r. reflexivity.
    - inversion N as [|? ? NI N']; subst. rewrite (IH _ t' u N'), B.
      destruct (sq_eqb t' s'); cbn [andb]; [|reflexivity].
      destruct (sq_eqb u v) eqn:E; cbn [orb]; [|reflexivity].
      destruct (existsb (sq_eqb u) l) eqn:X; [|reflexivity]. exfalso.
      apply existsb_exists in X. destruct X as (y & I & Y). apply sq_eqb_iff in E, Y. subst. exact (NI I). }
  rewrite (fold_squares fs w).
  { unfold w, BETWEEN_TABLE. cbv zeta. destruct (_ || _); reflexivity. }
  clear s t. intros F s t u. unfold fs. rewrite (A s all_squares F t u all_squares_NoDup).
  replace (existsb (sq_eqb u) all_squares) with true.
  2:{ symmetry. apply existsb_exists. exists u. split; [apply all_squares_in|apply sq_eqb_iff; reflexivity]. }
  rewrite andb_true_r. destruct (sq_eqb t s) eqn:E; [apply sq_eqb_iff in E; subst|]; reflexivity.
Qed.
End Specs.
