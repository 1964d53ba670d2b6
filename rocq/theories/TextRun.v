(** * Running the text symbolically *)

From Coq Require Import List Bool NArith ZArith String Lia.
From Verif Require Import Types Bitboard Tables Zobrist Position Movegen Init Flat RustSyntax RustNames RustSem TextDefs.
Import ListNotations.

Ltac ev :=
  lazy beta iota zeta delta [look upd elen edrop trim digits tup_get tup_set field set_field get put read write below join width
        ty_of cast lit usize vopt kind_of_name ext_const memory ext_fn ext_method int_cmp bin un op_method opa_method
        elements m_and m_or ord_name match_path variant pmatch bind_pat
        find_fn_in find_fn find_const_in find_const assoc firsts seconds revapp modes mut_fn is_mut self_ty
        typed_fields new_struct zip stuck prim_cfg bind_params write_back ret_val leave apply args scoped last2
        step_eval step_place index val_for step_val step_at step_match step_stmts step_return step_break
        step_continue step_run enter step run
        fn_self fn_name fn_params fn_body cd_self cd_name cd_expr pr_fns pr_consts pr_structs source
        vbb vkey vpiece_opt by_color by_kind by_square vinner vinfo vp vpos vmoves VUnit
        v_pat v_lat v_pair v_sat v_attack_table v_between v_ranks v_promotable v_files v_zobrist statics alone
        same pos_same Nat.sub cat tl fst snd].

Section Run.
Context (o : bbops) (St : N -> option (val o)) (checks : bool).
Notation step := (step o checks source St).
Notation run := (run o checks source St).
Notation steps := (steps o checks source St).
Notation cfg := (cfg o).

Definition pan {A} (x : option A) (f : A -> cfg) : cfg :=
  match x with Some a => f a | None => Halt o (RPanic o) end.

Lemma steps_ev n c c1 c' : run n c = c1 -> steps c1 c' -> steps c c'.
Proof. intros <-. apply steps_run. Qed.
Lemma steps_enter t f vs e k c1 c' :
  enter o source t f vs e k = c1 -> steps c1 c' -> steps (Enter o t f vs e k) c'.
Proof. intros <- H. apply steps_one. exact H. Qed.
Lemma steps_some x v e k c2 c' :
  x = Some v -> steps (Run o (CVal o v) e k) c' -> steps (BrO o x e k c2) c'.
Proof. intros -> H. apply steps_one. exact H. Qed.
Lemma steps_none x e k c2 c' : x = None -> steps c2 c' -> steps (BrO o x e k c2) c'.
Proof. intros -> H. apply steps_one. exact H. Qed.
Lemma steps_may {A} (g : A -> val o) x e k f :
  (forall a, x = Some a -> steps (Run o (CVal o (g a)) e k) (f a)) ->
  steps (BrO o (option_map g x) e k (Halt o (RPanic o))) (pan x f).
Proof. intros H. apply steps_one. destruct x as [a|]; [exact (H a eq_refl)|apply steps_refl]. Qed.
Lemma steps_else {A} (g : A -> val o) x y e k c' :
  steps (Run o (CVal o (g (match x with Some a => a | None => y end))) e k) c' ->
  steps (BrO o (option_map g x) e k (Run o (CVal o (g y)) e k)) c'.
Proof. intros H. apply steps_one. destruct x; exact H. Qed.
Lemma steps_if b c1 c2 c' : (b = true -> steps c1 c') -> (b = false -> steps c2 c') -> steps (BrB o b c1 c2) c'.
Proof. intros H H'. apply steps_one. destruct b; [exact (H eq_refl)|exact (H' eq_refl)]. Qed.
Lemma steps_bind {A B} c x f (g : A -> option B) h :
  steps c (pan x f) -> (forall a, x = Some a -> steps (f a) (pan (g a) h)) -> steps c (pan (bind x g) h).
Proof.
  intros H H'. refine (steps_trans _ _ _ _ _ _ _ H _). destruct x as [a|]; [exact (H' a eq_refl)|apply steps_refl].
Qed.
Lemma steps_to c c1 c' : steps c c1 -> c1 = c' -> steps c c'.
Proof. intros H <-. exact H. Qed.

(** ** Loops *)

Lemma for_loop {A T} (inj : A -> val o) (E : T -> env o) (f : A -> T -> option T) p b k :
  (forall x l t, steps (BrL o (inj x :: l) p b (E t) k) (pan (f x t) (fun t' => BrL o l p b (E t') k))) ->
  forall l t, steps (BrL o (map inj l) p b (E t) k)
                    (pan (for_each l f t) (fun t' => Resume o (VUnit o) (E t') k)).
Proof.
  intros H l. induction l as [|x l IH]; intros t; cbn [map for_each].
  - apply steps_one. apply steps_refl.
  - refine (steps_trans _ _ _ _ _ _ _ (H x (map inj l) t) _).
    destruct (f x t) as [t'|]; cbn [pan bind]; [apply IH|apply steps_refl].
Qed.
(* a loop that cannot panic *)
Lemma for_fold {A T} (inj : A -> val o) (E : T -> env o) (f : T -> A -> T) p b k :
  (forall x l t, steps (BrL o (inj x :: l) p b (E t) k) (BrL o l p b (E (f t x)) k)) ->
  forall l t, steps (BrL o (map inj l) p b (E t) k) (Resume o (VUnit o) (E (fold_left f l t)) k).
Proof.
  intros H l. induction l as [|x l IH]; intros t; cbn [map fold_left].
  - apply steps_one. apply steps_refl.
  - exact (steps_trans _ _ _ _ _ _ _ (H x (map inj l) t) (IH _)).
Qed.
(* a loop with an early return *)
Lemma for_all {A} (inj : A -> val o) (f : A -> bool) p b e k c :
  (forall x l, steps (BrL o (inj x :: l) p b e k) (if f x then BrL o l p b e k else c)) ->
  forall l, steps (BrL o (map inj l) p b e k) (if forallb f l then Resume o (VUnit o) e k else c).
Proof.
  intros H l. induction l as [|x l IH]; cbn [map forallb].
  - apply steps_one. apply steps_refl.
  - refine (steps_trans _ _ _ _ _ _ _ (H x (map inj l)) _).
    destruct (f x); cbn [andb]; [exact IH|apply steps_refl].
Qed.
End Run.

(** ** Arrays *)

Section Arrays.
Context {o : bbops}.
Notation V := (val o).
Notation idx := Z.of_N.

Lemma get_sq (F : square -> V) s : list_get o (map F all_squares) (idx (sq_index s)) = Some (F s).
Proof. destruct s as [[] []]; reflexivity. Qed.
Lemma get_co (F : color -> V) c : list_get o (map F all_colors) (idx (color_index c)) = Some (F c).
Proof. destruct c; reflexivity. Qed.
Lemma get_c0 (F : color -> V) : list_get o (map F all_colors) 0 = Some (F Black).
Proof. reflexivity. Qed.
Lemma get_c1 (F : color -> V) : list_get o (map F all_colors) 1 = Some (F White).
Proof. reflexivity. Qed.
Lemma get_ki (F : kind -> V) k : list_get o (map F all_kinds) (idx (kind_index k)) = Some (F k).
Proof. destruct k; reflexivity. Qed.
Lemma get_two (a b : V) c :
  list_get o [a; b] (idx (color_index c)) = Some (match c with Black => a | White => b end).
Proof. destruct c; reflexivity. Qed.
Lemma get_file (b : V) (F : i9 -> V) s : list_get o (b :: map F all9) (fileZ s) = Some (F (sqf s)).
Proof. destruct s as [[] []]; reflexivity. Qed.
Lemma get_hand (F : kind -> V) k :
  list_get o (map F (firstn 8 all_kinds)) (idx (kind_index k)) = if (kind_index k <? 8)%N then Some (F k) else None.
Proof. destruct k; reflexivity. Qed.
Lemma get_num (F : nat -> V) n m :
  list_get o (map F (seq 0 m)) (idx n) = if (n <? N.of_nat m)%N then Some (F (N.to_nat n)) else None.
Proof.
  unfold list_get. replace (Z.to_nat (idx n)) with (N.to_nat n) by lia. rewrite nth_error_map.
  destruct (N.ltb_spec n (N.of_nat m)) as [H|H].
  - rewrite (nth_error_nth' _ O) by (rewrite seq_length; lia). rewrite seq_nth by lia. reflexivity.
  - assert (E : nth_error (seq 0 m) (N.to_nat n) = None) by (apply nth_error_None; rewrite seq_length; lia).
    rewrite E. reflexivity.
Qed.

Lemma at_sq (F : square -> V) s : list_at o (map F all_squares) (idx (sq_index s)) = F s.
Proof. destruct s as [[] []]; reflexivity. Qed.
Lemma at_co (F : color -> V) c : list_at o (map F all_colors) (idx (color_index c)) = F c.
Proof. destruct c; reflexivity. Qed.
Lemma at_ki (F : kind -> V) k : list_at o (map F all_kinds) (idx (kind_index k)) = F k.
Proof. destruct k; reflexivity. Qed.

Lemma put_sq {A} (h : A -> V) (v : sqarr A) s x :
  list_put o (map (fun t => h (sa_get v t)) all_squares) (idx (sq_index s)) (h x) =
  map (fun t => h (sa_get (sa_set v s x) t)) all_squares.
Proof. destruct v as [[] [] [] [] [] [] [] [] []], s as [[] []]; reflexivity. Qed.
Lemma put_co {A} (h : A -> V) (v : carr A) c x :
  list_put o (map (fun t => h (c_get v t)) all_colors) (idx (color_index c)) (h x) =
  map (fun t => h (c_get (c_set v c x) t)) all_colors.
Proof. destruct v, c; reflexivity. Qed.
Lemma put_ki {A} (h : A -> V) (v : karr A) k x :
  list_put o (map (fun t => h (k_get v t)) all_kinds) (idx (kind_index k)) (h x) =
  map (fun t => h (k_get (k_set v k x) t)) all_kinds.
Proof. destruct v, k; reflexivity. Qed.

Lemma last_rev {A} (F : A -> V) x l : hd_error (rev (rev (map F (x :: l)))) = Some (F x).
Proof. rewrite rev_involutive. reflexivity. Qed.
Lemma hd_map {A} (F : A -> V) l : hd_error (map F l) = option_map F (hd_error l).
Proof. destruct l; reflexivity. Qed.
End Arrays.

Ltac lookup :=
  first [apply (f_equal Some (at_sq _ _)) | apply (f_equal Some (at_co _ _)) | apply (f_equal Some (at_ki _ _))
        | apply get_sq | apply get_co | apply get_ki | apply get_c0 | apply get_c1
        | apply get_file | apply last_rev | reflexivity].

(* parts of the program that wait get a name *)
Ltac hide1 x := tryif is_var x then fail else (let R := fresh "R" in set (R := x)).
Ltac hide :=
  repeat match goal with
  | |- steps _ _ _ _ ?c _ =>
      match c with
      | context [KSeq _ ?l] => hide1 l
      | context [KLet _ _ ?l] => hide1 l
      | context [KMatch _ ?l] => hide1 l
      | context [KIf _ ?t ?f] => first [hide1 t | hide1 f]
      | BrB _ _ (Run _ (CEval _ ?b) _ _) _ => hide1 b
      | context [KNext _ _ ?l] => hide1 l
      | context [KFor _ _ ?b _ _] => hide1 b
      end
  end.
Ltac show x := tryif is_var x then subst x else idtac.
Ltac do_ev := eapply (steps_ev _ _ _ 400); [ev; reflexivity|]; hide.

(* to the next decision; decisions that do not depend on data are taken *)
Ltac go1 :=
  lazymatch goal with
  | |- steps _ _ _ _ (Run _ (CStmts _ ?l) _ _) _ =>
      show l;
      lazymatch goal with
      | |- steps _ _ _ _ (Run _ (CStmts _ (?s :: ?r)) _ _) _ =>
          lazymatch r with [] => idtac | _ => try hide1 r end
      | _ => idtac
      end; apply steps_one; do_ev
  | |- steps _ _ _ _ (Run _ (CMatch _ _ ?l) _ _) _ =>
      show l;
      lazymatch goal with
      | |- steps _ _ _ _ (Run _ (CMatch _ _ ((?p, ?b) :: ?r)) _ _) _ => try hide1 r
      end; apply steps_one; do_ev
  | |- steps _ _ _ _ (Run _ (CEval _ ?x) _ _) _ => show x; do_ev
  | |- steps _ _ _ _ (Run _ _ _ _) _ => do_ev
  | |- steps _ _ _ _ (Resume _ _ (store _ _ _ _) (_ :: _)) _ => unfold store, deeper; apply steps_one; do_ev
  | |- steps _ _ _ _ (Resume _ _ _ (_ :: _)) _ => apply steps_one; do_ev
  | |- steps _ _ _ _ (BrO _ _ _ _ _) _ => eapply steps_some; [solve [lookup]|]
  | |- steps _ _ _ _ (BrB _ ?b _ _) _ =>
      let b' := eval cbv [kind_eqb color_eqb ord_eqb orb andb negb] in b in
      lazymatch b' with
      | true => apply steps_if; [intros _|discriminate]
      | false => apply steps_if; [discriminate|intros _]
      end
  end.
Ltac go := repeat go1.
(* enter a function *)
Ltac into := eapply steps_enter; [ev; reflexivity|].
Ltac inl := repeat first [go1 | into].
(* the same with a parameter &mut *)
Ltac enter_ref H := eapply steps_enter; [ev; rewrite H; ev; reflexivity|].
(* a call that a lemma describes *)
Ltac call L := eapply steps_trans; [apply L|].
(* a loop whose variables are a function of [v0] *)
Ltac loop_with L f v0 :=
  lazymatch goal with
  | |- steps ?o ?ch ?pr ?st (BrL _ (map ?inj _) ?p ?b ?e ?k) _ =>
      let F := eval pattern v0 in e in
      lazymatch F with
      | ?F _ => eapply steps_trans; [apply (L o _ ch _ _ inj F f p b k); cbv beta|cbv beta]
      end
  end.
Ltac loop_fold f v0 := loop_with @for_fold f v0.
Ltac loop f v0 := loop_with @for_loop f v0.
(* into the body of a loop *)
Ltac body := apply steps_one; do_ev; go.
