(** * A bitboard library made of runs of the text of a backend

    [text_ops b checks o enc]: the bitboards of [o] are values of the program of the
    backend [b] ([enc]), and each operation of [o] gives the value that the function of
    the text gives.  Such an [o] meets [bbspec]. *)

From Coq Require Import List Bool NArith ZArith String Lia.
From Verif Require Import Types Bitboard BackendCore BackendSimd Api BBSpec Backends Facts PropBits Words SpecLanes Squares RustSyntax RustNames BitboardText RustSem TextDefs BitsDefs BitsRun PropMoves PropText PropTextBits.
From Verif Require TextCore TextX86 TextNeon TextWasm.
Import ListNotations.
Open Scope string_scope.

Section Ops.
Context (b : backend) (checks : bool) (o : bbops) (enc : bb o -> val o).
Notation fn := (bits_fn o b checks).
Notation v := (bval o b checks).

(* only bits of squares are set *)
Definition on (t : bb o) : Prop := exists a, enc t = v a /\ on_board b checks a.

Record text_ops : Prop := {
  to_value : forall t, exists a, enc t = v a;
  to_inj : forall t u, enc t = enc u -> t = u;
  to_empty : fn "empty" [] (enc (bempty o));
  to_single : forall s, fn "single" [VSq o s] (enc (bsingle o s));
  to_and : forall t u, fn "bitand" [enc t; enc u] (enc (band o t u));
  to_or : forall t u, fn "bitor" [enc t; enc u] (enc (bor o t u));
  to_xor : forall t u, fn "bitxor" [enc t; enc u] (enc (bxor o t u));
  to_not : forall t, fn "not" [enc t] (enc (bnot o t));
  to_is_empty : forall t, fn "is_empty" [enc t] (VBool o (bis_empty o t));
  to_contains : forall t s, fn "contains" [enc t; VSq o s] (VBool o (bcontains o t s));
  to_count : forall t, on t -> fn "count" [enc t] (VInt o U8 (Z.of_N (bcount o t)));
  to_iter : forall t, on t -> exists it, fn "into_iter" [enc t] it /\ iterates o b checks (biter o t) it;
  to_shl : forall t, fn "shl" [enc t] (enc (bshl o t));
  to_shr : forall t, fn "shr" [enc t] (enc (bshr o t));
  to_pos_c : forall t m, on m -> fn "sliding_positive_consecutive" [enc t; enc m] (enc (bslide_pos_c o t m));
  to_neg_c : forall t m, on m -> fn "sliding_negative_consecutive" [enc t; enc m] (enc (bslide_neg_c o t m));
  to_pos2 : forall t m n, on m -> on n -> fn "sliding_positives" [enc t; VArr o [enc m; enc n]] (enc (bslide_pos2 o t (m, n)));
  to_neg2 : forall t m n, on m -> on n -> fn "sliding_negatives" [enc t; VArr o [enc m; enc n]] (enc (bslide_neg2 o t (m, n)));
  to_vacant : forall t, bits_call o b checks "vacant_files" [enc t]
    (match bvacant o t with Some x => RDone o (enc x) [] | None => RPanic o end) }.
End Ops.

(** ** The functions of the text, on all values *)

Section Facts.
Context (b : backend) (checks : bool) (o : bbops) (NP : b <> Portable).
Notation fn := (bits_fn o b checks).
Notation v := (bval o b checks).
Notation P := (ops_of b checks).

Lemma v_inj (a c : bb P) : v a = v c -> a = c.
Proof. destruct b; [destruct (NP eq_refl)|..]; cbn [bval]; unfold reg; intros E; injection E as E; exact E. Qed.

Lemma f_sets (a c : bb P) s :
  fn "empty" [] (v (bempty P)) /\ fn "single" [VSq o s] (v (bsingle P s)) /\
  fn "bitand" [v a; v c] (v (band P a c)) /\ fn "bitor" [v a; v c] (v (bor P a c)) /\
  fn "bitxor" [v a; v c] (v (bxor P a c)) /\ fn "not" [v a] (v (bnot P a)) /\
  fn "is_empty" [v a] (VBool o (bis_empty P a)) /\ fn "contains" [v a; VSq o s] (VBool o (bcontains P a s)) /\
  fn "shl" [v a] (v (bshl P a)) /\ fn "shr" [v a] (v (bshr P a)) /\
  bits_call o b checks "vacant_files" [v a]
    (match bvacant P a with Some x => RDone o (v x) [] | None => RPanic o end).
Proof.
  destruct b; [destruct (NP eq_refl)|..].
  - split; [fn (@TextX86.t_empty o checks)|]. split; [fn (@TextX86.t_single o checks s)|].
    split; [fn (@TextX86.t_and o checks a c)|]. split; [fn (@TextX86.t_or o checks a c)|].
    split; [fn (@TextX86.t_xor o checks a c)|]. split; [fn (@TextX86.t_not o checks a)|].
    split; [fn (@TextX86.t_is_empty o checks a)|]. split; [fn (@TextX86.t_contains o checks a s)|].
    split; [fn (@TextX86.t_shl o checks a)|]. split; [fn (@TextX86.t_shr o checks a)|].
    fn (@TextX86.t_vacant o checks a).
  - split; [fn (@TextNeon.t_empty o checks)|]. split; [fn (@TextNeon.t_single o checks s)|].
    split; [fn (@TextNeon.t_and o checks a c)|]. split; [fn (@TextNeon.t_or o checks a c)|].
    split; [fn (@TextNeon.t_xor o checks a c)|]. split; [fn (@TextNeon.t_not o checks a)|].
    split; [fn (@TextNeon.t_is_empty o checks a)|]. split; [fn (@TextNeon.t_contains o checks a s)|].
    split; [fn (@TextNeon.t_shl o checks a)|]. split; [fn (@TextNeon.t_shr o checks a)|].
    fn (@TextNeon.t_vacant o checks a).
  - split; [fn (@TextWasm.t_empty o checks)|]. split; [fn (@TextWasm.t_single o checks s)|].
    split; [fn (@TextWasm.t_and o checks a c)|]. split; [fn (@TextWasm.t_or o checks a c)|].
    split; [fn (@TextWasm.t_xor o checks a c)|]. split; [fn (@TextWasm.t_not o checks a)|].
    split; [fn (@TextWasm.t_is_empty o checks a)|]. split; [fn (@TextWasm.t_contains o checks a s)|].
    split; [fn (@TextWasm.t_shl o checks a)|]. split; [fn (@TextWasm.t_shr o checks a)|].
    fn (@TextWasm.t_vacant o checks a).
Qed.
Lemma f_slides (a m n : bb P) : on_board b checks m -> on_board b checks n ->
  fn "sliding_positive_consecutive" [v a; v m] (v (bslide_pos_c P a m)) /\
  fn "sliding_negative_consecutive" [v a; v m] (v (bslide_neg_c P a m)) /\
  fn "sliding_positives" [v a; VArr o [v m; v n]] (v (bslide_pos2 P a (m, n))) /\
  fn "sliding_negatives" [v a; VArr o [v m; v n]] (v (bslide_neg2 P a (m, n))).
Proof.
  intros Hm Hn. destruct b; [destruct (NP eq_refl)|..].
  - split; [fn (@TextX86.t_pos_c o checks a m)|]. split; [fn (@TextX86.t_neg_c o checks a m)|].
    split; [fn (@TextX86.t_pos2 o checks a m n)|]. fn (@TextX86.t_neg2 o checks a m n).
  - split; [fn (@TextNeon.t_pos_c o checks a m)|]. split; [fn (@TextNeon.t_neg_c o checks a m)|].
    split; [fn (@TextNeon.t_pos2 o checks a m n Hm Hn)|]. fn (@TextNeon.t_neg2 o checks a m n Hm Hn).
  - split; [fn (@TextWasm.t_pos_c o checks a m)|]. split; [fn (@TextWasm.t_neg_c o checks a m Hm)|].
    split; [fn (@TextWasm.t_pos2 o checks a m n Hm Hn)|]. fn (@TextWasm.t_neg2 o checks a m n Hm Hn).
Qed.
Lemma f_count (a : bb P) : on_board b checks a -> fn "count" [v a] (VInt o U8 (Z.of_N (bcount P a))).
Proof.
  intros W. destruct (C82_bitboard o b checks a a (Sq n1 n1) NP (fits_board b checks a W)) as [[_ [_ [_ [_ K]]]] _]. exact K.
Qed.

(* results of a call are unique *)
Lemma fn_fun f vs x y : fn f vs x -> fn f vs y -> x = y.
Proof. intros A B. pose proof (calls_fun _ _ _ _ _ _ _ _ _ _ A B) as E. injection E as E. exact E. Qed.
Lemma mut_fun t f x vs y w y' w' : bits_mut o b checks t f x vs y w -> bits_mut o b checks t f x vs y' w' -> y = y' /\ w = w'.
Proof. intros A B. pose proof (calls_fun _ _ _ _ _ _ _ _ _ _ A B) as E. injection E as E1 E2. tauto. Qed.
Lemma iterates_fun l : forall l' it, iterates o b checks l it -> iterates o b checks l' it -> l = l'.
Proof.
  induction l as [|s l IH]; intros [|s' l'] it; cbn [iterates].
  - reflexivity.
  - intros A [w [B _]]. destruct (mut_fun _ _ _ _ _ _ _ _ A B) as [E _]. discriminate E.
  - intros [w [B _]] A. destruct (mut_fun _ _ _ _ _ _ _ _ A B) as [E _]. discriminate E.
  - intros [w [A I]] [w' [A' I']]. destruct (mut_fun _ _ _ _ _ _ _ _ A A') as [E <-].
    injection E as <-. f_equal. exact (IH l' w I I').
Qed.
End Facts.

(** ** Libraries that do what the model of the backend does *)

Section Related.
Context (b : backend) (checks : bool) (o : bbops) (enc : bb o -> val o).
Notation v := (bval o b checks).
Notation P := (ops_of b checks).
Notation Sp := (backend_spec b checks).
Notation on := (on b checks o enc).
Notation R t a := (enc t = v a).

Record related : Prop := {
  r_value : forall t, exists a, R t a;
  r_inj : forall t u, enc t = enc u -> t = u;
  r_empty : R (bempty o) (bempty P);
  r_single : forall s, R (bsingle o s) (bsingle P s);
  r_sets : forall t u a c, R t a -> R u c ->
    R (band o t u) (band P a c) /\ R (bor o t u) (bor P a c) /\ R (bxor o t u) (bxor P a c) /\ R (bnot o t) (bnot P a) /\
    bis_empty o t = bis_empty P a /\ R (bshl o t) (bshl P a) /\ R (bshr o t) (bshr P a);
  r_contains : forall t a s, R t a -> bcontains o t s = bcontains P a s;
  r_count : forall t a, R t a -> on_board b checks a -> bcount o t = bcount P a;
  r_iter : forall t a, R t a -> on_board b checks a -> biter o t = filter (bcontains P a) all_squares;
  r_slides : forall t m n a c d, R t a -> R m c -> R n d -> on_board b checks c -> on_board b checks d ->
    R (bslide_pos_c o t m) (bslide_pos_c P a c) /\ R (bslide_neg_c o t m) (bslide_neg_c P a c) /\
    R (bslide_pos2 o t (m, n)) (bslide_pos2 P a (c, d)) /\ R (bslide_neg2 o t (m, n)) (bslide_neg2 P a (c, d));
  r_vacant : forall t a x, R t a -> on_board b checks a -> bvacant P a = Some x -> exists y, bvacant o t = Some y /\ R y x }.

Context (T : related).
Lemma b_wf a : on_board b checks a <-> wf Sp a.
Proof. apply on_board_wf. Qed.
Lemma slid_eq t a m c s : R t a -> R m c ->
  (slid_pos (bcontains o t) (bcontains o m) s <-> slid_pos (bcontains P a) (bcontains P c) s) /\
  (slid_neg (bcontains o t) (bcontains o m) s <-> slid_neg (bcontains P a) (bcontains P c) s).
Proof.
  intros A C. unfold slid_pos, slid_neg. rewrite ((r_contains T) m c s C).
  split; (split; intros [X Y]; (split; [exact X|]); intros u; specialize (Y u);
    [rewrite <- ((r_contains T) m c u C), <- ((r_contains T) t a u A)|rewrite ((r_contains T) m c u C), ((r_contains T) t a u A)]; exact Y).
Qed.

Definition related_spec : bbspec o.
Proof.
  refine {| wf := on |}.
  - intros t u [a [A Wa]] [c [C Wc]] H. apply (r_inj T). rewrite A, C. f_equal.
    apply (sp_ext P Sp); [apply b_wf; exact Wa|apply b_wf; exact Wc|].
    intros s. rewrite <- ((r_contains T) t a s A), <- ((r_contains T) u c s C). apply H.
  - exists (bempty P). split; [exact (r_empty T)|]. apply b_wf, (sp_wf_empty P Sp).
  - intros s. rewrite ((r_contains T) _ _ s (r_empty T)). apply (sp_empty P Sp).
  - intros s. exists (bsingle P s). split; [apply (r_single T)|]. apply b_wf, (sp_wf_single P Sp).
  - intros s t. rewrite ((r_contains T) _ _ t ((r_single T) s)). apply (sp_single P Sp).
  - intros t u [a [A W]]. destruct (r_value T u) as [c C]. exists (band P a c).
    split; [apply ((r_sets T) t u a c A C)|]. apply b_wf, (sp_wf_and_l P Sp), b_wf, W.
  - intros t u [c [C W]]. destruct (r_value T t) as [a A]. exists (band P a c).
    split; [apply ((r_sets T) t u a c A C)|]. apply b_wf, (sp_wf_and_r P Sp), b_wf, W.
  - intros t u s. destruct (r_value T t) as [a A], (r_value T u) as [c C].
    rewrite ((r_contains T) _ _ s (proj1 ((r_sets T) t u a c A C))), ((r_contains T) t a s A), ((r_contains T) u c s C). apply (sp_and P Sp).
  - intros t u [a [A W]] [c [C Wc]]. exists (bor P a c).
    split; [apply ((r_sets T) t u a c A C)|]. apply b_wf, (sp_wf_or P Sp); apply b_wf; assumption.
  - intros t u s. destruct (r_value T t) as [a A], (r_value T u) as [c C].
    destruct ((r_sets T) t u a c A C) as [_ [H _]].
    rewrite ((r_contains T) _ _ s H), ((r_contains T) t a s A), ((r_contains T) u c s C). apply (sp_or P Sp).
  - intros t u [a [A W]] [c [C Wc]]. exists (bxor P a c).
    split; [apply ((r_sets T) t u a c A C)|]. apply b_wf, (sp_wf_xor P Sp); apply b_wf; assumption.
  - intros t u s. destruct (r_value T t) as [a A], (r_value T u) as [c C].
    destruct ((r_sets T) t u a c A C) as [_ [_ [H _]]].
    rewrite ((r_contains T) _ _ s H), ((r_contains T) t a s A), ((r_contains T) u c s C). apply (sp_xor P Sp).
  - intros t. destruct (r_value T t) as [a A]. exists (bnot P a).
    split; [apply ((r_sets T) t t a a A A)|]. apply b_wf, (sp_wf_not P Sp).
  - intros t s. destruct (r_value T t) as [a A]. destruct ((r_sets T) t t a a A A) as [_ [_ [_ [H _]]]].
    rewrite ((r_contains T) _ _ s H), ((r_contains T) t a s A). apply (sp_not P Sp).
  - intros t [a [A W]]. destruct ((r_sets T) t t a a A A) as [_ [_ [_ [_ [H _]]]]]. rewrite H.
    rewrite (sp_is_empty P Sp a) by (apply b_wf; exact W). f_equal. apply Agree.existsb_eq. intros s. symmetry. exact ((r_contains T) t a s A).
  - intros t [a [A W]]. rewrite ((r_count T) t a A W), (sp_count P Sp a) by (apply b_wf; exact W).
    do 2 f_equal. apply Agree.filter_eq. intros s. symmetry. exact ((r_contains T) t a s A).
  - intros t [a [A W]]. rewrite ((r_iter T) t a A W). apply Agree.filter_eq. intros s. symmetry. exact ((r_contains T) t a s A).
  - intros t [a [A W]] H. destruct ((r_sets T) t t a a A A) as [_ [_ [_ [_ [_ [E _]]]]]].
    destruct (sp_shl P Sp a (proj1 (b_wf a) W)) as [W' K].
    { intros s Hs. apply H. rewrite ((r_contains T) t a s A). exact Hs. }
    split; [exists (bshl P a); split; [exact E|apply b_wf; exact W']|].
    intros s. rewrite ((r_contains T) _ _ s E), K. destruct (sq_shift s 0 (-1)) as [u|]; [|reflexivity]. symmetry. exact ((r_contains T) t a u A).
  - intros t [a [A W]] H. destruct ((r_sets T) t t a a A A) as [_ [_ [_ [_ [_ [_ E]]]]]].
    destruct (sp_shr P Sp a (proj1 (b_wf a) W)) as [W' K].
    { intros s Hs. apply H. rewrite ((r_contains T) t a s A). exact Hs. }
    split; [exists (bshr P a); split; [exact E|apply b_wf; exact W']|].
    intros s. rewrite ((r_contains T) _ _ s E), K. destruct (sq_shift s 0 1) as [u|]; [|reflexivity]. symmetry. exact ((r_contains T) t a u A).
  - intros t m [a [A W]] [c [C Wc]]. exists (bslide_pos_c P a c).
    split; [apply ((r_slides T) t m m a c c A C C Wc Wc)|]. apply b_wf, (sp_wf_pos_c P Sp); apply b_wf; assumption.
  - intros t m s [a [A W]] [c [C Wc]] F. destruct ((r_slides T) t m m a c c A C C Wc Wc) as [E _].
    rewrite ((r_contains T) _ _ s E), (proj1 (slid_eq t a m c s A C)). apply (sp_pos_c P Sp); [apply b_wf; assumption..|].
    intros x y Hx Hy. apply F; [rewrite ((r_contains T) m c x C)|rewrite ((r_contains T) m c y C)]; assumption.
  - intros t m [a [A W]] [c [C Wc]]. exists (bslide_neg_c P a c).
    split; [apply ((r_slides T) t m m a c c A C C Wc Wc)|]. apply b_wf, (sp_wf_neg_c P Sp); apply b_wf; assumption.
  - intros t m s [a [A W]] [c [C Wc]] F. destruct ((r_slides T) t m m a c c A C C Wc Wc) as [_ [E _]].
    rewrite ((r_contains T) _ _ s E), (proj2 (slid_eq t a m c s A C)). apply (sp_neg_c P Sp); [apply b_wf; assumption..|].
    intros x y Hx Hy. apply F; [rewrite ((r_contains T) m c x C)|rewrite ((r_contains T) m c y C)]; assumption.
  - intros t [m n] [a [A W]] [c [C Wc]] [d [D Wd]]. cbn [fst snd] in *. exists (bslide_pos2 P a (c, d)).
    split; [apply ((r_slides T) t m n a c d A C D Wc Wd)|]. apply b_wf, (sp_wf_pos2 P Sp); apply b_wf; assumption.
  - intros t [m n] s [a [A W]] [c [C Wc]] [d [D Wd]]. cbn [fst snd] in *.
    destruct ((r_slides T) t m n a c d A C D Wc Wd) as [_ [_ [E _]]].
    rewrite ((r_contains T) _ _ s E), (proj1 (slid_eq t a m c s A C)), (proj1 (slid_eq t a n d s A D)).
    apply (sp_pos2 P Sp a (c, d) s); apply b_wf; assumption.
  - intros t [m n] [a [A W]] [c [C Wc]] [d [D Wd]]. cbn [fst snd] in *. exists (bslide_neg2 P a (c, d)).
    split; [apply ((r_slides T) t m n a c d A C D Wc Wd)|]. apply b_wf, (sp_wf_neg2 P Sp); apply b_wf; assumption.
  - intros t [m n] s [a [A W]] [c [C Wc]] [d [D Wd]]. cbn [fst snd] in *.
    destruct ((r_slides T) t m n a c d A C D Wc Wd) as [_ [_ [_ E]]].
    rewrite ((r_contains T) _ _ s E), (proj2 (slid_eq t a m c s A C)), (proj2 (slid_eq t a n d s A D)).
    apply (sp_neg2 P Sp a (c, d) s); apply b_wf; assumption.
  - intros t [a [A W]] H. destruct (sp_vacant P Sp a (proj1 (b_wf a) W)) as [x [E [Wx K]]].
    { intros s u. rewrite <- ((r_contains T) t a s A), <- ((r_contains T) t a u A). apply H. }
    destruct ((r_vacant T) t a x A W E) as [y [Ey Ry]]. exists y. split; [exact Ey|].
    split; [exists x; split; [exact Ry|apply b_wf; exact Wx]|].
    intros s. rewrite ((r_contains T) y x s Ry), K. f_equal. apply Agree.existsb_eq. intros u. rewrite ((r_contains T) t a u A). reflexivity.
Defined.
End Related.

(** ** The text of a vector backend *)

Section Vector.
Context (b : backend) (checks : bool) (o : bbops) (enc : bb o -> val o) (NP : b <> Portable) (T : text_ops b checks o enc).
Notation v := (bval o b checks).
Notation P := (ops_of b checks).
Notation on := (on b checks o enc).
Notation R t a := (enc t = v a).

Ltac same A B := eapply fn_fun; [exact A|exact B].
Lemma t_empty : R (bempty o) (bempty P).
Proof. same (to_empty _ _ _ _ T) (proj1 (f_sets b checks o NP (bempty P) (bempty P) (Sq n1 n1))). Qed.
Lemma t_single s : R (bsingle o s) (bsingle P s).
Proof. same (to_single _ _ _ _ T s) (proj1 (proj2 (f_sets b checks o NP (bempty P) (bempty P) s))). Qed.
Lemma t_sets t u a c : R t a -> R u c ->
  R (band o t u) (band P a c) /\ R (bor o t u) (bor P a c) /\ R (bxor o t u) (bxor P a c) /\ R (bnot o t) (bnot P a) /\
  bis_empty o t = bis_empty P a /\ R (bshl o t) (bshl P a) /\ R (bshr o t) (bshr P a).
Proof.
  intros A C. destruct (f_sets b checks o NP a c (Sq n1 n1)) as [_ [_ [F1 [F2 [F3 [F4 [F5 [_ [F7 [F8 _]]]]]]]]]].
  rewrite <- A in F1, F2, F3, F4, F5, F7, F8. rewrite <- C in F1, F2, F3.
  split; [same (to_and _ _ _ _ T t u) F1|]. split; [same (to_or _ _ _ _ T t u) F2|].
  split; [same (to_xor _ _ _ _ T t u) F3|]. split; [same (to_not _ _ _ _ T t) F4|].
  split; [|split; [same (to_shl _ _ _ _ T t) F7|same (to_shr _ _ _ _ T t) F8]].
  pose proof (fn_fun b checks o _ _ _ _ (to_is_empty _ _ _ _ T t) F5) as E. injection E as E. exact E.
Qed.
Lemma t_contains t a s : R t a -> bcontains o t s = bcontains P a s.
Proof.
  intros A. destruct (f_sets b checks o NP a a s) as [_ [_ [_ [_ [_ [_ [_ [F _]]]]]]]]. rewrite <- A in F.
  pose proof (fn_fun b checks o _ _ _ _ (to_contains _ _ _ _ T t s) F) as E. injection E as E. exact E.
Qed.
Lemma r_on t a : R t a -> on_board b checks a -> on t.
Proof. intros A W. exists a. tauto. Qed.
Lemma t_count t a : R t a -> on_board b checks a -> bcount o t = bcount P a.
Proof.
  intros A W. pose proof (f_count b checks o NP a W) as F. rewrite <- A in F.
  pose proof (fn_fun b checks o _ _ _ _ (to_count _ _ _ _ T t (r_on t a A W)) F) as E. injection E as E. lia.
Qed.
Lemma t_iter t a : R t a -> on_board b checks a -> biter o t = filter (bcontains P a) all_squares.
Proof.
  intros A W. destruct (C82_iterator o b checks a NP W) as [it [F I]]. rewrite <- A in F.
  destruct (to_iter _ _ _ _ T t (r_on t a A W)) as [it' [F' I']].
  pose proof (fn_fun b checks o _ _ _ _ F F') as E. subst it'. exact (iterates_fun b checks o _ _ it I' I).
Qed.
Lemma t_slides t m n a c d : R t a -> R m c -> R n d -> on_board b checks c -> on_board b checks d ->
  R (bslide_pos_c o t m) (bslide_pos_c P a c) /\ R (bslide_neg_c o t m) (bslide_neg_c P a c) /\
  R (bslide_pos2 o t (m, n)) (bslide_pos2 P a (c, d)) /\ R (bslide_neg2 o t (m, n)) (bslide_neg2 P a (c, d)).
Proof.
  intros A C D Wc Wd. destruct (f_slides b checks o NP a c d Wc Wd) as [F1 [F2 [F3 F4]]].
  pose proof (r_on m c C Wc) as Om. pose proof (r_on n d D Wd) as On.
  rewrite <- A, <- C in F1, F2, F3, F4. rewrite <- D in F3, F4.
  split; [same (to_pos_c _ _ _ _ T t m Om) F1|]. split; [same (to_neg_c _ _ _ _ T t m Om) F2|].
  split; [same (to_pos2 _ _ _ _ T t m n Om On) F3|same (to_neg2 _ _ _ _ T t m n Om On) F4].
Qed.
Lemma t_vacant t a x : R t a -> on_board b checks a -> bvacant P a = Some x -> exists y, bvacant o t = Some y /\ R y x.
Proof.
  intros A _ E. destruct (f_sets b checks o NP a a (Sq n1 n1)) as [_ [_ [_ [_ [_ [_ [_ [_ [_ [_ F]]]]]]]]]]. rewrite E, <- A in F.
  pose proof (calls_fun _ _ _ _ _ _ _ _ _ _ (to_vacant _ _ _ _ T t) F) as H.
  destruct (bvacant o t) as [y|]; [|discriminate H]. injection H as H. exists y. tauto.
Qed.
Lemma text_related : related b checks o enc.
Proof.
  constructor; [exact (to_value _ _ _ _ T)|exact (to_inj _ _ _ _ T)|exact t_empty|exact t_single|exact t_sets|exact t_contains|
    exact t_count|exact t_iter|exact t_slides|exact t_vacant].
Qed.
End Vector.

(** ** The text of the portable backend

    The type of core.rs is [shogi_core::Bitboard]: its own operations are those of
    [core_ops] (BackendCore.v), those of the trait Occupied are in the text. *)

Record core_text_ops (checks : bool) (o : bbops) (enc : bb o -> val o) : Prop := {
  co_value : forall t, exists a, enc t = raw a;
  co_inj : forall t u, enc t = enc u -> t = u;
  co_empty : enc (bempty o) = raw (bempty (core_ops checks));
  co_single : forall s, enc (bsingle o s) = raw (bsingle (core_ops checks) s);
  co_sets : forall t u a c, enc t = raw a -> enc u = raw c ->
    enc (band o t u) = raw (band (core_ops checks) a c) /\ enc (bor o t u) = raw (bor (core_ops checks) a c) /\
    enc (bxor o t u) = raw (bxor (core_ops checks) a c) /\ enc (bnot o t) = raw (bnot (core_ops checks) a);
  co_asks : forall t a s, enc t = raw a ->
    bis_empty o t = bis_empty (core_ops checks) a /\ bcontains o t s = bcontains (core_ops checks) a s /\
    bcount o t = bcount (core_ops checks) a /\ biter o t = biter (core_ops checks) a;
  co_shl : forall t, bits_fn o Portable checks "shl" [enc t] (enc (bshl o t));
  co_shr : forall t, bits_fn o Portable checks "shr" [enc t] (enc (bshr o t));
  co_pos_c : forall t m, on Portable checks o enc m ->
    bits_fn o Portable checks "sliding_positive_consecutive" [enc t; enc m] (enc (bslide_pos_c o t m));
  co_neg_c : forall t m, on Portable checks o enc m ->
    bits_fn o Portable checks "sliding_negative_consecutive" [enc t; enc m] (enc (bslide_neg_c o t m));
  co_pos2 : forall t m n, on Portable checks o enc m -> on Portable checks o enc n ->
    bits_fn o Portable checks "sliding_positives" [enc t; VArr o [enc m; enc n]] (enc (bslide_pos2 o t (m, n)));
  co_neg2 : forall t m n, on Portable checks o enc m -> on Portable checks o enc n ->
    bits_fn o Portable checks "sliding_negatives" [enc t; VArr o [enc m; enc n]] (enc (bslide_neg2 o t (m, n)));
  co_vacant : forall t, on Portable checks o enc t -> bits_call o Portable checks "vacant_files" [enc t]
    (match bvacant o t with Some x => RDone o (enc x) [] | None => RPanic o end) }.

Section Core.
Context (checks : bool) (o : bbops).
Notation P := (core_ops checks).
Notation v := (bval o Portable checks).
Notation fn := (bits_fn o Portable checks).
Lemma c_shifts (a : bb P) : fn "shl" [v a] (v (bshl P a)) /\ fn "shr" [v a] (v (bshr P a)).
Proof. split; [fn (@TextCore.t_shl o checks a)|fn (@TextCore.t_shr o checks a)]. Qed.
Lemma c_slides (a m n : bb P) : on_board Portable checks m -> on_board Portable checks n ->
  fn "sliding_positive_consecutive" [v a; v m] (v (bslide_pos_c P a m)) /\
  fn "sliding_negative_consecutive" [v a; v m] (v (bslide_neg_c P a m)) /\
  fn "sliding_positives" [v a; VArr o [v m; v n]] (v (bslide_pos2 P a (m, n))) /\
  fn "sliding_negatives" [v a; VArr o [v m; v n]] (v (bslide_neg2 P a (m, n))).
Proof.
  intros Hm Hn.
  split; [fn (@TextCore.t_pos_c o checks a m)|]. split; [fn (@TextCore.t_neg_c o checks a m Hm)|].
  split; [fn (@TextCore.t_pos2 o checks a m n)|]. fn (@TextCore.t_neg2 o checks a m n Hm Hn).
Qed.
Lemma c_vacant (a : bb P) : on_board Portable checks a ->
  bits_call o Portable checks "vacant_files" [v a] (match bvacant P a with Some x => RDone o (v x) [] | None => RPanic o end).
Proof.
  intros W. destruct (C82_occupied o Portable checks a a a (fits_board Portable checks a W) W W) as [_ [_ [_ [_ [_ [_ E]]]]]]. exact E.
Qed.
Lemma core_related enc : core_text_ops checks o enc -> related Portable checks o enc.
Proof.
  intros T. constructor.
  - exact (co_value _ _ _ T).
  - exact (co_inj _ _ _ T).
  - exact (co_empty _ _ _ T).
  - exact (co_single _ _ _ T).
  - intros t u a c A C. destruct (co_sets _ _ _ T t u a c A C) as [E1 [E2 [E3 E4]]].
    split; [exact E1|]. split; [exact E2|]. split; [exact E3|]. split; [exact E4|].
    split; [apply (co_asks _ _ _ T t a (Sq n1 n1) A)|]. destruct (c_shifts a) as [F1 F2]. rewrite <- A in F1, F2.
    split; [exact (fn_fun _ _ _ _ _ _ _ (co_shl _ _ _ T t) F1)|exact (fn_fun _ _ _ _ _ _ _ (co_shr _ _ _ T t) F2)].
  - intros t a s A. apply (co_asks _ _ _ T t a s A).
  - intros t a A _. apply (co_asks _ _ _ T t a (Sq n1 n1) A).
  - intros t a A W. rewrite <- (sp_iter _ (backend_spec Portable checks) a) by (apply on_board_wf; exact W).
    apply (co_asks _ _ _ T t a (Sq n1 n1) A).
  - intros t m n a c d A C D Wc Wd. destruct (c_slides a c d Wc Wd) as [F1 [F2 [F3 F4]]].
    assert (Om : on Portable checks o enc m) by (exists c; tauto). assert (On : on Portable checks o enc n) by (exists d; tauto).
    rewrite <- A, <- C in F1, F2, F3, F4. rewrite <- D in F3, F4.
    split; [exact (fn_fun _ _ _ _ _ _ _ (co_pos_c _ _ _ T t m Om) F1)|].
    split; [exact (fn_fun _ _ _ _ _ _ _ (co_neg_c _ _ _ T t m Om) F2)|].
    split; [exact (fn_fun _ _ _ _ _ _ _ (co_pos2 _ _ _ T t m n Om On) F3)|exact (fn_fun _ _ _ _ _ _ _ (co_neg2 _ _ _ T t m n Om On) F4)].
  - intros t a x A W E. pose proof (c_vacant a W) as F. change (ops_of Portable checks) with P in E. rewrite E, <- A in F.
    assert (Ot : on Portable checks o enc t) by (exists a; tauto).
    pose proof (calls_fun _ _ _ _ _ _ _ _ _ _ (co_vacant _ _ _ T t Ot) F) as H.
    destruct (bvacant o t) as [y|]; [|discriminate H]. injection H as H. exists y. tauto.
Qed.
End Core.

(** ** The four builds *)

Definition text_library (b : backend) (checks : bool) (o : bbops) (enc : bb o -> val o) : Prop :=
  match b with Portable => core_text_ops checks o enc | _ => text_ops b checks o enc end.
Lemma library_related b checks o enc : text_library b checks o enc -> related b checks o enc.
Proof. destruct b; [apply core_related|intros T; (apply text_related; [discriminate|exact T])..]. Qed.
Definition text_spec b checks o enc (T : text_library b checks o enc) : bbspec o :=
  related_spec b checks o enc (library_related b checks o enc T).

(* the model of the backend is such a library *)
Lemma backend_text_ops b checks : b <> Portable -> text_ops b checks (ops_of b checks) (bval (ops_of b checks) b checks).
Proof.
  intros NP. set (o := ops_of b checks).
  assert (F := fun a c s => f_sets b checks o NP a c s).
  assert (B : forall t, on b checks o (bval o b checks) t -> on_board b checks t).
  { intros t [a [E W]]. apply (v_inj b checks o NP) in E. subst t. exact W. }
  constructor.
  - intros t. exists t. reflexivity.
  - apply v_inj, NP.
  - apply (F (bempty o) (bempty o) (Sq n1 n1)).
  - intros s. apply (F (bempty o) (bempty o) s).
  - intros t u. apply (F t u (Sq n1 n1)).
  - intros t u. apply (F t u (Sq n1 n1)).
  - intros t u. apply (F t u (Sq n1 n1)).
  - intros t. apply (F t t (Sq n1 n1)).
  - intros t. apply (F t t (Sq n1 n1)).
  - intros t s. apply (F t t s).
  - intros t W. exact (f_count b checks o NP t (B t W)).
  - intros t W. unfold o. rewrite (sp_iter _ (backend_spec b checks) t) by (apply on_board_wf, B, W).
    exact (C82_iterator o b checks t NP (B t W)).
  - intros t. apply (F t t (Sq n1 n1)).
  - intros t. apply (F t t (Sq n1 n1)).
  - intros t m W. apply (f_slides b checks o NP t m m (B m W) (B m W)).
  - intros t m W. apply (f_slides b checks o NP t m m (B m W) (B m W)).
  - intros t m n W W'. apply (f_slides b checks o NP t m n (B m W) (B n W')).
  - intros t m n W W'. apply (f_slides b checks o NP t m n (B m W) (B n W')).
  - intros t. apply (F t t (Sq n1 n1)).
Qed.
Lemma core_backend_text_ops checks : core_text_ops checks (core_ops checks) raw.
Proof.
  assert (B : forall t, on Portable checks (core_ops checks) raw t -> on_board Portable checks t).
  { intros t [a [E W]]. cbn [bval] in E. unfold raw in E. injection E as ->. exact W. }
  constructor.
  - intros t. exists t. reflexivity.
  - intros t u E. unfold raw in E. injection E as E. exact E.
  - reflexivity.
  - reflexivity.
  - intros t u a c E E'. unfold raw in E, E'. injection E as ->. injection E' as ->. repeat split.
  - intros t a s E. unfold raw in E. injection E as ->. repeat split.
  - intros t. apply (c_shifts checks _ t).
  - intros t. apply (c_shifts checks _ t).
  - intros t m W. apply (c_slides checks _ t m m (B m W) (B m W)).
  - intros t m W. apply (c_slides checks _ t m m (B m W) (B m W)).
  - intros t m n W W'. apply (c_slides checks _ t m n (B m W) (B n W')).
  - intros t m n W W'. apply (c_slides checks _ t m n (B m W) (B n W')).
  - intros t W. exact (c_vacant checks _ t (B t W)).
Qed.
Lemma backend_library b checks : exists enc, text_library b checks (ops_of b checks) enc.
Proof.
  destruct b; [exists raw; apply core_backend_text_ops|..];
    (eexists; unfold text_library; apply backend_text_ops; discriminate).
Qed.
