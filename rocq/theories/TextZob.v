(** * The initialiser of ZOBRIST_TABLE, run from the text *)

From Coq Require Import List Bool NArith ZArith String Lia.
From Verif Require Import Types Bitboard Tables Zobrist Position Movegen Geometry Squares Facts Init InitSpec Flat RustSyntax RustNames RustSem TextDefs TextRun TextInit.
Import ListNotations.

(* a loop whose body is known for the values with [Q] *)
Lemma for_fold_in {o St checks A T} (Q : A -> Prop) (inj : A -> val o) (E : T -> env o) (f : T -> A -> T) p b k :
  (forall x l t, Q x -> steps o checks source St (BrL o (inj x :: l) p b (E t) k) (BrL o l p b (E (f t x)) k)) ->
  forall l t, Forall Q l -> steps o checks source St (BrL o (map inj l) p b (E t) k) (Resume o (VUnit o) (E (fold_left f l t)) k).
Proof.
  intros H l. induction l as [|x l IH]; intros t W; cbn [map fold_left].
  - apply steps_one. apply steps_refl.
  - inversion W; subst. refine (steps_trans _ _ _ _ _ _ _ (H x (map inj l) t _) (IH _ _)); assumption.
Qed.
Ltac loop_in Q f v0 :=
  lazymatch goal with
  | |- steps ?o ?ch ?pr ?st (BrL _ (map ?inj _) ?p ?b ?e ?k) _ =>
      let F := eval pattern v0 in e in
      lazymatch F with
      | ?F _ => eapply steps_trans; [apply (@for_fold_in o _ ch _ _ Q inj F f p b k); cbv beta|cbv beta]
      end
  end.

(** ** Loops that draw a number for each key *)

Lemma fold_flat {A B S} (f : S -> B -> S) (h : A -> list B) l P :
  fold_left f (flat_map h l) P = fold_left (fun P a => fold_left f (h a) P) l P.
Proof. revert P. induction l as [|a l IH]; intros P; cbn [flat_map fold_left]; [reflexivity|]. rewrite fold_left_app. apply IH. Qed.
Lemma fold_map {A B S} (f : S -> B -> S) (h : A -> B) l P :
  fold_left f (map h l) P = fold_left (fun P a => f P (h a)) l P.
Proof. revert P. induction l as [|a l IH]; intros P; cbn [map fold_left]; [reflexivity|]. apply IH. Qed.
Lemma fold_ext {A S} (f h : S -> A -> S) l P : (forall P a, f P a = h P a) -> fold_left f l P = fold_left h l P.
Proof. intros E. revert P. induction l as [|a l IH]; intros P; cbn [fold_left]; [reflexivity|]. rewrite E. apply IH. Qed.
Lemma nth_flat {A B} (h : A -> list B) m l i j a : (forall a, List.length (h a) = m) -> (j < m)%nat -> nth_error l i = Some a ->
  nth_error (flat_map h l) (i * m + j) = nth_error (h a) j.
Proof.
  intros LE LT. revert i. induction l as [|b l IH]; intros [|i] E; cbn [nth_error flat_map] in *; try discriminate.
  - injection E as <-. rewrite nth_error_app1; [reflexivity|]. rewrite LE. exact LT.
  - rewrite nth_error_app2; rewrite LE; [|cbn; lia]. rewrite <- (IH i E). f_equal. cbn. lia.
Qed.
Lemma fold_draw {S K} (view : S -> K -> N) (put : S -> K -> N -> S) (eqb : K -> K -> bool) (draw : N -> N) :
  (forall a b, eqb a b = true <-> a = b) ->
  (forall F a x b, view (put F a x) b = if eqb b a then x else view F b) ->
  forall l F n, NoDup l ->
  let R := fold_left (fun P k => (put (fst P) k (draw (snd P)), snd P + 1)%N) l (F, n) in
  snd R = (n + N.of_nat (List.length l))%N /\
  (forall i k, nth_error l i = Some k -> view (fst R) k = draw (n + N.of_nat i)%N) /\
  (forall k, ~ In k l -> view (fst R) k = view F k).
Proof.
  intros EQ PUT l. induction l as [|a l IH]; intros F n ND; cbn [fold_left fst snd].
  - split; [cbn; lia|]. split; [intros [|i] k E; discriminate E|reflexivity].
  - inversion ND as [|? ? NI ND']; subst. destruct (IH (put F a (draw n)) (n + 1)%N ND') as (L & I & O).
    split; [rewrite L; cbn [List.length]; lia|]. split.
    + intros [|i] k E; cbn [nth_error] in E.
      * injection E as <-. rewrite (O a NI), PUT, (proj2 (EQ a a) eq_refl). f_equal. cbn. lia.
      * rewrite (I i k E). f_equal. lia.
    + intros k NK. rewrite (O k (fun h => NK (or_intror h))), PUT. destruct (eqb k a) eqn:E; [|reflexivity].
      apply EQ in E. subst. destruct (NK (or_introl eq_refl)).
Qed.
Lemma nth_sq s : nth_error all_squares (N.to_nat (sq_index s)) = Some s.
Proof. destruct s as [[] []]; reflexivity. Qed.
Lemma nth_co c : nth_error all_colors (N.to_nat (color_index c)) = Some c.
Proof. destruct c; reflexivity. Qed.
Lemma nth_ki k : nth_error all_kinds (N.to_nat (kind_index k)) = Some k.
Proof. destruct k; reflexivity. Qed.

Section Board.
Context (draw : N -> N).
Notation key3 := (square * (color * kind))%type.
Definition eqb3 (a b : key3) := sq_eqb (fst a) (fst b) && (color_eqb (fst (snd a)) (fst (snd b)) && kind_eqb (snd (snd a)) (snd (snd b))).
Definition keys3 : list key3 := flat_map (fun s => flat_map (fun c => map (fun k => (s, (c, k))) all_kinds) all_colors) all_squares.
Lemma keys3_at s c k : nth_error keys3 (N.to_nat ((sq_index s * 2 + color_index c) * 14 + kind_index k)) = Some (s, (c, k)).
Proof.
  replace (N.to_nat ((sq_index s * 2 + color_index c) * 14 + kind_index k))
    with (N.to_nat (sq_index s) * 28 + (N.to_nat (color_index c) * 14 + N.to_nat (kind_index k)))%nat by lia.
  unfold keys3. rewrite (nth_flat _ 28 all_squares _ _ s); [|reflexivity| |apply nth_sq].
  2:{ destruct c, k; cbn; lia. }
  rewrite (nth_flat _ 14 all_colors _ _ c); [|reflexivity| |apply nth_co].
  2:{ destruct k; cbn; lia. }
  rewrite nth_error_map, nth_ki. reflexivity.
Qed.
Lemma eqb3_iff a b : eqb3 a b = true <-> a = b.
Proof.
  destruct a as (s & c & k), b as (s' & c' & k'). unfold eqb3. cbn [fst snd]. rewrite !andb_true_iff, sq_eqb_iff, color_eqb_iff, kind_eqb_iff.
  split; [intros (-> & -> & ->)|intros [= -> -> ->]]; auto.
Qed.
Lemma keys3_nodup : NoDup keys3.
Proof.
  apply (NoDup_map_inv (fun a => ((sq_index (fst a) * 2 + color_index (fst (snd a))) * 14 + kind_index (snd (snd a)))%N)).
  replace (map _ keys3) with (map N.of_nat (seq 0 2268)) by (vm_compute; reflexivity).
  apply FinFun.Injective_map_NoDup; [intros a b; apply Nat2N.inj|apply seq_NoDup].
Qed.
Lemma keys3_length : List.length keys3 = N.to_nat 2268.
Proof. vm_compute. reflexivity. Qed.
Definition put3 (F : square -> color -> kind -> N) (a : key3) x :=
  set1 sq_eqb F (fst a) (set1 color_eqb (F (fst a)) (fst (snd a)) (set1 kind_eqb (F (fst a) (fst (snd a))) (snd (snd a)) x)).
Lemma board_draws F0 n : let R := fold_left (fun P s => fold_left (fun P c => fold_left (fun P k =>
      (put3 (fst P) (s, (c, k)) (draw (snd P)), snd P + 1)%N) all_kinds P) all_colors P) all_squares (F0, n) in
  snd R = (n + 2268)%N /\
  forall s c k, fst R s c k = draw (n + ((sq_index s * 2 + color_index c) * 14 + kind_index k))%N.
Proof.
  destruct (fold_draw (fun F a => F (fst a) (fst (snd a)) (snd (snd a))) put3 eqb3 draw eqb3_iff) with (l := keys3) (F := F0) (n := n) as (L & I & _).
  - intros F [s [c k]] x [s' [c' k']]. unfold put3, set1, eqb3. cbn [fst snd].
    destruct (sq_eqb s' s) eqn:E1; [|reflexivity]. destruct (color_eqb c' c) eqn:E2; cbn [andb].
    + destruct (kind_eqb k' k) eqn:E3; [reflexivity|]. apply sq_eqb_iff in E1. apply color_eqb_iff in E2. subst. reflexivity.
    + apply sq_eqb_iff in E1. subst. reflexivity.
  - apply keys3_nodup.
  - assert (E : forall P, fold_left (fun P k => (put3 (fst P) k (draw (snd P)), snd P + 1)%N) keys3 P =
      fold_left (fun P s => fold_left (fun P c => fold_left (fun P k =>
      (put3 (fst P) (s, (c, k)) (draw (snd P)), snd P + 1)%N) all_kinds P) all_colors P) all_squares P).
    { clear. intros P. unfold keys3. rewrite fold_flat. apply fold_ext. clear. intros P s.
      rewrite fold_flat. apply fold_ext. clear. intros P c. apply fold_map. }
    cbv zeta. rewrite E in L, I. split; [rewrite L, keys3_length; reflexivity|]. intros s c k.
    specialize (I _ _ (keys3_at s c k)). cbn [fst snd] in I. rewrite I. apply f_equal. lia.
Qed.

Notation keyh := (color * (kind * nat))%type.
Definition eqbh (a b : keyh) := color_eqb (fst a) (fst b) && (kind_eqb (fst (snd a)) (fst (snd b)) && Nat.eqb (snd (snd a)) (snd (snd b))).
Definition keysh : list keyh := flat_map (fun c => flat_map (fun k => map (fun i => (c, (k, i))) (seq 0 18)) hand_kinds) all_colors.
Lemma nth_hk k : In k hand_kinds -> nth_error hand_kinds (N.to_nat (kind_index k)) = Some k.
Proof. intros H. repeat (destruct H as [<-|H]; [reflexivity|]). destruct H. Qed.
Lemma keysh_at c k i : In k hand_kinds -> (i < 18)%nat ->
  nth_error keysh (N.to_nat ((color_index c * 7 + kind_index k) * 18 + N.of_nat i)) = Some (c, (k, i)).
Proof.
  intros HK HI.
  replace (N.to_nat ((color_index c * 7 + kind_index k) * 18 + N.of_nat i))
    with (N.to_nat (color_index c) * 126 + (N.to_nat (kind_index k) * 18 + i))%nat by lia.
  assert (LK : (N.to_nat (kind_index k) < 7)%nat).
  { clear - HK. repeat (destruct HK as [<-|HK]; [cbn; lia|]). destruct HK. }
  unfold keysh. rewrite (nth_flat _ 126 all_colors _ _ c); [|reflexivity| |apply nth_co]; [|lia].
  rewrite (nth_flat _ 18 hand_kinds _ _ k); [|reflexivity|exact HI|apply nth_hk; exact HK].
  rewrite nth_error_map. do 18 (destruct i as [|i]; [reflexivity|]). lia.
Qed.
Lemma eqbh_iff a b : eqbh a b = true <-> a = b.
Proof.
  destruct a as (s & c & k), b as (s' & c' & k'). unfold eqbh. cbn [fst snd]. rewrite !andb_true_iff, color_eqb_iff, kind_eqb_iff, Nat.eqb_eq.
  split; [intros (-> & -> & ->)|intros [= -> -> ->]]; auto.
Qed.
Lemma keysh_nodup : NoDup keysh.
Proof.
  apply (NoDup_map_inv (fun a => ((color_index (fst a) * 7 + kind_index (fst (snd a))) * 18 + N.of_nat (snd (snd a)))%N)).
  replace (map _ keysh) with (map N.of_nat (seq 0 252)) by (vm_compute; reflexivity).
  apply FinFun.Injective_map_NoDup; [intros a b; apply Nat2N.inj|apply seq_NoDup].
Qed.
Lemma keysh_hand a : In a keysh -> In (fst (snd a)) hand_kinds.
Proof.
  unfold keysh. intros I. apply in_flat_map in I. destruct I as (c & _ & I). apply in_flat_map in I. destruct I as (k & K & I).
  apply in_map_iff in I. destruct I as (i & <- & _). exact K.
Qed.
Definition puth (F : color -> kind -> nat -> N) (a : keyh) x :=
  set1 color_eqb F (fst a) (set1 kind_eqb (F (fst a)) (fst (snd a)) (set1 Nat.eqb (F (fst a) (fst (snd a))) (snd (snd a)) x)).
Lemma hand_draws F0 n : let R := fold_left (fun P c => fold_left (fun P k => fold_left (fun P i =>
      (puth (fst P) (c, (k, i)) (draw (snd P)), snd P + 1)%N) (seq 0 18) P) hand_kinds P) all_colors (F0, n) in
  (forall c k i, In k hand_kinds -> (i < 18)%nat -> fst R c k i = draw (n + ((color_index c * 7 + kind_index k) * 18 + N.of_nat i))%N) /\
  (forall c k i, ~ In k hand_kinds -> fst R c k i = F0 c k i).
Proof.
  destruct (fold_draw (fun F a => F (fst a) (fst (snd a)) (snd (snd a))) puth eqbh draw eqbh_iff) with (l := keysh) (F := F0) (n := n) as (_ & I & J).
  - intros F [s [c k]] x [s' [c' k']]. unfold puth, set1, eqbh. cbn [fst snd].
    destruct (color_eqb s' s) eqn:E1; [|reflexivity]. destruct (kind_eqb c' c) eqn:E2; cbn [andb].
    + destruct (Nat.eqb k' k) eqn:E3; [reflexivity|]. apply color_eqb_iff in E1. apply kind_eqb_iff in E2. subst. reflexivity.
    + apply color_eqb_iff in E1. subst. reflexivity.
  - apply keysh_nodup.
  - assert (E : forall P, fold_left (fun P k => (puth (fst P) k (draw (snd P)), snd P + 1)%N) keysh P =
      fold_left (fun P c => fold_left (fun P k => fold_left (fun P i =>
      (puth (fst P) (c, (k, i)) (draw (snd P)), snd P + 1)%N) (seq 0 18) P) hand_kinds P) all_colors P).
    { clear. intros P. unfold keysh. rewrite fold_flat. apply fold_ext. clear. intros P s.
      rewrite fold_flat. apply fold_ext. clear. intros P c. apply fold_map. }
    cbv zeta. rewrite E in I, J. split.
    + intros c k i HK HI. specialize (I _ _ (keysh_at c k i HK HI)). cbn [fst snd] in I. rewrite I. apply f_equal. lia.
    + intros c k i HK. exact (J (c, (k, i)) (fun h => HK (keysh_hand _ h))).
Qed.
End Board.

Section Specs.
Context (o : bbops) (g : N -> N -> N) (checks : bool).
Notation steps := (steps o checks source (alone o g)).
Notation pan := (pan o).
Notation V := (val o).
Ltac start := intros c e k H; vm_compute in H; injection H as <-.

Definition arr3 (F : square -> color -> kind -> N) : list V :=
  map (fun s => VArr o (map (fun c => VArr o (map (fun k => vkey o (F s c k)) all_kinds)) all_colors)) all_squares.

Definition harr (H : color -> kind -> nat -> N) : list V :=
  map (fun c => VArr o (map (fun k => VArr o (map (fun i => vkey o (H c k i)) (seq 0 18))) (firstn 8 all_kinds))) all_colors.
Definition in_hand (k : kind) := In k hand_kinds.
Lemma get_hk (F : kind -> V) x : in_hand x -> list_get o (map F (firstn 8 all_kinds)) (Z.of_N (kind_index x)) = Some (F x).
Proof. intros H. repeat (destruct H as [<-|H]; [reflexivity|]). destruct H. Qed.
Lemma at_hk (F : kind -> V) x : in_hand x -> list_at o (map F (firstn 8 all_kinds)) (Z.of_N (kind_index x)) = F x.
Proof. intros H. repeat (destruct H as [<-|H]; [reflexivity|]). destruct H. Qed.
Lemma put_hk {A} (h : A -> V) F x v : in_hand x ->
  list_put o (map (fun k => h (F k)) (firstn 8 all_kinds)) (Z.of_N (kind_index x)) (h v) =
  map (fun k => h (set1 kind_eqb F x v k)) (firstn 8 all_kinds).
Proof. intros H. repeat (destruct H as [<-|H]; [reflexivity|]). destruct H. Qed.
Lemma get_i (F : nat -> V) i : (i < 18)%nat -> list_get o (map F (seq 0 18)) (0 + Z.of_nat i) = Some (F i).
Proof. intros H. do 18 (destruct i as [|i]; [reflexivity|]). lia. Qed.
Lemma at_i (F : nat -> V) i : (i < 18)%nat -> list_at o (map F (seq 0 18)) (0 + Z.of_nat i) = F i.
Proof. intros H. do 18 (destruct i as [|i]; [reflexivity|]). lia. Qed.
Lemma put_i {A} (h : A -> V) F i v : (i < 18)%nat ->
  list_put o (map (fun k => h (F k)) (seq 0 18)) (0 + Z.of_nat i) (h v) = map (fun k => h (set1 Nat.eqb F i v k)) (seq 0 18).
Proof. intros H. do 18 (destruct i as [|i]; [reflexivity|]). lia. Qed.
Notation vA := (VArr o).
Lemma arr3_put F s c x y :
  list_put o (arr3 F) (Z.of_N (sq_index s))
    (vA (list_put o (map (fun c => vA (map (fun k => vkey o (F s c k)) all_kinds)) all_colors) (Z.of_N (color_index c))
      (vA (list_put o (map (fun k => vkey o (F s c k)) all_kinds) (Z.of_N (kind_index x)) (vkey o y))))) =
  arr3 (set1 sq_eqb F s (set1 color_eqb (F s) c (set1 kind_eqb (F s c) x y))).
Proof.
  rewrite (put_k (vkey o) (F s c)). rewrite (put_c (fun G => vA (map (fun k => vkey o (G k)) all_kinds)) (F s)).
  unfold arr3. rewrite (put_s (fun G => vA (map (fun c => vA (map (fun k => vkey o (G c k)) all_kinds)) all_colors)) F). reflexivity.
Qed.
Lemma harr_put H c x i y : in_hand x -> (i < 18)%nat ->
  list_put o (harr H) (Z.of_N (color_index c))
    (vA (list_put o (map (fun k => vA (map (fun i => vkey o (H c k i)) (seq 0 18))) (firstn 8 all_kinds)) (Z.of_N (kind_index x))
      (vA (list_put o (map (fun i => vkey o (H c x i)) (seq 0 18)) (0 + Z.of_nat i) (vkey o y))))) =
  harr (set1 color_eqb H c (set1 kind_eqb (H c) x (set1 Nat.eqb (H c x) i y))).
Proof.
  intros HX HI. rewrite (put_i (vkey o) (H c x) i y HI).
  rewrite (put_hk (fun G => vA (map (fun i => vkey o (G i)) (seq 0 18))) (H c) x _ HX).
  unfold harr. rewrite (put_c (fun G => vA (map (fun k => vA (map (fun i => vkey o (G k i)) (seq 0 18))) (firstn 8 all_kinds))) H). reflexivity.
Qed.
Lemma land_draw y : Z.land (Z.of_N (N.land y 0xffffffffffffffff)) (2 ^ 64 - 1 - 1) = Z.of_N (N.ldiff (N.land y 0xffffffffffffffff) 1).
Proof.
  change (2 ^ 64 - 1 - 1)%Z with (Z.of_N (N.ldiff 0xffffffffffffffff 1)). 
  assert (L : forall a b, Z.land (Z.of_N a) (Z.of_N b) = Z.of_N (N.land a b)) by (intros [|] [|]; reflexivity).
  rewrite L. f_equal.
  apply N.bits_inj. intros i. rewrite !N.land_spec, !N.ldiff_spec, !N.land_spec.
  destruct (N.testbit y i), (N.testbit 18446744073709551615 i), (N.testbit 1 i); reflexivity.
Qed.

Lemma in_zobrist : init_ends o g checks id_ZOBRIST_TABLE (v_zobrist o (zobrist_table (g 2022%N))).
Proof.
  start. go.
  pose (draw := fun i => N.ldiff (N.land (g 2022 i) 0xffffffffffffffff) 1).
  pose (f3 := fun s c (P : (square -> color -> kind -> N) * N) k =>
    (put3 (fst P) (s, (c, k)) (draw (snd P)), snd P + 1)%N).
  pose (f2 := fun s P c => fold_left (f3 s c) all_kinds P).
  pose (f1 := fun P s => fold_left (f2 s) all_colors P).
  pose (P0 := (fun (_ : square) (_ : color) (_ : kind) => 0%N, 0%N)).
  change (repeat (VArr o (repeat (VArr o (repeat (VStruct o id_Key [(id_0, VInt o U64 0)]) (Z.to_nat 14))) (Z.to_nat 2))) (Z.to_nat 81))
    with (arr3 (fst P0)).
  change (VRng o (g (Z.to_N 2022)) 0) with (VRng o (g 2022%N) (snd P0)).
  loop_fold f1 P0.
  { intros s l P. unfold f1. body. loop_fold (f2 s) P.
    { intros c l' P'. unfold f2. body. loop_fold (f3 s c) P'.
      { intros x l'' [F n]. unfold f3, put3. cbn [fst snd]. body. inl.
        rewrite land_draw. unfold arr3 at 2. rewrite at_sq. cbv beta iota. rewrite at_co. cbv beta iota.
        change (VStruct o 44 [(21%N, VInt o U64 (Z.of_N (N.ldiff (N.land (g 2022 n) 18446744073709551615) 1)))]) with (vkey o (draw n)).
        rewrite (arr3_put F s c x (draw n)). apply steps_refl. }
      generalize (fold_left (f3 s c) all_kinds P'). intros p. go. apply steps_refl. }
    generalize (fold_left (f2 s) all_colors P). intros p. go. apply steps_refl. }
  remember (fold_left f1 all_squares P0) as Q eqn:EQ. destruct Q as [F n]. cbn [fst snd].
  go.
  pose (h3 := fun c x (P : (color -> kind -> nat -> N) * N) i =>
    (puth (fst P) (c, (x, i)) (draw (snd P)), snd P + 1)%N).
  pose (h2 := fun c P x => fold_left (h3 c x) (seq 0 18) P).
  pose (h1 := fun P c => fold_left (h2 c) hand_kinds P).
  pose (Q0 := (fun (_ : color) (_ : kind) (_ : nat) => 0%N, n)).
  change (repeat (VArr o (repeat (VArr o (repeat (VStruct o id_Key [(id_0, VInt o U64 0)]) (Z.to_nat 18))) (Z.to_nat 8))) (Z.to_nat 2))
    with (harr (fst Q0)).
  change (VRng o (g 2022%N) n) with (VRng o (g 2022%N) (snd Q0)).
  loop_fold h1 Q0.
  { intros c l P. unfold h1. body. loop_in in_hand (h2 c) P; [..|generalize (fold_left (h2 c) hand_kinds P); intros p; go; apply steps_refl].
    2:{ apply Forall_forall. intros x I. exact I. }
    intros x l' P' HX. unfold h2. body.
    change (map (VInt o Lit) (zrange 0 18)) with (map (fun i => VInt o Lit (0 + Z.of_nat i)) (seq 0 18)).
    loop_in (fun i => i < 18)%nat (h3 c x) P'; [..|generalize (fold_left (h3 c x) (seq 0 18) P'); intros p; go; apply steps_refl].
    2:{ apply Forall_forall. intros i I. apply in_seq in I. lia. }
    intros i l'' [H m] HI. unfold h3, puth. cbn [fst snd]. body. inl.
    eapply steps_some; [apply get_hk; exact HX|]. go. eapply steps_some; [apply get_i; exact HI|]. go.
    rewrite land_draw. unfold harr at 2. rewrite at_co. cbv beta iota. rewrite (at_hk _ _ HX). cbv beta iota.
    change (VStruct o 44 [(21%N, VInt o U64 (Z.of_N (N.ldiff (N.land (g 2022 m) 18446744073709551615) 1)))]) with (vkey o (draw m)).
    rewrite (harr_put H c x i (draw m) HX HI). apply steps_refl. }
  remember (fold_left h1 all_colors Q0) as Q eqn:EH. destruct Q as [H m]. cbn [fst snd].
  go. refine (steps_to _ _ _ _ _ _ (steps_refl _ _ _ _ _) _).
  assert (B := board_draws draw (fst P0) 0). change (fst P0, 0%N) with P0 in B.
  unfold f1, f2, f3 in EQ. cbv zeta in B. rewrite <- EQ in B. cbn [fst snd] in B. destruct B as [B1 B2].
  assert (C := hand_draws draw (fst Q0) n). change (fst Q0, n) with Q0 in C.
  unfold h1, h2, h3 in EH. cbv zeta in C. rewrite <- EH in C. cbn [fst snd] in C. destruct C as [C1 C2].
  clear - B1 B2 C1 C2. subst n.
  unfold v_zobrist, zob_fields, by_square, by_color, by_kind.
  refine (f_equal2 (fun a b => Resume o (VStruct o id_ZobristTable [(id_board, vA a); (id_hands, vA b)]) e k) _ _).
  - unfold arr3. apply map_ext. intros s. refine (f_equal vA (map_ext _ _ _ _)). intros c.
    refine (f_equal vA (map_ext _ _ _ _)). intros x. refine (f_equal (vkey o) _). rewrite B2, N.add_0_l. reflexivity.
  - unfold harr. apply map_ext. intros c. refine (f_equal vA (map_ext_in _ _ _ _)). intros x X.
    refine (f_equal vA (map_ext_in _ _ _ _)). intros i I. refine (f_equal (vkey o) _).
    apply in_seq in I. destruct x.
    all: try (rewrite C1; [|cbn; tauto|lia]; cbn [z_hand_entry zobrist_table]; unfold draw; rewrite !N.add_assoc; reflexivity).
    all: try (cbn in X; exfalso; intuition discriminate).
    rewrite C2; [reflexivity|cbn; intuition discriminate].
Qed.
End Specs.
