(** * The loops of Init.v leave the values that the model uses *)

From Coq Require Import List Bool NArith ZArith Lia.
From Verif Require Import Types Bitboard BackendCore BackendSimd Tables Zobrist Words Squares Geometry BBSpec Attacks
  Facts Decide Init.
Import ListNotations.

(** ** Arrays *)

Lemma nth_error_list_set {A} (a : list A) : forall n x a', list_set a n x = Some a' ->
  forall m, nth_error a' m = if Nat.eqb m n then Some x else nth_error a m.
Proof.
  induction a as [|y a IH]; intros n x a' E m; [discriminate|]. destruct n as [|n]; cbn [list_set] in E.
  - injection E as <-. destruct m; reflexivity.
  - destruct (list_set a n x) as [b|] eqn:Eb; [|discriminate]. cbn [bind] in E. injection E as <-.
    destruct m; [reflexivity|]. cbn [nth_error Nat.eqb]. apply (IH n x b Eb).
Qed.

Lemma list_set_some {A} (a : list A) : forall n y x, nth_error a n = Some y ->
  exists a', list_set a n x = Some a'.
Proof.
  induction a as [|z a IH]; intros n y x E; [destruct n; discriminate|].
  destruct n as [|n]; cbn [list_set]; [eauto|]. cbn [nth_error] in E.
  destruct (IH n y x E) as [a' ->]. cbn [bind]. eauto.
Qed.

Lemma arr_get_set {A} (a a' : list A) i x j : arr_set a i x = Some a' ->
  arr_get a' j = if (j =? i)%N then Some x else arr_get a j.
Proof.
  intros E. unfold arr_get. rewrite (nth_error_list_set _ _ _ _ E).
  destruct (N.eqb_spec j i) as [->|N]; [rewrite Nat.eqb_refl; reflexivity|].
  destruct (Nat.eqb_spec (N.to_nat j) (N.to_nat i)) as [H|]; [|reflexivity].
  apply N2Nat.inj in H. contradiction.
Qed.
Lemma arr_set_some {A} (a : list A) i y x : arr_get a i = Some y -> exists a', arr_set a i x = Some a'.
Proof. apply list_set_some. Qed.
Lemma arr_set_upd {A} (a : list A) i x : arr_set a i x = arr_upd a i (fun _ => Some x).
Proof.
  unfold arr_upd, arr_get, arr_set. cbn [bind]. generalize (N.to_nat i). intros n. revert n.
  induction a as [|y a IH]; intros [|n]; cbn [list_set nth_error bind]; try reflexivity.
  rewrite IH. destruct (nth_error a n); reflexivity.
Qed.
Lemma arr_get_repeat {A} (x : A) n i : (i < N.of_nat n)%N -> arr_get (repeat x n) i = Some x.
Proof.
  intros H. unfold arr_get.
  destruct (nth_error (repeat x n) (N.to_nat i)) as [y|] eqn:E.
  - apply nth_error_In, repeat_spec in E. congruence.
  - apply nth_error_None in E. rewrite repeat_length in E. lia.
Qed.
Lemma arr_get_out {A} (x : A) n i : (N.of_nat n <= i)%N -> arr_get (repeat x n) i = None.
Proof. intros H. apply nth_error_None. rewrite repeat_length. lia. Qed.

(** ** Tables with typed keys *)

(* reading and assigning one entry *)
Record lawful {K V T} (keq : K -> K -> bool) (get : T -> K -> option V)
  (upd : T -> K -> (V -> option V) -> option T) : Prop := {
  law : forall t k g x y, get t k = Some x -> g x = Some y ->
    exists t', upd t k g = Some t' /\ forall j, get t' j = if keq j k then Some y else get t j }.

Definition cell_get {V} (v : V) (_ : unit) : option V := Some v.
Definition cell_upd {V} (v : V) (_ : unit) (g : V -> option V) : option V := g v.
Definition nest_get {K1 K2 V T} (ix : K1 -> N) (get : T -> K2 -> option V) (t : list T) (k : K1 * K2) : option V :=
  let* r := arr_get t (ix (fst k)) in get r (snd k).
Definition nest_upd {K1 K2 V T} (ix : K1 -> N) (upd : T -> K2 -> (V -> option V) -> option T)
  (t : list T) (k : K1 * K2) (g : V -> option V) : option (list T) :=
  arr_upd t (ix (fst k)) (fun r => upd r (snd k) g).
Definition nest_eq {K1 K2} (e1 : K1 -> K1 -> bool) (e2 : K2 -> K2 -> bool) (a b : K1 * K2) : bool :=
  e1 (fst a) (fst b) && e2 (snd a) (snd b).

Lemma cell_lawful {V} : @lawful unit V V (fun _ _ => true) cell_get cell_upd.
Proof.
  constructor. intros t k g x y E G. injection E as ->. exists y. split; [exact G|]. reflexivity.
Qed.
Lemma nest_lawful {K1 K2 V T} (ix : K1 -> N) e1 (e2 : K2 -> K2 -> bool)
  (get : T -> K2 -> option V) upd :
  (forall a b, e1 a b = (ix a =? ix b)%N) ->
  lawful e2 get upd -> lawful (nest_eq e1 e2) (nest_get ix get) (nest_upd ix upd).
Proof.
  intros He [L]. constructor. intros t [k1 k2] g x y E G. unfold nest_get in E. cbn [fst snd] in E.
  destruct (arr_get t (ix k1)) as [r|] eqn:Er; [cbn [bind] in E|discriminate].
  destruct (L r k2 g x y E G) as [r' [Eu Hr]].
  destruct (arr_set_some t (ix k1) r r' Er) as [t' Et].
  exists t'. split.
  - unfold nest_upd, arr_upd. cbn [fst snd]. rewrite Er. cbn [bind]. rewrite Eu. cbn [bind]. exact Et.
  - intros [j1 j2]. unfold nest_get, nest_eq. cbn [fst snd]. rewrite (arr_get_set _ _ _ _ _ Et), He.
    destruct (N.eqb_spec (ix j1) (ix k1)) as [->|]; cbn [andb]; [|reflexivity].
    cbn [bind]. rewrite Hr, Er. cbn [bind]. reflexivity.
Qed.

(** ** Loops *)

Lemma for_each_prod {A B T} (l1 : list A) (l2 : list B) (body : A * B -> T -> option T) : forall t,
  for_each l1 (fun a t => for_each l2 (fun b t => body (a, b) t) t) t = for_each (list_prod l1 l2) body t.
Proof.
  assert (App : forall (l l' : list (A * B)) t, for_each (l ++ l') body t =
    let* t := for_each l body t in for_each l' body t).
  { induction l as [|x l IH]; intros l' t; cbn [for_each app]; [reflexivity|].
    destruct (body x t); cbn [bind]; [apply IH|reflexivity]. }
  assert (Map : forall a l t, for_each (map (fun b => (a, b)) l) body t = for_each l (fun b t => body (a, b) t) t).
  { induction l as [|b l IH]; intros t; cbn [for_each map]; [reflexivity|].
    destruct (body (a, b) t); cbn [bind]; [apply IH|reflexivity]. }
  induction l1 as [|a l1 IH]; intros t; cbn [for_each list_prod]; [reflexivity|].
  rewrite App, Map. destruct (for_each l2 _ t); cbn [bind]; [apply IH|reflexivity].
Qed.

Lemma for_each_ext {A T} (l : list A) (b1 b2 : A -> T -> option T) : (forall a t, b1 a t = b2 a t) ->
  forall t, for_each l b1 t = for_each l b2 t.
Proof.
  intros H. induction l as [|a l IH]; intros t; cbn [for_each]; [reflexivity|]. rewrite H.
  destruct (b2 a t); cbn [bind]; [apply IH|reflexivity].
Qed.
Lemma arr_upd_ext {A} (a : list A) i g1 g2 : (forall x, g1 x = g2 x) -> arr_upd a i g1 = arr_upd a i g2.
Proof. intros H. unfold arr_upd. destruct (arr_get a i); cbn [bind]; [rewrite H|]; reflexivity. Qed.

Lemma NoDup_prod {A B} (l1 : list A) (l2 : list B) : NoDup l1 -> NoDup l2 -> NoDup (list_prod l1 l2).
Proof.
  intros N1 N2. induction N1 as [|a l1 Ha N1 IH]; cbn [list_prod]; [constructor|].
  assert (M : NoDup (map (fun b => (a, b)) l2)).
  { clear -N2. induction N2; cbn; [constructor|]. constructor; [|assumption].
    rewrite in_map_iff. intros [b [E I]]. injection E as ->. contradiction. }
  assert (D : forall x, In x (map (fun b => (a, b)) l2) -> ~ In x (list_prod l1 l2)).
  { intros x I I'. apply in_map_iff in I as [b [<- _]]. apply in_prod_iff in I' as [I' _]. contradiction. }
  induction M as [|x l Hx M IHm]; cbn [app]; [exact IH|].
  constructor.
  - rewrite in_app_iff. intros [I|I]; [contradiction|]. exact (D x (or_introl eq_refl) I).
  - apply IHm. intros y I. apply D. right. exact I.
Qed.

Section Loop.
Context {K V T : Type} (keq : K -> K -> bool) (keq_spec : forall a b, keq a b = true <-> a = b)
  (get : T -> K -> option V).

(* a body that changes the entry of its key only *)
Definition local (body : K -> T -> option T) (G : K -> V -> V) : Prop :=
  forall k t x, get t k = Some x ->
    exists t', body k t = Some t' /\ forall j, get t' j = if keq j k then Some (G k x) else get t j.

Lemma loop body G : local body G -> forall ks t, NoDup ks -> (forall k, In k ks -> get t k <> None) ->
  exists t', for_each ks body t = Some t' /\
    forall j, get t' j = if existsb (keq j) ks then option_map (G j) (get t j) else get t j.
Proof.
  intros L. induction ks as [|k ks IH]; intros t N D; cbn [for_each existsb].
  - exists t. split; reflexivity.
  - inversion N as [|? ? Hk N']; subst.
    destruct (get t k) as [x|] eqn:E; [|exfalso; exact (D k (or_introl eq_refl) E)].
    destruct (L k t x E) as [t1 [-> H1]]. cbn [bind].
    destruct (IH t1 N') as [t' [E' H']].
    { intros j I. rewrite H1. destruct (keq j k); [discriminate|]. apply D. right. exact I. }
    exists t'. split; [exact E'|]. intros j. rewrite H', H1.
    destruct (keq j k) eqn:Ejk; cbn [orb].
    + apply keq_spec in Ejk. subst j. rewrite E. cbn [option_map].
      destruct (existsb (keq k) ks) eqn:Ex; [|reflexivity].
      apply existsb_exists in Ex as [y [I Ey]]. apply keq_spec in Ey. subst y. contradiction.
    + reflexivity.
Qed.

Lemma loop_all body G ks t : local body G -> NoDup ks -> (forall k, In k ks -> get t k <> None) ->
  exists t', for_each ks body t = Some t' /\
    forall j, In j ks -> get t' j = option_map (G j) (get t j).
Proof.
  intros L N D. destruct (loop body G L ks t N D) as [t' [E H]]. exists t'. split; [exact E|].
  intros j I. rewrite H. replace (existsb (keq j) ks) with true; [reflexivity|]. symmetry.
  apply existsb_exists. exists j. split; [exact I|]. apply keq_spec. reflexivity.
Qed.

(* several assignments to one entry *)
Lemma local_seq {A} (l : list A) (body : A -> K -> T -> option T) (G : A -> K -> V -> V) :
  (forall a, local (body a) (G a)) ->
  local (fun k t => for_each l (fun a t => body a k t) t) (fun k x => fold_left (fun x a => G a k x) l x).
Proof.
  intros L. induction l as [|a l IH]; intros k t x E; cbn [for_each fold_left].
  - exists t. split; [reflexivity|]. intros j. destruct (keq j k) eqn:Ek; [|reflexivity].
    apply keq_spec in Ek. subst j. exact E.
  - destruct (L a k t x E) as [t1 [-> H1]]. cbn [bind].
    destruct (IH k t1 (G a k x)) as [t' [-> H']].
    { rewrite H1. replace (keq k k) with true by (symmetry; apply keq_spec; reflexivity). reflexivity. }
    exists t'. split; [reflexivity|]. intros j. rewrite H', H1. destruct (keq j k); reflexivity.
Qed.
Lemma local_skip : local (fun _ t => Some t) (fun _ x => x).
Proof.
  intros k t x E. exists t. split; [reflexivity|]. intros j. destruct (keq j k) eqn:Ek; [|reflexivity].
  apply keq_spec in Ek. subst j. exact E.
Qed.

(* assignments of successive draws *)
Lemma loop_draws (upd : T -> K -> (V -> option V) -> option T) (d : N -> V) (rank : K -> N) :
  lawful keq get upd -> forall ks t n, map rank ks = map (fun i => n + N.of_nat i)%N (seq 0 (length ks)) ->
  (forall k, In k ks -> get t k <> None) ->
  exists t', for_each ks (fun k st => let* t := upd (fst st) k (fun _ => Some (d (snd st))) in
      Some (t, (snd st + 1)%N)) (t, n) = Some (t', (n + N.of_nat (length ks))%N) /\
    forall j, get t' j = if existsb (keq j) ks then Some (d (rank j)) else get t j.
Proof.
  intros L. induction ks as [|k ks IH]; intros t n R D; cbn [for_each existsb length].
  - exists t. rewrite N.add_0_r. split; reflexivity.
  - cbn [map seq length] in R. injection R as Rk R.
    destruct (get t k) as [x|] eqn:E; [|exfalso; exact (D k (or_introl eq_refl) E)].
    destruct (law _ _ _ L t k (fun _ => Some (d n)) x (d n) E eq_refl) as [t1 [E1 H1]].
    cbn [fst snd]. rewrite E1. cbn [bind].
    destruct (IH t1 (n + 1)%N) as [t' [E' H']].
    { rewrite R, <- seq_shift, map_map. apply map_ext. intros i. lia. }
    { intros j I. rewrite H1. destruct (keq j k); [discriminate|]. apply D. right. exact I. }
    exists t'. split; [rewrite E'; f_equal; f_equal; lia|]. intros j. rewrite H', H1.
    destruct (keq j k) eqn:Ejk; cbn [orb]; [|reflexivity].
    apply keq_spec in Ejk. subst j. replace n with (rank k) by lia.
    destruct (existsb (keq k) ks); reflexivity.
Qed.
End Loop.

(* the index of a key, and equality of keys *)
Lemma sq_eqb_index a b : sq_eqb a b = (sq_index a =? sq_index b)%N.
Proof.
  destruct (sq_eqb_spec a b) as [->|N]; [rewrite N.eqb_refl; reflexivity|].
  destruct (N.eqb_spec (sq_index a) (sq_index b)) as [E|]; [apply sq_index_inj in E; contradiction|reflexivity].
Qed.
Lemma color_eqb_index a b : color_eqb a b = (color_index a =? color_index b)%N.
Proof. destruct a, b; reflexivity. Qed.
Lemma kind_eqb_index a b : kind_eqb a b = (kind_index a =? kind_index b)%N.
Proof. destruct a, b; reflexivity. Qed.
Lemma sq_eqb_iff a b : sq_eqb a b = true <-> a = b.
Proof. destruct (sq_eqb_spec a b); split; congruence. Qed.
Lemma color_eqb_iff a b : color_eqb a b = true <-> a = b.
Proof. destruct a, b; split; (reflexivity || discriminate). Qed.
Lemma kind_eqb_iff a b : kind_eqb a b = true <-> a = b.
Proof. destruct (kind_eqb_spec a b); split; congruence. Qed.
Lemma unit_iff (a b : unit) : true = true <-> a = b.
Proof. destruct a, b. split; reflexivity. Qed.
Lemma nest_eq_iff {K1 K2} (e1 : K1 -> K1 -> bool) (e2 : K2 -> K2 -> bool) :
  (forall a b, e1 a b = true <-> a = b) -> (forall a b, e2 a b = true <-> a = b) ->
  forall a b, nest_eq e1 e2 a b = true <-> a = b.
Proof.
  intros H1 H2 [a1 a2] [b1 b2]. unfold nest_eq. cbn [fst snd]. rewrite andb_true_iff, H1, H2.
  split; [intros [-> ->]; reflexivity|intros [= -> ->]; split; reflexivity].
Qed.
Lemma all_colors_NoDup : NoDup all_colors.
Proof. repeat constructor; cbn; intuition discriminate. Qed.
Lemma color_index_lt c : (color_index c < 2)%N.
Proof. destruct c; reflexivity. Qed.
Lemma kind_index_lt k : (kind_index k < 14)%N.
Proof. destruct k; reflexivity. Qed.

(** ** Tables indexed by square and colour *)

Definition sc := (square * (color * unit))%type.
Definition sc_eq : sc -> sc -> bool := nest_eq sq_eqb (nest_eq color_eqb (fun _ _ => true)).
Definition sc_get {V} : list (list V) -> sc -> option V := nest_get sq_index (nest_get color_index cell_get).
Definition sc_upd {V} : list (list V) -> sc -> (V -> option V) -> option (list (list V)) :=
  nest_upd sq_index (nest_upd color_index cell_upd).
Lemma sc_lawful {V} : lawful sc_eq (@sc_get V) sc_upd.
Proof.
  apply nest_lawful; [exact sq_eqb_index|]. apply nest_lawful; [exact color_eqb_index|]. exact cell_lawful.
Qed.
Lemma sc_eq_iff a b : sc_eq a b = true <-> a = b.
Proof.
  apply nest_eq_iff; [exact sq_eqb_iff|]. apply nest_eq_iff; [exact color_eqb_iff|exact unit_iff].
Qed.
Definition sc_keys : list sc := list_prod all_squares (map (fun c => (c, tt)) all_colors).
Lemma sc_keys_NoDup : NoDup sc_keys.
Proof.
  apply NoDup_prod; [exact all_squares_NoDup|]. repeat constructor; cbn; intuition discriminate.
Qed.
Lemma sc_keys_in k : In k sc_keys.
Proof.
  destruct k as [s [c []]]. apply in_prod; [apply all_squares_in|]. destruct c; cbn; tauto.
Qed.
Lemma sc_loop {V} (body : square -> color -> list (list V) -> option (list (list V))) t :
  for_each all_squares (fun s t => for_each all_colors (fun c t => body s c t) t) t =
  for_each sc_keys (fun k t => body (fst k) (fst (snd k)) t) t.
Proof.
  unfold sc_keys.
  rewrite <- (for_each_prod all_squares (map (fun c => (c, tt)) all_colors) (fun k t => body (fst k) (fst (snd k)) t)).
  reflexivity.
Qed.
Lemma sc_const {V} (v : V) k : sc_get (repeat (repeat v 2) 81) k = Some v.
Proof.
  destruct k as [s [c []]]. unfold sc_get, nest_get. cbn [fst snd].
  rewrite arr_get_repeat by apply sq_index_lt. cbn [bind].
  rewrite arr_get_repeat by apply color_index_lt. reflexivity.
Qed.
Lemma sc_read {V} (t : list (list V)) s c :
  (let* row := arr_get t (sq_index s) in arr_get row (color_index c)) = sc_get t (s, (c, tt)).
Proof.
  unfold sc_get, nest_get, cell_get. cbn [fst snd]. destruct (arr_get t (sq_index s)) as [r|]; [|reflexivity].
  cbn [bind]. destruct (arr_get r (color_index c)); reflexivity.
Qed.
Lemma sc_fill {V} (v : V) body G : local sc_eq sc_get body G ->
  exists t, for_each sc_keys body (repeat (repeat v 2) 81) = Some t /\
    forall s c, (let* row := arr_get t (sq_index s) in arr_get row (color_index c)) = Some (G (s, (c, tt)) v).
Proof.
  intros L.
  destruct (loop_all sc_eq sc_eq_iff sc_get body G sc_keys (repeat (repeat v 2) 81) L sc_keys_NoDup) as [t [E H]].
  { intros k _. rewrite sc_const. discriminate. }
  exists t. split; [exact E|]. intros s c. rewrite sc_read, (H _ (sc_keys_in _)), sc_const. reflexivity.
Qed.
Lemma sc_assign {V} (g : sc -> V -> option V) (G : sc -> V -> V) : (forall k x, g k x = Some (G k x)) ->
  local sc_eq sc_get (fun k t => sc_upd t k (g k)) G.
Proof. intros H k t x E. exact (law _ _ _ sc_lawful t k (g k) x (G k x) E (H k x)). Qed.

Lemma local_ext {K V T} (keq : K -> K -> bool) (get : T -> K -> option V) b1 b2 G1 G2 :
  (forall k t x, get t k = Some x -> b1 k t = b2 k t) -> (forall k x, G1 k x = G2 k x) ->
  local keq get b1 G1 -> local keq get b2 G2.
Proof.
  intros Hb HG L k t x E. destruct (L k t x E) as [t' [E' H']]. exists t'.
  rewrite <- (Hb k t x E). split; [exact E'|]. intros j. rewrite H', HG. reflexivity.
Qed.

Section Tables.
Context (o : bbops).

Lemma piece_table_init_spec (ds : color -> list delta) :
  exists t, piece_table_init o [ds Black; ds White] = Some t /\
    forall s c, piece_table_attack o t s c = Some (piece_attack o ds s c).
Proof.
  unfold piece_table_init. rewrite sc_loop.
  destruct (sc_fill (bempty o) (fun k t =>
      let* dl := arr_get [ds Black; ds White] (color_index (fst (snd k))) in
      for_each dl (fun d t => match sq_shift (fst k) (fst d) (snd d) with
        | Some to => arr_upd t (sq_index (fst k)) (fun row =>
              arr_upd row (color_index (fst (snd k))) (fun b => Some (bor o b (bsingle o to))))
        | None => Some t end) t)
    (fun k x => fold_left (fun acc d => match sq_shift (fst k) (fst d) (snd d) with
        | Some to => bor o acc (bsingle o to) | None => acc end) (ds (fst (snd k))) x)) as [t [E H]].
  - intros [s [c []]] t x E. cbn [fst snd].
    assert (Ed : arr_get [ds Black; ds White] (color_index c) = Some (ds c)) by (destruct c; reflexivity).
    rewrite Ed. cbn [bind]. clear Ed. revert E.
    apply (local_seq sc_eq sc_eq_iff sc_get (ds c)
      (fun d k t => match sq_shift (fst k) (fst d) (snd d) with
        | Some to => sc_upd t k (fun b => Some (bor o b (bsingle o to))) | None => Some t end)
      (fun d k x => match sq_shift (fst k) (fst d) (snd d) with
        | Some to => bor o x (bsingle o to) | None => x end)).
    clear. intros d k t x E. destruct (sq_shift (fst k) (fst d) (snd d)) as [to|].
    + exact (law _ _ _ sc_lawful t k _ x _ E eq_refl).
    + exact (local_skip sc_eq sc_eq_iff sc_get k t x E).
  - exists t. split; [exact E|]. intros s c. exact (H s c).
Qed.

Lemma lance_table_init_spec : exists t, lance_table_init o = Some t /\
  (forall s c, lance_table_pseudo o t s c = Some (ky_mask o s c)) /\
  (forall s c occ, lance_table_attack o t s c occ = Some (ky_attack o s c occ)).
Proof.
  unfold lance_table_init. rewrite sc_loop.
  destruct (sc_fill (bempty o) (fun k t => sc_upd t k (fun _ => Some (ky_mask o (fst k) (fst (snd k)))))
    (fun k _ => ky_mask o (fst k) (fst (snd k)))) as [t [E H]].
  { apply sc_assign. reflexivity. }
  exists t. split; [|split; [exact H|]].
  - rewrite <- E. apply for_each_ext. intros [s [c []]] t'. apply arr_upd_ext. intros row. apply arr_set_upd.
  - intros s c occ. unfold lance_table_attack. pose proof (H s c) as Hs.
    destruct (arr_get t (sq_index s)) as [row|]; [|discriminate]. cbn [bind] in *. rewrite Hs. reflexivity.
Qed.

Lemma upd_step {A} (a : list A) i g x y : arr_get a i = Some x -> g x = Some y ->
  exists a', arr_upd a i g = Some a' /\ forall j, arr_get a' j = if (j =? i)%N then Some y else arr_get a j.
Proof.
  intros E G. destruct (arr_set_some a i x y E) as [a' E']. exists a'. split.
  - unfold arr_upd. rewrite E. cbn [bind]. rewrite G. exact E'.
  - intros j. exact (arr_get_set _ _ _ _ _ E').
Qed.

Definition sliding_values (ds : sdeltas) (s : square) : list (list (bb o)) :=
  [[fst (fst (s_masks o ds s)); snd (fst (s_masks o ds s))];
   [fst (snd (s_masks o ds s)); snd (snd (s_masks o ds s))]].

Lemma sliding_table_init_spec (ds : sdeltas) :
  exists t, sliding_table_init o [[fst (fst ds); snd (fst ds)]; [fst (snd ds); snd (snd ds)]] = Some t /\
    (forall s, sliding_table_pseudo o t s = Some (s_merged o ds s)) /\
    (forall s occ, sliding_table_attack o t s occ = Some (s_attack o ds s occ)).
Proof.
  set (e := bempty o).
  (* the loop over any squares, each once *)
  assert (L : forall ks masks merged, NoDup ks ->
    (forall s, In s ks -> arr_get masks (sq_index s) = Some (repeat (repeat e 2) 2)) ->
    (forall s, In s ks -> arr_get merged (sq_index s) = Some e) ->
    exists masks' merged', for_each ks (fun sq st =>
      let* st := for_each (combine [0%N; 1%N] [[fst (fst ds); snd (fst ds)]; [fst (snd ds); snd (snd ds)]]) (fun ids st =>
          for_each (combine [0%N; 1%N] (snd ids)) (fun jd st =>
              let b := sliding_attack o sq (bempty o) (snd jd) in
              let* masks := arr_upd (fst (fst st)) (sq_index sq) (fun m =>
                arr_upd m (fst ids) (fun row => arr_set row (fst jd) b)) in
              let* m := arr_get masks (sq_index sq) in
              let* row := arr_get m (fst ids) in
              let* v := arr_get row (fst jd) in
              Some ((masks, snd (fst st)), bor o (snd st) v)) st)
        (st, bempty o) in
      let* merged := arr_set (snd (fst st)) (sq_index sq) (snd st) in
      Some (fst (fst st), merged)) (masks, merged) = Some (masks', merged') /\
    (forall j, arr_get masks' (sq_index j) =
       if existsb (sq_eqb j) ks then Some (sliding_values ds j) else arr_get masks (sq_index j)) /\
    (forall j, arr_get merged' (sq_index j) =
       if existsb (sq_eqb j) ks then Some (s_merged o ds j) else arr_get merged (sq_index j))).
  { induction ks as [|s ks IH]; intros masks merged N Hm Hg; cbn [for_each existsb].
    { exists masks, merged. repeat split. }
    inversion N as [|? ? Hs N']; subst. cbn [combine for_each fst snd].
    destruct (upd_step masks (sq_index s) (fun m => arr_upd m 0 (fun row =>
      arr_set row 0 (sliding_attack o s (bempty o) (fst (fst ds))))) _ _
      (Hm s (or_introl eq_refl)) eq_refl) as [m1 [E1 G1]].
    rewrite E1. cbn [bind]. rewrite (G1 (sq_index s)), N.eqb_refl. cbn [bind for_each combine repeat arr_get nth_error N.to_nat fst snd].
    assert (X1 := G1 (sq_index s)). rewrite N.eqb_refl in X1.
    destruct (upd_step m1 (sq_index s) (fun m => arr_upd m 0 (fun row =>
      arr_set row 1 (sliding_attack o s (bempty o) (snd (fst ds))))) _ _ X1 eq_refl) as [m2 [E2 G2]].
    rewrite E2. cbn [bind]. rewrite (G2 (sq_index s)), N.eqb_refl.
    cbn [N.to_nat]. change (Pos.to_nat 1) with 1%nat. cbn [bind for_each combine repeat arr_get nth_error N.to_nat fst snd].
    assert (X2 := G2 (sq_index s)). rewrite N.eqb_refl in X2.
    destruct (upd_step m2 (sq_index s) (fun m => arr_upd m 1 (fun row =>
      arr_set row 0 (sliding_attack o s (bempty o) (fst (snd ds))))) _ _ X2 eq_refl) as [m3 [E3 G3]].
    rewrite E3. cbn [bind]. rewrite (G3 (sq_index s)), N.eqb_refl.
    cbn [N.to_nat]. change (Pos.to_nat 1) with 1%nat. cbn [bind for_each combine repeat arr_get nth_error N.to_nat fst snd].
    assert (X3 := G3 (sq_index s)). rewrite N.eqb_refl in X3.
    destruct (upd_step m3 (sq_index s) (fun m => arr_upd m 1 (fun row =>
      arr_set row 1 (sliding_attack o s (bempty o) (snd (snd ds))))) _ _ X3 eq_refl) as [m4 [E4 G4]].
    rewrite E4. cbn [bind]. rewrite (G4 (sq_index s)), N.eqb_refl.
    cbn [N.to_nat]. change (Pos.to_nat 1) with 1%nat. cbn [bind for_each combine repeat arr_get nth_error N.to_nat fst snd].
    match goal with |- context [arr_set merged (sq_index s) ?v] =>
      change v with (s_merged o ds s);
      destruct (arr_set_some merged (sq_index s) e (s_merged o ds s) (Hg s (or_introl eq_refl))) as [g' Eg] end.
    rewrite Eg. cbn [bind].
    assert (Diff : forall j, In j ks -> (sq_index j =? sq_index s)%N = false).
    { intros j I. rewrite <- sq_eqb_index. apply sq_eqb_neq. intros ->. contradiction. }
    destruct (IH m4 g' N') as [mm [gg [E [H1 H2]]]].
    { intros j I. rewrite G4, G3, G2, G1, !(Diff j I). apply Hm. right. exact I. }
    { intros j I. rewrite (arr_get_set _ _ _ _ _ Eg), (Diff j I). apply Hg. right. exact I. }
    exists mm, gg. split; [exact E|].
    assert (Out : existsb (sq_eqb s) ks = false).
    { destruct (existsb (sq_eqb s) ks) eqn:X; [|reflexivity]. apply existsb_exists in X as [y [I Ey]].
      apply sq_eqb_iff in Ey. subst y. contradiction. }
    split; intros j; [rewrite H1, G4, G3, G2, G1|rewrite H2, (arr_get_set _ _ _ _ _ Eg)];
      rewrite <- sq_eqb_index; destruct (sq_eqb_spec j s) as [->|]; cbn [orb]; try rewrite Out; reflexivity. }
  destruct (L all_squares (repeat (repeat (repeat e 2) 2) 81) (repeat e 81) all_squares_NoDup) as [mm [gg [E [H1 H2]]]].
  { intros s _. apply arr_get_repeat, sq_index_lt. }
  { intros s _. apply arr_get_repeat, sq_index_lt. }
  assert (In' : forall s, existsb (sq_eqb s) all_squares = true).
  { intros s. apply existsb_exists. exists s. split; [apply all_squares_in|apply sq_eqb_refl]. }
  exists (mkST o mm gg). split; [|split].
  - unfold sliding_table_init. fold e. fold e in E.
    match type of E with ?a = _ => match goal with |- (let* r := ?b in _) = _ => change b with a end end.
    rewrite E. reflexivity.
  - intros s. unfold sliding_table_pseudo. cbn [st_merged]. rewrite H2, In'. reflexivity.
  - intros s occ. unfold sliding_table_attack. cbn [st_masks]. rewrite H1, In'. reflexivity.
Qed.

(* the tables separately *)
Record good_tables (T : attack_table o) : Prop := mkGT {
  gt_fu : forall s c, piece_table_attack o (at_fu o T) s c = Some (fu_attack o s c);
  gt_ky : forall s c, lance_table_pseudo o (at_ky o T) s c = Some (ky_mask o s c);
  gt_ky' : forall s c occ, lance_table_attack o (at_ky o T) s c occ = Some (ky_attack o s c occ);
  gt_ke : forall s c, piece_table_attack o (at_ke o T) s c = Some (ke_attack o s c);
  gt_gi : forall s c, piece_table_attack o (at_gi o T) s c = Some (gi_attack o s c);
  gt_ka : forall s, sliding_table_pseudo o (at_ka o T) s = Some (s_merged o ka_deltas s);
  gt_ka' : forall s occ, sliding_table_attack o (at_ka o T) s occ = Some (ka_attack o s occ);
  gt_hi : forall s, sliding_table_pseudo o (at_hi o T) s = Some (s_merged o hi_deltas s);
  gt_hi' : forall s occ, sliding_table_attack o (at_hi o T) s occ = Some (hi_attack o s occ);
  gt_ki : forall s c, piece_table_attack o (at_ki o T) s c = Some (ki_attack o s c);
  gt_ou : forall s c, piece_table_attack o (at_ou o T) s c = Some (ou_attack o s c) }.
Lemma good_attack T : good_tables T ->
  (forall k s c occ, table_attack o T k s c occ = Some (attack o k s c occ)) /\
  (forall k s c, table_pseudo_attack o T k s c = Some (pseudo_attack o k s c)).
Proof.
  intros [H1 H2 H2' H3 H4 H5 H5' H6 H6' H7 H8].
  assert (A : forall k s c occ, table_attack o T k s c occ = Some (attack o k s c occ)).
  { intros k s c occ. destruct k; cbn [table_attack attack];
      rewrite ?H1, ?H2', ?H3, ?H4, ?H5', ?H6', ?H7, ?H8; cbn [bind]; reflexivity. }
  split; [exact A|]. intros k s c.
  destruct k; cbn [table_pseudo_attack pseudo_attack]; rewrite ?A, ?H2, ?H5, ?H6; reflexivity.
Qed.
Lemma attack_table_build fu ky ke gi ka hi ki ou :
  piece_table_init o [fu_deltas Black; fu_deltas White] = Some fu ->
  lance_table_init o = Some ky ->
  piece_table_init o [ke_deltas Black; ke_deltas White] = Some ke ->
  piece_table_init o [gi_deltas Black; gi_deltas White] = Some gi ->
  sliding_table_init o [[dNE; dSE]; [dSW; dNW]] = Some ka ->
  sliding_table_init o [[dN; dE]; [dS; dW]] = Some hi ->
  piece_table_init o [ki_deltas Black; ki_deltas White] = Some ki ->
  piece_table_init o [ou_deltas Black; ou_deltas White] = Some ou ->
  attack_table_init o = Some (mkAT o fu ky ke gi ka hi ki ou).
Proof.
  unfold attack_table_init.
  generalize (piece_table_init o [fu_deltas Black; fu_deltas White]) (lance_table_init o)
    (piece_table_init o [ke_deltas Black; ke_deltas White]) (piece_table_init o [gi_deltas Black; gi_deltas White])
    (sliding_table_init o [[dNE; dSE]; [dSW; dNW]]) (sliding_table_init o [[dN; dE]; [dS; dW]])
    (piece_table_init o [ki_deltas Black; ki_deltas White]) (piece_table_init o [ou_deltas Black; ou_deltas White]).
  intros. subst. reflexivity.
Qed.
Lemma attack_table_init_good : exists T, attack_table_init o = Some T /\ good_tables T.
Proof.
  destruct (piece_table_init_spec fu_deltas) as [fu [E1 H1]].
  destruct lance_table_init_spec as [ky [E2 [H2 H2']]].
  destruct (piece_table_init_spec ke_deltas) as [ke [E3 H3]].
  destruct (piece_table_init_spec gi_deltas) as [gi [E4 H4]].
  destruct (sliding_table_init_spec ka_deltas) as [ka [E5 [H5 H5']]].
  destruct (sliding_table_init_spec hi_deltas) as [hi [E6 [H6 H6']]].
  destruct (piece_table_init_spec ki_deltas) as [ki [E7 H7]].
  destruct (piece_table_init_spec ou_deltas) as [ou [E8 H8]].
  exists (mkAT o fu ky ke gi ka hi ki ou). split.
  - exact (attack_table_build _ _ _ _ _ _ _ _ E1 E2 E3 E4 E5 E6 E7 E8).
  - exact (mkGT (mkAT o fu ky ke gi ka hi ki ou) H1 H2 H2' H3 H4 H5 H5' H6 H6' H7 H8).
Qed.
Lemma attack_table_init_spec : exists T, attack_table_init o = Some T /\
  (forall k s c occ, table_attack o T k s c occ = Some (attack o k s c occ)) /\
  (forall k s c, table_pseudo_attack o T k s c = Some (pseudo_attack o k s c)).
Proof.
  destruct attack_table_init_good as [T [E G]]. exists T. split; [exact E|]. exact (good_attack T G).
Qed.

(** *** Squares between *)

Definition ss := (square * (square * unit))%type.
Definition ss_eq : ss -> ss -> bool := nest_eq sq_eqb (nest_eq sq_eqb (fun _ _ => true)).
Definition ss_get : list (list (bb o)) -> ss -> option (bb o) := nest_get sq_index (nest_get sq_index cell_get).
Definition ss_upd : list (list (bb o)) -> ss -> (bb o -> option (bb o)) -> option (list (list (bb o))) :=
  nest_upd sq_index (nest_upd sq_index cell_upd).
Lemma ss_lawful : lawful ss_eq ss_get ss_upd.
Proof.
  apply nest_lawful; [exact sq_eqb_index|]. apply nest_lawful; [exact sq_eqb_index|]. exact cell_lawful.
Qed.
Lemma ss_eq_iff a b : ss_eq a b = true <-> a = b.
Proof. apply nest_eq_iff; [exact sq_eqb_iff|]. apply nest_eq_iff; [exact sq_eqb_iff|exact unit_iff]. Qed.
Lemma for_each_map {A B T} (f : A -> B) (body : B -> T -> option T) l : forall t,
  for_each (map f l) body t = for_each l (fun a t => body (f a) t) t.
Proof.
  induction l as [|a l IH]; intros t; cbn [for_each map]; [reflexivity|].
  destruct (body (f a) t); cbn [bind]; [apply IH|reflexivity].
Qed.

Lemma between_table_init_spec : exists t, between_table_init o = Some t /\
  forall s0 s1, between_table_get o t s0 s1 = Some (BETWEEN_TABLE o s0 s1).
Proof.
  set (keys := list_prod all_squares (map (fun s => (s, tt)) all_squares)).
  set (body := fun (k : ss) bbs =>
      let df := (fileZ (fst (snd k)) - fileZ (fst k))%Z in
      let dr := (rankZ (fst (snd k)) - rankZ (fst k))%Z in
      if (Z.lor df dr =? 0)%Z
         || (negb (df =? 0)%Z && negb (dr =? 0)%Z && negb (Z.abs df =? Z.abs dr)%Z)
      then Some bbs
      else
        let* d := between_delta df dr in
        arr_upd bbs (sq_index (fst k)) (fun row =>
          arr_set row (sq_index (fst (snd k)))
            (band o (sliding_attack o (fst k) (bsingle o (fst (snd k))) d) (bnot o (bsingle o (fst (snd k))))))).
  destruct (loop_all ss_eq ss_eq_iff ss_get body
    (fun k x => match dirof (fst k) (fst (snd k)) with
       | Some _ => BETWEEN_TABLE o (fst k) (fst (snd k)) | None => x end)
    keys (repeat (repeat (bempty o) 81) 81)) as [t [E H]].
  - intros [s0 [s1 []]] t x E. unfold body. cbv zeta. cbn [fst snd].
    rewrite (between_table_unfold o s0 s1). pose proof (between_delta_dirof s0 s1) as D. cbv zeta in D.
    destruct (Z.lor _ _ =? 0)%Z eqn:L0; cbn [orb] in *.
    { rewrite <- D. exact (local_skip ss_eq ss_eq_iff ss_get (s0, (s1, tt)) t x E). }
    destruct (negb _ && negb _ && negb _)%bool; cbn [orb] in *.
    { rewrite <- D. exact (local_skip ss_eq ss_eq_iff ss_get (s0, (s1, tt)) t x E). }
    rewrite D. destruct (dirof s0 s1) as [d|] eqn:Ed; cbn [bind].
    + destruct (law _ _ _ ss_lawful t (s0, (s1, tt)) (fun _ => Some
        (band o (sliding_attack o s0 (bsingle o s1) d) (bnot o (bsingle o s1)))) x _ E eq_refl) as [t' [E' H']].
      exists t'. split; [|exact H']. rewrite <- E'. apply arr_upd_ext. intros row. apply arr_set_upd.
    + (* unreachable!() *)
      exfalso. revert D Ed. unfold between_delta.
      destruct (fileZ s1 - fileZ s0 ?= 0)%Z eqn:C1, (rankZ s1 - rankZ s0 ?= 0)%Z eqn:C2; intros; try congruence.
      apply Z.compare_eq in C1, C2. rewrite C1, C2 in L0. discriminate.
  - apply NoDup_prod; [exact all_squares_NoDup|]. apply FinFun.Injective_map_NoDup; [|exact all_squares_NoDup].
    intros a b Eab. congruence.
  - intros [s0 [s1 []]] _. unfold ss_get, nest_get. cbn [fst snd].
    rewrite arr_get_repeat by apply sq_index_lt. cbn [bind].
    rewrite arr_get_repeat by apply sq_index_lt. discriminate.
  - exists t. split.
    + unfold between_table_init. rewrite <- E. unfold keys. rewrite <- (for_each_prod all_squares _ body).
      apply for_each_ext. intros s0 t0. rewrite for_each_map. reflexivity.
    + intros s0 s1. unfold between_table_get.
      assert (R : (let* row := arr_get t (sq_index s0) in arr_get row (sq_index s1)) = ss_get t (s0, (s1, tt))).
      { unfold ss_get, nest_get, cell_get. cbn [fst snd]. destruct (arr_get t (sq_index s0)) as [r|]; [|reflexivity].
        cbn [bind]. destruct (arr_get r (sq_index s1)); reflexivity. }
      rewrite R, H.
      2:{ apply in_prod; [apply all_squares_in|]. apply in_map_iff. exists s1. split; [reflexivity|apply all_squares_in]. }
      unfold ss_get, nest_get. cbn [fst snd].
      rewrite arr_get_repeat by apply sq_index_lt. cbn [bind].
      rewrite arr_get_repeat by apply sq_index_lt. cbn [option_map cell_get bind].
      rewrite between_table_unfold. destruct (dirof s0 s1); reflexivity.
Qed.

(** *** Files *)

Lemma file_index s : (Z.to_N (fileZ s) = i9N (sqf s) + 1)%N.
Proof. destruct s as [f r]. destruct f; reflexivity. Qed.
Lemma i9N_inj a b : (i9N a =? i9N b)%N = i9_eqb a b.
Proof. destruct a, b; reflexivity. Qed.

Lemma files_init_spec : exists t, files_init o = Some t /\
  (forall f, arr_get t (Z.to_N (i9Z f)) = Some (FILES o f)) /\ arr_get t 0 = Some (bempty o) /\
  length t = 10%nat.
Proof.
  assert (Len : forall (a : list (bb o)) n x a', list_set a n x = Some a' -> length a' = length a).
  { induction a as [|y a IH]; intros [|n] x a' E; try discriminate; cbn [list_set] in E.
    - injection E as <-. reflexivity.
    - destruct (list_set a n x) eqn:E'; [|discriminate]. injection E as <-. cbn. f_equal. eauto. }
  assert (L : forall l t, length t = 10%nat ->
    exists t', for_each l (fun sq bbs =>
      arr_upd bbs (Z.to_N (fileZ sq)) (fun b => Some (bor o b (bsingle o sq)))) t = Some t' /\ length t' = 10%nat /\
    arr_get t' 0 = arr_get t 0 /\
    forall f, arr_get t' (i9N f + 1) = option_map (fun b => fold_left (fun acc s =>
      if i9_eqb (sqf s) f then bor o acc (bsingle o s) else acc) l b) (arr_get t (i9N f + 1))).
  { induction l as [|s l IH]; intros t Ht; cbn [for_each fold_left].
    - exists t. repeat split; [exact Ht|]. intros f. destruct (arr_get t _); reflexivity.
    - rewrite file_index. destruct (arr_get t (i9N (sqf s) + 1)) as [x|] eqn:E.
      2:{ exfalso. apply nth_error_None in E. rewrite Ht in E. destruct (sqf s); cbn in E; lia. }
      unfold arr_upd at 1. rewrite E. cbn [bind].
      destruct (arr_set_some t _ _ (bor o x (bsingle o s)) E) as [t1 E1]. rewrite E1. cbn [bind].
      destruct (IH t1) as [t' [E' [H1 [H2 H3]]]]; [rewrite (Len _ _ _ _ E1); exact Ht|].
      exists t'. split; [exact E'|]. split; [exact H1|]. split.
      + rewrite H2, (arr_get_set _ _ _ _ _ E1). destruct (N.eqb_spec 0 (i9N (sqf s) + 1)); [lia|reflexivity].
      + intros f. rewrite H3, (arr_get_set _ _ _ _ _ E1).
        replace (i9N f + 1 =? i9N (sqf s) + 1)%N with (i9_eqb (sqf s) f).
        2:{ rewrite <- i9N_inj. destruct (N.eqb_spec (i9N (sqf s)) (i9N f)) as [->|];
              symmetry; [apply N.eqb_refl|]. apply N.eqb_neq. lia. }
        destruct (i9_eqb (sqf s) f) eqn:Ef; [|reflexivity].
        rewrite <- i9N_inj in Ef. apply N.eqb_eq in Ef. rewrite <- Ef, E. reflexivity. }
  destruct (L all_squares (repeat (bempty o) 10) eq_refl) as [t [E [H1 [H2 H3]]]].
  exists t. split; [exact E|]. split; [|split; [exact H2|exact H1]].
  intros f. replace (Z.to_N (i9Z f)) with (i9N f + 1)%N by (destruct f; reflexivity). rewrite H3.
  assert (Lf : (i9N f + 1 < N.of_nat 10)%N) by (destruct f; reflexivity).
  rewrite (arr_get_repeat (bempty o) 10 (i9N f + 1) Lf). unfold FILES, option_map.
  match goal with |- Some ?a = Some ?b => change b with a end. reflexivity.
Qed.

(** *** The walk of sliding_attack *)

Lemma walk_loop (occ : bb o) d : forall fuel cur acc, shifts fuel cur d = None ->
  walk o occ d cur acc (sliding_loop o fuel cur occ d acc).
Proof.
  induction fuel as [|fuel IH]; intros cur acc E; cbn [shifts sliding_loop] in *.
  - subst cur. constructor.
  - destruct cur as [to|]; [|constructor]. destruct (bcontains o occ to) eqn:C.
    + apply walk_break. exact C.
    + apply walk_on; [exact C|]. apply IH. exact E.
Qed.
Lemma walk_det (occ : bb o) d cur acc r : walk o occ d cur acc r -> forall r', walk o occ d cur acc r' -> r' = r.
Proof.
  induction 1 as [acc|to acc C|to acc r C W IH]; intros r' W'; inversion W'; subst; try congruence. auto.
Qed.
Lemma sliding_walk s occ d r : In d dirs8 ->
  (walk o occ d (sq_shift s (fst d) (snd d)) (bempty o) r <-> r = sliding_attack o s occ d).
Proof.
  intros Hd. pose proof (walk_loop occ d 9 (sq_shift s (fst d) (snd d)) (bempty o) (shifts_leave s d Hd)) as W.
  split; [|intros ->; exact W]. intros W'. exact (walk_det _ _ _ _ _ W _ W').
Qed.
End Tables.

Lemma relative_ranks_init_spec : exists t, relative_ranks_init = Some t /\
  forall s c, by_square_color t s c = Some (RELATIVE_RANKS s c).
Proof.
  unfold relative_ranks_init. rewrite sc_loop.
  destruct (sc_fill 0%Z (fun k t => sc_upd t k (fun _ => Some (relative_rank (fst k) (fst (snd k)))))
    (fun k _ => relative_rank (fst k) (fst (snd k)))) as [t [E H]].
  { apply sc_assign. reflexivity. }
  exists t. split; [|exact H]. rewrite <- E. apply for_each_ext. intros [s [c []]] t'.
  apply arr_upd_ext. intros row. apply arr_set_upd.
Qed.
Lemma promotable_init_spec ranks : (forall s c, by_square_color ranks s c = Some (RELATIVE_RANKS s c)) ->
  exists t, promotable_init ranks = Some t /\ forall s c, by_square_color t s c = Some (PROMOTABLE s c).
Proof.
  intros R. unfold promotable_init. rewrite sc_loop.
  destruct (sc_fill false (fun k t => if PROMOTABLE (fst k) (fst (snd k)) then sc_upd t k (fun _ => Some true) else Some t)
    (fun k x => if PROMOTABLE (fst k) (fst (snd k)) then true else x)) as [t [E H]].
  { intros k t x E. destruct (PROMOTABLE (fst k) (fst (snd k))).
    - exact (law _ _ _ sc_lawful t k _ x _ E eq_refl).
    - exact (local_skip sc_eq sc_eq_iff sc_get k t x E). }
  exists t. split.
  - rewrite <- E. apply for_each_ext. intros [s [c []]] t'. cbn [fst snd].
    specialize (R s c). unfold by_square_color in R.
    destruct (arr_get ranks (sq_index s)) as [row|]; [|discriminate]. cbn [bind] in *. rewrite R. cbn [bind].
    unfold PROMOTABLE. destruct (RELATIVE_RANKS s c <=? 3)%Z; [|reflexivity].
    apply arr_upd_ext. intros row'. apply arr_set_upd.
  - intros s c. unfold by_square_color. rewrite H. cbn [fst snd]. destruct (PROMOTABLE s c); reflexivity.
Qed.

(** ** The Zobrist table *)

Definition bk := (square * (color * (kind * unit)))%type.
Definition bk_eq : bk -> bk -> bool := nest_eq sq_eqb (nest_eq color_eqb (nest_eq kind_eqb (fun _ _ => true))).
Definition bk_get : list (list (list key)) -> bk -> option key :=
  nest_get sq_index (nest_get color_index (nest_get kind_index cell_get)).
Definition bk_upd : list (list (list key)) -> bk -> (key -> option key) -> option (list (list (list key))) :=
  nest_upd sq_index (nest_upd color_index (nest_upd kind_index cell_upd)).
Lemma bk_lawful : lawful bk_eq bk_get bk_upd.
Proof.
  apply nest_lawful; [exact sq_eqb_index|]. apply nest_lawful; [exact color_eqb_index|].
  apply nest_lawful; [exact kind_eqb_index|]. exact cell_lawful.
Qed.
Lemma bk_eq_iff a b : bk_eq a b = true <-> a = b.
Proof.
  apply nest_eq_iff; [exact sq_eqb_iff|]. apply nest_eq_iff; [exact color_eqb_iff|].
  apply nest_eq_iff; [exact kind_eqb_iff|exact unit_iff].
Qed.
Definition bk_keys : list bk := list_prod all_squares (list_prod all_colors (map (fun k => (k, tt)) all_kinds)).
Definition bk_rank (k : bk) : N :=
  ((sq_index (fst k) * 2 + color_index (fst (snd k))) * 14 + kind_index (fst (snd (snd k))))%N.
Lemma bk_keys_in k : In k bk_keys.
Proof.
  destruct k as [s [c [k []]]]. apply in_prod; [apply all_squares_in|]. apply in_prod; [apply all_colors_in|].
  apply in_map_iff. exists k. split; [reflexivity|]. destruct k; cbn; tauto.
Qed.

Definition hk := (color * (kind * (N * unit)))%type.
Definition hk_eq : hk -> hk -> bool := nest_eq color_eqb (nest_eq kind_eqb (nest_eq N.eqb (fun _ _ => true))).
Definition hk_get : list (list (list key)) -> hk -> option key :=
  nest_get color_index (nest_get kind_index (nest_get (fun n => n) cell_get)).
Definition hk_upd : list (list (list key)) -> hk -> (key -> option key) -> option (list (list (list key))) :=
  nest_upd color_index (nest_upd kind_index (nest_upd (fun n => n) cell_upd)).
Lemma hk_lawful : lawful hk_eq hk_get hk_upd.
Proof.
  apply nest_lawful; [exact color_eqb_index|]. apply nest_lawful; [exact kind_eqb_index|].
  apply nest_lawful; [reflexivity|]. exact cell_lawful.
Qed.
Lemma hk_eq_iff a b : hk_eq a b = true <-> a = b.
Proof.
  apply nest_eq_iff; [exact color_eqb_iff|]. apply nest_eq_iff; [exact kind_eqb_iff|].
  apply nest_eq_iff; [exact N.eqb_eq|exact unit_iff].
Qed.
Definition hk_keys : list hk := list_prod all_colors (list_prod hand_kinds (map (fun n => (n, tt)) (Nrange 18))).
Definition hk_rank (k : hk) : N :=
  (81 * 2 * 14 + (color_index (fst k) * 7 + kind_index (fst (snd k))) * 18 + fst (snd (snd k)))%N.

Lemma zobrist_init_spec rng : exists z, zobrist_init rng = Some z /\
  (forall s p, za_board_get z s p = Some (z_board (zobrist_table rng) s p)) /\
  (forall c k num, za_hand_get z c k num = z_hand (zobrist_table rng) c k num).
Proof.
  unfold zobrist_init.
  destruct (loop_draws bk_eq bk_eq_iff bk_get bk_upd (draw rng) bk_rank bk_lawful bk_keys
    (repeat (repeat (repeat KEY_ZERO 14) 2) 81) 0%N) as [b [Eb Hb]].
  { vm_compute. reflexivity. }
  { intros [s [c [k []]]] _. unfold bk_get, nest_get. cbn [fst snd].
    rewrite arr_get_repeat by apply sq_index_lt. cbn [bind].
    rewrite arr_get_repeat by apply color_index_lt. cbn [bind].
    rewrite arr_get_repeat by apply kind_index_lt. discriminate. }
  destruct (loop_draws hk_eq hk_eq_iff hk_get hk_upd (draw rng) hk_rank hk_lawful hk_keys
    (repeat (repeat (repeat KEY_ZERO 18) 8) 2) (0 + N.of_nat (length bk_keys))%N) as [h [Eh Hh]].
  { vm_compute. reflexivity. }
  { intros [c [k [n []]]] I. unfold hk_keys in I. apply in_prod_iff in I as [_ I]. apply in_prod_iff in I as [Ik In'].
    apply in_map_iff in In' as [n' [En In']]. injection En as ->. unfold Nrange in In'.
    apply in_map_iff in In' as [m [<- Im]]. apply in_seq in Im.
    unfold hk_get, nest_get. cbn [fst snd].
    rewrite arr_get_repeat by apply color_index_lt. cbn [bind].
    rewrite arr_get_repeat. 2:{ cbn in Ik. intuition (subst; reflexivity). } cbn [bind].
    rewrite arr_get_repeat by lia. discriminate. }
  exists (mkZA b h). split.
  - match goal with |- (let* bn := ?e in _) = _ => assert (E1 : e = Some (b, (0 + N.of_nat (length bk_keys))%N)) end.
    { rewrite <- Eb. unfold bk_keys at 1.
      rewrite <- (for_each_prod all_squares _ (fun (k : bk) st => let* t := bk_upd (fst st) k (fun _ => Some (draw rng (snd st))) in
        Some (t, (snd st + 1)%N))).
      apply for_each_ext. intros s st.
      rewrite <- (for_each_prod all_colors _ (fun k1 st => let* t := bk_upd (fst st) (s, k1) (fun _ => Some (draw rng (snd st))) in
        Some (t, (snd st + 1)%N))).
      apply for_each_ext. intros c st'. rewrite for_each_map. apply for_each_ext. intros k st''.
      f_equal. apply arr_upd_ext. intros m. apply arr_upd_ext. intros row. apply arr_set_upd. }
    rewrite E1. cbn [bind snd fst].
    match goal with |- (let* hn := ?e in _) = _ =>
      assert (E2 : e = Some (h, (0 + N.of_nat (length bk_keys) + N.of_nat (length hk_keys))%N)) end.
    { rewrite <- Eh. unfold hk_keys at 1.
      rewrite <- (for_each_prod all_colors _ (fun (k : hk) st => let* t := hk_upd (fst st) k (fun _ => Some (draw rng (snd st))) in
        Some (t, (snd st + 1)%N))).
      apply for_each_ext. intros s st.
      rewrite <- (for_each_prod hand_kinds _ (fun k1 st => let* t := hk_upd (fst st) (s, k1) (fun _ => Some (draw rng (snd st))) in
        Some (t, (snd st + 1)%N))).
      apply for_each_ext. intros c st'. rewrite for_each_map. apply for_each_ext. intros k st''.
      f_equal. apply arr_upd_ext. intros m. apply arr_upd_ext. intros row. apply arr_set_upd. }
    rewrite E2. reflexivity.
  - split.
    + intros s p. assert (R : za_board_get (mkZA b h) s p = bk_get b (s, (pcolor p, (pkind p, tt)))).
      { unfold za_board_get, bk_get, nest_get, cell_get. cbn [za_board fst snd].
        destruct (arr_get b (sq_index s)) as [m|]; [cbn [bind]|reflexivity].
        destruct (arr_get m (color_index (pcolor p))) as [r|]; [cbn [bind]|reflexivity].
        destruct (arr_get r (kind_index (pkind p))); reflexivity. }
      rewrite R, Hb. replace (existsb _ bk_keys) with true; [reflexivity|]. symmetry.
      apply existsb_exists. eexists. split; [apply bk_keys_in|]. apply bk_eq_iff. reflexivity.
    + intros c k num. assert (R : za_hand_get (mkZA b h) c k num = hk_get h (c, (k, (num, tt)))).
      { unfold za_hand_get, hk_get, nest_get, cell_get. cbn [za_hands fst snd].
        destruct (arr_get h (color_index c)) as [m|]; [cbn [bind]|reflexivity].
        destruct (arr_get m (kind_index k)) as [r|]; [cbn [bind]|reflexivity].
        destruct (arr_get r num); reflexivity. }
      rewrite R, Hh. unfold z_hand, MAX_HAND_NUM.
      destruct (existsb (hk_eq (c, (k, (num, tt)))) hk_keys) eqn:X.
      * apply existsb_exists in X as [y [I Ey]]. apply hk_eq_iff in Ey. subst y.
        unfold hk_keys in I. apply in_prod_iff in I as [_ I]. apply in_prod_iff in I as [Ik In'].
        apply in_map_iff in In' as [n' [En In']]. injection En as ->. unfold Nrange in In'.
        apply in_map_iff in In' as [m [<- Im]]. apply in_seq in Im.
        replace (N.of_nat m <? 18)%N with true by (symmetry; apply N.ltb_lt; lia).
        cbn in Ik. destruct Ik as [<-|[<-|[<-|[<-|[<-|[<-|[<-|[]]]]]]]]; reflexivity.
      * assert (Z : hk_get (repeat (repeat (repeat KEY_ZERO 18) 8) 2) (c, (k, (num, tt))) =
          if (kind_index k <? 8)%N && (num <? 18)%N then Some KEY_ZERO else None).
        { unfold hk_get, nest_get, cell_get. cbn [fst snd].
          rewrite arr_get_repeat by apply color_index_lt. cbn [bind].
          destruct (N.ltb_spec (kind_index k) 8); [rewrite arr_get_repeat by assumption|rewrite arr_get_out by assumption; reflexivity].
          cbn [bind andb]. destruct (N.ltb_spec num 18); [rewrite arr_get_repeat by assumption|rewrite arr_get_out by assumption];
            reflexivity. }
        rewrite Z. destruct (kind_index k <? 8)%N eqn:Ek; [cbn [andb]|reflexivity].
        destruct (N.ltb_spec num 18) as [Hn|]; [|reflexivity].
        destruct k; try reflexivity; try discriminate Ek; exfalso;
          (apply not_true_iff_false in X; apply X; apply existsb_exists; eexists; split;
           [|apply hk_eq_iff; reflexivity];
           apply in_prod_iff; split; [apply all_colors_in|]; apply in_prod_iff; split; [cbn; tauto|];
           apply in_map_iff; exists num; split; [reflexivity|];
           apply in_map_iff; exists (N.to_nat num); split; [apply N2Nat.id|apply in_seq; lia]).
Qed.

(** ** Constant tables *)

Lemma while_for {T} n (body : N -> T -> option T) : forall len i t, (N.of_nat len = n - i)%N ->
  while_runs n body i t (for_each (Nseq i len) body t).
Proof.
  induction len as [|len IH]; intros i t E; cbn [Nseq for_each].
  - apply wr_end. lia.
  - destruct (body i t) as [t'|] eqn:B; cbn [bind].
    + apply (wr_step n body i t t'); [lia|exact B|]. apply IH. lia.
    + apply wr_panic; [lia|exact B].
Qed.
Lemma while_det {T} n (body : N -> T -> option T) i t r : while_runs n body i t r ->
  forall r', while_runs n body i t r' -> r' = r.
Proof.
  induction 1; intros r' W; inversion W; subst; try lia; try congruence. 
  match goal with H : body _ _ = Some ?a, H' : body _ _ = Some ?b |- _ => assert (a = b) by congruence; subst end. auto.
Qed.

Definition arr_eq : (N * unit) -> (N * unit) -> bool := nest_eq N.eqb (fun _ _ => true).
Lemma const_table {V} (v : V) (n : nat) (body : N -> list V -> option (list V)) (val : N -> V) :
  (forall i a, (i < N.of_nat n)%N -> body i a = arr_set a i (val i)) ->
  exists t, (forall r, while_runs (N.of_nat n) body 0 (repeat v n) r <-> r = Some t) /\
    length t = n /\ forall i, (i < N.of_nat n)%N -> arr_get t i = Some (val i).
Proof.
  intros B.
  assert (Len : forall (a : list V) n x a', list_set a n x = Some a' -> length a' = length a).
  { induction a as [|y a IH]; intros [|m] x a' E; try discriminate; cbn [list_set] in E.
    - injection E as <-. reflexivity.
    - destruct (list_set a m x) eqn:E'; [|discriminate]. injection E as <-. cbn. f_equal. eauto. }
  assert (L : forall len i a, length a = n -> (i + N.of_nat len <= N.of_nat n)%N ->
    exists t, for_each (Nseq i len) body a = Some t /\ length t = n /\
      forall j, arr_get t j = if (i <=? j)%N && (j <? i + N.of_nat len)%N then Some (val j) else arr_get a j).
  { induction len as [|len IH]; intros i a Ha Hi; cbn [Nseq for_each].
    - exists a. repeat split; [exact Ha|]. intros j.
      destruct (N.leb_spec i j), (N.ltb_spec j (i + N.of_nat 0)); cbn [andb]; try reflexivity. lia.
    - rewrite B by lia. destruct (arr_get a i) as [x|] eqn:E.
      2:{ exfalso. apply nth_error_None in E. lia. }
      destruct (arr_set_some a i x (val i) E) as [a1 E1]. rewrite E1. cbn [bind].
      destruct (IH (i + 1)%N a1) as [t [Et [Lt Ht]]].
      { rewrite (Len _ _ _ _ E1). exact Ha. } { lia. }
      exists t. split; [exact Et|]. split; [exact Lt|]. intros j. rewrite Ht, (arr_get_set _ _ _ _ _ E1).
      destruct (N.eqb_spec j i) as [Ej|], (N.leb_spec (i + 1) j), (N.ltb_spec j (i + 1 + N.of_nat len)),
        (N.leb_spec i j), (N.ltb_spec j (i + N.of_nat (S len))); cbn [andb]; subst; try reflexivity; lia. }
  destruct (L n 0%N (repeat v n) (repeat_length _ _) (N.le_refl _)) as [t [Et [Lt Ht]]].
  exists t. split; [|split; [exact Lt|]].
  - intros r. pose proof (while_for (N.of_nat n) body n 0%N (repeat v n)) as W. rewrite Et in W.
    specialize (W ltac:(lia)). split; [|intros ->; exact W]. intros W'. exact (while_det _ _ _ _ _ W _ W').
  - intros i Hi. rewrite Ht. destruct (N.leb_spec 0 i), (N.ltb_spec i (0 + N.of_nat n)); try lia. reflexivity.
Qed.
