(** * There are finitely many positions, so a long game repeats one four times *)

From Coq Require Import List Bool Arith NArith ZArith Lia.
From Verif Require Import Types Rules Squares ValidPlay Lines Repeat.
Import ListNotations.
Local Open Scope nat_scope.

(* a list longer than three times the number of its possible elements has one of them four times *)
Lemma pigeon4 {A} (dec : forall x y : A, {x = y} + {x <> y}) : forall L l,
  (forall x, In x l -> In x L) -> 3 * length L < length l ->
  exists x, 4 <= length (filter (fun y => if dec x y then true else false) l).
Proof.
  induction L as [|a L IH]; intros l I G.
  - destruct l as [|x l]; [cbn in G; lia|]. destruct (I x (or_introl eq_refl)).
  - destruct (le_lt_dec 4 (length (filter (fun y => if dec a y then true else false) l))) as [H|H];
      [exists a; exact H|].
    set (l' := filter (fun y => negb (if dec a y then true else false)) l).
    assert (Len : length l = length (filter (fun y => if dec a y then true else false) l) + length l').
    { unfold l'. clear. induction l as [|y l IH]; [reflexivity|]. cbn. destruct (dec a y); cbn; lia. }
    destruct (IH l') as [x Hx].
    + intros x Hx. apply filter_In in Hx as [Hx N]. destruct (I x Hx) as [->|J]; [|exact J].
      destruct (dec x x); [discriminate|congruence].
    + cbn [length] in G. lia.
    + exists x. apply (Nat.le_trans _ _ _ Hx). unfold l'. clear. induction l as [|y l IH]; [apply le_n|].
      cbn [filter]. destruct (dec a y); cbn [negb filter]; destruct (dec x y); cbn [length]; lia.
Qed.

(** ** Codes of positions *)

(* all lists of [n] elements of [A] *)
Fixpoint words {T} (A : list T) (n : nat) : list (list T) :=
  match n with
  | O => [[]]
  | S n => map (fun p => fst p :: snd p) (list_prod A (words A n))
  end.

Lemma words_in {T} (A : list T) : forall w, (forall x, In x w -> In x A) -> In w (words A (length w)).
Proof.
  induction w as [|x w IH]; intros H; [left; reflexivity|]. cbn [words length]. apply in_map_iff.
  exists (x, w). split; [reflexivity|]. apply in_prod; [apply H; left; reflexivity|].
  apply IH. intros y Hy. apply H. right. exact Hy.
Qed.

Lemma words_length {T} (A : list T) n :
  N.of_nat (length (words A n)) = (N.of_nat (length A) ^ N.of_nat n)%N.
Proof.
  induction n as [|n IH]; [reflexivity|]. cbn [words].
  rewrite map_length, prod_length, Nat2N.inj_mul, IH, Nat2N.inj_succ, N.pow_succ_r'. reflexivity.
Qed.

Definition contents : list (option piece) :=
  None :: map (fun kc => Some (mkP (fst kc) (snd kc))) (list_prod all_kinds all_colors).
Definition holdings : list (color * kind) := list_prod all_colors hand_kinds.
Definition counts (M : N) : list N := map N.of_nat (seq 0 (S (N.to_nat M))).

Definition code (g : game) : list (option piece) * list N * color :=
  (map (g_board g) all_squares, map (fun ck => g_hand g (fst ck) (snd ck)) holdings, g_side g).
Definition codes (M : N) : list (list (option piece) * list N * color) :=
  list_prod (list_prod (words contents (length all_squares)) (words (counts M) (length holdings))) all_colors.

Lemma code_dec (x y : list (option piece) * list N * color) : {x = y} + {x <> y}.
Proof. repeat decide equality. Qed.

Lemma codes_length M : N.of_nat (length (codes M)) = (2 * 29 ^ 81 * (M + 1) ^ 14)%N.
Proof.
  unfold codes. rewrite !prod_length, !Nat2N.inj_mul, !words_length.
  unfold counts. rewrite map_length, seq_length, Nat2N.inj_succ, N2Nat.id, <- N.add_1_r.
  change (N.of_nat (length contents)) with 29%N. change (N.of_nat (length all_squares)) with 81%N.
  change (N.of_nat (length holdings)) with 14%N. change (N.of_nat (length all_colors)) with 2%N.
  generalize (29 ^ 81)%N ((M + 1) ^ 14)%N. intros a b. lia.
Qed.

Lemma contents_in x : In x contents.
Proof.
  destruct x as [[k c]|]; [right|left; reflexivity]. apply in_map_iff. exists (k, c). split; [reflexivity|].
  apply in_prod; [apply all_kinds_in|apply all_colors_in].
Qed.

Lemma code_in M g : (forall c k, (g_hand g c k <= M)%N) -> In (code g) (codes M).
Proof.
  intros H. unfold code, codes. apply in_prod; [|apply all_colors_in]. apply in_prod.
  - rewrite <- (map_length (g_board g) all_squares). apply words_in. intros x _. apply contents_in.
  - rewrite <- (map_length (fun ck => g_hand g (fst ck) (snd ck)) holdings). apply words_in.
    intros x Hx. apply in_map_iff in Hx as [[c k] [<- _]]. unfold counts. apply in_map_iff.
    exists (N.to_nat (g_hand g c k)). split; [apply N2Nat.id|]. apply in_seq. specialize (H c k). lia.
Qed.

Lemma map_eq {A B} (f g : A -> B) l : map f l = map g l -> forall x, In x l -> f x = g x.
Proof.
  induction l as [|a l IH]; intros E x I; [destruct I|]. injection E as E1 E2.
  destruct I as [<-|I]; [exact E1|exact (IH E2 x I)].
Qed.

Lemma hand_kinds_dec k : {In k hand_kinds} + {~ In k hand_kinds}.
Proof. apply in_dec. decide equality. Qed.

Lemma code_inj g h : hand_ok g -> hand_ok h -> code g = code h -> same_game g h.
Proof.
  intros Hg Hh E.
  assert (E1 : map (g_board g) all_squares = map (g_board h) all_squares) by exact (f_equal (fun x => fst (fst x)) E).
  assert (E2 : map (fun ck => g_hand g (fst ck) (snd ck)) holdings =
               map (fun ck => g_hand h (fst ck) (snd ck)) holdings) by exact (f_equal (fun x => snd (fst x)) E).
  assert (E3 : g_side g = g_side h) by exact (f_equal snd E). clear E. split; [|split].
  - intros s. exact (map_eq _ _ _ E1 s (all_squares_in s)).
  - intros c k. destruct (hand_kinds_dec k) as [I|I]; [|rewrite (Hg c k I), (Hh c k I); reflexivity].
    refine (map_eq _ _ _ E2 (c, k) _). apply in_prod; [apply all_colors_in|exact I].
  - exact E3.
Qed.

(** ** Long games *)

Lemma line_ok l : forall g, valid g -> hand_ok g -> legal_line g l ->
  valid (play_line g l) /\ hand_ok (play_line g l).
Proof.
  induction l as [|m l IH]; intros g V H L; [split; assumption|]. destruct L as [L Ll]. cbn.
  apply IH; [apply valid_play|apply hand_ok_play|]; try assumption. apply L.
Qed.

Lemma hand_bound g c k : (g_hand g c k <= material g k)%N.
Proof. unfold material. destruct c; lia. Qed.

Lemma game_ends g ms M : valid g -> hand_ok g -> (forall k, (material g k <= M)%N) -> legal_line g ms ->
  (6 * 29 ^ 81 * (M + 1) ^ 14 <= N.of_nat (length ms))%N ->
  exists n, n <= length ms /\ fourfold g ms n.
Proof.
  intros V HO B L Long.
  set (I := seq 0 (S (length ms))).
  assert (Ok : forall i, valid (after g ms i) /\ hand_ok (after g ms i) /\
                         forall c k, (g_hand (after g ms i) c k <= M)%N).
  { intros i. unfold after.
    assert (Li : legal_line g (firstn i ms)).
    { destruct (le_lt_dec i (length ms)) as [J|J].
      - apply (legal_firstn g ms i (length ms) J). rewrite firstn_all. exact L.
      - rewrite firstn_all2 by lia. exact L. }
    destruct (line_ok _ g V HO Li) as [V' H']. split; [exact V'|]. split; [exact H'|].
    intros c k. apply (N.le_trans _ _ _ (hand_bound _ c k)).
    rewrite (material_line _ g k V HO Li). apply B. }
  destruct (pigeon4 code_dec (codes M) (map (fun i => code (after g ms i)) I)) as [x Hx].
  - intros x Hx. apply in_map_iff in Hx as [i [<- _]]. apply code_in, Ok.
  - rewrite map_length. unfold I. rewrite seq_length.
    pose proof (codes_length M) as E. revert Long E. generalize (length (codes M)).
    generalize (29 ^ 81)%N ((M + 1) ^ 14)%N. intros a b n Long E. nia.
  - set (f := fun i => if code_dec x (code (after g ms i)) then true else false).
    set (J := firstn 4 (filter f I)).
    assert (LJ : length J = 4).
    { unfold J. rewrite firstn_length. enough (4 <= length (filter f I)) by lia.
      replace (length (filter f I)) with
        (length (filter (fun y => if code_dec x y then true else false) (map (fun i => code (after g ms i)) I)));
        [exact Hx|].
      clear. induction I as [|i I IH]; [reflexivity|]. unfold f. cbn [map filter].
      destruct (code_dec x (code (after g ms i))); cbn [length]; fold f; rewrite IH; reflexivity. }
    assert (InJ : forall i, In i J -> i <= length ms /\ code (after g ms i) = x).
    { intros i Hi. unfold J in Hi.
      assert (K : In i (filter f I)) by (rewrite <- (firstn_skipn 4 (filter f I)); apply in_or_app; left; exact Hi).
      apply filter_In in K as [K1 K2]. unfold I in K1. apply in_seq in K1. split; [lia|].
      unfold f in K2. destruct (code_dec x (code (after g ms i))); congruence. }
    assert (ND : NoDup J).
    { assert (X : NoDup (firstn 4 (filter f I) ++ skipn 4 (filter f I)))
        by (rewrite firstn_skipn; apply NoDup_filter, seq_NoDup).
      fold J in X. revert X. clear. generalize (skipn 4 (filter f I)). induction J as [|a J IH]; intros r X; [constructor|].
      inversion X as [|a' r' N X']; subst. constructor; [|exact (IH _ X')].
      intros Y. apply N, in_or_app. left. exact Y. }
    assert (Mx : exists n, In n J /\ forall i, In i J -> i <= n).
    { clear - LJ. assert (N : J <> []) by (intros E; rewrite E in LJ; discriminate). clear LJ.
      induction J as [|a J IH]; [congruence|]. destruct J as [|b J].
      - exists a. split; [left; reflexivity|]. intros i [->|[]]. apply le_n.
      - destruct IH as [n [In' Hn]]; [discriminate|]. destruct (le_lt_dec a n) as [C|C].
        + exists n. split; [right; exact In'|]. intros i [->|Hi]; [exact C|exact (Hn i Hi)].
        + exists a. split; [left; reflexivity|]. intros i [->|Hi]; [apply le_n|]. specialize (Hn i Hi). lia. }
    destruct Mx as [n [Jn Max]]. exists n. destruct (InJ n Jn) as [Bn Cn]. split; [exact Bn|].
    exists J. split; [exact ND|]. split; [exact LJ|]. intros i Hi. split; [exact (Max i Hi)|].
    destruct (InJ i Hi) as [_ Ci]. apply code_inj; [apply Ok|apply Ok|congruence].
Qed.
