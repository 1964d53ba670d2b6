(** * The Zobrist hash of a board and of the hands *)

From Coq Require Import List Bool NArith ZArith Lia.
From Verif Require Import Types Rules Zobrist Position Squares ValidPlay.
From Verif Require Bitboard Api.
Import ListNotations.

(** ** Specification *)

(* the exclusive or of a list of keys *)
Definition xor_all (l : list key) : key := fold_right N.lxor 0%N l.

(* the table entry of what stands on a square *)
Definition piece_entry (z : ztable) (s : square) (x : option piece) : key :=
  match x with Some p => z_board_entry z s (pcolor p) (pkind p) | None => 0%N end.

(* one entry per piece on the board *)
Definition board_hash (z : ztable) (b : board) : key :=
  xor_all (map (fun s => piece_entry z s (b s)) all_squares).

(* entries 0 .. n-1 for n pieces of a kind in hand *)
Definition held_hash (z : ztable) (c : color) (k : kind) (n : N) : key :=
  xor_all (map (fun i => z_hand_entry z c k (N.of_nat i)) (seq 0 (N.to_nat n))).
Definition hand_hash (z : ztable) (h : color -> kind -> N) : key :=
  xor_all (flat_map (fun c => map (fun k => held_hash z c k (h c k)) hand_kinds) all_colors).

(** ** Laws *)

Ltac xors :=
  apply N.bits_inj; intro;
  repeat rewrite N.lxor_spec; repeat rewrite N.bits_0;
  repeat match goal with |- context [N.testbit ?a ?i] => destruct (N.testbit a i) end;
  reflexivity.

Lemma xor_all_app l r : xor_all (l ++ r) = N.lxor (xor_all l) (xor_all r).
Proof.
  induction l as [|a l IH]; cbn [xor_all app fold_right]; [reflexivity|].
  fold (xor_all (l ++ r)). rewrite IH. fold (xor_all l). xors.
Qed.

Lemma fold_xor l : forall a, fold_left N.lxor l a = N.lxor a (xor_all l).
Proof.
  induction l as [|x l IH]; intros a; cbn [fold_left xor_all fold_right]; [xors|].
  rewrite IH. fold (xor_all l). xors.
Qed.

Section Laws.
Context (z : ztable).

Lemma xor_map_ext {A} (f g : A -> key) l : (forall x, In x l -> f x = g x) ->
  xor_all (map f l) = xor_all (map g l).
Proof. intros E. f_equal. apply map_ext_in. assumption. Qed.

Lemma xor_map_change {A} (f g : A -> key) a l : NoDup l -> In a l ->
  (forall x, x <> a -> f x = g x) ->
  xor_all (map f l) = N.lxor (xor_all (map g l)) (N.lxor (g a) (f a)).
Proof.
  intros ND I E. induction l as [|x l IH]; [destruct I|].
  apply NoDup_cons_iff in ND as [Nx ND]. cbn [map xor_all fold_right].
  fold (xor_all (map f l)). fold (xor_all (map g l)).
  destruct I as [->|I].
  - rewrite (xor_map_ext f g l); [xors|]. intros y J. apply E. intros ->. contradiction.
  - rewrite (IH ND I), E; [xors|]. intros ->. contradiction.
Qed.

Lemma board_hash_upd b s y : board_hash z (upd b s y) =
  N.lxor (board_hash z b) (N.lxor (piece_entry z s (b s)) (piece_entry z s y)).
Proof.
  unfold board_hash.
  rewrite (xor_map_change _ (fun u => piece_entry z u (b u)) s _ all_squares_NoDup
             (all_squares_in s)).
  - unfold upd. rewrite sq_eqb_refl. reflexivity.
  - intros u N. unfold upd. rewrite sq_eqb_neq by assumption. reflexivity.
Qed.

Lemma board_hash_ext b b' : (forall s, b s = b' s) -> board_hash z b = board_hash z b'.
Proof. intros E. unfold board_hash. f_equal. apply map_ext. intros s. rewrite E. reflexivity. Qed.

Lemma held_hash_succ c k n :
  held_hash z c k (n + 1) = N.lxor (held_hash z c k n) (z_hand_entry z c k n).
Proof.
  unfold held_hash. replace (N.to_nat (n + 1)) with (Datatypes.S (N.to_nat n)) by lia.
  rewrite seq_S, map_app, xor_all_app. cbn [map xor_all fold_right Nat.add].
  rewrite N2Nat.id. xors.
Qed.

Lemma hand_hash_ext h h' : (forall c k, h c k = h' c k) -> hand_hash z h = hand_hash z h'.
Proof.
  intros E. unfold hand_hash. f_equal. apply flat_map_ext. intros c. apply map_ext.
  intros k. rewrite E. reflexivity.
Qed.

Definition hand_slots : list (color * kind) :=
  flat_map (fun c => map (fun k => (c, k)) hand_kinds) all_colors.

Lemma hand_slots_NoDup : NoDup hand_slots.
Proof.
  unfold hand_slots. cbn [flat_map all_colors hand_kinds map app].
  repeat constructor; cbn [In]; intuition discriminate.
Qed.
Lemma hand_slots_in c k : In k hand_kinds -> In (c, k) hand_slots.
Proof.
  intros I. apply in_flat_map. exists c. split; [destruct c; cbn; tauto|].
  apply in_map. assumption.
Qed.
Lemma hand_hash_slots h : hand_hash z h =
  xor_all (map (fun ck => held_hash z (fst ck) (snd ck) (h (fst ck) (snd ck))) hand_slots).
Proof. reflexivity. Qed.

Lemma hand_hash_upd h c k n : In k hand_kinds ->
  hand_hash z (upd_hand h c k n) =
  N.lxor (hand_hash z h) (N.lxor (held_hash z c k (h c k)) (held_hash z c k n)).
Proof.
  intros I. rewrite !hand_hash_slots.
  rewrite (xor_map_change _ (fun ck => held_hash z (fst ck) (snd ck) (h (fst ck) (snd ck)))
             (c, k) _ hand_slots_NoDup (hand_slots_in c k I)).
  - cbn [fst snd]. unfold upd_hand. rewrite color_eqb_refl, kind_eqb_refl. reflexivity.
  - intros [d j] N. cbn [fst snd]. unfold upd_hand.
    destruct (color_eqb_spec d c) as [->|]; [|reflexivity].
    destruct (kind_eqb_spec j k) as [->|]; [congruence|reflexivity].
Qed.

(** ** Position::new *)

Section New.
Context (o : Bitboard.bbops).

Lemma board_keys_spec p : board_keys o z p = board_hash z (i_piece_at o p).
Proof.
  unfold board_keys, board_hash.
  assert (G : forall l a, fold_left (fun acc s => match i_piece_at o p s with
     | Some x => N.lxor acc (z_board z s x) | None => acc end) l a =
     N.lxor a (xor_all (map (fun s => piece_entry z s (i_piece_at o p s)) l))).
  { induction l as [|s l IH]; intros a; cbn [fold_left map xor_all fold_right]; [xors|].
    fold (xor_all (map (fun s => piece_entry z s (i_piece_at o p s)) l)).
    rewrite IH. unfold piece_entry at 2, z_board. destruct (i_piece_at o p s); xors. }
  rewrite G. unfold KEY_ZERO. apply N.lxor_0_l.
Qed.

Lemma hand_keys_loop_spec c k n : In k hand_kinds -> forall i a,
  hand_keys_loop z c k i n a =
  if (N.of_nat n + i <=? 18)%N || (Nat.eqb n 0)
  then Some (N.lxor a (xor_all (map (fun j => z_hand_entry z c k (N.of_nat j))
                                    (seq (N.to_nat i) n))))
  else None.
Proof.
  intros I. induction n as [|n IH]; intros i a.
  - cbn [hand_keys_loop Nat.eqb seq map xor_all fold_right]. rewrite orb_true_r, N.lxor_0_r.
    reflexivity.
  - cbn [hand_keys_loop]. unfold z_hand, MAX_HAND_NUM.
    assert (E : (kind_index k <? 8)%N = true)
      by (cbn in I; repeat (destruct I as [<-|I]; [reflexivity|]); contradiction).
    rewrite E. cbn [andb Nat.eqb]. rewrite orb_false_r.
    destruct (N.ltb_spec i 18).
    + cbn [bind]. rewrite IH. cbn [seq map xor_all fold_right].
      replace (N.to_nat (i + 1)) with (Datatypes.S (N.to_nat i)) by lia.
      rewrite N2Nat.id.
      destruct (N.leb_spec (N.of_nat (Datatypes.S n) + i) 18);
        destruct (N.leb_spec (N.of_nat n + (i + 1)) 18); try lia.
      * cbn [orb]. f_equal. fold (xor_all (map (fun j => z_hand_entry z c k (N.of_nat j))
                                    (seq (Datatypes.S (N.to_nat i)) n))). xors.
      * cbn [orb]. destruct n; [lia|]. reflexivity.
    + cbn [bind]. destruct (N.leb_spec (N.of_nat (Datatypes.S n) + i) 18); [lia|reflexivity].
Qed.

Definition hands_fit (h : color -> kind -> N) : Prop :=
  forall c k, In k hand_kinds -> (h c k <= 18)%N.

Lemma hand_keys_spec p :
  (hands_fit (fun c k => Api.hand_n (i_hand o p c) k) ->
   hand_keys o z p = Some (hand_hash z (fun c k => Api.hand_n (i_hand o p c) k))) /\
  (~ hands_fit (fun c k => Api.hand_n (i_hand o p c) k) -> hand_keys o z p = None).
Proof.
  set (h := fun c k => Api.hand_n (i_hand o p c) k).
  unfold hand_keys. fold hand_slots.
  set (F := fun acc ck => _).
  assert (N : forall l, fold_left F l None = None) by (induction l; [reflexivity|assumption]).
  assert (G : forall l, (forall ck, In ck l -> In (snd ck) hand_kinds) -> forall a,
    ((forall ck, In ck l -> h (fst ck) (snd ck) <= 18)%N ->
     fold_left F l (Some a) = Some (N.lxor a (xor_all (map (fun ck =>
       held_hash z (fst ck) (snd ck) (h (fst ck) (snd ck))) l)))) /\
    (~ (forall ck, In ck l -> h (fst ck) (snd ck) <= 18)%N -> fold_left F l (Some a) = None)).
  { induction l as [|[c k] l IH]; intros Hl a.
    - split; [intros _; cbn; rewrite N.lxor_0_r; reflexivity|]. intros H. exfalso. apply H.
      intros ck [].
    - assert (I : In k hand_kinds) by (apply (Hl (c, k)); left; reflexivity).
      assert (Hl' : forall ck, In ck l -> In (snd ck) hand_kinds)
        by (intros ck J; apply Hl; right; assumption).
      assert (EF : F (Some a) (c, k) = if (h c k <=? 18)%N
        then Some (N.lxor a (held_hash z c k (h c k))) else None).
      { unfold F. cbn [bind fst snd]. unfold h, Api.hand_n.
        destruct (hand_count (i_hand o p c) k) as [n|] eqn:En.
        - rewrite (hand_keys_loop_spec c k _ I). rewrite N2Nat.id, N.add_0_r.
          unfold held_hash. change (N.to_nat 0) with 0%nat.
          destruct (N.leb_spec n 18); [reflexivity|]. cbn [orb].
          destruct (Nat.eqb_spec (N.to_nat n) 0); [lia|reflexivity].
        - unfold held_hash. cbn. rewrite N.lxor_0_r. reflexivity. }
      cbn [fold_left]. rewrite EF. destruct (N.leb_spec (h c k) 18) as [L|L].
      + destruct (IH Hl' (N.lxor a (held_hash z c k (h c k)))) as [IH1 IH2]. split.
        * intros H. etransitivity; [apply IH1; intros ck J; apply H; right; assumption|].
          cbn [map xor_all fold_right fst snd]. f_equal.
          fold (xor_all (map (fun ck => held_hash z (fst ck) (snd ck) (h (fst ck) (snd ck))) l)).
          xors.
        * intros H. apply IH2. intros H'. apply H. intros ck [<-|J]; [assumption|]. apply H'.
          assumption.
      + split; [|intros _; apply N]. intros H. specialize (H (c, k) (or_introl eq_refl)).
        cbn [fst snd] in H. lia. }
  assert (Sl : forall ck, In ck hand_slots -> In (snd ck) hand_kinds).
  { intros ck J. apply in_flat_map in J as [c [_ J]]. apply in_map_iff in J as [k [<- J]].
    assumption. }
  destruct (G hand_slots Sl KEY_ZERO) as [G1 G2].
  assert (HF : hands_fit h <-> (forall ck, In ck hand_slots -> h (fst ck) (snd ck) <= 18)%N).
  { split.
    - intros H ck J. apply H. apply Sl. assumption.
    - intros H c k I. apply (H (c, k)). apply hand_slots_in. assumption. }
  split.
  - intros H. rewrite hand_hash_slots. rewrite <- (N.lxor_0_l (xor_all _)). apply G1.
    apply HF. assumption.
  - intros H. apply G2. rewrite <- HF. assumption.
Qed.

End New.
End Laws.
