(** * Raw memory: bytes, borrow stacks, and the pointer accesses of the crate

    Pointers occur in the crate in two places: the scratch buffer of [values()]
    (x86_64.rs 67-73, aarch64.rs 63-69) and the loads of constant rows in
    aarch64.rs (43, 80, 94, 138, 171, 185).  The portable backend and wasm32.rs
    have none.

    Memory is one allocation (each of these programs uses one): an address, and
    for each byte its value, if it has one, and its stack of borrows.  The
    stacks follow "Stacked Borrows" (Jung, Dang, Kang, Dreyer, POPL 2020), the
    model of Rust's aliasing rules that Miri checks; protectors and two-phase
    borrows play no part in these programs and are left out.

    Words are little-endian in memory, or big-endian ([be]): x86_64 is little,
    aarch64 may be either (target_arch is "aarch64" for both).  vld1q_u64 and
    vst1q_u64 treat a vector as an array of two words. *)

From Coq Require Import List Bool Arith NArith Lia.
From Verif Require Import Types Bitboard Words.
Import ListNotations.
Local Open Scope nat_scope.

(** ** The machine *)

(* what makes a program's behaviour undefined *)
Inductive ub := OutOfBounds | Misaligned | Uninitialised | Borrow.

Inductive perm := Unique | SharedReadWrite | SharedReadOnly | Disabled.
Definition item := (perm * nat)%type.      (* permission and tag *)
Definition stack := list item.             (* top first *)

Record cell := mkCell { byte : option N; borrows : stack }.
Record memory := mkMem { address : N; cells : list cell; next_tag : nat }.
Record ptr := mkPtr { offset : nat; tag : nat }.

(* Which rules are checked.  [aliasing]: those of the borrow stacks.
   [raw_items]: whether the cast of a reference to a raw pointer makes an item
   of its own (as in the paper) or keeps the item of the reference (as in Miri
   today). *)
Record rules := mkRules { aliasing : bool; raw_items : bool }.

Inductive outcome (A : Type) := Done (a : A) (m : memory) | Undefined (u : ub).
Arguments Done {A}.
Arguments Undefined {A}.
Definition prog (A : Type) := memory -> outcome A.
Definition pret {A} (a : A) : prog A := Done a.
Definition pbind {A B} (x : prog A) (f : A -> prog B) : prog B :=
  fun m => match x m with Done a m => f a m | Undefined u => Undefined u end.
Notation "'do' x <- a ; b" := (pbind a (fun x => b))
  (at level 60, x name, a at level 100, right associativity).

(* the topmost item of the tag that allows a read; uniques above it die *)
Definition dies (i : item) : item :=
  match i with (Unique, t) => (Disabled, t) | _ => i end.
Definition may_read (t : nat) (i : item) : bool :=
  (snd i =? t) && match fst i with Disabled => false | _ => true end.
Fixpoint read_stack (t : nat) (s : stack) : option stack :=
  match s with
  | [] => None
  | i :: r => if may_read t i then Some s
              else option_map (cons (dies i)) (read_stack t r)
  end.

(* the topmost item of the tag that allows a write; what is above it goes,
   except read-write shares directly above a read-write share *)
Definition may_write (t : nat) (i : item) : bool :=
  (snd i =? t) && match fst i with Unique | SharedReadWrite => true | _ => false end.
Definition is_srw (i : item) : bool :=
  match fst i with SharedReadWrite => true | _ => false end.
Fixpoint write_split (t : nat) (s : stack) : option (stack * bool) :=
  match s with
  | [] => None
  | i :: r =>
      if may_write t i then Some (s, is_srw i)
      else match write_split t r with
           | None => None
           | Some (r, k) => Some (if k && is_srw i then (i :: r, true) else (r, false))
           end
  end.
Definition write_stack (t : nat) (s : stack) : option stack :=
  option_map fst (write_split t s).

Fixpoint map_opt {A B} (f : A -> option B) (l : list A) : option (list B) :=
  match l with
  | [] => Some []
  | x :: l => match f x, map_opt f l with Some y, Some l => Some (y :: l) | _, _ => None end
  end.

(* change the stacks of the [n] bytes at [p]; these must exist *)
Definition on_borrows (R : rules) (f : stack -> option stack) (p : ptr) (n : nat) : prog unit :=
  fun m =>
    let l := cells m in
    if length l <? offset p + n then Undefined OutOfBounds
    else if negb (aliasing R) then Done tt m
    else
      match map_opt (fun c => option_map (mkCell (byte c)) (f (borrows c)))
              (firstn n (skipn (offset p) l)) with
      | None => Undefined Borrow
      | Some mid =>
          Done tt (mkMem (address m)
            (firstn (offset p) l ++ mid ++ skipn (offset p + n) l) (next_tag m))
      end.

Definition aligned (a : N) (p : ptr) : prog unit :=
  fun m => if N.eqb (N.modulo (address m + N.of_nat (offset p)) a) 0 then Done tt m
           else Undefined Misaligned.

Definition fresh : prog nat :=
  fun m => Done (next_tag m) (mkMem (address m) (cells m) (S (next_tag m))).

(* a new reference to the [n] bytes at [p]: shared, or mutable *)
Definition borrow (R : rules) (p : ptr) (n : nat) : prog ptr :=
  do t <- fresh;
  do _ <- on_borrows R (fun s => option_map (cons (SharedReadOnly, t)) (read_stack (tag p) s)) p n;
  pret (mkPtr (offset p) t).
Definition borrow_mut (R : rules) (p : ptr) (n : nat) : prog ptr :=
  do t <- fresh;
  do _ <- on_borrows R (fun s => option_map (cons (Unique, t)) (write_stack (tag p) s)) p n;
  pret (mkPtr (offset p) t).

(* the casts [&T as *const T] and [&mut T as *mut T]; a cast between raw
   pointers does nothing *)
Definition as_const (R : rules) (p : ptr) (n : nat) : prog ptr :=
  if raw_items R then borrow R p n else pret p.
Definition as_mut (R : rules) (p : ptr) (n : nat) : prog ptr :=
  if raw_items R then
    do t <- fresh;
    do _ <- on_borrows R (fun s => option_map (cons (SharedReadWrite, t)) (write_stack (tag p) s)) p n;
    pret (mkPtr (offset p) t)
  else pret p.

(* load the [n] bytes at [p]; they must have values *)
Definition load (R : rules) (a : N) (p : ptr) (n : nat) : prog (list N) :=
  do _ <- aligned a p;
  do _ <- on_borrows R (read_stack (tag p)) p n;
  fun m =>
    match map_opt byte (firstn n (skipn (offset p) (cells m))) with
    | Some l => Done l m
    | None => Undefined Uninitialised
    end.

Fixpoint put_bytes (l : list cell) (b : list N) : list cell :=
  match l, b with
  | c :: l, x :: b => mkCell (Some x) (borrows c) :: put_bytes l b
  | _, _ => l
  end.

(* store the bytes [b] at [p] *)
Definition store (R : rules) (a : N) (p : ptr) (b : list N) : prog unit :=
  do _ <- aligned a p;
  do _ <- on_borrows R (write_stack (tag p)) p (length b);
  fun m => Done tt (mkMem (address m)
    (firstn (offset p) (cells m) ++ put_bytes (skipn (offset p) (cells m)) b) (next_tag m)).

(** ** Words as bytes *)

Fixpoint bytes_of (n : nat) (w : N) : list N :=
  match n with
  | O => []
  | S n => N.modulo w 256 :: bytes_of n (N.div w 256)
  end.
Fixpoint word_of (l : list N) : N :=
  match l with [] => 0 | b :: l => b + 256 * word_of l end%N.

Definition endian (be : bool) (l : list N) : list N := if be then rev l else l.

(* a vector of two lanes in memory, the low lane first *)
Definition bytes_of_v (be : bool) (v : v128) : list N :=
  endian be (bytes_of 8 (fst v)) ++ endian be (bytes_of 8 (snd v)).
Definition words_of (be : bool) (l : list N) : N * N :=
  (word_of (endian be (firstn 8 l)), word_of (endian be (skipn 8 l))).

(** ** The programs *)

(* [MaybeUninit::<[i64; 2]>::uninit()] at the address [a]: 16 bytes without
   values, owned by tag 0 *)
Definition scratch (a : N) : memory :=
  mkMem a (repeat (mkCell None [(Unique, 0)]) 16) 1.
Definition owner : ptr := mkPtr 0 0.

(* x86_64.rs 67-73, aarch64.rs 63-69.  [as_ptr] takes [&self] and casts it;
   _mm_storeu_si128 and vst1q_u64 accept any address; [assume_init] moves the
   array, whose alignment is 8, out of the variable. *)
Definition values (R : rules) (be : bool) (v : v128) : prog (N * N) :=
  do r <- borrow R owner 16;
  do p <- as_const R r 16;
  do _ <- store R 1 p (bytes_of_v be v);
  do b <- load R 8 owner 16;
  pret (words_of be b).

(* the same with [as_mut_ptr] on a mutable variable (not in the crate) *)
Definition values_mut (R : rules) (be : bool) (v : v128) : prog (N * N) :=
  do r <- borrow_mut R owner 16;
  do p <- as_mut R r 16;
  do _ <- store R 1 p (bytes_of_v be v);
  do b <- load R 8 owner 16;
  pret (words_of be b).

(* an array of pairs of words at the address [a] *)
Definition rows (be : bool) (a : N) (t : list v128) : memory :=
  mkMem a (map (fun b => mkCell (Some b) [(Unique, 0)]) (flat_map (bytes_of_v be) t)) 1.

(* aarch64.rs 43, 80, 94, 138, 171, 185: [t[i].as_ptr()] and vld1q_u64, which
   loads two words.  The index is checked before ([None]: the panic).  The row
   is borrowed as a slice of two words. *)
Definition load_row (R : rules) (be : bool) (len i : nat) : option (prog (N * N)) :=
  if i <? len then
    Some (do r <- borrow R (mkPtr (16 * i) 0) 16;
          do p <- as_const R r 16;
          do b <- load R 8 p 16;
          pret (words_of be b))
  else None.

(** ** Facts *)

Lemma word_bytes n : forall w, (w < 2 ^ (8 * N.of_nat n))%N -> word_of (bytes_of n w) = w.
Proof.
  induction n as [|n IH]; intros w W; cbn [bytes_of word_of].
  - cbn in W. lia.
  - rewrite IH.
    + pose proof (N.div_mod w 256 ltac:(discriminate)). lia.
    + apply N.div_lt_upper_bound; [discriminate|].
      replace (8 * N.of_nat (S n))%N with (8 + 8 * N.of_nat n)%N in W by lia.
      rewrite N.pow_add_r in W. exact W.
Qed.

Lemma bytes_of_length n : forall w, length (bytes_of n w) = n.
Proof. induction n as [|n IH]; intros w; cbn; [reflexivity|]. now rewrite IH. Qed.

Lemma endian_length be l : length (endian be l) = length l.
Proof. destruct be; cbn; [apply rev_length|reflexivity]. Qed.

Lemma endian_twice be l : endian be (endian be l) = l.
Proof. destruct be; cbn; [apply rev_involutive|reflexivity]. Qed.

Lemma bytes_of_v_length be v : length (bytes_of_v be v) = 16.
Proof. unfold bytes_of_v. now rewrite app_length, !endian_length, !bytes_of_length. Qed.

Lemma cut_app {A} (a b : list A) n : length a = n -> firstn n (a ++ b) = a /\ skipn n (a ++ b) = b.
Proof.
  intros <-. rewrite firstn_app, skipn_app, Nat.sub_diag, firstn_all, skipn_all. cbn.
  now rewrite app_nil_r.
Qed.

Lemma words_bytes be v : (fst v < 2 ^ 64)%N -> (snd v < 2 ^ 64)%N ->
  words_of be (bytes_of_v be v) = v.
Proof.
  intros A B. unfold words_of, bytes_of_v.
  destruct (cut_app (endian be (bytes_of 8 (fst v))) (endian be (bytes_of 8 (snd v))) 8) as [-> ->];
    [now rewrite endian_length, bytes_of_length|].
  rewrite !endian_twice, !word_bytes by assumption. now destruct v.
Qed.

Lemma map_opt_app {A B} (f : A -> option B) a b :
  map_opt f (a ++ b) = match map_opt f a, map_opt f b with Some x, Some y => Some (x ++ y) | _, _ => None end.
Proof.
  induction a as [|x a IH]; cbn; [now destruct (map_opt f b)|].
  rewrite IH. destruct (f x), (map_opt f a), (map_opt f b); reflexivity.
Qed.

Lemma map_opt_some {A B C} (f : A -> option B) (g : C -> A) (h : C -> B) :
  (forall x, f (g x) = Some (h x)) -> forall l, map_opt f (map g l) = Some (map h l).
Proof. intros H. induction l as [|x l IH]; cbn; [reflexivity|]. now rewrite H, IH. Qed.

Lemma map_opt_none {A B C} (f : A -> option B) (g : C -> A) :
  (forall x, f (g x) = None) -> forall l, l <> [] -> map_opt f (map g l) = None.
Proof. intros H [|x l] N; [congruence|]. cbn. now rewrite H. Qed.

(* cells with the same stack everywhere in the range *)
Definition plain (s : stack) (b : option N) : cell := mkCell b s.

Lemma on_borrows_done R f p n m pre mid post s s' :
  cells m = pre ++ map (plain s) mid ++ post -> length pre = offset p -> length mid = n ->
  (aliasing R = true -> f s = Some s') ->
  on_borrows R f p n m = Done tt (mkMem (address m)
    (pre ++ map (plain (if aliasing R then s' else s)) mid ++ post) (next_tag m)).
Proof.
  intros E L1 L2 F. unfold on_borrows. rewrite E.
  destruct (Nat.ltb_spec (length (pre ++ map (plain s) mid ++ post)) (offset p + n)) as [H|_].
  { rewrite !app_length, map_length in H. lia. }
  destruct (aliasing R); cbn [negb]; [specialize (F eq_refl)|clear F].
  - rewrite skipn_app, <- L1, skipn_all, Nat.sub_diag. cbn [skipn app].
    rewrite firstn_app, map_length, L2, Nat.sub_diag. cbn [firstn]. rewrite app_nil_r.
    replace n with (length (map (plain s) mid)) at 1 by now rewrite map_length.
    rewrite firstn_all.
    rewrite (map_opt_some _ (plain s) (plain s')) by (intros x; cbn; now rewrite F).
    rewrite firstn_app, firstn_all, Nat.sub_diag. cbn [firstn]. rewrite app_nil_r.
    rewrite skipn_app, skipn_all2 by lia. cbn [app].
    replace (length pre + n - length pre) with (length (map (plain s) mid)) by (rewrite map_length; lia).
    rewrite skipn_app, skipn_all, Nat.sub_diag. reflexivity.
  - rewrite <- E. now destruct m.
Qed.

Lemma on_borrows_undefined R f p n m pre mid post s :
  cells m = pre ++ map (plain s) mid ++ post -> length pre = offset p -> length mid = n -> n <> 0 ->
  aliasing R = true -> f s = None ->
  on_borrows R f p n m = Undefined Borrow.
Proof.
  intros E L1 L2 Z A F. unfold on_borrows. rewrite E, A.
  destruct (Nat.ltb_spec (length (pre ++ map (plain s) mid ++ post)) (offset p + n)) as [H|_].
  { rewrite !app_length, map_length in H. lia. }
  cbn [negb].
  destruct (cut_app pre (map (plain s) mid ++ post) _ L1) as [_ ->].
  destruct (cut_app (map (plain s) mid) post n) as [-> _]; [now rewrite map_length|].
  rewrite (map_opt_none _ (plain s)); [reflexivity|intros x; cbn; now rewrite F|].
  destruct mid; [cbn in L2; lia|discriminate].
Qed.

Lemma on_borrows_end R f p n m : length (cells m) < offset p + n ->
  on_borrows R f p n m = Undefined OutOfBounds.
Proof.
  intros H. unfold on_borrows. apply Nat.ltb_lt in H. now rewrite H.
Qed.

Lemma aligned_done a p m : N.modulo (address m + N.of_nat (offset p)) a = 0%N -> aligned a p m = Done tt m.
Proof. intros H. unfold aligned. now rewrite H. Qed.

Lemma bytes_back s l : map_opt byte (map (plain s) (map Some l)) = Some l.
Proof. induction l as [|x l IH]; cbn; [reflexivity|]. now rewrite IH. Qed.

(** ** Running the programs *)

Ltac bytes16 l H :=
  do 16 (destruct l as [|? l]; [discriminate H|]); destruct l; [clear H|discriminate H].

Ltac execute :=
  cbv -[N.modulo N.eqb N.add words_of].

Section Run.
  Variables (a : N) (A : N.modulo a 8 = 0%N).

  Lemma align8 : N.eqb (N.modulo (a + 0) 8) 0 = true.
  Proof. now rewrite N.add_0_r, A. Qed.
  Lemma align1 : N.eqb (N.modulo (a + 0) 1) 0 = true.
  Proof. now rewrite N.mod_1_r. Qed.

  Lemma values_done raw be v : (fst v < 2 ^ 64)%N -> (snd v < 2 ^ 64)%N ->
    exists m, values (mkRules false raw) be v (scratch a) = Done v m.
  Proof.
    intros V W. pose proof (words_bytes be v V W) as E.
    assert (L := bytes_of_v_length be v). unfold values. revert L E.
    generalize (bytes_of_v be v) as l. intros l L <-. bytes16 l L.
    destruct raw; eexists; execute; rewrite align1, align8; reflexivity.
  Qed.

  Lemma values_refused raw be v : values (mkRules true raw) be v (scratch a) = Undefined Borrow.
  Proof.
    assert (L := bytes_of_v_length be v). unfold values. revert L.
    generalize (bytes_of_v be v) as l. intros l L. bytes16 l L.
    destruct raw; execute; rewrite align1; reflexivity.
  Qed.

  Lemma values_mut_done R be v : (fst v < 2 ^ 64)%N -> (snd v < 2 ^ 64)%N ->
    exists m, values_mut R be v (scratch a) = Done v m.
  Proof.
    intros V W. pose proof (words_bytes be v V W) as E.
    assert (L := bytes_of_v_length be v). unfold values_mut. revert L E.
    generalize (bytes_of_v be v) as l. intros l L <-. bytes16 l L.
    destruct R as [[] []]; eexists; execute; rewrite align1, align8; reflexivity.
  Qed.
End Run.

Lemma load_row_done R be a t i v : N.modulo a 8 = 0%N -> nth_error t i = Some v ->
  (fst v < 2 ^ 64)%N -> (snd v < 2 ^ 64)%N ->
  exists p m, load_row R be (length t) i = Some p /\ p (rows be a t) = Done v m.
Proof.
  intros A H V W. pose proof (words_bytes be v V W) as E.
  destruct (nth_error_split t i H) as [t1 [t2 [T I]]].
  unfold load_row. replace (i <? length t) with true.
  2:{ symmetry. apply Nat.ltb_lt. apply nth_error_Some. rewrite H. discriminate. }
  match goal with |- exists p m, Some ?q = Some p /\ _ =>
    enough (G : exists m, q (rows be a t) = Done v m)
      by (destruct G as [m G]; exists q, m; split; [reflexivity|exact G])
  end.
  set (s := [(Unique, 0)]).
  set (pre := map (fun b => mkCell (Some b) s) (flat_map (bytes_of_v be) t1)).
  set (post := map (fun b => mkCell (Some b) s) (flat_map (bytes_of_v be) t2)).
  assert (P : length pre = 16 * i).
  { unfold pre. rewrite map_length, <- I. clear. induction t1 as [|x l IH]; [reflexivity|].
    cbn [flat_map length]. rewrite app_length, bytes_of_v_length, IH. lia. }
  set (mid := map Some (bytes_of_v be v)).
  assert (M : length mid = 16) by (unfold mid; now rewrite map_length, bytes_of_v_length).
  set (mem := fun s n => mkMem a (pre ++ map (plain s) mid ++ post) n).
  assert (E0 : rows be a t = mem s 1).
  { unfold rows, mem. f_equal. rewrite T, flat_map_app. cbn [flat_map].
    rewrite !map_app. unfold mid. rewrite map_map. reflexivity. }
  assert (B : forall f g s s' n, (aliasing R = true -> f s = Some s') ->
    on_borrows R f (mkPtr (16 * i) g) 16 (mem s n) = Done tt (mem (if aliasing R then s' else s) n)).
  { intros f g s1 s2 n F. apply (on_borrows_done R f _ 16 (mem s1 n) pre mid post s1 s2); auto. }
  assert (D : forall g s1 s2 n, (aliasing R = true -> read_stack g s1 = Some s2) ->
    load R 8 (mkPtr (16 * i) g) 16 (mem s1 n) =
      Done (bytes_of_v be v) (mem (if aliasing R then s2 else s1) n)).
  { intros g s1 s2 n F. unfold load, pbind. rewrite aligned_done.
    2:{ cbn [offset address mem]. replace (a + N.of_nat (16 * i))%N with (a + (2 * N.of_nat i) * 8)%N by lia.
        rewrite N.mod_add by discriminate. exact A. }
    cbn [tag]. rewrite (B _ _ s1 s2) by exact F. cbn [offset cells mem].
    destruct (cut_app pre (map (plain (if aliasing R then s2 else s1)) mid ++ post) _ P) as [_ ->].
    destruct (cut_app (map (plain (if aliasing R then s2 else s1)) mid) post 16) as [-> _];
      [now rewrite map_length|].
    unfold mid. now rewrite bytes_back. }
  assert (F : forall s1 n, fresh (mem s1 n) = Done n (mem s1 (S n))) by reflexivity.
  clearbody mem. rewrite E0. unfold borrow, as_const, pbind, pret. rewrite F. cbn [tag offset].
  rewrite (B _ _ s (if aliasing R then [(SharedReadOnly, 1); (Unique, 0)] else s)).
  2:{ intros ->. reflexivity. }
  destruct R as [[] []]; cbn [aliasing raw_items].
  - unfold borrow, pbind, pret. rewrite F. cbn [tag offset].
    rewrite (B _ _ _ [(SharedReadOnly, 2); (SharedReadOnly, 1); (Unique, 0)]) by reflexivity.
    eexists.
    rewrite (D _ _ [(SharedReadOnly, 2); (SharedReadOnly, 1); (Unique, 0)]) by reflexivity.
    rewrite E. reflexivity.
  - eexists.
    rewrite (D _ _ [(SharedReadOnly, 1); (Unique, 0)]) by reflexivity. rewrite E. reflexivity.
  - unfold borrow, pbind, pret. rewrite F. cbn [tag offset].
    rewrite (B _ _ _ []) by discriminate. eexists.
    rewrite (D _ _ []) by discriminate. rewrite E. reflexivity.
  - eexists. rewrite (D _ _ []) by discriminate. rewrite E. reflexivity.
Qed.
