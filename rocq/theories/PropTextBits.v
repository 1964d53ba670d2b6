(** * The text of the bitboards (C82)

    [backend_program b] is what the parser reads from the text of src/bitboard.rs and
    of src/bitboard/core.rs, x86_64.rs, aarch64.rs or wasm32.rs (BitboardText.v).  The
    machine of RustSem.v runs it; the vector intrinsics and, for core.rs, the type
    shogi_core::Bitboard are part of the machine. *)

From Coq Require Import List Bool NArith ZArith String Lia.
From Verif Require Import Types Bitboard BackendCore BackendSimd Api BBSpec Backends Facts PropBits Words SpecLanes RustSyntax RustNames BitboardText RustSem TextDefs BitsDefs BitsRun PropMoves PropText.
From Verif Require TextCore TextX86 TextNeon TextWasm.
Import ListNotations.
Open Scope string_scope.

Definition backend_text (b : backend) : string :=
  match b with
  | Portable => bitboard_rs ++ shogi_core_bitboard ++ core_rs
  | X86_64 => bitboard_rs ++ x86_64_rs
  | Aarch64 => bitboard_rs ++ aarch64_rs
  | Wasm32 => bitboard_rs ++ wasm32_rs
  end.
Definition backend_program (b : backend) : gprog N := get_prog (parse_macros (backend_text b)).
Lemma backend_is b :
  backend_program b = match b with Portable => core_prog | X86_64 => x86_prog | Aarch64 => neon_prog | Wasm32 => wasm_prog end.
Proof. destruct b; vm_compute; reflexivity. Qed.

Theorem C82_text_parses b :
  exists p, parse_macros (backend_text b) = Some p /\ backend_program b = ren_prog intern p /\ ren_prog name_of (backend_program b) = p.
Proof.
  unfold backend_program. destruct b; eexists.
  - split; [exact core_prog_ok|]. change (backend_text Portable) with (bitboard_rs ++ shogi_core_bitboard ++ core_rs).
    rewrite core_prog_ok. split; [reflexivity|]. vm_compute. reflexivity.
  - split; [exact x86_prog_ok|]. change (backend_text X86_64) with (bitboard_rs ++ x86_64_rs).
    rewrite x86_prog_ok. split; [reflexivity|]. vm_compute. reflexivity.
  - split; [exact neon_prog_ok|]. change (backend_text Aarch64) with (bitboard_rs ++ aarch64_rs).
    rewrite neon_prog_ok. split; [reflexivity|]. vm_compute. reflexivity.
  - split; [exact wasm_prog_ok|]. change (backend_text Wasm32) with (bitboard_rs ++ wasm32_rs).
    rewrite wasm_prog_ok. split; [reflexivity|]. vm_compute. reflexivity.
Qed.
Print Assumptions C82_text_parses.

Section Bits.
Context (o : bbops) (b : backend) (checks : bool).
Notation bits := (bb (ops_of b checks)).

(* a bitboard of the backend as a value of the program *)
Definition bval : bits -> val o :=
  match b return bb (ops_of b checks) -> val o with Portable => raw | X86_64 | Aarch64 | Wasm32 => reg end.
(* it is a number of its type: a u128, two u64 *)
Definition fits : bits -> Prop :=
  match b return bb (ops_of b checks) -> Prop with
  | Portable => fun a : N => (a < 2 ^ 128)%N
  | X86_64 | Aarch64 | Wasm32 => fun a : N * N => (fst a < 2 ^ 64 /\ snd a < 2 ^ 64)%N
  end.

(* Bitboard::f(args) ends with r; no static is known *)
Definition bits_call (f : string) (args : list (val o)) (r : result o) : Prop :=
  calls o checks (backend_program b) (fun _ => None) (intern "Bitboard") (intern f) args [] r.
Definition bits_fn (f : string) (args : list (val o)) (v : val o) : Prop := bits_call f args (RDone o v []).
(* t::f(x, args) with x : &mut changes x to w *)
Definition bits_mut (t f : string) (x : val o) (args : list (val o)) (v w : val o) : Prop :=
  calls o checks (backend_program b) (fun _ => None) (intern t) (intern f)
    (VRef o (intern "self", []) :: args) [(intern "self", x)] (RDone o v [(intern "self", w)]).
End Bits.

Ltac fn L := unfold bits_fn, bits_call; rewrite backend_is; refine (gives_calls _ _ _ _ _ _ L).
Ltac mutfn L := unfold bits_mut; rewrite backend_is; refine (changes_calls _ _ _ _ _ _ _ _ L).

(** ** The functions of the trait Occupied, bitboard.rs 56-83 *)

Theorem C82_occupied o b checks (a m n : bb (ops_of b checks)) :
  fits b checks a -> on_board b checks m -> on_board b checks n ->
  let v := bval o b checks in
  let fn := bits_fn o b checks in
  fn "shl" [v a] (v (bshl _ a)) /\
  fn "shr" [v a] (v (bshr _ a)) /\
  fn "sliding_positive_consecutive" [v a; v m] (v (bslide_pos_c _ a m)) /\
  fn "sliding_negative_consecutive" [v a; v m] (v (bslide_neg_c _ a m)) /\
  fn "sliding_positives" [v a; VArr o [v m; v n]] (v (bslide_pos2 _ a (m, n))) /\
  fn "sliding_negatives" [v a; VArr o [v m; v n]] (v (bslide_neg2 _ a (m, n))) /\
  bits_call o b checks "vacant_files" [v a]
    (match bvacant _ a with Some x => RDone o (v x) [] | None => RPanic o end).
Proof.
  intros F Hm Hn. destruct b; cbv zeta.
  - split; [fn (@TextCore.t_shl o checks a)|]. split; [fn (@TextCore.t_shr o checks a)|].
    split; [fn (@TextCore.t_pos_c o checks a m)|]. split; [fn (@TextCore.t_neg_c o checks a m Hm)|].
    split; [fn (@TextCore.t_pos2 o checks a m n)|]. split; [fn (@TextCore.t_neg2 o checks a m n Hm Hn)|].
    pose proof (@TextCore.t_vacant o checks a F) as H.
    change (bvacant (ops_of Portable checks) a) with (core_vacant_files checks a).
    destruct (core_vacant_files checks a); [fn H|].
    unfold bits_call. rewrite backend_is. destruct (H [] []) as [j E]. exists j. exact E.
  - split; [fn (@TextX86.t_shl o checks a)|]. split; [fn (@TextX86.t_shr o checks a)|].
    split; [fn (@TextX86.t_pos_c o checks a m)|]. split; [fn (@TextX86.t_neg_c o checks a m)|].
    split; [fn (@TextX86.t_pos2 o checks a m n)|]. split; [fn (@TextX86.t_neg2 o checks a m n)|].
    fn (@TextX86.t_vacant o checks a).
  - split; [fn (@TextNeon.t_shl o checks a)|]. split; [fn (@TextNeon.t_shr o checks a)|].
    split; [fn (@TextNeon.t_pos_c o checks a m)|]. split; [fn (@TextNeon.t_neg_c o checks a m)|].
    split; [fn (@TextNeon.t_pos2 o checks a m n Hm Hn)|]. split; [fn (@TextNeon.t_neg2 o checks a m n Hm Hn)|].
    fn (@TextNeon.t_vacant o checks a).
  - split; [fn (@TextWasm.t_shl o checks a)|]. split; [fn (@TextWasm.t_shr o checks a)|].
    split; [fn (@TextWasm.t_pos_c o checks a m)|]. split; [fn (@TextWasm.t_neg_c o checks a m Hm)|].
    split; [fn (@TextWasm.t_pos2 o checks a m n Hm Hn)|]. split; [fn (@TextWasm.t_neg2 o checks a m n Hm Hn)|].
    fn (@TextWasm.t_vacant o checks a).
Qed.
Print Assumptions C82_occupied.

(** ** The type Bitboard of the vector backends *)

Definition beq (b : backend) (checks : bool) : bb (ops_of b checks) -> bb (ops_of b checks) -> bool :=
  match b return bb (ops_of b checks) -> bb (ops_of b checks) -> bool with
  | Portable => N.eqb | X86_64 => x86_eq | Aarch64 => neon_eq | Wasm32 => wasm_eq
  end.

Theorem C82_bitboard o b checks (a c : bb (ops_of b checks)) s :
  b <> Portable -> fits b checks a ->
  let v := bval o b checks in
  let fn := bits_fn o b checks in
  let mt f x := bits_mut o b checks "Bitboard" f (v a) [v c] (VUnit o) (v x) in
  (fn "empty" [] (v (bempty _)) /\ fn "single" [VSq o s] (v (bsingle _ s)) /\
   fn "is_empty" [v a] (VBool o (bis_empty _ a)) /\ fn "contains" [v a; VSq o s] (VBool o (bcontains _ a s)) /\
   fn "count" [v a] (VInt o U8 (Z.of_N (bcount _ a)))) /\
  (fn "bitand" [v a; v c] (v (band _ a c)) /\ fn "bitor" [v a; v c] (v (bor _ a c)) /\
   fn "bitxor" [v a; v c] (v (bxor _ a c)) /\ fn "not" [v a] (v (bnot _ a)) /\
   fn "eq" [v a; v c] (VBool o (beq b checks a c))) /\
  (mt "bitand_assign" (band _ a c) /\ mt "bitor_assign" (bor _ a c) /\ mt "bitxor_assign" (bxor _ a c)).
Proof.
  intros NP F. destruct b; [destruct (NP eq_refl)|..]; destruct F as [F0 F1]; cbv zeta.
  - split; [|split].
    + split; [fn (@TextX86.t_empty o checks)|]. split; [fn (@TextX86.t_single o checks s)|].
      split; [fn (@TextX86.t_is_empty o checks a)|]. split; [fn (@TextX86.t_contains o checks a s)|].
      fn (@TextX86.t_count o checks a F0 F1).
    + split; [fn (@TextX86.t_and o checks a c)|]. split; [fn (@TextX86.t_or o checks a c)|].
      split; [fn (@TextX86.t_xor o checks a c)|]. split; [fn (@TextX86.t_not o checks a)|].
      fn (@TextX86.t_eq o checks a c).
    + split; [mutfn (@TextX86.t_and_to o checks a c)|]. split; [mutfn (@TextX86.t_or_to o checks a c)|].
      mutfn (@TextX86.t_xor_to o checks a c).
  - split; [|split].
    + split; [fn (@TextNeon.t_empty o checks)|]. split; [fn (@TextNeon.t_single o checks s)|].
      split; [fn (@TextNeon.t_is_empty o checks a)|]. split; [fn (@TextNeon.t_contains o checks a s)|].
      fn (@TextNeon.t_count o checks a F0 F1).
    + split; [fn (@TextNeon.t_and o checks a c)|]. split; [fn (@TextNeon.t_or o checks a c)|].
      split; [fn (@TextNeon.t_xor o checks a c)|]. split; [fn (@TextNeon.t_not o checks a)|].
      fn (@TextNeon.t_eq o checks a c).
    + split; [mutfn (@TextNeon.t_and_to o checks a c)|]. split; [mutfn (@TextNeon.t_or_to o checks a c)|].
      mutfn (@TextNeon.t_xor_to o checks a c).
  - split; [|split].
    + split; [fn (@TextWasm.t_empty o checks)|]. split; [fn (@TextWasm.t_single o checks s)|].
      split; [fn (@TextWasm.t_is_empty o checks a)|]. split; [fn (@TextWasm.t_contains o checks a s)|].
      fn (@TextWasm.t_count o checks a F0 F1).
    + split; [fn (@TextWasm.t_and o checks a c)|]. split; [fn (@TextWasm.t_or o checks a c)|].
      split; [fn (@TextWasm.t_xor o checks a c)|]. split; [fn (@TextWasm.t_not o checks a)|].
      fn (@TextWasm.t_eq o checks a c).
    + split; [mutfn (@TextWasm.t_and_to o checks a c)|]. split; [mutfn (@TextWasm.t_or_to o checks a c)|].
      mutfn (@TextWasm.t_xor_to o checks a c).
Qed.
Print Assumptions C82_bitboard.

(* the successive calls of next return the squares of l in order, then None *)
Fixpoint iterates (o : bbops) (b : backend) (checks : bool) (l : list square) (v : val o) : Prop :=
  let next := bits_mut o b checks "SquareIterator" "next" v [] in
  match l with
  | [] => next (VOpt o None) v
  | s :: l => exists w, next (VOpt o (Some (VSq o s))) w /\ iterates o b checks l w
  end.
Lemma yields_iterates o b checks l v : @yields o checks (backend_program b) l v -> iterates o b checks l v.
Proof.
  revert v. induction l as [|s l IH]; intros v; cbn [yields iterates].
  - intros H. refine (changes_calls _ _ _ _ _ _ _ _ H).
  - intros [w [H R]]. exists w. split; [|exact (IH w R)]. refine (changes_calls _ _ _ _ _ _ _ _ H).
Qed.
Theorem C82_iterator o b checks (a : bb (ops_of b checks)) :
  b <> Portable -> on_board b checks a ->
  exists it, bits_fn o b checks "into_iter" [bval o b checks a] it /\
    iterates o b checks (filter (bcontains _ a) all_squares) it.
Proof.
  intros NP H. rewrite <- (sp_iter _ (backend_spec b checks) a) by (apply on_board_wf; exact H).
  exists (sq_iter (match b return bb (ops_of b checks) -> v128 with Portable => fun _ => v_zero | X86_64 | Aarch64 | Wasm32 => fun x => x end a)).
  destruct b; [destruct (NP eq_refl)|..]; (split; [|apply yields_iterates; rewrite backend_is]).
  - fn (@TextX86.t_into_iter o checks a).
  - exact (@TextX86.t_iter o checks a H).
  - fn (@TextNeon.t_into_iter o checks a).
  - exact (@TextNeon.t_iter o checks a H).
  - fn (@TextWasm.t_into_iter o checks a).
  - exact (@TextWasm.t_iter o checks a H).
Qed.
Print Assumptions C82_iterator.

(** ** The same, with sets of squares and the text only *)

(* the value v of the program is the bitboard of the squares S *)
Definition holds (o : bbops) (b : backend) (checks : bool) (v : val o) (S : square -> Prop) : Prop :=
  exists a, v = bval o b checks a /\ on_board b checks a /\ forall s, bcontains _ a s = true <-> S s.
Lemma fits_board b checks a : on_board b checks a -> fits b checks a.
Proof.
  destruct b; cbn [on_board fits]; [|intros [H0 H1]; split; [exact (lt63_64 _ H0)|exact (lt18_64 _ H1)]..].
  intros E. rewrite <- E. change (bb (ops_of Portable checks)) with N in a. rewrite N.land_comm.
  eapply N.lt_trans; [apply (land_small core_mask a 82); reflexivity|reflexivity].
Qed.

(* S holds the squares that attackers going up (down) in index order reach *)
Definition upto (occ mask : square -> Prop) (t : square) : Prop :=
  mask t /\ forall u, mask u -> occ u -> (sq_index t <= sq_index u)%N.
Definition downto (occ mask : square -> Prop) (t : square) : Prop :=
  mask t /\ forall u, mask u -> occ u -> (sq_index u <= sq_index t)%N.

Theorem C82_slides o b checks occ m n O M N' :
  holds o b checks occ O -> holds o b checks m M -> holds o b checks n N' ->
  (exists r, bits_fn o b checks "sliding_positives" [occ; VArr o [m; n]] r /\
             holds o b checks r (fun t => upto O M t \/ upto O N' t)) /\
  (exists r, bits_fn o b checks "sliding_negatives" [occ; VArr o [m; n]] r /\
             holds o b checks r (fun t => downto O M t \/ downto O N' t)) /\
  ((forall s t, M s -> M t -> fileZ s = fileZ t) ->
   (exists r, bits_fn o b checks "sliding_positive_consecutive" [occ; m] r /\ holds o b checks r (upto O M)) /\
   (exists r, bits_fn o b checks "sliding_negative_consecutive" [occ; m] r /\ holds o b checks r (downto O M))).
Proof.
  intros [a [-> [Wa Ha]]] [x [-> [Wx Hx]]] [y [-> [Wy Hy]]].
  destruct (C82_occupied o b checks a x y (fits_board _ _ a Wa) Wx Wy) as [_ [_ [P1 [N1 [P2 [N2 _]]]]]].
  pose proof (proj1 (on_board_wf _ _ _) Wa) as Va. pose proof (proj1 (on_board_wf _ _ _) Wx) as Vx.
  pose proof (proj1 (on_board_wf _ _ _) Wy) as Vy.
  pose (S := backend_spec b checks).
  assert (U : forall (x : bb (ops_of b checks)) (X : square -> Prop) t, (forall s, bcontains _ x s = true <-> X s) ->
              slid_pos (bcontains (ops_of b checks) a) (bcontains (ops_of b checks) x) t <-> upto O X t).
  { intros z Z t E. unfold slid_pos, upto. rewrite E. split; intros [A B]; (split; [exact A|]); intros u; [rewrite <- E, <- Ha|rewrite E, Ha]; apply B. }
  assert (D : forall (x : bb (ops_of b checks)) (X : square -> Prop) t, (forall s, bcontains _ x s = true <-> X s) ->
              slid_neg (bcontains (ops_of b checks) a) (bcontains (ops_of b checks) x) t <-> downto O X t).
  { intros z Z t E. unfold slid_neg, downto. rewrite E. split; intros [A B]; (split; [exact A|]); intros u; [rewrite <- E, <- Ha|rewrite E, Ha]; apply B. }
  split; [|split].
  - eexists. split; [exact P2|]. eexists. split; [reflexivity|]. split.
    + apply on_board_wf, (sp_wf_pos2 _ S); assumption.
    + intros t. rewrite (sp_pos2 _ S a (x, y) t Va Vx Vy). cbn [fst snd]. rewrite (U x M t Hx), (U y N' t Hy). reflexivity.
  - eexists. split; [exact N2|]. eexists. split; [reflexivity|]. split.
    + apply on_board_wf, (sp_wf_neg2 _ S); assumption.
    + intros t. rewrite (sp_neg2 _ S a (x, y) t Va Vx Vy). cbn [fst snd]. rewrite (D x M t Hx), (D y N' t Hy). reflexivity.
  - intros F. assert (F1 : one_file (bcontains (ops_of b checks) x)).
    { intros s t Hs Ht. apply Hx in Hs, Ht. apply Geometry.i9Z_inj. exact (F s t Hs Ht). }
    split.
    + eexists. split; [exact P1|]. eexists. split; [reflexivity|]. split.
      * apply on_board_wf, (sp_wf_pos_c _ S); assumption.
      * intros t. rewrite (sp_pos_c _ S a x t Va Vx F1). apply (U x M t Hx).
    + eexists. split; [exact N1|]. eexists. split; [reflexivity|]. split.
      * apply on_board_wf, (sp_wf_neg_c _ S); assumption.
      * intros t. rewrite (sp_neg_c _ S a x t Va Vx F1). apply (D x M t Hx).
Qed.
Print Assumptions C82_slides.

Lemma shift_file t d s : sq_shift t 0 d = Some s <-> (fileZ s = fileZ t /\ rankZ s = rankZ t + d)%Z.
Proof.
  unfold sq_shift. rewrite Z.add_0_r. split.
  - destruct (i9_of_Z (fileZ t)) as [f|] eqn:F; [|discriminate]. destruct (i9_of_Z (rankZ t + d)) as [r|] eqn:R; [|discriminate].
    apply Attacks.i9_of_Z_spec in F, R. intros E. injection E as <-. exact (conj F R).
  - intros [F R]. apply Attacks.i9_of_Z_spec in F, R. rewrite F, R. destruct s. reflexivity.
Qed.
(* the shifts and the bit trick of the pawn drops *)
Theorem C82_pawns o b checks v S :
  holds o b checks v S ->
  ((forall s, S s -> rankZ s <> 9%Z) ->
   exists r, bits_fn o b checks "shl" [v] r /\ holds o b checks r (fun t => exists s, S s /\ fileZ s = fileZ t /\ rankZ t = (rankZ s + 1)%Z)) /\
  ((forall s, S s -> rankZ s <> 1%Z) ->
   exists r, bits_fn o b checks "shr" [v] r /\ holds o b checks r (fun t => exists s, S s /\ fileZ s = fileZ t /\ rankZ t = (rankZ s - 1)%Z)) /\
  ((forall s t, S s -> S t -> fileZ s = fileZ t -> rankZ s = 9%Z -> s = t) ->
   exists r, bits_fn o b checks "vacant_files" [v] r /\ holds o b checks r (fun t => forall s, S s -> fileZ s <> fileZ t)).
Proof.
  intros [a [-> [Wa Ha]]].
  destruct (C82_occupied o b checks a a a (fits_board _ _ a Wa) Wa Wa) as [E1 [E2 [_ [_ [_ [_ E3]]]]]].
  pose proof (proj1 (on_board_wf _ _ _) Wa) as Va. pose (Sp := backend_spec b checks).
  split; [|split].
  - intros L. destruct (sp_shl _ Sp a Va) as [W H].
    { intros s Hs Es. apply Ha in Hs. apply (L s Hs). unfold rankZ. rewrite Es. reflexivity. }
    eexists. split; [exact E1|]. eexists. split; [reflexivity|]. split; [apply on_board_wf, W|].
    intros t. rewrite H. split.
    + destruct (sq_shift t 0 (-1)) as [s|] eqn:X; [|discriminate]. intros Hs. exists s. split; [apply Ha, Hs|].
      apply shift_file in X. lia.
    + intros [s [Hs X]]. rewrite (proj2 (shift_file t (-1) s)) by lia. apply Ha, Hs.
  - intros L. destruct (sp_shr _ Sp a Va) as [W H].
    { intros s Hs Es. apply Ha in Hs. apply (L s Hs). unfold rankZ. rewrite Es. reflexivity. }
    eexists. split; [exact E2|]. eexists. split; [reflexivity|]. split; [apply on_board_wf, W|].
    intros t. rewrite H. split.
    + destruct (sq_shift t 0 1) as [s|] eqn:X; [|discriminate]. intros Hs. exists s. split; [apply Ha, Hs|].
      apply shift_file in X. lia.
    + intros [s [Hs X]]. rewrite (proj2 (shift_file t 1 s)) by lia. apply Ha, Hs.
  - intros L. destruct (C05_vacant_files b checks a Wa) as [x [E [W H]]].
    { intros s t Hs Ht. apply Ha in Hs, Ht. exact (L s t Hs Ht). }
    rewrite E in E3. eexists. split; [exact E3|]. eexists. split; [reflexivity|]. split; [exact W|].
    intros t. rewrite H. split.
    + intros X s Hs F. apply Ha in Hs. rewrite (X s F) in Hs. discriminate.
    + intros X s F. destruct (bcontains _ a s) eqn:C; [|reflexivity]. apply Ha in C. destruct (X s C F).
Qed.
Print Assumptions C82_pawns.

(** ** Every function of a program is the one that a call of its name runs

    (the implementations for Bitboard and for &Bitboard are the same function) *)

Theorem C82_one_function p f :
  p = text_program \/ (exists b, p = backend_program b) ->
  In f (pr_fns p) -> find_fn p (fn_self f) (fn_name f) = Some f.
Proof.
  assert (H : Forall (fun p => Forall (fun f => find_fn p (fn_self f) (fn_name f) = Some f) (pr_fns p))
                     [source; core_prog; x86_prog; neon_prog; wasm_prog]).
  { repeat (apply Forall_cons; [unfold source, core_prog, x86_prog, neon_prog, wasm_prog; cbn [pr_fns];
      repeat (apply Forall_cons; [vm_compute; reflexivity|]); apply Forall_nil|]). apply Forall_nil. }
  intros K I. assert (L : In p [source; core_prog; x86_prog; neon_prog; wasm_prog]).
  { destruct K as [->|[b ->]]; [rewrite text_is_source|rewrite backend_is; destruct b]; cbn [In]; tauto. }
  exact (proj1 (Forall_forall _ _) (proj1 (Forall_forall _ _) H p L) f I).
Qed.
Print Assumptions C82_one_function.

(* a rook on 5e looks left and down, another piece on 7e: 7e is reached, 8e is not *)
Example C82_example o b checks : exists v m n r,
  holds o b checks v (fun s => s = Sq n7 n5) /\
  holds o b checks m (fun s => fileZ s = 5%Z /\ (5 < rankZ s)%Z) /\ holds o b checks n (fun s => rankZ s = 5%Z /\ (5 < fileZ s)%Z) /\
  bits_fn o b checks "sliding_positives" [v; VArr o [m; n]] r /\
  holds o b checks r (fun s => fileZ s = 5%Z /\ (5 < rankZ s)%Z \/ s = Sq n6 n5 \/ s = Sq n7 n5).
Proof.
  pose (M := filter (fun s => (fileZ s =? 5)%Z && (5 <? rankZ s)%Z) all_squares).
  pose (K := filter (fun s => (rankZ s =? 5)%Z && (5 <? fileZ s)%Z) all_squares).
  assert (A : forall l (S : square -> Prop), (forall s, In s l <-> S s) -> holds o b checks (bval o b checks (bb_of _ l)) S).
  { intros l S E. exists (bb_of _ l). split; [reflexivity|]. destruct (bb_of_spec b checks l) as [W H].
    split; [exact W|]. intros s. rewrite H. apply E. }
  assert (H1 : holds o b checks (bval o b checks (bb_of _ [Sq n7 n5])) (fun s => s = Sq n7 n5)).
  { apply A. intros s. cbn [In]. intuition congruence. }
  assert (H2 : holds o b checks (bval o b checks (bb_of _ M)) (fun s => fileZ s = 5%Z /\ (5 < rankZ s)%Z)).
  { apply A. intros s. unfold M. rewrite filter_In, andb_true_iff, Z.eqb_eq, Z.ltb_lt.
    split; [intros [_ H]; exact H|intros H; split; [apply Squares.all_squares_in|exact H]]. }
  assert (H3 : holds o b checks (bval o b checks (bb_of _ K)) (fun s => rankZ s = 5%Z /\ (5 < fileZ s)%Z)).
  { apply A. intros s. unfold K. rewrite filter_In, andb_true_iff, Z.eqb_eq, Z.ltb_lt.
    split; [intros [_ H]; exact H|intros H; split; [apply Squares.all_squares_in|exact H]]. }
  destruct (C82_slides o b checks _ _ _ _ _ _ H1 H2 H3) as [[r [E [a [Er [W H]]]]] _].
  eexists. eexists. eexists. exists r. split; [exact H1|]. split; [exact H2|]. split; [exact H3|]. split; [exact E|].
  exists a. split; [exact Er|]. split; [exact W|]. intros t. rewrite H. unfold upto. split.
  - intros [[X _]|[[X Y] Z]]; [left; exact X|right].
    specialize (Z (Sq n7 n5) (conj eq_refl eq_refl) eq_refl).
    destruct t as [[] []]; cbn in X, Y, Z; try discriminate; try lia; [left|right]; reflexivity.
  - intros [X|[->| ->]].
    + left. split; [exact X|]. intros u Y ->. destruct Y as [Y _]. discriminate Y.
    + right. split; [split; reflexivity|]. intros u _ ->. vm_compute. discriminate.
    + right. split; [split; reflexivity|]. intros u _ ->. vm_compute. discriminate.
Qed.
(* the squares 1a, 5e and 9i, and the call of next on their iterator *)
Example C82_example_iterator o b checks : b <> Portable -> exists a it w,
  fits b checks a /\ on_board b checks a /\ bits_fn o b checks "count" [bval o b checks a] (VInt o U8 3) /\
  bits_fn o b checks "into_iter" [bval o b checks a] it /\
  bits_mut o b checks "SquareIterator" "next" it [] (VOpt o (Some (VSq o (Sq n1 n1)))) w /\
  iterates o b checks [Sq n5 n5; Sq n9 n9] w.
Proof.
  intros NP. destruct (bb_of_spec b checks [Sq n9 n9; Sq n1 n1; Sq n5 n5]) as [W H].
  set (a := bb_of _ _) in *. pose proof (fits_board b checks a W) as F.
  assert (E : filter (bcontains _ a) all_squares = [Sq n1 n1; Sq n5 n5; Sq n9 n9]) by (destruct b; vm_compute; reflexivity).
  destruct (C82_iterator o b checks a NP W) as [it [C I]]. rewrite E in I. destruct I as [w [N1 R]].
  exists a, it, w. split; [exact F|]. split; [exact W|]. split; [|split; [exact C|split; [exact N1|exact R]]].
  destruct (C82_bitboard o b checks a a (Sq n1 n1) NP F) as [[_ [_ [_ [_ K]]]] _].
  rewrite (sp_count _ (backend_spec b checks) a (proj1 (on_board_wf b checks a) W)), E in K. exact K.
Qed.
