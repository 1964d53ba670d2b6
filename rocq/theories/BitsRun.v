(** * Running the text of the bitboards symbolically *)

From Coq Require Import List Bool NArith ZArith Lia.
From Verif Require Import Movegen.
From Verif Require Import Types Bitboard BackendCore BackendSimd Intrinsics Words SpecLanes Unsafe RustSyntax RustNames RustSem TextDefs BitsDefs.
Import ListNotations.

(* a bitboard of the vector backends: a struct with one register *)
Definition reg {o} (a : v128) : val o := VStruct o id_Bitboard [(id_0, VReg o a)].
(* a bitboard of the portable backend *)
Definition raw {o} (n : N) : val o := VRaw o n.
(* the iterator over the squares *)
Definition sq_iter {o} (a : v128) : val o := VStruct o id_SquareIterator [(id_0, words o a)].

(* no static is known *)
Definition none {o} : N -> option (val o) := fun _ => None.

Ltac evb :=
  lazy beta iota zeta delta [look upd elen edrop trim digits tup_get tup_set field set_field get put read write below join width
        ty_of cast lit usize vopt ext_const memory ext_fn arch_fn raw_fn x86_fn neon_fn wasm_fn generic_fn digit with_digit
        word words reg raw sq_iter none ext_method int_cmp bin un op_method opa_method
        elements m_and m_or match_path variant pmatch bind_pat
        find_fn_in find_fn find_const_in find_const assoc firsts seconds revapp modes mut_fn is_mut self_ty
        typed_fields new_struct zip stuck prim_cfg bind_params write_back ret_val leave apply args scoped last2
        step_eval step_place index val_for step_val step_at step_match step_stmts step_return step_break
        step_continue step_run enter step run fetch store deeper
        fn_self fn_name fn_params fn_body cd_self cd_name cd_expr pr_fns pr_consts pr_structs
        core_prog x86_prog neon_prog wasm_prog VUnit
        same pos_same Nat.sub cat tl fst snd
        list_at list_put nth Movegen.set_nth Z.to_nat Pos.to_nat Pos.iter_op Nat.add].

Section Run.
Context {o : bbops} {checks : bool} {prog : gprog N} {St : N -> option (val o)}.
Notation steps := (steps o checks prog St).
Notation run := (run o checks prog St).

Lemma b_ev n c c1 c' : run n c = c1 -> steps c1 c' -> steps c c'.
Proof. intros <-. apply steps_run. Qed.
Lemma b_enter t f vs e k c1 c' : enter o prog t f vs e k = c1 -> steps c1 c' -> steps (Enter o t f vs e k) c'.
Proof. intros <- H. apply steps_one. exact H. Qed.
Lemma b_some x v e k c2 c' : x = Some v -> steps (Run o (CVal o v) e k) c' -> steps (BrO o x e k c2) c'.
Proof. intros -> H. apply steps_one. exact H. Qed.
Lemma b_true b c1 c2 c' : b = true -> steps c1 c' -> steps (BrB o b c1 c2) c'.
Proof. intros -> H. apply steps_one. exact H. Qed.
Lemma b_false b c1 c2 c' : b = false -> steps c2 c' -> steps (BrB o b c1 c2) c'.
Proof. intros -> H. apply steps_one. exact H. Qed.
Lemma b_if b c1 c2 c' : (b = true -> steps c1 c') -> (b = false -> steps c2 c') -> steps (BrB o b c1 c2) c'.
Proof. intros H H'. apply steps_one. destruct b; [exact (H eq_refl)|exact (H' eq_refl)]. Qed.
Lemma b_end c c' : c = c' -> steps c c'.
Proof. intros ->. apply steps_refl. Qed.
(* the number of steps to the end *)
Fixpoint steps_to_halt (n : nat) (c : cfg o) : nat :=
  match n with
  | O => O
  | S n => match c with Halt _ _ => O | _ => S (steps_to_halt n (step o checks prog St c)) end
  end.
End Run.

Ltac st := eapply (b_ev 400); [evb; reflexivity|].
Ltac go1 :=
  lazymatch goal with
  | |- steps _ _ _ _ (Run _ (CStmts _ _) _ (KScope _ _ :: KConst _ _ :: _)) _ => fail   (* a constant *)
  | |- steps _ _ _ _ (Run _ (CStmts _ _) _ _) _ => apply steps_one; st
  | |- steps _ _ _ _ (Run _ (CMatch _ _ _) _ _) _ => apply steps_one; st
  | |- steps _ _ _ _ (Run _ _ _ _) _ => st
  | |- steps _ _ _ _ (Resume _ _ _ (_ :: _)) _ => apply steps_one; st
  | |- steps _ _ _ _ (BrO _ _ _ _ _) _ => eapply b_some; [solve [reflexivity]|]
  end.
Ltac into := eapply b_enter; [evb; reflexivity|].
Ltac go0 := repeat go1.
(* also into the functions that are called *)
Ltac go := repeat first [go1 | into].
Ltac call L := eapply steps_trans; [apply L|].
(* the body of a constant that is a block *)
Definition const_body (p : gprog N) (x : N) : list (gstmt N) :=
  match find_const p id_ x with Some (EBlock b) => b | _ => [] end.
(* a constant: the steps are counted by running it *)
Ltac constant :=
  lazymatch goal with
  | |- forall e k, steps ?o ?ch ?pr ?st (Run _ ?c ?e0 _) _ =>
      intros e k;
      let n := eval vm_compute in (@steps_to_halt o ch pr st (N.to_nat 20000)
                                     (Run o c e0 [KScope o 1; KConst o []]) - 2)%nat in
      exists n; vm_compute; reflexivity
  end.

(** ** Numbers *)

Lemma arith_ok ck t n : in_range t n = true -> arith ck t n = Some n.
Proof. intros H. unfold arith. rewrite H. reflexivity. Qed.
Lemma range_width t w n : width t = Some w -> (0 <= n < 2 ^ w)%Z -> in_range t n = true.
Proof. intros E H. unfold in_range. rewrite E. apply andb_true_intro. split; [apply Z.leb_le|apply Z.ltb_lt]; apply H. Qed.
Lemma wrap_width t w n : width t = Some w -> (0 <= n < 2 ^ w)%Z -> wrap t n = n.
Proof. intros E H. unfold wrap. rewrite E. apply Z.mod_small. exact H. Qed.
Lemma lane_of n : (n < 2 ^ 64)%N -> lane (Z.of_N n) = n.
Proof. intros H. unfold lane. rewrite Z.mod_small; [apply N2Z.id|]. change (2 ^ 64)%Z with (Z.of_N (2 ^ 64)). lia. Qed.
Lemma get_seq {o} (F : nat -> val o) n m :
  (n < N.of_nat m)%N -> list_get o (map F (seq 0 m)) (Z.of_N n) = Some (F (N.to_nat n)).
Proof.
  intros H. unfold list_get. replace (Z.to_nat (Z.of_N n)) with (N.to_nat n) by lia. rewrite nth_error_map.
  rewrite (nth_error_nth' _ O) by (rewrite seq_length; lia). rewrite seq_nth by lia. reflexivity.
Qed.
Lemma of_N_0 n : (Z.of_N n =? 0)%Z = (n =? 0)%N.
Proof. destruct n; reflexivity. Qed.
Lemma of_land a b : Z.of_N (N.land a b) = Z.land (Z.of_N a) (Z.of_N b).
Proof. symmetry. destruct a, b; reflexivity. Qed.
Lemma of_lor a b : Z.of_N (N.lor a b) = Z.lor (Z.of_N a) (Z.of_N b).
Proof. symmetry. destruct a, b; reflexivity. Qed.
Lemma of_lxor a b : Z.of_N (N.lxor a b) = Z.lxor (Z.of_N a) (Z.of_N b).
Proof. symmetry. destruct a, b; reflexivity. Qed.
Lemma wrap8 n : wrap U8 (Z.of_N n) = Z.of_N (N.land n 0xff).
Proof.
  change 0xff%N with (N.ones 8). rewrite N.land_ones. unfold wrap. cbn [width]. change (2 ^ 8)%Z with (Z.of_N (2 ^ 8)).
  symmetry. apply N2Z.inj_mod. 
Qed.
Lemma ones_le w a : (a < 2 ^ N.of_nat w)%N -> (count_ones a <= N.of_nat w)%N.
Proof. intros H. rewrite (count_ones_bits w a H). pose proof (bits_length a w). lia. Qed.

Lemma v_and_comm a b : v_and a b = v_and b a.
Proof. unfold v_and, v_map2. f_equal; apply N.land_comm. Qed.
Lemma v_xor_comm a b : v_xor a b = v_xor b a.
Proof. unfold v_xor, v_map2. f_equal; apply N.lxor_comm. Qed.
Lemma ones_sum ck a b : (a < 2 ^ 64 -> b < 2 ^ 64 ->
  arith ck U32 (Z.of_N (count_ones (Z.to_N (Z.of_N a))) + Z.of_N (count_ones (Z.to_N (Z.of_N b)))) =
  Some (Z.of_N (count_ones a + count_ones b)))%N.
Proof.
  intros Ha Hb. rewrite !N2Z.id, <- N2Z.inj_add. apply arith_ok, (range_width U32 32 _ eq_refl).
  pose proof (ones_le 64 a Ha). pose proof (ones_le 64 b Hb). change (2 ^ 32)%Z with 4294967296%Z. lia.
Qed.
Lemma ctz_bound a : (a < 2 ^ 64 -> a <> 0 -> ctz 64 a < 64)%N.
Proof. intros H H0. exact (ctz_lt 64 64 a H0 H). Qed.
(* the position of the lowest bit, as a square *)
Lemma pop_pos ck a m : (a < 2 ^ 64 -> a <> 0 -> m <= 64 ->
  arith ck U8 (wrap U8 (Z.of_N (ctz 64 (Z.to_N (Z.of_N a)))) + Z.of_N m) = Some (Z.of_N (ctz 64 a + m)))%N.
Proof.
  intros H H0 Hm. rewrite N2Z.id. pose proof (ctz_bound a H H0).
  rewrite (wrap_width U8 8 _ eq_refl) by (change (2 ^ 8)%Z with 256%Z; lia).
  rewrite <- N2Z.inj_add. apply arith_ok, (range_width U8 8 _ eq_refl). change (2 ^ 8)%Z with 256%Z. lia.
Qed.
Lemma pop_rest a : (a < 2 ^ 64 -> a <> 0 -> Z.land (Z.of_N a) (wrap U64 (Z.of_N a - 1)) = Z.of_N (N.land a (a - 1)))%N.
Proof.
  intros H H0. rewrite (wrap_width U64 64 _ eq_refl).
  - rewrite of_land. f_equal. lia.
  - change (2 ^ 64)%Z with (Z.of_N (2 ^ 64)). lia.
Qed.

(* the index of MASKED_VALUES, aarch64 and wasm32 *)
Section Index.
Context (ck : bool) (a m : v128) (H0 : (fst m < 2 ^ 63)%N) (H1 : (snd m < 2 ^ 18)%N).
Lemma tz_high : (fst (v_and a m) = 0)%N ->
  arith ck U32 (Z.of_N (ctz 64 (Z.to_N (Z.lor (Z.of_N (snd (v_and a m))) 131072))) + 64) = Some (Z.of_N (lanes_tz a m)).
Proof.
  intros E. change 131072%Z with (Z.of_N 131072). rewrite <- of_lor, N2Z.id.
  change 64%Z with (Z.of_N 64). rewrite <- N2Z.inj_add.
  assert (T : lanes_tz a m = (ctz 64 (N.lor (snd (v_and a m)) 131072) + 64)%N).
  { unfold lanes_tz. rewrite E. reflexivity. }
  rewrite <- T. apply arith_ok, (range_width U32 32 _ eq_refl). change (2 ^ 32)%Z with 4294967296%Z.
  destruct (lanes_index a m H0 H1). lia.
Qed.
Lemma tz_next : arith ck Usize (Z.of_N (lanes_tz a m) + 1) = Some (Z.of_N (lanes_tz a m + 1)).
Proof.
  destruct (lanes_index a m H0 H1).
  change 1%Z with (Z.of_N 1). rewrite <- N2Z.inj_add. apply arith_ok, (range_width Usize 64 _ eq_refl).
  change (2 ^ 64)%Z with 18446744073709551616%Z. lia.
Qed.
Lemma tz_low : (fst (v_and a m) <> 0)%N ->
  arith ck Usize (Z.of_N (ctz 64 (Z.to_N (Z.of_N (fst (v_and a m))))) + 1) = Some (Z.of_N (lanes_tz a m + 1)).
Proof.
  intros E. rewrite N2Z.id. replace (ctz 64 (fst (v_and a m))) with (lanes_tz a m); [exact tz_next|].
  unfold lanes_tz. rewrite (proj2 (N.eqb_neq _ _) E). reflexivity.
Qed.
Lemma lz_low : (snd (v_and a m) = 0)%N ->
  arith ck U32 (Z.of_N (clz 64 (Z.to_N (Z.lor (Z.of_N (fst (v_and a m))) 1))) + 64) = Some (Z.of_N (lanes_lz a m)).
Proof.
  intros E. change 1%Z with (Z.of_N 1). rewrite <- of_lor, N2Z.id.
  change 64%Z with (Z.of_N 64). rewrite <- N2Z.inj_add.
  assert (T : lanes_lz a m = (clz 64 (N.lor (fst (v_and a m)) 1) + 64)%N).
  { unfold lanes_lz. rewrite E. reflexivity. }
  rewrite <- T. apply arith_ok, (range_width U32 32 _ eq_refl). change (2 ^ 32)%Z with 4294967296%Z.
  destruct (lanes_index a m H0 H1) as [_ [L _]]. lia.
Qed.
Lemma lz_next : arith ck Usize (127 - Z.of_N (lanes_lz a m)) = Some (Z.of_N (127 - lanes_lz a m)).
Proof.
  destruct (lanes_index a m H0 H1) as [_ [L _]].
  change 127%Z with (Z.of_N 127). rewrite <- N2Z.inj_sub by exact L. apply arith_ok, (range_width Usize 64 _ eq_refl).
  change (2 ^ 64)%Z with 18446744073709551616%Z. lia.
Qed.
Lemma lz_high : (snd (v_and a m) <> 0)%N ->
  arith ck Usize (127 - Z.of_N (clz 64 (Z.to_N (Z.of_N (snd (v_and a m)))))) = Some (Z.of_N (127 - lanes_lz a m)).
Proof.
  intros E. rewrite N2Z.id. replace (clz 64 (snd (v_and a m))) with (lanes_lz a m); [exact lz_next|].
  unfold lanes_lz. rewrite (proj2 (N.eqb_neq _ _) E). reflexivity.
Qed.
End Index.
Lemma lane_masked i : (lane (Z.of_N (fst (lanes_masked i))), lane (Z.of_N (snd (lanes_masked i)))) = lanes_masked i.
Proof.
  unfold lanes_masked. cbn [fst snd].
  rewrite !lane_of by (rewrite N.land_comm; apply land_small; reflexivity). reflexivity.
Qed.

(** ** The operations of a backend, as calls of functions of a program *)

Section Calls.
Context {o : bbops} (checks : bool) (prog : gprog N).
(* the function f of the type t returns v *)
Definition gives (t f : N) (args : list (val o)) (v : val o) : Prop :=
  forall e k, steps o checks prog none (Enter o t f args e k) (Resume o v e k).
(* the same with a first parameter &mut, which becomes w *)
Definition changes (t f : N) (x : val o) (args : list (val o)) (v w : val o) : Prop :=
  forall k, steps o checks prog none (Enter o t f (VRef o (id_self, []) :: args) [(id_self, x)] k) (Resume o v [(id_self, w)] k).
(* the successive calls of next *)
Fixpoint yields (l : list square) (v : val o) : Prop :=
  match l with
  | [] => changes id_SquareIterator id_next v [] (VOpt o None) v
  | s :: l => exists w, changes id_SquareIterator id_next v [] (VOpt o (Some (VSq o s))) w /\ yields l w
  end.
Lemma gives_calls t f vs v : gives t f vs v -> calls o checks prog none t f vs [] (RDone o v []).
Proof. intros H. destruct (H [] []) as [n E]. exists (n + 2)%nat. rewrite iter_add, E. reflexivity. Qed.
Lemma changes_calls t f x vs v w :
  changes t f x vs v w ->
  calls o checks prog none t f (VRef o (id_self, []) :: vs) [(id_self, x)] (RDone o v [(id_self, w)]).
Proof. intros H. destruct (H []) as [n E]. exists (n + 2)%nat. rewrite iter_add, E. reflexivity. Qed.

(* next of the vector backends *)
Notation I := id_SquareIterator.
Hypothesis next0 : forall a b, (a < 2 ^ 64)%N -> a <> 0%N ->
  changes I id_next (sq_iter (a, b)) [] (VOpt o (Some (VSq o (sq_of_u8 (ctz 64 a + 1))))) (sq_iter (N.land a (a - 1), b)%N).
Hypothesis next1 : forall b, (b < 2 ^ 64)%N -> b <> 0%N ->
  changes I id_next (sq_iter (0, b)%N) [] (VOpt o (Some (VSq o (sq_of_u8 (ctz 64 b + 64))))) (sq_iter (0, N.land b (b - 1))%N).
Hypothesis next2 : changes I id_next (sq_iter (0, 0)%N) [] (VOpt o None) (sq_iter (0, 0)%N).
Lemma iter_fuel fuel : forall a, lwf a ->
  (length (bits (fst a) 63) + length (bits (snd a) 18) < fuel)%nat ->
  yields (map sq_of_u8 (lanes_iter_u8 fuel a)) (sq_iter a).
Proof.
  induction fuel as [|fuel IH]; intros [l0 l1] Ha Hf; [lia|].
  destruct Ha as [H0 H1]. cbn [fst snd] in *. cbn [lanes_iter_u8].
  destruct (N.eqb_spec l0 0) as [->|N0]; cbn [negb].
  - destruct (N.eqb_spec l1 0) as [->|N1]; cbn [negb].
    + exact next2.
    + pose proof (lt18_64 _ H1) as W. rewrite pop_lsb_spec by assumption. cbv beta iota. cbn [map].
      rewrite land_255 by (pose proof (ctz_lt 64 18 l1 N1 H1); lia).
      exists (sq_iter (0, N.land l1 (l1 - 1))%N). split; [exact (next1 l1 W N1)|].
      apply IH; unfold lwf; cbn [fst snd].
      * split; [reflexivity|apply land_small; assumption].
      * rewrite (bits_pop l1 18 N1 H1) in Hf. cbn [length] in Hf. lia.
  - pose proof (lt63_64 _ H0) as W. rewrite pop_lsb_spec by assumption. cbv beta iota. cbn [map].
    rewrite land_255 by (pose proof (ctz_lt 64 63 l0 N0 H0); lia).
    exists (sq_iter (N.land l0 (l0 - 1), l1)%N). split; [exact (next0 l0 l1 W N0)|].
    apply IH; unfold lwf; cbn [fst snd].
    + split; [apply land_small|]; assumption.
    + rewrite (bits_pop l0 63 N0 H0) in Hf. cbn [length] in Hf. lia.
Qed.
Lemma iter_yields a : lwf a -> yields (lanes_iter a) (sq_iter a).
Proof.
  intros H. apply iter_fuel; [exact H|].
  pose proof (bits_length (fst a) 63). pose proof (bits_length (snd a) 18). lia.
Qed.
End Calls.
