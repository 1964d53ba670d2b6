(** * The text of examples/perft.rs, run *)

From Coq Require Import List Bool NArith ZArith String Lia.
From Verif Require Import Types Rules Bitboard Tables Zobrist Position Movegen Api ValidPlay Moves Decide Reach Lines Perft PerftPanic PerftSpec Capacity Divide DivideSpec
  RustSyntax RustNames RustSem TextDefs TextRun TextPos TextGen TextMoves TextPrint.
Import ListNotations.

(* up to the statement after let count = ... *)
Ltac upto :=
  repeat lazymatch goal with
  | |- steps _ _ _ _ (Run _ (CStmts _ _) ((id_count, _) :: _) _) _ => fail
  | _ => go1
  end.

Section Perft.
Context (o : bbops) (z : ztable) (checks : bool).
(* the positions of a search, and its moves *)
Context (R : position o -> Prop) (Lg : position o -> move -> Prop)
  (R_ply : forall p, R p -> (ply o p < 65536)%N)
  (R_legal : forall p l m, R p -> legal_moves o p = Some l -> In m l -> Lg p m)
  (R_step : forall p m q, R p -> Lg p m -> do_move o z checks p m = Some q -> R q /\ undo_move o checks q m = Some p)
  (R_fit : forall p l, R p -> legal_moves o p = Some l -> (List.length l <= 593)%nat).
Notation steps := (steps o checks source (statics o z)).
Notation psteps := (psteps o checks source (statics o z)).
Notation pan := (pan o).
Notation Call := (Enter o).
Notation Ret := (Resume o).
Notation io d := (perft_io o z checks 64 d).

(* the body of the loop, and the variables when it starts *)
Definition loop_body : gexpr N := Eval vm_compute in
  match find_fn source id_ id_perft with
  | Some f => match fn_body f with EBlock (_ :: SExpr (EFor _ _ b) :: _) => b | b => b end
  | None => ETup []
  end.
Definition vars (t : ity) (r : N) (p : position o) (d : nat) (root : bool) : env o :=
  [(id_ret, VInt o t (Z.of_N r)); (id_pos, vpos o p); (id_depth, VInt o Usize (Z.of_nat d));
   (id_is_root, VBool o root); (id_Self, VStr o id_)].

Definition rest : list (gstmt N) := Eval cbv [loop_body] in
  match loop_body with EBlock (_ :: l) => l | _ => [] end.
Definition at_count (m : move) (t : ity) (r : N) p d root (l : list move) (K : kont o) (v : val o) : cfg o :=
  Run o (CStmts o rest) ((id_count, v) :: (id_m, VMove o m) :: vars t r p d root)
    (KScope o 6 :: KFor o (PId id_m) loop_body (map (VMove o) l) 5 :: K).

(* the line "{}: {count}" of the move m and the number c *)
Definition id_line : N := Eval vm_compute in intern "{}: {count}".
Definition shows_line (l : line o) (x : move * N) : Prop :=
  fst l = [VStr o id_line; VMove o (fst x)] /\ exists u, look o id_count (snd l) = Some (VInt o u (Z.of_N (snd x))).
Definition turn_lines (root : bool) (ls : list (line o)) (x : move * N) : Prop :=
  if root then exists l, ls = [l] /\ shows_line l x else ls = [].
Ltac pquiet := apply quiet; [intros ?; discriminate|].

(* the end of a turn: ret += count, and the printing *)
Definition print_block : gexpr N := Eval cbv [rest] in
  match rest with [_; STail (EIf _ b _)] => b | _ => ETup [] end.
Definition end_vars (m : move) (u : ity) (c : N) (v : ity) (s : Z) p d root : env o :=
  (id_count, VInt o u (Z.of_N c)) :: (id_m, VMove o m) :: (id_ret, VInt o v s) :: tl (vars v 0 p d root).
Definition at_if m u c v s p d root (l : list move) K : cfg o :=
  let k := KScope o 6 :: KFor o (PId id_m) loop_body (map (VMove o) l) 5 :: K in
  BrB o root (Run o (CEval o print_block) (end_vars m u c v s p d root) k) (Run o (CEval o (ETup [])) (end_vars m u c v s p d root) k).
Lemma turn_sum m t r p d root l K u c v :
  (t = Lit \/ t = Usize) -> (u = Lit \/ u = Usize) -> join t u = Some v ->
  steps (at_count m t r p d root l K (VInt o u (Z.of_N c)))
        (pan (arith checks v (Z.of_N r + Z.of_N c)) (fun s => at_if m u c v s p d root l K)).
Proof.
  intros T U J. unfold at_count, at_if, end_vars, vars, rest. cbv zeta. cbn [tl]. set (B := loop_body).
  destruct T as [-> | ->], U as [-> | ->]; injection J as <-; go.
  1: unfold arith; cbn [in_range width TextRun.pan tl]; apply steps_refl.
  all: apply steps_may; intros s _; go; apply steps_refl.
Qed.
Lemma turn_print m u c v s p d root l K : exists ls, turn_lines root ls (m, c) /\
  psteps (at_if m u c v s p d root l K) ls
    (BrL o (map (VMove o) l) (PId id_m) loop_body ((id_ret, VInt o v s) :: tl (vars v 0 p d root)) K).
Proof.
  destruct root.
  - exists [([VStr o id_line; VMove o m], end_vars m u c v s p d true)]. split.
    + eexists. split; [reflexivity|]. split; [reflexivity|]. exists u. reflexivity.
    + exists 15%nat. reflexivity.
  - exists []. split; [reflexivity|]. pquiet. unfold at_if. apply steps_if; [discriminate|intros _].
    unfold end_vars, vars. cbn [tl]. set (B := loop_body). go. apply steps_refl.
Qed.
Lemma turn_end m t r p d root l K u c v :
  (t = Lit \/ t = Usize) -> (u = Lit \/ u = Usize) -> join t u = Some v ->
  match arith checks v (Z.of_N r + Z.of_N c) with
  | None => psteps (at_count m t r p d root l K (VInt o u (Z.of_N c))) [] (Halt o (RPanic o))
  | Some s => exists ls, turn_lines root ls (m, c) /\
      psteps (at_count m t r p d root l K (VInt o u (Z.of_N c))) ls
        (BrL o (map (VMove o) l) (PId id_m) loop_body ((id_ret, VInt o v s) :: tl (vars t r p d root)) K)
  end.
Proof.
  intros T U J.
  pose proof (turn_sum m t r p d root l K u c v T U J) as H.
  destruct (arith checks v (Z.of_N r + Z.of_N c)) as [s|]; cbn [TextRun.pan] in H; [|pquiet; exact H].
  apply quiet in H; [|intros x; discriminate]. destruct (turn_print m u c v s p d root l K) as [ls [L H2]].
  exists ls. split; [exact L|]. exact (psteps_trans _ _ _ _ _ [] _ ls _ H H2).
Qed.

Lemma turn_leaf d t r p root m l K : (d <= 1)%nat ->
  steps (BrL o (VMove o m :: map (VMove o) l) (PId id_m) loop_body (vars t r p d root) K)
        (at_count m t r p d root l K (VInt o Lit 1)).
Proof.
  intros Hd. unfold vars, loop_body. body. apply steps_if; intros E; [|apply Z.leb_gt in E; lia].
  upto. apply steps_refl.
Qed.

Lemma turn_two t r p root m l K : R p -> Lg p m ->
  steps (BrL o (VMove o m :: map (VMove o) l) (PId id_m) loop_body (vars t r p 2 root) K)
        (pan (body_io o z checks 64 1 p m) (fun x => at_count m t r p 2 root l K (VInt o Usize (Z.of_N (fst x))))).
Proof.
  intros Rp L. unfold vars, loop_body. body. apply steps_if; intros E; [discriminate E|clear E]. go.
  eapply steps_trans; [apply (sp_do_move o z checks p m (id_pos, []) _ _ (R_ply p Rp)); reflexivity|].
  cbn [body_io]. destruct (do_move o z checks p m) as [p1|] eqn:D; [|apply steps_refl].
  destruct (R_step p m p1 Rp L D) as [Rq U].
  cbn [TextRun.pan bind]. go. apply steps_if; intros E; [clear E|discriminate E]. go.
  call (sp_legal_moves o z checks p1). destruct (legal_moves o p1) as [l1|] eqn:El; [|apply steps_refl].
  cbn [TextRun.pan bind fst snd]. go.
  eapply steps_trans; [apply (sp_undo_move o z checks p1 m (id_pos, []) _ _ (R_ply p1 Rq)); reflexivity|].
  rewrite U. cbn [TextRun.pan bind fst snd]. upto.
  rewrite map_length. apply steps_refl.
Qed.

(* the position is the one it was *)
Lemma body_pos d : (forall n, d = S (S n) -> forall p x, R p -> io d false p = Some x -> snd (fst x) = p) ->
  forall p m c q, R p -> Lg p m -> body_io o z checks 64 d p m = Some (c, q) -> q = p.
Proof.
  intros IH p m c q Rp L E. destruct d as [|d]; [injection E as _ <-; reflexivity|].
  unfold body_io in E. destruct (do_move o z checks p m) as [p1|] eqn:D; [|discriminate E]. cbn [bind] in E.
  destruct (R_step p m p1 Rp L D) as [R1 U]. destruct d as [|d].
  - destruct (legal_moves o p1) as [l|]; [|discriminate E]. cbn [bind fst snd] in E. rewrite U in E.
    injection E as _ <-. reflexivity.
  - destruct (io (S (S d)) false p1) as [x|] eqn:X; [|discriminate E]. cbn [bind] in E.
    rewrite (IH d eq_refl p1 x R1 X), U in E. injection E as _ <-. reflexivity.
Qed.
Lemma io_body d root p : io d root p =
  let* l := legal_moves o p in io_loop o checks 64 root (body_io o z checks 64 (pred d)) l p 0%N [].
Proof. destruct d as [|d]; [reflexivity|]. apply perft_io_body. Qed.
Lemma io_pos d : forall root p x, R p -> io d root p = Some x -> snd (fst x) = p.
Proof.
  induction d as [d IH] using (well_founded_induction Nat.lt_wf_0). intros root p x Rp E. rewrite io_body in E.
  destruct (legal_moves o p) as [l|] eqn:El; [|discriminate E]. cbn [bind] in E.
  assert (B : forall m c q, In m l -> body_io o z checks 64 (pred d) p m = Some (c, q) -> q = p).
  { intros m c q I. apply (body_pos (pred d)); [|exact Rp|exact (R_legal p l m Rp El I)].
    intros n En. apply IH. lia. }
  clear El. revert E. generalize 0%N, (@nil (move * N)). induction l as [|m l IHl]; intros r out E; cbn [io_loop] in E.
  - injection E as <-. reflexivity.
  - destruct (body_io o z checks 64 (pred d) p m) as [[c q]|] eqn:Eb; [|discriminate E]. cbn [bind fst snd] in E.
    destruct (usize_add checks 64 r c) as [s|]; [|discriminate E]. cbn [bind] in E.
    rewrite (B m c q (or_introl eq_refl) Eb) in E. apply IHl in E; [exact E|]. intros m' c' q' I. apply B. right. exact I.
Qed.
Lemma turn_pos d p m c q : R p -> Lg p m -> body_io o z checks 64 d p m = Some (c, q) -> q = p.
Proof. apply body_pos. intros n _. apply io_pos. Qed.

(* a call perft(pos, d, root); [P t n]: the value returned is n, of type t *)
Definition returns (P : ity -> N -> Prop) (d : nat) (root : bool) : Prop :=
  forall p q e k, R p -> fetch o e q = Some (vpos o p) ->
  match io d root p with
  | None => exists ls, psteps (Call id_ id_perft [VRef o q; VInt o Usize (Z.of_nat d); VBool o root] e k) ls (Halt o (RPanic o))
  | Some (n, p', out) => exists t ls, P t n /\ Forall2 shows_line ls out /\
      psteps (Call id_ id_perft [VRef o q; VInt o Usize (Z.of_nat d); VBool o root] e k) ls
            (Ret (VInt o t (Z.of_N n)) (store o e q (vpos o p')) k)
  end.

Lemma less d : (1 <= d)%nat -> (Z.of_nat d < 2 ^ 64)%Z -> arith checks Usize (Z.of_nat d - 1) = Some (Z.of_nat (pred d)).
Proof.
  intros H B. unfold arith. replace (in_range Usize (Z.of_nat d - 1)) with true; [f_equal; lia|].
  symmetry. unfold in_range, width. apply andb_true_intro. split; [apply Z.leb_le; lia|apply Z.ltb_lt; lia].
Qed.

(* what waits while the loop calls perft(pos, depth - 1, false) *)
Definition waiting (l : list move) (K : kont o) : kont o :=
  KScope o 6
  :: KLet o (PId id_ret) [SExpr (EMethod (EPath [id_pos]) id_undo_move [EPath [id_m]]); STail (EPath [id_ret])]
  :: KScope o 6 :: KLet o (PId id_count) rest
  :: KScope o 6 :: KFor o (PId id_m) loop_body (map (VMove o) l) 5 :: K.

Lemma before_call d t r p root m l K : (3 <= d)%nat -> (Z.of_nat d < 2 ^ 64)%Z -> R p ->
  steps (BrL o (VMove o m :: map (VMove o) l) (PId id_m) loop_body (vars t r p d root) K)
    (pan (do_move o z checks p m) (fun p1 =>
       Call id_ id_perft [VRef o (id_pos, []); VInt o Usize (Z.of_nat (pred d)); VBool o false]
         ((id_m, VMove o m) :: vars t r p1 d root) (waiting l K))).
Proof.
  intros Hd B Rp. pose proof (less d ltac:(lia) B) as Ar.
  assert (D1 : (Z.of_nat d <=? 1)%Z = false) by (apply Z.leb_gt; lia).
  assert (D2 : (Z.of_nat d =? 2)%Z = false) by (apply Z.eqb_neq; lia).
  unfold vars, waiting, loop_body. body. apply steps_if; intros E; [congruence|clear E]. go.
  eapply steps_trans; [apply (sp_do_move o z checks p m (id_pos, []) _ _ (R_ply p Rp)); reflexivity|].
  destruct (do_move o z checks p m) as [p1|] eqn:Dm; [|apply steps_refl].
  cbn [TextRun.pan bind]. go. apply steps_if; intros E; [congruence|clear E]. go.
  eapply steps_some; [exact (f_equal (option_map (VInt o Usize)) Ar)|]. go. apply steps_refl.
Qed.

Lemma after_call d t r p p1 root m l K u c : R p1 -> undo_move o checks p1 m = Some p ->
  steps (Ret (VInt o u (Z.of_N c)) (store o ((id_m, VMove o m) :: vars t r p1 d root) (id_pos, []) (vpos o p1)) (waiting l K))
        (at_count m t r p d root l K (VInt o u (Z.of_N c))).
Proof.
  intros Rp U. unfold vars, waiting. set (B := loop_body). set (R0 := rest). go.
  eapply steps_trans; [apply (sp_undo_move o z checks p1 m (id_pos, []) _ _ (R_ply p1 Rp)); reflexivity|].
  rewrite U. cbn [TextRun.pan]. upto. apply steps_refl.
Qed.

Lemma turn_more P n t r p root m l K : let d := S (S (S n)) in
  (Z.of_nat d < 2 ^ 64)%Z -> returns P (S (S n)) false ->
  R p -> Lg p m ->
  match body_io o z checks 64 (S (S n)) p m with
  | None => exists ls, psteps (BrL o (VMove o m :: map (VMove o) l) (PId id_m) loop_body (vars t r p d root) K) ls (Halt o (RPanic o))
  | Some (c, _) => exists u, P u c /\
      psteps (BrL o (VMove o m :: map (VMove o) l) (PId id_m) loop_body (vars t r p d root) K) []
            (at_count m t r p d root l K (VInt o u (Z.of_N c)))
  end.
Proof.
  intros d B IH Rp L. pose proof (before_call d t r p root m l K ltac:(unfold d; lia) B Rp) as S1.
  change (body_io o z checks 64 (S (S n)) p m) with
    (let* p1 := do_move o z checks p m in
     let* x := (let* x := io (S (S n)) false p1 in Some (fst x)) in
     let* p2 := undo_move o checks (snd x) m in Some (fst x, p2)).
  destruct (do_move o z checks p m) as [p1|] eqn:D; cbn [bind]; [|exists []; pquiet; exact S1].
  destruct (R_step p m p1 Rp L D) as [Rq U]. cbn [TextRun.pan] in S1.
  assert (S2 := S1). apply quiet in S2; [|intros s; discriminate]. clear S1. rename S2 into S1.
  pose proof (IH p1 (id_pos, []) ((id_m, VMove o m) :: vars t r p1 d root) (waiting l K) Rq eq_refl) as H.
  destruct (io (S (S n)) false p1) as [[[c q] out]|] eqn:E; cbn [bind fst snd].
  - pose proof (io_pos _ _ _ _ Rq E) as Q. cbn [fst snd] in Q. subst q. rewrite U. cbn [bind fst snd].
    destruct H as [u [ls [Pu [Ln H]]]]. exists u. split; [exact Pu|].
    assert (out = []) as ->.
    { rewrite io_body in E. destruct (legal_moves o p1) as [l1|]; [|discriminate E]. exact (io_loop_silent _ _ _ _ _ _ _ _ _ E). }
    inversion Ln; subst ls.
    refine (psteps_trans _ _ _ _ _ [] _ [] _ S1 _). refine (psteps_trans _ _ _ _ _ [] _ [] _ H _).
    pquiet. apply (after_call d t r p p1 root m l K u c Rq U).
  - destruct H as [ls H]. exists ls. exact (psteps_trans _ _ _ _ _ [] _ ls _ S1 H).
Qed.

(** The loop *)

Lemma usize_arith r c : arith checks Usize (Z.of_N r + Z.of_N c) = option_map Z.of_N (usize_add checks 64 r c).
Proof.
  unfold arith, usize_add, in_range, wrap, width.
  replace (0 <=? Z.of_N r + Z.of_N c)%Z with true by (symmetry; apply Z.leb_le; lia). cbn [andb].
  destruct (N.ltb_spec (r + c) (2 ^ 64)) as [H|H].
  - replace (Z.of_N r + Z.of_N c <? 2 ^ 64)%Z with true by (symmetry; apply Z.ltb_lt; lia).
    destruct checks; cbn [option_map]; f_equal; [lia|]. rewrite N.mod_small by exact H. lia.
  - replace (Z.of_N r + Z.of_N c <? 2 ^ 64)%Z with false by (symmetry; apply Z.ltb_ge; lia).
    destruct checks; cbn [option_map]; [reflexivity|]. f_equal. rewrite N2Z.inj_mod by discriminate. f_equal; lia.
Qed.

(* the value of ret is of type usize, or was only added up from literals *)
Definition typed (d : nat) (t : ity) (r : N) (left : nat) : Prop :=
  if (d <=? 1)%nat then t = Lit /\ (r + N.of_nat left <= 593)%N else t = Usize \/ t = Lit /\ r = 0%N.
Definition typed_count (d : nat) (u : ity) (c : N) : Prop :=
  if (d <=? 1)%nat then u = Lit /\ c = 1%N else u = Usize \/ u = Lit /\ c = 0%N.

Lemma small_add r c : (r + c <= 593)%N -> usize_add checks 64 r c = Some (r + c)%N.
Proof.
  intros H. assert (B : (r + c < 2 ^ 64)%N) by (apply N.le_lt_trans with 593%N; [exact H|reflexivity]).
  unfold usize_add. destruct checks; [apply N.ltb_lt in B; rewrite B; reflexivity|rewrite N.mod_small by exact B; reflexivity].
Qed.

Lemma turn_add d t r u c p root m l K : typed d t r (S (List.length l)) -> typed_count d u c ->
  match usize_add checks 64 r c with
  | None => psteps (at_count m t r p d root l K (VInt o u (Z.of_N c))) [] (Halt o (RPanic o))
  | Some s => exists t' ls, typed d t' s (List.length l) /\ turn_lines root ls (m, c) /\
      psteps (at_count m t r p d root l K (VInt o u (Z.of_N c))) ls
            (BrL o (map (VMove o) l) (PId id_m) loop_body (vars t' s p d root) K)
  end.
Proof.
  unfold typed, typed_count. intros T C.
  assert (T0 : t = Lit \/ t = Usize) by (destruct (d <=? 1)%nat; intuition).
  assert (U0 : u = Lit \/ u = Usize) by (destruct (d <=? 1)%nat; intuition).
  assert (J : exists v, join t u = Some v /\ (v = Usize \/ (v = Lit /\ t = Lit /\ u = Lit))).
  { destruct T0 as [-> | ->], U0 as [-> | ->]; eexists; split; try reflexivity; intuition. }
  destruct J as [v [J V]]. pose proof (turn_end m t r p d root l K u c v T0 U0 J) as H.
  destruct V as [-> |[-> [-> ->]]].
  - rewrite usize_arith in H. assert (Hd : (d <=? 1)%nat = false).
    { destruct (d <=? 1)%nat; [|reflexivity]. destruct T as [-> _], C as [-> _]. discriminate J. }
    rewrite Hd. destruct (usize_add checks 64 r c) as [s|]; cbn [option_map] in H; [|exact H].
    destruct H as [ls [Ln H]]. exists Usize, ls. split; [left; reflexivity|]. split; [exact Ln|exact H].
  - unfold arith in H. cbn [in_range width] in H. rewrite small_add.
    + destruct H as [ls [Ln H]]. exists Lit, ls. rewrite <- N2Z.inj_add in H. split; [|split; [exact Ln|exact H]].
      destruct (d <=? 1)%nat; [destruct T as [_ T], C as [_ ->]; split; [reflexivity|lia]|].
      right. split; [reflexivity|]. destruct T as [T|[_ ->]]; [discriminate T|]. destruct C as [C|[_ ->]]; [discriminate C|reflexivity].
    + destruct (d <=? 1)%nat; [destruct T as [_ T], C as [_ ->]; lia|].
      destruct T as [T|[_ ->]]; [discriminate T|]. destruct C as [C|[_ ->]]; [discriminate C|lia].
Qed.

Lemma the_loop d p root K : R p ->
  (forall m l t r, Lg p m ->
     match body_io o z checks 64 (pred d) p m with
     | None => exists ls, psteps (BrL o (VMove o m :: map (VMove o) l) (PId id_m) loop_body (vars t r p d root) K) ls (Halt o (RPanic o))
     | Some (c, _) => exists u, typed_count d u c /\
         psteps (BrL o (VMove o m :: map (VMove o) l) (PId id_m) loop_body (vars t r p d root) K) []
               (at_count m t r p d root l K (VInt o u (Z.of_N c)))
     end) ->
  forall l t r out, (forall m, In m l -> Lg p m) -> typed d t r (List.length l) ->
  match io_loop o checks 64 root (body_io o z checks 64 (pred d)) l p r out with
  | None => exists ls, psteps (BrL o (map (VMove o) l) (PId id_m) loop_body (vars t r p d root) K) ls (Halt o (RPanic o))
  | Some (n, q, out') => q = p /\ exists t' ls new, typed d t' n 0 /\ out' = (out ++ new)%list /\ Forall2 shows_line ls new /\
      psteps (BrL o (map (VMove o) l) (PId id_m) loop_body (vars t r p d root) K) ls
            (Ret (VUnit o) (vars t' n p d root) K)
  end.
Proof.
  intros Rp Bd. induction l as [|m l IH]; intros t r out Al T; cbn [io_loop map].
  - split; [reflexivity|]. exists t, [], []. split; [exact T|]. split; [symmetry; apply app_nil_r|]. split; [constructor|].
    pquiet. apply steps_one. apply steps_refl.
  - pose proof (Al m (or_introl eq_refl)) as Lm. pose proof (Bd m l t r Lm) as H.
    pose proof (turn_pos (pred d) p m) as Q.
    destruct (body_io o z checks 64 (pred d) p m) as [[c q]|]; cbn [bind]; [|exact H].
    pose proof (Q c q Rp Lm eq_refl) as ->. cbn [fst snd]. destruct H as [u [C H]].
    pose proof (turn_add d t r u c p root m l K T C) as A.
    destruct (usize_add checks 64 r c) as [s|]; cbn [bind]; [|eexists; exact (psteps_trans _ _ _ _ _ [] _ _ _ H A)].
    destruct A as [t' [l1 [T' [L1 A]]]].
    specialize (IH t' s (if root then out ++ [(m, c)] else out)%list (fun m I => Al m (or_intror I)) T').
    destruct (io_loop o checks 64 root (body_io o z checks 64 (pred d)) l p s (if root then out ++ [(m, c)] else out)%list) as [[[n q] out']|].
    + destruct IH as [-> [t2 [l2 [new [T2 [-> [L2 IH]]]]]]]. split; [reflexivity|].
      exists t2, (l1 ++ l2)%list, (if root then (m, c) :: new else new). split; [exact T2|].
      split; [destruct root; [rewrite <- app_assoc|]; reflexivity|].
      split; [unfold turn_lines in L1; destruct root; [destruct L1 as [x [-> X]]; constructor; assumption|subst l1; exact L2]|].
      refine (psteps_trans _ _ _ _ _ [] _ _ _ H _). exact (psteps_trans _ _ _ _ _ _ _ _ _ A IH).
    + destruct IH as [l2 IH]. exists (l1 ++ l2)%list.
      refine (psteps_trans _ _ _ _ _ [] _ _ _ H _). exact (psteps_trans _ _ _ _ _ _ _ _ _ A IH).
Qed.

Lemma turns d p root K : (Z.of_nat d < 2 ^ 64)%Z -> R p ->
  (forall n, d = S (S (S n)) -> returns (fun t n => typed (S (S 0)) t n 0) (S (S n)) false) ->
  forall m l t r, Lg p m ->
     match body_io o z checks 64 (pred d) p m with
     | None => exists ls, psteps (BrL o (VMove o m :: map (VMove o) l) (PId id_m) loop_body (vars t r p d root) K) ls (Halt o (RPanic o))
     | Some (c, _) => exists u, typed_count d u c /\
         psteps (BrL o (VMove o m :: map (VMove o) l) (PId id_m) loop_body (vars t r p d root) K) []
               (at_count m t r p d root l K (VInt o u (Z.of_N c)))
     end.
Proof.
  intros B Rp IH m l t r Lm.
  assert (Leaf : (d <= 1)%nat -> exists u, typed_count d u 1 /\
    psteps (BrL o (VMove o m :: map (VMove o) l) (PId id_m) loop_body (vars t r p d root) K) []
          (at_count m t r p d root l K (VInt o u (Z.of_N 1)))).
  { intros Hd. exists Lit. unfold typed_count. apply Nat.leb_le in Hd. rewrite Hd. split; [split; reflexivity|].
    pquiet. apply turn_leaf. apply Nat.leb_le. exact Hd. }
  destruct d as [|[|[|n]]].
  - apply Leaf. lia.
  - apply Leaf. lia.
  - pose proof (turn_two t r p root m l K Rp Lm) as H. cbn [pred].
    destruct (body_io o z checks 64 1 p m) as [[c q]|]; cbn [TextRun.pan fst] in H; [|exists []; pquiet; exact H].
    exists Usize. split; [left; reflexivity|pquiet; exact H].
  - exact (turn_more _ n t r p root m l K B (IH n eq_refl) Rp Lm).
Qed.

Lemma perft_call d root : (Z.of_nat d < 2 ^ 64)%Z ->
  (forall n, d = S (S (S n)) -> returns (fun t n => typed (S (S 0)) t n 0) (S (S n)) false) ->
  returns (fun t n => typed d t n 0) d root.
Proof.
  intros B IH p q e k Rp F. rewrite io_body.
  assert (S1 : steps (Call id_ id_perft [VRef o q; VInt o Usize (Z.of_nat d); VBool o root] e k)
    (pan (legal_moves o p) (fun l => BrL o (map (VMove o) l) (PId id_m) loop_body (vars Lit 0 p d root)
       (KSeq o [STail (EPath [id_ret])] :: KScope o 4 :: KCall o 4 [(id_pos, q)] e :: k)))).
  { enter_ref F. go. call (sp_legal_moves o z checks p).
    destruct (legal_moves o p) as [l|] eqn:E; [|apply steps_refl]. cbn [TextRun.pan]. go. apply steps_refl. }
  destruct (legal_moves o p) as [l|] eqn:E; cbn [bind TextRun.pan] in S1 |- *; [|exists []; pquiet; exact S1].
  assert (T0 : typed d Lit 0 (List.length l)).
  { unfold typed. pose proof (R_fit p l Rp E). destruct (d <=? 1)%nat; [split; [reflexivity|lia]|right; split; reflexivity]. }
  apply quiet in S1; [|intros s; discriminate].
  match type of S1 with TextPrint.psteps _ _ _ _ _ _ (BrL _ _ _ _ _ ?K) =>
    pose proof (the_loop d p root K Rp (turns d p root K B Rp IH) l Lit 0%N [] (fun m => R_legal p l m Rp E) T0) as H end.
  destruct (io_loop o checks 64 root (body_io o z checks 64 (pred d)) l p 0%N []) as [[[n q'] out]|];
    [|destruct H as [ls H]; exists ls; exact (psteps_trans _ _ _ _ _ [] _ _ _ S1 H)].
  destruct H as [-> [t [ls [new [T [-> [Ln H]]]]]]]. exists t, ls. split; [exact T|]. split; [exact Ln|].
  refine (psteps_trans _ _ _ _ _ [] _ _ _ S1 _). rewrite <- (app_nil_r ls). refine (psteps_trans _ _ _ _ _ _ _ _ _ H _). clear S1 H. pquiet. unfold vars.
  go. apply steps_refl.
Qed.

Theorem sp_perft d : (Z.of_nat d < 2 ^ 64)%Z -> forall root, returns (fun t n => typed d t n 0) d root.
Proof.
  induction d as [d IH] using (well_founded_induction Nat.lt_wf_0). intros B root. apply perft_call; [exact B|].
  intros n ->. exact (IH (S (S n)) ltac:(lia) ltac:(lia) false).
Qed.
End Perft.
