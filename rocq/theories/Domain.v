(** * Bitboard operations outside their domain

    [stray cf j] is the backend of [cf] with every operation that has a
    precondition replaced, outside of that precondition, by an arbitrary
    function.  The calls of the API cannot tell the two apart. *)

From Coq Require Import List Bool NArith ZArith Lia.
From Verif Require Import Types Rules Bitboard BackendCore BackendSimd Tables Zobrist Position Movegen
  Api Words Squares Geometry BBSpec SpecLanes SpecSimd SpecCore Backends Rep Legality PawnDrop Moves Hash ValidPlay Undo Reach Agree Bisim Twins Facts.
Import ListNotations.

(* the bitboard has no bits outside the board *)
Definition on_boardb (b : backend) (ck : bool) : bb (ops_of b ck) -> bool :=
  match b with
  | Portable => fun a : N => N.eqb (N.land a core_mask) a
  | X86_64 | Aarch64 | Wasm32 => fun a : N * N => (fst a <? 2 ^ 63)%N && (snd a <? 2 ^ 18)%N
  end.
Lemma on_boardb_spec b ck a : on_boardb b ck a = true <-> on_board b ck a.
Proof.
  destruct b; cbn [on_boardb on_board]; [apply N.eqb_eq|..]; rewrite andb_true_iff, !N.ltb_lt; reflexivity.
Qed.

(* no member on a given rank; none on rank 9 of a file with another *)
Definition off_rank (o : bbops) (r : i9) (a : bb o) : bool :=
  forallb (fun s => negb (bcontains o a s && i9_eqb (sqr s) r)) all_squares.
Definition single_files (o : bbops) (a : bb o) : bool :=
  forallb (fun s => forallb (fun t =>
    negb (bcontains o a s && bcontains o a t && i9_eqb (sqf s) (sqf t) && i9_eqb (sqr s) n9 && negb (sq_eqb s t)))
    all_squares) all_squares.

Lemma off_rank_ok o r a : (forall s, bcontains o a s = true -> sqr s <> r) -> off_rank o r a = true.
Proof.
  intros H. apply forallb_forall. intros s _. destruct (bcontains o a s) eqn:E; [|reflexivity].
  cbn [andb negb]. destruct (i9_eqb_spec (sqr s) r); [|reflexivity]. exfalso. exact (H s E e).
Qed.
Lemma single_files_ok o a :
  (forall s t, bcontains o a s = true -> bcontains o a t = true -> sqf s = sqf t -> sqr s = n9 -> s = t) ->
  single_files o a = true.
Proof.
  intros H. apply forallb_forall. intros s _. apply forallb_forall. intros t _.
  destruct (bcontains o a s) eqn:Es; [|reflexivity]. destruct (bcontains o a t) eqn:Et; [|reflexivity].
  destruct (i9_eqb_spec (sqf s) (sqf t)) as [F|F]; [|reflexivity].
  destruct (i9_eqb_spec (sqr s) n9) as [F9|F9]; [|reflexivity]. rewrite (H s t Es Et F F9), sq_eqb_refl.
  reflexivity.
Qed.

(* what the operations do outside their domain *)
Record junk (B : Type) := mkJ {
  j_is_empty : B -> bool; j_count : B -> N; j_iter : B -> list square;
  j_shl : B -> B; j_shr : B -> B;
  j_slide_pos_c : B -> B -> B; j_slide_neg_c : B -> B -> B;
  j_slide_pos2 : B -> B * B -> B; j_slide_neg2 : B -> B * B -> B;
  j_vacant : B -> option B }.
Arguments j_is_empty {B}. Arguments j_count {B}. Arguments j_iter {B}. Arguments j_shl {B}.
Arguments j_shr {B}. Arguments j_slide_pos_c {B}. Arguments j_slide_neg_c {B}.
Arguments j_slide_pos2 {B}. Arguments j_slide_neg2 {B}. Arguments j_vacant {B}.

Definition stray (cf : config) (j : junk (bb (ops cf))) : bbops :=
  let o := ops cf in
  let ok := on_boardb (cf_backend cf) (cf_checks cf) in
  {| bb := bb o; bempty := bempty o; bsingle := bsingle o; band := band o; bor := bor o;
     bxor := bxor o; bnot := bnot o; bcontains := bcontains o;
     bis_empty := fun a => if ok a then bis_empty o a else j_is_empty j a;
     bcount := fun a => if ok a then bcount o a else j_count j a;
     biter := fun a => if ok a then biter o a else j_iter j a;
     bshl := fun a => if ok a && off_rank o n9 a then bshl o a else j_shl j a;
     bshr := fun a => if ok a && off_rank o n1 a then bshr o a else j_shr j a;
     bslide_pos_c := fun occ m => if ok occ && ok m then bslide_pos_c o occ m else j_slide_pos_c j occ m;
     bslide_neg_c := fun occ m => if ok occ && ok m then bslide_neg_c o occ m else j_slide_neg_c j occ m;
     bslide_pos2 := fun occ ms => if ok occ && ok (fst ms) && ok (snd ms) then bslide_pos2 o occ ms
                                  else j_slide_pos2 j occ ms;
     bslide_neg2 := fun occ ms => if ok occ && ok (fst ms) && ok (snd ms) then bslide_neg2 o occ ms
                                  else j_slide_neg2 j occ ms;
     bvacant := fun a => if ok a && single_files o a then bvacant o a else j_vacant j a |}.

Lemma ok_wf cf a : wf (backend_spec (cf_backend cf) (cf_checks cf)) a ->
  on_boardb (cf_backend cf) (cf_checks cf) a = true.
Proof. intros W. apply on_boardb_spec, on_board_wf, W. Qed.

Definition stray_spec cf j : bbspec (stray cf j).
Proof.
  set (S := backend_spec (cf_backend cf) (cf_checks cf)).
  refine (mkSpec (stray cf j) (wf S) (sp_ext _ S) (sp_wf_empty _ S) (sp_empty _ S) (sp_wf_single _ S)
    (sp_single _ S) (sp_wf_and_l _ S) (sp_wf_and_r _ S) (sp_and _ S) (sp_wf_or _ S) (sp_or _ S) (sp_wf_xor _ S) (sp_xor _ S)
    (sp_wf_not _ S) (sp_not _ S) _ _ _ _ _ _ _ _ _ _ _ _ _ _);
  cbn [stray bb bcontains bis_empty bcount biter bshl bshr bslide_pos_c bslide_neg_c bslide_pos2
       bslide_neg2 bvacant].
  - intros a W. rewrite (ok_wf cf a W). apply (sp_is_empty _ S a W).
  - intros a W. rewrite (ok_wf cf a W). apply (sp_count _ S a W).
  - intros a W. rewrite (ok_wf cf a W). apply (sp_iter _ S a W).
  - intros a W H. rewrite (ok_wf cf a W), (off_rank_ok _ _ a H). apply (sp_shl _ S a W H).
  - intros a W H. rewrite (ok_wf cf a W), (off_rank_ok _ _ a H). apply (sp_shr _ S a W H).
  - intros a m W W'. rewrite (ok_wf cf a W), (ok_wf cf m W'). apply (sp_wf_pos_c _ S a m W W').
  - intros a m t W W'. rewrite (ok_wf cf a W), (ok_wf cf m W'). apply (sp_pos_c _ S a m t W W').
  - intros a m W W'. rewrite (ok_wf cf a W), (ok_wf cf m W'). apply (sp_wf_neg_c _ S a m W W').
  - intros a m t W W'. rewrite (ok_wf cf a W), (ok_wf cf m W'). apply (sp_neg_c _ S a m t W W').
  - intros a m W W1 W2. rewrite (ok_wf cf a W), (ok_wf cf _ W1), (ok_wf cf _ W2).
    apply (sp_wf_pos2 _ S a m W W1 W2).
  - intros a m t W W1 W2. rewrite (ok_wf cf a W), (ok_wf cf _ W1), (ok_wf cf _ W2).
    apply (sp_pos2 _ S a m t W W1 W2).
  - intros a m W W1 W2. rewrite (ok_wf cf a W), (ok_wf cf _ W1), (ok_wf cf _ W2).
    apply (sp_wf_neg2 _ S a m W W1 W2).
  - intros a m t W W1 W2. rewrite (ok_wf cf a W), (ok_wf cf _ W1), (ok_wf cf _ W2).
    apply (sp_neg2 _ S a m t W W1 W2).
  - intros a W H. rewrite (ok_wf cf a W), (single_files_ok _ a H). apply (sp_vacant _ S a W H).
Defined.

(** ** Programs over any backend *)

Section Program.
Context (o : bbops) (z : ztable) (ck : bool).
Definition step_ops (p : position o) (c : call) : option (position o) :=
  match c with DoMove m => do_move o z ck p m | UndoMove m => undo_move o ck p m end.
Fixpoint run_ops (p : position o) (cs : list call) : option (position o) :=
  match cs with
  | [] => Some p
  | c :: cs => let* q := step_ops p c in run_ops q cs
  end.
End Program.

Lemma run_ops_run cf cs : forall p, run_ops (ops cf) (zt cf) (cf_checks cf) p cs = run cf p cs.
Proof.
  induction cs as [|c cs IH]; intros p; [reflexivity|]. cbn [run_ops run].
  assert (E : step_ops (ops cf) (zt cf) (cf_checks cf) p c = step cf p c) by (destruct c; reflexivity).
  rewrite E. destruct (step cf p c) as [q|]; cbn [bind]; [apply IH|reflexivity].
Qed.

Record same_shown (o1 o2 : bbops) (p : position o1) (q : position o2) : Prop := {
  sh_piece : forall s, piece_at o1 p s = piece_at o2 q s;
  sh_hand : forall c, hand_of o1 p c = hand_of o2 q c;
  sh_side : side_to_move o1 p = side_to_move o2 q;
  sh_ply : ply o1 p = ply o2 q;
  sh_keys : pos_keys o1 p = pos_keys o2 q;
  sh_key : pos_key o1 p = pos_key o2 q;
  sh_in_check : pos_in_check o1 p = pos_in_check o2 q;
  sh_is_check_move : forall m, is_check_move o1 p m = is_check_move o2 q m }.

Section Two.
Context (o1 o2 : bbops) (S1 : bbspec o1) (S2 : bbspec o2) (z : ztable) (ck : bool).

Lemma sim_run cs : forall p q, simP o1 o2 S1 S2 p q ->
  both (simP o1 o2 S1 S2) (run_ops o1 z ck p cs) (run_ops o2 z ck q cs).
Proof.
  induction cs as [|c cs IH]; intros p q T; cbn [run_ops]; [exact T|].
  apply (both_bind (simP o1 o2 S1 S2)); [|intros; apply IH; assumption].
  destruct c; cbn [step_ops]; [apply sim_do_move|apply sim_undo_move]; exact T.
Qed.

Lemma sim_shown p q : simP o1 o2 S1 S2 p q -> same_shown o1 o2 p q.
Proof.
  intros T. pose proof (sp_inner _ _ _ _ _ _ T) as J. constructor.
  - apply (si_board _ _ _ _ _ _ J).
  - apply (si_hand _ _ _ _ _ _ J).
  - apply (si_side _ _ _ _ _ _ J).
  - apply (sp_ply _ _ _ _ _ _ T).
  - apply (sim_keys _ _ _ _ _ _ T).
  - apply (sim_key _ _ _ _ _ _ T).
  - apply (sim_in_check _ _ _ _ _ _ T).
  - intros m. apply (sim_is_check_move _ _ _ _ _ _ T).
Qed.

Lemma sim_program pp cs :
  both (simP o1 o2 S1 S2) (let* p := pos_new o1 z pp in run_ops o1 z ck p cs)
                          (let* q := pos_new o2 z pp in run_ops o2 z ck q cs).
Proof.
  apply (both_bind (simP o1 o2 S1 S2)); [apply sim_new|]. intros p q T. apply sim_run. exact T.
Qed.
End Two.

Section Stray.
Context (cf : config) (j : junk (bb (ops cf))).
Notation o' := (stray cf j).
Notation rel := (simP (ops cf) o' (backend_spec (cf_backend cf) (cf_checks cf)) (stray_spec cf j)).

Lemma stray_program pp cs :
  both rel (let* p := Yasai.new cf pp in run cf p cs)
           (let* q := pos_new o' (zt cf) pp in run_ops o' (zt cf) (cf_checks cf) q cs).
Proof.
  pose proof (sim_program (ops cf) o' (backend_spec (cf_backend cf) (cf_checks cf)) (stray_spec cf j)
    (zt cf) (cf_checks cf) pp cs) as H.
  change (Yasai.new cf pp) with (pos_new (ops cf) (zt cf) pp).
  destruct (pos_new (ops cf) (zt cf) pp) as [p|]; cbn [bind] in *; [|exact H].
  rewrite <- run_ops_run. exact H.
Qed.

Lemma stray_shown p q : rel p q -> same_shown (ops cf) o' p q.
Proof. apply sim_shown. Qed.

Lemma stray_legal_moves ms p q : reachable cf ms p -> rel p q ->
  Yasai.legal_moves cf p = legal_moves o' q.
Proof.
  intros R T. destruct (reachable_inv cf ms p R) as [st [I _]].
  apply (sim_legal_moves _ _ _ _ _ _ T).
  - exact (inv_rep _ _ _ _ I).
  - exact (inv_valid _ _ _ _ I).
Qed.
End Stray.
