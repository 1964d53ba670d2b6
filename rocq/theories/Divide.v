(** * examples/perft.rs as a program: printing and machine arithmetic *)

From Coq Require Import List Bool NArith ZArith Lia.
From Verif Require Import Types Bitboard Tables Zobrist Position Movegen Perft.
Import ListNotations.

Section Divide.
(* [w]: the width of usize (64, or 32 on wasm32) *)
Context (o : bbops) (z : ztable) (checks : bool) (w : N).

(* "+" of usize: panics or wraps *)
Definition usize_add (a b : N) : option N :=
  if checks then (if (a + b <? 2 ^ w)%N then Some (a + b)%N else None)
  else Some ((a + b) mod 2 ^ w)%N.

(* the loop of perft, perft.rs 28-45; [out] are the lines printed (42), first
   one first *)
Fixpoint io_loop (is_root : bool) (count : position o -> move -> option (N * position o))
  (ms : list move) (pos : position o) (ret : N) (out : list (move * N))
  : option (N * position o * list (move * N)) :=
  match ms with
  | [] => Some (ret, pos, out)
  | m :: ms =>
      let* r := count pos m in
      let* ret := usize_add ret (fst r) in
      io_loop is_root count ms (snd r) ret (if is_root then out ++ [(m, fst r)] else out)
  end.

(* perft, perft.rs 26-47.  The calls inside are made with is_root = false
   (36) and print nothing. *)
Fixpoint perft_io (depth : nat) (is_root : bool) (pos : position o)
  : option (N * position o * list (move * N)) :=
  let* ms := legal_moves o pos in
  io_loop is_root
    (fun pos m =>
       match depth with
       | O | 1%nat => Some (1%N, pos)
       | S depth' =>
           let* pos' := do_move o z checks pos m in
           let* r :=
             match depth' with
             | 1%nat => let* l := legal_moves o pos' in
                        Some (N.of_nat (length l), pos')
             | _ => let* r := perft_io depth' false pos' in Some (fst r)
             end in
           let* pos'' := undo_move o checks (snd r) m in
           Some (fst r, pos'')
       end)
    ms pos 0%N [].

(* What the program writes before it stops: "usage: perft <depth>" and the
   exit code 1 (21-22); or one line per move (42) and the two numbers of the
   last line (16-19). *)
Inductive outcome :=
| Usage
| Report (printed : list (move * N)) (total nps : N).

(* main, perft.rs 6-24.  [arg] is the first argument if there is one and it
   parses as a usize (8); [nanos] is duration.as_nanos() (18), u128: the
   product total * 10^9 < 2^64 * 10^9 fits, and the division panics at 0.
   The duration printed (15) is left out. *)
Definition main (arg : option nat) (nanos : N) : option outcome :=
  match arg with
  | Some depth =>
      let* pos := pos_new o z partial_startpos in
      let* ms := legal_moves o pos in
      if Nat.eqb 30 (length ms) then
        let* r := perft_io depth true pos in
        if (nanos =? 0)%N then None
        else Some (Report (snd r) (fst (fst r)) (fst (fst r) * 1000000000 / nanos))
      else None
  | None => Some Usage
  end.

(* what is left of a count in a usize *)
Definition mach (n : N) : option N :=
  if checks then (if (n <? 2 ^ w)%N then Some n else None) else Some (n mod 2 ^ w)%N.

Lemma mach_add a a' c : mach a = Some a' ->
  mach (a + c) = let* c' := mach c in usize_add a' c'.
Proof.
  unfold mach, usize_add. destruct checks; cbn [bind].
  - destruct (N.ltb_spec a (2 ^ w)) as [La|La]; [|discriminate]. intros [= <-].
    destruct (N.ltb_spec c (2 ^ w)) as [Lc|Lc]; [reflexivity|]. cbn [bind].
    destruct (N.ltb_spec (a + c) (2 ^ w)); [lia|reflexivity].
  - intros [= <-]. rewrite <- N.add_mod by (apply N.pow_nonzero; discriminate). reflexivity.
Qed.

Lemma mach_mono a b : (a <= b)%N -> mach a = None -> mach b = None.
Proof.
  unfold mach. destruct checks; [|discriminate]. intros L.
  destruct (N.ltb_spec a (2 ^ w)); [discriminate|]. destruct (N.ltb_spec b (2 ^ w)); [lia|reflexivity].
Qed.

Lemma perft_loop_le count ms : forall pos ret n q,
  perft_loop o count ms pos ret = Some (n, q) -> (ret <= n)%N.
Proof.
  induction ms as [|m ms IH]; intros pos ret n q E; cbn [perft_loop] in E.
  - injection E as <- _. lia.
  - destruct (count pos m) as [[c p1]|]; [|discriminate]. cbn [bind fst snd] in E.
    apply IH in E. lia.
Qed.

Lemma io_loop_perft is_root count count' ms :
  (forall pos m, count' pos m = let* r := count pos m in let* c := mach (fst r) in Some (c, snd r)) ->
  forall pos ret ret' out, mach ret = Some ret' ->
  match perft_loop o count ms pos ret with
  | Some (n, q) =>
      match mach n with
      | Some n' => exists out', io_loop is_root count' ms pos ret' out = Some (n', q, out')
      | None => io_loop is_root count' ms pos ret' out = None
      end
  | None => io_loop is_root count' ms pos ret' out = None
  end.
Proof.
  intros C. induction ms as [|m ms IH]; intros pos ret ret' out M; cbn [perft_loop io_loop].
  - rewrite M. exists out. reflexivity.
  - rewrite C. destruct (count pos m) as [[c p1]|]; [|reflexivity]. cbn [bind fst snd].
    pose proof (mach_add ret ret' c M) as A.
    destruct (mach c) as [c'|] eqn:Mc; cbn [bind fst snd] in A |- *.
    + destruct (mach (ret + c)) as [s|] eqn:Ms; rewrite <- A; cbn [bind].
      * apply IH. exact Ms.
      * destruct (perft_loop o count ms p1 (ret + c)) as [[n q]|] eqn:E; [|reflexivity].
        rewrite (mach_mono (ret + c) n); [reflexivity| |exact Ms].
        apply (perft_loop_le _ _ _ _ _ _ E).
    + destruct (perft_loop o count ms p1 (ret + c)) as [[n q]|] eqn:E; [|reflexivity].
      rewrite (mach_mono (ret + c) n); [reflexivity| |exact A].
      apply (perft_loop_le _ _ _ _ _ _ E).
Qed.

Lemma io_loop_silent count ms : forall pos ret out r,
  io_loop false count ms pos ret out = Some r -> snd r = out.
Proof.
  induction ms as [|m ms IH]; intros pos ret out r E; cbn [io_loop] in E.
  - injection E as <-. reflexivity.
  - destruct (count pos m) as [[c p1]|]; [|discriminate]. cbn [bind fst snd] in E.
    destruct (usize_add ret c) as [s|]; [|discriminate]. cbn [bind] in E. apply IH in E. exact E.
Qed.

Lemma io_loop_printed count pos ms :
  (forall m c q, In m ms -> count pos m = Some (c, q) -> q = pos) ->
  forall ret out n q out', io_loop true count ms pos ret out = Some (n, q, out') ->
  exists l, out' = out ++ l /\ map fst l = ms /\
    (forall m c, In (m, c) l -> count pos m = Some (c, pos)) /\
    (n mod 2 ^ w = (ret + fold_right N.add 0 (map snd l)) mod 2 ^ w)%N.
Proof.
  intros C. induction ms as [|m ms IH]; intros ret out n q out' E; cbn [io_loop] in E.
  - injection E as <- <- <-. exists []. rewrite app_nil_r. split; [reflexivity|].
    split; [reflexivity|]. split; [intros m c []|]. cbn [map fold_right]. rewrite N.add_0_r. reflexivity.
  - destruct (count pos m) as [[c p1]|] eqn:Em; [|discriminate]. cbn [bind fst snd] in E.
    pose proof (C m c p1 (or_introl eq_refl) Em) as ->.
    destruct (usize_add ret c) as [s|] eqn:Es; [|discriminate]. cbn [bind] in E.
    destruct (IH (fun m c q I => C m c q (or_intror I)) _ _ _ _ _ E) as [l [-> [F [H Sm]]]].
    exists ((m, c) :: l). rewrite <- app_assoc. split; [reflexivity|].
    split; [cbn [map fst]; rewrite F; reflexivity|].
    split; [intros m' c' [[= <- <-]|I]; [exact Em|apply H; exact I]|].
    cbn [map snd fold_right]. rewrite Sm, N.add_assoc.
    assert (Z : (2 ^ w <> 0)%N) by (apply N.pow_nonzero; discriminate).
    rewrite (N.add_mod s), (N.add_mod (ret + c)) by exact Z. do 2 f_equal.
    unfold usize_add in Es. destruct checks.
    + destruct (N.ltb_spec (ret + c) (2 ^ w)); [|discriminate]. injection Es as <-. reflexivity.
    + injection Es as <-. apply N.mod_mod. exact Z.
Qed.

(* the body of the loop of [perft] at depth [S d] *)
Definition body (d : nat) (pos : position o) (m : move) : option (N * position o) :=
  match d with
  | O => Some (1%N, pos)
  | S d' =>
      let* pos' := do_move o z checks pos m in
      let* r := match d' with
                | O => let* l := legal_moves o pos' in Some (N.of_nat (length l), pos')
                | _ => perft o z checks d pos'
                end in
      let* pos'' := undo_move o checks (snd r) m in
      Some (fst r, pos'')
  end.
Lemma perft_body d pos : perft o z checks (S d) pos =
  let* ms := legal_moves o pos in perft_loop o (body d) ms pos 0.
Proof. destruct d as [|[|d]]; reflexivity. Qed.

Definition body_io (d : nat) (pos : position o) (m : move) : option (N * position o) :=
  match d with
  | O => Some (1%N, pos)
  | S d' =>
      let* pos' := do_move o z checks pos m in
      let* r := match d' with
                | O => let* l := legal_moves o pos' in Some (N.of_nat (length l), pos')
                | _ => let* r := perft_io d false pos' in Some (fst r)
                end in
      let* pos'' := undo_move o checks (snd r) m in
      Some (fst r, pos'')
  end.
Lemma perft_io_body d root pos : perft_io (S d) root pos =
  let* ms := legal_moves o pos in io_loop root (body_io d) ms pos 0%N [].
Proof. destruct d as [|[|d]]; reflexivity. Qed.

(* 593 moves fit into a usize *)
Context (W : (10 <= w)%N) (Fit : forall pos l, legal_moves o pos = Some l -> (length l <= 593)%nat).

Lemma mach_small n : (n <= 593)%N -> mach n = Some n.
Proof.
  intros L. assert (B : (n < 2 ^ w)%N).
  { apply N.le_lt_trans with 593%N; [exact L|]. apply N.lt_le_trans with (2 ^ 10)%N; [reflexivity|].
    apply N.pow_le_mono_r; [discriminate|exact W]. }
  unfold mach. destruct checks.
  - destruct (N.ltb_spec n (2 ^ w)); [reflexivity|lia].
  - rewrite N.mod_small by exact B. reflexivity.
Qed.

Lemma body_io_spec d pos m :
  (forall root pos, match perft o z checks (S d) pos with
   | Some (n, q) => match mach n with
                    | Some n' => exists out, perft_io (S d) root pos = Some (n', q, out)
                    | None => perft_io (S d) root pos = None
                    end
   | None => perft_io (S d) root pos = None
   end) ->
  body_io (S d) pos m = let* r := body (S d) pos m in let* c := mach (fst r) in Some (c, snd r).
Proof.
  intros H. unfold body_io, body. destruct (do_move o z checks pos m) as [p1|]; [|reflexivity].
  cbn [bind]. destruct d as [|d].
  - destruct (legal_moves o p1) as [l|] eqn:E; [|reflexivity]. cbn [bind fst snd].
    destruct (undo_move o checks p1 m) as [p2|]; [|reflexivity]. cbn [bind fst snd].
    rewrite mach_small; [reflexivity|]. apply Fit in E. lia.
  - specialize (H false p1). destruct (perft o z checks (S (S d)) p1) as [[n q]|].
    + destruct (mach n) as [n'|] eqn:M.
      * destruct H as [out ->]. cbn [bind fst snd].
        destruct (undo_move o checks q m) as [p2|]; [|reflexivity]. cbn [bind fst snd].
        rewrite M. reflexivity.
      * rewrite H. cbn [bind fst snd].
        destruct (undo_move o checks q m) as [p2|]; [|reflexivity]. cbn [bind fst snd].
        rewrite M. reflexivity.
    + rewrite H. reflexivity.
Qed.

(* the program computes the count of [perft], as far as a usize can hold it *)
Theorem perft_io_spec d : forall root pos,
  match perft o z checks (S d) pos with
  | Some (n, q) => match mach n with
                   | Some n' => exists out, perft_io (S d) root pos = Some (n', q, out)
                   | None => perft_io (S d) root pos = None
                   end
  | None => perft_io (S d) root pos = None
  end.
Proof.
  induction d as [|d IH]; intros root pos; rewrite perft_body, perft_io_body;
    (destruct (legal_moves o pos) as [ms|]; [|reflexivity]); cbn [bind].
  - apply io_loop_perft; [|apply mach_small; discriminate].
    intros p m. cbn [body body_io bind fst snd]. rewrite mach_small by discriminate. reflexivity.
  - apply io_loop_perft; [|apply mach_small; discriminate].
    intros p m. apply body_io_spec. exact IH.
Qed.
End Divide.
