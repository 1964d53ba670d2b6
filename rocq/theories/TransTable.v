(** * A search with a transposition table

    The usual use of key(): a table from keys and depths to results, asked before
    a position is searched.  Not part of the crate; the counting search of
    position.rs 563-574 with such a table. *)

From Coq Require Import List Bool NArith ZArith Lia.
From Verif Require Import Types Rules Bitboard Tables Zobrist Position Movegen Perft Api
  Moves ValidPlay Reach Lines Loops PerftSpec Client PerftPanic.
Import ListNotations.
Local Open Scope nat_scope.

Definition ttable : Type := list ((N * nat) * N).
Definition tt_hit (k : N) (d : nat) (e : (N * nat) * N) : bool :=
  (fst (fst e) =? k)%N && Nat.eqb (snd (fst e)) d.
Definition tt_get (t : ttable) (k : N) (d : nat) : option N := option_map snd (find (tt_hit k d) t).

Lemma tt_get_in t k d n : tt_get t k d = Some n -> In ((k, d), n) t.
Proof.
  unfold tt_get. destruct (find (tt_hit k d) t) as [[[k' d'] n']|] eqn:E; [|discriminate].
  intros [= <-]. apply find_some in E as [I H]. unfold tt_hit in H. cbn [fst snd] in *.
  apply andb_true_iff in H as [H1 H2]. apply N.eqb_eq in H1. apply Nat.eqb_eq in H2. subst. exact I.
Qed.

Section Table.
Context (cf : config).
Notation pos := (Yasai.Position cf).

Fixpoint tt_loop (visit : pos -> ttable -> option (N * pos * ttable)) (ms : list move)
  (p : pos) (t : ttable) (acc : N) : option (N * pos * ttable) :=
  match ms with
  | [] => Some (acc, p, t)
  | m :: ms =>
      let* q := Yasai.do_move cf p m in
      let* r := visit q t in
      let* p' := Yasai.undo_move cf (snd (fst r)) m in
      tt_loop visit ms p' (snd r) (acc + fst (fst r))%N
  end.

Fixpoint tt_perft (d : nat) (p : pos) (t : ttable) : option (N * pos * ttable) :=
  match d with
  | O => Some (1%N, p, t)
  | S d' =>
      let* k := Yasai.key cf p in
      match tt_get t k d with
      | Some n => Some (n, p, t)
      | None =>
          let* ms := Yasai.legal_moves cf p in
          let* r := tt_loop (tt_perft d') ms p t 0 in
          Some (fst r, ((k, d), fst (fst r)) :: snd r)
      end
  end.

(* searches of one position one after the other, with one table *)
Fixpoint tt_searches (ds : list nat) (p : pos) (t : ttable) : option (list N * pos * ttable) :=
  match ds with
  | [] => Some ([], p, t)
  | d :: ds =>
      let* r := tt_perft d p t in
      let* s := tt_searches ds (snd (fst r)) (snd r) in
      Some (fst (fst r) :: fst (fst s), snd (fst s), snd s)
  end.

(** ** The position is restored, and a search without panic has none *)

Lemma tt_restores d : forall ms p t n q t', reachable cf ms p ->
  tt_perft d p t = Some (n, q, t') -> q = p.
Proof.
  induction d as [|d IH]; intros ms p t n q t' R E; cbn [tt_perft] in E; [congruence|].
  destruct (Yasai.key cf p) as [k|]; [|discriminate]. cbn [bind] in E.
  destruct (tt_get t k (S d)); [congruence|].
  destruct (Yasai.legal_moves cf p) as [l|] eqn:El; [|discriminate]. cbn [bind] in E.
  destruct (api_legal_moves cf ms p l R El) as [_ H].
  assert (X : forall l acc t, (forall m, In m l -> legal (view cf p) m) ->
    forall r, tt_loop (tt_perft d) l p t acc = Some r -> snd (fst r) = p).
  { clear - IH R. induction l as [|m l IHl]; intros acc t H r E; cbn [tt_loop] in E.
    - injection E as <-. reflexivity.
    - destruct (Yasai.do_move cf p m) as [q|] eqn:D; [|discriminate]. cbn [bind] in E.
      pose proof (H m (or_introl eq_refl)) as L.
      destruct (tt_perft d q t) as [[[n1 q1] t1]|] eqn:V; [|discriminate]. cbn [bind fst snd] in E.
      rewrite (IH (m :: ms) q t n1 q1 t1 (R_do cf ms p m q R L D) V) in E.
      rewrite (api_undo cf ms p m q R L D) in E. cbn [bind] in E.
      apply (IHl _ _ (fun m I => H m (or_intror I)) _ E). }
  destruct (tt_loop (tt_perft d) l p t 0) as [[[n1 q1] t1]|] eqn:E1; [|discriminate].
  cbn [bind fst snd] in E. injection E as <- <- <-.
  exact (X l 0%N t (fun m I => proj1 (H m) I) _ E1).
Qed.

Lemma tt_total d : forall ms p t, reachable cf ms p -> Yasai.test_perft cf d p <> None ->
  tt_perft d p t <> None.
Proof.
  induction d as [|d IH]; intros ms p t R NT; cbn [tt_perft]; [discriminate|].
  rewrite (test_perft_panics cf (S d) ms p R) in NT.
  assert (K : exists k, Yasai.key cf p = Some k).
  { unfold Yasai.key, pos_key. destruct (reachable_inv cf ms p R) as [st [I _]].
    rewrite (inv_st _ _ _ _ I). cbn [bind]. eauto. }
  destruct K as [k ->]. cbn [bind]. destruct (tt_get t k (S d)); [discriminate|].
  destruct (Yasai.legal_moves cf p) as [l|] eqn:El.
  2: { exfalso. apply NT, trouble_step. left. apply (api_overfull cf ms p R). exact El. }
  cbn [bind]. destruct (api_legal_moves cf ms p l R El) as [_ H].
  assert (X : forall l acc t, (forall m, In m l -> legal (view cf p) m) ->
    tt_loop (tt_perft d) l p t acc <> None).
  { clear - IH R NT. induction l as [|m l IHl]; intros acc t H; cbn [tt_loop]; [discriminate|].
    pose proof (H m (or_introl eq_refl)) as L.
    destruct (Yasai.do_move cf p m) as [q|] eqn:D.
    2: { exfalso. apply NT, trouble_step. right. exists m. split; [exact L|]. left.
         apply (api_blocked cf ms p m R L). exact D. }
    cbn [bind]. pose proof (R_do cf ms p m q R L D) as Rq.
    assert (T : tt_perft d q t <> None).
    { apply (IH (m :: ms) q t Rq). rewrite (test_perft_panics cf d (m :: ms) q Rq). intros T.
      apply NT, trouble_step. right. exists m. split; [exact L|]. right.
      apply (trouble_do cf ms p m q d d R L D). exact T. }
    destruct (tt_perft d q t) as [[[n1 q1] t1]|] eqn:V; [|congruence]. cbn [bind fst snd].
    rewrite (tt_restores d (m :: ms) q t n1 q1 t1 Rq V), (api_undo cf ms p m q R L D). cbn [bind].
    apply IHl. intros m' I. apply H. right. exact I. }
  pose proof (X l 0%N t (fun m I => proj1 (H m) I)) as Y.
  destruct (tt_loop (tt_perft d) l p t 0) as [r|]; [discriminate|congruence].
Qed.

Lemma tt_stores d p t n q t' k : tt_perft (S d) p t = Some (n, q, t') ->
  Yasai.key cf p = Some k -> tt_get t' k (S d) = Some n.
Proof.
  cbn [tt_perft]. intros E K. rewrite K in E. cbn [bind] in E.
  destruct (tt_get t k (S d)) as [n0|] eqn:G; [injection E as <- <- <-; exact G|].
  destruct (Yasai.legal_moves cf p) as [l|]; [|discriminate]. cbn [bind] in E.
  destruct (tt_loop (tt_perft d) l p t 0) as [[[n1 q1] t1]|]; [|discriminate]. cbn [bind fst snd] in E.
  injection E as <- <- <-. unfold tt_get. cbn [find]. unfold tt_hit. cbn [fst snd].
  rewrite N.eqb_refl, Nat.eqb_refl. reflexivity.
Qed.
Lemma tt_answers d p t n k : Yasai.key cf p = Some k -> tt_get t k (S d) = Some n ->
  tt_perft (S d) p t = Some (n, p, t).
Proof. intros K G. cbn [tt_perft]. rewrite K. cbn [bind]. rewrite G. reflexivity. Qed.

(** ** Correct entries stay correct *)

Section Tree.
Context (D : nat) (ms0 : list move) (p0 : pos) (R0 : reachable cf ms0 p0).

(* the positions less than [D] moves from [p0] *)
Definition near (l : list move) (q : pos) : Prop :=
  length l < D /\ legal_line (view cf p0) l /\ do_line cf p0 l = Some q.
(* among them equal keys mean equal positions *)
Definition no_collision : Prop := forall l1 q1 l2 q2, near l1 q1 -> near l2 q2 ->
  Yasai.key cf q1 = Yasai.key cf q2 -> same_game (view cf q1) (view cf q2).
(* every entry is the number of lines from one of them *)
Definition right_table (t : ttable) : Prop := forall k d n, In ((k, d), n) t ->
  exists l q L, near l q /\ Yasai.key cf q = Some k /\ lists_lines (view cf q) d L /\ n = N.of_nat (length L).

Hypothesis NC : no_collision.

Lemma tt_perft_right d : forall l p t n q t', length l + d <= D ->
  legal_line (view cf p0) l -> do_line cf p0 l = Some p -> right_table t ->
  tt_perft d p t = Some (n, q, t') ->
  right_table t' /\ exists L, lists_lines (view cf p) d L /\ n = N.of_nat (length L).
Proof.
  induction d as [|d IH]; intros l p t n q t' Le Ll Dl Rt E; cbn [tt_perft] in E.
  - injection E as <- <- <-. split; [exact Rt|]. exists [[]]. split; [|reflexivity]. split.
    + repeat constructor. intros [].
    + intros l0. destruct l0; cbn; intuition (discriminate || congruence).
  - destruct (do_line_spec cf l ms0 p0 p R0 Ll Dl) as [R [G _]].
    assert (Nr : near l p) by (split; [lia|split; assumption]).
    destruct (Yasai.key cf p) as [k|] eqn:Ek; [|discriminate]. cbn [bind] in E.
    destruct (tt_get t k (S d)) as [n0|] eqn:Eg.
    + injection E as <- <- <-. split; [exact Rt|].
      destruct (Rt _ _ _ (tt_get_in _ _ _ _ Eg)) as [l' [q' [L [Nq [Kq [HL ->]]]]]].
      exists L. split; [|reflexivity]. apply (lists_lines_same (view cf q')); [|exact HL].
      apply (NC l' q' l p Nq Nr). congruence.
    + destruct (Yasai.legal_moves cf p) as [ls|] eqn:El; [|discriminate]. cbn [bind] in E.
      destruct (api_legal_moves cf _ p ls R El) as [ND H].
      assert (X : forall ls acc t r, NoDup ls -> (forall m, In m ls -> legal (view cf p) m) -> right_table t ->
        tt_loop (tt_perft d) ls p t acc = Some r -> right_table (snd r) /\
        exists L, NoDup L /\
          (forall l0, In l0 L <-> exists m l', l0 = m :: l' /\ In m ls /\
             length l' = d /\ legal_line (play (view cf p) m) l') /\
          fst (fst r) = (acc + N.of_nat (length L))%N).
      { clear t n q t' Rt E Eg ls El ND H.
        induction ls as [|m ls IHl]; intros acc t r ND H Rt E; cbn [tt_loop] in E.
        - injection E as <-. split; [exact Rt|]. exists []. split; [constructor|]. cbn. split; [|lia].
          intros l0. split; [tauto|]. intros [m [l' [_ [[] _]]]].
        - destruct (Yasai.do_move cf p m) as [q|] eqn:Dm; [|discriminate]. cbn [bind] in E.
          pose proof (H m (or_introl eq_refl)) as L.
          pose proof (R_do cf _ p m q R L Dm) as Rq.
          destruct (tt_perft d q t) as [[[n1 q1] t1]|] eqn:V; [|discriminate]. cbn [bind fst snd] in E.
          rewrite (tt_restores d _ q t n1 q1 t1 Rq V), (api_undo cf _ p m q R L Dm) in E. cbn [bind] in E.
          pose proof (api_do_move cf _ p m q R L Dm) as Gm.
          assert (Lm : legal_line (view cf p0) (l ++ [m])).
          { clear - Ll L G. revert L G Ll. generalize (view cf p0). induction l as [|m' l IHl]; intros g L G Ll.
            - cbn. split; [|trivial]. apply (legal_same (view cf p)); assumption.
            - destruct Ll as [L1 L2]. cbn [app legal_line]. split; [exact L1|]. apply IHl; assumption. }
          assert (Dq : do_line cf p0 (l ++ [m]) = Some q).
          { rewrite do_line_app, Dl. cbn [do_line]. rewrite Dm. reflexivity. }
          destruct (IH (l ++ [m]) q t n1 q1 t1) as [Rt1 [L1 [HL1 ->]]]; [rewrite app_length; cbn; lia|assumption..|].
          inversion ND as [|? ? Nm ND']; subst.
          destruct (IHl _ t1 r ND' (fun m I => H m (or_intror I)) Rt1 E) as [Rt2 [L2 [N2 [H2 Er]]]].
          split; [exact Rt2|]. destruct (lists_lines_same _ _ _ _ Gm HL1) as [N1 H1].
          exists (map (cons m) L1 ++ L2). split; [|split].
          + apply NoDup_app; [apply NoDup_cons_map; assumption|assumption|].
            intros x I J. apply in_map_iff in I as [l' [<- I]].
            apply H2 in J as [m2 [l2 [[= <- <-] [J _]]]]. contradiction.
          + intros x. rewrite in_app_iff, in_map_iff, H2. split.
            * intros [[l' [<- I]]|[m' [l' [-> [I Hq]]]]].
              -- exists m, l'. rewrite <- H1. cbn. tauto.
              -- exists m', l'. cbn. tauto.
            * intros [m' [l' [-> [[<-|I] Hq]]]].
              -- left. exists l'. rewrite H1. tauto.
              -- right. exists m', l'. tauto.
          + rewrite Er, app_length, map_length. lia. }
      destruct (tt_loop (tt_perft d) ls p t 0) as [r|] eqn:E1; [|discriminate]. cbn [bind] in E.
      destruct (X ls 0%N t r ND (fun m I => proj1 (H m) I) Rt E1) as [Rt' [L [NL [HL En]]]].
      destruct r as [[n1 q1] t1]. cbn [fst snd] in *. injection E as <- <- <-.
      assert (LL : lists_lines (view cf p) (S d) L).
      { split; [exact NL|]. intros l0. rewrite HL. split.
        - intros [m [l' [-> [I [El' K]]]]]. cbn. rewrite El'. split; [reflexivity|].
          split; [apply H; assumption|assumption].
        - intros [El0 K]. destruct l0 as [|m l0]; [discriminate|]. exists m, l0.
          destruct K as [K1 K2]. split; [reflexivity|]. split; [apply H; assumption|].
          split; [|assumption]. cbn in El0. congruence. }
      split.
      * intros k' d' n' [[= <- <- <-]|I]; [|exact (Rt' _ _ _ I)].
        exists l, p, L. split; [exact Nr|]. split; [exact Ek|]. split; [exact LL|]. rewrite En. lia.
      * exists L. split; [exact LL|]. rewrite En. lia.
Qed.

Lemma tt_searches_right ds : forall t, Forall (fun d => d <= D /\ Yasai.test_perft cf d p0 <> None) ds ->
  right_table t -> exists ns t', tt_searches ds p0 t = Some (ns, p0, t') /\ right_table t' /\
    Forall2 (fun d n => Yasai.test_perft cf d p0 = Some (n, p0)) ds ns.
Proof.
  induction ds as [|d ds IH]; intros t F Rt; cbn [tt_searches].
  - exists [], t. split; [reflexivity|]. split; [exact Rt|constructor].
  - inversion F as [|? ? [Le NT] F']; subst.
    pose proof (tt_total d ms0 p0 t R0 NT) as T.
    destruct (tt_perft d p0 t) as [[[n q] t1]|] eqn:E; [|congruence]. cbn [bind fst snd].
    pose proof (tt_restores d ms0 p0 t n q t1 R0 E) as ->.
    destruct (tt_perft_right d [] p0 t n p0 t1) as [Rt1 [L [HL ->]]]; [exact Le|exact I|reflexivity|assumption..|].
    destruct (IH t1 F' Rt1) as [ns [t' [E' [Rt' F2]]]]. rewrite E'. cbn [bind fst snd].
    eexists. exists t'. split; [reflexivity|]. split; [exact Rt'|]. constructor; [|exact F2].
    destruct (Yasai.test_perft cf d p0) as [[n' p']|] eqn:Et; [|congruence].
    destruct (test_perft_lines cf d ms0 p0 n' p' R0 Et) as [-> [L' [HL' ->]]].
    rewrite (lists_lines_length _ _ L' L HL' HL). reflexivity.
Qed.
End Tree.
End Table.
