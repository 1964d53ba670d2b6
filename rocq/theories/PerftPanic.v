(** * When the perft searches panic *)

From Coq Require Import List Bool NArith ZArith Lia.
From Verif Require Import Types Rules Bitboard Tables Zobrist Position Movegen Perft Api
  Gen Moves Overflow ValidPlay Reach Lines Loops PerftSpec Client.
Import ListNotations.
Local Open Scope nat_scope.

(* legal_moves panics: C18_panics_exactly (PropMoves.v) *)
Definition overfull (g : game) : Prop :=
  ~ in_check (g_board g) (g_side g) /\
  exists l, NoDup l /\ length l = 594 /\
    forall m, In m l -> pseudo_legal g m /\ ~ (is_pawn_drop m /\ checkmated (play g m)).
(* do_move panics: C21_do_move_panics_exactly (PropPlay.v) *)
Definition blocked (checks : bool) (n : N) (g : game) (m : move) : Prop :=
  (checks = true /\ n = 65535%N) \/
  exists f t pr x, m = Normal f t pr /\ g_board g t = Some x /\
    g_hand g (g_side g) (base_kind (pkind x)) = 18%N.

(* some line of play gets to a position where one of the two panics; the moves
   are listed after fewer than [a] moves and played after fewer than [b] *)
Definition trouble (checks : bool) (n : N) (g : game) (a b : nat) : Prop :=
  exists l, legal_line g l /\
    ((length l < a /\ overfull (play_line g l)) \/
     (length l < b /\ exists m, legal (play_line g l) m /\
        blocked checks (n + N.of_nat (length l)) (play_line g l) m)).

Lemma overfull_same g h : same_game g h -> overfull g -> overfull h.
Proof.
  intros G [C [l [ND [L P]]]]. pose proof (same_sym _ _ G) as G'. split.
  - intros D. apply C. destruct G' as [B [_ E]]. rewrite <- E. apply (in_check_same (g_board h)); assumption.
  - exists l. split; [exact ND|]. split; [exact L|]. intros m I. destruct (P m I) as [P1 P2].
    split; [exact (pseudo_same g h m G P1)|]. intros [Q1 Q2]. apply P2. split; [exact Q1|].
    apply (checkmated_same (play h m)); [apply play_same; exact G'|exact Q2].
Qed.
Lemma blocked_same ck n g h m : same_game g h -> blocked ck n g m -> blocked ck n h m.
Proof.
  intros [B [H E]] [X|[f [t [pr [x [-> [Bt Hx]]]]]]]; [left; exact X|right].
  exists f, t, pr, x. split; [reflexivity|]. rewrite <- B, <- H, <- E. tauto.
Qed.
Lemma trouble_same ck n g h a b : same_game g h -> trouble ck n g a b -> trouble ck n h a b.
Proof.
  intros G [l [L T]]. exists l. split; [exact (legal_line_same l g h G L)|].
  pose proof (play_line_same l g h G) as Gl. destruct T as [[Ll O]|[Ll [m [Lm Bm]]]].
  - left. split; [exact Ll|]. exact (overfull_same _ _ Gl O).
  - right. split; [exact Ll|]. exists m. split; [exact (legal_same _ _ m Gl Lm)|].
    exact (blocked_same _ _ _ _ m Gl Bm).
Qed.
Lemma trouble_unchecked n n' g a b : trouble false n g a b -> trouble false n' g a b.
Proof.
  intros [l [L T]]. exists l. split; [exact L|]. destruct T as [T|[Ll [m [Lm Bm]]]]; [left; exact T|right].
  split; [exact Ll|]. exists m. split; [exact Lm|]. destruct Bm as [[X _]|Bm]; [discriminate|].
  right. exact Bm.
Qed.

Lemma trouble_step ck n g a b : trouble ck n g (S a) (S b) <->
  overfull g \/ exists m, legal g m /\ (blocked ck n g m \/ trouble ck (n + 1) (play g m) a b).
Proof.
  split.
  - intros [[|m l] [L T]].
    + cbn in T. destruct T as [[_ T]|[_ [m [Lm Bm]]]]; [left; exact T|right]. exists m.
      split; [exact Lm|]. left. rewrite N.add_0_r in Bm. exact Bm.
    + destruct L as [Lm L]. right. exists m. split; [exact Lm|]. right. exists l. split; [exact L|].
      cbn [length play_line] in T. destruct T as [[X T]|[X [m' [Lm' Bm]]]].
      * left. split; [lia|exact T].
      * right. split; [lia|]. exists m'. split; [exact Lm'|].
        replace (n + 1 + N.of_nat (length l))%N with (n + N.of_nat (S (length l)))%N by lia. exact Bm.
  - intros [O|[m [Lm [Bm|[l [L T]]]]]].
    + exists []. split; [exact I|]. left. cbn. split; [lia|exact O].
    + exists []. split; [exact I|]. right. cbn. split; [lia|]. exists m. rewrite N.add_0_r. tauto.
    + exists (m :: l). split; [split; assumption|]. cbn [length play_line].
      destruct T as [[X T]|[X [m' [Lm' Bm]]]].
      * left. split; [lia|exact T].
      * right. split; [lia|]. exists m'. split; [exact Lm'|].
        replace (n + N.of_nat (S (length l)))%N with (n + 1 + N.of_nat (length l))%N by lia. exact Bm.
Qed.
Lemma trouble_list ck n g : trouble ck n g 1 0 <-> overfull g.
Proof.
  split.
  - intros [[|m l] [L [[X T]|[X _]]]]; cbn in X; try lia. exact T.
  - intros O. exists []. split; [exact I|]. left. split; [cbn; lia|exact O].
Qed.
Lemma trouble_none ck n g : ~ trouble ck n g 0 0.
Proof. intros [l [_ [[X _]|[X _]]]]; lia. Qed.

Section Loop.
Context (o : bbops) (count : position o -> move -> option (N * position o)) (pos : position o).

Lemma perft_loop_none ms : (forall m n p', In m ms -> count pos m = Some (n, p') -> p' = pos) ->
  forall ret, perft_loop o count ms pos ret = None <-> exists m, In m ms /\ count pos m = None.
Proof.
  induction ms as [|m ms IH]; intros C ret; cbn [perft_loop].
  - split; [discriminate|]. intros [m [[] _]].
  - destruct (count pos m) as [[n p']|] eqn:E; cbn [bind fst snd].
    + pose proof (C m n p' (or_introl eq_refl) E) as ->.
      rewrite (IH (fun m n p' I => C m n p' (or_intror I))). split.
      * intros [m' [I F]]. exists m'. cbn. tauto.
      * intros [m' [[<-|I] F]]; [congruence|]. exists m'. tauto.
    + split; [|reflexivity]. intros _. exists m. split; [left; reflexivity|exact E].
Qed.
End Loop.

Section Panics.
Context (cf : config).
Notation o := (ops cf).

Lemma api_overfull ms p : reachable cf ms p ->
  (Yasai.legal_moves cf p = None <-> overfull (view cf p)).
Proof.
  intros R. destruct (reachable_inv cf ms p R) as [st [I _]].
  exact (legal_moves_none _ _ p st (inv_rep _ _ _ _ I) (inv_valid _ _ _ _ I)
    (inv_st _ _ _ _ I) (inv_ai _ _ _ _ I)).
Qed.
Lemma api_blocked ms p m : reachable cf ms p -> legal (view cf p) m ->
  (Yasai.do_move cf p m = None <-> blocked (cf_checks cf) (Yasai.ply cf p) (view cf p) m).
Proof. exact (api_do_exactly cf ms p m). Qed.

Lemma trouble_do ms p m q a b : reachable cf ms p -> legal (view cf p) m ->
  Yasai.do_move cf p m = Some q ->
  (trouble (cf_checks cf) (Yasai.ply cf q) (view cf q) a b <->
   trouble (cf_checks cf) (Yasai.ply cf p + 1) (play (view cf p) m) a b).
Proof.
  intros R L D. pose proof (api_do_move cf ms p m q R L D) as G.
  assert (E : cf_checks cf = false \/ Yasai.ply cf q = (Yasai.ply cf p + 1)%N).
  { rewrite (api_ply cf ms p m q R L D). destruct (Yasai.ply cf p =? 65535)%N eqn:E; [|tauto].
    left. apply N.eqb_eq in E. destruct (cf_checks cf) eqn:C; [|reflexivity]. exfalso.
    assert (F : Yasai.do_move cf p m = None); [|congruence].
    apply (api_blocked ms p m R L). left. tauto. }
  assert (X : trouble (cf_checks cf) (Yasai.ply cf q) (view cf q) a b <->
              trouble (cf_checks cf) (Yasai.ply cf q) (play (view cf p) m) a b).
  { split; apply trouble_same; [exact G|apply same_sym; exact G]. }
  rewrite X. destruct E as [-> | ->]; [|reflexivity].
  split; apply trouble_unchecked.
Qed.

Lemma perft_panics d : forall ms p, reachable cf ms p ->
  (Yasai.perft cf (S d) p = None <->
   trouble (cf_checks cf) (Yasai.ply cf p) (view cf p) (S d) d).
Proof.
  induction d as [|d IH]; intros ms p R.
  - rewrite trouble_list, <- (api_overfull ms p R).
    change (Yasai.perft cf 1 p) with
      (let* l := Yasai.legal_moves cf p in
       perft_loop o (fun pos m => Some (1%N, pos)) l p 0).
    destruct (Yasai.legal_moves cf p) as [l|]; cbn [bind]; [|tauto].
    etransitivity; [apply perft_loop_none; intros m n p' _ [= _ <-]; reflexivity|].
    split; [|discriminate]. intros [m [_ F]]. discriminate.
  - rewrite trouble_step, <- (api_overfull ms p R), perft_unfold.
    destruct (Yasai.legal_moves cf p) as [l|] eqn:El; cbn [bind]; [|tauto].
    destruct (api_legal_moves cf ms p l R El) as [ND H].
    assert (K : forall m q, legal (view cf p) m -> Yasai.do_move cf p m = Some q ->
      forall r, r = match d with
              | O => let* l := Yasai.legal_moves cf q in Some (N.of_nat (length l), q)
              | _ => Yasai.perft cf (S d) q
              end ->
      (r = None <-> trouble (cf_checks cf) (Yasai.ply cf q) (view cf q) (S d) d) /\
      (forall n q', r = Some (n, q') -> q' = q)).
    { intros m q L D r ->. pose proof (R_do cf ms p m q R L D) as Rq. destruct d as [|d].
      - rewrite trouble_list, <- (api_overfull _ q Rq).
        destruct (Yasai.legal_moves cf q) as [lq|]; cbn [bind]; split.
        + split; discriminate.
        + intros n q' [= _ <-]. reflexivity.
        + tauto.
        + discriminate.
      - split; [exact (IH (m :: ms) q Rq)|]. intros n q' E. exact (proj1 (perft_lines cf _ _ _ _ _ Rq E)). }
    etransitivity; [apply perft_loop_none|]. all: cycle 1.
    + split.
      * intros [m [I F]]. apply H in I. right. exists m. split; [exact I|].
        destruct (Yasai.do_move cf p m) as [q|] eqn:D.
        2: { left. apply (api_blocked ms p m R I). exact D. }
        right. apply (trouble_do ms p m q _ _ R I D). cbn [bind] in F.
        destruct (K m q I D _ eq_refl) as [K1 K2]. apply K1.
        destruct (match d with O => _ | _ => _ end) as [[n q']|]; [|reflexivity]. exfalso.
        rewrite (K2 n q' eq_refl) in F. cbn [bind fst snd] in F.
        rewrite (api_undo cf ms p m q R I D) in F. discriminate.
      * intros [F|[m [I F]]]; [discriminate|]. exists m. split; [apply H; exact I|].
        destruct (Yasai.do_move cf p m) as [q|] eqn:D; [|reflexivity]. cbn [bind].
        destruct F as [F|F].
        { apply (api_blocked ms p m R I) in F. congruence. }
        apply (trouble_do ms p m q _ _ R I D) in F.
        destruct (K m q I D _ eq_refl) as [K1 _]. apply K1 in F. rewrite F. reflexivity.
    + intros m n p' I E. apply H in I.
      destruct (Yasai.do_move cf p m) as [q|] eqn:D; [|discriminate]. cbn [bind] in E.
      destruct (K m q I D _ eq_refl) as [_ K2].
      destruct (match d with O => _ | _ => _ end) as [[n' q']|]; [|discriminate].
      rewrite (K2 n' q' eq_refl) in E. cbn [bind fst snd] in E.
      rewrite (api_undo cf ms p m q R I D) in E. cbn [bind] in E. congruence.
Qed.

Lemma test_perft_panics d : forall ms p, reachable cf ms p ->
  (Yasai.test_perft cf d p = None <->
   trouble (cf_checks cf) (Yasai.ply cf p) (view cf p) d d).
Proof.
  induction d as [|d IH]; intros ms p R.
  - split; [discriminate|]. intros T. destruct (trouble_none _ _ _ T).
  - rewrite trouble_step, <- (api_overfull ms p R).
    change (Yasai.test_perft cf (S d) p) with
      (let* l := Yasai.legal_moves cf p in
       perft_loop o (fun pos m =>
         let* pos' := Yasai.do_move cf pos m in
         let* r := Yasai.test_perft cf d pos' in
         let* pos'' := Yasai.undo_move cf (snd r) m in
         Some (fst r, pos'')) l p 0).
    destruct (Yasai.legal_moves cf p) as [l|] eqn:El; cbn [bind]; [|tauto].
    destruct (api_legal_moves cf ms p l R El) as [ND H].
    etransitivity; [apply perft_loop_none|]. all: cycle 1.
    + split.
      * intros [m [I F]]. apply H in I. right. exists m. split; [exact I|].
        destruct (Yasai.do_move cf p m) as [q|] eqn:D.
        2: { left. apply (api_blocked ms p m R I). exact D. }
        right. apply (trouble_do ms p m q _ _ R I D). cbn [bind] in F.
        pose proof (R_do cf ms p m q R I D) as Rq. apply (IH (m :: ms) q Rq).
        destruct (Yasai.test_perft cf d q) as [[n q']|] eqn:T; [|reflexivity]. exfalso.
        rewrite (proj1 (test_perft_lines cf _ _ _ _ _ Rq T)) in F. cbn [bind fst snd] in F.
        rewrite (api_undo cf ms p m q R I D) in F. discriminate.
      * intros [F|[m [I F]]]; [discriminate|]. exists m. split; [apply H; exact I|].
        destruct (Yasai.do_move cf p m) as [q|] eqn:D; [|reflexivity]. cbn [bind].
        destruct F as [F|F].
        { apply (api_blocked ms p m R I) in F. congruence. }
        apply (trouble_do ms p m q _ _ R I D) in F.
        apply (IH (m :: ms) q (R_do cf ms p m q R I D)) in F. rewrite F. reflexivity.
    + intros m n p' I E. apply H in I.
      destruct (Yasai.do_move cf p m) as [q|] eqn:D; [|discriminate]. cbn [bind] in E.
      pose proof (R_do cf ms p m q R I D) as Rq.
      destruct (Yasai.test_perft cf d q) as [[n' q']|] eqn:T; [|discriminate].
      rewrite (proj1 (test_perft_lines cf _ _ _ _ _ Rq T)) in E. cbn [bind fst snd] in E.
      rewrite (api_undo cf ms p m q R I D) in E. cbn [bind] in E. congruence.
Qed.

End Panics.
