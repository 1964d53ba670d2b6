(** * perft counts lines of play *)

From Coq Require Import List Bool NArith ZArith Lia.
From Verif Require Import Types Rules Bitboard Tables Zobrist Position Movegen Perft Api
  ValidPlay Reach Lines Loops.
Import ListNotations.
Local Open Scope nat_scope.

(* [L] lists the legal lines of [d] moves from [g], each once *)
Definition lists_lines (g : game) (d : nat) (L : list (list move)) : Prop :=
  NoDup L /\ forall l, In l L <-> length l = d /\ legal_line g l.

Lemma lists_lines_length g d L L' : lists_lines g d L -> lists_lines g d L' -> length L = length L'.
Proof.
  intros [N1 H1] [N2 H2].
  apply Nat.le_antisymm; apply NoDup_incl_length; try assumption; intros l I.
  - apply H2, H1, I.
  - apply H1, H2, I.
Qed.

Lemma lists_lines_same g h d L : same_game g h -> lists_lines g d L -> lists_lines h d L.
Proof.
  intros G [N H]. split; [assumption|]. intros l. rewrite H.
  split; intros [E K]; (split; [assumption|]).
  - exact (legal_line_same l g h G K).
  - apply (legal_line_same l h g); [|assumption]. apply same_sym. assumption.
Qed.

Lemma NoDup_app {A} (l1 l2 : list A) : NoDup l1 -> NoDup l2 ->
  (forall x, In x l1 -> ~ In x l2) -> NoDup (l1 ++ l2).
Proof.
  induction l1 as [|x l1 IH]; intros N1 N2 D; cbn; [assumption|]. inversion N1; subst.
  constructor.
  - rewrite in_app_iff. intros [I|I]; [tauto|]. apply (D x); [left; reflexivity|assumption].
  - apply IH; [assumption..|]. intros y I. apply D. right. assumption.
Qed.

Lemma NoDup_cons_map {A} (x : A) L : NoDup L -> NoDup (map (cons x) L).
Proof.
  induction 1 as [|l L N _ IH]; cbn; constructor; [|assumption].
  rewrite in_map_iff. intros [l' [[= ->] I]]. contradiction.
Qed.

Lemma lists_lines_one g ms : NoDup ms -> (forall m, In m ms <-> legal g m) ->
  lists_lines g 1 (map (fun m => [m]) ms).
Proof.
  intros N H. split.
  - clear H. induction N as [|m ms I N IH]; cbn; constructor; [|assumption].
    rewrite in_map_iff. intros [m' [[= ->] J]]. contradiction.
  - intros l. rewrite in_map_iff. split.
    + intros [m [<- I]]. cbn. split; [reflexivity|]. split; [apply H; assumption|trivial].
    + intros [E K]. destruct l as [|m [|]]; try discriminate. exists m. split; [reflexivity|].
      apply H. apply K.
Qed.

Section Loop.
Context (o : bbops) (count : position o -> move -> option (N * position o)) (pos : position o)
  (Q : move -> list move -> Prop).

Lemma perft_loop_spec ms : NoDup ms ->
  (forall m n p', In m ms -> count pos m = Some (n, p') -> p' = pos /\
     exists L, NoDup L /\ (forall l, In l L <-> Q m l) /\ n = N.of_nat (length L)) ->
  forall ret n p', perft_loop o count ms pos ret = Some (n, p') -> p' = pos /\
    exists L, NoDup L /\
      (forall l, In l L <-> exists m l', l = m :: l' /\ In m ms /\ Q m l') /\
      n = (ret + N.of_nat (length L))%N.
Proof.
  induction 1 as [|m ms Nm ND IH]; intros C ret n p' E; cbn [perft_loop] in E.
  - injection E as <- <-. split; [reflexivity|]. exists []. split; [constructor|]. split.
    + intros l. cbn. split; [tauto|]. intros [m [l' [_ [[] _]]]].
    + cbn. lia.
  - destruct (count pos m) as [[n1 p1]|] eqn:E1; [|discriminate]. cbn [bind fst snd] in E.
    destruct (C m n1 p1 (or_introl eq_refl) E1) as [-> [L1 [N1 [H1 ->]]]].
    destruct (IH (fun m n p' I => C m n p' (or_intror I)) _ _ _ E) as [-> [L2 [N2 [H2 ->]]]].
    split; [reflexivity|]. exists (map (cons m) L1 ++ L2). split; [|split].
    + apply NoDup_app; [apply NoDup_cons_map; assumption|assumption|].
      intros l I J. apply in_map_iff in I as [l' [<- I]].
      apply H2 in J as [m2 [l2 [[= <- <-] [J _]]]]. contradiction.
    + intros l. rewrite in_app_iff, in_map_iff, H2. split.
      * intros [[l' [<- I]]|[m' [l' [-> [I Hq]]]]].
        -- exists m, l'. rewrite <- H1. cbn. tauto.
        -- exists m', l'. cbn. tauto.
      * intros [m' [l' [-> [[<-|I] Hq]]]].
        -- left. exists l'. rewrite H1. tauto.
        -- right. exists m', l'. tauto.
    + rewrite app_length, map_length. lia.
Qed.

Lemma perft_loop_total ms : (forall m, In m ms -> exists n, count pos m = Some (n, pos)) ->
  forall ret, exists n, perft_loop o count ms pos ret = Some (n, pos).
Proof.
  induction ms as [|m ms IH]; intros C ret; cbn [perft_loop]; [eauto|].
  destruct (C m (or_introl eq_refl)) as [n1 E]. rewrite E. cbn [bind fst snd].
  apply IH. intros m' I. apply C. right. assumption.
Qed.
End Loop.

Section Perft.
Context (cf : config).
Notation o := (ops cf).

Lemma perft_unfold d (p : Yasai.Position cf) : Yasai.perft cf (S (S d)) p =
  let* ms := Yasai.legal_moves cf p in
  perft_loop o (fun pos m =>
    let* pos' := Yasai.do_move cf pos m in
    let* r := match d with
              | O => let* l := Yasai.legal_moves cf pos' in Some (N.of_nat (length l), pos')
              | _ => Yasai.perft cf (S d) pos'
              end in
    let* pos'' := Yasai.undo_move cf (snd r) m in
    Some (fst r, pos'')) ms p 0.
Proof. destruct d; reflexivity. Qed.

Lemma perft_lines d : forall ms p n p', reachable cf ms p -> Yasai.perft cf (S d) p = Some (n, p') ->
  p' = p /\ exists L, lists_lines (view cf p) (S d) L /\ n = N.of_nat (length L).
Proof.
  induction d as [|d IH]; intros ms p n p' R E.
  - change (Yasai.perft cf 1 p) with
      (let* l := Yasai.legal_moves cf p in
       perft_loop o (fun pos m => Some (1%N, pos)) l p 0) in E.
    destruct (Yasai.legal_moves cf p) as [l|] eqn:El; [|discriminate]. cbn [bind] in E.
    destruct (api_legal_moves cf ms p l R El) as [ND H].
    destruct (fun C => perft_loop_spec o _ p (fun _ l' => l' = []) l ND C _ _ _ E)
      as [-> [L [NL [HL ->]]]].
    + intros m n1 p1 _ [= <- <-]. split; [reflexivity|]. exists [[]]. split; [|split].
      * repeat constructor. intros [].
      * intros l0. cbn. intuition congruence.
      * reflexivity.
    + split; [reflexivity|]. exists L. split; [|reflexivity]. split; [assumption|].
      intros l0. rewrite HL. split.
      * intros [m [l' [-> [I ->]]]]. split; [reflexivity|]. cbn. split; [|trivial].
        apply H. assumption.
      * intros [El0 K]. destruct l0 as [|m [|]]; try discriminate. exists m, []. split; [reflexivity|].
        split; [apply H; apply K|reflexivity].
  - rewrite perft_unfold in E.
    destruct (Yasai.legal_moves cf p) as [l|] eqn:El; [|discriminate]. cbn [bind] in E.
    destruct (api_legal_moves cf ms p l R El) as [ND H].
    destruct (fun C => perft_loop_spec o _ p
      (fun m l' => length l' = S d /\ legal_line (play (view cf p) m) l') l ND C _ _ _ E)
      as [-> [L [NL [HL ->]]]].
    + intros m n1 p1 I. apply H in I. intros C.
      destruct (Yasai.do_move cf p m) as [q|] eqn:D; [|discriminate]. cbn [bind] in C.
      pose proof (R_do cf ms p m q R I D) as Rq.
      pose proof (api_do_move cf ms p m q R I D) as G.
      pose proof (api_undo cf ms p m q R I D) as U.
      assert (A : forall r q', r = Some (n1, q') ->
        (exists L, lists_lines (view cf q) (S d) L /\ n1 = N.of_nat (length L)) /\ q' = q ->
        (let* r := r in let* pos'' := Yasai.undo_move cf (snd r) m in Some (fst r, pos''))
          = Some (n1, p1) ->
        p1 = p /\ exists L, NoDup L /\
         (forall l, In l L <-> length l = S d /\ legal_line (play (view cf p) m) l) /\
         n1 = N.of_nat (length L)).
      { intros r q' -> [[L [HL En]] ->] F. cbn [bind fst snd] in F. rewrite U in F. cbn [bind] in F.
        injection F as <-. split; [reflexivity|]. exists L.
        destruct (lists_lines_same _ _ _ _ G HL) as [NL H']. tauto. }
      destruct d as [|d].
      * destruct (Yasai.legal_moves cf q) as [lq|] eqn:Elq; [|discriminate]. cbn [bind fst snd] in C.
        rewrite U in C. cbn [bind] in C. injection C as <- <-.
        destruct (api_legal_moves cf _ q lq Rq Elq) as [NDq Hq].
        apply (A (Some (N.of_nat (length lq), q)) q); [reflexivity| |].
        -- split; [|reflexivity]. exists (map (fun m => [m]) lq).
           split; [apply lists_lines_one; assumption|]. rewrite map_length. reflexivity.
        -- cbn [bind fst snd]. rewrite U. reflexivity.
      * destruct (Yasai.perft cf (S (S d)) q) as [[n2 q2]|] eqn:F; [|discriminate].
        destruct (IH (m :: ms) q n2 q2 Rq F) as [-> HL]. cbn [bind fst snd] in C.
        rewrite U in C. cbn [bind] in C. injection C as <- <-.
        apply (A (Some (n2, q)) q); [reflexivity|split; [assumption|reflexivity]|].
        cbn [bind fst snd]. rewrite U. reflexivity.
    + split; [reflexivity|]. exists L. split; [|reflexivity]. split; [assumption|].
      intros l0. rewrite HL. split.
      * intros [m [l' [-> [I [El' K]]]]]. cbn. rewrite El'. split; [reflexivity|].
        split; [apply H; assumption|assumption].
      * intros [El0 K]. destruct l0 as [|m l0]; [discriminate|]. exists m, l0.
        destruct K as [K1 K2]. split; [reflexivity|]. split; [apply H; assumption|].
        split; [|assumption]. cbn in El0. congruence.
Qed.

Definition both_kings (g : game) : Prop :=
  forall c, exists s, g_board g s = Some (mkP King c).

Lemma perft_total d : forall ms p, reachable cf ms p -> standard_material (view cf p) -> both_kings (view cf p) ->
  cf_checks cf = false \/ (Yasai.ply cf p + N.of_nat d <= 65535)%N ->
  exists n, Yasai.perft cf (S d) p = Some (n, p).
Proof.
  induction d as [|d IH]; intros ms p R SM BK P.
  - destruct (api_legal_moves_total cf ms p R SM (BK _)) as [l El].
    change (Yasai.perft cf 1 p) with
      (let* l := Yasai.legal_moves cf p in
       perft_loop o (fun pos m => Some (1%N, pos)) l p 0).
    rewrite El. cbn [bind]. apply perft_loop_total. eauto.
  - destruct (api_legal_moves_total cf ms p R SM (BK _)) as [l El].
    rewrite perft_unfold, El. cbn [bind].
    destruct (api_legal_moves cf ms p l R El) as [ND H].
    apply perft_loop_total. intros m I. apply H in I.
    pose proof (api_do_total cf ms p m R SM I) as T.
    destruct (Yasai.do_move cf p m) as [q|] eqn:D.
    2: { exfalso. destruct (proj1 T eq_refl) as [C Pl]. destruct P as [P|P]; [congruence|]. lia. }
    cbn [bind]. clear T.
    pose proof (R_do cf ms p m q R I D) as Rq.
    pose proof (api_do_move cf ms p m q R I D) as G.
    pose proof (api_undo cf ms p m q R I D) as U.
    pose proof (api_do_standard cf ms p m q R I D SM) as SMq.
    assert (BKq : both_kings (view cf q)).
    { intros c. destruct G as [Gb _]. setoid_rewrite Gb.
      apply (kings_persist [m] (view cf p) c); [apply (reach_valid cf ms); assumption|
        apply reach_hand_ok|cbn; tauto|apply BK]. }
    destruct d as [|d].
    + destruct (api_legal_moves_total cf _ q Rq SMq (BKq _)) as [lq ->]. cbn [bind fst snd].
      rewrite U. cbn [bind]. eauto.
    + destruct (IH (m :: ms) q Rq SMq BKq) as [n ->].
      * destruct P as [P|P]; [tauto|]. right. rewrite (api_ply cf ms p m q R I D).
        destruct (N.eqb_spec (Yasai.ply cf p) 65535); lia.
      * cbn [bind fst snd]. rewrite U. cbn [bind]. eauto.
Qed.

Lemma test_perft_lines d : forall ms p n p', reachable cf ms p -> Yasai.test_perft cf d p = Some (n, p') ->
  p' = p /\ exists L, lists_lines (view cf p) d L /\ n = N.of_nat (length L).
Proof.
  induction d as [|d IH]; intros ms p n p' R E.
  - injection E as <- <-. split; [reflexivity|]. exists [[]]. split; [|reflexivity]. split.
    + repeat constructor. intros [].
    + intros l. destruct l; cbn; intuition (discriminate || congruence).
  - change (Yasai.test_perft cf (S d) p) with
      (let* l := Yasai.legal_moves cf p in
       perft_loop o (fun pos m =>
         let* pos' := Yasai.do_move cf pos m in
         let* r := Yasai.test_perft cf d pos' in
         let* pos'' := Yasai.undo_move cf (snd r) m in
         Some (fst r, pos'')) l p 0) in E.
    destruct (Yasai.legal_moves cf p) as [l|] eqn:El; [|discriminate]. cbn [bind] in E.
    destruct (api_legal_moves cf ms p l R El) as [ND H].
    destruct (fun C => perft_loop_spec o _ p
      (fun m l' => length l' = d /\ legal_line (play (view cf p) m) l') l ND C _ _ _ E)
      as [-> [L [NL [HL ->]]]].
    + intros m n1 p1 I. apply H in I. intros C.
      destruct (Yasai.do_move cf p m) as [q|] eqn:D; [|discriminate]. cbn [bind] in C.
      pose proof (R_do cf ms p m q R I D) as Rq.
      pose proof (api_do_move cf ms p m q R I D) as G.
      pose proof (api_undo cf ms p m q R I D) as U.
      destruct (Yasai.test_perft cf d q) as [[n2 q2]|] eqn:F; [|discriminate].
      destruct (IH (m :: ms) q n2 q2 Rq F) as [-> [L [HL En]]]. cbn [bind fst snd] in C.
      rewrite U in C. cbn [bind] in C. injection C as <- <-. split; [reflexivity|]. exists L.
      destruct (lists_lines_same _ _ _ _ G HL) as [NL H']. tauto.
    + split; [reflexivity|]. exists L. split; [|reflexivity]. split; [assumption|].
      intros l0. rewrite HL. split.
      * intros [m [l' [-> [I [El' K]]]]]. cbn. rewrite El'. split; [reflexivity|].
        split; [apply H; assumption|assumption].
      * intros [El0 K]. destruct l0 as [|m l0]; [discriminate|]. exists m, l0.
        destruct K as [K1 K2]. split; [reflexivity|]. split; [apply H; assumption|].
        split; [|assumption]. cbn in El0. congruence.
Qed.

Lemma test_perft_total d : forall ms p, reachable cf ms p -> standard_material (view cf p) -> both_kings (view cf p) ->
  cf_checks cf = false \/ (Yasai.ply cf p + N.of_nat d <= 65535)%N ->
  exists n, Yasai.test_perft cf d p = Some (n, p).
Proof.
  induction d as [|d IH]; intros ms p R SM BK P; [exists 1%N; reflexivity|].
  destruct (api_legal_moves_total cf ms p R SM (BK _)) as [l El].
  change (Yasai.test_perft cf (S d) p) with
      (let* l := Yasai.legal_moves cf p in
       perft_loop o (fun pos m =>
         let* pos' := Yasai.do_move cf pos m in
         let* r := Yasai.test_perft cf d pos' in
         let* pos'' := Yasai.undo_move cf (snd r) m in
         Some (fst r, pos'')) l p 0).
  rewrite El. cbn [bind].
  destruct (api_legal_moves cf ms p l R El) as [ND H].
  apply perft_loop_total. intros m I. apply H in I.
  pose proof (api_do_total cf ms p m R SM I) as T.
  destruct (Yasai.do_move cf p m) as [q|] eqn:D.
  2: { exfalso. destruct (proj1 T eq_refl) as [C Pl]. destruct P as [P|P]; [congruence|]. lia. }
  cbn [bind]. clear T.
  pose proof (R_do cf ms p m q R I D) as Rq.
  pose proof (api_do_move cf ms p m q R I D) as G.
  pose proof (api_undo cf ms p m q R I D) as U.
  pose proof (api_do_standard cf ms p m q R I D SM) as SMq.
  assert (BKq : both_kings (view cf q)).
  { intros c. destruct G as [Gb _]. setoid_rewrite Gb.
    apply (kings_persist [m] (view cf p) c); [apply (reach_valid cf ms); assumption|
      apply reach_hand_ok|cbn; tauto|apply BK]. }
  destruct (IH (m :: ms) q Rq SMq BKq) as [n ->].
  - destruct P as [P|P]; [tauto|]. right. rewrite (api_ply cf ms p m q R I D).
    destruct (N.eqb_spec (Yasai.ply cf p) 65535); lia.
  - cbn [bind fst snd]. rewrite U. cbn [bind]. eauto.
Qed.

(** ** Bounds *)

Lemma push_all_none ms : fold_left (fun av m => let* av := av in av_push av m) ms None = None.
Proof. induction ms; [reflexivity|assumption]. Qed.
Lemma push_all_length ms av : push_all ms = Some av -> (length av <= 593)%nat.
Proof.
  unfold push_all. assert (H : forall ms a av, (length a <= 593)%nat ->
    fold_left (fun av m => let* av := av in av_push av m) ms (Some a) = Some av -> (length av <= 593)%nat).
  { induction ms0 as [|m l IH]; intros a av' La E; cbn [fold_left] in E; [injection E as <-; exact La|].
    cbn [bind] in E. unfold av_push in E. destruct (Nat.ltb_spec (length a) MAX_LEGAL_MOVES) as [L|L].
    - apply (IH (a ++ [m]) av'); [|exact E]. rewrite app_length. unfold MAX_LEGAL_MOVES in L. cbn [length]. lia.
    - rewrite push_all_none in E. discriminate. }
  apply H. cbn [length]. lia.
Qed.

Lemma filter_length_le {A} (f : A -> bool) l : (length (filter f l) <= length l)%nat.
Proof. induction l as [|x l IH]; cbn; [lia|]. destruct (f x); cbn; lia. Qed.
(* in any position, also one that is not valid *)
Lemma legal_moves_length (p : Yasai.Position cf) l : Yasai.legal_moves cf p = Some l -> (length l <= 593)%nat.
Proof.
  unfold Yasai.legal_moves, legal_moves. destruct (pos_state o p) as [st|]; [|discriminate]. cbn [bind].
  destruct (if negb _ then _ else _) as [ms|]; [|discriminate]. cbn [bind].
  destruct (push_all ms) as [av|] eqn:E; [|discriminate]. cbn [bind]. apply push_all_length in E.
  intros F. destruct (filter_loop_spec (is_legal o (p_inner o p) (s_attack_info o st)) (length av) av (le_n _))
    as [r [F' P]]. rewrite F in F'. injection F' as <-. rewrite (Permutation.Permutation_length P).
  pose proof (filter_length_le (is_legal o (p_inner o p) (s_attack_info o st)) av) as L.
  exact (Nat.le_trans _ _ _ L E).
Qed.

Lemma perft_loop_bound (count : position o -> move -> option (N * position o)) B :
  (forall p m n q, count p m = Some (n, q) -> (n <= B)%N) ->
  forall ms p r n q, perft_loop o count ms p r = Some (n, q) -> (n <= r + N.of_nat (length ms) * B)%N.
Proof.
  intros H. induction ms as [|m ms IH]; intros p r n q E; cbn [perft_loop] in E.
  - injection E as <- _. cbn. lia.
  - destruct (count p m) as [[n1 p1]|] eqn:C; [|discriminate]. cbn [bind fst snd] in E.
    apply H in C. apply IH in E. cbn [length]. lia.
Qed.

Lemma perft_bound d : forall (p q : Yasai.Position cf) n,
  Yasai.perft cf (S d) p = Some (n, q) -> (n <= 593 ^ N.of_nat (S d))%N.
Proof.
  induction d as [|d IH]; intros p q n E.
  - change (Yasai.perft cf 1 p) with
      (let* l := Yasai.legal_moves cf p in
       perft_loop o (fun pos m => Some (1%N, pos)) l p 0) in E.
    destruct (Yasai.legal_moves cf p) as [l|] eqn:El; [|discriminate]. cbn [bind] in E.
    apply legal_moves_length in El. apply (perft_loop_bound _ 1) in E; [|intros ? ? ? ? [= <- _]; lia].
    change (593 ^ N.of_nat 1)%N with 593%N. lia.
  - rewrite perft_unfold in E. destruct (Yasai.legal_moves cf p) as [l|] eqn:El; [|discriminate].
    cbn [bind] in E. apply legal_moves_length in El.
    apply (perft_loop_bound _ (593 ^ N.of_nat (S d))%N) in E.
    + rewrite (Nat2N.inj_succ (S d)), N.pow_succ_r'.
      eapply N.le_trans; [exact E|]. apply N.mul_le_mono_r. lia.
    + intros p0 m n0 q0 C. destruct (Yasai.do_move cf p0 m) as [p1|]; [|discriminate]. cbn [bind] in C.
      destruct d as [|d].
      * destruct (Yasai.legal_moves cf p1) as [l1|] eqn:E1; [|discriminate]. cbn [bind fst snd] in C.
        destruct (Yasai.undo_move cf p1 m); [|discriminate]. injection C as <- _.
        apply legal_moves_length in E1. change (593 ^ N.of_nat 1)%N with 593%N. lia.
      * destruct (Yasai.perft cf (S (S d)) p1) as [[n1 q1]|] eqn:F; [|discriminate]. cbn [bind fst snd] in C.
        destruct (Yasai.undo_move cf q1 m); [|discriminate]. injection C as <- _. apply (IH _ _ _ F).
Qed.
End Perft.
