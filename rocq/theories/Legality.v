(** * Legality of moves in terms of checkers and pins *)

From Coq Require Import List Bool NArith ZArith Lia.
From Verif Require Import Types Rules Words Squares Geometry KingSafety.
Import ListNotations.
Open Scope Z_scope.

(** ** The board after a move *)

Lemma play_normal_board g f t pr k c : g_board g f = Some (mkP k c) ->
  g_board (play g (Normal f t pr)) =
  after (g_board g) (only f) t (mkP (if pr then promoted_kind k else k) c).
Proof. intros E. cbn [play g_board]. rewrite E. reflexivity. Qed.

Lemma play_drop_board g t x :
  g_board (play g (Drop t x)) = after (g_board g) nothing t x.
Proof. reflexivity. Qed.

Lemma promoted_king k : promoted_kind k = King <-> k = King.
Proof. destruct k; cbn; split; congruence. Qed.

Lemma kings_after_move b f t k k' c : kings_ok b -> b f = Some (mkP k c) ->
  (k' = King -> k = King) -> kings_ok (after b (only f) t (mkP k' c)).
Proof.
  intros U Bf Hk d u v. unfold after, only.
  destruct (sq_eqb_spec u t) as [Eu|Nu], (sq_eqb_spec v t) as [Ev|Nv].
  - congruence.
  - destruct (sq_eqb_spec v f) as [Ef|Nf]; [discriminate|].
    intros [= E1 E2] E3. specialize (Hk E1). subst. exfalso. apply Nf. apply (U d); assumption.
  - destruct (sq_eqb_spec u f) as [Ef|Nf]; [discriminate|].
    intros E3 [= E1 E2]. specialize (Hk E1). subst. exfalso. apply Nf. apply (U d); assumption.
  - destruct (sq_eqb_spec u f); [discriminate|]. destruct (sq_eqb_spec v f); [discriminate|].
    apply U.
Qed.

Lemma kings_after_drop b t x : kings_ok b -> pkind x <> King ->
  kings_ok (after b nothing t x).
Proof.
  intros U Hk d u v. unfold after, nothing.
  destruct (sq_eqb_spec u t) as [Eu|Nu], (sq_eqb_spec v t) as [Ev|Nv]; try congruence.
  - intros [= ->]. cbn in Hk. congruence.
  - intros _ [= ->]. cbn in Hk. congruence.
  - apply U.
Qed.

(** ** Decidability *)

Definition attb (b : board) (c : color) (s t : square) : bool :=
  match b s with
  | Some (mkP k c') => color_eqb c' c && reachb (occb b) c k s t
  | None => false
  end.

Lemma attb_spec b c s t : attb b c s t = true <-> att b c s t.
Proof.
  unfold attb, att. destruct (b s) as [[k c']|].
  - rewrite andb_true_iff. destruct (color_eqb_spec c' c) as [->|N].
    + split; [intros [_ H]; eauto|]. intros [k' [[= <-] H]]. tauto.
    + split; [intros [H _]; discriminate|]. intros [k' [[= _ E] _]]. congruence.
  - split; [discriminate|]. intros [k [E _]]. discriminate.
Qed.

Lemma att_ex_dec b c t : (exists s, att b c s t) \/ (forall s, ~ att b c s t).
Proof.
  destruct (existsb (fun s => attb b c s t) all_squares) eqn:E.
  - left. apply existsb_exists in E as [s [_ E]]. exists s. apply attb_spec. assumption.
  - right. intros s A. apply attb_spec in A.
    assert (C : existsb (fun s => attb b c s t) all_squares = true); [|congruence].
    apply existsb_exists. exists s. split; [apply all_squares_in|assumption].
Qed.

Lemma in_check_dec b c : in_check b c \/ ~ in_check b c.
Proof.
  destruct (existsb (fun t => match b t with Some x => piece_eqb x (mkP King c) | None => false end
      && existsb (fun s => attb b (flip c) s t) all_squares) all_squares) eqn:E.
  - left. apply existsb_exists in E as [t [_ E]]. apply andb_true_iff in E as [E1 E2].
    exists t. split.
    + destruct (b t) as [x|]; [|discriminate].
      destruct (piece_eqb_spec x (mkP King c)); congruence.
    + apply attacked_att. apply existsb_exists in E2 as [s [_ E2]]. exists s.
      apply attb_spec. assumption.
  - right. intros [t [Bt A]]. apply attacked_att in A as [s A]. apply attb_spec in A.
    match type of E with ?x = false => assert (C : x = true); [|congruence] end.
    apply existsb_exists. exists t. split; [apply all_squares_in|].
    rewrite Bt. destruct (piece_eqb_spec (mkP King c) (mkP King c)); [|congruence].
    cbn [andb]. apply existsb_exists. exists s. split; [apply all_squares_in|assumption].
Qed.

Lemma reach_step_king occ c s t : reachb occ c King s t = stepb c King s t.
Proof.
  unfold reachb, rideb. cbn [rides existsb]. destruct (dirof s t); apply orb_false_r.
Qed.

Section Legality.
Context (g : game).
Notation b := (g_board g).
Notation c := (g_side g).
Context (U : kings_ok b).

Lemma no_king_safe m : pseudo_legal g m -> (forall s, b s <> Some (mkP King c)) ->
  (forall t x, m = Drop t x -> pkind x <> King) ->
  ~ in_check (g_board (play g m)) c.
Proof.
  intros P N D. apply no_king_no_check. intros s. destruct m as [f t pr|t x].
  - cbn [pseudo_legal] in P. destruct P as [k [Bf [Ct [R Pr]]]].
    rewrite (play_normal_board g f t pr k c Bf). unfold after.
    destruct (sq_eqb s t).
    + intros [= E]. apply (N f). rewrite Bf. f_equal. f_equal.
      destruct pr; [apply promoted_king|]; assumption.
    + destruct (only f s); [discriminate|apply N].
  - rewrite play_drop_board. unfold after. destruct (sq_eqb s t); [|apply N].
    intros [= ->]. exact (D _ _ eq_refl eq_refl).
Qed.

(* [t] answers every check given to the king on [K] *)
Definition answers (K t : square) : Prop :=
  forall s, att b (flip c) s K -> t = s \/ betweenb s t K = true.

Lemma safe_nonking_iff K f t pr k : b K = Some (mkP King c) -> b f = Some (mkP k c) ->
  k <> King -> (forall k', b t <> Some (mkP k' c)) -> reachb (occb b) c k f t = true ->
  (~ in_check (g_board (play g (Normal f t pr))) c <->
   answers K t /\ (pinned b c K f -> stays K f t = true)).
Proof.
  intros BK Bf Nk Ct R. rewrite (play_normal_board g f t pr k c Bf).
  set (x := mkP _ c).
  assert (NK : t <> K) by (intros ->; exact (Ct _ BK)).
  assert (NfK : K <> f) by (intros ->; congruence).
  assert (U' : kings_ok (after b (only f) t x)).
  { apply (kings_after_move b f t k); [assumption|assumption|].
    destruct pr; [apply promoted_king|tauto]. }
  assert (BK' : after b (only f) t x K = Some (mkP King c)).
  { rewrite after_other; [assumption|congruence|]. apply sq_eqb_neq. assumption. }
  rewrite (in_check_att _ _ _ U' BK').
  assert (Cf : forall q, b f = Some q -> pcolor q = c).
  { intros q E. rewrite Bf in E. injection E as <-. reflexivity. }
  pose proof (safe_move b c K f t x (occb b) k eq_refl ltac:(congruence) Cf
                (fun _ => eq_refl) R) as Q.
  rewrite <- Q. split.
  - intros H s A. apply H. exists s. assumption.
  - intros H [s A]. apply (H s A).
Qed.

Lemma safe_king_iff K t pr : b K = Some (mkP King c) ->
  (forall k', b t <> Some (mkP k' c)) -> reachb (occb b) c King K t = true ->
  (~ in_check (g_board (play g (Normal K t pr))) c <->
   (forall s, ~ att b (flip c) s t) /\
   (forall s k, b s = Some (mkP k (flip c)) -> reachb (occb b) (flip c) k s K = true ->
      takes (occb b) (flip c) k s K t = false)).
Proof.
  intros BK Ct R. rewrite (play_normal_board g K t pr King c BK).
  replace (if pr then promoted_kind King else King) with King by (destruct pr; reflexivity).
  assert (Adj : adjacent K t).
  { apply (king_step_adjacent c). unfold reachb in R. apply orb_true_iff in R as [R|R];
      [assumption|]. unfold rideb in R. cbn in R. destruct (dirof K t); discriminate. }
  assert (U' : kings_ok (after b (only K) t (mkP King c))).
  { apply (kings_after_move b K t King); tauto. }
  rewrite (in_check_att _ c t U') by apply after_t.
  rewrite <- (safe_king b c K t (mkP King c) eq_refl BK Adj). split.
  - intros H s A. apply H. exists s. assumption.
  - intros H [s A]. apply (H s A).
Qed.

Lemma safe_drop_iff K t x : b K = Some (mkP King c) -> b t = None -> pcolor x = c ->
  pkind x <> King ->
  (~ in_check (g_board (play g (Drop t x))) c <->
   forall s, att b (flip c) s K -> betweenb s t K = true).
Proof.
  intros BK Bt Cx Nx. rewrite play_drop_board.
  assert (U' : kings_ok (after b nothing t x)) by (apply kings_after_drop; assumption).
  assert (BK' : after b nothing t x K = Some (mkP King c)).
  { rewrite after_other; [assumption|congruence|reflexivity]. }
  rewrite (in_check_att _ _ _ U' BK').
  rewrite <- (safe_drop b c K t x Cx Bt). split.
  - intros H s A. apply H. exists s. assumption.
  - intros H [s A]. apply (H s A).
Qed.

End Legality.

(** ** Some promotion choice is always allowed *)

Lemma ranks_range s : 1 <= rankZ s <= 9.
Proof. unfold rankZ. destruct (sqr s); cbn; lia. Qed.

Lemma some_promotion g f t k : g_board g f = Some (mkP k (g_side g)) ->
  (forall k', g_board g t <> Some (mkP k' (g_side g))) ->
  reachb (occb (g_board g)) (g_side g) k f t = true ->
  exists pr, pseudo_legal g (Normal f t pr).
Proof.
  intros Bf Ct R. apply reachb_spec in R.
  assert (D : dead_square (g_side g) k t \/ ~ dead_square (g_side g) k t).
  { destruct k, (g_side g); cbn [dead_square ranks_ahead]; lia || tauto. }
  destruct D as [D|D].
  - exists true. exists k. repeat (split; [assumption|]). split.
    + destruct k; cbn in D |- *; try contradiction; discriminate.
    + right. destruct k, (g_side g); cbn [dead_square ranks_ahead promotion_zone] in *;
        try contradiction; lia.
  - exists false. exists k. tauto.
Qed.

(** ** Mate by a dropped pawn *)

Section PawnMate.
Context (g : game).
Notation b := (g_board g).
Notation c := (g_side g).
Context (U : kings_ok b) (K to : square).
Context (BK : b K = Some (mkP King (flip c))) (Bto : b to = None).
Context (Front : stepb c Pawn to K = true).
Context (Safe : forall s, ~ att b c s K).

Notation b1 := (after b nothing to (mkP Pawn c)).
Notation g1 := (play g (Drop to (mkP Pawn c))).

Lemma U1 : kings_ok b1.
Proof. apply kings_after_drop; [assumption|discriminate]. Qed.

Lemma NtoK : to <> K.
Proof. intros E. rewrite E in Bto. congruence. Qed.

Lemma BK1 : b1 K = Some (mkP King (flip c)).
Proof. rewrite after_other; [assumption|congruence|reflexivity]. Qed.

Lemma reach_front : reachb (occb b) c Pawn to K = true.
Proof. unfold reachb. rewrite Front. reflexivity. Qed.

Lemma pawn_checker s : att b1 c s K <-> s = to.
Proof.
  rewrite (check_drop b c K to Pawn Bto ltac:(congruence) Safe).
  split; [tauto|]. intros ->. split; [reflexivity|exact reach_front].
Qed.

Lemma occ1 u : occb b1 u = sq_eqb u to || occb b u.
Proof. unfold occb, after, nothing. destruct (sq_eqb u to); reflexivity. Qed.

(* reaching [to] does not depend on the pawn *)
Lemma reach_to d k s : reachb (occb b1) d k s to = reachb (occb b) d k s to.
Proof.
  apply eq_true_iff_eq. rewrite !reach_alt. split; intros [G C]; (split; [assumption|]);
    intros u Hu; specialize (C u Hu).
  - rewrite occ1 in C. apply orb_false_iff in C. tauto.
  - rewrite occ1. apply orb_false_iff. split; [|assumption]. apply sq_eqb_neq.
    apply between_neq in Hu. tauto.
Qed.

Lemma front_coords : fileZ K = fileZ to /\
  rankZ K = rankZ to + match c with Black => -1 | White => 1 end.
Proof.
  apply stepb_spec in Front as [v [[<-|[]] [F R]]].
  destruct c; cbn [orient fst snd] in *; lia.
Qed.

Lemma front_adjacent : adjacent K to.
Proof.
  destruct front_coords as [F R]. split; [congruence|]. unfold dist.
  destruct c; lia.
Qed.

Lemma pawn_mate_iff :
  checkmated g1 <->
  (forall t, adjacent K t -> (forall k, b t <> Some (mkP k (flip c))) ->
     exists s, att b1 c s t) /\
  (forall f k, b f = Some (mkP k (flip c)) -> k <> King ->
     reachb (occb b) (flip c) k f to = true ->
     ~ (pinned b1 (flip c) K f -> stays K f to = true)).
Proof.
  assert (U1' : kings_ok (g_board g1)) by exact U1.
  assert (Own1 : forall t k, b1 t = Some (mkP k (flip c)) <-> b t = Some (mkP k (flip c))).
  { intros t k. destruct (sq_eqb_spec t to) as [->|N].
    - rewrite after_t, Bto. split; [|discriminate]. intros [= _ E]. destruct c; discriminate.
    - rewrite after_other by easy. tauto. }
  assert (KingReach : forall t, adjacent K t -> reachb (occb b1) (flip c) King K t = true).
  { intros t A. unfold reachb. rewrite (proj2 (king_step_adjacent (flip c) K t) A).
    reflexivity. }
  (* the pawn takes no square from the king *)
  assert (Takes : forall t, adjacent K t -> forall s k, b1 s = Some (mkP k c) ->
      reachb (occb b1) c k s K = true -> takes (occb b1) c k s K t = false).
  { intros t A s k B R.
    assert (s = to) as -> by (apply pawn_checker; exists k; tauto).
    rewrite after_t in B. injection B as <-. unfold takes. cbn [kind_eqb andb].
    destruct (stepb c Pawn to t) eqn:E; [exfalso|reflexivity].
    apply stepb_spec in E as [v [[<-|[]] [F1 R1]]].
    apply stepb_spec in Front as [v [[<-|[]] [F2 R2]]].
    destruct A as [A _]. apply A. apply sq_Z_inj; congruence. }
  (* king moves *)
  assert (KM : forall t pr, adjacent K t -> (forall k, b t <> Some (mkP k (flip c))) ->
     (in_check (g_board (play g1 (Normal K t pr))) (flip c) <-> exists s, att b1 c s t)).
  { intros t pr A Ct.
    assert (Ct1 : forall k', g_board g1 t <> Some (mkP k' (flip c))).
    { intros k' E. apply (Ct k'). apply Own1. assumption. }
    pose proof (safe_king_iff g1 U1' K t pr BK1 Ct1 (KingReach t A)) as Q.
    change (g_side g1) with (flip c) in Q. change (g_board g1) with b1 in Q.
    rewrite flip_flip in Q. split.
    - intros I. destruct (att_ex_dec b1 c t) as [E|E]; [assumption|exfalso].
      apply Q; [|assumption]. split; [assumption|]. apply Takes. assumption.
    - intros [s A1]. destruct (in_check_dec (g_board (play g1 (Normal K t pr))) (flip c))
        as [I|I]; [assumption|exfalso]. apply Q in I as [I _]. exact (I s A1). }
  (* other moves to [to] *)
  assert (NM : forall f k pr, b f = Some (mkP k (flip c)) -> k <> King ->
     reachb (occb b) (flip c) k f to = true ->
     (~ in_check (g_board (play g1 (Normal f to pr))) (flip c) <->
      (pinned b1 (flip c) K f -> stays K f to = true))).
  { intros f k pr Bf Nk R.
    assert (Ct1 : forall k', g_board g1 to <> Some (mkP k' (flip c))).
    { intros k' E. apply Own1 in E. congruence. }
    rewrite <- reach_to in R.
    pose proof (safe_nonking_iff g1 U1' K f to pr k BK1 (proj2 (Own1 f k) Bf) Nk Ct1 R) as Q.
    change (g_side g1) with (flip c) in Q. change (g_board g1) with b1 in Q.
    rewrite Q. split; [tauto|]. intros H. split; [|assumption].
    unfold answers. change (g_side g1) with (flip c). change (g_board g1) with b1.
    rewrite flip_flip. intros s A. apply pawn_checker in A. left. symmetry. exact A. }
  split.
  - intros [_ M]. split.
    + intros t A Ct. apply (KM t false A Ct). apply M. exists King.
      split; [exact BK1|]. split; [|split].
      * intros k' E. apply (Ct k'). apply Own1. assumption.
      * apply reachb_spec. apply KingReach. assumption.
      * cbn. tauto.
    + intros f k Bf Nk R H.
      destruct (some_promotion g1 f to k) as [pr Pl].
      * apply Own1. assumption.
      * intros k' E. apply Own1 in E. congruence.
      * change (reachb (occb b1) (flip c) k f to = true). rewrite reach_to. assumption.
      * apply (NM f k pr Bf Nk R); [assumption|]. apply M. assumption.
  - intros [M1 M2]. split.
    + apply (in_check_att b1 (flip c) K U1 BK1). exists to. rewrite flip_flip.
      apply pawn_checker. reflexivity.
    + intros m Pl. change (g_side g1) with (flip c).
      destruct (in_check_dec (g_board (play g1 m)) (flip c)) as [I|I]; [assumption|exfalso].
      destruct m as [f t pr|t x].
      * destruct Pl as [k [Bf [Ct [R _]]]].
        change (g_side g1) with (flip c) in *. change (g_board g1) with b1 in *.
        apply reachb_spec in R. pose proof (proj1 (Own1 f k) Bf) as Bf0.
        destruct (kind_dec k King) as [->|Nk].
        -- assert (f = K) as -> by (apply (U (flip c)); assumption).
           assert (A : adjacent K t).
           { apply (king_step_adjacent (flip c)). rewrite reach_step_king in R. assumption. }
           assert (Ct0 : forall k, b t <> Some (mkP k (flip c))).
           { intros k E. apply (Ct k). apply Own1. assumption. }
           apply I. apply (KM t pr A Ct0). auto.
        -- pose proof (safe_nonking_iff g1 U1' K f t pr k BK1 Bf Nk Ct R) as Q.
           change (g_side g1) with (flip c) in Q. change (g_board g1) with b1 in Q.
           pose proof I as I'. apply Q in I' as [An _].
           unfold answers in An. change (g_side g1) with (flip c) in An.
           change (g_board g1) with b1 in An. rewrite flip_flip in An.
           destruct (An to) as [->|E].
           { apply pawn_checker. reflexivity. }
           ++ rewrite reach_to in R. apply (M2 f k Bf0 Nk R).
              apply (NM f k pr Bf0 Nk R). assumption.
           ++ rewrite (step_no_between _ _ _ t _ Front) in E. discriminate.
      * destruct Pl as [Cx [Hx [Bt _]]].
        change (g_side g1) with (flip c) in *. change (g_board g1) with b1 in *.
        destruct (kind_dec (pkind x) King) as [Ek|Nk].
        -- (* impossible: kings are not in hand; but dropping one leaves the old king attacked *)
           apply I. exists K. rewrite play_drop_board. change (g_board g1) with b1.
           split.
           { rewrite after_other; [exact BK1| |reflexivity]. intros E. rewrite <- E, BK1 in Bt. discriminate. }
           apply attacked_att. exists to. rewrite flip_flip. apply att_alt. exists Pawn.
           rewrite after_other; [|intros ->; rewrite after_t in Bt; discriminate|reflexivity].
           rewrite after_t. split; [reflexivity|]. split; [unfold geo; rewrite Front; reflexivity|].
           intros u Hu. rewrite (step_no_between _ _ _ u _ Front) in Hu. discriminate.
        -- pose proof (safe_drop_iff g1 U1' K t x BK1 Bt Cx Nk) as Q.
           apply Q with (s := to) in I.
           { rewrite (step_no_between _ _ _ t _ Front) in I. discriminate. }
           change (g_side g1) with (flip c). rewrite flip_flip. apply pawn_checker. reflexivity.
Qed.

(* pins against the pawn's captors, seen before the drop *)
Lemma pawn_mate_pin f k : b f = Some (mkP k (flip c)) -> 
  reachb (occb b) (flip c) k f to = true -> k <> King ->
  (pinned b1 (flip c) K f -> stays K f to = true) <->
  (pinned b (flip c) K f -> fileZ f = fileZ to).
Proof.
  intros Bf R Nk.
  assert (Nf : f <> to) by congruence.
  destruct front_coords as [Fr Rr].
  assert (Dto : dirof K to = Some (0, match c with Black => 1 | White => -1 end) /\ dist K to = 1).
  { apply displaced_dirof; [apply in_dirs8; destruct c; tauto|lia|].
    split; cbn [fst snd]; destruct c; lia. }
  destruct Dto as [Dto Lto].
  assert (NKf : K <> f) by (intros ->; congruence).
  split.
  - intros H [s [[k1 [Bs Ri]] [F [_ Sole]]]].
    rewrite flip_flip in *.
    destruct (betweenb K to s) eqn:E.
    + destruct (between_dir _ _ _ F) as [d [D1 [D2 _]]].
      destruct (between_dir _ _ _ E) as [d' [D1' [D2' _]]].
      assert (d = d') by congruence. subst d'. rewrite Dto in D2'. injection D2' as <-.
      apply dirof_displaced in D2 as [_ [_ [D2 _]]]. cbn [fst] in D2. lia.
    + assert (P : pinned b1 (flip c) K f).
      { exists s. assert (Ns : s <> to) by congruence. split.
        - exists k1. rewrite flip_flip. rewrite after_other by easy. tauto.
        - split; [assumption|]. split; [rewrite after_other by easy; congruence|].
          intros u Hu Bu. apply Sole; [assumption|].
          rewrite after_other in Bu; [assumption| |reflexivity]. congruence. }
      specialize (H P). unfold stays in H. apply orb_true_iff in H as [H|H].
      * destruct (between_dir _ _ _ H) as [d [D1 [D2 _]]].
        rewrite Dto in D2. injection D2 as <-.
        apply dirof_displaced in D1 as [_ [_ [D1 _]]]. cbn [fst] in D1. lia.
      * exfalso. apply between_dirs in H. lia.
  - intros H [s [[k1 [Bs Ri]] [F [_ Sole]]]]. rewrite flip_flip in *.
    assert (Ns : s <> to).
    { intros ->. apply between_dirs in F. lia. }
    assert (Nb : betweenb K to s = false).
    { destruct (betweenb K to s) eqn:E; [exfalso|reflexivity].
      apply Nf. symmetry. apply Sole; [assumption|]. rewrite after_t. discriminate. }
    assert (P : pinned b (flip c) K f).
    { exists s. rewrite after_other in Bs by easy. split.
      - exists k1. rewrite flip_flip. tauto.
      - split; [assumption|]. split; [congruence|].
        intros u Hu Bu. apply Sole; [assumption|].
        rewrite after_other; [assumption| |reflexivity]. congruence. }
    specialize (H P). unfold stays. apply orb_true_iff. left.
    (* same file: in front of the king or behind it *)
    destruct (between_dir _ _ _ F) as [d [_ [D _]]].
    destruct (dir_eqb_spec d (0, match c with Black => 1 | White => -1 end)) as [->|Nd].
    + destruct (ray_cases _ _ _ _ Dto D) as [E|[E|E]]; [congruence|assumption|].
      exfalso. apply between_dirs in E. lia.
    + exfalso. pose proof (dirof_displaced _ _ _ D) as [Hd [Ld [Fd Rd]]].
      assert (Q : d = (0, match c with Black => -1 | White => 1 end)).
      { apply in_dirs8 in Hd.
        repeat destruct Hd as [->|Hd]; try subst d; cbn [fst snd] in *; try lia;
          destruct c; try reflexivity; exfalso; apply Nd; reflexivity. }
      assert (BfK : betweenb f K to = true).
      { apply (between_intro f K to (0, match c with Black => 1 | White => -1 end));
          [|assumption]. rewrite dirof_sym, D, Q. destruct c; reflexivity. }
      assert (O : occb b K = false) by (eapply reach_clear'; eassumption).
      apply occb_false in O. congruence.
Qed.

(* pawns, lances and the king behind it cannot capture the pawn *)
Lemma no_klp_capture f k : b f = Some (mkP k (flip c)) ->
  reachb (occb b) (flip c) k f to = true -> k <> King -> k <> Pawn /\ k <> Lance.
Proof.
  intros Bf R Nk. destruct front_coords as [Fr Rr].
  split; intros ->.
  - unfold reachb in R. apply orb_true_iff in R as [R|R].
    + apply stepb_spec in R as [v [[<-|[]] [F1 R1]]].
      assert (f = K) as ->; [|congruence].
      apply sq_Z_inj; destruct c; cbn [flip orient fst snd] in *; lia.
    + unfold rideb in R. cbn in R. destruct (dirof f to); discriminate.
  - pose proof R as R'. unfold reachb in R. cbn [stepb steps existsb orb] in R.
    apply andb_true_iff in R as [R _].
    apply rideb_spec in R as [v [[<-|[]] D]].
    pose proof (dirof_displaced _ _ _ D) as [Hd [Ld [Fd Rd]]].
    destruct (Z.eq_dec (dist f to) 1) as [E|E].
    + rewrite E in *. assert (f = K) as ->; [|congruence].
      apply sq_Z_inj; destruct c; cbn [flip orient fst snd] in *; lia.
    + assert (B1 : betweenb f K to = true).
      { apply betweenb_spec. eexists. split; [exact D|]. exists (dist f to - 1).
        split; [lia|]. split; destruct c; cbn [flip orient fst snd] in *; lia. }
      assert (O : occb b K = false) by (eapply reach_clear'; eassumption).
      apply occb_false in O. congruence.
Qed.

End PawnMate.
