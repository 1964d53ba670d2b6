(** * The rules are decidable

    Boolean versions of the predicates of [Rules.v], used to show that the
    hypotheses of the theorems are met by concrete positions and moves. *)

From Coq Require Import List Bool NArith ZArith Lia.
From Verif Require Import Types Rules Words Squares Geometry KingSafety Legality ValidPlay.
Import ListNotations.
Local Open Scope Z_scope.

Lemma attb_spec b c s t : attb b c s t = true <-> att b c s t.
Proof.
  unfold attb, att. destruct (b s) as [[k d]|].
  - rewrite andb_true_iff. split.
    + intros [H1 H2]. destruct (color_eqb_spec d c) as [E|]; [|discriminate]. subst d.
      exists k. tauto.
    + intros [j [[= -> ->] H]]. rewrite color_eqb_refl. tauto.
  - split; [discriminate|]. intros [k [H _]]. discriminate.
Qed.

Definition in_checkb (b : board) (c : color) : bool :=
  existsb (fun s => match b s with
    | Some (mkP King d) => color_eqb d c && existsb (fun u => attb b (flip c) u s) all_squares
    | _ => false end) all_squares.

Lemma in_checkb_spec b c : in_checkb b c = true <-> in_check b c.
Proof.
  unfold in_checkb, in_check. rewrite existsb_exists. split.
  - intros [s [_ H]]. exists s. destruct (b s) as [[[] d]|]; try discriminate.
    apply andb_true_iff in H as [H1 H2]. destruct (color_eqb_spec d c) as [E|]; [subst d|discriminate].
    split; [reflexivity|]. apply attacked_att. apply existsb_exists in H2 as [u [_ H2]].
    exists u. apply attb_spec. assumption.
  - intros [s [B A]]. exists s. split; [apply all_squares_in|]. rewrite B, color_eqb_refl.
    cbn [andb]. apply existsb_exists. apply attacked_att in A as [u A]. exists u.
    split; [apply all_squares_in|]. apply attb_spec. assumption.
Qed.

Definition zoneb (c : color) (s : square) : bool :=
  match c with Black => rankZ s <=? 3 | White => 7 <=? rankZ s end.
Lemma zoneb_spec c s : zoneb c s = true <-> promotion_zone c s.
Proof. destruct c; cbn; lia. Qed.
Definition deadb (c : color) (k : kind) (s : square) : bool :=
  match k with
  | Pawn | Lance => ranks_ahead c s <? 1
  | Knight => ranks_ahead c s <? 2
  | _ => false
  end.
Lemma deadb_spec c k s : deadb c k s = true <-> dead_square c k s.
Proof. destruct k; cbn; try lia; split; try discriminate; tauto. Qed.

Definition own_at (b : board) (c : color) (s : square) : bool :=
  match b s with Some p => color_eqb (pcolor p) c | None => false end.
Lemma own_at_false b c s : own_at b c s = false <-> forall k, b s <> Some (mkP k c).
Proof.
  unfold own_at. destruct (b s) as [[k d]|]; cbn [pcolor].
  - destruct (color_eqb_spec d c) as [E|E].
    + subst. split; [discriminate|]. intros H. exfalso. exact (H k eq_refl).
    + split; [|reflexivity]. intros _ j [= _ H]. congruence.
  - split; [congruence|reflexivity].
Qed.

Definition pseudo_legalb (g : game) (m : move) : bool :=
  let b := g_board g in
  let c := g_side g in
  match m with
  | Normal from to promote =>
      match b from with
      | Some (mkP k d) =>
          color_eqb d c && negb (own_at b c to) && reachb (occb b) c k from to &&
          (if promote
           then match promote_kind k with Some _ => zoneb c from || zoneb c to | None => false end
           else negb (deadb c k to))
      | None => false
      end
  | Drop to p =>
      color_eqb (pcolor p) c && (0 <? g_hand g c (pkind p))%N &&
      (match b to with None => true | Some _ => false end) &&
      negb (deadb c (pkind p) to) &&
      (negb (kind_eqb (pkind p) Pawn) ||
       forallb (fun s => match b s with
          | Some (mkP Pawn d) => negb (color_eqb d c) || negb (fileZ s =? fileZ to)
          | _ => true end) all_squares)
  end.

Lemma pseudo_legalb_spec g m : pseudo_legalb g m = true <-> pseudo_legal g m.
Proof.
  destruct m as [f t pr|t [k d]]; cbn [pseudo_legalb pseudo_legal pkind pcolor].
  - destruct (g_board g f) as [[k d]|].
    + rewrite !andb_true_iff, negb_true_iff, own_at_false. split.
      * intros [[[H1 H2] H3] H4]. destruct (color_eqb_spec d (g_side g)) as [E|]; [subst d|discriminate].
        exists k. split; [reflexivity|]. split; [assumption|].
        split; [apply reachb_spec; assumption|].
        destruct pr.
        -- destruct (promote_kind k); [|discriminate]. split; [discriminate|].
           apply orb_true_iff in H4. rewrite !zoneb_spec in H4. assumption.
        -- apply negb_true_iff in H4. rewrite <- deadb_spec. congruence.
      * intros [j [[= E1 E2] [H2 [H3 H4]]]]. subst. rewrite color_eqb_refl.
        split; [split; [split; [reflexivity|assumption]|]|].
        -- apply reachb_spec. assumption.
        -- destruct pr.
           ++ destruct H4 as [H4 H5]. destruct (promote_kind j); [|tauto].
              apply orb_true_iff. rewrite !zoneb_spec. assumption.
           ++ apply negb_true_iff. rewrite <- deadb_spec in H4.
              destruct (deadb (g_side g) j t); [tauto|reflexivity].
    + split; [discriminate|]. intros [k [H _]]. discriminate.
  - rewrite !andb_true_iff, N.ltb_lt, negb_true_iff. split.
    + intros [[[[H1 H2] H3] H4] H5].
      destruct (color_eqb_spec d (g_side g)) as [E|]; [|discriminate].
      split; [assumption|]. split; [assumption|].
      split; [destruct (g_board g t); [discriminate|reflexivity]|].
      split; [rewrite <- deadb_spec; congruence|].
      intros -> s B. cbn [kind_eqb negb orb] in H5.
      rewrite forallb_forall in H5. specialize (H5 s (all_squares_in s)). rewrite B in H5.
      rewrite color_eqb_refl in H5. cbn [negb orb] in H5. lia.
    + intros [H1 [H2 [H3 [H4 H5]]]]. subst d. rewrite color_eqb_refl, H3.
      split; [split; [split; [split; [reflexivity|assumption]|reflexivity]|]|].
      * rewrite <- deadb_spec in H4. destruct (deadb (g_side g) k t); [tauto|reflexivity].
      * destruct (kind_eqb_spec k Pawn) as [E|]; [|reflexivity]. cbn [negb orb].
        apply forallb_forall. intros s _. destruct (g_board g s) as [[[] d]|] eqn:B; try reflexivity.
        destruct (color_eqb_spec d (g_side g)) as [E2|]; [subst d|reflexivity]. cbn [negb orb].
        specialize (H5 E s B). lia.
Qed.

(* every move there is *)
Definition every_move : list move :=
  flat_map (fun f => flat_map (fun t => [Normal f t false; Normal f t true]) all_squares)
    all_squares
  ++ flat_map (fun t => flat_map (fun c => map (fun k => Drop t (mkP k c)) all_kinds) all_colors)
       all_squares.
Lemma every_move_in m : In m every_move.
Proof.
  unfold every_move. rewrite in_app_iff. destruct m as [f t pr|t [k c]].
  - left. apply in_flat_map. exists f. split; [apply all_squares_in|].
    apply in_flat_map. exists t. split; [apply all_squares_in|]. destruct pr; cbn; tauto.
  - right. apply in_flat_map. exists t. split; [apply all_squares_in|].
    apply in_flat_map. exists c. split; [destruct c; cbn; tauto|].
    apply (in_map (fun k => Drop t (mkP k c))). destruct k; cbn; tauto.
Qed.

(* [if] rather than [&&] and [||], which evaluate both sides *)
Definition checkmatedb (g : game) : bool :=
  if in_checkb (g_board g) (g_side g)
  then forallb (fun m => if pseudo_legalb g m then in_checkb (g_board (play g m)) (g_side g) else true)
         every_move
  else false.
Lemma checkmatedb_spec g : checkmatedb g = true <-> checkmated g.
Proof.
  unfold checkmatedb, checkmated. rewrite <- in_checkb_spec.
  destruct (in_checkb (g_board g) (g_side g)); [|intuition discriminate].
  rewrite forallb_forall. split.
  - intros H2. split; [reflexivity|]. intros m P. specialize (H2 m (every_move_in m)).
    apply pseudo_legalb_spec in P. rewrite P in H2. apply in_checkb_spec. exact H2.
  - intros [H1 H2] m _.
    destruct (pseudo_legalb g m) eqn:P; [|reflexivity].
    apply in_checkb_spec. apply H2. apply pseudo_legalb_spec. assumption.
Qed.

Definition pawn_dropb (m : move) : bool :=
  match m with Drop _ p => kind_eqb (pkind p) Pawn | Normal _ _ _ => false end.
Lemma pawn_dropb_spec m : pawn_dropb m = true <-> is_pawn_drop m.
Proof.
  destruct m as [f t pr|t [k c]]; cbn; [split; [discriminate|tauto]|].
  destruct (kind_eqb_spec k Pawn); intuition discriminate.
Qed.

Definition legalb (g : game) (m : move) : bool :=
  if pseudo_legalb g m
  then if in_checkb (g_board (play g m)) (g_side g) then false
       else if pawn_dropb m then negb (checkmatedb (play g m)) else true
  else false.
Lemma legalb_spec g m : legalb g m = true <-> legal g m.
Proof.
  unfold legalb, legal.
  rewrite <- pseudo_legalb_spec, <- in_checkb_spec, <- pawn_dropb_spec, <- checkmatedb_spec.
  destruct (pseudo_legalb g m), (in_checkb _ _), (pawn_dropb m), (checkmatedb (play g m)); cbn;
    intuition discriminate.
Qed.
Lemma legal_dec g m : {legal g m} + {~ legal g m}.
Proof.
  destruct (legalb g m) eqn:E.
  - left. apply legalb_spec. assumption.
  - right. rewrite <- legalb_spec. congruence.
Qed.

Fixpoint legal_lineb (g : game) (ms : list move) : bool :=
  match ms with
  | [] => true
  | m :: ms => if legalb g m then legal_lineb (play g m) ms else false
  end.
Lemma legal_lineb_spec ms : forall g, legal_lineb g ms = true <-> legal_line g ms.
Proof.
  induction ms as [|m ms IH]; intros g; cbn; [tauto|].
  rewrite <- legalb_spec. destruct (legalb g m); [|intuition discriminate]. rewrite IH. tauto.
Qed.

Definition is_piece (x : option piece) (p : piece) : bool :=
  match x with Some y => piece_eqb y p | None => false end.
Lemma is_piece_spec x p : is_piece x p = true <-> x = Some p.
Proof.
  destruct x as [y|]; cbn; [|split; discriminate].
  destruct (piece_eqb_spec y p); intuition congruence.
Qed.

Definition validb (g : game) : bool :=
  let b := g_board g in
  forallb (fun c => Nat.leb (length (filter (fun s => is_piece (b s) (mkP King c)) all_squares)) 1)
    all_colors
  && negb (in_checkb b (flip (g_side g)))
  && forallb (fun s => forallb (fun c => negb (is_piece (b s) (mkP Pawn c)) || negb (deadb c Pawn s))
       all_colors) all_squares
  && forallb (fun c =>
       let l := filter (fun s => is_piece (b s) (mkP Pawn c)) all_squares in
       forallb (fun s => forallb (fun t => negb (fileZ s =? fileZ t) || sq_eqb s t) l) l) all_colors.

Lemma all_colors_in c : In c all_colors.
Proof. destruct c; cbn; tauto. Qed.

Lemma validb_spec g : validb g = true -> valid g.
Proof.
  unfold validb. rewrite !andb_true_iff, !forallb_forall, negb_true_iff.
  intros [[[H1 H2] H3] H4]. constructor.
  - intros c s t Bs Bt. specialize (H1 c (all_colors_in c)). cbv beta in H1.
    apply Nat.leb_le in H1.
    assert (I : forall u, g_board g u = Some (mkP King c) ->
      In u (filter (fun s => is_piece (g_board g s) (mkP King c)) all_squares)).
    { intros u Bu. apply filter_In. split; [apply all_squares_in|]. apply is_piece_spec. assumption. }
    apply I in Bs. apply I in Bt.
    destruct (filter (fun s => is_piece (g_board g s) (mkP King c)) all_squares) as [|x [|y l]].
    + destruct Bs.
    + destruct Bs as [<-|[]], Bt as [<-|[]]. reflexivity.
    + cbn in H1. lia.
  - rewrite <- in_checkb_spec. congruence.
  - intros c s Bs D. specialize (H3 s (all_squares_in s)). cbv beta in H3.
    rewrite forallb_forall in H3. specialize (H3 c (all_colors_in c)). cbv beta in H3.
    apply is_piece_spec in Bs. rewrite Bs in H3. cbn [negb orb] in H3.
    apply deadb_spec in D. rewrite D in H3. discriminate.
  - intros c s t Bs Bt F. specialize (H4 c (all_colors_in c)). cbv beta zeta in H4.
    rewrite forallb_forall in H4.
    assert (I : forall u, g_board g u = Some (mkP Pawn c) ->
      In u (filter (fun s => is_piece (g_board g s) (mkP Pawn c)) all_squares)).
    { intros u Bu. apply filter_In. split; [apply all_squares_in|]. apply is_piece_spec. assumption. }
    specialize (H4 s (I s Bs)). rewrite forallb_forall in H4. specialize (H4 t (I t Bt)).
    apply orb_true_iff in H4 as [H4|H4]; [lia|].
    destruct (sq_eqb_spec s t); [assumption|discriminate].
Qed.

Definition standardb (g : game) : bool :=
  forallb (fun k => (material g k <=? full_set k)%N) all_kinds.
Lemma standardb_spec g : standardb g = true -> standard_material g.
Proof.
  unfold standardb. rewrite forallb_forall. intros H k. apply N.leb_le. apply H.
  destruct k; cbn; tauto.
Qed.
