(** * Who gives check after a move *)

From Coq Require Import List Bool NArith ZArith Lia.
From Verif Require Import Types Rules Words Squares Geometry KingSafety Legality ValidPlay Overflow Consequences Facts.
Import ListNotations.

(* the piece that moved, or a rider behind the square it left *)
Lemma checker_after g m s K : valid g -> legal g m ->
  g_board (play g m) K = Some (mkP King (flip (g_side g))) ->
  att (g_board (play g m)) (g_side g) s K ->
  s = move_to m \/ exists f, move_from m = Some f /\ betweenb s f K = true.
Proof.
  intros V [P _] BK A. destruct m as [f t pr|t x]; cbn [move_to move_from].
  - destruct P as [k [Bf [Ct [Rf Pr]]]]. rewrite (play_normal_board g f t pr k _ Bf) in BK, A.
    set (x := mkP _ (g_side g)) in BK, A.
    destruct (sq_eqb_spec s t) as [->|N]; [left; reflexivity|right]. exists f. split; [reflexivity|].
    destruct (betweenb s f K) eqn:E; [reflexivity|exfalso].
    apply att_alt in A as [k' [B [G C]]].
    assert (NK : K <> t).
    { intros ->. rewrite after_t in BK. injection BK as _ BK. destruct (g_side g); discriminate. }
    unfold after in B, BK. rewrite (sq_eqb_neq s t N) in B. rewrite (sq_eqb_neq K t NK) in BK.
    destruct (only f s) eqn:Os; [discriminate|]. destruct (only f K) eqn:OK; [discriminate|].
    apply (v_check g V). exists K. split; [exact BK|]. rewrite flip_flip. apply attacked_att.
    exists s. apply att_alt. exists k'. split; [exact B|]. split; [exact G|]. intros u Hu.
    specialize (C u Hu). apply after_none in C as [_ [C|C]]; [|exact C].
    unfold only in C. destruct (sq_eqb_spec u f) as [Eu|]; [rewrite Eu in Hu; congruence|discriminate].
  - destruct P as [Cx [H [Bt _]]]. rewrite play_drop_board in BK, A.
    destruct (sq_eqb_spec s t) as [->|N]; [left; reflexivity|exfalso].
    apply att_alt in A as [k' [B [G C]]].
    assert (NK : K <> t).
    { intros ->. rewrite after_t in BK. injection BK as BK. rewrite BK in Cx. cbn in Cx.
      destruct (g_side g); discriminate. }
    rewrite after_other in B, BK by (assumption || reflexivity).
    apply (v_check g V). exists K. split; [exact BK|]. rewrite flip_flip. apply attacked_att.
    exists s. apply att_alt. exists k'. split; [exact B|]. split; [exact G|]. intros u Hu.
    specialize (C u Hu). apply after_none in C as [_ [C|C]]; [discriminate|exact C].
Qed.

(* at most one of the latter *)
Lemma discovered_once b c s s' f K : att b c s K -> att b c s' K ->
  betweenb s f K = true -> betweenb s' f K = true -> s = s'.
Proof.
  intros [k [B R]] [k' [B' R']] E E'. apply reachb_spec in R, R'.
  apply (way_inj b c k k' s s' K); [congruence..|exact R|exact R'|].
  destruct (between_dirs _ _ _ E) as [D _]. destruct (between_dirs _ _ _ E') as [D' _].
  unfold way. rewrite <- D, <- D'.
  destruct (dirof f K) as [d|] eqn:X; [reflexivity|exfalso].
  apply betweenb_spec in E as [d [Y _]]. rewrite <- D in Y. discriminate.
Qed.

Theorem checkers_after g m K l : valid g -> legal g m ->
  g_board (play g m) K = Some (mkP King (flip (g_side g))) ->
  NoDup l -> (forall s, In s l -> att (g_board (play g m)) (g_side g) s K) ->
  (length l <= 2)%nat /\
  (move_from m = None -> length l <= 1)%nat /\
  (length l = 2%nat -> In (move_to m) l).
Proof.
  intros V L BK ND H.
  assert (X : forall s, In s l -> s = move_to m \/ exists f, move_from m = Some f /\ betweenb s f K = true).
  { intros s I. exact (checker_after g m s K V L BK (H s I)). }
  assert (Y : forall s s', In s l -> In s' l -> s <> move_to m -> s' <> move_to m -> s = s').
  { intros s s' I I' N N'. destruct (X s I) as [|[f [F E]]]; [contradiction|].
    destruct (X s' I') as [|[f' [F' E']]]; [contradiction|].
    assert (f' = f) by congruence. subst f'.
    exact (discovered_once _ _ s s' f K (H s I) (H s' I') E E'). }
  split; [|split].
  - destruct l as [|a [|b [|d l]]]; cbn [length]; try lia. exfalso.
    inversion ND as [|? ? N1 ND1]; subst. inversion ND1 as [|? ? N2 _]; subst.
    assert (a <> b) by (intros ->; apply N1; left; reflexivity).
    assert (a <> d) by (intros ->; apply N1; right; left; reflexivity).
    assert (b <> d) by (intros ->; apply N2; left; reflexivity).
    destruct (sq_eqb_spec a (move_to m)) as [Ea|Na].
    + assert (b = d); [|contradiction]. apply Y; cbn; try tauto; congruence.
    + destruct (sq_eqb_spec b (move_to m)) as [Eb|Nb].
      * assert (a = d); [|contradiction]. apply Y; cbn; try tauto; congruence.
      * assert (a = b); [|contradiction]. apply Y; cbn; tauto.
  - intros F. destruct l as [|a [|b l]]; cbn [length]; try lia. exfalso.
    inversion ND as [|? ? N1 _]; subst. apply N1. left.
    destruct (X a) as [Ea|[f [E _]]]; [left; reflexivity| |congruence].
    destruct (X b) as [Eb|[f [E _]]]; [right; left; reflexivity| |congruence]. congruence.
  - intros E. destruct l as [|a [|b [|]]]; try discriminate E.
    inversion ND as [|? ? N1 _]; subst.
    destruct (sq_eqb_spec a (move_to m)) as [Ea|Na]; [left; exact Ea|].
    destruct (sq_eqb_spec b (move_to m)) as [Eb|Nb]; [right; left; exact Eb|].
    exfalso. apply N1. left. symmetry. apply Y; cbn; tauto.
Qed.
