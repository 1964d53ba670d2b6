(** * C78: threads that search with one transposition table *)

From Coq Require Import String List Bool NArith ZArith Lia.
From Verif Require Import Types Rules Bitboard Tables Zobrist Position Movegen Init Api Sfen Squares
  Moves Hash ValidPlay Reach Decide Lines PerftSpec Witness Client PropClient PropKeys Distinct PropDistinct
  Collide PropCollide Count StdRng SeedTable Siblings PropSeed PropTable PropRare PropRepeat Search PropSearch SearchTable
  PropSearchTable SharedSearch.
Import ListNotations.
Local Open Scope Z_scope.

Local Opaque attack_info_new calculate_checkers N.pow crate_rng crate_table.

(* one thread for each list of searches, all at the position [p], and an empty table *)
Definition launch (cf : config) (W : weights) (jobss : list (list (nat * Z * Z))) (p : Yasai.Position cf) : state cf :=
  (map (fun jobs => (s_all W jobs [] Done, p)) jobss, []).
(* the thread is through, with the right values and the position as it was *)
Definition through (cf : config) (W : weights) (p : Yasai.Position cf) (jobs : list (nat * Z * Z)) (x : thread cf) : Prop :=
  exists rs, x = (Done rs, p) /\ Forall2 (right_answer W (view cf p)) jobs rs.

Lemma no_collision_distinct cf ms p D : reachable cf ms p -> standard_material (view cf p) ->
  cf_checks cf = false \/ (Yasai.ply cf p + N.of_nat D <= 65535)%N -> no_collision cf p D ->
  distinct_keys (keyed (zt cf) ms) (mkT (view cf p) (Yasai.ply cf p) []) D.
Proof.
  intros R SM B NC t1 l1 t2 l2 A1 B1 A2 B2 Ek.
  destruct (at_line_key cf ms p t1 l1 R SM) as [q1 [D1 [G1 K1]]]; [destruct B as [B|B]; [tauto|right; lia]|exact A1|].
  destruct (at_line_key cf ms p t2 l2 R SM) as [q2 [D2 [G2 K2]]]; [destruct B as [B|B]; [tauto|right; lia]|exact A2|].
  apply (same_trans _ _ _ (same_sym _ _ G1)), (same_trans _ (view cf q2)); [|exact G2].
  apply (NC l1 q1 l2 q2).
  - split; [exact B1|]. split; [apply A1|exact D1].
  - split; [exact B2|]. split; [apply A2|exact D2].
  - rewrite K1, K2, Ek. reflexivity.
Qed.

Section Shared.
Context (cf : config) (W : weights) (jobss : list (list (nat * Z * Z))) (D : nat) (ms : list move) (p : Yasai.Position cf)
  (Re : reachable cf ms p) (SM : standard_material (view cf p)) (BK : both_kings (view cf p))
  (B : cf_checks cf = false \/ (Yasai.ply cf p + N.of_nat D <= 65535)%N)
  (J : forall jobs d alpha beta, In jobs jobss -> In (d, alpha, beta) jobs -> (d <= D)%nat /\ alpha < beta)
  (NC : no_collision cf p D).

Let t0 := mkT (view cf p) (Yasai.ply cf p) [].
Let K := keyed (zt cf) ms.
Let answers (jobs : list (nat * Z * Z)) :=
  map (fun j => match j with (d, alpha, beta) => clamp alpha beta (mm W d (view cf p)) end) jobs.
Let Q (jobs : list (nat * Z * Z)) (rs : list Z) (t : table) : Prop := rs = answers jobs /\ t = t0.
Notation R := (near_entry W K t0 D).

Lemma launch_well : Forall2 (fun jobs => well cf ms p R (Q jobs)) jobss (fst (launch cf W jobss p)).
Proof.
  assert (De : decent (view cf p)).
  { split; [exact (reach_valid cf ms p Re)|]. split; [apply reach_hand_ok|]. split; assumption. }
  assert (DK : distinct_keys K t0 D) by (apply no_collision_distinct; assumption).
  unfold launch. cbn [fst]. revert J. generalize jobss as L.
  intros L. induction L as [|jobs L IH]; intros J; cbn [map]; constructor.
  - exists t0. cbn [fst snd]. split; [constructor; [exact Re|apply same_refl|reflexivity]|].
    apply s_all_does; try assumption.
    + intros d alpha beta I. destruct (J jobs d alpha beta (or_introl eq_refl) I) as [Ld Lt].
      split; [exact Ld|]. split; [exact Lt|]. cbn [t0 t_ply]. destruct B as [X|X]; [tauto|right; lia].
    + cbn [app does]. split; reflexivity.
  - apply IH. intros jobs' d alpha beta I. apply J. right. exact I.
Qed.

Lemma answers_right jobs : In jobs jobss -> Forall2 (right_answer W (view cf p)) jobs (answers jobs).
Proof.
  intros I. assert (H : forall d alpha beta, In (d, alpha, beta) jobs -> alpha < beta).
  { intros d alpha beta Ij. apply (J jobs d alpha beta I Ij). }
  clear I. subst answers. cbv beta. induction jobs as [|[[d alpha] beta] jobs IH]; cbn [map]; constructor.
  - intros v M. apply minimax_mm in M. rewrite <- M. unfold cut, clamp.
    specialize (H d alpha beta (or_introl eq_refl)). lia.
  - apply IH. intros d' al be I. apply (H d' al be). right. exact I.
Qed.

Lemma well_through jobs x T : In jobs jobss -> well cf ms p R (Q jobs) x ->
  through cf W p jobs x \/ exists x' T', tstep cf x T x' T'.
Proof.
  intros I Wx. destruct (well_goes_on cf ms p R (Q jobs) x T Wx) as [[rs [t [E [[-> ->] Sh]]]]|St]; [left|right; exact St].
  exists (answers jobs). split; [|apply answers_right, I].
  destruct x as [c q]. cbn [fst snd] in *. rewrite E. f_equal.
  apply (shows_det cf ms p p t0); [|exact Sh]. constructor; [exact Re|apply same_refl|reflexivity].
Qed.

Lemma run_well ths T : runs cf (launch cf W jobss p) (ths, T) ->
  Forall2 (fun jobs => well cf ms p R (Q jobs)) jobss ths /\ right_log R T.
Proof.
  intros H. apply (runs_well cf ms p R Q jobss (fst (launch cf W jobss p)) []); [intros key d b []|exact launch_well|exact H].
Qed.

Lemma run_through ths T : runs cf (launch cf W jobss p) (ths, T) ->
  Forall2 (fun jobs x => through cf W p jobs x \/ exists x' T', tstep cf x T x' T') jobss ths.
Proof.
  intros H. destruct (run_well ths T H) as [F _]. clear H.
  assert (I : incl jobss jobss) by apply incl_refl. revert I F. generalize jobss at 1 3 4 as L. intros L I F.
  induction F as [|jobs x L ths Wx F IH]; constructor.
  - apply well_through; [apply I; left; reflexivity|exact Wx].
  - apply IH. intros j Ij. apply I. right. exact Ij.
Qed.

End Shared.

(** C78 *)

(* Any number of threads, each with its own list of searches of the position [p] on
   its own clone, share one table.  However their steps are mixed, and whichever
   entry under the key and the depth a thread finds or misses: a thread is through
   with the minimax values and its position as it was, or it can go on. *)
Theorem C78_shared_table cf W jobss D ms p ths T :
  reachable cf ms p -> standard_material (view cf p) -> both_kings (view cf p) ->
  cf_checks cf = false \/ (Yasai.ply cf p + N.of_nat D <= 65535)%N ->
  (forall jobs d alpha beta, In jobs jobss -> In (d, alpha, beta) jobs -> (d <= D)%nat /\ alpha < beta) ->
  no_collision cf p D ->
  runs cf (launch cf W jobss p) (ths, T) ->
  Forall2 (fun jobs x => through cf W p jobs x \/ exists x' T', tstep cf x T x' T') jobss ths.
Proof. intros R SM BK B J NC H. exact (run_through cf W jobss D ms p R SM BK B J NC ths T H). Qed.
Print Assumptions C78_shared_table.

(* no run goes on for ever, whatever the programs *)
Theorem C78_ends A cf (run : nat -> state (A := A) cf) : ~ forall i, step cf (run i) (run (S i)).
Proof.
  intros H. remember (run 0%nat) as s eqn:E. revert run H E.
  induction (step_wf cf s) as [s _ IH]. intros run H ->.
  exact (IH (run 1%nat) (H 0%nat) (fun i => run (S i)) (fun i => H (S i)) eq_refl).
Qed.
Print Assumptions C78_ends.

(* so every run can be brought to its end, and then all values are right *)
Theorem C78_finishes cf W jobss D ms p s :
  reachable cf ms p -> standard_material (view cf p) -> both_kings (view cf p) ->
  cf_checks cf = false \/ (Yasai.ply cf p + N.of_nat D <= 65535)%N ->
  (forall jobs d alpha beta, In jobs jobss -> In (d, alpha, beta) jobs -> (d <= D)%nat /\ alpha < beta) ->
  no_collision cf p D ->
  runs cf (launch cf W jobss p) s ->
  exists ths T, runs cf s (ths, T) /\ Forall2 (through cf W p) jobss ths.
Proof.
  intros R SM BK B J NC H. revert H. induction (step_wf cf s) as [s _ IH]. destruct s as [ths T]. intros H.
  pose proof (run_through cf W jobss D ms p R SM BK B J NC ths T H) as F.
  assert (X : Forall2 (through cf W p) jobss ths \/ exists s', step cf (ths, T) s').
  { clear - F. induction F as [|jobs x L ths Wx F IH]; [left; constructor|].
    destruct Wx as [Th|[x' [T' St]]].
    - destruct IH as [IH|[s' St]]; [left; constructor; assumption|right].
      inversion St as [l1 y l2 T0 y' T1 St' E1 E2]; subst.
      exists ((x :: l1) ++ y' :: l2, T1). apply (St_one cf (x :: l1) y l2). exact St'.
    - right. exists ([] ++ x' :: ths, T'). apply (St_one cf [] x ths). exact St. }
  destruct X as [X|[s' St]]; [exists ths, T; split; [constructor|exact X]|].
  destruct (IH s' St (Rn_more cf _ _ _ H St)) as [ths' [T' [Rn F']]]. exists ths', T'. split; [|exact F'].
  clear - St Rn. remember (ths', T') as e eqn:Ee. clear Ee.
  induction Rn as [s'|s' s1 s2 _ IHr St2]; [exact (Rn_more cf _ _ _ (Rn_none cf _) St)|].
  exact (Rn_more cf _ _ _ (IHr St) St2).
Qed.
Print Assumptions C78_finishes.

(* with the random numbers of the crate, for searches to depth two *)
Theorem C78_depth_two b ck W jobss ms p ths T : let cf := seeded b ck in
  reachable cf ms p -> standard_material (view cf p) -> both_kings (view cf p) ->
  ck = false \/ (Yasai.ply cf p + 2 <= 65535)%N ->
  (forall jobs d alpha beta, In jobs jobss -> In (d, alpha, beta) jobs -> (d <= 2)%nat /\ alpha < beta) ->
  runs cf (launch cf W jobss p) (ths, T) ->
  Forall2 (fun jobs x => through cf W p jobs x \/ exists x' T', tstep cf x T x' T') jobss ths.
Proof.
  intros cf R M BK B J H. apply (C78_shared_table cf W jobss 2 ms p ths T R M BK B J); [|exact H].
  exact (no_collision_two b ck ms p R M BK).
Qed.
Print Assumptions C78_depth_two.

(* few tables of random numbers spoil it, for any number of threads and any mixture
   of their steps *)
Theorem C78_rare be ck W jobss pp D (L : list (list move)) (bad : (N -> N) -> bool) :
  valid (game_of pp) -> standard_material (game_of pp) -> both_kings (game_of pp) ->
  (pp_ply pp + N.of_nat D <= 65535)%N ->
  (forall jobs d alpha beta, In jobs jobss -> In (d, alpha, beta) jobs -> (d <= D)%nat /\ alpha < beta) ->
  (forall l, legal_line (game_of pp) l -> (List.length l < D)%nat -> In l L) ->
  (forall l, In l L -> legal_line (game_of pp) l /\ (List.length l < D)%nat) ->
  (forall rng, bad rng = true -> let cf := mkCfg be ck rng in
     ~ exists p, Yasai.new cf pp = Some p /\ forall ths T, runs cf (launch cf W jobss p) (ths, T) ->
         Forall2 (fun jobs x => through cf W p jobs x \/ exists x' T', tstep cf x T x' T') jobss ths) ->
  let n := N.of_nat (List.length L) in
  (count_tables bad * 2 ^ 64 <= n * (n - 1) * (2 ^ 64) ^ 2520)%N.
Proof.
  intros V SM BK Py J LA LB H. apply (collisions_rare be ck pp D L bad V SM Py LA LB).
  intros rng p E cf N R Ev Ep NC. apply (H rng E). fold cf. exists p. split; [exact N|]. intros ths T Rn.
  apply (C78_shared_table cf W jobss D [] p ths T R); try assumption.
  - rewrite Ev. exact SM.
  - rewrite Ev. exact BK.
  - right. rewrite Ep. exact Py.
Qed.
Print Assumptions C78_rare.

(* the rook and the gold: two threads that both search to depth two *)
Example C78_example b ck : let cf := seeded b ck in exists p T, Yasai.new cf exchange = Some p /\
  runs cf (launch cf plain [[(1%nat, -10000, 10000); (2%nat, -10000, 10000)]; [(2%nat, -10000, 10000)]] p)
    ([(Done [15; 3], p); (Done [3], p)], T).
Proof.
  intros cf. destruct (demo_new cf exchange exchange_ok) as [p [l [N [R [G [Y _]]]]]].
  destruct C76_example as [M1 [M2 _]].
  set (jobss := [[(1%nat, -10000, 10000); (2%nat, -10000, 10000)]; [(2%nat, -10000, 10000)]]).
  assert (SM : standard_material (view cf p)) by exact (demo_std cf _ p exchange_ok G).
  assert (BK : both_kings (view cf p)).
  { rewrite G. intros []; [exists (Sq n5 n9)|exists (Sq n5 n1)]; reflexivity. }
  destruct (C78_finishes cf plain jobss 2 [] p (launch cf plain jobss p) R SM BK) as [ths [T [Rn F]]].
  - right. rewrite Y. change (pp_ply exchange) with 1%N. lia.
  - intros jobs d alpha beta [<-|[<-|[]]] I.
    + destruct I as [I|[I|[]]]; assert (X := f_equal (fun x => fst (fst x)) I);
        assert (X2 := f_equal (fun x => snd (fst x)) I); assert (X3 := f_equal snd I); cbn in X, X2, X3; lia.
    + destruct I as [I|[]]; assert (X := f_equal (fun x => fst (fst x)) I);
        assert (X2 := f_equal (fun x => snd (fst x)) I); assert (X3 := f_equal snd I); cbn in X, X2, X3; lia.
  - exact (no_collision_two b ck [] p R SM BK).
  - constructor.
  - exists p, T. split; [exact N|].
    inversion F as [|? x1 ? ths1 [rs1 [-> A1]] F1]; subst. inversion F1 as [|? x2 ? ths2 [rs2 [-> A2]] F2]; subst.
    inversion F2; subst. rewrite G in A1, A2.
    inversion A1 as [|? r1 ? s1 H1 A3]; subst. inversion A3 as [|? r2 ? s2 H2 A4]; subst. inversion A4; subst.
    inversion A2 as [|? r3 ? s3 H3 A5]; subst. inversion A5; subst. cbn [right_answer] in *.
    destruct (H1 15 M1) as [_ [E1 _]]. destruct (H2 3 M2) as [_ [E2 _]]. destruct (H3 3 M2) as [_ [E3 _]].
    rewrite E1, E2, E3 in Rn by lia. exact Rn.
Qed.
