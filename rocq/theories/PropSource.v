(** * C70: the code as it is stored and run *)

From Coq Require Import String List Bool NArith ZArith Lia.
From Verif Require Import Types Rules Bitboard Tables Zobrist Position Movegen Init Api Sfen
  Hash ValidPlay Reach Decide PerftSpec Witness Lazy Statics Flat Source SourceSpec Client SourceClient
  Lines PropLazy PropClient.
Import ListNotations.
Local Open Scope nat_scope.

(** C70 *)

(* position.rs and movegen.rs with their arrays, their tables behind
   [once_cell::sync::Lazy] and the buffer of moves (Source.v).  There are values
   [val] of the tables such that any threads, started with no table built, end
   with the results their programs have with these values; and with these
   values the functions do what those of the model do. *)
Theorem C70_functions cf :
  let o := ops cf in
  exists val : forall c, cty o c,
  (forall R (ps : list (prog (cty o) R)), exists bound,
   forall tr m ths, runs (cty o) (cinit o (cf_rng cf)) (fresh (cty o) ps) tr (m, ths) ->
     length tr <= bound /\ length ths = length ps /\
     (forall i p th, nth_error ps i = Some p -> nth_error ths i = Some th -> finished _ th ->
        result th = den (cty o) val p) /\
     ((forall th, In th ths -> finished _ th) \/ exists lab s, step (cty o) (cinit o (cf_rng cf)) (m, ths) lab s)) /\
  (forall pp, den (cty o) val (s_new o pp) = option_map (enc o) (Yasai.new cf pp)) /\
  (forall p, den (cty o) val (s_in_check o (enc o p)) = Yasai.in_check cf p) /\
  (forall p m, den (cty o) val (s_is_check_move o (enc o p) m) = Yasai.is_check_move cf p m) /\
  (forall p m, den (cty o) val (s_do_move o (cf_checks cf) (enc o p) m) = option_map (enc o) (Yasai.do_move cf p m)) /\
  (forall p m, den (cty o) val (s_undo_move o (cf_checks cf) (enc o p) m) =
     option_map (enc o) (Yasai.undo_move cf p m)) /\
  (forall p, den (cty o) val (s_legal_moves o (enc o p)) = Yasai.legal_moves cf p) /\
  (forall A pp (c : client A), den (cty o) val (s_job cf pp c) =
     let* p := Yasai.new cf pp in option_map fst (exec cf c p)).
Proof.
  intros o.
  destruct (C65_lazy_tables (cf_backend cf) (cf_checks cf) (cf_rng cf))
    as [val [HA [HP [HB [HR [HM [HF [HZ [HH Run]]]]]]]]].
  exists val. split; [|split; [|split; [|split; [|split; [|split; [|split]]]]]].
  - intros R ps. destruct (Run R ps) as [bound B]. exists bound. intros tr m ths X.
    destruct (B tr m ths X) as [B1 [B2 [B3 [_ [_ B4]]]]]. repeat split; assumption.
  - apply (d_new o (zt cf) val HA HP HB HZ HH).
  - apply d_in_check.
  - apply (d_is_check o val HB).
  - apply (d_do_move o (cf_checks cf) (zt cf) val HA HP HB HZ HH).
  - apply d_undo_move.
  - apply (d_legal_moves o val HA HP HB HR HM HF).
  - intros A. apply (d_job cf val HA HP HB HR HM HF HZ HH).
Qed.
Print Assumptions C70_functions.

(* what a program may start with *)
Definition good_job {A} (checks : bool) (K : keying) (j : partial * client A) : Prop :=
  let g := game_of (fst j) in
  valid g /\ hands_fit (g_hand g) /\ (pp_ply (fst j) <= 65535)%N /\
  keeps checks true K (snd j) (mkT g (pp_ply (fst j)) []).

(* Any number of threads, each of which makes a position and runs a program on it
   that keeps to the rules, share the tables, none of which is built at the start:
   in whatever order they take their steps, the number of steps is bounded, no
   thread waits for ever, and each ends with a result its program could have had
   if the answers had come from the rules of shogi. *)
Theorem C70_threads {A} cf (jobs : list (partial * client A)) :
  let o := ops cf in
  (forall j, In j jobs -> good_job (cf_checks cf) (keyed (zt cf) []) j) ->
  let start := fresh (cty o) (map (fun j => s_job cf (fst j) (snd j)) jobs) in
  (exists bound, forall tr m ths, runs (cty o) (cinit o (cf_rng cf)) start tr (m, ths) ->
    length tr <= bound /\
    ((forall th, In th ths -> finished _ th) \/ exists lab s, step (cty o) (cinit o (cf_rng cf)) (m, ths) lab s) /\
    forall i pp c th, nth_error jobs i = Some (pp, c) -> nth_error ths i = Some th -> finished _ th ->
      exists a t', result th = Some a /\ plays (keyed (zt cf) []) c (mkT (game_of pp) (pp_ply pp) []) a t') /\
  exists tr m ths, runs (cty o) (cinit o (cf_rng cf)) start tr (m, ths) /\
    length ths = length jobs /\ forall th, In th ths -> finished _ th.
Proof.
  intros o Ok start.
  destruct (C70_functions cf) as [val [Run [_ [_ [_ [_ [_ [_ J]]]]]]]]. fold o in Run, J.
  destruct (Run A (map (fun j => s_job cf (fst j) (snd j)) jobs)) as [bound B]. fold start in B.
  split.
  - exists bound. intros tr m ths X. destruct (B tr m ths X) as [B1 [B2 [B3 B4]]].
    split; [exact B1|]. split; [exact B4|]. intros i pp c th Nj Nt F.
    rewrite (B3 i (s_job cf pp c) th (map_nth_error _ _ _ Nj) Nt F), J.
    destruct (Ok (pp, c) (nth_error_In _ _ Nj)) as [V [HF [Pl K]]]. cbn [fst snd] in *.
    destruct (start_fit cf pp V HF Pl) as [p [N [R [G Y]]]].
    rewrite N. cbn [bind].
    destruct (C64_client_refines cf c [] p R) as [a [q [t' [E [P _]]]]]; [rewrite G, Y; assumption|].
    rewrite G, Y in P. exists a, t'. rewrite E. split; [reflexivity|exact P].
  - assert (X : forall n tr m ths, runs (cty o) (cinit o (cf_rng cf)) start tr (m, ths) -> bound <= length tr + n ->
      exists tr m ths, runs (cty o) (cinit o (cf_rng cf)) start tr (m, ths) /\ forall th, In th ths -> finished _ th).
    { induction n as [|n IH]; intros tr m ths X L; destruct (B tr m ths X) as [B1 [_ [_ [F|[lab [[m' ths'] S]]]]]].
      - exists tr, m, ths. split; assumption.
      - assert (X' := R_more _ _ _ _ _ _ _ X S). apply B in X' as [Y _]. cbn [length] in Y. lia.
      - exists tr, m, ths. split; assumption.
      - apply (IH (lab :: tr) m' ths'); [exact (R_more _ _ _ _ _ _ _ X S)|cbn [length]; lia]. }
    destruct (X bound [] (fst start) (snd start)) as [tr [m [ths [Y F]]]]; [apply R_here|cbn [length]; lia|].
    exists tr, m, ths. split; [exact Y|]. split; [|exact F].
    destruct (B tr m ths Y) as [_ [L _]]. rewrite L. apply map_length.
Qed.
Print Assumptions C70_threads.

(* The solver of mate problems in several threads: one result for each depth. *)
Theorem C70_solvers cf pp (ds : list nat) :
  let o := ops cf in
  valid (game_of pp) -> standard_material (game_of pp) -> opponent_has_king (game_of pp) -> (pp_ply pp <= 65535)%N ->
  (forall d, In d ds -> cf_checks cf = false \/ (pp_ply pp + 2 * N.of_nat d <= 65535)%N) ->
  forall tr m ths,
  runs (cty o) (cinit o (cf_rng cf)) (fresh (cty o) (map (fun d => s_job cf pp (solve d Ret)) ds)) tr (m, ths) ->
  forall i d th, nth_error ds i = Some d -> nth_error ths i = Some th -> finished _ th ->
  exists b, result th = Some b /\ (b = true <-> forced d (game_of pp)).
Proof.
  intros o V SM BK Pl Bd tr m ths X i d th Nd Nt F.
  assert (HO : hand_ok (game_of pp)).
  { destruct (start_reachable cf pp V SM Pl) as [p [_ [_ [G _]]]]. rewrite <- G. apply reach_hand_ok. }
  destruct (C70_threads cf (map (fun d => (pp, solve d Ret)) ds)) as [[bound B] _].
  { intros j Hj. apply in_map_iff in Hj as [e [<- He]]. unfold good_job. cbn [fst snd].
    split; [assumption|]. split; [exact (material_fit _ SM)|]. split; [assumption|].
    refine (solve_safe (keyed (zt cf) []) (cf_checks cf) e (mkT (game_of pp) (pp_ply pp) []) V HO SM BK _ Ret _); [exact (Bd e He)|].
    intros b _. constructor. }
  rewrite map_map in B. cbn [fst snd] in B. fold o in B.
  destruct (B tr m ths X) as [_ [_ H]].
  destruct (H i pp (solve d Ret) th) as [a [t' [E P]]];
    [apply (map_nth_error (fun d => (pp, solve d Ret))); exact Nd|exact Nt|exact F|].
  apply solve_finds in P as [b [Hb P]]. inversion P; subst. exists a. split; [exact E|exact Hb].
Qed.
Print Assumptions C70_solvers.

(* two threads at the problem of PropClient.v, a mate in two moves; there is an
   execution in which both end *)
Example C70_example cf : exists tr m ths,
  runs (cty (ops cf)) (cinit (ops cf) (cf_rng cf))
    (fresh (cty (ops cf)) [s_job cf problem (solve 1 Ret); s_job cf problem (solve 2 Ret)]) tr (m, ths) /\
  map (fun th => result th) ths = [Some false; Some true].
Proof.
  pose proof problem_ok as Ok. unfold demo_okb in Ok. rewrite !andb_true_iff in Ok. destruct Ok as [[[[V M] _] _] _].
  apply validb_spec in V. pose proof (standardb_spec _ M) as SM.
  pose proof (proj1 problem_kings) as BK.
  assert (Pl : (pp_ply problem <= 65535)%N) by (vm_compute; discriminate).
  assert (HO : hand_ok (game_of problem)).
  { destruct (start_reachable cf problem V SM Pl) as [p [_ [_ [G _]]]]. rewrite <- G. apply reach_hand_ok. }
  assert (Bd : forall d, In d [1; 2] -> cf_checks cf = false \/ (pp_ply problem + 2 * N.of_nat d <= 65535)%N).
  { intros d Hd. right. change (pp_ply problem) with 1%N. destruct Hd as [<-|[<-|[]]]; lia. }
  destruct (C70_threads cf [(problem, solve 1 Ret); (problem, solve 2 Ret)]) as [_ [tr [m [ths [X [L F]]]]]].
  { intros j Hj. unfold good_job.
    assert (E : exists d, In d [1; 2] /\ j = (problem, solve d Ret)).
    { destruct Hj as [<-|[<-|[]]]; [exists 1|exists 2]; (split; [cbn; tauto|reflexivity]). }
    destruct E as [d [Hd ->]]. cbn [fst snd].
    split; [assumption|]. split; [exact (material_fit _ SM)|]. split; [assumption|].
    refine (solve_safe (keyed (zt cf) []) (cf_checks cf) d (mkT (game_of problem) (pp_ply problem) []) V HO SM BK (Bd d Hd) Ret _).
    intros b _. constructor. }
  exists tr, m, ths. split; [exact X|].
  destruct C64_example as [_ [F2 [F1 _]]].
  pose proof (C70_solvers cf problem [1; 2] V SM BK Pl Bd tr m ths X) as S.
  destruct ths as [|t1 [|t2 [|]]]; try discriminate L.
  destruct (S 0 1 t1 eq_refl eq_refl (F t1 (or_introl eq_refl))) as [b1 [E1 H1]].
  destruct (S 1 2 t2 eq_refl eq_refl (F t2 (or_intror (or_introl eq_refl)))) as [b2 [E2 H2]].
  cbn [map]. rewrite E1, E2. f_equal; [|f_equal].
  - f_equal. destruct b1; [|reflexivity]. exfalso. apply F1. now apply H1.
  - f_equal. now apply H2.
Qed.
