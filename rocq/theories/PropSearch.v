(** * C76: search by alpha-beta over the crate *)

From Coq Require Import String List Bool NArith ZArith Lia.
From Verif Require Import Types Rules Bitboard Tables Zobrist Position Movegen Init Api Sfen
  ValidPlay Reach Decide Lines PerftSpec Witness Lazy Statics Flat Source SourceSpec Client SourceClient
  PropLazy PropClient PropSource Search.
Import ListNotations.
Local Open Scope Z_scope.

(** C76 *)

(* every position has exactly one minimax value, for any weights and any depth *)
Theorem C76_one_value W d g : exists v, minimax W d g v /\ forall u, minimax W d g u -> u = v.
Proof.
  exists (mm W d g). split; [apply minimax_mm; reflexivity|]. intros u H. apply minimax_mm. exact H.
Qed.
Print Assumptions C76_one_value.

(* A negamax search with alpha-beta pruning, written with the methods of the crate:
   it ends without a panic, puts the position back, and returns the minimax value cut
   off at the window, in whatever order the crate lists the moves. *)
Theorem C76_alpha_beta cf W d alpha beta ms p :
  reachable cf ms p -> standard_material (view cf p) -> both_kings (view cf p) ->
  cf_checks cf = false \/ (Yasai.ply cf p + N.of_nat d <= 65535)%N -> alpha < beta ->
  exists r, exec cf (alpha_beta W d alpha beta Ret) p = Some (r, p) /\
    forall v, minimax W d (view cf p) v ->
      (v <= alpha -> r = alpha) /\ (alpha <= v <= beta -> r = v) /\ (beta <= v -> r = beta).
Proof.
  intros R SM BK B Lt.
  destruct (C64_client_refines cf (alpha_beta W d alpha beta Ret) ms p R) as [a [q [t' [E [P [_ [_ Q]]]]]]].
  { apply alpha_beta_fine; [|exact B|intros v; constructor].
    split; [exact (reach_valid cf ms p R)|]. split; [apply reach_hand_ok|]. split; assumption. }
  apply alpha_beta_gets in P; [|exact Lt]. inversion P; subst. cbn [t_past] in Q. rewrite (Q eq_refl) in E.
  eexists. split; [exact E|]. intros v H. apply minimax_mm in H. cbn [t_game]. rewrite <- H. unfold clamp. lia.
Qed.
Print Assumptions C76_alpha_beta.

(* The move of the engine: [B] bounds the score.  If there is a legal move, the search
   answers with one that attains the minimax value, and with that value. *)
Theorem C76_best_move cf W d B ms p :
  reachable cf ms p -> standard_material (view cf p) -> both_kings (view cf p) ->
  cf_checks cf = false \/ (Yasai.ply cf p + N.of_nat (S d) <= 65535)%N ->
  - B < w_mate W < B ->
  (forall g, valid g -> standard_material g -> - B < score W g < B) ->
  exists best v, exec cf (best_move W d B Ret) p = Some ((best, v), p) /\
    match best with
    | None => forall m, ~ legal (view cf p) m
    | Some m => legal (view cf p) m /\ minimax W (S d) (view cf p) v /\ minimax W d (play (view cf p) m) (- v)
    end.
Proof.
  intros R SM BK Bd BM BS.
  assert (D : decent (view cf p)).
  { split; [exact (reach_valid cf ms p R)|]. split; [apply reach_hand_ok|]. split; assumption. }
  destruct (C64_client_refines cf (best_move W d B Ret) ms p R) as [a [q [t' [E [P [_ [_ Q]]]]]]].
  { apply best_move_fine; [exact D|exact Bd|intros v; constructor]. }
  apply best_move_gets in P as [r [P G]]; [|exact D|exact BM|intros g [V [_ [M _]]]; apply BS; assumption].
  inversion P; subst. cbn [t_past] in Q. rewrite (Q eq_refl) in E. destruct a as [best v].
  exists best, v. split; [exact E|]. unfold good_answer in G. cbn [fst snd t_game] in G. destruct best; [exact G|apply G].
Qed.
Print Assumptions C76_best_move.

(* Several threads, each with its own position, window and depth, share the tables of
   the crate: every thread that ends has its value. *)
Theorem C76_threads cf W (jobs : list (partial * nat * Z * Z)) :
  let o := ops cf in
  let job (j : partial * nat * Z * Z) :=
    match j with (pp, d, alpha, beta) => s_job cf pp (alpha_beta W d alpha beta Ret) end in
  (forall pp d alpha beta, In (pp, d, alpha, beta) jobs ->
     valid (game_of pp) /\ standard_material (game_of pp) /\ both_kings (game_of pp) /\ alpha < beta /\
     (pp_ply pp <= 65535)%N /\ (cf_checks cf = false \/ (pp_ply pp + N.of_nat d <= 65535)%N)) ->
  forall tr m ths,
  runs (cty o) (cinit o (cf_rng cf)) (fresh (cty o) (map job jobs)) tr (m, ths) ->
  forall i pp d alpha beta th, nth_error jobs i = Some (pp, d, alpha, beta) -> nth_error ths i = Some th ->
  finished _ th ->
  exists r, result th = Some r /\ forall v, minimax W d (game_of pp) v -> r = Z.max alpha (Z.min beta v).
Proof.
  intros o job Ok tr m ths X i pp d alpha beta th Nj Nt F.
  set (f := fun j : partial * nat * Z * Z =>
    match j with (pp, d, alpha, beta) => (pp, alpha_beta (A := Z) W d alpha beta Ret) end).
  destruct (C70_threads cf (map f jobs)) as [[bound B] _].
  { intros j Hj. apply in_map_iff in Hj as [[[[qq e] al] be] [<- He]].
    destruct (Ok _ _ _ _ He) as [V [SM [BK [Lt [Pl Bd]]]]]. unfold good_job, f. cbn [fst snd].
    split; [exact V|]. split; [exact (material_fit _ SM)|]. split; [exact Pl|].
    apply alpha_beta_fine; cbn [t_game t_ply]; [|exact Bd|intros v; constructor].
    split; [exact V|]. split; [|split; assumption].
    destruct (start_reachable cf qq V SM Pl) as [p [_ [_ [G _]]]]. rewrite <- G. apply reach_hand_ok. }
  rewrite map_map in B. subst o.
  assert (EM : map (fun x => s_job cf (fst (f x)) (snd (f x))) jobs = map job jobs).
  { apply map_ext. intros [[[qq e] al] be]. reflexivity. }
  rewrite EM in B. destruct (B tr m ths X) as [_ [_ H]].
  destruct (H i pp (alpha_beta W d alpha beta Ret) th (map_nth_error f _ _ Nj) Nt F) as [a [t' [E P]]].
  destruct (Ok _ _ _ _ (nth_error_In _ _ Nj)) as [_ [_ [_ [Lt _]]]].
  apply alpha_beta_gets in P; [|exact Lt]. inversion P; subst. eexists. split; [exact E|].
  intros v Hv. apply minimax_mm in Hv. cbn [t_game]. rewrite <- Hv. reflexivity.
Qed.
Print Assumptions C76_threads.

(* Points for an example: what the pieces are worth.  A Black rook may take a gold
   that a pawn defends: worth it at depth 1, not at depth 2. *)
Definition worth (k : kind) : Z :=
  match k with
  | Pawn => 1 | Lance => 3 | Knight => 4 | Silver => 5 | Gold => 6 | Bishop => 8 | Rook => 10 | King => 0
  | ProPawn | ProLance | ProKnight | ProSilver => 6 | ProBishop => 10 | ProRook => 12
  end.
Definition by_color (c : color) (v : Z) : Z := match c with Black => v | White => - v end.
Definition plain : weights :=
  mkW (fun _ x => by_color (pcolor x) (worth (pkind x)))
      (fun c k n => by_color c (worth k * Z.of_N n)) 9999.
Lemma plain_bound g : standard_material g -> - 10000 < score plain g < 10000.
Proof.
  intros SM.
  assert (T : forall A (f : A -> Z) b l, (forall x, - b <= f x <= b) ->
    - (b * Z.of_nat (List.length l)) <= total (map f l) <= b * Z.of_nat (List.length l)).
  { intros A f b l H. induction l as [|x l IH]; [cbn; lia|]. cbn [map total fold_right List.length] in *.
    fold (total (map f l)) in *. specialize (H x). lia. }
  assert (P : forall s, - 12 <= piece_points plain g s <= 12).
  { intros s. unfold piece_points. destruct (g_board g s) as [[k c]|]; [|lia]. destruct k, c; cbn; lia. }
  assert (Q : forall x, - 216 <= hand_points plain g x <= 216).
  { intros [c k]. unfold hand_points, plain. cbn [w_hand fst snd].
    assert (N : (g_hand g c k <= 18)%N).
    { specialize (SM k). unfold material in SM. destruct c, k; cbn [full_set] in SM; lia. }
    assert (Wk : 0 <= worth k <= 12) by (destruct k; cbn; lia).
    destruct c; cbn [by_color]; nia. }
  pose proof (T _ _ 12 all_squares P) as T1. pose proof (T _ _ 216 slots Q) as T2.
  change (List.length all_squares) with 81%nat in T1. change (List.length slots) with 14%nat in T2.
  unfold score, points. destruct (g_side g); lia.
Qed.

Definition exchange := sfen "4k4/9/2p6/2g6/9/9/9/2R6/4K4" Black "-".
Lemma exchange_ok : demo_okb exchange [] = true.
Proof. vm_compute. reflexivity. Qed.
Definition searched (cf : config) (d : nat) : option (option move * Z) :=
  let* p := Yasai.new cf exchange in let* r := exec cf (best_move plain d 10000 Ret) p in Some (fst r).
Definition takes_gold : move := mv (n7, n8) (n7, n4) false.
Lemma some_searched : let cf := mkCfg X86_64 true (fun i => i) in
  searched cf 0 = Some (Some takes_gold, 15) /\ option_map snd (searched cf 1) = Some 3.
Proof. vm_compute. split; reflexivity. Qed.

Example C76_example : minimax plain 1 (game_of exchange) 15 /\ minimax plain 2 (game_of exchange) 3 /\
  forall cf, searched cf 0 = Some (Some takes_gold, 15) /\
    exists m, searched cf 1 = Some (Some m, 3) /\ m <> takes_gold /\ minimax plain 1 (play (game_of exchange) m) (-3).
Proof.
  assert (X : forall cf d, (d <= 1)%nat -> exists best v, searched cf d = Some (best, v) /\
    match best with
    | None => forall m, ~ legal (game_of exchange) m
    | Some m => legal (game_of exchange) m /\ minimax plain (S d) (game_of exchange) v /\
        minimax plain d (play (game_of exchange) m) (- v)
    end).
  { intros cf d Le. destruct (demo_new cf exchange exchange_ok) as [p [l [N [R [G [Y _]]]]]].
    destruct (C76_best_move cf plain d 10000 [] p R (demo_std cf _ p exchange_ok G)) as [best [v [E H]]].
    - rewrite G. intros []; [exists (Sq n5 n9)|exists (Sq n5 n1)]; reflexivity.
    - right. rewrite Y. change (pp_ply exchange) with 1%N. lia.
    - cbn [w_mate plain]. lia.
    - intros g _. apply plain_bound.
    - exists best, v. unfold searched. rewrite N. cbn [bind]. rewrite E. rewrite G in H. split; [reflexivity|exact H]. }
  destruct some_searched as [S0 S1]. set (c0 := mkCfg X86_64 true (fun i => i)) in *.
  assert (M1 : minimax plain 1 (game_of exchange) 15).
  { destruct (X c0 0%nat) as [best [v [E H]]]; [lia|]. rewrite S0 in E. injection E as <- <-. apply H. }
  assert (SL : exists m, legal (game_of exchange) m).
  { exists takes_gold. apply legalb_spec. vm_compute. reflexivity. }
  assert (M2 : minimax plain 2 (game_of exchange) 3).
  { destruct (X c0 1%nat) as [best [v [E H]]]; [lia|]. rewrite E in S1. injection S1 as ->.
    destruct best as [m|]; [apply H|]. destruct SL as [m L]. destruct (H m L). }
  assert (T : filter (fun m => legalb (game_of exchange) m && (score plain (play (game_of exchange) m) =? -15))
    every_move = [takes_gold]) by (vm_compute; reflexivity).
  assert (T2 : mm plain 1 (play (game_of exchange) takes_gold) <> -3) by (vm_compute; discriminate).
  split; [exact M1|]. split; [exact M2|]. intros cf. split.
  - destruct (X cf 0%nat) as [best [v [E H]]]; [lia|].
    destruct best as [m|]; [|destruct SL as [m L]; destruct (H m L)]. destruct H as [L [H1 H2]].
    assert (v = 15) by (destruct (C76_one_value plain 1 (game_of exchange)) as [w [_ U]];
      rewrite (U v H1), (U 15 M1); reflexivity). subst v.
    assert (I : In m [takes_gold]).
    { rewrite <- T. apply filter_In. split; [apply every_move_in|]. cbn [minimax] in H2.
      rewrite (proj2 (legalb_spec _ _) L), <- H2. reflexivity. }
    destruct I as [<-|[]]. exact E.
  - destruct (X cf 1%nat) as [best [v [E H]]]; [lia|].
    destruct best as [m|]; [|destruct SL as [m L]; destruct (H m L)]. destruct H as [L [H1 H2]].
    assert (v = 3) by (destruct (C76_one_value plain 2 (game_of exchange)) as [w [_ U]];
      rewrite (U v H1), (U 3 M2); reflexivity). subst v.
    exists m. split; [exact E|]. split; [|exact H2]. intros ->. apply minimax_mm in H2. exact (T2 (eq_sym H2)).
Qed.
