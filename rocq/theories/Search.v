(** * A client: search by alpha-beta

    The search most engines use, written with the methods of the crate, and the
    minimax value it is to find. *)

From Coq Require Import List Bool NArith ZArith Lia.
From Verif Require Import Types Rules Bitboard Tables Zobrist Position Movegen Perft Api
  ValidPlay Reach Lines Decide PerftSpec Client.
Import ListNotations.
Local Open Scope Z_scope.

(** ** The value of a position *)

(* points for pieces on squares and in hand, from Black's point of view, and for a mate *)
Record weights := mkW { w_piece : square -> piece -> Z; w_hand : color -> kind -> N -> Z; w_mate : Z }.

Definition slots : list (color * kind) := list_prod [Black; White] hand_kinds.
Definition total (l : list Z) : Z := fold_right Z.add 0 l.
Definition piece_points (W : weights) (g : game) (s : square) : Z :=
  match g_board g s with Some x => w_piece W s x | None => 0 end.
Definition hand_points (W : weights) (g : game) (x : color * kind) : Z :=
  w_hand W (fst x) (snd x) (g_hand g (fst x) (snd x)).
Definition points (W : weights) (g : game) : Z :=
  total (map (piece_points W g) all_squares) + total (map (hand_points W g) slots).
(* from the point of view of the side to move *)
Definition score (W : weights) (g : game) : Z :=
  match g_side g with Black => points W g | White => - points W g end.

(* [minimax W d g v]: [v] is what the side to move gets with best play for [d] moves,
   by the score then or a mate before *)
Fixpoint minimax (W : weights) (d : nat) (g : game) (v : Z) : Prop :=
  match d with
  | O => v = score W g
  | S d =>
      ((forall m, ~ legal g m) /\ v = - w_mate W) \/
      ((exists m, legal g m /\ minimax W d (play g m) (- v)) /\
       forall m u, legal g m -> minimax W d (play g m) u -> - u <= v)
  end.

(** ** There is one *)

Fixpoint maxl (a : Z) (l : list Z) : Z := match l with [] => a | x :: l => maxl (Z.max a x) l end.
Lemma maxl_ge l : forall a, a <= maxl a l.
Proof. induction l as [|x l IH]; intros a; cbn [maxl]; [lia|]. specialize (IH (Z.max a x)). lia. Qed.
Lemma maxl_in l : forall a x, In x l -> x <= maxl a l.
Proof.
  induction l as [|y l IH]; intros a x []; cbn [maxl].
  - subst. pose proof (maxl_ge l (Z.max a x)). lia.
  - apply IH. assumption.
Qed.
Lemma maxl_one l : forall a, maxl a l = a \/ In (maxl a l) l.
Proof.
  induction l as [|y l IH]; intros a; cbn [maxl In]; [tauto|].
  destruct (IH (Z.max a y)) as [E|I]; [|tauto]. rewrite E.
  destruct (Z.max_spec a y) as [[_ ->]|[_ ->]]; tauto.
Qed.

Definition legal_list (g : game) : list move := filter (legalb g) every_move.
Lemma legal_list_in g m : In m (legal_list g) <-> legal g m.
Proof.
  unfold legal_list. rewrite filter_In, legalb_spec. split; [tauto|]. intros L. split; [apply every_move_in|exact L].
Qed.

Fixpoint mm (W : weights) (d : nat) (g : game) : Z :=
  match d with
  | O => score W g
  | S d => match legal_list g with
           | [] => - w_mate W
           | m :: l => maxl (- mm W d (play g m)) (map (fun m => - mm W d (play g m)) l)
           end
  end.

Lemma minimax_mm W d : forall g v, minimax W d g v <-> v = mm W d g.
Proof.
  induction d as [|d IH]; intros g v; [reflexivity|]. cbn [minimax mm].
  pose proof (legal_list_in g) as LL. destruct (legal_list g) as [|m0 l].
  - split.
    + intros [[_ E]|[[m [L _]] _]]; [exact E|]. apply LL in L. destruct L.
    + intros E. left. split; [|exact E]. intros m L. apply LL in L. destruct L.
  - set (f := fun m => - mm W d (play g m)).
    change (- mm W d (play g m0)) with (f m0).
    assert (Up : forall m, legal g m -> f m <= maxl (f m0) (map f l)).
    { intros m L. apply LL in L as [<-|L]; [apply maxl_ge|]. apply maxl_in. apply in_map. exact L. }
    assert (At : exists m, legal g m /\ f m = maxl (f m0) (map f l)).
    { destruct (maxl_one (map f l) (f m0)) as [E|I].
      - exists m0. split; [apply LL; left; reflexivity|]. rewrite E. reflexivity.
      - apply in_map_iff in I as [m [E I]]. exists m. split; [apply LL; right; exact I|exact E]. }
    split.
    + intros [[N _]|[[m [L H]] B]]; [exfalso; apply (N m0), LL; left; reflexivity|].
      apply IH in H. specialize (Up m L) as U. unfold f at 1 in U.
      destruct At as [m' [L' E']]. specialize (B m' (mm W d (play g m')) L' (proj2 (IH _ _) eq_refl)).
      fold (f m') in B. rewrite E' in B. lia.
    + intros ->. right. split.
      * destruct At as [m [L E]]. exists m. split; [exact L|]. apply IH. rewrite <- E. unfold f. lia.
      * intros m u L H. apply IH in H. subst u. exact (Up m L).
Qed.

(* any list of the legal moves gives it *)
Lemma mm_list W d g m0 l : (forall m, In m (m0 :: l) <-> legal g m) ->
  mm W (S d) g = maxl (- mm W d (play g m0)) (map (fun m => - mm W d (play g m)) l).
Proof.
  intros H. symmetry. apply minimax_mm. cbn [minimax]. right. set (f := fun m => - mm W d (play g m)).
  change (- mm W d (play g m0)) with (f m0). split.
  - destruct (maxl_one (map f l) (f m0)) as [E|I].
    + exists m0. split; [apply H; left; reflexivity|]. apply minimax_mm. rewrite E. unfold f. lia.
    + apply in_map_iff in I as [m [E I]]. exists m. split; [apply H; right; exact I|].
      apply minimax_mm. rewrite <- E. unfold f. lia.
  - intros m u L X. apply minimax_mm in X. subst u. fold (f m). apply H in L as [<-|L]; [apply maxl_ge|].
    apply maxl_in. apply in_map. exact L.
Qed.

(* values are within the bounds of the score and of a mate *)
Lemma mm_bound W B d : - B < w_mate W < B ->
  (forall g, decent g -> - B < score W g < B) -> forall g, decent g -> - B < mm W d g < B.
Proof.
  intros BM BS. induction d as [|d IH]; intros g D; [apply BS, D|].
  pose proof (proj2 (minimax_mm W (S d) g _) eq_refl) as H. cbn [minimax] in H.
  destruct H as [[_ E]|[[m [L H]] _]]; [lia|].
  apply minimax_mm in H. specialize (IH (play g m) (decent_play g m D L)). lia.
Qed.

(** ** The search *)

Definition clamp (alpha beta v : Z) : Z := Z.max alpha (Z.min beta v).

Section Search.
Context {A : Type} (W : weights).
Definition getter : Type := (Z -> client A) -> client A.

Fixpoint sum_board (l : list square) (acc : Z) : getter := fun k =>
  match l with
  | [] => k acc
  | s :: l => PieceAt s (fun x => sum_board l (acc + match x with Some x => w_piece W s x | None => 0 end) k)
  end.
Fixpoint sum_hands (l : list (color * kind)) (acc : Z) : getter := fun k =>
  match l with
  | [] => k acc
  | (c, x) :: l => HandOf c x (fun n => sum_hands l (acc + w_hand W c x n) k)
  end.
Definition evaluate : getter := fun k =>
  sum_board all_squares 0 (fun b => sum_hands slots b (fun v =>
    SideToMove (fun c => k (match c with Black => v | White => - v end)))).

(* the moves one by one; [alpha] is the best value so far, and [beta] is enough *)
Fixpoint try_all (body : Z -> move -> getter) (alpha beta : Z) (l : list move) : getter := fun k =>
  match l with
  | [] => k alpha
  | m :: l => body alpha m (fun v => if beta <=? v then k beta else try_all body (Z.max alpha v) beta l k)
  end.

Fixpoint alpha_beta (d : nat) (alpha beta : Z) : getter := fun k =>
  match d with
  | O => evaluate (fun v => k (clamp alpha beta v))
  | S d =>
      LegalMoves (fun l =>
        match l with
        | [] => k (clamp alpha beta (- w_mate W))
        | _ => try_all (fun alpha m k =>
                 DoM m (alpha_beta d (- beta) (- alpha) (fun v => UndoM m (k (- v))))) alpha beta l k
        end)
  end.

(* at the root: the first move with the best value *)
Fixpoint pick (body : Z -> move -> getter) (alpha : Z) (best : option move) (l : list move)
    (k : option move * Z -> client A) : client A :=
  match l with
  | [] => k (best, alpha)
  | m :: l => body alpha m (fun v => if alpha <? v then pick body v (Some m) l k else pick body alpha best l k)
  end.
Definition best_move (d : nat) (B : Z) (k : option move * Z -> client A) : client A :=
  LegalMoves (fun l =>
    pick (fun alpha m k => DoM m (alpha_beta d (- B) (- alpha) (fun v => UndoM m (k (- v))))) (- B) None l k).

(** ** It finds the value *)

Context (K : keying).
(* a piece of a program that gets [r] and leaves the table as it is *)
Definition gets (f : getter) (t : table) (r : Z) : Prop := forall k a t',
  plays K (f k) t a t' -> plays K (k r) t a t'.

Lemma sum_board_gets t l : forall acc,
  gets (sum_board l acc) t (acc + total (map (piece_points W (t_game t)) l)).
Proof.
  induction l as [|s l IH]; intros acc k a t' P; cbn [sum_board map total fold_right] in *.
  - rewrite Z.add_0_r. exact P.
  - inversion P as [|? ? ? ? ? P'| | | | | | | | | | |]; subst. apply IH in P'.
    fold (piece_points W (t_game t) s) in P'. fold (total (map (piece_points W (t_game t)) l)).
    rewrite Z.add_assoc. exact P'.
Qed.
Lemma sum_hands_gets t l : forall acc,
  gets (sum_hands l acc) t (acc + total (map (hand_points W (t_game t)) l)).
Proof.
  induction l as [|[c x] l IH]; intros acc k a t' P; cbn [sum_hands map total fold_right] in *.
  - rewrite Z.add_0_r. exact P.
  - inversion P as [| |? ? ? ? ? ? P'| | | | | | | | | |]; subst. apply IH in P'.
    fold (total (map (hand_points W (t_game t)) l)). rewrite Z.add_assoc. exact P'.
Qed.
Lemma evaluate_gets t : gets evaluate t (score W (t_game t)).
Proof.
  intros k a t' P. unfold evaluate in P. apply sum_board_gets in P. apply sum_hands_gets in P.
  inversion P as [| | |? ? ? ? P'| | | | | | | | |]; subst. unfold score, points. exact P'.
Qed.

Lemma maxl_max l : forall a b, maxl (Z.max a b) l = Z.max a (maxl b l).
Proof.
  induction l as [|x l IH]; intros a b; cbn [maxl]; [reflexivity|]. rewrite <- Z.max_assoc. apply IH.
Qed.

Lemma try_all_gets body t beta f l :
  (forall m alpha, In m l -> alpha < beta -> gets (body alpha m) t (clamp alpha beta (f m))) ->
  forall alpha, alpha < beta -> gets (try_all body alpha beta l) t (Z.min beta (maxl alpha (map f l))).
Proof.
  induction l as [|m l IH]; intros H alpha Lt k a t' P; cbn [try_all map maxl] in *.
  - rewrite Z.min_r by lia. exact P.
  - apply (H m alpha (or_introl eq_refl) Lt) in P. unfold clamp in P.
    destruct (Z.leb_spec beta (Z.max alpha (Z.min beta (f m)))) as [Le|Gt].
    + pose proof (maxl_ge (map f l) (Z.max alpha (f m))). rewrite Z.min_l by lia. exact P.
    + apply (IH (fun m' al I => H m' al (or_intror I))) in P; [|lia].
      replace (Z.max alpha (Z.max alpha (Z.min beta (f m)))) with (Z.max alpha (f m)) in P by lia. exact P.
Qed.

Lemma alpha_beta_gets d : forall alpha beta t, alpha < beta ->
  gets (alpha_beta d alpha beta) t (clamp alpha beta (mm W d (t_game t))).
Proof.
  induction d as [|d IH]; intros alpha beta t Lt k a t' P.
  - cbn [alpha_beta] in P. apply evaluate_gets in P. exact P.
  - cbn [alpha_beta] in P. inversion P as [| | | | | | |l ? ? ? ? ND HL P'| | | | |]; subst. clear P.
    destruct l as [|m0 l].
    + replace (mm W (S d) (t_game t)) with (- w_mate W); [exact P'|].
      apply minimax_mm. left. split; [|reflexivity]. intros m L. apply HL in L. destruct L.
    + assert (G : forall m al, In m (m0 :: l) -> al < beta ->
        gets (fun k => DoM m (alpha_beta d (- beta) (- al) (fun v => UndoM m (k (- v))))) t
          (clamp al beta (- mm W d (play (t_game t) m)))).
      { intros m al _ La k' a' u P. inversion P as [| | | | | | | |? ? g n h ? ? P2| | | |]; subst. clear P.
        apply IH in P2; [|lia]. inversion P2 as [| | | | | | | | |? ? ? ? ? ? ? ? ? P3| | |]; subst. cbn [t_game] in *.
        replace (clamp al beta (- mm W d (play g m))) with (- clamp (- beta) (- al) (mm W d (play g m)))
          by (unfold clamp; lia). exact P3. }
      apply (try_all_gets _ t beta (fun m => - mm W d (play (t_game t) m)) (m0 :: l) G alpha Lt) in P'.
      rewrite (mm_list W d (t_game t) m0 l HL). cbn [map maxl] in P'. unfold clamp.
      rewrite maxl_max in P'.
      match goal with |- plays K (k ?x) _ _ _ => match type of P' with plays K (k ?y) _ _ _ =>
        replace x with y; [exact P'|] end end. lia.
Qed.

(* what the root search may answer *)
Definition good_answer (d : nat) (g : game) (B : Z) (r : option move * Z) : Prop :=
  match fst r with
  | None => (forall m, ~ legal g m) /\ snd r = - B
  | Some m => legal g m /\ minimax W (S d) g (snd r) /\ minimax W d (play g m) (- snd r)
  end.

Lemma pick_gets body t B f l :
  (forall m alpha, In m l -> alpha < B -> gets (body alpha m) t (clamp alpha B (f m))) ->
  forall alpha best, alpha < B -> (forall m, In m l -> f m < B) ->
  forall k a t', plays K (pick body alpha best l k) t a t' ->
  exists r, plays K (k r) t a t' /\ snd r = maxl alpha (map f l) /\
    (fst r = best /\ snd r = alpha \/ exists m, In m l /\ fst r = Some m /\ snd r = f m).
Proof.
  induction l as [|m l IH]; intros H alpha best Lt F k a t' P; cbn [pick map maxl] in *.
  - exists (best, alpha). split; [exact P|]. split; [reflexivity|]. left. split; reflexivity.
  - apply (H m alpha (or_introl eq_refl) Lt) in P. specialize (F m (or_introl eq_refl)) as Fm.
    unfold clamp in P. destruct (Z.ltb_spec alpha (Z.max alpha (Z.min B (f m)))) as [L|L].
    + replace (Z.max alpha (Z.min B (f m))) with (f m) in P by lia.
      destruct (IH (fun m' al I => H m' al (or_intror I)) (f m) (Some m) Fm (fun m' I => F m' (or_intror I)) k a t' P)
        as [r [P' [E X]]]. exists r. split; [exact P'|]. rewrite Z.max_r by lia. split; [exact E|]. right.
      destruct X as [[X1 X2]|[m' [I X]]];
        [exists m; split; [left; reflexivity|]; split; assumption|exists m'; split; [right; exact I|exact X]].
    + destruct (IH (fun m' al I => H m' al (or_intror I)) alpha best Lt (fun m' I => F m' (or_intror I)) k a t' P)
        as [r [P' [E X]]]. exists r. split; [exact P'|]. rewrite Z.max_l by lia. split; [exact E|].
      destruct X as [X|[m' [I X]]]; [left; exact X|right; exists m'; split; [right; exact I|exact X]].
Qed.

Lemma best_move_gets d B t : decent (t_game t) -> - B < w_mate W < B ->
  (forall g, decent g -> - B < score W g < B) ->
  forall k a t', plays K (best_move d B k) t a t' ->
  exists r, plays K (k r) t a t' /\ good_answer d (t_game t) B r.
Proof.
  intros D BM BS k a t' P. unfold best_move in P.
  inversion P as [| | | | | | |l ? ? ? ? ND HL P'| | | | |]; subst. clear P.
  assert (Bd : forall m, In m l -> - B < - mm W d (play (t_game t) m) < B).
  { intros m I. apply HL in I. pose proof (mm_bound W B d BM BS _ (decent_play _ m D I)). lia. }
  assert (G : forall m al, In m l -> al < B ->
    gets (fun k => DoM m (alpha_beta d (- B) (- al) (fun v => UndoM m (k (- v))))) t
      (clamp al B (- mm W d (play (t_game t) m)))).
  { intros m al _ La k' a' u P. inversion P as [| | | | | | | |? ? g n h ? ? P2| | | |]; subst. clear P.
    apply alpha_beta_gets in P2; [|lia]. inversion P2 as [| | | | | | | | |? ? ? ? ? ? ? ? ? P3| | |]; subst. cbn [t_game] in *.
    replace (clamp al B (- mm W d (play g m))) with (- clamp (- B) (- al) (mm W d (play g m)))
      by (unfold clamp; lia). exact P3. }
  apply (pick_gets _ t B (fun m => - mm W d (play (t_game t) m)) l G (- B) None) in P' as [r [P' [E X]]];
    [|lia|intros m I; apply Bd; exact I].
  exists r. split; [exact P'|]. destruct l as [|m0 l].
  - destruct X as [[X1 X2]|[m [[] _]]]. unfold good_answer. rewrite X1. split; [|exact X2].
    intros m L. apply HL in L. destruct L.
  - cbn [map maxl] in E. rewrite Z.max_r in E by (pose proof (Bd m0 (or_introl eq_refl)); lia).
    rewrite <- (mm_list W d (t_game t) m0 l HL) in E.
    destruct X as [[_ X2]|[m [I [X1 X2]]]].
    + exfalso. pose proof (mm_bound W B (S d) BM BS _ D). lia.
    + unfold good_answer. rewrite X1. split; [apply HL; exact I|].
      split; [apply minimax_mm; exact E|]. apply minimax_mm. lia.
Qed.

(** ** It keeps to the rules *)

Definition fine (ck : bool) (f : getter) (t : table) : Prop := forall k,
  (forall v, keeps ck true K (k v) t) -> keeps ck true K (f k) t.

Lemma sum_board_fine ck t l : forall acc, fine ck (sum_board l acc) t.
Proof. induction l as [|s l IH]; intros acc k H; cbn [sum_board]; [apply H|]. constructor. apply IH. exact H. Qed.
Lemma sum_hands_fine ck t l : forall acc, fine ck (sum_hands l acc) t.
Proof. induction l as [|[c x] l IH]; intros acc k H; cbn [sum_hands]; [apply H|]. constructor. apply IH. exact H. Qed.
Lemma evaluate_fine ck t : fine ck evaluate t.
Proof.
  intros k H. apply sum_board_fine. intros b. apply sum_hands_fine. intros v. constructor. apply H.
Qed.
Lemma try_all_fine ck body beta t l : (forall m alpha, In m l -> fine ck (body alpha m) t) ->
  forall alpha, fine ck (try_all body alpha beta l) t.
Proof.
  induction l as [|m l IH]; intros H alpha k Kp; cbn [try_all]; [apply Kp|].
  apply (H m alpha (or_introl eq_refl)). intros v. destruct (beta <=? v); [apply Kp|].
  apply (IH (fun m' al I => H m' al (or_intror I))). exact Kp.
Qed.
Lemma alpha_beta_fine ck d : forall alpha beta t, decent (t_game t) ->
  ck = false \/ (t_ply t + N.of_nat d <= 65535)%N -> fine ck (alpha_beta d alpha beta) t.
Proof.
  induction d as [|d IH]; intros alpha beta t D Bd k Kp; cbn [alpha_beta].
  - apply evaluate_fine. intros v. apply Kp.
  - constructor; [intros _; destruct D as [V [HO [M BK]]]; apply listable_king; auto; apply BK|]. intros l ND HL.
    assert (F : forall m al, In m l -> fine ck (fun k => DoM m (alpha_beta d (- beta) (- al) (fun v => UndoM m (k (- v))))) t).
    { intros m al I k' Kp'. apply HL in I. destruct t as [g n h]. cbn [t_game t_ply] in *.
      constructor; [exact I|destruct Bd; [tauto|right; lia]|intros _; apply roomy_standard, D|].
      apply IH; cbn [t_game t_ply].
      - apply decent_play; assumption.
      - destruct Bd as [Bd|Bd]; [tauto|right]. rewrite next_ply_le; lia.
      - intros v. constructor. apply Kp'. }
    destruct l as [|m0 l]; [apply Kp|]. apply (try_all_fine ck _ beta t (m0 :: l) F). exact Kp.
Qed.
Lemma pick_fine ck body t l : (forall m alpha, In m l -> fine ck (body alpha m) t) ->
  forall alpha best k, (forall r, keeps ck true K (k r) t) -> keeps ck true K (pick body alpha best l k) t.
Proof.
  induction l as [|m l IH]; intros H alpha best k Kp; cbn [pick]; [apply Kp|].
  apply (H m alpha (or_introl eq_refl)). intros v.
  destruct (alpha <? v); apply (IH (fun m' al I => H m' al (or_intror I))); exact Kp.
Qed.
Lemma best_move_fine ck d B t : decent (t_game t) ->
  ck = false \/ (t_ply t + N.of_nat (S d) <= 65535)%N ->
  forall k, (forall r, keeps ck true K (k r) t) -> keeps ck true K (best_move d B k) t.
Proof.
  intros D Bd k Kp. unfold best_move.
  constructor; [intros _; destruct D as [V [HO [M BK]]]; apply listable_king; auto; apply BK|]. intros l ND HL.
  apply pick_fine; [|exact Kp]. intros m al I k' Kp'. apply HL in I. destruct t as [g n h]. cbn [t_game t_ply] in *.
  constructor; [exact I|destruct Bd; [tauto|right; lia]|intros _; apply roomy_standard, D|].
  apply alpha_beta_fine; cbn [t_game t_ply].
  - apply decent_play; assumption.
  - destruct Bd as [Bd|Bd]; [tauto|right]. rewrite next_ply_le; lia.
  - intros v. constructor. apply Kp'.
Qed.
End Search.
