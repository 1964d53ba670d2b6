(** * Two backends in step

    [sim] relates bitboards of two backends with the same squares.  Every
    function of the model respects it, so two builds of the crate that are
    given the same calls, legal or not, give the same answers. *)

From Coq Require Import List Bool NArith ZArith Lia.
From Verif Require Import Types Rules Bitboard Tables Zobrist Position Movegen Api
  Words Squares Geometry BBSpec Attacks KingSafety Rep Legality PawnDrop Gen Drops Moves Hash.
Import ListNotations.

Local Opaque fu_attack ky_attack ke_attack gi_attack ki_attack ou_attack ka_attack
  hi_attack pseudo_attack BETWEEN_TABLE FILES.

Section Agree.
Context (o1 o2 : bbops) (S1 : bbspec o1) (S2 : bbspec o2).

Definition sim (a : bb o1) (b : bb o2) : Prop :=
  wf S1 a /\ wf S2 b /\ forall s, bcontains o1 a s = bcontains o2 b s.

Lemma sim_empty : sim (bempty o1) (bempty o2).
Proof.
  split; [apply (sp_wf_empty o1 S1)|]. split; [apply (sp_wf_empty o2 S2)|].
  intros s. rewrite (sp_empty o1 S1), (sp_empty o2 S2). reflexivity.
Qed.
Lemma sim_single s : sim (bsingle o1 s) (bsingle o2 s).
Proof.
  split; [apply (sp_wf_single o1 S1)|]. split; [apply (sp_wf_single o2 S2)|].
  intros t. rewrite (sp_single o1 S1), (sp_single o2 S2). reflexivity.
Qed.
Lemma sim_and a a' b b' : sim a b -> sim a' b' -> sim (band o1 a a') (band o2 b b').
Proof.
  intros [A [B E]] [A' [B' E']]. split; [apply (sp_wf_and o1 S1); assumption|].
  split; [apply (sp_wf_and o2 S2); assumption|].
  intros s. rewrite (sp_and o1 S1), (sp_and o2 S2), E, E'. reflexivity.
Qed.
(* agreement on the squares only; the rest is cut off by [band] *)
Definition agr (a : bb o1) (b : bb o2) : Prop := forall s, bcontains o1 a s = bcontains o2 b s.
Lemma sim_and_agr_l a a' b b' : agr a b -> sim a' b' -> sim (band o1 a a') (band o2 b b').
Proof.
  intros E [A' [B' E']]. split; [apply (sp_wf_and_r o1 S1); assumption|].
  split; [apply (sp_wf_and_r o2 S2); assumption|].
  intros s. rewrite (sp_and o1 S1), (sp_and o2 S2), E, E'. reflexivity.
Qed.
Lemma sim_and_agr_r a a' b b' : sim a b -> agr a' b' -> sim (band o1 a a') (band o2 b b').
Proof.
  intros [A [B E]] E'. split; [apply (sp_wf_and_l o1 S1); assumption|].
  split; [apply (sp_wf_and_l o2 S2); assumption|].
  intros s. rewrite (sp_and o1 S1), (sp_and o2 S2), E, E'. reflexivity.
Qed.
Lemma sim_or a a' b b' : sim a b -> sim a' b' -> sim (bor o1 a a') (bor o2 b b').
Proof.
  intros [A [B E]] [A' [B' E']]. split; [apply (sp_wf_or o1 S1); assumption|].
  split; [apply (sp_wf_or o2 S2); assumption|].
  intros s. rewrite (sp_or o1 S1), (sp_or o2 S2), E, E'. reflexivity.
Qed.
Lemma sim_xor a a' b b' : sim a b -> sim a' b' -> sim (bxor o1 a a') (bxor o2 b b').
Proof.
  intros [A [B E]] [A' [B' E']]. split; [apply (sp_wf_xor o1 S1); assumption|].
  split; [apply (sp_wf_xor o2 S2); assumption|].
  intros s. rewrite (sp_xor o1 S1), (sp_xor o2 S2), E, E'. reflexivity.
Qed.
Lemma sim_not a b : sim a b -> sim (bnot o1 a) (bnot o2 b).
Proof.
  intros [A [B E]]. split; [apply (sp_wf_not o1 S1)|]. split; [apply (sp_wf_not o2 S2)|].
  intros s. rewrite (sp_not o1 S1), (sp_not o2 S2), E. reflexivity.
Qed.

Lemma filter_eq {A} (f g : A -> bool) l : (forall x, f x = g x) -> filter f l = filter g l.
Proof. intros H. induction l as [|x l IH]; cbn; [reflexivity|]. rewrite H, IH. reflexivity. Qed.

Lemma sim_iter a b : sim a b -> biter o1 a = biter o2 b.
Proof.
  intros [A [B E]]. rewrite (sp_iter o1 S1 a A), (sp_iter o2 S2 b B). apply filter_eq. assumption.
Qed.
Lemma sim_count a b : sim a b -> bcount o1 a = bcount o2 b.
Proof.
  intros [A [B E]]. rewrite (sp_count o1 S1 a A), (sp_count o2 S2 b B).
  do 2 f_equal. apply filter_eq. assumption.
Qed.
Lemma existsb_eq {A} (f g : A -> bool) l : (forall x, f x = g x) -> existsb f l = existsb g l.
Proof. intros H. induction l as [|x l IH]; cbn; [reflexivity|]. rewrite H, IH. reflexivity. Qed.
Lemma sim_is_empty a b : sim a b -> bis_empty o1 a = bis_empty o2 b.
Proof.
  intros [A [B E]]. rewrite (sp_is_empty o1 S1 a A), (sp_is_empty o2 S2 b B).
  f_equal. apply existsb_eq. assumption.
Qed.
Lemma sim_has a b s : sim a b -> bcontains o1 a s = bcontains o2 b s.
Proof. intros H. apply H. Qed.

Lemma sim_fu s c : sim (fu_attack o1 s c) (fu_attack o2 s c).
Proof.
  split; [apply wf_fu|]. split; [apply wf_fu|]. intros t.
  rewrite (fu_attack_spec o1 S1), (fu_attack_spec o2 S2). reflexivity.
Qed.
Lemma sim_ke s c : sim (ke_attack o1 s c) (ke_attack o2 s c).
Proof.
  split; [apply wf_ke|]. split; [apply wf_ke|]. intros t.
  rewrite (ke_attack_spec o1 S1), (ke_attack_spec o2 S2). reflexivity.
Qed.
Lemma sim_gi s c : sim (gi_attack o1 s c) (gi_attack o2 s c).
Proof.
  split; [apply wf_gi|]. split; [apply wf_gi|]. intros t.
  rewrite (gi_attack_spec o1 S1), (gi_attack_spec o2 S2). reflexivity.
Qed.
Lemma sim_ki s c : sim (ki_attack o1 s c) (ki_attack o2 s c).
Proof.
  split; [apply wf_ki|]. split; [apply wf_ki|]. intros t.
  rewrite (ki_attack_spec o1 S1), (ki_attack_spec o2 S2). reflexivity.
Qed.
Lemma sim_ou s c : sim (ou_attack o1 s c) (ou_attack o2 s c).
Proof.
  split; [apply wf_ou|]. split; [apply wf_ou|]. intros t.
  rewrite (ou_attack_spec o1 S1), (ou_attack_spec o2 S2). reflexivity.
Qed.
Lemma sim_ky s c a b : sim a b -> sim (ky_attack o1 s c a) (ky_attack o2 s c b).
Proof.
  intros [A [B E]]. split; [apply wf_ky_attack; assumption|].
  split; [apply wf_ky_attack; assumption|]. intros t.
  rewrite (ky_attack_spec o1 S1 s c a t A), (ky_attack_spec o2 S2 s c b t B).
  apply reachb_ext. assumption.
Qed.
Lemma sim_ka s a b : sim a b -> sim (ka_attack o1 s a) (ka_attack o2 s b).
Proof.
  intros [A [B E]]. split; [apply wf_ka; assumption|].
  split; [apply wf_ka; assumption|]. intros t.
  rewrite (ka_attack_spec o1 S1 Black s a t A), (ka_attack_spec o2 S2 Black s b t B).
  apply reachb_ext. assumption.
Qed.
Lemma sim_hi s a b : sim a b -> sim (hi_attack o1 s a) (hi_attack o2 s b).
Proof.
  intros [A [B E]]. split; [apply wf_hi; assumption|].
  split; [apply wf_hi; assumption|]. intros t.
  rewrite (hi_attack_spec o1 S1 Black s a t A), (hi_attack_spec o2 S2 Black s b t B).
  apply reachb_ext. assumption.
Qed.
Lemma sim_pseudo k s c : sim (pseudo_attack o1 k s c) (pseudo_attack o2 k s c).
Proof.
  split; [apply wf_pseudo_attack|]. split; [apply wf_pseudo_attack|]. intros t.
  rewrite (pseudo_attack_spec o1 S1), (pseudo_attack_spec o2 S2). reflexivity.
Qed.
Lemma sim_between s t : sim (BETWEEN_TABLE o1 s t) (BETWEEN_TABLE o2 s t).
Proof.
  split; [apply wf_between|]. split; [apply wf_between|]. intros u.
  rewrite (between_table_spec o1 S1), (between_table_spec o2 S2). reflexivity.
Qed.
Lemma sim_files f : sim (FILES o1 f) (FILES o2 f).
Proof.
  split; [apply wf_files|]. split; [apply wf_files|]. intros u.
  rewrite (files_spec o1 S1), (files_spec o2 S2). reflexivity.
Qed.

(** ** Positions *)

(* everything but the ply counter *)
Record simI (p : inner o1) (q : inner o2) : Prop := {
  si_side : i_side o1 p = i_side o2 q;
  si_hand : forall c, i_hand o1 p c = i_hand o2 q c;
  si_board : forall s, i_piece_at o1 p s = i_piece_at o2 q s;
  si_player : forall c, sim (player_bb o1 p c) (player_bb o2 q c);
  si_piece : forall k, sim (piece_bb o1 p k) (piece_bb o2 q k) }.

Record simA (a : attack_info o1) (b : attack_info o2) : Prop := {
  sa_checkers : sim (ai_checkers o1 a) (ai_checkers o2 b);
  sa_checkables : forall k, sim (k_get (ai_checkables o1 a) k) (k_get (ai_checkables o2 b) k);
  sa_pinned : forall c, sim (ai_pinned_of o1 a c) (ai_pinned_of o2 b c) }.

Ltac sims := repeat match goal with
  | |- sim (fu_attack _ _ _) _ => apply sim_fu
  | |- sim (ke_attack _ _ _) _ => apply sim_ke
  | |- sim (gi_attack _ _ _) _ => apply sim_gi
  | |- sim (ki_attack _ _ _) _ => apply sim_ki
  | |- sim (ou_attack _ _ _) _ => apply sim_ou
  | |- sim (ky_attack _ _ _ _) _ => apply sim_ky
  | |- sim (ka_attack _ _ _) _ => apply sim_ka
  | |- sim (hi_attack _ _ _) _ => apply sim_hi
  | |- sim (pseudo_attack _ _ _ _) _ => apply sim_pseudo
  | |- sim (BETWEEN_TABLE _ _ _) _ => apply sim_between
  | |- sim (FILES _ _) _ => apply sim_files
  | |- sim (bempty _) _ => apply sim_empty
  | |- sim (bsingle _ _) _ => apply sim_single
  | |- sim (band _ _ _) _ => apply sim_and
  | |- sim (bor _ _ _) _ => apply sim_or
  | |- sim (bxor _ _ _) _ => apply sim_xor
  | |- sim (bnot _ _) _ => apply sim_not
  | |- sim (player_bb _ _ _) _ => apply si_player
  | |- sim (piece_bb _ _ _) _ => apply si_piece
  | _ => assumption
  end.

Section Inner.
Context (p : inner o1) (q : inner o2) (P : simI p q).

Lemma sim_occupied : sim (occupied o1 p) (occupied o2 q).
Proof. unfold occupied. sims. Qed.

Lemma sim_king c : king_position o1 p c = king_position o2 q c.
Proof. unfold king_position. f_equal. apply sim_iter. sims. Qed.

Lemma sim_pinned c : sim (pinned_for o1 p c) (pinned_for o2 q c).
Proof.
  unfold pinned_for. cbv zeta. rewrite <- sim_king. pose proof sim_occupied.
  destruct (king_position o1 p c) as [K|]; [|sims].
  rewrite <- (sim_iter (snipers o1 p c K) (snipers o2 q c K)) by (unfold snipers; sims).
  generalize (biter o1 (snipers o1 p c K)). intros l.
  assert (A : sim (bempty o1) (bempty o2)) by sims. revert A.
  generalize (bempty o1) (bempty o2).
  induction l as [|s l IH]; intros a b A; cbn [fold_left]; [assumption|].
  assert (B : sim (band o1 (BETWEEN_TABLE o1 K s) (occupied o1 p))
                  (band o2 (BETWEEN_TABLE o2 K s) (occupied o2 q))) by sims.
  rewrite <- (sim_count _ _ B). destruct (_ =? 1)%N; apply IH; [|assumption]. sims.
Qed.

Lemma sim_checkables k :
  sim (k_get (checkables_for o1 p) k) (k_get (checkables_for o2 q) k).
Proof.
  unfold checkables_for. cbv zeta. rewrite <- (si_side p q P), <- sim_king. pose proof sim_occupied.
  destruct (king_position o1 p (flip (i_side o1 p))) as [K|];
    [|rewrite !k_get_const; sims].
  destruct k; cbn [k_get kP kL kN kS kG kB kR kK kPP kPL kPN kPS kPB kPR]; sims.
Qed.

Lemma sim_checkers : sim (calculate_checkers o1 p) (calculate_checkers o2 q).
Proof.
  unfold calculate_checkers. cbv zeta. rewrite <- (si_side p q P), <- sim_king.
  pose proof sim_occupied.
  destruct (king_position o1 p (i_side o1 p)) as [K|]; sims.
Qed.

Lemma sim_attack_info a b : sim a b -> simA (attack_info_new o1 a p) (attack_info_new o2 b q).
Proof.
  intros A. constructor; cbn [attack_info_new ai_checkers ai_checkables].
  - assumption.
  - apply sim_checkables.
  - intros []; apply sim_pinned.
Qed.

Lemma sim_attackers c t a b : sim a b -> sim (attackers_to o1 p c t a) (attackers_to o2 q c t b).
Proof. intros A. unfold attackers_to. cbv zeta. sims. Qed.
Lemma sim_attackers_klp c t :
  sim (attackers_to_except_klp o1 p c t) (attackers_to_except_klp o2 q c t).
Proof. unfold attackers_to_except_klp. cbv zeta. pose proof sim_occupied. sims. Qed.

Lemma sim_stays K f t : stays_on_line o1 K f t = stays_on_line o2 K f t.
Proof.
  unfold stays_on_line. rewrite (sim_has _ _ t (sim_between K f)), (sim_has _ _ f (sim_between K t)).
  reflexivity.
Qed.

Section Gen.
Context (ai : attack_info o1) (aj : attack_info o2) (A : simA ai aj).

Lemma sim_pawn_drop_mate s : is_pawn_drop_mate o1 p ai s = is_pawn_drop_mate o2 q aj s.
Proof.
  unfold is_pawn_drop_mate. cbv zeta. rewrite <- (si_side p q P), <- sim_king.
  pose proof sim_occupied as O.
  rewrite <- (sim_is_empty _ _ (sim_attackers (i_side o1 p) s _ _ O)).
  destruct (bis_empty o1 _); [reflexivity|].
  assert (C : sim
    (band o1 (attackers_to_except_klp o1 p (flip (i_side o1 p)) s)
       (bor o1 (bnot o1 (ai_pinned_of o1 ai (flip (i_side o1 p)))) (FILES o1 (sqf s))))
    (band o2 (attackers_to_except_klp o2 q (flip (i_side o1 p)) s)
       (bor o2 (bnot o2 (ai_pinned_of o2 aj (flip (i_side o1 p)))) (FILES o2 (sqf s))))).
  { apply sim_and; [apply sim_attackers_klp|]. apply sim_or; [|apply sim_files].
    apply sim_not. apply (sa_pinned _ _ A). }
  rewrite <- (sim_is_empty _ _ C). destruct (negb _); [reflexivity|].
  destruct (king_position o1 p (flip (i_side o1 p))) as [K|]; [|reflexivity].
  match goal with |- forallb _ (biter o1 ?x) = forallb _ (biter o2 ?y) =>
    rewrite <- (sim_iter x y) by sims; generalize (biter o1 x) end.
  intros l. induction l as [|t l IH]; cbn [forallb]; [reflexivity|]. f_equal; [|apply IH].
  f_equal. apply sim_is_empty. apply sim_attackers. sims.
Qed.

Lemma sim_is_legal m : is_legal o1 p ai m = is_legal o2 q aj m.
Proof.
  unfold is_legal. cbv zeta. destruct (move_from m) as [f|]; [|reflexivity].
  rewrite <- (si_side p q P), <- (si_board p q P), <- sim_king.
  rewrite <- (sim_is_empty _ _ (sim_attackers (flip (i_side o1 p)) (move_to m) _ _ sim_occupied)).
  destruct (_ && _); [reflexivity|].
  rewrite <- (sim_has _ _ f (sa_pinned _ _ A (i_side o1 p))).
  destruct (bcontains o1 _ f); [|reflexivity].
  destruct (king_position o1 p (i_side o1 p)); [|reflexivity]. apply sim_stays.
Qed.

Lemma sim_gen_from a b att1 att2 x y push : sim a b -> (forall s, sim (att1 s) (att2 s)) ->
  sim x y -> gen_from o1 a att1 x push = gen_from o2 b att2 y push.
Proof.
  intros E H T. unfold gen_from. rewrite <- (sim_iter a b E).
  apply flat_map_ext. intros s. unfold iter_and. f_equal. apply sim_iter. sims. apply H.
Qed.

Lemma sim_own k : sim (own o1 p k) (own o2 q k).
Proof. unfold own. rewrite <- (si_side p q P). sims. Qed.

(* the squares one step ahead of the pawns, movegen.rs 88-92 *)
Definition pawn_steps (o : bbops) (p : inner o) : bb o :=
  match i_side o p with
  | Black => bshr o (piece_bitboard o p Pawn Black)
  | White => bshl o (piece_bitboard o p Pawn White)
  end.
Definition vacant_agr : Prop := exists v w,
  bvacant o1 (own o1 p Pawn) = Some v /\ bvacant o2 (own o2 q Pawn) = Some w /\ agr v w.

(* they do if no pawn of the side to move is on its last rank *)
Lemma agr_steps :
  (forall s, bcontains o1 (piece_bitboard o1 p Pawn (i_side o1 p)) s = true ->
             sqr s <> match i_side o1 p with Black => n1 | White => n9 end) ->
  agr (pawn_steps o1 p) (pawn_steps o2 q).
Proof.
  intros L. unfold pawn_steps. rewrite <- (si_side p q P).
  assert (B : forall c, sim (piece_bitboard o1 p Pawn c) (piece_bitboard o2 q Pawn c))
    by (intros c; unfold piece_bitboard; sims).
  revert L. destruct (i_side o1 p); intros L.
  - destruct (B Black) as [W1 [W2 E]].
    destruct (sp_shr o1 S1 _ W1 L) as [V1 H1].
    destruct (sp_shr o2 S2 _ W2) as [V2 H2]; [intros s; rewrite <- E; apply L|].
    intros t. rewrite H1, H2.
    destruct (sq_shift t 0 1); [apply E|reflexivity].
  - destruct (B White) as [W1 [W2 E]].
    destruct (sp_shl o1 S1 _ W1 L) as [V1 H1].
    destruct (sp_shl o2 S2 _ W2) as [V2 H2]; [intros s; rewrite <- E; apply L|].
    intros t. rewrite H1, H2.
    destruct (sq_shift t 0 (-1)); [apply E|reflexivity].
Qed.

(* and if none on rank 9 has another on its file *)
Lemma agr_vacant :
  (forall s t, bcontains o1 (own o1 p Pawn) s = true ->
   bcontains o1 (own o1 p Pawn) t = true -> sqf s = sqf t -> sqr s = n9 -> s = t) -> vacant_agr.
Proof.
  intros NF. destruct (sim_own Pawn) as [W1 [W2 E]].
  destruct (sp_vacant o1 S1 _ W1 NF) as [v [E1 [V1 H1]]].
  destruct (sp_vacant o2 S2 _ W2) as [w [E2 [V2 H2]]]; [intros s t; rewrite <- !E; apply NF|].
  exists v, w. split; [assumption|]. split; [assumption|].
  intros t. rewrite H1, H2. f_equal. apply existsb_eq. intros s. rewrite E. reflexivity.
Qed.

Section Target.
Context (x : bb o1) (y : bb o2) (T : sim x y).
Ltac gen := cbv zeta; rewrite <- (si_side p q P); pose proof sim_occupied;
  apply sim_gen_from; [first [apply sim_own|sims]|intros; sims|assumption].
Lemma sim_gen_ky : gen_ky o1 p x = gen_ky o2 q y.
Proof. unfold gen_ky. gen. Qed.
Lemma sim_gen_ke : gen_ke o1 p x = gen_ke o2 q y.
Proof. unfold gen_ke. gen. Qed.
Lemma sim_gen_gi : gen_gi o1 p x = gen_gi o2 q y.
Proof. unfold gen_gi. gen. Qed.
Lemma sim_gen_ka : gen_ka o1 p x = gen_ka o2 q y.
Proof. unfold gen_ka. gen. Qed.
Lemma sim_gen_hi : gen_hi o1 p x = gen_hi o2 q y.
Proof. unfold gen_hi. gen. Qed.
Lemma sim_gen_ki : gen_ki o1 p x = gen_ki o2 q y.
Proof. unfold gen_ki. gen. Qed.
Lemma sim_gen_ou : gen_ou o1 p x = gen_ou o2 q y.
Proof. unfold gen_ou. gen. Qed.
Lemma sim_gen_um : gen_um o1 p x = gen_um o2 q y.
Proof. unfold gen_um. gen. Qed.
Lemma sim_gen_ry : gen_ry o1 p x = gen_ry o2 q y.
Proof. unfold gen_ry. gen. Qed.

(* the shifted pawns must agree *)
Context (NL : agr (pawn_steps o1 p) (pawn_steps o2 q)).

Lemma sim_gen_fu : gen_fu o1 p x = gen_fu o2 q y.
Proof.
  change (gen_fu o1 p x) with (flat_map (fun to => push_forward (i_side o1 p) 1 (fu_from (i_side o1 p) to) to)
    (iter_and o1 (pawn_steps o1 p) x)).
  change (gen_fu o2 q y) with (flat_map (fun to => push_forward (i_side o2 q) 1 (fu_from (i_side o2 q) to) to)
    (iter_and o2 (pawn_steps o2 q) y)).
  rewrite <- (si_side p q P). unfold iter_and. f_equal.
  apply sim_iter. apply sim_and_agr_l; assumption.
Qed.

(* and the files for pawn drops *)
Context (NF : (0 < hand_n (i_hand o1 p (i_side o1 p)) Pawn)%N -> vacant_agr).

Lemma sim_pawn_target : (0 < hand_n (i_hand o1 p (i_side o1 p)) Pawn)%N -> exists a b, pawn_drop_target o1 p ai x = Some a /\
  pawn_drop_target o2 q aj y = Some b /\ sim a b.
Proof.
  intros HP. specialize (NF HP). unfold pawn_drop_target. cbv zeta. rewrite <- (si_side p q P), <- sim_king.
  destruct NF as [v [w [E1 [E2 V]]]].
  rewrite E1, E2. cbn [bind]. eexists. eexists. split; [reflexivity|]. split; [reflexivity|].
  assert (TV : sim (band o1 x v) (band o2 y w)) by (apply sim_and_agr_r; assumption).
  destruct (king_position o1 p (flip (i_side o1 p))) as [K|]; [|assumption].
  rewrite <- (sim_iter _ _ (sim_fu K (flip (i_side o1 p)))).
  destruct (hd_error _) as [t|]; [|assumption].
  rewrite <- (sim_has _ _ t TV), <- sim_pawn_drop_mate.
  destruct (_ && _); [|assumption]. apply sim_and; [assumption|sims].
Qed.

Lemma sim_gen_drop : gen_drop o1 p ai x = gen_drop o2 q aj y.
Proof.
  unfold gen_drop. cbv zeta. rewrite <- (si_side p q P), <- (si_hand p q P).
  set (l := filter (fun k => (0 <? match hand_count (i_hand o1 p (i_side o1 p)) k with
    | Some n => n | None => 0 end)%N) hand_kinds).
  assert (K : forall k, In k l -> gen_drop_kind o1 p ai x k = gen_drop_kind o2 q aj y k).
  { intros k I. apply filter_In in I as [_ I]. apply N.ltb_lt in I.
    unfold gen_drop_kind. cbv zeta. rewrite <- (si_side p q P).
    destruct (kind_eqb_spec k Pawn) as [->|].
    - destruct (sim_pawn_target I) as [a [b [-> [-> E]]]]. cbn [bind].
      rewrite (sim_iter _ _ E). reflexivity.
    - cbn [bind]. rewrite (sim_iter _ _ T). reflexivity. }
  clearbody l. revert K. generalize (Some (@nil move)).
  induction l as [|k l IH]; intros acc K; cbn [fold_left]; [reflexivity|].
  rewrite (K k (or_introl eq_refl)). apply IH. intros j I. apply K. right. exact I.
Qed.

Lemma sim_checkers_attacks K l : match checkers_attacks o1 p K l, checkers_attacks o2 q K l with
  | Some a, Some b => sim a b | None, None => True | _, _ => False end.
Proof.
  unfold checkers_attacks.
  assert (H : match Some (bempty o1), Some (bempty o2) with
    | Some a, Some b => sim a b | None, None => True | _, _ => False end) by apply sim_empty.
  revert H. generalize (Some (bempty o1)) (Some (bempty o2)).
  induction l as [|s l IH]; intros a b H; cbn [fold_left]; [assumption|]. apply IH.
  destruct a as [a|], b as [b|]; cbn [bind]; try tauto.
  unfold checker_attack. cbv zeta. rewrite <- (si_board p q P), <- (si_side p q P).
  destruct (i_piece_at o1 p s); cbn [bind]; [|tauto]. pose proof sim_occupied.
  apply sim_or; [assumption|]. destruct (_ && _); sims.
Qed.
End Target.

Context (NL : agr (pawn_steps o1 p) (pawn_steps o2 q))
        (NF : (0 < hand_n (i_hand o1 p (i_side o1 p)) Pawn)%N -> vacant_agr).

Ltac board x y T := rewrite ?(sim_gen_fu x y T NL), ?(sim_gen_ky x y T), ?(sim_gen_ke x y T),
  ?(sim_gen_gi x y T), ?(sim_gen_ka x y T), ?(sim_gen_hi x y T), ?(sim_gen_ki x y T),
  ?(sim_gen_ou x y T), ?(sim_gen_um x y T), ?(sim_gen_ry x y T).

Lemma sim_generate_all : generate_all o1 p ai = generate_all o2 q aj.
Proof.
  unfold generate_all. cbv zeta. pose proof sim_occupied as O.
  assert (T : sim (bnot o1 (player_bb o1 p (i_side o1 p))) (bnot o2 (player_bb o2 q (i_side o2 q)))).
  { rewrite <- (si_side p q P). sims. }
  board (bnot o1 (player_bb o1 p (i_side o1 p))) (bnot o2 (player_bb o2 q (i_side o2 q))) T.
  assert (D : sim (band o1 (bnot o1 (occupied o1 p)) (bnot o1 (bempty o1)))
                  (band o2 (bnot o2 (occupied o2 q)) (bnot o2 (bempty o2)))) by sims.
  rewrite (sim_gen_drop _ _ D NF). reflexivity.
Qed.

Lemma sim_generate_evasions : generate_evasions o1 p ai = generate_evasions o2 q aj.
Proof.
  unfold generate_evasions. cbv zeta. rewrite <- (si_side p q P), <- sim_king.
  destruct (king_position o1 p (i_side o1 p)) as [K|]; cbn [bind]; [|reflexivity].
  pose proof (sa_checkers _ _ A) as C. rewrite <- (sim_iter _ _ C).
  pose proof (sim_checkers_attacks K (biter o1 (ai_checkers o1 ai))) as H.
  destruct (checkers_attacks o1 p K _) as [a|], (checkers_attacks o2 q K _) as [b|]; try tauto.
  cbn [bind].
  match goal with |- context[map _ (biter o2 ?y)] =>
    match goal with |- context[map _ (biter o1 ?x)] =>
      rewrite <- (sim_iter x y) by sims end end.
  destruct (Nat.ltb 1 _); [reflexivity|].
  destruct (hd_error (biter o1 (ai_checkers o1 ai))) as [ch|]; cbn [bind]; [|reflexivity].
  pose proof (sim_between ch K) as B.
  rewrite <- (sim_is_empty _ _ B), (sim_gen_drop _ _ B NF).
  assert (T : sim (bor o1 (BETWEEN_TABLE o1 ch K) (ai_checkers o1 ai))
                  (bor o2 (BETWEEN_TABLE o2 ch K) (ai_checkers o2 aj))) by sims.
  board (bor o1 (BETWEEN_TABLE o1 ch K) (ai_checkers o1 ai))
        (bor o2 (BETWEEN_TABLE o2 ch K) (ai_checkers o2 aj)) T.
  reflexivity.
Qed.
End Gen.
End Inner.

End Agree.
