(** * Programs that use the API

    A client is any program that asks a position questions, plays moves and
    takes them back, works on a clone for a while, and decides what to do next
    by the answers.  It can call all the methods of the crate (position.rs 15-62,
    movegen.rs 9-24). *)

From Coq Require Import List Bool NArith ZArith Lia.
From Verif Require Import Types Rules Bitboard Tables Zobrist Position Movegen Perft Api
  Squares Geometry BBSpec Rep Gen Exact Loops Capacity Moves Overflow Hash ValidPlay Reach Lines Twins PerftSpec.
Import ListNotations.

Inductive client (A : Type) : Type :=
| Ret (a : A)
| PieceAt (s : square) (k : option piece -> client A)
| HandOf (c : color) (x : kind) (k : N -> client A)
| SideToMove (k : color -> client A)
| PlyOf (k : N -> client A)
| InCheck (k : bool -> client A)
| IsCheckMove (m : move) (k : bool -> client A)
| LegalMoves (k : list move -> client A)
| DoM (m : move) (k : client A)
| UndoM (m : move) (k : client A)
| KeyOf (k : N -> client A)
| KeysOf (k : N * N -> client A)
| OnClone (c : client A) (k : A -> client A). (* [c] on a clone, then [k] on the position itself *)
Arguments Ret {A}. Arguments PieceAt {A}. Arguments HandOf {A}. Arguments SideToMove {A}.
Arguments PlyOf {A}. Arguments InCheck {A}. Arguments IsCheckMove {A}. Arguments LegalMoves {A}.
Arguments DoM {A}. Arguments UndoM {A}. Arguments KeyOf {A}. Arguments KeysOf {A}. Arguments OnClone {A}.

(** ** Running it on the crate *)
Fixpoint exec {A} (cf : config) (c : client A) (p : Yasai.Position cf) : option (A * Yasai.Position cf) :=
  match c with
  | Ret a => Some (a, p)
  | PieceAt s k => exec cf (k (Yasai.piece_at cf p s)) p
  | HandOf d x k => exec cf (k (hand_n (Yasai.hand cf p d) x)) p
  | SideToMove k => exec cf (k (Yasai.side_to_move cf p)) p
  | PlyOf k => exec cf (k (Yasai.ply cf p)) p
  | InCheck k => let* b := Yasai.in_check cf p in exec cf (k b) p
  | IsCheckMove m k => let* b := Yasai.is_check_move cf p m in exec cf (k b) p
  | LegalMoves k => let* l := Yasai.legal_moves cf p in exec cf (k l) p
  | DoM m k => let* q := Yasai.do_move cf p m in exec cf k q
  | UndoM m k => let* q := Yasai.undo_move cf p m in exec cf k q
  | KeyOf k => let* v := Yasai.key cf p in exec cf (k v) p
  | KeysOf k => let* v := Yasai.keys cf p in exec cf (k v) p
  | OnClone c k => let* r := exec cf c p in exec cf (k (fst r)) p
  end.

(** ** Running it on the rules *)

(* the game, the ply, and what was played: the move, the game and the ply
   before it, last one first *)
Record table := mkT { t_game : game; t_ply : N; t_past : list (move * game * N) }.

Definition next_ply (n : N) : N := if (n =? 65535)%N then 0%N else (n + 1)%N.

(* What keys() answers, as a function of the game and the number of moves played
   since the start.  The rules do not say; [keyed] below is what the crate does. *)
Definition keying : Type := game -> nat -> N * N.
Definition keys_at (K : keying) (t : table) : N * N := K (t_game t) (length (t_past t)).

(* [plays K c t a t']: with answers according to the rules, [c] ends with the
   result [a] on the table [t'].  The order of a list of moves is open. *)
Inductive plays {A} (K : keying) : client A -> table -> A -> table -> Prop :=
| P_ret a t : plays K (Ret a) t a t
| P_piece s k t a t' : plays K (k (g_board (t_game t) s)) t a t' -> plays K (PieceAt s k) t a t'
| P_hand d x k t a t' : plays K (k (g_hand (t_game t) d x)) t a t' -> plays K (HandOf d x k) t a t'
| P_side k t a t' : plays K (k (g_side (t_game t))) t a t' -> plays K (SideToMove k) t a t'
| P_ply k t a t' : plays K (k (t_ply t)) t a t' -> plays K (PlyOf k) t a t'
| P_check b k t a t' :
    (b = true <-> in_check (g_board (t_game t)) (g_side (t_game t))) ->
    plays K (k b) t a t' -> plays K (InCheck k) t a t'
| P_ischeck m b k t a t' :
    (b = true <-> in_check (g_board (play (t_game t) m)) (flip (g_side (t_game t)))) ->
    plays K (k b) t a t' -> plays K (IsCheckMove m k) t a t'
| P_legal l k t a t' :
    NoDup l -> (forall m, In m l <-> legal (t_game t) m) ->
    plays K (k l) t a t' -> plays K (LegalMoves k) t a t'
| P_do m k g n h a t' :
    plays K k (mkT (play g m) (next_ply n) ((m, g, n) :: h)) a t' -> plays K (DoM m k) (mkT g n h) a t'
| P_undo m k g n g0 n0 h a t' :
    plays K k (mkT g0 n0 h) a t' -> plays K (UndoM m k) (mkT g n ((m, g0, n0) :: h)) a t'
| P_key k t a t' : plays K (k (N.lxor (fst (keys_at K t)) (snd (keys_at K t)))) t a t' -> plays K (KeyOf k) t a t'
| P_keys k t a t' : plays K (k (keys_at K t)) t a t' -> plays K (KeysOf k) t a t'
| P_clone c k t b u a t' : plays K c t b u -> plays K (k b) t a t' -> plays K (OnClone c k) t a t'.

(* the moves fit in the buffer: C18_panics_exactly (PropMoves.v) *)
Definition listable (g : game) : Prop :=
  in_check (g_board g) (g_side g) \/
  forall l, NoDup l -> (forall m, In m l -> generated g m) -> (length l <= 593)%nat.

(* there is room in the hand for what the move takes: C21_do_move_panics_exactly
   (PropPlay.v) *)
Definition roomy (g : game) (m : move) : Prop :=
  forall f t pr x, m = Normal f t pr -> g_board g t = Some x ->
    g_hand g (g_side g) (base_kind (pkind x)) <> 18%N.

(* The client keeps to the rules, whatever the answers: it plays and asks about
   legal moves only, stops before ply 65535 if [checks], and takes back the last
   move.  If [lim], it keeps within the limits of the buffer of moves and of the
   hands. *)
Inductive keeps {A} (checks : bool) (lim : bool) (K : keying) : client A -> table -> Prop :=
| K_ret a t : keeps checks lim K (Ret a) t
| K_piece s k t : keeps checks lim K (k (g_board (t_game t) s)) t -> keeps checks lim K (PieceAt s k) t
| K_hand d x k t : keeps checks lim K (k (g_hand (t_game t) d x)) t -> keeps checks lim K (HandOf d x k) t
| K_side k t : keeps checks lim K (k (g_side (t_game t))) t -> keeps checks lim K (SideToMove k) t
| K_ply k t : keeps checks lim K (k (t_ply t)) t -> keeps checks lim K (PlyOf k) t
| K_check k t :
    (forall b, (b = true <-> in_check (g_board (t_game t)) (g_side (t_game t))) -> keeps checks lim K (k b) t) ->
    keeps checks lim K (InCheck k) t
| K_ischeck m k t :
    legal (t_game t) m ->
    (forall b, (b = true <-> in_check (g_board (play (t_game t) m)) (flip (g_side (t_game t)))) ->
       keeps checks lim K (k b) t) ->
    keeps checks lim K (IsCheckMove m k) t
| K_legal k t :
    (lim = true -> listable (t_game t)) ->
    (forall l, NoDup l -> (forall m, In m l <-> legal (t_game t) m) -> keeps checks lim K (k l) t) ->
    keeps checks lim K (LegalMoves k) t
| K_do m k g n h :
    legal g m -> checks = false \/ (n < 65535)%N -> (lim = true -> roomy g m) ->
    keeps checks lim K k (mkT (play g m) (next_ply n) ((m, g, n) :: h)) -> keeps checks lim K (DoM m k) (mkT g n h)
| K_undo m k g n g0 n0 h :
    keeps checks lim K k (mkT g0 n0 h) -> keeps checks lim K (UndoM m k) (mkT g n ((m, g0, n0) :: h))
| K_key k t :
    keeps checks lim K (k (N.lxor (fst (keys_at K t)) (snd (keys_at K t)))) t -> keeps checks lim K (KeyOf k) t
| K_keys k t : keeps checks lim K (k (keys_at K t)) t -> keeps checks lim K (KeysOf k) t
| K_clone c k t :
    keeps checks lim K c t -> (forall b u, plays K c t b u -> keeps checks lim K (k b) t) ->
    keeps checks lim K (OnClone c k) t.

(** ** Where the moves fit in the buffer *)

Lemma listable_same g h : same_game g h -> listable g -> listable h.
Proof.
  intros G [C|H]; [left|right].
  - destruct G as [B [_ E]]. rewrite <- E. apply (in_check_same (g_board g)); assumption.
  - intros l ND P. apply (H l ND). intros m I. destruct (P m I) as [P1 P2]. pose proof (same_sym _ _ G) as G'.
    split; [exact (pseudo_same h g m G' P1)|]. intros [Q1 Q2]. apply P2. split; [exact Q1|].
    apply (checkmated_same (play g m)); [apply play_same; exact G|exact Q2].
Qed.

Lemma listable_king g : valid g -> hand_ok g -> standard_material g -> opponent_has_king g -> listable g.
Proof.
  intros V HO M [K BK]. right. intros l ND P.
  apply (pseudo_legal_bound g V HO M K BK l ND). intros m I. apply (P m I).
Qed.

Lemma api_listable cf ms p : reachable cf ms p -> listable (view cf p) ->
  exists l, Yasai.legal_moves cf p = Some l.
Proof.
  intros R H. destruct (Yasai.legal_moves cf p) as [l|] eqn:E; [eauto|exfalso].
  destruct (reachable_inv cf ms p R) as [st [I _]].
  apply (legal_moves_none _ _ p st (inv_rep _ _ _ _ I) (inv_valid _ _ _ _ I)
    (inv_st _ _ _ _ I) (inv_ai _ _ _ _ I)) in E as [NC [l [ND [L G]]]].
  destruct H as [C|H]; [exact (NC C)|].
  specialize (H l ND G). rewrite L in H. exact (Nat.nle_succ_diag_l _ H).
Qed.

(* with both kings they always do *)
Definition decent (g : game) : Prop :=
  valid g /\ hand_ok g /\ standard_material g /\ both_kings g.
Lemma decent_play g m : decent g -> legal g m -> decent (play g m).
Proof.
  intros [V [HO [M BK]]] L. split; [apply valid_play; assumption|].
  split; [apply hand_ok_play; [assumption..|apply L]|]. split.
  - intros k. rewrite material_play; [apply M|exact HO|apply L].
  - intros c. apply (kings_persist [m] g c V HO); [cbn; tauto|apply BK].
Qed.

Lemma roomy_standard g m : standard_material g -> roomy g m.
Proof.
  intros M f t pr x -> Bt E. pose proof (hand_room g t x M Bt (g_side g)) as H. lia.
Qed.

Lemma keeps_kings {A} ck K (c : client A) t : keeps ck false K c t ->
  decent (t_game t) -> Forall (fun x => decent (snd (fst x))) (t_past t) -> keeps ck true K c t.
Proof.
  induction 1 as [a t|s k t _ IH|d x k t _ IH|k t _ IH|k t _ IH|k t _ IH|m k t L _ IH|k t _ _ IH
    |m k g n h L B _ _ IH|m k g n g0 n0 h _ IH|k t _ IH|k t _ IH|c k t _ IH1 _ IH2];
    intros D F; try (constructor; auto; fail).
  - constructor; [|auto]. intros _. destruct D as [V [HO [M BK]]]. exact (listable_king _ V HO M (BK _)).
  - cbn [t_game t_past] in *. constructor; [assumption..| |].
    + intros _. apply roomy_standard, D.
    + apply IH; [apply decent_play; assumption|]. constructor; [exact D|exact F].
  - cbn [t_game t_past] in *. inversion F; subst. constructor. apply IH; assumption.
  - constructor; [auto|]. intros b u P. exact (IH2 b u P D F).
Qed.

Lemma roomy_same g h m : same_game g h -> roomy g m -> roomy h m.
Proof.
  intros [B [H E]] Rm f t pr x Em Bt. rewrite <- E, <- H. apply (Rm f t pr x Em). rewrite B. exact Bt.
Qed.
Lemma api_roomy cf ms p m : reachable cf ms p -> legal (view cf p) m -> roomy (view cf p) m ->
  cf_checks cf = false \/ (Yasai.ply cf p < 65535)%N -> exists q, Yasai.do_move cf p m = Some q.
Proof.
  intros R L Rm B. destruct (Yasai.do_move cf p m) as [q|] eqn:D; [eauto|exfalso].
  apply (api_do_exactly cf ms p m R L) in D as [[C P]|[f [t [pr [x [-> [Bt H]]]]]]].
  - destruct B as [B|B]; [congruence|lia].
  - exact (Rm f t pr x eq_refl Bt H).
Qed.

(** ** Refinement *)

(* the keys of the crate, in a session that began after the moves [ms0] since
   Position::new: C13_keys_from_scratch (PropKeys.v) *)
Definition keyed (z : ztable) (ms0 : list move) : keying := fun g n =>
  (N.lxor (board_hash z (g_board g)) (if Nat.odd (n + length ms0)%nat then 1%N else 0%N), hand_hash z (g_hand g)).

(* the position of the crate and the table, in a session that began at [p0] *)
Inductive shows (cf : config) (ms0 : list move) (p0 : Yasai.Position cf) : Yasai.Position cf -> table -> Prop :=
| S_start g n :
    reachable cf ms0 p0 ->
    same_game (view cf p0) g -> Yasai.ply cf p0 = n -> shows cf ms0 p0 p0 (mkT g n [])
| S_do p g n h m q :
    shows cf ms0 p0 p (mkT g n h) -> legal g m -> Yasai.do_move cf p m = Some q ->
    shows cf ms0 p0 q (mkT (play g m) (next_ply n) ((m, g, n) :: h)).

(* the table determines the position, with its history and its keys *)
Lemma shows_det cf ms0 p0 p t : shows cf ms0 p0 p t -> forall q, shows cf ms0 p0 q t -> q = p.
Proof.
  induction 1 as [g n|p g n h m p' H IH L D]; intros q Hq; inversion Hq as [|q0 ? ? ? ? ? Hq0 Lq Dq E1 E2];
    subst; [reflexivity|].
  assert (q0 = p) as -> by (apply IH; exact Hq0). congruence.
Qed.

Lemma shows_facts cf ms0 p0 p t : shows cf ms0 p0 p t -> exists ms, reachable cf ms p /\
  same_game (view cf p) (t_game t) /\ Yasai.ply cf p = t_ply t /\ length ms = (length (t_past t) + length ms0)%nat.
Proof.
  induction 1 as [g n R G P|p g n h m q H [ms [R [G [P Y]]]] L D].
  - exists ms0. tauto.
  - cbn [t_game t_ply t_past] in *.
    assert (L' : legal (view cf p) m) by (apply (legal_same g); [apply same_sym; exact G|exact L]).
    exists (m :: ms). pose proof (api_do_move cf ms p m q R L' D) as Gq.
    split; [exact (R_do cf ms p m q R L' D)|]. split; [|split].
    + apply (same_trans _ _ _ Gq). apply play_same. exact G.
    + rewrite (api_ply cf ms p m q R L' D), P. reflexivity.
    + cbn [length]. rewrite Y. reflexivity.
Qed.

Lemma shows_keys cf ms0 p0 p t : shows cf ms0 p0 p t ->
  Yasai.keys cf p = Some (keys_at (keyed (zt cf) ms0) t) /\
  Yasai.key cf p = Some (N.lxor (fst (keys_at (keyed (zt cf) ms0) t)) (snd (keys_at (keyed (zt cf) ms0) t))).
Proof.
  intros Sh. destruct (shows_facts cf ms0 p0 p t Sh) as [ms [R [G [_ Y]]]].
  assert (E : Yasai.keys cf p = Some (keys_at (keyed (zt cf) ms0) t)).
  { rewrite (api_keys cf ms p R). unfold keys_at, keyed, turn_bit. rewrite Y. destruct G as [B [H _]].
    rewrite (board_hash_ext _ _ _ B), (hand_hash_ext _ _ _ H). reflexivity. }
  split; [exact E|]. revert E. unfold Yasai.keys, pos_keys, Yasai.key, pos_key.
  destruct (pos_state (ops cf) p) as [st|]; cbn [bind]; [|discriminate]. intros [= ->]. reflexivity.
Qed.

Lemma same_check g h : same_game g h ->
  (in_check (g_board g) (g_side g) <-> in_check (g_board h) (g_side h)).
Proof. intros [B [_ E]]. rewrite E. apply in_check_same. exact B. Qed.
Lemma same_check_after g h m : same_game g h ->
  (in_check (g_board (play g m)) (flip (g_side g)) <-> in_check (g_board (play h m)) (flip (g_side h))).
Proof.
  intros G. pose proof (play_same g h m G) as [B _]. destruct G as [_ [_ E]]. rewrite E.
  apply in_check_same. exact B.
Qed.

Theorem exec_plays {A} cf ms0 (c : client A) : forall p0 p t,
  shows cf ms0 p0 p t -> keeps (cf_checks cf) true (keyed (zt cf) ms0) c t ->
  exists a q t', exec cf c p = Some (a, q) /\ plays (keyed (zt cf) ms0) c t a t' /\ shows cf ms0 p0 q t'.
Proof.
  induction c as [a|s k IH|d x k IH|k IH|k IH|k IH|m k IH|k IH|m k IH|m k IH|k IH|k IH|c IHc k IH]; intros b0 p t Sh K;
    destruct (shows_facts cf ms0 b0 p t Sh) as [ms [R [G [P _]]]]; cbn [exec].
  - exists a, p, t. split; [reflexivity|]. split; [constructor|exact Sh].
  - inversion K as [|? ? ? K'| | | | | | | | | | |]; subst.
    replace (Yasai.piece_at cf p s) with (g_board (t_game t) s) by (symmetry; apply G).
    destruct (IH _ b0 p t Sh K') as [a [q [t' [E [Pl Sq]]]]]. exists a, q, t'. split; [exact E|]. split; [constructor; exact Pl|exact Sq].
  - inversion K as [| |? ? ? ? K'| | | | | | | | | |]; subst.
    replace (hand_n (Yasai.hand cf p d) x) with (g_hand (t_game t) d x) by (symmetry; apply G).
    destruct (IH _ b0 p t Sh K') as [a [q [t' [E [Pl Sq]]]]]. exists a, q, t'. split; [exact E|]. split; [constructor; exact Pl|exact Sq].
  - inversion K as [| | |? ? K'| | | | | | | | |]; subst.
    replace (Yasai.side_to_move cf p) with (g_side (t_game t)) by (symmetry; apply G).
    destruct (IH _ b0 p t Sh K') as [a [q [t' [E [Pl Sq]]]]]. exists a, q, t'. split; [exact E|]. split; [constructor; exact Pl|exact Sq].
  - inversion K as [| | | |? ? K'| | | | | | | |]; subst. rewrite P.
    destruct (IH _ b0 p t Sh K') as [a [q [t' [E [Pl Sq]]]]]. exists a, q, t'. split; [exact E|]. split; [constructor; exact Pl|exact Sq].
  - inversion K as [| | | | |? ? K'| | | | | | |]; subst.
    destruct (api_in_check cf ms p R) as [b [Eb Hb]]. rewrite Eb. cbn [bind].
    change (in_check (piece_at (ops cf) p) (side_to_move (ops cf) p))
      with (in_check (g_board (view cf p)) (g_side (view cf p))) in Hb.
    rewrite (same_check _ _ G) in Hb.
    destruct (IH _ b0 p t Sh (K' b Hb)) as [a [q [t' [E [Pl Sq]]]]]. exists a, q, t'.
    split; [exact E|]. split; [exact (P_check _ b k t a t' Hb Pl)|exact Sq].
  - inversion K as [| | | | | |? ? ? L K'| | | | | |]; subst.
    assert (L' : legal (view cf p) m) by (apply (legal_same (t_game t)); [apply same_sym; exact G|exact L]).
    destruct (api_is_check_move cf ms p m R L') as [b [Eb Hb]]. rewrite Eb. cbn [bind].
    change (side_to_move (ops cf) p) with (g_side (view cf p)) in Hb.
    rewrite (same_check_after _ _ m G) in Hb.
    destruct (IH _ b0 p t Sh (K' b Hb)) as [a [q [t' [E [Pl Sq]]]]]. exists a, q, t'.
    split; [exact E|]. split; [exact (P_ischeck _ m b k t a t' Hb Pl)|exact Sq].
  - inversion K as [| | | | | | |? ? As K'| | | | |]; subst.
    destruct (api_listable cf ms p R (listable_same _ _ (same_sym _ _ G) (As eq_refl))) as [l El]. rewrite El. cbn [bind].
    destruct (api_legal_moves cf ms p l R El) as [ND H].
    assert (H' : forall m, In m l <-> legal (t_game t) m).
    { intros m. rewrite H. split; apply legal_same; [exact G|apply same_sym; exact G]. }
    destruct (IH _ b0 p t Sh (K' l ND H')) as [a [q [t' [E [Pl Sq]]]]]. exists a, q, t'.
    split; [exact E|]. split; [exact (P_legal _ l k t a t' ND H' Pl)|exact Sq].
  - inversion K as [| | | | | | | |? ? g n h L B Rm K'| | | |]; subst. cbn [t_game t_ply] in *.
    assert (L' : legal (view cf p) m) by (apply (legal_same g); [apply same_sym; exact G|exact L]).
    destruct (api_roomy cf ms p m R L' (roomy_same _ _ m (same_sym _ _ G) (Rm eq_refl))) as [p1 D].
    { rewrite P. exact B. }
    rewrite D. cbn [bind]. pose proof (S_do cf ms0 b0 p g n h m p1 Sh L D) as S1.
    destruct (IH b0 p1 _ S1 K') as [a [q [t' [E [Pl Sq]]]]]. exists a, q, t'.
    split; [exact E|]. split; [constructor; exact Pl|exact Sq].
  - inversion K as [| | | | | | | | |? ? g n g0 n0 h K' | | |]; subst.
    inversion Sh as [|p0 ? ? ? ? ? S0 L0 D0 E1 E2]; subst.
    destruct (shows_facts cf ms0 b0 p0 _ S0) as [ms1 [R0 [G0 _]]]. cbn [t_game] in G0.
    assert (L' : legal (view cf p0) m) by (apply (legal_same g0); [apply same_sym; exact G0|exact L0]).
    rewrite (api_undo cf ms1 p0 m p R0 L' D0). cbn [bind].
    destruct (IH b0 p0 _ S0 K') as [a [q [t' [E [Pl Sq]]]]]. exists a, q, t'.
    split; [exact E|]. split; [constructor; exact Pl|exact Sq].
  - inversion K as [| | | | | | | | | |? ? K'| |]; subst. rewrite (proj2 (shows_keys cf ms0 b0 p t Sh)). cbn [bind].
    destruct (IH _ b0 p t Sh K') as [a [q [t' [E [Pl Sq]]]]]. exists a, q, t'. split; [exact E|]. split; [constructor; exact Pl|exact Sq].
  - inversion K as [| | | | | | | | | | |? ? K'|]; subst. rewrite (proj1 (shows_keys cf ms0 b0 p t Sh)). cbn [bind].
    destruct (IH _ b0 p t Sh K') as [a [q [t' [E [Pl Sq]]]]]. exists a, q, t'. split; [exact E|]. split; [constructor; exact Pl|exact Sq].
  - inversion K as [| | | | | | | | | | | |? ? ? K1 K2]; subst.
    destruct (IHc b0 p t Sh K1) as [a1 [q1 [t1 [E1 [P1 _]]]]]. rewrite E1. cbn [bind fst].
    destruct (IH a1 b0 p t Sh (K2 a1 t1 P1)) as [a [q [t' [E [Pl Sq]]]]]. exists a, q, t'.
    split; [exact E|]. split; [exact (P_clone _ c k t a1 t1 a t' P1 Pl)|exact Sq].
Qed.

(* the client never asks for a key *)
Fixpoint keyless {A} (c : client A) : Prop :=
  match c with
  | Ret _ => True
  | PieceAt _ k => forall x, keyless (k x)
  | HandOf _ _ k => forall n, keyless (k n)
  | SideToMove k => forall d, keyless (k d)
  | PlyOf k => forall n, keyless (k n)
  | InCheck k => forall b, keyless (k b)
  | IsCheckMove _ k => forall b, keyless (k b)
  | LegalMoves k => forall l, keyless (k l)
  | DoM _ k => keyless k
  | UndoM _ k => keyless k
  | KeyOf _ => False
  | KeysOf _ => False
  | OnClone c k => keyless c /\ forall a, keyless (k a)
  end.

(* the same result from every build and every history *)
Theorem exec_same {A} cf1 cf2 m1 m2 (c : client A) : forall b1 b2 p1 p2 t,
  shows cf1 m1 b1 p1 t -> shows cf2 m2 b2 p2 t ->
  keyless c \/ (forall g n, keyed (zt cf1) m1 g n = keyed (zt cf2) m2 g n) ->
  keeps (cf_checks cf1 || cf_checks cf2) true (keyed (zt cf1) m1) c t ->
  exists a q1 q2 t', exec cf1 c p1 = Some (a, q1) /\ exec cf2 c p2 = Some (a, q2) /\
    plays (keyed (zt cf1) m1) c t a t' /\ shows cf1 m1 b1 q1 t' /\ shows cf2 m2 b2 q2 t'.
Proof.
  Local Ltac via IH Q K' := destruct (IH ltac:(destruct Q as [Q|Q]; [left; apply Q|right; exact Q]) K')
    as [a [q1 [q2 [t' [E1 [E2 [Pl T]]]]]]]; exists a, q1, q2, t';
    (split; [exact E1|]); (split; [exact E2|]); (split; [|exact T]).
  induction c as [a|s k IH|d x k IH|k IH|k IH|k IH|m k IH|k IH|m k IH|m k IH|k IH|k IH|c IHc k IH];
    intros b1 b2 p1 p2 t S1 S2 Q K;
    destruct (shows_facts cf1 m1 b1 p1 t S1) as [ms1 [R1 [G1 [P1 _]]]];
    destruct (shows_facts cf2 m2 b2 p2 t S2) as [ms2 [R2 [G2 [P2 _]]]]; cbn [exec];
    (assert (G : same_game (view cf1 p1) (view cf2 p2)) by (apply (same_trans _ _ _ G1); apply same_sym; exact G2));
    destruct (same_answers cf1 cf2 ms1 ms2 p1 p2 R1 R2 G) as [Al [Ac Am]].
  - exists a, p1, p2, t. split; [reflexivity|]. split; [reflexivity|]. split; [constructor|]. split; assumption.
  - inversion K as [|? ? ? K'| | | | | | | | | | |]; subst.
    replace (Yasai.piece_at cf1 p1 s) with (g_board (t_game t) s) by (symmetry; apply G1).
    replace (Yasai.piece_at cf2 p2 s) with (g_board (t_game t) s) by (symmetry; apply G2).
    via (IH (g_board (t_game t) s) b1 b2 p1 p2 t S1 S2) Q K'; constructor; exact Pl.
  - inversion K as [| |? ? ? ? K'| | | | | | | | | |]; subst.
    replace (hand_n (Yasai.hand cf1 p1 d) x) with (g_hand (t_game t) d x) by (symmetry; apply G1).
    replace (hand_n (Yasai.hand cf2 p2 d) x) with (g_hand (t_game t) d x) by (symmetry; apply G2).
    via (IH (g_hand (t_game t) d x) b1 b2 p1 p2 t S1 S2) Q K'; constructor; exact Pl.
  - inversion K as [| | |? ? K'| | | | | | | | |]; subst.
    replace (Yasai.side_to_move cf1 p1) with (g_side (t_game t)) by (symmetry; apply G1).
    replace (Yasai.side_to_move cf2 p2) with (g_side (t_game t)) by (symmetry; apply G2).
    via (IH (g_side (t_game t)) b1 b2 p1 p2 t S1 S2) Q K'; constructor; exact Pl.
  - inversion K as [| | | |? ? K'| | | | | | | |]; subst. rewrite P1, P2.
    via (IH (t_ply t) b1 b2 p1 p2 t S1 S2) Q K'; constructor; exact Pl.
  - inversion K as [| | | | |? ? K'| | | | | | |]; subst. rewrite <- Ac.
    destruct (api_in_check cf1 ms1 p1 R1) as [b [Eb Hb]]. rewrite Eb. cbn [bind].
    assert (Hb' : b = true <-> in_check (g_board (t_game t)) (g_side (t_game t))).
    { rewrite Hb. apply (same_check (view cf1 p1)). exact G1. }
    via (IH b b1 b2 p1 p2 t S1 S2) Q (K' b Hb'); exact (P_check _ b k t a t' Hb' Pl).
  - inversion K as [| | | | | |? ? ? L K'| | | | | |]; subst. rewrite <- Am.
    assert (L' : legal (view cf1 p1) m) by (apply (legal_same (t_game t)); [apply same_sym; exact G1|exact L]).
    destruct (api_is_check_move cf1 ms1 p1 m R1 L') as [b [Eb Hb]]. rewrite Eb. cbn [bind].
    assert (Hb' : b = true <-> in_check (g_board (play (t_game t) m)) (flip (g_side (t_game t)))).
    { rewrite Hb. apply (same_check_after (view cf1 p1)). exact G1. }
    via (IH b b1 b2 p1 p2 t S1 S2) Q (K' b Hb'); exact (P_ischeck _ m b k t a t' Hb' Pl).
  - inversion K as [| | | | | | |? ? As K'| | | | |]; subst. rewrite <- Al.
    destruct (api_listable cf1 ms1 p1 R1 (listable_same _ _ (same_sym _ _ G1) (As eq_refl))) as [l El]. rewrite El. cbn [bind].
    destruct (api_legal_moves cf1 ms1 p1 l R1 El) as [ND H].
    assert (H' : forall m, In m l <-> legal (t_game t) m).
    { intros m. rewrite H. split; apply legal_same; [exact G1|apply same_sym; exact G1]. }
    via (IH l b1 b2 p1 p2 t S1 S2) Q (K' l ND H'); exact (P_legal _ l k t a t' ND H' Pl).
  - inversion K as [| | | | | | | |? ? g n h L B Rm K'| | | |]; subst. cbn [t_game t_ply] in *.
    assert (X : forall cf mm b0 ms p, shows cf mm b0 p (mkT g n h) -> reachable cf ms p ->
      same_game (view cf p) g -> Yasai.ply cf p = n -> (cf_checks cf = true -> (n < 65535)%N) ->
      exists p', Yasai.do_move cf p m = Some p' /\ shows cf mm b0 p' (mkT (play g m) (next_ply n) ((m, g, n) :: h))).
    { intros cf mm b0 ms p Sh R Gv P Bd.
      assert (L' : legal (view cf p) m) by (apply (legal_same g); [apply same_sym; exact Gv|exact L]).
      destruct (api_roomy cf ms p m R L' (roomy_same _ _ m (same_sym _ _ Gv) (Rm eq_refl))) as [p' D].
      { rewrite P. destruct (cf_checks cf); [right; apply Bd; reflexivity|left; reflexivity]. }
      exists p'. split; [exact D|]. exact (S_do cf mm b0 p g n h m p' Sh L D). }
    destruct (X cf1 m1 b1 ms1 p1 S1 R1 G1 P1) as [p1' [D1 T1]].
    { intros C. destruct B as [B|B]; [|exact B]. rewrite C in B. discriminate. }
    destruct (X cf2 m2 b2 ms2 p2 S2 R2 G2 P2) as [p2' [D2 T2]].
    { intros C. destruct B as [B|B]; [|exact B]. rewrite C, orb_true_r in B. discriminate. }
    rewrite D1, D2. cbn [bind]. via (IH b1 b2 p1' p2' _ T1 T2) Q K'; constructor; exact Pl.
  - inversion K as [| | | | | | | | |? ? g n g0 n0 h K' | | |]; subst.
    assert (X : forall cf mm b0 p, shows cf mm b0 p (mkT g n ((m, g0, n0) :: h)) ->
      exists p', Yasai.undo_move cf p m = Some p' /\ shows cf mm b0 p' (mkT g0 n0 h)).
    { intros cf mm b0 p Sh. inversion Sh as [|p0 ? ? ? ? ? S0 L0 D0 E1 E2]; subst.
      destruct (shows_facts cf mm b0 p0 _ S0) as [ms0 [R0 [G0 _]]]. cbn [t_game] in G0.
      assert (L' : legal (view cf p0) m) by (apply (legal_same g0); [apply same_sym; exact G0|exact L0]).
      exists p0. split; [exact (api_undo cf ms0 p0 m p R0 L' D0)|exact S0]. }
    destruct (X cf1 m1 b1 p1 S1) as [p1' [D1 T1]]. destruct (X cf2 m2 b2 p2 S2) as [p2' [D2 T2]].
    rewrite D1, D2. cbn [bind]. via (IH b1 b2 p1' p2' _ T1 T2) Q K'; constructor; exact Pl.
  - inversion K as [| | | | | | | | | |? ? K'| |]; subst.
    destruct Q as [[]|Q]. assert (EK : keys_at (keyed (zt cf2) m2) t = keys_at (keyed (zt cf1) m1) t)
      by (unfold keys_at; symmetry; apply Q).
    rewrite (proj2 (shows_keys cf1 m1 b1 p1 t S1)), (proj2 (shows_keys cf2 m2 b2 p2 t S2)), EK. cbn [bind].
    destruct (IH _ b1 b2 p1 p2 t S1 S2 (or_intror Q) K') as [a [q1 [q2 [t' [E1 [E2 [Pl T]]]]]]].
    exists a, q1, q2, t'. split; [exact E1|]. split; [exact E2|]. split; [constructor; exact Pl|exact T].
  - inversion K as [| | | | | | | | | | |? ? K'|]; subst.
    destruct Q as [[]|Q]. assert (EK : keys_at (keyed (zt cf2) m2) t = keys_at (keyed (zt cf1) m1) t)
      by (unfold keys_at; symmetry; apply Q).
    rewrite (proj1 (shows_keys cf1 m1 b1 p1 t S1)), (proj1 (shows_keys cf2 m2 b2 p2 t S2)), EK. cbn [bind].
    destruct (IH _ b1 b2 p1 p2 t S1 S2 (or_intror Q) K') as [a [q1 [q2 [t' [E1 [E2 [Pl T]]]]]]].
    exists a, q1, q2, t'. split; [exact E1|]. split; [exact E2|]. split; [constructor; exact Pl|exact T].
  - inversion K as [| | | | | | | | | | | |? ? ? K1 K2]; subst.
    assert (Qc : keyless c \/ (forall g n, keyed (zt cf1) m1 g n = keyed (zt cf2) m2 g n)).
    { destruct Q as [Q|Q]; [left; apply Q|right; exact Q]. }
    destruct (IHc b1 b2 p1 p2 t S1 S2 Qc K1) as [a0 [u1 [u2 [u [F1 [F2 [Pc _]]]]]]].
    rewrite F1, F2. cbn [bind fst].
    via (IH a0 b1 b2 p1 p2 t S1 S2) Q (K2 a0 u Pc); exact (P_clone _ c k t a0 u a t' Pc Pl).
Qed.

(** ** A client: the solver of mate problems *)

(* Mate in at most [d] moves of the attacker, each of them a check: *)
Fixpoint forced (d : nat) (g : game) : Prop :=
  match d with
  | O => False
  | S d => exists m, legal g m /\ in_check (g_board (play g m)) (flip (g_side g)) /\
      forall r, legal (play g m) r -> forced d (play (play g m) r)
  end.

Section Solver.
Context {A : Type} (K : keying).
Definition test : Type := (bool -> client A) -> client A.

Fixpoint any (body : move -> test) (l : list move) : test := fun k =>
  match l with
  | [] => k false
  | m :: l => body m (fun b => if b then k true else any body l k)
  end.
Fixpoint all (body : move -> test) (l : list move) : test := fun k =>
  match l with
  | [] => k true
  | m :: l => body m (fun b => if b then all body l k else k false)
  end.

Fixpoint solve (d : nat) : test := fun k =>
  match d with
  | O => k false
  | S d =>
      LegalMoves (fun l => any (fun m k =>
        IsCheckMove m (fun b =>
          if b then
            DoM m (LegalMoves (fun rs =>
              all (fun r k => DoM r (solve d (fun b => UndoM r (k b)))) rs
                (fun b => UndoM m (k b))))
          else k false)) l k)
  end.

(* a piece of a program that finds out whether [Q], and leaves the table as it is *)
Definition finds (f : test) (t : table) (Q : Prop) : Prop := forall k a t',
  plays K (f k) t a t' -> exists b, (b = true <-> Q) /\ plays K (k b) t a t'.
Definition safe (ck lim : bool) (f : test) (t : table) (Q : Prop) : Prop := forall k,
  (forall b, (b = true <-> Q) -> keeps ck lim K (k b) t) -> keeps ck lim K (f k) t.

Lemma any_finds body t Q l : (forall m, In m l -> finds (body m) t (Q m)) ->
  finds (any body l) t (exists m, In m l /\ Q m).
Proof.
  induction l as [|m l IH]; intros H k a t' P; cbn [any] in P.
  - exists false. split; [|exact P]. split; [discriminate|]. intros [m [[] _]].
  - apply (H m (or_introl eq_refl)) in P as [b [Hb P]]. destruct b.
    + exists true. split; [|exact P]. split; [|reflexivity]. intros _. exists m. split; [left; reflexivity|].
      apply Hb. reflexivity.
    + apply (IH (fun m I => H m (or_intror I))) in P as [b [Hb' P]]. exists b. split; [|exact P].
      rewrite Hb'. split; intros [m' [I Q']].
      * exists m'. split; [right; exact I|exact Q'].
      * destruct I as [<-|I]; [apply Hb in Q'; discriminate|]. exists m'. tauto.
Qed.
Lemma all_finds body t Q l : (forall m, In m l -> finds (body m) t (Q m)) ->
  finds (all body l) t (forall m, In m l -> Q m).
Proof.
  induction l as [|m l IH]; intros H k a t' P; cbn [all] in P.
  - exists true. split; [|exact P]. split; [|reflexivity]. intros _ m [].
  - apply (H m (or_introl eq_refl)) in P as [b [Hb P]]. destruct b.
    + apply (IH (fun m I => H m (or_intror I))) in P as [b [Hb' P]]. exists b. split; [|exact P].
      rewrite Hb'. split; intros Q' m' I.
      * destruct I as [<-|I]; [apply Hb; reflexivity|]. apply Q'. exact I.
      * apply Q'. right. exact I.
    + exists false. split; [|exact P]. split; [discriminate|]. intros Q'. apply Hb. apply Q'. left. reflexivity.
Qed.
(* the safety of a test may use that the tests before it gave an answer *)
Lemma any_safe ck lim body t Q l : (forall m, In m l -> safe ck lim (body m) t (Q m)) ->
  safe ck lim (any body l) t (exists m, In m l /\ Q m).
Proof.
  induction l as [|m l IH]; intros H k Kp; cbn [any].
  - apply Kp. split; [discriminate|]. intros [m [[] _]].
  - apply (H m (or_introl eq_refl)). intros b Hb. destruct b.
    + apply Kp. split; [|reflexivity]. intros _. exists m. split; [left; reflexivity|]. apply Hb. reflexivity.
    + apply (IH (fun m I => H m (or_intror I))). intros b Hb'. apply Kp. rewrite Hb'. split; intros [m' [I Q']].
      * exists m'. split; [right; exact I|exact Q'].
      * destruct I as [<-|I]; [apply Hb in Q'; discriminate|]. exists m'. tauto.
Qed.
Lemma all_safe ck lim body t Q l : (forall m, In m l -> safe ck lim (body m) t (Q m)) ->
  safe ck lim (all body l) t (forall m, In m l -> Q m).
Proof.
  induction l as [|m l IH]; intros H k Kp; cbn [all].
  - apply Kp. split; [|reflexivity]. intros _ m [].
  - apply (H m (or_introl eq_refl)). intros b Hb. destruct b.
    + apply (IH (fun m I => H m (or_intror I))). intros b Hb'. apply Kp. rewrite Hb'. split; intros Q' m' I.
      * destruct I as [<-|I]; [apply Hb; reflexivity|]. apply Q'. exact I.
      * apply Q'. right. exact I.
    + apply Kp. split; [discriminate|]. intros Q'. apply Hb. apply Q'. left. reflexivity.
Qed.

Lemma solve_finds d : forall t, finds (solve d) t (forced d (t_game t)).
Proof.
  induction d as [|d IH]; intros t k a t' P; cbn [solve] in P.
  - exists false. split; [|exact P]. split; [discriminate|intros []].
  - inversion P as [| | | | | | |l ? ? ? ? ND HL P'| | | | |]; subst. clear P.
    apply (any_finds _ t (fun m => in_check (g_board (play (t_game t) m)) (flip (g_side (t_game t))) /\
        forall r, legal (play (t_game t) m) r -> forced d (play (play (t_game t) m) r))) in P'.
    + destruct P' as [b [Hb P']]. exists b. split; [|exact P']. rewrite Hb. cbn [forced].
      split; intros [m [H1 H2]]; exists m; (split; [apply HL; exact H1|tauto]).
    + clear k a t' P'. intros m I k a t' P. apply HL in I.
      inversion P as [| | | | | |? b ? ? ? ? Hb P'| | | | | |]; subst. clear P. destruct b.
      2: { exists false. split; [|exact P']. rewrite <- Hb. split; [discriminate|]. intros [H _]. discriminate. }
      inversion P' as [| | | | | | | |? ? g n h ? ? P| | | |]; subst. clear P'. cbn [t_game] in *.
      inversion P as [| | | | | | |rs ? ? ? ? ND' HR P'| | | | |]; subst. clear P. cbn [t_game] in *.
      apply (all_finds _ _ (fun r => forced d (play (play g m) r))) in P'.
      * destruct P' as [b [Hb' P']]. exists b. inversion P' as [| | | | | | | | |? ? ? ? ? ? ? ? ? P| | |]; subst.
        split; [|exact P]. rewrite Hb'. split.
        -- intros H. split; [apply Hb; reflexivity|]. intros r L. apply H. apply HR. exact L.
        -- intros [_ H] r J. apply H. apply HR. exact J.
      * clear k a t' P' . intros r J k a t' P.
        inversion P as [| | | | | | | |? ? ? ? ? ? ? P'| | | |]; subst. clear P.
        apply IH in P' as [b [Hb' P']]. exists b. cbn [t_game] in Hb'. split; [exact Hb'|].
        inversion P'; subst. assumption.
Qed.

(* room for [2 * d] plies *)
Lemma next_ply_le n : (n < 65535)%N -> next_ply n = (n + 1)%N.
Proof. intros L. unfold next_ply. destruct (N.eqb_spec n 65535); [lia|reflexivity]. Qed.
(* the defending side, which need not move, has a king *)
Lemma solve_safe ck d : forall t, valid (t_game t) -> hand_ok (t_game t) -> standard_material (t_game t) ->
  opponent_has_king (t_game t) -> ck = false \/ (t_ply t + 2 * N.of_nat d <= 65535)%N ->
  safe ck true (solve d) t (forced d (t_game t)).
Proof.
  induction d as [|d IH]; intros t V HO M OK B k Kp; cbn [solve].
  - apply Kp. split; [discriminate|intros []].
  - constructor; [intros _; apply listable_king; assumption|]. intros l ND HL.
    apply (any_safe ck true _ t (fun m => in_check (g_board (play (t_game t) m)) (flip (g_side (t_game t))) /\
        forall r, legal (play (t_game t) m) r -> forced d (play (play (t_game t) m) r))).
    + clear k Kp. intros m I k Kp. apply HL in I. constructor; [exact I|]. intros b Hb. destruct b.
      2: { apply Kp. rewrite <- Hb. split; [discriminate|]. intros [H _]. discriminate. }
      destruct t as [g n h]. cbn [t_game t_ply] in *.
      assert (B1 : ck = false \/ (n < 65535)%N) by (destruct B; [tauto|right; lia]).
      constructor; [exact I|exact B1|intros _; apply roomy_standard, M|].
      assert (Sd : forall g' m', g_side (play g' m') = flip (g_side g')) by (intros g' []; reflexivity).
      constructor; [intros _; left; cbn [t_game]; rewrite Sd; apply Hb; reflexivity|].
      intros rs ND' HR. cbn [t_game] in HR.
      apply (all_safe ck true _ _ (fun r => forced d (play (play g m) r))).
      * intros r J k' K'. apply HR in J.
        assert (B2 : ck = false \/ (next_ply n < 65535)%N).
        { destruct B as [B|B]; [tauto|right]. rewrite next_ply_le; lia. }
        assert (V1 : valid (play g m)) by (apply valid_play; assumption).
        assert (H1 : hand_ok (play g m)) by (apply hand_ok_play; [assumption..|apply I]).
        constructor; [exact J|exact B2|intros _; apply roomy_standard; intros x; rewrite material_play; [apply M|exact HO|apply I]|]. apply IH; cbn [t_game].
        -- apply valid_play; assumption.
        -- apply hand_ok_play; [assumption..|apply J].
        -- intros x. rewrite material_play; [|exact H1|apply J]. rewrite material_play; [apply M|exact HO|apply I].
        -- unfold opponent_has_king. rewrite !Sd, flip_flip.
           apply (kings_persist [m; r] g (flip (g_side g)) V HO); [cbn; tauto|exact OK].
        -- destruct B as [B|B]; [tauto|right]. cbn [t_ply]. rewrite !next_ply_le; [lia..|]. rewrite next_ply_le; lia.
        -- intros b Hb'. constructor. apply K'. exact Hb'.
      * intros b Hb'. constructor. apply Kp. rewrite Hb'. split.
        -- intros H. split; [apply Hb; reflexivity|]. intros r L. apply H. apply HR. exact L.
        -- intros [_ H] r J. apply H. apply HR. exact J.
    + intros b Hb. apply Kp. rewrite Hb. cbn [forced].
      split; intros [m [H1 H2]]; exists m; (split; [apply HL; exact H1|tauto]).
Qed.
End Solver.
