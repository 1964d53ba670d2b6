(** * A client: threads that search with one transposition table

    The search of SearchTable.v, run by several threads at once ("lazy SMP"), each
    on its own clone of the position (derived, position.rs 7, 263, 337, 348), with one
    table for all of them, keyed by Position::key (position.rs 61-64). *)

From Coq Require Import List Bool NArith ZArith Lia.
From Verif Require Import Types Rules Bitboard Tables Zobrist Position Movegen Perft Api
  ValidPlay Reach Lines Decide PerftSpec Client Repeat Search SearchTable.
Import ListNotations.
Local Open Scope Z_scope.

(** ** Threads with a table in common *)

(* a program that calls the crate and works on the table *)
Inductive prog (A : Type) : Type :=
| Done (a : A)
| Call (X : Type) (c : client X) (k : X -> prog A)
| Probe (key : N) (d : nat) (k : option bounds -> prog A)
| Store (key : N) (d : nat) (b : bounds) (k : prog A).
Arguments Done {A}. Arguments Call {A X}. Arguments Probe {A}. Arguments Store {A}.

Section Threads.
Context {A : Type} (cf : config).
(* what is left to do, and the thread's own position *)
Definition thread : Type := prog A * Yasai.Position cf.

(* The table is given by all that was ever stored.  A look into it finds something
   that was stored under this key and depth, by any thread at any time, or nothing:
   entries may be replaced, lost, or seen late.  A call that panics is no step. *)
Definition tstep (x : thread) (T : ttable) (x' : thread) (T' : ttable) : Prop :=
  match fst x with
  | Done _ => False
  | Call c k => exists a q, exec cf c (snd x) = Some (a, q) /\ x' = (k a, q) /\ T' = T
  | Probe key d k => exists ob, (forall b, ob = Some b -> In (key, d, b) T) /\ x' = (k ob, snd x) /\ T' = T
  | Store key d b k => x' = (k, snd x) /\ T' = (key, d, b) :: T
  end.

(* one thread takes a step *)
Definition state : Type := list thread * ttable.
Inductive step : state -> state -> Prop :=
| St_one l1 x l2 T x' T' : tstep x T x' T' -> step (l1 ++ x :: l2, T) (l1 ++ x' :: l2, T').
Inductive runs : state -> state -> Prop :=
| Rn_none s : runs s s
| Rn_more s s1 s2 : runs s s1 -> step s1 s2 -> runs s s2.

(** *** Every run ends *)

(* what is left to do gets less *)
Definition rest (c' c : prog A) : Prop :=
  match c with
  | Done _ => False
  | Call _ k => exists x, c' = k x
  | Probe _ _ k => exists ob, c' = k ob
  | Store _ _ _ k => c' = k
  end.
Lemma rest_wf c : Acc rest c.
Proof.
  induction c as [a|X c k IH|key d k IH|key d b k IH]; constructor; intros c'; cbn [rest].
  - intros [].
  - intros [x ->]. apply IH.
  - intros [ob ->]. apply IH.
  - intros ->. exact IH.
Qed.
Lemma tstep_rest x T x' T' : tstep x T x' T' -> rest (fst x') (fst x).
Proof.
  destruct x as [[a|X c k|key d k|key d b k] p]; unfold tstep; cbn [fst snd rest].
  - intros [].
  - intros [a [q [_ [-> _]]]]. exists a. reflexivity.
  - intros [ob [_ [-> _]]]. exists ob. reflexivity.
  - intros [-> _]. reflexivity.
Qed.

Inductive less : list thread -> list thread -> Prop :=
| Ls_one l1 x l2 x' : rest (fst x') (fst x) -> less (l1 ++ x' :: l2) (l1 ++ x :: l2).
Lemma less_cons x l l' : less l' (x :: l) ->
  (exists x', l' = x' :: l /\ rest (fst x') (fst x)) \/ (exists l0, l' = x :: l0 /\ less l0 l).
Proof.
  intros H. inversion H as [l1 y l2 y' R E1 E2]. destruct l1 as [|z l1]; cbn [app] in *.
  - injection E2 as -> ->. left. exists y'. split; [reflexivity|exact R].
  - injection E2 as -> <-. right. exists (l1 ++ y' :: l2). split; [reflexivity|]. constructor. exact R.
Qed.
Lemma less_wf l : Acc less l.
Proof.
  induction l as [|[c p] l IH].
  - constructor. intros l' H. inversion H as [l1 ? ? ? ? E1 E2]. destruct l1; discriminate E2.
  - revert p l IH. induction (rest_wf c) as [c _ IHc]. intros p l Al. induction Al as [l Hl IHl].
    constructor. intros l' H. apply less_cons in H as [[[c' p'] [-> R]]|[l0 [-> H]]].
    + apply IHc; [exact R|]. constructor. exact Hl.
    + apply IHl. exact H.
Qed.
Lemma step_wf s : Acc (fun s' s => step s s') s.
Proof.
  destruct s as [l T]. revert T. induction (less_wf l) as [l _ IH]. intros T. constructor.
  intros s' H. inversion H as [l1 x l2 T0 x' T' St E1 E2]; subst. apply IH. constructor.
  exact (tstep_rest x T x' T' St).
Qed.
End Threads.

(** ** A thread that does right as long as the table is right *)

Section Fine.
Context {A : Type} (ck : bool) (K : keying) (R : N -> nat -> bounds -> Prop).
Fixpoint does (Q : A -> table -> Prop) (c : prog A) (t : table) : Prop :=
  match c with
  | Done a => Q a t
  | Call c k => keeps ck true K c t /\ forall x t', plays K c t x t' -> does Q (k x) t'
  | Probe key d k => forall ob, (forall b, ob = Some b -> R key d b) -> does Q (k ob) t
  | Store key d b k => R key d b /\ does Q k t
  end.
End Fine.

Section Safe.
Context {A : Type} (cf : config) (ms : list move) (p0 : Yasai.Position cf) (R : N -> nat -> bounds -> Prop).
Definition right_log (T : ttable) : Prop := forall key d b, In (key, d, b) T -> R key d b.
Definition well (Q : A -> table -> Prop) (x : thread cf) : Prop := exists t,
  shows cf ms p0 (snd x) t /\ does (cf_checks cf) (keyed (zt cf) ms) R Q (fst x) t.

Lemma tstep_well Q x T x' T' : right_log T -> well Q x -> tstep cf x T x' T' -> well Q x' /\ right_log T'.
Proof.
  intros RT [t [Sh W]] St. destruct x as [[a|X c k|key d k|key d b k] p]; unfold tstep in St; cbn [fst snd does] in *.
  - destruct St.
  - destruct St as [a [q [E [-> ->]]]]. split; [|exact RT]. destruct W as [Kp W].
    destruct (exec_plays cf ms c p0 p t Sh Kp) as [a' [q' [t' [E' [P Sh']]]]].
    assert (a = a' /\ q = q') as [<- <-] by (split; congruence).
    exists t'. split; [exact Sh'|apply W, P].
  - destruct St as [ob [H [-> ->]]]. split; [|exact RT]. exists t. split; [exact Sh|]. apply W.
    intros b E. apply RT, H, E.
  - destruct St as [-> ->]. destruct W as [Rb W]. split.
    + exists t. split; assumption.
    + intros key' d' b' [E|I]; [|apply RT, I]. assert (key = key' /\ d = d' /\ b = b') as [<- [<- <-]]; [|exact Rb].
      repeat split; congruence.
Qed.

Lemma well_goes_on Q x T : well Q x ->
  (exists a t, fst x = Done a /\ Q a t /\ shows cf ms p0 (snd x) t) \/ exists x' T', tstep cf x T x' T'.
Proof.
  intros [t [Sh W]]. destruct x as [[a|X c k|key d k|key d b k] p]; unfold tstep; cbn [fst snd does] in *.
  - left. exists a, t. split; [reflexivity|]. split; assumption.
  - right. destruct W as [Kp _]. destruct (exec_plays cf ms c p0 p t Sh Kp) as [a [q [t' [E _]]]].
    exists (k a, q), T, a, q. split; [exact E|]. split; reflexivity.
  - right. exists (k None, p), T, None. split; [discriminate|]. split; reflexivity.
  - right. exists (k, p), ((key, d, b) :: T). split; reflexivity.
Qed.

Lemma runs_well {J} (Q : J -> A -> table -> Prop) js ths T ths' T' : right_log T ->
  Forall2 (fun j => well (Q j)) js ths -> runs cf (ths, T) (ths', T') ->
  Forall2 (fun j => well (Q j)) js ths' /\ right_log T'.
Proof.
  intros RT F H. remember (ths, T) as s eqn:Es. remember (ths', T') as s' eqn:Es'. revert ths' T' Es'.
  induction H as [s|s s1 s2 _ IH St]; intros ths' T' Es'; subst.
  - assert (ths = ths' /\ T = T') as [<- <-] by (split; congruence). split; assumption.
  - inversion St as [l1 x l2 T1 x' T2 St' E1 E2]; subst. destruct (IH eq_refl _ _ eq_refl) as [F1 R1].
    apply Forall2_app_inv_r in F1 as [j1 [j2 [F1 [F2 ->]]]]. inversion F2 as [|j ? j2' ? Wx F3]; subst.
    destruct (tstep_well (Q j) x T1 x' T' R1 Wx St') as [Wx' R']. split; [|exact R'].
    apply Forall2_app; [exact F1|]. constructor; assumption.
Qed.
End Safe.

(** ** The search *)

Section SharedSearch.
Context {A : Type} (W : weights).
Definition sgetter : Type := (Z -> prog A) -> prog A.

Fixpoint s_try_all (body : Z -> move -> sgetter) (alpha beta : Z) (l : list move) : sgetter := fun k =>
  match l with
  | [] => k alpha
  | m :: l => body alpha m (fun v => if beta <=? v then k beta else s_try_all body (Z.max alpha v) beta l k)
  end.

Fixpoint s_search (d : nat) (alpha beta : Z) : sgetter := fun k =>
  match d with
  | O => Call (evaluate W Ret) (fun v => k (clamp alpha beta v))
  | S d' =>
      Call (KeyOf Ret) (fun key => Probe key d (fun ob =>
        match match ob with Some b => settled b alpha beta | None => None end with
        | Some r => k r
        | None =>
            let store := fun r => Store key d (learnt alpha beta r) (k r) in
            Call (LegalMoves Ret) (fun l =>
              match l with
              | [] => store (clamp alpha beta (- w_mate W))
              | _ => s_try_all (fun alpha m k =>
                       Call (DoM m (Ret tt)) (fun _ => s_search d' (- beta) (- alpha) (fun v =>
                       Call (UndoM m (Ret tt)) (fun _ => k (- v))))) alpha beta l store
              end)
        end))
  end.

(* the searches of one thread *)
Fixpoint s_all (jobs : list (nat * Z * Z)) (rs : list Z) (k : list Z -> prog A) : prog A :=
  match jobs with
  | [] => k rs
  | (d, alpha, beta) :: jobs => s_search d alpha beta (fun r => s_all jobs (rs ++ [r]) k)
  end.

(** ** It does right if no two positions near the root have the same key *)

Context (ck : bool) (K : keying) (t0 : table) (D : nat) (Q : A -> table -> Prop).
Definition near_entry (key : N) (d : nat) (b : bounds) : Prop :=
  exists t l, at_line t0 t l /\ (List.length l < D)%nat /\ key_at K t = key /\ within b (mm W d (t_game t)).
Notation fine := (does ck K near_entry Q).

Lemma s_try_all_does body t beta f l :
  (forall m alpha, In m l -> alpha < beta -> forall k, fine (k (clamp alpha beta (f m))) t -> fine (body alpha m k) t) ->
  forall alpha k, alpha < beta -> fine (k (Z.min beta (maxl alpha (map f l)))) t ->
  fine (s_try_all body alpha beta l k) t.
Proof.
  induction l as [|m l IH]; intros H alpha k Lt F; cbn [s_try_all map maxl] in *.
  - rewrite Z.min_r in F by lia. exact F.
  - apply (H m alpha (or_introl eq_refl) Lt). unfold clamp.
    destruct (Z.leb_spec beta (Z.max alpha (Z.min beta (f m)))) as [Le|Gt].
    + pose proof (maxl_ge (map f l) (Z.max alpha (f m))). rewrite Z.min_l in F by lia. exact F.
    + apply (IH (fun m' al I => H m' al (or_intror I))); [lia|].
      replace (Z.max alpha (Z.max alpha (Z.min beta (f m)))) with (Z.max alpha (f m)) by lia. exact F.
Qed.

Lemma s_search_does (DK : distinct_keys K t0 D) d : forall alpha beta t l k, alpha < beta ->
  at_line t0 t l -> (List.length l + d <= D)%nat -> decent (t_game t) ->
  ck = false \/ (t_ply t + N.of_nat d <= 65535)%N ->
  fine (k (clamp alpha beta (mm W d (t_game t)))) t -> fine (s_search d alpha beta k) t.
Proof.
  induction d as [|d IH]; intros alpha beta t l k Lt Af Le De Bd F; cbn [s_search does].
  - split; [apply evaluate_fine; intros v; constructor|]. intros x t' P. apply evaluate_gets in P.
    inversion P; subst. exact F.
  - split; [constructor; constructor|]. intros key t1 P.
    inversion P as [| | | | | | | | | |? ? ? ? P'| |]; subst. clear P. inversion P'; subst. clear P'.
    change (N.lxor (fst (keys_at K t1)) (snd (keys_at K t1))) with (key_at K t1).
    rename t1 into t. cbn [does]. intros ob Rb.
    assert (St : forall r, r = clamp alpha beta (mm W (S d) (t_game t)) ->
      fine (Store (key_at K t) (S d) (learnt alpha beta r) (k r)) t).
    { intros r ->. cbn [does]. split; [|exact F]. exists t, l. split; [exact Af|]. split; [lia|].
      split; [reflexivity|]. apply learnt_right, Lt. }
    destruct (match ob with Some b => settled b alpha beta | None => None end) as [r|] eqn:Hit.
    + destruct ob as [b|]; [|discriminate].
      destruct (Rb b eq_refl) as [t1 [l1 [A1 [B1 [K1 W1]]]]].
      rewrite (mm_same W (S d) _ _ (DK t1 l1 t l A1 B1 Af ltac:(lia) K1)) in W1.
      rewrite (settled_right b alpha beta _ r Lt W1 Hit). exact F.
    + clear Hit Rb ob. cbn [does]. split.
      { constructor; [intros _; destruct De as [V [HO [M BK]]]; apply listable_king; auto; apply BK|].
        intros ml ND HL. constructor. }
      intros ml t1 P. inversion P as [| | | | | | |ml0 ? ? ? ? ND HL P'| | | | |]; subst. clear P.
      inversion P'; subst. clear P'. rename t1 into t.
      destruct ml as [|m0 ml].
      * apply St. f_equal. apply minimax_mm. left. split; [|reflexivity]. intros m L. apply HL in L. destruct L.
      * apply (s_try_all_does _ t beta (fun m => - mm W d (play (t_game t) m)) (m0 :: ml)).
        -- intros m al I La k' F'. apply HL in I. destruct t as [g n h]. cbn [t_game t_ply] in *. cbn [does]. split.
           { constructor; [exact I|destruct Bd; [tauto|right; lia]|intros _; apply roomy_standard, De|constructor]. }
           intros [] t1 P. inversion P as [| | | | | | | |? ? g' n' h' ? ? P2| | | |]; subst. clear P.
           inversion P2; subst. clear P2.
           apply (IH (- beta) (- al) _ (l ++ [m])); cbn [t_game t_ply].
           ++ lia.
           ++ exact (after_step _ _ l m g n h Af eq_refl I).
           ++ rewrite app_length. cbn [List.length]. lia.
           ++ apply decent_play; assumption.
           ++ destruct Bd as [Bd|Bd]; [tauto|right]. rewrite next_ply_le; lia.
           ++ cbn [does]. split; [constructor; constructor|]. intros [] t1 P.
              inversion P as [| | | | | | | | |? ? ? ? ? ? ? ? ? P3| | |]; subst. inversion P3; subst.
              replace (- clamp (- beta) (- al) (mm W d (play g m))) with (clamp al beta (- mm W d (play g m)))
                by (unfold clamp; lia). exact F'.
        -- exact Lt.
        -- cbn [map maxl]. rewrite maxl_max. apply St.
           rewrite (mm_list W d (t_game t) m0 ml HL). unfold clamp. lia.
Qed.

Lemma s_all_does (DK : distinct_keys K t0 D) jobs : decent (t_game t0) -> forall rs k,
  (forall d alpha beta, In (d, alpha, beta) jobs ->
     (d <= D)%nat /\ alpha < beta /\ (ck = false \/ (t_ply t0 + N.of_nat d <= 65535)%N)) ->
  fine (k (rs ++ map (fun j => match j with (d, alpha, beta) => clamp alpha beta (mm W d (t_game t0)) end) jobs)) t0 ->
  fine (s_all jobs rs k) t0.
Proof.
  intros De. induction jobs as [|[[d alpha] beta] jobs IH]; intros rs k H F; cbn [s_all map] in *.
  - rewrite app_nil_r in F. exact F.
  - destruct (H d alpha beta (or_introl eq_refl)) as [Ld [Lt Bd]].
    apply (s_search_does DK d alpha beta t0 []); try assumption.
    + split; [exact I|]. split; [reflexivity|]. cbn [List.length]. lia.
    + apply IH; [intros d' al be I; apply H; right; exact I|]. rewrite <- app_assoc. exact F.
Qed.
End SharedSearch.
