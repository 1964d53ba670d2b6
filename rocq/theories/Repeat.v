(** * Repetition of positions, and a referee that finds it with key()

    The rule: when a position is there for the fourth time (same board, same hands,
    same side to move) the game ends; a side whose moves since the first time have
    all given check has lost, otherwise nobody has.  A side without a legal move
    has lost.  The referee is a client, not part of the crate; it uses the methods
    of position.rs only. *)

From Coq Require Import List Bool Arith NArith ZArith Lia.
From Verif Require Import Types Rules Bitboard Tables Zobrist Position Movegen Api Squares
  ValidPlay Moves Reach Decide Lines PerftSpec.
Import ListNotations.
Local Open Scope nat_scope.

(** ** The rule *)

(* the position after [i] moves of [ms] *)
Definition after (g : game) (ms : list move) (i : nat) : game := play_line g (firstn i ms).

Definition no_moves (g : game) : Prop := forall m, ~ legal g m.

(* after [n] moves the position is there for the fourth time at least *)
Definition fourfold (g : game) (ms : list move) (n : nat) : Prop :=
  exists I, NoDup I /\ length I = 4 /\
    forall i, In i I -> i <= n /\ same_game (after g ms i) (after g ms n).

(* since it was there for the first time, every move of [c] has given check *)
Definition perpetual (g : game) (ms : list move) (n : nat) (c : color) : Prop :=
  forall j i, j <= i -> i <= n -> same_game (after g ms j) (after g ms n) ->
    g_side (after g ms i) = flip c -> in_check (g_board (after g ms i)) (flip c).

Inductive verdict := Illegal | NoMoves | Repeated (black white : bool) | Ongoing.

Definition going (g : game) (ms : list move) (i : nat) : Prop :=
  ~ no_moves (after g ms i) /\ ~ fourfold g ms i.

(* the game that starts with [ms] ends after [n] moves as the verdict says *)
Inductive judged (g : game) (ms : list move) : nat -> verdict -> Prop :=
| J_none n : n <= length ms -> legal_line g (firstn n ms) -> (forall i, i < n -> going g ms i) ->
    no_moves (after g ms n) -> judged g ms n NoMoves
| J_rep n b w : n <= length ms -> legal_line g (firstn n ms) -> (forall i, i < n -> going g ms i) ->
    ~ no_moves (after g ms n) -> fourfold g ms n ->
    (b = true <-> perpetual g ms n Black) -> (w = true <-> perpetual g ms n White) ->
    judged g ms n (Repeated b w)
| J_illegal n m : legal_line g (firstn n ms) -> (forall i, i <= n -> going g ms i) ->
    nth_error ms n = Some m -> ~ legal (after g ms n) m -> judged g ms n Illegal
| J_ongoing n : n = length ms -> legal_line g ms -> (forall i, i <= n -> going g ms i) ->
    judged g ms n Ongoing.

(** ** The referee *)

Record entry := mkE { e_key : N; e_side : color; e_check : bool }.

(* the entries from the first with key [k] on *)
Fixpoint since (k : N) (log : list entry) : list entry :=
  match log with
  | [] => []
  | e :: r => if N.eqb (e_key e) k then log else since k r
  end.
Definition checked_all (c : color) (log : list entry) : bool :=
  forallb (fun e => color_eqb (e_side e) c || e_check e) log.
Definition ruling (k : N) (log : list entry) : option verdict :=
  if 4 <=? length (filter (fun e => N.eqb (e_key e) k) log)
  then Some (Repeated (checked_all Black (since k log)) (checked_all White (since k log)))
  else None.

Definition move_eqb (a b : move) : bool :=
  match a, b with
  | Normal f t p, Normal f' t' p' => sq_eqb f f' && sq_eqb t t' && Bool.eqb p p'
  | Drop t x, Drop t' x' => sq_eqb t t' && piece_eqb x x'
  | _, _ => false
  end.
Definition contains (l : list move) (m : move) : bool := existsb (move_eqb m) l.

Section Referee.
Context (cf : config).
Notation pos := (Yasai.Position cf).

Fixpoint referee (rest : list move) (p : pos) (log : list entry) (n : nat) : option (nat * verdict) :=
  let* k := Yasai.key cf p in
  let* c := Yasai.in_check cf p in
  let* l := Yasai.legal_moves cf p in
  let log := log ++ [mkE k (Yasai.side_to_move cf p) c] in
  match l with
  | [] => Some (n, NoMoves)
  | _ =>
      match ruling k log with
      | Some v => Some (n, v)
      | None =>
          match rest with
          | [] => Some (n, Ongoing)
          | m :: rest =>
              if contains l m then
                let* q := Yasai.do_move cf p m in referee rest q log (S n)
              else Some (n, Illegal)
          end
      end
  end.
End Referee.

Lemma move_eqb_eq a b : move_eqb a b = true <-> a = b.
Proof.
  destruct a as [f t p|t x], b as [f' t' p'|t' x']; cbn; try (split; [discriminate|congruence]).
  - rewrite !andb_true_iff, eqb_true_iff. destruct (sq_eqb_spec f f'), (sq_eqb_spec t t'); intuition congruence.
  - rewrite andb_true_iff. destruct (sq_eqb_spec t t'), (piece_eqb_spec x x'); intuition congruence.
Qed.
Lemma contains_in l m : contains l m = true <-> In m l.
Proof.
  unfold contains. rewrite existsb_exists. setoid_rewrite move_eqb_eq. split; [intros [x [I ->]]; exact I|eauto].
Qed.

(** ** Facts about the rule *)

Lemma firstn_snoc {A} (l : list A) : forall n a, nth_error l n = Some a -> firstn (S n) l = firstn n l ++ [a].
Proof.
  induction l as [|x l IH]; intros [|n] a E; try discriminate; cbn in *; [congruence|].
  f_equal. apply IH. exact E.
Qed.
Lemma play_line_app g l1 l2 : play_line g (l1 ++ l2) = play_line (play_line g l1) l2.
Proof. apply fold_left_app. Qed.
Lemma legal_line_app l1 : forall g l2, legal_line g (l1 ++ l2) <-> legal_line g l1 /\ legal_line (play_line g l1) l2.
Proof.
  induction l1 as [|m l1 IH]; intros g l2; cbn [app legal_line]; [cbn; tauto|]. rewrite IH.
  change (play_line g (m :: l1)) with (play_line (play g m) l1). tauto.
Qed.
Lemma firstn_split {A} (l : list A) i j : i <= j -> firstn j l = firstn i l ++ firstn (j - i) (skipn i l).
Proof.
  revert i j. induction l as [|x l IH]; intros [|i] [|j] L; cbn; try reflexivity; try lia.
  - rewrite firstn_nil. reflexivity.
  - f_equal. apply IH. lia.
Qed.
Lemma legal_firstn g ms i j : i <= j -> legal_line g (firstn j ms) -> legal_line g (firstn i ms).
Proof. intros L H. rewrite (firstn_split ms i j L) in H. apply legal_line_app in H. tauto. Qed.

(* a position cannot come back before four moves are made *)
Lemma no_return_two g m1 m2 : legal_line g [m1; m2] -> ~ same_game (play_line g [m1; m2]) g.
Proof.
  intros [[L1 _] [[L2 _] _]] [Gb [Gh _]]. cbn [play_line fold_left] in Gb, Gh.
  destruct m1 as [f t pr|t x].
  - destruct L1 as [k [Bf [Bt _]]]. specialize (Gb f). rewrite Bf in Gb.
    assert (N : g_board (play g (Normal f t pr)) f = None).
    { cbn. unfold upd. destruct (sq_eqb_spec f t) as [->|]; [exfalso; exact (Bt k Bf)|].
      destruct (sq_eqb_spec f f); congruence. }
    assert (S : g_side (play g (Normal f t pr)) = flip (g_side g)) by reflexivity.
    revert N S L2 Gb. generalize (play g (Normal f t pr)). intros h N S L2 Gb.
    destruct m2 as [f2 t2 pr2|t2 x2]; cbn [play g_board] in Gb; unfold upd in Gb.
    + destruct L2 as [k2 [Bf2 _]]. rewrite S in Bf2. rewrite Bf2 in Gb. destruct (sq_eqb f t2).
      * cbn in Gb. injection Gb as _ E. destruct (g_side g); discriminate.
      * destruct (sq_eqb f f2); [discriminate|]. congruence.
    + destruct L2 as [E _]. rewrite S in E. destruct (sq_eqb f t2); [|congruence].
      injection Gb as ->. cbn in E. destruct (g_side g); discriminate.
  - destruct L1 as [_ [H _]]. specialize (Gh (g_side g) (pkind x)).
    assert (N : g_hand (play g (Drop t x)) (g_side g) (pkind x) = (g_hand g (g_side g) (pkind x) - 1)%N).
    { cbn. unfold upd_hand. destruct (color_eqb_spec (g_side g) (g_side g)); [|congruence].
      destruct (kind_eqb_spec (pkind x) (pkind x)); [reflexivity|congruence]. }
    assert (S : g_side (play g (Drop t x)) = flip (g_side g)) by reflexivity.
    assert (E : g_hand (play (play g (Drop t x)) m2) (g_side g) (pkind x) =
      g_hand (play g (Drop t x)) (g_side g) (pkind x)).
    { revert S. generalize (play g (Drop t x)). intros h S. destruct m2 as [f2 t2 pr2|t2 x2]; cbn.
      - destruct (g_board h t2) as [y|]; [|reflexivity]. unfold upd_hand. rewrite S.
        destruct (g_side g); reflexivity.
      - unfold upd_hand. rewrite S. destruct (g_side g); reflexivity. }
    rewrite E, N in Gh. lia.
Qed.
Lemma no_early_return g l : legal_line g l -> l <> [] -> same_game (play_line g l) g ->
  Nat.even (length l) = true /\ 4 <= length l.
Proof.
  intros L Ne G.
  assert (Ev : Nat.even (length l) = true).
  { destruct G as [_ [_ S]]. rewrite play_line_side in S. rewrite <- Nat.negb_odd.
    destruct (Nat.odd (length l)); [|reflexivity]. destruct (g_side g); discriminate. }
  split; [exact Ev|].
  destruct l as [|m1 [|m2 [|m3 [|m4 l]]]]; cbn in Ev; try discriminate; [congruence| |cbn; lia].
  exfalso. exact (no_return_two g m1 m2 L G).
Qed.
Lemma return_apart g ms n i j : n <= length ms -> legal_line g (firstn n ms) -> i < j -> j <= n ->
  same_game (after g ms i) (after g ms j) -> 4 <= j - i.
Proof.
  intros Ln L Lij Lj G. unfold after in G.
  pose proof (legal_firstn g ms j n Lj L) as Lj'. rewrite (firstn_split ms i j ltac:(lia)) in G, Lj'.
  rewrite play_line_app in G. apply legal_line_app in Lj' as [_ Lj'].
  assert (E : length (firstn (j - i) (skipn i ms)) = j - i).
  { rewrite firstn_length_le; [reflexivity|]. rewrite skipn_length. lia. }
  apply same_sym in G. destruct (no_early_return _ _ Lj') as [_ H]; [|exact G|lia].
  intros Z. rewrite Z in E. cbn in E. lia.
Qed.
Lemma fourfold_late g ms n : n <= length ms -> legal_line g (firstn n ms) -> fourfold g ms n -> 12 <= n.
Proof.
  intros Ln L [I [ND [Len H]]].
  assert (X : forall i j, In i I -> In j I -> i / 4 = j / 4 -> i = j).
  { assert (Y : forall i j, In i I -> In j I -> i < j -> i / 4 = j / 4 -> False).
    { intros i j Hi Hj Lij E. destruct (H i Hi) as [Li Gi]. destruct (H j Hj) as [Lj Gj].
      pose proof (return_apart g ms n i j Ln L Lij Lj (same_trans _ _ _ Gi (same_sym _ _ Gj))).
      pose proof (Nat.div_mod i 4 ltac:(lia)). pose proof (Nat.div_mod j 4 ltac:(lia)).
      pose proof (Nat.mod_upper_bound i 4 ltac:(lia)). pose proof (Nat.mod_upper_bound j 4 ltac:(lia)). lia. }
    intros i j Hi Hj E. destruct (Nat.lt_trichotomy i j) as [Q|[Q|Q]]; [exfalso; eauto|exact Q|exfalso; eauto]. }
  assert (ND' : NoDup (map (fun i => i / 4) I)).
  { clear Len H. induction I as [|a I IH]; cbn; [constructor|]. inversion ND as [|? ? Na NI]; subst. constructor.
    - intros K. apply in_map_iff in K as [b [E K]]. apply Na.
      rewrite <- (X b a (or_intror K) (or_introl eq_refl) E). exact K.
    - apply IH; [exact NI|]. intros i j Hi Hj. apply X; right; assumption. }
  assert (In4 : incl (map (fun i => i / 4) I) (seq 0 (S (n / 4)))).
  { intros x K. apply in_map_iff in K as [i [<- K]]. apply in_seq. destruct (H i K) as [Li _].
    pose proof (Nat.div_le_mono i n 4 ltac:(lia) Li). lia. }
  pose proof (NoDup_incl_length ND' In4) as B. rewrite map_length, seq_length, Len in B.
  pose proof (Nat.div_mod n 4 ltac:(lia)). lia.
Qed.

(** ** The log *)

Lemma count_indices {A} (f : A -> bool) l : length (filter f l) =
  length (filter (fun i => match nth_error l i with Some e => f e | None => false end) (seq 0 (length l))).
Proof.
  assert (X : forall l k pre, length pre = k -> length (filter f l) =
    length (filter (fun i => match nth_error (pre ++ l) i with Some e => f e | None => false end) (seq k (length l)))).
  { clear l. induction l as [|a l IH]; intros k pre E; cbn [length seq filter]; [reflexivity|].
    rewrite nth_error_app2, E, Nat.sub_diag by lia. cbn [nth_error].
    specialize (IH (S k) (pre ++ [a])). rewrite app_length, E, <- app_assoc in IH. cbn [length app] in IH.
    specialize (IH ltac:(lia)). destruct (f a); cbn [length]; [f_equal|]; exact IH. }
  exact (X l 0 [] eq_refl).
Qed.
Lemma count_four {A} (f : A -> bool) l : 4 <= length (filter f l) <->
  exists I, NoDup I /\ length I = 4 /\ forall i, In i I -> exists e, nth_error l i = Some e /\ f e = true.
Proof.
  rewrite count_indices. set (F := filter _ _).
  assert (HF : forall i, In i F <-> exists e, nth_error l i = Some e /\ f e = true).
  { intros i. unfold F. rewrite filter_In, in_seq. split.
    - intros [_ H]. destruct (nth_error l i) as [e|]; [eauto|discriminate].
    - intros [e [E H]]. rewrite E. split; [|exact H]. split; [lia|]. cbn. apply nth_error_Some. congruence. }
  assert (NF : NoDup F) by (apply NoDup_filter, seq_NoDup).
  split.
  - intros L. exists (firstn 4 F). split; [|split].
    + rewrite <- (firstn_skipn 4 F) in NF. clear - NF. revert NF. generalize (firstn 4 F) (skipn 4 F).
      intros a b. induction a as [|x a IH]; cbn; [constructor|]. intros N. inversion N; subst. constructor.
      * intros I. apply H1, in_or_app. tauto.
      * apply IH. assumption.
    + apply firstn_length_le. exact L.
    + intros i I. apply HF. rewrite <- (firstn_skipn 4 F). apply in_or_app. tauto.
  - intros [I [N [L H]]]. rewrite <- L. apply NoDup_incl_length; [exact N|]. intros i K. apply HF, H, K.
Qed.
Lemma since_in k log e : In e (since k log) <->
  exists j i f, j <= i /\ nth_error log j = Some f /\ e_key f = k /\ nth_error log i = Some e.
Proof.
  induction log as [|a log IH]; cbn [since].
  - split; [intros []|]. intros [j [i [f [_ [E _]]]]]. destruct j; discriminate.
  - destruct (N.eqb_spec (e_key a) k) as [Ea|Ea].
    + split.
      * intros I. apply In_nth_error in I as [i I]. exists 0, i, a. repeat split; [lia|exact Ea|exact I].
      * intros [j [i [f [_ [_ [_ E]]]]]]. apply nth_error_In in E. exact E.
    + rewrite IH. split.
      * intros [j [i [f [L [E [K I]]]]]]. exists (S j), (S i), f. repeat split; [lia|exact E|exact K|exact I].
      * intros [[|j] [[|i] [f [L [E [K I]]]]]]; try lia; cbn in E; [congruence|congruence|].
        exists j, i, f. repeat split; [lia|exact E|exact K|exact I].
Qed.

(** ** The referee against the rule *)

Section Right.
Context (cf : config) (ms0 : list move) (p0 : Yasai.Position cf) (R0 : reachable cf ms0 p0) (ms : list move).
Notation g := (view cf p0).

(* the entry is about the position after [i] moves *)
Definition entry_ok (i : nat) (e : entry) : Prop :=
  exists q, do_line cf p0 (firstn i ms) = Some q /\ Yasai.key cf q = Some (e_key e) /\
    e_side e = g_side (after g ms i) /\
    (e_check e = true <-> in_check (g_board (after g ms i)) (g_side (after g ms i))).
Definition log_ok (log : list entry) (n : nat) : Prop :=
  length log = n /\ forall i e, nth_error log i = Some e -> entry_ok i e.

Definition faithful : Prop := forall i j qi qj, i <= length ms -> j <= length ms ->
  legal_line g (firstn i ms) -> legal_line g (firstn j ms) ->
  do_line cf p0 (firstn i ms) = Some qi -> do_line cf p0 (firstn j ms) = Some qj ->
  Yasai.key cf qi = Yasai.key cf qj -> same_game (view cf qi) (view cf qj).

Lemma at_prefix i q : legal_line g (firstn i ms) -> do_line cf p0 (firstn i ms) = Some q ->
  reachable cf (rev (firstn i ms) ++ ms0) q /\ same_game (view cf q) (after g ms i).
Proof. intros L D. destruct (do_line_spec cf _ ms0 p0 q R0 L D) as [R [G _]]. tauto. Qed.

Lemma entry_key i j e f : legal_line g (firstn i ms) -> legal_line g (firstn j ms) ->
  entry_ok i e -> entry_ok j f -> same_game (after g ms i) (after g ms j) -> e_key e = e_key f.
Proof.
  intros Li Lj [q [D [K _]]] [r [D' [K' _]]] G.
  destruct (transposition cf ms0 p0 _ _ q r R0 Li Lj D D') as [_ E]; [|congruence].
  apply (same_trans _ _ _ (proj2 (at_prefix i q Li D))), (same_trans _ _ _ G), same_sym.
  exact (proj2 (at_prefix j r Lj D')).
Qed.
Lemma entry_same i j e f : faithful -> i <= length ms -> j <= length ms ->
  legal_line g (firstn i ms) -> legal_line g (firstn j ms) ->
  entry_ok i e -> entry_ok j f -> e_key e = e_key f -> same_game (after g ms i) (after g ms j).
Proof.
  intros F Bi Bj Li Lj [q [D [K _]]] [r [D' [K' _]]] E.
  apply (same_trans _ (view cf q)); [apply same_sym; exact (proj2 (at_prefix i q Li D))|].
  apply (same_trans _ (view cf r)); [|exact (proj2 (at_prefix j r Lj D'))].
  apply (F i j q r); try assumption. congruence.
Qed.

Lemma log_has log n i : log_ok log n -> i < n -> exists e, nth_error log i = Some e.
Proof.
  intros [L _] B. destruct (nth_error log i) eqn:E; [eauto|]. apply nth_error_None in E. lia.
Qed.
Lemma log_bound log n i e : log_ok log n -> nth_error log i = Some e -> i < n.
Proof. intros [L _] E. rewrite <- L. apply nth_error_Some. congruence. Qed.

Lemma ruling_finds log n e : log_ok log (S n) -> nth_error log n = Some e ->
  legal_line g (firstn n ms) -> fourfold g ms n -> ruling (e_key e) log <> None.
Proof.
  intros O En L [I [ND [Len H]]]. unfold ruling.
  assert (X : 4 <= length (filter (fun f => N.eqb (e_key f) (e_key e)) log)).
  { apply count_four. exists I. split; [exact ND|]. split; [exact Len|]. intros i K. destruct (H i K) as [B G].
    destruct (log_has log (S n) i O ltac:(lia)) as [f Ef]. exists f. split; [exact Ef|]. apply N.eqb_eq.
    apply (entry_key i n f e); [apply (legal_firstn g ms i n B L)|exact L|apply O; assumption..|exact G]. }
  apply Nat.leb_le in X. rewrite X. discriminate.
Qed.

Lemma checked_spec log n e c : faithful -> n <= length ms -> log_ok log (S n) -> nth_error log n = Some e ->
  legal_line g (firstn n ms) ->
  (checked_all c (since (e_key e) log) = true <-> perpetual g ms n c).
Proof.
  intros F Bn O En L. unfold checked_all. rewrite forallb_forall. split.
  - intros H j i Lji Lin G Sd. destruct (log_has log (S n) i O ltac:(lia)) as [f Ef].
    destruct (log_has log (S n) j O ltac:(lia)) as [f' Ef'].
    assert (I : In f (since (e_key e) log)).
    { apply since_in. exists j, i, f'. split; [exact Lji|]. split; [exact Ef'|]. split; [|exact Ef].
      apply (entry_key j n f' e); [apply (legal_firstn g ms j n ltac:(lia) L)|exact L|apply O; assumption..|exact G]. }
    specialize (H f I). destruct (proj2 O i f Ef) as [q [_ [_ [Es Ec]]]]. rewrite Es, Sd in *.
    apply Ec. destruct c; exact H.
  - intros H f I. apply since_in in I as [j [i [f' [Lji [Ef' [Ek Ef]]]]]].
    pose proof (log_bound log (S n) i f O Ef) as Bi. pose proof (log_bound log (S n) j f' O Ef') as Bj.
    destruct (proj2 O i f Ef) as [q [_ [_ [Es Ec]]]].
    assert (G : same_game (after g ms j) (after g ms n)).
    { apply (entry_same j n f' e); try assumption; try lia;
        [apply (legal_firstn g ms j n ltac:(lia) L)|apply O; assumption..]. }
    destruct (color_eqb_spec (e_side f) c) as [|Nc]; [reflexivity|]. cbn [orb].
    assert (E : e_side f = flip c) by (destruct (e_side f), c; try reflexivity; congruence).
    apply Ec. rewrite <- Es, E. apply (H j i Lji ltac:(lia) G). congruence.
Qed.
Lemma ruling_right log n e v : faithful -> n <= length ms -> log_ok log (S n) -> nth_error log n = Some e ->
  legal_line g (firstn n ms) -> ruling (e_key e) log = Some v ->
  fourfold g ms n /\ exists b w, v = Repeated b w /\
    (b = true <-> perpetual g ms n Black) /\ (w = true <-> perpetual g ms n White).
Proof.
  intros F Bn O En L. unfold ruling.
  destruct (Nat.leb_spec 4 (length (filter (fun f => N.eqb (e_key f) (e_key e)) log))) as [X|]; [|discriminate].
  intros [= <-]. split.
  - apply count_four in X as [I [ND [Len H]]]. exists I. split; [exact ND|]. split; [exact Len|].
    intros i K. destruct (H i K) as [f [Ef Kf]]. apply N.eqb_eq in Kf.
    pose proof (log_bound log (S n) i f O Ef) as Bi. split; [lia|].
    apply (entry_same i n f e); try assumption; try lia;
      [apply (legal_firstn g ms i n ltac:(lia) L)|apply O; assumption..].
  - eexists _, _. split; [reflexivity|]. split; apply checked_spec; assumption.
Qed.

(* what every verdict means, whatever the keys are *)
Definition sound (n : nat) (v : verdict) : Prop :=
  match v with
  | Repeated _ _ => n <= length ms /\ legal_line g (firstn n ms) /\ (forall i, i < n -> going g ms i) /\
                    ~ no_moves (after g ms n)
  | _ => judged g ms n v
  end.

Lemma referee_right rest : forall n p log n' v, rest = skipn n ms -> n <= length ms ->
  legal_line g (firstn n ms) -> do_line cf p0 (firstn n ms) = Some p -> log_ok log n ->
  (forall i, i < n -> going g ms i) ->
  referee cf rest p log n = Some (n', v) -> sound n' v /\ (faithful -> judged g ms n' v).
Proof.
  induction rest as [|m rest IH]; intros n p log n' v Er Bn L D O Go E; cbn [referee] in E;
    destruct (at_prefix n p L D) as [R G];
    (destruct (Yasai.key cf p) as [k|] eqn:Ek; [|discriminate]);
    destruct (api_in_check cf _ p R) as [c [Ec Hc]]; rewrite Ec in E;
    (destruct (Yasai.legal_moves cf p) as [l|] eqn:El; [|discriminate]); cbn [bind] in E;
    destruct (api_legal_moves cf _ p l R El) as [_ Hl];
    set (e := mkE k (Yasai.side_to_move cf p) c) in *;
    (assert (Oe : entry_ok n e);
     [exists p; split; [exact D|]; split; [exact Ek|]; split; [exact (proj2 (proj2 G))|];
      change (e_check e) with c; rewrite Hc, (in_check_same _ _ _ (proj1 G)), <- (proj2 (proj2 G)); reflexivity|]);
    (assert (O' : log_ok (log ++ [e]) (S n));
     [destruct O as [Len O]; split; [rewrite app_length, Len; cbn; lia|];
      intros i f Ef; destruct (Nat.lt_ge_cases i n) as [Bi|Bi];
      [rewrite nth_error_app1 in Ef by lia; exact (O i f Ef)|];
      rewrite nth_error_app2, Len in Ef by lia;
      (destruct (i - n) as [|d] eqn:Ei; [|destruct d; discriminate]);
      cbn in Ef; injection Ef as <-; assert (i = n) as -> by lia; exact Oe|]);
    (assert (En : nth_error (log ++ [e]) n = Some e);
     [rewrite nth_error_app2, (proj1 O), Nat.sub_diag by (rewrite (proj1 O); lia); reflexivity|]);
    (assert (NM : l = [] <-> no_moves (after g ms n));
     [split;
      [intros -> m' Lm; apply (legal_same _ _ _ (same_sym _ _ G)), Hl in Lm; exact Lm
      |intros H; destruct l as [|m' l]; [reflexivity|exfalso];
       apply (H m'), (legal_same _ _ _ G), Hl; left; reflexivity]|]);
    (destruct l as [|m1 l1] eqn:Ell;
     [injection E as <- <-; split; [|intros _]; apply J_none; try assumption; apply NM; reflexivity|rewrite <- Ell in *]);
    (assert (NN : ~ no_moves (after g ms n)); [intros Z; apply NM in Z; congruence|]);
    (destruct (ruling k (log ++ [e])) as [v0|] eqn:Er0;
     [injection E as <- <-; change k with (e_key e) in Er0; split;
      [unfold ruling in Er0;
       destruct (4 <=? length (filter (fun f => N.eqb (e_key f) (e_key e)) (log ++ [e])));
       [injection Er0 as <-; cbn [sound]; tauto|discriminate]
      |intros F; destruct (ruling_right (log ++ [e]) n e v0 F Bn O' En L Er0) as [FF [b [w [-> [Hb Hw]]]]];
       apply J_rep; assumption]
     |]);
    (assert (NF : ~ fourfold g ms n);
     [intros FF; apply (ruling_finds (log ++ [e]) n e O' En L FF); exact Er0|]);
    (assert (Go' : forall i, i <= n -> going g ms i);
     [intros i Bi; destruct (Nat.eq_dec i n) as [->|]; [split; assumption|apply Go; lia]|]).
  - assert (length ms = n).
    { apply (f_equal (@length move)) in Er. rewrite skipn_length in Er. cbn in Er. lia. }
    assert (Lm : legal_line g ms) by (rewrite <- (firstn_all ms), H; exact L).
    injection E as <- <-. split; [|intros _]; apply J_ongoing; auto.
  - assert (Hm : nth_error ms n = Some m).
    { rewrite <- (firstn_skipn n ms), <- Er, nth_error_app2; rewrite firstn_length_le by lia; [|lia].
      rewrite Nat.sub_diag. reflexivity. }
    destruct (contains l m) eqn:Ic.
    + pose proof (proj1 (contains_in l m) Ic) as I. destruct (Yasai.do_move cf p m) as [q|] eqn:Dm; [|discriminate]. cbn [bind] in E.
      pose proof (firstn_snoc ms n m Hm) as Ef. apply Hl in I.
      apply (IH (S n) q (log ++ [e])); try assumption.
      * clear - Er. revert n Er. generalize ms. intros l0. induction l0 as [|a l0 IHl]; intros [|n] Er; cbn in *; try congruence.
        apply IHl, Er.
      * apply Nat.lt_eq_cases in Bn as [Bn| ->]; [lia|]. rewrite (proj2 (nth_error_None ms _)) in Hm by lia. discriminate.
      * rewrite Ef. apply legal_line_app. split; [exact L|]. cbn. split; [|trivial]. apply (legal_same _ _ _ G I).
      * rewrite Ef, do_line_app, D. cbn [do_line]. rewrite Dm. reflexivity.
      * intros i Bi. apply Go'. lia.
    + injection E as <- <-.
      assert (NL : ~ legal (after g ms n) m).
      { intros Lm. rewrite (proj2 (contains_in l m)) in Ic; [discriminate|]. apply Hl, (legal_same _ _ _ (same_sym _ _ G) Lm). }
      split; [|intros _]; apply (J_illegal g ms n m); assumption.
Qed.

Lemma referee_total rest : forall n p log, (exists ms1, reachable cf ms1 p) ->
  standard_material (view cf p) -> both_kings (view cf p) ->
  cf_checks cf = false \/ (Yasai.ply cf p + N.of_nat (length rest) <= 65535)%N ->
  referee cf rest p log n <> None.
Proof.
  induction rest as [|m rest IH]; intros n p log [ms1 R] SM BK P; cbn [referee];
    (assert (K : exists k, Yasai.key cf p = Some k);
     [unfold Yasai.key, pos_key; destruct (reachable_inv cf ms1 p R) as [st [I _]];
      rewrite (inv_st _ _ _ _ I); cbn [bind]; eauto|]);
    destruct K as [k ->]; destruct (api_in_check cf _ p R) as [c [-> _]];
    destruct (api_legal_moves_total cf ms1 p R SM (BK _)) as [l El]; rewrite El; cbn [bind];
    destruct (api_legal_moves cf _ p l R El) as [_ Hl];
    (destruct l as [|m1 l1] eqn:Ell; [discriminate|rewrite <- Ell in *]);
    (destruct (ruling _ _); [discriminate|]).
  - discriminate.
  - destruct (contains l m) eqn:I; [|discriminate]. apply contains_in, Hl in I.
    pose proof (api_do_total cf ms1 p m R SM I) as T.
    destruct (Yasai.do_move cf p m) as [q|] eqn:D.
    2: { exfalso. destruct (proj1 T eq_refl) as [C Pl]. cbn [length] in P. destruct P as [P|P]; [congruence|]. lia. }
    cbn [bind]. apply IH.
    + exists (m :: ms1). exact (R_do cf ms1 p m q R I D).
    + exact (api_do_standard cf ms1 p m q R I D SM).
    + intros c'. destruct (api_do_move cf ms1 p m q R I D) as [Gb _]. setoid_rewrite Gb.
      apply (kings_persist [m] (view cf p) c'); [apply (reach_valid cf ms1); assumption|
        apply reach_hand_ok|cbn; tauto|apply BK].
    + destruct P as [P|P]; [tauto|]. right. cbn [length] in P. rewrite (api_ply cf ms1 p m q R I D).
      destruct (N.eqb_spec (Yasai.ply cf p) 65535); lia.
Qed.
End Right.

(** ** The rule gives exactly one verdict *)

Lemma judged_going g ms n v : judged g ms n v -> n <= length ms /\ legal_line g (firstn n ms) /\
  forall i, i < n -> going g ms i.
Proof.
  intros [n' ? ? ?|n' b w ? ? ? ? ? ?|n' m L Go E ?|n' -> L Go]; split; auto.
  - assert (n' < length ms) by (apply nth_error_Some; congruence). lia.
  - split; [exact L|]. intros i B. apply Go. lia.
  - split; [rewrite firstn_all; exact L|]. intros i B. apply Go. lia.
Qed.
Lemma judged_stop g ms n v n' : judged g ms n v -> n < n' -> n' <= length ms ->
  legal_line g (firstn n' ms) -> (forall i, i < n' -> going g ms i) -> False.
Proof.
  intros J Ln Ln' L Go. destruct J as [n ? ? ? N|n b w ? ? ? ? F ? ?|n m ? ? E N|n -> ? ?].
  - exact (proj1 (Go n Ln) N).
  - exact (proj2 (Go n Ln) F).
  - apply N. pose proof (legal_firstn g ms (S n) n' Ln L) as L'. rewrite (firstn_snoc ms n m E) in L'.
    apply legal_line_app in L' as [_ [L' _]]. exact L'.
  - lia.
Qed.
Lemma bool_iff (a b : bool) (P : Prop) : (a = true <-> P) -> (b = true <-> P) -> a = b.
Proof. intros H1 H2. destruct a, b; try reflexivity; intuition congruence. Qed.
Lemma judged_unique g ms n v n' v' : judged g ms n v -> judged g ms n' v' -> n = n' /\ v = v'.
Proof.
  intros J J'.
  assert (n = n') as <-.
  { destruct (judged_going _ _ _ _ J) as [B [L Go]]. destruct (judged_going _ _ _ _ J') as [B' [L' Go']].
    destruct (Nat.lt_trichotomy n n') as [Q|[Q|Q]]; [|exact Q|]; exfalso.
    - exact (judged_stop _ _ _ _ n' J Q B' L' Go').
    - exact (judged_stop _ _ _ _ n J' Q B L Go). }
  split; [reflexivity|].
  inversion J; inversion J'; subst; try reflexivity;
    try (f_equal; eapply bool_iff; eassumption); exfalso; try tauto;
    try (match goal with H : forall i, i <= ?n -> going _ _ i |- _ => destruct (H n (le_n n)) end; tauto).
  all: match goal with H : nth_error _ (length _) = Some _ |- _ =>
    rewrite (proj2 (nth_error_None _ _)) in H by lia; discriminate end.
Qed.
