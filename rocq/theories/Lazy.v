(** * Lazily filled statics, used by any number of threads

    once_cell::sync::Lazy, which src/tables.rs and src/zobrist.rs use for their
    tables: the first thread that dereferences a cell runs its initialiser;
    others wait for it; afterwards everybody reads the value.  A thread that
    dereferences a cell whose initialiser it is itself running never goes on.
    The threads are interleaved in any order. *)

From Coq Require Import List Arith Lia Eqdep_dec.
Import ListNotations.

Section Lazy.
Context {cell : Type} (cell_eq : forall a b : cell, {a = b} + {a <> b}) (cty : cell -> Type).

(* code that dereferences cells; PPanic: it panics *)
Inductive prog (R : Type) : Type :=
| PRet (r : R)
| PPanic
| PGet (c : cell) (k : cty c -> prog R).
Arguments PRet {R}. Arguments PPanic {R}. Arguments PGet {R}.

Fixpoint pbind {A B} (p : prog A) (f : A -> prog B) : prog B :=
  match p with
  | PRet a => f a
  | PPanic => PPanic
  | PGet c k => PGet c (fun v => pbind (k v) f)
  end.
Definition plift {A} (x : option A) : prog A := match x with Some a => PRet a | None => PPanic end.
(* for x in l { body } *)
Fixpoint pfor {A T} (l : list A) (body : A -> T -> prog T) (t : T) : prog T :=
  match l with
  | [] => PRet t
  | x :: l => pbind (body x t) (pfor l body)
  end.

(* what the code computes if every cell [c] has the value [val c] *)
Section Den.
Context (val : forall c, cty c).
Fixpoint den {R} (p : prog R) : option R :=
  match p with
  | PRet r => Some r
  | PPanic => None
  | PGet c k => den (k (val c))
  end.
(* how often it dereferences a cell *)
Fixpoint len {R} (p : prog R) : nat :=
  match p with PGet c k => S (len (k (val c))) | _ => 0 end.
End Den.

Context (init : forall c, prog (cty c)) {R : Type}.

Inductive cstate (c : cell) : Type := Empty | Busy (i : nat) | Full (v : cty c).
Arguments Empty {c}. Arguments Busy {c}. Arguments Full {c}.
Definition memory : Type := forall c, cstate c.

(* the initialisers a thread is running, innermost first, and its own code *)
Definition frame : Type := {c : cell & prog (cty c)}.
Record thread := mkTh { stack : list frame; main : prog R }.

Definition pwant {A} (p : prog A) : option cell := match p with PGet c _ => Some c | _ => None end.
Definition want (th : thread) : option cell :=
  match stack th with [] => pwant (main th) | f :: _ => pwant (projT2 f) end.

(* one step of thread number [i]; the label says whether an initialiser starts *)
Inductive tstep (i : nat) : memory -> thread -> option cell -> memory -> thread -> Prop :=
| T_read_main m c k v : m c = Full v -> tstep i m (mkTh [] (PGet c k)) None m (mkTh [] (k v))
| T_read m d c k v fs p : m c = Full v ->
    tstep i m (mkTh (existT _ d (PGet c k) :: fs) p) None m (mkTh (existT _ d (k v) :: fs) p)
| T_start m m' th c : want th = Some c -> m c = Empty -> m' c = Busy i ->
    (forall d, d <> c -> m' d = m d) ->
    tstep i m th (Some c) m' (mkTh (existT _ c (init c) :: stack th) (main th))
| T_finish m m' c v fs p : m' c = Full v -> (forall d, d <> c -> m' d = m d) ->
    tstep i m (mkTh (existT _ c (PRet v) :: fs) p) None m' (mkTh fs p).

(* a thread that wants a cell goes on only if the cell is empty or full *)
Lemma tstep_want i m th lab m' th' c : tstep i m th lab m' th' -> want th = Some c ->
  (m c = Empty /\ lab = Some c) \/ exists v, m c = Full v.
Proof.
  intros T W. destruct T as [m c0 k v Hv|m d c0 k v fs p Hv|m m' th c0 W' He Hb Ho|m m' c0 v fs p Hf Ho].
  1, 2: cbn in W; injection W as ->; right; exists v; exact Hv.
  - rewrite W in W'. injection W' as ->. left. split; [exact He|reflexivity].
  - discriminate.
Qed.

Inductive step : memory * list thread -> option cell -> memory * list thread -> Prop :=
| Step m m' l1 th th' l2 lab : tstep (length l1) m th lab m' th' ->
    step (m, l1 ++ th :: l2) lab (m', l1 ++ th' :: l2).

Inductive runs : memory * list thread -> list (option cell) -> memory * list thread -> Prop :=
| R_here s : runs s [] s
| R_more s tr s' lab s'' : runs s tr s' -> step s' lab s'' -> runs s (lab :: tr) s''.

Definition finished (th : thread) : Prop := stack th = [] /\ pwant (main th) = None.

(** ** Assumptions about the initialisers *)
Context (val : forall c, cty c).
Hypothesis Good : forall c, den val (init c) = Some (val c).
Context (rank : cell -> nat).
Fixpoint below {A} (r : nat) (p : prog A) : Prop :=
  match p with
  | PGet c k => rank c < r /\ forall v, below r (k v)
  | _ => True
  end.
Hypothesis Acyclic : forall c, below (rank c) (init c).
Context (cells : list cell).
Hypothesis cells_all : forall c, In c cells.

(** ** Invariant *)
Fixpoint chain (m : memory) (i : nat) (fs : list frame) (p : prog R) : Prop :=
  match fs with
  | [] => True
  | existT _ c q :: fs' =>
      m c = Busy i /\ den val q = Some (val c) /\ below (rank c) q /\
      want (mkTh fs' p) = Some c /\ chain m i fs' p
  end.
Record inv (s : memory * list thread) : Prop := mkInv {
  i_full : forall c v, fst s c = Full v -> v = val c;
  i_chain : forall i th, nth_error (snd s) i = Some th -> chain (fst s) i (stack th) (main th);
  i_busy : forall c i, fst s c = Busy i -> exists th q, nth_error (snd s) i = Some th /\ In (existT _ c q) (stack th) }.

Lemma chain_rank m i fs p : forall c, chain m i fs p -> want (mkTh fs p) = Some c ->
  forall d q, In (existT _ d q) fs -> rank c < rank d.
Proof.
  induction fs as [|[a qa] fs IH]; intros c C W d q H; [destruct H|].
  cbn [chain] in C. destruct C as [_ [_ [B [W' C']]]].
  cbn [want stack projT2] in W.
  assert (L : rank c < rank a). { destruct qa; cbn [pwant] in W; [discriminate..|]. injection W as <-. apply B. }
  destruct H as [H|H].
  - injection H as <- _. exact L.
  - specialize (IH a C' W' d q H). lia.
Qed.
Lemma chain_top m i c q fs p : chain m i (existT _ c q :: fs) p ->
  forall d q', In (existT _ d q') fs -> rank c < rank d.
Proof. cbn [chain]. intros [_ [_ [_ [W C]]]] d q'. apply (chain_rank m i fs p c C W). Qed.
Lemma chain_busy m i fs p : chain m i fs p -> forall d q, In (existT _ d q) fs -> m d = Busy i.
Proof.
  induction fs as [|[a qa] fs IH]; intros C d q H; [destruct H|].
  cbn [chain] in C. destruct C as [Ba [_ [_ [_ C]]]]. destruct H as [H|H].
  - injection H as <- _. exact Ba.
  - exact (IH C d q H).
Qed.
Lemma chain_mem m m' i fs p : (forall d q, In (existT _ d q) fs -> m' d = m d) ->
  chain m i fs p -> chain m' i fs p.
Proof.
  induction fs as [|[a qa] fs IH]; intros E C; [exact I|]. cbn [chain] in *.
  destruct C as [Ba [D [B [W C]]]]. rewrite (E a qa (or_introl eq_refl)). repeat split; try assumption.
  apply IH; [|exact C]. intros d q H. apply (E d q). right. exact H.
Qed.

Lemma nth_mid {A} (l1 l2 : list A) x : nth_error (l1 ++ x :: l2) (length l1) = Some x.
Proof. rewrite nth_error_app2, Nat.sub_diag by lia. reflexivity. Qed.
Lemma nth_other {A} (l1 l2 : list A) x y j : j <> length l1 ->
  nth_error (l1 ++ x :: l2) j = nth_error (l1 ++ y :: l2) j.
Proof.
  intros N. destruct (Nat.lt_ge_cases j (length l1)) as [H|H].
  - rewrite !nth_error_app1 by exact H. reflexivity.
  - rewrite !nth_error_app2 by exact H. destruct (j - length l1) eqn:E; [lia|reflexivity].
Qed.

(* a step keeps the invariant and what the thread will compute *)
Lemma step_inv s lab s' : inv s -> step s lab s' -> inv s'.
Proof.
  intros I St. destruct St as [m m' l1 th th' l2 lab T]. destruct I as [F C B]. cbn [fst snd] in *.
  set (i := length l1) in *.
  assert (Ci : chain m i (stack th) (main th)) by (apply C; apply nth_mid).
  (* a frame of another thread is not of a cell that this thread holds or takes *)
  assert (Oth : forall c j th0 d q, nth_error (l1 ++ th :: l2) j = Some th0 -> j <> i ->
    In (existT _ d q) (stack th0) -> (m c = Empty \/ m c = Busy i) -> d <> c).
  { intros c j th0 d q N Nj H Hc ->. pose proof (chain_busy _ _ _ _ (C _ _ N) c q H) as Hb.
    destruct Hc as [Hc|Hc]; rewrite Hb in Hc; [discriminate|]. injection Hc as ->. apply Nj. reflexivity. }
  inversion T as [? c k v Hv|? d c k v fs p Hv|? ? ? c W He Hb Ho|? ? c v fs p Hf Ho]; subst.
  - split; cbn [fst snd].
    + exact F.
    + intros j th0 N. destruct (Nat.eq_dec j i) as [->|Nj].
      * unfold i in N. rewrite nth_mid in N. injection N as <-. exact Logic.I.
      * apply C. rewrite (nth_other _ _ _ (mkTh [] (k v)) j Nj). exact N.
    + intros c0 j Hj. destruct (B c0 j Hj) as [th0 [q [N H]]]. destruct (Nat.eq_dec j i) as [->|Nj].
      * unfold i in N. rewrite nth_mid in N. injection N as <-. destruct H.
      * exists th0, q. split; [|exact H]. rewrite (nth_other _ _ _ (mkTh [] (PGet c k)) j Nj). exact N.
  - cbn [stack main chain] in Ci. destruct Ci as [Bd [Dd [Bl [Wd Cd]]]].
    split; cbn [fst snd].
    + exact F.
    + intros j th0 N. destruct (Nat.eq_dec j i) as [->|Nj].
      * unfold i in N. rewrite nth_mid in N. injection N as <-. cbn [stack main chain].
        split; [exact Bd|]. cbn [den] in Dd. rewrite (F c v Hv). cbn [below] in Bl.
        split; [exact Dd|]. split; [apply Bl|]. split; [exact Wd|exact Cd].
      * apply C. rewrite (nth_other _ _ _ (mkTh (existT _ d (k v) :: fs) p) j Nj). exact N.
    + intros c0 j Hj. destruct (B c0 j Hj) as [th0 [q [N H]]]. destruct (Nat.eq_dec j i) as [->|Nj].
      * unfold i in N. rewrite nth_mid in N. injection N as <-.
        exists (mkTh (existT _ d (k v) :: fs) p). unfold i. rewrite nth_mid. destruct H as [H|H].
        -- assert (d = c0) as <- by (injection H; auto). exists (k v). split; [reflexivity|left; reflexivity].
        -- exists q. split; [reflexivity|right; exact H].
      * exists th0, q. split; [|exact H]. rewrite (nth_other _ _ _ (mkTh (existT _ d (PGet c k) :: fs) p) j Nj). exact N.
  - split; cbn [fst snd].
    + intros c0 v Hv. destruct (cell_eq c0 c) as [->|Nc]; [congruence|]. rewrite (Ho c0 Nc) in Hv. exact (F c0 v Hv).
    + intros j th0 N. destruct (Nat.eq_dec j i) as [->|Nj].
      * unfold i in N. rewrite nth_mid in N. injection N as <-. cbn [stack main chain].
        split; [exact Hb|]. split; [apply Good|]. split; [apply Acyclic|].
        destruct th as [fs p]. cbn [stack main] in *. split; [exact W|].
        apply (chain_mem m); [|exact Ci]. intros d q H. apply Ho. intros ->.
        rewrite (chain_busy _ _ _ _ Ci c q H) in He. discriminate.
      * rewrite (nth_other _ _ _ th j Nj) in N. apply (chain_mem m); [|apply C; exact N].
        intros d q H. apply Ho. apply (Oth c j th0 d q N Nj H). left. exact He.
    + intros c0 j Hj. destruct (cell_eq c0 c) as [->|Nc].
      * rewrite Hb in Hj. injection Hj as <-. eexists _, (init c). unfold i. rewrite nth_mid.
        split; [reflexivity|left; reflexivity].
      * rewrite (Ho c0 Nc) in Hj. destruct (B c0 j Hj) as [th0 [q [N H]]]. destruct (Nat.eq_dec j i) as [->|Nj].
        -- unfold i in N. rewrite nth_mid in N. injection N as <-. eexists _, q. unfold i. rewrite nth_mid.
           split; [reflexivity|right; exact H].
        -- exists th0, q. split; [|exact H]. rewrite (nth_other _ _ _ th j Nj). exact N.
  - cbn [stack main] in Ci. pose proof (chain_top _ _ _ _ _ _ Ci) as Up. cbn [chain] in Ci.
    destruct Ci as [Bc [Dc [Bl [Wc Cc]]]]. cbn [den] in Dc. injection Dc as Ev.
    split; cbn [fst snd].
    + intros c0 v0 Hv. destruct (cell_eq c0 c) as [->|Nc]; [|rewrite (Ho c0 Nc) in Hv; exact (F c0 v0 Hv)].
      rewrite Hf in Hv. injection Hv as <-. exact Ev.
    + intros j th0 N. destruct (Nat.eq_dec j i) as [->|Nj].
      * unfold i in N. rewrite nth_mid in N. injection N as <-. cbn [stack main].
        apply (chain_mem m); [|exact Cc]. intros d q H. apply Ho. intros ->. specialize (Up c q H). lia.
      * rewrite (nth_other _ _ _ (mkTh (existT _ c (PRet v) :: fs) p) j Nj) in N.
        apply (chain_mem m); [|apply C; exact N].
        intros d q H. apply Ho. apply (Oth c j th0 d q N Nj H). right. exact Bc.
    + intros c0 j Hj. destruct (cell_eq c0 c) as [->|Nc]; [congruence|].
      rewrite (Ho c0 Nc) in Hj. destruct (B c0 j Hj) as [th0 [q [N H]]]. destruct (Nat.eq_dec j i) as [->|Nj].
      * unfold i in N. rewrite nth_mid in N. injection N as <-. exists (mkTh fs p), q. unfold i. rewrite nth_mid.
        split; [reflexivity|]. destruct H as [H|H]; [|exact H]. exfalso. apply Nc. injection H. auto.
      * exists th0, q. split; [|exact H].
        rewrite (nth_other _ _ _ (mkTh (existT _ c (PRet v) :: fs) p) j Nj). exact N.
Qed.

Lemma step_den s lab s' : inv s -> step s lab s' ->
  map (fun th => den val (main th)) (snd s') = map (fun th => den val (main th)) (snd s).
Proof.
  intros I St. destruct St as [m m' l1 th th' l2 lab T]. destruct I as [F _ _]. cbn [fst snd] in *.
  rewrite !map_app. cbn [map]. f_equal. f_equal.
  inversion T as [? c k v Hv|? d c k v fs p Hv|? ? ? c W He Hb Ho|? ? c v fs p Hf Ho]; subst; try reflexivity.
  cbn [main den]. rewrite (F c v Hv). reflexivity.
Qed.

Definition fresh (ps : list (prog R)) : memory * list thread := (fun _ => Empty, map (mkTh []) ps).
Lemma fresh_inv ps : inv (fresh ps).
Proof.
  split; cbn [fresh fst snd]; [discriminate| |discriminate].
  intros i th N. apply nth_error_In, in_map_iff in N as [p [<- _]]. exact I.
Qed.
Lemma runs_inv s tr s' : inv s -> runs s tr s' ->
  inv s' /\ map (fun th => den val (main th)) (snd s') = map (fun th => den val (main th)) (snd s).
Proof.
  intros I0 Rs. induction Rs as [s|s tr s' lab s'' Rs IH St]; [split; [exact I0|reflexivity]|].
  destruct (IH I0) as [I1 E]. split; [exact (step_inv _ _ _ I1 St)|]. rewrite (step_den _ _ _ I1 St). exact E.
Qed.

(** ** Progress *)
Lemma min_busy (m : memory) : (forall c i, m c <> Busy i) \/
  exists c i, m c = Busy i /\ forall d j, m d = Busy j -> rank c <= rank d.
Proof.
  assert (H : forall l, (forall c i, In c l -> m c <> Busy i) \/
    exists c i, m c = Busy i /\ forall d j, In d l -> m d = Busy j -> rank c <= rank d).
  { induction l as [|a l IH].
    - left. intros c i [].
    - destruct (m a) as [|ia|va] eqn:Ea.
      1, 3: destruct IH as [IH|[c [i [Hc Hm]]]];
        [left; intros c i [<-|H]; [congruence|apply IH; exact H]
        |right; exists c, i; split; [exact Hc|]; intros d j [<-|H] Hd; [congruence|exact (Hm d j H Hd)]].
      destruct IH as [IH|[c [i [Hc Hm]]]].
      + right. exists a, ia. split; [exact Ea|]. intros d j [<-|H] Hd; [lia|]. destruct (IH d j H Hd).
      + right. destruct (Nat.le_gt_cases (rank c) (rank a)) as [L|L].
        * exists c, i. split; [exact Hc|]. intros d j [<-|H] Hd; [exact L|exact (Hm d j H Hd)].
        * exists a, ia. split; [exact Ea|]. intros d j [<-|H] Hd; [lia|]. specialize (Hm d j H Hd). lia. }
  destruct (H cells) as [K|[c [i [Hc Hm]]]].
  - left. intros c i. apply K. apply cells_all.
  - right. exists c, i. split; [exact Hc|]. intros d j. apply Hm. apply cells_all.
Qed.

Definition upd (m : memory) (c : cell) (x : cstate c) : memory := fun d =>
  match cell_eq c d with left e => eq_rect c cstate x d e | right _ => m d end.
Lemma upd_same m c x : upd m c x c = x.
Proof.
  unfold upd. destruct (cell_eq c c) as [e|N]; [|destruct N; reflexivity].
  rewrite <- (eq_rect_eq_dec cell_eq). reflexivity.
Qed.
Lemma upd_other m c x d : d <> c -> upd m c x d = m d.
Proof. intros N. unfold upd. destruct (cell_eq c d) as [e|]; [|reflexivity]. destruct N. auto. Qed.

Lemma progress s : inv s -> (forall th, In th (snd s) -> finished th) \/ exists lab s', step s lab s'.
Proof.
  destruct s as [m ths]. intros [F C B]. cbn [fst snd] in *.
  (* a thread that wants a cell nobody is filling can go on *)
  assert (Go : forall i th c, nth_error ths i = Some th -> want th = Some c -> (forall j, m c <> Busy j) ->
    exists lab s', step (m, ths) lab s').
  { intros i th c N W NB. apply nth_error_split in N as [l1 [l2 [-> <-]]].
    destruct (m c) as [|j|v] eqn:Ec; [|destruct (NB j eq_refl)|].
    - exists (Some c). eexists. apply Step. apply (T_start _ m (upd m c (Busy (length l1))) th c W Ec).
      + apply upd_same.
      + apply upd_other.
    - destruct th as [[|[d q] fs] p]; cbn [want stack main projT2] in W.
      + destruct p as [r| |c' k]; [discriminate..|]. cbn [pwant] in W. injection W as ->.
        exists None. eexists. apply Step. apply T_read_main. exact Ec.
      + destruct q as [r| |c' k]; [discriminate..|]. cbn [pwant] in W. injection W as ->.
        exists None. eexists. apply Step. apply T_read. exact Ec. }
  destruct (min_busy m) as [NB|[c [i [Hc Hm]]]].
  - assert (Ns : forall i th, nth_error ths i = Some th -> stack th = []).
    { intros i th N. pose proof (C i th N) as Ci. destruct (stack th) as [|[d q] fs] eqn:Es; [reflexivity|].
      cbn [chain] in Ci. destruct Ci as [Bd _]. destruct (NB _ _ Bd). }
    assert (D : forall l, (forall th, In th l -> finished th) \/ exists th c, In th l /\ stack th = [] /\ want th = Some c \/
      exists th, In th l /\ stack th <> []).
    { induction l as [|th l IH]; [left; intros th []|]. destruct IH as [IH|[th0 [c [[H [Hs W]]|[th1 [H Hs]]]]]].
      - destruct (stack th) as [|f fs] eqn:Es.
        + destruct (pwant (main th)) as [c|] eqn:Ew.
          * right. exists th, c. left. split; [left; reflexivity|]. split; [exact Es|]. unfold want. rewrite Es. exact Ew.
          * left. intros th' [<-|H]; [split; assumption|apply IH; exact H].
        + destruct f as [c q]. right. exists th, c. right. exists th. split; [left; reflexivity|]. congruence.
      - right. exists th0, c. left. split; [right; exact H|]. split; assumption.
      - right. exists th0, c. right. exists th1. split; [right; exact H|exact Hs]. }
    destruct (D ths) as [Df|[th [c [[H [_ W]]|[th1 [H Hs]]]]]]; [left; exact Df| |].
    + right. apply In_nth_error in H as [i N]. apply (Go i th c N W). intros j. apply NB.
    + apply In_nth_error in H as [i N]. destruct Hs. exact (Ns i th1 N).
  - right. destruct (B c i Hc) as [th [q [N H]]]. pose proof (C i th N) as Ci.
    destruct th as [fs p]. cbn [stack main] in *. destruct fs as [|[d q'] fs]; [destruct H|].
    assert (d = c) as ->.
    { destruct H as [H|H]; [injection H; auto|]. pose proof (chain_top _ _ _ _ _ _ Ci c q H) as L.
      cbn [chain] in Ci. specialize (Hm d i (proj1 Ci)). lia. }
    cbn [chain] in Ci. destruct Ci as [_ [Dq [Bq [Wq Cq]]]].
    destruct q' as [r| |c' k]; [|discriminate|].
    + apply nth_error_split in N as [l1 [l2 [-> <-]]].
      exists None. eexists. apply Step. apply (T_finish _ m (upd m c (Full r)) c r fs p); [apply upd_same|apply upd_other].
    + apply (Go i _ c' N); [reflexivity|]. intros j Hj. specialize (Hm c' j Hj). cbn [below] in Bq. lia.
Qed.

(** ** Every initialiser is started at most once *)
Lemma step_started s lab s' c : step s lab s' ->
  (lab = Some c -> fst s c = Empty) /\ (lab = Some c \/ fst s c <> Empty -> fst s' c <> Empty).
Proof.
  intros St. destruct St as [m m' l1 th th' l2 lab T]. cbn [fst].
  inversion T as [? c0 k v Hv|? d c0 k v fs p Hv|? ? ? c0 W He Hb Ho|? ? c0 v fs p Hf Ho]; subst.
  1, 2: split; [discriminate|intros [H|H]; [discriminate|exact H]].
  - split; [intros E; injection E as ->; exact He|]. intros H. destruct (cell_eq c c0) as [->|N]; [congruence|].
    rewrite (Ho c N). destruct H as [H|H]; [congruence|exact H].
  - split; [discriminate|]. intros [H|H]; [discriminate|]. destruct (cell_eq c c0) as [->|N]; [congruence|].
    rewrite (Ho c N). exact H.
Qed.
Lemma once s tr s' c : runs s tr s' ->
  (In (Some c) tr -> fst s' c <> Empty) /\
  forall l1 l2, tr = l1 ++ Some c :: l2 -> ~ In (Some c) l2.
Proof.
  intros Rs. induction Rs as [s|s tr s' lab s'' Rs IH St].
  - split; [intros []|]. intros [|? ?] l2 E; discriminate.
  - destruct IH as [IH1 IH2]. destruct (step_started _ _ _ c St) as [S1 S2]. split.
    + intros [H|H]; apply S2; [left; exact H|right; exact (IH1 H)].
    + intros [|x l1] l2 E H; cbn in E; injection E as E1 E2; subst.
      * apply (IH1 H). apply S1. reflexivity.
      * exact (IH2 l1 l2 eq_refl H).
Qed.

(** ** Every execution ends *)
Fixpoint sum (l : list nat) : nat := match l with [] => 0 | x :: l => x + sum l end.
Lemma sum_app a b : sum (a ++ b) = sum a + sum b.
Proof. induction a as [|x a IH]; cbn; [reflexivity|lia]. Qed.
Definition tweight (th : thread) : nat := sum (map (fun f => S (len val (projT2 f))) (stack th)) + len val (main th).
Definition cweight (m : memory) (c : cell) : nat := match m c with Empty => 2 + len val (init c) | _ => 0 end.
Definition weight (s : memory * list thread) : nat :=
  sum (map (cweight (fst s)) cells) + sum (map tweight (snd s)).

Lemma cweights_le m m' l : (forall d, cweight m' d <= cweight m d) ->
  sum (map (cweight m') l) <= sum (map (cweight m) l).
Proof. intros H. induction l as [|a l IH]; cbn; [lia|]. specialize (H a). lia. Qed.
Lemma cweights_start m m' c l : (forall d, cweight m' d <= cweight m d) -> In c l ->
  cweight m' c = 0 -> sum (map (cweight m') l) + cweight m c <= sum (map (cweight m) l).
Proof.
  intros H J Z. induction l as [|a l IH]; [destruct J|]. cbn. destruct J as [<-|J].
  - pose proof (cweights_le m m' l H). lia.
  - specialize (IH J). specialize (H a). lia.
Qed.

Lemma step_weight s lab s' : inv s -> step s lab s' -> weight s' < weight s.
Proof.
  intros I St. destruct St as [m m' l1 th th' l2 lab T]. destruct I as [F C _]. cbn [fst snd] in *.
  unfold weight. cbn [fst snd]. rewrite !map_app, !sum_app. cbn [map sum].
  inversion T as [? c k v Hv|? d c k v fs p Hv|? ? ? c W He Hb Ho|? ? c v fs p Hf Ho]; subst.
  - rewrite (F c v Hv). unfold tweight. cbn [stack main map sum len]. lia.
  - rewrite (F c v Hv).
    change (tweight (mkTh (existT _ d (PGet c k) :: fs) p)) with (S (tweight (mkTh (existT _ d (k (val c)) :: fs) p))).
    lia.
  - assert (K : sum (map (cweight m') cells) + cweight m c <= sum (map (cweight m) cells)).
    { apply cweights_start; [|apply cells_all|unfold cweight; rewrite Hb; reflexivity].
      intros d. unfold cweight. destruct (cell_eq d c) as [->|N]; [rewrite Hb; lia|]. rewrite (Ho d N). lia. }
    unfold cweight in K at 2. rewrite He in K.
    assert (Ew : tweight (mkTh (existT _ c (init c) :: stack th) (main th)) = S (len val (init c)) + tweight th)
      by (symmetry; apply Nat.add_assoc).
    lia.
  - assert (K : sum (map (cweight m') cells) <= sum (map (cweight m) cells)).
    { apply cweights_le. intros d. unfold cweight. destruct (cell_eq d c) as [->|N]; [rewrite Hf; lia|].
      rewrite (Ho d N). lia. }
    change (tweight (mkTh (existT _ c (PRet v) :: fs) p)) with (S (tweight (mkTh fs p))). lia.
Qed.
Lemma runs_weight s tr s' : inv s -> runs s tr s' -> length tr + weight s' <= weight s.
Proof.
  intros I0 Rs. induction Rs as [s|s tr s' lab s'' Rs IH St]; [cbn; lia|].
  destruct (runs_inv _ _ _ I0 Rs) as [I1 _]. pose proof (step_weight _ _ _ I1 St). specialize (IH I0).
  cbn [length]. lia.
Qed.
End Lazy.
