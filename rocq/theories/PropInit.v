(** * Properties of the tables' initialisers: C52, C53 and C54 of properties.jsonl *)

From Coq Require Import List Bool NArith ZArith Lia.
From Verif Require Import Types Rules Bitboard BackendCore BackendSimd Tables Zobrist Api
  Words Squares Geometry BBSpec SpecLanes SpecCore Backends Attacks Consequences Facts Init InitSpec.
Import ListNotations.

(** ** C52: the tables of src/tables.rs *)

(* the kind whose rides pseudo_attack follows *)
Definition rider (k : kind) : kind :=
  match k with ProBishop => Bishop | ProRook => Rook | _ => k end.

Lemma pseudo_rules b checks k s c t :
  bcontains _ (pseudo_attack (ops_of b checks) k s c) t = true <-> reaches (fun _ => None) c (rider k) s t.
Proof.
  rewrite (pseudo_attack_spec _ (backend_spec b checks)), <- reachb_spec.
  assert (C : clearb (occb (fun _ => None)) s t = true).
  { unfold clearb. apply forallb_forall. intros u _. apply negb_true_iff, andb_false_r. }
  unfold reachb. rewrite C, andb_true_r.
  assert (SR : forall k', rides k' = [] -> rideb c k' s t = false).
  { intros k' E. unfold rideb. rewrite E. destruct (dirof s t); reflexivity. }
  destruct k; cbn [pseudo_reach rider]; rewrite ?SR, ?orb_false_r by reflexivity; reflexivity.
Qed.

(** The loops of ATTACK_TABLE end without a panic.  Afterwards every lookup is
    in bounds and gives the squares that the rules give, whichever squares are
    occupied; it is also the value that the rest of the model uses. *)
Theorem C52_attack_table b checks :
  exists T, attack_table_init (ops_of b checks) = Some T /\
  (forall k s c occ, on_board b checks occ ->
     exists a, table_attack _ T k s c occ = Some a /\ on_board b checks a /\
       a = attack _ k s c occ /\
       forall bd, (forall u, bcontains _ occ u = true <-> bd u <> None) ->
         forall t, bcontains _ a t = true <-> reaches bd c k s t) /\
  (forall k s c, exists a, table_pseudo_attack _ T k s c = Some a /\ on_board b checks a /\
       a = pseudo_attack _ k s c /\
       forall t, bcontains _ a t = true <-> reaches (fun _ => None) c (rider k) s t).
Proof.
  destruct (attack_table_init_spec (ops_of b checks)) as [T [E [H H']]].
  exists T. split; [exact E|]. split.
  - intros k s c occ W. eexists. split; [apply H|]. split.
    { apply on_board_wf. apply (wf_attack _ (backend_spec b checks)). apply on_board_wf. exact W. }
    split; [reflexivity|]. intros bd Hb t. exact (attack_rules b checks occ W bd k s c t Hb).
  - intros k s c. eexists. split; [apply H'|]. split.
    { apply on_board_wf. apply (wf_pseudo_attack _ (backend_spec b checks)). }
    split; [reflexivity|]. intros t. apply pseudo_rules.
Qed.
Print Assumptions C52_attack_table.

(** The while loop of sliding_attack, from any square in any of the eight
    directions, with any squares occupied: it ends, in one way only, having
    collected the squares up to the first occupied one. *)
Theorem C52_walk_ends b checks (occ : bb (ops_of b checks)) s d : In d (orthogonals ++ diagonals) ->
  exists a, (forall r, walk _ occ d (sq_shift s (fst d) (snd d)) (bempty _) r <-> r = a) /\
    on_board b checks a /\
    forall t, bcontains _ a t = true <->
      exists n, (1 <= n)%Z /\ displaced s d n t /\
        forall i u, (0 < i < n)%Z -> displaced s d i u -> bcontains _ occ u = false.
Proof.
  intros Hd. exists (sliding_attack _ s occ d). split; [|split].
  - intros r. apply sliding_walk. exact Hd.
  - apply on_board_wf. apply (wf_sliding_attack _ (backend_spec b checks)).
  - intros t. rewrite (sliding_attack_spec _ (backend_spec b checks)) by exact Hd. rewrite clearb_spec. split.
    + intros [D C]. destruct (dirof_displaced _ _ _ D) as [_ [L Dt]].
      exists (dist s t). split; [exact L|]. split; [exact Dt|]. intros i u Hi Du. apply C.
      apply betweenb_spec. eauto.
    + intros [n [Hn [Dt C]]].
      assert (Ed : dirof s t = Some d /\ dist s t = n).
      { exact (displaced_dirof s d n t Hd Hn Dt). }
      destruct Ed as [Ed En]. split; [exact Ed|]. intros u Hu.
      apply betweenb_spec in Hu as [d' [E' [i [Hi Du]]]]. rewrite Ed in E'. injection E' as <-.
      apply (C i u); [lia|exact Du].
Qed.
Print Assumptions C52_walk_ends.

(** BETWEEN_TABLE: no panic, in particular not by unreachable!() *)
Theorem C52_between_table b checks :
  exists t, between_table_init (ops_of b checks) = Some t /\
  forall s0 s1, exists a, between_table_get _ t s0 s1 = Some a /\ on_board b checks a /\
    a = BETWEEN_TABLE _ s0 s1 /\
    forall u, bcontains _ a u = true <-> between s0 u s1.
Proof.
  destruct (between_table_init_spec (ops_of b checks)) as [t [E H]]. exists t. split; [exact E|].
  intros s0 s1. eexists. split; [apply H|]. split; [|split; [reflexivity|]].
  - apply on_board_wf. apply (wf_between _ (backend_spec b checks)).
  - intros u. rewrite (between_table_spec _ (backend_spec b checks)). apply between_spec.
Qed.
Print Assumptions C52_between_table.

(** FILES is indexed by Square::file(), which starts at 1 *)
Theorem C52_files b checks :
  exists t, files_init (ops_of b checks) = Some t /\ length t = 10%nat /\
  arr_get t 0 = Some (bempty _) /\
  forall s, exists a, arr_get t (Z.to_N (fileZ s)) = Some a /\ on_board b checks a /\
    a = FILES _ (sqf s) /\
    forall u, bcontains _ a u = true <-> fileZ u = fileZ s.
Proof.
  destruct (files_init_spec (ops_of b checks)) as [t [E [H [H0 L]]]]. exists t. split; [exact E|].
  split; [exact L|]. split; [exact H0|]. intros s. eexists. split; [apply H|]. split; [|split; [reflexivity|]].
  - apply on_board_wf. apply (wf_files _ (backend_spec b checks)).
  - intros u. rewrite (files_spec _ (backend_spec b checks)). unfold fileZ.
    destruct (sqf u), (sqf s); split; (reflexivity || discriminate).
Qed.
Print Assumptions C52_files.

(** RELATIVE_RANKS and PROMOTABLE, which is filled from it *)
Theorem C52_ranks :
  exists ranks table, relative_ranks_init = Some ranks /\ promotable_init ranks = Some table /\
  (forall s c, by_square_color ranks s c = Some (RELATIVE_RANKS s c) /\
     by_square_color table s c = Some (PROMOTABLE s c)) /\
  (forall s, by_square_color ranks s Black = Some (rankZ s) /\
     by_square_color ranks s White = Some (10 - rankZ s)%Z) /\
  (forall s, (by_square_color table s Black = Some true <-> (rankZ s <= 3)%Z) /\
     (by_square_color table s White = Some true <-> (7 <= rankZ s)%Z)).
Proof.
  destruct relative_ranks_init_spec as [ranks [E H]].
  destruct (promotable_init_spec ranks H) as [table [E' H']].
  exists ranks, table. split; [exact E|]. split; [exact E'|].
  split; [intros s c; split; [apply H|apply H']|]. split; [intros s; split; apply H|].
  intros s. rewrite !H'. unfold PROMOTABLE, RELATIVE_RANKS, relative_rank. split.
  - destruct (Z.leb_spec (rankZ s) 3); split; intros X; auto; try discriminate X; exfalso; lia.
  - destruct (Z.leb_spec (10 - rankZ s) 3); split; intros X; auto; try discriminate X; try lia; exfalso; lia.
Qed.
Print Assumptions C52_ranks.

(* lookups in tables that were filled by the loops *)
Example C52_example :
  let occ := bsingle x86_ops (Sq n5 n3) in
  (exists T a, attack_table_init x86_ops = Some T /\ table_attack x86_ops T Rook (Sq n5 n5) Black occ = Some a /\
     biter x86_ops a = [Sq n1 n5; Sq n2 n5; Sq n3 n5; Sq n4 n5; Sq n5 n3; Sq n5 n4; Sq n5 n6; Sq n5 n7; Sq n5 n8;
       Sq n5 n9; Sq n6 n5; Sq n7 n5; Sq n8 n5; Sq n9 n5]) /\
  (exists t a, between_table_init wasm_ops = Some t /\
     between_table_get wasm_ops t (Sq n2 n8) (Sq n6 n4) = Some a /\
     biter wasm_ops a = [Sq n3 n7; Sq n4 n6; Sq n5 n5]) /\
  In dNW (orthogonals ++ diagonals).
Proof.
  split; [|split].
  - destruct (C52_attack_table X86_64 true) as [T [E [H _]]]. cbn [ops_of] in *.
    destruct (H Rook (Sq n5 n5) Black (bsingle x86_ops (Sq n5 n3))) as [a [Ea [_ [-> _]]]]; [vm_compute; tauto|].
    exists T, (attack x86_ops Rook (Sq n5 n5) Black (bsingle x86_ops (Sq n5 n3))).
    split; [exact E|]. split; [exact Ea|]. vm_compute. reflexivity.
  - destruct (C52_between_table Wasm32 true) as [t [E H]]. cbn [ops_of] in *.
    destruct (H (Sq n2 n8) (Sq n6 n4)) as [a [Ea [_ [-> _]]]].
    exists t, (BETWEEN_TABLE wasm_ops (Sq n2 n8) (Sq n6 n4)).
    split; [exact E|]. split; [exact Ea|]. vm_compute. reflexivity.
  - cbn. tauto.
Qed.

(** ** C53: the constant tables of the backends *)

(** Each while loop ends, in one way only, without an index or shift out of
    range, and leaves the given bits.  SINGLE_VALUES and SINGLES: *)
Theorem C53_single_values :
  exists values, (forall r, while_runs 81 single_values_body 0 (repeat (0, 0)%N 81) r <-> r = Some values) /\
  length values = 81%nat /\
  forall s, exists x0 x1, arr_get values (sq_index s) = Some (x0, x1) /\ (x0, x1) = lanes_single s /\
    (forall n, N.testbit x0 n = true <-> n = sq_index s /\ (sq_index s < 63)%N) /\
    (forall n, N.testbit x1 n = true <-> (n + 63)%N = sq_index s).
Proof.
  destruct (const_table (0, 0)%N 81 single_values_body
    (fun i => if (i <? 63)%N then (N.shiftl 1 i, 0%N) else (0%N, N.shiftl 1 (i - 63)))) as [t [R [L H]]].
  { intros i a Hi. unfold single_values_body, shl_one. change (N.of_nat 81) with 81%N in Hi.
    destruct (N.ltb_spec i 63).
    - destruct (N.ltb_spec i 64); [reflexivity|lia].
    - destruct (N.ltb_spec (i - 63) 64); [reflexivity|lia]. }
  exists t. split; [exact R|]. split; [exact L|]. intros s.
  exists (fst (lanes_single s)), (snd (lanes_single s)).
  split; [etransitivity; [exact (H (sq_index s) (sq_index_lt s))|]; unfold lanes_single; destruct (_ <? _)%N; reflexivity|].
  split; [destruct (lanes_single s); reflexivity|].
  assert (B : forall m n, N.testbit (N.shiftl 1 m) n = true <-> n = m).
  { intros m n. rewrite N.shiftl_1_l, N.pow2_bits_eqb, N.eqb_eq. split; auto. }
  unfold lanes_single. destruct (N.ltb_spec (sq_index s) 63); cbn [fst snd]; split; intros n.
  - rewrite B. tauto.
  - rewrite N.bits_0. split; [discriminate|lia].
  - rewrite N.bits_0. split; [discriminate|lia].
  - rewrite B. lia.
Qed.
Print Assumptions C53_single_values.

(** MASKED_VALUES of aarch64.rs and wasm32.rs: entry i has the lowest i bits *)
Theorem C53_masked_values :
  exists values, (forall r, while_runs 83 masked_values_body 0 (repeat (0, 0)%N 83) r <-> r = Some values) /\
  length values = 83%nat /\
  forall i, (i < 83)%N -> exists x0 x1, arr_get values i = Some (x0, x1) /\ (x0, x1) = lanes_masked i /\
    (forall n, N.testbit x0 n = true <-> (n < i /\ n < 64)%N) /\
    (forall n, N.testbit x1 n = true <-> (n + 64 < i)%N).
Proof.
  destruct (const_table (0, 0)%N 83 masked_values_body lanes_masked) as [t [R [L H]]].
  { intros i a Hi. unfold masked_values_body, shl_one. change (N.of_nat 83) with 83%N in Hi.
    destruct (N.ltb_spec i 128); [reflexivity|lia]. }
  exists t. split; [exact R|]. split; [exact L|]. intros i Hi.
  exists (fst (lanes_masked i)), (snd (lanes_masked i)). split; [etransitivity; [exact (H i Hi)|]; reflexivity|].
  split; [reflexivity|]. cbn [lanes_masked fst snd]. rewrite shiftl1_pred. split; intros n.
  - rewrite land_ones64, ones_spec, andb_true_iff, !N.ltb_lt. tauto.
  - rewrite land_ones64, N.shiftr_spec', ones_spec, andb_true_iff, !N.ltb_lt. lia.
Qed.
Print Assumptions C53_masked_values.

(** MASKED_BBS of core.rs: the squares whose bit is below i *)
Theorem C53_masked_bbs :
  exists bbs, (forall r, while_runs 83 masked_bbs_body 0 (repeat 0%N 83) r <-> r = Some bbs) /\
  length bbs = 83%nat /\
  forall i, (i < 83)%N -> exists x, arr_get bbs i = Some x /\ x = masked_bbs i /\
    on_board Portable true x /\
    forall s, bcontains (core_ops true) x s = true <-> (sq_bit s < i)%N.
Proof.
  destruct (const_table 0%N 83 masked_bbs_body masked_bbs) as [t [R [L H]]].
  { intros i a Hi. unfold masked_bbs_body, shl_one. change (N.of_nat 83) with 83%N in Hi.
    destruct (N.ltb_spec i 128); [reflexivity|lia]. }
  exists t. split; [exact R|]. split; [exact L|]. intros i Hi. exists (masked_bbs i).
  split; [exact (H i Hi)|]. split; [reflexivity|]. split.
  - cbn [on_board]. unfold masked_bbs. apply N.bits_inj. intros n. rewrite !N.land_spec.
    destruct (N.testbit core_mask n); [apply andb_true_r|reflexivity].
  - intros s. rewrite <- N.ltb_lt, <- masked_bbs_spec. reflexivity.
Qed.
Print Assumptions C53_masked_bbs.

Example C53_example : exists values, while_runs 81 single_values_body 0 (repeat (0, 0)%N 81) (Some values) /\
  arr_get values 80 = Some (0, 131072)%N.
Proof.
  destruct C53_single_values as [v [R [_ H]]]. exists v. split; [apply R; reflexivity|].
  destruct (H (Sq n9 n9)) as [x0 [x1 [E [E' _]]]]. rewrite E' in E. vm_compute in E. exact E.
Qed.

(** ** C54: the Zobrist table *)

(* the entries that the loops draw: every piece on every square, and 0 to 17
   pieces in hand of each of the seven kinds *)
Inductive entry := EBoard (s : square) (p : piece) | EHand (c : color) (k : kind) (n : N).
Definition drawn (e : entry) : Prop :=
  match e with
  | EBoard _ _ => True
  | EHand _ k n => In k [Pawn; Lance; Knight; Silver; Gold; Bishop; Rook] /\ (n < 18)%N
  end.
Definition lookup (z : zarrays) (e : entry) : option key :=
  match e with EBoard s p => za_board_get z s p | EHand c k n => za_hand_get z c k n end.

Theorem C54_zobrist_table rng :
  exists z, zobrist_init rng = Some z /\
  (* the values that the model uses, with the same lookups out of bounds *)
  (forall s p, za_board_get z s p = Some (z_board (zobrist_table rng) s p)) /\
  (forall c k n, za_hand_get z c k n = z_hand (zobrist_table rng) c k n) /\
  (* a draw of its own for every entry: the low bit cleared, cut to 64 bits *)
  (exists turn : entry -> N,
     (forall e, drawn e -> (turn e < 2520)%N /\
        exists v, lookup z e = Some v /\
          forall i, N.testbit v i = true <-> (0 < i < 64)%N /\ N.testbit (rng (turn e)) i = true) /\
     (forall e e', drawn e -> drawn e' -> turn e = turn e' -> e = e') /\
     (forall n, (n < 2520)%N -> exists e, drawn e /\ turn e = n)) /\
  (* the rest of the array is zero, or not there *)
  (forall c k n, ~ drawn (EHand c k n) ->
     za_hand_get z c k n = if kind_eqb k King && (n <? 18)%N then Some 0%N else None).
Proof.
  destruct (zobrist_init_spec rng) as [z [E [Hb Hh]]]. exists z. split; [exact E|].
  split; [exact Hb|]. split; [exact Hh|]. split.
  - exists (fun e => match e with
       | EBoard s p => bk_rank (s, (pcolor p, (pkind p, tt)))
       | EHand c k n => hk_rank (c, (k, (n, tt))) end).
    assert (Bits : forall m i, N.testbit (draw rng m) i = true <-> (0 < i < 64)%N /\ N.testbit (rng m) i = true).
    { intros m i. unfold draw. rewrite N.ldiff_spec. change 0xffffffffffffffff%N with ones64.
      rewrite land_ones64, !andb_true_iff, negb_true_iff, N.ltb_lt.
      change KEY_COLOR with (2 ^ 0)%N. rewrite N.pow2_bits_eqb, N.eqb_neq. intuition lia. }
    split; [|split].
    + intros [s [k c]|c k n] D; cbn [lookup pcolor pkind].
      * split.
        { unfold bk_rank. cbn [fst snd]. pose proof (sq_index_lt s). pose proof (color_index_lt c).
          pose proof (kind_index_lt k). lia. }
        eexists. split; [apply Hb|]. intros i. apply Bits.
      * destruct D as [Dk Dn]. split.
        { unfold hk_rank. cbn [fst snd]. pose proof (color_index_lt c).
          assert (kind_index k < 7)%N by (cbn in Dk; intuition (subst; reflexivity)). lia. }
        rewrite Hh. unfold z_hand, MAX_HAND_NUM.
        replace (n <? 18)%N with true by (symmetry; apply N.ltb_lt; exact Dn).
        exists (draw rng (hk_rank (c, (k, (n, tt))))). split; [|apply Bits].
        cbn in Dk. destruct Dk as [<-|[<-|[<-|[<-|[<-|[<-|[<-|[]]]]]]]]; reflexivity.
    + assert (Big : forall s p, (bk_rank (s, (pcolor p, (pkind p, tt))) < 2268)%N).
      { intros s [k c]. unfold bk_rank. cbn [fst snd pcolor pkind]. pose proof (sq_index_lt s).
        pose proof (color_index_lt c). pose proof (kind_index_lt k). lia. }
      assert (Small : forall c k n, (2268 <= hk_rank (c, (k, (n, tt))))%N) by (intros; unfold hk_rank; cbn [fst snd]; lia).
      assert (KI : forall a b, kind_index a = kind_index b -> a = b).
      { intros a b Eab. apply kind_eqb_iff. rewrite kind_eqb_index, Eab. apply N.eqb_refl. }
      assert (CI : forall a b, color_index a = color_index b -> a = b).
      { intros a b Eab. apply color_eqb_iff. rewrite color_eqb_index, Eab. apply N.eqb_refl. }
      intros [s p|c k n] [s' p'|c' k' n'] D D' Er.
      * destruct p as [k c], p' as [k' c']. unfold bk_rank in Er. cbn [fst snd pcolor pkind] in Er.
        pose proof (color_index_lt c). pose proof (kind_index_lt k).
        pose proof (color_index_lt c'). pose proof (kind_index_lt k').
        assert (sq_index s = sq_index s' /\ color_index c = color_index c' /\ kind_index k = kind_index k') as [E1 [E2 E3]] by lia.
        apply sq_index_inj in E1. apply CI in E2. apply KI in E3. subst. reflexivity.
      * pose proof (Big s p). pose proof (Small c' k' n'). lia.
      * pose proof (Big s' p'). pose proof (Small c k n). lia.
      * destruct D as [Dk Dn], D' as [Dk' Dn']. unfold hk_rank in Er. cbn [fst snd] in Er.
        assert (kind_index k < 7)%N by (cbn in Dk; intuition (subst; reflexivity)).
        assert (kind_index k' < 7)%N by (cbn in Dk'; intuition (subst; reflexivity)).
        pose proof (color_index_lt c). pose proof (color_index_lt c').
        assert (color_index c = color_index c' /\ kind_index k = kind_index k' /\ n = n') as [E1 [E2 E3]] by lia.
        apply CI in E1. apply KI in E2. subst. reflexivity.
    + intros n Hn.
      assert (A : map bk_rank bk_keys ++ map hk_rank hk_keys = Nrange 2520) by (vm_compute; reflexivity).
      assert (J : In n (Nrange 2520)).
      { unfold Nrange. apply in_map_iff. exists (N.to_nat n). split; [apply N2Nat.id|apply in_seq; lia]. }
      rewrite <- A in J. apply in_app_iff in J as [J|J]; apply in_map_iff in J as [k0 [<- J]].
      * destruct k0 as [s [c [k []]]]. exists (EBoard s (mkP k c)). split; [exact I|reflexivity].
      * destruct k0 as [c [k [m []]]]. exists (EHand c k m). split; [|reflexivity].
        apply in_prod_iff in J as [_ J]. apply in_prod_iff in J as [Jk Jn].
        split; [exact Jk|]. apply in_map_iff in Jn as [n' [En Jn]]. injection En as ->.
        apply in_map_iff in Jn as [m' [<- Jm]]. apply in_seq in Jm. lia.
  - intros c k n D. rewrite Hh. unfold z_hand, MAX_HAND_NUM.
    destruct (N.ltb_spec n 18) as [Hn|Hn]; [|rewrite !andb_false_r; reflexivity]. rewrite !andb_true_r.
    destruct k; try reflexivity; exfalso; apply D; (split; [cbn; tauto|exact Hn]).
Qed.
Print Assumptions C54_zobrist_table.

Example C54_example : drawn (EHand White Rook 17) /\ ~ drawn (EHand Black King 0) /\
  (exists z, zobrist_init (fun n => (2 * n + 1)%N) = Some z /\
     za_board_get z (Sq n1 n1) (mkP Lance Black) = Some 2%N /\
     za_hand_get z White Rook 17 = Some 5038%N /\ za_hand_get z White Rook 18 = None /\
     za_hand_get z Black King 0 = Some 0%N).
Proof.
  split; [cbn; intuition lia|]. split; [cbn; intuition discriminate|].
  destruct (C54_zobrist_table (fun n => (2 * n + 1)%N)) as [z [E [Hb [Hh _]]]]. exists z.
  split; [exact E|]. rewrite Hb, !Hh. vm_compute. repeat split.
Qed.
