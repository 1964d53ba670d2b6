(** * What a move does to the board and the hands, with the pieces listed by name (C06, C09)

    [C09_do_move_plays] compares with [play] (Rules.v), which shares with the model the
    functions that turn a piece over (Types.v).  Here the two sides of the pieces are
    a list. *)

From Coq Require Import List Bool NArith ZArith Lia.
From Verif Require Import Types Rules Bitboard Api Sfen Squares ValidPlay Reach Lines Decide Facts Witness PropPlay PropMoves PropSafety.
Import ListNotations.

Definition two_sides : list (kind * kind) :=
  [(Pawn, ProPawn); (Lance, ProLance); (Knight, ProKnight); (Silver, ProSilver); (Bishop, ProBishop); (Rook, ProRook)].
(* the piece [k], captured, enters the hand as [u] *)
Definition enters_as (k u : kind) : Prop := In (u, k) two_sides \/ u = k /\ forall v, ~ In (v, k) two_sides.

Lemma enters_base k u : enters_as k u -> base_kind k = u.
Proof.
  intros [I|[-> N]].
  - cbn [two_sides In] in I. repeat (destruct I as [I|I]; [injection I as <- <-; reflexivity|]). destruct I.
  - destruct k; try reflexivity; exfalso;
      [apply (N Pawn)|apply (N Lance)|apply (N Knight)|apply (N Silver)|apply (N Bishop)|apply (N Rook)]; cbn; tauto.
Qed.
Lemma enters_total k : exists u, enters_as k u.
Proof.
  destruct k; try (eexists; left; cbn; tauto);
    (eexists; right; split; [reflexivity|]; intros v I; cbn in I; repeat (destruct I as [I|I]; [discriminate I|]); exact I).
Qed.
Lemma promoted_two k : promote_kind k <> None -> In (k, promoted_kind k) two_sides.
Proof. destruct k; cbn; intros N; try (destruct (N eq_refl)); tauto. Qed.

Lemma two_promoted k : promote_kind k <> None <-> exists k', In (k, k') two_sides.
Proof.
  split; [intros N; eexists; exact (promoted_two k N)|]. intros [k' I]. cbn [two_sides In] in I.
  repeat (destruct I as [I|I]; [injection I as <- <-; discriminate|]). destruct I.
Qed.

(* the ranks are numbers from 1, at the top, to 9 *)
Theorem C06_by_hand cf ms p l f t pr k :
  reachable cf ms p -> Yasai.legal_moves cf p = Some l -> In (Normal f t pr) l ->
  let c := Yasai.side_to_move cf p in
  Yasai.piece_at cf p f = Some (mkP k c) ->
  (In (Normal f t true) l <->
     (exists k', In (k, k') two_sides) /\
     match c with Black => (rankZ f <= 3 \/ rankZ t <= 3)%Z | White => (7 <= rankZ f \/ 7 <= rankZ t)%Z end) /\
  (In (Normal f t false) l <->
     let last n := match c with Black => (rankZ t <= n)%Z | White => (9 - n < rankZ t)%Z end in
     ~ ((k = Pawn \/ k = Lance) /\ last 1%Z \/ k = Knight /\ last 2%Z)).
Proof.
  intros R E I c B. destruct (C06_promotion_choices cf ms p l f t pr k R E I B) as [H1 H2]. fold c in H1, H2.
  rewrite H1, H2, two_promoted. unfold promotion_zone, dead_square, ranks_ahead. cbv zeta. split; [destruct c; reflexivity|].
  pose proof (Attacks.i9Z_range (sqr t)) as Rg. fold (rankZ t) in Rg.
  destruct k, c; split; intros H X; try (destruct X as [[[X|X] _]|[X _]]; discriminate X); try exact X; apply H; try lia;
    first [left; split; [tauto|lia] | right; split; [tauto|lia] | destruct X as [[_ X]|[Y X]]; [lia|discriminate Y] | destruct X as [[[X|X] _]|[_ X]]; [discriminate X..|lia]].
Qed.
Print Assumptions C06_by_hand.

Theorem C09_by_hand cf ms p m q :
  reachable cf ms p -> legal (view cf p) m -> Yasai.do_move cf p m = Some q ->
  let c := Yasai.side_to_move cf p in
  let board p := Yasai.piece_at cf p in
  let hand p d k := hand_n (Yasai.hand cf p d) k in
  Yasai.side_to_move cf q = flip c /\
  match m with
  | Normal f t pr => exists k k',
      board p f = Some (mkP k c) /\ board q f = None /\ board q t = Some (mkP k' c) /\
      (if pr then In (k, k') two_sides else k' = k) /\
      (forall s, s <> f -> s <> t -> board q s = board p s) /\
      match board p t with
      | None => forall d j, hand q d j = hand p d j
      | Some y => pcolor y = flip c /\ exists u, enters_as (pkind y) u /\ hand q c u = (hand p c u + 1)%N /\
          forall d j, d <> c \/ j <> u -> hand q d j = hand p d j
      end
  | Drop t x =>
      pcolor x = c /\ board p t = None /\ board q t = Some x /\
      (forall s, s <> t -> board q s = board p s) /\
      hand p c (pkind x) = (hand q c (pkind x) + 1)%N /\
      forall d j, d <> c \/ j <> pkind x -> hand q d j = hand p d j
  end.
Proof.
  intros R L D c bd hd. destruct (api_do_move cf ms p m q R L D) as [B [H S]].
  split; [rewrite (S : Yasai.side_to_move cf q = _); destruct m; reflexivity|].
  assert (Hb : forall s, bd q s = g_board (play (view cf p) m) s) by exact B.
  assert (Hh : forall d j, hd q d j = g_hand (play (view cf p) m) d j) by exact H.
  destruct L as [L _]. destruct m as [f t pr|t x]; cbn [pseudo_legal play g_board g_hand g_side] in *.
  - destruct L as [k [Bf [Bt [_ Pr]]]].
    change (bd p f = Some (mkP k c)) in Bf. change (forall k', bd p t <> Some (mkP k' c)) in Bt.
    assert (FT : f <> t) by (intros E; apply (Bt k); rewrite <- E; exact Bf).
    change (g_board (view cf p)) with (bd p) in *. rewrite Bf in Hb. cbn [pkind pcolor] in Hb.
    exists k, (if pr then promoted_kind k else k). split; [exact Bf|]. unfold upd in Hb.
    split; [|split; [|split; [|split]]].
    + rewrite Hb. destruct (sq_eqb_spec f t) as [E|_]; [contradiction|]. rewrite sq_eqb_refl. reflexivity.
    + rewrite Hb, sq_eqb_refl. reflexivity.
    + destruct pr; [|reflexivity]. apply promoted_two, Pr.
    + intros s Sf St. rewrite Hb. destruct (sq_eqb_spec s t); [contradiction|]. destruct (sq_eqb_spec s f); [contradiction|]. reflexivity.
    + destruct (bd p t) as [y|] eqn:Y; [|exact Hh].
      split.
      { destruct y as [ky cy]. cbn. destruct (color_eqb cy c) eqn:E.
        - exfalso. apply (Bt ky). f_equal. f_equal. destruct cy, c; try discriminate; reflexivity.
        - destruct cy, c; try discriminate; reflexivity. }
      destruct (enters_total (pkind y)) as [u U]. exists u. split; [exact U|].
      cbv zeta in Hh. rewrite (enters_base _ u U) in Hh. unfold upd_hand in Hh.
      change (g_side (view cf p)) with c in Hh. split.
      * rewrite Hh. replace (color_eqb c c) with true by (destruct c; reflexivity).
        replace (kind_eqb u u) with true by (destruct u; reflexivity). reflexivity.
      * intros d j N. rewrite Hh. destruct (color_eqb d c && kind_eqb j u)%bool eqn:E; [exfalso|reflexivity].
        apply andb_true_iff in E as [E1 E2].
        destruct N as [N|N]; apply N; [destruct d, c; try discriminate; reflexivity|destruct j, u; try discriminate; reflexivity].
  - destruct L as [Px [Hp [Bt _]]]. change (bd p t = None) in Bt. change (pcolor x = c) in Px.
    change (0 < hd p c (pkind x))%N in Hp. change (g_board (view cf p)) with (bd p) in *. unfold upd in Hb.
    split; [exact Px|]. split; [exact Bt|]. split; [rewrite Hb, sq_eqb_refl; reflexivity|].
    split; [intros s St; rewrite Hb; destruct (sq_eqb_spec s t); [contradiction|reflexivity]|].
    unfold upd_hand in Hh. change (g_side (view cf p)) with c in Hh. split.
    + rewrite Hh. replace (color_eqb c c) with true by (destruct c; reflexivity).
      replace (kind_eqb (pkind x) (pkind x)) with true by (destruct (pkind x); reflexivity).
      cbn [andb]. change (g_hand (view cf p) c (pkind x)) with (hd p c (pkind x)). lia.
    + intros d j N. rewrite Hh. destruct (color_eqb d c && kind_eqb j (pkind x))%bool eqn:E; [exfalso|reflexivity].
      apply andb_true_iff in E as [E1 E2].
      destruct N as [N|N]; apply N; [destruct d, c; try discriminate; reflexivity|destruct j, (pkind x); try discriminate; reflexivity].
Qed.
Print Assumptions C09_by_hand.

(* a horse is captured as a bishop; C06_example (PropMoves.v) has a choice; C09_example (PropPlay.v) is a capture with promotion *)
Example C09_example_by_hand cf : enters_as ProBishop Bishop /\ ~ enters_as ProBishop ProBishop /\ enters_as Gold Gold /\
  exists p q, reachable cf (rev opening2) p /\ legal (view cf p) bishop_takes /\ Yasai.do_move cf p bishop_takes = Some q.
Proof.
  split; [left; cbn; tauto|]. split.
  { intros E. apply enters_base in E. discriminate E. }
  split; [right; split; [reflexivity|]; intros v I; cbn in I; repeat (destruct I as [I|I]; [discriminate I|]); exact I|].
  destruct (C09_example cf) as [p [q [R [L [D _]]]]]. exists p, q. tauto.
Qed.

(* the initial position as it is drawn: White at the top, file 9 on the left *)
Definition picture : list (list (option piece)) :=
  let b k := Some (mkP k Black) in let w k := Some (mkP k White) in let e := None in
  [ [w Lance; w Knight; w Silver; w Gold; w King; w Gold; w Silver; w Knight; w Lance];
    [e;       w Rook;   e;        e;      e;      e;      e;        w Bishop; e      ];
    [w Pawn;  w Pawn;   w Pawn;   w Pawn; w Pawn; w Pawn; w Pawn;   w Pawn;   w Pawn ];
    [e;       e;        e;        e;      e;      e;      e;        e;        e      ];
    [e;       e;        e;        e;      e;      e;      e;        e;        e      ];
    [e;       e;        e;        e;      e;      e;      e;        e;        e      ];
    [b Pawn;  b Pawn;   b Pawn;   b Pawn; b Pawn; b Pawn; b Pawn;   b Pawn;   b Pawn ];
    [e;       b Bishop; e;        e;      e;      e;      e;        b Rook;   e      ];
    [b Lance; b Knight; b Silver; b Gold; b King; b Gold; b Silver; b Knight; b Lance] ].
Definition drawn (s : square) : option piece :=
  nth (Z.to_nat (9 - fileZ s)) (nth (Z.to_nat (rankZ s - 1)) picture []) None.

Theorem C39_by_hand cf : exists p,
  Yasai.default cf = Some p /\ reachable cf [] p /\
  (forall s, Yasai.piece_at cf p s = drawn s) /\
  (forall c k, hand_n (Yasai.hand cf p c) k = 0%N) /\
  Yasai.side_to_move cf p = Black /\ Yasai.ply cf p = 1%N.
Proof.
  destruct (C39_default cf) as [p [N [R [B [H [S [P _]]]]]]]. exists p.
  split; [exact N|]. split; [exact R|]. split; [|tauto].
  intros s. rewrite B. destruct s as [[] []]; reflexivity.
Qed.
Print Assumptions C39_by_hand.

Example C39_example_by_hand : drawn (Sq n2 n8) = Some (mkP Rook Black) /\ drawn (Sq n8 n8) = Some (mkP Bishop Black) /\
  drawn (Sq n5 n5) = None.
Proof. repeat split. Qed.
