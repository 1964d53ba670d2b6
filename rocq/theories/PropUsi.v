(** * C85: what perft prints, as text, can be read back *)

From Coq Require Import List Bool NArith ZArith String Ascii Decimal DecimalString DecimalN Lia.
From Verif Require Import Types Rules Bitboard Tables Zobrist Position Movegen Api Decide Lines Perft Sfen Witness
  RustSyntax RustNames SourceText RustSem TextDefs TextRun TextPrint PropText PropTextPerft TextLink PropTextLink PropTextSearch PerftSpec Divide DivideSpec Reach ValidPlay PropAgree Usi.
Import ListNotations.
Open Scope string_scope.

(* the text of a line given out by println! (examples/perft.rs:43): None if the format is another *)
Definition render {o} (l : line o) : option string :=
  match fst l, look o (intern "count") (snd l) with
  | [VStr _ f; VMove _ m], Some (VInt _ _ c) =>
      if N.eqb f (intern "{}: {count}") then Some (line_text (m, Z.to_N c)) else None
  | _, _ => None
  end.
(* the text of all lines *)
Fixpoint render_all {o} (ls : list (line o)) : option string :=
  match ls with
  | [] => Some ""
  | l :: ls => match render l, render_all ls with Some a, Some b => Some (a ++ b) | _, _ => None end
  end.

Lemma render_line o (l : line o) x : prints_line o l x -> render l = Some (line_text x).
Proof.
  intros [A [u B]]. unfold render. rewrite A, B. rewrite N.eqb_refl, N2Z.id. destruct x. reflexivity.
Qed.
Lemma render_lines o (ls : list (line o)) out : Forall2 (prints_line o) ls out -> render_all ls = Some (output out).
Proof.
  induction 1 as [|l x ls out H _ IH]; [reflexivity|]. cbn [render_all output fold_right].
  rewrite (render_line o l x H), IH. reflexivity.
Qed.
Lemma alike_legal g m m' : legal g m -> legal g m' -> alike m m' -> m = m'.
Proof.
  destruct m as [f t b|t [k c]], m' as [f' t' b'|t' [k' c']]; cbn [alike pkind]; try tauto.
  intros [[A _] _] [[A' _] _] [-> ->]. cbn [pcolor] in A, A'. subst. reflexivity.
Qed.

(* the number that decimal digits stand for *)
Fixpoint value (s : string) (a : N) : N :=
  match s with
  | EmptyString => a
  | String c s => value s (10 * a + (N_of_ascii c - 48))
  end.
Lemma value_acc u : forall p, value (NilEmpty.string_of_uint u) (Npos p) = Npos (Pos.of_uint_acc u p).
Proof.
  induction u as [|u IH|u IH|u IH|u IH|u IH|u IH|u IH|u IH|u IH|u IH]; intros p; [reflexivity|..];
    cbn [NilEmpty.string_of_uint value Pos.of_uint_acc]; rewrite <- IH; f_equal;
    match goal with |- context [(N_of_ascii ?c - 48)%N] => let x := eval vm_compute in (N_of_ascii c - 48)%N in change (N_of_ascii c - 48)%N with x end; lia.
Qed.
Lemma value_uint u : value (NilEmpty.string_of_uint u) 0 = N.of_uint u.
Proof.
  induction u as [|u IH|u IH|u IH|u IH|u IH|u IH|u IH|u IH|u IH|u IH]; [reflexivity|exact IH|..];
    exact (value_acc u _).
Qed.
Lemma digits_only u : forallb (fun c => (48 <=? N_of_ascii c) && (N_of_ascii c <=? 57))%N (list_ascii_of_string (NilEmpty.string_of_uint u)) = true.
Proof. induction u as [|u IH|u IH|u IH|u IH|u IH|u IH|u IH|u IH|u IH|u IH]; [reflexivity|exact IH..]. Qed.

(** C85 *)

(* the notation, spelt out *)
Theorem C85_notation f r f' r' b k c (t : string) n :
  let at_ i (s : string) := substring (Z.to_nat (i9Z i - 1)) 1 s in
  let file i := at_ i "123456789" in let rank i := at_ i "abcdefghi" in
  usi (Normal (Sq f r) (Sq f' r') b) = file f ++ rank r ++ file f' ++ rank r' ++ (if b then "+" else "") /\
  (In (k, t) [(Pawn, "P"); (Lance, "L"); (Knight, "N"); (Silver, "S"); (Gold, "G"); (Bishop, "B"); (Rook, "R")] ->
   usi (Drop (Sq f r) (mkP k c)) = t ++ "*" ++ file f ++ rank r) /\
  forall m, exists s, line_text (m, n) = usi m ++ ": " ++ s ++ String "010" "" /\ s <> "" /\ value s 0 = n /\
    (forall a, In a (list_ascii_of_string s) -> 48 <= N_of_ascii a <= 57)%N.
Proof.
  cbv zeta. split; [|split].
  - cbn [usi]. unfold square_text. cbn [sqf sqr].
    replace (substring (Z.to_nat (i9Z f - 1)) 1 "123456789") with (String (file_char f) "") by (destruct f; reflexivity).
    replace (substring (Z.to_nat (i9Z r - 1)) 1 "abcdefghi") with (String (rank_char r) "") by (destruct r; reflexivity).
    replace (substring (Z.to_nat (i9Z f' - 1)) 1 "123456789") with (String (file_char f') "") by (destruct f'; reflexivity).
    replace (substring (Z.to_nat (i9Z r' - 1)) 1 "abcdefghi") with (String (rank_char r') "") by (destruct r'; reflexivity).
    reflexivity.
  - intros I. cbn [usi pkind]. unfold square_text. cbn [sqf sqr].
    replace (substring (Z.to_nat (i9Z f - 1)) 1 "123456789") with (String (file_char f) "") by (destruct f; reflexivity).
    replace (substring (Z.to_nat (i9Z r - 1)) 1 "abcdefghi") with (String (rank_char r) "") by (destruct r; reflexivity).
    cbn [In] in I. decompose [or] I; try contradiction; match goal with H : _ = (k, t) |- _ => injection H as <- <- end; reflexivity.
  - intros m. exists (decimal n). split; [reflexivity|]. split; [|split].
    + unfold decimal. intros E. assert (U : N.to_uint n = Decimal.Nil) by (destruct (N.to_uint n); [reflexivity|discriminate E..]).
      pose proof (DecimalN.Unsigned.of_to n) as O. rewrite U in O. cbn in O. subst n. discriminate U.
    + unfold decimal. rewrite value_uint. apply DecimalN.Unsigned.of_to.
    + intros a I. pose proof (proj1 (forallb_forall _ _) (digits_only (N.to_uint n)) a I) as D.
      apply andb_prop in D. destruct D as [D1 D2]. apply N.leb_le in D1, D2. auto.
Qed.
Print Assumptions C85_notation.

(* legal moves of one position have different texts *)
Theorem C85_move g m m' : legal g m -> legal g m' -> usi m = usi m' -> m = m'.
Proof.
  intros L L' E. apply (alike_legal g m m' L L'). apply (usi_inj m m' "" ""). rewrite E. reflexivity.
Qed.
Print Assumptions C85_move.

(* the text of the lines determines the moves and the numbers *)
Theorem C85_output g out out' :
  (forall m, In m (map fst out) -> legal g m) -> (forall m, In m (map fst out') -> legal g m) ->
  output out = output out' -> out = out'.
Proof.
  revert out'. induction out as [|x out IH]; intros [|y out'] L L' H; cbn [output fold_right] in H.
  - reflexivity.
  - destruct (line_not_empty _ _ (eq_sym H)).
  - destruct (line_not_empty _ _ H).
  - destruct (line_inj _ _ _ _ H) as [A [B C]]. f_equal.
    + destruct x as [m c], y as [m' c']. cbn [fst snd] in *. subst c'. f_equal.
      apply (alike_legal g m m'); [apply L|apply L'|exact A]; left; reflexivity.
    + apply IH; [intros m I; apply L|intros m I; apply L'|exact C]; right; exact I.
Qed.
Print Assumptions C85_output.

(* the text printed by the text of perft: it can be read in one way only, and so read
   gives each legal move once with the number of lines after it *)
Theorem C85_perft cf ms v g n d w e ls : text_game cf ms v -> shows cf v g n -> (Z.of_nat d < 2 ^ 64)%Z ->
  runs_fn cf "perft" (perft_args cf d true) [(var, v)] (RDone _ w e) ls ->
  exists s, render_all ls = Some s /\
  exists out, output out = s /\ root_lines g d out /\
  forall out', (forall m, In m (map fst out') -> legal g m) -> output out' = s -> out' = out.
Proof.
  intros T S B H. destruct (C83_counts cf ms v g n d true T S B) as [_ [C _]].
  destruct (C _ _ H) as [E|[L [w' [_ [_ [_ [_ [out [P R]]]]]]]]]; [discriminate E|].
  exists (output out). split; [exact (render_lines _ _ _ P)|]. exists out. split; [reflexivity|]. split; [exact R|].
  intros out' L' E. apply (C85_output g); [exact L'| |exact E]. intros m I. exact (proj1 (proj1 (proj2 R) m) I).
Qed.
Print Assumptions C85_perft.

(* the same on a bitboard library run from the text of its module (C84) *)
Theorem C85_library b checks o enc g ms v gm n d w e ls : text_library b checks o enc ->
  lib_game o g checks ms v -> lib_shows o g checks v gm n -> (Z.of_nat d < 2 ^ 64)%Z ->
  fn_run o g checks "perft" (search_args o d true) [(var, v)] (RDone _ w e) ls ->
  exists s, render_all ls = Some s /\
  exists out, output out = s /\ root_lines gm d out /\
  forall out', (forall m, In m (map fst out') -> legal gm m) -> output out' = s -> out' = out.
Proof.
  intros T G S B H. destruct (C84_perft b checks o enc g ms v gm n d true T G S B) as [_ [C _]].
  destruct (C _ _ H) as [E|[L [w' [_ [_ [_ [_ [out [P R]]]]]]]]]; [discriminate E|].
  exists (output out). split; [exact (render_lines _ _ _ P)|]. exists out. split; [reflexivity|]. split; [exact R|].
  intros out' L' E. apply (C85_output gm); [exact L'| |exact E]. intros m I. exact (proj1 (proj1 (proj2 R) m) I).
Qed.
Print Assumptions C85_library.

Lemma same_root g d out out' : root_lines g d out -> root_lines g d out' -> map fst out = map fst out' -> out = out'.
Proof.
  intros [_ [_ D]] [_ [_ D']]. revert out' D'. induction out as [|[m c] out IH]; intros [|[m' c'] out'] D' E; try discriminate E; [reflexivity|].
  injection E as <- E. f_equal.
  - f_equal. destruct (D m c (or_introl eq_refl)) as [L [A1 [A2 ->]]]. destruct (D' m c' (or_introl eq_refl)) as [L' [B1 [B2 ->]]].
    rewrite (lists_lines_length (play g m) (Nat.pred d) L L' (conj A1 A2) (conj B1 B2)). reflexivity.
  - apply IH; [intros m0 c0 I0; apply D; right; exact I0|intros m0 c0 I0; apply D'; right; exact I0|exact E].
Qed.
(* two runs from the same position, on any two libraries, with or without overflow
   checks, with any generators, print the same text *)
Theorem C85_same_text b checks o enc g ms v n w e ls b' checks' o' enc' g' ms' v' n' w' e' ls' gm d :
  text_library b checks o enc -> text_library b' checks' o' enc' ->
  lib_game o g checks ms v -> lib_game o' g' checks' ms' v' ->
  lib_shows o g checks v gm n -> lib_shows o' g' checks' v' gm n' -> (Z.of_nat d < 2 ^ 64)%Z ->
  fn_run o g checks "perft" (search_args o d true) [(var, v)] (RDone _ w e) ls ->
  fn_run o' g' checks' "perft" (search_args o' d true) [(var, v')] (RDone _ w' e') ls' ->
  exists s, render_all ls = Some s /\ render_all ls' = Some s.
Proof.
  intros T T' G G' S S' B H H'.
  destruct (lib_prints o g checks (text_spec b checks o enc T) ms v gm n d w e ls G S B H) as [q [c [q1 [out [R [E [P F]]]]]]].
  destruct (lib_prints o' g' checks' (text_spec b' checks' o' enc' T') ms' v' gm n' d w' e' ls' G' S' B H') as [q' [c' [q1' [out' [R' [E' [P' F']]]]]]].
  exists (output out). split; [exact (render_lines _ _ _ F)|]. rewrite (render_lines _ _ _ F'). do 2 f_equal.
  pose proof (prog_lines _ _ _ _ true _ _ _ R P) as K. pose proof (prog_lines _ _ _ _ true _ _ _ R' P') as K'. cbv iota in K, K'.
  apply (root_lines_same _ gm _ _ (ValidPlay.same_sym _ _ E)) in K. apply (root_lines_same _ gm _ _ (ValidPlay.same_sym _ _ E')) in K'.
  refine (eq_sym (same_root gm _ _ _ K K' _)).
  pose proof (proj1 (C12_history_independent _ _ ms ms' q q' R R' (same_trans _ _ _ (ValidPlay.same_sym _ _ E) E'))) as Q.
  destruct (Yasai.legal_moves (mkCfg Portable checks (g 2022%N)) q) as [l|] eqn:El;
    [|unfold perft_prog in P; rewrite perft_io_body in P; unfold Yasai.legal_moves in El; rewrite El in P; discriminate P].
  destruct (prog_prints _ 64 ltac:(discriminate) _ _ _ _ _ _ _ R P El) as [-> _].
  destruct (prog_prints _ 64 ltac:(discriminate) _ _ _ _ _ _ _ R' P' (eq_sym Q)) as [-> _]. reflexivity.
Qed.
Print Assumptions C85_same_text.

(* runs as in C85_perft and C85_library are shown by C83_example and C84_example_perft,
   the libraries by C84_library *)

(* a line as examples/perft.rs prints it *)
Example C85_example_text : line_text (Normal (Sq n7 n7) (Sq n7 n6) false, 30%N) = "7g7f: 30" ++ String newline "" /\
  usi (Normal (Sq n8 n8) (Sq n2 n2) true) = "8h2b+" /\ usi (Drop (Sq n5 n5) (mkP Pawn White)) = "P*5e" /\ decimal 0 = "0".
Proof. repeat split. Qed.
(* two legal moves of the initial position *)
Example C85_example_moves : let g := game_of partial_startpos in
  legal g (Normal (Sq n7 n7) (Sq n7 n6) false) /\ legal g (Normal (Sq n2 n7) (Sq n2 n6) false).
Proof. split; apply legalb_spec; vm_compute; reflexivity. Qed.
(* of moves that are not legal in one position this does not hold: the colour is not written *)
Example C85_example_colour : usi (Drop (Sq n5 n5) (mkP Pawn White)) = usi (Drop (Sq n5 n5) (mkP Pawn Black)).
Proof. reflexivity. Qed.
