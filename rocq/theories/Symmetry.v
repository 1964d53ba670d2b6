(** * Symmetries of the rules

    Rotating the board and exchanging the colours, and reflecting the board
    left to right, map legal moves to legal moves. *)

From Coq Require Import List Bool NArith ZArith Lia Permutation.
From Verif Require Import Types Rules Squares ValidPlay.
Import ListNotations.
Open Scope Z_scope.

Record symmetry := mkSym {
  sy_sq : square -> square;
  sy_col : color -> color;
  sy_dir : Z * Z -> Z * Z;
  sy_sq_inv : forall s, sy_sq (sy_sq s) = s;
  sy_col_inv : forall c, sy_col (sy_col c) = c;
  sy_flip : forall c, sy_col (flip c) = flip (sy_col c);
  sy_steps : forall k v, In v (steps k) -> In (sy_dir v) (steps k);
  sy_rides : forall k v, In v (rides k) -> In (sy_dir v) (rides k);
  sy_disp : forall c v n s t, displaced s (orient c v) n t ->
    displaced (sy_sq s) (orient (sy_col c) (sy_dir v)) n (sy_sq t);
  sy_disp' : forall c v n s t, displaced (sy_sq s) (orient (sy_col c) (sy_dir v)) n t ->
    displaced s (orient c v) n (sy_sq t);
  sy_zone : forall c s, promotion_zone c s -> promotion_zone (sy_col c) (sy_sq s);
  sy_ahead : forall c s, ranks_ahead (sy_col c) (sy_sq s) = ranks_ahead c s;
  sy_file : forall s t, fileZ s = fileZ t -> fileZ (sy_sq s) = fileZ (sy_sq t) }.

(** ** Transport along a symmetry *)

Section Sym.
Context (y : symmetry).
Notation f := (sy_sq y).
Notation ga := (sy_col y).

Definition sy_piece (x : piece) : piece := mkP (pkind x) (ga (pcolor x)).
Definition sy_board (b : board) : board := fun s => option_map sy_piece (b (f s)).
Definition sy_game (g : game) : game :=
  mkG (sy_board (g_board g)) (fun c k => g_hand g (ga c) k) (ga (g_side g)).
Definition sy_move (m : move) : move :=
  match m with
  | Normal a b pr => Normal (f a) (f b) pr
  | Drop b x => Drop (f b) (sy_piece x)
  end.

Lemma sy_piece_inv x : sy_piece (sy_piece x) = x.
Proof. destruct x. unfold sy_piece. cbn. rewrite sy_col_inv. reflexivity. Qed.
Lemma sy_move_inv m : sy_move (sy_move m) = m.
Proof. destruct m; cbn; rewrite ?sy_sq_inv, ?sy_piece_inv; reflexivity. Qed.
Lemma sy_game_inv g : same_game (sy_game (sy_game g)) g.
Proof.
  split; [|split]; cbn [sy_game g_board g_hand g_side].
  - intros s. unfold sy_board. rewrite sy_sq_inv. destruct (g_board g s) as [x|]; cbn; [|reflexivity].
    rewrite sy_piece_inv. reflexivity.
  - intros c k. rewrite sy_col_inv. reflexivity.
  - apply sy_col_inv.
Qed.

Lemma f_eqb s t : sq_eqb (f s) t = sq_eqb s (f t).
Proof.
  destruct (sq_eqb_spec (f s) t) as [E|N], (sq_eqb_spec s (f t)) as [E'|N']; try reflexivity.
  - exfalso. apply N'. rewrite <- E, sy_sq_inv. reflexivity.
  - exfalso. apply N. rewrite E', sy_sq_inv. reflexivity.
Qed.
Lemma ga_eqb c d : color_eqb (ga c) d = color_eqb c (ga d).
Proof.
  destruct (color_eqb_spec (ga c) d) as [E|N], (color_eqb_spec c (ga d)) as [E'|N']; try reflexivity.
  - exfalso. apply N'. rewrite <- E, sy_col_inv. reflexivity.
  - exfalso. apply N. rewrite E', sy_col_inv. reflexivity.
Qed.

Lemma sy_at b s k c : b s = Some (mkP k c) -> sy_board b (f s) = Some (mkP k (ga c)).
Proof. intros H. unfold sy_board. rewrite sy_sq_inv, H. reflexivity. Qed.
Lemma sy_at_inv b s k c : sy_board b s = Some (mkP k c) -> b (f s) = Some (mkP k (ga c)).
Proof.
  unfold sy_board. destruct (b (f s)) as [[k' c']|]; cbn; [|discriminate].
  intros [= <- <-]. rewrite sy_col_inv. reflexivity.
Qed.

Lemma sy_reaches b c k s t : reaches b c k s t -> reaches (sy_board b) (ga c) k (f s) (f t).
Proof.
  intros [[v [I D]]|[v [n [I [N [D E]]]]]].
  - left. exists (sy_dir y v). split; [apply sy_steps; assumption|apply sy_disp; assumption].
  - right. exists (sy_dir y v), n. split; [apply sy_rides; assumption|]. split; [assumption|].
    split; [apply sy_disp; assumption|]. intros i u Hi Du. unfold sy_board.
    rewrite (E i (f u) Hi); [reflexivity|]. apply sy_disp'. assumption.
Qed.

Lemma sy_attacked b c t : attacked b c t -> attacked (sy_board b) (ga c) (f t).
Proof.
  intros [s [k [H R]]]. exists (f s), k. split; [apply sy_at; assumption|apply sy_reaches; assumption].
Qed.

Lemma sy_in_check b c : in_check b c -> in_check (sy_board b) (ga c).
Proof.
  intros [s [H A]]. exists (f s). split; [apply sy_at; assumption|]. rewrite <- sy_flip.
  apply sy_attacked. assumption.
Qed.
Lemma sy_in_check_iff b c : in_check (sy_board b) (ga c) <-> in_check b c.
Proof.
  split; [|apply sy_in_check]. intros H. apply sy_in_check in H. rewrite sy_col_inv in H.
  apply (in_check_same (sy_board (sy_board b))); [|assumption].
  apply (sy_game_inv (mkG b (fun _ _ => 0%N) Black)).
Qed.

Lemma sy_dead c k s : dead_square (ga c) k (f s) <-> dead_square c k s.
Proof. unfold dead_square. rewrite sy_ahead. tauto. Qed.

Lemma sy_pseudo g m : pseudo_legal g m -> pseudo_legal (sy_game g) (sy_move m).
Proof.
  destruct m as [a b pr|b x]; cbn [pseudo_legal sy_move sy_game g_board g_hand g_side].
  - intros [k [H [C [R P]]]]. exists k. split; [apply sy_at; assumption|]. split; [|split].
    + intros k' E. apply sy_at_inv in E. rewrite sy_sq_inv, sy_col_inv in E. exact (C k' E).
    + apply sy_reaches. assumption.
    + destruct pr; [|rewrite sy_dead; assumption]. destruct P as [P1 [P2|P2]]; (split; [assumption|]).
      * left. apply sy_zone. assumption.
      * right. apply sy_zone. assumption.
  - intros [C [H [E [D Nf]]]]. cbn [sy_piece pkind pcolor]. rewrite C, sy_col_inv, sy_dead.
    split; [reflexivity|]. split; [assumption|]. split; [|split; [assumption|]].
    + unfold sy_board. rewrite sy_sq_inv, E. reflexivity.
    + intros K s Hs F. apply sy_at_inv in Hs. rewrite sy_col_inv in Hs.
      apply (Nf K (f s) Hs). rewrite <- (sy_sq_inv y b). apply sy_file. assumption.
Qed.

Lemma sy_play g m : same_game (play (sy_game g) (sy_move m)) (sy_game (play g m)).
Proof.
  destruct m as [a b pr|b x]; cbn [play sy_move sy_game g_board g_hand g_side].
  - split; [|split]; cbn [sy_game g_board g_hand g_side].
    + intros s. unfold upd, sy_board. cbv beta. rewrite !f_eqb, sy_sq_inv.
      destruct (sq_eqb s (f b)).
      * destruct (g_board g a); reflexivity.
      * destruct (sq_eqb s (f a)); reflexivity.
    + intros c k. unfold sy_board. rewrite sy_sq_inv. destruct (g_board g b) as [x|]; cbn; [|reflexivity].
      unfold upd_hand. rewrite sy_col_inv, ga_eqb. reflexivity.
    + rewrite sy_flip. reflexivity.
  - split; [|split]; cbn [sy_game g_board g_hand g_side].
    + intros s. unfold upd, sy_board. cbv beta. rewrite f_eqb. destruct (sq_eqb s (f b)); reflexivity.
    + intros c k. unfold upd_hand. cbn [sy_piece pkind]. rewrite sy_col_inv, ga_eqb. reflexivity.
    + rewrite sy_flip. reflexivity.
Qed.

Lemma sy_play_check g m c : in_check (g_board (play (sy_game g) (sy_move m))) (ga c) <->
  in_check (g_board (play g m)) c.
Proof.
  rewrite <- (sy_in_check_iff (g_board (play g m))). apply in_check_same. apply sy_play.
Qed.

Lemma sy_checkmated g : checkmated g -> checkmated (sy_game g).
Proof.
  intros [C N]. split; [apply sy_in_check; exact C|]. intros m P.
  rewrite <- (sy_move_inv m). apply sy_play_check. apply N.
  apply (pseudo_same (sy_game (sy_game g))); [apply sy_game_inv|]. apply sy_pseudo. assumption.
Qed.
Lemma sy_checkmated_iff g : checkmated (sy_game g) <-> checkmated g.
Proof.
  split; [|apply sy_checkmated]. intros H. apply sy_checkmated in H.
  exact (checkmated_same _ _ (sy_game_inv g) H).
Qed.

Lemma sy_legal g m : legal g m -> legal (sy_game g) (sy_move m).
Proof.
  intros [P [C D]]. split; [apply sy_pseudo; assumption|]. split.
  - cbn [sy_game g_side]. rewrite sy_play_check. assumption.
  - intros [K M]. apply D. split; [destruct m; exact K|].
    apply sy_checkmated_iff. apply (checkmated_same (play (sy_game g) (sy_move m))); [apply sy_play|].
    assumption.
Qed.
Lemma sy_legal_iff g m : legal (sy_game g) (sy_move m) <-> legal g m.
Proof.
  split; [|apply sy_legal]. intros H. apply sy_legal in H. rewrite sy_move_inv in H.
  exact (legal_same _ _ m (sy_game_inv g) H).
Qed.

Lemma sy_valid g : valid g -> valid (sy_game g).
Proof.
  intros V. constructor; cbn [sy_game g_board g_hand g_side].
  - intros c s t Hs Ht. apply sy_at_inv in Hs. apply sy_at_inv in Ht.
    rewrite <- (sy_sq_inv y s), (v_king g V _ _ _ Hs Ht). apply sy_sq_inv.
  - rewrite <- sy_flip. intros H. apply (v_check g V). apply (proj1 (sy_in_check_iff _ _) H).
  - intros c s Hs D. apply sy_at_inv in Hs. apply (v_pawn g V _ _ Hs). apply sy_dead. assumption.
  - intros c s t Hs Ht F. apply sy_at_inv in Hs. apply sy_at_inv in Ht.
    rewrite <- (sy_sq_inv y s), (v_nifu g V _ _ _ Hs Ht); [apply sy_sq_inv|]. apply sy_file. assumption.
Qed.
End Sym.

(** ** The two symmetries *)

Definition opp9 (i : i9) : i9 :=
  match i with
  | n1 => n9 | n2 => n8 | n3 => n7 | n4 => n6 | n5 => n5
  | n6 => n4 | n7 => n3 | n8 => n2 | n9 => n1
  end.
Lemma opp9_inv i : opp9 (opp9 i) = i.
Proof. destruct i; reflexivity. Qed.
Lemma opp9_Z i : i9Z (opp9 i) = 10 - i9Z i.
Proof. destruct i; reflexivity. Qed.

Definition rotate_sq (s : square) : square := Sq (opp9 (sqf s)) (opp9 (sqr s)).
Definition reflect_sq (s : square) : square := Sq (opp9 (sqf s)) (sqr s).

Ltac coords := unfold displaced, rotate_sq, reflect_sq, fileZ, rankZ in *;
  cbn [sqf sqr] in *; rewrite ?opp9_Z in *.

Definition rotation : symmetry.
Proof.
  refine (mkSym rotate_sq flip (fun v => v) _ _ _ _ _ _ _ _ _ _).
  - intros [a b]. unfold rotate_sq. cbn. rewrite !opp9_inv. reflexivity.
  - intros []; reflexivity.
  - reflexivity.
  - auto.
  - auto.
  - intros c [v w] n s t. coords. destruct c; cbn [flip orient fst snd]; lia.
  - intros c [v w] n s t. coords. destruct c; cbn [flip orient fst snd]; lia.
  - intros c s. unfold promotion_zone. coords. destruct c; cbn [flip]; lia.
  - intros c s. unfold ranks_ahead. coords. destruct c; cbn [flip]; lia.
  - intros s t. coords. lia.
Defined.

Definition reflection : symmetry.
Proof.
  refine (mkSym reflect_sq (fun c => c) (fun v => (- fst v, snd v)) _ _ _ _ _ _ _ _ _ _).
  - intros [a b]. unfold reflect_sq. cbn. rewrite opp9_inv. reflexivity.
  - reflexivity.
  - reflexivity.
  - intros k v H. destruct k; cbn in H |- *; intuition subst; cbn; tauto.
  - intros k v H. destruct k; cbn in H |- *; intuition subst; cbn; tauto.
  - intros c [v w] n s t. coords. destruct c; cbn [orient fst snd]; lia.
  - intros c [v w] n s t. coords. destruct c; cbn [orient fst snd]; lia.
  - intros c s. unfold promotion_zone. coords. destruct c; lia.
  - intros c s. unfold ranks_ahead. coords. destruct c; lia.
  - intros s t. coords. lia.
Defined.
