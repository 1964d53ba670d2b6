(** * Legality by capture of the king

    The rules without the word "check": a move is illegal if the opponent could
    then take the king.  Equivalent to [Rules.legal] in every position. *)

From Coq Require Import List Bool NArith ZArith Lia.
From Verif Require Import Types Rules Squares.
Import ListNotations.
Open Scope Z_scope.

(* the move takes the opponent's king, whatever happens to the own one *)
Definition takes_king (g : game) (m : move) : Prop :=
  match m with
  | Normal _ t _ => pseudo_legal g m /\ g_board g t = Some (mkP King (flip (g_side g)))
  | Drop _ _ => False
  end.

(* the same position with the other side to move *)
Definition pass (g : game) : game := mkG (g_board g) (g_hand g) (flip (g_side g)).

(* after [m] some reply takes the king of the side that played [m] *)
Definition loses_king (g : game) (m : move) : Prop := exists r, takes_king (play g m) r.

(* the king would be taken now, and after every move *)
Definition king_lost (g : game) : Prop :=
  (exists r, takes_king (pass g) r) /\ forall m, pseudo_legal g m -> loses_king g m.

Definition legal_by_capture (g : game) (m : move) : Prop :=
  pseudo_legal g m /\ ~ loses_king g m /\ ~ (is_pawn_drop m /\ king_lost (play g m)).

Lemma flip2 c : flip (flip c) = c.
Proof. destruct c; reflexivity. Qed.

Definition must_promote (c : color) (k : kind) (t : square) : bool :=
  match k with
  | Pawn | Lance => ranks_ahead c t <? 1
  | Knight => ranks_ahead c t <? 2
  | _ => false
  end.

Lemma capture_check g : (exists r, takes_king g r) <-> in_check (g_board g) (flip (g_side g)).
Proof.
  split.
  - intros [[f t pr|t x] H]; [|destruct H]. destruct H as [[k [A [_ [R _]]]] K].
    exists t. split; [exact K|]. exists f, k. rewrite flip2. split; assumption.
  - intros [t [K [s [k [A R]]]]]. rewrite flip2 in A, R.
    exists (Normal s t (must_promote (g_side g) k t)). split; [|exact K].
    exists k. split; [exact A|]. split.
    { intros k' E. rewrite E in K. injection K as _ E'. destruct (g_side g); discriminate. }
    split; [exact R|].
    unfold must_promote, promotion_zone, dead_square.
    destruct k; cbn [promote_kind]; try tauto;
      match goal with |- context [?a <? ?b] => destruct (Z.ltb_spec a b) as [L|L] end; try lia;
      (split; [discriminate|right; unfold ranks_ahead in L; destruct (g_side g); lia]).
Qed.

Lemma side_play g m : g_side (play g m) = flip (g_side g).
Proof. destruct m; reflexivity. Qed.

Lemma loses_king_iff g m : loses_king g m <-> in_check (g_board (play g m)) (g_side g).
Proof. unfold loses_king. rewrite capture_check, side_play, flip2. reflexivity. Qed.

Lemma pass_check g : (exists r, takes_king (pass g) r) <-> in_check (g_board g) (g_side g).
Proof. rewrite capture_check. cbn [pass g_board g_side]. rewrite flip2. reflexivity. Qed.

Lemma king_lost_iff g : king_lost g <-> checkmated g.
Proof.
  unfold king_lost, checkmated. rewrite pass_check.
  split; intros [C H]; (split; [exact C|]); intros m P; apply loses_king_iff, H, P.
Qed.

Theorem legal_by_capture_iff g m : legal_by_capture g m <-> legal g m.
Proof. unfold legal_by_capture, legal. rewrite loses_king_iff, king_lost_iff. reflexivity. Qed.
