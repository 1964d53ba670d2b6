(** * The accessors of tables.rs and zobrist.rs, run from the text *)

From Coq Require Import List Bool NArith ZArith String Lia.
From Verif Require Import Types Bitboard Tables Zobrist Position Movegen Init Flat RustSyntax RustNames RustSem TextDefs TextRun.
Import ListNotations.

Ltac unf := cbv [v_pat pat_fields v_lat lat_fields v_sat sat_fields v_zobrist zob_fields].

Section Specs.
Context (o : bbops) (z : ztable) (checks : bool).
Notation steps := (steps o checks source (statics o z)).
Notation pan := (pan o).

Lemma sp_pat f s c e k :
  steps (Enter o id_PieceAttackTable id_attack [v_pat o f; VSq o s; VColor o c] e k) (Resume o (VBB o (f s c)) e k).
Proof. unf. into. go. apply steps_refl. Qed.
Lemma sp_ky s c occ e k :
  steps (Enter o id_LanceAttackTable id_attack [v_lat o; VSq o s; VColor o c; VBB o occ] e k)
        (Resume o (VBB o (ky_attack o s c occ)) e k).
Proof. unf. into. destruct c; go; apply steps_refl. Qed.
Lemma sp_ky0 s c e k :
  steps (Enter o id_LanceAttackTable id_pseudo_attack [v_lat o; VSq o s; VColor o c] e k)
        (Resume o (VBB o (ky_mask o s c)) e k).
Proof. unf. into. go; apply steps_refl. Qed.
Lemma sp_sat ds s occ e k :
  steps (Enter o id_SlidingAttackTable id_attack [v_sat o ds; VSq o s; VBB o occ] e k)
        (Resume o (VBB o (s_attack o ds s occ)) e k).
Proof. unf. into. go. apply steps_refl. Qed.
Lemma sp_sat0 ds s e k :
  steps (Enter o id_SlidingAttackTable id_pseudo_attack [v_sat o ds; VSq o s] e k)
        (Resume o (VBB o (s_merged o ds s)) e k).
Proof. unf. into. go. apply steps_refl. Qed.

Lemma sp_attack x s c occ e k :
  steps (Enter o id_AttackTable id_attack [v_attack_table o; VKind o x; VSq o s; VColor o c; VBB o occ] e k)
        (Resume o (VBB o (attack o x s c occ)) e k).
Proof.
  destruct x; repeat first [go1 | eapply steps_trans; [first [apply sp_pat | apply sp_ky | apply sp_ky0 | apply sp_sat | apply sp_sat0]|] | into]; apply steps_refl.
Qed.
Lemma sp_pseudo x s c e k :
  steps (Enter o id_AttackTable id_pseudo_attack [v_attack_table o; VKind o x; VSq o s; VColor o c] e k)
        (Resume o (VBB o (pseudo_attack o x s c)) e k).
Proof.
  destruct x; repeat first [go1 | eapply steps_trans; [first [apply sp_attack | apply sp_pat | apply sp_ky | apply sp_ky0 | apply sp_sat | apply sp_sat0]|] | into]; apply steps_refl.
Qed.

Lemma sp_board s x e k :
  steps (Enter o id_ZobristTable id_board [v_zobrist o z; VSq o s; VPiece o x] e k)
        (Resume o (vkey o (z_board z s x)) e k).
Proof. unf. into. go. apply steps_refl. Qed.
Lemma sp_hand c x n e k :
  steps (Enter o id_ZobristTable id_hand [v_zobrist o z; VColor o c; VKind o x; VInt o U8 (Z.of_N n)] e k)
        (pan (z_hand z c x n) (fun h => Resume o (vkey o h) e k)).
Proof.
  unf. into. go. unfold z_hand, MAX_HAND_NUM. rewrite get_hand.
  destruct (kind_index x <? 8)%N; cbn [andb].
  - eapply steps_some; [reflexivity|]. go. rewrite get_num.
    change (N.of_nat 18) with 18%N. destruct (n <? 18)%N.
    + eapply steps_some; [reflexivity|]. go. cbn [pan]. rewrite N2Nat.id. apply steps_refl.
    + apply steps_none; [reflexivity|]. apply steps_refl.
  - apply steps_none; [reflexivity|]. apply steps_refl.
Qed.

(** ** The operators of Key *)

Lemma lxor_Z a b : Z.lxor (Z.of_N a) (Z.of_N b) = Z.of_N (N.lxor a b).
Proof. destruct a, b; reflexivity. Qed.
Lemma sp_xor a b e k :
  steps (Enter o id_Key id_bitxor [vkey o a; vkey o b] e k) (Resume o (vkey o (N.lxor a b)) e k).
Proof. into. go. rewrite lxor_Z. apply steps_refl. Qed.
Lemma sp_xor_assign a b q e k : fetch o e q = Some (vkey o a) ->
  steps (Enter o id_Key id_bitxor_assign [VRef o q; vkey o b] e k)
        (Resume o (VUnit o) (store o e q (vkey o (N.lxor a b))) k).
Proof. intros H. enter_ref H. go. rewrite lxor_Z. apply steps_refl. Qed.
End Specs.

Ltac tab := eapply steps_trans; [first [apply sp_pat | apply sp_ky | apply sp_sat | apply sp_ky0 | apply sp_sat0 | apply sp_attack | apply sp_pseudo | apply sp_board | apply sp_xor]|].
Ltac got := repeat first [go1 | tab].
