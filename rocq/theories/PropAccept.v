(** * Properties of do_move on arbitrary moves: C50 of properties.jsonl *)

From Coq Require Import String List Bool NArith ZArith Lia.
From Verif Require Import Types Rules Bitboard BackendCore BackendSimd Tables Zobrist Position Movegen
  Api Sfen Squares ValidPlay Reach Decide Lines Twins AnyMove Facts Accept Witness PropPlay.
Import ListNotations.

Local Opaque attack_info_new calculate_checkers.

(** C50: the moves on which do_move panics, exactly, in a reachable position *)
Theorem C50_refused_exactly cf ms p m :
  reachable cf ms p -> standard_material (view cf p) ->
  Yasai.do_move cf p m = None <->
  match m with
  | Normal f t pr =>
      Yasai.piece_at cf p f = None \/
      (exists c, Yasai.piece_at cf p t = Some (mkP King c)) \/
      (pr = true /\ exists x, Yasai.piece_at cf p f = Some x /\ promote_kind (pkind x) = None)
  | Drop t x => hand_n (Yasai.hand cf p (Yasai.side_to_move cf p)) (pkind x) = 0%N
  end \/
  (cf_checks cf = true /\ Yasai.ply cf p = 65535%N).
Proof. exact (do_move_refuses cf ms p m). Qed.
Print Assumptions C50_refused_exactly.

(** the same in every position that accepted moves lead to from anything that
    new accepts, valid or not: one more way to fail, a hand that is full *)
Theorem C50_refused_exactly_any cf pp l p0 p m :
  Yasai.new cf pp = Some p0 -> do_line cf p0 l = Some p ->
  Yasai.do_move cf p m = None <->
  match m with
  | Normal f t pr =>
      Yasai.piece_at cf p f = None \/
      (exists c, Yasai.piece_at cf p t = Some (mkP King c)) \/
      (exists x, Yasai.piece_at cf p t = Some x /\
         hand_n (Yasai.hand cf p (Yasai.side_to_move cf p)) (base_kind (pkind x)) = 18%N) \/
      (pr = true /\ exists x, Yasai.piece_at cf p f = Some x /\ promote_kind (pkind x) = None)
  | Drop t x => hand_n (Yasai.hand cf p (Yasai.side_to_move cf p)) (pkind x) = 0%N
  end \/
  (cf_checks cf = true /\ Yasai.ply cf p = 65535%N).
Proof.
  intros N D. exact (do_move_refuses_any cf p m (do_line_sane cf l p0 p (new_sane cf pp p0 N) D)).
Qed.
Print Assumptions C50_refused_exactly_any.

(** an accepted move, legal or not, in any position whatever, does to the
    board, the hands and the side what the move says *)
Theorem C50_effect_of_any_move cf p q m :
  Yasai.do_move cf p m = Some q ->
  let c := Yasai.side_to_move cf p in
  Yasai.side_to_move cf q = flip c /\
  match m with
  | Normal f t pr =>
      (forall s, Yasai.piece_at cf q s =
         if sq_eqb s t then
           match Yasai.piece_at cf p f with
           | Some x => if pr then option_map (fun k => mkP k (pcolor x)) (promote_kind (pkind x)) else Some x
           | None => None
           end
         else if sq_eqb s f then None else Yasai.piece_at cf p s) /\
      (forall d k, hand_n (Yasai.hand cf q d) k =
         (hand_n (Yasai.hand cf p d) k +
          match Yasai.piece_at cf p t with
          | Some x => if color_eqb d c && kind_eqb k (base_kind (pkind x)) then 1 else 0
          | None => 0
          end)%N)
  | Drop t x =>
      (forall s, Yasai.piece_at cf q s = if sq_eqb s t then Some x else Yasai.piece_at cf p s) /\
      (forall d k, hand_n (Yasai.hand cf p d) k =
         (hand_n (Yasai.hand cf q d) k + if color_eqb d c && kind_eqb k (pkind x) then 1 else 0)%N)
  end.
Proof. exact (do_move_effects cf p q m). Qed.
Print Assumptions C50_effect_of_any_move.

(** and so does any sequence of accepted moves *)
Theorem C50_effect_of_any_line cf l : forall p q,
  do_line cf p l = Some q -> same_game (view cf q) (play_line (view cf p) l).
Proof. exact (do_line_play cf l). Qed.
Print Assumptions C50_effect_of_any_line.

(* an accepted king jump, and a refused promotion of a gold *)
Example C50_example cf : exists p, reachable cf [] p /\
  ~ legal (view cf p) (mv (n5, n9) (n5, n5) false) /\
  Yasai.do_move cf p (mv (n5, n9) (n5, n5) false) <> None /\
  Yasai.do_move cf p (mv (n4, n9) (n4, n8) true) = None.
Proof.
  destruct (demo_new cf startpos startpos_ok) as [p [l [_ [R [G [Y _]]]]]]. exists p.
  split; [assumption|]. 
  assert (B : forall s, Yasai.piece_at cf p s = g_board (game_of startpos) s)
    by (intros s; change (Yasai.piece_at cf p) with (g_board (view cf p)); rewrite G; reflexivity).
  split; [|split].
  - rewrite G. intros L. apply legalb_spec in L. revert L. vm_compute. discriminate.
  - intros D. apply (C50_refused_exactly cf [] p _ R (demo_std cf _ p startpos_ok G)) in D. unfold mv in D. cbn [fst snd] in D.
    destruct D as [[D|[[c D]|[D _]]]|[_ D]].
    + rewrite B in D. vm_compute in D. discriminate.
    + rewrite B in D. vm_compute in D. discriminate.
    + discriminate.
    + rewrite Y in D. vm_compute in D. discriminate.
  - apply (C50_refused_exactly cf [] p _ R (demo_std cf _ p startpos_ok G)). left. right. right. split; [reflexivity|].
    exists (mkP Gold Black). rewrite B. split; vm_compute; reflexivity.
Qed.
