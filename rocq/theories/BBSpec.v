(** * What every bitboard backend guarantees *)

From Coq Require Import List Bool NArith ZArith Lia.
From Verif Require Import Types Bitboard Words Squares.
Import ListNotations.

(* [t] is in [mask] and no member of [mask] that is also in [occ] comes
   before (after) it in index order *)
Definition slid_pos (occ mask : square -> bool) (t : square) : Prop :=
  mask t = true /\
  forall u, mask u = true -> occ u = true -> (sq_index t <= sq_index u)%N.
Definition slid_neg (occ mask : square -> bool) (t : square) : Prop :=
  mask t = true /\
  forall u, mask u = true -> occ u = true -> (sq_index u <= sq_index t)%N.

Definition one_file (m : square -> bool) : Prop :=
  forall u v, m u = true -> m v = true -> sqf u = sqf v.

Record bbspec (o : bbops) : Type := mkSpec {
  (* the values made of the 81 square bits *)
  wf : bb o -> Prop;
  sp_ext : forall a b, wf a -> wf b ->
    (forall s, bcontains o a s = bcontains o b s) -> a = b;
  sp_wf_empty : wf (bempty o);
  sp_empty : forall s, bcontains o (bempty o) s = false;
  sp_wf_single : forall s, wf (bsingle o s);
  sp_single : forall s t, bcontains o (bsingle o s) t = sq_eqb t s;
  sp_wf_and_l : forall a b, wf a -> wf (band o a b);
  sp_wf_and_r : forall a b, wf b -> wf (band o a b);
  sp_and : forall a b s,
    bcontains o (band o a b) s = bcontains o a s && bcontains o b s;
  sp_wf_or : forall a b, wf a -> wf b -> wf (bor o a b);
  sp_or : forall a b s,
    bcontains o (bor o a b) s = bcontains o a s || bcontains o b s;
  sp_wf_xor : forall a b, wf a -> wf b -> wf (bxor o a b);
  sp_xor : forall a b s,
    bcontains o (bxor o a b) s = xorb (bcontains o a s) (bcontains o b s);
  sp_wf_not : forall a, wf (bnot o a);
  sp_not : forall a s, bcontains o (bnot o a) s = negb (bcontains o a s);
  sp_is_empty : forall a, wf a ->
    bis_empty o a = negb (existsb (bcontains o a) all_squares);
  sp_count : forall a, wf a ->
    bcount o a = N.of_nat (length (filter (bcontains o a) all_squares));
  sp_iter : forall a, wf a -> biter o a = filter (bcontains o a) all_squares;
  sp_shl : forall a, wf a ->
    (forall s, bcontains o a s = true -> sqr s <> n9) ->
    wf (bshl o a) /\
    forall t, bcontains o (bshl o a) t =
      match sq_shift t 0 (-1) with Some s => bcontains o a s | None => false end;
  sp_shr : forall a, wf a ->
    (forall s, bcontains o a s = true -> sqr s <> n1) ->
    wf (bshr o a) /\
    forall t, bcontains o (bshr o a) t =
      match sq_shift t 0 1 with Some s => bcontains o a s | None => false end;
  sp_wf_pos_c : forall occ m, wf occ -> wf m -> wf (bslide_pos_c o occ m);
  sp_pos_c : forall occ m t, wf occ -> wf m -> one_file (bcontains o m) ->
    bcontains o (bslide_pos_c o occ m) t = true <->
    slid_pos (bcontains o occ) (bcontains o m) t;
  sp_wf_neg_c : forall occ m, wf occ -> wf m -> wf (bslide_neg_c o occ m);
  sp_neg_c : forall occ m t, wf occ -> wf m -> one_file (bcontains o m) ->
    bcontains o (bslide_neg_c o occ m) t = true <->
    slid_neg (bcontains o occ) (bcontains o m) t;
  sp_wf_pos2 : forall occ ms, wf occ -> wf (fst ms) -> wf (snd ms) ->
    wf (bslide_pos2 o occ ms);
  sp_pos2 : forall occ ms t, wf occ -> wf (fst ms) -> wf (snd ms) ->
    bcontains o (bslide_pos2 o occ ms) t = true <->
    slid_pos (bcontains o occ) (bcontains o (fst ms)) t \/
    slid_pos (bcontains o occ) (bcontains o (snd ms)) t;
  sp_wf_neg2 : forall occ ms, wf occ -> wf (fst ms) -> wf (snd ms) ->
    wf (bslide_neg2 o occ ms);
  sp_neg2 : forall occ ms t, wf occ -> wf (fst ms) -> wf (snd ms) ->
    bcontains o (bslide_neg2 o occ ms) t = true <->
    slid_neg (bcontains o occ) (bcontains o (fst ms)) t \/
    slid_neg (bcontains o occ) (bcontains o (snd ms)) t;
  sp_vacant : forall a, wf a ->
    (forall s t, bcontains o a s = true -> bcontains o a t = true ->
                 sqf s = sqf t -> sqr s = n9 -> s = t) ->
    exists v, bvacant o a = Some v /\ wf v /\
      forall t, bcontains o v t =
        negb (existsb (fun s => bcontains o a s && i9_eqb (sqf s) (sqf t))
                      all_squares)
}.

Lemma sp_wf_and o (S : bbspec o) a b : wf o S a -> wf o S b -> wf o S (band o a b).
Proof. intros H _. apply (sp_wf_and_l o S), H. Qed.
