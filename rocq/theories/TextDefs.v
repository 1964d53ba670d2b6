(** * The text of the crate as a program of [RustSem.v]

    [source] is the program that the parser of [RustSyntax.v] reads from the text
    of src/position.rs, src/movegen.rs, src/tables.rs, src/zobrist.rs and of the
    function perft of examples/perft.rs.  The
    values of the model are encoded as values of the machine. *)

From Coq Require Import List Bool NArith ZArith String.
From Verif Require Import Types Bitboard Tables Zobrist Position Movegen RustSyntax RustNames SourceText RustSem.
Import ListNotations.
Open Scope string_scope.

Definition join_prog (a b : gprog string) : gprog string :=
  mkProg (pr_fns a ++ pr_fns b) (pr_consts a ++ pr_consts b) (pr_structs a ++ pr_structs b).
Definition parse_all (l : list string) : option (gprog string) :=
  fold_right (fun s p => let* p := p in let* q := parse s in Some (join_prog q p))
             (Some (mkProg [] [] [])) l.

Definition source_text : list string := [position_rs; movegen_rs; tables_rs; zobrist_rs; perft_rs].
Definition get_prog (x : option (gprog string)) : gprog N :=
  match x with Some p => ren_prog intern p | None => mkProg [] [] [] end.
Definition source : gprog N := Eval vm_compute in get_prog (parse_all source_text).
(* [source] is the program that the texts contain *)
Lemma source_ok : parse_all source_text = Some (ren_prog name_of source).
Proof. vm_compute. reflexivity. Qed.

Section Enc.
Context (o : bbops) (z : ztable).
Notation V := (val o).

Definition vbb (b : bb o) : V := VBB o b.
Definition vkey (k : key) : V := VStruct o id_Key [(id_0, VInt o U64 (Z.of_N k))].
Definition vpiece_opt (x : option piece) : V := vopt o (VPiece o) x.
Definition by_color (f : color -> V) : V := VArr o (map f all_colors).
Definition by_kind (f : kind -> V) : V := VArr o (map f all_kinds).
Definition by_square (f : square -> V) : V := VArr o (map f all_squares).

(** ** The values of the structs of position.rs *)

Definition vinner (p : inner o) : V :=
  VStruct o id_PartialPosition
    [(id_side, VColor o (i_side o p));
     (id_ply, VInt o U16 (Z.of_N (i_ply o p)));
     (id_hands, by_color (fun c => VHand o (c_get (i_hands o p) c)));
     (id_board, by_square (fun s => vpiece_opt (sa_get (i_board o p) s)));
     (id_player_bb, by_color (fun c => vbb (c_get (i_player_bb o p) c)));
     (id_piece_bb, by_kind (fun k => vbb (k_get (i_piece_bb o p) k)))].
Definition vinfo (a : attack_info o) : V :=
  VStruct o id_AttackInfo
    [(id_checkers, vbb (ai_checkers o a));
     (id_checkables, by_kind (fun k => vbb (k_get (ai_checkables o a) k)));
     (id_pinned, by_color (fun c => vbb (c_get (ai_pinned o a) c)))].
Definition vstate (s : state o) : V :=
  VStruct o id_State
    [(id_keys, VTup o [vkey (fst (s_keys o s)); vkey (snd (s_keys o s))]);
     (id_captured, vpiece_opt (s_captured o s));
     (id_last_moved, vpiece_opt (s_last_moved o s));
     (id_attack_info, vinfo (s_attack_info o s))].
(* the last state of the Vec is the first of the list of the model *)
Definition vp (i : inner o) (l : list (state o)) : V :=
  VStruct o id_Position [(id_inner, vinner i); (id_states, VVec o None (rev (map vstate l)))].
Definition vpos (p : position o) : V := vp (p_inner o p) (p_states o p).
Definition vmoves (l : list move) : V := VVec o (Some 593%N) (map (VMove o) l).

(** ** The statics of tables.rs and zobrist.rs *)

Definition pat_fields (f : square -> color -> bb o) : env o :=
  [(id_0, by_square (fun s => by_color (fun c => vbb (f s c))))].
Definition v_pat f : V := VStruct o id_PieceAttackTable (pat_fields f).
Definition lat_fields : env o := [(id_masks, by_square (fun s => by_color (fun c => vbb (ky_mask o s c))))].
Definition v_lat : V := VStruct o id_LanceAttackTable lat_fields.
Definition v_pair (m : bb o * bb o) : V := VArr o [vbb (fst m); vbb (snd m)].
Definition sat_fields (ds : sdeltas) : env o :=
  [(id_masks, by_square (fun s => VArr o [v_pair (fst (s_masks o ds s)); v_pair (snd (s_masks o ds s))]));
   (id_merged_masks, by_square (fun s => vbb (s_merged o ds s)))].
Definition v_sat ds : V := VStruct o id_SlidingAttackTable (sat_fields ds).
Definition v_attack_table : V :=
  VStruct o id_AttackTable
    [(id_fu, v_pat (fu_attack o)); (id_ky, v_lat); (id_ke, v_pat (ke_attack o));
     (id_gi, v_pat (gi_attack o)); (id_ka, v_sat ka_deltas); (id_hi, v_sat hi_deltas);
     (id_ki, v_pat (ki_attack o)); (id_ou, v_pat (ou_attack o))].
Definition v_between : V := by_square (fun s => by_square (fun t => vbb (BETWEEN_TABLE o s t))).
Definition v_ranks : V := by_square (fun s => by_color (fun c => VInt o Usize (RELATIVE_RANKS s c))).
Definition v_promotable : V := by_square (fun s => by_color (fun c => VBool o (PROMOTABLE s c))).
(* entry 0 is not used *)
Definition v_files : V := VArr o (vbb (bempty o) :: map (fun f => vbb (FILES o f)) all9).
Definition zob_fields : env o :=
  [(id_board, by_square (fun s => by_color (fun c => by_kind (fun k => vkey (z_board_entry z s c k)))));
   (id_hands, by_color (fun c => VArr o (map (fun k => VArr o (map (fun i => vkey (z_hand_entry z c k (N.of_nat i)))
                                                                  (seq 0 18)))
                                            (firstn 8 all_kinds))))].
Definition v_zobrist : V := VStruct o id_ZobristTable zob_fields.
Definition statics (x : N) : option V :=
  match x with
  | id_ATTACK_TABLE => Some v_attack_table
  | id_BETWEEN_TABLE => Some v_between
  | id_RELATIVE_RANKS => Some v_ranks
  | id_PROMOTABLE => Some v_promotable
  | id_FILES => Some v_files
  | id_ZOBRIST_TABLE => Some v_zobrist
  | _ => None
  end.
(* no static is known, only the random generator *)
Definition alone (g : N -> N -> N) (x : N) : option V :=
  match x with id_StdRng => Some (VGen o g) | _ => None end.
End Enc.
