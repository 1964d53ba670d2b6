(** * Names

    The identifiers and operators of the files, with numbers.  Number
    n stands for the name [name_of n].  The abbreviation [id_x] is the number of
    the name x, and [id_op_...] of an operator. *)

From Coq Require Import List Bool NArith String Ascii Lia.
Import ListNotations.
Open Scope string_scope.

Definition names : list string :=
  [""; "=="; "!="; "<"; "<="; ">"; ">="; "+"; "-"; "&"; "|"; "^"; ".."; "&&"; "||"; "!"; "*"; "&mut";
   "[]"; "()"; "self"; "0"; "1"; "empty states"; "c"; "array_index"; "PieceKind"; "sq"; "Delta"; "to";
   "Bitboard"; "from"; "av"; "attack"; "Square"; "Color"; "inner"; "ATTACK_TABLE"; "Move"; "pk";
   "piece_kind_bitboard"; "NUM"; "target"; "pos"; "Key"; "occ"; "piece_bb"; "promote"; "new";
   "Normal"; "piece"; "Self"; "empty"; "push"; "file"; "PieceAttackTable"; "all"; "Some"; "false";
   "keys"; "hand"; "side_to_move"; "rank"; "Piece"; "board"; "flip"; "single"; "opp"; "Ordering"; "p";
   "checkers"; "player_bitboard"; "occupied_bitboard"; "ArrayVec"; "unwrap"; "hi"; "ki";
   "MAX_LEGAL_MOVES"; "masks"; "ka"; "delta"; "Lazy"; "hands"; "state"; "piece_at"; "m"; "last_moved";
   "pinned"; "player_bb"; "Hand"; "PartialPosition"; "captured"; "piece_kind"; "true";
   "king_position"; "ProRook"; "gi"; "PROMOTABLE"; "ZOBRIST_TABLE"; "i"; "Option"; "pseudo_attack";
   "ProBishop"; "king"; "ou"; "target_move"; "N"; "S"; "BETWEEN_TABLE"; "side"; "contains";
   "xor_piece"; "shogi_core"; "Lance"; "Bishop"; "Rook"; "ky"; "ke"; "RELATIVE_RANKS"; "ch"; "NE";
   "SE"; "SW"; "NW"; "AttackInfo"; "ply"; "color"; "bool"; "piece_at_mut"; "fu"; "usize"; "E"; "W";
   "ZobristTable"; "Position"; "num"; "attack_info"; "is_empty"; "pk_unpromoted"; "Pawn"; "Knight";
   "from_is_opponent_field"; "i8"; "table"; "SlidingAttackTable"; "bbs"; "sq1"; "as"; "Less";
   "Greater"; "Output"; "rhs"; "states"; "State"; "ZERO"; "count"; "None"; "u64"; "checkable";
   "hand_of_a_player_mut"; "King"; "pp"; "Silver"; "Gold"; "ProPawn"; "ProLance"; "ProKnight";
   "ProSilver"; "merged_masks"; "sq0"; "df"; "dr"; "ops"; "value"; "Drop"; "hand_of_a_player";
   "target_piece"; "COLOR"; "checkables"; "checkers_attacks"; "target_drop"; "attackers_to"; "deltas";
   "sliding_attack"; "LanceAttackTable"; "AttackTable"; "Equal"; "MAX_HAND_NUM"; "bitboard";
   "all_hand_pieces"; "calculate_checkers"; "unwrap_or"; "is_check"; "_"; "p_cap"; "piece_bitboard";
   "into_iter"; "next"; "blockers"; "FILES"; "generate_for_fu"; "generate_for_ky"; "generate_for_ke";
   "generate_for_gi"; "generate_for_ka"; "generate_for_hi"; "generate_for_ki"; "generate_for_um";
   "generate_for_ry"; "generate_drop"; "checkers_count"; "shift"; "bb"; "curr"; "mask"; "merged_mask";
   "j"; "ranks"; "rand"; "rng"; "tables"; "partial"; "u16"; "in_check"; "is_check_move"; "unpromote";
   "added"; "removed"; "to_parts"; "default"; "snipers"; "sniper"; "Occupied"; "generate_evasions";
   "generate_all"; "is_legal"; "generate_for_ou"; "to_bb"; "is_pawn_drop_mate"; "capture_candidates";
   "attackers_to_except_klp"; "escape"; "occupied"; "NNE"; "NNW"; "SSE"; "SSW"; "BFU_DELTAS";
   "WFU_DELTAS"; "BKE_DELTAS"; "WKE_DELTAS"; "BGI_DELTAS"; "WGI_DELTAS"; "BKI_DELTAS"; "WKI_DELTAS";
   "BOU_DELTAS"; "WOU_DELTAS"; "Black"; "White"; "ds"; "iter"; "enumerate"; "d"; "abs"; "StdRng";
   "gen"; "zobrist"; "Vec"; "vec"; "key"; "do_move"; "undo_move"; "pop"; "last"; "expect"; "startpos";
   "From"; "arrayvec"; "legal_moves"; "len"; "swap_remove"; "B_P"; "shr"; "W_P"; "shl";
   "from_u8_unchecked"; "index"; "wrapping_add"; "filter"; "unwrap_or_default"; "vacant_files"; "B_K";
   "W_K"; "sliding_negative_consecutive"; "sliding_positive_consecutive"; "sliding_negatives";
   "sliding_positives"; "unreachable"; "relative_rank"; "rngs"; "Rng"; "SeedableRng"; "Not"; "not";
   "BitAnd"; "bitand"; "BitXor"; "bitxor"; "BitXorAssign"; "bitxor_assign"; "u8"; "seed_from_u64";
   "2"; "3"; "4"; "5"; "6"; "7"; "8"; "9"; "cmp"; "bitor"; "bitand_assign"; "bitor_assign"; "<<";
   ">>"; "x86_64"; "aarch64"; "wasm32"; "values"; "SquareIterator"; "square"; "n"; "sliding_negative";
   "and"; "xor"; "sliding_positive"; "MASKED_VALUES"; "add"; "pop_lsb"; "Item"; "trailing_zeros";
   "as_ptr"; "define_bit_trait_unsafe"; "leading_zeros"; "func"; "tz"; "lz"; "BitAndAssign"; "BitOr";
   "BitOrAssign"; "count_ones"; "_mm_srli_epi64"; "_mm_or_si128"; "self256"; "mask256"; "masked";
   "ret"; "sub"; "other"; "IntoIter"; "u"; "vld1q_u64"; "vandq_u64"; "vshrq_n_u64"; "u64x2";
   "v128_and"; "e"; "_mm_and_si128"; "eq"; "x0003_ffff"; "x7fff_ffff_ffff_ffff"; "v128";
   "define_bit_trait"; "VACANT_MASK_VALUE"; "from_u128_unchecked"; "to_u128"; "MaybeUninit";
   "SINGLE_VALUES"; "_mm_set_epi64x"; "_mm_xor_si128"; "_mm256_or_si256"; "_mm256_srli_epi16";
   "vbicq_u64"; "vorrq_u64"; "MASKED_BBS"; "arch"; "_mm_test_all_zeros"; "_mm_andnot_si128";
   "_mm256_and_si256"; "mv"; "e0"; "e1"; "x0002_0100"; "x4020_1008_0402_0100"; "PartialEq";
   "wrapping_sub"; "Iterator"; "IntoIterator"; "veorq_u64"; "ONES"; "v128_andnot"; "v128_xor";
   "unused_macros"; "VACANT_MASK"; "BB_1A"; "BB_9I"; "shift_up"; "mem"; "x0000_0000_0000_00ff";
   "x0000_0000_0000_ffff"; "x0000_0000_00ff_ffff"; "x0000_0000_ffff_ffff"; "x0000_00ff_ffff_ffff";
   "x0000_ffff_ffff_ffff"; "x00ff_ffff_ffff_ffff"; "uninit"; "assume_init";
   "_mm256_broadcastsi128_si256"; "_mm256_set_m128i"; "_mm256_cmpeq_epi64"; "_mm256_xor_si256"; "dec";
   "_mm256_castsi256_si128"; "_mm256_extracti128_si256"; "xffff"; "_mm_sub_epi64"; "_u128"; "vqmovn";
   "result"; "x0002_0000"; "vsubq_u64"; "SINGLES"; "v128_any_true"; "u64x2_extract_lane"; "u64x2_shr";
   "u64x2_eq"; "u64x2_sub"; "u128"; "x0002_0100_4020_1008_0402_0100"; "SQ_1A"; "SQ_9I";
   "x0003_ffff_7fff_ffff_ffff_ffff"; "shift_down"; "__m128i"; "_mm_setzero_si128"; "_mm_storeu_si128";
   "_mm_slli_epi64"; "_mm_cmpeq_epi64"; "_mm_add_epi64"; "_mm256_add_epi64"; "_mm256_slli_si256";
   "_mm256_sub_epi64"; "_mm256_cmpeq_epi8"; "_mm256_setzero_si256"; "_mm256_movemask_epi8"; "u32";
   "xffff_ffff"; "x0001_0000"; "x0001"; "_mm256_set_epi64x"; "_mm256_andnot_si256"; "uint64x2_t";
   "vdupq_n_u64"; "vqmovn_u64"; "vreinterpret_u64_u32"; "vget_lane_u64"; "vst1q_u64"; "vshlq_n_u64";
   "vceqq_u64"; "vaddq_u64"; "u64x2_shl"; "u64x2_add"; "v128_or"; "u64x2_all_true"; "raw";
   "to_usi_owned"; "println"; "perft"; "depth"; "is_root"; "{}: {count}"].

Definition name_of (n : N) : string := nth (N.to_nat n) names "?".

(* the number of a name; 1000 if it has none *)
Fixpoint position_of (s : string) (l : list string) (i : N) : N :=
  match l with
  | [] => 1000
  | x :: l => if String.eqb s x then i else position_of s l (N.succ i)
  end.
Definition intern (s : string) : N := position_of s names 0.

(** Different numbers stand for different names. *)
Lemma names_distinct : NoDup names.
Proof.
  assert (H : (fix go (l : list string) : bool :=
                 match l with [] => true | x :: l => negb (existsb (String.eqb x) l) && go l end) names = true)
    by (vm_compute; reflexivity).
  revert H. generalize names. induction l as [|x l IH]; intros H; constructor.
  - apply andb_prop in H. destruct H as [H _]. intros I. apply negb_true_iff in H.
    assert (E : existsb (String.eqb x) l = true) by (apply existsb_exists; exists x; split; [exact I|apply String.eqb_refl]).
    congruence.
  - apply andb_prop in H. exact (IH (proj2 H)).
Qed.

Notation id_ := 0%N (only parsing).
Notation id_op_eq := 1%N (only parsing).
Notation id_op_ne := 2%N (only parsing).
Notation id_op_lt := 3%N (only parsing).
Notation id_op_le := 4%N (only parsing).
Notation id_op_gt := 5%N (only parsing).
Notation id_op_ge := 6%N (only parsing).
Notation id_op_add := 7%N (only parsing).
Notation id_op_sub := 8%N (only parsing).
Notation id_op_amp := 9%N (only parsing).
Notation id_op_bar := 10%N (only parsing).
Notation id_op_caret := 11%N (only parsing).
Notation id_op_dots := 12%N (only parsing).
Notation id_op_andand := 13%N (only parsing).
Notation id_op_oror := 14%N (only parsing).
Notation id_op_bang := 15%N (only parsing).
Notation id_op_star := 16%N (only parsing).
Notation id_op_ampmut := 17%N (only parsing).
Notation id_op_array := 18%N (only parsing).
Notation id_op_unit := 19%N (only parsing).
Notation id_self := 20%N (only parsing).
Notation id_0 := 21%N (only parsing).
Notation id_1 := 22%N (only parsing).
Notation id_c := 24%N (only parsing).
Notation id_array_index := 25%N (only parsing).
Notation id_PieceKind := 26%N (only parsing).
Notation id_sq := 27%N (only parsing).
Notation id_Delta := 28%N (only parsing).
Notation id_to := 29%N (only parsing).
Notation id_Bitboard := 30%N (only parsing).
Notation id_from := 31%N (only parsing).
Notation id_av := 32%N (only parsing).
Notation id_attack := 33%N (only parsing).
Notation id_Square := 34%N (only parsing).
Notation id_Color := 35%N (only parsing).
Notation id_inner := 36%N (only parsing).
Notation id_ATTACK_TABLE := 37%N (only parsing).
Notation id_Move := 38%N (only parsing).
Notation id_pk := 39%N (only parsing).
Notation id_piece_kind_bitboard := 40%N (only parsing).
Notation id_NUM := 41%N (only parsing).
Notation id_target := 42%N (only parsing).
Notation id_pos := 43%N (only parsing).
Notation id_Key := 44%N (only parsing).
Notation id_occ := 45%N (only parsing).
Notation id_piece_bb := 46%N (only parsing).
Notation id_promote := 47%N (only parsing).
Notation id_new := 48%N (only parsing).
Notation id_Normal := 49%N (only parsing).
Notation id_piece := 50%N (only parsing).
Notation id_Self := 51%N (only parsing).
Notation id_empty := 52%N (only parsing).
Notation id_push := 53%N (only parsing).
Notation id_file := 54%N (only parsing).
Notation id_PieceAttackTable := 55%N (only parsing).
Notation id_all := 56%N (only parsing).
Notation id_Some := 57%N (only parsing).
Notation id_false := 58%N (only parsing).
Notation id_keys := 59%N (only parsing).
Notation id_hand := 60%N (only parsing).
Notation id_side_to_move := 61%N (only parsing).
Notation id_rank := 62%N (only parsing).
Notation id_Piece := 63%N (only parsing).
Notation id_board := 64%N (only parsing).
Notation id_flip := 65%N (only parsing).
Notation id_single := 66%N (only parsing).
Notation id_opp := 67%N (only parsing).
Notation id_Ordering := 68%N (only parsing).
Notation id_p := 69%N (only parsing).
Notation id_checkers := 70%N (only parsing).
Notation id_player_bitboard := 71%N (only parsing).
Notation id_occupied_bitboard := 72%N (only parsing).
Notation id_ArrayVec := 73%N (only parsing).
Notation id_unwrap := 74%N (only parsing).
Notation id_hi := 75%N (only parsing).
Notation id_ki := 76%N (only parsing).
Notation id_MAX_LEGAL_MOVES := 77%N (only parsing).
Notation id_masks := 78%N (only parsing).
Notation id_ka := 79%N (only parsing).
Notation id_delta := 80%N (only parsing).
Notation id_Lazy := 81%N (only parsing).
Notation id_hands := 82%N (only parsing).
Notation id_state := 83%N (only parsing).
Notation id_piece_at := 84%N (only parsing).
Notation id_m := 85%N (only parsing).
Notation id_last_moved := 86%N (only parsing).
Notation id_pinned := 87%N (only parsing).
Notation id_player_bb := 88%N (only parsing).
Notation id_Hand := 89%N (only parsing).
Notation id_PartialPosition := 90%N (only parsing).
Notation id_captured := 91%N (only parsing).
Notation id_piece_kind := 92%N (only parsing).
Notation id_true := 93%N (only parsing).
Notation id_king_position := 94%N (only parsing).
Notation id_ProRook := 95%N (only parsing).
Notation id_gi := 96%N (only parsing).
Notation id_PROMOTABLE := 97%N (only parsing).
Notation id_ZOBRIST_TABLE := 98%N (only parsing).
Notation id_i := 99%N (only parsing).
Notation id_Option := 100%N (only parsing).
Notation id_pseudo_attack := 101%N (only parsing).
Notation id_ProBishop := 102%N (only parsing).
Notation id_king := 103%N (only parsing).
Notation id_ou := 104%N (only parsing).
Notation id_target_move := 105%N (only parsing).
Notation id_N := 106%N (only parsing).
Notation id_S := 107%N (only parsing).
Notation id_BETWEEN_TABLE := 108%N (only parsing).
Notation id_side := 109%N (only parsing).
Notation id_contains := 110%N (only parsing).
Notation id_xor_piece := 111%N (only parsing).
Notation id_shogi_core := 112%N (only parsing).
Notation id_Lance := 113%N (only parsing).
Notation id_Bishop := 114%N (only parsing).
Notation id_Rook := 115%N (only parsing).
Notation id_ky := 116%N (only parsing).
Notation id_ke := 117%N (only parsing).
Notation id_RELATIVE_RANKS := 118%N (only parsing).
Notation id_ch := 119%N (only parsing).
Notation id_NE := 120%N (only parsing).
Notation id_SE := 121%N (only parsing).
Notation id_SW := 122%N (only parsing).
Notation id_NW := 123%N (only parsing).
Notation id_AttackInfo := 124%N (only parsing).
Notation id_ply := 125%N (only parsing).
Notation id_color := 126%N (only parsing).
Notation id_bool := 127%N (only parsing).
Notation id_piece_at_mut := 128%N (only parsing).
Notation id_fu := 129%N (only parsing).
Notation id_usize := 130%N (only parsing).
Notation id_E := 131%N (only parsing).
Notation id_W := 132%N (only parsing).
Notation id_ZobristTable := 133%N (only parsing).
Notation id_Position := 134%N (only parsing).
Notation id_num := 135%N (only parsing).
Notation id_attack_info := 136%N (only parsing).
Notation id_is_empty := 137%N (only parsing).
Notation id_pk_unpromoted := 138%N (only parsing).
Notation id_Pawn := 139%N (only parsing).
Notation id_Knight := 140%N (only parsing).
Notation id_from_is_opponent_field := 141%N (only parsing).
Notation id_i8 := 142%N (only parsing).
Notation id_table := 143%N (only parsing).
Notation id_SlidingAttackTable := 144%N (only parsing).
Notation id_bbs := 145%N (only parsing).
Notation id_sq1 := 146%N (only parsing).
Notation id_as := 147%N (only parsing).
Notation id_Less := 148%N (only parsing).
Notation id_Greater := 149%N (only parsing).
Notation id_Output := 150%N (only parsing).
Notation id_rhs := 151%N (only parsing).
Notation id_states := 152%N (only parsing).
Notation id_State := 153%N (only parsing).
Notation id_ZERO := 154%N (only parsing).
Notation id_count := 155%N (only parsing).
Notation id_None := 156%N (only parsing).
Notation id_u64 := 157%N (only parsing).
Notation id_checkable := 158%N (only parsing).
Notation id_hand_of_a_player_mut := 159%N (only parsing).
Notation id_King := 160%N (only parsing).
Notation id_pp := 161%N (only parsing).
Notation id_Silver := 162%N (only parsing).
Notation id_Gold := 163%N (only parsing).
Notation id_ProPawn := 164%N (only parsing).
Notation id_ProLance := 165%N (only parsing).
Notation id_ProKnight := 166%N (only parsing).
Notation id_ProSilver := 167%N (only parsing).
Notation id_merged_masks := 168%N (only parsing).
Notation id_sq0 := 169%N (only parsing).
Notation id_df := 170%N (only parsing).
Notation id_dr := 171%N (only parsing).
Notation id_ops := 172%N (only parsing).
Notation id_value := 173%N (only parsing).
Notation id_Drop := 174%N (only parsing).
Notation id_hand_of_a_player := 175%N (only parsing).
Notation id_target_piece := 176%N (only parsing).
Notation id_COLOR := 177%N (only parsing).
Notation id_checkables := 178%N (only parsing).
Notation id_checkers_attacks := 179%N (only parsing).
Notation id_target_drop := 180%N (only parsing).
Notation id_attackers_to := 181%N (only parsing).
Notation id_deltas := 182%N (only parsing).
Notation id_sliding_attack := 183%N (only parsing).
Notation id_LanceAttackTable := 184%N (only parsing).
Notation id_AttackTable := 185%N (only parsing).
Notation id_Equal := 186%N (only parsing).
Notation id_MAX_HAND_NUM := 187%N (only parsing).
Notation id_bitboard := 188%N (only parsing).
Notation id_all_hand_pieces := 189%N (only parsing).
Notation id_calculate_checkers := 190%N (only parsing).
Notation id_unwrap_or := 191%N (only parsing).
Notation id_is_check := 192%N (only parsing).
Notation id__ := 193%N (only parsing).
Notation id_p_cap := 194%N (only parsing).
Notation id_piece_bitboard := 195%N (only parsing).
Notation id_into_iter := 196%N (only parsing).
Notation id_next := 197%N (only parsing).
Notation id_blockers := 198%N (only parsing).
Notation id_FILES := 199%N (only parsing).
Notation id_generate_for_fu := 200%N (only parsing).
Notation id_generate_for_ky := 201%N (only parsing).
Notation id_generate_for_ke := 202%N (only parsing).
Notation id_generate_for_gi := 203%N (only parsing).
Notation id_generate_for_ka := 204%N (only parsing).
Notation id_generate_for_hi := 205%N (only parsing).
Notation id_generate_for_ki := 206%N (only parsing).
Notation id_generate_for_um := 207%N (only parsing).
Notation id_generate_for_ry := 208%N (only parsing).
Notation id_generate_drop := 209%N (only parsing).
Notation id_checkers_count := 210%N (only parsing).
Notation id_shift := 211%N (only parsing).
Notation id_bb := 212%N (only parsing).
Notation id_curr := 213%N (only parsing).
Notation id_mask := 214%N (only parsing).
Notation id_merged_mask := 215%N (only parsing).
Notation id_j := 216%N (only parsing).
Notation id_ranks := 217%N (only parsing).
Notation id_rand := 218%N (only parsing).
Notation id_rng := 219%N (only parsing).
Notation id_tables := 220%N (only parsing).
Notation id_partial := 221%N (only parsing).
Notation id_u16 := 222%N (only parsing).
Notation id_in_check := 223%N (only parsing).
Notation id_is_check_move := 224%N (only parsing).
Notation id_unpromote := 225%N (only parsing).
Notation id_added := 226%N (only parsing).
Notation id_removed := 227%N (only parsing).
Notation id_to_parts := 228%N (only parsing).
Notation id_default := 229%N (only parsing).
Notation id_snipers := 230%N (only parsing).
Notation id_sniper := 231%N (only parsing).
Notation id_Occupied := 232%N (only parsing).
Notation id_generate_evasions := 233%N (only parsing).
Notation id_generate_all := 234%N (only parsing).
Notation id_is_legal := 235%N (only parsing).
Notation id_generate_for_ou := 236%N (only parsing).
Notation id_to_bb := 237%N (only parsing).
Notation id_is_pawn_drop_mate := 238%N (only parsing).
Notation id_capture_candidates := 239%N (only parsing).
Notation id_attackers_to_except_klp := 240%N (only parsing).
Notation id_escape := 241%N (only parsing).
Notation id_occupied := 242%N (only parsing).
Notation id_NNE := 243%N (only parsing).
Notation id_NNW := 244%N (only parsing).
Notation id_SSE := 245%N (only parsing).
Notation id_SSW := 246%N (only parsing).
Notation id_BFU_DELTAS := 247%N (only parsing).
Notation id_WFU_DELTAS := 248%N (only parsing).
Notation id_BKE_DELTAS := 249%N (only parsing).
Notation id_WKE_DELTAS := 250%N (only parsing).
Notation id_BGI_DELTAS := 251%N (only parsing).
Notation id_WGI_DELTAS := 252%N (only parsing).
Notation id_BKI_DELTAS := 253%N (only parsing).
Notation id_WKI_DELTAS := 254%N (only parsing).
Notation id_BOU_DELTAS := 255%N (only parsing).
Notation id_WOU_DELTAS := 256%N (only parsing).
Notation id_Black := 257%N (only parsing).
Notation id_White := 258%N (only parsing).
Notation id_ds := 259%N (only parsing).
Notation id_iter := 260%N (only parsing).
Notation id_enumerate := 261%N (only parsing).
Notation id_d := 262%N (only parsing).
Notation id_abs := 263%N (only parsing).
Notation id_StdRng := 264%N (only parsing).
Notation id_gen := 265%N (only parsing).
Notation id_zobrist := 266%N (only parsing).
Notation id_Vec := 267%N (only parsing).
Notation id_vec := 268%N (only parsing).
Notation id_key := 269%N (only parsing).
Notation id_do_move := 270%N (only parsing).
Notation id_undo_move := 271%N (only parsing).
Notation id_pop := 272%N (only parsing).
Notation id_last := 273%N (only parsing).
Notation id_expect := 274%N (only parsing).
Notation id_startpos := 275%N (only parsing).
Notation id_From := 276%N (only parsing).
Notation id_arrayvec := 277%N (only parsing).
Notation id_legal_moves := 278%N (only parsing).
Notation id_len := 279%N (only parsing).
Notation id_swap_remove := 280%N (only parsing).
Notation id_B_P := 281%N (only parsing).
Notation id_shr := 282%N (only parsing).
Notation id_W_P := 283%N (only parsing).
Notation id_shl := 284%N (only parsing).
Notation id_from_u8_unchecked := 285%N (only parsing).
Notation id_index := 286%N (only parsing).
Notation id_wrapping_add := 287%N (only parsing).
Notation id_filter := 288%N (only parsing).
Notation id_unwrap_or_default := 289%N (only parsing).
Notation id_vacant_files := 290%N (only parsing).
Notation id_B_K := 291%N (only parsing).
Notation id_W_K := 292%N (only parsing).
Notation id_sliding_negative_consecutive := 293%N (only parsing).
Notation id_sliding_positive_consecutive := 294%N (only parsing).
Notation id_sliding_negatives := 295%N (only parsing).
Notation id_sliding_positives := 296%N (only parsing).
Notation id_unreachable := 297%N (only parsing).
Notation id_relative_rank := 298%N (only parsing).
Notation id_rngs := 299%N (only parsing).
Notation id_Rng := 300%N (only parsing).
Notation id_SeedableRng := 301%N (only parsing).
Notation id_Not := 302%N (only parsing).
Notation id_not := 303%N (only parsing).
Notation id_BitAnd := 304%N (only parsing).
Notation id_bitand := 305%N (only parsing).
Notation id_BitXor := 306%N (only parsing).
Notation id_bitxor := 307%N (only parsing).
Notation id_BitXorAssign := 308%N (only parsing).
Notation id_bitxor_assign := 309%N (only parsing).
Notation id_u8 := 310%N (only parsing).
Notation id_seed_from_u64 := 311%N (only parsing).
Notation id_2 := 312%N (only parsing).
Notation id_3 := 313%N (only parsing).
Notation id_4 := 314%N (only parsing).
Notation id_5 := 315%N (only parsing).
Notation id_6 := 316%N (only parsing).
Notation id_7 := 317%N (only parsing).
Notation id_8 := 318%N (only parsing).
Notation id_9 := 319%N (only parsing).
Notation id_cmp := 320%N (only parsing).
Notation id_bitor := 321%N (only parsing).
Notation id_bitand_assign := 322%N (only parsing).
Notation id_bitor_assign := 323%N (only parsing).
Notation id_op_shl := 324%N (only parsing).
Notation id_op_shr := 325%N (only parsing).
Notation id_x86_64 := 326%N (only parsing).
Notation id_aarch64 := 327%N (only parsing).
Notation id_wasm32 := 328%N (only parsing).
Notation id_values := 329%N (only parsing).
Notation id_SquareIterator := 330%N (only parsing).
Notation id_square := 331%N (only parsing).
Notation id_n := 332%N (only parsing).
Notation id_sliding_negative := 333%N (only parsing).
Notation id_and := 334%N (only parsing).
Notation id_xor := 335%N (only parsing).
Notation id_sliding_positive := 336%N (only parsing).
Notation id_MASKED_VALUES := 337%N (only parsing).
Notation id_add := 338%N (only parsing).
Notation id_pop_lsb := 339%N (only parsing).
Notation id_Item := 340%N (only parsing).
Notation id_trailing_zeros := 341%N (only parsing).
Notation id_as_ptr := 342%N (only parsing).
Notation id_define_bit_trait_unsafe := 343%N (only parsing).
Notation id_leading_zeros := 344%N (only parsing).
Notation id_func := 345%N (only parsing).
Notation id_tz := 346%N (only parsing).
Notation id_lz := 347%N (only parsing).
Notation id_BitAndAssign := 348%N (only parsing).
Notation id_BitOr := 349%N (only parsing).
Notation id_BitOrAssign := 350%N (only parsing).
Notation id_count_ones := 351%N (only parsing).
Notation id__mm_srli_epi64 := 352%N (only parsing).
Notation id__mm_or_si128 := 353%N (only parsing).
Notation id_self256 := 354%N (only parsing).
Notation id_mask256 := 355%N (only parsing).
Notation id_masked := 356%N (only parsing).
Notation id_ret := 357%N (only parsing).
Notation id_sub := 358%N (only parsing).
Notation id_other := 359%N (only parsing).
Notation id_IntoIter := 360%N (only parsing).
Notation id_u := 361%N (only parsing).
Notation id_vld1q_u64 := 362%N (only parsing).
Notation id_vandq_u64 := 363%N (only parsing).
Notation id_vshrq_n_u64 := 364%N (only parsing).
Notation id_u64x2 := 365%N (only parsing).
Notation id_v128_and := 366%N (only parsing).
Notation id_e := 367%N (only parsing).
Notation id__mm_and_si128 := 368%N (only parsing).
Notation id_eq := 369%N (only parsing).
Notation id_x0003_ffff := 370%N (only parsing).
Notation id_x7fff_ffff_ffff_ffff := 371%N (only parsing).
Notation id_v128 := 372%N (only parsing).
Notation id_define_bit_trait := 373%N (only parsing).
Notation id_VACANT_MASK_VALUE := 374%N (only parsing).
Notation id_from_u128_unchecked := 375%N (only parsing).
Notation id_to_u128 := 376%N (only parsing).
Notation id_MaybeUninit := 377%N (only parsing).
Notation id_SINGLE_VALUES := 378%N (only parsing).
Notation id__mm_set_epi64x := 379%N (only parsing).
Notation id__mm_xor_si128 := 380%N (only parsing).
Notation id__mm256_or_si256 := 381%N (only parsing).
Notation id__mm256_srli_epi16 := 382%N (only parsing).
Notation id_vbicq_u64 := 383%N (only parsing).
Notation id_vorrq_u64 := 384%N (only parsing).
Notation id_MASKED_BBS := 385%N (only parsing).
Notation id_arch := 386%N (only parsing).
Notation id__mm_test_all_zeros := 387%N (only parsing).
Notation id__mm_andnot_si128 := 388%N (only parsing).
Notation id__mm256_and_si256 := 389%N (only parsing).
Notation id_mv := 390%N (only parsing).
Notation id_e0 := 391%N (only parsing).
Notation id_e1 := 392%N (only parsing).
Notation id_x0002_0100 := 393%N (only parsing).
Notation id_x4020_1008_0402_0100 := 394%N (only parsing).
Notation id_PartialEq := 395%N (only parsing).
Notation id_wrapping_sub := 396%N (only parsing).
Notation id_Iterator := 397%N (only parsing).
Notation id_IntoIterator := 398%N (only parsing).
Notation id_veorq_u64 := 399%N (only parsing).
Notation id_ONES := 400%N (only parsing).
Notation id_v128_andnot := 401%N (only parsing).
Notation id_v128_xor := 402%N (only parsing).
Notation id_unused_macros := 403%N (only parsing).
Notation id_VACANT_MASK := 404%N (only parsing).
Notation id_BB_1A := 405%N (only parsing).
Notation id_BB_9I := 406%N (only parsing).
Notation id_shift_up := 407%N (only parsing).
Notation id_mem := 408%N (only parsing).
Notation id_x0000_0000_0000_00ff := 409%N (only parsing).
Notation id_x0000_0000_0000_ffff := 410%N (only parsing).
Notation id_x0000_0000_00ff_ffff := 411%N (only parsing).
Notation id_x0000_0000_ffff_ffff := 412%N (only parsing).
Notation id_x0000_00ff_ffff_ffff := 413%N (only parsing).
Notation id_x0000_ffff_ffff_ffff := 414%N (only parsing).
Notation id_x00ff_ffff_ffff_ffff := 415%N (only parsing).
Notation id_uninit := 416%N (only parsing).
Notation id_assume_init := 417%N (only parsing).
Notation id__mm256_broadcastsi128_si256 := 418%N (only parsing).
Notation id__mm256_set_m128i := 419%N (only parsing).
Notation id__mm256_cmpeq_epi64 := 420%N (only parsing).
Notation id__mm256_xor_si256 := 421%N (only parsing).
Notation id_dec := 422%N (only parsing).
Notation id__mm256_castsi256_si128 := 423%N (only parsing).
Notation id__mm256_extracti128_si256 := 424%N (only parsing).
Notation id_xffff := 425%N (only parsing).
Notation id__mm_sub_epi64 := 426%N (only parsing).
Notation id__u128 := 427%N (only parsing).
Notation id_vqmovn := 428%N (only parsing).
Notation id_result := 429%N (only parsing).
Notation id_x0002_0000 := 430%N (only parsing).
Notation id_vsubq_u64 := 431%N (only parsing).
Notation id_SINGLES := 432%N (only parsing).
Notation id_v128_any_true := 433%N (only parsing).
Notation id_u64x2_extract_lane := 434%N (only parsing).
Notation id_u64x2_shr := 435%N (only parsing).
Notation id_u64x2_eq := 436%N (only parsing).
Notation id_u64x2_sub := 437%N (only parsing).
Notation id_u128 := 438%N (only parsing).
Notation id_x0002_0100_4020_1008_0402_0100 := 439%N (only parsing).
Notation id_SQ_1A := 440%N (only parsing).
Notation id_SQ_9I := 441%N (only parsing).
Notation id_x0003_ffff_7fff_ffff_ffff_ffff := 442%N (only parsing).
Notation id_shift_down := 443%N (only parsing).
Notation id___m128i := 444%N (only parsing).
Notation id__mm_setzero_si128 := 445%N (only parsing).
Notation id__mm_storeu_si128 := 446%N (only parsing).
Notation id__mm_slli_epi64 := 447%N (only parsing).
Notation id__mm_cmpeq_epi64 := 448%N (only parsing).
Notation id__mm_add_epi64 := 449%N (only parsing).
Notation id__mm256_add_epi64 := 450%N (only parsing).
Notation id__mm256_slli_si256 := 451%N (only parsing).
Notation id__mm256_sub_epi64 := 452%N (only parsing).
Notation id__mm256_cmpeq_epi8 := 453%N (only parsing).
Notation id__mm256_setzero_si256 := 454%N (only parsing).
Notation id__mm256_movemask_epi8 := 455%N (only parsing).
Notation id_u32 := 456%N (only parsing).
Notation id_xffff_ffff := 457%N (only parsing).
Notation id_x0001_0000 := 458%N (only parsing).
Notation id_x0001 := 459%N (only parsing).
Notation id__mm256_set_epi64x := 460%N (only parsing).
Notation id__mm256_andnot_si256 := 461%N (only parsing).
Notation id_uint64x2_t := 462%N (only parsing).
Notation id_vdupq_n_u64 := 463%N (only parsing).
Notation id_vqmovn_u64 := 464%N (only parsing).
Notation id_vreinterpret_u64_u32 := 465%N (only parsing).
Notation id_vget_lane_u64 := 466%N (only parsing).
Notation id_vst1q_u64 := 467%N (only parsing).
Notation id_vshlq_n_u64 := 468%N (only parsing).
Notation id_vceqq_u64 := 469%N (only parsing).
Notation id_vaddq_u64 := 470%N (only parsing).
Notation id_u64x2_shl := 471%N (only parsing).
Notation id_u64x2_add := 472%N (only parsing).
Notation id_v128_or := 473%N (only parsing).
Notation id_u64x2_all_true := 474%N (only parsing).
Notation id_raw := 475%N (only parsing).
Notation id_to_usi_owned := 476%N (only parsing).
Notation id_println := 477%N (only parsing).
Notation id_perft := 478%N (only parsing).
Notation id_depth := 479%N (only parsing).
Notation id_is_root := 480%N (only parsing).

Lemma names_ok :
  forallb (fun x => String.eqb (name_of (snd x)) (fst x))
    [("", id_);
     ("==", id_op_eq);
     ("!=", id_op_ne);
     ("<", id_op_lt);
     ("<=", id_op_le);
     (">", id_op_gt);
     (">=", id_op_ge);
     ("+", id_op_add);
     ("-", id_op_sub);
     ("&", id_op_amp);
     ("|", id_op_bar);
     ("^", id_op_caret);
     ("..", id_op_dots);
     ("&&", id_op_andand);
     ("||", id_op_oror);
     ("!", id_op_bang);
     ("*", id_op_star);
     ("&mut", id_op_ampmut);
     ("[]", id_op_array);
     ("()", id_op_unit);
     ("self", id_self);
     ("0", id_0);
     ("1", id_1);
     ("c", id_c);
     ("array_index", id_array_index);
     ("PieceKind", id_PieceKind);
     ("sq", id_sq);
     ("Delta", id_Delta);
     ("to", id_to);
     ("Bitboard", id_Bitboard);
     ("from", id_from);
     ("av", id_av);
     ("attack", id_attack);
     ("Square", id_Square);
     ("Color", id_Color);
     ("inner", id_inner);
     ("ATTACK_TABLE", id_ATTACK_TABLE);
     ("Move", id_Move);
     ("pk", id_pk);
     ("piece_kind_bitboard", id_piece_kind_bitboard);
     ("NUM", id_NUM);
     ("target", id_target);
     ("pos", id_pos);
     ("Key", id_Key);
     ("occ", id_occ);
     ("piece_bb", id_piece_bb);
     ("promote", id_promote);
     ("new", id_new);
     ("Normal", id_Normal);
     ("piece", id_piece);
     ("Self", id_Self);
     ("empty", id_empty);
     ("push", id_push);
     ("file", id_file);
     ("PieceAttackTable", id_PieceAttackTable);
     ("all", id_all);
     ("Some", id_Some);
     ("false", id_false);
     ("keys", id_keys);
     ("hand", id_hand);
     ("side_to_move", id_side_to_move);
     ("rank", id_rank);
     ("Piece", id_Piece);
     ("board", id_board);
     ("flip", id_flip);
     ("single", id_single);
     ("opp", id_opp);
     ("Ordering", id_Ordering);
     ("p", id_p);
     ("checkers", id_checkers);
     ("player_bitboard", id_player_bitboard);
     ("occupied_bitboard", id_occupied_bitboard);
     ("ArrayVec", id_ArrayVec);
     ("unwrap", id_unwrap);
     ("hi", id_hi);
     ("ki", id_ki);
     ("MAX_LEGAL_MOVES", id_MAX_LEGAL_MOVES);
     ("masks", id_masks);
     ("ka", id_ka);
     ("delta", id_delta);
     ("Lazy", id_Lazy);
     ("hands", id_hands);
     ("state", id_state);
     ("piece_at", id_piece_at);
     ("m", id_m);
     ("last_moved", id_last_moved);
     ("pinned", id_pinned);
     ("player_bb", id_player_bb);
     ("Hand", id_Hand);
     ("PartialPosition", id_PartialPosition);
     ("captured", id_captured);
     ("piece_kind", id_piece_kind);
     ("true", id_true);
     ("king_position", id_king_position);
     ("ProRook", id_ProRook);
     ("gi", id_gi);
     ("PROMOTABLE", id_PROMOTABLE);
     ("ZOBRIST_TABLE", id_ZOBRIST_TABLE);
     ("i", id_i);
     ("Option", id_Option);
     ("pseudo_attack", id_pseudo_attack);
     ("ProBishop", id_ProBishop);
     ("king", id_king);
     ("ou", id_ou);
     ("target_move", id_target_move);
     ("N", id_N);
     ("S", id_S);
     ("BETWEEN_TABLE", id_BETWEEN_TABLE);
     ("side", id_side);
     ("contains", id_contains);
     ("xor_piece", id_xor_piece);
     ("shogi_core", id_shogi_core);
     ("Lance", id_Lance);
     ("Bishop", id_Bishop);
     ("Rook", id_Rook);
     ("ky", id_ky);
     ("ke", id_ke);
     ("RELATIVE_RANKS", id_RELATIVE_RANKS);
     ("ch", id_ch);
     ("NE", id_NE);
     ("SE", id_SE);
     ("SW", id_SW);
     ("NW", id_NW);
     ("AttackInfo", id_AttackInfo);
     ("ply", id_ply);
     ("color", id_color);
     ("bool", id_bool);
     ("piece_at_mut", id_piece_at_mut);
     ("fu", id_fu);
     ("usize", id_usize);
     ("E", id_E);
     ("W", id_W);
     ("ZobristTable", id_ZobristTable);
     ("Position", id_Position);
     ("num", id_num);
     ("attack_info", id_attack_info);
     ("is_empty", id_is_empty);
     ("pk_unpromoted", id_pk_unpromoted);
     ("Pawn", id_Pawn);
     ("Knight", id_Knight);
     ("from_is_opponent_field", id_from_is_opponent_field);
     ("i8", id_i8);
     ("table", id_table);
     ("SlidingAttackTable", id_SlidingAttackTable);
     ("bbs", id_bbs);
     ("sq1", id_sq1);
     ("as", id_as);
     ("Less", id_Less);
     ("Greater", id_Greater);
     ("Output", id_Output);
     ("rhs", id_rhs);
     ("states", id_states);
     ("State", id_State);
     ("ZERO", id_ZERO);
     ("count", id_count);
     ("None", id_None);
     ("u64", id_u64);
     ("checkable", id_checkable);
     ("hand_of_a_player_mut", id_hand_of_a_player_mut);
     ("King", id_King);
     ("pp", id_pp);
     ("Silver", id_Silver);
     ("Gold", id_Gold);
     ("ProPawn", id_ProPawn);
     ("ProLance", id_ProLance);
     ("ProKnight", id_ProKnight);
     ("ProSilver", id_ProSilver);
     ("merged_masks", id_merged_masks);
     ("sq0", id_sq0);
     ("df", id_df);
     ("dr", id_dr);
     ("ops", id_ops);
     ("value", id_value);
     ("Drop", id_Drop);
     ("hand_of_a_player", id_hand_of_a_player);
     ("target_piece", id_target_piece);
     ("COLOR", id_COLOR);
     ("checkables", id_checkables);
     ("checkers_attacks", id_checkers_attacks);
     ("target_drop", id_target_drop);
     ("attackers_to", id_attackers_to);
     ("deltas", id_deltas);
     ("sliding_attack", id_sliding_attack);
     ("LanceAttackTable", id_LanceAttackTable);
     ("AttackTable", id_AttackTable);
     ("Equal", id_Equal);
     ("MAX_HAND_NUM", id_MAX_HAND_NUM);
     ("bitboard", id_bitboard);
     ("all_hand_pieces", id_all_hand_pieces);
     ("calculate_checkers", id_calculate_checkers);
     ("unwrap_or", id_unwrap_or);
     ("is_check", id_is_check);
     ("_", id__);
     ("p_cap", id_p_cap);
     ("piece_bitboard", id_piece_bitboard);
     ("into_iter", id_into_iter);
     ("next", id_next);
     ("blockers", id_blockers);
     ("FILES", id_FILES);
     ("generate_for_fu", id_generate_for_fu);
     ("generate_for_ky", id_generate_for_ky);
     ("generate_for_ke", id_generate_for_ke);
     ("generate_for_gi", id_generate_for_gi);
     ("generate_for_ka", id_generate_for_ka);
     ("generate_for_hi", id_generate_for_hi);
     ("generate_for_ki", id_generate_for_ki);
     ("generate_for_um", id_generate_for_um);
     ("generate_for_ry", id_generate_for_ry);
     ("generate_drop", id_generate_drop);
     ("checkers_count", id_checkers_count);
     ("shift", id_shift);
     ("bb", id_bb);
     ("curr", id_curr);
     ("mask", id_mask);
     ("merged_mask", id_merged_mask);
     ("j", id_j);
     ("ranks", id_ranks);
     ("rand", id_rand);
     ("rng", id_rng);
     ("tables", id_tables);
     ("partial", id_partial);
     ("u16", id_u16);
     ("in_check", id_in_check);
     ("is_check_move", id_is_check_move);
     ("unpromote", id_unpromote);
     ("added", id_added);
     ("removed", id_removed);
     ("to_parts", id_to_parts);
     ("default", id_default);
     ("snipers", id_snipers);
     ("sniper", id_sniper);
     ("Occupied", id_Occupied);
     ("generate_evasions", id_generate_evasions);
     ("generate_all", id_generate_all);
     ("is_legal", id_is_legal);
     ("generate_for_ou", id_generate_for_ou);
     ("to_bb", id_to_bb);
     ("is_pawn_drop_mate", id_is_pawn_drop_mate);
     ("capture_candidates", id_capture_candidates);
     ("attackers_to_except_klp", id_attackers_to_except_klp);
     ("escape", id_escape);
     ("occupied", id_occupied);
     ("NNE", id_NNE);
     ("NNW", id_NNW);
     ("SSE", id_SSE);
     ("SSW", id_SSW);
     ("BFU_DELTAS", id_BFU_DELTAS);
     ("WFU_DELTAS", id_WFU_DELTAS);
     ("BKE_DELTAS", id_BKE_DELTAS);
     ("WKE_DELTAS", id_WKE_DELTAS);
     ("BGI_DELTAS", id_BGI_DELTAS);
     ("WGI_DELTAS", id_WGI_DELTAS);
     ("BKI_DELTAS", id_BKI_DELTAS);
     ("WKI_DELTAS", id_WKI_DELTAS);
     ("BOU_DELTAS", id_BOU_DELTAS);
     ("WOU_DELTAS", id_WOU_DELTAS);
     ("Black", id_Black);
     ("White", id_White);
     ("ds", id_ds);
     ("iter", id_iter);
     ("enumerate", id_enumerate);
     ("d", id_d);
     ("abs", id_abs);
     ("StdRng", id_StdRng);
     ("gen", id_gen);
     ("zobrist", id_zobrist);
     ("Vec", id_Vec);
     ("vec", id_vec);
     ("key", id_key);
     ("do_move", id_do_move);
     ("undo_move", id_undo_move);
     ("pop", id_pop);
     ("last", id_last);
     ("expect", id_expect);
     ("startpos", id_startpos);
     ("From", id_From);
     ("arrayvec", id_arrayvec);
     ("legal_moves", id_legal_moves);
     ("len", id_len);
     ("swap_remove", id_swap_remove);
     ("B_P", id_B_P);
     ("shr", id_shr);
     ("W_P", id_W_P);
     ("shl", id_shl);
     ("from_u8_unchecked", id_from_u8_unchecked);
     ("index", id_index);
     ("wrapping_add", id_wrapping_add);
     ("filter", id_filter);
     ("unwrap_or_default", id_unwrap_or_default);
     ("vacant_files", id_vacant_files);
     ("B_K", id_B_K);
     ("W_K", id_W_K);
     ("sliding_negative_consecutive", id_sliding_negative_consecutive);
     ("sliding_positive_consecutive", id_sliding_positive_consecutive);
     ("sliding_negatives", id_sliding_negatives);
     ("sliding_positives", id_sliding_positives);
     ("unreachable", id_unreachable);
     ("relative_rank", id_relative_rank);
     ("rngs", id_rngs);
     ("Rng", id_Rng);
     ("SeedableRng", id_SeedableRng);
     ("Not", id_Not);
     ("not", id_not);
     ("BitAnd", id_BitAnd);
     ("bitand", id_bitand);
     ("BitXor", id_BitXor);
     ("bitxor", id_bitxor);
     ("BitXorAssign", id_BitXorAssign);
     ("bitxor_assign", id_bitxor_assign);
     ("u8", id_u8);
     ("seed_from_u64", id_seed_from_u64);
     ("2", id_2);
     ("3", id_3);
     ("4", id_4);
     ("5", id_5);
     ("6", id_6);
     ("7", id_7);
     ("8", id_8);
     ("9", id_9);
     ("cmp", id_cmp);
     ("bitor", id_bitor);
     ("bitand_assign", id_bitand_assign);
     ("bitor_assign", id_bitor_assign);
     ("<<", id_op_shl);
     (">>", id_op_shr);
     ("x86_64", id_x86_64);
     ("aarch64", id_aarch64);
     ("wasm32", id_wasm32);
     ("values", id_values);
     ("SquareIterator", id_SquareIterator);
     ("square", id_square);
     ("n", id_n);
     ("sliding_negative", id_sliding_negative);
     ("and", id_and);
     ("xor", id_xor);
     ("sliding_positive", id_sliding_positive);
     ("MASKED_VALUES", id_MASKED_VALUES);
     ("add", id_add);
     ("pop_lsb", id_pop_lsb);
     ("Item", id_Item);
     ("trailing_zeros", id_trailing_zeros);
     ("as_ptr", id_as_ptr);
     ("define_bit_trait_unsafe", id_define_bit_trait_unsafe);
     ("leading_zeros", id_leading_zeros);
     ("func", id_func);
     ("tz", id_tz);
     ("lz", id_lz);
     ("BitAndAssign", id_BitAndAssign);
     ("BitOr", id_BitOr);
     ("BitOrAssign", id_BitOrAssign);
     ("count_ones", id_count_ones);
     ("_mm_srli_epi64", id__mm_srli_epi64);
     ("_mm_or_si128", id__mm_or_si128);
     ("self256", id_self256);
     ("mask256", id_mask256);
     ("masked", id_masked);
     ("ret", id_ret);
     ("sub", id_sub);
     ("other", id_other);
     ("IntoIter", id_IntoIter);
     ("u", id_u);
     ("vld1q_u64", id_vld1q_u64);
     ("vandq_u64", id_vandq_u64);
     ("vshrq_n_u64", id_vshrq_n_u64);
     ("u64x2", id_u64x2);
     ("v128_and", id_v128_and);
     ("e", id_e);
     ("_mm_and_si128", id__mm_and_si128);
     ("eq", id_eq);
     ("x0003_ffff", id_x0003_ffff);
     ("x7fff_ffff_ffff_ffff", id_x7fff_ffff_ffff_ffff);
     ("v128", id_v128);
     ("define_bit_trait", id_define_bit_trait);
     ("VACANT_MASK_VALUE", id_VACANT_MASK_VALUE);
     ("from_u128_unchecked", id_from_u128_unchecked);
     ("to_u128", id_to_u128);
     ("MaybeUninit", id_MaybeUninit);
     ("SINGLE_VALUES", id_SINGLE_VALUES);
     ("_mm_set_epi64x", id__mm_set_epi64x);
     ("_mm_xor_si128", id__mm_xor_si128);
     ("_mm256_or_si256", id__mm256_or_si256);
     ("_mm256_srli_epi16", id__mm256_srli_epi16);
     ("vbicq_u64", id_vbicq_u64);
     ("vorrq_u64", id_vorrq_u64);
     ("MASKED_BBS", id_MASKED_BBS);
     ("arch", id_arch);
     ("_mm_test_all_zeros", id__mm_test_all_zeros);
     ("_mm_andnot_si128", id__mm_andnot_si128);
     ("_mm256_and_si256", id__mm256_and_si256);
     ("mv", id_mv);
     ("e0", id_e0);
     ("e1", id_e1);
     ("x0002_0100", id_x0002_0100);
     ("x4020_1008_0402_0100", id_x4020_1008_0402_0100);
     ("PartialEq", id_PartialEq);
     ("wrapping_sub", id_wrapping_sub);
     ("Iterator", id_Iterator);
     ("IntoIterator", id_IntoIterator);
     ("veorq_u64", id_veorq_u64);
     ("ONES", id_ONES);
     ("v128_andnot", id_v128_andnot);
     ("v128_xor", id_v128_xor);
     ("unused_macros", id_unused_macros);
     ("VACANT_MASK", id_VACANT_MASK);
     ("BB_1A", id_BB_1A);
     ("BB_9I", id_BB_9I);
     ("shift_up", id_shift_up);
     ("mem", id_mem);
     ("x0000_0000_0000_00ff", id_x0000_0000_0000_00ff);
     ("x0000_0000_0000_ffff", id_x0000_0000_0000_ffff);
     ("x0000_0000_00ff_ffff", id_x0000_0000_00ff_ffff);
     ("x0000_0000_ffff_ffff", id_x0000_0000_ffff_ffff);
     ("x0000_00ff_ffff_ffff", id_x0000_00ff_ffff_ffff);
     ("x0000_ffff_ffff_ffff", id_x0000_ffff_ffff_ffff);
     ("x00ff_ffff_ffff_ffff", id_x00ff_ffff_ffff_ffff);
     ("uninit", id_uninit);
     ("assume_init", id_assume_init);
     ("_mm256_broadcastsi128_si256", id__mm256_broadcastsi128_si256);
     ("_mm256_set_m128i", id__mm256_set_m128i);
     ("_mm256_cmpeq_epi64", id__mm256_cmpeq_epi64);
     ("_mm256_xor_si256", id__mm256_xor_si256);
     ("dec", id_dec);
     ("_mm256_castsi256_si128", id__mm256_castsi256_si128);
     ("_mm256_extracti128_si256", id__mm256_extracti128_si256);
     ("xffff", id_xffff);
     ("_mm_sub_epi64", id__mm_sub_epi64);
     ("_u128", id__u128);
     ("vqmovn", id_vqmovn);
     ("result", id_result);
     ("x0002_0000", id_x0002_0000);
     ("vsubq_u64", id_vsubq_u64);
     ("SINGLES", id_SINGLES);
     ("v128_any_true", id_v128_any_true);
     ("u64x2_extract_lane", id_u64x2_extract_lane);
     ("u64x2_shr", id_u64x2_shr);
     ("u64x2_eq", id_u64x2_eq);
     ("u64x2_sub", id_u64x2_sub);
     ("u128", id_u128);
     ("x0002_0100_4020_1008_0402_0100", id_x0002_0100_4020_1008_0402_0100);
     ("SQ_1A", id_SQ_1A);
     ("SQ_9I", id_SQ_9I);
     ("x0003_ffff_7fff_ffff_ffff_ffff", id_x0003_ffff_7fff_ffff_ffff_ffff);
     ("shift_down", id_shift_down);
     ("__m128i", id___m128i);
     ("_mm_setzero_si128", id__mm_setzero_si128);
     ("_mm_storeu_si128", id__mm_storeu_si128);
     ("_mm_slli_epi64", id__mm_slli_epi64);
     ("_mm_cmpeq_epi64", id__mm_cmpeq_epi64);
     ("_mm_add_epi64", id__mm_add_epi64);
     ("_mm256_add_epi64", id__mm256_add_epi64);
     ("_mm256_slli_si256", id__mm256_slli_si256);
     ("_mm256_sub_epi64", id__mm256_sub_epi64);
     ("_mm256_cmpeq_epi8", id__mm256_cmpeq_epi8);
     ("_mm256_setzero_si256", id__mm256_setzero_si256);
     ("_mm256_movemask_epi8", id__mm256_movemask_epi8);
     ("u32", id_u32);
     ("xffff_ffff", id_xffff_ffff);
     ("x0001_0000", id_x0001_0000);
     ("x0001", id_x0001);
     ("_mm256_set_epi64x", id__mm256_set_epi64x);
     ("_mm256_andnot_si256", id__mm256_andnot_si256);
     ("uint64x2_t", id_uint64x2_t);
     ("vdupq_n_u64", id_vdupq_n_u64);
     ("vqmovn_u64", id_vqmovn_u64);
     ("vreinterpret_u64_u32", id_vreinterpret_u64_u32);
     ("vget_lane_u64", id_vget_lane_u64);
     ("vst1q_u64", id_vst1q_u64);
     ("vshlq_n_u64", id_vshlq_n_u64);
     ("vceqq_u64", id_vceqq_u64);
     ("vaddq_u64", id_vaddq_u64);
     ("u64x2_shl", id_u64x2_shl);
     ("u64x2_add", id_u64x2_add);
     ("v128_or", id_v128_or);
     ("u64x2_all_true", id_u64x2_all_true);
     ("raw", id_raw);
     ("to_usi_owned", id_to_usi_owned);
     ("println", id_println);
     ("perft", id_perft);
     ("depth", id_depth);
     ("is_root", id_is_root)] = true.
Proof. vm_compute. reflexivity. Qed.
