{
 "claims": [
  {
   "property": "C01",
   "status": "proved",
   "theorems": [
    "C01_legal_moves_sound"
   ],
   "note": "Proved as stated, for every valid starting position (at most one king per side, side not to move not in check, no pawn on its last rank, no doubled pawns, any number of pieces) and every sequence of legal do_move / matching undo_move calls, of any length; for all four bitboard backends; every returned move. Proof: for every reachable position, if `legal_moves` returns `l` then `In m l <-> legal (view p) m`."
  },
  {
   "property": "C02",
   "status": "proved",
   "theorems": [
    "C02_legal_moves_complete"
   ],
   "note": "Proved as stated, for every valid starting position (at most one king per side, side not to move not in check, no pawn on its last rank, no doubled pawns, any number of pieces) and every sequence of legal do_move / matching undo_move calls, of any length; for all four bitboard backends; every legal move. Proof: for every reachable position, if `legal_moves` returns `l` then `In m l <-> legal (view p) m`."
  },
  {
   "property": "C03",
   "status": "proved",
   "theorems": [
    "C03_legal_moves_no_duplicates",
    "C03_length"
   ],
   "note": "Proved as stated, for every valid starting position (at most one king per side, side not to move not in check, no pawn on its last rank, no doubled pawns, any number of pieces) and every sequence of legal do_move / matching undo_move calls, of any length; for all four bitboard backends. Proof: `NoDup l`."
  },
  {
   "property": "C04",
   "status": "proved",
   "theorems": [
    "C04_pawn_drop_mate_exact"
   ],
   "note": "Proved as stated, for every valid starting position (at most one king per side, side not to move not in check, no pawn on its last rank, no doubled pawns, any number of pieces) and every sequence of legal do_move / matching undo_move calls, of any length; for all four bitboard backends; every pawn drop. Proof: drop of a pawn that obeys the other rules is missing iff `checkmated (play g m)`."
  },
  {
   "property": "C05",
   "status": "proved",
   "theorems": [
    "C05_no_doubled_pawns",
    "C05_vacant_files"
   ],
   "note": "Proved as stated, for every valid starting position (at most one king per side, side not to move not in check, no pawn on its last rank, no doubled pawns, any number of pieces) and every sequence of legal do_move / matching undo_move calls, of any length; for all four bitboard backends. Proof: pawn drops in `l` only on files without own unpromoted pawn, and the vacant-file computation equals the exact set, per backend."
  },
  {
   "property": "C06",
   "status": "proved",
   "theorems": [
    "C06_by_hand",
    "C06_promotion_choices"
   ],
   "note": "Proved as stated, for every valid starting position (at most one king per side, side not to move not in check, no pawn on its last rank, no doubled pawns, any number of pieces) and every sequence of legal do_move / matching undo_move calls, of any length; for all four bitboard backends. Proof: promotion flags of listed moves, both directions; `C06_by_hand` (`PropByHand.v`) says it again with the promoting kinds listed and the ranks as numbers, because `promote_kind` is shared by the rules and the model."
  },
  {
   "property": "C07",
   "status": "proved",
   "theorems": [
    "C07_in_check_exact"
   ],
   "note": "Proved as stated, for every valid starting position (at most one king per side, side not to move not in check, no pawn on its last rank, no doubled pawns, any number of pieces) and every sequence of legal do_move / matching undo_move calls, of any length; for all four bitboard backends. Proof: `in_check p = Some true <-> Rules.in_check`."
  },
  {
   "property": "C08",
   "status": "proved",
   "theorems": [
    "C08_is_check_move_predicts"
   ],
   "note": "Proved as stated, for every valid starting position (at most one king per side, side not to move not in check, no pawn on its last rank, no doubled pawns, any number of pieces) and every sequence of legal do_move / matching undo_move calls, of any length; for all four bitboard backends; every legal move. Proof: `is_check_move` before = `in_check` after."
  },
  {
   "property": "C09",
   "status": "proved",
   "theorems": [
    "C09_by_hand",
    "C09_do_move_plays"
   ],
   "note": "Proved as stated, for every valid starting position (at most one king per side, side not to move not in check, no pawn on its last rank, no doubled pawns, any number of pieces) and every sequence of legal do_move / matching undo_move calls, of any length; for all four bitboard backends; every legal move; every square, colour and piece kind. Proof: `view (do_move p m)` = `play (view p) m`; `C09_by_hand` says square by square and hand by hand what changes, with the two sides of the pieces listed, because `unpromote_kind` is shared by the rules and the model."
  },
  {
   "property": "C10",
   "status": "proved",
   "theorems": [
    "C10_undo_inverts_do"
   ],
   "note": "Proved as stated, for every valid starting position (at most one king per side, side not to move not in check, no pawn on its last rank, no doubled pawns, any number of pieces) and every sequence of legal do_move / matching undo_move calls, of any length; for all four bitboard backends; every legal move. Proof: `undo_move (do_move p m) m = Some p` (Leibniz equality of the whole value)."
  },
  {
   "property": "C11",
   "status": "proved",
   "theorems": [
    "C11_lines_unwind"
   ],
   "note": "Proved as stated, for every valid starting position (at most one king per side, side not to move not in check, no pawn on its last rank, no doubled pawns, any number of pieces) and every sequence of legal do_move / matching undo_move calls, of any length; for all four bitboard backends; every sequence of legal moves of any length. Proof: induction over lines."
  },
  {
   "property": "C12",
   "status": "proved",
   "theorems": [
    "C12_history_independent"
   ],
   "note": "Proved as stated, for every valid starting position (at most one king per side, side not to move not in check, no pawn on its last rank, no doubled pawns, any number of pieces) and every sequence of legal do_move / matching undo_move calls, of any length; for all four bitboard backends; pairs of histories. Proof: equal views imply equal lists, check flags, for any two histories, also across starting positions."
  },
  {
   "property": "C13",
   "status": "proved",
   "theorems": [
    "C13_keys_from_scratch",
    "C13_key_from_scratch"
   ],
   "note": "Proved as stated, for every valid starting position (at most one king per side, side not to move not in check, no pawn on its last rank, no doubled pawns, any number of pieces) and every sequence of legal do_move / matching undo_move calls, of any length; for all four bitboard backends; every Zobrist table produced by the generator. Proof: keys = from-scratch hash xor parity of moves."
  },
  {
   "property": "C14",
   "status": "proved",
   "theorems": [
    "C14_transpositions"
   ],
   "note": "Proved as stated, for every valid starting position (at most one king per side, side not to move not in check, no pawn on its last rank, no doubled pawns, any number of pieces) and every sequence of legal do_move / matching undo_move calls, of any length; for all four bitboard backends; every pair of move sequences from one root. Proof: corollary for two lines from one root."
  },
  {
   "property": "C15",
   "status": "partial",
   "theorems": [
    "C15_side_not_in_keys_refuted",
    "C15_parity_in_keys",
    "C15_keys_exactly",
    "C15_new_vs_moves_refuted",
    "C15_side_in_keys_partial"
   ],
   "note": "False of the code: Position::new ignores the side to move, so two positions that differ only in the side have equal keys, and a position built by new need not have the keys of the equal position reached by moves (two _refuted theorems, for every Zobrist table). True part: among positions with the same root the lowest bit of the board key gives the side (C15_parity_in_keys, C15_side_in_keys_partial). C15_keys_exactly gives the exact condition: two positions with equal boards and hands have equal keys exactly when the numbers of moves since their roots have equal parity."
  },
  {
   "property": "C16",
   "status": "proved",
   "theorems": [
    "C16_material_do",
    "C16_material_undo"
   ],
   "note": "Proved as stated, for every valid starting position (at most one king per side, side not to move not in check, no pawn on its last rank, no doubled pawns, any number of pieces) and every sequence of legal do_move / matching undo_move calls, of any length; for all four bitboard backends; every piece kind. Proof: `material` is constant along lines."
  },
  {
   "property": "C17",
   "status": "proved",
   "theorems": [
    "C17_buffer_never_overflows",
    "C17_bound",
    "C17_any_material_refuted"
   ],
   "note": "Totality of legal_moves with an opposing king on the board, from a counting bound of 593 on pseudo-legal moves over all valid positions; the bound is attained (C17_example)."
  },
  {
   "property": "C18",
   "status": "proved",
   "theorems": [
    "C18_legal_moves_total_refuted",
    "C18_panics_exactly",
    "C18_in_check_total",
    "C18_evasions",
    "C18_bound"
   ],
   "note": "C18_panics_exactly is the exact condition, C18_in_check_total and C18_bound its consequences. The unrestricted claim is refuted in every build by C18_legal_moves_total_refuted: 599 moves without an opposing king."
  },
  {
   "property": "C19",
   "status": "proved",
   "theorems": [
    "C19_no_king_capture",
    "C19_kings_stay"
   ],
   "note": "Proved as stated, for every valid starting position (at most one king per side, side not to move not in check, no pawn on its last rank, no doubled pawns, any number of pieces) and every sequence of legal do_move / matching undo_move calls, of any length; for all four bitboard backends. Proof: no listed move captures a king; kings persist along lines."
  },
  {
   "property": "C20",
   "status": "proved",
   "theorems": [
    "C20_valid_preserved",
    "C20_reachable_by_listed_moves"
   ],
   "note": "Proved as stated, for every valid starting position (at most one king per side, side not to move not in check, no pawn on its last rank, no doubled pawns, pieces from one standard set) and every sequence of legal do_move / matching undo_move calls, of any length; for all four bitboard backends. Proof: `valid` is preserved, and so is `standard_material`."
  },
  {
   "property": "C21",
   "status": "proved",
   "theorems": [
    "C21_do_move_panics_exactly",
    "C21_do_move_total",
    "C21_is_check_move_total",
    "C21_undo_move_total"
   ],
   "note": "Proved as stated, for every valid starting position (at most one king per side, side not to move not in check, no pawn on its last rank, no doubled pawns, pieces from one standard set) and every sequence of legal do_move / matching undo_move calls, of any length; for all four bitboard backends; every legal move. Proof: `do_move`, `is_check_move`, `undo_move` do not return `None`."
  },
  {
   "property": "C22",
   "status": "proved",
   "theorems": [
    "C22_attacks_by_walking"
   ],
   "note": "Proved as stated, for all 81 squares, 2 colours, all 2^81 occupancies; every backend. Proof: attacks = ray walking for all occupancies, per backend."
  },
  {
   "property": "C23",
   "status": "proved",
   "theorems": [
    "C23_backends_agree",
    "C23_legal_moves_agree"
   ],
   "note": "Proved as stated, for every valid starting position (at most one king per side, side not to move not in check, no pawn on its last rank, no doubled pawns, any number of pieces) and every sequence of legal do_move / matching undo_move calls, of any length; for all four bitboard backends; every pair of backends. Proof: two configurations that differ in the backend give equal results along any line."
  },
  {
   "property": "C24",
   "status": "proved",
   "theorems": [
    "C24_iteration",
    "C24_equality",
    "C24_unsafe_in_range"
   ],
   "note": "Proved as stated, for every bitboard value made of the 81 square bits (2^81 values), every backend. Proof: iteration, count, emptiness, and the range of the raw index given to the unsafe constructor."
  },
  {
   "property": "C25",
   "status": "proved",
   "theorems": [
    "C25_filter_loop"
   ],
   "note": "Proved as stated, for every list of candidates and every accept/reject pattern. Proof: the swap_remove loop returns a permutation of `filter`."
  },
  {
   "property": "C26",
   "status": "proved",
   "theorems": [
    "C26_empty_iff_no_legal_move",
    "C26_decides_mate",
    "C26_checkmated"
   ],
   "note": "Proved as stated, for every valid starting position (at most one king per side, side not to move not in check, no pawn on its last rank, no doubled pawns, any number of pieces) and every sequence of legal do_move / matching undo_move calls, of any length; for all four bitboard backends. Proof: empty list iff no legal move; mate iff empty and in check."
  },
  {
   "property": "C27",
   "status": "proved",
   "theorems": [
    "C27_double_check",
    "C27_single_check"
   ],
   "note": "Proved as stated, for every valid starting position (at most one king per side, side not to move not in check, no pawn on its last rank, no doubled pawns, any number of pieces) and every sequence of legal do_move / matching undo_move calls, of any length; for all four bitboard backends. Proof: double check: king moves only; single check: capture or interpose."
  },
  {
   "property": "C28",
   "status": "proved",
   "theorems": [
    "C28_turn_and_ply",
    "C28_undo",
    "C28_ply_overflow"
   ],
   "note": "Overflow of the u16 counter is stated for both build modes."
  },
  {
   "property": "C29",
   "status": "proved",
   "theorems": [
    "C29_new_faithful",
    "C29_new_panics"
   ],
   "note": "Proved as stated, for every shogi_core::PartialPosition with at most 18 pieces of a kind per hand. Proof: `new` exposes its argument; bitboards agree; keys."
  },
  {
   "property": "C30",
   "status": "proved",
   "theorems": [
    "C30_perft_counts_lines",
    "C30_perft_total",
    "C30_panics_exactly"
   ],
   "note": "Proved as stated, for every reachable position (any pieces, with or without kings), every depth >= 1, all configurations. Proof: perft = number of legal lines (counted by a specification over `Rules.v`) and position restored; the exact panics by induction on the depth from those of `legal_moves` and `do_move` (`PerftPanic.v`)."
  },
  {
   "property": "C31",
   "status": "proved",
   "theorems": [
    "C31_colour_symmetry",
    "C31_panics_together",
    "C31_moves_panic_together"
   ],
   "note": "Proved as stated, for every valid starting position (at most one king per side, side not to move not in check, no pawn on its last rank, no doubled pawns, any number of pieces) and every sequence of legal do_move / matching undo_move calls, of any length; for all four bitboard backends. Proof: rotation of the view rotates the legal moves; also the conditions of the panics (`PropSymPanic.v`)."
  },
  {
   "property": "C32",
   "status": "proved",
   "theorems": [
    "C32_pinned"
   ],
   "note": "Proved as stated, for every valid starting position (at most one king per side, side not to move not in check, no pawn on its last rank, no doubled pawns, any number of pieces) and every sequence of legal do_move / matching undo_move calls, of any length; for all four bitboard backends. Proof: pinned pieces."
  },
  {
   "property": "C33",
   "status": "proved",
   "theorems": [
    "C33_move_from_empty",
    "C33_capture_king",
    "C33_promote_unpromotable",
    "C33_drop_not_in_hand"
   ],
   "note": "Proved as stated, for every position and every such move. Proof: panics on illegal input."
  },
  {
   "property": "C34",
   "status": "proved",
   "theorems": [
    "C34_mirror_symmetry",
    "C34_panics_together",
    "C34_moves_panic_together"
   ],
   "note": "Proved as stated, for every valid starting position (at most one king per side, side not to move not in check, no pawn on its last rank, no doubled pawns, any number of pieces) and every sequence of legal do_move / matching undo_move calls, of any length; for all four bitboard backends. Proof: reflection of the view reflects the legal moves; also the conditions of the panics (`PropSymPanic.v`)."
  },
  {
   "property": "C35",
   "status": "proved",
   "theorems": [
    "C35_drop_on_piece_refuted",
    "C35_undo_any_move"
   ],
   "note": "For all call sequences, legal or not. The exception in the statement is shown to be needed by C35_drop_on_piece_refuted."
  },
  {
   "property": "C36",
   "status": "proved",
   "theorems": [
    "C36_bitboards_on_board",
    "C36_pawn_source_in_range"
   ],
   "note": "Proved as stated, for every position produced by new and arbitrary do_move/undo_move calls, every target bitboard of square bits; all backends. Proof: invariant `on_board` of every stored bitboard under arbitrary calls; argument of `from_u8_unchecked`."
  },
  {
   "property": "C37",
   "status": "proved",
   "theorems": [
    "C37_masked_index_in_range",
    "C37_vacant_values_valid",
    "C37_vacant_values_doubled_refuted"
   ],
   "note": "C37_vacant_values_doubled_refuted: the restriction to one pawn per file is needed; with a doubled pawn on file 7 or 9 the portable backend hands an invalid value to from_u128_unchecked."
  },
  {
   "property": "C38",
   "status": "proved",
   "theorems": [
    "C38_operations_in_domain",
    "C38_legal_moves_in_domain"
   ],
   "note": "Proved as stated, for every replacement function, every PartialPosition, every call sequence; for legal_moves every reachable position; all backends. Proof: `stray cf j`: the backend with operations replaced by arbitrary `j` outside their domain; simulation."
  },
  {
   "property": "C39",
   "status": "proved",
   "theorems": [
    "C39_by_hand",
    "C39_default"
   ],
   "note": "Proved as stated, for every build configuration and Zobrist table. Proof: `default`; `C39_by_hand` (`PropByHand.v`) compares with the board drawn as a picture, since the definition `startpos_at` is used by both sides of the other statement."
  },
  {
   "property": "C40",
   "status": "partial",
   "theorems": [
    "C40_backends_agree_everywhere_refuted",
    "C40_backends_agree_partial",
    "C40_backends_agree_calls_partial",
    "C40_simd_backends_agree",
    "C40_doubled_pawns_refuted",
    "C40_doubled_panic_refuted"
   ],
   "note": "The full claim is false of the code: C40_backends_agree_everywhere_refuted, for each SIMD backend against the portable one, with a Black pawn on rank 1 (accepted by new); the lane shift carries it to the next file. Proved: the three SIMD backends agree in every accepted position after any calls (C40_simd_backends_agree); all four agree if the side to move has no pawn on its last rank and, with a pawn in hand, none on rank 9 of a file with another (C40_backends_agree_partial, C40_backends_agree_calls_partial). The second condition is needed as well: C40_doubled_pawns_refuted, C40_doubled_panic_refuted. For reachable positions: C23_legal_moves_agree."
  },
  {
   "property": "C41",
   "status": "proved",
   "theorems": [
    "C41_listed_moves_playable_refuted",
    "C41_listed_refused_exactly",
    "C41_listed_shape",
    "C41_listed_keys"
   ],
   "note": "Exact condition for all lines of listed moves from all accepted positions (C41_listed_refused_exactly). The unrestricted claim is refuted by C41_listed_moves_playable_refuted: with the opposing king en prise its capture is listed and do_move panics."
  },
  {
   "property": "C42",
   "status": "partial",
   "theorems": [
    "C42_do_move_validates_refuted"
   ],
   "note": "False of the code: C42_do_move_validates_refuted; a king jump over four ranks is accepted. What do_move does refuse is stated exactly by C50_refused_exactly."
  },
  {
   "property": "C43",
   "status": "proved",
   "theorems": [
    "C43_bitboards_in_sync"
   ],
   "note": "Proved as stated, for every reachable position, every square, colour and kind; all backends. Proof: the crate-internal bitboard accessors against `piece_at`."
  },
  {
   "property": "C44",
   "status": "proved",
   "theorems": [
    "C44_attack_info_exact"
   ],
   "note": "Proved as stated, for every reachable position, all squares, kinds, colours; all backends. Proof: the cached `AttackInfo` against `attacks`, `between`, `reaches` of `Rules.v`."
  },
  {
   "property": "C45",
   "status": "proved",
   "theorems": [
    "C45_undo_data"
   ],
   "note": "Proved as stated, for every reachable position and every legal move. Proof: `captured`, `last_moved` after a legal move."
  },
  {
   "property": "C46",
   "status": "proved",
   "theorems": [
    "C46_keys_depend_on_contents"
   ],
   "note": "Proved as stated, for all pairs of reachable positions, every Zobrist table. Proof: keys of two positions from any roots."
  },
  {
   "property": "C47",
   "status": "proved",
   "theorems": [
    "C47_perft_variants_agree",
    "C47_test_perft_total",
    "C47_thirty_moves",
    "C47_perft_zero_refuted",
    "C47_test_panics_exactly",
    "C47_returns"
   ],
   "note": "Depth 0 differs: C47_perft_zero_refuted (30 against 1 at the start position)."
  },
  {
   "property": "C48",
   "status": "proved",
   "theorems": [
    "C48_list_fits",
    "C48_perft_bound",
    "C48_perft_usize"
   ],
   "note": "Proved as stated, for every position value, valid or not, every depth. Proof: the buffer's capacity bounds every list; induction over the depth."
  },
  {
   "property": "C49",
   "status": "proved",
   "theorems": [
    "C49_no_blind_spot_board",
    "C49_no_blind_spot_hands"
   ],
   "note": "Added after a mutant whose hand entries ignored the count passed all earlier theorems."
  },
  {
   "property": "C50",
   "status": "proved",
   "theorems": [
    "C50_refused_exactly",
    "C50_refused_exactly_any",
    "C50_effect_of_any_move",
    "C50_effect_of_any_line"
   ],
   "note": "Proved as stated, for every move value in every reachable position; every accepted PartialPosition and every accepted line. Proof: exact condition for `do_move p m = None`, effect of every accepted move."
  },
  {
   "property": "C51",
   "status": "proved",
   "theorems": [
    "C51_keys_in_step",
    "C51_bitboards_in_step",
    "C51_own_square_refuted",
    "C51_drop_on_piece_refuted"
   ],
   "note": "The two conditions are needed: C51_own_square_refuted, C51_drop_on_piece_refuted."
  },
  {
   "property": "C52",
   "status": "proved",
   "theorems": [
    "C52_attack_table",
    "C52_walk_ends",
    "C52_between_table",
    "C52_files",
    "C52_ranks"
   ],
   "note": "Proved as stated, for every backend; every kind, square, colour and occupied set; every pair of squares. Proof: the initialisers as loops over arrays with checked indices; every lookup afterwards against `Rules.v`; the walk as an inductive relation."
  },
  {
   "property": "C53",
   "status": "proved",
   "theorems": [
    "C53_single_values",
    "C53_masked_values",
    "C53_masked_bbs"
   ],
   "note": "Proved as stated, for every index. Proof: the `while` loops as an inductive relation with exactly one result; the bits of every entry."
  },
  {
   "property": "C54",
   "status": "proved",
   "theorems": [
    "C54_zobrist_table"
   ],
   "note": "Proved as stated, for every random stream; every entry. Proof: the initialiser for an arbitrary stream; a bijection between entries and draws."
  },
  {
   "property": "C55",
   "status": "proved",
   "theorems": [
    "C55_legal_moves_exact",
    "C55_in_check_exact",
    "C55_orderly_parts",
    "C55_two_kings_refuted",
    "C55_adjacent_kings_refuted",
    "C55_dead_pawn_refuted",
    "C55_mated_already_refuted",
    "C55_doubled_pawn_refuted"
   ],
   "note": "Proved as stated, for every PartialPosition accepted by new that meets the conditions; all backends, both overflow modes, every Zobrist table. Proof: `orderly` (in `Rules.v`) instead of `valid`; `_refuted` for each of its five parts."
  },
  {
   "property": "C56",
   "status": "proved",
   "theorems": [
    "C56_undo_refused_exactly",
    "C56_undo_effect",
    "C56_undo_at_start",
    "C56_undo_validates_refuted"
   ],
   "note": "Proved as stated, for every position value (any history of calls), every move argument; all backends, both overflow modes. Proof: case analysis of `undo_move` on any position value and argument."
  },
  {
   "property": "C57",
   "status": "proved",
   "theorems": [
    "C57_in_check_exact",
    "C57_is_check_move_exact",
    "C57_attack_info_exact",
    "C57_legal_moves_exact",
    "C57_history_independent",
    "C57_undo_exact",
    "C57_legal_play",
    "C57_jump_refuted",
    "C57_en_prise_refuted",
    "C57_foreign_piece_refuted",
    "C57_two_kings_refuted"
   ],
   "note": "Proved as stated, for all accepted starting positions with at most one king a side, all sequences of such moves and undos; all backends, both overflow modes. Proof: invariant `cached` (bitboards, keys, cached attack data) along `fair_play`; `_refuted` for each condition."
  },
  {
   "property": "C58",
   "status": "proved",
   "theorems": [
    "C58_do_move_refines",
    "C58_undo_move_refines",
    "C58_left_by_do_move",
    "C58_untouched",
    "C58_left_by_undo_move",
    "C58_refused_untouched_refuted",
    "C58_refused_drop_untouched_refuted"
   ],
   "note": "Proved as stated, for do_move: all positions after any accepted moves from any accepted start, all moves; undo_move: all position values and moves; all backends, both overflow modes. Proof: `do_move` and `undo_move` as programs on a mutable position that keep what a panic leaves (`Imper.v`); case analysis."
  },
  {
   "property": "C59",
   "status": "proved",
   "theorems": [
    "C59_legal_by_capture",
    "C59_in_check_by_capture",
    "C59_no_capture_after"
   ],
   "note": "Proved as stated, for all reachable positions, all moves; all backends, both overflow modes. Proof: `legal_by_capture` (`Capture.v`) is equivalent to `legal` in every position."
  },
  {
   "property": "C60",
   "status": "proved",
   "theorems": [
    "C60_hands_as_sets",
    "C60_hands_as_sets_new",
    "C60_more_in_hand"
   ],
   "note": "Proved as stated, for all pairs of reachable positions, also of different builds; the first part also for all accepted positions; all moves. Proof: independence of the hands, in the rules for membership and in the code for the order (`Hands.v`)."
  },
  {
   "property": "C61",
   "status": "proved",
   "theorems": [
    "C61_perft_same_position",
    "C61_perft_rotated",
    "C61_perft_mirrored",
    "C61_panics_together"
   ],
   "note": "Proved as stated, for all depths of at least 1; all pairs of reachable positions so related; all builds. Proof: a bijection between the legal lines of the two positions, which also carries a line to a panic over (`PropSymPanic.v`)."
  },
  {
   "property": "C62",
   "status": "proved",
   "theorems": [
    "C62_perft_in_usize",
    "C62_printed_lines",
    "C62_main_usage",
    "C62_main",
    "C62_start_lines",
    "C62_counter_refuted",
    "C62_small_depths",
    "C62_panics_exactly",
    "C62_main_panics_exactly"
   ],
   "note": "Proved as stated, for all depths, all widths w >= 10, all elapsed times; perft also from all reachable positions with any pieces; all builds. Proof: the program with its output and its w-bit counter (`Divide.v`) refines `perft`; at least 6^d lines of d moves from the start, by the two rooks moving along their ranks (`RookLines.v`); exact panics in `PropPerft.v`."
  },
  {
   "property": "C63",
   "status": "proved",
   "theorems": [
    "C63_board_collisions",
    "C63_hand_collisions",
    "C63_key_collisions",
    "C63_keys_collisions",
    "C63_parity"
   ],
   "note": "Proved as stated, for all pairs of such positions, all random streams, all values of the deciding draws; all backends, both overflow modes. Proof: each hash is a constant xor one entry, as a function of the draw of that entry; all other entries are even (`Collide.v`)."
  },
  {
   "property": "C64",
   "status": "proved",
   "theorems": [
    "C64_client_refines",
    "C64_kings",
    "C64_same_result",
    "C64_probe",
    "C64_mate_solver"
   ],
   "note": "Proved as stated, for all client programs (interaction trees over the API) that ask for the legal moves where they fit the buffer and capture where the hand has room (always, with both kings and the pieces of one set), all reachable positions, all depths d (the mate solver: the pieces of one set and the defending king), all configurations. Proof: clients as interaction trees over all public methods and `clone`, run on the crate and on the rules (the keys by C13, since the rules have none); refinement by induction on the client (`Client.v`); the mate solver is verified on the rules only and carried over; it needs only the defending king, because the defender is in check whenever it asks for moves (C18)."
  },
  {
   "property": "C65",
   "status": "proved",
   "theorems": [
    "C65_lazy_tables"
   ],
   "note": "Proved as stated, for all programs of all threads (any number), all interleavings, all backends and random streams. Proof: small-step semantics of threads and `once_cell::sync::Lazy` cells (`Lazy.v`), invariant over all interleavings; the six statics as programs (`Statics.v`)."
  },
  {
   "property": "C66",
   "status": "proved",
   "theorems": [
    "C66_siblings",
    "C66_no_early_repetition",
    "C66_one_square"
   ],
   "note": "Proved as stated, for all positions reachable by legal moves from valid starts with standard material, all pairs of legal moves, all lines of up to three moves, all backends, with and without overflow checks. Proof: the generator of rand 0.8.5 (`StdRng.v`, with published test vectors), its first 2520 numbers as checked literals (`SeedTable.v`), all changes of the key enumerated and sorted by a verified radix sort (`Digits.v`, `Siblings.v`), every legal move makes one of the changes (`SiblingsSpec.v`)."
  },
  {
   "property": "C67",
   "status": "proved",
   "theorems": [
    "C67_values",
    "C67_aliasing_refuted",
    "C67_repaired",
    "C67_loads"
   ],
   "note": "C67_values: bounds, initialisation and value without aliasing rules. C67_aliasing_refuted: values() is undefined behaviour under Stacked Borrows. C67_repaired: with as_mut_ptr it is not. C67_loads: all loads of aarch64.rs under all rules."
  },
  {
   "property": "C68",
   "status": "proved",
   "theorems": [
    "C68_choice",
    "C68_instructions",
    "C68_same_answers"
   ],
   "note": "The list of intrinsics and their features is transcribed by hand (trusted)."
  },
  {
   "property": "C69",
   "status": "proved",
   "theorems": [
    "C69_calls",
    "C69_reads",
    "C69_no_panic"
   ],
   "note": "Proved as stated, for all PartialPositions, all sequences of do_move and undo_move with any moves, all backends and profiles. Proof: `src/position.rs` once more, on flat arrays with checked indices (`Flat.v`); an encoding commutes with every function."
  },
  {
   "property": "C70",
   "status": "proved",
   "theorems": [
    "C70_functions",
    "C70_threads",
    "C70_solvers"
   ],
   "note": "Proved as stated, for all lists of threads, all first positions whose hands fit, all programs over the API that keep to the rules and to the limits of buffer and hands, all interleavings of their steps, all backends and profiles. Proof: `src/position.rs` and `src/movegen.rs` as programs over the cells of `Lazy.v`, the arrays of `Flat.v` and one buffer (`Source.v`); their value is that of the model (`SourceSpec.v`); with C65 and C64, all interleavings of any programs refine the rules."
  },
  {
   "property": "C71",
   "status": "proved",
   "theorems": [
    "C71_two_checkers",
    "C71_discovered",
    "C71_every_position_refuted"
   ],
   "note": "Proved as stated, for every reachable position with at least one move played, every king square, every list of checkers, all configurations. Proof: who attacks the king after a legal move, from `valid` before it (`Checkers.v`); two pieces on one line cannot both reach a square; `_refuted` for first positions."
  },
  {
   "property": "C72",
   "status": "proved",
   "theorems": [
    "C72_table_exact",
    "C72_depth_two",
    "C72_shared_table_refuted"
   ],
   "note": "Proved as stated, for every reachable position, every list of depths, all configurations; for D = 2 every backend and check setting with the crate's seed. Proof: the counting search with a table over the API (`TransTable.v`): entries stay right, by induction on the depth; no collisions up to depth 2 from C66; `_refuted` for a table shared by two first positions."
  },
  {
   "property": "C73",
   "status": "proved",
   "theorems": [
    "C73_collisions_rare",
    "C73_pair_exact",
    "C73_searches_rare"
   ],
   "note": "Proved as stated, for every list of legal lines from valid positions within the limits of hands and ply counter; for searches every valid first position with one set of pieces, every depth and list of depths; all backends and check settings. Proof: `Count.v` counts tables by nested sums over the draws; one draw decides each pair (C63), wherever it stands in the order of the sums; then the union over all pairs."
  },
  {
   "property": "C74",
   "status": "proved",
   "theorems": [
    "C74_one_verdict",
    "C74_earliest",
    "C74_referee",
    "C74_never_missed",
    "C74_no_panic",
    "C74_rare",
    "C74_keys_needed_refuted"
   ],
   "note": "Proved as stated, for every reachable position, every sequence of moves (legal or not), all configurations; all tables of random numbers for the count. Proof: the rule as a relation with exactly one verdict, the referee over the API (`Repeat.v`), induction over the moves; the count from C73; `_refuted` for a table of zeros."
  },
  {
   "property": "C75",
   "status": "proved",
   "theorems": [
    "C75_games_end",
    "C75_verdict",
    "C75_rule_needed"
   ],
   "note": "Proved as stated, for every reachable position with any material, every sequence of moves, all configurations. Proof: an injective code of positions into a finite list (`Ends.v`), pigeonhole; material is conserved (C16); the rooks of C62 for lines of every length."
  },
  {
   "property": "C76",
   "status": "proved",
   "theorems": [
    "C76_one_value",
    "C76_alpha_beta",
    "C76_best_move",
    "C76_threads"
   ],
   "note": "Proved as stated, for all depths, all windows alpha < beta, all scores that add up points for pieces on squares and in hand, all reachable positions with both kings and the pieces of one set, all interleavings of threads, all configurations. Proof: a client of C64 (`Search.v`); minimax is stated over the rules without lists; the search is verified on the rules with the order of the moves left open, and carried over by C64 and C70."
  },
  {
   "property": "C77",
   "status": "proved",
   "theorems": [
    "C77_table_search",
    "C77_depth_two",
    "C77_rare",
    "C77_keys_needed_refuted"
   ],
   "note": "Proved as stated, for all lists of searches of depth at most D with windows alpha < beta, all scores of pieces on squares and in hand, all reachable positions with both kings and the pieces of one set, all configurations and tables of random numbers. Proof: a client of C64 that asks for keys (`SearchTable.v`); an invariant says that the bounds of every entry hold for the value of a near position with that key; C66 and the count of C73 give when the keys differ; `C77_keys_needed_refuted` shows a wrong value with a table of zeros."
  },
  {
   "property": "C78",
   "status": "proved",
   "theorems": [
    "C78_shared_table",
    "C78_ends",
    "C78_finishes",
    "C78_depth_two",
    "C78_rare"
   ],
   "note": "Proved as stated, for all numbers of threads, all lists of searches of depth at most D with windows alpha < beta, all interleavings and all replacement policies, all scores of pieces on squares and in hand, all reachable positions with both kings and the pieces of one set, all configurations and tables of random numbers. Proof: small steps of threads over the log of all that was stored (`SharedSearch.v`); a thread does right as long as the log is right, by induction on the search; what is left to do of each thread is well-founded."
  },
  {
   "property": "C79",
   "status": "proved",
   "theorems": [
    "C79_text_parses",
    "C79_one_result",
    "C79_new",
    "C79_default",
    "C79_accessors",
    "C79_legal_moves",
    "C79_do_move",
    "C79_undo_move"
   ],
   "note": "Proved as stated, for all position values (not only reachable ones) with a move counter that fits u16, all moves and arguments, all bitboard backends, all random generators, overflow checks on and off. Proof: the files as strings (`SourceText.v`), a lexer and parser (`RustSyntax.v`), a machine (`RustSem.v`); every function is run symbolically, loops by induction (`TextTables.v`, `TextPos.v`, `TextGen.v`, `TextMoves.v`)."
  },
  {
   "property": "C80",
   "status": "proved",
   "theorems": [
    "C80_text_new",
    "C80_text_game",
    "C80_games"
   ],
   "note": "Proved as stated, for all valid first positions whose hands hold at most 18 of a kind, all sequences of such calls of any length, all moves, all backends, all random streams, overflow checks on and off. Proof: C79 with C01, C02, C07-C10, C17, C18, C21, C29; the game is an inductive relation that mentions only runs of the text and the rules."
  },
  {
   "property": "C81",
   "status": "proved",
   "theorems": [
    "C81_attack_table",
    "C81_between_table",
    "C81_files",
    "C81_ranks",
    "C81_zobrist_table",
    "C81_lazy"
   ],
   "note": "Proved as stated, for all pieces, squares, occupancies, both backends (attacks, between, files) or any backend, all random generators, overflow checks on and off, all calls of all functions of the text, all sets of already initialised statics. Proof: the initialisers are run symbolically (`TextInit.v`, `TextZob.v`: loops over tables by induction, the sliding walks by the length of the ray) and give the tables of the model, which C22, C52 and C54 relate to the rules; a simulation between runs that know the statics and runs that evaluate them (`TextAlone.v`)."
  },
  {
   "property": "C82",
   "status": "proved",
   "theorems": [
    "C82_text_parses",
    "C82_occupied",
    "C82_bitboard",
    "C82_iterator",
    "C82_slides",
    "C82_pawns",
    "C82_one_function"
   ],
   "note": "Proved as stated, for all four modules, all contents of the registers (sliding: all masks on the board), all squares, overflow checks on and off. Proof: the text of each module is a program of its own (`BitboardText.v`, `BitsDefs.v`); straight-line code is run symbolically (`BitsRun.v`), the constant tables by evaluation, table indices are in range by the lemmas of C37, the iterator by induction over the members (`TextCore.v`, `TextX86.v`, `TextNeon.v`, `TextWasm.v`); C82_slides and C82_pawns compose this with the membership specification of the backends."
  },
  {
   "property": "C83",
   "status": "proved",
   "theorems": [
    "C83_perft",
    "C83_one_result",
    "C83_counts",
    "C83_quiet"
   ],
   "note": "Proved as stated, for all positions of all games that are valid at the start, all depths below 2^64, both values of is_root, both overflow modes, every backend with a membership specification, every generator. Proof: the text of `perft` is part of the program of C79; a turn of its loop is run symbolically for depth 0 and 1, 2, and more (`TextPerft.v`), the calls of `legal_moves`, `do_move` and `undo_move` by the lemmas of C79, the loop by induction over the moves, the recursion by induction over the depth; C83_counts composes this with the counting theorem of C62; the lines printed (at the root one for each legal move, with the number of lines after it, and no others) are part of the run (`TextPrint.v`); `C83_quiet`: the calls of C79 and C80 print nothing."
  },
  {
   "property": "C84",
   "status": "proved",
   "theorems": [
    "C84_text_new",
    "C84_text_game",
    "C84_assignments",
    "C84_library",
    "C84_perft"
   ],
   "note": "Proved as stated, for all bitboard libraries computed by the text, all four modules, all games from valid starts, both overflow modes, every generator. Proof: `text_library` (`TextLink.v`) says that each operation of a library returns what the call of the text returns; calls have one result, so by C82 the library agrees with the model of the backend and meets the membership specification; C79 holds for every library, the simulation between two libraries with that specification (C23) and the undo theorem carry the rest of C80 over; `C84_perft` (`PropTextSearch.v`) does the same for the search of C83, whose run is proved for any set of positions closed under the moves of the search."
  },
  {
   "property": "C85",
   "status": "proved",
   "theorems": [
    "C85_notation",
    "C85_move",
    "C85_output",
    "C85_perft",
    "C85_library",
    "C85_same_text"
   ],
   "note": "Proved as stated, for all positions, all pairs of lists of legal moves and numbers of any size; for the run: all games from valid starts, all depths below 2^64, both overflow modes, all backends, every generator. Proof: the text of a move is two squares or a letter, `*` and a square: each part can be taken off the front (`Usi.v`), the numbers by `DecimalN` of the standard library; the lines of C83 are given their text; `C85_notation` spells the notation out; `C85_library` carries this over to the libraries of C84, and by C12 any two of them print the same text (`C85_same_text`)."
  }
 ]
}