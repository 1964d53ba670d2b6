{"id": "C01", "title": "legal_moves is sound", "statement": "Every move returned by Position::legal_moves() is a legal shogi move in that position: the piece belongs to the side to move, its movement and promotion obey the rules, a drop obeys the hand, dead-square, two-pawn (nifu) and pawn-drop-mate (uchifuzume) rules, and afterwards the mover's own king is not attacked.", "quantifier": "every valid starting position (at most one king per side, side not to move not in check, no pawn on its last rank, no doubled pawns, any number of pieces) and every sequence of legal do_move / matching undo_move calls, of any length; for all four bitboard backends; every returned move", "why_tests_cant": "The number of shogi positions is astronomically large (more than 10^60); perft counts only check totals on a few roots and cannot see compensating errors or rare pin/x-ray/dragon patterns.", "anchors": ["src/movegen.rs: legal_moves, generate_all, generate_evasions, generate_for_*, generate_drop, is_legal", "src/position.rs: AttackInfo"]}
{"id": "C02", "title": "legal_moves is complete", "statement": "Every legal shogi move in the position is returned by Position::legal_moves().", "quantifier": "every valid starting position (at most one king per side, side not to move not in check, no pawn on its last rank, no doubled pawns, any number of pieces) and every sequence of legal do_move / matching undo_move calls, of any length; for all four bitboard backends; every legal move", "why_tests_cant": "A missing move only shows in positions where that move is the one that matters; the pruning in generate_evasions (pseudo attacks of checkers) and is_pawn_drop_mate has to be right for every configuration of pieces.", "anchors": ["src/movegen.rs: legal_moves, generate_evasions, is_legal, is_pawn_drop_mate"]}
{"id": "C03", "title": "legal_moves has no duplicates", "statement": "legal_moves() never lists the same move twice, so its length is the number of legal moves.", "quantifier": "every valid starting position (at most one king per side, side not to move not in check, no pawn on its last rank, no doubled pawns, any number of pieces) and every sequence of legal do_move / matching undo_move calls, of any length; for all four bitboard backends", "why_tests_cant": "Duplicates depend on which generators overlap on a position; a finite set of positions cannot exclude an overlap.", "anchors": ["src/movegen.rs: legal_moves, generate_for_*"]}
{"id": "C04", "title": "Pawn-drop mate is exact", "statement": "A pawn drop that gives check is omitted from legal_moves() for the pawn-drop-mate rule exactly when, after it, the opponent has no reply that gets out of check; every other rule-abiding pawn drop that does not leave the own king in check is listed.", "quantifier": "every valid starting position (at most one king per side, side not to move not in check, no pawn on its last rank, no doubled pawns, any number of pieces) and every sequence of legal do_move / matching undo_move calls, of any length; for all four bitboard backends; every pawn drop", "why_tests_cant": "The shortcut tests (king capture, unpinned capturers, same-file capturers, escape squares with the pawn as new blocker) replace a one-ply search; equivalence must hold for all boards.", "anchors": ["src/movegen.rs: is_pawn_drop_mate, attackers_to, attackers_to_except_klp, generate_drop"]}
{"id": "C05", "title": "Two pawns on a file", "statement": "legal_moves() contains no drop of a pawn onto a file that already has an unpromoted pawn of that side, and the bit trick used to find vacant files never excludes a file without one.", "quantifier": "every valid starting position (at most one king per side, side not to move not in check, no pawn on its last rank, no doubled pawns, any number of pieces) and every sequence of legal do_move / matching undo_move calls, of any length; for all four bitboard backends", "why_tests_cant": "The subtraction trick borrows across files; it must be right for all 10^9 pawn configurations, on 64- and 128-bit lanes.", "anchors": ["src/bitboard/core.rs: vacant_files", "src/bitboard/x86_64.rs: vacant_files", "src/movegen.rs: generate_drop"]}
{"id": "C06", "title": "Promotion choices are exact", "statement": "For each board move, legal_moves() offers the promoting variant exactly when the piece can promote and the move starts or ends in the far three ranks, and the non-promoting variant exactly when the piece would still be able to move from the target square.", "quantifier": "every valid starting position (at most one king per side, side not to move not in check, no pawn on its last rank, no doubled pawns, any number of pieces) and every sequence of legal do_move / matching undo_move calls, of any length; for all four bitboard backends", "why_tests_cant": "Three hand-written promotion schemes per piece kind must agree with one rule on every square, colour and kind.", "anchors": ["src/movegen.rs: generate_for_fu, generate_for_ky, generate_for_ke, generate_for_gi, generate_for_ka, generate_for_hi", "src/tables.rs: PROMOTABLE, RELATIVE_RANKS"]}
{"id": "C07", "title": "in_check is exact", "statement": "in_check() returns true exactly when some opposing piece attacks the king of the side to move on the current board.", "quantifier": "every valid starting position (at most one king per side, side not to move not in check, no pawn on its last rank, no doubled pawns, any number of pieces) and every sequence of legal do_move / matching undo_move calls, of any length; for all four bitboard backends", "why_tests_cant": "do_move does not recompute checkers unless is_check_move predicted a check, so an error depends on the history that led to the position.", "anchors": ["src/position.rs: in_check, do_move, AttackInfo::calculate_checkers"]}
{"id": "C08", "title": "is_check_move predicts check", "statement": "For a legal move m, is_check_move(m) is true exactly when in_check() is true after do_move(m).", "quantifier": "every valid starting position (at most one king per side, side not to move not in check, no pawn on its last rank, no doubled pawns, any number of pieces) and every sequence of legal do_move / matching undo_move calls, of any length; for all four bitboard backends; every legal move", "why_tests_cant": "Direct, discovered and double checks, promotions and captures all go through tables computed for the position before the move; all combinations must agree.", "anchors": ["src/position.rs: is_check_move, AttackInfo::new (checkables, pinned)"]}
{"id": "C09", "title": "do_move plays the move", "statement": "After do_move(m) of a legal move the observable position (piece_at for all 81 squares, hand of both players, side_to_move) is exactly the result of playing m by the rules of shogi: nothing else changes, captures go unpromoted to the mover's hand.", "quantifier": "every valid starting position (at most one king per side, side not to move not in check, no pawn on its last rank, no doubled pawns, any number of pieces) and every sequence of legal do_move / matching undo_move calls, of any length; for all four bitboard backends; every legal move; every square, colour and piece kind", "why_tests_cant": "It is a frame property over all squares and hands for every move.", "anchors": ["src/position.rs: do_move, PartialPosition::xor_piece"]}
{"id": "C10", "title": "undo_move inverts do_move", "statement": "do_move(m) followed by undo_move(m) restores the whole Position value: board, hands, side, ply, bitboards, keys and history.", "quantifier": "every valid starting position (at most one king per side, side not to move not in check, no pawn on its last rank, no doubled pawns, any number of pieces) and every sequence of legal do_move / matching undo_move calls, of any length; for all four bitboard backends; every legal move", "why_tests_cant": "Needs equality of the whole state, including the private bitboards on which every later result depends, for every position and move.", "anchors": ["src/position.rs: do_move, undo_move"]}
{"id": "C11", "title": "Lines of play can be unwound", "statement": "Playing any sequence of legal moves and undoing them in reverse order restores the original Position exactly.", "quantifier": "every valid starting position (at most one king per side, side not to move not in check, no pawn on its last rank, no doubled pawns, any number of pieces) and every sequence of legal do_move / matching undo_move calls, of any length; for all four bitboard backends; every sequence of legal moves of any length", "why_tests_cant": "Unbounded sequences.", "anchors": ["src/position.rs: do_move, undo_move, Position::states"]}
{"id": "C12", "title": "History independence", "statement": "Two reachable positions with the same board, hands, side to move (whatever moves led there, or constructed directly by Position::new) answer legal_moves, in_check, is_check_move identically, including the order of the move list.", "quantifier": "every valid starting position (at most one king per side, side not to move not in check, no pawn on its last rank, no doubled pawns, any number of pieces) and every sequence of legal do_move / matching undo_move calls, of any length; for all four bitboard backends; pairs of histories", "why_tests_cant": "The incremental data (bitboards, checkers, pins, checkables) is carried along; dependence on history is only visible for particular pairs of histories.", "anchors": ["src/position.rs: do_move, AttackInfo, Position::new"]}
{"id": "C13", "title": "Zobrist keys are incremental-consistent", "statement": "After any sequence of legal moves, keys() equals the hash computed from scratch from the current board and hands, with the lowest bit of the board key flipped once per move played since Position::new.", "quantifier": "every valid starting position (at most one king per side, side not to move not in check, no pawn on its last rank, no doubled pawns, any number of pieces) and every sequence of legal do_move / matching undo_move calls, of any length; for all four bitboard backends; every Zobrist table produced by the generator", "why_tests_cant": "An omitted or doubled xor on one path (promotion, capture of promoted piece, drop at some hand count) only shows on histories using it.", "anchors": ["src/position.rs: Position::new, do_move", "src/zobrist.rs: ZobristTable, ZOBRIST_TABLE"]}
{"id": "C14", "title": "Transpositions have equal keys", "statement": "Two sequences of legal moves from the same starting position that reach the same board, hands and side to move produce the same keys() and key().", "quantifier": "every valid starting position (at most one king per side, side not to move not in check, no pawn on its last rank, no doubled pawns, any number of pieces) and every sequence of legal do_move / matching undo_move calls, of any length; for all four bitboard backends; every pair of move sequences from one root", "why_tests_cant": "Quantifies over all pairs of histories.", "anchors": ["src/position.rs: key, keys, do_move"]}
{"id": "C15", "title": "Key identifies the side to move", "statement": "Positions that differ in the side to move have different keys(), in particular a Position built by Position::new has the same keys as the equal position reached by moves.", "quantifier": "every pair of positions with the same board and hands; every Zobrist table", "why_tests_cant": "Needs a statement about all tables and all positions (and it fails: Position::new ignores the side to move).", "anchors": ["src/position.rs: Position::new, do_move", "src/zobrist.rs: Key::COLOR"]}
{"id": "C16", "title": "Material is conserved", "statement": "The total number of pieces of each kind (promoted pieces counted as their base kind, both hands plus the board) never changes under do_move of legal moves or undo_move.", "quantifier": "every valid starting position (at most one king per side, side not to move not in check, no pawn on its last rank, no doubled pawns, any number of pieces) and every sequence of legal do_move / matching undo_move calls, of any length; for all four bitboard backends; every piece kind", "why_tests_cant": "Conservation is a global invariant over unbounded histories.", "anchors": ["src/position.rs: do_move, undo_move"]}
{"id": "C17", "title": "The move buffer never overflows", "statement": "In a valid position in which the opponent has a king, legal_moves() does not panic: at no point are more than 593 moves pushed into the ArrayVec, including the pseudo-legal moves that are filtered out afterwards.", "quantifier": "every valid starting position (at most one king per side, side not to move not in check, no pawn on its last rank, no doubled pawns, pieces from one standard set) and every sequence of legal do_move / matching undo_move calls, of any length; for all four bitboard backends in which the opponent's king is on the board", "why_tests_cant": "593 is the maximum over all positions; no test can establish a maximum over 10^60 positions.", "anchors": ["src/movegen.rs: MAX_LEGAL_MOVES, legal_moves"]}
{"id": "C18", "title": "when legal_moves panics", "statement": "In a valid position, whatever the material and with or without kings, legal_moves() panics exactly if the side to move is not in check and more than 593 moves are generated, i.e. there are at least 594 pseudo-legal moves (pawn drops that mate left out). In check it never panics and lists at most 322 moves. With pieces from one standard set at most 599 are ever generated. So the unrestricted claim that legal_moves() never panics for a position accepted by new is false: without an opposing king 599 moves can exist.", "quantifier": "every position reachable from a valid position, any material, opposing king present or not (standard set only for the bound 599)", "why_tests_cant": "It takes a constructed extremal position; ordinary tests never come near the limit.", "anchors": ["src/movegen.rs: MAX_LEGAL_MOVES, legal_moves"]}
{"id": "C19", "title": "Kings are never captured", "statement": "legal_moves() never contains a move capturing a king, and both kings present at the start are present after any sequence of legal moves.", "quantifier": "every valid starting position (at most one king per side, side not to move not in check, no pawn on its last rank, no doubled pawns, any number of pieces) and every sequence of legal do_move / matching undo_move calls, of any length; for all four bitboard backends", "why_tests_cant": "An invariant over all reachable states.", "anchors": ["src/movegen.rs: legal_moves", "src/position.rs: do_move"]}
{"id": "C20", "title": "Valid positions stay valid", "statement": "Validity (one king per side at most, side not to move not in check, no pawn on its last rank, no doubled pawns, standard piece set) is preserved by do_move of every move returned by legal_moves().", "quantifier": "every valid starting position (at most one king per side, side not to move not in check, no pawn on its last rank, no doubled pawns, pieces from one standard set) and every sequence of legal do_move / matching undo_move calls, of any length; for all four bitboard backends", "why_tests_cant": "Inductive invariant needed by every other guarantee.", "anchors": ["src/position.rs: do_move", "src/movegen.rs: legal_moves"]}
{"id": "C21", "title": "do_move and is_check_move never panic on legal moves", "statement": "do_move(m), is_check_move(m) and undo_move(m) do not panic for legal moves (unwraps, hand counts, Zobrist index bounds), as long as the ply counter is below 65535.", "quantifier": "every valid starting position (at most one king per side, side not to move not in check, no pawn on its last rank, no doubled pawns, pieces from one standard set) and every sequence of legal do_move / matching undo_move calls, of any length; for all four bitboard backends; every legal move", "why_tests_cant": "Panics hide in rarely reached unwraps and array bounds (for example the 18th pawn in hand).", "anchors": ["src/position.rs: do_move, undo_move", "src/zobrist.rs: ZobristTable::hand, MAX_HAND_NUM"]}
{"id": "C22", "title": "Sliding attacks equal ray walking", "statement": "For each square, colour, sliding piece and every set of occupied squares, the mask-and-bit-scan attack computation yields exactly the squares reached by walking each ray up to and including the first occupied square.", "quantifier": "all 81 squares, 2 colours, all 2^81 occupancies; every backend", "why_tests_cant": "2^81 occupancies.", "anchors": ["src/bitboard/core.rs: sliding_positive, sliding_negative", "src/bitboard/x86_64.rs", "src/bitboard/aarch64.rs", "src/bitboard/wasm32.rs", "src/tables.rs: LanceAttackTable, SlidingAttackTable"]}
{"id": "C23", "title": "All bitboard backends agree", "statement": "The portable backend and the x86_64 (AVX2), aarch64 (NEON) and wasm32 (SIMD128) backends give identical results for the whole public API on every reachable valid position: the same legal_moves list in the same order, the same in_check, is_check_move, keys.", "quantifier": "every valid starting position (at most one king per side, side not to move not in check, no pawn on its last rank, no doubled pawns, any number of pieces) and every sequence of legal do_move / matching undo_move calls, of any length; for all four bitboard backends; every pair of backends", "why_tests_cant": "CI runs at most two backends on one machine, and only on sample positions.", "anchors": ["src/bitboard.rs: cfg_if backend selection", "src/bitboard/core.rs", "src/bitboard/x86_64.rs", "src/bitboard/aarch64.rs", "src/bitboard/wasm32.rs"]}
{"id": "C24", "title": "Bitboard iteration is exact and memory safe", "statement": "Iterating a bitboard yields exactly its member squares, each once, in increasing index order; the value given to the unsafe Square constructor is always between 1 and 81; count() is the number of members and is_empty() says whether there is none.", "quantifier": "every bitboard value made of the 81 square bits (2^81 values), every backend", "why_tests_cant": "2^81 values; the constructor is unsafe, a wrong index is undefined behaviour.", "anchors": ["src/bitboard/x86_64.rs: SquareIterator, pop_lsb, count", "src/bitboard/aarch64.rs: SquareIterator, is_empty", "src/bitboard/wasm32.rs: SquareIterator"]}
{"id": "C25", "title": "Filtering loop keeps exactly the legal candidates", "statement": "The in-place swap_remove loop at the end of legal_moves terminates and leaves exactly the generated candidates accepted by the legality test, with multiplicity.", "quantifier": "every list of candidates and every accept/reject pattern", "why_tests_cant": "All list lengths and patterns.", "anchors": ["src/movegen.rs: legal_moves (lines 18-26)"]}
{"id": "C26", "title": "Empty move list means mate or stalemate", "statement": "legal_moves() is empty exactly when the side to move has no legal move, so legal_moves().is_empty() && in_check() decides checkmate by the rules.", "quantifier": "every valid starting position (at most one king per side, side not to move not in check, no pawn on its last rank, no doubled pawns, any number of pieces) and every sequence of legal do_move / matching undo_move calls, of any length; for all four bitboard backends", "why_tests_cant": "Quantifies over all replies in all positions.", "anchors": ["src/movegen.rs: legal_moves", "src/position.rs: in_check"]}
{"id": "C27", "title": "Evasions", "statement": "When in check by two pieces at once legal_moves() contains only king moves; when in check by one piece every non-king move listed captures the checker or lands between it and the king.", "quantifier": "every valid starting position (at most one king per side, side not to move not in check, no pawn on its last rank, no doubled pawns, any number of pieces) and every sequence of legal do_move / matching undo_move calls, of any length; for all four bitboard backends", "why_tests_cant": "All check geometries, including dragons and horses giving check from adjacent squares.", "anchors": ["src/movegen.rs: generate_evasions"]}
{"id": "C28", "title": "Turn and ply bookkeeping", "statement": "Each do_move flips side_to_move() and increases ply() by one, each undo_move does the opposite; at ply 65535 the counter overflows (panic with overflow checks, wrap to 0 without).", "quantifier": "every reachable position and legal move; both build modes", "why_tests_cant": "Overflow needs 65535 moves; alternation is an invariant over histories.", "anchors": ["src/position.rs: do_move, undo_move, ply"]}
{"id": "C29", "title": "Position::new is faithful", "statement": "Position::new(pp) exposes exactly the board, hands, side and ply of pp, and its bitboards agree with the board square by square; keys equal the hash of board and hands.", "quantifier": "every shogi_core::PartialPosition with at most 18 pieces of a kind per hand", "why_tests_cant": "All inputs.", "anchors": ["src/position.rs: Position::new, From<shogi_core::PartialPosition>"]}
{"id": "C30", "title": "Perft counts lines of play", "statement": "The recursive perft search of the example (legal_moves, do_move, recursion, undo_move) returns the number of legal move sequences of the given length and leaves the position unchanged. It panics exactly if some line of play gets to a position whose moves do not fit in the 593-entry buffer, or to a move do_move cannot play (the ply counter is full and overflow is checked, or the captured piece does not fit in the hand).", "quantifier": "every reachable position (any pieces, with or without kings), every depth >= 1, all configurations", "why_tests_cant": "All depths and positions; the search mutates and restores one shared position.", "anchors": ["examples/perft.rs: perft", "src/position.rs"]}
{"id": "C31", "title": "Colour symmetry", "statement": "Rotating the board by 180 degrees and exchanging the colours of all pieces, hands and the side to move maps the set of legal moves of a position to the set of legal moves of the image. legal_moves panics on both positions or on neither, and so does do_move with a move and its image if ply and the overflow checks agree.", "quantifier": "every valid starting position (at most one king per side, side not to move not in check, no pawn on its last rank, no doubled pawns, any number of pieces) and every sequence of legal do_move / matching undo_move calls, of any length; for all four bitboard backends", "why_tests_cant": "Quantifies over all positions; colour-dependent tables and shifts are written separately for each side.", "anchors": ["src/tables.rs", "src/movegen.rs"]}
{"id": "C32", "title": "Pinned pieces", "statement": "A piece that is the only piece between its king and an opposing slider is listed by legal_moves() only with moves that stay on the line between the king and the slider or capture the slider.", "quantifier": "every valid starting position (at most one king per side, side not to move not in check, no pawn on its last rank, no doubled pawns, any number of pieces) and every sequence of legal do_move / matching undo_move calls, of any length; for all four bitboard backends", "why_tests_cant": "All pin geometries.", "anchors": ["src/position.rs: AttackInfo::new", "src/movegen.rs: is_legal"]}
{"id": "C33", "title": "Illegal inputs are rejected loudly", "statement": "Moving from an empty square, capturing a king, dropping a piece that is not in hand or promoting an unpromotable piece makes do_move panic rather than corrupt the position.", "quantifier": "every position and every such move", "why_tests_cant": "All positions.", "anchors": ["src/position.rs: do_move"]}
{"id": "C34", "title": "Left-right symmetry", "statement": "Reflecting the board left to right (file f becomes file 10-f) maps the set of legal moves of a position to the set of legal moves of the mirrored position. legal_moves panics on both positions or on neither, and so does do_move with a move and its image if ply and the overflow checks agree.", "quantifier": "every valid starting position (at most one king per side, side not to move not in check, no pawn on its last rank, no doubled pawns, any number of pieces) and every sequence of legal do_move / matching undo_move calls, of any length; for all four bitboard backends", "why_tests_cant": "Quantifies over all positions; the two lanes of a bitboard, the file tables and the positive and negative slides treat the two sides of the board by different code.", "anchors": ["src/tables.rs", "src/movegen.rs", "src/bitboard/x86_64.rs"]}
{"id": "C35", "title": "undo_move restores after any accepted move", "statement": "If do_move(m) returns in a position produced by new and any sequence of do_move/undo_move calls, undo_move(m) restores the position completely (every field, including history and cached attack information), even if the position is not valid and m is not legal; the only exception is a drop onto an occupied square, which loses the covered piece.", "quantifier": "every PartialPosition with machine-sized fields accepted by new, every sequence of do_move and undo_move calls with arbitrary arguments, every move; all backends, both overflow modes, every Zobrist table", "why_tests_cant": "Tests try undo on legal moves from a few roots; arbitrary call sequences over arbitrary positions cannot be enumerated.", "anchors": ["src/position.rs: do_move, undo_move"]}
{"id": "C36", "title": "stored bitboards hold only squares; pawn source squares are in range", "statement": "Whatever was done to a position, every bitboard it stores (players, kinds, checkers, pinned, checkable squares) has no bit outside the 81 squares, and generate_for_fu passes to Square::from_u8_unchecked only numbers 1..81, each the index of a pawn of the side to move.", "quantifier": "every position produced by new and arbitrary do_move/undo_move calls, every target bitboard of square bits; all backends", "why_tests_cant": "from_u8_unchecked with a bad value is undefined behaviour and does not show as a test failure; the argument is computed from a shifted bitboard whose wrap-around differs per backend.", "anchors": ["src/movegen.rs: generate_for_fu 82-108", "src/bitboard/*.rs: shl, shr", "src/position.rs: xor_piece"]}
{"id": "C37", "title": "table indices and unchecked constructors of the bitboard layer stay in range", "statement": "The trailing/leading zero counts used to index MASKED_BBS / MASKED_VALUES stay below the table length and the subtractions 127 - lz, 31 - lz do not underflow, for every occupancy and mask; the portable vacant_files gives from_u128_unchecked only valid values when no file has two pawns (and gives an invalid one when a file has two).", "quantifier": "all occupancies and all masks of square bits, all sets of pawns in which no file with a pawn on rank 9 has another; the four backends", "why_tests_cant": "There are 2^81 occupancies per mask; an out-of-range index depends on the extreme bit patterns.", "anchors": ["src/bitboard/core.rs 20-60", "src/bitboard/x86_64.rs: slide_*", "src/bitboard/aarch64.rs", "src/bitboard/wasm32.rs"]}
{"id": "C38", "title": "bitboard operations are used inside their domain", "statement": "Replacing every bitboard operation by an arbitrary function outside its documented domain (bits outside the board, shifts that leave the board, two pawns per file) changes no result of any call except legal_moves in positions that are not valid; in reachable positions legal_moves does not change either.", "quantifier": "every replacement function, every PartialPosition, every call sequence; for legal_moves every reachable position; all backends", "why_tests_cant": "It is a statement about all alternative behaviours of the operations outside their domain.", "anchors": ["src/bitboard/*.rs", "src/position.rs", "src/movegen.rs"]}
{"id": "C39", "title": "Position::default is the standard start position", "statement": "Position::default() does not panic and shows the standard set-up, empty hands, Black to move, ply 1, not in check; the game starting there is covered by all properties of reachable positions.", "quantifier": "every build configuration and Zobrist table", "why_tests_cant": "The claim is for every Zobrist table and backend and links default to the reachable positions of the other properties.", "anchors": ["src/position.rs: Default"]}
{"id": "C40", "title": "all backends list the same moves in every accepted position", "statement": "For every PartialPosition accepted by new, also an invalid one, the portable and the SIMD backends return the same set of legal moves.", "quantifier": "every PartialPosition accepted by new", "why_tests_cant": "Backends are never compiled together, so no test compares them.", "anchors": ["src/movegen.rs: generate_for_fu", "src/bitboard/core.rs: shl, shr", "src/bitboard/x86_64.rs: shl, shr"]}
{"id": "C41", "title": "which listed moves do_move refuses", "statement": "From every PartialPosition accepted by new, valid or not, along every line of listed moves: each listed move moves an own piece to a square without own piece, or drops a held piece on an empty square; do_move panics on it exactly if it captures a king, or a kind of which the side already holds 18, or the ply is 65535 in a build with overflow checks; and the keys stay those computed from scratch. So the unrestricted claim that listed moves can always be played is false.", "quantifier": "every PartialPosition accepted by new, every line of listed moves; all backends, both overflow modes, every Zobrist table", "why_tests_cant": "Depends on positions that tests do not contain (the opposing king can be captured).", "anchors": ["src/movegen.rs: legal_moves", "src/position.rs: do_move"]}
{"id": "C42", "title": "do_move rejects illegal moves", "statement": "do_move panics on every move that is not legal.", "quantifier": "every reachable position, every move", "why_tests_cant": "The set of illegal moves is never enumerated in tests.", "anchors": ["src/position.rs: do_move"]}
{"id": "C43", "title": "bitboards and board stay in sync", "statement": "In every reachable position player_bitboard, piece_kind_bitboard, piece_bitboard, occupied_bitboard and king_position describe exactly the pieces that piece_at shows.", "quantifier": "every reachable position, every square, colour and kind; all backends", "why_tests_cant": "The two representations are updated separately by xor of bits; a divergence can appear only after particular sequences of captures, promotions and undos.", "anchors": ["src/position.rs: xor_piece, piece_at_mut, player_bitboard, piece_bitboard, king_position"]}
{"id": "C44", "title": "cached attack information is exact", "statement": "In every reachable position checkers() holds exactly the pieces attacking the king of the side to move; pinned(c) exactly the pieces, of either colour, whose removal lets a distant enemy piece attack c's king; checkable(k, s) is true exactly if a k of the side to move standing on s would attack the opposing king (k not the king).", "quantifier": "every reachable position, all squares, kinds, colours; all backends", "why_tests_cant": "The information is computed once per move from predicted checks and used by all later calls; the tests look only at derived results in a few positions.", "anchors": ["src/position.rs: AttackInfo, calculate_checkers"]}
{"id": "C45", "title": "the history records what undo needs", "statement": "After do_move(m) of a legal move, captured() is the piece that stood on the target (none for a drop) and last_moved() is the moved piece as it was before promotion (the dropped piece for a drop).", "quantifier": "every reachable position and every legal move", "why_tests_cant": "Quantifies over all positions and moves.", "anchors": ["src/position.rs: do_move, captured, last_moved, State"]}
{"id": "C46", "title": "each key depends only on what it hashes", "statement": "Two reachable positions of one build, from any starting positions, with equal boards have equal board keys if the numbers of moves played have the same parity and different board keys otherwise; two with equal hands have equal hand keys.", "quantifier": "all pairs of reachable positions, every Zobrist table", "why_tests_cant": "Relates all pairs of positions and histories, for every random table.", "anchors": ["src/position.rs: keys, do_move, undo_move", "src/zobrist.rs"]}
{"id": "C47", "title": "the perft searches agree", "statement": "For every depth of at least one, the perft of the example and benchmark (counting list lengths at depth 2) and the plain recursive perft of the unit test return the same count and both leave the position unchanged. The plain one panics exactly if a line shorter than the depth gets to a position whose moves do not fit in the buffer or to a move do_move cannot play; if it returns, so does the other. The start position has 30 moves in every build. At depth 0 they differ (number of moves against 1).", "quantifier": "every reachable position, every depth", "why_tests_cant": "The unit test compares a few constants at depths up to 6; equality for all positions and depths is not testable.", "anchors": ["examples/perft.rs", "benches/bench_perft.rs", "src/position.rs 562-574"]}
{"id": "C48", "title": "counts are bounded", "statement": "Whatever the position, legal_moves returns at most 593 moves, perft(d) is at most 593^d, and so a 64-bit usize cannot overflow for depths up to 6.", "quantifier": "every position value, valid or not, every depth", "why_tests_cant": "An upper bound over all positions.", "anchors": ["src/movegen.rs: MAX_LEGAL_MOVES", "arrayvec::ArrayVec", "examples/perft.rs"]}
{"id": "C49", "title": "the keys have no blind spot", "statement": "For two games that differ in one square, or in the count of one kind in one hand, there is a random stream for which the keys differ: every (square, piece) and every (colour, kind, count) enters the key through an entry of its own.", "quantifier": "all pairs of games (any pieces) that differ in one place; every backend", "why_tests_cant": "A key that ignores part of the position passes every test of consistency; only collisions in practice would show it.", "anchors": ["src/zobrist.rs", "src/position.rs: From<PartialPosition>, keys"]}
{"id": "C50", "title": "do_move: what is refused and what is done, for arbitrary moves", "statement": "In every reachable position do_move(m) panics exactly if m moves from an empty square, captures a king, promotes a piece that cannot promote, drops a piece that is not in hand, or the ply counter overflows with checks on; in positions that arbitrary accepted moves lead to from anything new accepts there is one more cause, a hand that already holds 18 of the captured kind. An accepted move, legal or not, has exactly the described effect on board, hands and side.", "quantifier": "every move value in every reachable position; every accepted PartialPosition and every accepted line", "why_tests_cant": "The set of illegal moves is not enumerated by tests.", "anchors": ["src/position.rs: do_move"]}
{"id": "C51", "title": "keys and bitboards follow the board under arbitrary accepted moves", "statement": "Along any line of moves that do_move accepts, legal or not, from any PartialPosition that new accepts, the keys equal those computed from scratch and the bitboards describe exactly the board, provided no piece is moved to its own square and no piece is dropped on another; both conditions are needed.", "quantifier": "every PartialPosition accepted by new, every accepted line of moves; all backends, every Zobrist table", "why_tests_cant": "Incremental updates by xor go wrong only after particular sequences; tests follow a few legal games.", "anchors": ["src/position.rs: do_move, xor_piece", "src/zobrist.rs"]}
{"id": "C52", "title": "the static tables are filled without a panic and hold what the rules say", "statement": "The initialisers of ATTACK_TABLE, BETWEEN_TABLE, RELATIVE_RANKS, PROMOTABLE and FILES end without a panic (no index out of bounds, unreachable!() never reached, the walk of sliding_attack ends); afterwards every lookup is in bounds and gives exactly the squares, ranks and flags that the rules give.", "quantifier": "every backend; every kind, square, colour and occupied set; every pair of squares", "why_tests_cant": "The tables are lazily built process-wide values; tests look up a handful of entries.", "anchors": ["src/tables.rs: PieceAttackTable::new, LanceAttackTable::new, SlidingAttackTable::new, sliding_attack, ATTACK_TABLE, BETWEEN_TABLE, RELATIVE_RANKS, PROMOTABLE, FILES"]}
{"id": "C53", "title": "the constant tables of the backends", "statement": "The while loops behind SINGLE_VALUES, SINGLES, MASKED_VALUES and MASKED_BBS end without an index or shift out of range; entry i of the single tables has exactly the bit of square i, entry i of the masked tables exactly the bits below i.", "quantifier": "every index", "why_tests_cant": "One wrong entry shows only for positions that use it.", "anchors": ["src/bitboard/x86_64.rs: SINGLE_VALUES", "src/bitboard/aarch64.rs: SINGLE_VALUES, MASKED_VALUES", "src/bitboard/wasm32.rs: SINGLES, MASKED_VALUES", "src/bitboard/core.rs: MASKED_BBS"]}
{"id": "C54", "title": "the Zobrist table is filled completely, one draw per entry", "statement": "The initialiser of ZOBRIST_TABLE ends without a panic after 2520 draws; every (square, piece) and every (colour, hand kind, count below 18) holds a draw of its own with bit 0 cleared; the row of the king in the hand table is zero; other hand lookups are out of bounds.", "quantifier": "every random stream; every entry", "why_tests_cant": "A duplicated or skipped entry is only visible as rare key collisions.", "anchors": ["src/zobrist.rs: ZOBRIST_TABLE, board, hand"]}
{"id": "C55", "title": "legal_moves and in_check outside valid positions", "statement": "In every accepted position with at most one king per side, the kings not adjacent, no own pawn on its last rank and, if a pawn is in hand, the opponent not in check and no own pawn on rank 9 sharing its file with another, legal_moves lists exactly the legal moves and in_check is exact, whatever else is wrong (the opponent's pawns, doubled pawns, any number of pieces, the opposing king en prise). Without any one of these conditions an illegal move is listed.", "quantifier": "every PartialPosition accepted by new that meets the conditions; all backends, both overflow modes, every Zobrist table", "why_tests_cant": "Tests use legal positions; which invalid set-ups are harmless is invisible to them.", "anchors": ["src/movegen.rs", "src/position.rs: new, in_check, is_check_move", "src/bitboard/*.rs: vacant_files, shl, shr"]}
{"id": "C56", "title": "undo_move with an arbitrary argument", "statement": "undo_move refuses exactly the arguments stated: a board move when no move has been made since new, when the captured piece is not in the hand of the side that moved last or when the destination is empty; a drop of a kind that cannot be held or whose count is full; and any move when the ply is 0 and overflow checks are on. Otherwise it has exactly the stated effect, whether or not the argument is the last move: it does not check its argument. Undoing a drop at the start empties the history, and every later query panics.", "quantifier": "every position value (any history of calls), every move argument; all backends, both overflow modes", "why_tests_cant": "undo_move is always called with the last move in tests; the behaviour on other arguments is invisible to them.", "anchors": ["src/position.rs: undo_move, state", "src/position.rs: 176-209"]}
{"id": "C57", "title": "Checks and pins under moves that are not legal", "statement": "Start from any accepted position with at most one king a side and play any accepted moves of the mover's own pieces, legal or not (kings may stay in check, pieces may move in any way that does not jump over a piece on a line, own pieces may be taken, drops may be on any empty square), each while the opposing king is not attacked by a piece other than a king; undo at will. Then in_check, is_check_move and the cached checkers, pins and checking squares are exactly those of the board, legal_moves lists exactly the legal moves wherever the position is orderly (C55), every such move is undone exactly, and positions that look alike answer alike. None of the conditions can be dropped: after a jump over the pinning slider, after the retreat of a piece that already gives check, after moving a piece of the opponent and with two kings of one colour in_check denies a check that is there.", "quantifier": "all accepted starting positions with at most one king a side, all sequences of such moves and undos; all backends, both overflow modes", "why_tests_cant": "is_check_move is incremental: it reasons from data cached before the move; which moves keep that reasoning sound is a statement about all positions and all moves.", "anchors": ["src/position.rs: do_move, is_check_move", "src/position.rs: 349-443 AttackInfo"]}
{"id": "C58", "title": "What a panic leaves behind", "statement": "do_move and undo_move change the position in place; statement by statement they compute exactly the functions of the other properties, and when they panic (and the panic is caught) what is left is exactly as stated. The history, the keys, the answer of in_check and the ply are never touched. A refused board move leaves everything as it was, unless a piece that cannot promote takes one: the taken piece is then in hand and still on the board. A refused drop leaves its piece on the board. A ply overflow leaves the move played. A refused undo_move leaves board, hands and side as they were, except that the captured piece has left the hand if the destination is empty, and that a drop's square is emptied. So a refused move is not always without effect.", "quantifier": "do_move: all positions after any accepted moves from any accepted start, all moves; undo_move: all position values and moves; all backends, both overflow modes", "why_tests_cant": "tests do not catch panics and look at what is left; the order of mutations and of the checks that can fail is invisible when the call succeeds.", "anchors": ["src/position.rs: 97-175 do_move", "src/position.rs: 176-208 undo_move"]}
{"id": "C59", "title": "Legality means that the king cannot be taken", "statement": "Without the notion of check: a move is listed iff it is pseudo-legal, no pseudo-legal reply takes the king of the side that played it, and it is not a pawn drop after which the opponent's king could be taken at once and after every move of theirs. in_check says whether the king could be taken if the turn passed. After a listed move no reply takes the king.", "quantifier": "all reachable positions, all moves; all backends, both overflow modes", "why_tests_cant": "an equivalence between two definitions of legality over all positions; it guards against a misreading of the rules in the specification itself.", "anchors": ["src/movegen.rs: 10-27 legal_moves", "src/movegen.rs: 324-379 is_legal, is_pawn_drop_mate", "src/position.rs: in_check"]}
{"id": "C60", "title": "Of the hands only the kinds held by the mover matter", "statement": "legal_moves returns the same list, in the same order, for two positions with the same board and side to move if the side to move holds the same kinds of pieces, however many, and whatever the opponent holds; in_check and is_check_move do not depend on the hands at all. With different kinds in hand the board moves, and the drops of kinds held in both, are listed in both or in neither.", "quantifier": "all pairs of reachable positions, also of different builds; the first part also for all accepted positions; all moves", "why_tests_cant": "a relation between pairs of positions; in the rules it depends on the fact that no drop answers the check of a dropped pawn.", "anchors": ["src/movegen.rs: 292-322 generate_drop", "src/movegen.rs: 349-379 is_pawn_drop_mate"]}
{"id": "C61", "title": "perft is the same for equivalent positions", "statement": "perft of any depth of at least 1 gives the same number for two positions with the same board, hands and side to move, whatever their histories and builds, for a position and the same position turned by half a turn with the colours exchanged, and for a position and its left-right mirror image. It panics on both or on neither if ply and the overflow checks agree.", "quantifier": "all depths of at least 1; all pairs of reachable positions so related; all builds", "why_tests_cant": "a relation between the results of two searches of unbounded depth.", "anchors": ["examples/perft.rs: 26-47", "benches/bench_perft.rs: 11-29"]}
{"id": "C62", "title": "The perft program: what it prints, and its counter", "statement": "examples/perft.rs with a depth prints each legal move of the start position once, in the order of legal_moves, with the number of legal lines after it, and the total is the sum of these numbers; without a number as argument it prints the usage. The counter is a usize of w bits: all numbers are the true ones modulo 2^w, and with overflow checks the program panics exactly if the total does not fit; depths d with 593^d < 2^w are safe, and depths with 6^d >= 2^w overflow. The program panics exactly if the clock shows no time passed or, with overflow checks, the depth is 65536 or more or the total does not fit.", "quantifier": "all depths, all widths w >= 10, all elapsed times; perft also from all reachable positions with any pieces; all builds", "why_tests_cant": "statements about unbounded depths and about the overflow of a 64-bit counter.", "anchors": ["examples/perft.rs: 6-47"]}
{"id": "C63", "title": "How often the keys of different positions collide", "statement": "For two positions after legal lines from valid positions, with any pieces as long as no hand has to hold more than 18 of a kind: if the numbers of moves differ in parity the board keys, and the single keys, differ under every table. Otherwise, if the boards differ there is one draw of the random stream such that, whatever the other draws are, exactly two of its 2^64 values make the board keys equal; the same holds of the hand keys if the hands differ, and of the single key if boards or hands differ. If both differ, the two draws decide independently. So with uniform draws the collision probabilities are exactly 2^-63, and 2^-126 for the pair.", "quantifier": "all pairs of such positions, all random streams, all values of the deciding draws; all backends, both overflow modes", "why_tests_cant": "a statement about all random tables and all pairs of positions; a test sees one table.", "anchors": ["src/zobrist.rs: 66-86", "src/position.rs: 61-67 key, keys"]}
{"id": "C64", "title": "Any program that uses the crate by the rules gets the answers of the rules", "statement": "A program that asks a position for its pieces, hands, side, ply, check status, checking moves, legal moves and Zobrist keys, plays legal moves and takes back the last one, and works on clones, in any order and depending on the answers in any way, ends without a panic, with a result it could have had on answers from the rules of shogi, and with exactly the position it started from if it took back every move. The keys are those of C13. Its result is the same for every backend and overflow mode and, if it asks for no key, for every random table and history. In particular a recursive mate solver written on the API answers true exactly if there is a forced mate by checks in at most d moves.", "quantifier": "all client programs (interaction trees over the API) that ask for the legal moves where they fit the buffer and capture where the hand has room (always, with both kings and the pieces of one set), all reachable positions, all depths d (the mate solver: the pieces of one set and the defending king), all configurations", "why_tests_cant": "a test runs one client; the statement is about all of them, with answers for every position they visit.", "anchors": ["src/position.rs: 45-95 accessors, key, keys, in_check, is_check_move", "src/position.rs: 97-208 do_move, undo_move", "src/movegen.rs: 10-27 legal_moves"]}
{"id": "C65", "title": "The lazily filled tables, with any number of threads", "statement": "The six Lazy statics: whatever any number of threads do with the tables and however their steps are interleaved, every thread that ends has the result it would have if the tables had always been there with the values of C52 and C54; no initialiser panics, none is started twice, no state is a deadlock (PROMOTABLE dereferences RELATIVE_RANKS inside its own initialiser, no cell ever waits for itself), and every execution ends after a bounded number of steps.", "quantifier": "all programs of all threads (any number), all interleavings, all backends and random streams", "why_tests_cant": "a test runs some interleavings of some threads; a deadlock or a double initialisation depends on the schedule.", "anchors": ["src/tables.rs: 186-256 ATTACK_TABLE, BETWEEN_TABLE, RELATIVE_RANKS, PROMOTABLE, FILES", "src/zobrist.rs: 66-86 ZOBRIST_TABLE"]}
{"id": "C66", "title": "The keys with the random numbers that the crate uses", "statement": "With the table filled from StdRng::seed_from_u64(2022): the positions after two different legal moves of one position never have the same key(); a position never has the key() of a position one, two or three moves before it; positions (with the same parity of moves played and equal hands) that differ in the contents of one square have different key()s.", "quantifier": "all positions reachable by legal moves from valid starts with standard material, all pairs of legal moves, all lines of up to three moves, all backends, with and without overflow checks", "why_tests_cant": "about 1.4 million different changes of the key exist and all pairs of them must differ; a test sees some positions. With other numbers the claim can be false.", "anchors": ["src/zobrist.rs: 66-86 ZOBRIST_TABLE", "src/position.rs: key, do_move"]}
{"id": "C67", "title": "Raw memory accesses of the SIMD backends", "statement": "values() of x86_64.rs and aarch64.rs stores inside its 16-byte buffer, at any address the buffer can have, initialises every byte before assume_init, and returns the two lanes in order; the loads of aarch64.rs stay inside their tables, are aligned, read initialised bytes, return the row and obey the aliasing rules of Rust. values() itself does not obey them: it writes through a pointer made from a shared reference (as_ptr), which is undefined behaviour under Stacked Borrows; with as_mut_ptr it would be correct.", "quantifier": "all values of the two lanes, all addresses of the buffer and of the tables, all squares, all occupancies and masks of square bits, both treatments of casts to raw pointers", "why_tests_cant": "undefined behaviour need not show in any test run; only a semantics of memory with bounds, initialisation and borrows can tell", "anchors": ["src/bitboard/x86_64.rs: 67-73 values", "src/bitboard/aarch64.rs: 41-44 single, 63-97 values, sliding_positive, sliding_negative, 136-143 vacant_files, 164-190 not"]}
{"id": "C68", "title": "The choice of the backend", "statement": "Every target and every set of features compiles exactly one bitboard module: a SIMD module exactly when the feature simd is on and the target has its architecture and its target feature, else the portable one. The chosen module calls only intrinsics of that architecture whose target feature is enabled. Two builds of whatever target and profile give the same answers.", "quantifier": "all architectures, all sets of target features closed under rustc's implications, feature simd on or off, overflow checks on or off", "why_tests_cant": "a test runs one build on one machine; a missing feature is undefined behaviour or an illegal instruction on another", "anchors": ["src/bitboard.rs: 85-111", "src/bitboard/x86_64.rs, aarch64.rs, wasm32.rs: intrinsics", "Cargo.toml: 8-9"]}
{"id": "C69", "title": "Positions as arrays", "statement": "With the fields of Position as arrays indexed by array_index with a check, and the history as a vector, new, do_move, undo_move, is_check_move and the getters compute what they compute on maps: for arbitrary sequences of calls they panic in the same cases and leave the same position. No array index is out of bounds when legal moves are played and taken back; the arrays keep their lengths.", "quantifier": "all PartialPositions, all sequences of do_move and undo_move with any moves, all backends and profiles", "why_tests_cant": "an index out of bounds, or two kinds that share an entry, shows only in positions that use the entry", "anchors": ["src/position.rs: 1-208", "src/position.rs: 262-442"]}
{"id": "C70", "title": "The stored, threaded code refines the rules", "statement": "position.rs and movegen.rs as they are stored and run (flat arrays with checked indices, tables behind once_cell::sync::Lazy, moves pushed one by one into the 593-entry buffer) compute what the model's functions compute. Any number of threads that each make a position and run a program keeping to the rules, with no table built at the start: the number of steps is bounded, no thread waits for ever, and each ends with a result its program could have had if the rules of shogi had answered.", "quantifier": "all lists of threads, all first positions whose hands fit, all programs over the API that keep to the rules and to the limits of buffer and hands, all interleavings of their steps, all backends and profiles", "why_tests_cant": "which thread builds which table, and when, depends on the schedule; one run shows one schedule", "anchors": ["src/position.rs: 1-442", "src/movegen.rs: 1-404", "src/tables.rs: 1-256", "src/zobrist.rs: 1-86"]}
{"id": "C71", "title": "At most two pieces give check", "statement": "In every position reached by a move, at most two pieces attack the king of the side to move, at most one after a drop. If there are two, one of them is the piece that has moved, and any other attacks across the square the piece left. A first position may have more (two rooks and a knight), so the claim is false without the move.", "quantifier": "every reachable position with at least one move played, every king square, every list of checkers, all configurations", "why_tests_cant": "double checks are rare in play; the claim is about all positions and all pairs of pieces", "anchors": ["src/position.rs: 413-430 calculate_checkers", "src/movegen.rs: 44-86 generate_evasions (branch on the number of checkers)"]}
{"id": "C72", "title": "A table keyed by key()", "statement": "If no two different positions less than D moves from p have the same key(), counting searches of p to depths of at most D that share one table from keys and depths to counts return what the search without a table returns, leave p as it was, and panic only if that search does. With the crate's random numbers the condition holds up to D = 2 in every position with one set of pieces. A table shared by two positions made by Position::new gives wrong counts for every random table, since their keys do not tell the side to move (C15).", "quantifier": "every reachable position, every list of depths, all configurations; for D = 2 every backend and check setting with the crate's seed", "why_tests_cant": "a table hides a wrong key behind a plausible count; the searches visit more positions than any test", "anchors": ["src/position.rs: 60-63 key, 563-574 perft", "src/zobrist.rs"]}
{"id": "C73", "title": "Few tables of random numbers give false matches", "statement": "Of the (2^64)^2520 tables that the generator can draw, at most the part n(n-1)/2^64 gives two different positions among n the same key(); for two positions with equally many moves modulo 2 it is exactly 2/2^64. So the searches of C72 to depth D go wrong for at most the part n(n-1)/2^64 of the tables, where n is the number of legal lines of less than D moves.", "quantifier": "every list of legal lines from valid positions within the limits of hands and ply counter; for searches every valid first position with one set of pieces, every depth and list of depths; all backends and check settings", "why_tests_cant": "a probability over 2^161280 tables; no test can sample it", "anchors": ["src/zobrist.rs: 50-86", "src/position.rs: 60-63 key"]}
{"id": "C74", "title": "Repetition and perpetual check found with key()", "statement": "A referee that keeps key(), in_check() and the side to move after every move finds the fourth occurrence of a position, and who gave check with every move since the first, exactly as the rule says, if different positions of the game have different keys. Whatever the keys are it misses no repetition; of all tables of random numbers at most the part n(n+1)/2^64 gives a wrong verdict for a game of n moves. A position comes back after four moves at the earliest and is there for the fourth time after twelve at the earliest.", "quantifier": "every reachable position, every sequence of moves (legal or not), all configurations; all tables of random numbers for the count", "why_tests_cant": "games have no bounded length, and the count is over 2^161280 tables", "anchors": ["src/position.rs: 60-63 key", "src/position.rs: in_check, side_to_move, do_move", "src/movegen.rs: legal_moves", "src/zobrist.rs: 50-86"]}
{"id": "C75", "title": "With the rule of repetition every game ends", "statement": "From every reachable position, a legal line of at least 6 * 29^81 * (M+1)^14 moves (M: the largest number of pieces of one kind) has some position for the fourth time; so no sequence of moves of that length is still going on by the rule, nor for the referee that uses key(), whatever the Zobrist table. Without the rule there are legal lines of every length.", "quantifier": "every reachable position with any material, every sequence of moves, all configurations", "why_tests_cant": "the bound has 138 digits for the standard set", "anchors": ["src/movegen.rs: legal_moves", "src/position.rs: do_move, key"]}
{"id": "C76", "title": "A search by alpha-beta on the crate finds the minimax value", "statement": "A negamax search with alpha-beta pruning, written with legal_moves, do_move, undo_move, piece_at, hand and side_to_move, ends without a panic, puts the position back and returns the minimax value cut off at its window, whatever the order in which the crate lists the moves; the search at the root answers with a legal move that attains the value, or says that there is none. The same holds for any number of threads that share the lazily built tables.", "quantifier": "all depths, all windows alpha < beta, all scores that add up points for pieces on squares and in hand, all reachable positions with both kings and the pieces of one set, all interleavings of threads, all configurations", "why_tests_cant": "a search visits more positions than a test can check one by one, and one wrong, missing or repeated move, or an undo that does not restore the position, may change the value of the root or not", "anchors": ["src/movegen.rs: 10-27 legal_moves", "src/position.rs: 97-208 do_move, undo_move", "src/position.rs: 45-60 accessors"]}
{"id": "C77", "title": "Alpha-beta with a transposition table keyed by key() is exact unless two near positions share a key", "statement": "Any number of alpha-beta searches (iterative deepening, other windows) that share one table of bounds, keyed by Position::key and the depth, end without a panic, put the position back and return the minimax value cut off at their windows, if no two different positions less than D moves from the root have the same key. With the crate's own random numbers that is so for depth two from every position; of all tables of random numbers at most the part n(n-1)/2^64 gives a wrong value, where n is the number of legal lines of less than D moves. Without different keys it is false.", "quantifier": "all lists of searches of depth at most D with windows alpha < beta, all scores of pieces on squares and in hand, all reachable positions with both kings and the pieces of one set, all configurations and tables of random numbers", "why_tests_cant": "an error by a wrong key or a stale entry changes the value of the root only for some orders of visits, and a test cannot run over the tables of random numbers", "anchors": ["src/position.rs: 61-64 key", "src/zobrist.rs", "src/position.rs: 97-208 do_move, undo_move", "src/movegen.rs: 10-27 legal_moves"]}
{"id": "C78", "title": "Threads that search with one transposition table keyed by key() all find the minimax values", "statement": "Any number of threads search clones of one position by alpha-beta, each with its own list of depths and windows, and share one table of bounds keyed by Position::key and the depth. However their steps are mixed, and whichever of the entries stored under its key and depth a thread finds or misses, no thread panics, no run goes on for ever, and every thread that is through has put its position back and has the minimax values cut off at its windows, if no two different positions less than D moves from the root have the same key. With the crate's own random numbers that is so for depth two; of all tables of random numbers at most the part n(n-1)/2^64 spoils it.", "quantifier": "all numbers of threads, all lists of searches of depth at most D with windows alpha < beta, all interleavings and all replacement policies, all scores of pieces on squares and in hand, all reachable positions with both kings and the pieces of one set, all configurations and tables of random numbers", "why_tests_cant": "the number of interleavings is unbounded, and a wrong entry shows only if another thread reads it in time", "anchors": ["src/position.rs: 61-64 key", "src/position.rs: 7, 263, 337, 348 Clone", "src/zobrist.rs", "src/position.rs: 97-208 do_move, undo_move", "src/movegen.rs: 10-27 legal_moves"]}
{"id": "C79", "title": "The text of the source files, run as a program, does what the model does", "statement": "The text of src/position.rs, src/movegen.rs, src/tables.rs and src/zobrist.rs (without the unit tests) is parsed and run by a small-step machine for the part of Rust that it is written in. For every position value and every argument each public method ends with exactly one result: the encoding of what the model returns, or a panic where the model panics. The tables it uses are computed by the text of their initialisers. It never gets stuck on an operation that the machine does not know, and it does not run for ever.", "quantifier": "all position values (not only reachable ones) with a move counter that fits u16, all moves and arguments, all bitboard backends, all random generators, overflow checks on and off", "why_tests_cant": "that a hand translation is faithful cannot be tested without running the code, and a test compares a few inputs only", "anchors": ["src/position.rs: 1-444", "src/movegen.rs: 1-405", "src/tables.rs: 186-257 attack, pseudo_attack", "src/zobrist.rs: 1-87"]}
{"id": "C80", "title": "A game played by running the text of the source files obeys the rules of shogi", "statement": "Take a variable pos = Position::new(pp) for a valid pp and change it only by running the text of do_move with legal moves and of undo_move with the last move not undone. Then the text of piece_at, hand, side_to_move and ply shows a valid position g of the rules; the text of legal_moves returns exactly the legal moves of g, each once, or panics because there are more than 593 candidates, which needs more pieces than one set; in_check and is_check_move answer as the rules say; do_move of a legal move leads to play g m, or panics for the counter or a full hand, and undo_move leads back to the same value.", "quantifier": "all valid first positions whose hands hold at most 18 of a kind, all sequences of such calls of any length, all moves, all backends, all random streams, overflow checks on and off", "why_tests_cant": "the number of games is unbounded, and tests follow a few of them", "anchors": ["src/position.rs: 1-444", "src/movegen.rs: 1-405"]}
{"id": "C81", "title": "The initialisers of the statics, run from their text, give the tables that the rules describe", "statement": "The text of the initialisers of ATTACK_TABLE, BETWEEN_TABLE, RELATIVE_RANKS, PROMOTABLE, FILES and ZOBRIST_TABLE runs to its end without a panic (no index out of bounds, no overflow, no unreachable!()). On the value of ATTACK_TABLE the text of attack and pseudo_attack returns the squares that a piece reaches by the rules; BETWEEN_TABLE[s][t] holds the squares strictly between s and t; FILES[f] holds file f; RELATIVE_RANKS and PROMOTABLE are the rank and the promotion zone as seen by a player; every entry of ZOBRIST_TABLE is a number of its own drawn from the generator seeded with 2022, with the low bit cleared. When some of these values are known from an earlier use (Lazy), every call ends with the same result as when the initialisers are run again at every use.", "quantifier": "all pieces, squares, occupancies, both backends (attacks, between, files) or any backend, all random generators, overflow checks on and off, all calls of all functions of the text, all sets of already initialised statics", "why_tests_cant": "the tables have thousands of entries, attack() has 2^81 occupancies, and the model of the tables could differ from the text", "anchors": ["src/tables.rs: 1-257", "src/zobrist.rs: 1-87"]}
{"id": "C82", "title": "The text of the four bitboard modules computes the operations that the rest of the crate uses", "statement": "Run from the text of src/bitboard.rs and of core.rs, x86_64.rs, aarch64.rs or wasm32.rs (macros expanded), the functions of the trait Occupied and, for the vector modules, all functions and operators of Bitboard and of its iterator end without a panic or an index out of bounds and return what the model of the backend says; the portable vacant_files panics exactly where the model does. With sets of squares: the sliding functions return the squares of the masks up to and including the first occupied one in index order, shl and shr move every square by a rank, vacant_files returns the files without a member, and the iterator returns the members once each in increasing order. In all programs a call of a name runs the only function with this name (implementations for values and for references are the same).", "quantifier": "all four modules, all contents of the registers (sliding: all masks on the board), all squares, overflow checks on and off", "why_tests_cant": "2^128 register contents per argument, and most architectures cannot run on the machine of the tests", "anchors": ["src/bitboard.rs: 1-83", "src/bitboard/core.rs: 1-78", "src/bitboard/x86_64.rs: 1-257", "src/bitboard/aarch64.rs: 1-232", "src/bitboard/wasm32.rs: 1-203"]}
{"id": "C83", "title": "The text of perft, run, returns the number of lines of legal moves, prints it for each move at the root, and puts the position back", "statement": "Run from the text of fn perft of examples/perft.rs together with the text of src/position.rs, src/movegen.rs, src/tables.rs and src/zobrist.rs, the call perft(&mut pos, depth, is_root) ends: with the number of lines of depth legal moves of the position (depth 0 counts as 1), as far as a usize of 64 bits holds it, and with the position as it was, having printed (if is_root) one line for each legal move, in the order of legal_moves, with the move and the number of lines after it, and nothing else; or with a panic exactly where the model of the program (C62) panics. It does not panic for positions with both kings and at most a full set of pieces, if the ply number stays below 65536 (or overflow is not checked) and the number of lines fits. Calls of the methods of the crate print nothing.", "quantifier": "all positions of all games that are valid at the start, all depths below 2^64, both values of is_root, both overflow modes, every backend with a membership specification, every generator", "why_tests_cant": "The recursion borrows the position mutably, shadows ret, and has special cases for depth 1 and 2; the tests compare a few totals, which an error in one rare branch does not change.", "anchors": ["examples/perft.rs:26-48"]}
{"id": "C84", "title": "The text of the crate on bitboards that are run from the text of their module obeys the rules", "statement": "Take any bitboard library each of whose operations returns the value that running the text of the bitboard module returns (src/bitboard.rs with x86_64.rs, aarch64.rs or wasm32.rs; with core.rs for the functions of the trait Occupied, the other operations being those of shogi_core). Then the text of src/position.rs, src/movegen.rs, src/tables.rs and src/zobrist.rs, run on this library, plays shogi: in every game from a valid start, legal_moves lists the legal moves once each (or panics when the list overflows), in_check and is_check_move are right, do_move plays the move or panics where the model says, and undo_move gives back the same value. The text of perft of examples/perft.rs on this library returns the number of lines of legal moves (as far as a usize of 64 bits can hold it), prints it for each move at the root, and leaves the position as it was. Such libraries exist for all four modules, and the assigning operators of the text agree with the plain ones.", "quantifier": "all bitboard libraries computed by the text, all four modules, all games from valid starts, both overflow modes, every generator", "why_tests_cant": "C79, C80 and C82 each speak of one side of the interface between the modules; a test runs both sides together, but on one machine and so on one module, and for a few positions.", "anchors": ["src/bitboard.rs: 1-83", "src/bitboard/core.rs: 1-78", "src/bitboard/x86_64.rs: 1-257", "src/bitboard/aarch64.rs: 1-232", "src/bitboard/wasm32.rs: 1-203", "src/position.rs: 1-444", "src/movegen.rs: 1-405", "examples/perft.rs: 26-47"]}
{"id": "C85", "title": "What perft prints, as text, can be read in one way only", "statement": "A move is written as in USI (file digit and rank letter of each square, + for a promotion, the letter of the piece and * for a drop), and the number in decimal. Legal moves of one position have different texts in USI notation. The text of the lines that perft prints at the root (the move, a colon, a space, the number in decimal, a newline) determines the list of moves and numbers: no other list of legal moves and numbers is printed as the same text. So the output of the text of perft, run as in C83, can be read in one way only, and so read gives each legal move once with the number of lines after it. Runs from the same position on any two bitboard libraries computed by the text (C84), in any builds, print the same text.", "quantifier": "all positions, all pairs of lists of legal moves and numbers of any size; for the run: all games from valid starts, all depths below 2^64, both overflow modes, all backends, every generator", "why_tests_cant": "It speaks of all pairs of outputs; the notation leaves out the colour of a dropped piece, so it is only unambiguous for legal moves, and texts of four and five characters run into the colon.", "anchors": ["examples/perft.rs: 43"]}
