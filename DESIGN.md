# Formal model of yasai in Rocq

yasai (crate `yasai` 0.5.0, source in /repo) is a shogi move generator: a
position with history (`Position`), `legal_moves`, `do_move` / `undo_move`,
check detection and Zobrist keys, on top of bitboards with four
interchangeable backends.

## Layout (rocq/theories)

| file | contents |
| --- | --- |
| `Types.v` | data types of the external crate `shogi_core` |
| `Rules.v` | **specification**: the rules of shogi over integer coordinates; no model code |
| `Bitboard.v` | interface of a bitboard backend (`bbops`), machine words, two-lane bitboards |
| `BackendCore.v` | `src/bitboard/core.rs` |
| `BackendSimd.v` | `src/bitboard/x86_64.rs`, `aarch64.rs`, `wasm32.rs` |
| `Tables.v` | `src/tables.rs` |
| `Zobrist.v` | `src/zobrist.rs` |
| `Init.v` | the loops that fill the tables of `src/tables.rs`, `src/zobrist.rs` and the constant tables of `src/bitboard/*.rs`, on arrays with checked indices |
| `Position.v` | `src/position.rs` |
| `Imper.v` | `do_move` and `undo_move` of `src/position.rs` as programs with mutation and panics; they compute the functions of `Position.v` |
| `Flat.v` | `src/position.rs` on flat arrays with checked indices; the same functions up to an encoding |
| `Source.v` `SourceSpec.v` `SourceClient.v` | `src/position.rs` and `src/movegen.rs` with arrays, lazy tables and the buffer of moves; equal to the model; programs over them |
| `Movegen.v` | `src/movegen.rs` |
| `SourceText.v` | the text of `src/position.rs`, `src/movegen.rs`, `src/tables.rs`, `src/zobrist.rs`, verbatim |
| `RustSyntax.v` `RustNames.v` `RustSem.v` | a parser for the part of Rust used there, numbers for the names, and a machine that runs such programs |
| `BitboardText.v` `BitsDefs.v` `Intrinsics.v` | the text of `src/bitboard.rs` and `src/bitboard/*.rs`, parsed; intrinsics on bytes |
| `Usi.v` | the text of moves and of the lines that `perft` prints |
| `TextPrint.v` | runs that print: the steps of the machine, and `println!` |
| `TextPerft.v` | the text of `fn perft` of `examples/perft.rs` is run |
| `TextLink.v` | bitboard libraries made of runs of the text of a backend |
| `BitsRun.v` `TextCore.v` `TextX86.v` `TextNeon.v` `TextWasm.v` | the text of the bitboard modules is run |
| `TextDefs.v` `TextRun.v` `TextTables.v` `TextInit.v` `TextZob.v` `TextPos.v` `TextGen.v` `TextMoves.v` `TextAlone.v` | the text is run and gives the values of the model |
| `Count.v` | counting the tables of random numbers with a property |
| `Search.v` | the minimax value and a search by alpha-beta as a program over the API |
| `SearchTable.v` | alpha-beta with a transposition table keyed by key() |
| `SharedSearch.v` | threads that run this search with one table |
| `Ends.v` | positions are finitely many: codes and a pigeonhole argument |
| `Repeat.v` | repetition and perpetual check: the rule, and a client that finds them with `key()` |
| `TransTable.v` | a client, not in the crate: the counting search with a table keyed by `key()` |
| `Perft.v` `Divide.v` | `examples/perft.rs` (same search in `benches/bench_perft.rs`), perft of the unit test in `src/position.rs` |
| `Api.v` | build configurations, the public API per configuration, `view`, `reachable` |
| `Sfen.v` | SFEN reader for concrete positions in examples (not model) |
| `ModelTests.v` | all unit tests of the crate (except perft of depth 4), evaluated on the model |
| `Words.v` `Squares.v` `BBSpec.v` `Spec*.v` `Backends.v` | the backends meet `bbspec` |
| `Geometry.v` `Attacks.v` `KingSafety.v` | geometry, attack tables, rule-level king safety |
| `Rep.v` `Legality.v` `PawnDrop.v` `Gen.v` `Drops.v` `Exact.v` `Loops.v` | `legal_moves` against the rules |
| `ValidPlay.v` `Moves.v` `Hash.v` `Play.v` `Undo.v` `Reach.v` `Lines.v` | `do_move`, `undo_move`, keys, reachable positions |
| `Decide.v` `Capacity.v` | boolean versions of the rules; the bound of 593 moves |
| `Agree.v` `Bisim.v` `Twins.v` `PerftSpec.v` `Symmetry.v` `Consequences.v` `Panics.v` `Facts.v` `Simd.v` | agreement of builds, perft, symmetries, consequences, panics |
| `AnyMove.v` `Unsafe.v` `Domain.v` | undo of arbitrary moves, ranges of raw indices and unchecked values, bitboard operations replaced outside their domain |
| `Overflow.v` `Checkers.v` `Accept.v` `Tidy.v` `Fair.v` `Listed.v` `Distinct.v` | who gives check after a move, when the move buffer overflows, which moves `do_move` refuses, keys, bitboards and cached checks under arbitrary moves, listed moves in positions that are not valid, entries of the keys |
| `InitSpec.v` | the loops of `Init.v` leave the values of `Tables.v`, `Zobrist.v` and the backends |
| `Memory.v` | raw memory accesses of `x86_64.rs` and `aarch64.rs`: bytes, alignment, initialisation, borrow stacks |
| `Build.v` | the `cfg_if!` of `src/bitboard.rs`, the intrinsics used by each module |
| `Statics.v` `Lazy.v` | the `Lazy` statics of `src/tables.rs` and `src/zobrist.rs`, and threads that read them |
| `StdRng.v` `SeedTable.v` | the random numbers of rand 0.8.5 for the seed in `src/zobrist.rs` |
| `Digits.v` `Siblings.v` `SiblingsSpec.v` `Collide.v` | collisions of the keys, with the crate's numbers and with any |
| `Capture.v` `Hands.v` `RookLines.v` `DivideSpec.v` `Client.v` `PerftPanic.v` | a second definition of legality, independence of the hands, the printed perft, when perft panics, programs that use the crate |
| `Witness.v` | concrete positions for the examples |
| `PropMoves.v` `PropPlay.v` `PropKeys.v` `PropBits.v` `PropAgree.v` `PropSafety.v` `PropInternal.v` `PropLimits.v` `PropAccept.v` `PropDistinct.v` `PropTidy.v` `PropInit.v` `PropOrderly.v` `PropUndo.v` `PropFair.v` `PropUnwind.v` `PropRules.v` `PropDivide.v` `PropCollide.v` `PropClient.v` `PropLazy.v` `PropSeed.v` `PropMemory.v` `PropBuild.v` `PropFlat.v` `PropSource.v` `PropCheckers.v` `PropPerft.v` `PropTable.v` `PropRare.v` `PropRepeat.v` `PropEnds.v` `PropSearch.v` `PropSearchTable.v` `PropSymPanic.v` `PropShared.v` `PropText.v` `PropTextInit.v` `PropTextBits.v` `PropTextPerft.v` `PropTextLink.v` `PropTextSearch.v` `PropUsi.v` `PropByHand.v` | **the property theorems**, named by property id, each with an example |

The model is parametric in the backend (`o : bbops`), the Zobrist table and
the overflow-check mode. A panic is `None`. Final theorems quantify over
`cf : config` = backend x overflow checks x random stream, and over every
`reachable cf` position: `new` of a valid `PartialPosition` with any number of
pieces, then legal moves. Only where the number of pieces matters (C17, C18,
C20, C21, C28, C30, C47, C50: the 593-entry buffer and the hands of at most 18)
is `standard_material` a hypothesis: at most the pieces of one set.

## Proof architecture

1. **Backends** (C22, C23, C24, C05). A record `bbspec o` states what each
   operation does in terms of membership (`bcontains`) for well-formed values:
   extensionality, boolean operations, ordered iteration, count, shifts,
   `slide_pos` = members of the mask up to the first blocker in index order,
   `slide_neg` downwards, vacant files. It is proved for the four backends for
   all 2^81 values: bit-level reasoning on `N.testbit`, arithmetic on borrow
   propagation, not enumeration.
2. **Geometry**. Facts about at most three squares (collinearity, betweenness,
   ordering along rays) are proved by enumeration over the finite board (81^2
   or 81^3 cases, `vm_compute`); they are then lifted to all occupancies by
   ordinary proof.
3. **Attack tables** (C22). `attack` / `ky_attack` / ... contain t iff `reaches`
   in the sense of `Rules.v`, for every occupancy.
4. **Representation invariant**. `rep p g`: the bitboards, board and hands of
   the inner position agree with the abstract game `g`. Established by `new`,
   kept by `do_move`, restored by `undo_move`.
5. **State invariant**. The attack info on top of the history equals the one
   computed from scratch; keys equal the from-scratch hash with the side bit.
6. **King safety**, **check prediction**, **pawn-drop mate**: rule-level lemmas
   about `Rules.v` alone, then the code's test is shown equivalent.
7. **Generation**: membership in each generator's list, NoDup, capacity.
8. **Simulation**: every API call commutes with the rules.

## Per property

| id | modelled and proved as |
| --- | --- |
| C01, C02 | for every reachable position, if `legal_moves` returns `l` then `In m l <-> legal (view p) m` |
| C03 | `NoDup l` |
| C04 | drop of a pawn that obeys the other rules is missing iff `checkmated (play g m)` |
| C05 | pawn drops in `l` only on files without own unpromoted pawn, and the vacant-file computation equals the exact set, per backend |
| C06 | promotion flags of listed moves, both directions; `C06_by_hand` (`PropByHand.v`) says it again with the promoting kinds listed and the ranks as numbers, because `promote_kind` is shared by the rules and the model |
| C07 | `in_check p = Some true <-> Rules.in_check` |
| C08 | `is_check_move` before = `in_check` after |
| C09 | `view (do_move p m)` = `play (view p) m`; `C09_by_hand` says square by square and hand by hand what changes, with the two sides of the pieces listed, because `unpromote_kind` is shared by the rules and the model |
| C10 | `undo_move (do_move p m) m = Some p` (Leibniz equality of the whole value) |
| C11 | induction over lines |
| C12 | equal views imply equal lists, check flags, for any two histories, also across starting positions |
| C13 | keys = from-scratch hash xor parity of moves |
| C14 | corollary for two lines from one root |
| C15 | false: `C15_..._refuted`, with the concrete witness; the true part (within one root the side bit differs) is proved, and so is the exact condition (`C15_keys_exactly`) |
| C16 | `material` is constant along lines |
| C17 | `legal_moves p <> None`, by a counting argument over all positions; `C17_any_material_refuted` shows that the material hypothesis is needed |
| C18 | exact condition for `legal_moves p = None`, for any material; in check at most 322 candidates, since a square is reached along eight lines and four knight's jumps at most and only eight squares answer a check; `_refuted` by a concrete position with 599 moves |
| C19 | no listed move captures a king; kings persist along lines |
| C20 | `valid` is preserved, and so is `standard_material` |
| C21 | `do_move`, `is_check_move`, `undo_move` do not return `None` |
| C22 | attacks = ray walking for all occupancies, per backend |
| C23 | two configurations that differ in the backend give equal results along any line |
| C24 | iteration, count, emptiness, and the range of the raw index given to the unsafe constructor |
| C25 | the swap_remove loop returns a permutation of `filter` |
| C26 | empty list iff no legal move; mate iff empty and in check |
| C27 | double check: king moves only; single check: capture or interpose |
| C28 | side and ply along lines, overflow in both build modes |
| C29 | `new` exposes its argument; bitboards agree; keys |
| C30 | perft = number of legal lines (counted by a specification over `Rules.v`) and position restored; the exact panics by induction on the depth from those of `legal_moves` and `do_move` (`PerftPanic.v`) |
| C31 | rotation of the view rotates the legal moves; also the conditions of the panics (`PropSymPanic.v`) |
| C32 | pinned pieces |
| C33 | panics on illegal input |
| C34 | reflection of the view reflects the legal moves; also the conditions of the panics (`PropSymPanic.v`) |
| C35 | `undo_move (do_move p m) m = Some p` for arbitrary call sequences; refuted for drops on occupied squares |
| C36 | invariant `on_board` of every stored bitboard under arbitrary calls; argument of `from_u8_unchecked` |
| C37 | bounds of `tz` / `lz` for all words; values of `from_u128_unchecked` in the portable `vacant_files` |
| C38 | `stray cf j`: the backend with operations replaced by arbitrary `j` outside their domain; simulation |
| C39 | `default`; `C39_by_hand` (`PropByHand.v`) compares with the board drawn as a picture, since the definition `startpos_at` is used by both sides of the other statement |
| C40 | false: `_refuted` for each SIMD backend against the portable one; agreement of all four under two conditions on the pawns as `_partial` (both are needed: `_refuted`); the three SIMD backends agree without condition |
| C41 | inductive `listed_play` from any accepted position; exact condition for `do_move p m = None`; `_refuted` without it |
| C42 | false: `_refuted` with a king jump, for each backend and mode |
| C43 | the crate-internal bitboard accessors against `piece_at` |
| C44 | the cached `AttackInfo` against `attacks`, `between`, `reaches` of `Rules.v` |
| C45 | `captured`, `last_moved` after a legal move |
| C46 | keys of two positions from any roots |
| C47 | both searches count the same set of lines; exact panics of the plain one (`PerftPanic.v`) |
| C48 | the buffer's capacity bounds every list; induction over the depth |
| C49 | for two games with one difference, a random stream that tells them apart |
| C50 | exact condition for `do_move p m = None`, effect of every accepted move |
| C51 | keys and bitboards along arbitrary accepted lines from any accepted position; `_refuted` without the two conditions |
| C52 | the initialisers as loops over arrays with checked indices; every lookup afterwards against `Rules.v`; the walk as an inductive relation |
| C53 | the `while` loops as an inductive relation with exactly one result; the bits of every entry |
| C54 | the initialiser for an arbitrary stream; a bijection between entries and draws |
| C55 | `orderly` (in `Rules.v`) instead of `valid`; `_refuted` for each of its five parts |
| C56 | case analysis of `undo_move` on any position value and argument |
| C57 | invariant `cached` (bitboards, keys, cached attack data) along `fair_play`; `_refuted` for each condition |
| C58 | `do_move` and `undo_move` as programs on a mutable position that keep what a panic leaves (`Imper.v`); case analysis |
| C59 | `legal_by_capture` (`Capture.v`) is equivalent to `legal` in every position |
| C60 | independence of the hands, in the rules for membership and in the code for the order (`Hands.v`) |
| C61 | a bijection between the legal lines of the two positions, which also carries a line to a panic over (`PropSymPanic.v`) |
| C62 | the program with its output and its w-bit counter (`Divide.v`) refines `perft`; at least 6^d lines of d moves from the start, by the two rooks moving along their ranks (`RookLines.v`); exact panics in `PropPerft.v` |
| C63 | each hash is a constant xor one entry, as a function of the draw of that entry; all other entries are even (`Collide.v`) |
| C64 | clients as interaction trees over all public methods and `clone`, run on the crate and on the rules (the keys by C13, since the rules have none); refinement by induction on the client (`Client.v`); the mate solver is verified on the rules only and carried over; it needs only the defending king, because the defender is in check whenever it asks for moves (C18) |
| C65 | small-step semantics of threads and `once_cell::sync::Lazy` cells (`Lazy.v`), invariant over all interleavings; the six statics as programs (`Statics.v`) |
| C66 | the generator of rand 0.8.5 (`StdRng.v`, with published test vectors), its first 2520 numbers as checked literals (`SeedTable.v`), all changes of the key enumerated and sorted by a verified radix sort (`Digits.v`, `Siblings.v`), every legal move makes one of the changes (`SiblingsSpec.v`) |
| C67 | a byte memory with bounds, alignment, initialisation and borrow stacks (`Memory.v`, after Stacked Borrows); the programs run symbolically; `_refuted` for aliasing |
| C68 | the `cfg_if!` as a function of a target, the list of intrinsics with the feature that `core::arch` declares (`Build.v`); case analysis; C12 for the answers |
| C69 | `src/position.rs` once more, on flat arrays with checked indices (`Flat.v`); an encoding commutes with every function |
| C70 | `src/position.rs` and `src/movegen.rs` as programs over the cells of `Lazy.v`, the arrays of `Flat.v` and one buffer (`Source.v`); their value is that of the model (`SourceSpec.v`); with C65 and C64, all interleavings of any programs refine the rules |
| C71 | who attacks the king after a legal move, from `valid` before it (`Checkers.v`); two pieces on one line cannot both reach a square; `_refuted` for first positions |
| C72 | the counting search with a table over the API (`TransTable.v`): entries stay right, by induction on the depth; no collisions up to depth 2 from C66; `_refuted` for a table shared by two first positions |
| C73 | `Count.v` counts tables by nested sums over the draws; one draw decides each pair (C63), wherever it stands in the order of the sums; then the union over all pairs |
| C74 | the rule as a relation with exactly one verdict, the referee over the API (`Repeat.v`), induction over the moves; the count from C73; `_refuted` for a table of zeros |
| C75 | an injective code of positions into a finite list (`Ends.v`), pigeonhole; material is conserved (C16); the rooks of C62 for lines of every length |
| C76 | a client of C64 (`Search.v`); minimax is stated over the rules without lists; the search is verified on the rules with the order of the moves left open, and carried over by C64 and C70 |
| C77 | a client of C64 that asks for keys (`SearchTable.v`); an invariant says that the bounds of every entry hold for the value of a near position with that key; C66 and the count of C73 give when the keys differ; `C77_keys_needed_refuted` shows a wrong value with a table of zeros |
| C78 | small steps of threads over the log of all that was stored (`SharedSearch.v`); a thread does right as long as the log is right, by induction on the search; what is left to do of each thread is well-founded |
| C79 | the files as strings (`SourceText.v`), a lexer and parser (`RustSyntax.v`), a machine (`RustSem.v`); every function is run symbolically, loops by induction (`TextTables.v`, `TextPos.v`, `TextGen.v`, `TextMoves.v`) |
| C80 | C79 with C01, C02, C07-C10, C17, C18, C21, C29; the game is an inductive relation that mentions only runs of the text and the rules |
| C81 | the initialisers are run symbolically (`TextInit.v`, `TextZob.v`: loops over tables by induction, the sliding walks by the length of the ray) and give the tables of the model, which C22, C52 and C54 relate to the rules; a simulation between runs that know the statics and runs that evaluate them (`TextAlone.v`) |
| C82 | the text of each module is a program of its own (`BitboardText.v`, `BitsDefs.v`); straight-line code is run symbolically (`BitsRun.v`), the constant tables by evaluation, table indices are in range by the lemmas of C37, the iterator by induction over the members (`TextCore.v`, `TextX86.v`, `TextNeon.v`, `TextWasm.v`); C82_slides and C82_pawns compose this with the membership specification of the backends |
| C83 | the text of `perft` is part of the program of C79; a turn of its loop is run symbolically for depth 0 and 1, 2, and more (`TextPerft.v`), the calls of `legal_moves`, `do_move` and `undo_move` by the lemmas of C79, the loop by induction over the moves, the recursion by induction over the depth; C83_counts composes this with the counting theorem of C62; the lines printed (at the root one for each legal move, with the number of lines after it, and no others) are part of the run (`TextPrint.v`); `C83_quiet`: the calls of C79 and C80 print nothing |
| C84 | `text_library` (`TextLink.v`) says that each operation of a library returns what the call of the text returns; calls have one result, so by C82 the library agrees with the model of the backend and meets the membership specification; C79 holds for every library, the simulation between two libraries with that specification (C23) and the undo theorem carry the rest of C80 over; `C84_perft` (`PropTextSearch.v`) does the same for the search of C83, whose run is proved for any set of positions closed under the moves of the search |
| C85 | the text of a move is two squares or a letter, `*` and a square: each part can be taken off the front (`Usi.v`), the numbers by `DecimalN` of the standard library; the lines of C83 are given their text; `C85_notation` spells the notation out; `C85_library` carries this over to the libraries of C84, and by C12 any two of them print the same text (`C85_same_text`) |

## Trusted base

* Coq 8.16.1's kernel (including its VM for `vm_compute`; `coqchk` rechecks
  without it).
* Axioms: none. `Print Assumptions` under every property theorem prints "Closed
  under the global context". `coqchk` lists seven constants of a module type
  in the standard library that is loaded but not used by any theorem:
  `Coq.ssr.ssrunder.Under_rel.*`.
* The reading of /repo: the model is a hand translation; each definition cites
  the lines it models. For `src/position.rs`, `src/movegen.rs`, `src/tables.rs`, `src/zobrist.rs`, `src/bitboard.rs`
  and `src/bitboard/*.rs` and for `fn perft` of `examples/perft.rs` the translation is checked by C79, C81, C82 and C83: there the strings of `SourceText.v` and `BitboardText.v` are copies of the files, and
  what is trusted instead is the parser and the machine (`RustSyntax.v`, `RustSem.v`).
  Simplifications of the machine: an integer literal without a type is unbounded until
  it meets a typed integer (so the loop counters `i` and `checkers_count` and the
  sum of `perft` at depth 1 cannot overflow, and `!0` is -1); types, lifetimes, attributes, visibility and generic
  arguments are skipped (the parser keeps the types of casts and of fields);
  references are values, and a parameter `&mut T` is copied in and out, which is
  the same where there is no aliasing; `a op= b` evaluates `b` first; the closure of
  `filter` is run on all elements before the loop; the functions of `shogi_core`,
  of `ArrayVec` are those of the model, and so are those of the bitboard module in the
  program of the other files (C82 runs the bitboard modules as programs of their own);
  `println!` gives out a line, the format and the values (`TextPrint.v`: the machine of
  `RustSem.v` stops at it, and what runs to an end there has printed nothing), where a
  move stands for its text `to_usi_owned` (written out in C85);
  a vector register is two 64-bit lanes, an intrinsic a function on them, a raw pointer
  the array it was made from (C67 is about the memory); the `i64` lanes of `x86_64.rs`
  are kept as unsigned numbers (`!= 0`, `&`, `wrapping_sub`, `trailing_zeros` and
  `count_ones` do not depend on the sign); `StdRng` is any
  function from seeds to sequences of numbers; the initialiser of a static is run at
  every use (C81 shows that it gives the same value every time, and that results
  are the same when values are kept).
* External crates, modelled by what yasai relies on:
  `shogi_core` (types in `Types.v`; `Bitboard` of the portable backend in
  `BackendCore.v`: single/contains/boolean operations/`!` within 81 squares,
  ascending iteration, `shift_up` / `shift_down` dropping squares that leave
  the board, `to_u128` layout; `to_usi_owned` writes a move as the USI protocol has it, `Usi.v`), `arrayvec` (push panics when full,
  `swap_remove`), `rand` (any stream of u64; C66 alone
  assumes that version 0.8.5 is what `StdRng.v` says), SIMD intrinsics (documented
  effect on unsigned lanes, and the target feature that each one needs).

## Not modelled

* Parsing (USI/SFEN), printing other than that of moves (C85), `Debug`. `Clone` is derived, and modelled as a copy of
  the value (`OnClone` of C64).
* Timing (the elapsed time is an input of the example's `main`, C62), memory, the
  text of the last three lines that `main` prints (the numbers are modelled).
* The code of `once_cell`: C65 assumes that the first dereference runs the
  initialiser while others wait, and that a cell never changes once it is full.
  The rest of the model uses the value that the initialiser leaves (C52, C54).
* `unsafe` blocks: the SIMD intrinsics are modelled by their value. The raw
  loads and stores are covered by C67, with Stacked Borrows as the aliasing
  rules (without protectors and two-phase borrows, which play no part there). The
  arguments of the unchecked constructors are covered by C24 (iterators), C36
  (`generate_for_fu`) and C37 (`vacant_files`); C38 shows that no operation's
  behaviour outside its domain matters. `unsafe` inside the external crates is
  not modelled.

## Findings about the code

* C15: `Position::new` does not put the side to move into the key.
* C18: without an opposing king 599 moves can exist; the 593-entry buffer
  overflows and `legal_moves` panics.
* C37: with two pawns on file 7 or 9, one of them on rank 9, the portable
  `vacant_files` gives an invalid value to `Bitboard::from_u128_unchecked`.
* C40: a pawn on its last rank (accepted by `new`) makes the SIMD backends list
  a move to another file; the portable backend does not. With a Black pawn on
  rank 9 and another on its file the backends differ too, and the portable one
  panics in builds with overflow checks if it is file 9.
* C58: a `do_move` that panics may leave a changed position: a failed promotion
  onto a piece leaves that piece on the board and in hand, a failed drop leaves
  its piece on the board.
* C57: `is_check_move` is right for many illegal moves, but not after a jump over
  the pinning slider, a retreat of a piece that already gives check, or a move of
  the opponent's king: `in_check` then denies a check.
* C56: `undo_move` does not check its argument; undoing a drop on a fresh
  position empties the history, after which every query panics.
* C55: a pawn drop that leaves the opponent checkmated is listed if they were
  checkmated before it and the pawn is not in front of their king.
* C41: if the opposing king is en prise (accepted by `new`), its capture is
  listed, and `do_move` panics on it.
* C35, C42: `do_move` accepts illegal moves, and a drop onto a piece loses it.
* C47: the example's perft counts the moves, not 1, at depth 0.
* C62: the example's counter is a `usize`; it overflows at depth 13 (32 bits, as on
  wasm32) or 25 (64 bits) at the latest, with a panic or a wrong total.
* C67: `values()` of x86_64.rs and aarch64.rs writes through `MaybeUninit::as_ptr()
  as *mut _`, a pointer made from a shared reference: undefined behaviour under
  Stacked Borrows. `as_mut_ptr` on a mutable variable repairs it.
