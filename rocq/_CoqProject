-Q theories Verif

theories/Types.v
theories/Rules.v
theories/Bitboard.v
theories/BackendCore.v
theories/BackendSimd.v
theories/Intrinsics.v
theories/Tables.v
theories/Zobrist.v
theories/Position.v
theories/Movegen.v
theories/Perft.v
theories/Api.v
theories/Sfen.v
theories/ModelTests.v
theories/Words.v
theories/Squares.v
theories/BBSpec.v
theories/SpecLanes.v
theories/SpecSlides.v
theories/SpecX86.v
theories/SpecVacant.v
theories/SpecSimd.v
theories/SpecCore.v
theories/Backends.v
theories/Geometry.v
theories/Attacks.v
theories/KingSafety.v
theories/Rep.v
theories/Legality.v
theories/PawnDrop.v
theories/Gen.v
theories/Drops.v
theories/Exact.v
theories/Loops.v
theories/ValidPlay.v
theories/Moves.v
theories/Hash.v
theories/Play.v
theories/Undo.v
theories/Reach.v
theories/Decide.v
theories/Capacity.v
theories/Lines.v
theories/Agree.v
theories/Bisim.v
theories/Twins.v
theories/PerftSpec.v
theories/Symmetry.v
theories/Consequences.v
theories/Panics.v
theories/Facts.v
theories/Simd.v
theories/Witness.v
theories/PropMoves.v
theories/PropPlay.v
theories/PropKeys.v
theories/PropBits.v
theories/PropAgree.v
theories/AnyMove.v
theories/Unsafe.v
theories/Domain.v
theories/PropSafety.v
theories/PropInternal.v
theories/Overflow.v
theories/Accept.v
theories/PropAccept.v
theories/Distinct.v
theories/PropDistinct.v
theories/PropLimits.v
theories/Tidy.v
theories/Listed.v
theories/PropTidy.v
theories/Init.v
theories/InitSpec.v
theories/PropInit.v
theories/PropOrderly.v
theories/PropUndo.v
theories/Fair.v
theories/PropFair.v
theories/Imper.v
theories/PropUnwind.v
theories/Capture.v
theories/Hands.v
theories/PropRules.v
theories/Divide.v
theories/DivideSpec.v
theories/RookLines.v
theories/PropDivide.v
theories/Collide.v
theories/PropCollide.v
theories/Client.v
theories/PropClient.v
theories/Lazy.v
theories/Statics.v
theories/PropLazy.v
theories/StdRng.v
theories/SeedTable.v
theories/Digits.v
theories/Siblings.v
theories/SiblingsSpec.v
theories/PropSeed.v
theories/Memory.v
theories/PropMemory.v
theories/Build.v
theories/PropBuild.v
theories/Flat.v
theories/PropFlat.v
theories/Source.v
theories/SourceSpec.v
theories/SourceClient.v
theories/PropSource.v
theories/Checkers.v
theories/PropCheckers.v
theories/PerftPanic.v
theories/PropPerft.v
theories/TransTable.v
theories/PropTable.v
theories/Count.v
theories/PropRare.v
theories/Repeat.v
theories/PropRepeat.v
theories/Ends.v
theories/PropEnds.v
theories/Search.v
theories/PropSearch.v
theories/SearchTable.v
theories/PropSearchTable.v
theories/PropSymPanic.v
theories/SharedSearch.v
theories/PropShared.v
theories/RustSyntax.v
theories/SourceText.v
theories/RustNames.v
theories/RustSem.v
theories/TextDefs.v
theories/TextRun.v
theories/TextTables.v
theories/TextInit.v
theories/TextZob.v
theories/TextPos.v
theories/TextGen.v
theories/TextMoves.v
theories/TextAlone.v
theories/PropText.v
theories/PropTextInit.v
theories/BitboardText.v
theories/BitsDefs.v
theories/BitsRun.v
theories/TextCore.v
theories/TextX86.v
theories/TextNeon.v
theories/TextWasm.v
theories/TextPrint.v
theories/TextPerft.v
theories/PropTextPerft.v
theories/PropTextBits.v
theories/TextLink.v
theories/PropTextLink.v
theories/PropTextSearch.v
theories/Usi.v
theories/PropUsi.v
theories/PropByHand.v
