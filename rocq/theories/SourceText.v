(** * The text of the source files

    Each string is the beginning of a file of /repo/src, up to its unit tests:
    position.rs lines 1-444, movegen.rs lines 1-405, tables.rs lines 1-257, zobrist.rs lines 1-87,
    and of examples/perft.rs lines 26-48.  The text is
    verbatim, except that a double quote is written twice, as Coq requires. *)

From Coq Require Import String.
Open Scope string_scope.

Definition position_rs : string :=
"use crate::bitboard::Bitboard;
use crate::tables::{ATTACK_TABLE, BETWEEN_TABLE};
use crate::zobrist::{Key, ZOBRIST_TABLE};
use shogi_core::{Color, Hand, Move, Piece, PieceKind, Square};

/// Represents a state of the game with history. This provides the ability to do and undo moves.
#[derive(Debug, Clone)]
pub struct Position {
    inner: PartialPosition,
    /// History of the positions
    states: Vec<State>,
}

impl Position {
    pub fn new(partial: shogi_core::PartialPosition) -> Position {
        let inner = PartialPosition::from(partial);
        let mut keys = (Key::ZERO, Key::ZERO);
        for sq in Square::all() {
            if let Some(p) = inner.board[sq.array_index()] {
                keys.0 ^= ZOBRIST_TABLE.board(sq, p);
            }
        }
        for c in Color::all() {
            for pk in Hand::all_hand_pieces() {
                if let Some(num) = inner.hands[c.array_index()].count(pk) {
                    for i in 0..num {
                        keys.1 ^= ZOBRIST_TABLE.hand(c, pk, i);
                    }
                }
            }
        }
        let checkers = AttackInfo::calculate_checkers(&inner);
        let state = State {
            keys,
            captured: None,
            last_moved: None,
            attack_info: AttackInfo::new(checkers, &inner),
        };
        Self {
            inner,
            states: vec![state],
        }
    }
    #[inline(always)]
    pub fn side_to_move(&self) -> Color {
        self.inner.side
    }
    #[inline(always)]
    pub fn ply(&self) -> u16 {
        self.inner.ply
    }
    #[inline(always)]
    pub fn hand(&self, color: Color) -> Hand {
        self.inner.hands[color.array_index()]
    }
    #[inline(always)]
    pub fn piece_at(&self, sq: Square) -> Option<Piece> {
        self.inner.piece_at(sq)
    }
    #[inline(always)]
    pub fn key(&self) -> u64 {
        (self.state().keys.0 ^ self.state().keys.1).value()
    }
    #[inline(always)]
    pub fn keys(&self) -> (u64, u64) {
        (self.state().keys.0.value(), self.state().keys.1.value())
    }
    #[inline(always)]
    pub fn in_check(&self) -> bool {
        !self.checkers().is_empty()
    }
    pub fn is_check_move(&self, m: Move) -> bool {
        match m {
            Move::Normal { from, to, promote } => {
                let piece = self.inner.piece_at(from).unwrap();
                let pk = piece.piece_kind();
                let pk = if promote {
                    pk.promote().unwrap_or(pk)
                } else {
                    pk
                };
                if self.checkable(pk, to) {
                    return true;
                }
                // 開き王手
                let c = self.inner.side.flip();
                if self.pinned(c).contains(from) {
                    let sq = self.king_position(c).unwrap();
                    return !(BETWEEN_TABLE[sq.array_index()][from.array_index()].contains(to)
                        || BETWEEN_TABLE[sq.array_index()][to.array_index()].contains(from));
                }
                false
            }
            Move::Drop { to, piece } => self.checkable(piece.piece_kind(), to),
        }
    }
    pub fn do_move(&mut self, m: Move) {
        let c = self.side_to_move();
        let is_check = self.is_check_move(m);
        let captured = self.inner.piece_at(m.to());
        let last_moved;
        let mut keys = self.state().keys;
        let checkers = match m {
            Move::Normal { from, to, promote } => {
                let piece = self.inner.piece_at(from).unwrap();
                last_moved = Some(piece);
                if let Some(p) = captured {
                    let pk = p.piece_kind();
                    let pk_unpromoted = pk.unpromote().unwrap_or(pk);
                    // Update keys
                    keys.0 ^= ZOBRIST_TABLE.board(to, p);
                    keys.1 ^= ZOBRIST_TABLE.hand(
                        c,
                        pk_unpromoted,
                        self.inner.hand_of_a_player(c).count(pk_unpromoted).unwrap(),
                    );
                    // Update inner state
                    self.inner.xor_piece(to, p);
                    let hand = self.inner.hand_of_a_player_mut(c);
                    *hand = hand.added(pk_unpromoted).unwrap();
                }
                let target_piece = if promote {
                    piece.promote().unwrap()
                } else {
                    piece
                };
                // Update inner state
                self.inner.xor_piece(from, piece);
                self.inner.xor_piece(to, target_piece);
                *self.inner.piece_at_mut(from) = None;
                *self.inner.piece_at_mut(to) = Some(target_piece);
                self.inner.side = c.flip();
                // Update keys
                keys.0 ^= ZOBRIST_TABLE.board(from, piece);
                keys.0 ^= ZOBRIST_TABLE.board(to, target_piece);
                if is_check {
                    AttackInfo::calculate_checkers(&self.inner)
                } else {
                    Bitboard::empty()
                }
            }
            Move::Drop { to, piece } => {
                last_moved = Some(piece);
                // Update inner state
                self.inner.xor_piece(to, piece);
                *self.inner.piece_at_mut(to) = Some(piece);
                let hand = self.inner.hand_of_a_player_mut(c);
                *hand = hand.removed(piece.piece_kind()).unwrap();
                self.inner.side = c.flip();
                // Update keys
                keys.1 ^= ZOBRIST_TABLE.hand(
                    c,
                    piece.piece_kind(),
                    self.inner
                        .hand_of_a_player(c)
                        .count(piece.piece_kind())
                        .unwrap(),
                );
                keys.0 ^= ZOBRIST_TABLE.board(to, piece);
                if is_check {
                    Bitboard::single(to)
                } else {
                    Bitboard::empty()
                }
            }
        };
        self.inner.ply += 1;
        keys.0 ^= Key::COLOR;
        self.states.push(State {
            keys,
            captured,
            last_moved,
            attack_info: AttackInfo::new(checkers, &self.inner),
        });
    }
    pub fn undo_move(&mut self, m: Move) {
        let c = self.side_to_move().flip();
        match m {
            Move::Normal {
                from,
                to,
                promote: _,
            } => {
                let last_moved = self.last_moved().unwrap();
                let captured = self.captured();
                if let Some(p_cap) = captured {
                    let pk = p_cap.piece_kind();
                    let pk_unpromoted = pk.unpromote().unwrap_or(pk);
                    self.inner.xor_piece(to, p_cap);
                    let hand = self.inner.hand_of_a_player_mut(c);
                    *hand = hand.removed(pk_unpromoted).unwrap();
                }
                self.inner.xor_piece(from, last_moved);
                self.inner.xor_piece(to, self.inner.piece_at(to).unwrap());
                *self.inner.piece_at_mut(from) = Some(last_moved);
                *self.inner.piece_at_mut(to) = captured;
            }
            Move::Drop { to, piece } => {
                self.inner.xor_piece(to, piece);
                *self.inner.piece_at_mut(to) = None;
                let hand = self.inner.hand_of_a_player_mut(c);
                *hand = hand.added(piece.piece_kind()).unwrap();
            }
        }
        self.inner.side = c;
        self.inner.ply -= 1;
        self.states.pop();
    }
    #[inline(always)]
    pub(crate) fn player_bitboard(&self, c: Color) -> Bitboard {
        self.inner.player_bb[c.array_index()]
    }
    #[inline(always)]
    pub(crate) fn piece_kind_bitboard(&self, pk: PieceKind) -> Bitboard {
        self.inner.piece_bb[pk.array_index()]
    }
    #[inline(always)]
    pub(crate) fn piece_bitboard(&self, p: Piece) -> Bitboard {
        let (pk, c) = p.to_parts();
        self.inner.piece_bb[pk.array_index()] & self.inner.player_bb[c.array_index()]
    }
    #[inline(always)]
    pub(crate) fn occupied_bitboard(&self) -> Bitboard {
        self.inner.occupied_bitboard()
    }
    #[inline(always)]
    pub(crate) fn king_position(&self, c: Color) -> Option<Square> {
        self.inner.king_position(c)
    }
    #[inline(always)]
    pub(crate) fn captured(&self) -> Option<Piece> {
        self.state().captured
    }
    #[inline(always)]
    pub(crate) fn last_moved(&self) -> Option<Piece> {
        self.state().last_moved
    }
    #[inline(always)]
    pub(crate) fn checkers(&self) -> Bitboard {
        self.state().attack_info.checkers()
    }
    #[inline(always)]
    pub(crate) fn pinned(&self, c: Color) -> Bitboard {
        self.state().attack_info.pinned(c)
    }
    #[inline(always)]
    fn state(&self) -> &State {
        self.states.last().expect(""empty states"")
    }
    #[inline(always)]
    fn checkable(&self, pk: PieceKind, sq: Square) -> bool {
        self.state().attack_info.checkable(pk, sq)
    }
}

impl Default for Position {
    fn default() -> Self {
        Self::new(shogi_core::PartialPosition::startpos())
    }
}

/// Represents a state of a single position of a game.
#[derive(Clone, Debug)]
pub(crate) struct PartialPosition {
    side: Color,
    ply: u16,
    hands: [Hand; Color::NUM],
    board: [Option<Piece>; Square::NUM],
    player_bb: [Bitboard; Color::NUM],
    piece_bb: [Bitboard; PieceKind::NUM],
}

impl PartialPosition {
    #[inline(always)]
    fn xor_piece(&mut self, sq: Square, p: Piece) {
        let single = Bitboard::single(sq);
        let (pk, c) = p.to_parts();
        self.player_bb[c.array_index()] ^= single;
        self.piece_bb[pk.array_index()] ^= single;
    }
    #[inline(always)]
    fn piece_at(&self, sq: Square) -> Option<Piece> {
        self.board[sq.array_index()]
    }
    #[inline(always)]
    fn piece_at_mut(&mut self, sq: Square) -> &mut Option<Piece> {
        &mut self.board[sq.array_index()]
    }
    #[inline(always)]
    fn hand_of_a_player(&self, c: Color) -> Hand {
        self.hands[c.array_index()]
    }
    #[inline(always)]
    fn hand_of_a_player_mut(&mut self, c: Color) -> &mut Hand {
        &mut self.hands[c.array_index()]
    }
    #[inline(always)]
    fn occupied_bitboard(&self) -> Bitboard {
        self.player_bb[0] | self.player_bb[1]
    }
    #[inline(always)]
    fn king_position(&self, c: Color) -> Option<Square> {
        (self.player_bb[c.array_index()] & self.piece_bb[PieceKind::King.array_index()])
            .into_iter()
            .next()
    }
}

impl From<shogi_core::PartialPosition> for PartialPosition {
    fn from(pp: shogi_core::PartialPosition) -> Self {
        let mut hands = [Hand::default(); Color::NUM];
        let mut board = [None; Square::NUM];
        let mut player_bb = [Bitboard::empty(); Color::NUM];
        let mut piece_bb = [Bitboard::empty(); PieceKind::NUM];
        for c in Color::all() {
            hands[c.array_index()] = pp.hand_of_a_player(c);
        }
        for sq in Square::all() {
            let piece_at = pp.piece_at(sq);
            board[sq.array_index()] = piece_at;
            if let Some(p) = piece_at {
                player_bb[p.color().array_index()] |= Bitboard::single(sq);
                piece_bb[p.piece_kind().array_index()] |= Bitboard::single(sq);
            }
        }
        Self {
            side: pp.side_to_move(),
            ply: pp.ply(),
            hands,
            board,
            player_bb,
            piece_bb,
        }
    }
}

#[derive(Debug, Clone)]
struct State {
    /// Zobrist hashes for (board ^ side, hand)
    keys: (Key, Key),
    /// Piece captured on the last move
    captured: Option<Piece>,
    /// Last moved piece
    last_moved: Option<Piece>,
    attack_info: AttackInfo,
}

#[derive(Debug, Clone)]
struct AttackInfo {
    /// 手番側の王に対して王手をかけている相手駒の位置
    checkers: Bitboard,
    /// 各駒種が王手になり得る位置
    checkables: [Bitboard; PieceKind::NUM],
    /// Color番目の玉を飛び駒から守っている駒（Color問わず）の位置
    pinned: [Bitboard; Color::NUM],
}

impl AttackInfo {
    pub fn new(checkers: Bitboard, pos: &PartialPosition) -> Self {
        let opp = pos.side.flip();
        let occ = pos.occupied_bitboard();
        let mut pinned = [Bitboard::empty(), Bitboard::empty()];
        for c in Color::all() {
            if let Some(sq) = pos.king_position(c) {
                #[rustfmt::skip]
                let snipers = (
                      (ATTACK_TABLE.pseudo_attack(PieceKind::Lance, sq, c) & pos.piece_bb[PieceKind::Lance.array_index()])
                    | (ATTACK_TABLE.pseudo_attack(PieceKind::Bishop, sq, c) & (pos.piece_bb[PieceKind::Bishop.array_index()] | pos.piece_bb[PieceKind::ProBishop.array_index()]))
                    | (ATTACK_TABLE.pseudo_attack(PieceKind::Rook, sq, c) & (pos.piece_bb[PieceKind::Rook.array_index()] | pos.piece_bb[PieceKind::ProRook.array_index()]))
                ) & pos.player_bb[c.flip().array_index()];
                for sniper in snipers {
                    let blockers = BETWEEN_TABLE[sq.array_index()][sniper.array_index()] & occ;
                    if blockers.count() == 1 {
                        pinned[c.array_index()] |= blockers;
                    }
                }
            }
        }
        if let Some(sq) = pos.king_position(opp) {
            let ka = ATTACK_TABLE.ka.attack(sq, &occ);
            let hi = ATTACK_TABLE.hi.attack(sq, &occ);
            let ki = ATTACK_TABLE.ki.attack(sq, opp);
            let gi = ATTACK_TABLE.gi.attack(sq, opp);
            Self {
                checkers,
                checkables: [
                    ATTACK_TABLE.fu.attack(sq, opp),
                    ATTACK_TABLE.ky.attack(sq, opp, &occ),
                    ATTACK_TABLE.ke.attack(sq, opp),
                    gi,
                    ki,
                    ka,
                    hi,
                    Bitboard::empty(),
                    ki,
                    ki,
                    ki,
                    ki,
                    ka | ki,
                    hi | gi,
                ],
                pinned,
            }
        } else {
            Self {
                checkers,
                checkables: [Bitboard::empty(); PieceKind::NUM],
                pinned,
            }
        }
    }
    #[rustfmt::skip]
    pub fn calculate_checkers(pos: &PartialPosition) -> Bitboard {
        let c = pos.side;
        let occ = pos.occupied_bitboard();
        if let Some(sq) = pos.king_position(c) {
            (     (ATTACK_TABLE.fu.attack(sq, c)       & pos.piece_bb[PieceKind::Pawn.array_index()])
                | (ATTACK_TABLE.ky.attack(sq, c, &occ) & pos.piece_bb[PieceKind::Lance.array_index()])
                | (ATTACK_TABLE.ke.attack(sq, c)       & pos.piece_bb[PieceKind::Knight.array_index()])
                // Delta of ProRook (龍) is a superposition of GI and HI
                | (ATTACK_TABLE.gi.attack(sq, c)       & (pos.piece_bb[PieceKind::Silver.array_index()] | pos.piece_bb[PieceKind::ProRook.array_index()]))
                // Delta of ProBishop (馬) is a superposition of KA and KI
                | (ATTACK_TABLE.ka.attack(sq, &occ)    & (pos.piece_bb[PieceKind::Bishop.array_index()] | pos.piece_bb[PieceKind::ProBishop.array_index()]))
                | (ATTACK_TABLE.hi.attack(sq, &occ)    & (pos.piece_bb[PieceKind::Rook.array_index()] | pos.piece_bb[PieceKind::ProRook.array_index()]))
                | (ATTACK_TABLE.ki.attack(sq, c)       & (pos.piece_bb[PieceKind::Gold.array_index()] | pos.piece_bb[PieceKind::ProPawn.array_index()] | pos.piece_bb[PieceKind::ProLance.array_index()] | pos.piece_bb[PieceKind::ProKnight.array_index()] | pos.piece_bb[PieceKind::ProSilver.array_index()] | pos.piece_bb[PieceKind::ProBishop.array_index()]))
            ) & pos.player_bb[c.flip().array_index()]
        } else {
            Bitboard::empty()
        }
    }
    #[inline(always)]
    pub fn checkers(&self) -> Bitboard {
        self.checkers
    }
    #[inline(always)]
    pub fn pinned(&self, c: Color) -> Bitboard {
        self.pinned[c.array_index()]
    }
    #[inline(always)]
    pub fn checkable(&self, pk: PieceKind, sq: Square) -> bool {
        self.checkables[pk.array_index()].contains(sq)
    }
}

".

Definition movegen_rs : string :=
"use crate::bitboard::{Bitboard, Occupied};
use crate::tables::{ATTACK_TABLE, BETWEEN_TABLE, FILES, PROMOTABLE, RELATIVE_RANKS};
use crate::Position;
use arrayvec::ArrayVec;
use shogi_core::{Color, Hand, Move, Piece, PieceKind, Square};

const MAX_LEGAL_MOVES: usize = 593;

impl Position {
    pub fn legal_moves(&self) -> ArrayVec<Move, MAX_LEGAL_MOVES> {
        let mut av = ArrayVec::new();
        if self.in_check() {
            self.generate_evasions(&mut av);
        } else {
            self.generate_all(&mut av);
        }

        let mut i = 0;
        while i != av.len() {
            if self.is_legal(av[i]) {
                i += 1;
            } else {
                av.swap_remove(i);
            }
        }
        av
    }
    /// Generate moves.
    fn generate_all(&self, av: &mut ArrayVec<Move, MAX_LEGAL_MOVES>) {
        let target = !self.player_bitboard(self.side_to_move());
        self.generate_for_fu(av, &target);
        self.generate_for_ky(av, &target);
        self.generate_for_ke(av, &target);
        self.generate_for_gi(av, &target);
        self.generate_for_ka(av, &target);
        self.generate_for_hi(av, &target);
        self.generate_for_ki(av, &target);
        self.generate_for_ou(av, &target);
        self.generate_for_um(av, &target);
        self.generate_for_ry(av, &target);
        self.generate_drop(av, &(!self.occupied_bitboard() & !Bitboard::empty()));
    }
    /// Generate moves to evade check, optimized using AttackInfo.
    fn generate_evasions(&self, av: &mut ArrayVec<Move, MAX_LEGAL_MOVES>) {
        let c = self.side_to_move();
        let king = self.king_position(c).unwrap();
        let mut checkers_attacks = Bitboard::empty();
        let mut checkers_count = 0;
        for ch in self.checkers() {
            let pk = self.piece_at(ch).unwrap().piece_kind();
            // 龍が斜め位置から王手している場合のみ、他の駒の裏に逃がれることができる可能性がある
            if pk == PieceKind::ProRook && ch.file() != king.file() && ch.rank() != king.rank() {
                checkers_attacks |= ATTACK_TABLE.hi.attack(ch, &self.occupied_bitboard());
            } else {
                checkers_attacks |= ATTACK_TABLE.pseudo_attack(pk, ch, c.flip());
            }
            checkers_count += 1;
        }
        for to in ATTACK_TABLE.ou.attack(king, c) & !self.player_bitboard(c) & !checkers_attacks {
            av.push(Move::Normal {
                from: king,
                to,
                promote: false,
            });
        }
        // 両王手の場合は玉が逃げるしかない
        if checkers_count > 1 {
            return;
        }
        let ch = self.checkers().into_iter().next().unwrap();
        let target_drop = BETWEEN_TABLE[ch.array_index()][king.array_index()];
        let target_move = target_drop | self.checkers();
        self.generate_for_fu(av, &target_move);
        self.generate_for_ky(av, &target_move);
        self.generate_for_ke(av, &target_move);
        self.generate_for_gi(av, &target_move);
        self.generate_for_ka(av, &target_move);
        self.generate_for_hi(av, &target_move);
        self.generate_for_ki(av, &target_move);
        self.generate_for_um(av, &target_move);
        self.generate_for_ry(av, &target_move);
        if !target_drop.is_empty() {
            // No need to exclude occupied bitboard: Existence of cells between attacker and king is given.
            self.generate_drop(av, &target_drop);
        }
    }
    fn generate_for_fu(&self, av: &mut ArrayVec<Move, MAX_LEGAL_MOVES>, target: &Bitboard) {
        let c = self.side_to_move();
        let (to_bb, delta) = [
            (self.piece_bitboard(Piece::B_P).shr(), 1),
            (self.piece_bitboard(Piece::W_P).shl(), !0),
        ][c.array_index()];
        for to in to_bb & target {
            let from = unsafe { Square::from_u8_unchecked(to.index().wrapping_add(delta)) };
            if PROMOTABLE[to.array_index()][c.array_index()] {
                av.push(Move::Normal {
                    from,
                    to,
                    promote: true,
                });
                if RELATIVE_RANKS[to.array_index()][c.array_index()] > 1 {
                    av.push(Move::Normal {
                        from,
                        to,
                        promote: false,
                    });
                }
            } else {
                av.push(Move::Normal {
                    from,
                    to,
                    promote: false,
                });
            }
        }
    }
    fn generate_for_ky(&self, av: &mut ArrayVec<Move, MAX_LEGAL_MOVES>, target: &Bitboard) {
        let c = self.side_to_move();
        for from in self.player_bitboard(c) & self.piece_kind_bitboard(PieceKind::Lance) {
            for to in ATTACK_TABLE.ky.attack(from, c, &self.occupied_bitboard()) & target {
                if PROMOTABLE[to.array_index()][c.array_index()] {
                    av.push(Move::Normal {
                        from,
                        to,
                        promote: true,
                    });
                    if RELATIVE_RANKS[to.array_index()][c.array_index()] > 1 {
                        av.push(Move::Normal {
                            from,
                            to,
                            promote: false,
                        });
                    }
                } else {
                    av.push(Move::Normal {
                        from,
                        to,
                        promote: false,
                    });
                }
            }
        }
    }
    fn generate_for_ke(&self, av: &mut ArrayVec<Move, MAX_LEGAL_MOVES>, target: &Bitboard) {
        let c = self.side_to_move();
        for from in self.player_bitboard(c) & self.piece_kind_bitboard(PieceKind::Knight) {
            for to in ATTACK_TABLE.ke.attack(from, c) & target {
                if PROMOTABLE[to.array_index()][c.array_index()] {
                    av.push(Move::Normal {
                        from,
                        to,
                        promote: true,
                    });
                    if RELATIVE_RANKS[to.array_index()][c.array_index()] > 2 {
                        av.push(Move::Normal {
                            from,
                            to,
                            promote: false,
                        });
                    }
                } else {
                    av.push(Move::Normal {
                        from,
                        to,
                        promote: false,
                    });
                }
            }
        }
    }
    fn generate_for_gi(&self, av: &mut ArrayVec<Move, MAX_LEGAL_MOVES>, target: &Bitboard) {
        let c = self.side_to_move();
        for from in self.player_bitboard(c) & self.piece_kind_bitboard(PieceKind::Silver) {
            let from_is_opponent_field = PROMOTABLE[from.array_index()][c.array_index()];
            for to in ATTACK_TABLE.gi.attack(from, c) & target {
                av.push(Move::Normal {
                    from,
                    to,
                    promote: false,
                });
                if from_is_opponent_field || PROMOTABLE[to.array_index()][c.array_index()] {
                    av.push(Move::Normal {
                        from,
                        to,
                        promote: true,
                    });
                }
            }
        }
    }
    fn generate_for_ka(&self, av: &mut ArrayVec<Move, MAX_LEGAL_MOVES>, target: &Bitboard) {
        let c = self.side_to_move();
        for from in self.player_bitboard(c) & self.piece_kind_bitboard(PieceKind::Bishop) {
            let from_is_opponent_field = PROMOTABLE[from.array_index()][c.array_index()];
            for to in ATTACK_TABLE.ka.attack(from, &self.occupied_bitboard()) & target {
                av.push(Move::Normal {
                    from,
                    to,
                    promote: false,
                });
                if from_is_opponent_field || PROMOTABLE[to.array_index()][c.array_index()] {
                    av.push(Move::Normal {
                        from,
                        to,
                        promote: true,
                    });
                }
            }
        }
    }
    fn generate_for_hi(&self, av: &mut ArrayVec<Move, MAX_LEGAL_MOVES>, target: &Bitboard) {
        let c = self.side_to_move();
        for from in self.player_bitboard(c) & self.piece_kind_bitboard(PieceKind::Rook) {
            let from_is_opponent_field = PROMOTABLE[from.array_index()][c.array_index()];
            for to in ATTACK_TABLE.hi.attack(from, &self.occupied_bitboard()) & target {
                av.push(Move::Normal {
                    from,
                    to,
                    promote: false,
                });
                if from_is_opponent_field || PROMOTABLE[to.array_index()][c.array_index()] {
                    av.push(Move::Normal {
                        from,
                        to,
                        promote: true,
                    });
                }
            }
        }
    }
    // Generate moves of pieces which moves like KI
    fn generate_for_ki(&self, av: &mut ArrayVec<Move, MAX_LEGAL_MOVES>, target: &Bitboard) {
        let c = self.side_to_move();
        for from in (self.piece_kind_bitboard(PieceKind::Gold)
            | self.piece_kind_bitboard(PieceKind::ProPawn)
            | self.piece_kind_bitboard(PieceKind::ProLance)
            | self.piece_kind_bitboard(PieceKind::ProKnight)
            | self.piece_kind_bitboard(PieceKind::ProSilver))
            & self.player_bitboard(c)
        {
            for to in ATTACK_TABLE.ki.attack(from, c) & target {
                av.push(Move::Normal {
                    from,
                    to,
                    promote: false,
                });
            }
        }
    }
    fn generate_for_ou(&self, av: &mut ArrayVec<Move, MAX_LEGAL_MOVES>, target: &Bitboard) {
        let c = self.side_to_move();
        for from in self.player_bitboard(c) & self.piece_kind_bitboard(PieceKind::King) {
            for to in ATTACK_TABLE.ou.attack(from, c) & target {
                av.push(Move::Normal {
                    from,
                    to,
                    promote: false,
                });
            }
        }
    }
    fn generate_for_um(&self, av: &mut ArrayVec<Move, MAX_LEGAL_MOVES>, target: &Bitboard) {
        let c = self.side_to_move();
        for from in self.player_bitboard(c) & self.piece_kind_bitboard(PieceKind::ProBishop) {
            for to in (ATTACK_TABLE.ka.attack(from, &self.occupied_bitboard())
                | ATTACK_TABLE.ou.attack(from, c))
                & target
            {
                av.push(Move::Normal {
                    from,
                    to,
                    promote: false,
                });
            }
        }
    }
    fn generate_for_ry(&self, av: &mut ArrayVec<Move, MAX_LEGAL_MOVES>, target: &Bitboard) {
        let c = self.side_to_move();
        for from in self.player_bitboard(c) & self.piece_kind_bitboard(PieceKind::ProRook) {
            for to in (ATTACK_TABLE.hi.attack(from, &self.occupied_bitboard())
                | ATTACK_TABLE.ou.attack(from, c))
                & target
            {
                av.push(Move::Normal {
                    from,
                    to,
                    promote: false,
                });
            }
        }
    }
    fn generate_drop(&self, av: &mut ArrayVec<Move, MAX_LEGAL_MOVES>, target: &Bitboard) {
        let c = self.side_to_move();
        let hand = self.hand(self.side_to_move());
        for pk in Hand::all_hand_pieces().filter(|&pk| hand.count(pk).unwrap_or_default() > 0) {
            let mut target = *target;
            if pk == PieceKind::Pawn {
                target &= (self.player_bitboard(c) & self.piece_kind_bitboard(PieceKind::Pawn))
                    .vacant_files();
                // 打ち歩詰めチェック
                if let Some(sq) = self.king_position(c.flip()) {
                    if let Some(to) = ATTACK_TABLE.fu.attack(sq, c.flip()).into_iter().next() {
                        if target.contains(to) && self.is_pawn_drop_mate(to) {
                            target &= !Bitboard::single(to);
                        }
                    }
                }
            }
            let piece = Piece::new(pk, c);
            for to in target {
                if match pk {
                    PieceKind::Pawn | PieceKind::Lance => {
                        RELATIVE_RANKS[to.array_index()][c.array_index()] > 1
                    }
                    PieceKind::Knight => RELATIVE_RANKS[to.array_index()][c.array_index()] > 2,
                    _ => true,
                } {
                    av.push(Move::Drop { to, piece });
                }
            }
        }
    }
    // Checks if the move isn't illegal: king's suicidal moves and moving pinned piece away.
    fn is_legal(&self, m: Move) -> bool {
        if let Some(from) = m.from() {
            let c = self.side_to_move();
            let king = [Piece::B_K, Piece::W_K][c.array_index()];
            // 玉が相手の攻撃範囲内に動いてしまう指し手は除外
            if self.piece_at(from) == Some(king)
                && !self
                    .attackers_to(c.flip(), m.to(), &self.occupied_bitboard())
                    .is_empty()
            {
                return false;
            }
            // 飛び駒から守っている駒が直線上から外れてしまう指し手は除外
            if self.pinned(c).contains(from) {
                if let Some(sq) = self.king_position(c) {
                    if !(BETWEEN_TABLE[sq.array_index()][from.array_index()].contains(m.to())
                        || BETWEEN_TABLE[sq.array_index()][m.to().array_index()].contains(from))
                    {
                        return false;
                    }
                }
            }
        }
        true
    }
    fn is_pawn_drop_mate(&self, sq: Square) -> bool {
        let c = self.side_to_move();
        // 玉自身が歩を取れる
        if self
            .attackers_to(c, sq, &self.occupied_bitboard())
            .is_empty()
        {
            return false;
        }
        // 他の駒が歩を取れる
        // 飛/龍がまっすぐ引いて取るのは常に可能
        let capture_candidates = self.attackers_to_except_klp(c.flip(), sq);
        if !(capture_candidates & (!self.pinned(c.flip()) | FILES[usize::from(sq.file())]))
            .is_empty()
        {
            return false;
        }
        // 玉が逃げられる
        if let Some(king) = self.king_position(c.flip()) {
            let single = Bitboard::single(sq);
            let escape =
                ATTACK_TABLE.ou.attack(king, c.flip()) & !self.player_bitboard(c.flip()) & !single;
            let occupied = self.occupied_bitboard() | single;
            for to in escape {
                if self.attackers_to(c, to, &occupied).is_empty() {
                    return false;
                }
            }
        }
        true
    }
    #[rustfmt::skip]
    fn attackers_to(&self, c: Color, to: Square, occ: &Bitboard) -> Bitboard {
        let opp = c.flip();
        (     (ATTACK_TABLE.fu.attack(to, opp)      & self.piece_kind_bitboard(PieceKind::Pawn))
            | (ATTACK_TABLE.ky.attack(to, opp, occ) & self.piece_kind_bitboard(PieceKind::Lance))
            | (ATTACK_TABLE.ke.attack(to, opp)      & self.piece_kind_bitboard(PieceKind::Knight))
            | (ATTACK_TABLE.gi.attack(to, opp)      & (self.piece_kind_bitboard(PieceKind::Silver) | self.piece_kind_bitboard(PieceKind::ProRook) | self.piece_kind_bitboard(PieceKind::King)))
            | (ATTACK_TABLE.ka.attack(to, occ)      & (self.piece_kind_bitboard(PieceKind::Bishop) | self.piece_kind_bitboard(PieceKind::ProBishop)))
            | (ATTACK_TABLE.hi.attack(to, occ)      & (self.piece_kind_bitboard(PieceKind::Rook) | self.piece_kind_bitboard(PieceKind::ProRook)))
            | (ATTACK_TABLE.ki.attack(to, opp)      & (self.piece_kind_bitboard(PieceKind::Gold) | self.piece_kind_bitboard(PieceKind::ProPawn) | self.piece_kind_bitboard(PieceKind::ProLance) | self.piece_kind_bitboard(PieceKind::ProKnight) | self.piece_kind_bitboard(PieceKind::ProSilver) | self.piece_kind_bitboard(PieceKind::ProBishop) | self.piece_kind_bitboard(PieceKind::King)))
        ) & self.player_bitboard(c)
    }
    /// Attackers except for king, lance & pawn, which are not applicable to evade check by pawn
    #[rustfmt::skip]
    fn attackers_to_except_klp(&self, c: Color, to: Square) -> Bitboard {
        let opp = c.flip();
        let occ = &self.occupied_bitboard();
        (     (ATTACK_TABLE.ke.attack(to, opp) & self.piece_kind_bitboard(PieceKind::Knight))
            | (ATTACK_TABLE.gi.attack(to, opp) & (self.piece_kind_bitboard(PieceKind::Silver) | self.piece_kind_bitboard(PieceKind::ProRook)))
            | (ATTACK_TABLE.ka.attack(to, occ) & (self.piece_kind_bitboard(PieceKind::Bishop) | self.piece_kind_bitboard(PieceKind::ProBishop)))
            | (ATTACK_TABLE.hi.attack(to, occ) & (self.piece_kind_bitboard(PieceKind::Rook) | self.piece_kind_bitboard(PieceKind::ProRook)))
            | (ATTACK_TABLE.ki.attack(to, opp) & (self.piece_kind_bitboard(PieceKind::Gold) | self.piece_kind_bitboard(PieceKind::ProPawn) | self.piece_kind_bitboard(PieceKind::ProLance) | self.piece_kind_bitboard(PieceKind::ProKnight) | self.piece_kind_bitboard(PieceKind::ProSilver) | self.piece_kind_bitboard(PieceKind::ProBishop)))
        ) & self.player_bitboard(c)
    }
}

".

Definition tables_rs : string :=
"use crate::bitboard::{Bitboard, Occupied};
use once_cell::sync::Lazy;
use shogi_core::{Color, PieceKind, Square};
use std::cmp::Ordering;

#[derive(Clone, Copy)]
struct Delta {
    file: i8,
    rank: i8,
}

#[rustfmt::skip]
impl Delta {
    const N:   Delta = Delta { file:  0, rank: -1 };
    const E:   Delta = Delta { file: -1, rank:  0 };
    const S:   Delta = Delta { file:  0, rank:  1 };
    const W:   Delta = Delta { file:  1, rank:  0 };
    const NE:  Delta = Delta { file: -1, rank: -1 };
    const SE:  Delta = Delta { file: -1, rank:  1 };
    const SW:  Delta = Delta { file:  1, rank:  1 };
    const NW:  Delta = Delta { file:  1, rank: -1 };
    const NNE: Delta = Delta { file: -1, rank: -2 };
    const NNW: Delta = Delta { file:  1, rank: -2 };
    const SSE: Delta = Delta { file: -1, rank:  2 };
    const SSW: Delta = Delta { file:  1, rank:  2 };
}

pub struct PieceAttackTable([[Bitboard; Color::NUM]; Square::NUM]);

impl PieceAttackTable {
    #[rustfmt::skip]    const BFU_DELTAS: &'static [Delta] = &[Delta::N];
    #[rustfmt::skip]    const WFU_DELTAS: &'static [Delta] = &[Delta::S];
    #[rustfmt::skip]    const BKE_DELTAS: &'static [Delta] = &[Delta::NNE, Delta::NNW];
    #[rustfmt::skip]    const WKE_DELTAS: &'static [Delta] = &[Delta::SSE, Delta::SSW];
    #[rustfmt::skip]    const BGI_DELTAS: &'static [Delta] = &[Delta::N, Delta::NE, Delta::SE, Delta::SW, Delta::NW];
    #[rustfmt::skip]    const WGI_DELTAS: &'static [Delta] = &[Delta::S, Delta::NE, Delta::SE, Delta::SW, Delta::NW];
    #[rustfmt::skip]    const BKI_DELTAS: &'static [Delta] = &[Delta::N, Delta::E, Delta::S, Delta::W, Delta::NE, Delta::NW];
    #[rustfmt::skip]    const WKI_DELTAS: &'static [Delta] = &[Delta::N, Delta::E, Delta::S, Delta::W, Delta::SE, Delta::SW];
    #[rustfmt::skip]    const BOU_DELTAS: &'static [Delta] = &[Delta::N, Delta::E, Delta::S, Delta::W, Delta::NE, Delta::SE, Delta::SW, Delta::NW];
    #[rustfmt::skip]    const WOU_DELTAS: &'static [Delta] = &[Delta::N, Delta::E, Delta::S, Delta::W, Delta::NE, Delta::SE, Delta::SW, Delta::NW];

    fn new(deltas: &[&[Delta]; Color::NUM]) -> Self {
        let mut table = [[Bitboard::empty(); Color::NUM]; Square::NUM];
        for sq in Square::all() {
            for color in Color::all() {
                for &delta in deltas[color.array_index()] {
                    if let Some(to) = sq.shift(delta.file, delta.rank) {
                        table[sq.array_index()][color.array_index()] |= Bitboard::single(to);
                    }
                }
            }
        }
        Self(table)
    }
    #[inline(always)]
    pub(crate) fn attack(&self, sq: Square, c: Color) -> Bitboard {
        self.0[sq.array_index()][c.array_index()]
    }
}

/// Sliding attack, potentially including a square occupied by a friend.
fn sliding_attack(sq: Square, occ: Bitboard, delta: Delta) -> Bitboard {
    let mut bb = Bitboard::empty();
    let mut curr = sq.shift(delta.file, delta.rank);
    while let Some(to) = curr {
        bb |= Bitboard::single(to);
        if occ.contains(to) {
            break;
        }
        curr = to.shift(delta.file, delta.rank);
    }
    bb
}

pub struct LanceAttackTable {
    masks: [[Bitboard; Color::NUM]; Square::NUM],
}

impl LanceAttackTable {
    fn new() -> Self {
        let mut masks = [[Bitboard::empty(); Color::NUM]; Square::NUM];
        for sq in Square::all() {
            for c in Color::all() {
                let delta = match c {
                    Color::Black => Delta::N,
                    Color::White => Delta::S,
                };
                masks[sq.array_index()][c.array_index()] =
                    sliding_attack(sq, Bitboard::empty(), delta);
            }
        }
        Self { masks }
    }
    /// Attack as if there were nothing else on the board.
    #[inline(always)]
    fn pseudo_attack(&self, sq: Square, c: Color) -> Bitboard {
        self.masks[sq.array_index()][c.array_index()]
    }
    #[inline(always)]
    pub(crate) fn attack(&self, sq: Square, c: Color, occ: &Bitboard) -> Bitboard {
        let mask = self.masks[sq.array_index()][c.array_index()];
        match c {
            Color::Black => occ.sliding_negative_consecutive(&mask),
            Color::White => occ.sliding_positive_consecutive(&mask),
        }
    }
}

pub struct SlidingAttackTable {
    masks: [[[Bitboard; 2]; 2]; Square::NUM],
    merged_masks: [Bitboard; Square::NUM],
}

impl SlidingAttackTable {
    fn new(deltas: [[Delta; 2]; 2]) -> Self {
        let mut masks = [[[Bitboard::empty(); 2]; 2]; Square::NUM];
        let mut merged_masks = [Bitboard::empty(); Square::NUM];
        for sq in Square::all() {
            let mut merged_mask = Bitboard::empty();
            for (i, ds) in deltas.iter().enumerate() {
                for (j, &d) in ds.iter().enumerate() {
                    masks[sq.array_index()][i][j] = sliding_attack(sq, Bitboard::empty(), d);
                    merged_mask |= masks[sq.array_index()][i][j];
                }
            }
            merged_masks[sq.array_index()] = merged_mask;
        }
        Self {
            masks,
            merged_masks,
        }
    }
    /// Attack as if there were nothing else on the board.
    #[inline(always)]
    fn pseudo_attack(&self, sq: Square) -> Bitboard {
        self.merged_masks[sq.array_index()]
    }
    #[inline(always)]
    pub(crate) fn attack(&self, sq: Square, occ: &Bitboard) -> Bitboard {
        let masks = self.masks[sq.array_index()];
        occ.sliding_negatives(&masks[0]) | occ.sliding_positives(&masks[1])
    }
}

pub struct AttackTable {
    pub fu: PieceAttackTable,
    pub ky: LanceAttackTable,
    pub ke: PieceAttackTable,
    pub gi: PieceAttackTable,
    pub ka: SlidingAttackTable,
    pub hi: SlidingAttackTable,
    pub ki: PieceAttackTable,
    pub ou: PieceAttackTable,
}

impl AttackTable {
    pub(crate) fn attack(&self, pk: PieceKind, sq: Square, c: Color, occ: &Bitboard) -> Bitboard {
        match pk {
            PieceKind::Pawn => self.fu.attack(sq, c),
            PieceKind::Lance => self.ky.attack(sq, c, occ),
            PieceKind::Knight => self.ke.attack(sq, c),
            PieceKind::Silver => self.gi.attack(sq, c),
            PieceKind::Bishop => self.ka.attack(sq, occ),
            PieceKind::Rook => self.hi.attack(sq, occ),
            PieceKind::Gold
            | PieceKind::ProPawn
            | PieceKind::ProLance
            | PieceKind::ProKnight
            | PieceKind::ProSilver => self.ki.attack(sq, c),
            PieceKind::King => self.ou.attack(sq, c),
            PieceKind::ProBishop => self.ka.attack(sq, occ) | self.ou.attack(sq, c),
            PieceKind::ProRook => self.hi.attack(sq, occ) | self.ou.attack(sq, c),
        }
    }
    /// Attack as if there were nothing else on the board.
    pub(crate) fn pseudo_attack(&self, pk: PieceKind, sq: Square, c: Color) -> Bitboard {
        match pk {
            PieceKind::Lance => self.ky.pseudo_attack(sq, c),
            PieceKind::Bishop | PieceKind::ProBishop => self.ka.pseudo_attack(sq),
            PieceKind::Rook | PieceKind::ProRook => self.hi.pseudo_attack(sq),
            pk => self.attack(pk, sq, c, &Bitboard::empty()),
        }
    }
}

pub static ATTACK_TABLE: Lazy<AttackTable> = Lazy::new(|| AttackTable {
    fu: PieceAttackTable::new(&[PieceAttackTable::BFU_DELTAS, PieceAttackTable::WFU_DELTAS]),
    ky: LanceAttackTable::new(),
    ke: PieceAttackTable::new(&[PieceAttackTable::BKE_DELTAS, PieceAttackTable::WKE_DELTAS]),
    gi: PieceAttackTable::new(&[PieceAttackTable::BGI_DELTAS, PieceAttackTable::WGI_DELTAS]),
    ka: SlidingAttackTable::new([[Delta::NE, Delta::SE], [Delta::SW, Delta::NW]]),
    hi: SlidingAttackTable::new([[Delta::N, Delta::E], [Delta::S, Delta::W]]),
    ki: PieceAttackTable::new(&[PieceAttackTable::BKI_DELTAS, PieceAttackTable::WKI_DELTAS]),
    ou: PieceAttackTable::new(&[PieceAttackTable::BOU_DELTAS, PieceAttackTable::WOU_DELTAS]),
});

/// A table of the squares between two squares. ""Between"" is defined only for 8 directions.
pub(crate) static BETWEEN_TABLE: Lazy<[[Bitboard; Square::NUM]; Square::NUM]> = Lazy::new(|| {
    let mut bbs = [[Bitboard::empty(); Square::NUM]; Square::NUM];
    for sq0 in Square::all() {
        for sq1 in Square::all() {
            let (df, dr) = (
                sq1.file() as i8 - sq0.file() as i8,
                sq1.rank() as i8 - sq0.rank() as i8,
            );
            if (df | dr == 0) || (df != 0 && dr != 0 && df.abs() != dr.abs()) {
                continue;
            }
            #[rustfmt::skip]
            let delta = match (df.cmp(&0), dr.cmp(&0)) {
                (Ordering::Equal,   Ordering::Less)    => Delta::N,
                (Ordering::Less,    Ordering::Equal)   => Delta::E,
                (Ordering::Equal,   Ordering::Greater) => Delta::S,
                (Ordering::Greater, Ordering::Equal)   => Delta::W,
                (Ordering::Less,    Ordering::Less)    => Delta::NE,
                (Ordering::Less,    Ordering::Greater) => Delta::SE,
                (Ordering::Greater, Ordering::Greater) => Delta::SW,
                (Ordering::Greater, Ordering::Less)    => Delta::NW,
                _ => unreachable!(),
            };
            bbs[sq0.array_index()][sq1.array_index()] =
                sliding_attack(sq0, Bitboard::single(sq1), delta) & !Bitboard::single(sq1);
        }
    }
    bbs
});

pub(crate) static RELATIVE_RANKS: Lazy<[[usize; Color::NUM]; Square::NUM]> = Lazy::new(|| {
    let mut ranks = [[0; Color::NUM]; Square::NUM];
    for sq in Square::all() {
        for c in Color::all() {
            ranks[sq.array_index()][c.array_index()] = sq.relative_rank(c) as usize;
        }
    }
    ranks
});

pub(crate) static PROMOTABLE: Lazy<[[bool; Color::NUM]; Square::NUM]> = Lazy::new(|| {
    let mut table = [[false; Color::NUM]; Square::NUM];
    for sq in Square::all() {
        for c in Color::all() {
            if RELATIVE_RANKS[sq.array_index()][c.array_index()] <= 3 {
                table[sq.array_index()][c.array_index()] = true;
            }
        }
    }
    table
});

pub(crate) static FILES: Lazy<[Bitboard; 10]> = Lazy::new(|| {
    let mut bbs = [Bitboard::empty(); 10];
    for sq in Square::all() {
        bbs[usize::from(sq.file())] |= Bitboard::single(sq);
    }
    bbs
});

".

Definition zobrist_rs : string :=
"use once_cell::sync::Lazy;
use rand::rngs::StdRng;
use rand::Rng;
use rand::SeedableRng;
use shogi_core::{Color, Hand, Piece, PieceKind, Square};
use std::ops;

#[derive(Clone, Copy, Debug)]
pub struct Key(u64);

impl Key {
    pub const ZERO: Key = Key(0);
    pub const COLOR: Key = Key(1);

    pub fn value(&self) -> u64 {
        self.0
    }
}

impl ops::Not for Key {
    type Output = Self;

    fn not(self) -> Self::Output {
        Key(!self.0)
    }
}

impl ops::BitAnd for Key {
    type Output = Self;

    fn bitand(self, rhs: Self) -> Self::Output {
        Key(self.0 & rhs.0)
    }
}

impl ops::BitXor for Key {
    type Output = Self;

    fn bitxor(self, rhs: Key) -> Self::Output {
        Key(self.0 ^ rhs.0)
    }
}

impl ops::BitXorAssign for Key {
    fn bitxor_assign(&mut self, rhs: Self) {
        self.0 ^= rhs.0;
    }
}

pub struct ZobristTable {
    board: [[[Key; PieceKind::NUM]; Color::NUM]; Square::NUM],
    hands: [[[Key; ZobristTable::MAX_HAND_NUM]; 8]; Color::NUM],
}

impl ZobristTable {
    const MAX_HAND_NUM: usize = 18;

    pub fn board(&self, sq: Square, p: Piece) -> Key {
        self.board[sq.array_index()][p.color().array_index()][p.piece_kind().array_index()]
    }
    pub fn hand(&self, c: Color, pk: PieceKind, num: u8) -> Key {
        self.hands[c.array_index()][pk.array_index()][num as usize]
    }
}

pub static ZOBRIST_TABLE: Lazy<ZobristTable> = Lazy::new(|| {
    let mut board = [[[Key::ZERO; PieceKind::NUM]; Color::NUM]; Square::NUM];
    let mut hands = [[[Key::ZERO; ZobristTable::MAX_HAND_NUM]; 8]; Color::NUM];
    let mut rng = StdRng::seed_from_u64(2022);
    for sq in Square::all() {
        for c in Color::all() {
            for pk in PieceKind::all() {
                board[sq.array_index()][c.array_index()][pk.array_index()] =
                    Key(rng.gen()) & !Key::COLOR;
            }
        }
    }
    for c in Color::all() {
        for pk in Hand::all_hand_pieces() {
            for num in 0..ZobristTable::MAX_HAND_NUM {
                hands[c.array_index()][pk.array_index()][num] = Key(rng.gen()) & !Key::COLOR;
            }
        }
    }
    ZobristTable { board, hands }
});

".

Definition perft_rs : string :=
"fn perft(pos: &mut Position, depth: usize, is_root: bool) -> usize {
    let mut ret = 0;
    for m in pos.legal_moves() {
        let count = if depth <= 1 {
            1
        } else {
            pos.do_move(m);
            let ret = if depth == 2 {
                pos.legal_moves().len()
            } else {
                perft(pos, depth - 1, false)
            };
            pos.undo_move(m);
            ret
        };
        ret += count;
        if is_root {
            println!(""{}: {count}"", m.to_usi_owned());
        }
    }
    ret
}
".
