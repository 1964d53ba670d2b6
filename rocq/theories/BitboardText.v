(** * The text of the bitboards

    Each string is a file of /repo/src: bitboard.rs lines 1-83 (up to the choice of the
    backend) and all of bitboard/core.rs, bitboard/x86_64.rs, bitboard/aarch64.rs and
    bitboard/wasm32.rs.  The text is verbatim, except that a double quote is written
    twice, as Coq requires. *)

From Coq Require Import String.
Open Scope string_scope.

Definition bitboard_rs : string :=
"pub(crate) trait Occupied
where
    Self: Sized,
{
    /// Shift left (South)
    fn shl(&self) -> Self;
    /// Shift right (North)
    fn shr(&self) -> Self;
    /// Slide consecutively to the positive: that is South.
    fn sliding_positive_consecutive(&self, mask: &Self) -> Self;
    /// Slide consecutively to the negative: that is North.
    fn sliding_negative_consecutive(&self, mask: &Self) -> Self;
    /// Slide for 2 directions to the positive. Positive is further West, or further South if it's on the same file.
    fn sliding_positives(&self, masks: &[Self; 2]) -> Self;
    /// Slide for 2 directions to the negative. Negative is further East, or further North if it's on the same file.
    fn sliding_negatives(&self, masks: &[Self; 2]) -> Self;
    /// Vacant files
    fn vacant_files(&self) -> Self;
}

#[allow(unused_macros)]
macro_rules! define_bit_trait {
    (
        target_trait => $trait:ident, assign_trait => $assign_trait:ident,
        target_func  => $func:ident,  assign_func  => $assign_func:ident,
        intrinsic    => $intrinsic:path
    ) => {
        impl $trait for Bitboard {
            type Output = Bitboard;

            #[inline(always)]
            fn $func(self, rhs: Self) -> Self::Output {
                Self($intrinsic(self.0, rhs.0))
            }
        }
        impl $trait<&Bitboard> for Bitboard {
            type Output = Bitboard;

            #[inline(always)]
            fn $func(self, rhs: &Self) -> Self::Output {
                Self($intrinsic(self.0, rhs.0))
            }
        }
        impl $assign_trait for Bitboard {
            #[inline(always)]
            fn $assign_func(&mut self, rhs: Self) {
                self.0 = $intrinsic(self.0, rhs.0)
            }
        }
    };
}

#[allow(unused_macros)]
macro_rules! define_bit_trait_unsafe {
    (
        target_trait => $trait:ident, assign_trait => $assign_trait:ident,
        target_func  => $func:ident,  assign_func  => $assign_func:ident,
        intrinsic    => $intrinsic:path
    ) => {
        impl $trait for Bitboard {
            type Output = Bitboard;

            #[inline(always)]
            fn $func(self, rhs: Self) -> Self::Output {
                Self(unsafe { $intrinsic(self.0, rhs.0) })
            }
        }
        impl $trait<&Bitboard> for Bitboard {
            type Output = Bitboard;

            #[inline(always)]
            fn $func(self, rhs: &Self) -> Self::Output {
                Self(unsafe { $intrinsic(self.0, rhs.0) })
            }
        }
        impl $assign_trait for Bitboard {
            #[inline(always)]
            fn $assign_func(&mut self, rhs: Self) {
                self.0 = unsafe { $intrinsic(self.0, rhs.0) }
            }
        }
    };
}
".

Definition core_rs : string :=
"use super::Occupied;
pub(crate) use shogi_core::Bitboard;
use shogi_core::Square;

/// Note the alignment of the bitboard: 18 bits and 63 bits out of 2 64-bit int are used
const VACANT_MASK_VALUE: u128 = 0x0002_0100_4020_1008_0402_0100;
const VACANT_MASK: Bitboard = unsafe { Bitboard::from_u128_unchecked(VACANT_MASK_VALUE) };
const BB_1A: Bitboard = Bitboard::single(Square::SQ_1A);
const BB_9I: Bitboard = Bitboard::single(Square::SQ_9I);

const MASKED_BBS: [Bitboard; Square::NUM + 2] = {
    let mask = 0x0003_ffff_7fff_ffff_ffff_ffff;
    let mut bbs = [Bitboard::empty(); Square::NUM + 2];
    let mut i = 0;
    while i < Square::NUM + 2 {
        bbs[i] = unsafe { Bitboard::from_u128_unchecked(mask & ((1 << i) - 1)) };
        i += 1;
    }
    bbs
};

/// # Arguments
///
/// * `bb` - The occupied bitboard
/// * `mask` - The potential attacks
#[inline(always)]
fn sliding_positive(bb: &Bitboard, mask: &Bitboard) -> Bitboard {
    let tz = (*bb & mask | BB_9I).to_u128().trailing_zeros();
    *mask & MASKED_BBS[tz as usize + 1]
}

/// # Arguments
///
/// * `bb` - The occupied bitboard
/// * `mask` - The potential attacks
#[inline(always)]
fn sliding_negative(bb: &Bitboard, mask: &Bitboard) -> Bitboard {
    let lz = (*bb & mask | BB_1A).to_u128().leading_zeros();
    *mask & !MASKED_BBS[127 - lz as usize]
}

impl Occupied for Bitboard {
    #[inline(always)]
    fn shl(&self) -> Self {
        unsafe { self.shift_down(1) }
    }
    #[inline(always)]
    fn shr(&self) -> Self {
        unsafe { self.shift_up(1) }
    }
    #[inline(always)]
    fn sliding_positive_consecutive(&self, mask: &Self) -> Self {
        sliding_positive(self, mask)
    }
    #[inline(always)]
    fn sliding_negative_consecutive(&self, mask: &Self) -> Self {
        sliding_negative(self, mask)
    }
    #[inline(always)]
    fn sliding_positives(&self, masks: &[Self; 2]) -> Self {
        sliding_positive(self, &masks[0]) | sliding_positive(self, &masks[1])
    }
    #[inline(always)]
    fn sliding_negatives(&self, masks: &[Self; 2]) -> Self {
        sliding_negative(self, &masks[0]) | sliding_negative(self, &masks[1])
    }
    #[inline(always)]
    fn vacant_files(&self) -> Self {
        // Following happens in parallel for each file:
        // 1. The highest bit of (0b100000000 - self) is 1 iff the file is vacant thanks to borrowing.
        // 2. Shift it by 8 bit to get the flag. Results in either 0b000000000 or 0b000000001
        // 3. 0b100000000 - the value from 2. Results in either 0b100000000 or 0b011111111
        // 4. XOR with 0b100000000. Results in either 0b000000000 or 0b111111111
        let bb = unsafe { Self::from_u128_unchecked(VACANT_MASK_VALUE - self.to_u128()) };
        VACANT_MASK
            ^ unsafe { Self::from_u128_unchecked(VACANT_MASK_VALUE - bb.shift_up(8).to_u128()) }
    }
}
".

Definition x86_64_rs : string :=
"use super::Occupied;
use shogi_core::Square;
use std::arch::x86_64;
use std::mem::MaybeUninit;
use std::ops::{BitAnd, BitAndAssign, BitOr, BitOrAssign, BitXor, BitXorAssign, Not};

const SINGLE_VALUES: [(i64, i64); Square::NUM] = {
    let mut values = [(0, 0); Square::NUM];
    let mut i = 0;
    while i < Square::NUM {
        values[i] = if i < 63 {
            (1 << i, 0)
        } else {
            (0, 1 << (i - 63))
        };
        i += 1;
    }
    values
};

const MASKED_VALUES: [(i64, i64); 16] = [
    (0, 0),
    (0x0000_0000_0000_00ff, 0),
    (0x0000_0000_0000_ffff, 0),
    (0x0000_0000_00ff_ffff, 0),
    (0x0000_0000_ffff_ffff, 0),
    (0x0000_00ff_ffff_ffff, 0),
    (0x0000_ffff_ffff_ffff, 0),
    (0x00ff_ffff_ffff_ffff, 0),
    (-1, 0),
    (-1, 0x0000_0000_0000_00ff),
    (-1, 0x0000_0000_0000_ffff),
    (-1, 0x0000_0000_00ff_ffff),
    (-1, 0x0000_0000_ffff_ffff),
    (-1, 0x0000_00ff_ffff_ffff),
    (-1, 0x0000_ffff_ffff_ffff),
    (-1, 0x00ff_ffff_ffff_ffff),
];

#[derive(Clone, Copy, Debug)]
pub(crate) struct Bitboard(x86_64::__m128i);

impl Bitboard {
    #[inline(always)]
    pub fn empty() -> Self {
        Self(unsafe { x86_64::_mm_setzero_si128() })
    }
    #[inline(always)]
    pub fn single(square: Square) -> Self {
        let e = SINGLE_VALUES[square.array_index()];
        Self(unsafe { x86_64::_mm_set_epi64x(e.1, e.0) })
    }
    #[inline(always)]
    pub fn is_empty(&self) -> bool {
        unsafe { x86_64::_mm_test_all_zeros(self.0, self.0) == 1 }
    }
    #[inline(always)]
    pub fn contains(&self, square: Square) -> bool {
        unsafe { x86_64::_mm_test_all_zeros(self.0, Self::single(square).0) == 0 }
    }
    #[inline(always)]
    pub fn count(self) -> u8 {
        let m = self.values();
        (m[0].count_ones() + m[1].count_ones()) as u8
    }
    #[inline(always)]
    fn values(&self) -> [i64; 2] {
        unsafe {
            let m = MaybeUninit::<[i64; 2]>::uninit();
            x86_64::_mm_storeu_si128(m.as_ptr() as *mut _, self.0);
            m.assume_init()
        }
    }
}

impl Occupied for Bitboard {
    #[inline(always)]
    fn shl(&self) -> Self {
        Self(unsafe { x86_64::_mm_slli_epi64::<1>(self.0) })
    }
    #[inline(always)]
    fn shr(&self) -> Self {
        Self(unsafe { x86_64::_mm_srli_epi64::<1>(self.0) })
    }
    fn sliding_positive_consecutive(&self, mask: &Self) -> Self {
        unsafe {
            let and = x86_64::_mm_and_si128(self.0, mask.0);
            // calculate decremented masked
            let all = x86_64::_mm_cmpeq_epi64(self.0, self.0);
            //      self.0: ...00000000000010000000 0000000000000000000000000000000000000000000000000000000000000000
            let add = x86_64::_mm_add_epi64(and, all);
            // self.0 + !0: ...00000000000001111111 1111111111111111111111111111111111111111111111111111111111111111
            let xor = x86_64::_mm_xor_si128(and, add);
            //            : ...00000000000011111111 1111111111111111111111111111111111111111111111111111111111111111
            Self(x86_64::_mm_and_si128(xor, mask.0))
        }
    }
    fn sliding_negative_consecutive(&self, mask: &Self) -> Self {
        unsafe {
            let m = x86_64::_mm_and_si128(self.0, mask.0);
            let m = x86_64::_mm_or_si128(m, x86_64::_mm_srli_epi64::<1>(m));
            let m = x86_64::_mm_or_si128(m, x86_64::_mm_srli_epi64::<2>(m));
            let m = x86_64::_mm_or_si128(m, x86_64::_mm_srli_epi64::<4>(m));
            let m = x86_64::_mm_srli_epi64::<1>(m);
            Self(x86_64::_mm_andnot_si128(m, mask.0))
        }
    }
    fn sliding_positives(&self, masks: &[Self; 2]) -> Self {
        unsafe {
            let self256 = x86_64::_mm256_broadcastsi128_si256(self.0);
            let mask256 = x86_64::_mm256_set_m128i(masks[0].0, masks[1].0);
            let masked = x86_64::_mm256_and_si256(self256, mask256);
            // decrement masked 256
            let all = x86_64::_mm256_cmpeq_epi64(self256, self256);
            let add = x86_64::_mm256_add_epi64(masked, all);
            let cmp = x86_64::_mm256_cmpeq_epi64(add, all);
            let shl = x86_64::_mm256_slli_si256::<8>(x86_64::_mm256_xor_si256(cmp, all));
            let dec = x86_64::_mm256_sub_epi64(add, shl);
            // (masked ^ masked.decrement()) & mask
            let xor = x86_64::_mm256_xor_si256(masked, dec);
            let ret = x86_64::_mm256_and_si256(xor, mask256);
            Self(x86_64::_mm_or_si128(
                x86_64::_mm256_castsi256_si128(ret),
                x86_64::_mm256_extracti128_si256::<1>(ret),
            ))
        }
    }
    fn sliding_negatives(&self, masks: &[Self; 2]) -> Self {
        unsafe {
            let self256 = x86_64::_mm256_broadcastsi128_si256(self.0);
            let mask256 = x86_64::_mm256_set_m128i(masks[0].0, masks[1].0);
            let masked = x86_64::_mm256_and_si256(self256, mask256);

            let eq = x86_64::_mm256_cmpeq_epi8(masked, x86_64::_mm256_setzero_si256());
            let mv = x86_64::_mm256_movemask_epi8(eq) as u32;
            let e0 = MASKED_VALUES[15 - (mv ^ 0xffff_ffff | 0x0001_0000).leading_zeros() as usize];
            let e1 = MASKED_VALUES[31 - (mv & 0xffff ^ 0xffff | 0x0001).leading_zeros() as usize];

            let m = masked;
            let m = x86_64::_mm256_or_si256(m, x86_64::_mm256_srli_epi16::<1>(m));
            let m = x86_64::_mm256_or_si256(m, x86_64::_mm256_srli_epi16::<2>(m));
            let m = x86_64::_mm256_or_si256(m, x86_64::_mm256_srli_epi16::<4>(m));
            let m = x86_64::_mm256_or_si256(
                x86_64::_mm256_srli_epi16::<1>(m),
                x86_64::_mm256_set_epi64x(e0.1, e0.0, e1.1, e1.0),
            );
            let ret = x86_64::_mm256_andnot_si256(m, mask256);
            Self(x86_64::_mm_or_si128(
                x86_64::_mm256_castsi256_si128(ret),
                x86_64::_mm256_extracti128_si256::<1>(ret),
            ))
        }
    }
    fn vacant_files(&self) -> Self {
        unsafe {
            let mask = x86_64::_mm_set_epi64x(0x0002_0100, 0x4020_1008_0402_0100);
            let sub = x86_64::_mm_sub_epi64(mask, self.0);
            let shr = x86_64::_mm_srli_epi64::<8>(x86_64::_mm_and_si128(mask, sub));
            Self(x86_64::_mm_xor_si128(
                mask,
                x86_64::_mm_sub_epi64(mask, shr),
            ))
        }
    }
}

define_bit_trait_unsafe!(
    target_trait => BitAnd, assign_trait => BitAndAssign,
    target_func => bitand, assign_func => bitand_assign,
    intrinsic => x86_64::_mm_and_si128
);

define_bit_trait_unsafe!(
    target_trait => BitOr, assign_trait => BitOrAssign,
    target_func => bitor, assign_func => bitor_assign,
    intrinsic => x86_64::_mm_or_si128
);

define_bit_trait_unsafe!(
    target_trait => BitXor, assign_trait => BitXorAssign,
    target_func => bitxor, assign_func => bitxor_assign,
    intrinsic => x86_64::_mm_xor_si128
);

impl Not for Bitboard {
    type Output = Bitboard;

    #[inline(always)]
    fn not(self) -> Self::Output {
        Bitboard(unsafe {
            x86_64::_mm_andnot_si128(
                self.0,
                x86_64::_mm_set_epi64x(0x0003_ffff, 0x7fff_ffff_ffff_ffff),
            )
        })
    }
}

impl Not for &Bitboard {
    type Output = Bitboard;

    #[inline(always)]
    fn not(self) -> Self::Output {
        Bitboard(unsafe {
            x86_64::_mm_andnot_si128(
                self.0,
                x86_64::_mm_set_epi64x(0x0003_ffff, 0x7fff_ffff_ffff_ffff),
            )
        })
    }
}

impl PartialEq for Bitboard {
    #[inline(always)]
    fn eq(&self, other: &Self) -> bool {
        // https://stackoverflow.com/a/26883316
        unsafe {
            let xor = x86_64::_mm_xor_si128(self.0, other.0);
            x86_64::_mm_test_all_zeros(xor, xor) == 1
        }
    }
}

pub(crate) struct SquareIterator([i64; 2]);

impl SquareIterator {
    #[inline(always)]
    fn pop_lsb(n: &mut i64) -> u8 {
        let pos = n.trailing_zeros() as u8;
        *n &= n.wrapping_sub(1);
        pos
    }
}

impl Iterator for SquareIterator {
    type Item = Square;

    #[inline(always)]
    fn next(&mut self) -> Option<Self::Item> {
        if self.0[0] != 0 {
            return Some(unsafe { Square::from_u8_unchecked(Self::pop_lsb(&mut self.0[0]) + 1) });
        }
        if self.0[1] != 0 {
            return Some(unsafe { Square::from_u8_unchecked(Self::pop_lsb(&mut self.0[1]) + 64) });
        }
        None
    }
}

impl IntoIterator for Bitboard {
    type Item = Square;
    type IntoIter = SquareIterator;

    fn into_iter(self) -> Self::IntoIter {
        SquareIterator(self.values())
    }
}
".

Definition aarch64_rs : string :=
"use super::Occupied;
use shogi_core::Square;
use std::arch::aarch64;
use std::mem::MaybeUninit;
use std::ops::{BitAnd, BitAndAssign, BitOr, BitOrAssign, BitXor, BitXorAssign, Not};

const SINGLE_VALUES: [[u64; 2]; Square::NUM] = {
    let mut values = [[0, 0]; Square::NUM];
    let mut i = 0;
    while i < Square::NUM {
        values[i] = if i < 63 {
            [1 << i, 0]
        } else {
            [0, 1 << (i - 63)]
        };
        i += 1;
    }
    values
};

const MASKED_VALUES: [[u64; 2]; Square::NUM + 2] = {
    let mut values = [[0; 2]; Square::NUM + 2];
    let mut i = 0;
    while i < Square::NUM + 2 {
        let u = (1_u128 << i) - 1;
        values[i] = [u as u64, (u >> 64) as u64];
        i += 1;
    }
    values
};

#[derive(Clone, Copy, Debug)]
pub(crate) struct Bitboard(aarch64::uint64x2_t);

impl Bitboard {
    #[inline(always)]
    pub fn empty() -> Self {
        Self(unsafe { aarch64::vdupq_n_u64(0) })
    }
    #[inline(always)]
    pub fn single(square: Square) -> Self {
        let e = SINGLE_VALUES[square.array_index()];
        Self(unsafe { aarch64::vld1q_u64(e.as_ptr()) })
    }
    #[inline(always)]
    pub fn is_empty(&self) -> bool {
        unsafe {
            let vqmovn = aarch64::vqmovn_u64(self.0);
            let result = aarch64::vreinterpret_u64_u32(vqmovn);
            aarch64::vget_lane_u64::<0>(result) == 0
        }
    }
    #[inline(always)]
    pub fn contains(&self, square: Square) -> bool {
        !(Self::single(square) & self).is_empty()
    }
    #[inline(always)]
    pub fn count(self) -> u8 {
        let m = self.values();
        (m[0].count_ones() + m[1].count_ones()) as u8
    }
    #[inline(always)]
    fn values(self) -> [u64; 2] {
        unsafe {
            let m = MaybeUninit::<[u64; 2]>::uninit();
            aarch64::vst1q_u64(m.as_ptr() as *mut _, self.0);
            m.assume_init()
        }
    }
    fn sliding_positive(&self, mask: &Bitboard) -> Bitboard {
        let m = (*self & mask).values();
        let tz = if m[0] == 0 {
            (m[1] | 0x0002_0000).trailing_zeros() + 64
        } else {
            m[0].trailing_zeros()
        };
        Self(unsafe {
            aarch64::vandq_u64(
                mask.0,
                aarch64::vld1q_u64(MASKED_VALUES[tz as usize + 1].as_ptr()),
            )
        })
    }
    fn sliding_negative(&self, mask: &Bitboard) -> Bitboard {
        let m = (*self & mask).values();
        let lz = if m[1] == 0 {
            (m[0] | 1).leading_zeros() + 64
        } else {
            m[1].leading_zeros()
        };
        Self(unsafe {
            aarch64::vbicq_u64(
                mask.0,
                aarch64::vld1q_u64(MASKED_VALUES[127 - lz as usize].as_ptr()),
            )
        })
    }
}

impl Occupied for Bitboard {
    #[inline(always)]
    fn shl(&self) -> Self {
        Self(unsafe { aarch64::vshlq_n_u64::<1>(self.0) })
    }
    #[inline(always)]
    fn shr(&self) -> Self {
        Self(unsafe { aarch64::vshrq_n_u64::<1>(self.0) })
    }
    fn sliding_positive_consecutive(&self, mask: &Self) -> Self {
        unsafe {
            let and = aarch64::vandq_u64(self.0, mask.0);
            let all = aarch64::vceqq_u64(self.0, self.0);
            let add = aarch64::vaddq_u64(and, all);
            let xor = aarch64::veorq_u64(add, and);
            Self(aarch64::vandq_u64(xor, mask.0))
        }
    }
    fn sliding_negative_consecutive(&self, mask: &Self) -> Self {
        unsafe {
            let m = aarch64::vandq_u64(self.0, mask.0);
            let m = aarch64::vorrq_u64(m, aarch64::vshrq_n_u64::<1>(m));
            let m = aarch64::vorrq_u64(m, aarch64::vshrq_n_u64::<2>(m));
            let m = aarch64::vorrq_u64(m, aarch64::vshrq_n_u64::<4>(m));
            let m = aarch64::vshrq_n_u64::<1>(m);
            Self(aarch64::vbicq_u64(mask.0, m))
        }
    }
    #[inline(always)]
    fn sliding_positives(&self, masks: &[Self; 2]) -> Self {
        self.sliding_positive(&masks[0]) | self.sliding_positive(&masks[1])
    }
    #[inline(always)]
    fn sliding_negatives(&self, masks: &[Self; 2]) -> Self {
        self.sliding_negative(&masks[0]) | self.sliding_negative(&masks[1])
    }
    fn vacant_files(&self) -> Self {
        unsafe {
            let mask = aarch64::vld1q_u64([0x4020_1008_0402_0100, 0x0002_0100].as_ptr());
            let sub = aarch64::vsubq_u64(mask, self.0);
            let shr = aarch64::vshrq_n_u64::<8>(aarch64::vandq_u64(sub, mask));
            Self(aarch64::veorq_u64(mask, aarch64::vsubq_u64(mask, shr)))
        }
    }
}

define_bit_trait_unsafe!(
    target_trait => BitAnd, assign_trait => BitAndAssign,
    target_func => bitand, assign_func => bitand_assign,
    intrinsic => aarch64::vandq_u64
);

define_bit_trait_unsafe!(
    target_trait => BitOr, assign_trait => BitOrAssign,
    target_func => bitor, assign_func => bitor_assign,
    intrinsic => aarch64::vorrq_u64
);

define_bit_trait_unsafe!(
    target_trait => BitXor, assign_trait => BitXorAssign,
    target_func => bitxor, assign_func => bitxor_assign,
    intrinsic => aarch64::veorq_u64
);

impl Not for Bitboard {
    type Output = Bitboard;

    #[inline(always)]
    fn not(self) -> Self::Output {
        Bitboard(unsafe {
            aarch64::vbicq_u64(
                aarch64::vld1q_u64([0x7fff_ffff_ffff_ffff, 0x0003_ffff].as_ptr()),
                self.0,
            )
        })
    }
}

impl Not for &Bitboard {
    type Output = Bitboard;

    #[inline(always)]
    fn not(self) -> Self::Output {
        Bitboard(unsafe {
            aarch64::vbicq_u64(
                aarch64::vld1q_u64([0x7fff_ffff_ffff_ffff, 0x0003_ffff].as_ptr()),
                self.0,
            )
        })
    }
}

impl PartialEq for Bitboard {
    #[inline(always)]
    fn eq(&self, other: &Self) -> bool {
        (*self ^ other).is_empty()
    }
}

pub(crate) struct SquareIterator([u64; 2]);

impl SquareIterator {
    #[inline(always)]
    fn pop_lsb(n: &mut u64) -> u8 {
        let pos = n.trailing_zeros() as u8;
        *n &= n.wrapping_sub(1);
        pos
    }
}

impl Iterator for SquareIterator {
    type Item = Square;

    #[inline(always)]
    fn next(&mut self) -> Option<Self::Item> {
        if self.0[0] != 0 {
            return Some(unsafe { Square::from_u8_unchecked(Self::pop_lsb(&mut self.0[0]) + 1) });
        }
        if self.0[1] != 0 {
            return Some(unsafe { Square::from_u8_unchecked(Self::pop_lsb(&mut self.0[1]) + 64) });
        }
        None
    }
}

impl IntoIterator for Bitboard {
    type Item = Square;
    type IntoIter = SquareIterator;

    fn into_iter(self) -> Self::IntoIter {
        SquareIterator(self.values())
    }
}
".

Definition wasm32_rs : string :=
"use super::Occupied;
use shogi_core::Square;
use std::arch::wasm32;
use std::ops::{BitAnd, BitAndAssign, BitOr, BitOrAssign, BitXor, BitXorAssign, Not};

const SINGLES: [wasm32::v128; Square::NUM] = {
    let mut values = [ZERO; Square::NUM];
    let mut i = 0;
    while i < Square::NUM {
        values[i] = if i < 63 {
            wasm32::u64x2(1 << i, 0)
        } else {
            wasm32::u64x2(0, 1 << (i - 63))
        };
        i += 1;
    }
    values
};

const MASKED_VALUES: [wasm32::v128; Square::NUM + 2] = {
    let mut values = [ZERO; Square::NUM + 2];
    let mut i = 0;
    while i < Square::NUM + 2 {
        let u = (1_u128 << i) - 1;
        values[i] = wasm32::u64x2(u as u64, (u >> 64) as u64);
        i += 1;
    }
    values
};

const ZERO: wasm32::v128 = wasm32::u64x2(0, 0);
const ONES: wasm32::v128 = wasm32::u64x2(0x7fff_ffff_ffff_ffff, 0x0003_ffff);

#[derive(Clone, Copy, Debug)]
pub(crate) struct Bitboard(wasm32::v128);

impl Bitboard {
    #[inline(always)]
    pub fn empty() -> Self {
        Self(ZERO)
    }
    #[inline(always)]
    pub fn single(square: Square) -> Self {
        Self(SINGLES[square.array_index()])
    }
    #[inline(always)]
    pub fn is_empty(&self) -> bool {
        !wasm32::v128_any_true(self.0)
    }
    #[inline(always)]
    pub fn contains(&self, square: Square) -> bool {
        wasm32::v128_any_true(wasm32::v128_and(self.0, Self::single(square).0))
    }
    #[inline(always)]
    pub fn count(self) -> u8 {
        let m = self.values();
        (m[0].count_ones() + m[1].count_ones()) as u8
    }
    #[inline(always)]
    fn values(self) -> [u64; 2] {
        [
            wasm32::u64x2_extract_lane::<0>(self.0),
            wasm32::u64x2_extract_lane::<1>(self.0),
        ]
    }
    fn sliding_positive(&self, mask: &Bitboard) -> Bitboard {
        let m = (*self & mask).values();
        let tz = if m[0] == 0 {
            (m[1] | 0x0002_0000).trailing_zeros() + 64
        } else {
            m[0].trailing_zeros()
        };
        Self(wasm32::v128_and(mask.0, MASKED_VALUES[tz as usize + 1]))
    }
    fn sliding_negative(&self, mask: &Bitboard) -> Bitboard {
        let m = (*self & mask).values();
        let lz = if m[1] == 0 {
            (m[0] | 1).leading_zeros() + 64
        } else {
            m[1].leading_zeros()
        };
        Self(wasm32::v128_andnot(
            mask.0,
            MASKED_VALUES[127 - lz as usize],
        ))
    }
}

impl Occupied for Bitboard {
    #[inline(always)]
    fn shl(&self) -> Self {
        Self(wasm32::u64x2_shl(self.0, 1))
    }
    #[inline(always)]
    fn shr(&self) -> Self {
        Self(wasm32::u64x2_shr(self.0, 1))
    }
    #[inline(always)]
    fn sliding_positive_consecutive(&self, mask: &Self) -> Self {
        let and = wasm32::v128_and(self.0, mask.0);
        let all = wasm32::u64x2_eq(self.0, self.0);
        let add = wasm32::u64x2_add(and, all);
        let xor = wasm32::v128_xor(add, and);
        Self(wasm32::v128_and(xor, mask.0))
    }
    #[inline(always)]
    fn sliding_negative_consecutive(&self, mask: &Self) -> Self {
        self.sliding_negative(mask)
    }
    #[inline(always)]
    fn sliding_positives(&self, masks: &[Self; 2]) -> Self {
        self.sliding_positive(&masks[0]) | self.sliding_positive(&masks[1])
    }
    #[inline(always)]
    fn sliding_negatives(&self, masks: &[Self; 2]) -> Self {
        self.sliding_negative(&masks[0]) | self.sliding_negative(&masks[1])
    }
    fn vacant_files(&self) -> Self {
        let mask = wasm32::u64x2(0x4020_1008_0402_0100, 0x0002_0100);
        let sub = wasm32::u64x2_sub(mask, self.0);
        let and = wasm32::v128_and(sub, mask);
        let shr = wasm32::u64x2_shr(and, 8);
        Self(wasm32::v128_xor(mask, wasm32::u64x2_sub(mask, shr)))
    }
}

define_bit_trait!(
    target_trait => BitAnd, assign_trait => BitAndAssign,
    target_func => bitand, assign_func => bitand_assign,
    intrinsic => wasm32::v128_and
);

define_bit_trait!(
    target_trait => BitOr, assign_trait => BitOrAssign,
    target_func => bitor, assign_func => bitor_assign,
    intrinsic => wasm32::v128_or
);

define_bit_trait!(
    target_trait => BitXor, assign_trait => BitXorAssign,
    target_func => bitxor, assign_func => bitxor_assign,
    intrinsic => wasm32::v128_xor
);

impl Not for Bitboard {
    type Output = Bitboard;

    #[inline(always)]
    fn not(self) -> Self::Output {
        Bitboard(wasm32::v128_andnot(ONES, self.0))
    }
}

impl Not for &Bitboard {
    type Output = Bitboard;

    #[inline(always)]
    fn not(self) -> Self::Output {
        Bitboard(wasm32::v128_andnot(ONES, self.0))
    }
}

impl PartialEq for Bitboard {
    #[inline(always)]
    fn eq(&self, other: &Self) -> bool {
        wasm32::u64x2_all_true(wasm32::u64x2_eq(self.0, other.0))
    }
}

pub(crate) struct SquareIterator([u64; 2]);

impl SquareIterator {
    #[inline(always)]
    fn pop_lsb(n: &mut u64) -> u8 {
        let pos = n.trailing_zeros() as u8;
        *n &= n.wrapping_sub(1);
        pos
    }
}

impl Iterator for SquareIterator {
    type Item = Square;

    #[inline(always)]
    fn next(&mut self) -> Option<Self::Item> {
        if self.0[0] != 0 {
            return Some(unsafe { Square::from_u8_unchecked(Self::pop_lsb(&mut self.0[0]) + 1) });
        }
        if self.0[1] != 0 {
            return Some(unsafe { Square::from_u8_unchecked(Self::pop_lsb(&mut self.0[1]) + 64) });
        }
        None
    }
}

impl IntoIterator for Bitboard {
    type Item = Square;
    type IntoIter = SquareIterator;

    fn into_iter(self) -> Self::IntoIter {
        SquareIterator(self.values())
    }
}
".
