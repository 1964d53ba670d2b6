(** * The random numbers of the crate

    `StdRng::seed_from_u64(2022)` and `rng.gen()` (zobrist.rs 69, 74, 81) belong
    to the external crate rand 0.8.5 (Cargo.toml, line 14), which is not in
    /repo.  This file states the algorithm of that version: ChaCha with 12
    rounds, a 64-bit block counter, and the seed expansion of rand_core 0.6.  It
    is used by C66 only; everything else holds for any numbers. *)

From Coq Require Import List NArith.
Import ListNotations.
Open Scope N_scope.

Definition u32 (x : N) : N := N.land x 0xffffffff.
Definition add32 (a b : N) : N := u32 (a + b).
Definition rotl32 (x n : N) : N := N.lor (u32 (N.shiftl x n)) (N.shiftr x (32 - n)).

(* the quarter round of ChaCha *)
Definition quarter {A} (f : N -> N -> N -> N -> A) (a b c d : N) : A :=
  let a := add32 a b in let d := rotl32 (N.lxor d a) 16 in
  let c := add32 c d in let b := rotl32 (N.lxor b c) 12 in
  let a := add32 a b in let d := rotl32 (N.lxor d a) 8 in
  let c := add32 c d in let b := rotl32 (N.lxor b c) 7 in
  f a b c d.

(* columns, then diagonals *)
Definition double_round (s : list N) : list N :=
  match s with
  | [x0;x1;x2;x3;x4;x5;x6;x7;x8;x9;x10;x11;x12;x13;x14;x15] =>
    quarter (fun x0 x4 x8 x12 => quarter (fun x1 x5 x9 x13 =>
    quarter (fun x2 x6 x10 x14 => quarter (fun x3 x7 x11 x15 =>
    quarter (fun x0 x5 x10 x15 => quarter (fun x1 x6 x11 x12 =>
    quarter (fun x2 x7 x8 x13 => quarter (fun x3 x4 x9 x14 =>
      [x0;x1;x2;x3;x4;x5;x6;x7;x8;x9;x10;x11;x12;x13;x14;x15])
      x3 x4 x9 x14) x2 x7 x8 x13) x1 x6 x11 x12) x0 x5 x10 x15)
      x3 x7 x11 x15) x2 x6 x10 x14) x1 x5 x9 x13) x0 x4 x8 x12
  | _ => s
  end.
Fixpoint double_rounds (n : nat) (s : list N) : list N :=
  match n with O => s | S n => double_rounds n (double_round s) end.

(* one block of 16 words; the constants spell "expand 32-byte k" *)
Definition chacha_block (n : nat) (key : list N) (ctr : N) : list N :=
  let s := [0x61707865; 0x3320646e; 0x79622d32; 0x6b206574] ++ key
           ++ [u32 ctr; u32 (N.shiftr ctr 32); 0; 0] in
  map (fun p => add32 (fst p) (snd p)) (combine (double_rounds n s) s).

(* rand_core::SeedableRng::seed_from_u64: eight outputs of PCG32 *)
Definition pcg_next (st : N) : N :=
  N.land (st * 6364136223846793005 + 11634580027462260723) 0xffffffffffffffff.
Definition pcg_out (st : N) : N :=
  let x := u32 (N.shiftr (N.lxor (N.shiftr st 18) st) 27) in
  let r := N.shiftr st 59 in
  u32 (N.lor (N.shiftr x r) (N.shiftl x (32 - r))).
Fixpoint seed_words (n : nat) (st : N) : list N :=
  match n with
  | O => []
  | S n => let st := pcg_next st in pcg_out st :: seed_words n st
  end.

(* next_u64: two consecutive words, the low one first *)
Definition words64 (b : list N) : list N :=
  map (fun j => N.lor (nth (2 * j) b 0) (N.shiftl (nth (2 * j + 1) b 0) 32)) (seq 0 8).
Definition std_block (key : list N) (i : N) : list N := words64 (chacha_block 6 key i).

(* zobrist.rs 69: the seed *)
Definition crate_key : list N := seed_words 8 2022.
(* the i-th call of rng.gen(), zobrist.rs 74 and 81 *)
Definition crate_rng (i : N) : N :=
  nth (N.to_nat (i mod 8)) (std_block crate_key (i / 8)) 0.

(** ** Published test vectors *)

(* ChaCha20, key 0, nonce 0, block 0 (RFC 7539, A.1, first vector) *)
Example chacha20_zero : firstn 8 (chacha_block 10 (repeat 0 8) 0) =
  [0xade0b876; 0x903df1a0; 0xe56a5d40; 0x28bd8653; 0xb819d2bd; 0x1aed8da0; 0xccef36a8; 0xc70d778b].
Proof. vm_compute. reflexivity. Qed.
(* ChaCha12, key 0 (draft-strombergson-chacha-test-vectors) *)
Example chacha12_zero : firstn 4 (chacha_block 6 (repeat 0 8) 0) =
  [0x6a9af49b; 0x53f95507; 0x12ce1f81; 0xd583265f].
Proof. vm_compute. reflexivity. Qed.
(* rand 0.8.5, src/rngs/std.rs, test_stdrng_construction: StdRng::from_seed *)
Example stdrng_construction : hd 0 (std_block [1; 23; 456; 7890; 0; 0; 0; 0] 0) = 10719222850664546238.
Proof. vm_compute. reflexivity. Qed.
