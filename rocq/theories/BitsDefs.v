(** * The text of the bitboards as programs of [RustSem.v]

    One program for each backend, read from the text of src/bitboard.rs and of the
    file of the backend. *)

From Coq Require Import List Bool NArith ZArith String.
From Verif Require Import Types Bitboard BackendCore BackendSimd RustSyntax RustNames BitboardText RustSem TextDefs.
Import ListNotations.
Open Scope string_scope.

(* The type of core.rs is [shogi_core::Bitboard], which is not in the repository:
   three of its functions forward to the machine. *)
Definition shogi_core_bitboard : string :=
"impl Bitboard {
    fn empty() -> Self { raw::empty() }
    fn single(square: Square) -> Self { raw::single(square) }
    fn from_u128_unchecked(n: u128) -> Self { raw::from_u128_unchecked(n) }
}
".

Definition core_prog : gprog N :=
  Eval vm_compute in get_prog (parse_macros (bitboard_rs ++ shogi_core_bitboard ++ core_rs)).
Lemma core_prog_ok :
  parse_macros (bitboard_rs ++ shogi_core_bitboard ++ core_rs) = Some (ren_prog name_of core_prog).
Proof. vm_compute. reflexivity. Qed.

Definition x86_prog : gprog N :=
  Eval vm_compute in get_prog (parse_macros (bitboard_rs ++ x86_64_rs)).
Lemma x86_prog_ok : parse_macros (bitboard_rs ++ x86_64_rs) = Some (ren_prog name_of x86_prog).
Proof. vm_compute. reflexivity. Qed.

Definition neon_prog : gprog N :=
  Eval vm_compute in get_prog (parse_macros (bitboard_rs ++ aarch64_rs)).
Lemma neon_prog_ok : parse_macros (bitboard_rs ++ aarch64_rs) = Some (ren_prog name_of neon_prog).
Proof. vm_compute. reflexivity. Qed.

Definition wasm_prog : gprog N :=
  Eval vm_compute in get_prog (parse_macros (bitboard_rs ++ wasm32_rs)).
Lemma wasm_prog_ok : parse_macros (bitboard_rs ++ wasm32_rs) = Some (ren_prog name_of wasm_prog).
Proof. vm_compute. reflexivity. Qed.
