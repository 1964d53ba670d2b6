(** * Every backend meets the specification *)

From Coq Require Import List Bool NArith.
From Verif Require Import Types Bitboard BackendCore BackendSimd BBSpec SpecSimd
  SpecCore Api.

Definition backend_spec (b : backend) (checks : bool) : bbspec (ops_of b checks) :=
  match b with
  | Portable => core_bbspec checks
  | X86_64 => x86_bbspec
  | Aarch64 => neon_bbspec
  | Wasm32 => wasm_bbspec
  end.
