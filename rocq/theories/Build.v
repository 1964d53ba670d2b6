(** * Builds: which bitboard module is compiled, and the instructions it needs

    src/bitboard.rs 85-111 and the uses of core::arch in src/bitboard/*.rs. *)

From Coq Require Import List Bool String.
From Verif Require Import Api.
Import ListNotations.
Local Open Scope string_scope.

Inductive arch := A_x86_64 | A_aarch64 | A_wasm32 | A_other.
Inductive feature := SSE2 | SSE3 | SSSE3 | SSE41 | SSE42 | AVX | AVX2 | NEON | SIMD128.

(* A target: [simd] is the crate's cargo feature (Cargo.toml 8-9),
   [enabled] the target features that the compiler may use. *)
Record target := mkTarget { simd : bool; arch_of : arch; enabled : feature -> bool }.

(* Target features imply others, and the 64-bit x86 always has SSE2 (the rules
   of rustc: -C target-feature=+avx2 enables avx, and so on). *)
Definition implied (f : feature) : list feature :=
  match f with
  | AVX2 => [AVX]
  | AVX => [SSE42]
  | SSE42 => [SSE41]
  | SSE41 => [SSSE3]
  | SSSE3 => [SSE3]
  | SSE3 => [SSE2]
  | _ => []
  end.
Definition coherent (t : target) : Prop :=
  (arch_of t = A_x86_64 -> enabled t SSE2 = true) /\
  forall f g, In g (implied f) -> enabled t f = true -> enabled t g = true.

(* bitboard.rs 85-111 *)
Definition select (t : target) : backend :=
  if simd t && (match arch_of t with A_x86_64 => true | _ => false end) && enabled t AVX2
  then X86_64
  else if simd t && (match arch_of t with A_aarch64 => true | _ => false end) && enabled t NEON
  then Aarch64
  else if simd t && (match arch_of t with A_wasm32 => true | _ => false end) && enabled t SIMD128
  then Wasm32
  else Portable.

(* The intrinsics that each module calls, with the architecture and the feature
   that core::arch declares for them.  Calling one without its feature is
   undefined behaviour. *)
Definition intrinsics (b : backend) : list (string * arch * feature) :=
  match b with
  | Portable => []
  | X86_64 =>
      map (fun n => (n, A_x86_64, SSE2))
        ["_mm_add_epi64"; "_mm_and_si128"; "_mm_andnot_si128"; "_mm_or_si128";
         "_mm_set_epi64x"; "_mm_setzero_si128"; "_mm_slli_epi64"; "_mm_srli_epi64";
         "_mm_storeu_si128"; "_mm_sub_epi64"; "_mm_xor_si128"] ++
      map (fun n => (n, A_x86_64, SSE41)) ["_mm_cmpeq_epi64"; "_mm_test_all_zeros"] ++
      map (fun n => (n, A_x86_64, AVX))
        ["_mm256_castsi256_si128"; "_mm256_set_epi64x"; "_mm256_set_m128i";
         "_mm256_setzero_si256"] ++
      map (fun n => (n, A_x86_64, AVX2))
        ["_mm256_add_epi64"; "_mm256_and_si256"; "_mm256_andnot_si256";
         "_mm256_broadcastsi128_si256"; "_mm256_cmpeq_epi64"; "_mm256_cmpeq_epi8";
         "_mm256_extracti128_si256"; "_mm256_movemask_epi8"; "_mm256_or_si256";
         "_mm256_slli_si256"; "_mm256_srli_epi16"; "_mm256_sub_epi64"; "_mm256_xor_si256"]
  | Aarch64 =>
      map (fun n => (n, A_aarch64, NEON))
        ["vaddq_u64"; "vandq_u64"; "vbicq_u64"; "vceqq_u64"; "vdupq_n_u64"; "veorq_u64";
         "vget_lane_u64"; "vld1q_u64"; "vorrq_u64"; "vqmovn_u64"; "vreinterpret_u64_u32";
         "vshlq_n_u64"; "vshrq_n_u64"; "vst1q_u64"; "vsubq_u64"]
  | Wasm32 =>
      map (fun n => (n, A_wasm32, SIMD128))
        ["u64x2"; "u64x2_add"; "u64x2_all_true"; "u64x2_eq"; "u64x2_extract_lane"; "u64x2_shl";
         "u64x2_shr"; "u64x2_sub"; "v128_and"; "v128_andnot"; "v128_any_true"; "v128_or"; "v128_xor"]
  end.

Lemma select_needs t : coherent t -> forall n a f, In (n, a, f) (intrinsics (select t)) ->
  arch_of t = a /\ enabled t f = true.
Proof.
  intros [_ C] n a f H. unfold select in H.
  destruct (simd t && _ && enabled t AVX2) eqn:E1.
  { apply andb_prop in E1 as [E1 V2]. apply andb_prop in E1 as [_ E1].
    pose proof (C AVX2 AVX (or_introl eq_refl) V2) as V1.
    pose proof (C AVX SSE42 (or_introl eq_refl) V1) as S42.
    pose proof (C SSE42 SSE41 (or_introl eq_refl) S42) as S41.
    pose proof (C SSE41 SSSE3 (or_introl eq_refl) S41) as S31.
    pose proof (C SSSE3 SSE3 (or_introl eq_refl) S31) as S3.
    pose proof (C SSE3 SSE2 (or_introl eq_refl) S3) as S2.
    destruct (arch_of t); try discriminate E1.
    cbn in H. repeat (destruct H as [H|H]; [inversion H; subst; split; [reflexivity|assumption]|]).
    destruct H. }
  destruct (simd t && _ && enabled t NEON) eqn:E2.
  { apply andb_prop in E2 as [E2 V]. apply andb_prop in E2 as [_ E2].
    destruct (arch_of t); try discriminate E2.
    cbn in H. repeat (destruct H as [H|H]; [inversion H; subst; split; [reflexivity|assumption]|]).
    destruct H. }
  destruct (simd t && _ && enabled t SIMD128) eqn:E3.
  { apply andb_prop in E3 as [E3 V]. apply andb_prop in E3 as [_ E3].
    destruct (arch_of t); try discriminate E3.
    cbn in H. repeat (destruct H as [H|H]; [inversion H; subst; split; [reflexivity|assumption]|]).
    destruct H. }
  destruct H.
Qed.
