(** * examples/perft.rs *)

From Coq Require Import List Bool NArith ZArith.
From Verif Require Import Types Bitboard Tables Zobrist Position Movegen.
Import ListNotations.

Section Perft.
Context (o : bbops) (z : ztable) (checks : bool).

(* The loop "for m in pos.legal_moves()" of perft, perft.rs 26-47, over the
   remaining moves [ms]; the position is threaded through, because perft
   mutates it.  [count] is the body of the loop. *)
Fixpoint perft_loop (count : position o -> move -> option (N * position o))
  (ms : list move) (pos : position o) (ret : N) : option (N * position o) :=
  match ms with
  | [] => Some (ret, pos)
  | m :: ms =>
      let* r := count pos m in
      perft_loop count ms (snd r) (ret + fst r)%N
  end.

(* perft, perft.rs 26-47; returns the count and the position left behind.
   Without the printing at the root (41-43) and with an unbounded counter;
   Divide.v has both. *)
Fixpoint perft (depth : nat) (pos : position o) : option (N * position o) :=
  let* ms := legal_moves o pos in
  perft_loop
    (fun pos m =>
       match depth with
       | O | 1%nat => Some (1%N, pos)
       | S depth' =>
           let* pos' := do_move o z checks pos m in
           let* r :=
             match depth' with
             | 1%nat => let* l := legal_moves o pos' in
                        Some (N.of_nat (length l), pos')
             | _ => perft depth' pos'
             end in
           let* pos'' := undo_move o checks (snd r) m in
           Some (fst r, pos'')
       end)
    ms pos 0.

(* The search of the unit test "perft", position.rs 563-574 (benches/
   bench_perft.rs 11-29 has the text of the example without the printing). *)
Fixpoint test_perft (depth : nat) (pos : position o) : option (N * position o) :=
  match depth with
  | O => Some (1%N, pos)
  | S depth' =>
      let* ms := legal_moves o pos in
      perft_loop
        (fun pos m =>
           let* pos' := do_move o z checks pos m in
           let* r := test_perft depth' pos' in
           let* pos'' := undo_move o checks (snd r) m in
           Some (fst r, pos''))
        ms pos 0
  end.

End Perft.
