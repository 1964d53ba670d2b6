(** * The unit tests of /repo, run on the model

    These are tests of the model, not properties: each evaluates the expected
    value of a unit test of the crate on every backend. *)

From Coq Require Import String List Bool NArith ZArith.
From Verif Require Import Types Rules Bitboard BackendCore BackendSimd Tables
  Zobrist Position Movegen Perft Api Sfen Unsafe.
Import ListNotations.

Definition rng (i : N) : N := (i * 6364136223846793005 + 1442695040888963407)%N.
Definition cfgs : list config :=
  [mkCfg Portable true rng; mkCfg Portable false rng; mkCfg X86_64 true rng;
   mkCfg Aarch64 true rng; mkCfg Wasm32 true rng].
Definition all_cfgs (f : config -> bool) : bool := forallb f cfgs.
Definition moves (cf : config) (pp : partial) : list move :=
  match Yasai.new cf pp with
  | Some p => match Yasai.legal_moves cf p with Some l => l | None => [] end
  | None => []
  end.
Definition n_moves (n : N) (pp : partial) : bool :=
  all_cfgs (fun cf => (N.of_nat (length (moves cf pp)) =? n)%N).
Definition n_drops (n : N) (k : kind) (pp : partial) : bool :=
  all_cfgs (fun cf => (N.of_nat (length (filter (fun m =>
    match m with Drop _ p => kind_eqb (pkind p) k | _ => false end)
    (moves cf pp))) =? n)%N).

(* movegen.rs 412-416 *)
Example from_default : n_moves 30 startpos = true.
Proof. vm_compute. reflexivity. Qed.
(* movegen.rs 418-448 *)
Example drop_moves : all_cfgs (fun cf => (N.of_nat (length (filter (fun m =>
  match m with Drop _ _ => true | _ => false end) (moves cf (sfen
  "lnsgkg1nl/1r5s1/pppppp1pp/6p2/9/2P6/PP1PPPPPP/7R1/LNSGKGSNL" Black "Bb"))))
  =? 43)%N) = true.
Proof. vm_compute. reflexivity. Qed.
(* movegen.rs 450-467 *)
Definition max593 :=
  sfen "R8/2K1S1SSk/4B4/9/9/9/9/9/1L1L1L3" Black "RBGSNLP3g3n17p".
Example maximum_moves : n_moves 593 max593 = true.
Proof. vm_compute. reflexivity. Qed.
(* movegen.rs 469-492 *)
Definition evasion1 :=
  sfen "9/9/9/9/9/7p1/7+r1/6KN1/4k1S2" Black "Pr2b4g3s3n4l16p".
Example evasion_moves :
  all_cfgs (fun cf => match moves cf evasion1 with
                      | [m] => sq_eqb (move_to m) (Sq n2 n9)
                      | _ => false end) = true.
Proof. vm_compute. reflexivity. Qed.
(* movegen.rs 494-562 *)
Example pawn_drop1 : n_drops 6 Pawn
  (sfen "lnsgkgsnl/1r5s1/pppppppp1/9/8L/9/PPPPPPPP1/1B5S1/LNSGKGSN1"
        White "Pp") = true.
Proof. vm_compute. reflexivity. Qed.
Example pawn_drop2 : n_drops 7 Pawn
  (sfen "lnsgkgsn1/1r5s1/pppppppp1/9/8l/9/PPPPPPPP1/1B5S1/LNSGKGSN1"
        Black "Ppl") = true.
Proof. vm_compute. reflexivity. Qed.
(* movegen.rs 564-722 *)
Definition pdm (cf : config) (pp : partial) (s : square) : bool :=
  match Yasai.new cf pp with
  | Some p =>
      match p_states _ p with
      | st :: _ => is_pawn_drop_mate (ops cf) (p_inner _ p)
                     (s_attack_info _ st) s
      | [] => false
      end
  | None => false
  end.
Example pawn_drop_mates :
  forallb (fun x => all_cfgs (fun cf =>
             Bool.eqb (pdm cf (fst (fst x)) (snd (fst x))) (snd x)))
  [(sfen "9/7pp/8k/7P1/7G1/9/9/9/9" Black "P2r2b3g4s4n4l14p", Sq n1 n4, true);
   (sfen "9/7pp/7gk/9/7G1/9/9/9/9" Black "P2r2b2g4s4n4l15p", Sq n1 n4, false);
   (sfen "9/7pp/6Rgk/9/7G1/9/9/9/9" Black "Pr2b2g4s4n4l15p", Sq n1 n4, true);
   (sfen "9/7np/8k/7P1/7G1/9/9/9/9" Black "P2r2b3g4s3n4l15p", Sq n1 n4, false);
   (sfen "6B2/7np/8k/7P1/7G1/9/9/9/9" Black "P2rb3g4s3n4l15p", Sq n1 n4, true);
   (sfen "7k1/5G2l/6B2/9/9/9/9/9/9" Black "P2rb3g4s4n3l17p", Sq n2 n2, false);
   (sfen "8k/9/7+Rr/8L/9/9/9/9/9" Black "P2b4g4s4n3l17p", Sq n1 n2, false)]
  = true.
Proof. vm_compute. reflexivity. Qed.
(* position.rs 491-559 *)
Fixpoint do_all (cf : config) (ms : list move) (p : Yasai.Position cf)
  : option (Yasai.Position cf) :=
  match ms with
  | [] => Some p
  | m :: ms => let* q := Yasai.do_move cf p m in do_all cf ms q
  end.
Fixpoint undo_all (cf : config) (ms : list move) (p : Yasai.Position cf)
  : option (Yasai.Position cf) :=
  match ms with
  | [] => Some p
  | m :: ms => let* q := Yasai.undo_move cf p m in undo_all cf ms q
  end.
Definition opening : list move :=
  [Normal (Sq n7 n7) (Sq n7 n6) false; Normal (Sq n3 n3) (Sq n3 n4) false;
   Normal (Sq n8 n8) (Sq n2 n2) true; Normal (Sq n3 n1) (Sq n2 n2) false;
   Drop (Sq n3 n3) (mkP Bishop Black)].
Definition opiece_eqb (a b : option piece) : bool :=
  match a, b with
  | Some a, Some b => piece_eqb a b | None, None => true | _, _ => false
  end.
Example do_undo_move :
  all_cfgs (fun cf =>
  match Yasai.new cf startpos with
  | Some p =>
      match do_all cf opening p with
      | Some q =>
          forallb (fun x => opiece_eqb (Yasai.piece_at cf q (fst x)) (snd x))
            [(Sq n2 n2, Some (mkP Silver White)); (Sq n3 n1, None);
             (Sq n3 n3, Some (mkP Bishop Black));
             (Sq n7 n6, Some (mkP Pawn Black)); (Sq n7 n7, None)]
          && (Yasai.ply cf q =? 6)%N
          && color_eqb (Yasai.side_to_move cf q) White
          && (match Yasai.in_check cf q with Some b => b | None => false end)
          && match undo_all cf (rev opening) q with
             | Some p' =>
                 forallb (fun s => opiece_eqb (Yasai.piece_at cf p' s)
                                     (Yasai.piece_at cf p s)) all_squares
                 && (Yasai.ply cf p' =? 1)%N
                 && color_eqb (Yasai.side_to_move cf p') Black
                 && match Yasai.in_check cf p' with
                    | Some b => negb b | None => false end
             | None => false
             end
      | None => false
      end
  | None => false
  end) = true.
Proof. vm_compute. reflexivity. Qed.
(* position.rs 561-607, depths 1 and 2 *)
Example perft_startpos :
  all_cfgs (fun cf => match Yasai.new cf startpos with
                      | Some p => match Yasai.perft cf 2 p with
                                  | Some (n, _) => (n =? 900)%N
                                  | None => false end
                      | None => false end) = true.
Proof. vm_compute. reflexivity. Qed.
(* position.rs 609-706 *)
Definition check_pos :=
  sfen "6p1k/9/6P1G/9/8L/9/9/9/9" Black "RBLrb3g4s4n2l16p".
Example is_check_move_cases :
  forallb (fun x => all_cfgs (fun cf =>
    match Yasai.new cf check_pos with
    | Some p => match Yasai.is_check_move cf p (fst x) with
                | Some b => Bool.eqb b (snd x) | None => false end
    | None => false end))
  [(Drop (Sq n1 n2) (mkP Lance Black), true);
   (Drop (Sq n1 n4) (mkP Lance Black), false);
   (Drop (Sq n2 n2) (mkP Bishop Black), true);
   (Drop (Sq n5 n5) (mkP Bishop Black), false);
   (Drop (Sq n2 n1) (mkP Rook Black), true);
   (Drop (Sq n5 n1) (mkP Rook Black), false);
   (Normal (Sq n1 n3) (Sq n1 n2) false, true);
   (Normal (Sq n1 n3) (Sq n2 n2) false, true);
   (Normal (Sq n1 n3) (Sq n2 n3) false, true);
   (Normal (Sq n1 n3) (Sq n1 n4) false, false)] = true.
Proof. vm_compute. reflexivity. Qed.

(* position.rs 451-488 *)
Example default_position :
  all_cfgs (fun cf => match Yasai.default cf with
  | Some p =>
      forallb (fun s => opiece_eqb (Yasai.piece_at cf p s)
        (sa_get (pp_board startpos) s)) all_squares
      && forallb (fun c => forallb (fun k =>
           match hand_count (Yasai.hand cf p c) k with
           | Some n => (n =? 0)%N | None => true end) all_kinds) [Black; White]
      && color_eqb (Yasai.side_to_move cf p) Black && (Yasai.ply cf p =? 1)%N
      && match Yasai.in_check cf p with Some b => negb b | None => false end
  | None => false
  end) = true.
Proof. vm_compute. reflexivity. Qed.
(* position.rs 561-607: the remaining counts, except depth 4 *)
Definition counts (cf : config) (pp : partial) (depth : nat) (n : N) : bool :=
  match Yasai.new cf pp with
  | Some p => match Yasai.perft cf depth p with
              | Some (k, _) => (k =? n)%N
              | None => false end
  | None => false
  end.
(* evaluated when this file is compiled; the proof only compares the result *)
Definition perft_startpos_3_ok : bool :=
  Eval vm_compute in counts (mkCfg Portable true rng) startpos 3 25470.
Example perft_startpos_3 : perft_startpos_3_ok = true.
Proof. reflexivity. Qed.
Definition perft_maximum_ok : bool :=
  Eval vm_compute in forallb (fun cf => counts cf max593 2 105677)
    [mkCfg Portable true rng; mkCfg X86_64 true rng; mkCfg Aarch64 true rng; mkCfg Wasm32 true rng].
Example perft_maximum : perft_maximum_ok = true.
Proof. reflexivity. Qed.

(* tables.rs 266-343 *)
Definition osquares_eqb (a b : list square) : bool :=
  (Nat.eqb (length a) (length b)) && forallb (fun x => sq_eqb (fst x) (snd x)) (combine a b).
Definition attacked (pp : partial)
  (f : forall cf, Yasai.Position cf -> list square) (l : list square) : bool :=
  all_cfgs (fun cf => match Yasai.new cf pp with
                      | Some p => osquares_eqb (f cf p) l
                      | None => false end).
Definition lance_at s c cf p :=
  biter (ops cf) (ky_attack (ops cf) s c (Yasai.occupied_bitboard cf p)).
Example lance_attack_tests :
  forallb (fun x => attacked (fst (fst x)) (lance_at (fst (snd (fst x))) (snd (snd (fst x)))) (snd x))
  [(startpos, (Sq n1 n9, Black), [Sq n1 n7; Sq n1 n8]);
   (startpos, (Sq n9 n9, Black), [Sq n9 n7; Sq n9 n8]);
   (startpos, (Sq n1 n1, White), [Sq n1 n2; Sq n1 n3]);
   (startpos, (Sq n9 n1, White), [Sq n9 n2; Sq n9 n3]);
   (sfen "p8/1p7/2p6/3p5/9/3L5/2L6/1L7/L8" Black "-", (Sq n9 n9, Black),
    [Sq n9 n1; Sq n9 n2; Sq n9 n3; Sq n9 n4; Sq n9 n5; Sq n9 n6; Sq n9 n7; Sq n9 n8]);
   (sfen "p8/1p7/2p6/3p5/9/3L5/2L6/1L7/L8" Black "-", (Sq n8 n8, Black),
    [Sq n8 n2; Sq n8 n3; Sq n8 n4; Sq n8 n5; Sq n8 n6; Sq n8 n7]);
   (sfen "p8/1p7/2p6/3p5/9/3L5/2L6/1L7/L8" Black "-", (Sq n7 n7, Black),
    [Sq n7 n3; Sq n7 n4; Sq n7 n5; Sq n7 n6]);
   (sfen "p8/1p7/2p6/3p5/9/3L5/2L6/1L7/L8" Black "-", (Sq n6 n6, Black),
    [Sq n6 n4; Sq n6 n5]);
   (sfen "l8/1l7/2l6/3l5/9/3P5/2P6/1P7/P8" White "-", (Sq n9 n1, White),
    [Sq n9 n2; Sq n9 n3; Sq n9 n4; Sq n9 n5; Sq n9 n6; Sq n9 n7; Sq n9 n8; Sq n9 n9]);
   (sfen "l8/1l7/2l6/3l5/9/3P5/2P6/1P7/P8" White "-", (Sq n8 n2, White),
    [Sq n8 n3; Sq n8 n4; Sq n8 n5; Sq n8 n6; Sq n8 n7; Sq n8 n8]);
   (sfen "l8/1l7/2l6/3l5/9/3P5/2P6/1P7/P8" White "-", (Sq n7 n3, White),
    [Sq n7 n4; Sq n7 n5; Sq n7 n6; Sq n7 n7]);
   (sfen "l8/1l7/2l6/3l5/9/3P5/2P6/1P7/P8" White "-", (Sq n6 n4, White),
    [Sq n6 n5; Sq n6 n6])] = true.
Proof. vm_compute. reflexivity. Qed.
(* tables.rs 345-380 *)
Definition slider_at (k : kind) s cf p :=
  biter (ops cf) (attack (ops cf) k s Black (Yasai.occupied_bitboard cf p)).
Example sliding_attack_tests :
  forallb (fun x => attacked startpos (slider_at (fst (fst x)) (snd (fst x))) (snd x))
  [(Bishop, Sq n2 n2, [Sq n1 n1; Sq n1 n3; Sq n3 n1; Sq n3 n3]);
   (Bishop, Sq n8 n8, [Sq n7 n7; Sq n7 n9; Sq n9 n7; Sq n9 n9]);
   (Rook, Sq n2 n8, [Sq n1 n8; Sq n2 n7; Sq n2 n9; Sq n3 n8; Sq n4 n8; Sq n5 n8;
                     Sq n6 n8; Sq n7 n8; Sq n8 n8]);
   (Rook, Sq n8 n2, [Sq n2 n2; Sq n3 n2; Sq n4 n2; Sq n5 n2; Sq n6 n2; Sq n7 n2;
                     Sq n8 n1; Sq n8 n3; Sq n9 n2])] = true.
Proof. vm_compute. reflexivity. Qed.

(* bitboard.rs 111-229 *)
Definition all_backends (f : forall b ck, bool) : bool :=
  forallb (fun b => f b true && f b false) [Portable; X86_64; Aarch64; Wasm32].
Definition to_bb (o : bbops) (l : list square) : bb o :=
  fold_left (fun acc s => bor o acc (bsingle o s)) l (bempty o).
Example bitboard_empty : all_backends (fun b ck => bis_empty _ (bempty (ops_of b ck))) = true.
Proof. vm_compute. reflexivity. Qed.
Example bitboard_single : all_backends (fun b ck => forallb (fun s =>
  (bcount _ (bsingle (ops_of b ck) s) =? 1)%N && bcontains _ (bsingle (ops_of b ck) s) s)
  all_squares) = true.
Proof. vm_compute. reflexivity. Qed.
Example bitboard_bit_ops : all_backends (fun b ck => let o := ops_of b ck in
  let eq := beq_of b ck in let bb0 := bempty o in let bb1 := bsingle o (Sq n1 n1) in
  eq bb0 (band o bb0 bb1) && eq bb1 (bor o bb0 bb1) && eq bb1 (bxor o bb0 bb1)
  && eq bb1 (bor o bb0 bb1) && eq bb1 (band o (bor o bb0 bb1) bb1)
  && eq bb0 (bxor o (band o (bor o bb0 bb1) bb1) bb1)) = true.
Proof. vm_compute. reflexivity. Qed.
Example bitboard_shift : all_backends (fun b ck => let o := ops_of b ck in
  beq_of b ck (bsingle o (Sq n1 n2)) (bshl o (bsingle o (Sq n1 n1)))
  && beq_of b ck (bsingle o (Sq n9 n8)) (bshr o (bsingle o (Sq n9 n9)))) = true.
Proof. vm_compute. reflexivity. Qed.
Example bitboard_slides : all_backends (fun b ck => let o := ops_of b ck in
  let t := to_bb o in
  let up occ more a1 a2 := beq_of b ck (bor o (t occ) (t more)) (bslide_pos2 o (t occ) (t a1, t a2)) in
  let dn occ more a1 a2 := beq_of b ck (bor o (t occ) (t more)) (bslide_neg2 o (t occ) (t a1, t a2)) in
  up [Sq n8 n3; Sq n8 n7] [Sq n7 n4; Sq n7 n6]
     [Sq n7 n4; Sq n8 n3; Sq n9 n2] [Sq n7 n6; Sq n8 n7; Sq n9 n8]
  && up [Sq n6 n8; Sq n8 n6] [Sq n6 n7; Sq n7 n6]
     [Sq n6 n7; Sq n6 n8; Sq n6 n9] [Sq n7 n6; Sq n8 n6; Sq n9 n6]
  && dn [Sq n2 n3; Sq n2 n7] [Sq n3 n4; Sq n3 n6]
     [Sq n3 n4; Sq n2 n3; Sq n1 n2] [Sq n3 n6; Sq n2 n7; Sq n1 n8]
  && dn [Sq n2 n4; Sq n4 n2] [Sq n3 n4; Sq n4 n3]
     [Sq n3 n4; Sq n2 n4; Sq n1 n4] [Sq n4 n3; Sq n4 n2; Sq n4 n1]) = true.
Proof. vm_compute. reflexivity. Qed.
Example bitboard_vacant_files : all_backends (fun b ck => let o := ops_of b ck in
  let eq x y := match x with Some x => beq_of b ck x y | None => false end in
  let vf l := bvacant o (to_bb o l) in
  let odd := vf [Sq n1 n1; Sq n3 n1; Sq n5 n1; Sq n7 n1; Sq n9 n1] in
  let odd2 := vf [Sq n1 n9; Sq n3 n9; Sq n5 n9; Sq n7 n9; Sq n9 n9] in
  let even := vf [Sq n2 n1; Sq n4 n1; Sq n6 n1; Sq n8 n1] in
  eq (vf []) (bnot o (bempty o))
  && eq (vf [Sq n1 n1; Sq n2 n2; Sq n3 n3; Sq n4 n4; Sq n5 n5; Sq n6 n6; Sq n7 n7;
             Sq n8 n8; Sq n9 n9]) (bempty o)
  && match odd, odd2, even with
     | Some x, Some y, Some e => beq_of b ck x y && beq_of b ck (band o x e) (bempty o)
         && beq_of b ck (bor o x e) (bnot o (bempty o))
     | _, _, _ => false
     end) = true.
Proof. vm_compute. reflexivity. Qed.

(* zobrist.rs 95-121 *)
Definition keys_of (cf : config) (pp : partial) (ms : list move) : option (N * N) :=
  let* p := Yasai.new cf pp in let* q := do_all cf ms p in Yasai.keys cf q.
Definition key_of (cf : config) (pp : partial) (ms : list move) : option N :=
  let* p := Yasai.new cf pp in let* q := do_all cf ms p in Yasai.key cf q.
Definition is (x : option N) (f : N -> bool) : bool :=
  match x with Some n => f n | None => false end.
Example key_empty : all_cfgs (fun cf =>
  is (key_of cf (sfen "9/9/9/9/9/9/9/9/9" Black "-") []) (N.eqb 0)
  && is (key_of cf startpos []) (fun n => negb (n =? 0)%N)) = true.
Proof. vm_compute. reflexivity. Qed.
Example key_full_hands : all_cfgs (fun cf =>
  match keys_of cf (sfen "9/9/9/9/9/9/9/9/9" Black "2R2B4G4S4N4L18P") [],
        keys_of cf (sfen "9/9/9/9/9/9/9/9/9" Black "2r2b4g4s4n4l18p") [] with
  | Some (b1, h1), Some (b2, h2) => (b1 =? 0)%N && (b2 =? 0)%N && negb (h1 =? h2)%N
  | _, _ => false
  end) = true.
Proof. vm_compute. reflexivity. Qed.
(* zobrist.rs 123-188; the harness checks the moves and the count of pawns *)
Definition move_eqb (a b : move) : bool :=
  match a, b with
  | Normal f t p, Normal f' t' p' => sq_eqb f f' && sq_eqb t t' && Bool.eqb p p'
  | Drop t x, Drop t' x' => sq_eqb t t' && piece_eqb x x'
  | _, _ => false
  end.
Fixpoint pawns_fall (cf : config) (i : N) (ms : list move) (p : Yasai.Position cf) : bool :=
  match ms with
  | [] => true
  | m :: ms =>
      match Yasai.legal_moves cf p, Yasai.do_move cf p m with
      | Some l, Some q =>
          existsb (move_eqb m) l
          && (hand_n (Yasai.hand cf q Black) Pawn =? i / 2 + 1)%N
          && pawns_fall cf (i + 1) ms q
      | _, _ => false
      end
  end.
Definition nm a b := Normal a b false.
Fixpoint weave (a b : list move) : list move :=
  match a, b with
  | x :: a, y :: b => x :: y :: weave a b
  | _, _ => a
  end.
Fixpoint steps (l : list square) : list move :=
  match l with
  | x :: (y :: _) as l => nm x y :: steps l
  | _ => []
  end.
Example capture_all_pawns : forallb (fun cf =>
  match Yasai.new cf (sfen
    "4k3K/7+p1/8+p/1p5+p1/p1p5+p/1+p1p3+p1/+p3p3+p/1+p3p1+p1/+p5+p2" Black "2R2B4G4S4N4L") with
  | Some p => pawns_fall cf 0 (weave
      (steps [Sq n1 n1; Sq n2 n2; Sq n1 n3; Sq n2 n4; Sq n1 n5; Sq n2 n6; Sq n1 n7; Sq n2 n8;
              Sq n3 n9; Sq n4 n8; Sq n5 n7; Sq n6 n6; Sq n7 n5; Sq n8 n4; Sq n9 n5; Sq n8 n6;
              Sq n9 n7; Sq n8 n8; Sq n9 n9])
      (steps (flat_map (fun _ => [Sq n5 n1; Sq n5 n2]) (repeat tt 9)))) p
  | None => false
  end) [mkCfg Portable true rng; mkCfg X86_64 true rng] = true.
Proof. vm_compute. reflexivity. Qed.
(* zobrist.rs 190-203: 100 moves, with the parity of each key; the choices of
   the original depend on the order of the list and so does this run *)
Fixpoint walk (cf : config) (n : nat) (i : N) (p : Yasai.Position cf) : list N :=
  match n with
  | O => []
  | S n =>
      match Yasai.legal_moves cf p with
      | Some l =>
          match nth_error l (N.to_nat ((i * 100) mod N.of_nat (length l))) with
          | Some m => match Yasai.do_move cf p m with
                      | Some q => match Yasai.key cf q with
                                  | Some k => k :: walk cf n (i + 1) q
                                  | None => [] end
                      | None => [] end
          | None => [] end
      | None => [] end
  end.
Definition uniqueness_ok : bool := Eval vm_compute in forallb (fun cf => match Yasai.default cf with
  | Some p => let ks := walk cf 100 0 p in
      Nat.eqb (length (nodup N.eq_dec ks)) 100
      && forallb (fun x => Bool.eqb (N.even (snd x)) (Nat.odd (fst x)))
           (combine (seq 0 100) ks)
  | None => false
  end) [mkCfg Portable true rng; mkCfg X86_64 true rng].
Example uniqueness : uniqueness_ok = true.
Proof. reflexivity. Qed.
(* zobrist.rs 205-270; the second line of the test is not legal: Black moves
   twice and White then moves out of turn *)
Example joined : all_cfgs (fun cf =>
  match key_of cf startpos [nm (Sq n7 n7) (Sq n7 n6); nm (Sq n3 n3) (Sq n3 n4); nm (Sq n2 n7) (Sq n2 n6)],
        key_of cf startpos [nm (Sq n2 n7) (Sq n2 n6); nm (Sq n7 n7) (Sq n7 n6); nm (Sq n3 n3) (Sq n3 n4)] with
  | Some a, Some b => (a =? b)%N
  | _, _ => false
  end) = true.
Proof. vm_compute. reflexivity. Qed.
(* zobrist.rs 272-367 *)
Example same_board : all_cfgs (fun cf =>
  match keys_of cf startpos [nm (Sq n7 n7) (Sq n7 n6); nm (Sq n3 n3) (Sq n3 n4);
          nm (Sq n8 n8) (Sq n2 n2); nm (Sq n3 n1) (Sq n2 n2);
          Drop (Sq n8 n8) (mkP Bishop Black); nm (Sq n2 n2) (Sq n3 n1)],
        keys_of cf startpos [nm (Sq n7 n7) (Sq n7 n6); nm (Sq n3 n3) (Sq n3 n4);
          nm (Sq n8 n8) (Sq n2 n2); nm (Sq n3 n1) (Sq n4 n2);
          nm (Sq n2 n2) (Sq n8 n8); nm (Sq n4 n2) (Sq n3 n1)] with
  | Some (b1, h1), Some (b2, h2) => (b1 =? b2)%N && negb (h1 =? h2)%N
  | _, _ => false
  end) = true.
Proof. vm_compute. reflexivity. Qed.
