(** * The syntax of the part of Rust that /repo/src is written in

    A lexer and a parser for expressions, statements and items, so that the
    text of the source files can be given to Coq as it is ([SourceText.v]) and
    run ([RustSem.v]).  Nothing here is specific to yasai.  Types are skipped,
    except that a parameter of type [&mut T] is marked and that the types of
    casts and of the fields of structs are kept; generic arguments that are not
    numbers, attributes, visibility, traits and [use] are skipped.  Macros with one
    rule that make items are expanded. *)

From Coq Require Import List Bool NArith String Ascii.
Import ListNotations.
Open Scope string_scope.

(** ** Tokens *)

Inductive token :=
| TId (s : string)      (* identifiers and keywords *)
| TNum (n : N)
| TStr (s : string)
| TP (s : string).      (* punctuation, one or two characters *)

Definition code_in (a b : N) (c : ascii) : bool :=
  ((a <=? N_of_ascii c) && (N_of_ascii c <=? b))%N.
Definition is_digit : ascii -> bool := code_in 48 57.
Definition is_upper : ascii -> bool := code_in 65 90.
Definition is_alpha (c : ascii) : bool :=
  (is_upper c || code_in 97 122 c || Ascii.eqb c "_")%bool.
Definition is_space : ascii -> bool := code_in 0 32.
Definition hex_digit (c : ascii) : option N :=
  if is_digit c then Some (N_of_ascii c - 48)%N
  else if code_in 97 102 c then Some (N_of_ascii c - 87)%N
  else if code_in 65 70 c then Some (N_of_ascii c - 55)%N
  else None.

Fixpoint rev_string (l : list ascii) (acc : string) : string :=
  match l with [] => acc | c :: l => rev_string l (String c acc) end.

(* what the lexer is in the middle of *)
Inductive lmode :=
| LStart
| LId (l : list ascii)
| LNum (base n : N)
| LStr (l : list ascii)
| LLine                     (* a comment up to the end of the line *)
| LPunct (c : ascii).

Definition two_chars (a b : ascii) : bool :=
  existsb (String.eqb (String a (String b "")))
    ["::"; "->"; "=>"; "=="; "!="; "<="; ">="; "&&"; "||"; ".."; "+="; "-="; "*="; "|="; "^="; "&="].

Definition lex_start (c : ascii) : list token * lmode :=
  if is_space c then ([], LStart)
  else if is_alpha c then ([], LId [c])
  else if is_digit c then ([], LNum 10 (N_of_ascii c - 48)%N)
  else if Ascii.eqb c """" then ([], LStr [])
  else ([], LPunct c).

Definition lex_char (m : lmode) (c : ascii) : list token * lmode :=
  match m with
  | LStart => lex_start c
  | LId l =>
      if (is_alpha c || is_digit c)%bool then ([], LId (c :: l))
      else let (t, m) := lex_start c in (TId (rev_string l "") :: t, m)
  | LNum base n =>
      if Ascii.eqb c "_" then ([], LNum base n)
      else if (Ascii.eqb c "x" && (n =? 0)%N && (base =? 10)%N)%bool then ([], LNum 16 0)
      else match (if (base =? 16)%N then hex_digit c
                  else if is_digit c then Some (N_of_ascii c - 48)%N else None) with
           | Some d => ([], LNum base (base * n + d)%N)
           | None => let (t, m) := lex_start c in (TNum n :: t, m)
           end
  | LStr l => if Ascii.eqb c """" then ([TStr (rev_string l "")], LStart) else ([], LStr (c :: l))
  | LLine => if Ascii.eqb c "010" then ([], LStart) else ([], LLine)
  | LPunct a =>
      if (Ascii.eqb a "/" && Ascii.eqb c "/")%bool then ([], LLine)
      else if two_chars a c then ([TP (String a (String c ""))], LStart)
      else let (t, m) := lex_start c in (TP (String a "") :: t, m)
  end.

Fixpoint lex (m : lmode) (s : string) : list token :=
  match s with
  | EmptyString => fst (lex_char m " ")
  | String c s => let (t, m) := lex_char m c in (t ++ lex m s)%list
  end.

(** ** Abstract syntax *)

(* in terms of a type of names *)
Section Ast.
Context {I : Type}.

Definition gpath := list I.

Inductive gpat :=
| PWild
| PId (x : I)
| PPath (p : gpath)                            (* Color::Black, None *)
| PCon (p : gpath) (l : list gpat)              (* Some(p) *)
| PStruct (p : gpath) (l : list (I * gpat))
| PTup (l : list gpat)
| PRef (p : gpat)                              (* &p *)
| POr (l : list gpat).

Inductive gexpr :=
| ELit (n : N)
| EStr (s : I)
| EPath (p : gpath)
| EUn (op : I) (e : gexpr)                (* ! - * & &mut *)
| EBin (op : I) (a b : gexpr)
| EAssign (a b : gexpr)
| EOpAssign (op : I) (a b : gexpr)
| ECast (e : gexpr) (t : I)
| ECall (f : gexpr) (args : list gexpr)
| EMethod (e : gexpr) (m : I) (args : list gexpr)
| EField (e : gexpr) (f : I)
| EIndex (e i : gexpr)
| EStruct (p : gpath) (l : list (I * gexpr))
| ETup (l : list gexpr)
| EArr (l : list gexpr)
| ERepeat (e n : gexpr)
| EBlock (b : list gstmt)
| EIf (c t e : gexpr)
| EIfLet (p : gpat) (c t e : gexpr)
| EMatch (c : gexpr) (arms : list (gpat * gexpr))
| EWhile (c b : gexpr)
| EWhileLet (p : gpat) (c b : gexpr)
| EFor (p : gpat) (c b : gexpr)
| EReturn (e : gexpr)
| EBreak
| EContinue
| EClosure (ps : list gpat) (e : gexpr)
| EMacro (m : I) (args : list gexpr)
with gstmt :=
| SLet (p : gpat) (e : option gexpr)
| SExpr (e : gexpr)                            (* e; *)
| STail (e : gexpr).                           (* the value of the block *)

(* a parameter, and whether its type is &mut T *)
Definition gparam := (gpat * bool)%type.
Record gfn := mkFn { fn_self : I; fn_name : I; fn_params : list gparam; fn_body : gexpr }.
(* constants and statics *)
Record gconst := mkConst { cd_self : I; cd_name : I; cd_expr : gexpr }.
(* the types of the fields of a struct *)
Definition gstruct := (I * list (I * I))%type.
Record gprog := mkProg { pr_fns : list gfn; pr_consts : list gconst; pr_structs : list gstruct }.
End Ast.
Arguments gpath : clear implicits.
Arguments gpat : clear implicits.
Arguments gexpr : clear implicits.
Arguments gstmt : clear implicits.
Arguments gparam : clear implicits.
Arguments gfn : clear implicits.
Arguments gconst : clear implicits.
Arguments gstruct : clear implicits.
Arguments gprog : clear implicits.

(** ** The parser: recursive descent; [n] bounds the depth *)

Local Notation path := (gpath string).
Local Notation pat := (gpat string).
Local Notation expr := (gexpr string).
Local Notation stmt := (gstmt string).
Local Notation param := (gparam string).
Local Notation fndecl := (gfn string).
Local Notation constdecl := (gconst string).
Local Notation structdecl := (gstruct string).
Local Notation program := (gprog string).

Definition P (A : Type) := list token -> option (A * list token).
Definition ret {A} (a : A) : P A := fun ts => Some (a, ts).
Definition bindP {A B} (p : P A) (f : A -> P B) : P B :=
  fun ts => match p ts with Some (a, ts) => f a ts | None => None end.
Notation "x <- p ;; q" := (bindP p (fun x => q)) (at level 61, p at next level, right associativity).
Notation "p ;;; q" := (bindP p (fun _ => q)) (at level 61, right associativity).
Definition failP {A} : P A := fun _ => None.

Definition tok_is (s : string) (t : token) : bool :=
  match t with TP x => String.eqb x s | TId x => String.eqb x s | _ => false end.
Definition next_is (s : string) (ts : list token) : bool :=
  match ts with t :: _ => tok_is s t | [] => false end.
(* the given token *)
Definition eat (s : string) : P unit :=
  fun ts => match ts with t :: ts => if tok_is s t then Some (tt, ts) else None | [] => None end.
(* the given token if it is there *)
Definition opt (s : string) : P bool :=
  fun ts => if next_is s ts then Some (true, tl ts) else Some (false, ts).
Definition ident : P string :=
  fun ts => match ts with TId x :: ts => Some (x, ts) | _ => None end.
Definition ifn {A} (s : string) (p q : P A) : P A :=
  fun ts => if next_is s ts then p ts else q ts.

(* skip up to the closing bracket that belongs to [d] open ones *)
Fixpoint skip_balanced (d : nat) (ts : list token) : list token :=
  match ts with
  | [] => []
  | t :: ts =>
      if (tok_is "(" t || tok_is "[" t || tok_is "{" t)%bool then skip_balanced (S d) ts
      else if (tok_is ")" t || tok_is "]" t || tok_is "}" t)%bool then
        match d with
        | O | S O => ts
        | S d => skip_balanced d ts
        end
      else skip_balanced d ts
  end.
Fixpoint skip_to (s : string) (ts : list token) : list token :=
  match ts with [] => [] | t :: ts' => if tok_is s t then ts else skip_to s ts' end.

(* a, b, c up to the token [close], which is eaten *)
Fixpoint sep_list {A} (n : nat) (p : P A) (sep close : string) : P (list A) :=
  fun ts =>
    match n with
    | O => None
    | S n =>
        if next_is close ts then Some ([], tl ts)
        else match p ts with
             | Some (a, ts) =>
                 if next_is sep ts then
                   match sep_list n p sep close (tl ts) with
                   | Some (l, ts) => Some (a :: l, ts)
                   | None => None
                   end
                 else if next_is close ts then Some ([a], tl ts) else None
             | None => None
             end
    end.

(* #[...] *)
Fixpoint attrs (n : nat) : P unit :=
  fun ts => match n with
            | O => None
            | S n => if next_is "#" ts then attrs n (skip_balanced 0 (tl ts)) else Some (tt, ts)
            end.

(* <...> of a type or after :: *)
Fixpoint skip_angle (d : nat) (ts : list token) : list token :=
  match ts with
  | [] => []
  | t :: ts =>
      if tok_is "<" t then skip_angle (S d) ts
      else if tok_is ">" t then match d with O | S O => ts | S d => skip_angle d ts end
      else skip_angle d ts
  end.

(* a type: the last name of its path, or "&mut" *)
Fixpoint p_ty (n : nat) : P string :=
  match n with
  | O => failP
  | S n => fun ts =>
      if next_is "&" ts then
        let ts := tl ts in
        let ts := if next_is "'" ts then tl (tl ts) else ts in
        if next_is "mut" ts then (p_ty n ;;; ret "&mut") (tl ts) else p_ty n ts
      else if next_is "*" ts then p_ty n (tl (tl ts))
      else if next_is "[" ts then Some ("[]", skip_balanced 0 ts)
      else if next_is "(" ts then Some ("()", skip_balanced 0 ts)
      else match ts with
           | TId x :: ts =>
               if next_is "::" ts then p_ty n (tl ts)
               else if next_is "<" ts then Some (x, skip_angle 0 ts)
               else Some (x, ts)
           | _ => None
           end
  end.

Definition digit_name (n : N) : string := String (ascii_of_N (n + 48)) "".

(* a::b::c; a number as generic argument is a name: a::<1> *)
Fixpoint p_path (n : nat) : P path :=
  match n with
  | O => failP
  | S n =>
      x <- ident ;;
      ifn "::" (fun ts =>
                  match tl ts with
                  | TP "<" :: TNum k :: TP ">" :: ts => Some ([x; digit_name k], ts)
                  | TP "<" :: _ => (eat "::" ;;; (l <- p_path n ;; ret (x :: l))) (skip_angle 0 (tl ts))
                  | _ => (l <- p_path n ;; ret (x :: l)) (tl ts)
                  end) (ret [x])
  end.

Definition starts_upper (s : string) : bool :=
  match s with String c _ => is_upper c | EmptyString => false end.

Fixpoint p_pat1 (n : nat) : P pat :=
  match n with
  | O => failP
  | S n => fun ts =>
      if next_is "_" ts then Some (PWild, tl ts)
      else if next_is "mut" ts then (x <- ident ;; ret (PId x)) (tl ts)
      else if next_is "&" ts then (p <- p_pat1 n ;; ret (PRef p)) (tl ts)
      else if next_is "(" ts then (l <- sep_list n (p_pat1 n) "," ")" ;; ret (PTup l)) (tl ts)
      else
          (p <- p_path n ;;
           ifn "(" (fun ts => (l <- sep_list n (p_pat1 n) "," ")" ;; ret (PCon p l)) (tl ts))
          (ifn "{" (fun ts => (l <- sep_list n
                                (x <- ident ;;
                                 ifn ":" (fun ts => (q <- p_pat1 n ;; ret (x, q)) (tl ts))
                                         (ret (x, PId x))) "," "}" ;; ret (PStruct p l)) (tl ts))
          (match p with
           | [x] => if starts_upper x then ret (PPath p) else ret (PId x)
           | _ => ret (PPath p)
           end))) ts
  end.
Fixpoint p_alts (n : nat) : P (list pat) :=
  match n with
  | O => failP
  | S n => p <- p_pat1 n ;; ifn "|" (fun ts => (l <- p_alts n ;; ret (p :: l)) (tl ts)) (ret [p])
  end.
Definition p_pat (n : nat) : P pat :=
  l <- p_alts n ;; match l with [p] => ret p | _ => ret (POr l) end.

(* operators with their level and the number of tokens *)
Definition binop (ts : list token) : option (nat * string * nat) :=
  if (next_is "<" ts && next_is "<" (tl ts))%bool then Some (7, "<<", 2)%nat
  else if (next_is ">" ts && next_is ">" (tl ts))%bool then Some (7, ">>", 2)%nat
  else match ts with
  | TP x :: _ =>
      if String.eqb x "||" then Some (1, x, 1)%nat
      else if String.eqb x "&&" then Some (2, x, 1)%nat
      else if existsb (String.eqb x) ["=="; "!="; "<"; ">"; "<="; ">="] then Some (3, x, 1)%nat
      else if String.eqb x "|" then Some (4, x, 1)%nat
      else if String.eqb x "^" then Some (5, x, 1)%nat
      else if String.eqb x "&" then Some (6, x, 1)%nat
      else if existsb (String.eqb x) ["+"; "-"] then Some (8, x, 1)%nat
      else if existsb (String.eqb x) ["*"; "/"; "%"] then Some (9, x, 1)%nat
      else None
  | _ => None
  end.
Definition assignop (ts : list token) : option string :=
  match ts with
  | TP (String c (String "=" "")) :: _ =>
      if existsb (String.eqb (String c "")) ["+"; "-"; "*"; "|"; "^"; "&"] then Some (String c "") else None
  | _ => None
  end.

Definition unit_expr : expr := ETup [].
Definition block_like (ts : list token) : bool :=
  match ts with
  | t :: _ => existsb (fun s => tok_is s t) ["if"; "match"; "for"; "while"; "unsafe"; "{"]
  | [] => false
  end.

(* a as T *)
Fixpoint p_cast (n : nat) (a : expr) : P expr :=
  match n with
  | O => failP
  | S n => ifn "as" (fun ts => (t <- p_ty n ;; p_cast n (ECast a t)) (tl ts)) (ret a)
  end.

(* [ns]: no struct literal, as in the condition of an if *)
Fixpoint p_expr (n : nat) (ns : bool) : P expr :=
  match n with
  | O => failP
  | S n => fun ts =>
      match (a <- p_bin n ns 1%nat ;;
             ifn ".." (fun ts => (b <- p_bin n ns 1%nat ;; ret (EBin ".." a b)) (tl ts)) (ret a)) ts with
      | Some (a, ts) =>
          if next_is "=" ts then (b <- p_expr n ns ;; ret (EAssign a b)) (tl ts)
          else match assignop ts with
               | Some op => (b <- p_expr n ns ;; ret (EOpAssign op a b)) (tl ts)
               | None => Some (a, ts)
               end
      | None => None
      end
  end
with p_bin (n : nat) (ns : bool) (lvl : nat) : P expr :=
  match n with
  | O => failP
  | S n => a <- p_unary n ns ;; a <- p_cast n a ;; p_bin_loop n ns lvl a
  end
with p_bin_loop (n : nat) (ns : bool) (lvl : nat) (a : expr) : P expr :=
  match n with
  | O => failP
  | S n => fun ts =>
      match binop ts with
      | Some (l, op, k) =>
          if Nat.leb lvl l
          then (b <- p_bin n ns (S l) ;; p_bin_loop n ns lvl (EBin op a b)) (skipn k ts)
          else Some (a, ts)
      | None => Some (a, ts)
      end
  end
with p_unary (n : nat) (ns : bool) : P expr :=
  match n with
  | O => failP
  | S n => fun ts =>
      if next_is "!" ts then (e <- p_unary n ns ;; ret (EUn "!" e)) (tl ts)
      else if next_is "-" ts then (e <- p_unary n ns ;; ret (EUn "-" e)) (tl ts)
      else if next_is "*" ts then (e <- p_unary n ns ;; ret (EUn "*" e)) (tl ts)
      else if next_is "&" ts then
        if next_is "mut" (tl ts) then (e <- p_unary n ns ;; ret (EUn "&mut" e)) (tl (tl ts))
        else (e <- p_unary n ns ;; ret (EUn "&" e)) (tl ts)
      else (e <- p_primary n ns ;; p_postfix n e) ts
  end
with p_postfix (n : nat) (e : expr) : P expr :=
  match n with
  | O => failP
  | S n => fun ts =>
      if next_is "." ts then
        match tl ts with
        | TNum k :: ts => p_postfix n (EField e (digit_name k)) ts
        | TId m :: ts =>
            if next_is "(" ts
            then (l <- sep_list n (p_expr n false) "," ")" ;; p_postfix n (EMethod e m l)) (tl ts)
            else p_postfix n (EField e m) ts
        | _ => None
        end
      else if next_is "(" ts then (l <- sep_list n (p_expr n false) "," ")" ;; p_postfix n (ECall e l)) (tl ts)
      else if next_is "[" ts then (i <- p_expr n false ;; eat "]" ;;; p_postfix n (EIndex e i)) (tl ts)
      else Some (e, ts)
  end
with p_primary (n : nat) (ns : bool) : P expr :=
  match n with
  | O => failP
  | S n => fun ts =>
      match ts with
      | [] => None
      | TNum k :: ts =>
          match ts with
          | TId "u128" :: ts => Some (ECast (ELit k) "u128", ts)      (* 1_u128 *)
          | _ => Some (ELit k, ts)
          end
      | TStr s :: ts => Some (EStr s, ts)
      | TP x :: ts' =>
          if String.eqb x "(" then
            if next_is ")" ts' then Some (ETup [], tl ts')
            else (a <- p_expr n false ;;
                  ifn ")" (fun ts => Some (a, tl ts))
                          (eat "," ;;; (l <- sep_list n (p_expr n false) "," ")" ;; ret (ETup (a :: l))))) ts'
          else if String.eqb x "[" then
            if next_is "]" ts' then Some (EArr [], tl ts')
            else (a <- p_expr n false ;;
                  ifn ";" (fun ts => (k <- p_expr n false ;; eat "]" ;;; ret (ERepeat a k)) (tl ts))
                 (ifn "]" (fun ts => Some (EArr [a], tl ts))
                          (eat "," ;;; (l <- sep_list n (p_expr n false) "," "]" ;; ret (EArr (a :: l)))))) ts'
          else if String.eqb x "{" then p_block n ts
          else if String.eqb x "||" then (e <- p_expr n false ;; ret (EClosure [] e)) ts'
          else if String.eqb x "|" then
            (l <- sep_list n (p_pat1 n) "," "|" ;; e <- p_expr n false ;; ret (EClosure l e)) ts'
          else None
      | TId x :: ts' =>
          if String.eqb x "unsafe" then p_block n ts'
          else if String.eqb x "if" then p_if n ts'
          else if String.eqb x "match" then
            (c <- p_expr n true ;; eat "{" ;;; (l <- p_arms n ;; ret (EMatch c l))) ts'
          else if String.eqb x "while" then
            if next_is "let" ts' then
              (p <- p_pat n ;; eat "=" ;;; (c <- p_expr n true ;; b <- p_block n ;; ret (EWhileLet p c b))) (tl ts')
            else (c <- p_expr n true ;; b <- p_block n ;; ret (EWhile c b)) ts'
          else if String.eqb x "for" then
            (p <- p_pat n ;; eat "in" ;;; (c <- p_expr n true ;; b <- p_block n ;; ret (EFor p c b))) ts'
          else if String.eqb x "return" then
            if (next_is ";" ts' || next_is "}" ts')%bool then Some (EReturn unit_expr, ts')
            else (e <- p_expr n false ;; ret (EReturn e)) ts'
          else if String.eqb x "break" then Some (EBreak, ts')
          else if String.eqb x "continue" then Some (EContinue, ts')
          else if (next_is "!" ts' && next_is "(" (tl ts'))%bool then
            (l <- sep_list n (p_expr n false) "," ")" ;; ret (EMacro x l)) (tl (tl ts'))
          else if (next_is "!" ts' && next_is "[" (tl ts'))%bool then
            (l <- sep_list n (p_expr n false) "," "]" ;; ret (EMacro x l)) (tl (tl ts'))
          else
            (p <- p_path n ;; fun ts =>
             if (next_is "{" ts && negb ns && starts_upper (last p ""))%bool then
               (l <- sep_list n (x <- ident ;;
                                 ifn ":" (fun ts => (e <- p_expr n false ;; ret (x, e)) (tl ts))
                                         (ret (x, EPath [x]))) "," "}" ;; ret (EStruct p l)) (tl ts)
             else Some (EPath p, ts)) ts
      end
  end
(* after "if" *)
with p_if (n : nat) : P expr :=
  match n with
  | O => failP
  | S n =>
      let rest := ifn "else" (fun ts => if next_is "if" (tl ts) then p_if n (tl (tl ts)) else p_block n (tl ts))
                             (ret unit_expr) in
      ifn "let" (fun ts => (p <- p_pat n ;; eat "=" ;;; (c <- p_expr n true ;; t <- p_block n ;; e <- rest ;;
                            ret (EIfLet p c t e))) (tl ts))
                (c <- p_expr n true ;; t <- p_block n ;; e <- rest ;; ret (EIf c t e))
  end
(* the arms of a match, after the opening brace *)
with p_arms (n : nat) : P (list (pat * expr)) :=
  match n with
  | O => failP
  | S n => fun ts =>
      if next_is "}" ts then Some ([], tl ts)
      else (p <- p_pat n ;; eat "=>" ;;; fun ts =>
            if next_is "{" ts then
              (e <- p_block n ;; opt "," ;;; (l <- p_arms n ;; ret ((p, e) :: l))) ts
            else (e <- p_expr n false ;; opt "," ;;; (l <- p_arms n ;; ret ((p, e) :: l))) ts) ts
  end
with p_block (n : nat) : P expr :=
  match n with
  | O => failP
  | S n => eat "{" ;;; (l <- p_stmts n ;; ret (EBlock l))
  end
(* statements up to the closing brace, which is eaten *)
with p_stmts (n : nat) : P (list stmt) :=
  match n with
  | O => failP
  | S n => attrs n ;;; fun ts =>
      if next_is "}" ts then Some ([], tl ts)
      else if next_is ";" ts then p_stmts n (tl ts)
      else if next_is "let" ts then
        (p <- p_pat n ;; (ifn ":" (fun ts => (p_ty n ;;; ret tt) (tl ts)) (ret tt)) ;;;
         (e <- ifn "=" (fun ts => (e <- p_expr n false ;; ret (Some e)) (tl ts)) (ret None) ;;
          eat ";" ;;; (l <- p_stmts n ;; ret (SLet p e :: l)))) (tl ts)
      else
        ((e <- (if block_like ts then p_primary n false else p_expr n false) ;;
          fun ts' =>
          if next_is ";" ts' then (l <- p_stmts n ;; ret (SExpr e :: l)) (tl ts')
          else if next_is "}" ts' then Some ([STail e], tl ts')
          else if block_like ts then (l <- p_stmts n ;; ret (SExpr e :: l)) ts'
          else None) ts)
  end.

(* (&self, x: T, ...) *)
Definition p_param (n : nat) : P param :=
  fun ts =>
    if (next_is "&" ts && next_is "self" (tl ts))%bool then Some ((PId "self", false), tl (tl ts))
    else if (next_is "&" ts && next_is "mut" (tl ts) && next_is "self" (tl (tl ts)))%bool
    then Some ((PId "self", true), tl (tl (tl ts)))
    else if next_is "self" ts then Some ((PId "self", false), tl ts)
    else (p <- p_pat1 n ;; eat ":" ;;; (t <- p_ty n ;; ret (p, String.eqb t "&mut"))) ts.

(* after "fn"; [self]: the type of the enclosing impl *)
Definition p_fn (n : nat) (self : string) : P fndecl :=
  name <- ident ;; eat "(" ;;;
  (ps <- sep_list n (p_param n) "," ")" ;;
   (ifn "->" (fun ts => (p_ty n ;;; ret tt) (tl ts)) (ret tt)) ;;;
   (b <- p_block n ;; ret (mkFn self name ps b))).
(* after "const" or "static" *)
Definition p_const (n : nat) (self : string) : P constdecl :=
  name <- ident ;; eat ":" ;;; p_ty n ;;; eat "=" ;;;
  (e <- p_expr n false ;; eat ";" ;;; ret (mkConst self name e)).

Definition add_fn (f : fndecl) (p : program) : program :=
  mkProg (f :: pr_fns p) (pr_consts p) (pr_structs p).
Definition add_const (c : constdecl) (p : program) : program :=
  mkProg (pr_fns p) (c :: pr_consts p) (pr_structs p).
Definition add_struct (d : structdecl) (p : program) : program :=
  mkProg (pr_fns p) (pr_consts p) (d :: pr_structs p).

(* pub, pub(crate) *)
Definition skip_pub : P unit :=
  fun ts => if next_is "pub" ts
            then Some (tt, if next_is "(" (tl ts) then skip_balanced 0 (tl ts) else tl ts)
            else Some (tt, ts).
Fixpoint number_fields (i : N) (l : list string) : list (string * string) :=
  match l with [] => [] | t :: l => (digit_name i, t) :: number_fields (i + 1) l end.
(* after "struct" *)
Definition p_struct (n : nat) : P structdecl :=
  x <- ident ;;
  ifn "{" (fun ts => (l <- sep_list n (skip_pub ;;; (f <- ident ;; eat ":" ;;; (t <- p_ty n ;; ret (f, t))))
                           "," "}" ;; ret (x, l)) (tl ts))
          (eat "(" ;;; (l <- sep_list n (skip_pub ;;; p_ty n) "," ")" ;; eat ";" ;;; ret (x, number_fields 0 l))).

(* items up to the end of the text or a closing brace *)
Fixpoint p_items (n : nat) (self : string) : P program :=
  match n with
  | O => failP
  | S n => attrs n ;;; fun ts =>
      match ts with
      | [] => Some (mkProg [] [] [], [])
      | TP x :: ts => if String.eqb x "}" then Some (mkProg [] [] [], ts) else None
      | TId x :: ts' =>
          if String.eqb x "pub" then (skip_pub ;;; p_items n self) ts
          else if (String.eqb x "use" || String.eqb x "type")%bool then p_items n self (tl (skip_to ";" ts'))
          else if String.eqb x "struct" then
            (d <- p_struct n ;; p <- p_items n self ;; ret (add_struct d p)) ts'
          else if (String.eqb x "const" || String.eqb x "static")%bool then
            (c <- p_const n self ;; p <- p_items n self ;; ret (add_const c p)) ts'
          else if String.eqb x "fn" then (f <- p_fn n self ;; p <- p_items n self ;; ret (add_fn f p)) ts'
          else if String.eqb x "unsafe" then p_items n self ts'
          else if String.eqb x "trait" then p_items n self (skip_balanced 0 (skip_to "{" ts'))
          else if String.eqb x "impl" then
            (t <- p_ty n ;;
             t <- ifn "for" (fun ts => p_ty n (tl ts)) (ret t) ;;
             eat "{" ;;;
             (q <- p_items n t ;; p <- p_items n self ;;
              ret (mkProg (pr_fns q ++ pr_fns p) (pr_consts q ++ pr_consts p) (pr_structs q ++ pr_structs p)))) ts'
          else None
      | _ => None
      end
  end.

(** The program written in a text. *)
Definition parse_tokens (ts : list token) : option program :=
  match p_items 2000 "" ts with
  | Some (p, []) => Some p
  | _ => None
  end.
Definition parse (s : string) : option program := parse_tokens (lex LStart s).

(** ** Macros that make items

    [macro_rules! m { (pattern) => { body }; }] with one rule, whose pattern has
    no repetition, and the items [m!(arguments);]. *)

(* the tokens up to the closing bracket that belongs to [d] open ones, and the rest *)
Fixpoint split_balanced (d : nat) (ts : list token) : list token * list token :=
  match ts with
  | [] => ([], [])
  | t :: ts =>
      if (tok_is "(" t || tok_is "[" t || tok_is "{" t)%bool
      then let (a, b) := split_balanced (S d) ts in (t :: a, b)
      else if (tok_is ")" t || tok_is "]" t || tok_is "}" t)%bool then
        match d with
        | O | S O => ([], ts)
        | S d => let (a, b) := split_balanced d ts in (t :: a, b)
        end
      else let (a, b) := split_balanced d ts in (t :: a, b)
  end.
Definition token_eqb (a b : token) : bool :=
  match a, b with
  | TId x, TId y => String.eqb x y
  | TP x, TP y => String.eqb x y
  | TNum x, TNum y => N.eqb x y
  | TStr x, TStr y => String.eqb x y
  | _, _ => false
  end.
(* the tokens before the next comma *)
Fixpoint to_comma (ts : list token) : list token * list token :=
  match ts with
  | [] => ([], [])
  | t :: ts' => if tok_is "," t then ([], ts) else let (a, b) := to_comma ts' in (t :: a, b)
  end.
(* match the arguments; $x:ident is one token, $x:path goes up to a comma *)
Fixpoint macro_args (pat ts : list token) : option (list (string * list token)) :=
  match pat with
  | [] => match ts with [] => Some [] | _ => None end
  | TP "$" :: TId x :: TP ":" :: TId k :: pat =>
      match ts with
      | [] => None
      | t :: ts' =>
          let (a, b) := if String.eqb k "path" then to_comma ts else ([t], ts') in
          match macro_args pat b with Some l => Some ((x, a) :: l) | None => None end
      end
  | p :: pat => match ts with
                | t :: ts => if token_eqb p t then macro_args pat ts else None
                | [] => None
                end
  end.
Fixpoint macro_assoc (x : string) (l : list (string * list token)) : list token :=
  match l with [] => [TId x] | (y, a) :: l => if String.eqb x y then a else macro_assoc x l end.
Fixpoint macro_body (l : list (string * list token)) (ts : list token) : list token :=
  match ts with
  | TP "$" :: TId x :: ts => (macro_assoc x l ++ macro_body l ts)%list
  | t :: ts => t :: macro_body l ts
  | [] => []
  end.
Definition macro := (string * (list token * list token))%type.
Fixpoint macro_find (x : string) (ms : list macro) : option (list token * list token) :=
  match ms with [] => None | (y, m) :: ms => if String.eqb x y then Some m else macro_find x ms end.
(* take the definitions out and put the bodies in *)
Fixpoint expand (n : nat) (ms : list macro) (ts : list token) : option (list token) :=
  match n with
  | O => None
  | S n =>
      match ts with
      | [] => Some []
      | TId "macro_rules" :: TP "!" :: TId x :: TP "{" :: TP "(" :: ts =>
          let (pat, ts) := split_balanced 1 ts in
          match ts with
          | TP "=>" :: TP "{" :: ts =>
              let (b, ts) := split_balanced 1 ts in
              match ts with
              | TP ";" :: TP "}" :: ts => expand n ((x, (pat, b)) :: ms) ts
              | _ => None
              end
          | _ => None
          end
      | TId x :: TP "!" :: TP "(" :: ts' =>
          match macro_find x ms with
          | Some (pat, b) =>
              let (a, ts) := split_balanced 1 ts' in
              match ts, macro_args pat a with
              | TP ";" :: ts, Some l =>
                  match expand n ms ts with Some r => Some (macro_body l b ++ r)%list | None => None end
              | _, _ => None
              end
          | None => match expand n ms (tl ts) with Some r => Some (TId x :: r) | None => None end
          end
      | t :: ts => match expand n ms ts with Some r => Some (t :: r) | None => None end
      end
  end.
Definition parse_macros (s : string) : option program :=
  match expand 10000 [] (lex LStart s) with Some ts => parse_tokens ts | None => None end.

(** ** The same program with other names *)

Section Rename.
Context {I J : Type} (f : I -> J).

Fixpoint ren_pat (p : gpat I) : gpat J :=
  match p with
  | PWild => PWild
  | PId x => PId (f x)
  | PPath p => PPath (map f p)
  | PCon p l => PCon (map f p) (map ren_pat l)
  | PStruct p l => PStruct (map f p) (map (fun x => (f (fst x), ren_pat (snd x))) l)
  | PTup l => PTup (map ren_pat l)
  | PRef p => PRef (ren_pat p)
  | POr l => POr (map ren_pat l)
  end.
Fixpoint ren_expr (e : gexpr I) : gexpr J :=
  match e with
  | ELit n => ELit n
  | EStr s => EStr (f s)
  | EPath p => EPath (map f p)
  | EUn op e => EUn (f op) (ren_expr e)
  | EBin op a b => EBin (f op) (ren_expr a) (ren_expr b)
  | EAssign a b => EAssign (ren_expr a) (ren_expr b)
  | EOpAssign op a b => EOpAssign (f op) (ren_expr a) (ren_expr b)
  | ECast e t => ECast (ren_expr e) (f t)
  | ECall g l => ECall (ren_expr g) (map ren_expr l)
  | EMethod e m l => EMethod (ren_expr e) (f m) (map ren_expr l)
  | EField e x => EField (ren_expr e) (f x)
  | EIndex e i => EIndex (ren_expr e) (ren_expr i)
  | EStruct p l => EStruct (map f p) (map (fun x => (f (fst x), ren_expr (snd x))) l)
  | ETup l => ETup (map ren_expr l)
  | EArr l => EArr (map ren_expr l)
  | ERepeat e n => ERepeat (ren_expr e) (ren_expr n)
  | EBlock l => EBlock (map ren_stmt l)
  | EIf c t e => EIf (ren_expr c) (ren_expr t) (ren_expr e)
  | EIfLet p c t e => EIfLet (ren_pat p) (ren_expr c) (ren_expr t) (ren_expr e)
  | EMatch c l => EMatch (ren_expr c) (map (fun x => (ren_pat (fst x), ren_expr (snd x))) l)
  | EWhile c b => EWhile (ren_expr c) (ren_expr b)
  | EWhileLet p c b => EWhileLet (ren_pat p) (ren_expr c) (ren_expr b)
  | EFor p c b => EFor (ren_pat p) (ren_expr c) (ren_expr b)
  | EReturn e => EReturn (ren_expr e)
  | EBreak => EBreak
  | EContinue => EContinue
  | EClosure ps e => EClosure (map ren_pat ps) (ren_expr e)
  | EMacro m l => EMacro (f m) (map ren_expr l)
  end
with ren_stmt (s : gstmt I) : gstmt J :=
  match s with
  | SLet p e => SLet (ren_pat p) (match e with Some e => Some (ren_expr e) | None => None end)
  | SExpr e => SExpr (ren_expr e)
  | STail e => STail (ren_expr e)
  end.
Definition ren_prog (p : gprog I) : gprog J :=
  mkProg (map (fun d => mkFn (f (fn_self d)) (f (fn_name d))
                             (map (fun x => (ren_pat (fst x), snd x)) (fn_params d)) (ren_expr (fn_body d)))
              (pr_fns p))
         (map (fun d => mkConst (f (cd_self d)) (f (cd_name d)) (ren_expr (cd_expr d))) (pr_consts p))
         (map (fun d => (f (fst d), map (fun x => (f (fst x), f (snd x))) (snd d))) (pr_structs p)).
End Rename.
