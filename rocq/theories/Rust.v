(** * Rust: reading Rust source text

    A lexer and a parser for the part of Rust the formatters of the crate are
    written in, so that the properties can speak about the source text itself.
    Nothing here models a line of /repo. What the parser does not know makes it
    fail; types, attributes, imports and declarations of types are skipped. *)

From Coq Require Import Ascii String Lia.
From Verif Require Import Base Utf8.

(** ** Names *)

(** A name is its place in this list, so that comparing names is cheap in
    proofs. A text with any other name is not read. *)
Definition names : list string := [
  ""; "0"; "_"; "_value"; "AdditiveSet"; "array"; "as"; "as_usize"; "assert_eq"; "bool";
   "break"; "char"; "characters"; "checked_sub"; "ChineseFormatError"; "ChineseOptions";
   "ChineseScale"; "ChineseUsage"; "Clone"; "const"; "continue"; "copied"; "Copy"; "core";
   "count"; "crate"; "D"; "Debug"; "Default"; "default"; "derive"; "digit"; "DigitCollection";
   "doc"; "else"; "enum"; "EnumeratedSet"; "Eq"; "Err"; "err"; "Error"; "Ethiopic"; "ethiopic";
   "expect"; "factor"; "Fallback"; "fallback"; "false"; "fifteen"; "Financial"; "first";
   "first_is_one"; "first_is_zero"; "first_loop"; "fixed"; "flatten"; "fn"; "for"; "FORMAL";
   "format"; "format_chinese"; "format_chinese_inner"; "format_ethiopic";
   "format_next_scaled_rank"; "format_nominal"; "format_scaled"; "format_scaled_inner";
   "format_scaled_rank"; "format_short_rank"; "formatted"; "From"; "from"; "from_fn"; "get";
   "group_index"; "group_is_odd"; "HAS_ZERO"; "has_zero_digit"; "Hebrew"; "hebrew"; "hundreds";
   "if"; "impl"; "in"; "include_str"; "index"; "into"; "is_empty"; "is_zero";
   "large_characters"; "last_char_is_zero"; "last_was_zero"; "len"; "let"; "Long"; "LONG_SCALE";
   "map_err"; "match"; "Mid"; "MID_SCALE"; "mut"; "Myriad"; "MYRIAD_SCALE"; "N"; "n"; "new";
   "new_reverse"; "new_scale"; "no_prefix"; "Nominal"; "nominal"; "NominalString";
   "NominalSystem"; "None"; "not_first_group"; "NoZeroSymbol"; "Ok"; "ok"; "omit_digit"; "one";
   "ONES"; "ones"; "Option"; "Ordinary"; "OutOfBounds"; "OutOfMemory"; "OutOfMemoryError";
   "PartialEq"; "pow"; "previous_scale"; "pub"; "rank"; "rank_formatted"; "rank_value";
   "remaining"; "remove_digits"; "Result"; "return"; "scale"; "scales"; "second";
   "second_is_zero"; "Self"; "self"; "Short"; "SHORT_SCALE"; "SIMPLIFIED_FINANCIAL";
   "SIMPLIFIED_LARGE"; "SIMPLIFIED_ORDINARY"; "SimplifiedChineseFormal";
   "SimplifiedChineseInformal"; "single_symbol"; "sixteen"; "Some"; "struct"; "symbol";
   "symbol_loop"; "symbols"; "T"; "ten"; "ten_thousand"; "TENS"; "tens"; "test"; "thousands";
   "to_nominal"; "TRADITIONAL_FINANCIAL"; "TRADITIONAL_LARGE"; "TRADITIONAL_ORDINARY";
   "TraditionalChineseFormal"; "TraditionalChineseInformal"; "true"; "try_format_nominal";
   "try_from"; "try_into"; "try_push"; "try_push_front"; "try_push_str"; "TryFrom";
   "TryFromIntError"; "type"; "u128"; "u32"; "u8"; "unreachable"; "UnsignedInteger"; "usage";
   "use"; "usize"; "value"; "value_as_t"; "where"; "while"; "with_nominal"; "WithNominal";
   "zero"; "zero_based"; "1"; "A"; "a"; "B"; "b"; "Chain"; "digits"; "DigitSet"; "NoFallback";
   "OneBased"; "Restrict"; "_index"; "CjkDecimal"; "CjkEarthlyBranch"; "CjkHeavenlyStem"
]%string.

Definition name := positive.

Fixpoint code_in (s : string) (l : list string) (p : positive) : option name :=
  match l with
  | t :: l => if String.eqb s t then Some p else code_in s l (Pos.succ p)
  | [] => None
  end.

Definition code (s : string) : option name := code_in s names 1.
Definition spelling (x : name) : string := nth (pred (Pos.to_nat x)) names EmptyString.

(** [# "text"] is the name, computed when it is read. *)
Ltac intern s :=
  let r := eval vm_compute in (code s) in
  lazymatch r with Some ?p => exact p end.
Notation "# s" := (ltac:(intern s%string)) (at level 0, s constr at level 0, only parsing).

Fixpoint same (x y : positive) : bool :=
  match x, y with
  | xH, xH => true
  | xO x, xO y => same x y
  | xI x, xI y => same x y
  | _, _ => false
  end.

(** Different names have different codes. *)
Lemma code_in_spelling s l p x :
  code_in s l p = Some x -> (p <= x)%positive /\ nth_error l (Pos.to_nat x - Pos.to_nat p) = Some s.
Proof.
  revert p. induction l as [|t l IH]; intros p E; [discriminate E|].
  cbn [code_in] in E. destruct (String.eqb_spec s t) as [->|_].
  - injection E as <-. split; [lia|]. now rewrite Nat.sub_diag.
  - apply IH in E as [L E]. split; [lia|].
    replace (Pos.to_nat x - Pos.to_nat p)%nat with (S (Pos.to_nat x - Pos.to_nat (Pos.succ p)))%nat by lia.
    exact E.
Qed.

Lemma code_injective s t x : code s = Some x -> code t = Some x -> s = t.
Proof.
  intros E F. apply code_in_spelling in E as [_ E], F as [_ F]. congruence.
Qed.

Lemma same_iff x y : same x y = true <-> x = y.
Proof.
  revert y. induction x as [x IH|x IH|]; intros [y|y|]; cbn [same];
    try (split; [discriminate|intros E; discriminate E]).
  - rewrite IH. split; congruence.
  - rewrite IH. split; congruence.
  - split; reflexivity.
Qed.

(** ** Tokens *)

Notation "'let*' p := m 'in' k" := (match m with Some p => k | None => None end)
  (at level 200, p pattern, m at level 100, k at level 200).

Inductive token :=
| TInt (n : N)
| TChar (c : N)
| TStr (s : list N)          (* its UTF-8 bytes *)
| TIdent (s : name)
| TLabel (s : name)        (* ['name] *)
| TPunct (s : string).

Definition is_digit (c : N) : bool := (48 <=? c) && (c <=? 57).
Definition is_letter (c : N) : bool :=
  ((65 <=? c) && (c <=? 90)) || ((97 <=? c) && (c <=? 122)) || (c =? 95).
Definition is_word (c : N) : bool := is_digit c || is_letter c.
Definition is_space (c : N) : bool := (c =? 32) || (c =? 10) || (c =? 13) || (c =? 9).

Definition hex_digit (c : N) : option N :=
  if is_digit c then Some (c - 48)
  else if (65 <=? c) && (c <=? 70) then Some (c - 55)
  else if (97 <=? c) && (c <=? 102) then Some (c - 87)
  else None.

(** The longest prefix whose characters satisfy [p], and the rest. *)
Fixpoint span (p : N -> bool) (cs : list N) : list N * list N :=
  match cs with
  | c :: rest => if p c then let (a, b) := span p rest in (c :: a, b) else ([], cs)
  | [] => ([], [])
  end.

Fixpoint string_of (cs : list N) : string :=
  match cs with
  | [] => EmptyString
  | c :: rest => String (ascii_of_N c) (string_of rest)
  end.

(** A number: digits and underscores, then possibly the name of a type, which
    is dropped: the types of numbers are followed by the interpreter. *)
Fixpoint number (acc : N) (cs : list N) : N * list N :=
  match cs with
  | c :: rest =>
      if is_digit c then number (acc * 10 + (c - 48)) rest
      else if c =? 95 then number acc rest
      else (acc, snd (span is_word cs))
  | [] => (acc, [])
  end.

Fixpoint hex_until_brace (acc : N) (cs : list N) : option (N * list N) :=
  match cs with
  | 125 :: rest => Some (acc, rest)
  | c :: rest =>
      match hex_digit c with Some d => hex_until_brace (acc * 16 + d) rest | None => None end
  | [] => None
  end.

(** What follows a backslash. *)
Definition escape (cs : list N) : option (N * list N) :=
  match cs with
  | 117 :: 123 :: rest => hex_until_brace 0 rest          (* \u{...} *)
  | c :: rest =>
      if c =? 48 then Some (0, rest)                      (* \0 *)
      else if c =? 110 then Some (10, rest)               (* \n *)
      else if (c =? 92) || (c =? 34) || (c =? 39) then Some (c, rest)
      else None
  | [] => None
  end.

(** The rest of a string literal. *)
Fixpoint string_body (fuel : nat) (cs : list N) : option (list N * list N) :=
  match fuel with
  | O => None
  | S fuel =>
      match cs with
      | 34 :: rest => Some ([], rest)
      | 92 :: rest =>
          match escape rest with
          | Some (c, rest) =>
              match string_body fuel rest with
              | Some (s, rest) => Some (c :: s, rest) | None => None end
          | None => None
          end
      | c :: rest =>
          match string_body fuel rest with
          | Some (s, rest) => Some (c :: s, rest) | None => None end
      | [] => None
      end
  end.

(** The operators made of several characters. *)
Definition long_punct (a b : N) : bool :=
  existsb (fun p => (fst p =? a) && (snd p =? b))
    (combine (chars ":-==!><&|+-*/%.") (chars ":>>====&|=====.")).

Fixpoint lex (fuel : nat) (cs : list N) : option (list token) :=
  match fuel with
  | O => None
  | S fuel =>
      let continue t rest :=
        match lex fuel rest with Some ts => Some (t :: ts) | None => None end in
      match cs with
      | [] => Some []
      | 47 :: 47 :: rest => lex fuel (snd (span (fun c => negb (c =? 10)) rest))
      | 34 :: rest =>
          match string_body fuel rest with
          | Some (s, rest) => continue (TStr (utf8 s)) rest | None => None end
      | 39 :: 92 :: rest =>
          match escape rest with
          | Some (c, 39 :: rest) => continue (TChar c) rest
          | _ => None
          end
      | 39 :: c :: 39 :: rest => continue (TChar c) rest
      | 39 :: rest =>
          let (w, rest) := span is_word rest in let* x := code (string_of w) in continue (TLabel x) rest
      | c :: rest =>
          if is_space c then lex fuel rest
          else if is_digit c then let (n, rest) := number 0 cs in continue (TInt n) rest
          else if is_letter c then
            let (w, rest) := span is_word cs in let* x := code (string_of w) in continue (TIdent x) rest
          else match rest with
          | d :: rest' =>
              if long_punct c d then continue (TPunct (string_of [c; d])) rest'
              else continue (TPunct (string_of [c])) rest
          | [] => continue (TPunct (string_of [c])) rest
          end
      end
  end.

Definition tokens (source : string) : option (list token) :=
  let cs := chars source in lex (S (length cs)) cs.

(** ** Programs *)

Inductive pat :=
| PWild
| PVar (x : name)                       (* [mut] and [&] are dropped *)
| PInt (n : N)
| PTuple (ps : list pat)
| PCon (name : name) (ps : list pat)    (* the last name of the path *)
| POr (p q : pat).

Inductive binop := Or | And | Eql | Neq | Less | Greater | Leq | Geq | Add | Sub | Mul | Div | Rem.

(** Blocks are nested to the right: [ELet] and [ESeq] carry the statements
    after them, [EBlock] ends the scope of the names bound inside it. *)
Inductive expr :=
| EUnit
| EInt (n : N)
| EChar (c : N)
| EStr (s : list N)
| EBool (b : bool)
| EPath (path : list name)
| ENot (e : expr)
| ERef (mutable : bool) (e : expr)
| EDeref (e : expr)
| EBin (op : binop) (a b : expr)
| EAssign (place value : expr)
| EUpdate (op : binop) (place value : expr)      (* [place op= value] *)
| ECall (path : list name) (generics args : list expr)
| EMethod (receiver : expr) (name : name) (generics args : list expr)
| EField (e : expr) (name : name)
| EIndex (e i : expr)
| ECast (e : expr) (type : name)
| ETuple (es : list expr)
| EArray (es : list expr)
| ETry (e : expr)                                (* [e?] *)
| EClosure (param : pat) (body : expr)
| EMacro (name : name)                         (* its argument is dropped *)
| EFrom (start : expr)                           (* [start..] *)
| EIf (cond yes no : expr)
| EMatch (e : expr) (arms : list (pat * expr))
| EWhile (label : option name) (cond body : expr)
| EFor (label : option name) (p : pat) (over body : expr)
| EBreak (label : option name)
| EContinue (label : option name)
| EReturn (e : expr)
| ELet (p : pat) (e : expr) (otherwise : option expr) (rest : expr)
| ESeq (e rest : expr)
| EBlock (e : expr).

Record param := {
  pa_name : name;
  pa_mut : bool;          (* whether it is a [&mut] reference *)
  pa_type : name        (* its type when that is a name *)
}.

(** A function; a constant is one without parameters. *)
Record func := {
  fn_owner : name;                  (* the type of the [impl], or empty *)
  fn_name : name;
  fn_generics : list name;          (* of the [impl], then its own *)
  fn_params : list param;
  fn_error : name;                  (* the error type of the result *)
  fn_body : expr
}.

(** ** The parser *)

Definition is_punct (s : string) (t : token) : bool :=
  match t with TPunct p => String.eqb p s | _ => false end.
Definition is_ident (s : name) (t : token) : bool :=
  match t with TIdent i => same i s | _ => false end.

Definition starts_with (s : string) (ts : list token) : bool :=
  match ts with t :: _ => is_punct s t | [] => false end.
Definition starts_ident (s : name) (ts : list token) : bool :=
  match ts with t :: _ => is_ident s t | [] => false end.

Definition expect (s : string) (ts : list token) : option (list token) :=
  match ts with t :: rest => if is_punct s t then Some rest else None | [] => None end.
Definition expect_ident (s : name) (ts : list token) : option (list token) :=
  match ts with t :: rest => if is_ident s t then Some rest else None | [] => None end.

Definition opens (t : token) : bool := is_punct "(" t || is_punct "[" t || is_punct "{" t.
Definition closes (t : token) : bool := is_punct ")" t || is_punct "]" t || is_punct "}" t.

(** The tokens after the bracket that closes [depth] open ones. *)
Fixpoint skip_group (depth : nat) (ts : list token) : option (list token) :=
  match ts with
  | t :: rest =>
      if opens t then skip_group (S depth) rest
      else if closes t then
        match depth with
        | O => None
        | 1%nat => Some rest
        | S depth => skip_group depth rest
        end
      else match depth with O => None | _ => skip_group depth rest end
  | [] => None
  end.

(** Skips a type: stops before one of the tokens in [ends] outside of brackets
    of all kinds. *)
Fixpoint skip_type (depth : nat) (ends : list string) (ts : list token) : option (list token) :=
  match ts with
  | t :: rest =>
      if (depth =? 0)%nat && existsb (fun s => is_punct s t) ends then Some ts
      else if opens t || is_punct "<" t then skip_type (S depth) ends rest
      else if closes t || is_punct ">" t then
        match depth with O => None | S depth => skip_type depth ends rest end
      else skip_type depth ends rest
  | [] => None
  end.

(** The tokens up to the [>] that closes [depth] open [<], and the rest. *)
Fixpoint take_angles (depth : nat) (ts : list token) : option (list token * list token) :=
  match ts with
  | t :: rest =>
      if is_punct ">" t then
        match depth with
        | O => None
        | 1%nat => Some ([], rest)
        | S depth => let* (a, rest) := take_angles depth rest in Some (t :: a, rest)
        end
      else
        let* (a, rest) := take_angles (if is_punct "<" t then S depth else depth) rest in
        Some (t :: a, rest)
  | [] => None
  end.

(** [T, FORMAL, 9] *)
Fixpoint generic_args (ts : list token) : list expr :=
  match ts with
  | TIdent x :: rest =>
      (if same x #"true" then EBool true else if same x #"false" then EBool false else EPath [x])
      :: generic_args rest
  | TInt n :: rest => EInt n :: generic_args rest
  | _ :: rest => generic_args rest
  | [] => []
  end.

(** The names declared by [<T: Bound<..>, const N: usize>], given the tokens
    inside the brackets. *)
Fixpoint generic_params (depth : nat) (expecting : bool) (ts : list token) : list name :=
  match ts with
  | t :: rest =>
      match t with
      | TIdent x =>
          if expecting then
            if same x #"const" then generic_params depth true rest
            else x :: generic_params depth false rest
          else generic_params depth false rest
      | _ =>
          if is_punct "<" t then generic_params (S depth) false rest
          else if is_punct ">" t then generic_params (pred depth) false rest
          else if is_punct "," t && (depth =? 0)%nat then generic_params depth true rest
          else generic_params depth expecting rest
      end
  | [] => []
  end.

(** The operators of each level, loosest first. *)
Definition operators (level : nat) : list (string * binop) :=
  match level with
  | 0%nat => [("||"%string, Or)]
  | 1%nat => [("&&"%string, And)]
  | 2%nat => [("=="%string, Eql); ("!="%string, Neq); ("<="%string, Leq); (">="%string, Geq);
              ("<"%string, Less); (">"%string, Greater)]
  | 3%nat => [("+"%string, Add); ("-"%string, Sub)]
  | _ => [("*"%string, Mul); ("/"%string, Div); ("%"%string, Rem)]
  end.

Definition updates : list (string * binop) :=
  [("+="%string, Add); ("-="%string, Sub); ("*="%string, Mul); ("/="%string, Div);
   ("%="%string, Rem)].

Definition find_op (ops : list (string * binop)) (ts : list token) : option (binop * list token) :=
  match ts with
  | t :: rest =>
      match find (fun o => is_punct (fst o) t) ops with
      | Some (_, op) => Some (op, rest) | None => None end
  | [] => None
  end.

(** A name that starts with a capital letter stands for a constructor in a
    pattern. *)
Definition capital (s : name) : bool :=
  match spelling s with String a _ => (N_of_ascii a <? 97) && negb (Ascii.eqb a "_") | _ => false end.

(** The statements that end with their block, without a semicolon. *)
Definition block_like (ts : list token) : bool :=
  match ts with
  | TLabel _ :: _ => true
  | t :: _ => is_ident #"if" t || is_ident #"match" t || is_ident #"while" t || is_ident #"for" t
              || is_punct "{" t
  | [] => false
  end.

(** [a::b::c], with the arguments of a [::<..>] at its end. *)
Fixpoint parse_path (ts : list token) : option (list name * list expr * list token) :=
  match ts with
  | TIdent x :: TPunct p :: rest =>
      if String.eqb p "::" then
        match rest with
        | TPunct q :: rest =>
            if String.eqb q "<" then
              let* (inside, rest) := take_angles 1 rest in
              Some ([x], generic_args inside, rest)
            else None
        | _ => let* (path, g, rest) := parse_path rest in Some (x :: path, g, rest)
        end
      else Some ([x], [], TPunct p :: rest)
  | TIdent x :: rest => Some ([x], [], rest)
  | _ => None
  end.

Fixpoint parse_pat (fuel : nat) (ts : list token) : option (pat * list token) :=
  match fuel with
  | O => None
  | S fuel =>
      let* (p, rest) :=
        match ts with
        | TInt n :: rest => Some (PInt n, rest)
        | TPunct s :: rest =>
            if String.eqb s "&" then parse_pat fuel rest
            else if String.eqb s "(" then
              let* (ps, rest) := parse_pats fuel rest in Some (PTuple ps, rest)
            else None
        | TIdent x :: rest =>
            if same x #"_" then Some (PWild, rest)
            else if same x #"mut" then parse_pat fuel rest
            else
              let* (path, _, rest) := parse_path ts in
              let name := last path #"" in
              if starts_with "(" rest then
                let* rest := expect "(" rest in
                let* (ps, rest) := parse_pats fuel rest in Some (PCon name ps, rest)
              else if capital name then Some (PCon name [], rest)
              else Some (PVar name, rest)
        | _ => None
        end in
      if starts_with "|" rest then
        let* rest := expect "|" rest in
        let* (q, rest) := parse_pat fuel rest in Some (POr p q, rest)
      else Some (p, rest)
  end
(** Patterns up to the closing parenthesis. *)
with parse_pats (fuel : nat) (ts : list token) : option (list pat * list token) :=
  match fuel with
  | O => None
  | S fuel =>
      if starts_with ")" ts then let* rest := expect ")" ts in Some ([], rest)
      else
        let* (p, rest) := parse_pat fuel ts in
        if starts_with "," rest then
          let* rest := expect "," rest in
          let* (ps, rest) := parse_pats fuel rest in Some (p :: ps, rest)
        else let* rest := expect ")" rest in Some ([p], rest)
  end.

(** The parameter of a closure, up to the second bar. *)
Definition parse_param (ts : list token) : option (pat * list token) :=
  match ts with
  | TIdent x :: rest =>
      let* rest := expect "|" rest in
      Some (if same x #"_" then PWild else PVar x, rest)
  | _ => None
  end.

Fixpoint parse_expr (fuel : nat) (ts : list token) : option (expr * list token) :=
  match fuel with
  | O => None
  | S fuel =>
      let* (e, rest) := parse_level fuel 0 ts in
      match find_op updates rest with
      | Some (op, rest) => let* (v, rest) := parse_expr fuel rest in Some (EUpdate op e v, rest)
      | None =>
          if starts_with "=" rest then
            let* rest := expect "=" rest in
            let* (v, rest) := parse_expr fuel rest in Some (EAssign e v, rest)
          else if starts_with ".." rest then
            let* rest := expect ".." rest in
            if starts_with "{" rest then Some (EFrom e, rest) else None
          else Some (e, rest)
      end
  end
with parse_level (fuel : nat) (level : nat) (ts : list token) : option (expr * list token) :=
  match fuel with
  | O => None
  | S fuel =>
      if (5 <=? level)%nat then parse_unary fuel ts
      else let* (a, rest) := parse_level fuel (S level) ts in parse_more fuel level a rest
  end
(** More operands of the same level, taken from the left. *)
with parse_more (fuel : nat) (level : nat) (a : expr) (ts : list token)
  : option (expr * list token) :=
  match fuel with
  | O => None
  | S fuel =>
      match find_op (operators level) ts with
      | Some (op, rest) =>
          let* (b, rest) := parse_level fuel (S level) rest in
          parse_more fuel level (EBin op a b) rest
      | None => Some (a, ts)
      end
  end
with parse_unary (fuel : nat) (ts : list token) : option (expr * list token) :=
  match fuel with
  | O => None
  | S fuel =>
      match ts with
      | TPunct s :: rest =>
          if String.eqb s "!" then let* (e, rest) := parse_unary fuel rest in Some (ENot e, rest)
          else if String.eqb s "*" then
            let* (e, rest) := parse_unary fuel rest in Some (EDeref e, rest)
          else if String.eqb s "&" then
            if starts_ident #"mut" rest then
              let* rest := expect_ident #"mut" rest in
              let* (e, rest) := parse_unary fuel rest in Some (ERef true e, rest)
            else let* (e, rest) := parse_unary fuel rest in Some (ERef false e, rest)
          else let* (e, rest) := parse_primary fuel ts in parse_postfix fuel e rest
      | _ => let* (e, rest) := parse_primary fuel ts in parse_postfix fuel e rest
      end
  end
with parse_postfix (fuel : nat) (e : expr) (ts : list token) : option (expr * list token) :=
  match fuel with
  | O => None
  | S fuel =>
      match ts with
      | TIdent x :: rest =>
          if same x #"as" then
            match rest with
            | TIdent t :: rest => parse_postfix fuel (ECast e t) rest
            | _ => None
            end
          else Some (e, ts)
      | TPunct s :: rest =>
          if String.eqb s "?" then parse_postfix fuel (ETry e) rest
          else if String.eqb s "[" then
            let* (i, rest) := parse_expr fuel rest in
            let* rest := expect "]" rest in parse_postfix fuel (EIndex e i) rest
          else if String.eqb s "." then
            match rest with
            | TInt 0 :: rest => parse_postfix fuel (EField e #"0") rest
            | TInt 1 :: rest => parse_postfix fuel (EField e #"1") rest
            | _ =>
                let* (path, g, rest) := parse_path rest in
                match path with
                | [name] =>
                    if starts_with "(" rest then
                      let* rest := expect "(" rest in
                      let* (args, rest) := parse_exprs fuel ")" rest in
                      parse_postfix fuel (EMethod e name g args) rest
                    else parse_postfix fuel (EField e name) rest
                | _ => None
                end
            end
          else Some (e, ts)
      | _ => Some (e, ts)
      end
  end
(** Expressions separated by commas, up to [close]. *)
with parse_exprs (fuel : nat) (close : string) (ts : list token)
  : option (list expr * list token) :=
  match fuel with
  | O => None
  | S fuel =>
      if starts_with close ts then let* rest := expect close ts in Some ([], rest)
      else
        let* (e, rest) := parse_expr fuel ts in
        if starts_with "," rest then
          let* rest := expect "," rest in
          let* (es, rest) := parse_exprs fuel close rest in Some (e :: es, rest)
        else let* rest := expect close rest in Some ([e], rest)
  end
with parse_primary (fuel : nat) (ts : list token) : option (expr * list token) :=
  match fuel with
  | O => None
  | S fuel =>
      let labelled label ts :=
        if starts_ident #"while" ts then
          let* rest := expect_ident #"while" ts in
          let* (cond, rest) := parse_expr fuel rest in
          let* (body, rest) := parse_block fuel rest in Some (EWhile label cond body, rest)
        else
          let* rest := expect_ident #"for" ts in
          let* (p, rest) := parse_pat fuel rest in
          let* rest := expect_ident #"in" rest in
          let* (over, rest) := parse_expr fuel rest in
          let* (body, rest) := parse_block fuel rest in Some (EFor label p over body, rest) in
      let call path g rest :=
        if starts_with "(" rest then
          let* rest := expect "(" rest in
          let* (args, rest) := parse_exprs fuel ")" rest in Some (ECall path g args, rest)
        else Some (EPath path, rest) in
      match ts with
      | TInt n :: rest => Some (EInt n, rest)
      | TChar c :: rest => Some (EChar c, rest)
      | TStr s :: rest => Some (EStr s, rest)
      | TLabel l :: rest => let* rest := expect ":" rest in labelled (Some l) rest
      | TPunct s :: rest =>
          if String.eqb s "(" then
            let* (es, rest') := parse_exprs fuel ")" rest in
            match es with
            | [] => Some (EUnit, rest')
            | [e] => Some (e, rest')
            | _ => Some (ETuple es, rest')
            end
          else if String.eqb s "[" then
            let* (es, rest) := parse_exprs fuel "]" rest in Some (EArray es, rest)
          else if String.eqb s "{" then parse_block fuel ts
          else if String.eqb s "|" then
            let* (p, rest) := parse_param rest in
            let* (body, rest) := parse_expr fuel rest in Some (EClosure p body, rest)
          else if String.eqb s "<" then                          (* [<D::Fallback>::default] *)
            let* (inside, rest) := take_angles 1 rest in
            let* (type, _, _) := parse_path inside in
            let* rest := expect "::" rest in
            let* (path, g, rest) := parse_path rest in call (type ++ path) g rest
          else None
      | TIdent x :: rest =>
          if same x #"true" then Some (EBool true, rest)
          else if same x #"false" then Some (EBool false, rest)
          else if same x #"if" then
            if starts_ident #"let" rest then
              let* rest := expect_ident #"let" rest in
              let* (p, rest) := parse_pat fuel rest in
              let* rest := expect "=" rest in
              let* (e, rest) := parse_expr fuel rest in
              let* (yes, rest) := parse_block fuel rest in
              let* (no, rest) := parse_else fuel rest in
              Some (EMatch e [(p, yes); (PWild, no)], rest)
            else
              let* (cond, rest) := parse_expr fuel rest in
              let* (yes, rest) := parse_block fuel rest in
              let* (no, rest) := parse_else fuel rest in Some (EIf cond yes no, rest)
          else if same x #"match" then
            let* (e, rest) := parse_expr fuel rest in
            let* rest := expect "{" rest in
            let* (arms, rest) := parse_arms fuel rest in Some (EMatch e arms, rest)
          else if same x #"while" || same x #"for" then labelled None ts
          else if same x #"return" then
            let* (e, rest) := parse_expr fuel rest in Some (EReturn e, rest)
          else if same x #"break" then
            match rest with
            | TLabel l :: rest => Some (EBreak (Some l), rest)
            | _ => Some (EBreak None, rest)
            end
          else if same x #"continue" then
            match rest with
            | TLabel l :: rest => Some (EContinue (Some l), rest)
            | _ => Some (EContinue None, rest)
            end
          else
            let* (path, g, rest) := parse_path ts in
            if starts_with "!" rest then
              let* rest := expect "!" rest in
              let* rest := skip_group 0 rest in Some (EMacro x, rest)
            else call path g rest
      | [] => None
      end
  end
with parse_else (fuel : nat) (ts : list token) : option (expr * list token) :=
  match fuel with
  | O => None
  | S fuel =>
      if starts_ident #"else" ts then
        let* rest := expect_ident #"else" ts in
        if starts_ident #"if" rest then parse_primary fuel rest else parse_block fuel rest
      else Some (EUnit, ts)
  end
with parse_arms (fuel : nat) (ts : list token) : option (list (pat * expr) * list token) :=
  match fuel with
  | O => None
  | S fuel =>
      if starts_with "}" ts then let* rest := expect "}" ts in Some ([], rest)
      else
        let* (p, rest) := parse_pat fuel ts in
        let* rest := expect "=>" rest in
        let* (e, rest) := parse_expr fuel rest in
        let rest := match expect "," rest with Some rest => rest | None => rest end in
        let* (arms, rest) := parse_arms fuel rest in Some ((p, e) :: arms, rest)
  end
with parse_block (fuel : nat) (ts : list token) : option (expr * list token) :=
  match fuel with
  | O => None
  | S fuel =>
      let* rest := expect "{" ts in
      let* (e, rest) := parse_stmts fuel rest in Some (EBlock e, rest)
  end
with parse_stmts (fuel : nat) (ts : list token) : option (expr * list token) :=
  match fuel with
  | O => None
  | S fuel =>
      if starts_with "}" ts then let* rest := expect "}" ts in Some (EUnit, rest)
      else if starts_ident #"let" ts then
        let* rest := expect_ident #"let" ts in
        let* (p, rest) := parse_pat fuel rest in
        let* rest := skip_type 0 ["="%string] rest in
        let* rest := expect "=" rest in
        let* (e, rest) := parse_expr fuel rest in
        let* (otherwise, rest) :=
          (if starts_ident #"else" rest then
             let* (b, rest) := parse_else fuel rest in Some (Some b, rest)
           else Some (None, rest)) in
        let* rest := expect ";" rest in
        let* (following, rest) := parse_stmts fuel rest in
        Some (ELet p e otherwise following, rest)
      else
        let* (e, rest) := (if block_like ts then parse_primary fuel ts else parse_expr fuel ts) in
        if starts_with "}" rest then let* rest := expect "}" rest in Some (e, rest)
        else
          let* rest :=
            (if starts_with ";" rest then expect ";" rest
             else if block_like ts then Some rest else None) in
          let* (following, rest) := parse_stmts fuel rest in Some (ESeq e following, rest)
  end.

(** *** Items *)

(** The parameters of a function, up to the closing parenthesis. *)
Fixpoint parse_params (fuel : nat) (ts : list token) : option (list param * list token) :=
  match fuel with
  | O => None
  | S fuel =>
      if starts_with ")" ts then let* rest := expect ")" ts in Some ([], rest)
      else
        let ts := match expect "&" ts with Some rest => rest | None => ts end in
        let ts := match expect_ident #"mut" ts with Some rest => rest | None => ts end in
        match ts with
        | TIdent x :: rest =>
            let by_mut := match rest with
                          | _ :: a :: m :: _ => is_punct "&" a && is_ident #"mut" m
                          | _ => false
                          end in
            let type := match rest with
                        | TPunct _ :: TIdent type :: _ =>
                            if starts_with ":" rest then type else #""
                        | _ => #""
                        end in
            let* rest := skip_type 0 [","%string; ")"%string] rest in
            let rest := match expect "," rest with Some rest => rest | None => rest end in
            let* (params, rest) := parse_params fuel rest in 
            Some ({| pa_name := x; pa_mut := by_mut; pa_type := type |} :: params, rest)
        | _ => None
        end
  end.

(** The error type in [Result<NominalString, Error<T>>]: the name after the
    comma. *)
Fixpoint error_type (ts : list token) : name :=
  match ts with
  | t :: rest =>
      if is_punct "{" t || is_ident #"where" t then #""
      else if is_punct "," t then
        match rest with TIdent e :: _ => e | _ => #"" end
      else error_type rest
  | [] => #""
  end.

(** [name<generics>(params) -> type where bounds { body }] *)
Definition parse_fn (fuel : nat) (owner : name) (outer : list name) (ts : list token) : option (func * list token) :=
  match ts with
  | TIdent name :: rest =>
      let* (generics, rest) :=
        (if starts_with "<" rest then
           let* rest := expect "<" rest in
           let* (inside, rest) := take_angles 1 rest in
           Some (generic_params 0 true inside, rest)
         else Some ([], rest)) in
      let* rest := expect "(" rest in
      let* (params, rest) := parse_params fuel rest in
      let error := error_type rest in
      let* rest := skip_type 0 ["{"%string] rest in
      let* (body, rest) := parse_block fuel rest in
      Some ({| fn_owner := owner; fn_name := name; fn_generics := outer ++ generics;
               fn_params := params; fn_error := error; fn_body := body |}, rest)
  | _ => None
  end.

(** The type an [impl] is for: the name after [for] or, without one, the first
    name. [ts] is the header after its generics. *)
Fixpoint impl_owner (first : name) (ts : list token) : name :=
  match ts with
  | TPunct p :: rest => if String.eqb p "{" then first else impl_owner first rest
  | TIdent x :: rest =>
      if same x #"where" then first
      else if same x #"for" then match rest with TIdent y :: _ => y | _ => first end
      else impl_owner (if same first #"" then x else first) rest
  | _ :: rest => impl_owner first rest
  | [] => first
  end.

(** Items up to the end of the text or a closing brace. *)
Fixpoint parse_items (fuel : nat) (owner : name) (outer : list name) (ts : list token)
  : option (list func * list token) :=
  match fuel with
  | O => None
  | S fuel =>
      match ts with
      | [] => Some ([], [])
      | TPunct p :: rest =>
          if String.eqb p "}" then Some ([], rest)
          else if String.eqb p "#" then                             (* an attribute *)
            let* rest := skip_group 0 rest in parse_items fuel owner outer rest
          else None
      | TIdent x :: rest =>
          if same x #"pub" then parse_items fuel owner outer rest
          else if same x #"use" || same x #"type" then
            let* rest := skip_type 0 [";"%string] rest in
            let* rest := expect ";" rest in parse_items fuel owner outer rest
          else if same x #"struct" || same x #"enum" then
            let* rest := skip_type 0 [";"%string; "{"%string] rest in
            let* rest := (if starts_with ";" rest then expect ";" rest else skip_group 0 rest) in
            parse_items fuel owner outer rest
          else if same x #"const" then
            match rest with
            | TIdent name :: rest =>
                let* rest := skip_type 0 ["="%string] rest in
                let* rest := expect "=" rest in
                let* (e, rest) := parse_expr fuel rest in
                let* rest := expect ";" rest in
                let* (items, rest) := parse_items fuel owner outer rest in
                Some ({| fn_owner := #""; fn_name := name; fn_generics := [];
                         fn_params := []; fn_error := #""; fn_body := e |} :: items, rest)
            | _ => None
            end
          else if same x #"fn" then
            let* (f, rest) := parse_fn fuel owner outer rest in
            let* (items, rest) := parse_items fuel owner outer rest in Some (f :: items, rest)
          else if same x #"impl" then
            let* (generics, header) :=
              (if starts_with "<" rest then
                 let* rest := expect "<" rest in
                 let* (inside, rest) := take_angles 1 rest in
                 Some (generic_params 0 true inside, rest)
               else Some ([], rest)) in
            let* rest := skip_type 0 ["{"%string] header in
            let* rest := expect "{" rest in
            let* (inside, rest) := 
              parse_items fuel (impl_owner #"" header) generics rest in
            let* (items, rest) := parse_items fuel owner outer rest in Some (inside ++ items, rest)
          else None
      | _ => None
      end
  end.

(** The functions and constants of a text; none when it does not parse. *)
Definition parse (source : string) : list func :=
  match tokens source with
  | Some ts =>
      match parse_items (S (S (length ts))) #"" [] ts with
      | Some (fs, []) => fs
      | _ => []
      end
  | None => []
  end.
