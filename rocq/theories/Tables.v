(** * Tables: reading the symbol tables of the source text (C112)

    The sets of symbols are data: arguments of the macros of src/digital.rs and
    src/enumerated.rs and of [AdditiveSet::new] in src/additive.rs. This file
    reads them out of the text. Unlike the parser of Rust.v it keeps the names
    as they are written and does not look at what surrounds a table. *)

From Coq Require Import Ascii String.
From Verif Require Import Base Utf8 Digital Rust.

(** ** Words *)

Inductive word :=
| WInt (n : N)
| WChar (c : N)
| WStr (s : list N)        (* its UTF-8 bytes *)
| WName (x : string)
| WPunct (c : N).

Fixpoint lex_words (fuel : nat) (cs : list N) : option (list word) :=
  match fuel with
  | O => None
  | S fuel =>
      let continue w rest := let* ws := lex_words fuel rest in Some (w :: ws) in
      match cs with
      | [] => Some []
      | 47 :: 47 :: rest => lex_words fuel (snd (span (fun c => negb (c =? 10)) rest))
      | 34 :: rest => let* (s, rest) := string_body fuel rest in continue (WStr (utf8 s)) rest
      | 39 :: 92 :: rest =>
          match escape rest with
          | Some (c, 39 :: rest) => continue (WChar c) rest
          | _ => None
          end
      | 39 :: c :: 39 :: rest => continue (WChar c) rest
      | c :: rest =>
          if is_space c then lex_words fuel rest
          else if is_digit c then let (n, rest) := number 0 cs in continue (WInt n) rest
          else if is_letter c then
            let (w, rest) := span is_word cs in continue (WName (string_of w)) rest
          else continue (WPunct c) rest
      end
  end.

Definition words (source : string) : option (list word) :=
  let cs := chars source in lex_words (S (length cs)) cs.

(** The words of a piece of text written in this file. *)
Definition piece (text : string) : list word :=
  match words text with Some ws => ws | None => [] end.

Definition word_eqb (a b : word) : bool :=
  match a, b with
  | WInt m, WInt n => m =? n
  | WChar c, WChar d => c =? d
  | WStr s, WStr t => if list_eq_dec N.eq_dec s t then true else false
  | WName x, WName y => String.eqb x y
  | WPunct c, WPunct d => c =? d
  | _, _ => false
  end.

(** What follows the words [ps], if the text begins with them. *)
Fixpoint expect (ps ws : list word) : option (list word) :=
  match ps, ws with
  | [], _ => Some ws
  | p :: ps, w :: ws => if word_eqb p w then expect ps ws else None
  | _ :: _, [] => None
  end.

(** What follows every occurrence of the words [ps], in order. *)
Fixpoint occurrences (ps ws : list word) : list (list word) :=
  match ws with
  | [] => []
  | _ :: rest =>
      match expect ps ws with
      | Some after => after :: occurrences ps rest
      | None => occurrences ps rest
      end
  end.

Fixpoint all_some {A B} (f : A -> option B) (l : list A) : option (list B) :=
  match l with
  | [] => Some []
  | x :: rest => let* y := f x in let* ys := all_some f rest in Some (y :: ys)
  end.

(** The elements of an array up to its closing bracket; a comma after the last
    one is allowed. *)
Fixpoint array {A} (item : list word -> option (A * list word)) (fuel : nat) (ws : list word)
  : option (list A * list word) :=
  match fuel, ws with
  | O, _ => None
  | S _, WPunct 93 :: rest => Some ([], rest)
  | S fuel, _ =>
      let* (x, rest) := item ws in
      match rest with
      | WPunct 44 :: rest => let* (xs, rest) := array item fuel rest in Some (x :: xs, rest)
      | WPunct 93 :: rest => Some ([x], rest)
      | _ => None
      end
  end.

Definition char_item (ws : list word) : option (N * list word) :=
  match ws with WChar c :: rest => Some (c, rest) | _ => None end.
Definition str_item (ws : list word) : option (list N * list word) :=
  match ws with WStr s :: rest => Some (s, rest) | _ => None end.
(** [("symbol", value)] *)
Definition pair_item (ws : list word) : option (list N * N * list word) :=
  match ws with
  | WPunct 40 :: WStr s :: WPunct 44 :: WInt n :: WPunct 41 :: rest => Some ((s, n), rest)
  | _ => None
  end.

(** No table has more elements. *)
Definition most : nat := 200.

(** ** Digit sets *)

(** [impl_digit_set!(Name, DigitSet<n, zero> = DigitSet::kind([...]));] gives
    the name, the kind ([new] goes with [true], [zeroless] with [false],
    src/digital.rs:44-59) and the digits, of which there have to be [n]. *)
Definition read_digit_set (ws : list word) : option (string * (bool * list N)) :=
  match ws with
  | WName x :: ws =>
      let* ws := expect (piece ", DigitSet<") ws in
      match ws with
      | WInt n :: ws =>
          let* (zero, ws) :=
            match expect (piece ", true> = DigitSet::new([") ws with
            | Some ws => Some (true, ws)
            | None => let* ws := expect (piece ", false> = DigitSet::zeroless([") ws in Some (false, ws)
            end in
          let* (digits, ws) := array char_item most ws in
          let* _ := expect (piece "));") ws in
          if N.of_nat (length digits) =? n then Some (x, (zero, digits)) else None
      | _ => None
      end
  | _ => None
  end.

Definition digit_tables (ws : list word) : option (list (string * (bool * list N))) :=
  all_some read_digit_set (occurrences (piece "impl_digit_set!(") ws).

(** The collection such a table stands for. *)
Definition digit_set_of (table : bool * list N) : digit_collection :=
  let (zero, digits) := table in
  impl_digit_set (if zero then digit_set_new digits else digit_set_zeroless digits).

(** The two collections written as an [impl]: fixed, not zero-based, without a
    zero digit. Gives the name, that of the fallback, the length and the
    digits. *)
Definition read_fixed_set (ws : list word) : option (string * (string * N * list N)) :=
  match ws with
  | WName x :: ws =>
      let* ws := expect (piece "{ type Fallback =") ws in
      match ws with
      | WName fallback :: ws =>
          let* ws := expect (piece "; fn fixed(&self) -> bool { true } fn zero_based(&self) -> bool { false }
            fn has_zero_digit(&self) -> bool { false } fn len(&self) -> usize {") ws in
          match ws with
          | WInt len :: ws =>
              let* ws := expect (piece "} fn digit(&self, index: usize) -> char { [") ws in
              let* (digits, ws) := array char_item most ws in
              let* _ := expect (piece "[index] } }") ws in
              Some (x, (fallback, len, digits))
          | _ => None
          end
      | _ => None
      end
  | _ => None
  end.

Definition fixed_tables (ws : list word) : option (list (string * (string * N * list N))) :=
  all_some read_fixed_set (occurrences (piece "impl DigitCollection for") ws).

Fixpoint find_name {A} (x : string) (l : list (string * A)) : option A :=
  match l with
  | [] => None
  | (y, a) :: rest => if String.eqb x y then Some a else find_name x rest
  end.

(** Such a collection, its fallback being looked up among [known]. *)
Definition fixed_set_of (known : list (string * digit_collection)) (table : string * N * list N)
  : option digit_collection :=
  let '(fallback, len, digits) := table in
  let* d := find_name fallback known in
  Some (DC true false false (Ret len) (fun index => or_panic (lookup digits index)) d).

(** [impl_digit_set!(Name, Restrict<Chain<A, B>> = Restrict::new(n, Chain::new(A, B)));]
    gives the names and [n]. *)
Definition read_hex_set (ws : list word) : option (string * (N * string * string)) :=
  match ws with
  | WName x :: ws =>
      let* ws := expect (piece ", Restrict<Chain<") ws in
      match ws with
      | WName a :: WPunct 44 :: WName b :: ws =>
          let* ws := expect (piece ">> = Restrict::new(") ws in
          match ws with
          | WInt n :: ws =>
              let* _ := expect (piece ", Chain::new(" ++ [WName a; WPunct 44; WName b] ++ piece ")));") ws in
              Some (x, (n, a, b))
          | _ => None
          end
      | _ => None
      end
  | _ => None
  end.

Definition hex_tables (ws : list word) : option (list (string * (N * string * string))) :=
  all_some read_hex_set (occurrences (piece "impl_digit_set!(") ws).

Definition hex_set_of (c : config) (known : list (string * digit_collection)) (table : N * string * string)
  : option digit_collection :=
  let '(n, a, b) := table in
  let* a := find_name a known in
  let* b := find_name b known in
  Some (impl_digit_set (restrict n (chain c a b))).

(** ** Additive and enumerated sets *)

(** [impl<T> NominalSystem<T> for Name ... { AdditiveSet::new([...])
    .try_format_nominal(nominal) } }] *)
Definition read_additive (ws : list word) : option (string * list (list N * N)) :=
  match ws with
  | WName x :: ws =>
      let* ws := expect (piece "where T: Nominal + TryFrom<u128>, { fn try_format_nominal(&self, nominal: T)
        -> Result<NominalString, Error<T>> { AdditiveSet::new([") ws in
      let* (symbols, ws) := array pair_item most ws in
      let* _ := expect (piece ").try_format_nominal(nominal) } }") ws in
      Some (x, symbols)
  | _ => None
  end.

Definition additive_tables (ws : list word) : option (list (string * list (list N * N))) :=
  all_some read_additive (occurrences (piece "impl<T> NominalSystem<T> for") ws).

(** [impl_enum_set! { Name, kind, [...] }] *)
Definition read_enumerated (ws : list word) : option (string * (string * list (list N))) :=
  match ws with
  | WName x :: WPunct 44 :: WName kind :: WPunct 44 :: WPunct 91 :: ws =>
      let* (symbols, ws) := array str_item most ws in
      let* _ := expect (piece "}") ws in
      Some (x, (kind, symbols))
  | _ => None
  end.

Definition enumerated_tables (ws : list word) : option (list (string * (string * list (list N)))) :=
  all_some read_enumerated (occurrences (piece "impl_enum_set! {") ws).
