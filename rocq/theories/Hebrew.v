(** * Hebrew: model of /repo/src/hebrew.rs *)

From Coq Require Import String.
From Verif Require Import Base Utf8 NominalString Digital.

(** A one-character literal. *)
Definition char_of (s : string) : N := hd 0 (chars s).

(** src/hebrew.rs:21-44, the symbol table *)
Definition hebrew_symbols : list (N * N) := [
  (char_of "ת", 400);
  (char_of "ש", 300);
  (char_of "ר", 200);
  (char_of "ק", 100);
  (char_of "צ", 90);
  (char_of "פ", 80);
  (char_of "ע", 70);
  (char_of "ס", 60);
  (char_of "נ", 50);
  (char_of "מ", 40);
  (char_of "ל", 30);
  (char_of "כ", 20);
  (char_of "י", 10);
  (char_of "ט", 9);
  (char_of "ח", 8);
  (char_of "ז", 7);
  (char_of "ו", 6);
  (char_of "ה", 5);
  (char_of "ד", 4);
  (char_of "ג", 3);
  (char_of "ב", 2);
  (char_of "א", 1)
].

(** How the inner [while] loop ends: go on with the next symbol, leave
    ['symbol_loop], or return an error. *)
Inductive hebrew_exit :=
| NextSymbol (remaining : N) (formatted : nominal_string)
| LeaveSymbolLoop (formatted : nominal_string)
| ReturnErr (e : error).

(** A push followed by [.with_nominal(nominal)?] inside the loop. *)
Definition push_or_return {A} (nominal : N)
    (push : outcome (nominal_string * result unit out_of_memory))
    (k : nominal_string -> outcome (loop_step A hebrew_exit)) : outcome (loop_step A hebrew_exit) :=
  '(s, r) <- push ;;
  match r with
  | Ok _ => k s
  | Err OutOfMemoryError => Ret (Break (ReturnErr (OutOfMemory nominal)))
  end.

(** src/hebrew.rs:49-71, the [while] loop body; state
    [(remaining, formatted)]. *)
Definition hebrew_while_body (c : config) (T : uint) (nominal symbol value : N) (st : N * nominal_string)
  : outcome (loop_step (N * nominal_string) hebrew_exit) :=
  let (remaining, formatted) := st in
  if value <=? remaining then
    if remaining =? 15 then
      push_or_return nominal (try_push_str c formatted (bytes "ט״ו")) (fun formatted =>
      Ret (Break (LeaveSymbolLoop formatted)))
    else if remaining =? 16 then
      push_or_return nominal (try_push_str c formatted (bytes "ט״ז")) (fun formatted =>
      Ret (Break (LeaveSymbolLoop formatted)))
    else
      empty <- is_empty formatted ;;
      let single_symbol := (value =? remaining) && empty in
      if single_symbol then
        push_or_return nominal (try_push c formatted (char_of "׳")) (fun formatted =>
        remaining <- usub c (bits c T) remaining value ;;
        push_or_return nominal (try_push c formatted symbol) (fun formatted =>
        push_or_return nominal (try_push c formatted (char_of "״")) (fun formatted =>
        Ret (Break (NextSymbol remaining formatted)))))
      else
        remaining <- usub c (bits c T) remaining value ;;
        push_or_return nominal (try_push c formatted symbol) (fun formatted =>
        Ret (Continue (remaining, formatted)))
  else Ret (Break (NextSymbol remaining formatted)).

(** src/hebrew.rs:21-72  ['symbol_loop] *)
Fixpoint hebrew_for (c : config) (T : uint) (nominal : N) (symbols : list (N * N))
    (remaining : N) (formatted : nominal_string) : outcome (result nominal_string error) :=
  match symbols with
  | [] => Ret (Ok formatted)
  | (symbol, value) :: rest =>
      match try_from c T value with
      | None => hebrew_for c T nominal rest remaining formatted       (* continue *)
      | Some value =>
          exit <- run_loop c (hebrew_while_body c T nominal symbol value) (remaining, formatted) ;;
          match exit with
          | NextSymbol remaining formatted => hebrew_for c T nominal rest remaining formatted
          | LeaveSymbolLoop formatted => Ret (Ok formatted)
          | ReturnErr e => Ret (Err e)
          end
      end
  end.

(** src/hebrew.rs:7-76  [NominalSystem<T> for Hebrew] *)
Definition Hebrew (c : config) (T : uint) (nominal : N) : outcome (result nominal_string error) :=
  if is_zero nominal then Ret (Err NoZeroSymbol)
  else hebrew_for c T nominal hebrew_symbols nominal new.
