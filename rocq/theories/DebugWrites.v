(** * DebugWrites: [Debug] as the calls it makes to a [core::fmt::Write], and
    the flags [+], [0], [x] and [X]

    [Format.v] and [Derived.v] say what [Debug] prints; here is how it is
    handed over, piece by piece, each followed by [?]. *)

From Coq Require Import String.
From Verif Require Import Base Utf8 NominalString Format Derived.

(** ** Builders *)

(** [str::split_inclusive('\n')] *)
Fixpoint split_inclusive (str : list N) : list (list N) :=
  match str with
  | [] => []
  | b :: rest =>
    if b =? 0x0A then [b] :: split_inclusive rest
    else match split_inclusive rest with
         | [] => [[b]]
         | line :: lines => (b :: line) :: lines
         end
  end.

Definition margin (on_newline : bool) : list write := if on_newline then [WriteStr (bytes "    ")] else [].

(** [PadAdapter::write_str]: a line at a time, with its margin. *)
Fixpoint adapt_lines (on_newline : bool) (lines : list (list N)) : list write * bool :=
  match lines with
  | [] => ([], on_newline)
  | line :: lines =>
    let '(ws, last) := adapt_lines (List.last line 0 =? 0x0A) lines in
    (margin on_newline ++ WriteStr line :: ws, last)
  end.

(** [PadAdapter], of the calls of one field. *)
Fixpoint adapt (on_newline : bool) (ws : list write) : list write :=
  match ws with
  | [] => []
  | WriteStr str :: ws =>
    let '(first, last) := adapt_lines on_newline (split_inclusive str) in
    first ++ adapt last ws
  | WriteChar ch :: ws => margin on_newline ++ WriteChar ch :: adapt (ch =? 0x0A) ws
  end.

(** Fields in a [DebugTuple] or [DebugStruct]: [open] is written in front of the
    first; with [#] each has an adapter of its own. *)
Fixpoint field_writes (pretty : bool) (open : list N) (fields : list (list write)) : list write :=
  match fields with
  | [] => []
  | field :: fields =>
    if pretty then
      (match open with [] => [] | _ => [WriteStr open] end) ++ adapt true (field ++ [WriteStr (bytes "," ++ [0x0A])]) ++
      field_writes pretty [] fields
    else WriteStr open :: field ++ field_writes pretty (bytes ", ") fields
  end.

(** [Formatter::debug_tuple], its fields, [finish] *)
Definition tuple_writes (f : format_options) (name : string) (fields : list (list write)) : list write :=
  WriteStr (bytes name) ::
  field_writes (alternate f) (if alternate f then bytes "(" ++ [0x0A] else bytes "(") fields ++
  match fields with [] => [] | _ => [WriteStr (bytes ")")] end.

(** [Formatter::debug_struct]; a field is its name, a colon and the value. *)
Definition struct_writes (f : format_options) (name : string) (fields : list (string * list write)) : list write :=
  WriteStr (bytes name) ::
  field_writes (alternate f) (if alternate f then bytes " {" ++ [0x0A] else bytes " { ")
    (map (fun '(field, ws) => WriteStr (bytes field) :: WriteStr (bytes ": ") :: ws) fields) ++
  match fields with
  | [] => []
  | _ => [WriteStr (if alternate f then bytes "}" else bytes " }")]
  end.

(** ** [NominalString] *)

(** src/nominalstring.rs:14-16 and :256-264. [quoted] is what [Debug] of [str]
    calls; how it groups the characters differs between versions of core. *)
Definition debug_writes (quoted : list N -> list write) (f : format_options) (s : nominal_string)
  : outcome (list write) :=
  str <- as_str s ;;
  cs <- str_chars str ;;
  Ret (tuple_writes f "NominalString"
         [tuple_writes f (match s with Inline _ => "Inline" | Heap _ => "Heap" end) [quoted cs]]).

Definition debug_to (k : sink) (quoted : list N -> list write) (f : format_options) (s : nominal_string)
    (state : sink_state k) : outcome (sink_state k * bool) :=
  ws <- debug_writes quoted f s ;;
  write_all k ws state.

(** ** Derived [Debug] *)

(** [x] and [X] in front of [?] *)
Inductive radix := Dec | LowerHex | UpperHex.

Record flags := {
  sign_plus : bool;
  zero_pad : bool;
  base : radix
}.

Definition no_flags : flags := {| sign_plus := false; zero_pad := false; base := Dec |}.

(** [LowerHex] and [UpperHex] of an unsigned integer; [letter] is the ten. *)
Fixpoint hex_digits (letter : N) (fuel : nat) (n : N) (digits : list N) : list N :=
  let digit := n mod 16 in
  let digits := (if digit <? 10 then 0x30 + digit else letter + (digit - 10)) :: digits in
  if n <? 16 then digits
  else match fuel with
       | O => digits
       | S fuel => hex_digits letter fuel (n / 16) digits
       end.

Definition digits_in (r : radix) (n : N) : list N :=
  match r with
  | Dec => int_digits (N.to_nat (N.size n)) n []
  | LowerHex => hex_digits 0x61 (N.to_nat (N.size n)) n []
  | UpperHex => hex_digits 0x41 (N.to_nat (N.size n)) n []
  end.

(** [Formatter::pad_integral] *)
Definition number_writes (f : format_options) (g : flags) (n : N) : list write :=
  let digits := digits_in (base g) n in
  let prefix := match base g with Dec => [] | _ => bytes "0x" end in
  let start := (if sign_plus g then [WriteChar 0x2B] else []) ++ (if alternate f then [WriteStr prefix] else []) in
  let natural := N.of_nat (List.length digits) + (if sign_plus g then 1 else 0) +
                 (if alternate f then N.of_nat (List.length prefix) else 0) in
  match width f with
  | None => start ++ [WriteStr digits]
  | Some min =>
    if min <=? natural then start ++ [WriteStr digits]
    else if zero_pad g then start ++ repeat (WriteChar 0x30) (N.to_nat (min - natural)) ++ [WriteStr digits]
    else
      let '(before, after) := padding f (min - natural) AlignRight in
      write_fill f before ++ start ++ WriteStr digits :: write_fill f after
  end.

(** The derives of src/lib.rs:182, src/digital.rs:62, 105, 431, 473, 611,
    src/enumerated.rs:52, src/chinese.rs:119-139, 441-513 and
    src/nominalstring.rs:547 *)
Fixpoint shape_writes (f : format_options) (g : flags) (v : shape) : list write :=
  match v with
  | ShapeUnit name => [WriteStr (bytes name)]
  | ShapeNumber n => number_writes f g n
  | ShapeTuple name fields => tuple_writes f name (map (shape_writes f g) fields)
  | ShapeStruct name fields => struct_writes f name (map (fun '(field, v) => (field, shape_writes f g v)) fields)
  end.
