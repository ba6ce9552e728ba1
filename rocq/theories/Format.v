(** * Format: [Display], [Debug] and [Clone] of [NominalString]

    The crate's part is src/nominalstring.rs:14-16, 121-125, 249-264; the rest
    is the part of Rust's core library it calls. [display] and [debug] are
    what is written to a sink that accepts all writes, as [format!] and
    [to_string] do; [display_to] writes to any sink. *)

From Coq Require Import String.
From Verif Require Import Base Utf8 NominalString.

(** [core::fmt::Alignment], and the options of a [{...}] placeholder. *)
Inductive alignment := AlignLeft | AlignRight | AlignCenter.

Record format_options := {
  width : option N;
  precision : option N;
  fill : N;
  align : option alignment;
  alternate : bool
}.

(** [{}] *)
Definition plain : format_options :=
  {| width := None; precision := None; fill := 0x20; align := None; alternate := false |}.

(** [str::chars] *)
Definition str_chars (str : list N) : outcome (list N) :=
  match utf8_decode str with Some cs => Ret cs | None => UB end.

(** [Formatter::padding]: what is written before and after. *)
Definition padding (f : format_options) (n : N) (default : alignment) : N * N :=
  match match align f with Some a => a | None => default end with
  | AlignLeft => (0, n)
  | AlignRight => (n, 0)
  | AlignCenter => (n / 2, (n + 1) / 2)
  end.

(** The calls made to a [core::fmt::Write], and what they ask to be written. *)
Inductive write := WriteStr (str : list N) | WriteChar (ch : N).

Definition written (w : write) : list N :=
  match w with
  | WriteStr str => str
  | WriteChar ch => utf8 [ch]
  end.

Definition write_fill (f : format_options) (n : N) : list write :=
  repeat (WriteChar (fill f)) (N.to_nat n).

(** [Formatter::pad]: the precision cuts the text after that many characters,
    the width asks for at least that many. *)
Definition pad (f : format_options) (str : list N) : outcome (list write) :=
  match width f, precision f with
  | None, None => Ret [WriteStr str]
  | _, _ =>
    cs <- str_chars str ;;
    let kept := match precision f with
                | Some p => firstn (N.to_nat (N.min p (N.of_nat (List.length cs)))) cs
                | None => cs
                end in
    let s := firstn (List.length (utf8 kept)) str in
    let count := N.of_nat (List.length kept) in
    match width f with
    | None => Ret [WriteStr s]
    | Some w =>
      if count <? w then
        let '(before, after) := padding f (w - count) AlignLeft in
        Ret (write_fill f before ++ [WriteStr s] ++ write_fill f after)
      else Ret [WriteStr s]
    end
  end.

(** [impl Display for NominalString] (src/nominalstring.rs:121-125); [Display]
    of [str] is [Formatter::pad]. *)
Definition display_writes (f : format_options) (s : nominal_string) : outcome (list write) :=
  str <- as_str s ;;
  pad f str.

Definition display (f : format_options) (s : nominal_string) : outcome (list N) :=
  ws <- display_writes f s ;;
  Ret (flat_map written ws).

(** A [core::fmt::Write] with a state of its own; [write_str] and [write_char]
    return the new state and whether they succeeded. *)
Record sink := {
  sink_state : Type;
  write_to : write -> sink_state -> outcome (sink_state * bool)
}.

(** Each write is followed by [?]. *)
Fixpoint write_all (k : sink) (ws : list write) (state : sink_state k)
  : outcome (sink_state k * bool) :=
  match ws with
  | [] => Ret (state, true)
  | w :: ws =>
    r <- write_to k w state ;;
    let '(state, ok) := r in
    if ok then write_all k ws state else Ret (state, false)
  end.

Definition display_to (k : sink) (f : format_options) (s : nominal_string) (state : sink_state k)
  : outcome (sink_state k * bool) :=
  ws <- display_writes f s ;;
  write_all k ws state.

(** [PadAdapter::write_str]: four spaces at the start of every line. *)
Fixpoint indent (on_newline : bool) (str : list N) : list N :=
  match str with
  | [] => []
  | b :: rest =>
    (if on_newline then bytes "    " else []) ++ b :: indent (b =? 0x0A) rest
  end.

(** [Formatter::debug_tuple] with one field, then [finish]. The field is given
    as what it writes. *)
Definition debug_tuple (f : format_options) (name : string) (field : list N) : list N :=
  if alternate f then
    bytes name ++ bytes "(" ++ [0x0A] ++ indent true (field ++ bytes "," ++ [0x0A]) ++ bytes ")"
  else bytes name ++ bytes "(" ++ field ++ bytes ")".

(** [Debug] of [str], which ignores width and precision. [escape] is what it
    writes for a character inside the quotes; it depends on tables of the
    Unicode database. *)
Definition str_debug (escape : N -> list N) (str : list N) : outcome (list N) :=
  cs <- str_chars str ;;
  Ret (bytes """" ++ flat_map escape cs ++ bytes """").

(** [impl Debug for MaybeInline] (src/nominalstring.rs:256-264). *)
Definition debug_maybe_inline (escape : N -> list N) (f : format_options) (s : nominal_string)
  : outcome (list N) :=
  str <- as_str s ;;
  field <- str_debug escape str ;;
  Ret (match s with
       | Inline _ => debug_tuple f "Inline" field
       | Heap _ => debug_tuple f "Heap" field
       end).

(** [derive(Debug)] of the tuple struct [NominalString]
    (src/nominalstring.rs:14-16). *)
Definition debug (escape : N -> list N) (f : format_options) (s : nominal_string)
  : outcome (list N) :=
  field <- debug_maybe_inline escape f s ;;
  Ret (debug_tuple f "NominalString" field).

(** [derive(Clone)] of [NominalString] and [MaybeInline]
    (src/nominalstring.rs:15, 249-254): the bytes of an inline string are
    copied whether or not they were written ([InlineString] is [Copy],
    src/nominalstring.rs:266), a heap string is copied by [String::clone]. *)
Definition clone (s : nominal_string) : nominal_string :=
  match s with
  | Inline i => Inline {| length_byte := length_byte i; cells := cells i |}
  | Heap str => Heap str
  end.
