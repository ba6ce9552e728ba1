(** * Derived: the derived [Debug] and [PartialEq] of the crate's types

    The derives are at src/lib.rs:182, src/digital.rs:62, 105, 431, 473, 611,
    src/enumerated.rs:52, src/chinese.rs:119-139, 441-513 and
    src/nominalstring.rs:547. What they expand to calls the builders of
    [core::fmt]. *)

From Coq Require Import String.
From Verif Require Import Base Utf8 NominalString Format Digital Chinese.

(** ** [core::fmt] *)

(** A value as its derived [Debug] sees it. *)
Inductive shape :=
| ShapeUnit (name : string)
| ShapeTuple (name : string) (fields : list shape)
| ShapeStruct (name : string) (fields : list (string * shape))
| ShapeNumber (n : N).

(** [Display] of an unsigned integer, without sign and prefix. *)
Fixpoint int_digits (fuel : nat) (n : N) (digits : list N) : list N :=
  let digits := (0x30 + n mod 10) :: digits in
  if n <? 10 then digits
  else match fuel with
       | O => digits
       | S fuel => int_digits fuel (n / 10) digits
       end.

(** [Formatter::pad_integral]: numbers are right aligned by default, and the
    precision is ignored. The flags [0], [+], [x] and [X] are not among the
    [format_options]. *)
Definition pad_integral (f : format_options) (digits : list N) : list N :=
  let missing := match width f with
                 | Some w => w - N.of_nat (List.length digits)
                 | None => 0
                 end in
  let '(before, after) := padding f missing AlignRight in
  flat_map written (write_fill f before) ++ digits ++ flat_map written (write_fill f after).

Definition int_debug (f : format_options) (n : N) : list N :=
  pad_integral f (int_digits (N.to_nat (N.size n)) n []).

(** Fields with separators: [DebugTuple] and [DebugStruct] for options without
    and with [#]. *)
Definition fields_inline (fields : list (list N)) : list N :=
  match fields with
  | [] => []
  | field :: fields => field ++ flat_map (fun field => bytes ", " ++ field) fields
  end.

Definition fields_on_lines (fields : list (list N)) : list N :=
  flat_map (fun field => indent true (field ++ bytes "," ++ [0x0A])) fields.

(** A derived [Debug]: [Formatter::write_str] for a unit, [debug_tuple] or
    [debug_struct] otherwise. *)
Fixpoint shape_debug (f : format_options) (v : shape) : list N :=
  match v with
  | ShapeUnit name => bytes name
  | ShapeNumber n => int_debug f n
  | ShapeTuple name fields =>
    let texts := map (shape_debug f) fields in
    if alternate f then bytes name ++ bytes "(" ++ [0x0A] ++ fields_on_lines texts ++ bytes ")"
    else bytes name ++ bytes "(" ++ fields_inline texts ++ bytes ")"
  | ShapeStruct name fields =>
    let texts := map (fun '(field, v) => bytes field ++ bytes ": " ++ shape_debug f v) fields in
    if alternate f then bytes name ++ bytes " {" ++ [0x0A] ++ fields_on_lines texts ++ bytes "}"
    else bytes name ++ bytes " { " ++ fields_inline texts ++ bytes " }"
  end.

(** ** The types of the crate *)

(** src/lib.rs:182-192  [enum Error<T>] *)
Definition error_shape (e : error) : shape :=
  match e with
  | NoZeroSymbol => ShapeUnit "NoZeroSymbol"
  | OutOfMemory nominal => ShapeTuple "OutOfMemory" [ShapeNumber nominal]
  | OutOfBounds nominal => ShapeTuple "OutOfBounds" [ShapeNumber nominal]
  end.

Definition error_debug (f : format_options) (e : error) : list N := shape_debug f (error_shape e).

(** The derived [PartialEq]: same variant, equal fields. *)
Definition error_eq (e e' : error) : bool :=
  match e, e' with
  | NoZeroSymbol, NoZeroSymbol => true
  | OutOfMemory n, OutOfMemory m => n =? m
  | OutOfBounds n, OutOfBounds m => n =? m
  | _, _ => false
  end.

(** src/nominalstring.rs:547-548 *)
Definition out_of_memory_error_debug (f : format_options) : list N := shape_debug f (ShapeUnit "OutOfMemoryError").

(** src/chinese.rs:119-139 *)
Definition usage_shape (u : chinese_usage) : shape :=
  ShapeUnit (match u with Financial => "Financial" | Ordinary => "Ordinary" end).

Definition scale_shape (s : chinese_scale) : shape :=
  ShapeUnit (match s with Short => "Short" | Myriad => "Myriad" | Mid => "Mid" | Long => "Long" end).

Definition options_shape (o : chinese_options) : shape :=
  ShapeStruct "ChineseOptions"
    [("usage"%string, usage_shape (usage o)); ("scale"%string, scale_shape (scale o))].

(** src/chinese.rs:441-442, 465-466, 489-490, 512-513: the four public types,
    by name. *)
Definition chinese_debug (f : format_options) (name : string) (o : chinese_options) : list N :=
  shape_debug f (ShapeTuple name [options_shape o]).

Definition usage_eq (u u' : chinese_usage) : bool :=
  match u, u' with
  | Financial, Financial => true
  | Ordinary, Ordinary => true
  | _, _ => false
  end.

Definition scale_eq (s s' : chinese_scale) : bool :=
  match s, s' with
  | Short, Short => true
  | Myriad, Myriad => true
  | Mid, Mid => true
  | Long, Long => true
  | _, _ => false
  end.

Definition chinese_eq (o o' : chinese_options) : bool :=
  usage_eq (usage o) (usage o') && scale_eq (scale o) (scale o').

(** A collection put together with the crate's wrappers from unit types
    (src/digital.rs:62-63, 105-106, 431-435, 473-474, 611-612;
    src/enumerated.rs:52-53). *)
Inductive collection_value :=
| NamedValue (name : string)
| OneBasedValue (digits : collection_value)
| ChainValue (a b : collection_value)
| RestrictValue (digits : collection_value) (count : N).

Fixpoint collection_shape (v : collection_value) : shape :=
  match v with
  | NamedValue name => ShapeUnit name
  | OneBasedValue digits => ShapeTuple "OneBased" [collection_shape digits]
  | ChainValue a b => ShapeStruct "Chain" [("a"%string, collection_shape a); ("b"%string, collection_shape b)]
  | RestrictValue digits count => ShapeTuple "Restrict" [collection_shape digits; ShapeNumber count]
  end.

Definition collection_debug (f : format_options) (v : collection_value) : list N := shape_debug f (collection_shape v).

(** [PartialEq] compares values of one type, so names are never compared. *)
Fixpoint collection_eq (v w : collection_value) : bool :=
  match v, w with
  | NamedValue _, NamedValue _ => true
  | OneBasedValue v, OneBasedValue w => collection_eq v w
  | ChainValue a b, ChainValue a' b' => collection_eq a a' && collection_eq b b'
  | RestrictValue v count, RestrictValue w count' => collection_eq v w && (count =? count')
  | _, _ => false
  end.
