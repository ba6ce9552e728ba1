(** * System: model of src/lib.rs:38-128 and :194-231 *)

From Verif Require Import Base Utf8 NominalString Digital.

(** src/lib.rs:194-211  [Error::into_decimal] and, through [Decimal]'s default
    [format_nominal] (:44-46), src/lib.rs:221-231 [unwrap_or_decimal] on
    [Decimal]'s result. The two call each other; [depth] bounds the
    recursion. *)
Fixpoint into_decimal (depth : nat) (c : config) (T : uint) (e : error)
  : outcome nominal_string :=
  match depth with
  | O => Hang
  | S depth' =>
      match e with
      | NoZeroSymbol => from_char c 48                       (* '0' *)
      | OutOfBounds nominal | OutOfMemory nominal =>
          r <- try_format_digits c T Decimal nominal ;;
          match r with
          | Ok s => Ret s
          | Err e => into_decimal depth' c T e
          end
      end
  end.

(** src/lib.rs:221-231  [UnwrapOrDecimal::unwrap_or_decimal] *)
Definition unwrap_or_decimal (c : config) (T : uint) (r : result nominal_string error)
  : outcome nominal_string :=
  match r with
  | Ok s => Ret s
  | Err e => into_decimal (loop_depth c) c T e
  end.

(** src/lib.rs:38-56  [trait NominalSystem<T>]: an implementor for one [T] is
    the pair of its methods. *)
Record nominal_system := {
  try_format_nominal : N -> outcome (result nominal_string error);
  format_nominal : N -> outcome nominal_string
}.

(** src/lib.rs:44-46  the default [format_nominal], for an implementor that
    gives only [try_format_nominal]. *)
Definition default_system (c : config) (T : uint)
    (try_format : N -> outcome (result nominal_string error)) : nominal_system :=
  {| try_format_nominal := try_format;
     format_nominal := fun nominal => r <- try_format nominal ;; unwrap_or_decimal c T r |}.

(** src/lib.rs:58-86  [NominalSystem for Box/Rc/Arc<dyn NominalSystem<T>>]: the
    three impls forward [try_format_nominal] only. *)
Definition boxed (c : config) (T : uint) (inner : nominal_system) : nominal_system :=
  default_system c T (try_format_nominal inner).

(** src/lib.rs:101-106  [Nominal::to_nominal] *)
Definition to_nominal (nominal : N) (system : nominal_system) : outcome nominal_string :=
  format_nominal system nominal.

(** src/lib.rs:115-120  [Nominal::try_to_nominal] *)
Definition try_to_nominal (nominal : N) (system : nominal_system)
  : outcome (result nominal_string error) :=
  try_format_nominal system nominal.
