(** * Hashing: the derived [Hash] of [OneBased] and of the built-in collections

    The derives are at src/digital.rs:62, 105 and src/enumerated.rs:52. Keys of
    a [HashMap] need [Hash] and [Eq] to agree. *)

From Verif Require Import Base Digital.

(** A type with [PartialEq] and [Hash]; [hash_of] is what is written to the
    hasher, call by call. *)
Record keyed (V : Type) := { eq_of : V -> V -> bool; hash_of : V -> list (list N) }.
Arguments eq_of {V}. Arguments hash_of {V}.

(** Any hasher: [write] is [Hasher::write]. *)
Definition feed {H} (write : H -> list N -> H) (h : H) (calls : list (list N)) : H := fold_left write calls h.

(** src/digital.rs:62-63: of a struct the fields alone are hashed. *)
Inductive wrapped (V : Type) := OneBasedOf (digits : V).
Arguments OneBasedOf {V}.

Definition derive_one_based {V} (k : keyed V) : keyed (wrapped V) :=
  {| eq_of := fun '(OneBasedOf v) '(OneBasedOf w) => eq_of k v w;
     hash_of := fun '(OneBasedOf v) => hash_of k v |}.

(** src/digital.rs:105-106, src/enumerated.rs:52-53: unit structs. *)
Definition derive_unit : keyed unit := {| eq_of := fun _ _ => true; hash_of := fun _ => [] |}.

(** src/digital.rs:71-93: what the methods of a wrapped value do. *)
Definition wrapped_collection {V} (methods : V -> digit_collection) (w : wrapped V) : digit_collection :=
  let '(OneBasedOf v) := w in one_based (methods v).
