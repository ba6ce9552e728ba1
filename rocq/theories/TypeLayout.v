(** * TypeLayout: the types of src/nominalstring.rs and how they may be laid out

    The default representation of Rust leaves the order of fields and the place
    of the discriminant open; [laid_out] are the rules every layout obeys (The
    Rust Reference, type layout). *)

From Verif Require Import Base NominalString.

(** What is asked about a type: size and alignment in bytes, the bytes that
    hold data, and those among them that never take some value (in which the
    compiler can therefore keep a discriminant). *)
Record type_layout := {
  size : N;
  alignment : N;
  data : list N;
  niches : list N
}.

Inductive ty :=
| Byte                          (* u8, MaybeUninit<u8> *)
| Bytes (n : N)                 (* [MaybeUninit<u8>; n] *)
| Word (niche : bool)           (* usize, pointers *)
| Struct (fields : list ty)
| Enum (variants : list (list ty)).

Definition upto_n (n : N) : list N := map N.of_nat (seq 0 (N.to_nat n)).

Definition shift (by_bytes : N) (l : list N) : list N := map (fun p => by_bytes + p) l.

Definition disjoint (l l' : list N) : Prop := forall p, In p l -> ~ In p l'.

(** Fields at their offsets. *)
Definition data_of (placed : list (N * type_layout)) : list N := flat_map (fun '(o, f) => shift o (data f)) placed.
Definition niches_of (placed : list (N * type_layout)) : list N := flat_map (fun '(o, f) => shift o (niches f)) placed.

(** Fields are aligned, inside, and do not overlap. *)
Definition fields_fit (whole_size whole_alignment : N) (placed : list (N * type_layout)) : Prop :=
  Forall (fun '(o, f) => (alignment f | o) /\ (alignment f | whole_alignment) /\ o + size f <= whole_size) placed /\
  ForallOrdPairs (fun '(o, f) '(o', f') => disjoint (shift o (data f)) (shift o' (data f'))) placed.

(** The variants can be told apart: at a byte that each of them leaves free
    or, in one of them, does not take all values. *)
Definition told_apart (whole_size : N) (variants : list (list (N * type_layout))) : Prop :=
  match variants with
  | [] | [_] => True
  | _ => exists p, p < whole_size /\
      Forall (fun placed => ~ In p (data_of placed) \/ In p (niches_of placed)) variants /\
      forall l1 v l2 v' l3, variants = l1 ++ v :: l2 ++ v' :: l3 -> In p (data_of v) -> ~ In p (data_of v')
  end.

(** [word] is the size and the alignment of a pointer. *)
Inductive laid_out (word : N) : ty -> type_layout -> Prop :=
| byte_layout : laid_out word Byte {| size := 1; alignment := 1; data := [0]; niches := [] |}
| bytes_layout n : laid_out word (Bytes n) {| size := n; alignment := 1; data := upto_n n; niches := [] |}
| word_layout niche : laid_out word (Word niche)
    {| size := word; alignment := word; data := upto_n word; niches := if niche then upto_n word else [] |}
| struct_layout fields placed s a :
    Forall2 (fun t at_offset => laid_out word t (snd at_offset)) fields placed ->
    fields_fit s a placed -> (a | s) -> 1 <= a ->
    laid_out word (Struct fields) {| size := s; alignment := a; data := data_of placed; niches := niches_of placed |}
| enum_layout variants places s a used :
    Forall2 (fun fields placed => Forall2 (fun t at_offset => laid_out word t (snd at_offset)) fields placed /\ fields_fit s a placed) variants places ->
    told_apart s places -> (a | s) -> 1 <= a ->
    Forall (fun placed => forall p, In p (data_of placed) -> In p used) places ->
    Forall (fun p => p < s) used ->
    laid_out word (Enum variants) {| size := s; alignment := a; data := used; niches := [] |}.

(** ** The types *)

(** src/nominalstring.rs:266-270; [capacity] is [INLINE_CAPACITY] (:36, :418). *)
Definition inline_string_type (capacity : N) : ty := Struct [Byte; Bytes capacity].

(** alloc::string::String: pointer and capacity, length; whether the capacity
    has values it never takes depends on the version of the library. *)
Definition string_type (spare : bool) : ty := Struct [Struct [Word true; Word spare]; Word false].

(** src/nominalstring.rs:16, 249-254 *)
Definition nominal_string_type (alloc spare : bool) (capacity : N) : ty :=
  Struct [Enum ([inline_string_type capacity] :: if alloc then [[string_type spare]] else [])].
