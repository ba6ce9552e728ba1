(** * Enumerated: model of /repo/src/enumerated.rs *)

From Coq Require Import String.
From Verif Require Import Base Utf8 NominalString Digital.

(** src/enumerated.rs:4-6  [struct EnumeratedSet<N, HAS_ZERO>] *)
Record enumerated_set := {
  es_symbols : list (list N);
  es_has_zero : bool
}.

(** src/enumerated.rs:8-15  [EnumeratedSet<N, true>::new] *)
Definition enumerated_new (symbols : list (list N)) : enumerated_set :=
  {| es_symbols := symbols; es_has_zero := true |}.

(** src/enumerated.rs:17-24  [EnumeratedSet<N, false>::zeroless] *)
Definition enumerated_zeroless (symbols : list (list N)) : enumerated_set :=
  {| es_symbols := symbols; es_has_zero := false |}.

(** src/enumerated.rs:26-43  [NominalSystem<T> for EnumeratedSet]. The integer
    type [T] only matters through [nominal] being one of its values. *)
Definition try_format_enumerated (c : config) (T : uint) (set : enumerated_set) (nominal : N)
  : outcome (result nominal_string error) :=
  match try_from c Usize nominal with                      (* nominal.try_into() *)
  | None => Ret (Err (OutOfBounds nominal))
  | Some n =>
      if negb (es_has_zero set) && is_zero nominal then Ret (Err NoZeroSymbol)
      else
        index <- usub c (usize_bits c) n (if es_has_zero set then 0 else 1) ;;
        match lookup (es_symbols set) index with
        | Some symbol => s <- from_str c symbol ;; Ret (Ok s)
        | None => Ret (Err (OutOfBounds nominal))
        end
  end.

(** src/enumerated.rs:67-76, the symbols *)
Definition CircledNumber_symbols : list (list N) := [
  bytes "⓪"; bytes "①"; bytes "②"; bytes "③"; bytes "④"; bytes "⑤"; bytes "⑥"; bytes "⑦"; bytes "⑧"; bytes "⑨";
  bytes "⑩"; bytes "⑪"; bytes "⑫"; bytes "⑬"; bytes "⑭"; bytes "⑮"; bytes "⑯"; bytes "⑰"; bytes "⑱"; bytes "⑲";
  bytes "⑳"; bytes "㉑"; bytes "㉒"; bytes "㉓"; bytes "㉔"; bytes "㉕"; bytes "㉖"; bytes "㉗"; bytes "㉘"; bytes "㉙";
  bytes "㉚"; bytes "㉛"; bytes "㉜"; bytes "㉝"; bytes "㉞"; bytes "㉟"; bytes "㊱"; bytes "㊲"; bytes "㊳"; bytes "㊴";
  bytes "㊵"; bytes "㊶"; bytes "㊷"; bytes "㊸"; bytes "㊹"; bytes "㊺"; bytes "㊻"; bytes "㊼"; bytes "㊽"; bytes "㊾";
  bytes "㊿"
].

(** src/enumerated.rs:67-76 with :55-63 *)
Definition CircledNumber (c : config) (T : uint) (nominal : N) : outcome (result nominal_string error) :=
  try_format_enumerated c T (enumerated_new CircledNumber_symbols) nominal.

(** src/enumerated.rs:78-81, the symbols *)
Definition DoubleCircledNumber_symbols : list (list N) := [
  bytes "⓵"; bytes "⓶"; bytes "⓷"; bytes "⓸"; bytes "⓹"; bytes "⓺"; bytes "⓻"; bytes "⓼"; bytes "⓽"; bytes "⓾"
].

(** src/enumerated.rs:78-81 with :55-63 *)
Definition DoubleCircledNumber (c : config) (T : uint) (nominal : N) : outcome (result nominal_string error) :=
  try_format_enumerated c T (enumerated_zeroless DoubleCircledNumber_symbols) nominal.
