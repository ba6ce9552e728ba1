(** * Ethiopic: model of /repo/src/ethiopic.rs *)

From Verif Require Import Base Utf8 NominalString Digital.

(** src/ethiopic.rs:7-10 *)
Definition ONES : list N :=
  [0; 0x1369; 0x136A; 0x136B; 0x136C; 0x136D; 0x136E; 0x136F; 0x1370; 0x1371].

(** src/ethiopic.rs:11-14 *)
Definition TENS : list N :=
  [0; 0x1372; 0x1373; 0x1374; 0x1375; 0x1376; 0x1377; 0x1378; 0x1379; 0x137A].

(** [if cond { formatted.try_push_front(ch)? }]: a conditional push that
    returns from the function on failure. *)
Definition push_front_if {A} (c : config) (cond : bool) (formatted : nominal_string)
    (ch : outcome N) (k : nominal_string -> outcome (loop_step A (result nominal_string out_of_memory)))
  : outcome (loop_step A (result nominal_string out_of_memory)) :=
  if cond then
    ch <- ch ;;
    '(formatted, pushed) <- try_push_front c formatted ch ;;
    match pushed with
    | Ok _ => k formatted
    | Err e => Ret (Break (Err e))
    end
  else k formatted.

(** src/ethiopic.rs:22-61, one turn of the [for group_index in 0..] loop. The
    state is [(group_index, remaining, formatted)]. [group_index] is an [i32]
    in the code; it stays below 21 and is a plain number here. *)
Definition ethiopic_body (c : config) (st : N * N * nominal_string)
  : outcome (loop_step (N * N * nominal_string) (result nominal_string out_of_memory)) :=
  let '(group_index, remaining, formatted) := st in
  if is_zero remaining then Ret (Break (Ok formatted))
  else
    let first := remaining mod 10 in
    let remaining := remaining / 10 in
    let second := remaining mod 10 in
    let remaining := remaining / 10 in
    let first_is_zero := is_zero first in
    let second_is_zero := is_zero second in
    let first_is_one := first =? 1 in
    let group_is_odd := group_index mod 2 =? 1 in
    let not_first_group := 0 <? group_index in
    push_front_if c (not_first_group && negb group_is_odd) formatted (Ret 0x137C) (fun formatted =>
    push_front_if c (not_first_group && group_is_odd && negb (first_is_zero && second_is_zero))
      formatted (Ret 0x137B) (fun formatted =>
    let remove_digits :=
      (first_is_zero && second_is_zero)
      || ((is_zero remaining || group_is_odd) && not_first_group && second_is_zero && first_is_one) in
    push_front_if c (negb remove_digits && negb first_is_zero)
      formatted (or_panic (lookup ONES (as_usize c first))) (fun formatted =>
    push_front_if c (negb remove_digits && negb second_is_zero)
      formatted (or_panic (lookup TENS (as_usize c second))) (fun formatted =>
    Ret (Continue (group_index + 1, remaining, formatted)))))).

(** src/ethiopic.rs:16-64  [format_ethiopic] *)
Definition format_ethiopic (c : config) (nominal : N)
  : outcome (result nominal_string out_of_memory) :=
  run_loop c (ethiopic_body c) (0, nominal, new_reverse).

(** src/ethiopic.rs:66-76  [NominalSystem<T> for Ethiopic] *)
Definition Ethiopic (c : config) (T : uint) (nominal : N) : outcome (result nominal_string error) :=
  if is_zero nominal then Ret (Err NoZeroSymbol)
  else
    r <- format_ethiopic c nominal ;;
    match r with
    | Ok s => Ret (Ok s)
    | Err OutOfMemoryError => Ret (Err (OutOfMemory nominal))
    end.
