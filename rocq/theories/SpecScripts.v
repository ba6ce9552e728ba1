(** * SpecScripts: what the enumerated, Ethiopic and Hebrew systems should print (C32-C37) *)

From Coq Require Import String.
From Verif Require Import Base Utf8 Spec SpecAdditive.

(** ** Circled numbers *)

Definition circled (n : N) : N :=
  if n =? 0 then 0x24EA
  else if n <=? 20 then 0x2460 + (n - 1)
  else if n <=? 35 then 0x3251 + (n - 21)
  else 0x32B1 + (n - 36).

Definition double_circled (n : N) : N := 0x24F5 + (n - 1).

(** ** Ethiopic

    CSS Counter Styles, ethiopic-numeric:
    1. If the number is 1, return U+1369.
    2. Split the number into groups of two digits, starting with the least
       significant decimal digit.
    3. Index each group sequentially, starting from the least significant as
       group number zero.
    4. If the group has the value zero, or if the group is the most significant
       one and has the value 1, or if the group has an odd index and has the
       value 1, then remove the digits (but leave the group, so it still has a
       separator appended below).
    5. For each remaining digit, substitute the relevant character: U+1369
       (1) to U+1371 (9), U+1372 (10) to U+137A (90).
    6. For each group with an odd index, except groups which originally had a
       value of zero, append U+137B.
    7. For each group with an even index, except the group with index 0, append
       U+137C.
    8. Concatenate the groups into one string and return it. *)
Definition ethiopic_digits (v : N) : list N :=
  (if v / 10 =? 0 then [] else [0x1372 + (v / 10 - 1)]) ++
  (if v mod 10 =? 0 then [] else [0x1369 + (v mod 10 - 1)]).

Definition ethiopic_group (most_significant : bool) (index : nat) (v : N) : list N :=
  let removed := (v =? 0) || (most_significant && (v =? 1)) || (Nat.odd index && (v =? 1)) in
  (if removed then [] else ethiopic_digits v) ++
  (if Nat.odd index then (if v =? 0 then [] else [0x137B])
   else if Nat.eqb index 0 then [] else [0x137C]).

(** The groups from the most significant on; the last one has index zero. *)
Fixpoint ethiopic_groups (most_significant : bool) (groups : list N) : list N :=
  match groups with
  | [] => []
  | v :: rest => ethiopic_group most_significant (length rest) v ++ ethiopic_groups false rest
  end.

(** Groups of two digits are the base-100 numeral. *)
Definition ethiopic_numeral (n : N) (cs : list N) : Prop :=
  if n =? 1 then cs = [0x1369]
  else exists groups, below 100 groups /\ canonical groups /\ positional_value 100 groups = n /\
                      cs = ethiopic_groups true groups.

(** Reading: digits add up; U+137B multiplies what precedes it in its part by a
    hundred, U+137C the whole by ten thousand; with nothing to multiply they
    stand for a hundred and ten thousand. *)
Definition ethiopic_step (state : N * N) (ch : N) : N * N :=
  let (total, part) := state in
  if ch =? 0x137C then
    (if (total =? 0) && (part =? 0) then 10000 else (total + part) * 10000, 0)
  else if ch =? 0x137B then (total, if part =? 0 then 100 else part * 100)
  else if ch <? 0x1372 then (total, part + (ch - 0x1369 + 1))
  else (total, part + 10 * (ch - 0x1372 + 1)).

Definition ethiopic_read (cs : list N) : N :=
  let (total, part) := fold_left ethiopic_step cs (0, 0) in total + part.

(** ** Hebrew *)

Definition hebrew_hundreds : list N := chars " קרש".
Definition hebrew_tens : list N := chars " יכלמנסעפצ".
Definition hebrew_ones : list N := chars " אבגדהוזחט".
Definition tav : N := 0x5EA.
Definition geresh : N := 0x5F3.
Definition gershayim : N := 0x5F4.

(** The letter of a digit; none for zero. *)
Definition letter (letters : list N) (d : N) : list N := if d =? 0 then [] else [nth (N.to_nat d) letters 0].

Definition hebrew_letters (n : N) : list N :=
  copies (n / 400) [tav] ++
  letter hebrew_hundreds (n mod 400 / 100) ++
  let r := n mod 400 mod 100 in
  if r =? 15 then [0x5D8; gershayim; 0x5D5]          (* tet vav *)
  else if r =? 16 then [0x5D8; gershayim; 0x5D6]     (* tet zayin *)
  else letter hebrew_tens (r / 10) ++ letter hebrew_ones (r mod 10).

Definition hebrew_numeral (n : N) : list N :=
  match hebrew_letters n with
  | [x] => [geresh; x; gershayim]
  | cs => cs
  end.

(** The value of a letter; geresh and gershayim count nothing. *)
Fixpoint index_of (x : N) (l : list N) (i : N) : N :=
  match l with
  | [] => 0
  | y :: l => if x =? y then i else index_of x l (i + 1)
  end.

Definition hebrew_value (x : N) : N :=
  if x =? tav then 400
  else 100 * index_of x hebrew_hundreds 0 + 10 * index_of x hebrew_tens 0 + index_of x hebrew_ones 0.

Definition hebrew_sum (cs : list N) : N := fold_right (fun x acc => hebrew_value x + acc) 0 cs.
