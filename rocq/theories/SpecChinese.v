(** * SpecChinese: what the Chinese systems should print (C38-C45) *)

From Coq Require Import String.
From Verif Require Import Base Utf8 Spec.

(** ** Signs

    A numeral is written with digits 0-9, the markers of ten, hundred and
    thousand, and the eleven large-number signs. *)
Inductive sign :=
| Digit (d : N)
| Marker (p : N)         (** worth [10^p], [p] = 1, 2, 3 *)
| Large (r : nat).       (** the [r]-th large-number sign *)

(** The 24 characters of a script: digits, markers, large-number signs. *)
Definition large_simplified : list N := chars "万亿兆京垓秭穰沟涧正载".
Definition large_traditional : list N := chars "萬億兆京垓秭穰溝澗正載".

Definition alphabet (traditional financial : bool) : list N :=
  match traditional, financial with
  | false, false => chars "零一二三四五六七八九" ++ chars "十百千" ++ large_simplified
  | false, true => chars "零壹贰叁肆伍陆柒捌玖" ++ chars "拾佰仟" ++ large_simplified
  | true, false => chars "零一二三四五六七八九" ++ chars "十百千" ++ large_traditional
  | true, true => chars "零壹貳參肆伍陸柒捌玖" ++ chars "拾佰仟" ++ large_traditional
  end.

Definition sign_index (s : sign) : nat :=
  match s with
  | Digit d => N.to_nat d
  | Marker p => 9 + N.to_nat p
  | Large r => 13 + r
  end.

Definition glyph (abc : list N) (s : sign) : N := nth (sign_index s) abc 0.

(** ** CSS Counter Styles, the longhand Chinese systems

    1. If the number is 0, the representation is the character for 0.
    2. Represent the number in decimal. For each digit that is not 0, append
       the appropriate digit marker to the digit. The ones digit has no marker.
    3. For the informal styles, if the number is between 10 and 19, remove the
       tens digit (leave the digit marker).
    4. Drop any trailing zeros and collapse any remaining zeros into a single
       zero digit. *)

Definition marked (d p : N) : list sign :=
  if (d =? 0) || (p =? 0) then [Digit d] else [Digit d; Marker p].

(** The decimal places of a number up to 9999, highest first. *)
Definition places (n : N) : list N :=
  if n <? 10 then [0] else if n <? 100 then [1; 0] else if n <? 1000 then [2; 1; 0] else [3; 2; 1; 0].

Definition is_zero_digit (s : sign) : bool := match s with Digit 0 => true | _ => false end.

Fixpoint drop_leading_zeros (l : list sign) : list sign :=
  match l with
  | [] => []
  | s :: rest => if is_zero_digit s then drop_leading_zeros rest else l
  end.

Definition drop_trailing_zeros (l : list sign) : list sign := rev (drop_leading_zeros (rev l)).

Fixpoint collapse_zeros (l : list sign) : list sign :=
  match l with
  | [] => []
  | s :: rest =>
      if is_zero_digit s && (match rest with s' :: _ => is_zero_digit s' | [] => false end)
      then collapse_zeros rest else s :: collapse_zeros rest
  end.

Definition css_longhand (informal : bool) (n : N) : list sign :=
  if n =? 0 then [Digit 0]
  else
    let signs := flat_map (fun p => marked (n / 10 ^ p mod 10) p) (places n) in
    let signs := if informal && (10 <=? n) && (n <=? 19) then tl signs else signs in
    collapse_zeros (drop_trailing_zeros signs).

(** ** Reading *)

(** The values of the large-number signs: in the myriad scale each is ten
    thousand times the one before; in the mid scale they grow by 10^8 from the
    second on; in the long scale each is the square of the one before; in the
    short scale each is ten times the one before. *)
Inductive scaling := ShortScaling | MyriadScaling | MidScaling | LongScaling.

Definition large_value (sc : scaling) (r : nat) : N :=
  match sc with
  | ShortScaling => 10 ^ (4 + N.of_nat r)
  | MyriadScaling => 10 ^ (4 * (N.of_nat r + 1))
  | MidScaling => match r with O => 10 ^ 4 | _ => 10 ^ (8 * N.of_nat r) end
  | LongScaling => 10 ^ (4 * 2 ^ N.of_nat r)
  end.

(** Below ten thousand: digits times their markers; a marker on its own counts
    once. *)
Fixpoint read_small (l : list sign) : N :=
  match l with
  | [] => 0
  | Digit 0 :: rest => read_small rest
  | Digit d :: Marker p :: rest => d * 10 ^ p + read_small rest
  | Digit d :: rest => d + read_small rest
  | Marker p :: rest => 10 ^ p + read_small rest
  | Large _ :: rest => read_small rest
  end.

Definition sign_eqb (a b : sign) : bool :=
  match a, b with
  | Digit d, Digit e => d =? e
  | Marker p, Marker q => p =? q
  | Large r, Large s => Nat.eqb r s
  | _, _ => false
  end.

(** What is before and after the first occurrence of [s]. *)
Fixpoint split_at (s : sign) (l : list sign) : option (list sign * list sign) :=
  match l with
  | [] => None
  | x :: rest =>
      if sign_eqb s x then Some ([], rest)
      else match split_at s rest with Some (a, b) => Some (x :: a, b) | None => None end
  end.

(** The highest large-number sign multiplies what is before it and adds what
    is after it. *)
Fixpoint read_large (sc : scaling) (k : nat) (l : list sign) : N :=
  match k with
  | O => read_small l
  | S r =>
      match split_at (Large r) l with
      | Some (a, b) => read_large sc r a * large_value sc r + read_large sc r b
      | None => read_large sc r l
      end
  end.

(** ** Numerals of any size

    From ten thousand on, the highest large-number sign not above [n] follows
    the numeral of how often it goes into [n], and is followed by the formal
    numeral of what is left, if anything, with a zero sign in between where
    there is a [gap]: in the short scale when the next lower power of ten does
    not occur, in the other scales when what is left starts with a four-digit
    group below 1000. *)
Definition gap (sc : scaling) (v rest : N) : Prop :=
  match sc with
  | ShortScaling => 10 * rest < v
  | _ => exists k, 10 ^ (4 * k) <= rest < 10 ^ (4 * k + 3)
  end.

Inductive chinese_numeral (sc : scaling) : bool -> N -> list sign -> Prop :=
| numeral_small informal n : n < 10000 -> chinese_numeral sc informal n (css_longhand informal n)
| numeral_exact informal n r a :
    (r < 11)%nat -> large_value sc r <= n -> (r = 10%nat \/ n < large_value sc (S r)) ->
    chinese_numeral sc informal (n / large_value sc r) a ->
    n mod large_value sc r = 0 ->
    chinese_numeral sc informal n (a ++ [Large r])
| numeral_gap informal n r a b :
    (r < 11)%nat -> large_value sc r <= n -> (r = 10%nat \/ n < large_value sc (S r)) ->
    chinese_numeral sc informal (n / large_value sc r) a ->
    n mod large_value sc r <> 0 -> gap sc (large_value sc r) (n mod large_value sc r) ->
    chinese_numeral sc false (n mod large_value sc r) b ->
    chinese_numeral sc informal n (a ++ Large r :: Digit 0 :: b)
| numeral_next informal n r a b :
    (r < 11)%nat -> large_value sc r <= n -> (r = 10%nat \/ n < large_value sc (S r)) ->
    chinese_numeral sc informal (n / large_value sc r) a ->
    n mod large_value sc r <> 0 -> ~ gap sc (large_value sc r) (n mod large_value sc r) ->
    chinese_numeral sc false (n mod large_value sc r) b ->
    chinese_numeral sc informal n (a ++ Large r :: b).

(** From characters back to signs. *)
Fixpoint position (x : N) (l : list N) : option nat :=
  match l with
  | [] => None
  | y :: rest => if x =? y then Some O else option_map S (position x rest)
  end.

Definition sign_of (abc : list N) (x : N) : option sign :=
  match position x abc with
  | None => None
  | Some i =>
      if (i <? 10)%nat then Some (Digit (N.of_nat i))
      else if (i <? 13)%nat then Some (Marker (N.of_nat i - 9))
      else Some (Large (i - 13))
  end.

Fixpoint signs_of (abc : list N) (cs : list N) : option (list sign) :=
  match cs with
  | [] => Some []
  | x :: rest =>
      match sign_of abc x, signs_of abc rest with
      | Some s, Some l => Some (s :: l)
      | _, _ => None
      end
  end.

Definition chinese_read (abc : list N) (sc : scaling) (cs : list N) : option N :=
  match signs_of abc cs with
  | Some l => Some (read_large sc 11 l)
  | None => None
  end.

(** ** Zeros *)

(** [zero] is not first, not last, and not twice in a row. *)
Definition sparing (zero : N) (cs : list N) : Prop :=
  (forall rest, cs <> zero :: rest) /\ (forall front, cs <> front ++ [zero]) /\
  (forall a b, cs <> a ++ zero :: zero :: b).

(** ** Substitution *)

Definition substitute (abc abc' : list N) (x : N) : N :=
  match position x abc with
  | Some i => nth i abc' 0
  | None => x
  end.
