(** * SpecAdditive: what additive numerals are (C24-C31)

    Independent of the model: a table lists symbols (as code points) with
    their values, largest first. *)

From Coq Require Import String Sorted.
From Verif Require Import Base Utf8.

Definition table := list (list N * N).

(** The table as the crate stores it: symbols are UTF-8 strings. *)
Definition encode (tbl : table) : list (list N * N) := map (fun '(s, v) => (utf8 s, v)) tbl.

(** Every symbol is text. *)
Definition proper (tbl : table) : Prop := Forall (fun '(s, _) => Forall (fun ch => is_scalar ch = true) s) tbl.

(** Each value is greater than all later ones. *)
Definition strictly_descending {A} (tbl : list (A * N)) : Prop :=
  StronglySorted (fun a b => snd b < snd a) tbl.

(** [k] copies of a piece of text. *)
Definition copies (k : N) (s : list N) : list N := N.iter k (app s) [].

(** How often each symbol is written: the text, its worth, and the rule that
    after a symbol less than its value remains to be written (a symbol worth
    nothing is not used). *)
Fixpoint spell (tbl : table) (counts : list N) : list N :=
  match tbl, counts with
  | (s, _) :: tbl, k :: counts => copies k s ++ spell tbl counts
  | _, _ => []
  end.

Fixpoint worth (tbl : table) (counts : list N) : N :=
  match tbl, counts with
  | (_, v) :: tbl, k :: counts => k * v + worth tbl counts
  | _, _ => 0
  end.

Fixpoint largest_first (tbl : table) (counts : list N) : Prop :=
  match tbl, counts with
  | (_, v) :: tbl, k :: counts =>
      (if v =? 0 then k = 0 else worth tbl counts < v) /\ largest_first tbl counts
  | [], [] => True
  | _, _ => False
  end.

(** Reading a text back: at each point take the first symbol of the table that
    the rest of the text begins with. *)
Fixpoint begins (s text : list N) : bool :=
  match s, text with
  | [], _ => true
  | x :: s, y :: text => (x =? y) && begins s text
  | _ :: _, [] => false
  end.

Fixpoint read_in (fuel : nat) (tbl : table) (text : list N) : option N :=
  match text, fuel with
  | [], _ => Some 0
  | _, O => None
  | _, S fuel =>
      match find (fun '(s, _) => begins s text) tbl with
      | Some (s, v) => option_map (N.add v) (read_in fuel tbl (skipn (length s) text))
      | None => None
      end
  end.

Definition read (tbl : table) (text : list N) : option N := read_in (length text) tbl text.

(** ** Roman numerals *)

(** One decimal place written with the letters for one, five and ten. *)
Definition roman_place (one five ten : list N) (d : N) : list N :=
  nth (N.to_nat d)
    [ []; one; one ++ one; one ++ one ++ one; one ++ five; five;
      five ++ one; five ++ one ++ one; five ++ one ++ one ++ one; one ++ ten ] [].

Definition roman_upper := ("I", "V", "X", "L", "C", "D", "M")%string.
Definition roman_lower := ("i", "v", "x", "l", "c", "d", "m")%string.

Definition classical_roman (letters : string * string * string * string * string * string * string) (n : N) : list N :=
  let '(i, v, x, l, c, d, m) := letters in
  copies (n / 1000) (chars m) ++
  roman_place (chars c) (chars d) (chars m) (n / 100 mod 10) ++
  roman_place (chars x) (chars l) (chars c) (n / 10 mod 10) ++
  roman_place (chars i) (chars v) (chars x) (n mod 10).

(** U+0305 COMBINING OVERLINE after the letter multiplies it by a thousand. *)
Definition over (letter : string) : list N := chars letter ++ [0x305].

(** The thousands are written with plain letters for one ([M]) where the
    pattern adds, and overlined where it subtracts. *)
Definition vinculum_place (one sub five nine : list N) (d : N) : list N :=
  nth (N.to_nat d)
    [ []; one; one ++ one; one ++ one ++ one; sub ++ five; five;
      five ++ one; five ++ one ++ one; five ++ one ++ one ++ one; nine ] [].

Definition vinculum (nine5 nine4 : list N)
    (letters : string * string * string * string * string * string * string) (n : N) : list N :=
  let '(i, v, x, l, c, d, m) := letters in
  copies (n / 1000000) (over m) ++
  vinculum_place (over c) (over c) (over d) nine5 (n / 100000 mod 10) ++
  vinculum_place (over x) (over x) (over l) nine4 (n / 10000 mod 10) ++
  vinculum_place (chars m) (over i) (over v) (over i ++ over x) (n / 1000 mod 10) ++
  classical_roman letters (n mod 1000).

(** The classical pattern for nine: one before ten. *)
Definition classical_vinculum (letters : string * string * string * string * string * string * string) (n : N) : list N :=
  let '(i, v, x, l, c, d, m) := letters in
  vinculum (over c ++ over m) (over x ++ over c) letters n.

(** ** One symbol per decimal place *)

(** [sym p d] is the symbol for the digit [d] at the place [10 ^ p]. *)
Definition decimal_text (sym : N -> N -> list N) (n : N) : list N :=
  flat_map (fun p => let d := n / 10 ^ p mod 10 in if d =? 0 then [] else sym p d) [3; 2; 1; 0].

(** Armenian letters are consecutive code points from 1 to 9, 10 to 90, ... *)
Definition armenian_upper (p d : N) : list N := [0x531 + 9 * p + (d - 1)].
Definition armenian_lower (p d : N) : list N := [0x561 + 9 * p + (d - 1)].

(** Georgian: the Mkhedruli letters in their numeric order. *)
Definition georgian_order : list N :=
  chars "აბგდევზჱთიკლმნჲოპჟრსტჳფქღყშჩცძწჭხჴჯჰჵ".
Definition georgian (p d : N) : list N := [nth (N.to_nat (9 * p + (d - 1))) georgian_order 0].

(** East Asian: the digit, then the marker of the place; informally the digit
    one is not written before a marker. *)
Definition marked (digits markers : list N) (informal : bool) (p d : N) : list N :=
  (if informal && (d =? 1) && negb (p =? 0) then [] else [nth (N.to_nat d) digits 0]) ++
  (if p =? 0 then [] else [nth (N.to_nat p) markers 0]).

Definition japanese_formal := marked (chars "零壱弐参四伍六七八九") (chars " 拾百阡") false.
Definition japanese_informal := marked (chars "〇一二三四五六七八九") (chars " 十百千") true.
Definition korean_hangul_formal := marked (chars "영일이삼사오육칠팔구") (chars " 십백천") false.
Definition korean_hanja_informal := marked (chars "零一二三四五六七八九") (chars " 十百千") true.
Definition korean_hanja_formal := marked (chars "零壹貳參四五六七八九") (chars " 拾百仟") false.

(** ** Symbol tables *)

(** The symbols for [k * p], ..., [2 * p], [p]. *)
Fixpoint block (sym : N -> list N) (p : N) (k : nat) : table :=
  match k with
  | O => []
  | S k' => (sym (N.of_nat k), N.of_nat k * p) :: block sym p k'
  end.

(** The table of a system with one symbol per decimal place. *)
Definition decimal_table (sym : N -> N -> list N) : table :=
  block (sym 3) 1000 9 ++ block (sym 2) 100 9 ++ block (sym 1) 10 9 ++ block (sym 0) 1 9.

Definition armenian_lower_table := decimal_table armenian_lower.
(** As the crate has it: the capital letter for 1 followed by a space. *)
Definition armenian_upper_spaced (p d : N) : list N :=
  armenian_upper p d ++ (if (p =? 0) && (d =? 1) then [0x20] else []).
Definition armenian_upper_table := decimal_table armenian_upper_spaced.
Definition georgian_table := (chars "ჵ", 10000) :: decimal_table georgian.
Definition japanese_formal_table := decimal_table japanese_formal ++ [(chars "零", 0)].
Definition japanese_informal_table := decimal_table japanese_informal ++ [(chars "〇", 0)].
Definition korean_hangul_formal_table := decimal_table korean_hangul_formal ++ [(chars "영", 0)].
Definition korean_hanja_informal_table := decimal_table korean_hanja_informal ++ [(chars "零", 0)].
Definition korean_hanja_formal_table := decimal_table korean_hanja_formal ++ [(chars "零", 0)].

(** The symbols for nine, five, four and one at one decimal place. *)
Definition roman_block (p : N) (one sub five nine : list N) : table :=
  [(nine, 9 * p); (five, 5 * p); (sub ++ five, 4 * p); (one, 1 * p)].

Definition roman_table (nine5 nine4 : list N)
    (letters : string * string * string * string * string * string * string) (zero : list N) : table :=
  let '(i, v, x, l, c, d, m) := letters in
  (over m, 1000000) ::
  roman_block 100000 (over c) (over c) (over d) nine5 ++
  roman_block 10000 (over x) (over x) (over l) nine4 ++
  roman_block 1000 (chars m) (over i) (over v) (over i ++ over x) ++
  roman_block 100 (chars c) (chars c) (chars d) (chars c ++ chars m) ++
  roman_block 10 (chars x) (chars x) (chars l) (chars x ++ chars c) ++
  roman_block 1 (chars i) (chars i) (chars v) (chars i ++ chars x) ++ [(zero, 0)].

(** As the crate has it: 900000 and 90000 are D and L before M and C. *)
Definition roman_upper_table := roman_table (over "D" ++ over "M") (over "L" ++ over "C") roman_upper (chars "N").
Definition roman_lower_table := roman_table (over "d" ++ over "m") (over "l" ++ over "c") roman_lower (chars "n").
