(** The counter styles of "CSS Counter Styles Level 3" (W3C), from which the
    crate's CHANGELOG says systems were taken (CHANGELOG.md:84-112, and
    :35-38 on falling back). Independent of the model: the algorithms are
    those of section 3.1 of that document, read as loops over the value and
    the text so far; the styles those of its section 6. Only what concerns
    numbers from zero up: no negative sign, padding, prefix or suffix. *)
From Coq Require Import String.
From Verif Require Import Base Utf8 Spec.

(** ** Algorithms *)

Inductive algorithm :=
| Numeric (symbols : list N)
| Alphabetic (symbols : list N)
| Fixed (symbols : list N)
| Additive (tuples : list (N * list N)).

(** "While value is not equal to 0: prepend symbol(value mod length) to S; set
    value to floor(value / length)." *)
Inductive numeric_loop (symbols : list N) : N -> list N -> list N -> Prop :=
| numeric_done s : numeric_loop symbols 0 s s
| numeric_more value s symbol result :
    value <> 0 ->
    nth_error symbols (N.to_nat (value mod N.of_nat (length symbols))) = Some symbol ->
    numeric_loop symbols (value / N.of_nat (length symbols)) (symbol :: s) result ->
    numeric_loop symbols value s result.

(** "While value is not equal to 0: set value to value - 1; prepend
    symbol(value mod length) to S; set value to floor(value / length)." *)
Inductive alphabetic_loop (symbols : list N) : N -> list N -> list N -> Prop :=
| alphabetic_done s : alphabetic_loop symbols 0 s s
| alphabetic_more value s symbol result :
    value <> 0 ->
    nth_error symbols (N.to_nat ((value - 1) mod N.of_nat (length symbols))) = Some symbol ->
    alphabetic_loop symbols ((value - 1) / N.of_nat (length symbols)) (symbol :: s) result ->
    alphabetic_loop symbols value s result.

Definition times (k : N) (symbol : list N) : list N := concat (repeat symbol (N.to_nat k)).

(** "For each tuple in symbol list: if the weight is zero or greater than
    value, continue; append the symbol floor(value / weight) times to S and
    decrement value by weight times that; if value is 0, return S." A list
    that ends before gives no representation. *)
Inductive additive_loop : list (N * list N) -> N -> list N -> list N -> Prop :=
| additive_skip weight symbol rest value s result :
    weight = 0 \/ value < weight -> additive_loop rest value s result ->
    additive_loop ((weight, symbol) :: rest) value s result
| additive_return weight symbol rest value s :
    weight <> 0 -> weight <= value -> value - weight * (value / weight) = 0 ->
    additive_loop ((weight, symbol) :: rest) value s (s ++ times (value / weight) symbol)
| additive_more weight symbol rest value s result :
    weight <> 0 -> weight <= value -> value - weight * (value / weight) <> 0 ->
    additive_loop rest (value - weight * (value / weight)) (s ++ times (value / weight) symbol) result ->
    additive_loop ((weight, symbol) :: rest) value s result.

(** The initial representation of a value, where there is one. *)
Inductive initial : algorithm -> N -> list N -> Prop :=
| initial_numeric_zero symbol rest : initial (Numeric (symbol :: rest)) 0 [symbol]
| initial_numeric symbols value text :
    value <> 0 -> numeric_loop symbols value [] text -> initial (Numeric symbols) value text
| initial_alphabetic symbols value text :
    value <> 0 -> alphabetic_loop symbols value [] text -> initial (Alphabetic symbols) value text
| initial_fixed symbols value symbol :
    value <> 0 -> nth_error symbols (N.to_nat (value - 1)) = Some symbol -> initial (Fixed symbols) value [symbol]
| initial_additive_zero tuples text :
    find (fun tuple => fst tuple =? 0) tuples = Some (0, text) -> initial (Additive tuples) 0 text
| initial_additive tuples value text :
    value <> 0 -> additive_loop tuples value [] text -> initial (Additive tuples) value text.

(** ** Styles *)

(** The style every fallback ends at, and others: an algorithm, the first and
    (if any) last value of the range, and the style to fall back to. *)
Inductive style :=
| DecimalStyle
| Style (how : algorithm) (first : N) (last : option N) (fallback : style).

Definition in_range (first : N) (last : option N) (value : N) : Prop :=
  first <= value /\ match last with Some l => value <= l | None => True end.

Inductive represents : style -> N -> list N -> Prop :=
| by_decimal value text : initial (Numeric (ten_from ascii_zero)) value text -> represents DecimalStyle value text
| by_algorithm how first last fallback value text :
    in_range first last value -> initial how value text ->
    represents (Style how first last fallback) value text
| by_fallback how first last fallback value text :
    (~ in_range first last value \/ forall other, ~ initial how value other) ->
    represents fallback value text ->
    represents (Style how first last fallback) value text.

Definition numeric (symbols : list N) : style := Style (Numeric symbols) 0 None DecimalStyle.
Definition alphabetic (symbols : list N) : style := Style (Alphabetic symbols) 1 None DecimalStyle.

Definition cjk_decimal : style := numeric (chars "〇一二三四五六七八九").
Definition cjk_heavenly_stem : style := Style (Fixed (chars "甲乙丙丁戊己庚辛壬癸")) 1 (Some 10) cjk_decimal.
Definition cjk_earthly_branch : style := Style (Fixed (chars "子丑寅卯辰巳午未申酉戌亥")) 1 (Some 12) cjk_decimal.

Definition lower_alpha : style := alphabetic (chars "abcdefghijklmnopqrstuvwxyz").
Definition upper_alpha : style := alphabetic (chars "ABCDEFGHIJKLMNOPQRSTUVWXYZ").
Definition lower_greek : style := alphabetic (chars "αβγδεζηθικλμνξοπρστυφχψω").
(** The style sheets have the obsolete "wi" and "we" in the syllabaries too. *)
Definition css_hiragana : list N :=
  chars "あいうえおかきくけこさしすせそたちつてとなにぬねのはひふへほまみむめもやゆよらりるれろわゐゑをん".
Definition css_katakana : list N :=
  chars "アイウエオカキクケコサシスセソタチツテトナニヌネノハヒフヘホマミムメモヤユヨラリルレロワヰヱヲン".
Definition hiragana : style := alphabetic css_hiragana.
Definition katakana : style := alphabetic css_katakana.
Definition css_hiragana_iroha : style :=
  alphabetic (chars "いろはにほへとちりぬるをわかよたれそつねならむうゐのおくやまけふこえてあさきゆめみしゑひもせす").
Definition css_katakana_iroha : style :=
  alphabetic (chars "イロハニホヘトチリヌルヲワカヨタレソツネナラムウヰノオクヤマケフコエテアサキユメミシヱヒモセス").

(** 9000, 8000, ..., 1000, 900, ..., 1: the weights of most additive styles. *)
Definition weights : list N :=
  flat_map (fun place => map (fun digit => digit * place) [9; 8; 7; 6; 5; 4; 3; 2; 1]) [1000; 100; 10; 1].

Definition tuples (symbols : list (list N)) : list (N * list N) := combine weights symbols.
Definition letters (text : list N) : list (list N) := map (fun letter => [letter]) text.

Definition lower_armenian : style :=
  Style (Additive (tuples (letters (chars "քփւցրտվսռջպչոշնյմճղձհկծխլիժթըէզեդգբա")))) 1 (Some 9999) DecimalStyle.
Definition upper_armenian : style :=
  Style (Additive (tuples (letters (chars "ՔՓՒՑՐՏՎՍՌՋՊՉՈՇՆՅՄՃՂՁՀԿԾԽԼԻԺԹԸԷԶԵԴԳԲԱ")))) 1 (Some 9999) DecimalStyle.
Definition css_georgian : style :=
  Style (Additive ((10000, chars "ჵ") :: tuples (letters (chars "ჰჯჴხჭწძცჩშყღქფჳტსრჟპოჲნმლკითჱზვედგბა"))))
    1 (Some 19999) DecimalStyle.

Definition nine_to_two (digits : list N) : list N := firstn 8 digits.

(** Of the markers and digits: formal styles write "one" before a marker,
    informal ones leave it. *)
Definition east_asian (digits : list N) (thousand hundred ten : N) (formal : bool) (zero : list N) : style :=
  Style (Additive (tuples
      (flat_map (fun marker =>
          map (fun digit => [digit; marker]) (nine_to_two digits) ++
          [if formal then [last digits 0; marker] else [marker]]) [thousand; hundred; ten] ++
       letters digits) ++ [(0, zero)]))
    0 (Some 9999) cjk_decimal.

Definition one_char (text : string) : N := hd 0 (chars text).

Definition css_japanese_informal : style :=
  east_asian (chars "九八七六五四三二一") (one_char "千") (one_char "百") (one_char "十") false (chars "〇").
Definition css_japanese_formal : style :=
  east_asian (chars "九八七六伍四参弐壱") (one_char "阡") (one_char "百") (one_char "拾") true (chars "零").
Definition css_korean_hangul_formal : style :=
  east_asian (chars "구팔칠육오사삼이일") (one_char "천") (one_char "백") (one_char "십") true (chars "영").
Definition css_korean_hanja_informal : style :=
  east_asian (chars "九八七六五四三二一") (one_char "千") (one_char "百") (one_char "十") false (chars "零").
Definition css_korean_hanja_formal : style :=
  east_asian (chars "九八七六五四參貳壹") (one_char "仟") (one_char "百") (one_char "拾") true (chars "零").

Definition roman_tuples (symbols : list string) : list (N * list N) :=
  combine [1000; 900; 500; 400; 100; 90; 50; 40; 10; 9; 5; 4; 1] (map chars symbols).
Definition css_lower_roman : style :=
  Style (Additive (roman_tuples
    ["m"; "cm"; "d"; "cd"; "c"; "xc"; "l"; "xl"; "x"; "ix"; "v"; "iv"; "i"]%string)) 1 (Some 3999) DecimalStyle.
Definition css_upper_roman : style :=
  Style (Additive (roman_tuples
    ["M"; "CM"; "D"; "CD"; "C"; "XC"; "L"; "XL"; "X"; "IX"; "V"; "IV"; "I"]%string)) 1 (Some 3999) DecimalStyle.
