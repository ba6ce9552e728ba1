(** * Spec: what correct results are.

    Definitions used to state the theorems of [Properties*.v]. Nothing here
    refers to the model of the crate; texts are lists of characters (code
    points) or UTF-8 byte strings. *)

From Coq Require Import String.
From Verif Require Import Base Utf8.

(** ** Strings (C01-C11) *)

(** One call on a string: append a character, append a string (given by its
    bytes), prepend a character, or overwrite the text in place through
    [&mut str]. *)
Inductive op :=
| Push (ch : N)
| PushStr (bs : list N)
| PushFront (ch : N)
| Edit (f : list N -> list N).

(** What Rust's type system guarantees about the arguments: [char]s are scalar
    values, [str]s are valid UTF-8, and an edit through [&mut str] leaves valid
    UTF-8 of the same length. *)
Definition valid_op (o : op) : Prop :=
  match o with
  | Push ch | PushFront ch => is_scalar ch = true
  | PushStr bs => valid_utf8 bs = true
  | Edit f => forall bs, valid_utf8 bs = true ->
                valid_utf8 (f bs) = true /\ length (f bs) = length bs
  end.

Definition is_edit (o : op) : bool := match o with Edit _ => true | _ => false end.

(** The text after a call that succeeds. *)
Definition op_text (text : list N) (o : op) : list N :=
  match o with
  | Push ch => text ++ encode_char ch
  | PushStr bs => text ++ bs
  | PushFront ch => encode_char ch ++ text
  | Edit f => f text
  end.

(** The text after a history in which every call succeeds. *)
Definition ops_text (text : list N) (ops : list op) : list N := fold_left op_text ops text.

Definition at_most_62 (text : list N) : bool := (length text <=? 62)%nat.

(** A call on a 62-byte string without a heap: it succeeds, or fails and
    changes nothing. *)
Definition bounded_step (text : list N) (o : op) : list N * bool :=
  if is_edit o || at_most_62 (op_text text o) then (op_text text o, true) else (text, false).

Fixpoint bounded_ops (text : list N) (ops : list op) : list N * list bool :=
  match ops with
  | [] => (text, [])
  | o :: rest =>
      let '(text', ok) := bounded_step text o in
      let '(final, oks) := bounded_ops text' rest in
      (final, ok :: oks)
  end.

(** Lexicographic order of lists of code points, as in a dictionary. *)
Definition before (a b : list N) : Prop :=
  (exists y t, b = a ++ y :: t) \/
  (exists p x y s t, a = p ++ x :: s /\ b = p ++ y :: t /\ x < y).

(** ** Digits (C12-C22) *)

(** Reading a list of digit indices, most significant first: in base [b] with
    digit [i] worth [i], and in bijective base [b] with digit [i] worth
    [i + 1]. *)
Definition positional_value (b : N) (ds : list N) : N := fold_left (fun acc d => acc * b + d) ds 0.
Definition bijective_value (b : N) (ds : list N) : N := fold_left (fun acc d => acc * b + (d + 1)) ds 0.

Definition below (b : N) (ds : list N) : Prop := Forall (fun d => d < b) ds.

(** No superfluous leading zero, and not empty. *)
Definition canonical (ds : list N) : Prop :=
  match ds with
  | [] => False
  | [_] => True
  | d :: _ => d <> 0
  end.

Definition digit_char (digits : list N) (i : N) : N := nth (N.to_nat i) digits 0.

(** [cs] is the positional numeral of [n] with these digit characters. *)
Definition positional_numeral (digits : list N) (n : N) (cs : list N) : Prop :=
  let b := N.of_nat (length digits) in
  exists ds, below b ds /\ canonical ds /\ positional_value b ds = n /\ cs = map (digit_char digits) ds.

(** [cs] is the bijective numeral of [n]. *)
Definition bijective_numeral (digits : list N) (n : N) (cs : list N) : Prop :=
  let b := N.of_nat (length digits) in
  exists ds, below b ds /\ bijective_value b ds = n /\ cs = map (digit_char digits) ds.

(** Shorter, or of the same length and first different at a smaller index. *)
Definition shortlex (a b : list N) : Prop :=
  (length a < length b)%nat \/
  (length a = length b /\
   exists p x y s t, a = p ++ x :: s /\ b = p ++ y :: t /\ x < y).

(** The numeral a collection of digits gives a number, by counting mode. *)
Definition digit_numeral (has_zero zero_based : bool) (digits : list N) (n : N) (cs : list N) : Prop :=
  if has_zero then positional_numeral digits n cs
  else if zero_based then bijective_numeral digits (n + 1) cs
  else n <> 0 /\ bijective_numeral digits n cs.

(** Ten consecutive code points. *)
Definition ten_from (base : N) : list N := map (N.add base) [0; 1; 2; 3; 4; 5; 6; 7; 8; 9].

(** The first digit (zero) of each decimal script in Unicode. *)
Definition ascii_zero := 0x30.
Definition arabic_indic_zero := 0x660.
Definition extended_arabic_indic_zero := 0x6F0.
Definition devanagari_zero := 0x966.
Definition bengali_zero := 0x9E6.
Definition gurmukhi_zero := 0xA66.
Definition gujarati_zero := 0xAE6.
Definition oriya_zero := 0xB66.
Definition tamil_zero := 0xBE6.
Definition telugu_zero := 0xC66.
Definition kannada_zero := 0xCE6.
Definition malayalam_zero := 0xD66.
Definition thai_zero := 0xE50.
Definition lao_zero := 0xED0.
Definition tibetan_zero := 0xF20.
Definition myanmar_zero := 0x1040.
Definition khmer_zero := 0x17E0.
Definition mongolian_zero := 0x1810.

(** Han digits, zero as U+3007. *)
Definition han_digits : list N := chars "〇一二三四五六七八九".

(** Alphabets by code point. Greek has a gap in place of a capital final
    sigma (U+03A2) and the small final sigma (U+03C2). *)
Definition code_range (first : N) (count : nat) : list N := map (fun i => first + N.of_nat i) (seq 0 count).
Definition latin_capitals := code_range 0x41 26.
Definition latin_smalls := code_range 0x61 26.
Definition greek_capitals := code_range 0x391 17 ++ code_range 0x3A3 7.
Definition greek_smalls := code_range 0x3B1 17 ++ code_range 0x3C3 7.

(** Kana in gojuon order, by rows of the table, and in the order of the Iroha
    poem; katakana sit 0x60 above hiragana. *)
Definition hiragana_gojuon : list N :=
  flat_map chars ["あいうえお"; "かきくけこ"; "さしすせそ"; "たちつてと"; "なにぬねの"; "はひふへほ";
                  "まみむめも"; "やゆよ"; "らりるれろ"; "わを"; "ん"]%string.
Definition hiragana_iroha : list N :=
  flat_map chars ["いろはにほへと"; "ちりぬるを"; "わかよたれそ"; "つねならむ"; "うゐのおくやま";
                  "けふこえて"; "あさきゆめみし"; "ゑひもせす"]%string.
Definition katakana_of (hiragana : list N) : list N := map (N.add 0x60) hiragana.

(** The fourteen plain Korean consonants: as compatibility jamo, and as the
    syllable with the vowel "a". A precomposed syllable is
    U+AC00 + 588 * (initial consonant) + 28 * vowel + final. *)
Definition jamo_consonants : list N :=
  [0x3131; 0x3134; 0x3137; 0x3139; 0x3141; 0x3142; 0x3145; 0x3147; 0x3148; 0x314A; 0x314B; 0x314C; 0x314D; 0x314E].
Definition syllables_with_a : list N :=
  map (fun initial => 0xAC00 + 588 * initial) [0; 2; 3; 5; 6; 7; 9; 11; 12; 14; 15; 16; 17; 18].

Definition hex_capitals : list N := chars "0123456789ABCDEF".
Definition hex_smalls : list N := chars "0123456789abcdef".

(** The ten heavenly stems and twelve earthly branches. *)
Definition stems : list N := chars "甲乙丙丁戊己庚辛壬癸".
Definition branches : list N := chars "子丑寅卯辰巳午未申酉戌亥".
