(** * SpecUtf8: UTF-8 as the Unicode Standard defines it

    From chapter 3 of the standard, independently of [Utf8.v]: scalar values
    (D76), the distribution of their bits to bytes (table 3-6), and which
    byte sequences are well-formed (table 3-7). *)

From Verif Require Import Base.

(** D76: any code point except high-surrogate and low-surrogate ones. *)
Definition scalar_value (ch : N) : Prop := ch <= 0x10FFFF /\ ~ (0xD800 <= ch <= 0xDFFF).

(** Table 3-6. The letters stand for groups of bits, most significant first:
    xxxxxxx; yyyyy xxxxxx; zzzz yyyyyy xxxxxx; uuu uuzzzz yyyyyy xxxxxx. *)
Inductive encoded : N -> list N -> Prop :=
| one_byte x : x < 2 ^ 7 -> encoded x [x]
| two_bytes y x : 0x80 <= y * 2 ^ 6 + x -> y < 2 ^ 5 -> x < 2 ^ 6 ->
    encoded (y * 2 ^ 6 + x) [0xC0 + y; 0x80 + x]
| three_bytes z y x : 0x800 <= z * 2 ^ 12 + y * 2 ^ 6 + x -> z < 2 ^ 4 -> y < 2 ^ 6 -> x < 2 ^ 6 ->
    encoded (z * 2 ^ 12 + y * 2 ^ 6 + x) [0xE0 + z; 0x80 + y; 0x80 + x]
| four_bytes u z y x : 0x10000 <= u * 2 ^ 18 + z * 2 ^ 12 + y * 2 ^ 6 + x -> u < 2 ^ 3 -> z < 2 ^ 6 -> y < 2 ^ 6 -> x < 2 ^ 6 ->
    encoded (u * 2 ^ 18 + z * 2 ^ 12 + y * 2 ^ 6 + x) [0xF0 + u; 0x80 + z; 0x80 + y; 0x80 + x].

(** Table 3-7, row by row: the ranges of each byte. *)
Definition well_formed_rows : list (list (N * N)) :=
  [[(0x00, 0x7F)];
   [(0xC2, 0xDF); (0x80, 0xBF)];
   [(0xE0, 0xE0); (0xA0, 0xBF); (0x80, 0xBF)];
   [(0xE1, 0xEC); (0x80, 0xBF); (0x80, 0xBF)];
   [(0xED, 0xED); (0x80, 0x9F); (0x80, 0xBF)];
   [(0xEE, 0xEF); (0x80, 0xBF); (0x80, 0xBF)];
   [(0xF0, 0xF0); (0x90, 0xBF); (0x80, 0xBF); (0x80, 0xBF)];
   [(0xF1, 0xF3); (0x80, 0xBF); (0x80, 0xBF); (0x80, 0xBF)];
   [(0xF4, 0xF4); (0x80, 0x8F); (0x80, 0xBF); (0x80, 0xBF)]].

Definition in_row (row : list (N * N)) (bs : list N) : Prop := Forall2 (fun '(lo, hi) b => lo <= b <= hi) row bs.

Inductive well_formed : list N -> Prop :=
| well_formed_end : well_formed []
| well_formed_next row bs rest : In row well_formed_rows -> in_row row bs -> well_formed rest -> well_formed (bs ++ rest).
