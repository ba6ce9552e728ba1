(** * Tests: the model against the outputs recorded in /repo.

    The tables of src/previews/*.md were written by running the crate
    (examples/previews.rs, integer type [u32]); the other cases are the
    assertions of the crate's own tests and doc tests. Everything is evaluated
    in the kernel. The previews SimplifiedChinese.md, TraditionalChinese.md
    and Urdu.md belong to no type of this version of the crate (Urdu is an
    alias of Persian) and are left out. *)

From Coq Require Import String.
From Verif Require Import Base Utf8 NominalString Digital Additive Enumerated Ethiopic Hebrew
  Chinese System.

Definition target : config := {| has_alloc := true; overflow_checks := true; usize_bits := 64; loop_depth := 130 |}.
Definition embedded : config := {| has_alloc := false; overflow_checks := false; usize_bits := 16; loop_depth := 130 |}.

(** [expect r s]: the formatter returned [Ok] and the string reads [s]. *)
Definition expect (r : outcome (result nominal_string error)) (s : string) : bool :=
  match r with
  | Ret (Ok str) => match eq_str str (bytes s) with Ret b => b | _ => false end
  | _ => false
  end.

Definition expect_all (sys : N -> outcome (result nominal_string error)) (l : list (N * string)) : bool :=
  forallb (fun p => expect (sys (fst p)) (snd p)) l.

(** The string reads [s]. *)
Definition reads (r : outcome nominal_string) (s : string) : bool :=
  match r with
  | Ret str => match eq_str str (bytes s) with Ret b => b | _ => false end
  | _ => false
  end.

Definition expect_err (r : outcome (result nominal_string error)) (e : error) : bool :=
  match r, e with
  | Ret (Err NoZeroSymbol), NoZeroSymbol => true
  | Ret (Err (OutOfMemory a)), OutOfMemory b => a =? b
  | Ret (Err (OutOfBounds a)), OutOfBounds b => a =? b
  | _, _ => false
  end.

(** src/previews/ArmenianLower.md *)
Example preview_ArmenianLower : expect_all (ArmenianLower target U32) [
  (1, "ա"%string);
  (2, "բ"%string);
  (3, "գ"%string);
  (9, "թ"%string);
  (10, "ժ"%string);
  (11, "ժա"%string);
  (12, "ժբ"%string);
  (99, "ղթ"%string);
  (100, "ճ"%string);
  (101, "ճա"%string)
] = true.
Proof. vm_compute. reflexivity. Qed.

(** src/previews/ArmenianUpper.md *) (* the table pads cells with spaces; the letter for 1 has one of its own *)
Example preview_ArmenianUpper : expect_all (ArmenianUpper target U32) [
  (1, "Ա "%string);
  (2, "Բ"%string);
  (3, "Գ"%string);
  (9, "Թ"%string);
  (10, "Ժ"%string);
  (11, "ԺԱ "%string);
  (12, "ԺԲ"%string);
  (99, "ՂԹ"%string);
  (100, "Ճ"%string);
  (101, "ՃԱ "%string)
] = true.
Proof. vm_compute. reflexivity. Qed.

(** src/previews/Bengali.md *)
Example preview_Bengali : expect_all (try_format_digits target U32 Bengali) [
  (0, "০"%string);
  (1, "১"%string);
  (2, "২"%string);
  (3, "৩"%string);
  (4, "৪"%string);
  (9, "৯"%string);
  (10, "১০"%string);
  (11, "১১"%string);
  (12, "১২"%string);
  (99, "৯৯"%string);
  (100, "১০০"%string);
  (101, "১০১"%string);
  (102, "১০২"%string)
] = true.
Proof. vm_compute. reflexivity. Qed.

(** src/previews/Cambodian.md *)
Example preview_Cambodian : expect_all (try_format_digits target U32 Cambodian) [
  (0, "០"%string);
  (1, "១"%string);
  (2, "២"%string);
  (3, "៣"%string);
  (4, "៤"%string);
  (9, "៩"%string);
  (10, "១០"%string);
  (11, "១១"%string);
  (12, "១២"%string);
  (99, "៩៩"%string);
  (100, "១០០"%string);
  (101, "១០១"%string);
  (102, "១០២"%string)
] = true.
Proof. vm_compute. reflexivity. Qed.

(** src/previews/CircledNumber.md *)
Example preview_CircledNumber : expect_all (CircledNumber target U32) [
  (0, "⓪"%string);
  (1, "①"%string);
  (2, "②"%string);
  (3, "③"%string);
  (4, "④"%string);
  (9, "⑨"%string);
  (10, "⑩"%string);
  (11, "⑪"%string);
  (12, "⑫"%string);
  (48, "㊽"%string);
  (49, "㊾"%string);
  (50, "㊿"%string)
] = true.
Proof. vm_compute. reflexivity. Qed.

(** src/previews/CjkDecimal.md *)
Example preview_CjkDecimal : expect_all (try_format_digits target U32 CjkDecimal) [
  (0, "〇"%string);
  (1, "一"%string);
  (2, "二"%string);
  (3, "三"%string);
  (4, "四"%string);
  (9, "九"%string);
  (10, "一〇"%string);
  (11, "一一"%string);
  (12, "一二"%string);
  (99, "九九"%string);
  (100, "一〇〇"%string);
  (101, "一〇一"%string);
  (102, "一〇二"%string)
] = true.
Proof. vm_compute. reflexivity. Qed.

(** src/previews/CjkEarthlyBranch.md *)
Example preview_CjkEarthlyBranch : expect_all (try_format_digits target U32 CjkEarthlyBranch) [
  (1, "子"%string);
  (2, "丑"%string);
  (3, "寅"%string);
  (4, "卯"%string);
  (5, "辰"%string);
  (12, "亥"%string);
  (13, "一三"%string);
  (14, "一四"%string);
  (15, "一五"%string);
  (144, "一四四"%string);
  (145, "一四五"%string);
  (146, "一四六"%string);
  (147, "一四七"%string)
] = true.
Proof. vm_compute. reflexivity. Qed.

(** src/previews/CjkHeavenlyStem.md *)
Example preview_CjkHeavenlyStem : expect_all (try_format_digits target U32 CjkHeavenlyStem) [
  (1, "甲"%string);
  (2, "乙"%string);
  (3, "丙"%string);
  (4, "丁"%string);
  (5, "戊"%string);
  (10, "癸"%string);
  (11, "一一"%string);
  (12, "一二"%string);
  (13, "一三"%string);
  (100, "一〇〇"%string);
  (101, "一〇一"%string);
  (102, "一〇二"%string);
  (103, "一〇三"%string)
] = true.
Proof. vm_compute. reflexivity. Qed.

(** src/previews/Decimal.md *)
Example preview_Decimal : expect_all (try_format_digits target U32 Decimal) [
  (0, "0"%string);
  (1, "1"%string);
  (2, "2"%string);
  (3, "3"%string);
  (4, "4"%string);
  (9, "9"%string);
  (10, "10"%string);
  (11, "11"%string);
  (12, "12"%string);
  (99, "99"%string);
  (100, "100"%string);
  (101, "101"%string);
  (102, "102"%string)
] = true.
Proof. vm_compute. reflexivity. Qed.

(** src/previews/Devanagari.md *)
Example preview_Devanagari : expect_all (try_format_digits target U32 Devanagari) [
  (0, "०"%string);
  (1, "१"%string);
  (2, "२"%string);
  (3, "३"%string);
  (4, "४"%string);
  (9, "९"%string);
  (10, "१०"%string);
  (11, "११"%string);
  (12, "१२"%string);
  (99, "९९"%string);
  (100, "१००"%string);
  (101, "१०१"%string);
  (102, "१०२"%string)
] = true.
Proof. vm_compute. reflexivity. Qed.

(** src/previews/DoubleCircledNumber.md *)
Example preview_DoubleCircledNumber : expect_all (DoubleCircledNumber target U32) [
  (1, "⓵"%string);
  (2, "⓶"%string);
  (3, "⓷"%string);
  (4, "⓸"%string);
  (5, "⓹"%string);
  (6, "⓺"%string);
  (7, "⓻"%string);
  (8, "⓼"%string);
  (9, "⓽"%string);
  (10, "⓾"%string)
] = true.
Proof. vm_compute. reflexivity. Qed.

(** src/previews/EasternArabic.md *)
Example preview_EasternArabic : expect_all (try_format_digits target U32 EasternArabic) [
  (0, "٠"%string);
  (1, "١"%string);
  (2, "٢"%string);
  (3, "٣"%string);
  (4, "٤"%string);
  (9, "٩"%string);
  (10, "١٠"%string);
  (11, "١١"%string);
  (12, "١٢"%string);
  (99, "٩٩"%string);
  (100, "١٠٠"%string);
  (101, "١٠١"%string);
  (102, "١٠٢"%string)
] = true.
Proof. vm_compute. reflexivity. Qed.

(** src/previews/Ethiopic.md *)
Example preview_Ethiopic : expect_all (Ethiopic target U32) [
  (1, "፩"%string);
  (2, "፪"%string);
  (3, "፫"%string);
  (10, "፲"%string);
  (11, "፲፩"%string);
  (12, "፲፪"%string);
  (99, "፺፱"%string);
  (100, "፻"%string);
  (101, "፻፩"%string);
  (999, "፱፻፺፱"%string);
  (1000, "፲፻"%string);
  (1001, "፲፻፩"%string)
] = true.
Proof. vm_compute. reflexivity. Qed.

(** src/previews/Georgian.md *)
Example preview_Georgian : expect_all (Georgian target U32) [
  (1, "ა"%string);
  (2, "ბ"%string);
  (3, "გ"%string);
  (9, "თ"%string);
  (10, "ი"%string);
  (11, "ია"%string);
  (12, "იბ"%string);
  (99, "ჟთ"%string);
  (100, "რ"%string);
  (101, "რა"%string)
] = true.
Proof. vm_compute. reflexivity. Qed.

(** src/previews/GreekLower.md *)
Example preview_GreekLower : expect_all (try_format_digits target U32 GreekLower) [
  (0, "α"%string);
  (1, "β"%string);
  (2, "γ"%string);
  (3, "δ"%string);
  (4, "ε"%string);
  (23, "ω"%string);
  (24, "αα"%string);
  (25, "αβ"%string);
  (26, "αγ"%string);
  (575, "ψω"%string);
  (576, "ωα"%string);
  (577, "ωβ"%string);
  (578, "ωγ"%string)
] = true.
Proof. vm_compute. reflexivity. Qed.

(** src/previews/GreekUpper.md *)
Example preview_GreekUpper : expect_all (try_format_digits target U32 GreekUpper) [
  (0, "Α"%string);
  (1, "Β"%string);
  (2, "Γ"%string);
  (3, "Δ"%string);
  (4, "Ε"%string);
  (23, "Ω"%string);
  (24, "ΑΑ"%string);
  (25, "ΑΒ"%string);
  (26, "ΑΓ"%string);
  (575, "ΨΩ"%string);
  (576, "ΩΑ"%string);
  (577, "ΩΒ"%string);
  (578, "ΩΓ"%string)
] = true.
Proof. vm_compute. reflexivity. Qed.

(** src/previews/Gujarati.md *)
Example preview_Gujarati : expect_all (try_format_digits target U32 Gujarati) [
  (0, "૦"%string);
  (1, "૧"%string);
  (2, "૨"%string);
  (3, "૩"%string);
  (4, "૪"%string);
  (9, "૯"%string);
  (10, "૧૦"%string);
  (11, "૧૧"%string);
  (12, "૧૨"%string);
  (99, "૯૯"%string);
  (100, "૧૦૦"%string);
  (101, "૧૦૧"%string);
  (102, "૧૦૨"%string)
] = true.
Proof. vm_compute. reflexivity. Qed.

(** src/previews/Gurmukhi.md *)
Example preview_Gurmukhi : expect_all (try_format_digits target U32 Gurmukhi) [
  (0, "੦"%string);
  (1, "੧"%string);
  (2, "੨"%string);
  (3, "੩"%string);
  (4, "੪"%string);
  (9, "੯"%string);
  (10, "੧੦"%string);
  (11, "੧੧"%string);
  (12, "੧੨"%string);
  (99, "੯੯"%string);
  (100, "੧੦੦"%string);
  (101, "੧੦੧"%string);
  (102, "੧੦੨"%string)
] = true.
Proof. vm_compute. reflexivity. Qed.

(** src/previews/HangeulFormal.md *)
Example preview_HangeulFormal : expect_all (HangeulFormal target U32) [
  (0, "영"%string);
  (1, "일"%string);
  (2, "이"%string);
  (9, "구"%string);
  (10, "일십"%string);
  (11, "일십일"%string);
  (19, "일십구"%string);
  (20, "이십"%string);
  (21, "이십일"%string);
  (99, "구십구"%string);
  (100, "일백"%string);
  (101, "일백일"%string)
] = true.
Proof. vm_compute. reflexivity. Qed.

(** src/previews/HangeulJamo.md *)
Example preview_HangeulJamo : expect_all (try_format_digits target U32 HangeulJamo) [
  (0, "ㄱ"%string);
  (1, "ㄴ"%string);
  (2, "ㄷ"%string);
  (3, "ㄹ"%string);
  (4, "ㅁ"%string);
  (13, "ㅎ"%string);
  (14, "ㄱㄱ"%string);
  (15, "ㄱㄴ"%string);
  (16, "ㄱㄷ"%string);
  (195, "ㅍㅎ"%string);
  (196, "ㅎㄱ"%string);
  (197, "ㅎㄴ"%string);
  (198, "ㅎㄷ"%string)
] = true.
Proof. vm_compute. reflexivity. Qed.

(** src/previews/HangeulSyllable.md *)
Example preview_HangeulSyllable : expect_all (try_format_digits target U32 HangeulSyllable) [
  (0, "가"%string);
  (1, "나"%string);
  (2, "다"%string);
  (3, "라"%string);
  (4, "마"%string);
  (13, "하"%string);
  (14, "가가"%string);
  (15, "가나"%string);
  (16, "가다"%string);
  (195, "파하"%string);
  (196, "하가"%string);
  (197, "하나"%string);
  (198, "하다"%string)
] = true.
Proof. vm_compute. reflexivity. Qed.

(** src/previews/HanjaFormal.md *)
Example preview_HanjaFormal : expect_all (HanjaFormal target U32) [
  (0, "零"%string);
  (1, "壹"%string);
  (2, "貳"%string);
  (9, "九"%string);
  (10, "壹拾"%string);
  (11, "壹拾壹"%string);
  (19, "壹拾九"%string);
  (20, "貳拾"%string);
  (21, "貳拾壹"%string);
  (99, "九拾九"%string);
  (100, "壹百"%string);
  (101, "壹百壹"%string)
] = true.
Proof. vm_compute. reflexivity. Qed.

(** src/previews/HanjaInformal.md *)
Example preview_HanjaInformal : expect_all (HanjaInformal target U32) [
  (0, "零"%string);
  (1, "一"%string);
  (2, "二"%string);
  (9, "九"%string);
  (10, "十"%string);
  (11, "十一"%string);
  (19, "十九"%string);
  (20, "二十"%string);
  (21, "二十一"%string);
  (99, "九十九"%string);
  (100, "百"%string);
  (101, "百一"%string)
] = true.
Proof. vm_compute. reflexivity. Qed.

(** src/previews/Hebrew.md *)
Example preview_Hebrew : expect_all (Hebrew target U32) [
  (1, "׳א״"%string);
  (2, "׳ב״"%string);
  (3, "׳ג״"%string);
  (9, "׳ט״"%string);
  (10, "׳י״"%string);
  (13, "יג"%string);
  (14, "יד"%string);
  (15, "ט״ו"%string);
  (16, "ט״ז"%string);
  (17, "יז"%string);
  (396, "שצו"%string);
  (397, "שצז"%string);
  (398, "שצח"%string);
  (399, "שצט"%string);
  (400, "׳ת״"%string)
] = true.
Proof. vm_compute. reflexivity. Qed.

(** src/previews/HexLower.md *)
Example preview_HexLower : expect_all (try_format_digits target U32 (HexLower target)) [
  (0, "0"%string);
  (1, "1"%string);
  (2, "2"%string);
  (3, "3"%string);
  (4, "4"%string);
  (15, "f"%string);
  (16, "10"%string);
  (17, "11"%string);
  (18, "12"%string);
  (255, "ff"%string);
  (256, "100"%string);
  (257, "101"%string);
  (258, "102"%string)
] = true.
Proof. vm_compute. reflexivity. Qed.

(** src/previews/HexUpper.md *)
Example preview_HexUpper : expect_all (try_format_digits target U32 (HexUpper target)) [
  (0, "0"%string);
  (1, "1"%string);
  (2, "2"%string);
  (3, "3"%string);
  (4, "4"%string);
  (15, "F"%string);
  (16, "10"%string);
  (17, "11"%string);
  (18, "12"%string);
  (255, "FF"%string);
  (256, "100"%string);
  (257, "101"%string);
  (258, "102"%string)
] = true.
Proof. vm_compute. reflexivity. Qed.

(** src/previews/Hiragana.md *)
Example preview_Hiragana : expect_all (try_format_digits target U32 Hiragana) [
  (0, "あ"%string);
  (1, "い"%string);
  (2, "う"%string);
  (3, "え"%string);
  (4, "お"%string);
  (45, "ん"%string);
  (46, "ああ"%string);
  (47, "あい"%string);
  (48, "あう"%string);
  (2115, "をん"%string);
  (2116, "んあ"%string);
  (2117, "んい"%string);
  (2118, "んう"%string)
] = true.
Proof. vm_compute. reflexivity. Qed.

(** src/previews/HiraganaIroha.md *)
Example preview_HiraganaIroha : expect_all (try_format_digits target U32 HiraganaIroha) [
  (0, "い"%string);
  (1, "ろ"%string);
  (2, "は"%string);
  (3, "に"%string);
  (4, "ほ"%string);
  (46, "す"%string);
  (47, "いい"%string);
  (48, "いろ"%string);
  (49, "いは"%string);
  (2208, "せす"%string);
  (2209, "すい"%string);
  (2210, "すろ"%string);
  (2211, "すは"%string)
] = true.
Proof. vm_compute. reflexivity. Qed.

(** src/previews/JapaneseFormal.md *)
Example preview_JapaneseFormal : expect_all (JapaneseFormal target U32) [
  (0, "零"%string);
  (1, "壱"%string);
  (2, "弐"%string);
  (9, "九"%string);
  (10, "壱拾"%string);
  (11, "壱拾壱"%string);
  (19, "壱拾九"%string);
  (20, "弐拾"%string);
  (21, "弐拾壱"%string);
  (99, "九拾九"%string);
  (100, "壱百"%string);
  (101, "壱百壱"%string)
] = true.
Proof. vm_compute. reflexivity. Qed.

(** src/previews/JapaneseInformal.md *)
Example preview_JapaneseInformal : expect_all (JapaneseInformal target U32) [
  (0, "〇"%string);
  (1, "一"%string);
  (2, "二"%string);
  (9, "九"%string);
  (10, "十"%string);
  (11, "十一"%string);
  (19, "十九"%string);
  (20, "二十"%string);
  (21, "二十一"%string);
  (99, "九十九"%string);
  (100, "百"%string);
  (101, "百一"%string)
] = true.
Proof. vm_compute. reflexivity. Qed.

(** src/previews/Kannada.md *)
Example preview_Kannada : expect_all (try_format_digits target U32 Kannada) [
  (0, "೦"%string);
  (1, "೧"%string);
  (2, "೨"%string);
  (3, "೩"%string);
  (4, "೪"%string);
  (9, "೯"%string);
  (10, "೧೦"%string);
  (11, "೧೧"%string);
  (12, "೧೨"%string);
  (99, "೯೯"%string);
  (100, "೧೦೦"%string);
  (101, "೧೦೧"%string);
  (102, "೧೦೨"%string)
] = true.
Proof. vm_compute. reflexivity. Qed.

(** src/previews/Katakana.md *)
Example preview_Katakana : expect_all (try_format_digits target U32 Katakana) [
  (0, "ア"%string);
  (1, "イ"%string);
  (2, "ウ"%string);
  (3, "エ"%string);
  (4, "オ"%string);
  (45, "ン"%string);
  (46, "アア"%string);
  (47, "アイ"%string);
  (48, "アウ"%string);
  (2115, "ヲン"%string);
  (2116, "ンア"%string);
  (2117, "ンイ"%string);
  (2118, "ンウ"%string)
] = true.
Proof. vm_compute. reflexivity. Qed.

(** src/previews/KatakanaIroha.md *)
Example preview_KatakanaIroha : expect_all (try_format_digits target U32 KatakanaIroha) [
  (0, "イ"%string);
  (1, "ロ"%string);
  (2, "ハ"%string);
  (3, "ニ"%string);
  (4, "ホ"%string);
  (46, "ス"%string);
  (47, "イイ"%string);
  (48, "イロ"%string);
  (49, "イハ"%string);
  (2208, "セス"%string);
  (2209, "スイ"%string);
  (2210, "スロ"%string);
  (2211, "スハ"%string)
] = true.
Proof. vm_compute. reflexivity. Qed.

(** src/previews/Lao.md *)
Example preview_Lao : expect_all (try_format_digits target U32 Lao) [
  (0, "໐"%string);
  (1, "໑"%string);
  (2, "໒"%string);
  (3, "໓"%string);
  (4, "໔"%string);
  (9, "໙"%string);
  (10, "໑໐"%string);
  (11, "໑໑"%string);
  (12, "໑໒"%string);
  (99, "໙໙"%string);
  (100, "໑໐໐"%string);
  (101, "໑໐໑"%string);
  (102, "໑໐໒"%string)
] = true.
Proof. vm_compute. reflexivity. Qed.

(** src/previews/LetterLower.md *)
Example preview_LetterLower : expect_all (try_format_digits target U32 LetterLower) [
  (0, "a"%string);
  (1, "b"%string);
  (2, "c"%string);
  (3, "d"%string);
  (4, "e"%string);
  (25, "z"%string);
  (26, "aa"%string);
  (27, "ab"%string);
  (28, "ac"%string);
  (675, "yz"%string);
  (676, "za"%string);
  (677, "zb"%string);
  (678, "zc"%string)
] = true.
Proof. vm_compute. reflexivity. Qed.

(** src/previews/LetterUpper.md *)
Example preview_LetterUpper : expect_all (try_format_digits target U32 LetterUpper) [
  (0, "A"%string);
  (1, "B"%string);
  (2, "C"%string);
  (3, "D"%string);
  (4, "E"%string);
  (25, "Z"%string);
  (26, "AA"%string);
  (27, "AB"%string);
  (28, "AC"%string);
  (675, "YZ"%string);
  (676, "ZA"%string);
  (677, "ZB"%string);
  (678, "ZC"%string)
] = true.
Proof. vm_compute. reflexivity. Qed.

(** src/previews/Malayalam.md *)
Example preview_Malayalam : expect_all (try_format_digits target U32 Malayalam) [
  (0, "൦"%string);
  (1, "൧"%string);
  (2, "൨"%string);
  (3, "൩"%string);
  (4, "൪"%string);
  (9, "൯"%string);
  (10, "൧൦"%string);
  (11, "൧൧"%string);
  (12, "൧൨"%string);
  (99, "൯൯"%string);
  (100, "൧൦൦"%string);
  (101, "൧൦൧"%string);
  (102, "൧൦൨"%string)
] = true.
Proof. vm_compute. reflexivity. Qed.

(** src/previews/Mongolian.md *)
Example preview_Mongolian : expect_all (try_format_digits target U32 Mongolian) [
  (0, "᠐"%string);
  (1, "᠑"%string);
  (2, "᠒"%string);
  (3, "᠓"%string);
  (4, "᠔"%string);
  (9, "᠙"%string);
  (10, "᠑᠐"%string);
  (11, "᠑᠑"%string);
  (12, "᠑᠒"%string);
  (99, "᠙᠙"%string);
  (100, "᠑᠐᠐"%string);
  (101, "᠑᠐᠑"%string);
  (102, "᠑᠐᠒"%string)
] = true.
Proof. vm_compute. reflexivity. Qed.

(** src/previews/Myanmar.md *)
Example preview_Myanmar : expect_all (try_format_digits target U32 Myanmar) [
  (0, "၀"%string);
  (1, "၁"%string);
  (2, "၂"%string);
  (3, "၃"%string);
  (4, "၄"%string);
  (9, "၉"%string);
  (10, "၁၀"%string);
  (11, "၁၁"%string);
  (12, "၁၂"%string);
  (99, "၉၉"%string);
  (100, "၁၀၀"%string);
  (101, "၁၀၁"%string);
  (102, "၁၀၂"%string)
] = true.
Proof. vm_compute. reflexivity. Qed.

(** src/previews/Oriya.md *)
Example preview_Oriya : expect_all (try_format_digits target U32 Oriya) [
  (0, "୦"%string);
  (1, "୧"%string);
  (2, "୨"%string);
  (3, "୩"%string);
  (4, "୪"%string);
  (9, "୯"%string);
  (10, "୧୦"%string);
  (11, "୧୧"%string);
  (12, "୧୨"%string);
  (99, "୯୯"%string);
  (100, "୧୦୦"%string);
  (101, "୧୦୧"%string);
  (102, "୧୦୨"%string)
] = true.
Proof. vm_compute. reflexivity. Qed.

(** src/previews/Persian.md *)
Example preview_Persian : expect_all (try_format_digits target U32 Persian) [
  (0, "۰"%string);
  (1, "۱"%string);
  (2, "۲"%string);
  (3, "۳"%string);
  (4, "۴"%string);
  (9, "۹"%string);
  (10, "۱۰"%string);
  (11, "۱۱"%string);
  (12, "۱۲"%string);
  (99, "۹۹"%string);
  (100, "۱۰۰"%string);
  (101, "۱۰۱"%string);
  (102, "۱۰۲"%string)
] = true.
Proof. vm_compute. reflexivity. Qed.

(** src/previews/RomanLower.md *)
Example preview_RomanLower : expect_all (RomanLower target U32) [
  (1, "i"%string);
  (2, "ii"%string);
  (3, "iii"%string);
  (4, "iv"%string);
  (5, "v"%string);
  (6, "vi"%string);
  (9, "ix"%string);
  (10, "x"%string);
  (11, "xi"%string);
  (3999, "mmmcmxcix"%string);
  (4000, "i̅v̅"%string);
  (4001, "i̅v̅i"%string);
  (999999, "d̅m̅l̅c̅i̅x̅cmxcix"%string);
  (1000000, "m̅"%string);
  (1000001, "m̅i"%string)
] = true.
Proof. vm_compute. reflexivity. Qed.

(** src/previews/RomanUpper.md *)
Example preview_RomanUpper : expect_all (RomanUpper target U32) [
  (1, "I"%string);
  (2, "II"%string);
  (3, "III"%string);
  (4, "IV"%string);
  (5, "V"%string);
  (6, "VI"%string);
  (9, "IX"%string);
  (10, "X"%string);
  (11, "XI"%string);
  (3999, "MMMCMXCIX"%string);
  (4000, "I̅V̅"%string);
  (4001, "I̅V̅I"%string);
  (999999, "D̅M̅L̅C̅I̅X̅CMXCIX"%string);
  (1000000, "M̅"%string);
  (1000001, "M̅I"%string)
] = true.
Proof. vm_compute. reflexivity. Qed.

(** src/previews/SimplifiedChineseFormal.md *)
Example preview_SimplifiedChineseFormal : expect_all (SimplifiedChineseFormal default_options target U32) [
  (0, "零"%string);
  (1, "一"%string);
  (2, "二"%string);
  (9, "九"%string);
  (10, "一十"%string);
  (11, "一十一"%string);
  (19, "一十九"%string);
  (20, "二十"%string);
  (21, "二十一"%string);
  (99, "九十九"%string);
  (100, "一百"%string);
  (101, "一百零一"%string)
] = true.
Proof. vm_compute. reflexivity. Qed.

(** src/previews/SimplifiedChineseInformal.md *)
Example preview_SimplifiedChineseInformal : expect_all (SimplifiedChineseInformal default_options target U32) [
  (0, "零"%string);
  (1, "一"%string);
  (2, "二"%string);
  (9, "九"%string);
  (10, "十"%string);
  (11, "十一"%string);
  (19, "十九"%string);
  (20, "二十"%string);
  (21, "二十一"%string);
  (99, "九十九"%string);
  (100, "一百"%string);
  (101, "一百零一"%string)
] = true.
Proof. vm_compute. reflexivity. Qed.

(** src/previews/Tamil.md *)
Example preview_Tamil : expect_all (try_format_digits target U32 Tamil) [
  (0, "௦"%string);
  (1, "௧"%string);
  (2, "௨"%string);
  (3, "௩"%string);
  (4, "௪"%string);
  (9, "௯"%string);
  (10, "௧௦"%string);
  (11, "௧௧"%string);
  (12, "௧௨"%string);
  (99, "௯௯"%string);
  (100, "௧௦௦"%string);
  (101, "௧௦௧"%string);
  (102, "௧௦௨"%string)
] = true.
Proof. vm_compute. reflexivity. Qed.

(** src/previews/Telugu.md *)
Example preview_Telugu : expect_all (try_format_digits target U32 Telugu) [
  (0, "౦"%string);
  (1, "౧"%string);
  (2, "౨"%string);
  (3, "౩"%string);
  (4, "౪"%string);
  (9, "౯"%string);
  (10, "౧౦"%string);
  (11, "౧౧"%string);
  (12, "౧౨"%string);
  (99, "౯౯"%string);
  (100, "౧౦౦"%string);
  (101, "౧౦౧"%string);
  (102, "౧౦౨"%string)
] = true.
Proof. vm_compute. reflexivity. Qed.

(** src/previews/Thai.md *)
Example preview_Thai : expect_all (try_format_digits target U32 Thai) [
  (0, "๐"%string);
  (1, "๑"%string);
  (2, "๒"%string);
  (3, "๓"%string);
  (4, "๔"%string);
  (9, "๙"%string);
  (10, "๑๐"%string);
  (11, "๑๑"%string);
  (12, "๑๒"%string);
  (99, "๙๙"%string);
  (100, "๑๐๐"%string);
  (101, "๑๐๑"%string);
  (102, "๑๐๒"%string)
] = true.
Proof. vm_compute. reflexivity. Qed.

(** src/previews/Tibetan.md *)
Example preview_Tibetan : expect_all (try_format_digits target U32 Tibetan) [
  (0, "༠"%string);
  (1, "༡"%string);
  (2, "༢"%string);
  (3, "༣"%string);
  (4, "༤"%string);
  (9, "༩"%string);
  (10, "༡༠"%string);
  (11, "༡༡"%string);
  (12, "༡༢"%string);
  (99, "༩༩"%string);
  (100, "༡༠༠"%string);
  (101, "༡༠༡"%string);
  (102, "༡༠༢"%string)
] = true.
Proof. vm_compute. reflexivity. Qed.

(** src/previews/TraditionalChineseFormal.md *)
Example preview_TraditionalChineseFormal : expect_all (TraditionalChineseFormal default_options target U32) [
  (0, "零"%string);
  (1, "一"%string);
  (2, "二"%string);
  (9, "九"%string);
  (10, "一十"%string);
  (11, "一十一"%string);
  (19, "一十九"%string);
  (20, "二十"%string);
  (21, "二十一"%string);
  (99, "九十九"%string);
  (100, "一百"%string);
  (101, "一百零一"%string)
] = true.
Proof. vm_compute. reflexivity. Qed.

(** src/previews/TraditionalChineseInformal.md *)
Example preview_TraditionalChineseInformal : expect_all (TraditionalChineseInformal default_options target U32) [
  (0, "零"%string);
  (1, "一"%string);
  (2, "二"%string);
  (9, "九"%string);
  (10, "十"%string);
  (11, "十一"%string);
  (19, "十九"%string);
  (20, "二十"%string);
  (21, "二十一"%string);
  (99, "九十九"%string);
  (100, "一百"%string);
  (101, "一百零一"%string)
] = true.
Proof. vm_compute. reflexivity. Qed.

(** src/chinese.rs, test [simplified_financial] *)
Example test_simplified_financial : expect_all (SimplifiedChineseInformal (financial default_options) target U128) [
  (10, "拾"%string);
  (12, "拾贰"%string);
  (100, "壹佰"%string);
  (103, "壹佰零叁"%string);
  (1000, "壹仟"%string);
  (1006, "壹仟零陆"%string);
  (1010, "壹仟零壹拾"%string);
  (1011, "壹仟零壹拾壹"%string);
  (1100, "壹仟壹佰"%string);
  (1011, "壹仟零壹拾壹"%string);
  (10000, "壹万"%string);
  (100001, "拾万零壹"%string);
  (100000, "拾万"%string);
  (110001, "拾壹万零壹"%string);
  (100000000, "壹亿"%string);
  (100000001, "壹亿零壹"%string);
  (10000000000000000, "壹京"%string);
  (11111, "壹万壹仟壹佰壹拾壹"%string);
  (1010000000000, "壹兆零壹佰亿"%string);
  (7400000000000, "柒兆肆仟亿"%string);
  (938463463370000000000000000, "玖佰叁拾捌秭肆仟陆佰叁拾肆垓陆仟叁佰叁拾柒京"%string);
  (340282366920938463463374607431768211455, "叁佰肆拾涧贰仟捌佰贰拾叁沟陆仟陆佰玖拾贰穰零玖佰叁拾捌秭肆仟陆佰叁拾肆垓陆仟叁佰叁拾柒京肆仟陆佰零柒兆肆仟叁佰壹拾柒亿陆仟捌佰贰拾壹万壹仟肆佰伍拾伍"%string)
] = true.
Proof. vm_compute. reflexivity. Qed.

(** src/chinese.rs, test [simplified_financial_low] *)
Example test_simplified_financial_low : expect_all (SimplifiedChineseInformal (short_scale (financial default_options)) target U128) [
  (10, "拾"%string);
  (12, "拾贰"%string);
  (100, "壹佰"%string);
  (103, "壹佰零叁"%string);
  (1000, "壹仟"%string);
  (1006, "壹仟零陆"%string);
  (1010, "壹仟零壹拾"%string);
  (1011, "壹仟零壹拾壹"%string);
  (1100, "壹仟壹佰"%string);
  (1011, "壹仟零壹拾壹"%string);
  (10000, "壹万"%string);
  (100001, "壹亿零壹"%string);
  (100000, "壹亿"%string);
  (110001, "壹亿壹万零壹"%string);
  (100000000, "壹垓"%string);
  (100000001, "壹垓零壹"%string);
  (11111, "壹万壹仟壹佰壹拾壹"%string);
  (1010000000000, "壹涧零壹穰"%string);
  (7400000000000, "柒涧肆沟"%string)
] = true.
Proof. vm_compute. reflexivity. Qed.

Example test_simplified_financial_low_errors : forallb (fun n => expect_err (SimplifiedChineseInformal (short_scale (financial default_options)) target U128 n) (OutOfBounds n))
  [10000000000000000; 938463463370000000000000000; 340282366920938463463374607431768211455] = true.
Proof. vm_compute. reflexivity. Qed.

(** src/chinese.rs, test [simplified_financial_high] *)
Example test_simplified_financial_high : expect_all (SimplifiedChineseInformal (long_scale (financial default_options)) target U128) [
  (10, "拾"%string);
  (12, "拾贰"%string);
  (100, "壹佰"%string);
  (103, "壹佰零叁"%string);
  (1000, "壹仟"%string);
  (1006, "壹仟零陆"%string);
  (1010, "壹仟零壹拾"%string);
  (1011, "壹仟零壹拾壹"%string);
  (1100, "壹仟壹佰"%string);
  (1011, "壹仟零壹拾壹"%string);
  (10000, "壹万"%string);
  (100001, "拾万零壹"%string);
  (100000, "拾万"%string);
  (110001, "拾壹万零壹"%string);
  (100000000, "壹亿"%string);
  (100000001, "壹亿零壹"%string);
  (10000000000000000, "壹兆"%string);
  (11111, "壹万壹仟壹佰壹拾壹"%string);
  (1010000000000, "壹万零壹佰亿"%string);
  (7400000000000, "柒万肆仟亿"%string);
  (938463463370000000000000000, "玖佰叁拾捌亿肆仟陆佰叁拾肆万陆仟叁佰叁拾柒兆"%string);
  (340282366920938463463374607431768211455, "叁佰肆拾万贰仟捌佰贰拾叁京陆仟陆佰玖拾贰万零玖佰叁拾捌亿肆仟陆佰叁拾肆万陆仟叁佰叁拾柒兆肆仟陆佰零柒万肆仟叁佰壹拾柒亿陆仟捌佰贰拾壹万壹仟肆佰伍拾伍"%string)
] = true.
Proof. vm_compute. reflexivity. Qed.

(** src/chinese.rs, test [simplified_financial_mid] *)
Example test_simplified_financial_mid : expect_all (SimplifiedChineseInformal (mid_scale (financial default_options)) target U128) [
  (10, "拾"%string);
  (12, "拾贰"%string);
  (100, "壹佰"%string);
  (103, "壹佰零叁"%string);
  (1000, "壹仟"%string);
  (1006, "壹仟零陆"%string);
  (1010, "壹仟零壹拾"%string);
  (1011, "壹仟零壹拾壹"%string);
  (1100, "壹仟壹佰"%string);
  (1011, "壹仟零壹拾壹"%string);
  (10000, "壹万"%string);
  (100001, "拾万零壹"%string);
  (100000, "拾万"%string);
  (110001, "拾壹万零壹"%string);
  (100000000, "壹亿"%string);
  (100000001, "壹亿零壹"%string);
  (10000000000000000, "壹兆"%string);
  (11111, "壹万壹仟壹佰壹拾壹"%string);
  (1010000000000, "壹万零壹佰亿"%string);
  (7400000000000, "柒万肆仟亿"%string);
  (938463463370000000000000000, "玖佰叁拾捌京肆仟陆佰叁拾肆万陆仟叁佰叁拾柒兆"%string);
  (340282366920938463463374607431768211455, "叁佰肆拾万贰仟捌佰贰拾叁垓陆仟陆佰玖拾贰万零玖佰叁拾捌京肆仟陆佰叁拾肆万陆仟叁佰叁拾柒兆肆仟陆佰零柒万肆仟叁佰壹拾柒亿陆仟捌佰贰拾壹万壹仟肆佰伍拾伍"%string)
] = true.
Proof. vm_compute. reflexivity. Qed.

(** src/chinese.rs, test [simplified] *)
Example test_simplified : expect_all (SimplifiedChineseInformal default_options target U128) [
  (10, "十"%string);
  (12, "十二"%string);
  (100, "一百"%string);
  (103, "一百零三"%string);
  (1000, "一千"%string);
  (1006, "一千零六"%string);
  (1010, "一千零一十"%string);
  (1011, "一千零一十一"%string);
  (1100, "一千一百"%string);
  (1011, "一千零一十一"%string);
  (10000, "一万"%string);
  (100001, "十万零一"%string);
  (100000, "十万"%string);
  (110001, "十一万零一"%string);
  (100000000, "一亿"%string);
  (100000001, "一亿零一"%string);
  (10000000000000000, "一京"%string);
  (11111, "一万一千一百一十一"%string);
  (1010000000000, "一兆零一百亿"%string);
  (7400000000000, "七兆四千亿"%string);
  (938463463370000000000000000, "九百三十八秭四千六百三十四垓六千三百三十七京"%string);
  (340282366920938463463374607431768211455, "三百四十涧二千八百二十三沟六千六百九十二穰零九百三十八秭四千六百三十四垓六千三百三十七京四千六百零七兆四千三百一十七亿六千八百二十一万一千四百五十五"%string)
] = true.
Proof. vm_compute. reflexivity. Qed.

(** src/chinese.rs, test [traditional] *)
Example test_traditional : expect_all (TraditionalChineseInformal default_options target U128) [
  (10, "十"%string);
  (12, "十二"%string);
  (100, "一百"%string);
  (103, "一百零三"%string);
  (1000, "一千"%string);
  (1006, "一千零六"%string);
  (1010, "一千零一十"%string);
  (1011, "一千零一十一"%string);
  (1100, "一千一百"%string);
  (1011, "一千零一十一"%string);
  (10000, "一萬"%string);
  (100001, "十萬零一"%string);
  (100000, "十萬"%string);
  (110001, "十一萬零一"%string);
  (100000000, "一億"%string);
  (100000001, "一億零一"%string);
  (10000000000000000, "一京"%string);
  (11111, "一萬一千一百一十一"%string);
  (1010000000000, "一兆零一百億"%string);
  (7400000000000, "七兆四千億"%string);
  (938463463370000000000000000, "九百三十八秭四千六百三十四垓六千三百三十七京"%string);
  (340282366920938463463374607431768211455, "三百四十澗二千八百二十三溝六千六百九十二穰零九百三十八秭四千六百三十四垓六千三百三十七京四千六百零七兆四千三百一十七億六千八百二十一萬一千四百五十五"%string)
] = true.
Proof. vm_compute. reflexivity. Qed.

(** src/chinese.rs, test [traditional_financial] *)
Example test_traditional_financial : expect_all (TraditionalChineseInformal (financial default_options) target U128) [
  (10, "拾"%string);
  (12, "拾貳"%string);
  (100, "壹佰"%string);
  (103, "壹佰零參"%string);
  (1000, "壹仟"%string);
  (1006, "壹仟零陸"%string);
  (1010, "壹仟零壹拾"%string);
  (1011, "壹仟零壹拾壹"%string);
  (1100, "壹仟壹佰"%string);
  (1011, "壹仟零壹拾壹"%string);
  (10000, "壹萬"%string);
  (100001, "拾萬零壹"%string);
  (100000, "拾萬"%string);
  (110001, "拾壹萬零壹"%string);
  (100000000, "壹億"%string);
  (100000001, "壹億零壹"%string);
  (10000000000000000, "壹京"%string);
  (11111, "壹萬壹仟壹佰壹拾壹"%string);
  (1010000000000, "壹兆零壹佰億"%string);
  (7400000000000, "柒兆肆仟億"%string);
  (938463463370000000000000000, "玖佰參拾捌秭肆仟陸佰參拾肆垓陸仟參佰參拾柒京"%string);
  (340282366920938463463374607431768211455, "參佰肆拾澗貳仟捌佰貳拾參溝陸仟陸佰玖拾貳穰零玖佰參拾捌秭肆仟陸佰參拾肆垓陸仟參佰參拾柒京肆仟陸佰零柒兆肆仟參佰壹拾柒億陸仟捌佰貳拾壹萬壹仟肆佰伍拾伍"%string)
] = true.
Proof. vm_compute. reflexivity. Qed.

(** src/additive.rs:176-189 and :76-78 *)
Example test_roman :
  expect_all (RomanUpper target U32)
    [(0, "N"); (1, "I"); (2, "II"); (3, "III"); (4, "IV"); (5, "V"); (4000, "I̅V̅"); (4001, "I̅V̅I"); (2000000, "M̅M̅")]%string
  && expect_all (RomanLower target U32)
    [(0, "n"); (1, "i"); (2, "ii"); (3, "iii"); (4, "iv"); (5, "v"); (4000, "i̅v̅"); (4001, "i̅v̅i"); (2000000, "m̅m̅")]%string = true.
Proof. vm_compute. reflexivity. Qed.

(** src/additive.rs:193-198 *)
Example test_roman_long :
  expect (RomanLower target U32 63000000) "m̅m̅m̅m̅m̅m̅m̅m̅m̅m̅m̅m̅m̅m̅m̅m̅m̅m̅m̅m̅m̅m̅m̅m̅m̅m̅m̅m̅m̅m̅m̅m̅m̅m̅m̅m̅m̅m̅m̅m̅m̅m̅m̅m̅m̅m̅m̅m̅m̅m̅m̅m̅m̅m̅m̅m̅m̅m̅m̅m̅m̅m̅m̅" = true.
Proof. vm_compute. reflexivity. Qed.

(** src/ethiopic.rs:79-85 *)
Example test_ethiopic :
  expect_all (Ethiopic target U64)
    [(1, "፩"); (100, "፻"); (101, "፻፩"); (78010092, "፸፰፻፩፼፺፪"); (780100000092, "፸፰፻፩፼፼፺፪")]%string = true.
Proof. vm_compute. reflexivity. Qed.

(** src/hebrew.rs:79-85 *)
Example test_hebrew :
  expect_all (Hebrew target U32) [(997, "תתקצז"); (1, "׳א״"); (15, "ט״ו"); (16, "ט״ז")]%string
  && expect_err (Hebrew target U32 0) NoZeroSymbol = true.
Proof. vm_compute. reflexivity. Qed.

(** src/digital.rs:519-522 *)
Example test_hex :
  expect (try_format_digits target U32 (HexUpper target) 15) "F"
  && expect (try_format_digits target U32 (HexLower target) 0xfeedd0d0) "feedd0d0" = true.
Proof. vm_compute. reflexivity. Qed.

(** src/digital.rs:688-703 *)
Example test_basic_digits :
  expect_all (try_format_digits target U8 Decimal) [(0, "0"); (1, "1"); (12, "12")]%string
  && expect_all (try_format_digits target U8 LetterLower) [(0, "a")]%string
  && expect_all (try_format_digits target U8 LetterUpper) [(26, "AA")]%string
  && expect_err (try_format_digits target U8 (one_based LetterLower) 0) NoZeroSymbol
  && expect_all (try_format_digits target U8 (one_based LetterLower)) [(1, "a")]%string
  && expect_all (try_format_digits target U8 (one_based LetterUpper)) [(26, "Z"); (27, "AA")]%string = true.
Proof. vm_compute. reflexivity. Qed.

(** examples/basics.rs *)
Example test_basics :
  reads (to_nominal 0 (default_system target U32 (try_format_digits target U32 Decimal))) "0"
  && reads (to_nominal 26 (default_system target U32 (try_format_digits target U32 LetterLower))) "aa"
  && reads (to_nominal 27 (default_system target U32 (try_format_digits target U32 (one_based LetterLower)))) "aa"
  && reads (to_nominal 0 (default_system target U32 (try_format_digits target U32 (one_based LetterLower)))) "0" = true.
Proof. vm_compute. reflexivity. Qed.

(** src/lib.rs:88-96 *)
Example test_boxing :
  reads (to_nominal 1 (boxed target U32 (default_system target U32 (RomanUpper target U32)))) "I" = true.
Proof. vm_compute. reflexivity. Qed.

(** src/nominalstring.rs:558-630, tests [forward_ops] and [reverse_ops] *)
Definition push_all (s : nominal_string) : outcome nominal_string :=
  '(s, _) <- try_push target s 97 ;;
  '(s, _) <- try_push_str target s (bytes "bc") ;;
  '(s, _) <- try_push_front target s 95 ;;
  Ret s.

Definition init : list N := repeat 97 62.

Definition moves_out (push : nominal_string -> outcome (nominal_string * result unit out_of_memory))
    (after : list N) : bool :=
  match from_str target init with
  | Ret s =>
      is_inline s &&
      match push s with
      | Ret (s', Ok _) =>
          negb (is_inline s') && match eq_str s' after with Ret b => b | _ => false end
      | _ => false
      end
  | _ => false
  end.

Example test_string_ops :
  reads (push_all new) "_abc" && reads (push_all new_reverse) "_abc"
  && moves_out (fun s => try_push target s 98) (init ++ [98])
  && moves_out (fun s => try_push_str target s [98]) (init ++ [98])
  && moves_out (fun s => try_push_front target s 98) ([98] ++ init) = true.
Proof. vm_compute. reflexivity. Qed.
