(** * PreviewFiles: src/previews/*.md as they are in the repository

    The files examples/previews.rs writes, byte for byte. SimplifiedChinese.md,
    TraditionalChinese.md and Urdu.md are not among them: no type of this version
    has these names. *)

From Coq Require Import String List.
Import ListNotations.

(** src/previews/index.md *)
Definition index_md : string := "- [`Decimal`]($NominalSystemDocPrefix$Decimal$NominalSystemDocSuffix$): 0‎ 1‎ 2‎ 3‎ 4‎ …‎ 9‎ 10‎ 11‎ 12‎ …‎ 99‎ 100‎ 101‎ 102
- [`LetterLower`]($NominalSystemDocPrefix$LetterLower$NominalSystemDocSuffix$): a‎ b‎ c‎ d‎ e‎ …‎ z‎ aa‎ ab‎ ac‎ …‎ yz‎ za‎ zb‎ zc
- [`LetterUpper`]($NominalSystemDocPrefix$LetterUpper$NominalSystemDocSuffix$): A‎ B‎ C‎ D‎ E‎ …‎ Z‎ AA‎ AB‎ AC‎ …‎ YZ‎ ZA‎ ZB‎ ZC
- [`RomanLower`]($NominalSystemDocPrefix$RomanLower$NominalSystemDocSuffix$): i‎ ii‎ iii‎ iv‎ v‎ vi‎ …‎ ix‎ x‎ xi‎ …‎ mmmcmxcix‎ i̅v̅‎ i̅v̅i‎ …‎ d̅m̅l̅c̅i̅x̅cmxcix‎ m̅‎ m̅i
- [`RomanUpper`]($NominalSystemDocPrefix$RomanUpper$NominalSystemDocSuffix$): I‎ II‎ III‎ IV‎ V‎ VI‎ …‎ IX‎ X‎ XI‎ …‎ MMMCMXCIX‎ I̅V̅‎ I̅V̅I‎ …‎ D̅M̅L̅C̅I̅X̅CMXCIX‎ M̅‎ M̅I
- [`CircledNumber`]($NominalSystemDocPrefix$CircledNumber$NominalSystemDocSuffix$): ⓪‎ ①‎ ②‎ ③‎ ④‎ …‎ ⑨‎ ⑩‎ ⑪‎ ⑫‎ …‎ ㊽‎ ㊾‎ ㊿
- [`DoubleCircledNumber`]($NominalSystemDocPrefix$DoubleCircledNumber$NominalSystemDocSuffix$): ⓵‎ ⓶‎ ⓷‎ ⓸‎ ⓹‎ ⓺‎ ⓻‎ ⓼‎ ⓽‎ ⓾
- [`ArmenianLower`]($NominalSystemDocPrefix$ArmenianLower$NominalSystemDocSuffix$): ա‎ բ‎ գ‎ …‎ թ‎ ժ‎ ժա‎ ժբ‎ …‎ ղթ‎ ճ‎ ճա
- [`ArmenianUpper`]($NominalSystemDocPrefix$ArmenianUpper$NominalSystemDocSuffix$): Ա ‎ Բ‎ Գ‎ …‎ Թ‎ Ժ‎ ԺԱ ‎ ԺԲ‎ …‎ ՂԹ‎ Ճ‎ ՃԱ 
- [`Bengali`]($NominalSystemDocPrefix$Bengali$NominalSystemDocSuffix$): ০‎ ১‎ ২‎ ৩‎ ৪‎ …‎ ৯‎ ১০‎ ১১‎ ১২‎ …‎ ৯৯‎ ১০০‎ ১০১‎ ১০২
- [`Cambodian`]($NominalSystemDocPrefix$Cambodian$NominalSystemDocSuffix$): ០‎ ១‎ ២‎ ៣‎ ៤‎ …‎ ៩‎ ១០‎ ១១‎ ១២‎ …‎ ៩៩‎ ១០០‎ ១០១‎ ១០២
- [`SimplifiedChineseInformal`]($NominalSystemDocPrefix$SimplifiedChineseInformal$NominalSystemDocSuffix$): 零‎ 一‎ 二‎ …‎ 九‎ 十‎ 十一‎ …‎ 十九‎ 二十‎ 二十一‎ …‎ 九十九‎ 一百‎ 一百零一
- [`TraditionalChineseInformal`]($NominalSystemDocPrefix$TraditionalChineseInformal$NominalSystemDocSuffix$): 零‎ 一‎ 二‎ …‎ 九‎ 十‎ 十一‎ …‎ 十九‎ 二十‎ 二十一‎ …‎ 九十九‎ 一百‎ 一百零一
- [`SimplifiedChineseFormal`]($NominalSystemDocPrefix$SimplifiedChineseFormal$NominalSystemDocSuffix$): 零‎ 一‎ 二‎ …‎ 九‎ 一十‎ 一十一‎ …‎ 一十九‎ 二十‎ 二十一‎ …‎ 九十九‎ 一百‎ 一百零一
- [`TraditionalChineseFormal`]($NominalSystemDocPrefix$TraditionalChineseFormal$NominalSystemDocSuffix$): 零‎ 一‎ 二‎ …‎ 九‎ 一十‎ 一十一‎ …‎ 一十九‎ 二十‎ 二十一‎ …‎ 九十九‎ 一百‎ 一百零一
- [`CjkDecimal`]($NominalSystemDocPrefix$CjkDecimal$NominalSystemDocSuffix$): 〇‎ 一‎ 二‎ 三‎ 四‎ …‎ 九‎ 一〇‎ 一一‎ 一二‎ …‎ 九九‎ 一〇〇‎ 一〇一‎ 一〇二
- [`CjkEarthlyBranch`]($NominalSystemDocPrefix$CjkEarthlyBranch$NominalSystemDocSuffix$): 子‎ 丑‎ 寅‎ 卯‎ 辰‎ …‎ 亥‎ 一三‎ 一四‎ 一五‎ …‎ 一四四‎ 一四五‎ 一四六‎ 一四七
- [`CjkHeavenlyStem`]($NominalSystemDocPrefix$CjkHeavenlyStem$NominalSystemDocSuffix$): 甲‎ 乙‎ 丙‎ 丁‎ 戊‎ …‎ 癸‎ 一一‎ 一二‎ 一三‎ …‎ 一〇〇‎ 一〇一‎ 一〇二‎ 一〇三
- [`Devanagari`]($NominalSystemDocPrefix$Devanagari$NominalSystemDocSuffix$): ०‎ १‎ २‎ ३‎ ४‎ …‎ ९‎ १०‎ ११‎ १२‎ …‎ ९९‎ १००‎ १०१‎ १०२
- [`EasternArabic`]($NominalSystemDocPrefix$EasternArabic$NominalSystemDocSuffix$): ٠‎ ١‎ ٢‎ ٣‎ ٤‎ …‎ ٩‎ ١٠‎ ١١‎ ١٢‎ …‎ ٩٩‎ ١٠٠‎ ١٠١‎ ١٠٢
- [`Ethiopic`]($NominalSystemDocPrefix$Ethiopic$NominalSystemDocSuffix$): ፩‎ ፪‎ ፫‎ …‎ ፲‎ ፲፩‎ ፲፪‎ …‎ ፺፱‎ ፻‎ ፻፩‎ …‎ ፱፻፺፱‎ ፲፻‎ ፲፻፩
- [`Georgian`]($NominalSystemDocPrefix$Georgian$NominalSystemDocSuffix$): ა‎ ბ‎ გ‎ …‎ თ‎ ი‎ ია‎ იბ‎ …‎ ჟთ‎ რ‎ რა
- [`GreekLower`]($NominalSystemDocPrefix$GreekLower$NominalSystemDocSuffix$): α‎ β‎ γ‎ δ‎ ε‎ …‎ ω‎ αα‎ αβ‎ αγ‎ …‎ ψω‎ ωα‎ ωβ‎ ωγ
- [`GreekUpper`]($NominalSystemDocPrefix$GreekUpper$NominalSystemDocSuffix$): Α‎ Β‎ Γ‎ Δ‎ Ε‎ …‎ Ω‎ ΑΑ‎ ΑΒ‎ ΑΓ‎ …‎ ΨΩ‎ ΩΑ‎ ΩΒ‎ ΩΓ
- [`Gujarati`]($NominalSystemDocPrefix$Gujarati$NominalSystemDocSuffix$): ૦‎ ૧‎ ૨‎ ૩‎ ૪‎ …‎ ૯‎ ૧૦‎ ૧૧‎ ૧૨‎ …‎ ૯૯‎ ૧૦૦‎ ૧૦૧‎ ૧૦૨
- [`Gurmukhi`]($NominalSystemDocPrefix$Gurmukhi$NominalSystemDocSuffix$): ੦‎ ੧‎ ੨‎ ੩‎ ੪‎ …‎ ੯‎ ੧੦‎ ੧੧‎ ੧੨‎ …‎ ੯੯‎ ੧੦੦‎ ੧੦੧‎ ੧੦੨
- [`HanjaInformal`]($NominalSystemDocPrefix$HanjaInformal$NominalSystemDocSuffix$): 零‎ 一‎ 二‎ …‎ 九‎ 十‎ 十一‎ …‎ 十九‎ 二十‎ 二十一‎ …‎ 九十九‎ 百‎ 百一
- [`HangeulFormal`]($NominalSystemDocPrefix$HangeulFormal$NominalSystemDocSuffix$): 영‎ 일‎ 이‎ …‎ 구‎ 일십‎ 일십일‎ …‎ 일십구‎ 이십‎ 이십일‎ …‎ 구십구‎ 일백‎ 일백일
- [`HangeulJamo`]($NominalSystemDocPrefix$HangeulJamo$NominalSystemDocSuffix$): ㄱ‎ ㄴ‎ ㄷ‎ ㄹ‎ ㅁ‎ …‎ ㅎ‎ ㄱㄱ‎ ㄱㄴ‎ ㄱㄷ‎ …‎ ㅍㅎ‎ ㅎㄱ‎ ㅎㄴ‎ ㅎㄷ
- [`HangeulSyllable`]($NominalSystemDocPrefix$HangeulSyllable$NominalSystemDocSuffix$): 가‎ 나‎ 다‎ 라‎ 마‎ …‎ 하‎ 가가‎ 가나‎ 가다‎ …‎ 파하‎ 하가‎ 하나‎ 하다
- [`HanjaFormal`]($NominalSystemDocPrefix$HanjaFormal$NominalSystemDocSuffix$): 零‎ 壹‎ 貳‎ …‎ 九‎ 壹拾‎ 壹拾壹‎ …‎ 壹拾九‎ 貳拾‎ 貳拾壹‎ …‎ 九拾九‎ 壹百‎ 壹百壹
- [`Hebrew`]($NominalSystemDocPrefix$Hebrew$NominalSystemDocSuffix$): ׳א״‎ ׳ב״‎ ׳ג״‎ …‎ ׳ט״‎ ׳י״‎ …‎ יג‎ יד‎ ט״ו‎ ט״ז‎ יז‎ …‎ שצו‎ שצז‎ שצח‎ שצט‎ ׳ת״
- [`HexLower`]($NominalSystemDocPrefix$HexLower$NominalSystemDocSuffix$): 0‎ 1‎ 2‎ 3‎ 4‎ …‎ f‎ 10‎ 11‎ 12‎ …‎ ff‎ 100‎ 101‎ 102
- [`HexUpper`]($NominalSystemDocPrefix$HexUpper$NominalSystemDocSuffix$): 0‎ 1‎ 2‎ 3‎ 4‎ …‎ F‎ 10‎ 11‎ 12‎ …‎ FF‎ 100‎ 101‎ 102
- [`Hiragana`]($NominalSystemDocPrefix$Hiragana$NominalSystemDocSuffix$): あ‎ い‎ う‎ え‎ お‎ …‎ ん‎ ああ‎ あい‎ あう‎ …‎ をん‎ んあ‎ んい‎ んう
- [`HiraganaIroha`]($NominalSystemDocPrefix$HiraganaIroha$NominalSystemDocSuffix$): い‎ ろ‎ は‎ に‎ ほ‎ …‎ す‎ いい‎ いろ‎ いは‎ …‎ せす‎ すい‎ すろ‎ すは
- [`JapaneseFormal`]($NominalSystemDocPrefix$JapaneseFormal$NominalSystemDocSuffix$): 零‎ 壱‎ 弐‎ …‎ 九‎ 壱拾‎ 壱拾壱‎ …‎ 壱拾九‎ 弐拾‎ 弐拾壱‎ …‎ 九拾九‎ 壱百‎ 壱百壱
- [`JapaneseInformal`]($NominalSystemDocPrefix$JapaneseInformal$NominalSystemDocSuffix$): 〇‎ 一‎ 二‎ …‎ 九‎ 十‎ 十一‎ …‎ 十九‎ 二十‎ 二十一‎ …‎ 九十九‎ 百‎ 百一
- [`Kannada`]($NominalSystemDocPrefix$Kannada$NominalSystemDocSuffix$): ೦‎ ೧‎ ೨‎ ೩‎ ೪‎ …‎ ೯‎ ೧೦‎ ೧೧‎ ೧೨‎ …‎ ೯೯‎ ೧೦೦‎ ೧೦೧‎ ೧೦೨
- [`Katakana`]($NominalSystemDocPrefix$Katakana$NominalSystemDocSuffix$): ア‎ イ‎ ウ‎ エ‎ オ‎ …‎ ン‎ アア‎ アイ‎ アウ‎ …‎ ヲン‎ ンア‎ ンイ‎ ンウ
- [`KatakanaIroha`]($NominalSystemDocPrefix$KatakanaIroha$NominalSystemDocSuffix$): イ‎ ロ‎ ハ‎ ニ‎ ホ‎ …‎ ス‎ イイ‎ イロ‎ イハ‎ …‎ セス‎ スイ‎ スロ‎ スハ
- [`Lao`]($NominalSystemDocPrefix$Lao$NominalSystemDocSuffix$): ໐‎ ໑‎ ໒‎ ໓‎ ໔‎ …‎ ໙‎ ໑໐‎ ໑໑‎ ໑໒‎ …‎ ໙໙‎ ໑໐໐‎ ໑໐໑‎ ໑໐໒
- [`Malayalam`]($NominalSystemDocPrefix$Malayalam$NominalSystemDocSuffix$): ൦‎ ൧‎ ൨‎ ൩‎ ൪‎ …‎ ൯‎ ൧൦‎ ൧൧‎ ൧൨‎ …‎ ൯൯‎ ൧൦൦‎ ൧൦൧‎ ൧൦൨
- [`Mongolian`]($NominalSystemDocPrefix$Mongolian$NominalSystemDocSuffix$): ᠐‎ ᠑‎ ᠒‎ ᠓‎ ᠔‎ …‎ ᠙‎ ᠑᠐‎ ᠑᠑‎ ᠑᠒‎ …‎ ᠙᠙‎ ᠑᠐᠐‎ ᠑᠐᠑‎ ᠑᠐᠒
- [`Myanmar`]($NominalSystemDocPrefix$Myanmar$NominalSystemDocSuffix$): ၀‎ ၁‎ ၂‎ ၃‎ ၄‎ …‎ ၉‎ ၁၀‎ ၁၁‎ ၁၂‎ …‎ ၉၉‎ ၁၀၀‎ ၁၀၁‎ ၁၀၂
- [`Oriya`]($NominalSystemDocPrefix$Oriya$NominalSystemDocSuffix$): ୦‎ ୧‎ ୨‎ ୩‎ ୪‎ …‎ ୯‎ ୧୦‎ ୧୧‎ ୧୨‎ …‎ ୯୯‎ ୧୦୦‎ ୧୦୧‎ ୧୦୨
- [`Persian`]($NominalSystemDocPrefix$Persian$NominalSystemDocSuffix$): ۰‎ ۱‎ ۲‎ ۳‎ ۴‎ …‎ ۹‎ ۱۰‎ ۱۱‎ ۱۲‎ …‎ ۹۹‎ ۱۰۰‎ ۱۰۱‎ ۱۰۲
- [`Tamil`]($NominalSystemDocPrefix$Tamil$NominalSystemDocSuffix$): ௦‎ ௧‎ ௨‎ ௩‎ ௪‎ …‎ ௯‎ ௧௦‎ ௧௧‎ ௧௨‎ …‎ ௯௯‎ ௧௦௦‎ ௧௦௧‎ ௧௦௨
- [`Telugu`]($NominalSystemDocPrefix$Telugu$NominalSystemDocSuffix$): ౦‎ ౧‎ ౨‎ ౩‎ ౪‎ …‎ ౯‎ ౧౦‎ ౧౧‎ ౧౨‎ …‎ ౯౯‎ ౧౦౦‎ ౧౦౧‎ ౧౦౨
- [`Thai`]($NominalSystemDocPrefix$Thai$NominalSystemDocSuffix$): ๐‎ ๑‎ ๒‎ ๓‎ ๔‎ …‎ ๙‎ ๑๐‎ ๑๑‎ ๑๒‎ …‎ ๙๙‎ ๑๐๐‎ ๑๐๑‎ ๑๐๒
- [`Tibetan`]($NominalSystemDocPrefix$Tibetan$NominalSystemDocSuffix$): ༠‎ ༡‎ ༢‎ ༣‎ ༤‎ …‎ ༩‎ ༡༠‎ ༡༡‎ ༡༢‎ …‎ ༩༩‎ ༡༠༠‎ ༡༠༡‎ ༡༠༢
".

Definition repository_files : list (string * string) :=
  [("index", index_md);
   ("Decimal", "# Decimal

| #   | Decimal |
|-----|---------|
| 0   | 0       |
| 1   | 1       |
| 2   | 2       |
| 3   | 3       |
| 4   | 4       |
| …   | …       |
| 9   | 9       |
| 10  | 10      |
| 11  | 11      |
| 12  | 12      |
| …   | …       |
| 99  | 99      |
| 100 | 100     |
| 101 | 101     |
| 102 | 102     |
");
   ("LetterLower", "# LetterLower

| #   | LetterLower |
|-----|-------------|
| 0   | a           |
| 1   | b           |
| 2   | c           |
| 3   | d           |
| 4   | e           |
| …   | …           |
| 25  | z           |
| 26  | aa          |
| 27  | ab          |
| 28  | ac          |
| …   | …           |
| 675 | yz          |
| 676 | za          |
| 677 | zb          |
| 678 | zc          |
");
   ("LetterUpper", "# LetterUpper

| #   | LetterUpper |
|-----|-------------|
| 0   | A           |
| 1   | B           |
| 2   | C           |
| 3   | D           |
| 4   | E           |
| …   | …           |
| 25  | Z           |
| 26  | AA          |
| 27  | AB          |
| 28  | AC          |
| …   | …           |
| 675 | YZ          |
| 676 | ZA          |
| 677 | ZB          |
| 678 | ZC          |
");
   ("RomanLower", "# RomanLower

| #       | RomanLower   |
|---------|--------------|
| 1       | i            |
| 2       | ii           |
| 3       | iii          |
| 4       | iv           |
| 5       | v            |
| 6       | vi           |
| …       | …            |
| 9       | ix           |
| 10      | x            |
| 11      | xi           |
| …       | …            |
| 3999    | mmmcmxcix    |
| 4000    | i̅v̅           |
| 4001    | i̅v̅i          |
| …       | …            |
| 999999  | d̅m̅l̅c̅i̅x̅cmxcix |
| 1000000 | m̅            |
| 1000001 | m̅i           |
");
   ("RomanUpper", "# RomanUpper

| #       | RomanUpper   |
|---------|--------------|
| 1       | I            |
| 2       | II           |
| 3       | III          |
| 4       | IV           |
| 5       | V            |
| 6       | VI           |
| …       | …            |
| 9       | IX           |
| 10      | X            |
| 11      | XI           |
| …       | …            |
| 3999    | MMMCMXCIX    |
| 4000    | I̅V̅           |
| 4001    | I̅V̅I          |
| …       | …            |
| 999999  | D̅M̅L̅C̅I̅X̅CMXCIX |
| 1000000 | M̅            |
| 1000001 | M̅I           |
");
   ("CircledNumber", "# CircledNumber

| #  | CircledNumber |
|----|---------------|
| 0  | ⓪             |
| 1  | ①             |
| 2  | ②             |
| 3  | ③             |
| 4  | ④             |
| …  | …             |
| 9  | ⑨             |
| 10 | ⑩             |
| 11 | ⑪             |
| 12 | ⑫             |
| …  | …             |
| 48 | ㊽            |
| 49 | ㊾            |
| 50 | ㊿            |
");
   ("DoubleCircledNumber", "# DoubleCircledNumber

| #  | DoubleCircledNumber |
|----|---------------------|
| 1  | ⓵                   |
| 2  | ⓶                   |
| 3  | ⓷                   |
| 4  | ⓸                   |
| 5  | ⓹                   |
| 6  | ⓺                   |
| 7  | ⓻                   |
| 8  | ⓼                   |
| 9  | ⓽                   |
| 10 | ⓾                   |
");
   ("ArmenianLower", "# ArmenianLower

| #   | ArmenianLower |
|-----|---------------|
| 1   | ա             |
| 2   | բ             |
| 3   | գ             |
| …   | …             |
| 9   | թ             |
| 10  | ժ             |
| 11  | ժա            |
| 12  | ժբ            |
| …   | …             |
| 99  | ղթ            |
| 100 | ճ             |
| 101 | ճա            |
");
   ("ArmenianUpper", "# ArmenianUpper

| #   | ArmenianUpper |
|-----|---------------|
| 1   | Ա             |
| 2   | Բ             |
| 3   | Գ             |
| …   | …             |
| 9   | Թ             |
| 10  | Ժ             |
| 11  | ԺԱ            |
| 12  | ԺԲ            |
| …   | …             |
| 99  | ՂԹ            |
| 100 | Ճ             |
| 101 | ՃԱ            |
");
   ("Bengali", "# Bengali

| #   | Bengali |
|-----|---------|
| 0   | ০       |
| 1   | ১       |
| 2   | ২       |
| 3   | ৩       |
| 4   | ৪       |
| …   | …       |
| 9   | ৯       |
| 10  | ১০      |
| 11  | ১১      |
| 12  | ১২      |
| …   | …       |
| 99  | ৯৯      |
| 100 | ১০০     |
| 101 | ১০১     |
| 102 | ১০২     |
");
   ("Cambodian", "# Cambodian

| #   | Cambodian |
|-----|-----------|
| 0   | ០         |
| 1   | ១         |
| 2   | ២         |
| 3   | ៣         |
| 4   | ៤         |
| …   | …         |
| 9   | ៩         |
| 10  | ១០        |
| 11  | ១១        |
| 12  | ១២        |
| …   | …         |
| 99  | ៩៩        |
| 100 | ១០០       |
| 101 | ១០១       |
| 102 | ១០២       |
");
   ("SimplifiedChineseInformal", "# SimplifiedChineseInformal

| #   | SimplifiedChineseInformal |
|-----|---------------------------|
| 0   | 零                        |
| 1   | 一                        |
| 2   | 二                        |
| …   | …                         |
| 9   | 九                        |
| 10  | 十                        |
| 11  | 十一                      |
| …   | …                         |
| 19  | 十九                      |
| 20  | 二十                      |
| 21  | 二十一                    |
| …   | …                         |
| 99  | 九十九                    |
| 100 | 一百                      |
| 101 | 一百零一                  |
");
   ("TraditionalChineseInformal", "# TraditionalChineseInformal

| #   | TraditionalChineseInformal |
|-----|----------------------------|
| 0   | 零                         |
| 1   | 一                         |
| 2   | 二                         |
| …   | …                          |
| 9   | 九                         |
| 10  | 十                         |
| 11  | 十一                       |
| …   | …                          |
| 19  | 十九                       |
| 20  | 二十                       |
| 21  | 二十一                     |
| …   | …                          |
| 99  | 九十九                     |
| 100 | 一百                       |
| 101 | 一百零一                   |
");
   ("SimplifiedChineseFormal", "# SimplifiedChineseFormal

| #   | SimplifiedChineseFormal |
|-----|-------------------------|
| 0   | 零                      |
| 1   | 一                      |
| 2   | 二                      |
| …   | …                       |
| 9   | 九                      |
| 10  | 一十                    |
| 11  | 一十一                  |
| …   | …                       |
| 19  | 一十九                  |
| 20  | 二十                    |
| 21  | 二十一                  |
| …   | …                       |
| 99  | 九十九                  |
| 100 | 一百                    |
| 101 | 一百零一                |
");
   ("TraditionalChineseFormal", "# TraditionalChineseFormal

| #   | TraditionalChineseFormal |
|-----|--------------------------|
| 0   | 零                       |
| 1   | 一                       |
| 2   | 二                       |
| …   | …                        |
| 9   | 九                       |
| 10  | 一十                     |
| 11  | 一十一                   |
| …   | …                        |
| 19  | 一十九                   |
| 20  | 二十                     |
| 21  | 二十一                   |
| …   | …                        |
| 99  | 九十九                   |
| 100 | 一百                     |
| 101 | 一百零一                 |
");
   ("CjkDecimal", "# CjkDecimal

| #   | CjkDecimal |
|-----|------------|
| 0   | 〇         |
| 1   | 一         |
| 2   | 二         |
| 3   | 三         |
| 4   | 四         |
| …   | …          |
| 9   | 九         |
| 10  | 一〇       |
| 11  | 一一       |
| 12  | 一二       |
| …   | …          |
| 99  | 九九       |
| 100 | 一〇〇     |
| 101 | 一〇一     |
| 102 | 一〇二     |
");
   ("CjkEarthlyBranch", "# CjkEarthlyBranch

| #   | CjkEarthlyBranch |
|-----|------------------|
| 1   | 子               |
| 2   | 丑               |
| 3   | 寅               |
| 4   | 卯               |
| 5   | 辰               |
| …   | …                |
| 12  | 亥               |
| 13  | 一三             |
| 14  | 一四             |
| 15  | 一五             |
| …   | …                |
| 144 | 一四四           |
| 145 | 一四五           |
| 146 | 一四六           |
| 147 | 一四七           |
");
   ("CjkHeavenlyStem", "# CjkHeavenlyStem

| #   | CjkHeavenlyStem |
|-----|-----------------|
| 1   | 甲              |
| 2   | 乙              |
| 3   | 丙              |
| 4   | 丁              |
| 5   | 戊              |
| …   | …               |
| 10  | 癸              |
| 11  | 一一            |
| 12  | 一二            |
| 13  | 一三            |
| …   | …               |
| 100 | 一〇〇          |
| 101 | 一〇一          |
| 102 | 一〇二          |
| 103 | 一〇三          |
");
   ("Devanagari", "# Devanagari

| #   | Devanagari |
|-----|------------|
| 0   | ०          |
| 1   | १          |
| 2   | २          |
| 3   | ३          |
| 4   | ४          |
| …   | …          |
| 9   | ९          |
| 10  | १०         |
| 11  | ११         |
| 12  | १२         |
| …   | …          |
| 99  | ९९         |
| 100 | १००        |
| 101 | १०१        |
| 102 | १०२        |
");
   ("EasternArabic", "# EasternArabic

| #   | EasternArabic |
|-----|---------------|
| 0   | ٠             |
| 1   | ١             |
| 2   | ٢             |
| 3   | ٣             |
| 4   | ٤             |
| …   | …             |
| 9   | ٩             |
| 10  | ١٠            |
| 11  | ١١            |
| 12  | ١٢            |
| …   | …             |
| 99  | ٩٩            |
| 100 | ١٠٠           |
| 101 | ١٠١           |
| 102 | ١٠٢           |
");
   ("Ethiopic", "# Ethiopic

| #    | Ethiopic |
|------|----------|
| 1    | ፩        |
| 2    | ፪        |
| 3    | ፫        |
| …    | …        |
| 10   | ፲        |
| 11   | ፲፩       |
| 12   | ፲፪       |
| …    | …        |
| 99   | ፺፱       |
| 100  | ፻        |
| 101  | ፻፩       |
| …    | …        |
| 999  | ፱፻፺፱     |
| 1000 | ፲፻       |
| 1001 | ፲፻፩      |
");
   ("Georgian", "# Georgian

| #   | Georgian |
|-----|----------|
| 1   | ა        |
| 2   | ბ        |
| 3   | გ        |
| …   | …        |
| 9   | თ        |
| 10  | ი        |
| 11  | ია       |
| 12  | იბ       |
| …   | …        |
| 99  | ჟთ       |
| 100 | რ        |
| 101 | რა       |
");
   ("GreekLower", "# GreekLower

| #   | GreekLower |
|-----|------------|
| 0   | α          |
| 1   | β          |
| 2   | γ          |
| 3   | δ          |
| 4   | ε          |
| …   | …          |
| 23  | ω          |
| 24  | αα         |
| 25  | αβ         |
| 26  | αγ         |
| …   | …          |
| 575 | ψω         |
| 576 | ωα         |
| 577 | ωβ         |
| 578 | ωγ         |
");
   ("GreekUpper", "# GreekUpper

| #   | GreekUpper |
|-----|------------|
| 0   | Α          |
| 1   | Β          |
| 2   | Γ          |
| 3   | Δ          |
| 4   | Ε          |
| …   | …          |
| 23  | Ω          |
| 24  | ΑΑ         |
| 25  | ΑΒ         |
| 26  | ΑΓ         |
| …   | …          |
| 575 | ΨΩ         |
| 576 | ΩΑ         |
| 577 | ΩΒ         |
| 578 | ΩΓ         |
");
   ("Gujarati", "# Gujarati

| #   | Gujarati |
|-----|----------|
| 0   | ૦        |
| 1   | ૧        |
| 2   | ૨        |
| 3   | ૩        |
| 4   | ૪        |
| …   | …        |
| 9   | ૯        |
| 10  | ૧૦       |
| 11  | ૧૧       |
| 12  | ૧૨       |
| …   | …        |
| 99  | ૯૯       |
| 100 | ૧૦૦      |
| 101 | ૧૦૧      |
| 102 | ૧૦૨      |
");
   ("Gurmukhi", "# Gurmukhi

| #   | Gurmukhi |
|-----|----------|
| 0   | ੦        |
| 1   | ੧        |
| 2   | ੨        |
| 3   | ੩        |
| 4   | ੪        |
| …   | …        |
| 9   | ੯        |
| 10  | ੧੦       |
| 11  | ੧੧       |
| 12  | ੧੨       |
| …   | …        |
| 99  | ੯੯       |
| 100 | ੧੦੦      |
| 101 | ੧੦੧      |
| 102 | ੧੦੨      |
");
   ("HanjaInformal", "# HanjaInformal

| #   | HanjaInformal |
|-----|---------------|
| 0   | 零            |
| 1   | 一            |
| 2   | 二            |
| …   | …             |
| 9   | 九            |
| 10  | 十            |
| 11  | 十一          |
| …   | …             |
| 19  | 十九          |
| 20  | 二十          |
| 21  | 二十一        |
| …   | …             |
| 99  | 九十九        |
| 100 | 百            |
| 101 | 百一          |
");
   ("HangeulFormal", "# HangeulFormal

| #   | HangeulFormal |
|-----|---------------|
| 0   | 영            |
| 1   | 일            |
| 2   | 이            |
| …   | …             |
| 9   | 구            |
| 10  | 일십          |
| 11  | 일십일        |
| …   | …             |
| 19  | 일십구        |
| 20  | 이십          |
| 21  | 이십일        |
| …   | …             |
| 99  | 구십구        |
| 100 | 일백          |
| 101 | 일백일        |
");
   ("HangeulJamo", "# HangeulJamo

| #   | HangeulJamo |
|-----|-------------|
| 0   | ㄱ          |
| 1   | ㄴ          |
| 2   | ㄷ          |
| 3   | ㄹ          |
| 4   | ㅁ          |
| …   | …           |
| 13  | ㅎ          |
| 14  | ㄱㄱ        |
| 15  | ㄱㄴ        |
| 16  | ㄱㄷ        |
| …   | …           |
| 195 | ㅍㅎ        |
| 196 | ㅎㄱ        |
| 197 | ㅎㄴ        |
| 198 | ㅎㄷ        |
");
   ("HangeulSyllable", "# HangeulSyllable

| #   | HangeulSyllable |
|-----|-----------------|
| 0   | 가              |
| 1   | 나              |
| 2   | 다              |
| 3   | 라              |
| 4   | 마              |
| …   | …               |
| 13  | 하              |
| 14  | 가가            |
| 15  | 가나            |
| 16  | 가다            |
| …   | …               |
| 195 | 파하            |
| 196 | 하가            |
| 197 | 하나            |
| 198 | 하다            |
");
   ("HanjaFormal", "# HanjaFormal

| #   | HanjaFormal |
|-----|-------------|
| 0   | 零          |
| 1   | 壹          |
| 2   | 貳          |
| …   | …           |
| 9   | 九          |
| 10  | 壹拾        |
| 11  | 壹拾壹      |
| …   | …           |
| 19  | 壹拾九      |
| 20  | 貳拾        |
| 21  | 貳拾壹      |
| …   | …           |
| 99  | 九拾九      |
| 100 | 壹百        |
| 101 | 壹百壹      |
");
   ("Hebrew", "# Hebrew

| #   | Hebrew |
|-----|--------|
| 1   | ׳א״    |
| 2   | ׳ב״    |
| 3   | ׳ג״    |
| …   | …      |
| 9   | ׳ט״    |
| 10  | ׳י״    |
| …   | …      |
| 13  | יג     |
| 14  | יד     |
| 15  | ט״ו    |
| 16  | ט״ז    |
| 17  | יז     |
| …   | …      |
| 396 | שצו    |
| 397 | שצז    |
| 398 | שצח    |
| 399 | שצט    |
| 400 | ׳ת״    |
");
   ("HexLower", "# HexLower

| #   | HexLower |
|-----|----------|
| 0   | 0        |
| 1   | 1        |
| 2   | 2        |
| 3   | 3        |
| 4   | 4        |
| …   | …        |
| 15  | f        |
| 16  | 10       |
| 17  | 11       |
| 18  | 12       |
| …   | …        |
| 255 | ff       |
| 256 | 100      |
| 257 | 101      |
| 258 | 102      |
");
   ("HexUpper", "# HexUpper

| #   | HexUpper |
|-----|----------|
| 0   | 0        |
| 1   | 1        |
| 2   | 2        |
| 3   | 3        |
| 4   | 4        |
| …   | …        |
| 15  | F        |
| 16  | 10       |
| 17  | 11       |
| 18  | 12       |
| …   | …        |
| 255 | FF       |
| 256 | 100      |
| 257 | 101      |
| 258 | 102      |
");
   ("Hiragana", "# Hiragana

| #    | Hiragana |
|------|----------|
| 0    | あ       |
| 1    | い       |
| 2    | う       |
| 3    | え       |
| 4    | お       |
| …    | …        |
| 45   | ん       |
| 46   | ああ     |
| 47   | あい     |
| 48   | あう     |
| …    | …        |
| 2115 | をん     |
| 2116 | んあ     |
| 2117 | んい     |
| 2118 | んう     |
");
   ("HiraganaIroha", "# HiraganaIroha

| #    | HiraganaIroha |
|------|---------------|
| 0    | い            |
| 1    | ろ            |
| 2    | は            |
| 3    | に            |
| 4    | ほ            |
| …    | …             |
| 46   | す            |
| 47   | いい          |
| 48   | いろ          |
| 49   | いは          |
| …    | …             |
| 2208 | せす          |
| 2209 | すい          |
| 2210 | すろ          |
| 2211 | すは          |
");
   ("JapaneseFormal", "# JapaneseFormal

| #   | JapaneseFormal |
|-----|----------------|
| 0   | 零             |
| 1   | 壱             |
| 2   | 弐             |
| …   | …              |
| 9   | 九             |
| 10  | 壱拾           |
| 11  | 壱拾壱         |
| …   | …              |
| 19  | 壱拾九         |
| 20  | 弐拾           |
| 21  | 弐拾壱         |
| …   | …              |
| 99  | 九拾九         |
| 100 | 壱百           |
| 101 | 壱百壱         |
");
   ("JapaneseInformal", "# JapaneseInformal

| #   | JapaneseInformal |
|-----|------------------|
| 0   | 〇               |
| 1   | 一               |
| 2   | 二               |
| …   | …                |
| 9   | 九               |
| 10  | 十               |
| 11  | 十一             |
| …   | …                |
| 19  | 十九             |
| 20  | 二十             |
| 21  | 二十一           |
| …   | …                |
| 99  | 九十九           |
| 100 | 百               |
| 101 | 百一             |
");
   ("Kannada", "# Kannada

| #   | Kannada |
|-----|---------|
| 0   | ೦       |
| 1   | ೧       |
| 2   | ೨       |
| 3   | ೩       |
| 4   | ೪       |
| …   | …       |
| 9   | ೯       |
| 10  | ೧೦      |
| 11  | ೧೧      |
| 12  | ೧೨      |
| …   | …       |
| 99  | ೯೯      |
| 100 | ೧೦೦     |
| 101 | ೧೦೧     |
| 102 | ೧೦೨     |
");
   ("Katakana", "# Katakana

| #    | Katakana |
|------|----------|
| 0    | ア       |
| 1    | イ       |
| 2    | ウ       |
| 3    | エ       |
| 4    | オ       |
| …    | …        |
| 45   | ン       |
| 46   | アア     |
| 47   | アイ     |
| 48   | アウ     |
| …    | …        |
| 2115 | ヲン     |
| 2116 | ンア     |
| 2117 | ンイ     |
| 2118 | ンウ     |
");
   ("KatakanaIroha", "# KatakanaIroha

| #    | KatakanaIroha |
|------|---------------|
| 0    | イ            |
| 1    | ロ            |
| 2    | ハ            |
| 3    | ニ            |
| 4    | ホ            |
| …    | …             |
| 46   | ス            |
| 47   | イイ          |
| 48   | イロ          |
| 49   | イハ          |
| …    | …             |
| 2208 | セス          |
| 2209 | スイ          |
| 2210 | スロ          |
| 2211 | スハ          |
");
   ("Lao", "# Lao

| #   | Lao |
|-----|-----|
| 0   | ໐   |
| 1   | ໑   |
| 2   | ໒   |
| 3   | ໓   |
| 4   | ໔   |
| …   | …   |
| 9   | ໙   |
| 10  | ໑໐  |
| 11  | ໑໑  |
| 12  | ໑໒  |
| …   | …   |
| 99  | ໙໙  |
| 100 | ໑໐໐ |
| 101 | ໑໐໑ |
| 102 | ໑໐໒ |
");
   ("Malayalam", "# Malayalam

| #   | Malayalam |
|-----|-----------|
| 0   | ൦         |
| 1   | ൧         |
| 2   | ൨         |
| 3   | ൩         |
| 4   | ൪         |
| …   | …         |
| 9   | ൯         |
| 10  | ൧൦        |
| 11  | ൧൧        |
| 12  | ൧൨        |
| …   | …         |
| 99  | ൯൯        |
| 100 | ൧൦൦       |
| 101 | ൧൦൧       |
| 102 | ൧൦൨       |
");
   ("Mongolian", "# Mongolian

| #   | Mongolian |
|-----|-----------|
| 0   | ᠐         |
| 1   | ᠑         |
| 2   | ᠒         |
| 3   | ᠓         |
| 4   | ᠔         |
| …   | …         |
| 9   | ᠙         |
| 10  | ᠑᠐        |
| 11  | ᠑᠑        |
| 12  | ᠑᠒        |
| …   | …         |
| 99  | ᠙᠙        |
| 100 | ᠑᠐᠐       |
| 101 | ᠑᠐᠑       |
| 102 | ᠑᠐᠒       |
");
   ("Myanmar", "# Myanmar

| #   | Myanmar |
|-----|---------|
| 0   | ၀       |
| 1   | ၁       |
| 2   | ၂       |
| 3   | ၃       |
| 4   | ၄       |
| …   | …       |
| 9   | ၉       |
| 10  | ၁၀      |
| 11  | ၁၁      |
| 12  | ၁၂      |
| …   | …       |
| 99  | ၉၉      |
| 100 | ၁၀၀     |
| 101 | ၁၀၁     |
| 102 | ၁၀၂     |
");
   ("Oriya", "# Oriya

| #   | Oriya |
|-----|-------|
| 0   | ୦     |
| 1   | ୧     |
| 2   | ୨     |
| 3   | ୩     |
| 4   | ୪     |
| …   | …     |
| 9   | ୯     |
| 10  | ୧୦    |
| 11  | ୧୧    |
| 12  | ୧୨    |
| …   | …     |
| 99  | ୯୯    |
| 100 | ୧୦୦   |
| 101 | ୧୦୧   |
| 102 | ୧୦୨   |
");
   ("Persian", "# Persian

| #   | Persian |
|-----|---------|
| 0   | ۰       |
| 1   | ۱       |
| 2   | ۲       |
| 3   | ۳       |
| 4   | ۴       |
| …   | …       |
| 9   | ۹       |
| 10  | ۱۰      |
| 11  | ۱۱      |
| 12  | ۱۲      |
| …   | …       |
| 99  | ۹۹      |
| 100 | ۱۰۰     |
| 101 | ۱۰۱     |
| 102 | ۱۰۲     |
");
   ("Tamil", "# Tamil

| #   | Tamil |
|-----|-------|
| 0   | ௦     |
| 1   | ௧     |
| 2   | ௨     |
| 3   | ௩     |
| 4   | ௪     |
| …   | …     |
| 9   | ௯     |
| 10  | ௧௦    |
| 11  | ௧௧    |
| 12  | ௧௨    |
| …   | …     |
| 99  | ௯௯    |
| 100 | ௧௦௦   |
| 101 | ௧௦௧   |
| 102 | ௧௦௨   |
");
   ("Telugu", "# Telugu

| #   | Telugu |
|-----|--------|
| 0   | ౦      |
| 1   | ౧      |
| 2   | ౨      |
| 3   | ౩      |
| 4   | ౪      |
| …   | …      |
| 9   | ౯      |
| 10  | ౧౦     |
| 11  | ౧౧     |
| 12  | ౧౨     |
| …   | …      |
| 99  | ౯౯     |
| 100 | ౧౦౦    |
| 101 | ౧౦౧    |
| 102 | ౧౦౨    |
");
   ("Thai", "# Thai

| #   | Thai |
|-----|------|
| 0   | ๐    |
| 1   | ๑    |
| 2   | ๒    |
| 3   | ๓    |
| 4   | ๔    |
| …   | …    |
| 9   | ๙    |
| 10  | ๑๐   |
| 11  | ๑๑   |
| 12  | ๑๒   |
| …   | …    |
| 99  | ๙๙   |
| 100 | ๑๐๐  |
| 101 | ๑๐๑  |
| 102 | ๑๐๒  |
");
   ("Tibetan", "# Tibetan

| #   | Tibetan |
|-----|---------|
| 0   | ༠       |
| 1   | ༡       |
| 2   | ༢       |
| 3   | ༣       |
| 4   | ༤       |
| …   | …       |
| 9   | ༩       |
| 10  | ༡༠      |
| 11  | ༡༡      |
| 12  | ༡༢      |
| …   | …       |
| 99  | ༩༩      |
| 100 | ༡༠༠     |
| 101 | ༡༠༡     |
| 102 | ༡༠༢     |
")]%string.
