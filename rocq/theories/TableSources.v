(** * TableSources: the tables of /repo/src, character by character

    Coq string literals double the quotation mark; apart from that the texts
    are the lines named beside them. Regenerate with tools/sources.py. *)

From Coq Require Import String.

(** src/digital.rs:134-426 *)
Definition digital_tables_source : string := "impl_digit_set!(
    /// Western ASCII numeric digits.
    Decimal,
    DigitSet<10, true> = DigitSet::new(['0', '1', '2', '3', '4', '5', '6', '7', '8', '9'])
);

impl_digit_set!(
    /// Eastern Arabic numeric digits.
    EasternArabic,
    DigitSet<10, true> = DigitSet::new(['\u{0660}', '\u{0661}', '\u{0662}', '\u{0663}', '\u{0664}', '\u{0665}', '\u{0666}', '\u{0667}', '\u{0668}', '\u{0669}'])
);

impl_digit_set!(
    /// Persian numeric digits.
    Persian,
    DigitSet<10, true> = DigitSet::new(['\u{06F0}', '\u{06F1}', '\u{06F2}', '\u{06F3}', '\u{06F4}', '\u{06F5}', '\u{06F6}', '\u{06F7}', '\u{06F8}', '\u{06F9}'])
);

/// Urdu numeric digits.
///
/// The Unicode code points for both [`Persian`] and Urdu numeric digits are
/// identical. The glyph selection comes from using different fonts based on the
/// language desired.
pub use Persian as Urdu;

impl_digit_set!(
    /// Bengali numeric digits.
    Bengali,
    DigitSet<10, true> = DigitSet::new(['\u{9E6}','\u{9E7}','\u{9E8}','\u{9E9}','\u{9EA}','\u{9EB}','\u{9EC}','\u{9ED}','\u{9EE}','\u{9EF}'])
);

impl_digit_set!(
    /// Cambodian numeric digits.
    Cambodian,
    DigitSet<10, true> = DigitSet::new(['\u{17E0}','\u{17E1}','\u{17E2}','\u{17E3}','\u{17E4}','\u{17E5}','\u{17E6}','\u{17E7}','\u{17E8}','\u{17E9}'])
);

/// Khmer numeric digits.
///
/// This set utilizes the same Unicode code points as [`Cambodian`].
pub use Cambodian as Khmer;

impl_digit_set!(
    /// CJK Han decimal digits.
    CjkDecimal,
    DigitSet<10, true> = DigitSet::new(['\u{3007}','\u{4E00}','\u{4E8C}','\u{4E09}','\u{56DB}','\u{4E94}','\u{516D}','\u{4E03}','\u{516B}','\u{4E5D}'])
);

/// CJK Heavenly Stems symbols.
///
/// This digit collection falls back to [`CjkDecimal`] after the set is
/// enumerated.
#[doc = include_str!(""./previews/CjkHeavenlyStem.md"")]
pub struct CjkHeavenlyStem;

impl DigitCollection for CjkHeavenlyStem {
    type Fallback = CjkDecimal;

    fn fixed(&self) -> bool {
        true
    }

    fn zero_based(&self) -> bool {
        false
    }

    fn has_zero_digit(&self) -> bool {
        false
    }

    fn len(&self) -> usize {
        10
    }

    fn digit(&self, index: usize) -> char {
        [
            '\u{7532}', '\u{4E59}', '\u{4E19}', '\u{4E01}', '\u{620A}', '\u{5DF1}', '\u{5E9A}',
            '\u{8F9B}', '\u{58EC}', '\u{7678}',
        ][index]
    }
}

/// CJK Earthly Branch symbols.
///
/// This digit collection falls back to [`CjkDecimal`] after the set is
/// enumerated.
#[doc = include_str!(""./previews/CjkEarthlyBranch.md"")]
pub struct CjkEarthlyBranch;

impl DigitCollection for CjkEarthlyBranch {
    type Fallback = CjkDecimal;

    fn fixed(&self) -> bool {
        true
    }

    fn zero_based(&self) -> bool {
        false
    }

    fn has_zero_digit(&self) -> bool {
        false
    }

    fn len(&self) -> usize {
        12
    }

    fn digit(&self, index: usize) -> char {
        [
            '\u{5B50}', '\u{4E11}', '\u{5BC5}', '\u{536F}', '\u{8FB0}', '\u{5DF3}', '\u{5348}',
            '\u{672A}', '\u{7533}', '\u{9149}', '\u{620C}', '\u{4EA5}',
        ][index]
    }
}

impl_digit_set!(
    /// Devanagari numeric digits.
    Devanagari,
    DigitSet<10, true> = DigitSet::new(['\u{966}','\u{967}','\u{968}','\u{969}','\u{96A}','\u{96B}','\u{96C}','\u{96D}','\u{96E}','\u{96F}'])
);

impl_digit_set!(
    /// Gujarati numeric digits.
    Gujarati,
    DigitSet<10, true> = DigitSet::new(['\u{AE6}','\u{AE7}','\u{AE8}','\u{AE9}','\u{AEA}','\u{AEB}','\u{AEC}','\u{AED}','\u{AEE}','\u{AEF}'])
);

impl_digit_set!(
    /// Gurmukhi numeric digits.
    Gurmukhi,
    DigitSet<10, true> = DigitSet::new(['\u{A66}','\u{A67}','\u{A68}','\u{A69}','\u{A6A}','\u{A6B}','\u{A6C}','\u{A6D}','\u{A6E}','\u{A6F}'])
);

impl_digit_set!(
    /// Kannada numeric digits.
    Kannada,
    DigitSet<10, true> = DigitSet::new(['\u{CE6}','\u{CE7}','\u{CE8}','\u{CE9}','\u{CEA}','\u{CEB}','\u{CEC}','\u{CED}','\u{CEE}','\u{CEF}'])
);

impl_digit_set!(
    /// Lao numeric digits.
    Lao,
    DigitSet<10, true> = DigitSet::new(['\u{ED0}','\u{ED1}','\u{ED2}','\u{ED3}','\u{ED4}','\u{ED5}','\u{ED6}','\u{ED7}','\u{ED8}','\u{ED9}'])
);

impl_digit_set!(
    /// Malayalam numeric digits.
    Malayalam,
    DigitSet<10, true> = DigitSet::new(['\u{D66}','\u{D67}','\u{D68}','\u{D69}','\u{D6A}','\u{D6B}','\u{D6C}','\u{D6D}','\u{D6E}','\u{D6F}'])
);

impl_digit_set!(
    /// Mongolian numeric digits.
    Mongolian,
    DigitSet<10, true> = DigitSet::new(['\u{1810}','\u{1811}','\u{1812}','\u{1813}','\u{1814}','\u{1815}','\u{1816}','\u{1817}','\u{1818}','\u{1819}'])
);

impl_digit_set!(
    /// Myanmar numeric digits.
    Myanmar,
    DigitSet<10, true> = DigitSet::new(['\u{1040}','\u{1041}','\u{1042}','\u{1043}','\u{1044}','\u{1045}','\u{1046}','\u{1047}','\u{1048}','\u{1049}'])
);

impl_digit_set!(
    /// Oriya numeric digits.
    Oriya,
    DigitSet<10, true> = DigitSet::new(['\u{B66}','\u{B67}','\u{B68}','\u{B69}','\u{B6A}','\u{B6B}','\u{B6C}','\u{B6D}','\u{B6E}','\u{B6F}'])
);

impl_digit_set!(
    /// Tamil numeric digits.
    Tamil,
    DigitSet<10, true> = DigitSet::new(['\u{BE6}','\u{BE7}','\u{BE8}','\u{BE9}','\u{BEA}','\u{BEB}','\u{BEC}','\u{BED}','\u{BEE}','\u{BEF}'])
);

impl_digit_set!(
    /// Telugu numeric digits.
    Telugu,
    DigitSet<10, true> = DigitSet::new(['\u{C66}','\u{C67}','\u{C68}','\u{C69}','\u{C6A}','\u{C6B}','\u{C6C}','\u{C6D}','\u{C6E}','\u{C6F}'])
);

impl_digit_set!(
    /// Thai numeric digits.
    Thai,
    DigitSet<10, true> = DigitSet::new(['\u{E50}','\u{E51}','\u{E52}','\u{E53}','\u{E54}','\u{E55}','\u{E56}','\u{E57}','\u{E58}','\u{E59}'])
);

impl_digit_set!(
    /// Tibetan numeric digits.
    Tibetan,
    DigitSet<10, true> = DigitSet::new(['\u{F20}','\u{F21}','\u{F22}','\u{F23}','\u{F24}','\u{F25}','\u{F26}','\u{F27}','\u{F28}','\u{F29}'])
);

impl_digit_set!(
    /// ASCII uppercase characters.
    LetterUpper,
    DigitSet<26, false> = DigitSet::zeroless([
        'A', 'B', 'C', 'D', 'E', 'F', 'G', 'H', 'I', 'J', 'K', 'L', 'M', 'N', 'O', 'P', 'Q', 'R',
        'S', 'T', 'U', 'V', 'W', 'X', 'Y', 'Z',
    ])
);

impl_digit_set!(
    /// ASCII lowercase characters.
    LetterLower,
    DigitSet<26, false> = DigitSet::zeroless([
        'a', 'b', 'c', 'd', 'e', 'f', 'g', 'h', 'i', 'j', 'k', 'l', 'm', 'n', 'o', 'p', 'q', 'r',
        's', 't', 'u', 'v', 'w', 'x', 'y', 'z',
    ])
);

impl_digit_set!(
    /// Greek uppercase alphabet.
    GreekUpper,
    DigitSet<24, false> = DigitSet::zeroless([
        'Α', 'Β', 'Γ', 'Δ', 'Ε', 'Ζ', 'Η', 'Θ', 'Ι', 'Κ', 'Λ', 'Μ', 'Ν', 'Ξ', 'Ο', 'Π', 'Ρ', 'Σ',
        'Τ', 'Υ', 'Φ', 'Χ', 'Ψ', 'Ω',
    ])
);

impl_digit_set!(
    /// Greek lowercase alphabet.
    GreekLower,
    DigitSet<24, false> = DigitSet::zeroless([
        'α', 'β', 'γ', 'δ', 'ε', 'ζ', 'η', 'θ', 'ι', 'κ', 'λ', 'μ', 'ν', 'ξ', 'ο', 'π', 'ρ', 'σ',
        'τ', 'υ', 'φ', 'χ', 'ψ', 'ω',
    ])
);

impl_digit_set!(
    /// Japanese Hiragana Aiueo alphabet.
    Hiragana,
    DigitSet<46, false> = DigitSet::zeroless([
        'あ', 'い', 'う', 'え', 'お', 'か', 'き', 'く', 'け', 'こ', 'さ', 'し', 'す', 'せ', 'そ',
        'た', 'ち', 'つ', 'て', 'と', 'な', 'に', 'ぬ', 'ね', 'の', 'は', 'ひ', 'ふ', 'へ', 'ほ',
        'ま', 'み', 'む', 'め', 'も', 'や', 'ゆ', 'よ', 'ら', 'り', 'る', 'れ', 'ろ', 'わ', 'を',
        'ん',
    ])
);

impl_digit_set!(
    /// Japanese Hiragana Iroha alphabet.
    HiraganaIroha,
    DigitSet<47, false> = DigitSet::zeroless([
        'い', 'ろ', 'は', 'に', 'ほ', 'へ', 'と', 'ち', 'り', 'ぬ', 'る', 'を', 'わ', 'か', 'よ',
        'た', 'れ', 'そ', 'つ', 'ね', 'な', 'ら', 'む', 'う', 'ゐ', 'の', 'お', 'く', 'や', 'ま',
        'け', 'ふ', 'こ', 'え', 'て', 'あ', 'さ', 'き', 'ゆ', 'め', 'み', 'し', 'ゑ', 'ひ', 'も',
        'せ', 'す',
    ])
);

impl_digit_set!(
    /// Japanese Katakana Aiueo alphabet.
    Katakana,
    DigitSet<46, false> = DigitSet::zeroless([
        'ア', 'イ', 'ウ', 'エ', 'オ', 'カ', 'キ', 'ク', 'ケ', 'コ', 'サ', 'シ', 'ス', 'セ', 'ソ',
        'タ', 'チ', 'ツ', 'テ', 'ト', 'ナ', 'ニ', 'ヌ', 'ネ', 'ノ', 'ハ', 'ヒ', 'フ', 'ヘ', 'ホ',
        'マ', 'ミ', 'ム', 'メ', 'モ', 'ヤ', 'ユ', 'ヨ', 'ラ', 'リ', 'ル', 'レ', 'ロ', 'ワ', 'ヲ',
        'ン',
    ])
);

impl_digit_set!(
    /// Japanese Katakana Iroha alphabet.
    KatakanaIroha,
    DigitSet<47, false> = DigitSet::zeroless([
        'イ', 'ロ', 'ハ', 'ニ', 'ホ', 'ヘ', 'ト', 'チ', 'リ', 'ヌ', 'ル', 'ヲ', 'ワ', 'カ', 'ヨ',
        'タ', 'レ', 'ソ', 'ツ', 'ネ', 'ナ', 'ラ', 'ム', 'ウ', 'ヰ', 'ノ', 'オ', 'ク', 'ヤ', 'マ',
        'ケ', 'フ', 'コ', 'エ', 'テ', 'ア', 'サ', 'キ', 'ユ', 'メ', 'ミ', 'シ', 'ヱ', 'ヒ', 'モ',
        'セ', 'ス',
    ])
);

impl_digit_set!(
    /// Korean Hangeul/Hangul Jamo alphabet.
    ///
    /// [Why Hangeul and not Hangul?](https://github.com/khonsulabs/nominals/issues/6)
    HangeulJamo,
    DigitSet<14, false> = DigitSet::zeroless([
        'ㄱ', 'ㄴ', 'ㄷ', 'ㄹ', 'ㅁ', 'ㅂ', 'ㅅ', 'ㅇ', 'ㅈ', 'ㅊ', 'ㅋ', 'ㅌ', 'ㅍ', 'ㅎ',
    ])
);

impl_digit_set!(
    /// Korean Hangeul/Hangul alphabet as pronounced.
    ///
    /// [Why Hangeul and not Hangul?](https://github.com/khonsulabs/nominals/issues/6)
    HangeulSyllable,
    DigitSet<14, false> = DigitSet::zeroless([
        '가', '나', '다', '라', '마', '바', '사', '아', '자', '차', '카', '타', '파', '하',
    ])
);
"%string.

(** src/digital.rs:506-516 *)
Definition hex_tables_source : string := "impl_digit_set!(
    /// Hexadecimal uppercase ASCII characters.
    HexUpper,
    Restrict<Chain<Decimal, LetterUpper>> = Restrict::new(16, Chain::new(Decimal, LetterUpper))
);

impl_digit_set!(
    /// Hexadecimal lower ASCII characters.
    HexLower,
    Restrict<Chain<Decimal, LetterLower>> = Restrict::new(16, Chain::new(Decimal, LetterLower))
);
"%string.

(** src/additive.rs:68-614 *)
Definition additive_tables_source : string := "/// Lowercase Roman numerals.
///
/// This encoding utilizes Vinculum notation for numbers 4,000 and above. This
/// notation uses an overline over a repeated set of symbols. A few examples:
///
/// ```rust
/// use nominals::{Nominal, RomanLower};
///
/// assert_eq!(4_000_u32.to_nominal(&RomanLower), ""i̅v̅"");
/// assert_eq!(4_001_u32.to_nominal(&RomanLower), ""i̅v̅i"");
/// assert_eq!(2_000_000_u32.to_nominal(&RomanLower), ""m̅m̅"");
/// ```
#[doc = include_str!(""./previews/RomanLower.md"")]
pub struct RomanLower;

impl<T> NominalSystem<T> for RomanLower
where
    T: Nominal + TryFrom<u128>,
{
    fn try_format_nominal(&self, nominal: T) -> Result<NominalString, Error<T>> {
        AdditiveSet::new([
            (""m̅"", 1_000_000),
            (""d̅m̅"", 900_000),
            (""d̅"", 500_000),
            (""c̅d̅"", 400_000),
            (""c̅"", 100_000),
            (""l̅c̅"", 90_000),
            (""l̅"", 50_000),
            (""x̅l̅"", 40_000),
            (""x̅"", 10_000),
            (""i̅x̅"", 9_000),
            (""v̅"", 5_000),
            (""i̅v̅"", 4_000),
            (""m"", 1_000),
            (""cm"", 900),
            (""d"", 500),
            (""cd"", 400),
            (""c"", 100),
            (""xc"", 90),
            (""l"", 50),
            (""xl"", 40),
            (""x"", 10),
            (""ix"", 9),
            (""v"", 5),
            (""iv"", 4),
            (""i"", 1),
            (""n"", 0),
        ])
        .try_format_nominal(nominal)
    }
}

/// Uppercase Roman numerals
///
/// This encoding utilizes Vinculum notation for numbers 4,000 and above. This
/// notation uses an overline over a repeated set of symbols. A few examples:
///
/// ```rust
/// use nominals::{Nominal, RomanUpper};
///
/// assert_eq!(4000_u32.to_nominal(&RomanUpper), ""I̅V̅"");
/// assert_eq!(4_001_u32.to_nominal(&RomanUpper), ""I̅V̅I"");
/// assert_eq!(2_000_000_u32.to_nominal(&RomanUpper), ""M̅M̅"");
/// ```
#[doc = include_str!(""./previews/RomanUpper.md"")]
pub struct RomanUpper;

impl<T> NominalSystem<T> for RomanUpper
where
    T: Nominal + TryFrom<u128>,
{
    fn try_format_nominal(&self, nominal: T) -> Result<NominalString, Error<T>> {
        AdditiveSet::new([
            (""M̅"", 1_000_000),
            (""D̅M̅"", 900_000),
            (""D̅"", 500_000),
            (""C̅D̅"", 400_000),
            (""C̅"", 100_000),
            (""L̅C̅"", 90_000),
            (""L̅"", 50_000),
            (""X̅L̅"", 40_000),
            (""X̅"", 10_000),
            (""I̅X̅"", 9_000),
            (""V̅"", 5_000),
            (""I̅V̅"", 4_000),
            (""M"", 1_000),
            (""CM"", 900),
            (""D"", 500),
            (""CD"", 400),
            (""C"", 100),
            (""XC"", 90),
            (""L"", 50),
            (""XL"", 40),
            (""X"", 10),
            (""IX"", 9),
            (""V"", 5),
            (""IV"", 4),
            (""I"", 1),
            (""N"", 0),
        ])
        .try_format_nominal(nominal)
    }
}

#[test]
fn roman() {
    use crate::Nominal;

    assert_eq!(0_u32.to_nominal(&RomanUpper), ""N"");
    assert_eq!(1_u32.to_nominal(&RomanUpper), ""I"");
    assert_eq!(2_u32.to_nominal(&RomanUpper), ""II"");
    assert_eq!(3_u32.to_nominal(&RomanUpper), ""III"");
    assert_eq!(4_u32.to_nominal(&RomanUpper), ""IV"");
    assert_eq!(5_u32.to_nominal(&RomanUpper), ""V"");
    assert_eq!(0_u32.to_nominal(&RomanLower), ""n"");
    assert_eq!(1_u32.to_nominal(&RomanLower), ""i"");
    assert_eq!(2_u32.to_nominal(&RomanLower), ""ii"");
    assert_eq!(3_u32.to_nominal(&RomanLower), ""iii"");
    assert_eq!(4_u32.to_nominal(&RomanLower), ""iv"");
    assert_eq!(5_u32.to_nominal(&RomanLower), ""v"");
    assert_eq!(4000_u32.to_nominal(&RomanLower), ""i̅v̅"");
    assert_eq!(2_000_000_u32.to_nominal(&RomanLower), ""m̅m̅"");
}

#[test]
fn long_test() {
    assert_eq!(
        63_000_000_u32.to_nominal(&RomanLower),
        ""m̅m̅m̅m̅m̅m̅m̅m̅m̅m̅m̅m̅m̅m̅m̅m̅m̅m̅m̅m̅m̅m̅m̅m̅m̅m̅m̅m̅m̅m̅m̅m̅m̅m̅m̅m̅m̅m̅m̅m̅m̅m̅m̅m̅m̅m̅m̅m̅m̅m̅m̅m̅m̅m̅m̅m̅m̅m̅m̅m̅m̅m̅m̅""
    );
}

/// Uppercase Armenian numbering.
#[doc = include_str!(""./previews/ArmenianUpper.md"")]
pub struct ArmenianUpper;

impl<T> NominalSystem<T> for ArmenianUpper
where
    T: Nominal + TryFrom<u128>,
{
    fn try_format_nominal(&self, nominal: T) -> Result<NominalString, Error<T>> {
        AdditiveSet::new([
            (""Ք"", 9000),
            (""Փ"", 8000),
            (""Ւ"", 7000),
            (""Ց"", 6000),
            (""Ր"", 5000),
            (""Տ"", 4000),
            (""Վ"", 3000),
            (""Ս"", 2000),
            (""Ռ"", 1000),
            (""Ջ"", 900),
            (""Պ"", 800),
            (""Չ"", 700),
            (""Ո"", 600),
            (""Շ"", 500),
            (""Ն"", 400),
            (""Յ"", 300),
            (""Մ"", 200),
            (""Ճ"", 100),
            (""Ղ"", 90),
            (""Ձ"", 80),
            (""Հ"", 70),
            (""Կ"", 60),
            (""Ծ"", 50),
            (""Խ"", 40),
            (""Լ"", 30),
            (""Ի"", 20),
            (""Ժ"", 10),
            (""Թ"", 9),
            (""Ը"", 8),
            (""Է"", 7),
            (""Զ"", 6),
            (""Ե"", 5),
            (""Դ"", 4),
            (""Գ"", 3),
            (""Բ"", 2),
            (""Ա "", 1),
        ])
        .try_format_nominal(nominal)
    }
}

/// Lowercase Armenian numbering.
#[doc = include_str!(""./previews/ArmenianLower.md"")]
pub struct ArmenianLower;

impl<T> NominalSystem<T> for ArmenianLower
where
    T: Nominal + TryFrom<u128>,
{
    fn try_format_nominal(&self, nominal: T) -> Result<NominalString, Error<T>> {
        AdditiveSet::new([
            (""ք"", 9000),
            (""փ"", 8000),
            (""ւ"", 7000),
            (""ց"", 6000),
            (""ր"", 5000),
            (""տ"", 4000),
            (""վ"", 3000),
            (""ս"", 2000),
            (""ռ"", 1000),
            (""ջ"", 900),
            (""պ"", 800),
            (""չ"", 700),
            (""ո"", 600),
            (""շ"", 500),
            (""ն"", 400),
            (""յ"", 300),
            (""մ"", 200),
            (""ճ"", 100),
            (""ղ"", 90),
            (""ձ"", 80),
            (""հ"", 70),
            (""կ"", 60),
            (""ծ"", 50),
            (""խ"", 40),
            (""լ"", 30),
            (""ի"", 20),
            (""ժ"", 10),
            (""թ"", 9),
            (""ը"", 8),
            (""է"", 7),
            (""զ"", 6),
            (""ե"", 5),
            (""դ"", 4),
            (""գ"", 3),
            (""բ"", 2),
            (""ա"", 1),
        ])
        .try_format_nominal(nominal)
    }
}

/// Traditional Georgian numbering.
#[doc = include_str!(""./previews/Georgian.md"")]
pub struct Georgian;

impl<T> NominalSystem<T> for Georgian
where
    T: Nominal + TryFrom<u128>,
{
    fn try_format_nominal(&self, nominal: T) -> Result<NominalString, Error<T>> {
        AdditiveSet::new([
            (""\u{10F5}"", 10000),
            (""\u{10F0}"", 9000),
            (""\u{10EF}"", 8000),
            (""\u{10F4}"", 7000),
            (""\u{10EE}"", 6000),
            (""\u{10ED}"", 5000),
            (""\u{10EC}"", 4000),
            (""\u{10EB}"", 3000),
            (""\u{10EA}"", 2000),
            (""\u{10E9}"", 1000),
            (""\u{10E8}"", 900),
            (""\u{10E7}"", 800),
            (""\u{10E6}"", 700),
            (""\u{10E5}"", 600),
            (""\u{10E4}"", 500),
            (""\u{10F3}"", 400),
            (""\u{10E2}"", 300),
            (""\u{10E1}"", 200),
            (""\u{10E0}"", 100),
            (""\u{10DF}"", 90),
            (""\u{10DE}"", 80),
            (""\u{10DD}"", 70),
            (""\u{10F2}"", 60),
            (""\u{10DC}"", 50),
            (""\u{10DB}"", 40),
            (""\u{10DA}"", 30),
            (""\u{10D9}"", 20),
            (""\u{10D8}"", 10),
            (""\u{10D7}"", 9),
            (""\u{10F1}"", 8),
            (""\u{10D6}"", 7),
            (""\u{10D5}"", 6),
            (""\u{10D4}"", 5),
            (""\u{10D3}"", 4),
            (""\u{10D2}"", 3),
            (""\u{10D1}"", 2),
            (""\u{10D0}"", 1),
        ])
        .try_format_nominal(nominal)
    }
}

/// Formal Japanese Kanji numbering.
#[doc = include_str!(""./previews/JapaneseFormal.md"")]
pub struct JapaneseFormal;

impl<T> NominalSystem<T> for JapaneseFormal
where
    T: Nominal + TryFrom<u128>,
{
    fn try_format_nominal(&self, nominal: T) -> Result<NominalString, Error<T>> {
        AdditiveSet::new([
            (""\u{4E5D}\u{9621}"", 9000),
            (""\u{516B}\u{9621}"", 8000),
            (""\u{4E03}\u{9621}"", 7000),
            (""\u{516D}\u{9621}"", 6000),
            (""\u{4F0D}\u{9621}"", 5000),
            (""\u{56DB}\u{9621}"", 4000),
            (""\u{53C2}\u{9621}"", 3000),
            (""\u{5F10}\u{9621}"", 2000),
            (""\u{58F1}\u{9621}"", 1000),
            (""\u{4E5D}\u{767E}"", 900),
            (""\u{516B}\u{767E}"", 800),
            (""\u{4E03}\u{767E}"", 700),
            (""\u{516D}\u{767E}"", 600),
            (""\u{4F0D}\u{767E}"", 500),
            (""\u{56DB}\u{767E}"", 400),
            (""\u{53C2}\u{767E}"", 300),
            (""\u{5F10}\u{767E}"", 200),
            (""\u{58F1}\u{767E}"", 100),
            (""\u{4E5D}\u{62FE}"", 90),
            (""\u{516B}\u{62FE}"", 80),
            (""\u{4E03}\u{62FE}"", 70),
            (""\u{516D}\u{62FE}"", 60),
            (""\u{4F0D}\u{62FE}"", 50),
            (""\u{56DB}\u{62FE}"", 40),
            (""\u{53C2}\u{62FE}"", 30),
            (""\u{5F10}\u{62FE}"", 20),
            (""\u{58F1}\u{62FE}"", 10),
            (""\u{4E5D}"", 9),
            (""\u{516B}"", 8),
            (""\u{4E03}"", 7),
            (""\u{516D}"", 6),
            (""\u{4F0D}"", 5),
            (""\u{56DB}"", 4),
            (""\u{53C2}"", 3),
            (""\u{5F10}"", 2),
            (""\u{58F1}"", 1),
            (""\u{96F6}"", 0),
        ])
        .try_format_nominal(nominal)
    }
}

/// Informal Japanese Kanji numbering.
#[doc = include_str!(""./previews/JapaneseInformal.md"")]
pub struct JapaneseInformal;

impl<T> NominalSystem<T> for JapaneseInformal
where
    T: Nominal + TryFrom<u128>,
{
    fn try_format_nominal(&self, nominal: T) -> Result<NominalString, Error<T>> {
        AdditiveSet::new([
            (""\u{4E5D}\u{5343}"", 9000),
            (""\u{516B}\u{5343}"", 8000),
            (""\u{4E03}\u{5343}"", 7000),
            (""\u{516D}\u{5343}"", 6000),
            (""\u{4E94}\u{5343}"", 5000),
            (""\u{56DB}\u{5343}"", 4000),
            (""\u{4E09}\u{5343}"", 3000),
            (""\u{4E8C}\u{5343}"", 2000),
            (""\u{5343}"", 1000),
            (""\u{4E5D}\u{767E}"", 900),
            (""\u{516B}\u{767E}"", 800),
            (""\u{4E03}\u{767E}"", 700),
            (""\u{516D}\u{767E}"", 600),
            (""\u{4E94}\u{767E}"", 500),
            (""\u{56DB}\u{767E}"", 400),
            (""\u{4E09}\u{767E}"", 300),
            (""\u{4E8C}\u{767E}"", 200),
            (""\u{767E}"", 100),
            (""\u{4E5D}\u{5341}"", 90),
            (""\u{516B}\u{5341}"", 80),
            (""\u{4E03}\u{5341}"", 70),
            (""\u{516D}\u{5341}"", 60),
            (""\u{4E94}\u{5341}"", 50),
            (""\u{56DB}\u{5341}"", 40),
            (""\u{4E09}\u{5341}"", 30),
            (""\u{4E8C}\u{5341}"", 20),
            (""\u{5341}"", 10),
            (""\u{4E5D}"", 9),
            (""\u{516B}"", 8),
            (""\u{4E03}"", 7),
            (""\u{516D}"", 6),
            (""\u{4E94}"", 5),
            (""\u{56DB}"", 4),
            (""\u{4E09}"", 3),
            (""\u{4E8C}"", 2),
            (""\u{4E00}"", 1),
            (""\u{3007}"", 0),
        ])
        .try_format_nominal(nominal)
    }
}

/// Korean Hangeul/Hangul numbering.
///
/// [Why Hangeul and not Hangul?](https://github.com/khonsulabs/nominals/issues/6)
#[doc = include_str!(""./previews/HangeulFormal.md"")]
pub struct HangeulFormal;

impl<T> NominalSystem<T> for HangeulFormal
where
    T: Nominal + TryFrom<u128>,
{
    fn try_format_nominal(&self, nominal: T) -> Result<NominalString, Error<T>> {
        AdditiveSet::new([
            (""\u{AD6C}\u{CC9C}"", 9000),
            (""\u{D314}\u{CC9C}"", 8000),
            (""\u{CE60}\u{CC9C}"", 7000),
            (""\u{C721}\u{CC9C}"", 6000),
            (""\u{C624}\u{CC9C}"", 5000),
            (""\u{C0AC}\u{CC9C}"", 4000),
            (""\u{C0BC}\u{CC9C}"", 3000),
            (""\u{C774}\u{CC9C}"", 2000),
            (""\u{C77C}\u{CC9C}"", 1000),
            (""\u{AD6C}\u{BC31}"", 900),
            (""\u{D314}\u{BC31}"", 800),
            (""\u{CE60}\u{BC31}"", 700),
            (""\u{C721}\u{BC31}"", 600),
            (""\u{C624}\u{BC31}"", 500),
            (""\u{C0AC}\u{BC31}"", 400),
            (""\u{C0BC}\u{BC31}"", 300),
            (""\u{C774}\u{BC31}"", 200),
            (""\u{C77C}\u{BC31}"", 100),
            (""\u{AD6C}\u{C2ED}"", 90),
            (""\u{D314}\u{C2ED}"", 80),
            (""\u{CE60}\u{C2ED}"", 70),
            (""\u{C721}\u{C2ED}"", 60),
            (""\u{C624}\u{C2ED}"", 50),
            (""\u{C0AC}\u{C2ED}"", 40),
            (""\u{C0BC}\u{C2ED}"", 30),
            (""\u{C774}\u{C2ED}"", 20),
            (""\u{C77C}\u{C2ED}"", 10),
            (""\u{AD6C}"", 9),
            (""\u{D314}"", 8),
            (""\u{CE60}"", 7),
            (""\u{C721}"", 6),
            (""\u{C624}"", 5),
            (""\u{C0AC}"", 4),
            (""\u{C0BC}"", 3),
            (""\u{C774}"", 2),
            (""\u{C77C}"", 1),
            (""\u{C601}"", 0),
        ])
        .try_format_nominal(nominal)
    }
}

/// Informal Korean Hanja numbering.
#[doc = include_str!(""./previews/HanjaInformal.md"")]
pub struct HanjaInformal;

impl<T> NominalSystem<T> for HanjaInformal
where
    T: Nominal + TryFrom<u128>,
{
    fn try_format_nominal(&self, nominal: T) -> Result<NominalString, Error<T>> {
        AdditiveSet::new([
            (""\u{4E5D}\u{5343}"", 9000),
            (""\u{516B}\u{5343}"", 8000),
            (""\u{4E03}\u{5343}"", 7000),
            (""\u{516D}\u{5343}"", 6000),
            (""\u{4E94}\u{5343}"", 5000),
            (""\u{56DB}\u{5343}"", 4000),
            (""\u{4E09}\u{5343}"", 3000),
            (""\u{4E8C}\u{5343}"", 2000),
            (""\u{5343}"", 1000),
            (""\u{4E5D}\u{767E}"", 900),
            (""\u{516B}\u{767E}"", 800),
            (""\u{4E03}\u{767E}"", 700),
            (""\u{516D}\u{767E}"", 600),
            (""\u{4E94}\u{767E}"", 500),
            (""\u{56DB}\u{767E}"", 400),
            (""\u{4E09}\u{767E}"", 300),
            (""\u{4E8C}\u{767E}"", 200),
            (""\u{767E}"", 100),
            (""\u{4E5D}\u{5341}"", 90),
            (""\u{516B}\u{5341}"", 80),
            (""\u{4E03}\u{5341}"", 70),
            (""\u{516D}\u{5341}"", 60),
            (""\u{4E94}\u{5341}"", 50),
            (""\u{56DB}\u{5341}"", 40),
            (""\u{4E09}\u{5341}"", 30),
            (""\u{4E8C}\u{5341}"", 20),
            (""\u{5341}"", 10),
            (""\u{4E5D}"", 9),
            (""\u{516B}"", 8),
            (""\u{4E03}"", 7),
            (""\u{516D}"", 6),
            (""\u{4E94}"", 5),
            (""\u{56DB}"", 4),
            (""\u{4E09}"", 3),
            (""\u{4E8C}"", 2),
            (""\u{4E00}"", 1),
            (""\u{96F6}"", 0),
        ])
        .try_format_nominal(nominal)
    }
}

/// Formal Korean Hanja numbering.
#[doc = include_str!(""./previews/HanjaFormal.md"")]
pub struct HanjaFormal;

impl<T> NominalSystem<T> for HanjaFormal
where
    T: Nominal + TryFrom<u128>,
{
    fn try_format_nominal(&self, nominal: T) -> Result<NominalString, Error<T>> {
        AdditiveSet::new([
            (""\u{4E5D}\u{4EDF}"", 9000),
            (""\u{516B}\u{4EDF}"", 8000),
            (""\u{4E03}\u{4EDF}"", 7000),
            (""\u{516D}\u{4EDF}"", 6000),
            (""\u{4E94}\u{4EDF}"", 5000),
            (""\u{56DB}\u{4EDF}"", 4000),
            (""\u{53C3}\u{4EDF}"", 3000),
            (""\u{8CB3}\u{4EDF}"", 2000),
            (""\u{58F9}\u{4EDF}"", 1000),
            (""\u{4E5D}\u{767E}"", 900),
            (""\u{516B}\u{767E}"", 800),
            (""\u{4E03}\u{767E}"", 700),
            (""\u{516D}\u{767E}"", 600),
            (""\u{4E94}\u{767E}"", 500),
            (""\u{56DB}\u{767E}"", 400),
            (""\u{53C3}\u{767E}"", 300),
            (""\u{8CB3}\u{767E}"", 200),
            (""\u{58F9}\u{767E}"", 100),
            (""\u{4E5D}\u{62FE}"", 90),
            (""\u{516B}\u{62FE}"", 80),
            (""\u{4E03}\u{62FE}"", 70),
            (""\u{516D}\u{62FE}"", 60),
            (""\u{4E94}\u{62FE}"", 50),
            (""\u{56DB}\u{62FE}"", 40),
            (""\u{53C3}\u{62FE}"", 30),
            (""\u{8CB3}\u{62FE}"", 20),
            (""\u{58F9}\u{62FE}"", 10),
            (""\u{4E5D}"", 9),
            (""\u{516B}"", 8),
            (""\u{4E03}"", 7),
            (""\u{516D}"", 6),
            (""\u{4E94}"", 5),
            (""\u{56DB}"", 4),
            (""\u{53C3}"", 3),
            (""\u{8CB3}"", 2),
            (""\u{58F9}"", 1),
            (""\u{96F6}"", 0),
        ])
        .try_format_nominal(nominal)
    }
}
"%string.

(** src/enumerated.rs:66-81 *)
Definition enumerated_tables_source : string := "
impl_enum_set! {
    /// Circled numbers, ranging from 0 to 50.
    CircledNumber, new, [ 
        ""⓪"", ""①"", ""②"", ""③"", ""④"", ""⑤"", ""⑥"", ""⑦"", ""⑧"", ""⑨"", ""⑩"",
        ""⑪"", ""⑫"", ""⑬"", ""⑭"", ""⑮"", ""⑯"", ""⑰"", ""⑱"", ""⑲"", ""⑳"",
        ""㉑"", ""㉒"", ""㉓"", ""㉔"", ""㉕"", ""㉖"", ""㉗"", ""㉘"", ""㉙"", ""㉚"",
        ""㉛"", ""㉜"", ""㉝"", ""㉞"", ""㉟"", ""㊱"", ""㊲"", ""㊳"", ""㊴"", ""㊵"",
        ""㊶"", ""㊷"", ""㊸"", ""㊹"", ""㊺"", ""㊻"", ""㊼"", ""㊽"", ""㊾"", ""㊿""
    ]
}

impl_enum_set! {
    /// Doubly-circled numbers, ranging from 1 to 10.
    DoubleCircledNumber, zeroless, [""⓵"", ""⓶"", ""⓷"", ""⓸"", ""⓹"", ""⓺"", ""⓻"", ""⓼"", ""⓽"", ""⓾""]
}
"%string.
