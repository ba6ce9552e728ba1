(** * Sources: pieces of /repo/src, character by character

    Coq string literals double the quotation mark; apart from that the texts
    are the lines named beside them. Regenerate with tools/sources.py. *)

From Coq Require Import String.

(** src/ethiopic.rs:1-85, the whole file *)
Definition ethiopic_source : string := "use crate::{Error, Nominal, NominalString, NominalSystem, OutOfMemoryError};

/// Ethiopic numerical system.
#[doc = include_str!(""./previews/Ethiopic.md"")]
pub struct Ethiopic;

const ONES: [char; 10] = [
    '\0', '\u{1369}', '\u{136A}', '\u{136B}', '\u{136C}', '\u{136D}', '\u{136E}', '\u{136F}',
    '\u{1370}', '\u{1371}',
];
const TENS: [char; 10] = [
    '\0', '\u{1372}', '\u{1373}', '\u{1374}', '\u{1375}', '\u{1376}', '\u{1377}', '\u{1378}',
    '\u{1379}', '\u{137A}',
];

fn format_ethiopic<T: Nominal>(nominal: T) -> Result<NominalString, OutOfMemoryError> {
    let ten = T::from(10);

    let mut formatted = NominalString::new_reverse();

    let mut remaining = nominal;
    for group_index in 0.. {
        if remaining.is_zero() {
            break;
        }

        let first = remaining % ten;
        remaining /= ten;
        let second = remaining % ten;
        remaining /= ten;

        let first_is_zero = first.is_zero();
        let second_is_zero = second.is_zero();
        let first_is_one = first == T::from(1);
        let group_is_odd = group_index % 2 == 1;
        let not_first_group = group_index > 0;

        if not_first_group {
            if !group_is_odd {
                formatted.try_push_front('\u{137C}')?;
            } else if !(first_is_zero && second_is_zero) {
                formatted.try_push_front('\u{137B}')?;
            }
        }

        let remove_digits = (first_is_zero && second_is_zero)
            || ((remaining.is_zero() || group_is_odd)
                && not_first_group
                && second_is_zero
                && first_is_one);

        if !remove_digits {
            if !first_is_zero {
                formatted.try_push_front(ONES[first.as_usize()])?;
            }

            if !second_is_zero {
                formatted.try_push_front(TENS[second.as_usize()])?;
            }
        }
    }

    Ok(formatted)
}

impl<T> NominalSystem<T> for Ethiopic
where
    T: Nominal,
{
    fn try_format_nominal(&self, nominal: T) -> Result<NominalString, Error<T>> {
        if nominal.is_zero() {
            return Err(Error::NoZeroSymbol);
        }
        format_ethiopic(nominal).map_err(|_| Error::OutOfMemory(nominal))
    }
}

#[test]
fn ethiopic() {
    assert_eq!(1_u32.to_nominal(&Ethiopic), ""፩"");
    assert_eq!(100_u32.to_nominal(&Ethiopic), ""፻"");
    assert_eq!(101_u32.to_nominal(&Ethiopic), ""፻፩"");
    assert_eq!(78_010_092_u32.to_nominal(&Ethiopic), ""፸፰፻፩፼፺፪"");
    assert_eq!(780_100_000_092_u64.to_nominal(&Ethiopic), ""፸፰፻፩፼፼፺፪"");
}
"%string.

(** src/hebrew.rs:1-85, the whole file *)
Definition hebrew_source : string := "use crate::{Error, Nominal, NominalString, NominalSystem, UnsignedInteger, WithNominal};

/// Hebrew numerals.
#[doc = include_str!(""./previews/Hebrew.md"")]
pub struct Hebrew;

impl<T> NominalSystem<T> for Hebrew
where
    T: Nominal + UnsignedInteger + TryFrom<u32> + From<u8>,
{
    fn try_format_nominal(&self, nominal: T) -> Result<NominalString, Error<T>> {
        let mut remaining = nominal;
        if remaining.is_zero() {
            return Err(Error::NoZeroSymbol);
        }

        let fifteen = T::from(15);
        let sixteen = T::from(16);

        let mut formatted = NominalString::default();
        'symbol_loop: for (symbol, value) in [
            ('ת', 400u32),
            ('ש', 300),
            ('ר', 200),
            ('ק', 100),
            ('צ', 90),
            ('פ', 80),
            ('ע', 70),
            ('ס', 60),
            ('נ', 50),
            ('מ', 40),
            ('ל', 30),
            ('כ', 20),
            ('י', 10),
            ('ט', 9),
            ('ח', 8),
            ('ז', 7),
            ('ו', 6),
            ('ה', 5),
            ('ד', 4),
            ('ג', 3),
            ('ב', 2),
            ('א', 1),
        ] {
            let Ok(value) = T::try_from(value) else {
                continue;
            };

            while remaining >= value {
                if remaining == fifteen {
                    formatted.try_push_str(""ט״ו"").with_nominal(nominal)?;
                    break 'symbol_loop;
                } else if remaining == sixteen {
                    formatted.try_push_str(""ט״ז"").with_nominal(nominal)?;
                    break 'symbol_loop;
                }

                // When a single symbol is used to represent a number, the
                // symbol is wrapped in geresh and gershayim characters to
                // distinguish it from a word.
                let single_symbol = value == remaining && formatted.is_empty();
                if single_symbol {
                    formatted.try_push('׳').with_nominal(nominal)?;
                }
                remaining -= value;
                formatted.try_push(symbol).with_nominal(nominal)?;
                if single_symbol {
                    formatted.try_push('״').with_nominal(nominal)?;
                    break;
                }
            }
        }

        Ok(formatted)
    }
}

#[test]
fn hebrew() {
    assert_eq!(Hebrew.format_nominal(997_u32), ""תתקצז"");
    assert_eq!(Hebrew.format_nominal(1_u32), ""׳א״"");
    assert_eq!(Hebrew.format_nominal(15_u32), ""ט״ו"");
    assert_eq!(Hebrew.format_nominal(16_u32), ""ט״ז"");
    assert_eq!(Hebrew.try_format_nominal(0_u32), Err(Error::NoZeroSymbol));
}
"%string.

(** src/additive.rs:34-66 *)
Definition additive_source : string := "impl<const N: usize, T> NominalSystem<T> for AdditiveSet<N>
where
    T: Nominal + TryFrom<u128>,
{
    fn try_format_nominal(&self, nominal: T) -> Result<NominalString, Error<T>> {
        let mut formatted = NominalString::default();

        let mut remaining = nominal;
        if remaining.is_zero() {
            return if let Some(zero) = self.zero {
                Ok(NominalString::from(zero))
            } else {
                Err(Error::NoZeroSymbol)
            };
        }

        for (symbol, value) in self.symbols {
            if value == 0 {
                break;
            }

            let Ok(value_as_t) = T::try_from(value) else {
                continue;
            };
            while remaining >= value_as_t {
                remaining -= value_as_t;
                formatted.try_push_str(symbol).with_nominal(nominal)?;
            }
        }

        Ok(formatted)
    }
}
"%string.

(** src/digital.rs:556-607 *)
Definition digital_source : string := "impl<T, D> NominalSystem<T> for D
where
    D: DigitCollection,
    T: Nominal + UnsignedInteger,
{
    fn try_format_nominal(&self, nominal: T) -> Result<NominalString, Error<T>> {
        let Ok(mut count) = T::try_from(self.len()) else {
            return Ok(NominalString::from(self.digit(nominal.as_usize())));
        };
        if self.fixed()
            && (if self.zero_based() {
                nominal >= count
            } else {
                nominal > count
            })
        {
            let fallback = <D::Fallback>::default();
            return if fallback.is_empty() {
                Err(Error::OutOfBounds(nominal))
            } else {
                fallback.try_format_nominal(nominal)
            };
        }

        let one = T::from(1_u8);
        let mut formatted = NominalString::new_reverse();

        let mut remaining = nominal;
        let mut first_loop = true;
        while !remaining.is_zero() || first_loop {
            if !self.has_zero_digit() && (!self.zero_based() || !first_loop) {
                if !self.has_zero_digit() && remaining.is_zero() {
                    return Err(Error::NoZeroSymbol);
                }

                remaining -= one;
            }
            first_loop = false;

            formatted
                .try_push_front(self.digit((remaining % count).as_usize()))
                .with_nominal(nominal)?;
            remaining /= count;
            count = match T::try_from(self.len()) {
                Ok(count) => count,
                Err(_) => return Err(Error::OutOfBounds(nominal)),
            };
        }

        Ok(formatted)
    }
}
"%string.

(** src/enumerated.rs:26-43 *)
Definition enumerated_source : string := "impl<const N: usize, const HAS_ZERO: bool, T> NominalSystem<T> for EnumeratedSet<N, HAS_ZERO>
where
    T: Nominal,
{
    fn try_format_nominal(&self, nominal: T) -> Result<NominalString, Error<T>> {
        let n: usize = nominal
            .try_into()
            .map_err(|_| Error::OutOfBounds(nominal))?;

        if !HAS_ZERO && nominal.is_zero() {
            Err(Error::NoZeroSymbol)
        } else if let Some(&symbol) = self.symbols.get(n - usize::from(!HAS_ZERO)) {
            Ok(symbol.into())
        } else {
            Err(Error::OutOfBounds(nominal))
        }
    }
}
"%string.

(** src/chinese.rs:1-526 *)
Definition chinese_source : string := "use core::array;

use crate::{Error, Nominal, NominalString, NominalSystem, OutOfMemoryError};

const SIMPLIFIED_ORDINARY: [char; 14] = [
    '零', '一', '二', '三', '四', '五', '六', '七', '八', '九', '十', '百', '千', '负',
];
const SIMPLIFIED_FINANCIAL: [char; 14] = [
    '零', '壹', '贰', '叁', '肆', '伍', '陆', '柒', '捌', '玖', '拾', '佰', '仟', '负',
];
const TRADITIONAL_ORDINARY: [char; 14] = [
    '零', '一', '二', '三', '四', '五', '六', '七', '八', '九', '十', '百', '千', '負',
];
const TRADITIONAL_FINANCIAL: [char; 14] = [
    '零', '壹', '貳', '參', '肆', '伍', '陸', '柒', '捌', '玖', '拾', '佰', '仟', '負',
];

const TRADITIONAL_LARGE: [char; 11] = [
    '萬', '億', '兆', '京', '垓', '秭', '穰', '溝', '澗', '正', '載',
];
const SIMPLIFIED_LARGE: [char; 11] = [
    '万', '亿', '兆', '京', '垓', '秭', '穰', '沟', '涧', '正', '载',
];

fn format_chinese<T, const FORMAL: bool>(
    characters: &[char; 14],
    large_characters: &[char; 11],
    nominal: T,
    scale: ChineseScale,
) -> Result<NominalString, Error<T>>
where
    T: Nominal + TryFrom<u128>,
{
    if nominal.is_zero() {
        return Ok(NominalString::from(characters[0]));
    }
    if let Ok(ten_thousand) = T::try_from(10_000usize) {
        if nominal >= ten_thousand {
            return scale
                .format::<T, FORMAL>(characters, large_characters, nominal)
                .map_err(|err| match err {
                    ChineseFormatError::OutOfMemory => Error::OutOfMemory(nominal),
                    ChineseFormatError::OutOfBounds => Error::OutOfBounds(nominal),
                });
        }
    }

    format_chinese_inner::<T, FORMAL>(characters, nominal, true, &mut false)
        .map_err(|_| Error::OutOfMemory(nominal))
}

fn format_chinese_inner<T, const FORMAL: bool>(
    characters: &[char; 14],
    nominal: T,
    no_prefix: bool,
    last_char_is_zero: &mut bool,
) -> Result<NominalString, OutOfMemoryError>
where
    T: Nominal,
{
    let one = T::from(1);
    let ten = T::from(10);

    let mut remaining = nominal;
    let ones = remaining % ten;
    remaining /= ten;
    let tens = remaining % ten;
    remaining /= ten;
    let hundreds = remaining % ten;
    let thousands = remaining / ten;

    let mut formatted = NominalString::new();

    if thousands.is_zero() {
        if !no_prefix && !*last_char_is_zero && !hundreds.is_zero() {
            *last_char_is_zero = true;
            formatted.try_push(characters[0])?;
        }
    } else {
        formatted.try_push(characters[thousands.as_usize()])?;
        formatted.try_push(characters[12])?;
        *last_char_is_zero = false;
    }

    if hundreds.is_zero() {
        if (!formatted.is_empty() || !no_prefix) && !*last_char_is_zero && !tens.is_zero() {
            *last_char_is_zero = true;
            formatted.try_push(characters[0])?;
        }
    } else {
        formatted.try_push(characters[hundreds.as_usize()])?;
        formatted.try_push(characters[11])?;
        *last_char_is_zero = false;
    }

    if tens.is_zero() {
        if (!formatted.is_empty() || !no_prefix) && !*last_char_is_zero && !ones.is_zero() {
            formatted.try_push(characters[0])?;
            *last_char_is_zero = true;
        }
    } else {
        let omit_digit =
            !(FORMAL || (!formatted.is_empty() || !no_prefix) || *last_char_is_zero || tens != one);
        if !omit_digit {
            formatted.try_push(characters[tens.as_usize()])?;
        }
        formatted.try_push(characters[10])?;
        *last_char_is_zero = false;
    }

    if !ones.is_zero() {
        formatted.try_push(characters[ones.as_usize()])?;
        *last_char_is_zero = false;
    }

    Ok(formatted)
}

#[derive(Debug, Default, Clone, Copy, Eq, PartialEq)]
struct ChineseOptions {
    usage: ChineseUsage,
    scale: ChineseScale,
}

#[derive(Debug, Default, Clone, Copy, Eq, PartialEq)]
enum ChineseUsage {
    Financial,
    #[default]
    Ordinary,
}

#[derive(Debug, Default, Clone, Copy, Eq, PartialEq)]
enum ChineseScale {
    Short,
    #[default]
    Myriad,
    Mid,
    Long,
}

impl ChineseScale {
    fn format<T, const FORMAL: bool>(
        self,
        characters: &[char; 14],
        large_characters: &[char; 11],
        nominal: T,
    ) -> Result<NominalString, ChineseFormatError>
    where
        T: Nominal + TryFrom<u128>,
    {
        match self {
            ChineseScale::Short => {
                Self::format_short_rank::<T, FORMAL>(10, characters, large_characters, nominal)
            }
            ChineseScale::Myriad => Self::format_scaled::<T, FORMAL, 9>(
                MYRIAD_SCALE,
                characters,
                large_characters,
                nominal,
            ),
            ChineseScale::Mid => Self::format_scaled::<T, FORMAL, 5>(
                MID_SCALE,
                characters,
                large_characters,
                nominal,
            ),
            ChineseScale::Long => Self::format_scaled::<T, FORMAL, 4>(
                LONG_SCALE,
                characters,
                large_characters,
                nominal,
            ),
        }
    }

    fn format_short_rank<T, const FORMAL: bool>(
        mut rank: usize,
        characters: &[char; 14],
        large_characters: &[char; 11],
        nominal: T,
    ) -> Result<NominalString, ChineseFormatError>
    where
        T: Nominal + TryFrom<u128>,
    {
        let Ok(mut scale) = T::try_from(SHORT_SCALE[rank]) else {
            return Self::format_short_rank::<T, FORMAL>(
                rank - 1,
                characters,
                large_characters,
                nominal,
            );
        };

        let mut formatted = NominalString::new();
        let mut last_was_zero = false;
        let mut remaining = nominal;
        while !remaining.is_zero() {
            let rank_value = remaining / scale;
            if rank_value >= T::from(10) {
                return Err(ChineseFormatError::OutOfBounds);
            }

            remaining %= scale;

            if rank_value.is_zero() {
                if !formatted.is_empty() && !last_was_zero {
                    last_was_zero = true;
                    formatted.try_push(characters[0])?;
                }
            } else {
                formatted.try_push(characters[rank_value.as_usize()])?;
                formatted.try_push(large_characters[rank])?;
                last_was_zero = false;
            }

            if rank == 0 {
                break;
            }
            rank -= 1;
            let Ok(new_scale) = T::try_from(SHORT_SCALE[rank]) else {
                unreachable!(""rank + 1 was valid"")
            };
            scale = new_scale;
        }

        if !remaining.is_zero() {
            let remaining = format_chinese_inner::<T, FORMAL>(
                characters,
                remaining,
                false,
                &mut last_was_zero,
            )?;
            formatted.try_push_str(&remaining)?;
        }
        Ok(formatted)
    }

    fn format_scaled<T, const FORMAL: bool, const N: usize>(
        scales: [u128; N],
        characters: &[char; 14],
        large_characters: &[char; 11],
        nominal: T,
    ) -> Result<NominalString, ChineseFormatError>
    where
        T: Nominal + TryFrom<u128>,
    {
        let scales: [Option<T>; N] = array::from_fn(|index| T::try_from(scales[index]).ok());
        Self::format_scaled_inner::<T, FORMAL, N>(
            scales,
            characters,
            large_characters,
            nominal,
            true,
            &mut false,
        )
    }

    fn format_scaled_inner<T, const FORMAL: bool, const N: usize>(
        scales: [Option<T>; N],
        characters: &[char; 14],
        large_characters: &[char; 11],
        nominal: T,
        no_prefix: bool,
        last_char_is_zero: &mut bool,
    ) -> Result<NominalString, ChineseFormatError>
    where
        T: Nominal + TryFrom<u128>,
    {
        Self::format_scaled_rank::<T, FORMAL, N>(
            10,
            scales,
            characters,
            large_characters,
            nominal,
            no_prefix,
            last_char_is_zero,
        )
    }

    fn format_next_scaled_rank<T, const FORMAL: bool, const N: usize>(
        rank: usize,
        scales: [Option<T>; N],
        characters: &[char; 14],
        large_characters: &[char; 11],
        nominal: T,
        no_prefix: bool,
        last_char_is_zero: &mut bool,
    ) -> Result<NominalString, ChineseFormatError>
    where
        T: Nominal + TryFrom<u128>,
    {
        if let Some(rank) = rank.checked_sub(1) {
            Self::format_scaled_rank::<T, FORMAL, N>(
                rank,
                scales,
                characters,
                large_characters,
                nominal,
                no_prefix,
                last_char_is_zero,
            )
        } else {
            format_chinese_inner::<T, FORMAL>(characters, nominal, no_prefix, last_char_is_zero)
                .map_err(ChineseFormatError::from)
        }
    }

    fn format_scaled_rank<T, const FORMAL: bool, const N: usize>(
        rank: usize,
        scales: [Option<T>; N],
        characters: &[char; 14],
        large_characters: &[char; 11],
        nominal: T,
        no_prefix: bool,
        last_char_is_zero: &mut bool,
    ) -> Result<NominalString, ChineseFormatError>
    where
        T: Nominal + TryFrom<u128>,
    {
        let Some(scale) = scales.get(rank).copied().flatten() else {
            return Self::format_next_scaled_rank::<T, FORMAL, N>(
                rank,
                scales,
                characters,
                large_characters,
                nominal,
                no_prefix,
                last_char_is_zero,
            );
        };
        let remaining = nominal % scale;
        let rank_value = nominal / scale;

        if let Some(previous_scale) = scales.get(rank + 1).copied().flatten() {
            let factor = previous_scale / scale;
            if rank_value >= factor {
                return Err(ChineseFormatError::OutOfBounds);
            }
        } else if rank > 0 {
            let factor = scale / scales[rank - 1].expect(""rank is valid"");
            if rank_value >= factor {
                return Err(ChineseFormatError::OutOfBounds);
            }
        }
        let mut formatted = if rank_value.is_zero() {
            NominalString::new()
        } else {
            let mut rank_formatted = Self::format_next_scaled_rank::<T, FORMAL, N>(
                rank,
                scales,
                characters,
                large_characters,
                rank_value,
                no_prefix,
                last_char_is_zero,
            )?;
            if !rank_formatted.is_empty() {
                rank_formatted.try_push(large_characters[rank])?;
                *last_char_is_zero = false;
            }
            rank_formatted
        };
        if remaining.is_zero() {
            Ok(formatted)
        } else {
            let remaining = Self::format_next_scaled_rank::<T, FORMAL, N>(
                rank,
                scales,
                characters,
                large_characters,
                remaining,
                formatted.is_empty() && no_prefix,
                last_char_is_zero,
            )?;
            formatted.try_push_str(&remaining)?;
            Ok(formatted)
        }
    }
}

enum ChineseFormatError {
    OutOfBounds,
    OutOfMemory,
}

impl From<OutOfMemoryError> for ChineseFormatError {
    fn from(_value: OutOfMemoryError) -> Self {
        ChineseFormatError::OutOfMemory
    }
}

const SHORT_SCALE: [u128; 11] = [
    10_u128.pow(4),
    10_u128.pow(5),
    10_u128.pow(6),
    10_u128.pow(7),
    10_u128.pow(8),
    10_u128.pow(9),
    10_u128.pow(10),
    10_u128.pow(11),
    10_u128.pow(12),
    10_u128.pow(13),
    10_u128.pow(14),
];

const MYRIAD_SCALE: [u128; 9] = [
    10_u128.pow(4),
    10_u128.pow(8),
    10_u128.pow(12),
    10_u128.pow(16),
    10_u128.pow(20),
    10_u128.pow(24),
    10_u128.pow(28),
    10_u128.pow(32),
    10_u128.pow(36),
];

const MID_SCALE: [u128; 5] = [
    10_u128.pow(4),
    10_u128.pow(8),
    10_u128.pow(16),
    10_u128.pow(24),
    10_u128.pow(32),
];

const LONG_SCALE: [u128; 4] = [
    10_u128.pow(4),
    10_u128.pow(8),
    10_u128.pow(16),
    10_u128.pow(32),
];

/// Simplified Chinese Informal numerical system.
///
/// By default, this type formats with myriad counting (ten thousands) and
/// ordinary characters.
///
/// This type performs the ""informal"" rules as defined by the CSS standard. This
/// allows the tens digit to be omitted in some situations.
#[doc = include_str!(""./previews/SimplifiedChineseInformal.md"")]
#[derive(Debug, Default, Clone, Copy, Eq, PartialEq)]
pub struct SimplifiedChineseInformal(ChineseOptions);

impl<T> NominalSystem<T> for SimplifiedChineseInformal
where
    T: Nominal + TryFrom<u128>,
{
    fn try_format_nominal(&self, nominal: T) -> Result<NominalString, Error<T>> {
        let characters = match self.0.usage {
            ChineseUsage::Financial => &SIMPLIFIED_FINANCIAL,
            ChineseUsage::Ordinary => &SIMPLIFIED_ORDINARY,
        };
        format_chinese::<_, false>(characters, &SIMPLIFIED_LARGE, nominal, self.0.scale)
    }
}

/// Simplified Chinese Formal numerical system.
///
/// By default, this type formats with myriad counting (ten thousands) and
/// ordinary characters.
///
/// This type does not implement the ""informal"" rules as defined by the CSS
/// standard.
#[doc = include_str!(""./previews/SimplifiedChineseFormal.md"")]
#[derive(Debug, Default, Clone, Copy, Eq, PartialEq)]
pub struct SimplifiedChineseFormal(ChineseOptions);

impl<T> NominalSystem<T> for SimplifiedChineseFormal
where
    T: Nominal + TryFrom<u128>,
{
    fn try_format_nominal(&self, nominal: T) -> Result<NominalString, Error<T>> {
        let characters = match self.0.usage {
            ChineseUsage::Financial => &SIMPLIFIED_FINANCIAL,
            ChineseUsage::Ordinary => &SIMPLIFIED_ORDINARY,
        };
        format_chinese::<_, true>(characters, &SIMPLIFIED_LARGE, nominal, self.0.scale)
    }
}

/// Traditional Chinese Formal numerical system.
///
/// By default, this type formats with myriad counting (ten thousands) and
/// ordinary characters.
///
/// This type does not implement the ""informal"" rules as defined by the CSS
/// standard.
#[doc = include_str!(""./previews/TraditionalChineseFormal.md"")]
#[derive(Debug, Default, Clone, Copy, Eq, PartialEq)]
pub struct TraditionalChineseFormal(ChineseOptions);

impl<T> NominalSystem<T> for TraditionalChineseFormal
where
    T: Nominal + TryFrom<u128>,
{
    fn try_format_nominal(&self, nominal: T) -> Result<NominalString, Error<T>> {
        let characters = match self.0.usage {
            ChineseUsage::Financial => &TRADITIONAL_FINANCIAL,
            ChineseUsage::Ordinary => &TRADITIONAL_ORDINARY,
        };
        format_chinese::<_, true>(characters, &TRADITIONAL_LARGE, nominal, self.0.scale)
    }
}

/// Traditional Chinese Informal numerical system.
///
/// By default, this type formats with myriad counting (ten thousands) and
/// ordinary characters.
///
/// This type performs the ""informal"" rules as defined by the CSS standard. This
/// allows the tens digit to be omitted in some situations.
#[derive(Debug, Default, Clone, Copy, Eq, PartialEq)]
pub struct TraditionalChineseInformal(ChineseOptions);

impl<T> NominalSystem<T> for TraditionalChineseInformal
where
    T: Nominal + TryFrom<u128>,
{
    fn try_format_nominal(&self, nominal: T) -> Result<NominalString, Error<T>> {
        let characters = match self.0.usage {
            ChineseUsage::Financial => &TRADITIONAL_FINANCIAL,
            ChineseUsage::Ordinary => &TRADITIONAL_ORDINARY,
        };
        format_chinese::<_, false>(characters, &TRADITIONAL_LARGE, nominal, self.0.scale)
    }
}
"%string.
