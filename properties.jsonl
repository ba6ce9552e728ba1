{"id": "C01", "title": "Pushes build exactly the pushed text", "statement": "With the alloc feature, for a NominalString obtained from any constructor (new, new_reverse, From<char>, From<&str>, From<String>), every try_push, try_push_str and try_push_front succeeds, and afterwards the string reads as the starting text with each pushed piece appended (or prepended for try_push_front) in call order; no call panics.", "quantifier": "every constructor, every finite history of push operations, every character and string", "why_tests_cant": "the state is a 62-byte buffer filled from either end plus a heap fallback; only an induction over all histories covers every fill level, direction and multi-byte split", "anchors": ["src/nominalstring.rs: NominalString::{new,new_reverse,try_push,try_push_str,try_push_front}, InlineString::{push,push_str,push_front}, MaybeInline::{push,push_str,push_front}"]}
{"id": "C02", "title": "new() and new_reverse() are observationally identical", "statement": "Running the same series of push operations on NominalString::new() and on NominalString::new_reverse() returns the same Ok/Err results in the same order, leaves strings with the same text, and is_inline() agrees, with and without the alloc feature.", "quantifier": "every finite series of push operations, both feature settings", "why_tests_cant": "the documentation claims it for every series; the two layouts run different code at every step", "anchors": ["src/nominalstring.rs: NominalString::new_reverse, InlineString::{data_offset,push,push_str,push_front}"]}
{"id": "C03", "title": "The inline/heap boundary is exactly 62 bytes", "statement": "With alloc, a string built by pushes from new(), new_reverse(), From<char> or From<&str> is inline exactly when its UTF-8 length is at most NominalString::INLINE_CAPACITY = 62; it never moves to the heap earlier and never goes back inline. From<String> is always on the heap.", "quantifier": "every history of pushes, every text length", "why_tests_cant": "the boundary is crossed by characters of 1-4 bytes and strings of any length from any fill level", "anchors": ["src/nominalstring.rs: MaybeInline::INLINE_CAPACITY, NominalString::is_inline, From<&str>, From<String>"]}
{"id": "C04", "title": "Without alloc a push fails exactly past 62 bytes and changes nothing when it fails", "statement": "Without the alloc feature, try_push/try_push_str/try_push_front return OutOfMemoryError exactly when the resulting text would exceed 62 bytes; on failure the string still holds its old text and later operations behave as if the failed call had not been made.", "quantifier": "every history of push operations, including histories with failed calls", "why_tests_cant": "failure atomicity has to hold at every fill level and for every later operation", "anchors": ["src/nominalstring.rs: MaybeInline::{push,push_str,push_front}, OutOfMemoryError"]}
{"id": "C05", "title": "Reading a NominalString is memory safe and always yields valid UTF-8", "statement": "After any history of constructors, pushes and in-place edits, dereferencing the string (Deref and DerefMut) only touches initialised bytes inside the buffer, and those bytes are valid UTF-8; no operation panics, writes outside the buffer, or has undefined behaviour when alloc is on (without alloc the only panic is From<&str> of more than 62 bytes).", "quantifier": "every constructor and operation history, every character", "why_tests_cant": "the type uses MaybeUninit, raw-pointer writes and from_utf8_unchecked; one bad offset in one history is undefined behaviour a test may not notice", "anchors": ["src/nominalstring.rs: InlineString::{as_bytes,as_bytes_mut,as_str,as_mut_str,push_str}"]}
{"id": "C06", "title": "Unsafe byte slices only ever cover initialised bytes", "statement": "Every &[u8] / &mut [u8] that the implementation creates from its MaybeUninit buffer covers only initialised bytes, as the SAFETY comments state and slice::from_raw_parts(_mut) requires.", "quantifier": "every reachable string state and every operation applied to it", "why_tests_cant": "a slice over uninitialised bytes produces no observable failure in a test run", "anchors": ["src/nominalstring.rs: InlineString::{as_bytes,as_bytes_mut,push_front}"]}
{"id": "C07", "title": "Conversions to and from NominalString preserve the text", "statement": "NominalString::from(&str), ::from(char), ::from(String) and ::from(&String) read as the given text; converting any NominalString into String (and back) gives the same text; From<&str> panics only without alloc and only for more than 62 bytes.", "quantifier": "every string and character, every NominalString state", "why_tests_cant": "conversion goes through the inline buffer or the heap depending on length and history", "anchors": ["src/nominalstring.rs: From<&str>, From<char>, From<String>, From<&String>, From<NominalString> for String"]}
{"id": "C08", "title": "try_into_string succeeds exactly for heap strings and otherwise hands the string back", "statement": "try_into_string returns Ok(text) iff is_inline() is false; otherwise it returns Err with a string that has the same text and behaves identically under all later operations.", "quantifier": "every reachable NominalString", "why_tests_cant": "depends on every history leading to either representation", "anchors": ["src/nominalstring.rs: NominalString::{try_into_string,is_inline}"]}
{"id": "C09", "title": "Equality depends only on the text", "statement": "Two NominalStrings compare equal iff they read as the same text, whatever their direction or storage; comparing with str, &str and String agrees; equality is reflexive, symmetric and transitive.", "quantifier": "every pair/triple of reachable strings", "why_tests_cant": "the same text has many representations (forward, reverse with stale bytes, heap)", "anchors": ["src/nominalstring.rs: PartialEq impls"]}
{"id": "C10", "title": "Ordering is a total order by code points and agrees with equality", "statement": "cmp/partial_cmp on NominalStrings is a total order, returns Equal exactly for equal strings, is independent of storage, and equals lexicographic comparison of the characters' code points.", "quantifier": "every pair/triple of reachable strings", "why_tests_cant": "byte order equals code point order only by a property of UTF-8 over all scalar values", "anchors": ["src/nominalstring.rs: Ord, PartialOrd impls"]}
{"id": "C11", "title": "In-place edits through DerefMut are kept and compose with pushes", "statement": "If &mut *s is overwritten with another valid UTF-8 text of the same byte length, s then reads as the new text, keeps its storage class, and all later pushes act on the new text.", "quantifier": "every reachable string, every same-length edit, every later history", "why_tests_cant": "the mutable view aliases the inline buffer at a direction-dependent offset", "anchors": ["src/nominalstring.rs: DerefMut, InlineString::as_mut_str, MaybeInline::as_str_mut"]}
{"id": "C12", "title": "Collections with a zero digit print canonical positional numerals", "statement": "For any non-fixed digit collection with a zero digit and b >= 2 digits that fits the integer type, formatting n gives the base-b numeral of n: its digits evaluate to n, there is no leading zero digit except for n = 0 itself, which prints as the single zero digit.", "quantifier": "every collection, every integer type, every n of that type", "why_tests_cant": "n ranges up to 2^128-1 and bases over all collection sizes", "anchors": ["src/digital.rs: NominalSystem for D: DigitCollection, DigitSet::new"]}
{"id": "C13", "title": "Zeroless collections count A, B, ..., Z, AA, AB from zero", "statement": "For any non-fixed collection without a zero digit, counting from 0, with b >= 1 digits that fits the integer type, formatting n gives the bijective base-b numeral of n+1, including n = T::MAX where n+1 is not representable.", "quantifier": "every zeroless collection, every integer type, every n of that type", "why_tests_cant": "the carry rule differs between the first and the later digits; overflow only threatens at the type maximum", "anchors": ["src/digital.rs: try_format_nominal, DigitSet::zeroless"]}
{"id": "C14", "title": "one_based() counts from one", "statement": "For a collection without a zero digit, one_based() formats n >= 1 as the bijective base-b numeral of n and 0 as Err(NoZeroSymbol); for a non-fixed collection with a zero digit one_based() changes nothing.", "quantifier": "every collection, every integer type, every n", "why_tests_cant": "must hold for all n and all bases", "anchors": ["src/digital.rs: OneBased, DigitCollection::one_based"]}
{"id": "C15", "title": "Digit collections name numbers uniquely and in counting order", "statement": "For a collection of pairwise distinct digits, different numbers format to different strings, a larger number's string is longer or equally long and later in digit order, and every non-empty digit string (without leading zero digit when there is one) is the string of exactly one number.", "quantifier": "all pairs of numbers; all digit strings; all collections", "why_tests_cant": "uniqueness and completeness are statements about infinitely many pairs", "anchors": ["src/digital.rs: try_format_nominal"]}
{"id": "C16", "title": "Built-in digit sets print the documented Unicode digits", "statement": "Decimal, EasternArabic, Persian/Urdu, Bengali, Cambodian/Khmer, Devanagari, Gujarati, Gurmukhi, Kannada, Lao, Malayalam, Mongolian, Myanmar, Oriya, Tamil, Telugu, Thai, Tibetan print digit d of the decimal numeral of n as code point base+d of the script's digit block, and CjkDecimal as the Han digits; the alphabets (LetterUpper/Lower, GreekUpper/Lower, Hiragana, HiraganaIroha, Katakana, KatakanaIroha, HangeulJamo, HangeulSyllable) print bijective numerals in their documented alphabet order.", "quantifier": "every n of every integer type", "why_tests_cant": "a wrong or swapped table entry shows only for numbers containing that digit", "anchors": ["src/digital.rs: impl_digit_set! invocations"]}
{"id": "C17", "title": "HexUpper and HexLower print hexadecimal numerals", "statement": "HexUpper/HexLower format every n as its base-16 numeral with digits 0-9A-F / 0-9a-f and no leading zeros.", "quantifier": "every n of every integer type", "why_tests_cant": "goes through Restrict and Chain for every digit of every n", "anchors": ["src/digital.rs: HexUpper, HexLower, Chain, Restrict"]}
{"id": "C18", "title": "Fixed CJK sets print one symbol and then fall back to CjkDecimal", "statement": "CjkHeavenlyStem (10 symbols) and CjkEarthlyBranch (12 symbols) format n in 1..=len as the single n-th symbol, n > len exactly as CjkDecimal formats n, and 0 as Err(NoZeroSymbol).", "quantifier": "every n of every integer type", "why_tests_cant": "the fallback must agree for every n above the boundary, including in u8", "anchors": ["src/digital.rs: CjkHeavenlyStem, CjkEarthlyBranch, DigitCollection::Fallback"]}
{"id": "C19", "title": "Chain concatenates digit sets and Restrict truncates them", "statement": "Chain::new(a, b) (a.and(b)) is the collection of a's digits followed by b's, counting the way a counts; Restrict::new(k, a) with k <= a.len() is the collection of a's first k digits. Formatting follows accordingly.", "quantifier": "all collections, all k, all n", "why_tests_cant": "composition to any depth", "anchors": ["src/digital.rs: Chain, Restrict, DigitCollection::and"]}
{"id": "C20", "title": "Wrapping a fixed collection keeps it fixed", "statement": "one_based(), Restrict and Chain keep the single-symbol (fixed) nature and fallback of a fixed collection, e.g. CjkHeavenlyStem.one_based() formats like CjkHeavenlyStem (which already counts from one).", "quantifier": "all fixed collections, all n", "why_tests_cant": "shows only past the end of the set", "anchors": ["src/digital.rs: OneBased, Restrict, Chain, DigitCollection::fixed"]}
{"id": "C21", "title": "A collection larger than the integer type prints single digits", "statement": "When a collection has more digits than the integer type can count, every n prints as the single digit that the counting rule assigns to n (digit n when counting from 0; digit n-1, and NoZeroSymbol for 0, when counting from 1).", "quantifier": "all collections with len > T::MAX, all n of T", "why_tests_cant": "needs a collection of more than 255 digits and an unusual branch", "anchors": ["src/digital.rs: try_format_nominal (T::try_from(self.len()) else branch)"]}
{"id": "C22", "title": "Digit formatting terminates without panicking", "statement": "Formatting with any digit collection terminates and does not panic for every n, for every DigitSet the API lets a user build.", "quantifier": "all collections, all integer types, all n", "why_tests_cant": "termination for every input cannot be tested", "anchors": ["src/digital.rs: try_format_nominal loop"]}
{"id": "C23", "title": "The result does not depend on the integer type", "statement": "If n fits two integer types, every built-in nominal system gives the same outcome (same text or same kind of error carrying n) for both types.", "quantifier": "every built-in system, every pair of integer types, every n fitting both", "why_tests_cant": "type-dependent branches (try_from failures) run only for some type/value combinations", "anchors": ["src/lib.rs: Nominal, UnsignedInteger", "src/digital.rs: try_format_nominal", "src/additive.rs: try_format_nominal", "src/chinese.rs: format_chinese, format_short_rank, format_scaled_rank", "src/hebrew.rs: Hebrew"]}
{"id": "C24", "title": "AdditiveSet prints symbols that add up to n, largest first", "statement": "For an AdditiveSet whose values include 1, formatting n >= 1 gives a concatenation of its symbols in table order, symbol i repeated c_i times, where the values add up to n and what follows symbol i is always worth less than symbol i's value.", "quantifier": "all descending symbol tables containing 1, all integer types, all n", "why_tests_cant": "general over tables, types and numbers", "anchors": ["src/additive.rs: AdditiveSet::try_format_nominal"]}
{"id": "C25", "title": "AdditiveSet::new accepts exactly strictly descending tables and defines zero", "statement": "AdditiveSet::new panics iff the values are not strictly descending; formatting 0 gives the zero-valued last symbol if there is one and Err(NoZeroSymbol) otherwise; a zero-valued symbol is never used for n >= 1.", "quantifier": "all symbol tables", "why_tests_cant": "general over tables of any length", "anchors": ["src/additive.rs: AdditiveSet::new"]}
{"id": "C26", "title": "AdditiveSet never silently drops a remainder", "statement": "If an AdditiveSet returns Ok for n, the symbols it printed add up to n; numbers the set cannot represent give an error.", "quantifier": "all descending symbol tables, all n", "why_tests_cant": "shows only for tables without 1 and particular n", "anchors": ["src/additive.rs: AdditiveSet::try_format_nominal", "src/lib.rs: Error::OutOfBounds"]}
{"id": "C27", "title": "Built-in additive systems are unambiguous", "statement": "For RomanLower/Upper, ArmenianLower/Upper, Georgian, JapaneseFormal/Informal, HangeulFormal, HanjaInformal/Formal, reading the printed text left to right against the symbol table gives back n; hence different numbers have different texts.", "quantifier": "every n of every integer type, all pairs", "why_tests_cant": "symbols are prefixes of one another, so uniqueness must hold for every n", "anchors": ["src/additive.rs: RomanLower, RomanUpper, ArmenianUpper, ArmenianLower, Georgian, JapaneseFormal, JapaneseInformal, HangeulFormal, HanjaInformal, HanjaFormal"]}
{"id": "C28", "title": "Roman numerals below 4000 are the standard ones", "statement": "RomanUpper/RomanLower format 1..=3999 as the classical thousands-hundreds-tens-ones Roman numeral (IV, IX, XL, XC, CD, CM subtractive), and 0 as N/n.", "quantifier": "every n below 4000 in every integer type", "why_tests_cant": "the claim is a rule over all digit combinations, independent of type", "anchors": ["src/additive.rs: RomanUpper, RomanLower"]}
{"id": "C29", "title": "Roman numerals from 4000 use Vinculum notation", "statement": "For n >= 4000 each decimal place above the hundreds is written with the classical subtractive pattern in overlined letters (M for 1000-3000 within the thousands place, M with overline repeated for millions).", "quantifier": "every n of every integer type", "why_tests_cant": "few large values are ever tested", "anchors": ["src/additive.rs: RomanUpper, RomanLower tables"]}
{"id": "C30", "title": "Decimal additive systems print one symbol per decimal place", "statement": "Armenian, Japanese, Hangeul and Hanja systems format n <= 9999 (Georgian n <= 19999) as the thousands, hundreds, tens and ones symbols of n's decimal digits in order, skipping zero digits, with the documented characters; above that the largest symbol is repeated first.", "quantifier": "every n of every integer type", "why_tests_cant": "every table entry and every digit combination", "anchors": ["src/additive.rs: ArmenianUpper, ArmenianLower, Georgian, JapaneseFormal, JapaneseInformal, HangeulFormal, HanjaInformal, HanjaFormal"]}
{"id": "C31", "title": "ArmenianUpper is the capitalised ArmenianLower", "statement": "ArmenianUpper and ArmenianLower print the same letters up to case, and consist of Armenian letters only.", "quantifier": "every n >= 1 of every integer type", "why_tests_cant": "a single bad table entry affects only some numbers", "anchors": ["src/additive.rs: ArmenianUpper, ArmenianLower"]}
{"id": "C32", "title": "EnumeratedSet prints the n-th symbol or an error", "statement": "EnumeratedSet::new(symbols) formats n < N as symbols[n] and anything larger as Err(OutOfBounds(n)); zeroless(symbols) formats 1..=N as symbols[n-1], 0 as Err(NoZeroSymbol), larger as Err(OutOfBounds(n)), also for n beyond usize.", "quantifier": "all symbol tables, all integer types, all n", "why_tests_cant": "general over tables and types, including n > usize::MAX", "anchors": ["src/enumerated.rs: EnumeratedSet::try_format_nominal"]}
{"id": "C33", "title": "CircledNumber and DoubleCircledNumber print the right code points", "statement": "CircledNumber prints 0..=50 as the Unicode circled numbers (U+24EA, U+2460.., U+3251.., U+32B1..) and is out of bounds above 50; DoubleCircledNumber prints 1..=10 as U+24F5.., has no zero and is out of bounds above 10.", "quantifier": "every n of every integer type", "why_tests_cant": "every table entry", "anchors": ["src/enumerated.rs: CircledNumber, DoubleCircledNumber"]}
{"id": "C34", "title": "Ethiopic follows the CSS ethiopic-numeric algorithm", "statement": "Ethiopic formats every n >= 1 as the CSS Counter Styles ethiopic-numeric algorithm prescribes (groups of two digits, dropped ones, hundred and ten-thousand separators), and 0 as Err(NoZeroSymbol).", "quantifier": "every n >= 1 of every integer type", "why_tests_cant": "the dropping rules interact across unboundedly many groups", "anchors": ["src/ethiopic.rs: format_ethiopic, Ethiopic"]}
{"id": "C35", "title": "Ethiopic numerals are unambiguous", "statement": "An Ethiopic numeral can be read back: a reader of the text recovers n for every n >= 1, so different numbers have different texts.", "quantifier": "every n >= 1, all pairs", "why_tests_cant": "digits are omitted, so uniqueness is not evident", "anchors": ["src/ethiopic.rs: format_ethiopic"]}
{"id": "C36", "title": "Hebrew numerals follow the additive rule with 15/16 and single-letter exceptions", "statement": "Hebrew formats n >= 1 as tav repeated for 400s, then one hundreds letter, one tens letter, one ones letter, with 15 and 16 in the last two places written tet-gershayim-vav / tet-gershayim-zayin, a single-letter numeral wrapped in geresh and gershayim, and 0 as Err(NoZeroSymbol).", "quantifier": "every n of every integer type", "why_tests_cant": "exceptions interact with every hundreds part", "anchors": ["src/hebrew.rs: Hebrew"]}
{"id": "C37", "title": "Hebrew numerals are unambiguous", "statement": "Adding up the letter values of the printed text (ignoring geresh and gershayim) gives n for every n >= 1, so different numbers have different texts.", "quantifier": "every n >= 1, all pairs", "why_tests_cant": "for all numbers", "anchors": ["src/hebrew.rs: Hebrew"]}
{"id": "C38", "title": "Chinese numerals up to 9999 follow the CSS longhand algorithm", "statement": "All four Chinese systems, in every usage and scale, format 0..=9999 by the CSS Counter Styles algorithm: digit plus marker per nonzero place, trailing zeros dropped, inner zero runs collapsed to one zero character, and for the informal systems the leading one of 10..19 dropped.", "quantifier": "every n <= 9999, all systems, usages, scales and integer types", "why_tests_cant": "every digit pattern in each variant", "anchors": ["src/chinese.rs: format_chinese, format_chinese_inner"]}
{"id": "C39", "title": "Chinese numerals read back as n in every scale", "statement": "For the myriad, mid and long scales and every n, and for the short scale and every n < 10^15, the printed text read by the scale's value of each large-number character gives n; hence different numbers have different texts within a system.", "quantifier": "all systems, usages, scales, integer types, all n", "why_tests_cant": "numbers up to 2^128-1 with recursive grouping", "anchors": ["src/chinese.rs: ChineseScale::{format,format_short_rank,format_scaled,format_scaled_rank}, MYRIAD_SCALE, MID_SCALE, LONG_SCALE, SHORT_SCALE"]}
{"id": "C40", "title": "Only the short scale has a bound, and it is 10^15", "statement": "try_format_nominal returns Err(OutOfBounds(n)) iff the short scale is selected and n >= 10^15; no Chinese system returns NoZeroSymbol, and none panics.", "quantifier": "all systems, usages, scales, integer types, all n", "why_tests_cant": "the bound check is repeated at every rank and type-dependent", "anchors": ["src/chinese.rs: ChineseFormatError, format_chinese"]}
{"id": "C41", "title": "Zero characters are placed sparingly", "statement": "For n >= 1 the printed Chinese text never begins or ends with the zero character and never contains two in a row.", "quantifier": "all systems, usages, scales, integer types, all n", "why_tests_cant": "the last-char-is-zero flag is threaded through a recursion of depth 11", "anchors": ["src/chinese.rs: format_chinese_inner, format_scaled_rank, format_short_rank"]}
{"id": "C42", "title": "Informal differs from formal only by a dropped leading one before ten", "statement": "For every n, usage, scale and script, the formal text is the informal text, except that when the informal text starts with the ten character the formal text has the one character in front.", "quantifier": "all n, usages, scales, scripts, integer types", "why_tests_cant": "the omission condition depends on prefix and zero flags at every level", "anchors": ["src/chinese.rs: format_chinese_inner (omit_digit)"]}
{"id": "C43", "title": "Chinese variants differ only by character substitution", "statement": "Simplified vs Traditional and ordinary vs financial variants of the same formality and scale give texts of the same shape, obtained from one another by a fixed one-to-one substitution of characters.", "quantifier": "all n, all variants, integer types", "why_tests_cant": "over all n", "anchors": ["src/chinese.rs: SIMPLIFIED_*, TRADITIONAL_* tables, format_chinese"]}
{"id": "C44", "title": "Chinese builder options are independent and last-wins", "statement": "financial() only changes the characters, the scale methods only change the scale, options commute, the last scale method wins, and the default is ordinary characters on the myriad scale.", "quantifier": "every sequence of option calls", "why_tests_cant": "every sequence of builder calls", "anchors": ["src/chinese.rs: impl_chinese_options!, ChineseOptions"]}
{"id": "C45", "title": "A skipped 10^4 group is always voiced with the zero character", "statement": "In the myriad scale, when one or more whole four-digit groups between two printed groups are zero, the text has a zero character at that gap (CSS rule collapsing zeros across groups), e.g. 100001000.", "quantifier": "all n", "why_tests_cant": "needs a zero group followed by a group of at least 1000", "anchors": ["src/chinese.rs: format_scaled_rank, format_chinese_inner"]}
{"id": "C46", "title": "Errors tell the truth", "statement": "For every built-in system and integer type: NoZeroSymbol is returned only for 0; OutOfBounds and OutOfMemory carry exactly the number that was to be formatted; OutOfMemory never occurs with the alloc feature.", "quantifier": "all built-in systems, integer types, n, feature settings", "why_tests_cant": "errors arise deep inside recursions and loops", "anchors": ["src/lib.rs: Error, WithNominal", "all try_format_nominal impls"]}
{"id": "C47", "title": "format_nominal / to_nominal never fail and fall back to decimal", "statement": "For every built-in system, integer type and n, to_nominal returns (no panic, no divergence) the text of try_to_nominal if that is Ok, and the plain decimal numeral of n otherwise, with and without alloc.", "quantifier": "all built-in systems, integer types, n, feature settings", "why_tests_cant": "the fallback calls the formatter again; totality must hold for all inputs", "anchors": ["src/lib.rs: NominalSystem::format_nominal, Nominal::to_nominal, UnwrapOrDecimal, Error::into_decimal"]}
{"id": "C48", "title": "Boxed systems behave like the system inside", "statement": "Box/Rc/Arc<dyn NominalSystem<T>> gives the same results as the wrapped system for try_format_nominal and format_nominal, for every n.", "quantifier": "all systems implementing the trait, all n", "why_tests_cant": "must hold for every implementor, including those overriding format_nominal", "anchors": ["src/lib.rs: impl NominalSystem for Box/Rc/Arc<dyn NominalSystem>"]}
{"id": "C49", "title": "Without alloc, formatting fails exactly when the text exceeds 62 bytes", "statement": "Without the alloc feature, a built-in system returns Err(OutOfMemory(n)) exactly when the text it returns with alloc is longer than 62 bytes; otherwise both builds return the same text or error.", "quantifier": "all built-in systems, integer types, n", "why_tests_cant": "intermediate strings and prefix order could fail early or late", "anchors": ["src/lib.rs: Error::OutOfMemory", "src/nominalstring.rs: MaybeInline"]}
{"id": "C50", "title": "Oversized symbols give an error, not a panic", "statement": "Without alloc, AdditiveSet and EnumeratedSet report OutOfMemory for symbols longer than 62 bytes instead of panicking.", "quantifier": "all symbol tables, all n", "why_tests_cant": "needs a symbol longer than 62 bytes in a no-alloc build", "anchors": ["src/additive.rs: NominalString::from(zero)", "src/enumerated.rs: symbol.into()", "src/nominalstring.rs: From<&str>"]}
{"id": "C51", "title": "Built-in systems never panic, hang or have undefined behaviour", "statement": "For every built-in system, every integer type, every usize width and both feature settings, try_format_nominal returns a Result for every n.", "quantifier": "all built-in systems, integer types, n, configurations", "why_tests_cant": "indexing, subtraction, division and unsafe code on every path", "anchors": ["all try_format_nominal impls"]}
{"id": "C52", "title": "Chinese numerals of any size are composed by one rule", "statement": "From ten thousand on, the text is the numeral of n divided by the value of the highest large-number sign not above n, that sign, and, if the remainder is not zero, the formal numeral of the remainder, with a zero character in between exactly when (short scale) the next lower power of ten does not occur, or (other scales) the remainder starts with a four-digit group below 1000. This determines the text.", "quantifier": "all systems, usages, scales, integer types, all n (below 10^15 in the short scale)", "why_tests_cant": "recursive grouping up to 2^128-1 in four scales", "anchors": ["src/chinese.rs: format_chinese, format_short_rank, format_scaled_rank, format_chinese_inner"]}
{"id": "C53", "title": "Different numbers print differently", "statement": "For every built-in system, two numbers with the same text are equal, whatever their integer types, features and usize widths; no text is empty.", "quantifier": "all built-in systems, all pairs of numbers, integer types, configurations", "why_tests_cant": "quantifies over pairs of 128-bit numbers", "anchors": ["all try_format_nominal impls"]}
{"id": "C54", "title": "How far each system gets without a heap", "statement": "Without alloc, no built-in system reports OutOfMemory for a number below 256; digit systems, Ethiopic, circled and Chinese numerals do not below 10^10, digit systems not below 10^20. For Roman, Armenian, Georgian, Japanese, Korean and Hebrew the least number that does not fit is as tabulated (e.g. Roman 7884888, Hebrew 11315).", "quantifier": "all built-in systems, all n, integer types, configurations", "why_tests_cant": "a bound on the longest text over an unbounded range", "anchors": ["src/nominalstring.rs: push_front, push", "all try_format_nominal impls"]}
{"id": "C55", "title": "Text length", "statement": "Of a number with k decimal digits, digit systems print at most 3k bytes and Ethiopic, circled and Chinese numerals at most 6k; additive systems and Hebrew print at least n divided by their largest symbol value bytes.", "quantifier": "all built-in systems, all n and k, integer types, configurations", "why_tests_cant": "a bound for numbers of every length", "anchors": ["all try_format_nominal impls"]}
{"id": "C56", "title": "Fixed collections and their fallbacks", "statement": "For any collections written by the caller, each fixed and with the next as its fallback: a number is printed as one symbol of the first collection that reaches it, beyond all of them as the last fallback prints it, or reported OutOfBounds when the last fallback is empty; zero in a collection counted from one is NoZeroSymbol. A fixed collection that is its own fallback never returns.", "quantifier": "all chains of up to 128 fixed collections, all n, integer types, configurations", "why_tests_cant": "quantifies over collections the crate does not contain, with chains of fallbacks", "anchors": ["src/digital.rs:556-607 format_nominal_digits"]}
{"id": "C57", "title": "Formatting is sound whatever the collection does", "statement": "For any DigitCollection written in safe code, even one whose methods answer differently from call to call, panic or do not return: formatting has no undefined behaviour, a returned text is valid non-empty UTF-8 kept inline exactly when it has at most 62 bytes, OutOfMemory and OutOfBounds carry the number asked for, and OutOfMemory is reported only without alloc.", "quantifier": "all implementors with any hidden state, all n, integer types, configurations", "why_tests_cant": "quantifies over all programs implementing a trait", "anchors": ["src/digital.rs:556-607 format_nominal_digits", "src/nominalstring.rs: unsafe blocks"]}
{"id": "C58", "title": "A fixed collection produces a single digit", "statement": "As the documentation of DigitCollection::fixed says, a fixed collection only produces a single digit.", "quantifier": "all fixed collections, all n, integer types, configurations", "why_tests_cant": "no built-in collection is fixed, has a zero digit and counts from one; needs a statement about all collections", "anchors": ["src/digital.rs: DigitCollection::fixed", "src/digital.rs:556-607 format_nominal_digits"]}
{"id": "C59", "title": "Representation of inline strings", "statement": "After any history of calls, every one of the 62 bytes and the length byte of an inline string is determined by its text and by the direction of its constructor: the text is at the start (at the end for new_reverse) and every other byte is still uninitialised; so no call changes the direction or leaves traces of earlier texts, and strings with equal text and direction are byte for byte equal.", "quantifier": "all constructors, all histories of calls, configurations", "why_tests_cant": "speaks about uninitialised memory, which a test may not read, after unboundedly many calls", "anchors": ["src/nominalstring.rs:266-432"]}
{"id": "C60", "title": "Pushing at the cheap end moves nothing", "statement": "push and push_str on a forward inline string and push_front on a reversed one (the use new_reverse is documented for) change only the bytes of what is pushed; every byte of the text stays where it is.", "quantifier": "all reachable inline strings, all pushes", "why_tests_cant": "speaks about the position of bytes in a private buffer, for all strings", "anchors": ["src/nominalstring.rs:335-414", "src/nominalstring.rs:42-56 new_reverse"]}
{"id": "C61", "title": "Display honours width, fill, alignment and precision", "statement": "Displaying any string with any options of a format placeholder prints its first characters up to the precision, with as many fill characters as are missing to the width, all after it by default or when aligned left, all before it when aligned right, and when centred as many before as after or one fewer; there is only one such text, and without options it is the string's text.", "quantifier": "all reachable strings, inline or not, all widths, precisions, fill characters and alignments", "why_tests_cant": "all strings and all options; counts characters, not bytes", "anchors": ["src/nominalstring.rs:121-125 Display"]}
{"id": "C62", "title": "Debug and Clone", "statement": "Debug shows where the text is kept, Inline or Heap, and the text as Debug of str shows it, on one line or, with #, on five; a clone has the same text in the same place.", "quantifier": "all reachable strings, all format options, any per-character escaping", "why_tests_cant": "all strings and options", "anchors": ["src/nominalstring.rs:14-16", "src/nominalstring.rs:249-264 MaybeInline"]}
{"id": "C63", "title": "What formatters return can be used like any string", "statement": "Every string returned by a built-in system, and by formatting with any collection written in safe code, is one that could have been built by constructors and pushes, so every property of those strings holds for it too.", "quantifier": "all built-in systems, all safe DigitCollection implementors, all n, integer types, configurations", "why_tests_cant": "speaks about every later use of every result", "anchors": ["src/digital.rs:556-607", "src/additive.rs", "src/enumerated.rs", "src/ethiopic.rs", "src/hebrew.rs", "src/chinese.rs", "src/nominalstring.rs"]}
{"id": "C64", "title": "How many turns formatting takes", "statement": "A digit collection takes exactly one loop turn per digit printed and a last one; an additive set exactly one per symbol printed and a last one in each row. Every digit system, Ethiopic, circled and Chinese system is done within 64 turns whatever the number; the built-in additive systems and Hebrew need n divided by their largest symbol value, plus one, turns and with alloc no fewer.", "quantifier": "all digit collections and symbol tables, all built-in systems, all n, integer types, configurations", "why_tests_cant": "a bound on the running time for all 128-bit numbers; the slow cases would not finish in a test", "anchors": ["src/digital.rs:585-603", "src/additive.rs:50-64", "src/ethiopic.rs:22-61", "src/hebrew.rs:46-72", "src/chinese.rs:176-236"]}
{"id": "C65", "title": "The calls a formatter makes to a DigitCollection", "statement": "Whatever a DigitCollection written by the caller answers, digit(index) is only called with an index below the answer of the latest len(); len() is called first and again after every digit; fixed() once, after the first len(); zero_based() only right after has_zero_digit() returned false or fixed() returned true; is_empty() only of a fallback, before anything else.", "quantifier": "all DigitCollection implementors (also with hidden state and panicking methods), all n, integer types, configurations", "why_tests_cant": "a contract about every implementor a caller may write", "anchors": ["src/digital.rs:556-607", "src/digital.rs:632-685"]}
{"id": "C66", "title": "zero_based() as documented", "statement": "As the documentation of DigitCollection::zero_based says, it is only called if has_zero_digit() returned false, and true means that counting starts at 1.", "quantifier": "all DigitCollection implementors, all n, integer types, configurations", "why_tests_cant": "a contract about every implementor a caller may write", "anchors": ["src/digital.rs:645-649", "src/digital.rs:564-566"]}
{"id": "C67", "title": "Same numeral, other symbols", "statement": "Two digit collections that count the same way with the same number of digits print every number with the same digit indices, and two additive sets with the same values with the same number of each symbol. In particular Roman, Latin, Greek and hexadecimal capitals are the capitals of the lower-case texts, every decimal script is Decimal with its own ten digits, and katakana are the hiragana texts shifted by 0x60.", "quantifier": "all digit collections and symbol tables, all n, integer types, configurations", "why_tests_cant": "relates two infinite families of outputs", "anchors": ["src/digital.rs:134-426", "src/digital.rs:556-607", "src/additive.rs:35-66"]}
{"id": "C68", "title": "How the numerals of different numbers are related", "statement": "Writing one more digit x after the numeral of n gives the numeral of n*b+x (with a zero digit), (n+1)*b+x (without, from zero), n*b+x+1 (from one); the numeral of n+1 is that of n counted on by one with carries; one_based() prints at n+1 what the collection counting from zero prints at n; and adding the largest value of an additive set puts its symbol in front.", "quantifier": "all digit collections and symbol tables, all n, integer types, configurations", "why_tests_cant": "relates the outputs of all neighbouring numbers", "anchors": ["src/digital.rs:61-93", "src/digital.rs:556-607", "src/additive.rs:35-66"]}
{"id": "C69", "title": "Debug and release builds agree", "statement": "With overflow checks on or off, every push and conversion, every additive and enumerated set, every digit collection with pure methods, and every built-in system give the same results for all inputs: no arithmetic overflow is ever reached.", "quantifier": "all strings, tables, pure collections, built-in systems, n, integer types, configurations", "why_tests_cant": "tests run in one profile, and the absence of overflow is about all inputs", "anchors": ["src/digital.rs:585-603", "src/additive.rs:58-61", "src/enumerated.rs:34", "src/hebrew.rs:46-72", "src/nominalstring.rs:435-527"]}
{"id": "C70", "title": "Debug and release builds agree on the caller's collections", "statement": "The same for collections whose methods answer differently from call to call, and for chains of any two collections.", "quantifier": "all DigitCollection implementors, n, integer types, configurations", "why_tests_cant": "a statement about every implementor in two profiles", "anchors": ["src/digital.rs:448-450", "src/digital.rs:585-603"]}
{"id": "C71", "title": "Printing to a sink that may refuse", "statement": "Display hands the text (cut to the precision) to the sink in one write_str, each fill character in a write_char, and stops at the first write that is refused or does not return; without options it is a single write_str of the whole text. A sink that keeps what it takes is left with a beginning of the output, all of it if Ok was returned; a buffer of fixed size succeeds exactly if the whole output fits.", "quantifier": "all strings, all placeholder options, all core::fmt::Write implementors and states", "why_tests_cant": "format! and assert_eq never exercise a sink that fails", "anchors": ["src/nominalstring.rs:121-125"]}
{"id": "C72", "title": "to_nominal on systems written by callers", "statement": "For a NominalSystem that keeps the default format_nominal, to_nominal returns exactly the string of Ok, and for Err the decimal numeral of the number inside the error (0 for NoZeroSymbol); a panic or hang of try_format_nominal passes through. The number itself is shown in decimal if and only if the error carries it.", "quantifier": "all try_format_nominal functions, all n, integer types, configurations", "why_tests_cant": "a statement about every implementor", "anchors": ["src/lib.rs:38-56", "src/lib.rs:194-231"]}
{"id": "C73", "title": "Collections that claim more digits than they have", "statement": "For every collection assembled from digit sets with one_based, Chain and Restrict to any depth (Restrict to any count, also beyond the digits there are): a number whose numeral in the claimed base uses only digits that exist is printed as that numeral; otherwise formatting panics, or without alloc reports OutOfMemory if the digits after the last missing one already exceed 62 bytes. Restricting again brings back exactly the digits behind the restriction. The degenerate cases (base that does not fit the type, no digits, a lone zero digit, zero without a symbol) each have the one outcome stated.", "quantifier": "all assembled collections, all n, integer types, configurations", "why_tests_cant": "all nestings of the wrappers and all counts", "anchors": ["src/digital.rs:61-93", "src/digital.rs:428-504", "src/digital.rs:556-607"]}
{"id": "C74", "title": "Sorting numerals as strings", "statement": "For a set whose digits are in code point order, NominalString's Ord compares two numerals as the dictionary order of their digits, and equally long ones exactly as the numbers. Padding with the set's zero digit (`{:0>w}` with that fill) gives numerals of the same number, all w long if they fit, whose strings sort as the numbers. Of the built-in sets CjkDecimal, both Iroha, the celestial stems and the terrestrial branches are not in code point order; the others are.", "quantifier": "all digit collections, all pairs of numbers, widths, integer types, configurations", "why_tests_cant": "all pairs of numbers and all digit sets", "anchors": ["src/nominalstring.rs: Ord, PartialOrd, Display", "src/digital.rs:61-93"]}
{"id": "C75", "title": "How long Ethiopic and Hebrew numerals are composed of shorter ones", "statement": "The Ethiopic numeral of h*10000+l (l < 10000) is that of h, left out if h is one, the sign for ten thousand, and that of l, left out if l is zero; below ten thousand the same holds with hundreds and the sign for a hundred; below a hundred there is a sign for the tens and one for the ones. The Hebrew numeral of 400+n is a tav in front of that of n without the marks a lone letter gets; below 400 that of h*100+r is the letter of the hundreds in front of that of r.", "quantifier": "all n, integer types, configurations", "why_tests_cant": "relates the outputs of numbers of any size", "anchors": ["src/ethiopic.rs", "src/hebrew.rs"]}
{"id": "C76", "title": "Which texts are numerals", "statement": "A text is printed for some number exactly if: for a digit collection, it is a non-empty string of its digits (without a superfluous leading zero if it has a zero) whose value the type holds; for an additive set, its symbols are written so often that less than a symbol's value remains after it; for Ethiopic, it is built by the rules of C75 (which give the number too); for Hebrew, it is any number of tav, then at most one letter for hundreds, tens and ones with the exceptions for fifteen, sixteen and lone letters; for the Chinese systems, it is composed by the rules of C52. (Without alloc also at most 62 bytes.)", "quantifier": "all texts, digit collections, symbol tables, integer types, configurations", "why_tests_cant": "says of every text whether some number prints it", "anchors": ["src/digital.rs:556-607", "src/additive.rs:34-66", "src/ethiopic.rs", "src/hebrew.rs", "src/chinese.rs"]}
{"id": "C77", "title": "What the methods of the crate's collections answer", "statement": "fixed, has_zero_digit, zero_based, len and digit of every DigitSet, of every built-in set and of all its fallbacks answer as documented (digit panics past the last digit; the hexadecimal sets go on through the alphabet); OneBased changes only fixed and zero_based, Restrict only fixed and len, and both keep the fallbacks; a Chain takes zero digit and counting from its first part and has the chain of the fallbacks as fallback, at every depth. The derived default of a Restrict type is empty, so falling back on it is OutOfBounds.", "quantifier": "all digit lists, collections, indices, depths of fallbacks", "why_tests_cant": "all collections and all indices, also past the end", "anchors": ["src/digital.rs:44-93", "src/digital.rs:95-132", "src/digital.rs:134-554", "src/digital.rs:609-685"]}
{"id": "C78", "title": "Laws of the wrappers", "statement": "Collections that answer every question a formatter may ask alike (digits only below the length) print every number alike. So however three collections are chained only their order counts; an empty collection chained behind changes nothing and in front decides only how to count; restricting twice is the last restriction, to the own length none, and restricting a chain restricts its second part; asking for one_based twice, before or after restricting or chaining makes no difference, and it has no effect on a collection with a zero digit that is not fixed.", "quantifier": "all DigitCollections with pure methods (lengths within usize), all n, integer types, configurations", "why_tests_cant": "equations between arbitrary collections for all numbers", "anchors": ["src/digital.rs:61-93", "src/digital.rs:428-504", "src/digital.rs:556-607", "src/digital.rs:665-684"]}
{"id": "C79", "title": "How many digits a numeral has", "statement": "With b digits, the first number printed with k digits is b^(k-1) (0 for k = 1) with a zero digit, and 1 + b + ... + b^(k-1), less one if counting from zero, without; numerals never get shorter when counting on. Without alloc, if every digit takes w bytes, OutOfMemory is reported exactly from the first number with 62/w + 1 digits on; for each built-in digit set that number is as tabulated (e.g. 10^31 for Persian, 10^20 for Thai, none for Decimal).", "quantifier": "all digit collections, n, k, integer types, configurations", "why_tests_cant": "thresholds up to 2^128 for arbitrary collections", "anchors": ["src/digital.rs:556-607", "src/nominalstring.rs:58-110"]}
{"id": "C80", "title": "Numbers shown in the preview of a digit collection", "statement": "With count digits and least the first number it counts from (0 with a zero digit or zero-based, else 1), preview_values() of DigitPreview lists least to least+4 (fewer if there are fewer digits), the last number with one digit, the two after it, count^2 - 1 + least up to count^2 + 2 + least, nothing else, and in increasing order if there are three digits or more. It panics exactly when a number does not fit into u32 (in release builds: when the count does not; the numbers listed are then the same ones modulo 2^32).", "quantifier": "all DigitCollections, configurations", "why_tests_cant": "all collections of any length", "anchors": ["examples/previews.rs:206-233"]}
{"id": "C81", "title": "The preview shows the tens and the hundreds transition", "statement": "As its comments say, the numbers of a digit preview show the step from one digit to two (always) and the step from two digits to three.", "quantifier": "all DigitCollections, configurations", "why_tests_cant": "a statement about the number of digits for collections of any size", "anchors": ["examples/previews.rs:220-231", "src/digital.rs:556-607"]}
{"id": "C82", "title": "Contents of a preview table", "statement": "preview() prints exactly a heading, a rule and one row per number with its decimal numeral and its text, an ellipsis row wherever numbers are left out and nowhere else, each cell padded with spaces on the right to the widest cell of its column (measured in terminal columns), the file additionally has a heading with the type's name, and the returned line has all texts separated by a left-to-right mark and a space.", "quantifier": "all systems, names, lists of numbers, all answers of the Unicode crates with sound graphemes, all configurations", "why_tests_cant": "arbitrary systems and arbitrary Unicode tables", "anchors": ["examples/previews.rs:95-170"]}
{"id": "C83", "title": "The lines of a preview table are equally wide", "statement": "All lines of a preview table take the same number of terminal columns, and no column is wider than its widest cell.", "quantifier": "all systems, names, lists of numbers, answers of the Unicode crates", "why_tests_cant": "the exception (name four columns shorter than the widest text) is met by none of the 51 tables", "anchors": ["examples/previews.rs:122-158"]}
{"id": "C84", "title": "The preview program", "statement": "In every build the program finishes, prints the same, and every number in it is shown by its own system (never falling back to decimal), in increasing order. It writes no file unless SAVE is set; then index.md is the one in the repository whatever the Unicode crates say, all file names differ, each file is a heading and what was printed, and with combining marks taking no column and East Asian characters two all 52 files are those of the repository byte for byte.", "quantifier": "all configurations, all answers of the Unicode crates with sound graphemes", "why_tests_cant": "all builds and all Unicode tables at once", "anchors": ["examples/previews.rs:23-93", "examples/previews.rs:172-187", "examples/previews.rs:248-368", "src/previews/index.md"]}
{"id": "C85", "title": "All texts fit into memory", "statement": "The text of any number that fits in usize, by any built-in system, takes at most a quarter of the address space, so the String (whose capacity at most doubles as it grows, limit isize::MAX) never exceeds its capacity. For the positional systems, the Ethiopic and Chinese ones this holds for every number of every type. The additive and Hebrew systems need more than a 64-bit address space for u128::MAX.", "quantifier": "all built-in systems, all configurations, all numbers", "why_tests_cant": "texts of exabytes", "anchors": ["src/nominalstring.rs:61-119", "src/additive.rs:46-71", "src/hebrew.rs:10-66"]}
{"id": "C86", "title": "Derived Debug and PartialEq", "statement": "The Debug text of Error, of the digit collections (also wrapped in OneBased, Chain, Restrict) and of the Chinese systems is that of the derives; plainly formatted, different values have different texts. Equality holds exactly for the same value. Under any width, fill and alignment the number in an Error stands in full inside the text.", "quantifier": "all values, all nestings of wrappers, all placeholder options", "why_tests_cant": "unbounded nesting; all format options", "anchors": ["src/lib.rs:148-175", "src/digital.rs:200-330", "src/chinese.rs:6-40"]}
{"id": "C87", "title": "What the documentation shows", "statement": "The lists of systems in README.md and in the crate documentation are what the preview program writes, with the placeholders replaced as configured. Every assertion and table row of README.md, examples/basics.rs and the doc comments of DigitSet, RomanLower, RomanUpper and INLINE_CAPACITY holds in every build and for every integer type that holds the number.", "quantifier": "all configurations, all integer types, all answers of the Unicode crates", "why_tests_cant": "doc tests run in one build with one type; the list is not tested", "anchors": ["README.md:16-105", "src/.crate-docs.md:14-103", "examples/basics.rs:6-28", "src/digital.rs:10-38", "src/additive.rs:73-79", "src/additive.rs:125-131", "src/nominalstring.rs:24-35", ".rustme/config.ron:45-54"]}
{"id": "C88", "title": "47 bytes on the stack", "statement": "As the documentation of NominalString says, it can store up to 47 bytes on the stack before requiring a heap allocation.", "quantifier": "all configurations, all texts", "why_tests_cant": "all texts and histories", "anchors": ["src/nominalstring.rs:11-13"]}
{"id": "C89", "title": "CSS counter styles", "statement": "The systems that the change log says come from the CSS counter styles show every number as the style of that name in CSS Counter Styles Level 3 does: numeric (Decimal, EasternArabic, Persian, Bengali, Cambodian, CjkDecimal, Devanagari, Gujarati, Gurmukhi, Kannada, Lao, Malayalam, Mongolian, Myanmar, Oriya, Tamil, Telugu, Thai, Tibetan), alphabetic, one-based (LetterLower, LetterUpper, GreekLower, Hiragana, Katakana and the Iroha orders), fixed (CjkHeavenlyStem, CjkEarthlyBranch) and additive (Armenian, Georgian, Japanese, Korean, Roman), falling back as CSS does outside a style's range.", "quantifier": "all configurations, all integer types, all numbers", "why_tests_cant": "all numbers of unbounded range; tests and tables show the first few", "anchors": ["CHANGELOG.md:35-38", "CHANGELOG.md:84-112", "src/lib.rs:44-46"]}
{"id": "C90", "title": "UTF-8 as Unicode defines it", "statement": "Every NominalString reads as a byte sequence that is well-formed by table 3-7 of the Unicode Standard; every well-formed sequence can be held (with a heap, or up to 62 bytes); a character pushed at either end or converted adds the bytes table 3-6 gives it; and the theorems about pushes and conversions cover every Unicode scalar value and every well-formed sequence.", "quantifier": "all configurations, all histories of calls, all characters, all byte sequences", "why_tests_cant": "all sequences of bytes and calls", "anchors": ["src/nominalstring.rs:66-94", "src/nominalstring.rs:147-200", "src/nominalstring.rs:529-546"]}
{"id": "C91", "title": "The crate's tests pass on every target", "statement": "With the alloc feature every test function of the crate that does not consult the crate chinese_number, and the example basics.rs, passes in every build: any width of usize, overflow checks on or off. The seven tests that consult it pass exactly when its answers are the texts listed in the tests (an error on the short scale from 10^15 on). Without alloc the assertions of long_test, forward_ops and reverse_ops would fail, and of no other.", "quantifier": "all configurations, all answers of chinese_number", "why_tests_cant": "the tests run on one target with one version of chinese_number", "anchors": ["src/additive.rs:172-198", "src/chinese.rs:575-905", "src/digital.rs:518-522", "src/digital.rs:687-703", "src/ethiopic.rs:78-85", "src/hebrew.rs:78-85", "src/lib.rs:88-96", "src/nominalstring.rs:550-627", "examples/basics.rs:6-33"]}
{"id": "C92", "title": "Debug to any sink and with any flags", "statement": "Debug of a NominalString hands its text over piece by piece and stops at the first piece the sink refuses: a sink that keeps what it takes holds the beginning of the text, and all of it exactly if Ok is returned. The derived Debug implementations, as the calls they make, print what C86 says; the flags +, 0, x and X affect the numbers in them only: sign, 0x with #, decimal or hexadecimal digits, zeros after these, or fill on the sides the alignment asks for. With # each field stands on lines of its own, indented four columns per level, followed by a comma, whatever the width and the flags.", "quantifier": "all sinks, all reachable strings, all options and flags, all values", "why_tests_cant": "all sinks and all combinations of flags", "anchors": ["src/nominalstring.rs:14-16", "src/nominalstring.rs:249-264", "src/lib.rs:182-192", "src/digital.rs:62-63", "src/chinese.rs:119-139"]}
{"id": "C93", "title": "The preview program when output fails", "statement": "Every call of the preview program that prints, creates or writes is followed by expect, so it ends at the first that fails. If none fails, standard output and the files are what C84 says and no other file changes. Wherever it stops, standard output is a beginning of the full output and a file holds what it held before or a beginning of its full text; a table's file is opened only when those before it are complete; the index is emptied first and stays empty until every table is complete; what a file holds after its heading has been printed.", "quantifier": "all builds, all runs: every point of failure, every partial write, all earlier contents", "why_tests_cant": "every call may fail, after any number of bytes", "anchors": ["examples/previews.rs:23-80", "examples/previews.rs:82-93", "examples/previews.rs:95-161", "examples/previews.rs:163-170"]}
{"id": "C94", "title": "The size of a NominalString", "statement": "Whatever order and places the compiler chooses under the rules for the default representation, an inline capacity of k bytes makes NominalString at least k + 2 bytes long with alloc, and a whole number of words, and at least k + 1 without; both are attained (with alloc from four words on). So the documented 64 bytes are the least for the capacity of 62, and 62 is the largest capacity for 64 bytes.", "quantifier": "all layouts, capacities and word sizes", "why_tests_cant": "size_of shows the layout one compiler chose for one target", "anchors": ["src/nominalstring.rs:9-16", "src/nominalstring.rs:249-254", "src/nominalstring.rs:266-270", "src/digital.rs:702"]}
{"id": "C95", "title": "Heap strings own their memory", "statement": "In any program that creates, changes, clones, converts to and from String, moves, overwrites and drops any number of strings, with an allocator that may refuse any request: no block is used after it is given back, given back twice, accessed beyond its end or returned with a wrong size, and no uninitialised byte is read; every variable reads the text its own statements made, wherever other statements panicked; every block in use belongs to exactly one variable, and the sizes asked for are those returned and those in use, so nothing leaks; a call that panics because a request was refused changes nothing (a string passed by value is gone). While nothing is refused, a string is what it is without memory being modelled.", "quantifier": "all programs, all allocators, all growth policies, all targets with alloc", "why_tests_cant": "refused allocations, ownership across all interleavings of statements and the absence of leaks are not observed by running the crate's tests", "anchors": ["src/nominalstring.rs:14-16", "src/nominalstring.rs:112-119", "src/nominalstring.rs:147-182", "src/nominalstring.rs:249-254", "src/nominalstring.rs:435-543"]}
{"id": "C96", "title": "Which calls reach the allocator", "statement": "The calls to the allocator, their order, and the statements that panic depend only on the numbers of bytes: an inline string asks for nothing; the change that takes it past 62 bytes asks once for exactly the new length; a heap string asks only when its capacity is exceeded; a clone asks for its length; converting a heap string to a String, or a String to a NominalString, asks for nothing and keeps the capacity; converting an inline string asks for its length; dropping or overwriting returns the capacity. A statement panics exactly when its request is larger than isize::MAX or refused.", "quantifier": "all programs, all allocators, all growth policies, all targets with alloc", "why_tests_cant": "the calls to the allocator are not visible in the results", "anchors": ["src/nominalstring.rs:112-119", "src/nominalstring.rs:127-174", "src/nominalstring.rs:435-527"]}
{"id": "C97", "title": "Growing a string takes few allocations", "statement": "With an allocator that refuses nothing, a string that grows to n bytes by any pushes and edits makes no call to the allocator if n is at most 62; otherwise, if 2 n is at most isize::MAX, no call panics, the capacity is at most 2 n, and k calls mean a capacity of at least 63 * 2^(k-1), so there are at most 1 + log2(2 n / 63) calls.", "quantifier": "all histories of pushes and edits, all lengths, all targets with alloc", "why_tests_cant": "amortised cost over histories of any length", "anchors": ["src/nominalstring.rs:435-527"]}
{"id": "C98", "title": "Formatting in memory", "statement": "Every built-in system, run on heap strings in memory with an allocator that may refuse any request: it has no undefined behaviour; an error is returned with the memory as it was; otherwise either the text of the value model is returned, inline if it has at most 62 bytes and else in the heap, and the only new block is that of the returned string (the strings made on the way are given back), or the text is longer than 62 bytes, a request was refused, and the panic gives back every block taken. Texts of at most 62 bytes are formatted without a call to the allocator; with String's growth and an allocator that never refuses, all texts of up to half of isize::MAX bytes are formatted.", "quantifier": "all systems, all numbers, all integer types, all allocators and growth policies, all memories at the start, all targets with alloc", "why_tests_cant": "refused allocations, leaks and blocks given back during unwinding are not visible in results", "anchors": ["src/digital.rs:556-607", "src/additive.rs:34-66", "src/enumerated.rs:26-43", "src/ethiopic.rs:16-76", "src/hebrew.rs:7-76", "src/chinese.rs:25-378"]}
{"id": "C99", "title": "A caller's digits and symbols in memory", "statement": "The same for digit collections with any safe methods (also with fallbacks), for additive sets with any symbols and for enumerated sets with any symbols: formatting has no undefined behaviour; errors leave the memory as it was; a panic, also one inside a method of the collection or the one of a set that is not in order, leaves no block behind; a formatter that would not return either does not return or is refused memory and leaves no block behind.", "quantifier": "all collections and sets, all numbers, all integer types, all allocators, all memories at the start, all targets with alloc", "why_tests_cant": "quantifies over user code and over refusing allocators", "anchors": ["src/digital.rs:556-607", "src/digital.rs:632-685", "src/additive.rs:20-66", "src/enumerated.rs:9-43"]}
{"id": "C100", "title": "A caller's stateful digits in memory", "statement": "A digit collection whose safe methods may change its state between calls, formatted with strings in memory and any allocator, does what it does with strings as values, or is refused memory on the way: it has no undefined behaviour, returned texts are the same, the only new block belongs to the returned string, and errors, panics (also in a method of the collection) and refusals leave no block behind. Errors may come after the string has grown into the heap. A collection without state is formatted exactly as in C99.", "quantifier": "all collections with any behaviour, all numbers, all integer types, all allocators, all memories at the start, all targets with alloc", "why_tests_cant": "quantifies over user code with hidden state and over refusing allocators", "anchors": ["src/digital.rs:556-607"]}
{"id": "C101", "title": "to_nominal in memory", "statement": "to_nominal with a built-in system returns the text of the value model, with its only new block, or the text is longer than 62 bytes, a request was refused and no block is left behind. Where the system has an error, the decimal numeral is returned without a call to the allocator. The same for any system of a caller that keeps the default format_nominal.", "quantifier": "all systems, all numbers, all integer types, all allocators, all memories at the start, all targets with alloc", "why_tests_cant": "refused allocations and leaks are not visible in results", "anchors": ["src/lib.rs:44-46", "src/lib.rs:101-106", "src/lib.rs:194-231"]}
{"id": "C102", "title": "Programs that format", "statement": "Programs of any length that make, change, clone, convert, move and drop strings, format numbers into variables with built-in systems or the collections and sets of callers, and append strings to each other: no command has undefined behaviour; after each panic the program can go on; every variable has the text it has when strings are values; each block is owned by exactly one variable and has the size its string says; every block given back was taken with that size. Only a caller's collection can keep a command from returning; with built-in systems all commands return. When no variable holds anything, everything has been given back.", "quantifier": "all programs, all systems, all numbers, all allocators, all targets with alloc", "why_tests_cant": "quantifies over programs, user code and refusing allocators", "anchors": ["src/lib.rs:44-46", "src/lib.rs:101-106", "src/nominalstring.rs:15-254", "src/digital.rs:556-607"]}
{"id": "C103", "title": "as_usize is asked only for what fits", "statement": "Nominal::as_usize documents that it is only invoked for values within the range of usize. With any other function in its place that is right for those values, and does anything for the others, all formatters that call it do the same: the loop over the digits of a caller's collection, with state, whose len is a usize; the digit collections of the crate, also counting from one; Ethiopic; the Chinese systems with all options.", "quantifier": "all functions in place of as_usize, all numbers, all integer types, all digit collections, all targets", "why_tests_cant": "a truncating cast of a large value would be silent, and shows only on targets with a small usize", "anchors": ["src/lib.rs:150-156", "src/digital.rs:563", "src/digital.rs:596", "src/ethiopic.rs:54", "src/ethiopic.rs:58", "src/chinese.rs:80", "src/chinese.rs:91", "src/chinese.rs:105", "src/chinese.rs:112", "src/chinese.rs:211"]}
{"id": "C104", "title": "Allocator calls of formatters", "statement": "A formatter of a built-in system that is not Chinese makes no other string than its result: no call to the allocator for a text of at most 62 bytes, else one block of the size the text had when it left the struct, then a larger one each time the text did not fit; no call before an error; when a request is refused the one block is given back. The same for collections and sets of callers, whose errors and panics may come after calls and give the block back. With the growth of the standard library the number of calls is logarithmic in the length of the text and at most half of the block is unused. The Chinese systems, which make a string for each rank, make no call for a text in the struct and else at least 40 calls fewer than the text has bytes.", "quantifier": "all systems, all numbers, all integer types, all collections and sets of callers, all allocators, all memories at the start, all targets with alloc", "why_tests_cant": "calls to the allocator are not visible in results", "anchors": ["src/digital.rs:556-607", "src/additive.rs:34-66", "src/enumerated.rs:26-43", "src/ethiopic.rs:40-73", "src/hebrew.rs:7-76", "src/chinese.rs:72-376", "src/nominalstring.rs:127-254"]}
{"id": "C105", "title": "The first text outside the struct", "statement": "For each built-in system, the first number whose text takes more than 62 bytes, so is on the heap with alloc and an error without: 10^20 for three-byte decimal digits, 10^31 for two-byte ones, none for ASCII digits, letters, Greek, hexadecimal and circled numbers, 7884888 for Roman, 244111 and 253111 for Armenian, 171111 for Georgian, 64111 or 65221 for Japanese and Korean, 111111111111111 for Ethiopic, 11315 for Hebrew, 11111111111 for Chinese in every script, formality and scale. No smaller number leaves the struct or calls the allocator; for digit systems every larger one leaves it. Below 11315, so for every byte, no system does.", "quantifier": "all 116 systems, all numbers, all integer types, all targets, all allocators and memories", "why_tests_cant": "the first number is a minimum over up to 10^31 numbers", "anchors": ["src/nominalstring.rs:127-254", "src/digital.rs:556-607", "src/additive.rs:70-98", "src/ethiopic.rs:40-73", "src/hebrew.rs:14-85", "src/chinese.rs:72-376"]}
{"id": "C106", "title": "References and pointers follow the aliasing rules", "statement": "A program that pushes, derefs, keeps several &str at once, edits through &mut str and pushes again, using each reference only as long as the borrow checker allows, never breaks the rules of Stacked Borrows at any byte of the string, although the unsafe code makes a pointer first and borrows the whole string again before using it; and never touches memory outside the string through it. The accesses judged are those that happen: a byte that a call changes is written in its trace, and a byte that makes a difference to another byte, to the text on the heap, to the bytes a reference covers or to an answer is read.", "quantifier": "all reachable strings of both directions, inline or on the heap, all sequences of uses, all bytes, with and without alloc", "why_tests_cant": "a violation is undefined behaviour that tests run on hardware do not show; Miri checks single runs", "anchors": ["src/nominalstring.rs:273-414", "src/nominalstring.rs:435-543", "src/nominalstring.rs:184-196"]}
{"id": "C107", "title": "References and pointers follow Tree Borrows as well", "statement": "The same programs break no rule of Tree Borrows either, the other candidate for Rust's aliasing rules: no reference or raw pointer is used after a write through a pointer it was not made from, and no argument of a running call loses what it was used for. The rules are strict: such a write ends all other references, and one during a call is rejected.", "quantifier": "all strings, all sequences of uses the borrow checker allows, all bytes, with and without alloc", "why_tests_cant": "a violation is undefined behaviour that tests run on hardware do not show; Miri checks single runs", "anchors": ["src/nominalstring.rs:273-414", "src/nominalstring.rs:435-543", "src/nominalstring.rs:184-196"]}
{"id": "C108", "title": "What pushing costs", "statement": "Pushing where the string grows (at the back, or at the front of a string made by new_reverse) reads and writes the bytes pushed and at most six more, however long the text is; at the other end it reads and writes the whole text once more, so a text pushed there takes time proportional to the square of its length. Leaving the struct reads the text once, an error two bytes. The formatters push where the string grows only, so none of them ever moves text: with pushes that panic rather than move anything they do the same.", "quantifier": "all inline strings of both directions, all pushes and sequences of pushes, all digit collections and additive sets, all built-in systems, all numbers and types, with and without alloc", "why_tests_cant": "tests compare texts, not the time taken; that no formatter ever pushes at the expensive end needs every path of all of them", "anchors": ["src/nominalstring.rs:42-88", "src/nominalstring.rs:335-414", "src/nominalstring.rs:435-527", "src/digital.rs:585-603", "src/additive.rs:58-61", "src/ethiopic.rs:38-60", "src/hebrew.rs:49-71", "src/chinese.rs:52-378"]}
{"id": "C109", "title": "Several threads may read one string", "statement": "NominalString is Sync, so several threads may use one string at once through shared references: in whatever order their steps come, no two threads access a byte with one of them writing, none changes the string, and neither Stacked nor Tree Borrows is violated, also when the string is written by its owner before and afterwards. A push while another thread is in deref races and is a violation of both.", "quantifier": "all strings, all numbers of threads, all sequences of shared uses, all interleavings, all phases of one or several threads, all bytes, with and without alloc", "why_tests_cant": "races depend on timing and on the compiler; the number of interleavings is exponential", "anchors": ["src/nominalstring.rs:14-16", "src/nominalstring.rs:92-94", "src/nominalstring.rs:184-190", "src/nominalstring.rs:249-270", "src/nominalstring.rs:293-325", "src/nominalstring.rs:529-535"]}
{"id": "C110", "title": "OneBased and the built-in collections as keys", "statement": "The derived Eq and Hash of OneBased and of the built-in collections satisfy what HashMap asks of keys: equality is an equivalence and equal values leave every hasher in the same state, if the same is true of the wrapped type. A wrapped value hashes as the value in it, and the built-in collections leave a hasher as it is. Collections whose methods answer alike format every number alike, so equal keys do, if equal wrapped values answer alike.", "quantifier": "all wrapped types with their own Eq and Hash, all hashers and states, all collections, all numbers and types, with and without alloc", "why_tests_cant": "all user types and hashers", "anchors": ["src/digital.rs:62-93", "src/digital.rs:105-106", "src/enumerated.rs:52-53", "src/digital.rs:556-607"]}
{"id": "C111", "title": "The source text does what the model says", "statement": "The text of the Ethiopic, Hebrew, additive, digital, enumerated and Chinese formatters, as it stands in the repository, read by a parser for the part of Rust it is written in and run by an interpreter for that part, has the same outcome as the model: the same string or error, or the same panic, overrun or undefined behaviour.", "quantifier": "all configurations (for the Chinese text those whose usize has at least 16 bits, as Rust requires), all integer types, all numbers, all options, symbol sets, digit collections and depths of fallback", "why_tests_cant": "the text is compared with the model on all inputs at once", "anchors": ["src/ethiopic.rs", "src/hebrew.rs", "src/additive.rs:34-66", "src/digital.rs:556-607", "src/enumerated.rs:26-43", "src/chinese.rs:1-526"]}
{"id": "C112", "title": "The tables of the model are those of the source text", "statement": "The digit sets, additive symbols and enumerated symbols read out of the text of the repository are exactly those of the model, all of them, under the same names and with the same values, kinds and fallbacks; and the text of the additive and digital formatters run on a table of the text is the model of the numeral system with that name.", "quantifier": "all tables in the text; for the runs all configurations, integer types, numbers and depths of fallback", "why_tests_cant": "tests sample symbols; here every symbol and value of every table is compared", "anchors": ["src/digital.rs:134-426", "src/digital.rs:506-516", "src/additive.rs:68-614", "src/enumerated.rs:66-81"]}
{"id": "C113", "title": "The text of the digit collections does what the model says", "statement": "The methods in the text of OneBased, Chain, Restrict, DigitSet, NoFallback, CjkHeavenlyStem and CjkEarthlyBranch, and the ones the trait supplies, read by the parser and run by the interpreter of C111, answer as the collections of the model do: the same numbers, characters and flags, or the same panic.", "quantifier": "all configurations, all wrapped collections (also ones whose methods panic or do not return), all counts, digits and indices", "why_tests_cant": "the text is compared with the model for all collections and indices at once", "anchors": ["src/digital.rs:72-93", "src/digital.rs:189-248", "src/digital.rs:444-470", "src/digital.rs:483-504", "src/digital.rs:524-554", "src/digital.rs:614-628", "src/digital.rs:638-657"]}
