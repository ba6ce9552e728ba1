# Formal model of `nominals` 0.3.1: design

The crate at /repo (pinned) is modelled function by function in Rocq 8.16
(`rocq/theories`), and the properties of `properties.jsonl` are theorems about
that model. Nothing of the crate is compiled or run; the model was written by
reading the source. `Tests.v` evaluates the model inside the kernel on every
output recorded in the repository (all generated preview tables and every
assertion of the crate's tests) as a check that the reading was right.

## What is modelled

| Model file | Rust code | How |
|---|---|---|
| `Base.v` | - | outcomes (`Ret`, `Panic`, `Hang`, `UB`), `Result`, unsigned integer types with `try_from`, checked `-`, `/`, `%`, the two overflow modes, loops with an iteration budget, raw memory as `option N` cells |
| `Utf8.v` | core `char`/`str` | code points, UTF-8 encoding, strict decoding (used as the definition of valid `str`) |
| `NominalString.v` | `src/nominalstring.rs` | the 62-cell `MaybeUninit` buffer, the length byte with its direction bit, heap variant, all pushes, conversions, comparison, `DerefMut` |
| `Format.v` | `src/nominalstring.rs:14-16, 121-125, 249-264` | `Display` with all placeholder options (`Formatter::pad`) to any sink, `Debug` (`debug_tuple`, one line and `#`), `Clone` |
| `Digital.v` | `src/digital.rs`, `Error` and `WithNominal` of `src/lib.rs` | `DigitCollection` as a record of its methods, the wrappers, all built-in sets, the formatter loop |
| `Live.v` | `src/digital.rs:556-607` | the formatter loop again, for implementors of `DigitCollection` with hidden state whose methods may answer differently, panic or not return |
| `Additive.v` | `src/additive.rs` | `AdditiveSet::new`, the formatter, the ten built-in tables |
| `Enumerated.v` | `src/enumerated.rs` | both constructors, formatter, both built-in tables |
| `Ethiopic.v`, `Hebrew.v`, `Chinese.v` | the files of the same name | all functions, all options |
| `System.v` | `src/lib.rs` | `NominalSystem` with its default method, `Box`/`Rc`/`Arc`, `to_nominal`, `into_decimal`, `unwrap_or_decimal` |
| `Derived.v` | the `#[derive]`s of `src/lib.rs`, `src/digital.rs`, `src/enumerated.rs`, `src/chinese.rs` | derived `Debug` and `PartialEq` of `Error`, the collections, wrappers and Chinese systems |
| `DebugWrites.v` | the same `Debug` implementations | the calls they make to a `core::fmt::Write`, `PadAdapter`, `pad_integral` with all flags |
| `Previews.v` | `examples/previews.rs` | the program that writes `src/previews/*.md`: names, values, tables, files; the crates unicode-segmentation and unicode-width are parameters |
| `PreviewRun.v` | `examples/previews.rs` | the same program as its single calls, each of which may fail |
| `Documentation.v` | `README.md`, `src/.crate-docs.md`, `.rustme/config.ron` | the lists of systems, and how they are made from `src/previews/index.md` |
| `HeapMemory.v` | `src/nominalstring.rs`, alloc's `String` and `RawVec` | heap strings again, as blocks of memory with an allocator that may refuse any request; programs that create, change, clone, convert, move and drop strings |
| `HeapFormat.v` | `src/digital.rs`, `src/additive.rs`, `src/enumerated.rs`, `src/ethiopic.rs`, `src/hebrew.rs`, `src/chinese.rs` | all formatters again, on the strings of `HeapMemory.v`: which local strings there are, where they are dropped, what a panic drops on its way out |
| `HeapLive.v` | `src/digital.rs:556-607`, `src/lib.rs:44-46, 101-106, 194-231` | formatting with a caller's stateful collection (`Live.v`) and `to_nominal`, on the strings of `HeapMemory.v`; programs that mix statements, formatting and appending |
| `Casts.v` | `src/digital.rs:556-607`, `src/ethiopic.rs:40-73`, `src/chinese.rs:72-376` | the formatters that call `as_usize`, with any function in its place (C103) |
| `Pushes.v` | `src/digital.rs:556-607`, `src/additive.rs:34-66`, `src/ethiopic.rs:16-76`, `src/hebrew.rs:7-76`, `src/chinese.rs:25-526` | the formatters that push onto strings, with any functions in place of the pushes (C108) |
| `Threads.v` | `src/nominalstring.rs:14-16, 92-94, 184-190, 249-270` | programs of several threads that share a string, and the rules of `Aliasing.v` and `TreeBorrows.v` where calls of several threads are running (C109) |
| `Hashing.v` | `src/digital.rs:62-93, 105-106`, `src/enumerated.rs:52-53` | the derived `Hash`, for any wrapped type and hasher (C110) |
| `Rust.v`, `RustRun.v` | none | a parser for the part of Rust the formatters are written in, and an interpreter for it (C111) |
| `Sources.v` | `src/ethiopic.rs`, `src/hebrew.rs`, `src/additive.rs:34-66`, `src/digital.rs:556-607`, `src/enumerated.rs:26-43`, `src/chinese.rs:1-526` | the text itself, copied by `tools/sources.py` |
| `Tables.v` | none | reads tables of symbols out of Rust text (C112) |
| `TableSources.v` | `src/digital.rs:134-426, 506-516`, `src/additive.rs:68-614`, `src/enumerated.rs:66-81` | the text of the tables, copied by `tools/sources.py` |
| `AdapterSources.v` | `src/digital.rs:72-93, 189-214, 223-248, 444-470, 483-504, 524-554, 614-628, 638-640, 647-649, 655-657` | the text of the digit collections (C113), copied by `tools/sources.py` |
| `TypeLayout.v` | `src/nominalstring.rs` | the types `NominalString`, `MaybeInline`, `InlineString`, and the layouts the rules of the language allow |
| `Aliasing.v` | `src/nominalstring.rs` | the references and raw pointers made and used by each function, as events, and the rules of Stacked Borrows for them; programs that keep references |
| `TreeBorrows.v` | `src/nominalstring.rs` | the rules of Tree Borrows, for the events of `Aliasing.v` |
| `TestSuite.v` | the `#[test]` functions of `src`, `examples/basics.rs` | the tests as programs, a failed assertion being a panic; the crate chinese_number is a parameter |

Every definition cites its source lines.

### Conventions

- An integer of any type is an `N`; the type `T` is a parameter. `fits c T n`
  says `n` is a value of type `T`. Theorems quantify over all six types and,
  for `usize`, over widths 16, 32 and 64.
- `config` holds the alloc feature, the width of `usize`, and the loop budget.
  A loop that needs more than `2^loop_depth` turns is reported as `Hang`.
  Theorems hold for every budget of at least `2^130`, so "does not hang" means
  "needs at most `2^130` turns"; "hangs" theorems are stated for every budget.
- `config` also has the profile setting overflow-checks: when an addition or
  subtraction of the formatters overflows, the model panics if it is on and
  wraps if it is off. Theorems hold for both. (Offsets inside the 62-byte
  buffer are computed without this distinction; they never go below zero,
  C05.)

### Not modelled

- Running out of heap outside `HeapMemory.v`, `HeapFormat.v` and `HeapLive.v`: elsewhere every
  allocation succeeds, and `String` has no maximum length. (C95, C96, C98 to C102:
  when a request is refused the call panics or aborts, and a panic leaves the
  blocks of others as they were and none of its own; otherwise the string is
  the one of `NominalString.v`. C85: texts of numbers that fit in `usize` stay
  below a quarter of the address space; RomanUpper of `u128::MAX` would need
  10^33 bytes.) Whether a refused request panics (capacity overflow) or aborts
  (`handle_alloc_error`) is a matter of the kind of refusal; unwinding is
  modelled for both.
- `Debug` of `str` needs tables of the Unicode database, so C62 and C92 hold
  for any per-character escaping.
- Which of the possible layouts of `NominalString` the compiler chooses (C94:
  64 bytes are the least).
- Aliasing rules for references outside `Aliasing.v` (C106 for Stacked Borrows,
  C107 for Tree Borrows): elsewhere memory safety means in-bounds access to
  initialised bytes and valid UTF-8. References into the heap block of a
  `String` are not modelled. In `TreeBorrows.v` nothing has interior mutability
  and no argument is a `Box`, as in the code.
- Memory orderings: in `Threads.v` the steps of several threads come in some
  order. Where threads only read (C109) weaker orders cannot be told apart from
  these. Starting and joining threads counts as synchronisation, as in std.
- Further implementations of `Nominal`: its supertrait `UnsignedInteger` requires the private
  trait `sealed::IntegerDivision`, so only the crate's six exist. (User
  implementations of `DigitCollection` are modelled: as pure methods in
  `Digital.v`, with hidden state in `Live.v`; both agree where both apply,
  `C57_no_state_no_difference`.)
- Wrapping `as` casts: modelled (`as_usize`).

## Trusted base

- The Coq 8.16.1 kernel (including `vm_compute`) and the coqc front end.
- Axioms: none are declared in this development. What `Print Assumptions`
  reports per theorem is printed when `Properties*.v` are compiled; the list
  is at the end of this file.
- The model's faithfulness to the Rust text, where the text itself is not read
  (for six kinds of formatters it is, by C111, for the tables of symbols, by
  C112, and for the digit collections, by C113; there the meaning of Rust is that of `RustRun.v` and `Tables.v`, and
  `Sources.v`, `TableSources.v` and `AdapterSources.v` have to be copies of the text, which
  `tools/sources.py` makes; numbers in the text take their type from the
  values they meet, as the types in the text are skipped), and the semantics of the core
  library functions used (`char::encode_utf8`, `copy_within`, slices, `zip`,
  `TryFrom` between integers, `str` comparison, `Formatter::pad`,
  `pad_integral`, `debug_tuple`, `debug_struct`, `PadAdapter`, what derived
  traits expand to) as written in `Base.v`, `Utf8.v`, `NominalString.v`,
  `Format.v`, `Derived.v` and `DebugWrites.v`; what a call on a file or on
  standard output may have done when it fails, as written in `PreviewRun.v`;
  the rules for type layout, as written in `TypeLayout.v`; when alloc's
  `String` calls the allocator and what it reads and writes, as written in
  `HeapMemory.v`, and when local variables are dropped, as written in
  `HeapFormat.v` (that a full string at least doubles is used by C97 only);
  where references are retagged and which core functions go through raw
  pointers, as written in `Aliasing.v`, and the two sets of rules, as written
  there and in `TreeBorrows.v`.
- The strings `type_name` gives for the types of `examples/previews.rs`
  (`nominals::digital::Decimal`, `previews::DigitPreview<...>`), and
  `PreviewFiles.v`, a copy of `src/previews/*.md`, and `Documentation.v`, a copy
  of the lists in `README.md` and `src/.crate-docs.md`.
- `Spec.v`, which says what a correct result is, without using the model's
  functions; likewise `SpecUtf8.v` (Unicode's tables), `SpecAdditive.v`,
  `SpecScripts.v`, `SpecChinese.v`, and `SpecCss.v`, which states the counter
  styles of CSS Counter Styles Level 3 from that document,
  not from the crate (there was no network to compare it against).

## Shape of the proofs

- `NominalString` layer: an invariant `rep c s cs` ("`s` is a well-formed
  string whose text is `cs`": buffer of 62 cells, length byte is `l` or
  `128 + l`, the window at the right end holds exactly the UTF-8 of `cs`, all
  other cells uninitialised).
  Every operation preserves it and has an exact effect on the text. Histories
  are handled by induction over lists of operations.
- Formatter layer: `yields c r cs n` says the result `r` is `Ok` of a string
  reading `cs` when there is room (alloc, or at most 62 bytes) and
  `Err(OutOfMemory n)` otherwise. Each formatter is proved to yield a text
  that depends only on `n`, by loop invariants and induction.
- Specification layer: that text is shown equal to / readable by the
  independent definition in `Spec.v`.

## Properties

Status legend: P = proved in full, R = refuted as stated (a `_refuted` theorem
gives the witness) and proved in the strongest true form as `_partial`.

| Id | Plan | Method |
|---|---|---|
| C01 | P | induction over operation histories with `rep` |
| C02 | P | same history, two invariants side by side |
| C03 | P | `is_inline` tracked through the history induction |
| C04 | P | exact failure condition per push + history induction that skips failed pushes |
| C05 | P | `rep` implies reads are in bounds, initialised, valid UTF-8; preserved by every operation and edit |
| C06 | R | `push_front` on a forward string calls `as_bytes_mut` after growing the length, exposing uninitialised bytes; partial: exactly when, and every other slice is initialised |
| C07-C11 | P | from `rep`; C10 needs UTF-8 order = code point order for all scalar values |
| C12-C15 | P | loop invariant to canonical/bijective digit lists; uniqueness, shortlex order and completeness of those lists by induction |
| C16-C18 | P | instances of C12-C14 with the tables |
| C19 | P | `collects` relation closed under Chain/Restrict |
| C20 | R | wrappers do not forward `fixed`; witness CjkHeavenlyStem.one_based() at 11; partial: a wrapper prints what the same digits without `fixed` print |
| C21 | R | zero-based case proved; one-based witness: 256 digits, u8, n = 0 and n = 1 |
| C22 | R | `DigitSet::new` of one digit never terminates for n >= 1, of no digits divides by zero; all other sets terminate, and the outcome of every set is given |
| C23 | P | the yielded text/error is the same function of n for all types |
| C24, C25 | P | greedy loop invariant; table check |
| C26 | R | table without 1 prints a smaller number; partial: counts and remainder are the unique greedy ones, exact iff the remainder is zero |
| C27 | P | left-to-right reader; a computed non-clash condition on the tables, proved sufficient for all n |
| C28, C30 | P | greedy algorithm works decimal place by decimal place (scaling lemma) |
| C29 | R | 900000 and 90000 are written with the wrong pair (D̅M̅, L̅C̅); partial: exact form for all n, and exactly which n differ |
| C31 | R | letter for 1 has a trailing space; partial: equal up to case after removing spaces |
| C32, C33 | P | direct |
| C34, C35 | P | CSS algorithm as a function on two-digit groups; reader by ten-thousand blocks |
| C36, C37 | P | loop invariant; letter values |
| C38 | P | CSS longhand algorithm on four digits |
| C39 | P | reader splitting at the highest large marker |
| C40, C41, C42, C43, C44 | P | induction over ranks |
| C45 | R | 100001000 is printed as 一亿一千; partial: exact condition |
| C46, C47, C49, C51 | P | corollaries of the `yields` theorems over all built-in systems |
| C48 | R | `format_nominal` overridden by an implementor is not forwarded; partial: holds for all implementors using the default |
| C50 | R | `From<&str>` panics; partial: symbols of at most 62 bytes, and additive n >= 1 of any symbols |
| C52 | P | recursion equation of the rank formatters, then uniqueness by well-founded induction |
| C53 | P | a reader for each system (digit value, additive sum, Ethiopic, Hebrew and Chinese readers) recovers the number |
| C54, C55 | P | length bounds by induction over digits, groups and ranks; exact limits by the period of the largest symbol and a computed maximum |
| C56 | P | induction over the chain of fallbacks |
| C57 | P | loop invariant: the string built so far is well formed |
| C58 | R | fixed, with a zero digit and counting from one: the number after the last symbol prints two digits; partial: exactly that |
| C59, C60 | P | the invariant `rep` fixes every cell of the buffer, the unused ones as never written |
| C61, C62 | P | direct computation on the characters of the text; uniqueness of the padded text by lengths |
| C63 | P | every string satisfying `rep` can be rebuilt by one conversion or push |
| C64 | P | the loop run with a smaller budget (`within c d`: at most 2^d turns) gives the same result or `Hang`; exact turn counts by induction on digits and counts |
| C65 | P | a collection that keeps a list of the calls made to it and goes wrong at a forbidden one is formatted like the original: a simulation of the two loops |
| C66 | R | `zero_based()` is also called when `fixed()` returned true, and true means counting from 0; partial: collections that are not fixed |
| C67 | P | the numeral as a list of indices (of counts) does not depend on the symbols |
| C68 | P | values of digit lists under appending a digit and under counting on |
| C69 | P | the two profiles run the same code up to subtractions and additions that are shown not to overflow |
| C70 | R | an unsteady `has_zero_digit()` makes `remaining -= one` underflow, a chain too long for `usize` overflows; partial: constant `has_zero_digit()`, exact length of chains |
| C71 | P | induction over the list of writes; the list itself from C61 |
| C72 | P | from C47; decimal numerals are injective |
| C73 | P | induction over the way a collection is put together; the loop with panics turned into results, then the invariant of C12 for partial digit lists |
| C74 | P | UTF-8 bytes compare as code points (as in C10), comparison of digit lists, padding by the display model |
| C75 | P | the two lowest groups split off by induction over the groups; the greedy tav step |
| C76 | P | numerals exist for every number (one direction) and are unique (the other); strong induction for Ethiopic |
| C77 | P | by computation; induction over the depth of fallbacks for chains |
| C78 | P | loops with pointwise equal turns; recursion over fallbacks |
| C79 | P | value bounds of k digits, monotone in k; thresholds computed |
| C80 | P | the list computed once overflow is excluded, and modulo 2^32 in release builds; each sum and product that may overflow gives a panic |
| C81 | R | the preview of a collection without a zero digit has no text of three digits; partial: collections with a zero digit (thresholds of C79) |
| C82 | P | loop invariant of both passes; padding by C61 |
| C83 | R | the heading is four columns too narrow when the widest text is four columns wider than the name; partial: exactly then |
| C84 | P | `preview_ret` (C82) for each of the 51 systems; texts computed in one build and transferred to all by C23 |
| C85 | P | longest text below a bound, computed per table; C55 for the others; lower bound for `u128::MAX` from C55 |
| C86 | P | texts are words and punctuation, so they can be split again; numbers by injectivity of decimal numerals (C15) |
| C87 | P | lists computed from C84's index file; examples computed in one build, then numerals are unique and printed in every build (C12-C14, C23) |
| C88 | R | the limit is 62 bytes (C03); partial: texts of up to 47 bytes are inline |
| C89 | R | the CSS loops, as relations, end in the numerals of `Spec.v` (uniqueness of numerals) and the greedy text of a table; tables compared by computation; outside a range the texts have a character the fallback lacks, or the same text is worth more in CSS; partial: all other numbers |
| C90 | P | the nine rows of table 3-7 and the encoding of a scalar value, by linear arithmetic with division; C05, C07 and the effect of a call |
| C91 | P | one meaning per number (C23) carries what one build computes to all; a loop of assertions passes when each does; the answers chinese_number may give are a parameter |
| C92 | P | the adapter splits at newlines and indents each line (induction on the calls); the writes of a builder joined are its text; C71 for the sink; hexadecimal digits by induction |
| C93 | P | a run is a list of calls done, the last perhaps in part; every file is opened once (names distinct, C84), so it holds the calls on it since |
| C94 | P | disjoint fields and a free byte for the discriminant, counted; the layouts given explicitly |
| C95 | P | each action gives up one block at most and takes one (`frame`); the variables own all blocks and share none (invariant over programs); calls and blocks balance (permutation) |
| C96 | P | each action makes the request foreseen from sizes alone, and nothing after it can fail |
| C97 | P | invariant on size, capacity and number of calls, over the sizes of C96 |
| C98 | P | each formatter in memory simulates the one on values: related states own the blocks of their local strings and no others; texts only grow, so a refusal means a long text; errors come before the first push |
| C99 | P | the same simulation for any digits and symbols of the right types; C57 excludes undefined behaviour |
| C100 | P | the simulation of C98 with the collection's state carried along; a collection without state gives the formatter of C99 step by step |
| C101 | P | C98 followed by the decimal fallback, whose text has at most 39 bytes and needs no memory |
| C102 | P | the invariant of C95 on memory and variables, with C98 to C101 for the commands that format; a string that is appended is shorter than isize::MAX because its block was granted |
| C103 | P | the two versions agree step by step: remainders by a count are below it, counts that do not fit the integer type exceed every number, four digits are read only of numbers below 10000 |
| C104 | P | a Hoare logic on the formatters: the calls so far are those of the one local string, by the exact requests of C96; for the Chinese systems a budget of one call for each byte beyond 62 and two for each rank that copies |
| C105 | P | the longest text below a bound: for digits from C79, for the additive systems by a recursion over the table evaluated once, for Ethiopic and Chinese by induction over the rules of the numeral (k decimal digits take at most 2k-1 Chinese signs), for Hebrew by evaluation; at the limit by evaluation |
| C106 | P | a Hoare logic for the stack of one byte: code given a pointer keeps what is below the pointer, leaves no argument of a finished call, and with reads alone everything that is not `Unique`; rules for methods, reborrows and raw pointers, then induction on the uses; traces compared with the effects in `NominalString.v` byte by byte |
| C107 | P | one byte at a time: code given a pointer keeps the standing of its ancestors, or makes them active if it writes; with reads alone it also keeps every reference not written through; the rule for methods covers the implicit access when a call returns; then induction on the uses |
| C108 | P | costs of traces add up by a rule for each construct of `Aliasing.v`; a string never changes direction, so the two versions of a formatter agree step by step as long as all pushes are where the string grows |
| C109 | P | what readers do is safe in any context (shared references made from known ones, reads within them), and being safe survives interleaving; invariants of the two rules under safe events, from and to those of C106 and C107 |
| C110 | P | by cases; that formatting depends on the answers of methods only, by induction on the depth of fallbacks with loop bodies compared pointwise |
| C111 | P | symbolic execution of the parsed text: a lemma for loops (the turns of the interpreter simulate those of the model, under an invariant where the model looks at a string the text does not), evaluation for the rest; the Chinese text function by function, each under what is known of the functions it calls (`ChineseSource.v`, `ChineseInner.v`, `ChineseRanks.v`, `ChineseShort.v`, `ChineseRuns.v`, `ChineseSystems.v`) |
| C112 | P | computation: the words of the text, then the tables in them, compared with the model's; the runs by C111 |
| C113 | P | evaluation of the parsed text, by cases on what the wrapped collection answers; the type `Fallback` of a collection is skipped by the parser and stays as modelled |

Documentation found wrong on the way, beside the refuted properties: the
comment on `NominalString` says up to 47 bytes are stored inline, it is 62
(C88); `one_based()` is said to have no effect if the collection has a zero
digit, which is false of fixed collections
(`C20_one_based_without_effect_refuted`).

## Print Assumptions

Every theorem of `Properties*.v` is followed by `Print Assumptions`, and each
answers `Closed under the global context`: no axiom is used, from the standard
library or otherwise. (Libraries loaded but not used by the proofs contain
axioms of their own; `coqchk -o` lists `Coq.ssr.ssrunder.Under_rel.*`, which
comes with the ssreflect plugin of the standard distribution.)
