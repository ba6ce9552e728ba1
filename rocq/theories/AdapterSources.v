(** * AdapterSources: digit collections of /repo/src, character by character

    Coq string literals double the quotation mark; apart from that the texts
    are the lines named beside them. Regenerate with tools/sources.py. *)

From Coq Require Import String.

(** src/digital.rs:72-93 *)
Definition one_based_source : string := "impl<T> DigitCollection for OneBased<T>
where
    T: DigitCollection,
{
    type Fallback = T::Fallback;

    fn has_zero_digit(&self) -> bool {
        self.0.has_zero_digit()
    }

    fn zero_based(&self) -> bool {
        false
    }

    fn len(&self) -> usize {
        self.0.len()
    }

    fn digit(&self, index: usize) -> char {
        self.0.digit(index)
    }
}
"%string.

(** src/digital.rs:444-470 *)
Definition chain_source : string := "impl<A, B> DigitCollection for Chain<A, B>
where
    A: DigitCollection,
    B: DigitCollection,
{
    type Fallback = Chain<A::Fallback, B::Fallback>;

    fn has_zero_digit(&self) -> bool {
        self.a.has_zero_digit()
    }

    fn zero_based(&self) -> bool {
        self.a.zero_based()
    }

    fn len(&self) -> usize {
        self.a.len() + self.b.len()
    }

    fn digit(&self, index: usize) -> char {
        if let Some(index) = index.checked_sub(self.a.len()) {
            self.b.digit(index)
        } else {
            self.a.digit(index)
        }
    }
}
"%string.

(** src/digital.rs:483-504 *)
Definition restrict_source : string := "impl<T> DigitCollection for Restrict<T>
where
    T: DigitCollection,
{
    type Fallback = T::Fallback;

    fn has_zero_digit(&self) -> bool {
        self.0.has_zero_digit()
    }

    fn zero_based(&self) -> bool {
        self.0.zero_based()
    }

    fn len(&self) -> usize {
        self.1
    }

    fn digit(&self, index: usize) -> char {
        self.0.digit(index)
    }
}
"%string.

(** src/digital.rs:524-538 *)
Definition zeroless_source : string := "impl<const N: usize> DigitCollection for DigitSet<N, false> {
    type Fallback = NoFallback;

    fn has_zero_digit(&self) -> bool {
        false
    }

    fn len(&self) -> usize {
        N
    }

    fn digit(&self, index: usize) -> char {
        self.digits[index]
    }
}
"%string.

(** src/digital.rs:540-554 *)
Definition digit_set_source : string := "impl<const N: usize> DigitCollection for DigitSet<N, true> {
    type Fallback = NoFallback;

    fn has_zero_digit(&self) -> bool {
        true
    }

    fn len(&self) -> usize {
        N
    }

    fn digit(&self, index: usize) -> char {
        self.digits[index]
    }
}
"%string.

(** src/digital.rs:189-214 *)
Definition stem_source : string := "impl DigitCollection for CjkHeavenlyStem {
    type Fallback = CjkDecimal;

    fn fixed(&self) -> bool {
        true
    }

    fn zero_based(&self) -> bool {
        false
    }

    fn has_zero_digit(&self) -> bool {
        false
    }

    fn len(&self) -> usize {
        10
    }

    fn digit(&self, index: usize) -> char {
        [
            '\u{7532}', '\u{4E59}', '\u{4E19}', '\u{4E01}', '\u{620A}', '\u{5DF1}', '\u{5E9A}',
            '\u{8F9B}', '\u{58EC}', '\u{7678}',
        ][index]
    }
}
"%string.

(** src/digital.rs:223-248 *)
Definition branch_source : string := "impl DigitCollection for CjkEarthlyBranch {
    type Fallback = CjkDecimal;

    fn fixed(&self) -> bool {
        true
    }

    fn zero_based(&self) -> bool {
        false
    }

    fn has_zero_digit(&self) -> bool {
        false
    }

    fn len(&self) -> usize {
        12
    }

    fn digit(&self, index: usize) -> char {
        [
            '\u{5B50}', '\u{4E11}', '\u{5BC5}', '\u{536F}', '\u{8FB0}', '\u{5DF3}', '\u{5348}',
            '\u{672A}', '\u{7533}', '\u{9149}', '\u{620C}', '\u{4EA5}',
        ][index]
    }
}
"%string.

(** src/digital.rs:614-628 *)
Definition no_fallback_source : string := "impl DigitCollection for NoFallback {
    type Fallback = Self;

    fn has_zero_digit(&self) -> bool {
        false
    }

    fn len(&self) -> usize {
        0
    }

    fn digit(&self, _index: usize) -> char {
        unreachable!()
    }
}
"%string.

(** src/digital.rs:638-640 *)
Definition fixed_source : string := "    fn fixed(&self) -> bool {
        false
    }
"%string.

(** src/digital.rs:647-649 *)
Definition zero_based_source : string := "    fn zero_based(&self) -> bool {
        true
    }
"%string.

(** src/digital.rs:655-657 *)
Definition is_empty_source : string := "    fn is_empty(&self) -> bool {
        self.len() == 0
    }
"%string.
