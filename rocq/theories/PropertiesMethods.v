(** * PropertiesMethods: C77, what the methods of the crate's collections
    answer *)

From Coq Require Import String.
From Verif Require Import Prelude Utf8Facts StringFacts History Outcome DigitFacts DigitSets PropertiesDigital Digital Cases.

(** The answers of a collection: [fixed()], [has_zero_digit()],
    [zero_based()], [len()], and [digit(i)], which panics beyond the list. *)
Definition described (d : digit_collection) (fixed has_zero zero_based : bool) (len : N) (digits : list N) : Prop :=
  dc_fixed d = fixed /\ dc_has_zero_digit d = has_zero /\ dc_zero_based d = zero_based /\ dc_len d = Ret len /\
  forall i, dc_digit d i = match nth_error digits (N.to_nat i) with Some ch => Ret ch | None => Panic end.

(** The default value of the type [Fallback], of its type [Fallback], ... *)
Fixpoint nth_fallback (k : nat) (d : digit_collection) : digit_collection :=
  match k with
  | O => d
  | S k => nth_fallback k (dc_fallback d)
  end.

(** Nothing to fall back on, however often one asks. *)
Definition no_fallbacks (d : digit_collection) : Prop :=
  forall k, described (nth_fallback (S k) d) false false true 0 [].

Lemma lookup_all (digits : list N) i :
  or_panic (lookup digits i) = match nth_error digits (N.to_nat i) with Some ch => Ret ch | None => Panic end.
Proof.
  unfold lookup. destruct (N.ltb_spec i (N.of_nat (length digits))) as [H|H].
  - destruct (nth_error digits (N.to_nat i)); reflexivity.
  - replace (nth_error digits (N.to_nat i)) with (@None N); [reflexivity|]. symmetry. apply nth_error_None. lia.
Qed.

Lemma no_fallback_described : forall k, described (nth_fallback k NoFallback) false false true 0 [].
Proof.
  induction k as [|k IH]; [|exact IH]. cbn [nth_fallback]. repeat split. intros i. cbn.
  destruct (N.to_nat i); reflexivity.
Qed.

(** ** DigitSet *)

Theorem C77_digit_sets : forall digits,
  described (digit_set_new digits) false true true (N.of_nat (length digits)) digits /\
  no_fallbacks (digit_set_new digits) /\
  described (digit_set_zeroless digits) false false true (N.of_nat (length digits)) digits /\
  no_fallbacks (digit_set_zeroless digits).
Proof.
  intros digits. split; [repeat split; intros i; apply lookup_all|].
  split; [intros k; apply no_fallback_described|].
  split; [repeat split; intros i; apply lookup_all|]. intros k; apply no_fallback_described.
Qed.
Print Assumptions C77_digit_sets.

(** ** The wrappers *)

(** One-based: only [fixed()] and [zero_based()] are its own. *)
Theorem C77_one_based : forall d,
  dc_fixed (one_based d) = false /\ dc_has_zero_digit (one_based d) = dc_has_zero_digit d /\
  dc_zero_based (one_based d) = false /\ dc_len (one_based d) = dc_len d /\
  (forall i, dc_digit (one_based d) i = dc_digit d i) /\
  forall k, nth_fallback (S k) (one_based d) = nth_fallback (S k) d.
Proof. intros d. repeat split. Qed.
Print Assumptions C77_one_based.

(** Restrict: only [fixed()] and [len()] are its own; digits past the count
    are still there. *)
Theorem C77_restrict : forall count d,
  dc_fixed (restrict count d) = false /\ dc_has_zero_digit (restrict count d) = dc_has_zero_digit d /\
  dc_zero_based (restrict count d) = dc_zero_based d /\ dc_len (restrict count d) = Ret count /\
  (forall i, dc_digit (restrict count d) i = dc_digit d i) /\
  forall k, nth_fallback (S k) (restrict count d) = nth_fallback (S k) d.
Proof. intros count d. repeat split. Qed.
Print Assumptions C77_restrict.

(** The default of a [Restrict] type is empty, so that falling back on it is
    an error. *)
Theorem C77_restrict_default : forall c T d inner len n,
  valid_config c -> dc_fixed d = true -> dc_len d = Ret len -> fits c T len ->
  dc_fallback d = restrict_default inner -> (if dc_zero_based d then len <= n else len < n) ->
  try_format_digits c T d n = Ret (Err (OutOfBounds n)).
Proof.
  intros c T d inner len n Hc Hf Hl Hfit Hfb Hn. unfold try_format_digits.
  destruct (depth_succ c Hc) as (k & ->). cbn [format_digits]. rewrite Hl. cbn [obind].
  rewrite (try_from_fits _ _ _ Hfit), Hf. cbn [andb].
  replace (if dc_zero_based d then len <=? n else len <? n) with true.
  2:{ destruct (dc_zero_based d); symmetry; [apply N.leb_le|apply N.ltb_lt]; exact Hn. }
  rewrite Hfb. reflexivity.
Qed.
Print Assumptions C77_restrict_default.

(** Chain: zero and counting are the first part's, and so are the digits up to
    its length; its fallbacks are the chains of the fallbacks. *)
Theorem C77_chain : forall c a b k,
  let first := nth_fallback k a in
  let second := nth_fallback k b in
  let both := nth_fallback k (chain c a b) in
  dc_fixed both = false /\ dc_has_zero_digit both = dc_has_zero_digit first /\
  dc_zero_based both = dc_zero_based first /\
  forall la lb, dc_len first = Ret la -> dc_len second = Ret lb ->
    (la + lb < 2 ^ usize_bits c -> dc_len both = Ret (la + lb)) /\
    (forall i, i < la -> dc_digit both i = dc_digit first i) /\
    (forall i, dc_digit both (la + i) = dc_digit second i).
Proof.
  intros c a b k. revert a b. induction k as [|k IH]; intros a b; [|exact (IH (dc_fallback a) (dc_fallback b))].
  cbn [nth_fallback]. cbv zeta. split; [reflexivity|]. split; [reflexivity|]. split; [reflexivity|].
  intros la lb Ha Hb. split; [|split].
  - intros H. cbn [chain dc_len]. rewrite Ha, Hb. cbn [obind]. unfold uadd. destruct (N.ltb_spec (la + lb) (2 ^ usize_bits c)); [reflexivity|lia].
  - intros i Hi. cbn [chain dc_digit]. rewrite Ha. cbn [obind]. destruct (N.leb_spec la i); [lia|reflexivity].
  - intros i. cbn [chain dc_digit]. rewrite Ha. cbn [obind]. destruct (N.leb_spec la (la + i)); [|lia].
    f_equal. lia.
Qed.
Print Assumptions C77_chain.

(** ** The built-in sets *)

Lemma impl_described d digits (z : bool) len : N.of_nat (length digits) = len ->
  d = impl_digit_set (if z then digit_set_new digits else digit_set_zeroless digits) ->
  described d false z true len digits /\ no_fallbacks d.
Proof.
  intros <- ->. split; [destruct z; repeat split; intros i; apply lookup_all|].
  intros k. cbn [nth_fallback]. destruct z; apply no_fallback_described.
Qed.

Theorem C77_decimal_scripts : Forall (fun '(d, digits) => described d false true true 10 digits /\ no_fallbacks d)
  ([(Decimal, ten_from ascii_zero); (EasternArabic, ten_from arabic_indic_zero); (Persian, ten_from extended_arabic_indic_zero);
   (Urdu, ten_from extended_arabic_indic_zero); (Bengali, ten_from bengali_zero); (Cambodian, ten_from khmer_zero);
   (Khmer, ten_from khmer_zero); (Devanagari, ten_from devanagari_zero); (Gujarati, ten_from gujarati_zero);
   (Gurmukhi, ten_from gurmukhi_zero); (Kannada, ten_from kannada_zero); (Lao, ten_from lao_zero);
   (Malayalam, ten_from malayalam_zero); (Mongolian, ten_from mongolian_zero); (Myanmar, ten_from myanmar_zero);
   (Oriya, ten_from oriya_zero); (Tamil, ten_from tamil_zero); (Telugu, ten_from telugu_zero); (Thai, ten_from thai_zero);
   (Tibetan, ten_from tibetan_zero); (CjkDecimal, han_digits)]).
Proof. repeat (apply Forall_cons; [apply (impl_described _ _ true); reflexivity|]). apply Forall_nil. Qed.
Print Assumptions C77_decimal_scripts.

Theorem C77_alphabets :
  Forall (fun '(d, alphabet) => described d false false true (N.of_nat (length alphabet)) alphabet /\ no_fallbacks d)
  [(LetterUpper, latin_capitals); (LetterLower, latin_smalls);
   (GreekUpper, greek_capitals); (GreekLower, greek_smalls);
   (Hiragana, hiragana_gojuon); (HiraganaIroha, hiragana_iroha);
   (Katakana, katakana_of hiragana_gojuon); (KatakanaIroha, katakana_of hiragana_iroha);
   (HangeulJamo, jamo_consonants); (HangeulSyllable, syllables_with_a)].
Proof. repeat (apply Forall_cons; [apply (impl_described _ _ false); reflexivity|]). apply Forall_nil. Qed.
Print Assumptions C77_alphabets.

(** The hexadecimal sets have sixteen digits, though [digit()] goes on through
    the alphabet. *)
Theorem C77_hexadecimal : forall c, valid_config c ->
  described (HexUpper c) false true true 16 (ten_from ascii_zero ++ latin_capitals) /\ no_fallbacks (HexUpper c) /\
  described (HexLower c) false true true 16 (ten_from ascii_zero ++ latin_smalls) /\ no_fallbacks (HexLower c).
Proof.
  intros c Hc.
  assert (forall letters i, length letters = 26%nat ->
            dc_digit (impl_digit_set (restrict 16 (chain c Decimal (impl_digit_set (digit_set_zeroless letters))))) i =
            match nth_error (ten_from ascii_zero ++ letters) (N.to_nat i) with Some ch => Ret ch | None => Panic end) as Hd.
  { intros letters i Hl. cbn [impl_digit_set restrict dc_digit chain dc_len Decimal digit_set_new obind].
    change (N.of_nat (length (chars "0123456789"))) with 10. cbn [obind].
    destruct (N.leb_spec 10 i) as [H|H].
    - cbn [digit_set_zeroless dc_digit]. rewrite lookup_all, nth_error_app2 by (cbn; lia). cbn [length ten_from map].
      replace (N.to_nat (i - 10)) with (N.to_nat i - 10)%nat by lia. reflexivity.
    - rewrite lookup_all, nth_error_app1 by (cbn; lia). reflexivity. }
  split; [split; [reflexivity|]; split; [reflexivity|]; split; [reflexivity|]; split; [reflexivity|];
    intros i; apply (Hd latin_capitals); reflexivity|].
  split; [intros k; apply no_fallback_described|].
  split; [split; [reflexivity|]; split; [reflexivity|]; split; [reflexivity|]; split; [reflexivity|];
    intros i; apply (Hd latin_smalls); reflexivity|].
  intros k; apply no_fallback_described.
Qed.
Print Assumptions C77_hexadecimal.

(** The two fixed sets count from one and fall back on Han digits. *)
Theorem C77_fixed_sets :
  described CjkHeavenlyStem true false false 10 stems /\ described CjkEarthlyBranch true false false 12 branches /\
  Forall (fun d => described (nth_fallback 1 d) false true true 10 han_digits /\ no_fallbacks (nth_fallback 1 d))
    [CjkHeavenlyStem; CjkEarthlyBranch].
Proof.
  split; [repeat split; intros i; apply lookup_all|]. split; [repeat split; intros i; apply lookup_all|].
  repeat (apply Forall_cons; [apply (impl_described _ _ true); reflexivity|]). apply Forall_nil.
Qed.
Print Assumptions C77_fixed_sets.

Example C77_case :
  map (dc_digit (HexUpper no_heap)) [9; 10; 15; 16; 35; 36] = [Ret 57; Ret 65; Ret 70; Ret 71; Ret 90; Panic] /\
  dc_len (nth_fallback 1 (chain no_heap CjkHeavenlyStem CjkEarthlyBranch)) = Ret 20 /\
  dc_digit (nth_fallback 1 (chain no_heap CjkHeavenlyStem CjkEarthlyBranch)) 12 = Ret 0x4E8C /\
  seen (try_format_digits no_heap U8 (DC true false true (Ret 2) (fun i => Ret (65 + i)) (restrict_default Decimal)) 1) =
    Ret (Ok [66]) /\
  seen (try_format_digits no_heap U8 (DC true false true (Ret 2) (fun i => Ret (65 + i)) (restrict_default Decimal)) 2) =
    Ret (Err (OutOfBounds 2)) /\
  dc_len (restrict 3 LetterUpper) = Ret 3 /\ dc_digit (restrict 3 LetterUpper) 3 = Ret 68.
Proof. vm_compute. repeat split. Qed.
