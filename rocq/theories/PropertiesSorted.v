(** * PropertiesSorted: C74, sorting numerals as strings *)

From Coq Require Import String Sorted.
From Verif Require Import Prelude Utf8Facts StringFacts History DigitFacts DigitOrder DigitSets Layout Outcome Cases Format.
From Verif Require Import PropertiesString PropertiesDigital PropertiesFormat.

(** The digits stand in the order of their code points. *)
Definition ascending (digits : list N) : Prop := StronglySorted N.lt digits.

Lemma ascending_digits digits i j : ascending digits -> i < j -> j < N.of_nat (length digits) ->
  digit_char digits i < digit_char digits j.
Proof.
  unfold digit_char. intros H Hij Hj. remember (N.to_nat i) as i'. remember (N.to_nat j) as j'.
  assert (i' < j')%nat as H1 by lia. assert (j' < length digits)%nat as H2 by lia. clear - H H1 H2.
  revert i' j' H1 H2. induction H as [|x l Hl IH Hx]; intros i j Hij Hj; [cbn in Hj; lia|].
  destruct j as [|j]; [lia|]. cbn in Hj. destruct i as [|i]; cbn [nth].
  - rewrite Forall_forall in Hx. apply Hx, nth_In. lia.
  - apply IH; lia.
Qed.

Lemma compare_digits digits ds es : ascending digits ->
  below (N.of_nat (length digits)) ds -> below (N.of_nat (length digits)) es ->
  bytes_compare (map (digit_char digits) ds) (map (digit_char digits) es) = bytes_compare ds es.
Proof.
  intros Ha. revert es. induction ds as [|x ds IH]; intros [|y es] Hd He; try reflexivity.
  cbn [map bytes_compare]. apply Forall_cons_iff in Hd as [Hx Hd]. apply Forall_cons_iff in He as [Hy He].
  rewrite (IH es Hd He). destruct (N.compare_spec x y) as [->|H|H].
  - rewrite N.compare_refl. reflexivity.
  - assert (digit_char digits x < digit_char digits y) as H' by (apply ascending_digits; assumption).
    apply N.compare_lt_iff in H'. rewrite H'. reflexivity.
  - assert (digit_char digits y < digit_char digits x) as H' by (apply ascending_digits; assumption).
    apply N.compare_gt_iff in H'. rewrite H'. reflexivity.
Qed.

Lemma compare_positional b ds es : length ds = length es -> below b ds -> below b es ->
  bytes_compare ds es = (positional_value b ds ?= positional_value b es).
Proof.
  intros Hl Hd He. destruct (same_length_trichotomy ds es Hl) as [->|(p & x & y & s & t & -> & -> & Hxy)].
  - rewrite N.compare_refl. apply bytes_compare_eq. reflexivity.
  - rewrite !app_length in Hl. cbn in Hl.
    assert (forall a b, bytes_compare (p ++ a) (p ++ b) = bytes_compare a b) as ->.
    { intros a0 b0. clear. induction p as [|z p IH]; [reflexivity|]. cbn. rewrite N.compare_refl. exact IH. }
    cbn [bytes_compare]. symmetry. destruct (N.compare_spec x y) as [->|H|H]; [contradiction| |].
    + apply N.compare_lt_iff, same_length_lt; try assumption. lia.
    + apply N.compare_gt_iff, same_length_lt; try assumption. lia.
Qed.

(** The text of [n], if printed, as digits. *)
Lemma printed_digits c T d digits n s : valid_config c -> collects c d digits -> dc_fixed d = false ->
  enough (dc_has_zero_digit d) (N.of_nat (length digits)) -> fits c T (N.of_nat (length digits)) -> fits c T n ->
  try_format_digits c T d n = Ret (Ok s) ->
  exists ds, below (N.of_nat (length digits)) ds /\ scalars (map (digit_char digits) ds) /\ reachable c s /\
    as_str s = Ret (utf8 (map (digit_char digits) ds)) /\
    (if dc_has_zero_digit d then positional_value (N.of_nat (length digits)) ds = n
     else bijective_value (N.of_nat (length digits)) ds = if dc_zero_based d then n + 1 else n).
Proof.
  intros Hc Hcol Hf He Hfit Hn Hs.
  assert (countable d n) as Hcn.
  { intros Hz Hzb ->. unfold try_format_digits in Hs. destruct (depth_succ c Hc) as (k & Ek). rewrite Ek in Hs.
    unfold enough in He. rewrite Hz in He. rewrite (format_digits_zero (S k) c T d digits Hc Hcol Hfit He Hz Hzb) in Hs. discriminate. }
  destruct (digit_numeral_exists _ _ digits n He Hcn) as (cs & Hcs).
  pose proof (format_numeral c T d digits n cs Hc Hcol Hf Hfit Hn He Hcs) as (y & E & Hy).
  rewrite Hs in E. injection E as <-. unfold stored in Hy. destruct (room c cs); [|discriminate].
  destruct Hy as (s0 & E & Ht). injection E as <-.
  assert (exists ds, cs = map (digit_char digits) ds /\ below (N.of_nat (length digits)) ds /\
    (if dc_has_zero_digit d then positional_value (N.of_nat (length digits)) ds = n
     else bijective_value (N.of_nat (length digits)) ds = if dc_zero_based d then n + 1 else n)) as (ds & -> & Hb & Hv).
  { clear - Hcs. unfold digit_numeral in Hcs. destruct (dc_has_zero_digit d); [|destruct (dc_zero_based d)].
    - destruct Hcs as (ds & H1 & _ & H2 & ->). eauto.
    - destruct Hcs as (ds & H1 & H2 & ->). eauto.
    - destruct Hcs as (_ & ds & H1 & H2 & ->). eauto. }
  exists ds. split; [exact Hb|]. split; [eapply text_scalars, Ht|]. split; [eapply rep_reachable, Ht|].
  split; [eapply rep_str, Ht|exact Hv].
Qed.

(** ** C74 *)

(** Numerals sort as words do: by their digits from the left, and equally long
    ones as their numbers. *)
Theorem C74_dictionary_order : forall c T d digits n m s s',
  valid_config c -> collects c d digits -> dc_fixed d = false -> ascending digits ->
  enough (dc_has_zero_digit d) (N.of_nat (length digits)) -> fits c T (N.of_nat (length digits)) ->
  fits c T n -> fits c T m ->
  try_format_digits c T d n = Ret (Ok s) -> try_format_digits c T d m = Ret (Ok s') ->
  exists ds es,
    as_str s = Ret (utf8 (map (digit_char digits) ds)) /\ as_str s' = Ret (utf8 (map (digit_char digits) es)) /\
    (if dc_has_zero_digit d then positional_value (N.of_nat (length digits)) ds = n
     else bijective_value (N.of_nat (length digits)) ds = if dc_zero_based d then n + 1 else n) /\
    (if dc_has_zero_digit d then positional_value (N.of_nat (length digits)) es = m
     else bijective_value (N.of_nat (length digits)) es = if dc_zero_based d then m + 1 else m) /\
    (forall o, ns_cmp s s' = Ret o ->
       match o with Lt => before ds es | Eq => ds = es | Gt => before es ds end) /\
    (length ds = length es -> ns_cmp s s' = Ret (n ?= m)).
Proof.
  intros c T d digits n m s s' Hc Hcol Hf Ha He Hfit Hn Hm Hs Hs'.
  destruct (printed_digits c T d digits n s Hc Hcol Hf He Hfit Hn Hs) as (ds & Hb & Hsc & _ & Ht & Hv).
  destruct (printed_digits c T d digits m s' Hc Hcol Hf He Hfit Hm Hs') as (es & Hb' & Hsc' & _ & Ht' & Hv').
  exists ds, es. split; [exact Ht|]. split; [exact Ht'|]. split; [exact Hv|]. split; [exact Hv'|].
  assert (ns_cmp s s' = Ret (bytes_compare ds es)) as E.
  { unfold ns_cmp. rewrite Ht, Ht'. cbn [obind]. rewrite utf8_compare, compare_digits by assumption. reflexivity. }
  rewrite E. split.
  - intros o Eo. injection Eo as <-. destruct (bytes_compare ds es) eqn:Ec.
    + apply bytes_compare_eq, Ec.
    + apply bytes_compare_lt, Ec.
    + apply bytes_compare_lt. rewrite bytes_compare_antisym, Ec. reflexivity.
  - intros Hl. f_equal. rewrite (compare_positional _ ds es Hl Hb Hb'). destruct (dc_has_zero_digit d).
    + rewrite Hv, Hv'. reflexivity.
    + rewrite bijective_positional in Hv, Hv'. rewrite Hl in Hv.
      set (l := least _ _) in *. set (p := positional_value _ ds) in *. set (q := positional_value _ es) in *.
      destruct (N.compare_spec p q), (N.compare_spec n m), (dc_zero_based d); try reflexivity; lia.
Qed.
Print Assumptions C74_dictionary_order.

(** [{:0>w}] with the collection's own zero: fixed-width numerals, which sort
    as the numbers do. *)
Definition zero_padded (digits : list N) (w : N) : format_options :=
  {| width := Some w; precision := None; fill := digit_char digits 0; align := Some AlignRight; alternate := false |}.

Lemma leading_zeros b k ds : positional_value b (repeat 0 k ++ ds) = positional_value b ds.
Proof.
  induction k as [|k IH]; [reflexivity|]. cbn [repeat app]. rewrite positional_value_cons, IH. lia.
Qed.

Theorem C74_zero_padded : forall c T d digits n s w,
  valid_config c -> collects c d digits -> dc_fixed d = false -> dc_has_zero_digit d = true ->
  2 <= N.of_nat (length digits) -> fits c T (N.of_nat (length digits)) -> fits c T n ->
  try_format_digits c T d n = Ret (Ok s) ->
  exists ds, display (zero_padded digits w) s = Ret (utf8 (map (digit_char digits) ds)) /\
    below (N.of_nat (length digits)) ds /\ positional_value (N.of_nat (length digits)) ds = n /\
    (n < N.of_nat (length digits) ^ w -> 1 <= w -> N.of_nat (length ds) = w).
Proof.
  intros c T d digits n s w Hc Hcol Hf Hz He Hfit Hn Hs.
  assert (enough (dc_has_zero_digit d) (N.of_nat (length digits))) as He' by (rewrite Hz; exact He).
  assert (exists cs ds, positional_numeral digits n cs /\ cs = map (digit_char digits) ds /\ canonical ds /\
    below (N.of_nat (length digits)) ds /\ positional_value (N.of_nat (length digits)) ds = n) as (cs & ds & Hnum & -> & Hcan & Hb & Hv).
  { destruct (canonical_exists (N.of_nat (length digits)) n He) as (ds & H1 & H2 & H3).
    exists (map (digit_char digits) ds), ds. split; [exists ds; auto|]. auto. }
  pose proof (format_numeral c T d digits n _ Hc Hcol Hf Hfit Hn He' ltac:(unfold digit_numeral; rewrite Hz; exact Hnum)) as (y & E & Hy).
  rewrite Hs in E. injection E as <-. unfold stored in Hy. destruct (room c _); [|discriminate].
  destruct Hy as (s0 & E & Ht). injection E as <-.
  destruct (C61_display c s (zero_padded digits w) (rep_reachable _ _ _ (proj1 Ht))) as (text & out & Hsc & Et & Eo & Hp).
  rewrite (rep_str _ _ _ (proj1 Ht)) in Et. injection Et as Et. apply utf8_inj in Et; [|eapply text_scalars, Ht|exact Hsc]. subst text.
  destruct Hp as (bef & kept & rest & aft & (Hsplit & Hr & Hlen & Ha) & ->).
  cbn [zero_padded precision width align fill] in *. subst rest aft. rewrite app_nil_r in Hsplit. subst kept.
  exists (repeat 0 bef ++ ds). rewrite Eo. split; [|split; [|split]].
  - rewrite map_app. cbn [repeat]. rewrite app_nil_r. do 3 f_equal. clear. induction bef; cbn; congruence.
  - apply below_app. split; [|exact Hb]. apply Forall_forall. intros x Hx. apply repeat_spec in Hx. lia.
  - rewrite leading_zeros. exact Hv.
  - intros Hw Hw1. rewrite app_length, repeat_length. rewrite map_length in Hlen.
    assert (N.of_nat (length ds) <= w) as Hle.
    { destruct ds as [|x [|x' ds]]; [destruct Hcan|cbn; lia|].
      destruct (N.le_gt_cases (N.of_nat (length (x :: x' :: ds))) w) as [H|H]; [exact H|exfalso].
      rewrite positional_value_cons in Hv. cbn in Hcan.
      assert (N.of_nat (length digits) ^ w <= N.of_nat (length digits) ^ N.of_nat (length (x' :: ds))) as Hpow.
      { apply N.pow_le_mono_r; [lia|]. cbn [length] in *. lia. }
      nia. }
    lia.
Qed.
Print Assumptions C74_zero_padded.

Theorem C74_padded_order : forall c T d digits n m s s' w out out',
  valid_config c -> collects c d digits -> dc_fixed d = false -> dc_has_zero_digit d = true -> ascending digits ->
  2 <= N.of_nat (length digits) -> fits c T (N.of_nat (length digits)) -> fits c T n -> fits c T m ->
  try_format_digits c T d n = Ret (Ok s) -> try_format_digits c T d m = Ret (Ok s') ->
  n < N.of_nat (length digits) ^ w -> m < N.of_nat (length digits) ^ w -> 1 <= w ->
  display (zero_padded digits w) s = Ret out -> display (zero_padded digits w) s' = Ret out' ->
  bytes_compare out out' = (n ?= m).
Proof.
  intros c T d digits n m s s' w out out' Hc Hcol Hf Hz Ha He Hfit Hn Hm Hs Hs' Hw Hw' H1 Ho Ho'.
  destruct (C74_zero_padded c T d digits n s w Hc Hcol Hf Hz He Hfit Hn Hs) as (ds & E & Hb & Hv & Hl).
  destruct (C74_zero_padded c T d digits m s' w Hc Hcol Hf Hz He Hfit Hm Hs') as (es & E' & Hb' & Hv' & Hl').
  rewrite Ho in E. rewrite Ho' in E'. injection E as ->. injection E' as ->. destruct Hcol as (_ & _ & _ & Hsc).
  rewrite utf8_compare, compare_digits by (assumption || apply map_digits_scalars; assumption).
  rewrite (compare_positional (N.of_nat (length digits))) by (assumption || (specialize (Hl Hw H1); specialize (Hl' Hw' H1); lia)).
  rewrite Hv, Hv'. reflexivity.
Qed.
Print Assumptions C74_padded_order.

Fixpoint sorted (l : list N) : bool :=
  match l with
  | x :: ((y :: _) as rest) => (x <? y) && sorted rest
  | _ => true
  end.

Lemma sorted_ascending digits : sorted digits = true <-> ascending digits.
Proof.
  unfold ascending. split.
  - intros H. apply Sorted_StronglySorted; [intros x y z; apply N.lt_trans|].
    induction digits as [|x [|y rest] IH]; [constructor|repeat constructor|].
    cbn [sorted] in H. apply andb_true_iff in H as [H1 H2]. constructor; [apply IH, H2|constructor; lia].
  - intros H. induction H as [|x l Hl IH Hx]; [reflexivity|]. destruct l as [|y l]; [reflexivity|].
    cbn [sorted]. apply andb_true_iff. split; [|exact IH]. apply Forall_inv in Hx. lia.
Qed.

(** The built-in sets in code point order, and those that are not. *)
Theorem C74_built_in_order :
  Forall (fun digits => ascending digits)
    (map ten_from [ascii_zero; arabic_indic_zero; extended_arabic_indic_zero; bengali_zero; khmer_zero; devanagari_zero;
       gujarati_zero; gurmukhi_zero; kannada_zero; lao_zero; malayalam_zero; mongolian_zero; myanmar_zero; oriya_zero;
       tamil_zero; telugu_zero; thai_zero; tibetan_zero] ++
     [hex_capitals; hex_smalls; latin_capitals; latin_smalls; greek_capitals; greek_smalls; hiragana_gojuon;
      katakana_of hiragana_gojuon; jamo_consonants; syllables_with_a]) /\
  Forall (fun digits => ~ ascending digits) [han_digits; hiragana_iroha; katakana_of hiragana_iroha; stems; branches].
Proof.
  split; (eapply Forall_impl; [intros digits H; rewrite <- sorted_ascending; exact H|]);
    repeat constructor; try discriminate.
Qed.
Print Assumptions C74_built_in_order.

Example C74_case :
  (s <- format_digits 5 no_heap U16 Decimal 10 ;; s' <- format_digits 5 no_heap U16 Decimal 9 ;;
   match s, s' with Ok s, Ok s' => ns_cmp s s' | _, _ => Panic end) = Ret Lt /\
  (s <- format_digits 5 no_heap U16 Thai 1299 ;; s' <- format_digits 5 no_heap U16 Thai 1300 ;;
   match s, s' with Ok s, Ok s' => ns_cmp s s' | _, _ => Panic end) = Ret Lt /\
  (s <- format_digits 5 no_heap U16 CjkDecimal 3 ;; s' <- format_digits 5 no_heap U16 CjkDecimal 7 ;;
   match s, s' with Ok s, Ok s' => ns_cmp s s' | _, _ => Panic end) = Ret Gt /\
  (s <- format_digits 5 no_heap U16 Thai 37 ;;
   match s with Ok s => display (zero_padded (ten_from thai_zero) 5) s | _ => Panic end) = Ret (bytes "๐๐๐๓๗"%string) /\
  (s <- format_digits 5 no_heap U16 Thai 37 ;;
   match s with Ok s => display (zero_padded (ten_from thai_zero) 1) s | _ => Panic end) = Ret (bytes "๓๗"%string).
Proof. repeat (split; [vm_compute; reflexivity|]). vm_compute. reflexivity. Qed.
