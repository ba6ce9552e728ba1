(** * PropertiesDigital: C12-C22, digit collections *)

From Coq Require Import String.
From Verif Require Import Prelude Utf8Facts StringFacts History Outcome DigitFacts DigitOrder DigitSets Cases.

Definition three_digits : list N := chars "0é€"%string.
Definition abc : list N := chars "abc"%string.

Lemma depth_succ c : valid_config c -> exists k, loop_depth c = S (S k).
Proof. intros [_ H]. destruct (loop_depth c) as [|[|k]]; [lia|lia|eauto]. Qed.

(** The general fact behind the properties: a collection that is not fixed
    prints its numeral. *)
Lemma not_fixed_in_range d b n : dc_fixed d = false -> in_range d b n = true.
Proof. unfold in_range. intros ->. reflexivity. Qed.

Lemma format_numeral c T d digits n cs :
  valid_config c -> collects c d digits -> dc_fixed d = false ->
  fits c T (N.of_nat (length digits)) -> fits c T n ->
  enough (dc_has_zero_digit d) (N.of_nat (length digits)) ->
  digit_numeral (dc_has_zero_digit d) (dc_zero_based d) digits n cs ->
  yields c (try_format_digits c T d n) n cs.
Proof.
  intros Hc Hcol Hf Hfit Hn He Hnum. unfold try_format_digits.
  destruct (depth_succ c Hc) as (k & ->). eapply format_digits_numeral; try eassumption.
  apply not_fixed_in_range, Hf.
Qed.

(** ** C12 *)

Theorem C12_positional_numerals : forall c T d digits n,
  valid_config c -> collects c d digits -> dc_fixed d = false -> dc_has_zero_digit d = true ->
  2 <= N.of_nat (length digits) -> fits c T (N.of_nat (length digits)) -> fits c T n ->
  exists cs, positional_numeral digits n cs /\ prints c (try_format_digits c T d n) n cs.
Proof.
  intros c T d digits n Hc Hcol Hf Hz Hb Hfit Hn.
  destruct (positional_numeral_exists digits n Hb) as (cs & Hcs). exists cs. split; [assumption|].
  apply yields_prints. eapply format_numeral; try eassumption; unfold enough, digit_numeral; rewrite Hz; assumption.
Qed.
Print Assumptions C12_positional_numerals.

Theorem C12_zero_is_the_zero_digit : forall c T d digits,
  valid_config c -> collects c d digits -> dc_fixed d = false -> dc_has_zero_digit d = true ->
  2 <= N.of_nat (length digits) -> fits c T (N.of_nat (length digits)) ->
  prints c (try_format_digits c T d 0) 0 [digit_char digits 0].
Proof.
  intros c T d digits Hc Hcol Hf Hz Hb Hfit.
  assert (fits c T 0) as H0 by (apply fits_small; [assumption|lia]).
  destruct (C12_positional_numerals c T d digits 0 Hc Hcol Hf Hz Hb Hfit H0) as (cs & Hcs & Hp).
  rewrite <- (positional_numeral_fun digits 0 _ _ Hcs); [assumption|]. apply single_positional. lia.
Qed.
Print Assumptions C12_zero_is_the_zero_digit.

Example C12_case :
  collects no_heap (digit_set_new three_digits) three_digits /\
  positional_numeral three_digits 64 (chars "€é0é"%string) /\
  seen (try_format_digits no_heap U8 (digit_set_new three_digits) 64) = Ret (Ok (bytes "€é0é"%string)) /\
  seen (try_format_digits on_heap U128 (digit_set_new (chars "01"%string)) (2 ^ 127 + 1)) =
    Ret (Ok (bytes "1"%string ++ repeat 0x30 126 ++ bytes "1"%string)) /\
  seen (try_format_digits no_heap U128 (digit_set_new (chars "01"%string)) (2 ^ 127 + 1)) =
    Ret (Err (OutOfMemory (2 ^ 127 + 1))).
Proof.
  split; [apply collects_new; [vm_compute; reflexivity|apply scalars_check; vm_compute; reflexivity]|].
  split; [exists [2; 1; 0; 1]; repeat split; [repeat constructor|discriminate]|].
  repeat split; vm_compute; reflexivity.
Qed.

(** ** C13 *)

Theorem C13_zeroless_counts_from_zero : forall c T d digits n,
  valid_config c -> collects c d digits -> dc_fixed d = false ->
  dc_has_zero_digit d = false -> dc_zero_based d = true ->
  1 <= N.of_nat (length digits) -> fits c T (N.of_nat (length digits)) -> fits c T n ->
  exists cs, bijective_numeral digits (n + 1) cs /\ prints c (try_format_digits c T d n) n cs.
Proof.
  intros c T d digits n Hc Hcol Hf Hz Hzb Hb Hfit Hn.
  destruct (bijective_numeral_exists digits (n + 1) Hb) as (cs & Hcs). exists cs. split; [assumption|].
  apply yields_prints. eapply format_numeral; try eassumption; unfold enough, digit_numeral; rewrite Hz; [assumption|].
  rewrite Hzb. assumption.
Qed.
Print Assumptions C13_zeroless_counts_from_zero.

Example C13_case :
  collects no_heap (digit_set_zeroless abc) abc /\
  map (fun n => seen (try_format_digits no_heap U8 (digit_set_zeroless abc) n)) [0; 2; 3; 11; 12; 38; 39; 255] =
  map (fun t => Ret (Ok (bytes t))) ["a"; "c"; "aa"; "cc"; "aaa"; "ccc"; "aaaa"; "bcaaa"]%string.
Proof.
  split; [apply collects_zeroless; [vm_compute; reflexivity|apply scalars_check; vm_compute; reflexivity]|].
  vm_compute; reflexivity.
Qed.

(** ** C14 *)

Theorem C14_one_based_counts_from_one : forall c T d digits n,
  valid_config c -> collects c d digits -> dc_has_zero_digit d = false ->
  1 <= N.of_nat (length digits) -> fits c T (N.of_nat (length digits)) -> fits c T n ->
  if n =? 0 then try_format_digits c T (one_based d) n = Ret (Err NoZeroSymbol)
  else exists cs, bijective_numeral digits n cs /\ prints c (try_format_digits c T (one_based d) n) n cs.
Proof.
  intros c T d digits n Hc Hcol Hz Hb Hfit Hn. pose proof (collects_one_based c d digits Hcol) as Hcol'.
  destruct (N.eqb_spec n 0) as [->|Hn0].
  - unfold try_format_digits. destruct (depth_succ c Hc) as (k & ->).
    eapply format_digits_zero; try eassumption. reflexivity.
  - destruct (bijective_numeral_exists digits n Hb) as (cs & Hcs). exists cs. split; [assumption|].
    apply yields_prints. eapply format_numeral; try eassumption; try reflexivity;
      unfold enough, digit_numeral; cbn [one_based dc_has_zero_digit dc_zero_based]; rewrite Hz; auto.
Qed.
Print Assumptions C14_one_based_counts_from_one.

Theorem C14_one_based_keeps_zero : forall c T d digits n,
  valid_config c -> collects c d digits -> dc_fixed d = false -> dc_has_zero_digit d = true ->
  2 <= N.of_nat (length digits) -> fits c T (N.of_nat (length digits)) -> fits c T n ->
  exists cs, positional_numeral digits n cs /\
    prints c (try_format_digits c T d n) n cs /\ prints c (try_format_digits c T (one_based d) n) n cs.
Proof.
  intros c T d digits n Hc Hcol Hf Hz Hb Hfit Hn.
  destruct (positional_numeral_exists digits n Hb) as (cs & Hcs). exists cs. split; [assumption|].
  pose proof (collects_one_based c d digits Hcol) as Hcol'.
  split; apply yields_prints; eapply format_numeral; try eassumption; try reflexivity;
    unfold enough, digit_numeral; cbn [one_based dc_has_zero_digit dc_zero_based]; rewrite Hz; assumption.
Qed.
Print Assumptions C14_one_based_keeps_zero.

(** Whatever its digits do, a collection with a zero digit that is not fixed
    is formatted the same. *)
Theorem C14_one_based_has_no_effect : forall c T d n,
  dc_fixed d = false -> dc_has_zero_digit d = true ->
  try_format_digits c T (one_based d) n = try_format_digits c T d n.
Proof.
  intros c T d n Hf Hz. unfold try_format_digits. destruct (loop_depth c) eqn:Ed; [reflexivity|].
  cbn [format_digits one_based dc_len dc_fixed dc_digit]. rewrite Hf.
  destruct (dc_len d) as [len| | |]; cbn [obind]; try reflexivity.
  destruct (try_from c T len) as [count|]; [|reflexivity]. cbn [andb].
  assert (forall st, digit_loop_body c T (one_based d) n st = digit_loop_body c T d n st) as E.
  { intros st. unfold digit_loop_body. cbn [one_based dc_has_zero_digit dc_zero_based dc_len dc_digit].
    rewrite Hz. reflexivity. }
  unfold run_loop. assert (forall depth st, iterate depth (digit_loop_body c T (one_based d) n) st =
    iterate depth (digit_loop_body c T d n) st) as Ei.
  { induction depth as [|depth IH]; intros st; cbn [iterate]; [apply E|]. rewrite IH.
    destruct (iterate depth (digit_loop_body c T d n) st) as [[]| | |]; cbn [obind]; auto. }
  rewrite Ei. reflexivity.
Qed.
Print Assumptions C14_one_based_has_no_effect.

Example C14_case :
  map (fun n => seen (try_format_digits no_heap U8 (one_based (digit_set_zeroless abc)) n)) [0; 1; 3; 4; 255] =
    Ret (Err NoZeroSymbol) :: map (fun t => Ret (Ok (bytes t))) ["a"; "c"; "aa"; "bbccc"]%string /\
  map (fun n => seen (try_format_digits no_heap U8 (one_based Decimal) n)) [0; 1; 255] =
    map (fun t => Ret (Ok (bytes t))) ["0"; "1"; "255"]%string.
Proof. split; vm_compute; reflexivity. Qed.

(** ** C15 *)

(** [n] has a numeral in the collection's counting mode. *)
Definition countable (d : digit_collection) (n : N) : Prop :=
  dc_has_zero_digit d = false -> dc_zero_based d = false -> n <> 0.

Theorem C15_distinct_texts : forall c T d digits n m s s',
  valid_config c -> collects c d digits -> dc_fixed d = false -> NoDup digits ->
  enough (dc_has_zero_digit d) (N.of_nat (length digits)) -> fits c T (N.of_nat (length digits)) ->
  fits c T n -> fits c T m ->
  try_format_digits c T d n = Ret (Ok s) -> try_format_digits c T d m = Ret (Ok s') ->
  as_str s = as_str s' -> n = m.
Proof.
  intros c T d digits n m s s' Hc Hcol Hf Hnd He Hfit Hn Hm Hs Hs' Heq.
  assert (forall x t, fits c T x -> try_format_digits c T d x = Ret (Ok t) ->
            exists cs, digit_numeral (dc_has_zero_digit d) (dc_zero_based d) digits x cs /\ scalars cs /\
                       as_str t = Ret (utf8 cs)) as H.
  { intros x t Hx Ht.
    assert (countable d x) as Hcx.
    { intros Hz Hzb ->. unfold try_format_digits in Ht. destruct (depth_succ c Hc) as (k & Ek). rewrite Ek in Ht.
      unfold enough in He. rewrite Hz in He.
      rewrite (format_digits_zero (S k) c T d digits Hc Hcol Hfit He Hz Hzb) in Ht. discriminate. }
    destruct (digit_numeral_exists _ _ digits x He Hcx) as (cs & Hcs).
    pose proof (format_numeral c T d digits x cs Hc Hcol Hf Hfit Hx He Hcs) as (y & E & Hy).
    exists cs. split; [assumption|]. rewrite Ht in E. injection E as <-. unfold stored in Hy.
    destruct (room c cs); [|discriminate]. destruct Hy as (s0 & E & Hrep). injection E as <-.
    split; [eapply text_scalars, Hrep|]. eapply rep_str, Hrep. }
  destruct (H _ _ Hn Hs) as (cs & Hcs & Hsc & E). destruct (H _ _ Hm Hs') as (cs' & Hcs' & Hsc' & E').
  rewrite E, E' in Heq. injection Heq as Heq. apply utf8_inj in Heq; try assumption. subst cs'.
  eapply digit_numeral_inj; eassumption.
Qed.
Print Assumptions C15_distinct_texts.

Theorem C15_counting_order : forall c T d digits n m,
  valid_config c -> collects c d digits -> dc_fixed d = false ->
  enough (dc_has_zero_digit d) (N.of_nat (length digits)) -> fits c T (N.of_nat (length digits)) ->
  fits c T m -> countable d n -> n < m ->
  exists ds es, below (N.of_nat (length digits)) ds /\ below (N.of_nat (length digits)) es /\ shortlex ds es /\
    prints c (try_format_digits c T d n) n (map (digit_char digits) ds) /\
    prints c (try_format_digits c T d m) m (map (digit_char digits) es).
Proof.
  intros c T d digits n m Hc Hcol Hf He Hfit Hm Hcn Hlt.
  assert (fits c T n) as Hn by (eapply fits_le; [exact Hm|lia]).
  assert (countable d m) as Hcm by (intros ? ?; lia).
  destruct (digit_numeral_exists _ _ digits n He Hcn) as (cs & Hcs).
  destruct (digit_numeral_exists _ _ digits m He Hcm) as (cs' & Hcs').
  pose proof (yields_prints _ _ _ _ (format_numeral c T d digits n cs Hc Hcol Hf Hfit Hn He Hcs)) as Hp.
  pose proof (yields_prints _ _ _ _ (format_numeral c T d digits m cs' Hc Hcol Hf Hfit Hm He Hcs')) as Hp'.
  clear Hcol Hfit Hn Hm Hcn Hcm. unfold digit_numeral, enough in *.
  destruct (dc_has_zero_digit d); [|destruct (dc_zero_based d)].
  - destruct Hcs as (ds & B & C & V & ->), Hcs' as (es & B' & C' & V' & ->). exists ds, es.
    split; [assumption|]. split; [assumption|]. split; [|auto].
    apply (positional_order (N.of_nat (length digits))); try assumption; lia.
  - destruct Hcs as (ds & B & V & ->), Hcs' as (es & B' & V' & ->). exists ds, es.
    split; [assumption|]. split; [assumption|]. split; [|auto].
    apply (bijective_order (N.of_nat (length digits))); try assumption; lia.
  - destruct Hcs as (_ & ds & B & V & ->), Hcs' as (_ & es & B' & V' & ->). exists ds, es.
    split; [assumption|]. split; [assumption|]. split; [|auto].
    apply (bijective_order (N.of_nat (length digits))); try assumption; lia.
Qed.
Print Assumptions C15_counting_order.

(** Every digit string is the text of exactly one number. *)
Theorem C15_every_string_is_used : forall d digits cs,
  NoDup digits -> Forall (fun x => In x digits) cs -> cs <> [] ->
  (dc_has_zero_digit d = true -> (1 < length cs)%nat -> hd 0 cs <> digit_char digits 0) ->
  exists n,
    (forall c T, valid_config c -> collects c d digits -> dc_fixed d = false ->
       enough (dc_has_zero_digit d) (N.of_nat (length digits)) ->
       fits c T (N.of_nat (length digits)) -> fits c T n ->
       prints c (try_format_digits c T d n) n cs) /\
    (forall m, digit_numeral (dc_has_zero_digit d) (dc_zero_based d) digits m cs -> m = n).
Proof.
  intros d digits cs Hnd Hin Hne Hlead.
  assert (exists n, digit_numeral (dc_has_zero_digit d) (dc_zero_based d) digits n cs) as (n & Hnum).
  { destruct (chars_are_digits digits cs Hin) as (ds & Hb & ->).
    assert (ds <> []) as Hds by (intros ->; contradiction).
    assert (1 <= bijective_value (N.of_nat (length digits)) ds) as Hpos.
    { destruct ds as [|x ds] using rev_ind; [contradiction|]. rewrite bijective_value_app. lia. }
    unfold digit_numeral. destruct (dc_has_zero_digit d).
    - exists (positional_value (N.of_nat (length digits)) ds), ds. split; [assumption|]. split; [|auto].
      destruct ds as [|x [|y ds]]; [contradiction|exact I|]. cbn. intros ->. apply Hlead; auto. cbn. lia.
    - destruct (dc_zero_based d).
      + exists (bijective_value (N.of_nat (length digits)) ds - 1), ds. split; [assumption|]. split; [lia|reflexivity].
      + exists (bijective_value (N.of_nat (length digits)) ds). split; [lia|]. exists ds. auto. }
  exists n. split.
  - intros c T Hc Hcol Hf He Hfit Hn. apply yields_prints. eapply format_numeral; eassumption.
  - intros m Hm. eapply digit_numeral_inj; eassumption.
Qed.
Print Assumptions C15_every_string_is_used.

Example C15_case :
  NoDup abc /\ Forall (fun x => In x abc) (chars "cabba"%string) /\
  collects on_heap (digit_set_zeroless abc) abc /\ countable (digit_set_zeroless abc) 0 /\
  seen (try_format_digits on_heap U16 (digit_set_zeroless abc) 294) = Ret (Ok (bytes "cabba"%string)) /\
  shortlex [2; 2] [0; 0; 0] /\ shortlex [0; 1; 2] [0; 2; 0].
Proof.
  split; [repeat constructor; cbn; intuition discriminate|].
  split; [repeat constructor; cbn; tauto|].
  split; [apply collects_zeroless; [vm_compute; reflexivity|apply scalars_check; vm_compute; reflexivity]|].
  split; [intros ? E; discriminate E|]. split; [vm_compute; reflexivity|].
  split; [left; cbn; lia|]. right. split; [reflexivity|]. exists [0], 1, 2, [2], [0]. repeat split; lia.
Qed.

(** ** C16 *)

Definition prints_positional (d : digit_collection) (digits : list N) : Prop :=
  forall c T n, valid_config c -> fits c T n ->
  exists cs, positional_numeral digits n cs /\ prints c (try_format_digits c T d n) n cs.

Definition prints_bijective (d : digit_collection) (digits : list N) : Prop :=
  forall c T n, valid_config c -> fits c T n ->
  exists cs, bijective_numeral digits (n + 1) cs /\ prints c (try_format_digits c T d n) n cs.

Lemma builtin_positional d digits : d = impl_digit_set (digit_set_new digits) ->
  (length digits <? 256)%nat && (2 <=? length digits)%nat && forallb is_scalar digits = true ->
  prints_positional d digits.
Proof.
  intros -> H c T n Hc Hn. apply andb_true_iff in H as [H1 H2].
  apply C12_positional_numerals; auto; [|lia|apply small_fits; auto; lia].
  apply builtin_collects; auto. lia.
Qed.

Lemma builtin_bijective d digits : d = impl_digit_set (digit_set_zeroless digits) ->
  (length digits <? 256)%nat && (1 <=? length digits)%nat && forallb is_scalar digits = true ->
  prints_bijective d digits.
Proof.
  intros -> H c T n Hc Hn. apply andb_true_iff in H as [H1 H2].
  apply C13_zeroless_counts_from_zero; auto; [|lia|apply small_fits; auto; lia].
  apply builtin_collects; auto. lia.
Qed.

Theorem C16_decimal_scripts : Forall (fun '(d, zero) => prints_positional d (ten_from zero))
  [(Decimal, ascii_zero); (EasternArabic, arabic_indic_zero); (Persian, extended_arabic_indic_zero);
   (Urdu, extended_arabic_indic_zero); (Bengali, bengali_zero); (Cambodian, khmer_zero); (Khmer, khmer_zero);
   (Devanagari, devanagari_zero); (Gujarati, gujarati_zero); (Gurmukhi, gurmukhi_zero); (Kannada, kannada_zero);
   (Lao, lao_zero); (Malayalam, malayalam_zero); (Mongolian, mongolian_zero); (Myanmar, myanmar_zero);
   (Oriya, oriya_zero); (Tamil, tamil_zero); (Telugu, telugu_zero); (Thai, thai_zero); (Tibetan, tibetan_zero)].
Proof. repeat constructor; (apply builtin_positional; [reflexivity|vm_compute; reflexivity]). Qed.
Print Assumptions C16_decimal_scripts.

Theorem C16_han_digits : prints_positional CjkDecimal han_digits.
Proof. apply builtin_positional; [reflexivity|vm_compute; reflexivity]. Qed.
Print Assumptions C16_han_digits.

Theorem C16_alphabets : Forall (fun '(d, alphabet) => prints_bijective d alphabet)
  [(LetterUpper, latin_capitals); (LetterLower, latin_smalls);
   (GreekUpper, greek_capitals); (GreekLower, greek_smalls);
   (Hiragana, hiragana_gojuon); (HiraganaIroha, hiragana_iroha);
   (Katakana, katakana_of hiragana_gojuon); (KatakanaIroha, katakana_of hiragana_iroha);
   (HangeulJamo, jamo_consonants); (HangeulSyllable, syllables_with_a)].
Proof. repeat constructor; (apply builtin_bijective; [reflexivity|vm_compute; reflexivity]). Qed.
Print Assumptions C16_alphabets.

Example C16_case :
  map (fun d => seen (try_format_digits no_heap U32 d 3000000017)) [Decimal; Thai; CjkDecimal] =
    map (fun t => Ret (Ok (bytes t))) ["3000000017"; "๓๐๐๐๐๐๐๐๑๗"; "三〇〇〇〇〇〇〇一七"]%string /\
  map (fun d => seen (try_format_digits no_heap U64 d 700)) [LetterUpper; GreekLower; Hiragana; KatakanaIroha; HangeulJamo; HangeulSyllable] =
    map (fun t => Ret (Ok (bytes t))) ["ZY"; "αεε"; "そさ"; "カヱ"; "ㄷㅇㄱ"; "다아가"]%string.
Proof. split; vm_compute; reflexivity. Qed.

(** ** C17 *)

Theorem C17_hexadecimal : forall c T n, valid_config c -> fits c T n ->
  (exists cs, positional_numeral hex_capitals n cs /\ prints c (try_format_digits c T (HexUpper c) n) n cs) /\
  (exists cs, positional_numeral hex_smalls n cs /\ prints c (try_format_digits c T (HexLower c) n) n cs).
Proof.
  intros c T n Hc Hn. split;
  (apply C12_positional_numerals; auto;
    [refine (hex_collects c _ Hc _ _ _); vm_compute; reflexivity|vm_compute; discriminate|
     apply small_fits; [assumption|vm_compute; lia]]).
Qed.
Print Assumptions C17_hexadecimal.

Example C17_case :
  map (fun n => seen (try_format_digits no_heap U128 (HexUpper no_heap) n)) [0; 255; 0xDEADBEEF0; 2 ^ 128 - 1] =
    map (fun t => Ret (Ok (bytes t))) ["0"; "FF"; "DEADBEEF0"; "FFFFFFFFFFFFFFFFFFFFFFFFFFFFFFFF"]%string /\
  map (fun n => seen (try_format_digits no_heap U16 (HexLower no_heap) n)) [9; 10; 0xABCD] =
    map (fun t => Ret (Ok (bytes t))) ["9"; "a"; "abcd"]%string.
Proof. split; vm_compute; reflexivity. Qed.

(** ** C18 *)

Theorem C18_stems_and_branches : Forall (fun '(d, symbols) =>
    forall c T n, valid_config c -> fits c T n ->
    if n =? 0 then try_format_digits c T d n = Ret (Err NoZeroSymbol)
    else if n <=? N.of_nat (length symbols) then
      prints c (try_format_digits c T d n) n [digit_char symbols (n - 1)]
    else try_format_digits c T d n = try_format_digits c T CjkDecimal n)
  [(CjkHeavenlyStem, stems); (CjkEarthlyBranch, branches)].
Proof.
  assert (forall d symbols, dc_fixed d = true -> dc_has_zero_digit d = false -> dc_zero_based d = false ->
    dc_fallback d = CjkDecimal -> (forall c, valid_config c -> collects c d symbols) ->
    (length symbols < 256)%nat -> (1 <= length symbols)%nat ->
    forall c T n, valid_config c -> fits c T n ->
    if n =? 0 then try_format_digits c T d n = Ret (Err NoZeroSymbol)
    else if n <=? N.of_nat (length symbols) then
      prints c (try_format_digits c T d n) n [digit_char symbols (n - 1)]
    else try_format_digits c T d n = try_format_digits c T CjkDecimal n) as H.
  { intros d symbols Hf Hz Hzb Hfb Hcol Hlen Hlen1 c T n Hc Hn. specialize (Hcol c Hc).
    pose proof (small_fits c T symbols Hc Hlen) as Hfit.
    destruct (N.eqb_spec n 0) as [->|Hn0]; [|destruct (N.leb_spec n (N.of_nat (length symbols))) as [Hle|Hgt]].
    - unfold try_format_digits. destruct (depth_succ c Hc) as (k & ->).
      eapply format_digits_zero; try eassumption. lia.
    - apply yields_prints. unfold try_format_digits. destruct (depth_succ c Hc) as (k & ->).
      eapply format_digits_numeral; try eassumption.
      + unfold enough. rewrite Hz. lia.
      + unfold in_range. rewrite Hf, Hzb. cbn [andb]. lia.
      + unfold digit_numeral. rewrite Hz, Hzb. split; [assumption|]. apply single_bijective. lia.
    - rewrite <- Hfb. eapply (fixed_falls_back c T d n 10); try eassumption; rewrite ?Hfb; try reflexivity.
      + apply Hcol.
      + discriminate. }
  repeat constructor; (apply H; try reflexivity; try (cbn; lia)); intros c Hc;
    (split; [reflexivity|]; split; [|split; [apply small_length; [assumption|cbn; lia]|apply scalars_check; vm_compute; reflexivity]]);
    intros i Hi; cbn [dc_digit CjkHeavenlyStem CjkEarthlyBranch]; rewrite lookup_digit by exact Hi; reflexivity.
Qed.
Print Assumptions C18_stems_and_branches.

Example C18_case :
  map (fun n => seen (try_format_digits no_heap U8 CjkHeavenlyStem n)) [1; 10; 11; 20] =
    map (fun t => Ret (Ok (bytes t))) ["甲"; "癸"; "一一"; "二〇"]%string /\
  map (fun n => seen (try_format_digits no_heap U8 CjkEarthlyBranch n)) [1; 12; 13] =
    map (fun t => Ret (Ok (bytes t))) ["子"; "亥"; "一三"]%string.
Proof. split; vm_compute; reflexivity. Qed.

(** ** C19 *)

Theorem C19_chain : forall c T a b da db n,
  valid_config c -> collects c a da -> collects c b db ->
  N.of_nat (length da + length db) < 2 ^ usize_bits c ->
  enough (dc_has_zero_digit a) (N.of_nat (length (da ++ db))) ->
  fits c T (N.of_nat (length (da ++ db))) -> fits c T n -> countable a n ->
  collects c (chain c a b) (da ++ db) /\
  exists cs, digit_numeral (dc_has_zero_digit a) (dc_zero_based a) (da ++ db) n cs /\
             prints c (try_format_digits c T (chain c a b) n) n cs.
Proof.
  intros c T a b da db n Hc Ha Hb Hsum He Hfit Hn Hcn.
  pose proof (collects_chain c a b da db Ha Hb Hsum) as Hcol. split; [assumption|].
  destruct (digit_numeral_exists _ _ (da ++ db) n He Hcn) as (cs & Hcs). exists cs. split; [assumption|].
  apply yields_prints. eapply format_numeral; try eassumption. reflexivity.
Qed.
Print Assumptions C19_chain.

Theorem C19_restrict : forall c T a da k n,
  valid_config c -> collects c a da -> k <= N.of_nat (length da) ->
  enough (dc_has_zero_digit a) k -> fits c T k -> fits c T n -> countable a n ->
  collects c (restrict k a) (firstn (N.to_nat k) da) /\
  exists cs, digit_numeral (dc_has_zero_digit a) (dc_zero_based a) (firstn (N.to_nat k) da) n cs /\
             prints c (try_format_digits c T (restrict k a) n) n cs.
Proof.
  intros c T a da k n Hc Ha Hk He Hfit Hn Hcn.
  assert (N.of_nat (length (firstn (N.to_nat k) da)) = k) as E by (rewrite firstn_length; lia).
  pose proof (collects_restrict c a da k Ha Hk) as Hcol. split; [assumption|].
  rewrite <- E in He, Hfit.
  destruct (digit_numeral_exists _ _ (firstn (N.to_nat k) da) n He Hcn) as (cs & Hcs). exists cs. split; [assumption|].
  apply yields_prints. eapply format_numeral; try eassumption. reflexivity.
Qed.
Print Assumptions C19_restrict.

(** Counting from one, both have no name for zero. *)
Theorem C19_zero : forall c T a b da db k,
  valid_config c -> collects c a da -> collects c b db ->
  dc_has_zero_digit a = false -> dc_zero_based a = false ->
  (N.of_nat (length da + length db) < 2 ^ usize_bits c -> 1 <= N.of_nat (length (da ++ db)) ->
   fits c T (N.of_nat (length (da ++ db))) -> try_format_digits c T (chain c a b) 0 = Ret (Err NoZeroSymbol)) /\
  (1 <= k <= N.of_nat (length da) -> fits c T k -> try_format_digits c T (restrict k a) 0 = Ret (Err NoZeroSymbol)).
Proof.
  intros c T a b da db k Hc Ha Hb Hz Hzb. unfold try_format_digits. destruct (depth_succ c Hc) as (j & ->). split.
  - intros Hsum H1 Hfit. eapply format_digits_zero; try eassumption. apply collects_chain; assumption.
  - intros Hk Hfit. assert (N.of_nat (length (firstn (N.to_nat k) da)) = k) as E by (rewrite firstn_length; lia).
    eapply format_digits_zero; try eassumption; [apply collects_restrict; [exact Ha|lia]| |]; rewrite E; [assumption|lia].
Qed.
Print Assumptions C19_zero.

Example C19_case :
  collects no_heap (chain no_heap Decimal LetterLower) (ten_from ascii_zero ++ latin_smalls) /\
  seen (try_format_digits no_heap U64 (chain no_heap Decimal LetterLower) 1000000) = Ret (Ok (bytes "lfls"%string)) /\
  seen (try_format_digits no_heap U8 (chain no_heap (digit_set_zeroless abc) Decimal) 13) = Ret (Ok (bytes "aa"%string)) /\
  seen (try_format_digits no_heap U8 (restrict 3 LetterUpper) 3) = Ret (Ok (bytes "AA"%string)) /\
  seen (try_format_digits no_heap U8 (restrict 8 Decimal) 255) = Ret (Ok (bytes "377"%string)).
Proof.
  split; [|repeat split; vm_compute; reflexivity].
  apply collects_chain; [| |vm_compute; reflexivity];
    (apply builtin_collects; [exact no_heap_valid|reflexivity|reflexivity|auto]).
Qed.

(** ** C20: false of the code beyond the set's own length *)

(** Full statement: for a fixed [d] counting from one, [one_based d] formats
    every [n] like [d] (and likewise [restrict], [chain]). It holds for the
    numbers the wrapped set can show with one symbol. *)
Theorem C20_wrapped_fixed_partial : forall c T d e digits de k n,
  valid_config c -> collects c d digits -> collects c e de -> dc_fixed d = true ->
  dc_has_zero_digit d = false -> dc_zero_based d = false ->
  N.of_nat (length digits + length de) < 2 ^ usize_bits c ->
  fits c T (N.of_nat (length digits + length de)) ->
  1 <= n <= k -> k <= N.of_nat (length digits) ->
  let cs := [digit_char digits (n - 1)] in
  prints c (try_format_digits c T d n) n cs /\
  prints c (try_format_digits c T (one_based d) n) n cs /\
  prints c (try_format_digits c T (restrict k d) n) n cs /\
  prints c (try_format_digits c T (chain c d e) n) n cs.
Proof.
  intros c T d e digits de k n Hc Hd He Hf Hz Hzb Hsum Hfit Hn Hk cs.
  assert (fits c T n) as Hnf by (eapply fits_le; [exact Hfit|lia]).
  assert (fits c T (N.of_nat (length digits))) as Hfd by (eapply fits_le; [exact Hfit|lia]).
  assert (forall w dw, collects c w dw -> fits c T (N.of_nat (length dw)) ->
    dc_has_zero_digit w = false -> dc_zero_based w = false -> n <= N.of_nat (length dw) ->
    digit_char dw (n - 1) = digit_char digits (n - 1) ->
    prints c (try_format_digits c T w n) n cs) as H.
  { intros w dw Hw Hfw Hzw Hzbw Hnw Hch. unfold cs. rewrite <- Hch. apply yields_prints.
    unfold try_format_digits. destruct (depth_succ c Hc) as (j & ->).
    eapply format_digits_numeral; try eassumption.
    - unfold enough. rewrite Hzw. lia.
    - unfold in_range. rewrite Hzbw. destruct (dc_fixed w); cbn [andb negb]; [lia|reflexivity].
    - unfold digit_numeral. rewrite Hzw, Hzbw. split; [lia|]. apply single_bijective. lia. }
  split; [|split; [|split]].
  - apply (H d digits); auto. lia.
  - apply (H _ digits); auto; lia.
  - assert (N.of_nat (length (firstn (N.to_nat k) digits)) = k) as E by (rewrite firstn_length; lia).
    apply (H _ (firstn (N.to_nat k) digits)); auto.
    + apply collects_restrict; assumption.
    + rewrite E. eapply fits_le; [exact Hfit|lia].
    + lia.
    + unfold digit_char. rewrite <- (firstn_skipn (N.to_nat k) digits) at 2. rewrite app_nth1 by lia. reflexivity.
  - apply (H _ (digits ++ de)); auto.
    + apply collects_chain; assumption.
    + rewrite app_length. assumption.
    + rewrite app_length. lia.
    + unfold digit_char. rewrite app_nth1 by lia. reflexivity.
Qed.
Print Assumptions C20_wrapped_fixed_partial.

(** Beyond it, exactly: the wrappers never consult the fallback and print the
    numeral with several symbols, as for a set that is not fixed. *)
Inductive wraps (c : config) (d : digit_collection) (digits : list N) : digit_collection -> list N -> Prop :=
| wraps_one_based : wraps c d digits (one_based d) digits
| wraps_restrict k : k <= N.of_nat (length digits) -> wraps c d digits (restrict k d) (firstn (N.to_nat k) digits)
| wraps_chain e de : collects c e de -> N.of_nat (length digits + length de) < 2 ^ usize_bits c ->
    wraps c d digits (chain c d e) (digits ++ de).

Theorem C20_wrappers_ignore_fixed_partial : forall c T d digits w dw n cs,
  valid_config c -> collects c d digits -> wraps c d digits w dw ->
  enough (dc_has_zero_digit w) (N.of_nat (length dw)) -> fits c T (N.of_nat (length dw)) -> fits c T n ->
  digit_numeral (dc_has_zero_digit w) (dc_zero_based w) dw n cs ->
  prints c (try_format_digits c T w n) n cs.
Proof.
  intros c T d digits w dw n cs Hc Hd Hw He Hfit Hn Hcs. apply yields_prints.
  assert (collects c w dw /\ dc_fixed w = false) as [Hcol Hf].
  { destruct Hw; (split; [|reflexivity]);
      [apply collects_one_based|apply collects_restrict|apply collects_chain]; assumption. }
  eapply format_numeral; eassumption.
Qed.
Print Assumptions C20_wrappers_ignore_fixed_partial.

Theorem C20_wrapping_keeps_fixed_refuted :
  exists T n, fits on_heap T n /\
    seen (try_format_digits on_heap T CjkHeavenlyStem n) = Ret (Ok (bytes "一一"%string)) /\
    seen (try_format_digits on_heap T (one_based CjkHeavenlyStem) n) = Ret (Ok (bytes "甲甲"%string)) /\
    seen (try_format_digits on_heap T (restrict 10 CjkHeavenlyStem) n) = Ret (Ok (bytes "甲甲"%string)).
Proof. exists U8, 11. split; [reflexivity|]. repeat split; vm_compute; reflexivity. Qed.
Print Assumptions C20_wrapping_keeps_fixed_refuted.

(** The documentation of [one_based()] says that it has no effect if the
    collection has a zero digit. *)
Definition fixed_bits : digit_collection :=
  DC true true true (Ret 2) (fun index => or_panic (lookup (chars "01"%string) index)) NoFallback.

Theorem C20_one_based_without_effect_refuted :
  dc_has_zero_digit fixed_bits = true /\
  seen (try_format_digits on_heap U8 fixed_bits 2) = Ret (Err (OutOfBounds 2)) /\
  seen (try_format_digits on_heap U8 (one_based fixed_bits) 2) = Ret (Ok (bytes "10"%string)).
Proof. split; [reflexivity|]. split; vm_compute; reflexivity. Qed.
Print Assumptions C20_one_based_without_effect_refuted.

Example C20_case :
  map (fun d => seen (try_format_digits no_heap U8 d 4))
    [CjkHeavenlyStem; one_based CjkHeavenlyStem; restrict 5 CjkHeavenlyStem; chain no_heap CjkHeavenlyStem Decimal] =
  repeat (Ret (Ok (bytes "丁"%string))) 4 /\
  map (fun d => seen (try_format_digits no_heap U8 d 36))
    [CjkHeavenlyStem; one_based CjkHeavenlyStem; restrict 5 CjkHeavenlyStem; chain no_heap CjkHeavenlyStem Decimal] =
  map (fun t => Ret (Ok (bytes t))) ["三六"; "丙己"; "甲乙甲"; "甲5"]%string.
Proof. split; vm_compute; reflexivity. Qed.

(** ** C21: counting from one ignores the counting rule *)

(** What holds: digit [n], which is the counting rule's digit when counting
    from zero. *)
Theorem C21_large_collections_partial : forall c T d digits n,
  valid_config c -> collects c d digits -> ~ fits c T (N.of_nat (length digits)) -> fits c T n ->
  prints c (try_format_digits c T d n) n [digit_char digits n] /\
  (dc_has_zero_digit d = true \/ dc_zero_based d = true ->
   digit_numeral (dc_has_zero_digit d) (dc_zero_based d) digits n [digit_char digits n]).
Proof.
  intros c T d digits n Hc Hcol Hfit Hn. split.
  - apply yields_prints. unfold try_format_digits. destruct (depth_succ c Hc) as (k & ->).
    apply format_digits_large; assumption.
  - assert (n < N.of_nat (length digits)) as Hlt by (unfold fits in *; lia).
    unfold digit_numeral. intros H. destruct (dc_has_zero_digit d); [apply single_positional; assumption|].
    destruct H as [H|H]; [discriminate|]. rewrite H.
    replace [digit_char digits n] with [digit_char digits (n + 1 - 1)] by (do 2 f_equal; lia).
    apply single_bijective. lia.
Qed.
Print Assumptions C21_large_collections_partial.

Definition ideographs : list N := code_range 0x4E00 256.

Lemma ideographs_collects c : valid_config c -> collects c (digit_set_zeroless ideographs) ideographs.
Proof.
  intros Hc. apply collects_zeroless; [|apply scalars_check; vm_compute; reflexivity].
  apply N.lt_le_trans with (2 ^ 16); [vm_compute; reflexivity|].
  apply N.pow_le_mono_r; [lia|]. apply usize_bits_ge, Hc.
Qed.

(** Counting from one over 256 ideographs as [u8]: zero has no name and one
    should be the first ideograph, but zero prints the first and one the
    second. *)
Theorem C21_one_based_refuted : exists digits,
  (forall c, valid_config c -> collects c (one_based (digit_set_zeroless digits)) digits) /\
  ~ fits on_heap U8 (N.of_nat (length digits)) /\
  seen (try_format_digits on_heap U8 (one_based (digit_set_zeroless digits)) 0) = Ret (Ok (utf8 [0x4E00])) /\
  seen (try_format_digits on_heap U8 (one_based (digit_set_zeroless digits)) 1) = Ret (Ok (utf8 [0x4E01])) /\
  seen (try_format_digits on_heap U16 (one_based (digit_set_zeroless digits)) 0) = Ret (Err NoZeroSymbol) /\
  seen (try_format_digits on_heap U16 (one_based (digit_set_zeroless digits)) 1) = Ret (Ok (utf8 [0x4E00])).
Proof.
  exists ideographs. split; [intros c Hc; apply collects_one_based, ideographs_collects, Hc|].
  split; [vm_compute; discriminate|]. repeat split; vm_compute; reflexivity.
Qed.
Print Assumptions C21_one_based_refuted.

Example C21_case :
  collects no_heap (digit_set_zeroless ideographs) ideographs /\
  ~ fits no_heap U8 (N.of_nat (length ideographs)) /\
  seen (try_format_digits no_heap U8 (digit_set_zeroless ideographs) 255) = Ret (Ok (utf8 [0x4EFF])).
Proof.
  split; [apply ideographs_collects, no_heap_valid|]. split; [vm_compute; discriminate|vm_compute; reflexivity].
Qed.

(** ** C22: false for sets with too few digits *)

(** The collections a caller can build from digit tables with the API. *)
Inductive built (c : config) : digit_collection -> list N -> Prop :=
| built_new digits : N.of_nat (length digits) < 2 ^ usize_bits c -> scalars digits ->
    built c (digit_set_new digits) digits
| built_zeroless digits : N.of_nat (length digits) < 2 ^ usize_bits c -> scalars digits ->
    built c (digit_set_zeroless digits) digits
| built_one_based d digits : built c d digits -> built c (one_based d) digits
| built_named d digits : built c d digits -> built c (impl_digit_set d) digits
| built_chain a b da db : built c a da -> built c b db ->
    N.of_nat (length da + length db) < 2 ^ usize_bits c -> built c (chain c a b) (da ++ db)
| built_restrict k d digits : built c d digits -> k <= N.of_nat (length digits) ->
    built c (restrict k d) (firstn (N.to_nat k) digits).

Lemma built_collects c d digits : built c d digits -> collects c d digits /\ dc_fixed d = false.
Proof.
  induction 1 as [| |? ? ? [? ?]|? ? ? [? ?]|? ? ? ? ? [? ?] ? [? ?]|? ? ? ? [? ?] ?].
  - split; [apply collects_new; assumption|reflexivity].
  - split; [apply collects_zeroless; assumption|reflexivity].
  - split; [apply collects_one_based; assumption|reflexivity].
  - split; [apply collects_impl; assumption|reflexivity].
  - split; [apply collects_chain; assumption|reflexivity].
  - split; [apply collects_restrict; assumption|reflexivity].
Qed.

Theorem C22_terminates_partial : forall c T d digits n,
  valid_config c -> built c d digits ->
  enough (dc_has_zero_digit d) (N.of_nat (length digits)) -> fits c T n ->
  (exists s, try_format_digits c T d n = Ret (Ok s)) \/
  (n = 0 /\ try_format_digits c T d n = Ret (Err NoZeroSymbol)) \/
  (has_alloc c = false /\ try_format_digits c T d n = Ret (Err (OutOfMemory n))).
Proof.
  intros c T d digits n Hc Hb He Hn. destruct (built_collects c d digits Hb) as [Hcol Hf].
  assert (forall cs, prints c (try_format_digits c T d n) n cs ->
    (exists s, try_format_digits c T d n = Ret (Ok s)) \/
    (n = 0 /\ try_format_digits c T d n = Ret (Err NoZeroSymbol)) \/
    (has_alloc c = false /\ try_format_digits c T d n = Ret (Err (OutOfMemory n)))) as H.
  { intros cs Hp. unfold prints in Hp. destruct (has_alloc c); cbn [orb] in Hp.
    - destruct Hp as (s & E & _). eauto.
    - destruct (at_most_62 (utf8 cs)); [destruct Hp as (s & E & _); eauto|auto]. }
  destruct (N.lt_ge_cases (N.of_nat (length digits)) (2 ^ bits c T)) as [Hfit|Hfit].
  - destruct (dc_has_zero_digit d) eqn:Hz; [|destruct (dc_zero_based d) eqn:Hzb].
    + destruct (C12_positional_numerals c T d digits n) as (cs & _ & Hp); auto. eapply H, Hp.
    + destruct (C13_zeroless_counts_from_zero c T d digits n) as (cs & _ & Hp); auto. eapply H, Hp.
    + destruct (N.eq_dec n 0) as [->|Hn0].
      * right; left. split; [reflexivity|]. unfold try_format_digits. destruct (depth_succ c Hc) as (k & ->).
        eapply format_digits_zero; eassumption.
      * destruct (bijective_numeral_exists digits n He) as (cs & Hcs). apply (H cs). apply yields_prints.
        eapply format_numeral; try eassumption; [rewrite Hz; assumption|].
        unfold digit_numeral. rewrite Hz, Hzb. auto.
  - eapply H. eapply C21_large_collections_partial; try eassumption. unfold fits. lia.
Qed.
Print Assumptions C22_terminates_partial.

(** A one-digit set with a zero digit never finishes a positive number when
    there is a heap to fill, and an empty set panics on every number. *)
Theorem C22_terminates_refuted :
  (exists digits, scalars digits /\ forall c T n, valid_config c -> has_alloc c = true -> fits c T n -> 1 <= n ->
     try_format_digits c T (digit_set_new digits) n = Hang) /\
  (forall c T n, valid_config c ->
     try_format_digits c T (digit_set_new []) n = Panic /\
     try_format_digits c T (digit_set_zeroless []) n = Panic).
Proof.
  split.
  - exists [0x78]. split; [apply scalars_check; reflexivity|]. intros c T n Hc Ha Hn Hn1.
    unfold try_format_digits. destruct (depth_succ c Hc) as (k & Ek). rewrite Ek. cbn [format_digits].
    cbn [digit_set_new dc_len dc_fixed obind andb]. change (N.of_nat (length [0x78])) with 1.
    rewrite try_from_fits by (apply fits_small; [assumption|lia]). unfold run_loop.
    set (body := digit_loop_body c T (digit_set_new [0x78]) n).
    destruct (never_breaks body (fun st => dl_remaining st = n /\ dl_count st = 1 /\ exists cs, text c (dl_formatted st) cs)
      (loop_depth c) {| dl_remaining := n; dl_first_loop := true; dl_count := 1; dl_formatted := new_reverse |})
      as (st & E & _).
    + intros st (Hr & Hco & cs & Ht). unfold body, digit_loop_body. rewrite Hr, Hco.
      unfold is_zero. destruct (N.eqb_spec n 0); [lia|]. cbn [negb orb digit_set_new dc_has_zero_digit andb].
      cbn [obind]. unfold urem, udiv. cbn [N.eqb obind]. rewrite N.mod_1_r, N.div_1_r.
      rewrite as_usize_small by (destruct Hc as [[E|[E|E]] _]; rewrite E; reflexivity).
      cbn [dc_digit digit_set_new]. rewrite lookup_digit by (vm_compute; reflexivity). cbn [obind].
      destruct (push_front_pushed c (dl_formatted st) cs (digit_char [0x78] 0) Ht) as [(s' & E & Ht')|[_ Hroom]].
      * reflexivity.
      * rewrite E. cbn [obind dc_len digit_set_new]. change (N.of_nat (length [0x78])) with 1.
        rewrite try_from_fits by (apply fits_small; [assumption|lia]). eexists. split; [reflexivity|].
        cbn. eauto.
      * unfold room in Hroom. rewrite Ha in Hroom. discriminate.
    + cbn. split; [reflexivity|]. split; [reflexivity|]. exists []. apply text_new_reverse.
    + rewrite E. reflexivity.
  - intros c T n Hc. unfold try_format_digits. destruct (depth_succ c Hc) as (k & Ek). rewrite Ek.
    assert (forall S R (body : S -> outcome (loop_step S R)) s, body s = Panic -> run_loop c body s = Panic) as H.
    { intros S0 R body s Hb. unfold run_loop.
      assert (forall d, iterate d body s = Panic) as Hi.
      { induction d as [|d IH]; cbn [iterate]; [assumption|]. rewrite IH. reflexivity. }
      rewrite Hi. reflexivity. }
    cbn [format_digits digit_set_new digit_set_zeroless dc_len dc_fixed obind andb].
    change (N.of_nat (length (@nil N))) with 0. rewrite try_from_fits by (apply fits_small; [assumption|lia]).
    split; apply H; unfold digit_loop_body; cbn; rewrite orb_true_r; reflexivity.
Qed.
Print Assumptions C22_terminates_refuted.

(** Every set the API builds, and every number. *)
Lemma one_digit_forever c T d ch n : valid_config c -> collects c d [ch] -> dc_has_zero_digit d = true ->
  fits c T n -> 1 <= n ->
  run_loop c (digit_loop_body c T d n) (state [ch] n true new_reverse) =
    if has_alloc c then Hang else Ret (Err (OutOfMemory n)).
Proof.
  intros Hc Hcol Hz Hn Hn1.
  assert (fits c T (N.of_nat (length [ch]))) as Hfit by (apply fits_small; [assumption|cbn; lia]).
  assert (forall first s cs, text c s cs ->
    (exists s', digit_loop_body c T d n (state [ch] n first s) = Ret (Continue (state [ch] n false s')) /\ text c s' (ch :: cs)) \/
    (digit_loop_body c T d n (state [ch] n first s) = Ret (Break (Err (OutOfMemory n))) /\ room c (ch :: cs) = false)) as Hturn.
  { intros first s cs Ht. apply (turn c T d [ch] n Hcol Hfit n first s cs false n 0 Ht).
    - destruct (N.eqb_spec n 0); [lia|reflexivity].
    - rewrite Hz. reflexivity.
    - cbn. lia.
    - cbn. lia. }
  destruct (has_alloc c) eqn:Ha.
  - unfold run_loop.
    destruct (never_breaks (digit_loop_body c T d n) (fun st => exists first s cs, st = state [ch] n first s /\ text c s cs)
      (loop_depth c) (state [ch] n true new_reverse)) as (st & E & _).
    + intros st (first & s & cs & -> & Ht). destruct (Hturn first s cs Ht) as [(s' & E & Ht')|[_ Hr]].
      * eexists. split; [exact E|]. exists false, s', (ch :: cs). auto.
      * unfold room in Hr. rewrite Ha in Hr. discriminate.
    + exists true, new_reverse, []. split; [reflexivity|apply text_new_reverse].
    + rewrite E. reflexivity.
  - assert (forall k first s cs, (N.to_nat (62 - utf8_len cs) < k)%nat -> text c s cs ->
      loops (digit_loop_body c T d n) (N.of_nat k) (state [ch] n first s) (fun r => r = Err (OutOfMemory n))) as H.
    { induction k as [|k IH]; intros first s cs Hk Ht; [lia|].
      destruct (Hturn first s cs Ht) as [(s' & E & Ht')|[E Hr]].
      - eapply loops_step; [exact E|lia|]. replace (N.of_nat (S k) - 1) with (N.of_nat k) by lia.
        apply (IH false s' (ch :: cs)); [|exact Ht'].
        pose proof (len_utf8_bounds ch). rewrite utf8_len_cons.
        destruct Ht' as [Hrep Hin]. assert (utf8_len (ch :: cs) <= 62) as Hle.
        { pose proof (rep_noalloc _ _ _ Hrep Ha) as Hi. rewrite Hin in Hi. lia. }
        rewrite utf8_len_cons in Hle. lia.
      - eapply loops_break; [exact E|lia|reflexivity]. }
    specialize (H 63%nat true new_reverse [] ltac:(vm_compute; lia) (text_new_reverse c)).
    assert (N.of_nat 63 <= 2 ^ 128 + 2) as Hbudget by (vm_compute; discriminate).
    destruct (loops_run c _ _ _ _ Hc Hbudget H) as (r & E & ->). exact E.
Qed.

Theorem C22_every_set_partial : forall c T d digits n,
  valid_config c -> built c d digits -> fits c T n ->
  match digits, dc_has_zero_digit d with
  | [], _ =>
      try_format_digits c T d n =
        if (n =? 0) && negb (dc_has_zero_digit d) && negb (dc_zero_based d) then Ret (Err NoZeroSymbol) else Panic
  | [ch], true =>
      if n =? 0 then prints c (try_format_digits c T d n) n [ch]
      else try_format_digits c T d n = if has_alloc c then Hang else Ret (Err (OutOfMemory n))
  | _, _ =>
      (exists s, try_format_digits c T d n = Ret (Ok s)) \/
      (n = 0 /\ try_format_digits c T d n = Ret (Err NoZeroSymbol)) \/
      (has_alloc c = false /\ try_format_digits c T d n = Ret (Err (OutOfMemory n)))
  end.
Proof.
  intros c T d digits n Hc Hb Hn. destruct (built_collects c d digits Hb) as [Hcol Hf].
  assert (enough (dc_has_zero_digit d) (N.of_nat (length digits)) ->
      (exists s, try_format_digits c T d n = Ret (Ok s)) \/
      (n = 0 /\ try_format_digits c T d n = Ret (Err NoZeroSymbol)) \/
      (has_alloc c = false /\ try_format_digits c T d n = Ret (Err (OutOfMemory n)))) as Hgood
    by (intros He; eapply C22_terminates_partial; eassumption).
  destruct digits as [|ch [|ch' digits]].
  - unfold try_format_digits. destruct (depth_succ c Hc) as (k & ->).
    apply format_loop with (digits := []); try assumption; [apply fits_small; [assumption|cbn; lia]|unfold in_range; rewrite Hf; reflexivity|].
    assert (forall S R (body : S -> outcome (loop_step S R)) s, body s = Panic -> run_loop c body s = Panic) as H.
    { intros S0 R body s Hp. unfold run_loop.
      assert (forall i, iterate i body s = Panic) as Hi.
      { induction i as [|i IH]; cbn [iterate]; [assumption|]. rewrite IH. reflexivity. }
      rewrite Hi. reflexivity. }
    assert (forall body s (r : result nominal_string error), body s = Ret (Break r) -> @run_loop digit_loop _ c body s = Ret r) as H'.
    { intros body s r Hr. eapply runs_run_loop; [constructor; exact Hr|]. apply budget; [assumption|lia]. }
    unfold state. cbn [length N.of_nat].
    destruct (N.eqb_spec n 0) as [->|Hn0]; destruct (dc_has_zero_digit d) eqn:Ez; destruct (dc_zero_based d) eqn:Ezb; cbn [andb negb];
      try (apply H; unfold digit_loop_body, is_zero; cbn [dl_remaining dl_first_loop dl_count dl_formatted]; rewrite Ez, ?Ezb;
           rewrite orb_true_r; cbn [andb negb orb obind]; try destruct (N.eqb_spec n 0); try lia;
           cbn [obind]; rewrite ?usub_le by lia; reflexivity).
    apply H'. unfold digit_loop_body, is_zero. cbn [dl_remaining dl_first_loop dl_count dl_formatted]. rewrite Ez, Ezb. reflexivity.
  - destruct (dc_has_zero_digit d) eqn:Ez; [|apply Hgood; unfold enough; cbn; lia].
    assert (fits c T (N.of_nat (length [ch]))) as Hfit by (apply fits_small; [assumption|cbn; lia]).
    destruct (N.eqb_spec n 0) as [->|Hn0].
    + apply yields_prints. unfold try_format_digits. destruct (depth_succ c Hc) as (k & ->).
      apply format_loop with (digits := [ch]); try assumption; [unfold in_range; rewrite Hf; reflexivity|].
      destruct (turn c T d [ch] 0 Hcol Hfit 0 true new_reverse [] false 0 0 (text_new_reverse c)) as [(s' & E & Ht')|[E Hr]].
      * reflexivity.
      * rewrite Ez. reflexivity.
      * reflexivity.
      * cbn. lia.
      * assert (loops (digit_loop_body c T d 0) 2 (state [ch] 0 true new_reverse) (stored c 0 [ch])) as L.
        { eapply loops_step; [exact E|lia|]. eapply loops_break with (r := Ok s'); [reflexivity|lia|]. apply stored_text, Ht'. }
        eapply loops_run; [assumption| |exact L]. lia.
      * exists (Err (OutOfMemory 0)). split; [|apply stored_oom, Hr].
        eapply runs_run_loop; [constructor; exact E|]. apply budget; [assumption|lia].
    + unfold try_format_digits. destruct (depth_succ c Hc) as (k & ->).
      apply format_loop with (digits := [ch]); try assumption; [unfold in_range; rewrite Hf; reflexivity|].
      apply one_digit_forever; try assumption. lia.
  - assert (enough (dc_has_zero_digit d) (N.of_nat (length (ch :: ch' :: digits)))) as He
      by (unfold enough; cbn [length]; destruct (dc_has_zero_digit d); lia).
    destruct (dc_has_zero_digit d); apply Hgood, He.
Qed.
Print Assumptions C22_every_set_partial.

Example C22_case :
  built no_heap (one_based (chain no_heap (digit_set_zeroless abc) (digit_set_zeroless [0x64]))) (abc ++ [0x64]) /\
  seen (try_format_digits no_heap U8 (one_based (chain no_heap (digit_set_zeroless abc) (digit_set_zeroless [0x64]))) 84)
    = Ret (Ok (bytes "ddd"%string)) /\
  seen (try_format_digits no_heap U8 (digit_set_zeroless [0x64]) 4) = Ret (Ok (bytes "ddddd"%string)) /\
  seen (try_format_digits no_heap U8 (digit_set_new [0x64]) 0) = Ret (Ok (bytes "d"%string)) /\
  seen (try_format_digits no_heap U8 (digit_set_new [0x64]) 4) = Ret (Err (OutOfMemory 4)) /\
  seen (try_format_digits no_heap U8 (one_based (digit_set_zeroless [])) 0) = Ret (Err NoZeroSymbol) /\
  seen (try_format_digits no_heap U8 (restrict 0 Decimal) 4) = Panic.
Proof.
  split; [|do 5 (split; [vm_compute; reflexivity|]); vm_compute; reflexivity].
  apply built_one_based, built_chain; [| |vm_compute; reflexivity];
    (apply built_zeroless; [vm_compute; reflexivity|apply scalars_check; vm_compute; reflexivity]).
Qed.
