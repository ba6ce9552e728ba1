(** * PropertiesCss: C89, the systems taken from the CSS counter styles *)

From Coq Require Import String.
From Verif Require Import Prelude Utf8Facts StringFacts NominalString Spec SpecAdditive SpecCss History PropertiesString Outcome DigitFacts DigitOrder
  DigitSets PropertiesDigital AdditiveFacts AdditiveSets PropertiesSystem PropertiesCaller PropertiesDocumentation CssFacts
  Digital Additive Format System Cases.

(** CSS gives one text to a number, if any. *)
Theorem C89_css_is_a_function : forall st n a b, represents st n a -> represents st n b -> a = b.
Proof. intros st n a b Ha Hb. exact (represents_fun st n a Ha b Hb). Qed.
Print Assumptions C89_css_is_a_function.

(** In every build and for every integer type, [n] shows as CSS prescribes,
    provided there is room for the text. *)
Definition as_css (sys : system) (st : style) (n : N) : Prop :=
  forall c T, valid_config c -> fits c T n ->
  exists text, represents st n text /\
    (has_alloc c || at_most_62 (utf8 text) = true ->
     exists s, to_nominal n (default_system c T (sys c T)) = Ret s /\ as_str s = Ret (utf8 text)).

Lemma prints_shown c T (sys : system) n cs : prints c (sys c T n) n cs -> has_alloc c || at_most_62 (utf8 cs) = true ->
  exists s, to_nominal n (default_system c T (sys c T)) = Ret s /\ as_str s = Ret (utf8 cs).
Proof.
  unfold prints. intros H Hr. rewrite Hr in H. destruct H as (s & E & Ht & _). exists s.
  unfold to_nominal. cbn [default_system format_nominal]. rewrite E. split; [reflexivity|exact Ht].
Qed.

Lemma as_css_prints sys st n :
  (forall c T, valid_config c -> fits c T n -> exists cs, represents st n cs /\ prints c (sys c T n) n cs) -> as_css sys st n.
Proof.
  intros H c T Hc Hn. destruct (H c T Hc Hn) as (cs & Hr & Hp). exists cs. split; [exact Hr|]. apply prints_shown, Hp.
Qed.

(** Zero of a system without one, and of a style that falls back to decimal. *)
Lemma as_css_no_zero (sys : system) how first last : (forall text, ~ initial how 0 text) \/ first <> 0 ->
  (forall c T, valid_config c -> fits c T 0 -> sys c T 0 = Ret (Err NoZeroSymbol)) -> as_css sys (Style how first last DecimalStyle) 0.
Proof.
  intros Hi H c T Hc Hn. pose proof (C72_any_system c T (sys c T) 0 Hc) as H0. rewrite (H c T Hc Hn) in H0.
  destruct (H0 Hn) as (s & cs & Es & Hcs & Et). exists cs. split; [|intros _; exists s; auto].
  apply by_fallback; [|apply decimal_style, Hcs]. destruct Hi as [Hi|Hi]; [right; exact Hi|left; intros [Hf _]; lia].
Qed.

(** ** Numeric styles *)

Theorem C89_numeric : Forall (fun '(d, zero) => forall n, as_css (digits_of d) (numeric (ten_from zero)) n)
  [(Decimal, ascii_zero); (EasternArabic, arabic_indic_zero); (Persian, extended_arabic_indic_zero);
   (Bengali, bengali_zero); (Cambodian, khmer_zero); (Khmer, khmer_zero);
   (Devanagari, devanagari_zero); (Gujarati, gujarati_zero); (Gurmukhi, gurmukhi_zero); (Kannada, kannada_zero);
   (Lao, lao_zero); (Malayalam, malayalam_zero); (Mongolian, mongolian_zero); (Myanmar, myanmar_zero);
   (Oriya, oriya_zero); (Tamil, tamil_zero); (Telugu, telugu_zero); (Thai, thai_zero); (Tibetan, tibetan_zero)] /\
  forall n, as_css (digits_of CjkDecimal) cjk_decimal n.
Proof.
  assert (forall d digits n, 2 <= N.of_nat (length digits) -> prints_positional d digits -> as_css (digits_of d) (numeric digits) n) as H.
  { intros d digits n Hb H. apply as_css_prints. intros c T Hc Hn. destruct (H c T n Hc Hn) as (cs & Hcs & Hp).
    exists cs. split; [apply numeric_style; assumption|exact Hp]. }
  split.
  - apply Forall_forall. intros [d zero] Hin n. apply H; [vm_compute; discriminate|].
    pose proof C16_decimal_scripts as H16. rewrite Forall_forall in H16. apply (H16 (d, zero)).
    cbn [In] in *. repeat (destruct Hin as [Hin|Hin]; [rewrite Hin; tauto|]). destruct Hin.
  - intros n. apply H; [vm_compute; discriminate|exact C16_han_digits].
Qed.
Print Assumptions C89_numeric.

(** ** Alphabetic styles *)

Lemma alphabetic_as_css d digits n : (forall c, valid_config c -> collects c d digits) -> dc_has_zero_digit d = false ->
  1 <= N.of_nat (length digits) -> N.of_nat (length digits) < 256 -> as_css (digits_of (one_based d)) (alphabetic digits) n.
Proof.
  intros Hcol Hz H1 H2. pose proof (fun c T Hc => C14_one_based_counts_from_one c T d digits n Hc (Hcol c Hc) Hz H1 (fits_small c T _ Hc H2)) as H.
  destruct (N.eqb_spec n 0) as [->|Hn].
  - apply as_css_no_zero; [right; discriminate|exact H].
  - apply as_css_prints. intros c T Hc Hf. destruct (H c T Hc Hf) as (cs & Hcs & Hp). exists cs. split; [|exact Hp].
    apply by_algorithm; [split; [lia|exact I]|]. apply alphabetic_numeral; assumption.
Qed.

Theorem C89_alphabetic : Forall (fun '(d, st) => forall n, as_css (digits_of (one_based d)) st n)
  [(LetterLower, lower_alpha); (LetterUpper, upper_alpha); (GreekLower, lower_greek);
   (HiraganaIroha, css_hiragana_iroha); (KatakanaIroha, css_katakana_iroha)].
Proof.
  repeat (apply Forall_cons; [intros n; apply alphabetic_as_css;
    [intros c Hc; apply builtin_collects; [exact Hc|vm_compute; reflexivity|vm_compute; reflexivity|right; reflexivity]
    |reflexivity|vm_compute; discriminate|vm_compute; reflexivity]|]).
  apply Forall_nil.
Qed.
Print Assumptions C89_alphabetic.

(** With a heap, [n] shows as something else than CSS prescribes. *)
Definition unlike_css (sys : system) (st : style) (n : N) : Prop :=
  forall c T, valid_config c -> fits c T n -> has_alloc c = true ->
  exists s text, represents st n text /\ to_nominal n (default_system c T (sys c T)) = Ret s /\ as_str s <> Ret (utf8 text).

Lemma unlike_css_prints sys st n :
  (forall c T, valid_config c -> fits c T n -> exists cs text, prints c (sys c T n) n cs /\ represents st n text /\
     scalars cs /\ scalars text /\ cs <> text) -> unlike_css sys st n.
Proof.
  intros H c T Hc Hn Ha. destruct (H c T Hc Hn) as (cs & text & Hp & Hr & S1 & S2 & Hne).
  destruct (prints_shown c T sys n cs Hp) as (s & Es & Et); [rewrite Ha; reflexivity|].
  exists s, text. split; [exact Hr|]. split; [exact Es|]. rewrite Et. intros E. apply Hne. injection E as E.
  apply utf8_inj in E; assumption.
Qed.

(** The crate's syllabaries lack "wi" and "we", so the first 44 numbers are
    as in CSS and no other. *)
Definition kana_styles : list (digit_collection * list N * list N) :=
  [(Hiragana, hiragana_gojuon, css_hiragana); (Katakana, katakana_of hiragana_gojuon, css_katakana)].

Definition indices (k : nat) : list N := map N.of_nat (seq 0 k).

Lemma indices_in k i : i < N.of_nat k -> In i (indices k).
Proof. intros H. apply in_map_iff. exists (N.to_nat i). split; [lia|]. apply in_seq. lia. Qed.

Definition kana_fits (ours css : list N) : bool :=
  forallb (fun i => digit_char ours i =? digit_char css i) (indices 44) &&
  forallb (fun i => forallb (fun j => negb (digit_char ours i =? digit_char css j) || (i <=? j) && ((i <? 44) || (i <? j)))
    (indices 48)) (indices 46).

Lemma kana_values ours css : kana_fits ours css = true -> forall ds es,
  below 46 ds -> below 48 es -> map (digit_char ours) ds = map (digit_char css) es ->
  bijective_value 46 ds <= bijective_value 48 es /\ (44 < bijective_value 46 ds -> bijective_value 46 ds < bijective_value 48 es).
Proof.
  intros Hf. apply andb_true_iff in Hf as [_ Hf].
  assert (forall i j, i < 46 -> j < 48 -> digit_char ours i = digit_char css j -> i <= j /\ (i < 44 \/ i < j)) as Hij.
  { intros i j Hi Hj E. rewrite forallb_forall in Hf. specialize (Hf i (indices_in 46 i Hi)).
    rewrite forallb_forall in Hf. specialize (Hf j (indices_in 48 j Hj)). rewrite E, N.eqb_refl in Hf. cbn [negb orb] in Hf. lia. }
  intros ds. induction ds as [|d ds IH] using rev_ind; intros es Hd He E.
  - destruct es; [|discriminate]. split; [reflexivity|cbn; lia].
  - destruct es as [|e es _] using rev_ind; [rewrite map_app in E; destruct ds; discriminate|].
    rewrite !map_app in E. cbn [map] in E. apply app_inj_tail in E as [E1 E2].
    apply Forall_app in Hd as [Hd Hd']. apply Forall_app in He as [He He']. inversion Hd'; inversion He'; subst.
    destruct (IH es Hd He E1) as [IH1 _], (Hij d e) as [H1' H2']; try assumption.
    rewrite !bijective_value_app. lia.
Qed.

Lemma kana_collects c : valid_config c ->
  collects c Hiragana hiragana_gojuon /\ collects c Katakana (katakana_of hiragana_gojuon).
Proof.
  intros Hc. split; (apply builtin_collects; [exact Hc|vm_compute; reflexivity|vm_compute; reflexivity|right; reflexivity]).
Qed.

Lemma bijective_one digits n : n <> 0 -> n <= N.of_nat (length digits) -> bijective_numeral digits n [digit_char digits (n - 1)].
Proof.
  intros Hn H. exists [n - 1]. split; [constructor; [lia|constructor]|]. split; [|reflexivity].
  unfold bijective_value. cbn [fold_left]. lia.
Qed.

Theorem C89_kana_partial : Forall (fun '(d, _, symbols) => forall n, n <= 44 -> as_css (digits_of (one_based d)) (alphabetic symbols) n) kana_styles.
Proof.
  assert (forall d ours css, (forall c, valid_config c -> collects c d ours) -> dc_has_zero_digit d = false ->
    length ours = 46%nat -> length css = 48%nat -> kana_fits ours css = true ->
    forall n, n <= 44 -> as_css (digits_of (one_based d)) (alphabetic css) n) as H.
  { intros d ours css Hcol Hz L1 L2 Hf n Hn.
    pose proof (fun c T Hc => C14_one_based_counts_from_one c T d ours n Hc (Hcol c Hc) Hz) as H. rewrite L1 in H.
    destruct (N.eqb_spec n 0) as [->|Hn0].
    - apply as_css_no_zero; [right; discriminate|]. intros c T Hc HT. apply (H c T Hc); [vm_compute; discriminate|apply fits_small; [exact Hc|reflexivity]|exact HT].
    - apply as_css_prints. intros c T Hc HT.
      destruct (H c T Hc) as (cs & Hcs & Hp); [vm_compute; discriminate|apply fits_small; [exact Hc|reflexivity]|exact HT|].
      exists cs. split; [|exact Hp]. apply by_algorithm; [split; [lia|exact I]|].
      rewrite (bijective_numeral_fun _ _ _ _ Hcs (bijective_one ours n Hn0 ltac:(rewrite L1; lia))).
      apply andb_true_iff in Hf as [Hf _]. rewrite forallb_forall in Hf. specialize (Hf (n - 1) (indices_in 44 (n - 1) ltac:(lia))).
      apply N.eqb_eq in Hf. rewrite Hf. apply alphabetic_numeral; [rewrite L2; vm_compute; discriminate|exact Hn0|].
      apply bijective_one; [exact Hn0|rewrite L2; lia]. }
  apply Forall_cons; [|apply Forall_cons; [|apply Forall_nil]];
    (eapply H; [intros c Hc; apply (kana_collects c Hc)|reflexivity|reflexivity|reflexivity|vm_compute; reflexivity]).
Qed.
Print Assumptions C89_kana_partial.

Theorem C89_kana_refuted : Forall (fun '(d, _, symbols) => forall n, 45 <= n -> unlike_css (digits_of (one_based d)) (alphabetic symbols) n) kana_styles.
Proof.
  assert (forall d ours css, (forall c, valid_config c -> collects c d ours) -> dc_has_zero_digit d = false ->
    length ours = 46%nat -> length css = 48%nat -> kana_fits ours css && forallb is_scalar ours && forallb is_scalar css = true ->
    forall n, 45 <= n -> unlike_css (digits_of (one_based d)) (alphabetic css) n) as H.
  { intros d ours css Hcol Hz L1 L2 Hf n Hn. apply andb_true_iff in Hf as [Hf S2]. apply andb_true_iff in Hf as [Hf S1].
    assert (forall digits ds, forallb is_scalar digits = true -> below (N.of_nat (length digits)) ds -> scalars (map (digit_char digits) ds)) as Hs.
    { intros digits ds S Hd. apply Forall_map. eapply Forall_impl; [|exact Hd]. intros i Hi. cbn in Hi.
      apply scalars_check in S. unfold scalars in S. rewrite Forall_forall in S. apply S. unfold digit_char. apply nth_In. lia. }
    apply unlike_css_prints. intros c T Hc HT.
    pose proof (C14_one_based_counts_from_one c T d ours n Hc (Hcol c Hc) Hz) as H. rewrite L1 in H.
    destruct (N.eqb_spec n 0); [lia|].
    destruct H as (cs & (ds & D1 & D2 & ->) & Hp); [vm_compute; discriminate|apply fits_small; [exact Hc|reflexivity]|exact HT|].
    destruct (alphabetic_loop_total css ltac:(rewrite L2; vm_compute; discriminate) n) as (es & E1 & E2 & E3).
    exists (map (digit_char ours) ds), (map (digit_char css) es). split; [exact Hp|]. split.
    - apply by_algorithm; [split; [lia|exact I]|]. constructor; [assumption|]. specialize (E3 []). rewrite app_nil_r in E3. exact E3.
    - split; [apply Hs; assumption|]. split; [apply Hs; assumption|]. intros E.
      rewrite L1 in *. rewrite L2 in *. destruct (kana_values ours css Hf ds es D1 E1 E) as [_ Hlt].
      change (N.of_nat 46) with 46 in *. change (N.of_nat 48) with 48 in *. lia. }
  apply Forall_cons; [|apply Forall_cons; [|apply Forall_nil]];
    (eapply H; [intros c Hc; apply (kana_collects c Hc)|reflexivity|reflexivity|reflexivity|vm_compute; reflexivity]).
Qed.
Print Assumptions C89_kana_refuted.

(** ** Fixed styles *)

Lemma cjk_decimal_prints n c T : valid_config c -> fits c T n ->
  exists cs, represents cjk_decimal n cs /\ prints c (try_format_digits c T CjkDecimal n) n cs.
Proof.
  intros Hc Hn. destruct (C16_han_digits c T n Hc Hn) as (cs & Hcs & Hp). exists cs. split; [|exact Hp].
  apply numeric_style; [vm_compute; discriminate|exact Hcs].
Qed.

Theorem C89_fixed_partial : Forall (fun '(d, st) => forall n, 1 <= n -> as_css (digits_of d) st n)
  [(CjkHeavenlyStem, cjk_heavenly_stem); (CjkEarthlyBranch, cjk_earthly_branch)].
Proof.
  pose proof C18_stems_and_branches as H18.
  assert (forall d symbols last, last = N.of_nat (length symbols) ->
    (forall c T n, valid_config c -> fits c T n ->
      if n =? 0 then try_format_digits c T d n = Ret (Err NoZeroSymbol)
      else if n <=? N.of_nat (length symbols) then prints c (try_format_digits c T d n) n [digit_char symbols (n - 1)]
      else try_format_digits c T d n = try_format_digits c T CjkDecimal n) ->
    forall n, 1 <= n -> as_css (digits_of d) (Style (Fixed symbols) 1 (Some last) cjk_decimal) n) as H.
  { intros d symbols last -> H n Hn. apply as_css_prints. intros c T Hc HT. specialize (H c T n Hc HT). unfold digits_of.
    destruct (N.eqb_spec n 0); [lia|]. destruct (N.leb_spec n (N.of_nat (length symbols))) as [Hle|Hgt].
    - eexists. split; [|exact H]. apply by_algorithm; [split; [exact Hn|exact Hle]|].
      constructor; [assumption|]. apply nth_digit_char. lia.
    - rewrite H. destruct (cjk_decimal_prints n c T Hc HT) as (cs & Hr & Hp). exists cs. split; [|exact Hp].
      apply by_fallback; [|exact Hr]. left. intros [_ Hx]. lia. }
  inversion H18 as [|? ? HA HB]; subst. inversion HB as [|? ? HC _]; subst.
  apply Forall_cons; [apply (H _ stems); [reflexivity|exact HA]|].
  apply Forall_cons; [apply (H _ branches); [reflexivity|exact HC]|]. apply Forall_nil.
Qed.
Print Assumptions C89_fixed_partial.

(** Zero is out of the styles' range and CSS falls back to Han digits; the
    crate shows an ASCII zero. *)
Theorem C89_fixed_refuted : Forall (fun '(d, st) => represents st 0 (chars "〇") /\ always_shows (digits_of d) (0, "0"%string))
  [(CjkHeavenlyStem, cjk_heavenly_stem); (CjkEarthlyBranch, cjk_earthly_branch)].
Proof.
  assert (forall symbols last, represents (Style (Fixed symbols) 1 (Some last) cjk_decimal) 0 (chars "〇")) as Hr.
  { intros symbols last. apply by_fallback; [left; intros [H _]; lia|]. apply by_algorithm; [split; [lia|exact I]|]. constructor. }
  assert (forall d, (forall c T, valid_config c -> fits c T 0 -> try_format_digits c T d 0 = Ret (Err NoZeroSymbol)) ->
    always_shows (digits_of d) (0, "0"%string)) as Hs.
  { intros d H c T Hc Hn. pose proof (C72_any_system c T (digits_of d c T) 0 Hc) as H0. unfold digits_of in H0. rewrite (H c T Hc Hn) in H0.
    destruct (H0 Hn) as (s & cs & Es & Hcs & Et). exists s. split; [exact Es|]. rewrite Et. f_equal.
    assert (decimal_numeral 0 [0x30]) as Hz by (exists [0]; split; [constructor; [reflexivity|constructor]|]; repeat split).
    cbn [carried] in Hcs. rewrite (positional_numeral_fun _ _ _ _ Hcs Hz). reflexivity. }
  pose proof C18_stems_and_branches as H18. inversion H18 as [|? ? HA HB]; subst. inversion HB as [|? ? HC _]; subst.
  apply Forall_cons; [split; [apply Hr|apply Hs; intros c T; apply (HA c T 0)]|].
  apply Forall_cons; [split; [apply Hr|apply Hs; intros c T; apply (HC c T 0)]|]. apply Forall_nil.
Qed.
Print Assumptions C89_fixed_refuted.

(** ** Additive styles *)

Definition tuples_of (st : style) : list (N * list N) :=
  match st with Style (Additive l) _ _ _ => l | _ => [] end.

Definition text_eqb (a b : list N) : bool := if list_eq_dec N.eq_dec a b then true else false.

Lemma text_eqb_eq a b : text_eqb a b = true -> a = b.
Proof. unfold text_eqb. destruct (list_eq_dec N.eq_dec a b); [trivial|discriminate]. Qed.

Lemma additive_as_css sys tbl l first hi fallback n : table_ok sys tbl -> n <> 0 -> first <= n -> n <= hi ->
  gtext tbl n = gtext (table_of l) n -> grem (table_of l) n = 0 -> as_css sys (Style (Additive l) first (Some hi) fallback) n.
Proof.
  intros [Hu Hg] Hn Hlo Hhi Et Er. apply as_css_prints. intros c T Hc HT. exists (gtext tbl n). split.
  - apply by_algorithm; [split; assumption|]. constructor; [exact Hn|]. rewrite Et. apply (additive_loop_greedy l n []); assumption.
  - apply yields_prints, system_positive; assumption.
Qed.

Lemma same_table_as_css sys tbl l first hi fallback n : table_ok sys tbl -> table_of l = tbl -> n <> 0 -> first <= n -> n <= hi ->
  as_css sys (Style (Additive l) first (Some hi) fallback) n.
Proof.
  intros Hok El Hn Hlo Hhi. apply (additive_as_css sys tbl); try assumption; rewrite El; [reflexivity|].
  destruct Hok as [_ Hg]. destruct (good_table_parts tbl Hg) as (_ & Hd & H1 & _). apply grem_one; assumption.
Qed.

Lemma no_zero_as_css sys tbl l hi : table_ok sys tbl -> zero_of tbl = None -> as_css sys (Style (Additive l) 1 hi DecimalStyle) 0.
Proof.
  intros [Hu Hg] Hz. apply as_css_no_zero; [right; discriminate|]. intros c T _ _. eapply system_no_zero; eassumption.
Qed.

Lemma zero_as_css sys tbl l hi fallback z : table_ok sys tbl -> zero_of tbl = Some z ->
  find (fun tuple => fst tuple =? 0) l = Some (0, z) -> as_css sys (Style (Additive l) 0 (Some hi) fallback) 0.
Proof.
  intros [Hu Hg] Hz Hf. apply as_css_prints. intros c T Hc HT. exists z. split.
  - apply by_algorithm; [split; lia|]. constructor. exact Hf.
  - apply yields_prints. eapply system_zero; eassumption.
Qed.

(** In the range of the style, and zero, as CSS prescribes. *)
Definition letter_styles : list (system * table * style) :=
  [(ArmenianLower, armenian_lower_table, lower_armenian); (Georgian, georgian_table, css_georgian)].
Definition east_asian_styles : list (system * table * style) :=
  [(JapaneseFormal, japanese_formal_table, css_japanese_formal); (JapaneseInformal, japanese_informal_table, css_japanese_informal);
   (HangeulFormal, korean_hangul_formal_table, css_korean_hangul_formal);
   (HanjaInformal, korean_hanja_informal_table, css_korean_hanja_informal);
   (HanjaFormal, korean_hanja_formal_table, css_korean_hanja_formal)].
Definition roman_styles : list (system * table * style) :=
  [(RomanUpper, roman_upper_table, css_upper_roman); (RomanLower, roman_lower_table, css_lower_roman)].

Theorem C89_letters_partial :
  (forall n, n <= 9999 -> as_css ArmenianLower lower_armenian n) /\
  (forall n, n <= 19999 -> as_css Georgian css_georgian n).
Proof.
  split; intros n Hn; destruct (N.eq_dec n 0) as [->|Hn0].
  - apply (no_zero_as_css _ armenian_lower_table); [exact armenian_lower_ok|vm_compute; reflexivity].
  - apply (same_table_as_css _ armenian_lower_table); [exact armenian_lower_ok|vm_compute; reflexivity|assumption|lia|exact Hn].
  - apply (no_zero_as_css _ georgian_table); [exact georgian_ok|vm_compute; reflexivity].
  - apply (same_table_as_css _ georgian_table); [exact georgian_ok|vm_compute; reflexivity|assumption|lia|exact Hn].
Qed.
Print Assumptions C89_letters_partial.

Theorem C89_east_asian_partial : Forall (fun '(sys, _, st) => forall n, n <= 9999 -> as_css sys st n) east_asian_styles.
Proof.
  assert (forall sys tbl l z, table_ok sys tbl -> table_of l = tbl -> zero_of tbl = Some z ->
    find (fun tuple => fst tuple =? 0) l = Some (0, z) ->
    forall n, n <= 9999 -> as_css sys (Style (Additive l) 0 (Some 9999) cjk_decimal) n) as H.
  { intros sys tbl l z Hok El Hz Hf n Hn. destruct (N.eq_dec n 0) as [->|Hn0].
    - eapply zero_as_css; eassumption.
    - eapply same_table_as_css; try eassumption. lia. }
  apply Forall_cons; [eapply H; [exact japanese_formal_ok|vm_compute; reflexivity..]|].
  apply Forall_cons; [eapply H; [exact japanese_informal_ok|vm_compute; reflexivity..]|].
  apply Forall_cons; [eapply H; [exact korean_hangul_formal_ok|vm_compute; reflexivity..]|].
  apply Forall_cons; [eapply H; [exact korean_hanja_informal_ok|vm_compute; reflexivity..]|].
  apply Forall_cons; [eapply H; [exact korean_hanja_formal_ok|vm_compute; reflexivity..]|].
  apply Forall_nil.
Qed.
Print Assumptions C89_east_asian_partial.

Definition first_numbers (k : N) : list N := N.recursion [] (fun n l => n :: l) k.

Lemma first_numbers_in k n : n < k -> In n (first_numbers k).
Proof.
  unfold first_numbers. induction k as [|k IH] using N.peano_ind; [lia|]. intros H. rewrite N.recursion_succ; [|reflexivity|congruence].
  destruct (N.eq_dec n k) as [->|Hn]; [left; reflexivity|right; apply IH; lia].
Qed.

Definition alike (tbl : table) (l : list (N * list N)) (n : N) : bool :=
  text_eqb (gtext tbl n) (gtext (table_of l) n) && (grem (table_of l) n =? 0).

Theorem C89_roman_partial : Forall (fun '(sys, _, st) => forall n, 1 <= n -> n <= 3999 -> as_css sys st n) roman_styles.
Proof.
  assert (forall sys tbl l, table_ok sys tbl -> forallb (alike tbl l) (first_numbers 4000) = true ->
    forall n, 1 <= n -> n <= 3999 -> as_css sys (Style (Additive l) 1 (Some 3999) DecimalStyle) n) as H.
  { intros sys tbl l Hok Hall n H1 H2. rewrite forallb_forall in Hall. specialize (Hall n (first_numbers_in 4000 n ltac:(lia))).
    apply andb_true_iff in Hall as [Ht Hr]. apply text_eqb_eq in Ht. apply N.eqb_eq in Hr.
    eapply additive_as_css; try eassumption. lia. }
  apply Forall_cons; [eapply H; [exact roman_upper_ok|vm_compute; reflexivity]|].
  apply Forall_cons; [eapply H; [exact roman_lower_ok|vm_compute; reflexivity]|].
  apply Forall_nil.
Qed.
Print Assumptions C89_roman_partial.

(** The capital Armenian letter for one has a space behind it. *)
Lemma upper_armenian_alike : forallb (fun n => if n mod 10 =? 1
    then text_eqb (gtext armenian_upper_table n) (gtext (table_of (tuples_of upper_armenian)) n ++ [0x20]) &&
      (grem (table_of (tuples_of upper_armenian)) n =? 0) && at_most_62 (utf8 (gtext armenian_upper_table n))
    else alike armenian_upper_table (tuples_of upper_armenian) n) (first_numbers 10000) = true.
Proof. vm_compute. reflexivity. Qed.

Theorem C89_upper_armenian_partial : forall n, n <= 9999 -> n mod 10 <> 1 -> as_css ArmenianUpper upper_armenian n.
Proof.
  intros n Hn Hm. destruct (N.eq_dec n 0) as [->|Hn0].
  - apply (no_zero_as_css _ armenian_upper_table); [exact armenian_upper_ok|vm_compute; reflexivity].
  - pose proof upper_armenian_alike as H. rewrite forallb_forall in H. specialize (H n (first_numbers_in 10000 n ltac:(lia))).
    cbn beta in H. destruct (N.eqb_spec (n mod 10) 1); [contradiction|].
    apply andb_true_iff in H as [Ht Hr]. apply text_eqb_eq in Ht. apply N.eqb_eq in Hr.
    eapply additive_as_css; [exact armenian_upper_ok|assumption|lia|exact Hn|exact Ht|exact Hr].
Qed.
Print Assumptions C89_upper_armenian_partial.

Theorem C89_upper_armenian_refuted : forall n c T, n <= 9999 -> n mod 10 = 1 -> valid_config c -> fits c T n ->
  exists s text, represents upper_armenian n text /\
    to_nominal n (default_system c T (ArmenianUpper c T)) = Ret s /\ as_str s = Ret (utf8 text ++ bytes " ").
Proof.
  intros n c T Hn Hm Hc HT. assert (n <> 0) as Hn0 by (intros ->; discriminate).
  pose proof upper_armenian_alike as H. rewrite forallb_forall in H. specialize (H n (first_numbers_in 10000 n ltac:(lia))).
  cbn beta in H. rewrite Hm in H. change (1 =? 1) with true in H. cbn iota in H.
  apply andb_true_iff in H as [H Hl]. apply andb_true_iff in H as [Ht Hr]. apply text_eqb_eq in Ht. apply N.eqb_eq in Hr.
  destruct armenian_upper_ok as [Hu Hg].
  destruct (prints_shown c T ArmenianUpper n (gtext armenian_upper_table n)) as (s & Es & E).
  - apply yields_prints, system_positive; assumption.
  - rewrite Hl. apply orb_true_r.
  - exists s, (gtext (table_of (tuples_of upper_armenian)) n). split; [|split; [exact Es|]].
    + apply by_algorithm; [split; [lia|exact Hn]|]. constructor; [exact Hn0|].
      apply (additive_loop_greedy (tuples_of upper_armenian) n []); assumption.
    + rewrite E, Ht, utf8_app. reflexivity.
Qed.
Print Assumptions C89_upper_armenian_refuted.

(** Beyond the range CSS falls back, to decimal or Han digits; the crate
    repeats its largest symbols, or has further ones. *)
Lemma beyond_unlike sys tbl l lo hi fallback digits n : table_ok sys tbl ->
  strange digits (hi + 1) tbl && forallb is_scalar digits = true ->
  (exists text, represents fallback n text /\ Forall (fun ch => In ch digits) text) ->
  hi < n -> unlike_css sys (Style (Additive l) lo (Some hi) fallback) n.
Proof.
  intros [Hu Hg] Hs (text & Hr & Ht) Hn. apply andb_true_iff in Hs as [Hs Hd].
  apply unlike_css_prints. intros c T Hc HT. exists (gtext tbl n), text.
  split; [apply yields_prints, system_positive; try assumption; lia|].
  split; [apply by_fallback; [left; intros [_ H]; cbn in H; lia|exact Hr]|].
  split; [apply gtext_scalars; apply (good_table_parts tbl Hg)|].
  split.
  - apply scalars_check in Hd. unfold scalars in *. rewrite Forall_forall in Hd. eapply Forall_impl; [|exact Ht]. intros ch H. apply Hd, H.
  - intros <-. revert Ht. apply (strange_text digits (hi + 1)); [exact Hs|lia].
Qed.

Lemma positional_made_of digits n : 2 <= N.of_nat (length digits) ->
  exists text, positional_numeral digits n text /\ Forall (fun ch => In ch digits) text.
Proof.
  intros Hb. destruct (positional_numeral_exists digits n Hb) as (cs & Hcs). exists cs. split; [exact Hcs|].
  destruct Hcs as (ds & H1 & _ & _ & ->). apply Forall_map. eapply Forall_impl; [|exact H1].
  intros i Hi. cbn in Hi. unfold digit_char. apply nth_In. lia.
Qed.

Theorem C89_beyond_refuted :
  (forall n, 9999 < n -> unlike_css ArmenianLower lower_armenian n /\ unlike_css ArmenianUpper upper_armenian n) /\
  (forall n, 19999 < n -> unlike_css Georgian css_georgian n) /\
  Forall (fun '(sys, _, st) => forall n, 9999 < n -> unlike_css sys st n) east_asian_styles /\
  Forall (fun '(sys, _, st) => forall n, 3999 < n -> unlike_css sys st n) roman_styles.
Proof.
  assert (forall n, exists text, represents DecimalStyle n text /\ Forall (fun ch => In ch (ten_from ascii_zero)) text) as Hdec.
  { intros n. destruct (positional_made_of (ten_from ascii_zero) n) as (text & H1 & H2); [vm_compute; discriminate|].
    exists text. split; [apply decimal_style, H1|exact H2]. }
  assert (forall n, exists text, represents cjk_decimal n text /\ Forall (fun ch => In ch han_digits) text) as Hhan.
  { intros n. destruct (positional_made_of han_digits n) as (text & H1 & H2); [vm_compute; discriminate|].
    exists text. split; [apply numeric_style; [vm_compute; discriminate|exact H1]|exact H2]. }
  split; [|split; [|split]].
  - intros n Hn. split.
    + refine (beyond_unlike _ armenian_lower_table _ _ _ _ _ n armenian_lower_ok _ (Hdec n) Hn). vm_compute. reflexivity.
    + refine (beyond_unlike _ armenian_upper_table _ _ _ _ _ n armenian_upper_ok _ (Hdec n) Hn). vm_compute. reflexivity.
  - intros n Hn. refine (beyond_unlike _ georgian_table _ _ _ _ _ n georgian_ok _ (Hdec n) Hn). vm_compute. reflexivity.
  - apply Forall_cons; [intros n Hn; refine (beyond_unlike _ _ _ _ _ _ _ n japanese_formal_ok _ (Hhan n) Hn); vm_compute; reflexivity|].
    apply Forall_cons; [intros n Hn; refine (beyond_unlike _ _ _ _ _ _ _ n japanese_informal_ok _ (Hhan n) Hn); vm_compute; reflexivity|].
    apply Forall_cons; [intros n Hn; refine (beyond_unlike _ _ _ _ _ _ _ n korean_hangul_formal_ok _ (Hhan n) Hn); vm_compute; reflexivity|].
    apply Forall_cons; [intros n Hn; refine (beyond_unlike _ _ _ _ _ _ _ n korean_hanja_informal_ok _ (Hhan n) Hn); vm_compute; reflexivity|].
    apply Forall_cons; [intros n Hn; refine (beyond_unlike _ _ _ _ _ _ _ n korean_hanja_formal_ok _ (Hhan n) Hn); vm_compute; reflexivity|].
    apply Forall_nil.
  - apply Forall_cons; [intros n Hn; refine (beyond_unlike _ _ _ _ _ _ _ n roman_upper_ok _ (Hdec n) Hn); vm_compute; reflexivity|].
    apply Forall_cons; [intros n Hn; refine (beyond_unlike _ _ _ _ _ _ _ n roman_lower_ok _ (Hdec n) Hn); vm_compute; reflexivity|].
    apply Forall_nil.
Qed.
Print Assumptions C89_beyond_refuted.

(** Zero is out of the range of the Roman styles too; the crate has "N". *)
Theorem C89_roman_zero_refuted :
  represents css_upper_roman 0 (chars "0") /\ always_shows RomanUpper (0, "N"%string) /\
  represents css_lower_roman 0 (chars "0") /\ always_shows RomanLower (0, "n"%string).
Proof.
  assert (forall l, represents (Style (Additive l) 1 (Some 3999) DecimalStyle) 0 (chars "0")) as Hr.
  { intros l. apply by_fallback; [left; intros [H _]; lia|]. constructor. apply (initial_numeric_zero 0x30). }
  assert (forall sys tbl z, table_ok sys tbl -> zero_of tbl = Some (chars z) -> at_most_62 (utf8 (chars z)) = true ->
    utf8 (chars z) = bytes z -> always_shows sys (0, z)) as Hs.
  { intros sys tbl z [Hu Hg] Hz Hl Eb c T Hc HT. rewrite <- Eb. apply prints_shown; [|rewrite Hl; apply orb_true_r].
    apply yields_prints. eapply system_zero; eassumption. }
  split; [apply Hr|]. split; [eapply Hs; [exact roman_upper_ok|vm_compute; reflexivity..]|].
  split; [apply Hr|]. eapply Hs; [exact roman_lower_ok|vm_compute; reflexivity..].
Qed.
Print Assumptions C89_roman_zero_refuted.

Example C89_case :
  represents css_upper_roman 1904 (chars "MCMIV") /\
  seen (RomanUpper no_heap U16 1904) = Ret (Ok (bytes "MCMIV")) /\
  represents lower_alpha 28 (chars "ab") /\
  seen (try_format_digits no_heap U8 (one_based LetterLower) 28) = Ret (Ok (bytes "ab")) /\
  represents cjk_earthly_branch 13 (chars "一三") /\
  seen (try_format_digits no_heap U8 CjkEarthlyBranch 13) = Ret (Ok (bytes "一三")) /\
  represents hiragana 45 (chars "ゐ") /\
  seen (try_format_digits no_heap U8 (one_based Hiragana) 45) = Ret (Ok (bytes "を")) /\
  represents css_japanese_informal 12000 (chars "一二〇〇〇") /\
  seen (JapaneseInformal no_heap U16 12000) = Ret (Ok (bytes "九千三千")).
Proof.
  assert (forall symbols n s t, n <> 0 -> nth_error symbols (N.to_nat (n mod N.of_nat (length symbols))) = Some t ->
    n / N.of_nat (length symbols) = 0 -> numeric_loop symbols n s (t :: s)) as Hlast.
  { intros symbols n s t Hn Ht Hz. eapply numeric_more; [exact Hn|exact Ht|]. rewrite Hz. constructor. }
  split; [|split; [vm_compute; reflexivity|]].
  { apply by_algorithm; [split; vm_compute; discriminate|]. constructor; [discriminate|].
    apply (additive_loop_greedy (tuples_of css_upper_roman) 1904 []); [discriminate|vm_compute; reflexivity]. }
  split; [|split; [vm_compute; reflexivity|]].
  { apply by_algorithm; [split; [vm_compute; discriminate|exact I]|]. constructor; [discriminate|].
    eapply alphabetic_more; [discriminate|vm_compute; reflexivity|].
    eapply alphabetic_more; [vm_compute; discriminate|vm_compute; reflexivity|]. vm_compute. constructor. }
  split; [|split; [vm_compute; reflexivity|]].
  { apply by_fallback; [left; intros [_ H]; vm_compute in H; apply H; reflexivity|].
    apply by_algorithm; [split; [vm_compute; discriminate|exact I]|]. constructor; [discriminate|].
    eapply numeric_more; [discriminate|vm_compute; reflexivity|].
    apply Hlast; [vm_compute; discriminate|vm_compute; reflexivity|vm_compute; reflexivity]. }
  split; [|split; [vm_compute; reflexivity|]].
  { apply by_algorithm; [split; [vm_compute; discriminate|exact I]|]. constructor; [discriminate|].
    eapply alphabetic_more; [discriminate|vm_compute; reflexivity|]. vm_compute. constructor. }
  split; [|vm_compute; reflexivity].
  apply by_fallback; [left; intros [_ H]; vm_compute in H; apply H; reflexivity|].
  apply by_algorithm; [split; [vm_compute; discriminate|exact I]|]. constructor; [discriminate|].
  do 4 (eapply numeric_more; [vm_compute; discriminate|vm_compute; reflexivity|]).
  apply Hlast; [vm_compute; discriminate|vm_compute; reflexivity|vm_compute; reflexivity].
Qed.
