(** * PropertiesAgree: C67 and C68, how numerals of different systems and of
    different numbers are related *)

From Coq Require Import String.
From Verif Require Import Prelude Utf8Facts StringFacts History Outcome DigitFacts DigitOrder DigitSets
  PropertiesDigital Additive SpecAdditive AdditiveFacts AdditiveSets PropertiesAdditive System Cases.

(** ** C67: same numeral, other symbols *)

(** The indices of the digits are those of any other collection of as many
    digits that counts the same way. *)
Theorem C67_digits_transliterate : forall c T d e digits digits' n,
  valid_config c -> collects c d digits -> collects c e digits' ->
  dc_fixed d = false -> dc_fixed e = false ->
  dc_has_zero_digit d = dc_has_zero_digit e -> dc_zero_based d = dc_zero_based e ->
  length digits = length digits' ->
  enough (dc_has_zero_digit d) (N.of_nat (length digits)) -> fits c T (N.of_nat (length digits)) -> fits c T n ->
  (try_format_digits c T d n = Ret (Err NoZeroSymbol) /\ try_format_digits c T e n = Ret (Err NoZeroSymbol)) \/
  exists indices, below (N.of_nat (length digits)) indices /\
    prints c (try_format_digits c T d n) n (map (digit_char digits) indices) /\
    prints c (try_format_digits c T e n) n (map (digit_char digits') indices).
Proof.
  intros c T d e digits digits' n Hc Hd He Fd Fe Ez Ezb El Hen Hfit Hn.
  assert (1 <= N.of_nat (length digits)) as H1 by (unfold enough in Hen; destruct (dc_has_zero_digit d); lia).
  destruct (dc_has_zero_digit d) eqn:Hz; [|destruct (dc_zero_based d) eqn:Hzb; [|destruct (N.eq_dec n 0) as [->|Hn0]]].
  - right. unfold enough in Hen. destruct (positional_numeral_exists digits n Hen) as (cs & ds & Hb & Hca & Hv & ->).
    exists ds. split; [assumption|].
    split; apply yields_prints; eapply format_numeral; try eassumption; rewrite <- ?El, <- ?Ez, ?Hz;
      try assumption; unfold digit_numeral; exists ds; rewrite <- ?El; auto.
  - right. destruct (bijective_numeral_exists digits (n + 1) H1) as (cs & ds & Hb & Hv & ->).
    exists ds. split; [assumption|].
    split; apply yields_prints; eapply format_numeral; try eassumption; rewrite <- ?El, <- ?Ez, ?Hz;
      try assumption; unfold digit_numeral; rewrite <- ?Ezb, ?Hzb; exists ds; rewrite <- ?El; auto.
  - left. unfold try_format_digits. destruct (depth_succ c Hc) as (k & ->).
    split; eapply format_digits_zero; try eassumption; rewrite <- ?El; auto.
  - right. destruct (bijective_numeral_exists digits n H1) as (cs & ds & Hb & Hv & ->).
    exists ds. split; [assumption|].
    split; apply yields_prints; eapply format_numeral; try eassumption; rewrite <- ?El, <- ?Ez, ?Hz;
      try assumption; unfold digit_numeral; rewrite <- ?Ezb, ?Hzb; (split; [assumption|]); exists ds; rewrite <- ?El; auto.
Qed.
Print Assumptions C67_digits_transliterate.

(** Additive sets with the same values use their symbols equally often. *)
Theorem C67_symbols_transliterate : forall c T tbl tbl' set set' n,
  valid_config c -> proper tbl -> proper tbl' -> map snd tbl = map snd tbl' ->
  additive_set_new (encode tbl) = Ret set -> additive_set_new (encode tbl') = Ret set' ->
  fits c T n -> 1 <= n ->
  exists counts, length counts = length tbl /\
    prints c (try_format_additive c T set n) n (spell tbl counts) /\
    prints c (try_format_additive c T set' n) n (spell tbl' counts).
Proof.
  intros c T tbl tbl' set set' n Hc Hp Hp' Ev Hs Hs' Hn Hn1.
  assert (forall tbl tbl' n, map snd tbl = map snd tbl' -> greedy tbl n = greedy tbl' n) as Hg.
  { clear. induction tbl as [|[s v] tbl IH]; intros [|[s' v'] tbl'] n E; try discriminate; [reflexivity|].
    cbn [map snd] in E. injection E as -> E. cbn [greedy]. erewrite IH by exact E.
    assert (length tbl = length tbl') as El by (apply (f_equal (@length N)) in E; rewrite !map_length in E; exact E).
    destruct (v' =? 0); [|reflexivity]. cbn [map]. f_equal. clear - El. revert tbl' El.
    induction tbl as [|x tbl IH]; intros [|x' tbl'] E; try discriminate; [reflexivity|]. cbn [map]. f_equal.
    apply IH. cbn in E. congruence. }
  exists (greedy tbl n). split.
  { clear. revert n. induction tbl as [|[s v] tbl IH]; intros n; [reflexivity|]. cbn [greedy].
    destruct (v =? 0); [apply map_length|]. cbn [length]. f_equal. apply IH. }
  split; [|rewrite (Hg tbl tbl' n Ev)]; rewrite spell_greedy; apply yields_prints, additive_text; try assumption; lia.
Qed.
Print Assumptions C67_symbols_transliterate.

(** Replacing every character. *)
Definition rewrites (f : N -> N) (sys sys' : system) : Prop :=
  forall c T n, valid_config c -> fits c T n ->
  exists cs, prints c (sys c T n) n cs /\ prints c (sys' c T n) n (map f cs).

Lemma digit_chars_map f digits ds : below (N.of_nat (length digits)) ds ->
  map (digit_char (map f digits)) ds = map f (map (digit_char digits) ds).
Proof.
  intros H. rewrite map_map. apply map_ext_in. intros i Hi. unfold below in H. rewrite Forall_forall in H.
  specialize (H i Hi). unfold digit_char. rewrite (nth_indep _ 0 (f 0)) by (rewrite map_length; lia).
  apply map_nth.
Qed.

Lemma positional_map f digits n cs : positional_numeral digits n cs -> positional_numeral (map f digits) n (map f cs).
Proof.
  intros (ds & Hb & Hc & Hv & ->). exists ds. rewrite map_length. split; [assumption|]. split; [assumption|].
  split; [assumption|]. symmetry. apply digit_chars_map, Hb.
Qed.

Lemma bijective_map f digits n cs : bijective_numeral digits n cs -> bijective_numeral (map f digits) n (map f cs).
Proof.
  intros (ds & Hb & Hv & ->). exists ds. rewrite map_length. split; [assumption|]. split; [assumption|].
  symmetry. apply digit_chars_map, Hb.
Qed.

Lemma positional_rewrites f d e digits : prints_positional d digits -> prints_positional e (map f digits) ->
  rewrites f (fun c T => try_format_digits c T d) (fun c T => try_format_digits c T e).
Proof.
  intros Hd He c T n Hc Hn. destruct (Hd c T n Hc Hn) as (cs & Hcs & Hp). destruct (He c T n Hc Hn) as (cs' & Hcs' & Hp').
  exists cs. split; [assumption|].
  rewrite (positional_numeral_fun _ _ _ _ (positional_map f _ _ _ Hcs) Hcs'). assumption.
Qed.

Lemma bijective_rewrites f d e digits : prints_bijective d digits -> prints_bijective e (map f digits) ->
  rewrites f (fun c T => try_format_digits c T d) (fun c T => try_format_digits c T e).
Proof.
  intros Hd He c T n Hc Hn. destruct (Hd c T n Hc Hn) as (cs & Hcs & Hp). destruct (He c T n Hc Hn) as (cs' & Hcs' & Hp').
  exists cs. split; [assumption|].
  rewrite (bijective_numeral_fun _ _ _ _ (bijective_map f _ _ _ Hcs) Hcs'). assumption.
Qed.

Lemma copies_map f k s : copies k (map f s) = map f (copies k s).
Proof.
  unfold copies. induction k as [|k IH] using N.peano_ind; [reflexivity|].
  rewrite !N.iter_succ, map_app, IH. reflexivity.
Qed.

Definition rewrite_table (f : N -> N) (tbl : table) : table := map (fun '(s, v) => (map f s, v)) tbl.

Lemma gtext_map f tbl n : gtext (rewrite_table f tbl) n = map f (gtext tbl n).
Proof.
  revert n. induction tbl as [|[s v] tbl IH]; intros n; [reflexivity|]. cbn [rewrite_table map gtext].
  destruct (v =? 0); [reflexivity|]. rewrite map_app, copies_map. f_equal. apply IH.
Qed.

(** Latin and Greek small letters to capital letters; other characters are
    left as they are. *)
Definition capital (ch : N) : N :=
  if ((0x61 <=? ch) && (ch <=? 0x7A)) || ((0x3B1 <=? ch) && (ch <=? 0x3C9)) then ch - 0x20 else ch.

(** A decimal digit to the digit of the same value of another script. *)
Definition digit_of_script (zero ch : N) : N := zero + (ch - 0x30).

Theorem C67_capitals : Forall (fun '(lower, upper) => rewrites capital lower upper)
  [((fun c T => try_format_digits c T LetterLower) : system, (fun c T => try_format_digits c T LetterUpper) : system);
   (fun c T => try_format_digits c T GreekLower, fun c T => try_format_digits c T GreekUpper);
   (fun c T => try_format_digits c T (HexLower c), fun c T => try_format_digits c T (HexUpper c));
   (RomanLower, RomanUpper)].
Proof.
  pose proof C16_alphabets as H. repeat (apply Forall_cons_iff in H as [? H]).
  repeat apply Forall_cons; [..|constructor].
  - eapply bijective_rewrites; [eassumption|].
    replace (map capital latin_smalls) with latin_capitals by (vm_compute; reflexivity). assumption.
  - eapply bijective_rewrites; [eassumption|].
    replace (map capital greek_smalls) with greek_capitals by (vm_compute; reflexivity). assumption.
  - intros c T n Hc Hn. destruct (C17_hexadecimal c T n Hc Hn) as [(cs & Hcs & Hp) (cs' & Hcs' & Hp')].
    exists cs'. split; [assumption|].
    pose proof (positional_map capital _ _ _ Hcs') as Hm.
    replace (map capital hex_smalls) with hex_capitals in Hm by (vm_compute; reflexivity).
    rewrite (positional_numeral_fun _ _ _ _ Hm Hcs). assumption.
  - intros c T n Hc Hn. destruct (N.eq_dec n 0) as [->|Hn0].
    + exists (chars "n"%string). destruct (C28_roman_zero c T) as [Hu Hl]. split; [exact Hl|exact Hu].
    + destruct roman_upper_ok as [U1 G1], roman_lower_ok as [U2 G2]. exists (gtext roman_lower_table n).
      split; [apply yields_prints, (system_positive _ _ _ _ _ U2 G2); assumption|].
      rewrite <- gtext_map. replace (rewrite_table capital roman_lower_table) with roman_upper_table by (vm_compute; reflexivity).
      apply yields_prints, (system_positive _ _ _ _ _ U1 G1); assumption.
Qed.
Print Assumptions C67_capitals.

Theorem C67_decimal_scripts : Forall (fun '(d, zero) =>
    rewrites (digit_of_script zero) (fun c T => try_format_digits c T Decimal) (fun c T => try_format_digits c T d))
  [(EasternArabic, arabic_indic_zero); (Persian, extended_arabic_indic_zero);
   (Urdu, extended_arabic_indic_zero); (Bengali, bengali_zero); (Cambodian, khmer_zero); (Khmer, khmer_zero);
   (Devanagari, devanagari_zero); (Gujarati, gujarati_zero); (Gurmukhi, gurmukhi_zero); (Kannada, kannada_zero);
   (Lao, lao_zero); (Malayalam, malayalam_zero); (Mongolian, mongolian_zero); (Myanmar, myanmar_zero);
   (Oriya, oriya_zero); (Tamil, tamil_zero); (Telugu, telugu_zero); (Thai, thai_zero); (Tibetan, tibetan_zero)].
Proof.
  pose proof C16_decimal_scripts as H. apply Forall_cons_iff in H as [Hdec H].
  eapply Forall_impl; [|exact H]. intros [d zero] Hd. eapply positional_rewrites; [exact Hdec|].
  replace (map (digit_of_script zero) (ten_from ascii_zero)) with (ten_from zero); [exact Hd|].
  unfold ten_from, digit_of_script. rewrite map_map. apply map_ext. intros i. unfold ascii_zero. lia.
Qed.
Print Assumptions C67_decimal_scripts.

(** Katakana are 0x60 code points above the hiragana. *)
Theorem C67_kana :
  rewrites (N.add 0x60) (fun c T => try_format_digits c T Hiragana) (fun c T => try_format_digits c T Katakana) /\
  rewrites (N.add 0x60) (fun c T => try_format_digits c T HiraganaIroha) (fun c T => try_format_digits c T KatakanaIroha).
Proof.
  pose proof C16_alphabets as H. repeat (apply Forall_cons_iff in H as [? H]).
  split; (eapply bijective_rewrites; [eassumption|]).
  - replace (map (N.add 0x60) hiragana_gojuon) with (katakana_of hiragana_gojuon) by (vm_compute; reflexivity). assumption.
  - replace (map (N.add 0x60) hiragana_iroha) with (katakana_of hiragana_iroha) by (vm_compute; reflexivity). assumption.
Qed.
Print Assumptions C67_kana.

Definition tokens : table := [([0x41], 25); ([0x42], 10); ([0x43], 4); ([0x44], 1); ([], 0)].

Example C67_case :
  map capital (chars "i̅xz9ω"%string) = chars "I̅XZ9Ω"%string /\
  map snd tokens = map snd coins /\ proper tokens /\
  (set <- additive_set_new (encode tokens) ;; seen (try_format_additive no_heap U8 set 69)) = Ret (Ok (bytes "AABCCD"%string)) /\
  (set <- additive_set_new (encode coins) ;; seen (try_format_additive no_heap U8 set 69)) = Ret (Ok (bytes "Q€Q€déép"%string)) /\
  map (fun d => seen (try_format_digits no_heap U8 (digit_set_zeroless d) 84)) [abc; chars "xyz"%string] =
    map (fun t => Ret (Ok (bytes t))) ["bcaa"; "yzxx"]%string /\
  seen (try_format_digits no_heap U32 Thai 20451) = Ret (Ok (utf8 (map (digit_of_script thai_zero) (chars "20451"%string)))).
Proof.
  split; [vm_compute; reflexivity|]. split; [reflexivity|]. split; [apply properb_proper; reflexivity|].
  split; [vm_compute; reflexivity|]. split; [vm_compute; reflexivity|]. split; vm_compute; reflexivity.
Qed.

(** ** C68: neighbours *)

(** The number written with one more digit, [x], at the end. *)
Definition with_digit (has_zero zero_based : bool) (b n x : N) : N :=
  if has_zero then n * b + x else if zero_based then (n + 1) * b + x else n * b + (x + 1).

Lemma value_snoc {A} (f : N -> A -> N) (l : list A) x a : fold_left f (l ++ [x]) a = f (fold_left f l a) x.
Proof. rewrite fold_left_app. reflexivity. Qed.

Lemma below_snoc b ds x : below b ds -> x < b -> below b (ds ++ [x]).
Proof. intros H Hx. apply Forall_app. split; [exact H|]. constructor; [exact Hx|constructor]. Qed.

Theorem C68_one_more_digit : forall c T d digits n x,
  valid_config c -> collects c d digits -> dc_fixed d = false ->
  enough (dc_has_zero_digit d) (N.of_nat (length digits)) -> fits c T (N.of_nat (length digits)) ->
  x < N.of_nat (length digits) ->
  fits c T (with_digit (dc_has_zero_digit d) (dc_zero_based d) (N.of_nat (length digits)) n x) ->
  (n = 0 -> dc_has_zero_digit d = false /\ dc_zero_based d = true) ->
  exists cs,
    prints c (try_format_digits c T d n) n cs /\
    prints c (try_format_digits c T d (with_digit (dc_has_zero_digit d) (dc_zero_based d) (N.of_nat (length digits)) n x))
      (with_digit (dc_has_zero_digit d) (dc_zero_based d) (N.of_nat (length digits)) n x) (cs ++ [digit_char digits x]).
Proof.
  intros c T d digits n x Hc Hcol Hf He Hfit Hx Hfn H0.
  assert (1 <= N.of_nat (length digits)) as Hb1 by (unfold enough in He; destruct (dc_has_zero_digit d); lia).
  assert (fits c T n) as Hn.
  { unfold fits, with_digit in *. destruct (dc_has_zero_digit d), (dc_zero_based d); nia. }
  destruct (digit_numeral_exists (dc_has_zero_digit d) (dc_zero_based d) digits n He) as (cs & Hcs).
  { intros Hz Hzb ->. destruct (H0 eq_refl) as [_ H]. congruence. }
  exists cs. split; [apply yields_prints; eapply format_numeral; eassumption|].
  apply yields_prints. eapply format_numeral; try eassumption.
  unfold digit_numeral, with_digit in *.
  destruct (dc_has_zero_digit d); [|destruct (dc_zero_based d)].
  - destruct Hcs as (ds & Hbe & Hca & Hv & ->). exists (ds ++ [x]).
    split; [apply below_snoc; assumption|]. split.
    { destruct ds as [|y [|z ds]]; [contradiction| |exact Hca]. cbn [app canonical]. unfold positional_value in Hv.
      cbn [fold_left] in Hv. destruct (N.eq_dec n 0) as [E|]; [destruct (H0 E); discriminate|]. lia. }
    split; [unfold positional_value in *; rewrite value_snoc; rewrite Hv; reflexivity|].
    rewrite map_app. reflexivity.
  - destruct Hcs as (ds & Hbe & Hv & ->). exists (ds ++ [x]).
    split; [apply below_snoc; assumption|].
    split; [unfold bijective_value in *; rewrite value_snoc; rewrite Hv; lia|].
    rewrite map_app. reflexivity.
  - destruct Hcs as (Hn0 & ds & Hbe & Hv & ->). split; [lia|]. exists (ds ++ [x]).
    split; [apply below_snoc; assumption|].
    split; [unfold bijective_value in *; rewrite value_snoc; rewrite Hv; reflexivity|].
    rewrite map_app. reflexivity.
Qed.
Print Assumptions C68_one_more_digit.

(** Counting on: the last digit that is not the highest goes up by one and
    those after it start again; if there is none, the numeral gets longer. The
    digits are listed last first. *)
Fixpoint count_on (has_zero : bool) (b : N) (ds : list N) : list N :=
  match ds with
  | [] => [if has_zero then 1 else 0]
  | x :: ds => if x + 1 <? b then (x + 1) :: ds else 0 :: count_on has_zero b ds
  end.

Lemma count_on_below z b ds : (if z : bool then 2 <= b else 1 <= b) -> below b ds -> below b (count_on z b ds).
Proof.
  intros Hb. induction 1 as [|x ds Hx Hds IH]; cbn [count_on].
  - constructor; [destruct z; lia|constructor].
  - destruct (N.ltb_spec (x + 1) b); constructor; try assumption. lia.
Qed.

Lemma count_on_positional b ds : 2 <= b -> below b ds ->
  positional_value b (rev (count_on true b ds)) = positional_value b (rev ds) + 1.
Proof.
  intros Hb. induction 1 as [|x ds Hx Hds IH]; [reflexivity|]. cbn [count_on].
  destruct (N.ltb_spec (x + 1) b); cbn [rev]; unfold positional_value in *; rewrite !value_snoc.
  - lia.
  - rewrite IH. nia.
Qed.

Lemma count_on_bijective b ds : 1 <= b -> below b ds ->
  bijective_value b (rev (count_on false b ds)) = bijective_value b (rev ds) + 1.
Proof.
  intros Hb. induction 1 as [|x ds Hx Hds IH]; [reflexivity|]. cbn [count_on].
  destruct (N.ltb_spec (x + 1) b); cbn [rev]; unfold bijective_value in *; rewrite !value_snoc.
  - lia.
  - rewrite IH. nia.
Qed.

Lemma canonical_head ds : canonical ds <-> ds <> [] /\ (hd 1 ds <> 0 \/ length ds = 1%nat).
Proof.
  destruct ds as [|x [|y ds]]; cbn; split; try tauto.
  - intros _. split; [discriminate|]. auto.
  - intros H. split; [discriminate|]. auto.
  - intros [_ [H|H]]; [exact H|discriminate].
Qed.

Lemma last_rev_hd (ds : list N) d : hd d (rev ds) = last ds d.
Proof.
  induction ds as [|x ds IH]; [reflexivity|]. cbn [rev]. destruct ds as [|y ds]; [reflexivity|].
  change (last (x :: y :: ds) d) with (last (y :: ds) d). rewrite <- IH.
  destruct (rev (y :: ds)) as [|z l] eqn:E; [|reflexivity].
  apply (f_equal (@length N)) in E. rewrite rev_length in E. discriminate.
Qed.

Lemma count_on_canonical b ds : 2 <= b -> below b ds -> canonical (rev ds) -> canonical (rev (count_on true b ds)).
Proof.
  intros Hb Hbe Hca. apply canonical_head in Hca as [Hne Hca]. rewrite last_rev_hd, rev_length in Hca.
  assert (ds <> []) as Hne' by (intros ->; apply Hne; reflexivity). clear Hne.
  apply canonical_head. rewrite last_rev_hd, rev_length.
  assert (forall ds, below b ds -> ds = [] \/ last ds 1 <> 0 \/ length ds = 1%nat ->
    last (count_on true b ds) 1 <> 0) as H.
  { clear - Hb. induction 1 as [|x ds Hx Hds IH]; intros Hl; cbn [count_on]; [cbn; lia|].
    destruct Hl as [Hl|Hl]; [discriminate|].
    destruct (N.ltb_spec (x + 1) b).
    - destruct ds as [|y ds]; [cbn; lia|]. destruct Hl as [Hl|Hl]; [exact Hl|discriminate].
    - destruct (count_on true b ds) as [|u l] eqn:E.
      { destruct ds as [|y ds]; cbn in E; [discriminate|]. destruct (y + 1 <? b); discriminate. }
      change (last (0 :: u :: l) 1) with (last (u :: l) 1). apply IH.
      destruct ds as [|y ds]; [auto|]. right. destruct Hl as [Hl|Hl]; [|discriminate]. left. exact Hl. }
  split.
  - destruct ds as [|x ds]; [contradiction|]. cbn [count_on]. destruct (x + 1 <? b); cbn [rev]; intros E;
      apply (f_equal (@length N)) in E; rewrite app_length in E; cbn in E; lia.
  - left. apply H; auto.
Qed.

Theorem C68_counting_on : forall c T d digits n,
  valid_config c -> collects c d digits -> dc_fixed d = false ->
  enough (dc_has_zero_digit d) (N.of_nat (length digits)) -> fits c T (N.of_nat (length digits)) ->
  fits c T (n + 1) ->
  (n = 0 -> dc_has_zero_digit d = true \/ dc_zero_based d = true) ->
  exists ds,
    prints c (try_format_digits c T d n) n (map (digit_char digits) (rev ds)) /\
    prints c (try_format_digits c T d (n + 1)) (n + 1)
      (map (digit_char digits) (rev (count_on (dc_has_zero_digit d) (N.of_nat (length digits)) ds))).
Proof.
  intros c T d digits n Hc Hcol Hf He Hfit Hn1 H0.
  assert (fits c T n) as Hn by (unfold fits in *; lia).
  destruct (digit_numeral_exists (dc_has_zero_digit d) (dc_zero_based d) digits n He) as (cs & Hcs).
  { intros Hz Hzb ->. destruct (H0 eq_refl); congruence. }
  assert (exists ds, digit_numeral (dc_has_zero_digit d) (dc_zero_based d) digits n (map (digit_char digits) (rev ds)) /\
    digit_numeral (dc_has_zero_digit d) (dc_zero_based d) digits (n + 1)
      (map (digit_char digits) (rev (count_on (dc_has_zero_digit d) (N.of_nat (length digits)) ds)))) as (ds & H1 & H2).
  { unfold digit_numeral, enough in *.
    assert (forall b ds, below b (rev ds) <-> below b ds) as Hrev.
    { intros b ds. unfold below. split; intros H; [rewrite <- (rev_involutive ds)|]; apply Forall_rev; exact H. }
    destruct (dc_has_zero_digit d); [|destruct (dc_zero_based d)].
    - destruct Hcs as (ds & Hbe & Hca & Hv & ->). exists (rev ds). rewrite rev_involutive.
      split; [exists ds; auto|]. exists (rev (count_on true (N.of_nat (length digits)) (rev ds))).
      split; [apply Hrev, count_on_below; [assumption|apply Hrev; assumption]|].
      split; [apply count_on_canonical; [assumption|apply Hrev; assumption|rewrite rev_involutive; assumption]|].
      split; [|reflexivity]. rewrite count_on_positional by (try apply Hrev; assumption). rewrite rev_involutive, Hv. reflexivity.
    - destruct Hcs as (ds & Hbe & Hv & ->). exists (rev ds). rewrite rev_involutive.
      split; [exists ds; auto|]. exists (rev (count_on false (N.of_nat (length digits)) (rev ds))).
      split; [apply Hrev, count_on_below; [assumption|apply Hrev; assumption]|].
      split; [|reflexivity]. rewrite count_on_bijective by (try apply Hrev; assumption). rewrite rev_involutive, Hv. reflexivity.
    - destruct Hcs as (Hn0 & ds & Hbe & Hv & ->). exists (rev ds). rewrite rev_involutive.
      split; [split; [assumption|exists ds; auto]|]. split; [lia|]. exists (rev (count_on false (N.of_nat (length digits)) (rev ds))).
      split; [apply Hrev, count_on_below; [assumption|apply Hrev; assumption]|].
      split; [|reflexivity]. rewrite count_on_bijective by (try apply Hrev; assumption). rewrite rev_involutive, Hv. reflexivity. }
  exists ds. split; apply yields_prints; eapply format_numeral; eassumption.
Qed.
Print Assumptions C68_counting_on.

(** Counting from one instead of from zero shifts the numerals by one. *)
Theorem C68_one_based_is_one_later : forall c T d digits n,
  valid_config c -> collects c d digits -> dc_fixed d = false ->
  dc_has_zero_digit d = false -> dc_zero_based d = true ->
  1 <= N.of_nat (length digits) -> fits c T (N.of_nat (length digits)) -> fits c T (n + 1) ->
  exists cs, prints c (try_format_digits c T d n) n cs /\
    prints c (try_format_digits c T (one_based d) (n + 1)) (n + 1) cs.
Proof.
  intros c T d digits n Hc Hcol Hf Hz Hzb Hb Hfit Hn1.
  assert (fits c T n) as Hn by (unfold fits in *; lia).
  destruct (C13_zeroless_counts_from_zero c T d digits n) as (cs & Hcs & Hp); try assumption.
  exists cs. split; [assumption|].
  pose proof (C14_one_based_counts_from_one c T d digits (n + 1) Hc Hcol Hz Hb Hfit Hn1) as H.
  destruct (N.eqb_spec (n + 1) 0); [lia|]. destruct H as (cs' & Hcs' & Hp').
  rewrite (bijective_numeral_fun _ _ _ _ Hcs Hcs'). assumption.
Qed.
Print Assumptions C68_one_based_is_one_later.

(** Adding the largest value of an additive set puts its symbol in front. *)
Theorem C68_one_more_symbol : forall c T s v tbl set n,
  valid_config c -> proper ((s, v) :: tbl) -> additive_set_new (encode ((s, v) :: tbl)) = Ret set -> v <> 0 ->
  fits c T (v + n) -> 1 <= n ->
  exists cs, prints c (try_format_additive c T set n) n cs /\
    prints c (try_format_additive c T set (v + n)) (v + n) (s ++ cs).
Proof.
  intros c T s v tbl set n Hc Hp Hset Hv Hn Hn1.
  assert (fits c T n) as Hn' by (unfold fits in *; lia).
  exists (gtext ((s, v) :: tbl) n). split; [apply yields_prints, additive_text; try assumption; lia|].
  replace (s ++ gtext ((s, v) :: tbl) n) with (gtext ((s, v) :: tbl) (v + n));
    [apply yields_prints, additive_text; try assumption; lia|].
  cbn [gtext]. destruct (N.eqb_spec v 0); [contradiction|].
  replace ((v + n) / v) with (N.succ (n / v)).
  2:{ replace (v + n) with (1 * v + n) by lia. rewrite N.div_add_l by assumption. lia. }
  replace ((v + n) mod v) with (n mod v).
  2:{ replace (v + n) with (n + 1 * v) by lia. rewrite N.mod_add by assumption. reflexivity. }
  unfold copies. rewrite N.iter_succ, app_assoc. reflexivity.
Qed.
Print Assumptions C68_one_more_symbol.

Example C68_case :
  count_on true 10 [9; 9; 4; 1] = [0; 0; 5; 1] /\ count_on true 10 [9; 9] = [0; 0; 1] /\ count_on false 26 [25; 25] = [0; 0; 0] /\
  map (fun n => seen (try_format_digits no_heap U16 LetterUpper n)) [701; 702] = map (fun t => Ret (Ok (bytes t))) ["ZZ"; "AAA"]%string /\
  with_digit false true 26 26 1 = 703 /\
  seen (try_format_digits no_heap U16 LetterUpper 26) = Ret (Ok (bytes "AA"%string)) /\
  seen (try_format_digits no_heap U16 LetterUpper 703) = Ret (Ok (bytes "AAB"%string)) /\
  seen (try_format_digits no_heap U16 (one_based LetterUpper) 704) = Ret (Ok (bytes "AAB"%string)) /\
  (set <- additive_set_new (encode coins) ;; seen (try_format_additive no_heap U8 set 94)) = Ret (Ok (bytes "Q€Q€Q€déép"%string)).
Proof. repeat (split; [vm_compute; reflexivity|]). vm_compute; reflexivity. Qed.
