(** * PropertiesSystem: C23 and C46-C51, all built-in systems together *)

From Coq Require Import String.
From Verif Require Import Prelude Utf8Facts StringFacts History Outcome PropertiesString DigitFacts DigitOrder DigitSets
  PropertiesDigital
  AdditiveFacts AdditiveSets PropertiesAdditive ScriptFacts PropertiesScripts ChineseNumeral PropertiesChinese
  Additive Enumerated Ethiopic Hebrew Chinese System Cases.

(** ** The built-in systems *)

Definition digit_collections : list digit_collection :=
  [Decimal; EasternArabic; Persian; Urdu; Bengali; Cambodian; Khmer; CjkDecimal; Devanagari; Gujarati; Gurmukhi;
   Kannada; Lao; Malayalam; Mongolian; Myanmar; Oriya; Tamil; Telugu; Thai; Tibetan;
   LetterUpper; LetterLower; GreekUpper; GreekLower; Hiragana; HiraganaIroha; Katakana; KatakanaIroha;
   HangeulJamo; HangeulSyllable].

Definition fixed_collections : list digit_collection := [CjkHeavenlyStem; CjkEarthlyBranch].

(** Every public system type of the crate: the digit collections, also counting
    from one, the additive, enumerated, Ethiopic and Hebrew systems, and the
    four Chinese systems with all their options. *)
Definition digit_systems : list system :=
  map (fun d c T => try_format_digits c T d) (digit_collections ++ fixed_collections) ++
  map (fun d c T => try_format_digits c T (one_based d)) (digit_collections ++ fixed_collections) ++
  [fun c T => try_format_digits c T (HexUpper c); fun c T => try_format_digits c T (HexLower c);
   fun c T => try_format_digits c T (one_based (HexUpper c)); fun c T => try_format_digits c T (one_based (HexLower c))].

Definition chinese_systems : list system :=
  flat_map (fun traditional => flat_map (fun formal => flat_map (fun u => map (fun sc =>
    chinese traditional formal {| usage := u; scale := sc |})
    [Short; Myriad; Mid; Long]) [Financial; Ordinary]) [true; false]) [true; false].

Definition builtin_systems : list system :=
  digit_systems ++
  [RomanUpper; RomanLower; ArmenianUpper; ArmenianLower; Georgian; JapaneseFormal; JapaneseInformal;
   HangeulFormal; HanjaInformal; HanjaFormal] ++
  [CircledNumber; DoubleCircledNumber; Ethiopic; Hebrew] ++ chinese_systems.

(** ** Every built-in system has one meaning per number *)

(** What a system says about a number. *)
Inductive meaning := Shows (cs : list N) | NoZero | TooBig.

Definition means (c : config) (r : outcome (result nominal_string error)) (n : N) (m : meaning) : Prop :=
  match m with
  | Shows cs => prints c r n cs
  | NoZero => n = 0 /\ r = Ret (Err NoZeroSymbol)
  | TooBig => r = Ret (Err (OutOfBounds n))
  end.

Definition consistent (sys : system) : Prop :=
  forall n, exists m, forall c T, valid_config c -> fits c T n -> means c (sys c T n) n m.

Lemma digits_consistent (d : config -> digit_collection) digits z zb :
  (forall c, valid_config c -> collects c (d c) digits /\ dc_fixed (d c) = false /\
     dc_has_zero_digit (d c) = z /\ dc_zero_based (d c) = zb) ->
  enough z (N.of_nat (length digits)) -> (length digits < 256)%nat ->
  consistent (fun c T => try_format_digits c T (d c)).
Proof.
  intros H He Hlen n.
  destruct (z || zb || negb (n =? 0)) eqn:Ez.
  - destruct (digit_numeral_exists z zb digits n He) as (cs & Hcs).
    { intros -> ->. cbn in Ez. destruct (N.eqb_spec n 0); [discriminate|assumption]. }
    exists (Shows cs). intros c T Hc Hn. destruct (H c Hc) as (Hcol & Hf & Hz & Hzb). cbn [means].
    apply yields_prints. eapply format_numeral; try eassumption; [apply small_fits; assumption|rewrite Hz; assumption|].
    rewrite Hz, Hzb. assumption.
  - exists NoZero. intros c T Hc Hn. destruct (H c Hc) as (Hcol & Hf & Hz & Hzb). cbn [means].
    apply orb_false_iff in Ez as [Ez En]. apply orb_false_iff in Ez as [-> ->].
    apply negb_false_iff, N.eqb_eq in En. rewrite En in *. split; [reflexivity|].
    unfold try_format_digits. destruct (depth_succ c Hc) as (k & ->).
    eapply format_digits_zero; try eassumption. apply small_fits; assumption.
Qed.

(** The table behind a built-in digit collection. *)
Definition plain_table (digits : list N) (d : digit_collection) : Prop :=
  (d = impl_digit_set (digit_set_new digits) /\ (2 <=? length digits)%nat = true \/
   d = impl_digit_set (digit_set_zeroless digits) /\ (1 <=? length digits)%nat = true) /\
  (length digits <? 256)%nat = true /\ forallb is_scalar digits = true.

Lemma plain_consistent digits d : plain_table digits d ->
  consistent (fun c T => try_format_digits c T d) /\ consistent (fun c T => try_format_digits c T (one_based d)).
Proof.
  intros (Hd & Hl & Hs).
  assert (forall c, valid_config c -> collects c d digits) as Hcol.
  { intros c Hc. apply builtin_collects; try assumption. destruct Hd as [[-> _]|[-> _]]; auto. }
  assert (enough (dc_has_zero_digit d) (N.of_nat (length digits))) as He.
  { destruct Hd as [[-> H]|[-> H]]; cbn; lia. }
  assert (dc_fixed d = false) as Hf by (destruct Hd as [[-> _]|[-> _]]; reflexivity).
  split.
  - apply (digits_consistent (fun _ => d) digits (dc_has_zero_digit d) (dc_zero_based d)); [|assumption|lia].
    intros c Hc. auto.
  - apply (digits_consistent (fun _ => one_based d) digits (dc_has_zero_digit d) false); [|assumption|lia].
    intros c Hc. split; [apply collects_one_based; auto|auto].
Qed.

Lemma plain_collections : Forall (fun d => exists digits, plain_table digits d) digit_collections.
Proof.
  repeat (apply Forall_cons; [eexists; split; [(left; split; [reflexivity|vm_compute; reflexivity]) + (right; split; [reflexivity|vm_compute; reflexivity])|split; vm_compute; reflexivity]|]).
  constructor.
Qed.

Lemma fixed_collects c : valid_config c -> collects c CjkHeavenlyStem stems /\ collects c CjkEarthlyBranch branches.
Proof.
  intros Hc. split;
    (split; [reflexivity|]; split; [|split; [apply small_length; [assumption|cbn; lia]|apply scalars_check; vm_compute; reflexivity]]);
    intros i Hi; cbn [dc_digit CjkHeavenlyStem CjkEarthlyBranch]; rewrite lookup_digit by exact Hi; reflexivity.
Qed.

Lemma fixed_consistent d symbols :
  (forall c T n, valid_config c -> fits c T n ->
    if n =? 0 then try_format_digits c T d n = Ret (Err NoZeroSymbol)
    else if n <=? N.of_nat (length symbols) then
      prints c (try_format_digits c T d n) n [digit_char symbols (n - 1)]
    else try_format_digits c T d n = try_format_digits c T CjkDecimal n) ->
  consistent (fun c T => try_format_digits c T d).
Proof.
  intros H n. destruct (N.eqb_spec n 0) as [->|Hn0]; [|destruct (N.leb_spec n (N.of_nat (length symbols))) as [Hle|Hgt]].
  - exists NoZero. intros c T Hc Hn. split; [reflexivity|]. exact (H c T 0 Hc Hn).
  - exists (Shows [digit_char symbols (n - 1)]). intros c T Hc Hn. specialize (H c T n Hc Hn).
    destruct (N.eqb_spec n 0); [contradiction|]. destruct (N.leb_spec n (N.of_nat (length symbols))); [exact H|lia].
  - assert (exists digits, plain_table digits CjkDecimal) as (digits & Hp).
    { pose proof plain_collections as Hall. rewrite Forall_forall in Hall. apply Hall. cbn. auto 10. }
    destruct (proj1 (plain_consistent _ _ Hp) n) as (m & Hm). exists m. intros c T Hc Hn. specialize (H c T n Hc Hn).
    destruct (N.eqb_spec n 0); [contradiction|]. destruct (N.leb_spec n (N.of_nat (length symbols))); [lia|].
    rewrite H. apply Hm; assumption.
Qed.

Lemma additive_consistent sys tbl : table_ok sys tbl -> consistent sys.
Proof.
  intros [Hs Hg] n. destruct (N.eqb_spec n 0) as [->|Hn0].
  - destruct (zero_of tbl) as [z|] eqn:Ez.
    + exists (Shows z). intros c T Hc Hn. apply yields_prints. eapply system_zero; eassumption.
    + exists NoZero. intros c T Hc Hn. split; [reflexivity|]. eapply system_no_zero; eassumption.
  - exists (Shows (gtext tbl n)). intros c T Hc Hn. apply yields_prints. eapply system_positive; eassumption.
Qed.

Lemma circled_consistent : consistent CircledNumber.
Proof.
  intros n. destruct (N.leb_spec n 50) as [H|H].
  - exists (Shows [circled n]). intros c T Hc _. apply (C33_circled c T n Hc). assumption.
  - exists TooBig. intros c T Hc _. apply (C33_circled c T n Hc). assumption.
Qed.

Lemma double_circled_consistent : consistent DoubleCircledNumber.
Proof.
  intros n. destruct (N.eqb_spec n 0) as [->|Hn0]; [|destruct (N.leb_spec n 10) as [H|H]].
  - exists NoZero. intros c T Hc _. split; [reflexivity|]. apply (C33_double_circled c T 0 Hc).
  - exists (Shows [double_circled n]). intros c T Hc _. apply (C33_double_circled c T n Hc). lia.
  - exists TooBig. intros c T Hc _. apply (C33_double_circled c T n Hc). assumption.
Qed.

Lemma ethiopic_consistent : consistent Ethiopic.
Proof.
  intros n. destruct (N.eqb_spec n 0) as [->|Hn0].
  - exists NoZero. intros c T _ _. split; [reflexivity|]. apply C34_no_zero.
  - destruct (ethiopic_numeral_exists n) as (cs & Hcs). exists (Shows cs). intros c T Hc Hn.
    apply yields_prints, ethiopic_yields; assumption.
Qed.

Lemma hebrew_consistent : consistent Hebrew.
Proof.
  intros n. destruct (N.eqb_spec n 0) as [->|Hn0].
  - exists NoZero. intros c T _ _. split; [reflexivity|]. apply C36_no_zero.
  - exists (Shows (hebrew_numeral n)). intros c T Hc Hn. apply yields_prints, hebrew_yields; assumption.
Qed.

Lemma chinese_consistent traditional formal o : consistent (chinese traditional formal o).
Proof.
  intros n.
  destruct (match scale o with Short => 10 ^ 15 <=? n | _ => false end) eqn:E.
  - exists TooBig. intros c T Hc Hn. cbn [means].
    destruct (scale o) eqn:Es; try discriminate. apply N.leb_le in E. apply chinese_out; assumption.
  - exists (Shows (write (script traditional o) (chinese_t formal (scale o) n))). intros c T Hc Hn.
    apply yields_prints, chinese_writes; try assumption. intros Es. rewrite Es in E. apply N.leb_gt in E. exact E.
Qed.

Lemma builtin_consistent sys : In sys builtin_systems -> consistent sys.
Proof.
  intros H. unfold builtin_systems, digit_systems in H. rewrite !in_app_iff in H.
  pose proof plain_collections as Hplain. rewrite Forall_forall in Hplain.
  assert (forall d, In d (digit_collections ++ fixed_collections) ->
    consistent (fun c T => try_format_digits c T d) /\ consistent (fun c T => try_format_digits c T (one_based d))) as Hcoll.
  { intros d Hd. apply in_app_iff in Hd as [Hd|Hd].
    - destruct (Hplain d Hd) as (digits & Hp). eapply plain_consistent, Hp.
    - pose proof C18_stems_and_branches as H18. rewrite Forall_forall in H18.
      destruct Hd as [<-|[<-|[]]].
      + split; [apply (fixed_consistent _ stems), (H18 (CjkHeavenlyStem, stems)); left; reflexivity|].
        apply (digits_consistent (fun _ => one_based CjkHeavenlyStem) stems false false); [|vm_compute; discriminate|cbn; lia].
        intros c Hc. split; [apply collects_one_based; apply (fixed_collects c Hc)|auto].
      + split; [apply (fixed_consistent _ branches), (H18 (CjkEarthlyBranch, branches)); right; left; reflexivity|].
        apply (digits_consistent (fun _ => one_based CjkEarthlyBranch) branches false false); [|vm_compute; discriminate|cbn; lia].
        intros c Hc. split; [apply collects_one_based; apply (fixed_collects c Hc)|auto]. }
  destruct H as [[H|[H|H]]|[H|[H|H]]].
  - apply in_map_iff in H as (d & <- & Hd). apply Hcoll, Hd.
  - apply in_map_iff in H as (d & <- & Hd). apply Hcoll, Hd.
  - assert (forall c, valid_config c -> collects c (HexUpper c) hex_capitals /\ collects c (HexLower c) hex_smalls) as Hhex.
    { intros c Hc. split; refine (hex_collects c _ Hc _ _ _); vm_compute; reflexivity. }
    destruct H as [<-|[<-|[<-|[<-|[]]]]].
    + apply (digits_consistent HexUpper hex_capitals true true); [|vm_compute; discriminate|cbn; lia].
      intros c Hc. split; [apply (Hhex c Hc)|auto].
    + apply (digits_consistent HexLower hex_smalls true true); [|vm_compute; discriminate|cbn; lia].
      intros c Hc. split; [apply (Hhex c Hc)|auto].
    + apply (digits_consistent (fun c => one_based (HexUpper c)) hex_capitals true false); [|vm_compute; discriminate|cbn; lia].
      intros c Hc. split; [apply collects_one_based; apply (Hhex c Hc)|auto].
    + apply (digits_consistent (fun c => one_based (HexLower c)) hex_smalls true false); [|vm_compute; discriminate|cbn; lia].
      intros c Hc. split; [apply collects_one_based; apply (Hhex c Hc)|auto].
  - pose proof additive_systems_ok as Hok. rewrite Forall_forall in Hok.
    assert (In sys (map fst additive_systems)) as Hin by exact H.
    apply in_map_iff in Hin as ([s tbl] & <- & Hin). eapply additive_consistent. exact (Hok _ Hin).
  - destruct H as [<-|[<-|[<-|[<-|[]]]]];
      [apply circled_consistent|apply double_circled_consistent|apply ethiopic_consistent|apply hebrew_consistent].
  - unfold chinese_systems in H. apply in_flat_map in H as (traditional & _ & H). apply in_flat_map in H as (formal & _ & H).
    apply in_flat_map in H as (u & _ & H). apply in_map_iff in H as (sc & <- & _). apply chinese_consistent.
Qed.

(** ** C23 *)

(** Two outcomes look alike to the caller. *)
Definition same_outcome (r r' : outcome (result nominal_string error)) : Prop :=
  (exists s s' text, r = Ret (Ok s) /\ r' = Ret (Ok s') /\ as_str s = Ret text /\ as_str s' = Ret text) \/
  (exists e, r = Ret (Err e) /\ r' = Ret (Err e)).

Theorem C23_integer_type_does_not_matter : forall sys c T T' n,
  In sys builtin_systems -> valid_config c -> fits c T n -> fits c T' n ->
  same_outcome (sys c T n) (sys c T' n).
Proof.
  intros sys c T T' n Hin Hc H H'. destruct (builtin_consistent sys Hin n) as (m & Hm).
  pose proof (Hm c T Hc H) as M. pose proof (Hm c T' Hc H') as M'. clear Hm. unfold same_outcome.
  destruct m as [cs| |]; cbn [means] in M, M'.
  - unfold prints in *. destruct (has_alloc c || at_most_62 (utf8 cs)).
    + left. destruct M as (s & E & Es & _), M' as (s' & E' & Es' & _). exists s, s', (utf8 cs). auto.
    + right. eauto.
  - right. destruct M as [_ M], M' as [_ M']. eauto.
  - right. eauto.
Qed.
Print Assumptions C23_integer_type_does_not_matter.

Example C23_case :
  In Hebrew builtin_systems /\ fits no_heap U8 115 /\ fits no_heap U128 115 /\
  seen (Hebrew no_heap U8 115) = Ret (Ok (bytes "קט״ו"%string)) /\ seen (Hebrew no_heap U128 115) = Ret (Ok (bytes "קט״ו"%string)) /\
  CircledNumber no_heap U8 51 = Ret (Err (OutOfBounds 51)) /\ CircledNumber no_heap U64 51 = Ret (Err (OutOfBounds 51)).
Proof.
  split; [unfold builtin_systems; rewrite !in_app_iff; right; right; left; cbn; auto|]. repeat split; vm_compute; reflexivity.
Qed.

(** ** C46 *)

Theorem C46_errors_tell_the_truth : forall sys c T n e,
  In sys builtin_systems -> valid_config c -> fits c T n -> sys c T n = Ret (Err e) ->
  e = NoZeroSymbol /\ n = 0 \/ e = OutOfBounds n \/ e = OutOfMemory n /\ has_alloc c = false.
Proof.
  intros sys c T n e Hin Hc H E. destruct (builtin_consistent sys Hin n) as (m & Hm).
  specialize (Hm c T Hc H). rewrite E in Hm. destruct m as [cs| |]; cbn [means] in Hm.
  - unfold prints in Hm. destruct (has_alloc c); cbn [orb] in Hm.
    + destruct Hm as (s & E' & _). discriminate.
    + destruct (at_most_62 (utf8 cs)); [destruct Hm as (s & E' & _); discriminate|]. injection Hm as ->. auto.
  - destruct Hm as [-> Hm]. injection Hm as ->. auto.
  - injection Hm as ->. auto.
Qed.
Print Assumptions C46_errors_tell_the_truth.

Example C46_case :
  Hebrew no_heap U8 0 = Ret (Err NoZeroSymbol) /\
  DoubleCircledNumber on_heap U16 11 = Ret (Err (OutOfBounds 11)) /\
  fits no_heap U128 (10 ^ 8 - 1) /\
  chinese true true {| usage := Ordinary; scale := Short |} on_heap U64 (10 ^ 15) = Ret (Err (OutOfBounds (10 ^ 15))) /\
  RomanLower no_heap U128 (10 ^ 8 - 1) = Ret (Err (OutOfMemory (10 ^ 8 - 1))).
Proof. repeat split; vm_compute; reflexivity. Qed.

(** ** C47 *)

(** Plain decimal numerals. *)
Definition decimal_numeral (n : N) (cs : list N) : Prop := positional_numeral (ten_from ascii_zero) n cs.

Lemma fits_128 c T n : valid_config c -> fits c T n -> n < 2 ^ 128.
Proof.
  intros [Hb _] Hn. unfold fits in Hn.
  assert (bits c T <= 128) as Hle by (destruct T; cbn [bits]; lia).
  pose proof (N.pow_le_mono_r 2 _ _ ltac:(lia) Hle). lia.
Qed.

Lemma ascii_digits_len ds : below 10 ds -> utf8_len (map (digit_char (ten_from ascii_zero)) ds) = N.of_nat (length ds).
Proof.
  induction 1 as [|d ds Hd _ IH]; [reflexivity|]. cbn [map]. rewrite utf8_len_cons, IH. cbn [length].
  assert (len_utf8 (digit_char (ten_from ascii_zero) d) = 1) as ->; [|lia].
  unfold digit_char. assert (N.to_nat d < 10)%nat as H by lia. revert H. generalize (N.to_nat d). intros k H.
  do 10 (destruct k as [|k]; [reflexivity|]). lia.
Qed.

Lemma decimal_short n cs : n < 2 ^ 128 -> decimal_numeral n cs -> at_most_62 (utf8 cs) = true.
Proof.
  intros Hn (ds & Hb & Hc & Hv & ->). change (N.of_nat (length (ten_from ascii_zero))) with 10 in *.
  unfold at_most_62. apply Nat.leb_le. pose proof (ascii_digits_len ds Hb) as Hl. unfold utf8_len in Hl.
  assert (length ds <= 39)%nat; [|lia].
  destruct ds as [|d ds]; [cbn; lia|].
  destruct (Nat.leb_spec (length ds) 38) as [?|Hlong]; [cbn; lia|exfalso].
  rewrite positional_value_cons in Hv.
  assert (d <> 0) by (destruct ds; [cbn in Hlong; lia|exact Hc]).
  assert (10 ^ 39 <= 10 ^ N.of_nat (length ds)) as Hp by (apply N.pow_le_mono_r; lia).
  assert (2 ^ 128 < 10 ^ 39) by (vm_compute; reflexivity).
  assert (1 * 10 ^ N.of_nat (length ds) <= d * 10 ^ N.of_nat (length ds)) by (apply N.mul_le_mono_r; lia). lia.
Qed.

Lemma decimal_prints c T n : valid_config c -> fits c T n ->
  exists cs, decimal_numeral n cs /\ prints c (try_format_digits c T Decimal n) n cs.
Proof.
  intros Hc Hn. pose proof C16_decimal_scripts as H. apply Forall_inv in H. apply (H c T n Hc Hn).
Qed.

Theorem C47_unwrap_or_decimal : forall c T n,
  valid_config c -> fits c T n ->
  (forall s, unwrap_or_decimal c T (Ok s) = Ret s) /\
  forall e, (e = NoZeroSymbol /\ n = 0 \/ e = OutOfBounds n \/ e = OutOfMemory n) ->
    exists s cs, unwrap_or_decimal c T (Err e) = Ret s /\ decimal_numeral n cs /\ as_str s = Ret (utf8 cs).
Proof.
  intros c T n Hc Hn. split; [reflexivity|]. intros e He. unfold unwrap_or_decimal.
  assert (forall fallback, exists s cs, (r <- try_format_digits c T Decimal n ;;
      match r with Ok s => Ret s | Err e => fallback e end) = Ret s /\
      decimal_numeral n cs /\ as_str s = Ret (utf8 cs)) as Hdec.
  { intros fallback. destruct (decimal_prints c T n Hc Hn) as (cs & Hd & Hp). unfold prints in Hp.
    rewrite (decimal_short n cs (fits_128 c T n Hc Hn) Hd), orb_true_r in Hp. destruct Hp as (s & -> & Es & _).
    exists s, cs. auto. }
  destruct (depth_succ c Hc) as (k & ->).
  destruct He as [[-> ->]|[->| ->]]; [|apply (Hdec (into_decimal (S k) c T))|apply (Hdec (into_decimal (S k) c T))].
  destruct (from_char_text c 48 eq_refl) as (s & E & Ht). exists s, [48]. split; [exact E|]. split.
  - exact (single_positional (ten_from ascii_zero) 0 eq_refl).
  - eapply rep_str, Ht.
Qed.
Print Assumptions C47_unwrap_or_decimal.

(** No system of the crate has its own [format_nominal]. *)
Theorem C47_to_nominal_never_fails : forall sys c T n,
  In sys builtin_systems -> valid_config c -> fits c T n ->
  let system := default_system c T (sys c T) in
  exists s, to_nominal n system = Ret s /\
    (try_to_nominal n system = Ret (Ok s) \/
     exists e cs, try_to_nominal n system = Ret (Err e) /\ decimal_numeral n cs /\ as_str s = Ret (utf8 cs)).
Proof.
  intros sys c T n Hin Hc Hn system. unfold system, to_nominal, try_to_nominal, default_system.
  cbn [format_nominal try_format_nominal]. destruct (builtin_consistent sys Hin n) as (m & Hm).
  specialize (Hm c T Hc Hn).
  assert ((exists s, sys c T n = Ret (Ok s)) \/ exists e, sys c T n = Ret (Err e)) as [(s & E)|(e & E)].
  { destruct m as [cs| |]; cbn [means] in Hm; [|destruct Hm as [_ Hm]; eauto|eauto].
    unfold prints in Hm. destruct (has_alloc c || at_most_62 (utf8 cs)); [destruct Hm as (s & E & _)|]; eauto. }
  - exists s. rewrite E. auto.
  - rewrite E. cbn [obind]. destruct (proj2 (C47_unwrap_or_decimal c T n Hc Hn) e) as (s & cs & Es & Hd & Hs).
    { destruct (C46_errors_tell_the_truth sys c T n e Hin Hc Hn E) as [?|[?|[? _]]]; auto. }
    exists s. split; [exact Es|]. right. exists e, cs. auto.
Qed.
Print Assumptions C47_to_nominal_never_fails.

Example C47_case :
  (s <- to_nominal 2023 (default_system no_heap U16 (RomanUpper no_heap U16)) ;; as_str s) = Ret (bytes "MMXXIII"%string) /\
  (s <- to_nominal 0 (default_system no_heap U16 (Ethiopic no_heap U16)) ;; as_str s) = Ret (bytes "0"%string) /\
  (s <- to_nominal 51 (default_system no_heap U16 (CircledNumber no_heap U16)) ;; as_str s) = Ret (bytes "51"%string) /\
  (s <- to_nominal (2 ^ 128 - 1) (default_system no_heap U128 (Hebrew no_heap U128)) ;; as_str s) =
    Ret (bytes "340282366920938463463374607431768211455"%string).
Proof. repeat split; vm_compute; reflexivity. Qed.

(** ** C48: false of the code for [format_nominal] *)

Theorem C48_boxed_try_format : forall c T inner n,
  try_format_nominal (boxed c T inner) n = try_format_nominal inner n /\
  try_to_nominal n (boxed c T inner) = try_to_nominal n inner.
Proof. split; reflexivity. Qed.
Print Assumptions C48_boxed_try_format.

Lemma boxed_many c T try_format k :
  Nat.iter k (boxed c T) (default_system c T try_format) = default_system c T try_format.
Proof.
  induction k as [|k IH]; [reflexivity|].
  change (Nat.iter (S k) (boxed c T) ?s) with (boxed c T (Nat.iter k (boxed c T) s)). rewrite IH. reflexivity.
Qed.

(** Full statement: for every implementor. What holds: for those that do not
    override [format_nominal], boxed any number of times. *)
Theorem C48_boxed_format_partial : forall c T try_format k n,
  let system := default_system c T try_format in
  format_nominal (Nat.iter k (boxed c T) system) n = format_nominal system n /\
  to_nominal n (Nat.iter k (boxed c T) system) = to_nominal n system.
Proof.
  intros c T try_format k n system. subst system. rewrite !boxed_many. auto.
Qed.
Print Assumptions C48_boxed_format_partial.

(** What a box always shows: the decimal fallback, never the implementor's own. *)
Theorem C48_box_ignores_own_format : forall c T inner n,
  format_nominal (boxed c T inner) n =
    (r <- try_format_nominal inner n ;; match r with Ok s => Ret s | Err e => unwrap_or_decimal c T (Err e) end).
Proof. intros. reflexivity. Qed.
Print Assumptions C48_box_ignores_own_format.

(** An implementor that prints a dash where it has no numeral. *)
Definition dashing (c : config) (T : uint) : nominal_system :=
  {| try_format_nominal := Hebrew c T;
     format_nominal := fun n =>
       r <- Hebrew c T n ;; match r with Ok s => Ret s | Err _ => from_char c 45 end |}.

Theorem C48_refuted : exists c T inner n s s',
  valid_config c /\ fits c T n /\
  format_nominal inner n = Ret s /\ format_nominal (boxed c T inner) n = Ret s' /\ as_str s <> as_str s'.
Proof.
  exists on_heap, U8, (dashing on_heap U8), 0. eexists. eexists. split; [exact on_heap_valid|].
  split; [reflexivity|]. split; [vm_compute; reflexivity|]. split; [vm_compute; reflexivity|]. vm_compute. discriminate.
Qed.
Print Assumptions C48_refuted.

Example C48_case :
  let system := default_system no_heap U8 (Hebrew no_heap U8) in
  (s <- format_nominal (boxed no_heap U8 (boxed no_heap U8 system)) 16 ;; as_str s) = Ret (bytes "ט״ז"%string) /\
  (s <- format_nominal (boxed no_heap U8 system) 0 ;; as_str s) = Ret (bytes "0"%string) /\
  (s <- format_nominal (dashing no_heap U8) 0 ;; as_str s) = Ret (bytes "-"%string) /\
  (s <- format_nominal (boxed no_heap U8 (dashing no_heap U8)) 0 ;; as_str s) = Ret (bytes "0"%string).
Proof. repeat split; vm_compute; reflexivity. Qed.

(** ** C49 *)

Theorem C49_alloc_matters_beyond_62_bytes : forall sys ca cn T n,
  In sys builtin_systems -> valid_config ca -> valid_config cn -> has_alloc ca = true -> has_alloc cn = false ->
  fits ca T n -> fits cn T n ->
  (exists s text, sys ca T n = Ret (Ok s) /\ as_str s = Ret text /\
    if at_most_62 text then exists s', sys cn T n = Ret (Ok s') /\ as_str s' = Ret text
    else sys cn T n = Ret (Err (OutOfMemory n))) \/
  exists e, sys ca T n = Ret (Err e) /\ sys cn T n = Ret (Err e).
Proof.
  intros sys ca cn T n Hin Hca Hcn Ha Hna Hfa Hfn. destruct (builtin_consistent sys Hin n) as (m & Hm).
  pose proof (Hm ca T Hca Hfa) as Ma. pose proof (Hm cn T Hcn Hfn) as Mn. clear Hm.
  destruct m as [cs| |]; cbn [means] in Ma, Mn.
  - left. unfold prints in *. rewrite Ha, Hna in *. cbn [orb] in *. destruct Ma as (s & E & Es & _).
    exists s, (utf8 cs). split; [exact E|]. split; [exact Es|].
    destruct (at_most_62 (utf8 cs)); [destruct Mn as (s' & E' & Es' & _); eauto|exact Mn].
  - right. destruct Ma as [_ Ma], Mn as [_ Mn]. eauto.
  - right. eauto.
Qed.
Print Assumptions C49_alloc_matters_beyond_62_bytes.

Example C49_case :
  fits on_heap U128 (10 ^ 8 - 1) /\ fits no_heap U128 (10 ^ 8 - 1) /\
  seen (HanjaFormal no_heap U128 9876) = seen (HanjaFormal on_heap U128 9876) /\
  seen (RomanLower on_heap U128 (10 ^ 8 - 1)) <> seen (RomanLower no_heap U128 (10 ^ 8 - 1)) /\
  RomanLower no_heap U128 (10 ^ 8 - 1) = Ret (Err (OutOfMemory (10 ^ 8 - 1))).
Proof.
  split; [reflexivity|]. split; [reflexivity|]. split; [vm_compute; reflexivity|].
  split; [vm_compute; discriminate|vm_compute; reflexivity].
Qed.

(** ** C50: false of the code *)

(** Full statement: without alloc, a text over 62 bytes is always reported as
    [OutOfMemory]. What holds: it is for positive numbers of an additive set. *)
Theorem C50_additive_partial : forall c T tbl set n,
  valid_config c -> proper tbl -> additive_set_new (encode tbl) = Ret set ->
  fits c T n -> 1 <= n -> has_alloc c = false ->
  exists counts lost, worth tbl counts + lost = n /\ largest_first_losing lost tbl counts /\
    ((62 < length (utf8 (spell tbl counts)))%nat <-> try_format_additive c T set n = Ret (Err (OutOfMemory n))).
Proof.
  intros c T tbl set n Hc Hp Hset Hn Hn1 Hna.
  destruct (C26_remainder_partial c T tbl set n) as (counts & lost & Hw & Hl & _ & Hpr); try assumption.
  exists counts, lost. split; [exact Hw|]. split; [exact Hl|]. unfold prints in Hpr. rewrite Hna in Hpr. cbn [orb] in Hpr.
  unfold at_most_62 in Hpr. destruct (Nat.leb_spec (length (utf8 (spell tbl counts))) 62) as [H|H].
  - destruct Hpr as (s & -> & _). split; [lia|discriminate].
  - split; auto.
Qed.
Print Assumptions C50_additive_partial.

(** Where it fails: the symbol for zero, and every symbol of an enumerated set. *)
Theorem C50_zero_symbol_panics : forall c T tbl zero set,
  Forall (fun ch => is_scalar ch = true) zero -> additive_set_new (encode (tbl ++ [(zero, 0)])) = Ret set ->
  try_format_additive c T set 0 = Panic <-> has_alloc c = false /\ (62 < length (utf8 zero))%nat.
Proof.
  intros c T tbl zero set Hz Hset. rewrite <- C07_from_str_panics_iff by (apply valid_utf8_utf8; exact Hz).
  unfold additive_set_new in Hset. destruct (descending _); [|discriminate]. injection Hset as <-.
  unfold try_format_additive. rewrite zero_of_encode. unfold zero_of. rewrite rev_app_distr. cbn.
  destruct (from_str c (utf8 zero)); cbn; split; intros H; try discriminate H; reflexivity.
Qed.
Print Assumptions C50_zero_symbol_panics.

Theorem C50_enumerated_panics : forall c T symbols (zero : bool) n sym,
  valid_config c -> N.of_nat (length symbols) < 2 ^ usize_bits c ->
  Forall (fun ch => is_scalar ch = true) sym ->
  nth_error symbols (N.to_nat (if zero then n else n - 1)) = Some (utf8 sym) -> (zero = false -> 1 <= n) ->
  try_format_enumerated c T ((if zero then enumerated_new else enumerated_zeroless) symbols) n = Panic <->
    has_alloc c = false /\ (62 < length (utf8 sym))%nat.
Proof.
  intros c T symbols zero n sym Hc Hlen Hs Hsym Hz. rewrite <- C07_from_str_panics_iff by (apply valid_utf8_utf8; exact Hs).
  assert (N.to_nat (if zero then n else n - 1) < length symbols)%nat as Hlt.
  { apply nth_error_Some. rewrite Hsym. discriminate. }
  assert (try_format_enumerated c T ((if zero then enumerated_new else enumerated_zeroless) symbols) n =
    (s <- from_str c (utf8 sym) ;; Ret (Ok s))) as ->.
  { unfold try_format_enumerated. rewrite try_from_fits; [|unfold fits; cbn [bits]; destruct zero; lia].
    assert (es_symbols ((if zero then enumerated_new else enumerated_zeroless) symbols) = symbols) as -> by (destruct zero; reflexivity).
    assert (es_has_zero ((if zero then enumerated_new else enumerated_zeroless) symbols) = zero) as -> by (destruct zero; reflexivity).
    assert (negb zero && is_zero n = false) as ->.
    { unfold is_zero. destruct zero; [reflexivity|]. specialize (Hz eq_refl). destruct (N.eqb_spec n 0); [lia|reflexivity]. }
    rewrite usub_le by (destruct zero; [lia|auto]). cbn [obind]. unfold lookup.
    replace (n - (if zero then 0 else 1)) with (if zero then n else n - 1) by (destruct zero; lia).
    destruct (N.ltb_spec (if zero then n else n - 1) (N.of_nat (length symbols))); [|lia]. rewrite Hsym. reflexivity. }
  destruct (from_str c (utf8 sym)); cbn; split; intros H; try discriminate H; reflexivity.
Qed.
Print Assumptions C50_enumerated_panics.

(** 63 letters. *)
Definition long_word : list N := repeat 0x61 63.

Theorem C50_refuted : exists c T set enumerated,
  valid_config c /\ has_alloc c = false /\
  additive_set_new [(utf8 long_word, 0)] = Ret set /\ try_format_additive c T set 0 = Panic /\
  enumerated = enumerated_new [utf8 long_word] /\ try_format_enumerated c T enumerated 0 = Panic.
Proof.
  exists no_heap, U8. eexists. eexists. split; [exact no_heap_valid|]. split; [reflexivity|].
  split; [reflexivity|]. split; [vm_compute; reflexivity|]. split; [reflexivity|]. vm_compute; reflexivity.
Qed.
Print Assumptions C50_refuted.

Example C50_case :
  let tbl := [(long_word, 5); (chars "i"%string, 1); (long_word, 0)] in
  proper tbl /\
  (set <- additive_set_new (encode tbl) ;; seen (try_format_additive no_heap U8 set 7)) = Ret (Err (OutOfMemory 7)) /\
  (set <- additive_set_new (encode tbl) ;; seen (try_format_additive no_heap U8 set 4)) = Ret (Ok (bytes "iiii"%string)) /\
  (set <- additive_set_new (encode tbl) ;; seen (try_format_additive no_heap U8 set 0)) = Panic /\
  (set <- additive_set_new (encode tbl) ;; seen (try_format_additive on_heap U8 set 0)) = Ret (Ok (utf8 long_word)) /\
  try_format_enumerated no_heap U8 (enumerated_zeroless [bytes "i"%string; utf8 long_word]) 2 = Panic.
Proof. split; [apply properb_proper; vm_compute; reflexivity|]. repeat split; vm_compute; reflexivity. Qed.

(** ** C51 *)

Theorem C51_always_returns : forall sys c T n,
  In sys builtin_systems -> valid_config c -> fits c T n ->
  (exists s text, sys c T n = Ret (Ok s) /\ as_str s = Ret text) \/ exists e, sys c T n = Ret (Err e).
Proof.
  intros sys c T n Hin Hc Hn.
  destruct (C23_integer_type_does_not_matter sys c T T n Hin Hc Hn Hn) as [(s & _ & text & E & _ & Es & _)|(e & E & _)]; eauto.
Qed.
Print Assumptions C51_always_returns.

Example C51_case :
  length builtin_systems = 116%nat /\
  forallb (fun sys : system => match seen (sys on_heap U128 (2 ^ 128 - 1)) with Ret _ => true | _ => false end)
    [Ethiopic; chinese true false {| usage := Financial; scale := Long |};
     fun c T => try_format_digits c T (one_based HangeulJamo); CircledNumber] = true.
Proof. split; vm_compute; reflexivity. Qed.
