(** * PropertiesSize: C54 and C55, how long the texts are *)

From Coq Require Import String.
From Verif Require Import Prelude Utf8Facts StringFacts History Outcome DigitFacts DigitOrder DigitSets
  PropertiesDigital AdditiveFacts AdditiveSets PropertiesAdditive ScriptFacts PropertiesScripts ChineseSigns ChineseNumeral
  PropertiesChinese PropertiesSystem PropertiesDistinct Additive Enumerated Ethiopic Hebrew Chinese System Cases.

(** Of a number below [10^k] the system prints at most [bound k] bytes. *)
Definition bounded (sys : system) (bound : nat -> N) : Prop :=
  forall n k, (1 <= k)%nat -> n < 10 ^ N.of_nat k -> n < 2 ^ 128 ->
  exists m, match m with Shows cs => utf8_len cs <= bound k | _ => True end /\
    forall c T, valid_config c -> fits c T n -> means c (sys c T n) n m.

Lemma bounded_weaken sys b b' : (forall k, (1 <= k)%nat -> b k <= b' k) -> bounded sys b -> bounded sys b'.
Proof.
  intros Hb H n k Hk Hn Hlt. destruct (H n k Hk Hn Hlt) as (m & Hm & Hall). exists m. split; [|exact Hall].
  destruct m; auto. specialize (Hb k Hk). lia.
Qed.

Lemma width_bound w cs : Forall (fun ch => len_utf8 ch <= w) cs -> utf8_len cs <= w * N.of_nat (length cs).
Proof.
  induction 1 as [|x cs Hx _ IH]; [cbn; lia|]. rewrite utf8_len_cons. cbn [length]. nia.
Qed.

(** ** Digits *)

Lemma least_pow b k : 10 <= b -> 10 ^ N.of_nat k < least b (S k) \/ k = O.
Proof.
  intros Hb. destruct k as [|k]; [right; reflexivity|left]. rewrite !least_step.
  assert (10 ^ N.of_nat (S k) <= b ^ N.of_nat (S k)) by (apply N.pow_le_mono_l; lia).
  assert (0 < b ^ N.of_nat k) by (apply N.neq_0_lt_0, N.pow_nonzero; lia). lia.
Qed.

Lemma digit_numeral_length z zb digits n cs k : (10 <= length digits)%nat -> (1 <= k)%nat -> n < 10 ^ N.of_nat k ->
  digit_numeral z zb digits n cs -> (length cs <= k)%nat.
Proof.
  intros Hl Hk Hn H. set (b := N.of_nat (length digits)). assert (10 <= b) as Hb by (unfold b; lia).
  assert (forall m, m <= 10 ^ N.of_nat k -> bijective_numeral digits m cs -> (length cs <= k)%nat) as Hbij.
  { intros m Hm (ds & Hbel & Hv & ->). rewrite map_length. fold b in Hv.
    destruct (Nat.leb_spec (length ds) k) as [?|Hlong]; [assumption|exfalso].
    rewrite bijective_positional in Hv. pose proof (least_mono b (S k) (length ds) Hlong).
    destruct (least_pow b k Hb); lia. }
  unfold digit_numeral in H. destruct z; [|destruct zb].
  - destruct H as (ds & Hbel & Hc & Hv & ->). rewrite map_length.
    apply (positional_length b ds n); [lia|assumption|assumption| |lia].
    apply N.lt_le_trans with (10 ^ N.of_nat k); [assumption|apply N.pow_le_mono_l; lia].
  - apply (Hbij (n + 1)); [lia|assumption].
  - destruct H as [_ H]. apply (Hbij n); [lia|assumption].
Qed.

Definition wide_digits (digits : list N) : bool :=
  (10 <=? length digits)%nat && (length digits <? 256)%nat && forallb (fun ch => len_utf8 ch <=? 3) digits.

Lemma numeral_bytes z zb digits n cs k : wide_digits digits = true -> (1 <= k)%nat -> n < 10 ^ N.of_nat k ->
  digit_numeral z zb digits n cs -> utf8_len cs <= 3 * N.of_nat k.
Proof.
  intros Hw Hk Hn H. unfold wide_digits in Hw. rewrite !andb_true_iff in Hw. destruct Hw as [[H1 H2] H3].
  pose proof (digit_numeral_length z zb digits n cs k ltac:(apply Nat.leb_le, H1) Hk Hn H) as Hlen.
  apply digit_numeral_chars in H as [Hin _].
  assert (Forall (fun ch => len_utf8 ch <= 3) cs) as Hf.
  { eapply Forall_In; [|exact Hin]. apply Forall_forall. intros x Hx. rewrite forallb_forall in H3. apply N.leb_le, H3, Hx. }
  pose proof (width_bound 3 cs Hf). lia.
Qed.

Lemma digits_bounded (d : config -> digit_collection) digits z zb :
  (forall c, valid_config c -> collects c (d c) digits /\ dc_fixed (d c) = false /\
     dc_has_zero_digit (d c) = z /\ dc_zero_based (d c) = zb) ->
  wide_digits digits = true ->
  bounded (fun c T => try_format_digits c T (d c)) (fun k => 3 * N.of_nat k).
Proof.
  intros H Hw n k Hk Hn _. pose proof Hw as Hw'. unfold wide_digits in Hw'. rewrite !andb_true_iff in Hw'. destruct Hw' as [[H1 H2] H3].
  apply Nat.leb_le in H1. apply Nat.ltb_lt in H2.
  destruct (digits_meaning d digits z zb H) with (n := n) as (m & Hm & Hall); [destruct z; cbn; lia|assumption|].
  exists m. split; [|exact Hall]. destruct m as [cs| |]; auto. eapply numeral_bytes; eassumption.
Qed.

Lemma fixed_bounded d symbols :
  (forall c T n, valid_config c -> fits c T n ->
    if n =? 0 then try_format_digits c T d n = Ret (Err NoZeroSymbol)
    else if n <=? N.of_nat (length symbols) then
      prints c (try_format_digits c T d n) n [digit_char symbols (n - 1)]
    else try_format_digits c T d n = try_format_digits c T CjkDecimal n) ->
  wide_digits symbols = true ->
  bounded (fun c T => try_format_digits c T d) (fun k => 3 * N.of_nat k).
Proof.
  intros H Hw n k Hk Hn _. unfold wide_digits in Hw. rewrite !andb_true_iff in Hw. destruct Hw as [[H1 H2] H3].
  destruct (N.eqb_spec n 0) as [->|Hn0]; [|destruct (N.leb_spec n (N.of_nat (length symbols))) as [Hle|Hgt]].
  - exists NoZero. split; [exact I|]. intros c T Hc Hf. split; [reflexivity|]. exact (H c T 0 Hc Hf).
  - exists (Shows [digit_char symbols (n - 1)]). split.
    + rewrite utf8_len_single. rewrite forallb_forall in H3.
      assert (len_utf8 (digit_char symbols (n - 1)) <= 3); [|lia]. apply N.leb_le, H3, nth_In. lia.
    + intros c T Hc Hf. specialize (H c T n Hc Hf).
      destruct (N.eqb_spec n 0); [contradiction|]. destruct (N.leb_spec n (N.of_nat (length symbols))); [exact H|lia].
  - destruct (digits_meaning (fun _ => CjkDecimal) cjk_digits true true) with (n := n) as (m & Hm & Hall).
    + intros c Hc. split; [apply builtin_collects; [assumption|vm_compute; reflexivity..|left; reflexivity]|auto].
    + vm_compute. discriminate.
    + cbn. lia.
    + exists m. split.
      * destruct m as [cs| |]; auto. eapply (numeral_bytes true true cjk_digits n); [vm_compute; reflexivity|eassumption..].
      * intros c T Hc Hf. specialize (H c T n Hc Hf).
        destruct (N.eqb_spec n 0); [contradiction|]. destruct (N.leb_spec n (N.of_nat (length symbols))); [lia|].
        rewrite H. apply Hall; assumption.
Qed.

Lemma plain_wide : Forall (fun d => exists digits, plain_table digits d /\ wide_digits digits = true) digit_collections.
Proof.
  repeat (apply Forall_cons; [eexists; split; [split; [(left; split; [reflexivity|vm_compute; reflexivity]) + (right; split; [reflexivity|vm_compute; reflexivity])|split; vm_compute; reflexivity]|vm_compute; reflexivity]|]).
  constructor.
Qed.

Lemma digit_systems_bounded sys : In sys digit_systems -> bounded sys (fun k => 3 * N.of_nat k).
Proof.
  intros H. unfold digit_systems in H. rewrite !in_app_iff in H.
  pose proof plain_wide as Hplain. rewrite Forall_forall in Hplain.
  assert (forall d, In d (digit_collections ++ fixed_collections) ->
    bounded (fun c T => try_format_digits c T d) (fun k => 3 * N.of_nat k) /\
    bounded (fun c T => try_format_digits c T (one_based d)) (fun k => 3 * N.of_nat k)) as Hcoll.
  { intros d Hd. apply in_app_iff in Hd as [Hd|Hd].
    - destruct (Hplain d Hd) as (digits & (Hp & Hl & Hs) & Hk).
      assert (forall c, valid_config c -> collects c d digits) as Hcol.
      { intros c Hc. apply builtin_collects; try assumption. destruct Hp as [[-> _]|[-> _]]; auto. }
      assert (dc_fixed d = false) as Hf by (destruct Hp as [[-> _]|[-> _]]; reflexivity).
      split.
      + apply (digits_bounded (fun _ => d) digits (dc_has_zero_digit d) (dc_zero_based d)); [|assumption]. intros c Hc. auto.
      + apply (digits_bounded (fun _ => one_based d) digits (dc_has_zero_digit d) false); [|assumption].
        intros c Hc. split; [apply collects_one_based; auto|auto].
    - pose proof C18_stems_and_branches as H18. rewrite Forall_forall in H18.
      destruct Hd as [<-|[<-|[]]].
      + split; [apply (fixed_bounded _ stems); [apply (H18 (CjkHeavenlyStem, stems)); left; reflexivity|vm_compute; reflexivity]|].
        apply (digits_bounded (fun _ => one_based CjkHeavenlyStem) stems false false); [|vm_compute; reflexivity].
        intros c Hc. split; [apply collects_one_based; apply (fixed_collects c Hc)|auto].
      + split; [apply (fixed_bounded _ branches); [apply (H18 (CjkEarthlyBranch, branches)); right; left; reflexivity|vm_compute; reflexivity]|].
        apply (digits_bounded (fun _ => one_based CjkEarthlyBranch) branches false false); [|vm_compute; reflexivity].
        intros c Hc. split; [apply collects_one_based; apply (fixed_collects c Hc)|auto]. }
  destruct H as [H|[H|H]].
  - apply in_map_iff in H as (d & <- & Hd). apply Hcoll, Hd.
  - apply in_map_iff in H as (d & <- & Hd). apply Hcoll, Hd.
  - assert (forall c, valid_config c -> collects c (HexUpper c) hex_capitals /\ collects c (HexLower c) hex_smalls) as Hhex.
    { intros c Hc. split; refine (hex_collects c _ Hc _ _ _); vm_compute; reflexivity. }
    destruct H as [<-|[<-|[<-|[<-|[]]]]].
    + apply (digits_bounded HexUpper hex_capitals true true); [|vm_compute; reflexivity].
      intros c Hc. split; [apply (Hhex c Hc)|auto].
    + apply (digits_bounded HexLower hex_smalls true true); [|vm_compute; reflexivity].
      intros c Hc. split; [apply (Hhex c Hc)|auto].
    + apply (digits_bounded (fun c => one_based (HexUpper c)) hex_capitals true false); [|vm_compute; reflexivity].
      intros c Hc. split; [apply collects_one_based; apply (Hhex c Hc)|auto].
    + apply (digits_bounded (fun c => one_based (HexLower c)) hex_smalls true false); [|vm_compute; reflexivity].
      intros c Hc. split; [apply collects_one_based; apply (Hhex c Hc)|auto].
Qed.

(** ** Enumerated and Ethiopic *)

Lemma circled_bounded : bounded CircledNumber (fun _ => 3).
Proof.
  intros n k _ _ _. destruct (N.leb_spec n 50) as [H|H].
  - exists (Shows [circled n]). split; [|intros c T Hc _; apply (C33_circled c T n Hc); assumption].
    rewrite utf8_len_single. unfold circled, len_utf8. destruct (n =? 0); [vm_compute; discriminate|].
    destruct (N.leb_spec n 20); [|destruct (N.leb_spec n 35)];
      repeat match goal with |- context [?a <? ?b] => destruct (N.ltb_spec a b) end; lia.
  - exists TooBig. split; [exact I|]. intros c T Hc _. apply (C33_circled c T n Hc). assumption.
Qed.

Lemma double_circled_bounded : bounded DoubleCircledNumber (fun _ => 3).
Proof.
  intros n k _ _ _. destruct (N.eqb_spec n 0) as [->|Hn0]; [|destruct (N.leb_spec n 10) as [H|H]].
  - exists NoZero. split; [exact I|]. intros c T Hc _. split; [reflexivity|]. apply (C33_double_circled c T 0 Hc).
  - exists (Shows [double_circled n]). split; [|intros c T Hc _; apply (C33_double_circled c T n Hc); lia].
    rewrite utf8_len_single. unfold double_circled, len_utf8.
    repeat match goal with |- context [?a <? ?b] => destruct (N.ltb_spec a b) end; lia.
  - exists TooBig. split; [exact I|]. intros c T Hc _. apply (C33_double_circled c T n Hc). assumption.
Qed.

Definition narrow (cs : list N) : Prop := Forall (fun ch => len_utf8 ch <= 3) cs.

Lemma narrow_check cs : forallb (fun ch => len_utf8 ch <=? 3) cs = true -> narrow cs.
Proof. intros H. apply Forall_forall. intros x Hx. rewrite forallb_forall in H. apply N.leb_le, H, Hx. Qed.

Lemma narrow_below ch : ch < 0x10000 -> len_utf8 ch <= 3.
Proof. intros H. unfold len_utf8. repeat match goal with |- context [?a <? ?b] => destruct (N.ltb_spec a b) end; lia. Qed.

Lemma ethiopic_group_length top i v : v < 100 ->
  (length (ethiopic_group top i v) <= 3)%nat /\ (length (ethiopic_group top 0 v) <= 2)%nat /\ narrow (ethiopic_group top i v).
Proof.
  intros Hv.
  assert (length (ethiopic_digits v) <= 2)%nat as H1.
  { unfold ethiopic_digits. rewrite app_length. destruct (v / 10 =? 0), (v mod 10 =? 0); cbn; lia. }
  assert (narrow (ethiopic_digits v)) as H2.
  { unfold ethiopic_digits. assert (v / 10 < 10) by (apply N.div_lt_upper_bound; lia). pose proof (N.mod_lt v 10 ltac:(lia)).
    apply Forall_app. split; [destruct (v / 10 =? 0)|destruct (v mod 10 =? 0)]; constructor; try constructor; apply narrow_below; lia. }
  unfold ethiopic_group. split; [|split].
  - rewrite app_length. destruct (_ || _); cbn [length]; destruct (Nat.odd i); [destruct (v =? 0)|destruct (Nat.eqb i 0)|destruct (v =? 0)|destruct (Nat.eqb i 0)]; cbn [length]; lia.
  - rewrite app_length. destruct (_ || _); cbn [length Nat.odd Nat.even negb Nat.eqb]; lia.
  - apply Forall_app. split; [destruct (_ || _); [constructor|exact H2]|].
    destruct (Nat.odd i); [destruct (v =? 0)|destruct (Nat.eqb i 0)]; constructor; try constructor; vm_compute; discriminate.
Qed.

Lemma ethiopic_groups_length gs : below 100 gs -> forall top, gs <> [] ->
  (length (ethiopic_groups top gs) + 1 <= 3 * length gs)%nat /\ narrow (ethiopic_groups top gs).
Proof.
  induction 1 as [|g gs Hg _ IH]; intros top Hne; [contradiction|]. cbn [ethiopic_groups].
  destruct (ethiopic_group_length top (length gs) g Hg) as (H1 & H2 & H3). rewrite app_length.
  destruct gs as [|g' gs].
  - cbn [ethiopic_groups length] in *. split; [lia|]. rewrite app_nil_r. exact H3.
  - destruct (IH false ltac:(discriminate)) as [H4 H5]. split; [cbn [length] in *; lia|]. apply Forall_app. auto.
Qed.

Lemma ethiopic_bytes n cs k : (1 <= k)%nat -> n < 100 ^ N.of_nat k -> ethiopic_numeral n cs ->
  utf8_len cs <= 3 * (3 * N.of_nat k - 1).
Proof.
  intros Hk Hn H. unfold ethiopic_numeral in H. destruct (n =? 1).
  - subst. change (utf8_len [0x1369]) with 3. lia.
  - destruct H as (gs & Hb & Hc & Hv & ->). assert (gs <> []) as Hne by (intros ->; exact Hc).
    destruct (ethiopic_groups_length gs Hb true Hne) as [H1 H2]. apply width_bound in H2.
    assert (length gs <= k)%nat; [|lia]. apply (positional_length 100 gs n); try assumption; lia.
Qed.

Lemma ethiopic_bounded : bounded Ethiopic (fun k => 6 * N.of_nat k).
Proof.
  intros n k Hk Hn _. destruct (N.eqb_spec n 0) as [->|Hn0].
  - exists NoZero. split; [exact I|]. intros c T _ _. split; [reflexivity|]. apply C34_no_zero.
  - destruct (ethiopic_numeral_exists n) as (cs & Hcs). exists (Shows cs). split.
    + assert (n < 100 ^ N.of_nat ((k + 1) / 2)) as Hn'.
      { apply N.lt_le_trans with (10 ^ N.of_nat k); [assumption|]. change 100 with (10 ^ 2). rewrite <- N.pow_mul_r.
        apply N.pow_le_mono_r; [lia|]. pose proof (Nat.div_mod (k + 1) 2 ltac:(lia)).
        pose proof (Nat.mod_upper_bound (k + 1) 2 ltac:(lia)). lia. }
      assert (1 <= (k + 1) / 2)%nat as Hk' by (apply Nat.div_le_lower_bound; lia).
      pose proof (ethiopic_bytes n cs _ Hk' Hn' Hcs) as H. pose proof (Nat.div_mod (k + 1) 2 ltac:(lia)).
      generalize dependent ((k + 1) / 2)%nat. intros h. intros. lia.
    + intros c T Hc Hf. apply yields_prints, ethiopic_yields; assumption.
Qed.

(** ** Chinese *)

Definition digit_count (n : N) : nat :=
  if n <? 10 then 1%nat else if n <? 100 then 2%nat else if n <? 1000 then 3%nat else 4%nat.

Lemma css_length informal n : n < 10000 -> (length (css_longhand informal n) + 1 <= 2 * digit_count n)%nat.
Proof.
  intros Hn. destruct (N.eq_dec n 0) as [->|Hn0]; [vm_compute; lia|].
  pose proof (below_10000 (fun n => (length (css_longhand true n) + 1 <=? 2 * digit_count n)%nat &&
    (length (css_longhand false n) + 1 <=? 2 * digit_count n)%nat)) as H.
  cbn beta in H. specialize (H ltac:(vm_compute; reflexivity) n ltac:(lia)).
  apply andb_prop in H as [H1 H2]. destruct informal; apply Nat.leb_le; assumption.
Qed.

Lemma digit_count_least n k : (1 <= k)%nat -> n < 10000 -> n < 10 ^ N.of_nat k -> (digit_count n <= k)%nat.
Proof.
  intros Hk Hn H. unfold digit_count.
  destruct k as [|[|[|[|k]]]]; [lia|change (10 ^ N.of_nat 1) with 10 in H|change (10 ^ N.of_nat 2) with 100 in H|
    change (10 ^ N.of_nat 3) with 1000 in H|clear H];
    destruct (N.ltb_spec n 10); try lia; destruct (N.ltb_spec n 100); try lia; destruct (N.ltb_spec n 1000); lia.
Qed.

Definition large_exponent (sc : scaling) (r : nat) : N :=
  match sc with
  | ShortScaling => 4 + N.of_nat r
  | MyriadScaling => 4 * (N.of_nat r + 1)
  | MidScaling => match r with O => 4 | _ => 8 * N.of_nat r end
  | LongScaling => 4 * 2 ^ N.of_nat r
  end.

Lemma large_value_exponent sc r : large_value sc r = 10 ^ large_exponent sc r.
Proof. destruct sc, r; reflexivity. Qed.

Lemma large_exponent_four sc r : sc = ShortScaling \/ exists j, large_exponent sc r = 4 * j.
Proof.
  destruct sc; [left; reflexivity|right..]; cbn [large_exponent]; [eauto| |eauto].
  destruct r; [exists 1; reflexivity|]. exists (2 * N.of_nat (S r)). lia.
Qed.

Lemma pow10_lt a b : 10 ^ a < 10 ^ b -> a < b.
Proof. apply N.pow_lt_mono_r_iff. lia. Qed.

Lemma numeral_length sc informal n l : chinese_numeral sc informal n l -> forall k, (1 <= k)%nat -> n < 10 ^ N.of_nat k ->
  (length l + 1 <= 2 * k)%nat.
Proof.
  assert (forall v e n k, v = 10 ^ e -> n < 10 ^ N.of_nat k -> v <= n ->
    exists j q, N.of_nat j = e /\ k = (j + q)%nat /\ (1 <= q)%nat /\ n / v < 10 ^ N.of_nat q /\ n mod v < 10 ^ N.of_nat j) as Hsplit.
  { intros v e n0 k -> Hn Hle. assert (e < N.of_nat k) as Hlt by (apply pow10_lt; lia).
    exists (N.to_nat e), (k - N.to_nat e)%nat. split; [lia|]. split; [lia|]. split; [lia|]. rewrite N2Nat.id. split.
    - apply N.div_lt_upper_bound; [apply N.pow_nonzero; lia|]. rewrite <- N.pow_add_r. replace (e + N.of_nat (k - N.to_nat e)) with (N.of_nat k) by lia. assumption.
    - apply N.mod_lt, N.pow_nonzero. lia. }
  induction 1 as [i n Hn|i n r a Hr Hle Ht Ha IHa Hm|i n r a b Hr Hle Ht Ha IHa Hm Hg Hb IHb|i n r a b Hr Hle Ht Ha IHa Hm Hg Hb IHb];
    intros k Hk Hlt.
  - pose proof (css_length i n Hn). pose proof (digit_count_least n k Hk Hn Hlt). lia.
  - destruct (Hsplit _ _ n k (large_value_exponent sc r) Hlt Hle) as (j & q & Hj & -> & Hq & H1 & H2).
    specialize (IHa q Hq H1). rewrite app_length. cbn [length].
    assert (1 <= j)%nat by (pose proof (large_value_ge sc r) as Hge; rewrite large_value_exponent in Hge; destruct j; [rewrite <- Hj in Hge; cbn in Hge|]; lia).
    lia.
  - destruct (Hsplit _ _ n k (large_value_exponent sc r) Hlt Hle) as (j & q & Hj & -> & Hq & H1 & H2).
    specialize (IHa q Hq H1). rewrite app_length. cbn [length].
    assert (4 <= N.of_nat j) as Hj4.
    { pose proof (large_value_ge sc r) as Hge. rewrite large_value_exponent, <- Hj in Hge. change 10000 with (10 ^ 4) in Hge.
      apply N.pow_le_mono_r_iff in Hge; lia. }
    assert (n mod large_value sc r < 10 ^ N.of_nat (j - 1)) as Hsmall.
    { destruct (large_exponent_four sc r) as [->|(j4 & Ej)].
      - cbn [gap] in Hg. rewrite large_value_exponent in Hg at 2. rewrite <- Hj in Hg.
        replace (N.of_nat j) with (N.succ (N.of_nat (j - 1))) in Hg by lia. rewrite N.pow_succ_r' in Hg. lia.
      - destruct sc; cbn [gap] in Hg.
        + rewrite large_value_exponent in Hg at 2. rewrite <- Hj in Hg.
          replace (N.of_nat j) with (N.succ (N.of_nat (j - 1))) in Hg by lia. rewrite N.pow_succ_r' in Hg. lia.
        + destruct Hg as (i4 & Hlo & Hhi). assert (4 * i4 < 4 * j4) by (apply pow10_lt; rewrite <- Ej, <- Hj; lia).
          eapply N.lt_le_trans; [exact Hhi|]. apply N.pow_le_mono_r; lia.
        + destruct Hg as (i4 & Hlo & Hhi). assert (4 * i4 < 4 * j4) by (apply pow10_lt; rewrite <- Ej, <- Hj; lia).
          eapply N.lt_le_trans; [exact Hhi|]. apply N.pow_le_mono_r; lia.
        + destruct Hg as (i4 & Hlo & Hhi). assert (4 * i4 < 4 * j4) by (apply pow10_lt; rewrite <- Ej, <- Hj; lia).
          eapply N.lt_le_trans; [exact Hhi|]. apply N.pow_le_mono_r; lia. }
    specialize (IHb (j - 1)%nat ltac:(lia) Hsmall). lia.
  - destruct (Hsplit _ _ n k (large_value_exponent sc r) Hlt Hle) as (j & q & Hj & -> & Hq & H1 & H2).
    specialize (IHa q Hq H1). rewrite app_length. cbn [length].
    assert (1 <= j)%nat as Hj1 by (pose proof (large_value_ge sc r) as Hge; rewrite large_value_exponent in Hge; destruct j; [rewrite <- Hj in Hge; cbn in Hge|]; lia).
    specialize (IHb j Hj1 H2). lia.
Qed.

Lemma chinese_bytes traditional formal o n k : n < 2 ^ 128 -> in_range o n -> (1 <= k)%nat -> n < 10 ^ N.of_nat k ->
  utf8_len (write (script traditional o) (chinese_t formal (scale o) n)) + 3 <= 6 * N.of_nat k.
Proof.
  intros Hlt Hr Hk Hn. pose proof (numeral_length _ _ _ _ (chinese_t_numeral formal (scale o) n Hlt Hr) k Hk Hn) as Hlen.
  assert (narrow (write (script traditional o) (chinese_t formal (scale o) n))) as H.
  { unfold write. apply Forall_forall. intros x Hx. apply in_map_iff in Hx as (s & <- & _). unfold glyph.
    apply nth_Forall; [|vm_compute; discriminate]. apply narrow_check. unfold script. destruct traditional, (usage o); vm_compute; reflexivity. }
  apply width_bound in H. unfold write in H at 2. rewrite map_length in H. lia.
Qed.

Lemma chinese_bounded traditional formal o : bounded (chinese traditional formal o) (fun k => 6 * N.of_nat k).
Proof.
  intros n k Hk Hn Hlt. destruct (match scale o with Short => 10 ^ 15 <=? n | _ => false end) eqn:E.
  - exists TooBig. split; [exact I|]. intros c T Hc Hf. cbn [means].
    destruct (scale o) eqn:Es; try discriminate. apply N.leb_le in E. apply chinese_out; assumption.
  - assert (in_range o n) as Hr by (intros Es; rewrite Es in E; apply N.leb_gt in E; exact E).
    exists (Shows (write (script traditional o) (chinese_t formal (scale o) n))). split.
    + pose proof (chinese_bytes traditional formal o n k Hlt Hr Hk Hn). lia.
    + intros c T Hc Hf. apply yields_prints, chinese_writes; assumption.
Qed.

(** ** C55 *)

(** The systems with a sign or two per decimal digit. *)
Definition positional_systems : list system :=
  digit_systems ++ [CircledNumber; DoubleCircledNumber; Ethiopic] ++ chinese_systems.

Lemma positional_bounded sys : In sys positional_systems -> bounded sys (fun k => 6 * N.of_nat k).
Proof.
  intros H. unfold positional_systems in H. rewrite !in_app_iff in H. destruct H as [H|[H|H]].
  - eapply bounded_weaken; [|apply digit_systems_bounded, H]. intros k _. cbn beta. lia.
  - destruct H as [<-|[<-|[<-|[]]]].
    + eapply bounded_weaken; [|apply circled_bounded]. intros k Hk. cbn beta. lia.
    + eapply bounded_weaken; [|apply double_circled_bounded]. intros k Hk. cbn beta. lia.
    + apply ethiopic_bounded.
  - unfold chinese_systems in H. apply in_flat_map in H as (traditional & _ & H). apply in_flat_map in H as (formal & _ & H).
    apply in_flat_map in H as (u & _ & H). apply in_map_iff in H as (sc & <- & _). apply chinese_bounded.
Qed.

Lemma bounded_text sys bound c T n k s : bounded sys bound -> valid_config c -> fits c T n ->
  (1 <= k)%nat -> n < 10 ^ N.of_nat k -> sys c T n = Ret (Ok s) ->
  exists text, as_str s = Ret text /\ N.of_nat (length text) <= bound k.
Proof.
  intros H Hc Hn Hk Hlt E. destruct (H n k Hk Hlt (fits_128 c T n Hc Hn)) as (m & Hm & Hall).
  specialize (Hall c T Hc Hn). rewrite E in Hall. destruct m as [cs| |]; cbn [means] in Hall; [|destruct Hall; discriminate|discriminate].
  unfold prints in Hall. destruct (has_alloc c || _); [|discriminate]. destruct Hall as (s1 & E1 & A1 & _). injection E1 as ->.
  exists (utf8 cs). split; [exact A1|exact Hm].
Qed.

(** Six bytes per decimal digit of the number are enough. *)
Theorem C55_six_bytes_per_digit : forall sys c T n k s,
  In sys positional_systems -> valid_config c -> fits c T n -> (1 <= k)%nat -> n < 10 ^ N.of_nat k ->
  sys c T n = Ret (Ok s) -> exists text, as_str s = Ret text /\ (length text <= 6 * k)%nat.
Proof.
  intros sys c T n k s Hin Hc Hn Hk Hlt E.
  destruct (bounded_text sys _ c T n k s (positional_bounded sys Hin) Hc Hn Hk Hlt E) as (text & A & H).
  exists text. split; [exact A|lia].
Qed.
Print Assumptions C55_six_bytes_per_digit.

(** Three for the digit systems. *)
Theorem C55_three_bytes_per_digit : forall sys c T n k s,
  In sys digit_systems -> valid_config c -> fits c T n -> (1 <= k)%nat -> n < 10 ^ N.of_nat k ->
  sys c T n = Ret (Ok s) -> exists text, as_str s = Ret text /\ (length text <= 3 * k)%nat.
Proof.
  intros sys c T n k s Hin Hc Hn Hk Hlt E.
  destruct (bounded_text sys _ c T n k s (digit_systems_bounded sys Hin) Hc Hn Hk Hlt E) as (text & A & H).
  exists text. split; [exact A|lia].
Qed.
Print Assumptions C55_three_bytes_per_digit.

Lemma utf8_len_copies k s : utf8_len (copies k s) = k * utf8_len s.
Proof.
  induction k as [|k IH] using N.peano_ind; [reflexivity|].
  rewrite <- N.add_1_r, copies_succ, utf8_len_app, IH. lia.
Qed.

Definition top_value (tbl : table) : N := match tbl with (_, v) :: _ => v | [] => 0 end.

Lemma gtext_grows tbl n : match tbl with (s, v) :: _ => s <> [] /\ v <> 0 | [] => False end ->
  n / top_value tbl <= utf8_len (gtext tbl n).
Proof.
  destruct tbl as [|[s v] tbl]; [contradiction|]. intros [Hs Hv]. cbn [gtext top_value].
  destruct (N.eqb_spec v 0); [contradiction|]. rewrite utf8_len_app, utf8_len_copies.
  destruct s as [|x s]; [contradiction|]. rewrite utf8_len_cons. pose proof (len_utf8_bounds x).
  pose proof (N.mul_le_mono_l 1 (len_utf8 x + utf8_len s) (n / v) ltac:(lia)). lia.
Qed.

(** The additive systems and Hebrew repeat their largest symbol: the text grows
    with the number, not with its length. *)
Theorem C55_additive_texts_grow : Forall (fun '(sys, largest) =>
    forall c T n, valid_config c -> has_alloc c = true -> fits c T n -> 1 <= n ->
    exists s text, sys c T n = Ret (Ok s) /\ as_str s = Ret text /\ n / largest <= N.of_nat (length text))
  ([(RomanUpper, 1000000); (RomanLower, 1000000); (ArmenianUpper, 9000); (ArmenianLower, 9000); (Georgian, 10000);
    (JapaneseFormal, 9000); (JapaneseInformal, 9000); (HangeulFormal, 9000); (HanjaInformal, 9000); (HanjaFormal, 9000);
    (Hebrew, 400)] : list (system * N)).
Proof.
  assert (forall (sys : system) cs c T n, prints c (sys c T n) n cs -> has_alloc c = true ->
    exists s text, sys c T n = Ret (Ok s) /\ as_str s = Ret text /\ utf8_len cs = N.of_nat (length text)) as Hp.
  { intros sys cs c T n H Ha. unfold prints in H. rewrite Ha in H. destruct H as (s & E & A & _). exists s, (utf8 cs). auto. }
  assert (forall (sys : system) tbl largest, table_ok sys tbl ->
    match tbl with (s, v) :: _ => s <> [] /\ v <> 0 | [] => False end -> top_value tbl = largest ->
    forall c T n, valid_config c -> has_alloc c = true -> fits c T n -> 1 <= n ->
    exists s text, sys c T n = Ret (Ok s) /\ as_str s = Ret text /\ n / largest <= N.of_nat (length text)) as Hadd.
  { intros sys tbl largest [Hu Hg] Htop <- c T n Hc Ha Hn Hn1.
    pose proof (yields_prints _ _ _ _ (system_positive sys tbl c T n Hu Hg Hc Hn ltac:(lia))) as H.
    destruct (Hp _ _ _ _ _ H Ha) as (s & text & E & A & L). exists s, text. split; [exact E|]. split; [exact A|].
    rewrite <- L. apply gtext_grows, Htop. }
  apply Forall_cons; [apply (Hadd _ _ _ roman_upper_ok); [split; discriminate|reflexivity]|].
  apply Forall_cons; [apply (Hadd _ _ _ roman_lower_ok); [split; discriminate|reflexivity]|].
  apply Forall_cons; [apply (Hadd _ _ _ armenian_upper_ok); [split; discriminate|reflexivity]|].
  apply Forall_cons; [apply (Hadd _ _ _ armenian_lower_ok); [split; discriminate|reflexivity]|].
  apply Forall_cons; [apply (Hadd _ _ _ georgian_ok); [split; discriminate|reflexivity]|].
  apply Forall_cons; [apply (Hadd _ _ _ japanese_formal_ok); [split; discriminate|reflexivity]|].
  apply Forall_cons; [apply (Hadd _ _ _ japanese_informal_ok); [split; discriminate|reflexivity]|].
  apply Forall_cons; [apply (Hadd _ _ _ korean_hangul_formal_ok); [split; discriminate|reflexivity]|].
  apply Forall_cons; [apply (Hadd _ _ _ korean_hanja_informal_ok); [split; discriminate|reflexivity]|].
  apply Forall_cons; [apply (Hadd _ _ _ korean_hanja_formal_ok); [split; discriminate|reflexivity]|].
  constructor; [|constructor]. intros c T n Hc Ha Hn Hn1.
  destruct (Hp _ _ _ _ _ (C36_hebrew_numeral c T n Hc Hn Hn1) Ha) as (s & text & E & A & L).
  exists s, text. split; [exact E|]. split; [exact A|]. rewrite <- L.
  assert (n / 400 <= utf8_len (hebrew_letters n)) as H.
  { unfold hebrew_letters. rewrite utf8_len_app, utf8_len_copies. change (utf8_len [tav]) with 2. lia. }
  unfold hebrew_numeral. destruct (hebrew_letters n) as [|x [|y l]]; [exact H| |exact H].
  rewrite !utf8_len_cons in *. lia.
Qed.
Print Assumptions C55_additive_texts_grow.

Example C55_case :
  In Ethiopic positional_systems /\ 9999999999 < 10 ^ N.of_nat 10 /\ fits on_heap U64 9999999999 /\
  (exists s, Ethiopic on_heap U64 9999999999 = Ret (Ok s) /\ (t <- as_str s ;; Ret (length t)) = Ret 42%nat) /\
  (exists s, chinese true true (with_scale Short) on_heap U64 9999999999 = Ret (Ok s) /\
     (t <- as_str s ;; Ret (length t)) = Ret 57%nat) /\
  (exists s, Hebrew on_heap U16 65535 = Ret (Ok s) /\ (t <- as_str s ;; Ret (length t)) = Ret 332%nat).
Proof.
  split; [unfold positional_systems; rewrite !in_app_iff; right; left; cbn; auto|]. split; [reflexivity|]. split; [reflexivity|].
  split; [|split]; eexists; (split; [vm_compute; reflexivity|vm_compute; reflexivity]).
Qed.

(** ** C54 *)

Definition never_out_of_memory (sys : system) (n : N) : Prop :=
  forall c T, valid_config c -> fits c T n -> sys c T n <> Ret (Err (OutOfMemory n)).

Lemma bounded_memory sys bound n k : bounded sys bound -> (1 <= k)%nat -> bound k <= 62 -> n < 10 ^ N.of_nat k ->
  never_out_of_memory sys n.
Proof.
  intros H Hk Hb Hlt c T Hc Hn E. destruct (H n k Hk Hlt (fits_128 c T n Hc Hn)) as (m & Hm & Hall).
  specialize (Hall c T Hc Hn). rewrite E in Hall. destruct m as [cs| |]; cbn [means] in Hall; [|destruct Hall; discriminate|discriminate].
  unfold prints in Hall. assert (at_most_62 (utf8 cs) = true) as Hroom by (rewrite <- len_62; apply N.leb_le; lia).
  rewrite Hroom, orb_true_r in Hall. destruct Hall as (s1 & E1 & _). discriminate.
Qed.

(** Numbers of ten digits, so all [u32], need no heap... *)
Theorem C54_ten_digits : forall sys n, In sys positional_systems -> n < 10 ^ 10 -> never_out_of_memory sys n.
Proof.
  intros sys n Hin Hn. apply (bounded_memory sys _ n 10 (positional_bounded sys Hin)); [lia|vm_compute; discriminate|exact Hn].
Qed.
Print Assumptions C54_ten_digits.

(** ... and for the digit systems numbers of twenty digits, so all [u64]. *)
Theorem C54_twenty_digits : forall sys n, In sys digit_systems -> n < 10 ^ 20 -> never_out_of_memory sys n.
Proof.
  intros sys n Hin Hn. apply (bounded_memory sys _ n 20 (digit_systems_bounded sys Hin)); [lia|vm_compute; discriminate|exact Hn].
Qed.
Print Assumptions C54_twenty_digits.

(** One digit more is too many. *)
Theorem C54_sharp :
  (exists sys n, In sys positional_systems /\ n < 10 ^ 11 /\ fits no_heap U64 n /\ sys no_heap U64 n = Ret (Err (OutOfMemory n))) /\
  (exists sys n, In sys digit_systems /\ n < 10 ^ 21 /\ fits no_heap U128 n /\ sys no_heap U128 n = Ret (Err (OutOfMemory n))).
Proof.
  split.
  - exists (chinese true true {| usage := Financial; scale := Short |}), 11111111111. split.
    + unfold positional_systems. rewrite !in_app_iff. right. right. cbn. auto.
    + split; [reflexivity|]. split; vm_compute; reflexivity.
  - exists (fun c T => try_format_digits c T Thai), (10 ^ 20). split.
    + unfold digit_systems. rewrite !in_app_iff. left. apply in_map_iff. exists Thai. split; [reflexivity|]. cbn. auto 25.
    + split; [reflexivity|]. split; vm_compute; reflexivity.
Qed.
Print Assumptions C54_sharp.

(** The exact limits of the additive systems and of Hebrew. *)

Definition longest_below (f : N -> N) (bound : N) (steps : N) : bool := all_from (fun r => f r <=? bound) (N.to_nat steps) 0.

Lemma longest_below_spec f bound steps r : longest_below f bound steps = true -> r < steps -> f r <= bound.
Proof. intros H Hr. apply N.leb_le. apply (all_from_spec (fun r => f r <=? bound) _ 0 r H). lia. Qed.

Definition limit_check (tbl : table) (limit : N) : bool :=
  match tbl with
  | (s, v) :: rest =>
      negb (v =? 0) && (1 <=? limit / v) && ((limit / v) * utf8_len s <=? 62) &&
      longest_below (fun r => utf8_len (gtext rest r)) (62 - (limit / v - 1) * utf8_len s) v &&
      longest_below (fun r => utf8_len (gtext rest r)) (62 - (limit / v) * utf8_len s) (limit mod v)
  | [] => false
  end.

Lemma limit_check_spec tbl limit n : limit_check tbl limit = true -> n < limit -> utf8_len (gtext tbl n) <= 62.
Proof.
  destruct tbl as [|[s v] rest]; [discriminate|]. intros H Hn. cbn [limit_check] in H. rewrite !andb_true_iff in H.
  destruct H as ((((H1 & H2) & H3) & H4) & H5). apply negb_true_iff in H1. cbn [gtext]. rewrite H1.
  apply N.eqb_neq in H1. apply N.leb_le in H2, H3. rewrite utf8_len_app, utf8_len_copies.
  pose proof (N.mod_lt n v H1) as Hm. assert (n / v <= limit / v) as Hq by (apply N.div_le_mono; lia).
  destruct (N.eq_dec (n / v) (limit / v)) as [E|E].
  - assert (n mod v < limit mod v) as Hr.
    { pose proof (N.div_mod n v H1). pose proof (N.div_mod limit v H1). rewrite E in *. lia. }
    pose proof (longest_below_spec _ _ _ _ H5 Hr) as H. rewrite E. clear H4 H5. lia.
  - pose proof (longest_below_spec _ _ _ _ H4 Hm) as H. clear H4 H5.
    assert (n / v * utf8_len s <= (limit / v - 1) * utf8_len s) by (apply N.mul_le_mono_r; lia).
    assert ((limit / v - 1) * utf8_len s <= limit / v * utf8_len s) by (apply N.mul_le_mono_r; lia). lia.
Qed.

Lemma vinculum_length nine5 nine4 letters n :
  let len m := utf8_len (vinculum nine5 nine4 letters m) in
  len n = n / 1000000 * (let '(_, _, _, _, _, _, m) := letters in utf8_len (over m)) +
          len (n / 1000 mod 1000 * 1000) + len (n mod 1000).
Proof.
  destruct letters as [[[[[[i v] x] l] c] d] m]. cbv zeta. unfold vinculum.
  set (a := n / 1000 mod 1000).
  assert (a * 1000 / 1000000 = 0) as -> by (unfold a; lia).
  assert (a * 1000 / 100000 mod 10 = n / 100000 mod 10) as -> by (unfold a; lia).
  assert (a * 1000 / 10000 mod 10 = n / 10000 mod 10) as -> by (unfold a; lia).
  assert (a * 1000 / 1000 mod 10 = n / 1000 mod 10) as -> by (unfold a; lia).
  assert (a * 1000 mod 1000 = 0) as -> by lia.
  assert (n mod 1000 / 1000000 = 0) as -> by lia.
  assert (n mod 1000 / 100000 = 0) as -> by lia.
  assert (n mod 1000 / 10000 = 0) as -> by lia.
  assert (n mod 1000 / 1000 = 0) as -> by lia.
  rewrite N.mod_mod by discriminate. clear a. change (0 mod 10) with 0.
  rewrite !utf8_len_app, utf8_len_copies.
  change (copies 0 (over m)) with (@nil N). change (classical_roman (i, v, x, l, c, d, m) 0) with (@nil N).
  change (vinculum_place (over c) (over c) (over d) nine5 0) with (@nil N).
  change (vinculum_place (over x) (over x) (over l) nine4 0) with (@nil N).
  change (vinculum_place (chars m) (over i) (over v) (over i ++ over x) 0) with (@nil N).
  change (utf8_len []) with 0. lia.
Qed.

Lemma roman_limit nine5 nine4 letters zero n :
  (let '(_, _, _, _, _, _, m) := letters in utf8_len (over m)) = 3 ->
  longest_below (fun a => utf8_len (vinculum nine5 nine4 letters (a * 1000))) 30 1000 = true ->
  longest_below (fun a => utf8_len (vinculum nine5 nine4 letters (a * 1000))) 29 884 = true ->
  longest_below (fun b => utf8_len (vinculum nine5 nine4 letters b)) 12 1000 = true ->
  longest_below (fun b => utf8_len (vinculum nine5 nine4 letters b)) 11 888 = true ->
  n < 7884888 -> utf8_len (gtext (roman_table nine5 nine4 letters zero) n) <= 62.
Proof.
  intros Hm H1 H2 H3 H4 Hn. rewrite roman_table_text, vinculum_length, Hm.
  pose proof (longest_below_spec _ _ _ (n / 1000 mod 1000) H1 ltac:(lia)) as L1. cbn beta in L1.
  pose proof (longest_below_spec _ _ _ (n mod 1000) H3 ltac:(lia)) as L3. cbn beta in L3.
  assert (n / 1000 mod 1000 < 884 -> utf8_len (vinculum nine5 nine4 letters (n / 1000 mod 1000 * 1000)) <= 29) as L2
    by (intros H; exact (longest_below_spec _ _ _ _ H2 H)).
  assert (n mod 1000 < 888 -> utf8_len (vinculum nine5 nine4 letters (n mod 1000)) <= 11) as L4
    by (intros H; exact (longest_below_spec _ _ _ _ H4 H)).
  assert (n / 1000000 <= 6 \/ n / 1000000 = 7 /\ (n / 1000 mod 1000 < 884 \/ n mod 1000 < 888)) as Hcase by lia.
  clear H1 H2 H3 H4 Hn Hm. revert L1 L2 L3 L4 Hcase.
  generalize (utf8_len (vinculum nine5 nine4 letters (n / 1000 mod 1000 * 1000))).
  generalize (utf8_len (vinculum nine5 nine4 letters (n mod 1000))).
  generalize (n / 1000 mod 1000) (n mod 1000) (n / 1000000). intros. lia.
Qed.

Lemma hebrew_limit n : 1 <= n < 11315 -> utf8_len (hebrew_numeral n) <= 62.
Proof.
  intros Hn. apply N.leb_le.
  refine (all_from_spec (fun n => utf8_len (hebrew_numeral n) <=? 62) (N.to_nat 11314) 1 n _ _); [vm_compute; reflexivity|lia].
Qed.

Definition additive_limits : list (system * N) :=
  [(RomanUpper, 7884888); (RomanLower, 7884888); (ArmenianUpper, 244111); (ArmenianLower, 253111); (Georgian, 171111);
   (JapaneseFormal, 64111); (JapaneseInformal, 65221); (HangeulFormal, 64111); (HanjaInformal, 65221); (HanjaFormal, 64111);
   (Hebrew, 11315)].

(** Below the limit no heap is needed, at the limit it is. *)
Theorem C54_additive_limits : Forall (fun '(sys, limit) =>
    (forall n, n < limit -> never_out_of_memory sys n) /\
    (forall c T, valid_config c -> fits c T limit -> has_alloc c = false ->
       sys c T limit = Ret (Err (OutOfMemory limit)))) additive_limits.
Proof.
  assert (forall c r n cs, prints c r n cs -> utf8_len cs <= 62 -> r <> Ret (Err (OutOfMemory n))) as Hshort.
  { intros c r n cs H Hl. unfold prints in H. rewrite <- len_62 in H.
    replace (utf8_len cs <=? 62) with true in H by (symmetry; apply N.leb_le, Hl). rewrite orb_true_r in H.
    destruct H as (s & -> & _). discriminate. }
  assert (forall (sys : system) tbl limit, table_ok sys tbl ->
    (forall n, n < limit -> utf8_len (gtext tbl n) <= 62) -> (utf8_len (gtext tbl limit) <=? 62) = false -> limit <> 0 ->
    (forall n, n < limit -> never_out_of_memory sys n) /\
    (forall c T, valid_config c -> fits c T limit -> has_alloc c = false ->
       sys c T limit = Ret (Err (OutOfMemory limit)))) as Hadd.
  { intros sys tbl limit [Hu Hg] Hlow Hhigh Hl0. split.
    - intros n Hn c T Hc Hf. destruct (N.eq_dec n 0) as [->|Hn0].
      + destruct (zero_of tbl) as [z|] eqn:Ez.
        * pose proof (yields_prints _ _ _ _ (system_zero sys tbl c T z Hu Hg Ez)) as H. eapply Hshort; [exact H|].
          apply (good_table_parts tbl Hg). exact Ez.
        * rewrite (system_no_zero sys tbl c T Hu Hg Ez). discriminate.
      + eapply Hshort; [|apply Hlow, Hn]. apply yields_prints, system_positive; assumption.
    - intros c T Hc Hf Ha. pose proof (yields_prints _ _ _ _ (system_positive sys tbl c T limit Hu Hg Hc Hf Hl0)) as H.
      unfold prints in H. rewrite Ha, <- len_62, Hhigh in H. exact H. }
  unfold additive_limits.
  apply Forall_cons; [apply (Hadd _ _ _ roman_upper_ok); [|vm_compute; reflexivity|discriminate];
    intros n Hn; apply roman_limit; [reflexivity|vm_compute; reflexivity..|exact Hn]|].
  apply Forall_cons; [apply (Hadd _ _ _ roman_lower_ok); [|vm_compute; reflexivity|discriminate];
    intros n Hn; apply roman_limit; [reflexivity|vm_compute; reflexivity..|exact Hn]|].
  apply Forall_cons; [apply (Hadd _ _ _ armenian_upper_ok); [|vm_compute; reflexivity|discriminate];
    intros n; apply limit_check_spec; vm_compute; reflexivity|].
  apply Forall_cons; [apply (Hadd _ _ _ armenian_lower_ok); [|vm_compute; reflexivity|discriminate];
    intros n; apply limit_check_spec; vm_compute; reflexivity|].
  apply Forall_cons; [apply (Hadd _ _ _ georgian_ok); [|vm_compute; reflexivity|discriminate];
    intros n; apply limit_check_spec; vm_compute; reflexivity|].
  apply Forall_cons; [apply (Hadd _ _ _ japanese_formal_ok); [|vm_compute; reflexivity|discriminate];
    intros n; apply limit_check_spec; vm_compute; reflexivity|].
  apply Forall_cons; [apply (Hadd _ _ _ japanese_informal_ok); [|vm_compute; reflexivity|discriminate];
    intros n; apply limit_check_spec; vm_compute; reflexivity|].
  apply Forall_cons; [apply (Hadd _ _ _ korean_hangul_formal_ok); [|vm_compute; reflexivity|discriminate];
    intros n; apply limit_check_spec; vm_compute; reflexivity|].
  apply Forall_cons; [apply (Hadd _ _ _ korean_hanja_informal_ok); [|vm_compute; reflexivity|discriminate];
    intros n; apply limit_check_spec; vm_compute; reflexivity|].
  apply Forall_cons; [apply (Hadd _ _ _ korean_hanja_formal_ok); [|vm_compute; reflexivity|discriminate];
    intros n; apply limit_check_spec; vm_compute; reflexivity|].
  apply Forall_cons; [|constructor]. split.
  - intros n Hn c T Hc Hf. destruct (N.eq_dec n 0) as [->|Hn0]; [rewrite C36_no_zero; discriminate|].
    eapply Hshort; [apply C36_hebrew_numeral; [assumption..|lia]|]. apply hebrew_limit. lia.
  - intros c T Hc Hf Ha. pose proof (C36_hebrew_numeral c T 11315 Hc Hf ltac:(lia)) as H. unfold prints in H.
    rewrite Ha in H. replace (at_most_62 (utf8 (hebrew_numeral 11315))) with false in H by (vm_compute; reflexivity). exact H.
Qed.
Print Assumptions C54_additive_limits.

(** So no built-in system needs the heap for a [u8]. *)
Theorem C54_all_bytes : forall sys n, In sys builtin_systems -> n < 256 -> never_out_of_memory sys n.
Proof.
  intros sys n H Hn. unfold builtin_systems in H. rewrite !in_app_iff in H.
  pose proof C54_additive_limits as Hlim. rewrite Forall_forall in Hlim.
  assert (forall limit, In (sys, limit) additive_limits -> 256 <= limit -> never_out_of_memory sys n) as Ha.
  { intros limit Hin Hle. apply (Hlim _ Hin). lia. }
  assert (In sys positional_systems -> never_out_of_memory sys n) as Hpos by (intros Hin; apply C54_ten_digits; [assumption|lia]).
  assert (forall x, In x additive_limits -> 256 <= snd x) as Hbig.
  { intros x Hx. cbn in Hx. repeat destruct Hx as [<-|Hx]; try (vm_compute; discriminate). contradiction. }
  destruct H as [H|[H|[H|H]]].
  - apply Hpos. unfold positional_systems. rewrite !in_app_iff. auto.
  - assert (In sys (map fst (firstn 10 additive_limits))) as Hin by exact H.
    apply in_map_iff in Hin as ([s l] & E & Hin). cbn in E. subst s.
    assert (In (sys, l) additive_limits) as Hin' by (rewrite <- (firstn_skipn 10 additive_limits); apply in_or_app; left; exact Hin).
    apply (Ha l Hin'), (Hbig (sys, l) Hin').
  - destruct H as [<-|[<-|[<-|[<-|[]]]]].
    + apply Hpos. unfold positional_systems. rewrite !in_app_iff. right. left. cbn. auto.
    + apply Hpos. unfold positional_systems. rewrite !in_app_iff. right. left. cbn. auto.
    + apply Hpos. unfold positional_systems. rewrite !in_app_iff. right. left. cbn. auto.
    + apply (Ha 11315); [cbn; auto 15|vm_compute; discriminate].
  - apply Hpos. unfold positional_systems. rewrite !in_app_iff. auto.
Qed.
Print Assumptions C54_all_bytes.

Example C54_case :
  In (Hebrew, 11315) additive_limits /\
  (exists s, Hebrew no_heap U16 11314 = Ret (Ok s)) /\ Hebrew no_heap U16 11315 = Ret (Err (OutOfMemory 11315)) /\
  (exists s, try_format_digits no_heap U128 Thai (10 ^ 20 - 1) = Ret (Ok s)) /\
  (exists s, chinese true true (with_scale Mid) no_heap U64 (10 ^ 10 - 1) = Ret (Ok s)) /\
  (exists s, RomanUpper no_heap U8 255 = Ret (Ok s)).
Proof.
  split; [cbn; auto 15|]. split; [eexists; vm_compute; reflexivity|]. split; [vm_compute; reflexivity|].
  split; [eexists; vm_compute; reflexivity|]. split; eexists; vm_compute; reflexivity.
Qed.
