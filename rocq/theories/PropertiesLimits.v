(** * PropertiesLimits: C105, the first number of each system whose text does
    not fit in the struct *)

From Coq Require Import String.
From Verif Require Import Prelude Utf8Facts StringFacts History Outcome DigitFacts DigitOrder DigitSets PropertiesDigital
  AdditiveFacts AdditiveSets PropertiesAdditive ScriptFacts PropertiesScripts ChineseSigns ChineseNumeral PropertiesChinese
  PropertiesSystem PropertiesLength PropertiesSize PropertiesImage HeapMemory PropertiesHeap PropertiesAllocation PropertiesHeapFormat
  Additive Enumerated Ethiopic Hebrew Chinese System Cases.

(** The text does not fit: with alloc it is on the heap, without alloc there
    is an error. *)
Definition outside (c : config) (n : N) (r : outcome (result nominal_string error)) : Prop :=
  if has_alloc c then exists s, r = Ret (Ok s) /\ is_inline s = false else r = Ret (Err (OutOfMemory n)).

(** No number below the limit is outside and the limit is. *)
Definition first_outside (sys : system) (limit : option N) : Prop :=
  forall c T n, valid_config c -> Base.fits c T n ->
  match limit with
  | Some l => (n < l -> ~ outside c n (sys c T n)) /\ (n = l -> outside c n (sys c T n))
  | None => ~ outside c n (sys c T n)
  end.

(** The numbers from the limit on are outside and no others. *)
Definition outside_from (sys : system) (limit : option N) : Prop :=
  forall c T n, valid_config c -> Base.fits c T n ->
  (outside c n (sys c T n) <-> match limit with Some l => l <= n | None => False end).

Lemma from_first sys limit : outside_from sys limit -> first_outside sys limit.
Proof.
  intros H c T n Hc Hn. specialize (H c T n Hc Hn). destruct limit as [l|]; [|tauto].
  split; [intros Hl Ho; apply H in Ho; lia|intros ->; apply H; lia].
Qed.

(** ** From texts *)

Definition too_long (m : meaning) : Prop := match m with Shows cs => 62 < utf8_len cs | _ => False end.

Lemma means_outside c r n m : means c r n m -> (outside c n r <-> too_long m).
Proof.
  destruct m as [cs| |]; cbn [means too_long]; unfold outside, prints, at_most_62, utf8_len.
  - destruct (has_alloc c); cbn [orb].
    + intros (s & -> & _ & Hi & _). destruct (Nat.leb_spec (length (utf8 cs)) 62) as [H|H].
      * split; [intros (s' & [= <-] & E); congruence|lia].
      * split; [lia|]. intros _. exists s. split; [reflexivity|exact Hi].
    + destruct (Nat.leb_spec (length (utf8 cs)) 62) as [H|H].
      * intros (s & -> & _). split; [discriminate|lia].
      * intros ->. split; [lia|reflexivity].
  - intros [_ ->]. destruct (has_alloc c); split; try tauto; [intros (s & E & _)|]; discriminate.
  - intros ->. destruct (has_alloc c); split; try tauto; [intros (s & E & _)|]; discriminate.
Qed.

Lemma limit_from_texts sys limit :
  (forall n, n < 2 ^ 128 -> exists m, (forall c T, valid_config c -> Base.fits c T n -> means c (sys c T n) n m) /\
    match limit with Some l => (n < l -> ~ too_long m) /\ (n = l -> too_long m) | None => ~ too_long m end) ->
  first_outside sys limit.
Proof.
  intros H c T n Hc Hn. destruct (H n (fits_128 c T n Hc Hn)) as (m & Hm & Hl).
  pose proof (means_outside _ _ _ _ (Hm c T Hc Hn)). destruct limit; tauto.
Qed.

(** ** Digits *)

Lemma from_texts sys limit :
  (forall n, n < 2 ^ 128 -> exists m, (forall c T, valid_config c -> Base.fits c T n -> means c (sys c T n) n m) /\
    (too_long m <-> match limit with Some l => l <= n | None => False end)) ->
  outside_from sys limit.
Proof.
  intros H c T n Hc Hn. destruct (H n (fits_128 c T n Hc Hn)) as (m & Hm & Hl).
  pose proof (means_outside _ _ _ _ (Hm c T Hc Hn)). tauto.
Qed.

Lemma digits_limit (d : config -> digit_collection) digits z zb w limit :
  (forall c, valid_config c -> collects c (d c) digits /\ dc_fixed (d c) = false /\
     dc_has_zero_digit (d c) = z /\ dc_zero_based (d c) = zb) ->
  (length digits <? 256)%nat && (2 <=? length digits)%nat && (1 <=? w) && (w <=? 4) &&
  forallb (fun ch => (length (utf8 [ch]) =? N.to_nat w)%nat) digits = true ->
  match limit with
  | Some limit => first_with z zb (N.of_nat (length digits)) (N.to_nat (62 / w) + 1) = limit
  | None => 2 ^ 128 <= first_with z zb (N.of_nat (length digits)) (N.to_nat (62 / w) + 1)
  end ->
  outside_from (fun c T => try_format_digits c T (d c)) limit.
Proof.
  intros H Hk Hl. rewrite !andb_true_iff in Hk. destruct Hk as [[[[H1 H2] H4] H5] H6].
  apply Nat.ltb_lt in H1. apply Nat.leb_le in H2.
  assert (Forall (fun ch => length (utf8 [ch]) = N.to_nat w) digits) as Hd.
  { apply Forall_forall. intros ch Hch. rewrite forallb_forall in H6. apply Nat.eqb_eq, H6, Hch. }
  assert (enough z (N.of_nat (length digits))) as He by (unfold enough; destruct z; lia).
  assert (1 <= w <= 4) as Hw by lia.
  apply from_texts. intros n Hn.
  destruct (z || zb || negb (n =? 0)) eqn:Ez.
  - destruct (digit_numeral_exists z zb digits n He) as (cs & Hcs).
    { intros -> ->. cbn in Ez. destruct (N.eqb_spec n 0); [discriminate|assumption]. }
    exists (Shows cs). split.
    { intros c T Hc Hf. destruct (H c Hc) as (Hcol & Hfx & Hz & Hzb). cbn [means].
      apply yields_prints. eapply format_numeral; try eassumption; [apply small_fits; assumption|rewrite Hz; assumption|].
      rewrite Hz, Hzb. assumption. }
    pose proof (length_iff _ _ _ _ _ (N.to_nat (62 / w) + 1)%nat He Hcs ltac:(lia)) as Hlen.
    pose proof (numeral_width _ _ _ _ _ w (proj1 Hw) Hd Hcs) as Hwidth.
    assert (too_long (Shows cs) <-> (N.to_nat (62 / w) + 1 <= length cs)%nat) as E.
    { cbn [too_long]. unfold utf8_len. rewrite Hwidth.
      assert (w = 1 \/ w = 2 \/ w = 3 \/ w = 4) as [->|[->|[->| ->]]] by lia.
      - change (62 / 1) with 62. lia.
      - change (62 / 2) with 31. lia.
      - change (62 / 3) with 20. lia.
      - change (62 / 4) with 15. lia. }
    destruct limit as [limit|]; rewrite E, Hlen; lia.
  - exists NoZero. split.
    { intros c T Hc Hf. destruct (H c Hc) as (Hcol & Hfx & Hz & Hzb). cbn [means].
      apply orb_false_iff in Ez as [Ez En]. apply orb_false_iff in Ez as [-> ->].
      apply negb_false_iff, N.eqb_eq in En. rewrite En in *. split; [reflexivity|].
      unfold try_format_digits. destruct (depth_succ c Hc) as (k & ->).
      eapply format_digits_zero; try eassumption. apply small_fits; assumption. }
    destruct limit as [limit|]; cbn [too_long]; [|tauto]. split; [tauto|].
    apply orb_false_iff in Ez as [Ez En]. apply orb_false_iff in Ez as [-> ->]. apply negb_false_iff, N.eqb_eq in En.
    rewrite En. intros Hl0. unfold first_with in Hl. rewrite Nat.add_comm in Hl. pose proof (repunit_pos (N.of_nat (length digits)) (N.to_nat (62 / w))).
    cbn [Nat.add] in Hl. lia.
Qed.

Lemma plain_limit digits d w limit : plain_table digits d ->
  (length digits <? 256)%nat && (2 <=? length digits)%nat && (1 <=? w) && (w <=? 4) &&
  forallb (fun ch => (length (utf8 [ch]) =? N.to_nat w)%nat) digits = true ->
  (match limit with
   | Some limit => first_with (dc_has_zero_digit d) (dc_zero_based d) (N.of_nat (length digits)) (N.to_nat (62 / w) + 1) = limit
   | None => 2 ^ 128 <= first_with (dc_has_zero_digit d) (dc_zero_based d) (N.of_nat (length digits)) (N.to_nat (62 / w) + 1)
   end -> outside_from (fun c T => try_format_digits c T d) limit) /\
  (match limit with
   | Some limit => first_with (dc_has_zero_digit d) false (N.of_nat (length digits)) (N.to_nat (62 / w) + 1) = limit
   | None => 2 ^ 128 <= first_with (dc_has_zero_digit d) false (N.of_nat (length digits)) (N.to_nat (62 / w) + 1)
   end -> outside_from (fun c T => try_format_digits c T (one_based d)) limit).
Proof.
  intros (Hd & Hl & Hs) Hk.
  assert (forall c, valid_config c -> collects c d digits) as Hcol.
  { intros c Hc. apply builtin_collects; try assumption. destruct Hd as [[-> _]|[-> _]]; auto. }
  assert (dc_fixed d = false) as Hf by (destruct Hd as [[-> _]|[-> _]]; reflexivity).
  split; intros H.
  - apply (digits_limit (fun _ => d) digits (dc_has_zero_digit d) (dc_zero_based d) w); auto.
  - apply (digits_limit (fun _ => one_based d) digits (dc_has_zero_digit d) false w); [|assumption|assumption].
    intros c Hc. split; [apply collects_one_based; auto|auto].
Qed.

(** The fixed sets fall back to [CjkDecimal]. *)
Lemma fixed_limit d symbols l :
  (forall c T n, valid_config c -> Base.fits c T n ->
    if n =? 0 then try_format_digits c T d n = Ret (Err NoZeroSymbol)
    else if n <=? N.of_nat (length symbols) then
      prints c (try_format_digits c T d n) n [digit_char symbols (n - 1)]
    else try_format_digits c T d n = try_format_digits c T CjkDecimal n) ->
  N.of_nat (length symbols) < l -> outside_from (fun c T => try_format_digits c T CjkDecimal) (Some l) ->
  outside_from (fun c T => try_format_digits c T d) (Some l).
Proof.
  intros H Hl HC c T n Hc Hn. specialize (H c T n Hc Hn). specialize (HC c T n Hc Hn). cbn beta iota in HC |- *.
  destruct (N.eqb_spec n 0) as [E0|Hn0].
  { split; [|lia]. unfold outside. rewrite H. destruct (has_alloc c); [intros (s & E & _)|]; discriminate. }
  destruct (N.leb_spec n (N.of_nat (length symbols))) as [Hle|Hgt].
  - rewrite (means_outside c _ n (Shows [digit_char symbols (n - 1)]) H). cbn [too_long].
    rewrite utf8_len_single. pose proof (len_utf8_bounds (digit_char symbols (n - 1))). lia.
  - rewrite H. exact HC.
Qed.

(** ** Additive systems *)

(** The longest text of a number below a bound. *)
Fixpoint longest (tbl : table) (bound : N) : N :=
  match tbl with
  | [] => 0
  | (s, v) :: rest =>
      if v =? 0 then 0
      else let q := (bound - 1) / v in
        if q =? 0 then longest rest bound
        else N.max ((q - 1) * utf8_len s + longest rest v) (q * utf8_len s + longest rest (bound - q * v))
  end.

Lemma longest_bound tbl : forall n bound, n < bound -> utf8_len (gtext tbl n) <= longest tbl bound.
Proof.
  induction tbl as [|[s v] rest IH]; intros n bound Hn; [cbn; lia|]. cbn [gtext longest].
  destruct (N.eqb_spec v 0) as [|Hv]; [cbn; lia|]. cbn zeta.
  rewrite utf8_len_app, utf8_len_copies.
  pose proof (N.div_mod' n v) as En. pose proof (N.mod_lt n v Hv) as Hm.
  pose proof (N.div_mod' (bound - 1) v) as Eb. pose proof (N.mod_lt (bound - 1) v Hv) as Hmb.
  assert (n / v <= (bound - 1) / v) as Hq by (apply N.div_le_mono; lia).
  destruct (N.eqb_spec ((bound - 1) / v) 0) as [E|E].
  - assert (n / v = 0) as E0 by (apply N.le_0_r; rewrite <- E; exact Hq). rewrite E0 in *. rewrite N.mul_0_l, N.add_0_l. apply IH. lia.
  - set (q := (bound - 1) / v) in *. destruct (N.eq_dec (n / v) q) as [Eq|Ne].
    + rewrite Eq in *. pose proof (IH (n mod v) (bound - q * v) ltac:(lia)). lia.
    + pose proof (IH (n mod v) v Hm). assert (n / v <= q - 1) as Hle by lia.
      pose proof (N.mul_le_mono_r _ _ (utf8_len s) Hle). lia.
Qed.

Lemma additive_limit sys tbl l : table_ok sys tbl ->
  (longest tbl l <=? 62) && (62 <? utf8_len (gtext tbl l)) && (0 <? l) = true -> first_outside sys (Some l).
Proof.
  intros [Hs Hg] Hk. rewrite !andb_true_iff, N.leb_le, !N.ltb_lt in Hk. destruct Hk as [[H1 H2] H3].
  apply limit_from_texts. intros n _. destruct (N.eqb_spec n 0) as [->|Hn0].
  - destruct (zero_of tbl) as [z|] eqn:Ez.
    + exists (Shows z). split; [intros c T Hc Hn; apply yields_prints; eapply system_zero; eassumption|].
      split; [|lia]. intros _. cbn [too_long]. destruct (good_table_parts tbl Hg) as (_ & _ & _ & _ & H0).
      destruct (H0 z Ez). lia.
    + exists NoZero. split; [intros c T Hc Hn; split; [reflexivity|]; eapply system_no_zero; eassumption|].
      split; [intros _ []|lia].
  - exists (Shows (gtext tbl n)). split; [intros c T Hc Hn; apply yields_prints; eapply system_positive; eassumption|].
    cbn [too_long]. split; [|intros ->; exact H2]. intros Hn. pose proof (longest_bound tbl n l Hn). lia.
Qed.

(** ** Enumerated systems *)

Lemma circled_limit : first_outside CircledNumber None.
Proof.
  apply limit_from_texts. intros n _. destruct (N.leb_spec n 50) as [H|H].
  - exists (Shows [circled n]). split; [intros c T Hc _; apply (C33_circled c T n Hc); assumption|].
    cbn [too_long]. rewrite utf8_len_single. pose proof (len_utf8_bounds (circled n)). lia.
  - exists TooBig. split; [intros c T Hc _; apply (C33_circled c T n Hc); assumption|]. intros [].
Qed.

Lemma double_circled_limit : first_outside DoubleCircledNumber None.
Proof.
  apply limit_from_texts. intros n _. destruct (N.eqb_spec n 0) as [->|Hn0]; [|destruct (N.leb_spec n 10) as [H|H]].
  - exists NoZero. split; [intros c T Hc _; split; [reflexivity|]; apply (C33_double_circled c T 0 Hc); reflexivity|]. intros [].
  - exists (Shows [double_circled n]). split; [intros c T Hc _; apply (C33_double_circled c T n Hc); lia|].
    cbn [too_long]. rewrite utf8_len_single. pose proof (len_utf8_bounds (double_circled n)). lia.
  - exists TooBig. split; [intros c T Hc _; apply (C33_double_circled c T n Hc); assumption|]. intros [].
Qed.

(** ** Hebrew *)

Lemma hebrew_limit : first_outside Hebrew (Some 11315).
Proof.
  apply limit_from_texts. intros n _. destruct (N.eqb_spec n 0) as [->|Hn0].
  - exists NoZero. split; [intros c T _ _; split; [reflexivity|]; apply C36_no_zero|]. split; [intros _ []|lia].
  - exists (Shows (hebrew_numeral n)). split; [intros c T Hc Hn; apply yields_prints, hebrew_yields; assumption|].
    cbn [too_long]. split; [|intros ->; vm_compute; reflexivity]. intros Hn.
    pose proof (all_from_spec (fun n => utf8_len (hebrew_numeral n) <=? 62) (N.to_nat 11315) 0 n) as H.
    rewrite N2Nat.id in H. apply N.le_ngt, N.leb_le, H; [vm_compute; reflexivity|lia].
Qed.

(** ** Ethiopic *)

Lemma ethiopic_three_bytes n cs : ethiopic_text n cs -> utf8_len cs = 3 * N.of_nat (length cs).
Proof.
  assert (forall ch, 0x1369 <= ch <= 0x137C -> len_utf8 ch = 3) as Hw.
  { intros ch H. unfold len_utf8. destruct (N.ltb_spec ch 0x80); [lia|]. destruct (N.ltb_spec ch 0x800); [lia|].
    destruct (N.ltb_spec ch 0x10000); [reflexivity|lia]. }
  induction 1; rewrite ?utf8_len_app, ?utf8_len_cons, ?app_length; cbn [length] in *; rewrite ?utf8_len_app, ?utf8_len_cons in *.
  1: destruct (N.eqb_spec t 0); destruct (N.eqb_spec o 0); cbn [length app]; rewrite ?utf8_len_cons, ?Hw by lia; change (utf8_len []) with 0; lia.
  all: rewrite ?Hw by lia; change (utf8_len []) with 0; lia.
Qed.

Lemma ethiopic_below_100 n cs : ethiopic_text n cs -> n < 100 -> (length cs <= 2)%nat /\ (n < 11 -> (length cs <= 1)%nat).
Proof.
  destruct 1 as [t o| | | | | | | |]; intros Hn; try lia.
  destruct (N.eqb_spec t 0); destruct (N.eqb_spec o 0); cbn [length app]; lia.
Qed.

Lemma ethiopic_group n cs : ethiopic_text n cs -> n < 10000 ->
  (length cs <= 5)%nat /\ (n < 1111 -> (length cs <= 4)%nat) /\ (n <= 111 -> (length cs <= 3)%nat) /\ (n < 111 -> (length cs <= 2)%nat).
Proof.
  intros H. destruct (N.lt_ge_cases n 100) as [H'|H'].
  { pose proof (ethiopic_below_100 n cs H H'). lia. }
  destruct H as [t o| |b cs Hb H|a cs Ha Ha' H|a b cs cs1 Ha Ha' Hb H H1| | | |]; intros Hn; try lia;
    rewrite ?app_length; cbn [length]; rewrite ?app_length; cbn [length]; try lia.
  - pose proof (ethiopic_below_100 b cs H Hb). lia.
  - pose proof (ethiopic_below_100 a cs H Ha'). lia.
  - pose proof (ethiopic_below_100 a cs H Ha'). pose proof (ethiopic_below_100 b cs1 H1 Hb). lia.
Qed.

(** One group further: at most six more signs below the number of the same
    shape. *)
Lemma ethiopic_further H x : (1 < H) ->
  (forall n cs, ethiopic_text n cs -> (n < H -> (length cs <= x)%nat) /\ (n <= H -> (length cs <= S x)%nat)) ->
  forall n cs, ethiopic_text n cs -> (n < H * 10000 + 1111 -> (length cs <= x + 6)%nat) /\
    (n <= H * 10000 + 1111 -> (length cs <= S (x + 6))%nat).
Proof.
  intros HH IH n cs Hn. destruct (N.lt_ge_cases n 10000) as [H'|H'].
  { pose proof (ethiopic_group n cs Hn H'). lia. }
  destruct Hn as [t o| |b cs Hb Hn|a cs Ha Ha' Hn|a b cs cs1 Ha Ha' Hb Hn H1| |l cs Hl Hn|h cs Hh Hn|h l cs cs1 Hh Hl Hn H1]; try nia;
    rewrite ?app_length; cbn [length]; rewrite ?app_length; cbn [length]; try lia.
  - pose proof (ethiopic_group l cs Hn Hl). lia.
  - pose proof (IH h cs Hn). lia.
  - pose proof (IH h cs Hn). pose proof (ethiopic_group l cs1 H1 Hl). lia.
Qed.

Lemma ethiopic_limit : first_outside Ethiopic (Some 111111111111111).
Proof.
  apply limit_from_texts. intros n _. destruct (N.eqb_spec n 0) as [->|Hn0].
  - exists NoZero. split; [intros c T _ _; split; [reflexivity|]; apply C34_no_zero|]. split; [intros _ []|lia].
  - destruct (ethiopic_text_exists n ltac:(lia)) as (cs & Hcs). exists (Shows cs).
    split; [intros c T Hc Hn; apply yields_prints, ethiopic_yields; try assumption; apply ethiopic_text_numeral, Hcs|].
    cbn [too_long]. rewrite (ethiopic_three_bytes n cs Hcs). split.
    + intros Hn.
      assert (forall n cs, ethiopic_text n cs -> (n < 111 -> (length cs <= 2)%nat) /\ (n <= 111 -> (length cs <= 3)%nat)) as H0.
      { intros i l Hi. split; intros Hlt; apply (ethiopic_group i l Hi); lia. }
      pose proof (ethiopic_further 111 _ ltac:(lia) H0) as H1.
      pose proof (ethiopic_further (111 * 10000 + 1111) _ ltac:(lia) H1) as H2.
      pose proof (ethiopic_further ((111 * 10000 + 1111) * 10000 + 1111) _ ltac:(lia) H2 n cs Hcs). lia.
    + intros ->.
      assert (ethiopic_text 11 [0x1372; 0x1369]) as E11 by (apply (EthiopicTwoSigns 1 1); lia).
      assert (ethiopic_text 1111 ([0x1372; 0x1369] ++ [0x137B] ++ [0x1372; 0x1369])) as E4 by (apply (EthiopicHundredsAnd 11 11); try lia; assumption).
      assert (ethiopic_text 111 [0x137B; 0x1372; 0x1369]) as E3 by (apply (EthiopicHundredAnd 11); try lia; assumption).
      assert (exists l, ethiopic_text 111111111111111 l /\ length l = 21%nat) as (l & Hl & El).
      { eexists. split; [|shelve].
        apply (EthiopicTenThousandsAnd 11111111111 1111); try lia; [|exact E4].
        apply (EthiopicTenThousandsAnd 1111111 1111); try lia; [|exact E4].
        apply (EthiopicTenThousandsAnd 111 1111); try lia; [|exact E4].
        exact E3.
        Unshelve. reflexivity. }
      replace cs with l; [lia|]. eapply ethiopic_numeral_fun; apply ethiopic_text_numeral; eassumption.
Qed.

(** ** Chinese *)

(** Ten thousand and the higher signs are powers of ten; in the scales by
    myriads, of ten thousand. *)
Lemma large_power sc r : exists e, 4 <= e /\ large_value sc r = 10 ^ e /\ (sc <> ShortScaling -> exists j, e = 4 * j).
Proof.
  destruct sc; cbn [large_value].
  - exists (4 + N.of_nat r). split; [lia|]. split; [reflexivity|]. congruence.
  - exists (4 * (N.of_nat r + 1)). split; [lia|]. split; [reflexivity|]. eauto.
  - destruct r as [|r].
    + exists 4. split; [lia|]. split; [reflexivity|]. exists 1. reflexivity.
    + exists (8 * N.of_nat (S r)). split; [lia|]. split; [reflexivity|]. exists (2 * N.of_nat (S r)). lia.
  - exists (4 * 2 ^ N.of_nat r). pose proof (N.pow_nonzero 2 (N.of_nat r)). split; [lia|]. split; [reflexivity|]. eauto.
Qed.

Lemma gap_power sc e m : (sc <> ShortScaling -> exists j, e = 4 * j) -> 4 <= e -> m < 10 ^ e -> gap sc (10 ^ e) m -> m < 10 ^ (e - 1).
Proof.
  intros He H4 Hm Hg.
  assert (10 ^ e = 10 * 10 ^ (e - 1)) as Ee by (rewrite <- N.pow_succ_r'; f_equal; lia).
  destruct sc; cbn [gap] in Hg; [lia|..];
    (destruct He as (j & ->); [discriminate|]; destruct Hg as (k & Hk & Hk');
     assert (4 * k < 4 * j) by (apply (N.pow_lt_mono_r_iff 10); lia);
     pose proof (N.pow_le_mono_r 10 (4 * k + 3) (4 * j - 1) ltac:(lia) ltac:(lia)); lia).
Qed.

(** [k] decimal digits take at most 2 [k] - 1 signs, and one less below [k]
    ones in a row. *)
Definition short_enough (n : N) (signs : N) (k : N) : Prop :=
  (n < 10 ^ k -> signs + 1 <= 2 * k) /\ (9 * n + 1 < 10 ^ k -> signs + 2 <= 2 * k).

Definition short_enoughb (n signs k : N) : bool :=
  implb (n <? 10 ^ k) (signs + 1 <=? 2 * k) && implb (9 * n + 1 <? 10 ^ k) (signs + 2 <=? 2 * k).

Lemma small_signs informal n k : 1 <= n < 10000 -> short_enough n (N.of_nat (length (css_longhand informal n))) k.
Proof.
  intros Hn.
  assert (forallb (short_enoughb n (N.of_nat (length (css_longhand informal n)))) [0; 1; 2; 3; 4; 5] = true) as H.
  { pose proof (below_10000 (fun n => forallb (short_enoughb n (N.of_nat (length (css_longhand true n)))) [0; 1; 2; 3; 4; 5] &&
      forallb (short_enoughb n (N.of_nat (length (css_longhand false n)))) [0; 1; 2; 3; 4; 5])) as H.
    specialize (H ltac:(vm_compute; reflexivity) n Hn). apply andb_prop in H. destruct informal; tauto. }
  assert (forall k, In k [0; 1; 2; 3; 4; 5] -> short_enough n (N.of_nat (length (css_longhand informal n))) k) as H'.
  { intros i Hi. rewrite forallb_forall in H. specialize (H i Hi). unfold short_enoughb in H. apply andb_prop in H as [H1 H2].
    split; intros Hlt; apply N.ltb_lt in Hlt; [rewrite Hlt in H1; apply N.leb_le, H1|rewrite Hlt in H2; apply N.leb_le, H2]. }
  destruct (N.lt_ge_cases k 5) as [Hk|Hk].
  - apply H'. assert (k = 0 \/ k = 1 \/ k = 2 \/ k = 3 \/ k = 4) as [->|[->|[->|[->| ->]]]] by lia; cbn; auto 10.
  - destruct (H' 5) as [_ H5]; [cbn; auto 10|]. change (10 ^ 5) with 100000 in H5. split; intros _; lia.
Qed.

Lemma numeral_signs sc informal n l : chinese_numeral sc informal n l -> 1 <= n -> forall k, short_enough n (N.of_nat (length l)) k.
Proof.
  induction 1 as [i n Hn|i n r a Hr Hle Ht Ha IHa Hm|i n r a b Hr Hle Ht Ha IHa Hm Hg Hb IHb|i n r a b Hr Hle Ht Ha IHa Hm Hg Hb IHb]; intros H1 k.
  { apply small_signs. lia. }
  all: destruct (large_power sc r) as (e & He & Ev & Hj); rewrite Ev in *.
  all: assert (10 ^ e <> 0) as Hv by (apply N.pow_nonzero; lia).
  all: pose proof (N.div_mod' n (10 ^ e)) as En; pose proof (N.mod_lt n (10 ^ e) Hv) as Hlt.
  all: set (q := n / 10 ^ e) in *; set (m := n mod 10 ^ e) in *.
  all: assert (1 <= q) as Hq by (apply N.div_le_lower_bound; lia).
  all: rewrite ?app_length; cbn [length].
  all: assert (forall x, n + x < 10 ^ k + x -> e < k /\ 10 ^ k = 10 ^ (k - e) * 10 ^ e) as Hk
    by (intros x Hx; assert (e < k) by (apply (N.pow_lt_mono_r_iff 10); lia); split; [assumption|rewrite <- N.pow_add_r; f_equal; lia]).
  all: assert (n < 10 ^ k -> e < k /\ N.of_nat (length a) + 1 <= 2 * (k - e)) as Ha1
    by (intros Hlt'; destruct (Hk 0 ltac:(lia)) as [Hke Ek]; split; [assumption|]; apply (proj1 (IHa Hq (k - e))); rewrite Ek in Hlt'; nia).
  - split; intros Hlt'; [|assert (n < 10 ^ k) by lia]; destruct Ha1; lia.
  - pose proof (gap_power sc e m Hj He Hlt Hg) as Hmg.
    pose proof (proj1 (IHb ltac:(lia) (e - 1)) Hmg) as Hb1.
    split; intros Hlt'; [|assert (n < 10 ^ k) by lia]; destruct Ha1; lia.
  - pose proof (proj1 (IHb ltac:(lia) e) Hlt) as Hb1. split; intros Hlt'; [destruct (Ha1 Hlt'); lia|].
    destruct (Ha1 ltac:(lia)) as [Hke Ha2]. destruct (Hk 0 ltac:(lia)) as [_ Ek].
    destruct (N.lt_ge_cases (9 * q + 1) (10 ^ (k - e))) as [Hs|Hs].
    + pose proof (proj2 (IHa Hq (k - e)) Hs). lia.
    + assert (9 * m + 1 < 10 ^ e) as Hs' by (rewrite Ek in Hlt'; nia).
      pose proof (proj2 (IHb ltac:(lia) e) Hs'). lia.
Qed.

Lemma glyph_three traditional o s : ok_sign s = true -> len_utf8 (glyph (script traditional o) s) = 3.
Proof.
  intros Hs.
  assert (forallb (fun ch => len_utf8 ch =? 3) (script traditional o) = true) as H
    by (unfold script; destruct traditional; destruct (usage o); vm_compute; reflexivity).
  assert (length (script traditional o) = 24%nat) as Hl by (unfold script; destruct traditional; destruct (usage o); reflexivity).
  rewrite forallb_forall in H. apply N.eqb_eq, H. unfold glyph. apply nth_In. rewrite Hl.
  destruct s as [d|p|r]; cbn [ok_sign sign_index] in *; lia.
Qed.

Lemma signs_three traditional o l : forallb ok_sign l = true ->
  utf8_len (map (glyph (script traditional o)) l) = 3 * N.of_nat (length l).
Proof.
  induction l as [|s l IH]; cbn [forallb map length]; intros H; [reflexivity|]. apply andb_prop in H as [H1 H2].
  rewrite utf8_len_cons, glyph_three, IH by assumption. lia.
Qed.

Lemma chinese_limit traditional formal o : first_outside (chinese traditional formal o) (Some 11111111111).
Proof.
  apply limit_from_texts. intros n H128.
  destruct (match scale o with Short => 10 ^ 15 <=? n | _ => false end) eqn:E.
  - exists TooBig. assert (scale o = Short /\ 10 ^ 15 <= n) as [Es Hge]
      by (destruct (scale o); try discriminate; apply N.leb_le in E; auto).
    split; [intros c T Hc Hn; apply chinese_out; assumption|]. split; [intros _ []|lia].
  - assert (in_range o n) as Hr by (intros Es; rewrite Es in E; apply N.leb_gt in E; exact E).
    exists (Shows (write (script traditional o) (chinese_t formal (scale o) n))).
    split; [intros c T Hc Hn; apply yields_prints, chinese_writes; assumption|].
    assert (Base.fits wide U128 n) as Hw by exact H128.
    pose proof (chinese_t_numeral formal (scale o) n Hw Hr) as Hnum.
    pose proof (numeral_neat _ _ _ _ Hnum) as (_ & Hok & _). cbn [too_long]. unfold write. rewrite signs_three by assumption. split.
    + intros Hn. destruct (N.eq_dec n 0) as [->|Hn0]; [destruct (scale o), formal; vm_compute; discriminate|].
      pose proof (proj2 (numeral_signs _ _ _ _ Hnum ltac:(lia) 11) ltac:(change (10 ^ 11) with 100000000000; lia)). lia.
    + intros ->. destruct (scale o), formal; vm_compute; reflexivity.
Qed.

(** ** C105 *)

(** The limits, in the order of [builtin_systems]: the digit collections, also
    counting from one, the hexadecimal sets, the additive, enumerated, Ethiopic
    and Hebrew systems, and the Chinese ones. *)
Definition digit_limits : list (option N) :=
  [None; Some (10 ^ 31); Some (10 ^ 31); Some (10 ^ 31)] ++ repeat (Some (10 ^ 20)) 17 ++ [None; None; None; None] ++
  [Some ((46 ^ 21 - 1) / 45 - 1); Some ((47 ^ 21 - 1) / 46 - 1); Some ((46 ^ 21 - 1) / 45 - 1); Some ((47 ^ 21 - 1) / 46 - 1);
   Some ((14 ^ 21 - 1) / 13 - 1); Some ((14 ^ 21 - 1) / 13 - 1)].

Definition one_based_limits : list (option N) :=
  [None; Some (10 ^ 31); Some (10 ^ 31); Some (10 ^ 31)] ++ repeat (Some (10 ^ 20)) 17 ++ [None; None; None; None] ++
  [Some ((46 ^ 21 - 1) / 45); Some ((47 ^ 21 - 1) / 46); Some ((46 ^ 21 - 1) / 45); Some ((47 ^ 21 - 1) / 46);
   Some ((14 ^ 21 - 1) / 13); Some ((14 ^ 21 - 1) / 13)].

Definition builtin_limits : list (option N) :=
  (digit_limits ++ [Some (10 ^ 20); Some (10 ^ 20)]) ++
  (one_based_limits ++ [Some ((10 ^ 21 - 1) / 9); Some ((12 ^ 21 - 1) / 11)]) ++
  [None; None; None; None] ++
  [Some 7884888; Some 7884888; Some 244111; Some 253111; Some 171111; Some 64111; Some 65221; Some 64111; Some 65221; Some 64111] ++
  [None; None; Some 111111111111111; Some 11315] ++
  repeat (Some 11111111111) 32.

Ltac plain_table_here :=
  split; [(left; split; [reflexivity|vm_compute; reflexivity]) + (right; split; [reflexivity|vm_compute; reflexivity])|split; vm_compute; reflexivity].

Ltac plain_case width :=
  refine (proj1 (plain_limit _ _ width _ _ _) _); [plain_table_here|vm_compute; reflexivity|vm_compute; first [reflexivity|discriminate]].

Ltac one_based_case width :=
  refine (proj2 (plain_limit _ _ width _ _ _) _); [plain_table_here|vm_compute; reflexivity|vm_compute; first [reflexivity|discriminate]].

Lemma plain_limits : Forall2 outside_from (map (fun d c T => try_format_digits c T d) digit_collections) digit_limits.
Proof.
  cbn [map digit_collections digit_limits app repeat].
  repeat (apply Forall2_cons; [first [plain_case 1|plain_case 2|plain_case 3]|]). apply Forall2_nil.
Qed.

Lemma one_based_plain_limits :
  Forall2 outside_from (map (fun d c T => try_format_digits c T (one_based d)) digit_collections) one_based_limits.
Proof.
  cbn [map digit_collections one_based_limits app repeat].
  repeat (apply Forall2_cons; [first [one_based_case 1|one_based_case 2|one_based_case 3]|]). apply Forall2_nil.
Qed.

Lemma Forall2_weaken {A B} (R R' : A -> B -> Prop) l ls : (forall x y, R x y -> R' x y) -> Forall2 R l ls -> Forall2 R' l ls.
Proof. intros H. induction 1; constructor; auto. Qed.

Lemma Forall2_nth {A B} (R : A -> B -> Prop) l ls k x y : Forall2 R l ls -> nth_error l k = Some x -> nth_error ls k = Some y -> R x y.
Proof.
  intros H. revert k. induction H as [|a b l ls Hab _ IH]; intros [|k] Hx Hy; try discriminate; cbn in *; [congruence|].
  eapply IH; eassumption.
Qed.

Lemma Forall2_repeat {A B} (R : A -> B -> Prop) l y k : length l = k -> (forall x, In x l -> R x y) -> Forall2 R l (repeat y k).
Proof.
  intros <-. induction l as [|x l IH]; intros H; cbn [length repeat]; constructor; [apply H; left; reflexivity|].
  apply IH. intros z Hz. apply H. right. exact Hz.
Qed.

(** The digit systems: the texts get no shorter, so all numbers from the first
    are outside. *)
Theorem C105_digits : Forall2 outside_from digit_systems (firstn 70 builtin_limits).
Proof.
  change (firstn 70 builtin_limits) with
    ((digit_limits ++ [Some (10 ^ 20); Some (10 ^ 20)]) ++
     (one_based_limits ++ [Some ((10 ^ 21 - 1) / 9); Some ((12 ^ 21 - 1) / 11)]) ++ [None; None; None; None]).
  unfold digit_systems.
  assert (outside_from (fun c T => try_format_digits c T CjkDecimal) (Some (10 ^ 20))) as Hcjk
    by (eapply (Forall2_nth _ _ _ 7 _ _ plain_limits); reflexivity).
  pose proof C18_stems_and_branches as H18. rewrite Forall_forall in H18.
  assert (forall c, valid_config c -> collects c (HexUpper c) hex_capitals /\ collects c (HexLower c) hex_smalls) as Hhex.
  { intros c Hc. split; refine (hex_collects c _ Hc _ _ _); vm_compute; reflexivity. }
  rewrite !map_app, <- !app_assoc.
  apply Forall2_app.
  { exact plain_limits. }
  apply Forall2_app.
  { constructor; [|constructor; [|constructor]].
    - apply (fixed_limit _ stems); [apply (H18 (CjkHeavenlyStem, stems)); left; reflexivity|reflexivity|exact Hcjk].
    - apply (fixed_limit _ branches); [apply (H18 (CjkEarthlyBranch, branches)); right; left; reflexivity|reflexivity|exact Hcjk]. }
  apply Forall2_app.
  { exact one_based_plain_limits. }
  apply Forall2_app.
  { constructor; [|constructor; [|constructor]].
    - apply (digits_limit (fun _ => one_based CjkHeavenlyStem) stems false false 3); [|vm_compute; reflexivity|vm_compute; reflexivity].
      intros c Hc. split; [apply collects_one_based; apply (fixed_collects c Hc)|auto].
    - apply (digits_limit (fun _ => one_based CjkEarthlyBranch) branches false false 3); [|vm_compute; reflexivity|vm_compute; reflexivity].
      intros c Hc. split; [apply collects_one_based; apply (fixed_collects c Hc)|auto]. }
  constructor; [|constructor; [|constructor; [|constructor; [|constructor]]]].
    - apply (digits_limit HexUpper hex_capitals true true 1); [|vm_compute; reflexivity|vm_compute; discriminate].
      intros c Hc. split; [apply (Hhex c Hc)|auto].
    - apply (digits_limit HexLower hex_smalls true true 1); [|vm_compute; reflexivity|vm_compute; discriminate].
      intros c Hc. split; [apply (Hhex c Hc)|auto].
    - apply (digits_limit (fun c => one_based (HexUpper c)) hex_capitals true false 1); [|vm_compute; reflexivity|vm_compute; discriminate].
      intros c Hc. split; [apply collects_one_based; apply (Hhex c Hc)|auto].
    - apply (digits_limit (fun c => one_based (HexLower c)) hex_smalls true false 1); [|vm_compute; reflexivity|vm_compute; discriminate].
      intros c Hc. split; [apply collects_one_based; apply (Hhex c Hc)|auto].
Qed.
Print Assumptions C105_digits.

(** For each built-in system, the first number whose text does not fit in the
    struct; [None] where all texts fit. *)
Theorem C105_first_outside : Forall2 first_outside builtin_systems builtin_limits.
Proof.
  unfold builtin_systems. change builtin_limits with (firstn 70 builtin_limits ++
    [Some 7884888; Some 7884888; Some 244111; Some 253111; Some 171111; Some 64111; Some 65221; Some 64111; Some 65221; Some 64111] ++
    [None; None; Some 111111111111111; Some 11315] ++ repeat (Some 11111111111) 32).
  apply Forall2_app.
  { eapply Forall2_weaken; [exact from_first|exact C105_digits]. }
  apply Forall2_app.
  { apply Forall2_cons; [apply (additive_limit _ _ _ roman_upper_ok); vm_compute; reflexivity|].
    apply Forall2_cons; [apply (additive_limit _ _ _ roman_lower_ok); vm_compute; reflexivity|].
    apply Forall2_cons; [apply (additive_limit _ _ _ armenian_upper_ok); vm_compute; reflexivity|].
    apply Forall2_cons; [apply (additive_limit _ _ _ armenian_lower_ok); vm_compute; reflexivity|].
    apply Forall2_cons; [apply (additive_limit _ _ _ georgian_ok); vm_compute; reflexivity|].
    apply Forall2_cons; [apply (additive_limit _ _ _ japanese_formal_ok); vm_compute; reflexivity|].
    apply Forall2_cons; [apply (additive_limit _ _ _ japanese_informal_ok); vm_compute; reflexivity|].
    apply Forall2_cons; [apply (additive_limit _ _ _ korean_hangul_formal_ok); vm_compute; reflexivity|].
    apply Forall2_cons; [apply (additive_limit _ _ _ korean_hanja_informal_ok); vm_compute; reflexivity|].
    apply Forall2_cons; [apply (additive_limit _ _ _ korean_hanja_formal_ok); vm_compute; reflexivity|].
    apply Forall2_nil. }
  apply Forall2_app.
  { apply Forall2_cons; [apply circled_limit|]. apply Forall2_cons; [apply double_circled_limit|].
    apply Forall2_cons; [apply ethiopic_limit|]. apply Forall2_cons; [apply hebrew_limit|]. apply Forall2_nil. }
  apply Forall2_repeat; [reflexivity|]. intros sys H. unfold chinese_systems in H.
  apply in_flat_map in H as (traditional & _ & H). apply in_flat_map in H as (formal & _ & H).
  apply in_flat_map in H as (u & _ & H). apply in_map_iff in H as (sc & <- & _). apply chinese_limit.
Qed.
Print Assumptions C105_first_outside.

(** The smallest limit is that of Hebrew: below it, so in particular for every
    byte, no built-in system leaves the struct. *)
Lemma below_every_limit sys limit n : Forall2 first_outside sys limit ->
  forallb (fun l => match l with Some l => n <? l | None => true end) limit = true ->
  forall s c T, In s sys -> valid_config c -> Base.fits c T n -> ~ outside c n (s c T n).
Proof.
  induction 1 as [|s l sys limit H _ IH]; [intros _ s c T []|]. cbn [forallb]. intros Hl s' c T Hin Hc Hn.
  apply andb_prop in Hl as [Hl1 Hl2]. destruct Hin as [<-|Hin]; [|apply IH; assumption].
  specialize (H c T n Hc Hn). destruct l as [l|]; [|exact H]. apply H, N.ltb_lt, Hl1.
Qed.

Theorem C105_small_numbers : forall sys c T n, In sys builtin_systems -> valid_config c -> Base.fits c T n -> n < 11315 ->
  ~ outside c n (sys c T n).
Proof.
  intros sys c T n Hin Hc Hn Hlt. eapply below_every_limit; try eassumption; [exact C105_first_outside|].
  assert (forallb (fun l => match l with Some l => 11315 <=? l | None => true end) builtin_limits = true) as H by (vm_compute; reflexivity).
  rewrite forallb_forall in H |- *. intros [l|] Hl; [|reflexivity]. specialize (H _ Hl). cbn in H. apply N.leb_le in H. apply N.ltb_lt. lia.
Qed.
Print Assumptions C105_small_numbers.

Theorem C105_bytes : forall sys c n, In sys builtin_systems -> valid_config c -> Base.fits c U8 n -> ~ outside c n (sys c U8 n).
Proof.
  intros sys c n Hin Hc Hn. apply C105_small_numbers; try assumption. change (n < 2 ^ 8) in Hn. change (2 ^ 8) with 256 in Hn. lia.
Qed.
Print Assumptions C105_bytes.

(** With the heap in memory: below its limit a system asks nothing of the
    allocator, whatever the memory and the allocator. *)
Theorem C105_without_allocator : forall k hs sys limit pf T n m s,
  nth_error memory_systems k = Some (hs, sys) -> nth_error builtin_limits k = Some limit ->
  valid_platform pf -> Base.fits (target pf) T n -> match limit with Some l => n < l | None => True end ->
  sys (target pf) T n = Ret (Ok s) ->
  exists m' i, hs pf T n m = Done m' (Ok (HInline i)) /\ calls m' = calls m /\ same_blocks m m'.
Proof.
  intros k hs sys limit pf T n m s Hk Hl Hp Hn Hlt E.
  assert (nth_error builtin_systems k = Some sys) as Hb by (rewrite <- memory_systems_all, nth_error_map, Hk; reflexivity).
  pose proof (Forall2_nth _ _ _ k _ _ C105_first_outside Hb Hl (target pf) T n (proj1 Hp) Hn) as H.
  assert (~ outside (target pf) n (sys (target pf) T n)) as Ho by (destruct limit as [l|]; [apply H, Hlt|exact H]).
  destruct (builtin_consistent sys (nth_error_In _ _ Hb) n) as (mean & Hm).
  specialize (Hm (target pf) T (proj1 Hp) Hn).
  rewrite (means_outside _ _ _ _ Hm) in Ho.
  destruct mean as [cs| |]; cbn [means too_long] in *; [|destruct Hm; congruence|congruence].
  assert (as_str s = Ret (utf8 cs)) as Es.
  { unfold prints in Hm. destruct (_ || _); [|congruence]. destruct Hm as (s' & E' & Ht & _). congruence. }
  destruct (C98_short_texts hs sys pf T n m s (utf8 cs) (nth_error_In _ _ Hk) Hp Hn E Es) as (m' & i & H1 & _ & H2 & H3).
  { unfold utf8_len in Ho. lia. }
  exists m', i. auto.
Qed.
Print Assumptions C105_without_allocator.

(** ** Cases *)

(** Eleven ones in Chinese, fifteen in Ethiopic, and the Roman and Hebrew
    limits, each with the number before. *)
Example first_outside_case :
  map (fun '(sys, n) => match sys no_heap U64 (n - 1) with Ret (Ok s) => Some (is_inline s) | _ => None end)
    [(chinese true true (with_scale Myriad), 11111111111); (Ethiopic, 111111111111111); (RomanUpper, 7884888); (Hebrew, 11315)] =
    [Some true; Some true; Some true; Some true] /\
  map (fun '(sys, n) => seen (sys no_heap U64 n))
    [(chinese true true (with_scale Myriad), 11111111111); (Ethiopic, 111111111111111); (RomanUpper, 7884888); (Hebrew, 11315)] =
    map (fun n => Ret (Err (OutOfMemory n))) [11111111111; 111111111111111; 7884888; 11315] /\
  seen (chinese true true (with_scale Myriad) on_heap U64 11111111111) =
    Ret (Ok (bytes "一百一十一億一千一百一十一萬一千一百一十一"%string)) /\
  seen (Hebrew on_heap U64 (11315 - 11200)) = Ret (Ok (bytes "קט״ו"%string)) /\
  outside on_heap 11315 (Hebrew on_heap U64 11315).
Proof. repeat split; try (vm_compute; reflexivity). eexists. split; vm_compute; reflexivity. Qed.

(** Past its first number a system that is not a digit system may fit again. *)
Example fits_again :
  map (fun '(sys, n) => match sys no_heap U64 n with Ret (Ok s) => Some (is_inline s) | _ => None end)
    [(chinese true true (with_scale Myriad), 10 ^ 12); (Ethiopic, 10 ^ 16); (RomanUpper, 7900000); (Hebrew, 11316 + 4)] =
  [Some true; Some true; Some true; Some true].
Proof. vm_compute. reflexivity. Qed.
