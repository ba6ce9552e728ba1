(** * PropertiesLength: C79, how many digits a numeral has and which number is
    the first without room *)

From Coq Require Import String.
From Verif Require Import Prelude Utf8Facts StringFacts History Outcome DigitFacts DigitOrder DigitSets PropertiesDigital Digital Cases.

(** 1, b+1, b^2+b+1, ...: the value of [k] ones in base [b]. *)
Fixpoint repunit (b : N) (k : nat) : N :=
  match k with
  | O => 0
  | S k => repunit b k * b + 1
  end.

(** The first number with [k] digits, counting with [b] of them: with a zero
    digit, without one from zero, without one from one. *)
Definition first_with (has_zero zero_based : bool) (b : N) (k : nat) : N :=
  if has_zero then (if (k <=? 1)%nat then 0 else b ^ N.of_nat (k - 1))
  else if zero_based then repunit b k - 1
  else repunit b k.

(** ** The values of [k] digits *)

Lemma repunit_grows b k : 1 <= b -> repunit b k < repunit b (S k).
Proof. intros Hb. induction k as [|k IH]; [cbn; lia|]. cbn [repunit] in *. nia. Qed.

Lemma repunit_pos b k : 1 <= repunit b (S k).
Proof. cbn. lia. Qed.

Lemma bijective_bounds b ds : 1 <= b -> below b ds ->
  repunit b (length ds) <= bijective_value b ds < repunit b (S (length ds)).
Proof.
  intros Hb. induction ds as [|x ds IH] using rev_ind; intros H; [cbn; lia|].
  apply below_last in H as [H Hx]. specialize (IH H). rewrite bijective_value_app, app_length, Nat.add_comm.
  cbn [length Nat.add]. cbn [repunit] in *. nia.
Qed.

Lemma canonical_bounds b ds : 2 <= b -> below b ds -> canonical ds ->
  (if (length ds <=? 1)%nat then 0 else b ^ N.of_nat (length ds - 1)) <= positional_value b ds < b ^ N.of_nat (length ds).
Proof.
  intros Hb Hbel Hc. split; [|apply positional_bound, Hbel].
  destruct ds as [|x ds]; [contradiction|]. destruct (Nat.leb_spec (length (x :: ds)) 1) as [|Hl]; [lia|].
  cbn [length] in *. rewrite positional_value_cons. replace (S (length ds) - 1)%nat with (length ds) by lia.
  assert (x <> 0) by (destruct ds; [cbn in Hl; lia|exact Hc]). nia.
Qed.

Lemma first_grows z zb b k : enough z b -> (1 <= k)%nat -> first_with z zb b k < first_with z zb b (S k).
Proof.
  unfold enough, first_with. intros Hb Hk. destruct z; [|destruct zb].
  - cbn [Nat.leb]. destruct k as [|k]; [lia|]. cbn [Nat.leb]. replace (S (S k) - 1)%nat with (S k) by lia. replace (S k - 1)%nat with k by lia.
    destruct k as [|k]; cbn [Nat.leb].
    + change (N.of_nat 1) with 1. lia.
    + apply N.pow_lt_mono_r; lia.
  - pose proof (repunit_grows b k Hb). destruct k as [|k]; [lia|]. pose proof (repunit_pos b k). lia.
  - apply repunit_grows, Hb.
Qed.

Lemma first_mono z zb b j k : enough z b -> (1 <= j)%nat -> (j <= k)%nat -> first_with z zb b j <= first_with z zb b k.
Proof.
  intros Hb Hj. induction 1 as [|k Hk IH]; [lia|]. pose proof (first_grows z zb b k Hb). lia.
Qed.

Lemma numeral_length z zb digits n cs : enough z (N.of_nat (length digits)) -> digit_numeral z zb digits n cs ->
  (1 <= length cs)%nat /\
  first_with z zb (N.of_nat (length digits)) (length cs) <= n < first_with z zb (N.of_nat (length digits)) (S (length cs)).
Proof.
  unfold enough, digit_numeral, first_with. intros Hb Hn. destruct z; [|destruct zb].
  - destruct Hn as (ds & Hbel & Hc & <- & ->). rewrite map_length.
    assert (1 <= length ds)%nat by (destruct ds; [contradiction|cbn; lia]). split; [assumption|].
    pose proof (canonical_bounds _ ds Hb Hbel Hc) as [H1 H2]. split; [exact H1|].
    destruct (Nat.leb_spec (S (length ds)) 1); [lia|]. replace (S (length ds) - 1)%nat with (length ds) by lia. exact H2.
  - destruct Hn as (ds & Hbel & Hv & ->). rewrite map_length. pose proof (bijective_bounds _ ds Hb Hbel).
    destruct ds as [|x ds]; [cbn in Hv; lia|]. pose proof (repunit_pos (N.of_nat (length digits)) (length ds)). cbn [length] in *. lia.
  - destruct Hn as (Hn & ds & Hbel & Hv & ->). rewrite map_length. pose proof (bijective_bounds _ ds Hb Hbel).
    destruct ds as [|x ds]; [cbn in Hv; lia|]. cbn [length] in *. lia.
Qed.

Lemma length_iff z zb digits n cs k : enough z (N.of_nat (length digits)) -> digit_numeral z zb digits n cs -> (1 <= k)%nat ->
  ((k <= length cs)%nat <-> first_with z zb (N.of_nat (length digits)) k <= n).
Proof.
  intros Hb Hn Hk. destruct (numeral_length z zb digits n cs Hb Hn) as (Hl & H1 & H2). split; intros H.
  - pose proof (first_mono z zb _ k (length cs) Hb Hk H). lia.
  - destruct (Nat.leb_spec k (length cs)); [assumption|]. pose proof (first_mono z zb _ (S (length cs)) k Hb). lia.
Qed.

(** ** C79 *)

(** A numeral has [k] digits from the first such number up to the first with
    one more. *)
Theorem C79_number_of_digits : forall c T d digits n,
  valid_config c -> collects c d digits -> dc_fixed d = false ->
  enough (dc_has_zero_digit d) (N.of_nat (length digits)) -> fits c T (N.of_nat (length digits)) -> fits c T n ->
  (n = 0 -> dc_has_zero_digit d || dc_zero_based d = true) ->
  exists cs, prints c (try_format_digits c T d n) n cs /\
    forall k, (1 <= k)%nat ->
      (length cs = k <->
       first_with (dc_has_zero_digit d) (dc_zero_based d) (N.of_nat (length digits)) k <= n /\
       n < first_with (dc_has_zero_digit d) (dc_zero_based d) (N.of_nat (length digits)) (S k)).
Proof.
  intros c T d digits n Hc Hcol Hf He Hfit Hn H0.
  destruct (digit_numeral_exists (dc_has_zero_digit d) (dc_zero_based d) digits n He) as (cs & Hcs).
  { intros Hz Hzb ->. rewrite Hz, Hzb in H0. specialize (H0 eq_refl). discriminate. }
  exists cs. split; [apply yields_prints; eapply format_numeral; eassumption|]. intros k Hk.
  pose proof (length_iff _ _ _ _ _ k He Hcs Hk). pose proof (length_iff _ _ _ _ _ (S k) He Hcs). lia.
Qed.
Print Assumptions C79_number_of_digits.

(** Counting on, numerals never get shorter. *)
Theorem C79_never_shorter : forall c T d digits n m,
  valid_config c -> collects c d digits -> dc_fixed d = false ->
  enough (dc_has_zero_digit d) (N.of_nat (length digits)) -> fits c T (N.of_nat (length digits)) -> fits c T m ->
  (n = 0 -> dc_has_zero_digit d || dc_zero_based d = true) -> n <= m ->
  exists cs cs', prints c (try_format_digits c T d n) n cs /\ prints c (try_format_digits c T d m) m cs' /\
    (length cs <= length cs')%nat.
Proof.
  intros c T d digits n m Hc Hcol Hf He Hfit Hm H0 Hle.
  assert (forall n, (n = 0 -> dc_has_zero_digit d || dc_zero_based d = true) -> fits c T n ->
    exists cs, digit_numeral (dc_has_zero_digit d) (dc_zero_based d) digits n cs /\ prints c (try_format_digits c T d n) n cs) as H.
  { intros i Hi Hfi. destruct (digit_numeral_exists (dc_has_zero_digit d) (dc_zero_based d) digits i He) as (cs & Hcs).
    { intros Hz Hzb ->. rewrite Hz, Hzb in Hi. specialize (Hi eq_refl). discriminate. }
    exists cs. split; [assumption|]. apply yields_prints. eapply format_numeral; eassumption. }
  destruct (H n H0 (fits_le _ _ _ _ Hm Hle)) as (cs & Hcs & Hp). destruct (H m) as (cs' & Hcs' & Hp'); [lia || (intros ->; apply H0; lia)|assumption|].
  exists cs, cs'. split; [assumption|]. split; [assumption|].
  destruct (numeral_length _ _ _ _ _ He Hcs) as (Hl & H1 & _).
  apply (length_iff _ _ _ _ _ (length cs) He Hcs' Hl). lia.
Qed.
Print Assumptions C79_never_shorter.

(** ** Room *)

Lemma equal_widths digits w ds : 1 <= w -> Forall (fun ch => length (utf8 [ch]) = N.to_nat w) digits ->
  below (N.of_nat (length digits)) ds ->
  length (utf8 (map (digit_char digits) ds)) = (N.to_nat w * length ds)%nat.
Proof.
  intros Hw Hd. induction 1 as [|x ds Hx _ IH]; [cbn; lia|].
  cbn [map length]. change (digit_char digits x :: map (digit_char digits) ds) with ([digit_char digits x] ++ map (digit_char digits) ds).
  rewrite utf8_app, app_length, IH. rewrite Forall_forall in Hd.
  rewrite (Hd (digit_char digits x)) by (unfold digit_char; apply nth_In; lia). lia.
Qed.

Lemma numeral_width z zb digits n cs w : 1 <= w -> Forall (fun ch => length (utf8 [ch]) = N.to_nat w) digits ->
  digit_numeral z zb digits n cs -> length (utf8 cs) = (N.to_nat w * length cs)%nat.
Proof.
  intros Hw Hd Hn. unfold digit_numeral in Hn.
  assert (exists ds, below (N.of_nat (length digits)) ds /\ cs = map (digit_char digits) ds) as (ds & Hb & ->).
  { destruct z; [|destruct zb].
    - destruct Hn as (ds & Hb & _ & _ & ->). eauto.
    - destruct Hn as (ds & Hb & _ & ->). eauto.
    - destruct Hn as (_ & ds & Hb & _ & ->). eauto. }
  rewrite map_length. apply equal_widths; assumption.
Qed.

(** Without alloc, if every digit takes [w] bytes, the numbers without room
    are those with more than 62 / [w] digits. *)
Theorem C79_out_of_memory : forall c T d digits n w,
  valid_config c -> collects c d digits -> dc_fixed d = false ->
  enough (dc_has_zero_digit d) (N.of_nat (length digits)) -> fits c T (N.of_nat (length digits)) -> fits c T n ->
  has_alloc c = false -> 1 <= w <= 4 -> Forall (fun ch => length (utf8 [ch]) = N.to_nat w) digits ->
  (try_format_digits c T d n = Ret (Err (OutOfMemory n)) <->
   first_with (dc_has_zero_digit d) (dc_zero_based d) (N.of_nat (length digits)) (N.to_nat (62 / w) + 1) <= n).
Proof.
  intros c T d digits n w Hc Hcol Hf He Hfit Hn Ha Hw Hd.
  assert (1 <= 62 / w) as Hq.
  { assert (w = 1 \/ w = 2 \/ w = 3 \/ w = 4) as [->|[->|[->| ->]]] by lia; vm_compute; discriminate. }
  destruct (dc_has_zero_digit d || dc_zero_based d || negb (n =? 0)) eqn:Ez.
  - destruct (digit_numeral_exists (dc_has_zero_digit d) (dc_zero_based d) digits n He) as (cs & Hcs).
    { intros Hz Hzb ->. rewrite Hz, Hzb in Ez. discriminate. }
    assert (prints c (try_format_digits c T d n) n cs) as Hp by (apply yields_prints; eapply format_numeral; eassumption).
    pose proof (length_iff _ _ _ _ _ (N.to_nat (62 / w) + 1)%nat He Hcs) as Hlen.
    pose proof (numeral_width _ _ _ _ _ w (proj1 Hw) Hd Hcs) as Hwidth.
    unfold prints in Hp. rewrite Ha in Hp. cbn [orb] in Hp. unfold at_most_62 in Hp. rewrite Hwidth in Hp.
    assert ((N.to_nat w * length cs <= 62)%nat <-> (length cs < N.to_nat (62 / w) + 1)%nat) as Hfit62.
    { assert (w = 1 \/ w = 2 \/ w = 3 \/ w = 4) as [->|[->|[->| ->]]] by lia.
      - change (62 / 1) with 62. lia.
      - change (62 / 2) with 31. lia.
      - change (62 / 3) with 20. lia.
      - change (62 / 4) with 15. lia. }
    destruct (Nat.leb_spec (N.to_nat w * length cs) 62) as [Hle|Hgt].
    + destruct Hp as (s & -> & _). split; [discriminate|]. intros H. lia.
    + split; [|intros _; exact Hp]. intros _. lia.
  - apply orb_false_iff in Ez as [Ez En]. apply orb_false_iff in Ez as [Ez Ezb]. apply negb_false_iff, N.eqb_eq in En. subst n.
    unfold enough in He. rewrite Ez in He.
    assert (try_format_digits c T d 0 = Ret (Err NoZeroSymbol)) as E.
    { unfold try_format_digits. destruct (depth_succ c Hc) as (k & ->). eapply format_digits_zero; eassumption. }
    rewrite E. split; [discriminate|]. unfold first_with. rewrite Ez, Ezb. rewrite Nat.add_comm. cbn [Nat.add].
    pose proof (repunit_pos (N.of_nat (length digits)) (N.to_nat (62 / w))). lia.
Qed.
Print Assumptions C79_out_of_memory.

(** The built-in collections: the first number without room, for those that
    have one below 2^128. *)
Definition no_room_from (d : digit_collection) (limit : option N) : Prop :=
  forall c T n, valid_config c -> fits c T n -> has_alloc c = false ->
  (try_format_digits c T d n = Ret (Err (OutOfMemory n)) <->
   match limit with Some limit => limit <= n | None => False end).

Lemma no_room d digits w limit :
  d = impl_digit_set (digit_set_new digits) \/ d = impl_digit_set (digit_set_zeroless digits) \/
  d = one_based (impl_digit_set (digit_set_zeroless digits)) ->
  (length digits <? 256)%nat && (2 <=? length digits)%nat && forallb is_scalar digits && (1 <=? w) && (w <=? 4) &&
  forallb (fun ch => (length (utf8 [ch]) =? N.to_nat w)%nat) digits = true ->
  match limit with
  | Some limit => first_with (dc_has_zero_digit d) (dc_zero_based d) (N.of_nat (length digits)) (N.to_nat (62 / w) + 1) = limit
  | None => 2 ^ 128 <= first_with (dc_has_zero_digit d) (dc_zero_based d) (N.of_nat (length digits)) (N.to_nat (62 / w) + 1)
  end ->
  no_room_from d limit.
Proof.
  intros Hd Hk Hl c T n Hc Hn Ha. rewrite !andb_true_iff in Hk. destruct Hk as [[[[[H1 H2] H3] H4] H5] H6].
  apply Nat.ltb_lt in H1. apply Nat.leb_le in H2.
  assert (collects c d digits) as Hcol.
  { destruct Hd as [-> |[-> | ->]].
    - apply builtin_collects; auto. apply Nat.ltb_lt, H1.
    - apply builtin_collects; auto. apply Nat.ltb_lt, H1.
    - apply collects_one_based, builtin_collects; auto. apply Nat.ltb_lt, H1. }
  assert (dc_fixed d = false) as Hf by (destruct Hd as [-> |[-> | ->]]; reflexivity).
  rewrite (C79_out_of_memory c T d digits n w Hc Hcol Hf); [| |apply small_fits; assumption|assumption|assumption|lia|].
  - pose proof (fits_128 c T n Hc Hn). destruct limit as [limit|]; [rewrite Hl; tauto|]. lia.
  - unfold enough. destruct (dc_has_zero_digit d); lia.
  - apply Forall_forall. intros ch Hch. rewrite forallb_forall in H6. apply Nat.eqb_eq, H6, Hch.
Qed.

Ltac find_room width := eapply no_room with (w := width);
  [first [left; reflexivity|right; left; reflexivity|right; right; reflexivity]
  |vm_compute; reflexivity|vm_compute; first [reflexivity|discriminate]].

Theorem C79_built_in_sets : Forall (fun '(d, limit) => no_room_from d limit)
  ([(Decimal, None); (EasternArabic, Some (10 ^ 31)); (Persian, Some (10 ^ 31)); (Bengali, Some (10 ^ 20));
   (Cambodian, Some (10 ^ 20)); (CjkDecimal, Some (10 ^ 20)); (Devanagari, Some (10 ^ 20)); (Gujarati, Some (10 ^ 20));
   (Gurmukhi, Some (10 ^ 20)); (Kannada, Some (10 ^ 20)); (Lao, Some (10 ^ 20)); (Malayalam, Some (10 ^ 20));
   (Mongolian, Some (10 ^ 20)); (Myanmar, Some (10 ^ 20)); (Oriya, Some (10 ^ 20)); (Tamil, Some (10 ^ 20));
   (Telugu, Some (10 ^ 20)); (Thai, Some (10 ^ 20)); (Tibetan, Some (10 ^ 20));
   (LetterUpper, None); (LetterLower, None); (GreekUpper, None); (GreekLower, None);
   (Hiragana, Some ((46 ^ 21 - 1) / 45 - 1)); (Katakana, Some ((46 ^ 21 - 1) / 45 - 1));
   (HiraganaIroha, Some ((47 ^ 21 - 1) / 46 - 1)); (KatakanaIroha, Some ((47 ^ 21 - 1) / 46 - 1));
   (HangeulJamo, Some ((14 ^ 21 - 1) / 13 - 1)); (HangeulSyllable, Some ((14 ^ 21 - 1) / 13 - 1));
   (one_based Hiragana, Some ((46 ^ 21 - 1) / 45)); (one_based Katakana, Some ((46 ^ 21 - 1) / 45));
   (one_based HiraganaIroha, Some ((47 ^ 21 - 1) / 46)); (one_based KatakanaIroha, Some ((47 ^ 21 - 1) / 46));
   (one_based HangeulJamo, Some ((14 ^ 21 - 1) / 13)); (one_based HangeulSyllable, Some ((14 ^ 21 - 1) / 13))]).
Proof.
  repeat (apply Forall_cons; [cbv beta iota; first [find_room constr:(1%N)|find_room constr:(2%N)|find_room constr:(3%N)]|]). apply Forall_nil.
Qed.
Print Assumptions C79_built_in_sets.

(** ** Cases *)

(** Spreadsheet columns: A to Z, AA to ZZ from 26, AAA from 702. *)
Example number_of_digits_case :
  map (first_with false true 26) [1; 2; 3]%nat = [0; 26; 702] /\
  map (fun n => seen (try_format_digits no_heap U16 LetterUpper n)) [25; 26; 701; 702] =
    map (fun s => Ret (Ok (bytes s))) ["Z"; "AA"; "ZZ"; "AAA"]%string /\
  map (first_with true true 10) [1; 2; 3]%nat = [0; 10; 100] /\
  map (first_with false false 26) [1; 2; 3]%nat = [1; 27; 703] /\
  exists cs, prints no_heap (try_format_digits no_heap U16 LetterUpper 701) 701 cs /\ length cs = 2%nat.
Proof.
  split; [vm_compute; reflexivity|]. split; [vm_compute; reflexivity|]. split; [vm_compute; reflexivity|]. split; [vm_compute; reflexivity|].
  destruct (C79_number_of_digits no_heap U16 LetterUpper latin_capitals 701 no_heap_valid) as (cs & Hp & H);
    [apply builtin_collects; [exact no_heap_valid|reflexivity|reflexivity|right; reflexivity]|reflexivity|vm_compute; discriminate|reflexivity..|].
  exists cs. split; [exact Hp|]. apply H; [lia|]. vm_compute. split; [discriminate|reflexivity].
Qed.

(** Twenty Thai digits take sixty bytes, twenty-one take sixty-three. *)
Example out_of_memory_case :
  seen (try_format_digits no_heap U128 Thai (10 ^ 20)) = Ret (Err (OutOfMemory (10 ^ 20))) /\
  seen (try_format_digits no_heap U128 Thai (10 ^ 20 - 1)) = Ret (Ok (bytes "๙๙๙๙๙๙๙๙๙๙๙๙๙๙๙๙๙๙๙๙"%string)) /\
  seen (try_format_digits no_heap U128 (one_based HangeulSyllable) ((14 ^ 21 - 1) / 13 - 1)) =
    Ret (Ok (bytes "하하하하하하하하하하하하하하하하하하하하"%string)) /\
  seen (try_format_digits no_heap U128 (one_based HangeulSyllable) ((14 ^ 21 - 1) / 13)) = Ret (Err (OutOfMemory ((14 ^ 21 - 1) / 13))).
Proof. repeat split; vm_compute; reflexivity. Qed.
