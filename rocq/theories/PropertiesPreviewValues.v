(** * PropertiesPreviewValues: C80 and C81, which numbers the preview of a digit
    collection shows (examples/previews.rs) *)

From Coq Require Import String Sorted.
From Verif Require Import Prelude Utf8Facts StringFacts History Outcome DigitFacts DigitOrder DigitSets PropertiesDigital
  PropertiesLength Digital Previews Cases.

(** The smallest number a collection prints. *)
Definition least (d : digit_collection) : N := if dc_has_zero_digit d || dc_zero_based d then 0 else 1.

(** ** C80 *)

(** Counted from the smallest: the first five numbers with one digit, or all of
    them, the last one and the three after it, and four around the square of
    the number of digits. *)
Definition to_be_shown (d : digit_collection) (count v : N) : Prop :=
  exists k, v = least d + k /\
    (k < N.min count 5 \/ count <= k + 1 <= count + 3 \/ count * count <= k + 1 <= count * count + 3).

Lemma each_ret {A B} (f : A -> outcome B) g l : (forall a, In a l -> f a = Ret (g a)) -> each f l = Ret (map g l).
Proof.
  induction l as [|a l IH]; intros H; [reflexivity|]. cbn [each map]. rewrite (H a (or_introl eq_refl)). cbn [obind].
  rewrite IH by (intros b Hb; apply H; right; exact Hb). reflexivity.
Qed.

Lemma range_in a b i : In i (range a b) <-> a <= i < b.
Proof.
  unfold range. rewrite in_map_iff. split.
  - intros (k & <- & Hk). apply in_seq in Hk. lia.
  - intros H. exists (N.to_nat (i - a)). split; [lia|]. apply in_seq. lia.
Qed.

Lemma uadd_ret c w a b : a + b < 2 ^ w -> uadd c w a b = Ret (a + b).
Proof. intros H. unfold uadd. apply N.ltb_lt in H. rewrite H. reflexivity. Qed.

Lemma usub_ret c w a b : b <= a -> usub c w a b = Ret (a - b).
Proof. intros H. unfold usub. apply N.leb_le in H. rewrite H. reflexivity. Qed.

Lemma umul_ret c w a b : a * b < 2 ^ w -> umul c w a b = Ret (a * b).
Proof. intros H. unfold umul. apply N.ltb_lt in H. rewrite H. reflexivity. Qed.

(** The values, when nothing overflows. *)
Definition values_listed (base count : N) : list N :=
  map (fun i => base + i) (range 0 1 ++ range 1 (N.min count 5)) ++
  (if N.min count 5 =? count then [] else [base + count - 1]) ++
  [base + count; base + count + 1; base + count + 2;
   base + count * count - 1; base + count * count; base + count * count + 1; base + count * count + 2].

Lemma values_ret c d count : dc_len d = Ret count -> 1 <= least d + count ->
  least d + count * count + 2 < 2 ^ 32 -> digit_preview_values c d = Ret (values_listed (least d) count).
Proof.
  intros Hlen H1 Hmax. unfold digit_preview_values. rewrite Hlen. cbn [obind].
  assert (count <= count * count) by nia.
  unfold try_from. cbn [bits]. destruct (N.ltb_spec count (2 ^ 32)) as [_|Hge]; [|exfalso; lia]. cbn [or_panic obind].
  change (if dc_has_zero_digit d || dc_zero_based d then 0 else 1) with (least d).
  assert (least d <= 1) by (unfold least; destruct (_ || _); lia).
  rewrite (each_ret _ (fun i => least d + i)).
  2:{ intros i Hi. apply range_in in Hi. apply uadd_ret. lia. }
  cbn [obind]. unfold values_listed. rewrite map_app. change (map (fun i => least d + i) (range 0 1)) with [least d + 0].
  rewrite N.add_0_r.
  rewrite !(uadd_ret c 32 (least d) count) by lia. cbn [obind].
  rewrite !(umul_ret c 32 count count) by lia. cbn [obind].
  rewrite !(uadd_ret c 32 (least d) (count * count)) by lia. cbn [obind].
  rewrite (usub_ret c 32 (least d + count)) by lia.
  rewrite (usub_ret c 32 (least d + count * count)) by nia.
  rewrite !uadd_ret by lia. cbn [obind].
  destruct (N.min count 5 =? count); cbn [obind]; rewrite <- ?app_assoc; reflexivity.
Qed.

Lemma values_shown d count : 1 <= count -> forall v, In v (values_listed (least d) count) <-> to_be_shown d count v.
Proof.
  intros H1.
  assert (least d <= 1) as Hb by (unfold least; destruct (_ || _); lia).
  intros v. unfold values_listed, to_be_shown. rewrite !in_app_iff, in_map_iff. split.
  + intros [(k & <- & Hk)|[Hv|Hv]].
    * apply in_app_iff in Hk as [Hk|Hk]; apply range_in in Hk.
      -- exists k. split; [reflexivity|]. assert (k = 0) as -> by lia. left; lia.
      -- exists k. split; [reflexivity|]. left. lia.
    * destruct (N.eqb_spec (N.min count 5) count) as [_|Hn]; [destruct Hv|]. destruct Hv as [<-|[]].
      exists (count - 1). split; [lia|]. right. left. lia.
    * cbn [In] in Hv.
      assert (forall k, v = least d + k -> (count <= k + 1 <= count + 3 \/ count * count <= k + 1 <= count * count + 3) ->
        exists k, v = least d + k /\ (k < N.min count 5 \/ count <= k + 1 <= count + 3 \/ count * count <= k + 1 <= count * count + 3)) as Hex.
      { intros k Ek Hk. exists k. auto. }
      destruct Hv as [<-|[<-|[<-|[<-|[<-|[<-|[<-|[]]]]]]]].
      -- apply (Hex count); lia.
      -- apply (Hex (count + 1)); lia.
      -- apply (Hex (count + 2)); lia.
      -- apply (Hex (count * count - 1)); nia.
      -- apply (Hex (count * count)); lia.
      -- apply (Hex (count * count + 1)); lia.
      -- apply (Hex (count * count + 2)); lia.
  + intros (k & -> & H).
    assert (k < N.min count 5 -> exists x, least d + x = least d + k /\ In x (range 0 1 ++ range 1 (N.min count 5))) as Hfirst.
    { intros Hk. exists k. split; [reflexivity|]. apply in_app_iff. rewrite !range_in. lia. }
    destruct H as [H|[H|H]].
    * left. apply Hfirst, H.
    * destruct (N.eq_dec (k + 1) count) as [Ek|].
      -- destruct (N.eqb_spec (N.min count 5) count) as [Em|].
         ++ left. apply Hfirst. lia.
         ++ right. left. left. lia.
      -- right. right. cbn [In]. assert (k = count \/ k = count + 1 \/ k = count + 2) as [->|[->| ->]] by lia; lia.
    * right. right. cbn [In].
      destruct (N.eq_dec (k + 1) (count * count)); [lia|].
      assert (k = count * count \/ k = count * count + 1 \/ k = count * count + 2) as [->|[->| ->]] by lia; lia.
Qed.

Lemma values_sorted d count : 3 <= count -> StronglySorted N.lt (values_listed (least d) count).
Proof.
  intros H3.
  assert (least d <= 1) as Hb by (unfold least; destruct (_ || _); lia). unfold values_listed.
  assert (forall l, StronglySorted N.lt l -> StronglySorted N.lt (map (fun i => least d + i) l)) as Hmap.
  { intros l. induction 1 as [|x l Hs IH Hx]; cbn [map]; constructor; [exact IH|]. apply Forall_map.
    eapply Forall_impl; [|exact Hx]. cbn beta. intros; lia. }
  assert (forall a b, StronglySorted N.lt a -> StronglySorted N.lt b -> (forall x y, In x a -> In y b -> x < y) ->
    StronglySorted N.lt (a ++ b)) as Happ.
  { intros a b Ha Hbs H. induction Ha as [|x a Ha IH Hx]; [exact Hbs|]. cbn [app]. constructor.
    - apply IH. intros y z Hy Hz. apply H; [right; exact Hy|exact Hz].
    - apply Forall_app. split; [exact Hx|]. apply Forall_forall. intros y Hy. apply H; [left; reflexivity|exact Hy]. }
  assert (forall n a, StronglySorted N.lt (map (fun i => a + N.of_nat i) (seq 0 n))) as Hseq.
  { intros n a. assert (forall n k, StronglySorted N.lt (map (fun i => a + N.of_nat i) (seq k n))) as Hs.
    { induction n0 as [|m IH]; intros k; cbn [seq map]; constructor; [apply IH|]. apply Forall_map, Forall_forall.
      intros x Hx. apply in_seq in Hx. lia. }
    apply Hs. }
  assert (3 * count <= count * count) by nia.
  apply Happ; [apply Hmap, Happ; try apply Hseq| |].
  + intros x y Hx Hy. apply range_in in Hx, Hy. lia.
  + destruct (N.eqb_spec (N.min count 5) count); cbn [app];
      repeat (constructor; [|repeat (constructor; [lia|]); constructor]); constructor.
  + intros x y Hx Hy. apply in_map_iff in Hx as (k & <- & Hk). apply in_app_iff in Hk. rewrite !range_in in Hk.
    apply in_app_iff in Hy as [Hy|Hy].
    * destruct (N.eqb_spec (N.min count 5) count); [destruct Hy|]. destruct Hy as [<-|[]]. lia.
    * cbn [In] in Hy. lia.
Qed.

Theorem C80_values : forall c d count,
  dc_len d = Ret count -> 1 <= count -> least d + count * count + 2 < 2 ^ 32 ->
  exists vs, digit_preview_values c d = Ret vs /\
    (forall v, In v vs <-> to_be_shown d count v) /\
    (3 <= count -> StronglySorted N.lt vs).
Proof.
  intros c d count Hlen H1 Hmax. eexists. split; [apply values_ret; [exact Hlen|lia|exact Hmax]|].
  split; [apply values_shown, H1|apply values_sorted].
Qed.
Print Assumptions C80_values.

(** In release builds the same numbers are listed, each reduced modulo [2 ^ 32]. *)
Lemma uadd_wraps c w a b : overflow_checks c = false -> uadd c w a b = Ret ((a + b) mod 2 ^ w).
Proof.
  unfold uadd. intros ->. destruct (N.ltb_spec (a + b) (2 ^ w)) as [H|H]; [|reflexivity]. rewrite N.mod_small by exact H. reflexivity.
Qed.

Lemma umul_wraps c w a b : overflow_checks c = false -> umul c w a b = Ret ((a * b) mod 2 ^ w).
Proof.
  unfold umul. intros ->. destruct (N.ltb_spec (a * b) (2 ^ w)) as [H|H]; [|reflexivity]. rewrite N.mod_small by exact H. reflexivity.
Qed.

Lemma usub_wraps c w a : overflow_checks c = false -> 1 <= a -> 0 < w -> usub c w (a mod 2 ^ w) 1 = Ret ((a - 1) mod 2 ^ w).
Proof.
  unfold usub. intros -> H1 Hw. assert (2 ^ 1 <= 2 ^ w) as H2 by (apply N.pow_le_mono_r; lia). change (2 ^ 1) with 2 in H2.
  assert (a = 2 ^ w * (a / 2 ^ w) + a mod 2 ^ w) as Ea by (apply N.div_mod; lia).
  assert (a mod 2 ^ w < 2 ^ w) by (apply N.mod_lt; lia).
  set (q := a / 2 ^ w) in *. set (r := a mod 2 ^ w) in *. set (m := 2 ^ w) in *.
  destruct (N.leb_spec 1 r) as [Hr|Hr]; f_equal.
  - apply (N.mod_unique _ _ q); lia.
  - assert (r = 0) as Er by lia. rewrite Er in *. assert (1 <= q) by nia. apply (N.mod_unique _ _ (q - 1)); [lia|].
    rewrite N.mul_sub_distr_l. nia.
Qed.

Lemma values_wrap c d count : overflow_checks c = false -> dc_len d = Ret count -> 1 <= count < 2 ^ 32 ->
  digit_preview_values c d = Ret (map (fun v => v mod 2 ^ 32) (values_listed (least d) count)).
Proof.
  intros Ec Hlen [H1 Hlt]. unfold digit_preview_values. rewrite Hlen. cbn [obind].
  unfold try_from. cbn [bits]. destruct (N.ltb_spec count (2 ^ 32)) as [_|Hge]; [|exfalso; lia]. cbn [or_panic obind].
  change (if dc_has_zero_digit d || dc_zero_based d then 0 else 1) with (least d).
  assert (least d <= 1) by (unfold least; destruct (_ || _); lia).
  assert (2 ^ 32 <> 0) as Hm by discriminate. assert (1 <= count * count) by nia.
  rewrite (each_ret _ (fun i => (least d + i) mod 2 ^ 32)) by (intros; apply uadd_wraps, Ec).
  cbn [obind]. rewrite umul_wraps by exact Ec. cbn [obind].
  rewrite !(uadd_wraps c 32 (least d)) by exact Ec. cbn [obind].
  rewrite !N.add_mod_idemp_r by exact Hm.
  rewrite !usub_wraps by (exact Ec || lia).
  rewrite !uadd_wraps by exact Ec. rewrite !N.add_mod_idemp_l by exact Hm. cbn [obind].
  unfold values_listed. rewrite !map_app, !map_map. change (map (fun x => (least d + x) mod 2 ^ 32) (range 0 1)) with [(least d + 0) mod 2 ^ 32].
  rewrite N.add_0_r, (N.mod_small (least d)) by lia.
  destruct (N.min count 5 =? count); cbn [obind map]; rewrite <- ?app_assoc; reflexivity.
Qed.

Theorem C80_release : forall c d count,
  overflow_checks c = false -> dc_len d = Ret count -> 1 <= count < 2 ^ 32 ->
  exists vs, digit_preview_values c d = Ret vs /\
    (forall v, In v vs <-> exists u, to_be_shown d count u /\ v = u mod 2 ^ 32) /\
    (3 <= count -> exists us, StronglySorted N.lt us /\ vs = map (fun u => u mod 2 ^ 32) us).
Proof.
  intros c d count Ec Hlen H1. eexists. split; [exact (values_wrap c d count Ec Hlen H1)|]. split.
  - intros v. rewrite in_map_iff. split.
    + intros (u & <- & Hu). exists u. split; [apply values_shown; [lia|exact Hu]|reflexivity].
    + intros (u & Hu & ->). exists u. split; [reflexivity|]. apply values_shown; [lia|exact Hu].
  - intros H3. eexists. split; [|reflexivity]. apply values_sorted, H3.
Qed.
Print Assumptions C80_release.

(** In builds with overflow checks the program stops where a value does not fit
    in 32 bits; without digits counting from zero there is no value before the
    first. *)
Lemma uadd_checked c w a b : overflow_checks c = true ->
  uadd c w a b = Ret (a + b) /\ a + b < 2 ^ w \/ uadd c w a b = Panic.
Proof. unfold uadd. intros ->. destruct (N.ltb_spec (a + b) (2 ^ w)); auto. Qed.

Lemma usub_checked c w a b : overflow_checks c = true ->
  usub c w a b = Ret (a - b) /\ b <= a \/ usub c w a b = Panic.
Proof. unfold usub. intros ->. destruct (N.leb_spec b a); auto. Qed.

Lemma umul_checked c w a b : overflow_checks c = true ->
  umul c w a b = Ret (a * b) /\ a * b < 2 ^ w \/ umul c w a b = Panic.
Proof. unfold umul. intros ->. destruct (N.ltb_spec (a * b) (2 ^ w)); auto. Qed.

Lemma uadd_unchecked c w a b : overflow_checks c = false -> exists x, uadd c w a b = Ret x.
Proof. unfold uadd. intros ->. destruct (_ <? _); eauto. Qed.

Lemma usub_unchecked c w a b : overflow_checks c = false -> exists x, usub c w a b = Ret x.
Proof. unfold usub. intros ->. destruct (_ <=? _); eauto. Qed.

Lemma umul_unchecked c w a b : overflow_checks c = false -> exists x, umul c w a b = Ret x.
Proof. unfold umul. intros ->. destruct (_ <? _); eauto. Qed.

Theorem C80_panics : forall c d count, dc_len d = Ret count ->
  (digit_preview_values c d = Panic <->
   2 ^ 32 <= count \/
   overflow_checks c = true /\ (2 ^ 32 <= least d + count * count + 2 \/ least d = 0 /\ count = 0)).
Proof.
  intros c d count Hlen.
  assert (least d <= 1) as Hb by (unfold least; destruct (_ || _); lia).
  destruct (N.lt_ge_cases count (2 ^ 32)) as [Hlt|Hge].
  2:{ split; [auto|]. intros _. unfold digit_preview_values. rewrite Hlen. cbn [obind]. unfold try_from. cbn [bits].
      destruct (N.ltb_spec count (2 ^ 32)); [lia|]. reflexivity. }
  destruct (overflow_checks c) eqn:Ec.
  - destruct (N.lt_ge_cases (least d + count * count + 2) (2 ^ 32)) as [Hfit|Hbig].
    + destruct (N.eq_dec (least d + count) 0) as [H0|H0].
      * assert (least d = 0 /\ count = 0) as [E0 ->] by lia. split; [auto|intros _].
        unfold digit_preview_values. rewrite Hlen. cbn [obind or_panic try_from bits].
        change (if dc_has_zero_digit d || dc_zero_based d then 0 else 1) with (least d). rewrite E0.
        unfold try_from, uadd, usub, umul. rewrite Ec. vm_compute. reflexivity.
      * rewrite (values_ret c d count Hlen) by lia. split; [discriminate|lia].
    + split; [auto|intros _].
      unfold digit_preview_values. rewrite Hlen. cbn [obind]. unfold try_from. cbn [bits].
      destruct (N.ltb_spec count (2 ^ 32)) as [_|]; [|lia]. cbn [or_panic obind].
      change (if dc_has_zero_digit d || dc_zero_based d then 0 else 1) with (least d).
      rewrite (each_ret _ (fun i => least d + i)).
      2:{ intros i Hi. apply range_in in Hi. apply uadd_ret. lia. }
      cbn [obind].
      destruct (uadd_checked c 32 (least d) count Ec) as [[-> H1]| ->].
      2:{ destruct (_ =? _); reflexivity. }
      cbn [obind].
      assert (exists l, (if N.min count 5 =? count then Ret [] else x <- usub c 32 (least d + count) 1 ;; Ret [x]) = Ret l) as (l & ->).
      { destruct (N.eqb_spec (N.min count 5) count) as [|Hn]; [eauto|]. rewrite usub_ret by lia. cbn [obind]. eauto. }
      cbn [obind].
      destruct (uadd_checked c 32 (least d + count) 1 Ec) as [[-> _]| ->]; [|reflexivity]. cbn [obind].
      destruct (uadd_checked c 32 (least d + count) 2 Ec) as [[-> _]| ->]; [|reflexivity]. cbn [obind].
      destruct (umul_checked c 32 count count Ec) as [[-> _]| ->]; [|reflexivity]. cbn [obind].
      destruct (uadd_checked c 32 (least d) (count * count) Ec) as [[-> _]| ->]; [|reflexivity]. cbn [obind].
      destruct (usub_checked c 32 (least d + count * count) 1 Ec) as [[-> _]| ->]; [|reflexivity]. cbn [obind].
      destruct (uadd_checked c 32 (least d + count * count) 1 Ec) as [[-> _]| ->]; [|reflexivity]. cbn [obind].
      destruct (uadd_checked c 32 (least d + count * count) 2 Ec) as [[-> H2]| ->]; [lia|reflexivity].
  - split; [|intros [|[? _]]; [lia|discriminate]].
    unfold digit_preview_values. rewrite Hlen. cbn [obind]. unfold try_from. cbn [bits].
    destruct (N.ltb_spec count (2 ^ 32)) as [_|]; [|lia]. cbn [or_panic obind].
    rewrite (each_ret _ (fun i => match uadd c 32 (if dc_has_zero_digit d || dc_zero_based d then 0 else 1) i with Ret x => x | _ => 0 end)).
    2:{ intros i _. destruct (uadd_unchecked c 32 (if dc_has_zero_digit d || dc_zero_based d then 0 else 1) i Ec) as (x & ->). reflexivity. }
    cbn [obind].
    repeat match goal with
    | |- context [uadd c 32 ?a ?b] => destruct (uadd_unchecked c 32 a b Ec) as (? & ->); cbn [obind]
    | |- context [usub c 32 ?a ?b] => destruct (usub_unchecked c 32 a b Ec) as (? & ->); cbn [obind]
    | |- context [umul c 32 ?a ?b] => destruct (umul_unchecked c 32 a b Ec) as (? & ->); cbn [obind]
    | |- context [if ?b then Ret [] else Ret _] => destruct b; cbn [obind]
    end; discriminate.
Qed.
Print Assumptions C80_panics.

Example C80_case :
  digit_preview_values on_heap (one_based LetterLower) = Ret [1; 2; 3; 4; 5; 26; 27; 28; 29; 676; 677; 678; 679] /\
  digit_preview_values on_heap CjkDecimal = Ret [0; 1; 2; 3; 4; 9; 10; 11; 12; 99; 100; 101; 102] /\
  digit_preview_values on_heap (restrict 4 Decimal) = Ret [0; 1; 2; 3; 4; 5; 6; 15; 16; 17; 18] /\
  digit_preview_values on_heap (restrict 2 Decimal) = Ret [0; 1; 2; 3; 4; 3; 4; 5; 6] /\
  digit_preview_values on_heap (restrict 65535 Decimal) =
    Ret [0; 1; 2; 3; 4; 65534; 65535; 65536; 65537; 4294836224; 4294836225; 4294836226; 4294836227] /\
  digit_preview_values on_heap (restrict 65536 Decimal) = Panic /\
  digit_preview_values no_heap (restrict 65536 Decimal) = Ret [0; 1; 2; 3; 4; 65535; 65536; 65537; 65538; 4294967295; 0; 1; 2].
Proof. repeat split; vm_compute; reflexivity. Qed.

(** ** C81: the changes in length *)

(** The number is shown, and its numeral has that many digits. *)
Definition shown_with (c : config) (d : digit_collection) (v : N) (k : nat) : Prop :=
  exists vs cs, digit_preview_values c d = Ret vs /\ In v vs /\
    prints c (try_format_digits c U32 d v) v cs /\ length cs = k.

Lemma shown_length c d digits v k : valid_config c -> collects c d digits -> dc_fixed d = false ->
  enough (dc_has_zero_digit d) (N.of_nat (length digits)) ->
  least d + N.of_nat (length digits) * N.of_nat (length digits) + 2 < 2 ^ 32 ->
  to_be_shown d (N.of_nat (length digits)) v -> (1 <= k)%nat ->
  first_with (dc_has_zero_digit d) (dc_zero_based d) (N.of_nat (length digits)) k <= v ->
  v < first_with (dc_has_zero_digit d) (dc_zero_based d) (N.of_nat (length digits)) (S k) ->
  shown_with c d v k.
Proof.
  intros Hc Hcol Hf He Hmax Hv Hk Hlo Hhi. set (b := N.of_nat (length digits)) in *.
  assert (1 <= b) as Hb by (unfold enough in He; destruct (dc_has_zero_digit d); lia).
  destruct (C80_values c d b (proj1 Hcol) Hb Hmax) as (vs & Evs & Hin & _).
  assert (v < 2 ^ 32) as Hv32 by (destruct Hv as (i & -> & Hi); nia).
  assert (b < 2 ^ 32) as Hb32 by nia.
  destruct (C79_number_of_digits c U32 d digits v Hc Hcol Hf He Hb32 Hv32) as (cs & Hp & Hlen).
  { intros ->. destruct Hv as (i & E & _). unfold least in E. destruct (_ || _); [reflexivity|lia]. }
  exists vs, cs. split; [exact Evs|]. split; [apply Hin, Hv|]. split; [exact Hp|]. apply Hlen; [exact Hk|]. split; assumption.
Qed.

Theorem C81_tens : forall c d digits,
  valid_config c -> collects c d digits -> dc_fixed d = false ->
  enough (dc_has_zero_digit d) (N.of_nat (length digits)) ->
  least d + N.of_nat (length digits) * N.of_nat (length digits) + 2 < 2 ^ 32 ->
  shown_with c d (least d) 1 /\
  exists v, shown_with c d v 1 /\ shown_with c d (v + 1) 2.
Proof.
  intros c d digits Hc Hcol Hf He Hmax. set (b := N.of_nat (length digits)) in *.
  assert (1 <= b) as Hb by (unfold enough in He; destruct (dc_has_zero_digit d); lia).
  assert (first_with (dc_has_zero_digit d) (dc_zero_based d) b 1 = least d) as E1.
  { unfold first_with, least. destruct (dc_has_zero_digit d), (dc_zero_based d); reflexivity. }
  assert (first_with (dc_has_zero_digit d) (dc_zero_based d) b 2 = least d + b) as E2.
  { unfold first_with, least. destruct (dc_has_zero_digit d), (dc_zero_based d); cbn [repunit orb Nat.leb Nat.sub]; change (N.of_nat 1) with 1; rewrite ?N.pow_1_r; lia. }
  assert (least d + b < first_with (dc_has_zero_digit d) (dc_zero_based d) b 3) as E3.
  { rewrite <- E2. apply first_grows; [exact He|lia]. }
  split; [|exists (least d + (b - 1)); split].
  - eapply shown_length; try eassumption; try lia; fold b; [exists 0; lia|rewrite E1; lia|rewrite E2; lia].
  - eapply shown_length; try eassumption; try lia; fold b; [exists (b - 1); lia|rewrite E1; lia|rewrite E2; lia].
  - eapply shown_length; try eassumption; try lia; fold b; [exists b; lia|rewrite E2; lia|lia].
Qed.
Print Assumptions C81_tens.

(** "Show the hundreds transition" (examples/previews.rs:225). *)
Theorem C81_hundreds_partial : forall c d digits,
  valid_config c -> collects c d digits -> dc_fixed d = false -> dc_has_zero_digit d = true ->
  2 <= N.of_nat (length digits) -> least d + N.of_nat (length digits) * N.of_nat (length digits) + 2 < 2 ^ 32 ->
  exists v, shown_with c d v 2 /\ shown_with c d (v + 1) 3.
Proof.
  intros c d digits Hc Hcol Hf Hz Hb Hmax. set (b := N.of_nat (length digits)) in *.
  assert (least d = 0) as E0 by (unfold least; rewrite Hz; reflexivity).
  exists (b * b - 1). split.
  - eapply shown_length; try eassumption; fold b; rewrite ?Hz; cbn [enough first_with Nat.leb Nat.sub]; [exact Hb| |lia| |].
    + exists (b * b - 1). nia.
    + change (N.of_nat 1) with 1. nia.
    + change (N.of_nat 2) with 2. nia.
  - eapply shown_length; try eassumption; fold b; rewrite ?Hz; cbn [enough first_with Nat.leb Nat.sub]; [exact Hb| |lia| |].
    + exists (b * b). nia.
    + change (N.of_nat 2) with 2. nia.
    + change (N.of_nat 3) with 3. nia.
Qed.
Print Assumptions C81_hundreds_partial.

(** Without a zero digit the square of the number of digits is nowhere near the
    change from two digits to three: no preview shows three digits. *)
Theorem C81_without_zero : forall c d digits v,
  valid_config c -> collects c d digits -> dc_fixed d = false -> dc_has_zero_digit d = false ->
  3 <= N.of_nat (length digits) -> least d + N.of_nat (length digits) * N.of_nat (length digits) + 2 < 2 ^ 32 ->
  to_be_shown d (N.of_nat (length digits)) v -> shown_with c d v 1 \/ shown_with c d v 2.
Proof.
  intros c d digits v Hc Hcol Hf Hz Hb Hmax Hv. set (b := N.of_nat (length digits)) in *.
  assert (first_with false (dc_zero_based d) b 1 = least d) as E1.
  { unfold first_with, least. rewrite Hz. destruct (dc_zero_based d); reflexivity. }
  assert (first_with false (dc_zero_based d) b 2 = least d + b) as E2.
  { unfold first_with, least. rewrite Hz. destruct (dc_zero_based d); cbn [repunit orb]; lia. }
  assert (first_with false (dc_zero_based d) b 3 = least d + b + b * b) as E3.
  { unfold first_with, least. rewrite Hz. destruct (dc_zero_based d); cbn [repunit orb]; lia. }
  destruct (N.lt_ge_cases v (least d + b)) as [Hlt|Hge].
  - left. eapply shown_length; try eassumption; fold b; rewrite ?Hz, ?E1, ?E2; cbn [enough]; try lia.
    destruct Hv as (k & -> & _). lia.
  - right. eapply shown_length; try eassumption; fold b; rewrite ?Hz, ?E3, ?E2; cbn [enough]; try lia.
    destruct Hv as (k & -> & Hk). nia.
Qed.
Print Assumptions C81_without_zero.

Lemma at_least_a_byte cs : (length cs <= length (utf8 cs))%nat.
Proof.
  induction cs as [|ch cs IH]; [cbn; lia|]. rewrite utf8_cons, app_length, encode_char_length_nat.
  pose proof (len_utf8_bounds ch). cbn [length]. lia.
Qed.

Theorem C81_hundreds_refuted :
  dc_has_zero_digit LetterLower = false /\ dc_len LetterLower = Ret 26 /\ dc_fixed LetterLower = false /\
  forall v, ~ shown_with on_heap LetterLower v 3.
Proof.
  split; [reflexivity|]. split; [reflexivity|]. split; [reflexivity|].
  intros v (vs & cs & Evs & Hv & (s & E & Es & _) & Hl).
  assert (digit_preview_values on_heap LetterLower = Ret [0; 1; 2; 3; 4; 25; 26; 27; 28; 675; 676; 677; 678]) as E' by (vm_compute; reflexivity).
  rewrite E' in Evs. injection Evs as <-. clear E'.
  assert (seen (try_format_digits on_heap U32 LetterLower v) = Ret (Ok (utf8 cs))) as Hs.
  { rewrite E. cbn [seen obind]. rewrite Es. reflexivity. }
  pose proof (at_least_a_byte cs) as Hb.
  assert (match seen (try_format_digits on_heap U32 LetterLower v) with Ret (Ok t) => (length t <=? 2)%nat | _ => true end = true) as Ht.
  { clear - Hv. revert v Hv. apply Forall_forall. repeat (apply Forall_cons; [vm_compute; reflexivity|]). apply Forall_nil. }
  rewrite Hs in Ht. apply Nat.leb_le in Ht. lia.
Qed.
Print Assumptions C81_hundreds_refuted.

Example C81_case :
  seen (try_format_digits no_heap U32 LetterLower 675) = Ret (Ok (bytes "yz"%string)) /\
  seen (try_format_digits no_heap U32 LetterLower 676) = Ret (Ok (bytes "za"%string)) /\
  seen (try_format_digits no_heap U32 LetterLower 701) = Ret (Ok (bytes "zz"%string)) /\
  seen (try_format_digits no_heap U32 LetterLower 702) = Ret (Ok (bytes "aaa"%string)) /\
  seen (try_format_digits no_heap U32 (HexLower no_heap) 255) = Ret (Ok (bytes "ff"%string)) /\
  seen (try_format_digits no_heap U32 (HexLower no_heap) 256) = Ret (Ok (bytes "100"%string)).
Proof. repeat split; vm_compute; reflexivity. Qed.
