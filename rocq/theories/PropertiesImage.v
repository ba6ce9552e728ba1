(** * PropertiesImage: C76, which texts are numerals *)

From Coq Require Import String Sorted.
From Verif Require Import Prelude Utf8Facts StringFacts History Outcome DigitFacts DigitSets PropertiesDigital
  Additive AdditiveFacts AdditiveSets ScriptFacts Ethiopic Hebrew Cases PropertiesComposed
  ChineseNumeral Chinese PropertiesChinese.

(** The call returned a string with text [cs]. *)
Definition printed (r : outcome (result nominal_string error)) (cs : list N) : Prop :=
  exists s, r = Ret (Ok s) /\ as_str s = Ret (utf8 cs).

(** There is room for the text: a heap, or at most 62 bytes. *)
Definition storable (c : config) (cs : list N) : Prop := has_alloc c = true \/ at_most_62 (utf8 cs) = true.

Lemma printed_iff c r n cs cs' : yields c r n cs' -> scalars cs ->
  (printed r cs <-> cs = cs' /\ storable c cs).
Proof.
  intros (x & -> & H) Hs. unfold stored in H. rewrite room_roomy in H. unfold roomy in H. unfold printed, storable.
  destruct (has_alloc c || at_most_62 (utf8 cs')) eqn:E.
  - destruct H as (s & -> & Ht). pose proof (text_scalars _ _ _ Ht) as Hs'. destruct Ht as [Hr _]. apply rep_str in Hr.
    split.
    + intros (s' & E1 & E2). injection E1 as <-. rewrite Hr in E2. injection E2 as E2.
      apply utf8_inj in E2; [|assumption..]. subst cs'. split; [reflexivity|]. apply orb_true_iff, E.
    + intros (-> & _). eauto.
  - subst x. split.
    + intros (s & E1 & _). discriminate.
    + intros (-> & H). apply orb_true_iff in H. congruence.
Qed.

(** ** Digit collections *)

(** The texts a collection prints are the non-empty strings of its digits,
    without a leading zero if it has a zero, whose value the type can hold. *)
Theorem C76_digits : forall c T d digits cs,
  valid_config c -> collects c d digits -> dc_fixed d = false ->
  enough (dc_has_zero_digit d) (N.of_nat (length digits)) -> fits c T (N.of_nat (length digits)) ->
  scalars cs ->
  ((exists n, fits c T n /\ printed (try_format_digits c T d n) cs) <->
   storable c cs /\ exists ds, cs = map (digit_char digits) ds /\ below (N.of_nat (length digits)) ds /\
     if dc_has_zero_digit d then canonical ds /\ fits c T (positional_value (N.of_nat (length digits)) ds)
     else ds <> [] /\
          fits c T (if dc_zero_based d then bijective_value (N.of_nat (length digits)) ds - 1
                    else bijective_value (N.of_nat (length digits)) ds)).
Proof.
  intros c T d digits cs Hc Hcol Hf He Hb Hs. split.
  - intros (n & Hn & Hp).
    assert (dc_has_zero_digit d = false -> dc_zero_based d = false -> n <> 0) as Hnz.
    { intros Hz Hzb ->. destruct Hp as (s & E & _). unfold try_format_digits in E.
      destruct (depth_succ c Hc) as (k & Ek). rewrite Ek in E.
      rewrite (format_digits_zero (S k) c T d digits) in E; try assumption; [discriminate|].
      revert He. unfold enough. rewrite Hz. auto. }
    destruct (digit_numeral_exists (dc_has_zero_digit d) (dc_zero_based d) digits n He Hnz) as (cs' & Hnum).
    pose proof (format_numeral c T d digits n cs' Hc Hcol Hf Hb Hn He Hnum) as Hy.
    apply (printed_iff _ _ _ cs _ Hy Hs) in Hp as (-> & Hst). split; [exact Hst|].
    unfold digit_numeral in Hnum. destruct (dc_has_zero_digit d); [|destruct (dc_zero_based d)].
    + destruct Hnum as (ds & H1 & H2 & H3 & H4). exists ds. rewrite H3. auto.
    + destruct Hnum as (ds & H1 & H2 & H3). exists ds. repeat split; try assumption.
      * intros ->. cbn in H2. lia.
      * rewrite H2, N.add_sub. exact Hn.
    + destruct Hnum as (Hn0 & ds & H1 & H2 & H3). exists ds. repeat split; try assumption.
      * intros ->. cbn in H2. congruence.
      * rewrite H2. exact Hn.
  - intros (Hst & ds & -> & Hbl & H).
    assert (forall n, digit_numeral (dc_has_zero_digit d) (dc_zero_based d) digits n (map (digit_char digits) ds) ->
              fits c T n -> exists n, fits c T n /\ printed (try_format_digits c T d n) (map (digit_char digits) ds)) as Hgo.
    { intros n Hnum Hn. exists n. split; [exact Hn|].
      pose proof (format_numeral c T d digits n _ Hc Hcol Hf Hb Hn He Hnum) as Hy.
      apply (printed_iff _ _ _ _ _ Hy Hs). auto. }
    assert (ds <> [] -> 1 <= bijective_value (N.of_nat (length digits)) ds) as Hpos.
    { intros Hne. destruct (exists_last Hne) as (ds' & x & ->). rewrite bijective_value_app. lia. }
    unfold digit_numeral in Hgo. destruct (dc_has_zero_digit d); [|destruct (dc_zero_based d)].
    + destruct H as (Hcan & Hfit). eapply Hgo; [|exact Hfit]. exists ds. auto.
    + destruct H as (Hne & Hfit). specialize (Hpos Hne). eapply Hgo; [|exact Hfit].
      rewrite N.sub_add by exact Hpos. exists ds. auto.
    + destruct H as (Hne & Hfit). specialize (Hpos Hne). eapply Hgo; [|exact Hfit].
      split; [lia|]. exists ds. auto.
Qed.
Print Assumptions C76_digits.

(** Three digits that are a numeral, a leading zero, a value too large for u8. *)
Example C76_digits_case :
  seen (try_format_digits no_heap U8 Decimal 205) = Ret (Ok (bytes "205"%string)) /\
  positional_value 10 [2; 0; 5] = 205 /\ canonical [2; 0; 5] /\ fits no_heap U8 205 /\
  ~ canonical [0; 5] /\ ~ fits no_heap U8 (positional_value 10 [2; 5; 6]).
Proof. vm_compute. repeat split; try discriminate; intros H; apply H; reflexivity. Qed.

(** ** Additive sets *)

(** The texts are the symbols written so often that less than a symbol's value
    remains after it. *)
Theorem C76_additive : forall c T tbl set cs,
  valid_config c -> proper tbl -> additive_set_new (encode tbl) = Ret set -> In 1 (map snd tbl) -> scalars cs ->
  ((exists n, fits c T n /\ 1 <= n /\ printed (try_format_additive c T set n) cs) <->
   storable c cs /\ exists counts, cs = spell tbl counts /\ largest_first tbl counts /\
     fits c T (worth tbl counts) /\ 1 <= worth tbl counts).
Proof.
  intros c T tbl set cs Hc Hp Hset Hin Hs.
  assert (strictly_descending tbl) as Hd.
  { unfold additive_set_new in Hset. destruct (descending (encode tbl)) eqn:E; [|discriminate].
    apply encode_sorted, descending_sorted, E. }
  assert (forall n, worth tbl (greedy tbl n) = n) as Hw.
  { intros n. pose proof (worth_greedy tbl n). rewrite (grem_one tbl n Hd Hin) in *. lia. }
  split.
  - intros (n & Hn & Hn1 & Hpr).
    assert (yields c (try_format_additive c T set n) n (gtext tbl n)) as Hy by (apply additive_text; try assumption; lia).
    apply (printed_iff _ _ _ cs _ Hy Hs) in Hpr as (-> & Hst). split; [exact Hst|].
    exists (greedy tbl n). rewrite Hw, spell_greedy. split; [reflexivity|].
    split; [apply largest_first_greedy, Hd|]. auto.
  - intros (Hst & counts & -> & Hl & Hn & Hn1). exists (worth tbl counts). split; [exact Hn|]. split; [exact Hn1|].
    assert (yields c (try_format_additive c T set (worth tbl counts)) (worth tbl counts) (gtext tbl (worth tbl counts))) as Hy
      by (apply additive_text; try assumption; lia).
    apply (printed_iff _ _ _ _ _ Hy Hs). split; [|exact Hst].
    rewrite <- spell_greedy. f_equal. apply (largest_first_unique tbl); [exact Hl|apply largest_first_greedy, Hd|].
    symmetry. apply Hw.
Qed.
Print Assumptions C76_additive.

(** XIV is fourteen; XVIIII has the counts 1, 1, 4 with nothing wrong but the
    order: after V less than four remains. *)
Example C76_additive_case :
  let tbl := [(chars "X"%string, 10); (chars "V"%string, 5); (chars "IV"%string, 4); (chars "I"%string, 1)] in
  proper tbl /\ In 1 (map snd tbl) /\
  spell tbl [1; 0; 1; 0] = chars "XIV"%string /\ largest_first tbl [1; 0; 1; 0] /\
  spell tbl [1; 1; 0; 4] = chars "XVIIII"%string /\ ~ largest_first tbl [1; 1; 0; 4] /\
  (set <- additive_set_new (encode tbl) ;; seen (try_format_additive no_heap U8 set 14)) = Ret (Ok (bytes "XIV"%string)).
Proof.
  cbv zeta. split; [apply properb_proper; vm_compute; reflexivity|]. split; [cbn; tauto|]. split; [reflexivity|].
  split; [cbn; lia|]. split; [reflexivity|]. split; [cbn; lia|]. vm_compute; reflexivity.
Qed.

(** ** Ethiopic *)

(** The texts and their values, by the rules of C75. *)
Inductive ethiopic_text : N -> list N -> Prop :=
| EthiopicTwoSigns : forall t o, t < 10 -> o < 10 -> 1 <= t * 10 + o ->
    ethiopic_text (t * 10 + o) ((if t =? 0 then [] else [0x1371 + t]) ++ (if o =? 0 then [] else [0x1368 + o]))
| EthiopicHundred : ethiopic_text 100 [0x137B]
| EthiopicHundredAnd : forall b cs, b < 100 -> ethiopic_text b cs -> ethiopic_text (100 + b) (0x137B :: cs)
| EthiopicHundreds : forall a cs, 1 < a -> a < 100 -> ethiopic_text a cs -> ethiopic_text (a * 100) (cs ++ [0x137B])
| EthiopicHundredsAnd : forall a b cs cs', 1 < a -> a < 100 -> b < 100 -> ethiopic_text a cs -> ethiopic_text b cs' ->
    ethiopic_text (a * 100 + b) (cs ++ [0x137B] ++ cs')
| EthiopicTenThousand : ethiopic_text 10000 [0x137C]
| EthiopicTenThousandAnd : forall l cs, l < 10000 -> ethiopic_text l cs -> ethiopic_text (10000 + l) (0x137C :: cs)
| EthiopicTenThousands : forall h cs, 1 < h -> ethiopic_text h cs -> ethiopic_text (h * 10000) (cs ++ [0x137C])
| EthiopicTenThousandsAnd : forall h l cs cs', 1 < h -> l < 10000 -> ethiopic_text h cs -> ethiopic_text l cs' ->
    ethiopic_text (h * 10000 + l) (cs ++ [0x137C] ++ cs').

Lemma ethiopic_two_signs t o : t < 10 -> o < 10 ->
  (if t =? 0 then [] else [0x1371 + t]) ++ (if o =? 0 then [] else [0x1368 + o]) = ethiopic_digits (t * 10 + o).
Proof.
  intros Ht Ho. unfold ethiopic_digits. rewrite N.div_add_l by lia. rewrite (N.div_small o 10) by lia.
  rewrite N.add_0_r. replace ((t * 10 + o) mod 10) with o.
  2:{ rewrite N.add_comm, N.mod_add by lia. rewrite N.mod_small by lia. reflexivity. }
  destruct (N.eqb_spec t 0); destruct (N.eqb_spec o 0); cbn [app]; f_equal; try lia; f_equal; lia.
Qed.

Lemma ethiopic_text_positive n cs : ethiopic_text n cs -> 1 <= n.
Proof. induction 1; lia. Qed.

Lemma ethiopic_text_digits n cs : n < 100 -> ethiopic_text n cs -> cs = ethiopic_digits n.
Proof. intros Hn H. destruct H; try lia. apply ethiopic_two_signs; assumption. Qed.

Lemma ethiopic_text_numeral n cs : ethiopic_text n cs -> ethiopic_numeral n cs.
Proof.
  induction 1 as [t o Ht Ho H1| |b cs Hb H IH|a cs Ha Ha' H IH|a b cs cs' Ha Ha' Hb H IH H' IH'| |l cs Hl H IH
                 |h cs Hh H IH|h l cs cs' Hh Hl H IH H' IH'].
  - rewrite ethiopic_two_signs by assumption. apply ethiopic_small; lia.
  - apply (ethiopic_pair 1 0); lia.
  - rewrite (ethiopic_text_digits b cs Hb H). apply (ethiopic_pair 1 b); lia.
  - rewrite (ethiopic_text_digits a cs Ha' H). pose proof (ethiopic_pair a 0 ltac:(lia) Ha' ltac:(lia)) as E.
    rewrite N.add_0_r in E. destruct (N.eqb_spec a 1); [lia|]. exact E.
  - rewrite (ethiopic_text_digits a cs Ha' H), (ethiopic_text_digits b cs' Hb H').
    pose proof (ethiopic_pair a b ltac:(lia) Ha' Hb) as E. destruct (N.eqb_spec a 1); [lia|]. exact E.
  - apply (ethiopic_compose 1 0 [0x1369] []); try lia. reflexivity.
  - pose proof (ethiopic_text_positive _ _ H).
    pose proof (ethiopic_compose 1 l [0x1369] cs ltac:(lia) Hl eq_refl (fun _ => IH)) as E.
    destruct (N.eqb_spec l 0); [lia|]. exact E.
  - pose proof (ethiopic_compose h 0 cs [] ltac:(lia) ltac:(lia) IH ltac:(lia)) as E.
    rewrite N.add_0_r in E. destruct (N.eqb_spec h 1); [lia|]. exact E.
  - pose proof (ethiopic_text_positive _ _ H').
    pose proof (ethiopic_compose h l cs cs' ltac:(lia) Hl IH (fun _ => IH')) as E.
    destruct (N.eqb_spec h 1); [lia|]. destruct (N.eqb_spec l 0); [lia|]. exact E.
Qed.

Lemma ethiopic_text_exists n : 1 <= n -> exists cs, ethiopic_text n cs.
Proof.
  induction n as [n IH] using (well_founded_induction N.lt_wf_0). intros Hn.
  destruct (N.lt_ge_cases n 100) as [H|H].
  { pose proof (N.div_mod' n 10) as E. pose proof (N.mod_lt n 10 ltac:(lia)).
    assert (n / 10 < 10) by (apply N.div_lt_upper_bound; lia).
    replace n with (n / 10 * 10 + n mod 10) by lia. eexists. apply EthiopicTwoSigns; lia. }
  destruct (N.lt_ge_cases n 10000) as [H'|H'].
  { pose proof (N.div_mod' n 100) as E. pose proof (N.mod_lt n 100 ltac:(lia)) as Hm.
    assert (n / 100 < 100) as Hd by (apply N.div_lt_upper_bound; lia).
    set (a := n / 100) in *. set (b := n mod 100) in *.
    destruct (N.eq_dec a 1) as [Ha|Ha]; destruct (N.eq_dec b 0) as [Hb|Hb].
    - replace n with 100 by lia. eexists; apply EthiopicHundred.
    - destruct (IH b ltac:(lia) ltac:(lia)) as (cs & Hcs). replace n with (100 + b) by lia.
      eexists. apply EthiopicHundredAnd; eassumption.
    - destruct (IH a ltac:(lia) ltac:(lia)) as (cs & Hcs). replace n with (a * 100) by lia.
      eexists. apply EthiopicHundreds; try eassumption. lia.
    - destruct (IH a ltac:(lia) ltac:(lia)) as (cs & Hcs). destruct (IH b ltac:(lia) ltac:(lia)) as (cs' & Hcs').
      replace n with (a * 100 + b) by lia. eexists. apply EthiopicHundredsAnd; try eassumption. lia. }
  pose proof (N.div_mod' n 10000) as E. pose proof (N.mod_lt n 10000 ltac:(lia)) as Hm.
  set (h := n / 10000) in *. set (l := n mod 10000) in *.
  destruct (N.eq_dec h 1) as [Ha|Ha]; destruct (N.eq_dec l 0) as [Hb|Hb].
  - replace n with 10000 by lia. eexists; apply EthiopicTenThousand.
  - destruct (IH l ltac:(lia) ltac:(lia)) as (cs & Hcs). replace n with (10000 + l) by lia.
    eexists. apply EthiopicTenThousandAnd; eassumption.
  - destruct (IH h ltac:(lia) ltac:(lia)) as (cs & Hcs). replace n with (h * 10000) by lia.
    eexists. apply EthiopicTenThousands; try eassumption. lia.
  - destruct (IH h ltac:(lia) ltac:(lia)) as (cs & Hcs). destruct (IH l ltac:(lia) ltac:(lia)) as (cs' & Hcs').
    replace n with (h * 10000 + l) by lia. eexists. apply EthiopicTenThousandsAnd; try eassumption. lia.
Qed.

(** What is printed at [n] is what the rules give, and nothing else. *)
Theorem C76_ethiopic : forall c T n cs,
  valid_config c -> fits c T n -> 1 <= n -> scalars cs ->
  (printed (Ethiopic c T n) cs <-> ethiopic_text n cs /\ storable c cs).
Proof.
  intros c T n cs Hc Hn Hn1 Hs. destruct (ethiopic_text_exists n Hn1) as (cs' & Ht).
  pose proof (ethiopic_text_numeral _ _ Ht) as Hnum.
  assert (yields c (Ethiopic c T n) n cs') as Hy by (apply ethiopic_yields; try assumption; lia).
  rewrite (printed_iff _ _ _ cs _ Hy Hs). split.
  - intros (-> & Hst). auto.
  - intros (Ht' & Hst). split; [|exact Hst].
    eapply ethiopic_numeral_fun; [apply ethiopic_text_numeral, Ht'|exact Hnum].
Qed.
Print Assumptions C76_ethiopic.

(** ** Hebrew *)

(** [k] letters tav, then at most one letter each for the hundreds, the tens
    and the ones, with the two exceptions; marks around a lone letter. *)
Definition hebrew_spelled (k h t o : N) : list N :=
  let cs := copies k [tav] ++ letter hebrew_hundreds h ++
            (if (t =? 1) && (o =? 5) then [0x5D8; gershayim; 0x5D5]
             else if (t =? 1) && (o =? 6) then [0x5D8; gershayim; 0x5D6]
             else letter hebrew_tens t ++ letter hebrew_ones o) in
  match cs with [x] => [geresh; x; gershayim] | _ => cs end.

Lemma hebrew_spelled_numeral k h t o : h < 4 -> t < 10 -> o < 10 ->
  hebrew_numeral (k * 400 + h * 100 + t * 10 + o) = hebrew_spelled k h t o.
Proof.
  intros Hh Ht Ho. unfold hebrew_numeral, hebrew_spelled, hebrew_letters.
  replace (k * 400 + h * 100 + t * 10 + o) with (k * 400 + (h * 100 + (t * 10 + o))) by lia.
  rewrite N.div_add_l, (N.div_small (h * 100 + (t * 10 + o)) 400), N.add_0_r by lia.
  rewrite (N.add_comm (k * 400)), N.mod_add, (N.mod_small (h * 100 + (t * 10 + o)) 400) by lia.
  rewrite N.div_add_l, (N.div_small (t * 10 + o) 100), N.add_0_r by lia.
  rewrite (N.add_comm (h * 100)), N.mod_add, (N.mod_small (t * 10 + o) 100) by lia.
  rewrite N.div_add_l, (N.div_small o 10), N.add_0_r by lia.
  cbv zeta.
  replace ((t * 10 + o) mod 10) with o.
  2:{ rewrite N.add_comm, N.mod_add by lia. rewrite N.mod_small by lia. reflexivity. }
  replace (t * 10 + o =? 15) with ((t =? 1) && (o =? 5)).
  2:{ destruct (N.eqb_spec t 1), (N.eqb_spec o 5), (N.eqb_spec (t * 10 + o) 15); try reflexivity; lia. }
  replace (t * 10 + o =? 16) with ((t =? 1) && (o =? 6)).
  2:{ destruct (N.eqb_spec t 1), (N.eqb_spec o 6), (N.eqb_spec (t * 10 + o) 16); try reflexivity; lia. }
  match goal with |- match ?cs with _ => _ end = _ => destruct cs as [|x [|y cs']]; reflexivity end.
Qed.

Theorem C76_hebrew : forall c T cs,
  valid_config c -> scalars cs ->
  ((exists n, fits c T n /\ 1 <= n /\ printed (Hebrew c T n) cs) <->
   storable c cs /\ exists k h t o, cs = hebrew_spelled k h t o /\ h < 4 /\ t < 10 /\ o < 10 /\
     1 <= k * 400 + h * 100 + t * 10 + o /\ fits c T (k * 400 + h * 100 + t * 10 + o)).
Proof.
  intros c T cs Hc Hs. split.
  - intros (n & Hn & Hn1 & Hp).
    assert (yields c (Hebrew c T n) n (hebrew_numeral n)) as Hy by (apply hebrew_yields; try assumption; lia).
    apply (printed_iff _ _ _ cs _ Hy Hs) in Hp as (-> & Hst). split; [exact Hst|].
    set (r := n mod 400). pose proof (N.div_mod' n 400) as E. pose proof (N.mod_lt n 400 ltac:(lia)) as Hr.
    pose proof (N.div_mod' r 100) as E1. pose proof (N.mod_lt r 100 ltac:(lia)) as Hr1.
    pose proof (N.div_mod' (r mod 100) 10) as E2. pose proof (N.mod_lt (r mod 100) 10 ltac:(lia)) as Hr2.
    assert (r / 100 < 4) by (apply N.div_lt_upper_bound; subst r; lia).
    assert (r mod 100 / 10 < 10) by (apply N.div_lt_upper_bound; lia).
    assert (n / 400 * 400 + r / 100 * 100 + r mod 100 / 10 * 10 + r mod 100 mod 10 = n) as En by (fold r in E; lia).
    exists (n / 400), (r / 100), (r mod 100 / 10), (r mod 100 mod 10).
    rewrite <- hebrew_spelled_numeral by assumption. rewrite En. auto 10.
  - intros (Hst & k & h & t & o & -> & Hh & Ht & Ho & Hn1 & Hn).
    exists (k * 400 + h * 100 + t * 10 + o). split; [exact Hn|]. split; [exact Hn1|].
    assert (yields c (Hebrew c T (k * 400 + h * 100 + t * 10 + o)) (k * 400 + h * 100 + t * 10 + o)
              (hebrew_numeral (k * 400 + h * 100 + t * 10 + o))) as Hy by (apply hebrew_yields; try assumption; lia).
    apply (printed_iff _ _ _ _ _ Hy Hs). split; [|exact Hst]. symmetry. apply hebrew_spelled_numeral; assumption.
Qed.
Print Assumptions C76_hebrew.

Example C76_scripts_case :
  ethiopic_text 201203 ([0x1373] ++ [0x137C] ++ ([0x1372; 0x136A] ++ [0x137B] ++ [0x136B])) /\
  seen (Ethiopic no_heap U32 201203) = Ret (Ok (utf8 [0x1373; 0x137C; 0x1372; 0x136A; 0x137B; 0x136B])) /\
  hebrew_spelled 2 3 1 5 = [tav; tav; 0x5E9; 0x5D8; gershayim; 0x5D5] /\
  seen (Hebrew no_heap U16 1115) = Ret (Ok (utf8 [tav; tav; 0x5E9; 0x5D8; gershayim; 0x5D5])) /\
  hebrew_spelled 0 0 4 0 = [geresh; 0x5DE; gershayim].
Proof.
  split.
  - apply (EthiopicTenThousandsAnd 20 1203); [lia|lia|apply (EthiopicTwoSigns 2 0); lia|].
    apply (EthiopicHundredsAnd 12 3); [lia|lia|lia|apply (EthiopicTwoSigns 1 2); lia|apply (EthiopicTwoSigns 0 3); lia].
  - vm_compute. repeat split.
Qed.

(** ** Chinese *)

(** At [n] exactly the numeral of C52 is printed; with a short scale nothing
    is from 10^15 on. *)
Theorem C76_chinese : forall traditional formal o c T n cs,
  valid_config c -> fits c T n -> scalars cs ->
  (printed (chinese traditional formal o c T n) cs <->
   in_range o n /\ storable c cs /\
   exists signs, chinese_numeral (scaling_in o) (negb formal) n signs /\ cs = map (glyph (script traditional o)) signs).
Proof.
  intros traditional formal o c T n cs Hc Hn Hs.
  destruct (scale o) eqn:Hsc.
  1: destruct (N.lt_ge_cases n (10 ^ 15)) as [Hlt|Hge].
  2:{ split.
      - intros (s & E & _). destruct (C40_bound traditional formal o c T n Hc Hn) as [H _]. rewrite (H Hsc Hge) in E. discriminate.
      - intros (Hr & _). specialize (Hr Hsc). lia. }
  all: assert (in_range o n) as Hr by (intros Ho; congruence || assumption).
  all: pose proof (chinese_writes traditional formal o c T n Hc Hn Hr) as Hy.
  all: pose proof (chinese_t_numeral formal (scale o) n (fits_wide _ _ _ Hc Hn) Hr) as Hnum.
  all: rewrite (printed_iff _ _ _ cs _ Hy Hs), <- scaling_in_of in *.
  all: split; [intros (-> & Hst); eauto|].
  all: intros (_ & Hst & signs & H & ->); split; [|exact Hst]; unfold write; f_equal;
    eapply numeral_unique; eassumption.
Qed.
Print Assumptions C76_chinese.

Example C76_chinese_case :
  chinese_numeral MyriadScaling true 100010 [Marker 1; Large 0; Digit 0; Digit 1; Marker 1] /\
  seen (chinese false false (with_scale Myriad) no_heap U32 100010) = Ret (Ok (bytes "十万零一十"%string)).
Proof.
  split; [|vm_compute; reflexivity].
  apply (numeral_gap MyriadScaling true 100010 0 [Marker 1] [Digit 1; Marker 1]);
    [lia|vm_compute; discriminate|right; vm_compute; reflexivity| |vm_compute; discriminate| |].
  - apply (numeral_small MyriadScaling true 10). lia.
  - exists 0. vm_compute. split; [discriminate|reflexivity].
  - apply (numeral_small MyriadScaling false 10). lia.
Qed.
