(** * PropertiesTurns: C64, how long formatting takes

    [within c d] is the build [c] with every loop cut off after [2 ^ d] turns:
    a loop that is not done by then gives [Hang]. *)

From Coq Require Import String Sorted.
From Verif Require Import Prelude Utf8Facts StringFacts History Outcome DigitFacts DigitOrder DigitSets PropertiesDigital
  AdditiveFacts AdditiveSets PropertiesAdditive ScriptFacts Additive Enumerated Ethiopic Hebrew Chinese PropertiesChinese PropertiesSystem
  Turns Cases.

(** ** Digit collections *)

(** Any collection takes one turn per digit printed and a last one: with fewer
    turns allowed it does not finish, with as many it gives its result. *)
Theorem C64_one_turn_per_digit : forall c T coll digits n cs d,
  valid_config c -> collects c coll digits -> dc_fixed coll = false ->
  enough (dc_has_zero_digit coll) (N.of_nat (length digits)) ->
  fits c T (N.of_nat (length digits)) -> fits c T n ->
  digit_numeral (dc_has_zero_digit coll) (dc_zero_based coll) digits n cs ->
  (N.of_nat (length cs) + 1 <= 2 ^ N.of_nat d ->
     try_format_digits (within c d) T coll n = try_format_digits c T coll n) /\
  (has_alloc c = true -> 2 ^ N.of_nat d < N.of_nat (length cs) + 1 -> try_format_digits (within c d) T coll n = Hang).
Proof.
  intros c T coll digits n cs d Hc Hcol Hf He Hfit Hn Hnum.
  pose proof (numeral_turns c T coll digits n Hcol Hfit cs He Hnum) as L.
  assert (N.of_nat (length cs) < 2 ^ N.of_nat (loop_depth c)) as Hlen.
  { apply N.lt_le_trans with (n + 2); [pose proof (numeral_length _ _ _ _ _ He Hnum); lia|].
    apply budget; [assumption|]. pose proof (fits_128 c T n Hc Hn). lia. }
  destruct (lasts_run c _ _ _ d L Hlen) as [L1 L2].
  destruct Hcol as (Hl & _). unfold try_format_digits. cbn [within loop_depth].
  destruct (depth_succ c Hc) as (k & Ek). rewrite Ek. destruct d as [|d].
  - split; [|reflexivity]. change (2 ^ N.of_nat 0) with 1. pose proof (numeral_length _ _ _ _ _ He Hnum). lia.
  - cbn [format_digits]. rewrite Hl, Hf. cbn [obind]. 
    change (try_from (within c (S d)) T) with (try_from c T). rewrite try_from_fits by assumption. cbn [andb].
    change (digit_loop_body (within c (S d)) T coll n) with (digit_loop_body c T coll n).
    split; [intros H; apply L1; lia|intros Ha H; apply L2; [assumption|lia]].
Qed.
Print Assumptions C64_one_turn_per_digit.

(** The number of turns itself: with alloc the loop breaks in turn
    [length cs + 1], without it not later. *)
Theorem C64_exact_turns : forall c T coll digits n cs,
  valid_config c -> collects c coll digits -> dc_fixed coll = false ->
  enough (dc_has_zero_digit coll) (N.of_nat (length digits)) ->
  fits c T (N.of_nat (length digits)) -> fits c T n ->
  digit_numeral (dc_has_zero_digit coll) (dc_zero_based coll) digits n cs ->
  exists turns r,
    runs (digit_loop_body c T coll n)
      turns
      {| dl_remaining := n; dl_first_loop := true; dl_count := N.of_nat (length digits); dl_formatted := new_reverse |} r /\
    try_format_digits c T coll n = Ret r /\
    turns <= N.of_nat (length cs) + 1 /\ (has_alloc c = true -> turns = N.of_nat (length cs) + 1).
Proof.
  intros c T coll digits n cs Hc Hcol Hf He Hfit Hn Hnum.
  destruct (numeral_turns c T coll digits n Hcol Hfit cs He Hnum) as (j & r & Hr & Hj & Ha).
  exists j, r. split; [exact Hr|]. split; [|auto].
  unfold try_format_digits. destruct (depth_succ c Hc) as (k & Ek). rewrite Ek. destruct Hcol as (Hl & _).
  cbn [format_digits]. rewrite Hl, Hf. cbn [obind andb]. rewrite try_from_fits by assumption.
  apply (runs_run_loop c _ j _ r Hr). apply budget; [assumption|].
  pose proof (numeral_length _ _ _ _ _ He Hnum). pose proof (fits_128 c T n Hc Hn). lia.
Qed.
Print Assumptions C64_exact_turns.

(** A row of an additive set. *)
Theorem C64_exact_turns_of_a_row : forall c T tbl n sym v k rest s before,
  valid_config c -> proper ((sym, v) :: tbl) -> v <> 0 -> rest < v -> fits c T (k * v + rest) -> text c s before ->
  exists turns r,
    runs (additive_while_body c T n (utf8 sym) v) turns (k * v + rest, s) r /\
    run_loop c (additive_while_body c T n (utf8 sym) v) (k * v + rest, s) = Ret r /\
    turns <= k + 1 /\ (has_alloc c = true -> turns = k + 1).
Proof.
  intros c T tbl n sym v k rest s before Hc Hp Hv Hr Hn Ht. inversion Hp as [|? ? Hsym _]; subst.
  destruct (additive_turns c T n sym v Hsym Hv k rest s before Hr Ht) as (j & r & Hrun & Hj & Ha).
  exists j, r. split; [exact Hrun|]. split; [|auto]. apply (runs_run_loop c _ j _ r Hrun). apply budget; [assumption|].
  pose proof (fits_128 c T _ Hc Hn). nia.
Qed.
Print Assumptions C64_exact_turns_of_a_row.

Example C64_exact_case :
  digit_numeral true true (chars "01"%string) 5 (chars "101"%string) /\ has_alloc on_heap = true /\
  seen (try_format_digits on_heap U8 (digit_set_new (chars "01"%string)) 5) = Ret (Ok (bytes "101"%string)) /\
  seen (try_format_digits (within on_heap 2) U8 (digit_set_new (chars "01"%string)) 7) = Ret (Ok (bytes "111"%string)) /\
  seen (try_format_digits (within on_heap 2) U8 (digit_set_new (chars "01"%string)) 8) = Hang.
Proof.
  split; [exists [1; 0; 1]; split; [repeat constructor|]; split; [discriminate|]; split; reflexivity|].
  split; [reflexivity|]. split; [vm_compute; reflexivity|]. split; vm_compute; reflexivity.
Qed.

(** ** Systems that need few turns *)

Lemma many_digits_within c T coll n d : valid_config c -> fits c T n -> (6 <= d)%nat ->
  (exists b, dc_len coll = Ret b /\ 10 <= b) ->
  (dc_fixed coll = true -> dc_fixed (dc_fallback coll) = false /\ exists b, dc_len (dc_fallback coll) = Ret b /\ 10 <= b) ->
  try_format_digits (within c d) T coll n = try_format_digits c T coll n.
Proof.
  intros Hc Hn Hd Hlen Hfall.
  assert (forall coll d1 d2, dc_fixed coll = false -> (exists b, dc_len coll = Ret b /\ 10 <= b) ->
    format_digits (S d1) (within c d) T coll n = format_digits (S d2) c T coll n) as Hplain.
  { clear coll Hlen Hfall. intros coll d1 d2 Hf Hlen. cbn [format_digits]. rewrite Hf. destruct Hlen as (b & Hlen & Hb). rewrite Hlen. cbn [obind andb].
    change (try_from (within c d) T b) with (try_from c T b). destruct (try_from c T b) as [b'|] eqn:E; [|reflexivity].
    apply try_from_some in E as [-> _].
    change (digit_loop_body (within c d) T coll n) with (digit_loop_body c T coll n).
    apply stops_same with (k := 39 + 1).
    - apply digit_stops; cbn [dl_count dl_remaining dl_first_loop]; [eauto|assumption| |lia].
      pose proof (fits_128 c T n Hc Hn). apply N.lt_trans with (2 ^ 128); [assumption|reflexivity].
    - transitivity (2 ^ 6); [vm_compute; discriminate|]. apply N.pow_le_mono_r; lia.
    - apply budget; [assumption|vm_compute; discriminate]. }
  unfold try_format_digits. cbn [within loop_depth]. destruct (depth_succ c Hc) as (k & ->).
  destruct d as [|[|d]]; [lia|lia|].
  destruct (dc_fixed coll) eqn:Hf; [|apply Hplain; assumption].
  destruct (Hfall eq_refl) as (Hff & Hflen).
  remember (S d) as d1 eqn:Ed1. remember (S k) as k1 eqn:Ek1. destruct Hlen as (b & Hlen & Hb).
  cbn [format_digits]. rewrite Hlen, Hf. cbn [obind andb].
  change (try_from (within c (S d1)) T b) with (try_from c T b). destruct (try_from c T b) as [b'|] eqn:E; [|reflexivity].
  apply try_from_some in E as [-> _]. destruct (if dc_zero_based coll then b <=? n else b <? n).
  - destruct Hflen as (fb & Hfl & Hfb). rewrite Hfl. cbn [obind]. destruct (fb =? 0); [reflexivity|].
    subst d1 k1. apply Hplain; eauto.
  - change (digit_loop_body (within c (S d1)) T coll n) with (digit_loop_body c T coll n).
    apply stops_same with (k := 39 + 1).
    + apply digit_stops; cbn [dl_count dl_remaining dl_first_loop]; [eauto|assumption| |lia].
      pose proof (fits_128 c T n Hc Hn). apply N.lt_trans with (2 ^ 128); [assumption|reflexivity].
    + transitivity (2 ^ 6); [vm_compute; discriminate|]. apply N.pow_le_mono_r; lia.
    + apply budget; [assumption|vm_compute; discriminate].
Qed.

Definition many_digits (coll : digit_collection) : bool :=
  match dc_len coll with Ret b => 10 <=? b | _ => false end.

Lemma many_digits_len coll : many_digits coll = true -> exists b, dc_len coll = Ret b /\ 10 <= b.
Proof. unfold many_digits. destruct (dc_len coll) as [b| | |]; try discriminate. intros H. exists b. split; [reflexivity|lia]. Qed.

(** Sixty-four turns are enough for every digit system, Ethiopic, the circled
    numbers and every Chinese system, whatever the number. *)
Theorem C64_few_turns : forall sys c T n d,
  In sys (digit_systems ++ [CircledNumber; DoubleCircledNumber; Ethiopic] ++ chinese_systems) ->
  valid_config c -> fits c T n -> 64 <= 2 ^ N.of_nat d ->
  sys (within c d) T n = sys c T n.
Proof.
  intros sys c T n d Hin Hc Hn Hd'.
  assert (6 <= d)%nat as Hd.
  { destruct (Nat.le_gt_cases 6 d); [assumption|]. exfalso. assert (2 ^ N.of_nat d <= 2 ^ 5) by (apply N.pow_le_mono_r; lia).
    change (2 ^ 5) with 32 in *. lia. }
  apply in_app_or in Hin as [Hin|Hin]; [|apply in_app_or in Hin as [Hin|Hin]].
  - assert (forall coll, In coll (digit_collections ++ fixed_collections) ->
      many_digits coll = true /\ (dc_fixed coll = true -> dc_fixed (dc_fallback coll) = false /\ many_digits (dc_fallback coll) = true)) as Hall.
    { intros coll H. assert (forallb (fun coll => many_digits coll && (negb (dc_fixed coll) || negb (dc_fixed (dc_fallback coll)) && many_digits (dc_fallback coll)))
        (digit_collections ++ fixed_collections) = true) as Hb by (vm_compute; reflexivity).
      rewrite forallb_forall in Hb. specialize (Hb _ H). apply andb_prop in Hb as [H1 H2]. split; [assumption|].
      intros E. rewrite E in H2. apply andb_prop in H2 as [H2 H3]. split; [apply negb_true_iff, H2|assumption]. }
    unfold digit_systems in Hin. apply in_app_or in Hin as [Hin|Hin]; [|apply in_app_or in Hin as [Hin|Hin]].
    + apply in_map_iff in Hin as (coll & <- & Hin). destruct (Hall coll Hin) as [H1 H2].
      apply many_digits_within; try assumption; [apply many_digits_len, H1|].
      intros E. destruct (H2 E). split; [assumption|]. apply many_digits_len. assumption.
    + apply in_map_iff in Hin as (coll & <- & Hin). destruct (Hall coll Hin) as [H1 _].
      apply many_digits_within; try assumption; [apply many_digits_len, H1|discriminate].
    + destruct Hin as [<-|[<-|[<-|[<-|[]]]]];
        (match goal with |- try_format_digits _ T ?coll _ = _ => apply (many_digits_within c T coll n d); try assumption; [|discriminate] end;
         exists 16; split; [|lia]; unfold HexUpper, HexLower, restrict; reflexivity).
  - destruct Hin as [<-|[<-|[<-|[]]]]; [reflexivity|reflexivity|].
    unfold Ethiopic, format_ethiopic. change (ethiopic_body (within c d)) with (ethiopic_body c).
    rewrite (stops_same c (ethiopic_body c) (20 + 1)); [reflexivity|apply ethiopic_stops| |].
    + pose proof (fits_128 c T n Hc Hn). apply N.lt_trans with (2 ^ 128); [assumption|reflexivity].
    + lia.
    + apply budget; [assumption|vm_compute; discriminate].
  - assert (forall formal characters large sc, format_chinese (within c d) T formal characters large n sc = format_chinese c T formal characters large n sc) as Hch.
    { intros formal characters large sc. unfold format_chinese. destruct (is_zero n); [reflexivity|].
      change (try_from (within c d) T 10000) with (try_from c T 10000). destruct (try_from c T 10000) as [t|]; [|reflexivity].
      destruct (t <=? n); [|reflexivity]. replace (format_scale (within c d) T formal sc characters large n) with (format_scale c T formal sc characters large n); [reflexivity|].
      symmetry. unfold format_scale, format_scaled. destruct sc; try (rewrite scaled_turns; reflexivity).
      apply short_turns_within; try lia. destruct Hc as [_ Hc]. lia. }
    unfold chinese_systems in Hin. cbn [flat_map map app] in Hin. 
    repeat (destruct Hin as [<-|Hin]; [apply Hch|]). destruct Hin.
Qed.
Print Assumptions C64_few_turns.

Example C64_few_turns_case :
  64 <= 2 ^ N.of_nat 6 /\ fits on_heap U128 (2 ^ 128 - 1) /\
  try_format_digits (within on_heap 6) U128 Decimal (2 ^ 128 - 1) = try_format_digits on_heap U128 Decimal (2 ^ 128 - 1) /\
  try_format_digits (within on_heap 5) U128 Decimal (2 ^ 128 - 1) = Hang /\
  try_format_digits (within on_heap 3) U32 Decimal 1234567 = try_format_digits on_heap U32 Decimal 1234567 /\
  try_format_digits (within on_heap 3) U32 Decimal 12345678 = Hang.
Proof.
  split; [vm_compute; discriminate|]. split; [reflexivity|]. split; [vm_compute; reflexivity|]. split; [vm_compute; reflexivity|]. split; vm_compute; reflexivity.
Qed.

(** ** Additive sets *)

(** An additive set takes one turn per symbol printed, and a last one in each
    row. With so many turns allowed in each row it gives its result; with fewer
    in any row it does not finish. *)
Theorem C64_one_turn_per_symbol : forall c T tbl set n counts lost d,
  valid_config c -> proper tbl -> additive_set_new (encode tbl) = Ret set -> fits c T n -> 1 <= n ->
  largest_first_losing lost tbl counts -> worth tbl counts + lost = n ->
  (Forall (fun k => k + 1 <= 2 ^ N.of_nat d) counts -> try_format_additive (within c d) T set n = try_format_additive c T set n) /\
  (has_alloc c = true -> Exists (fun k => 2 ^ N.of_nat d < k + 1) counts -> try_format_additive (within c d) T set n = Hang).
Proof.
  intros c T tbl set n counts lost d Hc Hp Hset Hn Hn1 Hl Hw.
  assert (strictly_descending tbl) as Hd.
  { unfold additive_set_new in Hset. destruct (descending (encode tbl)) eqn:E; [|discriminate].
    apply encode_sorted, descending_sorted, E. }
  destruct (C26_counts_are_unique tbl counts (greedy tbl n) lost (grem tbl n) Hl (losing_greedy tbl n Hd)) as [-> ->].
  { rewrite worth_greedy. exact Hw. }
  unfold additive_set_new in Hset. destruct (descending (encode tbl)); [|discriminate]. injection Hset as <-.
  unfold try_format_additive, is_zero. destruct (N.eqb_spec n 0); [lia|]. cbn [as_symbols].
  destruct (additive_for_turns c T n d Hc tbl n new [] Hp Hn (text_new c)) as [H1 H2]. split.
  - intros H. apply H1. eapply Forall_impl; [|exact H]. cbn. lia.
  - intros Ha H. apply H2; [assumption|]. eapply Exists_impl; [|exact H]. cbn. lia.
Qed.
Print Assumptions C64_one_turn_per_symbol.

(** So the built-in additive systems and Hebrew take time proportional to the
    number: with alloc, [n] divided by the value of their largest symbol. *)
Definition largest_symbol : list (system * N) :=
  [(RomanUpper, 1000000); (RomanLower, 1000000); (ArmenianUpper, 9000); (ArmenianLower, 9000); (Georgian, 10000);
   (JapaneseFormal, 9000); (JapaneseInformal, 9000); (HangeulFormal, 9000); (HanjaInformal, 9000); (HanjaFormal, 9000);
   (Hebrew, 400)].

Fixpoint gentle_table (tbl : table) : bool :=
  match tbl with
  | [] => true
  | (_, v) :: rest =>
      (v =? 0) || (match rest with [] => true | (_, v') :: _ => (v' =? 0) || (v <=? 16 * v') end) && gentle_table rest
  end.

Lemma gentle_counts d : 16 <= 2 ^ N.of_nat d -> forall tbl n, gentle_table tbl = true ->
  (match tbl with (_, v) :: _ => v = 0 \/ n < 2 ^ N.of_nat d * v | [] => True end) ->
  Forall (fun k => k < 2 ^ N.of_nat d) (greedy tbl n).
Proof.
  intros Hd. induction tbl as [|[s v] tbl IH]; intros n Hg Hn; cbn [greedy]; [constructor|].
  cbn [gentle_table] in Hg. destruct (N.eqb_spec v 0) as [->|Hv].
  - apply Forall_forall. intros k Hk. change (In k (map (fun _ : list N * N => 0) ((s, 0) :: tbl))) in Hk.
    apply in_map_iff in Hk as (? & <- & _). lia.
  - cbn [orb] in Hg. apply andb_prop in Hg as [Hnext Hg]. destruct Hn as [Hn|Hn]; [contradiction|]. constructor.
    + apply N.div_lt_upper_bound; [assumption|lia].
    + apply IH; [assumption|]. destruct tbl as [|[s' v'] tbl]; [exact I|]. apply orb_prop in Hnext as [H|H]; [left; lia|right].
      pose proof (N.mod_lt n v Hv). nia.
Qed.

Lemma hebrew_while_hang c T n d : valid_config c -> fits c T n -> (1 <= d)%nat -> has_alloc c = true ->
  2 ^ N.of_nat d <= n / 400 -> Hebrew (within c d) T n = Hang.
Proof.
  intros Hc Hn Hd Ha H. assert (2 <= 2 ^ N.of_nat d) as Hd2.
  { change 2 with (2 ^ 1) at 1. apply N.pow_le_mono_r; lia. }
  assert (800 <= n) as Hn8.
  { assert (400 * (n / 400) <= n) by (apply N.mul_div_le; lia). lia. }
  unfold Hebrew, is_zero. destruct (N.eqb_spec n 0); [lia|].
  change hebrew_symbols with ((char_of "ת"%string, 400) :: tl hebrew_symbols). generalize (tl hebrew_symbols) as others.
  intros others. cbn [hebrew_for].
  change (try_from (within c d) T 400) with (try_from c T 400). rewrite try_from_fits by (eapply fits_le; [exact Hn|lia]).
  change (hebrew_while_body (within c d) T n (char_of "ת"%string) 400) with (hebrew_while_body c T n (char_of "ת"%string) 400).
  pose proof (hebrew_turns c T n (char_of "ת"%string) 400 eq_refl ltac:(lia) (n / 400) (n mod 400) new []
    (N.mod_lt n 400 ltac:(lia)) (text_new c)) as L.
  replace (n / 400 * 400 + n mod 400) with n in L by (pose proof (N.div_mod' n 400); lia).
  destruct (lasts_run c _ _ _ d (L ltac:(intros _; lia))) as [_ L2].
  { apply N.lt_le_trans with (2 ^ 128 + 2); [|apply budget; [assumption|lia]].
    pose proof (fits_128 c T n Hc Hn). pose proof (N.div_le_upper_bound n 400 n ltac:(lia) ltac:(nia)). lia. }
  rewrite L2 by assumption. reflexivity.
Qed.

Theorem C64_turns_grow_with_the_number : Forall (fun '(sys, largest) =>
    forall c T n d, valid_config c -> fits c T n -> 16 <= 2 ^ N.of_nat d ->
      (n / largest + 1 <= 2 ^ N.of_nat d -> sys (within c d) T n = sys c T n) /\
      (has_alloc c = true -> 2 ^ N.of_nat d < n / largest + 1 -> sys (within c d) T n = Hang))
  largest_symbol.
Proof.
  assert (forall sys tbl largest, table_ok sys tbl -> gentle_table tbl = true ->
    match tbl with (_, v) :: _ => v = largest | [] => False end -> largest <> 0 ->
    forall c T n d, valid_config c -> fits c T n -> 16 <= 2 ^ N.of_nat d ->
      (n / largest + 1 <= 2 ^ N.of_nat d -> sys (within c d) T n = sys c T n) /\
      (has_alloc c = true -> 2 ^ N.of_nat d < n / largest + 1 -> sys (within c d) T n = Hang)) as Hadd.
  { intros sys tbl largest [Hs Hg] Hgen Htop Hl0 c T n d Hc Hn Hd. rewrite !Hs.
    destruct (good_table_parts tbl Hg) as (Hp & Hdesc & _).
    assert (additive_set_new (encode tbl) = Ret {| as_symbols := encode tbl; as_zero := zero_symbol (encode tbl) |}) as Hset.
    { unfold additive_set_new. replace (descending (encode tbl)) with true; [reflexivity|]. symmetry.
      apply descending_sorted, encode_sorted, Hdesc. }
    rewrite Hset. cbn [obind]. destruct (N.eq_dec n 0) as [->|Hn0].
    - split; [reflexivity|]. intros _ H. rewrite N.div_0_l in H by assumption. lia.
    - destruct (C64_one_turn_per_symbol c T tbl _ n (greedy tbl n) (grem tbl n) d Hc Hp Hset Hn ltac:(lia)
        (losing_greedy tbl n Hdesc) (worth_greedy tbl n)) as [H1 H2].
      destruct tbl as [|[s v] tbl]; [contradiction|]. subst v. split.
      + intros H. apply H1. eapply Forall_impl; [|apply (gentle_counts d Hd _ n Hgen)]; [cbn; lia|]. right.
        pose proof (N.div_mod' n largest). pose proof (N.mod_lt n largest Hl0). nia.
      + intros Ha H. apply H2; [assumption|]. cbn [greedy]. destruct (N.eqb_spec largest 0); [contradiction|].
        apply Exists_cons_hd. exact H. }
  unfold largest_symbol. repeat apply Forall_cons; try apply Forall_nil.
  1: apply (Hadd _ _ _ roman_upper_ok); [vm_compute; reflexivity|reflexivity|lia].
  1: apply (Hadd _ _ _ roman_lower_ok); [vm_compute; reflexivity|reflexivity|lia].
  1: apply (Hadd _ _ _ armenian_upper_ok); [vm_compute; reflexivity|reflexivity|lia].
  1: apply (Hadd _ _ _ armenian_lower_ok); [vm_compute; reflexivity|reflexivity|lia].
  1: apply (Hadd _ _ _ georgian_ok); [vm_compute; reflexivity|reflexivity|lia].
  1: apply (Hadd _ _ _ japanese_formal_ok); [vm_compute; reflexivity|reflexivity|lia].
  1: apply (Hadd _ _ _ japanese_informal_ok); [vm_compute; reflexivity|reflexivity|lia].
  1: apply (Hadd _ _ _ korean_hangul_formal_ok); [vm_compute; reflexivity|reflexivity|lia].
  1: apply (Hadd _ _ _ korean_hanja_informal_ok); [vm_compute; reflexivity|reflexivity|lia].
  1: apply (Hadd _ _ _ korean_hanja_formal_ok); [vm_compute; reflexivity|reflexivity|lia].
  intros c T n d Hc Hn Hd.
  assert (4 <= d)%nat as Hd4.
  { destruct (Nat.le_gt_cases 4 d); [assumption|]. exfalso. assert (2 ^ N.of_nat d <= 2 ^ 3) by (apply N.pow_le_mono_r; lia).
    change (2 ^ 3) with 8 in *. lia. }
  split.
  - intros H. unfold Hebrew. destruct (is_zero n); [reflexivity|]. apply hebrew_for_turns; try assumption; [vm_compute; reflexivity|].
    cbn [hebrew_symbols]. pose proof (N.div_mod' n 400). pose proof (N.mod_lt n 400 ltac:(lia)). lia.
  - intros Ha H. apply hebrew_while_hang; try assumption; lia.
Qed.
Print Assumptions C64_turns_grow_with_the_number.

(** In 16 turns a row: Roman numerals up to 15999999, without a heap any
    number, which is then out of memory before it is out of turns. *)
Example C64_turns_grow_case :
  fits on_heap U32 15999999 /\ 16 <= 2 ^ N.of_nat 4 /\ 15999999 / 1000000 + 1 <= 2 ^ N.of_nat 4 /\
  RomanUpper (within on_heap 4) U32 15999999 = RomanUpper on_heap U32 15999999 /\
  RomanUpper (within on_heap 4) U32 16000000 = Hang /\
  Hebrew (within on_heap 4) U16 6399 = Hebrew on_heap U16 6399 /\
  Hebrew (within on_heap 4) U16 6400 = Hang /\
  RomanUpper (within no_heap 5) U128 (2 ^ 128 - 1) = Ret (Err (OutOfMemory (2 ^ 128 - 1))).
Proof.
  split; [reflexivity|]. split; [vm_compute; discriminate|]. split; [vm_compute; discriminate|].
  split; [vm_compute; reflexivity|]. split; [vm_compute; reflexivity|]. split; [vm_compute; reflexivity|].
  split; vm_compute; reflexivity.
Qed.

Example C64_one_turn_case :
  let tbl := [(chars "x"%string, 10); (chars "i"%string, 1)] in
  proper tbl /\ largest_first_losing 0 tbl [3; 7] /\ worth tbl [3; 7] + 0 = 37 /\
  (set <- additive_set_new (encode tbl) ;; seen (try_format_additive (within on_heap 3) U8 set 37)) = Ret (Ok (bytes "xxxiiiiiii"%string)) /\
  (set <- additive_set_new (encode tbl) ;; seen (try_format_additive (within on_heap 3) U8 set 38)) = Hang.
Proof. split; [apply properb_proper; reflexivity|]. repeat split; vm_compute; reflexivity. Qed.
