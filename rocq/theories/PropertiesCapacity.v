(** * PropertiesCapacity: C85, all texts fit into memory

    With the alloc feature the model's strings can have any length. A real
    [String] has a capacity of at most [isize::MAX] bytes, which grows by
    doubling. The formatters only add to the text they return, so the text is
    the longest string they need. *)

From Verif Require Import Prelude Utf8Facts StringFacts History Outcome DigitFacts DigitSets PropertiesSystem
  AdditiveFacts AdditiveSets SpecScripts ScriptFacts PropertiesScripts ChineseSigns PropertiesSize
  Additive Enumerated Ethiopic Hebrew Chinese System Cases.

(** The text of a number below [m] is not longer than this. *)
Fixpoint longest (tbl : table) (m : N) : N :=
  match tbl with
  | [] => 0
  | (s, v) :: rest => if v =? 0 then 0 else (m - 1) / v * utf8_len s + longest rest v
  end.

Lemma gtext_longest tbl : forall m n, n < m -> utf8_len (gtext tbl n) <= longest tbl m.
Proof.
  induction tbl as [|[s v] tbl IH]; intros m n Hn; cbn [gtext longest]; [change (utf8_len []) with 0; lia|].
  destruct (N.eqb_spec v 0) as [|Hv]; [change (utf8_len []) with 0; lia|]. rewrite utf8_len_app, utf8_len_copies.
  pose proof (IH v (n mod v) (N.mod_lt n v Hv)) as H.
  assert (n / v <= (m - 1) / v) as Hq by (apply N.div_le_mono; lia).
  pose proof (N.mul_le_mono_r _ _ (utf8_len s) Hq). lia.
Qed.

(** A quarter of the address space. *)
Definition fits_memory (c : config) (bytes : N) : Prop := 4 * bytes <= 2 ^ usize_bits c.



(** ** C85 *)

(** The text of every number a [usize] holds fits, whatever the integer type. *)
Theorem C85_texts_fit : forall sys c T n s,
  In sys builtin_systems -> valid_config c -> fits c T n -> n < 2 ^ usize_bits c ->
  sys c T n = Ret (Ok s) -> exists text, as_str s = Ret text /\ fits_memory c (N.of_nat (length text)).
Proof.
  intros sys c T n s Hin Hc Hf Hn E.
  assert (234 <= 2 ^ (usize_bits c - 2)) as H234.
  { change 234 with (2 ^ 7 + 106). destruct Hc as [Hb _]. assert (2 ^ 14 <= 2 ^ (usize_bits c - 2)) by (apply N.pow_le_mono_r; lia). change (2 ^ 14) with 16384 in *. change (2 ^ 7 + 106) with 234. lia. }
  assert (2 ^ usize_bits c = 4 * 2 ^ (usize_bits c - 2)) as Hpow.
  { destruct Hc as [Hb _]. rewrite <- (N.pow_add_r 2 2). f_equal. lia. }
  assert (In sys positional_systems -> exists text, as_str s = Ret text /\ fits_memory c (N.of_nat (length text))) as Hpos.
  { intros Hp. pose proof (fits_128 c T n Hc Hf) as H128.
    destruct (C55_six_bytes_per_digit sys c T n 39 s Hp Hc Hf ltac:(lia) ltac:(lia) E) as (text & A & L).
    exists text. split; [exact A|]. unfold fits_memory. lia. }
  assert (forall cs, prints c (sys c T n) n cs -> fits_memory c (utf8_len cs) ->
    exists text, as_str s = Ret text /\ fits_memory c (N.of_nat (length text))) as Hp.
  { intros cs H Hm. unfold prints in H. rewrite E in H. destruct (has_alloc c || _); [|discriminate].
    destruct H as (s' & E' & A & _). injection E' as ->. exists (utf8 cs). auto. }
  assert (forall tbl, table_ok sys tbl ->
    forallb (fun w => 4 * longest tbl (2 ^ w) <=? 2 ^ w) [16; 32; 64] = true ->
    match zero_of tbl with Some z => utf8_len z <= 62 | None => True end ->
    exists text, as_str s = Ret text /\ fits_memory c (N.of_nat (length text))) as Hadd.
  { intros tbl [Hu Hg] Hl Hz. destruct (N.eq_dec n 0) as [->|Hn0].
    - destruct (zero_of tbl) as [z|] eqn:Ez.
      + apply (Hp z); [exact (yields_prints _ _ _ _ (system_zero sys tbl c T z Hu Hg Ez))|]. unfold fits_memory. lia.
      + rewrite (system_no_zero sys tbl c T Hu Hg Ez) in E. discriminate.
    - apply (Hp (gtext tbl n)); [exact (yields_prints _ _ _ _ (system_positive sys tbl c T n Hu Hg Hc Hf Hn0))|].
      unfold fits_memory. pose proof (gtext_longest tbl _ n Hn) as L. rewrite forallb_forall in Hl.
      assert (4 * longest tbl (2 ^ usize_bits c) <= 2 ^ usize_bits c) as H.
      { apply N.leb_le, Hl. destruct Hc as [[->|[->| ->]] _]; cbn; auto. }
      lia. }
  unfold builtin_systems in Hin. rewrite !in_app_iff in Hin. destruct Hin as [H|[H|[H|H]]].
  - apply Hpos. unfold positional_systems. rewrite !in_app_iff. auto.
  - assert (forall tbl, table_ok sys tbl -> match zero_of tbl with Some z => utf8_len z <= 62 | None => True end) as Hz.
    { intros tbl [_ Hg]. destruct (zero_of tbl) as [z|] eqn:Ez; [|exact I]. apply (good_table_parts tbl Hg). exact Ez. }
    destruct H as [<-|[<-|[<-|[<-|[<-|[<-|[<-|[<-|[<-|[<-|[]]]]]]]]]]].
    + eapply Hadd; [exact roman_upper_ok|vm_compute; reflexivity|apply Hz, roman_upper_ok].
    + eapply Hadd; [exact roman_lower_ok|vm_compute; reflexivity|apply Hz, roman_lower_ok].
    + eapply Hadd; [exact armenian_upper_ok|vm_compute; reflexivity|apply Hz, armenian_upper_ok].
    + eapply Hadd; [exact armenian_lower_ok|vm_compute; reflexivity|apply Hz, armenian_lower_ok].
    + eapply Hadd; [exact georgian_ok|vm_compute; reflexivity|apply Hz, georgian_ok].
    + eapply Hadd; [exact japanese_formal_ok|vm_compute; reflexivity|apply Hz, japanese_formal_ok].
    + eapply Hadd; [exact japanese_informal_ok|vm_compute; reflexivity|apply Hz, japanese_informal_ok].
    + eapply Hadd; [exact korean_hangul_formal_ok|vm_compute; reflexivity|apply Hz, korean_hangul_formal_ok].
    + eapply Hadd; [exact korean_hanja_informal_ok|vm_compute; reflexivity|apply Hz, korean_hanja_informal_ok].
    + eapply Hadd; [exact korean_hanja_formal_ok|vm_compute; reflexivity|apply Hz, korean_hanja_formal_ok].
  - destruct H as [<-|[<-|[<-|[<-|[]]]]].
    + apply Hpos. unfold positional_systems. rewrite !in_app_iff. right. left. cbn. auto.
    + apply Hpos. unfold positional_systems. rewrite !in_app_iff. right. left. cbn. auto.
    + apply Hpos. unfold positional_systems. rewrite !in_app_iff. right. left. cbn. auto.
    + destruct (N.eq_dec n 0) as [->|Hn0]; [rewrite C36_no_zero in E; discriminate|].
      apply (Hp (hebrew_numeral n)); [apply C36_hebrew_numeral; [assumption..|lia]|]. clear E Hp Hadd Hpos.
      assert (utf8_len (hebrew_numeral n) <= 2 * (n / 400) + 12) as L.
      { assert (utf8_len (hebrew_letters n) <= 2 * (n / 400) + 8) as L.
        { unfold hebrew_letters. rewrite utf8_len_app, utf8_len_copies. change (utf8_len [tav]) with 2.
          set (rest := fun m => letter hebrew_hundreds (m / 100) ++
            let r := m mod 100 in
            if r =? 15 then [0x5D8; gershayim; 0x5D5]
            else if r =? 16 then [0x5D8; gershayim; 0x5D6]
            else letter hebrew_tens (r / 10) ++ letter hebrew_ones (r mod 10)).
          change (n / 400 * 2 + utf8_len (rest (n mod 400)) <= 2 * (n / 400) + 8).
          enough (utf8_len (rest (n mod 400)) <= 8) by lia.
          apply N.leb_le. refine (all_from_spec (fun m => utf8_len (rest m) <=? 8) 400 0 (n mod 400) _ _); [vm_compute; reflexivity|lia]. }
        unfold hebrew_numeral. destruct (hebrew_letters n) as [|x [|y l]]; [lia| |lia]. rewrite !utf8_len_cons in *.
        change (len_utf8 geresh) with 2. change (len_utf8 gershayim) with 2. change (utf8_len []) with 0 in *. lia. }
      unfold fits_memory. destruct Hc as [Hb _]. clear H234 Hpow. destruct Hb as [Hb|[Hb|Hb]]; rewrite Hb in *;
        [change (2 ^ 16) with 65536 in *|change (2 ^ 32) with 4294967296 in *|change (2 ^ 64) with 18446744073709551616 in *]; lia.
  - apply Hpos. unfold positional_systems. rewrite !in_app_iff. auto.
Qed.
Print Assumptions C85_texts_fit.

(** Apart from additive systems and Hebrew it is no more than 234 bytes for any
    number of any type. *)
Theorem C85_other_systems : forall sys c T n s,
  In sys positional_systems -> valid_config c -> fits c T n -> sys c T n = Ret (Ok s) ->
  exists text, as_str s = Ret text /\ (length text <= 234)%nat.
Proof.
  intros sys c T n s Hin Hc Hf E. pose proof (fits_128 c T n Hc Hf) as H128.
  exact (C55_six_bytes_per_digit sys c T n 39 s Hin Hc Hf ltac:(lia) ltac:(lia) E).
Qed.
Print Assumptions C85_other_systems.

(** Additive systems and Hebrew would need more than the address space for a
    [u128]. What the model says of them there, no machine can do. *)
Theorem C85_limit : Forall (fun sys => forall c, valid_config c -> has_alloc c = true ->
    exists s text, sys c U128 (2 ^ 128 - 1) = Ret (Ok s) /\ as_str s = Ret text /\ 2 ^ usize_bits c < N.of_nat (length text))
  ([RomanUpper; RomanLower; ArmenianUpper; ArmenianLower; Georgian; JapaneseFormal; JapaneseInformal; HangeulFormal;
    HanjaInformal; HanjaFormal; Hebrew] : list system).
Proof.
  pose proof C55_additive_texts_grow as H.
  match type of H with Forall _ ?l => set (systems := l) in H end.
  change (Forall (fun sys => forall c, valid_config c -> has_alloc c = true ->
    exists s text, sys c U128 (2 ^ 128 - 1) = Ret (Ok s) /\ as_str s = Ret text /\ 2 ^ usize_bits c < N.of_nat (length text))
    (map fst systems)).
  assert (Forall (fun x : system * N => snd x <= 1000000) systems) as Hs by (unfold systems; repeat (constructor; [vm_compute; discriminate|]); constructor).
  assert (Forall (fun x : system * N => snd x <> 0) systems) as Hs0 by (unfold systems; repeat (constructor; [discriminate|]); constructor).
  rewrite Forall_forall in H, Hs, Hs0. apply Forall_map, Forall_forall. intros [sys largest] Hin c Hc Ha.
  specialize (H _ Hin). specialize (Hs _ Hin). specialize (Hs0 _ Hin). cbn [fst snd] in *.
  destruct (H c U128 (2 ^ 128 - 1) Hc Ha ltac:(vm_compute; reflexivity) ltac:(vm_compute; discriminate)) as (s & text & E & A & L).
  exists s, text. split; [exact E|]. split; [exact A|].
  assert ((2 ^ 128 - 1) / 1000000 <= (2 ^ 128 - 1) / largest) as Hd by (apply N.div_le_compat_l; lia).
  assert (2 ^ usize_bits c <= 2 ^ 64) as Hb by (destruct Hc as [Hb _]; apply N.pow_le_mono_r; lia).
  assert (2 ^ 64 < (2 ^ 128 - 1) / 1000000) as Hbig by (vm_compute; reflexivity). lia.
Qed.
Print Assumptions C85_limit.

Example C85_case :
  match seen (Georgian on_heap U16 (2 ^ 16 - 1)) with Ret (Ok t) => length t | _ => 0%nat end = 30%nat /\
  4 * longest roman_upper_table (2 ^ 64) <= 2 ^ 64.
Proof. split; [vm_compute; reflexivity|vm_compute; discriminate]. Qed.
