(** * PropertiesChinese: C38-C45 and C52, the Chinese systems *)

From Coq Require Import String.
From Verif Require Import Prelude Utf8Facts StringFacts History Outcome DigitSets ScriptFacts ChineseNumeral
  Chinese Cases.

(** The four systems, by script and formality. *)
Definition chinese (traditional formal : bool) : chinese_options -> config -> uint -> N -> outcome (result nominal_string error) :=
  match traditional, formal with
  | false, false => SimplifiedChineseInformal
  | false, true => SimplifiedChineseFormal
  | true, false => TraditionalChineseInformal
  | true, true => TraditionalChineseFormal
  end.

(** The characters a system writes with, and the values of its large-number
    signs. *)
Definition script (traditional : bool) (o : chinese_options) : list N :=
  alphabet traditional (match usage o with Financial => true | Ordinary => false end).

Definition scaling_in (o : chinese_options) : scaling :=
  match scale o with Short => ShortScaling | Myriad => MyriadScaling | Mid => MidScaling | Long => LongScaling end.

Definition in_range (o : chinese_options) (n : N) : Prop := scale o = Short -> n < 10 ^ 15.

(** ** The tables *)

Definition table_check (characters large abc : list N) : bool :=
  forallb is_scalar abc && Nat.eqb (length abc) 24 &&
  forallb (fun i => match nth_error characters i with Some x => x =? nth i abc 0 | None => false end) (seq 0 13) &&
  forallb (fun r => match nth_error large r with Some x => x =? nth (13 + r) abc 0 | None => false end) (seq 0 11).

Lemma table_check_ok characters large abc : table_check characters large abc = true -> table_for characters large abc.
Proof.
  unfold table_check. intros H. apply andb_prop in H as [H H4]. apply andb_prop in H as [H H3]. apply andb_prop in H as [H1 H2].
  split; [apply Forall_forall; rewrite forallb_forall in H1; exact H1|]. split; [apply Nat.eqb_eq, H2|].
  rewrite forallb_forall in H3, H4. split; intros i Hi.
  - specialize (H3 i ltac:(apply in_seq; lia)). destruct (nth_error characters i); [|discriminate]. apply N.eqb_eq in H3. congruence.
  - specialize (H4 i ltac:(apply in_seq; lia)). destruct (nth_error large i); [|discriminate]. apply N.eqb_eq in H4. congruence.
Qed.

Lemma chinese_writes traditional formal o c T n : valid_config c -> fits c T n -> in_range o n ->
  yields c (chinese traditional formal o c T n) n (write (script traditional o) (chinese_t formal (scale o) n)).
Proof.
  intros Hc Hn Hr. unfold script.
  destruct traditional, formal; cbn [chinese]; unfold SimplifiedChineseInformal, SimplifiedChineseFormal, TraditionalChineseInformal, TraditionalChineseFormal;
    destruct (usage o); apply chinese_yields; try assumption; apply table_check_ok; vm_compute; reflexivity.
Qed.

Lemma chinese_out traditional formal o c T n : valid_config c -> fits c T n -> scale o = Short -> 10 ^ 15 <= n ->
  chinese traditional formal o c T n = Ret (Err (OutOfBounds n)).
Proof.
  intros Hc Hn Ho Hge.
  destruct traditional, formal; cbn [chinese]; unfold SimplifiedChineseInformal, SimplifiedChineseFormal, TraditionalChineseInformal, TraditionalChineseFormal;
    destruct (usage o); rewrite Ho; apply chinese_beyond; assumption.
Qed.

Lemma script_good traditional o : good_alphabet (script traditional o).
Proof. apply alphabet_good. Qed.

Lemma scaling_in_of o : scaling_in o = scaling_of (scale o).
Proof. unfold scaling_in. destruct (scale o); reflexivity. Qed.

(** ** C52: numerals of any size *)

Theorem C52_composition : forall traditional formal o c T n,
  valid_config c -> fits c T n -> in_range o n ->
  exists signs, chinese_numeral (scaling_in o) (negb formal) n signs /\
    prints c (chinese traditional formal o c T n) n (map (glyph (script traditional o)) signs).
Proof.
  intros traditional formal o c T n Hc Hn Hr. exists (chinese_t formal (scale o) n). split.
  - rewrite scaling_in_of. apply chinese_t_numeral; [eapply fits_wide; eassumption|exact Hr].
  - apply yields_prints. apply chinese_writes; assumption.
Qed.
Print Assumptions C52_composition.

(** A number has one numeral. *)
Theorem C52_unique : forall sc informal n l l',
  chinese_numeral sc informal n l -> chinese_numeral sc informal n l' -> l = l'.
Proof. intros sc informal n l l' H H'. eapply numeral_unique; eassumption. Qed.
Print Assumptions C52_unique.

Definition with_scale (sc : chinese_scale) : chinese_options := {| usage := Ordinary; scale := sc |}.

Example C52_case :
  map (fun sc => seen (chinese true false (with_scale sc) on_heap U128 120030405060708)) [Short; Myriad; Mid; Long] =
    map (fun s => Ret (Ok (bytes s)))
      ["一載二正零三穰零四垓零五兆零六萬零七百零八"; "一百二十兆零三百零四億零五百零六萬零七百零八";
       "一百二十萬零三百零四億零五百零六萬零七百零八"; "一百二十萬零三百零四億零五百零六萬零七百零八"]%string.
Proof. vm_compute. reflexivity. Qed.

(** ** C38 *)

Theorem C38_up_to_9999 : forall traditional formal o c T n,
  valid_config c -> fits c T n -> n <= 9999 ->
  prints c (chinese traditional formal o c T n) n (map (glyph (script traditional o)) (css_longhand (negb formal) n)).
Proof.
  intros traditional formal o c T n Hc Hn H.
  destruct (C52_composition traditional formal o c T n Hc Hn) as (l & Hl & Hp).
  { intros _. eapply N.le_lt_trans; [exact H|reflexivity]. }
  replace (css_longhand (negb formal) n) with l; [exact Hp|].
  eapply numeral_unique; [exact Hl|]. apply numeral_small. lia.
Qed.
Print Assumptions C38_up_to_9999.

Example C38_case :
  map (fun n => seen (chinese false false (financial default_options) no_heap U16 n)) [0; 10; 19; 110; 3006; 9010] =
    map (fun s => Ret (Ok (bytes s))) ["零"; "拾"; "拾玖"; "壹佰壹拾"; "叁仟零陆"; "玖仟零壹拾"]%string /\
  css_longhand true 3006 = [Digit 3; Marker 3; Digit 0; Digit 6] /\
  css_longhand true 19 = [Marker 1; Digit 9] /\ css_longhand false 9010 = [Digit 9; Marker 3; Digit 0; Digit 1; Marker 1].
Proof. vm_compute. repeat split. Qed.

(** ** C39 *)

Theorem C39_reads_back : forall traditional formal o c T n,
  valid_config c -> fits c T n -> in_range o n ->
  exists cs, prints c (chinese traditional formal o c T n) n cs /\
    chinese_read (script traditional o) (scaling_in o) cs = Some n.
Proof.
  intros traditional formal o c T n Hc Hn Hr. eexists. split; [apply yields_prints, chinese_writes; assumption|].
  assert (fits wide U128 n) as Hw by (eapply fits_wide; eassumption).
  pose proof (chinese_t_numeral formal (scale o) n Hw Hr) as Hnum. apply numeral_neat in Hnum as (_ & Hok & _).
  unfold chinese_read. rewrite signs_of_write; [|apply script_good|assumption].
  rewrite scaling_in_of, chinese_reads; [reflexivity|assumption|exact Hr].
Qed.
Print Assumptions C39_reads_back.

Theorem C39_distinct_texts : forall traditional formal o c T n T' n' s s',
  valid_config c -> fits c T n -> fits c T' n' ->
  chinese traditional formal o c T n = Ret (Ok s) -> chinese traditional formal o c T' n' = Ret (Ok s') ->
  as_str s = as_str s' -> n = n'.
Proof.
  intros traditional formal o c T n T' n' s s' Hc Hn Hn' Hs Hs' E.
  assert (forall T n s, fits c T n -> chinese traditional formal o c T n = Ret (Ok s) -> in_range o n) as Hrange.
  { intros T0 m s0 Hm H Ho. destruct (N.lt_ge_cases m (10 ^ 15)) as [|Hge]; [assumption|].
    rewrite chinese_out in H by assumption. discriminate. }
  pose proof (Hrange T n s Hn Hs) as Hr. pose proof (Hrange T' n' s' Hn' Hs') as Hr'.
  pose proof (chinese_writes traditional formal o c T n Hc Hn Hr) as H1.
  pose proof (chinese_writes traditional formal o c T' n' Hc Hn' Hr') as H2.
  apply (yields_ok _ _ _ _ s) in H1; [|assumption]. apply (yields_ok _ _ _ _ s') in H2; [|assumption].
  destruct H1 as [S1 H1], H2 as [S2 H2]. rewrite H1, H2 in E. injection E as E. apply utf8_inj in E; [|assumption..].
  assert (fits wide U128 n) as Hw by (eapply fits_wide; eassumption).
  assert (fits wide U128 n') as Hw' by (eapply fits_wide; eassumption).
  pose proof (chinese_t_numeral formal (scale o) n Hw Hr) as Hnum. apply numeral_neat in Hnum as (_ & Hok & _).
  pose proof (chinese_t_numeral formal (scale o) n' Hw' Hr') as Hnum'. apply numeral_neat in Hnum' as (_ & Hok' & _).
  apply (f_equal (signs_of (script traditional o))) in E.
  rewrite !signs_of_write in E by (apply script_good || assumption). injection E as E.
  rewrite <- (chinese_reads formal (scale o) n Hw Hr), <- (chinese_reads formal (scale o) n' Hw' Hr'), E. reflexivity.
Qed.
Print Assumptions C39_distinct_texts.

Example C39_case :
  chinese_read (alphabet true false) MyriadScaling (chars "一百二十兆零三百零四億零五百零六萬零七百零八"%string) = Some 120030405060708 /\
  chinese_read (alphabet true false) LongScaling (chars "一百二十萬零三百零四億零五百零六萬零七百零八"%string) = Some 120030405060708 /\
  chinese_read (alphabet true false) ShortScaling (chars "一載二正零三穰零四垓零五兆零六萬零七百零八"%string) = Some 120030405060708 /\
  (exists s, chinese true false (with_scale Short) on_heap U64 120030405060708 = Ret (Ok s)).
Proof. repeat split; [vm_compute; reflexivity..|]. eexists. vm_compute. reflexivity. Qed.

(** ** C40 *)

Theorem C40_bound : forall traditional formal o c T n,
  valid_config c -> fits c T n ->
  (scale o = Short -> 10 ^ 15 <= n -> chinese traditional formal o c T n = Ret (Err (OutOfBounds n))) /\
  (in_range o n ->
     (exists s, chinese traditional formal o c T n = Ret (Ok s)) \/
     (chinese traditional formal o c T n = Ret (Err (OutOfMemory n)) /\ has_alloc c = false)).
Proof.
  intros traditional formal o c T n Hc Hn. split; [intros; apply chinese_out; assumption|].
  intros Hr. destruct (C52_composition traditional formal o c T n Hc Hn Hr) as (l & _ & Hp).
  unfold prints in Hp. destruct (has_alloc c || _) eqn:Eroom.
  - destruct Hp as (s & Hs & _). left. eauto.
  - right. split; [exact Hp|]. apply orb_false_iff in Eroom. tauto.
Qed.
Print Assumptions C40_bound.

Example C40_case :
  map (fun sc => map (fun n => seen (chinese true true (with_scale sc) on_heap U64 n)) [999999999999999; 1000000000000000]) [Short; Long] =
    [[Ret (Ok (bytes "九載九正九澗九溝九穰九秭九垓九京九兆九億九萬九千九百九十九"%string)); Ret (Err (OutOfBounds 1000000000000000))];
     [Ret (Ok (bytes "九百九十九萬九千九百九十九億九千九百九十九萬九千九百九十九"%string)); Ret (Ok (bytes "一千萬億"%string))]].
Proof. vm_compute. reflexivity. Qed.

(** ** C41 *)

Theorem C41_sparing_zeros : forall traditional formal o c T n,
  valid_config c -> fits c T n -> in_range o n -> 1 <= n ->
  exists cs, prints c (chinese traditional formal o c T n) n cs /\
    sparing (glyph (script traditional o) (Digit 0)) cs.
Proof.
  intros traditional formal o c T n Hc Hn Hr Hn1.
  destruct (C52_composition traditional formal o c T n Hc Hn Hr) as (l & Hl & Hp). eexists. split; [exact Hp|].
  apply numeral_neat in Hl as (_ & Hok & Hz). destruct (Hz Hn1) as (H1 & H2 & H3).
  apply write_sparing; try assumption. apply script_good.
Qed.
Print Assumptions C41_sparing_zeros.

Example C41_case :
  seen (chinese false true default_options on_heap U64 1000000010001001) = Ret (Ok (bytes "一千兆一千万一千零一"%string)) /\
  seen (chinese false true default_options on_heap U64 1000000000001001) = Ret (Ok (bytes "一千兆一千零一"%string)) /\
  seen (chinese false true default_options on_heap U64 1000000000000001) = Ret (Ok (bytes "一千兆零一"%string)) /\
  ~ sparing 38646 (chars "一百零零一"%string) /\ ~ sparing 38646 (chars "一百零"%string) /\ ~ sparing 38646 (chars "零一"%string).
Proof.
  repeat split; try (vm_compute; reflexivity).
  - intros (_ & _ & H). exact (H (chars "一百"%string) (chars "一"%string) eq_refl).
  - intros (_ & H & _). exact (H (chars "一百"%string) eq_refl).
  - intros (H & _ & _). exact (H (chars "一"%string) eq_refl).
Qed.

(** ** C42 *)

(** With the ten character in front, the one character is put before it. *)
Definition spell_one (abc : list N) (cs : list N) : list N :=
  match cs with
  | x :: _ => if x =? glyph abc (Marker 1) then glyph abc (Digit 1) :: cs else cs
  | [] => []
  end.

Theorem C42_formality : forall traditional o c T n,
  valid_config c -> fits c T n -> in_range o n ->
  exists cs, prints c (chinese traditional false o c T n) n cs /\
    prints c (chinese traditional true o c T n) n (spell_one (script traditional o) cs).
Proof.
  intros traditional o c T n Hc Hn Hr. eexists. split; [apply yields_prints, chinese_writes; assumption|].
  assert (fits wide U128 n) as Hw by (eapply fits_wide; eassumption).
  pose proof (chinese_t_numeral false (scale o) n Hw Hr) as Hnum. apply numeral_neat in Hnum as (Hne & Hok & _).
  replace (spell_one (script traditional o) (write (script traditional o) (chinese_t false (scale o) n)))
    with (write (script traditional o) (chinese_t true (scale o) n)); [apply yields_prints, chinese_writes; assumption|].
  rewrite chinese_t_formality by assumption. destruct (chinese_t false (scale o) n) as [|s l]; [reflexivity|].
  cbn [write map spell_one]. cbn [forallb] in Hok. apply andb_prop in Hok as [Hs _].
  destruct (N.eqb_spec (glyph (script traditional o) s) (glyph (script traditional o) (Marker 1))) as [E|E].
  - apply glyph_inj in E; [|apply script_good|assumption|reflexivity]. subst. reflexivity.
  - destruct s as [d|[|[p|p|]]|r]; try reflexivity. exfalso. apply E. reflexivity.
Qed.
Print Assumptions C42_formality.

Example C42_case :
  map (fun formal => map (fun n => seen (chinese true formal default_options on_heap U64 n)) [12; 110; 120000; 1100001012]) [false; true] =
    [map (fun s => Ret (Ok (bytes s))) ["十二"; "一百一十"; "十二萬"; "十一億一千零一十二"]%string;
     map (fun s => Ret (Ok (bytes s))) ["一十二"; "一百一十"; "一十二萬"; "一十一億一千零一十二"]%string].
Proof. vm_compute. reflexivity. Qed.

(** ** C43 *)

Theorem C43_substitution : forall traditional traditional' formal o o' c T n,
  valid_config c -> fits c T n -> in_range o n -> scale o' = scale o ->
  exists cs, prints c (chinese traditional formal o c T n) n cs /\
    prints c (chinese traditional' formal o' c T n) n (map (substitute (script traditional o) (script traditional' o')) cs).
Proof.
  intros traditional traditional' formal o o' c T n Hc Hn Hr Ho. eexists. split; [apply yields_prints, chinese_writes; assumption|].
  assert (fits wide U128 n) as Hw by (eapply fits_wide; eassumption).
  pose proof (chinese_t_numeral formal (scale o) n Hw Hr) as Hnum. apply numeral_neat in Hnum as (_ & Hok & _).
  rewrite <- write_substitute; [|apply script_good|assumption]. rewrite <- Ho. apply yields_prints, chinese_writes; try assumption.
  unfold in_range in *. rewrite Ho. exact Hr.
Qed.
Print Assumptions C43_substitution.

Theorem C43_one_to_one : forall traditional traditional' o o' x y,
  In x (script traditional o) -> In y (script traditional o) ->
  substitute (script traditional o) (script traditional' o') x = substitute (script traditional o) (script traditional' o') y -> x = y.
Proof.
  intros traditional traditional' o o' x y Hx Hy E. unfold script in *.
  remember (match usage o with Financial => true | Ordinary => false end) as f eqn:Ef.
  remember (match usage o' with Financial => true | Ordinary => false end) as f' eqn:Ef'. clear Ef Ef'.
  assert (forallb (fun x => forallb (fun y =>
    implb (substitute (alphabet traditional f) (alphabet traditional' f') x =? substitute (alphabet traditional f) (alphabet traditional' f') y) (x =? y))
    (alphabet traditional f)) (alphabet traditional f) = true) as H
    by (destruct traditional, traditional', f, f'; vm_compute; reflexivity).
  rewrite forallb_forall in H. specialize (H x Hx). rewrite forallb_forall in H. specialize (H y Hy).
  apply N.eqb_eq in E. rewrite E in H. apply N.eqb_eq, H.
Qed.
Print Assumptions C43_one_to_one.

Example C43_case :
  seen (chinese false true default_options on_heap U64 26090005) = Ret (Ok (bytes "二千六百零九万零五"%string)) /\
  seen (chinese true true (financial default_options) on_heap U64 26090005) = Ret (Ok (bytes "貳仟陸佰零玖萬零伍"%string)) /\
  map (substitute (alphabet false false) (alphabet true true)) (chars "二千六百零九万零五"%string) = chars "貳仟陸佰零玖萬零伍"%string.
Proof. repeat split; vm_compute; reflexivity. Qed.

(** ** C44 *)

(** A call of one of the four option methods. *)
Inductive option_call := CallFinancial | CallShort | CallMid | CallLong.

Definition call (o : chinese_options) (x : option_call) : chinese_options :=
  match x with
  | CallFinancial => financial o
  | CallShort => short_scale o
  | CallMid => mid_scale o
  | CallLong => long_scale o
  end.

(** What a sequence of calls asks for. *)
Definition asks_financial (calls : list option_call) : bool :=
  existsb (fun x => match x with CallFinancial => true | _ => false end) calls.

Fixpoint last_scale (calls : list option_call) (sc : scaling) : scaling :=
  match calls with
  | [] => sc
  | CallFinancial :: rest => last_scale rest sc
  | CallShort :: rest => last_scale rest ShortScaling
  | CallMid :: rest => last_scale rest MidScaling
  | CallLong :: rest => last_scale rest LongScaling
  end.

Lemma calls_options : forall calls o,
  scaling_in (fold_left call calls o) = last_scale calls (scaling_in o) /\
  usage (fold_left call calls o) = (if asks_financial calls then Financial else usage o).
Proof.
  unfold asks_financial. induction calls as [|x calls IH]; intros o; [auto|]. cbn [fold_left]. destruct (IH (call o x)) as [-> ->].
  destruct x; cbn; destruct (existsb _ calls); auto.
Qed.

Theorem C44_options : forall traditional formal calls c T n,
  valid_config c -> fits c T n -> (last_scale calls MyriadScaling = ShortScaling -> n < 10 ^ 15) ->
  exists signs, chinese_numeral (last_scale calls MyriadScaling) (negb formal) n signs /\
    prints c (chinese traditional formal (fold_left call calls default_options) c T n) n
      (map (glyph (alphabet traditional (asks_financial calls))) signs).
Proof.
  intros traditional formal calls c T n Hc Hn Hr.
  destruct (calls_options calls default_options) as [H1 H2]. change (scaling_in default_options) with MyriadScaling in H1.
  destruct (C52_composition traditional formal (fold_left call calls default_options) c T n Hc Hn) as (l & Hl & Hp).
  { unfold in_range. intros E. apply Hr. rewrite <- H1. unfold scaling_in. rewrite E. reflexivity. }
  rewrite H1 in Hl. exists l. split; [exact Hl|]. unfold script in Hp. rewrite H2 in Hp.
  destruct (asks_financial calls); exact Hp.
Qed.
Print Assumptions C44_options.

(** Two sequences asking for the same give the same system. *)
Theorem C44_same_system : forall calls calls',
  asks_financial calls = asks_financial calls' ->
  last_scale calls MyriadScaling = last_scale calls' MyriadScaling ->
  fold_left call calls default_options = fold_left call calls' default_options.
Proof.
  intros calls calls' Hf Hs. destruct (calls_options calls default_options) as [H1 H2], (calls_options calls' default_options) as [H1' H2'].
  change (scaling_in default_options) with MyriadScaling in *.
  assert (scaling_in (fold_left call calls default_options) = scaling_in (fold_left call calls' default_options)) as E
    by (rewrite H1, H1'; exact Hs).
  rewrite Hf, <- H2' in H2. destruct (fold_left call calls default_options) as [u s], (fold_left call calls' default_options) as [u' s'].
  cbn [usage] in H2. unfold scaling_in in E. cbn [scale] in E. subst. destruct s, s'; try discriminate; reflexivity.
Qed.
Print Assumptions C44_same_system.

Example C44_case :
  fold_left call [CallShort; CallFinancial; CallLong; CallFinancial] default_options = {| usage := Financial; scale := Long |} /\
  seen (chinese false false (fold_left call [CallLong; CallFinancial; CallShort] default_options) on_heap U64 100000) = Ret (Ok (bytes "壹亿"%string)) /\
  seen (chinese false false (fold_left call [] default_options) on_heap U64 100000) = Ret (Ok (bytes "十万"%string)).
Proof. repeat split; vm_compute; reflexivity. Qed.

(** ** C45 *)

(** The claim: in the myriad scale, when group number [r] (counted from 0 for
    the ones) follows group [r + 2] or a higher one with only zeros between,
    the text has the zero character there. *)
Definition skipped_group_voiced : Prop :=
  forall traditional formal c T hi lo r,
    valid_config c -> has_alloc c = true -> 1 <= hi <= 9999 -> 1 <= lo < large_value MyriadScaling r ->
    (S r < 11)%nat -> fits c T (hi * large_value MyriadScaling (S r) + lo) ->
    exists a b, prints c (chinese traditional formal default_options c T (hi * large_value MyriadScaling (S r) + lo))
      (hi * large_value MyriadScaling (S r) + lo)
      (map (glyph (script traditional default_options)) (a ++ Large (S r) :: Digit 0 :: b)).

(** The counterexample is 1_0000_1000, printed 一億一千 instead of 一億零一千. *)
Theorem C45_skipped_group_refuted : ~ skipped_group_voiced.
Proof.
  intros H. destruct (H true true on_heap U64 1 1000 0%nat) as (a & b & Hp).
  - apply on_heap_valid.
  - reflexivity.
  - lia.
  - vm_compute. split; [discriminate|reflexivity].
  - lia.
  - vm_compute. reflexivity.
  - change (1 * large_value MyriadScaling 1 + 1000) with 100001000 in Hp.
    assert (forall s, is_scalar (glyph (script true default_options) s) = true) as Hg.
    { intros s. unfold glyph. destruct (nth_in_or_default (sign_index s) (script true default_options) 0) as [Hin| ->]; [|reflexivity].
      assert (forallb is_scalar (script true default_options) = true) as Hs by (vm_compute; reflexivity).
      rewrite forallb_forall in Hs. apply Hs, Hin. }
    assert (forall l, scalars (map (glyph (script true default_options)) l)) as Hsc.
    { intros l0. apply Forall_forall. intros x Hx. apply in_map_iff in Hx as (s & <- & _). apply Hg. }
    assert (seen (chinese true true default_options on_heap U64 100001000) = Ret (Ok (utf8 (chars "一億一千"%string)))) as Hp2
      by (vm_compute; reflexivity).
    assert (scalars (chars "一億一千"%string)) as Hs2 by (repeat constructor).
    unfold prints in Hp. cbn [has_alloc on_heap orb] in Hp. destruct Hp as (str & Er & Es & _).
    rewrite Er in Hp2. cbn [seen obind] in Hp2. rewrite Es in Hp2. cbn [obind] in Hp2.
    assert (forall x y : list N, @Ret (result (list N) error) (Ok x) = Ret (Ok y) -> x = y) as Hinj by congruence.
    apply Hinj in Hp2. apply utf8_inj in Hp2 as E; [|apply Hsc|exact Hs2].
    assert (In (glyph (script true default_options) (Digit 0)) (chars "一億一千"%string)) as Hin.
    { rewrite <- E. apply in_map. apply in_or_app. right. right. left. reflexivity. }
    vm_compute in Hin. repeat (destruct Hin as [Hin|Hin]; [discriminate|]). exact Hin.
Qed.
Print Assumptions C45_skipped_group_refuted.

(** What holds instead, in the myriad, mid and long scales: after the highest
    large-number sign the zero character appears exactly when what is left
    starts with a four-digit group below 1000. Missing for C45: a gap followed
    by a group of 1000 or more is not voiced. *)
Theorem C45_gap_rule_partial : forall traditional formal o c T n r,
  valid_config c -> fits c T n -> scale o <> Short ->
  (r < 11)%nat -> large_value (scaling_in o) r <= n -> (r = 10%nat \/ n < large_value (scaling_in o) (S r)) ->
  n mod large_value (scaling_in o) r <> 0 ->
  exists a b zero,
    chinese_numeral (scaling_in o) (negb formal) (n / large_value (scaling_in o) r) a /\
    chinese_numeral (scaling_in o) false (n mod large_value (scaling_in o) r) b /\
    prints c (chinese traditional formal o c T n) n (map (glyph (script traditional o)) (a ++ Large r :: zero ++ b)) /\
    (zero = [Digit 0] /\ (exists k, 10 ^ (4 * k) <= n mod large_value (scaling_in o) r < 10 ^ (4 * k + 3)) \/
     zero = [] /\ ~ (exists k, 10 ^ (4 * k) <= n mod large_value (scaling_in o) r < 10 ^ (4 * k + 3))).
Proof.
  intros traditional formal o c T n r Hc Hn Ho Hr Hle Ht Hm.
  destruct (C52_composition traditional formal o c T n Hc Hn) as (l & Hl & Hp); [intros E; contradiction|].
  assert (forall v m, gap (scaling_in o) v m = (exists k, 10 ^ (4 * k) <= m < 10 ^ (4 * k + 3))) as Hgap.
  { intros v m. unfold scaling_in. destruct (scale o); [contradiction|reflexivity..]. }
  pose proof (large_value_ge (scaling_in o) r) as Hge.
  inversion Hl as [i' n' Hn'|i' n' r' a' Hr' Hle' Ht' Ha' Hm'|i' n' r' a' b' Hr' Hle' Ht' Ha' Hm' Hg' Hb'|i' n' r' a' b' Hr' Hle' Ht' Ha' Hm' Hg' Hb']; subst;
    [lia|assert (r = r') as <- by (eapply top_unique; eassumption)..].
  - contradiction.
  - exists a', b', [Digit 0]. rewrite Hgap in Hg'. repeat split; try assumption. left. auto.
  - exists a', b', []. rewrite Hgap in Hg'. repeat split; try assumption. right. auto.
Qed.
Print Assumptions C45_gap_rule_partial.

(** In the short scale every gap is voiced. *)
Theorem C45_short_scale : forall traditional formal o c T n r,
  valid_config c -> fits c T n -> scale o = Short -> n < 10 ^ 15 ->
  (r < 11)%nat -> 10 ^ (4 + N.of_nat r) <= n < 10 ^ (5 + N.of_nat r) ->
  n mod 10 ^ (4 + N.of_nat r) <> 0 ->
  exists b zero,
    chinese_numeral ShortScaling false (n mod 10 ^ (4 + N.of_nat r)) b /\
    prints c (chinese traditional formal o c T n) n
      (map (glyph (script traditional o)) (Digit (n / 10 ^ (4 + N.of_nat r)) :: Large r :: zero ++ b)) /\
    zero = (if n mod 10 ^ (4 + N.of_nat r) <? 10 ^ (3 + N.of_nat r) then [Digit 0] else []).
Proof.
  intros traditional formal o c T n r Hc Hn Ho Hmax Hr Hle Hm.
  destruct (C52_composition traditional formal o c T n Hc Hn) as (l & Hl & Hp); [intros _; assumption|].
  assert (scaling_in o = ShortScaling) as Es by (unfold scaling_in; rewrite Ho; reflexivity). rewrite Es in Hl.
  change (10 ^ (4 + N.of_nat r)) with (large_value ShortScaling r) in *.
  assert (large_value ShortScaling r = 10 * 10 ^ (3 + N.of_nat r)) as E10.
  { cbn [large_value]. rewrite <- N.pow_succ_r'. f_equal. lia. }
  assert (large_value ShortScaling (S r) = 10 ^ (5 + N.of_nat r)) as E5.
  { cbn [large_value]. f_equal. lia. }
  pose proof (large_value_ge ShortScaling r) as Hge.
  assert (n < 10 * large_value ShortScaling r) as H10.
  { replace (10 * large_value ShortScaling r) with (10 ^ (5 + N.of_nat r)); [tauto|].
    cbn [large_value]. rewrite <- N.pow_succ_r'. f_equal. lia. }
  assert (1 <= n / large_value ShortScaling r < 10) as Hq.
  { split; [apply N.div_le_lower_bound; lia|apply N.div_lt_upper_bound; lia]. }
  assert (forall a, chinese_numeral ShortScaling (negb formal) (n / large_value ShortScaling r) a -> a = [Digit (n / large_value ShortScaling r)]) as Hfirst.
  { intros a Ha. eapply numeral_unique; [exact Ha|]. rewrite (short_digit _ Hq (negb formal)). apply numeral_small. lia. }
  inversion Hl as [i' n' Hn'|i' n' r' a' Hr' Hle' Ht' Ha' Hm'|i' n' r' a' b' Hr' Hle' Ht' Ha' Hm' Hg' Hb'|i' n' r' a' b' Hr' Hle' Ht' Ha' Hm' Hg' Hb']; subst;
    [lia|assert (r = r') as <- by (eapply (top_unique ShortScaling n r r'); try eassumption; [tauto|right; rewrite E5; tauto])..].
  - contradiction.
  - rewrite (Hfirst _ Ha') in *. exists b', [Digit 0]. split; [assumption|]. split; [exact Hp|].
    cbn [gap] in Hg'. rewrite E10 in Hg' at 2. destruct (N.ltb_spec (n mod large_value ShortScaling r) (10 ^ (3 + N.of_nat r))); [reflexivity|lia].
  - rewrite (Hfirst _ Ha') in *. exists b', []. split; [assumption|]. split; [exact Hp|].
    cbn [gap] in Hg'. rewrite E10 in Hg' at 2. destruct (N.ltb_spec (n mod large_value ShortScaling r) (10 ^ (3 + N.of_nat r))); [lia|reflexivity].
Qed.
Print Assumptions C45_short_scale.

Example C45_case :
  map (fun sc => map (fun n => seen (chinese true true (with_scale sc) on_heap U64 n)) [100001000; 100000999]) [Myriad; Short] =
    [[Ret (Ok (bytes "一億一千"%string)); Ret (Ok (bytes "一億零九百九十九"%string))];
     [Ret (Ok (bytes "一垓零一千"%string)); Ret (Ok (bytes "一垓零九百九十九"%string))]].
Proof. vm_compute. reflexivity. Qed.
