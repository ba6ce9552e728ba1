(** * PropertiesDistinct: C53, no two numbers look alike *)

From Coq Require Import String.
From Verif Require Import Prelude Utf8Facts StringFacts History Outcome DigitFacts DigitOrder DigitSets
  PropertiesDigital AdditiveFacts AdditiveSets PropertiesAdditive ScriptFacts PropertiesScripts ChineseSigns ChineseNumeral
  PropertiesChinese PropertiesSystem Additive Enumerated Ethiopic Hebrew Chinese System Cases.

(** ** What each system says *)

Definition ascii_digit (ch : N) : bool := (48 <=? ch) && (ch <=? 57).
Definition no_digits (cs : list N) : Prop := Forall (fun ch => ascii_digit ch = false) cs.

Lemma no_digits_check cs : forallb (fun ch => negb (ascii_digit ch)) cs = true -> no_digits cs.
Proof. intros H. apply Forall_forall. intros x Hx. rewrite forallb_forall in H. apply negb_true_iff, H, Hx. Qed.

(** [says n m]: the system's answer to [n] is [m], in every configuration and
    type. A text belongs to one number, is not empty, and is told from plain
    decimal numerals by its characters unless the system never fails. *)
Definition faithful (sys : system) : Prop :=
  exists says : N -> meaning -> Prop,
    (forall n, n < 2 ^ 128 -> exists m, says n m /\
       forall c T, valid_config c -> fits c T n -> means c (sys c T n) n m) /\
    (forall n n' cs, says n (Shows cs) -> says n' (Shows cs) -> n = n') /\
    (forall n cs, says n (Shows cs) -> scalars cs /\ cs <> []) /\
    ((forall n cs, says n (Shows cs) -> no_digits cs) \/
     (forall n m, n < 2 ^ 128 -> says n m -> exists cs, m = Shows cs /\ at_most_62 (utf8 cs) = true)).

(** ** Digits *)

Lemma positional_chars digits n cs : positional_numeral digits n cs ->
  Forall (fun ch => In ch digits) cs /\ cs <> [].
Proof.
  intros (ds & Hb & Hc & _ & ->). split.
  - apply Forall_forall. intros x Hx. apply in_map_iff in Hx as (d & <- & Hd). unfold below in Hb. rewrite Forall_forall in Hb.
    specialize (Hb d Hd). apply nth_In. lia.
  - destruct ds; [destruct Hc|discriminate].
Qed.

Lemma bijective_chars digits n cs : bijective_numeral digits n cs ->
  Forall (fun ch => In ch digits) cs /\ (n <> 0 -> cs <> []).
Proof.
  intros (ds & Hb & Hv & ->). split.
  - apply Forall_forall. intros x Hx. apply in_map_iff in Hx as (d & <- & Hd). unfold below in Hb. rewrite Forall_forall in Hb.
    specialize (Hb d Hd). apply nth_In. lia.
  - intros Hn. destruct ds; [cbn in Hv; congruence|discriminate].
Qed.

Lemma digit_numeral_chars z zb digits n cs : digit_numeral z zb digits n cs ->
  Forall (fun ch => In ch digits) cs /\ cs <> [].
Proof.
  unfold digit_numeral. destruct z; [|destruct zb].
  - apply positional_chars.
  - intros H. apply bijective_chars in H as [H1 H2]. split; [exact H1|apply H2; lia].
  - intros [Hn H]. apply bijective_chars in H as [H1 H2]. auto.
Qed.

(** Systems whose texts have no ASCII digits. *)
Lemma faithful_texts sys (text_of : N -> list N -> Prop) :
  (forall n, n < 2 ^ 128 -> exists m, match m with Shows cs => text_of n cs | _ => True end /\
     forall c T, valid_config c -> fits c T n -> means c (sys c T n) n m) ->
  (forall n n' cs, text_of n cs -> text_of n' cs -> n = n') ->
  (forall n cs, text_of n cs -> scalars cs /\ cs <> [] /\ no_digits cs) ->
  faithful sys.
Proof.
  intros H1 H2 H3. exists (fun n m => match m with Shows cs => text_of n cs | _ => True end).
  split; [exact H1|]. split; [exact H2|]. split; [intros n cs H; destruct (H3 n cs H) as (? & ? & ?); auto|].
  left. intros n cs H. apply (H3 n cs H).
Qed.

Fixpoint distinct (l : list N) : bool :=
  match l with [] => true | x :: l => negb (existsb (N.eqb x) l) && distinct l end.

Lemma distinct_NoDup l : distinct l = true -> NoDup l.
Proof.
  induction l as [|x l IH]; cbn; intros H; constructor; apply andb_prop in H as [H1 H2]; [|auto].
  intros Hin. apply negb_true_iff in H1. assert (existsb (N.eqb x) l = true); [|congruence].
  apply existsb_exists. exists x. split; [assumption|apply N.eqb_refl].
Qed.

Lemma Forall_In {A} (P : A -> Prop) l cs : Forall P l -> Forall (fun x => In x l) cs -> Forall P cs.
Proof. intros H. rewrite Forall_forall in H. apply Forall_impl. exact H. Qed.

Lemma digits_meaning (d : config -> digit_collection) digits z zb :
  (forall c, valid_config c -> collects c (d c) digits /\ dc_fixed (d c) = false /\
     dc_has_zero_digit (d c) = z /\ dc_zero_based (d c) = zb) ->
  enough z (N.of_nat (length digits)) -> (length digits < 256)%nat ->
  forall n, exists m, match m with Shows cs => digit_numeral z zb digits n cs | _ => z = false end /\
    forall c T, valid_config c -> fits c T n -> means c (try_format_digits c T (d c) n) n m.
Proof.
  intros H He Hlen n.
  destruct (z || zb || negb (n =? 0)) eqn:Ez.
  - destruct (digit_numeral_exists z zb digits n He) as (cs & Hcs).
    { intros -> ->. cbn in Ez. destruct (N.eqb_spec n 0); [discriminate|assumption]. }
    exists (Shows cs). split; [assumption|]. intros c T Hc Hn. destruct (H c Hc) as (Hcol & Hf & Hz & Hzb). cbn [means].
    apply yields_prints. eapply format_numeral; try eassumption; [apply small_fits; assumption|rewrite Hz; assumption|].
    rewrite Hz, Hzb. assumption.
  - exists NoZero. apply orb_false_iff in Ez as [Ez En]. apply orb_false_iff in Ez as [-> ->]. split; [reflexivity|].
    intros c T Hc Hn. destruct (H c Hc) as (Hcol & Hf & Hz & Hzb). cbn [means].
    apply negb_false_iff, N.eqb_eq in En. rewrite En in *. split; [reflexivity|].
    unfold try_format_digits. destruct (depth_succ c Hc) as (k & ->).
    eapply format_digits_zero; try eassumption. apply small_fits; assumption.
Qed.

Definition digit_check (digits : list N) : bool :=
  distinct digits && forallb is_scalar digits && forallb (fun ch => negb (ascii_digit ch)) digits && (length digits <? 256)%nat.

Lemma digits_faithful (d : config -> digit_collection) digits z zb :
  (forall c, valid_config c -> collects c (d c) digits /\ dc_fixed (d c) = false /\
     dc_has_zero_digit (d c) = z /\ dc_zero_based (d c) = zb) ->
  enough z (N.of_nat (length digits)) -> digit_check digits = true ->
  faithful (fun c T => try_format_digits c T (d c)).
Proof.
  intros H He Hk. unfold digit_check in Hk. rewrite !andb_true_iff in Hk. destruct Hk as [[[Hd Hs] Hn] Hl].
  apply (faithful_texts _ (digit_numeral z zb digits)).
  - intros n _. destruct (digits_meaning d digits z zb H He) with (n := n) as (m & Hm & Hall); [apply Nat.ltb_lt, Hl|].
    exists m. split; [destruct m; auto|exact Hall].
  - intros n n' cs. apply digit_numeral_inj, distinct_NoDup, Hd.
  - intros n cs Hcs. apply digit_numeral_chars in Hcs as [Hin Hne]. split; [|split; [exact Hne|]].
    + eapply Forall_In; [apply scalars_check, Hs|exact Hin].
    + eapply Forall_In; [apply no_digits_check, Hn|exact Hin].
Qed.

(** Decimal and hexadecimal digits: 39 bytes at most, so these never fail. *)
Lemma positional_length b ds n k : 2 <= b -> canonical ds -> positional_value b ds = n -> n < b ^ N.of_nat k -> k <> O ->
  (length ds <= k)%nat.
Proof.
  intros Hb Hc Hv Hn Hk. destruct ds as [|d ds]; [cbn; lia|].
  destruct (Nat.leb_spec (length (d :: ds)) k) as [?|Hlong]; [assumption|exfalso]. cbn [length] in Hlong.
  rewrite positional_value_cons in Hv. assert (d <> 0) by (destruct ds; [cbn in Hlong; lia|exact Hc]).
  assert (b ^ N.of_nat k <= b ^ N.of_nat (length ds)) as Hp by (apply N.pow_le_mono_r; lia).
  assert (1 * b ^ N.of_nat (length ds) <= d * b ^ N.of_nat (length ds)) by (apply N.mul_le_mono_r; lia). lia.
Qed.

Lemma ascii_bytes digits ds : forallb (fun ch => ch <? 128) digits = true -> below (N.of_nat (length digits)) ds ->
  length (utf8 (map (digit_char digits) ds)) = length ds.
Proof.
  intros Ha. induction 1 as [|d ds Hd _ IH]; [reflexivity|]. cbn [map utf8 flat_map]. rewrite app_length.
  fold (utf8 (map (digit_char digits) ds)). rewrite IH.
  assert (length (encode_char (digit_char digits d)) = 1%nat) as ->; [|reflexivity].
  pose proof (encode_char_length (digit_char digits d)) as E. rewrite forallb_forall in Ha.
  specialize (Ha (digit_char digits d)). unfold digit_char in *. unfold len_utf8 in E. rewrite Ha in E by (apply nth_In; lia). lia.
Qed.

Lemma ascii_faithful (d : config -> digit_collection) digits zb :
  (forall c, valid_config c -> collects c (d c) digits /\ dc_fixed (d c) = false /\
     dc_has_zero_digit (d c) = true /\ dc_zero_based (d c) = zb) ->
  distinct digits && forallb is_scalar digits && forallb (fun ch => ch <? 128) digits &&
    (length digits <? 256)%nat && (10 <=? length digits)%nat = true ->
  faithful (fun c T => try_format_digits c T (d c)).
Proof.
  intros H Hk. rewrite !andb_true_iff in Hk. destruct Hk as [[[[Hd Hs] Ha] Hl] Hten].
  apply Nat.leb_le in Hten. apply Nat.ltb_lt in Hl.
  assert (enough true (N.of_nat (length digits))) as He by (cbn; lia).
  exists (fun n m => match m with Shows cs => digit_numeral true zb digits n cs | _ => False end).
  split; [|split; [|split]].
  - intros n _. destruct (digits_meaning d digits true zb H He Hl n) as (m & Hm & Hall).
    exists m. split; [destruct m; [assumption|discriminate..]|exact Hall].
  - intros n n' cs. apply digit_numeral_inj, distinct_NoDup, Hd.
  - intros n cs Hcs. apply digit_numeral_chars in Hcs as [Hin Hne]. split; [|exact Hne].
    eapply Forall_In; [apply scalars_check, Hs|exact Hin].
  - right. intros n m Hn Hm. destruct m as [cs| |]; try contradiction. exists cs. split; [reflexivity|].
    destruct Hm as (ds & Hb & Hc & Hv & ->). unfold at_most_62. apply Nat.leb_le.
    rewrite ascii_bytes by assumption.
    assert (length ds <= 39)%nat; [|lia].
    apply (positional_length (N.of_nat (length digits)) ds n); [lia|assumption..| |lia].
    apply N.lt_le_trans with (10 ^ N.of_nat 39); [|apply N.pow_le_mono_l; lia].
    apply N.lt_trans with (2 ^ 128); [assumption|vm_compute; reflexivity].
Qed.

(** ** The heavenly stems and earthly branches *)

Lemma cjk_plain : exists digits, plain_table digits CjkDecimal.
Proof. pose proof plain_collections as H. rewrite Forall_forall in H. apply H. cbn. auto 10. Qed.

Definition cjk_digits : list N := chars "〇一二三四五六七八九"%string.

Lemma fixed_faithful d symbols :
  (forall c T n, valid_config c -> fits c T n ->
    if n =? 0 then try_format_digits c T d n = Ret (Err NoZeroSymbol)
    else if n <=? N.of_nat (length symbols) then
      prints c (try_format_digits c T d n) n [digit_char symbols (n - 1)]
    else try_format_digits c T d n = try_format_digits c T CjkDecimal n) ->
  digit_check symbols = true -> forallb (fun x => negb (existsb (N.eqb x) cjk_digits)) symbols = true ->
  faithful (fun c T => try_format_digits c T d).
Proof.
  intros H Hk Hdis. unfold digit_check in Hk. rewrite !andb_true_iff in Hk. destruct Hk as [[[Hd Hs] Hnd] Hl].
  assert (distinct cjk_digits && forallb is_scalar cjk_digits && forallb (fun ch => negb (ascii_digit ch)) cjk_digits = true)
    as Hcjk by (vm_compute; reflexivity).
  rewrite !andb_true_iff in Hcjk. destruct Hcjk as [[Cd Cs] Cn].
  assert (forall i, i < N.of_nat (length symbols) -> In (digit_char symbols i) symbols) as Hin
    by (intros i Hi; apply nth_In; lia).
  apply (faithful_texts _ (fun n cs =>
    (1 <= n <= N.of_nat (length symbols) /\ cs = [digit_char symbols (n - 1)]) \/
    (N.of_nat (length symbols) < n /\ positional_numeral cjk_digits n cs))).
  - intros n _. destruct (N.eqb_spec n 0) as [->|Hn0]; [|destruct (N.leb_spec n (N.of_nat (length symbols))) as [Hle|Hgt]].
    + exists NoZero. split; [exact I|]. intros c T Hc Hn. split; [reflexivity|]. exact (H c T 0 Hc Hn).
    + exists (Shows [digit_char symbols (n - 1)]). split; [left; split; [lia|reflexivity]|].
      intros c T Hc Hn. specialize (H c T n Hc Hn).
      destruct (N.eqb_spec n 0); [contradiction|]. destruct (N.leb_spec n (N.of_nat (length symbols))); [exact H|lia].
    + destruct (digits_meaning (fun _ => CjkDecimal) cjk_digits true true) with (n := n) as (m & Hm & Hall).
      * intros c Hc. split; [apply builtin_collects; [assumption|vm_compute; reflexivity..|left; reflexivity]|auto].
      * vm_compute. discriminate.
      * cbn. lia.
      * exists m. split; [destruct m; auto|]. intros c T Hc Hn. specialize (H c T n Hc Hn).
        destruct (N.eqb_spec n 0); [contradiction|]. destruct (N.leb_spec n (N.of_nat (length symbols))); [lia|].
        rewrite H. apply Hall; assumption.
  - assert (forall n n' cs, 1 <= n <= N.of_nat (length symbols) -> cs = [digit_char symbols (n - 1)] ->
      positional_numeral cjk_digits n' cs -> False) as Hcross.
    { intros n n' cs Hn -> Hp. apply positional_chars in Hp as [Hp _]. apply Forall_inv in Hp.
      rewrite forallb_forall in Hdis. specialize (Hdis _ (Hin (n - 1) ltac:(lia))). apply negb_true_iff in Hdis.
      assert (existsb (N.eqb (digit_char symbols (n - 1))) cjk_digits = true); [|congruence].
      apply existsb_exists. eexists. split; [exact Hp|apply N.eqb_refl]. }
    intros n n' cs [[Hn E]|[Hn Hp]] [[Hn' E']|[Hn' Hp']].
    + rewrite E in E'. injection E' as E'. apply digit_char_inj in E'; [lia|apply distinct_NoDup, Hd|lia..].
    + exfalso. eapply Hcross; eassumption.
    + exfalso. eapply Hcross; eassumption.
    + eapply positional_numeral_inj; [apply distinct_NoDup, Cd|eassumption..].
  - intros n cs [[Hn ->]|[Hn Hp]].
    + assert (Forall (fun x => In x symbols) [digit_char symbols (n - 1)]) as Hf by (constructor; [apply Hin; lia|constructor]).
      split; [|split; [discriminate|]].
      * eapply Forall_In; [apply scalars_check, Hs|exact Hf].
      * eapply Forall_In; [apply no_digits_check, Hnd|exact Hf].
    + apply positional_chars in Hp as [Hf Hne]. split; [|split; [exact Hne|]].
      * eapply Forall_In; [apply scalars_check, Cs|exact Hf].
      * eapply Forall_In; [apply no_digits_check, Cn|exact Hf].
Qed.

(** ** Additive, enumerated, Ethiopic, Hebrew and Chinese systems *)

Lemma copies_Forall (P : N -> Prop) k s : Forall P s -> Forall P (copies k s).
Proof.
  intros H. induction k as [|k IH] using N.peano_ind; [constructor|].
  rewrite <- N.add_1_r, copies_succ. apply Forall_app. auto.
Qed.

Lemma gtext_Forall (P : N -> Prop) tbl : Forall (fun '(s, _) => Forall P s) tbl -> forall n, Forall P (gtext tbl n).
Proof.
  induction 1 as [|[s v] tbl Hs _ IH]; intros n; cbn [gtext]; [constructor|].
  destruct (v =? 0); [constructor|]. apply Forall_app. split; [apply copies_Forall, Hs|apply IH].
Qed.

Definition wordy (tbl : table) : bool :=
  forallb (fun '(s, _) => negb (match s with [] => true | _ => false end) && forallb (fun ch => negb (ascii_digit ch)) s) tbl.

Lemma additive_faithful sys tbl : table_ok sys tbl -> wordy tbl = true -> faithful sys.
Proof.
  intros [Hs Hg] Hw. destruct (good_table_parts tbl Hg) as (Hp & Hd & H1 & Hu & Hz).
  assert (Forall (fun '(s, _) => no_digits s) tbl) as Hn.
  { apply Forall_forall. intros [s v] Hin. unfold wordy in Hw. rewrite forallb_forall in Hw. specialize (Hw _ Hin). cbn in Hw.
    apply andb_prop in Hw as [_ Hw]. apply no_digits_check, Hw. }
  apply (faithful_texts _ (fun n cs => if n =? 0 then zero_of tbl = Some cs else cs = gtext tbl n)).
  - intros n _. destruct (N.eqb_spec n 0) as [->|Hn0].
    + destruct (zero_of tbl) as [z|] eqn:Ez.
      * exists (Shows z). split; [reflexivity|]. intros c T Hc _. apply yields_prints. eapply system_zero; eassumption.
      * exists NoZero. split; [exact I|]. intros c T Hc _. split; [reflexivity|]. eapply system_no_zero; eassumption.
    + exists (Shows (gtext tbl n)). split; [reflexivity|]. intros c T Hc Hf. apply yields_prints. eapply system_positive; eassumption.
  - assert (forall n cs, (if n =? 0 then zero_of tbl = Some cs else cs = gtext tbl n) -> read tbl cs = Some n) as Hread.
    { intros n cs. destruct (N.eqb_spec n 0) as [->|Hn0]; [intros E; apply Hz, E|intros ->; apply read_gtext; assumption]. }
    intros n n' cs H H'. apply Hread in H, H'. congruence.
  - intros n cs. destruct (N.eqb_spec n 0) as [->|Hn0].
    + intros E. apply zero_of_in in E. unfold proper in Hp. rewrite Forall_forall in Hp, Hn. split; [apply (Hp _ E)|].
      split; [|apply (Hn _ E)]. intros ->. unfold wordy in Hw. rewrite forallb_forall in Hw. specialize (Hw _ E). discriminate Hw.
    + intros ->. split; [apply (gtext_Forall (fun ch => is_scalar ch = true)), Hp|]. split.
      * intros E. pose proof (read_gtext tbl n Hu Hd H1) as Hr. rewrite E in Hr. cbn in Hr. injection Hr as Hr. congruence.
      * apply gtext_Forall, Hn.
Qed.

Lemma additive_wordy : Forall (fun '(_, tbl) => wordy tbl = true) additive_systems.
Proof. repeat (apply Forall_cons; [vm_compute; reflexivity|]). constructor. Qed.

Lemma circled_faithful : faithful CircledNumber.
Proof.
  apply (faithful_texts _ (fun n cs => n <= 50 /\ cs = [circled n])).
  - intros n _. destruct (N.leb_spec n 50) as [H|H].
    + exists (Shows [circled n]). split; [auto|]. intros c T Hc _. apply (C33_circled c T n Hc). assumption.
    + exists TooBig. split; [exact I|]. intros c T Hc _. apply (C33_circled c T n Hc). assumption.
  - intros n n' cs [Hn ->] [Hn' E]. injection E as E. unfold circled in E.
    destruct (N.eqb_spec n 0), (N.eqb_spec n' 0), (N.leb_spec n 20), (N.leb_spec n' 20),
      (N.leb_spec n 35), (N.leb_spec n' 35); lia.
  - intros n cs [Hn ->]. assert (is_scalar (circled n) = true /\ ascii_digit (circled n) = false) as [H1 H2].
    { unfold circled, is_scalar, ascii_digit. destruct (N.eqb_spec n 0); [split; reflexivity|].
      destruct (N.leb_spec n 20); [lia|]. destruct (N.leb_spec n 35); lia. }
    split; [|split; [discriminate|]]; constructor; auto.
Qed.

Lemma double_circled_faithful : faithful DoubleCircledNumber.
Proof.
  apply (faithful_texts _ (fun n cs => 1 <= n <= 10 /\ cs = [double_circled n])).
  - intros n _. destruct (N.eqb_spec n 0) as [->|Hn0]; [|destruct (N.leb_spec n 10) as [H|H]].
    + exists NoZero. split; [exact I|]. intros c T Hc _. split; [reflexivity|]. apply (C33_double_circled c T 0 Hc).
    + exists (Shows [double_circled n]). split; [split; [lia|reflexivity]|]. intros c T Hc _.
      apply (C33_double_circled c T n Hc). lia.
    + exists TooBig. split; [exact I|]. intros c T Hc _. apply (C33_double_circled c T n Hc). assumption.
  - intros n n' cs [Hn ->] [Hn' E]. injection E as E. unfold double_circled in E. lia.
  - intros n cs [Hn ->]. assert (is_scalar (double_circled n) = true /\ ascii_digit (double_circled n) = false) as [H1 H2]
      by (unfold double_circled, is_scalar, ascii_digit; lia).
    split; [|split; [discriminate|]]; constructor; auto.
Qed.

Lemma yields_scalars r n cs : yields wide r n cs -> scalars cs.
Proof.
  intros H. pose proof H as Hy. unfold yields in H. cbn in H. destruct H as (x & E & s & -> & _).
  eapply (yields_ok wide r n cs s); eassumption.
Qed.

Lemma fits_wide_128 n : n < 2 ^ 128 -> fits wide U128 n.
Proof. intros H. exact H. Qed.

Lemma ethiopic_no_digits n cs : ethiopic_numeral n cs -> no_digits cs.
Proof.
  assert (forall v, no_digits (ethiopic_digits v)) as Hd.
  { intros v. unfold ethiopic_digits. apply Forall_app. split.
    - destruct (v / 10 =? 0); constructor; [unfold ascii_digit; lia|constructor].
    - destruct (v mod 10 =? 0); constructor; [unfold ascii_digit; lia|constructor]. }
  assert (forall top i v, no_digits (ethiopic_group top i v)) as Hg.
  { intros top i v. unfold ethiopic_group. apply Forall_app. split; [destruct (_ || _); [constructor|apply Hd]|].
    destruct (Nat.odd i); [destruct (v =? 0)|destruct (Nat.eqb i 0)]; constructor; (reflexivity || constructor). }
  unfold ethiopic_numeral. destruct (n =? 1); [intros ->; constructor; [reflexivity|constructor]|].
  intros (gs & _ & _ & _ & ->). generalize true. induction gs as [|g gs IH]; intros top; cbn [ethiopic_groups]; [constructor|].
  apply Forall_app. split; [apply Hg|apply IH].
Qed.

Lemma ethiopic_faithful : faithful Ethiopic.
Proof.
  apply (faithful_texts _ (fun n cs => n <> 0 /\ n < 2 ^ 128 /\ ethiopic_numeral n cs)).
  - intros n Hlt. destruct (N.eqb_spec n 0) as [->|Hn0].
    + exists NoZero. split; [exact I|]. intros c T _ _. split; [reflexivity|]. apply C34_no_zero.
    + destruct (ethiopic_numeral_exists n) as (cs & Hcs). exists (Shows cs). split; [auto|]. intros c T Hc Hn.
      apply yields_prints, ethiopic_yields; assumption.
  - intros n n' cs (H0 & _ & H) (H0' & _ & H'). rewrite <- (ethiopic_reads n cs H0 H). apply ethiopic_reads; assumption.
  - intros n cs (H0 & Hlt & H). split; [|split].
    + eapply yields_scalars, (ethiopic_yields wide U128 n cs wide_valid Hlt H0 H).
    + intros ->. apply ethiopic_reads in H; [|assumption]. cbn in H. congruence.
    + eapply ethiopic_no_digits, H.
Qed.

Lemma nth_Forall (P : N -> Prop) l k : Forall P l -> P 0 -> P (nth k l 0).
Proof. intros H H0. destruct (nth_in_or_default k l 0) as [Hin| ->]; [|exact H0]. rewrite Forall_forall in H. auto. Qed.

Lemma hebrew_no_digits n : no_digits (hebrew_numeral n).
Proof.
  assert (forall l d, no_digits l -> no_digits (letter l d)) as Hl.
  { intros l d H. unfold letter. destruct (d =? 0); constructor; [|constructor]. apply nth_Forall; [exact H|reflexivity]. }
  assert (no_digits (hebrew_letters n)) as H.
  { unfold hebrew_letters. apply Forall_app. split; [apply copies_Forall; constructor; [reflexivity|constructor]|].
    apply Forall_app. split; [apply Hl, no_digits_check; vm_compute; reflexivity|]. cbv zeta.
    destruct (_ =? 15); [apply no_digits_check; vm_compute; reflexivity|].
    destruct (_ =? 16); [apply no_digits_check; vm_compute; reflexivity|].
    apply Forall_app. split; apply Hl, no_digits_check; vm_compute; reflexivity. }
  unfold hebrew_numeral. destruct (hebrew_letters n) as [|x [|y l]]; [exact H| |exact H].
  apply Forall_inv in H. constructor; [reflexivity|]. constructor; [exact H|]. constructor; [reflexivity|constructor].
Qed.

Lemma hebrew_faithful : faithful Hebrew.
Proof.
  apply (faithful_texts _ (fun n cs => n <> 0 /\ n < 2 ^ 128 /\ cs = hebrew_numeral n)).
  - intros n Hlt. destruct (N.eqb_spec n 0) as [->|Hn0].
    + exists NoZero. split; [exact I|]. intros c T _ _. split; [reflexivity|]. apply C36_no_zero.
    + exists (Shows (hebrew_numeral n)). split; [auto|]. intros c T Hc Hn. apply yields_prints, hebrew_yields; assumption.
  - intros n n' cs (_ & _ & ->) (_ & _ & E). rewrite <- (hebrew_sum_numeral n), E. apply hebrew_sum_numeral.
  - intros n cs (H0 & Hlt & ->). split; [|split].
    + eapply yields_scalars, (hebrew_yields wide U128 n wide_valid Hlt H0).
    + intros E. pose proof (hebrew_sum_numeral n) as H. rewrite E in H. cbn in H. congruence.
    + apply hebrew_no_digits.
Qed.

Lemma chinese_faithful traditional formal o : faithful (chinese traditional formal o).
Proof.
  assert (forall n, n < 2 ^ 128 -> in_range o n -> chinese_t formal (scale o) n <> [] /\ forallb ok_sign (chinese_t formal (scale o) n) = true) as Hneat.
  { intros n Hn Hr. pose proof (chinese_t_numeral formal (scale o) n Hn Hr) as H. apply numeral_neat in H as (H1 & H2 & _). auto. }
  apply (faithful_texts _ (fun n cs => n < 2 ^ 128 /\ in_range o n /\ cs = write (script traditional o) (chinese_t formal (scale o) n))).
  - intros n Hlt. destruct (match scale o with Short => 10 ^ 15 <=? n | _ => false end) eqn:E.
    + exists TooBig. split; [exact I|]. intros c T Hc Hn. cbn [means].
      destruct (scale o) eqn:Es; try discriminate. apply N.leb_le in E. apply chinese_out; assumption.
    + assert (in_range o n) as Hr by (intros Es; rewrite Es in E; apply N.leb_gt in E; exact E).
      exists (Shows (write (script traditional o) (chinese_t formal (scale o) n))). split; [auto|]. intros c T Hc Hn.
      apply yields_prints, chinese_writes; assumption.
  - intros n n' cs (Hn & Hr & ->) (Hn' & Hr' & E). apply (f_equal (signs_of (script traditional o))) in E.
    rewrite !signs_of_write in E by (apply script_good || apply Hneat; assumption). injection E as E.
    rewrite <- (chinese_reads formal (scale o) n Hn Hr), E. apply chinese_reads; assumption.
  - intros n cs (Hn & Hr & ->). destruct (Hneat n Hn Hr) as [Hne Hok]. split; [|split].
    + eapply yields_scalars, (chinese_writes traditional formal o wide U128 n wide_valid Hn Hr).
    + unfold write. destruct (chinese_t formal (scale o) n); [contradiction|discriminate].
    + unfold write. apply Forall_forall. intros x Hx. apply in_map_iff in Hx as (s & <- & _). unfold glyph.
      apply nth_Forall; [|reflexivity]. apply no_digits_check. unfold script. destruct traditional, (usage o); vm_compute; reflexivity.
Qed.

(** ** All built-in systems *)

Lemma plain_faithful digits d : plain_table digits d -> digit_check digits = true ->
  faithful (fun c T => try_format_digits c T d) /\ faithful (fun c T => try_format_digits c T (one_based d)).
Proof.
  intros (Hd & Hl & Hs) Hk.
  assert (forall c, valid_config c -> collects c d digits) as Hcol.
  { intros c Hc. apply builtin_collects; try assumption. destruct Hd as [[-> _]|[-> _]]; auto. }
  assert (enough (dc_has_zero_digit d) (N.of_nat (length digits))) as He.
  { destruct Hd as [[-> H]|[-> H]]; cbn; lia. }
  assert (dc_fixed d = false) as Hf by (destruct Hd as [[-> _]|[-> _]]; reflexivity).
  split.
  - apply (digits_faithful (fun _ => d) digits (dc_has_zero_digit d) (dc_zero_based d)); [|assumption..].
    intros c Hc. auto.
  - apply (digits_faithful (fun _ => one_based d) digits (dc_has_zero_digit d) false); [|assumption..].
    intros c Hc. split; [apply collects_one_based; auto|auto].
Qed.

Lemma plain_checks : Forall (fun d => exists digits, plain_table digits d /\ digit_check digits = true) (tl digit_collections).
Proof.
  repeat (apply Forall_cons; [eexists; split; [split; [(left; split; [reflexivity|vm_compute; reflexivity]) + (right; split; [reflexivity|vm_compute; reflexivity])|split; vm_compute; reflexivity]|vm_compute; reflexivity]|]).
  constructor.
Qed.

Lemma builtin_faithful sys : In sys builtin_systems -> faithful sys.
Proof.
  intros H. unfold builtin_systems, digit_systems in H. rewrite !in_app_iff in H.
  pose proof plain_checks as Hplain. rewrite Forall_forall in Hplain.
  assert (forall c, valid_config c -> collects c Decimal (chars "0123456789"%string)) as Hdec
    by (intros c Hc; apply builtin_collects; auto).
  assert (forall d, In d (digit_collections ++ fixed_collections) ->
    faithful (fun c T => try_format_digits c T d) /\ faithful (fun c T => try_format_digits c T (one_based d))) as Hcoll.
  { intros d Hd. apply in_app_iff in Hd as [[<-|Hd]|Hd].
    - split.
      + apply (ascii_faithful (fun _ => Decimal) (chars "0123456789"%string) true); [|vm_compute; reflexivity].
        intros c Hc. split; [apply Hdec, Hc|auto].
      + apply (ascii_faithful (fun _ => one_based Decimal) (chars "0123456789"%string) false); [|vm_compute; reflexivity].
        intros c Hc. split; [apply collects_one_based, Hdec, Hc|auto].
    - destruct (Hplain d Hd) as (digits & Hp & Hk). eapply plain_faithful; eassumption.
    - pose proof C18_stems_and_branches as H18. rewrite Forall_forall in H18.
      destruct Hd as [<-|[<-|[]]].
      + split; [apply (fixed_faithful _ stems); [apply (H18 (CjkHeavenlyStem, stems)); left; reflexivity|vm_compute; reflexivity..]|].
        apply (digits_faithful (fun _ => one_based CjkHeavenlyStem) stems false false); [|vm_compute; discriminate|vm_compute; reflexivity].
        intros c Hc. split; [apply collects_one_based; apply (fixed_collects c Hc)|auto].
      + split; [apply (fixed_faithful _ branches); [apply (H18 (CjkEarthlyBranch, branches)); right; left; reflexivity|vm_compute; reflexivity..]|].
        apply (digits_faithful (fun _ => one_based CjkEarthlyBranch) branches false false); [|vm_compute; discriminate|vm_compute; reflexivity].
        intros c Hc. split; [apply collects_one_based; apply (fixed_collects c Hc)|auto]. }
  destruct H as [[H|[H|H]]|[H|[H|H]]].
  - apply in_map_iff in H as (d & <- & Hd). apply Hcoll, Hd.
  - apply in_map_iff in H as (d & <- & Hd). apply Hcoll, Hd.
  - assert (forall c, valid_config c -> collects c (HexUpper c) hex_capitals /\ collects c (HexLower c) hex_smalls) as Hhex.
    { intros c Hc. split; refine (hex_collects c _ Hc _ _ _); vm_compute; reflexivity. }
    destruct H as [<-|[<-|[<-|[<-|[]]]]].
    + apply (ascii_faithful HexUpper hex_capitals true); [|vm_compute; reflexivity].
      intros c Hc. split; [apply (Hhex c Hc)|auto].
    + apply (ascii_faithful HexLower hex_smalls true); [|vm_compute; reflexivity].
      intros c Hc. split; [apply (Hhex c Hc)|auto].
    + apply (ascii_faithful (fun c => one_based (HexUpper c)) hex_capitals false); [|vm_compute; reflexivity].
      intros c Hc. split; [apply collects_one_based; apply (Hhex c Hc)|auto].
    + apply (ascii_faithful (fun c => one_based (HexLower c)) hex_smalls false); [|vm_compute; reflexivity].
      intros c Hc. split; [apply collects_one_based; apply (Hhex c Hc)|auto].
  - pose proof additive_systems_ok as Hok. pose proof additive_wordy as Hw. rewrite Forall_forall in Hok, Hw.
    assert (In sys (map fst additive_systems)) as Hin by exact H.
    apply in_map_iff in Hin as ([s tbl] & <- & Hin). eapply additive_faithful; [exact (Hok _ Hin)|exact (Hw _ Hin)].
  - destruct H as [<-|[<-|[<-|[<-|[]]]]];
      [apply circled_faithful|apply double_circled_faithful|apply ethiopic_faithful|apply hebrew_faithful].
  - unfold chinese_systems in H. apply in_flat_map in H as (traditional & _ & H). apply in_flat_map in H as (formal & _ & H).
    apply in_flat_map in H as (u & _ & H). apply in_map_iff in H as (sc & <- & _). apply chinese_faithful.
Qed.

(** ** C53 *)

(** What [to_nominal] shows: the system's own text, or the decimal numeral. *)
Lemma shown sys c T n s : In sys builtin_systems -> valid_config c -> fits c T n ->
  to_nominal n (default_system c T (sys c T)) = Ret s ->
  sys c T n = Ret (Ok s) \/
  (forall s', sys c T n <> Ret (Ok s')) /\ exists cs, decimal_numeral n cs /\ as_str s = Ret (utf8 cs).
Proof.
  intros Hin Hc Hn E. destruct (C47_to_nominal_never_fails sys c T n Hin Hc Hn) as (s0 & E0 & [H|(e & cs & H & Hd & Hs)]);
    rewrite E0 in E; injection E as ->.
  - left. exact H.
  - right. split; [|exists cs; auto]. intros s' E'. unfold try_to_nominal, default_system in H. cbn in H. congruence.
Qed.

Lemma decimal_chars n cs : decimal_numeral n cs -> scalars cs /\ cs <> [] /\ Forall (fun ch => ascii_digit ch = true) cs.
Proof.
  intros H. apply positional_chars in H as [H1 H2]. split; [|split; [exact H2|]].
  - eapply Forall_In; [|exact H1]. apply scalars_check. vm_compute. reflexivity.
  - eapply Forall_In; [|exact H1]. repeat (constructor; [reflexivity|]). constructor.
Qed.

(** No two numbers are shown alike, whatever the configurations and types. *)
Theorem C53_distinct_texts : forall sys c c' T T' n n' s s',
  In sys builtin_systems -> valid_config c -> valid_config c' -> fits c T n -> fits c' T' n' ->
  to_nominal n (default_system c T (sys c T)) = Ret s ->
  to_nominal n' (default_system c' T' (sys c' T')) = Ret s' ->
  as_str s = as_str s' -> n = n'.
Proof.
  intros sys c c' T T' n n' s s' Hin Hc Hc' Hn Hn' E E' Eq.
  destruct (builtin_faithful sys Hin) as (says & Hsays & Hinj & Hchars & Hlast).
  assert (forall c T n s, valid_config c -> fits c T n -> sys c T n = Ret (Ok s) ->
    exists cs, says n (Shows cs) /\ as_str s = Ret (utf8 cs)) as Htext.
  { intros c0 T0 n0 s0 Hc0 Hn0 E0. destruct (Hsays n0 (fits_128 c0 T0 n0 Hc0 Hn0)) as (m & Hm & Hall).
    specialize (Hall c0 T0 Hc0 Hn0). rewrite E0 in Hall. destruct m as [cs| |]; cbn [means] in Hall.
    - exists cs. split; [exact Hm|]. unfold prints in Hall. destruct (has_alloc c0 || _); [|discriminate].
      destruct Hall as (s1 & E1 & A1 & _). injection E1 as ->. exact A1.
    - destruct Hall as [_ Hall]. discriminate.
    - discriminate. }
  assert (forall c T n, valid_config c -> fits c T n -> (forall s', sys c T n <> Ret (Ok s')) ->
    forall n cs, says n (Shows cs) -> no_digits cs) as Hfail.
  { intros c0 T0 n0 Hc0 Hn0 Hno. destruct Hlast as [Hlast|Hlast]; [exact Hlast|exfalso].
    destruct (Hsays n0 (fits_128 c0 T0 n0 Hc0 Hn0)) as (m & Hm & Hall). specialize (Hall c0 T0 Hc0 Hn0).
    destruct (Hlast n0 m (fits_128 c0 T0 n0 Hc0 Hn0) Hm) as (cs & -> & Hshort). cbn [means] in Hall. unfold prints in Hall.
    rewrite Hshort, orb_true_r in Hall. destruct Hall as (s1 & E1 & _). exact (Hno s1 E1). }
  assert (forall cs cs' n n', says n (Shows cs) -> no_digits cs -> decimal_numeral n' cs' -> utf8 cs = utf8 cs' -> False) as Hmixed.
  { intros cs cs' m m' Hs Hnd Hd Eu. apply decimal_chars in Hd as (Hsc & Hne & Hdig).
    apply utf8_inj in Eu; [|apply (Hchars m cs Hs)|exact Hsc]. subst cs'.
    destruct cs as [|x cs]; [contradiction|]. apply Forall_inv in Hnd, Hdig. congruence. }
  destruct (shown sys c T n s Hin Hc Hn E) as [H|(Hno & cs & Hd & A)];
    destruct (shown sys c' T' n' s' Hin Hc' Hn' E') as [H'|(Hno' & cs' & Hd' & A')].
  - destruct (Htext c T n s Hc Hn H) as (cs & Hs & A), (Htext c' T' n' s' Hc' Hn' H') as (cs' & Hs' & A').
    rewrite A, A' in Eq. injection Eq as Eq. apply utf8_inj in Eq; [|eapply Hchars; eassumption..]. subst cs'.
    eapply Hinj; eassumption.
  - exfalso. destruct (Htext c T n s Hc Hn H) as (cs & Hs & A). rewrite A, A' in Eq. injection Eq as Eq.
    eapply Hmixed; [exact Hs| |exact Hd'|exact Eq]. eapply (Hfail c' T' n'); eassumption.
  - exfalso. destruct (Htext c' T' n' s' Hc' Hn' H') as (cs' & Hs' & A'). rewrite A, A' in Eq. injection Eq as Eq.
    eapply Hmixed; [exact Hs'| |exact Hd|symmetry; exact Eq]. eapply (Hfail c T n); eassumption.
  - rewrite A, A' in Eq. injection Eq as Eq. destruct (decimal_chars n cs Hd) as [S1 _], (decimal_chars n' cs' Hd') as [S2 _].
    apply utf8_inj in Eq; [|assumption..]. subst cs'.
    eapply positional_numeral_inj; [|exact Hd|exact Hd']. apply distinct_NoDup. vm_compute. reflexivity.
Qed.
Print Assumptions C53_distinct_texts.

(** The same without the decimal fallback. *)
Theorem C53_distinct_results : forall sys c c' T T' n n' s s',
  In sys builtin_systems -> valid_config c -> valid_config c' -> fits c T n -> fits c' T' n' ->
  sys c T n = Ret (Ok s) -> sys c' T' n' = Ret (Ok s') -> as_str s = as_str s' -> n = n'.
Proof.
  intros sys c c' T T' n n' s s' Hin Hc Hc' Hn Hn' E E' Eq.
  apply (C53_distinct_texts sys c c' T T' n n' s s'); try assumption.
  - unfold to_nominal, default_system. cbn [format_nominal]. rewrite E. reflexivity.
  - unfold to_nominal, default_system. cbn [format_nominal]. rewrite E'. reflexivity.
Qed.
Print Assumptions C53_distinct_results.

Theorem C53_never_empty : forall sys c T n s,
  In sys builtin_systems -> valid_config c -> fits c T n ->
  to_nominal n (default_system c T (sys c T)) = Ret s ->
  exists ch cs, is_scalar ch = true /\ as_str s = Ret (utf8 (ch :: cs)).
Proof.
  intros sys c T n s Hin Hc Hn E.
  assert (exists cs, scalars cs /\ cs <> [] /\ as_str s = Ret (utf8 cs)) as (cs & Hsc & Hne & A).
  { destruct (shown sys c T n s Hin Hc Hn E) as [H|(_ & cs & Hd & A)].
    - destruct (builtin_faithful sys Hin) as (says & Hsays & _ & Hchars & _).
      destruct (Hsays n (fits_128 c T n Hc Hn)) as (m & Hm & Hall). specialize (Hall c T Hc Hn). rewrite H in Hall.
      destruct m as [cs| |]; cbn [means] in Hall; [|destruct Hall; discriminate|discriminate].
      exists cs. destruct (Hchars n cs Hm) as [H1 H2]. split; [exact H1|]. split; [exact H2|].
      unfold prints in Hall. destruct (has_alloc c || _); [|discriminate]. destruct Hall as (s1 & E1 & A1 & _).
      injection E1 as ->. exact A1.
    - exists cs. apply decimal_chars in Hd as (H1 & H2 & _). auto. }
  destruct cs as [|ch cs]; [contradiction|]. exists ch, cs. split; [apply Forall_inv in Hsc; exact Hsc|exact A].
Qed.
Print Assumptions C53_never_empty.

(** The fallback does not collide with the system's own texts: Hebrew 0 is
    shown as decimal, 10 in letters. *)
Example C53_case :
  In Hebrew builtin_systems /\ fits no_heap U8 0 /\ fits on_heap U64 10 /\
  (s <- to_nominal 0 (default_system no_heap U8 (Hebrew no_heap U8)) ;; as_str s) = Ret (bytes "0"%string) /\
  (s <- to_nominal 10 (default_system on_heap U64 (Hebrew on_heap U64)) ;; as_str s) = Ret (bytes "׳י״"%string) /\
  (s <- to_nominal 111111 (default_system no_heap U32 (Hebrew no_heap U32)) ;; as_str s) = Ret (bytes "111111"%string).
Proof.
  split; [unfold builtin_systems; rewrite !in_app_iff; right; right; left; cbn; auto|]. repeat split; vm_compute; reflexivity.
Qed.
