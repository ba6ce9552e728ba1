(** * Turns: how many turns the loops take *)

From Coq Require Import String.
From Verif Require Import Prelude Utf8Facts StringFacts History Outcome DigitFacts DigitOrder DigitSets PropertiesDigital
  AdditiveFacts Additive Ethiopic Hebrew Chinese.

(** The same build, with every loop cut off after [2 ^ d] turns. *)
Definition within (c : config) (d : nat) : config :=
  {| has_alloc := has_alloc c; overflow_checks := overflow_checks c; usize_bits := usize_bits c; loop_depth := d |}.

(** ** Loops that stop, with whatever result *)

(** The loop goes on for less than [k] turns. *)
Inductive stops {S R} (body : S -> outcome (loop_step S R)) : N -> S -> Prop :=
| stops_at k s : (forall s', body s = Ret (Continue s') -> stops body k s') -> stops body (k + 1) s.

Lemma iterate_stable {S R} (body : S -> outcome (loop_step S R)) d s :
  (forall s', iterate d body s <> Ret (Continue s')) -> forall e, iterate (e + d) body s = iterate d body s.
Proof.
  intros H. induction e as [|e IH]; [reflexivity|]. cbn [Nat.add iterate]. rewrite IH.
  destruct (iterate d body s) as [[s'|b]| | |]; try reflexivity. destruct (H s' eq_refl).
Qed.

Lemma stops_iterate {S R} (body : S -> outcome (loop_step S R)) d : forall k s s', stops body k s ->
  iterate d body s = Ret (Continue s') -> 2 ^ N.of_nat d < k /\ stops body (k - 2 ^ N.of_nat d) s'.
Proof.
  induction d as [|d IH]; intros k s s' H E.
  - cbn [iterate] in E. inversion H as [k' s0 H']; subst. specialize (H' _ E).
    assert (1 <= k') by (inversion H'; lia). change (2 ^ N.of_nat 0) with 1. rewrite N.add_sub. split; [lia|assumption].
  - cbn [iterate] in E. destruct (iterate d body s) as [[s1|b]| | |] eqn:E1; try discriminate. cbn [obind] in E.
    destruct (IH _ _ _ H E1) as [Hk Hs]. destruct (IH _ _ _ Hs E) as [Hk' Hs'].
    rewrite Nat2N.inj_succ, N.pow_succ_r'. split; [lia|].
    replace (k - 2 * 2 ^ N.of_nat d) with (k - 2 ^ N.of_nat d - 2 ^ N.of_nat d) by lia. assumption.
Qed.

Lemma stops_same {S R} c (body : S -> outcome (loop_step S R)) k s d :
  stops body k s -> k <= 2 ^ N.of_nat d -> k <= 2 ^ N.of_nat (loop_depth c) ->
  run_loop (within c d) body s = run_loop c body s.
Proof.
  intros H Hd Hc. unfold run_loop. cbn [within loop_depth].
  assert (forall e, k <= 2 ^ N.of_nat e -> forall s', iterate e body s <> Ret (Continue s')) as Hstop.
  { intros e He s' E. destruct (stops_iterate body e k s s' H E). lia. }
  destruct (Nat.le_ge_cases d (loop_depth c)) as [Hle|Hle].
  - rewrite <- (iterate_stable body d s (Hstop d Hd) (loop_depth c - d)). do 2 f_equal. lia.
  - rewrite <- (iterate_stable body (loop_depth c) s (Hstop _ Hc) (d - loop_depth c)). do 2 f_equal. lia.
Qed.

Lemma stops_weaken {S R} (body : S -> outcome (loop_step S R)) k k' s :
  stops body k s -> k <= k' -> stops body k' s.
Proof.
  intros H. revert k'. induction H as [k s _ IH]; intros k' Hk.
  replace k' with (k' - 1 + 1) by lia. constructor. intros s' E. apply (IH s' E). lia.
Qed.

(** ** Loops whose number of turns is known *)

(** The loop breaks in turn [len + 1], or before that when it may run out of
    memory. *)
Definition lasts {S R} (c : config) (body : S -> outcome (loop_step S R)) (len : N) (s : S) : Prop :=
  exists j r, runs body j s r /\ j <= len + 1 /\ (has_alloc c = true -> j = len + 1).

Lemma lasts_break {S R} c (body : S -> outcome (loop_step S R)) s r : body s = Ret (Break r) -> lasts c body 0 s.
Proof. intros H. exists 1, r. split; [constructor; assumption|]. split; [lia|reflexivity]. Qed.

Lemma lasts_oom {S R} c (body : S -> outcome (loop_step S R)) len s r cs :
  body s = Ret (Break r) -> room c cs = false -> lasts c body len s.
Proof.
  intros H Hr. exists 1, r. split; [constructor; assumption|]. split; [lia|].
  intros Ha. unfold room in Hr. rewrite Ha in Hr. discriminate.
Qed.

Lemma lasts_step {S R} c (body : S -> outcome (loop_step S R)) len s s' :
  body s = Ret (Continue s') -> lasts c body len s' -> lasts c body (len + 1) s.
Proof.
  intros H (j & r & Hr & Hj & Ha). exists (j + 1), r. split; [eapply runs_step; eassumption|].
  split; [lia|]. intros E. rewrite (Ha E). reflexivity.
Qed.

Lemma lasts_run {S R} c (body : S -> outcome (loop_step S R)) len s d :
  lasts c body len s -> len < 2 ^ N.of_nat (loop_depth c) ->
  (len < 2 ^ N.of_nat d -> run_loop (within c d) body s = run_loop c body s) /\
  (has_alloc c = true -> 2 ^ N.of_nat d <= len -> run_loop (within c d) body s = Hang).
Proof.
  intros (j & r & Hr & Hj & Ha) Hlen. split; [intros Hd|intros E Hd].
  - rewrite (runs_run_loop c body j s r Hr) by lia. apply (runs_run_loop (within c d) body j s r Hr). cbn [within loop_depth]. lia.
  - rewrite (Ha E) in Hr. unfold run_loop. cbn [within loop_depth].
    destruct (runs_iterate body d _ _ _ Hr) as [_ H]. destruct H as (s' & -> & _); [lia|]. reflexivity.
Qed.

(** ** Digit collections: one turn per digit, and the last *)

Section Digits.
Variables (c : config) (T : uint) (d : digit_collection) (digits : list N) (n : N).
Hypothesis Hcol : collects c d digits.
Let b := N.of_nat (length digits).
Hypothesis Hfit : fits c T b.

Notation body := (digit_loop_body c T d n).
Notation state := (state digits).

Lemma zero_turns : dc_has_zero_digit d = true -> 2 <= b ->
  forall ds s cs, below b ds -> trimmed ds -> text c s cs ->
    lasts c body (N.of_nat (length ds)) (state (positional_value b ds) false s).
Proof.
  intros Hz Hb. induction ds as [|x ds IH] using rev_ind; intros s cs Hbel Htr Ht.
  - eapply lasts_break. reflexivity.
  - pose proof (positional_pos b (ds ++ [x]) ltac:(lia) Htr ltac:(destruct ds; discriminate)) as Hpos.
    rewrite positional_value_app in *. apply below_last in Hbel as [Hbel Hx].
    destruct (turn c T d digits n Hcol Hfit (positional_value b ds * b + x) false s cs false (positional_value b ds) x Ht)
      as [(s' & E & Ht')|[E Hroom]]; try (rewrite ?Hz; cbn; lia).
    + rewrite app_length. replace (N.of_nat (length ds + length [x])) with (N.of_nat (length ds) + 1) by (cbn [length]; lia).
      eapply lasts_step; [exact E|]. eapply IH; try eassumption. eapply trimmed_app, Htr.
    + eapply lasts_oom; eassumption.
Qed.

Lemma bijective_turns : dc_has_zero_digit d = false -> 1 <= b ->
  forall ds first s cs, below b ds -> (first = true -> dc_zero_based d = false /\ ds <> []) -> text c s cs ->
    lasts c body (N.of_nat (length ds)) (state (bijective_value b ds) first s).
Proof.
  intros Hz Hb. induction ds as [|x ds IH] using rev_ind; intros first s cs Hbel Hf Ht.
  - destruct first; [destruct (Hf eq_refl); congruence|]. eapply lasts_break. reflexivity.
  - rewrite bijective_value_app. apply below_last in Hbel as [Hbel Hx].
    rewrite app_length. replace (N.of_nat (length ds + length [x])) with (N.of_nat (length ds) + 1) by (cbn [length]; lia).
    destruct (turn c T d digits n Hcol Hfit (bijective_value b ds * b + (x + 1)) first s cs true (bijective_value b ds) x Ht)
      as [(s' & E & Ht')|[E Hroom]]; try lia.
    + rewrite Hz. destruct first; [destruct (Hf eq_refl) as [-> _]; reflexivity|].
      cbn. rewrite orb_true_r. reflexivity.
    + eapply lasts_step; [exact E|]. eapply (IH false); try eassumption. discriminate.
    + eapply lasts_oom; eassumption.
Qed.

Lemma turns_zero ds : dc_has_zero_digit d = true -> 2 <= b -> below b ds -> canonical ds ->
  lasts c body (N.of_nat (length ds)) (state (positional_value b ds) true new_reverse).
Proof.
  intros Hz Hb Hbel Hcan. destruct ds as [|x ds _] using rev_ind; [destruct Hcan|].
  apply canonical_app in Hcan. apply below_last in Hbel as [Hbel Hx].
  rewrite positional_value_app, app_length.
  replace (N.of_nat (length ds + length [x])) with (N.of_nat (length ds) + 1) by (cbn [length]; lia).
  destruct (turn c T d digits n Hcol Hfit (positional_value b ds * b + x) true new_reverse [] false (positional_value b ds) x
              (text_new_reverse c)) as [(s' & E & Ht')|[E Hroom]]; try (rewrite ?Hz, ?andb_false_r; cbn; lia).
  - eapply lasts_step; [exact E|]. eapply zero_turns; eassumption.
  - eapply lasts_oom; eassumption.
Qed.

Lemma turns_from_zero ds : dc_has_zero_digit d = false -> dc_zero_based d = true -> 1 <= b -> below b ds ->
  ds <> [] ->
  lasts c body (N.of_nat (length ds)) (state (bijective_value b ds - 1) true new_reverse).
Proof.
  intros Hz Hzb Hb Hbel Hne. destruct ds as [|x ds _] using rev_ind; [congruence|].
  apply below_last in Hbel as [Hbel Hx]. rewrite bijective_value_app, app_length.
  replace (N.of_nat (length ds + length [x])) with (N.of_nat (length ds) + 1) by (cbn [length]; lia).
  destruct (turn c T d digits n Hcol Hfit (bijective_value b ds * b + (x + 1) - 1) true new_reverse [] false (bijective_value b ds) x
              (text_new_reverse c)) as [(s' & E & Ht')|[E Hroom]]; try (rewrite ?Hz, ?Hzb, ?andb_false_r; cbn; lia).
  - eapply lasts_step; [exact E|]. eapply bijective_turns; try eassumption. discriminate.
  - eapply lasts_oom; eassumption.
Qed.

Lemma numeral_turns cs : enough (dc_has_zero_digit d) b ->
  digit_numeral (dc_has_zero_digit d) (dc_zero_based d) digits n cs ->
  lasts c body (N.of_nat (length cs)) (state n true new_reverse).
Proof.
  unfold enough, digit_numeral. intros He Hnum. destruct (dc_has_zero_digit d) eqn:Hz; [|destruct (dc_zero_based d) eqn:Hzb].
  - destruct Hnum as (ds & Hbel & Hcan & Hval & ->). rewrite map_length. fold b in Hbel, Hval.
    pose proof (turns_zero ds Hz He Hbel Hcan) as H. rewrite Hval in H. exact H.
  - destruct Hnum as (ds & Hbel & Hval & ->). rewrite map_length. fold b in Hbel, Hval.
    assert (ds <> []) as Hne by (intros ->; cbn in Hval; lia).
    pose proof (turns_from_zero ds Hz Hzb He Hbel Hne) as H. rewrite Hval, N.add_sub in H. exact H.
  - destruct Hnum as (Hn0 & ds & Hbel & Hval & ->). rewrite map_length. fold b in Hbel, Hval.
    assert (ds <> []) as Hne by (intros ->; cbn in Hval; congruence).
    pose proof (bijective_turns Hz He ds true new_reverse [] Hbel ltac:(auto) (text_new_reverse c)) as H.
    rewrite Hval in H. exact H.
Qed.
End Digits.

(** A number has at most as many digits as its size, and at least one. *)
Lemma trimmed_length b ds : 2 <= b -> trimmed ds -> N.of_nat (length ds) <= positional_value b ds.
Proof.
  intros Hb. induction ds as [|x ds IH] using rev_ind; intros Htr; [cbn; lia|].
  pose proof (IH (trimmed_app _ _ Htr)) as H. rewrite positional_value_app, app_length. cbn [length].
  destruct ds as [|y ds]; [cbn in *; lia|].
  pose proof (positional_pos b (y :: ds) ltac:(lia) (trimmed_app _ _ Htr) ltac:(discriminate)). nia.
Qed.

Lemma bijective_length b ds : 1 <= b -> N.of_nat (length ds) <= bijective_value b ds.
Proof.
  intros Hb. induction ds as [|x ds IH] using rev_ind; [cbn; lia|].
  rewrite bijective_value_app, app_length. cbn [length]. nia.
Qed.

Lemma numeral_length z zb digits n cs : enough z (N.of_nat (length digits)) -> digit_numeral z zb digits n cs ->
  1 <= N.of_nat (length cs) <= n + 1.
Proof.
  unfold enough, digit_numeral. intros He Hnum.
  assert (forall m, m <> 0 -> 1 <= N.of_nat (length digits) -> bijective_numeral digits m cs -> 1 <= N.of_nat (length cs) <= m) as Hbij.
  { intros m Hm Hb (ds & _ & Hval & ->). rewrite map_length. pose proof (bijective_length _ ds Hb).
    destruct ds; [cbn in Hval; congruence|]. cbn [length] in *. lia. }
  destruct z; [|destruct zb].
  - destruct Hnum as (ds & Hbel & Hcan & Hval & ->). rewrite map_length.
    destruct ds as [|x ds _] using rev_ind; [destruct Hcan|]. apply canonical_app in Hcan.
    pose proof (trimmed_length _ ds He Hcan) as H. rewrite positional_value_app in Hval. rewrite app_length. cbn [length]. nia.
  - apply Hbij in Hnum; lia.
  - destruct Hnum as [Hn Hnum]. apply Hbij in Hnum; [lia|assumption|lia].
Qed.

(** ** Numbers that shrink *)

Lemma div_pow_lt b r k : 2 <= b -> r < b ^ (k + 1) -> r / b < b ^ k.
Proof. intros Hb H. apply N.div_lt_upper_bound; [lia|]. rewrite <- N.pow_succ_r', <- N.add_1_r. exact H. Qed.

(** At least ten digits: at most one turn per decimal digit, and the last. *)
Lemma digit_stops c T d n : (exists b, dc_len d = Ret b /\ 10 <= b) -> forall k st,
  10 <= dl_count st -> dl_remaining st < 10 ^ k -> (dl_first_loop st = true -> 1 <= k) ->
  stops (digit_loop_body c T d n) (k + 1) st.
Proof.
  intros (b & Hlen & Hb). induction k as [|k IH] using N.peano_ind; intros [rem first count s] Hcount Hrem Hfirst;
    cbn [dl_count dl_remaining dl_first_loop] in *; constructor; intros st' E; unfold digit_loop_body, is_zero in E;
    cbn [dl_count dl_remaining dl_first_loop dl_formatted] in E.
  - destruct first; [specialize (Hfirst eq_refl); lia|]. replace rem with 0 in E by (change (10 ^ 0) with 1 in Hrem; lia).
    discriminate.
  - destruct (negb (rem =? 0) || first); [|discriminate].
    destruct (_ && _ && _) eqn:Hnz; [discriminate|].
    destruct (if _ : bool then usub c (bits c T) rem 1 else Ret rem) as [rem'| | |] eqn:Erem; try discriminate. cbn [obind] in E.
    assert (rem' <= rem) as Hle.
    { revert Erem. destruct (dc_has_zero_digit d); cbn [negb andb] in *; [intros H; injection H as <-; lia|].
      destruct (negb (dc_zero_based d) || negb first); cbn [andb] in *; [|intros H; injection H as <-; lia].
      apply N.eqb_neq in Hnz. rewrite usub_le by lia. intros H; injection H as <-; lia. }
    unfold urem, udiv in E. destruct (N.eqb_spec count 0); [discriminate|]. cbn [obind] in E.
    destruct (dc_digit d _) as [ch| | |]; try discriminate. cbn [obind] in E.
    destruct (try_push_front c s ch) as [[s' [[]|[]]]| | |]; try discriminate. cbn [obind] in E.
    rewrite Hlen in E. cbn [obind] in E. unfold try_from in E. destruct (b <? 2 ^ bits c T); [|discriminate].
    injection E as <-. rewrite <- N.add_1_r in *. apply IH; cbn [dl_count dl_remaining dl_first_loop]; [assumption| |discriminate].
    rewrite N.pow_add_r in Hrem. change (10 ^ 1) with 10 in Hrem.
    apply N.div_lt_upper_bound; [assumption|]. nia.
Qed.

Lemma push_front_if_continue {S} c when s ch (k : nominal_string -> outcome (loop_step S (result nominal_string out_of_memory))) st :
  push_front_if c when s ch k = Ret (Continue st) -> exists s', k s' = Ret (Continue st).
Proof.
  unfold push_front_if. destruct when; [|eauto]. destruct ch as [ch| | |]; try discriminate. cbn [obind].
  destruct (try_push_front c s ch) as [[s' [[]|[]]]| | |]; try discriminate. cbn [obind]. eauto.
Qed.

Lemma ethiopic_stops c : forall k i rem s, rem < 100 ^ k -> stops (ethiopic_body c) (k + 1) (i, rem, s).
Proof.
  induction k as [|k IH] using N.peano_ind; intros i rem s Hrem; constructor; intros st' E; unfold ethiopic_body, is_zero in E.
  - replace rem with 0 in E by (change (100 ^ 0) with 1 in Hrem; lia). discriminate.
  - destruct (rem =? 0); [discriminate|].
    do 4 (apply push_front_if_continue in E as (? & E)). injection E as <-. rewrite <- N.add_1_r in *. apply IH.
    rewrite N.div_div by lia. change (10 * 10) with 100. apply div_pow_lt; [lia|]. exact Hrem.
Qed.

Lemma short_stops c T characters large : forall rank st, sl_rank st = rank ->
  stops (short_body c T characters large) (N.of_nat rank + 1) st.
Proof.
  assert (forall st st', short_next c T st = Ret (Continue st') -> sl_rank st = S (sl_rank st')) as Hnext.
  { intros st st'. unfold short_next. destruct (sl_rank st) as [|r]; [discriminate|].
    destruct (or_panic _); try discriminate. cbn [obind]. destruct (try_from c T _); [|discriminate].
    intros H. injection H as <-. reflexivity. }
  assert (forall st st', short_body c T characters large st = Ret (Continue st') -> sl_rank st = S (sl_rank st')) as Hbody.
  { intros st st' E. unfold short_body, is_zero in E. destruct (sl_remaining st =? 0); [discriminate|].
    destruct (udiv _ _) as [v| | |]; try discriminate. cbn [obind] in E. destruct (10 <=? v); [discriminate|].
    destruct (urem _ _) as [r| | |]; try discriminate. cbn [obind] in E.
    destruct (v =? 0).
    - destruct (is_empty _) as [e| | |]; try discriminate. cbn [obind] in E.
      destruct (negb e && negb _); [|apply Hnext in E; exact E].
      destruct (char_at _ _) as [ch| | |]; try discriminate. cbn [obind] in E.
      destruct (try_push c _ ch) as [[s' [[]|[]]]| | |]; try discriminate. cbn [obind] in E. apply Hnext in E; exact E.
    - destruct (char_at _ _) as [ch| | |]; try discriminate. cbn [obind] in E.
      destruct (try_push c _ ch) as [[s' [[]|[]]]| | |]; try discriminate. cbn [obind] in E.
      destruct (or_panic _) as [ch'| | |]; try discriminate. cbn [obind] in E.
      destruct (try_push c _ ch') as [[s'' [[]|[]]]| | |]; try discriminate. cbn [obind] in E. apply Hnext in E; exact E. }
  induction rank as [|rank IH]; intros st Hst; constructor; intros st' E; apply Hbody in E.
  - congruence.
  - rewrite Nat2N.inj_succ, <- N.add_1_r. apply IH. congruence.
Qed.

Lemma hebrew_stops c T n sym v : v <> 0 -> forall k rem s, rem < (k + 1) * v -> stops (hebrew_while_body c T n sym v) (k + 1) (rem, s).
Proof.
  intros Hv. induction k as [|k IH] using N.peano_ind; intros rem s Hrem; constructor; intros st' E;
    unfold hebrew_while_body in E; destruct (N.leb_spec v rem) as [Hle|]; try discriminate; [lia|].
  assert (exists s', st' = (rem - v, s')) as (s' & ->).
  { destruct (rem =? 15); [|destruct (rem =? 16)].
    - unfold push_or_return in E. destruct (try_push_str c s _) as [[s' [[]|[]]]| | |]; discriminate.
    - unfold push_or_return in E. destruct (try_push_str c s _) as [[s' [[]|[]]]| | |]; discriminate.
    - destruct (is_empty s) as [e| | |]; try discriminate. cbn [obind] in E. unfold usub in E.
      destruct (N.leb_spec v rem); [|lia]. cbn [obind] in E. unfold push_or_return in E. destruct ((v =? rem) && e).
      + repeat (match type of E with context [try_push c ?a ?b] => destruct (try_push c a b) as [[? [[]|[]]]| | |]; try discriminate; cbn [obind] in E end).
      + destruct (try_push c s sym) as [[s' [[]|[]]]| | |]; try discriminate. cbn [obind] in E. injection E as <-. eauto. }
  rewrite <- N.add_1_r in *. apply IH. nia.
Qed.

(** ** Additive sets: one turn per symbol, and the last of each row *)

Lemma additive_turns c T n sym v : scalars sym -> v <> 0 -> forall k r s cs, r < v -> text c s cs ->
  lasts c (additive_while_body c T n (utf8 sym) v) k (k * v + r, s).
Proof.
  intros Hsym Hv. induction k as [|k IH] using N.peano_ind; intros r s cs Hr Ht.
  - eapply lasts_break. unfold additive_while_body. replace (0 * v + r) with r by lia.
    destruct (N.leb_spec v r); [lia|]. reflexivity.
  - rewrite <- N.add_1_r. pose proof (push_str_pushed c s cs sym Ht Hsym) as Hp.
    assert (usub c (bits c T) ((k + 1) * v + r) v = Ret (k * v + r)) as Hsub.
    { unfold usub. destruct (N.leb_spec v ((k + 1) * v + r)); [|nia]. f_equal. nia. }
    assert (additive_while_body c T n (utf8 sym) v ((k + 1) * v + r, s) =
      '(formatted, pushed) <- try_push_str c s (utf8 sym) ;;
      match pushed with
      | Ok _ => Ret (Continue (k * v + r, formatted))
      | Err OutOfMemoryError => Ret (Break (Err (OutOfMemory n)))
      end) as Eb.
    { unfold additive_while_body. destruct (N.leb_spec v ((k + 1) * v + r)); [|nia]. rewrite Hsub. reflexivity. }
    destruct Hp as [(s' & E & Ht')|[E Hroom]]; rewrite E in Eb.
    + eapply lasts_step; [exact Eb|]. eapply IH; eassumption.
    + eapply lasts_oom; eassumption.
Qed.

Lemma additive_for_turns c T n d : valid_config c -> forall tbl rem s cs,
  proper tbl -> fits c T rem -> text c s cs ->
  (Forall (fun k => k < 2 ^ N.of_nat d) (greedy tbl rem) ->
     additive_for (within c d) T n (encode tbl) rem s = additive_for c T n (encode tbl) rem s) /\
  (has_alloc c = true -> Exists (fun k => 2 ^ N.of_nat d <= k) (greedy tbl rem) ->
     additive_for (within c d) T n (encode tbl) rem s = Hang).
Proof.
  intros Hc. induction tbl as [|[sym v] tbl IH]; intros rem s cs Hp Hfit Ht; cbn [encode map additive_for greedy].
  - split; [reflexivity|]. intros _ H. inversion H.
  - inversion Hp as [|? ? Hsym Hp']; subst. destruct (N.eqb_spec v 0) as [->|Hv].
    + split; [reflexivity|]. intros _ H. apply Exists_exists in H as (k & Hk & H).
      change (In k (map (fun _ : list N * N => 0) ((sym, 0) :: tbl))) in Hk.
      apply in_map_iff in Hk as (? & <- & _). pose proof (N.pow_nonzero 2 (N.of_nat d)). lia.
    + change (try_from (within c d) T v) with (try_from c T v).
      destruct (N.lt_ge_cases v (2 ^ bits c T)) as [Hfv|Hfv].
      * rewrite try_from_fits by exact Hfv.
        change (additive_while_body (within c d) T n (utf8 sym) v) with (additive_while_body c T n (utf8 sym) v).
        pose proof (additive_turns c T n sym v Hsym Hv (rem / v) (rem mod v) s cs (N.mod_lt _ _ Hv) Ht) as L.
        pose proof (while_loop c T n sym v Hc Hsym Hv (rem / v) (rem mod v) s cs (N.mod_lt _ _ Hv) Ht) as W.
        replace (rem / v * v + rem mod v) with rem in L, W by (pose proof (N.div_mod' rem v); lia).
        assert (rem / v <= 2 ^ 128) as Hq.
        { pose proof (fits_128 c T rem Hc Hfit). pose proof (N.div_le_upper_bound rem v rem Hv ltac:(nia)). lia. }
        apply lasts_run with (d := d) in L; [|apply N.lt_le_trans with (2 ^ 128 + 2); [lia|apply budget; [assumption|lia]]].
        apply loops_run with (c := c) in W; [|assumption|lia].
        destruct L as [L1 L2], W as (x & E & W). rewrite E. cbn [obind].
        assert (fits c T (rem mod v)) as Hfit' by (eapply fits_le; [exact Hfit|]; apply N.mod_le, Hv).
        split; [intros H; inversion H as [|? ? Hk H']; subst; rewrite L1, E by assumption; cbn [obind]|intros Ha H].
        -- destruct W as [(s' & -> & Ht')|[-> _]]; [|reflexivity].
           destruct (IH (rem mod v) s' _ Hp' Hfit' Ht') as [IH1 _]. auto.
        -- destruct (N.lt_ge_cases (rem / v) (2 ^ N.of_nat d)) as [Hk|Hk]; [|rewrite L2 by assumption; reflexivity].
           inversion H as [? ? Hk'|? ? H']; subst; [lia|]. rewrite L1, E by assumption. cbn [obind].
           destruct W as [(s' & -> & Ht')|[_ Hroom]].
           ++ destruct (IH (rem mod v) s' _ Hp' Hfit' Ht') as [_ IH2]. auto.
           ++ unfold room in Hroom. rewrite Ha in Hroom. discriminate.
      * rewrite try_from_not by (unfold fits; lia).
        assert (rem < v) as Hlt by (unfold fits in Hfit; lia).
        rewrite N.div_small, N.mod_small by assumption.
        destruct (IH rem s cs Hp' Hfit Ht) as [IH1 IH2]. split.
        -- intros H. inversion H; subst. auto.
        -- intros Ha H. inversion H as [? ? Hk'|? ? H']; subst; [|auto]. pose proof (N.pow_nonzero 2 (N.of_nat d)). lia.
Qed.

(** ** Hebrew *)

Lemma iterate_break {S R} (body : S -> outcome (loop_step S R)) d : forall s r,
  iterate d body s = Ret (Break r) -> exists s', body s' = Ret (Break r).
Proof.
  induction d as [|d IH]; intros s r E; [exists s; exact E|]. cbn [iterate] in E.
  destruct (iterate d body s) as [[s1|b]| | |] eqn:E1; try discriminate; cbn [obind] in E; [eauto|].
  injection E as ->. eauto.
Qed.

Lemma hebrew_exit_lt c T n sym v s rem f : v <> 0 ->
  run_loop c (hebrew_while_body c T n sym v) s = Ret (NextSymbol rem f) -> rem < v.
Proof.
  intros Hv E. unfold run_loop in E. destruct (iterate _ _ _) as [[s1|b]| | |] eqn:E1; try discriminate. cbn [obind] in E.
  injection E as ->. apply iterate_break in E1 as ([rem' f'] & E). unfold hebrew_while_body in E.
  destruct (N.leb_spec v rem') as [Hle|Hlt]; [|injection E as <- _; assumption].
  unfold push_or_return in E. destruct (rem' =? 15); [|destruct (rem' =? 16)].
  - destruct (try_push_str c f' _) as [[s' [[]|[]]]| | |]; discriminate.
  - destruct (try_push_str c f' _) as [[s' [[]|[]]]| | |]; discriminate.
  - destruct (is_empty f') as [e| | |]; try discriminate. cbn [obind] in E.
    rewrite usub_le in E by assumption. cbn [obind] in E. destruct (N.eqb_spec v rem') as [->|]; cbn [andb] in E.
    + destruct e.
      * repeat (match type of E with context [try_push c ?a ?b] => destruct (try_push c a b) as [[? [[]|[]]]| | |]; try discriminate; cbn [obind] in E end).
        injection E as <- _. lia.
      * destruct (try_push c f' sym) as [[s' [[]|[]]]| | |]; discriminate.
    + destruct (try_push c f' sym) as [[s' [[]|[]]]| | |]; discriminate.
Qed.

(** No value is less than a sixteenth of the one before it. *)
Fixpoint gentle (symbols : list (N * N)) : bool :=
  match symbols with
  | [] => true
  | (_, v) :: rest =>
      negb (v =? 0) && (match rest with [] => true | (_, v') :: _ => v <=? 16 * v' end) && gentle rest
  end.

Lemma hebrew_for_turns c T n d : valid_config c -> (4 <= d)%nat -> forall symbols rem f,
  gentle symbols = true -> fits c T rem ->
  (match symbols with (_, v) :: _ => rem < 2 ^ N.of_nat d * v | [] => True end) ->
  hebrew_for (within c d) T n symbols rem f = hebrew_for c T n symbols rem f.
Proof.
  intros Hc Hd. assert (16 <= 2 ^ N.of_nat d) as Hd'.
  { change 16 with (2 ^ 4). apply N.pow_le_mono_r; lia. }
  induction symbols as [|[sym v] symbols IH]; intros rem f Hg Hfit Hhead; [reflexivity|].
  cbn [gentle] in Hg. apply andb_prop in Hg as [Hg Hg']. apply andb_prop in Hg as [Hv Hnext].
  assert (v <> 0) as Hv0 by (destruct (N.eqb_spec v 0); [discriminate|assumption]).
  assert (forall r, r < v -> match symbols with (_, v') :: _ => r < 2 ^ N.of_nat d * v' | [] => True end) as Hnext'.
  { intros r Hr. destruct symbols as [|[s' v'] symbols]; [exact I|]. nia. }
  cbn [hebrew_for]. change (try_from (within c d) T v) with (try_from c T v).
  destruct (try_from c T v) as [v'|] eqn:Ev.
  - apply try_from_some in Ev as [-> Hfv].
    change (hebrew_while_body (within c d) T n sym v) with (hebrew_while_body c T n sym v).
    rewrite (stops_same c (hebrew_while_body c T n sym v) (rem / v + 1) (rem, f) d).
    + destruct (run_loop c _ _) as [[r f'|f'|e]| | |] eqn:Er; try reflexivity. cbn [obind].
      apply hebrew_exit_lt in Er; [|assumption]. apply IH; try assumption; [|apply Hnext', Er].
      eapply fits_le; [exact Hfv|]. lia.
    + apply hebrew_stops; [assumption|]. pose proof (N.div_mod' rem v). pose proof (N.mod_lt rem v Hv0). lia.
    + assert (rem / v < 2 ^ N.of_nat d) by (apply N.div_lt_upper_bound; [assumption|lia]). lia.
    + apply budget; [assumption|]. pose proof (fits_128 c T rem Hc Hfit).
      pose proof (N.div_le_upper_bound rem v rem Hv0 ltac:(nia)). lia.
  - apply IH; try assumption. apply Hnext'. unfold try_from in Ev. unfold fits in Hfit.
    destruct (N.ltb_spec v (2 ^ bits c T)); [discriminate|lia].
Qed.

Lemma hebrew_turns c T n s v : is_scalar s = true -> 17 <= v -> forall k r f acc, r < v ->
  text c f acc -> (acc = [] -> k * v + r <> v) ->
  lasts c (hebrew_while_body c T n s v) k (k * v + r, f).
Proof.
  intros Hs Hv. induction k as [|k IH] using N.peano_ind; intros r f acc Hr Ht Hne.
  - eapply lasts_break. unfold hebrew_while_body. replace (0 * v + r) with r by lia.
    destruct (N.leb_spec v r); [lia|]. reflexivity.
  - rewrite <- N.add_1_r in *.
    assert (hebrew_while_body c T n s v ((k + 1) * v + r, f) =
      push_or_return n (try_push c f s) (fun f' => Ret (Continue (k * v + r, f')))) as E.
    { unfold hebrew_while_body. destruct (N.leb_spec v ((k + 1) * v + r)); [|nia].
      destruct (N.eqb_spec ((k + 1) * v + r) 15); [nia|]. destruct (N.eqb_spec ((k + 1) * v + r) 16); [nia|].
      rewrite (text_empty c f acc Ht). cbn [obind].
      assert ((v =? (k + 1) * v + r) && (match acc with [] => true | _ => false end) = false) as ->.
      { destruct acc; [|apply andb_false_r]. specialize (Hne eq_refl). rewrite andb_true_r. apply N.eqb_neq. congruence. }
      rewrite usub_le by assumption. cbn [obind].
      replace ((k + 1) * v + r - v) with (k * v + r) by nia. reflexivity. }
    destruct (push_pushed c f acc s Ht Hs) as [(f' & Ep & Ht')|[Ep Hroom]].
    + eapply lasts_step; [rewrite E; unfold push_or_return; rewrite Ep; reflexivity|].
      eapply IH; [assumption|exact Ht'|]. destruct acc; discriminate.
    + eapply lasts_oom; [rewrite E; unfold push_or_return; rewrite Ep; reflexivity|exact Hroom].
Qed.

(** ** Chinese *)

Lemma scaled_turns c d formal : forall rank scales characters large n no_prefix last,
  format_scaled_rank (within c d) formal rank scales characters large n no_prefix last =
  format_scaled_rank c formal rank scales characters large n no_prefix last.
Proof.
  induction rank as [|rank IH]; intros scales characters large n no_prefix last; cbn [format_scaled_rank].
  - reflexivity.
  - destruct (scale_at scales (S rank)) as [sc|]; [|apply IH].
    destruct (urem n sc) as [remaining| | |]; try reflexivity. cbn [obind].
    destruct (udiv n sc) as [value| | |]; try reflexivity. cbn [obind].
    destruct (match scale_at scales (S rank + 1) with Some _ => _ | None => _ end) as [[|]| | |]; try reflexivity. cbn [obind].
    assert (forall formatted last, 
      (if is_zero remaining then Ret (Ok formatted, last)
       else empty <- is_empty formatted ;;
            '(tail, last) <- format_scaled_rank (within c d) formal rank scales characters large remaining (empty && no_prefix) last ;;
            match tail with Err e => Ret (Err e, last) | Ok tail => append_result (within c d) formatted tail last end) =
      (if is_zero remaining then Ret (Ok formatted, last)
       else empty <- is_empty formatted ;;
            '(tail, last) <- format_scaled_rank c formal rank scales characters large remaining (empty && no_prefix) last ;;
            match tail with Err e => Ret (Err e, last) | Ok tail => append_result c formatted tail last end)) as Hfinish.
    { intros formatted last'. destruct (is_zero remaining); [reflexivity|].
      destruct (is_empty formatted); try reflexivity. cbn [obind]. rewrite IH. reflexivity. }
    destruct (is_zero value); [apply Hfinish|]. rewrite IH.
    destruct (format_scaled_rank c formal rank scales characters large value no_prefix last) as [[[r|e] last']| | |]; try reflexivity.
    cbn [obind]. destruct (is_empty r) as [[|]| | |]; try reflexivity; cbn [obind negb]; [rewrite IH; reflexivity|].
    unfold push_char. destruct (or_panic _); try reflexivity. cbn [obind].
    change (try_push (within c d)) with (try_push c).
    destruct (try_push c r _) as [[s' [[]|[]]]| | |]; try reflexivity. cbn [obind]. apply Hfinish.
Qed.

Lemma short_turns_within c T d formal characters large n : (4 <= d)%nat -> (4 <= loop_depth c)%nat -> forall rank, (rank < 16)%nat ->
  format_short_rank (within c d) T formal rank characters large n = format_short_rank c T formal rank characters large n.
Proof.
  intros Hd Hc. assert (forall e, (4 <= e)%nat -> 16 <= 2 ^ N.of_nat e) as Hpow.
  { intros e He. change 16 with (2 ^ 4). apply N.pow_le_mono_r; lia. }
  induction rank as [|rank IH]; intros Hr; cbn [format_short_rank];
    (destruct (or_panic _) as [sc| | |]; try reflexivity; cbn [obind];
     change (try_from (within c d) T sc) with (try_from c T sc); destruct (try_from c T sc) as [sc'|]; [|try reflexivity; apply IH; lia];
     change (short_body (within c d) T characters large) with (short_body c T characters large);
     erewrite (stops_same c (short_body c T characters large)); [reflexivity|apply short_stops; reflexivity| |];
     (transitivity 16; [cbn [sl_rank]; lia|apply Hpow; assumption])).
Qed.
