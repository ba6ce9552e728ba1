(** * ScriptFacts: the enumerated, Ethiopic and Hebrew formatters *)

From Coq Require Import String.
From Verif Require Import Prelude Utf8Facts StringFacts History Outcome DigitFacts DigitOrder DigitSets
  AdditiveFacts Enumerated Ethiopic Hebrew.
From Verif Require Export SpecScripts.

(** ** Enumerated *)

Lemma enumerated_symbol c T symbols n (zero : bool) sym : valid_config c ->
  N.of_nat (length symbols) <= 2 ^ usize_bits c ->
  (zero = false -> n <> 0) ->
  nth_error symbols (N.to_nat (n - if zero then 0 else 1)) = Some sym ->
  scalars sym -> room c sym = true -> n < 2 ^ usize_bits c ->
  yields c (try_format_enumerated c T {| es_symbols := map utf8 symbols; es_has_zero := zero |} n) n sym.
Proof.
  intros Hc Hlen Hz Hsym Hs Hroom Hn. unfold try_format_enumerated. rewrite try_from_fits by exact Hn.
  cbn [es_has_zero es_symbols].
  assert (negb zero && is_zero n = false) as ->.
  { unfold is_zero. destruct zero; [reflexivity|]. destruct (N.eqb_spec n 0); [|reflexivity]. specialize (Hz eq_refl); contradiction. }
  assert (usub c (usize_bits c) n (if zero then 0 else 1) = Ret (n - if zero then 0 else 1)) as ->.
  { apply usub_le. destruct zero; [lia|]. specialize (Hz eq_refl). lia. }
  cbn [obind]. unfold lookup. rewrite map_length.
  pose proof (nth_error_Some symbols (N.to_nat (n - if zero then 0 else 1))) as Hlt.
  rewrite Hsym in Hlt. assert (N.to_nat (n - if zero then 0 else 1) < length symbols)%nat as Hlt' by (apply Hlt; discriminate).
  destruct (N.ltb_spec (n - if zero then 0 else 1) (N.of_nat (length symbols))); [|lia].
  rewrite (map_nth_error utf8 _ _ Hsym). destruct (from_str_text c sym Hs Hroom) as (s & E & Ht). rewrite E.
  eexists. split; [reflexivity|]. apply stored_text, Ht.
Qed.

Lemma enumerated_beyond c T symbols n (zero : bool) : valid_config c ->
  (zero = false -> n <> 0) ->
  N.of_nat (length symbols) <= n - (if zero then 0 else 1) ->
  try_format_enumerated c T {| es_symbols := map utf8 symbols; es_has_zero := zero |} n = Ret (Err (OutOfBounds n)).
Proof.
  intros Hc Hz Hlen. unfold try_format_enumerated.
  destruct (try_from c Usize n) as [m|] eqn:E; [|reflexivity]. apply try_from_some in E as [-> _].
  cbn [es_has_zero es_symbols].
  assert (negb zero && is_zero n = false) as ->.
  { unfold is_zero. destruct zero; [reflexivity|]. destruct (N.eqb_spec n 0); [|reflexivity]. specialize (Hz eq_refl); contradiction. }
  assert (usub c (usize_bits c) n (if zero then 0 else 1) = Ret (n - if zero then 0 else 1)) as ->.
  { apply usub_le. destruct zero; [lia|]. specialize (Hz eq_refl). lia. }
  cbn [obind]. rewrite lookup_none by (rewrite map_length; assumption). reflexivity.
Qed.

(** ** Ethiopic *)

Lemma push_front_if_text {A} c (cond : bool) s cs ch x
    (k : nominal_string -> outcome (loop_step A (result nominal_string out_of_memory))) :
  text c s cs -> (cond = true -> ch = Ret x /\ is_scalar x = true) ->
  (exists s', push_front_if c cond s ch k = k s' /\ text c s' ((if cond then [x] else []) ++ cs)) \/
  (push_front_if c cond s ch k = Ret (Break (Err OutOfMemoryError)) /\ room c ((if cond then [x] else []) ++ cs) = false).
Proof.
  intros Ht Hx. unfold push_front_if. destruct cond.
  - destruct (Hx eq_refl) as [-> Hs]. cbn [obind].
    destruct (push_front_pushed c s cs x Ht Hs) as [(s' & E & Ht')|[E Hr]]; rewrite E; cbn [obind].
    + left. exists s'. auto.
    + right. auto.
  - left. exists s. auto.
Qed.

Definition eth_result (c : config) (cs : list N) (r : result nominal_string out_of_memory) : Prop :=
  if room c cs then exists s, r = Ok s /\ text c s cs else r = Err OutOfMemoryError.

(** One turn prepends one group. *)
Lemma ethiopic_turn c i v g s cs : valid_config c -> text c s cs -> g < 100 -> (v <> 0 \/ g <> 0) ->
  (g =? 1) && (i =? 0) && (v =? 0) = false ->
  let cs' := ethiopic_group (v =? 0) (N.to_nat i) g ++ cs in
  (exists s', ethiopic_body c (i, v * 100 + g, s) = Ret (Continue (i + 1, v, s')) /\ text c s' cs') \/
  (ethiopic_body c (i, v * 100 + g, s) = Ret (Break (Err OutOfMemoryError)) /\ room c cs' = false).
Proof.
  intros Hc Ht Hg Hnz Hone cs'.
  assert (is_zero (v * 100 + g) = false) as Hz by (unfold is_zero; lia).
  assert ((v * 100 + g) mod 10 = g mod 10) as E1 by lia.
  assert ((v * 100 + g) / 10 mod 10 = g / 10) as E2 by lia.
  assert ((v * 100 + g) / 10 / 10 = v) as E3 by lia.
  unfold ethiopic_body. rewrite Hz, E1, E2, E3.
  set (first := g mod 10). set (second := g / 10).
  assert (first < 10) as Hf by (unfold first; lia). assert (second < 10) as Hs by (unfold second; lia).
  assert (is_zero first && is_zero second = (g =? 0)) as Hzero by (unfold is_zero, first, second; lia).
  rewrite Hzero.
  set (odd := i mod 2 =? 1). set (nf := 0 <? i).
  assert (Nat.odd (N.to_nat i) = odd) as Hodd.
  { unfold odd. clear. rewrite <- (N2Nat.id i) at 2. generalize (N.to_nat i) as j. intros j.
    rewrite <- Nat.negb_even. destruct (Nat.even j) eqn:E.
    - apply Nat.even_spec in E as (k & ->). cbn [negb]. lia.
    - assert (Nat.odd j = true) as Ho by (rewrite <- Nat.negb_even, E; reflexivity).
      apply Nat.odd_spec in Ho as (k & ->). cbn [negb]. lia. }
  assert (Nat.eqb (N.to_nat i) 0 = negb nf) as Hnf by (unfold nf; lia).
  assert (odd = true -> nf = true) as Hodd' by (unfold odd, nf; lia).
  set (removed := (g =? 0) || (is_zero v || odd) && nf && is_zero second && (first =? 1)).
  assert (forall k, k < 10 -> as_usize c k = k) as Hus.
  { intros k Hk. apply as_usize_small. pose proof (usize_bits_ge c Hc).
    apply N.lt_le_trans with (2 ^ 16); [change (2 ^ 16) with 65536; lia|]. apply N.pow_le_mono_r; lia. }
  assert (forall k, k < 10 -> k <> 0 -> or_panic (lookup ONES (as_usize c k)) = Ret (0x1369 + (k - 1)) /\
            is_scalar (0x1369 + (k - 1)) = true) as Hones.
  { intros k Hk Hk0. rewrite Hus by assumption.
    assert (k = 1 \/ k = 2 \/ k = 3 \/ k = 4 \/ k = 5 \/ k = 6 \/ k = 7 \/ k = 8 \/ k = 9) as Hcase by lia.
    repeat destruct Hcase as [->|Hcase]; [split; reflexivity..|subst; split; reflexivity]. }
  assert (forall k, k < 10 -> k <> 0 -> or_panic (lookup TENS (as_usize c k)) = Ret (0x1372 + (k - 1)) /\
            is_scalar (0x1372 + (k - 1)) = true) as Htens.
  { intros k Hk Hk0. rewrite Hus by assumption.
    assert (k = 1 \/ k = 2 \/ k = 3 \/ k = 4 \/ k = 5 \/ k = 6 \/ k = 7 \/ k = 8 \/ k = 9) as Hcase by lia.
    repeat destruct Hcase as [->|Hcase]; [split; reflexivity..|subst; split; reflexivity]. }
  assert (cs' = (if negb removed && negb (is_zero second) then [0x1372 + (second - 1)] else []) ++
                (if negb removed && negb (is_zero first) then [0x1369 + (first - 1)] else []) ++
                (if nf && odd && negb (g =? 0) then [0x137B] else []) ++
                (if nf && negb odd then [0x137C] else []) ++ cs) as Hcs.
  { unfold cs', ethiopic_group. rewrite Hodd, Hnf.
    assert ((g =? 0) || (v =? 0) && (g =? 1) || odd && (g =? 1) = removed) as ->.
    { unfold removed. assert (is_zero second && (first =? 1) = (g =? 1)) as Hg1 by (unfold is_zero, second, first; lia).
      rewrite <- andb_assoc, Hg1. change (is_zero v) with (v =? 0). fold nf in Hone.
      assert ((g =? 1) && negb nf && (v =? 0) = false) as Hone' by (unfold nf; lia).
      destruct (g =? 0), (v =? 0), (g =? 1), odd, nf; try reflexivity; try discriminate; specialize (Hodd' eq_refl); discriminate. }
    unfold ethiopic_digits. fold first second. change (is_zero first) with (first =? 0). change (is_zero second) with (second =? 0).
    rewrite <- !app_assoc. destruct removed; cbn [negb andb app].
    - destruct odd, nf, (g =? 0); try reflexivity; specialize (Hodd' eq_refl); discriminate.
    - destruct (second =? 0), (first =? 0), odd, nf, (g =? 0); try reflexivity; specialize (Hodd' eq_refl); discriminate. }
  clearbody cs' removed. subst cs'. cbn zeta.
  destruct (push_front_if_text c (nf && negb odd) s cs (Ret 0x137C) 0x137C
    (fun formatted => push_front_if c (nf && odd && negb (g =? 0)) formatted (Ret 0x137B) (fun formatted =>
       push_front_if c (negb removed && negb (is_zero first)) formatted (or_panic (lookup ONES (as_usize c first))) (fun formatted =>
       push_front_if c (negb removed && negb (is_zero second)) formatted (or_panic (lookup TENS (as_usize c second))) (fun formatted =>
       Ret (Continue (i + 1, v, formatted)))))) Ht) as [(s1 & E & Ht1)|[E Hr]]; [auto| |].
  2:{ right. rewrite E. split; [reflexivity|]. do 3 apply room_false_post. exact Hr. }
  rewrite E. clear E.
  destruct (push_front_if_text c (nf && odd && negb (g =? 0)) s1 _ (Ret 0x137B) 0x137B
    (fun formatted =>
       push_front_if c (negb removed && negb (is_zero first)) formatted (or_panic (lookup ONES (as_usize c first))) (fun formatted =>
       push_front_if c (negb removed && negb (is_zero second)) formatted (or_panic (lookup TENS (as_usize c second))) (fun formatted =>
       Ret (Continue (i + 1, v, formatted))))) Ht1) as [(s2 & E & Ht2)|[E Hr]]; [auto| |].
  2:{ right. rewrite E. split; [reflexivity|]. do 2 apply room_false_post. exact Hr. }
  rewrite E. clear E.
  destruct (push_front_if_text c (negb removed && negb (is_zero first)) s2 _ (or_panic (lookup ONES (as_usize c first)))
    (0x1369 + (first - 1))
    (fun formatted =>
       push_front_if c (negb removed && negb (is_zero second)) formatted (or_panic (lookup TENS (as_usize c second))) (fun formatted =>
       Ret (Continue (i + 1, v, formatted)))) Ht2) as [(s3 & E & Ht3)|[E Hr]].
  { intros Hb. apply Hones; [assumption|]. unfold is_zero in Hb. lia. }
  2:{ right. rewrite E. split; [reflexivity|]. apply room_false_post. exact Hr. }
  rewrite E. clear E.
  destruct (push_front_if_text c (negb removed && negb (is_zero second)) s3 _ (or_panic (lookup TENS (as_usize c second)))
    (0x1372 + (second - 1)) (fun formatted => Ret (Continue (i + 1, v, formatted))) Ht3) as [(s4 & E & Ht4)|[E Hr]].
  { intros Hb. apply Htens; [assumption|]. unfold is_zero in Hb. lia. }
  - left. exists s4. rewrite E. auto.
  - right. rewrite E. auto.
Qed.

Lemma ethiopic_groups_app top hs gs : hs <> [] \/ top = false ->
  ethiopic_groups top (hs ++ gs) =
  (fix go top hs := match hs with [] => [] | v :: r => ethiopic_group top (length r + length gs) v ++ go false r end) top hs
  ++ ethiopic_groups false gs.
Proof.
  revert top; induction hs as [|v hs IH]; intros top H.
  - destruct H as [H|H]; [contradiction|]. subst. reflexivity.
  - cbn [app ethiopic_groups]. rewrite IH by auto. rewrite app_length, app_assoc. reflexivity.
Qed.

(** The groups above the last [i] ones. *)
Fixpoint upper_groups (top : bool) (i : nat) (hs : list N) : list N :=
  match hs with
  | [] => []
  | v :: r => ethiopic_group top (length r + i) v ++ upper_groups false i r
  end.

Lemma upper_groups_0 top hs : upper_groups top 0 hs = ethiopic_groups top hs.
Proof. revert top; induction hs as [|v hs IH]; intros top; [reflexivity|]. cbn. rewrite Nat.add_0_r, IH. reflexivity. Qed.

Lemma upper_groups_snoc top i hs g :
  upper_groups top i (hs ++ [g]) =
  upper_groups top (S i) hs ++ ethiopic_group (match hs with [] => top | _ => false end) i g.
Proof.
  revert top; induction hs as [|v hs IH]; intros top; cbn [app upper_groups].
  - rewrite app_nil_r. reflexivity.
  - rewrite IH, app_length, app_assoc. cbn [length].
    replace (length hs + 1 + i)%nat with (length hs + S i)%nat by lia.
    destruct hs; reflexivity.
Qed.

Lemma ethiopic_loop c : valid_config c -> forall gs i s cs, below 100 gs -> trimmed gs -> text c s cs ->
  (i = 0 -> gs <> [1]) ->
  loops (ethiopic_body c) (positional_value 100 gs + 1) (i, positional_value 100 gs, s)
    (eth_result c (upper_groups true (N.to_nat i) gs ++ cs)).
Proof.
  intros Hc. induction gs as [|g gs IH] using rev_ind; intros i s cs Hb Htr Ht Hi.
  - cbn [positional_value fold_left]. eapply loops_break; [reflexivity|lia|]. cbn [upper_groups app].
    unfold eth_result. destruct (room c cs) eqn:E; [eauto|].
    pose proof (stored_text c 0 s cs Ht) as H. unfold stored in H. rewrite E in H. discriminate.
  - apply below_last in Hb as [Hb Hg].
    pose proof (trimmed_app _ _ Htr) as Htr'.
    rewrite positional_value_app, upper_groups_snoc, <- app_assoc.
    assert ((positional_value 100 gs =? 0) = match gs with [] => true | _ => false end) as Etop.
    { destruct gs as [|x gs]; [reflexivity|]. pose proof (positional_pos 100 (x :: gs)) as H.
      assert (1 <= positional_value 100 (x :: gs)) by (apply H; [lia|assumption|discriminate]). lia. }
    assert (positional_value 100 gs <> 0 \/ g <> 0) as Hnz.
    { destruct gs as [|x gs]; [right; exact Htr|left; lia]. }
    assert ((g =? 1) && (i =? 0) && (positional_value 100 gs =? 0) = false) as Hone.
    { rewrite Etop. destruct gs; [|destruct ((g =? 1) && (i =? 0)); reflexivity].
      destruct (N.eqb_spec g 1), (N.eqb_spec i 0); try reflexivity. subst. exfalso. apply Hi; reflexivity. }
    destruct (ethiopic_turn c i (positional_value 100 gs) g s cs Hc Ht Hg Hnz Hone) as [(s' & E & Ht')|[E Hr]].
    + eapply loops_step; [exact E|lia|].
      replace (match gs with [] => true | _ => false end) with (positional_value 100 gs =? 0).
      eapply loops_weaken; [| |apply IH; try eassumption; lia].
      * destruct (N.eq_dec (positional_value 100 gs) 0); lia.
      * replace (N.to_nat (i + 1)) with (S (N.to_nat i)) by lia. auto.
    + eapply loops_break; [exact E|lia|]. unfold eth_result.
      replace (match gs with [] => true | _ => false end) with (positional_value 100 gs =? 0).
      rewrite room_false_post by exact Hr. reflexivity.
Qed.

Lemma ethiopic_yields c T n cs : valid_config c -> fits c T n -> n <> 0 -> ethiopic_numeral n cs ->
  yields c (Ethiopic c T n) n cs.
Proof.
  intros Hc Hn Hn0 Hnum. unfold Ethiopic, is_zero, format_ethiopic. destruct (N.eqb_spec n 0); [contradiction|].
  assert (exists r, run_loop c (ethiopic_body c) (0, n, new_reverse) = Ret r /\ eth_result c cs r) as (r & E & Hr).
  { unfold ethiopic_numeral in Hnum. destruct (N.eqb_spec n 1) as [->|Hn1].
    - subst cs. apply loops_run with (k := 2); [assumption|lia|].
      pose proof (text_new_reverse c) as Ht0.
      assert (ethiopic_body c (0, 1, new_reverse) =
        push_front_if c true new_reverse (or_panic (lookup ONES (as_usize c 1)))
          (fun formatted => Ret (Continue (0 + 1, 0, formatted)))) as E by reflexivity.
      destruct (push_front_if_text c true new_reverse [] (or_panic (lookup ONES (as_usize c 1))) 0x1369
        (fun formatted => Ret (Continue (0 + 1, 0, formatted)) : outcome (loop_step (N * N * nominal_string) (result nominal_string out_of_memory))) Ht0) as [(s' & E' & Ht')|[E' Hroom]].
      + intros _. rewrite as_usize_small; [split; reflexivity|].
        pose proof (usize_bits_ge c Hc). apply N.lt_le_trans with (2 ^ 16); [reflexivity|]. apply N.pow_le_mono_r; lia.
      + eapply loops_step; [rewrite E, E'; reflexivity|lia|].
        eapply loops_break; [reflexivity|lia|]. cbn [app] in Ht'. unfold eth_result.
        destruct (room c [0x1369]) eqn:Er; [eauto|].
        pose proof (stored_text c 0 s' _ Ht') as H. unfold stored in H. rewrite Er in H. discriminate.
      + eapply loops_break; [rewrite E, E'; reflexivity|lia|]. unfold eth_result. cbn [app] in Hroom.
        rewrite Hroom. reflexivity.
    - destruct Hnum as (gs & Hb & Hcan & Hval & ->).
      assert (trimmed gs) as Htr.
      { destruct gs as [|x [|y gs]]; [destruct Hcan| |exact Hcan]. cbn in *. lia. }
      pose proof (ethiopic_loop c Hc gs 0 new_reverse [] Hb Htr (text_new_reverse c)) as L.
      rewrite Hval, app_nil_r in L. change (N.to_nat 0) with O in L. rewrite upper_groups_0 in L.
      eapply loops_run; [assumption| |apply L].
      + pose proof (fits_128 c T n Hc Hn). lia.
      + intros _ ->. cbn in Hval. lia. }
  rewrite E. cbn [obind]. unfold eth_result in Hr. unfold yields, stored. destruct (room c cs).
  - destruct Hr as (s & -> & Ht). eexists. split; [reflexivity|]. eauto.
  - subst r. eexists. split; reflexivity.
Qed.

Lemma ethiopic_numeral_exists n : exists cs, ethiopic_numeral n cs.
Proof.
  unfold ethiopic_numeral. destruct (n =? 1); [eauto|].
  destruct (canonical_exists 100 n) as (gs & H1 & H2 & H3); [lia|]. eauto 10.
Qed.

Lemma ethiopic_numeral_fun n cs cs' : ethiopic_numeral n cs -> ethiopic_numeral n cs' -> cs = cs'.
Proof.
  unfold ethiopic_numeral. destruct (n =? 1); [congruence|].
  intros (gs & B & C & V & ->) (gs' & B' & C' & V' & ->). f_equal.
  eapply positional_unique; try eassumption; [lia|congruence].
Qed.

(** *** Reading *)

Lemma fold_digits total part v : v < 100 -> fold_left ethiopic_step (ethiopic_digits v) (total, part) = (total, part + v).
Proof.
  intros Hv. unfold ethiopic_digits. rewrite fold_left_app.
  assert (v / 10 < 10) by lia. assert (v mod 10 < 10) by lia.
  assert (fold_left ethiopic_step (if v / 10 =? 0 then [] else [0x1372 + (v / 10 - 1)]) (total, part) = (total, part + 10 * (v / 10))) as ->.
  { destruct (N.eqb_spec (v / 10) 0) as [->|Hn]; cbn [fold_left]; [f_equal; lia|]. unfold ethiopic_step.
    destruct (N.eqb_spec (0x1372 + (v / 10 - 1)) 0x137C); [lia|]. destruct (N.eqb_spec (0x1372 + (v / 10 - 1)) 0x137B); [lia|].
    destruct (N.ltb_spec (0x1372 + (v / 10 - 1)) 0x1372); [lia|]. f_equal. lia. }
  destruct (N.eqb_spec (v mod 10) 0) as [E|Hn]; cbn [fold_left]; [f_equal; lia|]. unfold ethiopic_step.
  destruct (N.eqb_spec (0x1369 + (v mod 10 - 1)) 0x137C); [lia|]. destruct (N.eqb_spec (0x1369 + (v mod 10 - 1)) 0x137B); [lia|].
  destruct (N.ltb_spec (0x1369 + (v mod 10 - 1)) 0x1372); [|lia]. f_equal. lia.
Qed.

(** With [left] groups still to come and [v] read so far, the reader's state. *)
Definition reading (left : nat) (v total part : N) : Prop :=
  if Nat.odd left then total + part = v * 100
  else if Nat.eqb left 0 then total + part = v
  else total = v * 10000 /\ part = 0.

Lemma read_group (top : bool) index g v total part : g < 100 ->
  (if top then v = 0 /\ total = 0 /\ part = 0 /\ g <> 0 /\ (index = O -> g <> 1) else v <> 0 /\ reading (S index) v total part) ->
  exists total' part', fold_left ethiopic_step (ethiopic_group top index g) (total, part) = (total', part') /\
    reading index (v * 100 + g) total' part'.
Proof.
  intros Hg H. unfold ethiopic_group. rewrite fold_left_app.
  assert (Nat.odd (S index) = negb (Nat.odd index)) as Hodd by (rewrite Nat.odd_succ, <- Nat.negb_odd; reflexivity).
  destruct (Nat.odd index) eqn:Eo.
  - (* odd index: at the start of a part *)
    assert (total = v * 10000 /\ part = 0) as [-> ->].
    { destruct top; [destruct H as (-> & -> & -> & _); auto|]. destruct H as [_ H]. unfold reading in H. rewrite Hodd in H.
      exact H. }
    unfold reading. rewrite Eo. destruct (N.eqb_spec g 0) as [->|Hg0].
    + cbn [orb fold_left]. exists (v * 10000), 0. split; [reflexivity|lia].
    + destruct (N.eqb_spec g 1) as [->|Hg1]; rewrite ?andb_true_r, ?andb_false_r; cbn [orb andb].
      * rewrite orb_true_r. cbn [fold_left ethiopic_step N.eqb]. eexists _, _. split; [reflexivity|]. lia.
      * rewrite fold_digits by assumption. cbn [fold_left ethiopic_step N.eqb Pos.eqb].
        destruct (N.eqb_spec (0 + g) 0); [lia|]. eexists _, _. split; [reflexivity|]. lia.
  - (* even index *)
    cbn [andb]. rewrite orb_false_r.
    set (body := if (g =? 0) || top && (g =? 1) then [] else ethiopic_digits g).
    assert (exists part1, fold_left ethiopic_step body (total, part) = (total, part1) /\
      (total + part1 = v * 100 + g \/ (v = 0 /\ g = 1 /\ total = 0 /\ part1 = 0 /\ index <> O)) /\
      (top = false -> total + part1 = v * 100 + g)) as (part1 & E1 & Hsum & Hsum').
    { unfold body. destruct (N.eqb_spec g 0) as [->|Hg0]; cbn [orb fold_left].
      - exists part. split; [reflexivity|]. destruct top; [destruct H as (? & ? & ? & ? & ?); contradiction|].
        destruct H as [_ H]. unfold reading in H. rewrite Hodd in H. cbn [negb] in H. split; [left|intros _]; lia.
      - destruct top; cbn [andb].
        + destruct H as (-> & -> & -> & _ & Hi). destruct (N.eqb_spec g 1) as [->|Hg1].
          * exists 0. split; [reflexivity|]. split; [right|discriminate]. repeat split. intros ->. apply Hi; reflexivity.
          * exists g. rewrite fold_digits by assumption. split; [f_equal; lia|]. split; [left; lia|discriminate].
        + destruct H as [_ H]. unfold reading in H. rewrite Hodd in H. cbn [negb] in H.
          exists (part + g). rewrite fold_digits by assumption. split; [reflexivity|]. split; [left|intros _]; lia. }
    rewrite E1. unfold reading. rewrite Eo. destruct (Nat.eqb_spec index 0) as [->|Hi]; cbn [fold_left].
    + exists total, part1. split; [reflexivity|]. destruct Hsum as [?|(_ & _ & _ & _ & ?)]; [assumption|contradiction].
    + unfold ethiopic_step. cbn [N.eqb Pos.eqb].
      destruct Hsum as [Hsum|(-> & -> & -> & -> & _)].
      * assert (total + part1 <> 0) as Hnz.
        { destruct top; [destruct H as (-> & _ & _ & ? & _); lia|destruct H as [? _]; nia]. }
        destruct (N.eqb_spec total 0), (N.eqb_spec part1 0); try lia; cbn [andb];
          (eexists _, _; split; [reflexivity|]; split; [lia|reflexivity]).
      * cbn. eexists _, _; split; [reflexivity|]. split; reflexivity.
Qed.

Lemma read_groups gs : forall v total part, below 100 gs -> v <> 0 -> reading (length gs) v total part ->
  exists total' part', fold_left ethiopic_step (ethiopic_groups false gs) (total, part) = (total', part') /\
    total' + part' = fold_left (fun acc d => acc * 100 + d) gs v.
Proof.
  induction gs as [|g gs IH]; intros v total part Hb Hv Hr.
  - exists total, part. split; [reflexivity|]. exact Hr.
  - inversion Hb as [|? ? Hg Hb']; subst. cbn [ethiopic_groups]. rewrite fold_left_app.
    destruct (read_group false (length gs) g v total part Hg (conj Hv Hr)) as (t & p & E & Hr'). rewrite E.
    destruct (IH (v * 100 + g) t p Hb' ltac:(lia) Hr') as (t' & p' & E' & Hs). exists t', p'. auto.
Qed.

Lemma ethiopic_reads n cs : n <> 0 -> ethiopic_numeral n cs -> ethiopic_read cs = n.
Proof.
  intros Hn H. unfold ethiopic_numeral in H. destruct (N.eqb_spec n 1) as [->|Hn1]; [subst; reflexivity|].
  destruct H as (gs & Hb & Hcan & Hval & ->). destruct gs as [|g gs]; [destruct Hcan|].
  inversion Hb as [|? ? Hg Hb']; subst.
  assert (g <> 0) as Hg0.
  { destruct gs; [cbn in *; lia|exact Hcan]. }
  unfold ethiopic_read. cbn [ethiopic_groups]. rewrite fold_left_app.
  destruct (read_group true (length gs) g 0 0 0 Hg) as (t & p & E & Hr).
  { repeat split; try assumption. intros Hl. destruct gs; [|discriminate]. cbn in *. lia. }
  rewrite E. destruct (read_groups gs (0 * 100 + g) t p Hb' ltac:(lia) Hr) as (t' & p' & E' & Hs).
  rewrite E', Hs. reflexivity.
Qed.

(** ** Hebrew *)

(** The formatter over code points. *)
Fixpoint htext (symbols : list (N * N)) (rem : N) (acc : list N) : list N :=
  match symbols with
  | [] => acc
  | (s, v) :: rest =>
      if v <=? rem then
        if rem =? 15 then acc ++ chars "ט״ו"
        else if rem =? 16 then acc ++ chars "ט״ז"
        else if (v =? rem) && (match acc with [] => true | _ => false end) then htext rest 0 [geresh; s; gershayim]
        else htext rest (rem mod v) (acc ++ copies (rem / v) [s])
      else htext rest rem acc
  end.

(** The [while] loop where neither 15 nor 16 comes up and the symbol is not on
    its own. *)
Lemma hebrew_while c T n s v : is_scalar s = true -> v <> 0 -> forall k r f acc, r < v ->
  (17 <= v \/ k <= 1) -> (k <> 0 -> k * v + r <> 15 /\ k * v + r <> 16) ->
  text c f acc -> (acc = [] -> k * v + r <> v) ->
  loops (hebrew_while_body c T n s v) (k + 1) (k * v + r, f)
    (fun x => (exists f', x = NextSymbol r f' /\ text c f' (acc ++ copies k [s])) \/
              (x = ReturnErr (OutOfMemory n) /\ room c (acc ++ copies k [s]) = false)).
Proof.
  intros Hs Hv. induction k as [|k IH] using N.peano_ind; intros r f acc Hr Hk Hno Ht Hne.
  - eapply loops_break; [|lia|].
    + unfold hebrew_while_body. replace (0 * v + r) with r by lia. destruct (N.leb_spec v r); [lia|]. reflexivity.
    + left. exists f. rewrite copies_0, app_nil_r. auto.
  - rewrite <- N.add_1_r in *. destruct (Hno ltac:(lia)) as [H15 H16].
    assert (hebrew_while_body c T n s v ((k + 1) * v + r, f) =
      push_or_return n (try_push c f s) (fun f' => Ret (Continue (k * v + r, f')))) as E.
    { unfold hebrew_while_body. destruct (N.leb_spec v ((k + 1) * v + r)); [|nia].
      destruct (N.eqb_spec ((k + 1) * v + r) 15); [contradiction|]. destruct (N.eqb_spec ((k + 1) * v + r) 16); [contradiction|].
      rewrite (text_empty c f acc Ht). cbn [obind].
      assert ((v =? (k + 1) * v + r) && (match acc with [] => true | _ => false end) = false) as ->.
      { destruct acc; [|apply andb_false_r]. specialize (Hne eq_refl). rewrite andb_true_r. apply N.eqb_neq. congruence. }
      rewrite usub_le by assumption. cbn [obind].
      replace ((k + 1) * v + r - v) with (k * v + r) by nia. reflexivity. }
    rewrite copies_succ, app_assoc.
    destruct (push_pushed c f acc s Ht Hs) as [(f' & Ep & Ht')|[Ep Hroom]].
    + eapply loops_step; [rewrite E; unfold push_or_return; rewrite Ep; reflexivity|lia|].
      replace (k + 1 + 1 - 1) with (k + 1) by lia. apply IH; try assumption.
      * destruct Hk as [Hk|Hk]; [left; assumption|right; lia].
      * intros Hk0. destruct Hk as [Hk|Hk]; [split; nia|lia].
      * destruct acc; discriminate.
    + eapply loops_break; [rewrite E; unfold push_or_return; rewrite Ep; reflexivity|lia|].
      right. split; [reflexivity|]. apply room_false_pre, Hroom.
Qed.

(** What the table needs: scalar symbols, positive values, and below 17 no value
    under half of the one before it. *)
Fixpoint chained (symbols : list (N * N)) : bool :=
  match symbols with
  | [] => true
  | (s, v) :: rest =>
      is_scalar s && negb (v =? 0) &&
      (match rest with [] => true | (_, v') :: _ => (17 <=? v') || (v <=? 2 * v') end) && chained rest
  end.

Lemma htext_extends symbols : forall rem acc, acc <> [] -> exists more, htext symbols rem acc = acc ++ more.
Proof.
  induction symbols as [|[s v] symbols IH]; intros rem acc Hne; cbn [htext].
  - exists []. rewrite app_nil_r. reflexivity.
  - destruct (v <=? rem); [|apply IH, Hne]. destruct (rem =? 15); [eauto|]. destruct (rem =? 16); [eauto|].
    destruct acc as [|x acc]; [contradiction|]. rewrite andb_false_r.
    destruct (IH (rem mod v) ((x :: acc) ++ copies (rem / v) [s])) as (more & E); [discriminate|].
    rewrite E, <- app_assoc. eauto.
Qed.

Lemma htext_room c symbols rem acc : room c acc = false -> room c (htext symbols rem acc) = false.
Proof.
  intros H. destruct acc as [|x acc].
  - unfold room in H. destruct (has_alloc c); discriminate.
  - destruct (htext_extends symbols rem (x :: acc)) as (more & ->); [discriminate|]. apply room_false_pre, H.
Qed.

Lemma hebrew_for_text c T n : valid_config c -> forall symbols rem f acc,
  chained symbols = true -> fits c T rem -> rem <= n -> fits c T n ->
  (match symbols with (_, v) :: _ => 17 <= v \/ rem < 2 * v | [] => True end) ->
  text c f acc -> yields c (hebrew_for c T n symbols rem f) n (htext symbols rem acc).
Proof.
  intros Hc. induction symbols as [|[s v] symbols IH]; intros rem f acc Hch Hrem Hle Hn Hhead Ht.
  - cbn [hebrew_for htext]. eexists. split; [reflexivity|]. apply stored_text, Ht.
  - cbn [chained] in Hch. apply andb_prop in Hch as [Hch Hch']. apply andb_prop in Hch as [Hch Hnext].
    apply andb_prop in Hch as [Hs Hv]. assert (v <> 0) as Hv0 by (destruct (N.eqb_spec v 0); [discriminate|assumption]).
    assert (forall r, r < v -> match symbols with (_, v) :: _ => 17 <= v \/ r < 2 * v | [] => True end) as Hhead'.
    { intros r Hr. destruct symbols as [|[s' v'] symbols]; [exact I|]. apply orb_prop in Hnext as [Hx|Hx]; lia. }
    cbn [hebrew_for htext]. destruct (N.leb_spec v rem) as [Hvr|Hvr].
    2:{ assert (match try_from c T v with
                | None => hebrew_for c T n symbols rem f
                | Some value => exit <- run_loop c (hebrew_while_body c T n s value) (rem, f) ;;
                    match exit with
                    | NextSymbol remaining formatted => hebrew_for c T n symbols remaining formatted
                    | LeaveSymbolLoop formatted => Ret (Ok formatted)
                    | ReturnErr e => Ret (Err e)
                    end
                end = hebrew_for c T n symbols rem f) as ->.
        { destruct (try_from c T v) as [v'|] eqn:E; [|reflexivity]. apply try_from_some in E as [-> _].
          destruct (loops_run c (hebrew_while_body c T n s v) 1 (rem, f) (fun x => x = NextSymbol rem f)) as (x & E & ->); [assumption|lia| |].
          - eapply loops_break; [|lia|reflexivity]. unfold hebrew_while_body. destruct (N.leb_spec v rem); [lia|]. reflexivity.
          - rewrite E. reflexivity. }
        apply IH; try assumption. apply Hhead', Hvr. }
    rewrite (try_from_fits c T v (fits_le c T rem v Hrem Hvr)).
    destruct (N.eqb_spec rem 15) as [->|H15]; [|destruct (N.eqb_spec rem 16) as [->|H16]].
    + destruct (push_str_pushed c f acc (chars "ט״ו") Ht) as [(f' & Ep & Ht')|[Ep Hroom]].
      * apply scalars_check; reflexivity.
      * destruct (loops_run c (hebrew_while_body c T n s v) 1 (15, f) (fun x => x = LeaveSymbolLoop f')) as (x & E & ->); [assumption|lia| |].
        -- eapply loops_break; [|lia|reflexivity]. unfold hebrew_while_body. destruct (N.leb_spec v 15); [|lia].
           cbn [N.eqb Pos.eqb]. change (bytes "ט״ו") with (utf8 (chars "ט״ו")). rewrite Ep. reflexivity.
        -- rewrite E. eexists. split; [reflexivity|]. apply stored_text, Ht'.
      * destruct (loops_run c (hebrew_while_body c T n s v) 1 (15, f) (fun x => x = ReturnErr (OutOfMemory n))) as (x & E & ->); [assumption|lia| |].
        -- eapply loops_break; [|lia|reflexivity]. unfold hebrew_while_body. destruct (N.leb_spec v 15); [|lia].
           cbn [N.eqb Pos.eqb]. change (bytes "ט״ו") with (utf8 (chars "ט״ו")). rewrite Ep. reflexivity.
        -- rewrite E. eexists. split; [reflexivity|]. apply stored_oom, Hroom.
    + destruct (push_str_pushed c f acc (chars "ט״ז") Ht) as [(f' & Ep & Ht')|[Ep Hroom]].
      * apply scalars_check; reflexivity.
      * destruct (loops_run c (hebrew_while_body c T n s v) 1 (16, f) (fun x => x = LeaveSymbolLoop f')) as (x & E & ->); [assumption|lia| |].
        -- eapply loops_break; [|lia|reflexivity]. unfold hebrew_while_body. destruct (N.leb_spec v 16); [|lia].
           cbn [N.eqb Pos.eqb]. change (bytes "ט״ז") with (utf8 (chars "ט״ז")). rewrite Ep. reflexivity.
        -- rewrite E. eexists. split; [reflexivity|]. apply stored_text, Ht'.
      * destruct (loops_run c (hebrew_while_body c T n s v) 1 (16, f) (fun x => x = ReturnErr (OutOfMemory n))) as (x & E & ->); [assumption|lia| |].
        -- eapply loops_break; [|lia|reflexivity]. unfold hebrew_while_body. destruct (N.leb_spec v 16); [|lia].
           cbn [N.eqb Pos.eqb]. change (bytes "ט״ז") with (utf8 (chars "ט״ז")). rewrite Ep. reflexivity.
        -- rewrite E. eexists. split; [reflexivity|]. apply stored_oom, Hroom.
    + destruct ((v =? rem) && (match acc with [] => true | _ => false end)) eqn:Esingle.
      * apply andb_prop in Esingle as [Ev Eacc]. apply N.eqb_eq in Ev. subst rem. destruct acc; [|discriminate].
        assert (hebrew_while_body c T n s v (v, f) =
          push_or_return n (try_push c f geresh) (fun f1 => push_or_return n (try_push c f1 s) (fun f2 =>
            push_or_return n (try_push c f2 gershayim) (fun f3 => Ret (Break (NextSymbol 0 f3)))))) as Eb.
        { unfold hebrew_while_body. destruct (N.leb_spec v v); [|lia].
          destruct (N.eqb_spec v 15); [contradiction|]. destruct (N.eqb_spec v 16); [contradiction|].
          rewrite (text_empty c f [] Ht). cbn [obind]. rewrite N.eqb_refl. cbn [andb].
          rewrite usub_le by lia. cbn [obind]. rewrite N.sub_diag. reflexivity. }
        destruct (loops_run c (hebrew_while_body c T n s v) 1 (v, f)
          (fun x => (exists f', x = NextSymbol 0 f' /\ text c f' [geresh; s; gershayim]) \/
                    (x = ReturnErr (OutOfMemory n) /\ room c [geresh; s; gershayim] = false))) as (x & E & Hx); [assumption|lia| |].
        -- destruct (push_pushed c f [] geresh Ht eq_refl) as [(f1 & E1 & Ht1)|[E1 Hr1]].
           2:{ eapply loops_break; [rewrite Eb; unfold push_or_return; rewrite E1; reflexivity|lia|].
               right. split; [reflexivity|]. apply (room_false_pre c [geresh] [s; gershayim]), Hr1. }
           destruct (push_pushed c f1 _ s Ht1 Hs) as [(f2 & E2 & Ht2)|[E2 Hr2]].
           2:{ eapply loops_break; [rewrite Eb; unfold push_or_return; rewrite E1; cbn [obind]; rewrite E2; reflexivity|lia|].
               right. split; [reflexivity|]. apply (room_false_pre c [geresh; s] [gershayim]), Hr2. }
           destruct (push_pushed c f2 _ gershayim Ht2 eq_refl) as [(f3 & E3 & Ht3)|[E3 Hr3]].
           ++ eapply loops_break; [rewrite Eb; unfold push_or_return; rewrite E1; cbn [obind]; rewrite E2; cbn [obind]; rewrite E3; reflexivity|lia|].
              left. exists f3. auto.
           ++ eapply loops_break; [rewrite Eb; unfold push_or_return; rewrite E1; cbn [obind]; rewrite E2; cbn [obind]; rewrite E3; reflexivity|lia|].
              right. auto.
        -- rewrite E. cbn [obind]. destruct Hx as [(f' & -> & Ht')|[-> Hroom]].
           ++ apply IH; try assumption; [eapply fits_le; [eassumption|lia]|lia|apply Hhead'; lia].
           ++ eexists. split; [reflexivity|]. apply stored_oom, htext_room, Hroom.
      * assert (rem = rem / v * v + rem mod v) as Hdm by (rewrite N.mul_comm; apply N.div_mod; assumption).
        assert (rem mod v < v) as Hmod by (apply N.mod_lt; assumption).
        destruct (loops_run c (hebrew_while_body c T n s v) (rem / v + 1) (rem, f)
          (fun x => (exists f', x = NextSymbol (rem mod v) f' /\ text c f' (acc ++ copies (rem / v) [s])) \/
              (x = ReturnErr (OutOfMemory n) /\ room c (acc ++ copies (rem / v) [s]) = false))) as (x & E & Hx); [assumption| | |].
        -- pose proof (fits_128 c T rem Hc Hrem). assert (rem / v <= rem) by (apply N.div_le_upper_bound; nia). lia.
        -- rewrite Hdm at 2. apply hebrew_while; try assumption.
           ++ destruct Hhead as [?|Hh]; [left; assumption|right]. assert (rem / v < 2) by (apply N.div_lt_upper_bound; lia). lia.
           ++ intros _. rewrite <- Hdm. auto.
           ++ intros ->. rewrite <- Hdm. rewrite andb_true_r in Esingle. apply N.eqb_neq in Esingle. congruence.
        -- rewrite E. cbn [obind]. destruct Hx as [(f' & -> & Ht')|[-> Hroom]].
           ++ apply IH; try assumption; [eapply fits_le; [eassumption|lia]|lia|apply Hhead'; assumption].
           ++ eexists. split; [reflexivity|]. apply stored_oom, htext_room, Hroom.
Qed.

Lemma htext_prefix symbols : forall rem a acc, acc <> [] -> htext symbols rem (a ++ acc) = a ++ htext symbols rem acc.
Proof.
  induction symbols as [|[s v] symbols IH]; intros rem a acc Hne; cbn [htext]; [reflexivity|].
  destruct (v <=? rem); [|apply IH, Hne]. rewrite <- !app_assoc.
  destruct (rem =? 15); [reflexivity|]. destruct (rem =? 16); [reflexivity|].
  destruct acc as [|x acc]; [contradiction|].
  replace (match a ++ x :: acc with [] => true | _ => false end) with false by (destruct a; reflexivity).
  rewrite andb_false_r. apply IH. discriminate.
Qed.

(** What follows the tavs. *)
Definition hebrew_rest (r : N) : list N :=
  letter hebrew_hundreds (r / 100) ++
  let r := r mod 100 in
  if r =? 15 then [0x5D8; gershayim; 0x5D5]
  else if r =? 16 then [0x5D8; gershayim; 0x5D6]
  else letter hebrew_tens (r / 10) ++ letter hebrew_ones (r mod 10).

Lemma hebrew_letters_rest n : hebrew_letters n = copies (n / 400) [tav] ++ hebrew_rest (n mod 400).
Proof. reflexivity. Qed.

Fixpoint list_eqb (a b : list N) : bool :=
  match a, b with
  | [], [] => true
  | x :: a, y :: b => (x =? y) && list_eqb a b
  | _, _ => false
  end.

Lemma list_eqb_eq a : forall b, list_eqb a b = true -> a = b.
Proof.
  induction a as [|x a IH]; intros [|y b] H; try discriminate; [reflexivity|].
  cbn in H. apply andb_prop in H as [H1 H2]. apply N.eqb_eq in H1. f_equal; auto.
Qed.

Lemma below_400 (P : N -> bool) : forallb (fun i => P (N.of_nat i)) (seq 0 400) = true -> forall r, r < 400 -> P r = true.
Proof.
  intros H r Hr. rewrite forallb_forall in H. specialize (H (N.to_nat r)). rewrite N2Nat.id in H. apply H, in_seq. lia.
Qed.

Lemma hebrew_small_numeral r : r < 400 -> htext hebrew_symbols r [] = hebrew_numeral r.
Proof.
  intros Hr. apply list_eqb_eq.
  refine (below_400 (fun r => list_eqb (htext hebrew_symbols r []) (hebrew_numeral r)) _ r Hr).
  vm_compute. reflexivity.
Qed.

Lemma hebrew_small_rest r : r < 400 -> htext (tl hebrew_symbols) r [tav] = tav :: hebrew_rest r.
Proof.
  intros Hr. apply list_eqb_eq.
  refine (below_400 (fun r => list_eqb (htext (tl hebrew_symbols) r [tav]) (tav :: hebrew_rest r)) _ r Hr).
  vm_compute. reflexivity.
Qed.

Lemma hebrew_small_sum r : r < 400 -> hebrew_sum (hebrew_rest r) = r.
Proof.
  intros Hr. apply N.eqb_eq. refine (below_400 (fun r => hebrew_sum (hebrew_rest r) =? r) _ r Hr).
  vm_compute. reflexivity.
Qed.

Lemma copies_tav_snoc k : copies (k + 1) [tav] = copies k [tav] ++ [tav].
Proof.
  induction k as [|k IH] using N.peano_ind; [reflexivity|]. 
  rewrite <- N.add_1_r, (copies_succ (k + 1)), IH, app_assoc, <- copies_succ, IH. reflexivity.
Qed.

Lemma htext_cons s v rest rem acc : htext ((s, v) :: rest) rem acc =
  if v <=? rem then
    if rem =? 15 then acc ++ chars "ט״ו"
    else if rem =? 16 then acc ++ chars "ט״ז"
    else if (v =? rem) && (match acc with [] => true | _ => false end) then htext rest 0 [geresh; s; gershayim]
    else htext rest (rem mod v) (acc ++ copies (rem / v) [s])
  else htext rest rem acc.
Proof. reflexivity. Qed.

Lemma hebrew_symbols_tav : hebrew_symbols = (tav, 400) :: tl hebrew_symbols.
Proof. reflexivity. Qed.

Lemma htext_400 : htext hebrew_symbols 400 [] = hebrew_numeral 400.
Proof. vm_compute. reflexivity. Qed.

Lemma htext_numeral n : n <> 0 -> htext hebrew_symbols n [] = hebrew_numeral n.
Proof.
  intros Hn. destruct (N.ltb_spec n 400) as [Hlt|Hge]; [apply hebrew_small_numeral, Hlt|].
  assert (n mod 400 < 400) as Hmod by lia.
  pose proof (hebrew_small_rest _ Hmod) as Hrest.
  destruct (N.eq_dec n 400) as [->|Hne]; [exact htext_400|]. rewrite hebrew_symbols_tav, htext_cons.
  destruct (N.leb_spec 400 n); [|lia]. destruct (N.eqb_spec n 15); [lia|]. destruct (N.eqb_spec n 16); [lia|].
  destruct (N.eqb_spec 400 n); [congruence|]. cbn [andb app].
  assert (exists k, n / 400 = k + 1) as (k & Ek) by (exists (n / 400 - 1); lia).
  rewrite Ek, copies_tav_snoc, htext_prefix, Hrest by discriminate.
  unfold hebrew_numeral. rewrite hebrew_letters_rest, Ek, copies_tav_snoc, <- app_assoc. cbn [app].
  destruct (copies k [tav]) as [|x xs] eqn:Ec.
  - destruct (hebrew_rest (n mod 400)) as [|y ys] eqn:Er; [|reflexivity]. exfalso.
    assert (k = 0) as ->.
    { destruct (N.eq_dec k 0) as [->|Hk]; [reflexivity|]. exfalso. replace k with (k - 1 + 1) in Ec by lia.
      rewrite copies_tav_snoc in Ec. destruct (copies (k - 1) [tav]); discriminate. }
    pose proof (hebrew_small_sum _ Hmod) as Hsum. rewrite Er in Hsum. cbn in Hsum. lia.
  - cbn [app]. destruct (xs ++ tav :: hebrew_rest (n mod 400)) eqn:E; [destruct xs; discriminate|reflexivity].
Qed.

Lemma hebrew_yields c T n : valid_config c -> fits c T n -> n <> 0 -> yields c (Hebrew c T n) n (hebrew_numeral n).
Proof.
  intros Hc Hn Hn0. unfold Hebrew, is_zero. destruct (N.eqb_spec n 0); [contradiction|].
  rewrite <- htext_numeral by assumption. apply hebrew_for_text; try assumption.
  - vm_compute. reflexivity.
  - lia.
  - left. unfold hebrew_symbols. lia.
  - apply text_new.
Qed.

Lemma hebrew_sum_app a b : hebrew_sum (a ++ b) = hebrew_sum a + hebrew_sum b.
Proof. induction a as [|x a IH]; [reflexivity|]. cbn [app hebrew_sum fold_right]. fold (hebrew_sum (a ++ b)). fold (hebrew_sum a). lia. Qed.

Lemma hebrew_sum_copies k : hebrew_sum (copies k [tav]) = 400 * k.
Proof.
  induction k as [|k IH] using N.peano_ind; [reflexivity|]. rewrite <- N.add_1_r, copies_tav_snoc, hebrew_sum_app, IH.
  change (hebrew_sum [tav]) with 400. lia.
Qed.

Lemma hebrew_sum_letters n : hebrew_sum (hebrew_letters n) = n.
Proof.
  rewrite hebrew_letters_rest, hebrew_sum_app, hebrew_sum_copies.
  rewrite hebrew_small_sum; lia.
Qed.

Lemma hebrew_sum_numeral n : hebrew_sum (hebrew_numeral n) = n.
Proof.
  rewrite <- (hebrew_sum_letters n) at 2. unfold hebrew_numeral. destruct (hebrew_letters n) as [|x [|y l]]; try reflexivity.
Qed.

Lemma yields_ok c r n cs s : yields c r n cs -> r = Ret (Ok s) -> scalars cs /\ as_str s = Ret (utf8 cs).
Proof.
  intros (x & Ex & Hst) E. rewrite E in Ex. injection Ex as <-. unfold stored in Hst.
  destruct (room c cs); [|discriminate]. destruct Hst as (s0 & Es & Ht). injection Es as <-.
  split; [eapply text_scalars, Ht|eapply rep_str, Ht].
Qed.
