(** * ChineseNumeral: the signs written are the numeral of the specification *)

From Coq Require Import String.
From Verif Require Import Prelude Utf8Facts StringFacts Outcome DigitSets Chinese.
From Verif Require Export ChineseSigns.

(** ** The leading group *)

Definition short_lead (n : N) : Prop := exists k, 10 ^ (4 * k) <= n < 10 ^ (4 * k + 3).

Lemma short_lead_small n : 1 <= n < 10000 -> (short_lead n <-> n < 1000).
Proof.
  intros Hn. split.
  - intros [k [H1 H2]]. destruct (N.eq_dec k 0) as [->|Hk]; [exact H2|].
    assert (10 ^ 4 <= 10 ^ (4 * k)) by (apply N.pow_le_mono_r; lia). change (10 ^ 4) with 10000 in H. lia.
  - intros H. exists 0. change (10 ^ (4 * 0)) with 1. change (10 ^ (4 * 0 + 3)) with 1000. lia.
Qed.

Lemma pow10_pos k : 10 ^ k <> 0.
Proof. apply N.pow_nonzero. discriminate. Qed.

Lemma short_lead_div n j : n / 10 ^ (4 * j) <> 0 -> (short_lead n <-> short_lead (n / 10 ^ (4 * j))).
Proof.
  intros Hq. pose proof (pow10_pos (4 * j)) as Hp.
  assert (10 ^ (4 * j) <= n) as Hge.
  { destruct (N.le_gt_cases (10 ^ (4 * j)) n); [assumption|]. exfalso. apply Hq, N.div_small. assumption. }
  split; intros [k [H1 H2]].
  - assert (j <= k) as Hjk.
    { destruct (N.le_gt_cases j k); [assumption|]. exfalso.
      assert (10 ^ (4 * k + 3) <= 10 ^ (4 * j)) by (apply N.pow_le_mono_r; lia). lia. }
    exists (k - j). split.
    + apply N.div_le_lower_bound; [assumption|]. rewrite <- N.pow_add_r. replace (4 * j + 4 * (k - j)) with (4 * k) by lia. exact H1.
    + apply N.div_lt_upper_bound; [assumption|]. rewrite <- N.pow_add_r. replace (4 * j + (4 * (k - j) + 3)) with (4 * k + 3) by lia. exact H2.
  - exists (k + j). split.
    + replace (4 * (k + j)) with (4 * j + 4 * k) by lia. rewrite N.pow_add_r.
      transitivity (10 ^ (4 * j) * (n / 10 ^ (4 * j))); [apply N.mul_le_mono_l; exact H1|apply N.mul_div_le, Hp].
    + destruct (N.lt_ge_cases n (10 ^ (4 * (k + j) + 3))) as [|H]; [assumption|]. exfalso.
      apply (N.lt_irrefl (10 ^ (4 * k + 3))). eapply N.le_lt_trans; [|exact H2].
      apply N.div_le_lower_bound; [assumption|]. rewrite <- N.pow_add_r. replace (4 * j + (4 * k + 3)) with (4 * (k + j) + 3) by lia. exact H.
Qed.

(** ** The scaled formatter *)

Definition voiced (n : N) (np : bool) (zs : list sign) : Prop :=
  (zs = [] /\ (np = true \/ ~ short_lead n)) \/ (zs = [Digit 0] /\ np = false /\ short_lead n).

Lemma scaled_numeral sc scales formal n : good_scales wide U128 scales -> (length scales <= 11)%nat ->
  sc <> ShortScaling ->
  (forall r s, nth_error scales r = Some s -> large_value sc r = s) ->
  (forall r, (r < 10)%nat -> nth_error scales (S r) = None -> nth_error scales r <> None -> 2 ^ 128 <= large_value sc (S r)) ->
  (forall r, exists j, large_value sc r = 10 ^ (4 * j)) ->
  fits wide U128 n -> 1 <= n ->
  chinese_numeral sc (negb formal) n (scaled_t formal scales 10 n true).
Proof.
  intros Hg Hlen Hnot Hval Htop Hpow Hn Hn1.
  assert (forall v m, gap sc v m <-> short_lead m) as Hgap.
  { intros v m. destruct sc; [congruence|reflexivity..]. }
  destruct (scaled_induct wide U128 scales formal
    (fun k n np l => exists zs l0, l = zs ++ l0 /\ voiced n np zs /\ chinese_numeral sc (negb formal && np) n l0)
    Hg) with (rank := 10%nat) (n := n) (np := true) as (zs & l0 & E & Hz & Hl0); try assumption; [| | |lia|apply cap_10; assumption|].
  - intros m np Hm. exists (if negb np && negb false && (m <? 1000) then [Digit 0] else []), (css_longhand (negb formal && np) m).
    split; [rewrite inner_css by assumption; unfold inner_form; cbn [negb]; rewrite !andb_true_r; reflexivity|]. split.
    + pose proof (short_lead_small m Hm) as Hs. unfold voiced. rewrite Hs. destruct np; cbn [negb andb]; [auto|].
      destruct (N.ltb_spec m 1000); [right; auto|left; split; [reflexivity|right; lia]].
    + apply numeral_small. lia.
  - intros k m np l _ _ H. exact H.
  - intros r s m np a b Hr Hm Hs Hs0 Hq Htop' (zs & a0 & -> & Hz & Ha) Hb.
    pose proof (Hval r s Hs) as Hv. destruct (Hpow r) as [j Hj]. rewrite <- Hv in *.
    assert (large_value sc r <= m) as Hle.
    { destruct (N.le_gt_cases (large_value sc r) m); [assumption|]. exfalso. apply Hq, N.div_small. assumption. }
    assert (r = 10%nat \/ m < large_value sc (S r)) as Hhigh.
    { destruct (Nat.eq_dec r 10) as [|Hr10]; [left; assumption|right].
      destruct (nth_error scales (S r)) as [s'|] eqn:Es'; [rewrite (Hval _ _ Es'); auto|].
      eapply N.lt_le_trans; [exact Hm|]. apply Htop; [lia|assumption|congruence]. }
    assert (voiced m np zs) as Hz'.
    { unfold voiced in *. pose proof (short_lead_div m j) as Hd. rewrite <- Hj in Hd. specialize (Hd Hq).
      destruct Hz as [[-> [Hz|Hz]]|(-> & Hz & Hz')]; [left|left|right]; tauto. }
    destruct Hb as [[Hm0 ->]|[Hm0 (zb & b0 & -> & Hzb & Hb)]].
    + exists zs, (a0 ++ [Large r]). split; [rewrite <- app_assoc; reflexivity|]. split; [assumption|].
      apply numeral_exact; assumption.
    + rewrite andb_false_r in Hb. unfold voiced in Hzb.
      destruct Hzb as [[-> Hz2]|(-> & _ & Hz2)].
      * exists zs, (a0 ++ Large r :: b0). split; [rewrite <- app_assoc; reflexivity|]. split; [assumption|].
        destruct Hz2 as [Hz2|Hz2]; [discriminate|]. apply numeral_next; try assumption. rewrite Hgap. exact Hz2.
      * exists zs, (a0 ++ Large r :: Digit 0 :: b0). split; [rewrite <- app_assoc; reflexivity|]. split; [assumption|].
        apply numeral_gap; try assumption. rewrite Hgap. exact Hz2.
  - destruct Hz as [[-> _]|(_ & Hz & _)]; [|discriminate]. rewrite E, andb_true_r in *. exact Hl0.
Qed.

(** ** The short scale *)

Lemma short_digit q : 1 <= q < 10 -> forall informal, [Digit q] = css_longhand informal q.
Proof.
  intros Hq informal. assert (forallb (fun q => signs_eqb [Digit q] (css_longhand informal q)) [1;2;3;4;5;6;7;8;9] = true) as H
    by (destruct informal; reflexivity).
  rewrite forallb_forall in H. apply signs_eqb_eq, H.
  assert (q = 1 \/ q = 2 \/ q = 3 \/ q = 4 \/ q = 5 \/ q = 6 \/ q = 7 \/ q = 8 \/ q = 9) as Hd by lia.
  cbn. intuition.
Qed.

Lemma short_value_large rank : large_value ShortScaling rank = short_value rank.
Proof. reflexivity. Qed.

Lemma short_top rank n informal rest : (rank < 11)%nat -> short_value rank <= n < 10 * short_value rank ->
  (n mod short_value rank = 0 /\ rest = [] \/
   n mod short_value rank <> 0 /\ exists l0, chinese_numeral ShortScaling false (n mod short_value rank) l0 /\
     rest = (if 10 * (n mod short_value rank) <? short_value rank then [Digit 0] else []) ++ l0) ->
  chinese_numeral ShortScaling informal n ([Digit (n / short_value rank); Large rank] ++ rest).
Proof.
  intros Hr Hn Hrest. pose proof (short_value_pos rank) as Hs0.
  assert (1 <= n / short_value rank < 10) as Hq.
  { split; [apply N.div_le_lower_bound; lia|apply N.div_lt_upper_bound; lia]. }
  change ([Digit (n / short_value rank); Large rank] ++ rest) with ([Digit (n / short_value rank)] ++ Large rank :: rest).
  assert (chinese_numeral ShortScaling informal (n / large_value ShortScaling rank) [Digit (n / short_value rank)]) as Ha.
  { rewrite short_value_large, (short_digit _ Hq informal) at 1. apply numeral_small. lia. }
  assert (rank = 10%nat \/ n < large_value ShortScaling (S rank)) as Ht.
  { right. rewrite short_value_large, short_value_succ. lia. }
  destruct Hrest as [[Hm ->]|(Hm & l0 & Hl & ->)].
  - apply numeral_exact; try assumption. rewrite short_value_large. lia.
  - destruct (N.ltb_spec (10 * (n mod short_value rank)) (short_value rank)) as [Hlt|Hge].
    + apply numeral_gap; try assumption. rewrite short_value_large. lia.
    + apply numeral_next; try assumption; [rewrite short_value_large; lia|]. unfold gap. rewrite short_value_large. lia.
Qed.

Lemma css_false_inner formal n last : 1 <= n < 10000 ->
  inner_t formal false n last = (if negb last && (n <? 1000) then [Digit 0] else []) ++ css_longhand false n.
Proof. intros Hn. rewrite inner_css by assumption. unfold inner_form. rewrite andb_false_r. reflexivity. Qed.

Lemma short_rest formal : forall rank n last, (rank < 11)%nat -> 1 <= n < 10 * short_value rank ->
  exists l0, chinese_numeral ShortScaling false n l0 /\
    short_t formal rank n false last = (if negb last && (n <? short_value rank) then [Digit 0] else []) ++ l0.
Proof.
  induction rank as [|rank IH]; intros n last Hr Hn; rewrite short_t_step; destruct (N.eqb_spec n 0); try lia; cbn zeta.
  - pose proof (short_value_pos 0) as Hs0. destruct (N.ltb_spec n (short_value 0)) as [Hlt|Hge].
    + rewrite N.div_small, N.mod_small by assumption. unfold piece_t, last_t. cbn [N.eqb negb andb].
      exists (css_longhand false n). change (short_value 0) with 10000 in *. split; [apply numeral_small; lia|].
      rewrite andb_true_r. f_equal. unfold tail_t. destruct (N.eqb_spec n 0); [lia|].
      destruct last; cbn [negb orb]; rewrite css_false_inner by lia; reflexivity.
    + assert (n / short_value 0 <> 0) as Hq.
      { intros E. apply N.div_small_iff in E; lia. }
      rewrite andb_false_r. cbn [app].
      unfold piece_t, last_t. destruct (N.eqb_spec (n / short_value 0) 0) as [|_]; [contradiction|].
      eexists. split; [|reflexivity]. apply short_top; try assumption; [lia|].
      unfold tail_t. assert (n mod short_value 0 < short_value 0) as Hm by (apply N.mod_lt; assumption).
      destruct (N.eqb_spec (n mod short_value 0) 0) as [E|E]; [left; auto|right]. split; [assumption|].
      change (short_value 0) with 10000 in *. exists (css_longhand false (n mod 10000)). split; [apply numeral_small; lia|].
      rewrite css_false_inner by lia. cbn [negb andb].
      destruct (N.ltb_spec (n mod 10000) 1000), (N.ltb_spec (10 * (n mod 10000)) 10000); try lia; reflexivity.
  - pose proof (short_value_pos (S rank)) as Hs0. destruct (N.ltb_spec n (short_value (S rank))) as [Hlt|Hge].
    + rewrite N.div_small, N.mod_small by assumption. unfold piece_t, last_t. cbn [N.eqb negb andb].
      destruct (IH n true) as (l0 & H1 & H2); [lia|rewrite <- short_value_succ; lia|].
      exists l0. split; [assumption|]. rewrite andb_true_r. f_equal. destruct last; cbn [negb orb]; exact H2.
    + assert (n / short_value (S rank) <> 0) as Hq.
      { intros E. apply N.div_small_iff in E; lia. }
      rewrite andb_false_r. cbn [app].
      unfold piece_t, last_t. destruct (N.eqb_spec (n / short_value (S rank)) 0) as [|_]; [contradiction|].
      eexists. split; [|reflexivity]. apply short_top; try assumption; [lia|].
      assert (n mod short_value (S rank) < short_value (S rank)) as Hm by (apply N.mod_lt; assumption).
      destruct (N.eqb_spec (n mod short_value (S rank)) 0) as [E|E].
      * left. rewrite E, short_t_step. auto.
      * right. split; [assumption|]. destruct (IH (n mod short_value (S rank)) false) as (l0 & H1 & H2);
          [lia|rewrite <- short_value_succ; lia|].
        exists l0. split; [assumption|]. cbn [andb negb] in H2 |- *. rewrite H2. f_equal.
        rewrite short_value_succ. destruct (N.ltb_spec (n mod (10 * short_value rank)) (short_value rank)),
          (N.ltb_spec (10 * (n mod (10 * short_value rank))) (10 * short_value rank)); try lia; reflexivity.
Qed.

Lemma short_first formal informal : forall rank n, (rank < 11)%nat -> 10000 <= n < 10 * short_value rank ->
  chinese_numeral ShortScaling informal n (short_t formal rank n true false).
Proof.
  induction rank as [|rank IH]; intros n Hr Hn; rewrite short_t_step; destruct (N.eqb_spec n 0); try lia; cbn zeta.
  - assert (n / short_value 0 <> 0) as Hq.
    { change (short_value 0) with 10000. intros E. apply N.div_small_iff in E; lia. }
    pose proof (short_value_pos 0) as Hs0.
    unfold piece_t, last_t. destruct (N.eqb_spec (n / short_value 0) 0) as [|_]; [contradiction|].
    apply short_top; try lia; [change (short_value 0) with 10000; change (short_value 0) with 10000 in Hn; lia|].
    unfold tail_t. assert (n mod short_value 0 < short_value 0) as Hm by (apply N.mod_lt; assumption).
    destruct (N.eqb_spec (n mod short_value 0) 0) as [E|E]; [left; auto|right]. split; [assumption|].
    change (short_value 0) with 10000 in *. exists (css_longhand false (n mod 10000)). split; [apply numeral_small; lia|].
    rewrite css_false_inner by lia. cbn [negb andb].
    destruct (N.ltb_spec (n mod 10000) 1000), (N.ltb_spec (10 * (n mod 10000)) 10000); try lia; reflexivity.
  - pose proof (short_value_pos (S rank)) as Hs0. destruct (N.ltb_spec n (short_value (S rank))) as [Hlt|Hge].
    + rewrite N.div_small, N.mod_small by assumption. unfold piece_t, last_t. cbn [N.eqb negb andb orb app].
      apply IH; [lia|rewrite <- short_value_succ; lia].
    + assert (n / short_value (S rank) <> 0) as Hq.
      { intros E. apply N.div_small_iff in E; lia. }
      unfold piece_t, last_t. destruct (N.eqb_spec (n / short_value (S rank)) 0) as [|_]; [contradiction|].
      apply short_top; try lia.
      assert (n mod short_value (S rank) < short_value (S rank)) as Hm by (apply N.mod_lt; assumption).
      destruct (N.eqb_spec (n mod short_value (S rank)) 0) as [E|E].
      * left. rewrite E, short_t_step. auto.
      * right. split; [assumption|]. destruct (short_rest formal rank (n mod short_value (S rank)) false) as (l0 & H1 & H2);
          [lia|rewrite <- short_value_succ; lia|].
        exists l0. split; [assumption|]. cbn [andb negb] in H2 |- *. rewrite H2. f_equal.
        rewrite short_value_succ. destruct (N.ltb_spec (n mod (10 * short_value rank)) (short_value rank)),
          (N.ltb_spec (10 * (n mod (10 * short_value rank))) (10 * short_value rank)); try lia; reflexivity.
Qed.

(** ** All scales *)

Lemma chinese_t_numeral formal sc n : fits wide U128 n -> (sc = Short -> n < 10 ^ 15) ->
  chinese_numeral (scaling_of sc) (negb formal) n (chinese_t formal sc n).
Proof.
  intros Hn Hsc. unfold chinese_t. destruct (N.eqb_spec n 0) as [->|Hn0].
  { change [Digit 0] with (css_longhand (negb formal) 0). apply numeral_small. lia. }
  destruct (N.ltb_spec n 10000) as [Hlt|Hge].
  - rewrite inner_css by lia. unfold inner_form. cbn [negb andb app]. rewrite !andb_true_r. apply numeral_small. assumption.
  - destruct sc; cbn [scaling_of].
    + apply short_first; [lia|]. split; [assumption|]. exact (Hsc eq_refl).
    + apply scaled_numeral; try assumption; [apply myriad_good, wide_valid|cbn; lia|discriminate| | | |lia].
      * intros r s Hr. do 9 (destruct r as [|r]; [injection Hr as <-; reflexivity|]). destruct r; discriminate.
      * intros r Hr H1 H2. do 10 (destruct r as [|r]; [try discriminate H1; try (exfalso; apply H2; reflexivity); vm_compute; discriminate|]). lia.
      * intros r. exists (N.of_nat r + 1). reflexivity.
    + apply scaled_numeral; try assumption; [apply mid_good, wide_valid|cbn; lia|discriminate| | | |lia].
      * intros r s Hr. do 5 (destruct r as [|r]; [injection Hr as <-; reflexivity|]). destruct r; discriminate.
      * intros r Hr H1 H2. do 10 (destruct r as [|r]; [try discriminate H1; try (exfalso; apply H2; reflexivity); vm_compute; discriminate|]). lia.
      * intros [|r]; [exists 1; reflexivity|]. exists (2 * N.of_nat (S r)). unfold large_value. rewrite N.mul_assoc. reflexivity.
    + apply scaled_numeral; try assumption; [apply long_good, wide_valid|cbn; lia|discriminate| | | |lia].
      * intros r s Hr. do 4 (destruct r as [|r]; [injection Hr as <-; reflexivity|]). destruct r; discriminate.
      * intros r Hr H1 H2. do 10 (destruct r as [|r]; [try discriminate H1; try (exfalso; apply H2; reflexivity); vm_compute; discriminate|]). lia.
      * intros r. exists (2 ^ N.of_nat r). reflexivity.
Qed.

(** ** Consequences of being a numeral *)

Lemma large_value_mono sc r r' : (r <= r')%nat -> large_value sc r <= large_value sc r'.
Proof.
  intros H. destruct sc; cbn [large_value].
  - apply N.pow_le_mono_r; lia.
  - apply N.pow_le_mono_r; lia.
  - destruct r as [|r], r' as [|r']; try lia; apply N.pow_le_mono_r; lia.
  - apply N.pow_le_mono_r; [lia|]. apply N.mul_le_mono_l, N.pow_le_mono_r; lia.
Qed.

Lemma large_value_0 sc : large_value sc 0 = 10000.
Proof. destruct sc; reflexivity. Qed.

Lemma large_value_ge sc r : 10000 <= large_value sc r.
Proof. rewrite <- (large_value_0 sc). apply large_value_mono. lia. Qed.

Lemma top_unique sc n r r' : (r < 11)%nat -> (r' < 11)%nat ->
  large_value sc r <= n -> (r = 10%nat \/ n < large_value sc (S r)) ->
  large_value sc r' <= n -> (r' = 10%nat \/ n < large_value sc (S r')) -> r = r'.
Proof.
  intros Hr Hr' H1 H2 H1' H2'. destruct (Nat.lt_trichotomy r r') as [H|[H|H]]; [|assumption|].
  - destruct H2 as [->|H2]; [lia|]. pose proof (large_value_mono sc (S r) r' ltac:(lia)). lia.
  - destruct H2' as [->|H2']; [lia|]. pose proof (large_value_mono sc (S r') r ltac:(lia)). lia.
Qed.

Lemma numeral_unique sc informal n l : chinese_numeral sc informal n l -> forall l', chinese_numeral sc informal n l' -> l = l'.
Proof.
  induction 1 as [i n Hn|i n r a Hr Hle Ht Ha IHa Hm|i n r a b Hr Hle Ht Ha IHa Hm Hg Hb IHb|i n r a b Hr Hle Ht Ha IHa Hm Hg Hb IHb];
    intros l' H'; inversion H' as [i' n' Hn'|i' n' r' a' Hr' Hle' Ht' Ha' Hm'|i' n' r' a' b' Hr' Hle' Ht' Ha' Hm' Hg' Hb'|i' n' r' a' b' Hr' Hle' Ht' Ha' Hm' Hg' Hb']; subst;
    try reflexivity;
    try (exfalso; pose proof (large_value_ge sc r); lia);
    try (exfalso; pose proof (large_value_ge sc r'); lia);
    assert (r = r') as <- by (eapply top_unique; eassumption); try contradiction.
  - rewrite (IHa _ Ha'). reflexivity.
  - rewrite (IHa _ Ha'), (IHb _ Hb'). reflexivity.
  - rewrite (IHa _ Ha'), (IHb _ Hb'). reflexivity.
Qed.

Lemma quotient_pos n v : v <> 0 -> v <= n -> 1 <= n / v.
Proof. intros H1 H2. apply N.div_le_lower_bound; lia. Qed.

(** *** Zeros and characters *)

Definition neat (n : N) (l : list sign) : Prop :=
  l <> [] /\ forallb ok_sign l = true /\
  (1 <= n -> zz l = false /\ zlast l = false /\ zfirst l = false).

Lemma numeral_neat sc informal n l : chinese_numeral sc informal n l -> neat n l.
Proof.
  assert (forall (a b : list sign), a <> [] -> zfirst (a ++ b) = zfirst a) as Hfirst by (intros [|x a] b H; [congruence|reflexivity]).
  induction 1 as [i n Hn|i n r a Hr Hle Ht Ha IHa Hm|i n r a b Hr Hle Ht Ha IHa Hm Hg Hb IHb|i n r a b Hr Hle Ht Ha IHa Hm Hg Hb IHb].
  - destruct (N.eq_dec n 0) as [->|Hn0].
    { split; [discriminate|]. split; [reflexivity|]. lia. }
    destruct (css_shape i n) as (H1 & H2 & H3 & H4 & H5 & _); [lia|]. split; [assumption|]. auto.
  - pose proof (large_value_ge sc r). destruct IHa as (Ha1 & Ha2 & Ha3). destruct Ha3 as (Ha3 & Ha4 & Ha5); [apply quotient_pos; lia|].
    split; [destruct a; discriminate|]. split; [rewrite forallb_app, Ha2; cbn [forallb ok_sign]; destruct (Nat.ltb_spec r 11); [reflexivity|lia]|].
    intros _. rewrite zz_app, zlast_app, Hfirst, Ha3, Ha4, Ha5 by assumption. auto.
  - pose proof (large_value_ge sc r). destruct IHa as (Ha1 & Ha2 & Ha3). destruct Ha3 as (Ha3 & Ha4 & Ha5); [apply quotient_pos; lia|].
    destruct IHb as (Hb1 & Hb2 & Hb3). destruct Hb3 as (Hb3 & Hb4 & Hb5); [apply pos_1; assumption|].
    split; [destruct a; discriminate|].
    split; [rewrite forallb_app, Ha2; cbn [forallb ok_sign]; rewrite Hb2; destruct (Nat.ltb_spec r 11); [reflexivity|lia]|].
    intros _. rewrite zz_app, zlast_app, Hfirst, Ha3, Ha4, Ha5 by assumption.
    cbn [zz zfirst is_zero_digit andb orb]. rewrite Hb3, Hb5. destruct b as [|y b]; [congruence|]. auto.
  - pose proof (large_value_ge sc r). destruct IHa as (Ha1 & Ha2 & Ha3). destruct Ha3 as (Ha3 & Ha4 & Ha5); [apply quotient_pos; lia|].
    destruct IHb as (Hb1 & Hb2 & Hb3). destruct Hb3 as (Hb3 & Hb4 & Hb5); [apply pos_1; assumption|].
    split; [destruct a; discriminate|].
    split; [rewrite forallb_app, Ha2; cbn [forallb ok_sign]; rewrite Hb2; destruct (Nat.ltb_spec r 11); [reflexivity|lia]|].
    intros _. rewrite zz_app, zlast_app, Hfirst, Ha3, Ha4, Ha5 by assumption.
    cbn [zz zfirst is_zero_digit andb orb]. rewrite Hb3. destruct b as [|y b]; [congruence|]. auto.
Qed.

(** *** Formality *)

Lemma add_one_app a b : a <> [] -> add_one (a ++ b) = add_one a ++ b.
Proof. destruct a as [|[d|[|[p|p|]]|r] a]; intros H; try congruence; reflexivity. Qed.

Lemma numeral_formality sc n l : chinese_numeral sc true n l -> chinese_numeral sc false n (add_one l).
Proof.
  intros H. remember true as i eqn:Ei.
  induction H as [i n Hn|i n r a Hr Hle Ht Ha IHa Hm|i n r a b Hr Hle Ht Ha IHa Hm Hg Hb IHb|i n r a b Hr Hle Ht Ha IHa Hm Hg Hb IHb]; subst i.
  - destruct (N.eq_dec n 0) as [->|Hn0].
    { apply (numeral_small sc false 0). reflexivity. }
    destruct (css_formality n) as [<- _]; [lia|]. apply numeral_small. assumption.
  - destruct (numeral_neat _ _ _ _ Ha) as [Hne _]. rewrite add_one_app by assumption. apply numeral_exact; auto.
  - destruct (numeral_neat _ _ _ _ Ha) as [Hne _]. rewrite add_one_app by assumption. apply numeral_gap; auto.
  - destruct (numeral_neat _ _ _ _ Ha) as [Hne _]. rewrite add_one_app by assumption. apply numeral_next; auto.
Qed.

Lemma chinese_t_formality sc n : fits wide U128 n -> (sc = Short -> n < 10 ^ 15) ->
  chinese_t true sc n = add_one (chinese_t false sc n).
Proof.
  intros Hn Hsc. eapply numeral_unique; [apply chinese_t_numeral; assumption|].
  apply numeral_formality. apply (chinese_t_numeral false); assumption.
Qed.

(** ** Characters and signs *)

Definition all_signs : list sign :=
  map Digit [0;1;2;3;4;5;6;7;8;9] ++ map Marker [1;2;3] ++ map Large (seq 0 11).

Lemma ok_in s : ok_sign s = true -> In s all_signs.
Proof.
  destruct s as [d|p|r]; cbn [ok_sign]; intros H.
  - apply N.ltb_lt in H. assert (d = 0 \/ d = 1 \/ d = 2 \/ d = 3 \/ d = 4 \/ d = 5 \/ d = 6 \/ d = 7 \/ d = 8 \/ d = 9) as Hd by lia.
    unfold all_signs. apply in_or_app. left. apply in_map. cbn. intuition.
  - apply andb_prop in H as [H1 H2]. apply N.leb_le in H1, H2. assert (p = 1 \/ p = 2 \/ p = 3) as Hd by lia.
    unfold all_signs. apply in_or_app. right. apply in_or_app. left. apply in_map. cbn. intuition.
  - apply Nat.ltb_lt in H. unfold all_signs. apply in_or_app. right. apply in_or_app. right. apply in_map, in_seq. lia.
Qed.

Definition alphabet_check (abc : list N) : bool :=
  forallb (fun s => match sign_of abc (glyph abc s) with Some s' => sign_eqb s s' | None => false end &&
    match position (glyph abc s) abc with Some i => Nat.eqb i (sign_index s) | None => false end) all_signs.

Definition good_alphabet (abc : list N) : Prop :=
  forall s, ok_sign s = true -> sign_of abc (glyph abc s) = Some s /\ position (glyph abc s) abc = Some (sign_index s).

Lemma alphabet_good traditional financial : good_alphabet (alphabet traditional financial).
Proof.
  assert (alphabet_check (alphabet traditional financial) = true) as H by (destruct traditional, financial; vm_compute; reflexivity).
  intros s Hs. unfold alphabet_check in H. rewrite forallb_forall in H. specialize (H s (ok_in s Hs)).
  apply andb_prop in H as [H1 H2]. split.
  - destruct (sign_of _ _) as [s'|]; [|discriminate]. apply sign_eqb_eq in H1. congruence.
  - destruct (position _ _) as [i|]; [|discriminate]. apply Nat.eqb_eq in H2. congruence.
Qed.

Section Alphabet.
Variable abc : list N.
Hypothesis Habc : good_alphabet abc.

Lemma glyph_inj s s' : ok_sign s = true -> ok_sign s' = true -> glyph abc s = glyph abc s' -> s = s'.
Proof. intros H H' E. destruct (Habc s H) as [H1 _], (Habc s' H') as [H2 _]. congruence. Qed.

Lemma signs_of_write l : forallb ok_sign l = true -> signs_of abc (write abc l) = Some l.
Proof.
  induction l as [|s l IH]; intros H; [reflexivity|]. cbn in H. apply andb_prop in H as [H1 H2].
  cbn [write map signs_of]. destruct (Habc s H1) as [-> _]. fold (write abc l). rewrite IH by assumption. reflexivity.
Qed.

Lemma glyph_zero s : ok_sign s = true -> glyph abc s = glyph abc (Digit 0) -> is_zero_digit s = true.
Proof. intros H E. apply glyph_inj in E; [subst; reflexivity|assumption|reflexivity]. Qed.

Lemma write_sparing l : forallb ok_sign l = true -> zz l = false -> zlast l = false -> zfirst l = false ->
  sparing (glyph abc (Digit 0)) (write abc l).
Proof.
  intros Hok Hz Hl Hf. assert (forall s, In s l -> ok_sign s = true) as Hin by (apply forallb_forall; exact Hok).
  repeat split.
  - intros rest E. destruct l as [|s l]; [discriminate|]. cbn in E. injection E as E _.
    apply glyph_zero in E; [cbn in Hf; congruence|apply Hin; left; reflexivity].
  - intros front E. unfold write in E. apply map_eq_app in E as (l1 & l2 & -> & _ & E2).
    destruct l2 as [|s [|? ?]]; try discriminate. injection E2 as E2. rewrite zlast_app in Hl. cbn in Hl.
    apply glyph_zero in E2; [congruence|apply Hin, in_or_app; right; left; reflexivity].
  - intros a b E. unfold write in E. apply map_eq_app in E as (l1 & l2 & -> & _ & E2).
    destruct l2 as [|s [|s' l2]]; try discriminate. injection E2 as E2 E3 _. rewrite zz_app in Hz.
    apply orb_false_iff in Hz as [Hz _]. apply orb_false_iff in Hz as [_ Hz]. cbn [zz zfirst] in Hz.
    apply orb_false_iff in Hz as [Hz _].
    apply glyph_zero in E2; [|apply Hin, in_or_app; right; left; reflexivity].
    apply glyph_zero in E3; [|apply Hin, in_or_app; right; right; left; reflexivity].
    rewrite E2, E3 in Hz. discriminate.
Qed.

Lemma write_substitute abc' l : forallb ok_sign l = true -> write abc' l = map (substitute abc abc') (write abc l).
Proof.
  intros H. unfold write. rewrite map_map. apply map_ext_in. intros s Hs. rewrite forallb_forall in H. specialize (H s Hs).
  unfold substitute. destruct (Habc s H) as [_ ->]. reflexivity.
Qed.

End Alphabet.
