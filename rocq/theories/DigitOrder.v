(** * DigitOrder: numerals are unique and in counting order *)

From Verif Require Import Prelude Utf8Facts History Outcome DigitFacts.

(** ** Values from the front *)

Lemma fold_value_shift b ds : forall acc,
  fold_left (fun acc d => acc * b + d) ds acc = acc * b ^ N.of_nat (length ds) + positional_value b ds.
Proof.
  unfold positional_value. induction ds as [|d ds IH]; intros acc.
  - cbn. lia.
  - cbn [fold_left length]. rewrite IH, (IH (0 * b + d)), Nat2N.inj_succ, N.pow_succ_r'. lia.
Qed.

Lemma positional_value_cons b x ds :
  positional_value b (x :: ds) = x * b ^ N.of_nat (length ds) + positional_value b ds.
Proof. unfold positional_value at 1. cbn [fold_left]. rewrite fold_value_shift. lia. Qed.

(** The value of [k] digits that are all the first one. *)
Definition least (b : N) (k : nat) : N := bijective_value b (repeat 0 k).

Lemma least_succ b k : least b (S k) = least b k * b + 1.
Proof.
  unfold least. replace (repeat 0 (S k)) with (repeat 0 k ++ [0]).
  - rewrite bijective_value_app. lia.
  - symmetry. apply (repeat_cons k).
Qed.

Lemma bijective_positional b ds : bijective_value b ds = positional_value b ds + least b (length ds).
Proof.
  induction ds as [|d ds IH] using rev_ind; [reflexivity|].
  rewrite bijective_value_app, positional_value_app, IH, app_length, Nat.add_comm. cbn [length Nat.add].
  rewrite least_succ. lia.
Qed.

Lemma positional_bound b ds : below b ds -> positional_value b ds < b ^ N.of_nat (length ds).
Proof.
  induction ds as [|d ds IH]; intros H.
  - cbn. lia.
  - apply Forall_cons_iff in H as [Hd H]. specialize (IH H). rewrite positional_value_cons.
    cbn [length]. rewrite Nat2N.inj_succ, N.pow_succ_r'. nia.
Qed.

Lemma least_step b k : least b (S k) = b ^ N.of_nat k + least b k.
Proof.
  induction k as [|k IH]; [reflexivity|].
  rewrite least_succ. pose proof (least_succ b k). rewrite Nat2N.inj_succ, N.pow_succ_r'. nia.
Qed.

Lemma least_mono b j k : (j <= k)%nat -> least b j <= least b k.
Proof. induction 1 as [|k H IH]; [lia|]. rewrite least_step. lia. Qed.

(** ** Shortlex order *)

Lemma same_length_trichotomy : forall a b : list N, length a = length b ->
  a = b \/ (exists p x y s t, a = p ++ x :: s /\ b = p ++ y :: t /\ x <> y).
Proof.
  induction a as [|x a IH]; intros [|y b] H; try discriminate; [left; reflexivity|].
  destruct (N.eq_dec x y) as [->|Hxy].
  - destruct (IH b) as [->|(p & u & v & s & t & -> & -> & Huv)]; [cbn in H; lia|left; reflexivity|].
    right. exists (y :: p), u, v, s, t. auto.
  - right. exists [], x, y, a, b. auto.
Qed.

Lemma shortlex_total a b : a = b \/ shortlex a b \/ shortlex b a.
Proof.
  destruct (Nat.lt_trichotomy (length a) (length b)) as [H|[H|H]].
  - right; left; left; assumption.
  - destruct (same_length_trichotomy a b H) as [->|(p & x & y & s & t & Ha & Hb & Hxy)]; [left; reflexivity|].
    right. destruct (N.lt_trichotomy x y) as [Hlt|[Heq|Hgt]]; [|congruence|].
    + left; right. split; [assumption|]. exists p, x, y, s, t. auto.
    + right; right. split; [auto|]. exists p, y, x, t, s. auto.
  - right; right; left; assumption.
Qed.

Lemma shortlex_irrefl a : ~ shortlex a a.
Proof.
  intros [H|[_ (p & x & y & s & t & Ha & Hb & Hxy)]]; [lia|].
  rewrite Ha in Hb. apply app_inv_head in Hb. injection Hb as -> _. lia.
Qed.

Lemma positional_app b a ds :
  positional_value b (a ++ ds) = positional_value b a * b ^ N.of_nat (length ds) + positional_value b ds.
Proof. unfold positional_value at 1. rewrite fold_left_app. apply fold_value_shift. Qed.

Lemma same_length_lt b p x y s t :
  below b (p ++ x :: s) -> below b (p ++ y :: t) -> length s = length t -> x < y ->
  positional_value b (p ++ x :: s) < positional_value b (p ++ y :: t).
Proof.
  intros Ha Hb Hl Hxy. apply below_app in Ha as [_ Ha]. apply below_app in Hb as [_ Hb].
  apply Forall_cons_iff in Ha as [_ Ha]. 
  rewrite !positional_app, !positional_value_cons. cbn [length]. rewrite Hl.
  pose proof (positional_bound b s Ha) as H. rewrite Hl in H. nia.
Qed.

Lemma shortlex_positional b ds es : 1 <= b -> below b ds -> below b es -> trimmed es -> shortlex ds es ->
  positional_value b ds < positional_value b es.
Proof.
  intros Hb Hd He Ht [Hlen|[Hlen (p & x & y & s & t & -> & -> & Hxy)]].
  - destruct es as [|e es]; [cbn in Hlen; lia|]. cbn in Ht, Hlen.
    pose proof (positional_bound b ds Hd) as H. rewrite positional_value_cons.
    assert (b ^ N.of_nat (length ds) <= b ^ N.of_nat (length es)) as Hpow.
    { apply N.pow_le_mono_r; lia. }
    nia.
  - apply same_length_lt; try assumption. rewrite !app_length in Hlen. cbn in Hlen. lia.
Qed.

Lemma shortlex_bijective b ds es : below b ds -> below b es -> shortlex ds es ->
  bijective_value b ds < bijective_value b es.
Proof.
  intros Hd He [Hlen|[Hlen (p & x & y & s & t & -> & -> & Hxy)]]; rewrite !bijective_positional.
  - pose proof (positional_bound b ds Hd) as H.
    pose proof (least_mono b (S (length ds)) (length es) ltac:(lia)) as Hm. rewrite least_step in Hm. lia.
  - rewrite Hlen. apply N.add_lt_mono_r. apply same_length_lt; try assumption.
    rewrite !app_length in Hlen. cbn in Hlen. lia.
Qed.

(** Lists that may print: trimmed, or a single digit. *)
Lemma canonical_shortlex b ds es : 1 <= b -> below b ds -> below b es -> canonical ds -> canonical es ->
  shortlex ds es -> positional_value b ds < positional_value b es.
Proof.
  intros Hb Hd He Hcd Hce Hs. destruct es as [|e [|e' es]]; [destruct Hce| |].
  - destruct ds as [|d [|d' ds]]; [destruct Hcd| |].
    + destruct Hs as [Hs|[_ (p & x & y & s & t & E1 & E2 & Hxy)]]; [cbn in Hs; lia|].
      destruct p as [|? p]; [|destruct p; discriminate]. injection E1 as -> _. injection E2 as -> _.
      cbn. lia.
    + destruct Hs as [Hs|[Hs _]]; cbn in Hs; lia.
  - apply shortlex_positional; assumption.
Qed.

Lemma positional_unique b ds es : 1 <= b -> below b ds -> below b es -> canonical ds -> canonical es ->
  positional_value b ds = positional_value b es -> ds = es.
Proof.
  intros Hb Hd He Hcd Hce H. destruct (shortlex_total ds es) as [E|[Hs|Hs]]; [assumption| |];
    apply (canonical_shortlex b) in Hs; auto; lia.
Qed.

Lemma bijective_unique b ds es : below b ds -> below b es ->
  bijective_value b ds = bijective_value b es -> ds = es.
Proof.
  intros Hd He H. destruct (shortlex_total ds es) as [E|[Hs|Hs]]; [assumption| |];
    apply (shortlex_bijective b) in Hs; auto; lia.
Qed.

Lemma positional_order b ds es : 1 <= b -> below b ds -> below b es -> canonical ds -> canonical es ->
  positional_value b ds < positional_value b es <-> shortlex ds es.
Proof.
  intros Hb Hd He Hcd Hce. split; [|apply canonical_shortlex; assumption].
  intros H. destruct (shortlex_total ds es) as [->|[Hs|Hs]]; [lia|assumption|].
  apply (canonical_shortlex b) in Hs; auto; lia.
Qed.

Lemma bijective_order b ds es : below b ds -> below b es ->
  bijective_value b ds < bijective_value b es <-> shortlex ds es.
Proof.
  intros Hd He. split; [|apply shortlex_bijective; assumption].
  intros H. destruct (shortlex_total ds es) as [->|[Hs|Hs]]; [lia|assumption|].
  apply (shortlex_bijective b) in Hs; auto; lia.
Qed.

(** ** Numerals *)

Lemma numeral_nonempty_length (digits ds : list N) : below (N.of_nat (length digits)) ds -> ds <> [] ->
  1 <= N.of_nat (length digits).
Proof. destruct ds as [|d ds]; [congruence|]. intros H _. apply Forall_cons_iff in H as [H _]. lia. Qed.

Lemma canonical_nonempty ds : canonical ds -> ds <> [].
Proof. destruct ds; cbn; [tauto|discriminate]. Qed.

Lemma positional_numeral_fun digits n cs cs' :
  positional_numeral digits n cs -> positional_numeral digits n cs' -> cs = cs'.
Proof.
  intros (ds & H1 & H2 & H3 & ->) (es & H1' & H2' & H3' & ->). f_equal.
  eapply positional_unique; try eassumption; [|congruence].
  eapply numeral_nonempty_length; [exact H1|apply canonical_nonempty, H2].
Qed.

Lemma bijective_numeral_fun digits n cs cs' :
  bijective_numeral digits n cs -> bijective_numeral digits n cs' -> cs = cs'.
Proof.
  intros (ds & H1 & H3 & ->) (es & H1' & H3' & ->). f_equal.
  eapply bijective_unique; try eassumption. congruence.
Qed.

Lemma digit_char_inj digits i j : NoDup digits ->
  i < N.of_nat (length digits) -> j < N.of_nat (length digits) ->
  digit_char digits i = digit_char digits j -> i = j.
Proof.
  intros Hnd Hi Hj H. unfold digit_char in H.
  apply N2Nat.inj. eapply NoDup_nth; try eassumption; lia.
Qed.

Lemma map_digit_inj digits : NoDup digits -> forall ds es,
  below (N.of_nat (length digits)) ds -> below (N.of_nat (length digits)) es ->
  map (digit_char digits) ds = map (digit_char digits) es -> ds = es.
Proof.
  intros Hnd. induction ds as [|d ds IH]; intros [|e es] Hd He H; try discriminate; [reflexivity|].
  apply Forall_cons_iff in Hd as [Hd Hds]. apply Forall_cons_iff in He as [He Hes].
  cbn in H. injection H as H1 H2. f_equal; [eapply digit_char_inj; eassumption|auto].
Qed.

Lemma positional_numeral_inj digits n m cs : NoDup digits ->
  positional_numeral digits n cs -> positional_numeral digits m cs -> n = m.
Proof.
  intros Hnd (ds & H1 & H2 & H3 & ->) (es & H1' & H2' & H3' & E).
  apply map_digit_inj in E; try assumption. congruence.
Qed.

Lemma bijective_numeral_inj digits n m cs : NoDup digits ->
  bijective_numeral digits n cs -> bijective_numeral digits m cs -> n = m.
Proof.
  intros Hnd (ds & H1 & H3 & ->) (es & H1' & H3' & E).
  apply map_digit_inj in E; try assumption. congruence.
Qed.

Lemma positional_numeral_exists (digits : list N) n : 2 <= N.of_nat (length digits) ->
  exists cs, positional_numeral digits n cs.
Proof.
  intros Hb. destruct (canonical_exists _ n Hb) as (ds & H1 & H2 & H3).
  exists (map (digit_char digits) ds), ds. auto.
Qed.

Lemma bijective_numeral_exists digits n : 1 <= N.of_nat (length digits) ->
  exists cs, bijective_numeral digits n cs.
Proof.
  intros Hb. destruct (bijective_exists _ n Hb) as (ds & H1 & H3).
  exists (map (digit_char digits) ds), ds. auto.
Qed.

(** Every string of digit characters comes from digit indices. *)
Lemma chars_are_digits digits cs : Forall (fun x => In x digits) cs ->
  exists ds, below (N.of_nat (length digits)) ds /\ cs = map (digit_char digits) ds.
Proof.
  induction cs as [|x cs IH]; intros H.
  - exists []. split; [constructor|reflexivity].
  - apply Forall_cons_iff in H as [Hx H]. destruct (IH H) as (ds & Hd & ->).
    destruct (In_nth digits x 0 Hx) as (i & Hi & Hn).
    exists (N.of_nat i :: ds). split; [constructor; [lia|assumption]|].
    cbn. unfold digit_char at 2. rewrite Nat2N.id, Hn. reflexivity.
Qed.
