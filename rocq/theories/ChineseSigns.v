(** * ChineseSigns: properties of the signs the Chinese formatters write *)

From Coq Require Import String.
From Verif Require Import Prelude Utf8Facts StringFacts Outcome DigitSets Chinese.
From Verif Require Export ChineseFacts.

(** ** Below ten thousand, by enumeration *)

Lemma sign_eqb_eq a b : sign_eqb a b = true <-> a = b.
Proof.
  destruct a, b; cbn; split; intros H; try discriminate; try (injection H as ->).
  - apply N.eqb_eq in H. congruence.
  - apply N.eqb_refl.
  - apply N.eqb_eq in H. congruence.
  - apply N.eqb_refl.
  - apply Nat.eqb_eq in H. congruence.
  - apply Nat.eqb_refl.
Qed.

Fixpoint signs_eqb (a b : list sign) : bool :=
  match a, b with
  | [], [] => true
  | x :: a, y :: b => sign_eqb x y && signs_eqb a b
  | _, _ => false
  end.

Lemma signs_eqb_eq a : forall b, signs_eqb a b = true -> a = b.
Proof.
  induction a as [|x a IH]; intros [|y b] H; try discriminate; [reflexivity|].
  cbn in H. apply andb_prop in H as [H1 H2]. apply sign_eqb_eq in H1. f_equal; auto.
Qed.

(** [steps] consecutive numbers from [from]. *)
Fixpoint all_from (P : N -> bool) (steps : nat) (from : N) : bool :=
  match steps with
  | O => true
  | S steps => P from && all_from P steps (from + 1)
  end.

Lemma all_from_spec P steps : forall from n, all_from P steps from = true ->
  from <= n < from + N.of_nat steps -> P n = true.
Proof.
  induction steps as [|steps IH]; intros from n H Hn; [lia|]. cbn [all_from] in H. apply andb_prop in H as [H1 H2].
  destruct (N.eqb_spec from n) as [->|]; [exact H1|]. apply (IH (from + 1)); [exact H2|lia].
Qed.

Lemma below_10000 (P : N -> bool) :
  all_from P (N.to_nat 9999) 1 = true -> forall n, 1 <= n < 10000 -> P n = true.
Proof. intros H n Hn. apply (all_from_spec P _ 1 n H). lia. Qed.

Definition inner_form (formal np : bool) (n : N) (last : bool) : list sign :=
  (if negb np && negb last && (n <? 1000) then [Digit 0] else []) ++ css_longhand (negb formal && np && negb last) n.

Lemma inner_css formal np n last : 1 <= n < 10000 -> inner_t formal np n last = inner_form formal np n last.
Proof.
  intros Hn. apply signs_eqb_eq.
  pose proof (below_10000 (fun n => forallb (fun formal => forallb (fun np => forallb (fun last =>
    signs_eqb (inner_t formal np n last) (inner_form formal np n last)) [true; false]) [true; false]) [true; false])) as H.
  cbn beta in H. assert (forall b : bool, In b [true; false]) as Hb by (intros []; cbn; auto).
  specialize (H ltac:(vm_compute; reflexivity) n Hn).
  rewrite forallb_forall in H. specialize (H formal (Hb formal)). rewrite forallb_forall in H. specialize (H np (Hb np)).
  rewrite forallb_forall in H. exact (H last (Hb last)).
Qed.

Lemma css_reads informal n : 1 <= n < 10000 -> read_small (css_longhand informal n) = n.
Proof.
  intros Hn. apply N.eqb_eq. destruct informal.
  - refine (below_10000 (fun n => read_small (css_longhand true n) =? n) _ n Hn). vm_compute. reflexivity.
  - refine (below_10000 (fun n => read_small (css_longhand false n) =? n) _ n Hn). vm_compute. reflexivity.
Qed.

(** *** Zeros *)

Definition zfirst (l : list sign) : bool := match l with s :: _ => is_zero_digit s | [] => false end.

Fixpoint zlast (l : list sign) : bool :=
  match l with
  | [] => false
  | [s] => is_zero_digit s
  | _ :: rest => zlast rest
  end.

Fixpoint zz (l : list sign) : bool :=
  match l with
  | [] => false
  | s :: rest => is_zero_digit s && zfirst rest || zz rest
  end.

Lemma zlast_app a b : zlast (a ++ b) = match b with [] => zlast a | _ => zlast b end.
Proof.
  induction a as [|x a IH]; [destruct b; reflexivity|]. cbn [app]. destruct b as [|y b]; [rewrite app_nil_r; reflexivity|].
  cbn [zlast]. destruct (a ++ y :: b) eqn:E; [destruct a; discriminate|]. exact IH.
Qed.

Lemma zz_app a b : zz (a ++ b) = zz a || zz b || (zlast a && zfirst b).
Proof.
  induction a as [|x a IH]; [cbn; rewrite orb_false_r; reflexivity|].
  cbn [app zz]. rewrite IH. destruct a as [|y a].
  - cbn. destruct (is_zero_digit x), (zz b), (zfirst b); reflexivity.
  - cbn [app zfirst zlast]. destruct (is_zero_digit x), (is_zero_digit y), (zz (y :: a)), (zz b), (zlast (y :: a)), (zfirst b); reflexivity.
Qed.

Definition ok_sign (s : sign) : bool :=
  match s with
  | Digit d => d <? 10
  | Marker p => (1 <=? p) && (p <=? 3)
  | Large r => (r <? 11)%nat
  end.

Definition is_large (s : sign) : bool := match s with Large _ => true | _ => false end.

Lemma css_shape informal n : 1 <= n < 10000 ->
  zz (css_longhand informal n) = false /\ zlast (css_longhand informal n) = false /\
  zfirst (css_longhand informal n) = false /\ css_longhand informal n <> [] /\
  forallb ok_sign (css_longhand informal n) = true /\ existsb is_large (css_longhand informal n) = false.
Proof.
  intros Hn.
  pose proof (below_10000 (fun n => forallb (fun informal =>
    let l := css_longhand informal n in
    negb (zz l) && negb (zlast l) && negb (zfirst l) && (match l with [] => false | _ => true end) &&
    forallb ok_sign l && negb (existsb is_large l)) [true; false])) as H.
  cbn beta in H. specialize (H ltac:(vm_compute; reflexivity) n Hn).
  rewrite forallb_forall in H. specialize (H informal ltac:(destruct informal; cbn; auto)). cbv zeta in H.
  apply andb_prop in H as [H H6]. apply andb_prop in H as [H H5]. apply andb_prop in H as [H H4].
  apply andb_prop in H as [H H3]. apply andb_prop in H as [H1 H2].
  apply negb_true_iff in H1, H2, H3, H6. repeat split; try assumption. intros E. rewrite E in H4. discriminate.
Qed.

(** *** Formality *)

Definition add_one (l : list sign) : list sign :=
  match l with Marker 1 :: _ => Digit 1 :: l | _ => l end.

Definition marker_first (l : list sign) : bool := match l with Marker _ :: _ => true | _ => false end.

Lemma css_formality n : 1 <= n < 10000 ->
  css_longhand false n = add_one (css_longhand true n) /\ marker_first (css_longhand false n) = false.
Proof.
  intros Hn.
  pose proof (below_10000 (fun n => signs_eqb (css_longhand false n) (add_one (css_longhand true n)) &&
    negb (marker_first (css_longhand false n)))) as H.
  cbn beta in H. specialize (H ltac:(vm_compute; reflexivity) n Hn).
  apply andb_prop in H as [H1 H2]. apply signs_eqb_eq in H1. apply negb_true_iff in H2. auto.
Qed.

(** ** Induction over the scaled formatter *)

Lemma scaled_induct c T scales formal (P : nat -> N -> bool -> list sign -> Prop) :
  good_scales c T scales ->
  (forall n np, 1 <= n < 10000 -> P O n np (inner_t formal np n false)) ->
  (forall k n np l, 1 <= n -> (nth_error scales k = None \/ exists s, nth_error scales k = Some s /\ n < s) ->
     P k n np l -> P (S k) n np l) ->
  (forall r s n np a b, (r < 11)%nat -> fits c T n -> nth_error scales r = Some s -> s <> 0 -> n / s <> 0 ->
     (forall s', nth_error scales (S r) = Some s' -> n < s') ->
     P r (n / s) np a ->
     (n mod s = 0 /\ b = [] \/ n mod s <> 0 /\ P r (n mod s) false b) ->
     P (S r) n np (a ++ Large r :: b)) ->
  forall rank n np, (rank < 11)%nat -> fits c T n -> 1 <= n -> cap c T scales rank n ->
  P (S rank) n np (scaled_t formal scales rank n np).
Proof.
  intros [H0 Hsc] Hinner Hskip Hstep rank. induction rank as [rank IH] using lt_wf_ind. intros n np Hrank Hn Hn1 Hcap.
  assert (forall n np, fits c T n -> 1 <= n -> next_cap c T scales rank n -> P rank n np (next_t formal scales rank n np)) as Hnext.
  { clear n np Hn Hn1 Hcap. intros n np Hn Hn1 Hcap. destruct rank as [|rank]; cbn [next_t next_cap] in *.
    - apply Hinner. lia.
    - apply IH; try assumption; lia. }
  clear IH. rewrite scaled_t_step.
  destruct (nth_error scales rank) as [s|] eqn:Ens.
  - destruct (N.ltb_spec s (2 ^ bits c T)) as [Hfs|Hnf].
    + destruct (Hsc rank s Ens Hfs) as [Hs0 Hbound].
      assert (n / s < s) as Hq.
      { unfold cap in Hcap. destruct (scale_at (map (try_from c T) scales) (rank + 1)) as [s'|] eqn:Es1.
        - destruct Hbound as [Hmod Hle].
          assert (n / s < s' / s) as Hlt.
          { apply N.div_lt_upper_bound; [assumption|]. pose proof (N.div_mod s' s Hs0). lia. }
          lia.
        - destruct rank as [|rank]; [apply Hbound, Hn|].
          destruct Hbound as (lower & El & Hfl & Hl0 & Hb). specialize (Hb n Hn).
          assert (s / lower <= s) by (apply N.div_le_upper_bound; nia). lia. }
      assert (n mod s < s) as Hm by (apply N.mod_lt; assumption).
      assert (forall m, m < s -> next_cap c T scales rank m) as Hnc.
      { intros m Hlt. destruct rank as [|rank]; cbn [next_cap].
        - rewrite H0 in Ens. injection Ens as <-. exact Hlt.
        - unfold cap. rewrite Nat.add_1_r.
          assert (scale_at (map (try_from c T) scales) (S rank) = Some s) as ->; [|exact Hlt].
          rewrite fit_at_scale. unfold fit_at. rewrite Ens. destruct (N.ltb_spec s (2 ^ bits c T)); [reflexivity|lia]. }
      assert (fits c T (n / s)) as Hfq.
      { eapply fits_le; [exact Hn|]. apply N.div_le_upper_bound; nia. }
      assert (fits c T (n mod s)) as Hfm by (eapply fits_le; [exact Hn|apply N.mod_le; assumption]).
      destruct (N.eqb_spec (n / s) 0) as [Eq|Eq].
      * apply N.div_small_iff in Eq; [|assumption]. rewrite N.mod_small by assumption.
        destruct (N.eqb_spec n 0); [lia|]. cbn [app]. rewrite andb_true_r. apply Hskip; [assumption|right; eauto|].
        apply Hnext; [assumption..|]. apply Hnc, Eq.
      * rewrite <- app_assoc. cbn [app]. rewrite andb_false_r. eapply Hstep; try eassumption.
        -- intros s' Es'. unfold cap in Hcap. rewrite Nat.add_1_r, fit_at_scale in Hcap. unfold fit_at in Hcap. rewrite Es' in Hcap.
           destruct (N.ltb_spec s' (2 ^ bits c T)); [exact Hcap|unfold fits in Hn; lia].
        -- apply Hnext; [assumption|apply pos_1; assumption|apply Hnc; assumption].
        -- destruct (N.eqb_spec (n mod s) 0) as [Em|Em]; [left; auto|right]. split; [assumption|].
           apply Hnext; [assumption|apply pos_1; assumption|apply Hnc; assumption].
    + assert (n < s) as Hlt by (unfold fits in Hn; lia).
      assert (scale_at (map (try_from c T) scales) rank = None) as Es.
      { rewrite fit_at_scale. unfold fit_at. rewrite Ens. destruct (N.ltb_spec s (2 ^ bits c T)); [lia|reflexivity]. }
      rewrite N.div_small, N.mod_small by assumption. cbn [N.eqb app]. rewrite andb_true_r.
      destruct (N.eqb_spec n 0); [lia|]. apply Hskip; [assumption|right; eauto|]. apply Hnext; [assumption..|].
      destruct rank as [|rank]; cbn [next_cap]; [rewrite H0 in Ens; injection Ens as <-; exact Hlt|].
      unfold cap. rewrite Nat.add_1_r, Es. exact I.
  - apply Hskip; [assumption|left; assumption|]. apply Hnext; [assumption..|].
    destruct rank as [|rank]; cbn [next_cap]; [congruence|].
    unfold cap. rewrite Nat.add_1_r, fit_at_scale. unfold fit_at. rewrite Ens. exact I.
Qed.

(** The 128-bit type contains all others. *)
Definition wide : config := {| has_alloc := true; overflow_checks := true; usize_bits := 64; loop_depth := 130 |}.

Lemma wide_valid : valid_config wide.
Proof. vm_compute. split; [auto|repeat constructor]. Qed.

Lemma cap_10 scales n : (length scales <= 11)%nat -> cap wide U128 scales 10 n.
Proof.
  intros H. unfold cap. rewrite fit_at_scale. unfold fit_at. destruct (nth_error scales (10 + 1)) eqn:E; [|exact I].
  assert (10 + 1 < length scales)%nat by (apply nth_error_Some; congruence). lia.
Qed.

Lemma fits_wide c T n : valid_config c -> fits c T n -> fits wide U128 n.
Proof. intros Hc Hn. pose proof (fits_128 c T n Hc Hn). exact H. Qed.

(** *** Reading *)

Lemma split_at_none s l : ~ In s l -> split_at s l = None.
Proof.
  induction l as [|x l IH]; intros H; [reflexivity|]. cbn [split_at].
  destruct (sign_eqb s x) eqn:E; [apply sign_eqb_eq in E; subst; exfalso; apply H; left; reflexivity|].
  rewrite IH; [reflexivity|]. intros Hin. apply H. right. exact Hin.
Qed.

Lemma split_at_app s a b : ~ In s a -> split_at s (a ++ s :: b) = Some (a, b).
Proof.
  induction a as [|x a IH]; intros H; cbn [app split_at].
  - replace (sign_eqb s s) with true by (symmetry; apply sign_eqb_eq; reflexivity). reflexivity.
  - destruct (sign_eqb s x) eqn:E; [apply sign_eqb_eq in E; subst; exfalso; apply H; left; reflexivity|].
    rewrite IH; [reflexivity|]. intros Hin. apply H. right. exact Hin.
Qed.

Definition larges_below (k : nat) (l : list sign) : Prop := forall r, In (Large r) l -> (r < k)%nat.

Lemma larges_below_mono k k' l : (k <= k')%nat -> larges_below k l -> larges_below k' l.
Proof. intros Hk H r Hr. specialize (H r Hr). lia. Qed.

Lemma larges_below_app k a b : larges_below k a -> larges_below k b -> larges_below k (a ++ b).
Proof. intros Ha Hb r Hr. apply in_app_iff in Hr as [Hr|Hr]; auto. Qed.

Lemma no_large l : existsb is_large l = false -> larges_below 0 l.
Proof.
  intros H r Hr. exfalso. assert (existsb is_large l = true); [|congruence]. apply existsb_exists. exists (Large r). auto.
Qed.

Lemma read_large_step sc r l : larges_below r l -> read_large sc (S r) l = read_large sc r l.
Proof. intros H. cbn [read_large]. rewrite split_at_none; [reflexivity|]. intros Hin. apply H in Hin. lia. Qed.

Lemma read_large_small sc k l : larges_below 0 l -> read_large sc k l = read_small l.
Proof.
  intros H. induction k as [|k IH]; [reflexivity|]. rewrite read_large_step, IH; [reflexivity|].
  apply (larges_below_mono 0); [lia|assumption].
Qed.

Lemma read_large_split sc r a b : larges_below r a ->
  read_large sc (S r) (a ++ Large r :: b) = read_large sc r a * large_value sc r + read_large sc r b.
Proof. intros H. cbn [read_large]. rewrite split_at_app; [reflexivity|]. intros Hin. apply H in Hin. lia. Qed.

Lemma inner_larges formal np n last : 1 <= n < 10000 -> larges_below 0 (inner_t formal np n last).
Proof.
  intros Hn. rewrite inner_css by assumption. apply no_large. unfold inner_form. rewrite existsb_app.
  destruct (css_shape (negb formal && np && negb last) n Hn) as (_ & _ & _ & _ & _ & ->).
  destruct (_ && _ && _); reflexivity.
Qed.

Lemma inner_reads formal np n last : 1 <= n < 10000 -> read_small (inner_t formal np n last) = n.
Proof.
  intros Hn. rewrite inner_css by assumption. unfold inner_form.
  rewrite <- (css_reads (negb formal && np && negb last) n Hn) at 3. destruct (_ && _ && (n <? 1000)); reflexivity.
Qed.

Lemma scaled_reads sc scales formal n : good_scales wide U128 scales -> (length scales <= 11)%nat ->
  (forall r s, nth_error scales r = Some s -> large_value sc r = s) ->
  fits wide U128 n -> 1 <= n ->
  read_large sc 11 (scaled_t formal scales 10 n true) = n.
Proof.
  intros Hg Hlen Hval Hn Hn1.
  refine (proj2 (scaled_induct wide U128 scales formal (fun k n np l => larges_below k l /\ read_large sc k l = n)
    Hg _ _ _ 10%nat n true _ Hn Hn1 (cap_10 scales n Hlen))); [| | |lia].
  - intros m np Hm. split; [apply inner_larges, Hm|apply inner_reads, Hm].
  - intros k m np l _ _ [H1 H2]. split; [eapply larges_below_mono; [|exact H1]; lia|].
    rewrite read_large_step by assumption. exact H2.
  - intros r s m np a b Hr _ Hs Hs0 Hq _ [Ha Ea] Hb.
    assert (larges_below r b /\ read_large sc r b = m mod s) as [Hb1 Hb2].
    { destruct Hb as [[-> ->]|[_ Hb]]; [|exact Hb]. split; [intros x []|].
      rewrite read_large_small; [reflexivity|intros x []]. }
    split.
    + apply larges_below_app; [eapply larges_below_mono; [|exact Ha]; lia|].
      intros x [Hx|Hx]; [injection Hx as <-; lia|]. apply Hb1 in Hx. lia.
    + rewrite read_large_split, Ea, Hb2, (Hval r s Hs) by assumption.
      rewrite N.mul_comm. symmetry. apply N.div_mod, Hs0.
Qed.

Lemma short_reads formal : forall rank n e last zs, n < 10 * short_value rank ->
  larges_below (S rank) (repeat (Digit 0) zs ++ short_t formal rank n e last) /\
  read_large ShortScaling (S rank) (repeat (Digit 0) zs ++ short_t formal rank n e last) = n.
Proof.
  assert (forall zs k, larges_below k (repeat (Digit 0) zs)) as Hz.
  { intros zs k r Hr. apply repeat_spec in Hr. discriminate. }
  assert (forall zs l, read_small (repeat (Digit 0) zs ++ l) = read_small l) as Hrz.
  { induction zs as [|zs IH]; intros l; [reflexivity|]. cbn. apply IH. }
  assert (forall rank q (e last : bool), piece_t rank q e last = (if q =? 0 then repeat (Digit 0) (if negb e && negb last then 1 else 0) else [Digit q; Large rank])) as Hpiece.
  { intros. unfold piece_t. destruct (q =? 0); [|reflexivity]. destruct (negb e && negb last); reflexivity. }
  assert (forall rank zs q, q <> 0 -> larges_below rank (repeat (Digit 0) zs ++ [Digit q]) /\
    read_large ShortScaling rank (repeat (Digit 0) zs ++ [Digit q]) = q) as Hfront.
  { intros rank zs q Hq. assert (larges_below 0 (repeat (Digit 0) zs ++ [Digit q])) as H.
    { apply larges_below_app; [apply Hz|]. intros r [Hr|[]]. discriminate. }
    split; [eapply larges_below_mono; [|exact H]; lia|]. rewrite read_large_small, Hrz by assumption. cbn. destruct q; lia. }
  intros rank. induction rank as [|rank IH]; intros n e last zs Hn; rewrite short_t_step.
  - destruct (N.eqb_spec n 0) as [->|Hn0].
    { rewrite app_nil_r. split; [apply Hz|]. rewrite read_large_small by apply Hz.
      specialize (Hrz zs []). rewrite app_nil_r in Hrz. exact Hrz. }
    cbn zeta. pose proof (short_value_pos 0) as Hs0. assert (n mod short_value 0 < short_value 0) as Hm by (apply N.mod_lt; assumption).
    assert (n = short_value 0 * (n / short_value 0) + n mod short_value 0) as Hdm by (apply N.div_mod; assumption).
    assert (forall zs last, larges_below 0 (repeat (Digit 0) zs ++ tail_t formal (n mod short_value 0) last) /\
      read_small (repeat (Digit 0) zs ++ tail_t formal (n mod short_value 0) last) = n mod short_value 0) as Htail.
    { intros zs' last'. rewrite Hrz. unfold tail_t. destruct (N.eqb_spec (n mod short_value 0) 0) as [E|E].
      - rewrite E, app_nil_r. split; [apply Hz|reflexivity].
      - change (short_value 0) with 10000 in *. split; [apply larges_below_app; [apply Hz|]; apply inner_larges; lia|apply inner_reads; lia]. }
    rewrite Hpiece. destruct (N.eqb_spec (n / short_value 0) 0) as [Eq|Eq].
    + rewrite app_assoc, <- repeat_app. destruct (Htail (zs + (if negb e && negb last then 1 else 0))%nat (last_t (n / short_value 0) e last)) as [H1 H2].
      split; [eapply larges_below_mono; [|exact H1]; lia|]. rewrite read_large_small, H2 by assumption.
      rewrite Hdm at 2. rewrite Eq. lia.
    + replace (repeat (Digit 0) zs ++ [Digit (n / short_value 0); Large 0] ++ tail_t formal (n mod short_value 0) (last_t (n / short_value 0) e last))
        with ((repeat (Digit 0) zs ++ [Digit (n / short_value 0)]) ++ Large 0 :: tail_t formal (n mod short_value 0) (last_t (n / short_value 0) e last))
        by (rewrite <- app_assoc; reflexivity).
      destruct (Hfront O zs (n / short_value 0) Eq) as [F1 F2]. destruct (Htail O (last_t (n / short_value 0) e last)) as [H1 H2]. cbn [repeat app] in H1, H2.
      split.
      * apply larges_below_app; [eapply larges_below_mono; [|exact F1]; lia|]. intros r [Hr|Hr]; [injection Hr as <-; lia|]. apply H1 in Hr. lia.
      * rewrite read_large_split, F2 by assumption. cbn [read_large]. rewrite H2. change (large_value ShortScaling 0) with (short_value 0). lia.
  - destruct (N.eqb_spec n 0) as [->|Hn0].
    { rewrite app_nil_r. split; [apply Hz|]. rewrite read_large_small by apply Hz.
      specialize (Hrz zs []). rewrite app_nil_r in Hrz. exact Hrz. }
    cbn zeta. pose proof (short_value_pos (S rank)) as Hs0. assert (n mod short_value (S rank) < short_value (S rank)) as Hm by (apply N.mod_lt; assumption).
    assert (n = short_value (S rank) * (n / short_value (S rank)) + n mod short_value (S rank)) as Hdm by (apply N.div_mod; assumption).
    assert (n mod short_value (S rank) < 10 * short_value rank) as Hm' by (rewrite <- short_value_succ; exact Hm).
    rewrite Hpiece. destruct (N.eqb_spec (n / short_value (S rank)) 0) as [Eq|Eq].
    + rewrite app_assoc, <- repeat_app.
      destruct (IH (n mod short_value (S rank)) (e && true) (last_t (n / short_value (S rank)) e last) (zs + (if negb e && negb last then 1 else 0))%nat Hm') as [H1 H2].
      split; [eapply larges_below_mono; [|exact H1]; lia|]. rewrite read_large_step, H2 by assumption.
      rewrite Hdm at 2. rewrite Eq. lia.
    + set (rest := short_t _ _ _ _ _).
      replace (repeat (Digit 0) zs ++ [Digit (n / short_value (S rank)); Large (S rank)] ++ rest)
        with ((repeat (Digit 0) zs ++ [Digit (n / short_value (S rank))]) ++ Large (S rank) :: rest)
        by (rewrite <- app_assoc; reflexivity).
      destruct (Hfront (S rank) zs (n / short_value (S rank)) Eq) as [F1 F2].
      destruct (IH (n mod short_value (S rank)) (e && false) (last_t (n / short_value (S rank)) e last) O Hm') as [H1 H2].
      cbn [repeat app] in H1, H2. fold rest in H1, H2.
      split.
      * apply larges_below_app; [eapply larges_below_mono; [|exact F1]; lia|]. intros r [Hr|Hr]; [injection Hr as <-; lia|]. apply H1 in Hr. lia.
      * rewrite read_large_split, F2, H2 by assumption. change (large_value ShortScaling (S rank)) with (short_value (S rank)). lia.
Qed.

Lemma chinese_reads formal sc n : fits wide U128 n -> (sc = Short -> n < 10 ^ 15) ->
  read_large (scaling_of sc) 11 (chinese_t formal sc n) = n.
Proof.
  intros Hn Hsc. unfold chinese_t. destruct (N.eqb_spec n 0) as [->|Hn0]; [destruct sc; reflexivity|].
  destruct (N.ltb_spec n 10000) as [Hlt|Hge].
  - rewrite read_large_small by (apply inner_larges; lia). apply inner_reads. lia.
  - destruct sc; cbn [scaling_of].
    + destruct (short_reads formal 10 n true false O (Hsc eq_refl)) as [_ H]. exact H.
    + apply scaled_reads; try assumption; [apply myriad_good, wide_valid|cbn; lia| |lia].
      intros r s Hr. do 9 (destruct r as [|r]; [injection Hr as <-; reflexivity|]). destruct r; discriminate.
    + apply scaled_reads; try assumption; [apply mid_good, wide_valid|cbn; lia| |lia].
      intros r s Hr. do 5 (destruct r as [|r]; [injection Hr as <-; reflexivity|]). destruct r; discriminate.
    + apply scaled_reads; try assumption; [apply long_good, wide_valid|cbn; lia| |lia].
      intros r s Hr. do 4 (destruct r as [|r]; [injection Hr as <-; reflexivity|]). destruct r; discriminate.
Qed.
