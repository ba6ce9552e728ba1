(** * CssFacts: the counter styles of [SpecCss.v] and the numerals of [Spec.v] *)

From Coq Require Import String.
From Verif Require Import Prelude Utf8Facts Spec SpecAdditive SpecCss DigitFacts DigitOrder AdditiveFacts.

(** ** The loops end in one result *)

Lemma numeric_loop_fun symbols value s a : numeric_loop symbols value s a ->
  forall b, numeric_loop symbols value s b -> a = b.
Proof.
  induction 1 as [s|value s symbol a Hv Hs H IH]; intros b Hb; inversion Hb; subst; try congruence; try contradiction.
  apply IH. congruence.
Qed.

Lemma alphabetic_loop_fun symbols value s a : alphabetic_loop symbols value s a ->
  forall b, alphabetic_loop symbols value s b -> a = b.
Proof.
  induction 1 as [s|value s symbol a Hv Hs H IH]; intros b Hb; inversion Hb; subst; try congruence; try contradiction.
  apply IH. congruence.
Qed.

Lemma additive_loop_fun l value s a : additive_loop l value s a ->
  forall b, additive_loop l value s b -> a = b.
Proof.
  induction 1; intros b Hb; inversion Hb; subst; try reflexivity; try contradiction; try (exfalso; lia); auto.
Qed.

Lemma initial_fun how value a b : initial how value a -> initial how value b -> a = b.
Proof.
  intros Ha Hb. inversion Ha; subst; inversion Hb; subst; try congruence; try contradiction.
  - eapply numeric_loop_fun; eassumption.
  - eapply alphabetic_loop_fun; eassumption.
  - eapply additive_loop_fun; eassumption.
Qed.

Lemma represents_fun st value a : represents st value a -> forall b, represents st value b -> a = b.
Proof.
  induction 1 as [value a H|how first last fallback value a Hr Hi|how first last fallback value a Hn H IH]; intros b Hb;
    inversion Hb; subst.
  - eapply initial_fun; eassumption.
  - eapply initial_fun; eassumption.
  - match goal with H : _ \/ _ |- _ => destruct H as [H|H]; [contradiction|destruct (H _ Hi)] end.
  - destruct Hn as [Hn|Hn]; [contradiction|]. match goal with H : initial _ _ _ |- _ => destruct (Hn _ H) end.
  - auto.
Qed.

(** ** The loops find the numerals *)

Lemma nth_digit_char digits i : i < N.of_nat (length digits) -> nth_error digits (N.to_nat i) = Some (digit_char digits i).
Proof. intros H. apply nth_error_nth'. lia. Qed.

Lemma numeric_loop_total digits : 2 <= N.of_nat (length digits) -> forall n, n <> 0 ->
  exists ds, below (N.of_nat (length digits)) ds /\ hd 0 ds <> 0 /\ positional_value (N.of_nat (length digits)) ds = n /\
    forall s, numeric_loop digits n s (map (digit_char digits) ds ++ s).
Proof.
  intros Hb n. induction n as [n IH] using (well_founded_induction N.lt_wf_0). intros Hn.
  set (b := N.of_nat (length digits)) in *.
  pose proof (N.div_mod n b ltac:(lia)) as E. pose proof (N.mod_lt n b ltac:(lia)) as Hlt.
  destruct (N.eq_dec (n / b) 0) as [Hz|Hz].
  - assert (n mod b = n) as Em by (rewrite Hz in E; lia).
    exists [n]. split; [constructor; [lia|constructor]|]. split; [exact Hn|]. split; [unfold positional_value; cbn [fold_left]; lia|].
    intros s. cbn [map app]. eapply numeric_more; [exact Hn|fold b; rewrite Em; apply nth_digit_char; lia|].
    fold b. rewrite Hz. constructor.
  - destruct (IH (n / b)) as (ds & H1 & H2 & H3 & H4); [apply N.div_lt; lia|exact Hz|].
    exists (ds ++ [n mod b]). split; [apply Forall_app; split; [exact H1|constructor; [exact Hlt|constructor]]|].
    split; [destruct ds; [contradiction (H2 eq_refl)|exact H2]|]. split; [rewrite positional_value_app, H3; lia|].
    intros s. rewrite map_app, <- app_assoc. cbn [map app].
    eapply numeric_more; [exact Hn|fold b; apply nth_digit_char, Hlt|]. apply H4.
Qed.

Lemma numeric_numeral digits n cs : 2 <= N.of_nat (length digits) -> positional_numeral digits n cs ->
  initial (Numeric digits) n cs.
Proof.
  intros Hb H. destruct (N.eq_dec n 0) as [->|Hn].
  - destruct digits as [|z digits]; [cbn in Hb; lia|].
    assert (positional_numeral (z :: digits) 0 [z]) as H0.
    { exists [0]. split; [constructor; [lia|constructor]|]. repeat split. }
    rewrite (positional_numeral_fun _ _ _ _ H H0). constructor.
  - destruct (numeric_loop_total digits Hb n Hn) as (ds & H1 & H2 & H3 & H4).
    assert (positional_numeral digits n (map (digit_char digits) ds)) as H0.
    { exists ds. split; [exact H1|]. split; [|split; [exact H3|reflexivity]].
      destruct ds as [|d [|e ds]]; [contradiction (H2 eq_refl)|exact I|exact H2]. }
    rewrite (positional_numeral_fun _ _ _ _ H H0). constructor; [exact Hn|].
    specialize (H4 []). rewrite app_nil_r in H4. exact H4.
Qed.

Lemma alphabetic_loop_total digits : 1 <= N.of_nat (length digits) -> forall n,
  exists ds, below (N.of_nat (length digits)) ds /\ bijective_value (N.of_nat (length digits)) ds = n /\
    forall s, alphabetic_loop digits n s (map (digit_char digits) ds ++ s).
Proof.
  intros Hb n. induction n as [n IH] using (well_founded_induction N.lt_wf_0).
  destruct (N.eq_dec n 0) as [->|Hn].
  - exists []. split; [constructor|]. split; [reflexivity|]. intros s. constructor.
  - set (b := N.of_nat (length digits)) in *.
    pose proof (N.div_mod (n - 1) b ltac:(lia)) as E. pose proof (N.mod_lt (n - 1) b ltac:(lia)) as Hlt.
    destruct (IH ((n - 1) / b)) as (ds & H1 & H3 & H4).
    { pose proof (N.div_le_upper_bound (n - 1) b (n - 1) ltac:(lia)). nia. }
    exists (ds ++ [(n - 1) mod b]). split; [apply Forall_app; split; [exact H1|constructor; [exact Hlt|constructor]]|].
    split; [rewrite bijective_value_app, H3; lia|].
    intros s. rewrite map_app, <- app_assoc. cbn [map app].
    eapply alphabetic_more; [exact Hn|fold b; apply nth_digit_char, Hlt|]. apply H4.
Qed.

Lemma alphabetic_numeral digits n cs : 1 <= N.of_nat (length digits) -> n <> 0 -> bijective_numeral digits n cs ->
  initial (Alphabetic digits) n cs.
Proof.
  intros Hb Hn H. destruct (alphabetic_loop_total digits Hb n) as (ds & H1 & H2 & H3).
  assert (bijective_numeral digits n (map (digit_char digits) ds)) as H0 by (exists ds; auto).
  rewrite (bijective_numeral_fun _ _ _ _ H H0). constructor; [exact Hn|].
  specialize (H3 []). rewrite app_nil_r in H3. exact H3.
Qed.

Lemma times_copies k s : times k s = copies k s.
Proof.
  unfold times, copies. induction k as [|k IH] using N.peano_ind; [reflexivity|].
  rewrite N.iter_succ, N2Nat.inj_succ. cbn [repeat concat]. rewrite IH. reflexivity.
Qed.

Lemma gtext_zero tbl : gtext tbl 0 = [].
Proof.
  induction tbl as [|[s v] tbl IH]; [reflexivity|]. cbn [gtext]. destruct (N.eqb_spec v 0); [reflexivity|].
  rewrite N.div_0_l, N.mod_0_l by assumption. rewrite IH. reflexivity.
Qed.

(** A weighted symbol list in the order of [SpecAdditive.v]. *)
Definition table_of (l : list (N * list N)) : table := map (fun tuple => (snd tuple, fst tuple)) l.

Lemma additive_loop_greedy l : forall n s, n <> 0 -> grem (table_of l) n = 0 ->
  additive_loop l n s (s ++ gtext (table_of l) n).
Proof.
  induction l as [|[v sym] l IH]; intros n s Hn Hg; [contradiction|].
  cbn [table_of map fst snd gtext grem] in *. change (map _ l) with (table_of l) in *.
  destruct (N.eqb_spec v 0); [contradiction|].
  pose proof (N.div_mod n v ltac:(assumption)) as E. assert (n mod v = n - v * (n / v)) as Em by lia.
  destruct (N.lt_ge_cases n v) as [Hlt|Hge].
  - rewrite N.div_small, N.mod_small in * by exact Hlt. rewrite copies_0. cbn [app].
    apply additive_skip; [right; exact Hlt|]. apply IH; assumption.
  - destruct (N.eq_dec (n mod v) 0) as [Hz|Hz].
    + rewrite Hz, gtext_zero, app_nil_r, <- times_copies. apply additive_return; [assumption|exact Hge|lia].
    + rewrite app_assoc, <- times_copies. apply additive_more; [assumption|exact Hge|lia|].
      rewrite <- Em. apply IH; assumption.
Qed.

(** ** Out of range *)

Lemma decimal_style n cs : positional_numeral (ten_from ascii_zero) n cs -> represents DecimalStyle n cs.
Proof. intros H. constructor. apply numeric_numeral; [vm_compute; discriminate|exact H]. Qed.

Lemma numeric_style digits n cs : 2 <= N.of_nat (length digits) -> positional_numeral digits n cs ->
  represents (numeric digits) n cs.
Proof. intros Hb H. apply by_algorithm; [split; [lia|exact I]|]. apply numeric_numeral; assumption. Qed.

(** Text in symbols the fallback does not have. *)
Fixpoint strange (digits : list N) (m : N) (tbl : table) : bool :=
  match tbl with
  | [] => false
  | (s, v) :: rest =>
      existsb (fun ch => negb (existsb (N.eqb ch) digits)) s &&
      (if v <=? m then negb (v =? 0) else strange digits m rest)
  end.

Lemma strange_text digits m n tbl : strange digits m tbl = true -> m <= n -> ~ Forall (fun ch => In ch digits) (gtext tbl n).
Proof.
  induction tbl as [|[s v] tbl IH]; [discriminate|]. cbn [strange gtext]. intros H Hm Hall.
  apply andb_true_iff in H as [Hs Hv].
  destruct (N.lt_ge_cases n v) as [Hlt|Hge].
  - destruct (N.eqb_spec v 0); [lia|]. rewrite N.div_small, N.mod_small, copies_0 in Hall by exact Hlt. cbn [app] in Hall.
    destruct (N.leb_spec v m); [lia|]. revert Hall. apply IH; assumption.
  - assert (v <> 0) as Hv0.
    { intros ->. destruct (N.leb_spec 0 m); [discriminate|lia]. }
    destruct (N.eqb_spec v 0); [contradiction|]. apply Forall_app in Hall as [Hall _].
    assert (1 <= n / v) as Hk by (apply N.div_le_lower_bound; lia).
    replace (n / v) with (N.succ (n / v - 1)) in Hall by lia. unfold copies in Hall. rewrite N.iter_succ in Hall.
    apply Forall_app in Hall as [Hall _]. apply existsb_exists in Hs as (ch & Hin & Hc).
    rewrite Forall_forall in Hall. apply Hall in Hin. rewrite negb_true_iff in Hc.
    assert (existsb (N.eqb ch) digits = true) as Ht by (apply existsb_exists; exists ch; split; [exact Hin|apply N.eqb_refl]).
    congruence.
Qed.

Lemma copies_all P k s : Forall P s -> Forall P (copies k s).
Proof.
  intros H. unfold copies. induction k as [|k IH] using N.peano_ind; [constructor|].
  rewrite N.iter_succ. apply Forall_app. split; assumption.
Qed.

Lemma gtext_scalars tbl : proper tbl -> forall n, scalars (gtext tbl n).
Proof.
  induction 1 as [|[s v] tbl Hs Hp IH]; intros n; cbn [gtext]; [constructor|].
  destruct (v =? 0); [constructor|]. apply Forall_app. split; [apply copies_all, Hs|apply IH].
Qed.
