(** * DigitSets: the formatter's numeral for every kind of collection *)

From Coq Require Import String.
From Verif Require Import Prelude Utf8Facts StringFacts History Outcome DigitFacts DigitOrder.

(** ** Collections built by the API *)

Lemma lookup_digit digits i : i < N.of_nat (length digits) ->
  or_panic (lookup digits i) = Ret (digit_char digits i).
Proof. intros H. rewrite (lookup_nth digits i 0 H). reflexivity. Qed.

Lemma collects_new c digits : N.of_nat (length digits) < 2 ^ usize_bits c -> scalars digits ->
  collects c (digit_set_new digits) digits.
Proof. intros H Hs. split; [reflexivity|]. split; [apply lookup_digit|]. auto. Qed.

Lemma collects_zeroless c digits : N.of_nat (length digits) < 2 ^ usize_bits c -> scalars digits ->
  collects c (digit_set_zeroless digits) digits.
Proof. intros H Hs. split; [reflexivity|]. split; [apply lookup_digit|]. auto. Qed.

Lemma collects_impl c d digits : collects c d digits -> collects c (impl_digit_set d) digits.
Proof. intros (H1 & H2 & H3). split; [exact H1|]. split; [exact H2|exact H3]. Qed.

Lemma collects_one_based c d digits : collects c d digits -> collects c (one_based d) digits.
Proof. intros (H1 & H2 & H3). split; [exact H1|]. split; [exact H2|exact H3]. Qed.

Lemma collects_chain c a b da db : collects c a da -> collects c b db ->
  N.of_nat (length da + length db) < 2 ^ usize_bits c -> collects c (chain c a b) (da ++ db).
Proof.
  intros (La & Da & Ua & Sa) (Lb & Db & Ub & Sb) H.
  assert (N.of_nat (length (da ++ db)) = N.of_nat (length da) + N.of_nat (length db)) as E
    by (rewrite app_length; lia).
  split; [|split; [|split]].
  - cbn [chain dc_len]. rewrite La, Lb. cbn [obind]. unfold uadd. rewrite E.
    destruct (N.ltb_spec (N.of_nat (length da) + N.of_nat (length db)) (2 ^ usize_bits c)); [reflexivity|lia].
  - intros i Hi. cbn [chain dc_digit]. rewrite La. cbn [obind]. unfold digit_char.
    destruct (N.leb_spec (N.of_nat (length da)) i).
    + rewrite Db by lia. rewrite app_nth2 by lia. unfold digit_char. do 2 f_equal. lia.
    + rewrite Da by lia. rewrite app_nth1 by lia. reflexivity.
  - rewrite E. lia.
  - apply scalars_app; auto.
Qed.

Lemma collects_restrict c d digits k : collects c d digits -> k <= N.of_nat (length digits) ->
  collects c (restrict k d) (firstn (N.to_nat k) digits).
Proof.
  intros (Hl & Hd & Hu & Hs) Hk.
  assert (length (firstn (N.to_nat k) digits) = N.to_nat k) as E by (rewrite firstn_length; lia).
  assert (forall i, i < k -> digit_char (firstn (N.to_nat k) digits) i = digit_char digits i) as Hn.
  { intros i Hi. unfold digit_char. rewrite <- (firstn_skipn (N.to_nat k) digits) at 2.
    rewrite app_nth1 by lia. reflexivity. }
  split; [|split; [|split]].
  - cbn. rewrite E. f_equal. lia.
  - intros i Hi. rewrite E in Hi. rewrite Hn by lia. apply Hd. lia.
  - rewrite E. lia.
  - unfold scalars in *. rewrite Forall_forall in *. intros x Hx. apply Hs.
    rewrite <- (firstn_skipn (N.to_nat k) digits). apply in_or_app. auto.
Qed.

(** ** Formatting by counting mode *)

(** [b] digits are enough to count with. *)
Definition enough (has_zero : bool) (b : N) : Prop := if has_zero then 2 <= b else 1 <= b.

Lemma format_digits_numeral depth c T d digits n cs :
  valid_config c -> collects c d digits -> fits c T (N.of_nat (length digits)) -> fits c T n ->
  enough (dc_has_zero_digit d) (N.of_nat (length digits)) ->
  in_range d (N.of_nat (length digits)) n = true ->
  digit_numeral (dc_has_zero_digit d) (dc_zero_based d) digits n cs ->
  yields c (format_digits (S depth) c T d n) n cs.
Proof.
  intros Hc Hcol Hfit Hn He Hr Hnum. unfold enough, digit_numeral in *.
  destruct (dc_has_zero_digit d) eqn:Hz; [|destruct (dc_zero_based d) eqn:Hzb].
  - destruct (format_depth_with_zero depth c T d digits n) as (cs' & Hnum' & Hy); try assumption.
    rewrite (positional_numeral_fun _ _ _ _ Hnum Hnum'). exact Hy.
  - destruct (format_depth_from_zero depth c T d digits n) as (cs' & Hnum' & Hy); try assumption.
    rewrite (bijective_numeral_fun _ _ _ _ Hnum Hnum'). exact Hy.
  - destruct Hnum as [Hn0 Hnum].
    pose proof (format_depth_from_one depth c T d digits n Hc Hcol Hz Hzb Hr He Hfit Hn) as H.
    destruct (N.eqb_spec n 0); [contradiction|]. destruct H as (cs' & Hnum' & Hy).
    rewrite (bijective_numeral_fun _ _ _ _ Hnum Hnum'). exact Hy.
Qed.

Lemma format_digits_zero depth c T d digits :
  valid_config c -> collects c d digits -> fits c T (N.of_nat (length digits)) ->
  1 <= N.of_nat (length digits) ->
  dc_has_zero_digit d = false -> dc_zero_based d = false ->
  format_digits (S depth) c T d 0 = Ret (Err NoZeroSymbol).
Proof.
  intros Hc Hcol Hfit Hb Hz Hzb.
  pose proof (format_depth_from_one depth c T d digits 0 Hc Hcol Hz Hzb) as H. apply H; try assumption.
  - unfold in_range. rewrite Hzb. destruct (dc_fixed d); [|reflexivity]. cbn [andb]. lia.
  - apply fits_small; [assumption|lia].
Qed.

Lemma digit_numeral_exists z zb digits n : enough z (N.of_nat (length digits)) ->
  (z = false -> zb = false -> n <> 0) -> exists cs, digit_numeral z zb digits n cs.
Proof.
  unfold enough, digit_numeral. intros He Hn. destruct z; [|destruct zb].
  - apply positional_numeral_exists, He.
  - apply bijective_numeral_exists, He.
  - destruct (bijective_numeral_exists digits n He) as (cs & H). exists cs. auto.
Qed.

Lemma digit_numeral_fun z zb digits n cs cs' :
  digit_numeral z zb digits n cs -> digit_numeral z zb digits n cs' -> cs = cs'.
Proof.
  unfold digit_numeral. destruct z; [|destruct zb].
  - apply positional_numeral_fun.
  - apply bijective_numeral_fun.
  - intros [_ H] [_ H']. eapply bijective_numeral_fun; eassumption.
Qed.

Lemma digit_numeral_inj z zb digits n m cs : NoDup digits ->
  digit_numeral z zb digits n cs -> digit_numeral z zb digits m cs -> n = m.
Proof.
  intros Hnd. unfold digit_numeral. destruct z; [|destruct zb].
  - apply positional_numeral_inj, Hnd.
  - intros H H'. pose proof (bijective_numeral_inj _ _ _ _ Hnd H H'). lia.
  - intros [_ H] [_ H']. eapply bijective_numeral_inj; eassumption.
Qed.

(** Too many digits for the type: always the single digit [n]. *)
Lemma format_digits_large depth c T d digits n : valid_config c -> collects c d digits ->
  ~ fits c T (N.of_nat (length digits)) -> fits c T n ->
  yields c (format_digits (S depth) c T d n) n [digit_char digits n].
Proof.
  intros Hc (Hl & Hd & Hu & Hs) Hfit Hn. cbn [format_digits]. rewrite Hl. cbn [obind].
  rewrite try_from_not by assumption.
  assert (n < N.of_nat (length digits)) as Hlt by (unfold fits in *; lia).
  rewrite as_usize_small by lia. rewrite Hd by assumption. cbn [obind].
  destruct (from_char_text c (digit_char digits n)) as (s & E & Ht); [apply digit_char_scalar; assumption|].
  rewrite E. eexists; split; [reflexivity|]. apply stored_text, Ht.
Qed.

(** ** Fixed collections counting from one *)

Lemma single_bijective digits n : 1 <= n <= N.of_nat (length digits) ->
  bijective_numeral digits n [digit_char digits (n - 1)].
Proof.
  intros H. exists [n - 1]. split; [constructor; [lia|constructor]|]. split; [cbn; lia|reflexivity].
Qed.

Lemma single_positional digits n : n < N.of_nat (length digits) ->
  positional_numeral digits n [digit_char digits n].
Proof.
  intros H. exists [n]. split; [constructor; [lia|constructor]|]. split; [exact I|]. split; reflexivity.
Qed.

(** ** The built-in collections *)

Ltac prove_scalars := apply Forall_forall; let x := fresh in let H := fresh in
  intros x H; repeat (destruct H as [<-|H]; [reflexivity|]); destruct H.

Lemma scalars_check cs : forallb is_scalar cs = true -> scalars cs.
Proof. intros H. apply Forall_forall. rewrite forallb_forall in H. exact H. Qed.

Lemma small_length c (l : list N) : valid_config c -> (length l < 256)%nat -> N.of_nat (length l) < 2 ^ usize_bits c.
Proof.
  intros Hc H. apply N.lt_le_trans with (2 ^ 16); [change (2 ^ 16) with 65536; lia|].
  apply N.pow_le_mono_r; [lia|]. apply usize_bits_ge, Hc.
Qed.

Lemma small_fits c T (l : list N) : valid_config c -> (length l < 256)%nat -> fits c T (N.of_nat (length l)).
Proof. intros Hc H. apply fits_small; [assumption|lia]. Qed.

(** A built-in set with a zero digit / without one, given by its table. *)
Lemma builtin_collects c (d : digit_collection) digits :
  valid_config c -> (length digits <? 256)%nat = true -> forallb is_scalar digits = true ->
  (d = impl_digit_set (digit_set_new digits) \/ d = impl_digit_set (digit_set_zeroless digits)) ->
  collects c d digits.
Proof.
  intros Hc Hl Hs [-> | ->]; apply collects_impl; [apply collects_new|apply collects_zeroless];
    try (apply scalars_check; assumption); apply small_length; auto; lia.
Qed.

Lemma hex_collects c letters : valid_config c ->
  (length letters <? 100)%nat = true -> (6 <=? length letters)%nat = true -> forallb is_scalar letters = true ->
  collects c (impl_digit_set (restrict 16 (chain c Decimal (impl_digit_set (digit_set_zeroless letters)))))
    (chars "0123456789" ++ firstn 6 letters).
Proof.
  intros Hc H1 H2 H3.
  assert (collects c Decimal (chars "0123456789")) as Hd by (apply builtin_collects; auto).
  assert (collects c (impl_digit_set (digit_set_zeroless letters)) letters) as Hlet
    by (apply builtin_collects; auto; lia).
  assert (length (chars "0123456789") = 10%nat) as H10 by reflexivity.
  pose proof (collects_chain c _ _ _ _ Hd Hlet) as Hch.
  assert (length (chars "0123456789" ++ letters) < 256)%nat as Hlen by (rewrite app_length, H10; lia).
  rewrite <- app_length in Hch. specialize (Hch (small_length c _ Hc Hlen)).
  assert (16 <= N.of_nat (length (chars "0123456789" ++ letters))) as Hk by (rewrite app_length, H10; lia).
  pose proof (collects_restrict c _ _ 16 Hch Hk) as Hr.
  rewrite firstn_app, H10 in Hr. rewrite firstn_all2 in Hr by (rewrite H10; cbn; lia).
  replace (N.to_nat 16 - 10)%nat with 6%nat in Hr by (cbn; lia).
  apply collects_impl. exact Hr.
Qed.

(** A number out of a fixed set's range formats like the fallback. *)
Lemma fixed_falls_back c T d n flen : valid_config c -> dc_fixed d = true -> dc_zero_based d = false ->
  forall len, dc_len d = Ret len -> fits c T len -> len < n ->
  dc_len (dc_fallback d) = Ret flen -> flen <> 0 ->
  dc_fixed (dc_fallback d) = false ->
  try_format_digits c T d n = try_format_digits c T (dc_fallback d) n.
Proof.
  intros Hc Hf Hzb len Hl Hfit Hn Hfl Hfl0 Hff. unfold try_format_digits.
  destruct Hc as [_ Hd]. destruct (loop_depth c) as [|[|k]]; [lia|lia|].
  cbn [format_digits]. rewrite Hl. cbn [obind]. rewrite try_from_fits by assumption.
  rewrite Hf, Hzb. cbn [andb]. destruct (N.ltb_spec len n); [|lia].
  rewrite Hfl. cbn [obind]. destruct (N.eqb_spec flen 0); [contradiction|].
  rewrite Hff. cbn [andb]. reflexivity.
Qed.
