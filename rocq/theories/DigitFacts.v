(** * DigitFacts: the digit formatter prints positional and bijective numerals *)

From Coq Require Import String.
From Verif Require Import Prelude Utf8Facts StringFacts History Outcome.

(** ** Digit lists *)

Lemma positional_value_app b ds d : positional_value b (ds ++ [d]) = positional_value b ds * b + d.
Proof. unfold positional_value. rewrite fold_left_app. reflexivity. Qed.

Lemma bijective_value_app b ds d : bijective_value b (ds ++ [d]) = bijective_value b ds * b + (d + 1).
Proof. unfold bijective_value. rewrite fold_left_app. reflexivity. Qed.

Lemma below_app b ds es : below b (ds ++ es) <-> below b ds /\ below b es.
Proof. apply Forall_app. Qed.

Lemma below_last b ds d : below b (ds ++ [d]) <-> below b ds /\ d < b.
Proof. rewrite below_app. unfold below. rewrite Forall_cons_iff. intuition constructor. Qed.

(** No leading zero; the empty list stands for nothing left to print. *)
Definition trimmed (ds : list N) : Prop := match ds with [] => True | d :: _ => d <> 0 end.

Lemma trimmed_app ds d : trimmed (ds ++ [d]) -> trimmed ds.
Proof. destruct ds; cbn; auto. Qed.

Lemma trimmed_last ds d : ds <> [] -> trimmed ds -> trimmed (ds ++ [d]).
Proof. destruct ds; cbn; [congruence|auto]. Qed.

Lemma canonical_app ds d : canonical (ds ++ [d]) <-> trimmed ds.
Proof.
  destruct ds as [|x [|y ds]]; cbn; intuition.
Qed.

Lemma positional_pos b ds : 1 <= b -> trimmed ds -> ds <> [] -> 1 <= positional_value b ds.
Proof.
  intros Hb. induction ds as [|d ds IH] using rev_ind; intros Ht Hn; [congruence|].
  rewrite positional_value_app. destruct ds as [|x ds].
  - cbn in *. lia.
  - specialize (IH (trimmed_app _ _ Ht) ltac:(discriminate)). nia.
Qed.

Lemma div_mod_last b v d : d < b -> (v * b + d) / b = v /\ (v * b + d) mod b = d.
Proof.
  intros H. assert (b <> 0) by lia. split.
  - rewrite N.add_comm, N.div_add, N.div_small by assumption. lia.
  - rewrite N.add_comm, N.mod_add by assumption. apply N.mod_small; assumption.
Qed.

(** Every number has digits. *)
Lemma positional_exists b n : 2 <= b ->
  exists ds, below b ds /\ trimmed ds /\ positional_value b ds = n.
Proof.
  intros Hb. induction n as [n IH] using (well_founded_induction N.lt_wf_0).
  destruct (N.eq_dec n 0) as [->|Hn].
  - exists []. repeat split. constructor.
  - pose proof (N.div_mod' n b) as E. pose proof (N.mod_lt n b ltac:(lia)) as Hm.
    destruct (IH (n / b)) as (ds & H1 & H2 & H3); [apply N.div_lt; lia|].
    exists (ds ++ [n mod b]). split; [apply below_last; auto|].
    split; [|rewrite positional_value_app, H3; lia].
    destruct ds as [|x ds]; [|exact H2]. cbn in *.
    intros E0. rewrite <- H3, E0 in E. lia.
Qed.

Lemma canonical_exists b n : 2 <= b ->
  exists ds, below b ds /\ canonical ds /\ positional_value b ds = n.
Proof.
  intros Hb. destruct (positional_exists b (n / b) Hb) as (ds & H1 & H2 & H3).
  pose proof (N.div_mod' n b). pose proof (N.mod_lt n b ltac:(lia)).
  exists (ds ++ [n mod b]). split; [apply below_last; auto|].
  split; [apply canonical_app, H2|]. rewrite positional_value_app, H3. lia.
Qed.

Lemma bijective_exists b n : 1 <= b -> exists ds, below b ds /\ bijective_value b ds = n.
Proof.
  intros Hb. induction n as [n IH] using (well_founded_induction N.lt_wf_0).
  destruct (N.eq_dec n 0) as [->|Hn].
  - exists []. split; [constructor|reflexivity].
  - pose proof (N.div_mod' (n - 1) b). pose proof (N.mod_lt (n - 1) b ltac:(lia)).
    destruct (IH ((n - 1) / b)) as (ds & H1 & H2).
    { apply N.le_lt_trans with (n - 1); [|lia]. apply N.div_le_upper_bound; nia. }
    exists (ds ++ [(n - 1) mod b]). split; [apply below_last; auto|].
    rewrite bijective_value_app, H2. lia.
Qed.

(** ** Digit collections *)

(** The collection [d] has the digits [digits]: [len] and [digit] answer
    accordingly, and a slice of that length can exist. *)
Definition collects (c : config) (d : digit_collection) (digits : list N) : Prop :=
  dc_len d = Ret (N.of_nat (length digits)) /\
  (forall i, i < N.of_nat (length digits) -> dc_digit d i = Ret (digit_char digits i)) /\
  N.of_nat (length digits) < 2 ^ usize_bits c /\ scalars digits.

Lemma digit_char_scalar digits i : scalars digits -> i < N.of_nat (length digits) ->
  is_scalar (digit_char digits i) = true.
Proof.
  intros H Hi. unfold scalars in H. rewrite Forall_forall in H. apply H. apply nth_In. lia.
Qed.

Lemma map_digits_scalars digits ds : scalars digits -> below (N.of_nat (length digits)) ds ->
  scalars (map (digit_char digits) ds).
Proof.
  intros Hs Hb. apply Forall_forall. intros x Hx. apply in_map_iff in Hx as (i & <- & Hi).
  apply digit_char_scalar; [assumption|]. unfold below in Hb. rewrite Forall_forall in Hb. auto.
Qed.

Section Loop.
Variables (c : config) (T : uint) (d : digit_collection) (digits : list N) (n : N).
Hypothesis Hcol : collects c d digits.
Let b := N.of_nat (length digits).
Hypothesis Hfit : fits c T b.

Definition state (rem : N) (first : bool) (s : nominal_string) : digit_loop :=
  {| dl_remaining := rem; dl_first_loop := first; dl_count := b; dl_formatted := s |}.

(** One turn that prints digit [x] and leaves [v]. *)
Lemma turn rem first s cs (sub : bool) v x :
  text c s cs -> (rem =? 0) && negb first = false ->
  sub = negb (dc_has_zero_digit d) && (negb (dc_zero_based d) || negb first) ->
  rem = v * b + x + (if sub then 1 else 0) -> x < b ->
  (exists s', digit_loop_body c T d n (state rem first s) = Ret (Continue (state v false s')) /\
              text c s' (digit_char digits x :: cs)) \/
  (digit_loop_body c T d n (state rem first s) = Ret (Break (Err (OutOfMemory n))) /\
   room c (digit_char digits x :: cs) = false).
Proof.
  intros Ht Hgo Hsub Hrem Hx. destruct Hcol as (Hlen & Hdig & Husize & Hscal).
  assert (b <> 0) as Hb by lia. assert (rem - (if sub then 1 else 0) = v * b + x) as Hr by (destruct sub; lia).
  unfold digit_loop_body. cbn [state dl_remaining dl_first_loop dl_count dl_formatted]. unfold is_zero.
  replace (negb (rem =? 0) || first) with true by (destruct (rem =? 0), first; try reflexivity; discriminate).
  rewrite <- Hsub.
  replace (sub && negb (dc_has_zero_digit d) && (rem =? 0)) with false.
  2:{ destruct sub; [|reflexivity]. destruct (N.eqb_spec rem 0); [lia|]. rewrite andb_false_r; reflexivity. }
  assert ((if sub then usub c (bits c T) rem 1 else Ret rem) = Ret (v * b + x)) as ->.
  { destruct sub; [rewrite usub_le by lia|]; f_equal; lia. }
  cbn [obind]. rewrite urem_nz by assumption. cbn [obind].
  destruct (div_mod_last b v x Hx) as [Ediv Emod]. rewrite Emod.
  rewrite as_usize_small by (unfold b in *; lia). rewrite Hdig by assumption. cbn [obind].
  destruct (push_front_pushed c s cs (digit_char digits x) Ht (digit_char_scalar _ _ Hscal Hx))
    as [(s' & E & Ht')|[E Hroom]]; rewrite E; cbn [obind].
  - left. rewrite udiv_nz by assumption. cbn [obind]. rewrite Ediv, Hlen. cbn [obind].
    rewrite try_from_fits by assumption. exists s'. split; [reflexivity|assumption].
  - right. split; [reflexivity|assumption].
Qed.

(** The loop after the first turn, with a zero digit. *)
Lemma zero_loop : dc_has_zero_digit d = true -> 2 <= b ->
  forall ds s cs, below b ds -> trimmed ds -> text c s cs ->
    loops (digit_loop_body c T d n) (positional_value b ds + 1) (state (positional_value b ds) false s)
      (stored c n (map (digit_char digits) ds ++ cs)).
Proof.
  intros Hz Hb. induction ds as [|x ds IH] using rev_ind; intros s cs Hbel Htr Ht.
  - apply loops_break with (r := Ok s); [reflexivity|lia|]. apply stored_text, Ht.
  - pose proof (positional_pos b (ds ++ [x]) ltac:(lia) Htr ltac:(destruct ds; discriminate)) as Hpos.
    rewrite positional_value_app in *. apply below_last in Hbel as [Hbel Hx].
    rewrite map_app, <- app_assoc. cbn [map app].
    destruct (turn (positional_value b ds * b + x) false s cs false (positional_value b ds) x Ht)
      as [(s' & E & Ht')|[E Hroom]]; try (rewrite ?Hz; cbn; lia).
    + eapply loops_step; [exact E|lia|]. eapply loops_weaken; [|intros r Hr; exact Hr|apply IH; try assumption].
      * nia.
      * eapply trimmed_app, Htr.
    + eapply loops_break; [exact E|lia|]. apply stored_oom, room_false_post, Hroom.
Qed.

(** The loop after the first turn, or from the start when counting from one,
    without a zero digit. *)
Lemma bijective_loop : dc_has_zero_digit d = false -> 1 <= b ->
  forall ds first s cs, below b ds -> (first = true -> dc_zero_based d = false /\ ds <> []) -> text c s cs ->
    loops (digit_loop_body c T d n) (bijective_value b ds + 1) (state (bijective_value b ds) first s)
      (stored c n (map (digit_char digits) ds ++ cs)).
Proof.
  intros Hz Hb. induction ds as [|x ds IH] using rev_ind; intros first s cs Hbel Hf Ht.
  - destruct first; [destruct (Hf eq_refl); congruence|].
    apply loops_break with (r := Ok s); [reflexivity|lia|]. apply stored_text, Ht.
  - rewrite bijective_value_app. apply below_last in Hbel as [Hbel Hx].
    rewrite map_app, <- app_assoc. cbn [map app].
    destruct (turn (bijective_value b ds * b + (x + 1)) first s cs true (bijective_value b ds) x Ht)
      as [(s' & E & Ht')|[E Hroom]]; try lia.
    + rewrite Hz. destruct first; [destruct (Hf eq_refl) as [-> _]; reflexivity|].
      cbn. rewrite orb_true_r. reflexivity.
    + eapply loops_step; [exact E|lia|].
      eapply loops_weaken; [|intros r Hr; exact Hr|apply (IH false); try assumption; discriminate].
      nia.
    + eapply loops_break; [exact E|lia|]. apply stored_oom, room_false_post, Hroom.
Qed.

(** The whole loop in the three counting modes. *)
Lemma loop_zero ds : dc_has_zero_digit d = true -> 2 <= b -> below b ds -> canonical ds ->
  loops (digit_loop_body c T d n) (positional_value b ds + 2)
    (state (positional_value b ds) true new_reverse) (stored c n (map (digit_char digits) ds)).
Proof.
  intros Hz Hb Hbel Hcan. destruct ds as [|x ds _] using rev_ind; [destruct Hcan|].
  apply canonical_app in Hcan. apply below_last in Hbel as [Hbel Hx].
  rewrite positional_value_app, map_app. cbn [map].
  destruct (turn (positional_value b ds * b + x) true new_reverse [] false (positional_value b ds) x
              (text_new_reverse c)) as [(s' & E & Ht')|[E Hroom]]; try (rewrite ?Hz, ?andb_false_r; cbn; lia).
  - eapply loops_step; [exact E|lia|]. eapply loops_weaken; [|intros r Hr; exact Hr|apply zero_loop; assumption]. nia.
  - eapply loops_break; [exact E|lia|]. apply stored_oom, room_false_post, Hroom.
Qed.

Lemma loop_from_zero ds : dc_has_zero_digit d = false -> dc_zero_based d = true -> 1 <= b -> below b ds ->
  ds <> [] ->
  loops (digit_loop_body c T d n) (bijective_value b ds + 1)
    (state (bijective_value b ds - 1) true new_reverse) (stored c n (map (digit_char digits) ds)).
Proof.
  intros Hz Hzb Hb Hbel Hne. destruct ds as [|x ds _] using rev_ind; [congruence|].
  apply below_last in Hbel as [Hbel Hx]. rewrite bijective_value_app, map_app. cbn [map].
  destruct (turn (bijective_value b ds * b + (x + 1) - 1) true new_reverse [] false (bijective_value b ds) x
              (text_new_reverse c)) as [(s' & E & Ht')|[E Hroom]]; try (rewrite ?Hz, ?Hzb, ?andb_false_r; cbn; lia).
  - eapply loops_step; [exact E|lia|].
    eapply loops_weaken; [|intros r Hr; exact Hr|apply bijective_loop; try assumption; discriminate]. nia.
  - eapply loops_break; [exact E|lia|]. apply stored_oom, room_false_post, Hroom.
Qed.

Lemma loop_from_one ds : dc_has_zero_digit d = false -> dc_zero_based d = false -> 1 <= b -> below b ds ->
  ds <> [] ->
  loops (digit_loop_body c T d n) (bijective_value b ds + 1)
    (state (bijective_value b ds) true new_reverse) (stored c n (map (digit_char digits) ds)).
Proof.
  intros Hz Hzb Hb Hbel Hne. rewrite <- (app_nil_r (map _ ds)).
  apply bijective_loop; auto. apply text_new_reverse.
Qed.
End Loop.

(** ** The formatter *)

Lemma depth_pos c : valid_config c -> exists k, loop_depth c = S k.
Proof. intros [_ H]. destruct (loop_depth c); [lia|eauto]. Qed.

(** The collection is used digit by digit: not fixed, or within range. *)
Definition in_range (d : digit_collection) (b n : N) : bool :=
  negb (dc_fixed d && (if dc_zero_based d then b <=? n else b <? n)).

Lemma format_loop depth c T d digits n (P : outcome (result nominal_string error) -> Prop) :
  valid_config c -> collects c d digits -> fits c T (N.of_nat (length digits)) -> fits c T n ->
  in_range d (N.of_nat (length digits)) n = true ->
  P (run_loop c (digit_loop_body c T d n) (state digits n true new_reverse)) ->
  P (format_digits (S depth) c T d n).
Proof.
  intros Hc (Hlen & Hdig & Hu & Hs) Hfit Hn Hr HP. cbn [format_digits]. rewrite Hlen. cbn [obind].
  rewrite try_from_fits by assumption. unfold in_range in Hr.
  destruct (dc_fixed d && _); [discriminate|]. exact HP.
Qed.

Lemma format_depth_with_zero depth c T d digits n : valid_config c -> collects c d digits ->
  dc_has_zero_digit d = true -> in_range d (N.of_nat (length digits)) n = true ->
  2 <= N.of_nat (length digits) -> fits c T (N.of_nat (length digits)) -> fits c T n ->
  exists cs, positional_numeral digits n cs /\ yields c (format_digits (S depth) c T d n) n cs.
Proof.
  intros Hc Hcol Hz Hr Hb Hfit Hn.
  destruct (canonical_exists (N.of_nat (length digits)) n Hb) as (ds & Hbel & Hcan & Hval).
  exists (map (digit_char digits) ds). split; [exists ds; auto|].
  apply format_loop with (digits := digits); try assumption.
  pose proof (loop_zero c T d digits n Hcol Hfit ds Hz Hb Hbel Hcan) as L. rewrite Hval in L.
  eapply loops_run; [assumption| |exact L]. pose proof (fits_128 c T n Hc Hn). lia.
Qed.

Lemma format_depth_from_zero depth c T d digits n : valid_config c -> collects c d digits ->
  dc_has_zero_digit d = false -> dc_zero_based d = true -> in_range d (N.of_nat (length digits)) n = true ->
  1 <= N.of_nat (length digits) -> fits c T (N.of_nat (length digits)) -> fits c T n ->
  exists cs, bijective_numeral digits (n + 1) cs /\ yields c (format_digits (S depth) c T d n) n cs.
Proof.
  intros Hc Hcol Hz Hzb Hr Hb Hfit Hn.
  destruct (bijective_exists (N.of_nat (length digits)) (n + 1) Hb) as (ds & Hbel & Hval).
  exists (map (digit_char digits) ds). split; [exists ds; auto|].
  apply format_loop with (digits := digits); try assumption.
  assert (ds <> []) as Hne by (intros ->; cbn in Hval; lia).
  pose proof (loop_from_zero c T d digits n Hcol Hfit ds Hz Hzb Hb Hbel Hne) as L.
  rewrite Hval, N.add_sub in L.
  eapply loops_run; [assumption| |exact L]. pose proof (fits_128 c T n Hc Hn). lia.
Qed.

Lemma format_depth_from_one depth c T d digits n : valid_config c -> collects c d digits ->
  dc_has_zero_digit d = false -> dc_zero_based d = false -> in_range d (N.of_nat (length digits)) n = true ->
  1 <= N.of_nat (length digits) -> fits c T (N.of_nat (length digits)) -> fits c T n ->
  if n =? 0 then format_digits (S depth) c T d n = Ret (Err NoZeroSymbol)
  else exists cs, bijective_numeral digits n cs /\ yields c (format_digits (S depth) c T d n) n cs.
Proof.
  intros Hc Hcol Hz Hzb Hr Hb Hfit Hn. destruct (N.eqb_spec n 0) as [->|Hn0].
  - apply format_loop with (digits := digits); try assumption.
    eapply runs_run_loop; [|apply budget; [assumption|instantiate (1 := 1); vm_compute; discriminate]].
    constructor. unfold digit_loop_body. cbn. rewrite Hz, Hzb. reflexivity.
  - destruct (bijective_exists (N.of_nat (length digits)) n Hb) as (ds & Hbel & Hval).
    exists (map (digit_char digits) ds). split; [exists ds; auto|].
    apply format_loop with (digits := digits); try assumption.
    assert (ds <> []) as Hne by (intros ->; cbn in Hval; lia).
    pose proof (loop_from_one c T d digits n Hcol Hfit ds Hz Hzb Hb Hbel Hne) as L. rewrite Hval in L.
    eapply loops_run; [assumption| |exact L]. pose proof (fits_128 c T n Hc Hn). lia.
Qed.
