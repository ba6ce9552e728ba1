(** * PropertiesAssembled: C73, every collection the API can put together

    [Restrict] takes any count, so a collection may claim digits it does not
    have; asking for one panics. This is the exact outcome for every number and
    every collection assembled from digit sets with [one_based], [Chain] and
    [Restrict] to any depth. *)

From Coq Require Import String.
From Verif Require Import Prelude Utf8Facts StringFacts History DigitFacts DigitOrder DigitSets Outcome Cases PropertiesDigital.

(** ** Collections with missing digits *)

(** The collection, its digit at each index if there is one, its length,
    whether the first digit is a zero and whether it counts from zero. A
    [Restrict] changes only the length: the digits behind it remain. *)
Inductive assembled (c : config) : digit_collection -> (N -> option N) -> N -> bool -> bool -> Prop :=
| assembled_new digits : N.of_nat (length digits) < 2 ^ usize_bits c -> scalars digits ->
    assembled c (digit_set_new digits) (fun i => nth_error digits (N.to_nat i)) (N.of_nat (length digits)) true true
| assembled_zeroless digits : N.of_nat (length digits) < 2 ^ usize_bits c -> scalars digits ->
    assembled c (digit_set_zeroless digits) (fun i => nth_error digits (N.to_nat i)) (N.of_nat (length digits)) false true
| assembled_named d f b z zb : assembled c d f b z zb -> assembled c (impl_digit_set d) f b z zb
| assembled_one_based d f b z zb : assembled c d f b z zb -> assembled c (one_based d) f b z false
| assembled_restrict k d f b z zb : assembled c d f b z zb -> k < 2 ^ usize_bits c -> assembled c (restrict k d) f k z zb
| assembled_chain d f b z zb d' f' b' z' zb' : assembled c d f b z zb -> assembled c d' f' b' z' zb' ->
    b + b' < 2 ^ usize_bits c ->
    assembled c (chain c d d') (fun i => if i <? b then f i else f' (i - b)) (b + b') z zb.

Definition answers (c : config) (d : digit_collection) (f : N -> option N) (b : N) (z zb : bool) : Prop :=
  dc_fixed d = false /\ dc_has_zero_digit d = z /\ dc_zero_based d = zb /\ dc_len d = Ret b /\ b < 2 ^ usize_bits c /\
  (forall i, dc_digit d i = or_panic (f i)) /\ (forall i ch, f i = Some ch -> is_scalar ch = true).

Lemma lookup_error (digits : list N) i : lookup digits i = nth_error digits (N.to_nat i).
Proof.
  unfold lookup. destruct (N.ltb_spec i (N.of_nat (length digits))) as [H|H]; [reflexivity|].
  symmetry. apply nth_error_None. lia.
Qed.

Lemma assembled_answers c d f b z zb : assembled c d f b z zb -> answers c d f b z zb.
Proof.
  assert (forall digits i ch, scalars digits -> nth_error digits (N.to_nat i) = Some ch -> is_scalar ch = true) as Hs.
  { intros digits i ch H E. apply nth_error_In in E. unfold scalars in H. rewrite Forall_forall in H. auto. }
  induction 1 as [digits Hl Hd|digits Hl Hd|d f b z zb _ IH|d f b z zb _ IH|k d f b z zb _ IH Hk|d f b z zb d' f' b' z' zb' _ IH _ IH' Hsum].
  - unfold answers. cbn [digit_set_new dc_fixed dc_has_zero_digit dc_zero_based dc_len dc_digit].
    repeat (split; [reflexivity||assumption|]). split; [intros i; rewrite lookup_error; reflexivity|eauto].
  - unfold answers. cbn [digit_set_zeroless dc_fixed dc_has_zero_digit dc_zero_based dc_len dc_digit].
    repeat (split; [reflexivity||assumption|]). split; [intros i; rewrite lookup_error; reflexivity|eauto].
  - destruct IH as (H1 & H2 & H3 & H4 & H5 & H6 & H7). unfold answers. auto 10.
  - destruct IH as (H1 & H2 & H3 & H4 & H5 & H6 & H7). unfold answers. auto 10.
  - destruct IH as (H1 & H2 & H3 & H4 & H5 & H6 & H7). unfold answers. auto 10.
  - destruct IH as (H1 & H2 & H3 & H4 & H5 & H6 & H7), IH' as (H1' & H2' & H3' & H4' & H5' & H6' & H7').
    unfold answers. cbn [chain dc_fixed dc_has_zero_digit dc_zero_based dc_len dc_digit].
    rewrite H4, H4'. cbn [obind]. split; [reflexivity|]. split; [assumption|]. split; [assumption|].
    split; [unfold uadd; cbn [bits]; destruct (N.ltb_spec (b + b') (2 ^ usize_bits c)); [reflexivity|lia]|].
    split; [assumption|]. split.
    + intros i. destruct (N.ltb_spec i b), (N.leb_spec b i); try lia; auto.
    + intros i ch. destruct (i <? b); eauto.
Qed.

(** ** Numerals as lists of indices *)

Definition indices (z zb : bool) (b n : N) (ds : list N) : Prop :=
  below b ds /\
  if z then canonical ds /\ positional_value b ds = n
  else ds <> [] /\ bijective_value b ds = if zb then n + 1 else n.

(** The digits are all there, and read [cs]. *)
Definition spelled (f : N -> option N) (ds cs : list N) : Prop := Forall2 (fun i ch => f i = Some ch) ds cs.

(** One of the two cases of the theorem below always applies. *)
Theorem C73_numerals_exist : forall z zb b n, enough z b -> z || zb = true \/ n <> 0 ->
  exists ds, indices z zb b n ds /\ forall ds', indices z zb b n ds' -> ds' = ds.
Proof.
  intros z zb b n He Hn. destruct z.
  - destruct (canonical_exists b n He) as (ds & H1 & H2 & H3). exists ds. split; [split; auto|].
    intros ds' (H1' & H2' & H3'). eapply positional_unique; try eassumption; [unfold enough in He; lia|congruence].
  - unfold enough in He. destruct (bijective_exists b (if zb then n + 1 else n) He) as (ds & H1 & H2). exists ds.
    assert (ds <> []) as Hne by (intros ->; cbn in H2, Hn; destruct zb; destruct Hn; congruence || lia).
    split; [split; auto|]. intros ds' (H1' & H2' & H3'). eapply bijective_unique; try eassumption. congruence.
Qed.
Print Assumptions C73_numerals_exist.

Theorem C73_complete_or_not : forall f (ds : list N),
  (exists cs, spelled f ds cs) \/ exists hi x lo cs, ds = hi ++ x :: lo /\ f x = None /\ spelled f lo cs.
Proof.
  intros f ds. induction ds as [|x ds [(cs & IH)|(hi & y & lo & cs & -> & Hy & Hl)]].
  - left. exists []. constructor.
  - destruct (f x) as [ch|] eqn:E; [left; exists (ch :: cs); constructor; assumption|right; exists [], x, ds, cs; auto].
  - right. exists (x :: hi), y, lo, cs. auto.
Qed.
Print Assumptions C73_complete_or_not.

(** ** Loops that may panic *)

Definition guard {S R} (body : S -> outcome (loop_step S R)) (s : S) : outcome (loop_step S (option R)) :=
  match body s with
  | Ret (Continue s') => Ret (Continue s')
  | Ret (Break r) => Ret (Break (Some r))
  | Panic => Ret (Break None)
  | Hang => Hang
  | UB => UB
  end.

Lemma run_loop_guard {S R} c (body : S -> outcome (loop_step S R)) s r :
  run_loop c (guard body) s = Ret r -> run_loop c body s = match r with Some r => Ret r | None => Panic end.
Proof.
  assert (forall k s, iterate k body s = match iterate k (guard body) s with
    | Ret (Continue s') => Ret (Continue s') | Ret (Break (Some r)) => Ret (Break r) | Ret (Break None) => Panic
    | Panic => iterate k body s | Hang => Hang | UB => UB end /\ iterate k (guard body) s <> Panic) as H.
  { induction k as [|k IH]; intros s0; cbn [iterate].
    - unfold guard. destruct (body s0) as [[s'|r0]| | |]; split; try reflexivity; discriminate.
    - destruct (IH s0) as [E1 E2]. rewrite E1.
      destruct (iterate k (guard body) s0) as [[s'|[r0|]]| | |]; cbn [obind]; try (split; [reflexivity|discriminate]).
      + destruct (IH s') as [E3 E4]. rewrite E3. split; [|exact E4].
        destruct (iterate k (guard body) s') as [[s''|[r0|]]| | |]; reflexivity || congruence.
      + congruence. }
  unfold run_loop. destruct (H (loop_depth c) s) as [-> _]. destruct (iterate _ (guard body) s) as [[s'|[r0|]]| | |]; cbn [obind];
    intros E; try discriminate; injection E as <-; reflexivity.
Qed.

Definition at_state (b rem : N) (first : bool) (s : nominal_string) : digit_loop :=
  {| dl_remaining := rem; dl_first_loop := first; dl_count := b; dl_formatted := s |}.

Definition finishes (c : config) (f : N -> option N) (n : N) (ds cs : list N) (r : option (result nominal_string error)) : Prop :=
  (forall cs', spelled f ds cs' -> exists res, r = Some res /\ stored c n (cs' ++ cs) res) /\
  (forall hi x lo cs', ds = hi ++ x :: lo -> f x = None -> spelled f lo cs' ->
     r = if room c (cs' ++ cs) then None else Some (Err (OutOfMemory n))).

Lemma spelled_last f ds x cs : spelled f (ds ++ [x]) cs -> exists cs' ch, cs = cs' ++ [ch] /\ spelled f ds cs' /\ f x = Some ch.
Proof.
  intros H. apply Forall2_app_inv_l in H as (cs' & l & H1 & H2 & ->). inversion H2; subst. inversion H5; subst. eauto 6.
Qed.

Lemma text_room c s cs : text c s cs -> room c cs = true.
Proof.
  intros H. pose proof (stored_text c 0 s cs H) as H'. unfold stored in H'. destruct (room c cs); [reflexivity|discriminate].
Qed.

(** One turn of the loop with digit [x] and [v] left, then the rest. *)
Lemma turn_then c T d f b z zb n rem first s cs (sub : bool) v x ds k :
  answers c d f b z zb -> fits c T b ->
  text c s cs -> (rem =? 0) && negb first = false ->
  sub = negb z && (negb zb || negb first) ->
  rem = v * b + x + (if sub then 1 else 0) -> x < b ->
  (forall s' ch, f x = Some ch -> text c s' (ch :: cs) ->
     loops (guard (digit_loop_body c T d n)) k (at_state b v false s') (finishes c f n ds (ch :: cs))) ->
  loops (guard (digit_loop_body c T d n)) (k + 1) (at_state b rem first s) (finishes c f n (ds ++ [x]) cs).
Proof.
  intros (Hfix & Hz & Hzb & Hlen & Husize & Hdig & Hscal) Hfit Ht Hgo Hsub Hrem Hx Hrest.
  assert (b <> 0) as Hb by lia.
  assert (guard (digit_loop_body c T d n) (at_state b rem first s) =
    match f x with
    | None => Ret (Break None)
    | Some ch =>
      '(formatted, pushed) <- try_push_front c s ch ;;
      match pushed with
      | Err OutOfMemoryError => Ret (Break (Some (Err (OutOfMemory n))))
      | Ok _ => Ret (Continue (at_state b v false formatted))
      end
    end) as E.
  { unfold guard, digit_loop_body. cbn [at_state dl_remaining dl_first_loop dl_count dl_formatted]. unfold is_zero.
    replace (negb (rem =? 0) || first) with true by (destruct (rem =? 0), first; try reflexivity; discriminate).
    rewrite Hz, Hzb, <- Hsub.
    replace (sub && negb z && (rem =? 0)) with false.
    2:{ destruct sub; [|reflexivity]. destruct (N.eqb_spec rem 0); [lia|]. rewrite andb_false_r; reflexivity. }
    assert ((if sub then usub c (bits c T) rem 1 else Ret rem) = Ret (v * b + x)) as ->.
    { destruct sub; [rewrite usub_le by lia|]; f_equal; lia. }
    cbn [obind]. rewrite urem_nz by assumption. cbn [obind].
    destruct (div_mod_last b v x Hx) as [Ediv Emod]. rewrite Emod.
    rewrite as_usize_small by lia. rewrite Hdig. destruct (f x) as [ch|] eqn:Ef; cbn [or_panic obind]; [|reflexivity].
    destruct (push_front_pushed c s cs ch Ht (Hscal _ _ Ef)) as [(s' & E & Ht')|[E Hroom]]; rewrite E; cbn [obind].
    - rewrite udiv_nz by assumption. cbn [obind]. rewrite Ediv, Hlen. cbn [obind].
      rewrite try_from_fits by assumption. reflexivity.
    - reflexivity. }
  destruct (f x) as [ch|] eqn:Ef.
  - assert (forall hi y lo cs', ds ++ [x] = hi ++ y :: lo -> f y = None -> spelled f lo cs' ->
      exists lo' cs0, lo = lo' ++ [x] /\ cs' = cs0 ++ [ch] /\ spelled f lo' cs0 /\ ds = hi ++ y :: lo') as Hsplit.
    { intros hi y lo cs' Eds Hy Hl. destruct lo as [|w lo _] using rev_ind.
      - apply app_inj_tail in Eds as [_ <-]. congruence.
      - apply spelled_last in Hl as (cs0 & ch' & -> & Hl & Ew). rewrite app_comm_cons, app_assoc in Eds.
        apply app_inj_tail in Eds as [-> ->]. exists lo, cs0. assert (ch' = ch) as -> by congruence. auto. }
    destruct (push_front_pushed c s cs ch Ht (Hscal _ _ Ef)) as [(s' & E' & Ht')|[E' Hroom]]; rewrite E' in E; cbn [obind] in E.
    + eapply loops_step; [exact E|lia|].
      eapply loops_weaken; [| |apply Hrest; [reflexivity|exact Ht']]; [lia|].
      intros r [Hr1 Hr2]. split.
      * intros cs' Hs. apply spelled_last in Hs as (cs0 & ch' & -> & Hs & Ew). assert (ch' = ch) as -> by congruence.
        rewrite <- app_assoc. apply Hr1, Hs.
      * intros hi y lo cs' Eds Hy Hl. destruct (Hsplit hi y lo cs' Eds Hy Hl) as (lo' & cs0 & -> & -> & Hl' & Eds').
        rewrite <- app_assoc. eapply Hr2; eassumption.
    + eapply loops_break; [exact E|lia|]. split.
      * intros cs' Hs. apply spelled_last in Hs as (cs0 & ch' & -> & Hs & Ew). assert (ch' = ch) as -> by congruence.
        eexists. split; [reflexivity|]. rewrite <- app_assoc. apply stored_oom, room_false_post, Hroom.
      * intros hi y lo cs' Eds Hy Hl. destruct (Hsplit hi y lo cs' Eds Hy Hl) as (lo' & cs0 & -> & -> & Hl' & Eds').
        rewrite <- app_assoc. cbn [app]. rewrite (room_false_post c cs0 _ Hroom). reflexivity.
  - eapply loops_break; [exact E|lia|]. split.
    + intros cs' Hs. apply spelled_last in Hs as (cs0 & ch' & -> & Hs & Ew). congruence.
    + intros hi y lo cs' Eds Hy Hl. destruct lo as [|w lo _] using rev_ind.
      * inversion Hl; subst. cbn [app]. rewrite (text_room c s cs Ht). reflexivity.
      * apply spelled_last in Hl as (cs0 & ch' & -> & Hl & Ew). rewrite app_comm_cons, app_assoc in Eds.
        apply app_inj_tail in Eds as [_ ->]. congruence.
Qed.

Lemma finishes_now c f n s cs : text c s cs -> finishes c f n [] cs (Some (Ok s)).
Proof.
  intros Ht. split.
  - intros cs' H. inversion H; subst. eexists. split; [reflexivity|]. apply stored_text, Ht.
  - intros hi x lo cs' E. destruct hi; discriminate.
Qed.

Lemma later_zero c T d f b zb n : answers c d f b true zb -> fits c T b -> 2 <= b ->
  forall ds s cs, below b ds -> trimmed ds -> text c s cs ->
    loops (guard (digit_loop_body c T d n)) (positional_value b ds + 1) (at_state b (positional_value b ds) false s)
      (finishes c f n ds cs).
Proof.
  intros Ha Hfit Hb. induction ds as [|x ds IH] using rev_ind; intros s cs Hbel Htr Ht.
  - apply loops_break with (r := Some (Ok s)); [reflexivity|lia|]. apply finishes_now, Ht.
  - pose proof (positional_pos b (ds ++ [x]) ltac:(lia) Htr ltac:(destruct ds; discriminate)) as Hpos.
    rewrite positional_value_app in *. apply below_last in Hbel as [Hbel Hx].
    eapply (turn_then c T d f b true zb n _ false s cs false (positional_value b ds) x ds); try eassumption.
    + destruct (N.eqb_spec (positional_value b ds * b + x) 0); [lia|reflexivity].
    + reflexivity.
    + lia.
    + intros s' ch Hf Ht'. eapply loops_weaken; [|intros r Hr; exact Hr|apply IH; try assumption; eapply trimmed_app, Htr]. nia.
Qed.

Lemma later_bijective c T d f b zb n : answers c d f b false zb -> fits c T b -> 1 <= b ->
  forall ds first s cs, below b ds -> (first = true -> zb = false /\ ds <> []) -> text c s cs ->
    loops (guard (digit_loop_body c T d n)) (bijective_value b ds + 1) (at_state b (bijective_value b ds) first s)
      (finishes c f n ds cs).
Proof.
  intros Ha Hfit Hb. induction ds as [|x ds IH] using rev_ind; intros first s cs Hbel Hf Ht.
  - destruct first; [destruct (Hf eq_refl); congruence|].
    apply loops_break with (r := Some (Ok s)); [reflexivity|lia|]. apply finishes_now, Ht.
  - rewrite bijective_value_app. apply below_last in Hbel as [Hbel Hx].
    eapply (turn_then c T d f b false zb n _ first s cs true (bijective_value b ds) x ds); try eassumption.
    + destruct (N.eqb_spec (bijective_value b ds * b + (x + 1)) 0); [lia|reflexivity].
    + destruct first; [destruct (Hf eq_refl) as [-> _]; reflexivity|]. cbn. rewrite orb_true_r. reflexivity.
    + lia.
    + intros s' ch Hfx Ht'. eapply loops_weaken; [|intros r Hr; exact Hr|apply (IH false); try assumption; discriminate]. nia.
Qed.

Lemma whole_loop c T d f b z zb n ds : answers c d f b z zb -> fits c T b -> enough z b -> indices z zb b n ds ->
  loops (guard (digit_loop_body c T d n)) (n + 2) (at_state b n true new_reverse) (finishes c f n ds []).
Proof.
  intros Ha Hfit He (Hbel & Hi). destruct z; [destruct Hi as [Hcan Hv]|destruct Hi as [Hne Hv]; destruct zb].
  - destruct ds as [|x ds _] using rev_ind; [destruct Hcan|]. apply canonical_app in Hcan.
    apply below_last in Hbel as [Hbel Hx]. rewrite positional_value_app in Hv. unfold enough in He.
    eapply loops_weaken; [|intros r Hr; exact Hr|eapply (turn_then c T d f b true zb n n true new_reverse [] false (positional_value b ds) x ds
      (positional_value b ds + 1)); try eassumption].
    + nia.
    + apply text_new_reverse.
    + apply andb_false_r.
    + reflexivity.
    + lia.
    + intros s' ch _ Ht. apply (later_zero c T d f b zb n Ha Hfit He ds); assumption.
  - destruct ds as [|x ds _] using rev_ind; [congruence|]. apply below_last in Hbel as [Hbel Hx].
    rewrite bijective_value_app in Hv. unfold enough in He.
    eapply loops_weaken; [|intros r Hr; exact Hr|eapply (turn_then c T d f b false true n n true new_reverse [] false (bijective_value b ds) x ds
      (bijective_value b ds + 1)); try eassumption].
    + nia.
    + apply text_new_reverse.
    + apply andb_false_r.
    + reflexivity.
    + lia.
    + intros s' ch _ Ht. apply (later_bijective c T d f b true n Ha Hfit He ds false); [assumption|discriminate|assumption].
  - eapply loops_weaken; [|intros r Hr; exact Hr|]; [|rewrite <- Hv at 2; apply (later_bijective c T d f b false n Ha Hfit He ds true);
      [assumption|auto|apply text_new_reverse]]. lia.
Qed.

(** ** C73 *)

(** All digits there: the numeral. One missing: the digits behind the last
    missing one are written first, so they decide between a panic and running
    out of room. *)
Theorem C73_every_number : forall c T d f b z zb n ds,
  valid_config c -> assembled c d f b z zb -> fits c T b -> fits c T n -> enough z b -> indices z zb b n ds ->
  (forall cs, spelled f ds cs -> prints c (try_format_digits c T d n) n cs) /\
  (forall hi x lo cs, ds = hi ++ x :: lo -> f x = None -> spelled f lo cs ->
     try_format_digits c T d n = if has_alloc c || at_most_62 (utf8 cs) then Panic else Ret (Err (OutOfMemory n))).
Proof.
  intros c T d f b z zb n ds Hc Ha Hfit Hn He Hi. apply assembled_answers in Ha.
  pose proof (whole_loop c T d f b z zb n ds Ha Hfit He Hi) as L.
  assert (n + 2 <= 2 ^ 128 + 2) as Hk by (pose proof (fits_128 c T n Hc Hn); lia).
  destruct (loops_run c _ _ _ _ Hc Hk L) as (r & E & Hr1 & Hr2).
  apply run_loop_guard in E.
  assert (try_format_digits c T d n = run_loop c (digit_loop_body c T d n) (at_state b n true new_reverse)) as ->.
  { destruct Ha as (Hf & _ & _ & Hlen & _). unfold try_format_digits. destruct (depth_succ c Hc) as (k & Ek). rewrite Ek.
    cbn [format_digits]. rewrite Hlen. cbn [obind]. rewrite try_from_fits by assumption. rewrite Hf. reflexivity. }
  rewrite E. split.
  - intros cs Hs. destruct (Hr1 cs Hs) as (res & -> & Hst). apply yields_prints. exists res. rewrite app_nil_r in Hst. auto.
  - intros hi x lo cs Eds Hx Hl. rewrite (Hr2 hi x lo cs Eds Hx Hl), app_nil_r, room_roomy. unfold roomy.
    destruct (has_alloc c || at_most_62 (utf8 cs)); reflexivity.
Qed.
Print Assumptions C73_every_number.

Lemma panic_loop {S R} c (body : S -> outcome (loop_step S R)) s : body s = Panic -> run_loop c body s = Panic.
Proof.
  intros H. assert (forall i, iterate i body s = Panic) as Hi.
  { induction i as [|i IH]; cbn [iterate]; [assumption|]. rewrite IH. reflexivity. }
  unfold run_loop. rewrite Hi. reflexivity.
Qed.

(** The rest: more digits than the type can count, no numeral of the number,
    no digits at all, and a zero digit alone. *)
Theorem C73_remaining : forall c T d f b z zb n,
  valid_config c -> assembled c d f b z zb -> fits c T n ->
  (~ fits c T b ->
     match f n with
     | Some ch => prints c (try_format_digits c T d n) n [ch]
     | None => try_format_digits c T d n = Panic
     end) /\
  (z = false -> zb = false -> n = 0 -> fits c T b -> try_format_digits c T d n = Ret (Err NoZeroSymbol)) /\
  (b = 0 -> z || zb = true \/ n <> 0 -> try_format_digits c T d n = Panic) /\
  (z = true -> b = 1 ->
     match f 0 with
     | Some ch =>
         if n =? 0 then prints c (try_format_digits c T d n) n [ch]
         else try_format_digits c T d n = if has_alloc c then Hang else Ret (Err (OutOfMemory n))
     | None => try_format_digits c T d n = Panic
     end).
Proof.
  intros c T d f b z zb n Hc Ha Hn. apply assembled_answers in Ha.
  assert (fits c T b -> try_format_digits c T d n = run_loop c (digit_loop_body c T d n) (at_state b n true new_reverse)) as Hrun.
  { intros Hfit. destruct Ha as (Hf & _ & _ & Hlen & _). unfold try_format_digits. destruct (depth_succ c Hc) as (k & Ek).
    rewrite Ek. cbn [format_digits]. rewrite Hlen. cbn [obind]. rewrite try_from_fits by assumption. rewrite Hf. reflexivity. }
  pose proof Ha as (Hfix & Hz & Hzb & Hlen & Husize & Hdig & Hscal). split; [|split; [|split]].
  - intros Hfit. assert (n < 2 ^ usize_bits c) as Hnu.
    { unfold fits in *. lia. }
    unfold try_format_digits. destruct (depth_succ c Hc) as (k & Ek). rewrite Ek. cbn [format_digits]. rewrite Hlen. cbn [obind].
    assert (try_from c T b = None) as ->.
    { unfold try_from. unfold fits in Hfit. destruct (N.ltb_spec b (2 ^ bits c T)); [contradiction|reflexivity]. }
    rewrite as_usize_small, Hdig by assumption. destruct (f n) as [ch|] eqn:Ef; cbn [or_panic obind]; [|reflexivity].
    apply yields_prints. destruct (from_char_text c ch (Hscal _ _ Ef)) as (s & -> & Ht). cbn [obind].
    exists (Ok s). split; [reflexivity|]. apply stored_text, Ht.
  - intros -> -> -> Hfit. rewrite Hrun by assumption.
    eapply runs_run_loop; [constructor|apply budget; [assumption|lia]].
    unfold digit_loop_body, at_state. cbn [dl_remaining dl_first_loop]. rewrite Hz, Hzb. reflexivity.
  - intros -> Hn0. rewrite Hrun by (apply fits_small; [assumption|lia]). apply panic_loop.
    unfold digit_loop_body, at_state, is_zero. cbn [dl_remaining dl_first_loop dl_count dl_formatted]. rewrite Hz, Hzb, orb_true_r.
    assert (negb z && (negb zb || negb true) && negb z && (n =? 0) = false) as ->.
    { destruct (N.eqb_spec n 0), z, zb; try reflexivity. destruct Hn0; [discriminate|contradiction]. }
    destruct (negb z && (negb zb || negb true)) eqn:Es; cbn [obind]; [|reflexivity].
    rewrite usub_le; [reflexivity|]. destruct z, zb; try discriminate. destruct Hn0; [discriminate|lia].
  - intros -> ->. assert (fits c T 1) as Hfit by (apply fits_small; [assumption|lia]). rewrite Hrun by assumption.
    destruct (f 0) as [ch|] eqn:Ef.
    + assert (collects c d [ch]) as Hcol.
      { split; [exact Hlen|]. split; [|split; [exact Husize|]].
        - intros i Hi. cbn in Hi. assert (i = 0) as -> by lia. rewrite Hdig, Ef. reflexivity.
        - constructor; [eauto|constructor]. }
      destruct (N.eqb_spec n 0) as [->|Hn0].
      * apply yields_prints.
        assert (text c new_reverse []) as Ht by apply text_new_reverse.
        assert (loops (guard (digit_loop_body c T d 0)) (1 + 1) (at_state 1 0 true new_reverse) (finishes c f 0 ([] ++ [0]) [])) as L.
        { eapply turn_then with (sub := false) (v := 0); try eassumption; try reflexivity.
          intros s' ch' _ Ht'. apply loops_break with (r := Some (Ok s')); [reflexivity|lia|]. apply finishes_now, Ht'. }
        assert (1 + 1 <= 2 ^ 128 + 2) as Hk by lia.
        destruct (loops_run c _ _ _ _ Hc Hk L) as (r & E & Hr & _).
        apply run_loop_guard in E. destruct (Hr [ch]) as (res & -> & Hst); [constructor; [exact Ef|constructor]|].
        exists res. split; [exact E|exact Hst].
      * apply (one_digit_forever c T d ch n); try assumption. lia.
    + apply panic_loop. unfold digit_loop_body, at_state, is_zero. cbn [dl_remaining dl_first_loop dl_count dl_formatted].
      rewrite Hz, orb_true_r. cbn [andb negb obind]. rewrite urem_nz, N.mod_1_r by discriminate. cbn [obind].
      rewrite as_usize_small by lia. rewrite Hdig, Ef. reflexivity.
Qed.
Print Assumptions C73_remaining.

(** A restriction to more than there is, and its restriction to less. *)
Definition thirteen : digit_collection := restrict 13 (chain on_heap (digit_set_new abc) (digit_set_zeroless [0x64])).

Example C73_case :
  assembled on_heap thirteen (fun i => if i <? 3 then nth_error abc (N.to_nat i) else nth_error [0x64] (N.to_nat (i - 3))) 13 true true /\
  indices true true 13 15 [1; 2] /\ seen (try_format_digits on_heap U8 thirteen 15) = Ret (Ok (bytes "bc"%string)) /\
  indices true true 13 17 [1; 4] /\ seen (try_format_digits on_heap U8 thirteen 17) = Panic /\
  indices true true 13 53 [4; 1] /\ seen (try_format_digits on_heap U8 thirteen 53) = Panic /\
  seen (try_format_digits on_heap U8 (restrict 4 thirteen) 17) = Ret (Ok (bytes "bab"%string)) /\
  seen (try_format_digits no_heap U8 (restrict 300 (digit_set_new abc)) 2) = Ret (Ok (bytes "c"%string)) /\
  seen (try_format_digits no_heap U8 (restrict 300 (digit_set_new abc)) 3) = Panic /\
  seen (try_format_digits no_heap U16 (restrict 1 (digit_set_new abc)) 3) = Ret (Err (OutOfMemory 3)) /\
  seen (try_format_digits no_heap U16 (restrict 1 (digit_set_new [])) 3) = Panic.
Proof.
  split.
  - apply assembled_restrict with (b := 4) (zb := true) (z := true); [|vm_compute; reflexivity].
    apply (assembled_chain on_heap (digit_set_new abc) (fun i => nth_error abc (N.to_nat i)) 3 true true
      (digit_set_zeroless [0x64]) (fun i => nth_error [0x64] (N.to_nat i)) 1 false true).
    + apply assembled_new; [vm_compute; reflexivity|repeat constructor].
    + apply assembled_zeroless; [vm_compute; reflexivity|repeat constructor].
    + vm_compute. reflexivity.
  - split; [repeat split; repeat constructor; discriminate|].
    split; [vm_compute; reflexivity|]. split; [repeat split; repeat constructor; discriminate|].
    split; [vm_compute; reflexivity|]. split; [repeat split; repeat constructor; discriminate|].
    repeat (split; [vm_compute; reflexivity|]). vm_compute. reflexivity.
Qed.
