(** * HeapFormatErrors: an error of a formatter leaves the memory alone *)

From Coq Require Import String.
From Verif Require Import Prelude Utf8Facts StringFacts NominalString Spec History Outcome DigitSets ScriptFacts ChineseNumeral
  Digital Additive Enumerated Ethiopic Hebrew Chinese ChineseFacts PropertiesChinese
  HeapMemory HeapFormat PropertiesHeap PropertiesAllocation HeapFormatFacts HeapFormatSim.

Definition immediate (f : action (result held error)) (o : outcome (result nominal_string error)) : Prop :=
  forall m e, o = Ret (Err e) -> f m = Done m (Err e).

(** A loop that ends in its first turn. *)
Lemma repeat_first {S R} d (f : S -> action (loop_step S R)) s m r : f s m = Done m (Break r) -> repeat_action d f s m = Done m (Break r).
Proof. intros E. induction d as [|d IH]; cbn [repeat_action]; [exact E|]. unfold and_then. rewrite IH. reflexivity. Qed.

Lemma loop_first {S R} c (f : S -> action (loop_step S R)) s m r : f s m = Done m (Break r) -> loop_action c f s m = Done m r.
Proof. intros E. unfold loop_action, and_then. rewrite (repeat_first _ f s m r E). reflexivity. Qed.

Lemma iterate_first {S R} d (body : S -> outcome (loop_step S R)) s r : body s = Ret (Break r) -> iterate d body s = Ret (Break r).
Proof. intros E. induction d as [|d IH]; cbn [iterate]; [exact E|]. rewrite IH. reflexivity. Qed.

Lemma run_loop_big {S R} c (body : S -> outcome (loop_step S R)) (BigS : S -> Prop) (Big : R -> Prop) s r :
  (forall s x, BigS s -> body s = Ret x -> step_big BigS Big x) -> BigS s -> run_loop c body s = Ret r -> Big r.
Proof.
  intros Hb Hs E. unfold run_loop in E. destruct (iterate _ _ _) as [[x|x]| | |] eqn:Ei; cbn [obind] in E; try discriminate.
  injection E as <-. exact (iterate_big _ body BigS Big Hb _ _ Hs Ei).
Qed.

Lemma big_new_reverse c : big c 0 new_reverse.
Proof. exists []. split; [apply (good_reads _ new_reverse []), new_reverse_rep|apply N.le_refl]. Qed.

(** ** Digit collections *)

Definition no_zero_stop (d : digit_collection) (s : digit_loop) : bool :=
  negb (dc_has_zero_digit d) && (negb (dc_zero_based d) || negb (dl_first_loop s)) && negb (dc_has_zero_digit d) && is_zero (dl_remaining s).

Lemma digit_body_sure c T d n len count s x : has_alloc c = true -> digits_typed d -> dc_len d = Ret len -> try_from c T len = Some count ->
  big c 0 (dl_formatted s) /\ (dl_first_loop s = true -> no_zero_stop d s = false) -> digit_loop_body c T d n s = Ret x ->
  step_big (fun s => big c 0 (dl_formatted s) /\ (dl_first_loop s = true -> no_zero_stop d s = false)) (result_sure c 0) x.
Proof.
  intros Ha Ht El Et [Hb Hz] E. unfold digit_loop_body in E. cbn zeta in E. fold (no_zero_stop d s) in E. rewrite El in E. cbn [obind] in E. rewrite Et in E.
  destruct (negb (is_zero (dl_remaining s)) || dl_first_loop s) eqn:Econd; [|injection E as <-; exact Hb].
  assert (no_zero_stop d s = false) as Hno.
  { destruct (dl_first_loop s); [auto|]. unfold no_zero_stop. rewrite orb_false_r, negb_true_iff in Econd. rewrite Econd. apply andb_false_r. }
  rewrite Hno in E.
  repeat grow_step; cbn [step_big result_sure dl_formatted dl_first_loop]; try (split; [assumption|discriminate]);
    eapply (Ht 0%nat); eassumption.
Qed.

Lemma digits_immediate depth pf T d n : valid_platform pf -> digits_typed d ->
  immediate (held_digits depth pf T d n) (format_digits depth (target pf) T d n).
Proof.
  intros Hp. pose proof Hp as (_ & Hal & _). revert d. induction depth as [|depth IH]; intros d Ht m e; cbn [held_digits format_digits]; [discriminate|].
  destruct (dc_len d) as [len| | |] eqn:El; cbn [obind]; try discriminate.
  change (and_then (holding [] (Ret len)) ?k m) with (k len m). cbn beta.
  destruct (try_from _ _ _) as [count|] eqn:Et.
  - destruct (_ && _).
    + cbn zeta. destruct (dc_len (dc_fallback d)) as [flen| | |]; cbn [obind]; try discriminate.
      change (and_then (holding [] (Ret flen)) ?k m) with (k flen m). cbn beta.
      destruct (_ =? _); [intros [= <-]; reflexivity|]. apply IH, digits_typed_fallback, Ht.
    + set (s0 := {| dl_remaining := n; dl_first_loop := true; dl_count := count; dl_formatted := new_reverse |}).
      destruct (no_zero_stop d s0) eqn:Ez.
      * intros E. unfold run_loop in E.
        rewrite (iterate_first _ _ s0 (Err NoZeroSymbol)) in E by (unfold digit_loop_body; cbn zeta; fold (no_zero_stop d s0); rewrite Ez; cbn [dl_first_loop s0]; rewrite orb_true_r; reflexivity).
        injection E as <-. apply loop_first. unfold held_digit_body. cbn zeta. cbn [hd_remaining hd_first_loop].
        unfold no_zero_stop in Ez. cbn [dl_remaining dl_first_loop s0] in Ez. rewrite Ez, orb_true_r. reflexivity.
      * intros E. exfalso. apply (run_loop_big _ _ _ (result_sure (target pf) 0) _ _ (fun s x => digit_body_sure (target pf) T d n len count s x Hal Ht El Et)) in E; [exact E|].
        split; [apply big_new_reverse|intros _; exact Ez].
  - intros E. destruct (dc_digit d _); cbn [obind] in E; try discriminate. destruct (from_char _ _); cbn [obind] in E; discriminate.
Qed.

(** ** Additive and enumerated sets *)

Lemma additive_immediate pf T set n : valid_platform pf -> symbols_typed (target pf) (map fst (as_symbols set)) ->
  immediate (held_additive pf T set n) (try_format_additive (target pf) T set n).
Proof.
  intros Hp Ht m e. pose proof Hp as (_ & Hal & _). unfold held_additive, try_format_additive. destruct (is_zero n).
  - destruct (as_zero set) as [zero|]; [|intros [= <-]; reflexivity]. destruct (from_str _ _); cbn [obind]; discriminate.
  - intros E. apply (additive_for_big _ 0) in E; [destruct E|exact Hal|exact Ht|apply big_new].
Qed.

Lemma enumerated_immediate pf T set n : immediate (held_enumerated pf T set n) (try_format_enumerated (target pf) T set n).
Proof.
  intros m e. unfold held_enumerated, try_format_enumerated. cbn zeta. destruct (try_from _ _ _) as [i|]; [|intros [= <-]; reflexivity].
  destruct (_ && _); [intros [= <-]; reflexivity|]. destruct (usub _ _ _ _) as [j| | |]; cbn [obind]; try discriminate.
  change (and_then (holding [] (Ret j)) ?k m) with (k j m). cbn beta. destruct (lookup _ _); [|intros [= <-]; reflexivity].
  destruct (from_str _ _); cbn [obind]; discriminate.
Qed.

(** ** Ethiopic and Hebrew *)

Lemma ethiopic_immediate pf T n : valid_platform pf -> immediate (held_ethiopic pf T n) (Ethiopic (target pf) T n).
Proof.
  intros Hp m e. pose proof Hp as (_ & Hal & _). unfold held_ethiopic, Ethiopic. destruct (is_zero n); [intros [= <-]; reflexivity|].
  unfold format_ethiopic. destruct (run_loop _ _ _) as [r| | |] eqn:El; cbn [obind]; try discriminate.
  apply (run_loop_big _ _ (triple_big (target pf) 0) (result_sure (target pf) 0)) in El;
    [|intros s x; apply ethiopic_body_big, Hal|apply big_new_reverse].
  destruct r; [discriminate|destruct El].
Qed.

Lemma hebrew_immediate pf T n : valid_platform pf -> immediate (held_hebrew pf T n) (Hebrew (target pf) T n).
Proof.
  intros Hp m e. pose proof Hp as (_ & Hal & _). unfold held_hebrew, Hebrew. destruct (is_zero n); [intros [= <-]; reflexivity|].
  intros E. apply (hebrew_for_big _ 0) in E; [destruct E|exact Hal|apply scalars_all; reflexivity|apply big_new].
Qed.

(** ** Chinese *)

Lemma held_beyond pf T formal characters large n m : valid_platform pf -> Base.fits (target pf) T n -> 10 ^ 15 <= n ->
  held_chinese pf T formal characters large n Short m = Done m (Err (OutOfBounds n)).
Proof.
  intros Hp Hn Hge.
  assert (forall k, k <= 10 ^ 14 -> try_from (target pf) T k = Some k) as Hfit.
  { intros k Hk. apply try_from_fits. eapply fits_le; [exact Hn|]. lia. }
  unfold held_chinese, is_zero. destruct (N.eqb_spec n 0); [lia|]. cbn zeta. rewrite Hfit by lia.
  destruct (N.leb_spec 10000 n); [|lia]. unfold held_scale.
  assert (forall rank, held_short_rank pf T formal rank characters large n =
    (sc <~ holding [] (or_panic (nth_error SHORT_SCALE rank)) ;;
     match try_from (target pf) T sc with
     | None => match rank with O => holding [] Panic | S rank' => held_short_rank pf T formal rank' characters large n end
     | Some sc =>
         r <~ loop_action (target pf) (held_short_body pf T characters large)
                {| hs_rank := rank; hs_scale := sc; hs_formatted := empty_forward; hs_last_was_zero := false; hs_remaining := n |} ;;
         match r with
         | Err e => done (Err e)
         | Ok st =>
             if negb (is_zero (hs_remaining st)) then
               inner <~ unwinding [hs_formatted st] (held_chinese_inner pf formal characters (hs_remaining st) false (hs_last_was_zero st)) ;;
               match held_lift_flagged inner with
               | (Err e, _) => _ <~ held_drop (hs_formatted st) ;; done (Err e)
               | (Ok tail, flag) => r <~ held_append_result pf (hs_formatted st) tail flag ;; done (fst r)
               end
             else done (Ok (hs_formatted st))
         end
     end)) as Hstep by (intros [|rank]; reflexivity).
  rewrite Hstep. clear Hstep. rewrite short_scale_value by lia. cbn [or_panic].
  change (and_then (and_then (holding [] (Ret (short_value 10))) ?k) ?k2 m) with (and_then (k (short_value 10)) k2 m). cbn beta.
  rewrite Hfit by (vm_compute; discriminate).
  unfold and_then at 1. unfold and_then at 1. rewrite (loop_first _ _ _ _ (Err COutOfBounds)); [reflexivity|].
  unfold held_short_body. cbn [hs_remaining hs_scale hs_formatted]. unfold is_zero. destruct (N.eqb_spec n 0); [lia|].
  rewrite udiv_nz by apply short_value_pos. change (and_then (holding _ (Ret ?a)) ?k m) with (k a m). cbn beta.
  destruct (N.leb_spec 10 (n / short_value 10)) as [_|Hlt]; [reflexivity|]. exfalso.
  assert (10 <= n / short_value 10) as Hle; [|lia]. apply N.div_le_lower_bound; [apply short_value_pos|].
  etransitivity; [|exact Hge]. vm_compute. discriminate.
Qed.

Lemma chinese_immediate traditional formal o pf T n : valid_platform pf -> Base.fits (target pf) T n ->
  immediate (held_chinese_system traditional formal o pf T n) (chinese traditional formal o (target pf) T n).
Proof.
  intros Hp Hn m e E. pose proof Hp as (Hc & Hal & _).
  destruct (match scale o with Short => 10 ^ 15 <=? n | _ => false end) eqn:Eo.
  - destruct (scale o) eqn:Es; try discriminate. apply N.leb_le in Eo. rewrite chinese_out in E by assumption. injection E as <-.
    unfold held_chinese_system. rewrite Es. apply held_beyond; assumption.
  - exfalso. assert (in_range o n) as Hr by (intros Es; rewrite Es in Eo; apply N.leb_gt in Eo; exact Eo).
    pose proof (yields_prints _ _ _ _ (chinese_writes traditional formal o (target pf) T n Hc Hn Hr)) as Hy.
    unfold prints in Hy. rewrite Hal in Hy. destruct Hy as (s & Es & _). rewrite Es in E. discriminate.
Qed.
