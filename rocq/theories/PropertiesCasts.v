(** * PropertiesCasts: C103, casts to usize *)

From Coq Require Import String.
From Verif Require Import Prelude NominalString Spec Outcome Digital DigitSets Live Ethiopic Chinese ChineseSigns ChineseFacts PropertiesChinese PropertiesDigital PropertiesUser
  System PropertiesSystem HeapFormatSim Casts Cases.

(** A function that may take the place of [as_usize]: it has to be right for
    values within the range of a [usize] only. *)
Definition casts (c : config) (cast : N -> outcome N) : Prop := forall k, k < 2 ^ usize_bits c -> cast k = Ret k.

(** Methods of a collection return [usize] values for [len]. *)
CoInductive typed_len (c : config) : live_collection -> Prop :=
| typed_len_intro d : (forall self len self', live_len d self = Ret (len, self') -> len < 2 ^ usize_bits c) ->
    typed_len c (live_fallback d) -> typed_len c d.

Definition chinese_with (cast : N -> outcome N) (traditional formal : bool) : chinese_options -> config -> uint -> N -> outcome (result nominal_string error) :=
  match traditional, formal with
  | false, false => SimplifiedChineseInformal_with cast
  | false, true => SimplifiedChineseFormal_with cast
  | true, false => TraditionalChineseInformal_with cast
  | true, true => TraditionalChineseFormal_with cast
  end.

(** ** Proofs *)

Lemma iterate_agree {S R} (body body' : S -> outcome (loop_step S R)) (I : S -> Prop) :
  (forall s, I s -> body s = body' s) -> (forall s s', I s -> body s = Ret (Continue s') -> I s') ->
  forall d s, I s -> iterate d body s = iterate d body' s /\ (forall s', iterate d body s = Ret (Continue s') -> I s').
Proof.
  intros Heq Hinv. induction d as [|d IH]; intros s Hs; cbn [iterate].
  - split; [apply Heq, Hs|]. intros s' E. eapply Hinv; eassumption.
  - destruct (IH s Hs) as [E Hc]. rewrite <- E. destruct (iterate d body s) as [[s1|r]| | |]; cbn [obind]; try (split; [reflexivity|discriminate]).
    apply IH, Hc. reflexivity.
Qed.

Lemma run_loop_agree {S R} c (body body' : S -> outcome (loop_step S R)) (I : S -> Prop) s : I s ->
  (forall s, I s -> body s = body' s) -> (forall s s', I s -> body s = Ret (Continue s') -> I s') ->
  run_loop c body s = run_loop c body' s.
Proof. intros Hs Heq Hinv. unfold run_loop. rewrite (proj1 (iterate_agree body body' I Heq Hinv (loop_depth c) s Hs)). reflexivity. Qed.

Lemma bind_agree {A B} (o : outcome A) (f g : A -> outcome B) : (forall a, o = Ret a -> f a = g a) -> obind o f = obind o g.
Proof. intros H. destruct o; cbn [obind]; [apply H|..]; reflexivity. Qed.

Lemma cast_in_range c cast k : casts c cast -> k < 2 ^ usize_bits c -> cast k = Ret (as_usize c k).
Proof. intros Hcast Hk. rewrite as_usize_small by exact Hk. apply Hcast, Hk. Qed.

Lemma cast_small c cast k : valid_config c -> casts c cast -> k < 65536 -> cast k = Ret (as_usize c k).
Proof. intros Hc Hcast Hk. rewrite as_usize_16 by assumption. apply Hcast. rewrite <- (as_usize_16 c k Hc Hk). unfold as_usize. apply N.mod_lt, N.pow_nonzero. discriminate. Qed.

(** *** Digits *)

Lemma live_body_agree cast c T d n st : casts c cast -> ll_count st < 2 ^ usize_bits c ->
  live_loop_body_with cast c T d n st = live_loop_body c T d n st.
Proof.
  intros Hcast Hcount. unfold live_loop_body_with, live_loop_body. destruct (_ || _); [|reflexivity].
  apply bind_agree. intros [has_zero self] _. apply bind_agree. intros [subtract self1] _. apply bind_agree. intros [no_zero self2] _.
  destruct no_zero; [reflexivity|]. apply bind_agree. intros remaining _. apply bind_agree. intros r Er.
  rewrite (cast_in_range c cast r Hcast); [reflexivity|]. unfold urem in Er. destruct (N.eqb_spec (ll_count st) 0) as [E|E]; [discriminate|].
  injection Er as <-. pose proof (N.mod_lt remaining (ll_count st) E). lia.
Qed.

Lemma live_agree cast c T n : casts c cast -> fits c T n -> forall depth d, typed_len c d ->
  format_live_with cast depth c T d n = format_live depth c T d n.
Proof.
  intros Hcast Hn. induction depth as [|depth IH]; intros d Hd; [reflexivity|]. cbn [format_live_with format_live].
  destruct Hd as [d Hlen Hfb]. apply bind_agree. intros [len self] El. apply Hlen in El as Hl.
  destruct (try_from c T len) as [count|] eqn:Ec.
  - assert (count < 2 ^ usize_bits c) as Hcount by (unfold try_from in Ec; destruct (_ <? _); [injection Ec as <-; exact Hl|discriminate]).
    apply bind_agree. intros [fixed self1] _. apply bind_agree. intros [beyond self2] _. destruct beyond.
    + apply bind_agree. intros [empty start] _. destruct empty; [reflexivity|]. apply IH. destruct Hfb as [fb H1 H2]. constructor; [exact H1|exact H2].
    + apply (run_loop_agree c _ _ (fun st => ll_count st < 2 ^ usize_bits c)); [exact Hcount| |].
      * intros st Hst. apply live_body_agree; assumption.
      * intros st st' Hst E. rewrite live_body_agree in E by assumption. unfold live_loop_body in E.
        repeat match type of E with
        | (if ?b then _ else _) = _ => destruct b; try discriminate E
        | obind ?o _ = _ => let x := fresh "x" in let Ex := fresh "Ex" in destruct o as [x| | |] eqn:Ex; cbn [obind] in E; try discriminate E; try destruct x as [? ?]
        | match ?x with _ => _ end = _ => destruct x eqn:?; try discriminate E
        end.
        all: injection E as <-; cbn [ll_count].
        all: match goal with H : live_len _ _ = Ret (?l, _), H' : try_from _ _ ?l = Some _ |- _ =>
               apply Hlen in H; unfold try_from in H'; destruct (_ <? _); [injection H' as <-; exact H|discriminate] end.
  - rewrite (cast_in_range c cast n Hcast); [reflexivity|]. unfold try_from in Ec. unfold fits in Hn.
    destruct (N.ltb_spec len (2 ^ bits c T)); [discriminate|]. lia.
Qed.

(** *** Ethiopic *)

Lemma ethiopic_agree cast c T n : valid_config c -> casts c cast -> Ethiopic_with cast c T n = Ethiopic c T n.
Proof.
  intros Hc Hcast. unfold Ethiopic_with, Ethiopic. destruct (is_zero n); [reflexivity|]. f_equal. unfold format_ethiopic_with, format_ethiopic.
  apply (run_loop_agree c _ _ (fun _ => True)); auto. intros [[g r] f] _. unfold ethiopic_body_with, ethiopic_body. cbv zeta.
  assert (forall k, cast (k mod 10) = Ret (as_usize c (k mod 10))) as E.
  { intros k. apply (cast_small c cast _ Hc Hcast). pose proof (N.mod_lt k 10). lia. }
  rewrite !E. reflexivity.
Qed.

(** *** Chinese *)

Lemma inner_agree cast c formal characters n np last : valid_config c -> casts c cast -> n < 10000 ->
  format_chinese_inner_with cast c formal characters n np last = format_chinese_inner c formal characters n np last.
Proof.
  intros Hc Hcast Hn.
  assert (forall k, cast (k mod 10) = Ret (as_usize c (k mod 10))) as E.
  { intros k. apply (cast_small c cast _ Hc Hcast). pose proof (N.mod_lt k 10). lia. }
  assert (cast (n / 10 / 10 / 10) = Ret (as_usize c (n / 10 / 10 / 10))) as E'.
  { apply (cast_small c cast _ Hc Hcast). rewrite !N.div_div by discriminate. assert (n / (10 * (10 * 10)) <= n) by (apply N.div_le_upper_bound; lia). lia. }
  unfold format_chinese_inner_with, format_chinese_inner. cbv zeta. rewrite !E, E'. reflexivity.
Qed.

(** [format_scaled_rank] reads four digits only of numbers below 10000. *)
Lemma scaled_agree cast c T characters large scales formal : valid_config c -> casts c cast -> good_scales c T scales ->
  let options := map (try_from c T) scales in
  forall rank n np last, fits c T n -> cap c T scales rank n ->
  format_scaled_rank_with cast c formal rank options characters large n np last = format_scaled_rank c formal rank options characters large n np last.
Proof.
  intros Hc Hcast [H0 Hsc] options rank. induction rank as [rank IH] using lt_wf_ind. intros n np last Hn Hcap.
  set (next' := fun nominal no_prefix last =>
    match rank with
    | S rank' => format_scaled_rank_with cast c formal rank' options characters large nominal no_prefix last
    | O => r <- format_chinese_inner_with cast c formal characters nominal no_prefix last ;; Ret (lift_flagged r)
    end).
  assert (forall n np last, fits c T n -> next_cap c T scales rank n -> next' n np last = next_k c T characters large scales formal rank n np last) as Hnext.
  { clear n np last Hn Hcap. intros n np last Hn Hcap. unfold next'. destruct rank as [|rank]; cbn [next_k next_cap] in *.
    - rewrite inner_agree by assumption. reflexivity.
    - apply IH; [lia|assumption|assumption]. }
  clear IH. rewrite (scaled_rank_step c T characters large scales formal). fold options.
  transitivity (
    match scale_at options rank with
    | None => next' n np last
    | Some scale =>
        remaining <- urem n scale ;;
        rank_value <- udiv n scale ;;
        out_of_bounds <-
          (match scale_at options (rank + 1) with
           | Some previous_scale =>
               factor <- udiv previous_scale scale ;; Ret (factor <=? rank_value)
           | None =>
               match rank with
               | S rank' =>
                   lower <- or_panic (nth_error options rank') ;;
                   lower <- or_panic lower ;;
                   factor <- udiv scale lower ;; Ret (factor <=? rank_value)
               | O => Ret false
               end
           end) ;;
        if (out_of_bounds : bool) then Ret (Err COutOfBounds, last)
        else
          let finish formatted last :=
            if is_zero remaining then Ret (Ok formatted, last)
            else
              empty <- is_empty formatted ;;
              '(tail, last) <- next' remaining (empty && np) last ;;
              match tail with
              | Err e => Ret (Err e, last)
              | Ok tail => append_result c formatted tail last
              end in
          if is_zero rank_value then finish new last
          else
            '(r, last) <- next' rank_value np last ;;
            match r with
            | Err e => Ret (Err e, last)
            | Ok rank_formatted =>
                empty <- is_empty rank_formatted ;;
                if negb empty then
                  push_char chinese_error_of c rank_formatted
                    (or_panic (nth_error large rank)) last (fun rank_formatted =>
                  finish rank_formatted false)
                else finish rank_formatted last
            end
    end); [destruct rank; reflexivity|].
  destruct (scale_at options rank) as [s|] eqn:Es.
  - pose proof Es as Es'. apply scale_at_some in Es' as [Ens Hfs]. destruct (Hsc rank s Ens Hfs) as [Hs0 Hbound]. fold options in Hbound.
    rewrite urem_nz, udiv_nz by assumption. cbn [obind]. apply bind_agree. intros out Hout. destruct out; [reflexivity|].
    assert (n / s < s) as Hq.
    { unfold cap in Hcap. fold options in Hcap. destruct (scale_at options (rank + 1)) as [s'|] eqn:Es1.
      - destruct Hbound as [Hmod Hle]. apply N.lt_le_trans with (s' / s); [|exact Hle].
        apply N.div_lt_upper_bound; [assumption|]. pose proof (N.div_mod s' s Hs0). lia.
      - destruct rank as [|rank]; [apply Hbound, Hn|].
        destruct Hbound as (lower & El & Hfl & Hl0 & Hb). specialize (Hb n Hn).
        assert (s / lower <= s) by (apply N.div_le_upper_bound; nia). lia. }
    assert (n mod s < s) as Hm by (apply N.mod_lt; assumption).
    assert (forall m, m < s -> next_cap c T scales rank m) as Hnc.
    { intros m Hlt. destruct rank as [|rank]; cbn [next_cap].
      - rewrite H0 in Ens. injection Ens as <-. exact Hlt.
      - unfold cap. fold options. rewrite Nat.add_1_r, Es. exact Hlt. }
    assert (fits c T (n / s)) as Hfq by (eapply fits_le; [exact Hn|]; apply N.div_le_upper_bound; nia).
    assert (fits c T (n mod s)) as Hfm by (eapply fits_le; [exact Hn|apply N.mod_le; assumption]).
    cbv zeta. unfold finish_k.
    assert (forall f last, (if is_zero (n mod s) then Ret (Ok f, last) else
        empty <- is_empty f ;; '(tail, last) <- next' (n mod s) (empty && np) last ;;
        match tail with Err e => Ret (Err e, last) | Ok tail => append_result c f tail last end) =
      finish_k c T characters large scales formal rank np (n mod s) f last) as Hfin.
    { intros f l. unfold finish_k. destruct (is_zero (n mod s)); [reflexivity|]. apply bind_agree. intros e _. rewrite Hnext by auto. reflexivity. }
    destruct (is_zero (n / s)); [apply Hfin|]. rewrite Hnext by auto. apply bind_agree. intros [r l] _. destruct r as [f|e]; [|reflexivity].
    apply bind_agree. intros e _. destruct (negb e); [|apply Hfin]. unfold push_char. apply bind_agree. intros ch _. apply bind_agree. intros [f' p] _.
    destruct p; [apply Hfin|reflexivity].
  - apply Hnext; [exact Hn|]. destruct rank as [|rank]; cbn [next_cap].
    + pose proof (scale_at_none c T scales 0 10000 Es H0) as Hnf. unfold fits in *. lia.
    + unfold cap. fold options. rewrite Nat.add_1_r, Es. exact I.
Qed.

Lemma short_body_agree cast c T characters large st : valid_config c -> casts c cast ->
  short_body_with cast c T characters large st = short_body c T characters large st.
Proof.
  intros Hc Hcast. unfold short_body_with, short_body. destruct (is_zero _); [reflexivity|]. apply bind_agree. intros q _.
  destruct (N.leb_spec 10 q) as [|Hq]; [reflexivity|]. apply bind_agree. intros r _. cbv zeta.
  rewrite (cast_small c cast q Hc Hcast) by lia. reflexivity.
Qed.

Lemma run_loop_post {S R} c (body : S -> outcome (loop_step S R)) (I : S -> Prop) (Q : R -> Prop) s :
  (forall s, I s -> match body s with Ret (Continue s') => I s' | Ret (Break r) => Q r | _ => True end) ->
  I s -> match run_loop c body s with Ret r => Q r | _ => True end.
Proof.
  intros H Hs. unfold run_loop.
  assert (forall depth s, I s -> match iterate depth body s with Ret (Continue s') => I s' | Ret (Break r) => Q r | _ => True end) as Hi.
  { induction depth as [|depth IH]; intros s0 Hs0; cbn [iterate]; [apply H, Hs0|].
    pose proof (IH s0 Hs0) as H1. destruct (iterate depth body s0) as [[s'|r]| | |]; cbn [obind]; [apply IH, H1|exact H1..]. }
  specialize (Hi (loop_depth c) s Hs). destruct (iterate (loop_depth c) body s) as [[s'|r]| | |]; cbn [obind]; auto.
Qed.

Lemma short_loop_rest c T characters large st r : nth_error SHORT_SCALE (sl_rank st) = Some (sl_scale st) ->
  run_loop c (short_body c T characters large) st = Ret (Ok r) -> sl_remaining r < 10000.
Proof.
  intros Hst E.
  enough (match run_loop c (short_body c T characters large) st with
          | Ret r => match r with Ok st => sl_remaining st < 10000 | Err _ => True end | _ => True end) as H by (rewrite E in H; exact H).
  clear r E. apply (run_loop_post c _ (fun st => nth_error SHORT_SCALE (sl_rank st) = Some (sl_scale st))); [clear st Hst; intros st Hst; unfold short_body|exact Hst].
  unfold is_zero at 1. destruct (N.eqb_spec (sl_remaining st) 0) as [E|_]; [cbn; lia|].
  unfold udiv, urem. destruct (N.eqb_spec (sl_scale st) 0) as [E|Hs]; [exact I|]. cbn [obind].
  destruct (10 <=? _); [exact I|]. 
  assert (forall f last, match short_next c T {| sl_rank := sl_rank st; sl_scale := sl_scale st; sl_formatted := f; sl_last_was_zero := last; sl_remaining := sl_remaining st mod sl_scale st |} with
    | Ret (Continue st') => nth_error SHORT_SCALE (sl_rank st') = Some (sl_scale st')
    | Ret (Break (Ok st')) => sl_remaining st' < 10000
    | _ => True
    end) as Hnext.
  { intros f last. unfold short_next. cbn [sl_rank]. destruct (sl_rank st) as [|rank].
    - cbn [sl_remaining]. cbn [nth_error SHORT_SCALE] in Hst. injection Hst as E. rewrite <- E. apply N.mod_lt. discriminate.
    - destruct (nth_error SHORT_SCALE rank) as [sc|] eqn:Er; cbn [or_panic obind]; [|exact I]. unfold try_from. destruct (_ <? _); [exact Er|exact I]. }
  assert (forall f ch (k : nominal_string -> outcome (loop_step short_loop (result short_loop chinese_error))),
    (forall f, match k f with Ret (Continue st') => nth_error SHORT_SCALE (sl_rank st') = Some (sl_scale st') | Ret (Break (Ok st')) => sl_remaining st' < 10000 | _ => True end) ->
    match (ch <- ch ;; '(f, pushed) <- try_push c f ch ;; match pushed with Ok _ => k f | Err e => Ret (Break (Err (chinese_error_of e))) end) with
    | Ret (Continue st') => nth_error SHORT_SCALE (sl_rank st') = Some (sl_scale st') | Ret (Break (Ok st')) => sl_remaining st' < 10000 | _ => True end) as Hpush.
  { intros f ch k Hk. destruct ch as [ch| | |]; cbn [obind]; try exact I. destruct (try_push c f ch) as [[f' [u|e]]| | |]; cbn [obind]; try exact I. apply Hk. }
  cbv zeta. destruct (is_zero _).
  - destruct (is_empty _) as [e| | |]; cbn [obind]; try exact I. destruct (_ && _); [|apply Hnext]. apply Hpush. intros f. apply Hnext.
  - apply Hpush. intros f. apply Hpush. intros f'. apply Hnext.
Qed.

Lemma short_rank_agree cast c T formal characters large n : valid_config c -> casts c cast -> forall rank,
  format_short_rank_with cast c T formal rank characters large n = format_short_rank c T formal rank characters large n.
Proof.
  intros Hc Hcast. induction rank as [|rank IH]; cbn [format_short_rank_with format_short_rank]; apply bind_agree; intros sc Esc;
    (destruct (try_from c T sc) as [sc'|] eqn:Et; [|first [reflexivity|exact IH]]);
    (assert (sc' = sc) as -> by (unfold try_from in Et; destruct (_ <? _); congruence));
    (erewrite (run_loop_agree c (short_body_with cast c T characters large) _ (fun _ => True)); [|exact I|intros; apply short_body_agree; assumption|auto]);
    apply bind_agree; intros r Er; destruct r as [st|e]; try reflexivity; (destruct (negb _); [|reflexivity]);
    (rewrite inner_agree; [reflexivity|assumption|assumption|]);
    (eapply short_loop_rest; [|exact Er]; cbn [sl_rank sl_scale]; destruct (nth_error SHORT_SCALE _); cbn [or_panic] in Esc; congruence).
Qed.

Lemma top_cap c T scales n : (length scales <= 11)%nat -> cap c T scales 10 n.
Proof. intros H. unfold cap, scale_at. rewrite nth_error_map. rewrite (proj2 (nth_error_None scales (10 + 1))) by lia. exact I. Qed.

Lemma format_chinese_agree cast c T formal characters large n sc : valid_config c -> casts c cast -> fits c T n ->
  format_chinese_with cast c T formal characters large n sc = format_chinese c T formal characters large n sc.
Proof.
  intros Hc Hcast Hn. unfold format_chinese_with, format_chinese. destruct (is_zero n); [reflexivity|]. cbv zeta.
  destruct (try_from c T 10000) as [k|] eqn:Ek.
  - assert (k = 10000) as -> by (unfold try_from in Ek; destruct (_ <? _); congruence).
    destruct (N.leb_spec 10000 n) as [Hge|Hlt]; [|rewrite inner_agree by assumption; reflexivity].
    assert (forall scales, (length scales <= 11)%nat -> good_scales c T scales ->
      format_scaled_with cast c T formal scales characters large n = format_scaled c T formal scales characters large n) as Hs.
    { intros scales Hl Hg. unfold format_scaled_with, format_scaled. rewrite (scaled_agree cast c T) by (try apply top_cap; assumption). reflexivity. }
    f_equal. destruct sc; cbn [format_scale_with format_scale].
    + apply short_rank_agree; assumption.
    + apply Hs; [cbn; lia|apply myriad_good, Hc].
    + apply Hs; [cbn; lia|apply mid_good, Hc].
    + apply Hs; [cbn; lia|apply long_good, Hc].
  - rewrite inner_agree; [reflexivity|assumption|assumption|]. unfold try_from in Ek. destruct (N.ltb_spec 10000 (2 ^ bits c T)); [discriminate|].
    unfold fits in Hn. lia.
Qed.

(** ** C103 *)

(** With any function that is right for values within the range of a [usize]
    the formatters do the same: they ask for nothing else. *)
Theorem C103_digits : forall cast c T d n, casts c cast -> fits c T n -> typed_len c d ->
  try_format_live_with cast c T d n = try_format_live c T d n.
Proof. intros cast c T d n Hcast Hn Hd. apply live_agree; assumption. Qed.

(** The digit collections of the crate, which keep no state. *)
Lemma typed_len_still c d : (forall k len, dc_len (nth_fallback k d) = Ret len -> len < 2 ^ usize_bits c) -> typed_len c (still d).
Proof.
  revert d. cofix H. intros d Hd. constructor.
  - intros self len self' E. cbn [still live_len] in E. destruct (dc_len d) as [l| | |] eqn:El; try discriminate. injection E as <- _. apply (Hd 0%nat), El.
  - apply H. intros k len E. apply (Hd (S k) len E).
Qed.

Lemma no_fallback_ends k : nth_fallback k NoFallback = NoFallback.
Proof. induction k as [|k IH]; [reflexivity|exact IH]. Qed.

Lemma built_in_len : Forall (fun d => forall k len, dc_len (nth_fallback k d) = Ret len -> len < 65536) (digit_collections ++ fixed_collections).
Proof.
  unfold digit_collections, fixed_collections. cbn [app].
  repeat (apply Forall_cons; [intros [|[|k]] len E;
    [vm_compute in E; injection E as <-; reflexivity
    |vm_compute in E; injection E as <-; reflexivity
    |match type of E with dc_len (nth_fallback _ ?d) = _ => change (nth_fallback (S (S k)) d) with (nth_fallback k NoFallback) in E end;
     rewrite no_fallback_ends in E; injection E as <-; reflexivity]|]).
  apply Forall_nil.
Qed.

Theorem C103_built_in_digits : forall cast c T d n, valid_config c -> casts c cast -> fits c T n -> In d (digit_collections ++ fixed_collections) ->
  try_format_live_with cast c T (still d) n = try_format_digits c T d n /\
  try_format_live_with cast c T (still (one_based d)) n = try_format_digits c T (one_based d) n.
Proof.
  intros cast c T d n Hc Hcast Hn Hd. pose proof (proj1 (Forall_forall _ _) built_in_len d Hd) as Hl.
  assert (65536 <= 2 ^ usize_bits c) as Hw by (change 65536 with (2 ^ 16); apply N.pow_le_mono_r; [discriminate|destruct Hc as [[->|[->| ->]] _]; discriminate]).
  rewrite <- !C57_no_state_no_difference. split; (apply C103_digits; [exact Hcast|exact Hn|apply typed_len_still; intros k len E]).
  - specialize (Hl k len E). lia.
  - assert (len < 65536) by (destruct k as [|k]; [exact (Hl 0%nat len E)|exact (Hl (S k) len E)]). lia.
Qed.

Theorem C103_systems : forall cast c T n, valid_config c -> casts c cast -> fits c T n ->
  Ethiopic_with cast c T n = Ethiopic c T n /\
  forall traditional formal o, chinese_with cast traditional formal o c T n = chinese traditional formal o c T n.
Proof.
  intros cast c T n Hc Hcast Hn. split; [apply ethiopic_agree; assumption|].
  intros [|] [|] o; apply format_chinese_agree; assumption.
Qed.

(** [as_usize] is such a function, and so is one that checks. *)
Lemma as_usize_casts c : casts c (fun k => Ret (as_usize c k)).
Proof. intros k Hk. rewrite as_usize_small by exact Hk. reflexivity. Qed.

Definition checked (c : config) (k : N) : outcome N := if k <? 2 ^ usize_bits c then Ret k else Panic.

Lemma checked_casts c : casts c (checked c).
Proof. intros k Hk. unfold checked. destruct (N.ltb_spec k (2 ^ usize_bits c)); [reflexivity|lia]. Qed.

(** On a target of 16 bits the casts of the large numbers themselves would
    panic. 300 digits are more than a [u8] counts. A cast to eight bits is not
    good enough for the collection with 300 digits in [u16]. *)
Definition many_digits : digit_collection := digit_set_new (map (fun k => 0x4E00 + N.of_nat k) (seq 0 300)).

Example C103_case :
  valid_config no_heap /\ casts no_heap (checked no_heap) /\ checked no_heap 99999 = Panic /\
  typed_len no_heap (still many_digits) /\
  seen (try_format_live_with (checked no_heap) no_heap U128 (still many_digits) 90299) = seen (Ret (Ok (from_string (utf8 [0x4E01; 0x4E00; 0x4F2B])))) /\
  seen (try_format_live_with (checked no_heap) no_heap U8 (still many_digits) 200) = seen (Ret (Ok (from_string (utf8 [0x4EC8])))) /\
  seen (try_format_live_with (fun k => Ret (k mod 256)) no_heap U128 (still many_digits) 299) <> seen (try_format_live no_heap U128 (still many_digits) 299) /\
  seen (chinese_with (checked no_heap) true true {| usage := Ordinary; scale := Long |} no_heap U64 123456789) = Ret (Ok (bytes "一億二千三百四十五萬六千七百八十九"%string)).
Proof.
  split; [exact no_heap_valid|]. split; [apply checked_casts|]. split; [reflexivity|]. split.
  - apply typed_len_still. intros [|k] len E.
    + assert (dc_len many_digits = Ret 300) as E' by (vm_compute; reflexivity). cbn [nth_fallback] in E. rewrite E' in E. injection E as <-. reflexivity.
    + change (nth_fallback (S k) many_digits) with (nth_fallback k NoFallback) in E. rewrite no_fallback_ends in E. injection E as <-. reflexivity.
  - repeat split; vm_compute; try reflexivity. discriminate.
Qed.
Print Assumptions C103_digits.
Print Assumptions C103_built_in_digits.
Print Assumptions C103_systems.
