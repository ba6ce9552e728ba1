(** * ChineseRuns: the whole of src/chinese.rs:25-431 does what the model says *)

From Coq Require Import String Lia.
From Verif Require Import Base Utf8 NominalString StringFacts Outcome Digital Chinese Rust RustRun Sources
  RustFacts SourceRuns
  ChineseSource ChineseInner ChineseRanks ChineseShort.

Section Scaled.
  Context (c : config) (T : uint) (formal : bool) (characters large : list N) (t : value)
    (bits_enough : 16 <= usize_bits c) (scalars : Forall (fun ch => is_scalar ch = true) characters).

  Lemma inner_called d owner n no_prefix last :
    run chinese_program c T (S d) owner (Path [#"format_chinese_inner"]) [t; VBool formal]
      [VChars characters; VInt (Some T) n; VBool no_prefix; VBool last]
    = (r <- format_chinese_inner c formal characters n no_prefix last ;; Ret (inner_value r)).
  Proof. rewrite (run_S _ _ _ _ _ _ _ _ inner_fn) by reflexivity. apply inner_runs, scalars. Qed.

  Lemma rank_runs width u scales rank d n no_prefix last : (rank <= 10)%nat ->
    run chinese_program c T (3 + 2 * rank + d) #"ChineseScale" (Path [#"Self"; #"format_scaled_rank"]) [t; VBool formal; width]
      (rank_args T characters large u scales (N.of_nat rank) n no_prefix last)
    = (r <- format_scaled_rank c formal rank scales characters large n no_prefix last ;; Ret (flagged_value r)).
  Proof.
    revert n no_prefix last. induction rank as [|rank IH]; intros n no_prefix last Hrank.
    - change (3 + 2 * 0 + d)%nat with (S (S (S d))).
      rewrite (run_S _ _ _ _ _ _ _ _ rank_fn) by reflexivity. rewrite rank_unfold. apply rank_step; [exact bits_enough|exact Hrank| |apply from_runs].
      intros n' no_prefix' last'. rewrite (run_S _ _ _ _ _ _ _ _ next_fn) by reflexivity.
      rewrite (next_zero c T formal characters large t width u scales); [|apply inner_called|apply from_runs].
      destruct format_chinese_inner; reflexivity.
    - replace (3 + 2 * S rank + d)%nat with (S (S (3 + 2 * rank + d))) by lia.
      rewrite (run_S _ _ _ _ _ _ _ _ rank_fn) by reflexivity. rewrite rank_unfold. apply rank_step; [exact bits_enough|exact Hrank| |apply from_runs].
      intros n' no_prefix' last'. rewrite (run_S _ _ _ _ _ _ _ _ next_fn) by reflexivity.
      apply next_succ; [exact bits_enough|]. apply IH. lia.
  Qed.

  Definition scaled_result (r : flagged chinese_error) : value * list (option value) :=
    (scaled_value (fst r), [None; None; None; None; None; Some (VBool (snd r))]).

  Lemma rank_coerce call generics n rest :
    apply_fn c T call rank_fn generics (VInt None n :: rest) = apply_fn c T call rank_fn generics (VInt (Some Usize) n :: rest).
  Proof.
    unfold apply_fn. lazymatch goal with |- match ?a with _ => _ end = match ?b with _ => _ end => assert (E : a = b) end.
    { reflexivity. }
    rewrite E. reflexivity.
  Qed.

  Lemma scaled_inner_runs width u scales d n no_prefix last :
    run chinese_program c T (24 + d) #"ChineseScale" (Path [#"Self"; #"format_scaled_inner"]) [t; VBool formal; width]
      [VOptions u scales; VChars characters; VChars large; VInt (Some T) n; VBool no_prefix; VBool last]
    = (r <- format_scaled_rank c formal 10 scales characters large n no_prefix last ;; Ret (scaled_result r)).
  Proof.
    change (24 + d)%nat with (S (3 + 2 * 10 + d)). rewrite (run_S _ _ _ _ _ _ _ _ scaled_inner_fn) by reflexivity.
    pose proof (rank_runs width u scales 10 d n no_prefix last (le_n _)) as H.
    change (3 + 2 * 10 + d)%nat with (S (22 + d)) in *.
    rewrite (run_S _ _ _ _ _ _ _ _ rank_fn) in H by reflexivity.
    assert (H' : run chinese_program c T (S (22 + d)) #"ChineseScale" (Path [#"Self"; #"format_scaled_rank"]) [t; VBool formal; width]
      [VInt None 10; VOptions u scales; VChars characters; VChars large; VInt (Some T) n; VBool no_prefix; VBool last]
      = (r <- format_scaled_rank c formal 10 scales characters large n no_prefix last ;; Ret (flagged_value r))).
    { rewrite (run_S _ _ _ _ _ _ _ _ rank_fn) by reflexivity. refine (eq_trans (rank_coerce _ _ _ _) H). }
    clear H. rename H' into H.
    remember (format_scaled_rank c formal 10 scales characters large n no_prefix last) as m eqn:Em. clear Em.
    remember (run chinese_program c T (S (22 + d))) as call eqn:Ecall. clear Ecall.
    enter_until scaled_inner_fn.
    rewrite_call H. destruct m as [[[s|[]] flag]| | |]; cbv beta iota delta [obind flagged_value scaled_value chinese_error_value fst snd];
      repeat step; close.
  Qed.

  (** *** [array::from_fn] *)

  Definition scale_value (x : N) : value :=
    match try_from c T x with Some n => v_some (VInt (Some T) n) | None => v_none end.

  Lemma build_scales {R} (f : N -> env -> (value -> env -> outcome R) -> outcome R) vars l :
    (forall i x k, lookup l i = Some x -> f i vars k = k (scale_value x) vars) ->
    forall post pre k, l = (pre ++ post)%list ->
    build f (length post) (N.of_nat (length pre)) vars k = k (map scale_value post) vars.
  Proof.
    intros H post. induction post as [|x post IH]; intros pre k E; [reflexivity|].
    cbn [build length map]. rewrite (H _ x).
    - replace (N.of_nat (length pre) + 1) with (N.of_nat (length (pre ++ [x]))) by (rewrite app_length; cbn; lia).
      apply (IH (pre ++ [x])%list (fun vs => k (scale_value x :: vs))). rewrite <- app_assoc. exact E.
    - rewrite lookup_nat, E, nth_error_app2, Nat.sub_diag by reflexivity. reflexivity.
  Qed.

  Lemma options_scales l : exists u, options (map scale_value l) = VOptions u (map (try_from c T) l).
  Proof.
    unfold options.
    assert (exists os, all_of option_of (map scale_value l) = Some os /\ map snd os = map (try_from c T) l) as (os & E & Es).
    { induction l as [|x l (os & E & Es)]; [exists []; split; reflexivity|].
      cbn [map all_of]. unfold scale_value at 1. rewrite E. destruct (try_from c T x) as [n|] eqn:Ex.
      - exists ((Some T, Some n) :: os). split; [reflexivity|]. cbn [map snd]. rewrite Es. reflexivity.
      - exists ((None, None) :: os). split; [reflexivity|]. cbn [map snd]. rewrite Es. reflexivity. }
    rewrite E, Es. eexists. reflexivity.
  Qed.

  Lemma scaled_runs l d n :
    run chinese_program c T (25 + d) #"ChineseScale" (Path [#"Self"; #"format_scaled"]) [t; VBool formal; VInt None (N.of_nat (length l))]
      [VInts None l; VChars characters; VChars large; VInt (Some T) n]
    = (r <- format_scaled c T formal l characters large n ;; Ret (scaled_value r, [None; None; None; None])).
  Proof.
    change (25 + d)%nat with (S (24 + d)). rewrite (run_S _ _ _ _ _ _ _ _ scaled_fn) by reflexivity.
    pose proof (fun width u scales => scaled_inner_runs width u scales d n true false) as H.
    remember (run chinese_program c T (24 + d)) as call eqn:Ecall. clear Ecall.
    unfold format_scaled.
    enter_until scaled_fn. rewrite Nat2N.id.
    lazymatch goal with |- build ?f _ _ ?vars ?k = _ =>
      refine (eq_trans (build_scales f vars l _ l [] k eq_refl) _)
    end.
    { intros i x k E. cbv beta. repeat step. rewrite E. repeat step. unfold scale_value.
      destruct (try_from c T x); cbv beta iota; repeat step; reflexivity. }
    destruct (options_scales l) as [u ->].
    specialize (H (VInt None (N.of_nat (length l))) u (map (try_from c T) l)).
    destruct (format_scaled_rank c formal 10 (map (try_from c T) l) characters large n true false) as [[[s|[]] flag]| | |];
      cbv beta iota delta [obind scaled_result scaled_value chinese_error_value fst snd] in *;
      repeat step; rewrite_call H; repeat step; close.
  Qed.
End Scaled.

Section Format.
  Context (c : config) (T : uint) (formal : bool) (characters large : list N) (t : value)
    (bits_enough : 16 <= usize_bits c) (scalars : Forall (fun ch => is_scalar ch = true) characters).

  Lemma short_unfold rank n :
    format_short_rank c T formal rank characters large n
    = (sc <- or_panic (nth_error SHORT_SCALE rank) ;;
       match try_from c T sc with
       | None => match rank with O => Panic | S rank' => format_short_rank c T formal rank' characters large n end
       | Some sc =>
           r <- run_loop c (short_body c T characters large)
                  {| sl_rank := rank; sl_scale := sc; sl_formatted := new;
                     sl_last_was_zero := false; sl_remaining := n |} ;;
           short_after c formal characters r
       end).
  Proof. destruct rank; reflexivity. Qed.

  Lemma short_runs rank d n : (rank <= 10)%nat -> (exists x, try_from c T 10000 = Some x) ->
    run chinese_program c T (2 + rank + d) #"ChineseScale" (Path [#"Self"; #"format_short_rank"]) [t; VBool formal]
      [VInt (Some Usize) (N.of_nat rank); VChars characters; VChars large; VInt (Some T) n]
    = (r <- format_short_rank c T formal rank characters large n ;; Ret (short_value r)).
  Proof.
    intros Hrank Hx. induction rank as [|rank IH].
    - change (2 + 0 + d)%nat with (S (S d)). rewrite (run_S _ _ _ _ _ _ _ _ short_fn) by reflexivity.
      rewrite short_unfold.
      apply short_step; [exact Hrank|exact Hx|apply short_scale_runs|apply from_runs| |discriminate].
      intros n' last. apply inner_called. exact scalars.
    - change (2 + S rank + d)%nat with (S (S (S (rank + d)))). rewrite (run_S _ _ _ _ _ _ _ _ short_fn) by reflexivity.
      rewrite short_unfold.
      apply short_step; [exact Hrank|exact Hx|apply short_scale_runs|apply from_runs| |].
      + intros n' last. apply inner_called. exact scalars.
      + intros rank' E. injection E as <-. apply IH. lia.
  Qed.

  Lemma short_coerce call generics n rest :
    apply_fn c T call short_fn generics (VInt None n :: rest) = apply_fn c T call short_fn generics (VInt (Some Usize) n :: rest).
  Proof.
    unfold apply_fn. lazymatch goal with |- match ?a with _ => _ end = match ?b with _ => _ end => assert (E : a = b) end.
    { reflexivity. }
    rewrite E. reflexivity.
  Qed.

  Lemma short_ten_runs d n : (exists x, try_from c T 10000 = Some x) ->
    run chinese_program c T (12 + d) #"ChineseScale" (Path [#"Self"; #"format_short_rank"]) [t; VBool formal]
      [VInt None 10; VChars characters; VChars large; VInt (Some T) n]
    = (r <- format_short_rank c T formal 10 characters large n ;; Ret (short_value r)).
  Proof.
    intros Hx. pose proof (short_runs 10 d n (le_n _) Hx) as H. change (2 + 10 + d)%nat with (S (11 + d)) in H.
    change (12 + d)%nat with (S (11 + d)).
    rewrite (run_S _ _ _ _ _ _ _ _ short_fn) in H by reflexivity.
    rewrite (run_S _ _ _ _ _ _ _ _ short_fn) by reflexivity. refine (eq_trans (short_coerce _ _ _ _) H).
  Qed.

  Lemma format_step call sc n :
    (exists x, try_from c T 10000 = Some x) ->
    (call #"ChineseScale" (Path [#"MYRIAD_SCALE"]) [] [] = Ret (VInts None MYRIAD_SCALE, [])) ->
    (call #"ChineseScale" (Path [#"MID_SCALE"]) [] [] = Ret (VInts None MID_SCALE, [])) ->
    (call #"ChineseScale" (Path [#"LONG_SCALE"]) [] [] = Ret (VInts None LONG_SCALE, [])) ->
    (call #"ChineseScale" (Path [#"Self"; #"format_short_rank"]) [t; VBool formal]
      [VInt None 10; VChars characters; VChars large; VInt (Some T) n]
     = (r <- format_short_rank c T formal 10 characters large n ;; Ret (short_value r))) ->
    (forall l, call #"ChineseScale" (Path [#"Self"; #"format_scaled"]) [t; VBool formal; VInt None (N.of_nat (length l))]
      [VInts None l; VChars characters; VChars large; VInt (Some T) n]
    = (r <- format_scaled c T formal l characters large n ;; Ret (scaled_value r, [None; None; None; None]))) ->
    apply_fn c T call format_fn [t; VBool formal] [scale_con sc; VChars characters; VChars large; VInt (Some T) n]
    = (r <- format_scale c T formal sc characters large n ;; Ret (short_value r)).
  Proof.
    intros Hx H1 H2 H3 Hshort Hscaled.
    unfold format_scale, scale_con. destruct sc.
    - enter_until format_fn. repeat step. rewrite_call Hshort.
      destruct format_short_rank as [r| | |]; cbv beta iota delta [obind short_value]; repeat step; close.
    - first_arm format_fn. other_arm. last_arm. rewrite_call H1. repeat step. rewrite_call (Hscaled MYRIAD_SCALE).
      destruct format_scaled as [r| | |]; cbv beta iota delta [obind]; repeat step; close.
    - first_arm format_fn. other_arm. other_arm. last_arm. rewrite_call H2. repeat step. rewrite_call (Hscaled MID_SCALE).
      destruct format_scaled as [r| | |]; cbv beta iota delta [obind]; repeat step; close.
    - first_arm format_fn. other_arm. other_arm. other_arm. last_arm. rewrite_call H3. repeat step. rewrite_call (Hscaled LONG_SCALE).
      destruct format_scaled as [r| | |]; cbv beta iota delta [obind]; repeat step; close.
  Qed.
End Format.

Section Whole.
  Context (c : config) (T : uint) (formal : bool) (characters large : list N) (t : value)
    (bits_enough : 16 <= usize_bits c) (scalars : Forall (fun ch => is_scalar ch = true) characters).

  Lemma chinese_step call sc n :
    (forall n, call #"" (Path [#"format_chinese_inner"]) [t; VBool formal]
       [VChars characters; VInt (Some T) n; VBool true; VBool false]
     = (r <- format_chinese_inner c formal characters n true false ;; Ret (inner_value r))) ->
    ((exists x, try_from c T 10000 = Some x) ->
     call #"" (Named #"format") [t; VBool formal] [scale_con sc; VChars characters; VChars large; VInt (Some T) n]
     = (r <- format_scale c T formal sc characters large n ;; Ret (short_value r))) ->
    apply_fn c T call chinese_fn [t; VBool formal] [VChars characters; VChars large; VInt (Some T) n; scale_con sc]
    = (r <- format_chinese c T formal characters large n sc ;; Ret (result_value T r, [None; None; None; None])).
  Proof.
    intros Hinner Hformat. unfold format_chinese, char_at, scale_con in *.
    revert Hformat. generalize match sc with Short => #"Short" | Myriad => #"Myriad" | Mid => #"Mid" | Long => #"Long" end as con.
    intros con Hformat.
    enter_until chinese_fn.
    repeat step. destruct (is_zero n); cbv beta iota.
    { repeat step. destruct (lookup characters 0) as [ch|]; cbv beta iota delta [or_panic obind]; [|close].
      repeat step. destruct (from_char c ch); cbv beta iota delta [obind]; try close; repeat step; close. }
    repeat step. destruct (try_from c T 10000) as [ten|] eqn:E.
    2: { repeat step. rewrite_call (Hinner n).
      destruct (format_chinese_inner c formal characters n true false) as [[[s|[]] flag]| | |];
        cbv beta iota delta [obind inner_value fst snd oom_value]; repeat step; close. }
    repeat step. destruct (ten <=? n); cbv beta iota.
    2: { repeat step. rewrite_call (Hinner n).
      destruct (format_chinese_inner c formal characters n true false) as [[[s|[]] flag]| | |];
        cbv beta iota delta [obind inner_value fst snd oom_value]; repeat step; close. }
    repeat step. rewrite_call (Hformat (ex_intro _ ten eq_refl)).
    destruct (format_scale c T formal sc characters large n) as [[s|[]]| | |];
      cbv beta iota delta [obind short_value scaled_value chinese_error_value fst snd]; try close.
    - repeat step. close.
    - repeat (lazymatch goal with |- match bind (PCon _ _) _ with _ => _ end = _ => fail | _ => idtac end; step).
      other_arm. last_arm. close.
    - repeat step. close.
  Qed.

  Lemma chinese_runs owner sc d n :
    run chinese_program c T (27 + d) owner (Path [#"format_chinese"]) [t; VBool formal]
      [VChars characters; VChars large; VInt (Some T) n; scale_con sc]
    = (r <- format_chinese c T formal characters large n sc ;; Ret (result_value T r, [None; None; None; None])).
  Proof.
    change (27 + d)%nat with (S (S (25 + d))). rewrite (run_S _ _ _ _ _ _ _ _ chinese_fn) by reflexivity.
    apply chinese_step.
    - intros n'. apply inner_called. exact scalars.
    - intros Hx. rewrite (run_S _ _ _ _ _ _ _ _ format_fn) by reflexivity.
      change (25 + d)%nat with (S (24 + d)).
      apply format_step; [exact Hx|apply myriad_scale_runs|apply mid_scale_runs|apply long_scale_runs| |].
      + change (S (24 + d)) with (12 + (13 + d))%nat. apply short_ten_runs; assumption.
      + intros l. change (S (24 + d)) with (25 + d)%nat. apply scaled_runs; assumption.
  Qed.
End Whole.
