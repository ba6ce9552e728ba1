(** * ChineseShort: src/chinese.rs:176-236 does what the model says *)

From Coq Require Import String Lia.
From Verif Require Import Base Utf8 NominalString StringFacts Outcome Digital Chinese Rust RustRun Sources
  RustFacts SourceRuns ChineseSource.

Section Short.
  Context (c : config) (T : uint) (formal : bool) (characters large : list N) (t : value).

  Definition short_after (r : result short_loop chinese_error) : outcome (result nominal_string chinese_error) :=
      match r with
      | Err e => Ret (Err e)
      | Ok st =>
          if negb (is_zero (sl_remaining st)) then
            inner <- format_chinese_inner c formal characters (sl_remaining st) false
                       (sl_last_was_zero st) ;;
            match lift_flagged inner with
            | (Err e, _) => Ret (Err e)
            | (Ok tail, flag) =>
                r <- append_result c (sl_formatted st) tail flag ;; Ret (fst r)
            end
          else Ret (Ok (sl_formatted st))
      end.

  Lemma short_step call rank n (lower : outcome (result nominal_string chinese_error)) :
    (rank <= 10)%nat -> (exists x, try_from c T 10000 = Some x) ->
    call #"ChineseScale" (Path [#"SHORT_SCALE"]) [] [] = Ret (VInts None SHORT_SCALE, []) ->
    (call #"ChineseScale" (Path [#"ChineseFormatError"; #"from"]) [] [VCon #"OutOfMemoryError" []]
     = Ret (VCon #"OutOfMemory" [], [None])) ->
    (forall n last, call #"ChineseScale" (Path [#"format_chinese_inner"]) [t; VBool formal]
       [VChars characters; VInt (Some T) n; VBool false; VBool last]
     = (r <- format_chinese_inner c formal characters n false last ;; Ret (inner_value r))) ->
    (forall rank', rank = S rank' -> call #"ChineseScale" (Path [#"Self"; #"format_short_rank"]) [t; VBool formal]
       [VInt (Some Usize) (N.of_nat rank'); VChars characters; VChars large; VInt (Some T) n]
     = (r <- lower ;; Ret (short_value r))) ->
    apply_fn c T call short_fn [t; VBool formal] [VInt (Some Usize) (N.of_nat rank); VChars characters; VChars large; VInt (Some T) n]
    = (r <- (sc <- or_panic (nth_error SHORT_SCALE rank) ;;
             match try_from c T sc with
             | None => lower
             | Some sc =>
                 r <- run_loop c (short_body c T characters large)
                        {| sl_rank := rank; sl_scale := sc; sl_formatted := new;
                           sl_last_was_zero := false; sl_remaining := n |} ;;
                 short_after r
             end) ;; Ret (short_value r)).
  Proof.
    intros Hrank [x0 Hx0] Hconst Hfrom Hinner Hlower.
    enter_until short_fn. rewrite_call Hconst. repeat step. rewrite lookup_nat.
    destruct (nth_error SHORT_SCALE rank) as [sc0|] eqn:Esc0; cbv beta iota delta [or_panic obind]; [|close].
    repeat step. destruct (try_from c T sc0) as [sc|] eqn:Esc.
    2: { repeat step. destruct rank as [|rank].
         { cbn in Esc0. injection Esc0 as <-. change (10 ^ 4) with 10000 in Esc. congruence. }
         rewrite usub_rank. repeat step. rewrite_call (Hlower rank eq_refl).
         destruct lower as [[s|[]]| | |]; cbv beta iota delta [obind short_value scaled_value chinese_error_value]; repeat step; close. }
    transitivity (obind (run_loop c (short_body c T characters large)
        {| sl_rank := rank; sl_scale := sc; sl_formatted := new; sl_last_was_zero := false; sl_remaining := n |})
        (fun r => x <- short_after r ;; Ret (short_value x))).
    2: { unfold obind. destruct run_loop; reflexivity. }
    repeat step.
    simulate (fun st => [(#"remaining", VInt (Some T) (sl_remaining st)); (#"last_was_zero", VBool (sl_last_was_zero st));
      (#"formatted", VString (sl_formatted st)); (#"scale", VInt (Some T) (sl_scale st));
      (#"rank", VInt (Some Usize) (N.of_nat (sl_rank st)));
      (#"characters", VChars characters); (#"large_characters", VChars large); (#"nominal", VInt (Some T) n);
      (#"T", t); (#"FORMAL", VBool formal)]).
    intros st.
    lazymatch goal with |- settle ?after _ = settled _ (settle ?after' _) =>
      assert (Hafter : forall st, after (None, [(#"remaining", VInt (Some T) (sl_remaining st)); (#"last_was_zero", VBool (sl_last_was_zero st));
      (#"formatted", VString (sl_formatted st)); (#"scale", VInt (Some T) (sl_scale st));
      (#"rank", VInt (Some Usize) (N.of_nat (sl_rank st)));
      (#"characters", VChars characters); (#"large_characters", VChars large); (#"nominal", VInt (Some T) n);
      (#"T", t); (#"FORMAL", VBool formal)]) = after' (Ok st))
    end.
    { clear st. intros [rk scl s last rem]. cbn [sl_rank sl_scale sl_formatted sl_last_was_zero sl_remaining].
      unfold short_after. cbn [sl_rank sl_scale sl_formatted sl_last_was_zero sl_remaining].
      repeat step. destruct (is_zero rem); cbv beta iota delta [negb]; [repeat step; close|].
      repeat step. rewrite_call (Hinner rem last).
      destruct (format_chinese_inner c formal characters rem false last) as [[[tail|[]] flag]| | |];
        cbv beta iota delta [obind inner_value lift_flagged chinese_error_of append_result fst snd oom_value]; try close.
      2: { repeat step. rewrite_call Hfrom. repeat step. close. }
      repeat step. destruct (as_str tail) as [str| | |]; cbv beta iota delta [obind]; try close.
      repeat step. destruct (try_push_str c s str) as [[s' [u|[]]]| | |]; cbv beta iota delta [obind]; try close; repeat step; try close.
      rewrite_call Hfrom. repeat step. close. }
    destruct st as [rk scl s last rem].
    hide_after.
    unfold short_body.
    cbn [sl_rank sl_scale sl_formatted sl_last_was_zero sl_remaining].
    repeat step. destruct (is_zero rem); cbv beta iota.
    { apply settle_break. exact (Hafter {| sl_rank := rk; sl_scale := scl; sl_formatted := s; sl_last_was_zero := last; sl_remaining := rem |}). }
    repeat step. destruct (udiv rem scl) as [rv| | |]; cbv beta iota delta [obind]; try close.
    repeat step. destruct (10 <=? rv); cbv beta iota; [repeat step; apply settle_break; reflexivity|].
    repeat (before_seq_if; step).
    destruct (urem rem scl) as [rem'| | |]; cbv beta iota delta [obind]; try close.
    repeat (before_seq_if; step).
    lazymatch goal with
    | |- settle _ (eval ?cx (ESeq ?a ?rest) ?R ?vars ?k ?j) = settled ?f (settle ?after _) =>
        assert (tail : forall s last, settle A (eval cx rest R
          [(#"rank_value", VInt (Some T) rv); (#"remaining", VInt (Some T) rem'); (#"last_was_zero", VBool last);
           (#"formatted", VString s); (#"scale", VInt (Some T) scl);
           (#"rank", VInt (Some Usize) (N.of_nat rk));
           (#"characters", VChars characters); (#"large_characters", VChars large); (#"nominal", VInt (Some T) n);
           (#"T", t); (#"FORMAL", VBool formal)] k j)
           = settled f (settle after (short_next c T {| sl_rank := rk; sl_scale := scl; sl_formatted := s; sl_last_was_zero := last; sl_remaining := rem' |})))
    end.
    { intros s1 last1. unfold short_next. cbn [sl_rank sl_scale sl_formatted sl_last_was_zero sl_remaining].
      destruct rk as [|rk].
      - change (N.of_nat 0) with 0. repeat step. change (0 =? 0) with true. cbv beta iota. repeat step.
        apply settle_break. exact (Hafter {| sl_rank := 0; sl_scale := scl; sl_formatted := s1; sl_last_was_zero := last1; sl_remaining := rem' |}).
      - repeat step. change (N.of_nat (S rk) =? 0) with false. cbv beta iota.
        repeat step. rewrite usub_rank. cbv beta iota delta [obind].
        repeat step. settle_call Hconst. repeat step. rewrite lookup_nat.
        destruct (nth_error SHORT_SCALE rk) as [x|]; cbv beta iota delta [or_panic obind]; [|close].
        repeat step. destruct (try_from c T x) as [y|]; cbv beta iota; repeat step; close. }
    destruct (is_zero rv) eqn:Erv; cbv beta iota.
    { repeat step. rewrite Erv. cbv beta iota. repeat step.
      destruct (is_empty s) as [empty| | |]; cbv beta iota delta [obind]; try close.
      destruct empty; cbv beta iota delta [negb andb]; [repeat first [use_short_tail tail | step]|].
      repeat step. destruct last; cbv beta iota delta [negb andb]; [repeat first [use_short_tail tail | step]|].
      repeat step. unfold char_at, or_panic.
      destruct (lookup characters 0) as [ch|]; cbv beta iota delta [obind or_panic]; [|close].
      repeat step. destruct (try_push c s ch) as [[s' [u|[]]]| | |]; cbv beta iota delta [obind]; try close; repeat first [use_short_tail tail | step].
      settle_call Hfrom. repeat step. apply settle_break. reflexivity. }
    repeat step. rewrite Erv. cbv beta iota. repeat step. unfold char_at, or_panic.
    destruct (lookup characters (as_usize c rv)) as [ch|]; cbv beta iota delta [obind or_panic]; [|close].
    repeat step. destruct (try_push c s ch) as [[s' [u|[]]]| | |]; cbv beta iota delta [obind]; try close; repeat step.
    2: { settle_call Hfrom. repeat step. apply settle_break. reflexivity. }
    rewrite lookup_nat. destruct (nth_error large rk) as [ch'|]; cbv beta iota delta [obind or_panic]; [|close].
    repeat step. destruct (try_push c s' ch') as [[s2 [u2|[]]]| | |]; cbv beta iota delta [obind]; try close; repeat first [use_short_tail tail | step].
    settle_call Hfrom. repeat step. apply settle_break. reflexivity.
  Qed.
End Short.
