(** * ChineseRanks: src/chinese.rs:280-378 does what the model says *)

From Coq Require Import String Lia.
From Verif Require Import Base Utf8 NominalString StringFacts Outcome Digital Chinese Rust RustRun Sources
  RustFacts SourceRuns ChineseSource.

Section Ranks.
  Context (c : config) (T : uint) (formal : bool) (characters large : list N) (t width : value) (u : option uint)
    (scales : list (option N)) (bits_enough : 16 <= usize_bits c).

  Definition rank_args (rank n : N) (no_prefix last : bool) : list value :=
    [VInt (Some Usize) rank; VOptions u scales; VChars characters; VChars large; VInt (Some T) n; VBool no_prefix; VBool last].

  Lemma next_zero call n no_prefix last :
    (call #"ChineseScale" (Path [#"format_chinese_inner"]) [t; VBool formal]
       [VChars characters; VInt (Some T) n; VBool no_prefix; VBool last]
     = (r <- format_chinese_inner c formal characters n no_prefix last ;; Ret (inner_value r))) ->
    (call #"ChineseScale" (Path [#"ChineseFormatError"; #"from"]) [] [VCon #"OutOfMemoryError" []]
     = Ret (VCon #"OutOfMemory" [], [None])) ->
    apply_fn c T call next_fn [t; VBool formal; width] (rank_args 0 n no_prefix last)
    = (r <- format_chinese_inner c formal characters n no_prefix last ;; Ret (flagged_value (lift_flagged r))).
  Proof.
    intros Hinner Hfrom. unfold rank_args. enter_until next_fn.
    change (1 <=? 0) with false. repeat step.
    rewrite_call Hinner. destruct format_chinese_inner as [[[s|[]] flag]| | |]; cbv beta iota delta [obind]; try reflexivity.
    cbv beta iota delta [inner_value fst snd oom_value v_err v_ok]. repeat step. rewrite_call Hfrom. repeat step. close.
  Qed.

  Lemma next_succ call rank n no_prefix last m :
    (call #"ChineseScale" (Path [#"Self"; #"format_scaled_rank"]) [t; VBool formal; width]
       (rank_args (N.of_nat rank) n no_prefix last)
     = (r <- m ;; Ret (flagged_value r))) ->
    apply_fn c T call next_fn [t; VBool formal; width] (rank_args (N.of_nat (S rank)) n no_prefix last)
    = (r <- m ;; Ret (flagged_value r)).
  Proof.
    unfold rank_args. intros H. enter_until next_fn.
    replace (1 <=? N.of_nat (S rank)) with true by (symmetry; apply N.leb_le; lia).
    replace (N.of_nat (S rank) - 1) with (N.of_nat rank) by lia.
    repeat step.
    rewrite_call H. destruct m as [[[s|[]] flag]| | |]; cbv beta iota delta [obind flagged_value scaled_value chinese_error_value fst snd];
      repeat step; close.
  Qed.

  (** [format_scaled_rank], given what [format_next_scaled_rank] does. *)
  Definition rank_body (rank : nat) (next : N -> bool -> bool -> outcome (flagged chinese_error))
      (nominal : N) (no_prefix last_char_is_zero : bool) : outcome (flagged chinese_error) :=
    match scale_at scales rank with
    | None => next nominal no_prefix last_char_is_zero
    | Some scale =>
        remaining <- urem nominal scale ;;
        rank_value <- udiv nominal scale ;;
        out_of_bounds <-
          (match scale_at scales (rank + 1) with
           | Some previous_scale =>
               factor <- udiv previous_scale scale ;; Ret (factor <=? rank_value)
           | None =>
               match rank with
               | S rank' =>
                   lower <- or_panic (nth_error scales rank') ;;
                   lower <- or_panic lower ;;
                   factor <- udiv scale lower ;; Ret (factor <=? rank_value)
               | O => Ret false
               end
           end) ;;
        if (out_of_bounds : bool) then Ret (Err COutOfBounds, last_char_is_zero)
        else
          let finish formatted last :=
            if is_zero remaining then Ret (Ok formatted, last)
            else
              empty <- is_empty formatted ;;
              '(tail, last) <- next remaining (empty && no_prefix) last ;;
              match tail with
              | Err e => Ret (Err e, last)
              | Ok tail => append_result c formatted tail last
              end in
          if is_zero rank_value then finish new last_char_is_zero
          else
            '(r, last) <- next rank_value no_prefix last_char_is_zero ;;
            match r with
            | Err e => Ret (Err e, last)
            | Ok rank_formatted =>
                empty <- is_empty rank_formatted ;;
                if negb empty then
                  push_char chinese_error_of c rank_formatted
                    (or_panic (nth_error large rank)) last (fun rank_formatted =>
                  finish rank_formatted false)
                else finish rank_formatted last
            end
    end.

  Lemma rank_unfold rank n no_prefix last :
    format_scaled_rank c formal rank scales characters large n no_prefix last
    = rank_body rank (fun n no_prefix last =>
        match rank with
        | S rank' => format_scaled_rank c formal rank' scales characters large n no_prefix last
        | O => r <- format_chinese_inner c formal characters n no_prefix last ;; Ret (lift_flagged r)
        end) n no_prefix last.
  Proof. destruct rank; reflexivity. Qed.

  Lemma rank_step call rank next n no_prefix last :
    (rank <= 10)%nat ->
    (forall n no_prefix last,
     call #"ChineseScale" (Path [#"Self"; #"format_next_scaled_rank"]) [t; VBool formal; width]
       (rank_args (N.of_nat rank) n no_prefix last)
     = (r <- next n no_prefix last ;; Ret (flagged_value r))) ->
    (call #"ChineseScale" (Path [#"ChineseFormatError"; #"from"]) [] [VCon #"OutOfMemoryError" []]
     = Ret (VCon #"OutOfMemory" [], [None])) ->
    apply_fn c T call rank_fn [t; VBool formal; width] (rank_args (N.of_nat rank) n no_prefix last)
    = (r <- rank_body rank next n no_prefix last ;; Ret (flagged_value r)).
  Proof.
    unfold rank_args. intros Hrank Hnext Hfrom. enter_until rank_fn.
    unfold rank_body, scale_at. rewrite lookup_nat.
    destruct (nth_error scales rank) as [[scale|]|].
    2, 3: repeat step; rewrite_call (Hnext n no_prefix last);
      destruct (next n no_prefix last) as [[[s|[]] flag]| | |];
      cbv beta iota delta [obind flagged_value scaled_value chinese_error_value fst snd]; repeat step; close.
    repeat step. destruct (urem n scale) as [remaining| | |]; cbv beta iota delta [obind]; try close.
    repeat step. destruct (udiv n scale) as [rank_value| | |]; cbv beta iota delta [obind]; try close.
    repeat (lazymatch goal with |- eval _ (ESeq _ _) _ _ _ _ = _ => fail | _ => idtac end; step).
    pose (finish := fun s flag => if is_zero remaining then Ret (Ok s, flag)
            else
              empty <- is_empty s ;;
              '(tail, last) <- next remaining (empty && no_prefix) flag ;;
              match tail with
              | Err e => Ret (Err e, last)
              | Ok tail => append_result c s tail last
              end).
    lazymatch goal with
    | |- eval ?cx (ESeq ?a (ELet ?p ?b None ?rest)) ?R ?vars ?k ?j = _ =>
      let v := compute_in vars in
      let v' := eval pattern (VBool last) in v in
      let vars' := lazymatch v' with ?F _ => F end in
      assert (tail : forall s flag, eval cx rest R ((#"formatted", VString s) :: vars' (VBool flag)) k j
        = (r <- finish s flag ;; Ret (flagged_value r)))
    end.
    { intros s flag. unfold finish. cbv beta. repeat step.
      destruct (is_zero remaining).
      { repeat step; close. }
      repeat step. destruct (is_empty s) as [empty| | |]; cbv beta iota delta [obind]; try close.
      destruct empty; cbv beta iota zeta delta [andb]; repeat step.
      { rewrite_call (Hnext remaining no_prefix flag).
        destruct (next remaining no_prefix flag) as [[[s'|[]] flag']| | |];
          cbv beta iota delta [obind flagged_value scaled_value chinese_error_value fst snd append_result];
          repeat first [step | close | rewrite_call Hfrom | split_stuck]. }
      { rewrite_call (Hnext remaining false flag).
        destruct (next remaining false flag) as [[[s'|[]] flag']| | |];
          cbv beta iota delta [obind flagged_value scaled_value chinese_error_value fst snd append_result];
          repeat first [step | close | rewrite_call Hfrom | split_stuck]. } }
    cbv beta in tail.
    lazymatch goal with
    | |- eval ?cx (ESeq ?a ?b) ?R ?vars ?k ?j = _ =>
      let v := compute_in vars in
      assert (tail2 : eval cx b R v k j
        = (r <- (
          if is_zero rank_value then finish new last
          else
            '(r, last) <- next rank_value no_prefix last ;;
            match r with
            | Err e => Ret (Err e, last)
            | Ok rank_formatted =>
                empty <- is_empty rank_formatted ;;
                if negb empty then
                  push_char chinese_error_of c rank_formatted
                    (or_panic (nth_error large rank)) last (fun rank_formatted =>
                  finish rank_formatted false)
                else finish rank_formatted last
            end) ;; Ret (flagged_value r)))
    end.
    { clearbody finish.
      repeat (lazymatch goal with |- (if is_zero rank_value then _ else _) = _ => fail | _ => idtac end; step).
      destruct (is_zero rank_value).
      { repeat first [use_rank_tail tail | step]. }
      repeat step. rewrite_call (Hnext rank_value no_prefix last).
      destruct (next rank_value no_prefix last) as [[[s'|[]] flag']| | |];
        cbv beta iota delta [obind flagged_value scaled_value chinese_error_value fst snd];
        [|repeat step; close..].
      repeat step. destruct (is_empty s') as [[|]| | |]; cbv beta iota delta [obind negb push_char]; try close.
      { repeat first [use_rank_tail tail | step]. }
      repeat step. rewrite lookup_nat. destruct (nth_error large rank); cbv beta iota delta [obind or_panic]; try close.
      repeat step. destruct (try_push c s' n0) as [[s'' [|[]]]| | |]; cbv beta iota delta [obind]; try close.
      { repeat first [use_rank_tail tail | step]. }
      repeat step. rewrite_call Hfrom. repeat step. close. }
    clear tail. 
    repeat (lazymatch goal with |- obind (uadd _ _ _ _) _ = _ => fail | _ => idtac end; step).
    rewrite uadd_rank by assumption. repeat step. rewrite lookup_nat.
    destruct (nth_error scales (rank + 1)) as [[previous|]|].
    { repeat step. destruct (udiv previous scale) as [factor| | |]; cbv beta iota delta [obind]; try close.
      repeat step. destruct (factor <=? rank_value); cbv beta iota.
      - repeat step. close.
      - repeat first [use_rank_tail tail2 | step]. }
    1, 2: repeat step; destruct rank as [|rank];
      [change (0 <? N.of_nat 0) with false; cbv beta iota delta [obind]; repeat first [use_rank_tail tail2 | step]|];
      change (0 <? N.of_nat (S rank)) with true; repeat step; rewrite usub_rank; repeat step; rewrite lookup_nat;
      destruct (nth_error scales rank) as [[lower|]|]; cbv beta iota delta [obind or_panic]; repeat step; try close;
      destruct (udiv scale lower) as [factor| | |]; cbv beta iota delta [obind]; try close;
      repeat step; destruct (factor <=? rank_value); cbv beta iota;
      [repeat step; close | repeat first [use_rank_tail tail2 | step]].
  Qed.
End Ranks.
