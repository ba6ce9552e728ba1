(** * Casts: the formatters with another [as_usize]

    The documentation of [UnsignedInteger::as_usize] (src/lib.rs:150-156) says
    that it should only be invoked when the value is within the range of a
    [usize]. This file is the code that invokes it again (src/digital.rs:563,
    :596; src/ethiopic.rs:54, :58; src/chinese.rs:80, :91, :105, :112, :211),
    with any function in its place, which may also panic. *)

From Verif Require Import Base Utf8 NominalString Spec Digital DigitSets Live Ethiopic Chinese.

(** ** src/digital.rs *)

(** src/digital.rs:585-603 *)
Definition live_loop_body_with (cast : N -> outcome N) (c : config) (T : uint) (d : live_collection) (nominal : N)
    (st : live_loop (live_state d)) : outcome (loop_step (live_loop (live_state d)) (result nominal_string error)) :=
  if negb (is_zero (ll_remaining st)) || ll_first_loop st then
    '(has_zero, self) <- live_has_zero_digit d (ll_self st) ;;
    '(subtract, self) <-
      (if has_zero then Ret (false, self)
       else
         '(zero_based, self) <- live_zero_based d self ;;
         Ret (negb zero_based || negb (ll_first_loop st), self)) ;;
    '(no_zero, self) <-
      (if subtract then
         '(has_zero, self) <- live_has_zero_digit d self ;;
         Ret (negb has_zero && is_zero (ll_remaining st), self)
       else Ret (false, self)) ;;
    if no_zero then Ret (Break (Err NoZeroSymbol))
    else
      remaining <- (if subtract then usub c (bits c T) (ll_remaining st) 1 else Ret (ll_remaining st)) ;;
      r <- urem remaining (ll_count st) ;;
      i <- cast r ;;
      '(ch, self) <- live_digit d i self ;;
      '(formatted, pushed) <- try_push_front c (ll_formatted st) ch ;;
      match pushed with
      | Err OutOfMemoryError => Ret (Break (Err (OutOfMemory nominal)))
      | Ok _ =>
          remaining <- udiv remaining (ll_count st) ;;
          '(len, self) <- live_len d self ;;
          match try_from c T len with
          | Some count => Ret (Continue (LL remaining false count formatted self))
          | None => Ret (Break (Err (OutOfBounds nominal)))
          end
      end
  else Ret (Break (Ok (ll_formatted st))).

(** src/digital.rs:556-607 *)
Fixpoint format_live_with (cast : N -> outcome N) (depth : nat) (c : config) (T : uint) (d : live_collection) (nominal : N)
  : outcome (result nominal_string error) :=
  match depth with
  | O => Hang
  | S depth' =>
      '(len, self) <- live_len d (live_start d) ;;
      match try_from c T len with
      | None =>
          i <- cast nominal ;;
          '(ch, _) <- live_digit d i self ;;
          s <- from_char c ch ;;
          Ret (Ok s)
      | Some count =>
          '(fixed, self) <- live_fixed d self ;;
          '(beyond, self) <-
            (if fixed then
               '(zero_based, self) <- live_zero_based d self ;;
               Ret (if zero_based : bool then count <=? nominal else count <? nominal, self)
             else Ret (false, self)) ;;
          if beyond : bool then
            let fallback := live_fallback d in
            '(empty, start) <- live_is_empty fallback (live_start fallback) ;;
            if empty : bool then Ret (Err (OutOfBounds nominal))
            else
              format_live_with cast depth' c T (in_state fallback start) nominal
          else
            run_loop c (live_loop_body_with cast c T d nominal) (LL nominal true count new_reverse self)
      end
  end.

Definition try_format_live_with (cast : N -> outcome N) (c : config) (T : uint) (d : live_collection) (nominal : N)
  : outcome (result nominal_string error) :=
  format_live_with cast (loop_depth c) c T d nominal.

(** ** src/ethiopic.rs *)

(** src/ethiopic.rs:22-61 *)
Definition ethiopic_body_with (cast : N -> outcome N) (c : config) (st : N * N * nominal_string)
  : outcome (loop_step (N * N * nominal_string) (result nominal_string out_of_memory)) :=
  let '(group_index, remaining, formatted) := st in
  if is_zero remaining then Ret (Break (Ok formatted))
  else
    let first := remaining mod 10 in
    let remaining := remaining / 10 in
    let second := remaining mod 10 in
    let remaining := remaining / 10 in
    let first_is_zero := is_zero first in
    let second_is_zero := is_zero second in
    let first_is_one := first =? 1 in
    let group_is_odd := group_index mod 2 =? 1 in
    let not_first_group := 0 <? group_index in
    push_front_if c (not_first_group && negb group_is_odd) formatted (Ret 0x137C) (fun formatted =>
    push_front_if c (not_first_group && group_is_odd && negb (first_is_zero && second_is_zero))
      formatted (Ret 0x137B) (fun formatted =>
    let remove_digits :=
      (first_is_zero && second_is_zero)
      || ((is_zero remaining || group_is_odd) && not_first_group && second_is_zero && first_is_one) in
    push_front_if c (negb remove_digits && negb first_is_zero)
      formatted (i <- cast first ;; or_panic (lookup ONES i)) (fun formatted =>
    push_front_if c (negb remove_digits && negb second_is_zero)
      formatted (i <- cast second ;; or_panic (lookup TENS i)) (fun formatted =>
    Ret (Continue (group_index + 1, remaining, formatted)))))).

(** src/ethiopic.rs:16-64  [format_ethiopic] *)
Definition format_ethiopic_with (cast : N -> outcome N) (c : config) (nominal : N)
  : outcome (result nominal_string out_of_memory) :=
  run_loop c (ethiopic_body_with cast c) (0, nominal, new_reverse).

(** src/ethiopic.rs:66-76  [NominalSystem<T> for Ethiopic] *)
Definition Ethiopic_with (cast : N -> outcome N) (c : config) (T : uint) (nominal : N) : outcome (result nominal_string error) :=
  if is_zero nominal then Ret (Err NoZeroSymbol)
  else
    r <- format_ethiopic_with cast c nominal ;;
    match r with
    | Ok s => Ret (Ok s)
    | Err OutOfMemoryError => Ret (Err (OutOfMemory nominal))
    end.

(** ** src/chinese.rs *)

(** src/chinese.rs:52-117 *)
Definition format_chinese_inner_with (cast : N -> outcome N) (c : config) (formal : bool) (characters : list N)
    (nominal : N) (no_prefix : bool) (last_char_is_zero : bool) : outcome (flagged out_of_memory) :=
  let conv e := e in
  let remaining := nominal in
  let ones := remaining mod 10 in
  let remaining := remaining / 10 in
  let tens := remaining mod 10 in
  let remaining := remaining / 10 in
  let hundreds := remaining mod 10 in
  let thousands := remaining / 10 in

  let ones_step formatted last :=
    if negb (is_zero ones) then
      push_char conv c formatted (i <- cast ones ;; char_at characters i) last (fun formatted =>
      Ret (Ok formatted, false))
    else Ret (Ok formatted, last) in

  let tens_step formatted last :=
    empty <- is_empty formatted ;;
    if is_zero tens then
      if (negb empty || negb no_prefix) && negb last && negb (is_zero ones) then
        push_char conv c formatted (char_at characters 0) last (fun formatted =>
        ones_step formatted true)
      else ones_step formatted last
    else
      let omit_digit :=
        negb (formal || (negb empty || negb no_prefix) || last || negb (tens =? 1)) in
      let ten_marker formatted :=
        push_char conv c formatted (char_at characters 10) last (fun formatted =>
        ones_step formatted false) in
      if negb omit_digit then
        push_char conv c formatted (i <- cast tens ;; char_at characters i) last ten_marker
      else ten_marker formatted in

  let hundreds_step formatted last :=
    empty <- is_empty formatted ;;
    if is_zero hundreds then
      if (negb empty || negb no_prefix) && negb last && negb (is_zero tens) then
        push_char conv c formatted (char_at characters 0) true (fun formatted =>
        tens_step formatted true)
      else tens_step formatted last
    else
      push_char conv c formatted (i <- cast hundreds ;; char_at characters i) last (fun formatted =>
      push_char conv c formatted (char_at characters 11) last (fun formatted =>
      tens_step formatted false)) in

  let formatted := new in
  let last := last_char_is_zero in
  if is_zero thousands then
    if negb no_prefix && negb last && negb (is_zero hundreds) then
      push_char conv c formatted (char_at characters 0) true (fun formatted =>
      hundreds_step formatted true)
    else hundreds_step formatted last
  else
    push_char conv c formatted (i <- cast thousands ;; char_at characters i) last (fun formatted =>
    push_char conv c formatted (char_at characters 12) last (fun formatted =>
    hundreds_step formatted false)).

(** src/chinese.rs:197-224 *)
Definition short_body_with (cast : N -> outcome N) (c : config) (T : uint) (characters large_characters : list N)
    (st : short_loop) : outcome (loop_step short_loop (result short_loop chinese_error)) :=
  if is_zero (sl_remaining st) then Ret (Break (Ok st))
  else
    rank_value <- udiv (sl_remaining st) (sl_scale st) ;;
    if 10 <=? rank_value then Ret (Break (Err COutOfBounds))
    else
      remaining <- urem (sl_remaining st) (sl_scale st) ;;
      let push formatted ch (k : nominal_string -> _) :=
        ch <- ch ;;
        '(formatted, pushed) <- try_push c formatted ch ;;
        match pushed with
        | Ok _ => k formatted
        | Err e => Ret (Break (Err (chinese_error_of e)))
        end in
      let continue formatted last :=
        short_next c T {| sl_rank := sl_rank st; sl_scale := sl_scale st;
                          sl_formatted := formatted; sl_last_was_zero := last;
                          sl_remaining := remaining |} in
      if is_zero rank_value then
        empty <- is_empty (sl_formatted st) ;;
        if negb empty && negb (sl_last_was_zero st) then
          push (sl_formatted st) (char_at characters 0) (fun formatted =>
          continue formatted true)
        else continue (sl_formatted st) (sl_last_was_zero st)
      else
        push (sl_formatted st) (i <- cast rank_value ;; char_at characters i) (fun formatted =>
        push formatted (or_panic (nth_error large_characters (sl_rank st))) (fun formatted =>
        continue formatted false)).

(** src/chinese.rs:176-236 *)
Fixpoint format_short_rank_with (cast : N -> outcome N) (c : config) (T : uint) (formal : bool) (rank : nat)
    (characters large_characters : list N) (nominal : N)
  : outcome (result nominal_string chinese_error) :=
  sc <- or_panic (nth_error SHORT_SCALE rank) ;;
  match try_from c T sc with
  | None =>
      match rank with
      | O => Panic                                        (* rank - 1 underflows *)
      | S rank' => format_short_rank_with cast c T formal rank' characters large_characters nominal
      end
  | Some sc =>
      r <- run_loop c (short_body_with cast c T characters large_characters)
             {| sl_rank := rank; sl_scale := sc; sl_formatted := new;
                sl_last_was_zero := false; sl_remaining := nominal |} ;;
      match r with
      | Err e => Ret (Err e)
      | Ok st =>
          if negb (is_zero (sl_remaining st)) then
            inner <- format_chinese_inner_with cast c formal characters (sl_remaining st) false
                       (sl_last_was_zero st) ;;
            match lift_flagged inner with
            | (Err e, _) => Ret (Err e)
            | (Ok tail, flag) =>
                r <- append_result c (sl_formatted st) tail flag ;; Ret (fst r)
            end
          else Ret (Ok (sl_formatted st))
      end
  end.

(** src/chinese.rs:308-378, :280-306 *)
Fixpoint format_scaled_rank_with (cast : N -> outcome N) (c : config) (formal : bool) (rank : nat) (scales : list (option N))
    (characters large_characters : list N) (nominal : N) (no_prefix last_char_is_zero : bool)
  {struct rank} : outcome (flagged chinese_error) :=
  let next nominal no_prefix last :=
    match rank with
    | S rank' =>
        format_scaled_rank_with cast c formal rank' scales characters large_characters nominal no_prefix last
    | O =>
        r <- format_chinese_inner_with cast c formal characters nominal no_prefix last ;;
        Ret (lift_flagged r)
    end in
  match scale_at scales rank with
  | None => next nominal no_prefix last_char_is_zero
  | Some scale =>
      remaining <- urem nominal scale ;;
      rank_value <- udiv nominal scale ;;
      out_of_bounds <-
        (match scale_at scales (rank + 1) with
         | Some previous_scale =>
             factor <- udiv previous_scale scale ;; Ret (factor <=? rank_value)
         | None =>
             match rank with
             | S rank' =>
                 lower <- or_panic (nth_error scales rank') ;;   (* scales[rank - 1] *)
                 lower <- or_panic lower ;;                       (* .expect("rank is valid") *)
                 factor <- udiv scale lower ;; Ret (factor <=? rank_value)
             | O => Ret false
             end
         end) ;;
      if (out_of_bounds : bool) then Ret (Err COutOfBounds, last_char_is_zero)
      else
        let finish formatted last :=
          if is_zero remaining then Ret (Ok formatted, last)
          else
            empty <- is_empty formatted ;;
            '(tail, last) <- next remaining (empty && no_prefix) last ;;
            match tail with
            | Err e => Ret (Err e, last)
            | Ok tail => append_result c formatted tail last
            end in
        if is_zero rank_value then finish new last_char_is_zero
        else
          '(r, last) <- next rank_value no_prefix last_char_is_zero ;;
          match r with
          | Err e => Ret (Err e, last)
          | Ok rank_formatted =>
              empty <- is_empty rank_formatted ;;
              if negb empty then
                push_char chinese_error_of c rank_formatted
                  (or_panic (nth_error large_characters rank)) last (fun rank_formatted =>
                finish rank_formatted false)
              else finish rank_formatted last
          end
  end.

(** src/chinese.rs:238-278 *)
Definition format_scaled_with (cast : N -> outcome N) (c : config) (T : uint) (formal : bool) (scales : list N)
    (characters large_characters : list N) (nominal : N)
  : outcome (result nominal_string chinese_error) :=
  r <- format_scaled_rank_with cast c formal 10 (map (try_from c T) scales) characters large_characters
         nominal true false ;;
  Ret (fst r).

(** src/chinese.rs:141-174 *)
Definition format_scale_with (cast : N -> outcome N) (c : config) (T : uint) (formal : bool) (sc : chinese_scale)
    (characters large_characters : list N) (nominal : N)
  : outcome (result nominal_string chinese_error) :=
  match sc with
  | Short => format_short_rank_with cast c T formal 10 characters large_characters nominal
  | Myriad => format_scaled_with cast c T formal MYRIAD_SCALE characters large_characters nominal
  | Mid => format_scaled_with cast c T formal MID_SCALE characters large_characters nominal
  | Long => format_scaled_with cast c T formal LONG_SCALE characters large_characters nominal
  end.

(** src/chinese.rs:25-50 *)
Definition format_chinese_with (cast : N -> outcome N) (c : config) (T : uint) (formal : bool)
    (characters large_characters : list N) (nominal : N) (sc : chinese_scale)
  : outcome (result nominal_string error) :=
  if is_zero nominal then
    ch <- char_at characters 0 ;; s <- from_char c ch ;; Ret (Ok s)
  else
    let inner :=
      r <- format_chinese_inner_with cast c formal characters nominal true false ;;
      match fst r with
      | Ok s => Ret (Ok s)
      | Err OutOfMemoryError => Ret (Err (OutOfMemory nominal))
      end in
    match try_from c T 10000 with
    | Some ten_thousand =>
        if ten_thousand <=? nominal then
          r <- format_scale_with cast c T formal sc characters large_characters nominal ;;
          match r with
          | Ok s => Ret (Ok s)
          | Err COutOfMemory => Ret (Err (OutOfMemory nominal))
          | Err COutOfBounds => Ret (Err (OutOfBounds nominal))
          end
        else inner
    | None => inner
    end.

(** src/chinese.rs:444-455 *)
Definition SimplifiedChineseInformal_with (cast : N -> outcome N) (o : chinese_options) (c : config) (T : uint) (nominal : N)
  : outcome (result nominal_string error) :=
  let characters := match usage o with
                    | Financial => SIMPLIFIED_FINANCIAL
                    | Ordinary => SIMPLIFIED_ORDINARY
                    end in
  format_chinese_with cast c T false characters SIMPLIFIED_LARGE nominal (scale o).

(** src/chinese.rs:468-479 *)
Definition SimplifiedChineseFormal_with (cast : N -> outcome N) (o : chinese_options) (c : config) (T : uint) (nominal : N)
  : outcome (result nominal_string error) :=
  let characters := match usage o with
                    | Financial => SIMPLIFIED_FINANCIAL
                    | Ordinary => SIMPLIFIED_ORDINARY
                    end in
  format_chinese_with cast c T true characters SIMPLIFIED_LARGE nominal (scale o).

(** src/chinese.rs:492-503 *)
Definition TraditionalChineseFormal_with (cast : N -> outcome N) (o : chinese_options) (c : config) (T : uint) (nominal : N)
  : outcome (result nominal_string error) :=
  let characters := match usage o with
                    | Financial => TRADITIONAL_FINANCIAL
                    | Ordinary => TRADITIONAL_ORDINARY
                    end in
  format_chinese_with cast c T true characters TRADITIONAL_LARGE nominal (scale o).

(** src/chinese.rs:515-526 *)
Definition TraditionalChineseInformal_with (cast : N -> outcome N) (o : chinese_options) (c : config) (T : uint) (nominal : N)
  : outcome (result nominal_string error) :=
  let characters := match usage o with
                    | Financial => TRADITIONAL_FINANCIAL
                    | Ordinary => TRADITIONAL_ORDINARY
                    end in
  format_chinese_with cast c T false characters TRADITIONAL_LARGE nominal (scale o).
