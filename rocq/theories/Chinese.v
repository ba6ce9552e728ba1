(** * Chinese: model of /repo/src/chinese.rs *)

From Coq Require Import String.
From Verif Require Import Base Utf8 NominalString Digital.

(** ** Tables *)

(** src/chinese.rs:5-7 *)
Definition SIMPLIFIED_ORDINARY : list N := chars "零一二三四五六七八九十百千负".
(** src/chinese.rs:8-10 *)
Definition SIMPLIFIED_FINANCIAL : list N := chars "零壹贰叁肆伍陆柒捌玖拾佰仟负".
(** src/chinese.rs:11-13 *)
Definition TRADITIONAL_ORDINARY : list N := chars "零一二三四五六七八九十百千負".
(** src/chinese.rs:14-16 *)
Definition TRADITIONAL_FINANCIAL : list N := chars "零壹貳參肆伍陸柒捌玖拾佰仟負".
(** src/chinese.rs:18-20 *)
Definition TRADITIONAL_LARGE : list N := chars "萬億兆京垓秭穰溝澗正載".
(** src/chinese.rs:21-23 *)
Definition SIMPLIFIED_LARGE : list N := chars "万亿兆京垓秭穰沟涧正载".

(** src/chinese.rs:392-404 *)
Definition SHORT_SCALE : list N :=
  [10^4; 10^5; 10^6; 10^7; 10^8; 10^9; 10^10; 10^11; 10^12; 10^13; 10^14].
(** src/chinese.rs:406-416 *)
Definition MYRIAD_SCALE : list N :=
  [10^4; 10^8; 10^12; 10^16; 10^20; 10^24; 10^28; 10^32; 10^36].
(** src/chinese.rs:418-424 *)
Definition MID_SCALE : list N := [10^4; 10^8; 10^16; 10^24; 10^32].
(** src/chinese.rs:426-431 *)
Definition LONG_SCALE : list N := [10^4; 10^8; 10^16; 10^32].

(** ** Options *)

(** src/chinese.rs:125-130  [enum ChineseUsage] *)
Inductive chinese_usage := Financial | Ordinary.
(** src/chinese.rs:132-139  [enum ChineseScale] *)
Inductive chinese_scale := Short | Myriad | Mid | Long.

(** src/chinese.rs:119-123  [struct ChineseOptions] *)
Record chinese_options := { usage : chinese_usage; scale : chinese_scale }.

(** [Default] of [ChineseOptions]: src/chinese.rs:119, :128, :135 *)
Definition default_options : chinese_options := {| usage := Ordinary; scale := Myriad |}.

(** The builder methods of src/chinese.rs:528-573 ([impl_chinese_options!]),
    the same for the four public types. *)
Definition financial (o : chinese_options) := {| usage := Financial; scale := scale o |}.
Definition short_scale (o : chinese_options) := {| usage := usage o; scale := Short |}.
Definition mid_scale (o : chinese_options) := {| usage := usage o; scale := Mid |}.
Definition long_scale (o : chinese_options) := {| usage := usage o; scale := Long |}.

(** ** Formatting *)

(** src/chinese.rs:381-390  [enum ChineseFormatError] and its [From] *)
Inductive chinese_error := COutOfBounds | COutOfMemory.

Definition chinese_error_of (e : out_of_memory) : chinese_error := COutOfMemory.

(** The functions below return the value of their [last_char_is_zero: &mut
    bool] argument beside their result. [E] is the error type. *)
Definition flagged (E : Type) : Type := (result nominal_string E * bool)%type.

(** [formatted.try_push(ch)?] with the flag carried along. *)
Definition push_char {E} (conv : out_of_memory -> E) (c : config) (formatted : nominal_string)
    (ch : outcome N) (flag : bool) (k : nominal_string -> outcome (flagged E)) : outcome (flagged E) :=
  ch <- ch ;;
  '(formatted, pushed) <- try_push c formatted ch ;;
  match pushed with
  | Ok _ => k formatted
  | Err e => Ret (Err (conv e), flag)
  end.

(** [characters[i]] *)
Definition char_at (characters : list N) (i : N) : outcome N := or_panic (lookup characters i).

(** src/chinese.rs:52-117  [format_chinese_inner]. The four [if]s on
    thousands, hundreds, tens and ones each become a step taking the string
    and the flag on. *)
Definition format_chinese_inner (c : config) (formal : bool) (characters : list N)
    (nominal : N) (no_prefix : bool) (last_char_is_zero : bool) : outcome (flagged out_of_memory) :=
  let conv e := e in
  let remaining := nominal in
  let ones := remaining mod 10 in
  let remaining := remaining / 10 in
  let tens := remaining mod 10 in
  let remaining := remaining / 10 in
  let hundreds := remaining mod 10 in
  let thousands := remaining / 10 in

  let ones_step formatted last :=
    if negb (is_zero ones) then
      push_char conv c formatted (char_at characters (as_usize c ones)) last (fun formatted =>
      Ret (Ok formatted, false))
    else Ret (Ok formatted, last) in

  let tens_step formatted last :=
    empty <- is_empty formatted ;;
    if is_zero tens then
      if (negb empty || negb no_prefix) && negb last && negb (is_zero ones) then
        push_char conv c formatted (char_at characters 0) last (fun formatted =>
        ones_step formatted true)
      else ones_step formatted last
    else
      let omit_digit :=
        negb (formal || (negb empty || negb no_prefix) || last || negb (tens =? 1)) in
      let ten_marker formatted :=
        push_char conv c formatted (char_at characters 10) last (fun formatted =>
        ones_step formatted false) in
      if negb omit_digit then
        push_char conv c formatted (char_at characters (as_usize c tens)) last ten_marker
      else ten_marker formatted in

  let hundreds_step formatted last :=
    empty <- is_empty formatted ;;
    if is_zero hundreds then
      if (negb empty || negb no_prefix) && negb last && negb (is_zero tens) then
        push_char conv c formatted (char_at characters 0) true (fun formatted =>
        tens_step formatted true)
      else tens_step formatted last
    else
      push_char conv c formatted (char_at characters (as_usize c hundreds)) last (fun formatted =>
      push_char conv c formatted (char_at characters 11) last (fun formatted =>
      tens_step formatted false)) in

  let formatted := new in
  let last := last_char_is_zero in
  if is_zero thousands then
    if negb no_prefix && negb last && negb (is_zero hundreds) then
      push_char conv c formatted (char_at characters 0) true (fun formatted =>
      hundreds_step formatted true)
    else hundreds_step formatted last
  else
    push_char conv c formatted (char_at characters (as_usize c thousands)) last (fun formatted =>
    push_char conv c formatted (char_at characters 12) last (fun formatted =>
    hundreds_step formatted false)).

(** [?] / [map_err(ChineseFormatError::from)] on an inner result. *)
Definition lift_flagged (r : flagged out_of_memory) : flagged chinese_error :=
  match r with
  | (Ok s, flag) => (Ok s, flag)
  | (Err e, flag) => (Err (chinese_error_of e), flag)
  end.

(** [formatted.try_push_str(&remaining)?; Ok(formatted)] *)
Definition append_result (c : config) (formatted tail : nominal_string) (flag : bool)
  : outcome (flagged chinese_error) :=
  str <- as_str tail ;;
  '(formatted, pushed) <- try_push_str c formatted str ;;
  match pushed with
  | Ok _ => Ret (Ok formatted, flag)
  | Err e => Ret (Err (chinese_error_of e), flag)
  end.

(** State of the [while] loop of src/chinese.rs:197-224. *)
Record short_loop := {
  sl_rank : nat;
  sl_scale : N;
  sl_formatted : nominal_string;
  sl_last_was_zero : bool;
  sl_remaining : N
}.

(** src/chinese.rs:216-223, the end of the loop body: step to the next lower
    rank or leave the loop. *)
Definition short_next (c : config) (T : uint) (st : short_loop)
  : outcome (loop_step short_loop (result short_loop chinese_error)) :=
  match sl_rank st with
  | O => Ret (Break (Ok st))
  | S rank' =>
      sc <- or_panic (nth_error SHORT_SCALE rank') ;;
      match try_from c T sc with
      | Some new_scale =>
          Ret (Continue {| sl_rank := rank'; sl_scale := new_scale;
                           sl_formatted := sl_formatted st;
                           sl_last_was_zero := sl_last_was_zero st;
                           sl_remaining := sl_remaining st |})
      | None => Panic                                     (* unreachable!() *)
      end
  end.

(** src/chinese.rs:197-224, the loop condition and body. *)
Definition short_body (c : config) (T : uint) (characters large_characters : list N)
    (st : short_loop) : outcome (loop_step short_loop (result short_loop chinese_error)) :=
  if is_zero (sl_remaining st) then Ret (Break (Ok st))
  else
    rank_value <- udiv (sl_remaining st) (sl_scale st) ;;
    if 10 <=? rank_value then Ret (Break (Err COutOfBounds))
    else
      remaining <- urem (sl_remaining st) (sl_scale st) ;;
      let push formatted ch (k : nominal_string -> _) :=
        ch <- ch ;;
        '(formatted, pushed) <- try_push c formatted ch ;;
        match pushed with
        | Ok _ => k formatted
        | Err e => Ret (Break (Err (chinese_error_of e)))
        end in
      let continue formatted last :=
        short_next c T {| sl_rank := sl_rank st; sl_scale := sl_scale st;
                          sl_formatted := formatted; sl_last_was_zero := last;
                          sl_remaining := remaining |} in
      if is_zero rank_value then
        empty <- is_empty (sl_formatted st) ;;
        if negb empty && negb (sl_last_was_zero st) then
          push (sl_formatted st) (char_at characters 0) (fun formatted =>
          continue formatted true)
        else continue (sl_formatted st) (sl_last_was_zero st)
      else
        push (sl_formatted st) (char_at characters (as_usize c rank_value)) (fun formatted =>
        push formatted (or_panic (nth_error large_characters (sl_rank st))) (fun formatted =>
        continue formatted false)).

(** src/chinese.rs:176-236  [ChineseScale::format_short_rank] *)
Fixpoint format_short_rank (c : config) (T : uint) (formal : bool) (rank : nat)
    (characters large_characters : list N) (nominal : N)
  : outcome (result nominal_string chinese_error) :=
  sc <- or_panic (nth_error SHORT_SCALE rank) ;;
  match try_from c T sc with
  | None =>
      match rank with
      | O => Panic                                        (* rank - 1 underflows *)
      | S rank' => format_short_rank c T formal rank' characters large_characters nominal
      end
  | Some sc =>
      r <- run_loop c (short_body c T characters large_characters)
             {| sl_rank := rank; sl_scale := sc; sl_formatted := new;
                sl_last_was_zero := false; sl_remaining := nominal |} ;;
      match r with
      | Err e => Ret (Err e)
      | Ok st =>
          if negb (is_zero (sl_remaining st)) then
            inner <- format_chinese_inner c formal characters (sl_remaining st) false
                       (sl_last_was_zero st) ;;
            match lift_flagged inner with
            | (Err e, _) => Ret (Err e)
            | (Ok tail, flag) =>
                r <- append_result c (sl_formatted st) tail flag ;; Ret (fst r)
            end
          else Ret (Ok (sl_formatted st))
      end
  end.

(** src/chinese.rs:320, :334: [scales.get(i).copied().flatten()] *)
Definition scale_at (scales : list (option N)) (i : nat) : option N :=
  match nth_error scales i with Some (Some s) => Some s | _ => None end.

(** src/chinese.rs:308-378  [format_scaled_rank]; the nested function [next] is
    src/chinese.rs:280-306 [format_next_scaled_rank]. *)
Fixpoint format_scaled_rank (c : config) (formal : bool) (rank : nat) (scales : list (option N))
    (characters large_characters : list N) (nominal : N) (no_prefix last_char_is_zero : bool)
  {struct rank} : outcome (flagged chinese_error) :=
  let next nominal no_prefix last :=
    match rank with
    | S rank' =>
        format_scaled_rank c formal rank' scales characters large_characters nominal no_prefix last
    | O =>
        r <- format_chinese_inner c formal characters nominal no_prefix last ;;
        Ret (lift_flagged r)
    end in
  match scale_at scales rank with
  | None => next nominal no_prefix last_char_is_zero
  | Some scale =>
      remaining <- urem nominal scale ;;
      rank_value <- udiv nominal scale ;;
      out_of_bounds <-
        (match scale_at scales (rank + 1) with
         | Some previous_scale =>
             factor <- udiv previous_scale scale ;; Ret (factor <=? rank_value)
         | None =>
             match rank with
             | S rank' =>
                 lower <- or_panic (nth_error scales rank') ;;   (* scales[rank - 1] *)
                 lower <- or_panic lower ;;                       (* .expect("rank is valid") *)
                 factor <- udiv scale lower ;; Ret (factor <=? rank_value)
             | O => Ret false
             end
         end) ;;
      if (out_of_bounds : bool) then Ret (Err COutOfBounds, last_char_is_zero)
      else
        let finish formatted last :=
          if is_zero remaining then Ret (Ok formatted, last)
          else
            empty <- is_empty formatted ;;
            '(tail, last) <- next remaining (empty && no_prefix) last ;;
            match tail with
            | Err e => Ret (Err e, last)
            | Ok tail => append_result c formatted tail last
            end in
        if is_zero rank_value then finish new last_char_is_zero
        else
          '(r, last) <- next rank_value no_prefix last_char_is_zero ;;
          match r with
          | Err e => Ret (Err e, last)
          | Ok rank_formatted =>
              empty <- is_empty rank_formatted ;;
              if negb empty then
                push_char chinese_error_of c rank_formatted
                  (or_panic (nth_error large_characters rank)) last (fun rank_formatted =>
                finish rank_formatted false)
              else finish rank_formatted last
          end
  end.

(** src/chinese.rs:238-256  [format_scaled] with :258-278
    [format_scaled_inner] *)
Definition format_scaled (c : config) (T : uint) (formal : bool) (scales : list N)
    (characters large_characters : list N) (nominal : N)
  : outcome (result nominal_string chinese_error) :=
  r <- format_scaled_rank c formal 10 (map (try_from c T) scales) characters large_characters
         nominal true false ;;
  Ret (fst r).

(** src/chinese.rs:141-174  [ChineseScale::format] *)
Definition format_scale (c : config) (T : uint) (formal : bool) (sc : chinese_scale)
    (characters large_characters : list N) (nominal : N)
  : outcome (result nominal_string chinese_error) :=
  match sc with
  | Short => format_short_rank c T formal 10 characters large_characters nominal
  | Myriad => format_scaled c T formal MYRIAD_SCALE characters large_characters nominal
  | Mid => format_scaled c T formal MID_SCALE characters large_characters nominal
  | Long => format_scaled c T formal LONG_SCALE characters large_characters nominal
  end.

(** src/chinese.rs:25-50  [format_chinese] *)
Definition format_chinese (c : config) (T : uint) (formal : bool)
    (characters large_characters : list N) (nominal : N) (sc : chinese_scale)
  : outcome (result nominal_string error) :=
  if is_zero nominal then
    ch <- char_at characters 0 ;; s <- from_char c ch ;; Ret (Ok s)
  else
    let inner :=
      r <- format_chinese_inner c formal characters nominal true false ;;
      match fst r with
      | Ok s => Ret (Ok s)
      | Err OutOfMemoryError => Ret (Err (OutOfMemory nominal))
      end in
    match try_from c T 10000 with
    | Some ten_thousand =>
        if ten_thousand <=? nominal then
          r <- format_scale c T formal sc characters large_characters nominal ;;
          match r with
          | Ok s => Ret (Ok s)
          | Err COutOfMemory => Ret (Err (OutOfMemory nominal))
          | Err COutOfBounds => Ret (Err (OutOfBounds nominal))
          end
        else inner
    | None => inner
    end.

(** src/chinese.rs:444-455 *)
Definition SimplifiedChineseInformal (o : chinese_options) (c : config) (T : uint) (nominal : N)
  : outcome (result nominal_string error) :=
  let characters := match usage o with
                    | Financial => SIMPLIFIED_FINANCIAL
                    | Ordinary => SIMPLIFIED_ORDINARY
                    end in
  format_chinese c T false characters SIMPLIFIED_LARGE nominal (scale o).

(** src/chinese.rs:468-479 *)
Definition SimplifiedChineseFormal (o : chinese_options) (c : config) (T : uint) (nominal : N)
  : outcome (result nominal_string error) :=
  let characters := match usage o with
                    | Financial => SIMPLIFIED_FINANCIAL
                    | Ordinary => SIMPLIFIED_ORDINARY
                    end in
  format_chinese c T true characters SIMPLIFIED_LARGE nominal (scale o).

(** src/chinese.rs:492-503 *)
Definition TraditionalChineseFormal (o : chinese_options) (c : config) (T : uint) (nominal : N)
  : outcome (result nominal_string error) :=
  let characters := match usage o with
                    | Financial => TRADITIONAL_FINANCIAL
                    | Ordinary => TRADITIONAL_ORDINARY
                    end in
  format_chinese c T true characters TRADITIONAL_LARGE nominal (scale o).

(** src/chinese.rs:515-526 *)
Definition TraditionalChineseInformal (o : chinese_options) (c : config) (T : uint) (nominal : N)
  : outcome (result nominal_string error) :=
  let characters := match usage o with
                    | Financial => TRADITIONAL_FINANCIAL
                    | Ordinary => TRADITIONAL_ORDINARY
                    end in
  format_chinese c T false characters TRADITIONAL_LARGE nominal (scale o).
