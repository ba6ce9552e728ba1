(** * HeapFormat: the formatters with their strings in memory

    The formatters of [Digital.v], [Additive.v], [Enumerated.v], [Ethiopic.v],
    [Hebrew.v] and [Chinese.v], with the strings of [HeapMemory.v]: the local
    variables that hold strings, when they are dropped, and what unwinding
    drops when a panic goes through. The lines of /repo cited there and here
    are the same. Only builds with the feature alloc are meant. *)

From Coq Require Import String.
From Verif Require Import Base Utf8 NominalString Digital Additive Enumerated Ethiopic Hebrew Chinese HeapMemory.

(** ** Local variables *)

Definition empty_forward : held := HInline {| length_byte := 0; cells := uninit_cells |}.
Definition empty_reverse : held := HInline {| length_byte := 0x80; cells := uninit_cells |}.

Fixpoint drop_all (locals : list held) : action unit :=
  match locals with
  | [] => done tt
  | v :: locals => _ <~ held_drop v ;; drop_all locals
  end.

(** A panic in [f] drops [locals] on its way out. *)
Definition unwinding {A} (locals : list held) (f : action A) : action A := fun m =>
  match f m with
  | Stopped m' Endless => Stopped m' Endless
  | Stopped m' why => (_ <~ drop_all locals ;; stopped why) m'
  | r => r
  end.

(** What does not touch the heap, with [locals] in scope. *)
Definition holding {A} (locals : list held) (o : outcome A) : action A := unwinding locals (pure o).

(** [v.try_push(..)?] and the like, [v] and [locals] being in scope; an error
    returns. *)
Definition pushing {A} (locals : list held) (v : held) (push : action (held * result unit out_of_memory))
    (return_error : out_of_memory -> A) (k : held -> action A) : action A :=
  '(v, pushed) <~ unwinding (v :: locals) push ;;
  match pushed with
  | Ok _ => k v
  | Err e => _ <~ drop_all (v :: locals) ;; done (return_error e)
  end.

(** [v.is_empty()] *)
Definition held_is_empty (v : held) : action bool :=
  str <~ held_str v ;; done (match str with [] => true | _ => false end).

Fixpoint repeat_action {S R} (d : nat) (body : S -> action (loop_step S R)) (s : S) : action (loop_step S R) :=
  match d with
  | O => body s
  | Datatypes.S d' =>
      r <~ repeat_action d' body s ;;
      match r with
      | Continue s' => repeat_action d' body s'
      | Break b => done (Break b)
      end
  end.

Definition loop_action {S R} (c : config) (body : S -> action (loop_step S R)) (s : S) : action R :=
  r <~ repeat_action (loop_depth c) body s ;;
  match r with
  | Continue _ => stopped Endless
  | Break b => done b
  end.

(** ** Digit collections *)

Record held_digit_loop := {
  hd_remaining : N;
  hd_first_loop : bool;
  hd_count : N;
  hd_formatted : held
}.

(** src/digital.rs:585-603 *)
Definition held_digit_body (pf : platform) (T : uint) (d : digit_collection) (nominal : N)
    (st : held_digit_loop) : action (loop_step held_digit_loop (result held error)) :=
  let c := target pf in
  let formatted := hd_formatted st in
  if negb (is_zero (hd_remaining st)) || hd_first_loop st then
    let subtract := negb (dc_has_zero_digit d) && (negb (dc_zero_based d) || negb (hd_first_loop st)) in
    if subtract && negb (dc_has_zero_digit d) && is_zero (hd_remaining st) then
      _ <~ held_drop formatted ;;
      done (Break (Err NoZeroSymbol))
    else
      remaining <~ holding [formatted] (if subtract then usub c (bits c T) (hd_remaining st) 1 else Ret (hd_remaining st)) ;;
      r <~ holding [formatted] (urem remaining (hd_count st)) ;;
      ch <~ holding [formatted] (dc_digit d (as_usize c r)) ;;
      pushing [] formatted (held_push_front pf formatted ch) (fun _ => Break (Err (OutOfMemory nominal))) (fun formatted =>
      remaining <~ holding [formatted] (udiv remaining (hd_count st)) ;;
      len <~ holding [formatted] (dc_len d) ;;
      match try_from c T len with
      | Some count =>
          done (Continue {| hd_remaining := remaining; hd_first_loop := false;
                            hd_count := count; hd_formatted := formatted |})
      | None => _ <~ held_drop formatted ;; done (Break (Err (OutOfBounds nominal)))
      end)
  else done (Break (Ok formatted)).

(** src/digital.rs:556-607 *)
Fixpoint held_digits (depth : nat) (pf : platform) (T : uint) (d : digit_collection) (nominal : N)
  : action (result held error) :=
  let c := target pf in
  match depth with
  | O => stopped Endless
  | S depth' =>
      len <~ holding [] (dc_len d) ;;
      match try_from c T len with
      | None =>
          ch <~ holding [] (dc_digit d (as_usize c nominal)) ;;
          s <~ held_from_char pf ch ;;
          done (Ok s)
      | Some count =>
          if dc_fixed d && (if dc_zero_based d then count <=? nominal else count <? nominal) then
            let fallback := dc_fallback d in
            fallback_len <~ holding [] (dc_len fallback) ;;
            if fallback_len =? 0 then done (Err (OutOfBounds nominal))
            else held_digits depth' pf T fallback nominal
          else
            loop_action c (held_digit_body pf T d nominal)
              {| hd_remaining := nominal; hd_first_loop := true;
                 hd_count := count; hd_formatted := empty_reverse |}
      end
  end.

(** ** Additive sets *)

(** src/additive.rs:58-61 *)
Definition held_additive_body (pf : platform) (T : uint) (nominal : N) (symbol : list N) (value : N)
    (st : N * held) : action (loop_step (N * held) (result (N * held) error)) :=
  let (remaining, formatted) := st in
  if value <=? remaining then
    remaining <~ holding [formatted] (usub (target pf) (bits (target pf) T) remaining value) ;;
    pushing [] formatted (held_push_str pf formatted symbol) (fun _ => Break (Err (OutOfMemory nominal))) (fun formatted =>
    done (Continue (remaining, formatted)))
  else done (Break (Ok (remaining, formatted))).

(** src/additive.rs:50-64 *)
Fixpoint held_additive_for (pf : platform) (T : uint) (nominal : N) (symbols : list (list N * N))
    (remaining : N) (formatted : held) : action (result held error) :=
  match symbols with
  | [] => done (Ok formatted)
  | (symbol, value) :: rest =>
      if value =? 0 then done (Ok formatted)                   (* break *)
      else match try_from (target pf) T value with
      | None => held_additive_for pf T nominal rest remaining formatted   (* continue *)
      | Some value_as_t =>
          r <~ loop_action (target pf) (held_additive_body pf T nominal symbol value_as_t) (remaining, formatted) ;;
          match r with
          | Ok (remaining, formatted) => held_additive_for pf T nominal rest remaining formatted
          | Err e => done (Err e)
          end
      end
  end.

(** src/additive.rs:34-66 *)
Definition held_additive (pf : platform) (T : uint) (set : additive_set) (nominal : N)
  : action (result held error) :=
  if is_zero nominal then
    match as_zero set with
    | Some zero => s <~ held_from_str pf zero ;; done (Ok s)
    | None => done (Err NoZeroSymbol)
    end
  else held_additive_for pf T nominal (as_symbols set) nominal empty_forward.

(** ** Enumerated sets: src/enumerated.rs:26-43 *)

Definition held_enumerated (pf : platform) (T : uint) (set : enumerated_set) (nominal : N)
  : action (result held error) :=
  let c := target pf in
  match try_from c Usize nominal with
  | None => done (Err (OutOfBounds nominal))
  | Some n =>
      if negb (es_has_zero set) && is_zero nominal then done (Err NoZeroSymbol)
      else
        index <~ holding [] (usub c (usize_bits c) n (if es_has_zero set then 0 else 1)) ;;
        match lookup (es_symbols set) index with
        | Some symbol => s <~ held_from_str pf symbol ;; done (Ok s)
        | None => done (Err (OutOfBounds nominal))
        end
  end.

(** ** Ethiopic *)

Definition held_push_front_if {A} (pf : platform) (cond : bool) (formatted : held) (ch : outcome N)
    (k : held -> action (loop_step A (result held out_of_memory)))
  : action (loop_step A (result held out_of_memory)) :=
  if cond then
    ch <~ holding [formatted] ch ;;
    pushing [] formatted (held_push_front pf formatted ch) (fun e => Break (Err e)) k
  else k formatted.

(** src/ethiopic.rs:22-61 *)
Definition held_ethiopic_body (pf : platform) (st : N * N * held)
  : action (loop_step (N * N * held) (result held out_of_memory)) :=
  let c := target pf in
  let '(group_index, remaining, formatted) := st in
  if is_zero remaining then done (Break (Ok formatted))
  else
    let first := remaining mod 10 in
    let remaining := remaining / 10 in
    let second := remaining mod 10 in
    let remaining := remaining / 10 in
    let first_is_zero := is_zero first in
    let second_is_zero := is_zero second in
    let first_is_one := first =? 1 in
    let group_is_odd := group_index mod 2 =? 1 in
    let not_first_group := 0 <? group_index in
    held_push_front_if pf (not_first_group && negb group_is_odd) formatted (Ret 0x137C) (fun formatted =>
    held_push_front_if pf (not_first_group && group_is_odd && negb (first_is_zero && second_is_zero))
      formatted (Ret 0x137B) (fun formatted =>
    let remove_digits :=
      (first_is_zero && second_is_zero)
      || ((is_zero remaining || group_is_odd) && not_first_group && second_is_zero && first_is_one) in
    held_push_front_if pf (negb remove_digits && negb first_is_zero)
      formatted (or_panic (lookup ONES (as_usize c first))) (fun formatted =>
    held_push_front_if pf (negb remove_digits && negb second_is_zero)
      formatted (or_panic (lookup TENS (as_usize c second))) (fun formatted =>
    done (Continue (group_index + 1, remaining, formatted)))))).

(** src/ethiopic.rs:16-64, :66-76 *)
Definition held_ethiopic (pf : platform) (T : uint) (nominal : N) : action (result held error) :=
  if is_zero nominal then done (Err NoZeroSymbol)
  else
    r <~ loop_action (target pf) (held_ethiopic_body pf) (0, nominal, empty_reverse) ;;
    match r with
    | Ok s => done (Ok s)
    | Err OutOfMemoryError => done (Err (OutOfMemory nominal))
    end.

(** ** Hebrew *)

Inductive held_hebrew_exit :=
| HNextSymbol (remaining : N) (formatted : held)
| HLeaveSymbolLoop (formatted : held)
| HReturnErr (e : error).

(** src/hebrew.rs:49-71 *)
Definition held_hebrew_body (pf : platform) (T : uint) (nominal symbol value : N) (st : N * held)
  : action (loop_step (N * held) held_hebrew_exit) :=
  let c := target pf in
  let (remaining, formatted) := st in
  let push formatted ch k :=
    pushing [] formatted (held_push pf formatted ch) (fun _ => Break (HReturnErr (OutOfMemory nominal))) k in
  let push_str formatted str k :=
    pushing [] formatted (held_push_str pf formatted str) (fun _ => Break (HReturnErr (OutOfMemory nominal))) k in
  if value <=? remaining then
    if remaining =? 15 then
      push_str formatted (bytes "ט״ו") (fun formatted => done (Break (HLeaveSymbolLoop formatted)))
    else if remaining =? 16 then
      push_str formatted (bytes "ט״ז") (fun formatted => done (Break (HLeaveSymbolLoop formatted)))
    else
      empty <~ unwinding [formatted] (held_is_empty formatted) ;;
      let single_symbol := (value =? remaining) && empty in
      if single_symbol then
        push formatted (char_of "׳") (fun formatted =>
        remaining <~ holding [formatted] (usub c (bits c T) remaining value) ;;
        push formatted symbol (fun formatted =>
        push formatted (char_of "״") (fun formatted =>
        done (Break (HNextSymbol remaining formatted)))))
      else
        remaining <~ holding [formatted] (usub c (bits c T) remaining value) ;;
        push formatted symbol (fun formatted =>
        done (Continue (remaining, formatted)))
  else done (Break (HNextSymbol remaining formatted)).

(** src/hebrew.rs:21-72 *)
Fixpoint held_hebrew_for (pf : platform) (T : uint) (nominal : N) (symbols : list (N * N))
    (remaining : N) (formatted : held) : action (result held error) :=
  match symbols with
  | [] => done (Ok formatted)
  | (symbol, value) :: rest =>
      match try_from (target pf) T value with
      | None => held_hebrew_for pf T nominal rest remaining formatted       (* continue *)
      | Some value =>
          exit <~ loop_action (target pf) (held_hebrew_body pf T nominal symbol value) (remaining, formatted) ;;
          match exit with
          | HNextSymbol remaining formatted => held_hebrew_for pf T nominal rest remaining formatted
          | HLeaveSymbolLoop formatted => done (Ok formatted)
          | HReturnErr e => done (Err e)
          end
      end
  end.

(** src/hebrew.rs:7-76 *)
Definition held_hebrew (pf : platform) (T : uint) (nominal : N) : action (result held error) :=
  if is_zero nominal then done (Err NoZeroSymbol)
  else held_hebrew_for pf T nominal hebrew_symbols nominal empty_forward.

(** ** Chinese *)

Definition held_flagged (E : Type) : Type := (result held E * bool)%type.

Definition held_push_char {E} (conv : out_of_memory -> E) (pf : platform) (formatted : held)
    (ch : outcome N) (flag : bool) (k : held -> action (held_flagged E)) : action (held_flagged E) :=
  ch <~ holding [formatted] ch ;;
  pushing [] formatted (held_push pf formatted ch) (fun e => (Err (conv e), flag)) k.

(** src/chinese.rs:52-117  [format_chinese_inner] *)
Definition held_chinese_inner (pf : platform) (formal : bool) (characters : list N)
    (nominal : N) (no_prefix : bool) (last_char_is_zero : bool) : action (held_flagged out_of_memory) :=
  let c := target pf in
  let conv e := e in
  let remaining := nominal in
  let ones := remaining mod 10 in
  let remaining := remaining / 10 in
  let tens := remaining mod 10 in
  let remaining := remaining / 10 in
  let hundreds := remaining mod 10 in
  let thousands := remaining / 10 in

  let ones_step formatted last :=
    if negb (is_zero ones) then
      held_push_char conv pf formatted (char_at characters (as_usize c ones)) last (fun formatted =>
      done (Ok formatted, false))
    else done (Ok formatted, last) in

  let tens_step formatted last :=
    empty <~ unwinding [formatted] (held_is_empty formatted) ;;
    if is_zero tens then
      if (negb empty || negb no_prefix) && negb last && negb (is_zero ones) then
        held_push_char conv pf formatted (char_at characters 0) last (fun formatted =>
        ones_step formatted true)
      else ones_step formatted last
    else
      let omit_digit :=
        negb (formal || (negb empty || negb no_prefix) || last || negb (tens =? 1)) in
      let ten_marker formatted :=
        held_push_char conv pf formatted (char_at characters 10) last (fun formatted =>
        ones_step formatted false) in
      if negb omit_digit then
        held_push_char conv pf formatted (char_at characters (as_usize c tens)) last ten_marker
      else ten_marker formatted in

  let hundreds_step formatted last :=
    empty <~ unwinding [formatted] (held_is_empty formatted) ;;
    if is_zero hundreds then
      if (negb empty || negb no_prefix) && negb last && negb (is_zero tens) then
        held_push_char conv pf formatted (char_at characters 0) true (fun formatted =>
        tens_step formatted true)
      else tens_step formatted last
    else
      held_push_char conv pf formatted (char_at characters (as_usize c hundreds)) last (fun formatted =>
      held_push_char conv pf formatted (char_at characters 11) last (fun formatted =>
      tens_step formatted false)) in

  let formatted := empty_forward in
  let last := last_char_is_zero in
  if is_zero thousands then
    if negb no_prefix && negb last && negb (is_zero hundreds) then
      held_push_char conv pf formatted (char_at characters 0) true (fun formatted =>
      hundreds_step formatted true)
    else hundreds_step formatted last
  else
    held_push_char conv pf formatted (char_at characters (as_usize c thousands)) last (fun formatted =>
    held_push_char conv pf formatted (char_at characters 12) last (fun formatted =>
    hundreds_step formatted false)).

Definition held_lift_flagged (r : held_flagged out_of_memory) : held_flagged chinese_error :=
  match r with
  | (Ok s, flag) => (Ok s, flag)
  | (Err e, flag) => (Err (chinese_error_of e), flag)
  end.

(** [formatted.try_push_str(&remaining)?; Ok(formatted)], after which the
    string [remaining] goes out of scope. *)
Definition held_append_result (pf : platform) (formatted tail : held) (flag : bool)
  : action (held_flagged chinese_error) :=
  str <~ unwinding [tail; formatted] (held_str tail) ;;
  pushing [tail] formatted (held_push_str pf formatted str) (fun e => (Err (chinese_error_of e), flag)) (fun formatted =>
  _ <~ held_drop tail ;;
  done (Ok formatted, flag)).

Record held_short_loop := {
  hs_rank : nat;
  hs_scale : N;
  hs_formatted : held;
  hs_last_was_zero : bool;
  hs_remaining : N
}.

(** src/chinese.rs:216-223 *)
Definition held_short_next (pf : platform) (T : uint) (st : held_short_loop)
  : action (loop_step held_short_loop (result held_short_loop chinese_error)) :=
  match hs_rank st with
  | O => done (Break (Ok st))
  | S rank' =>
      sc <~ holding [hs_formatted st] (or_panic (nth_error SHORT_SCALE rank')) ;;
      match try_from (target pf) T sc with
      | Some new_scale =>
          done (Continue {| hs_rank := rank'; hs_scale := new_scale;
                            hs_formatted := hs_formatted st;
                            hs_last_was_zero := hs_last_was_zero st;
                            hs_remaining := hs_remaining st |})
      | None => holding [hs_formatted st] Panic                     (* unreachable!() *)
      end
  end.

(** src/chinese.rs:197-224 *)
Definition held_short_body (pf : platform) (T : uint) (characters large_characters : list N)
    (st : held_short_loop) : action (loop_step held_short_loop (result held_short_loop chinese_error)) :=
  let c := target pf in
  if is_zero (hs_remaining st) then done (Break (Ok st))
  else
    rank_value <~ holding [hs_formatted st] (udiv (hs_remaining st) (hs_scale st)) ;;
    if 10 <=? rank_value then _ <~ held_drop (hs_formatted st) ;; done (Break (Err COutOfBounds))
    else
      remaining <~ holding [hs_formatted st] (urem (hs_remaining st) (hs_scale st)) ;;
      let push formatted ch k :=
        ch <~ holding [formatted] ch ;;
        pushing [] formatted (held_push pf formatted ch) (fun e => Break (Err (chinese_error_of e))) k in
      let continue formatted last :=
        held_short_next pf T {| hs_rank := hs_rank st; hs_scale := hs_scale st;
                                hs_formatted := formatted; hs_last_was_zero := last;
                                hs_remaining := remaining |} in
      if is_zero rank_value then
        empty <~ unwinding [hs_formatted st] (held_is_empty (hs_formatted st)) ;;
        if negb empty && negb (hs_last_was_zero st) then
          push (hs_formatted st) (char_at characters 0) (fun formatted =>
          continue formatted true)
        else continue (hs_formatted st) (hs_last_was_zero st)
      else
        push (hs_formatted st) (char_at characters (as_usize c rank_value)) (fun formatted =>
        push formatted (or_panic (nth_error large_characters (hs_rank st))) (fun formatted =>
        continue formatted false)).

(** src/chinese.rs:176-236 *)
Fixpoint held_short_rank (pf : platform) (T : uint) (formal : bool) (rank : nat)
    (characters large_characters : list N) (nominal : N)
  : action (result held chinese_error) :=
  let c := target pf in
  sc <~ holding [] (or_panic (nth_error SHORT_SCALE rank)) ;;
  match try_from c T sc with
  | None =>
      match rank with
      | O => holding [] Panic                                        (* rank - 1 underflows *)
      | S rank' => held_short_rank pf T formal rank' characters large_characters nominal
      end
  | Some sc =>
      r <~ loop_action c (held_short_body pf T characters large_characters)
             {| hs_rank := rank; hs_scale := sc; hs_formatted := empty_forward;
                hs_last_was_zero := false; hs_remaining := nominal |} ;;
      match r with
      | Err e => done (Err e)
      | Ok st =>
          if negb (is_zero (hs_remaining st)) then
            inner <~ unwinding [hs_formatted st]
                       (held_chinese_inner pf formal characters (hs_remaining st) false (hs_last_was_zero st)) ;;
            match held_lift_flagged inner with
            | (Err e, _) => _ <~ held_drop (hs_formatted st) ;; done (Err e)
            | (Ok tail, flag) =>
                r <~ held_append_result pf (hs_formatted st) tail flag ;; done (fst r)
            end
          else done (Ok (hs_formatted st))
      end
  end.

(** src/chinese.rs:308-378, with :280-306 as [next] *)
Fixpoint held_scaled_rank (pf : platform) (formal : bool) (rank : nat) (scales : list (option N))
    (characters large_characters : list N) (nominal : N) (no_prefix last_char_is_zero : bool)
  {struct rank} : action (held_flagged chinese_error) :=
  let next nominal no_prefix last :=
    match rank with
    | S rank' =>
        held_scaled_rank pf formal rank' scales characters large_characters nominal no_prefix last
    | O =>
        r <~ held_chinese_inner pf formal characters nominal no_prefix last ;;
        done (held_lift_flagged r)
    end in
  match scale_at scales rank with
  | None => next nominal no_prefix last_char_is_zero
  | Some scale =>
      remaining <~ holding [] (urem nominal scale) ;;
      rank_value <~ holding [] (udiv nominal scale) ;;
      out_of_bounds <~ holding []
        (match scale_at scales (rank + 1) with
         | Some previous_scale =>
             factor <- udiv previous_scale scale ;; Ret (factor <=? rank_value)
         | None =>
             match rank with
             | S rank' =>
                 lower <- or_panic (nth_error scales rank') ;;
                 lower <- or_panic lower ;;
                 factor <- udiv scale lower ;; Ret (factor <=? rank_value)
             | O => Ret false
             end
         end) ;;
      if (out_of_bounds : bool) then done (Err COutOfBounds, last_char_is_zero)
      else
        let finish formatted last :=
          if is_zero remaining then done (Ok formatted, last)
          else
            empty <~ unwinding [formatted] (held_is_empty formatted) ;;
            '(tail, last) <~ unwinding [formatted] (next remaining (empty && no_prefix) last) ;;
            match tail with
            | Err e => _ <~ held_drop formatted ;; done (Err e, last)
            | Ok tail => held_append_result pf formatted tail last
            end in
        if is_zero rank_value then finish empty_forward last_char_is_zero
        else
          '(r, last) <~ next rank_value no_prefix last_char_is_zero ;;
          match r with
          | Err e => done (Err e, last)
          | Ok rank_formatted =>
              empty <~ unwinding [rank_formatted] (held_is_empty rank_formatted) ;;
              if negb empty then
                held_push_char chinese_error_of pf rank_formatted
                  (or_panic (nth_error large_characters rank)) last (fun rank_formatted =>
                finish rank_formatted false)
              else finish rank_formatted last
          end
  end.

(** src/chinese.rs:238-278 *)
Definition held_scaled (pf : platform) (T : uint) (formal : bool) (scales : list N)
    (characters large_characters : list N) (nominal : N)
  : action (result held chinese_error) :=
  r <~ held_scaled_rank pf formal 10 (map (try_from (target pf) T) scales) characters large_characters
         nominal true false ;;
  done (fst r).

(** src/chinese.rs:141-174 *)
Definition held_scale (pf : platform) (T : uint) (formal : bool) (sc : chinese_scale)
    (characters large_characters : list N) (nominal : N)
  : action (result held chinese_error) :=
  match sc with
  | Short => held_short_rank pf T formal 10 characters large_characters nominal
  | Myriad => held_scaled pf T formal MYRIAD_SCALE characters large_characters nominal
  | Mid => held_scaled pf T formal MID_SCALE characters large_characters nominal
  | Long => held_scaled pf T formal LONG_SCALE characters large_characters nominal
  end.

(** src/chinese.rs:25-50 *)
Definition held_chinese (pf : platform) (T : uint) (formal : bool)
    (characters large_characters : list N) (nominal : N) (sc : chinese_scale)
  : action (result held error) :=
  if is_zero nominal then
    ch <~ holding [] (char_at characters 0) ;; s <~ held_from_char pf ch ;; done (Ok s)
  else
    let inner :=
      r <~ held_chinese_inner pf formal characters nominal true false ;;
      match fst r with
      | Ok s => done (Ok s)
      | Err OutOfMemoryError => done (Err (OutOfMemory nominal))
      end in
    match try_from (target pf) T 10000 with
    | Some ten_thousand =>
        if ten_thousand <=? nominal then
          r <~ held_scale pf T formal sc characters large_characters nominal ;;
          match r with
          | Ok s => done (Ok s)
          | Err COutOfMemory => done (Err (OutOfMemory nominal))
          | Err COutOfBounds => done (Err (OutOfBounds nominal))
          end
        else inner
    | None => inner
    end.

(** src/chinese.rs:444-455, :468-479, :492-503, :515-526 *)
Definition held_chinese_system (traditional formal : bool) (o : chinese_options) (pf : platform) (T : uint) (nominal : N)
  : action (result held error) :=
  let characters := match traditional, usage o with
                    | false, Financial => SIMPLIFIED_FINANCIAL
                    | false, Ordinary => SIMPLIFIED_ORDINARY
                    | true, Financial => TRADITIONAL_FINANCIAL
                    | true, Ordinary => TRADITIONAL_ORDINARY
                    end in
  let large := if traditional then TRADITIONAL_LARGE else SIMPLIFIED_LARGE in
  held_chinese pf T formal characters large nominal (scale o).

(** ** The systems of the crate *)

Definition held_system := platform -> uint -> N -> action (result held error).

Definition held_digit_system (d : config -> digit_collection) : held_system := fun pf T =>
  held_digits (loop_depth (target pf)) pf T (d (target pf)).

(** src/additive.rs:83-614 *)
Definition held_additive_system (symbols : list (list N * N)) : held_system := fun pf T nominal =>
  set <~ holding [] (additive_set_new symbols) ;; held_additive pf T set nominal.

(** src/enumerated.rs:67-81 *)
Definition held_enumerated_system (set : enumerated_set) : held_system := fun pf T nominal =>
  held_enumerated pf T set nominal.
