(** * Live: the digit formatter with implementors that keep state

    [Digital] takes the methods of a [DigitCollection] to be pure. They take
    [&self], so a caller's implementation can still answer differently from
    call to call (a [Cell], a lock, an atomic), and it can override
    [is_empty]. This file is the same code of /repo/src/digital.rs:556-607
    again, call by call, for such implementors. *)

From Verif Require Import Base Utf8 NominalString Digital.

(** src/digital.rs:632-685  [trait DigitCollection]: every method reads and
    updates a hidden state; [live_fallback] is [<Self::Fallback>::default()]
    with a state of its own. *)
CoInductive live_collection := Live {
  live_state : Type;
  live_start : live_state;
  live_fixed : live_state -> outcome (bool * live_state);
  live_has_zero_digit : live_state -> outcome (bool * live_state);
  live_zero_based : live_state -> outcome (bool * live_state);
  live_len : live_state -> outcome (N * live_state);
  live_is_empty : live_state -> outcome (bool * live_state);
  live_digit : N -> live_state -> outcome (N * live_state);
  live_fallback : live_collection
}.

(** The same object after some calls. *)
Definition in_state (d : live_collection) (self : live_state d) : live_collection :=
  Live (live_state d) self (live_fixed d) (live_has_zero_digit d) (live_zero_based d) (live_len d)
    (live_is_empty d) (live_digit d) (live_fallback d).

(** State of the [while] loop at src/digital.rs:585-603. *)
Record live_loop (S : Type) := LL {
  ll_remaining : N;
  ll_first_loop : bool;
  ll_count : N;
  ll_formatted : nominal_string;
  ll_self : S
}.
Arguments LL {S}.
Arguments ll_remaining {S}.
Arguments ll_first_loop {S}.
Arguments ll_count {S}.
Arguments ll_formatted {S}.
Arguments ll_self {S}.

(** src/digital.rs:585-603, one evaluation of the loop condition and body. The
    conditions call the methods left to right and stop early. *)
Definition live_loop_body (c : config) (T : uint) (d : live_collection) (nominal : N)
    (st : live_loop (live_state d)) : outcome (loop_step (live_loop (live_state d)) (result nominal_string error)) :=
  if negb (is_zero (ll_remaining st)) || ll_first_loop st then
    '(has_zero, self) <- live_has_zero_digit d (ll_self st) ;;
    '(subtract, self) <-
      (if has_zero then Ret (false, self)
       else
         '(zero_based, self) <- live_zero_based d self ;;
         Ret (negb zero_based || negb (ll_first_loop st), self)) ;;
    '(no_zero, self) <-
      (if subtract then
         '(has_zero, self) <- live_has_zero_digit d self ;;
         Ret (negb has_zero && is_zero (ll_remaining st), self)
       else Ret (false, self)) ;;
    if no_zero then Ret (Break (Err NoZeroSymbol))
    else
      remaining <- (if subtract then usub c (bits c T) (ll_remaining st) 1 else Ret (ll_remaining st)) ;;
      r <- urem remaining (ll_count st) ;;
      '(ch, self) <- live_digit d (as_usize c r) self ;;
      '(formatted, pushed) <- try_push_front c (ll_formatted st) ch ;;
      match pushed with
      | Err OutOfMemoryError => Ret (Break (Err (OutOfMemory nominal)))
      | Ok _ =>
          remaining <- udiv remaining (ll_count st) ;;
          '(len, self) <- live_len d self ;;
          match try_from c T len with
          | Some count => Ret (Continue (LL remaining false count formatted self))
          | None => Ret (Break (Err (OutOfBounds nominal)))
          end
      end
  else Ret (Break (Ok (ll_formatted st))).

(** src/digital.rs:556-607  [NominalSystem<T> for D: DigitCollection]; [depth]
    bounds the recursion into fallbacks. The state left behind is not
    returned: nothing of the crate reads it afterwards. *)
Fixpoint format_live (depth : nat) (c : config) (T : uint) (d : live_collection) (nominal : N)
  : outcome (result nominal_string error) :=
  match depth with
  | O => Hang
  | S depth' =>
      '(len, self) <- live_len d (live_start d) ;;
      match try_from c T len with
      | None =>
          '(ch, _) <- live_digit d (as_usize c nominal) self ;;
          s <- from_char c ch ;;
          Ret (Ok s)
      | Some count =>
          '(fixed, self) <- live_fixed d self ;;
          '(beyond, self) <-
            (if fixed then
               '(zero_based, self) <- live_zero_based d self ;;
               Ret (if zero_based : bool then count <=? nominal else count <? nominal, self)
             else Ret (false, self)) ;;
          if beyond : bool then
            let fallback := live_fallback d in
            '(empty, start) <- live_is_empty fallback (live_start fallback) ;;
            if empty : bool then Ret (Err (OutOfBounds nominal))
            else
              format_live depth' c T (in_state fallback start) nominal
          else
            run_loop c (live_loop_body c T d nominal) (LL nominal true count new_reverse self)
      end
  end.

Definition try_format_live (c : config) (T : uint) (d : live_collection) (nominal : N)
  : outcome (result nominal_string error) :=
  format_live (loop_depth c) c T d nominal.
