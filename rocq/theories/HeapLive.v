(** * HeapLive: callers in memory

    What a caller of the crate may do around the formatters of [HeapFormat.v]:
    digit collections that keep state (the code of [Live.v] with its string in
    memory), [to_nominal], and programs that format, change and drop strings.
    Only builds with the feature alloc are meant. *)

From Verif Require Import Base Utf8 NominalString Spec Digital DigitSets Live HeapMemory HeapFormat.

(** ** Collections with state *)

Record held_live_loop (S : Type) := HL {
  hl_remaining : N;
  hl_first_loop : bool;
  hl_count : N;
  hl_formatted : held;
  hl_self : S
}.
Arguments HL {S}.
Arguments hl_remaining {S}.
Arguments hl_first_loop {S}.
Arguments hl_count {S}.
Arguments hl_formatted {S}.
Arguments hl_self {S}.

(** src/digital.rs:585-603; a panic of any method drops [formatted]. *)
Definition held_live_body (pf : platform) (T : uint) (d : live_collection) (nominal : N)
    (st : held_live_loop (live_state d)) : action (loop_step (held_live_loop (live_state d)) (result held error)) :=
  let c := target pf in
  let formatted := hl_formatted st in
  if negb (is_zero (hl_remaining st)) || hl_first_loop st then
    '(has_zero, self) <~ holding [formatted] (live_has_zero_digit d (hl_self st)) ;;
    '(subtract, self) <~ holding [formatted]
      (if has_zero then Ret (false, self)
       else
         '(zero_based, self) <- live_zero_based d self ;;
         Ret (negb zero_based || negb (hl_first_loop st), self)) ;;
    '(no_zero, self) <~ holding [formatted]
      (if subtract then
         '(has_zero, self) <- live_has_zero_digit d self ;;
         Ret (negb has_zero && is_zero (hl_remaining st), self)
       else Ret (false, self)) ;;
    if no_zero then
      _ <~ held_drop formatted ;;
      done (Break (Err NoZeroSymbol))
    else
      remaining <~ holding [formatted] (if subtract then usub c (bits c T) (hl_remaining st) 1 else Ret (hl_remaining st)) ;;
      r <~ holding [formatted] (urem remaining (hl_count st)) ;;
      '(ch, self) <~ holding [formatted] (live_digit d (as_usize c r) self) ;;
      pushing [] formatted (held_push_front pf formatted ch) (fun _ => Break (Err (OutOfMemory nominal))) (fun formatted =>
      remaining <~ holding [formatted] (udiv remaining (hl_count st)) ;;
      '(len, self) <~ holding [formatted] (live_len d self) ;;
      match try_from c T len with
      | Some count => done (Continue (HL remaining false count formatted self))
      | None => _ <~ held_drop formatted ;; done (Break (Err (OutOfBounds nominal)))
      end)
  else done (Break (Ok formatted)).

(** src/digital.rs:556-607 *)
Fixpoint held_live (depth : nat) (pf : platform) (T : uint) (d : live_collection) (nominal : N)
  : action (result held error) :=
  let c := target pf in
  match depth with
  | O => stopped Endless
  | S depth' =>
      '(len, self) <~ holding [] (live_len d (live_start d)) ;;
      match try_from c T len with
      | None =>
          '(ch, _) <~ holding [] (live_digit d (as_usize c nominal) self) ;;
          s <~ held_from_char pf ch ;;
          done (Ok s)
      | Some count =>
          '(fixed, self) <~ holding [] (live_fixed d self) ;;
          '(beyond, self) <~ holding []
            (if fixed then
               '(zero_based, self) <- live_zero_based d self ;;
               Ret (if zero_based : bool then count <=? nominal else count <? nominal, self)
             else Ret (false, self)) ;;
          if beyond : bool then
            let fallback := live_fallback d in
            '(empty, start) <~ holding [] (live_is_empty fallback (live_start fallback)) ;;
            if empty : bool then done (Err (OutOfBounds nominal))
            else held_live depth' pf T (in_state fallback start) nominal
          else
            loop_action c (held_live_body pf T d nominal) (HL nominal true count empty_reverse self)
      end
  end.

Definition held_live_system (d : live_collection) : held_system := fun pf T =>
  held_live (loop_depth (target pf)) pf T d.

(** ** to_nominal *)

(** src/lib.rs:194-211, :221-231; the errors hold no string. *)
Fixpoint held_into_decimal (depth : nat) (pf : platform) (T : uint) (e : error) : action held :=
  match depth with
  | O => stopped Endless
  | S depth' =>
      match e with
      | NoZeroSymbol => held_from_char pf 48
      | OutOfBounds nominal | OutOfMemory nominal =>
          r <~ held_digit_system (fun _ => Decimal) pf T nominal ;;
          match r with
          | Ok s => done s
          | Err e => held_into_decimal depth' pf T e
          end
      end
  end.

(** src/lib.rs:221-231 *)
Definition held_unwrap_or_decimal (pf : platform) (T : uint) (r : result held error) : action held :=
  match r with
  | Ok s => done s
  | Err e => held_into_decimal (loop_depth (target pf)) pf T e
  end.

(** src/lib.rs:44-46, :101-106 *)
Definition held_to_nominal (hs : held_system) (pf : platform) (T : uint) (nominal : N) : action held :=
  r <~ hs pf T nominal ;; held_unwrap_or_decimal pf T r.

(** ** Programs *)

(** Systems are numbered. *)
Inductive command :=
| Do (i : statement)
| TryFormat (k : nat) (T : uint) (n : N) (x : nat)     (* if let Ok(s) = n.try_to_nominal(&system) { x = s; } *)
| ToNominal (k : nat) (T : uint) (n : N) (x : nat)     (* x = n.to_nominal(&system); *)
| AppendTo (x y : nat).                                (* x.try_push_str(&y); *)

(** What does not compile does nothing. *)
Definition run_command (pf : platform) (systems : list held_system) (st : variables) (k : command) : action variables :=
  match k with
  | Do i => execute pf st i
  | TryFormat k T n x =>
      match nth_error systems k with
      | Some hs =>
          r <~ hs pf T n ;;
          match r with
          | Ok v => assign st x (ANominal v)
          | Err _ => done st
          end
      | None => done st
      end
  | ToNominal k T n x =>
      match nth_error systems k with
      | Some hs => v <~ held_to_nominal hs pf T n ;; assign st x (ANominal v)
      | None => done st
      end
  | AppendTo x y =>
      match st x, st y with
      | Some (ANominal v), Some w =>
          if Nat.eqb x y then done st
          else
            str <~ value_str w ;;
            v <~ change pf v (PushStr str) ;;
            done (set_var st x (Some (ANominal v)))
      | _, _ => done st
      end
  end.

Definition after_command_panic (st : variables) (k : command) : variables :=
  match k with Do i => after_panic st i | _ => st end.

(** What does not return is the last command. *)
Fixpoint run_commands (pf : platform) (systems : list held_system) (m : memory) (st : variables) (p : list command)
  : option (memory * variables * list (option stop)) :=
  match p with
  | [] => Some (m, st, [])
  | k :: p =>
      match run_command pf systems st k m with
      | Undefined => None
      | Done m' st' =>
          match run_commands pf systems m' st' p with Some (m'', st'', ws) => Some (m'', st'', None :: ws) | None => None end
      | Stopped m' Endless => Some (m', st, [Some Endless])
      | Stopped m' why =>
          match run_commands pf systems m' (after_command_panic st k) p with Some (m'', st'', ws) => Some (m'', st'', Some why :: ws) | None => None end
      end
  end.
