(** * Base: outcomes, integer types, loops, slices.

    The vocabulary in which the Rust code of /repo/src is written down.
    Nothing in this file models a line of the crate by itself except where a
    comment says so; it fixes how Rust's control flow, integers, arrays and
    raw memory appear in the model. *)

From Coq Require Export Arith NArith List Bool.
Export ListNotations.
Global Open Scope N_scope.

(** ** Control flow *)

(** What running a Rust expression can do: produce a value, panic, loop
    forever (more iterations than the loop budget allows), or hit undefined
    behaviour (a violated precondition of an [unsafe] operation). *)
Inductive outcome (A : Type) : Type :=
| Ret (a : A)
| Panic
| Hang
| UB.
Arguments Ret {A} a.
Arguments Panic {A}.
Arguments Hang {A}.
Arguments UB {A}.

Definition obind {A B} (m : outcome A) (k : A -> outcome B) : outcome B :=
  match m with
  | Ret a => k a
  | Panic => Panic
  | Hang => Hang
  | UB => UB
  end.

Notation "x <- m ;; k" := (obind m (fun x => k))
  (at level 61, m at next level, right associativity).
Notation "' p <- m ;; k" := (obind m (fun x => let p := x in k))
  (at level 61, p pattern, m at next level, right associativity).

(** Rust's [Result<A, E>]. *)
Inductive result (A E : Type) : Type :=
| Ok (a : A)
| Err (e : E).
Arguments Ok {A E} a.
Arguments Err {A E} e.

(** [option] lookups that Rust turns into a panic when they fail
    (array indexing, [expect], [unwrap]). *)
Definition or_panic {A} (o : option A) : outcome A :=
  match o with Some a => Ret a | None => Panic end.

(** ** Build configuration

    [has_alloc] is the crate feature "alloc" (Cargo.toml:14-16);
    [overflow_checks] is the profile setting overflow-checks: on in debug
    builds, off in release builds;
    [usize_bits] is the width of [usize] on the target;
    [loop_depth] is not part of the code: a loop may run up to
    [2 ^ loop_depth] iterations (and a recursion [loop_depth] levels) before
    the model reports [Hang]. *)
Record config := {
  has_alloc : bool;
  overflow_checks : bool;
  usize_bits : N;
  loop_depth : nat
}.

(** Targets Rust supports have 16, 32 or 64 bit [usize]; [130] is enough for
    every loop over 128-bit numbers that makes progress. *)
Definition valid_config (c : config) : Prop :=
  (usize_bits c = 16 \/ usize_bits c = 32 \/ usize_bits c = 64)
  /\ (130 <= loop_depth c)%nat.

(** ** Integer types (src/lib.rs:123-128, the types implementing [Nominal]) *)
Inductive uint := U8 | U16 | U32 | U64 | U128 | Usize.

Definition bits (c : config) (T : uint) : N :=
  match T with
  | U8 => 8 | U16 => 16 | U32 => 32 | U64 => 64 | U128 => 128
  | Usize => usize_bits c
  end.

(** [n] is a value of type [T]. *)
Definition fits (c : config) (T : uint) (n : N) : Prop := n < 2 ^ bits c T.

(** [T::try_from(x)] for an unsigned [x] of any width; [None] is [Err]. *)
Definition try_from (c : config) (T : uint) (x : N) : option N :=
  if x <? 2 ^ bits c T then Some x else None.

(** src/lib.rs:163-165  [UnsignedInteger::is_zero] *)
Definition is_zero (n : N) : bool := n =? 0.

(** src/lib.rs:167-169  [UnsignedInteger::as_usize]: an [as] cast, which
    truncates. *)
Definition as_usize (c : config) (n : N) : N := n mod 2 ^ usize_bits c.

(** [a - b] and [a + b] on an unsigned type of [w] bits: overflow panics or,
    in builds without overflow checks, wraps around. *)
Definition usub (c : config) (w a b : N) : outcome N :=
  if b <=? a then Ret (a - b)
  else if overflow_checks c then Panic
  else Ret (a + 2 ^ w - b).
Definition uadd (c : config) (w a b : N) : outcome N :=
  if a + b <? 2 ^ w then Ret (a + b)
  else if overflow_checks c then Panic
  else Ret ((a + b) mod 2 ^ w).

(** [a - b] on lengths and offsets inside the inline buffer, where it does not
    depend on the build: a negative difference is counted as a panic, and the
    theorems show that there is none for any string (C05). *)
Definition offset_sub (a b : N) : outcome N :=
  if b <=? a then Ret (a - b) else Panic.

(** [a / b] and [a % b]: dividing by zero panics. *)
Definition udiv (a b : N) : outcome N :=
  if b =? 0 then Panic else Ret (a / b).
Definition urem (a b : N) : outcome N :=
  if b =? 0 then Panic else Ret (a mod b).

(** ** Loops *)

Inductive loop_step (S R : Type) : Type :=
| Continue (s : S)
| Break (r : R).
Arguments Continue {S R} s.
Arguments Break {S R} r.

(** Runs [body] up to [2 ^ d] times, stopping at the first [Break]. *)
Fixpoint iterate {S R} (d : nat) (body : S -> outcome (loop_step S R)) (s : S)
  : outcome (loop_step S R) :=
  match d with
  | O => body s
  | Datatypes.S d' =>
      r <- iterate d' body s ;;
      match r with
      | Continue s' => iterate d' body s'
      | Break b => Ret (Break b)
      end
  end.

Definition run_loop {S R} (c : config) (body : S -> outcome (loop_step S R)) (s : S)
  : outcome R :=
  r <- iterate (loop_depth c) body s ;;
  match r with
  | Continue _ => Hang
  | Break b => Ret b
  end.

(** ** Arrays *)

(** [l[i]] / [l.get(i)] with an unsigned index. *)
Definition lookup {A} (l : list A) (i : N) : option A :=
  if i <? N.of_nat (length l) then nth_error l (N.to_nat i) else None.

(** ** Raw memory: arrays of [MaybeUninit<u8>] *)

(** [None] is an uninitialised byte. *)
Notation cell := (option N).

(** Replace the cells from [off] on by [new] (in range). *)
Definition overwrite (buf : list cell) (off : nat) (new : list cell) : list cell :=
  firstn off buf ++ new ++ skipn (off + length new) buf.

(** The cells [off .. off+len], which exist only inside the buffer. *)
Definition window (buf : list cell) (off len : nat) : list cell :=
  firstn len (skipn off buf).

Fixpoint all_init (cells : list cell) : option (list N) :=
  match cells with
  | [] => Some []
  | None :: _ => None
  | Some b :: rest =>
      match all_init rest with Some bs => Some (b :: bs) | None => None end
  end.

(** Reading [len] bytes at [off] through a raw pointer: undefined outside the
    buffer or on uninitialised bytes. *)
Definition read_bytes (buf : list cell) (off len : nat) : outcome (list N) :=
  if (off + len <=? length buf)%nat then
    match all_init (window buf off len) with
    | Some bs => Ret bs
    | None => UB
    end
  else UB.

(** [for (dest, src) in buf[start..stop].iter_mut().zip(src) { write src to dest }]:
    slicing out of range panics, [zip] stops at the shorter side. *)
Definition write_zip (buf : list cell) (start stop : nat) (src : list N) : outcome (list cell) :=
  if ((start <=? stop) && (stop <=? length buf))%nat then
    Ret (overwrite buf start (map Some (firstn (stop - start) src)))
  else Panic.

(** [buf.copy_within(start..stop, dest)]: panics out of range. *)
Definition copy_within (buf : list cell) (start stop dest : nat) : outcome (list cell) :=
  if ((start <=? stop) && (stop <=? length buf) && (dest + (stop - start) <=? length buf))%nat then
    Ret (overwrite buf dest (window buf start (stop - start)))
  else Panic.

(** [ptr.add(off).copy_from(src, src.len())]: undefined out of range. *)
Definition raw_copy (buf : list cell) (off : nat) (src : list N) : outcome (list cell) :=
  if (off + length src <=? length buf)%nat then
    Ret (overwrite buf off (map Some src))
  else UB.
