(** * HeapMemory: the heap behind [NominalString::Heap]

    [NominalString.v] keeps the bytes of a heap string as a value. Here they
    are in blocks of memory, asked for and given back by the calls to the
    allocator that [alloc::string::String] makes; each of these may be refused.
    Only builds with the feature alloc are meant. *)

From Verif Require Import Base Utf8 NominalString Spec.

(** ** Memory *)

Inductive call :=
| Allocate (size : N)
| Reallocate (from to : N)
| Deallocate (size : N).

(** Blocks by address, [None] after they are given back (no address is used
    twice, so that an access to such a block shows); the calls so far. *)
Record memory := {
  blocks : list (option (list cell));
  calls : list call
}.

Definition no_memory : memory := {| blocks := []; calls := [] |}.

(** Why a thread panics or aborts. *)
Inductive stop := CapacityOverflow | AllocError | OtherPanic | Endless.

Inductive status (A : Type) : Type :=
| Done (m : memory) (a : A)
| Stopped (m : memory) (why : stop)
| Undefined.
Arguments Done {A} m a.
Arguments Stopped {A} m why.
Arguments Undefined {A}.

Definition action (A : Type) := memory -> status A.

Definition done {A} (a : A) : action A := fun m => Done m a.
Definition stopped {A} (why : stop) : action A := fun m => Stopped m why.
Definition undefined {A} : action A := fun _ => Undefined.

Definition and_then {A B} (f : action A) (k : A -> action B) : action B := fun m =>
  match f m with
  | Done m' a => k a m'
  | Stopped m' why => Stopped m' why
  | Undefined => Undefined
  end.

Notation "x <~ m ;; k" := (and_then m (fun x => k)) (at level 61, m at next level, right associativity).
Notation "' p <~ m ;; k" := (and_then m (fun x => let p := x in k))
  (at level 61, p pattern, m at next level, right associativity).

(** What does not touch the heap. *)
Definition pure {A} (o : outcome A) : action A :=
  match o with
  | Ret a => done a
  | Panic => stopped OtherPanic
  | Hang => stopped Endless
  | UB => undefined
  end.

(** The target, the allocator (which of its calls succeed, after which other
    calls), and how many bytes [alloc::raw_vec] asks for when at least the
    second number is needed in place of the first. *)
Record platform := {
  target : config;
  grants : list call -> call -> bool;
  grow : N -> N -> N
}.

(** [RawVec::grow_amortized] for one-byte elements (library/alloc/src/raw_vec.rs) *)
Definition amortized (capacity required : N) : N := N.max 8 (N.max (capacity * 2) required).

(** [isize::MAX], the largest size of a block *)
Definition isize_max (c : config) : N := 2 ^ (usize_bits c - 1) - 1.

Definition with_blocks (m : memory) (bs : list (option (list cell))) : memory :=
  {| blocks := bs; calls := calls m |}.

Definition set_nth {A} (l : list A) (i : nat) (a : A) : list A := firstn i l ++ a :: skipn (S i) l.

(** Sizes are checked before the allocator is asked. *)
Definition allocate (pf : platform) (size : N) (contents : list cell) (request : call) : action nat := fun m =>
  if isize_max (target pf) <? size then Stopped m CapacityOverflow
  else if grants pf (calls m) request then
    Done {| blocks := blocks m ++ [Some (contents ++ repeat None (N.to_nat size - length contents))];
            calls := calls m ++ [request] |} (length (blocks m))
  else Stopped m AllocError.

Definition block (p : nat) : action (list cell) := fun m =>
  match nth_error (blocks m) p with
  | Some (Some b) => Done m b
  | _ => Undefined
  end.

Definition set_block (p : nat) (b : option (list cell)) : action unit := fun m =>
  Done (with_blocks m (set_nth (blocks m) p b)) tt.

(** [realloc]: the block moves; its size has to be given correctly. *)
Definition reallocate (pf : platform) (p : nat) (from to : N) : action nat :=
  b <~ block p ;;
  if N.of_nat (length b) =? from then
    q <~ allocate pf to b (Reallocate from to) ;;
    _ <~ set_block p None ;;
    done q
  else undefined.

(** [dealloc] *)
Definition deallocate (p : nat) (size : N) : action unit :=
  b <~ block p ;;
  if N.of_nat (length b) =? size then
    _ <~ set_block p None ;;
    fun m => Done {| blocks := blocks m; calls := calls m ++ [Deallocate size] |} tt
  else undefined.

(** ** alloc::string::String *)

(** Without capacity there is no block, and [pointer] means nothing. *)
Record owned_string := {
  pointer : nat;
  capacity : N;
  len : N
}.

(** [String::with_capacity] *)
Definition with_capacity (pf : platform) (n : N) : action owned_string :=
  if n =? 0 then done {| pointer := 0; capacity := 0; len := 0 |}
  else
    p <~ allocate pf n [] (Allocate n) ;;
    done {| pointer := p; capacity := n; len := 0 |}.

(** [Vec::reserve] *)
Definition reserve (pf : platform) (s : owned_string) (additional : N) : action owned_string :=
  if additional <=? capacity s - len s then done s
  else
    let required := len s + additional in
    if 2 ^ usize_bits (target pf) <=? required then stopped CapacityOverflow
    else
      let size := grow pf (capacity s) required in
      p <~ (if capacity s =? 0 then allocate pf size [] (Allocate size)
            else reallocate pf (pointer s) (capacity s) size) ;;
      done {| pointer := p; capacity := size; len := len s |}.

(** Copies to and from raw memory. Nothing is accessed for no bytes. *)
Definition write_at (s : owned_string) (off : N) (bs : list N) : action unit :=
  match bs with
  | [] => done tt
  | _ =>
      b <~ block (pointer s) ;;
      b' <~ pure (raw_copy b (N.to_nat off) bs) ;;
      set_block (pointer s) (Some b')
  end.

Definition move_to (s : owned_string) (off : N) : action unit :=
  if len s =? 0 then done tt
  else
    b <~ block (pointer s) ;;
    if off + len s <=? N.of_nat (length b) then
      set_block (pointer s) (Some (overwrite b (N.to_nat off) (window b 0 (N.to_nat (len s)))))
    else undefined.

Definition with_len (s : owned_string) (n : N) : owned_string :=
  {| pointer := pointer s; capacity := capacity s; len := n |}.

(** [String::push_str], and [String::push] of the character with these bytes *)
Definition append (pf : platform) (s : owned_string) (bs : list N) : action owned_string :=
  s <~ reserve pf s (N.of_nat (length bs)) ;;
  _ <~ write_at s (len s) bs ;;
  done (with_len s (len s + N.of_nat (length bs))).

(** [String::insert(0, ch)] *)
Definition prepend (pf : platform) (s : owned_string) (bs : list N) : action owned_string :=
  s <~ reserve pf s (N.of_nat (length bs)) ;;
  _ <~ move_to s (N.of_nat (length bs)) ;;
  _ <~ write_at s 0 bs ;;
  done (with_len s (len s + N.of_nat (length bs))).

(** [Deref] of [String]: undefined unless valid UTF-8 *)
Definition string_str (s : owned_string) : action (list N) :=
  if len s =? 0 then done []
  else
    b <~ block (pointer s) ;;
    bs <~ pure (read_bytes b 0 (N.to_nat (len s))) ;;
    if valid_utf8 bs then done bs else undefined.

(** [String::from(&str)], [str::to_owned] *)
Definition string_from (pf : platform) (bs : list N) : action owned_string :=
  s <~ with_capacity pf (N.of_nat (length bs)) ;;
  append pf s bs.

(** [String::clone] *)
Definition string_clone (pf : platform) (s : owned_string) : action owned_string :=
  bs <~ string_str s ;;
  string_from pf bs.

(** [Drop] of [String] *)
Definition string_drop (s : owned_string) : action unit :=
  if capacity s =? 0 then done tt else deallocate (pointer s) (capacity s).

(** ** src/nominalstring.rs *)

(** src/nominalstring.rs:16, 249-254 *)
Inductive held :=
| HInline (i : inline_string)
| HHeap (s : owned_string).

(** src/nominalstring.rs:435-461  [MaybeInline::push] *)
Definition held_push (pf : platform) (v : held) (ch : N) : action (held * result unit out_of_memory) :=
  match v with
  | HInline inline =>
      char_len <~ pure (char_len_u8 ch) ;;
      let ilen := inline_len inline in
      new_length <~ pure (uadd (target pf) 8 ilen char_len) ;;
      if new_length <=? INLINE_CAPACITY then
        inline' <~ pure (inline_push inline ch char_len ilen new_length) ;;
        done (HInline inline', Ok tt)
      else
        string <~ with_capacity pf new_length ;;
        str <~ pure (inline_as_str inline) ;;
        string <~ append pf string str ;;
        string <~ append pf string (encode_char ch) ;;
        done (HHeap string, Ok tt)
  | HHeap s => s <~ append pf s (encode_char ch) ;; done (HHeap s, Ok tt)
  end.

(** src/nominalstring.rs:464-498  [MaybeInline::push_str] *)
Definition held_push_str (pf : platform) (v : held) (str : list N) : action (held * result unit out_of_memory) :=
  match v with
  | HInline inline =>
      let insert_len := N.of_nat (length str) in
      if (insert_len <? 256) && (inline_len inline + insert_len <? 256) && (inline_len inline + insert_len <=? INLINE_CAPACITY) then
        inline' <~ pure (inline_push_str inline str (inline_len inline + insert_len)) ;;
        done (HInline inline', Ok tt)
      else
        new_length <~ pure (uadd (target pf) (usize_bits (target pf)) (inline_len inline) insert_len) ;;
        string <~ with_capacity pf new_length ;;
        old <~ pure (inline_as_str inline) ;;
        string <~ append pf string old ;;
        string <~ append pf string str ;;
        done (HHeap string, Ok tt)
  | HHeap s => s <~ append pf s str ;; done (HHeap s, Ok tt)
  end.

(** src/nominalstring.rs:501-527  [MaybeInline::push_front] *)
Definition held_push_front (pf : platform) (v : held) (ch : N) : action (held * result unit out_of_memory) :=
  match v with
  | HInline inline =>
      char_len <~ pure (char_len_u8 ch) ;;
      let ilen := inline_len inline in
      new_length <~ pure (uadd (target pf) 8 ilen char_len) ;;
      if new_length <=? INLINE_CAPACITY then
        inline' <~ pure (inline_push_front inline ch char_len ilen new_length) ;;
        done (HInline inline', Ok tt)
      else
        string <~ with_capacity pf new_length ;;
        string <~ append pf string (encode_char ch) ;;
        str <~ pure (inline_as_str inline) ;;
        string <~ append pf string str ;;
        done (HHeap string, Ok tt)
  | HHeap s => s <~ prepend pf s (encode_char ch) ;; done (HHeap s, Ok tt)
  end.

(** src/nominalstring.rs:192-196, 324-329, 537-543  [DerefMut] *)
Definition held_edit (v : held) (edit : list N -> list N) : action held :=
  match v with
  | HInline inline =>
      s <~ pure (edit_str (Inline inline) edit) ;;
      match s with Inline inline' => done (HInline inline') | Heap _ => undefined end
  | HHeap s =>
      old <~ string_str s ;;
      let edited := edit old in
      if valid_utf8 edited && (length edited =? length old)%nat then
        _ <~ write_at s 0 edited ;; done (HHeap s)
      else undefined
  end.

(** src/nominalstring.rs:529-535, 184-190  [MaybeInline::as_str], [Deref] *)
Definition held_str (v : held) : action (list N) :=
  match v with
  | HInline i => pure (inline_as_str i)
  | HHeap s => string_str s
  end.

(** src/nominalstring.rs:147-174  [From<&str>] *)
Definition held_from_str (pf : platform) (bs : list N) : action held :=
  let length := N.of_nat (List.length bs) in
  if (length <? 256) && (length <=? INLINE_CAPACITY) then
    cs <~ pure (write_zip uninit_cells 0 (List.length bs) bs) ;;
    done (HInline {| length_byte := length; cells := cs |})
  else s <~ string_from pf bs ;; done (HHeap s).

(** src/nominalstring.rs:176-182  [From<char>] *)
Definition held_from_char (pf : platform) (ch : N) : action held :=
  '(v, r) <~ held_push pf (HInline {| length_byte := 0; cells := uninit_cells |}) ch ;;
  match r with Ok _ => done v | Err _ => stopped OtherPanic end.

(** src/nominalstring.rs:15, 249-254, 266  derived [Clone] *)
Definition held_clone (pf : platform) (v : held) : action held :=
  match v with
  | HInline i => done (HInline i)
  | HHeap s => s' <~ string_clone pf s ;; done (HHeap s')
  end.

(** src/nominalstring.rs:112-119  [From<NominalString> for String]; an inline
    string needs no [Drop]. *)
Definition held_into_string (pf : platform) (v : held) : action owned_string :=
  match v with
  | HInline i => str <~ pure (inline_as_str i) ;; string_from pf str
  | HHeap s => done s
  end.

Definition held_drop (v : held) : action unit :=
  match v with
  | HInline _ => done tt
  | HHeap s => string_drop s
  end.

(** ** Programs *)

(** What a variable can hold; variables are numbered. *)
Inductive value :=
| ANominal (v : held)
| AString (s : owned_string).

Definition variables := nat -> option value.

Definition set_var (st : variables) (x : nat) (v : option value) : variables :=
  fun y => if Nat.eqb y x then v else st y.

Inductive source :=
| FromNew                                 (* NominalString::new() *)
| FromNewReverse                          (* NominalString::new_reverse() *)
| FromOneChar (ch : N)                    (* NominalString::from(ch) *)
| FromText (bs : list N)                  (* NominalString::from(str) *)
| NewString (bs : list N) (spare : N).    (* a String, with room for [spare] more bytes *)

Inductive statement :=
| Let (x : nat) (k : source)              (* x = ...; *)
| Change (x : nat) (o : op)               (* x.try_push(..); and so on *)
| CloneInto (x y : nat)                   (* y = x.clone(); *)
| IntoString (x y : nat)                  (* y = String::from(x); *)
| TryIntoString (x y : nat)               (* match x.try_into_string() { Ok(s) => y = s, Err(n) => x = n } *)
| FromString (x y : nat)                  (* y = NominalString::from(x); for a String x *)
| Move (x y : nat)                        (* y = x; *)
| DropVar (x : nat).                      (* drop(x); *)

Definition value_drop (v : value) : action unit :=
  match v with ANominal v => held_drop v | AString s => string_drop s end.

Definition value_str (v : value) : action (list N) :=
  match v with ANominal v => held_str v | AString s => string_str s end.

Definition make (pf : platform) (k : source) : action value :=
  match k with
  | FromNew => done (ANominal (HInline {| length_byte := 0; cells := uninit_cells |}))
  | FromNewReverse => done (ANominal (HInline {| length_byte := 0x80; cells := uninit_cells |}))
  | FromOneChar ch => v <~ held_from_char pf ch ;; done (ANominal v)
  | FromText bs => v <~ held_from_str pf bs ;; done (ANominal v)
  | NewString bs spare =>
      s <~ with_capacity pf (N.of_nat (length bs) + spare) ;;
      s <~ append pf s bs ;;
      done (AString s)
  end.

Definition change (pf : platform) (v : held) (o : op) : action held :=
  match o with
  | Push ch => '(v, _) <~ held_push pf v ch ;; done v
  | PushStr bs => '(v, _) <~ held_push_str pf v bs ;; done v
  | PushFront ch => '(v, _) <~ held_push_front pf v ch ;; done v
  | Edit f => held_edit v f
  end.

(** An assignment drops what the variable held before. *)
Definition assign (st : variables) (y : nat) (v : value) : action variables :=
  match st y with
  | Some old => _ <~ value_drop old ;; done (set_var st y (Some v))
  | None => done (set_var st y (Some v))
  end.

(** Statements that do not compile, because a variable does not hold a value
    of the type or any at all, do nothing. *)
Definition execute (pf : platform) (st : variables) (i : statement) : action variables :=
  match i with
  | Let x k => v <~ make pf k ;; assign st x v
  | Change x o =>
      match st x with
      | Some (ANominal v) => v <~ change pf v o ;; done (set_var st x (Some (ANominal v)))
      | _ => done st
      end
  | CloneInto x y =>
      match st x with
      | Some (ANominal v) => v <~ held_clone pf v ;; assign st y (ANominal v)
      | Some (AString s) => s <~ string_clone pf s ;; assign st y (AString s)
      | None => done st
      end
  | IntoString x y =>
      match st x with
      | Some (ANominal v) => s <~ held_into_string pf v ;; assign (set_var st x None) y (AString s)
      | _ => done st
      end
  | TryIntoString x y =>
      match st x with
      | Some (ANominal (HHeap s)) => assign (set_var st x None) y (AString s)
      | _ => done st
      end
  | FromString x y =>
      match st x with
      | Some (AString s) => assign (set_var st x None) y (ANominal (HHeap s))
      | _ => done st
      end
  | Move x y =>
      match st x with
      | Some v => assign (set_var st x None) y v
      | None => done st
      end
  | DropVar x =>
      match st x with
      | Some v => _ <~ value_drop v ;; done (set_var st x None)
      | None => done st
      end
  end.

(** A statement that panics leaves the variables as they are, except that a
    string passed by value is gone (the caller may catch the panic and go on). *)
Definition after_panic (st : variables) (i : statement) : variables :=
  match i with
  | IntoString x _ => set_var st x None
  | _ => st
  end.

Fixpoint run_program (pf : platform) (m : memory) (st : variables) (p : list statement)
  : option (memory * variables * list (option stop)) :=
  match p with
  | [] => Some (m, st, [])
  | i :: p =>
      match execute pf st i m with
      | Undefined => None
      | Done m' st' =>
          match run_program pf m' st' p with Some (m'', st'', ws) => Some (m'', st'', None :: ws) | None => None end
      | Stopped m' why =>
          match run_program pf m' (after_panic st i) p with Some (m'', st'', ws) => Some (m'', st'', Some why :: ws) | None => None end
      end
  end.
