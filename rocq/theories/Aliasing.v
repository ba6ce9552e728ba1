(** * Aliasing: the references and raw pointers of /repo/src/nominalstring.rs

    Which references and pointers into the 64 bytes of a [NominalString] the
    code makes and uses, in order, and the rules they have to follow: Stacked
    Borrows (Jung, Dang, Kang, Dreyer, POPL 2020), as the interpreter Miri
    checks them. The values read and written are in NominalString.v. *)

From Verif Require Import Base Utf8 NominalString.

(** ** The rules *)

Inductive permission := Unique | SharedReadWrite | SharedReadOnly | Disabled.

(** An entry of the stack of one byte: the pointer it is for, and the call it
    must outlive, if it was an argument. *)
Record item := { tag : N; perm : permission; guard : option N }.

(** Top first. *)
Definition stack := list item.

Definition grants (p : permission) (write : bool) : bool :=
  match p with
  | Unique | SharedReadWrite => true
  | SharedReadOnly => negb write
  | Disabled => false
  end.

Definition guarded (calls : list N) (i : item) : bool :=
  match guard i with Some k => existsb (N.eqb k) calls | None => false end.

(** The topmost entry of [t] that allows the access, and what is above it. *)
Fixpoint find_granting (write : bool) (t : N) (s : stack) : option (list item * stack) :=
  match s with
  | [] => None
  | i :: s' =>
      if (tag i =? t) && grants (perm i) write then Some ([], s)
      else match find_granting write t s' with
           | Some (above, rest) => Some (i :: above, rest)
           | None => None
           end
  end.

Definition is_unique (i : item) : bool := match perm i with Unique => true | _ => false end.
Definition is_shared_rw (i : item) : bool := match perm i with SharedReadWrite => true | _ => false end.

Definition disable (i : item) : item :=
  if is_unique i then {| tag := tag i; perm := Disabled; guard := guard i |} else i.

(** Of the entries above the granting one, those a write removes, and the block
    of [SharedReadWrite] right above it that may stay. *)
Fixpoint block_above (above : list item) : list item * list item :=
  match above with
  | [] => ([], [])
  | i :: above' =>
      match block_above above' with
      | ([], kept) => if is_shared_rw i then ([], i :: kept) else ([i], kept)
      | (popped, kept) => (i :: popped, kept)
      end
  end.

Definition compatible (above : list item) (rest : stack) : list item * list item :=
  match rest with
  | g :: _ => if is_shared_rw g then block_above above else (above, [])
  | [] => (above, [])
  end.

(** A read leaves no [Unique] above the granting entry, a write nothing but its
    block; neither may hit an argument of a call still running. *)
Definition access (calls : list N) (write : bool) (t : N) (s : stack) : option stack :=
  match find_granting write t s with
  | None => None
  | Some (above, rest) =>
      if write then
        let '(popped, kept) := compatible above rest in
        if existsb (guarded calls) popped then None else Some (kept ++ rest)
      else
        if existsb (fun i => is_unique i && guarded calls i) above then None else Some (map disable above ++ rest)
  end.

Inductive kind :=
| Mut       (* &mut *)
| Shared    (* & *)
| RawMut    (* as *mut, from &mut *)
| RawConst. (* as *const, from & *)

(** A reference made from [from] counts as an access with it; a [*mut] is put
    below what a write would remove. *)
Definition retag (calls : list N) (k : kind) (from new : N) (g : option N) (s : stack) : option stack :=
  match k with
  | Mut => match access calls true from s with Some s => Some ({| tag := new; perm := Unique; guard := g |} :: s) | None => None end
  | Shared | RawConst =>
      match access calls false from s with Some s => Some ({| tag := new; perm := SharedReadOnly; guard := g |} :: s) | None => None end
  | RawMut =>
      match find_granting true from s with
      | None => None
      | Some (above, rest) =>
          let '(popped, kept) := compatible above rest in
          Some (popped ++ {| tag := new; perm := SharedReadWrite; guard := g |} :: kept ++ rest)
      end
  end.

(** Bytes, by first one and number. *)
Definition range := (N * N)%type.
Definition covers (r : range) (l : N) : bool := (fst r <=? l) && (l <? fst r + snd r).

Inductive event :=
| Enter (call : N)
| Leave (call : N)
| Access (write : bool) (t : N) (r : range)
| Retag (k : kind) (from new : N) (g : option N) (r : range).

(** What an event does to byte [l]; [None] is a violation. *)
Definition check_event (l : N) (e : event) (x : list N * stack) : option (list N * stack) :=
  let '(calls, s) := x in
  match e with
  | Enter k => Some (k :: calls, s)
  | Leave _ => Some (tl calls, s)
  | Access write t r =>
      if covers r l then match access calls write t s with Some s => Some (calls, s) | None => None end else Some (calls, s)
  | Retag k from new g r =>
      if covers r l then match retag calls k from new g s with Some s => Some (calls, s) | None => None end else Some (calls, s)
  end.

Fixpoint check (l : N) (es : list event) (x : list N * stack) : option (list N * stack) :=
  match es with
  | [] => Some x
  | e :: es => match check_event l e x with Some x => check l es x | None => None end
  end.

(** ** Code as the events it causes; the number is the next unused tag *)

Definition emit (A : Type) := N -> A * list event * N.

Definition done {A} (a : A) : emit A := fun n => (a, [], n).

Definition andthen {A B} (m : emit A) (f : A -> emit B) : emit B := fun n =>
  let '(a, es, n) := m n in let '(b, es', n) := f a n in (b, es ++ es', n).

Notation "x <! m ;; k" := (andthen m (fun x => k)) (at level 61, m at next level, right associativity).
Notation "m ;! k" := (andthen m (fun _ => k)) (at level 61, right associativity).

Definition tell (e : event) : emit unit := fun n => (tt, [e], n).

Definition reborrow (k : kind) (from : N) (g : option N) (r : range) : emit N := fun n => (n, [Retag k from n g r], n + 1).

Definition read (t : N) (r : range) : emit unit := tell (Access false t r).
Definition write (t : N) (r : range) : emit unit := tell (Access true t r).

(** A method with a reference to [r] as its [self], which must not be
    invalidated while it runs. *)
Definition method {A} (k : kind) (self : N) (r : range) (body : N -> emit A) : emit A := fun n =>
  let '(a, es, n') := (s <! reborrow k self (Some n) r ;; body s) (n + 1) in
  (a, [Enter n] ++ es ++ [Leave n], n').

(** Where things are. (The order of the fields does not matter.) *)
Definition whole : range := (0, 64).          (* NominalString, MaybeInline *)
Definition discriminant : range := (0, 1).
Definition inline : range := (1, 63).         (* InlineString *)
Definition length_field : range := (1, 1).
Definition all_bytes : range := (2, 62).      (* InlineString::bytes *)
Definition some_bytes (start len : N) : range := (2 + start, len).

(** src/nominalstring.rs:285-291, as a number (C05: the subtraction does not
    overflow). *)
Definition offset (i : inline_string) : N := if is_reverse i then INLINE_CAPACITY - inline_len i else 0.

(** The text. *)
Definition text_range (i : inline_string) : range := some_bytes (offset i) (inline_len i).

(** src/nominalstring.rs:273-275  [len] *)
Definition a_len (self : N) : emit unit := method Shared self inline (fun s => read s length_field).

(** src/nominalstring.rs:277-279  [len_usize] *)
Definition a_len_usize (self : N) : emit unit := method Shared self inline a_len.

(** src/nominalstring.rs:281-283  [is_reverse] *)
Definition a_is_reverse (self : N) : emit unit := method Shared self inline (fun s => read s length_field).

(** src/nominalstring.rs:285-291  [data_offset] *)
Definition a_data_offset (i : inline_string) (self : N) : emit unit :=
  method Shared self inline (fun s => a_is_reverse s ;! if is_reverse i then a_len_usize s else done tt).

(** core: [<[T]>::as_ptr], [<[T]>::as_mut_ptr] *)
Definition a_as_ptr (self : N) (r : range) : emit N := method Shared self r (fun s => reborrow RawConst s None r).
Definition a_as_mut_ptr (self : N) (r : range) : emit N := method Mut self r (fun s => reborrow RawMut s None r).

(** src/nominalstring.rs:293-302  [as_bytes]: the pointer is made first, from
    a reference to all bytes; then [data_offset] and [len_usize] borrow the
    whole struct. *)
Definition a_as_bytes (i : inline_string) (self : N) : emit N :=
  method Shared self inline (fun s =>
    b <! reborrow Shared s None all_bytes ;;
    p <! a_as_ptr b all_bytes ;;
    a_data_offset i s ;!
    a_len_usize s ;!
    reborrow Shared p None (text_range i)).

(** src/nominalstring.rs:304-315  [as_bytes_mut] *)
Definition a_as_bytes_mut (i : inline_string) (self : N) : emit N :=
  method Mut self inline (fun s =>
    b <! reborrow Mut s None all_bytes ;;
    p <! a_as_mut_ptr b all_bytes ;;
    a_data_offset i s ;!
    a_len_usize s ;!
    reborrow Mut p None (text_range i)).

(** src/nominalstring.rs:317-322  [as_str]; [from_utf8_unchecked] gives the
    reference back. *)
Definition a_inline_as_str (i : inline_string) (self : N) : emit N :=
  method Shared self inline (fun s => b <! a_as_bytes i s ;; reborrow Shared b None (text_range i)).

(** src/nominalstring.rs:324-329  [as_mut_str] *)
Definition a_inline_as_mut_str (i : inline_string) (self : N) : emit N :=
  method Mut self inline (fun s => b <! a_as_bytes_mut i s ;; reborrow Mut b None (text_range i)).

(** src/nominalstring.rs:331-333  [set_length] *)
Definition a_set_length (self : N) : emit unit :=
  method Mut self inline (fun s => read s length_field ;! write s length_field).

(** core: [<[T]>::copy_within], which copies through one [*mut] *)
Definition a_copy_within (self : N) (src count dest : N) : emit unit :=
  method Mut self all_bytes (fun s =>
    p <! a_as_mut_ptr s all_bytes ;;
    read p (some_bytes src count) ;!
    write p (some_bytes dest count)).

(** core: [&mut self.bytes[start..start + count]] *)
Definition a_index_mut (self : N) (start count : N) : emit N :=
  method Mut self all_bytes (fun s => reborrow Mut s None (some_bytes start count)).

(** core: [iter_mut()], whose iterator holds a [*mut] *)
Definition a_iter_mut (self : N) (r : range) : emit N := method Mut self r (fun s => reborrow RawMut s None r).

(** [for (dest, src) in iter.zip(..) { dest.write( *src); }], [count] turns *)
Fixpoint a_write_each (iter : N) (first : N) (count : nat) : emit unit :=
  match count with
  | O => done tt
  | S count =>
      dest <! reborrow Mut iter None (first, 1) ;;
      method Mut dest (first, 1) (fun s => write s (first, 1)) ;!
      a_write_each iter (first + 1) count
  end.

(** [for (dest, src) in self.bytes[start..start + count].iter_mut().zip(..) { dest.write( *src); }] *)
Definition a_write_zip (self : N) (start count : N) : emit unit :=
  b <! reborrow Mut self None all_bytes ;;
  slice <! a_index_mut b start count ;;
  iter <! a_iter_mut slice (some_bytes start count) ;;
  a_write_each iter (2 + start) (N.to_nat count).

(** [self.bytes.copy_within(..)] *)
Definition a_shift (self : N) (src count dest : N) : emit unit :=
  b <! reborrow Mut self None all_bytes ;;
  a_copy_within b src count dest.

(** src/nominalstring.rs:335-360  [InlineString::push] *)
Definition a_inline_push (i : inline_string) (char_len new_length : N) (self : N) : emit unit :=
  method Mut self inline (fun s =>
    a_is_reverse s ;!
    (if is_reverse i then
       a_data_offset i s ;!
       a_shift s (offset i) (INLINE_CAPACITY - offset i) (INLINE_CAPACITY - new_length) ;!
       a_write_zip s (INLINE_CAPACITY - char_len) char_len
     else a_write_zip s (inline_len i) (new_length - inline_len i)) ;!
    a_set_length s).

(** src/nominalstring.rs:362-391  [InlineString::push_str]; the text pushed is
    in other memory. *)
Definition a_inline_push_str (i : inline_string) (count new_length : N) (self : N) : emit unit :=
  method Mut self inline (fun s =>
    a_is_reverse s ;!
    (if is_reverse i then
       a_data_offset i s ;!
       a_shift s (offset i) (INLINE_CAPACITY - offset i) (INLINE_CAPACITY - new_length) ;!
       a_write_zip s (INLINE_CAPACITY - count) count
     else
       b <! reborrow Mut s None all_bytes ;;
       p <! a_as_mut_ptr b all_bytes ;;
       a_len_usize s ;!
       write p (some_bytes (inline_len i) count)) ;!
    a_set_length s).

(** src/nominalstring.rs:393-414  [InlineString::push_front]; in line 412
    [encode_utf8] takes the slice of the string as it is after [set_length]. *)
Definition a_inline_push_front (i : inline_string) (char_len new_length : N) (self : N) : emit unit :=
  method Mut self inline (fun s =>
    a_is_reverse s ;!
    if is_reverse i then
      a_write_zip s (INLINE_CAPACITY - new_length) (new_length - inline_len i) ;!
      a_set_length s
    else
      a_shift s 0 (inline_len i) char_len ;!
      a_set_length s ;!
      let i' := set_length i new_length in
      dst <! a_as_bytes_mut i' s ;;
      method Mut dst (text_range i') (fun d => write d (some_bytes 0 char_len))).

(** src/nominalstring.rs:446-450, 485-489, 512-516: the text is read, and the
    string becomes a [String]. *)
Definition a_spill (i : inline_string) (self inner : N) : emit unit :=
  r <! a_inline_as_str i inner ;;
  read r (text_range i) ;!
  write self whole.

(** src/nominalstring.rs:435-461, 66-68  [try_push]; a [String]'s own pointer,
    length and capacity are in the struct. *)
Definition a_push (c : config) (s : nominal_string) (ch : N) (self : N) : emit unit :=
  method Mut self whole (fun self =>
  method Mut self whole (fun self =>
    read self discriminant ;!
    match s with
    | Inline i =>
        inner <! reborrow Mut self None inline ;;
        a_len inner ;!
        let new_length := inline_len i + len_utf8 ch in
        if new_length <=? INLINE_CAPACITY then a_inline_push i (len_utf8 ch) new_length inner
        else if has_alloc c then a_spill i self inner else done tt
    | Heap _ => method Mut self inline (fun s => read s inline ;! write s inline)
    end)).

(** src/nominalstring.rs:464-498, 76-78  [try_push_str] *)
Definition a_push_str (c : config) (s : nominal_string) (str : list N) (self : N) : emit unit :=
  method Mut self whole (fun self =>
  method Mut self whole (fun self =>
    read self discriminant ;!
    match s with
    | Inline i =>
        inner <! reborrow Mut self None inline ;;
        let count := N.of_nat (length str) in
        let new_length := inline_len i + count in
        (if count <? 256 then a_len inner else done tt) ;!
        if new_length <=? INLINE_CAPACITY then a_inline_push_str i count new_length inner
        else if has_alloc c then a_len_usize inner ;! a_spill i self inner else done tt
    | Heap _ => method Mut self inline (fun s => read s inline ;! write s inline)
    end)).

(** src/nominalstring.rs:501-527, 86-88  [try_push_front] *)
Definition a_push_front (c : config) (s : nominal_string) (ch : N) (self : N) : emit unit :=
  method Mut self whole (fun self =>
  method Mut self whole (fun self =>
    read self discriminant ;!
    match s with
    | Inline i =>
        inner <! reborrow Mut self None inline ;;
        a_len inner ;!
        let new_length := inline_len i + len_utf8 ch in
        if new_length <=? INLINE_CAPACITY then a_inline_push_front i (len_utf8 ch) new_length inner
        else if has_alloc c then a_spill i self inner else done tt
    | Heap _ => method Mut self inline (fun s => read s inline ;! write s inline)
    end)).

(** The bytes of the struct a [&str] from [deref] covers: none once the text
    is elsewhere. *)
Definition borrowed (s : nominal_string) : range :=
  match s with Inline i => text_range i | Heap _ => (0, 0) end.

(** src/nominalstring.rs:529-535, 184-190  [deref] *)
Definition a_deref (s : nominal_string) (self : N) : emit N :=
  method Shared self whole (fun self =>
  method Shared self whole (fun self =>
    read self discriminant ;!
    match s with
    | Inline i => inner <! reborrow Shared self None inline ;; a_inline_as_str i inner
    | Heap _ => method Shared self inline (fun s => read s inline ;! done s)
    end)).

(** src/nominalstring.rs:537-543, 192-196  [deref_mut] *)
Definition a_deref_mut (s : nominal_string) (self : N) : emit N :=
  method Mut self whole (fun self =>
  method Mut self whole (fun self =>
    read self discriminant ;!
    match s with
    | Inline i => inner <! reborrow Mut self None inline ;; a_inline_as_mut_str i inner
    | Heap _ => method Mut self inline (fun s => read s inline ;! done s)
    end)).

(** src/nominalstring.rs:92-94  [is_inline] *)
Definition a_is_inline (self : N) : emit unit := method Shared self whole (fun s => read s discriminant).

(** ** Programs that use a string *)

(** The caller's statements: [Look] and [Poke] go through a reference taken
    before, [offset] bytes into the text. What [Poke] writes is not recorded:
    which bytes are touched depends on the length of the text only. *)
Inductive use :=
| UsePush (ch : N)
| UsePushStr (str : list N)
| UsePushFront (ch : N)
| UseIsInline
| UseDeref
| UseDerefMut
| Look (which : nat) (offset : N)
| Peek (offset : N)
| Poke (offset : N).

(** What a program has: the string, the [&str]s that are still usable, newest
    first, and the [&mut str], if it is. *)
Record scene := { string_of : nominal_string; views : list N; editor : option N }.

(** The borrow checker: taking the string mutably ends all references, taking
    it shared ends the mutable one. *)
Definition use_trace (c : config) (owner : N) (x : scene) (u : use) : option (outcome (emit scene)) :=
  let s := string_of x in
  let changed (m : emit unit) (r : outcome (nominal_string * result unit out_of_memory)) : outcome (emit scene) :=
    '(s', _) <- r ;; Ret (m ;! done {| string_of := s'; views := []; editor := None |}) in
  match u with
  | UsePush ch => Some (changed (a_push c s ch owner) (try_push c s ch))
  | UsePushStr str => Some (changed (a_push_str c s str owner) (try_push_str c s str))
  | UsePushFront ch => Some (changed (a_push_front c s ch owner) (try_push_front c s ch))
  | UseIsInline => Some (Ret (a_is_inline owner ;! done {| string_of := s; views := views x; editor := None |}))
  | UseDeref => Some (Ret (r <! a_deref s owner ;; done {| string_of := s; views := r :: views x; editor := None |}))
  | UseDerefMut => Some (Ret (r <! a_deref_mut s owner ;; done {| string_of := s; views := []; editor := Some r |}))
  | Look which j =>
      match nth_error (views x) which with
      | Some r => if j <? snd (borrowed s) then Some (Ret (read r (fst (borrowed s) + j, 1) ;! done x)) else None
      | None => None
      end
  | Peek j =>
      match editor x with
      | Some r => if j <? snd (borrowed s) then Some (Ret (read r (fst (borrowed s) + j, 1) ;! done x)) else None
      | None => None
      end
  | Poke j =>
      match editor x with
      | Some r => if j <? snd (borrowed s) then Some (Ret (write r (fst (borrowed s) + j, 1) ;! done x)) else None
      | None => None
      end
  end.

(** [trace] is what the uses cause, one after the other. *)
Inductive plays (c : config) (owner : N) : scene -> N -> list use -> list event -> Prop :=
| plays_nil x n : plays c owner x n [] []
| plays_cons x n u us m x' es n' rest :
    use_trace c owner x u = Some (Ret m) -> m n = (x', es, n') ->
    plays c owner x' n' us rest -> plays c owner x n (u :: us) (es ++ rest).

(** A new variable: its 64 bytes belong to tag 0, no other byte is reachable. *)
Definition variable (l : N) : list N * stack :=
  ([], if l <? 64 then [{| tag := 0; perm := Unique; guard := None |}] else []).
