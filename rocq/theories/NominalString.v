(** * NominalString: model of /repo/src/nominalstring.rs *)

From Verif Require Import Base Utf8.

(** src/nominalstring.rs:546-548  [OutOfMemoryError] *)
Inductive out_of_memory := OutOfMemoryError.

(** src/nominalstring.rs:418  [MaybeInline::INLINE_CAPACITY: u8 = 62]
    (re-exported at :36 as [NominalString::INLINE_CAPACITY]) *)
Definition INLINE_CAPACITY : N := 62.

(** src/nominalstring.rs:266-270  [struct InlineString] *)
Record inline_string := {
  length_byte : N;          (* length: u8 *)
  cells : list cell         (* bytes: [MaybeUninit<u8>; 62] *)
}.

(** src/nominalstring.rs:249-254  [enum MaybeInline]; :16 [NominalString] is a
    newtype around it. A heap [String] is its list of bytes; capacity and
    allocations that fail are in HeapMemory.v. Without the alloc feature the
    [Heap] variant does not exist; the model keeps the constructor and the
    theorems show it is never produced. *)
Inductive nominal_string :=
| Inline (i : inline_string)
| Heap (s : list N).

(** [[MaybeUninit::uninit(); INLINE_CAPACITY as usize]] *)
Definition uninit_cells : list cell := repeat None (N.to_nat INLINE_CAPACITY).

(** src/nominalstring.rs:273-275  [InlineString::len] *)
Definition inline_len (i : inline_string) : N := N.land (length_byte i) 0x7F.

(** src/nominalstring.rs:281-283  [InlineString::is_reverse] *)
Definition is_reverse (i : inline_string) : bool :=
  negb (N.land (length_byte i) 0x80 =? 0).

(** src/nominalstring.rs:285-291  [InlineString::data_offset] *)
Definition data_offset (i : inline_string) : outcome N :=
  if is_reverse i then offset_sub INLINE_CAPACITY (inline_len i) else Ret 0.

(** src/nominalstring.rs:293-302  [InlineString::as_bytes] *)
Definition as_bytes (i : inline_string) : outcome (list N) :=
  off <- data_offset i ;;
  read_bytes (cells i) (N.to_nat off) (N.to_nat (inline_len i)).

(** The cells a slice made by [as_bytes] or [as_bytes_mut]
    (src/nominalstring.rs:293-315) covers; used to talk about what the
    unsafe code exposes. *)
Definition exposed_cells (i : inline_string) : outcome (list cell) :=
  off <- data_offset i ;;
  if (N.to_nat off + N.to_nat (inline_len i) <=? length (cells i))%nat then
    Ret (window (cells i) (N.to_nat off) (N.to_nat (inline_len i)))
  else UB.

(** [core::str::from_utf8_unchecked]: undefined on invalid UTF-8. *)
Definition from_utf8_unchecked (bs : list N) : outcome (list N) :=
  if valid_utf8 bs then Ret bs else UB.

(** src/nominalstring.rs:317-322  [InlineString::as_str] *)
Definition inline_as_str (i : inline_string) : outcome (list N) :=
  bs <- as_bytes i ;; from_utf8_unchecked bs.

(** src/nominalstring.rs:331-333  [InlineString::set_length] *)
Definition set_length (i : inline_string) (new_length : N) : inline_string :=
  {| length_byte := N.lor (N.land (length_byte i) 0x80) new_length;
     cells := cells i |}.

Definition with_cells (i : inline_string) (cs : list cell) : inline_string :=
  {| length_byte := length_byte i; cells := cs |}.

(** [let mut utf8_bytes = [0; 4]; ch.encode_utf8(&mut utf8_bytes);] *)
Definition utf8_buffer (ch : N) : list N :=
  encode_char ch ++ repeat 0 (4 - length (encode_char ch)).

(** src/nominalstring.rs:335-360  [InlineString::push] *)
Definition inline_push (i : inline_string) (ch char_len inline_len new_length : N)
  : outcome inline_string :=
  let src := firstn (N.to_nat char_len) (utf8_buffer ch) in
  let size_of_bytes := INLINE_CAPACITY in
  if is_reverse i then
    current_offset <- data_offset i ;;
    dest <- offset_sub size_of_bytes new_length ;;
    moved <- copy_within (cells i) (N.to_nat current_offset) (length (cells i)) (N.to_nat dest) ;;
    start <- offset_sub size_of_bytes char_len ;;
    written <- write_zip moved (N.to_nat start) (length moved) src ;;
    Ret (set_length (with_cells i written) new_length)
  else
    written <- write_zip (cells i) (N.to_nat inline_len) (N.to_nat new_length) src ;;
    Ret (set_length (with_cells i written) new_length).

(** src/nominalstring.rs:362-391  [InlineString::push_str] *)
Definition inline_push_str (i : inline_string) (str : list N) (new_length : N)
  : outcome inline_string :=
  let size_of_bytes := INLINE_CAPACITY in
  if is_reverse i then
    current_offset <- data_offset i ;;
    dest <- offset_sub size_of_bytes new_length ;;
    moved <- copy_within (cells i) (N.to_nat current_offset) (length (cells i)) (N.to_nat dest) ;;
    start <- offset_sub size_of_bytes (N.of_nat (length str)) ;;
    written <- write_zip moved (N.to_nat start) (length moved) str ;;
    Ret (set_length (with_cells i written) new_length)
  else
    written <- raw_copy (cells i) (N.to_nat (inline_len i)) str ;;
    Ret (set_length (with_cells i written) new_length).

(** [ch.encode_utf8(self.as_bytes_mut())] (src/nominalstring.rs:412): writes
    the encoding at the start of the exposed slice, panics when it is too
    short. The slice may cover uninitialised bytes here; see
    [exposed_cells]. *)
Definition encode_into_bytes_mut (i : inline_string) (ch : N) : outcome inline_string :=
  off <- data_offset i ;;
  slice <- exposed_cells i ;;
  if (length (encode_char ch) <=? length slice)%nat then
    Ret (with_cells i (overwrite (cells i) (N.to_nat off) (map Some (encode_char ch))))
  else Panic.

(** src/nominalstring.rs:393-414  [InlineString::push_front] *)
Definition inline_push_front (i : inline_string) (ch char_len inline_len new_length : N)
  : outcome inline_string :=
  if is_reverse i then
    let src := firstn (N.to_nat char_len) (utf8_buffer ch) in
    start <- offset_sub INLINE_CAPACITY new_length ;;
    stop <- offset_sub INLINE_CAPACITY inline_len ;;
    written <- write_zip (cells i) (N.to_nat start) (N.to_nat stop) src ;;
    Ret (set_length (with_cells i written) new_length)
  else
    moved <- copy_within (cells i) 0 (N.to_nat inline_len) (N.to_nat char_len) ;;
    encode_into_bytes_mut (set_length (with_cells i moved) new_length) ch.

(** src/nominalstring.rs:420-425  [MaybeInline::new]; :40 [NominalString::new];
    :127-131 [Default] *)
Definition new : nominal_string :=
  Inline {| length_byte := 0; cells := uninit_cells |}.

(** src/nominalstring.rs:427-432  [MaybeInline::reverse]; :56
    [NominalString::new_reverse] *)
Definition new_reverse : nominal_string :=
  Inline {| length_byte := 0x80; cells := uninit_cells |}.

(** [u8::try_from(ch.len_utf8()).expect("4 < u8::MAX")] *)
Definition char_len_u8 (ch : N) : outcome N :=
  if len_utf8 ch <? 256 then Ret (len_utf8 ch) else Panic.

(** src/nominalstring.rs:435-461  [MaybeInline::push]; :66
    [NominalString::try_push]. The string is returned beside the result
    because it is passed as [&mut self]. *)
Definition try_push (c : config) (s : nominal_string) (ch : N)
  : outcome (nominal_string * result unit out_of_memory) :=
  match s with
  | Inline inline =>
      char_len <- char_len_u8 ch ;;
      let ilen := inline_len inline in
      new_length <- uadd c 8 ilen char_len ;;
      if new_length <=? INLINE_CAPACITY then
        inline' <- inline_push inline ch char_len ilen new_length ;;
        Ret (Inline inline', Ok tt)
      else if has_alloc c then
        str <- inline_as_str inline ;;
        Ret (Heap (str ++ encode_char ch), Ok tt)
      else Ret (Inline inline, Err OutOfMemoryError)
  | Heap str => Ret (Heap (str ++ encode_char ch), Ok tt)
  end.

(** src/nominalstring.rs:464-498  [MaybeInline::push_str]; :76
    [NominalString::try_push_str] *)
Definition try_push_str (c : config) (s : nominal_string) (str : list N)
  : outcome (nominal_string * result unit out_of_memory) :=
  match s with
  | Inline inline =>
      let overflow :=
        if has_alloc c then
          old <- inline_as_str inline ;;
          Ret (Heap (old ++ str), Ok tt)
        else Ret (Inline inline, Err OutOfMemoryError) in
      let insert_len := N.of_nat (length str) in
      if insert_len <? 256 then                       (* u8::try_from(str.len()) *)
        if inline_len inline + insert_len <? 256 then (* checked_add *)
          let new_length := inline_len inline + insert_len in
          if new_length <=? INLINE_CAPACITY then
            inline' <- inline_push_str inline str new_length ;;
            Ret (Inline inline', Ok tt)
          else overflow
        else overflow
      else overflow
  | Heap old => Ret (Heap (old ++ str), Ok tt)
  end.

(** src/nominalstring.rs:501-527  [MaybeInline::push_front]; :86
    [NominalString::try_push_front] *)
Definition try_push_front (c : config) (s : nominal_string) (ch : N)
  : outcome (nominal_string * result unit out_of_memory) :=
  match s with
  | Inline inline =>
      char_len <- char_len_u8 ch ;;
      let ilen := inline_len inline in
      new_length <- uadd c 8 ilen char_len ;;
      if new_length <=? INLINE_CAPACITY then
        inline' <- inline_push_front inline ch char_len ilen new_length ;;
        Ret (Inline inline', Ok tt)
      else if has_alloc c then
        str <- inline_as_str inline ;;
        Ret (Heap (encode_char ch ++ str), Ok tt)
      else Ret (Inline inline, Err OutOfMemoryError)
  | Heap str => Ret (Heap (encode_char ch ++ str), Ok tt)  (* s.insert(0, ch) *)
  end.

(** src/nominalstring.rs:529-535  [MaybeInline::as_str]; :184-190 [Deref];
    :121-125 [Display] without width/precision prints the same text *)
Definition as_str (s : nominal_string) : outcome (list N) :=
  match s with
  | Inline i => inline_as_str i
  | Heap str => Ret str
  end.

(** [str::is_empty] through [Deref] *)
Definition is_empty (s : nominal_string) : outcome bool :=
  str <- as_str s ;; Ret (match str with [] => true | _ => false end).

(** src/nominalstring.rs:537-543  [MaybeInline::as_str_mut], :324-329
    [InlineString::as_mut_str], :192-196 [DerefMut]: borrow the text mutably
    and leave [edited] in its place. Safe code can only leave valid UTF-8 of
    the same length; anything else is treated as undefined. *)
Definition edit_str (s : nominal_string) (edit : list N -> list N) : outcome nominal_string :=
  old <- as_str s ;;
  let edited := edit old in
  if valid_utf8 edited && (length edited =? length old)%nat then
    match s with
    | Inline i =>
        off <- data_offset i ;;
        Ret (Inline (with_cells i (overwrite (cells i) (N.to_nat off) (map Some edited))))
    | Heap _ => Ret (Heap edited)
    end
  else UB.

(** src/nominalstring.rs:92-94  [NominalString::is_inline] *)
Definition is_inline (s : nominal_string) : bool :=
  match s with Inline _ => true | Heap _ => false end.

(** src/nominalstring.rs:103-108  [NominalString::try_into_string] *)
Definition try_into_string (s : nominal_string) : result (list N) nominal_string :=
  match s with
  | Inline inline => Err (Inline inline)
  | Heap str => Ok str
  end.

(** src/nominalstring.rs:112-119  [From<NominalString> for String] *)
Definition into_string (s : nominal_string) : outcome (list N) :=
  match try_into_string s with
  | Ok str => Ret str
  | Err s' => as_str s'
  end.

(** src/nominalstring.rs:134-138  [From<String> for NominalString] (alloc) *)
Definition from_string (str : list N) : nominal_string := Heap str.

(** src/nominalstring.rs:147-174  [From<&str> for NominalString]; :141-145
    [From<&String>] delegates to it *)
Definition from_str (c : config) (value : list N) : outcome nominal_string :=
  let len := N.of_nat (length value) in
  if (len <? 256) && (len <=? INLINE_CAPACITY) then
    bs <- write_zip uninit_cells 0 (length value) value ;;
    Ret (Inline {| length_byte := len; cells := bs |})
  else if has_alloc c then Ret (from_string value)
  else Panic.

(** src/nominalstring.rs:176-182  [From<char> for NominalString] *)
Definition from_char (c : config) (ch : N) : outcome nominal_string :=
  '(s, r) <- try_push c new ch ;;
  match r with
  | Ok _ => Ret s
  | Err _ => Panic
  end.

(** Comparison of [str]s: bytewise lexicographic (Rust's core library). *)
Fixpoint bytes_eqb (a b : list N) : bool :=
  match a, b with
  | [], [] => true
  | x :: a', y :: b' => (x =? y) && bytes_eqb a' b'
  | _, _ => false
  end.

Fixpoint bytes_compare (a b : list N) : comparison :=
  match a, b with
  | [], [] => Eq
  | [], _ :: _ => Lt
  | _ :: _, [] => Gt
  | x :: a', y :: b' =>
      match x ?= y with Eq => bytes_compare a' b' | o => o end
  end.

(** src/nominalstring.rs:200-204  [PartialEq<str>]; :212-216 [PartialEq<&str>]
    and :218-222 [PartialEq<String>] delegate to it *)
Definition eq_str (s : nominal_string) (other : list N) : outcome bool :=
  a <- as_str s ;; Ret (bytes_eqb a other).

(** src/nominalstring.rs:206-210  [PartialEq for NominalString] *)
Definition ns_eq (a b : nominal_string) : outcome bool :=
  other <- as_str b ;; eq_str a other.

(** src/nominalstring.rs:224-228  [PartialOrd<str>]; :231-235
    [PartialOrd<String>] delegates to it *)
Definition partial_cmp_str (s : nominal_string) (other : list N) : outcome (option comparison) :=
  a <- as_str s ;; Ret (Some (bytes_compare a other)).

(** src/nominalstring.rs:237-241  [Ord for NominalString] *)
Definition ns_cmp (a b : nominal_string) : outcome comparison :=
  x <- as_str a ;; y <- as_str b ;; Ret (bytes_compare x y).

(** src/nominalstring.rs:243-247  [PartialOrd for NominalString] *)
Definition ns_partial_cmp (a b : nominal_string) : outcome (option comparison) :=
  o <- ns_cmp a b ;; Ret (Some o).
