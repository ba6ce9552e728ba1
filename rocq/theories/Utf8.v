(** * Utf8: characters and their UTF-8 encoding (Rust's [char] and [str]).

    This is the part of Rust's core library the crate leans on; it follows
    RFC 3629 and does not model any line of /repo. A character is its code
    point, a [str] is its list of bytes. *)

From Verif Require Import Base.

(** A Unicode scalar value: what a Rust [char] can be. *)
Definition is_scalar (c : N) : bool :=
  (c <? 0xD800) || ((0xE000 <=? c) && (c <? 0x110000)).

Definition scalars (cs : list N) : Prop := Forall (fun c => is_scalar c = true) cs.

(** [char::len_utf8] *)
Definition len_utf8 (c : N) : N :=
  if c <? 0x80 then 1
  else if c <? 0x800 then 2
  else if c <? 0x10000 then 3
  else 4.

(** [char::encode_utf8] *)
Definition encode_char (c : N) : list N :=
  if c <? 0x80 then [c]
  else if c <? 0x800 then [0xC0 + c / 0x40; 0x80 + c mod 0x40]
  else if c <? 0x10000 then
    [0xE0 + c / 0x1000; 0x80 + c / 0x40 mod 0x40; 0x80 + c mod 0x40]
  else
    [0xF0 + c / 0x40000; 0x80 + c / 0x1000 mod 0x40;
     0x80 + c / 0x40 mod 0x40; 0x80 + c mod 0x40].

(** The UTF-8 bytes of a text. *)
Definition utf8 (cs : list N) : list N := flat_map encode_char cs.

(** The number of UTF-8 bytes of a text. *)
Definition utf8_len (cs : list N) : N := N.of_nat (length (utf8 cs)).

Definition is_cont (b : N) : bool := (0x80 <=? b) && (b <? 0xC0).

(** Strict UTF-8 decoding: rejects stray bytes, overlong forms, surrogates
    and code points above 10FFFF. *)
Fixpoint utf8_decode (bs : list N) : option (list N) :=
  match bs with
  | [] => Some []
  | b0 :: r0 =>
    if b0 <? 0x80 then option_map (cons b0) (utf8_decode r0)
    else match r0 with
    | [] => None
    | b1 :: r1 =>
      if (0xC2 <=? b0) && (b0 <? 0xE0) then
        if is_cont b1 then
          option_map (cons ((b0 - 0xC0) * 0x40 + (b1 - 0x80))) (utf8_decode r1)
        else None
      else match r1 with
      | [] => None
      | b2 :: r2 =>
        if (0xE0 <=? b0) && (b0 <? 0xF0) then
          let c := (b0 - 0xE0) * 0x1000 + (b1 - 0x80) * 0x40 + (b2 - 0x80) in
          if is_cont b1 && is_cont b2 && (0x800 <=? c) && is_scalar c then
            option_map (cons c) (utf8_decode r2)
          else None
        else match r2 with
        | [] => None
        | b3 :: r3 =>
          let c := (b0 - 0xF0) * 0x40000 + (b1 - 0x80) * 0x1000
                   + (b2 - 0x80) * 0x40 + (b3 - 0x80) in
          if (0xF0 <=? b0) && (b0 <? 0xF5) && is_cont b1 && is_cont b2 && is_cont b3
             && (0x10000 <=? c) && is_scalar c then
            option_map (cons c) (utf8_decode r3)
          else None
        end
      end
    end
  end.

(** Being a [str]. *)
Definition valid_utf8 (bs : list N) : bool :=
  match utf8_decode bs with Some _ => true | None => false end.

(** ** Literals

    Coq string literals are byte strings; in this UTF-8 source file
    [chars "..."] is therefore the list of code points written between the
    quotes, and [bytes "..."] its UTF-8 bytes. *)
From Coq Require Import Ascii String.

Fixpoint bytes (s : string) : list N :=
  match s with
  | EmptyString => []
  | String a s' => N_of_ascii a :: bytes s'
  end.

Definition chars (s : string) : list N :=
  match utf8_decode (bytes s) with Some cs => cs | None => [] end.
