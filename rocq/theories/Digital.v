(** * Digital: model of /repo/src/digital.rs and of src/lib.rs:181-247 *)

From Coq Require Import String.
From Verif Require Import Base Utf8 NominalString.

(** ** Errors *)

(** src/lib.rs:184-192  [enum Error<T>] *)
Inductive error :=
| NoZeroSymbol
| OutOfMemory (nominal : N)
| OutOfBounds (nominal : N).

(** src/lib.rs:243-247  [WithNominal for Result<R, OutOfMemoryError>], followed
    by the [?] operator: run a push, then continue with the updated string or
    return [Err(Error::OutOfMemory(nominal))]. *)
Definition with_nominal {A} (nominal : N)
    (push : outcome (nominal_string * result unit out_of_memory))
    (k : nominal_string -> outcome (result A error)) : outcome (result A error) :=
  '(s, r) <- push ;;
  match r with
  | Ok _ => k s
  | Err OutOfMemoryError => Ret (Err (OutOfMemory nominal))
  end.

(** ** Digit collections *)

(** src/digital.rs:632-685  [trait DigitCollection]. An implementor is the
    record of what its methods return. [dc_fallback] is
    [<Self::Fallback>::default()]; the type is coinductive because a type may
    name itself as its fallback ([NoFallback] does, :615). Methods are taken
    to be pure: every call returns the same answer. [is_empty] (:655-657) is
    the trait's default [len() == 0]. *)
CoInductive digit_collection := DC {
  dc_fixed : bool;
  dc_has_zero_digit : bool;
  dc_zero_based : bool;
  dc_len : outcome N;
  dc_digit : N -> outcome N;
  dc_fallback : digit_collection
}.

(** src/digital.rs:611-628  [NoFallback] *)
CoFixpoint NoFallback : digit_collection :=
  DC false false true (Ret 0) (fun _ => Panic) NoFallback.

(** src/digital.rs:44-50, :540-554  [DigitSet<N, true>::new] *)
Definition digit_set_new (digits : list N) : digit_collection :=
  DC false true true (Ret (N.of_nat (length digits)))
     (fun index => or_panic (lookup digits index)) NoFallback.

(** src/digital.rs:52-59, :524-538  [DigitSet<N, false>::zeroless] *)
Definition digit_set_zeroless (digits : list N) : digit_collection :=
  DC false false true (Ret (N.of_nat (length digits)))
     (fun index => or_panic (lookup digits index)) NoFallback.

(** src/digital.rs:61-93  [OneBased]; :679-684 [DigitCollection::one_based].
    [fixed] is not forwarded: the trait default [false] (:638-640) applies. *)
Definition one_based (d : digit_collection) : digit_collection :=
  DC false (dc_has_zero_digit d) false (dc_len d) (dc_digit d) (dc_fallback d).

(** src/digital.rs:428-470  [Chain]; :667-673 [DigitCollection::and]. [fixed]
    is not forwarded. [self.a.len() + self.b.len()] is a [usize] addition. *)
CoFixpoint chain (c : config) (a b : digit_collection) : digit_collection :=
  DC false (dc_has_zero_digit a) (dc_zero_based a)
     (la <- dc_len a ;; lb <- dc_len b ;; uadd c (usize_bits c) la lb)
     (fun index =>
        la <- dc_len a ;;
        if la <=? index then dc_digit b (index - la)   (* checked_sub = Some *)
        else dc_digit a index)
     (chain c (dc_fallback a) (dc_fallback b)).

(** src/digital.rs:472-504  [Restrict]. [fixed] is not forwarded. *)
Definition restrict (count : N) (d : digit_collection) : digit_collection :=
  DC false (dc_has_zero_digit d) (dc_zero_based d) (Ret count) (dc_digit d) (dc_fallback d).

(** src/digital.rs:473  the derived [Default] of [Restrict<T>], for the default
    [d] of [T]: the count is the default [usize], zero. (:431, the derived
    [Default] of [Chain<A, B>] is the [chain] of the defaults.) *)
Definition restrict_default (d : digit_collection) : digit_collection := restrict 0 d.

(** src/digital.rs:95-132  [impl_digit_set!]: a unit struct forwarding
    [has_zero_digit], [zero_based], [len] and [digit] to a static collection,
    with [NoFallback]. *)
Definition impl_digit_set (DIGITS : digit_collection) : digit_collection :=
  DC false (dc_has_zero_digit DIGITS) (dc_zero_based DIGITS) (dc_len DIGITS)
     (dc_digit DIGITS) NoFallback.

(** ** The built-in sets *)

(** src/digital.rs:134-138 *)
Definition Decimal : digit_collection :=
  impl_digit_set (digit_set_new
    (chars "0123456789")).

(** src/digital.rs:140-144 *)
Definition EasternArabic : digit_collection :=
  impl_digit_set (digit_set_new
    [0x0660; 0x0661; 0x0662; 0x0663; 0x0664;
     0x0665; 0x0666; 0x0667; 0x0668; 0x0669]).

(** src/digital.rs:146-150 *)
Definition Persian : digit_collection :=
  impl_digit_set (digit_set_new
    [0x06F0; 0x06F1; 0x06F2; 0x06F3; 0x06F4;
     0x06F5; 0x06F6; 0x06F7; 0x06F8; 0x06F9]).

(** src/digital.rs:159-163 *)
Definition Bengali : digit_collection :=
  impl_digit_set (digit_set_new
    [0x9E6; 0x9E7; 0x9E8; 0x9E9; 0x9EA;
     0x9EB; 0x9EC; 0x9ED; 0x9EE; 0x9EF]).

(** src/digital.rs:165-169 *)
Definition Cambodian : digit_collection :=
  impl_digit_set (digit_set_new
    [0x17E0; 0x17E1; 0x17E2; 0x17E3; 0x17E4;
     0x17E5; 0x17E6; 0x17E7; 0x17E8; 0x17E9]).

(** src/digital.rs:176-180 *)
Definition CjkDecimal : digit_collection :=
  impl_digit_set (digit_set_new
    [0x3007; 0x4E00; 0x4E8C; 0x4E09; 0x56DB;
     0x4E94; 0x516D; 0x4E03; 0x516B; 0x4E5D]).

(** src/digital.rs:250-254 *)
Definition Devanagari : digit_collection :=
  impl_digit_set (digit_set_new
    [0x966; 0x967; 0x968; 0x969; 0x96A;
     0x96B; 0x96C; 0x96D; 0x96E; 0x96F]).

(** src/digital.rs:256-260 *)
Definition Gujarati : digit_collection :=
  impl_digit_set (digit_set_new
    [0xAE6; 0xAE7; 0xAE8; 0xAE9; 0xAEA;
     0xAEB; 0xAEC; 0xAED; 0xAEE; 0xAEF]).

(** src/digital.rs:262-266 *)
Definition Gurmukhi : digit_collection :=
  impl_digit_set (digit_set_new
    [0xA66; 0xA67; 0xA68; 0xA69; 0xA6A;
     0xA6B; 0xA6C; 0xA6D; 0xA6E; 0xA6F]).

(** src/digital.rs:268-272 *)
Definition Kannada : digit_collection :=
  impl_digit_set (digit_set_new
    [0xCE6; 0xCE7; 0xCE8; 0xCE9; 0xCEA;
     0xCEB; 0xCEC; 0xCED; 0xCEE; 0xCEF]).

(** src/digital.rs:274-278 *)
Definition Lao : digit_collection :=
  impl_digit_set (digit_set_new
    [0xED0; 0xED1; 0xED2; 0xED3; 0xED4;
     0xED5; 0xED6; 0xED7; 0xED8; 0xED9]).

(** src/digital.rs:280-284 *)
Definition Malayalam : digit_collection :=
  impl_digit_set (digit_set_new
    [0xD66; 0xD67; 0xD68; 0xD69; 0xD6A;
     0xD6B; 0xD6C; 0xD6D; 0xD6E; 0xD6F]).

(** src/digital.rs:286-290 *)
Definition Mongolian : digit_collection :=
  impl_digit_set (digit_set_new
    [0x1810; 0x1811; 0x1812; 0x1813; 0x1814;
     0x1815; 0x1816; 0x1817; 0x1818; 0x1819]).

(** src/digital.rs:292-296 *)
Definition Myanmar : digit_collection :=
  impl_digit_set (digit_set_new
    [0x1040; 0x1041; 0x1042; 0x1043; 0x1044;
     0x1045; 0x1046; 0x1047; 0x1048; 0x1049]).

(** src/digital.rs:298-302 *)
Definition Oriya : digit_collection :=
  impl_digit_set (digit_set_new
    [0xB66; 0xB67; 0xB68; 0xB69; 0xB6A;
     0xB6B; 0xB6C; 0xB6D; 0xB6E; 0xB6F]).

(** src/digital.rs:304-308 *)
Definition Tamil : digit_collection :=
  impl_digit_set (digit_set_new
    [0xBE6; 0xBE7; 0xBE8; 0xBE9; 0xBEA;
     0xBEB; 0xBEC; 0xBED; 0xBEE; 0xBEF]).

(** src/digital.rs:310-314 *)
Definition Telugu : digit_collection :=
  impl_digit_set (digit_set_new
    [0xC66; 0xC67; 0xC68; 0xC69; 0xC6A;
     0xC6B; 0xC6C; 0xC6D; 0xC6E; 0xC6F]).

(** src/digital.rs:316-320 *)
Definition Thai : digit_collection :=
  impl_digit_set (digit_set_new
    [0xE50; 0xE51; 0xE52; 0xE53; 0xE54;
     0xE55; 0xE56; 0xE57; 0xE58; 0xE59]).

(** src/digital.rs:322-326 *)
Definition Tibetan : digit_collection :=
  impl_digit_set (digit_set_new
    [0xF20; 0xF21; 0xF22; 0xF23; 0xF24;
     0xF25; 0xF26; 0xF27; 0xF28; 0xF29]).

(** src/digital.rs:152-157  [pub use Persian as Urdu] *)
Definition Urdu := Persian.

(** src/digital.rs:171-174  [pub use Cambodian as Khmer] *)
Definition Khmer := Cambodian.

(** src/digital.rs:208-213, the array in [CjkHeavenlyStem::digit] *)
Definition heavenly_stems : list N :=
  [0x7532; 0x4E59; 0x4E19; 0x4E01; 0x620A; 0x5DF1; 0x5E9A;
   0x8F9B; 0x58EC; 0x7678].

(** src/digital.rs:182-214  [CjkHeavenlyStem] *)
Definition CjkHeavenlyStem : digit_collection :=
  DC true false false (Ret 10) (fun index => or_panic (lookup heavenly_stems index)) CjkDecimal.

(** src/digital.rs:242-247, the array in [CjkEarthlyBranch::digit] *)
Definition earthly_branches : list N :=
  [0x5B50; 0x4E11; 0x5BC5; 0x536F; 0x8FB0; 0x5DF3; 0x5348;
   0x672A; 0x7533; 0x9149; 0x620C; 0x4EA5].

(** src/digital.rs:216-248  [CjkEarthlyBranch] *)
Definition CjkEarthlyBranch : digit_collection :=
  DC true false false (Ret 12) (fun index => or_panic (lookup earthly_branches index)) CjkDecimal.

(** src/digital.rs:328-335 *)
Definition LetterUpper : digit_collection :=
  impl_digit_set (digit_set_zeroless
    (chars "ABCDEFGHIJKLMNOPQRSTUVWXYZ")).

(** src/digital.rs:337-344 *)
Definition LetterLower : digit_collection :=
  impl_digit_set (digit_set_zeroless
    (chars "abcdefghijklmnopqrstuvwxyz")).

(** src/digital.rs:346-353 *)
Definition GreekUpper : digit_collection :=
  impl_digit_set (digit_set_zeroless
    (chars "ΑΒΓΔΕΖΗΘΙΚΛΜΝΞΟΠΡΣΤΥΦΧΨΩ")).

(** src/digital.rs:355-362 *)
Definition GreekLower : digit_collection :=
  impl_digit_set (digit_set_zeroless
    (chars "αβγδεζηθικλμνξοπρστυφχψω")).

(** src/digital.rs:364-373 *)
Definition Hiragana : digit_collection :=
  impl_digit_set (digit_set_zeroless
    (chars "あいうえおかきくけこさしすせそたちつてとなにぬねのはひふへほまみむめもやゆよらりるれろわをん")).

(** src/digital.rs:375-384 *)
Definition HiraganaIroha : digit_collection :=
  impl_digit_set (digit_set_zeroless
    (chars "いろはにほへとちりぬるをわかよたれそつねならむうゐのおくやまけふこえてあさきゆめみしゑひもせす")).

(** src/digital.rs:386-395 *)
Definition Katakana : digit_collection :=
  impl_digit_set (digit_set_zeroless
    (chars "アイウエオカキクケコサシスセソタチツテトナニヌネノハヒフヘホマミムメモヤユヨラリルレロワヲン")).

(** src/digital.rs:397-406 *)
Definition KatakanaIroha : digit_collection :=
  impl_digit_set (digit_set_zeroless
    (chars "イロハニホヘトチリヌルヲワカヨタレソツネナラムウヰノオクヤマケフコエテアサキユメミシヱヒモセス")).

(** src/digital.rs:408-416 *)
Definition HangeulJamo : digit_collection :=
  impl_digit_set (digit_set_zeroless
    (chars "ㄱㄴㄷㄹㅁㅂㅅㅇㅈㅊㅋㅌㅍㅎ")).

(** src/digital.rs:418-426 *)
Definition HangeulSyllable : digit_collection :=
  impl_digit_set (digit_set_zeroless
    (chars "가나다라마바사아자차카타파하")).


(** src/digital.rs:506-510 *)
Definition HexUpper (c : config) : digit_collection :=
  impl_digit_set (restrict 16 (chain c Decimal LetterUpper)).

(** src/digital.rs:512-516 *)
Definition HexLower (c : config) : digit_collection :=
  impl_digit_set (restrict 16 (chain c Decimal LetterLower)).

(** ** Formatting *)

(** State of the [while] loop at src/digital.rs:585-603. *)
Record digit_loop := {
  dl_remaining : N;
  dl_first_loop : bool;
  dl_count : N;
  dl_formatted : nominal_string
}.

(** src/digital.rs:585-603, one evaluation of the loop condition and body. *)
Definition digit_loop_body (c : config) (T : uint) (d : digit_collection) (nominal : N)
    (st : digit_loop) : outcome (loop_step digit_loop (result nominal_string error)) :=
  if negb (is_zero (dl_remaining st)) || dl_first_loop st then
    let subtract := negb (dc_has_zero_digit d) && (negb (dc_zero_based d) || negb (dl_first_loop st)) in
    if subtract && negb (dc_has_zero_digit d) && is_zero (dl_remaining st) then
      Ret (Break (Err NoZeroSymbol))
    else
      remaining <- (if subtract then usub c (bits c T) (dl_remaining st) 1 else Ret (dl_remaining st)) ;;
      r <- urem remaining (dl_count st) ;;
      ch <- dc_digit d (as_usize c r) ;;
      '(formatted, pushed) <- try_push_front c (dl_formatted st) ch ;;
      match pushed with
      | Err OutOfMemoryError => Ret (Break (Err (OutOfMemory nominal)))
      | Ok _ =>
          remaining <- udiv remaining (dl_count st) ;;
          len <- dc_len d ;;
          match try_from c T len with
          | Some count =>
              Ret (Continue {| dl_remaining := remaining; dl_first_loop := false;
                               dl_count := count; dl_formatted := formatted |})
          | None => Ret (Break (Err (OutOfBounds nominal)))
          end
      end
  else Ret (Break (Ok (dl_formatted st))).

(** src/digital.rs:556-607  [NominalSystem<T> for D: DigitCollection].
    [depth] bounds the recursion into fallbacks. *)
Fixpoint format_digits (depth : nat) (c : config) (T : uint) (d : digit_collection) (nominal : N)
  : outcome (result nominal_string error) :=
  match depth with
  | O => Hang
  | S depth' =>
      len <- dc_len d ;;
      match try_from c T len with
      | None =>
          ch <- dc_digit d (as_usize c nominal) ;;
          s <- from_char c ch ;;
          Ret (Ok s)
      | Some count =>
          if dc_fixed d && (if dc_zero_based d then count <=? nominal else count <? nominal) then
            let fallback := dc_fallback d in
            fallback_len <- dc_len fallback ;;
            if fallback_len =? 0 then Ret (Err (OutOfBounds nominal))
            else format_digits depth' c T fallback nominal
          else
            run_loop c (digit_loop_body c T d nominal)
              {| dl_remaining := nominal; dl_first_loop := true;
                 dl_count := count; dl_formatted := new_reverse |}
      end
  end.

Definition try_format_digits (c : config) (T : uint) (d : digit_collection) (nominal : N)
  : outcome (result nominal_string error) :=
  format_digits (loop_depth c) c T d nominal.
