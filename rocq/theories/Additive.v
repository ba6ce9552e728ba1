(** * Additive: model of /repo/src/additive.rs

    Symbols are [&'static str]: lists of UTF-8 bytes. *)

From Coq Require Import String.
From Verif Require Import Base Utf8 NominalString Digital.

(** src/additive.rs:4-7  [struct AdditiveSet<N>] *)
Record additive_set := {
  as_symbols : list (list N * N);
  as_zero : option (list N)
}.

(** src/additive.rs:19-23, the assertion loop of [AdditiveSet::new]: every
    value is greater than the next one. *)
Fixpoint descending (symbols : list (list N * N)) : bool :=
  match symbols with
  | (_, v) :: ((_, w) :: _) as rest => (w <? v) && descending rest
  | _ => true
  end.

(** src/additive.rs:25-29, the match on [symbols.last()]. *)
Definition zero_symbol (symbols : list (list N * N)) : option (list N) :=
  match rev symbols with
  | (zero, 0) :: _ => Some zero
  | _ => None
  end.

(** src/additive.rs:18-31  [AdditiveSet::new]; a failed [assert!] panics. *)
Definition additive_set_new (symbols : list (list N * N)) : outcome additive_set :=
  if descending symbols then
    Ret {| as_symbols := symbols; as_zero := zero_symbol symbols |}
  else Panic.

(** src/additive.rs:58-61, the [while] loop: subtract and print as long as the
    value fits. State and result: [remaining] and [formatted]. *)
Definition additive_while_body (c : config) (T : uint) (nominal : N) (symbol : list N) (value : N)
    (st : N * nominal_string)
  : outcome (loop_step (N * nominal_string) (result (N * nominal_string) error)) :=
  let (remaining, formatted) := st in
  if value <=? remaining then
    remaining <- usub c (bits c T) remaining value ;;
    '(formatted, pushed) <- try_push_str c formatted symbol ;;
    match pushed with
    | Ok _ => Ret (Continue (remaining, formatted))
    | Err OutOfMemoryError => Ret (Break (Err (OutOfMemory nominal)))
    end
  else Ret (Break (Ok (remaining, formatted))).

(** src/additive.rs:50-64, the [for] loop over the symbols. *)
Fixpoint additive_for (c : config) (T : uint) (nominal : N) (symbols : list (list N * N))
    (remaining : N) (formatted : nominal_string) : outcome (result nominal_string error) :=
  match symbols with
  | [] => Ret (Ok formatted)
  | (symbol, value) :: rest =>
      if value =? 0 then Ret (Ok formatted)                   (* break *)
      else match try_from c T value with
      | None => additive_for c T nominal rest remaining formatted   (* continue *)
      | Some value_as_t =>
          r <- run_loop c (additive_while_body c T nominal symbol value_as_t) (remaining, formatted) ;;
          match r with
          | Ok (remaining, formatted) => additive_for c T nominal rest remaining formatted
          | Err e => Ret (Err e)
          end
      end
  end.

(** src/additive.rs:34-66  [NominalSystem<T> for AdditiveSet<N>] *)
Definition try_format_additive (c : config) (T : uint) (set : additive_set) (nominal : N)
  : outcome (result nominal_string error) :=
  if is_zero nominal then
    match as_zero set with
    | Some zero => s <- from_str c zero ;; Ret (Ok s)
    | None => Ret (Err NoZeroSymbol)
    end
  else additive_for c T nominal (as_symbols set) nominal new.

(** ** The built-in systems *)

(** src/additive.rs:89-114 *)
Definition RomanLower_symbols : list (list N * N) := [
  (bytes "m̅", 1000000);
  (bytes "d̅m̅", 900000);
  (bytes "d̅", 500000);
  (bytes "c̅d̅", 400000);
  (bytes "c̅", 100000);
  (bytes "l̅c̅", 90000);
  (bytes "l̅", 50000);
  (bytes "x̅l̅", 40000);
  (bytes "x̅", 10000);
  (bytes "i̅x̅", 9000);
  (bytes "v̅", 5000);
  (bytes "i̅v̅", 4000);
  (bytes "m", 1000);
  (bytes "cm", 900);
  (bytes "d", 500);
  (bytes "cd", 400);
  (bytes "c", 100);
  (bytes "xc", 90);
  (bytes "l", 50);
  (bytes "xl", 40);
  (bytes "x", 10);
  (bytes "ix", 9);
  (bytes "v", 5);
  (bytes "iv", 4);
  (bytes "i", 1);
  (bytes "n", 0)
].

(** src/additive.rs:83-118 *)
Definition RomanLower (c : config) (T : uint) (nominal : N) : outcome (result nominal_string error) :=
  set <- additive_set_new RomanLower_symbols ;; try_format_additive c T set nominal.

(** src/additive.rs:141-166 *)
Definition RomanUpper_symbols : list (list N * N) := [
  (bytes "M̅", 1000000);
  (bytes "D̅M̅", 900000);
  (bytes "D̅", 500000);
  (bytes "C̅D̅", 400000);
  (bytes "C̅", 100000);
  (bytes "L̅C̅", 90000);
  (bytes "L̅", 50000);
  (bytes "X̅L̅", 40000);
  (bytes "X̅", 10000);
  (bytes "I̅X̅", 9000);
  (bytes "V̅", 5000);
  (bytes "I̅V̅", 4000);
  (bytes "M", 1000);
  (bytes "CM", 900);
  (bytes "D", 500);
  (bytes "CD", 400);
  (bytes "C", 100);
  (bytes "XC", 90);
  (bytes "L", 50);
  (bytes "XL", 40);
  (bytes "X", 10);
  (bytes "IX", 9);
  (bytes "V", 5);
  (bytes "IV", 4);
  (bytes "I", 1);
  (bytes "N", 0)
].

(** src/additive.rs:135-170 *)
Definition RomanUpper (c : config) (T : uint) (nominal : N) : outcome (result nominal_string error) :=
  set <- additive_set_new RomanUpper_symbols ;; try_format_additive c T set nominal.

(** src/additive.rs:210-245 *)
Definition ArmenianUpper_symbols : list (list N * N) := [
  (bytes "Ք", 9000);
  (bytes "Փ", 8000);
  (bytes "Ւ", 7000);
  (bytes "Ց", 6000);
  (bytes "Ր", 5000);
  (bytes "Տ", 4000);
  (bytes "Վ", 3000);
  (bytes "Ս", 2000);
  (bytes "Ռ", 1000);
  (bytes "Ջ", 900);
  (bytes "Պ", 800);
  (bytes "Չ", 700);
  (bytes "Ո", 600);
  (bytes "Շ", 500);
  (bytes "Ն", 400);
  (bytes "Յ", 300);
  (bytes "Մ", 200);
  (bytes "Ճ", 100);
  (bytes "Ղ", 90);
  (bytes "Ձ", 80);
  (bytes "Հ", 70);
  (bytes "Կ", 60);
  (bytes "Ծ", 50);
  (bytes "Խ", 40);
  (bytes "Լ", 30);
  (bytes "Ի", 20);
  (bytes "Ժ", 10);
  (bytes "Թ", 9);
  (bytes "Ը", 8);
  (bytes "Է", 7);
  (bytes "Զ", 6);
  (bytes "Ե", 5);
  (bytes "Դ", 4);
  (bytes "Գ", 3);
  (bytes "Բ", 2);
  (bytes "Ա ", 1)
].

(** src/additive.rs:204-249 *)
Definition ArmenianUpper (c : config) (T : uint) (nominal : N) : outcome (result nominal_string error) :=
  set <- additive_set_new ArmenianUpper_symbols ;; try_format_additive c T set nominal.

(** src/additive.rs:261-296 *)
Definition ArmenianLower_symbols : list (list N * N) := [
  (bytes "ք", 9000);
  (bytes "փ", 8000);
  (bytes "ւ", 7000);
  (bytes "ց", 6000);
  (bytes "ր", 5000);
  (bytes "տ", 4000);
  (bytes "վ", 3000);
  (bytes "ս", 2000);
  (bytes "ռ", 1000);
  (bytes "ջ", 900);
  (bytes "պ", 800);
  (bytes "չ", 700);
  (bytes "ո", 600);
  (bytes "շ", 500);
  (bytes "ն", 400);
  (bytes "յ", 300);
  (bytes "մ", 200);
  (bytes "ճ", 100);
  (bytes "ղ", 90);
  (bytes "ձ", 80);
  (bytes "հ", 70);
  (bytes "կ", 60);
  (bytes "ծ", 50);
  (bytes "խ", 40);
  (bytes "լ", 30);
  (bytes "ի", 20);
  (bytes "ժ", 10);
  (bytes "թ", 9);
  (bytes "ը", 8);
  (bytes "է", 7);
  (bytes "զ", 6);
  (bytes "ե", 5);
  (bytes "դ", 4);
  (bytes "գ", 3);
  (bytes "բ", 2);
  (bytes "ա", 1)
].

(** src/additive.rs:255-300 *)
Definition ArmenianLower (c : config) (T : uint) (nominal : N) : outcome (result nominal_string error) :=
  set <- additive_set_new ArmenianLower_symbols ;; try_format_additive c T set nominal.

(** src/additive.rs:312-348 *)
Definition Georgian_symbols : list (list N * N) := [
  (utf8 [0x10F5], 10000);
  (utf8 [0x10F0], 9000);
  (utf8 [0x10EF], 8000);
  (utf8 [0x10F4], 7000);
  (utf8 [0x10EE], 6000);
  (utf8 [0x10ED], 5000);
  (utf8 [0x10EC], 4000);
  (utf8 [0x10EB], 3000);
  (utf8 [0x10EA], 2000);
  (utf8 [0x10E9], 1000);
  (utf8 [0x10E8], 900);
  (utf8 [0x10E7], 800);
  (utf8 [0x10E6], 700);
  (utf8 [0x10E5], 600);
  (utf8 [0x10E4], 500);
  (utf8 [0x10F3], 400);
  (utf8 [0x10E2], 300);
  (utf8 [0x10E1], 200);
  (utf8 [0x10E0], 100);
  (utf8 [0x10DF], 90);
  (utf8 [0x10DE], 80);
  (utf8 [0x10DD], 70);
  (utf8 [0x10F2], 60);
  (utf8 [0x10DC], 50);
  (utf8 [0x10DB], 40);
  (utf8 [0x10DA], 30);
  (utf8 [0x10D9], 20);
  (utf8 [0x10D8], 10);
  (utf8 [0x10D7], 9);
  (utf8 [0x10F1], 8);
  (utf8 [0x10D6], 7);
  (utf8 [0x10D5], 6);
  (utf8 [0x10D4], 5);
  (utf8 [0x10D3], 4);
  (utf8 [0x10D2], 3);
  (utf8 [0x10D1], 2);
  (utf8 [0x10D0], 1)
].

(** src/additive.rs:306-352 *)
Definition Georgian (c : config) (T : uint) (nominal : N) : outcome (result nominal_string error) :=
  set <- additive_set_new Georgian_symbols ;; try_format_additive c T set nominal.

(** src/additive.rs:364-400 *)
Definition JapaneseFormal_symbols : list (list N * N) := [
  (utf8 [0x4E5D; 0x9621], 9000);
  (utf8 [0x516B; 0x9621], 8000);
  (utf8 [0x4E03; 0x9621], 7000);
  (utf8 [0x516D; 0x9621], 6000);
  (utf8 [0x4F0D; 0x9621], 5000);
  (utf8 [0x56DB; 0x9621], 4000);
  (utf8 [0x53C2; 0x9621], 3000);
  (utf8 [0x5F10; 0x9621], 2000);
  (utf8 [0x58F1; 0x9621], 1000);
  (utf8 [0x4E5D; 0x767E], 900);
  (utf8 [0x516B; 0x767E], 800);
  (utf8 [0x4E03; 0x767E], 700);
  (utf8 [0x516D; 0x767E], 600);
  (utf8 [0x4F0D; 0x767E], 500);
  (utf8 [0x56DB; 0x767E], 400);
  (utf8 [0x53C2; 0x767E], 300);
  (utf8 [0x5F10; 0x767E], 200);
  (utf8 [0x58F1; 0x767E], 100);
  (utf8 [0x4E5D; 0x62FE], 90);
  (utf8 [0x516B; 0x62FE], 80);
  (utf8 [0x4E03; 0x62FE], 70);
  (utf8 [0x516D; 0x62FE], 60);
  (utf8 [0x4F0D; 0x62FE], 50);
  (utf8 [0x56DB; 0x62FE], 40);
  (utf8 [0x53C2; 0x62FE], 30);
  (utf8 [0x5F10; 0x62FE], 20);
  (utf8 [0x58F1; 0x62FE], 10);
  (utf8 [0x4E5D], 9);
  (utf8 [0x516B], 8);
  (utf8 [0x4E03], 7);
  (utf8 [0x516D], 6);
  (utf8 [0x4F0D], 5);
  (utf8 [0x56DB], 4);
  (utf8 [0x53C2], 3);
  (utf8 [0x5F10], 2);
  (utf8 [0x58F1], 1);
  (utf8 [0x96F6], 0)
].

(** src/additive.rs:358-404 *)
Definition JapaneseFormal (c : config) (T : uint) (nominal : N) : outcome (result nominal_string error) :=
  set <- additive_set_new JapaneseFormal_symbols ;; try_format_additive c T set nominal.

(** src/additive.rs:416-452 *)
Definition JapaneseInformal_symbols : list (list N * N) := [
  (utf8 [0x4E5D; 0x5343], 9000);
  (utf8 [0x516B; 0x5343], 8000);
  (utf8 [0x4E03; 0x5343], 7000);
  (utf8 [0x516D; 0x5343], 6000);
  (utf8 [0x4E94; 0x5343], 5000);
  (utf8 [0x56DB; 0x5343], 4000);
  (utf8 [0x4E09; 0x5343], 3000);
  (utf8 [0x4E8C; 0x5343], 2000);
  (utf8 [0x5343], 1000);
  (utf8 [0x4E5D; 0x767E], 900);
  (utf8 [0x516B; 0x767E], 800);
  (utf8 [0x4E03; 0x767E], 700);
  (utf8 [0x516D; 0x767E], 600);
  (utf8 [0x4E94; 0x767E], 500);
  (utf8 [0x56DB; 0x767E], 400);
  (utf8 [0x4E09; 0x767E], 300);
  (utf8 [0x4E8C; 0x767E], 200);
  (utf8 [0x767E], 100);
  (utf8 [0x4E5D; 0x5341], 90);
  (utf8 [0x516B; 0x5341], 80);
  (utf8 [0x4E03; 0x5341], 70);
  (utf8 [0x516D; 0x5341], 60);
  (utf8 [0x4E94; 0x5341], 50);
  (utf8 [0x56DB; 0x5341], 40);
  (utf8 [0x4E09; 0x5341], 30);
  (utf8 [0x4E8C; 0x5341], 20);
  (utf8 [0x5341], 10);
  (utf8 [0x4E5D], 9);
  (utf8 [0x516B], 8);
  (utf8 [0x4E03], 7);
  (utf8 [0x516D], 6);
  (utf8 [0x4E94], 5);
  (utf8 [0x56DB], 4);
  (utf8 [0x4E09], 3);
  (utf8 [0x4E8C], 2);
  (utf8 [0x4E00], 1);
  (utf8 [0x3007], 0)
].

(** src/additive.rs:410-456 *)
Definition JapaneseInformal (c : config) (T : uint) (nominal : N) : outcome (result nominal_string error) :=
  set <- additive_set_new JapaneseInformal_symbols ;; try_format_additive c T set nominal.

(** src/additive.rs:470-506 *)
Definition HangeulFormal_symbols : list (list N * N) := [
  (utf8 [0xAD6C; 0xCC9C], 9000);
  (utf8 [0xD314; 0xCC9C], 8000);
  (utf8 [0xCE60; 0xCC9C], 7000);
  (utf8 [0xC721; 0xCC9C], 6000);
  (utf8 [0xC624; 0xCC9C], 5000);
  (utf8 [0xC0AC; 0xCC9C], 4000);
  (utf8 [0xC0BC; 0xCC9C], 3000);
  (utf8 [0xC774; 0xCC9C], 2000);
  (utf8 [0xC77C; 0xCC9C], 1000);
  (utf8 [0xAD6C; 0xBC31], 900);
  (utf8 [0xD314; 0xBC31], 800);
  (utf8 [0xCE60; 0xBC31], 700);
  (utf8 [0xC721; 0xBC31], 600);
  (utf8 [0xC624; 0xBC31], 500);
  (utf8 [0xC0AC; 0xBC31], 400);
  (utf8 [0xC0BC; 0xBC31], 300);
  (utf8 [0xC774; 0xBC31], 200);
  (utf8 [0xC77C; 0xBC31], 100);
  (utf8 [0xAD6C; 0xC2ED], 90);
  (utf8 [0xD314; 0xC2ED], 80);
  (utf8 [0xCE60; 0xC2ED], 70);
  (utf8 [0xC721; 0xC2ED], 60);
  (utf8 [0xC624; 0xC2ED], 50);
  (utf8 [0xC0AC; 0xC2ED], 40);
  (utf8 [0xC0BC; 0xC2ED], 30);
  (utf8 [0xC774; 0xC2ED], 20);
  (utf8 [0xC77C; 0xC2ED], 10);
  (utf8 [0xAD6C], 9);
  (utf8 [0xD314], 8);
  (utf8 [0xCE60], 7);
  (utf8 [0xC721], 6);
  (utf8 [0xC624], 5);
  (utf8 [0xC0AC], 4);
  (utf8 [0xC0BC], 3);
  (utf8 [0xC774], 2);
  (utf8 [0xC77C], 1);
  (utf8 [0xC601], 0)
].

(** src/additive.rs:464-510 *)
Definition HangeulFormal (c : config) (T : uint) (nominal : N) : outcome (result nominal_string error) :=
  set <- additive_set_new HangeulFormal_symbols ;; try_format_additive c T set nominal.

(** src/additive.rs:522-558 *)
Definition HanjaInformal_symbols : list (list N * N) := [
  (utf8 [0x4E5D; 0x5343], 9000);
  (utf8 [0x516B; 0x5343], 8000);
  (utf8 [0x4E03; 0x5343], 7000);
  (utf8 [0x516D; 0x5343], 6000);
  (utf8 [0x4E94; 0x5343], 5000);
  (utf8 [0x56DB; 0x5343], 4000);
  (utf8 [0x4E09; 0x5343], 3000);
  (utf8 [0x4E8C; 0x5343], 2000);
  (utf8 [0x5343], 1000);
  (utf8 [0x4E5D; 0x767E], 900);
  (utf8 [0x516B; 0x767E], 800);
  (utf8 [0x4E03; 0x767E], 700);
  (utf8 [0x516D; 0x767E], 600);
  (utf8 [0x4E94; 0x767E], 500);
  (utf8 [0x56DB; 0x767E], 400);
  (utf8 [0x4E09; 0x767E], 300);
  (utf8 [0x4E8C; 0x767E], 200);
  (utf8 [0x767E], 100);
  (utf8 [0x4E5D; 0x5341], 90);
  (utf8 [0x516B; 0x5341], 80);
  (utf8 [0x4E03; 0x5341], 70);
  (utf8 [0x516D; 0x5341], 60);
  (utf8 [0x4E94; 0x5341], 50);
  (utf8 [0x56DB; 0x5341], 40);
  (utf8 [0x4E09; 0x5341], 30);
  (utf8 [0x4E8C; 0x5341], 20);
  (utf8 [0x5341], 10);
  (utf8 [0x4E5D], 9);
  (utf8 [0x516B], 8);
  (utf8 [0x4E03], 7);
  (utf8 [0x516D], 6);
  (utf8 [0x4E94], 5);
  (utf8 [0x56DB], 4);
  (utf8 [0x4E09], 3);
  (utf8 [0x4E8C], 2);
  (utf8 [0x4E00], 1);
  (utf8 [0x96F6], 0)
].

(** src/additive.rs:516-562 *)
Definition HanjaInformal (c : config) (T : uint) (nominal : N) : outcome (result nominal_string error) :=
  set <- additive_set_new HanjaInformal_symbols ;; try_format_additive c T set nominal.

(** src/additive.rs:574-610 *)
Definition HanjaFormal_symbols : list (list N * N) := [
  (utf8 [0x4E5D; 0x4EDF], 9000);
  (utf8 [0x516B; 0x4EDF], 8000);
  (utf8 [0x4E03; 0x4EDF], 7000);
  (utf8 [0x516D; 0x4EDF], 6000);
  (utf8 [0x4E94; 0x4EDF], 5000);
  (utf8 [0x56DB; 0x4EDF], 4000);
  (utf8 [0x53C3; 0x4EDF], 3000);
  (utf8 [0x8CB3; 0x4EDF], 2000);
  (utf8 [0x58F9; 0x4EDF], 1000);
  (utf8 [0x4E5D; 0x767E], 900);
  (utf8 [0x516B; 0x767E], 800);
  (utf8 [0x4E03; 0x767E], 700);
  (utf8 [0x516D; 0x767E], 600);
  (utf8 [0x4E94; 0x767E], 500);
  (utf8 [0x56DB; 0x767E], 400);
  (utf8 [0x53C3; 0x767E], 300);
  (utf8 [0x8CB3; 0x767E], 200);
  (utf8 [0x58F9; 0x767E], 100);
  (utf8 [0x4E5D; 0x62FE], 90);
  (utf8 [0x516B; 0x62FE], 80);
  (utf8 [0x4E03; 0x62FE], 70);
  (utf8 [0x516D; 0x62FE], 60);
  (utf8 [0x4E94; 0x62FE], 50);
  (utf8 [0x56DB; 0x62FE], 40);
  (utf8 [0x53C3; 0x62FE], 30);
  (utf8 [0x8CB3; 0x62FE], 20);
  (utf8 [0x58F9; 0x62FE], 10);
  (utf8 [0x4E5D], 9);
  (utf8 [0x516B], 8);
  (utf8 [0x4E03], 7);
  (utf8 [0x516D], 6);
  (utf8 [0x4E94], 5);
  (utf8 [0x56DB], 4);
  (utf8 [0x53C3], 3);
  (utf8 [0x8CB3], 2);
  (utf8 [0x58F9], 1);
  (utf8 [0x96F6], 0)
].

(** src/additive.rs:568-614 *)
Definition HanjaFormal (c : config) (T : uint) (nominal : N) : outcome (result nominal_string error) :=
  set <- additive_set_new HanjaFormal_symbols ;; try_format_additive c T set nominal.
