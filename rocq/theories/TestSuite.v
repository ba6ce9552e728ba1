(** * TestSuite: the crate's own tests and the example basics.rs as programs.

    A failed assertion is a panic. The test functions exist in builds with the
    feature alloc only (they use [alloc::string::String] and friends). Left out
    is the assertion on [size_of] (src/digital.rs:702), which depends on the
    layout the compiler chooses (C94). *)

From Coq Require Import String.
From Verif Require Import Base Utf8 NominalString Digital Additive Ethiopic Hebrew Chinese System.

Definition run := outcome unit.

Fixpoint in_turn (l : list run) : run :=
  match l with
  | [] => Ret tt
  | a :: l => _ <- a ;; in_turn l
  end.

Definition assert (b : bool) : run := if b then Ret tt else Panic.

(** [assert_eq!] of a [NominalString] and a string *)
Definition assert_reads (m : outcome nominal_string) (text : list N) : run :=
  s <- m ;; b <- eq_str s text ;; assert b.

(** [assert_eq!(r, Err(Error::NoZeroSymbol))] and [assert_eq!(r.unwrap_err(), Error::NoZeroSymbol)] *)
Definition assert_no_zero (m : outcome (result nominal_string error)) : run :=
  r <- m ;; match r with Err NoZeroSymbol => Ret tt | _ => Panic end.

(** [unwrap] of a push *)
Definition unwrapped (m : outcome (nominal_string * result unit out_of_memory)) : outcome nominal_string :=
  '(s, r) <- m ;; match r with Ok _ => Ret s | Err _ => Panic end.

(** [assert_eq!(nominal.to_nominal(&system), text)] *)
Definition assert_nominal (c : config) (T : uint) (sys : config -> uint -> N -> outcome (result nominal_string error))
    (nominal : N) (text : string) : run :=
  assert_reads (to_nominal nominal (default_system c T (sys c T))) (bytes text).

(** src/additive.rs:173-190 *)
Definition test_roman (c : config) : run :=
  in_turn [
    assert_nominal c U32 RomanUpper 0 "N";
    assert_nominal c U32 RomanUpper 1 "I";
    assert_nominal c U32 RomanUpper 2 "II";
    assert_nominal c U32 RomanUpper 3 "III";
    assert_nominal c U32 RomanUpper 4 "IV";
    assert_nominal c U32 RomanUpper 5 "V";
    assert_nominal c U32 RomanLower 0 "n";
    assert_nominal c U32 RomanLower 1 "i";
    assert_nominal c U32 RomanLower 2 "ii";
    assert_nominal c U32 RomanLower 3 "iii";
    assert_nominal c U32 RomanLower 4 "iv";
    assert_nominal c U32 RomanLower 5 "v";
    assert_nominal c U32 RomanLower 4000 "i̅v̅";
    assert_nominal c U32 RomanLower 2000000 "m̅m̅"].

(** src/additive.rs:193-198 *)
Definition test_long_test (c : config) : run :=
  assert_nominal c U32 RomanLower 63000000
    "m̅m̅m̅m̅m̅m̅m̅m̅m̅m̅m̅m̅m̅m̅m̅m̅m̅m̅m̅m̅m̅m̅m̅m̅m̅m̅m̅m̅m̅m̅m̅m̅m̅m̅m̅m̅m̅m̅m̅m̅m̅m̅m̅m̅m̅m̅m̅m̅m̅m̅m̅m̅m̅m̅m̅m̅m̅m̅m̅m̅m̅m̅m̅".

(** src/ethiopic.rs:79-85 *)
Definition test_ethiopic (c : config) : run :=
  in_turn [
    assert_nominal c U32 Ethiopic 1 "፩";
    assert_nominal c U32 Ethiopic 100 "፻";
    assert_nominal c U32 Ethiopic 101 "፻፩";
    assert_nominal c U32 Ethiopic 78010092 "፸፰፻፩፼፺፪";
    assert_nominal c U64 Ethiopic 780100000092 "፸፰፻፩፼፼፺፪"].

(** src/hebrew.rs:79-85 *)
Definition test_hebrew (c : config) : run :=
  in_turn [
    assert_nominal c U32 Hebrew 997 "תתקצז";
    assert_nominal c U32 Hebrew 1 "׳א״";
    assert_nominal c U32 Hebrew 15 "ט״ו";
    assert_nominal c U32 Hebrew 16 "ט״ז";
    assert_no_zero (Hebrew c U32 0)].

(** src/digital.rs:519-522 *)
Definition test_hex (c : config) : run :=
  in_turn [
    assert_nominal c U32 (fun c T => try_format_digits c T (HexUpper c)) 15 "F";
    assert_nominal c U32 (fun c T => try_format_digits c T (HexLower c)) 0xfeedd0d0 "feedd0d0"].

(** src/digital.rs:688-703 *)
Definition test_basic_digits (c : config) : run :=
  in_turn [
    assert_nominal c U8 (fun c T => try_format_digits c T Decimal) 0 "0";
    assert_nominal c U8 (fun c T => try_format_digits c T Decimal) 1 "1";
    assert_nominal c U8 (fun c T => try_format_digits c T Decimal) 12 "12";
    assert_nominal c U8 (fun c T => try_format_digits c T LetterLower) 0 "a";
    assert_nominal c U8 (fun c T => try_format_digits c T LetterUpper) 26 "AA";
    assert_no_zero (try_format_digits c U8 (one_based LetterLower) 0);
    assert_nominal c U8 (fun c T => try_format_digits c T (one_based LetterLower)) 1 "a";
    assert_nominal c U8 (fun c T => try_format_digits c T (one_based LetterUpper)) 26 "Z";
    assert_nominal c U8 (fun c T => try_format_digits c T (one_based LetterUpper)) 27 "AA"].

(** examples/basics.rs:6-33 *)
Definition test_runs (c : config) : run :=
  in_turn [
    assert_nominal c U32 (fun c T => try_format_digits c T Decimal) 0 "0";
    assert_nominal c U32 (fun c T => try_format_digits c T LetterLower) 0 "a";
    assert_nominal c U32 (fun c T => try_format_digits c T LetterLower) 1 "b";
    assert_nominal c U32 (fun c T => try_format_digits c T LetterLower) 26 "aa";
    assert_nominal c U32 (fun c T => try_format_digits c T (one_based LetterLower)) 1 "a";
    assert_nominal c U32 (fun c T => try_format_digits c T (one_based LetterLower)) 2 "b";
    assert_nominal c U32 (fun c T => try_format_digits c T (one_based LetterLower)) 27 "aa";
    assert_nominal c U32 (fun c T => try_format_digits c T (one_based LetterLower)) 0 "0";
    assert_no_zero (try_to_nominal 0 (default_system c U32 (try_format_digits c U32 (one_based LetterLower))))].

(** src/lib.rs:88-96; the three pointers have the same [impl] *)
Definition test_boxing (c : config) : run :=
  in_turn (repeat (assert_reads (to_nominal 1 (boxed c U32 (default_system c U32 (RomanUpper c U32)))) (bytes "I")) 3).

(** src/nominalstring.rs:550-556 *)
Definition test_preconditions (c : config) : run := assert (INLINE_CAPACITY + 4 <? 256).

(** src/nominalstring.rs:559-591 and :595-627, from the empty string [s] *)
Definition test_ops (c : config) (s : nominal_string) : run :=
  s <- unwrapped (try_push c s 0x61) ;;
  _ <- assert_reads (Ret s) (bytes "a") ;;
  s <- unwrapped (try_push_str c s (bytes "bc")) ;;
  _ <- assert_reads (Ret s) (bytes "abc") ;;
  s <- unwrapped (try_push_front c s 0x5F) ;;
  _ <- assert_reads (Ret s) (bytes "_abc") ;;
  let init := repeat 0x61 (N.to_nat INLINE_CAPACITY) in
  let check_after := init ++ bytes "b" in
  let check_before := bytes "b" ++ init in
  let moves push check :=
    s <- from_str c init ;;
    _ <- assert (is_inline s) ;;
    s <- unwrapped (push s) ;;
    _ <- assert (negb (is_inline s)) ;;
    assert_reads (Ret s) check in
  _ <- moves (fun s => try_push c s 0x62) check_after ;;
  _ <- moves (fun s => try_push_str c s (bytes "b")) check_after ;;
  moves (fun s => try_push_front c s 0x62) check_before.

Definition test_forward_ops (c : config) : run := test_ops c new.
Definition test_reverse_ops (c : config) : run := test_ops c new_reverse.

(** src/chinese.rs:591-614 *)
Definition cases : list N :=
  [10; 12; 100; 103; 1000; 1006; 1010; 1011; 1100; 1011; 10000; 100001; 100000; 110001;
   100000000; 100000001; 10000000000000000; 11111; 1010000000000; 7400000000000;
   938463463370000000000000000; 2 ^ 128 - 1].

(** src/chinese.rs:617-633, one turn of the loop. [reference] is what the crate
    chinese_number answers: a text, or an error. *)
Definition turn (sys : nominal_system) (reference : N -> option (list N)) '((case, expected) : N * list N) : run :=
  result <- try_to_nominal case sys ;;
  match reference case with
  | Some text =>
      match result with
      | Err _ => Panic
      | Ok s => _ <- assert_reads (Ret s) text ;; assert (bytes_eqb expected text)
      end
  | None => match result with Err (OutOfBounds n) => assert (n =? case) | _ => Panic end
  end.

(** src/chinese.rs:584-635 *)
Definition test_formatting (sys : nominal_system) (expected : list string) (reference : N -> option (list N)) : run :=
  _ <- assert (length expected =? length cases)%nat ;;
  in_turn (map (turn sys reference) (combine cases (map bytes expected))).

(** src/chinese.rs:642-663 *)
Definition expected_simplified_financial : list string := [
  "拾"%string;
  "拾贰"%string;
  "壹佰"%string;
  "壹佰零叁"%string;
  "壹仟"%string;
  "壹仟零陆"%string;
  "壹仟零壹拾"%string;
  "壹仟零壹拾壹"%string;
  "壹仟壹佰"%string;
  "壹仟零壹拾壹"%string;
  "壹万"%string;
  "拾万零壹"%string;
  "拾万"%string;
  "拾壹万零壹"%string;
  "壹亿"%string;
  "壹亿零壹"%string;
  "壹京"%string;
  "壹万壹仟壹佰壹拾壹"%string;
  "壹兆零壹佰亿"%string;
  "柒兆肆仟亿"%string;
  "玖佰叁拾捌秭肆仟陆佰叁拾肆垓陆仟叁佰叁拾柒京"%string;
  "叁佰肆拾涧贰仟捌佰贰拾叁沟陆仟陆佰玖拾贰穰零玖佰叁拾捌秭肆仟陆佰叁拾肆垓陆仟叁佰叁拾柒京肆仟陆佰零柒兆肆仟叁佰壹拾柒亿陆仟捌佰贰拾壹万壹仟肆佰伍拾伍"%string].

(** src/chinese.rs:682-703 *)
Definition expected_simplified_financial_low : list string := [
  "拾"%string;
  "拾贰"%string;
  "壹佰"%string;
  "壹佰零叁"%string;
  "壹仟"%string;
  "壹仟零陆"%string;
  "壹仟零壹拾"%string;
  "壹仟零壹拾壹"%string;
  "壹仟壹佰"%string;
  "壹仟零壹拾壹"%string;
  "壹万"%string;
  "壹亿零壹"%string;
  "壹亿"%string;
  "壹亿壹万零壹"%string;
  "壹垓"%string;
  "壹垓零壹"%string;
  "壹万壹仟壹佰壹拾壹"%string;
  "壹万壹仟壹佰壹拾壹"%string;
  "壹涧零壹穰"%string;
  "柒涧肆沟"%string;
  ""%string;
  ""%string].

(** src/chinese.rs:722-743 *)
Definition expected_simplified_financial_high : list string := [
  "拾"%string;
  "拾贰"%string;
  "壹佰"%string;
  "壹佰零叁"%string;
  "壹仟"%string;
  "壹仟零陆"%string;
  "壹仟零壹拾"%string;
  "壹仟零壹拾壹"%string;
  "壹仟壹佰"%string;
  "壹仟零壹拾壹"%string;
  "壹万"%string;
  "拾万零壹"%string;
  "拾万"%string;
  "拾壹万零壹"%string;
  "壹亿"%string;
  "壹亿零壹"%string;
  "壹兆"%string;
  "壹万壹仟壹佰壹拾壹"%string;
  "壹万零壹佰亿"%string;
  "柒万肆仟亿"%string;
  "玖佰叁拾捌亿肆仟陆佰叁拾肆万陆仟叁佰叁拾柒兆"%string;
  "叁佰肆拾万贰仟捌佰贰拾叁京陆仟陆佰玖拾贰万零玖佰叁拾捌亿肆仟陆佰叁拾肆万陆仟叁佰叁拾柒兆肆仟陆佰零柒万肆仟叁佰壹拾柒亿陆仟捌佰贰拾壹万壹仟肆佰伍拾伍"%string].

(** src/chinese.rs:760-781 *)
Definition expected_simplified_financial_mid : list string := [
  "拾"%string;
  "拾贰"%string;
  "壹佰"%string;
  "壹佰零叁"%string;
  "壹仟"%string;
  "壹仟零陆"%string;
  "壹仟零壹拾"%string;
  "壹仟零壹拾壹"%string;
  "壹仟壹佰"%string;
  "壹仟零壹拾壹"%string;
  "壹万"%string;
  "拾万零壹"%string;
  "拾万"%string;
  "拾壹万零壹"%string;
  "壹亿"%string;
  "壹亿零壹"%string;
  "壹兆"%string;
  "壹万壹仟壹佰壹拾壹"%string;
  "壹万零壹佰亿"%string;
  "柒万肆仟亿"%string;
  "玖佰叁拾捌京肆仟陆佰叁拾肆万陆仟叁佰叁拾柒兆"%string;
  "叁佰肆拾万贰仟捌佰贰拾叁垓陆仟陆佰玖拾贰万零玖佰叁拾捌京肆仟陆佰叁拾肆万陆仟叁佰叁拾柒兆肆仟陆佰零柒万肆仟叁佰壹拾柒亿陆仟捌佰贰拾壹万壹仟肆佰伍拾伍"%string].

(** src/chinese.rs:797-818 *)
Definition expected_simplified : list string := [
  "十"%string;
  "十二"%string;
  "一百"%string;
  "一百零三"%string;
  "一千"%string;
  "一千零六"%string;
  "一千零一十"%string;
  "一千零一十一"%string;
  "一千一百"%string;
  "一千零一十一"%string;
  "一万"%string;
  "十万零一"%string;
  "十万"%string;
  "十一万零一"%string;
  "一亿"%string;
  "一亿零一"%string;
  "一京"%string;
  "一万一千一百一十一"%string;
  "一兆零一百亿"%string;
  "七兆四千亿"%string;
  "九百三十八秭四千六百三十四垓六千三百三十七京"%string;
  "三百四十涧二千八百二十三沟六千六百九十二穰零九百三十八秭四千六百三十四垓六千三百三十七京四千六百零七兆四千三百一十七亿六千八百二十一万一千四百五十五"%string].

(** src/chinese.rs:835-856 *)
Definition expected_traditional : list string := [
  "十"%string;
  "十二"%string;
  "一百"%string;
  "一百零三"%string;
  "一千"%string;
  "一千零六"%string;
  "一千零一十"%string;
  "一千零一十一"%string;
  "一千一百"%string;
  "一千零一十一"%string;
  "一萬"%string;
  "十萬零一"%string;
  "十萬"%string;
  "十一萬零一"%string;
  "一億"%string;
  "一億零一"%string;
  "一京"%string;
  "一萬一千一百一十一"%string;
  "一兆零一百億"%string;
  "七兆四千億"%string;
  "九百三十八秭四千六百三十四垓六千三百三十七京"%string;
  "三百四十澗二千八百二十三溝六千六百九十二穰零九百三十八秭四千六百三十四垓六千三百三十七京四千六百零七兆四千三百一十七億六千八百二十一萬一千四百五十五"%string].

(** src/chinese.rs:873-894 *)
Definition expected_traditional_financial : list string := [
  "拾"%string;
  "拾貳"%string;
  "壹佰"%string;
  "壹佰零參"%string;
  "壹仟"%string;
  "壹仟零陸"%string;
  "壹仟零壹拾"%string;
  "壹仟零壹拾壹"%string;
  "壹仟壹佰"%string;
  "壹仟零壹拾壹"%string;
  "壹萬"%string;
  "拾萬零壹"%string;
  "拾萬"%string;
  "拾壹萬零壹"%string;
  "壹億"%string;
  "壹億零壹"%string;
  "壹京"%string;
  "壹萬壹仟壹佰壹拾壹"%string;
  "壹兆零壹佰億"%string;
  "柒兆肆仟億"%string;
  "玖佰參拾捌秭肆仟陸佰參拾肆垓陸仟參佰參拾柒京"%string;
  "參佰肆拾澗貳仟捌佰貳拾參溝陸仟陸佰玖拾貳穰零玖佰參拾捌秭肆仟陸佰參拾肆垓陸仟參佰參拾柒京肆仟陸佰零柒兆肆仟參佰壹拾柒億陸仟捌佰貳拾壹萬壹仟肆佰伍拾伍"%string].

(** The tests against chinese_number: system, expected texts *)
Definition chinese_tests : list ((config -> uint -> N -> outcome (result nominal_string error)) * list string) :=
  [(SimplifiedChineseInformal (financial default_options), expected_simplified_financial);
   (SimplifiedChineseInformal (short_scale (financial default_options)), expected_simplified_financial_low);
   (SimplifiedChineseInformal (long_scale (financial default_options)), expected_simplified_financial_high);
   (SimplifiedChineseInformal (mid_scale (financial default_options)), expected_simplified_financial_mid);
   (SimplifiedChineseInformal default_options, expected_simplified);
   (TraditionalChineseInformal default_options, expected_traditional);
   (TraditionalChineseInformal (financial default_options), expected_traditional_financial)].

Definition test_chinese (c : config) '((sys, expected) : (config -> uint -> N -> outcome (result nominal_string error)) * list string)
    (reference : N -> option (list N)) : run :=
  test_formatting (default_system c U128 (sys c U128)) expected reference.

(** The tests that need nothing else *)
Definition own_tests : list (config -> run) :=
  [test_roman; test_long_test; test_ethiopic; test_hebrew; test_hex; test_basic_digits; test_runs; test_boxing;
   test_preconditions; test_forward_ops; test_reverse_ops].
