(** * PropertiesSources: the source text does what the model says (C111)

    The texts of Sources.v are read by Rust.v and run by RustRun.v. For every
    configuration, integer type, number and value of [self] the outcome is that
    of the model, so the theorems about the model are about the text. *)

From Coq Require Import String.
From Verif Require Import Base Utf8 NominalString Digital Ethiopic Hebrew Additive Enumerated Chinese Cases
  Rust RustRun Sources RustFacts SourceRuns ChineseSource ChineseSystems.

(** What a text does, as a value of the interpreter, is decided by the model's
    result and decides it. *)
Theorem C111_results : forall T r r', result_value T r = result_value T r' -> r = r'.
Proof.
  intros T [s|[|n|n]] [s'|[|n'|n']] E; try discriminate E; try reflexivity; injection E as ->; reflexivity.
Qed.
Print Assumptions C111_results.

Lemma run_source_of source program c T depth generics self n f :
  parse source = program -> find_fn program #"" (Named #"try_format_nominal") = Some f ->
  run_source source c T (S depth) generics self n
  = ('(v, _) <- apply_fn c T (run program c T depth) f generics [self; VInt (Some T) n] ;; Ret v).
Proof.
  intros E F. unfold run_source. rewrite E, (run_S _ _ _ _ _ _ _ _ f F). reflexivity.
Qed.

(** The whole of src/ethiopic.rs *)
Theorem C111_ethiopic : forall c T d n,
  run_source ethiopic_source c T (S (S (S d))) [] VUnit n = (r <- Ethiopic c T n ;; Ret (result_value T r)).
Proof.
  intros c T d n. rewrite (run_source_of _ _ _ _ _ _ _ _ ethiopic_fn ethiopic_parses eq_refl), ethiopic_runs.
  destruct (Ethiopic c T n); reflexivity.
Qed.
Print Assumptions C111_ethiopic.

(** The whole of src/hebrew.rs *)
Theorem C111_hebrew : forall c T d n,
  run_source hebrew_source c T (S d) [] VUnit n = (r <- Hebrew c T n ;; Ret (result_value T r)).
Proof.
  intros c T d n. rewrite (run_source_of _ _ _ _ _ _ _ _ hebrew_fn hebrew_parses eq_refl), hebrew_runs.
  destruct (Hebrew c T n); reflexivity.
Qed.
Print Assumptions C111_hebrew.

(** src/additive.rs:34-66, for any set *)
Theorem C111_additive : forall c T d set n,
  run_source additive_source c T (S d) [] (additive_value set) n
  = (r <- try_format_additive c T set n ;; Ret (result_value T r)).
Proof.
  intros c T d set n. rewrite (run_source_of _ _ _ _ _ _ _ _ additive_fn additive_parses eq_refl), additive_runs.
  destruct (try_format_additive c T set n); reflexivity.
Qed.
Print Assumptions C111_additive.

(** src/digital.rs:556-607, for any collection. The depth of the recursion into
    fallbacks is the same on both sides. *)
Theorem C111_digital : forall c T depth d n,
  run_source digital_source c T depth [] (VDigits d) n
  = (r <- format_digits depth c T d n ;; Ret (result_value T r)).
Proof.
  intros c T depth d n. unfold run_source. rewrite digital_parses, digital_runs.
  destruct (format_digits depth c T d n); reflexivity.
Qed.
Print Assumptions C111_digital.

(** src/enumerated.rs:26-43, for any set. [len] stands for the unused [N]. *)
Theorem C111_enumerated : forall c T d set len n,
  run_source enumerated_source c T (S d) [len; VBool (es_has_zero set)] (enumerated_value set) n
  = (r <- try_format_enumerated c T set n ;; Ret (result_value T r)).
Proof.
  intros c T d set len n.
  rewrite (run_source_of _ _ _ _ _ _ _ _ enumerated_fn enumerated_parses eq_refl), enumerated_runs.
  destruct (try_format_enumerated c T set n); reflexivity.
Qed.
Print Assumptions C111_enumerated.

(** src/chinese.rs:1-526, for any options of the four systems: the tables, the
    four scales and everything that writes with them. [t] stands for the type
    argument, which nothing looks at. *)
Theorem C111_chinese : forall c T d t o n, 16 <= usize_bits c ->
  run_system chinese_source #"SimplifiedChineseInformal" c T (28 + d) [t] (options_value o) n
  = (r <- SimplifiedChineseInformal o c T n ;; Ret (result_value T r)) /\
  run_system chinese_source #"SimplifiedChineseFormal" c T (28 + d) [t] (options_value o) n
  = (r <- SimplifiedChineseFormal o c T n ;; Ret (result_value T r)) /\
  run_system chinese_source #"TraditionalChineseFormal" c T (28 + d) [t] (options_value o) n
  = (r <- TraditionalChineseFormal o c T n ;; Ret (result_value T r)) /\
  run_system chinese_source #"TraditionalChineseInformal" c T (28 + d) [t] (options_value o) n
  = (r <- TraditionalChineseInformal o c T n ;; Ret (result_value T r)).
Proof.
  intros c T d t o n Hb. unfold run_system. rewrite chinese_parses.
  rewrite simplified_informal_runs, simplified_formal_runs, traditional_formal_runs, traditional_informal_runs
    by exact Hb.
  repeat split.
  - destruct (SimplifiedChineseInformal o c T n); reflexivity.
  - destruct (SimplifiedChineseFormal o c T n); reflexivity.
  - destruct (TraditionalChineseFormal o c T n); reflexivity.
  - destruct (TraditionalChineseInformal o c T n); reflexivity.
Qed.
Print Assumptions C111_chinese.

(** The text of a result. *)
Definition text_of (m : outcome value) : option (list N) :=
  match m with
  | Ret (VCon con [VString s]) =>
      if same con #"Ok" then match as_str s with Ret str => Some str | _ => None end else None
  | _ => None
  end.

Definition shouting : additive_set := {| as_symbols := [(bytes "ab", 7); (bytes "c", 2); (bytes "!", 1)]; as_zero := Some (bytes "-") |}.

Example C111_case :
  text_of (run_source ethiopic_source on_heap U64 3 [] VUnit 780100000092) = Some (bytes "፸፰፻፩፼፼፺፪") /\
  text_of (run_source hebrew_source no_heap U16 1 [] VUnit 997) = Some (bytes "תתקצז") /\
  text_of (run_source additive_source on_heap U8 1 [] (additive_value shouting) 19) = Some (bytes "ababcc!") /\
  text_of (run_source digital_source no_heap U32 2 [] (VDigits CjkHeavenlyStem) 997) = Some (bytes "九九七") /\
  text_of (run_source enumerated_source on_heap U8 1 [VUnit; VBool false]
             (enumerated_value (enumerated_zeroless DoubleCircledNumber_symbols)) 10) = Some (bytes "⓾") /\
  run_source enumerated_source on_heap U8 1 [VUnit; VBool false]
    (enumerated_value (enumerated_zeroless DoubleCircledNumber_symbols)) 11
  = Ret (VCon #"Err" [VCon #"OutOfBounds" [VInt (Some U8) 11]]) /\
  run_source ethiopic_source no_heap U8 3 [] VUnit 0 = Ret (VCon #"Err" [VCon #"NoZeroSymbol" []]).
Proof. vm_compute. repeat split. Qed.

Example C111_chinese_case :
  text_of (run_system chinese_source #"SimplifiedChineseInformal" on_heap U64 28 [VUnit]
             (options_value default_options) 1010200304) = Some (bytes "十亿一千零二十万零三百零四") /\
  text_of (run_system chinese_source #"TraditionalChineseFormal" no_heap U128 28 [VUnit]
             (options_value (financial default_options)) 120003) = Some (bytes "壹拾貳萬零參") /\
  text_of (run_system chinese_source #"TraditionalChineseInformal" on_heap U32 28 [VUnit]
             (options_value (short_scale default_options)) 12000345) = Some (bytes "一京二兆零三百四十五") /\
  text_of (run_system chinese_source #"SimplifiedChineseFormal" on_heap U128 28 [VUnit]
             (options_value (long_scale default_options)) 100000000000000000010) = Some (bytes "一万兆零一十") /\
  text_of (run_system chinese_source #"SimplifiedChineseFormal" on_heap U8 28 [VUnit]
             (options_value (mid_scale default_options)) 110) = Some (bytes "一百一十").
Proof. vm_compute. repeat split. Qed.
