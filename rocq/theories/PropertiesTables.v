(** * PropertiesTables: the tables of the model are those of the text (C112)

    Tables.v reads the tables out of the text in TableSources.v. They are the
    tables of the model, all of them and in the order of the text; with C111
    the text of a formatter run on a table of the text is the model of the
    numeral system. *)

From Coq Require Import String.
From Verif Require Import Base Utf8 NominalString Digital Additive Enumerated Cases
  Rust RustRun Sources RustFacts SourceRuns PropertiesSources Tables TableSources.
Local Open Scope string_scope.
Local Open Scope N_scope.

Definition read {A} (table : list word -> option A) (source : string) : option A :=
  let* ws := words source in table ws.

Definition digital_words : list word := Eval vm_compute in piece digital_tables_source.
Definition hex_words : list word := Eval vm_compute in piece hex_tables_source.
Definition additive_words : list word := Eval vm_compute in piece additive_tables_source.
Definition enumerated_words : list word := Eval vm_compute in piece enumerated_tables_source.

Lemma digital_words_of : words digital_tables_source = Some digital_words.
Proof. vm_cast_no_check (eq_refl (Some digital_words)). Qed.
Lemma hex_words_of : words hex_tables_source = Some hex_words.
Proof. vm_cast_no_check (eq_refl (Some hex_words)). Qed.
Lemma additive_words_of : words additive_tables_source = Some additive_words.
Proof. vm_cast_no_check (eq_refl (Some additive_words)). Qed.
Lemma enumerated_words_of : words enumerated_tables_source = Some enumerated_words.
Proof. vm_cast_no_check (eq_refl (Some enumerated_words)). Qed.

Definition digit_sets : option (list (string * digit_collection)) :=
  option_map (map (fun '(x, table) => (x, digit_set_of table))) (read digit_tables digital_tables_source).

Definition model_digit_sets : list (string * digit_collection) := [
  ("Decimal", Decimal); ("EasternArabic", EasternArabic); ("Persian", Persian); ("Bengali", Bengali);
  ("Cambodian", Cambodian); ("CjkDecimal", CjkDecimal); ("Devanagari", Devanagari); ("Gujarati", Gujarati);
  ("Gurmukhi", Gurmukhi); ("Kannada", Kannada); ("Lao", Lao); ("Malayalam", Malayalam);
  ("Mongolian", Mongolian); ("Myanmar", Myanmar); ("Oriya", Oriya); ("Tamil", Tamil); ("Telugu", Telugu);
  ("Thai", Thai); ("Tibetan", Tibetan); ("LetterUpper", LetterUpper); ("LetterLower", LetterLower);
  ("GreekUpper", GreekUpper); ("GreekLower", GreekLower); ("Hiragana", Hiragana);
  ("HiraganaIroha", HiraganaIroha); ("Katakana", Katakana); ("KatakanaIroha", KatakanaIroha);
  ("HangeulJamo", HangeulJamo); ("HangeulSyllable", HangeulSyllable)].

Definition digital_read : option (list (string * (bool * list N))) := Eval vm_compute in digit_tables digital_words.
Lemma digital_read_of : digit_tables digital_words = digital_read.
Proof. vm_cast_no_check (eq_refl digital_read). Qed.

(** src/digital.rs:134-426: the sets made by [impl_digit_set!] *)
Theorem C112_digit_sets : digit_sets = Some model_digit_sets.
Proof.
  unfold digit_sets, read. rewrite digital_words_of, digital_read_of. reflexivity.
Qed.
Print Assumptions C112_digit_sets.

(** src/digital.rs:189-248: the sets written out, which fall back to one of the above *)
Theorem C112_fixed_sets :
  (let* known := digit_sets in
   let* tables := read fixed_tables digital_tables_source in
   all_some (fun '(x, table) => let* d := fixed_set_of known table in Some (x, d)) tables)
  = Some [("CjkHeavenlyStem", CjkHeavenlyStem); ("CjkEarthlyBranch", CjkEarthlyBranch)].
Proof.
  rewrite C112_digit_sets. unfold read. rewrite digital_words_of.
  replace (fixed_tables digital_words)
    with (Some [("CjkHeavenlyStem", ("CjkDecimal", 10, heavenly_stems));
                ("CjkEarthlyBranch", ("CjkDecimal", 12, earthly_branches))])
    by (symmetry; vm_compute; reflexivity).
  reflexivity.
Qed.
Print Assumptions C112_fixed_sets.

(** src/digital.rs:506-516: the sets made of two of the above *)
Theorem C112_hex_sets : forall c,
  (let* known := digit_sets in
   let* tables := read hex_tables hex_tables_source in
   all_some (fun '(x, table) => let* d := hex_set_of c known table in Some (x, d)) tables)
  = Some [("HexUpper", HexUpper c); ("HexLower", HexLower c)].
Proof.
  intros c. rewrite C112_digit_sets. unfold read. rewrite hex_words_of.
  replace (hex_tables hex_words)
    with (Some [("HexUpper", (16, "Decimal", "LetterUpper")); ("HexLower", (16, "Decimal", "LetterLower"))])
    by (symmetry; vm_compute; reflexivity).
  reflexivity.
Qed.
Print Assumptions C112_hex_sets.

Definition model_additive_sets : list (string * list (list N * N)) := [
  ("RomanLower", RomanLower_symbols); ("RomanUpper", RomanUpper_symbols);
  ("ArmenianUpper", ArmenianUpper_symbols); ("ArmenianLower", ArmenianLower_symbols);
  ("Georgian", Georgian_symbols); ("JapaneseFormal", JapaneseFormal_symbols);
  ("JapaneseInformal", JapaneseInformal_symbols); ("HangeulFormal", HangeulFormal_symbols);
  ("HanjaInformal", HanjaInformal_symbols); ("HanjaFormal", HanjaFormal_symbols)].

Lemma additive_read_of : additive_tables additive_words = Some model_additive_sets.
Proof. vm_cast_no_check (eq_refl (Some model_additive_sets)). Qed.

(** src/additive.rs:68-614 *)
Theorem C112_additive_sets : read additive_tables additive_tables_source = Some model_additive_sets.
Proof. unfold read. rewrite additive_words_of. exact additive_read_of. Qed.
Print Assumptions C112_additive_sets.

(** src/enumerated.rs:66-81 *)
Theorem C112_enumerated_sets :
  read enumerated_tables enumerated_tables_source
  = Some [("CircledNumber", ("new", CircledNumber_symbols));
          ("DoubleCircledNumber", ("zeroless", DoubleCircledNumber_symbols))].
Proof. unfold read. rewrite enumerated_words_of. vm_compute. reflexivity. Qed.
Print Assumptions C112_enumerated_sets.

(** The numeral systems of the model by the names the text gives them. *)
Definition model_additive (x : string) : option (config -> uint -> N -> outcome (result nominal_string error)) :=
  find_name x [
    ("RomanLower", RomanLower); ("RomanUpper", RomanUpper); ("ArmenianUpper", ArmenianUpper);
    ("ArmenianLower", ArmenianLower); ("Georgian", Georgian); ("JapaneseFormal", JapaneseFormal);
    ("JapaneseInformal", JapaneseInformal); ("HangeulFormal", HangeulFormal);
    ("HanjaInformal", HanjaInformal); ("HanjaFormal", HanjaFormal)].

(** Whatever table of src/additive.rs is taken, running the text of the
    additive formatter on the symbols of the text is the model of the system
    with that name. *)
Theorem C112_additive_runs : forall tables x symbols,
  read additive_tables additive_tables_source = Some tables -> In (x, symbols) tables ->
  exists system, model_additive x = Some system /\
    forall c T d n,
      (set <- additive_set_new symbols ;; run_source additive_source c T (S d) [] (additive_value set) n)
      = (r <- system c T n ;; Ret (result_value T r)).
Proof.
  intros tables x symbols E I. rewrite C112_additive_sets in E. injection E as <-.
  assert (step : forall c T d n l,
    (set <- additive_set_new l ;; run_source additive_source c T (S d) [] (additive_value set) n)
    = (r <- (set <- additive_set_new l ;; try_format_additive c T set n) ;; Ret (result_value T r))).
  { intros c T d n l. destruct (additive_set_new l) as [set| | |]; [apply C111_additive|reflexivity..]. }
  repeat (destruct I as [I|I];
    [injection I as <- <-; eexists; split; [reflexivity|]; intros; apply step|]).
  destruct I.
Qed.
Print Assumptions C112_additive_runs.

(** Likewise for every digit set of src/digital.rs:134-426. *)
Theorem C112_digit_runs : forall sets x set,
  digit_sets = Some sets -> In (x, set) sets ->
  exists d, find_name x model_digit_sets = Some d /\
    forall c T depth n,
      run_source digital_source c T depth [] (VDigits set) n
      = (r <- format_digits depth c T d n ;; Ret (result_value T r)).
Proof.
  intros sets x set E I. rewrite C112_digit_sets in E. injection E as <-.
  repeat (destruct I as [I|I];
    [injection I as <- <-; eexists; split; [reflexivity|]; intros; apply C111_digital|]).
  destruct I.
Qed.
Print Assumptions C112_digit_runs.

(** Two tables that are neither the first nor the last, and a small
    text with the right count and with a wrong one. *)
Example C112_case :
  (let* t := read additive_tables additive_tables_source in
   let* s := find_name "Georgian" t in Some (firstn 2 s, length s))
  = Some ([(bytes "ჵ", 10000); (bytes "ჰ", 9000)], 37%nat) /\
  (let* t := read digit_tables digital_tables_source in find_name "HangeulJamo" t)
  = Some (false, chars "ㄱㄴㄷㄹㅁㅂㅅㅇㅈㅊㅋㅌㅍㅎ") /\
  read digit_tables "impl_digit_set!(/// two
    Two, DigitSet<2, true> = DigitSet::new(['\u{61}', 'b']));" = Some [("Two", (true, [97; 98]))] /\
  read digit_tables "impl_digit_set!(/// two
    Two, DigitSet<3, true> = DigitSet::new(['\u{61}', 'b']));" = None.
Proof. vm_compute. repeat split. Qed.

(** The text of the formatter run on a table of the text. *)
Example C112_runs_case :
  (let* t := read additive_tables additive_tables_source in
   let* s := find_name "RomanUpper" t in
   match additive_set_new s with
   | Ret set => text_of (run_source additive_source on_heap U16 1 [] (additive_value set) 1994)
   | _ => None
   end) = Some (bytes "MCMXCIV") /\
  (let* t := digit_sets in
   let* set := find_name "Thai" t in
   text_of (run_source digital_source no_heap U32 1 [] (VDigits set) 2024)) = Some (bytes "๒๐๒๔").
Proof. vm_compute. repeat split. Qed.
