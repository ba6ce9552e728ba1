(** * Previews: model of examples/previews.rs

    The program that writes src/previews/*.md. Standard output and the files
    accept every write. *)

From Coq Require Import String.
From Verif Require Import Base Utf8 NominalString Format Digital Additive Enumerated Ethiopic Hebrew
  Chinese System.

(** What the program takes from elsewhere: [UnicodeSegmentation::graphemes(true)]
    and [UnicodeWidthStr::width] of the crates unicode-segmentation and
    unicode-width, both on [str], and whether the environment variable SAVE is
    set. *)
Record surroundings := {
  graphemes : list N -> list (list N);
  width_of : list N -> N;
  saving : bool
}.

(** [a * b] on an unsigned type of [w] bits. *)
Definition umul (c : config) (w a b : N) : outcome N :=
  if a * b <? 2 ^ w then Ret (a * b)
  else if overflow_checks c then Panic
  else Ret ((a * b) mod 2 ^ w).

(** ** Names *)

Definition starts_with (prefix str : list N) : bool :=
  if list_eq_dec N.eq_dec (firstn (List.length prefix) str) prefix then true else false.

(** [str::rsplit_once]: what follows the last occurrence of [delimiter]. *)
Fixpoint after_last (delimiter str : list N) : option (list N) :=
  match str with
  | [] => None
  | _ :: rest =>
    match after_last delimiter rest with
    | Some found => Some found
    | None => if starts_with delimiter str then Some (skipn (List.length delimiter) str) else None
    end
  end.

(** [str::strip_suffix] with a [char], here an ASCII one. *)
Definition strip_suffix (suffix : N) (str : list N) : option (list N) :=
  match rev str with
  | last :: front => if last =? suffix then Some (rev front) else None
  | [] => None
  end.

(** examples/previews.rs:172-179, given [type_name::<T>()] *)
Definition last_type_name (name : list N) : list N :=
  match after_last (bytes "::") name with
  | None => name
  | Some name => match strip_suffix 62 name with Some stripped => stripped | None => name end
  end.

(** examples/previews.rs:185-187 *)
Definition markdown_link_to (name anchor : list N) : list N :=
  bytes "[`" ++ name ++ bytes "`]($NominalSystemDocPrefix$" ++ anchor ++ bytes "$NominalSystemDocSuffix$)".

(** examples/previews.rs:181-183 *)
Definition markdown_link (name : list N) : list N := markdown_link_to name name.

(** ** The systems *)

(** examples/previews.rs:189-194  [trait Previewable]: [own_name] is
    [type_name::<Self>()], [linked_name] is the [type_name] that [doc_link]
    uses. *)
Record previewable := {
  own_name : list N;
  linked_name : list N;
  preview_values : outcome (list N);
  shown_by : nominal_system
}.

Definition doc_link (system : previewable) : list N := markdown_link (last_type_name (linked_name system)).

(** A [for] loop that pushes one value per turn. *)
Fixpoint each {A B} (f : A -> outcome B) (l : list A) : outcome (list B) :=
  match l with
  | [] => Ret []
  | a :: rest =>
    b <- f a ;;
    bs <- each f rest ;;
    Ret (b :: bs)
  end.

(** [from..to] *)
Definition range (from to : N) : list N :=
  map (fun i => from + N.of_nat i) (seq 0 (N.to_nat (to - from))).

(** examples/previews.rs:206-233  [preview_values] of [DigitPreview<T>] *)
Definition digit_preview_values (c : config) (d : digit_collection) : outcome (list N) :=
  len <- dc_len d ;;
  count <- or_panic (try_from c U32 len) ;;
  let base := if dc_has_zero_digit d || dc_zero_based d then 0 else 1 in
  let iters := N.min count 5 in
  first <- each (fun i => uadd c 32 base i) (range 1 iters) ;;
  last <- (if iters =? count then Ret []
           else x <- uadd c 32 base count ;; x <- usub c 32 x 1 ;; Ret [x]) ;;
  x0 <- uadd c 32 base count ;;
  x1 <- (x <- uadd c 32 base count ;; uadd c 32 x 1) ;;
  x2 <- (x <- uadd c 32 base count ;; uadd c 32 x 2) ;;
  hundred <- umul c 32 count count ;;
  y0 <- (y <- uadd c 32 base hundred ;; usub c 32 y 1) ;;
  y1 <- uadd c 32 base hundred ;;
  y2 <- (y <- uadd c 32 base hundred ;; uadd c 32 y 1) ;;
  y3 <- (y <- uadd c 32 base hundred ;; uadd c 32 y 2) ;;
  Ret ([base] ++ first ++ last ++ [x0; x1; x2; y0; y1; y2; y3]).

(** examples/previews.rs:196-204, 236-246  [DigitPreview<T>]; [path] is
    [type_name::<T>()]. *)
Definition digit_preview (c : config) (path : string) (d : digit_collection) : previewable :=
  {| own_name := bytes "previews::DigitPreview<" ++ bytes path ++ bytes ">";
     linked_name := bytes path;
     preview_values := digit_preview_values c d;
     shown_by := default_system c U32 (try_format_digits c U32 d) |}.

(** A type of the crate with [preview_values] of its own. *)
Definition plain_preview (c : config) (path : string) (values : list N)
    (system : config -> uint -> N -> outcome (result nominal_string error)) : previewable :=
  {| own_name := bytes path;
     linked_name := bytes path;
     preview_values := Ret values;
     shown_by := default_system c U32 (system c U32) |}.

(** examples/previews.rs:248-252 *)
Definition roman_values : list N :=
  [1; 2; 3; 4; 5; 6; 9; 10; 11; 3999; 4000; 4001; 999999; 1000000; 1000001].

(** examples/previews.rs:254-256 *)
Definition additive_values : list N := [1; 2; 3; 9; 10; 11; 12; 99; 100; 101].

(** examples/previews.rs:300-302 *)
Definition cjk_values : list N := [0; 1; 2; 9; 10; 11; 19; 20; 21; 99; 100; 101].

(** ** One table *)

(** [nominal.graphemes(true).map(|g| g.width().min(2)).sum::<usize>()]
    (examples/previews.rs:113-116, 149-152) *)
Fixpoint sum_widths (c : config) (env : surroundings) (sum : N) (gs : list (list N)) : outcome N :=
  match gs with
  | [] => Ret sum
  | g :: gs =>
    sum <- uadd c (usize_bits c) sum (N.min (width_of env g) 2) ;;
    sum_widths c env sum gs
  end.

Definition unicode_width (c : config) (env : surroundings) (s : nominal_string) : outcome N :=
  str <- as_str s ;;
  sum_widths c env 0 (graphemes env str).

(** The variables of the first loop, with [results] in reverse. *)
Record scanned := {
  results : list (nominal_string * nominal_string);
  max_decimal_width : N;
  nominal_pad : N;
  previous_value : option N
}.

(** examples/previews.rs:106-120 *)
Definition scan_value (c : config) (env : surroundings) (system : previewable) (st : scanned) (value : N)
  : outcome scanned :=
  gap <- match previous_value st with
         | None => Ret false
         | Some previous => next <- uadd c 32 previous 1 ;; Ret (negb (next =? value))
         end ;;
  before <- (if (gap : bool) then
               left <- from_char c 0x2026 ;;
               right <- from_char c 0x2026 ;;
               Ret ((left, right) :: results st)
             else Ret (results st)) ;;
  decimal <- to_nominal value (default_system c U32 (try_format_digits c U32 Decimal)) ;;
  digits <- as_str decimal ;;
  nominal <- format_nominal (shown_by system) value ;;
  columns <- unicode_width c env nominal ;;
  Ret {| results := (decimal, nominal) :: before;
         max_decimal_width := N.max (max_decimal_width st) (N.of_nat (List.length digits));
         nominal_pad := N.max (nominal_pad st) columns;
         previous_value := Some value |}.

(** examples/previews.rs:105-121 *)
Fixpoint scan (c : config) (env : surroundings) (system : previewable) (st : scanned) (values : list N)
  : outcome scanned :=
  match values with
  | [] => Ret st
  | value :: values =>
    st <- scan_value c env system st value ;;
    scan c env system st values
  end.

(** [{:w$}] and [{:-^w$}] *)
Definition padded_to (w : N) : format_options :=
  {| width := Some w; precision := None; fill := 0x20; align := None; alternate := false |}.
Definition ruled_to (w : N) : format_options :=
  {| width := Some w; precision := None; fill := 0x2D; align := Some AlignCenter; alternate := false |}.

(** A [str] in a placeholder. *)
Definition placeholder (f : format_options) (str : list N) : outcome (list N) :=
  ws <- pad f str ;;
  Ret (flat_map written ws).

Definition newline : list N := [0x0A].

(** examples/previews.rs:142-158: what is handed to [print], and [one_line]. *)
Fixpoint print_rows (c : config) (env : surroundings) (max_decimal_width nominal_pad : N)
    (rows : list (nominal_string * nominal_string)) (printed one_line : list N) : outcome (list N * list N) :=
  match rows with
  | [] => Ret (printed, one_line)
  | (decimal, nominal) :: rows =>
    let separated := match one_line with
                     | [] => one_line
                     | _ => one_line ++ utf8 [0x200E] ++ bytes " "
                     end in
    str <- as_str nominal ;;
    cs <- str_chars str ;;
    columns <- unicode_width c env nominal ;;
    wide <- uadd c (usize_bits c) nominal_pad (N.of_nat (List.length cs)) ;;
    own_pad <- usub c (usize_bits c) wide columns ;;
    left <- display (padded_to max_decimal_width) decimal ;;
    right <- display (padded_to own_pad) nominal ;;
    print_rows c env max_decimal_width nominal_pad rows
      (printed ++ bytes "| " ++ left ++ bytes " | " ++ right ++ bytes " |" ++ newline)
      (separated ++ str)
  end.

(** What a call of [preview] prints, writes to [file_name].md if that is open,
    and returns. *)
Record previewed := {
  file_name : list N;
  to_stdout : list N;
  to_file : list N;
  link : list N;
  one_line : list N
}.

(** examples/previews.rs:95-161; [print] (:163-170) writes to both. *)
Definition preview (c : config) (env : surroundings) (system : previewable) : outcome previewed :=
  let name := last_type_name (own_name system) in
  values <- preview_values system ;;
  st <- scan c env system
          {| results := []; max_decimal_width := 1; nominal_pad := N.of_nat (List.length name);
             previous_value := None |} values ;;
  quirk <- uadd c (usize_bits c) (N.of_nat (List.length name)) 4 ;;
  let header_pad := if quirk =? nominal_pad st then N.of_nat (List.length name) else nominal_pad st in
  number_sign <- placeholder (padded_to (max_decimal_width st)) (bytes "#") ;;
  header <- placeholder (padded_to header_pad) name ;;
  left_rule <- placeholder (ruled_to (max_decimal_width st)) [] ;;
  right_rule <- placeholder (ruled_to (nominal_pad st)) [] ;;
  '(printed, line) <- print_rows c env (max_decimal_width st) (nominal_pad st) (rev (results st))
    (bytes "| " ++ number_sign ++ bytes " | " ++ header ++ bytes " |" ++ newline ++
     bytes "|-" ++ left_rule ++ bytes "-|-" ++ right_rule ++ bytes "-|" ++ newline) [] ;;
  Ret {| file_name := name;
         to_stdout := printed ++ newline;
         to_file := bytes "# " ++ name ++ newline ++ newline ++ printed;
         link := doc_link system;
         one_line := line |}.

(** ** The program *)

(** examples/previews.rs:26-76, with the values of :258-368. The path of a type
    is what rustc's [type_name] says. *)
Definition previewed_systems (c : config) : list previewable :=
  [digit_preview c "nominals::digital::Decimal" Decimal;
   digit_preview c "nominals::digital::LetterLower" LetterLower;
   digit_preview c "nominals::digital::LetterUpper" LetterUpper;
   plain_preview c "nominals::additive::RomanLower" roman_values RomanLower;
   plain_preview c "nominals::additive::RomanUpper" roman_values RomanUpper;
   plain_preview c "nominals::enumerated::CircledNumber" [0; 1; 2; 3; 4; 9; 10; 11; 12; 48; 49; 50] CircledNumber;
   plain_preview c "nominals::enumerated::DoubleCircledNumber" (range 1 11) DoubleCircledNumber;
   plain_preview c "nominals::additive::ArmenianLower" additive_values ArmenianLower;
   plain_preview c "nominals::additive::ArmenianUpper" additive_values ArmenianUpper;
   digit_preview c "nominals::digital::Bengali" Bengali;
   digit_preview c "nominals::digital::Cambodian" Cambodian;
   plain_preview c "nominals::chinese::SimplifiedChineseInformal" cjk_values (SimplifiedChineseInformal default_options);
   plain_preview c "nominals::chinese::TraditionalChineseInformal" cjk_values (TraditionalChineseInformal default_options);
   plain_preview c "nominals::chinese::SimplifiedChineseFormal" cjk_values (SimplifiedChineseFormal default_options);
   plain_preview c "nominals::chinese::TraditionalChineseFormal" cjk_values (TraditionalChineseFormal default_options);
   digit_preview c "nominals::digital::CjkDecimal" CjkDecimal;
   digit_preview c "nominals::digital::CjkEarthlyBranch" CjkEarthlyBranch;
   digit_preview c "nominals::digital::CjkHeavenlyStem" CjkHeavenlyStem;
   digit_preview c "nominals::digital::Devanagari" Devanagari;
   digit_preview c "nominals::digital::EasternArabic" EasternArabic;
   plain_preview c "nominals::ethiopic::Ethiopic" [1; 2; 3; 10; 11; 12; 99; 100; 101; 999; 1000; 1001] Ethiopic;
   plain_preview c "nominals::additive::Georgian" additive_values Georgian;
   digit_preview c "nominals::digital::GreekLower" GreekLower;
   digit_preview c "nominals::digital::GreekUpper" GreekUpper;
   digit_preview c "nominals::digital::Gujarati" Gujarati;
   digit_preview c "nominals::digital::Gurmukhi" Gurmukhi;
   plain_preview c "nominals::additive::HanjaInformal" cjk_values HanjaInformal;
   plain_preview c "nominals::additive::HangeulFormal" cjk_values HangeulFormal;
   digit_preview c "nominals::digital::HangeulJamo" HangeulJamo;
   digit_preview c "nominals::digital::HangeulSyllable" HangeulSyllable;
   plain_preview c "nominals::additive::HanjaFormal" cjk_values HanjaFormal;
   plain_preview c "nominals::hebrew::Hebrew" [1; 2; 3; 9; 10; 13; 14; 15; 16; 17; 396; 397; 398; 399; 400] Hebrew;
   digit_preview c "nominals::digital::HexLower" (HexLower c);
   digit_preview c "nominals::digital::HexUpper" (HexUpper c);
   digit_preview c "nominals::digital::Hiragana" Hiragana;
   digit_preview c "nominals::digital::HiraganaIroha" HiraganaIroha;
   plain_preview c "nominals::additive::JapaneseFormal" cjk_values JapaneseFormal;
   plain_preview c "nominals::additive::JapaneseInformal" cjk_values JapaneseInformal;
   digit_preview c "nominals::digital::Kannada" Kannada;
   digit_preview c "nominals::digital::Katakana" Katakana;
   digit_preview c "nominals::digital::KatakanaIroha" KatakanaIroha;
   digit_preview c "nominals::digital::Lao" Lao;
   digit_preview c "nominals::digital::Malayalam" Malayalam;
   digit_preview c "nominals::digital::Mongolian" Mongolian;
   digit_preview c "nominals::digital::Myanmar" Myanmar;
   digit_preview c "nominals::digital::Oriya" Oriya;
   digit_preview c "nominals::digital::Persian" Persian;
   digit_preview c "nominals::digital::Tamil" Tamil;
   digit_preview c "nominals::digital::Telugu" Telugu;
   digit_preview c "nominals::digital::Thai" Thai;
   digit_preview c "nominals::digital::Tibetan" Tibetan].

(** What is on standard output at the end, and the files, by name without
    extension, in the order in which they were opened. *)
Record program_output := {
  stdout : list N;
  files : list (list N * list N)
}.

(** examples/previews.rs:23-80: all tables are printed before the first line
    of the index; [open_preview_file_if_saving] (:82-93) opens nothing unless
    SAVE is set. *)
Definition main (c : config) (env : surroundings) : outcome program_output :=
  tables <- each (preview c env) (previewed_systems c) ;;
  let index := flat_map (fun t => bytes "- " ++ link t ++ bytes ": " ++ one_line t ++ newline) tables in
  Ret {| stdout := flat_map to_stdout tables ++ index;
         files := if saving env
                  then (bytes "index", index) :: map (fun t => (file_name t, to_file t)) tables
                  else [] |}.
