(** * PreviewRun: examples/previews.rs as the actions it takes

    [Previews.v] says what is printed and written when nothing fails. Here are
    the single calls, in order; each is followed by [expect], so the program
    ends at the first that fails. What the program computes in between does
    not depend on them, and never panics (C84). *)

From Coq Require Import String.
From Verif Require Import Base Utf8 NominalString Digital System Format Previews.

(** Files by name, without directory and extension. *)
Inductive action :=
| MakeDirectory
| Open (name : list N)
| Print (text : list N)
| WriteFile (name text : list N).

(** examples/previews.rs:82-93  [open_preview_file_if_saving] *)
Definition open_if_saving (env : surroundings) (name : list N) : list action :=
  MakeDirectory :: if saving env then [Open name] else [].

(** examples/previews.rs:163-170  [print] *)
Definition print (env : surroundings) (file text : list N) : list action :=
  Print text :: if saving env then [WriteFile file text] else [].

(** examples/previews.rs:142-158 *)
Fixpoint row_actions (c : config) (env : surroundings) (name : list N) (max_decimal_width nominal_pad : N)
    (rows : list (nominal_string * nominal_string)) (one_line : list N) : outcome (list action * list N) :=
  match rows with
  | [] => Ret ([], one_line)
  | (decimal, nominal) :: rows =>
    let separated := match one_line with
                     | [] => one_line
                     | _ => one_line ++ utf8 [0x200E] ++ bytes " "
                     end in
    str <- as_str nominal ;;
    cs <- str_chars str ;;
    columns <- unicode_width c env nominal ;;
    wide <- uadd c (usize_bits c) nominal_pad (N.of_nat (List.length cs)) ;;
    own_pad <- usub c (usize_bits c) wide columns ;;
    left <- display (padded_to max_decimal_width) decimal ;;
    right <- display (padded_to own_pad) nominal ;;
    '(actions, one_line) <- row_actions c env name max_decimal_width nominal_pad rows (separated ++ str) ;;
    Ret (print env name (bytes "| " ++ left ++ bytes " | " ++ right ++ bytes " |" ++ newline) ++ actions, one_line)
  end.

(** examples/previews.rs:95-161; also the link and the line for the index *)
Definition preview_actions (c : config) (env : surroundings) (system : previewable)
  : outcome (list action * (list N * list N)) :=
  let name := last_type_name (own_name system) in
  values <- preview_values system ;;
  st <- scan c env system
          {| results := []; max_decimal_width := 1; nominal_pad := N.of_nat (List.length name);
             previous_value := None |} values ;;
  quirk <- uadd c (usize_bits c) (N.of_nat (List.length name)) 4 ;;
  let header_pad := if quirk =? nominal_pad st then N.of_nat (List.length name) else nominal_pad st in
  number_sign <- placeholder (padded_to (max_decimal_width st)) (bytes "#") ;;
  header <- placeholder (padded_to header_pad) name ;;
  left_rule <- placeholder (ruled_to (max_decimal_width st)) [] ;;
  right_rule <- placeholder (ruled_to (nominal_pad st)) [] ;;
  '(rows, line) <- row_actions c env name (max_decimal_width st) (nominal_pad st) (rev (results st)) [] ;;
  Ret (open_if_saving env name ++
       (if saving env then [WriteFile name (bytes "# " ++ name ++ newline ++ newline)] else []) ++
       print env name (bytes "| " ++ number_sign ++ bytes " | " ++ header ++ bytes " |" ++ newline) ++
       print env name (bytes "|-" ++ left_rule ++ bytes "-|-" ++ right_rule ++ bytes "-|" ++ newline) ++
       rows ++ [Print newline],
       (doc_link system, line)).

(** examples/previews.rs:23-80 *)
Definition main_actions (c : config) (env : surroundings) : outcome (list action) :=
  tables <- each (preview_actions c env) (previewed_systems c) ;;
  Ret (open_if_saving env (bytes "index") ++ flat_map fst tables ++
       flat_map (fun '(_, (name, summary)) => print env (bytes "index") (bytes "- " ++ name ++ bytes ": " ++ summary ++ newline)) tables).

(** ** What the actions do *)

(** Standard output and the contents of the files that exist. *)
Record disk := {
  output : list N;
  content : list N -> option (list N)
}.

Definition set_content (d : disk) (name : list N) (text : option (list N)) : disk :=
  {| output := output d;
     content := fun other => if bytes_eqb other name then text else content d other |}.

(** An action that succeeds. A file is created or emptied when opened; the
    handle stays at its end. *)
Definition does (d : disk) (a : action) : disk :=
  match a with
  | MakeDirectory => d
  | Open name => set_content d name (Some [])
  | Print text => {| output := output d ++ text; content := content d |}
  | WriteFile name text =>
    set_content d name (match content d name with Some old => Some (old ++ text) | None => None end)
  end.

(** An action that fails may have written the beginning of its text, or have
    opened the file. *)
Definition fails (d : disk) (a : action) (d' : disk) : Prop :=
  match a with
  | MakeDirectory => d' = d
  | Open name => d' = d \/ d' = does d (Open name)
  | Print text => exists got missing, text = got ++ missing /\ d' = does d (Print got)
  | WriteFile name text => exists got missing, text = got ++ missing /\ d' = does d (WriteFile name got)
  end.

(** A run: [true] if it reached the end, [false] if it panicked. *)
Inductive runs : disk -> list action -> disk -> bool -> Prop :=
| runs_end d : runs d [] d true
| runs_on d a actions d' ok : runs (does d a) actions d' ok -> runs d (a :: actions) d' ok
| runs_stop d a actions d' : fails d a d' -> runs d (a :: actions) d' false.
