(** * PropertiesPreviews: C82 and C83, the tables the preview program prints
    (examples/previews.rs) *)

From Coq Require Import String.
From Verif Require Import Prelude Utf8Facts StringFacts History Outcome DigitFacts DigitOrder DigitSets PropertiesDigital
  PropertiesSystem PropertiesFormat PropertiesPreviewValues Additive Format System Previews Cases.

(** ** What is expected *)

(** Graphemes are pieces of at least one character that make up the text. *)
Definition sound_graphemes (env : surroundings) : Prop :=
  forall cs, scalars cs -> exists pieces,
    graphemes env (utf8 cs) = map utf8 pieces /\ concat pieces = cs /\ Forall (fun piece => piece <> []) pieces.

(** The columns a text takes: no grapheme more than two. *)
Definition columns (env : surroundings) (cs : list N) : N :=
  fold_right N.add 0 (map (fun g => N.min (width_of env g) 2) (graphemes env (utf8 cs))).

(** What the system has to say about a number. *)
Definition says (system : previewable) (v : N) (cs : list N) : Prop :=
  exists s, format_nominal (shown_by system) v = Ret s /\ as_str s = Ret (utf8 cs) /\ scalars cs.

(** A number with its decimal numeral and its text. *)
Definition entry : Type := N * (list N * list N).

Definition is_entry (system : previewable) (v : N) (e : entry) : Prop :=
  fst e = v /\ decimal_numeral v (fst (snd e)) /\ says system v (snd (snd e)).

Definition ellipsis : list N * list N := ([0x2026], [0x2026]).

(** One row per number, and one with ellipses wherever numbers are left out. *)
Fixpoint table_rows (previous : option N) (entries : list entry) : list (list N * list N) :=
  match entries with
  | [] => []
  | (v, row) :: entries =>
    match previous with
    | Some u => if v =? u + 1 then [] else [ellipsis]
    | None => []
    end ++ row :: table_rows (Some v) entries
  end.

Definition widest (least : N) (l : list N) : N := fold_right N.max least l.

Definition len {A} (l : list A) : N := N.of_nat (length l).

Definition times (n : N) (ch : N) : list N := repeat ch (N.to_nat n).

Definition left_width (entries : list entry) : N := widest 1 (map (fun e => len (fst (snd e))) entries).

Definition right_width (env : surroundings) (name : list N) (entries : list entry) : N :=
  widest (len name) (map (fun e => columns env (snd (snd e))) entries).

Definition space : N := 0x20.

(** A row: both cells filled up with spaces. *)
Definition table_line (env : surroundings) (w1 w2 : N) (row : list N * list N) : list N :=
  chars "| " ++ fst row ++ times (w1 - len (fst row)) space ++ chars " | " ++
  snd row ++ times (w2 - columns env (snd row)) space ++ chars " |" ++ [0x0A].

Definition table_header (name : list N) (w1 w2 : N) : list N :=
  chars "| #" ++ times (w1 - 1) space ++ chars " | " ++
  name ++ times ((if w2 =? len name + 4 then len name else w2) - len name) space ++ chars " |" ++ [0x0A].

Definition table_rule (w1 w2 : N) : list N :=
  chars "|-" ++ times w1 0x2D ++ chars "-|-" ++ times w2 0x2D ++ chars "-|" ++ [0x0A].

Definition table (env : surroundings) (name : list N) (entries : list entry) : list N :=
  let w1 := left_width entries in
  let w2 := right_width env name entries in
  table_header name w1 w2 ++ table_rule w1 w2 ++ flat_map (table_line env w1 w2) (table_rows None entries).

(** The texts one after the other. *)
Fixpoint separated (separator : list N) (texts : list (list N)) : list N :=
  match texts with
  | [] => []
  | [text] => text
  | text :: texts => text ++ separator ++ separated separator texts
  end.

(** ** Widths *)

Lemma sum_widths_ret c env : forall gs sum, sum + 2 * len gs < 2 ^ usize_bits c ->
  sum_widths c env sum gs = Ret (sum + fold_right N.add 0 (map (fun g => N.min (width_of env g) 2) gs)).
Proof.
  induction gs as [|g gs IH]; intros sum H; cbn [sum_widths map fold_right]; [f_equal; lia|].
  unfold len in *. cbn [length] in H.
  rewrite uadd_ret by lia. cbn [obind]. rewrite IH by lia. f_equal. lia.
Qed.

Lemma pieces_short {A} (pieces : list (list A)) : Forall (fun p => p <> []) pieces -> (length pieces <= length (concat pieces))%nat.
Proof.
  induction 1 as [|p ps Hp _ IH]; [cbn; lia|]. cbn [concat length]. rewrite app_length. destruct p; [contradiction|]. cbn [length]. lia.
Qed.

Lemma graphemes_short env cs : sound_graphemes env -> scalars cs -> len (graphemes env (utf8 cs)) <= len cs.
Proof.
  intros Hg Hs. destruct (Hg cs Hs) as (pieces & -> & <- & Hp). unfold len. rewrite map_length. pose proof (pieces_short pieces Hp). lia.
Qed.

Lemma columns_bound env cs : sound_graphemes env -> scalars cs -> columns env cs <= 2 * len cs.
Proof.
  intros Hg Hs. pose proof (graphemes_short env cs Hg Hs) as H. unfold columns, len in *.
  assert (forall gs, fold_right N.add 0 (map (fun g => N.min (width_of env g) 2) gs) <= 2 * N.of_nat (length gs)) as Hb.
  { induction gs as [|g gs IH]; cbn [map fold_right length]; lia. }
  specialize (Hb (graphemes env (utf8 cs))). lia.
Qed.

Lemma unicode_width_ret c env s cs : sound_graphemes env -> scalars cs -> as_str s = Ret (utf8 cs) ->
  2 * len cs < 2 ^ usize_bits c -> unicode_width c env s = Ret (columns env cs).
Proof.
  intros Hg Hs E H. unfold unicode_width. rewrite E. cbn [obind]. pose proof (graphemes_short env cs Hg Hs).
  rewrite sum_widths_ret by lia. reflexivity.
Qed.

(** ** Padding *)

Lemma placeholder_padded w cs : scalars cs ->
  placeholder (padded_to w) (utf8 cs) = Ret (utf8 (cs ++ times (w - len cs) space)).
Proof.
  intros Hs. destruct (pad_placed (padded_to w) cs Hs) as (out & E & (b & kept & rest & a & (Ht & Hp & Hl & Ha) & ->)).
  unfold placeholder. rewrite E. cbn [padded_to precision align width fill] in *. subst rest b. rewrite app_nil_r in Ht. subst kept.
  assert (a = N.to_nat (w - len cs)) as -> by (unfold len; lia). reflexivity.
Qed.

Lemma placeholder_ruled w : placeholder (ruled_to w) [] = Ret (utf8 (times w 0x2D)).
Proof.
  assert (scalars []) as Hs by constructor.
  destruct (pad_placed (ruled_to w) [] Hs) as (out & E & (b & kept & rest & a & (Ht & Hp & Hl & Ha) & ->)).
  unfold placeholder. change (utf8 []) with (@nil N) in E. rewrite E.
  cbn [ruled_to precision align width fill] in *. symmetry in Ht. apply app_eq_nil in Ht as [-> ->].
  cbn [app length] in *. rewrite <- repeat_app. assert (b + a = N.to_nat w)%nat as -> by lia. reflexivity.
Qed.

Lemma display_padded w s cs : scalars cs -> as_str s = Ret (utf8 cs) ->
  display (padded_to w) s = Ret (utf8 (cs ++ times (w - len cs) space)).
Proof.
  intros Hs E. unfold display, display_writes. rewrite E. cbn [obind]. apply placeholder_padded, Hs.
Qed.

(** ** The first loop *)

Lemma decimal_text c v : valid_config c -> v < 2 ^ 32 -> forall ds, decimal_numeral v ds ->
  exists s, to_nominal v (default_system c U32 (try_format_digits c U32 Decimal)) = Ret s /\ as_str s = Ret (utf8 ds).
Proof.
  intros Hc Hv ds Hd.
  assert (fits c U32 v) as Hf by exact Hv.
  destruct (decimal_prints c U32 v Hc Hf) as (ds' & Hd' & Hp).
  assert (ds' = ds) as ->.
  { exact (digit_numeral_fun true true (ten_from ascii_zero) v ds' ds Hd' Hd). }
  unfold prints in Hp. rewrite (decimal_short v ds (fits_128 c U32 v Hc Hf) Hd), orb_true_r in Hp.
  destruct Hp as (s & E & Es & _). exists s. split; [|exact Es]. unfold to_nominal, default_system. cbn [format_nominal]. rewrite E. reflexivity.
Qed.

Lemma decimal_bytes v ds : decimal_numeral v ds -> scalars ds /\ length (utf8 ds) = length ds.
Proof.
  intros (ks & Hb & _ & _ & ->). change (N.of_nat (length (ten_from ascii_zero))) with 10 in Hb. split.
  - apply map_digits_scalars; [apply scalars_check; vm_compute; reflexivity|exact Hb].
  - pose proof (ascii_digits_len ks Hb) as H. unfold utf8_len in H. rewrite map_length. lia.
Qed.

(** Pairs of strings and what they read. *)
Definition reads_row (strs : nominal_string * nominal_string) (row : list N * list N) : Prop :=
  as_str (fst strs) = Ret (utf8 (fst row)) /\ as_str (snd strs) = Ret (utf8 (snd row)) /\
  scalars (fst row) /\ scalars (snd row).

Lemma ellipsis_string c : valid_config c -> exists s, from_char c 0x2026 = Ret s /\ as_str s = Ret (utf8 [0x2026]).
Proof.
  intros Hc. destruct (from_char_text c 0x2026 eq_refl) as (s & E & Ht). exists s. split; [exact E|]. eapply rep_str, Ht.
Qed.

Lemma scan_entries c env system : valid_config c -> sound_graphemes env -> forall vs entries st rows,
  Forall2 (is_entry system) vs entries ->
  Forall (fun v => v < 2 ^ 32) vs -> Forall (fun v => v + 1 < 2 ^ 32) (removelast vs) ->
  (forall u, previous_value st = Some u -> vs <> [] -> u + 1 < 2 ^ 32) ->
  Forall (fun e => 2 * len (snd (snd e)) < 2 ^ usize_bits c) entries ->
  Forall2 reads_row (results st) rows ->
  exists st', scan c env system st vs = Ret st' /\
    Forall2 reads_row (results st') (rev (table_rows (previous_value st) entries) ++ rows) /\
    max_decimal_width st' = widest (max_decimal_width st) (map (fun e => len (fst (snd e))) entries) /\
    nominal_pad st' = widest (nominal_pad st) (map (fun e => columns env (snd (snd e))) entries).
Proof.
  intros Hc Hg. induction vs as [|v vs IH]; intros entries st rows HF Hv Hnext Hprev Hshort Hrows; inversion HF as [|? e ? entries' He HF' E1 E2]; subst.
  { exists st. split; [reflexivity|]. split; [exact Hrows|]. split; reflexivity. }
  apply Forall_cons_iff in Hv as [Hv Hvs]. apply Forall_cons_iff in Hshort as [Hs Hss].
  destruct e as [v' [ds cs]]. destruct He as (Ev & Hd & (s & Es & Et & Hsc)). cbn [fst snd] in *. subst v'.
  destruct (decimal_text c v Hc Hv ds Hd) as (sd & Esd & Etd). destruct (decimal_bytes v ds Hd) as [Hsd Hlen].
  cbn [scan]. unfold scan_value at 1.
  assert (exists before, (gap <- match previous_value st with
         | None => Ret false
         | Some previous => next <- uadd c 32 previous 1 ;; Ret (negb (next =? v))
         end ;;
    (if (gap : bool) then
               left <- from_char c 0x2026 ;;
               right <- from_char c 0x2026 ;;
               Ret ((left, right) :: results st)
             else Ret (results st))) = Ret before /\
     Forall2 reads_row before (match previous_value st with
    | Some u => if v =? u + 1 then [] else [ellipsis]
    | None => []
    end ++ rows)) as (before & Ebefore & Hbefore).
  { destruct (previous_value st) as [u|] eqn:Eu; [|exists (results st); split; [reflexivity|exact Hrows]].
    rewrite uadd_ret by (apply (Hprev u eq_refl); discriminate). cbn [obind]. rewrite (N.eqb_sym (u + 1)).
    destruct (v =? u + 1); cbn [negb]; [exists (results st); split; [reflexivity|exact Hrows]|].
    destruct (ellipsis_string c Hc) as (se & Ee & Ete). rewrite Ee. cbn [obind]. eexists. split; [reflexivity|]. cbn [app]. constructor; [|exact Hrows].
    unfold reads_row, ellipsis. cbn [fst snd]. assert (scalars [0x2026]) by (apply scalars_check; reflexivity). auto. }
  destruct (match previous_value st with
         | None => Ret false
         | Some previous => next <- uadd c 32 previous 1 ;; Ret (negb (next =? v))
         end) as [gap| | |] eqn:Egap; cbn [obind] in Ebefore |- *; try discriminate.
  rewrite Ebefore. cbn [obind]. rewrite Esd. cbn [obind]. rewrite Etd. cbn [obind]. rewrite Es. cbn [obind].
  rewrite (unicode_width_ret c env s cs Hg Hsc Et Hs). cbn [obind].
  destruct (IH entries' {| results := (sd, s) :: before;
     max_decimal_width := N.max (max_decimal_width st) (N.of_nat (length (utf8 ds)));
     nominal_pad := N.max (nominal_pad st) (columns env cs); previous_value := Some v |}
     ((ds, cs) :: match previous_value st with Some u => if v =? u + 1 then [] else [ellipsis] | None => [] end ++ rows)) as (st' & E' & Hr' & Hm' & Hn'); try assumption.
  - destruct vs; [constructor|]. apply Forall_cons_iff in Hnext as [_ Hnext]. exact Hnext.
  - cbn [previous_value]. intros u Eu Hne. injection Eu as <-. destruct vs; [contradiction|]. apply Forall_cons_iff in Hnext as [Hn _]. exact Hn.
  - cbn [results]. constructor; [|exact Hbefore]. split; [exact Etd|]. split; [exact Et|]. split; [exact Hsd|exact Hsc].
  - exists st'. split; [exact E'|]. cbn [results max_decimal_width nominal_pad previous_value] in *.
    split; [|split].
    + cbn [table_rows]. rewrite rev_app_distr. cbn [rev]. rewrite <- !app_assoc. cbn [app].
      replace (rev (match previous_value st with Some u => if v =? u + 1 then [] else [ellipsis] | None => [] end))
        with (match previous_value st with Some u => if v =? u + 1 then [] else [ellipsis] | None => [] end); [exact Hr'|].
      destruct (previous_value st); [destruct (_ =? _)|]; reflexivity.
    + rewrite Hm', Hlen. unfold widest. cbn [map fold_right fst snd]. fold (len ds).
      generalize (map (fun e : N * (list N * list N) => len (fst (snd e))) entries'). intros l. induction l as [|x l IHl]; cbn [fold_right]; lia.
    + rewrite Hn'. unfold widest. cbn [map fold_right fst snd].
      generalize (map (fun e : N * (list N * list N) => columns env (snd (snd e))) entries'). intros l. induction l as [|x l IHl]; cbn [fold_right]; lia.
Qed.

(** ** The second loop *)

Definition next_line (line text : list N) : list N :=
  match line with [] => line | _ => line ++ utf8 [0x200E; space] end ++ utf8 text.

Lemma print_rows_ret c env w1 w2 : sound_graphemes env -> forall strs rows printed line,
  Forall2 reads_row strs rows ->
  Forall (fun row => 2 * len (snd row) < 2 ^ usize_bits c /\ w2 + len (snd row) < 2 ^ usize_bits c /\
    columns env (snd row) <= w2 + len (snd row)) rows ->
  print_rows c env w1 w2 strs printed line =
    Ret (printed ++ utf8 (flat_map (table_line env w1 w2) rows), fold_left next_line (map snd rows) line).
Proof.
  intros Hg. induction strs as [|[sa sb] strs IH]; intros rows printed line HF Hok; inversion HF as [|? row ? rows' Hr HF' E1 E2]; subst.
  { cbn. rewrite app_nil_r. reflexivity. }
  apply Forall_cons_iff in Hok as [(Hl1 & Hl2 & Hcol) Hok]. destruct row as [ca cb]. destruct Hr as (Ea & Eb & Hsa & Hsb). cbn [fst snd] in *.
  cbn [print_rows]. rewrite Eb. cbn [obind]. unfold str_chars. rewrite (decode_utf8 cb Hsb). cbn [obind].
  rewrite (unicode_width_ret c env sb cb Hg Hsb Eb Hl1). cbn [obind].
  rewrite uadd_ret by exact Hl2. cbn [obind]. rewrite usub_ret by exact Hcol. cbn [obind].
  rewrite (display_padded w1 sa ca Hsa Ea). cbn [obind]. rewrite (display_padded _ sb cb Hsb Eb). cbn [obind].
  rewrite (IH rows') by assumption. f_equal. f_equal.
  cbn [flat_map]. unfold table_line at 2. cbn [fst snd]. rewrite !utf8_app, <- !app_assoc. fold (len cb).
  replace (w2 + len cb - columns env cb - len cb) with (w2 - columns env cb) by lia. reflexivity.
Qed.

Lemma table_line_fold texts : forall line, line <> [] ->
  fold_left next_line texts line = line ++ utf8 (flat_map (fun text => [0x200E; space] ++ text) texts).
Proof.
  induction texts as [|t texts IH]; intros line Hne; cbn [fold_left flat_map]; [symmetry; apply app_nil_r|].
  assert (next_line line t = line ++ utf8 ([0x200E; space] ++ t)) as E.
  { unfold next_line. destruct line; [contradiction|]. rewrite utf8_app, <- app_assoc. reflexivity. }
  rewrite IH.
  - rewrite E, <- app_assoc, <- utf8_app. reflexivity.
  - rewrite E. intros H. apply app_eq_nil in H as [H _]. contradiction.
Qed.

Lemma separated_fold texts : Forall (fun t => t <> []) texts ->
  fold_left next_line texts [] = utf8 (separated [0x200E; space] texts).
Proof.
  destruct texts as [|t texts]; intros H; [reflexivity|]. cbn [fold_left].
  apply Forall_cons_iff in H as [Ht _]. unfold next_line at 2. cbn [app]. rewrite table_line_fold.
  - rewrite <- utf8_app. f_equal. clear Ht. revert t. induction texts as [|t' texts IH]; intros t; [apply app_nil_r|].
    cbn [flat_map]. change (separated [0x200E; space] (t :: t' :: texts)) with (t ++ [0x200E; space] ++ separated [0x200E; space] (t' :: texts)).
    rewrite <- IH, <- app_assoc. reflexivity.
  - intros E. apply utf8_nil_inv in E. contradiction.
Qed.

(** ** C82 *)

(** A name of ASCII characters. *)
Definition plain_name (name : list N) : Prop := name <> [] /\ Forall (fun ch => ch < 0x80) name.

Lemma ascii_utf8 name : Forall (fun ch => ch < 0x80) name -> utf8 name = name /\ scalars name.
Proof.
  induction 1 as [|ch name Hch _ [IH1 IH2]]; [split; [reflexivity|constructor]|]. split.
  - rewrite utf8_cons, IH1. unfold encode_char. apply N.ltb_lt in Hch. rewrite Hch. reflexivity.
  - constructor; [|exact IH2]. unfold is_scalar. assert (ch <? 0xD800 = true) as -> by (apply N.ltb_lt; lia). reflexivity.
Qed.

Lemma widest_least a l : a <= widest a l.
Proof. unfold widest. induction l as [|x l IH]; cbn [fold_right]; lia. Qed.

Lemma widest_in a l x : In x l -> x <= widest a l.
Proof. unfold widest. induction l as [|y l IH]; [contradiction|]. cbn [fold_right]. intros [->|H]; [lia|]. specialize (IH H). lia. Qed.

Lemma widest_bound a l b : a <= b -> Forall (fun x => x <= b) l -> widest a l <= b.
Proof. unfold widest. intros Ha. induction 1; cbn [fold_right]; lia. Qed.

Lemma rows_are previous entries row : In row (table_rows previous entries) ->
  row = ellipsis \/ exists v, In (v, row) entries.
Proof.
  revert previous. induction entries as [|[v r] entries IH]; intros previous H; [contradiction|]. cbn [table_rows] in H.
  apply in_app_iff in H as [H|[->|H]].
  - left. destruct previous; [|contradiction]. destruct (_ =? _); [contradiction|]. destruct H as [<-|[]]. reflexivity.
  - right. exists v. left. reflexivity.
  - destruct (IH _ H) as [?|(v' & H')]; [auto|]. right. exists v'. right. exact H'.
Qed.

Lemma is_entry_in system vs entries e : Forall2 (is_entry system) vs entries -> In e entries ->
  decimal_numeral (fst e) (fst (snd e)) /\ says system (fst e) (snd (snd e)).
Proof. intros HF. induction HF as [|v x vs xs (E & Hd & Hs) _ IH]; [contradiction|]. intros [<-|H]; [subst; auto|auto]. Qed.

Lemma ellipsis_columns env : sound_graphemes env -> columns env (snd ellipsis) <= 2.
Proof.
  intros Hg. assert (scalars [0x2026]) as H by (apply scalars_check; reflexivity).
  pose proof (columns_bound env [0x2026] Hg H). unfold ellipsis. cbn [snd]. unfold len in *. cbn [length] in *. lia.
Qed.

Lemma Forall2_rev {A B} (R : A -> B -> Prop) l l' : Forall2 R l l' -> Forall2 R (rev l) (rev l').
Proof. induction 1; cbn [rev]; [constructor|]. apply Forall2_app; [assumption|]. constructor; [assumption|constructor]. Qed.

Lemma preview_ret c env system vs entries :
  valid_config c -> sound_graphemes env -> plain_name (last_type_name (own_name system)) ->
  preview_values system = Ret vs -> Forall2 (is_entry system) vs entries ->
  Forall (fun v => v < 2 ^ 32) vs -> Forall (fun v => v + 1 < 2 ^ 32) (removelast vs) ->
  len (last_type_name (own_name system)) < 2 ^ (usize_bits c - 3) ->
  Forall (fun e => len (snd (snd e)) < 2 ^ (usize_bits c - 3)) entries ->
  let name := last_type_name (own_name system) in
  preview c env system = Ret
    {| file_name := name;
       to_stdout := utf8 (table env name entries ++ [0x0A]);
       to_file := utf8 (chars "# " ++ name ++ [0x0A; 0x0A] ++ table env name entries);
       link := markdown_link (last_type_name (linked_name system));
       one_line := fold_left next_line (map snd (table_rows None entries)) [] |}.
Proof.
  intros Hc Hg [Hne Hascii] Hvs HF Hv Hnext Hname Hshort name. fold name in Hne, Hascii, Hname.
  assert (2 ^ usize_bits c = 8 * 2 ^ (usize_bits c - 3)) as Hpow.
  { destruct Hc as [Hb _]. assert (3 <= usize_bits c) by lia. rewrite <- (N.pow_add_r 2 3). f_equal. lia. }
  assert (4 < 2 ^ (usize_bits c - 3)) as H4.
  { destruct Hc as [Hb _]. assert (2 ^ 13 <= 2 ^ (usize_bits c - 3)) by (apply N.pow_le_mono_r; lia). change (2 ^ 13) with 8192 in *. lia. }
  destruct (ascii_utf8 name Hascii) as [Eutf Hscalars].
  unfold preview. fold name. rewrite Hvs. cbn [obind].
  destruct (scan_entries c env system Hc Hg vs entries
    {| results := []; max_decimal_width := 1; nominal_pad := N.of_nat (length name); previous_value := None |} [])
    as (st & Est & Hrows & Hw1 & Hw2); try assumption.
  { discriminate. }
  { eapply Forall_impl; [|exact Hshort]. cbn beta. intros; lia. }
  { constructor. }
  rewrite Est. cbn [obind results max_decimal_width nominal_pad previous_value] in *.
  fold (left_width entries) in Hw1. fold (len name) in Hw2. change (widest (len name) _) with (right_width env name entries) in Hw2.
  rewrite app_nil_r in Hrows. apply Forall2_rev in Hrows. rewrite rev_involutive in Hrows.
  set (w1 := left_width entries) in *. set (w2 := right_width env name entries) in *. rewrite Hw1, Hw2.
  assert (len name <= w2) as Hnw by apply widest_least.
  assert (w2 < 2 * 2 ^ (usize_bits c - 3)) as Hw2b.
  { assert (w2 <= 2 * 2 ^ (usize_bits c - 3) - 1); [|lia]. apply widest_bound; [lia|]. apply Forall_map, Forall_forall.
    intros e He. rewrite Forall_forall in Hshort. specialize (Hshort e He). cbn beta in Hshort.
    destruct (is_entry_in system vs entries e HF He) as [_ (s & _ & _ & Hs)].
    pose proof (columns_bound env (snd (snd e)) Hg Hs). lia. }
  fold (len name). rewrite uadd_ret by lia. cbn [obind].
  change (bytes "#") with (utf8 [0x23]). rewrite placeholder_padded by (apply scalars_check; reflexivity). cbn [obind].
  assert (forall w, placeholder (padded_to w) name = Ret (utf8 (name ++ times (w - len name) space))) as Hheader.
  { intros w. rewrite <- Eutf at 1. apply placeholder_padded, Hscalars. }
  rewrite Hheader. cbn [obind]. rewrite !placeholder_ruled. cbn [obind].
  rewrite (print_rows_ret c env w1 w2 Hg (rev (results st)) (table_rows None entries)).
  - cbn [obind]. unfold table. fold w1 w2. unfold table_header, table_rule. rewrite (N.eqb_sym w2).
    f_equal. f_equal; rewrite ?utf8_app, ?Eutf, <- ?app_assoc; reflexivity.
  - exact Hrows.
  - apply Forall_forall. intros row Hrow. destruct (rows_are _ _ _ Hrow) as [->|(v & Hin)].
    + pose proof (ellipsis_columns env Hg). unfold ellipsis in *. cbn [snd] in *. change (len [0x2026]) with 1.
      assert (1 <= len name) by (unfold len; destruct name; [contradiction|cbn [length]; lia]). lia.
    + rewrite Forall_forall in Hshort. specialize (Hshort _ Hin). cbn [fst snd] in Hshort.
      assert (columns env (snd row) <= w2); [|lia]. apply widest_in. apply in_map_iff. exists (v, row). auto.
Qed.

(** The table on standard output and in the file, and the texts in one line. *)
Theorem C82_table : forall c env system vs entries,
  valid_config c -> sound_graphemes env -> plain_name (last_type_name (own_name system)) ->
  preview_values system = Ret vs -> Forall2 (is_entry system) vs entries ->
  Forall (fun v => v < 2 ^ 32) vs -> Forall (fun v => v + 1 < 2 ^ 32) (removelast vs) ->
  len (last_type_name (own_name system)) < 2 ^ (usize_bits c - 3) ->
  Forall (fun e => len (snd (snd e)) < 2 ^ (usize_bits c - 3)) entries ->
  exists r, preview c env system = Ret r /\
    let name := last_type_name (own_name system) in
    file_name r = name /\
    to_stdout r = utf8 (table env name entries ++ [0x0A]) /\
    to_file r = utf8 (chars "# " ++ name ++ [0x0A; 0x0A] ++ table env name entries) /\
    (Forall (fun e => snd (snd e) <> []) entries ->
     one_line r = utf8 (separated [0x200E; space] (map snd (table_rows None entries)))).
Proof.
  intros. eexists. split; [apply preview_ret with (entries := entries) (vs := vs); eassumption|]. cbn [file_name to_stdout to_file one_line].
  split; [reflexivity|]. split; [reflexivity|]. split; [reflexivity|]. intros Hne. apply separated_fold.
  apply Forall_map, Forall_forall. intros row Hrow. destruct (rows_are _ _ _ Hrow) as [->|(v & Hin)]; [discriminate|].
  rewrite Forall_forall in Hne. exact (Hne _ Hin).
Qed.
Print Assumptions C82_table.

(** Every character a grapheme, one column wide. *)
Definition one_column : surroundings :=
  {| graphemes := fun str => match utf8_decode str with Some cs => map (fun ch => utf8 [ch]) cs | None => [] end;
     width_of := fun _ => 1;
     saving := true |}.

Lemma one_column_sound : sound_graphemes one_column.
Proof.
  intros cs Hs. exists (map (fun ch => [ch]) cs). cbn [graphemes one_column]. rewrite (decode_utf8 cs Hs), map_map. split; [reflexivity|]. split.
  - clear Hs. induction cs as [|ch cs IH]; [reflexivity|]. cbn [map concat app]. f_equal. exact IH.
  - apply Forall_map, Forall_forall. discriminate.
Qed.

Example C82_case :
  let system := plain_preview on_heap "nominals::additive::RomanLower" [1; 2; 9] RomanLower in
  let entries := [(1, (chars "1", chars "i")); (2, (chars "2", chars "ii")); (9, (chars "9", chars "ix"))] in
  plain_name (last_type_name (own_name system)) /\
  preview on_heap one_column system = Ret
    {| file_name := bytes "RomanLower";
       to_stdout := bytes "| # | RomanLower |
|---|------------|
| 1 | i          |
| 2 | ii         |
| … | …          |
| 9 | ix         |

";
       to_file := bytes "# RomanLower

| # | RomanLower |
|---|------------|
| 1 | i          |
| 2 | ii         |
| … | …          |
| 9 | ix         |
";
       link := bytes "[`RomanLower`]($NominalSystemDocPrefix$RomanLower$NominalSystemDocSuffix$)";
       one_line := utf8 (chars "i" ++ [0x200E] ++ chars " ii" ++ [0x200E] ++ chars " …" ++ [0x200E] ++ chars " ix") |} /\
  table one_column (chars "RomanLower") entries = chars "| # | RomanLower |
|---|------------|
| 1 | i          |
| 2 | ii         |
| … | …          |
| 9 | ix         |
".
Proof.
  cbv zeta. split; [split; [vm_compute; discriminate|repeat (constructor; [vm_compute; reflexivity|]); constructor]|].
  split; vm_compute; reflexivity.
Qed.

(** ** C83: all lines are equally wide *)

Theorem C83_rows_aligned : forall env system vs entries name,
  sound_graphemes env -> Forall2 (is_entry system) vs entries -> 2 <= len name ->
  let w1 := left_width entries in
  let w2 := right_width env name entries in
  Forall (fun row => len (fst row) + (w1 - len (fst row)) = w1 /\
                     columns env (snd row) + (w2 - columns env (snd row)) = w2) (table_rows None entries) /\
  len (table_rule w1 w2) = w1 + w2 + 8 /\
  In w1 (1 :: map (fun e => len (fst (snd e))) entries) /\
  In w2 (len name :: map (fun e => columns env (snd (snd e))) entries).
Proof.
  intros env system vs entries name Hg HF Hname w1 w2.
  assert (forall a l, In (widest a l) (a :: l)) as Hin.
  { intros a l. induction l as [|x l IH]; [left; reflexivity|]. unfold widest in *. cbn [fold_right].
    destruct (N.max_spec x (fold_right N.max a l)) as [[_ ->]|[_ ->]]; [|right; left; reflexivity].
    destruct IH as [IH|IH]; [left; exact IH|right; right; exact IH]. }
  split; [|split; [|split; apply Hin]].
  - apply Forall_forall. intros row Hrow.
    assert (len (fst row) <= w1 /\ columns env (snd row) <= w2); [|lia].
    destruct (rows_are _ _ _ Hrow) as [->|(v & Hv)].
    + pose proof (ellipsis_columns env Hg). pose proof (widest_least (len name) (map (fun e => columns env (snd (snd e))) entries)).
      pose proof (widest_least 1 (map (fun e => len (fst (snd e))) entries)). unfold w1, w2, left_width, right_width.
      change (len (fst ellipsis)) with 1. lia.
    + split; apply widest_in, in_map_iff; exists (v, row); auto.
  - unfold table_rule, len, times. rewrite !app_length, !repeat_length. cbn [length chars]. 
    change (length (chars "|-")) with 2%nat. change (length (chars "-|-")) with 3%nat. change (length (chars "-|")) with 2%nat. lia.
Qed.
Print Assumptions C83_rows_aligned.

Theorem C83_header_partial : forall env entries name,
  let w1 := left_width entries in
  let w2 := right_width env name entries in
  (w2 <> len name + 4 -> len (table_header name w1 w2) = w1 + w2 + 8) /\
  (w2 = len name + 4 -> len (table_header name w1 w2) = w1 + w2 + 4).
Proof.
  intros env entries name w1 w2.
  pose proof (widest_least (len name) (map (fun e => columns env (snd (snd e))) entries)) as Hw2.
  pose proof (widest_least 1 (map (fun e => len (fst (snd e))) entries)) as Hw1.
  fold (left_width entries) in Hw1. change (widest (len name) _) with w2 in Hw2. fold w1 in Hw1.
  assert (len (table_header name w1 w2) = (w1 - 1) + len name + ((if w2 =? len name + 4 then len name else w2) - len name) + 9) as ->.
  { unfold table_header, len, times. rewrite !app_length, !repeat_length. 
    change (length (chars "| #")) with 3%nat. change (length (chars " | ")) with 3%nat. change (length (chars " |")) with 2%nat. cbn [length]. lia. }
  destruct (N.eqb_spec w2 (len name + 4)); split; lia.
Qed.
Print Assumptions C83_header_partial.

(** When the widest text is exactly four columns wider than the name, the
    header is not filled up (examples/previews.rs:127-131). *)
Theorem C83_header_refuted :
  exists system r, preview on_heap one_column system = Ret r /\ to_stdout r = bytes "| #   | Roman |
|-----|-----------|
| 188 | clxxxviii |

".
Proof.
  exists (plain_preview on_heap "previews::Roman" [188] RomanLower). eexists. split; vm_compute; reflexivity.
Qed.
Print Assumptions C83_header_refuted.

Example C83_case :
  let entries := [(9, (chars "9", chars "ix")); (188, (chars "188", chars "clxxxviii"))] in
  left_width entries = 3 /\ right_width one_column (chars "Roman") entries = 9 /\
  right_width one_column (chars "RomanLower") entries = 10 /\
  table_rows None entries = [(chars "9", chars "ix"); (chars "…", chars "…"); (chars "188", chars "clxxxviii")].
Proof. repeat split; vm_compute; reflexivity. Qed.
