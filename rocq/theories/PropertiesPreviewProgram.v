(** * PropertiesPreviewProgram: C84, the preview program as a whole
    (examples/previews.rs) *)

From Coq Require Import String Sorted.
From Verif Require Import Prelude Utf8Facts StringFacts History Outcome DigitFacts DigitOrder DigitSets PropertiesDigital
  AdditiveSets PropertiesSystem PropertiesPreviewValues PropertiesPreviews
  Digital Additive Enumerated Ethiopic Hebrew Chinese Format System Previews PreviewFiles Cases.

(** ** What the systems of the program print, in any build *)

(** What a system prints in one build. *)
Definition text_of (sys : system) (v : N) : option (list N) :=
  match seen (sys on_heap U32 v) with
  | Ret (Ok t) => utf8_decode t
  | _ => None
  end.

Lemma text_everywhere c sys v cs : In sys builtin_systems -> valid_config c -> v < 2 ^ 32 ->
  text_of sys v = Some cs -> at_most_62 (utf8 cs) = true ->
  exists s, sys c U32 v = Ret (Ok s) /\ as_str s = Ret (utf8 cs) /\ scalars cs.
Proof.
  intros Hin Hc Hv Ht Hshort. destruct (builtin_consistent sys Hin v) as (m & Hm).
  pose proof (Hm on_heap U32 on_heap_valid Hv) as H. specialize (Hm c U32 Hc Hv). unfold text_of in Ht.
  destruct m as [cs'| |]; cbn [means] in H, Hm.
  - destruct H as (s & E & Es & _). rewrite E in Ht. cbn [seen obind] in Ht. rewrite Es in Ht. cbn [obind] in Ht.
    apply decode_sound in Ht as [Hs Eu]. unfold prints in Hm. rewrite Eu, Hshort, orb_true_r in Hm.
    destruct Hm as (s' & E' & Es' & _). exists s'. split; [exact E'|]. split; [exact Es'|exact Hs].
  - destruct H as [_ H]. rewrite H in Ht. discriminate.
  - rewrite H in Ht. discriminate.
Qed.

Definition decimal_system : system := fun c T => try_format_digits c T Decimal.

Lemma text_of_prints sys v cs : prints on_heap (sys on_heap U32 v) v cs -> scalars cs -> text_of sys v = Some cs.
Proof.
  intros (s & E & Es & _) Hs. unfold text_of. rewrite E. cbn [seen obind]. rewrite Es. cbn [obind]. apply decode_utf8, Hs.
Qed.

Lemma decimal_text_of v ds : v < 2 ^ 32 -> text_of decimal_system v = Some ds -> decimal_numeral v ds.
Proof.
  intros Hv Ht. destruct (decimal_prints on_heap U32 v on_heap_valid Hv) as (ds' & Hd & Hp).
  rewrite (text_of_prints decimal_system v ds' Hp (proj1 (decimal_bytes v ds' Hd))) in Ht. injection Ht as <-. exact Hd.
Qed.

(** The systems with their names and numbers. *)
Definition values_of (d : digit_collection) : list N :=
  match digit_preview_values on_heap d with Ret vs => vs | _ => [] end.

Definition shown_systems : list (string * system * list N) :=
  [("Decimal"%string, fun c T => try_format_digits c T Decimal, values_of Decimal);
   ("LetterLower"%string, fun c T => try_format_digits c T LetterLower, values_of LetterLower);
   ("LetterUpper"%string, fun c T => try_format_digits c T LetterUpper, values_of LetterUpper);
   ("RomanLower"%string, RomanLower, roman_values);
   ("RomanUpper"%string, RomanUpper, roman_values);
   ("CircledNumber"%string, CircledNumber, [0; 1; 2; 3; 4; 9; 10; 11; 12; 48; 49; 50]);
   ("DoubleCircledNumber"%string, DoubleCircledNumber, (range 1 11));
   ("ArmenianLower"%string, ArmenianLower, additive_values);
   ("ArmenianUpper"%string, ArmenianUpper, additive_values);
   ("Bengali"%string, fun c T => try_format_digits c T Bengali, values_of Bengali);
   ("Cambodian"%string, fun c T => try_format_digits c T Cambodian, values_of Cambodian);
   ("SimplifiedChineseInformal"%string, SimplifiedChineseInformal default_options, cjk_values);
   ("TraditionalChineseInformal"%string, TraditionalChineseInformal default_options, cjk_values);
   ("SimplifiedChineseFormal"%string, SimplifiedChineseFormal default_options, cjk_values);
   ("TraditionalChineseFormal"%string, TraditionalChineseFormal default_options, cjk_values);
   ("CjkDecimal"%string, fun c T => try_format_digits c T CjkDecimal, values_of CjkDecimal);
   ("CjkEarthlyBranch"%string, fun c T => try_format_digits c T CjkEarthlyBranch, values_of CjkEarthlyBranch);
   ("CjkHeavenlyStem"%string, fun c T => try_format_digits c T CjkHeavenlyStem, values_of CjkHeavenlyStem);
   ("Devanagari"%string, fun c T => try_format_digits c T Devanagari, values_of Devanagari);
   ("EasternArabic"%string, fun c T => try_format_digits c T EasternArabic, values_of EasternArabic);
   ("Ethiopic"%string, Ethiopic, [1; 2; 3; 10; 11; 12; 99; 100; 101; 999; 1000; 1001]);
   ("Georgian"%string, Georgian, additive_values);
   ("GreekLower"%string, fun c T => try_format_digits c T GreekLower, values_of GreekLower);
   ("GreekUpper"%string, fun c T => try_format_digits c T GreekUpper, values_of GreekUpper);
   ("Gujarati"%string, fun c T => try_format_digits c T Gujarati, values_of Gujarati);
   ("Gurmukhi"%string, fun c T => try_format_digits c T Gurmukhi, values_of Gurmukhi);
   ("HanjaInformal"%string, HanjaInformal, cjk_values);
   ("HangeulFormal"%string, HangeulFormal, cjk_values);
   ("HangeulJamo"%string, fun c T => try_format_digits c T HangeulJamo, values_of HangeulJamo);
   ("HangeulSyllable"%string, fun c T => try_format_digits c T HangeulSyllable, values_of HangeulSyllable);
   ("HanjaFormal"%string, HanjaFormal, cjk_values);
   ("Hebrew"%string, Hebrew, [1; 2; 3; 9; 10; 13; 14; 15; 16; 17; 396; 397; 398; 399; 400]);
   ("HexLower"%string, fun c T => try_format_digits c T (HexLower c), values_of (HexLower on_heap));
   ("HexUpper"%string, fun c T => try_format_digits c T (HexUpper c), values_of (HexUpper on_heap));
   ("Hiragana"%string, fun c T => try_format_digits c T Hiragana, values_of Hiragana);
   ("HiraganaIroha"%string, fun c T => try_format_digits c T HiraganaIroha, values_of HiraganaIroha);
   ("JapaneseFormal"%string, JapaneseFormal, cjk_values);
   ("JapaneseInformal"%string, JapaneseInformal, cjk_values);
   ("Kannada"%string, fun c T => try_format_digits c T Kannada, values_of Kannada);
   ("Katakana"%string, fun c T => try_format_digits c T Katakana, values_of Katakana);
   ("KatakanaIroha"%string, fun c T => try_format_digits c T KatakanaIroha, values_of KatakanaIroha);
   ("Lao"%string, fun c T => try_format_digits c T Lao, values_of Lao);
   ("Malayalam"%string, fun c T => try_format_digits c T Malayalam, values_of Malayalam);
   ("Mongolian"%string, fun c T => try_format_digits c T Mongolian, values_of Mongolian);
   ("Myanmar"%string, fun c T => try_format_digits c T Myanmar, values_of Myanmar);
   ("Oriya"%string, fun c T => try_format_digits c T Oriya, values_of Oriya);
   ("Persian"%string, fun c T => try_format_digits c T Persian, values_of Persian);
   ("Tamil"%string, fun c T => try_format_digits c T Tamil, values_of Tamil);
   ("Telugu"%string, fun c T => try_format_digits c T Telugu, values_of Telugu);
   ("Thai"%string, fun c T => try_format_digits c T Thai, values_of Thai);
   ("Tibetan"%string, fun c T => try_format_digits c T Tibetan, values_of Tibetan)].

Definition or_nothing (o : option (list N)) : list N := match o with Some cs => cs | None => [] end.

Definition entries_of (sys : system) (vs : list N) : list entry :=
  map (fun v => (v, (or_nothing (text_of decimal_system v), or_nothing (text_of sys v)))) vs.

(** Everything has a short text. *)
Definition presentable (sys : system) (vs : list N) : bool :=
  forallb (fun v => (v + 1 <? 2 ^ 32) &&
    match text_of decimal_system v, text_of sys v with
    | Some _, Some cs => at_most_62 (utf8 cs) && negb (length cs =? 0)%nat
    | _, _ => false
    end) vs.

Fixpoint ascending (vs : list N) : bool :=
  match vs with
  | [] => true
  | v :: rest => forallb (fun u => v <? u) rest && ascending rest
  end.

Definition matches (c : config) (p : previewable) (shown : string * system * list N) : Prop :=
  let '(name, sys, vs) := shown in
  last_type_name (own_name p) = bytes name /\ last_type_name (linked_name p) = bytes name /\
  preview_values p = Ret vs /\ shown_by p = default_system c U32 (sys c U32).

Lemma all_match c : Forall2 (matches c) (previewed_systems c) shown_systems.
Proof.
  unfold previewed_systems, shown_systems. repeat (apply Forall2_cons; [
    unfold matches, digit_preview, plain_preview; cbn [own_name linked_name preview_values shown_by];
    split; [vm_compute; reflexivity|]; split; [vm_compute; reflexivity|]; split; [vm_compute; reflexivity|reflexivity]|]).
  apply Forall2_nil.
Qed.

Definition positions : list nat :=
  [0; 22; 21; 71; 70; 80; 81; 73; 72; 4; 5; 113; 97; 105; 89; 7; 32; 31; 8; 1; 82; 74; 24; 23; 9; 10; 78; 77; 29; 30; 79; 83; 67; 66; 25; 26; 75; 76; 11; 27; 28; 12; 13; 14; 15; 16; 2; 17; 18; 19; 20]%nat.

Lemma all_built_in : Forall (fun '(_, sys, _) => In sys builtin_systems) shown_systems.
Proof.
  assert (Forall2 (fun '(_, sys, _) k => nth_error builtin_systems k = Some sys) shown_systems positions) as H.
  { unfold shown_systems, positions. repeat (apply Forall2_cons; [reflexivity|]). apply Forall2_nil. }
  induction H as [|[[name sys] vs] k l ks Hk _ IH]; constructor; [|exact IH]. eapply nth_error_In, Hk.
Qed.

Lemma all_presentable : forallb (fun '(_, sys, vs) => presentable sys vs && ascending vs) shown_systems = true.
Proof. vm_compute. reflexivity. Qed.

Lemma all_named : forallb (fun '(name, _, _) => forallb (fun ch => ch <? 0x80) (bytes name) &&
  negb (length (bytes name) =? 0)%nat && (length (bytes name) <? 64)%nat) shown_systems = true.
Proof. vm_compute. reflexivity. Qed.

Lemma all_entries c p name sys vs : valid_config c -> matches c p (name, sys, vs) -> In sys builtin_systems ->
  presentable sys vs = true ->
  Forall2 (is_entry p) vs (entries_of sys vs) /\ Forall (fun v => v + 1 < 2 ^ 32) vs /\
  Forall (fun e => (length (snd (snd e)) <= 62)%nat /\ snd (snd e) <> []) (entries_of sys vs) /\
  Forall (fun v => exists s, try_format_nominal (shown_by p) v = Ret (Ok s)) vs.
Proof.
  intros Hc (_ & _ & _ & Hshown) Hin Hp. unfold presentable in Hp. rewrite forallb_forall in Hp.
  assert (forall v, In v vs -> v + 1 < 2 ^ 32 /\ exists ds cs, text_of decimal_system v = Some ds /\ text_of sys v = Some cs /\
    decimal_numeral v ds /\ says p v cs /\ (length cs <= 62)%nat /\ cs <> [] /\
    exists s, try_format_nominal (shown_by p) v = Ret (Ok s)) as H.
  { intros v Hv. specialize (Hp v Hv). apply andb_true_iff in Hp as [Hlt Hp]. apply N.ltb_lt in Hlt. split; [exact Hlt|].
    destruct (text_of decimal_system v) as [ds|] eqn:Ed; [|discriminate]. destruct (text_of sys v) as [cs|] eqn:Es; [|discriminate].
    apply andb_true_iff in Hp as [H62 Hne]. exists ds, cs. split; [reflexivity|]. split; [reflexivity|].
    assert (v < 2 ^ 32) as Hv32 by lia. split; [apply decimal_text_of; assumption|].
    destruct (text_everywhere c sys v cs Hin Hc Hv32 Es H62) as (s & E & Et & Hs).
    rewrite Hshown. unfold says. rewrite Hshown. unfold default_system. cbn [format_nominal try_format_nominal]. rewrite E. cbn [obind unwrap_or_decimal].
    split; [exists s; auto|]. split; [|split].
    - unfold at_most_62 in H62. apply Nat.leb_le in H62. pose proof (at_least_a_byte cs). lia.
    - intros ->. discriminate.
    - exists s. reflexivity. }
  clear Hp. unfold entries_of. repeat split.
  - induction vs as [|v vs IH]; constructor.
    + destruct (H v (or_introl eq_refl)) as (_ & ds & cs & Ed & Es & Hd & Hsays & _). rewrite Ed, Es. split; [reflexivity|]. split; assumption.
    + apply IH. intros u Hu. apply H. right. exact Hu.
  - apply Forall_forall. intros v Hv. apply (H v Hv).
  - apply Forall_map, Forall_forall. intros v Hv. destruct (H v Hv) as (_ & ds & cs & Ed & Es & _ & _ & Hl & Hne & _). rewrite Ed, Es. auto.
  - apply Forall_forall. intros v Hv. destruct (H v Hv) as (_ & ds & cs & _ & _ & _ & _ & _ & _ & Hex). exact Hex.
Qed.

(** What [preview] returns. *)
Definition expected (env : surroundings) (shown : string * system * list N) : previewed :=
  let '(name, sys, vs) := shown in
  let entries := entries_of sys vs in
  {| file_name := bytes name;
     to_stdout := utf8 (table env (bytes name) entries ++ [0x0A]);
     to_file := utf8 (chars "# " ++ bytes name ++ [0x0A; 0x0A] ++ table env (bytes name) entries);
     link := markdown_link (bytes name);
     one_line := fold_left next_line (map snd (table_rows None entries)) [] |}.

Lemma removelast_Forall {A} (P : A -> Prop) l : Forall P l -> Forall P (removelast l).
Proof.
  induction 1 as [|x l Hx Hl IH]; [constructor|]. cbn [removelast]. destruct l; constructor; assumption.
Qed.

Lemma tables_ret c env : valid_config c -> sound_graphemes env ->
  each (preview c env) (previewed_systems c) = Ret (map (expected env) shown_systems).
Proof.
  intros Hc Hg. pose proof (all_match c) as HM. pose proof all_built_in as HB. pose proof all_presentable as HP. pose proof all_named as HN.
  rewrite forallb_forall in HP, HN. rewrite Forall_forall in HB.
  assert (4096 <= 2 ^ (usize_bits c - 3)) as H13.
  { change 4096 with (2 ^ 12). destruct Hc as [Hb _]. apply N.pow_le_mono_r; lia. }
  revert HP HN HB. induction HM as [|p [[name sys] vs] ps shown Hm _ IH]; intros HP HN HB; [reflexivity|].
  cbn [each map].
  assert (preview c env p = Ret (expected env (name, sys, vs))) as ->.
  { specialize (HP _ (or_introl eq_refl)). specialize (HN _ (or_introl eq_refl)). specialize (HB _ (or_introl eq_refl)).
    cbn beta iota in HP, HN, HB. apply andb_true_iff in HP as [HP _].
    apply andb_true_iff in HN as [HN H64]. apply andb_true_iff in HN as [Hascii Hne].
    destruct (all_entries c p name sys vs Hc Hm HB HP) as (He & Hv & Hl & _).
    destruct Hm as (En & El & Ev & Es).
    rewrite (preview_ret c env p vs (entries_of sys vs)); try assumption.
    - cbv zeta. rewrite En, El. reflexivity.
    - rewrite En. split; [intros E; rewrite E in Hne; discriminate|]. apply Forall_forall. intros ch Hch. rewrite forallb_forall in Hascii. apply N.ltb_lt, Hascii, Hch.
    - eapply Forall_impl; [|exact Hv]. cbn beta. intros; lia.
    - apply removelast_Forall, Hv.
    - rewrite En. apply Nat.ltb_lt in H64. unfold len. lia.
    - eapply Forall_impl; [|exact Hl]. cbn beta. intros e [H _]. unfold len. lia. }
  cbn [obind]. rewrite IH; [reflexivity| | |]; intros x Hx; [apply HP|apply HN|apply HB]; right; exact Hx.
Qed.

Definition expected_index (env : surroundings) : list N :=
  flat_map (fun t => bytes "- " ++ link t ++ bytes ": " ++ one_line t ++ newline) (map (expected env) shown_systems).

Lemma main_ret c env : valid_config c -> sound_graphemes env ->
  main c env = Ret
    {| stdout := flat_map to_stdout (map (expected env) shown_systems) ++ expected_index env;
       files := if saving env
                then (bytes "index", expected_index env) :: map (fun t => (file_name t, to_file t)) (map (expected env) shown_systems)
                else [] |}.
Proof. intros Hc Hg. unfold main. rewrite (tables_ret c env Hc Hg). reflexivity. Qed.

Lemma ret_inj {A} (x y : A) : Ret x = Ret y -> x = y.
Proof. intros E. injection E as E. exact E. Qed.

Lemma index_any env env' (l : list (string * system * list N)) (f : list N -> list N -> list N) :
  flat_map (fun t => f (link t) (one_line t)) (map (expected env) l) =
  flat_map (fun t => f (link t) (one_line t)) (map (expected env') l).
Proof. induction l as [|[[name sys] vs] l IH]; [reflexivity|]. cbn [map flat_map expected link one_line]. rewrite IH. reflexivity. Qed.

Lemma index_is env : expected_index env = bytes index_md.
Proof.
  unfold expected_index.
  rewrite (index_any env one_column _ (fun l o => bytes "- " ++ l ++ bytes ": " ++ o ++ newline)). vm_compute. reflexivity.
Qed.

(** ** C84 *)

(** The program finishes in every build, whatever the Unicode crates say, and
    all builds print the same. *)
Theorem C84_every_build : forall c env, valid_config c -> sound_graphemes env ->
  exists out, main c env = Ret out /\ forall c', valid_config c' -> main c' env = Ret out.
Proof. intros c env Hc Hg. eexists. split; [apply main_ret; assumption|]. intros c' Hc'. apply main_ret; assumption. Qed.
Print Assumptions C84_every_build.

(** The index is the file in the repository; every table has a file of its own;
    nothing is written unless SAVE is set. *)
Theorem C84_index : forall c env out, valid_config c -> sound_graphemes env -> main c env = Ret out ->
  (saving env = false -> files out = []) /\
  (saving env = true -> exists tables,
     files out = (bytes "index"%string, bytes index_md) :: tables /\ NoDup (map fst (files out)) /\
     map fst tables = map (fun '(name, _) => bytes name) (tl repository_files)).
Proof.
  intros c env out Hc Hg E. rewrite (main_ret c env Hc Hg) in E. apply ret_inj in E. rewrite <- E. clear E. cbn [files]. rewrite index_is. split; intros ->; [reflexivity|].
  eexists. split; [reflexivity|].
  assert (map fst (map (fun t => (file_name t, to_file t)) (map (expected env) shown_systems)) = map (fun '(name, _, _) => bytes name) shown_systems) as En.
  { rewrite !map_map. apply map_ext. intros [[name sys] vs]. reflexivity. }
  cbn [map fst]. rewrite En. split; [|vm_compute; reflexivity].
  assert (forall l : list (list N), nodup (list_eq_dec N.eq_dec) l = l -> NoDup l) as Hdec by (intros l <-; apply NoDup_nodup).
  apply Hdec. vm_compute. reflexivity.
Qed.
Print Assumptions C84_index.

(** A file is a heading and what was printed; the index is printed last. *)
Theorem C84_stdout : forall c env out, valid_config c -> sound_graphemes env -> main c env = Ret out ->
  exists tables : list (list N * list N),
    stdout out = flat_map (fun t => snd t ++ [0x0A]) tables ++ bytes index_md /\
    (saving env = true ->
     tl (files out) = map (fun t => (fst t, bytes "# "%string ++ fst t ++ [0x0A; 0x0A] ++ snd t)) tables).
Proof.
  intros c env out Hc Hg E. rewrite (main_ret c env Hc Hg) in E. apply ret_inj in E. rewrite <- E. clear E. cbn [stdout files]. rewrite index_is.
  exists (map (fun '(name, sys, vs) => (bytes name, utf8 (table env (bytes name) (entries_of sys vs)))) shown_systems). split.
  - f_equal. generalize shown_systems. intros l. induction l as [|[[name sys] vs] l IH]; [reflexivity|].
    cbn [map flat_map expected to_stdout snd]. rewrite IH, utf8_app. reflexivity.
  - intros ->. cbn [tl]. pose proof all_named as HN. revert HN. generalize shown_systems. intros l HN. induction l as [|[[name sys] vs] l IH]; [reflexivity|].
    cbn [forallb] in HN. apply andb_true_iff in HN as [HN HNs]. apply andb_true_iff in HN as [HN _]. apply andb_true_iff in HN as [HN _].
    cbn [map expected to_file file_name fst snd]. rewrite (IH HNs). f_equal. f_equal. rewrite !utf8_app.
    rewrite (proj1 (ascii_utf8 (bytes name) ltac:(apply Forall_forall; intros ch Hch; rewrite forallb_forall in HN; apply N.ltb_lt, HN, Hch))). reflexivity.
Qed.
Print Assumptions C84_stdout.

(** Every number is shown by its own system, not in decimal for want of a
    numeral, and none twice. *)
Theorem C84_nothing_falls_back : forall c p, valid_config c -> In p (previewed_systems c) ->
  exists vs, preview_values p = Ret vs /\ StronglySorted N.lt vs /\
    Forall (fun v => v < 2 ^ 32 /\ exists s, try_format_nominal (shown_by p) v = Ret (Ok s)) vs.
Proof.
  intros c p Hc Hin.
  assert (exists shown, In shown shown_systems /\ matches c p shown) as ([[name sys] vs] & Hs & Hm).
  { pose proof (all_match c) as HM. revert Hin. induction HM as [|q shown ps l Hq _ IH]; intros Hin; [contradiction|].
    destruct Hin as [->|Hin]; [exists shown; split; [left; reflexivity|exact Hq]|].
    destruct (IH Hin) as (x & Hx & Hm). exists x. split; [right; exact Hx|exact Hm]. }
  pose proof all_built_in as HB. rewrite Forall_forall in HB. specialize (HB _ Hs). cbn beta iota in HB.
  pose proof all_presentable as HP. rewrite forallb_forall in HP. specialize (HP _ Hs). cbn beta iota in HP. apply andb_true_iff in HP as [HP HA].
  destruct (all_entries c p name sys vs Hc Hm HB HP) as (_ & Hv & _ & Hok). destruct Hm as (_ & _ & Ev & _).
  exists vs. split; [exact Ev|]. split.
  - clear - HA. induction vs as [|v vs IH]; [constructor|]. cbn [ascending] in HA. apply andb_true_iff in HA as [Hv HA]. constructor; [apply IH, HA|].
    rewrite forallb_forall in Hv. apply Forall_forall. intros u Hu. apply N.ltb_lt, Hv, Hu.
  - apply Forall_forall. intros v Hin'. rewrite Forall_forall in Hv, Hok. specialize (Hv v Hin'). cbn beta in Hv. split; [lia|apply Hok, Hin'].
Qed.
Print Assumptions C84_nothing_falls_back.

(** ** The files in the repository *)

(** Columns on a terminal, for the characters that occur: combining marks take
    none, East Asian characters two. *)
Definition char_columns (ch : N) : N :=
  if (0x300 <=? ch) && (ch <=? 0x36F) then 0
  else if (0x2E80 <=? ch) && (ch <=? 0xA4CF) || (0xAC00 <=? ch) && (ch <=? 0xD7A3) then 2
  else 1.

(** Combining marks belong to the character before. *)
Fixpoint clusters (cs : list N) : list (list N) :=
  match cs with
  | [] => []
  | ch :: cs =>
    match clusters cs with
    | (mark :: marks) :: rest => if char_columns mark =? 0 then (ch :: mark :: marks) :: rest else [ch] :: (mark :: marks) :: rest
    | rest => [ch] :: rest
    end
  end.

Definition terminal : surroundings :=
  {| graphemes := fun str => match utf8_decode str with Some cs => map utf8 (clusters cs) | None => [] end;
     width_of := fun str => match utf8_decode str with Some cs => fold_right N.add 0 (map char_columns cs) | None => 0 end;
     saving := true |}.

Lemma terminal_sound : sound_graphemes terminal.
Proof.
  intros cs Hs. exists (clusters cs). cbn [graphemes terminal]. rewrite (decode_utf8 cs Hs). split; [reflexivity|]. clear Hs.
  induction cs as [|ch cs [IH1 IH2]]; [split; [reflexivity|constructor]|]. cbn [clusters].
  destruct (clusters cs) as [|[|mark marks] rest].
  - cbn in *. subst. split; [reflexivity|]. constructor; [discriminate|constructor].
  - apply Forall_cons_iff in IH2 as [IH2 _]. contradiction.
  - cbn [concat app] in IH1. destruct (_ =? 0); cbn [concat app]; rewrite IH1; (split; [reflexivity|]).
    + apply Forall_cons_iff in IH2 as [_ IH2]. constructor; [discriminate|exact IH2].
    + constructor; [discriminate|exact IH2].
Qed.

(** In every build the program writes the files of the repository. *)
Theorem C84_repository_files : forall c, valid_config c ->
  exists out, main c terminal = Ret out /\ files out = map (fun '(name, content) => (bytes name, bytes content)) repository_files.
Proof.
  intros c Hc. eexists. split; [apply main_ret; [exact Hc|exact terminal_sound]|]. vm_compute. reflexivity.
Qed.
Print Assumptions C84_repository_files.

(** Type names as rustc gives them. *)
Theorem C84_names : forall path ident wrapper,
  ~ In 0x3A ident -> ~ In 0x3E ident ->
  last_type_name (path ++ bytes "::" ++ ident) = ident /\
  last_type_name (wrapper ++ bytes "<" ++ path ++ bytes "::" ++ ident ++ bytes ">") = ident.
Proof.
  assert (forall path ident, ~ In 0x3A ident -> after_last (bytes "::") (path ++ bytes "::" ++ ident) = Some ident) as Hlast.
  { assert (forall ident, ~ In 0x3A ident -> after_last (bytes "::") ident = None) as Hnone.
    { induction ident as [|b ident IH]; intros H; [reflexivity|]. cbn [after_last]. rewrite IH by (intros Hi; apply H; right; exact Hi).
      unfold starts_with. destruct (list_eq_dec _ _ _) as [E|]; [|reflexivity]. exfalso. apply H.
      change (bytes "::") with [0x3A; 0x3A] in E. cbn [length firstn] in E. injection E as -> _. left. reflexivity. }
    intros path ident H. induction path as [|b path IH].
    - change (bytes "::") with [0x3A; 0x3A]. cbn [app after_last]. change [0x3A; 0x3A] with (bytes "::").
      assert (after_last (bytes "::") ident = None) as -> by (apply Hnone, H).
      assert (starts_with (bytes "::") (0x3A :: ident) = false) as ->.
      { unfold starts_with. destruct (list_eq_dec _ _ _) as [E|]; [|reflexivity]. exfalso.
        change (bytes "::") with [0x3A; 0x3A] in E. cbn [length firstn] in E. destruct ident as [|b ident]; [discriminate|].
        injection E as ->. apply H. left. reflexivity. }
      reflexivity.
    - cbn [app after_last]. rewrite IH. reflexivity. }
  assert (forall ident, ~ In 0x3E ident -> strip_suffix 62 ident = None) as Hstrip.
  { intros ident H. unfold strip_suffix. destruct (rev ident) as [|b front] eqn:E; [reflexivity|].
    destruct (N.eqb_spec b 62) as [->|]; [|reflexivity]. exfalso. apply H. apply in_rev. rewrite E. left. reflexivity. }
  intros path ident wrapper Hcolon Hangle. unfold last_type_name. split.
  - rewrite (Hlast path ident Hcolon), (Hstrip ident Hangle). reflexivity.
  - replace (wrapper ++ bytes "<" ++ path ++ bytes "::" ++ ident ++ bytes ">")
      with ((wrapper ++ bytes "<" ++ path) ++ bytes "::" ++ ident ++ bytes ">") by (rewrite <- !app_assoc; reflexivity).
    rewrite Hlast.
    + unfold strip_suffix. rewrite rev_app_distr. cbn. rewrite rev_involutive. reflexivity.
    + rewrite in_app_iff. intros [H|[H|[]]]; [contradiction|discriminate].
Qed.
Print Assumptions C84_names.

Example C84_case :
  last_type_name (bytes "previews::DigitPreview<nominals::digital::HexLower>") = bytes "HexLower"%string /\
  length repository_files = 52%nat /\
  text_of RomanUpper 999999 = Some (chars "D̅M̅L̅C̅I̅X̅CMXCIX"%string) /\
  columns terminal (chars "D̅M̅L̅C̅I̅X̅CMXCIX") = 12 /\ columns terminal (chars "一三") = 4.
Proof. repeat split; vm_compute; reflexivity. Qed.
