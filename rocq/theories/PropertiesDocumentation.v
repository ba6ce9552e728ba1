(** * PropertiesDocumentation: C87 and C88, what the documentation shows *)

From Coq Require Import String.
From Verif Require Import Prelude Utf8Facts StringFacts NominalString Spec History PropertiesString Outcome DigitFacts DigitOrder DigitSets PropertiesDigital
  AdditiveSets PropertiesSystem PropertiesPreviews PropertiesPreviewProgram Digital Additive Format System Previews PreviewFiles Documentation Cases.

(** ** The lists *)

(** The lists of README.md and of the crate's documentation are what the
    preview program writes, in every build and whatever the Unicode crates
    answer. *)
Theorem C87_lists : forall c env out, valid_config c -> sound_graphemes env -> saving env = true -> main c env = Ret out ->
  exists index, In (bytes "index"%string, index) (files out) /\
    for_readme index = bytes readme_list /\ for_docs index = bytes docs_list.
Proof.
  intros c env out Hc Hg Hs E. destruct (proj2 (C84_index c env out Hc Hg E) Hs) as (tables & -> & _).
  exists (bytes index_md). split; [left; reflexivity|]. split; vm_compute; reflexivity.
Qed.
Print Assumptions C87_lists.

(** ** The examples *)

(** In every build and for every integer type, [n] shows as [text]. *)
Definition always_shows (sys : system) '((n, text) : N * string) : Prop :=
  forall c T, valid_config c -> fits c T n ->
  exists s, to_nominal n (default_system c T (sys c T)) = Ret s /\ as_str s = Ret (bytes text).

Definition digits_of (d : digit_collection) : system := fun c T => try_format_digits c T d.

Lemma shown_once d digits n text :
  (forall c, valid_config c -> collects c d digits) -> dc_fixed d = false ->
  enough (dc_has_zero_digit d) (N.of_nat (length digits)) -> N.of_nat (length digits) < 256 -> n < 256 ->
  (dc_has_zero_digit d = false -> dc_zero_based d = false -> n <> 0) ->
  at_most_62 (bytes text) = true -> seen (try_format_digits on_heap U8 d n) = Ret (Ok (bytes text)) ->
  always_shows (digits_of d) (n, text).
Proof.
  intros Hcol Hf He Hlen Hn Hz Hshort E c T Hc _. destruct (digit_numeral_exists _ _ _ _ He Hz) as (cs & Hcs).
  assert (forall c T, valid_config c -> prints c (try_format_digits c T d n) n cs) as Hp.
  { intros c' T' Hc'. apply yields_prints.
    eapply format_numeral; try eassumption; [apply Hcol, Hc'|apply fits_small; assumption|apply fits_small; assumption]. }
  pose proof (Hp on_heap U8 on_heap_valid) as H1. unfold prints in H1. cbn [on_heap has_alloc orb] in H1.
  destruct H1 as (s1 & E1 & Es1 & _). rewrite E1 in E. cbn [seen obind] in E. rewrite Es1 in E. cbn [obind] in E.
  injection E as E. specialize (Hp c T Hc). unfold prints in Hp. rewrite E, Hshort, orb_true_r in Hp.
  destruct Hp as (s & E' & Es & _). exists s. unfold to_nominal. cbn [default_system format_nominal]. unfold digits_of. rewrite E'. auto.
Qed.

(** The examples checked in one build. *)
Definition checked (d : digit_collection) (digits : list N) (examples : list (N * string)) : bool :=
  negb (dc_fixed d) && (if dc_has_zero_digit d then 2 <=? N.of_nat (length digits) else 1 <=? N.of_nat (length digits)) &&
  (N.of_nat (length digits) <? 256) &&
  forallb (fun '(n, text) => (n <? 256) && (dc_has_zero_digit d || dc_zero_based d || negb (n =? 0)) && at_most_62 (bytes text) &&
    match seen (try_format_digits on_heap U8 d n) with Ret (Ok t) => bytes_eqb t (bytes text) | _ => false end) examples.

Lemma bytes_eqb_true a : forall b, bytes_eqb a b = true -> a = b.
Proof.
  induction a as [|x a IH]; intros [|y b] H; try discriminate; [reflexivity|]. cbn in H. apply andb_true_iff in H as [Hx H].
  apply N.eqb_eq in Hx. rewrite Hx, (IH b H). reflexivity.
Qed.

Lemma all_shown d digits examples : (forall c, valid_config c -> collects c d digits) -> checked d digits examples = true ->
  Forall (always_shows (digits_of d)) examples.
Proof.
  intros Hcol H. unfold checked in H. apply andb_true_iff in H as [H Hex]. apply andb_true_iff in H as [H Hlen].
  apply andb_true_iff in H as [Hf He]. apply Forall_forall. intros [n text] Hin. rewrite forallb_forall in Hex.
  specialize (Hex _ Hin). cbn beta iota in Hex. apply andb_true_iff in Hex as [Hex Ht]. apply andb_true_iff in Hex as [Hex H62].
  apply andb_true_iff in Hex as [Hn Hz]. apply (shown_once d digits); try assumption.
  - destruct (dc_fixed d); [discriminate|reflexivity].
  - unfold enough. destruct (dc_has_zero_digit d); apply N.leb_le, He.
  - apply N.ltb_lt, Hlen.
  - apply N.ltb_lt, Hn.
  - intros H1 H2. rewrite H1, H2 in Hz. cbn in Hz. apply N.eqb_neq. destruct (n =? 0); [discriminate|reflexivity].
  - destruct (seen (try_format_digits on_heap U8 d n)) as [[t|]| | |]; try discriminate. apply bytes_eqb_true in Ht. rewrite Ht. reflexivity.
Qed.

Lemma decimal_collects c : valid_config c -> collects c Decimal (chars "0123456789").
Proof. intros Hc. apply builtin_collects; auto. Qed.

Lemma letters_collect c : valid_config c ->
  collects c LetterLower (chars "abcdefghijklmnopqrstuvwxyz") /\ collects c LetterUpper (chars "ABCDEFGHIJKLMNOPQRSTUVWXYZ").
Proof. intros Hc. split; apply builtin_collects; auto. Qed.

(** The first number has no symbol, and shows in decimal. *)
Lemma zero_shown d : dc_has_zero_digit d = false -> (forall c, valid_config c -> exists digits, collects c d digits /\
    1 <= N.of_nat (length digits) < 256) ->
  (forall c T, valid_config c -> try_to_nominal 0 (default_system c T (try_format_digits c T (one_based d))) = Ret (Err NoZeroSymbol)) /\
  always_shows (digits_of (one_based d)) (0, "0"%string).
Proof.
  intros Hz Hcol.
  assert (forall c T, valid_config c -> try_format_digits c T (one_based d) 0 = Ret (Err NoZeroSymbol)) as H.
  { intros c T Hc. destruct (Hcol c Hc) as (digits & Hd & H1 & H2).
    exact (C14_one_based_counts_from_one c T d digits 0 Hc Hd Hz H1 (fits_small c T _ Hc H2) (fits_small c T 0 Hc eq_refl)). }
  split; [exact H|]. intros c T Hc Hf. unfold to_nominal. cbn [default_system format_nominal]. unfold digits_of. rewrite (H c T Hc). cbn [obind].
  destruct (proj2 (C47_unwrap_or_decimal c T 0 Hc Hf) NoZeroSymbol) as (s & cs & E & Hd & Es); [auto|].
  exists s. split; [exact E|]. rewrite Es. f_equal.
  rewrite (positional_numeral_fun _ _ _ _ Hd (single_positional (ten_from ascii_zero) 0 eq_refl)). reflexivity.
Qed.

(** README.md:19-44, src/.crate-docs.md:15-43, examples/basics.rs:6-28. *)
Theorem C87_readme :
  Forall (always_shows (digits_of Decimal)) [(0, "0")]%string /\
  Forall (always_shows (digits_of LetterLower)) [(0, "a"); (1, "b"); (26, "aa")]%string /\
  Forall (always_shows (digits_of (one_based LetterLower))) [(1, "a"); (2, "b"); (27, "aa"); (0, "0")]%string /\
  forall c T, valid_config c ->
    try_to_nominal 0 (default_system c T (try_format_digits c T (one_based LetterLower))) = Ret (Err NoZeroSymbol).
Proof.
  destruct (zero_shown LetterLower eq_refl) as [Hz Hs].
  { intros c Hc. eexists. split; [apply letters_collect, Hc|]. split; [discriminate|reflexivity]. }
  split; [|split; [|split; [|exact Hz]]].
  - eapply all_shown; [apply decimal_collects|vm_compute; reflexivity].
  - eapply all_shown; [intros c Hc; apply letters_collect, Hc|vm_compute; reflexivity].
  - apply (Forall_app _ [(1, "a"); (2, "b"); (27, "aa")]%string [(0, "0"%string)]). split; [|repeat constructor; exact Hs].
    eapply all_shown; [intros c Hc; apply collects_one_based, letters_collect, Hc|vm_compute; reflexivity].
Qed.
Print Assumptions C87_readme.

(** src/digital.rs:10-38: decimal digits, letters with A as zero, letters
    without zero, and counted from one. *)
Theorem C87_tables :
  Forall (always_shows (digits_of Decimal))
    [(0, "0"); (1, "1"); (2, "2"); (9, "9"); (10, "10"); (11, "11"); (12, "12")]%string /\
  Forall (always_shows (digits_of (digit_set_new (chars "ABCDEFGHIJKLMNOPQRSTUVWXYZ"))))
    [(0, "A"); (1, "B"); (2, "C"); (25, "Z"); (26, "BA"); (27, "BB"); (28, "BC")]%string /\
  Forall (always_shows (digits_of LetterUpper))
    [(0, "A"); (1, "B"); (2, "C"); (25, "Z"); (26, "AA"); (27, "AB"); (28, "AC")]%string /\
  Forall (always_shows (digits_of (one_based LetterUpper)))
    [(1, "A"); (2, "B"); (3, "C"); (26, "Z"); (27, "AA"); (28, "AB"); (29, "AC")]%string /\
  forall c T, valid_config c ->
    try_to_nominal 0 (default_system c T (try_format_digits c T (one_based LetterUpper))) = Ret (Err NoZeroSymbol).
Proof.
  split; [|split; [|split; [|split]]].
  - eapply all_shown; [apply decimal_collects|vm_compute; reflexivity].
  - apply (all_shown _ (chars "ABCDEFGHIJKLMNOPQRSTUVWXYZ")); [|vm_compute; reflexivity]. intros c Hc. apply collects_new; [|apply scalars_check; vm_compute; reflexivity].
    apply small_length; [exact Hc|]. vm_compute. lia.
  - eapply all_shown; [intros c Hc; apply letters_collect, Hc|vm_compute; reflexivity].
  - eapply all_shown; [intros c Hc; apply collects_one_based, letters_collect, Hc|vm_compute; reflexivity].
  - apply zero_shown; [reflexivity|]. intros c Hc. eexists. split; [apply letters_collect, Hc|]. split; [discriminate|reflexivity].
Qed.
Print Assumptions C87_tables.

(** src/additive.rs:73-79, 125-131. *)
Theorem C87_roman :
  Forall (always_shows RomanLower) [(4000, "i̅v̅"); (4001, "i̅v̅i"); (2000000, "m̅m̅")]%string /\
  Forall (always_shows RomanUpper) [(4000, "I̅V̅"); (4001, "I̅V̅I"); (2000000, "M̅M̅")]%string.
Proof.
  assert (forall sys n text, In sys builtin_systems -> n < 2 ^ 32 -> at_most_62 (bytes text) = true ->
    seen (sys on_heap U32 n) = Ret (Ok (bytes text)) -> always_shows sys (n, text)) as H.
  { intros sys n text Hin Hn H62 E c T Hc Hf. destruct (builtin_consistent sys Hin n) as (m & Hm).
    pose proof (Hm on_heap U32 on_heap_valid Hn) as H. specialize (Hm c T Hc Hf).
    destruct m as [cs| |]; cbn [means] in H, Hm.
    - destruct H as (s & E' & Es & _). rewrite E' in E. cbn [seen obind] in E. rewrite Es in E. cbn [obind] in E.
      injection E as E. unfold prints in Hm. rewrite E, H62, orb_true_r in Hm. destruct Hm as (s' & E1 & Es' & _).
      exists s'. unfold to_nominal. cbn [default_system format_nominal]. rewrite E1. auto.
    - destruct H as [_ H]. rewrite H in E. discriminate.
    - rewrite H in E. discriminate. }
  assert (In RomanLower builtin_systems /\ In RomanUpper builtin_systems) as [Hl Hu].
  { split; [apply (nth_error_In _ 71)|apply (nth_error_In _ 70)]; reflexivity. }
  assert (forall sys l, In sys builtin_systems ->
    forallb (fun '(n, text) => (n <? 2 ^ 32) && at_most_62 (bytes text) &&
      match seen (sys on_heap U32 n) with Ret (Ok t) => bytes_eqb t (bytes text) | _ => false end) l = true ->
    Forall (always_shows sys) l) as Hall.
  { intros sys l Hin Hl'. apply Forall_forall. intros [n text] Hi. rewrite forallb_forall in Hl'. specialize (Hl' _ Hi).
    cbn beta iota in Hl'. apply andb_true_iff in Hl' as [Hl' Ht]. apply andb_true_iff in Hl' as [Hn H62].
    apply H; [exact Hin|apply N.ltb_lt, Hn|exact H62|].
    destruct (seen (sys on_heap U32 n)) as [[t|]| | |]; try discriminate. apply bytes_eqb_true in Ht. rewrite Ht. reflexivity. }
  split; [apply (Hall _ _ Hl)|apply (Hall _ _ Hu)]; vm_compute; reflexivity.
Qed.
Print Assumptions C87_roman.

(** src/nominalstring.rs:24-35. *)
Theorem C87_inline_capacity : INLINE_CAPACITY = 62 /\
  forall c, has_alloc c = true ->
  exists s s', from_str c (repeat 0x61 62) = Ret s /\ is_inline s = true /\
    try_push c s 0x61 = Ret (s', Ok tt) /\ is_inline s' = false.
Proof.
  split; [reflexivity|]. intros [has_alloc overflow_checks usize_bits loop_depth] H. cbn in H. subst has_alloc.
  eexists _, _. split; [vm_compute; reflexivity|]. split; [vm_compute; reflexivity|]. split; vm_compute; reflexivity.
Qed.
Print Assumptions C87_inline_capacity.

Example C87_case :
  always_shows (digits_of LetterLower) (26, "aa"%string) /\ fits on_heap U8 26 /\
  replaced (bytes "$a$"%string) (bytes "bc"%string) 0 (bytes "x$a$a$y$a$"%string) = bytes "xbca$ybc"%string.
Proof.
  split; [|split; [vm_compute; reflexivity|vm_compute; reflexivity]].
  destruct C87_readme as (_ & H & _). rewrite Forall_forall in H. apply H. right. right. left. reflexivity.
Qed.

(** ** C88: up to 47 bytes on the stack (src/nominalstring.rs:11-13) *)

(** Every text of up to 47 bytes is on the stack, unless it came in a [String]. *)
Theorem C88_stack_partial : forall c k ops, has_alloc c = true -> valid_constructor c k -> Forall valid_op ops ->
  exists s rs text, build c k ops = Ret (s, rs) /\ as_str s = Ret text /\
    ((match k with FromString _ => False | _ => True end) -> (length text <= 47)%nat -> is_inline s = true).
Proof.
  intros c k ops Hc Hk Ho. destruct (C03_inline_iff_at_most_62 c k ops Hc Hk Ho) as (s & rs & text & E & Et & H).
  exists s, rs, text. split; [exact E|]. split; [exact Et|]. intros Hk' Hl. apply H. split; [exact Hk'|lia].
Qed.
Print Assumptions C88_stack_partial.

(** But so are longer ones, in every build: 62 bytes is the limit (C03). *)
Theorem C88_stack_refuted : exists text, (47 < length text)%nat /\
  forall c, exists s, from_str c text = Ret s /\ as_str s = Ret text /\ is_inline s = true.
Proof.
  exists (repeat 0x61 62). split; [vm_compute; lia|]. intros [has_alloc overflow_checks usize_bits loop_depth].
  eexists. split; [vm_compute; reflexivity|]. split; vm_compute; reflexivity.
Qed.
Print Assumptions C88_stack_refuted.

Example C88_case :
  match build on_heap New [Push 0x61; PushStr (repeat 0x62 46)] with
  | Ret (s, _) => is_inline s
  | _ => false
  end = true /\
  valid_constructor on_heap New /\ Forall valid_op [Push 0x61; PushStr (repeat 0x62 46)].
Proof. split; [vm_compute; reflexivity|]. split; [exact I|]. repeat constructor. Qed.
