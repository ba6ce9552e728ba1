(** * PropertiesDerived: C86, the derived [Debug] and [PartialEq] *)

From Coq Require Import String.
From Verif Require Import Prelude Utf8Facts StringFacts History Outcome DigitFacts DigitOrder DigitSets PropertiesDistinct
  PropertiesSystem Format Chinese Derived.

(** ** Numbers *)

Lemma int_digits_are fuel : forall n acc, n < 10 ^ N.of_nat (S fuel) ->
  exists ds, int_digits fuel n acc = ds ++ acc /\ decimal_numeral n ds.
Proof.
  assert (forall d, d < 10 -> nth (N.to_nat d) (ten_from ascii_zero) 0 = 0x30 + d) as Hnth.
  { intros d Hd. assert (In d (map N.of_nat (seq 0 10))) as Hin.
    { apply in_map_iff. exists (N.to_nat d). split; [lia|apply in_seq; lia]. }
    cbn in Hin. repeat destruct Hin as [<-|Hin]; try reflexivity. contradiction. }
  induction fuel as [|fuel IH]; intros n acc Hn; cbn [int_digits].
  - change (10 ^ N.of_nat 1) with 10 in Hn. assert (n <? 10 = true) as -> by (apply N.ltb_lt, Hn).
    exists [0x30 + n mod 10]. split; [reflexivity|]. exists [n]. rewrite N.mod_small by exact Hn. repeat split.
    + constructor; [exact Hn|constructor].
    + cbn [map]. unfold digit_char. rewrite Hnth by exact Hn. reflexivity.
  - destruct (N.ltb_spec n 10) as [Hlt|Hge].
    + exists [0x30 + n mod 10]. split; [reflexivity|]. exists [n]. rewrite N.mod_small by exact Hlt. repeat split.
      * constructor; [exact Hlt|constructor].
      * cbn [map]. unfold digit_char. rewrite Hnth by exact Hlt. reflexivity.
    + destruct (IH (n / 10) ((0x30 + n mod 10) :: acc)) as (ds & E & ks & Hb & Hc & Hv & ->).
      { rewrite Nat2N.inj_succ, N.pow_succ_r' in Hn. apply N.div_lt_upper_bound; [discriminate|exact Hn]. }
      exists (map (digit_char (ten_from ascii_zero)) ks ++ [0x30 + n mod 10]). split; [rewrite E, <- app_assoc; reflexivity|].
      assert (n mod 10 < 10) as Hm by (apply N.mod_lt; discriminate).
      exists (ks ++ [n mod 10]). repeat split.
      * apply Forall_app. split; [exact Hb|]. constructor; [exact Hm|constructor].
      * destruct ks as [|k [|k' ks]]; [contradiction| |exact Hc]. change (0 * 10 + k = n / 10) in Hv. cbn [app canonical]. pose proof (N.div_le_mono 10 n 10 ltac:(discriminate) Hge). change (10 / 10) with 1 in *. lia.
      * rewrite positional_value_app, Hv. change (N.of_nat (length (ten_from ascii_zero))) with 10.
        pose proof (N.div_mod n 10 ltac:(discriminate)). lia.
      * rewrite map_app. cbn [map]. unfold digit_char at 3. rewrite Hnth by exact Hm. reflexivity.
Qed.

Lemma int_digits_decimal n : decimal_numeral n (int_digits (N.to_nat (N.size n)) n []).
Proof.
  destruct (int_digits_are (N.to_nat (N.size n)) n []) as (ds & E & Hd).
  - rewrite Nat2N.inj_succ, N2Nat.id. pose proof (N.size_gt n) as H.
    assert (2 ^ N.size n <= 10 ^ N.succ (N.size n)).
    { rewrite N.pow_succ_r'. assert (2 ^ N.size n <= 10 ^ N.size n) by (apply N.pow_le_mono_l; lia).
      pose proof (N.pow_nonzero 10 (N.size n) ltac:(discriminate)). lia. }
    lia.
  - rewrite app_nil_r in E. rewrite E. exact Hd.
Qed.

(** How a number with numeral [ds] is placed: on the right unless another
    alignment is asked for. *)
Definition number_placed (f : format_options) (ds out : list N) : Prop :=
  exists before after,
    out = concat (repeat (utf8 [fill f]) before) ++ ds ++ concat (repeat (utf8 [fill f]) after) /\
    (before + after = match width f with Some w => N.to_nat w - length ds | None => 0 end)%nat /\
    match align f with
    | None | Some AlignRight => after = 0%nat
    | Some AlignLeft => before = 0%nat
    | Some AlignCenter => (before <= after <= before + 1)%nat
    end.

Lemma pad_integral_placed f ds : number_placed f ds (pad_integral f ds).
Proof.
  unfold pad_integral, number_placed.
  set (missing := match width f with Some w => w - N.of_nat (length ds) | None => 0 end).
  assert (match width f with Some w => N.to_nat w - length ds | None => 0 end = N.to_nat missing)%nat as ->.
  { unfold missing. destruct (width f); lia. }
  assert (forall k, flat_map written (write_fill f k) = concat (repeat (utf8 [fill f]) (N.to_nat k))) as Hw.
  { intros k. unfold write_fill. rewrite flat_map_concat_map. f_equal. generalize (N.to_nat k). intros j.
    induction j as [|j IH]; [reflexivity|]. cbn [repeat map written]. rewrite IH. reflexivity. }
  unfold padding. destruct (align f) as [[]|]; rewrite !Hw; eexists _, _; (split; [reflexivity|]); lia.
Qed.

(** ** C86 *)

(** The variant, and in parentheses the number, which alone obeys the options. *)
Theorem C86_error : forall f e, alternate f = false ->
  match e with
  | NoZeroSymbol => error_debug f e = bytes "NoZeroSymbol"
  | OutOfMemory n => exists ds shown, decimal_numeral n ds /\ number_placed f ds shown /\
      error_debug f e = bytes "OutOfMemory("%string ++ shown ++ bytes ")"
  | OutOfBounds n => exists ds shown, decimal_numeral n ds /\ number_placed f ds shown /\
      error_debug f e = bytes "OutOfBounds("%string ++ shown ++ bytes ")"
  end.
Proof.
  intros f e Ha. unfold error_debug. destruct e as [|n|n]; cbn [error_shape shape_debug]; [reflexivity|..]; rewrite Ha; cbn [map fields_inline flat_map];
    (eexists _, _; split; [apply int_digits_decimal|]; split; [apply pad_integral_placed|]); rewrite app_nil_r; reflexivity.
Qed.
Print Assumptions C86_error.

(** With [#] on three lines. *)
Theorem C86_error_alternate : forall f e, alternate f = true -> width f = None ->
  match e with
  | NoZeroSymbol => error_debug f e = bytes "NoZeroSymbol"
  | OutOfMemory n => exists ds, decimal_numeral n ds /\
      error_debug f e = bytes "OutOfMemory("%string ++ [0x0A] ++ bytes "    "%string ++ ds ++ bytes ","%string ++ [0x0A] ++ bytes ")"
  | OutOfBounds n => exists ds, decimal_numeral n ds /\
      error_debug f e = bytes "OutOfBounds("%string ++ [0x0A] ++ bytes "    "%string ++ ds ++ bytes ","%string ++ [0x0A] ++ bytes ")"
  end.
Proof.
  assert (forall ds, ~ In 0x0A ds -> indent true (ds ++ bytes ","%string ++ [0x0A]) = bytes "    " ++ ds ++ bytes ","%string ++ [0x0A]) as Hind.
  { assert (forall ds, ~ In 0x0A ds -> indent false (ds ++ bytes ","%string ++ [0x0A]) = ds ++ bytes ","%string ++ [0x0A]) as H.
    { induction ds as [|b ds IH]; intros H; [reflexivity|]. cbn [app indent].
      assert (b =? 0x0A = false) as -> by (apply N.eqb_neq; intros ->; apply H; left; reflexivity).
      rewrite IH by (intros Hi; apply H; right; exact Hi). reflexivity. }
    intros [|b ds] Hno; [reflexivity|]. cbn [app indent].
    assert (b =? 0x0A = false) as -> by (apply N.eqb_neq; intros ->; apply Hno; left; reflexivity).
    rewrite H by (intros Hi; apply Hno; right; exact Hi). reflexivity. }
  intros f e Ha Hw.
  assert (forall n, exists ds, decimal_numeral n ds /\ ~ In 0x0A ds /\ int_debug f n = ds) as Hn.
  { intros n. exists (int_digits (N.to_nat (N.size n)) n []). pose proof (int_digits_decimal n) as Hd. split; [exact Hd|]. split.
    - destruct (decimal_chars n _ Hd) as (_ & _ & Hdig). rewrite Forall_forall in Hdig. intros H. apply Hdig in H. discriminate.
    - unfold int_debug. destruct (pad_integral_placed f (int_digits (N.to_nat (N.size n)) n [])) as (b & a & -> & Hba & _).
      rewrite Hw in Hba. assert (b = 0%nat) as -> by lia. assert (a = 0%nat) as -> by lia. cbn [repeat concat]. rewrite app_nil_r. reflexivity. }
  unfold error_debug. destruct e as [|n|n]; cbn [error_shape shape_debug]; [reflexivity|..]; rewrite Ha; cbn [map fields_on_lines flat_map shape_debug];
    destruct (Hn n) as (ds & Hd & Hno & ->); exists ds; (split; [exact Hd|]); unfold fields_on_lines; cbn [flat_map]; rewrite (Hind ds Hno), app_nil_r, <- !app_assoc; reflexivity.
Qed.
Print Assumptions C86_error_alternate.

(** Errors are equal exactly if they are the same, and then only they show the
    same text. *)
Theorem C86_errors_told_apart : forall e e',
  (error_eq e e' = true <-> e = e') /\ (error_debug plain e = error_debug plain e' <-> e = e').
Proof.
  assert (forall n, exists ds, decimal_numeral n ds /\ int_debug plain n = ds) as Hn.
  { intros n. exists (int_digits (N.to_nat (N.size n)) n []). split; [apply int_digits_decimal|].
    unfold int_debug, pad_integral. cbn. rewrite app_nil_r. reflexivity. }
  assert (forall n m, int_debug plain n ++ bytes ")" = int_debug plain m ++ bytes ")" -> n = m) as Hinj.
  { intros n m E. apply app_inv_tail in E. destruct (Hn n) as (ds & Hd & E1). destruct (Hn m) as (ds' & Hd' & E2).
    rewrite E1, E2 in E. subst ds'. eapply positional_numeral_inj; [|exact Hd|exact Hd'].
    apply distinct_NoDup. reflexivity. }
  intros e e'. split.
  - destruct e as [|n|n], e' as [|m|m]; cbn [error_eq]; try (split; intros; discriminate); try (split; reflexivity);
      rewrite N.eqb_eq; (split; [intros ->; reflexivity|intros E; injection E as E; exact E]).
  - split; [|intros ->; reflexivity]. unfold error_debug.
    destruct e as [|n|n], e' as [|m|m]; cbn [error_shape shape_debug map alternate plain fields_inline flat_map]; intros E; try reflexivity;
      try (exfalso; cbn in E; discriminate); rewrite !app_nil_r in E; do 2 apply app_inv_head in E;
      apply Hinj in E; rewrite E; reflexivity.
Qed.
Print Assumptions C86_errors_told_apart.

(** ** Collections *)

(** Letters, digits and the underscore, at least one. *)
Definition word_char (b : N) : bool :=
  (0x30 <=? b) && (b <=? 0x39) || (0x41 <=? b) && (b <=? 0x5A) || (0x61 <=? b) && (b <=? 0x7A) || (b =? 0x5F).

Definition identifier (name : string) : Prop := bytes name <> [] /\ forallb word_char (bytes name) = true.

Fixpoint identifiers (v : collection_value) : Prop :=
  match v with
  | NamedValue name => identifier name
  | OneBasedValue v => identifiers v
  | ChainValue a b => identifiers a /\ identifiers b
  | RestrictValue v _ => identifiers v
  end.

(** Values of one Rust type. *)
Fixpoint same_type (v w : collection_value) : Prop :=
  match v, w with
  | NamedValue name, NamedValue name' => name = name'
  | OneBasedValue v, OneBasedValue w => same_type v w
  | ChainValue a b, ChainValue a' b' => same_type a a' /\ same_type b b'
  | RestrictValue v _, RestrictValue w _ => same_type v w
  | _, _ => False
  end.

(** No word goes on. *)
Definition word_ends (rest : list N) : Prop := match rest with [] => True | b :: _ => word_char b = false end.

Lemma words_split w : forall w' r r', forallb word_char w = true -> forallb word_char w' = true ->
  word_ends r -> word_ends r' -> w ++ r = w' ++ r' -> w = w' /\ r = r'.
Proof.
  induction w as [|b w IH]; intros [|b' w'] r r' Hw Hw' Hr Hr' E; cbn [app] in E.
  - auto.
  - subst r. cbn in Hw', Hr. apply andb_true_iff in Hw' as [Hb _]. congruence.
  - subst r'. cbn in Hw, Hr'. apply andb_true_iff in Hw as [Hb _]. congruence.
  - injection E as -> E. cbn in Hw, Hw'. apply andb_true_iff in Hw as [_ Hw], Hw' as [_ Hw'].
    destruct (IH w' r r' Hw Hw' Hr Hr' E) as [-> ->]. auto.
Qed.

Lemma bytes_inj s : forall t, bytes s = bytes t -> s = t.
Proof.
  induction s as [|a s IH]; intros [|b t] E; try reflexivity; try discriminate.
  cbn in E. injection E as Ea E. rewrite (IH t E). f_equal.
  rewrite <- (Ascii.ascii_N_embedding a), <- (Ascii.ascii_N_embedding b). f_equal. exact Ea.
Qed.

(** What may follow a value: the end, a parenthesis, a comma or a closing
    brace. *)
Definition value_ends (rest : list N) : Prop :=
  match rest with
  | [] => True
  | b :: rest => b = 0x29 \/ b = 0x2C \/ b = 0x20 /\ match rest with b' :: _ => b' = 0x7D | [] => False end
  end.

Lemma value_ends_word rest : value_ends rest -> word_ends rest.
Proof. destruct rest as [|b rest]; [auto|]. intros [->|[->|[-> _]]]; reflexivity. Qed.

Definition number_text (n : N) : list N := int_debug plain n.

Lemma number_text_decimal n : decimal_numeral n (number_text n).
Proof.
  unfold number_text, int_debug, pad_integral. cbn [width plain padding align write_fill]. cbn. rewrite app_nil_r. apply int_digits_decimal.
Qed.

Lemma number_text_word n : forallb word_char (number_text n) = true.
Proof.
  destruct (decimal_chars n _ (number_text_decimal n)) as (_ & _ & H). apply forallb_forall. intros b Hb.
  rewrite Forall_forall in H. specialize (H b Hb). unfold ascii_digit in H. unfold word_char.
  apply andb_true_iff in H as [H1 H2]. rewrite H1, H2. reflexivity.
Qed.

Lemma number_text_inj n m : number_text n = number_text m -> n = m.
Proof.
  intros E. pose proof (number_text_decimal m) as Hm. rewrite <- E in Hm.
  eapply positional_numeral_inj; [|exact (number_text_decimal n)|exact Hm]. apply distinct_NoDup. reflexivity.
Qed.

Lemma debug_named name : collection_debug plain (NamedValue name) = bytes name.
Proof. reflexivity. Qed.

Lemma debug_one_based v : collection_debug plain (OneBasedValue v) = bytes "OneBased" ++ bytes "(" ++ collection_debug plain v ++ bytes ")".
Proof. unfold collection_debug. cbn [collection_shape shape_debug map alternate plain fields_inline flat_map]. rewrite app_nil_r. reflexivity. Qed.

Lemma debug_chain a b : collection_debug plain (ChainValue a b) =
  bytes "Chain" ++ bytes " { a: " ++ collection_debug plain a ++ bytes ", b: " ++ collection_debug plain b ++ bytes " }".
Proof.
  unfold collection_debug. cbn [collection_shape shape_debug map alternate plain fields_inline flat_map].
  rewrite app_nil_r, <- !app_assoc. reflexivity.
Qed.

Lemma debug_restrict v n : collection_debug plain (RestrictValue v n) =
  bytes "Restrict" ++ bytes "(" ++ collection_debug plain v ++ bytes ", " ++ number_text n ++ bytes ")".
Proof.
  unfold collection_debug. cbn [collection_shape shape_debug map alternate plain fields_inline flat_map].
  rewrite app_nil_r, <- !app_assoc. reflexivity.
Qed.

Lemma debug_inj v : forall w r r', identifiers v -> identifiers w -> value_ends r -> value_ends r' ->
  collection_debug plain v ++ r = collection_debug plain w ++ r' -> v = w /\ r = r'.
Proof.
  assert (forall w w' r r', forallb word_char (bytes w) = true -> forallb word_char (bytes w') = true ->
    word_ends r -> word_ends r' -> bytes w ++ r = bytes w' ++ r' -> w = w' /\ r = r') as Hw.
  { intros w w' r r' H1 H2 H3 H4 E. destruct (words_split _ _ _ _ H1 H2 H3 H4 E) as [E1 E2]. split; [apply bytes_inj, E1|exact E2]. }
  assert (forall b rest, word_char b = false -> word_ends ([b] ++ rest)) as Hend by (intros; assumption).
  induction v as [name|v IH|a IHa b IHb|v IH n]; intros [name'|v'|a' b'|v' n'] r r' Hv Hv' Hr Hr' E;
    rewrite ?debug_named, ?debug_one_based, ?debug_chain, ?debug_restrict, <- ?app_assoc in E;
    apply Hw in E as [En E];
    try exact eq_refl; try exact (proj2 Hv); try exact (proj2 Hv'); try (apply value_ends_word; assumption); try reflexivity;
    try discriminate En.
  - rewrite En, E. auto.
  - exfalso. rewrite E in Hr. destruct Hr as [H|[H|[H _]]]; discriminate H.
  - exfalso. rewrite E in Hr. destruct Hr as [H|[H|[_ H]]]; discriminate H.
  - exfalso. rewrite E in Hr. destruct Hr as [H|[H|[H _]]]; discriminate H.
  - exfalso. rewrite <- E in Hr'. destruct Hr' as [H|[H|[H _]]]; discriminate H.
  - apply app_inv_head in E. apply IH in E as [-> E]; [|assumption..|left; reflexivity|left; reflexivity].
    injection E as ->. auto.
  - exfalso. rewrite <- E in Hr'. destruct Hr' as [H|[H|[_ H]]]; discriminate H.
  - apply app_inv_head in E. destruct Hv as [Ha Hb], Hv' as [Ha' Hb'].
    apply IHa in E as [-> E]; [|assumption..|right; left; reflexivity|right; left; reflexivity].
    apply app_inv_head in E. apply IHb in E as [-> E]; [|assumption..|right; right; split; reflexivity|right; right; split; reflexivity].
    injection E as ->. auto.
  - exfalso. rewrite <- E in Hr'. destruct Hr' as [H|[H|[H _]]]; discriminate H.
  - apply app_inv_head in E. apply IH in E as [-> E]; [|assumption..|right; left; reflexivity|right; left; reflexivity].
    apply app_inv_head in E. apply words_split in E as [En' E]; [|apply number_text_word|apply number_text_word|reflexivity|reflexivity].
    apply number_text_inj in En' as ->. injection E as ->. auto.
Qed.

(** Unit structs and set names stand for themselves; wrappers show their fields. *)
Theorem C86_collection_texts :
  (forall f name, collection_debug f (NamedValue name) = bytes name) /\
  (forall v, collection_debug plain (OneBasedValue v) = bytes "OneBased(" ++ collection_debug plain v ++ bytes ")") /\
  (forall a b, collection_debug plain (ChainValue a b) =
     bytes "Chain { a: " ++ collection_debug plain a ++ bytes ", b: " ++ collection_debug plain b ++ bytes " }") /\
  (forall v n, exists ds, decimal_numeral n ds /\
     collection_debug plain (RestrictValue v n) = bytes "Restrict(" ++ collection_debug plain v ++ bytes ", " ++ ds ++ bytes ")").
Proof.
  split; [reflexivity|]. split; [apply debug_one_based|]. split; [apply debug_chain|].
  intros v n. exists (number_text n). split; [apply number_text_decimal|apply debug_restrict].
Qed.
Print Assumptions C86_collection_texts.

(** The text of a collection tells how it was put together; values of one type
    are equal exactly if they are the same. *)
Theorem C86_collections : forall v w, identifiers v -> identifiers w ->
  (collection_debug plain v = collection_debug plain w <-> v = w) /\
  (same_type v w -> (collection_eq v w = true <-> v = w)).
Proof.
  intros v w Hv Hw. split.
  - split; [|intros ->; reflexivity]. intros E. apply (debug_inj v w [] [] Hv Hw I I). rewrite !app_nil_r. exact E.
  - clear Hv Hw. revert w. induction v as [name|v IH|a IHa b IHb|v IH n]; intros [name'|v'|a' b'|v' n'] Ht; try contradiction; cbn [collection_eq same_type] in *.
    + subst. split; reflexivity.
    + rewrite (IH v' Ht). split; [intros ->; reflexivity|intros E; injection E as E; exact E].
    + destruct Ht as [Ha Hb]. rewrite andb_true_iff, (IHa a' Ha), (IHb b' Hb).
      split; [intros [-> ->]; reflexivity|intros E; injection E as E1 E2; auto].
    + rewrite andb_true_iff, (IH v' Ht), N.eqb_eq. split; [intros [-> ->]; reflexivity|intros E; injection E as E1 E2; auto].
Qed.
Print Assumptions C86_collections.

(** ** On several lines *)

Fixpoint join (lines : list (list N)) : list N :=
  match lines with
  | [] => []
  | [line] => line
  | line :: lines => line ++ [0x0A] ++ join lines
  end.

(** Four spaces before every line and a comma after the last. *)
Fixpoint block (lines : list (list N)) : list (list N) :=
  match lines with
  | [] => []
  | [line] => [bytes "    " ++ line ++ bytes ","]
  | line :: lines => (bytes "    " ++ line) :: block lines
  end.

Definition labelled (label : string) (lines : list (list N)) : list (list N) :=
  match lines with
  | [] => []
  | line :: lines => (bytes label ++ line) :: lines
  end.

Fixpoint pretty (v : collection_value) : list (list N) :=
  match v with
  | NamedValue name => [bytes name]
  | OneBasedValue v => [bytes "OneBased("] ++ block (pretty v) ++ [bytes ")"]
  | ChainValue a b => [bytes "Chain {"] ++ block (labelled "a: " (pretty a)) ++ block (labelled "b: " (pretty b)) ++ [bytes "}"]
  | RestrictValue v n => [bytes "Restrict("] ++ block (pretty v) ++ block [number_text n] ++ [bytes ")"]
  end.

Lemma indent_line line : forall rest, ~ In 0x0A line -> indent false (line ++ [0x0A] ++ rest) = line ++ [0x0A] ++ indent true rest.
Proof.
  induction line as [|b line IH]; intros rest H; [reflexivity|]. set (tail := [0x0A] ++ rest) in *. set (tail' := [0x0A] ++ indent true rest). cbn [app indent].
  assert (b =? 0x0A = false) as -> by (apply N.eqb_neq; intros ->; apply H; left; reflexivity).
  unfold tail, tail'. rewrite IH by (intros Hi; apply H; right; exact Hi). reflexivity.
Qed.

Lemma indent_first line rest : ~ In 0x0A line -> indent true (line ++ [0x0A] ++ rest) = bytes "    " ++ line ++ [0x0A] ++ indent true rest.
Proof.
  destruct line as [|b line]; intros H; [reflexivity|]. rewrite <- (indent_line (b :: line) rest H). reflexivity.
Qed.

Lemma block_ne lines : lines <> [] -> block lines <> [].
Proof. destruct lines as [|line [|]]; [contradiction|discriminate|discriminate]. Qed.

Lemma join_cons line lines : lines <> [] -> join (line :: lines) = line ++ [0x0A] ++ join lines.
Proof. destruct lines; [contradiction|reflexivity]. Qed.

Lemma indent_block lines : lines <> [] -> Forall (fun line => ~ In 0x0A line) lines ->
  indent true (join lines ++ bytes "," ++ [0x0A]) = join (block lines) ++ [0x0A].
Proof.
  induction lines as [|line lines IH]; intros Hne H; [contradiction|]. apply Forall_cons_iff in H as [Hl H].
  destruct lines as [|line' lines].
  - cbn [join block]. rewrite app_assoc, <- (app_nil_r (_ ++ [0x0A])), <- app_assoc, indent_first.
    + cbn [indent]. rewrite <- !app_assoc. reflexivity.
    + rewrite in_app_iff. intros [Hi|[Hi|[]]]; [exact (Hl Hi)|discriminate].
  - change (join (line :: line' :: lines)) with (line ++ [0x0A] ++ join (line' :: lines)).
    change (block (line :: line' :: lines)) with ((bytes "    " ++ line) :: block (line' :: lines)).
    rewrite (join_cons (bytes "    " ++ line)) by (apply block_ne; discriminate).
    rewrite <- !app_assoc, indent_first by exact Hl. rewrite IH by (discriminate || exact H). reflexivity.
Qed.

Lemma block_lines lines : Forall (fun line => ~ In 0x0A line) lines -> Forall (fun line => ~ In 0x0A line) (block lines).
Proof.
  induction lines as [|line lines IH]; intros H; [constructor|]. apply Forall_cons_iff in H as [Hl H].
  assert (~ In 0x0A (bytes "    " ++ line)) as Hb.
  { intros Hi. apply in_app_iff in Hi as [Hi|Hi]; [|exact (Hl Hi)]. cbn in Hi. intuition discriminate. }
  destruct lines as [|line' lines].
  2: { constructor; [exact Hb|exact (IH H)]. }
  repeat constructor. rewrite app_assoc. intros Hi. apply in_app_iff in Hi as [Hi|[Hi|[]]]; [exact (Hb Hi)|discriminate].
Qed.

Lemma join_app a b : a <> [] -> b <> [] -> join (a ++ b) = join a ++ [0x0A] ++ join b.
Proof.
  induction a as [|line a IH]; intros Ha Hb; [contradiction|]. cbn [app]. destruct a as [|line' a].
  - apply join_cons, Hb.
  - rewrite join_cons, IH, (join_cons line (line' :: a)), <- !app_assoc by (discriminate || assumption). reflexivity.
Qed.

Lemma labelled_join label lines : lines <> [] -> join (labelled label lines) = bytes label ++ join lines.
Proof.
  destruct lines as [|line [|line' lines]]; [contradiction|reflexivity|]. intros _. cbn [labelled].
  rewrite !join_cons, <- app_assoc by discriminate. reflexivity.
Qed.

Lemma word_no_newline w : forallb word_char w = true -> ~ In 0x0A w.
Proof. intros H Hi. rewrite forallb_forall in H. apply H in Hi. discriminate. Qed.

Lemma pretty_lines v : identifiers v -> pretty v <> [] /\ Forall (fun line => ~ In 0x0A line) (pretty v).
Proof.
  assert (forall s, forallb (fun b => negb (b =? 0x0A)) (bytes s) = true -> ~ In 0x0A (bytes s)) as Hs.
  { intros s H Hi. rewrite forallb_forall in H. apply H in Hi. discriminate. }
  assert (forall label lines, forallb (fun b => negb (b =? 0x0A)) (bytes label) = true ->
    Forall (fun line => ~ In 0x0A line) lines -> Forall (fun line => ~ In 0x0A line) (labelled label lines)) as Hl.
  { intros label [|line lines] Hlab H; [constructor|]. apply Forall_cons_iff in H as [H1 H]. constructor; [|exact H].
    intros Hi. apply in_app_iff in Hi as [Hi|Hi]; [exact (Hs label Hlab Hi)|exact (H1 Hi)]. }
  induction v as [name|v IH|a IHa b IHb|v IH n]; intros Hv; cbn [pretty].
  - split; [discriminate|]. constructor; [|constructor]. apply word_no_newline, Hv.
  - destruct (IH Hv) as [_ H]. split; [discriminate|]. rewrite !Forall_app.
    repeat split; try (repeat constructor; apply Hs; reflexivity). apply block_lines, H.
  - destruct Hv as [Ha Hb]. destruct (IHa Ha) as [_ H]. destruct (IHb Hb) as [_ H']. split; [discriminate|]. rewrite !Forall_app.
    repeat split; try (repeat constructor; apply Hs; reflexivity); apply block_lines, Hl; assumption || reflexivity.
  - destruct (IH Hv) as [_ H]. split; [discriminate|]. rewrite !Forall_app.
    repeat split; try (repeat constructor; apply Hs; reflexivity); apply block_lines; [exact H|].
    repeat constructor. apply word_no_newline, number_text_word.
Qed.

Lemma labelled_ne label lines : lines <> [] -> labelled label lines <> [].
Proof. destruct lines; [contradiction|discriminate]. Qed.

Lemma labelled_lines label lines : forallb (fun b => negb (b =? 0x0A)) (bytes label) = true ->
  Forall (fun line => ~ In 0x0A line) lines -> Forall (fun line => ~ In 0x0A line) (labelled label lines).
Proof.
  destruct lines as [|line lines]; intros Hlab H; [constructor|]. apply Forall_cons_iff in H as [H1 H]. constructor; [|exact H].
  intros Hi. apply in_app_iff in Hi as [Hi|Hi]; [|exact (H1 Hi)]. rewrite forallb_forall in Hlab. apply Hlab in Hi. discriminate.
Qed.

(** With [#] every field stands on lines of its own. *)
Theorem C86_alternate : forall f v, alternate f = true -> width f = None -> identifiers v ->
  collection_debug f v = join (pretty v).
Proof.
  intros f v Ha Hw. unfold collection_debug.
  assert (forall n, int_debug f n = number_text n) as Hnum.
  { intros n. unfold number_text, int_debug, pad_integral. rewrite Hw. unfold padding.
    destruct (align f) as [[]|]; cbn; reflexivity. }
  induction v as [name|v IH|a IHa b IHb|v IH n]; intros Hv; cbn [collection_shape shape_debug map]; rewrite ?Ha; unfold fields_on_lines; cbn [flat_map].
  - reflexivity.
  - rewrite (IH Hv), app_nil_r. destruct (pretty_lines v Hv) as [Hne Hl]. rewrite (indent_block _ Hne Hl). cbn [pretty].
    rewrite (join_app [bytes "OneBased("]), join_app by (discriminate || (apply block_ne, Hne) || (intros E; apply app_eq_nil in E as [_ E]; discriminate)).
    cbn [join]. rewrite <- !app_assoc. reflexivity.
  - destruct Hv as [H1 H2]. rewrite (IHa H1), (IHb H2), app_nil_r. destruct (pretty_lines a H1) as [Hne Hl]. destruct (pretty_lines b H2) as [Hne' Hl'].
    rewrite !app_assoc, <- (app_assoc (bytes "a")), <- (app_assoc (bytes "b")), <- !app_assoc.
    pose proof (indent_block _ (labelled_ne "a: " _ Hne) (labelled_lines "a: " _ eq_refl Hl)) as E1.
    pose proof (indent_block _ (labelled_ne "b: " _ Hne') (labelled_lines "b: " _ eq_refl Hl')) as E2.
    rewrite labelled_join in E1, E2 by assumption. rewrite <- !app_assoc in E1, E2.
    change (bytes "a: ") with (bytes "a" ++ bytes ": ") in E1. change (bytes "b: ") with (bytes "b" ++ bytes ": ") in E2.
    rewrite <- !app_assoc in E1, E2. rewrite E1, E2. cbn [pretty].
    rewrite (join_app [bytes "Chain {"]), join_app, join_app by (discriminate || (apply block_ne, labelled_ne; assumption) || (intros E; apply app_eq_nil in E as [_ E]; discriminate) || (intros E; apply app_eq_nil in E as [_ E]; apply app_eq_nil in E as [_ E]; discriminate)).
    cbn [join]. rewrite <- !app_assoc. reflexivity.
  - rewrite (IH Hv), app_nil_r, Hnum. destruct (pretty_lines v Hv) as [Hne Hl]. rewrite (indent_block _ Hne Hl).
    assert (Forall (fun line => ~ In 0x0A line) [number_text n]) as Hn by (repeat constructor; apply word_no_newline, number_text_word).
    pose proof (indent_block [number_text n] ltac:(discriminate) Hn) as E. cbn [join] in E. rewrite E. cbn [pretty].
    rewrite (join_app [bytes "Restrict("]), join_app, join_app by (discriminate || (apply block_ne, Hne) || (intros E'; apply app_eq_nil in E' as [_ E']; discriminate)).
    cbn [join]. rewrite <- !app_assoc. reflexivity.
Qed.
Print Assumptions C86_alternate.

(** The Chinese systems show their options. *)
Definition usage_name (u : chinese_usage) : string := match u with Financial => "Financial" | Ordinary => "Ordinary" end.

Definition scale_name (s : chinese_scale) : string :=
  match s with Short => "Short" | Myriad => "Myriad" | Mid => "Mid" | Long => "Long" end.

Theorem C86_chinese_texts : forall f name o,
  chinese_debug f name o =
  if alternate f then
    join [bytes name ++ bytes "("; bytes "    ChineseOptions {"; bytes "        usage: " ++ bytes (usage_name (usage o)) ++ bytes ",";
          bytes "        scale: " ++ bytes (scale_name (scale o)) ++ bytes ","; bytes "    },"; bytes ")"]
  else bytes name ++ bytes "(ChineseOptions { usage: " ++ bytes (usage_name (usage o)) ++
    bytes ", scale: " ++ bytes (scale_name (scale o)) ++ bytes " })".
Proof.
  intros f name [u s]. unfold chinese_debug. cbn [shape_debug]. destruct (alternate f) eqn:Ha.
  - cbn [join]. rewrite <- !app_assoc. f_equal. cbn [map shape_debug options_shape usage scale]. rewrite Ha.
    destruct u, s; vm_compute; reflexivity.
  - f_equal. cbn [map shape_debug options_shape usage scale]. rewrite Ha. destruct u, s; vm_compute; reflexivity.
Qed.
Print Assumptions C86_chinese_texts.

Theorem C86_chinese : forall name name' o o', identifier name -> identifier name' ->
  (chinese_debug plain name o = chinese_debug plain name' o' <-> name = name' /\ o = o') /\
  (chinese_eq o o' = true <-> o = o').
Proof.
  intros name name' [u s] [u' s'] [_ Hn] [_ Hn']. split.
  - split; [|intros [-> ->]; reflexivity]. intros E. unfold chinese_debug in E. cbn [shape_debug alternate plain] in E.
    apply words_split in E as [En E]; [|assumption..|reflexivity|reflexivity]. split; [apply bytes_inj, En|].
    destruct u, s, u', s'; try reflexivity; discriminate E.
  - destruct u, s, u', s'; split; intros E; try reflexivity; discriminate E.
Qed.
Print Assumptions C86_chinese.

Theorem C86_out_of_memory : forall f, out_of_memory_error_debug f = bytes "OutOfMemoryError".
Proof. reflexivity. Qed.
Print Assumptions C86_out_of_memory.

Example C86_case :
  error_debug plain (OutOfBounds 255) = bytes "OutOfBounds(255)" /\
  error_debug {| width := Some 5; precision := None; fill := 0x20; align := None; alternate := false |} (OutOfMemory 7) =
    bytes "OutOfMemory(    7)" /\
  collection_debug plain (RestrictValue (ChainValue (NamedValue "Decimal") (OneBasedValue (NamedValue "LetterLower"))) 16) =
    bytes "Restrict(Chain { a: Decimal, b: OneBased(LetterLower) }, 16)" /\
  collection_debug {| width := None; precision := None; fill := 0x20; align := None; alternate := true |}
    (ChainValue (NamedValue "Decimal") (OneBasedValue (NamedValue "Thai"))) = bytes
"Chain {
    a: Decimal,
    b: OneBased(
        Thai,
    ),
}" /\
  chinese_debug plain "SimplifiedChineseInformal" default_options =
    bytes "SimplifiedChineseInformal(ChineseOptions { usage: Ordinary, scale: Myriad })" /\
  identifiers (ChainValue (NamedValue "Decimal") (NamedValue "LetterLower")).
Proof. repeat split; discriminate. Qed.
