(** * PropertiesDebug: C92, [Debug] to any sink and with any flags *)

From Coq Require Import String.
From Verif Require Import Prelude Utf8Facts StringFacts Spec History Layout Format System Outcome Cases DigitFacts DigitOrder Digital Chinese PropertiesDigital PropertiesSystem
  PropertiesFormat PropertiesCaller Derived PropertiesDerived DebugWrites.

(** ** The adapter indents *)

Definition whole_line (l : list N) : Prop := exists t e, l = t ++ [e] /\ ~ In 0x0A t.

Lemma split_lines str : concat (split_inclusive str) = str /\ Forall whole_line (split_inclusive str).
Proof.
  induction str as [|b rest [IHc IHl]]; [split; [reflexivity|constructor]|]. cbn [split_inclusive].
  destruct (N.eqb_spec b 0x0A) as [E|Hb].
  - cbn [concat app]. rewrite IHc. split; [reflexivity|]. constructor; [|exact IHl]. exists [], b. split; [reflexivity|intros []].
  - destruct (split_inclusive rest) as [|line lines].
    + cbn in IHc. subst rest. split; [reflexivity|]. constructor; [|constructor]. exists [], b. split; [reflexivity|intros []].
    + cbn [concat app] in IHc |- *. rewrite IHc. split; [reflexivity|]. inversion IHl as [|? ? (t & e & -> & Ht) Hl]; subst.
      constructor; [|exact Hl]. exists (b :: t), e. split; [reflexivity|]. intros [E|Hi]; [exact (Hb E)|exact (Ht Hi)].
Qed.

Lemma indent_whole b line rest : whole_line line ->
  indent b (line ++ rest) = flat_map written (margin b) ++ line ++ indent (List.last line 0 =? 0x0A) rest.
Proof.
  intros (t & e & -> & Ht). rewrite last_last. revert b. induction t as [|x t IH]; intros b; cbn [app indent].
  - destruct b; reflexivity.
  - assert (x =? 0x0A = false) as -> by (apply N.eqb_neq; intros ->; apply Ht; left; reflexivity).
    rewrite IH by (intros Hi; apply Ht; right; exact Hi). cbn [margin flat_map app]. destruct b; reflexivity.
Qed.

Lemma adapt_lines_written lines rest : Forall whole_line lines -> forall b ws last, adapt_lines b lines = (ws, last) ->
  flat_map written ws ++ indent last rest = indent b (concat lines ++ rest).
Proof.
  intros H. induction H as [|line lines Hl _ IH]; intros b ws last E; cbn [adapt_lines] in E.
  - injection E as <- <-. reflexivity.
  - destruct (adapt_lines (List.last line 0 =? 0x0A) lines) as [ws' last'] eqn:E'. injection E as <- <-.
    cbn [concat]. rewrite <- app_assoc, (indent_whole b line _ Hl), <- (IH _ _ _ E'), flat_map_app. cbn [flat_map written].
    rewrite <- !app_assoc. reflexivity.
Qed.

Lemma char_whole ch : whole_line (utf8 [ch]) /\ (List.last (utf8 [ch]) 0 =? 0x0A) = (ch =? 0x0A).
Proof.
  unfold utf8. cbn [flat_map]. rewrite app_nil_r. unfold encode_char, whole_line.
  assert (forall a, 0x80 <= a -> (a =? 0x0A) = false) as Hneq by (intros; apply N.eqb_neq; lia).
  destruct (N.ltb_spec ch 0x80) as [H1|H1].
  { split; [exists [], ch; split; [reflexivity|intros []]|reflexivity]. }
  rewrite (Hneq ch H1).
  destruct (N.ltb_spec ch 0x800) as [H2|H2]; [|destruct (N.ltb_spec ch 0x10000) as [H3|H3]].
  - split; [eexists [_], _; split; [reflexivity|]|cbn [List.last]; apply Hneq; lia]. intros [E|[]]. lia.
  - split; [eexists [_; _], _; split; [reflexivity|]|cbn [List.last]; apply Hneq; lia]. intros [E|[E|[]]]; lia.
  - split; [eexists [_; _; _], _; split; [reflexivity|]|cbn [List.last]; apply Hneq; lia]. intros [E|[E|[E|[]]]]; lia.
Qed.

Lemma adapt_written ws : forall b, flat_map written (adapt b ws) = indent b (flat_map written ws).
Proof.
  induction ws as [|[str|ch] ws IH]; intros b; [reflexivity|..]; cbn [adapt].
  - destruct (adapt_lines b (split_inclusive str)) as [first last] eqn:E. destruct (split_lines str) as [Ec Hl].
    rewrite flat_map_app, IH, (adapt_lines_written _ _ Hl _ _ _ E), Ec. reflexivity.
  - rewrite flat_map_app. cbn [flat_map]. rewrite IH. destruct (char_whole ch) as [Hw El].
    change (written (WriteChar ch)) with (utf8 [ch]). rewrite (indent_whole b _ _ Hw), El. reflexivity.
Qed.

(** ** The builders *)

Lemma field_writes_inline open fields : flat_map written (field_writes false open fields) =
  match fields with [] => [] | _ => open ++ fields_inline (map (flat_map written) fields) end.
Proof.
  revert open. induction fields as [|field fields IH]; intros open; [reflexivity|].
  cbn [field_writes flat_map written]. rewrite flat_map_app, IH. cbn [map fields_inline]. destruct fields as [|field' fields].
  - cbn [map flat_map]. reflexivity.
  - cbn [map fields_inline flat_map]. rewrite <- !app_assoc. reflexivity.
Qed.

Lemma field_writes_lines open fields : fields <> [] -> flat_map written (field_writes true open fields) =
  open ++ fields_on_lines (map (flat_map written) fields).
Proof.
  revert open. induction fields as [|field fields IH]; intros open Hne; [contradiction|]. cbn [field_writes].
  assert (flat_map written (match open with [] => [] | _ => [WriteStr open] end) = open) as Ho.
  { destruct open; [reflexivity|]. cbn [flat_map written]. apply app_nil_r. }
  rewrite !flat_map_app, Ho, adapt_written, flat_map_app. cbn [map]. unfold fields_on_lines. cbn [flat_map written]. fold fields_on_lines.
  rewrite app_nil_r. destruct fields as [|field' fields].
  - cbn [field_writes flat_map map]. rewrite !app_nil_r. reflexivity.
  - rewrite IH by discriminate. reflexivity.
Qed.

Lemma tuple_text f name fields : fields <> [] -> flat_map written (tuple_writes f name fields) =
  if alternate f then bytes name ++ bytes "(" ++ [0x0A] ++ fields_on_lines (map (flat_map written) fields) ++ bytes ")"
  else bytes name ++ bytes "(" ++ fields_inline (map (flat_map written) fields) ++ bytes ")".
Proof.
  intros Hne. unfold tuple_writes. cbn [flat_map written]. rewrite flat_map_app. destruct fields as [|field fields]; [contradiction|].
  destruct (alternate f).
  - rewrite field_writes_lines by discriminate. cbn [flat_map written]. rewrite app_nil_r, <- !app_assoc. reflexivity.
  - rewrite field_writes_inline. cbn [flat_map written]. rewrite app_nil_r, <- !app_assoc. reflexivity.
Qed.

Lemma struct_text f name fields : fields <> [] -> flat_map written (struct_writes f name fields) =
  let texts := map (fun '(field, ws) => bytes field ++ bytes ": " ++ flat_map written ws) fields in
  if alternate f then bytes name ++ bytes " {" ++ [0x0A] ++ fields_on_lines texts ++ bytes "}"
  else bytes name ++ bytes " { " ++ fields_inline texts ++ bytes " }".
Proof.
  intros Hne. unfold struct_writes. cbn [flat_map written]. rewrite flat_map_app. destruct fields as [|field fields]; [contradiction|].
  assert (map (flat_map written) (map (fun '(field, ws) => WriteStr (bytes field) :: WriteStr (bytes ": ") :: ws) (field :: fields)) =
    map (fun '(field, ws) => bytes field ++ bytes ": " ++ flat_map written ws) (field :: fields)) as <-.
  { rewrite map_map. apply map_ext. intros [l ws]. reflexivity. }
  destruct (alternate f).
  - rewrite field_writes_lines by discriminate. cbn [flat_map written]. rewrite app_nil_r, <- !app_assoc. reflexivity.
  - rewrite field_writes_inline. cbn [map flat_map written]. rewrite app_nil_r, <- !app_assoc. reflexivity.
Qed.

(** ** C92 *)

(** What [Debug] of [str] is known to do: quotes around what it writes for each
    character. *)
Definition quotes (escape : N -> list N) (quoted : list N -> list write) : Prop :=
  forall cs, flat_map written (quoted cs) = bytes """" ++ flat_map escape cs ++ bytes """".

(** [Debug] hands over its text in pieces, and stops at the first that is
    refused. *)
Theorem C92_debug_to : forall c s escape quoted f, reachable c s -> quotes escape quoted ->
  exists ws, debug escape f s = Ret (flat_map written ws) /\
    forall k st, delivered k ws st (debug_to k quoted f s st).
Proof.
  intros c s escape quoted f Hr Hq. destruct (reachable_good _ _ Hr) as (t & text & Hrep & ->).
  unfold debug_to, debug_writes, debug, debug_maybe_inline, str_debug, str_chars.
  rewrite (rep_str _ _ _ Hrep). cbn [obind]. rewrite decode_utf8 by apply Hrep. cbn [obind].
  eexists. split; [|intros k st; apply write_all_delivered]. f_equal.
  rewrite tuple_text by discriminate. cbn [map]. rewrite tuple_text by discriminate. cbn [map]. unfold debug_tuple, fields_on_lines, fields_inline.
  destruct s; destruct (alternate f); cbn [flat_map]; rewrite !app_nil_r, Hq; reflexivity.
Qed.
Print Assumptions C92_debug_to.

(** A sink that keeps what it takes is left with the beginning of the text, and
    with all of it exactly if [Ok] is returned. *)
Theorem C92_kept : forall c s escape quoted f k content st st' ok, reachable c s -> quotes escape quoted -> keeps k content ->
  debug_to k quoted f s st = Ret (st', ok) ->
  exists out got missing, debug escape f s = Ret out /\ out = got ++ missing /\ content st' = content st ++ got /\
    (ok = true -> missing = []).
Proof.
  intros c s escape quoted f k content st st' ok Hr Hq Hk E.
  destruct (C92_debug_to c s escape quoted f Hr Hq) as (ws & Ed & Hd). exists (flat_map written ws).
  destruct (Hd k st) as [(st1 & Ht & E1)|(b & w & a & st1 & -> & Ht & E1 & Hno)]; rewrite E in E1.
  - injection E1 as -> ->. exists (flat_map written ws), []. split; [exact Ed|]. rewrite app_nil_r. split; [reflexivity|].
    split; [eapply took_kept; eassumption|reflexivity].
  - destruct ok; [exfalso; exact (Hno _ E)|]. rewrite flat_map_app in *. exists (flat_map written b). eexists. split; [exact Ed|]. split; [reflexivity|].
    split; [|discriminate]. symmetry in E1. apply Hk in E1. cbn [fst snd] in E1. rewrite E1, app_nil_r. eapply took_kept; eassumption.
Qed.
Print Assumptions C92_kept.

(** Values as the derives see them: every tuple and struct has a field. *)
Fixpoint filled (v : shape) : Prop :=
  match v with
  | ShapeUnit _ | ShapeNumber _ => True
  | ShapeTuple _ fields => fields <> [] /\ (fix all l := match l with [] => True | v :: l => filled v /\ all l end) fields
  | ShapeStruct _ fields => fields <> [] /\ (fix all l := match l with [] => True | (_, v) :: l => filled v /\ all l end) fields
  end.

Lemma number_unflagged f n : flat_map written (number_writes f no_flags n) = int_debug f n.
Proof.
  unfold number_writes, int_debug, pad_integral. cbn [no_flags sign_plus zero_pad base digits_in app].
  set (ds := int_digits (N.to_nat (N.size n)) n []). clearbody ds.
  assert (flat_map written (if alternate f then [WriteStr []] else []) = []) as Hs by (destruct (alternate f); reflexivity).
  replace (N.of_nat (length ds) + 0 + (if alternate f then N.of_nat (length (@nil N)) else 0)) with (N.of_nat (length ds)) by (destruct (alternate f); cbn [length]; lia).
  assert (flat_map written ((if alternate f then [WriteStr []] else []) ++ [WriteStr ds]) = ds) as Hplain.
  { rewrite flat_map_app, Hs. cbn [flat_map written app]. apply app_nil_r. }
  assert (forall a, flat_map written (write_fill f 0) ++ a = a) as H0 by reflexivity.
  assert (padding f 0 AlignRight = (0, 0)) as Hp0 by (unfold padding; destruct (align f) as [[]|]; reflexivity).
  destruct (width f) as [min|].
  - destruct (N.leb_spec min (N.of_nat (length ds))) as [H|H].
    + replace (min - N.of_nat (length ds)) with 0 by lia. rewrite Hp0, H0, Hplain. cbn. rewrite app_nil_r. reflexivity.
    + destruct (padding f (min - N.of_nat (length ds)) AlignRight) as [before after]. rewrite !flat_map_app, Hs. reflexivity.
  - rewrite Hp0, H0, Hplain. cbn. rewrite app_nil_r. reflexivity.
Qed.

(** The derived [Debug]s print what C86 says. *)
Theorem C92_derived : forall f v, filled v -> flat_map written (shape_writes f no_flags v) = shape_debug f v.
Proof.
  intros f. fix IH 1. intros [name|name fields|name fields|n] Hf; cbn [shape_writes shape_debug].
  - cbn [flat_map written]. apply app_nil_r.
  - destruct Hf as [Hne Hf]. rewrite tuple_text.
    2: { destruct fields; [contradiction|discriminate]. }
    assert (map (flat_map written) (map (shape_writes f no_flags) fields) = map (shape_debug f) fields) as ->; [|reflexivity].
    clear Hne. revert Hf. induction fields as [|v fields IHf]; [reflexivity|]. intros [Hv Hf]. cbn [map]. rewrite (IH v Hv), (IHf Hf). reflexivity.
  - destruct Hf as [Hne Hf]. rewrite struct_text.
    2: { destruct fields; [contradiction|discriminate]. }
    assert (map (fun '(field, ws) => bytes field ++ bytes ": " ++ flat_map written ws) (map (fun '(field, v) => (field, shape_writes f no_flags v)) fields) =
      map (fun '(field, v) => bytes field ++ bytes ": " ++ shape_debug f v) fields) as ->; [|reflexivity].
    clear Hne. revert Hf. induction fields as [|[l v] fields IHf]; [reflexivity|]. intros [Hv Hf]. cbn [map]. rewrite (IH v Hv), (IHf Hf). reflexivity.
  - apply number_unflagged.
Qed.
Print Assumptions C92_derived.

(** ** Flags *)

Definition hex_chars (letter : N) : list N := ten_from ascii_zero ++ map (N.add letter) [0; 1; 2; 3; 4; 5].

Lemma hex_nth letter d : d < 16 -> digit_char (hex_chars letter) d = if d <? 10 then 0x30 + d else letter + (d - 10).
Proof.
  intros H. assert (In d [0; 1; 2; 3; 4; 5; 6; 7; 8; 9; 10; 11; 12; 13; 14; 15]) as Hin by (cbn; lia).
  cbn [In] in Hin. repeat destruct Hin as [<-|Hin]; try reflexivity. contradiction.
Qed.

Lemma hex_digits_are letter fuel : forall n acc, n < 16 ^ N.of_nat (S fuel) ->
  exists ds, hex_digits letter fuel n acc = ds ++ acc /\ positional_numeral (hex_chars letter) n ds.
Proof.
  induction fuel as [|fuel IH]; intros n acc Hn; cbn [hex_digits].
  - change (16 ^ N.of_nat 1) with 16 in Hn. assert (n <? 16 = true) as -> by (apply N.ltb_lt, Hn).
    eexists [_]. split; [reflexivity|]. exists [n]. rewrite N.mod_small by exact Hn. repeat split.
    + constructor; [exact Hn|constructor].
    + cbn [map]. rewrite hex_nth by exact Hn. reflexivity.
  - destruct (N.ltb_spec n 16) as [Hlt|Hge].
    + eexists [_]. split; [reflexivity|]. exists [n]. rewrite N.mod_small by exact Hlt. repeat split.
      * constructor; [exact Hlt|constructor].
      * cbn [map]. rewrite hex_nth by exact Hlt. reflexivity.
    + set (last := if n mod 16 <? 10 then _ else _). destruct (IH (n / 16) (last :: acc)) as (ds & E & ks & Hb & Hc & Hv & ->).
      { rewrite Nat2N.inj_succ, N.pow_succ_r' in Hn. apply N.div_lt_upper_bound; [discriminate|exact Hn]. }
      exists (map (digit_char (hex_chars letter)) ks ++ [last]). split; [rewrite E, <- app_assoc; reflexivity|].
      assert (n mod 16 < 16) as Hm by (apply N.mod_lt; discriminate).
      exists (ks ++ [n mod 16]). repeat split.
      * apply Forall_app. split; [exact Hb|]. constructor; [exact Hm|constructor].
      * destruct ks as [|k [|k' ks]]; [contradiction| |exact Hc]. change (0 * 16 + k = n / 16) in Hv. cbn [app canonical].
        pose proof (N.div_le_mono 16 n 16 ltac:(discriminate) Hge). change (16 / 16) with 1 in *. lia.
      * rewrite positional_value_app, Hv. change (N.of_nat (length (hex_chars letter))) with 16.
        pose proof (N.div_mod n 16 ltac:(discriminate)). lia.
      * rewrite map_app. cbn [map]. rewrite hex_nth by exact Hm. reflexivity.
Qed.

(** The digits a number is printed with. *)
Definition numeral_in (r : radix) (n : N) (ds : list N) : Prop :=
  match r with
  | Dec => decimal_numeral n ds
  | LowerHex => positional_numeral (chars "0123456789abcdef") n ds
  | UpperHex => positional_numeral (chars "0123456789ABCDEF") n ds
  end.

Lemma digits_in_numeral r n : numeral_in r n (digits_in r n).
Proof.
  assert (n < 16 ^ N.of_nat (S (N.to_nat (N.size n)))) as Hn.
  { rewrite Nat2N.inj_succ, N2Nat.id. pose proof (N.size_gt n) as H.
    assert (2 ^ N.size n <= 16 ^ N.succ (N.size n)).
    { rewrite N.pow_succ_r'. assert (2 ^ N.size n <= 16 ^ N.size n) by (apply N.pow_le_mono_l; lia).
      pose proof (N.pow_nonzero 16 (N.size n) ltac:(discriminate)). lia. }
    lia. }
  destruct r; cbn [numeral_in digits_in]; [apply int_digits_decimal|..];
    match goal with |- positional_numeral _ _ (hex_digits ?l _ _ _) =>
      destruct (hex_digits_are l _ n [] Hn) as (ds & E & Hd); rewrite app_nil_r in E; rewrite E; exact Hd end.
Qed.

(** How a number with digits [ds] is placed: a sign if asked for, 0x in front of
    hexadecimal digits with [#]; [0] fills with zeros behind these and ignores
    fill and alignment. *)
Definition flagged (f : format_options) (g : flags) (ds out : list N) : Prop :=
  let start := (if sign_plus g then bytes "+" else []) ++
               (if alternate f then match base g with Dec => [] | _ => bytes "0x" end else []) in
  let missing := match width f with Some w => N.to_nat w - length (start ++ ds) | None => 0 end%nat in
  if zero_pad g then out = start ++ repeat ascii_zero missing ++ ds
  else exists before after,
    out = concat (repeat (utf8 [fill f]) before) ++ start ++ ds ++ concat (repeat (utf8 [fill f]) after) /\
    (before + after = missing)%nat /\
    match align f with
    | None | Some AlignRight => after = 0%nat
    | Some AlignLeft => before = 0%nat
    | Some AlignCenter => (before <= after <= before + 1)%nat
    end.

Theorem C92_number : forall f g n, exists ds,
  numeral_in (base g) n ds /\ flagged f g ds (flat_map written (number_writes f g n)).
Proof.
  intros f g n. exists (digits_in (base g) n). split; [apply digits_in_numeral|]. unfold number_writes, flagged. cbv zeta.
  set (ds := digits_in (base g) n). clearbody ds.
  set (prefix := match base g with Dec => [] | _ => bytes "0x" end).
  set (start := (if sign_plus g then bytes "+" else []) ++ (if alternate f then prefix else [])).
  set (ws := (if sign_plus g then [WriteChar 0x2B] else []) ++ (if alternate f then [WriteStr prefix] else [])).
  assert (flat_map written ws = start) as Hws.
  { unfold ws, start. rewrite flat_map_app. destruct (sign_plus g), (alternate f); cbn [flat_map written app]; rewrite ?app_nil_r; reflexivity. }
  assert (N.of_nat (length ds) + (if sign_plus g then 1 else 0) + (if alternate f then N.of_nat (length prefix) else 0) = N.of_nat (length (start ++ ds))) as ->.
  { unfold start. rewrite !app_length. destruct (sign_plus g), (alternate f); cbn [length bytes]; lia. }
  clearbody ws start. clear prefix.
  assert (forall k, flat_map written (write_fill f k) = concat (repeat (utf8 [fill f]) (N.to_nat k))) as Hw.
  { intros k. unfold write_fill. rewrite flat_map_concat_map. f_equal. generalize (N.to_nat k). intros j.
    induction j as [|j IH]; [reflexivity|]. cbn [repeat map written]. rewrite IH. reflexivity. }
  assert (forall k, flat_map written (repeat (WriteChar 0x30) k) = repeat ascii_zero k) as Hz.
  { induction k as [|k IH]; [reflexivity|]. cbn [repeat flat_map]. rewrite IH. reflexivity. }
  assert (forall l, l = start ++ ds ->
    if zero_pad g then l = start ++ repeat ascii_zero 0 ++ ds
    else exists before after, l = concat (repeat (utf8 [fill f]) before) ++ start ++ ds ++ concat (repeat (utf8 [fill f]) after) /\
      (before + after = 0)%nat /\
      match align f with
      | None | Some AlignRight => after = 0%nat
      | Some AlignLeft => before = 0%nat
      | Some AlignCenter => (before <= after <= before + 1)%nat
      end) as Hplain.
  { intros l ->. destruct (zero_pad g); [reflexivity|]. exists 0%nat, 0%nat. cbn [repeat concat app]. rewrite app_nil_r.
    split; [reflexivity|]. split; [reflexivity|]. destruct (align f) as [[]|]; lia. }
  destruct (width f) as [min|].
  2: { apply Hplain. rewrite flat_map_app, Hws. cbn [flat_map written]. rewrite app_nil_r. reflexivity. }
  destruct (N.leb_spec min (N.of_nat (length (start ++ ds)))) as [Hle|Hgt].
  { replace (N.to_nat min - length (start ++ ds))%nat with 0%nat by lia. apply Hplain.
    rewrite flat_map_app, Hws. cbn [flat_map written]. rewrite app_nil_r. reflexivity. }
  replace (N.to_nat min - length (start ++ ds))%nat with (N.to_nat (min - N.of_nat (length (start ++ ds)))) by lia.
  generalize (min - N.of_nat (length (start ++ ds))). intros k.
  destruct (zero_pad g).
  - rewrite !flat_map_app, Hws, Hz. cbn [flat_map written]. rewrite app_nil_r. reflexivity.
  - unfold padding. destruct (align f) as [[]|]; eexists _, _;
      (split; [rewrite !flat_map_app, Hws; cbn [flat_map written]; rewrite !Hw; reflexivity|]; lia).
Qed.
Print Assumptions C92_number.

(** Flags reach nothing but the numbers. *)
Theorem C92_flags : forall f g v, alternate f = false ->
  flat_map written (shape_writes f g v) =
  match v with
  | ShapeUnit name => bytes name
  | ShapeNumber n => flat_map written (number_writes f g n)
  | ShapeTuple name [] => bytes name
  | ShapeTuple name (v :: vs) =>
      bytes name ++ bytes "(" ++ flat_map written (shape_writes f g v) ++
      flat_map (fun v => bytes ", " ++ flat_map written (shape_writes f g v)) vs ++ bytes ")"
  | ShapeStruct name [] => bytes name
  | ShapeStruct name ((field, v) :: fields) =>
      bytes name ++ bytes " { " ++ bytes field ++ bytes ": " ++ flat_map written (shape_writes f g v) ++
      flat_map (fun '(field, v) => bytes ", " ++ bytes field ++ bytes ": " ++ flat_map written (shape_writes f g v)) fields ++ bytes " }"
  end.
Proof.
  intros f g v Ha. destruct v as [name|name [|v vs]|name [|[field v] fields]|n]; cbn [shape_writes map].
  - cbn [flat_map written]. apply app_nil_r.
  - unfold tuple_writes. cbn [flat_map written field_writes app]. apply app_nil_r.
  - rewrite tuple_text by discriminate. rewrite Ha. cbn [map fields_inline]. rewrite <- !app_assoc. do 4 f_equal.
    induction vs as [|v' vs IH]; [reflexivity|]. cbn [map flat_map]. rewrite IH. reflexivity.
  - unfold struct_writes. cbn [flat_map written field_writes map app]. apply app_nil_r.
  - rewrite struct_text by discriminate. rewrite Ha. cbv zeta. cbn [map fields_inline]. rewrite <- !app_assoc. do 6 f_equal.
    induction fields as [|[field' v'] fields IH]; [reflexivity|]. cbn [map flat_map]. rewrite IH. reflexivity.
  - reflexivity.
Qed.
Print Assumptions C92_flags.

(** With [#]: each field on lines of its own, four spaces further in, a comma
    after it. *)
Fixpoint laid_out (number : N -> list N) (v : shape) : list (list N) :=
  match v with
  | ShapeUnit name => [bytes name]
  | ShapeNumber n => [number n]
  | ShapeTuple name fields => [bytes name ++ bytes "("] ++ flat_map (fun v => block (laid_out number v)) fields ++ [bytes ")"]
  | ShapeStruct name fields =>
      [bytes name ++ bytes " {"] ++
      flat_map (fun '(field, v) =>
        block match laid_out number v with
              | [] => []
              | first :: others => (bytes field ++ bytes ": " ++ first) :: others
              end) fields ++
      [bytes "}"]
  end.

(** No name has a line break. *)
Fixpoint one_line (v : shape) : Prop :=
  match v with
  | ShapeUnit name => ~ In 0x0A (bytes name)
  | ShapeNumber _ => True
  | ShapeTuple name fields => ~ In 0x0A (bytes name) /\ (fix all l := match l with [] => True | v :: l => one_line v /\ all l end) fields
  | ShapeStruct name fields => ~ In 0x0A (bytes name) /\
      (fix all l := match l with [] => True | (field, v) :: l => ~ In 0x0A (bytes field) /\ one_line v /\ all l end) fields
  end.

Definition unbroken (lines : list (list N)) : Prop := lines <> [] /\ Forall (fun line => ~ In 0x0A line) lines.

Lemma join_blocks fields : Forall unbroken fields -> forall first close,
  join ([first] ++ flat_map block fields ++ [close]) = first ++ [0x0A] ++ fields_on_lines (map join fields) ++ close.
Proof.
  induction 1 as [|lines fields [Hne Hl] Hf IH]; intros first close; [reflexivity|].
  change (fields_on_lines (map join (lines :: fields))) with (indent true (join lines ++ bytes "," ++ [0x0A]) ++ fields_on_lines (map join fields)).
  cbn [flat_map]. rewrite (indent_block _ Hne Hl), join_app, <- !app_assoc by (discriminate || (intros E; apply app_eq_nil in E as [_ E]; discriminate)).
  cbn [join]. do 2 f_equal.
  rewrite join_app; [|apply block_ne, Hne|intros E; apply app_eq_nil in E as [_ E]; discriminate]. f_equal. f_equal.
  specialize (IH [] close). cbn [app] in IH. rewrite join_cons in IH by (intros E; apply app_eq_nil in E as [_ E]; discriminate).
  cbn [app] in IH. injection IH as IH. exact IH.
Qed.

Lemma blocks_lines fields : Forall unbroken fields -> Forall (fun line => ~ In 0x0A line) (flat_map block fields).
Proof.
  induction 1 as [|lines fields [Hne Hl] Hf IH]; [constructor|]. cbn [flat_map]. apply Forall_app. split; [apply block_lines, Hl|exact IH].
Qed.

Lemma labelled_unbroken label lines : ~ In 0x0A label -> unbroken lines ->
  unbroken match lines with [] => [] | first :: others => (label ++ first) :: others end /\
  join match lines with [] => [] | first :: others => (label ++ first) :: others end = label ++ join lines.
Proof.
  intros Hlab [Hne Hl]. destruct lines as [|line lines]; [contradiction|]. apply Forall_cons_iff in Hl as [H1 H2]. split.
  - split; [discriminate|]. constructor; [|exact H2]. rewrite in_app_iff. tauto.
  - destruct lines as [|line' lines]; [reflexivity|]. rewrite !join_cons, <- app_assoc by discriminate. reflexivity.
Qed.

Lemma alternate_text : forall f g v, alternate f = true -> fill f <> 0x0A -> filled v -> one_line v ->
  let number n := flat_map written (number_writes f g n) in
  flat_map written (shape_writes f g v) = join (laid_out number v) /\ unbroken (laid_out number v).
Proof.
  intros f g v Ha Hfill Hv Ho number. revert v Hv Ho.
  assert (forall a b : list N, ~ In 0x0A a -> ~ In 0x0A b -> ~ In 0x0A (a ++ b)) as Happ by (intros a b; rewrite in_app_iff; tauto).
  assert (forall a, forallb (fun b => negb (b =? 0x0A)) (bytes a) = true -> ~ In 0x0A (bytes a)) as Hb.
  { intros a H Hi. rewrite forallb_forall in H. apply H in Hi. discriminate. }
  assert (forall n, ~ In 0x0A (number n)) as Hnum.
  { intros n. destruct (C92_number f g n) as (ds & Hds & Hfl). fold (number n) in Hfl. unfold flagged in Hfl. cbv zeta in Hfl.
    assert (~ In 0x0A ds) as Hd.
    { assert (exists digits, forallb (fun b => negb (b =? 0x0A)) digits = true /\ (1 <= length digits)%nat /\ positional_numeral digits n ds) as (digits & Hok & Hl & Hp).
      { destruct (base g); cbn [numeral_in] in Hds; eexists; (split; [|split; [|exact Hds]]); vm_compute; auto. lia. lia. lia. }
      destruct Hp as (ks & Hks & _ & _ & ->). intros Hi. apply in_map_iff in Hi as (k & E & Hk).
      pose proof (proj1 (Forall_forall _ _) Hks k Hk) as Hlt. cbv beta in Hlt. rewrite forallb_forall in Hok.
      assert (In (digit_char digits k) digits) as Hin by (unfold digit_char; apply nth_In; lia).
      specialize (Hok _ Hin). rewrite E in Hok. discriminate. }
    assert (~ In 0x0A ((if sign_plus g then bytes "+" else []) ++
               (if alternate f then match base g with Dec => [] | _ => bytes "0x" end else []))) as Hs.
    { apply Happ; [destruct (sign_plus g); [apply Hb; reflexivity|intros []]|]. rewrite Ha. destruct (base g); [intros []|apply Hb; reflexivity..]. }
    destruct (zero_pad g).
    - rewrite Hfl. apply Happ; [exact Hs|]. apply Happ; [|exact Hd]. intros Hi. apply repeat_spec in Hi. discriminate.
    - destruct Hfl as (before & after & -> & _).
      assert (~ In 0x0A (utf8 [fill f])) as Hu.
      { unfold utf8. cbn [flat_map]. rewrite app_nil_r. unfold encode_char.
        destruct (N.ltb_spec (fill f) 0x80); [intros [E|[]]; congruence|].
        destruct (N.ltb_spec (fill f) 0x800); [|destruct (N.ltb_spec (fill f) 0x10000)]; cbn [In]; intros Hi; lia. }
      assert (forall k, ~ In 0x0A (concat (repeat (utf8 [fill f]) k))) as Hk.
      { induction k as [|k IH]; [intros []|]. cbn [repeat concat]. apply Happ; assumption. }
      auto 10. }
  fix IH 1. intros [name|name fields|name fields|n] Hv Ho; cbn [shape_writes laid_out].
  - split; [apply app_nil_r|]. split; [discriminate|]. constructor; [exact Ho|constructor].
  - destruct Hv as [Hne Hv]. destruct Ho as [Hname Ho].
    assert (map (flat_map written) (map (shape_writes f g) fields) = map join (map (laid_out number) fields) /\ Forall unbroken (map (laid_out number) fields)) as [E Hu].
    { clear Hne. revert Hv Ho. induction fields as [|v fields IHf]; intros Hv Ho; [split; [reflexivity|constructor]|].
      destruct Hv as [Hv1 Hv2]. destruct Ho as [Ho1 Ho2]. destruct (IH v Hv1 Ho1) as [E1 U1]. destruct (IHf Hv2 Ho2) as [E2 U2].
      cbn [map]. rewrite E1, E2. split; [reflexivity|]. constructor; assumption. }
    rewrite tuple_text by (destruct fields; [contradiction|discriminate]). rewrite Ha, E.
    assert (flat_map (fun v => block (laid_out number v)) fields = flat_map block (map (laid_out number) fields)) as ->.
    { clear. induction fields as [|v fields IHf]; [reflexivity|]. cbn [map flat_map]. rewrite IHf. reflexivity. }
    rewrite (join_blocks _ Hu). split; [rewrite <- !app_assoc; reflexivity|]. split; [discriminate|].
    apply Forall_cons; [apply Happ; [exact Hname|apply Hb; reflexivity]|]. apply Forall_app. split; [apply blocks_lines, Hu|].
    constructor; [apply Hb; reflexivity|constructor].
  - destruct Hv as [Hne Hv]. destruct Ho as [Hname Ho].
    set (lines := fun '(field, v) => match laid_out number v with [] => [] | first :: others => (bytes field ++ bytes ": " ++ first) :: others end : list (list N)).
    assert (map (fun '(field, ws) => bytes field ++ bytes ": " ++ flat_map written ws) (map (fun '(field, v) => (field, shape_writes f g v)) fields) =
        map join (map lines fields) /\ Forall unbroken (map lines fields)) as [E Hu].
    { clear Hne. revert Hv Ho. induction fields as [|[field v] fields IHf]; intros Hv Ho; [split; [reflexivity|constructor]|].
      destruct Hv as [Hv1 Hv2]. destruct Ho as (Ho0 & Ho1 & Ho2). destruct (IH v Hv1 Ho1) as [E1 U1]. destruct (IHf Hv2 Ho2) as [E2 U2].
      destruct (labelled_unbroken (bytes field ++ bytes ": ") (laid_out number v)) as [U3 E3]; [apply Happ; [exact Ho0|apply Hb; reflexivity]|exact U1|].
      assert (lines (field, v) = match laid_out number v with [] => [] | first :: others => ((bytes field ++ bytes ": ") ++ first) :: others end) as El.
      { unfold lines. destruct (laid_out number v); [reflexivity|]. rewrite <- app_assoc. reflexivity. }
      cbn [map]. rewrite E2, El, E3, <- app_assoc, <- E1. split; [reflexivity|]. constructor; assumption. }
    rewrite struct_text by (destruct fields; [contradiction|discriminate]). cbv zeta. rewrite Ha, E.
    assert (flat_map (fun '(field, v) => block match laid_out number v with [] => [] | first :: others => (bytes field ++ bytes ": " ++ first) :: others end) fields =
      flat_map block (map lines fields)) as ->.
    { clear. induction fields as [|[field v] fields IHf]; [reflexivity|]. cbn [map flat_map]. rewrite IHf. reflexivity. }
    rewrite (join_blocks _ Hu). split; [rewrite <- !app_assoc; reflexivity|]. split; [discriminate|].
    apply Forall_cons; [apply Happ; [exact Hname|apply Hb; reflexivity]|]. apply Forall_app. split; [apply blocks_lines, Hu|].
    constructor; [apply Hb; reflexivity|constructor].
  - split; [reflexivity|]. split; [discriminate|]. constructor; [apply Hnum|constructor].
Qed.

Theorem C92_alternate : forall f g v, alternate f = true -> fill f <> 0x0A -> filled v -> one_line v ->
  exists number, (forall n, exists ds, numeral_in (base g) n ds /\ flagged f g ds (number n)) /\
    flat_map written (shape_writes f g v) = join (laid_out number v).
Proof.
  intros f g v Ha Hf Hv Ho. exists (fun n => flat_map written (number_writes f g n)). split; [intros n; apply C92_number|].
  exact (proj1 (alternate_text f g v Ha Hf Hv Ho)).
Qed.
Print Assumptions C92_alternate.

Example C92_alternate_case :
  let f := {| width := Some 8; precision := None; fill := 0x2A; align := Some AlignCenter; alternate := true |} in
  let g := {| sign_plus := true; zero_pad := false; base := UpperHex |} in
  let v := collection_shape (ChainValue (NamedValue "EnglishLowercase") (RestrictValue (OneBasedValue (NamedValue "Decimal")) 0xBEEF)) in
  (alternate f = true /\ fill f <> 0x0A /\ filled v /\ one_line v) /\
  flat_map written (shape_writes f g v) = bytes "Chain {
    a: EnglishLowercase,
    b: Restrict(
        OneBased(
            Decimal,
        ),
        +0xBEEF*,
    ),
}".
Proof.
  cbv zeta. split; [|reflexivity].
  split; [reflexivity|]. split; [discriminate|]. split; [cbn; repeat split; discriminate|].
  cbn. repeat split; repeat (intros [H|H]; [discriminate H|revert H]); intros [].
Qed.

(** Every value of the crate is filled. *)
Theorem C92_values : (forall e, filled (error_shape e)) /\ (forall v, filled (collection_shape v)) /\
  forall name o, filled (ShapeTuple name [options_shape o]).
Proof.
  split; [intros []; cbn; repeat split; discriminate|]. split; [|intros name [[] []]; cbn; repeat split; discriminate].
  induction v as [name|v IH|a IHa b IHb|v IH n]; cbn; repeat split; try discriminate; assumption.
Qed.
Print Assumptions C92_values.

(** One character at a time, as [escape_debug] asks for. *)
Definition one_by_one (cs : list N) : list write := WriteChar 0x22 :: map WriteChar cs ++ [WriteChar 0x22].

Example C92_case :
  quotes encode_char one_by_one /\
  debug_to (buffer 30) one_by_one plain (from_string (bytes "xviii")) [] = Ret (bytes "NominalString(Heap(""xviii""))", true) /\
  debug_to (buffer 25) one_by_one plain (from_string (bytes "xviii")) [] = Ret (bytes "NominalString(Heap(""xviii", false) /\
  debug_to (buffer 26) one_by_one {| width := None; precision := None; fill := 0x20; align := None; alternate := true |} (from_string (bytes "xviii")) [] =
    Ret (bytes "NominalString(
    Heap(
", false) /\
  let wide := {| width := Some 6; precision := None; fill := 0x2A; align := Some AlignLeft; alternate := false |} in
  flat_map written (shape_writes wide {| sign_plus := true; zero_pad := false; base := UpperHex |} (error_shape (OutOfBounds 0xBEEF))) =
    bytes "OutOfBounds(+BEEF*)" /\
  flat_map written (shape_writes wide {| sign_plus := false; zero_pad := true; base := LowerHex |} (error_shape (OutOfBounds 0xBEEF))) =
    bytes "OutOfBounds(00beef)".
Proof.
  split.
  { intros cs. unfold one_by_one. cbn [flat_map]. rewrite flat_map_app. cbn [flat_map]. f_equal. f_equal.
    rewrite flat_map_concat_map, map_map, <- flat_map_concat_map. apply flat_map_ext. intros ch. cbn [written]. unfold utf8. cbn [flat_map]. apply app_nil_r. }
  vm_compute. repeat split.
Qed.
