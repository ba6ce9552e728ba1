(** * PropertiesFormat: C61 to C63, strings as the caller goes on to use them *)

From Coq Require Import String.
From Verif Require Import Prelude Utf8Facts StringFacts History Layout Format Live Outcome Cases PropertiesSystem PropertiesUser.

(** ** C61: [Display] with formatting options *)

(** What a placeholder such as [{:*>10.3}] asks for, about characters: the
    text, cut to the precision, with fill characters around it. *)
Definition split_up (f : format_options) (text : list N) (before : nat) (kept rest : list N) (after : nat) : Prop :=
  text = kept ++ rest /\
  match precision f with
  | None => rest = []
  | Some p => N.of_nat (length kept) = p \/ rest = [] /\ N.of_nat (length kept) <= p
  end /\
  N.of_nat (before + length kept + after) = N.max (N.of_nat (length kept)) (match width f with Some w => w | None => 0 end) /\
  match align f with
  | None | Some AlignLeft => before = 0%nat
  | Some AlignRight => after = 0%nat
  | Some AlignCenter => (before <= after <= before + 1)%nat
  end.

Definition placed (f : format_options) (text out : list N) : Prop :=
  exists before kept rest after, split_up f text before kept rest after /\
    out = repeat (fill f) before ++ kept ++ repeat (fill f) after.

(** It leaves no choice. *)
Theorem C61_one_answer : forall f text out out', placed f text out -> placed f text out' -> out = out'.
Proof.
  intros f text out out' (b & k & r & a & (Ht & Hp & Hl & Ha) & Ho) (b' & k' & r' & a' & (Ht' & Hp' & Hl' & Ha') & Ho').
  assert (length k = length k') as Hk.
  { assert (length text = length k + length r)%nat as E1 by (rewrite Ht at 1; apply app_length).
    assert (length text = length k' + length r')%nat as E2 by (rewrite Ht' at 1; apply app_length).
    destruct (precision f) as [p|].
    - destruct Hp as [Hp|[-> Hp]], Hp' as [Hp'|[-> Hp']]; cbn [length] in *; lia.
    - subst r r'. cbn [length] in *. lia. }
  assert (k = k') as <-.
  { rewrite Ht in Ht'. apply (f_equal (firstn (length k))) in Ht'.
    rewrite firstn_app, firstn_all, Nat.sub_diag, firstn_O, app_nil_r in Ht'.
    rewrite Hk, firstn_app, firstn_all, Nat.sub_diag, firstn_O, app_nil_r in Ht'. exact Ht'. }
  assert (b = b' /\ a = a') as [<- <-]; [|congruence].
  destruct (align f) as [[| |]|]; lia.
Qed.
Print Assumptions C61_one_answer.

Lemma pad_writes f cs : scalars cs ->
  exists before kept rest after,
    pad f (utf8 cs) = Ret (repeat (WriteChar (fill f)) before ++ [WriteStr (utf8 kept)] ++ repeat (WriteChar (fill f)) after) /\
    split_up f cs before kept rest after.
Proof.
  intros Hs. unfold pad.
  set (kept := match precision f with
               | Some p => firstn (N.to_nat (N.min p (N.of_nat (length cs)))) cs
               | None => cs end).
  set (rest := match precision f with
               | Some p => skipn (N.to_nat (N.min p (N.of_nat (length cs)))) cs
               | None => [] end).
  assert (cs = kept ++ rest) as Hcs.
  { unfold kept, rest. destruct (precision f); [symmetry; apply firstn_skipn|symmetry; apply app_nil_r]. }
  assert (match precision f with
    | None => rest = []
    | Some p => N.of_nat (length kept) = p \/ rest = [] /\ N.of_nat (length kept) <= p
    end) as Hp.
  { unfold kept, rest. destruct (precision f) as [p|]; [|reflexivity]. rewrite firstn_length.
    destruct (N.le_gt_cases p (N.of_nat (length cs))).
    - left. lia.
    - right. split; [apply skipn_all2; lia|lia]. }
  assert (firstn (length (utf8 kept)) (utf8 cs) = utf8 kept) as Hf.
  { rewrite Hcs, utf8_app, firstn_app, firstn_all, Nat.sub_diag, firstn_O, app_nil_r. reflexivity. }
  unfold str_chars. rewrite decode_utf8 by exact Hs. cbn [obind].
  assert (forall w b a, match width f with Some w => w | None => 0 end = w ->
    N.max (N.of_nat (length kept)) w = N.of_nat (b + length kept + a) ->
    match align f with
    | None | Some AlignLeft => b = 0%nat
    | Some AlignRight => a = 0%nat
    | Some AlignCenter => (b <= a <= b + 1)%nat
    end -> split_up f cs b kept rest a) as Hplace.
  { intros w b a Hw Hl Ha. split; [exact Hcs|]. split; [exact Hp|]. split; [|exact Ha]. rewrite Hw. lia. }
  assert (forall w, match width f with Some w => w | None => 0 end = w -> w <= N.of_nat (length kept) -> split_up f cs 0 kept rest 0) as Hexact.
  { intros w Hw Hle. apply (Hplace w 0%nat 0%nat Hw).
    - lia.
    - destruct (align f) as [[| |]|]; lia. }
  destruct (width f) as [w|] eqn:Ew.
  - fold kept. cbn [obind]. rewrite Hf.
    destruct (N.ltb_spec (N.of_nat (length kept)) w) as [Hlt|Hge].
    + unfold padding. destruct (match align f with Some a => a | None => AlignLeft end) eqn:Ea.
      * do 4 eexists. split; [|apply (Hplace w 0%nat (N.to_nat (w - N.of_nat (length kept))) eq_refl)].
        -- reflexivity.
        -- lia.
        -- destruct (align f) as [[| |]|]; try discriminate; reflexivity.
      * do 4 eexists. split; [|apply (Hplace w (N.to_nat (w - N.of_nat (length kept))) 0%nat eq_refl)].
        -- reflexivity.
        -- lia.
        -- destruct (align f) as [[| |]|]; try discriminate; reflexivity.
      * set (k := w - N.of_nat (length kept)).
        pose proof (N.div_mod k 2 ltac:(lia)). pose proof (N.div_mod (k + 1) 2 ltac:(lia)).
        pose proof (N.mod_lt k 2 ltac:(lia)). pose proof (N.mod_lt (k + 1) 2 ltac:(lia)).
        do 4 eexists. split; [|apply (Hplace w (N.to_nat (k / 2)) (N.to_nat ((k + 1) / 2)) eq_refl)].
        -- reflexivity.
        -- unfold k in *. lia.
        -- destruct (align f) as [[| |]|]; try discriminate; lia.
    + exists 0%nat, kept, rest, 0%nat. split; [reflexivity|apply (Hexact w eq_refl), Hge].
  - destruct (precision f) as [p|] eqn:Ep.
    + fold kept. rewrite Hf. exists 0%nat, kept, rest, 0%nat. split; [reflexivity|]. apply (Hexact 0 eq_refl). lia.
    + exists 0%nat, kept, rest, 0%nat. split; [reflexivity|]. apply (Hexact 0 eq_refl). lia.
Qed.

Lemma repeat_text f k : flat_map written (repeat (WriteChar (fill f)) k) = utf8 (repeat (fill f) k).
Proof.
  induction k as [|k IH]; [reflexivity|]. cbn [repeat flat_map]. rewrite IH.
  change (fill f :: repeat (fill f) k) with ([fill f] ++ repeat (fill f) k). rewrite utf8_app. reflexivity.
Qed.

Lemma pad_placed f cs : scalars cs ->
  exists out, (ws <- pad f (utf8 cs) ;; Ret (flat_map written ws)) = Ret (utf8 out) /\ placed f cs out.
Proof.
  intros Hs. destruct (pad_writes f cs Hs) as (b & kept & rest & a & -> & Hp). eexists. split; [|exists b, kept, rest, a; split; [exact Hp|reflexivity]].
  cbn [obind]. rewrite !flat_map_app, !repeat_text, !utf8_app. cbn [flat_map written]. rewrite app_nil_r. reflexivity.
Qed.

(** Every string prints as the placeholder asks, about its characters and not
    its bytes, inline or not. *)
Theorem C61_display : forall c s f, reachable c s ->
  exists text out, scalars text /\ as_str s = Ret (utf8 text) /\
    display f s = Ret (utf8 out) /\ placed f text out.
Proof.
  intros c s f Hr. destruct (reachable_good _ _ Hr) as (t & text & Hrep & ->).
  destruct (pad_placed f text (proj1 Hrep)) as (out & E & Hp). exists text, out.
  split; [apply Hrep|]. split; [eapply rep_str, Hrep|]. split; [|exact Hp].
  unfold display, display_writes. rewrite (rep_str _ _ _ Hrep). exact E.
Qed.
Print Assumptions C61_display.

(** [to_string] is the text. *)
Theorem C61_to_string : forall s, display plain s = as_str s.
Proof.
  intros s. unfold display, display_writes. destruct (as_str s); [|reflexivity..]. cbn [obind].
  unfold pad. cbn [width precision plain obind flat_map written]. rewrite app_nil_r. reflexivity.
Qed.
Print Assumptions C61_to_string.

Definition stars (a : option alignment) (w p : N) : format_options :=
  {| width := Some w; precision := Some p; fill := 0x2A; align := a; alternate := false |}.

Example C61_case :
  (s <- from_str no_heap (utf8 (chars "一億一千")) ;; display (stars (Some AlignRight) 6 3) s) =
    Ret (utf8 (chars "***一億一")) /\
  (s <- from_str on_heap (utf8 (chars "一億一千")) ;; display (stars None 6 30) s) =
    Ret (utf8 (chars "一億一千**")) /\
  (s <- from_str no_heap (utf8 (chars "一億一千")) ;; display (stars (Some AlignCenter) 7 9) s) =
    Ret (utf8 (chars "*一億一千**")) /\
  (s <- from_str no_heap (utf8 (chars "一億一千")) ;; display (stars (Some AlignCenter) 2 2) s) =
    Ret (utf8 (chars "一億")) /\
  placed (stars (Some AlignCenter) 7 9) (chars "一億一千") (chars "*一億一千**").
Proof.
  do 4 (split; [vm_compute; reflexivity|]).
  exists 1%nat, (chars "一億一千"), [], 2%nat. vm_compute.
  repeat split; try lia. right. split; [reflexivity|discriminate].
Qed.

(** ** C62: [Debug] and [Clone] *)

(** [{:?}] names where the text is kept, and shows the text as [str] does. *)
Theorem C62_debug : forall c s escape f, reachable c s -> alternate f = false ->
  exists text, scalars text /\ as_str s = Ret (utf8 text) /\
  debug escape f s =
    Ret (bytes "NominalString(" ++ bytes (if is_inline s then "Inline" else "Heap") ++ bytes "(""" ++
         flat_map escape text ++ bytes """))").
Proof.
  intros c s escape f Hr Hf. destruct (reachable_good _ _ Hr) as (t & text & Hrep & ->). exists text.
  split; [apply Hrep|]. split; [eapply rep_str, Hrep|]. unfold debug, debug_maybe_inline, str_debug, str_chars.
  rewrite (rep_str _ _ _ Hrep). cbn [obind]. rewrite decode_utf8 by apply Hrep. cbn [obind]. unfold debug_tuple. rewrite Hf.
  f_equal. destruct s; cbn [is_inline]; rewrite <- !app_assoc; cbn [bytes app]; rewrite <- ?app_assoc; reflexivity.
Qed.
Print Assumptions C62_debug.

(** Lines of text, each with some levels of indentation. *)
Definition lines (ls : list (nat * list N)) : list N :=
  flat_map (fun '(k, t) => repeat 0x20 (4 * k) ++ t ++ [0x0A]) ls.

Lemma indent_line b t rest : ~ In 0x0A t -> t <> [] ->
  indent b (t ++ 0x0A :: rest) = (if b then bytes "    " else []) ++ t ++ 0x0A :: indent true rest.
Proof.
  revert b. induction t as [|x t IH]; intros b Hn Hne; [contradiction|]. cbn [indent app].
  do 2 f_equal. assert (x =? 0x0A = false) as Hx by (apply N.eqb_neq; intros ->; apply Hn; left; reflexivity). rewrite Hx.
  destruct t as [|y t].
  - reflexivity.
  - rewrite IH; [reflexivity| |discriminate]. intros H. apply Hn. right. exact H.
Qed.

Lemma indent_lines ls : Forall (fun l => ~ In 0x0A (snd l) /\ snd l <> []) ls ->
  indent true (lines ls) = lines (map (fun '(k, t) => (S k, t)) ls).
Proof.
  induction ls as [|[k t] ls IH]; intros H; [reflexivity|]. inversion H as [|? ? [Hn Hne] Hls]; subst.
  cbn [lines flat_map map]. fold (lines ls). cbn [snd] in *.
  replace ((repeat 0x20 (4 * k) ++ t ++ [0x0A]) ++ lines ls) with ((repeat 0x20 (4 * k) ++ t) ++ 0x0A :: lines ls)
    by (rewrite <- !app_assoc; reflexivity).
  rewrite indent_line.
  - rewrite IH by exact Hls. unfold lines. replace (4 * S k)%nat with (4 + 4 * k)%nat by lia. rewrite repeat_app.
    rewrite <- !app_assoc. reflexivity.
  - intros Hin. apply in_app_iff in Hin as [Hin|Hin]; [|contradiction]. apply repeat_spec in Hin. discriminate.
  - destruct (repeat _ _); [exact Hne|discriminate].
Qed.

(** [{:#?}] does so over five lines. (Escapes never contain a line break.) *)
Theorem C62_debug_alternate : forall c s escape f, reachable c s -> alternate f = true ->
  (forall ch, ~ In 0x0A (escape ch)) ->
  exists text, scalars text /\ as_str s = Ret (utf8 text) /\
  debug escape f s =
    Ret (lines [(0%nat, bytes "NominalString(");
                (1%nat, bytes (if is_inline s then "Inline(" else "Heap("));
                (2%nat, bytes """" ++ flat_map escape text ++ bytes """,");
                (1%nat, bytes "),")] ++ bytes ")").
Proof.
  intros c s escape f Hr Hf Hesc. destruct (reachable_good _ _ Hr) as (t & text & Hrep & ->). exists text.
  split; [apply Hrep|]. split; [eapply rep_str, Hrep|]. unfold debug, debug_maybe_inline, str_debug, str_chars.
  rewrite (rep_str _ _ _ Hrep). cbn [obind]. rewrite decode_utf8 by apply Hrep. cbn [obind]. f_equal.
  assert (~ In 0x0A (flat_map escape text)) as Hbody.
  { intros H. apply in_flat_map in H as (ch & _ & H). exact (Hesc ch H). }
  set (body := flat_map escape text) in *. clearbody body.
  assert (forall name, debug_tuple f name (bytes """" ++ body ++ bytes """") ++ bytes "," ++ [0x0A] =
    lines [(0%nat, bytes name ++ bytes "("); (1%nat, bytes """" ++ body ++ bytes ""","); (0%nat, bytes "),")]) as Hinner.
  { intros name. unfold debug_tuple. rewrite Hf.
    replace ((bytes """" ++ body ++ bytes """") ++ bytes "," ++ [0x0A]) with (lines [(0%nat, bytes """" ++ body ++ bytes """,")])
      by (unfold lines; cbn [flat_map Nat.mul repeat app]; rewrite app_nil_r, <- !app_assoc; reflexivity).
    rewrite indent_lines.
    - unfold lines. cbn [map flat_map Nat.mul repeat]. rewrite !app_nil_r, <- !app_assoc. reflexivity.
    - repeat constructor; [|discriminate]. cbn [snd]. rewrite !in_app_iff. cbn. intuition discriminate. }
  assert (forall name, ~ In 0x0A (bytes name) -> debug_tuple f "NominalString" (debug_tuple f name (bytes """" ++ body ++ bytes """")) =
    lines [(0%nat, bytes "NominalString("); (1%nat, bytes name ++ bytes "(");
           (2%nat, bytes """" ++ body ++ bytes ""","); (1%nat, bytes "),")] ++ bytes ")") as H.
  { intros name Hname. unfold debug_tuple at 1. rewrite Hf, Hinner, indent_lines.
    - reflexivity.
    - repeat constructor; try discriminate; cbn [snd]; rewrite ?in_app_iff; try (cbn; intuition discriminate).
      destruct (bytes name); discriminate. }
  destruct s; cbn [is_inline]; apply (H "Inline"%string ltac:(cbn; intuition discriminate)) || apply (H "Heap"%string ltac:(cbn; intuition discriminate)).
Qed.
Print Assumptions C62_debug_alternate.

(** A clone is the same string in the same place, so it behaves the same from
    then on, and neither sees what is done to the other. *)
Theorem C62_clone : forall s, clone s = s.
Proof. intros [[b m]|str]; reflexivity. Qed.
Print Assumptions C62_clone.

Example C62_case :
  (s <- from_str no_heap (utf8 (chars "Ⅳ")) ;; debug encode_char plain s) = Ret (utf8 (chars "NominalString(Inline(""Ⅳ""))")) /\
  debug encode_char plain (from_string (bytes "iv")) = Ret (bytes "NominalString(Heap(""iv""))") /\
  debug encode_char {| width := Some 9; precision := Some 1; fill := 0x20; align := None; alternate := true |} (from_string (bytes "iv")) =
    Ret (bytes "NominalString(
    Heap(
        ""iv"",
    ),
)").
Proof. do 2 (split; [vm_compute; reflexivity|]). vm_compute; reflexivity. Qed.

(** ** C63: what formatters return *)

(** The string a built-in system returns is one the caller could have built by
    pushing, so all that holds of those (C01 to C11, C59 to C62) holds of it. *)
Theorem C63_results_are_strings : forall sys c T n s,
  In sys builtin_systems -> valid_config c -> fits c T n -> sys c T n = Ret (Ok s) -> reachable c s.
Proof.
  intros sys c T n s Hin Hc H E. destruct (builtin_consistent sys Hin n) as (m & Hm).
  specialize (Hm c T Hc H). rewrite E in Hm. destruct m as [cs| |]; cbn [means] in Hm; [|destruct Hm; discriminate|discriminate].
  unfold prints in Hm. destruct (_ || _); [|discriminate]. destruct Hm as (s' & E' & _ & _ & Hr). congruence.
Qed.
Print Assumptions C63_results_are_strings.

(** So is the string returned for any collection written in safe code. *)
Theorem C63_results_of_collections : forall c T d n s,
  safe_code d -> try_format_live c T d n = Ret (Ok s) -> reachable c s.
Proof.
  intros c T d n s Hd E. pose proof (C57_sound_whatever_the_collection c T d n Hd) as H. rewrite E in H.
  destruct H as (text & _ & _ & _ & _ & _ & Hr). exact Hr.
Qed.
Print Assumptions C63_results_of_collections.

Example C63_case :
  In (fun c T => try_format_digits c T Decimal) builtin_systems /\ fits no_heap U16 1984 /\
  (r <- try_format_digits no_heap U16 Decimal 1984 ;;
   match r with
   | Ok s => '(s, _) <- try_push_front no_heap s 0x2013 ;; '(s, _) <- try_push no_heap s 0x2E ;; as_str s
   | Err _ => Panic
   end) = Ret (utf8 (chars "–1984.")).
Proof.
  split; [|split; vm_compute; reflexivity].
  unfold builtin_systems, digit_systems. rewrite !in_app_iff. left. left.
  apply (in_map (fun d c T => try_format_digits c T d)). vm_compute. tauto.
Qed.
