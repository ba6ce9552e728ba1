(** * PropertiesCaller: C71 and C72, what callers plug into the crate *)

From Coq Require Import String.
From Verif Require Import Prelude Utf8Facts StringFacts History Layout Format System Outcome Cases DigitFacts DigitOrder Digital Enumerated
  PropertiesSystem PropertiesFormat PropertiesDistinct.

(** ** C71: printing to a sink that may refuse *)

(** The sink took these writes one after another. *)
Inductive took (k : sink) : sink_state k -> list write -> sink_state k -> Prop :=
  | took_none st : took k st [] st
  | took_one st w st' ws st'' : write_to k w st = Ret (st', true) -> took k st' ws st'' -> took k st (w :: ws) st''.

(** What happens to a list of writes: all are taken, or they stop at the first
    that is refused or does not return. *)
Definition delivered (k : sink) (ws : list write) (st : sink_state k) (r : outcome (sink_state k * bool)) : Prop :=
  (exists st', took k st ws st' /\ r = Ret (st', true)) \/
  exists before w after st', ws = before ++ w :: after /\ took k st before st' /\ r = write_to k w st' /\
    forall st'', r <> Ret (st'', true).

Lemma write_all_delivered k ws : forall st, delivered k ws st (write_all k ws st).
Proof.
  induction ws as [|w ws IH]; intros st; cbn [write_all].
  - left. exists st. split; [constructor|reflexivity].
  - destruct (write_to k w st) as [[st' [|]]| | |] eqn:E; cbn [obind].
    + destruct (IH st') as [(st'' & Ht & ->)|(b & w' & a & st'' & -> & Ht & E' & Hr)].
      * left. exists st''. split; [econstructor; eassumption|reflexivity].
      * right. exists (w :: b), w', a, st''. split; [reflexivity|]. split; [econstructor; eassumption|]. auto.
    + right. exists [], w, ws, st. split; [reflexivity|]. split; [constructor|]. split; [symmetry; exact E|]. discriminate.
    + right. exists [], w, ws, st. split; [reflexivity|]. split; [constructor|]. split; [symmetry; exact E|]. discriminate.
    + right. exists [], w, ws, st. split; [reflexivity|]. split; [constructor|]. split; [symmetry; exact E|]. discriminate.
    + right. exists [], w, ws, st. split; [reflexivity|]. split; [constructor|]. split; [symmetry; exact E|]. discriminate.
Qed.

(** The text is handed over whole, in one [write_str]; each fill character is
    a [write_char]. How many there are and what is left of the text is as the
    placeholder asks (C61). *)
Theorem C71_display_to : forall c s f, reachable c s ->
  exists text before kept rest after,
    scalars text /\ as_str s = Ret (utf8 text) /\ split_up f text before kept rest after /\
    forall k st, delivered k
      (repeat (WriteChar (fill f)) before ++ [WriteStr (utf8 kept)] ++ repeat (WriteChar (fill f)) after)
      st (display_to k f s st).
Proof.
  intros c s f Hr. destruct (reachable_good _ _ Hr) as (t & text & Hrep & ->).
  destruct (pad_writes f text (proj1 Hrep)) as (before & kept & rest & after & E & Hp).
  exists text, before, kept, rest, after. split; [apply Hrep|]. split; [eapply rep_str, Hrep|]. split; [exact Hp|].
  intros k st. unfold display_to, display_writes. rewrite (rep_str _ _ _ Hrep). cbn [obind]. rewrite E. apply write_all_delivered.
Qed.
Print Assumptions C71_display_to.

(** Without options it is one [write_str] of the whole text. *)
Theorem C71_plain : forall c s, reachable c s ->
  exists text, scalars text /\ as_str s = Ret (utf8 text) /\
    forall k st, display_to k plain s st = write_to k (WriteStr (utf8 text)) st.
Proof.
  intros c s Hr. destruct (reachable_good _ _ Hr) as (t & text & Hrep & ->). exists text.
  split; [apply Hrep|]. split; [eapply rep_str, Hrep|]. intros k st. unfold display_to, display_writes.
  rewrite (rep_str _ _ _ Hrep). cbn. destruct (write_to k _ st) as [[st' [|]]| | |]; reflexivity.
Qed.
Print Assumptions C71_plain.

(** What a sink that keeps what it takes is left with: the beginning of the
    output of [format!], and all of it exactly if [Ok] was returned. *)
Definition keeps (k : sink) (content : sink_state k -> list N) : Prop :=
  forall w st r, write_to k w st = Ret r ->
    content (fst r) = content st ++ (if snd r then written w else []).

Lemma took_kept k content ws : keeps k content -> forall st st', took k st ws st' ->
  content st' = content st ++ flat_map written ws.
Proof.
  intros Hk. induction ws as [|w ws IH]; intros st st' H; inversion H; subst.
  - cbn. symmetry. apply app_nil_r.
  - pose proof (Hk _ _ _ H3) as K. cbn [fst snd] in K. rewrite (IH _ _ H5), K. cbn [flat_map]. symmetry. apply app_assoc.
Qed.

Theorem C71_kept : forall c s f k content st st' ok, reachable c s -> keeps k content ->
  display_to k f s st = Ret (st', ok) ->
  exists out got, display f s = Ret out /\ content st' = content st ++ got /\
    exists missing, out = got ++ missing /\ (ok = true -> missing = []).
Proof.
  intros c s f k content st st' ok Hr Hk E. destruct (reachable_good _ _ Hr) as (t & text & Hrep & ->).
  unfold display_to, display in *. unfold display_writes in *. rewrite (rep_str _ _ _ Hrep) in *. cbn [obind] in *.
  destruct (pad_writes f text (proj1 Hrep)) as (before & kept & rest & after & Ep & _). rewrite Ep in *. clear Ep. cbn [obind] in *.
  remember (repeat _ before ++ _) as ws. clear Heqws. exists (flat_map written ws).
  destruct (write_all_delivered k ws st) as [(st1 & Ht & E1)|(b & w & a & st1 & -> & Ht & E1 & Hno)]; rewrite E in E1.
  - injection E1 as -> ->. exists (flat_map written ws). split; [reflexivity|]. split; [eapply took_kept; eassumption|].
    exists []. rewrite app_nil_r. auto.
  - exists (flat_map written b). split; [reflexivity|]. destruct ok; [exfalso; exact (Hno _ E)|].
    split.
    + symmetry in E1. apply Hk in E1. cbn [fst snd] in E1. rewrite E1, app_nil_r. eapply took_kept; eassumption.
    + rewrite flat_map_app. eexists. split; [reflexivity|]. discriminate.
Qed.
Print Assumptions C71_kept.

(** A buffer of fixed size that refuses what does not fit. *)
Definition buffer (size : nat) : sink :=
  {| sink_state := list N;
     write_to := fun w st =>
       if (length st + length (written w) <=? size)%nat then Ret (st ++ written w, true) else Ret (st, false) |}.

Lemma buffer_keeps size : keeps (buffer size) (fun st => st).
Proof.
  intros w st r E. cbn in E. destruct (_ <=? _)%nat; injection E as <-; cbn [fst snd]; [reflexivity|].
  symmetry. apply app_nil_r.
Qed.

Lemma buffer_took size ws : forall st, (length st + length (flat_map written ws) <= size)%nat ->
  write_all (buffer size) ws st = Ret (st ++ flat_map written ws, true).
Proof.
  induction ws as [|w ws IH]; intros st H; cbn [write_all flat_map].
  - cbn. rewrite app_nil_r. reflexivity.
  - cbn [flat_map] in H. rewrite app_length in H. cbn [buffer write_to].
    destruct (Nat.leb_spec (length st + length (written w)) size) as [H1|H1]; [|lia]. cbn [obind].
    change (write_all (buffer size) ws (st ++ written w) = Ret (st ++ written w ++ flat_map written ws, true)).
    rewrite IH by (rewrite app_length; lia). rewrite app_assoc. reflexivity.
Qed.

Lemma buffer_bound size ws : forall st st' ok, (length st <= size)%nat -> write_all (buffer size) ws st = Ret (st', ok) ->
  (length st' <= size)%nat.
Proof.
  induction ws as [|w ws IH]; intros st st' ok H E; cbn [write_all] in E; [injection E as <- _; exact H|].
  cbn [buffer write_to] in E. destruct (Nat.leb_spec (length st + length (written w)) size) as [H1|H1]; cbn [obind] in E.
  - eapply IH; [|exact E]. rewrite app_length. exact H1.
  - injection E as <- _. exact H.
Qed.

(** Printing into an empty buffer succeeds if and only if there is room for
    the whole output, which it then holds. *)
Theorem C71_buffer : forall c s f size, reachable c s ->
  exists out, display f s = Ret out /\
    (if (length out <=? size)%nat then display_to (buffer size) f s [] = Ret (out, true)
     else exists got missing, out = got ++ missing /\ (length got <= size)%nat /\
       display_to (buffer size) f s [] = Ret (got, false)).
Proof.
  intros c s f size Hr. pose proof Hr as Hr'. destruct (reachable_good _ _ Hr') as (t & text & Hrep & ->).
  destruct (C61_display c s f Hr) as (_ & out & _ & _ & Ed & _). exists (utf8 out). split; [exact Ed|].
  assert (exists ws, display_writes f s = Ret ws /\ flat_map written ws = utf8 out) as (ws & Ew & Ef).
  { unfold display in Ed. destruct (display_writes f s) as [ws| | |]; try discriminate. injection Ed as Ed. eauto. }
  destruct (Nat.leb_spec (length (utf8 out)) size) as [H|H].
  - unfold display_to. rewrite Ew. cbn [obind]. rewrite (buffer_took size ws []) by (rewrite Ef; exact H). rewrite Ef. reflexivity.
  - destruct (display_to (buffer size) f s []) as [[st' ok]| | |] eqn:E.
    + destruct (C71_kept c s f (buffer size) (fun st => st) [] st' ok Hr (buffer_keeps size) E)
        as (out' & got & Ed' & Eg & missing & Em & Hok).
      rewrite Ed in Ed'. injection Ed' as <-. cbn in Eg. subst st'. exists got, missing. split; [exact Em|].
      unfold display_to in E. rewrite Ew in E. cbn [obind] in E. pose proof E as E2.
      apply buffer_bound in E2; [|cbn; lia]. split; [exact E2|]. destruct ok; [|reflexivity].
      rewrite Hok, app_nil_r in Em by reflexivity. subst got. lia.
    + exfalso. unfold display_to in E. rewrite Ew in E. cbn [obind] in E. revert E. generalize (@nil N).
      clear. induction ws as [|w ws IH]; intros st; cbn [write_all]; [discriminate|]. cbn [buffer write_to].
      destruct (_ <=? _)%nat; cbn [obind]; [apply IH|discriminate].
    + exfalso. unfold display_to in E. rewrite Ew in E. cbn [obind] in E. revert E. generalize (@nil N).
      clear. induction ws as [|w ws IH]; intros st; cbn [write_all]; [discriminate|]. cbn [buffer write_to].
      destruct (_ <=? _)%nat; cbn [obind]; [apply IH|discriminate].
    + exfalso. unfold display_to in E. rewrite Ew in E. cbn [obind] in E. revert E. generalize (@nil N).
      clear. induction ws as [|w ws IH]; intros st; cbn [write_all]; [discriminate|]. cbn [buffer write_to].
      destruct (_ <=? _)%nat; cbn [obind]; [apply IH|discriminate].
Qed.
Print Assumptions C71_buffer.

(** A text that does not fit is refused whole, after the fill in front of it. *)
Example C71_case :
  (s <- from_str no_heap (utf8 (chars "一億一千")) ;; display_to (buffer 14) (stars (Some AlignCenter) 7 9) s []) =
    Ret (utf8 (chars "*一億一千*"), false) /\
  (s <- from_str no_heap (utf8 (chars "一億一千")) ;; display_to (buffer 12) (stars (Some AlignCenter) 7 9) s []) =
    Ret (utf8 (chars "*"), false) /\
  (s <- from_str no_heap (utf8 (chars "一億一千")) ;; display_to (buffer 15) (stars (Some AlignCenter) 7 9) s []) =
    Ret (utf8 (chars "*一億一千**"), true).
Proof. repeat split; vm_compute; reflexivity. Qed.

(** ** C72: systems written by callers *)

(** [to_nominal] on a system without a [format_nominal] of its own, whatever
    its [try_format_nominal] does: the text it was given, or for an error the
    decimal numeral of the number inside the error, "0" if there is none. *)
Definition carried (e : error) : N :=
  match e with
  | NoZeroSymbol => 0
  | OutOfBounds m | OutOfMemory m => m
  end.

Theorem C72_any_system : forall c T try_format n, valid_config c ->
  match try_format n with
  | Ret (Ok s) => to_nominal n (default_system c T try_format) = Ret s
  | Ret (Err e) => fits c T (carried e) ->
      exists s cs, to_nominal n (default_system c T try_format) = Ret s /\
        decimal_numeral (carried e) cs /\ as_str s = Ret (utf8 cs)
  | Panic => to_nominal n (default_system c T try_format) = Panic
  | Hang => to_nominal n (default_system c T try_format) = Hang
  | UB => to_nominal n (default_system c T try_format) = UB
  end.
Proof.
  intros c T try_format n Hc. unfold to_nominal, default_system. cbn [format_nominal].
  destruct (try_format n) as [[s|e]| | |]; try reflexivity. intros Hf. cbn [obind].
  apply (proj2 (C47_unwrap_or_decimal c T (carried e) Hc Hf)). destruct e; cbn [carried]; auto.
Qed.
Print Assumptions C72_any_system.

(** So a failing system's number is shown in decimal if and only if that is
    the number its error carries. *)
Theorem C72_decimal_of_the_number : forall c T try_format n e s cs, valid_config c -> fits c T n ->
  try_format n = Ret (Err e) -> fits c T (carried e) ->
  to_nominal n (default_system c T try_format) = Ret s -> decimal_numeral n cs ->
  (as_str s = Ret (utf8 cs) <-> carried e = n).
Proof.
  intros c T try_format n e s cs Hc Hn E He Es Hd. pose proof (C72_any_system c T try_format n Hc) as H.
  rewrite E in H. destruct (H He) as (s' & cs' & Es' & Hd' & Hs'). rewrite Es in Es'. injection Es' as <-. rewrite Hs'. split.
  - intros Eq. injection Eq as Eq. destruct (decimal_chars n cs Hd) as [S1 _], (decimal_chars _ cs' Hd') as [S2 _].
    apply utf8_inj in Eq; [|assumption..]. subst cs'.
    eapply positional_numeral_inj; [|exact Hd'|exact Hd]. apply distinct_NoDup. vm_compute. reflexivity.
  - intros Eq. rewrite Eq in Hd'. rewrite (positional_numeral_fun _ n cs cs' Hd Hd'); reflexivity.
Qed.
Print Assumptions C72_decimal_of_the_number.

(** Systems that forward to another with a number of their own: weeks counted
    from 1, given days counted from 0. *)
Definition weeks (c : config) (T : uint) (n : N) : outcome (result nominal_string error) :=
  CircledNumber c T (n / 7 + 1).

Example C72_case :
  seen (weeks on_heap U16 20) = Ret (Ok (bytes "③"%string)) /\
  weeks on_heap U16 400 = Ret (Err (OutOfBounds 58)) /\
  (s <- to_nominal 400 (default_system on_heap U16 (weeks on_heap U16)) ;; as_str s) = Ret (bytes "58"%string) /\
  (s <- to_nominal 400 (default_system on_heap U16 (CircledNumber on_heap U16)) ;; as_str s) = Ret (bytes "400"%string).
Proof. repeat split; vm_compute; reflexivity. Qed.
