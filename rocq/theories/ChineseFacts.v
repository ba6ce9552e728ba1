(** * ChineseFacts: the Chinese formatters over signs *)

From Coq Require Import String.
From Verif Require Import Prelude Utf8Facts StringFacts History Outcome DigitSets Chinese.
From Verif Require Export SpecChinese.

(** ** Below ten thousand *)

(** The four steps of [format_chinese_inner], giving the signs written. [e]:
    nothing written yet. *)
Definition ones_t (o : N) : list sign := if is_zero o then [] else [Digit o].

Definition tens_t (formal np e : bool) (t o : N) (last : bool) : list sign :=
  if is_zero t then
    (if (negb e || negb np) && negb last && negb (is_zero o) then [Digit 0] else []) ++ ones_t o
  else
    (if negb (formal || (negb e || negb np) || last || negb (t =? 1)) then [] else [Digit t]) ++ [Marker 1] ++ ones_t o.

Definition hundreds_t (formal np e : bool) (h t o : N) (last : bool) : list sign :=
  if is_zero h then
    if (negb e || negb np) && negb last && negb (is_zero t) then [Digit 0] ++ tens_t formal np false t o true
    else tens_t formal np e t o last
  else [Digit h; Marker 2] ++ tens_t formal np false t o false.

Definition inner_t (formal np : bool) (n : N) (last : bool) : list sign :=
  let o := n mod 10 in
  let t := n / 10 mod 10 in
  let h := n / 10 / 10 mod 10 in
  let th := n / 10 / 10 / 10 in
  if is_zero th then
    if negb np && negb last && negb (is_zero h) then [Digit 0] ++ hundreds_t formal np false h t o true
    else hundreds_t formal np true h t o last
  else [Digit th; Marker 3] ++ hundreds_t formal np false h t o false.

(** *** The model's steps *)

Definition ones_k (c : config) (characters : list N) (ones : N) (formatted : nominal_string) (last : bool)
  : outcome (flagged out_of_memory) :=
  if negb (is_zero ones) then
    push_char (fun e => e) c formatted (char_at characters (as_usize c ones)) last (fun formatted =>
    Ret (Ok formatted, false))
  else Ret (Ok formatted, last).

Definition tens_k (c : config) (formal : bool) (characters : list N) (no_prefix : bool) (tens ones : N)
    (formatted : nominal_string) (last : bool) : outcome (flagged out_of_memory) :=
  empty <- is_empty formatted ;;
  if is_zero tens then
    if (negb empty || negb no_prefix) && negb last && negb (is_zero ones) then
      push_char (fun e => e) c formatted (char_at characters 0) last (fun formatted =>
      ones_k c characters ones formatted true)
    else ones_k c characters ones formatted last
  else
    let omit_digit := negb (formal || (negb empty || negb no_prefix) || last || negb (tens =? 1)) in
    let ten_marker formatted :=
      push_char (fun e => e) c formatted (char_at characters 10) last (fun formatted =>
      ones_k c characters ones formatted false) in
    if negb omit_digit then
      push_char (fun e => e) c formatted (char_at characters (as_usize c tens)) last ten_marker
    else ten_marker formatted.

Definition hundreds_k (c : config) (formal : bool) (characters : list N) (no_prefix : bool) (hundreds tens ones : N)
    (formatted : nominal_string) (last : bool) : outcome (flagged out_of_memory) :=
  empty <- is_empty formatted ;;
  if is_zero hundreds then
    if (negb empty || negb no_prefix) && negb last && negb (is_zero tens) then
      push_char (fun e => e) c formatted (char_at characters 0) true (fun formatted =>
      tens_k c formal characters no_prefix tens ones formatted true)
    else tens_k c formal characters no_prefix tens ones formatted last
  else
    push_char (fun e => e) c formatted (char_at characters (as_usize c hundreds)) last (fun formatted =>
    push_char (fun e => e) c formatted (char_at characters 11) last (fun formatted =>
    tens_k c formal characters no_prefix tens ones formatted false)).

Lemma inner_steps c formal characters n np last :
  format_chinese_inner c formal characters n np last =
  let o := n mod 10 in
  let t := n / 10 mod 10 in
  let h := n / 10 / 10 mod 10 in
  let th := n / 10 / 10 / 10 in
  if is_zero th then
    if negb np && negb last && negb (is_zero h) then
      push_char (fun e => e) c new (char_at characters 0) true (fun formatted =>
      hundreds_k c formal characters np h t o formatted true)
    else hundreds_k c formal characters np h t o new last
  else
    push_char (fun e => e) c new (char_at characters (as_usize c th)) last (fun formatted =>
    push_char (fun e => e) c formatted (char_at characters 12) last (fun formatted =>
    hundreds_k c formal characters np h t o formatted false)).
Proof. reflexivity. Qed.

(** *** Refinement *)

(** The outcome is the text [cs] and the flag [b], or out of memory. *)
Definition gives {E} (c : config) (r : outcome (flagged E)) (err : E) (cs : list N) (b : bool) : Prop :=
  exists res flag, r = Ret (res, flag) /\
    if room c cs then exists s, res = Ok s /\ text c s cs /\ flag = b else res = Err err.

Lemma push_gives {E} (conv : out_of_memory -> E) c f cs ch x flag k more b :
  text c f cs -> ch = Ret x -> is_scalar x = true ->
  (forall f', text c f' (cs ++ [x]) -> gives c (k f') (conv OutOfMemoryError) ((cs ++ [x]) ++ more) b) ->
  gives c (push_char conv c f ch flag k) (conv OutOfMemoryError) (cs ++ x :: more) b.
Proof.
  intros Ht -> Hx Hk. unfold push_char. cbn [obind].
  replace (cs ++ x :: more) with ((cs ++ [x]) ++ more) by (rewrite <- app_assoc; reflexivity).
  destruct (push_pushed c f cs x Ht Hx) as [(f' & Ep & Ht')|[Ep Hroom]]; rewrite Ep; cbn [obind].
  - apply Hk, Ht'.
  - exists (Err (conv OutOfMemoryError)), flag. split; [reflexivity|].
    rewrite room_false_pre by exact Hroom. reflexivity.
Qed.

Lemma text_gives {E} c f cs (err : E) b : text c f cs -> gives c (Ret (Ok f, b)) err cs b.
Proof.
  intros Ht. exists (Ok f), b. split; [reflexivity|]. pose proof (stored_text c 0 f cs Ht) as H. unfold stored in H.
  destruct (room c cs); [|discriminate]. eauto.
Qed.

(** What the character tables must provide. *)
Definition table_for (characters large abc : list N) : Prop :=
  scalars abc /\ length abc = 24%nat /\
  (forall i, (i < 13)%nat -> nth_error characters i = Some (nth i abc 0)) /\
  (forall r, (r < 11)%nat -> nth_error large r = Some (nth (13 + r) abc 0)).

Section Inner.
Variables (c : config) (characters large abc : list N).
Hypothesis (Hc : valid_config c) (Htab : table_for characters large abc).

Lemma glyph_scalar s : (sign_index s < 24)%nat -> is_scalar (glyph abc s) = true.
Proof.
  intros H. destruct Htab as (Hs & Hl & _). unfold scalars in Hs. rewrite Forall_forall in Hs.
  apply Hs. unfold glyph. apply nth_In. lia.
Qed.

Lemma char_at_glyph i s : sign_index s = N.to_nat i -> i < 13 -> char_at characters i = Ret (glyph abc s).
Proof.
  intros Hi Hlt. destruct Htab as (_ & _ & Hch & _). unfold char_at, lookup.
  assert (N.to_nat i < 13)%nat as Hlt' by lia. specialize (Hch _ Hlt').
  assert (N.to_nat i < length characters)%nat by (apply nth_error_Some; congruence).
  destruct (N.ltb_spec i (N.of_nat (length characters))); [|lia]. rewrite Hch. unfold glyph. rewrite Hi. reflexivity.
Qed.

Lemma digit_at d : d < 10 -> char_at characters (as_usize c d) = Ret (glyph abc (Digit d)).
Proof. intros Hd. rewrite as_usize_16 by (assumption || lia). apply char_at_glyph; [reflexivity|lia]. Qed.

Lemma large_at r : (r < 11)%nat -> or_panic (nth_error large r) = Ret (glyph abc (Large r)).
Proof. intros Hr. destruct Htab as (_ & _ & _ & Hl). rewrite Hl by assumption. reflexivity. Qed.

Definition write (l : list sign) : list N := map (glyph abc) l.

Definition none (cs : list N) : bool := match cs with [] => true | _ => false end.

Lemma none_snoc cs x : none (cs ++ [x]) = false.
Proof. destruct cs; reflexivity. Qed.

Lemma ones_gives o f cs last : o < 10 -> text c f cs ->
  gives c (ones_k c characters o f last) OutOfMemoryError (cs ++ write (ones_t o)) (if is_zero o then last else false).
Proof.
  intros Ho Ht. unfold ones_k, ones_t. destruct (is_zero o) eqn:E; cbn [negb].
  - cbn [write map]. rewrite app_nil_r. apply text_gives, Ht.
  - cbn [write map]. apply (push_gives (fun e => e) c f cs _ _ last); [assumption|apply digit_at, Ho|apply glyph_scalar; cbn; lia|].
    intros f' Ht'. rewrite app_nil_r. apply text_gives, Ht'.
Qed.

Lemma tens_gives formal np t o f cs last : t < 10 -> o < 10 -> text c f cs ->
  gives c (tens_k c formal characters np t o f last) OutOfMemoryError
    (cs ++ write (tens_t formal np (none cs) t o last)) (if is_zero t && is_zero o then last else false).
Proof.
  intros Ht10 Ho Ht. unfold tens_k, tens_t. rewrite (text_empty c f cs Ht). cbn [obind]. fold (none cs).
  destruct (is_zero t) eqn:Et; cbn [andb].
  - destruct ((negb (none cs) || negb np) && negb last && negb (is_zero o)) eqn:Eb.
    + cbn [app write map]. apply andb_prop in Eb as [_ Eo].
      apply (push_gives (fun e => e) c f cs _ _ last); [assumption|apply char_at_glyph; [reflexivity|lia]|apply glyph_scalar; cbn; lia|].
      intros f' Ht'. eapply (ones_gives o f' _ true) in Ht'; [|assumption].
      destruct (is_zero o); [discriminate|]. exact Ht'.
    + cbn [app]. apply ones_gives; assumption.
  - destruct (negb (formal || (negb (none cs) || negb np) || last || negb (t =? 1))); cbn [negb app write map].
    + apply (push_gives (fun e => e) c f cs _ _ last); [assumption|apply char_at_glyph; [reflexivity|lia]|apply glyph_scalar; cbn; lia|].
      intros f' Ht'. eapply (ones_gives o f' _ false) in Ht'; [|assumption]. destruct (is_zero o); exact Ht'.
    + apply (push_gives (fun e => e) c f cs _ _ last); [assumption|apply digit_at, Ht10|apply glyph_scalar; cbn; lia|].
      intros f1 Ht1.
      apply (push_gives (fun e => e) c f1 _ _ _ last); [assumption|apply char_at_glyph; [reflexivity|lia]|apply glyph_scalar; cbn; lia|].
      intros f' Ht'. eapply (ones_gives o f' _ false) in Ht'; [|assumption]. destruct (is_zero o); exact Ht'.
Qed.

Lemma hundreds_gives formal np h t o f cs last : h < 10 -> t < 10 -> o < 10 -> text c f cs ->
  gives c (hundreds_k c formal characters np h t o f last) OutOfMemoryError
    (cs ++ write (hundreds_t formal np (none cs) h t o last)) (if is_zero h && is_zero t && is_zero o then last else false).
Proof.
  intros Hh Ht10 Ho Ht. unfold hundreds_k, hundreds_t. rewrite (text_empty c f cs Ht). cbn [obind]. fold (none cs).
  destruct (is_zero h) eqn:Eh; cbn [andb].
  - destruct ((negb (none cs) || negb np) && negb last && negb (is_zero t)) eqn:Eb.
    + cbn [app write map]. apply andb_prop in Eb as [_ Et].
      apply (push_gives (fun e => e) c f cs _ _ true); [assumption|apply char_at_glyph; [reflexivity|lia]|apply glyph_scalar; cbn; lia|].
      intros f' Ht'. eapply (tens_gives formal np t o f' _ true) in Ht'; [|assumption..].
      rewrite none_snoc in Ht'. destruct (is_zero t); [discriminate|]. exact Ht'.
    + apply tens_gives; assumption.
  - cbn [app write map].
    apply (push_gives (fun e => e) c f cs _ _ last); [assumption|apply digit_at, Hh|apply glyph_scalar; cbn; lia|].
    intros f1 Ht1.
    apply (push_gives (fun e => e) c f1 _ _ _ last); [assumption|apply char_at_glyph; [reflexivity|lia]|apply glyph_scalar; cbn; lia|].
    intros f' Ht'. eapply (tens_gives formal np t o f' _ false) in Ht'; [|assumption..].
    rewrite none_snoc in Ht'. destruct (is_zero t && is_zero o); exact Ht'.
Qed.

Lemma inner_gives formal np n last : 1 <= n < 10000 ->
  gives c (format_chinese_inner c formal characters n np last) OutOfMemoryError (write (inner_t formal np n last)) false.
Proof.
  intros Hn. rewrite inner_steps. unfold inner_t.
  assert (n mod 10 < 10) as Ho by lia. assert (n / 10 mod 10 < 10) as Ht by lia.
  assert (n / 10 / 10 mod 10 < 10) as Hh by lia. assert (n / 10 / 10 / 10 < 10) as Hth by lia.
  assert (is_zero (n / 10 / 10 / 10) && is_zero (n / 10 / 10 mod 10) && is_zero (n / 10 mod 10) && is_zero (n mod 10) = false) as Hnz
    by (unfold is_zero; lia).
  revert Ho Ht Hh Hth Hnz. generalize (n mod 10) as o, (n / 10 mod 10) as t, (n / 10 / 10 mod 10) as h, (n / 10 / 10 / 10) as th.
  intros o t h th Ho Ht Hh Hth Hnz. cbn zeta. destruct (is_zero th) eqn:Eth; cbn [andb] in Hnz.
  - destruct (negb np && negb last && negb (is_zero h)) eqn:Eb.
    + cbn [app write map]. apply andb_prop in Eb as [_ Eh].
      apply (push_gives (fun e => e) c new [] _ _ true); [apply text_new|apply char_at_glyph; [reflexivity|lia]|apply glyph_scalar; cbn; lia|].
      intros f' Ht'. eapply (hundreds_gives formal np h t o f' _ true) in Ht'; [|assumption..].
      rewrite none_snoc, Hnz in Ht'. exact Ht'.
    + pose proof (hundreds_gives formal np h t o new [] last Hh Ht Ho (text_new c)) as H. rewrite Hnz in H. exact H.
  - cbn [app write map].
    apply (push_gives (fun e => e) c new [] _ _ last); [apply text_new|apply digit_at, Hth|apply glyph_scalar; cbn; lia|].
    intros f1 Ht1.
    apply (push_gives (fun e => e) c f1 _ _ _ last); [assumption|apply char_at_glyph; [reflexivity|lia]|apply glyph_scalar; cbn; lia|].
    intros f' Ht'. eapply (hundreds_gives formal np h t o f' _ false) in Ht'; [|assumption..].
    rewrite none_snoc in Ht'. destruct (is_zero h && is_zero t && is_zero o); exact Ht'.
Qed.

End Inner.

(** ** The myriad, mid and long scales *)

(** The signs written by [format_scaled_rank], over the values of the scale. *)
Fixpoint scaled_t (formal : bool) (scales : list N) (rank : nat) (n : N) (np : bool) : list sign :=
  let next n np :=
    match rank with
    | O => inner_t formal np n false
    | S rank' => scaled_t formal scales rank' n np
    end in
  match nth_error scales rank with
  | None => next n np
  | Some s =>
      (if n / s =? 0 then [] else next (n / s) np ++ [Large rank]) ++
      (if n mod s =? 0 then [] else next (n mod s) (np && (n / s =? 0)))
  end.

Definition next_t (formal : bool) (scales : list N) (rank : nat) (n : N) (np : bool) : list sign :=
  match rank with
  | O => inner_t formal np n false
  | S rank' => scaled_t formal scales rank' n np
  end.

Lemma scaled_t_step formal scales rank n np :
  scaled_t formal scales rank n np =
  match nth_error scales rank with
  | None => next_t formal scales rank n np
  | Some s =>
      (if n / s =? 0 then [] else next_t formal scales rank (n / s) np ++ [Large rank]) ++
      (if n mod s =? 0 then [] else next_t formal scales rank (n mod s) (np && (n / s =? 0)))
  end.
Proof. destruct rank; reflexivity. Qed.

Lemma inner_t_nonempty formal np n last : 1 <= n -> inner_t formal np n last <> [].
Proof.
  intros Hn. unfold inner_t.
  assert (is_zero (n / 10 / 10 / 10) && is_zero (n / 10 / 10 mod 10) && is_zero (n / 10 mod 10) && is_zero (n mod 10) = false) as Hnz
    by (unfold is_zero; lia).
  revert Hnz. generalize (n mod 10) as o, (n / 10 mod 10) as t, (n / 10 / 10 mod 10) as h, (n / 10 / 10 / 10) as th.
  intros o t h th Hnz. cbn zeta. unfold hundreds_t, tens_t, ones_t.
  destruct (is_zero th), (is_zero h), (is_zero t), (is_zero o), formal, np, last; try discriminate; cbn;
    destruct (t =? 1); discriminate.
Qed.

Lemma scaled_t_nonempty formal scales rank : forall n np, 1 <= n -> scaled_t formal scales rank n np <> [].
Proof.
  induction rank as [|rank IH]; intros n np Hn; rewrite scaled_t_step; unfold next_t.
  - destruct (nth_error scales 0) as [s|]; [|apply inner_t_nonempty, Hn].
    destruct (N.eqb_spec (n / s) 0) as [E|E]; [|intros H; apply app_eq_nil in H as [H _]; apply app_eq_nil in H as [_ H]; discriminate].
    destruct (N.eqb_spec (n mod s) 0) as [E'|E'].
    + exfalso. destruct (N.eq_dec s 0) as [->|Hs]; [destruct n; cbn in E'; lia|]. pose proof (N.div_mod n s Hs). lia.
    + apply inner_t_nonempty. lia.
  - destruct (nth_error scales (S rank)) as [s|]; [|apply IH, Hn].
    destruct (N.eqb_spec (n / s) 0) as [E|E]; [|intros H; apply app_eq_nil in H as [H _]; apply app_eq_nil in H as [_ H]; discriminate].
    destruct (N.eqb_spec (n mod s) 0) as [E'|E'].
    + exfalso. destruct (N.eq_dec s 0) as [->|Hs]; [destruct n; cbn in E'; lia|]. pose proof (N.div_mod n s Hs). lia.
    + apply IH. lia.
Qed.

Lemma next_t_nonempty formal scales rank n np : 1 <= n -> next_t formal scales rank n np <> [].
Proof. destruct rank; [apply inner_t_nonempty|apply scaled_t_nonempty]. Qed.

Lemma gives_lift c r cs b : gives c r OutOfMemoryError cs b ->
  gives c (r <- r ;; Ret (lift_flagged r)) COutOfMemory cs b.
Proof.
  intros (res & flag & -> & H). cbn [obind]. destruct (room c cs) eqn:E.
  - destruct H as (s & -> & Ht & ->). exists (Ok s), b. split; [reflexivity|]. rewrite E. eauto.
  - subst res. exists (Err COutOfMemory), flag. split; [reflexivity|]. rewrite E. reflexivity.
Qed.

Lemma append_gives c f cs tail cs' b : text c f cs -> text c tail cs' ->
  gives c (append_result c f tail b) COutOfMemory (cs ++ cs') b.
Proof.
  intros Hf Ht. unfold append_result. destruct Ht as [Ht Hi]. rewrite (rep_str _ _ _ Ht). cbn [obind].
  destruct (push_str_pushed c f cs cs' Hf) as [(f' & E & Ht')|[E Hroom]].
  - apply (text_scalars c tail). split; assumption.
  - rewrite E. cbn [obind]. apply text_gives, Ht'.
  - rewrite E. cbn [obind]. exists (Err COutOfMemory), b. split; [reflexivity|]. rewrite Hroom. reflexivity.
Qed.

(** What makes a list of scales fit for integer type [T]. *)
Definition good_scales (c : config) (T : uint) (scales : list N) : Prop :=
  nth_error scales 0 = Some 10000 /\
  forall rank s, nth_error scales rank = Some s -> fits c T s ->
    s <> 0 /\
    match scale_at (map (try_from c T) scales) (rank + 1) with
    | Some s' => s' mod s = 0 /\ s' / s <= s
    | None =>
        match rank with
        | O => forall n, fits c T n -> n / s < s
        | S rank' => exists lower, nth_error scales rank' = Some lower /\ fits c T lower /\ lower <> 0 /\
                       forall n, fits c T n -> n / s < s / lower
        end
    end.

Lemma pos_1 n : n <> 0 -> 1 <= n.
Proof. lia. Qed.

Section Scaled.
Variables (c : config) (T : uint) (characters large abc : list N) (scales : list N) (formal : bool).
Hypothesis (Hc : valid_config c) (Htab : table_for characters large abc) (Hgood : good_scales c T scales).

Let options := map (try_from c T) scales.

Lemma scale_at_some rank s : scale_at options rank = Some s <-> nth_error scales rank = Some s /\ fits c T s.
Proof.
  unfold scale_at, options. rewrite nth_error_map. destruct (nth_error scales rank) as [x|]; cbn.
  - destruct (try_from c T x) as [y|] eqn:E.
    + apply try_from_some in E as [-> Hx]. split; [intros H; injection H as <-; auto|intros [H _]; assumption].
    + split; [discriminate|]. intros [H Hf]. injection H as ->. rewrite try_from_fits in E by assumption. discriminate.
  - split; [discriminate|]. intros [H _]. discriminate.
Qed.

Lemma scale_at_none rank s : scale_at options rank = None -> nth_error scales rank = Some s -> ~ fits c T s.
Proof. intros H Hs Hf. assert (scale_at options rank = Some s) by (apply scale_at_some; auto). congruence. Qed.

Definition cap (rank : nat) (n : N) : Prop :=
  match scale_at options (rank + 1) with Some s => n < s | None => True end.

Definition next_cap (rank : nat) (n : N) : Prop :=
  match rank with O => n < 10000 | S rank' => cap rank' n end.

Definition next_k (rank : nat) (nominal : N) (no_prefix last : bool) : outcome (flagged chinese_error) :=
  match rank with
  | S rank' => format_scaled_rank c formal rank' options characters large nominal no_prefix last
  | O => r <- format_chinese_inner c formal characters nominal no_prefix last ;; Ret (lift_flagged r)
  end.

Definition finish_k (rank : nat) (no_prefix : bool) (remaining : N) (formatted : nominal_string) (last : bool)
  : outcome (flagged chinese_error) :=
  if is_zero remaining then Ret (Ok formatted, last)
  else
    empty <- is_empty formatted ;;
    '(tail, last) <- next_k rank remaining (empty && no_prefix) last ;;
    match tail with
    | Err e => Ret (Err e, last)
    | Ok tail => append_result c formatted tail last
    end.

Lemma scaled_rank_step rank nominal no_prefix last_char_is_zero :
  format_scaled_rank c formal rank options characters large nominal no_prefix last_char_is_zero =
  match scale_at options rank with
  | None => next_k rank nominal no_prefix last_char_is_zero
  | Some scale =>
      remaining <- urem nominal scale ;;
      rank_value <- udiv nominal scale ;;
      out_of_bounds <-
        (match scale_at options (rank + 1) with
         | Some previous_scale =>
             factor <- udiv previous_scale scale ;; Ret (factor <=? rank_value)
         | None =>
             match rank with
             | S rank' =>
                 lower <- or_panic (nth_error options rank') ;;
                 lower <- or_panic lower ;;
                 factor <- udiv scale lower ;; Ret (factor <=? rank_value)
             | O => Ret false
             end
         end) ;;
      if (out_of_bounds : bool) then Ret (Err COutOfBounds, last_char_is_zero)
      else
        if is_zero rank_value then finish_k rank no_prefix remaining new last_char_is_zero
        else
          '(r, last) <- next_k rank rank_value no_prefix last_char_is_zero ;;
          match r with
          | Err e => Ret (Err e, last)
          | Ok rank_formatted =>
              empty <- is_empty rank_formatted ;;
              if negb empty then
                push_char chinese_error_of c rank_formatted
                  (or_panic (nth_error large rank)) last (fun rank_formatted =>
                finish_k rank no_prefix remaining rank_formatted false)
              else finish_k rank no_prefix remaining rank_formatted last
          end
  end.
Proof. destruct rank; reflexivity. Qed.

Lemma write_none l : l <> [] -> none (write abc l) = false.
Proof. destruct l; [contradiction|reflexivity]. Qed.

Lemma scaled_gives : forall rank n np, (rank < 11)%nat -> fits c T n -> 1 <= n -> cap rank n ->
  gives c (format_scaled_rank c formal rank options characters large n np false) COutOfMemory
    (write abc (scaled_t formal scales rank n np)) false.
Proof.
  intros rank. induction rank as [rank IH] using lt_wf_ind. intros n np Hrank Hn Hn1 Hcap.
  assert (forall n np, fits c T n -> 1 <= n -> next_cap rank n ->
    gives c (next_k rank n np false) COutOfMemory (write abc (next_t formal scales rank n np)) false) as Hnext.
  { clear n np Hn Hn1 Hcap. intros n np Hn Hn1 Hcap. destruct rank as [|rank]; cbn [next_k next_t next_cap] in *.
    - apply gives_lift. eapply inner_gives; try eassumption. lia.
    - apply IH; try assumption; lia. }
  clear IH. rewrite scaled_rank_step, scaled_t_step. destruct Hgood as [H0 Hsc].
  destruct (scale_at options rank) as [s|] eqn:Es.
  - pose proof Es as Es'. apply scale_at_some in Es' as [Ens Hfs]. rewrite Ens.
    destruct (Hsc rank s Ens Hfs) as [Hs0 Hbound]. fold options in Hbound.
    rewrite urem_nz, udiv_nz by assumption. cbn [obind].
    assert ((match scale_at options (rank + 1) with
         | Some previous_scale =>
             factor <- udiv previous_scale s ;; Ret (factor <=? n / s)
         | None =>
             match rank with
             | S rank' =>
                 lower <- or_panic (nth_error options rank') ;;
                 lower <- or_panic lower ;;
                 factor <- udiv s lower ;; Ret (factor <=? n / s)
             | O => Ret false
             end
         end) = Ret false /\ n / s < s) as [Eb Hq].
    { unfold cap in Hcap. destruct (scale_at options (rank + 1)) as [s'|] eqn:Es1.
      - destruct Hbound as [Hmod Hle]. rewrite udiv_nz by assumption. cbn [obind].
        assert (n / s < s' / s) as Hlt.
        { apply N.div_lt_upper_bound; [assumption|]. pose proof (N.div_mod s' s Hs0). lia. }
        split; [|lia]. f_equal. lia.
      - destruct rank as [|rank].
        + split; [reflexivity|apply Hbound, Hn].
        + destruct Hbound as (lower & El & Hfl & Hl0 & Hb). specialize (Hb n Hn).
          assert (nth_error options rank = Some (Some lower)) as ->.
          { unfold options. rewrite nth_error_map, El. cbn. rewrite try_from_fits by assumption. reflexivity. }
          cbn [or_panic obind]. rewrite udiv_nz by assumption. cbn [obind]. split; [f_equal; lia|].
          assert (s / lower <= s) by (apply N.div_le_upper_bound; nia). lia. }
    rewrite Eb. cbn [obind]. clear Eb.
    assert (n = s * (n / s) + n mod s) as Hdm by (apply N.div_mod; assumption).
    assert (n mod s < s) as Hm by (apply N.mod_lt; assumption).
    assert (forall m, m < s -> next_cap rank m) as Hnc.
    { intros m Hlt. destruct rank as [|rank]; cbn [next_cap].
      - rewrite H0 in Ens. injection Ens as <-. exact Hlt.
      - unfold cap. rewrite Nat.add_1_r, Es. exact Hlt. }
    assert (fits c T (n / s)) as Hfq.
    { eapply fits_le; [exact Hn|]. apply N.div_le_upper_bound; nia. }
    assert (fits c T (n mod s)) as Hfm by (eapply fits_le; [exact Hn|apply N.mod_le; assumption]).
    assert (forall f cs, text c f cs ->
      gives c (finish_k rank np (n mod s) f false) COutOfMemory
        (cs ++ write abc (if n mod s =? 0 then [] else next_t formal scales rank (n mod s) (none cs && np))) false) as Hfin.
    { intros f cs Hf. unfold finish_k, is_zero. destruct (N.eqb_spec (n mod s) 0) as [E|E].
      - cbn [write map]. rewrite app_nil_r. apply text_gives, Hf.
      - rewrite (text_empty c f cs Hf). cbn [obind]. fold (none cs).
        destruct (Hnext (n mod s) (none cs && np)) as (res & flag & Er & Hres); [assumption|apply pos_1; assumption|apply Hnc; assumption|].
        rewrite Er. cbn [obind]. destruct (room c (write abc (next_t formal scales rank (n mod s) (none cs && np)))) eqn:Eroom.
        + destruct Hres as (tail & -> & Ht & ->). apply append_gives; assumption.
        + subst res. exists (Err COutOfMemory), flag. split; [reflexivity|]. rewrite room_false_post by exact Eroom. reflexivity. }
    unfold is_zero at 1. destruct (N.eqb_spec (n / s) 0) as [Eq|Eq].
    + pose proof (Hfin new [] (text_new c)) as H. cbn [app none andb] in H. rewrite andb_true_r. exact H.
    + rewrite andb_false_r.
      destruct (Hnext (n / s) np) as (res & flag & Er & Hres); [assumption|apply pos_1; assumption|apply Hnc; assumption|].
      rewrite Er. cbn [obind]. unfold write. rewrite !map_app. fold (write abc).
      change (map (glyph abc) (next_t formal scales rank (n / s) np)) with (write abc (next_t formal scales rank (n / s) np)).
      change (map (glyph abc) [Large rank]) with [glyph abc (Large rank)].
      destruct (room c (write abc (next_t formal scales rank (n / s) np))) eqn:Eroom.
      * destruct Hres as (f & -> & Ht & ->). rewrite (text_empty c f _ Ht). cbn [obind]. fold (none (write abc (next_t formal scales rank (n / s) np))).
        rewrite write_none by (apply next_t_nonempty, pos_1; assumption). cbn [negb].
        rewrite <- app_assoc. change ([glyph abc (Large rank)] ++ ?l) with (glyph abc (Large rank) :: l).
        apply (push_gives chinese_error_of c f); [assumption|eapply large_at; eassumption|eapply glyph_scalar; [eassumption|cbn; lia]|].
        intros f' Ht'. apply Hfin in Ht'. rewrite none_snoc in Ht'. exact Ht'.
      * subst res. exists (Err COutOfMemory), flag. split; [reflexivity|].
        rewrite room_false_pre; [reflexivity|]. apply room_false_pre. exact Eroom.
  - assert (next_cap rank n) as Hnc.
    { destruct rank as [|rank]; cbn [next_cap].
      - pose proof (scale_at_none 0 10000 Es H0) as Hnf. unfold fits in *. lia.
      - unfold cap. rewrite Nat.add_1_r, Es. exact I. }
    destruct (nth_error scales rank) as [s|] eqn:Ens; [|apply Hnext; assumption].
    pose proof (scale_at_none rank s Es Ens) as Hnf.
    assert (n < s) as Hlt by (unfold fits in *; lia).
    rewrite N.div_small, N.mod_small by assumption. cbn [N.eqb app]. rewrite andb_true_r.
    destruct (N.eqb_spec n 0); [lia|]. apply Hnext; assumption.
Qed.

End Scaled.

Definition fit_at (b : N) (scales : list N) (rank : nat) : option N :=
  match nth_error scales rank with
  | Some s => if s <? 2 ^ b then Some s else None
  | None => None
  end.

Definition scales_check (b : N) (scales : list N) : bool :=
  forallb (fun rank =>
    match fit_at b scales rank with
    | None => true
    | Some s =>
        negb (s =? 0) &&
        match fit_at b scales (rank + 1) with
        | Some s' => (s' mod s =? 0) && (s' / s <=? s)
        | None =>
            match rank with
            | O => (2 ^ b - 1) / s <? s
            | S rank' =>
                match fit_at b scales rank' with
                | Some lower => negb (lower =? 0) && ((2 ^ b - 1) / s <? s / lower)
                | None => false
                end
            end
        end
    end) (seq 0 (length scales)).

Lemma fit_at_scale c T scales rank : scale_at (map (try_from c T) scales) rank = fit_at (bits c T) scales rank.
Proof. unfold scale_at, fit_at. rewrite nth_error_map. destruct (nth_error scales rank); [|reflexivity]. cbn. unfold try_from. destruct (_ <? _); reflexivity. Qed.

Lemma scales_check_good c T scales : nth_error scales 0 = Some 10000 -> scales_check (bits c T) scales = true -> good_scales c T scales.
Proof.
  intros H0 H. split; [exact H0|]. intros rank s Hs Hf. unfold scales_check in H. rewrite forallb_forall in H.
  assert (In rank (seq 0 (length scales))) as Hin.
  { apply in_seq. assert (rank < length scales)%nat by (apply nth_error_Some; congruence). lia. }
  specialize (H rank Hin). rewrite fit_at_scale.
  assert (fit_at (bits c T) scales rank = Some s) as E.
  { unfold fit_at. rewrite Hs. unfold fits in Hf. destruct (N.ltb_spec s (2 ^ bits c T)); [reflexivity|lia]. }
  rewrite E in H. apply andb_prop in H as [Hs0 H].
  assert (s <> 0) as Hs0' by (destruct (N.eqb_spec s 0); [discriminate|assumption]).
  assert (forall n, fits c T n -> n / s <= (2 ^ bits c T - 1) / s) as Hdiv.
  { intros n Hn. apply N.div_le_mono; [assumption|]. unfold fits in Hn. lia. }
  split; [assumption|]. destruct (fit_at (bits c T) scales (rank + 1)) as [s'|].
  - apply andb_prop in H as [H1 H2]. apply N.eqb_eq in H1. apply N.leb_le in H2. auto.
  - destruct rank as [|rank].
    + intros n Hn. apply N.ltb_lt in H. specialize (Hdiv n Hn). lia.
    + unfold fit_at in H. destruct (nth_error scales rank) as [lower|]; [|discriminate].
      destruct (N.ltb_spec lower (2 ^ bits c T)) as [Hl|]; [|discriminate].
      apply andb_prop in H as [H1 H2]. apply N.ltb_lt in H2. exists lower. split; [reflexivity|]. split; [exact Hl|].
      split; [destruct (N.eqb_spec lower 0); [discriminate|assumption]|].
      intros n Hn. specialize (Hdiv n Hn). lia.
Qed.

Lemma bits_cases c T : valid_config c -> bits c T = 8 \/ bits c T = 16 \/ bits c T = 32 \/ bits c T = 64 \/ bits c T = 128.
Proof. intros [H _]. destruct T; cbn; tauto. Qed.

Lemma myriad_good c T : valid_config c -> good_scales c T MYRIAD_SCALE.
Proof.
  intros Hc. apply scales_check_good; [reflexivity|].
  destruct (bits_cases c T Hc) as [->|[->|[->|[->| ->]]]]; vm_compute; reflexivity.
Qed.

Lemma mid_good c T : valid_config c -> good_scales c T MID_SCALE.
Proof.
  intros Hc. apply scales_check_good; [reflexivity|].
  destruct (bits_cases c T Hc) as [->|[->|[->|[->| ->]]]]; vm_compute; reflexivity.
Qed.

Lemma long_good c T : valid_config c -> good_scales c T LONG_SCALE.
Proof.
  intros Hc. apply scales_check_good; [reflexivity|].
  destruct (bits_cases c T Hc) as [->|[->|[->|[->| ->]]]]; vm_compute; reflexivity.
Qed.

(** ** The short scale *)

Definition short_value (rank : nat) : N := 10 ^ (4 + N.of_nat rank).

Definition tail_t (formal : bool) (n : N) (last : bool) : list sign :=
  if n =? 0 then [] else inner_t formal false n last.

(** The signs written from [rank] down for what remains; [e]: nothing written
    yet. *)
Fixpoint short_t (formal : bool) (rank : nat) (n : N) (e last : bool) : list sign :=
  if n =? 0 then []
  else
    let q := n / short_value rank in
    let push_zero := (q =? 0) && negb e && negb last in
    let last' := if q =? 0 then push_zero || last else false in
    (if q =? 0 then (if push_zero then [Digit 0] else []) else [Digit q; Large rank]) ++
    match rank with
    | O => tail_t formal (n mod short_value rank) last'
    | S rank' => short_t formal rank' (n mod short_value rank) (e && (q =? 0)) last'
    end.

Lemma short_scale_value rank : (rank < 11)%nat -> nth_error SHORT_SCALE rank = Some (short_value rank).
Proof. intros H. do 11 (destruct rank as [|rank]; [reflexivity|]). lia. Qed.

Section ShortScale.
Variables (c : config) (T : uint) (characters large abc : list N) (formal : bool).
Hypothesis (Hc : valid_config c) (Htab : table_for characters large abc).

Definition short_ends (F : list N) (r : result short_loop chinese_error) : Prop :=
  (exists st cs, r = Ok st /\ text c (sl_formatted st) cs /\ sl_remaining st < 10000 /\
     F = cs ++ write abc (tail_t formal (sl_remaining st) (sl_last_was_zero st))) \/
  (r = Err COutOfMemory /\ room c F = false).

Definition piece_t (rank : nat) (q : N) (e last : bool) : list sign :=
  if q =? 0 then (if negb e && negb last then [Digit 0] else []) else [Digit q; Large rank].

Definition last_t (q : N) (e last : bool) : bool := if q =? 0 then negb e && negb last || last else false.

Lemma short_t_step rank n e last : short_t formal rank n e last =
  if n =? 0 then []
  else
    let q := n / short_value rank in
    piece_t rank q e last ++
    match rank with
    | O => tail_t formal (n mod short_value rank) (last_t q e last)
    | S rank' => short_t formal rank' (n mod short_value rank) (e && (q =? 0)) (last_t q e last)
    end.
Proof.
  destruct rank; cbn [short_t]; (destruct (n =? 0); [reflexivity|]); cbn zeta; unfold piece_t, last_t;
    match goal with |- context [?x =? 0] => destruct (x =? 0) end; reflexivity.
Qed.

Lemma short_turn rank s n f cs last : (rank < 11)%nat -> s <> 0 -> n <> 0 -> n / s < 10 -> text c f cs ->
  let cs' := cs ++ write abc (piece_t rank (n / s) (none cs) last) in
  let body := short_body c T characters large
    {| sl_rank := rank; sl_scale := s; sl_formatted := f; sl_last_was_zero := last; sl_remaining := n |} in
  (exists f', text c f' cs' /\
     body = short_next c T {| sl_rank := rank; sl_scale := s; sl_formatted := f';
                              sl_last_was_zero := last_t (n / s) (none cs) last; sl_remaining := n mod s |}) \/
  (body = Ret (Break (Err COutOfMemory)) /\ room c cs' = false).
Proof.
  intros Hrank Hs0 Hn0 Hq Ht cs' body. unfold body, cs', short_body, is_zero. clear body cs'.
  cbn [sl_remaining sl_scale sl_formatted sl_last_was_zero sl_rank].
  destruct (N.eqb_spec n 0); [contradiction|]. rewrite udiv_nz, urem_nz by assumption. cbn [obind].
  destruct (N.leb_spec 10 (n / s)) as [Hbig|_]; [exfalso; revert Hq Hbig; clear; generalize (n / s); lia|].
  revert Hq. generalize (n / s) as q. intros q Hq. unfold piece_t, last_t.
  destruct (N.eqb_spec q 0) as [->|Hq0].
  - rewrite (text_empty c f cs Ht). cbn [obind]. fold (none cs).
    destruct (negb (none cs) && negb last) eqn:Eb.
    + rewrite (char_at_glyph characters large abc Htab 0 (Digit 0)) by (reflexivity || lia). cbn [obind].
      destruct (push_pushed c f cs (glyph abc (Digit 0)) Ht) as [(f' & Ep & Ht')|[Ep Hroom]].
      * eapply glyph_scalar; [eassumption|cbn; lia].
      * rewrite Ep. cbn [obind]. left. exists f'. split; [exact Ht'|reflexivity].
      * rewrite Ep. cbn [obind]. right. split; [reflexivity|exact Hroom].
    + left. exists f. cbn [write map]. rewrite app_nil_r. split; [assumption|reflexivity].
  - rewrite (digit_at c characters large abc Hc Htab q) by assumption. cbn [obind].
    destruct (push_pushed c f cs (glyph abc (Digit q)) Ht) as [(f1 & Ep & Ht1)|[Ep Hroom]].
    + eapply glyph_scalar; [eassumption|cbn; lia].
    + rewrite Ep. cbn [obind]. rewrite (large_at characters large abc Htab rank) by assumption. cbn [obind].
      destruct (push_pushed c f1 _ (glyph abc (Large rank)) Ht1) as [(f' & Ep' & Ht')|[Ep' Hroom]].
      * eapply glyph_scalar; [eassumption|cbn; lia].
      * rewrite Ep'. cbn [obind]. left. exists f'. rewrite <- app_assoc in Ht'. split; [exact Ht'|reflexivity].
      * rewrite Ep'. cbn [obind]. right. rewrite <- app_assoc in Hroom. split; [reflexivity|exact Hroom].
    + rewrite Ep. cbn [obind]. right. split; [reflexivity|].
      change (write abc [Digit q; Large rank]) with ([glyph abc (Digit q)] ++ [glyph abc (Large rank)]).
      rewrite app_assoc. apply room_false_pre, Hroom.
Qed.

Lemma short_value_pos rank : short_value rank <> 0.
Proof. unfold short_value. apply N.pow_nonzero. discriminate. Qed.

Lemma short_value_succ rank : short_value (S rank) = 10 * short_value rank.
Proof. unfold short_value. rewrite Nat2N.inj_succ, N.add_succ_r, N.pow_succ_r'. reflexivity. Qed.

Lemma none_piece cs rank q last : none (cs ++ write abc (piece_t rank q (none cs) last)) = none cs && (q =? 0).
Proof.
  unfold piece_t. destruct cs as [|x cs]; [|reflexivity]. cbn. destruct (q =? 0); reflexivity.
Qed.

Lemma short_turns : forall rank n f cs last, (rank < 11)%nat -> fits c T (short_value rank) -> n < 10 * short_value rank ->
  text c f cs ->
  loops (short_body c T characters large) (N.of_nat rank + 2)
    {| sl_rank := rank; sl_scale := short_value rank; sl_formatted := f; sl_last_was_zero := last; sl_remaining := n |}
    (short_ends (cs ++ write abc (short_t formal rank n (none cs) last))).
Proof.
  induction rank as [|rank IH]; intros n f cs last Hrank Hfit Hn Ht;
    (destruct (N.eq_dec n 0) as [->|Hn0];
     [eapply loops_break; [reflexivity|lia|]; left; eexists _, cs; split; [reflexivity|]; cbn [sl_formatted sl_remaining sl_last_was_zero];
        split; [assumption|]; split; [reflexivity|reflexivity]|]).
  - pose proof (short_value_pos 0) as Hs0.
    assert (n / short_value 0 < 10) as Hq by (apply N.div_lt_upper_bound; [assumption|rewrite N.mul_comm; assumption]).
    assert (n mod short_value 0 < short_value 0) as Hm by (apply N.mod_lt; assumption).
    rewrite short_t_step. destruct (N.eqb_spec n 0); [contradiction|]. cbn zeta.
    unfold write. rewrite map_app, app_assoc. fold (write abc).
    destruct (short_turn 0 (short_value 0) n f cs last Hrank Hs0 Hn0 Hq Ht) as [(f' & Ht' & E)|[E Hroom]].
    + eapply loops_break; [rewrite E; reflexivity|lia|]. left. eexists _, _. split; [reflexivity|].
      cbn [sl_formatted sl_remaining sl_last_was_zero]. split; [exact Ht'|]. split; [exact Hm|reflexivity].
    + eapply loops_break; [exact E|lia|]. right. split; [reflexivity|]. apply room_false_pre. exact Hroom.
  - pose proof (short_value_pos (S rank)) as Hs0.
    assert (n / short_value (S rank) < 10) as Hq by (apply N.div_lt_upper_bound; [assumption|rewrite N.mul_comm; assumption]).
    assert (n mod short_value (S rank) < short_value (S rank)) as Hm by (apply N.mod_lt; assumption).
    rewrite short_t_step. destruct (N.eqb_spec n 0); [contradiction|]. cbn zeta.
    unfold write. rewrite map_app, app_assoc. fold (write abc).
    destruct (short_turn (S rank) (short_value (S rank)) n f cs last Hrank Hs0 Hn0 Hq Ht) as [(f' & Ht' & E)|[E Hroom]].
    + assert (fits c T (short_value rank)) as Hfit'.
      { eapply fits_le; [exact Hfit|]. rewrite short_value_succ. lia. }
      eapply loops_step.
      * rewrite E. unfold short_next. cbn [sl_rank]. rewrite short_scale_value by lia. cbn [or_panic obind].
        rewrite try_from_fits by assumption. reflexivity.
      * lia.
      * cbn [sl_formatted sl_remaining sl_last_was_zero].
        rewrite <- (none_piece cs (S rank) (n / short_value (S rank)) last).
        eapply loops_weaken; [| |apply IH]; try exact Ht'; try assumption; [lia|auto|lia|].
        rewrite <- short_value_succ. assumption.
    + eapply loops_break; [exact E|lia|]. right. split; [reflexivity|]. apply room_false_pre. exact Hroom.
Qed.

Definition gives_text (r : outcome (result nominal_string chinese_error)) (cs : list N) : Prop :=
  exists res, r = Ret res /\ if room c cs then exists s, res = Ok s /\ text c s cs else res = Err COutOfMemory.

Lemma gives_fst r cs b : gives c r COutOfMemory cs b -> gives_text (r <- r ;; Ret (fst r)) cs.
Proof.
  intros (res & flag & -> & H). cbn [obind fst]. exists res. split; [reflexivity|]. destruct (room c cs); [|assumption].
  destruct H as (s & -> & Ht & _). eauto.
Qed.

(** The highest rank that fits. *)
Fixpoint top_rank (rank : nat) : nat :=
  match rank with
  | O => O
  | S rank' => if short_value rank <? 2 ^ bits c T then rank else top_rank rank'
  end.

Lemma top_rank_le rank : (top_rank rank <= rank)%nat.
Proof. induction rank; cbn [top_rank]; [lia|]. destruct (_ <? _); lia. Qed.

Lemma top_rank_fits rank : fits c T 10000 -> fits c T (short_value (top_rank rank)).
Proof.
  intros H. induction rank as [|rank IH]; cbn [top_rank]; [exact H|].
  destruct (N.ltb_spec (short_value (S rank)) (2 ^ bits c T)); [assumption|exact IH].
Qed.

Lemma top_rank_above rank : (top_rank rank < rank)%nat -> ~ fits c T (short_value (S (top_rank rank))).
Proof.
  induction rank as [|rank IH]; cbn [top_rank]; intros H; [lia|].
  destruct (N.ltb_spec (short_value (S rank)) (2 ^ bits c T)); [lia|].
  destruct (Nat.eq_dec (top_rank rank) rank) as [->|]; [unfold fits; lia|]. apply IH. pose proof (top_rank_le rank). lia.
Qed.

Lemma short_rank_top rank nominal : (rank < 11)%nat -> fits c T 10000 ->
  format_short_rank c T formal rank characters large nominal =
  format_short_rank c T formal (top_rank rank) characters large nominal.
Proof.
  intros Hrank H0. induction rank as [|rank IH]; [reflexivity|]. cbn [top_rank].
  destruct (N.ltb_spec (short_value (S rank)) (2 ^ bits c T)) as [Hlt|Hge]; [reflexivity|].
  cbn [format_short_rank]. rewrite short_scale_value by assumption. cbn [or_panic obind].
  rewrite try_from_not by (unfold fits; lia). apply IH. lia.
Qed.

Lemma short_gives n : fits c T 10000 -> fits c T n -> n < 10 ^ 15 ->
  gives_text (format_short_rank c T formal 10 characters large n) (write abc (short_t formal (top_rank 10) n true false)).
Proof.
  intros H0 Hn Hlt. rewrite short_rank_top by (assumption || lia).
  pose proof (top_rank_le 10) as Hle. pose proof (top_rank_fits 10 H0) as Hfit.
  assert (n < 10 * short_value (top_rank 10)) as Hcap.
  { rewrite <- short_value_succ. destruct (Nat.eq_dec (top_rank 10) 10) as [->|Hne]; [exact Hlt|].
    assert (top_rank 10 < 10)%nat as Hl by lia. pose proof (top_rank_above 10 Hl) as Ha. unfold fits in *. lia. }
  generalize dependent (top_rank 10). intros rank Hle Hfit Hcap.
  assert (format_short_rank c T formal rank characters large n =
    (r <- run_loop c (short_body c T characters large)
             {| sl_rank := rank; sl_scale := short_value rank; sl_formatted := new;
                sl_last_was_zero := false; sl_remaining := n |} ;;
      match r with
      | Err e => Ret (Err e)
      | Ok st =>
          if negb (is_zero (sl_remaining st)) then
            inner <- format_chinese_inner c formal characters (sl_remaining st) false
                       (sl_last_was_zero st) ;;
            match lift_flagged inner with
            | (Err e, _) => Ret (Err e)
            | (Ok tail, flag) =>
                r <- append_result c (sl_formatted st) tail flag ;; Ret (fst r)
            end
          else Ret (Ok (sl_formatted st))
      end)) as ->.
  { destruct rank; cbn [format_short_rank]; rewrite short_scale_value by lia; cbn [or_panic obind];
      rewrite try_from_fits by assumption; reflexivity. }
  destruct (loops_run c _ (N.of_nat rank + 2) _ _ Hc ltac:(lia) (short_turns rank n new [] false ltac:(lia) Hfit Hcap (text_new c)))
    as (r & E & Hr).
  rewrite E. clear E. cbn [obind app none] in *. destruct Hr as [(st & cs & -> & Ht & Hrem & ->)|[-> Hroom]].
  - unfold is_zero, tail_t. destruct (N.eqb_spec (sl_remaining st) 0) as [Ez|Ez]; cbn [negb].
    + cbn [write map]. rewrite app_nil_r. exists (Ok (sl_formatted st)). split; [reflexivity|].
      pose proof (stored_text c 0 _ cs Ht) as Hst. unfold stored in Hst. destruct (room c cs); [eauto|discriminate].
    + destruct (inner_gives c characters large abc Hc Htab formal false (sl_remaining st) (sl_last_was_zero st) ltac:(lia))
        as (res & flag & E & Hres). rewrite E. cbn [obind].
      destruct (room c (write abc (inner_t formal false (sl_remaining st) (sl_last_was_zero st)))) eqn:Eroom.
      * destruct Hres as (tail & -> & Htail & ->). cbn [lift_flagged]. eapply gives_fst, append_gives; assumption.
      * subst res. cbn [lift_flagged chinese_error_of]. exists (Err COutOfMemory). split; [reflexivity|].
        rewrite room_false_post by exact Eroom. reflexivity.
  - exists (Err COutOfMemory). split; [reflexivity|]. rewrite Hroom. reflexivity.
Qed.

Lemma short_beyond n : fits c T n -> 10 ^ 15 <= n ->
  format_short_rank c T formal 10 characters large n = Ret (Err COutOfBounds).
Proof.
  intros Hn Hge.
  assert (fits c T (short_value 10)) as Hfit.
  { eapply fits_le; [exact Hn|]. etransitivity; [|exact Hge]. vm_compute. discriminate. }
  cbn [format_short_rank]. rewrite short_scale_value by lia. cbn [or_panic obind]. rewrite try_from_fits by assumption.
  destruct (loops_run c (short_body c T characters large) 1
    {| sl_rank := 10; sl_scale := short_value 10; sl_formatted := new; sl_last_was_zero := false; sl_remaining := n |}
    (fun r => r = Err COutOfBounds)) as (r & -> & ->); [assumption|lia| |reflexivity].
  eapply loops_break; [|lia|reflexivity]. unfold short_body, is_zero. cbn [sl_remaining sl_scale].
  destruct (N.eqb_spec n 0); [lia|]. rewrite udiv_nz by apply short_value_pos. cbn [obind].
  destruct (N.leb_spec 10 (n / short_value 10)) as [_|Hlt]; [reflexivity|]. exfalso.
  assert (10 <= n / short_value 10) as Hle; [|lia]. apply N.div_le_lower_bound; [apply short_value_pos|].
  etransitivity; [|exact Hge]. vm_compute. discriminate.
Qed.

End ShortScale.

Lemma short_t_skip formal rank n : n < short_value (S rank) ->
  short_t formal (S rank) n true false = short_t formal rank n true false.
Proof.
  intros H. rewrite short_t_step. destruct (N.eqb_spec n 0) as [->|Hn]; [destruct rank; reflexivity|].
  cbn zeta. rewrite N.div_small, N.mod_small by assumption. reflexivity.
Qed.

Lemma short_value_mono a b : (a <= b)%nat -> short_value a <= short_value b.
Proof. intros H. unfold short_value. apply N.pow_le_mono_r; lia. Qed.

Lemma short_t_top formal rank k n : n < short_value (S rank) ->
  short_t formal (k + rank) n true false = short_t formal rank n true false.
Proof.
  intros H. induction k as [|k IH]; [reflexivity|]. cbn [Nat.add]. rewrite short_t_skip; [exact IH|].
  pose proof (short_value_mono (S rank) (S (k + rank))). lia.
Qed.

(** ** All scales *)

Definition scaling_of (sc : chinese_scale) : scaling :=
  match sc with Short => ShortScaling | Myriad => MyriadScaling | Mid => MidScaling | Long => LongScaling end.

Definition chinese_t (formal : bool) (sc : chinese_scale) (n : N) : list sign :=
  if n =? 0 then [Digit 0]
  else if n <? 10000 then inner_t formal true n false
  else match sc with
       | Short => short_t formal 10 n true false
       | Myriad => scaled_t formal MYRIAD_SCALE 10 n true
       | Mid => scaled_t formal MID_SCALE 10 n true
       | Long => scaled_t formal LONG_SCALE 10 n true
       end.

Lemma scaled_text c T characters large abc scales formal n :
  valid_config c -> table_for characters large abc -> good_scales c T scales -> (length scales <= 11)%nat ->
  fits c T n -> 1 <= n ->
  gives_text c (format_scaled c T formal scales characters large n) (write abc (scaled_t formal scales 10 n true)).
Proof.
  intros Hc Htab Hg Hlen Hn Hn1. unfold format_scaled. eapply gives_fst.
  apply scaled_gives; try assumption; [lia|]. unfold cap. rewrite fit_at_scale. unfold fit_at.
  destruct (nth_error scales (10 + 1)) eqn:E; [|exact I]. assert (10 + 1 < length scales)%nat by (apply nth_error_Some; congruence). lia.
Qed.

Lemma chinese_yields c T characters large abc formal sc n :
  valid_config c -> table_for characters large abc -> fits c T n -> (sc = Short -> n < 10 ^ 15) ->
  yields c (format_chinese c T formal characters large n sc) n (write abc (chinese_t formal sc n)).
Proof.
  intros Hc Htab Hn Hsc. unfold format_chinese, chinese_t, is_zero. destruct (N.eqb_spec n 0) as [->|Hn0].
  - rewrite (char_at_glyph characters large abc Htab 0 (Digit 0)) by (reflexivity || lia). cbn [obind].
    destruct (from_char_text c (glyph abc (Digit 0))) as (s & E & Ht); [eapply glyph_scalar; [eassumption|cbn; lia]|].
    rewrite E. eexists. split; [reflexivity|]. apply stored_text, Ht.
  - assert (n < 10000 -> yields c
      (r <- format_chinese_inner c formal characters n true false ;;
       match fst r with
       | Ok s => Ret (Ok s)
       | Err OutOfMemoryError => Ret (Err (OutOfMemory n))
       end) n (write abc (inner_t formal true n false))) as Hinner.
    { intros Hlt. destruct (inner_gives c characters large abc Hc Htab formal true n false ltac:(lia)) as (res & flag & E & Hres).
      rewrite E. cbn [obind fst]. unfold yields, stored. destruct (room c _).
      - destruct Hres as (s & -> & Ht & _). eauto 10.
      - subst res. eauto. }
    destruct (try_from c T 10000) as [m|] eqn:E10.
    + apply try_from_some in E10 as [-> H10]. destruct (N.ltb_spec n 10000) as [Hlt|Hge].
      * destruct (N.leb_spec 10000 n); [lia|]. apply Hinner, Hlt.
      * destruct (N.leb_spec 10000 n); [|lia].
        assert (gives_text c (format_scale c T formal sc characters large n)
                  (write abc (match sc with
                              | Short => short_t formal 10 n true false
                              | Myriad => scaled_t formal MYRIAD_SCALE 10 n true
                              | Mid => scaled_t formal MID_SCALE 10 n true
                              | Long => scaled_t formal LONG_SCALE 10 n true
                              end))) as (res & E & Hres).
        { destruct sc; cbn [format_scale].
          - pose proof (short_gives c T characters large abc formal Hc Htab n H10 Hn (Hsc eq_refl)) as Hs.
            pose proof (top_rank_le c T 10) as Hle.
            assert (n < short_value (S (top_rank c T 10))) as Hcap.
            { destruct (Nat.eq_dec (top_rank c T 10) 10) as [->|Hne]; [exact (Hsc eq_refl)|].
              assert (top_rank c T 10 < 10)%nat as Hl by lia. pose proof (top_rank_above c T 10 Hl) as Ha. unfold fits in *. lia. }
            rewrite <- (short_t_top formal _ (10 - top_rank c T 10) n Hcap) in Hs.
            replace (10 - top_rank c T 10 + top_rank c T 10)%nat with 10%nat in Hs by lia. exact Hs.
          - apply scaled_text; try assumption; [apply myriad_good, Hc|cbn; lia|lia].
          - apply scaled_text; try assumption; [apply mid_good, Hc|cbn; lia|lia].
          - apply scaled_text; try assumption; [apply long_good, Hc|cbn; lia|lia]. }
        rewrite E. cbn [obind]. unfold yields, stored. destruct (room c _).
        -- destruct Hres as (s & -> & Ht). eauto 10.
        -- subst res. eauto.
    + assert (n < 10000) as Hlt.
      { unfold try_from in E10. destruct (N.ltb_spec 10000 (2 ^ bits c T)); [discriminate|]. unfold fits in Hn. lia. }
      destruct (N.ltb_spec n 10000); [|lia]. apply Hinner, Hlt.
Qed.

Lemma chinese_beyond c T characters large formal n : valid_config c -> fits c T n -> 10 ^ 15 <= n ->
  format_chinese c T formal characters large n Short = Ret (Err (OutOfBounds n)).
Proof.
  intros Hc Hn Hge. unfold format_chinese, is_zero. destruct (N.eqb_spec n 0); [lia|].
  rewrite try_from_fits by (eapply fits_le; [exact Hn|lia]). destruct (N.leb_spec 10000 n); [|lia].
  cbn [format_scale]. rewrite short_beyond by assumption. reflexivity.
Qed.
