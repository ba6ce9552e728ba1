(** * PropertiesTypeLayout: C94, the size of a NominalString *)

From Verif Require Import Prelude NominalString TypeLayout.

Lemma in_upto n p : In p (upto_n n) <-> p < n.
Proof.
  unfold upto_n. rewrite in_map_iff. split.
  - intros (k & <- & H). apply in_seq in H. lia.
  - intros H. exists (N.to_nat p). split; [lia|]. apply in_seq. lia.
Qed.

Lemma in_shift o l p : In p (shift o l) <-> exists q, p = o + q /\ In q l.
Proof. unfold shift. rewrite in_map_iff. split; intros (q & H & H'); exists q; (split; [|exact H']); lia. Qed.

Definition holds_from (o n : N) (l : list N) : Prop := forall p, o <= p < o + n -> In p l.

(** Inline: the data of [InlineString] are [capacity + 1] bytes. *)
Lemma inline_needs word capacity L : laid_out word (inline_string_type capacity) L ->
  capacity + 1 <= size L /\ exists o o', o + 1 <= size L /\ o' + capacity <= size L /\ In o (data L) /\ holds_from o' capacity (data L) /\ ~ (o' <= o < o' + capacity).
Proof.
  unfold inline_string_type. intros H. inversion H as [| | |fields placed s a HF [Hfit Hdis] Has Ha| ]; subst. clear H. cbn [size data].
  inversion HF as [|t1 x1 ts xs H1 HF1]; subst. inversion HF1 as [|t2 x2 ts2 xs2 H2 HF2]; subst. inversion HF2; subst. clear HF HF1 HF2.
  destruct x1 as [o f], x2 as [o' f']. cbn [snd] in *. inversion H1; subst. inversion H2; subst. clear H1 H2.
  inversion Hfit as [|y l F1 Fl]; subst. inversion Fl as [|y2 l2 F2 Fl2]; subst. cbn [size alignment] in F1, F2. clear Hfit Fl Fl2.
  inversion Hdis as [|y l D1 D2]; subst. inversion D1 as [|y2 l2 D ?]; subst. clear Hdis D1 D2.
  assert (~ (o' <= o < o' + capacity)) as Hno.
  { intros Hb. apply (D o).
    - apply in_shift. exists 0. split; [lia|left; reflexivity].
    - apply in_shift. exists (o - o'). split; [lia|]. apply in_upto. lia. }
  split; [lia|]. exists o, o'. repeat split; try lia.
  - unfold data_of. cbn [flat_map data]. apply in_or_app. left. apply in_shift. exists 0. split; [lia|left; reflexivity].
  - intros p Hp. unfold data_of. cbn [flat_map data]. apply in_or_app. right. apply in_or_app. left. apply in_shift. exists (p - o'). split; [lia|]. apply in_upto. lia.
Qed.

Lemma no_niches word capacity o L : laid_out word (inline_string_type capacity) L -> niches_of [(o, L)] = [].
Proof.
  unfold inline_string_type. intros H. inversion H as [| | |fields placed s a HF [Hfit Hdis] Has Ha| ]; subst. clear H.
  inversion HF as [|t1 x1 ts xs H1 HF1]; subst. inversion HF1 as [|t2 x2 ts2 xs2 H2 HF2]; subst. inversion HF2; subst.
  destruct x1 as [o1 f], x2 as [o2 f']. cbn [snd] in *. inversion H1; subst. inversion H2; subst. reflexivity.
Qed.

Lemma string_aligned word spare L : laid_out word (string_type spare) L -> (word | alignment L).
Proof.
  unfold string_type. intros H. inversion H as [| | |fields placed s a HF [Hfit Hdis] Has Ha| ]; subst. cbn [alignment].
  inversion HF as [|t1 x1 ts xs H1 HF1]; subst. inversion HF1 as [|t2 x2 ts2 xs2 H2 HF2]; subst.
  inversion Hfit as [|y l F1 Fl]; subst. inversion Fl as [|y2 l2 F2 Fl2]; subst. destruct x2 as [o f]. cbn [snd] in H2. inversion H2; subst. cbn [alignment] in F2. tauto.
Qed.

(** A layout of each type. *)
Definition inline_layout (capacity : N) : type_layout :=
  let placed := [(0, {| size := 1; alignment := 1; data := [0]; niches := [] |});
                 (1, {| size := capacity; alignment := 1; data := upto_n capacity; niches := [] |})] in
  {| size := capacity + 1; alignment := 1; data := data_of placed; niches := niches_of placed |}.

Definition raw_layout (word : N) (spare : bool) : type_layout :=
  let placed := [(0, {| size := word; alignment := word; data := upto_n word; niches := upto_n word |});
                 (word, {| size := word; alignment := word; data := upto_n word; niches := if spare then upto_n word else [] |})] in
  {| size := 2 * word; alignment := word; data := data_of placed; niches := niches_of placed |}.

Definition string_layout (word : N) (spare : bool) : type_layout :=
  let placed := [(0, raw_layout word spare);
                 (2 * word, {| size := word; alignment := word; data := upto_n word; niches := [] |})] in
  {| size := 3 * word; alignment := word; data := data_of placed; niches := niches_of placed |}.

Lemma two_fields o f o' f' :
  disjoint (shift o (data f)) (shift o' (data f')) ->
  ForallOrdPairs (fun '(o, f) '(o', f') => disjoint (shift o (data f)) (shift o' (data f'))) [(o, f); (o', f')].
Proof. intros H. constructor; [constructor; [exact H|constructor]|]. constructor; [constructor|constructor]. Qed.

Lemma one_field (x : N * type_layout) :
  ForallOrdPairs (fun '(o, f) '(o', f') => disjoint (shift o (data f)) (shift o' (data f'))) [x].
Proof. constructor; constructor. Qed.

Lemma inline_laid_out word capacity : laid_out word (inline_string_type capacity) (inline_layout capacity).
Proof.
  apply struct_layout.
  - constructor; [constructor|]. constructor; [constructor|]. constructor.
  - split.
    + constructor; [|constructor; [|constructor]]; (split; [apply N.divide_1_l|]; split; [apply N.divide_1_l|]); cbn [size]; lia.
    + apply two_fields. intros p H H'. apply in_shift in H as (q & -> & Hq). apply in_shift in H' as (q' & E & Hq').
      cbn [data] in Hq, Hq'. destruct Hq as [<-|[]]. apply in_upto in Hq'. lia.
  - apply N.divide_1_l.
  - lia.
Qed.

Lemma raw_laid_out word spare : 1 <= word -> laid_out word (Struct [Word true; Word spare]) (raw_layout word spare).
Proof.
  intros Hw. apply struct_layout.
  - constructor; [exact (word_layout word true)|]. constructor; [exact (word_layout word spare)|]. constructor.
  - split.
    + constructor; [|constructor; [|constructor]]; cbn [size alignment].
      * split; [apply N.divide_0_r|]. split; [apply N.divide_refl|lia].
      * split; [apply N.divide_refl|]. split; [apply N.divide_refl|lia].
    + apply two_fields. intros p H H'. apply in_shift in H as (q & -> & Hq). apply in_shift in H' as (q' & E & Hq').
      cbn [data] in Hq, Hq'. apply in_upto in Hq. apply in_upto in Hq'. lia.
  - exists 2. lia.
  - lia.
Qed.

Lemma raw_data word spare p : In p (data (raw_layout word spare)) -> p < 2 * word.
Proof.
  unfold raw_layout, data_of. cbn [data flat_map]. rewrite app_nil_r. intros H.
  apply in_app_or in H as [H|H]; apply in_shift in H as (q & -> & Hq); apply in_upto in Hq; lia.
Qed.

Lemma string_laid_out word spare : 1 <= word -> laid_out word (string_type spare) (string_layout word spare).
Proof.
  intros Hw. apply struct_layout.
  - constructor; [apply raw_laid_out, Hw|]. constructor; [exact (word_layout word false)|]. constructor.
  - split.
    + constructor; [|constructor; [|constructor]]; cbn [size alignment raw_layout].
      * split; [apply N.divide_0_r|]. split; [apply N.divide_refl|lia].
      * split; [exists 2; lia|]. split; [apply N.divide_refl|lia].
    + apply two_fields. intros p H H'. apply in_shift in H as (q & -> & Hq). apply in_shift in H' as (q' & E & Hq').
      apply raw_data in Hq. cbn [data] in Hq'. apply in_upto in Hq'. lia.
  - exists 3. lia.
  - lia.
Qed.

Lemma string_data word spare p : In p (data (string_layout word spare)) -> p < 3 * word.
Proof.
  unfold string_layout, data_of. cbn [data flat_map]. rewrite app_nil_r. intros H.
  apply in_app_or in H as [H|H]; apply in_shift in H as (q & -> & Hq); [apply raw_data in Hq|apply in_upto in Hq]; lia.
Qed.

Lemma inline_data capacity p : In p (data (inline_layout capacity)) -> p < capacity + 1.
Proof.
  unfold inline_layout, data_of. cbn [data flat_map]. rewrite app_nil_r. intros H.
  apply in_app_or in H as [H|H]; apply in_shift in H as (q & -> & Hq); [destruct Hq as [<-|[]]|apply in_upto in Hq]; lia.
Qed.

(** ** C94 *)

(** Whatever the compiler chooses, an inline capacity of [k] bytes needs [k + 2]
    with alloc (length, text, discriminant), rounded up to words, and [k + 1]
    without. *)
Theorem C94_lower_bound : forall word spare capacity L,
  (laid_out word (nominal_string_type true spare capacity) L -> capacity + 2 <= size L /\ (word | size L)) /\
  (laid_out word (nominal_string_type false spare capacity) L -> capacity + 1 <= size L).
Proof.
  intros word spare capacity L. unfold nominal_string_type. split; intros H.
  - inversion H as [| | |fields placed s a HF [Hfit Hdis] Has Ha| ]; subst. clear H. cbn [size].
    inversion HF as [|t1 [o E] ts xs H1 HF1]; subst. inversion HF1; subst. clear HF HF1. cbn [snd] in H1.
    inversion Hfit as [|y l F1 Fl]; subst. clear Hfit Fl Hdis. cbn beta iota in F1. destruct F1 as (_ & Fa & Fs).
    inversion H1 as [| | | |variants places se ae used HV HT Hae Ha1 Hu Hs]; subst. clear H1 Hu Hs. cbn [size alignment] in *.
    inversion HV as [|f1 p1 fs ps [V1 [W1 _]] HV1]; subst. inversion HV1 as [|f2 p2 fs2 ps2 [V2 [W2 _]] HV2]; subst. inversion HV2; subst. clear HV HV1 HV2.
    inversion V1 as [|t1 [oi Li] ts xs Hi V1']; subst. inversion V1'; subst. clear V1 V1'. cbn [snd] in Hi.
    inversion V2 as [|t2 [os Ls] ts2 xs2 Hs V2']; subst. inversion V2'; subst. clear V2 V2'. cbn [snd] in Hs.
    inversion W1 as [|y l Wi Wr]; subst. inversion W2 as [|y2 l2 Wa Wr2]; subst. clear W1 W2 Wr Wr2. destruct Wi as (_ & _ & Wi). destruct Wa as (_ & Wa & _).
    destruct (inline_needs _ _ _ Hi) as (_ & b & t & Hb & Ht & Hdb & Hdt & Hn).
    cbn [told_apart] in HT. destruct HT as (p & Hp & HF & _). inversion HF as [|y3 l3 Hfree Hr]; subst. clear HF Hr.
    rewrite (no_niches _ _ _ _ Hi) in Hfree. destruct Hfree as [Hfree|[]]. unfold data_of in Hfree. cbn [flat_map] in Hfree. rewrite app_nil_r in Hfree.
    assert (p <> oi + b) as Hpb by (intros ->; apply Hfree, in_shift; exists b; split; [reflexivity|exact Hdb]).
    assert (~ (oi + t <= p < oi + t + capacity)) as Hpt by (intros Hr; apply Hfree, in_shift; exists (p - oi); split; [lia|apply Hdt; lia]).
    split; [lia|]. apply (N.divide_trans _ a); [|exact Has]. apply (N.divide_trans _ ae); [|exact Fa].
    apply (N.divide_trans _ (alignment Ls)); [exact (string_aligned _ _ _ Hs)|exact Wa].
  - inversion H as [| | |fields placed s a HF [Hfit Hdis] Has Ha| ]; subst. clear H. cbn [size].
    inversion HF as [|t1 [o E] ts xs H1 HF1]; subst. inversion HF1; subst. clear HF HF1. cbn [snd] in H1.
    inversion Hfit as [|y l F1 Fl]; subst. clear Hfit Fl Hdis. cbn beta iota in F1. destruct F1 as (_ & Fa & Fs).
    inversion H1 as [| | | |variants places se ae used HV HT Hae Ha1 Hu Hs]; subst. clear H1 Hu Hs HT. cbn [size alignment] in *.
    inversion HV as [|f1 p1 fs ps [V1 [W1 _]] HV1]; subst. inversion V1 as [|t1 [oi Li] ts xs Hi V1']; subst. cbn [snd] in Hi.
    inversion W1 as [|y l Wi Wr]; subst. destruct Wi as (_ & _ & Wi). destruct (inline_needs _ _ _ Hi) as [Hn _]. lia.
Qed.
Print Assumptions C94_lower_bound.

(** Every such size of at least four words is possible: the discriminant in the
    first byte, then the length and the text; a [String] after the first word. *)
Theorem C94_attained : forall word spare capacity,
  1 <= word ->
  (forall s, (word | s) -> capacity + 2 <= s -> 4 * word <= s ->
   exists L, laid_out word (nominal_string_type true spare capacity) L /\ size L = s) /\
  (exists L, laid_out word (nominal_string_type false spare capacity) L /\ size L = capacity + 1).
Proof.
  intros word spare capacity Hw. split.
  - intros s Hd Hc H4.
    exists {| size := s; alignment := word; data := data_of [(0, {| size := s; alignment := word; data := upto_n s; niches := [] |})]; niches := [] |}.
    split; [|reflexivity]. unfold nominal_string_type.
    apply (struct_layout word _ [(0, {| size := s; alignment := word; data := upto_n s; niches := [] |})] s word).
    + constructor; [|constructor]. cbn [snd].
      apply (enum_layout word _ [[(1, inline_layout capacity)]; [(word, string_layout word spare)]] s word (upto_n s)).
      * constructor; [|constructor; [|constructor]].
        -- split; [constructor; [apply inline_laid_out|constructor]|]. split; [|apply one_field]. constructor; [|constructor]. cbn [size alignment inline_layout].
           split; [apply N.divide_1_l|]. split; [apply N.divide_1_l|lia].
        -- split; [constructor; [apply string_laid_out, Hw|constructor]|]. split; [|apply one_field]. constructor; [|constructor]. cbn [size alignment string_layout].
           split; [apply N.divide_refl|]. split; [apply N.divide_refl|lia].
      * cbn [told_apart]. exists 0. split; [lia|].
        assert (~ In 0 (data_of [(1, inline_layout capacity)])) as H1.
        { unfold data_of. cbn [flat_map]. rewrite app_nil_r. intros H. apply in_shift in H as (q & E & _). lia. }
        assert (~ In 0 (data_of [(word, string_layout word spare)])) as H2.
        { unfold data_of. cbn [flat_map]. rewrite app_nil_r. intros H. apply in_shift in H as (q & E & _). lia. }
        split; [constructor; [left; exact H1|constructor; [left; exact H2|constructor]]|].
        intros l1 v l2 v' l3 E Hv. exfalso.
        assert (In v [[(1, inline_layout capacity)]; [(word, string_layout word spare)]]) as Hin by (rewrite E; apply in_or_app; right; left; reflexivity).
        destruct Hin as [<-|[<-|[]]]; contradiction.
      * exact Hd.
      * exact Hw.
      * constructor; [|constructor; [|constructor]]; unfold data_of; cbn [flat_map]; rewrite app_nil_r; intros p H; apply in_shift in H as (q & -> & Hq); apply in_upto.
        -- apply inline_data in Hq. lia.
        -- apply string_data in Hq. lia.
      * apply Forall_forall. intros p H. apply in_upto, H.
    + split; [|apply one_field]. constructor; [|constructor]. cbn [size alignment]. split; [apply N.divide_0_r|]. split; [apply N.divide_refl|lia].
    + exact Hd.
    + exact Hw.
  - exists {| size := capacity + 1; alignment := 1; data := data_of [(0, {| size := capacity + 1; alignment := 1; data := upto_n (capacity + 1); niches := [] |})]; niches := [] |}.
    split; [|reflexivity]. unfold nominal_string_type.
    apply (struct_layout word _ [(0, {| size := capacity + 1; alignment := 1; data := upto_n (capacity + 1); niches := [] |})] (capacity + 1) 1).
    + constructor; [|constructor]. cbn [snd].
      apply (enum_layout word _ [[(0, inline_layout capacity)]] (capacity + 1) 1 (upto_n (capacity + 1))).
      * constructor; [|constructor]. split; [constructor; [apply inline_laid_out|constructor]|]. split; [|apply one_field]. constructor; [|constructor].
        cbn [size alignment inline_layout]. split; [apply N.divide_1_l|]. split; [apply N.divide_1_l|lia].
      * exact I.
      * apply N.divide_1_l.
      * lia.
      * constructor; [|constructor]. unfold data_of. cbn [flat_map]. rewrite app_nil_r. intros p H. apply in_shift in H as (q & -> & Hq). apply in_upto. apply inline_data in Hq. lia.
      * apply Forall_forall. intros p H. apply in_upto, H.
    + split; [|apply one_field]. constructor; [|constructor]. cbn [size alignment]. split; [apply N.divide_0_r|]. split; [apply N.divide_1_l|lia].
    + apply N.divide_1_l.
    + lia.
Qed.
Print Assumptions C94_attained.

(** So the 64 bytes of the documentation are the least for the crate's 62, and
    62 is the most that 64 bytes can hold: one byte of text more, and there
    would be a word more. *)
Theorem C94_documented : forall word spare, In word [2; 4; 8] ->
  (exists L, laid_out word (nominal_string_type true spare INLINE_CAPACITY) L /\ size L = 64) /\
  (forall L, laid_out word (nominal_string_type true spare INLINE_CAPACITY) L -> 64 <= size L) /\
  (forall L, laid_out word (nominal_string_type true spare (INLINE_CAPACITY + 1)) L -> 64 + word <= size L).
Proof.
  intros word spare Hw.
  assert (1 <= word /\ (word | 64) /\ 4 * word <= 64) as (H1 & H64 & H4).
  { destruct Hw as [<-|[<-|[<-|[]]]]; (split; [lia|]; split; [apply N.mod_divide; [lia|reflexivity]|lia]). }
  split; [|split].
  - apply (proj1 (C94_attained word spare INLINE_CAPACITY H1)); [exact H64|unfold INLINE_CAPACITY; lia|exact H4].
  - intros L H. destruct (proj1 (C94_lower_bound word spare _ L) H) as [Hl _]. unfold INLINE_CAPACITY in Hl. lia.
  - intros L H. destruct (proj1 (C94_lower_bound word spare _ L) H) as [Hl [k Hk]]. unfold INLINE_CAPACITY in Hl. destruct H64 as [m Hm]. rewrite Hk, Hm in *.
    assert (m < k) by nia. nia.
Qed.
Print Assumptions C94_documented.

(** On a 64-bit target, with a byte of text more: 72 bytes. *)
Example C94_case :
  INLINE_CAPACITY = 62 /\
  (exists L, laid_out 8 (nominal_string_type true true 62) L /\ size L = 64) /\
  (exists L, laid_out 8 (nominal_string_type true true 63) L /\ size L = 72) /\
  (exists L, laid_out 8 (nominal_string_type false true 62) L /\ size L = 63).
Proof.
  split; [reflexivity|]. split; [apply (proj1 (C94_attained 8 true 62 ltac:(lia))); [exists 8; reflexivity|lia|lia]|].
  split; [apply (proj1 (C94_attained 8 true 63 ltac:(lia))); [exists 9; reflexivity|lia|lia]|].
  exact (proj2 (C94_attained 8 true 62 ltac:(lia))).
Qed.
