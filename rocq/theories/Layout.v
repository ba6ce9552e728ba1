(** * Layout: where an inline string keeps its text, and which strings are reachable *)

From Verif Require Import Prelude Utf8Facts StringFacts.
From Verif Require Export History.

(** The direction a constructor chooses. *)
Definition built_reverse (k : constructor) : bool :=
  match k with NewReverse => true | _ => false end.

(** The 62 cells for a text: it is at the start, or in reverse at the end, and
    every other cell was never written. *)
Definition layout (rv : bool) (text : list N) : list cell :=
  let unused := repeat None (62 - length text) in
  if rv then unused ++ map Some text else map Some text ++ unused.

Definition layout_string (rv : bool) (text : list N) : inline_string :=
  {| length_byte := (if rv then 0x80 else 0) + N.of_nat (length text); cells := layout rv text |}.

Lemma rep_layout c i text : good c (Inline i) text -> i = layout_string (is_reverse i) text.
Proof.
  intros (cs & (Hs & rv & Hi) & ->). rewrite (ir_rev _ _ _ Hi).
  destruct Hi as (Hl & Hb & Hlen & k & Hc). destruct i as [b buf]. cbn [length_byte cells] in *. unfold layout_string. f_equal.
  - rewrite Hb. unfold dir. destruct rv; reflexivity.
  - rewrite Hc in Hlen |- *. unfold layout.
    destruct rv; rewrite app_length, map_length, repeat_length in Hlen; do 2 f_equal; lia.
Qed.

(** No call changes the direction. *)
Lemma set_length_reverse i n : n <= 62 -> is_reverse (set_length i n) = is_reverse i.
Proof.
  intros Hn. unfold is_reverse, set_length. cbn [length_byte]. rewrite N.land_lor_distr_l, <- N.land_assoc.
  change (N.land 0x80 0x80) with 0x80.
  assert (N.land n 0x80 = 0) as ->; [|rewrite N.lor_0_r; reflexivity].
  apply N.eqb_eq. revert n Hn. apply below_63. vm_compute; reflexivity.
Qed.

Lemma inline_push_reverse i ch cl il nl i' : nl <= 62 -> inline_push i ch cl il nl = Ret i' -> is_reverse i' = is_reverse i.
Proof.
  intros Hn. unfold inline_push. destruct (is_reverse i) eqn:Er.
  - repeat match goal with |- obind ?m _ = _ -> _ => destruct m; try discriminate; cbn [obind] end.
    intros E; injection E as <-. rewrite set_length_reverse by assumption. exact Er.
  - destruct (write_zip _ _ _ _); try discriminate. intros E; injection E as <-. rewrite set_length_reverse by assumption. exact Er.
Qed.

Lemma inline_push_str_reverse i str nl i' : nl <= 62 -> inline_push_str i str nl = Ret i' -> is_reverse i' = is_reverse i.
Proof.
  intros Hn. unfold inline_push_str. destruct (is_reverse i) eqn:Er.
  - repeat match goal with |- obind ?m _ = _ -> _ => destruct m; try discriminate; cbn [obind] end.
    intros E; injection E as <-. rewrite set_length_reverse by assumption. exact Er.
  - destruct (raw_copy _ _ _); try discriminate. intros E; injection E as <-. rewrite set_length_reverse by assumption. exact Er.
Qed.

Lemma inline_push_front_reverse i ch cl il nl i' : nl <= 62 -> inline_push_front i ch cl il nl = Ret i' -> is_reverse i' = is_reverse i.
Proof.
  intros Hn. unfold inline_push_front. destruct (is_reverse i) eqn:Er.
  - repeat match goal with |- obind ?m _ = _ -> _ => destruct m; try discriminate; cbn [obind] end.
    intros E; injection E as <-. rewrite set_length_reverse by assumption. exact Er.
  - destruct (copy_within _ _ _ _) as [moved| | |]; try discriminate. cbn [obind]. unfold encode_into_bytes_mut.
    repeat match goal with |- obind ?m _ = _ -> _ => destruct m; try discriminate; cbn [obind] end.
    destruct (_ <=? _)%nat; [|discriminate]. intros E; injection E as <-.
    transitivity (is_reverse (set_length (with_cells i moved) nl)); [reflexivity|].
    rewrite set_length_reverse by assumption. exact Er.
Qed.

Lemma step_reverse c i o i' r : step c (Inline i) o = Ret (Inline i', r) -> is_reverse i' = is_reverse i.
Proof.
  destruct o as [ch|bs|ch|f]; cbn [step].
  - cbn [try_push]. destruct (char_len_u8 ch); try discriminate. cbn [obind]. destruct (uadd _ _ _ _) as [nl| | |]; try discriminate. cbn [obind].
    destruct (N.leb_spec nl INLINE_CAPACITY) as [Hl|Hl].
    + destruct (inline_push _ _ _ _ _) as [i1| | |] eqn:E; try discriminate. intros E'; injection E' as <- _. eapply inline_push_reverse, E. exact Hl.
    + destruct (has_alloc c); [destruct (inline_as_str i); discriminate|]. intros E; injection E as <- _. reflexivity.
  - cbn [try_push_str]. set (over := if has_alloc c then _ else _).
    assert (over = Ret (Inline i', r) -> is_reverse i' = is_reverse i) as Hover.
    { unfold over. destruct (has_alloc c); [destruct (inline_as_str i); discriminate|]. intros E; injection E as <- _. reflexivity. }
    destruct (_ <? 256); [|exact Hover]. destruct (_ <? 256); [|exact Hover].
    destruct (N.leb_spec (inline_len i + N.of_nat (length bs)) INLINE_CAPACITY) as [Hl|Hl]; [|exact Hover].
    destruct (inline_push_str _ _ _) as [i1| | |] eqn:E; try discriminate. intros E'; injection E' as <- _. eapply inline_push_str_reverse, E. exact Hl.
  - cbn [try_push_front]. destruct (char_len_u8 ch); try discriminate. cbn [obind]. destruct (uadd _ _ _ _) as [nl| | |]; try discriminate. cbn [obind].
    destruct (N.leb_spec nl INLINE_CAPACITY) as [Hl|Hl].
    + destruct (inline_push_front _ _ _ _ _) as [i1| | |] eqn:E; try discriminate. intros E'; injection E' as <- _. eapply inline_push_front_reverse, E. exact Hl.
    + destruct (has_alloc c); [destruct (inline_as_str i); discriminate|]. intros E; injection E as <- _. reflexivity.
  - unfold edit_str. destruct (as_str (Inline i)); try discriminate. cbn [obind]. destruct (_ && _); [|discriminate].
    destruct (data_offset i); try discriminate. cbn [obind]. intros E; injection E as <- _. reflexivity.
Qed.

(** A string on the heap stays there. *)
Lemma step_heap c bs o i r : step c (Heap bs) o <> Ret (Inline i, r).
Proof.
  destruct o as [ch|str|ch|f]; cbn; try discriminate.
  destruct (_ && _); discriminate.
Qed.

Lemma run_reverse c : forall ops s i rs, run c s ops = Ret (Inline i, rs) ->
  exists i0, s = Inline i0 /\ is_reverse i = is_reverse i0.
Proof.
  induction ops as [|o ops IH]; intros s i rs E; cbn [run] in E.
  - injection E as -> _. exists i. auto.
  - destruct (step c s o) as [[s1 r]| | |] eqn:Es; try discriminate. cbn [obind] in E.
    destruct (run c s1 ops) as [[s2 rs']| | |] eqn:Er; try discriminate. cbn [obind] in E. injection E as -> _.
    destruct (IH _ _ _ Er) as (i1 & -> & H1). destruct s as [i0|bs]; [|destruct (step_heap _ _ _ _ _ Es)].
    exists i0. split; [reflexivity|]. rewrite H1. eapply step_reverse, Es.
Qed.

Lemma construct_reverse c k i : construct c k = Ret (Inline i) -> is_reverse i = built_reverse k.
Proof.
  destruct k as [| |ch|bs|bs]; cbn [construct built_reverse]; intros E.
  - injection E as <-. reflexivity.
  - injection E as <-. reflexivity.
  - unfold from_char in E. destruct (try_push c new ch) as [[s' [u|e]]| | |] eqn:Ep; try discriminate.
    cbn [obind] in E. injection E as ->. rewrite (step_reverse c _ (Push ch) _ _ Ep). reflexivity.
  - unfold from_str in E. destruct ((_ <? 256) && (N.of_nat (length bs) <=? INLINE_CAPACITY)) eqn:El.
    + destruct (write_zip _ _ _ _); try discriminate. cbn [obind] in E. injection E as <-.
      unfold is_reverse. cbn [length_byte].
      assert (N.of_nat (length bs) <= 62) as Hl by (unfold INLINE_CAPACITY in El; lia).
      assert (N.land (N.of_nat (length bs)) 0x80 = 0) as ->; [|reflexivity].
      apply N.eqb_eq. revert Hl. generalize (N.of_nat (length bs)). apply below_63. vm_compute; reflexivity.
    + destruct (has_alloc c); discriminate.
  - discriminate.
Qed.

(** Every well-formed string can be built by the caller: forward and heap
    strings by conversion, reversed ones by one push. *)
Lemma rep_reachable c s cs : rep c s cs -> reachable c s.
Proof.
  intros H. destruct s as [i|bs].
  2:{ destruct H as (Hs & Ha & ->). exists (FromString (utf8 cs)), [], [].
      split; [split; [apply valid_utf8_utf8, Hs|exact Ha]|]. split; [constructor|reflexivity]. }
  pose proof (good_reads _ _ _ H) as Hg. destruct H as (Hs & rv & Hi).
  assert (at_most_62 (utf8 cs) = true) as Hlen by (rewrite <- len_62; apply N.leb_le, Hi).
  pose proof (valid_utf8_utf8 cs Hs) as Hv.
  set (k := if rv then NewReverse else FromStr (utf8 cs)). set (ops := if rv then [PushStr (utf8 cs)] else []).
  assert (valid_constructor c k) as Hk by (unfold k; destruct rv; [exact I|exact Hv]).
  assert (Forall valid_op ops) as Ho by (unfold ops; destruct rv; repeat constructor; exact Hv).
  pose proof (build_spec c k ops Hk Ho) as Hb.
  replace (constructor_fits c k) with true in Hb by (unfold k; destruct rv; cbn; rewrite ?Hlen, ?orb_true_r; reflexivity).
  assert (fst (spec_ops c (constructor_text k) ops) = utf8 cs) as Ht.
  { unfold k, ops. destruct rv; [|reflexivity]. cbn [spec_ops constructor_text]. unfold spec_step, succeeds.
    cbn [op_text app is_edit orb]. unfold roomy. rewrite Hlen, orb_true_r. reflexivity. }
  rewrite Ht in Hb. destruct Hb as (s & E & Hg' & Hin).
  assert (is_inline s = true) as Hin' by (unfold k in Hin; destruct rv; rewrite Hin; exact Hlen).
  destruct s as [i'|bs]; [|discriminate].
  assert (i' = i) as ->; [|eexists k, ops, _; eauto].
  rewrite (rep_layout _ _ _ Hg), (rep_layout _ _ _ Hg'), (ir_rev _ _ _ Hi). f_equal.
  unfold build in E. destruct (construct c k) as [s0| | |] eqn:Ek; try discriminate. cbn [obind] in E.
  destruct (run_reverse _ _ _ _ _ E) as (i0 & -> & ->). rewrite (construct_reverse _ _ _ Ek).
  unfold k. destruct rv; reflexivity.
Qed.
