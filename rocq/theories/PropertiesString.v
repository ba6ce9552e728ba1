(** * PropertiesString: C01-C11, the [NominalString] type *)

From Coq Require Import String.
From Verif Require Import Prelude Utf8Facts StringFacts History Slices Cases.

(** An in-place edit used in the examples, and a history that crosses the
    62-byte boundary and mixes 1- to 4-byte characters and both ends. *)
Definition swap (bs : list N) : list N :=
  if bytes_eqb bs (bytes "xyz"%string) then bytes "é!"%string else bs.

Lemma swap_valid : valid_op (Edit swap).
Proof.
  intros bs H. unfold swap. destruct (bytes_eqb bs (bytes "xyz"%string)) eqn:E; [|auto].
  apply bytes_eqb_spec in E. subst. split; vm_compute; reflexivity.
Qed.

(** Text, call results and storage at the end of a history. *)
Definition outcome_of (c : config) (k : constructor) (ops : list op)
  : outcome (list N * list (result unit out_of_memory) * bool) :=
  '(s, rs) <- build c k ops ;; text <- as_str s ;; Ret (text, rs, is_inline s).

Definition example_ops : list op :=
  [PushFront 0x10348; Push 0x20AC; PushStr (bytes "abc"%string); Edit swap;
   PushStr (repeat 0x7A 47); PushFront 0xE9; Push 0x78; PushFront 0x1F600].

Lemma example_valid : Forall valid_op example_ops.
Proof.
  repeat (apply Forall_cons; [first [exact swap_valid | vm_compute; reflexivity]|]). constructor.
Qed.

(** ** C01 *)

Theorem C01_pushes_build_the_text : forall c k ops,
  has_alloc c = true -> valid_constructor c k -> Forall valid_op ops ->
  exists s, build c k ops = Ret (s, map (fun _ => Ok tt) ops) /\
            as_str s = Ret (ops_text (constructor_text k) ops).
Proof.
  intros c k ops Hc Hk Hops. pose proof (build_spec c k ops Hk Hops) as H.
  rewrite spec_ops_alloc in H by assumption. cbn [fst snd] in H. rewrite map_map in H.
  assert (constructor_fits c k = true) as E by (destruct k; cbn; rewrite ?Hc; reflexivity).
  rewrite E in H. destruct H as (s & E' & Hg & _). exists s. split; [exact E'|].
  eapply good_str, Hg.
Qed.
Print Assumptions C01_pushes_build_the_text.

Example C01_case :
  valid_constructor on_heap (FromStr (bytes "12"%string)) /\ Forall valid_op example_ops /\
  ops_text (bytes "12"%string) example_ops =
    utf8 ([0x1F600; 0xE9; 0x10348] ++ chars "12"%string ++ [0x20AC] ++ chars "abc"%string ++ repeat 0x7A 47 ++ [0x78]).
Proof. split; [reflexivity|]. split; [exact example_valid|vm_compute; reflexivity]. Qed.

(** ** C02 *)

Theorem C02_directions_agree : forall c ops, Forall valid_op ops ->
  exists s1 s2 rs text,
    run c new ops = Ret (s1, rs) /\ run c new_reverse ops = Ret (s2, rs) /\
    as_str s1 = Ret text /\ as_str s2 = Ret text /\ is_inline s1 = is_inline s2.
Proof.
  intros c ops Hops.
  destruct (build_spec c New ops I Hops) as (s1 & E1 & H1 & I1).
  destruct (build_spec c NewReverse ops I Hops) as (s2 & E2 & H2 & I2).
  unfold build in *. cbn [construct obind constructor_text] in *.
  exists s1, s2. eexists. eexists. repeat split; [exact E1|exact E2|apply (good_str _ _ _ H1)|
    apply (good_str _ _ _ H2)|congruence].
Qed.
Print Assumptions C02_directions_agree.

(** The two strings really differ: the same text sits at different ends. *)
Example C02_case :
  Forall valid_op example_ops /\
  exists a b, run no_heap new [Push 0x61] = Ret (Inline a, [Ok tt]) /\
              run no_heap new_reverse [Push 0x61] = Ret (Inline b, [Ok tt]) /\ a <> b.
Proof.
  split; [exact example_valid|].
  exists {| length_byte := 1; cells := Some 0x61 :: repeat None 61 |},
         {| length_byte := 129; cells := repeat None 61 ++ [Some 0x61] |}.
  split; [vm_compute; reflexivity|]. split; [vm_compute; reflexivity|]. discriminate.
Qed.

(** ** C03 *)

Theorem C03_inline_iff_at_most_62 : forall c k ops,
  has_alloc c = true -> valid_constructor c k -> Forall valid_op ops ->
  exists s rs text, build c k ops = Ret (s, rs) /\ as_str s = Ret text /\
    (is_inline s = true <->
       (match k with FromString _ => False | _ => True end) /\ (length text <= 62)%nat).
Proof.
  intros c k ops Hc Hk Hops. pose proof (build_spec c k ops Hk Hops) as H.
  assert (constructor_fits c k = true) as E by (destruct k; cbn; rewrite ?Hc; reflexivity).
  rewrite E in H. destruct H as (s & E' & Hg & Hi). exists s. eexists. eexists.
  split; [exact E'|]. split; [eapply good_str, Hg|].
  unfold at_most_62 in Hi. destruct k; rewrite Hi; intuition (try lia; discriminate).
Qed.
Print Assumptions C03_inline_iff_at_most_62.

(** Once on the heap, always on the heap. *)
Theorem C03_never_back_inline : forall c s ops s' rs,
  reachable c s -> is_inline s = false -> Forall valid_op ops ->
  run c s ops = Ret (s', rs) -> is_inline s' = false.
Proof.
  intros c s ops s' rs Hr Hi Hops E. destruct (reachable_good c s Hr) as (text & Hg).
  destruct (run_spec c ops s text Hg Hops) as (s1 & E1 & _ & _ & H). rewrite E in E1.
  injection E1 as -> _. auto.
Qed.
Print Assumptions C03_never_back_inline.

Example C03_case :
  outcome_of on_heap New [PushStr (repeat 0x61 62)] = Ret (repeat 0x61 62, [Ok tt], true) /\
  outcome_of on_heap New [PushStr (repeat 0x61 62); PushFront 0x62] =
    Ret (0x62 :: repeat 0x61 62, [Ok tt; Ok tt], false).
Proof. split; vm_compute; reflexivity. Qed.

(** ** C04 *)

Theorem C04_bounded_without_alloc : forall c k ops,
  has_alloc c = false -> valid_constructor c k -> constructor_fits c k = true -> Forall valid_op ops ->
  exists s, build c k ops = Ret (s, map unit_result (snd (bounded_ops (constructor_text k) ops))) /\
            as_str s = Ret (fst (bounded_ops (constructor_text k) ops)) /\
            (length (fst (bounded_ops (constructor_text k) ops)) <= 62)%nat.
Proof.
  intros c k ops Hc Hk Hf Hops. pose proof (build_spec c k ops Hk Hops) as H.
  rewrite Hf, spec_ops_noalloc in H by assumption. destruct H as (s & E & Hg & Hi).
  exists s. split; [exact E|]. split; [eapply good_str, Hg|].
  destruct Hg as (cs & Hr & Ht). rewrite Ht. pose proof (rep_noalloc _ _ _ Hr Hc).
  destruct s; [|discriminate]. destruct Hr as (_ & rv & Hl & _). unfold utf8_len in Hl. lia.
Qed.
Print Assumptions C04_bounded_without_alloc.

(** A failing call leaves the very same string. *)
Theorem C04_failure_changes_nothing : forall c s o s' e,
  reachable c s -> valid_op o -> step c s o = Ret (s', Err e) -> s' = s /\ has_alloc c = false.
Proof.
  intros c s o s' e Hr Ho E. destruct (reachable_good c s Hr) as (text & Hg).
  pose proof (step_effect c s text o Hg Ho) as H. unfold op_effect in H.
  destruct (succeeds c text o) eqn:Es.
  - destruct H as (s1 & E1 & _). congruence.
  - split; [congruence|]. unfold succeeds, roomy in Es.
    destruct (has_alloc c); [rewrite orb_true_r in Es; discriminate|reflexivity].
Qed.
Print Assumptions C04_failure_changes_nothing.

Example C04_case :
  let ops := [PushStr (repeat 0x61 60); Push 0x20AC; PushFront 0xE9; PushStr [0x62]] in
  Forall valid_op ops /\ snd (bounded_ops [] ops) = [true; false; true; false] /\
  fst (bounded_ops [] ops) = encode_char 0xE9 ++ repeat 0x61 60.
Proof.
  cbv zeta. split; [|split; vm_compute; reflexivity].
  repeat (apply Forall_cons; [vm_compute; reflexivity|]). constructor.
Qed.

(** ** C05 *)

Theorem C05_reads_are_safe : forall c s, reachable c s ->
  exists text, as_str s = Ret text /\ valid_utf8 text = true /\
    match s with
    | Inline i => exposed_cells i = Ret (map Some text)
    | Heap _ => has_alloc c = true
    end.
Proof.
  intros c s Hr. destruct (reachable_good c s Hr) as (text & Hg). exists text.
  split; [eapply good_str, Hg|]. split; [eapply good_valid, Hg|].
  destruct Hg as (cs & Hrep & ->). destruct s; [|apply Hrep].
  destruct Hrep as (_ & rv & Hi). eapply ir_exposed, Hi.
Qed.
Print Assumptions C05_reads_are_safe.

(** No call on a reachable string panics, hangs or is undefined. *)
Theorem C05_calls_are_safe : forall c s o, reachable c s -> valid_op o ->
  exists s' r, step c s o = Ret (s', r) /\ reachable c s'.
Proof.
  intros c s o Hr Ho. destruct (reachable_good c s Hr) as (text & Hg).
  pose proof (step_effect c s text o Hg Ho) as H. unfold op_effect in H.
  assert (exists s' r, step c s o = Ret (s', r)) as (s' & r & E).
  { destruct (succeeds c text o); [destruct H as (s' & E & _)|]; eauto. }
  exists s', r. split; [exact E|].
  destruct Hr as (k & ops & rs & Hk & Hops & E').
  exists k, (ops ++ [o]), (rs ++ [r]). split; [assumption|].
  split; [apply Forall_app; auto|]. unfold build in *.
  destruct (construct c k) as [s0| | |]; cbn [obind] in *; try discriminate.
  rewrite run_app, E'. cbn [obind]. cbn [run]. rewrite E. cbn [obind]. reflexivity.
Qed.
Print Assumptions C05_calls_are_safe.

(** Construction panics only for a long [From<&str>] without alloc. *)
Theorem C05_construction : forall c k, valid_constructor c k ->
  (exists s, construct c k = Ret s /\ reachable c s) \/
  (construct c k = Panic /\ has_alloc c = false /\
   exists bs, k = FromStr bs /\ (62 < length bs)%nat).
Proof.
  intros c k Hk. pose proof (construct_spec c k Hk) as H.
  destruct (constructor_fits c k) eqn:E.
  - left. destruct H as (s & E' & _). exists s. split; [assumption|].
    exists k, [], []. split; [assumption|]. split; [constructor|]. unfold build. rewrite E'. reflexivity.
  - right. split; [assumption|]. destruct k as [| |ch|bs|bs]; try discriminate.
    cbn in E. apply orb_false_iff in E as [Ea Eb]. split; [assumption|].
    exists bs. split; [reflexivity|]. unfold at_most_62 in Eb. lia.
Qed.
Print Assumptions C05_construction.

Example C05_case :
  Forall valid_op example_ops /\
  outcome_of no_heap NewReverse example_ops =
    Ret (utf8 ([0xE9; 0x10348; 0x20AC] ++ chars "abc"%string ++ repeat 0x7A 47 ++ [0x78]),
         [Ok tt; Ok tt; Ok tt; Ok tt; Ok tt; Ok tt; Ok tt; Err OutOfMemoryError], true).
Proof. split; [exact example_valid|vm_compute; reflexivity]. Qed.

(** ** C06 *)

(** As stated, C06 is false: [push_front] on a forward string makes a [&mut
    [u8]] over bytes that were never written. *)
Theorem C06_refuted : exists c s o cs,
  valid_config c /\ reachable c s /\ valid_op o /\ In (Ret cs) (slices c s o) /\ ~ initialised cs.
Proof.
  exists on_heap, new, (PushFront 0x61), [None].
  split; [split; [right; right; reflexivity|cbn; lia]|].
  split; [exists New, [], []; repeat split; constructor|].
  split; [reflexivity|]. split; [left; reflexivity|].
  intros H. inversion H. contradiction.
Qed.
Print Assumptions C06_refuted.

(** What holds: every slice is inside the buffer; it covers only initialised
    bytes except in the in-place forward [push_front], where it is the old
    text after as many cells as the new character needs, which still are as
    they were: the start of the old text, and uninitialised beyond it. *)
Theorem C06_slices_initialised_partial : forall c s o x,
  reachable c s -> valid_op o -> In x (slices c s o) ->
  if forward_push_front s o then
    exists ch text, o = PushFront ch /\ as_str s = Ret text /\
      x = Ret (firstn (length (encode_char ch)) (map Some text ++ repeat None 4) ++ map Some text)
  else exists cs, x = Ret cs /\ initialised cs.
Proof.
  intros c s o x Hr Ho Hx. destruct (forward_push_front s o) eqn:E.
  - destruct s as [i|bs]; [|discriminate]. destruct o as [ch|bs|ch|f]; try discriminate.
    destruct (slices_forward c (Inline i) ch x Hr Ho Hx E) as (text & H). exists ch, text. auto.
  - eapply slices_initialised; eassumption.
Qed.
Print Assumptions C06_slices_initialised_partial.

(** So a slice over uninitialised bytes is made by exactly one kind of call: a
    forward [push_front] of a character with more bytes than the text. *)
Theorem C06_exactly_when_partial : forall c s o text,
  reachable c s -> valid_op o -> as_str s = Ret text ->
  (exists cs, In (Ret cs) (slices c s o) /\ ~ initialised cs) <->
  (forward_push_front s o = true /\ exists ch, o = PushFront ch /\ (length text < length (encode_char ch))%nat).
Proof.
  intros c s o text Hr Ho Ht.
  assert (forall ch, (length (encode_char ch) <= 4)%nat) as H4.
  { intros ch. pose proof (len_utf8_bounds ch). pose proof (encode_char_length ch). lia. }
  split.
  - intros (cs & Hx & Hu). pose proof (C06_slices_initialised_partial c s o _ Hr Ho Hx) as H.
    destruct (forward_push_front s o).
    + destruct H as (ch & text' & -> & Ht' & E). rewrite Ht in Ht'. injection Ht' as <-. injection E as ->.
      split; [reflexivity|]. exists ch. split; [reflexivity|]. rewrite stale_initialised in Hu by apply H4. lia.
    + destruct H as (cs' & E & Hi). injection E as ->. contradiction.
  - intros (Hf & ch & -> & Hlt). pose proof Hf as Hf'.
    assert (exists x, In x (slices c s (PushFront ch))) as (x & Hx).
    { destruct s as [i|bs]; [|discriminate]. cbn [forward_push_front slices] in *.
      destruct (reachable_good _ _ Hr) as (t & cs & (Hs & rv & Hi) & ->). apply andb_true_iff in Hf as [Hd Hl].
      rewrite Hl. rewrite (ir_rev _ _ _ Hi), (ir_len _ _ _ Hi) in *. destruct rv; [discriminate|].
      destruct (moved_exposed i cs ch Hi) as (moved & stale & E & _); [rewrite utf8_len_cons; lia|].
      rewrite encode_char_length_nat in E. unfold utf8_len at 1. rewrite Nat2N.id, E. eexists; left; reflexivity. }
    pose proof (C06_slices_initialised_partial c s _ _ Hr Ho Hx) as H. rewrite Hf' in H.
    destruct H as (ch' & text' & E & Ht' & ->). injection E as <-. rewrite Ht in Ht'. injection Ht' as <-.
    eexists. split; [exact Hx|]. rewrite stale_initialised by apply H4. lia.
Qed.
Print Assumptions C06_exactly_when_partial.

Example C06_case :
  ('(s, rs) <- build on_heap New [PushStr (bytes "abc"%string)] ;;
   Ret (slices on_heap s (PushFront 0x20AC), slices on_heap s (PushFront 0x10348), slices on_heap s (PushStr (repeat 0x61 62)))) =
  Ret ([Ret (map Some (bytes "abcabc"%string))],
       [Ret (map Some (bytes "abc"%string) ++ [None] ++ map Some (bytes "abc"%string))],
       [Ret (map Some (bytes "abc"%string))]).
Proof. vm_compute; reflexivity. Qed.

(** ** C07 *)

Theorem C07_conversions_keep_the_text : forall c k s, valid_constructor c k ->
  construct c k = Ret s -> as_str s = Ret (constructor_text k).
Proof.
  intros c k s Hk E. pose proof (construct_spec c k Hk) as H. destruct (constructor_fits c k); [|congruence].
  destruct H as (s' & E' & Hg & _). rewrite E in E'. injection E' as ->. eapply good_str, Hg.
Qed.
Print Assumptions C07_conversions_keep_the_text.

(** [From<&str>] panics exactly for long strings without alloc. *)
Theorem C07_from_str_panics_iff : forall c bs, valid_utf8 bs = true ->
  from_str c bs = Panic <-> has_alloc c = false /\ (62 < length bs)%nat.
Proof.
  intros c bs Hv. pose proof (construct_spec c (FromStr bs) Hv) as H. cbn in H.
  destruct (has_alloc c || at_most_62 bs) eqn:E; unfold at_most_62 in E.
  - destruct H as (s & E' & _). rewrite E'. split; [discriminate|]. intros [Ha Hb]. rewrite Ha in E. lia.
  - rewrite H. split; [|reflexivity]. intros _. destruct (has_alloc c); [discriminate|]. split; [reflexivity|lia].
Qed.
Print Assumptions C07_from_str_panics_iff.

(** Into [String] and back. *)
Theorem C07_round_trip : forall c s, has_alloc c = true -> reachable c s ->
  exists text, as_str s = Ret text /\ into_string s = Ret text /\
    as_str (from_string text) = Ret text /\
    exists s', from_str c text = Ret s' /\ as_str s' = Ret text.
Proof.
  intros c s Hc Hr. destruct (reachable_good c s Hr) as (text & Hg). exists text.
  pose proof (good_str _ _ _ Hg) as E. split; [exact E|]. split.
  - unfold into_string. destruct s; cbn in *; exact E.
  - split; [reflexivity|]. pose proof (construct_spec c (FromStr text) (good_valid _ _ _ Hg)) as H.
    cbn in H. rewrite Hc in H. destruct H as (s' & E' & Hg' & _). exists s'. split; [assumption|].
    eapply good_str, Hg'.
Qed.
Print Assumptions C07_round_trip.

Example C07_case :
  valid_utf8 (repeat 0x61 63) = true /\ from_str no_heap (repeat 0x61 63) = Panic /\
  (s <- from_char no_heap 0x10348 ;; as_str s) = Ret [0xF0; 0x90; 0x8D; 0x88].
Proof. repeat split; vm_compute; reflexivity. Qed.

(** ** C08 *)

Theorem C08_try_into_string : forall c s, reachable c s ->
  match try_into_string s with
  | Ok text => is_inline s = false /\ as_str s = Ret text
  | Err s' => is_inline s = true /\ s' = s
  end.
Proof. intros c s _. destruct s; cbn; auto. Qed.
Print Assumptions C08_try_into_string.

Example C08_case :
  exists s, reachable on_heap s /\ try_into_string s = Ok (repeat 0x61 70).
Proof.
  exists (Heap (repeat 0x61 70)). split; [|reflexivity].
  exists (FromStr (repeat 0x61 70)), [], [].
  split; [vm_compute; reflexivity|]. split; [constructor|vm_compute; reflexivity].
Qed.

(** ** C09 *)

Theorem C09_equality_is_text_equality : forall c a b, reachable c a -> reachable c b ->
  exists ta tb r, as_str a = Ret ta /\ as_str b = Ret tb /\
    ns_eq a b = Ret r /\ (r = true <-> ta = tb) /\
    eq_str a tb = Ret r /\ eq_str b ta = Ret r.
Proof.
  intros c a b Ha Hb. destruct (reachable_good c a Ha) as (ta & Ga). destruct (reachable_good c b Hb) as (tb & Gb).
  exists ta, tb, (bytes_eqb ta tb). unfold ns_eq, eq_str.
  rewrite (good_str _ _ _ Ga), (good_str _ _ _ Gb). cbn [obind].
  repeat split; try apply bytes_eqb_spec. f_equal.
  destruct (bytes_eqb tb ta) eqn:E1, (bytes_eqb ta tb) eqn:E2; try reflexivity.
  - apply bytes_eqb_spec in E1. symmetry in E1. apply bytes_eqb_spec in E1. congruence.
  - apply bytes_eqb_spec in E2. symmetry in E2. apply bytes_eqb_spec in E2. congruence.
Qed.
Print Assumptions C09_equality_is_text_equality.

Theorem C09_equivalence : forall c, 
  (forall a, reachable c a -> ns_eq a a = Ret true) /\
  (forall a b, reachable c a -> reachable c b -> ns_eq a b = ns_eq b a) /\
  (forall a b d, reachable c a -> reachable c b -> reachable c d ->
     ns_eq a b = Ret true -> ns_eq b d = Ret true -> ns_eq a d = Ret true).
Proof.
  intros c. split; [|split].
  - intros a Ha. destruct (C09_equality_is_text_equality c a a Ha Ha) as (t & t' & r & E & E' & R & H & _).
    rewrite R. f_equal. apply H. congruence.
  - intros a b Ha Hb. destruct (C09_equality_is_text_equality c a b Ha Hb) as (t & t' & r & E & E' & R & H & _).
    destruct (C09_equality_is_text_equality c b a Hb Ha) as (u & u' & r' & F & F' & R' & H' & _).
    rewrite R, R'. f_equal. apply eq_true_iff_eq. rewrite H, H'. split; congruence.
  - intros a b d Ha Hb Hd E1 E2.
    destruct (C09_equality_is_text_equality c a b Ha Hb) as (ta & tb & r & A & B & R & H & _).
    destruct (C09_equality_is_text_equality c b d Hb Hd) as (tb' & td & r' & B' & D & R' & H' & _).
    destruct (C09_equality_is_text_equality c a d Ha Hd) as (ta' & td' & r'' & A' & D' & R'' & H'' & _).
    rewrite R''. f_equal. apply H''.
    rewrite R in E1. rewrite R' in E2. injection E1 as ->. injection E2 as ->.
    destruct H as [H _]. destruct H' as [H' _]. specialize (H eq_refl). specialize (H' eq_refl). congruence.
Qed.
Print Assumptions C09_equivalence.

(** Also with a [str] too long for any string of the build. *)
Theorem C09_any_str : forall c a other, reachable c a ->
  exists ta r, as_str a = Ret ta /\ eq_str a other = Ret r /\ (r = true <-> ta = other).
Proof.
  intros c a other Ha. destruct (reachable_good c a Ha) as (ta & Ga). exists ta, (bytes_eqb ta other).
  unfold eq_str. rewrite (good_str _ _ _ Ga). cbn [obind]. repeat split; apply bytes_eqb_spec.
Qed.
Print Assumptions C09_any_str.

Example C09_case :
  exists a b, reachable on_heap a /\ reachable on_heap b /\ a <> b /\ is_inline a <> is_inline b /\
    ns_eq a b = Ret true.
Proof.
  exists (Heap (bytes "ab"%string)).
  destruct (build_spec on_heap NewReverse [Push 0x62; PushFront 0x61] I) as (s & E & Hg & Hi).
  { repeat constructor. }
  exists s. split; [exists (FromString (bytes "ab"%string)), [], []; repeat split; constructor|].
  split; [exists NewReverse, [Push 0x62; PushFront 0x61]; eexists; split; [exact I|]; split; [repeat constructor|exact E]|].
  split; [intros <-; discriminate|]. split; [cbn; rewrite Hi; discriminate|].
  unfold ns_eq. rewrite (good_str _ _ _ Hg). reflexivity.
Qed.

(** ** C10 *)

Theorem C10_order_is_by_code_points : forall c a b, reachable c a -> reachable c b ->
  exists ca cb o, scalars ca /\ scalars cb /\ as_str a = Ret (utf8 ca) /\ as_str b = Ret (utf8 cb) /\
    ns_cmp a b = Ret o /\ ns_partial_cmp a b = Ret (Some o) /\
    partial_cmp_str a (utf8 cb) = Ret (Some o) /\
    match o with Lt => before ca cb | Eq => ca = cb | Gt => before cb ca end.
Proof.
  intros c a b Ha Hb.
  destruct (reachable_good c a Ha) as (ta & ca & Ra & ->). destruct (reachable_good c b Hb) as (tb & cb & Rb & ->).
  exists ca, cb, (bytes_compare ca cb). unfold ns_partial_cmp, ns_cmp, partial_cmp_str.
  rewrite (rep_str _ _ _ Ra), (rep_str _ _ _ Rb). cbn [obind].
  rewrite utf8_compare by (apply Ra || apply Rb).
  repeat split; try apply Ra; try apply Rb.
  destruct (bytes_compare ca cb) eqn:E.
  - apply bytes_compare_eq, E.
  - apply bytes_compare_lt, E.
  - apply bytes_compare_lt. rewrite bytes_compare_antisym, E. reflexivity.
Qed.
Print Assumptions C10_order_is_by_code_points.

(** Also with a [str] too long for any string of the build. *)
Theorem C10_any_str : forall c a cb, reachable c a -> scalars cb ->
  exists ca o, scalars ca /\ as_str a = Ret (utf8 ca) /\ partial_cmp_str a (utf8 cb) = Ret (Some o) /\
    match o with Lt => before ca cb | Eq => ca = cb | Gt => before cb ca end.
Proof.
  intros c a cb Ha Hb. destruct (reachable_good c a Ha) as (ta & ca & Ra & ->).
  exists ca, (bytes_compare ca cb). unfold partial_cmp_str. rewrite (rep_str _ _ _ Ra). cbn [obind].
  rewrite utf8_compare by (apply Ra || assumption). repeat split; try apply Ra.
  destruct (bytes_compare ca cb) eqn:E.
  - apply bytes_compare_eq, E.
  - apply bytes_compare_lt, E.
  - apply bytes_compare_lt. rewrite bytes_compare_antisym, E. reflexivity.
Qed.
Print Assumptions C10_any_str.

(** A total order that agrees with equality. *)
Theorem C10_total_order : forall c a b, reachable c a -> reachable c b ->
  exists o, ns_cmp a b = Ret o /\ ns_cmp b a = Ret (CompOpp o) /\
    (o = Eq <-> ns_eq a b = Ret true) /\
    (forall d, reachable c d -> ns_cmp b d = Ret o -> ns_cmp a d = Ret o).
Proof.
  intros c a b Ha Hb.
  destruct (reachable_good c a Ha) as (ta & Ga). destruct (reachable_good c b Hb) as (tb & Gb).
  exists (bytes_compare ta tb). unfold ns_cmp, ns_eq, eq_str.
  rewrite (good_str _ _ _ Ga), (good_str _ _ _ Gb). cbn [obind].
  split; [reflexivity|]. split; [rewrite (bytes_compare_antisym ta tb); reflexivity|]. split.
  - rewrite bytes_compare_eq, <- bytes_eqb_spec. split; [intros ->; reflexivity|congruence].
  - intros d Hd. destruct (reachable_good c d Hd) as (td & Gd). rewrite (good_str _ _ _ Gd). cbn [obind].
    intros E. injection E as E. f_equal. destruct (bytes_compare ta tb) eqn:E1.
    + apply bytes_compare_eq in E1. subst. assumption.
    + apply bytes_compare_lt. eapply before_trans; [apply bytes_compare_lt, E1|apply bytes_compare_lt, E].
    + rewrite bytes_compare_antisym. enough (bytes_compare td ta = Lt) as -> by reflexivity.
      apply bytes_compare_lt. apply before_trans with tb; apply bytes_compare_lt.
      * rewrite bytes_compare_antisym, E. reflexivity.
      * rewrite bytes_compare_antisym, E1. reflexivity.
Qed.
Print Assumptions C10_total_order.

(** Not the order of UTF-16 code units: U+FFFD sorts before U+10000. *)
Example C10_case :
  ('(a, _) <- build no_heap New [Push 0xFFFD] ;; '(b, _) <- build no_heap NewReverse [Push 0x10000] ;;
   ns_cmp a b) = Ret Lt.
Proof. vm_compute; reflexivity. Qed.

(** ** C11 *)

Theorem C11_edits_are_kept : forall c s f ops, reachable c s -> valid_op (Edit f) -> Forall valid_op ops ->
  exists text s', as_str s = Ret text /\ edit_str s f = Ret s' /\
    as_str s' = Ret (f text) /\ is_inline s' = is_inline s /\
    exists s'', run c s' ops = Ret (s'', map unit_result (snd (spec_ops c (f text) ops))) /\
                as_str s'' = Ret (fst (spec_ops c (f text) ops)).
Proof.
  intros c s f ops Hr Hf Hops. destruct (reachable_good c s Hr) as (text & Hg).
  pose proof (step_effect c s text (Edit f) Hg Hf) as H. unfold op_effect, succeeds in H. cbn [is_edit orb step op_text] in H.
  destruct H as (s' & E & Hg' & Hi). destruct (edit_str s f) as [s1| | |] eqn:Ee; cbn [obind] in E; try discriminate.
  injection E as ->. exists text, s'. split; [eapply good_str, Hg|]. split; [reflexivity|].
  split; [eapply good_str, Hg'|]. split; [rewrite Hi, andb_true_r; reflexivity|].
  destruct (run_spec c ops s' _ Hg' Hops) as (s'' & E'' & Hg'' & _). exists s''.
  split; [assumption|]. eapply good_str, Hg''.
Qed.
Print Assumptions C11_edits_are_kept.

Example C11_case :
  Forall valid_op [PushStr (bytes "xyz"%string); Edit swap; PushFront 0x20AC; Push 0x21] /\
  outcome_of no_heap NewReverse [PushStr (bytes "xyz"%string); Edit swap; PushFront 0x20AC; Push 0x21] =
    Ret (bytes "€é!!"%string, [Ok tt; Ok tt; Ok tt; Ok tt], true).
Proof.
  split; [|vm_compute; reflexivity].
  repeat (apply Forall_cons; [first [exact swap_valid | vm_compute; reflexivity]|]). constructor.
Qed.
