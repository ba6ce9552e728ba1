(** * History: running sequences of calls on a [NominalString] *)

From Verif Require Import Prelude Utf8Facts StringFacts.
From Verif Require Export Spec.

(** ** Constructors and calls *)

Inductive constructor :=
| New                       (* NominalString::new(), ::default() *)
| NewReverse                (* NominalString::new_reverse() *)
| FromChar (ch : N)         (* From<char> *)
| FromStr (bs : list N)     (* From<&str>, From<&String> *)
| FromString (bs : list N). (* From<String> *)

Definition construct (c : config) (k : constructor) : outcome nominal_string :=
  match k with
  | New => Ret new
  | NewReverse => Ret new_reverse
  | FromChar ch => from_char c ch
  | FromStr bs => from_str c bs
  | FromString bs => Ret (from_string bs)
  end.

Definition constructor_text (k : constructor) : list N :=
  match k with
  | New | NewReverse => []
  | FromChar ch => encode_char ch
  | FromStr bs | FromString bs => bs
  end.

(** Arguments are a [char] or a [str]; [From<String>] exists only with alloc. *)
Definition valid_constructor (c : config) (k : constructor) : Prop :=
  match k with
  | New | NewReverse => True
  | FromChar ch => is_scalar ch = true
  | FromStr bs => valid_utf8 bs = true
  | FromString bs => valid_utf8 bs = true /\ has_alloc c = true
  end.

(** The one call that may panic: [From<&str>] of a long string without alloc. *)
Definition constructor_fits (c : config) (k : constructor) : bool :=
  match k with
  | FromStr bs => has_alloc c || at_most_62 bs
  | _ => true
  end.

Definition step (c : config) (s : nominal_string) (o : op)
  : outcome (nominal_string * result unit out_of_memory) :=
  match o with
  | Push ch => try_push c s ch
  | PushStr bs => try_push_str c s bs
  | PushFront ch => try_push_front c s ch
  | Edit f => s' <- edit_str s f ;; Ret (s', Ok tt)
  end.

(** Run a history, collecting the results of the calls. *)
Fixpoint run (c : config) (s : nominal_string) (ops : list op)
  : outcome (nominal_string * list (result unit out_of_memory)) :=
  match ops with
  | [] => Ret (s, [])
  | o :: rest =>
      '(s', r) <- step c s o ;;
      '(s'', rs) <- run c s' rest ;;
      Ret (s'', r :: rs)
  end.

Definition build (c : config) (k : constructor) (ops : list op)
  : outcome (nominal_string * list (result unit out_of_memory)) :=
  s <- construct c k ;; run c s ops.

(** The strings a program can hold. *)
Definition reachable (c : config) (s : nominal_string) : Prop :=
  exists k ops rs,
    valid_constructor c k /\ Forall valid_op ops /\ build c k ops = Ret (s, rs).

(** The Rust result for a success flag. *)
Definition unit_result (ok : bool) : result unit out_of_memory :=
  if ok then Ok tt else Err OutOfMemoryError.

(** ** The invariant, with the text as bytes *)

Definition good (c : config) (s : nominal_string) (text : list N) : Prop :=
  exists cs, rep c s cs /\ text = utf8 cs.

Lemma good_valid c s text : good c s text -> valid_utf8 text = true.
Proof. intros (cs & [Hs _] & ->). apply valid_utf8_utf8, Hs. Qed.

Lemma good_str c s text : good c s text -> as_str s = Ret text.
Proof. intros (cs & H & ->). eapply rep_str, H. Qed.

Lemma good_reads c s cs : rep c s cs -> good c s (utf8 cs).
Proof. intros H; exists cs; auto. Qed.

Definition roomy (c : config) (text : list N) : bool := has_alloc c || at_most_62 text.

Lemma room_roomy c cs : room c cs = roomy c (utf8 cs).
Proof. unfold room, roomy, at_most_62, utf8_len. f_equal. lia. Qed.

Lemma len_62 cs : (utf8_len cs <=? 62) = at_most_62 (utf8 cs).
Proof. unfold at_most_62, utf8_len. lia. Qed.

(** Whether a call succeeds, and the effect of a call, exactly. *)
Definition succeeds (c : config) (text : list N) (o : op) : bool :=
  is_edit o || roomy c (op_text text o).

Definition op_effect (c : config) (s : nominal_string) (text : list N) (o : op) : Prop :=
  if succeeds c text o then
    exists s', step c s o = Ret (s', Ok tt) /\ good c s' (op_text text o) /\
               is_inline s' = is_inline s && (is_edit o || at_most_62 (op_text text o))
  else step c s o = Ret (s, Err OutOfMemoryError).

Lemma push_effect_op c s text o cs' :
  is_edit o = false -> op_text text o = utf8 cs' ->
  push_effect c s cs' (step c s o) -> op_effect c s text o.
Proof.
  unfold push_effect, op_effect, succeeds. intros -> -> H. cbn [orb]. rewrite <- room_roomy.
  destruct (room c cs'); [|exact H].
  destruct H as (s' & E & Hr & Hi). exists s'. split; [exact E|].
  split; [apply good_reads, Hr|]. rewrite Hi, len_62. reflexivity.
Qed.

Lemma step_effect c s text o : good c s text -> valid_op o -> op_effect c s text o.
Proof.
  intros (cs & Hr & ->) Ho. destruct o as [ch|bs|ch|f]; cbn [valid_op] in Ho.
  - eapply push_effect_op; [reflexivity| |apply try_push_effect; eassumption].
    cbn. rewrite utf8_app, utf8_single. reflexivity.
  - apply valid_utf8_inv in Ho as (bcs & Hb & ->).
    eapply push_effect_op; [reflexivity| |apply try_push_str_effect; eassumption].
    cbn. rewrite utf8_app. reflexivity.
  - eapply push_effect_op; [reflexivity| |apply try_push_front_effect; eassumption].
    reflexivity.
  - unfold op_effect, succeeds. cbn [is_edit orb op_text step].
    destruct (Ho (utf8 cs)) as [Hv Hl]; [apply valid_utf8_utf8, Hr|].
    apply valid_utf8_inv in Hv as (cs' & Hs' & E).
    destruct (edit_str_effect c s cs cs' f Hr Hs' E) as (s' & E' & Hr' & Hi').
    { unfold utf8_len. rewrite <- E, Hl. reflexivity. }
    exists s'. rewrite E'. cbn [obind]. split; [reflexivity|].
    split; [rewrite E; apply good_reads, Hr'|]. rewrite Hi', andb_true_r. reflexivity.
Qed.

(** ** Whole histories *)

(** The text and the success flags of a history. *)
Definition spec_step (c : config) (text : list N) (o : op) : list N * bool :=
  if succeeds c text o then (op_text text o, true) else (text, false).

Fixpoint spec_ops (c : config) (text : list N) (ops : list op) : list N * list bool :=
  match ops with
  | [] => (text, [])
  | o :: rest =>
      let '(text', ok) := spec_step c text o in
      let '(final, oks) := spec_ops c text' rest in
      (final, ok :: oks)
  end.

(** With alloc, or a string that is inline at all: the string is inline iff
    short. *)
Definition placed (s : nominal_string) (text : list N) : Prop :=
  is_inline s = at_most_62 text.

Lemma op_text_grows o text : valid_op o -> valid_utf8 text = true ->
  (length text <= length (op_text text o))%nat.
Proof.
  intros Ho Hv. destruct o as [ch|bs|ch|f]; cbn; rewrite ?app_length; try lia.
  destruct (Ho text Hv) as [_ ->]. lia.
Qed.

Lemma run_spec c : forall ops s text, good c s text -> Forall valid_op ops ->
  exists s', run c s ops = Ret (s', map unit_result (snd (spec_ops c text ops))) /\
             good c s' (fst (spec_ops c text ops)) /\
             (placed s text -> placed s' (fst (spec_ops c text ops))) /\
             (is_inline s = false -> is_inline s' = false).
Proof.
  induction ops as [|o ops IH]; intros s text Hg Hops.
  - exists s. cbn. auto.
  - inversion Hops as [|? ? Ho Hrest]; subst. cbn [run spec_ops].
    pose proof (step_effect c s text o Hg Ho) as Hstep. unfold op_effect in Hstep.
    unfold spec_step. destruct (succeeds c text o) eqn:Es.
    + destruct Hstep as (s1 & E & Hg1 & Hi). rewrite E. cbn [obind].
      destruct (IH s1 _ Hg1 Hrest) as (s' & E' & Hg' & Hp' & Hi').
      rewrite E'. cbn [obind]. destruct (spec_ops c (op_text text o) ops) as [final oks].
      exists s'. cbn. split; [reflexivity|]. split; [assumption|]. split.
      * intros Hp. apply Hp'. unfold placed in *. rewrite Hi, Hp.
        pose proof (op_text_grows o text Ho (good_valid _ _ _ Hg)).
        unfold at_most_62. destruct o as [ch|bs|ch|f]; cbn [is_edit orb op_text] in *; try lia.
        destruct (Ho text (good_valid _ _ _ Hg)) as [_ ->]. lia.
      * intros Hs. apply Hi'. rewrite Hi, Hs. reflexivity.
    + rewrite Hstep. cbn [obind].
      destruct (IH s _ Hg Hrest) as (s' & E' & Hg' & Hp' & Hi').
      rewrite E'. cbn [obind]. destruct (spec_ops c text ops) as [final oks].
      exists s'. cbn. auto.
Qed.

Lemma construct_spec c k : valid_constructor c k ->
  if constructor_fits c k then
    exists s, construct c k = Ret s /\ good c s (constructor_text k) /\
              is_inline s = match k with FromString _ => false | _ => at_most_62 (constructor_text k) end
  else construct c k = Panic.
Proof.
  intros Hk. destruct k as [| |ch|bs|bs]; cbn [valid_constructor constructor_fits construct constructor_text] in *.
  - exists new. split; [reflexivity|]. split; [apply (good_reads c new []), new_rep|reflexivity].
  - exists new_reverse. split; [reflexivity|]. split; [apply (good_reads c new_reverse []), new_reverse_rep|reflexivity].
  - destruct (from_char_rep c ch Hk) as (s & E & Hr & Hi). exists s. split; [assumption|].
    split; [rewrite <- utf8_single; apply good_reads, Hr|]. rewrite Hi, <- utf8_single, <- len_62, utf8_len_single.
    pose proof (len_utf8_bounds ch). lia.
  - apply valid_utf8_inv in Hk as (cs & Hs & ->). pose proof (from_str_effect c cs Hs) as H.
    rewrite room_roomy in H. unfold roomy in H.
    destruct (has_alloc c || at_most_62 (utf8 cs)); [|exact H].
    destruct H as (s & E & Hr & Hi). exists s. split; [assumption|]. split; [apply good_reads, Hr|].
    rewrite Hi. apply len_62.
  - destruct Hk as [Hv Hc]. apply valid_utf8_inv in Hv as (cs & Hs & ->).
    eexists; split; [reflexivity|]. split; [apply good_reads, from_string_rep; assumption|reflexivity].
Qed.

Lemma build_spec c k ops : valid_constructor c k -> Forall valid_op ops ->
  if constructor_fits c k then
    exists s, build c k ops = Ret (s, map unit_result (snd (spec_ops c (constructor_text k) ops))) /\
              good c s (fst (spec_ops c (constructor_text k) ops)) /\
              match k with
              | FromString _ => is_inline s = false
              | _ => is_inline s = at_most_62 (fst (spec_ops c (constructor_text k) ops))
              end
  else build c k ops = Panic.
Proof.
  intros Hk Hops. pose proof (construct_spec c k Hk) as H. unfold build.
  destruct (constructor_fits c k); [|rewrite H; reflexivity].
  destruct H as (s & E & Hg & Hi). rewrite E. cbn [obind].
  destruct (run_spec c ops s _ Hg Hops) as (s' & E' & Hg' & Hp' & Hi').
  exists s'. split; [assumption|]. split; [assumption|].
  unfold placed in *. destruct k; cbn [constructor_text] in *; auto.
Qed.

Lemma reachable_good c s : reachable c s -> exists text, good c s text.
Proof.
  intros (k & ops & rs & Hk & Hops & E). pose proof (build_spec c k ops Hk Hops) as H.
  destruct (constructor_fits c k); [|congruence].
  destruct H as (s' & E' & Hg & _). rewrite E in E'. injection E' as -> _. eauto.
Qed.

Lemma good_fun c c' s t t' : good c s t -> good c' s t' -> t = t'.
Proof. intros H H'. pose proof (good_str _ _ _ H). pose proof (good_str _ _ _ H'). congruence. Qed.

(** ** Specialisations *)

Lemma spec_ops_alloc c : has_alloc c = true -> forall ops text,
  spec_ops c text ops = (ops_text text ops, map (fun _ => true) ops).
Proof.
  intros Hc. induction ops as [|o ops IH]; intros text; [reflexivity|].
  cbn [spec_ops]. unfold spec_step, succeeds, roomy. rewrite Hc. cbn [orb]. rewrite orb_true_r, IH.
  reflexivity.
Qed.

Lemma spec_ops_noalloc c : has_alloc c = false -> forall ops text,
  spec_ops c text ops = bounded_ops text ops.
Proof.
  intros Hc. induction ops as [|o ops IH]; intros text; [reflexivity|].
  cbn [spec_ops bounded_ops]. unfold spec_step, succeeds, roomy, bounded_step. rewrite Hc. cbn [orb].
  destruct (is_edit o || at_most_62 (op_text text o)); rewrite IH; reflexivity.
Qed.

Lemma run_app c : forall a b s,
  run c s (a ++ b) =
    ('(s', rs) <- run c s a ;; '(s'', rs') <- run c s' b ;; Ret (s'', rs ++ rs')).
Proof.
  induction a as [|o a IH]; intros b s.
  - cbn. destruct (run c s b) as [[s' rs]| | |]; reflexivity.
  - cbn [run app]. destruct (step c s o) as [[s1 r]| | |]; cbn [obind]; try reflexivity.
    rewrite IH. destruct (run c s1 a) as [[s2 rs]| | |]; cbn [obind]; try reflexivity.
    destruct (run c s2 b) as [[s3 rs']| | |]; reflexivity.
Qed.

(** ** Comparison *)

Lemma bytes_compare_lt a b : bytes_compare a b = Lt <-> before a b.
Proof.
  split.
  - revert b; induction a as [|x a IH]; intros [|y b] H; cbn in H; try discriminate.
    + left. exists y, b. reflexivity.
    + destruct (N.compare_spec x y) as [->|Hlt|Hgt]; [|right; exists [], x, y, a, b; auto|discriminate].
      destruct (IH b H) as [(z & t & ->)|(p & u & v & s & t & -> & -> & Huv)].
      * left. exists z, t. reflexivity.
      * right. exists (y :: p), u, v, s, t. auto.
  - intros [(y & t & ->)|(p & x & y & s & t & -> & -> & H)].
    + rewrite <- (app_nil_r a) at 1. rewrite bytes_compare_app. reflexivity.
    + rewrite bytes_compare_app. cbn. apply N.compare_lt_iff in H. rewrite H. reflexivity.
Qed.

Lemma bytes_compare_eq a b : bytes_compare a b = Eq <-> a = b.
Proof.
  split; [|intros ->; apply bytes_compare_refl].
  revert b; induction a as [|x a IH]; intros [|y b] H; cbn in H; try discriminate; [reflexivity|].
  destruct (N.compare_spec x y) as [->| |]; try discriminate. f_equal; auto.
Qed.

Lemma before_trans a b d : before a b -> before b d -> before a d.
Proof.
  revert b d; induction a as [|x a IH]; intros b d Hab Hbd.
  - destruct d as [|y d].
    + apply bytes_compare_lt in Hbd. destruct b; discriminate.
    + left. exists y, d. reflexivity.
  - apply bytes_compare_lt in Hab, Hbd. apply bytes_compare_lt.
    destruct b as [|y b]; [discriminate|]. destruct d as [|z d]; [destruct b; discriminate|].
    cbn in *. destruct (N.compare_spec x y), (N.compare_spec y z), (N.compare_spec x z); subst;
      try lia; try discriminate; try reflexivity.
    apply bytes_compare_lt. apply bytes_compare_lt in Hab, Hbd. eauto.
Qed.
