(** * PropertiesPushes: C108, what pushing costs *)

From Coq Require Import String.
From Verif Require Import Prelude Utf8Facts StringFacts NominalString Spec Layout Outcome Digital DigitSets Live Additive Ethiopic Hebrew Chinese PropertiesUser Aliasing PropertiesMemory PropertiesHeap PropertiesChinese Pushes Cases.

(** A string onto which [try_push] and [try_push_str], or [try_push_front],
    do not have to move what is there. *)
Definition grows_back (s : nominal_string) : Prop := match s with Inline i => is_reverse i = false | Heap _ => True end.
Definition grows_front (s : nominal_string) : Prop := match s with Inline i => is_reverse i = true | Heap _ => True end.

(** Functions that may take the place of the pushes: they have to be right
    where nothing is moved only. *)
Definition right_where_cheap (c : config) (p : pushes) : Prop :=
  (forall s ch, grows_back s -> by_push p c s ch = try_push c s ch) /\
  (forall s str, grows_back s -> by_push_str p c s str = try_push_str c s str) /\
  (forall s ch, grows_front s -> by_push_front p c s ch = try_push_front c s ch).

Definition chinese_by (p : pushes) (traditional formal : bool) : chinese_options -> config -> uint -> N -> outcome (result nominal_string error) :=
  match traditional, formal with
  | false, false => SimplifiedChineseInformal_by p
  | false, true => SimplifiedChineseFormal_by p
  | true, false => TraditionalChineseInformal_by p
  | true, true => TraditionalChineseFormal_by p
  end.

(** The bytes of the string that a trace reads and writes. *)
Fixpoint touched (es : list event) : N :=
  match es with
  | [] => 0
  | Access _ _ r :: es => snd r + touched es
  | _ :: es => touched es
  end.

Definition trace_of {A} (m : emit A) (tags : N) : list event := snd (fst (m tags)).

(** The trace of one operation (Aliasing.v), [&mut] references to the string
    being made from [owner]. *)
Definition op_trace (c : config) (s : nominal_string) (o : op) (owner tags : N) : list event :=
  match o with
  | Push ch => trace_of (a_push c s ch owner) tags
  | PushStr str => trace_of (a_push_str c s str owner) tags
  | PushFront ch => trace_of (a_push_front c s ch owner) tags
  | Edit _ => []
  end.

(** ** Proofs *)

Definition agree {A} (P : A -> Prop) (x y : outcome A) : Prop := x = y /\ forall a, y = Ret a -> P a.

Lemma agree_eq {A} (P : A -> Prop) x y : agree P x y -> x = y.
Proof. intros H. apply H. Qed.

Lemma agree_ret {A} (P : A -> Prop) a : P a -> agree P (Ret a) (Ret a).
Proof. intros H. split; [reflexivity|]. intros b [= <-]. exact H. Qed.

Lemma agree_refl {A} (P : A -> Prop) x : (forall a, x = Ret a -> P a) -> agree P x x.
Proof. intros H. split; [reflexivity|exact H]. Qed.

Lemma agree_any {A} (x : outcome A) : agree (fun _ => True) x x.
Proof. apply agree_refl. auto. Qed.

Lemma agree_bind {A B} (P : A -> Prop) (Q : B -> Prop) x y f g : agree P x y -> (forall a, P a -> agree Q (f a) (g a)) ->
  agree Q (obind x f) (obind y g).
Proof.
  intros [-> HP] H. destruct y as [a| | |]; cbn [obind]; [|split; [reflexivity|discriminate]..]. apply H, HP. reflexivity.
Qed.

Lemma agree_same {A B} (Q : B -> Prop) (x : outcome A) f g : (forall a, agree Q (f a) (g a)) -> agree Q (obind x f) (obind x g).
Proof. intros H. apply (agree_bind (fun _ => True)); [apply agree_any|]. intros a _. apply H. Qed.

Lemma agree_bad {A} (P : A -> Prop) (x : outcome A) : match x with Ret _ => False | _ => True end -> agree P x x.
Proof. intros H. split; [reflexivity|]. intros a ->. destruct H. Qed.

Definition after {S R} (I : S -> Prop) (Q : R -> Prop) (x : loop_step S R) : Prop := match x with Continue s => I s | Break r => Q r end.

Lemma agree_loop {S R} c (I : S -> Prop) (Q : R -> Prop) (b b' : S -> outcome (loop_step S R)) s : I s ->
  (forall s, I s -> agree (after I Q) (b s) (b' s)) -> agree Q (run_loop c b s) (run_loop c b' s).
Proof.
  intros Hs Hb. assert (forall d s, I s -> agree (after I Q) (iterate d b s) (iterate d b' s)) as Hd.
  { induction d as [|d IH]; intros s1 Hs1; cbn [iterate]; [apply Hb, Hs1|].
    apply (agree_bind (after I Q)); [apply IH, Hs1|]. intros [s2|r] H2; [apply IH, H2|apply agree_ret, H2]. }
  unfold run_loop. apply (agree_bind (after I Q)); [apply Hd, Hs|]. intros [s2|r] H2; [apply agree_bad; exact Logic.I|apply agree_ret, H2].
Qed.

(** *** Where a string grows does not change *)


Definition pushed_back (x : nominal_string * result unit out_of_memory) : Prop := grows_back (fst x).
Definition pushed_front (x : nominal_string * result unit out_of_memory) : Prop := grows_front (fst x).

Lemma step_grows c s o x : is_edit o = false -> step c s o = Ret x ->
  (grows_back s -> grows_back (fst x)) /\ (grows_front s -> grows_front (fst x)).
Proof.
  intros Ho E. destruct x as [[i'|t'] r]; cbn [fst grows_back grows_front]; [|auto]. destruct s as [i|t].
  - cbn [grows_back grows_front]. rewrite (step_reverse _ _ _ _ _ E). auto.
  - destruct o as [ch|str|ch|f]; [discriminate E..|discriminate Ho].
Qed.

Section Agree.
Context (c : config) (p : pushes) (Hp : right_where_cheap c p).

Lemma agree_push s ch : grows_back s -> agree pushed_back (by_push p c s ch) (try_push c s ch).
Proof. intros Hs. split; [apply Hp, Hs|]. intros x E. eapply (step_grows c s (Push ch)); [reflexivity|exact E|exact Hs]. Qed.

Lemma agree_push_str s str : grows_back s -> agree pushed_back (by_push_str p c s str) (try_push_str c s str).
Proof. intros Hs. split; [apply Hp, Hs|]. intros x E. eapply (step_grows c s (PushStr str)); [reflexivity|exact E|exact Hs]. Qed.

Lemma agree_push_front s ch : grows_front s -> agree pushed_front (by_push_front p c s ch) (try_push_front c s ch).
Proof. intros Hs. split; [apply Hp, Hs|]. intros x E. eapply (step_grows c s (PushFront ch)); [reflexivity|exact E|exact Hs]. Qed.

Definition any {A} (_ : A) : Prop := True.

Lemma agree_from_char ch : agree any (from_char_by p c ch) (from_char c ch).
Proof.
  unfold from_char_by, from_char. apply (agree_bind pushed_back); [apply agree_push; reflexivity|]. intros [s [u|e]] _; apply agree_any.
Qed.

(** *** Digits *)

Lemma live_agree T d n : agree any (format_live_by p (loop_depth c) c T d n) (format_live (loop_depth c) c T d n).
Proof.
  generalize (loop_depth c) as depth. intros depth. revert d. induction depth as [|depth IH]; intros d; [apply agree_any|].
  cbn [format_live_by format_live]. apply agree_same. intros [len self]. destruct (try_from c T len) as [count|].
  - apply agree_same. intros [fixed self1]. apply agree_same. intros [beyond self2]. destruct beyond.
    + apply agree_same. intros [empty start]. destruct empty; [apply agree_any|apply IH].
    + apply (agree_loop c (fun st => grows_front (ll_formatted st))); [reflexivity|]. intros st Hst.
      unfold live_loop_body_by, live_loop_body. destruct (_ || _); [|apply agree_ret; exact I].
      apply agree_same. intros [has_zero self3]. apply agree_same. intros [subtract self4]. apply agree_same. intros [no_zero self5].
      destruct no_zero; [apply agree_ret; exact I|]. apply agree_same. intros remaining. apply agree_same. intros r. apply agree_same. intros [ch self6].
      apply (agree_bind pushed_front); [apply agree_push_front, Hst|]. intros [s [u|[]]] Hs; [|apply agree_ret; exact I].
      apply agree_same. intros q. apply agree_same. intros [len' self7]. destruct (try_from c T len'); apply agree_ret; [exact Hs|exact I].
  - apply agree_same. intros [ch _]. apply (agree_bind any); [apply agree_from_char|]. intros s _. apply agree_any.
Qed.

(** *** Additive *)

Lemma additive_agree T set n : agree any (try_format_additive_by p c T set n) (try_format_additive c T set n).
Proof.
  unfold try_format_additive_by, try_format_additive. destruct (is_zero n); [apply agree_any|].
  assert (grows_back new) as Hs by reflexivity. revert Hs. generalize new as s. generalize n at 2 4 as r.
  induction (as_symbols set) as [|[symbol value] rest IH]; intros r s Hs; cbn [additive_for_by additive_for]; [apply agree_any|].
  destruct (value =? 0); [apply agree_any|]. destruct (try_from c T value) as [v|]; [|apply IH, Hs].
  apply (agree_bind (fun x : result (N * nominal_string) error => match x with Ok (_, s) => grows_back s | Err _ => True end)).
  - apply (agree_loop c (fun st : N * nominal_string => grows_back (snd st))); [exact Hs|]. intros [r1 s1] Hs1. unfold additive_while_body_by, additive_while_body.
    destruct (v <=? r1); [|apply agree_ret; exact Hs1]. apply agree_same. intros r2.
    apply (agree_bind pushed_back); [apply agree_push_str, Hs1|]. intros [s2 [u|[]]] Hs2; apply agree_ret; [exact Hs2|exact I].
  - intros [[r1 s1]|e] H; [apply IH, H|apply agree_any].
Qed.

(** *** Ethiopic *)

Lemma push_front_if_agree {A} (I : A -> Prop) cond s ch k k' : grows_front s ->
  (forall s, grows_front s -> agree (after I any) (k s) (k' s)) ->
  agree (after I any) (push_front_if_by p c cond s ch k) (push_front_if c cond s ch k').
Proof.
  intros Hs Hk. unfold push_front_if_by, push_front_if. destruct cond; [|apply Hk, Hs]. apply agree_same. intros x.
  apply (agree_bind pushed_front); [apply agree_push_front, Hs|]. intros [s' [u|e]] Hs'; [apply Hk, Hs'|apply agree_ret; exact Logic.I].
Qed.

Lemma ethiopic_agree T n : Ethiopic_by p c T n = Ethiopic c T n.
Proof.
  unfold Ethiopic_by, Ethiopic. destruct (is_zero n); [reflexivity|]. f_equal. unfold format_ethiopic_by, format_ethiopic. apply (agree_eq any).
  apply (agree_loop c (fun st : N * N * nominal_string => grows_front (snd st))); [reflexivity|]. intros [[g r] s] Hs. cbn [snd] in Hs.
  unfold ethiopic_body_by, ethiopic_body. cbv zeta. destruct (is_zero r); [apply agree_ret; exact I|].
  do 4 (apply push_front_if_agree; [assumption|]; clear s Hs; intros s Hs). apply agree_ret. exact Hs.
Qed.

(** *** Hebrew *)

Lemma push_or_return_agree {A} (I : A -> Prop) (Q : hebrew_exit -> Prop) n x y k k' : agree pushed_back x y -> (forall e, Q (ReturnErr e)) ->
  (forall s, grows_back s -> agree (after I Q) (k s) (k' s)) ->
  agree (after I Q) (push_or_return n x k) (push_or_return n y k').
Proof.
  intros Hx HQ Hk. unfold push_or_return. apply (agree_bind pushed_back _ _ _ _ _ Hx). intros [s [u|[]]] Hs; [apply Hk, Hs|apply agree_ret, HQ].
Qed.

Lemma hebrew_agree T n : Hebrew_by p c T n = Hebrew c T n.
Proof.
  unfold Hebrew_by, Hebrew. destruct (is_zero n); [reflexivity|]. apply (agree_eq any).
  assert (grows_back new) as Hs by reflexivity. revert Hs. generalize new as s. generalize n at 2 4 as r.
  induction hebrew_symbols as [|[symbol value] rest IH]; intros r s Hs; cbn [hebrew_for_by hebrew_for]; [apply agree_any|].
  destruct (try_from c T value) as [v|]; [|apply IH, Hs].
  set (Q := fun x => match x with NextSymbol _ s => grows_back s | _ => True end).
  apply (agree_bind Q).
  - apply (agree_loop c (fun st : N * nominal_string => grows_back (snd st))); [exact Hs|]. intros [r1 s1] Hs1. cbn [snd] in Hs1.
    unfold hebrew_while_body_by, hebrew_while_body. destruct (v <=? r1); [|apply agree_ret; exact Hs1].
    destruct (r1 =? 15); [apply push_or_return_agree; [apply agree_push_str, Hs1|intros e; exact I|intros s2 _; apply agree_ret; exact I]|].
    destruct (r1 =? 16); [apply push_or_return_agree; [apply agree_push_str, Hs1|intros e; exact I|intros s2 _; apply agree_ret; exact I]|].
    apply agree_same. intros empty. cbv zeta. destruct ((v =? r1) && empty).
    + apply push_or_return_agree; [apply agree_push, Hs1|intros e; exact I|]. intros s2 Hs2. apply agree_same. intros r2.
      apply push_or_return_agree; [apply agree_push, Hs2|intros e; exact I|]. intros s3 Hs3.
      apply push_or_return_agree; [apply agree_push, Hs3|intros e; exact I|]. intros s4 Hs4. apply agree_ret. exact Hs4.
    + apply agree_same. intros r2. apply push_or_return_agree; [apply agree_push, Hs1|intros e; exact I|]. intros s3 Hs3. apply agree_ret. exact Hs3.
  - intros [r1 s1|s1|e] H; [apply IH, H|apply agree_any|apply agree_any].
Qed.

(** *** Chinese *)

Definition flagged_back {E} (x : flagged E) : Prop := match fst x with Ok s => grows_back s | Err _ => True end.

Lemma push_char_agree {E} (conv : out_of_memory -> E) s ch flag k k' : grows_back s -> (forall s, grows_back s -> agree flagged_back (k s) (k' s)) ->
  agree flagged_back (push_char_by p conv c s ch flag k) (push_char conv c s ch flag k').
Proof.
  intros Hs Hk. unfold push_char_by, push_char. apply agree_same. intros x.
  apply (agree_bind pushed_back); [apply agree_push, Hs|]. intros [s' [u|e]] Hs'; [apply Hk, Hs'|apply agree_ret; exact I].
Qed.

Lemma inner_agree formal characters n np last :
  agree flagged_back (format_chinese_inner_by p c formal characters n np last) (format_chinese_inner c formal characters n np last).
Proof.
  unfold format_chinese_inner_by, format_chinese_inner. cbv zeta.
  repeat match goal with
  | |- agree _ (push_char_by _ _ _ _ _ _ _) _ => apply push_char_agree; [assumption || reflexivity|intros ? ?]
  | |- agree _ (obind (is_empty _) _) _ => apply agree_same; intros ?
  | |- agree _ (if ?b then _ else _) _ => destruct b
  | |- agree _ (Ret _) _ => apply agree_ret; assumption || reflexivity
  end.
Qed.

Lemma append_agree s tail flag : grows_back s -> agree flagged_back (append_result_by p c s tail flag) (append_result c s tail flag).
Proof.
  intros Hs. unfold append_result_by, append_result. apply agree_same. intros str.
  apply (agree_bind pushed_back); [apply agree_push_str, Hs|]. intros [s' [u|e]] Hs'; apply agree_ret; [exact Hs'|exact I].
Qed.

Lemma short_agree T formal rank characters large n :
  agree any (format_short_rank_by p c T formal rank characters large n) (format_short_rank c T formal rank characters large n).
Proof.
  induction rank as [|rank IH]; cbn [format_short_rank_by format_short_rank]; apply agree_same; intros sc; (destruct (try_from c T sc) as [v|]; [|first [exact IH|apply agree_any]]).
  all: apply (agree_bind (fun x : result short_loop chinese_error => match x with Ok st => grows_back (sl_formatted st) | Err _ => True end));
    [apply (agree_loop c (fun st => grows_back (sl_formatted st))); [reflexivity|]|].
  2, 4: intros [st|e] Hst; [|apply agree_any]; destruct (negb _); [|apply agree_any];
    (apply (agree_bind flagged_back); [apply inner_agree|]); intros [[tail|e] flag] Ht; cbn [lift_flagged]; [|apply agree_any];
    (apply (agree_bind flagged_back); [apply append_agree, Hst|]); intros x _; apply agree_any.
  all: try clear IH; intros st Hst; unfold short_body_by, short_body; (destruct (is_zero (sl_remaining st)); [apply agree_ret; exact Hst|]);
    apply agree_same; intros rv; (destruct (10 <=? rv); [apply agree_ret; exact I|]); apply agree_same; intros remaining; cbv zeta.
  all: assert (forall s last, grows_back s -> agree (after (fun st => grows_back (sl_formatted st)) (fun x : result short_loop chinese_error => match x with Ok st => grows_back (sl_formatted st) | Err _ => True end))
        (short_next c T {| sl_rank := sl_rank st; sl_scale := sl_scale st; sl_formatted := s; sl_last_was_zero := last; sl_remaining := remaining |})
        (short_next c T {| sl_rank := sl_rank st; sl_scale := sl_scale st; sl_formatted := s; sl_last_was_zero := last; sl_remaining := remaining |})) as Hnext
    by (intros s last Hs; apply agree_refl; intros x E; unfold short_next in E; cbn [sl_rank] in E; destruct (sl_rank st) as [|rank'];
        [injection E as <-; exact Hs|]; destruct (or_panic _) as [sc'| | |]; try discriminate E; cbn [obind] in E; destruct (try_from c T sc'); try discriminate E; injection E as <-; exact Hs).
  all: destruct (is_zero rv); apply agree_same; [intros empty; destruct (negb empty && _); [|apply Hnext, Hst]; apply agree_same|]; intros ch;
    (apply (agree_bind pushed_back); [apply agree_push, Hst|]); (intros [s1 [u|e]] Hs1; [|apply agree_ret; exact I]).
  1, 3: apply Hnext, Hs1.
  all: apply agree_same; intros ch2; (apply (agree_bind pushed_back); [apply agree_push, Hs1|]); (intros [s2 [u2|e2]] Hs2; [|apply agree_ret; exact I]); apply Hnext, Hs2.
Qed.

Lemma scaled_agree formal rank scales characters large n np last :
  agree flagged_back (format_scaled_rank_by p c formal rank scales characters large n np last) (format_scaled_rank c formal rank scales characters large n np last).
Proof.
  revert n np last. induction rank as [|rank IH]; intros n np last; cbn [format_scaled_rank_by format_scaled_rank]; cbv zeta.
  - assert (forall n np last, agree flagged_back (r <- format_chinese_inner_by p c formal characters n np last ;; Ret (lift_flagged r)) (r <- format_chinese_inner c formal characters n np last ;; Ret (lift_flagged r))) as Hnext.
    { intros n1 np1 last1. apply (agree_bind flagged_back); [apply inner_agree|]. intros [[s|e] flag] H; apply agree_ret; [exact H|exact I]. }
    destruct (scale_at scales 0); [|apply Hnext]. apply agree_same. intros r. apply agree_same. intros q. apply agree_same. intros out.
    destruct out; [apply agree_ret; exact I|].
    assert (forall s last, grows_back s -> agree flagged_back
      (if is_zero r then Ret (Ok s, last) else empty <- is_empty s ;; '(tail, last) <- (r <- format_chinese_inner_by p c formal characters r (empty && np) last ;; Ret (lift_flagged r)) ;; match tail with Err e => Ret (Err e, last) | Ok tail => append_result_by p c s tail last end)
      (if is_zero r then Ret (Ok s, last) else empty <- is_empty s ;; '(tail, last) <- (r <- format_chinese_inner c formal characters r (empty && np) last ;; Ret (lift_flagged r)) ;; match tail with Err e => Ret (Err e, last) | Ok tail => append_result c s tail last end)) as Hfin.
    { intros s1 last1 Hs1. destruct (is_zero r); [apply agree_ret; exact Hs1|]. apply agree_same. intros empty. apply (agree_bind flagged_back); [apply Hnext|].
      intros [[tail|e] last2] _; [apply append_agree, Hs1|apply agree_ret; exact I]. }
    destruct (is_zero q); [apply Hfin; reflexivity|]. apply (agree_bind flagged_back); [apply Hnext|]. intros [[s1|e] last1] Hs1; [|apply agree_ret; exact I].
    apply agree_same. intros empty. destruct (negb empty); [|apply Hfin, Hs1]. apply push_char_agree; [exact Hs1|]. intros s2 Hs2. apply Hfin, Hs2.
  - destruct (scale_at scales (S rank)); [|apply IH]. apply agree_same. intros r. apply agree_same. intros q. apply agree_same. intros out.
    destruct out; [apply agree_ret; exact I|].
    assert (forall s last, grows_back s -> agree flagged_back
      (if is_zero r then Ret (Ok s, last) else empty <- is_empty s ;; '(tail, last) <- format_scaled_rank_by p c formal rank scales characters large r (empty && np) last ;; match tail with Err e => Ret (Err e, last) | Ok tail => append_result_by p c s tail last end)
      (if is_zero r then Ret (Ok s, last) else empty <- is_empty s ;; '(tail, last) <- format_scaled_rank c formal rank scales characters large r (empty && np) last ;; match tail with Err e => Ret (Err e, last) | Ok tail => append_result c s tail last end)) as Hfin.
    { intros s1 last1 Hs1. destruct (is_zero r); [apply agree_ret; exact Hs1|]. apply agree_same. intros empty. apply (agree_bind flagged_back); [apply IH|].
      intros [[tail|e] last2] _; [apply append_agree, Hs1|apply agree_ret; exact I]. }
    destruct (is_zero q); [apply Hfin; reflexivity|]. apply (agree_bind flagged_back); [apply IH|]. intros [[s1|e] last1] Hs1; [|apply agree_ret; exact I].
    apply agree_same. intros empty. destruct (negb empty); [|apply Hfin, Hs1]. apply push_char_agree; [exact Hs1|]. intros s2 Hs2. apply Hfin, Hs2.
Qed.

Lemma format_chinese_agree T formal characters large n sc :
  agree any (format_chinese_by p c T formal characters large n sc) (format_chinese c T formal characters large n sc).
Proof.
  unfold format_chinese_by, format_chinese. destruct (is_zero n).
  { apply agree_same. intros ch. apply (agree_bind any); [apply agree_from_char|]. intros s _. apply agree_any. }
  cbv zeta.
  assert (agree any (r <- format_chinese_inner_by p c formal characters n true false ;; match fst r with Ok s => Ret (Ok s) | Err OutOfMemoryError => Ret (Err (OutOfMemory n)) end)
    (r <- format_chinese_inner c formal characters n true false ;; match fst r with Ok s => Ret (Ok s) | Err OutOfMemoryError => Ret (Err (OutOfMemory n)) end)) as Hin.
  { apply (agree_bind flagged_back); [apply inner_agree|]. intros x _. apply agree_any. }
  destruct (try_from c T 10000) as [v|]; [|exact Hin]. destruct (v <=? n); [|exact Hin].
  apply (agree_bind any); [|intros x _; apply agree_any].
  destruct sc; cbn [format_scale_by format_scale]; [apply short_agree|..]; unfold format_scaled_by, format_scaled;
    (apply (agree_bind flagged_back); [apply scaled_agree|]; intros x _; apply agree_any).
Qed.

End Agree.

(** *** What a trace costs *)

Definition costs {A} (m : emit A) (k e : N) : Prop := forall n, touched (trace_of m n) = k /\ N.of_nat (length (trace_of m n)) = e.

Lemma touched_app es es' : touched (es ++ es') = touched es + touched es'.
Proof. induction es as [|[|?|? ? ?|? ? ? ? ?] es IH]; cbn [app touched]; lia. Qed.

Lemma costs_eq {A} (m : emit A) k e k' e' : costs m k e -> k = k' -> e = e' -> costs m k' e'.
Proof. intros H -> ->. exact H. Qed.

Lemma costs_then {A B} (m : emit A) (f : A -> emit B) k e k' e' : costs m k e -> (forall a, costs (f a) k' e') -> costs (andthen m f) (k + k') (e + e').
Proof.
  intros Hm Hf n. specialize (Hm n). unfold trace_of, andthen in *. destruct (m n) as [[a es] n1]. cbn [fst snd] in Hm.
  specialize (Hf a n1). unfold trace_of in Hf. destruct (f a n1) as [[b es'] n2]. cbn [fst snd] in *. rewrite touched_app, app_length. lia.
Qed.

Lemma costs_done {A} (a : A) : costs (done a) 0 0.
Proof. intros n. split; reflexivity. Qed.

Lemma costs_read t r : costs (read t r) (snd r) 1.
Proof. intros n. split; [apply N.add_0_r|reflexivity]. Qed.

Lemma costs_write t r : costs (write t r) (snd r) 1.
Proof. intros n. split; [apply N.add_0_r|reflexivity]. Qed.

Lemma costs_reborrow k t g r : costs (reborrow k t g r) 0 1.
Proof. intros n. split; reflexivity. Qed.

Lemma costs_method {A} k t r (body : N -> emit A) j e : (forall s, costs (body s) j e) -> costs (method k t r body) j (e + 3).
Proof.
  intros H n. assert (costs (s <! reborrow k t (Some n) r ;; body s) (0 + j) (1 + e)) as Hb by (apply costs_then; [apply costs_reborrow|exact H]).
  specialize (Hb (n + 1)). unfold trace_of, method in *. destruct ((s <! reborrow k t (Some n) r ;; body s) (n + 1)) as [[a es] n1]. cbn [fst snd] in *.
  rewrite !touched_app, !app_length. cbn [touched length]. lia.
Qed.

Lemma costs_write_each t count : forall first, costs (a_write_each t first count) (N.of_nat count) (5 * N.of_nat count).
Proof.
  induction count as [|count IH]; intros first; cbn [a_write_each]; [apply costs_done|].
  eapply costs_eq; [apply costs_then; [apply costs_reborrow|]; intros d; apply costs_then; [apply costs_method; intros s; apply costs_write|]; intros u; apply IH|cbn [snd]; lia|lia].
Qed.

Ltac costs :=
  match goal with
  | |- costs (andthen _ _) _ _ => eapply costs_then; [costs|intros ?; costs]
  | |- costs (method _ _ _ _) _ _ => eapply costs_method; intros ?; costs
  | |- costs (reborrow _ _ _ _) _ _ => apply costs_reborrow
  | |- costs (read _ _) _ _ => apply costs_read
  | |- costs (write _ _) _ _ => apply costs_write
  | |- costs (done _) _ _ => apply costs_done
  | |- costs (a_write_each _ _ _) _ _ => apply costs_write_each
  | _ => idtac
  end.

Ltac room H := rewrite (proj2 (N.leb_le _ _) H).

Ltac cost :=
  unfold a_inline_push_front, a_inline_push, a_inline_push_str, a_spill, a_len_usize, a_data_offset, a_len, a_is_reverse, a_set_length, a_shift, a_write_zip, a_index_mut, a_iter_mut,
    a_copy_within, a_as_bytes_mut, a_as_bytes, a_inline_as_str, a_as_mut_ptr, a_as_ptr in *;
  eapply costs_eq; [costs|cbn [snd discriminant length_field some_bytes text_range whole]; lia|cbn [snd discriminant length_field some_bytes text_range whole]; lia].

(** Pushes where the string grows. *)
Lemma cost_push_front c i ch owner : is_reverse i = true -> inline_len i + len_utf8 ch <= 62 ->
  costs (a_push_front c (Inline i) ch owner) (len_utf8 ch + 5) (5 * len_utf8 ch + 33).
Proof. intros Hr Hl. unfold a_push_front, a_inline_push_front. change INLINE_CAPACITY with 62. cbv zeta. room Hl. rewrite Hr. cost. Qed.

Lemma cost_push c i ch owner : is_reverse i = false -> inline_len i + len_utf8 ch <= 62 ->
  costs (a_push c (Inline i) ch owner) (len_utf8 ch + 5) (5 * len_utf8 ch + 33).
Proof. intros Hr Hl. unfold a_push, a_inline_push. change INLINE_CAPACITY with 62. cbv zeta. room Hl. rewrite Hr. cost. Qed.

Lemma cost_push_str c i str owner : is_reverse i = false -> inline_len i + N.of_nat (length str) <= 62 ->
  costs (a_push_str c (Inline i) str owner) (N.of_nat (length str) + 6) 37.
Proof.
  intros Hr Hl. unfold a_push_str, a_inline_push_str. change INLINE_CAPACITY with 62. cbv zeta. room Hl. rewrite Hr.
  rewrite (proj2 (N.ltb_lt (N.of_nat (length str)) 256)) by lia. cost.
Qed.

(** Pushes at the other end. *)
Lemma dear_push_front c i ch owner : is_reverse i = false -> inline_len i + len_utf8 ch <= 62 ->
  costs (a_push_front c (Inline i) ch owner) (2 * inline_len i + len_utf8 ch + 7) 61.
Proof.
  intros Hr Hl. unfold a_push_front, a_inline_push_front. change INLINE_CAPACITY with 62. cbv zeta. room Hl. rewrite Hr. unfold a_as_bytes_mut, a_data_offset.
  rewrite (set_length_reverse i _ Hl), Hr. cost.
Qed.

Lemma dear_push c i ch owner : is_reverse i = true -> inline_len i + len_utf8 ch <= 62 ->
  costs (a_push c (Inline i) ch owner) (2 * inline_len i + len_utf8 ch + 7) (5 * len_utf8 ch + 57).
Proof. intros Hr Hl. unfold a_push, a_inline_push, a_data_offset, offset. change INLINE_CAPACITY with 62. cbv zeta. room Hl. rewrite Hr. cost. Qed.

Lemma dear_push_str c i str owner : is_reverse i = true -> inline_len i + N.of_nat (length str) <= 62 ->
  costs (a_push_str c (Inline i) str owner) (2 * inline_len i + N.of_nat (length str) + 7) (5 * N.of_nat (length str) + 57).
Proof.
  intros Hr Hl. unfold a_push_str, a_inline_push_str, a_data_offset, offset. change INLINE_CAPACITY with 62. cbv zeta. room Hl. rewrite Hr.
  rewrite (proj2 (N.ltb_lt (N.of_nat (length str)) 256)) by lia. cost.
Qed.

Lemma cost_of_op c i o owner tags n : inline_len i + n <= 62 -> n = N.of_nat (length (pushed_bytes o)) -> is_edit o = false ->
  let es := op_trace c (Inline i) o owner tags in
  if cheap (is_reverse i) o then n + 5 <= touched es <= n + 6 /\ N.of_nat (length es) <= 5 * n + 37
  else touched es = 2 * inline_len i + n + 7 /\ N.of_nat (length es) <= 5 * n + 61.
Proof.
  intros Hl -> Ho. assert (forall ch, N.of_nat (length (encode_char ch)) = len_utf8 ch) as E by (intros ch; rewrite encode_char_length_nat; lia).
  destruct o as [ch|str|ch|f]; [..|discriminate Ho]; cbn [pushed_bytes op_trace cheap] in *; try rewrite E in *; cbv zeta; destruct (is_reverse i) eqn:Hr; cbn [negb].
  - destruct (dear_push c i ch owner Hr Hl tags). lia.
  - destruct (cost_push c i ch owner Hr Hl tags). lia.
  - destruct (dear_push_str c i str owner Hr Hl tags). lia.
  - destruct (cost_push_str c i str owner Hr Hl tags). lia.
  - destruct (cost_push_front c i ch owner Hr Hl tags). lia.
  - destruct (dear_push_front c i ch owner Hr Hl tags). lia.
Qed.

(** ** The theorems *)

(** Where the string grows, a push reads and writes the bytes pushed and at
    most six more, however long the text is; at the other end it reads and
    writes the whole text once more. *)
Theorem C108_cost_of_a_push : forall c i o text owner tags,
  reachable c (Inline i) -> as_str (Inline i) = Ret text -> is_edit o = false ->
  let n := N.of_nat (length (pushed_bytes o)) in
  let len := N.of_nat (length text) in
  let es := op_trace c (Inline i) o owner tags in
  len + n <= 62 ->
  if cheap (is_reverse i) o then n + 5 <= touched es <= n + 6 /\ N.of_nat (length es) <= 5 * n + 37
  else touched es = 2 * len + n + 7 /\ N.of_nat (length es) <= 5 * n + 61.
Proof.
  intros c i o text owner tags Hr Ht Ho n len es Hl. destruct (reachable_good _ _ Hr) as (t & Hg). rewrite (good_str _ _ _ Hg) in Ht. injection Ht as ->.
  destruct (inline_facts _ _ _ Hg) as (_ & El & _). unfold len in *. rewrite <- El in *. apply cost_of_op; [exact Hl|reflexivity|exact Ho].
Qed.

(** Leaving the struct reads the text once; an error reads two bytes. *)
Theorem C108_cost_of_leaving : forall c i o text owner tags,
  reachable c (Inline i) -> as_str (Inline i) = Ret text -> is_edit o = false ->
  62 < N.of_nat (length text) + N.of_nat (length (pushed_bytes o)) ->
  let es := op_trace c (Inline i) o owner tags in
  if has_alloc c then N.of_nat (length text) + 64 <= touched es <= N.of_nat (length text) + 70 /\ (length es <= 60)%nat
  else touched es <= 2 /\ (length es <= 12)%nat.
Proof.
  intros c i o text owner tags Hr Ht Ho Hl es. destruct (reachable_good _ _ Hr) as (t & Hg). rewrite (good_str _ _ _ Hg) in Ht. injection Ht as ->.
  destruct (inline_facts _ _ _ Hg) as (_ & El & _). rewrite <- El in *. clear El Hg Hr.
  assert (forall ch, N.of_nat (length (encode_char ch)) = len_utf8 ch) as E by (intros ch; rewrite encode_char_length_nat; lia).
  assert (exists k e, (forall tags, touched (op_trace c (Inline i) o owner tags) = k /\ N.of_nat (length (op_trace c (Inline i) o owner tags)) = e) /\
    if has_alloc c then inline_len i + 64 <= k <= inline_len i + 70 /\ e <= 60 else k <= 2 /\ e <= 12) as (k & e & H & Hk).
  2:{ destruct (H tags) as [H1 H2]. unfold es. destruct (has_alloc c); lia. }
  destruct o as [ch|str|ch|f]; [..|discriminate Ho]; cbn [pushed_bytes op_trace] in *; try rewrite E in Hl; clear E;
    unfold a_push, a_push_str, a_push_front; change INLINE_CAPACITY with 62; cbv zeta; rewrite (proj2 (N.leb_gt _ _) Hl);
    unfold a_spill, a_len_usize, a_len, a_inline_as_str, a_as_bytes, a_as_ptr, a_data_offset, a_is_reverse, a_len_usize, a_len;
    try destruct (N.of_nat (length str) <? 256); destruct (has_alloc c), (is_reverse i); eexists; eexists;
    (split; [match goal with |- forall tags, touched (trace_of ?m tags) = ?k /\ _ = ?e => change (costs m k e); costs end|cbn [snd discriminant length_field some_bytes text_range whole]; lia]).
Qed.

(** A whole text pushed where the string grows takes time proportional to it
    and to the number of pushes, at the other end to the square. *)
Fixpoint run_cost (c : config) (s : nominal_string) (ops : list op) : N :=
  match ops with
  | [] => 0
  | o :: ops => touched (op_trace c s o 0 1) + match step c s o with Ret (s', _) => run_cost c s' ops | _ => 0 end
  end.

Definition total (ops : list op) : N := fold_right N.add 0 (map (fun o => N.of_nat (length (pushed_bytes o))) ops).

Lemma op_text_length t o : is_edit o = false -> length (op_text t o) = (length t + length (pushed_bytes o))%nat.
Proof. destruct o as [ch|str|ch|f]; [..|discriminate]; intros _; cbn [op_text pushed_bytes]; rewrite app_length; lia. Qed.

Lemma run_cost_step c i t o : good c (Inline i) t -> valid_op o -> is_edit o = false -> N.of_nat (length t) + N.of_nat (length (pushed_bytes o)) <= 62 ->
  exists i' r, step c (Inline i) o = Ret (Inline i', r) /\ good c (Inline i') (op_text t o) /\ is_reverse i' = is_reverse i.
Proof.
  intros Hg Ho He Hl. pose proof (step_effect c _ _ o Hg Ho) as H. unfold op_effect, succeeds, roomy in H. rewrite He in H. cbn [orb is_inline andb] in H.
  assert (at_most_62 (op_text t o) = true) as Ha by (unfold at_most_62; rewrite op_text_length by exact He; lia).
  rewrite Ha, orb_true_r in H. destruct H as (s' & E & Hg' & Hi). destruct s' as [i'|t']; [|discriminate Hi].
  exists i', (Ok tt). split; [exact E|]. split; [exact Hg'|]. eapply step_reverse, E.
Qed.

Theorem C108_cost_of_a_text : forall c i text ops,
  reachable c (Inline i) -> as_str (Inline i) = Ret text -> Forall valid_op ops -> Forall (fun o => is_edit o = false) ops ->
  N.of_nat (length text) + total ops <= 62 ->
  (Forall (fun o => cheap (is_reverse i) o = true) ops -> run_cost c (Inline i) ops <= total ops + 6 * N.of_nat (length ops)) /\
  (Forall (fun o => cheap (is_reverse i) o = false /\ pushed_bytes o <> []) ops ->
   N.of_nat (length ops) * N.of_nat (length ops) <= run_cost c (Inline i) ops).
Proof.
  intros c i text ops Hr Ht Hv He Hl. destruct (reachable_good _ _ Hr) as (t & Hg). rewrite (good_str _ _ _ Hg) in Ht. injection Ht as ->. clear Hr.
  assert (forall rv, is_reverse i = rv -> (Forall (fun o => cheap rv o = true) ops -> run_cost c (Inline i) ops <= total ops + 6 * N.of_nat (length ops)) /\
    (Forall (fun o => cheap rv o = false /\ pushed_bytes o <> []) ops ->
     N.of_nat (length ops) * N.of_nat (length ops) + 2 * N.of_nat (length text) * N.of_nat (length ops) <= run_cost c (Inline i) ops)) as H.
  { intros rv. revert i text Hg Hv He Hl. induction ops as [|o ops IH]; intros i text Hg Hv He Hl Hrv; [split; intros _; cbn [run_cost length]; lia|].
    apply Forall_cons_iff in Hv as [Ho Hv]. apply Forall_cons_iff in He as [Heo He]. change (total (o :: ops)) with (N.of_nat (length (pushed_bytes o)) + total ops) in *.
    destruct (inline_facts _ _ _ Hg) as (_ & El & _).
    pose proof (cost_of_op c i o 0 1 (N.of_nat (length (pushed_bytes o))) ltac:(rewrite El; lia) eq_refl Heo) as Hc. cbv zeta in Hc. rewrite Hrv, El in Hc.
    destruct (run_cost_step c i text o Hg Ho Heo ltac:(lia)) as (i' & r & E & Hg' & Hrv').
    destruct (IH i' _ Hg' Hv He ltac:(rewrite op_text_length by exact Heo; lia) ltac:(congruence)) as [IH1 IH2]. rewrite op_text_length in IH2 by exact Heo.
    cbn [run_cost length]. rewrite E. split; intros Hall; apply Forall_cons_iff in Hall as [Ha Hall].
    - rewrite Ha in Hc. specialize (IH1 Hall). lia.
    - destruct Ha as [Ha Hne]. rewrite Ha in Hc. specialize (IH2 Hall). destruct Hc as [-> _].
      assert (1 <= N.of_nat (length (pushed_bytes o))) by (destruct (pushed_bytes o); [congruence|cbn; lia]). nia. }
  destruct (H _ eq_refl) as [H1 H2]. split; [exact H1|]. intros Hd. specialize (H2 Hd). lia.
Qed.

(** The formatters push where the string grows only: with any other
    functions in place of the pushes, right where nothing is moved and
    possibly panicking elsewhere, they do the same. *)
Theorem C108_formatters : forall c p T n, right_where_cheap c p ->
  (forall d, try_format_live_by p c T d n = try_format_live c T d n) /\
  (forall d, try_format_live_by p c T (still d) n = try_format_digits c T d n) /\
  (forall set, try_format_additive_by p c T set n = try_format_additive c T set n) /\
  Ethiopic_by p c T n = Ethiopic c T n /\
  Hebrew_by p c T n = Hebrew c T n /\
  (forall traditional formal o, chinese_by p traditional formal o c T n = chinese traditional formal o c T n).
Proof.
  intros c p T n Hp. assert (forall d, try_format_live_by p c T d n = try_format_live c T d n) as Hd by (intros d; apply (agree_eq any), live_agree, Hp).
  split; [exact Hd|]. split; [intros d; rewrite Hd; apply C57_no_state_no_difference|]. split; [intros set; apply (agree_eq any), additive_agree, Hp|].
  split; [apply ethiopic_agree, Hp|]. split; [apply hebrew_agree, Hp|]. intros [|] [|] o; apply (agree_eq any), format_chinese_agree, Hp.
Qed.

(** Such functions: the pushes themselves, and ones that panic rather than
    move anything. *)
Lemma its_own_right c : right_where_cheap c its_own.
Proof. repeat split. Qed.

Definition only_back {A} (push : push_of A) : push_of A := fun c s x => match s with Inline i => if is_reverse i then Panic else push c s x | Heap _ => push c s x end.
Definition only_front {A} (push : push_of A) : push_of A := fun c s x => match s with Inline i => if is_reverse i then push c s x else Panic | Heap _ => push c s x end.
Definition unmoving : pushes := {| by_push := only_back try_push; by_push_str := only_back try_push_str; by_push_front := only_front try_push_front |}.

Lemma unmoving_right c : right_where_cheap c unmoving.
Proof.
  unfold right_where_cheap, unmoving, only_back, only_front. cbn [by_push by_push_str by_push_front].
  repeat split; intros [i|t] x Hs; cbn [grows_back grows_front] in Hs; rewrite ?Hs; reflexivity.
Qed.

Example C108_case :
  let filled := {| length_byte := 0x80 + 3; cells := layout true (bytes "abc") |} in
  right_where_cheap no_heap unmoving /\
  by_push unmoving no_heap (Inline filled) 0x64 = Panic /\
  reachable no_heap (Inline filled) /\
  touched (op_trace no_heap (Inline filled) (PushFront 0x4E00) 0 1) = 8 /\
  touched (op_trace no_heap (Inline filled) (Push 0x4E00) 0 1) = 16 /\
  touched (op_trace on_heap (Inline filled) (PushStr (repeat 0x61 60)) 0 1) = 73 /\
  run_cost no_heap new_reverse (map PushFront (repeat 0x61 62)) = 372 /\
  run_cost no_heap new (map PushFront (repeat 0x61 62)) = 4278 /\
  seen (try_format_live_by unmoving no_heap U128 (still Decimal) 340282366920938463463374607431768211455) = Ret (Ok (bytes "340282366920938463463374607431768211455")) /\
  seen (set <- additive_set_new RomanUpper_symbols ;; try_format_additive_by unmoving no_heap U16 set 3888) = Ret (Ok (bytes "MMMDCCCLXXXVIII")) /\
  seen (Ethiopic_by unmoving no_heap U16 60000) = seen (Ethiopic no_heap U16 60000) /\
  seen (Hebrew_by unmoving no_heap U16 1015) = seen (Hebrew no_heap U16 1015) /\
  seen (chinese_by unmoving true true {| usage := Ordinary; scale := Long |} no_heap U64 123456789) = Ret (Ok (bytes "一億二千三百四十五萬六千七百八十九")).
Proof.
  cbv zeta. split; [apply unmoving_right|]. split; [reflexivity|]. split; [exists NewReverse, [PushStr (bytes "abc")], [Ok tt]; repeat split; repeat constructor|].
  repeat split; vm_compute; reflexivity.
Qed.

(** Functions that move things at the cheap end, or text that is pushed at the
    wrong one, are noticed. *)
Example C108_wrong :
  seen (try_format_live_by {| by_push := try_push; by_push_str := try_push_str; by_push_front := only_back try_push_front |} no_heap U8 (still Decimal) 10) = Panic /\
  seen (Hebrew_by {| by_push := only_front try_push; by_push_str := try_push_str; by_push_front := try_push_front |} no_heap U8 10) = Panic.
Proof. split; vm_compute; reflexivity. Qed.

Print Assumptions C108_cost_of_a_push.
Print Assumptions C108_cost_of_leaving.
Print Assumptions C108_cost_of_a_text.
Print Assumptions C108_formatters.
