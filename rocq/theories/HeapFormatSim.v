(** * HeapFormatSim: each formatter in memory against the formatter on values *)

From Coq Require Import String.
From Verif Require Import Prelude Utf8Facts StringFacts NominalString Spec History Digital Additive Enumerated Ethiopic Hebrew Chinese
  HeapMemory HeapFormat PropertiesHeap PropertiesAllocation HeapFormatFacts.

(** ** Results *)

Definition result_owned {E} (r : result held E) : list nat := match r with Ok v => owned_by [v] | Err _ => [] end.

Definition result_related {E} (c : config) (m : memory) (a : result held E) (b : result nominal_string E) : Prop :=
  match a, b with
  | Ok v, Ok s => repr c m v s
  | Err e, Err e' => e = e'
  | _, _ => False
  end.

(** A printed text of [k] bytes or more, no error. *)
Definition result_sure {E} (c : config) (k : N) (b : result nominal_string E) : Prop :=
  match b with Ok s => big c k s | Err _ => False end.

(** The same; nothing is said about errors. *)
Definition result_big {E} (c : config) (L : N) (b : result nominal_string E) : Prop :=
  match b with Ok s => big c L s | Err _ => True end.

Definition simulates (pf : platform) (L : N) (f : action (result held error)) (o : outcome (result nominal_string error)) : Prop :=
  forall m, sim pf L m [] f o result_owned (result_related (target pf)) (result_big (target pf) (N.succ L)).

Lemma hold_sim {A A' B'} pf L m v s (o : outcome A) (k : A -> action A') (k' : A -> outcome B') after R Big :
  repr (target pf) m v s ->
  (forall a, o = Ret a -> sim pf L m (owned_by [v]) (k a) (k' a) after R Big) ->
  sim pf L m (owned_by [v]) (and_then (holding [v] o) k) (obind o k') after R Big.
Proof. intros Hr. apply holding_sim. eapply holds_one, Hr. Qed.

Lemma bare_sim {A A' B'} pf L m (o : outcome A) (k : A -> action A') (k' : A -> outcome B') after R Big :
  (forall a, o = Ret a -> sim pf L m [] (k a) (k' a) after R Big) ->
  sim pf L m [] (and_then (holding [] o) k) (obind o k') after R Big.
Proof. apply (holding_sim pf L m []), holds_nil. Qed.

Lemma push_sim {A B} pf L m v s o ret (k : held -> action A) (k2 : nominal_string * result unit out_of_memory -> outcome B) after R (Big : B -> Prop) :
  valid_platform pf -> provides pf L -> repr (target pf) m v s -> op_ok (target pf) o ->
  (forall m1 v' s', repr (target pf) m1 v' s' -> sim pf L m1 (owned_by [v']) (k v') (k2 (s', Ok tt)) after R Big) ->
  (forall s' b, big (target pf) (N.succ L) s' -> k2 (s', Ok tt) = Ret b -> Big b) ->
  sim pf L m (owned_by [v]) (pushing [] v (held_step pf v o) ret k) (obind (step (target pf) s o) k2) after R Big.
Proof. intros Hp Hprov Hr Ho Hk Hb. eapply pushing_sim; try eassumption; [eapply holds_one, Hr|]. intros m1 v' s' _ _ _ Hr'. apply Hk, Hr'. Qed.

Lemma drop_one_sim {A B} pf L m v s (k : action A) (o : outcome B) after R (Big : B -> Prop) : repr (target pf) m v s ->
  (forall m1, sim pf L m1 [] k o after R Big) ->
  (L = 62 -> big (target pf) (N.succ L) s -> forall b, o = Ret b -> Big b) ->
  sim pf L m (owned_by [v]) (_ <~ held_drop v ;; k) o after R Big.
Proof. intros Hr Hk Hb. eapply drop_sim; [eapply holds_one, Hr|exact Hr| |exact Hb]. intros m1 _ _. apply Hk. Qed.

(** Steps of the proofs that texts only get longer. *)
Lemma big_try_push c L s ch s' r : has_alloc c = true -> big c L s -> is_scalar ch = true -> try_push c s ch = Ret (s', r) -> r = Ok tt /\ big c L s'.
Proof. intros Ha Hs Hch E. exact (big_step c L s (Push ch) s' r Ha Hs Hch eq_refl E). Qed.
Lemma big_try_push_front c L s ch s' r : has_alloc c = true -> big c L s -> is_scalar ch = true -> try_push_front c s ch = Ret (s', r) -> r = Ok tt /\ big c L s'.
Proof. intros Ha Hs Hch E. exact (big_step c L s (PushFront ch) s' r Ha Hs Hch eq_refl E). Qed.
Lemma big_try_push_str c L s bs s' r : has_alloc c = true -> big c L s -> valid_utf8 bs = true -> try_push_str c s bs = Ret (s', r) -> r = Ok tt /\ big c L s'.
Proof. intros Ha Hs Hch E. exact (big_step c L s (PushStr bs) s' r Ha Hs Hch eq_refl E). Qed.

Ltac grow_step :=
  match goal with
  | E : Panic = Ret _ |- _ => discriminate E
  | E : Ret _ = Ret _ |- _ => injection E as <-
  | Hal : has_alloc ?c = true, Hb : big ?c ?L ?s, E : obind (try_push ?c ?s ?ch) _ = Ret _ |- _ =>
      let Es := fresh "Es" in destruct (try_push c s ch) as [[? ?]| | |] eqn:Es; cbn [obind] in E; try discriminate E;
      apply (big_try_push c L s ch _ _ Hal Hb) in Es; [destruct Es as [-> ?]; clear Hb|]
  | Hal : has_alloc ?c = true, Hb : big ?c ?L ?s, E : obind (try_push_front ?c ?s ?ch) _ = Ret _ |- _ =>
      let Es := fresh "Es" in destruct (try_push_front c s ch) as [[? ?]| | |] eqn:Es; cbn [obind] in E; try discriminate E;
      apply (big_try_push_front c L s ch _ _ Hal Hb) in Es; [destruct Es as [-> ?]; clear Hb|]
  | Hal : has_alloc ?c = true, Hb : big ?c ?L ?s, E : obind (try_push_str ?c ?s ?bs) _ = Ret _ |- _ =>
      let Es := fresh "Es" in destruct (try_push_str c s bs) as [[? ?]| | |] eqn:Es; cbn [obind] in E; try discriminate E;
      apply (big_try_push_str c L s bs _ _ Hal Hb) in Es; [destruct Es as [-> ?]; clear Hb|]
  | E : obind ?o _ = Ret _ |- _ => let Eo := fresh "Eo" in destruct o eqn:Eo; cbn [obind] in E; try discriminate E
  | E : (if ?b then _ else _) = Ret _ |- _ => destruct b
  | E : match ?x with Some _ => _ | None => _ end = Ret _ |- _ => destruct x
  end; cbn beta iota zeta in *.

(** ** Digit collections *)

Fixpoint nth_fallback (k : nat) (d : digit_collection) : digit_collection :=
  match k with O => d | S k => nth_fallback k (dc_fallback d) end.

(** The digits are [char]s. *)
Definition digits_typed (d : digit_collection) : Prop := forall k i ch, dc_digit (nth_fallback k d) i = Ret ch -> is_scalar ch = true.

Lemma digits_typed_fallback d : digits_typed d -> digits_typed (dc_fallback d).
Proof. intros H k. apply (H (S k)). Qed.

Definition digit_state_related (c : config) (m : memory) (a : held_digit_loop) (b : digit_loop) : Prop :=
  hd_remaining a = dl_remaining b /\ hd_first_loop a = dl_first_loop b /\ hd_count a = dl_count b /\ repr c m (hd_formatted a) (dl_formatted b).

Lemma digit_body_big c L T d n s x : has_alloc c = true -> digits_typed d -> big c L (dl_formatted s) -> digit_loop_body c T d n s = Ret x ->
  step_big (fun s => big c L (dl_formatted s)) (result_big c L) x.
Proof.
  intros Ha Ht Hb E. unfold digit_loop_body in E. cbn zeta in E.
  repeat grow_step; cbn [step_big result_big dl_formatted]; try exact I; try assumption; eapply (Ht 0%nat); eassumption.
Qed.

Lemma digit_body_sim pf L T d n m a b : valid_platform pf -> provides pf L -> digits_typed d -> digit_state_related (target pf) m a b ->
  sim pf L m (owned_by [hd_formatted a]) (held_digit_body pf T d n a) (digit_loop_body (target pf) T d n b)
    (step_owned (fun a => owned_by [hd_formatted a]) result_owned)
    (step_related (digit_state_related (target pf)) (result_related (target pf)))
    (step_big (fun s => big (target pf) (N.succ L) (dl_formatted s)) (result_big (target pf) (N.succ L))).
Proof.
  intros Hp Hprov Ht (E1 & E2 & E3 & Hr). pose proof Hp as (_ & Hal & _). unfold held_digit_body, digit_loop_body. rewrite E1, E2, E3. cbn zeta.
  destruct (_ || _); [|apply sim_done; [reflexivity|exact Hr]].
  destruct (_ && _).
  { eapply drop_one_sim; [exact Hr| |]; [intros m1; apply sim_done; reflexivity|]. intros _ _ x [= <-]. exact I. }
  eapply hold_sim; [exact Hr|]. intros remaining _. eapply hold_sim; [exact Hr|]. intros r _. eapply hold_sim; [exact Hr|]. intros ch Ech.
  pose proof (Ht 0%nat _ _ Ech) as Hch.
  eapply (push_sim pf L m _ _ (PushFront ch)); [exact Hp|exact Hprov|exact Hr|split; [exact Hch|split; [reflexivity|exact I]]| |].
  - intros m1 v' s' Hr'. cbn beta iota. eapply hold_sim; [exact Hr'|]. intros remaining' _. eapply hold_sim; [exact Hr'|]. intros len _.
    destruct (try_from _ _ _) as [count|].
    + apply sim_done; [reflexivity|]. split; [reflexivity|]. split; [reflexivity|]. split; [reflexivity|exact Hr'].
    + eapply drop_one_sim; [exact Hr'| |]; [intros m2; apply sim_done; reflexivity|]. intros _ _ x [= <-]. exact I.
  - intros s' x Hb E. repeat grow_step; cbn [step_big result_big dl_formatted]; try exact I; try assumption.
Qed.

Lemma digits_sim depth pf L T d n : valid_platform pf -> provides pf L -> digits_typed d ->
  simulates pf L (held_digits depth pf T d n) (format_digits depth (target pf) T d n).
Proof.
  intros Hp Hprov. pose proof Hp as (_ & Hal & _). revert d. induction depth as [|depth IH]; intros d Ht m; cbn [held_digits format_digits]; [reflexivity|].
  apply bare_sim. intros len _. destruct (try_from _ _ _) as [count|].
  - destruct (_ && _).
    + cbn zeta. apply bare_sim. intros flen _. destruct (_ =? _); [apply sim_done; reflexivity|]. apply IH, digits_typed_fallback, Ht.
    + apply (loop_sim pf L (target pf) (held_digit_body pf T d n) (digit_loop_body (target pf) T d n) (fun a => owned_by [hd_formatted a])
        result_owned (digit_state_related (target pf)) (result_related (target pf)) (fun s => big (target pf) (N.succ L) (dl_formatted s))).
      * intros m1 a b Hr. apply digit_body_sim; assumption.
      * intros s x. apply digit_body_big; assumption.
      * split; [reflexivity|]. split; [reflexivity|]. split; [reflexivity|]. apply repr_empty_reverse.
  - apply bare_sim. intros ch Ech. eapply sim_bind; [apply from_char_sim; [exact Hp|exact Hprov|exact (Ht 0%nat _ _ Ech)]| |].
    + intros m1 v s _ Hr. apply sim_done; [unfold result_owned, owned_by; cbn [flat_map]; symmetry; apply app_nil_r|exact Hr].
    + intros s x Hb [= <-]. exact Hb.
Qed.

(** ** Additive sets *)

(** The symbols are [str]s, and no longer than a [str] can be. *)
Definition symbols_typed (c : config) (symbols : list (list N)) : Prop :=
  Forall (fun symbol => valid_utf8 symbol = true /\ N.of_nat (length symbol) <= isize_max c) symbols.

Definition pair_owned (a : N * held) : list nat := owned_by [snd a].
Definition pair_related (c : config) (m : memory) (a : N * held) (b : N * nominal_string) : Prop := fst a = fst b /\ repr c m (snd a) (snd b).
Definition pair_big (c : config) (L : N) (b : N * nominal_string) : Prop := big c L (snd b).

Definition pair_result_owned (a : result (N * held) error) : list nat := match a with Ok a => pair_owned a | Err _ => [] end.
Definition pair_result_related (c : config) (m : memory) (a : result (N * held) error) (b : result (N * nominal_string) error) : Prop :=
  match a, b with Ok a, Ok b => pair_related c m a b | Err e, Err e' => e = e' | _, _ => False end.
Definition pair_result_big (c : config) (L : N) (b : result (N * nominal_string) error) : Prop :=
  match b with Ok b => pair_big c L b | Err _ => False end.

Lemma sure_big {E} c k (b : result nominal_string E) : result_sure c k b -> result_big c k b.
Proof. destruct b; [auto|contradiction]. Qed.

Lemma additive_body_big c L T n symbol value s x : has_alloc c = true -> valid_utf8 symbol = true -> pair_big c L s ->
  additive_while_body c T n symbol value s = Ret x -> step_big (pair_big c L) (pair_result_big c L) x.
Proof.
  intros Ha Ht Hb E. destruct s as [remaining s]. unfold pair_big in Hb. cbn [snd] in Hb. unfold additive_while_body in E.
  repeat grow_step; cbn [step_big pair_result_big]; try exact I; assumption.
Qed.

Lemma additive_body_sim pf L T n symbol value m a b : valid_platform pf -> provides pf L -> valid_utf8 symbol = true -> N.of_nat (length symbol) <= isize_max (target pf) ->
  pair_related (target pf) m a b ->
  sim pf L m (pair_owned a) (held_additive_body pf T n symbol value a) (additive_while_body (target pf) T n symbol value b)
    (step_owned pair_owned pair_result_owned) (step_related (pair_related (target pf)) (pair_result_related (target pf)))
    (step_big (pair_big (target pf) (N.succ L)) (pair_result_big (target pf) (N.succ L))).
Proof.
  intros Hp Hprov Hv Hmax [E Hr]. pose proof Hp as (_ & Hal & _). destruct a as [remaining v], b as [remaining' s]. cbn [fst snd] in E, Hr. subst remaining'.
  unfold held_additive_body, additive_while_body, pair_owned. cbn [snd].
  destruct (_ <=? _); [|apply sim_done; [reflexivity|split; [reflexivity|exact Hr]]].
  eapply hold_sim; [exact Hr|]. intros r _.
  eapply (push_sim pf L m _ _ (PushStr symbol)); [exact Hp|exact Hprov|exact Hr|split; [exact Hv|split; [reflexivity|exact Hmax]]| |].
  - intros m1 v' s' Hr'. cbn beta iota. apply sim_done; [reflexivity|]. split; [reflexivity|exact Hr'].
  - intros s' x Hb Ex. repeat grow_step. exact Hb.
Qed.

Lemma additive_for_big c L T n symbols r s x : has_alloc c = true -> symbols_typed c (map fst symbols) -> big c L s -> additive_for c T n symbols r s = Ret x -> result_sure c L x.
Proof.
  intros Ha Ht. revert r s. induction symbols as [|[symbol value] rest IH]; cbn [additive_for map]; intros r s Hb E; [injection E as <-; exact Hb|].
  inversion_clear Ht as [|x0 l0 [Hv _] Hrest]. destruct (value =? 0); [injection E as <-; exact Hb|]. destruct (try_from c T value) as [v|]; [|eapply IH; eassumption].
  destruct (run_loop c _ _) as [y| | |] eqn:El; cbn [obind] in E; try discriminate.
  assert (pair_result_big c L y) as Hy.
  { unfold run_loop in El. destruct (iterate _ _ _) as [[y'|y']| | |] eqn:Ei; cbn [obind] in El; try discriminate. injection El as <-.
    exact (iterate_big _ _ (pair_big c L) (pair_result_big c L) (fun s x => additive_body_big c L T n symbol v s x Ha Hv) (r, s) _ Hb Ei). }
  destruct y as [[r' s']|e]; [eapply IH; eassumption|contradiction].
Qed.

Lemma additive_for_sim pf L T n symbols m r v s : valid_platform pf -> provides pf L -> symbols_typed (target pf) (map fst symbols) -> repr (target pf) m v s ->
  sim pf L m (owned_by [v]) (held_additive_for pf T n symbols r v) (additive_for (target pf) T n symbols r s)
    result_owned (result_related (target pf)) (result_sure (target pf) (N.succ L)).
Proof.
  intros Hp Hprov. pose proof Hp as (_ & Hal & _). revert m r v s. induction symbols as [|[symbol value] rest IH]; cbn [held_additive_for additive_for map]; intros m r v s Ht Hr;
    [apply sim_done; [reflexivity|exact Hr]|].
  inversion_clear Ht as [|x0 l0 [Hv Hmax] Hrest]. destruct (value =? 0); [apply sim_done; [reflexivity|exact Hr]|].
  destruct (try_from _ _ _) as [w|]; [|apply IH; assumption].
  eapply sim_bind.
  - apply (loop_sim pf L (target pf) (held_additive_body pf T n symbol w) (additive_while_body (target pf) T n symbol w) pair_owned pair_result_owned
      (pair_related (target pf)) (pair_result_related (target pf)) (pair_big (target pf) (N.succ L)) (pair_result_big (target pf) (N.succ L))).
    + intros m1 a b Hab. apply additive_body_sim; assumption.
    + intros s1 x. apply additive_body_big; assumption.
    + split; [reflexivity|exact Hr].
  - intros m1 [[r1 v1]|e] [[r2 s1]|e'] _ Hrel; cbn [pair_result_related] in Hrel; try contradiction.
    + destruct Hrel as [E1 Hr1]. cbn [fst snd] in E1, Hr1. subst r2. apply IH; assumption.
    + subst e'. apply sim_done; reflexivity.
  - intros [[r2 s1]|e] x Hb E; [|contradiction]. eapply additive_for_big; eassumption.
Qed.

Lemma additive_sim pf L T set n : valid_platform pf -> provides pf L -> symbols_typed (target pf) (map fst (as_symbols set)) ->
  (forall zero, as_zero set = Some zero -> valid_utf8 zero = true) ->
  simulates pf L (held_additive pf T set n) (try_format_additive (target pf) T set n).
Proof.
  intros Hp Hprov Ht Hz m. unfold held_additive, try_format_additive. destruct (is_zero n).
  - destruct (as_zero set) as [zero|]; [|apply sim_done; reflexivity].
    eapply sim_bind; [apply from_str_sim; [exact Hp|exact Hprov|apply Hz; reflexivity]| |].
    + intros m1 v s _ Hr. apply sim_done; [unfold result_owned, owned_by; cbn [flat_map]; symmetry; apply app_nil_r|exact Hr].
    + intros s x Hb [= <-]. exact Hb.
  - eapply sim_weaken; [apply (additive_for_sim pf L T n (as_symbols set) m n empty_forward new); [assumption..|apply repr_empty]|auto|apply sure_big].
Qed.

(** ** Enumerated sets *)

Lemma enumerated_sim pf L T set n : valid_platform pf -> provides pf L -> Forall (fun symbol => valid_utf8 symbol = true) (es_symbols set) ->
  simulates pf L (held_enumerated pf T set n) (try_format_enumerated (target pf) T set n).
Proof.
  intros Hp Hprov Ht m. unfold held_enumerated, try_format_enumerated. cbn zeta. destruct (try_from _ _ _) as [i|]; [|apply sim_done; reflexivity].
  destruct (_ && _); [apply sim_done; reflexivity|]. apply bare_sim. intros index _. destruct (lookup _ _) as [symbol|] eqn:El; [|apply sim_done; reflexivity].
  eapply sim_bind; [apply from_str_sim; [exact Hp|exact Hprov|]| |].
  - unfold lookup in El. destruct (_ <? _); [|discriminate]. rewrite Forall_forall in Ht. apply Ht. eapply nth_error_In, El.
  - intros m1 v s _ Hr. apply sim_done; [unfold result_owned, owned_by; cbn [flat_map]; symmetry; apply app_nil_r|exact Hr].
  - intros s x Hb [= <-]. exact Hb.
Qed.

(** ** Ethiopic *)

Definition triple_owned (a : N * N * held) : list nat := owned_by [snd a].
Definition triple_related (c : config) (m : memory) (a : N * N * held) (b : N * N * nominal_string) : Prop := fst a = fst b /\ repr c m (snd a) (snd b).
Definition triple_big (c : config) (L : N) (b : N * N * nominal_string) : Prop := big c L (snd b).

Lemma lookup_scalar l i ch : Forall (fun ch => is_scalar ch = true) l -> or_panic (lookup l i) = Ret ch -> is_scalar ch = true.
Proof.
  intros Hl E. unfold lookup in E. destruct (_ <? _); [|discriminate]. destruct (nth_error l _) as [x|] eqn:En; [|discriminate]. injection E as <-.
  rewrite Forall_forall in Hl. apply Hl. eapply nth_error_In, En.
Qed.

Lemma nth_scalar l i ch : Forall (fun ch => is_scalar ch = true) l -> or_panic (nth_error l i) = Ret ch -> is_scalar ch = true.
Proof.
  intros Hl E. destruct (nth_error l _) as [x|] eqn:En; [|discriminate]. injection E as <-.
  rewrite Forall_forall in Hl. apply Hl. eapply nth_error_In, En.
Qed.

Lemma scalars_all l : forallb is_scalar l = true -> Forall (fun ch => is_scalar ch = true) l.
Proof. rewrite forallb_forall, Forall_forall. auto. Qed.

Lemma push_front_if_big {A} c L cond s ch (k : nominal_string -> outcome (loop_step A (result nominal_string out_of_memory))) x (Big : _ -> Prop) :
  has_alloc c = true -> (forall y, ch = Ret y -> is_scalar y = true) -> big c L s -> (forall s' x, big c L s' -> k s' = Ret x -> Big x) ->
  push_front_if c cond s ch k = Ret x -> Big x.
Proof.
  intros Ha Hch Hb Hk E. unfold push_front_if in E. destruct cond; [|eapply Hk; eassumption].
  destruct ch as [y| | |]; cbn [obind] in E; try discriminate. specialize (Hch y eq_refl). grow_step; [|exact Hch]. eapply Hk; eassumption.
Qed.

Lemma push_front_if_sim {A A'} pf L m cond v s ch k k' after R (Big : loop_step A (result nominal_string out_of_memory) -> Prop) :
  valid_platform pf -> provides pf L -> repr (target pf) m v s -> (forall y, ch = Ret y -> is_scalar y = true) ->
  (forall m1 v' s', repr (target pf) m1 v' s' -> sim pf L m1 (owned_by [v']) (k v') (k' s') after R Big) ->
  (forall s' x, big (target pf) (N.succ L) s' -> k' s' = Ret x -> Big x) ->
  sim pf L m (owned_by [v]) (@held_push_front_if A' pf cond v ch k) (push_front_if (target pf) cond s ch k') after R Big.
Proof.
  intros Hp Hprov Hr Hch Hk Hb. unfold held_push_front_if, push_front_if. destruct cond; [|apply Hk, Hr].
  eapply hold_sim; [exact Hr|]. intros y Ey. eapply (push_sim pf L m _ _ (PushFront y)); [exact Hp|exact Hprov|exact Hr|split; [exact (Hch y Ey)|split; [reflexivity|exact I]]| |].
  - intros m1 v' s' Hr'. apply Hk, Hr'.
  - intros s' x Hs E. eapply Hb; eassumption.
Qed.

Lemma ones_scalar i y : or_panic (lookup ONES i) = Ret y -> is_scalar y = true.
Proof. apply lookup_scalar, scalars_all. reflexivity. Qed.
Lemma tens_scalar i y : or_panic (lookup TENS i) = Ret y -> is_scalar y = true.
Proof. apply lookup_scalar, scalars_all. reflexivity. Qed.
Lemma ret_scalar a y : is_scalar a = true -> Ret a = Ret y -> is_scalar y = true.
Proof. intros H [= <-]. exact H. Qed.

Lemma ethiopic_body_big c L s x : has_alloc c = true -> triple_big c L s -> ethiopic_body c s = Ret x -> step_big (triple_big c L) (result_sure c L) x.
Proof.
  intros Ha Hb E. destruct s as [[g r] s]. unfold triple_big in Hb. cbn [snd] in Hb. unfold ethiopic_body in E. destruct (is_zero r); [injection E as <-; exact Hb|]. cbn zeta in E.
  revert E. apply push_front_if_big with (L := L); [exact Ha|intros y; apply ret_scalar; reflexivity|exact Hb|]. clear s Hb. intros s y Hb.
  apply push_front_if_big with (L := L); [exact Ha|intros z; apply ret_scalar; reflexivity|exact Hb|]. clear s y Hb. intros s y Hb. cbn zeta.
  apply push_front_if_big with (L := L); [exact Ha|intros z; apply ones_scalar|exact Hb|]. clear s y Hb. intros s y Hb.
  apply push_front_if_big with (L := L); [exact Ha|intros z; apply tens_scalar|exact Hb|]. clear s y Hb. intros s y Hb [= <-]. exact Hb.
Qed.

Lemma ethiopic_body_sim pf L m a b : valid_platform pf -> provides pf L -> triple_related (target pf) m a b ->
  sim pf L m (triple_owned a) (held_ethiopic_body pf a) (ethiopic_body (target pf) b) (step_owned triple_owned result_owned)
    (step_related (triple_related (target pf)) (result_related (target pf))) (step_big (triple_big (target pf) (N.succ L)) (result_sure (target pf) (N.succ L))).
Proof.
  intros Hp Hprov [E Hr]. pose proof Hp as (_ & Hal & _). destruct a as [[g r] v], b as [[g' r'] s]. cbn [fst snd] in E, Hr. injection E as <- <-.
  unfold held_ethiopic_body, ethiopic_body, triple_owned. cbn [snd]. cbn zeta. destruct (is_zero r); [apply sim_done; [reflexivity|exact Hr]|].
  apply push_front_if_sim; [exact Hp|exact Hprov|exact Hr|intros y; apply ret_scalar; reflexivity| |].
  2:{ intros s1 y Hb. apply push_front_if_big with (L := N.succ L); [exact Hal|intros z; apply ret_scalar; reflexivity|exact Hb|]. clear s1 y Hb. intros s1 y Hb.
      apply push_front_if_big with (L := N.succ L); [exact Hal|intros z; apply ones_scalar|exact Hb|]. clear s1 y Hb. intros s1 y Hb.
      apply push_front_if_big with (L := N.succ L); [exact Hal|intros z; apply tens_scalar|exact Hb|]. clear s1 y Hb. intros s1 y Hb [= <-]. exact Hb. }
  clear m v s Hr. intros m v s Hr. apply push_front_if_sim; [exact Hp|exact Hprov|exact Hr|intros y; apply ret_scalar; reflexivity| |].
  2:{ intros s1 y Hb. apply push_front_if_big with (L := N.succ L); [exact Hal|intros z; apply ones_scalar|exact Hb|]. clear s1 y Hb. intros s1 y Hb.
      apply push_front_if_big with (L := N.succ L); [exact Hal|intros z; apply tens_scalar|exact Hb|]. clear s1 y Hb. intros s1 y Hb [= <-]. exact Hb. }
  clear m v s Hr. intros m v s Hr. apply push_front_if_sim; [exact Hp|exact Hprov|exact Hr|intros y; apply ones_scalar| |].
  2:{ intros s1 y Hb. apply push_front_if_big with (L := N.succ L); [exact Hal|intros z; apply tens_scalar|exact Hb|]. clear s1 y Hb. intros s1 y Hb [= <-]. exact Hb. }
  clear m v s Hr. intros m v s Hr. apply push_front_if_sim; [exact Hp|exact Hprov|exact Hr|intros y; apply tens_scalar| |].
  2:{ intros s1 y Hb [= <-]. exact Hb. }
  clear m v s Hr. intros m v s Hr. apply sim_done; [reflexivity|]. split; [reflexivity|exact Hr].
Qed.

Lemma ethiopic_sim pf L T n : valid_platform pf -> provides pf L -> simulates pf L (held_ethiopic pf T n) (Ethiopic (target pf) T n).
Proof.
  intros Hp Hprov m. pose proof Hp as (_ & Hal & _). unfold held_ethiopic, Ethiopic. destruct (is_zero n); [apply sim_done; reflexivity|]. unfold format_ethiopic.
  eapply sim_bind.
  - apply (loop_sim pf L (target pf) (held_ethiopic_body pf) (ethiopic_body (target pf)) triple_owned result_owned (triple_related (target pf))
      (result_related (target pf)) (triple_big (target pf) (N.succ L)) (result_sure (target pf) (N.succ L))) with (a := (0, n, empty_reverse)).
    + intros m1 a b. apply ethiopic_body_sim; assumption.
    + intros s x. apply ethiopic_body_big; assumption.
    + split; [reflexivity|apply repr_empty_reverse].
  - intros m1 [v|[]] [s|[]] _ Hrel; try contradiction; apply sim_done; try reflexivity. exact Hrel.
  - intros [s|[]] x Hb [= <-]; [exact Hb|contradiction].
Qed.

(** ** Hebrew *)

Definition hebrew_owned (x : held_hebrew_exit) : list nat :=
  match x with HNextSymbol _ v | HLeaveSymbolLoop v => owned_by [v] | HReturnErr _ => [] end.
Definition hebrew_related (c : config) (m : memory) (x : held_hebrew_exit) (y : hebrew_exit) : Prop :=
  match x, y with
  | HNextSymbol r v, NextSymbol r' s => r = r' /\ repr c m v s
  | HLeaveSymbolLoop v, LeaveSymbolLoop s => repr c m v s
  | HReturnErr e, ReturnErr e' => e = e'
  | _, _ => False
  end.
Definition hebrew_big (c : config) (L : N) (y : hebrew_exit) : Prop :=
  match y with NextSymbol _ s | LeaveSymbolLoop s => big c L s | ReturnErr _ => False end.

Lemma hebrew_body_big c L T n symbol value s x : has_alloc c = true -> is_scalar symbol = true -> pair_big c L s ->
  hebrew_while_body c T n symbol value s = Ret x -> step_big (pair_big c L) (hebrew_big c L) x.
Proof.
  intros Ha Ht Hb E. destruct s as [remaining s]. unfold pair_big in Hb. cbn [snd] in Hb. unfold hebrew_while_body, push_or_return in E.
  repeat grow_step; cbn [step_big hebrew_big]; try exact I; try assumption; reflexivity.
Qed.

Lemma hebrew_body_sim pf L T n symbol value m a b : valid_platform pf -> provides pf L -> is_scalar symbol = true -> 6 <= isize_max (target pf) -> pair_related (target pf) m a b ->
  sim pf L m (pair_owned a) (held_hebrew_body pf T n symbol value a) (hebrew_while_body (target pf) T n symbol value b)
    (step_owned pair_owned hebrew_owned) (step_related (pair_related (target pf)) (hebrew_related (target pf)))
    (step_big (pair_big (target pf) (N.succ L)) (hebrew_big (target pf) (N.succ L))).
Proof.
  intros Hp Hprov Hv Hmax [E Hr]. pose proof Hp as (_ & Hal & _). destruct a as [remaining v], b as [remaining' s]. cbn [fst snd] in E, Hr. subst remaining'.
  unfold held_hebrew_body, hebrew_while_body, push_or_return, pair_owned. cbn [snd]. cbn zeta.
  destruct (_ <=? _); [|apply sim_done; [reflexivity|split; [reflexivity|exact Hr]]].
  destruct (_ =? 15); [|destruct (_ =? 16)].
  - eapply (push_sim pf L m _ _ (PushStr (bytes "ט״ו"))); [exact Hp|exact Hprov|exact Hr|split; [reflexivity|split; [reflexivity|exact Hmax]]| |].
    + intros m1 v' s' Hr'. apply sim_done; [reflexivity|exact Hr'].
    + intros s' x Hb [= <-]. exact Hb.
  - eapply (push_sim pf L m _ _ (PushStr (bytes "ט״ז"))); [exact Hp|exact Hprov|exact Hr|split; [reflexivity|split; [reflexivity|exact Hmax]]| |].
    + intros m1 v' s' Hr'. apply sim_done; [reflexivity|exact Hr'].
    + intros s' x Hb [= <-]. exact Hb.
  - eapply empty_sim; [exact Hr|]. intros e. destruct (_ && e).
    + eapply (push_sim pf L m _ _ (Push (char_of "׳"))); [exact Hp|exact Hprov|exact Hr|split; [reflexivity|split; [reflexivity|exact I]]| |].
      2:{ intros s' x Hb Ex. repeat grow_step; try assumption; reflexivity. }
      clear m v s Hr. intros m v s Hr. cbn beta iota. eapply hold_sim; [exact Hr|]. intros r _.
      eapply (push_sim pf L m _ _ (Push symbol)); [exact Hp|exact Hprov|exact Hr|split; [exact Hv|split; [reflexivity|exact I]]| |].
      2:{ intros s' x Hb Ex. repeat grow_step; try assumption; reflexivity. }
      clear m v s Hr. intros m v s Hr. cbn beta iota.
      eapply (push_sim pf L m _ _ (Push (char_of "״"))); [exact Hp|exact Hprov|exact Hr|split; [reflexivity|split; [reflexivity|exact I]]| |].
      2:{ intros s' x Hb Ex. repeat grow_step; assumption. }
      clear m v s Hr. intros m v s Hr. apply sim_done; [reflexivity|split; [reflexivity|exact Hr]].
    + eapply hold_sim; [exact Hr|]. intros r _.
      eapply (push_sim pf L m _ _ (Push symbol)); [exact Hp|exact Hprov|exact Hr|split; [exact Hv|split; [reflexivity|exact I]]| |].
      2:{ intros s' x Hb Ex. repeat grow_step; assumption. }
      intros m1 v' s' Hr'. apply sim_done; [reflexivity|split; [reflexivity|exact Hr']].
Qed.

Lemma hebrew_for_big c L T n symbols r s x : has_alloc c = true -> Forall (fun ch => is_scalar ch = true) (map fst symbols) -> big c L s ->
  hebrew_for c T n symbols r s = Ret x -> result_sure c L x.
Proof.
  intros Ha Ht. revert r s. induction symbols as [|[symbol value] rest IH]; cbn [hebrew_for map]; intros r s Hb E; [injection E as <-; exact Hb|].
  inversion_clear Ht as [|x0 l0 Hv Hrest]. destruct (try_from c T value) as [v|]; [|eapply IH; eassumption].
  destruct (run_loop c _ _) as [y| | |] eqn:El; cbn [obind] in E; try discriminate.
  assert (hebrew_big c L y) as Hy.
  { unfold run_loop in El. destruct (iterate _ _ _) as [[y'|y']| | |] eqn:Ei; cbn [obind] in El; try discriminate. injection El as <-.
    exact (iterate_big _ _ (pair_big c L) (hebrew_big c L) (fun s x => hebrew_body_big c L T n symbol v s x Ha Hv) (r, s) _ Hb Ei). }
  destruct y as [r' s'|s'|e]; [eapply IH; eassumption| |]; [injection E as <-; exact Hy|contradiction].
Qed.

Lemma hebrew_for_sim pf L T n symbols m r v s : valid_platform pf -> provides pf L -> Forall (fun ch => is_scalar ch = true) (map fst symbols) ->
  6 <= isize_max (target pf) -> repr (target pf) m v s ->
  sim pf L m (owned_by [v]) (held_hebrew_for pf T n symbols r v) (hebrew_for (target pf) T n symbols r s)
    result_owned (result_related (target pf)) (result_sure (target pf) (N.succ L)).
Proof.
  intros Hp Hprov Ht Hmax. pose proof Hp as (_ & Hal & _). revert m r v s. induction symbols as [|[symbol value] rest IH]; cbn [held_hebrew_for hebrew_for map] in *; intros m r v s Hr;
    [apply sim_done; [reflexivity|exact Hr]|].
  inversion_clear Ht as [|x0 l0 Hv Hrest].
  destruct (try_from _ _ _) as [w|]; [|apply IH; assumption].
  eapply sim_bind.
  - apply (loop_sim pf L (target pf) (held_hebrew_body pf T n symbol w) (hebrew_while_body (target pf) T n symbol w) pair_owned hebrew_owned
      (pair_related (target pf)) (hebrew_related (target pf)) (pair_big (target pf) (N.succ L)) (hebrew_big (target pf) (N.succ L))).
    + intros m1 a b Hab. apply hebrew_body_sim; assumption.
    + intros s1 x. apply hebrew_body_big; assumption.
    + split; [reflexivity|exact Hr].
  - intros m1 [r1 v1|v1|e] [r2 s1|s1|e'] _ Hrel; cbn [hebrew_related] in Hrel; try contradiction.
    + destruct Hrel as [<- Hr1]. apply IH; assumption.
    + apply sim_done; [reflexivity|exact Hrel].
    + subst e'. apply sim_done; reflexivity.
  - intros [r2 s1|s1|e] x Hb E; [eapply hebrew_for_big; eassumption| |]; [injection E as <-; exact Hb|contradiction].
Qed.

Lemma hebrew_sim pf L T n : valid_platform pf -> provides pf L -> 6 <= isize_max (target pf) -> simulates pf L (held_hebrew pf T n) (Hebrew (target pf) T n).
Proof.
  intros Hp Hprov Hmax m. unfold held_hebrew, Hebrew. destruct (is_zero n); [apply sim_done; reflexivity|].
  eapply sim_weaken; [apply (hebrew_for_sim pf L T n hebrew_symbols m n empty_forward new); [exact Hp|exact Hprov|apply scalars_all; reflexivity|exact Hmax|apply repr_empty]|auto|apply sure_big].
Qed.

(** ** Chinese *)

Definition flag_owned {E} (r : held_flagged E) : list nat := result_owned (fst r).
Definition flag_related {E} (c : config) (m : memory) (a : held_flagged E) (b : flagged E) : Prop := result_related c m (fst a) (fst b) /\ snd a = snd b.
Definition flag_big {E} (c : config) (k : N) (b : flagged E) : Prop := result_big c k (fst b).

Lemma char_at_scalar l i ch : Forall (fun ch => is_scalar ch = true) l -> char_at l i = Ret ch -> is_scalar ch = true.
Proof. apply lookup_scalar. Qed.

Lemma push_char_big {E} c k (conv : out_of_memory -> E) s ch flag (next : nominal_string -> outcome (flagged E)) x (Big : _ -> Prop) :
  has_alloc c = true -> (forall y, ch = Ret y -> is_scalar y = true) -> big c k s -> (forall s' x, big c k s' -> next s' = Ret x -> Big x) ->
  push_char conv c s ch flag next = Ret x -> Big x.
Proof.
  intros Ha Hch Hb Hk Ex. unfold push_char in Ex. destruct ch as [y| | |]; cbn [obind] in Ex; try discriminate. specialize (Hch y eq_refl).
  grow_step; [|exact Hch]. eapply Hk; eassumption.
Qed.

Lemma push_char_sim {E} pf L m (conv : out_of_memory -> E) v s ch flag k k' after R (Big : flagged E -> Prop) :
  valid_platform pf -> provides pf L -> repr (target pf) m v s -> (forall y, ch = Ret y -> is_scalar y = true) ->
  (forall m1 v' s', repr (target pf) m1 v' s' -> sim pf L m1 (owned_by [v']) (k v') (k' s') after R Big) ->
  (forall s' x, big (target pf) (N.succ L) s' -> k' s' = Ret x -> Big x) ->
  sim pf L m (owned_by [v]) (held_push_char conv pf v ch flag k) (push_char conv (target pf) s ch flag k') after R Big.
Proof.
  intros Hp Hprov Hr Hch Hk Hb. unfold held_push_char, push_char.
  eapply hold_sim; [exact Hr|]. intros y Ey. eapply (push_sim pf L m _ _ (Push y)); [exact Hp|exact Hprov|exact Hr|split; [exact (Hch y Ey)|split; [reflexivity|exact I]]| |].
  - intros m1 v' s' Hr'. apply Hk, Hr'.
  - intros s' x Hs Ex. eapply Hb; eassumption.
Qed.

Lemma big_new c : big c 0 new.
Proof. exists []. split; [apply (good_reads _ new []), new_rep|apply N.le_refl]. Qed.

Ltac chinese_big Hal Hch :=
  repeat match goal with
  | |- (if ?b then _ else _) = Ret _ -> _ => destruct b
  | Hb : big ?c ?q ?s |- push_char _ ?c ?s _ _ _ = Ret _ -> _ =>
      apply push_char_big with (k := q); [exact Hal|intros ?; apply Hch|exact Hb|]; clear s Hb;
      let s := fresh "s" in let x := fresh "x" in let Hb := fresh "Hb" in intros s x Hb; cbn beta
  | |- obind (is_empty ?s) _ = Ret _ -> _ => destruct (is_empty s) as [?| | |]; cbn [obind]; [|discriminate..]
  | Hb : big _ _ _ |- Ret _ = Ret _ -> _ => let E := fresh in intros E; injection E as <-; exact Hb
  end.

Lemma inner_big c k formal characters n no_prefix last x : has_alloc c = true -> Forall (fun ch => is_scalar ch = true) characters -> k = 0 ->
  format_chinese_inner c formal characters n no_prefix last = Ret x -> flag_big c k x.
Proof.
  intros Ha Ht ->. pose proof (fun i y => char_at_scalar characters i y Ht) as Hch. pose proof (big_new c) as Hb. revert Hb.
  unfold format_chinese_inner. generalize new. cbn zeta. intros s Hb. chinese_big Ha Hch.
Qed.

Ltac chinese_sim Hp Hprov Hal Hch :=
  repeat match goal with
  | |- sim _ _ _ _ (if ?b then _ else _) _ _ _ _ => destruct b
  | Hr : repr _ ?m ?v ?s |- sim _ _ ?m _ (held_push_char _ _ ?v _ _ _) (push_char _ _ ?s _ _ _) _ _ _ =>
      apply push_char_sim; [exact Hp|exact Hprov|exact Hr|intros ?; apply Hch| |];
      clear m v s Hr;
      [let m := fresh "m" in let v := fresh "v" in let s := fresh "s" in let Hr := fresh "Hr" in intros m v s Hr; cbn beta
      |let s := fresh "s" in let x := fresh "x" in let Hb := fresh "Hb" in intros s x Hb; cbn beta; solve [chinese_big Hal Hch]]
  | Hr : repr _ ?m ?v ?s |- sim _ _ ?m _ (and_then (unwinding _ (held_is_empty ?v)) _) (obind (is_empty ?s) _) _ _ _ =>
      eapply empty_sim; [exact Hr|]; intros ?
  | Hr : repr _ ?m ?v ?s |- sim _ _ ?m _ (done _) (Ret _) _ _ _ =>
      apply sim_done; [reflexivity|split; [exact Hr|reflexivity]]
  end.

Lemma inner_sim pf L m formal characters n no_prefix last : valid_platform pf -> provides pf L -> Forall (fun ch => is_scalar ch = true) characters ->
  sim pf L m [] (held_chinese_inner pf formal characters n no_prefix last) (format_chinese_inner (target pf) formal characters n no_prefix last)
    flag_owned (flag_related (target pf)) (flag_big (target pf) (N.succ L)).
Proof.
  intros Hp Hprov Ht. pose proof Hp as (_ & Hal & _). pose proof (fun i y => char_at_scalar characters i y Ht) as Hch.
  change [] with (owned_by [empty_forward]) at 1. pose proof (repr_empty (target pf) m) as Hr. revert Hr.
  unfold held_chinese_inner, format_chinese_inner. generalize empty_forward new. cbn zeta. intros v s Hr.
  chinese_sim Hp Hprov Hal Hch.
Qed.

(** A call with a string in scope. *)
Lemma under_sim {A B} pf L m v s (f : action A) (o : outcome B) after R (Big : B -> Prop) : repr (target pf) m v s ->
  sim pf L m [] f o after R Big ->
  sim pf L m (owned_by [v]) (unwinding [v] f) o (fun a => blocks_of v ++ after a)
    (fun m' a b => R m' a b /\ repr (target pf) m' v s /\ forall p, In p (blocks_of v) -> ~ In p (after a)) Big.
Proof.
  intros Hr Hf.
  assert (forall m' l, framed m m' [] l -> framed m m' (owned_by [v]) (blocks_of v ++ l) /\ repr (target pf) m' v s /\ forall p, In p (blocks_of v) -> ~ In p l) as Hframe.
  { intros m' l Hfr. split; [|split].
    - eapply framed_swap; [apply (framed_more _ _ _ _ (blocks_of v) Hfr)| |].
      + intros p Hp. split; [eapply repr_live; eassumption|intros []].
      + intros p. unfold owned_by. cbn [flat_map app]. rewrite app_nil_r. reflexivity.
      + intros p. rewrite !in_app_iff. tauto.
    - eapply repr_framed; [exact Hr|exact Hfr|]. intros p _ [].
    - intros p Hp Hl. destruct Hfr as (_ & _ & H3 & _). destruct (H3 p Hl) as [[]|Hge]. pose proof (live_lt m p (repr_live _ _ _ _ _ Hr Hp)). lia. }
  assert (forall m', framed m m' [] [] -> exists m'', drop_all [v] m' = Done m'' tt /\ framed m m'' (owned_by [v]) []) as Hdrop.
  { intros m' Hfr. destruct (Hframe m' [] Hfr) as (H1 & H2 & _). destruct (drop_all_done _ [v] m' (holds_one _ _ _ _ H2)) as (m'' & E & H3). exists m''. split; [exact E|].
    eapply framed_trans; [exact H1|exact H3]. }
  unfold sim, unwinding in *. destruct (f m) as [m' a|m' why|]; [| |exact Hf].
  - destruct Hf as (b & E & Hfr & HR & Hc). destruct (Hframe m' (after a) Hfr) as (H1 & H2 & H3). exists b. split; [exact E|]. split; [exact H1|]. split; [|exact Hc]. auto.
  - destruct why; [destruct Hf as [Hf Hbig]|destruct Hf as [Hf Hbig]|destruct Hf as [Hpanic Hf]|exact Hf];
      destruct (Hdrop m' Hf) as (m'' & E & Hfr); unfold and_then; rewrite E; unfold stopped; auto.
Qed.

Lemma sim_swap {A B} pf L m before before' (f : action A) (o : outcome B) after R (Big : B -> Prop) :
  sim pf L m before f o after R Big -> (forall p, In p before <-> In p before') -> sim pf L m before' f o after R Big.
Proof.
  intros H Hb. assert (forall m' l, framed m m' before l -> framed m m' before' l) as Hf by (intros m' l H'; eapply framed_swap; [exact H'|exact Hb|reflexivity]).
  unfold sim in *. destruct (f m) as [m' a|m' why|]; [|destruct why; intuition|exact H].
  destruct H as (b & E & Hfr & HR). exists b. split; [exact E|]. split; [apply Hf, Hfr|exact HR].
Qed.

Lemma append_big c k s tail flag t t' x : has_alloc c = true -> good c s t -> good c tail t' -> k <= N.of_nat (length t) + N.of_nat (length t') ->
  append_result c s tail flag = Ret x -> flag_big c k x.
Proof.
  intros Ha Hs Ht Hk E. unfold append_result in E. pose proof Ht as (cs & Hr & Et). rewrite (rep_str _ _ _ Hr), <- Et in E. cbn [obind] in E.
  pose proof (step_effect c s t (PushStr t') Hs (good_valid _ _ _ Ht)) as Hst. unfold op_effect, succeeds, roomy in Hst. rewrite Ha in Hst. cbn [orb] in Hst. rewrite orb_true_r in Hst.
  destruct Hst as (s1 & E1 & Hg1 & _). cbn [step] in E1. rewrite E1 in E. cbn [obind unit_result] in E. injection E as <-.
  exists (op_text t (PushStr t')). split; [exact Hg1|]. cbn [op_text]. rewrite app_length. lia.
Qed.

Lemma append_sim pf L m v s w tail flag : valid_platform pf -> provides pf L -> repr (target pf) m v s -> repr (target pf) m w tail ->
  (forall p, In p (blocks_of v) -> ~ In p (blocks_of w)) ->
  sim pf L m (owned_by [v; w]) (held_append_result pf v w flag) (append_result (target pf) s tail flag) flag_owned (flag_related (target pf)) (flag_big (target pf) (N.succ L)).
Proof.
  intros Hp Hprov Hr Hw Hd. pose proof Hp as (Hvc & Hal & _). unfold held_append_result, append_result.
  destruct (same_str _ _ _ _ Hw) as (t & Hg & Et & Eh & _ & Hlen & Hv). rewrite Et. cbn [obind].
  assert (holds (target pf) m [v; w]) as Hl.
  { split; [constructor; [exists s; exact Hr|constructor; [exists tail; exact Hw|constructor]]|]. unfold owned_by. cbn [flat_map]. rewrite app_nil_r.
    apply NoDup_app_intro; [| |exact Hd]; unfold blocks_of; destruct (held_owned _); repeat constructor; intros []. }
  assert (forall (A : Type) (k : list N -> action A), and_then (unwinding [w; v] (held_str w)) k m = k t m) as Estr by (intros A k; unfold and_then, unwinding; rewrite Eh; reflexivity).
  unfold sim. rewrite Estr.
  match goal with |- match ?f m with _ => _ end => change (sim pf L m (owned_by [v; w]) f
    (obind (step (target pf) s (PushStr t)) (fun x => let (formatted, pushed) := x in match pushed with Ok _ => Ret (Ok formatted, flag) | Err e => Ret (Err (chinese_error_of e), flag) end))
    flag_owned (flag_related (target pf)) (flag_big (target pf) (N.succ L))) end.
  eapply (pushing_sim pf L m [w] v s (PushStr t)); [exact Hp|exact Hprov|exact Hl|exact Hr| | |].
  - split; [exact Hv|split; [reflexivity|]]. pose proof (isize_max_large _ Hvc). lia.
  - intros m1 v' s' Hfr Es Hl' Hr'. cbn beta iota.
    assert (repr (target pf) m1 w tail) as Hw1 by (eapply repr_framed; [exact Hw|exact Hfr|intros p Hpw Hpv; exact (Hd p Hpv Hpw)]).
    destruct Hl' as [Hl1 Hl2]. unfold owned_by in Hl2. cbn [flat_map] in Hl2. rewrite app_nil_r in Hl2.
    eapply sim_swap; [eapply (drop_sim pf L m1 w tail [v'])| ].
    + split; [constructor; [exists tail; exact Hw1|constructor; [exists s'; exact Hr'|constructor]]|]. unfold owned_by. cbn [flat_map]. rewrite app_nil_r.
      destruct (NoDup_app_parts _ _ Hl2). apply NoDup_app_intro; [assumption..|]. intros p H1 H2. exact (NoDup_app_disjoint _ _ Hl2 p H2 H1).
    + exact Hw1.
    + intros m2 Hfr2 _. apply sim_done; [reflexivity|]. split; [|reflexivity]. eapply repr_framed; [exact Hr'|exact Hfr2|]. intros p H1 H2. exact (NoDup_app_disjoint _ _ Hl2 p H1 H2).
    + intros _ (t2 & Hg2 & Hb2) b [= <-].
      assert (append_result (target pf) s tail flag = Ret (Ok s', flag)) as Ea.
      { unfold append_result. rewrite Et. cbn [obind]. cbn [step] in Es. rewrite Es. reflexivity. }
      pose proof Hr as (t0 & Hg0 & _). eapply append_big; [exact Hal|exact Hg0|exact Hg2| |exact Ea]. lia.
    + intros p. unfold owned_by. cbn [flat_map]. rewrite !app_nil_r, !in_app_iff. tauto.
  - intros s' x Hb [= <-]. exact Hb.
Qed.

Lemma held_lift_owned r : flag_owned (held_lift_flagged r) = flag_owned r.
Proof. destruct r as [[v|e] flag]; reflexivity. Qed.

Lemma lift_related c m a b : flag_related c m a b -> flag_related c m (held_lift_flagged a) (lift_flagged b).
Proof. destruct a as [[v|e] flag], b as [[s|e'] flag']; intros [H1 H2]; cbn [fst snd result_related] in *; try contradiction; subst; split; try reflexivity. exact H1. Qed.

Lemma lift_big c k b : flag_big c k b -> flag_big c k (lift_flagged b).
Proof. destruct b as [[s|e'] flag']; intros H; [exact H|exact I]. Qed.

(** *** The short scale *)

Definition short_owned (a : held_short_loop) : list nat := owned_by [hs_formatted a].
Definition short_related (c : config) (m : memory) (a : held_short_loop) (b : short_loop) : Prop :=
  hs_rank a = sl_rank b /\ hs_scale a = sl_scale b /\ hs_last_was_zero a = sl_last_was_zero b /\ hs_remaining a = sl_remaining b /\
  repr c m (hs_formatted a) (sl_formatted b).
Definition short_big (c : config) (k : N) (b : short_loop) : Prop := big c k (sl_formatted b).
Definition short_result_owned (a : result held_short_loop chinese_error) : list nat := match a with Ok a => short_owned a | Err _ => [] end.
Definition short_result_related (c : config) (m : memory) (a : result held_short_loop chinese_error) (b : result short_loop chinese_error) : Prop :=
  match a, b with Ok a, Ok b => short_related c m a b | Err e, Err e' => e = e' | _, _ => False end.
Definition short_result_big (c : config) (k : N) (b : result short_loop chinese_error) : Prop := match b with Ok b => short_big c k b | Err _ => True end.

Lemma short_next_big c k T s x : short_big c k s -> short_next c T s = Ret x -> step_big (short_big c k) (short_result_big c k) x.
Proof.
  intros Hb E. unfold short_next in E. destruct (sl_rank s); [injection E as <-; exact Hb|].
  destruct (or_panic _) as [sc| | |]; cbn [obind] in E; try discriminate. destruct (try_from c T sc); [|discriminate]. injection E as <-. exact Hb.
Qed.

Lemma short_next_sim pf L T m a b : valid_platform pf -> short_related (target pf) m a b ->
  sim pf L m (short_owned a) (held_short_next pf T a) (short_next (target pf) T b) (step_owned short_owned short_result_owned)
    (step_related (short_related (target pf)) (short_result_related (target pf))) (step_big (short_big (target pf) (N.succ L)) (short_result_big (target pf) (N.succ L))).
Proof.
  intros Hp Hab. pose proof Hab as (E1 & E2 & E3 & E4 & Hr). unfold held_short_next, short_next. rewrite E1. destruct (sl_rank b) as [|rank]; [apply sim_done; [reflexivity|exact Hab]|].
  eapply hold_sim; [exact Hr|]. intros sc _. destruct (try_from _ _ _) as [new_scale|].
  - apply sim_done; [reflexivity|]. split; [reflexivity|]. split; [reflexivity|]. split; [exact E3|]. split; [exact E4|exact Hr].
  - apply holding_panic. eapply holds_one, Hr.
Qed.

Lemma short_body_big c k T characters large s x : has_alloc c = true -> Forall (fun ch => is_scalar ch = true) characters -> Forall (fun ch => is_scalar ch = true) large ->
  short_big c k s -> short_body c T characters large s = Ret x -> step_big (short_big c k) (short_result_big c k) x.
Proof.
  intros Ha Ht Hl Hb E. unfold short_body in E. destruct (is_zero _); [injection E as <-; exact Hb|].
  destruct (udiv _ _) as [rv| | |]; cbn [obind] in E; try discriminate. destruct (10 <=? rv); [injection E as <-; exact I|].
  destruct (urem _ _) as [r| | |]; cbn [obind] in E; try discriminate. cbn zeta in E. unfold short_big in Hb.
  repeat grow_step; try (eapply char_at_scalar; [exact Ht|eassumption]); try (eapply nth_scalar; [exact Hl|eassumption]); eapply short_next_big; try exact E; assumption.
Qed.

Lemma short_body_sim pf L T characters large m a b : valid_platform pf -> provides pf L ->
  Forall (fun ch => is_scalar ch = true) characters -> Forall (fun ch => is_scalar ch = true) large -> short_related (target pf) m a b ->
  sim pf L m (short_owned a) (held_short_body pf T characters large a) (short_body (target pf) T characters large b) (step_owned short_owned short_result_owned)
    (step_related (short_related (target pf)) (short_result_related (target pf))) (step_big (short_big (target pf) (N.succ L)) (short_result_big (target pf) (N.succ L))).
Proof.
  intros Hp Hprov Ht Hl Hab. pose proof Hp as (_ & Hal & _). pose proof Hab as (E1 & E2 & E3 & E4 & Hr). unfold held_short_body, short_body, short_owned. rewrite E1, E2, E3, E4.
  destruct (is_zero _); [apply sim_done; [reflexivity|exact Hab]|]. cbn zeta.
  eapply hold_sim; [exact Hr|]. intros rv _. destruct (10 <=? rv).
  { eapply drop_one_sim; [exact Hr| |]; [intros m1; apply sim_done; reflexivity|]. intros _ _ x [= <-]. exact I. }
  eapply hold_sim; [exact Hr|]. intros r _.
  assert (forall m1 v s last, repr (target pf) m1 v s ->
    sim pf L m1 (owned_by [v])
      (held_short_next pf T {| hs_rank := sl_rank b; hs_scale := sl_scale b; hs_formatted := v; hs_last_was_zero := last; hs_remaining := r |})
      (short_next (target pf) T {| sl_rank := sl_rank b; sl_scale := sl_scale b; sl_formatted := s; sl_last_was_zero := last; sl_remaining := r |})
      (step_owned short_owned short_result_owned) (step_related (short_related (target pf)) (short_result_related (target pf)))
      (step_big (short_big (target pf) (N.succ L)) (short_result_big (target pf) (N.succ L)))) as Hnext.
  { intros m1 v s last Hr1. apply (short_next_sim pf L T m1 {| hs_rank := sl_rank b; hs_scale := sl_scale b; hs_formatted := v; hs_last_was_zero := last; hs_remaining := r |}); [exact Hp|].
    split; [reflexivity|]. split; [reflexivity|]. split; [reflexivity|]. split; [reflexivity|exact Hr1]. }
  assert (forall s last x, big (target pf) (N.succ L) s ->
     short_next (target pf) T {| sl_rank := sl_rank b; sl_scale := sl_scale b; sl_formatted := s; sl_last_was_zero := last; sl_remaining := r |} = Ret x ->
     step_big (short_big (target pf) (N.succ L)) (short_result_big (target pf) (N.succ L)) x) as Hnb.
  { intros s last x Hb. apply short_next_big. exact Hb. }
  destruct (is_zero rv).
  - eapply empty_sim; [exact Hr|]. intros e. destruct (_ && _); [|apply Hnext, Hr].
    eapply hold_sim; [exact Hr|]. intros ch Ech. eapply (push_sim pf L m _ _ (Push ch)); [exact Hp|exact Hprov|exact Hr|split; [eapply char_at_scalar; [exact Ht|eassumption]|split; [reflexivity|exact I]]| |].
    + intros m1 v' s' Hr'. cbn beta iota. apply Hnext, Hr'.
    + intros s' x Hb. cbn beta iota. apply Hnb, Hb.
  - eapply hold_sim; [exact Hr|]. intros ch Ech. eapply (push_sim pf L m _ _ (Push ch)); [exact Hp|exact Hprov|exact Hr|split; [eapply char_at_scalar; [exact Ht|eassumption]|split; [reflexivity|exact I]]| |].
    + intros m1 v' s' Hr'. cbn beta iota. eapply hold_sim; [exact Hr'|]. intros ch' Ech'.
      eapply (push_sim pf L m1 _ _ (Push ch')); [exact Hp|exact Hprov|exact Hr'|split; [eapply nth_scalar; [exact Hl|eassumption]|split; [reflexivity|exact I]]| |].
      * intros m2 v2 s2 Hr2. cbn beta iota. apply Hnext, Hr2.
      * intros s2 x Hb. cbn beta iota. apply Hnb, Hb.
    + intros s' x Hb E. repeat grow_step; try (eapply nth_scalar; [exact Hl|eassumption]); eapply Hnb; [|exact E]; assumption.
Qed.

Lemma short_rank_sim pf L T formal rank characters large n : valid_platform pf -> provides pf L ->
  Forall (fun ch => is_scalar ch = true) characters -> Forall (fun ch => is_scalar ch = true) large ->
  forall m, sim pf L m [] (held_short_rank pf T formal rank characters large n) (format_short_rank (target pf) T formal rank characters large n)
    result_owned (result_related (target pf)) (result_big (target pf) (N.succ L)).
Proof.
  intros Hp Hprov Ht Hl. pose proof Hp as (_ & Hal & _). induction rank as [|rank IH]; intros m; cbn [held_short_rank format_short_rank].
  all: apply bare_sim; intros sc _; destruct (try_from _ _ _) as [sc'|]; [|try (apply (holding_panic pf L m []), holds_nil); apply IH].
  all: eapply sim_bind;
    [apply (loop_sim pf L (target pf) (held_short_body pf T characters large) (short_body (target pf) T characters large) short_owned short_result_owned
      (short_related (target pf)) (short_result_related (target pf)) (short_big (target pf) (N.succ L)) (short_result_big (target pf) (N.succ L)))
    | |];
    [intros m1 a b; apply short_body_sim; assumption
    |intros s x; apply short_body_big; assumption
    |split; [reflexivity|]; split; [reflexivity|]; split; [reflexivity|]; split; [reflexivity|apply repr_empty]
    |intros m0 [a|e] [b|e'] _ Hrel; cbn [short_result_related] in Hrel; try contradiction; [|subst e'; apply sim_done; reflexivity]
    |intros [b|e] x Hb E; [|injection E as <-; exact I]].
  all: try (destruct Hrel as (E1 & E2 & E3 & E4 & Hr); cbn [short_result_owned]; unfold short_owned; rewrite E3, E4; destruct (negb _); [|apply sim_done; [reflexivity|exact Hr]];
    eapply sim_bind; [eapply under_sim; [exact Hr|apply inner_sim; assumption]| |]).
  all: try (intros m1 [[w|e] flag] [[tail|e'] flag'] _ ([Hres Hflag] & Hr1 & Hd); cbn [fst snd result_related flag_owned result_owned] in Hres, Hflag, Hd; try contradiction; subst flag';
    cbn [held_lift_flagged lift_flagged];
    [eapply sim_bind; [apply append_sim; [exact Hp|exact Hprov|exact Hr1|exact Hres|unfold owned_by in Hd; cbn [flat_map] in Hd; rewrite app_nil_r in Hd; exact Hd]
       |intros m2 a2 b2 _ [H1 _]; apply sim_done; [reflexivity|exact H1]
       |intros b2 x Hb [= <-]; exact Hb]
    |subst e'; eapply drop_one_sim; [exact Hr1| |]; [intros m2; apply sim_done; reflexivity|]; intros _ _ x [= <-]; exact I]).
  all: try (intros [[tail|e] flag] x Hb E; cbn [lift_flagged] in E; [|injection E as <-; exact I];
    destruct (append_result _ _ _ _) as [y| | |] eqn:Ey; cbn [obind] in E; try discriminate; injection E as <-;
    destruct Hr as (t & Hg & _), Hb as (t' & Hg' & Hk); eapply append_big; [exact Hal|exact Hg|exact Hg'| |exact Ey]; lia).
  all: destruct (negb _); [|injection E as <-; exact Hb];
    destruct (format_chinese_inner _ _ _ _ _ _) as [[[tail|e] flag]| | |] eqn:Ei; cbn [obind lift_flagged] in E; try discriminate; [|injection E as <-; exact I];
    destruct (append_result _ _ _ _) as [y| | |] eqn:Ey; cbn [obind] in E; try discriminate; injection E as <-;
    apply (inner_big _ 0) in Ei; [|assumption|assumption|reflexivity]; destruct Ei as (t' & Hg' & _), Hb as (t & Hg & Hk); eapply append_big; [exact Hal|exact Hg|exact Hg'| |exact Ey]; lia.
Qed.

(** *** The other scales *)

Definition held_next (pf : platform) (formal : bool) (rank : nat) (scales : list (option N)) (characters large : list N)
    (nominal : N) (no_prefix last : bool) : action (held_flagged chinese_error) :=
  match rank with
  | S rank' => held_scaled_rank pf formal rank' scales characters large nominal no_prefix last
  | O => r <~ held_chinese_inner pf formal characters nominal no_prefix last ;; done (held_lift_flagged r)
  end.

Definition next_rank (c : config) (formal : bool) (rank : nat) (scales : list (option N)) (characters large : list N)
    (nominal : N) (no_prefix last : bool) : outcome (flagged chinese_error) :=
  match rank with
  | S rank' => format_scaled_rank c formal rank' scales characters large nominal no_prefix last
  | O => r <- format_chinese_inner c formal characters nominal no_prefix last ;; Ret (lift_flagged r)
  end.

Definition held_finish (pf : platform) (formal : bool) (rank : nat) (scales : list (option N)) (characters large : list N)
    (no_prefix : bool) (remaining : N) (formatted : held) (last : bool) : action (held_flagged chinese_error) :=
  if is_zero remaining then done (Ok formatted, last)
  else
    empty <~ unwinding [formatted] (held_is_empty formatted) ;;
    '(tail, last) <~ unwinding [formatted] (held_next pf formal rank scales characters large remaining (empty && no_prefix) last) ;;
    match tail with
    | Err e => _ <~ held_drop formatted ;; done (Err e, last)
    | Ok tail => held_append_result pf formatted tail last
    end.

Definition finish_rank (c : config) (formal : bool) (rank : nat) (scales : list (option N)) (characters large : list N)
    (no_prefix : bool) (remaining : N) (formatted : nominal_string) (last : bool) : outcome (flagged chinese_error) :=
  if is_zero remaining then Ret (Ok formatted, last)
  else
    empty <- is_empty formatted ;;
    '(tail, last) <- next_rank c formal rank scales characters large remaining (empty && no_prefix) last ;;
    match tail with
    | Err e => Ret (Err e, last)
    | Ok tail => append_result c formatted tail last
    end.

Definition rank_out_of_bounds (rank : nat) (scales : list (option N)) (scale rank_value : N) : outcome bool :=
  match scale_at scales (rank + 1) with
  | Some previous_scale => factor <- udiv previous_scale scale ;; Ret (factor <=? rank_value)
  | None =>
      match rank with
      | S rank' =>
          lower <- or_panic (nth_error scales rank') ;;
          lower <- or_panic lower ;;
          factor <- udiv scale lower ;; Ret (factor <=? rank_value)
      | O => Ret false
      end
  end.

Lemma held_rank_step pf formal rank scales characters large n no_prefix last :
  held_scaled_rank pf formal rank scales characters large n no_prefix last =
  match scale_at scales rank with
  | None => held_next pf formal rank scales characters large n no_prefix last
  | Some scale =>
      remaining <~ holding [] (urem n scale) ;;
      rank_value <~ holding [] (udiv n scale) ;;
      out_of_bounds <~ holding [] (rank_out_of_bounds rank scales scale rank_value) ;;
      if (out_of_bounds : bool) then done (Err COutOfBounds, last)
      else if is_zero rank_value then held_finish pf formal rank scales characters large no_prefix remaining empty_forward last
      else
        '(r, last) <~ held_next pf formal rank scales characters large rank_value no_prefix last ;;
        match r with
        | Err e => done (Err e, last)
        | Ok rank_formatted =>
            empty <~ unwinding [rank_formatted] (held_is_empty rank_formatted) ;;
            if negb empty then
              held_push_char chinese_error_of pf rank_formatted (or_panic (nth_error large rank)) last (fun rank_formatted =>
              held_finish pf formal rank scales characters large no_prefix remaining rank_formatted false)
            else held_finish pf formal rank scales characters large no_prefix remaining rank_formatted last
        end
  end.
Proof. destruct rank; reflexivity. Qed.

Lemma rank_step c formal rank scales characters large n no_prefix last :
  format_scaled_rank c formal rank scales characters large n no_prefix last =
  match scale_at scales rank with
  | None => next_rank c formal rank scales characters large n no_prefix last
  | Some scale =>
      remaining <- urem n scale ;;
      rank_value <- udiv n scale ;;
      out_of_bounds <- rank_out_of_bounds rank scales scale rank_value ;;
      if (out_of_bounds : bool) then Ret (Err COutOfBounds, last)
      else if is_zero rank_value then finish_rank c formal rank scales characters large no_prefix remaining new last
      else
        '(r, last) <- next_rank c formal rank scales characters large rank_value no_prefix last ;;
        match r with
        | Err e => Ret (Err e, last)
        | Ok rank_formatted =>
            empty <- is_empty rank_formatted ;;
            if negb empty then
              push_char chinese_error_of c rank_formatted (or_panic (nth_error large rank)) last (fun rank_formatted =>
              finish_rank c formal rank scales characters large no_prefix remaining rank_formatted false)
            else finish_rank c formal rank scales characters large no_prefix remaining rank_formatted last
        end
  end.
Proof. destruct rank; reflexivity. Qed.

(** What is printed is a string. *)
Definition next_good (c : config) (formal : bool) (rank : nat) (scales : list (option N)) (characters large : list N) : Prop :=
  forall n no_prefix last x, next_rank c formal rank scales characters large n no_prefix last = Ret x -> flag_big c 0 x.

Lemma finish_big c k formal rank scales characters large no_prefix remaining s last x : has_alloc c = true ->
  next_good c formal rank scales characters large -> big c k s -> finish_rank c formal rank scales characters large no_prefix remaining s last = Ret x -> flag_big c k x.
Proof.
  intros Ha Hn Hb E. unfold finish_rank in E. destruct (is_zero remaining); [injection E as <-; exact Hb|].
  destruct (is_empty s) as [e| | |]; cbn [obind] in E; try discriminate. destruct (next_rank _ _ _ _ _ _ _ _ _) as [[[tail|er] flag]| | |] eqn:En; cbn [obind] in E; try discriminate.
  - apply Hn in En. destruct En as (t' & Hg' & _), Hb as (t & Hg & Hk). eapply append_big; [exact Ha|exact Hg|exact Hg'| |exact E]. lia.
  - injection E as <-. exact I.
Qed.

Lemma rank_good c formal rank scales characters large : has_alloc c = true -> Forall (fun ch => is_scalar ch = true) characters -> Forall (fun ch => is_scalar ch = true) large ->
  next_good c formal rank scales characters large.
Proof.
  intros Ha Ht Hl. induction rank as [|rank IH]; intros n no_prefix last x E; cbn [next_rank] in E.
  - destruct (format_chinese_inner _ _ _ _ _ _) as [y| | |] eqn:Ey; cbn [obind] in E; try discriminate. injection E as <-. apply lift_big. eapply inner_big; [exact Ha|exact Ht|reflexivity|exact Ey].
  - rewrite rank_step in E. destruct (scale_at scales rank) as [scale|]; [|eapply IH, E].
    destruct (urem _ _) as [r| | |]; cbn [obind] in E; try discriminate. destruct (udiv _ _) as [rv| | |]; cbn [obind] in E; try discriminate.
    destruct (rank_out_of_bounds _ _ _ _) as [[|]| | |]; cbn [obind] in E; try discriminate; [injection E as <-; exact I|].
    destruct (is_zero rv); [eapply finish_big; [exact Ha|exact IH|apply big_new|exact E]|].
    destruct (next_rank _ _ _ _ _ _ _ _ _) as [[[s|er] flag]| | |] eqn:En; cbn [obind] in E; try discriminate; [|injection E as <-; exact I].
    apply IH in En. destruct (is_empty s) as [e| | |]; cbn [obind] in E; try discriminate. destruct (negb e); [|eapply finish_big; [exact Ha|exact IH|exact En|exact E]].
    revert E. apply push_char_big with (k := 0); [exact Ha|intros y; apply nth_scalar, Hl|exact En|]. intros s' y Hb. apply finish_big; assumption.
Qed.

Lemma finish_sim pf L formal rank scales characters large no_prefix remaining m v s last : valid_platform pf -> provides pf L ->
  next_good (target pf) formal rank scales characters large ->
  (forall m n no_prefix last, sim pf L m [] (held_next pf formal rank scales characters large n no_prefix last) (next_rank (target pf) formal rank scales characters large n no_prefix last)
     flag_owned (flag_related (target pf)) (flag_big (target pf) (N.succ L))) ->
  repr (target pf) m v s ->
  sim pf L m (owned_by [v]) (held_finish pf formal rank scales characters large no_prefix remaining v last) (finish_rank (target pf) formal rank scales characters large no_prefix remaining s last)
    flag_owned (flag_related (target pf)) (flag_big (target pf) (N.succ L)).
Proof.
  intros Hp Hprov Hgood Hnext Hr. pose proof Hp as (_ & Hal & _). unfold held_finish, finish_rank. destruct (is_zero remaining); [apply sim_done; [reflexivity|split; [exact Hr|reflexivity]]|].
  eapply empty_sim; [exact Hr|]. intros e. eapply sim_bind; [eapply under_sim; [exact Hr|apply Hnext]| |].
  - intros m1 [[w|er] flag] [[tail|er'] flag'] _ ([Hres Hflag] & Hr1 & Hd); cbn [fst snd result_related flag_owned result_owned] in Hres, Hflag, Hd; try contradiction; subst flag'.
    + apply append_sim; [exact Hp|exact Hprov|exact Hr1|exact Hres|]. unfold owned_by in Hd. cbn [flat_map] in Hd. rewrite app_nil_r in Hd. exact Hd.
    + subst er'. eapply drop_one_sim; [exact Hr1| |]; [intros m2; apply sim_done; [reflexivity|split; reflexivity]|]. intros _ _ x [= <-]. exact I.
  - intros [[tail|er] flag] x Hb E; [|injection E as <-; exact I].
    destruct Hr as (t & Hg & _), Hb as (t' & Hg' & Hk). eapply append_big; [exact Hal|exact Hg|exact Hg'| |exact E]. lia.
Qed.

Lemma next_sim pf L formal rank scales characters large : valid_platform pf -> provides pf L ->
  Forall (fun ch => is_scalar ch = true) characters -> Forall (fun ch => is_scalar ch = true) large ->
  forall m n no_prefix last, sim pf L m [] (held_next pf formal rank scales characters large n no_prefix last) (next_rank (target pf) formal rank scales characters large n no_prefix last)
     flag_owned (flag_related (target pf)) (flag_big (target pf) (N.succ L)).
Proof.
  intros Hp Hprov Ht Hl. pose proof Hp as (_ & Hal & _). induction rank as [|rank IH]; intros m n no_prefix last; cbn [held_next next_rank].
  - eapply sim_bind; [apply inner_sim; assumption| |].
    + intros m1 a b _ Hab. apply sim_done; [symmetry; apply held_lift_owned|apply lift_related, Hab].
    + intros b x Hb [= <-]. apply lift_big, Hb.
  - pose proof (rank_good (target pf) formal rank scales characters large Hal Ht Hl) as Hgood.
    rewrite held_rank_step, rank_step. destruct (scale_at scales rank) as [scale|]; [|apply IH].
    apply bare_sim. intros remaining _. apply bare_sim. intros rv _. apply bare_sim. intros out _. destruct out; [apply sim_done; [reflexivity|split; reflexivity]|].
    destruct (is_zero rv).
    { apply (finish_sim pf L formal rank scales characters large no_prefix remaining m empty_forward new); [exact Hp|exact Hprov|exact Hgood|exact IH|apply repr_empty]. }
    eapply sim_bind; [apply IH| |].
    + intros m1 [[v|er] flag] [[s|er'] flag'] _ [Hres Hflag]; cbn [fst snd result_related] in Hres, Hflag; try contradiction; subst flag'; [|subst er'; apply sim_done; [reflexivity|split; reflexivity]].
      change (flag_owned (@Ok _ chinese_error v, flag)) with (owned_by [v]).
      eapply empty_sim; [exact Hres|]. intros e. destruct (negb e); [|apply finish_sim; assumption].
      apply push_char_sim; [exact Hp|exact Hprov|exact Hres|intros y; apply nth_scalar, Hl| |].
      * intros m2 v' s' Hr'. apply finish_sim; assumption.
      * intros s' x Hb. apply finish_big; assumption.
    + intros [[s|er] flag] x Hb E; [|injection E as <-; exact I].
      destruct (is_empty s) as [e| | |]; cbn [obind] in E; try discriminate. destruct (negb e); [|eapply finish_big; [exact Hal|exact Hgood|exact Hb|exact E]].
      revert E. apply push_char_big with (k := N.succ L); [exact Hal|intros y; apply nth_scalar, Hl|exact Hb|]. intros s' y Hb'. apply finish_big; assumption.
Qed.

Lemma rank_sim pf L formal rank scales characters large : valid_platform pf -> provides pf L ->
  Forall (fun ch => is_scalar ch = true) characters -> Forall (fun ch => is_scalar ch = true) large ->
  forall m n no_prefix last, sim pf L m [] (held_scaled_rank pf formal rank scales characters large n no_prefix last) (format_scaled_rank (target pf) formal rank scales characters large n no_prefix last)
     flag_owned (flag_related (target pf)) (flag_big (target pf) (N.succ L)).
Proof. intros Hp Hprov Ht Hl. exact (next_sim pf L formal (S rank) scales characters large Hp Hprov Ht Hl). Qed.

Lemma scale_sim pf L T formal sc characters large n m : valid_platform pf -> provides pf L ->
  Forall (fun ch => is_scalar ch = true) characters -> Forall (fun ch => is_scalar ch = true) large ->
  sim pf L m [] (held_scale pf T formal sc characters large n) (format_scale (target pf) T formal sc characters large n)
    result_owned (result_related (target pf)) (result_big (target pf) (N.succ L)).
Proof.
  intros Hp Hprov Ht Hl.
  assert (forall scales, sim pf L m [] (held_scaled pf T formal scales characters large n) (format_scaled (target pf) T formal scales characters large n)
    result_owned (result_related (target pf)) (result_big (target pf) (N.succ L))) as H.
  { intros scales. unfold held_scaled, format_scaled. eapply sim_bind; [apply (rank_sim pf L formal 10 (map (try_from (target pf) T) scales) characters large Hp Hprov Ht Hl)| |].
    - intros m1 a b _ [H _]. apply sim_done; [reflexivity|exact H].
    - intros b x Hb [= <-]. exact Hb. }
  destruct sc; cbn [held_scale format_scale]; [apply short_rank_sim; assumption|apply H..].
Qed.

Lemma chinese_sim pf L T formal characters large n sc : valid_platform pf -> provides pf L ->
  Forall (fun ch => is_scalar ch = true) characters -> Forall (fun ch => is_scalar ch = true) large ->
  simulates pf L (held_chinese pf T formal characters large n sc) (format_chinese (target pf) T formal characters large n sc).
Proof.
  intros Hp Hprov Ht Hl m. unfold held_chinese, format_chinese. destruct (is_zero n).
  - apply bare_sim. intros ch Ech. eapply sim_bind; [apply from_char_sim; [exact Hp|exact Hprov|eapply char_at_scalar; [exact Ht|eassumption]]| |].
    + intros m1 v s _ Hr. apply sim_done; [unfold result_owned, owned_by; cbn [flat_map]; symmetry; apply app_nil_r|exact Hr].
    + intros s x Hb [= <-]. exact Hb.
  - cbn zeta.
    assert (sim pf L m [] (r <~ held_chinese_inner pf formal characters n true false ;; match fst r with Ok s => done (Ok s) | Err OutOfMemoryError => done (Err (OutOfMemory n)) end)
      (r <- format_chinese_inner (target pf) formal characters n true false ;; match fst r with Ok s => Ret (Ok s) | Err OutOfMemoryError => Ret (Err (OutOfMemory n)) end)
      result_owned (result_related (target pf)) (result_big (target pf) (N.succ L))) as Hinner.
    { eapply sim_bind; [apply inner_sim; assumption| |].
      - intros m1 [[v|[]] flag] [[s|[]] flag'] _ [Hres _]; try contradiction; apply sim_done; try reflexivity. exact Hres.
      - intros [[s|[]] flag] x Hb [= <-]; [exact Hb|exact I]. }
    destruct (try_from _ _ _) as [tt0|]; [|exact Hinner]. destruct (tt0 <=? n); [|exact Hinner].
    eapply sim_bind; [apply scale_sim; assumption| |].
    + intros m1 [v|e] [s|e'] _ Hrel; cbn [result_related] in Hrel; try contradiction; [apply sim_done; [reflexivity|exact Hrel]|]. subst e'. destruct e; apply sim_done; reflexivity.
    + intros [s|[|]] x Hb [= <-]; [exact Hb|exact I..].
Qed.
