(** * PropertiesFormatCalls: C104, the allocator calls of formatters *)

From Coq Require Import String.
From Verif Require Import Prelude Utf8Facts StringFacts NominalString Spec History Outcome DigitSets AdditiveSets ScriptFacts
  Digital Additive Enumerated Ethiopic Hebrew Chinese ChineseFacts PropertiesChinese PropertiesSystem Live PropertiesUser Cases
  HeapMemory HeapFormat PropertiesHeap PropertiesAllocation HeapFormatFacts HeapFormatSim HeapFormatErrors PropertiesHeapFormat
  HeapLive PropertiesHeapLive.

(** The calls made for one string that is pushed to: none up to 62 bytes, then a
    block of just the size needed, then a larger one each time the bytes do not
    fit. The last two numbers are the size of the block and the bytes in it. *)
Inductive growth (grow : N -> N -> N) : list call -> N -> N -> Prop :=
| growth_start n : 62 < n -> growth grow [Allocate n] n n
| growth_within cs cap n k : growth grow cs cap n -> n + k <= cap -> growth grow cs cap (n + k)
| growth_beyond cs cap n k : growth grow cs cap n -> cap < n + k ->
    growth grow (cs ++ [Reallocate cap (grow cap (n + k))]) (grow cap (n + k)) (n + k).

Definition grown (pf : platform) (v : held) (cs : list call) : Prop :=
  match v with
  | HInline _ => cs = []
  | HHeap s => growth (grow pf) cs (capacity s) (len s)
  end.

(** The same, and at last the block is given back. *)
Definition given_back (pf : platform) (cs : list call) : Prop :=
  cs = [] \/ exists cs' cap n, growth (grow pf) cs' cap n /\ cs = cs' ++ [Deallocate cap].

Definition unfinished (pf : platform) (cs : list call) : Prop :=
  cs = [] \/ exists cap n, growth (grow pf) cs cap n.

(** What a formatter with one string adds to the calls of [m]. *)
Definition one_string_calls (pf : platform) (m : memory) (r : status (result held error)) : Prop :=
  match r with
  | Done m' (Ok v) => exists cs, calls m' = calls m ++ cs /\ grown pf v cs
  | Done m' (Err _) => exists cs, calls m' = calls m ++ cs /\ given_back pf cs
  | Stopped m' Endless => exists cs, calls m' = calls m ++ cs /\ unfinished pf cs
  | Stopped m' _ => exists cs, calls m' = calls m ++ cs /\ given_back pf cs
  | Undefined => True
  end.

(** ** Proofs *)

Lemma growth_bounds pf cs cap n : valid_platform pf -> growth (grow pf) cs cap n -> 62 < n <= cap.
Proof.
  intros (_ & _ & Hg). induction 1 as [k Hk|cs cap n k H IH Hle|cs cap n k H IH Hlt]; [lia|lia|]. specialize (Hg cap (n + k)). lia.
Qed.

Definition shape (pf : platform) (base : list call) (v : held) (m : memory) : Prop :=
  PropertiesAllocation.sound (target pf) (ANominal v) /\ exists cs, calls m = base ++ cs /\ grown pf v cs.

Definition over (pf : platform) (base : list call) (m : memory) : Prop := exists cs, calls m = base ++ cs /\ given_back pf cs.

Definition ended (pf : platform) (base : list call) (why : stop) (m : memory) : Prop :=
  match why with
  | Endless => exists cs, calls m = base ++ cs /\ unfinished pf cs
  | _ => over pf base m
  end.

Definition triple {A} (P : memory -> Prop) (f : action A) (Q : A -> memory -> Prop) (E : stop -> memory -> Prop) : Prop := forall m, P m ->
  match f m with
  | Done m' a => Q a m'
  | Stopped m' why => E why m'
  | Undefined => True
  end.

Lemma t_done {A} (P : memory -> Prop) (a : A) (Q : A -> memory -> Prop) E : (forall m, P m -> Q a m) -> triple P (done a) Q E.
Proof. intros H m Hm. apply H, Hm. Qed.

Lemma t_bind {A B} P (f : action A) (k : A -> action B) Q Q' E :
  triple P f Q E -> (forall a, triple (Q a) (k a) Q' E) -> triple P (and_then f k) Q' E.
Proof.
  intros Hf Hk m Hm. specialize (Hf m Hm). unfold and_then. destruct (f m) as [m1 a|m1 why|]; [apply (Hk a m1 Hf)|exact Hf|exact I].
Qed.

Lemma t_loop {S R} c (body : S -> action (loop_step S R)) (J : S -> memory -> Prop) Q (E : stop -> memory -> Prop) :
  (forall s, triple (J s) (body s) (fun r m => match r with Continue s' => J s' m | Break b => Q b m end) E) ->
  (forall s m, J s m -> E Endless m) ->
  forall s, triple (J s) (loop_action c body s) Q E.
Proof.
  intros Hb He s. unfold loop_action. eapply t_bind with (Q := fun r m => match r with Continue s' => J s' m | Break b => Q b m end).
  - revert s. induction (loop_depth c) as [|d IH]; intros s; cbn [repeat_action]; [apply Hb|].
    eapply t_bind; [apply IH|]. intros [s'|b]; [apply IH|apply t_done; auto].
  - intros [s'|b]; [intros m Hm; exact (He s' m Hm)|apply t_done; auto].
Qed.

(** *** Dropping and unwinding *)

Lemma drop_calls pf base v m : valid_platform pf -> shape pf base v m ->
  match held_drop v m with Done m' _ => over pf base m' | Stopped _ _ => False | Undefined => True end.
Proof.
  intros Hp [_ (cs & Hc & Hg)]. pose proof (asks_value_drop pf (ANominal v) m) as H. cbn [value_drop] in H.
  destruct (held_drop v m) as [m' u|m' why|]; [|destruct H; discriminate|exact I]. destruct H as (_ & H & _). cbn [made app] in H.
  destruct v as [i|s]; cbn [slot_of given_up grown] in *.
  - subst cs. exists []. rewrite H, Hc, !app_nil_r. split; [reflexivity|left; reflexivity].
  - pose proof (growth_bounds pf _ _ _ Hp Hg). destruct (N.eqb_spec (capacity s) 0); [lia|]. exists (cs ++ [Deallocate (capacity s)]).
    rewrite H, Hc, app_assoc. split; [reflexivity|]. right. exists cs, (capacity s), (len s). auto.
Qed.

Lemma t_drop {A} pf base v (k : action A) Q : valid_platform pf -> triple (over pf base) k Q (ended pf base) ->
  triple (shape pf base v) (_ <~ held_drop v ;; k) Q (ended pf base).
Proof.
  intros Hp Hk m Hm. pose proof (drop_calls pf base v m Hp Hm) as H. unfold and_then. destruct (held_drop v m) as [m' u|m' why|]; [apply Hk, H|contradiction|exact I].
Qed.

Lemma shape_unfinished pf base v m : shape pf base v m -> exists cs, calls m = base ++ cs /\ unfinished pf cs.
Proof. intros [_ (cs & Hc & Hg)]. exists cs. split; [exact Hc|]. destruct v; cbn [grown] in Hg; [left; exact Hg|right; eauto]. Qed.

Lemma t_unwinding {A} pf base v (f : action A) P Q : valid_platform pf -> triple P f Q (fun _ => shape pf base v) ->
  triple P (unwinding [v] f) Q (ended pf base).
Proof.
  intros Hp Hf m Hm. specialize (Hf m Hm). unfold unwinding. destruct (f m) as [m1 a|m1 why|]; [exact Hf| |exact I].
  assert (forall why, why <> Endless -> match (_ <~ drop_all [v] ;; stopped why) m1 with Done m' a => Q a m' | Stopped m' w => ended pf base w m' | Undefined => True end) as Hd.
  { intros w Hw. pose proof (drop_calls pf base v m1 Hp Hf) as H. unfold and_then, drop_all. unfold and_then. destruct (held_drop v m1) as [m' u|m' why'|]; cbn; [|contradiction|exact I].
    destruct w; cbn [ended]; try exact H. contradiction. }
  destruct why; try (apply Hd; discriminate). cbn [ended]. apply (shape_unfinished pf base v), Hf.
Qed.

Lemma t_pure {A} (o : outcome A) (P : memory -> Prop) : triple P (pure o) (fun _ => P) (fun _ => P).
Proof. intros m Hm. destruct o; cbn; try exact Hm. exact I. Qed.

Lemma t_holding {A B} pf base v (o : outcome A) (k : A -> action B) Q : valid_platform pf ->
  (forall a, o = Ret a -> triple (shape pf base v) (k a) Q (ended pf base)) -> triple (shape pf base v) (and_then (holding [v] o) k) Q (ended pf base).
Proof.
  intros Hp Hk. unfold holding. destruct o as [a| | |]; [intros m Hm; exact (Hk a eq_refl m Hm)| | |intros m Hm; exact I];
    (eapply t_bind; [apply (t_unwinding pf base v _ _ (fun _ _ => False) Hp); intros m Hm; exact Hm|intros a m []]).
Qed.

Definition untouched (base : list call) (m : memory) : Prop := calls m = base.

Lemma untouched_over pf base m : untouched base m -> over pf base m.
Proof. intros H. exists []. rewrite app_nil_r. split; [exact H|left; reflexivity]. Qed.

Lemma t_bare {A B} pf base (o : outcome A) (k : A -> action B) Q :
  (forall a, o = Ret a -> triple (untouched base) (k a) Q (ended pf base)) -> triple (untouched base) (and_then (holding [] o) k) Q (ended pf base).
Proof.
  intros Hk m Hm. destruct o as [a| | |]; [exact (Hk a eq_refl m Hm)|apply untouched_over, Hm| |exact I].
  cbn. exists []. rewrite app_nil_r. split; [exact Hm|left; reflexivity].
Qed.

Lemma t_is_empty {B} pf base v (k : bool -> action B) Q : valid_platform pf ->
  (forall a, triple (shape pf base v) (k a) Q (ended pf base)) -> triple (shape pf base v) (and_then (unwinding [v] (held_is_empty v)) k) Q (ended pf base).
Proof.
  intros Hp Hk. eapply t_bind; [|exact Hk]. apply (t_unwinding pf base v); [exact Hp|]. unfold held_is_empty.
  eapply t_bind with (Q := fun _ => shape pf base v); [|intros a; apply t_done; auto].
  intros m Hm. pose proof Hm as [Hs (cs & Hc & Hg)]. unfold held_str. destruct v as [i|s]; [apply (t_pure (inline_as_str i) (shape pf base (HInline i))), Hm|].
  pose proof (asks_string_str pf s m) as H. destruct (string_str s m) as [m' a|m' why|]; [|destruct H; discriminate|exact I].
  destruct H as (_ & H & _). cbn [made app] in H. rewrite app_nil_r in H. split; [exact Hs|]. exists cs. split; [congruence|exact Hg].
Qed.

(** *** Pushing *)

Lemma push_str_no_error pf v bs : no_error (held_push_str pf v bs).
Proof.
  unfold held_push_str. destruct v as [i|s].
  - cbn zeta. destruct (_ && _); repeat (apply no_error_then; intros ?); intros m; exact I.
  - apply no_error_then. intros a m. exact I.
Qed.

Lemma push_front_no_error pf v ch : no_error (held_push_front pf v ch).
Proof.
  unfold held_push_front. destruct v as [i|s].
  - apply no_error_then. intros a. cbn zeta. apply no_error_then. intros n. destruct (n <=? INLINE_CAPACITY); repeat (apply no_error_then; intros ?); intros m; exact I.
  - apply no_error_then. intros a m. exact I.
Qed.

(** What stays in the struct is well formed. *)
Lemma change_inline pf i o m m' i' : valid_platform pf -> PropertiesAllocation.sound (target pf) (ANominal (HInline i)) -> valid_op o ->
  change pf (HInline i) o m = Done m' (HInline i') -> PropertiesAllocation.sound (target pf) (ANominal (HInline i')).
Proof.
  intros (Hc & Ha & _) (t & Hg & H62) Ho E. cbn [PropertiesAllocation.sound]. destruct (inline_facts _ _ _ Hg) as (Es & El & Hv).
  destruct (inline_step _ _ _ o Ha Hg Ho) as (s' & Est & Hg' & Hi).
  assert (inline_len i <= 62) as Hle by (unfold at_most_62 in H62; apply Nat.leb_le in H62; lia).
  enough (s' = Inline i') as -> by (exists (op_text t o); split; [exact Hg'|]; cbn [is_inline] in Hi; destruct o; cbn [is_edit orb] in Hi; try (symmetry; exact Hi);
    cbn [op_text]; unfold at_most_62 in *; rewrite (proj2 (Ho t Hv)); exact H62).
  destruct o as [ch|bs|ch|f]; cbn [change step] in *.
  - unfold held_push in E. unfold try_push in Est. rewrite char_len_ok in *. cbn [obind pure] in *.
    assert (len_utf8 ch <= 4) as H4 by (pose proof (len_utf8_bounds ch); lia). rewrite (uadd_8 _ _ _ Hle H4) in Est. cbn [obind] in Est.
    cbv beta iota zeta delta [and_then done pure] in E. rewrite (uadd_8 _ _ _ Hle H4) in E. unfold INLINE_CAPACITY in *.
    destruct (inline_len i + len_utf8 ch <=? 62).
    + destruct (inline_push i ch _ _ _) as [j| | |]; cbn [obind] in Est; try discriminate. cbn in E. injection E as _ <-. injection Est as <-. reflexivity.
    + repeat match type of E with match (match ?x with _ => _ end) with _ => _ end = _ => destruct x; try discriminate E | match ?x with _ => _ end = _ => destruct x; try discriminate E end.
  - unfold held_push_str in E. unfold try_push_str in Est. cbv zeta in *. unfold INLINE_CAPACITY in *.
    destruct (N.of_nat (length bs) <? 256), (inline_len i + N.of_nat (length bs) <? 256), (inline_len i + N.of_nat (length bs) <=? 62); cbn [andb] in E.
    1:{ destruct (inline_push_str i bs _) as [j| | |]; cbn [obind] in Est; try discriminate. cbv beta iota zeta delta [and_then done pure] in E. injection E as _ <-. injection Est as <-. reflexivity. }
    all: cbv beta iota zeta delta [and_then done pure] in E;
      repeat match type of E with match (match ?x with _ => _ end) with _ => _ end = _ => destruct x; try discriminate E | match ?x with _ => _ end = _ => destruct x; try discriminate E end.
  - unfold held_push_front in E. unfold try_push_front in Est. rewrite char_len_ok in *. cbn [obind pure] in *.
    assert (len_utf8 ch <= 4) as H4 by (pose proof (len_utf8_bounds ch); lia). rewrite (uadd_8 _ _ _ Hle H4) in Est. cbn [obind] in Est.
    cbv beta iota zeta delta [and_then done pure] in E. rewrite (uadd_8 _ _ _ Hle H4) in E. unfold INLINE_CAPACITY in *.
    destruct (inline_len i + len_utf8 ch <=? 62).
    + destruct (inline_push_front i ch _ _ _) as [j| | |]; cbn [obind] in Est; try discriminate. cbn in E. injection E as _ <-. injection Est as <-. reflexivity.
    + repeat match type of E with match (match ?x with _ => _ end) with _ => _ end = _ => destruct x; try discriminate E | match ?x with _ => _ end = _ => destruct x; try discriminate E end.
  - unfold held_edit in E. cbv beta iota zeta delta [and_then done pure] in E. destruct (edit_str (Inline i) f) as [s1| | |]; cbn [obind] in Est; try discriminate.
    injection Est as <-. destruct s1 as [j|]; [|discriminate]. injection E as _ <-. reflexivity.
Qed.

Lemma change_shape pf base v o : valid_platform pf -> valid_op o ->
  match o with PushStr bs => N.of_nat (length bs) <= isize_max (target pf) | _ => True end ->
  triple (shape pf base v) (change pf v o) (fun v' => shape pf base v') (fun _ => shape pf base v).
Proof.
  intros Hp Ho Hmax m [Hs (cs & Hc & Hg)]. pose proof (asks_change pf v o Hp Hs Ho Hmax m) as H.
  destruct (change pf v o m) as [m' v'|m' why|] eqn:E; [| |exact I].
  - destruct H as (_ & H & Hslot). rewrite app_nil_r in H. unfold change_effect in *.
    destruct v as [i|s]; cbn [slot_of size room grown] in *.
    + subst cs. rewrite app_nil_r in Hc. set (n := inline_len i + bytes_added o) in *. destruct (N.leb_spec n 62) as [Hn|Hn]; cbn [fst snd made] in *.
      * destruct v' as [i'|s']; [|discriminate]. split; [eapply change_inline; eassumption|]. exists []. split; [congruence|reflexivity].
      * destruct v' as [i'|s']; [discriminate|]. injection Hslot as H1 H2. split; [cbn; lia|]. exists [Allocate n]. split; [congruence|].
        cbn [grown]. rewrite H1, H2. apply growth_start, Hn.
    + destruct v' as [i'|s']; [discriminate|]. cbn [snd slot_of] in Hslot. injection Hslot as H1 H2. unfold more, then_room in *. cbn [fst] in H.
      pose proof (growth_bounds pf _ _ _ Hp Hg) as Hb. pose proof Hp as (_ & _ & Hgrow). specialize (Hgrow (capacity s) (len s + bytes_added o)).
      destruct (N.leb_spec (len s + bytes_added o) (capacity s)) as [Hn|Hn].
      * split; [cbn; lia|]. exists cs. split; [cbn [made] in H; rewrite app_nil_r in H; congruence|]. cbn [grown]. rewrite H1, H2. apply growth_within; assumption.
      * destruct (N.eqb_spec (capacity s) 0); [lia|]. split; [cbn; lia|]. eexists. split; [cbn [made] in H; rewrite H, Hc, <- app_assoc; reflexivity|].
        cbn [grown]. rewrite H1, H2. apply growth_beyond; assumption.
  - destruct H as [_ H]. split; [exact Hs|]. exists cs. split; [congruence|exact Hg].
Qed.

Lemma t_pushing {A} pf base v o (push : action (held * result unit out_of_memory)) err (k : held -> action A) Q : valid_platform pf -> valid_op o ->
  match o with PushStr bs => N.of_nat (length bs) <= isize_max (target pf) | _ => True end ->
  no_error push -> change pf v o = ('(v, _) <~ push ;; done v) ->
  (forall v', triple (shape pf base v') (k v') Q (ended pf base)) ->
  triple (shape pf base v) (pushing [] v push err k) Q (ended pf base).
Proof.
  intros Hp Ho Hmax Hn E Hk. unfold pushing. eapply t_bind with (Q := fun r m => shape pf base (fst r) m /\ snd r = Ok tt).
  - apply (t_unwinding pf base v); [exact Hp|]. intros m Hm. pose proof (change_shape pf base v o Hp Ho Hmax m Hm) as H. rewrite E in H.
    specialize (Hn m). unfold and_then in H. destruct (push m) as [m' [v' r]|m' why|]; [|exact H|exact I]. cbn in H |- *. destruct r as [[]|]; [auto|contradiction].
  - intros [v' r] m [Hm Hr]. cbn [fst snd] in Hm, Hr. subst r. apply Hk, Hm.
Qed.

Lemma t_push {A} pf base v ch err (k : held -> action A) Q : valid_platform pf -> is_scalar ch = true ->
  (forall v', triple (shape pf base v') (k v') Q (ended pf base)) -> triple (shape pf base v) (pushing [] v (held_push pf v ch) err k) Q (ended pf base).
Proof. intros Hp Hch. apply (t_pushing pf base v (Push ch)); auto. apply push_no_error. Qed.

Lemma t_push_front {A} pf base v ch err (k : held -> action A) Q : valid_platform pf -> is_scalar ch = true ->
  (forall v', triple (shape pf base v') (k v') Q (ended pf base)) -> triple (shape pf base v) (pushing [] v (held_push_front pf v ch) err k) Q (ended pf base).
Proof. intros Hp Hch. apply (t_pushing pf base v (PushFront ch)); auto. apply push_front_no_error. Qed.

Lemma t_push_str {A} pf base v bs err (k : held -> action A) Q : valid_platform pf -> valid_utf8 bs = true -> N.of_nat (length bs) <= isize_max (target pf) ->
  (forall v', triple (shape pf base v') (k v') Q (ended pf base)) -> triple (shape pf base v) (pushing [] v (held_push_str pf v bs) err k) Q (ended pf base).
Proof. intros Hp Hv Hl. apply (t_pushing pf base v (PushStr bs)); auto. apply push_str_no_error. Qed.

(** *** The formatters *)

Definition leaves (pf : platform) (base : list call) (r : result held error) (m : memory) : Prop :=
  match r with
  | Ok v => shape pf base v m
  | Err _ => over pf base m
  end.

Lemma empty_shape pf base v m : v = empty_forward \/ v = empty_reverse -> untouched base m -> shape pf base v m.
Proof.
  intros Hv Hm. split.
  - destruct Hv as [-> | ->]; cbn [PropertiesAllocation.sound empty_forward empty_reverse]; exists []; (split; [|reflexivity]);
      [apply (good_reads _ new []), new_rep|apply (good_reads _ new_reverse []), new_reverse_rep].
  - exists []. rewrite app_nil_r. split; [exact Hm|destruct Hv as [-> | ->]; reflexivity].
Qed.

Lemma t_weaken {A} (P P' : memory -> Prop) (f : action A) Q E : triple P f Q E -> (forall m, P' m -> P m) -> triple P' f Q E.
Proof. intros H Hp m Hm. apply H, Hp, Hm. Qed.

Lemma shape_ended pf base v m : shape pf base v m -> ended pf base Endless m.
Proof. apply shape_unfinished. Qed.

(** One character, or a symbol. *)
Lemma t_from_char pf base ch : valid_platform pf -> is_scalar ch = true ->
  triple (untouched base) (s <~ held_from_char pf ch ;; done (Ok s)) (leaves pf base) (ended pf base).
Proof.
  intros Hp Hch. eapply t_bind with (Q := fun v => shape pf base v); [|intros v; apply t_done; auto].
  intros m Hm. unfold held_from_char. pose proof (push_no_error pf empty_forward ch m) as Hn. unfold empty_forward in Hn.
  pose proof (change_shape pf base empty_forward (Push ch) Hp Hch I m (empty_shape pf base _ m (or_introl eq_refl) Hm)) as H.
  cbn [change] in H. unfold empty_forward, and_then in *.
  destruct (held_push pf _ ch m) as [m' [v [u|e]]|m' why|]; [exact H|contradiction| |exact I].
  cbn in H. destruct H as [_ (cs & Hc & Hg)]. cbn [grown] in Hg. subst cs. assert (untouched base m') as Hu by (unfold untouched; rewrite Hc; apply app_nil_r).
  destruct why; try apply untouched_over, Hu. exists []. split; [exact Hc|]. apply or_introl. reflexivity.
Qed.

Lemma t_from_str pf base bs : valid_platform pf -> valid_utf8 bs = true ->
  triple (untouched base) (s <~ held_from_str pf bs ;; done (Ok s)) (leaves pf base) (ended pf base).
Proof.
  intros Hp Hv. eapply t_bind with (Q := fun v => shape pf base v); [|intros v; apply t_done; auto].
  intros m Hm. unfold held_from_str. cbv zeta. unfold INLINE_CAPACITY. destruct (_ && _) eqn:Eb.
  - apply andb_prop in Eb as [H1 H2]. 
    assert (valid_constructor (target pf) (FromStr bs)) as Hk by exact Hv.
    pose proof (construct_spec (target pf) (FromStr bs) Hk) as H. destruct Hp as (_ & Ha & _). cbn [constructor_fits] in H. rewrite Ha in H. cbn [orb construct constructor_text] in H.
    destruct H as (s & E & Hgood & _). unfold from_str in E. cbn zeta in E. unfold INLINE_CAPACITY in E. rewrite H1, H2 in E.
    destruct (write_zip uninit_cells 0 (length bs) bs) as [cs| | |]; cbn [obind] in E; try discriminate. injection E as <-. cbn.
    split; [|exists []; rewrite app_nil_r; split; [exact Hm|reflexivity]]. cbn [PropertiesAllocation.sound]. exists bs. split; [exact Hgood|].
    unfold at_most_62. apply N.leb_le in H2. apply Nat.leb_le. lia.
  - pose proof (asks_string_from pf bs Hp m) as H. unfold and_then. destruct (string_from pf bs m) as [m' s|m' why|]; [| |exact I].
    + destruct H as (_ & H & H1 & H2). cbn. assert (62 < N.of_nat (length bs)) as Hl.
      { destruct (N.ltb_spec (N.of_nat (length bs)) 256); destruct (N.leb_spec (N.of_nat (length bs)) 62); cbn in Eb; try discriminate; lia. }
      unfold fresh in H. destruct (N.eqb_spec (N.of_nat (length bs)) 0); [lia|]. split; [cbn; lia|]. exists [Allocate (N.of_nat (length bs))].
      split; [unfold untouched in Hm; rewrite H, Hm; reflexivity|]. cbn [grown]. rewrite H1, H2. apply growth_start, Hl.
    + destruct H as [_ H]. assert (untouched base m') as Hu by (unfold untouched in *; congruence).
      destruct why; try apply untouched_over, Hu. exists []. rewrite app_nil_r. split; [exact Hu|]. apply or_introl. reflexivity.
Qed.

(** Only characters are digits. *)
CoInductive char_digits : live_collection -> Prop :=
| char_digits_intro d : (forall i self ch self', live_digit d i self = Ret (ch, self') -> is_scalar ch = true) ->
    char_digits (live_fallback d) -> char_digits d.

Lemma safe_char_digits d : safe_code d -> char_digits d.
Proof. revert d. cofix H. intros d Hd. apply safe_parts in Hd as [H1 H2]. constructor; [exact H1|apply H, H2]. Qed.

Lemma typed_char_digits d : digits_typed d -> char_digits (still d).
Proof.
  revert d. cofix H. intros d Hd. constructor.
  - intros i self ch self' E. cbn [still live_digit] in E. destruct (dc_digit d i) as [x| | |] eqn:Ex; try discriminate. injection E as <- _. apply (Hd 0%nat i x Ex).
  - apply H. apply digits_typed_fallback, Hd.
Qed.

Lemma live_body_calls pf base T d n st : valid_platform pf -> char_digits d ->
  triple (shape pf base (hl_formatted st)) (held_live_body pf T d n st)
    (fun r m => match r with Continue st' => shape pf base (hl_formatted st') m | Break b => leaves pf base b m end) (ended pf base).
Proof.
  intros Hp Hd. destruct Hd as [d Hd _]. unfold held_live_body. cbv zeta. destruct (_ || _); [|apply t_done; auto].
  apply t_holding; [exact Hp|]. intros [has_zero self] _. apply t_holding; [exact Hp|]. intros [subtract self1] _.
  apply t_holding; [exact Hp|]. intros [no_zero self2] _. destruct no_zero; [apply t_drop; [exact Hp|apply t_done; auto]|].
  apply t_holding; [exact Hp|]. intros remaining _. apply t_holding; [exact Hp|]. intros r _. apply t_holding; [exact Hp|]. intros [ch self3] Ech.
  apply t_push_front; [exact Hp|exact (Hd _ _ _ _ Ech)|]. intros v. apply t_holding; [exact Hp|]. intros remaining' _.
  apply t_holding; [exact Hp|]. intros [len self4] _. destruct (try_from _ T len); [apply t_done; auto|]. apply t_drop; [exact Hp|apply t_done; auto].
Qed.

Lemma live_calls pf base T n : valid_platform pf -> forall depth d, char_digits d ->
  triple (untouched base) (held_live depth pf T d n) (leaves pf base) (ended pf base).
Proof.
  intros Hp. assert (forall A Q, triple (untouched base) (@stopped A Endless) Q (ended pf base)) as Hend.
  { intros A Q m Hm. cbn. exists []. rewrite app_nil_r. split; [exact Hm|]. apply or_introl. reflexivity. }
  induction depth as [|depth IH]; intros d Hd; [apply Hend|]. cbn [held_live].
  apply t_bare. intros [len self] _. destruct (try_from _ T len) as [count|].
  - apply t_bare. intros [fixed self1] _. apply t_bare. intros [beyond self2] _. destruct beyond.
    + apply t_bare. intros [empty start] _. destruct empty; [apply t_done; intros m Hm; apply untouched_over, Hm|].
      apply IH. destruct Hd as [d _ Hfb]. destruct Hfb as [fb H1 H2]. constructor; [exact H1|exact H2].
    + eapply t_weaken; [apply (t_loop _ _ (fun st => shape pf base (hl_formatted st)))|].
      * intros st. apply live_body_calls; assumption.
      * intros st m. apply shape_ended.
      * intros m Hm. apply empty_shape; auto.
  - apply t_bare. intros [ch self1] Ech. apply t_from_char; [exact Hp|]. destruct Hd as [d Hd _]. exact (Hd _ _ _ _ Ech).
Qed.

Lemma additive_for_calls pf base T n symbols : valid_platform pf -> symbols_typed (target pf) (map fst symbols) -> forall remaining v,
  triple (shape pf base v) (held_additive_for pf T n symbols remaining v) (leaves pf base) (ended pf base).
Proof.
  intros Hp. induction symbols as [|[symbol value] rest IH]; intros Ht remaining v; cbn [held_additive_for]; [apply t_done; auto|].
  inversion Ht as [|x l [Hv Hl] Ht' E]; subst x l. cbn [fst] in *.
  destruct (value =? 0); [apply t_done; auto|]. destruct (try_from _ T value) as [value'|]; [|apply IH, Ht'].
  apply t_bind with (Q := fun r m => match r with Ok rv => shape pf base (snd rv) m | Err _ => over pf base m end).
  - apply (t_loop _ _ (fun st => shape pf base (snd st))) with (s := (remaining, v)); [|intros st m; apply shape_ended].
    intros [rem formatted]. cbn [held_additive_body snd]. destruct (value' <=? rem); [|apply t_done; auto].
    apply t_holding; [exact Hp|]. intros rem' _. apply t_push_str; [exact Hp|exact Hv|exact Hl|]. intros v'. apply t_done. auto.
  - intros [[rem v']|e]; [apply IH, Ht'|apply t_done; auto].
Qed.

Lemma additive_calls pf base T set n : valid_platform pf -> symbols_typed (target pf) (map fst (as_symbols set)) ->
  (forall zero, as_zero set = Some zero -> valid_utf8 zero = true) ->
  triple (untouched base) (held_additive pf T set n) (leaves pf base) (ended pf base).
Proof.
  intros Hp Ht Hz. unfold held_additive. destruct (is_zero n).
  - destruct (as_zero set) as [zero|]; [apply t_from_str; auto|apply t_done; intros m Hm; apply untouched_over, Hm].
  - eapply t_weaken; [apply additive_for_calls; assumption|]. intros m Hm. apply empty_shape; auto.
Qed.

Lemma enumerated_calls pf base T set n : valid_platform pf -> Forall (fun symbol => valid_utf8 symbol = true) (es_symbols set) ->
  triple (untouched base) (held_enumerated pf T set n) (leaves pf base) (ended pf base).
Proof.
  intros Hp Hs. unfold held_enumerated. cbv zeta. assert (forall e, triple (untouched base) (done (Err e)) (leaves pf base) (ended pf base)) as He.
  { intros e. apply t_done. intros m Hm. apply untouched_over, Hm. }
  destruct (try_from _ _ n) as [i|]; [|apply He]. destruct (_ && _); [apply He|]. apply t_bare. intros index _.
  destruct (lookup (es_symbols set) index) as [symbol|] eqn:El; [|apply He]. apply t_from_str; [exact Hp|].
  unfold lookup in El. destruct (_ <? _); [|discriminate]. rewrite Forall_forall in Hs. apply Hs. eapply nth_error_In, El.
Qed.

Definition ethiopic_left (pf : platform) (base : list call) (r : result held out_of_memory) (m : memory) : Prop :=
  match r with
  | Ok v => shape pf base v m
  | Err _ => over pf base m
  end.

Lemma push_front_if_calls {A} pf base cond v ch (k : held -> action (loop_step A (result held out_of_memory))) Q : valid_platform pf ->
  (forall x, ch = Ret x -> is_scalar x = true) -> (forall v', triple (shape pf base v') (k v') Q (ended pf base)) ->
  triple (shape pf base v) (held_push_front_if pf cond v ch k) Q (ended pf base).
Proof.
  intros Hp Hch Hk. unfold held_push_front_if. destruct cond; [|apply Hk]. apply t_holding; [exact Hp|]. intros x Ex.
  apply t_push_front; [exact Hp|exact (Hch x Ex)|exact Hk].
Qed.

Lemma ethiopic_calls pf base T n : valid_platform pf -> triple (untouched base) (held_ethiopic pf T n) (leaves pf base) (ended pf base).
Proof.
  intros Hp. unfold held_ethiopic. destruct (is_zero n); [apply t_done; intros m Hm; apply untouched_over, Hm|].
  apply t_bind with (Q := ethiopic_left pf base).
  - eapply t_weaken; [apply (t_loop _ _ (fun st => shape pf base (snd st))) with (s := (0, n, empty_reverse)); [|intros st m; apply shape_ended]|].
    + intros [[g r] v]. unfold held_ethiopic_body. cbv zeta. cbn [snd]. destruct (is_zero r); [apply t_done; auto|].
      repeat (apply push_front_if_calls; [exact Hp| |intros ?v']).
      * intros x [= <-]. reflexivity.
      * intros x [= <-]. reflexivity.
      * intros x E. refine (lookup_scalar ONES _ x _ E). apply scalars_all. reflexivity.
      * intros x E. refine (lookup_scalar TENS _ x _ E). apply scalars_all. reflexivity.
      * apply t_done. auto.
    + intros m Hm. apply empty_shape; auto.
  - intros [v|[]]; apply t_done; auto.
Qed.

Definition hebrew_left (pf : platform) (base : list call) (r : held_hebrew_exit) (m : memory) : Prop :=
  match r with
  | HNextSymbol _ v | HLeaveSymbolLoop v => shape pf base v m
  | HReturnErr _ => over pf base m
  end.

Lemma hebrew_for_calls pf base T n symbols : valid_platform pf -> Forall (fun sv => is_scalar (fst sv) = true) symbols -> forall remaining v,
  triple (shape pf base v) (held_hebrew_for pf T n symbols remaining v) (leaves pf base) (ended pf base).
Proof.
  intros Hp. pose proof (isize_max_large _ (proj1 Hp)) as Hmax.
  induction symbols as [|[symbol value] rest IH]; intros Ht remaining v; cbn [held_hebrew_for]; [apply t_done; auto|].
  inversion Ht as [|x l Hs Ht' E]; subst x l. cbn [fst] in Hs.
  destruct (try_from _ T value) as [value'|]; [|apply IH, Ht'].
  apply t_bind with (Q := hebrew_left pf base).
  - apply (t_loop _ _ (fun st => shape pf base (snd st))) with (s := (remaining, v)); [|intros st m; apply shape_ended].
    intros [rem f]. unfold held_hebrew_body. cbv zeta. cbn [snd]. destruct (value' <=? rem); [|apply t_done; auto].
    destruct (rem =? 15); [apply t_push_str; [exact Hp|reflexivity|cbn [length bytes]; vm_compute (N.of_nat _); lia|intros v'; apply t_done; auto]|].
    destruct (rem =? 16); [apply t_push_str; [exact Hp|reflexivity|vm_compute (N.of_nat _); lia|intros v'; apply t_done; auto]|].
    apply t_is_empty; [exact Hp|]. intros empty. destruct (_ && _).
    + apply t_push; [exact Hp|reflexivity|]. intros v1. apply t_holding; [exact Hp|]. intros rem' _. apply t_push; [exact Hp|exact Hs|]. intros v2.
      apply t_push; [exact Hp|reflexivity|]. intros v3. apply t_done. auto.
    + apply t_holding; [exact Hp|]. intros rem' _. apply t_push; [exact Hp|exact Hs|]. intros v2. apply t_done. auto.
  - intros [rem v'|v'|e]; [apply IH, Ht'|apply t_done; auto|apply t_done; auto].
Qed.

Lemma hebrew_calls pf base T n : valid_platform pf -> triple (untouched base) (held_hebrew pf T n) (leaves pf base) (ended pf base).
Proof.
  intros Hp. unfold held_hebrew. destruct (is_zero n); [apply t_done; intros m Hm; apply untouched_over, Hm|].
  eapply t_weaken; [apply hebrew_for_calls; [exact Hp|]|intros m Hm; apply empty_shape; auto].
  apply Forall_forall. apply (proj1 (forallb_forall (fun sv => is_scalar (fst sv)) hebrew_symbols)). reflexivity.
Qed.

Lemma triple_calls pf (f : action (result held error)) m : triple (untouched (calls m)) f (leaves pf (calls m)) (ended pf (calls m)) ->
  one_string_calls pf m (f m).
Proof.
  intros H. specialize (H m eq_refl). destruct (f m) as [m' [v|e]|m' why|]; [apply H|exact H|destruct why; exact H|exact I].
Qed.

(** *** Chinese: several strings *)

(** Calls a string may have cost, [r] of the formatters that copy it included. *)
Definition cost (r : N) (v : held) : N :=
  match v with
  | HInline _ => 0
  | HHeap s => len s - 62 + 2 * r
  end.

Definition sized (c : config) (v : held) : Prop :=
  PropertiesAllocation.sound c (ANominal v) /\
  match v with HInline _ => True | HHeap s => 62 < len s /\ capacity s <= isize_max c end.

(** At most [x] calls were made. *)
Definition paid (x : N) (m : memory) : Prop := N.of_nat (length (calls m)) <= x.

Definition anyway (why : stop) (m : memory) : Prop := True.

Lemma t_anyway {A} P (f : action A) Q E : triple P f Q E -> triple P f Q anyway.
Proof. intros H m Hm. specialize (H m Hm). destruct (f m); [exact H|exact I|exact I]. Qed.

Lemma sized_size c v : sized c v -> match v with HInline i => inline_len i <= 62 | HHeap s => 62 < len s <= isize_max c end.
Proof.
  intros [Hs H]. destruct v as [i|s]; cbn [PropertiesAllocation.sound] in Hs.
  - destruct Hs as (t & Hg & H62). destruct (inline_facts _ _ _ Hg) as (_ & -> & _). unfold at_most_62 in H62. apply Nat.leb_le in H62. lia.
  - lia.
Qed.

(** A push: at most one call. *)
Lemma push_paid pf x v o : valid_platform pf -> valid_op o ->
  match o with PushStr bs => N.of_nat (length bs) <= isize_max (target pf) | _ => True end -> sized (target pf) v ->
  triple (paid x) (change pf v o) (fun v' m => sized (target pf) v' /\
    let n := size (slot_of (ANominal v)) + bytes_added o in
    size (slot_of (ANominal v')) = n /\
    match v, v' with
    | HInline _, HInline _ => paid x m
    | HInline _, HHeap _ => paid (x + 1) m
    | HHeap _, HHeap _ => if bytes_added o =? 0 then paid x m else paid (x + 1) m
    | HHeap _, HInline _ => False
    end) anyway.
Proof.
  intros Hp Ho Hmax [Hs Hv] m Hm. pose proof (asks_change pf v o Hp Hs Ho Hmax m) as H. unfold paid in *.
  destruct (change pf v o m) as [m' v'|m' why|] eqn:E; [|exact I|exact I]. destruct H as (Ha & H & Hslot). rewrite app_nil_r in H.
  unfold change_effect in *. cbv zeta. rewrite H, app_length. pose proof Hp as (_ & _ & Hgrow). destruct v as [i|s]; cbn [slot_of size room] in *.
  - destruct (N.leb_spec (inline_len i + bytes_added o) 62) as [Hn|Hn]; cbn [fst snd made length] in *.
    + destruct v' as [i'|s']; [|discriminate]. cbn [slot_of] in *. injection Hslot as H1. split; [split; [eapply change_inline; eassumption|exact I]|]. split; [exact H1|lia].
    + destruct v' as [i'|s']; [discriminate|]. cbn [slot_of size] in *. injection Hslot as H1 H2. unfold answer in Ha. cbn zeta in Ha.
      destruct (N.ltb_spec (isize_max (target pf)) (inline_len i + bytes_added o)); [discriminate|].
      split; [split; [cbn [PropertiesAllocation.sound]; lia|lia]|]. split; [exact H1|lia].
  - destruct v' as [i'|s']; [discriminate|]. cbn [fst snd slot_of size] in *. injection Hslot as H1 H2. unfold more, then_room in *.
    cbn [PropertiesAllocation.sound] in Hs. specialize (Hgrow (capacity s) (len s + bytes_added o)).
    destruct (N.leb_spec (len s + bytes_added o) (capacity s)) as [Hn|Hn]; cbn [made length] in *.
    + split; [split; [cbn [PropertiesAllocation.sound]; lia|lia]|]. split; [exact H1|]. destruct (_ =? 0); lia.
    + assert (grow pf (capacity s) (len s + bytes_added o) <= isize_max (target pf)) as Hle.
      { unfold answer in Ha. cbn zeta in Ha. destruct (capacity s =? 0); destruct (N.ltb_spec (isize_max (target pf)) (grow pf (capacity s) (len s + bytes_added o))); try discriminate; assumption. }
      split; [split; [cbn [PropertiesAllocation.sound]; lia|lia]|]. split; [exact H1|]. destruct (N.eqb_spec (bytes_added o) 0); lia.
Qed.

(** What a formatter has: its string and how many calls so far. *)
Definition has (pf : platform) (x r : N) (v : held) (m : memory) : Prop := sized (target pf) v /\ paid (x + cost r v) m.

Lemma has_more pf x r r' v m : r <= r' -> has pf x r v m -> has pf x r' v m.
Proof. intros Hr [Hs Hm]. split; [exact Hs|]. unfold paid in *. destruct v; cbn [cost] in *; lia. Qed.

Lemma t_any_unwinding {A} P locals (f : action A) Q : triple P f Q anyway -> triple P (unwinding locals f) Q anyway.
Proof.
  intros Hf m Hm. specialize (Hf m Hm). unfold unwinding. destruct (f m) as [m1 a|m1 why|]; [exact Hf| |exact I].
  destruct why; try exact I; unfold and_then; destruct (drop_all locals m1); exact I.
Qed.

Lemma t_any_holding {A B} P locals (o : outcome A) (k : A -> action B) Q : (forall a, o = Ret a -> triple P (k a) Q anyway) ->
  triple P (and_then (holding locals o) k) Q anyway.
Proof.
  intros Hk. unfold holding. destruct o as [a| | |]; [intros m Hm; exact (Hk a eq_refl m Hm)| | |intros m Hm; exact I];
    (eapply t_bind with (Q := fun _ _ => False); [apply t_any_unwinding; intros m Hm; exact I|intros a m []]).
Qed.

(** Reading makes no call. *)
Lemma t_any_str {B} pf (P : memory -> Prop) locals v (k : list N -> action B) Q : (forall m m', calls m' = calls m -> P m -> P m') -> sized (target pf) v ->
  (forall bs, N.of_nat (length bs) = size (slot_of (ANominal v)) -> valid_utf8 bs = true -> triple P (k bs) Q anyway) ->
  triple P (and_then (unwinding locals (held_str v)) k) Q anyway.
Proof.
  intros HP [Hs Hv] Hk. eapply t_bind with (Q := fun bs m => P m /\ N.of_nat (length bs) = size (slot_of (ANominal v)) /\ valid_utf8 bs = true); [|intros bs m (Hm & H1 & H2); exact (Hk bs H1 H2 m Hm)].
  apply t_any_unwinding. intros m Hm. unfold held_str. destruct v as [i|s]; cbn [PropertiesAllocation.sound] in Hs.
  - destruct Hs as (t & Hg & _). destruct (inline_facts _ _ _ Hg) as (-> & El & Hu). cbn. auto.
  - pose proof (asks_string_str pf s m) as H. destruct (string_str s m) as [m' bs|m' why|] eqn:E; [|exact I|exact I].
    destruct H as (_ & H & Hl). cbn [made app] in H. rewrite app_nil_r in H. split; [exact (HP m m' H Hm)|]. split; [exact Hl|].
    unfold string_str in E. destruct (len s =? 0); [injection E as _ <-; reflexivity|]. unfold and_then in E. destruct (block (pointer s) m) as [m1 b| |]; try discriminate.
    destruct (pure (read_bytes b 0 (N.to_nat (len s))) m1) as [m2 bs'| |]; try discriminate. destruct (valid_utf8 bs') eqn:Ev; [|discriminate]. injection E as _ <-. exact Ev.
Qed.

Lemma has_calls pf x r v m m' : calls m' = calls m -> has pf x r v m -> has pf x r v m'.
Proof. unfold has, paid. intros ->. auto. Qed.

Lemma t_any_empty {B} pf (P : memory -> Prop) locals v (k : bool -> action B) Q : (forall m m', calls m' = calls m -> P m -> P m') -> sized (target pf) v ->
  (forall a, triple P (k a) Q anyway) -> triple P (and_then (unwinding locals (held_is_empty v)) k) Q anyway.
Proof.
  intros HP Hv Hk. eapply t_bind with (Q := fun _ => P); [|exact Hk]. apply t_any_unwinding. unfold held_is_empty.
  intros m Hm. pose proof (t_any_str pf P [] v (fun str => done (match str with [] => true | _ => false end)) (fun _ => P) HP Hv) as H.
  specialize (H ltac:(intros; apply t_done; auto) m Hm). unfold and_then in *. unfold unwinding in H. destruct (held_str v m) as [m' a|m' why|]; [exact H|exact I|exact I].
Qed.

Lemma push_char_has {A} pf x r v ch locals err (k : held -> action A) Q : valid_platform pf -> is_scalar ch = true ->
  (forall v', triple (has pf x r v') (k v') Q anyway) -> triple (has pf x r v) (pushing locals v (held_push pf v ch) err k) Q anyway.
Proof.
  intros Hp Hch Hk. unfold pushing. eapply t_bind with (Q := fun r0 m => has pf x r (fst r0) m /\ snd r0 = Ok tt).
  - apply t_any_unwinding. intros m [Hs Hm]. pose proof (push_paid pf _ v (Push ch) Hp Hch I Hs m Hm) as H. pose proof (push_no_error pf v ch m) as Hn.
    cbn [change] in H. unfold and_then in H. destruct (held_push pf v ch m) as [m' [v' r0]|m' why|]; [|exact I|exact I].
    cbn in H |- *. destruct r0 as [[]|]; [|contradiction]. split; [|reflexivity]. destruct H as (Hs' & Hsz & H). split; [exact Hs'|].
    pose proof (sized_size _ _ Hs) as H1. pose proof (sized_size _ _ Hs') as H2. unfold paid in *.
    pose proof (len_utf8_bounds ch). assert (N.of_nat (length (encode_char ch)) = len_utf8 ch) as Hlen by (rewrite encode_char_length_nat; lia). rewrite Hlen in *.
    destruct v as [i|s], v' as [i'|s']; cbn [cost slot_of size] in *; try lia. destruct (N.eqb_spec (len_utf8 ch) 0); lia.
  - intros [v' r0] m [Hm Hr]. cbn [fst snd] in Hm, Hr. subst r0. apply Hk, Hm.
Qed.

Definition leads {E} (pf : platform) (x r : N) (res : held_flagged E) (m : memory) : Prop :=
  match fst res with
  | Ok v => has pf x r v m
  | Err _ => True
  end.

Lemma held_push_char_has {E} (conv : out_of_memory -> E) pf x r v ch flag k : valid_platform pf -> (forall y, ch = Ret y -> is_scalar y = true) ->
  (forall v', triple (has pf x r v') (k v') (leads pf x r) anyway) -> triple (has pf x r v) (held_push_char conv pf v ch flag k) (leads pf x r) anyway.
Proof.
  intros Hp Hch Hk. unfold held_push_char. apply t_any_holding. intros y Ey. apply push_char_has; [exact Hp|exact (Hch y Ey)|exact Hk].
Qed.

Lemma empty_has pf x r m : paid x m -> has pf x r empty_forward m.
Proof.
  intros Hm. split; [|cbn [cost empty_forward]; unfold paid in *; lia]. split; [|exact I].
  cbn [PropertiesAllocation.sound empty_forward]. exists []. split; [|reflexivity]. apply (good_reads _ new []), new_rep.
Qed.

Lemma t_has {A} pf x r v (f : action A) Q : (sized (target pf) v -> triple (has pf x r v) f Q anyway) -> triple (has pf x r v) f Q anyway.
Proof. intros H m Hm. exact (H (proj1 Hm) m Hm). Qed.

Lemma has_empty {B} pf x r v locals (k : bool -> action B) Q :
  (forall a, triple (has pf x r v) (k a) Q anyway) -> triple (has pf x r v) (and_then (unwinding locals (held_is_empty v)) k) Q anyway.
Proof.
  intros Hk. apply t_has. intros Hv. apply (t_any_empty pf (has pf x r v)); [intros m m'; apply has_calls|exact Hv|exact Hk].
Qed.

Lemma inner_has pf x r formal characters n np last : valid_platform pf -> Forall (fun ch => is_scalar ch = true) characters ->
  triple (paid x) (held_chinese_inner pf formal characters n np last) (leads pf x r) anyway.
Proof.
  intros Hp Hc. assert (forall i y, char_at characters i = Ret y -> is_scalar y = true) as Hat by (intros i y; apply char_at_scalar, Hc).
  unfold held_chinese_inner. cbv beta zeta.
  apply t_weaken with (P := has pf x r empty_forward); [|intros m; apply empty_has].
  repeat first
    [ apply held_push_char_has; [exact Hp|apply Hat|intros ?]
    | apply has_empty; intros ?
    | match goal with |- triple _ (if ?b then _ else _) _ _ => destruct b end
    | apply t_done; intros m Hm; exact Hm ].
Qed.

(** [formatted] takes the text of [tail], which is dropped. *)
Lemma append_has pf x r v tail flag : valid_platform pf -> r <= 10 ->
  triple (fun m => sized (target pf) v /\ sized (target pf) tail /\ paid (x + cost r v + cost r tail) m)
    (held_append_result pf v tail flag) (leads pf x (r + 1)) anyway.
Proof.
  intros Hp Hr m0 (Hv & Htail & Hm0). unfold held_append_result.
  pose proof (sized_size _ _ Hv) as Hv2. pose proof (sized_size _ _ Htail) as Ht2. pose proof (isize_max_large _ (proj1 Hp)) as Hmax.
  revert m0 Hm0. apply (t_any_str pf (paid (x + cost r v + cost r tail))); [unfold paid; intros m m' ->; auto|exact Htail|]. intros bs Hbs Hu.
  assert (N.of_nat (length bs) <= isize_max (target pf)) as Hlen by (rewrite Hbs; destruct tail; cbn [slot_of size]; lia).
  unfold pushing. eapply t_bind with (Q := fun r0 m => sized (target pf) (fst r0) /\ snd r0 = Ok tt /\
    paid (match tail with HInline _ => x + cost (r + 1) (fst r0) | HHeap _ => x + cost (r + 1) (fst r0) - 1 end) m /\
    match tail with HInline _ => True | HHeap _ => 1 <= x + cost (r + 1) (fst r0) end).
  - apply t_any_unwinding. intros m Hm. pose proof (push_paid pf _ v (PushStr bs) Hp Hu Hlen Hv m Hm) as H. pose proof (push_str_no_error pf v bs m) as Hn.
    cbn [change] in H. unfold and_then in H. destruct (held_push_str pf v bs m) as [m' [v' r0]|m' why|]; [|exact I|exact I].
    cbn in H |- *. destruct r0 as [[]|]; [|contradiction]. destruct H as (Hs' & Hsz & H). split; [exact Hs'|]. split; [reflexivity|].
    pose proof (sized_size _ _ Hs') as H2. unfold paid in *. rewrite Hbs in *.
    destruct v as [i|s], v' as [i'|s'], tail as [j|t]; cbn [cost slot_of size] in *; try lia.
    all: destruct (N.eqb_spec (size (slot_of (ANominal tail))) 0) || idtac.
    all: try (destruct (N.eqb_spec (inline_len j) 0)); try (destruct (N.eqb_spec (len t) 0)); lia.
  - intros [v' r0] m (Hs' & Hr0 & Hm & H1). cbn [fst snd] in *. subst r0.
    pose proof (asks_value_drop pf (ANominal tail) m) as H. cbn [value_drop] in H. unfold and_then. destruct (held_drop tail m) as [m' u|m' why|]; [|exact I|exact I].
    destruct H as (_ & H & _). cbn [made app] in H. cbn. split; [exact Hs'|]. unfold paid in *. rewrite H, app_length.
    destruct tail as [j|t]; cbn [slot_of given_up length] in *; [lia|]. destruct (capacity t =? 0); cbn [length]; lia.
Qed.

Lemma t_leads_more {E} pf x r r' (f : action (held_flagged E)) P : r <= r' -> triple P f (leads pf x r) anyway -> triple P f (leads pf x r') anyway.
Proof.
  intros Hr H m Hm. specialize (H m Hm). destruct (f m) as [m' [[v|e] flag]|m' why|]; try exact I. revert H. apply has_more, Hr.
Qed.

Lemma next_has pf formal scales characters large : valid_platform pf -> Forall (fun ch => is_scalar ch = true) characters ->
  Forall (fun ch => is_scalar ch = true) large -> forall rank, (rank <= 11)%nat -> forall x n np last,
  triple (paid x) (held_next pf formal rank scales characters large n np last) (leads pf x (N.of_nat rank)) anyway.
Proof.
  intros Hp Hc Hl. induction rank as [|rank IH]; intros Hrank x n np last; cbn [held_next].
  - eapply t_bind; [apply (inner_has pf x 0); assumption|]. intros [[v|e] flag]; apply t_done; auto.
  - specialize (IH ltac:(lia)). rewrite held_rank_step. set (k := N.of_nat rank) in *. replace (N.of_nat (S rank)) with (k + 1) by lia.
    assert (forall v remaining last, triple (has pf x k v) (held_finish pf formal rank scales characters large np remaining v last) (leads pf x (k + 1)) anyway) as Hfin.
    { intros v remaining last'. unfold held_finish. destruct (is_zero remaining); [apply t_done; intros m; apply has_more; lia|].
      apply has_empty. intros e. apply t_has. intros Hv. apply t_weaken with (P := paid (x + cost k v)); [|intros m [_ Hm]; exact Hm].
      eapply t_bind; [apply t_any_unwinding, IH|]. intros [[tail|er] flag]; cbn [leads fst].
      - apply t_weaken with (P := fun m => sized (target pf) v /\ sized (target pf) tail /\ paid (x + cost k v + cost k tail) m);
          [apply append_has; [exact Hp|lia]|]. intros m [H1 H2]. auto.
      - intros m _. unfold and_then. destruct (held_drop v m); exact I. }
    destruct (scale_at scales rank) as [scale|]; [|eapply t_leads_more; [|apply IH]; lia].
    apply t_any_holding. intros remaining _. apply t_any_holding. intros rank_value _. apply t_any_holding. intros out _.
    destruct out; [apply t_done; intros m _; exact I|]. destruct (is_zero rank_value).
    + eapply t_weaken; [apply Hfin|]. intros m. apply empty_has.
    + eapply t_bind; [apply IH|]. intros [[v|er] flag]; cbn [leads fst]; [|apply t_done; intros m _; exact I].
      apply has_empty. intros e. destruct (negb e); [|apply Hfin]. unfold held_push_char. apply t_any_holding. intros ch Ech.
      apply push_char_has; [exact Hp| |intros v'; apply Hfin]. exact (nth_scalar large rank ch Hl Ech).
Qed.

Lemma rank_has pf formal scales characters large rank x n np last : valid_platform pf -> Forall (fun ch => is_scalar ch = true) characters ->
  Forall (fun ch => is_scalar ch = true) large -> (rank <= 10)%nat ->
  triple (paid x) (held_scaled_rank pf formal rank scales characters large n np last) (leads pf x (N.of_nat rank + 1)) anyway.
Proof.
  intros Hp Hc Hl Hrank. replace (N.of_nat rank + 1) with (N.of_nat (S rank)) by lia.
  exact (next_has pf formal scales characters large Hp Hc Hl (S rank) ltac:(lia) x n np last).
Qed.

Lemma scaled_has pf x T formal scales characters large n : valid_platform pf -> Forall (fun ch => is_scalar ch = true) characters ->
  Forall (fun ch => is_scalar ch = true) large ->
  triple (paid x) (held_scaled pf T formal scales characters large n) (fun r => leads pf x 11 (r, true)) anyway.
Proof.
  intros Hp Hc Hl. unfold held_scaled. eapply t_bind; [apply (rank_has pf formal (map (try_from (target pf) T) scales) characters large 10 x n _ _ Hp Hc Hl (Nat.le_refl 10))|].
  intros [[v|e] flag]; apply t_done; auto.
Qed.

Lemma short_has pf x T formal characters large n : valid_platform pf -> Forall (fun ch => is_scalar ch = true) characters ->
  Forall (fun ch => is_scalar ch = true) large -> forall rank,
  triple (paid x) (held_short_rank pf T formal rank characters large n) (fun r => leads pf x 11 (r, true)) anyway.
Proof.
  intros Hp Hc Hl.
  assert (forall rank sc, triple (paid x)
    (r <~ loop_action (target pf) (held_short_body pf T characters large)
             {| hs_rank := rank; hs_scale := sc; hs_formatted := empty_forward; hs_last_was_zero := false; hs_remaining := n |} ;;
      match r with
      | Err e => done (Err e)
      | Ok st =>
          if negb (is_zero (hs_remaining st)) then
            inner <~ unwinding [hs_formatted st] (held_chinese_inner pf formal characters (hs_remaining st) false (hs_last_was_zero st)) ;;
            match held_lift_flagged inner with
            | (Err e, _) => _ <~ held_drop (hs_formatted st) ;; done (Err e)
            | (Ok tail, flag) => r <~ held_append_result pf (hs_formatted st) tail flag ;; done (fst r)
            end
          else done (Ok (hs_formatted st))
      end) (fun r => leads pf x 11 (r, true)) anyway) as Hgo.
  { intros rank sc. apply t_bind with (Q := fun r m => match r with Ok st => has pf x 0 (hs_formatted st) m | Err _ => True end).
    - eapply t_weaken; [apply (t_loop _ _ (fun st => has pf x 0 (hs_formatted st)))|intros m; apply empty_has]; [|intros st m _; exact I].
      intros st. unfold held_short_body. cbv zeta. destruct (is_zero (hs_remaining st)); [apply t_done; auto|].
      apply t_any_holding. intros rv _. destruct (10 <=? rv); [intros m _; unfold and_then; destruct (held_drop (hs_formatted st) m); exact I|].
      apply t_any_holding. intros remaining _.
      assert (forall f last, triple (has pf x 0 f) (held_short_next pf T {| hs_rank := hs_rank st; hs_scale := hs_scale st; hs_formatted := f; hs_last_was_zero := last; hs_remaining := remaining |})
        (fun r m => match r with Continue s' => has pf x 0 (hs_formatted s') m | Break (Ok st) => has pf x 0 (hs_formatted st) m | Break (Err _) => True end) anyway) as Hn.
      { intros f last. unfold held_short_next. cbn [hs_rank hs_formatted]. destruct (hs_rank st); [apply t_done; auto|].
        apply t_any_holding. intros sc' _. destruct (try_from _ T sc'); [apply t_done; auto|]. apply t_any_unwinding. intros m _. exact I. }
      destruct (is_zero rv).
      + apply has_empty. intros e. destruct (_ && _); [|apply Hn]. apply t_any_holding. intros ch Ech. apply push_char_has; [exact Hp|exact (char_at_scalar _ _ _ Hc Ech)|intros v'; apply Hn].
      + apply t_any_holding. intros ch Ech. apply push_char_has; [exact Hp|exact (char_at_scalar _ _ _ Hc Ech)|]. intros v'.
        apply t_any_holding. intros ch' Ech'. apply push_char_has; [exact Hp|exact (nth_scalar large _ ch' Hl Ech')|]. intros v''. apply Hn.
    - intros [st|e]; [|apply t_done; auto]. destruct (negb _); [|apply t_done; intros m; apply has_more; lia].
      apply t_has. intros Hv. apply t_weaken with (P := paid (x + cost 0 (hs_formatted st))); [|intros m [_ Hm]; exact Hm].
      eapply t_bind; [apply t_any_unwinding, (inner_has pf _ 0); assumption|]. intros [[tail|er] flag]; cbn [leads fst held_lift_flagged].
      + eapply t_bind; [|intros r; apply t_done; intros m Hm; exact Hm].
        intros m [H1 H2]. pose proof (append_has pf x 0 (hs_formatted st) tail flag Hp ltac:(lia) m) as H.
        specialize (H (conj Hv (conj H1 H2))). destruct (held_append_result _ _ _ _ m) as [m' [[v|e] fl]|m' why|]; try exact I.
        revert H. apply has_more. lia.
      + intros m _. unfold and_then. destruct (held_drop _ m); exact I. }
  induction rank as [|rank IH]; cbn [held_short_rank]; apply t_any_holding; intros sc _; (destruct (try_from _ T sc); [apply Hgo|]); [|exact IH].
  intros m _. exact I.
Qed.

Lemma chinese_has pf x T formal characters large n sc : valid_platform pf -> Forall (fun ch => is_scalar ch = true) characters ->
  Forall (fun ch => is_scalar ch = true) large ->
  triple (paid x) (held_chinese pf T formal characters large n sc) (fun r m => match r with Ok v => has pf x 11 v m | Err _ => True end) anyway.
Proof.
  intros Hp Hc Hl. unfold held_chinese. destruct (is_zero n).
  - apply t_any_holding. intros ch Ech. eapply t_bind with (Q := fun v => has pf x 11 v); [|intros v; apply t_done; auto].
    unfold held_from_char. intros m Hm. pose proof (push_char_has pf x 11 empty_forward ch [] (fun _ => empty_forward) (fun v => done v) (fun v => has pf x 11 v) Hp (char_at_scalar _ _ _ Hc Ech)) as H.
    specialize (H ltac:(intros v; apply t_done; auto) m (empty_has pf x 11 m Hm)). unfold pushing, unwinding in H. unfold empty_forward in H. unfold and_then in *.
    pose proof (push_no_error pf empty_forward ch m) as Hn. unfold empty_forward in Hn.
    destruct (held_push pf _ ch m) as [m' [v [u|e]]|m' why|]; [exact H|contradiction|exact I|exact I].
  - cbv zeta.
    assert (triple (paid x) (r <~ held_chinese_inner pf formal characters n true false ;;
      match fst r with Ok s => done (Ok s) | Err OutOfMemoryError => done (Err (OutOfMemory n)) end)
      (fun r m => match r with Ok v => has pf x 11 v m | Err _ => True end) anyway) as Hin.
    { eapply t_bind; [apply (inner_has pf x 11); assumption|]. intros [[v|[]] flag]; apply t_done; auto. }
    destruct (try_from _ T 10000) as [k|]; [|exact Hin]. destruct (k <=? n); [|exact Hin].
    apply t_bind with (Q := fun r => leads pf x 11 (r, true)); [|intros [v|[]]; apply t_done; auto].
    destruct sc; cbn [held_scale]; [apply short_has|apply scaled_has|apply scaled_has|apply scaled_has]; assumption.
Qed.

(** ** C104: one string *)

Lemma live_one_string pf T d n m : valid_platform pf -> char_digits d -> one_string_calls pf m (held_live_system d pf T n m).
Proof. intros Hp Hd. apply triple_calls. unfold held_live_system. apply live_calls; assumption. Qed.

Lemma digits_one_string pf T d n m : valid_platform pf -> digits_typed d -> one_string_calls pf m (held_digit_system (fun _ => d) pf T n m).
Proof. intros Hp Hd. rewrite <- C100_no_state_no_difference. apply live_one_string; [exact Hp|apply typed_char_digits, Hd]. Qed.

Lemma additive_one_string pf T symbols n m : valid_platform pf -> symbols_typed (target pf) (map fst symbols) ->
  one_string_calls pf m (held_additive_system symbols pf T n m).
Proof.
  intros Hp Ht. unfold held_additive_system. destruct (additive_set_new symbols) as [set| | |] eqn:Es.
  - unfold additive_set_new in Es. destruct (descending symbols); [|discriminate]. injection Es as <-. apply triple_calls. apply additive_calls; [exact Hp|exact Ht|].
    intros zero E. cbn [as_zero] in E. unfold symbols_typed in Ht. rewrite Forall_forall in Ht. apply Ht. apply zero_symbol_in in E. apply (in_map fst _ _ E).
  - cbn. exists []. rewrite app_nil_r. split; [reflexivity|left; reflexivity].
  - cbn. exists []. rewrite app_nil_r. split; [reflexivity|left; reflexivity].
  - exact I.
Qed.

Definition one_string_systems : list (held_system * system) := firstn 84 memory_systems.

(** All but the 32 Chinese systems. *)
Example one_string_systems_all :
  memory_systems = one_string_systems ++ flat_map (fun traditional => flat_map (fun formal => flat_map (fun u => map (fun sc =>
    (held_chinese_system traditional formal {| usage := u; scale := sc |}, chinese traditional formal {| usage := u; scale := sc |}))
    [Short; Myriad; Mid; Long]) [Financial; Ordinary]) [true; false]) [true; false] /\
  length one_string_systems = 84%nat.
Proof. split; reflexivity. Qed.

Lemma one_string_listed hs sys pf T n m : In (hs, sys) one_string_systems -> valid_platform pf -> one_string_calls pf m (hs pf T n m).
Proof.
  intros H Hp. pose proof collections_typed as Hcol. rewrite Forall_forall in Hcol.
  assert (digits_typed LetterUpper /\ digits_typed LetterLower) as [Hu Hl].
  { split; apply Hcol; cbn; auto 40. }
  assert (forall symbols, symbols_check (map fst symbols) = true -> one_string_calls pf m (held_additive_system symbols pf T n m)) as Hadd.
  { intros symbols Hs. apply additive_one_string; [exact Hp|]. destruct Hp as (Hc & _). apply symbols_check_typed; assumption. }
  assert (forall set, symbols_check (es_symbols set) = true -> one_string_calls pf m (held_enumerated_system set pf T n m)) as Henum.
  { intros set Hs. apply triple_calls, enumerated_calls; [exact Hp|]. unfold symbols_check in Hs. rewrite forallb_forall in Hs.
    apply Forall_forall. intros s Hin. apply Hs in Hin. apply andb_prop in Hin. apply Hin. }
  assert (one_string_systems =
    (map (fun d => (held_digit_system (fun _ => d), fun c T => try_format_digits c T d)) (digit_collections ++ fixed_collections) ++
     map (fun d => (held_digit_system (fun _ => one_based d), fun c T => try_format_digits c T (one_based d))) (digit_collections ++ fixed_collections) ++
     firstn 4 (skipn 66 memory_systems)) ++ firstn 10 (skipn 70 memory_systems) ++ firstn 4 (skipn 80 memory_systems)) as E by reflexivity.
  rewrite E in H. clear E. rewrite !in_app_iff in H.
  destruct H as [[H|[H|H]]|[H|H]].
  - apply in_map_iff in H as (d & [= <- _] & Hd). apply digits_one_string; auto.
  - apply in_map_iff in H as (d & [= <- _] & Hd). apply digits_one_string; [exact Hp|]. apply one_based_typed. auto.
  - destruct H as [[= <- _]|[[= <- _]|[[= <- _]|[[= <- _]|[]]]]].
    + change (held_digit_system HexUpper pf T n m) with (held_digit_system (fun _ => HexUpper (target pf)) pf T n m).
      apply digits_one_string; [exact Hp|apply hex_typed; assumption].
    + change (held_digit_system HexLower pf T n m) with (held_digit_system (fun _ => HexLower (target pf)) pf T n m).
      apply digits_one_string; [exact Hp|apply hex_typed; assumption].
    + change (held_digit_system (fun c => one_based (HexUpper c)) pf T n m) with (held_digit_system (fun _ => one_based (HexUpper (target pf))) pf T n m).
      apply digits_one_string; [exact Hp|apply one_based_typed, hex_typed; assumption].
    + change (held_digit_system (fun c => one_based (HexLower c)) pf T n m) with (held_digit_system (fun _ => one_based (HexLower (target pf))) pf T n m).
      apply digits_one_string; [exact Hp|apply one_based_typed, hex_typed; assumption].
  - change (firstn 10 (skipn 70 memory_systems)) with
      [(held_additive_system RomanUpper_symbols, RomanUpper); (held_additive_system RomanLower_symbols, RomanLower);
       (held_additive_system ArmenianUpper_symbols, ArmenianUpper); (held_additive_system ArmenianLower_symbols, ArmenianLower);
       (held_additive_system Georgian_symbols, Georgian); (held_additive_system JapaneseFormal_symbols, JapaneseFormal);
       (held_additive_system JapaneseInformal_symbols, JapaneseInformal); (held_additive_system HangeulFormal_symbols, HangeulFormal);
       (held_additive_system HanjaInformal_symbols, HanjaInformal); (held_additive_system HanjaFormal_symbols, HanjaFormal)] in H.
    repeat destruct H as [[= <- _]|H]; try destruct H; (apply Hadd; vm_compute; reflexivity).
  - change (firstn 4 (skipn 80 memory_systems)) with
      [(held_enumerated_system (enumerated_new CircledNumber_symbols), CircledNumber);
       (held_enumerated_system (enumerated_zeroless DoubleCircledNumber_symbols), DoubleCircledNumber);
       (held_ethiopic, Ethiopic); (held_hebrew, Hebrew)] in H.
    destruct H as [[= <- _]|[[= <- _]|[[= <- _]|[[= <- _]|[]]]]].
    + apply Henum. vm_compute. reflexivity.
    + apply Henum. vm_compute. reflexivity.
    + apply triple_calls, ethiopic_calls, Hp.
    + apply triple_calls, hebrew_calls, Hp.
Qed.

Lemma one_string_memory hs sys : In (hs, sys) one_string_systems -> In (hs, sys) memory_systems.
Proof. intros H. rewrite (proj1 one_string_systems_all). apply in_or_app. left. exact H. Qed.

(** The calls of the 84 built-in systems that are not Chinese. A text in the
    struct costs none. A text in the heap costs one block of the size it had
    when it left the struct, and a larger one each time it did not fit: no other
    string is made on the way. An error is returned before any call. A refused
    request panics with the one block given back. *)
Theorem C104_one_string : forall hs sys pf T n m, In (hs, sys) one_string_systems -> valid_platform pf -> Base.fits (target pf) T n ->
  match hs pf T n m with
  | Done m' (Ok v) => exists cs, calls m' = calls m ++ cs /\ grown pf v cs
  | Done m' (Err _) => m' = m
  | Stopped m' _ => exists cs, calls m' = calls m ++ cs /\ given_back pf cs
  | Undefined => False
  end.
Proof.
  intros hs sys pf T n m Hin Hp Hn. pose proof (one_string_listed hs sys pf T n m Hin Hp) as H.
  destruct (C98_formatting_in_memory hs sys pf T n m (one_string_memory _ _ Hin) Hp Hn) as [Hm (r & Er)]. rewrite Er in Hm. unfold mirrors in Hm.
  destruct r as [s|e]; [|rewrite Hm; reflexivity]. destruct Hm as (t & _ & Hm).
  destruct (hs pf T n m) as [m' [v|e]|m' why|]; [exact H|contradiction| |contradiction]. destruct Hm as ([-> | ->] & _); exact H.
Qed.
Print Assumptions C104_one_string.

(** [to_nominal]: the decimal numeral that takes the place of an error is in the
    struct and costs no call. *)
Theorem C104_to_nominal : forall hs sys pf T n m, In (hs, sys) one_string_systems -> valid_platform pf -> Base.fits (target pf) T n ->
  match held_to_nominal hs pf T n m with
  | Done m' v => exists cs, calls m' = calls m ++ cs /\ grown pf v cs
  | Stopped m' _ => exists cs, calls m' = calls m ++ cs /\ given_back pf cs
  | Undefined => False
  end.
Proof.
  intros hs sys pf T n m Hin Hp Hn. pose proof (one_string_memory _ _ Hin) as Hin'. pose proof (C104_one_string hs sys pf T n m Hin Hp Hn) as H.
  destruct (C98_formatting_in_memory hs sys pf T n m Hin' Hp Hn) as [Hm (r & Er)]. destruct r as [s|e].
  - rewrite Er in Hm. destruct Hm as (t & _ & Hm). unfold held_to_nominal, and_then.
    destruct (hs pf T n m) as [m' [v|e]|m' why|]; [exact H|contradiction|exact H|contradiction].
  - destruct (C101_fallback hs sys pf T n m e Hin' Hp Hn Er) as (m' & i & cs & -> & _ & _ & Hc & _). exists []. rewrite app_nil_r. split; [exact Hc|reflexivity].
Qed.
Print Assumptions C104_to_nominal.

(** The same for collections and sets of callers, whatever their code does. An
    error may come after calls; the block is then given back. *)
Theorem C104_callers_digits : forall pf T d n m, valid_platform pf -> safe_code d ->
  one_string_calls pf m (held_live_system d pf T n m) /\ held_live_system d pf T n m <> Undefined.
Proof.
  intros pf T d n m Hp Hd. split; [apply live_one_string; [exact Hp|apply safe_char_digits, Hd]|].
  destruct (C100_stateful_digits pf T d n m Hp Hd) as [H Hu]. intros E. rewrite E in H. unfold follows, mirrors in H.
  destruct (try_format_live (target pf) T d n) as [[s|e]| | |].
  - destruct H as (t & _ & []).
  - destruct H as (m' & _ & [H|(why & H & _)]); discriminate.
  - destruct H as (m' & why & H & _). discriminate.
  - destruct H as (m' & why & H & _). discriminate.
  - contradiction.
Qed.
Print Assumptions C104_callers_digits.

Theorem C104_callers_sets : forall pf T n m, valid_platform pf ->
  (forall tbl, Forall (fun sv => Forall (fun ch => is_scalar ch = true) (fst sv) /\ N.of_nat (length (utf8 (fst sv))) <= isize_max (target pf)) tbl ->
    one_string_calls pf m (held_additive_system (encode tbl) pf T n m)) /\
  (forall (zeroless : bool) symbols, Forall (fun s => Forall (fun ch => is_scalar ch = true) s) symbols ->
    one_string_calls pf m (held_enumerated_system ((if zeroless then enumerated_zeroless else enumerated_new) (map utf8 symbols)) pf T n m)).
Proof.
  intros pf T n m Hp. split.
  - intros tbl Ht. apply additive_one_string; [exact Hp|]. apply Forall_forall. intros s Hs. apply in_map_iff in Hs as ([s' v] & <- & Hin).
    apply in_map_iff in Hin as ([cs v'] & [= <- <-] & Hin). rewrite Forall_forall in Ht. destruct (Ht _ Hin) as [H1 H2]. split; [apply valid_utf8_utf8, H1|exact H2].
  - intros zeroless symbols Hs. apply triple_calls, enumerated_calls; [exact Hp|].
    replace (es_symbols _) with (map utf8 symbols) by (destruct zeroless; reflexivity).
    apply Forall_forall. intros s Hin. apply in_map_iff in Hin as (cs & <- & Hin). rewrite Forall_forall in Hs. apply valid_utf8_utf8, Hs, Hin.
Qed.
Print Assumptions C104_callers_sets.

(** With the growth of the standard library the number of calls is logarithmic
    in the length of the text, and less than half of the block is unused. *)
Lemma growth_doubles cs cap n : growth amortized cs cap n -> 62 < n <= cap /\ cap <= 2 * n /\ exists k, length cs = S k /\ 63 * 2 ^ N.of_nat k <= cap.
Proof.
  induction 1 as [n Hn|cs cap n k H (IH1 & IH2 & j & Hj & IH3) Hle|cs cap n k H (IH1 & IH2 & j & Hj & IH3) Hlt].
  - split; [lia|]. split; [lia|]. exists 0%nat. split; [reflexivity|]. cbn. lia.
  - split; [lia|]. split; [lia|]. exists j. auto.
  - unfold amortized. split; [lia|]. split; [lia|]. exists (S j). rewrite app_length, Hj. split; [cbn; lia|].
    rewrite Nat2N.inj_succ, N.pow_succ_r'. lia.
Qed.

Theorem C104_logarithmic : forall hs sys pf T n m m' s, In (hs, sys) one_string_systems -> valid_platform pf -> Base.fits (target pf) T n ->
  grow pf = amortized -> hs pf T n m = Done m' (Ok (HHeap s)) ->
  62 < len s <= capacity s /\ capacity s <= 2 * len s /\
  exists k, length (calls m') = (length (calls m) + S k)%nat /\ 63 * 2 ^ N.of_nat k <= 2 * len s.
Proof.
  intros hs sys pf T n m m' s Hin Hp Hn Hg E. pose proof (C104_one_string hs sys pf T n m Hin Hp Hn) as H. rewrite E in H.
  destruct H as (cs & Hcs & H). cbn [grown] in H. rewrite Hg in H. destruct (growth_doubles _ _ _ H) as (H1 & H2 & k & Hk & H3).
  split; [exact H1|]. split; [exact H2|]. exists k. rewrite Hcs, app_length, Hk. split; [reflexivity|lia].
Qed.
Print Assumptions C104_logarithmic.

(** The Chinese systems, which make a string for each rank and copy it: no call
    for a text in the struct; else fewer calls than bytes. *)
Theorem C104_chinese : forall traditional formal o pf T n m, valid_platform pf -> Base.fits (target pf) T n ->
  match held_chinese_system traditional formal o pf T n m with
  | Done m' (Ok (HInline _)) => calls m' = calls m
  | Done m' (Ok (HHeap s)) => 62 < len s /\ N.of_nat (length (calls m')) + 40 <= N.of_nat (length (calls m)) + len s
  | Done m' (Err _) => m' = m
  | Stopped m' why => why = CapacityOverflow \/ why = AllocError
  | Undefined => False
  end.
Proof.
  intros traditional formal o pf T n m Hp Hn.
  assert (In (held_chinese_system traditional formal o, chinese traditional formal o) memory_systems) as Hin.
  { rewrite (proj1 one_string_systems_all). apply in_or_app. right. apply in_flat_map. exists traditional. split; [destruct traditional; cbn; auto|].
    apply in_flat_map. exists formal. split; [destruct formal; cbn; auto|]. destruct o as [u sc]. apply in_flat_map. exists u. split; [destruct u; cbn; auto|].
    apply in_map_iff. exists sc. split; [reflexivity|]. destruct sc; cbn; auto. }
  assert (triple (paid (N.of_nat (length (calls m)))) (held_chinese_system traditional formal o pf T n)
    (fun r m' => match r with Ok v => has pf (N.of_nat (length (calls m))) 11 v m' | Err _ => True end) anyway) as H.
  { destruct traditional, formal; unfold held_chinese_system; destruct (usage o); (apply chinese_has; [exact Hp|apply scalars_all; reflexivity|apply scalars_all; reflexivity]). }
  specialize (H m ltac:(unfold paid; lia)).
  destruct (C98_formatting_in_memory _ _ pf T n m Hin Hp Hn) as [Hm (r & Er)]. pose proof (C98_short_texts (held_chinese_system traditional formal o) (chinese traditional formal o) pf T n m) as Hshort.
  rewrite Er in Hm. unfold mirrors in Hm. destruct r as [s|e]; [|rewrite Hm; reflexivity]. destruct Hm as (t & Et & Hm).
  destruct (held_chinese_system traditional formal o pf T n m) as [m' [[i|h]|e]|m' why|]; [| |contradiction|apply Hm|contradiction].
  - destruct Hm as ((_ & H62) & _). destruct (at_most_62 t) eqn:E62; [|destruct H62 as (h & Eh & _); discriminate].
    apply Nat.leb_le in E62. destruct (Hshort s t Hin Hp Hn Er Et E62) as (m2 & i2 & [= <- <-] & _ & Hc & _). exact Hc.
  - destruct H as [[_ [Hlen _]] H]. unfold paid, cost in H. split; [exact Hlen|lia].
Qed.
Print Assumptions C104_chinese.

(** Roman 45000000 in 135 bytes, which an allocator may also refuse to hold; in
    the struct; the collection of C100 whose error comes late; a Chinese numeral
    of 99 bytes, copied for each rank. *)
Example C104_case :
  growth amortized [Allocate 63; Reallocate 63 126; Reallocate 126 252] 252 135 /\
  outline (held_additive_system RomanUpper_symbols generous U32 45000000 no_memory) =
    ([Allocate 63; Reallocate 63 126; Reallocate 126 252], [252], Some (Ok (Some (252, 135, 2%nat))), None) /\
  given_back refuses_third [Allocate 63; Reallocate 63 126; Deallocate 126] /\
  outline (held_additive_system RomanUpper_symbols refuses_third U32 45000000 no_memory) =
    ([Allocate 63; Reallocate 63 126; Deallocate 126], [], None, Some AllocError) /\
  outline (held_live_system swelling generous U8 7 no_memory) = ([Allocate 64; Reallocate 64 128; Deallocate 128], [], Some (Err (OutOfBounds 7)), None) /\
  outline (held_chinese_system true true {| usage := Ordinary; scale := Myriad |} generous U64 98765432198765432 no_memory) =
    ([Allocate 69; Allocate 93; Deallocate 69; Allocate 99; Deallocate 93], [99], Some (Ok (Some (99, 99, 2%nat))), None).
Proof.
  assert (growth amortized [Allocate 63] 63 63) as H1 by (apply growth_start; reflexivity).
  assert (growth amortized [Allocate 63; Reallocate 63 126] 126 64) as H2 by (apply (growth_beyond amortized [Allocate 63] 63 63 1 H1); reflexivity).
  split; [|split; [vm_compute; reflexivity|split; [right; exists [Allocate 63; Reallocate 63 126], 126, 64; auto|repeat split; vm_compute; reflexivity]]].
  pose proof (growth_within amortized _ _ _ 62 H2 ltac:(lia)) as H3.
  pose proof (growth_beyond amortized _ _ _ 1 H3 ltac:(reflexivity)) as H4. cbn in H4.
  exact (growth_within amortized _ _ _ 8 H4 ltac:(lia)).
Qed.
