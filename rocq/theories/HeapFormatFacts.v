(** * HeapFormatFacts: the formatters in memory do what the formatters on
    values do *)

From Verif Require Import Prelude Utf8Facts StringFacts NominalString Spec History Digital HeapMemory HeapFormat
  PropertiesHeap PropertiesAllocation.

(** ** Ownership by lists of strings *)

Definition blocks_of (v : held) : list nat := match held_owned v with Some p => [p] | None => [] end.

Definition owned_by (l : list held) : list nat := flat_map blocks_of l.

Definition framed (m m' : memory) (before after : list nat) : Prop :=
  (length (blocks m) <= length (blocks m'))%nat /\
  (forall p, (p < length (blocks m))%nat -> ~ In p before -> live m' p = live m p) /\
  (forall p, In p after -> In p before \/ (length (blocks m) <= p)%nat) /\
  (forall p, live m' p <> None -> In p after \/ live m p <> None /\ ~ In p before).

Lemma framed_refl m l : framed m m l l.
Proof.
  split; [lia|]. split; [reflexivity|]. split; [auto|]. intros p H. destruct (in_dec Nat.eq_dec p l); auto.
Qed.

Lemma framed_trans m m1 m2 a b d : framed m m1 a b -> framed m1 m2 b d -> framed m m2 a d.
Proof.
  intros (A1 & A2 & A3 & A4) (B1 & B2 & B3 & B4). split; [lia|]. split; [|split].
  - intros p Hp Ha. rewrite B2; [apply A2; assumption|lia|]. intros Hb. destruct (A3 p Hb); [contradiction|lia].
  - intros p Hd. destruct (B3 p Hd) as [Hb|]; [destruct (A3 p Hb); [auto|lia]|right; lia].
  - intros p Hl. destruct (B4 p Hl) as [|[H1 H2]]; [auto|]. destruct (A4 p H1) as [H3|H3]; [contradiction|auto].
Qed.

Lemma framed_more m m' a b r : framed m m' a b -> (forall p, In p r -> live m p <> None /\ ~ In p a) -> framed m m' (a ++ r) (b ++ r).
Proof.
  intros (A1 & A2 & A3 & A4) Hr. split; [exact A1|]. split; [|split].
  - intros p Hp Hn. apply A2; [exact Hp|]. intros Ha. apply Hn, in_or_app. auto.
  - intros p Hp. apply in_app_or in Hp as [Hp|Hp]; [destruct (A3 p Hp); [left; apply in_or_app; auto|auto]|left; apply in_or_app; auto].
  - intros p Hp. destruct (A4 p Hp) as [H|[H1 H2]]; [left; apply in_or_app; auto|].
    destruct (in_dec Nat.eq_dec p r) as [Hi|Hi]; [left; apply in_or_app; auto|]. right. split; [exact H1|].
    intros Ha. apply in_app_or in Ha as [|]; contradiction.
Qed.

Lemma framed_swap m m' a a' b b' : framed m m' a b -> (forall p, In p a <-> In p a') -> (forall p, In p b <-> In p b') -> framed m m' a' b'.
Proof.
  intros (A1 & A2 & A3 & A4) Ha Hb. split; [exact A1|]. split; [|split].
  - intros p Hp Hn. apply A2; [exact Hp|]. rewrite Ha. exact Hn.
  - intros p Hp. rewrite <- Ha. apply A3. rewrite Hb. exact Hp.
  - intros p Hp. rewrite <- Ha, <- Hb. apply A4, Hp.
Qed.

Lemma blocks_is v p : In p (blocks_of v) <-> is (held_owned v) p.
Proof.
  unfold blocks_of, is. destruct (held_owned v) as [q|]; cbn [In]; [|split; [tauto|discriminate]].
  split; [intros [->|[]]; reflexivity|intros [= ->]; auto].
Qed.

Lemma frame_framed m m' v v' : frame m m' (held_owned v) (held_owned v') -> framed m m' (blocks_of v) (blocks_of v').
Proof.
  intros (A1 & A2 & A3 & A4). split; [exact A1|]. split; [|split].
  - intros p Hp Hn. apply A2; [exact Hp|]. rewrite <- blocks_is. exact Hn.
  - intros p Hp. rewrite blocks_is. apply A3, blocks_is, Hp.
  - intros p Hp. rewrite !blocks_is. apply A4, Hp.
Qed.

Lemma isize_max_large c : valid_config c -> 32767 <= isize_max c.
Proof. intros [H _]. unfold isize_max. destruct H as [-> | [-> | ->]]; vm_compute; discriminate. Qed.

(** ** Strings in memory and as values *)

Definition repr (c : config) (m : memory) (v : held) (s : nominal_string) : Prop :=
  exists t, good c s t /\ matches c m (ANominal v) (nominal_text t (negb (at_most_62 t))) /\ same m v s /\
    match v with HHeap h => capacity h <= isize_max c | HInline _ => True end.

Definition held_in (c : config) (m : memory) (v : held) : Prop := exists s, repr c m v s.

Definition holds (c : config) (m : memory) (l : list held) : Prop := Forall (held_in c m) l /\ NoDup (owned_by l).

Lemma repr_live c m v s p : repr c m v s -> In p (blocks_of v) -> live m p <> None.
Proof. intros (t & _ & Hm & _) Hp. apply blocks_is in Hp. eapply matches_live; [exact Hm|exact Hp]. Qed.

Lemma repr_stable c m m' v s : repr c m v s -> (forall p, In p (blocks_of v) -> live m' p = live m p) -> repr c m' v s.
Proof.
  intros (t & Hg & Hm & Hs & Hc) Hl. exists t. split; [exact Hg|].
  assert (matches c m' (ANominal v) (nominal_text t (negb (at_most_62 t)))) as Hm'.
  { eapply matches_stable; [exact Hm|]. intros p Hp. apply Hl, blocks_is, Hp. }
  split; [exact Hm'|]. split; [|exact Hc]. destruct v as [i|h], s as [j|bs]; cbn [same] in *; try assumption; try contradiction.
  destruct Hm as (_ & _ & Hr), Hm' as (_ & _ & Hr'). rewrite (string_str_reads _ _ _ Hr) in Hs. injection Hs as <-. apply string_str_reads, Hr'.
Qed.

Lemma repr_framed c m m' v s a b : repr c m v s -> framed m m' a b -> (forall p, In p (blocks_of v) -> ~ In p a) -> repr c m' v s.
Proof.
  intros Hr (_ & H & _) Hd. eapply repr_stable; [exact Hr|]. intros p Hp. apply H; [|apply Hd, Hp]. apply live_lt. eapply repr_live; eassumption.
Qed.

Lemma holds_nil c m : holds c m [].
Proof. split; constructor. Qed.

Lemma holds_one c m v s : repr c m v s -> holds c m [v].
Proof.
  intros H. split; [constructor; [exists s; exact H|constructor]|]. unfold owned_by. cbn [flat_map]. rewrite app_nil_r. unfold blocks_of. destruct (held_owned v); repeat constructor. intros [].
Qed.

Lemma owned_by_in l p : In p (owned_by l) <-> exists v, In v l /\ In p (blocks_of v).
Proof. unfold owned_by. rewrite in_flat_map. reflexivity. Qed.

Lemma holds_framed c m m' l a b : holds c m l -> framed m m' a b -> (forall p, In p (owned_by l) -> ~ In p a) -> holds c m' l.
Proof.
  intros [H1 H2] Hf Hd. split; [|exact H2]. rewrite Forall_forall in *. intros v Hv. destruct (H1 v Hv) as (s & Hs). exists s.
  eapply repr_framed; [exact Hs|exact Hf|]. intros p Hp. apply Hd, owned_by_in. eauto.
Qed.

Lemma NoDup_app_disjoint {A} (l r : list A) : NoDup (l ++ r) -> forall x, In x l -> ~ In x r.
Proof.
  induction l as [|y l IH]; cbn [app]; intros H x []; [subst|].
  - inversion_clear H as [|? ? Hn _]. intros Hr. apply Hn, in_or_app. auto.
  - inversion_clear H. auto.
Qed.

Lemma NoDup_app_parts {A} (l r : list A) : NoDup (l ++ r) -> NoDup l /\ NoDup r.
Proof. induction l as [|y l IH]; cbn [app]; intros H; [split; [constructor|exact H]|]. inversion_clear H as [|? ? Hn H']. destruct (IH H') as [H1 H2]. split; [|exact H2]. constructor; [|exact H1]. intros Hy. apply Hn, in_or_app. auto. Qed.

Lemma NoDup_app_intro {A} (l r : list A) : NoDup l -> NoDup r -> (forall x, In x l -> ~ In x r) -> NoDup (l ++ r).
Proof.
  induction l as [|y l IH]; cbn [app]; intros H1 H2 Hd; [exact H2|]. inversion_clear H1 as [|? ? Hn H1']. constructor.
  - intros Hi. apply in_app_or in Hi as [|Hi]; [contradiction|]. exact (Hd y (or_introl eq_refl) Hi).
  - apply IH; [exact H1'|exact H2|]. intros x Hx. apply Hd. right. exact Hx.
Qed.

Lemma held_drop_done c m v : held_in c m v -> exists m', held_drop v m = Done m' tt /\ framed m m' (blocks_of v) [] /\
  (match v with HInline _ => calls m' = calls m | HHeap _ => True end).
Proof.
  intros (s & t & _ & Hm & _). pose proof (value_drop_surely c m (ANominal v) _ Hm) as H. cbn [value_drop value_owned] in H.
  destruct (held_drop v m) as [m' []| |] eqn:E; try contradiction. exists m'. split; [reflexivity|]. split.
  - apply (frame_framed m m' v (HInline {| length_byte := 0; cells := [] |})), H.
  - destruct v; [|exact I]. cbn [held_drop] in E. injection E as <-. reflexivity.
Qed.

Lemma drop_all_done c l m : holds c m l -> exists m', drop_all l m = Done m' tt /\ framed m m' (owned_by l) [].
Proof.
  revert m. induction l as [|v l IH]; intros m [H1 H2]; [exists m; split; [reflexivity|apply framed_refl]|].
  inversion_clear H1 as [|? ? Hv Hl]. unfold owned_by in *. cbn [flat_map] in *.
  destruct (held_drop_done _ _ _ Hv) as (m1 & E & Hf & _).
  destruct (IH m1) as (m2 & E2 & Hf2).
  { eapply (holds_framed c m m1 l _ _); [split; [exact Hl|apply (NoDup_app_parts _ _ H2)]|exact Hf|].
    intros p Hp Hp'. exact (NoDup_app_disjoint _ _ H2 p Hp' Hp). }
  exists m2. cbn [drop_all]. unfold and_then. rewrite E, E2. split; [reflexivity|].
  eapply framed_trans; [|exact Hf2]. apply (framed_more _ _ _ _ (flat_map blocks_of l) Hf).
  intros p Hp. split.
  - apply owned_by_in in Hp as (w & Hw & Hp). rewrite Forall_forall in Hl. destruct (Hl w Hw) as (s & Hs). eapply repr_live; eassumption.
  - intros Hp'. exact (NoDup_app_disjoint _ _ H2 p Hp' Hp).
Qed.

(** ** Simulation *)

(** Texts of [k] bytes or more. *)
Definition big (c : config) (k : N) (s : nominal_string) : Prop := exists t, good c s t /\ k <= N.of_nat (length t).

(** Strings of up to [L] bytes are not refused. *)
Definition provides (pf : platform) (L : N) : Prop := 62 <= L /\ forall cs n, 62 < n <= L ->
  answer pf cs (Some (Allocate n)) = None /\
  (forall cap, 62 < cap < n -> answer pf cs (Some (Reallocate cap (grow pf cap n))) = None).

Definition sim {A B} (pf : platform) (L : N) (m : memory) (before : list nat) (f : action A) (o : outcome B)
    (after : A -> list nat) (R : memory -> A -> B -> Prop) (Big : B -> Prop) : Prop :=
  match f m with
  | Done m' a => exists b, o = Ret b /\ framed m m' before (after a) /\ R m' a b /\ (L = 62 -> calls m' = calls m \/ Big b)
  | Stopped m' Endless => o = Hang
  | Stopped m' OtherPanic => o = Panic /\ framed m m' before []
  | Stopped m' _ => framed m m' before [] /\ forall b, o = Ret b -> Big b
  | Undefined => o = UB
  end.

Lemma sim_bind {A A' B B'} pf L m before (f : action A) (o : outcome B) after R Big
    (k : A -> action A') (k' : B -> outcome B') after' R' Big' :
  sim pf L m before f o after R Big ->
  (forall m1 a b, framed m m1 before (after a) -> R m1 a b -> sim pf L m1 (after a) (k a) (k' b) after' R' Big') ->
  (forall b b', Big b -> k' b = Ret b' -> Big' b') ->
  sim pf L m before (and_then f k) (obind o k') after' R' Big'.
Proof.
  unfold sim, and_then. intros Hf Hk Hb. destruct (f m) as [m1 a|m1 why|].
  - destruct Hf as (b & -> & Hfr & Hr & Hcalls). cbn [obind]. specialize (Hk m1 a b Hfr Hr). destruct (k a m1) as [m2 a'|m2 why|].
    + destruct Hk as (b' & E & Hfr' & Hr' & Hcalls'). exists b'. split; [exact E|]. split; [eapply framed_trans; eassumption|]. split; [exact Hr'|].
      intros HL. destruct (Hcalls HL) as [Hc|Hc]; [|right; eapply Hb; eassumption]. destruct (Hcalls' HL) as [Hc'|Hc']; [left; congruence|right; exact Hc'].
    + destruct why; [| | |exact Hk]; try (destruct Hk as [Hk1 Hk2]; split; [eapply framed_trans; eassumption|exact Hk2]).
      destruct Hk as [Hk1 Hk2]; split; [exact Hk1|eapply framed_trans; eassumption].
    + exact Hk.
  - destruct why.
    + destruct Hf as [Hf1 Hf2]. split; [exact Hf1|]. intros b' E. destruct o as [b| | |]; try discriminate. eapply Hb; [apply Hf2; reflexivity|exact E].
    + destruct Hf as [Hf1 Hf2]. split; [exact Hf1|]. intros b' E. destruct o as [b| | |]; try discriminate. eapply Hb; [apply Hf2; reflexivity|exact E].
    + destruct Hf as [-> Hf]. split; [reflexivity|exact Hf].
    + subst o. reflexivity.
  - subst o. reflexivity.
Qed.

Lemma sim_weaken {A B} pf L m before (f : action A) (o : outcome B) after (R R' : memory -> A -> B -> Prop) (Big Big' : B -> Prop) :
  sim pf L m before f o after R Big -> (forall m' a b, R m' a b -> R' m' a b) -> (forall b, Big b -> Big' b) -> sim pf L m before f o after R' Big'.
Proof.
  unfold sim. intros H HR HB. destruct (f m) as [m' a|m' why|]; [|destruct why; intuition|exact H].
  destruct H as (b & E & Hf & Hr & Hc). exists b. split; [exact E|]. split; [exact Hf|]. split; [apply HR, Hr|]. intros HL. destruct (Hc HL); auto.
Qed.

Lemma sim_done {A B} pf L m before (a : A) (b : B) after (R : memory -> A -> B -> Prop) Big : before = after a -> R m a b ->
  sim pf L m before (done a) (Ret b) after R Big.
Proof. intros -> H. exists b. split; [reflexivity|]. split; [apply framed_refl|]. split; [exact H|]. auto. Qed.

(** What does not touch the heap. *)
Lemma holding_sim {A A' B'} pf L m locals (o : outcome A) (k : A -> action A') (k' : A -> outcome B') after R Big :
  holds (target pf) m locals ->
  (forall a, o = Ret a -> sim pf L m (owned_by locals) (k a) (k' a) after R Big) ->
  sim pf L m (owned_by locals) (and_then (holding locals o) k) (obind o k') after R Big.
Proof.
  intros Hl Hk. destruct o as [a| | |]; [apply (Hk a eq_refl)| | |].
  - unfold sim, and_then, holding, unwinding, pure. unfold stopped at 1. destruct (drop_all_done _ _ _ Hl) as (m' & E & Hf). unfold and_then. rewrite E. split; [reflexivity|exact Hf].
  - reflexivity.
  - reflexivity.
Qed.

Lemma holding_panic {A B} pf L m locals after (R : memory -> A -> B -> Prop) Big : holds (target pf) m locals ->
  sim pf L m (owned_by locals) (holding locals Panic) Panic after R Big.
Proof.
  intros Hl. unfold sim, holding, unwinding, pure. unfold stopped at 1. destruct (drop_all_done _ _ _ Hl) as (m' & E & Hf). unfold and_then. rewrite E. split; [reflexivity|exact Hf].
Qed.

Lemma same_str c m v s : repr c m v s -> exists t, good c s t /\ as_str s = Ret t /\ held_str v m = Done m t /\ (length t <= 62 -> exists i, v = HInline i)%nat /\
  N.of_nat (length t) <= N.max 62 (isize_max c) /\ valid_utf8 t = true.
Proof.
  intros (t & Hg & Hm & Hs & Hc). exists t. split; [exact Hg|]. pose proof Hg as (cs & Hr & Et). split; [rewrite Et; eapply rep_str, Hr|].
  split; [exact (matches_str _ _ _ _ Hm)|]. split; [|split; [|eapply good_valid, Hg]].
  - intros Hle. destruct v as [i|h]; [eauto|exfalso]. destruct Hm as (_ & Hh & _). cbn [nominal_text in_heap] in Hh. unfold at_most_62 in Hh.
    destruct (Nat.leb_spec (length t) 62); [discriminate|lia].
  - destruct v as [i|h].
    + destruct Hm as (_ & _ & _ & H62). cbn [nominal_text PropertiesHeap.text] in H62. unfold at_most_62 in H62. apply Nat.leb_le in H62. lia.
    + destruct (matches_room _ _ _ _ h Hm eq_refl) as (E & Hle & _). cbn [nominal_text PropertiesHeap.text] in E. rewrite <- E. lia.
Qed.

Lemma empty_sim {A' B'} pf L m locals v s (k : bool -> action A') (k' : bool -> outcome B') before after R Big :
  repr (target pf) m v s ->
  (forall e, sim pf L m before (k e) (k' e) after R Big) ->
  sim pf L m before (and_then (unwinding locals (held_is_empty v)) k) (obind (is_empty s) k') after R Big.
Proof.
  intros Hr Hk. destruct (same_str _ _ _ _ Hr) as (t & _ & Es & Eh & _).
  unfold sim, and_then, unwinding, held_is_empty, is_empty. rewrite Es. cbn [obind]. unfold and_then. rewrite Eh. unfold done. apply Hk.
Qed.

(** Pushes *)
Definition held_step (pf : platform) (v : held) (o : op) : action (held * result unit out_of_memory) :=
  match o with
  | Push ch => held_push pf v ch
  | PushStr bs => held_push_str pf v bs
  | PushFront ch => held_push_front pf v ch
  | Edit f => v <~ held_edit v f ;; done (v, Ok tt)
  end.

Lemma push_str_no_error pf v bs : no_error (held_push_str pf v bs).
Proof.
  unfold held_push_str. destruct v as [i|s].
  - cbn zeta. destruct (_ && _); repeat (apply no_error_then; intros ?); intros m; exact I.
  - apply no_error_then. intros a m. exact I.
Qed.

Lemma push_front_no_error pf v ch : no_error (held_push_front pf v ch).
Proof.
  unfold held_push_front. destruct v as [i|s].
  - apply no_error_then. intros a. cbn zeta. apply no_error_then. intros n. destruct (n <=? INLINE_CAPACITY); repeat (apply no_error_then; intros ?); intros m; exact I.
  - apply no_error_then. intros a m. exact I.
Qed.

Lemma step_no_error pf v o : no_error (held_step pf v o).
Proof. destruct o; [apply push_no_error|apply push_str_no_error|apply push_front_no_error|]. apply no_error_then. intros a m. exact I. Qed.

Lemma change_step pf v o m : change pf v o m =
  match held_step pf v o m with Done m' (v', _) => Done m' v' | Stopped m' why => Stopped m' why | Undefined => Undefined end.
Proof.
  destruct o; cbn [change held_step]; unfold and_then, done.
  - destruct (held_push pf v ch m) as [? [? ?]| |]; reflexivity.
  - destruct (held_push_str pf v bs m) as [? [? ?]| |]; reflexivity.
  - destruct (held_push_front pf v ch m) as [? [? ?]| |]; reflexivity.
  - destruct (held_edit v _ m) as [? ?| |]; reflexivity.
Qed.

Definition op_ok (c : config) (o : op) : Prop :=
  valid_op o /\ is_edit o = false /\ match o with PushStr bs => N.of_nat (length bs) <= isize_max c | _ => True end.

Lemma op_text_longer t o : is_edit o = false -> length (op_text t o) = (length t + N.to_nat (bytes_added o))%nat.
Proof. destruct o; cbn [is_edit op_text bytes_added]; intros E; try discriminate; rewrite app_length; lia. Qed.

Lemma push_facts pf L m v s o : valid_platform pf -> provides pf L -> repr (target pf) m v s -> op_ok (target pf) o ->
  match held_step pf v o m with
  | Done m' (v', r) => r = Ok tt /\ framed m m' (blocks_of v) (blocks_of v') /\
      exists s', step (target pf) s o = Ret (s', Ok tt) /\ repr (target pf) m' v' s' /\ (L = 62 -> calls m' = calls m \/ big (target pf) (N.succ L) s')
  | Stopped m' why => m' = m /\ (why = CapacityOverflow \/ why = AllocError) /\ exists s', step (target pf) s o = Ret (s', Ok tt) /\ big (target pf) (N.succ L) s'
  | Undefined => False
  end.
Proof.
  intros Hp [HL Hprov] (t & Hg & Hm & Hs & Hcap) (Hv & He & Hmax).
  pose proof (change_yields pf m v t _ o Hp Hm Hv Hmax) as Hy.
  pose proof (asks_change pf v o Hp (matches_sound _ _ _ _ Hm) Hv Hmax m) as Ha.
  pose proof (fun m' v' => change_same pf m v t _ o m' v' s Hp Hm Hv Hmax Hs) as Hsame.
  pose proof (step_effect _ _ _ o Hg Hv) as Hst. pose proof Hp as (_ & Hal & _). unfold op_effect, succeeds, roomy in Hst. rewrite Hal in Hst. cbn [orb] in Hst. rewrite orb_true_r in Hst.
  destruct Hst as (s1 & Es1 & Hg1 & _).
  pose proof (op_text_longer t o He) as Hlong.
  assert (negb (at_most_62 t) || negb (at_most_62 (op_text t o)) = negb (at_most_62 (op_text t o))) as Hh.
  { unfold at_most_62. destruct (Nat.leb_spec (length t) 62), (Nat.leb_spec (length (op_text t o)) 62); cbn; try reflexivity; lia. }
  rewrite Hh in Hy. rewrite change_step in *.
  assert (size (slot_of (ANominal v)) = N.of_nat (length t)) as Hsize.
  { destruct v as [i|h]; cbn [slot_of size].
    - destruct Hm as (_ & _ & Hgi & _). destruct (inline_facts _ _ _ Hgi) as (_ & -> & _). reflexivity.
    - destruct (matches_room _ _ _ _ h Hm eq_refl) as (E & _). exact E. }
  assert (forall n, room (slot_of (ANominal v)) = Some n -> 62 < n) as Hroom.
  { intros n En. destruct v as [i|h]; [discriminate|]. cbn [slot_of room] in En. injection En as <-.
    destruct (matches_room _ _ _ _ h Hm eq_refl) as (E & Hle & _). destruct Hm as (_ & Hin & _). cbn [nominal_text in_heap PropertiesHeap.text] in *. unfold at_most_62 in Hin.
    destruct (Nat.leb_spec (length t) 62); [discriminate|lia]. }
  assert (room (slot_of (ANominal v)) = None -> N.of_nat (length t) <= 62) as Hroom0.
  { destruct v as [i|h]; [intros _|discriminate]. destruct Hm as (_ & _ & _ & H62). cbn [nominal_text PropertiesHeap.text] in H62. unfold at_most_62 in H62. apply Nat.leb_le in H62. lia. }
  unfold change_effect in Ha. rewrite Hsize in Ha. cbn zeta in Ha.
  assert (N.of_nat (length t) + bytes_added o = N.of_nat (length (op_text t o))) as Hn by lia. rewrite Hn in Ha.
  assert (L < N.of_nat (length (op_text t o)) -> big (target pf) (N.succ L) s1) as Hbig by (intros H; exists (op_text t o); split; [exact Hg1|lia]).
  pose proof (step_no_error pf v o m) as Hne.
  destruct (held_step pf v o m) as [m' [v' [[]|e]]|m' why|]; [|contradiction| |exact Hy].
  - destruct Hy as [Hfr Hm']. split; [reflexivity|]. split; [apply frame_framed, Hfr|]. exists s1. split; [exact Es1|].
    destruct (Hsame m' v' eq_refl) as (s2 & Es2 & Hs2). rewrite Es1 in Es2. injection Es2 as <-. split.
    + exists (op_text t o). split; [exact Hg1|]. split; [exact Hm'|]. split; [exact Hs2|].
      destruct v' as [i'|h']; [exact I|]. destruct Ha as (Hans & _ & Hslot).
      destruct (room (slot_of (ANominal v))) as [cap|] eqn:Er.
      * cbn [fst snd] in *. cbn [slot_of] in Hslot. injection Hslot as _ Hc'. rewrite Hc'. unfold then_room, more in *.
        destruct (N.of_nat (length (op_text t o)) <=? cap).
        { destruct v as [i|h]; [discriminate|]. cbn [slot_of room] in Er. injection Er as <-. exact Hcap. }
        unfold answer in Hans. destruct (cap =? 0); destruct (N.ltb_spec (isize_max (target pf)) (grow pf cap (N.of_nat (length (op_text t o))))); try discriminate; lia.
      * destruct (N.of_nat (length (op_text t o)) <=? 62); cbn [fst snd] in *; cbn [slot_of] in Hslot; [discriminate|]. injection Hslot as _ Hc'. rewrite Hc'.
        unfold answer in Hans. destruct (N.ltb_spec (isize_max (target pf)) (N.of_nat (length (op_text t o)))); [discriminate|lia].
    + intros ->. destruct Ha as (_ & Hcalls & _). destruct (N.ltb_spec 62 (N.of_nat (length (op_text t o)))) as [Hlt|Hle]; [right; apply Hbig, Hlt|left].
      destruct (room (slot_of (ANominal v))) as [cap|] eqn:Er.
      * specialize (Hroom cap eq_refl). cbn [fst] in Hcalls. unfold more in Hcalls. destruct (N.leb_spec (N.of_nat (length (op_text t o))) cap); [|lia]. cbn [made app] in Hcalls. rewrite app_nil_r in Hcalls. exact Hcalls.
      * destruct (N.leb_spec (N.of_nat (length (op_text t o))) 62); [|lia]. cbn [fst made app] in Hcalls. rewrite app_nil_r in Hcalls. exact Hcalls.
  - cbn [PropertiesHeap.yields] in Hy. split; [exact Hy|]. destruct Ha as (Hans & _). split.
    + unfold answer in Hans. destruct (fst _) as [k|]; [|discriminate]. cbn zeta in Hans. destruct (_ <? _); [injection Hans as <-; auto|]. destruct (grants pf _ k); [discriminate|injection Hans as <-; auto].
    + exists s1. split; [exact Es1|]. apply Hbig. destruct (N.ltb_spec L (N.of_nat (length (op_text t o)))) as [H|Hle]; [exact H|exfalso].
      destruct (room (slot_of (ANominal v))) as [cap|] eqn:Er.
      * specialize (Hroom cap eq_refl). cbn [fst] in Hans. unfold more in Hans. destruct (N.leb_spec (N.of_nat (length (op_text t o))) cap); [discriminate|].
        destruct (N.eqb_spec cap 0); [lia|]. destruct (Hprov (calls m) (N.of_nat (length (op_text t o))) ltac:(lia)) as [_ Hq]. rewrite Hq in Hans by lia. discriminate.
      * specialize (Hroom0 eq_refl). destruct (N.leb_spec (N.of_nat (length (op_text t o))) 62); cbn [fst] in Hans; [discriminate|].
        destruct (Hprov (calls m) (N.of_nat (length (op_text t o))) ltac:(lia)) as [Hq _]. rewrite Hq in Hans. discriminate.
Qed.

Lemma holds_live c m l p : holds c m l -> In p (owned_by l) -> live m p <> None.
Proof. intros [H _] Hp. apply owned_by_in in Hp as (w & Hw & Hp). rewrite Forall_forall in H. destruct (H w Hw) as (s & Hs). eapply repr_live; eassumption. Qed.

Lemma holds_tail c m v l : holds c m (v :: l) -> holds c m l.
Proof. intros [H1 H2]. inversion_clear H1. split; [assumption|]. unfold owned_by in *. cbn [flat_map] in H2. apply (NoDup_app_parts _ _ H2). Qed.

Lemma holds_replace c m m' v v' s' l : holds c m (v :: l) -> framed m m' (blocks_of v) (blocks_of v') -> repr c m' v' s' ->
  holds c m' (v' :: l) /\ framed m m' (owned_by (v :: l)) (owned_by (v' :: l)).
Proof.
  intros Hl Hf Hr. pose proof Hl as [_ Hnd]. unfold owned_by in Hnd. cbn [flat_map] in Hnd.
  assert (forall p, In p (owned_by l) -> ~ In p (blocks_of v)) as Hd.
  { intros p Hp Hv. exact (NoDup_app_disjoint _ _ Hnd p Hv Hp). }
  split.
  - pose proof (holds_framed _ _ _ _ _ _ (holds_tail _ _ _ _ Hl) Hf Hd) as [H1 H2]. split; [constructor; [exists s'; exact Hr|exact H1]|].
    unfold owned_by. cbn [flat_map]. apply NoDup_app_intro; [|exact H2|].
    + unfold blocks_of. destruct (held_owned v'); repeat constructor. intros [].
    + intros p Hp Hp'. destruct Hf as (_ & _ & H3 & _). destruct (H3 p Hp) as [Hb|Hge]; [exact (Hd p Hp' Hb)|].
      pose proof (live_lt m p (holds_live _ _ _ _ (holds_tail _ _ _ _ Hl) Hp')). lia.
  - unfold owned_by. cbn [flat_map]. apply framed_more; [exact Hf|]. intros p Hp. split; [apply (holds_live _ _ _ _ (holds_tail _ _ _ _ Hl) Hp)|apply Hd, Hp].
Qed.

Lemma pushing_sim {A B} pf L m locals v s o ret (k : held -> action A) (k2 : nominal_string * result unit out_of_memory -> outcome B) after R (Big : B -> Prop) :
  valid_platform pf -> provides pf L -> holds (target pf) m (v :: locals) -> repr (target pf) m v s -> op_ok (target pf) o ->
  (forall m1 v' s', framed m m1 (blocks_of v) (blocks_of v') -> step (target pf) s o = Ret (s', Ok tt) -> holds (target pf) m1 (v' :: locals) -> repr (target pf) m1 v' s' ->
     sim pf L m1 (owned_by (v' :: locals)) (k v') (k2 (s', Ok tt)) after R Big) ->
  (forall s' b, big (target pf) (N.succ L) s' -> k2 (s', Ok tt) = Ret b -> Big b) ->
  sim pf L m (owned_by (v :: locals)) (pushing locals v (held_step pf v o) ret k) (obind (step (target pf) s o) k2) after R Big.
Proof.
  intros Hp Hprov Hl Hr Ho Hk Hb. unfold pushing.
  eapply (sim_bind _ _ _ _ _ _ (fun r => owned_by (fst r :: locals))
    (fun m1 a b => snd a = Ok tt /\ snd b = Ok tt /\ repr (target pf) m1 (fst a) (fst b) /\ holds (target pf) m1 (fst a :: locals) /\
       framed m m1 (blocks_of v) (blocks_of (fst a)) /\ step (target pf) s o = Ret b)
    (fun b => snd b = Ok tt /\ big (target pf) (N.succ L) (fst b))).
  - pose proof (push_facts pf L m v s o Hp Hprov Hr Ho) as H. unfold sim, unwinding.
    destruct (held_step pf v o m) as [m' [v' r]|m' why|]; [| |contradiction].
    + destruct H as (-> & Hf & s' & E & Hr' & Hc). destruct (holds_replace _ _ _ _ _ _ _ Hl Hf Hr') as [Hl' Hf'].
      exists (s', Ok tt). split; [exact E|]. split; [exact Hf'|]. cbn [fst snd]. split; [auto 8|]. intros HL. destruct (Hc HL); auto.
    + destruct H as (-> & Hw & s' & E & Hbig). destruct (drop_all_done _ _ _ Hl) as (m' & Ed & Hf).
      destruct Hw as [-> | ->]; unfold and_then; rewrite Ed; unfold stopped; (split; [exact Hf|]); intros b Eb; rewrite E in Eb; injection Eb as <-; auto.
  - intros m1 [v' r] [s' r'] _ (Hr1 & Hr2 & Hrep & Hl' & Hf & Es). cbn [fst snd] in *. subst r r'. apply Hk; assumption.
  - intros [s' r'] b [Hr2 Hbig] E. cbn [fst snd] in *. subst r'. eapply Hb; eassumption.
Qed.

(** Dropping a variable and returning *)
Lemma drop_sim {A B} pf L m v s rest (k : action A) (o : outcome B) after R (Big : B -> Prop) :
  holds (target pf) m (v :: rest) -> repr (target pf) m v s ->
  (forall m1, framed m m1 (blocks_of v) [] -> holds (target pf) m1 rest -> sim pf L m1 (owned_by rest) k o after R Big) ->
  (L = 62 -> big (target pf) (N.succ L) s -> forall b, o = Ret b -> Big b) ->
  sim pf L m (owned_by (v :: rest)) (_ <~ held_drop v ;; k) o after R Big.
Proof.
  intros Hl Hr Hk Hb. pose proof Hl as [_ Hnd]. unfold owned_by in Hnd. cbn [flat_map] in Hnd.
  destruct (held_drop_done _ _ _ (ex_intro _ s Hr)) as (m1 & E & Hf & Hc).
  assert (framed m m1 (owned_by (v :: rest)) (owned_by rest)) as Hf1.
  { unfold owned_by at 1. cbn [flat_map]. apply (framed_more _ _ _ [] _ Hf). intros p Hp. split; [apply (holds_live _ _ _ _ (holds_tail _ _ _ _ Hl) Hp)|].
    intros Hv. exact (NoDup_app_disjoint _ _ Hnd p Hv Hp). }
  assert (holds (target pf) m1 rest) as Hl1.
  { eapply holds_framed; [eapply holds_tail, Hl|exact Hf|]. intros p Hp Hv. exact (NoDup_app_disjoint _ _ Hnd p Hv Hp). }
  specialize (Hk m1 Hf Hl1). unfold sim, and_then in *. rewrite E. destruct (k m1) as [m2 a|m2 why|]; [| |exact Hk].
  - destruct Hk as (b & Eb & Hf2 & Hr2 & Hc2). exists b. split; [exact Eb|]. split; [eapply framed_trans; eassumption|]. split; [exact Hr2|].
    intros HL. destruct v as [i|h].
    + destruct (Hc2 HL); [left; congruence|auto].
    + right. eapply Hb; [exact HL| |exact Eb]. subst L. destruct Hr as (t & Hg & Hm & _). exists t. split; [exact Hg|].
      destruct Hm as (_ & Hh & _). cbn [nominal_text in_heap] in Hh. unfold at_most_62 in Hh. destruct (Nat.leb_spec (length t) 62); [discriminate|lia].
  - destruct why; try exact Hk; (destruct Hk as [Hk1 Hk2]; split; try assumption; eapply framed_trans; eassumption).
Qed.

(** New strings *)
Lemma repr_empty c m : repr c m empty_forward new.
Proof.
  assert (good c new []) as Hg by (apply (good_reads _ new []), new_rep). exists []. split; [exact Hg|]. split; [|split; [reflexivity|exact I]].
  split; [reflexivity|]. split; [reflexivity|]. split; [exact Hg|reflexivity].
Qed.

Lemma repr_empty_reverse c m : repr c m empty_reverse new_reverse.
Proof.
  assert (good c new_reverse []) as Hg by (apply (good_reads _ new_reverse []), new_reverse_rep). exists []. split; [exact Hg|]. split; [|split; [reflexivity|exact I]].
  split; [reflexivity|]. split; [reflexivity|]. split; [exact Hg|reflexivity].
Qed.

Lemma make_sim pf L m k (f : action held) (o : outcome nominal_string) : valid_platform pf -> provides pf L ->
  (forall x, valid_statement (target pf) (Let x k)) -> nominal_source k -> make pf k = (v <~ f ;; done (ANominal v)) -> o = construct (target pf) (constructor_of k) ->
  constructor_text (constructor_of k) = PropertiesHeap.text (source_means k) ->
  in_heap (source_means k) = negb (at_most_62 (PropertiesHeap.text (source_means k))) ->
  fst (made_slot k) = (if at_most_62 (PropertiesHeap.text (source_means k)) then None else Some (Allocate (N.of_nat (length (PropertiesHeap.text (source_means k)))))) ->
  is_string (source_means k) = false ->
  sim pf L m [] f o blocks_of (fun m' v s => repr (target pf) m' v s) (big (target pf) (N.succ L)).
Proof.
  intros Hp [HL Hprov] Hk Hn Ef -> Htext Hin Hreq Hstr.
  pose proof (make_yields pf m k Hp Hk) as Hy. pose proof (asks_make pf k Hp Hk m) as Ha. pose proof (fun m' w => make_same pf k m m' w Hp Hk Hn) as Hs.
  assert (exists s1, construct (target pf) (constructor_of k) = Ret s1 /\ good (target pf) s1 (PropertiesHeap.text (source_means k))) as (s1 & Es1 & Hg1).
  { rewrite <- Htext. pose proof (construct_spec (target pf) (constructor_of k)) as H.
    assert (valid_constructor (target pf) (constructor_of k)) as Hvc by (specialize (Hk 0%nat); destruct k; try exact I; try exact Hk; contradiction).
    specialize (H Hvc). destruct Hp as (_ & Hal & _). assert (constructor_fits (target pf) (constructor_of k) = true) as Hfit by (unfold constructor_fits; destruct (constructor_of k); try reflexivity; rewrite Hal; reflexivity).
    rewrite Hfit in H. destruct H as (s & E & Hg & _). eauto. }
  rewrite Ef in *. unfold sim. unfold and_then, done in *. set (txt := PropertiesHeap.text (source_means k)) in *.
  destruct (f m) as [m' v|m' why|]; [| |contradiction].
  - destruct Hy as [Hfr Hm]. destruct (Hs m' (ANominal v) eq_refl) as (v' & s & [= <-] & Es & Hsame). rewrite Es1 in Es. injection Es as <-.
    exists s1. split; [exact Es1|]. destruct Ha as (Hans & Hcalls & Hslot). split; [apply (frame_framed m m' (HInline {| length_byte := 0; cells := [] |}) v), Hfr|]. split.
    + exists txt. split; [exact Hg1|]. assert (source_means k = nominal_text txt (negb (at_most_62 txt))) as Eq by (unfold txt in *; destruct (source_means k); cbn in *; unfold nominal_text; congruence).
      rewrite <- Eq. split; [exact Hm|]. split; [exact Hsame|]. destruct v as [i|h]; [exact I|].
      assert (at_most_62 txt = false) as H62 by (destruct Hm as (_ & Hh & _); rewrite Hin in Hh; apply negb_true_iff in Hh; exact Hh).
      rewrite Hreq, H62 in Hans. unfold answer in Hans. destruct (N.ltb_spec (isize_max (target pf)) (N.of_nat (length txt))) as [|Hle]; [discriminate|].
      assert (capacity h = N.of_nat (length txt)) as ->; [|exact Hle].
      destruct k as [| |ch|bs|bs spare]; [discriminate..| |contradiction].
      cbn [made_slot snd slot_of] in Hslot. cbn zeta in Hslot. destruct (N.of_nat (length bs) <=? 62); cbn [snd] in Hslot; [discriminate|]. injection Hslot as _ ->. reflexivity.
    + intros ->. rewrite Hreq in Hcalls. unfold at_most_62 in Hcalls. destruct (Nat.leb_spec (length txt) 62); [left; cbn [made app] in Hcalls; rewrite app_nil_r in Hcalls; exact Hcalls|].
      right. exists txt. split; [exact Hg1|lia].
  - cbn [PropertiesHeap.yields] in Hy. subst m'. destruct Ha as [Hans _]. rewrite Hreq in Hans.
    assert (L < N.of_nat (length txt)) as Hbig.
    { unfold at_most_62 in Hans. destruct (Nat.leb_spec (length txt) 62); [discriminate|]. destruct (N.ltb_spec L (N.of_nat (length txt))) as [|Hle]; [assumption|exfalso].
      destruct (Hprov (calls m) (N.of_nat (length txt)) ltac:(lia)) as [Hq _]. rewrite Hq in Hans. discriminate. }
    assert (why = CapacityOverflow \/ why = AllocError) as [-> | ->].
    { destruct (at_most_62 txt); [discriminate|]. unfold answer in Hans. destruct (_ <? _); [injection Hans as <-; auto|]. destruct (grants pf _ _); [discriminate|injection Hans as <-; auto]. }
    + split; [apply framed_refl|]. intros b E. rewrite Es1 in E. injection E as <-. exists txt. split; [exact Hg1|lia].
    + split; [apply framed_refl|]. intros b E. rewrite Es1 in E. injection E as <-. exists txt. split; [exact Hg1|lia].
Qed.

Lemma from_char_sim pf L m ch : valid_platform pf -> provides pf L -> is_scalar ch = true ->
  sim pf L m [] (held_from_char pf ch) (from_char (target pf) ch) blocks_of (fun m' v s => repr (target pf) m' v s) (big (target pf) (N.succ L)).
Proof.
  intros Hp Hprov Hch. assert (at_most_62 (encode_char ch) = true) as E.
  { unfold at_most_62. apply Nat.leb_le. rewrite encode_char_length_nat. pose proof (len_utf8_bounds ch). lia. }
  apply (make_sim pf L m (FromOneChar ch)); try assumption; try reflexivity; try exact I.
  - intros x. exact Hch.
  - cbn [made_slot fst source_means inline_text nominal_text in_heap PropertiesHeap.text]. rewrite E. reflexivity.
Qed.

Lemma from_str_sim pf L m bs : valid_platform pf -> provides pf L -> valid_utf8 bs = true ->
  sim pf L m [] (held_from_str pf bs) (from_str (target pf) bs) blocks_of (fun m' v s => repr (target pf) m' v s) (big (target pf) (N.succ L)).
Proof.
  intros Hp Hprov Hbs. apply (make_sim pf L m (FromText bs)); try assumption; try reflexivity; try exact I; [intros x; exact Hbs|].
  cbn [made_slot source_means inline_text nominal_text PropertiesHeap.text]. cbn zeta. unfold at_most_62.
  destruct (N.leb_spec (N.of_nat (length bs)) 62), (Nat.leb_spec (length bs) 62); try lia; reflexivity.
Qed.

(** ** Loops *)

Definition step_owned {S R} (own : S -> list nat) (after : R -> list nat) (x : loop_step S R) : list nat :=
  match x with Continue s => own s | Break r => after r end.

Definition step_related {SA SB RA RB} (RS : memory -> SA -> SB -> Prop) (R : memory -> RA -> RB -> Prop) (m : memory)
    (x : loop_step SA RA) (y : loop_step SB RB) : Prop :=
  match x, y with
  | Continue a, Continue b => RS m a b
  | Break a, Break b => R m a b
  | _, _ => False
  end.

Definition step_big {S R} (BigS : S -> Prop) (Big : R -> Prop) (x : loop_step S R) : Prop :=
  match x with Continue s => BigS s | Break r => Big r end.

Lemma iterate_big {S R} d (body : S -> outcome (loop_step S R)) (BigS : S -> Prop) (Big : R -> Prop) :
  (forall s x, BigS s -> body s = Ret x -> step_big BigS Big x) -> forall s x, BigS s -> iterate d body s = Ret x -> step_big BigS Big x.
Proof.
  intros Hb. induction d as [|d IH]; cbn [iterate]; intros s x Hs E; [eapply Hb; eassumption|].
  destruct (iterate d body s) as [[s'|r]| | |] eqn:Ei; cbn [obind] in E; try discriminate.
  - eapply IH; [exact (IH _ _ Hs Ei)|exact E].
  - injection E as <-. exact (IH _ _ Hs Ei).
Qed.

Lemma repeat_sim {SA SB RA RB} pf L d (f : SA -> action (loop_step SA RA)) (body : SB -> outcome (loop_step SB RB)) own after (RS : memory -> SA -> SB -> Prop) (R : memory -> RA -> RB -> Prop) (BigS : SB -> Prop) (Big : RB -> Prop) :
  (forall m a b, RS m a b -> sim pf L m (own a) (f a) (body b) (step_owned own after) (step_related RS R) (step_big BigS Big)) ->
  (forall s x, BigS s -> body s = Ret x -> step_big BigS Big x) ->
  forall m a b, RS m a b -> sim pf L m (own a) (repeat_action d f a) (iterate d body b) (step_owned own after) (step_related RS R) (step_big BigS Big).
Proof.
  intros Hf Hb. induction d as [|d IH]; intros m a b Hr; cbn [repeat_action iterate]; [apply Hf, Hr|].
  eapply sim_bind; [apply IH, Hr| |].
  - intros m1 [a1|ra] [b1|rb] Hfr Hrel; cbn [step_related] in Hrel; try contradiction.
    + apply IH, Hrel.
    + apply sim_done; [reflexivity|exact Hrel].
  - intros [b1|rb] x Hbig E; cbn [step_big] in Hbig.
    + eapply iterate_big; eassumption.
    + injection E as <-. exact Hbig.
Qed.

Lemma loop_sim {SA SB RA RB} pf L c (f : SA -> action (loop_step SA RA)) (body : SB -> outcome (loop_step SB RB)) own after (RS : memory -> SA -> SB -> Prop) (R : memory -> RA -> RB -> Prop) (BigS : SB -> Prop) (Big : RB -> Prop) :
  (forall m a b, RS m a b -> sim pf L m (own a) (f a) (body b) (step_owned own after) (step_related RS R) (step_big BigS Big)) ->
  (forall s x, BigS s -> body s = Ret x -> step_big BigS Big x) ->
  forall m a b, RS m a b -> sim pf L m (own a) (loop_action c f a) (run_loop c body b) after R Big.
Proof.
  intros Hf Hb m a b Hr. unfold loop_action, run_loop. eapply sim_bind; [apply (repeat_sim pf L _ f body own after RS R BigS Big Hf Hb), Hr| |].
  - intros m1 [a1|ra] [b1|rb] Hfr Hrel; cbn [step_related] in Hrel; try contradiction.
    + reflexivity.
    + apply sim_done; [reflexivity|exact Hrel].
  - intros [b1|rb] x Hbig E; [discriminate|]. injection E as <-. exact Hbig.
Qed.

(** ** Texts only get longer *)

Lemma big_step c L s o s' r : has_alloc c = true -> big c L s -> valid_op o -> is_edit o = false -> step c s o = Ret (s', r) -> r = Ok tt /\ big c L s'.
Proof.
  intros Ha (t & Hg & Hlt) Hv He E. pose proof (step_effect _ _ _ o Hg Hv) as Hst. unfold op_effect, succeeds, roomy in Hst. rewrite Ha in Hst. cbn [orb] in Hst. rewrite orb_true_r in Hst.
  destruct Hst as (s1 & E1 & Hg1 & _). rewrite E in E1. injection E1 as -> ->. split; [reflexivity|]. exists (op_text t o). split; [exact Hg1|]. rewrite (op_text_longer t o He). lia.
Qed.

Lemma big_push {B} c L s o (k2 : nominal_string * result unit out_of_memory -> outcome B) (Big : B -> Prop) : has_alloc c = true ->
  big c L s -> valid_op o -> is_edit o = false -> (forall s' b, big c L s' -> k2 (s', Ok tt) = Ret b -> Big b) ->
  forall b, obind (step c s o) k2 = Ret b -> Big b.
Proof.
  intros Ha Hs Hv He Hk b E. destruct (step c s o) as [[s' r]| | |] eqn:Es; cbn [obind] in E; try discriminate.
  destruct (big_step _ _ _ _ _ _ Ha Hs Hv He Es) as [-> Hs']. eapply Hk; eassumption.
Qed.

Lemma big_pure {A B} (o : outcome A) (k : A -> outcome B) (Big : B -> Prop) : (forall a b, o = Ret a -> k a = Ret b -> Big b) -> forall b, obind o k = Ret b -> Big b.
Proof. intros H b E. destruct o as [a| | |]; try discriminate. eapply H; [reflexivity|exact E]. Qed.
