(** * PropertiesThreads: C109, several threads read one string *)

From Coq Require Import String.
From Verif Require Import Prelude Utf8Facts StringFacts History Cases Aliasing PropertiesAliasing TreeBorrows PropertiesTreeBorrows Threads.

(** ** Traces of readers

    References are made from known ones and used within their bytes, for
    reading alone. *)

Definition within (r R : range) : Prop := forall l, covers r l = true -> covers R l = true.

Definition knows (known : list (N * range)) (t : N) (r : range) : Prop := exists R, In (t, R) known /\ within r R.

Definition in_span (lo hi k : N) : Prop := lo <= k < hi.

Fixpoint safe (lo hi : N) (known : list (N * range)) (es : list event) : Prop :=
  match es with
  | [] => True
  | Enter k :: es | Leave k :: es => in_span lo hi k /\ safe lo hi known es
  | Access w t r :: es => w = false /\ knows known t r /\ safe lo hi known es
  | Retag k from new g r :: es =>
      (k = Shared \/ k = RawConst) /\ knows known from r /\ in_span lo hi new /\ (forall j, g = Some j -> in_span lo hi j) /\ safe lo hi ((new, r) :: known) es
  end.

Fixpoint learn (known : list (N * range)) (es : list event) : list (N * range) :=
  match es with
  | [] => known
  | Retag _ _ new _ r :: es => learn ((new, r) :: known) es
  | _ :: es => learn known es
  end.

Lemma safe_app lo hi es es' known : safe lo hi known (es ++ es') <-> safe lo hi known es /\ safe lo hi (learn known es) es'.
Proof.
  revert known. induction es as [|e es IH]; intros known; cbn [app safe learn]; [tauto|].
  destruct e; cbn [safe learn]; rewrite IH; tauto.
Qed.

Lemma learn_app es es' known : learn known (es ++ es') = learn (learn known es) es'.
Proof. revert known. induction es as [|e es IH]; intros known; cbn [app learn]; [reflexivity|]. destruct e; apply IH. Qed.

Lemma learn_more es known : incl known (learn known es).
Proof.
  revert known. induction es as [|e es IH]; intros known; cbn [learn]; [apply incl_refl|]. destruct e; try apply IH.
  eapply incl_tran; [|apply IH]. apply incl_tl, incl_refl.
Qed.

Lemma knows_more known known' t r : incl known known' -> knows known t r -> knows known' t r.
Proof. intros Hi (R & Hin & Hw). exists R. split; [apply Hi, Hin|exact Hw]. Qed.

(** Code that reads, given the references [K]; it leaves [Q]. *)
Definition reads {A} (K : list (N * range)) (m : emit A) (Q : A -> list (N * range)) : Prop :=
  forall n known, incl K known -> let '(a, es, n') := m n in
  n <= n' /\ incl (Q a) (learn known es) /\ forall lo hi, lo <= n -> n' <= hi -> safe lo hi known es.

Lemma reads_done {A} K (a : A) Q : incl (Q a) K -> reads K (done a) Q.
Proof. intros H n known HK. cbn. split; [lia|]. split; [eapply incl_tran; eassumption|]. auto. Qed.

Lemma reads_then {A B} K (m : emit A) (f : A -> emit B) Q Q' : reads K m Q -> (forall a, reads (Q a ++ K) (f a) Q') -> reads K (andthen m f) Q'.
Proof.
  intros Hm Hf n known HK. specialize (Hm n known HK). unfold andthen. destruct (m n) as [[a es] n1]. destruct Hm as (Hle & HQ & Hs).
  specialize (Hf a n1 (learn known es)). destruct (f a n1) as [[b es'] n2]. destruct Hf as (Hle' & HQ' & Hs').
  { apply incl_app; [exact HQ|]. eapply incl_tran; [exact HK|apply learn_more]. }
  split; [lia|]. rewrite learn_app. split; [exact HQ'|]. intros lo hi Hlo Hhi. apply safe_app. split; [apply Hs; lia|apply Hs'; lia].
Qed.

Lemma reads_read K t r R Q : In (t, R) K -> within r R -> Q tt = [] -> reads K (read t r) Q.
Proof.
  intros Hin Hw HQ n known HK. cbn. rewrite HQ. split; [lia|]. split; [intros x []|]. intros lo hi _ _. split; [reflexivity|]. split; [|exact I]. exists R. split; [apply HK, Hin|exact Hw].
Qed.

Lemma reads_reborrow K k t r R : k = Shared \/ k = RawConst -> In (t, R) K -> within r R -> reads K (reborrow k t None r) (fun a => [(a, r)]).
Proof.
  intros Hk Hin Hw n known HK. cbn. split; [lia|]. split; [intros x [<-|[]]; left; reflexivity|]. intros lo hi Hlo Hhi.
  split; [exact Hk|]. split; [exists R; split; [apply HK, Hin|exact Hw]|]. unfold in_span. split; [lia|]. split; [discriminate|exact I].
Qed.

Lemma reads_method {A} K t r R (body : N -> emit A) Q : In (t, R) K -> within r R -> (forall s, reads ((s, r) :: K) (body s) Q) -> reads K (method Shared t r body) Q.
Proof.
  intros Hin Hw Hb n known HK. unfold method, andthen, reborrow. specialize (Hb (n + 1) (n + 1 + 1) ((n + 1, r) :: known)).
  destruct (body (n + 1) (n + 1 + 1)) as [[a es] n']. destruct Hb as (Hle & HQ & Hs).
  { intros x [<-|Hx]; [left; reflexivity|right; apply HK, Hx]. }
  split; [lia|]. cbn [app learn]. rewrite learn_app. cbn [learn]. split; [exact HQ|]. intros lo hi Hlo Hhi. cbn [safe]. unfold in_span at 1. split; [lia|].
  split; [left; reflexivity|]. split; [exists R; split; [apply HK, Hin|exact Hw]|]. unfold in_span at 1. split; [lia|].
  split; [intros j [= <-]; unfold in_span; lia|]. apply safe_app. split; [apply Hs; lia|]. cbn. unfold in_span. split; [lia|exact I].
Qed.

Lemma reads_weaken {A} K K' (m : emit A) Q Q' : incl K K' -> (forall a, incl (Q' a) (Q a)) -> reads K m Q -> reads K' m Q'.
Proof.
  intros HK HQ H n known Hk. specialize (H n known (incl_tran HK Hk)). destruct (m n) as [[a es] n']. destruct H as (Hle & H & Hs).
  split; [exact Hle|]. split; [eapply incl_tran; [apply HQ|exact H]|exact Hs].
Qed.

(** *** The functions of a [&NominalString] *)

Lemma covers_spec r l : covers r l = true <-> fst r <= l < fst r + snd r.
Proof. unfold covers. rewrite andb_true_iff, N.leb_le, N.ltb_lt. tauto. Qed.

Lemma within_refl r : within r r.
Proof. intros l H. exact H. Qed.

Lemma within_of a n b m : b <= a -> a + n <= b + m -> within (a, n) (b, m).
Proof. intros H1 H2 l. rewrite !covers_spec. cbn [fst snd]. lia. Qed.

Definition nothing_kept {A} (_ : A) : list (N * range) := [].

Lemma reads_len K t : In (t, inline) K -> reads K (a_len t) nothing_kept.
Proof.
  intros H. eapply reads_method; [exact H|apply within_refl|]. intros s. eapply reads_read; [left; reflexivity|apply within_of; cbn; lia|reflexivity].
Qed.

Lemma reads_len_usize K t : In (t, inline) K -> reads K (a_len_usize t) nothing_kept.
Proof. intros H. eapply reads_method; [exact H|apply within_refl|]. intros s. apply reads_len. left. reflexivity. Qed.

Lemma reads_is_reverse K t : In (t, inline) K -> reads K (a_is_reverse t) nothing_kept.
Proof. exact (reads_len K t). Qed.

Lemma reads_data_offset K i t : In (t, inline) K -> reads K (a_data_offset i t) nothing_kept.
Proof.
  intros H. eapply reads_method; [exact H|apply within_refl|]. intros s. eapply reads_then; [apply reads_is_reverse; left; reflexivity|]. intros [].
  destruct (is_reverse i); [apply reads_len_usize; left; reflexivity|apply reads_done; intros x []].
Qed.

Lemma reads_as_ptr K t r : In (t, r) K -> reads K (a_as_ptr t r) (fun p => [(p, r)]).
Proof.
  intros H. eapply reads_method; [exact H|apply within_refl|]. intros s. eapply reads_reborrow; [right; reflexivity|left; reflexivity|apply within_refl].
Qed.

Ltac known := repeat (first [left; reflexivity | right]); try assumption.

Lemma text_within i : in_place (Inline i) -> within (text_range i) all_bytes.
Proof. intros H. apply in_place_inside in H. unfold inside, text_range, some_bytes, all_bytes in *. apply within_of; lia. Qed.

Lemma reads_as_bytes K i t : in_place (Inline i) -> In (t, inline) K -> reads K (a_as_bytes i t) (fun b => [(b, text_range i)]).
Proof.
  intros Hi H. eapply reads_method; [exact H|apply within_refl|]. intros s.
  eapply reads_then; [eapply (reads_reborrow _ Shared); [left; reflexivity|left; reflexivity|apply within_of; cbn; lia]|]. intros b. cbn [app].
  eapply reads_then; [apply reads_as_ptr; left; reflexivity|]. intros p. cbn [app].
  eapply reads_then; [apply reads_data_offset; right; right; left; reflexivity|]. intros []. cbn [app nothing_kept].
  eapply reads_then; [apply reads_len_usize; right; right; left; reflexivity|]. intros []. cbn [app nothing_kept].
  eapply reads_reborrow; [left; reflexivity|left; reflexivity|apply text_within, Hi].
Qed.

Lemma reads_inline_as_str K i t : in_place (Inline i) -> In (t, inline) K -> reads K (a_inline_as_str i t) (fun b => [(b, text_range i)]).
Proof.
  intros Hi H. eapply reads_method; [exact H|apply within_refl|]. intros s. eapply reads_then; [apply reads_as_bytes; [exact Hi|left; reflexivity]|]. intros b. cbn [app].
  eapply reads_reborrow; [left; reflexivity|left; reflexivity|apply within_refl].
Qed.

Lemma reads_deref K s t : in_place s -> In (t, whole) K ->
  reads K (a_deref s t) (fun r => [(r, match s with Inline i => text_range i | Heap _ => inline end)]).
Proof.
  intros Hs H. eapply reads_method; [exact H|apply within_refl|]. intros s1. eapply reads_method; [left; reflexivity|apply within_refl|]. intros s2.
  eapply (reads_then _ _ _ nothing_kept); [eapply reads_read; [left; reflexivity|apply within_of; cbn; lia|reflexivity]|]. intros []. cbn [app nothing_kept].
  destruct s as [i|bs].
  - eapply reads_then; [eapply (reads_reborrow _ Shared); [left; reflexivity|left; reflexivity|apply within_of; cbn; lia]|]. intros r. cbn [app].
    apply reads_inline_as_str; [exact Hs|left; reflexivity].
  - eapply reads_method; [left; reflexivity|apply within_of; cbn; lia|]. intros s3.
    eapply (reads_then _ _ _ nothing_kept); [eapply reads_read; [left; reflexivity|apply within_refl|reflexivity]|]. intros []. cbn [app nothing_kept]. apply reads_done. intros x [<-|[]]. left. reflexivity.
Qed.

Lemma reads_is_inline K t : In (t, whole) K -> reads K (a_is_inline t) nothing_kept.
Proof.
  intros H. eapply reads_method; [exact H|apply within_refl|]. intros s. eapply reads_read; [left; reflexivity|apply within_of; cbn; lia|reflexivity].
Qed.

(** Whole threads. *)
Lemma reader_trace c r uses : forall x n es x' n' known, plays_to c r x n uses es x' n' -> forallb reader uses = true -> in_place (string_of x) ->
  In (r, whole) known -> (forall v, In v (views x) -> knows known v (borrowed (string_of x))) ->
  n <= n' /\ forall lo hi, lo <= n -> n' <= hi -> safe lo hi known es.
Proof.
  induction uses as [|u us IH]; intros x n es x' n' known Hp Hu Hs Hr Hv; inversion Hp; subst; [split; [lia|intros; exact I]|].
  cbn [forallb] in Hu. apply andb_prop in Hu as [Hu Hus].
  match goal with E : use_trace _ _ _ _ = _, Em : _ n = _, Hrest : plays_to _ _ _ _ us _ _ _ |- _ => rename E into E0; rename Em into Em0; rename Hrest into Hrest0 end.
  assert (forall K A (f : emit A) (Q : A -> list (N * range)) (g : A -> scene), reads K f Q -> incl K known -> m = (a <! f ;; done (g a)) ->
    (forall a, string_of (g a) = string_of x /\ forall v, In v (views (g a)) -> knows (Q a ++ known) v (borrowed (string_of x))) ->
    n <= n' /\ (forall lo hi : N, lo <= n -> n' <= hi -> safe lo hi known (es0 ++ rest))) as Hgo.
  { intros K A f Q g Hf HK -> Hg. specialize (Hf n known HK). unfold andthen, done in Em0. destruct (f n) as [[a es1] n1]. injection Em0 as <- <- <-. rewrite app_nil_r.
    destruct Hf as (Hle & HQ & Hsafe). destruct (Hg a) as [Eg Hview].
    assert (incl (Q a ++ known) (learn known es1)) as Hincl by (apply incl_app; [exact HQ|apply learn_more]).
    destruct (IH _ _ _ _ _ (learn known es1) Hrest0 Hus) as [Hle' Hsafe'].
    - rewrite Eg. exact Hs.
    - apply learn_more, Hr.
    - rewrite Eg. intros v Hin. eapply knows_more; [exact Hincl|apply Hview, Hin].
    - split; [lia|]. intros lo hi Hlo Hhi. apply safe_app. split; [apply Hsafe; lia|apply Hsafe'; lia]. }
  destruct u as [ch|str|ch| | | |which j|j|j]; try discriminate Hu; cbn [use_trace] in E0.
  - injection E0 as <-. eapply (Hgo [(r, whole)] _ _ nothing_kept (fun _ => _)); [apply reads_is_inline; left; reflexivity|intros y [<-|[]]; exact Hr|reflexivity|]. intros a. split; [reflexivity|exact Hv].
  - injection E0 as <-. eapply (Hgo [(r, whole)] _ _ _ (fun a => _)); [apply reads_deref; [exact Hs|left; reflexivity]|intros y [<-|[]]; exact Hr|reflexivity|].
    intros a. split; [reflexivity|]. cbn [views]. intros v [<-|Hin].
    + eexists. split; [left; reflexivity|]. destruct (string_of x) as [i|bs]; cbn [borrowed]; [apply within_refl|]. intros l. rewrite covers_spec. cbn [fst snd]. lia.
    + eapply knows_more; [|apply Hv, Hin]. apply incl_appr, incl_refl.
  - destruct (nth_error (views x) which) as [v|] eqn:Ev; [|discriminate]. destruct (N.ltb_spec j (snd (borrowed (string_of x)))) as [Hj|]; [|discriminate]. injection E0 as <-.
    apply nth_error_In in Ev. destruct (Hv v Ev) as (R & HR & Hw).
    eapply (Hgo [(v, R)] _ _ nothing_kept (fun _ => x)); [eapply reads_read; [left; reflexivity| |reflexivity]|intros y [<-|[]]; exact HR|reflexivity|].
    + intros l Hl. apply Hw. rewrite covers_spec in *. cbn [fst snd] in Hl. lia.
    + intros a. split; [reflexivity|exact Hv].
Qed.

(** ** Interleavings *)

Lemma safe_more lo hi es : forall known known', incl known known' -> safe lo hi known es -> safe lo hi known' es.
Proof.
  induction es as [|e es IH]; intros known known' Hi; cbn [safe]; [auto|]. destruct e as [k|k|w t r|k from new g r].
  - intros [H1 H2]. eauto.
  - intros [H1 H2]. eauto.
  - intros (H1 & H2 & H3). split; [exact H1|]. split; [eapply knows_more; eauto|eauto].
  - intros (H1 & H2 & H3 & H4 & H5). split; [exact H1|]. split; [eapply knows_more; eauto|]. split; [exact H3|]. split; [exact H4|].
    eapply IH; [|exact H5]. intros x [<-|Hx]; [left; reflexivity|right; apply Hi, Hx].
Qed.

Lemma interleaved_safe lo hi ts es : interleaved ts es -> forall known, Forall (safe lo hi known) ts -> safe lo hi known es.
Proof.
  induction 1 as [ts Hts|before e t after es Hi IH]; intros known Hs; [exact I|].
  apply Forall_app in Hs as [Hb Hs]. apply Forall_cons_iff in Hs as [He Ha].
  assert (forall known', incl known known' -> safe lo hi known' t -> safe lo hi known' es) as Hgo.
  { intros known' Hk Ht. apply IH. apply Forall_app. split; [eapply Forall_impl; [|exact Hb]; intros a; apply safe_more, Hk|].
    constructor; [exact Ht|]. eapply Forall_impl; [|exact Ha]. intros a. apply safe_more, Hk. }
  destruct e as [k|k|w t0 r|k from new g r]; cbn [safe] in *.
  - destruct He as [H1 H2]. split; [exact H1|]. apply Hgo; [apply incl_refl|exact H2].
  - destruct He as [H1 H2]. split; [exact H1|]. apply Hgo; [apply incl_refl|exact H2].
  - destruct He as (H1 & H2 & H3). split; [exact H1|]. split; [exact H2|]. apply Hgo; [apply incl_refl|exact H3].
  - destruct He as (H1 & H2 & H3 & H4 & H5). repeat (split; [assumption|]). apply Hgo; [apply incl_tl, incl_refl|exact H5].
Qed.

Lemma thread_safe c s r n n' uses trace known lo : in_place s -> lo <= n -> In (r, whole) known -> thread c s r n n' uses trace -> safe lo n' known trace.
Proof.
  intros Hs Hlo Hr (Hu & first & x & last & Hf & Hl & Hp).
  destruct (reader_trace c r uses _ _ _ _ _ known Hp Hu Hs Hr) as [_ H]; [intros v []|]. apply H; lia.
Qed.

Lemma Forall2_right {A B} (P : A -> B -> Prop) (Q : B -> Prop) xs ys : (forall x y, P x y -> Q y) -> Forall2 P xs ys -> Forall Q ys.
Proof. intros H. induction 1; constructor; eauto. Qed.

Lemma together_safe c s n n' threads traces es : in_place s -> n < n' -> Forall2 (thread c s n (n + 1) n') threads traces -> interleaved traces es ->
  safe n n' [(0, whole)] (Retag Shared 0 n None whole :: es).
Proof.
  intros Hs Hn Ht Hi. cbn [safe]. split; [left; reflexivity|]. split; [exists whole; split; [left; reflexivity|apply within_refl]|].
  split; [split; lia|]. split; [discriminate|]. eapply interleaved_safe; [exact Hi|]. eapply Forall2_right; [|exact Ht]. intros us es' H.
  eapply thread_safe; [exact Hs| |left; reflexivity|exact H]. lia.
Qed.

(** ** Stacked Borrows *)

Definition span_of (lo hi : N) (ks : list N) : Prop := Forall (in_span lo hi) ks.

Definition bystander (lo : N) (i : item) : Prop := tag i <> 0 /\ (is_unique i = true -> forall k, guard i = Some k -> k < lo).

Definition shared_stack (l lo hi : N) (known : list (N * range)) (s : stack) : Prop :=
  if l <? 64 then
    exists above, s = above ++ [base] /\ Forall (young_item hi) s /\ Forall (bystander lo) above /\
      forall t R, In (t, R) known -> covers R l = true -> t = 0 \/ exists i, In i above /\ tag i = t /\ perm i = SharedReadOnly
  else s = [] /\ forall t R, In (t, R) known -> covers R l = false.

Lemma find_there t i s : In i s -> tag i = t -> grants (perm i) false = true -> exists a g r, find_granting false t s = Some (a, g :: r) /\ s = a ++ g :: r.
Proof.
  intros Hin Ht Hg. induction s as [|j s IH]; [destruct Hin|]. cbn [find_granting]. destruct ((tag j =? t) && grants (perm j) false) eqn:E.
  - exists [], j, s. auto.
  - destruct Hin as [->|Hin]; [rewrite Ht, N.eqb_refl, Hg in E; discriminate|]. destruct (IH Hin) as (a & g & r & -> & ->). exists (j :: a), g, r. auto.
Qed.

Lemma guarded_span lo hi calls i : span_of lo hi calls -> (forall k, guard i = Some k -> k < lo) -> guarded calls i = false.
Proof.
  intros Hc Hg. unfold guarded. destruct (guard i) as [k|]; [|reflexivity]. specialize (Hg k eq_refl). apply Bool.not_true_iff_false. intros H.
  apply existsb_exists in H as (j & Hj & E%N.eqb_eq). unfold span_of in Hc. rewrite Forall_forall in Hc. specialize (Hc j Hj). unfold in_span in Hc. lia.
Qed.

Lemma disable_bystander lo i : bystander lo i -> bystander lo (disable i).
Proof.
  intros [H1 H2]. unfold bystander. rewrite disable_tag, disable_guard. split; [exact H1|]. unfold disable. destruct (is_unique i) eqn:E; cbn; [discriminate|]. congruence.
Qed.

Lemma shared_read l lo hi known calls t r s : span_of lo hi calls -> shared_stack l lo hi known s -> knows known t r -> covers r l = true ->
  exists s', access calls false t s = Some s' /\ shared_stack l lo hi known s' /\ l <? 64 = true.
Proof.
  intros Hc Hs (R & Hin & Hw) Hl. unfold shared_stack in Hs |- *. specialize (Hw l Hl). destruct (l <? 64); [|destruct Hs as [_ Hs]; rewrite (Hs _ _ Hin) in Hw; discriminate].
  destruct Hs as (above & E & Hy & Hb & Hk).
  assert (exists a g rest, find_granting false t s = Some (a, g :: rest) /\ s = a ++ g :: rest) as (a & g & rest & Ef & Es).
  { destruct (Hk _ _ Hin Hw) as [->|(i & Hi & Ht & Hp)].
    - apply (find_there 0 base); [|reflexivity|reflexivity]. rewrite E. apply in_or_app. right. left. reflexivity.
    - apply (find_there t i); [rewrite E; apply in_or_app; left; exact Hi|exact Ht|rewrite Hp; reflexivity]. }
  assert (exists q, g :: rest = q ++ [base] /\ above = a ++ q) as (q & Eq & Ea).
  { rewrite E in Es. destruct (@exists_last _ (g :: rest)) as (q & b & Eq); [discriminate|]. rewrite Eq in *. rewrite app_assoc in Es. apply app_inj_tail in Es as [-> <-]. eauto. }
  rewrite Ea in Hb. apply Forall_app in Hb as [Hba Hbq]. unfold access. rewrite Ef.
  assert (existsb (fun i => is_unique i && guarded calls i) a = false) as ->.
  { clear - Hba Hc. induction Hba as [|i a [_ Hi] _ IH]; [reflexivity|]. cbn [existsb]. rewrite IH. destruct (is_unique i) eqn:E; [|reflexivity]. rewrite (guarded_span lo hi calls i Hc (Hi eq_refl)). reflexivity. }
  eexists. split; [reflexivity|]. split; [|reflexivity]. exists (map disable a ++ q). rewrite Eq, app_assoc. split; [reflexivity|].
  split; [|split].
  - rewrite Es, Eq in Hy. apply Forall_app in Hy as [Hy1 Hy2]. rewrite <- app_assoc. apply Forall_app. split; [|exact Hy2]. apply Forall_map. eapply Forall_impl; [|exact Hy1].
    intros i [H1 H2]. unfold young_item. rewrite disable_tag, disable_guard. auto.
  - apply Forall_app. split; [|exact Hbq]. apply Forall_map. eapply Forall_impl; [|exact Hba]. intros i. apply disable_bystander.
  - intros t' R' Hin' Hw'. destruct (Hk _ _ Hin' Hw') as [->|(i & Hi & Ht & Hp)]; [left; reflexivity|right]. exists i. split; [|auto]. rewrite Ea in Hi. apply in_app_iff in Hi. apply in_or_app.
    destruct Hi as [Hi|Hi]; [left|right; exact Hi]. apply in_map_iff. exists i. split; [|exact Hi]. unfold disable, is_unique. rewrite Hp. reflexivity.
Qed.

Lemma returned_span lo hi k calls : span_of lo hi calls -> span_of lo hi (returned k calls).
Proof. intros H. apply Forall_forall. intros j Hj. apply filter_In in Hj as [Hj _]. unfold span_of in H. rewrite Forall_forall in H. auto. Qed.

Lemma shared_add l lo hi known calls from new g r s : lo <> 0 -> span_of lo hi calls -> shared_stack l lo hi known s -> knows known from r -> in_span lo hi new -> (forall j, g = Some j -> in_span lo hi j) ->
  covers r l = true -> exists s', retag calls Shared from new g s = Some s' /\ shared_stack l lo hi ((new, r) :: known) s'.
Proof.
  intros Hlo Hc Hs Hk Hn Hg Hl. destruct (shared_read l lo hi known calls from r s Hc Hs Hk Hl) as (s' & Es & Hs' & Hl64). cbn [retag]. rewrite Es. eexists. split; [reflexivity|].
  unfold shared_stack in *. rewrite Hl64 in *. destruct Hs' as (above & -> & Hy & Hb & Hk'). eexists (_ :: above). split; [reflexivity|]. split; [|split].
  - constructor; [|exact Hy]. unfold young_item, in_span in *. cbn. split; [lia|]. intros k E. specialize (Hg k E). lia.
  - constructor; [|exact Hb]. unfold bystander, in_span in *. cbn. split; [lia|discriminate].
  - intros t R [E|Hin] Hcov; [injection E as <- <-; right; eexists; split; [left; reflexivity|auto]|]. destruct (Hk' _ _ Hin Hcov) as [H|(i & Hi & H)]; [left; exact H|right]. exists i. split; [right; exact Hi|exact H].
Qed.

Lemma shared_skip l lo hi known new r s : shared_stack l lo hi known s -> covers r l = false -> shared_stack l lo hi ((new, r) :: known) s.
Proof.
  unfold shared_stack. intros H Hr. destruct (l <? 64).
  - destruct H as (above & E & Hy & Hb & Hk). exists above. repeat (split; [assumption|]). intros t R [[= <- <-]|Hin] Hc; [congruence|eauto].
  - destruct H as [E Hk]. split; [exact E|]. intros t R [[= <- <-]|Hin]; [exact Hr|eauto].
Qed.

Lemma safe_stacked l lo hi es : lo <> 0 -> forall known calls s, safe lo hi known es -> span_of lo hi calls -> shared_stack l lo hi known s ->
  exists calls' s', shared_check l es (calls, s) = Some (calls', s') /\ shared_stack l lo hi (learn known es) s'.
Proof.
  intros Hlo. induction es as [|e es IH]; intros known calls s He Hc Hs; [eexists _, _; split; [reflexivity|exact Hs]|].
  destruct e as [k|k|w t r|k from new g r]; cbn [safe learn shared_check shared_event check_event fst snd] in *.
  - destruct He as [Hk He]. apply (IH known); [exact He|constructor; assumption|exact Hs].
  - destruct He as [Hk He]. apply (IH known); [exact He|apply returned_span, Hc|exact Hs].
  - destruct He as (-> & Hk & He). destruct (covers r l) eqn:Hl; [|apply (IH known); assumption].
    destruct (shared_read l lo hi known calls t r s Hc Hs Hk Hl) as (s' & -> & Hs' & _). apply (IH known); assumption.
  - destruct He as (Hk & Hf & Hn & Hg & He). destruct (covers r l) eqn:Hl.
    + destruct (shared_add l lo hi known calls from new g r s Hlo Hc Hs Hf Hn Hg Hl) as (s' & Es & Hs').
      assert (retag calls k from new g s = Some s') as -> by (destruct Hk as [-> | ->]; exact Es). apply (IH ((new, r) :: known)); assumption.
    + apply (IH ((new, r) :: known)); [exact He|exact Hc|apply shared_skip; assumption].
Qed.

Lemma between_shared c l x n s hi : n <= hi -> between c l x n s -> shared_stack l n hi [(0, whole)] s.
Proof.
  intros Hhi (_ & _ & H). unfold shared_stack. destruct (N.ltb_spec l 64) as [Hl|Hl].
  - destruct H as (above & -> & [Hy _] & Hc & _). exists above. split; [reflexivity|]. split; [|split].
    + eapply Forall_impl; [|exact Hy]. intros i. apply young_item_more, Hhi.
    + apply Forall_app in Hy as [Hy _]. apply Forall_forall. intros i Hi. unfold clear in Hc. rewrite Forall_forall in Hy, Hc. split; [apply Hc, Hi|]. intros _. apply Hy, Hi.
    + intros t R [[= <- <-]|[]] _. left. reflexivity.
  - split; [exact H|]. intros t R [[= <- <-]|[]]. apply Bool.not_true_iff_false. rewrite covers_spec. cbn. lia.
Qed.

Lemma shared_between c l lo hi known s s0 : (exists cs, rep c s cs) -> 0 < hi -> shared_stack l lo hi known s0 -> between c l (no_references s) hi s0.
Proof.
  intros Hs Hhi H. apply reborn; [exact Hs|exact Hhi|]. unfold shared_stack in H. destruct (l <? 64); [|apply H]. destruct H as (above & E & Hy & Hb & _). exists above. split; [exact E|].
  split; [split; [exact Hy|constructor]|]. eapply Forall_impl; [|exact Hb]. intros i [Hi _]. split; [exact Hi|]. unfold guarded. destruct (guard i); reflexivity.
Qed.

(** ** Tree Borrows *)

Definition onlooker (lo : N) (x : node) : Prop :=
  1 <= id x /\ (forall k, shield x = Some k -> 1 <= k) /\ (id x < lo -> forall k, shield x = Some k -> k < lo) /\ (lo <= id x -> standing_of x = Frozen).

Definition root (x : node) : Prop := id x = 0 /\ shield x = None /\ standing_of x = Active.

(** A path through references of this phase, to the owner. *)
Definition straight (lo hi : N) (t : N) (ps : paths) : Prop := exists q, path_of t ps = Some (q ++ [0]) /\ span_of lo hi q.

Definition shared_tree (lo hi : N) (known : list (N * range)) (W : world) : Prop :=
  span_of lo hi (running W) /\ unused hi W /\ path_of 0 (pointers W) = Some [0] /\
  (exists added x0, nodes W = added ++ [x0] /\ root x0 /\ Forall (onlooker lo) added /\ Forall (fun x => lo <= id x -> straight lo hi (id x) (pointers W)) added) /\
  forall t R, In (t, R) known -> straight lo hi t (pointers W).

Definition alike (a b : node) : Prop := id b = id a /\ shield b = shield a.

(** What reads do to the references. *)
Lemma each_read lo hi calls q added x0 f : 1 <= lo -> span_of lo hi calls -> span_of lo hi q -> root x0 -> Forall (onlooker lo) added ->
  (forall x, f x = Some x \/ f x = if on (q ++ [0]) x then by_own calls false x else by_other calls false x) ->
  exists added' x0', each f (added ++ [x0]) = Some (added' ++ [x0']) /\ root x0' /\ Forall (onlooker lo) added' /\ Forall2 alike added added'.
Proof.
  intros Hlo Hc Hq Hx0 Ha Hf.
  assert (exists x0', f x0 = Some x0' /\ root x0') as (x0' & E0 & Hx0').
  { destruct (Hf x0) as [E|E]; [eauto|]. destruct Hx0 as (H1 & H2 & H3). rewrite E, on_app. assert (on [0] x0 = true) as -> by (unfold on; rewrite H1; reflexivity). rewrite orb_true_r.
    unfold by_own. rewrite H3. eexists. split; [reflexivity|]. repeat split; assumption. }
  induction Ha as [|x added Hx Ha IH].
  - exists [], x0'. cbn [app each]. rewrite E0. repeat (split; [reflexivity || assumption || constructor|]). constructor.
  - destruct IH as (added' & x1 & Er & Hx1 & Ha' & H2). cbn [app each].
    assert (exists y, f x = Some y /\ onlooker lo y /\ alike x y) as (y & Ey & Hy & Hxy).
    { destruct (Hf x) as [E|E]; [exists x; split; [exact E|]; split; [exact Hx|split; reflexivity]|]. rewrite E. destruct Hx as (H1 & Hs1 & H3 & H4). destruct (N.lt_ge_cases (id x) lo) as [Hid|Hid].
      - assert (on (q ++ [0]) x = false) as ->.
        { rewrite on_app. rewrite (on_fresh q x lo); [|eapply Forall_impl; [|exact Hq]; intros k Hk; apply Hk|exact Hid]. cbn. destruct (N.eqb_spec (id x) 0); [lia|reflexivity]. }
        assert (shielded calls x = false) as Hs.
        { unfold shielded. destruct (shield x) as [k|]; [|reflexivity]. specialize (H3 Hid k eq_refl). apply Bool.not_true_iff_false. intros H.
          apply existsb_exists in H as (j & Hj & Ej%N.eqb_eq). unfold span_of in Hc. rewrite Forall_forall in Hc. specialize (Hc j Hj). unfold in_span in Hc. lia. }
        unfold by_other. rewrite Hs. cbn [andb]. destruct (standing_of x) eqn:Est; (eexists; split; [reflexivity|]); unfold onlooker, alike; cbn; (split; [|split; reflexivity]); repeat (split; [assumption|]); lia || (intros; lia).
      - specialize (H4 Hid). destruct (on (q ++ [0]) x).
        + unfold by_own. rewrite H4. eexists. split; [reflexivity|]. unfold onlooker, alike. cbn. repeat split; try assumption; auto.
        + unfold by_other. rewrite H4. eexists. split; [reflexivity|]. unfold onlooker, alike. repeat split; try assumption; auto. }
    rewrite Ey, Er. exists (y :: added'), x1. cbn [app]. split; [reflexivity|]. split; [exact Hx1|]. split; constructor; assumption.
Qed.

Lemma alike_straight lo hi ps added added' : Forall2 alike added added' -> Forall (fun x => lo <= id x -> straight lo hi (id x) ps) added ->
  Forall (fun x => lo <= id x -> straight lo hi (id x) ps) added'.
Proof. induction 1 as [|x y xs ys [E _] _ IH]; intros H; [constructor|]. apply Forall_cons_iff in H as [H1 H2]. constructor; [rewrite E; exact H1|auto]. Qed.

Lemma alike_unused hi added added' x0 x0' : 0 < hi -> root x0' -> Forall2 alike added added' -> Forall (fun x => id x < hi /\ forall k, shield x = Some k -> k < hi) (added ++ [x0]) ->
  Forall (fun x => id x < hi /\ forall k, shield x = Some k -> k < hi) (added' ++ [x0']).
Proof.
  intros Hhi (R1 & R2 & _) H. induction H as [|x y xs ys [E1 E2] _ IH]; cbn [app]; intros Hu.
  - constructor; [|constructor]. rewrite R1, R2. split; [lia|discriminate].
  - apply Forall_cons_iff in Hu as [Hx Hu]. constructor; [rewrite E1, E2; exact Hx|auto].
Qed.

(** Any step that treats references as a read through a known one does. *)
Lemma tree_read lo hi known W q f : 1 <= lo -> 0 < hi -> shared_tree lo hi known W -> span_of lo hi q ->
  (forall x, f x = Some x \/ f x = if on (q ++ [0]) x then by_own (running W) false x else by_other (running W) false x) ->
  exists xs, each f (nodes W) = Some xs /\ shared_tree lo hi known {| running := running W; pointers := pointers W; nodes := xs |}.
Proof.
  intros Hlo Hhi (Hr & Hu & H0 & (added & x0 & E & Hx0 & Ha & Hst) & Hk) Hq Hf.
  destruct (each_read lo hi (running W) q added x0 f Hlo Hr Hq Hx0 Ha Hf) as (added' & x0' & Ee & Hx0' & Ha' & H2). rewrite E, Ee.
  eexists. split; [reflexivity|]. split; [exact Hr|]. split; [|split; [exact H0|]; split; [|exact Hk]].
  - destruct Hu as (U1 & U2 & U3). split; [exact U1|]. split; [exact U2|]. cbn [nodes]. rewrite E in U3. eapply alike_unused; eassumption.
  - exists added', x0'. split; [reflexivity|]. split; [exact Hx0'|]. split; [exact Ha'|]. eapply alike_straight; eassumption.
Qed.

Lemma straight_cons lo hi t ps new p : straight lo hi t ps -> (exists q, p = q ++ [0] /\ span_of lo hi q) -> straight lo hi t ((new, p) :: ps).
Proof.
  intros (q & E & Hq) (q' & -> & Hq'). unfold straight. rewrite path_of_cons. destruct (new =? t); [eauto|eauto].
Qed.

Lemma tree_leave lo hi known W : 1 <= lo -> 0 < hi -> shared_tree lo hi known W -> forall args, Forall (fun a => standing_of a = Frozen /\ straight lo hi (id a) (pointers W)) args ->
  exists xs, release_all (running W) (pointers W) args (nodes W) = Some xs /\ shared_tree lo hi known {| running := running W; pointers := pointers W; nodes := xs |}.
Proof.
  intros Hlo Hhi HW args Ha. revert W HW Ha. induction args as [|a args IH]; intros W HW Ha; cbn [release_all].
  - exists (nodes W). split; [reflexivity|]. destruct W. exact HW.
  - apply Forall_cons_iff in Ha as [[Hfr (q & Eq & Hq)] Ha]. unfold release. rewrite Eq. unfold is_active. rewrite Hfr.
    destruct (tree_read lo hi known W q (fun x => if below (pointers W) (id a) x then Some x else if on (q ++ [0]) x then by_own (running W) false x else by_other (running W) false x) Hlo Hhi HW Hq) as (xs & -> & HW').
    { intros x. destruct (below (pointers W) (id a) x); auto. }
    apply (IH _ HW' Ha).
Qed.

Lemma safe_tree l lo hi es : 1 <= lo -> 0 < hi -> forall known W, safe lo hi known es -> shared_tree lo hi known W ->
  exists W', shared_tree_check l es W = Some W' /\ shared_tree lo hi (learn known es) W'.
Proof.
  intros Hlo Hhi. induction es as [|e es IH]; intros known W He HW; [eexists; split; [reflexivity|exact HW]|].
  destruct e as [k|k|w t r|k from new g r]; cbn [safe learn shared_tree_check shared_tree_event tree_event] in *.
  - destruct He as [Hk He]. apply (IH known); [exact He|]. destruct HW as (Hr & (U1 & U2 & U3) & HW). split; [constructor; assumption|]. split; [|exact HW].
    split; [|split; assumption]. intros j [<-|Hj]; [apply Hk|apply U1, Hj].
  - destruct He as [Hk He]. destruct (tree_leave lo hi known W Hlo Hhi HW (filter (argument_of k) (nodes W))) as (xs & -> & HW').
    { destruct HW as (_ & _ & _ & (added & x0 & E & (R1 & R2 & R3) & Ha & Hst) & _). apply Forall_forall. intros x Hx. apply filter_In in Hx as [Hx Hg]. rewrite E in Hx. unfold argument_of in Hg.
      apply in_app_iff in Hx as [Hx|[<-|[]]]; [|rewrite R2 in Hg; discriminate]. rewrite Forall_forall in Ha, Hst. destruct (Ha x Hx) as (_ & _ & H3 & H4).
      destruct (shield x) as [j|]; [|discriminate]. apply andb_prop in Hg as [Hj%N.eqb_eq _]. subst j.
      assert (lo <= id x) as Hid by (destruct (N.le_gt_cases lo (id x)) as [|Hlt]; [assumption|specialize (H3 Hlt k eq_refl); unfold in_span in Hk; lia]).
      split; [apply H4, Hid|apply Hst; assumption]. }
    apply (IH known); [exact He|]. destruct HW' as (Hr & (U1 & U2 & U3) & HW'). split; [apply returned_span, Hr|]. split; [|exact HW'].
    split; [|split; assumption]. intros j Hj. apply filter_In in Hj as [Hj _]. apply U1, Hj.
  - destruct He as (-> & (R & Hin & _) & He). destruct (covers r l); [|apply (IH known); assumption].
    pose proof HW as (_ & _ & _ & _ & Hk). destruct (Hk _ _ Hin) as (q & -> & Hq).
    destruct (tree_read lo hi known W q _ Hlo Hhi HW Hq (fun x => or_intror eq_refl)) as (xs & Ex & HW'). unfold touch. rewrite Ex. apply (IH known); assumption.
  - destruct He as (Hkind & (R & Hin & _) & Hn & Hg & He). pose proof HW as (_ & _ & _ & _ & Hk). destruct (Hk _ _ Hin) as (q & Eq & Hq). rewrite Eq.
    assert (forall p W0, shared_tree lo hi known W0 -> pointers W0 = pointers W -> p = q \/ p = new :: q ->
      shared_tree lo hi ((new, r) :: known) {| running := running W0; pointers := (new, p ++ [0]) :: pointers W0; nodes := nodes W0 |}) as Hadd.
    { clear - Hlo Hhi Hq Hn. intros p W0 (Hr & (U1 & U2 & U3) & H0 & (added & x0 & E & Hx0 & Ha & Hst) & Hk) Ep Hp.
      assert (span_of lo hi p) as Hps by (destruct Hp as [-> | ->]; [exact Hq|constructor; assumption]).
      assert (forall t, straight lo hi t (pointers W0) -> straight lo hi t ((new, p ++ [0]) :: pointers W0)) as Hkeep by (intros t Ht; apply straight_cons; [exact Ht|eauto]).
      split; [exact Hr|]. split; [|split; [|split]]; cbn [running pointers nodes].
      - split; [exact U1|]. split; [|exact U3]. cbn [pointers]. intros t p'. rewrite path_of_cons. destruct (N.eqb_spec new t) as [->|]; [|apply U2]. intros [= <-]. split; [apply Hn|].
        apply Forall_app. split; [eapply Forall_impl; [|exact Hps]; intros a Hak; apply Hak|constructor; [lia|constructor]].
      - rewrite path_of_cons. destruct (N.eqb_spec new 0); [unfold in_span in Hn; lia|exact H0].
      - exists added, x0. split; [exact E|]. split; [exact Hx0|]. split; [exact Ha|]. eapply Forall_impl; [|exact Hst]. intros x Hx Hid. apply Hkeep, Hx, Hid.
      - intros t R' [[= <- <-]|Hin']; [|eauto]. exists p. rewrite path_of_cons, N.eqb_refl. auto. }
    assert (forall W0 b, shared_tree lo hi ((new, r) :: known) W0 -> shared_tree lo hi ((new, r) :: known)
      {| running := running W0; pointers := pointers W0; nodes := {| id := new; standing_of := Frozen; seen := b; shield := g |} :: nodes W0 |}) as Hnode.
    { clear - Hlo Hhi Hn Hg. intros W0 b (Hr & (U1 & U2 & U3) & H0 & (added & x0 & E & Hx0 & Ha & Hst) & Hk).
      split; [exact Hr|]. split; [|split; [exact H0|split; [|exact Hk]]]; cbn [running pointers nodes].
      - split; [exact U1|]. split; [exact U2|]. constructor; [|exact U3]. cbn. split; [apply Hn|]. intros j Ej. apply Hg, Ej.
      - eexists (_ :: added), x0. rewrite E. split; [reflexivity|]. split; [exact Hx0|]. split; (constructor; [|assumption]); cbn.
        + unfold onlooker, in_span in *. cbn. split; [lia|]. split; [intros j Ej; specialize (Hg j Ej); lia|]. split; [intros; lia|reflexivity].
        + intros _. eapply Hk. left. reflexivity. }
    destruct Hkind as [-> | ->].
    + destruct (covers r l).
      * destruct (tree_read lo hi known W q _ Hlo Hhi HW Hq (fun x => or_intror eq_refl)) as (xs & Ex & HW'). unfold touch. rewrite Ex. apply (IH ((new, r) :: known)); [exact He|].
        apply (Hnode _ true (Hadd (new :: q) _ HW' eq_refl (or_intror eq_refl))).
      * apply (IH ((new, r) :: known)); [exact He|]. apply (Hnode _ false (Hadd (new :: q) W HW eq_refl (or_intror eq_refl))).
    + apply (IH ((new, r) :: known)); [exact He|]. apply (Hadd q W HW eq_refl (or_introl eq_refl)).
Qed.

Lemma unused_more n n' W : n <= n' -> unused n W -> unused n' W.
Proof.
  intros Hle (U1 & U2 & U3). split; [intros k Hk; specialize (U1 k Hk); lia|]. split.
  - intros t p E. destruct (U2 t p E) as [H1 H2]. split; [lia|]. eapply Forall_impl; [|exact H2]. cbn. intros. lia.
  - eapply Forall_impl; [|exact U3]. intros x [H1 H2]. split; [lia|]. intros k Ek. specialize (H2 k Ek). lia.
Qed.

Lemma sound_shared x n W hi : n <= hi -> sound x n W -> running W = [] /\ shared_tree n hi [(0, whole)] W.
Proof.
  intros Hle ((Hn & Hu & Hrun & Hp & (added & old & E & F & L) & Hr) & _). split; [exact Hrun|]. split; [rewrite Hrun; constructor|].
  split; [eapply unused_more; eassumption|]. assert (path_of 0 (pointers W) = Some [0]) as H0 by (apply Hp; reflexivity). split; [exact H0|].
  cbn [planted nodes] in F. inversion F as [|y x0 ys zs (K1 & K2 & K3) F' E1 E2]. subst. inversion F'. subst. split.
  - exists added, x0. split; [exact E|]. cbn in K1, K2, K3. split; [split; [exact K1|]; split; [exact K2|]; destruct K3 as [K3|[_ K3]]; exact K3|].
    destruct Hu as (_ & _ & U3). rewrite E in U3. apply Forall_app in U3 as [U3 _].
    assert (forall y, In y added -> 1 <= id y /\ id y < n /\ (forall k, shield y = Some k -> 1 <= k /\ k < n)) as Hy.
    { rewrite Forall_forall in L, U3. intros y Hy. destruct (L y Hy) as [L1 L2], (U3 y Hy) as [V1 V2]. split; [exact L1|]. split; [exact V1|]. auto. }
    split; apply Forall_forall; intros y Hin; destruct (Hy y Hin) as (Y1 & Y2 & Y3).
    + split; [exact Y1|]. split; [intros k Ek; apply Y3, Ek|]. split; [intros _ k Ek; apply Y3, Ek|intros; lia].
    + intros; lia.
  - intros t R [[= <- <-]|[]]. exists []. split; [exact H0|constructor].
Qed.

Lemma shared_sound s lo hi known W : 1 <= hi -> shared_tree lo hi known W -> sound (no_references s) hi {| running := []; pointers := pointers W; nodes := nodes W |}.
Proof.
  intros Hhi (Hr & (U1 & U2 & U3) & H0 & (added & x0 & E & (R1 & R2 & R3) & Ha & Hst) & Hk). split; [|split; [constructor|exact I]].
  split; [exact Hhi|]. split; [split; [intros k []|split; assumption]|]. split; [reflexivity|]. split; [|split].
  - cbn [planted pointers]. intros t p. rewrite path_of_cons. destruct (N.eqb_spec 0 t) as [<-|]; [intros [= <-]; exact H0|discriminate].
  - exists added, [x0]. split; [exact E|]. split.
    + constructor; [|constructor]. split; [exact R1|]. split; [exact R2|]. cbn. left. exact R3.
    + eapply Forall_impl; [|exact Ha]. intros x (H1 & H2 & _). split; assumption.
  - cbn [running nodes]. intros x Hx. rewrite E in Hx. split; [|unfold shielded; destruct (shield x); discriminate]. apply in_app_iff in Hx as [Hx|[<-|[]]].
    + rewrite Forall_forall in Ha. destruct (Ha x Hx) as (H1 & _). unfold on. cbn. destruct (N.eqb_spec (id x) 0); [lia|discriminate].
    + intros _. left. exact R3.
Qed.

(** ** Programs *)

Definition valid_phase (p : phase) : Prop := match p with Alone uses => Forall valid_use uses | Together _ => True end.

Lemma plays_between c l x n uses es x' n' : plays_to c 0 x n uses es x' n' -> forall s, Forall valid_use uses -> between c l x n s -> tidy x ->
  exists s', check l es ([], s) = Some ([], s') /\ between c l x' n' s'.
Proof.
  induction 1 as [x n|x n u us m x' es n' rest x'' n'' E Em Hp IH]; intros s0 Hu Hb Ht; [eexists; split; [reflexivity|exact Hb]|].
  apply Forall_cons_iff in Hu as [Hu Hus]. destruct (use_step c l x n s0 u m Hb Ht Hu E) as (x1 & n1 & s1 & E1 & Hb1 & Ht1).
  unfold exec in E1. rewrite Em in E1. rewrite check_app. destruct (check l es ([], s0)) as [[calls s2]|] eqn:Ec; (unfold stack in *; rewrite Ec in E1); [|discriminate E1].
  injection E1 as -> -> -> ->. apply IH; assumption.
Qed.

Lemma plays_sound c l x n uses es x' n' : plays_to c 0 x n uses es x' n' -> forall W, sound x n W -> exists W', tree_check l es W = Some W' /\ sound x' n' W'.
Proof.
  induction 1 as [x n|x n u us m x' es n' rest x'' n'' E Em Hp IH]; intros W Hx; [eexists; split; [reflexivity|exact Hx]|].
  pose proof (use_sound c l x n W u m Hx E) as Ho. unfold out in Ho. rewrite Em in Ho. destruct Ho as (W1 & E1 & Hx1). rewrite tree_check_app, E1. apply (IH W1 Hx1).
Qed.

Lemma tree_judge_reset l segments W W1 : tree_judge l segments {| running := []; pointers := pointers W; nodes := nodes W |} = Some W1 ->
  exists W2, tree_judge l segments W = Some W2.
Proof. destruct segments as [|[b es] segments]; [intros _; exists W; reflexivity|]. cbn [tree_judge pointers nodes]. eauto. Qed.

(** No program of such phases breaks the rules, whatever the order of events. *)
Theorem C109_no_violation : forall c s phases segments, reachable c s -> Forall valid_phase phases -> acts c s 1 phases segments ->
  forall l, (exists x, judge l segments (snd (variable l)) = Some x) /\ (exists W, tree_judge l segments planted = Some W).
Proof.
  intros c s phases segments Hs Hv Ha l. destruct (reachable_good c s Hs) as (text & cs & Hr & _). assert (exists cs, rep c s cs) as Hrep by eauto. clear text cs Hr Hs.
  assert (between c l (no_references s) 1 (snd (variable l))) as Hb.
  { apply reborn; [exact Hrep|lia|]. unfold variable. destruct (l <? 64); [|reflexivity]. exists []. split; [reflexivity|]. split; [|constructor].
    split; [|constructor]. constructor; [split; [cbn; lia|discriminate]|constructor]. }
  assert (sound (no_references s) 1 planted) as Hw by apply sound_start.
  assert (exists s' W', judge l segments (snd (variable l)) = Some s' /\ tree_judge l segments planted = Some W') as (s' & W' & E1 & E2); [|eauto].
  revert Hb Hw. generalize (snd (variable l)) as st. generalize planted as W. induction Ha as [s n|s n uses es x n' rest segments Hp Ha IH|s n n' threads traces es rest segments Hn Ht Hi Ha IH]; intros W st Hb Hw.
  - eexists _, _. split; reflexivity.
  - apply Forall_cons_iff in Hv as [Hu Hv]. cbn [judge tree_judge]. destruct (plays_between c l _ _ _ _ _ _ Hp st Hu Hb) as (s' & E1 & Hb'); [intros []; reflexivity|].
    unfold stack in *. rewrite E1. clear E1.
    assert (running W = []) as Er by apply (sound_shared _ n W n (N.le_refl n) Hw). assert (W = {| running := []; pointers := pointers W; nodes := nodes W |}) as <- by (destruct W; cbn in Er |- *; congruence).
    destruct (plays_sound c l _ _ _ _ _ _ Hp W Hw) as (W' & -> & Hw'). apply IH; [exact Hv| | |].
    + destruct Hb' as (H & _). exact H.
    + destruct Hb' as (H1 & H2 & H3). apply reborn; [exact H1|exact H2|]. destruct (l <? 64); [|exact H3]. destruct H3 as (above & H3 & H4 & H5 & _). eauto.
    + destruct Hw' as (H & _). split; [exact H|]. split; [constructor|exact I].
  - apply Forall_cons_iff in Hv as [_ Hv]. pose proof Hb as ((cs & Hcs) & Hn0 & _). pose proof (rep_in_place _ _ _ Hcs) as Hip.
    pose proof (together_safe c s n n' threads traces es Hip Hn Ht Hi) as Hsafe. cbn [judge tree_judge].
    destruct (safe_stacked l n n' (Retag Shared 0 n None whole :: es) ltac:(lia) [(0, whole)] [] st Hsafe ltac:(constructor)) as (calls' & s' & E & Hs').
    { eapply between_shared; [|exact Hb]. lia. }
    unfold stack in *. rewrite E. clear E.
    destruct (sound_shared _ n W n' ltac:(lia) Hw) as [Er HW]. assert (W = {| running := []; pointers := pointers W; nodes := nodes W |}) as <- by (destruct W; cbn in Er |- *; congruence).
    destruct (safe_tree l n n' (Retag Shared 0 n None whole :: es) ltac:(lia) ltac:(lia) [(0, whole)] W Hsafe HW) as (W' & -> & HW').
    assert (exists s1 W1, judge l segments s' = Some s1 /\ tree_judge l segments {| running := []; pointers := pointers W'; nodes := nodes W' |} = Some W1) as (s1 & W1 & E1 & E2).
    { apply IH; [exact Hv|eauto| |].
      - eapply shared_between; [eauto|lia|exact Hs'].
      - eapply shared_sound; [lia|exact HW']. }
    destruct (tree_judge_reset l segments W' W1 E2) as [W2 E3]. exists s1, W2. auto.
Qed.
Print Assumptions C109_no_violation.

(** No two threads race for a byte, and none changes the string. *)
Theorem C109_no_race : forall c s r n n' threads traces, reachable c s -> Forall2 (thread c s r n n') threads traces ->
  ~ races traces /\ Forall (Forall (fun e => match e with Access w _ _ => w = false | _ => True end)) traces.
Proof.
  intros c s r n n' threads traces Hs Ht. destruct (reachable_good c s Hs) as (text & cs & Hr & _). apply rep_in_place in Hr.
  assert (Forall (Forall (fun e => match e with Access w _ _ => w = false | _ => True end)) traces) as Hall.
  { eapply Forall2_right; [|exact Ht]. intros us es H. apply (thread_safe c s r n n' us es [(r, whole)] n Hr (N.le_refl n) (or_introl eq_refl)) in H. revert H.
    generalize [(r, whole)] as known. clear. induction es as [|e es IH]; intros known H; [constructor|]. destruct e; cbn [safe] in H; constructor; try exact I; decompose [and] H; eauto. }
  split; [|exact Hall]. intros (i & j & es & es' & w & t & r0 & w' & t' & r' & l & _ & Hi & Hj & H1 & H2 & _ & _ & Hw).
  apply nth_error_In in Hi, Hj. rewrite Forall_forall in Hall. pose proof (Hall _ Hi) as A1. pose proof (Hall _ Hj) as A2. rewrite Forall_forall in A1, A2.
  specialize (A1 _ H1). specialize (A2 _ H2). cbn in A1, A2. subst. discriminate.
Qed.
Print Assumptions C109_no_race.

Theorem C109_unchanged : forall c r uses x n es x' n', plays_to c r x n uses es x' n' -> forallb reader uses = true -> string_of x' = string_of x.
Proof.
  induction 1 as [x n|x n u us m x' es n' rest x'' n'' E Em Hp IH]; cbn [forallb]; intros H; [reflexivity|]. apply andb_prop in H as [Hu Hus]. rewrite (IH Hus).
  assert (forall A (f : emit A) (g : A -> scene), m = (a <! f ;; done (g a)) -> (forall a, string_of (g a) = string_of x) -> string_of x' = string_of x) as Hgo.
  { intros A f g -> Hg. unfold andthen, done in Em. destruct (f n) as [[a es1] n1]. injection Em as <- _ _. apply Hg. }
  destruct u as [ch|str|ch| | | |which j|j|j]; try discriminate Hu; cbn [use_trace] in E.
  - injection E as <-. eapply (Hgo _ _ (fun _ => _)); reflexivity.
  - injection E as <-. eapply (Hgo _ _ (fun a => _)); reflexivity.
  - destruct (nth_error (views x) which); [|discriminate]. destruct (j <? _); [|discriminate]. injection E as <-. eapply (Hgo _ _ (fun _ => x)); reflexivity.
Qed.
Print Assumptions C109_unchanged.

(** Every thread that only reads has a trace: [Look] needs a [&str] taken
    before and a byte of the text. *)
Fixpoint readable (s : nominal_string) (taken : nat) (uses : list use) : Prop :=
  match uses with
  | [] => True
  | UseIsInline :: uses => readable s taken uses
  | UseDeref :: uses => readable s (S taken) uses
  | Look which j :: uses => (which < taken)%nat /\ j < snd (borrowed s) /\ readable s taken uses
  | _ :: _ => False
  end.

Theorem C109_every_thread : forall c s r n uses, readable s 0 uses -> exists n' trace, thread c s r n n' uses trace.
Proof.
  intros c s r n uses H.
  assert (forall us x n, string_of x = s -> readable s (length (views x)) us -> forallb reader us = true /\ exists es x' n', plays_to c r x n us es x' n') as Hall.
  { clear. induction us as [|u us IH]; intros x n Ex H; [split; [reflexivity|]; eexists _, _, _; constructor|].
    assert (forall m, use_trace c r x u = Some (Ret m) -> (forall x1 es n1, m n = (x1, es, n1) -> string_of x1 = s /\ readable s (length (views x1)) us) ->
      forallb reader us = true /\ exists es x' n', plays_to c r x n (u :: us) es x' n') as Hgo.
    { intros m E Hm. destruct (m n) as [[x1 es] n1] eqn:Em. destruct (Hm _ _ _ eq_refl) as [E1 H1]. destruct (IH x1 n1 E1 H1) as [Hr (es' & x' & n' & Hp)]. split; [exact Hr|].
      eexists _, _, _. econstructor; eassumption. }
    destruct u as [ch|str|ch| | | |which j|j|j]; cbn [readable] in H; try contradiction; cbn [forallb reader andb].
    - eapply Hgo; [reflexivity|]. intros x1 es n1. unfold andthen, done. destruct (a_is_inline r n) as [[a e] k]. intros [= <- _ _]. auto.
    - eapply Hgo; [reflexivity|]. intros x1 es n1. unfold andthen, done. destruct (a_deref (string_of x) r n) as [[a e] k]. intros [= <- _ _]. auto.
    - destruct H as (Hw & Hj & H). destruct (nth_error (views x) which) as [v|] eqn:Ev; [|apply nth_error_None in Ev; lia].
      eapply Hgo; [cbn [use_trace]; rewrite Ev, Ex; apply N.ltb_lt in Hj; rewrite Hj; reflexivity|]. intros x1 es n1. cbn. intros [= <- _ _]. auto. }
  destruct (Hall uses (no_references s) n eq_refl H) as [Hr (es & x & n' & Hp)]. exists n', es. split; [exact Hr|]. exists n, x, n'. split; [lia|]. split; [lia|]. exact Hp.
Qed.
Print Assumptions C109_every_thread.

(** ** Cases *)

Fixpoint play (c : config) (owner : N) (x : scene) (n : N) (us : list use) : option (list event * scene * N) :=
  match us with
  | [] => Some ([], x, n)
  | u :: us =>
      match use_trace c owner x u with
      | Some (Ret m) => let '(x', es, n') := m n in match play c owner x' n' us with Some (rest, x'', n'') => Some (es ++ rest, x'', n'') | None => None end
      | _ => None
      end
  end.

Lemma play_plays c owner us : forall x n es x' n', play c owner x n us = Some (es, x', n') -> plays_to c owner x n us es x' n'.
Proof.
  induction us as [|u us IH]; intros x n es x' n' H; cbn [play] in H; [injection H as <- <- <-; constructor|].
  destruct (use_trace c owner x u) as [[m| | |]|] eqn:E; try discriminate. destruct (m n) as [[x1 es1] n1] eqn:Em.
  destruct (play c owner x1 n1 us) as [[[rest x2] n2]|] eqn:Ep; [|discriminate]. injection H as <- <- <-. econstructor; [exact E|exact Em|apply IH, Ep].
Qed.

(** Two threads by turns, one event each. *)
Fixpoint zip (a b : list event) : list event :=
  match a, b with
  | [], _ => b
  | _, [] => a
  | x :: a, y :: b => x :: y :: zip a b
  end.

Lemma interleaved_alone pre post a : Forall (fun t => t = []) pre -> Forall (fun t => t = []) post -> interleaved (pre ++ a :: post) a.
Proof.
  intros H1 H2. induction a as [|e a IH]; constructor; [|exact IH]. apply Forall_app. split; [exact H1|]. constructor; [reflexivity|exact H2].
Qed.

Lemma zip_interleaved a : forall b, interleaved [a; b] (zip a b).
Proof.
  induction a as [|x a IH]; intros b; [apply (interleaved_alone [[]] []); repeat constructor|]. destruct b as [|y b]; [apply (interleaved_alone [] [[]]); repeat constructor|].
  cbn [zip]. apply (one_goes [] x a [y :: b]). apply (one_goes [a] y b []). apply IH.
Qed.

Definition looks : list use := [UseDeref; UseIsInline; Look 0 1; UseDeref; Look 0 0; Look 1 2].

(** A text is written, read by two threads at once, and written again. *)
Example C109_case : forall s, s = new \/ s = new_reverse -> exists segments,
  acts on_heap s 1 [Alone [UsePushStr (bytes "abc"%string); UseDeref]; Together [looks; UseIsInline :: looks]; Alone [UsePushFront 120; UseDerefMut; Poke 2]] segments /\
  (150 < length (concat (map snd segments)))%nat /\
  forallb (fun l => match judge (N.of_nat l) segments (snd (variable (N.of_nat l))), tree_judge (N.of_nat l) segments planted with
                    | Some _, Some W => (40 <? length (nodes W))%nat | _, _ => false end) (seq 0 64) = true.
Proof.
  intros s Hs.
  destruct (play on_heap 0 (no_references s) 1 [UsePushStr (bytes "abc"%string); UseDeref]) as [[[es1 x1] n1]|] eqn:E1; [|destruct Hs; subst s; vm_compute in E1; discriminate].
  destruct (play on_heap n1 (no_references (string_of x1)) (n1 + 1) looks) as [[[es2 x2] n2]|] eqn:E2; [|destruct Hs; subst s; vm_compute in E1; injection E1 as <- <- <-; vm_compute in E2; discriminate].
  destruct (play on_heap n1 (no_references (string_of x1)) n2 (UseIsInline :: looks)) as [[[es3 x3] n3]|] eqn:E3;
    [|destruct Hs; subst s; vm_compute in E1; injection E1 as <- <- <-; vm_compute in E2; injection E2 as <- <- <-; vm_compute in E3; discriminate].
  destruct (play on_heap 0 (no_references (string_of x1)) n3 [UsePushFront 120; UseDerefMut; Poke 2]) as [[[es4 x4] n4]|] eqn:E4;
    [|destruct Hs; subst s; vm_compute in E1; injection E1 as <- <- <-; vm_compute in E2; injection E2 as <- <- <-; vm_compute in E3; injection E3 as <- <- <-; vm_compute in E4; discriminate].
  exists [(false, es1); (true, Retag Shared 0 n1 None whole :: zip es2 es3); (false, es4)]. split.
  - assert (n1 + 1 <= n2 /\ n2 <= n3) as [L1 L2].
    { destruct Hs; subst s; vm_compute in E1; injection E1 as <- <- <-; vm_compute in E2; injection E2 as <- <- <-; vm_compute in E3; injection E3 as <- <- <-; split; lia. }
    econstructor; [apply play_plays, E1|]. eapply (acts_together on_heap _ n1 n3 _ [es2; es3]); [lia| |apply zip_interleaved|].
    + constructor; [|constructor; [|constructor]]; (split; [reflexivity|]).
      * exists (n1 + 1), x2, n2. split; [lia|]. split; [lia|]. apply play_plays, E2.
      * exists n2, x3, n3. split; [lia|]. split; [lia|]. apply play_plays, E3.
    + econstructor; [apply play_plays, E4|]. constructor.
  - destruct Hs; subst s; vm_compute in E1; injection E1 as <- <- <-; vm_compute in E2; injection E2 as <- <- <-; vm_compute in E3; injection E3 as <- <- <-; vm_compute in E4; injection E4 as <- <- <-;
      (split; [vm_compute; lia|vm_compute; reflexivity]).
Qed.

Lemma inserted a : forall k b, interleaved [a; b] (firstn k a ++ b ++ skipn k a).
Proof.
  intros k b. revert a. induction k as [|k IH]; intros a; cbn [firstn skipn app].
  - induction b as [|y b IHb]; cbn [app]; [apply (interleaved_alone [] [[]]); repeat constructor|]. apply (one_goes [a] y b []). exact IHb.
  - destruct a as [|x a]; cbn [app]; [|apply (one_goes [] x a [b]); apply IH]. rewrite app_nil_r. apply (interleaved_alone [[]] []); repeat constructor.
Qed.

(** A thread that pushes while another reads, which the compiler rejects: a
    race, and a violation of either rules if the push comes while the other
    thread is in [deref]. *)
Example C109_wrong : exists s reading x n writing y m,
  try_push_str on_heap new (bytes "abc"%string) = Ret (s, Ok tt) /\
  play on_heap 0 (no_references s) 1 [UseDeref; Look 0 0] = Some (reading, x, n) /\
  play on_heap 0 (no_references s) n [UsePush 100] = Some (writing, y, m) /\ races [reading; writing] /\
  forall k, (2 <= k <= 34)%nat -> let es := firstn k reading ++ writing ++ skipn k reading in
    interleaved [reading; writing] es /\ shared_check 1 es (variable 1) = None /\ shared_tree_check 1 es planted = None.
Proof.
  destruct (try_push_str on_heap new (bytes "abc"%string)) as [[s [[]|]]| | |] eqn:Es; try (vm_compute in Es; discriminate).
  destruct (play on_heap 0 (no_references s) 1 [UseDeref; Look 0 0]) as [[[es1 x1] n1]|] eqn:E1; [|vm_compute in Es; injection Es as <-; vm_compute in E1; discriminate].
  destruct (play on_heap 0 (no_references s) n1 [UsePush 100]) as [[[es2 x2] n2]|] eqn:E2; [|vm_compute in Es; injection Es as <-; vm_compute in E1; injection E1 as <- <- <-; vm_compute in E2; discriminate].
  exists s, es1, x1, n1, es2, x2, n2. split; [reflexivity|]. split; [exact E1|]. split; [exact E2|].
  vm_compute in Es; injection Es as <-; vm_compute in E1; injection E1 as <- <- <-; vm_compute in E2; injection E2 as <- <- <-. split.
  - eexists 0%nat, 1%nat, _, _, false, 17, (1, 1), true, 46, (1, 1), 1. split; [discriminate|]. split; [reflexivity|]. split; [reflexivity|]. cbn. intuition.
  - intros k Hk es. split; [apply inserted|]. do 35 (destruct k as [|k]; [try lia; split; vm_compute; reflexivity|]). lia.
Qed.

(** When a call returns, what the calls of other threads protect stays
    protected, and what it protected itself no longer is. *)
Theorem C109_calls_end_alone : forall l k x x' W W',
  shared_event l (Leave k) x = Some x' -> shared_tree_event l (Leave k) W = Some W' ->
  (forall j, In j (fst x') <-> In j (fst x) /\ j <> k) /\ snd x' = snd x /\
  (forall j, In j (running W') <-> In j (running W) /\ j <> k) /\ pointers W' = pointers W /\
  forall y, shielded (running W') y = true <-> exists j, shield y = Some j /\ In j (running W) /\ j <> k.
Proof.
  assert (forall k calls j, In j (returned k calls) <-> In j calls /\ j <> k) as Hr.
  { intros k calls j. unfold returned. rewrite filter_In, Bool.negb_true_iff, N.eqb_neq. reflexivity. }
  intros l k x x' W W' E E'. cbn [shared_event] in E. injection E as <-. cbn [shared_tree_event] in E'.
  destruct release_all as [xs|]; [|discriminate]. injection E' as <-. cbn [fst snd running pointers].
  split; [apply Hr|]. split; [reflexivity|]. split; [apply Hr|]. split; [reflexivity|].
  intros y. unfold shielded. destruct (shield y) as [i|]; [|split; [discriminate|intros (j & Ej & _); discriminate]].
  rewrite existsb_exists. split.
  - intros (j & Hj & Ei). apply N.eqb_eq in Ei. subst j. exists i. split; [reflexivity|]. apply Hr, Hj.
  - intros (j & Ej & Hj). injection Ej as <-. exists i. split; [apply Hr, Hj|apply N.eqb_refl].
Qed.
Print Assumptions C109_calls_end_alone.

Example C109_calls_case : exists W', shared_tree_event 1 (Leave 4) {| running := [5; 4; 3]; pointers := pointers planted; nodes := nodes planted |} = Some W' /\ running W' = [5; 3].
Proof. eexists. split; reflexivity. Qed.
