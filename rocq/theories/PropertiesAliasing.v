(** * C106: references and raw pointers follow the aliasing rules *)

From Coq Require Import String.
From Verif Require Import Prelude Utf8Facts StringFacts History Cases Aliasing.

(** ** One access *)

Definition clear (calls : list N) (t : N) (above : list item) : Prop :=
  Forall (fun i => tag i <> t /\ guarded calls i = false) above.

Definition granted (w : bool) (t : N) (rest : stack) : Prop :=
  exists g below, rest = g :: below /\ tag g = t /\ grants (perm g) w = true.

Definition young_item (n : N) (i : item) : Prop := tag i < n /\ forall k, guard i = Some k -> k < n.

Definition young (n : N) (calls : list N) (s : stack) : Prop :=
  Forall (young_item n) s /\ Forall (fun k => k < n) calls.

Lemma young_item_more n n' i : n <= n' -> young_item n i -> young_item n' i.
Proof. intros Hle [H1 H2]. split; [lia|]. intros k Hk. specialize (H2 k Hk). lia. Qed.

Lemma young_more n n' calls s : n <= n' -> young n calls s -> young n' calls s.
Proof.
  intros Hle [H1 H2]. split; [eapply Forall_impl; [|exact H1]; intros i; apply young_item_more, Hle|].
  eapply Forall_impl; [|exact H2]. cbn beta. lia.
Qed.

Lemma granted_weak w t rest : granted w t rest -> granted false t rest.
Proof. intros (g & below & E & Ht & Hg). exists g, below. split; [exact E|]. split; [exact Ht|]. destruct (perm g), w; (reflexivity || discriminate). Qed.

Lemma find_clear calls w t above rest : granted w t rest -> clear calls t above ->
  find_granting w t (above ++ rest) = Some (above, rest).
Proof.
  intros (g & below & -> & Ht & Hg) Hc. induction Hc as [|i above [Hi _] Hc IH]; cbn [app find_granting].
  - rewrite Hg. apply N.eqb_eq in Ht. rewrite Ht. reflexivity.
  - apply N.eqb_neq in Hi. rewrite Hi. cbn [andb]. rewrite IH. reflexivity.
Qed.

Lemma block_above_app above : let '(popped, kept) := block_above above in above = popped ++ kept.
Proof.
  induction above as [|i above IH]; [reflexivity|]. cbn [block_above]. destruct (block_above above) as [[|j popped] kept].
  - destruct (is_shared_rw i); cbn [app] in *; congruence.
  - cbn [app] in *. congruence.
Qed.

Lemma compatible_app above rest : let '(popped, kept) := compatible above rest in above = popped ++ kept.
Proof.
  unfold compatible. destruct rest as [|g rest]; [symmetry; apply app_nil_r|].
  destruct (is_shared_rw g); [apply block_above_app|symmetry; apply app_nil_r].
Qed.

Lemma none_guarded calls (f : item -> bool) l : Forall (fun i => guarded calls i = false) l ->
  existsb (fun i => f i && guarded calls i) l = false.
Proof. induction 1 as [|i l Hi Hl IH]; [reflexivity|]. cbn [existsb]. rewrite Hi, IH, andb_false_r. reflexivity. Qed.

Lemma none_guarded' calls l : Forall (fun i => guarded calls i = false) l -> existsb (guarded calls) l = false.
Proof. induction 1 as [|i l Hi Hl IH]; [reflexivity|]. cbn [existsb]. rewrite Hi, IH. reflexivity. Qed.

Lemma clear_guarded calls t l : clear calls t l -> Forall (fun i => guarded calls i = false) l.
Proof. intros H. eapply Forall_impl; [|exact H]. cbn beta. tauto. Qed.

Lemma read_access calls t above rest : granted false t rest -> clear calls t above ->
  access calls false t (above ++ rest) = Some (map disable above ++ rest).
Proof.
  intros Hg Hc. unfold access. rewrite (find_clear _ _ _ _ _ Hg Hc), (none_guarded calls is_unique); [reflexivity|].
  eapply clear_guarded, Hc.
Qed.

Lemma write_access calls t above rest : granted true t rest -> clear calls t above ->
  exists popped kept, above = popped ++ kept /\ access calls true t (above ++ rest) = Some (kept ++ rest).
Proof.
  intros Hg Hc. unfold access. rewrite (find_clear _ _ _ _ _ Hg Hc). pose proof (compatible_app above rest) as H.
  destruct (compatible above rest) as [popped kept]. exists popped, kept. split; [exact H|].
  rewrite none_guarded'; [reflexivity|]. apply clear_guarded in Hc. rewrite H in Hc. apply Forall_app in Hc. tauto.
Qed.

Lemma disable_tag i : tag (disable i) = tag i.
Proof. unfold disable. destruct (is_unique i); reflexivity. Qed.

Lemma disable_guard i : guard (disable i) = guard i.
Proof. unfold disable. destruct (is_unique i); reflexivity. Qed.

Lemma disable_guarded calls i : guarded calls (disable i) = guarded calls i.
Proof. unfold guarded. rewrite disable_guard. reflexivity. Qed.

Lemma disable_young n i : young_item n i -> young_item n (disable i).
Proof. intros [H1 H2]. split; [rewrite disable_tag; exact H1|rewrite disable_guard; exact H2]. Qed.

(** ** What a piece of code may do with a pointer *)

Definition exec {A} (l : N) (m : emit A) (x : N * list N * stack) : option (A * (N * list N * stack)) :=
  let '(n, calls, s) := x in
  let '(a, es, n') := m n in
  match check l es (calls, s) with Some (calls', s') => Some (a, (n', calls', s')) | None => None end.

Lemma check_app l es es' x : check l (es ++ es') x = match check l es x with Some x => check l es' x | None => None end.
Proof. revert x. induction es as [|e es IH]; intros x; [reflexivity|]. cbn [app check]. destruct (check_event l e x); [apply IH|reflexivity]. Qed.

Lemma exec_andthen {A B} l (m : emit A) (f : A -> emit B) x :
  exec l (andthen m f) x = match exec l m x with Some (a, x') => exec l (f a) x' | None => None end.
Proof.
  destruct x as [[n calls] s]. unfold exec, andthen. destruct (m n) as [[a es] n']. destruct (f a n') as [[b es'] n''] eqn:Ef.
  rewrite check_app. destruct (check l es (calls, s)) as [[calls' s']|]; [|reflexivity]. rewrite Ef. reflexivity.
Qed.

Definition from (n : N) (above : list item) (i : item) : Prop := n <= tag i \/ exists j, In j above /\ tag j = tag i.

(** Everything above is new or was there; with reads alone, what is not
    [Unique] stays where it is. *)
Definition effect (w : bool) (n : N) (above above' : list item) : Prop :=
  Forall (from n above) above' /\
  (w = false -> forall p i q, above = p ++ i :: q -> is_unique i = false ->
    exists p' q', above' = p' ++ i :: q' /\ Forall (from n p) p').

Definition spec {A} (l : N) (w : bool) (R : range) (t : N) (m : emit A) (res : A -> N -> list item -> Prop) : Prop :=
  (covers R l = true -> forall n calls above rest,
    young n calls (above ++ rest) -> granted w t rest -> clear calls t above ->
    exists a n' above', exec l m (n, calls, above ++ rest) = Some (a, (n', calls, above' ++ rest)) /\
      n <= n' /\ young n' calls (above' ++ rest) /\ Forall (fun i => guarded calls i = false) above' /\
      effect w n above above' /\ res a n above') /\
  (covers R l = false -> forall n calls (s : list item), young n calls s ->
    exists a n', exec l m (n, calls, s) = Some (a, (n', calls, s)) /\ n <= n').

Definition gives (l : N) (r : range) (P : permission) (a : N) (n : N) (above : list item) : Prop :=
  covers r l = true -> exists p i q, above = p ++ i :: q /\ tag i = a /\ perm i = P /\ Forall (fun j => tag j <> a) p /\ n <= a.

Definition nothing {A} (_ : A) (_ : N) (_ : list item) : Prop := True.

(** Results may be used with more below them, and later. *)
Definition stable {A} (res : A -> N -> list item -> Prop) : Prop :=
  (forall a n above more, res a n above -> res a n (above ++ more)) /\
  (forall a n n' above, n <= n' -> res a n' above -> res a n above).

Lemma gives_stable l r P : stable (gives l r P).
Proof.
  split.
  - intros a n above more H Hc. destruct (H Hc) as (p & i & q & -> & H'). exists p, i, (q ++ more). split; [|exact H']. rewrite <- app_assoc. reflexivity.
  - intros a n n' above Hle H Hc. destruct (H Hc) as (p & i & q & E & Ht & HP & Hp & Hn). exists p, i, q. repeat (split; [assumption|]). lia.
Qed.

Lemma nothing_stable {A} : stable (@nothing A).
Proof. split; intros; exact I. Qed.

Lemma from_more n n' above i : n <= n' -> from n' above i -> from n above i.
Proof. intros Hle [H|H]; [left; lia|right; exact H]. Qed.

Lemma from_trans n above above' i : Forall (from n above) above' -> from n above' i -> from n above i.
Proof.
  intros Hf [H|(j & Hj & E)]; [left; exact H|]. rewrite Forall_forall in Hf. destruct (Hf j Hj) as [H|(j' & Hj' & E')]; [left; congruence|].
  right. exists j'. split; [exact Hj'|congruence].
Qed.

Lemma from_refl n l : Forall (from n l) l.
Proof. apply Forall_forall. intros i Hi. right. exists i. auto. Qed.

Lemma effect_refl w n above : effect w n above above.
Proof. split; [apply from_refl|]. intros _ p i q -> _. exists p, q. split; [reflexivity|apply from_refl]. Qed.

Lemma effect_trans w w' n n' a b d : n <= n' -> (w = false -> w' = false) -> effect w n a b -> effect w' n' b d -> effect w n a d.
Proof.
  intros Hle Hw [H1 H2] [H3 H4]. split.
  - eapply Forall_impl; [|exact H3]. intros i Hi. eapply from_trans; [exact H1|]. eapply from_more; eassumption.
  - intros -> p i q E Hu. destruct (H2 eq_refl p i q E Hu) as (p' & q' & E' & Hp'). destruct (H4 (Hw eq_refl) p' i q' E' Hu) as (p'' & q'' & E'' & Hp'').
    exists p'', q''. split; [exact E''|]. eapply Forall_impl; [|exact Hp'']. intros j Hj. eapply from_trans; [exact Hp'|]. eapply from_more; eassumption.
Qed.

Lemma clear_after calls t n above above' : t < n -> clear calls t above -> Forall (from n above) above' ->
  Forall (fun i => guarded calls i = false) above' -> clear calls t above'.
Proof.
  intros Ht Hc Hf Hg. apply Forall_forall. intros i Hi. rewrite Forall_forall in Hf, Hg. split; [|apply Hg, Hi].
  destruct (Hf i Hi) as [H|(j & Hj & <-)]; [lia|]. unfold clear in Hc. rewrite Forall_forall in Hc. apply (Hc j Hj).
Qed.

Lemma granted_young w t n calls above rest : granted w t rest -> young n calls (above ++ rest) -> t < n.
Proof.
  intros (g & below & -> & <- & _) [H _]. apply Forall_app in H as [_ H]. apply Forall_cons_iff in H as [H _]. exact (proj1 H).
Qed.

(** ** Rules *)

Lemma spec_weaken {A} l R t (m : emit A) res w : spec l false R t m res -> spec l w R t m res.
Proof.
  intros [H1 H2]. split; [|exact H2]. intros HR n calls above rest Hy Hg Hc.
  destruct (H1 HR n calls above rest Hy (granted_weak _ _ _ Hg) Hc) as (a & n' & above' & E & Hle & Hy' & Hgu & [Hf He] & Hr).
  exists a, n', above'. repeat (split; [assumption|]). split; [|exact Hr]. split; [exact Hf|]. intros _. apply He. reflexivity.
Qed.

Lemma spec_nothing {A} l w R t (m : emit A) res : spec l w R t m res -> spec l w R t m nothing.
Proof.
  intros [H1 H2]. split; [|exact H2]. intros HR n calls above rest Hy Hg Hc.
  destruct (H1 HR n calls above rest Hy Hg Hc) as (a & n' & above' & E & Hle & Hy' & Hgu & He & Hr).
  exists a, n', above'. repeat (split; [assumption|]). exact I.
Qed.

Lemma spec_done {A} l w R t (a : A) : spec l w R t (done a) nothing.
Proof.
  split.
  - intros _ n calls above rest Hy _ Hc. exists a, n, above. split; [reflexivity|]. split; [lia|]. split; [exact Hy|].
    split; [eapply clear_guarded, Hc|]. split; [apply effect_refl|exact I].
  - intros _ n calls s _. exists a, n. split; [reflexivity|lia].
Qed.

Lemma spec_seq {A B} l w R t (m : emit A) (f : A -> emit B) res res' : stable res' ->
  spec l w R t m res -> (forall a, spec l w R t (f a) res') -> spec l w R t (andthen m f) res'.
Proof.
  intros [_ Hst] [H1 H2] H3. split.
  - intros HR n calls above rest Hy Hg Hc. rewrite exec_andthen.
    destruct (H1 HR n calls above rest Hy Hg Hc) as (a & n' & above' & -> & Hle & Hy' & Hgu & He & _).
    pose proof (clear_after _ _ _ _ _ (granted_young _ _ _ _ _ _ Hg Hy) Hc (proj1 He) Hgu) as Hc'.
    destruct (H3 a) as [H3a _]. destruct (H3a HR n' calls above' rest Hy' Hg Hc') as (b & n'' & above'' & -> & Hle' & Hy'' & Hgu' & He' & Hr).
    exists b, n'', above''. split; [reflexivity|]. split; [lia|]. split; [exact Hy''|]. split; [exact Hgu'|].
    split; [exact (effect_trans w w n n' _ _ _ Hle (fun H => H) He He')|]. eapply Hst; eassumption.
  - intros HR n calls s Hy. rewrite exec_andthen. destruct (H2 HR n calls s Hy) as (a & n' & -> & Hle).
    destruct (H3 a) as [_ H3a]. destruct (H3a HR n' calls s (young_more _ _ _ _ Hle Hy)) as (b & n'' & -> & Hle').
    exists b, n''. split; [reflexivity|lia].
Qed.

Lemma spec_read l w R t r : (covers r l = true -> covers R l = true) -> spec l w R t (read t r) nothing.
Proof.
  intros HrR. apply spec_weaken. split.
  - intros HR n calls above rest Hy Hg Hc. unfold read, tell, exec. cbn [check check_event]. destruct (covers r l).
    + rewrite (read_access _ _ _ _ Hg Hc). exists tt, n, (map disable above). split; [reflexivity|]. split; [lia|]. destruct Hy as [Hy1 Hy2].
      apply Forall_app in Hy1 as [Hya Hyr]. split; [split; [apply Forall_app; split; [|exact Hyr]|exact Hy2]|].
      { apply Forall_map. eapply Forall_impl; [|exact Hya]. intros i. apply disable_young. }
      split; [apply Forall_map; eapply Forall_impl; [|exact Hc]; cbn beta; intros i [_ Hi]; rewrite disable_guarded; exact Hi|].
      split; [|exact I]. split.
      * apply Forall_map, Forall_forall. intros i Hi. right. exists i. rewrite disable_tag. auto.
      * intros _ p i q -> Hu. exists (map disable p), (map disable q). rewrite map_app. cbn [map]. split.
        -- unfold disable at 2. rewrite Hu. reflexivity.
        -- apply Forall_map, Forall_forall. intros j Hj. right. exists j. rewrite disable_tag. auto.
    + exists tt, n, above. split; [reflexivity|]. split; [lia|]. split; [exact Hy|]. split; [eapply clear_guarded, Hc|]. split; [apply effect_refl|exact I].
  - intros HR n calls s _. unfold read, tell, exec. cbn [check check_event]. destruct (covers r l); [specialize (HrR eq_refl); congruence|].
    exists tt, n. split; [reflexivity|lia].
Qed.

Lemma spec_write l R t r : (covers r l = true -> covers R l = true) -> spec l true R t (write t r) nothing.
Proof.
  intros HrR. split.
  - intros HR n calls above rest Hy Hg Hc. unfold write, tell, exec. cbn [check check_event]. destruct (covers r l).
    + destruct (write_access _ _ _ _ Hg Hc) as (popped & kept & -> & ->). exists tt, n, kept. split; [reflexivity|]. split; [lia|].
      destruct Hy as [Hy1 Hy2]. rewrite <- app_assoc in Hy1. apply Forall_app in Hy1 as [_ Hy1]. split; [split; assumption|].
      apply clear_guarded, Forall_app in Hc as [_ Hc]. split; [exact Hc|]. split; [|exact I]. split; [|discriminate].
      apply Forall_forall. intros i Hi. right. exists i. rewrite in_app_iff. auto.
    + exists tt, n, above. split; [reflexivity|]. split; [lia|]. split; [exact Hy|]. split; [eapply clear_guarded, Hc|]. split; [apply effect_refl|exact I].
  - intros HR n calls s _. unfold write, tell, exec. cbn [check check_event]. destruct (covers r l); [specialize (HrR eq_refl); congruence|].
    exists tt, n. split; [reflexivity|lia].
Qed.

Definition writing (k : kind) : bool := match k with Mut | RawMut => true | Shared | RawConst => false end.
Definition made (k : kind) : permission := match k with Mut => Unique | RawMut => SharedReadWrite | _ => SharedReadOnly end.

(** A new reference, wherever its argument is. *)
Lemma retag_result calls k w t new g n above rest : (writing k = true -> w = true) ->
  young n calls (above ++ rest) -> granted w t rest -> clear calls t above -> n <= new ->
  exists p q, retag calls k t new g (above ++ rest) = Some (p ++ {| tag := new; perm := made k; guard := g |} :: q ++ rest) /\
    Forall (fun i => young_item n i /\ guarded calls i = false) (p ++ q) /\ Forall (from n above) (p ++ q) /\
    (forall i, In i (p ++ q) -> tag i < n) /\
    (k <> RawMut -> p = []) /\
    (w = false -> p = [] /\ q = map disable above).
Proof.
  intros Hk Hy Hg Hc Hn.
  assert (Forall (fun i => young_item n i /\ guarded calls i = false) above) as Habove.
  { destruct Hy as [Hy _]. apply Forall_app in Hy as [Hy _]. apply Forall_forall. intros i Hi. unfold clear in Hc. rewrite Forall_forall in Hy, Hc.
    split; [apply Hy, Hi|apply (Hc i Hi)]. }
  assert (forall x, Forall (fun i => young_item n i /\ guarded calls i = false) x -> forall i, In i x -> tag i < n) as Hlt.
  { intros x Hx i Hi. rewrite Forall_forall in Hx. exact (proj1 (proj1 (Hx i Hi))). }
  assert (forall popped kept, above = popped ++ kept -> Forall (fun i => young_item n i /\ guarded calls i = false) kept /\ Forall (from n above) kept) as Hkept.
  { intros popped kept ->. apply Forall_app in Habove as [_ H]. split; [exact H|]. apply Forall_forall. intros i Hi. right. exists i. rewrite in_app_iff. auto. }
  assert (Forall (fun i => young_item n i /\ guarded calls i = false) (map disable above) /\ Forall (from n above) (map disable above)) as [Hd1 Hd2].
  { split; [apply Forall_map; eapply Forall_impl; [|exact Habove]; cbn beta; intros i [H1 H2]; split; [apply disable_young, H1|rewrite disable_guarded; exact H2]|].
    apply Forall_map, Forall_forall. intros i Hi. right. exists i. rewrite disable_tag. auto. }
  destruct k; cbn [retag made writing] in *.
  - rewrite (Hk eq_refl) in *. destruct (write_access _ _ _ _ Hg Hc) as (popped & kept & E & ->). destruct (Hkept popped kept E) as [H1 H2].
    exists [], kept. split; [reflexivity|]. split; [exact H1|]. split; [exact H2|]. split; [apply Hlt, H1|]. split; [reflexivity|discriminate].
  - rewrite (read_access _ _ _ _ (granted_weak _ _ _ Hg) Hc). exists [], (map disable above).
    split; [reflexivity|]. split; [exact Hd1|]. split; [exact Hd2|]. split; [apply Hlt, Hd1|]. split; [reflexivity|auto].
  - rewrite (Hk eq_refl) in *. rewrite (find_clear _ _ _ _ _ Hg Hc). pose proof (compatible_app above rest) as E.
    destruct (compatible above rest) as [popped kept]. exists popped, kept. split; [reflexivity|]. rewrite <- E. split; [exact Habove|].
    split; [apply from_refl|]. split; [apply Hlt, Habove|]. split; [congruence|discriminate].
  - rewrite (read_access _ _ _ _ (granted_weak _ _ _ Hg) Hc). exists [], (map disable above).
    split; [reflexivity|]. split; [exact Hd1|]. split; [exact Hd2|]. split; [apply Hlt, Hd1|]. split; [reflexivity|auto].
Qed.

Lemma disable_keeps n p i q : is_unique i = false ->
  exists p' q', map disable (p ++ i :: q) = p' ++ i :: q' /\ Forall (from n p) p'.
Proof.
  intros Hu. exists (map disable p), (map disable q). rewrite map_app. cbn [map]. split.
  - unfold disable at 2. rewrite Hu. reflexivity.
  - apply Forall_map, Forall_forall. intros j Hj. right. exists j. rewrite disable_tag. auto.
Qed.

Lemma spec_reborrow l w R t k r : (covers r l = true -> covers R l = true) -> (writing k = true -> w = true) ->
  spec l w R t (reborrow k t None r) (gives l r (made k)).
Proof.
  intros HrR Hk. split.
  - intros HR n calls above rest Hy Hg Hc. unfold reborrow, exec. cbn [check check_event]. unfold gives. destruct (covers r l).
    + destruct (retag_result calls k w t n None n above rest Hk Hy Hg Hc ltac:(lia)) as (p & q & -> & Hpq & Hf & Hlt & _ & Hw).
      set (i := {| tag := n; perm := made k; guard := None |}).
      exists n, (n + 1), (p ++ i :: q). split; [rewrite <- app_assoc; reflexivity|]. split; [lia|].
      destruct Hy as [Hy1 Hy2]. apply Forall_app in Hy1 as [_ Hyr]. apply Forall_app in Hpq as [Hp Hq]. apply Forall_app in Hf as [Hfp Hfq].
      assert (forall x, Forall (fun i => young_item n i /\ guarded calls i = false) x -> Forall (young_item (n + 1)) x) as Hyx.
      { intros x Hx. eapply Forall_impl; [|exact Hx]. cbn beta. intros j [Hj _]. eapply young_item_more; [|exact Hj]. lia. }
      split; [split|].
      { apply Forall_app. split; [apply Forall_app; split; [apply Hyx, Hp|constructor; [|apply Hyx, Hq]]|].
        - split; [cbn; lia|discriminate].
        - eapply Forall_impl; [|exact Hyr]. intros j. apply young_item_more. lia. }
      { eapply Forall_impl; [|exact Hy2]. cbn beta. lia. }
      split.
      { apply Forall_app. split; [eapply Forall_impl; [|exact Hp]; cbn beta; tauto|]. constructor; [reflexivity|].
        eapply Forall_impl; [|exact Hq]; cbn beta; tauto. }
      split; [split|].
      { apply Forall_app. split; [exact Hfp|]. constructor; [left; cbn; lia|exact Hfq]. }
      { intros Ew. destruct (Hw Ew) as [-> ->]. intros p' i' q' -> Hu. destruct (disable_keeps n p' i' q' Hu) as (p2 & q2 & E2 & Hp2).
        exists (i :: p2), q2. cbn [app]. rewrite E2. split; [reflexivity|]. constructor; [left; cbn; lia|exact Hp2]. }
      intros _. exists p, i, q. split; [reflexivity|]. split; [reflexivity|]. split; [reflexivity|]. split; [|lia].
      apply Forall_forall. intros j Hj. assert (tag j < n) by (apply Hlt, in_or_app; auto). lia.
    + exists n, (n + 1), above. split; [reflexivity|]. split; [lia|]. split; [eapply young_more; [|exact Hy]; lia|].
      split; [eapply clear_guarded, Hc|]. split; [apply effect_refl|discriminate].
  - intros HR n calls s Hy. unfold reborrow, exec. cbn [check check_event]. destruct (covers r l); [specialize (HrR eq_refl); congruence|].
    exists n, (n + 1). split; [reflexivity|lia].
Qed.

(** Use of a pointer found among what is above. *)
Lemma use_at {A} l w w2 r a (m : emit A) res n calls p i q rest :
  spec l w2 r a m res -> covers r l = true -> grants (perm i) w2 = true -> (w = false -> w2 = false) -> tag i = a ->
  Forall (fun j => tag j <> a) p ->
  young n calls ((p ++ i :: q) ++ rest) -> Forall (fun i => guarded calls i = false) (p ++ i :: q) ->
  exists b n' p', exec l m (n, calls, (p ++ i :: q) ++ rest) = Some (b, (n', calls, (p' ++ i :: q) ++ rest)) /\
    n <= n' /\ young n' calls ((p' ++ i :: q) ++ rest) /\ Forall (fun i => guarded calls i = false) (p' ++ i :: q) /\
    effect w n (p ++ i :: q) (p' ++ i :: q) /\ Forall (from n p) p' /\ res b n p'.
Proof.
  intros [H1 _] HR Hgr Hw Ht Hp Hy Hgu. rewrite <- app_assoc in Hy |- *. cbn [app] in Hy |- *.
  apply Forall_app in Hgu as [Hgp Hgi].
  assert (granted w2 a (i :: q ++ rest)) as Hg by (exists i, (q ++ rest); auto).
  assert (clear calls a p) as Hc.
  { apply Forall_forall. intros j Hj. rewrite Forall_forall in Hp, Hgp. auto. }
  destruct (H1 HR n calls p (i :: q ++ rest) Hy Hg Hc) as (b & n' & p' & -> & Hle & Hy' & Hgu' & [Hf He] & Hr).
  exists b, n', p'. rewrite <- !app_assoc. cbn [app]. split; [reflexivity|]. split; [exact Hle|]. split; [exact Hy'|].
  split; [apply Forall_app; auto|]. split; [|split; assumption]. split.
  - apply Forall_app. split.
    + eapply Forall_impl; [|exact Hf]. intros j [Hj|(j' & Hj' & E)]; [left; exact Hj|right; exists j'; rewrite in_app_iff; auto].
    + apply Forall_forall. intros j Hj. right. exists j. rewrite in_app_iff. auto.
  - intros Ew. specialize (He (Hw Ew)). intros p0 i0 q0 E Hu.
    assert ((exists z, p = p0 ++ i0 :: z) \/ (exists z, p0 = p ++ z /\ i :: q = z ++ i0 :: q0)) as [(z & Ez)|(z & Ez & Eq)].
    { clear -E. revert p0 E. induction p as [|x p IH]; intros p0 E; [right; exists p0; auto|]. destruct p0 as [|y p0]; cbn [app] in E.
      - injection E as -> E. left. exists p. reflexivity.
      - injection E as -> E. destruct (IH p0 E) as [(z & ->)|(z & -> & Ez)]; [left; exists z; reflexivity|right; exists z; auto]. }
    + destruct (He p0 i0 z Ez Hu) as (p1 & q1 & E1 & Hp1). exists p1, (q1 ++ i :: q). rewrite E1, <- app_assoc. split; [reflexivity|exact Hp1].
    + exists (p' ++ z), q0. rewrite Eq, <- app_assoc. split; [reflexivity|]. rewrite Ez. apply Forall_app. split.
      * eapply Forall_impl; [|exact Hf]. intros j [Hj|(j' & Hj' & E')]; [left; exact Hj|right; exists j'; rewrite in_app_iff; auto].
      * apply Forall_forall. intros j Hj. right. exists j. rewrite in_app_iff. auto.
Qed.

Lemma spec_use {A} l w w2 R r P t (m : emit N) (f : N -> emit A) res : stable res ->
  (covers r l = true -> covers R l = true) -> grants P w2 = true -> (w = false -> w2 = false) ->
  spec l w R t m (gives l r P) -> (forall a, spec l w2 r a (f a) res) -> (covers r l = false -> forall a n above, res a n above) ->
  spec l w R t (andthen m f) res.
Proof.
  intros [Hs1 Hs2] HrR HP Hw [H1 H2] Hf Hun. split.
  - intros HR n calls above rest Hy Hg Hc. rewrite exec_andthen.
    destruct (H1 HR n calls above rest Hy Hg Hc) as (a & n' & above' & -> & Hle & Hy' & Hgu & He & Hr). unfold gives in Hr.
    destruct (covers r l) eqn:Ec.
    + destruct (Hr eq_refl) as (p & i & q & -> & Ht & <- & Hp & Hn).
      destruct (use_at l w w2 r a (f a) res n' calls p i q rest (Hf a) Ec HP Hw Ht Hp Hy' Hgu) as (b & n'' & p' & -> & Hle' & Hy'' & Hgu' & He' & _ & Hres).
      exists b, n'', (p' ++ i :: q). split; [reflexivity|]. split; [lia|]. split; [exact Hy''|]. split; [exact Hgu'|].
      split; [exact (effect_trans w w n n' _ _ _ Hle (fun H => H) He He')|]. apply Hs1. exact (Hs2 _ _ _ _ Hle Hres).
    + destruct (Hf a) as [_ Hfa]. destruct (Hfa Ec n' calls (above' ++ rest) Hy') as (b & n'' & -> & Hle').
      exists b, n'', above'. split; [reflexivity|]. split; [lia|]. split; [eapply young_more; eauto|]. split; [exact Hgu|]. split; [exact He|]. apply Hun. reflexivity.
  - intros HR n calls s Hy. rewrite exec_andthen. destruct (H2 HR n calls s Hy) as (a & n' & -> & Hle).
    assert (covers r l = false) as Ec by (destruct (covers r l); [specialize (HrR eq_refl); congruence|reflexivity]).
    destruct (Hf a) as [_ Hfa]. destruct (Hfa Ec n' calls s (young_more _ _ _ _ Hle Hy)) as (b & n'' & -> & Hle'). exists b, n''. split; [reflexivity|lia].
Qed.

(** A raw pointer survives reads through the reference it came from. *)
Lemma spec_pointer {A B} l w w2 R r P t (m : emit N) (m2 : emit B) (f : N -> emit A) res : stable res ->
  (covers r l = true -> covers R l = true) -> grants P w2 = true -> P <> Unique -> (w = false -> w2 = false) ->
  spec l w R t m (gives l r P) -> spec l false R t m2 nothing ->
  (forall a, spec l w2 r a (f a) res) -> (covers r l = false -> forall a n above, res a n above) ->
  spec l w R t (a <! m ;; m2 ;! f a) res.
Proof.
  intros [Hs1 Hs2] HrR HP HnU Hw [H1 H2] [H3 H4] Hf Hun. split.
  - intros HR n calls above rest Hy Hg Hc. rewrite exec_andthen.
    destruct (H1 HR n calls above rest Hy Hg Hc) as (a & n' & above' & -> & Hle & Hy' & Hgu & He & Hr). rewrite exec_andthen.
    pose proof (clear_after _ _ _ _ _ (granted_young _ _ _ _ _ _ Hg Hy) Hc (proj1 He) Hgu) as Hc'.
    destruct (H3 HR n' calls above' rest Hy' (granted_weak _ _ _ Hg) Hc') as (b & n1 & above1 & -> & Hle1 & Hy1 & Hgu1 & He1 & _).
    assert (effect w n above above1) as He2.
    { eapply effect_trans; [exact Hle| |exact He|exact He1]. reflexivity. }
    unfold gives in Hr. destruct (covers r l) eqn:Ec.
    + destruct (Hr eq_refl) as (p & i & q & -> & Ht & EP & Hp & Hn).
      assert (is_unique i = false) as Hu by (unfold is_unique; destruct (perm i); congruence).
      destruct (proj2 He1 eq_refl p i q eq_refl Hu) as (p1 & q1 & -> & Hp1).
      assert (Forall (fun j => tag j <> a) p1) as Hp1'.
      { assert (a < n') as Ha.
        { destruct Hy' as [Hy' _]. apply Forall_app in Hy' as [Hy' _]. apply Forall_app in Hy' as [_ Hy']. apply Forall_cons_iff in Hy' as [[Hy' _] _]. congruence. }
        apply Forall_forall. intros j Hj. rewrite Forall_forall in Hp1, Hp. destruct (Hp1 j Hj) as [H|(j' & Hj' & <-)]; [lia|apply Hp, Hj']. }
      rewrite <- EP in HP.
      destruct (use_at l w w2 r a (f a) res n1 calls p1 i q1 rest (Hf a) Ec HP Hw Ht Hp1' Hy1 Hgu1) as (b' & n'' & p' & -> & Hle' & Hy'' & Hgu' & He' & _ & Hres).
      exists b', n'', (p' ++ i :: q1). split; [reflexivity|]. split; [lia|]. split; [exact Hy''|]. split; [exact Hgu'|].
      split; [eapply effect_trans with (n' := n1); [lia| |exact He2|exact He']; auto|]. apply Hs1. eapply Hs2; [|exact Hres]. lia.
    + destruct (Hf a) as [_ Hfa]. destruct (Hfa Ec n1 calls (above1 ++ rest) Hy1) as (b' & n'' & -> & Hle').
      exists b', n'', above1. split; [reflexivity|]. split; [lia|]. split; [eapply young_more; eauto|]. split; [exact Hgu1|]. split; [exact He2|]. apply Hun. reflexivity.
  - intros HR n calls s Hy. rewrite exec_andthen. destruct (H2 HR n calls s Hy) as (a & n' & -> & Hle). rewrite exec_andthen.
    assert (covers r l = false) as Ec by (destruct (covers r l); [specialize (HrR eq_refl); congruence|reflexivity]).
    destruct (H4 HR n' calls s (young_more _ _ _ _ Hle Hy)) as (b & n1 & -> & Hle1).
    destruct (Hf a) as [_ Hfa]. destruct (Hfa Ec n1 calls s) as (b' & n'' & -> & Hle'); [eapply young_more; [|exact Hy]; lia|]. exists b', n''. split; [reflexivity|lia].
Qed.

Lemma spec_method {A} l w R t k r (body : N -> emit A) res : stable res -> k = Mut \/ k = Shared ->
  (covers r l = true -> covers R l = true) -> (writing k = true -> w = true) ->
  (forall u, spec l (writing k) r u (body u) res) -> (covers r l = false -> forall a n above, res a n above) ->
  spec l w R t (method k t r body) res.
Proof.
  intros [Hs1 Hs2] Hkind HrR Hk Hb Hun.
  assert (forall n calls s a n' s', exec l (body (n + 1)) (n + 1 + 1, n :: calls, s) = Some (a, (n', n :: calls, s')) -> forall s0,
    check_event l (Retag k t (n + 1) (Some n) r) (n :: calls, s0) = Some (n :: calls, s) ->
    exec l (method k t r body) (n, calls, s0) = Some (a, (n', calls, s'))) as Hexec.
  { intros n calls s a n' s' E s0 E0. unfold exec, method, andthen, reborrow in *. destruct (body (n + 1) (n + 1 + 1)) as [[a0 es] n0].
    cbn [app check check_event] in *. change (let '(a, es, n) := (n + 1, [Retag k t (n + 1) (Some n) r], n + 1 + 1) in ?x) with x.
    unfold check_event in E0. rewrite E0, check_app. destruct (check l es (n :: calls, s)) as [[calls' s'']|]; [|discriminate].
    injection E as -> -> -> ->. reflexivity. }
  split.
  - intros HR n calls above rest Hy Hg Hc.
    assert (young (n + 1) (n :: calls) (above ++ rest)) as Hy1.
    { apply (young_more n (n + 1)) in Hy; [|lia]. destruct Hy as [Hy1 Hy2]. split; [exact Hy1|]. constructor; [lia|exact Hy2]. }
    assert (clear (n :: calls) t above) as Hc1.
    { destruct Hy as [Hy _]. apply Forall_app in Hy as [Hy _]. unfold clear in *. rewrite Forall_forall in *. intros i Hi. destruct (Hc i Hi) as [H1 H2]. split; [exact H1|].
      unfold guarded in *. destruct (guard i) as [g|] eqn:Eg; [|reflexivity]. cbn [existsb]. rewrite H2, orb_false_r. apply N.eqb_neq.
      destruct (Hy i Hi) as [_ Hg']. specialize (Hg' g Eg). lia. }
    destruct (covers r l) eqn:Ec.
    + destruct (retag_result (n :: calls) k w t (n + 1) (Some n) (n + 1) above rest Hk Hy1 Hg Hc1 ltac:(lia)) as (p & q & E & Hpq & Hf & Hlt & Hp & Hw).
      rewrite Hp in * by (destruct Hkind; subst k; discriminate). cbn [app] in *.
      set (i := {| tag := n + 1; perm := made k; guard := Some n |}) in *.
      destruct (Hb (n + 1)) as [Hb1 _].
      assert (young (n + 1 + 1) (n :: calls) ([] ++ i :: q ++ rest)) as Hy2.
      { destruct Hy1 as [Hy1 Hy2]. apply Forall_app in Hy1 as [_ Hy1]. split; [|eapply Forall_impl; [|exact Hy2]; cbn beta; lia].
        cbn [app]. constructor; [split; [cbn; lia|intros g [= <-]; lia]|]. apply Forall_app. split.
        - eapply Forall_impl; [|exact Hpq]. cbn beta. intros j [Hj _]. eapply young_item_more; [|exact Hj]. lia.
        - eapply Forall_impl; [|exact Hy1]. intros j. apply young_item_more. lia. }
      assert (granted (writing k) (n + 1) (i :: q ++ rest)) as Hg2.
      { exists i, (q ++ rest). split; [reflexivity|]. split; [reflexivity|]. destruct Hkind; subst k; reflexivity. }
      destruct (Hb1 Ec (n + 1 + 1) (n :: calls) [] (i :: q ++ rest) Hy2 Hg2 (Forall_nil _)) as (a & n' & above' & E' & Hle & Hy' & Hgu & He & Hr).
      cbn [app] in E'. exists a, n', (above' ++ i :: q).
      split; [rewrite <- app_assoc; cbn [app]; eapply Hexec; [exact E'|]; cbn [check_event]; rewrite Ec, E; reflexivity|]. split; [lia|].
      split; [destruct Hy' as [Hy'1 Hy'2]; rewrite <- app_assoc; split; [exact Hy'1|]; apply Forall_cons_iff in Hy'2; tauto|].
      assert (forall j, guarded (n :: calls) j = false -> guarded calls j = false) as Hless.
      { intros j. unfold guarded. destruct (guard j); [|reflexivity]. cbn [existsb]. intros H. apply orb_false_iff in H. tauto. }
      split.
      { apply Forall_app. split; [eapply Forall_impl; [|exact Hgu]; exact Hless|]. constructor.
        - unfold guarded. cbn [guard i]. destruct Hy as [_ Hy]. apply Bool.not_true_is_false. intros Hex. apply existsb_exists in Hex as (x & Hx & Ex). apply N.eqb_eq in Ex.
          rewrite Forall_forall in Hy. specialize (Hy x Hx). lia.
        - eapply Forall_impl; [|exact Hpq]. cbn beta. intros j [_ Hj]. apply Hless, Hj. }
      assert (Forall (fun j => n <= tag j) above') as Hnew.
      { eapply Forall_impl; [|exact (proj1 He)]. intros j [Hj|(j' & [] & _)]. lia. }
      split; [split|].
      * apply Forall_app. split; [eapply Forall_impl; [|exact Hnew]; intros j Hj; left; exact Hj|]. constructor; [left; cbn; lia|].
        eapply Forall_impl; [|exact Hf]. intros j. apply from_more. lia.
      * intros Ew. destruct (Hw Ew) as [_ ->]. intros p0 i0 q0 -> Hu. destruct (disable_keeps n p0 i0 q0 Hu) as (p2 & q2 & E2 & Hp2).
        exists (above' ++ i :: p2), q2. rewrite E2, <- app_assoc. split; [reflexivity|]. apply Forall_app. split.
        -- eapply Forall_impl; [|exact Hnew]. intros j Hj. left. exact Hj.
        -- constructor; [left; cbn; lia|exact Hp2].
      * apply Hs1. eapply Hs2; [|exact Hr]. lia.
    + destruct (Hb (n + 1)) as [_ Hb2]. destruct (Hb2 Ec (n + 1 + 1) (n :: calls) (above ++ rest)) as (a & n' & E' & Hle).
      { eapply young_more; [|exact Hy1]. lia. }
      exists a, n', above. split; [eapply Hexec; [exact E'|]; cbn [check_event]; rewrite Ec; reflexivity|]. split; [lia|].
      split; [eapply young_more; [|exact Hy]; lia|]. split; [eapply clear_guarded, Hc|]. split; [apply effect_refl|]. apply Hun. reflexivity.
  - intros HR n calls s Hy.
    assert (covers r l = false) as Ec by (destruct (covers r l); [specialize (HrR eq_refl); congruence|reflexivity]).
    destruct (Hb (n + 1)) as [_ Hb2]. destruct (Hb2 Ec (n + 1 + 1) (n :: calls) s) as (a & n' & E' & Hle).
    { apply (young_more n (n + 1 + 1)) in Hy; [|lia]. destruct Hy as [Hy1 Hy2]. split; [exact Hy1|]. constructor; [lia|exact Hy2]. }
    exists a, n'. split; [eapply Hexec; [exact E'|]; cbn [check_event]; rewrite Ec; reflexivity|lia].
Qed.

Lemma spec_same {A} l w R t (m m' : emit A) res : (forall x, exec l m x = exec l m' x) -> spec l w R t m' res -> spec l w R t m res.
Proof.
  intros E [H1 H2]. split.
  - intros HR n calls above rest Hy Hg Hc. rewrite E. apply H1; assumption.
  - intros HR n calls s Hy. rewrite E. apply H2; assumption.
Qed.

Lemma exec_assoc {A B C} l (m : emit A) (f : A -> emit B) (g : B -> emit C) x :
  exec l (andthen (andthen m f) g) x = exec l (a <! m ;; b <! f a ;; g b) x.
Proof. rewrite !exec_andthen. destruct (exec l m x) as [[a x']|]; [|reflexivity]. rewrite exec_andthen. reflexivity. Qed.

(** Ranges inside ranges. *)
Ltac sub :=
  let H := fresh in
  intros H; unfold covers, text_range, some_bytes, whole, discriminant, inline, length_field, all_bytes in H |- *;
  cbn [fst snd] in H |- *; apply andb_true_iff in H as [?%N.leb_le ?%N.ltb_lt];
  apply andb_true_iff; split; [apply N.leb_le|apply N.ltb_lt]; lia.

Ltac vacuous :=
  let E := fresh in
  intros E; intros; exact I ||
  (let Hc := fresh in intros Hc; exfalso; revert E; apply Bool.not_false_iff_true; revert Hc; sub).

(** ** The functions of the crate *)

Section Functions.
  Variable l : N.

  Lemma len_spec t : spec l false inline t (a_len t) nothing.
  Proof. apply spec_method; [apply nothing_stable|auto|auto|discriminate| |vacuous]. intros u. apply spec_read. sub. Qed.

  Lemma len_usize_spec t : spec l false inline t (a_len_usize t) nothing.
  Proof. apply spec_method; [apply nothing_stable|auto|auto|discriminate| |vacuous]. intros u. apply len_spec. Qed.

  Lemma is_reverse_spec t : spec l false inline t (a_is_reverse t) nothing.
  Proof. apply spec_method; [apply nothing_stable|auto|auto|discriminate| |vacuous]. intros u. apply spec_read. sub. Qed.

  Lemma data_offset_spec i t : spec l false inline t (a_data_offset i t) nothing.
  Proof.
    apply spec_method; [apply nothing_stable|auto|auto|discriminate| |vacuous]. intros u.
    apply spec_seq with (res := nothing); [apply nothing_stable|apply is_reverse_spec|]. intros _.
    destruct (is_reverse i); [apply len_usize_spec|apply spec_done].
  Qed.

  Lemma as_ptr_spec t r : spec l false r t (a_as_ptr t r) (gives l r SharedReadOnly).
  Proof.
    apply spec_method; [apply gives_stable|auto|auto|discriminate| |].
    - intros u. apply (spec_reborrow l false r u RawConst r); [auto|discriminate].
    - intros Hf a n above Hc. congruence.
  Qed.

  Lemma as_mut_ptr_spec t r : spec l true r t (a_as_mut_ptr t r) (gives l r SharedReadWrite).
  Proof.
    apply spec_method; [apply gives_stable|auto|auto|auto| |].
    - intros u. apply (spec_reborrow l true r u RawMut r); auto.
    - intros Hf a n above Hc. congruence.
  Qed.

  Definition inside (i : inline_string) : Prop := offset i + inline_len i <= 62.

  Lemma as_bytes_spec i t : inside i -> spec l false inline t (a_as_bytes i t) (gives l (text_range i) SharedReadOnly).
  Proof.
    intros Hi. unfold inside in Hi. apply spec_method; [apply gives_stable|auto|auto|discriminate| |vacuous]. intros s.
    apply spec_same with (m' := p <! (b <! reborrow Shared s None all_bytes ;; a_as_ptr b all_bytes) ;;
                               (a_data_offset i s ;! a_len_usize s) ;! reborrow Shared p None (text_range i)).
    { intros x. rewrite exec_assoc, !exec_andthen. destruct (exec l (reborrow _ _ _ _) x) as [[b x1]|]; [|reflexivity].
      rewrite !exec_andthen. destruct (exec l (a_as_ptr _ _) x1) as [[p x2]|]; [|reflexivity].
      symmetry. apply exec_assoc. }
    apply spec_pointer with (w2 := false) (r := all_bytes) (P := SharedReadOnly); [apply gives_stable|sub|reflexivity|discriminate|auto| | | |].
    - apply spec_use with (w2 := false) (r := all_bytes) (P := SharedReadOnly); [apply gives_stable|sub|reflexivity|auto| | |].
      + apply (spec_reborrow l false inline s Shared all_bytes); [sub|discriminate].
      + intros b. apply as_ptr_spec.
      + intros Hf a n above Hc. congruence.
    - apply spec_seq with (res := nothing); [apply nothing_stable|apply data_offset_spec|intros _; apply len_usize_spec].
    - intros p. apply (spec_reborrow l false all_bytes p Shared (text_range i)); [sub|discriminate].
    - vacuous.
  Qed.

  Lemma as_bytes_mut_spec i t : inside i -> spec l true inline t (a_as_bytes_mut i t) (gives l (text_range i) Unique).
  Proof.
    intros Hi. unfold inside in Hi. apply spec_method; [apply gives_stable|auto|auto|auto| |vacuous]. intros s.
    apply spec_same with (m' := p <! (b <! reborrow Mut s None all_bytes ;; a_as_mut_ptr b all_bytes) ;;
                               (a_data_offset i s ;! a_len_usize s) ;! reborrow Mut p None (text_range i)).
    { intros x. rewrite exec_assoc, !exec_andthen. destruct (exec l (reborrow _ _ _ _) x) as [[b x1]|]; [|reflexivity].
      rewrite !exec_andthen. destruct (exec l (a_as_mut_ptr _ _) x1) as [[p x2]|]; [|reflexivity].
      symmetry. apply exec_assoc. }
    apply spec_pointer with (w2 := true) (r := all_bytes) (P := SharedReadWrite); [apply gives_stable|sub|reflexivity|discriminate|auto| | | |].
    - apply spec_use with (w2 := true) (r := all_bytes) (P := Unique); [apply gives_stable|sub|reflexivity|auto| | |].
      + apply (spec_reborrow l true inline s Mut all_bytes); [sub|auto].
      + intros b. apply as_mut_ptr_spec.
      + intros Hf a n above Hc. congruence.
    - apply spec_seq with (res := nothing); [apply nothing_stable|apply data_offset_spec|intros _; apply len_usize_spec].
    - intros p. apply (spec_reborrow l true all_bytes p Mut (text_range i)); [sub|auto].
    - vacuous.
  Qed.

  Lemma inline_as_str_spec i t : inside i -> spec l false inline t (a_inline_as_str i t) (gives l (text_range i) SharedReadOnly).
  Proof.
    intros Hi. pose proof Hi as Hi'. unfold inside in Hi'. apply spec_method; [apply gives_stable|auto|auto|discriminate| |vacuous]. intros s.
    apply spec_use with (w2 := false) (r := text_range i) (P := SharedReadOnly); [apply gives_stable|sub|reflexivity|auto|apply as_bytes_spec, Hi| |vacuous].
    intros b. apply (spec_reborrow l false (text_range i) b Shared (text_range i)); [auto|discriminate].
  Qed.

  Lemma inline_as_mut_str_spec i t : inside i -> spec l true inline t (a_inline_as_mut_str i t) (gives l (text_range i) Unique).
  Proof.
    intros Hi. pose proof Hi as Hi'. unfold inside in Hi'. apply spec_method; [apply gives_stable|auto|auto|auto| |vacuous]. intros s.
    apply spec_use with (w2 := true) (r := text_range i) (P := Unique); [apply gives_stable|sub|reflexivity|auto|apply as_bytes_mut_spec, Hi| |vacuous].
    intros b. apply (spec_reborrow l true (text_range i) b Mut (text_range i)); auto.
  Qed.

  Lemma set_length_spec t : spec l true inline t (a_set_length t) nothing.
  Proof.
    apply spec_method; [apply nothing_stable|auto|auto|auto| |vacuous]. intros s.
    apply spec_seq with (res := nothing); [apply nothing_stable|apply spec_read; sub|intros _; apply spec_write; sub].
  Qed.

  Lemma copy_within_spec t src count dest : src + count <= 62 -> dest + count <= 62 ->
    spec l true all_bytes t (a_copy_within t src count dest) nothing.
  Proof.
    intros H1 H2. apply spec_method; [apply nothing_stable|auto|auto|auto| |vacuous]. intros s.
    apply spec_use with (w2 := true) (r := all_bytes) (P := SharedReadWrite); [apply nothing_stable|auto|reflexivity|auto|apply as_mut_ptr_spec| |vacuous].
    intros p. apply spec_seq with (res := nothing); [apply nothing_stable|apply spec_read; sub|intros _; apply spec_write; sub].
  Qed.

  Lemma write_each_spec r iter count : forall first,
    (forall j, first <= j < first + N.of_nat count -> covers (j, 1) l = true -> covers r l = true) ->
    spec l true r iter (a_write_each iter first count) nothing.
  Proof.
    induction count as [|count IH]; intros first Hr; cbn [a_write_each]; [apply spec_done|].
    assert (covers (first, 1) l = true -> covers r l = true) as H1 by (apply Hr; lia).
    apply spec_same with (m' := (dest <! reborrow Mut iter None (first, 1) ;; method Mut dest (first, 1) (fun s => write s (first, 1))) ;! a_write_each iter (first + 1) count).
    { intros x. symmetry. apply exec_assoc. }
    apply spec_seq with (res := nothing); [apply nothing_stable| |intros _; apply IH; intros j Hj; apply Hr; lia].
    apply spec_use with (w2 := true) (r := (first, 1)) (P := Unique); [apply nothing_stable|exact H1|reflexivity|auto| | |vacuous].
    - apply (spec_reborrow l true r iter Mut (first, 1)); auto.
    - intros dest. apply spec_method; [apply nothing_stable|auto|auto|auto| |vacuous]. intros s. apply spec_write. auto.
  Qed.

  Lemma write_zip_spec t start count : start + count <= 62 -> spec l true inline t (a_write_zip t start count) nothing.
  Proof.
    intros Hle.
    apply spec_use with (w2 := true) (r := all_bytes) (P := Unique); [apply nothing_stable|sub|reflexivity|auto| | |vacuous].
    { apply (spec_reborrow l true inline t Mut all_bytes); [sub|auto]. }
    intros b. apply spec_use with (w2 := true) (r := some_bytes start count) (P := Unique); [apply nothing_stable|sub|reflexivity|auto| | |vacuous].
    { apply spec_method; [apply gives_stable|auto|auto|auto| |vacuous]. intros s.
      apply (spec_reborrow l true all_bytes s Mut (some_bytes start count)); [sub|auto]. }
    intros slice. apply spec_use with (w2 := true) (r := some_bytes start count) (P := SharedReadWrite); [apply nothing_stable|auto|reflexivity|auto| | |vacuous].
    { apply spec_method; [apply gives_stable|auto|auto|auto| |].
      - intros s. apply (spec_reborrow l true (some_bytes start count) s RawMut (some_bytes start count)); auto.
      - intros Hf a n above Hc. congruence. }
    intros iter. apply write_each_spec. intros j Hj. sub.
  Qed.

  Lemma shift_spec t src count dest : src + count <= 62 -> dest + count <= 62 -> spec l true inline t (a_shift t src count dest) nothing.
  Proof.
    intros H1 H2. apply spec_use with (w2 := true) (r := all_bytes) (P := Unique); [apply nothing_stable|sub|reflexivity|auto| | |vacuous].
    - apply (spec_reborrow l true inline t Mut all_bytes); [sub|auto].
    - intros b. apply copy_within_spec; assumption.
  Qed.
  Lemma inline_push_spec i char_len new_length t : inside i -> new_length = inline_len i + char_len -> new_length <= 62 ->
    spec l true inline t (a_inline_push i char_len new_length t) nothing.
  Proof.
    intros Hi -> Hle. unfold inside, offset in Hi. apply spec_method; [apply nothing_stable|auto|auto|auto| |vacuous]. intros s.
    apply spec_seq with (res := nothing); [apply nothing_stable|apply spec_weaken, is_reverse_spec|]. intros _.
    apply spec_seq with (res := nothing); [apply nothing_stable| |intros _; apply set_length_spec].
    unfold offset. destruct (is_reverse i); [|apply write_zip_spec; lia].
    apply spec_seq with (res := nothing); [apply nothing_stable|apply spec_weaken, data_offset_spec|]. intros _.
    unfold INLINE_CAPACITY in *. apply spec_seq with (res := nothing); [apply nothing_stable|apply shift_spec; lia|intros _; apply write_zip_spec; lia].
  Qed.

  Lemma inline_push_str_spec i count new_length t : inside i -> new_length = inline_len i + count -> new_length <= 62 ->
    spec l true inline t (a_inline_push_str i count new_length t) nothing.
  Proof.
    intros Hi -> Hle. unfold inside, offset in Hi. apply spec_method; [apply nothing_stable|auto|auto|auto| |vacuous]. intros s.
    apply spec_seq with (res := nothing); [apply nothing_stable|apply spec_weaken, is_reverse_spec|]. intros _.
    apply spec_seq with (res := nothing); [apply nothing_stable| |intros _; apply set_length_spec].
    unfold offset. destruct (is_reverse i).
    - apply spec_seq with (res := nothing); [apply nothing_stable|apply spec_weaken, data_offset_spec|]. intros _.
      unfold INLINE_CAPACITY in *. apply spec_seq with (res := nothing); [apply nothing_stable|apply shift_spec; lia|intros _; apply write_zip_spec; lia].
    - apply spec_same with (m' := p <! (b <! reborrow Mut s None all_bytes ;; a_as_mut_ptr b all_bytes) ;; a_len_usize s ;! write p (some_bytes (inline_len i) count)).
      { intros x. symmetry. apply exec_assoc. }
      apply spec_pointer with (w2 := true) (r := all_bytes) (P := SharedReadWrite); [apply nothing_stable|sub|reflexivity|discriminate|auto| |apply len_usize_spec| |vacuous].
      + apply spec_use with (w2 := true) (r := all_bytes) (P := Unique); [apply gives_stable|sub|reflexivity|auto| | |].
        * apply (spec_reborrow l true inline s Mut all_bytes); [sub|auto].
        * intros b. apply as_mut_ptr_spec.
        * intros Hf a n above Hc. congruence.
      + intros p. apply spec_write. sub.
  Qed.

  Lemma inline_push_front_spec i char_len new_length t : inside i -> new_length = inline_len i + char_len -> new_length <= 62 ->
    is_reverse (set_length i new_length) = is_reverse i -> inline_len (set_length i new_length) = new_length ->
    spec l true inline t (a_inline_push_front i char_len new_length t) nothing.
  Proof.
    intros Hi En Hle Er El. unfold inside, offset in Hi. apply spec_method; [apply nothing_stable|auto|auto|auto| |vacuous]. intros s.
    apply spec_seq with (res := nothing); [apply nothing_stable|apply spec_weaken, is_reverse_spec|]. intros _.
    destruct (is_reverse i) eqn:Ei.
    - unfold INLINE_CAPACITY in *. apply spec_seq with (res := nothing); [apply nothing_stable|apply write_zip_spec; lia|intros _; apply set_length_spec].
    - apply spec_seq with (res := nothing); [apply nothing_stable|apply shift_spec; lia|]. intros _.
      apply spec_seq with (res := nothing); [apply nothing_stable|apply set_length_spec|]. intros _.
      set (i' := set_length i new_length) in *.
      assert (offset i' = 0) as Eo by (unfold offset; rewrite Er; reflexivity).
      apply spec_use with (w2 := true) (r := text_range i') (P := Unique); [apply nothing_stable| |reflexivity|auto| | |vacuous].
      + rewrite <- El in Hle. sub.
      + apply as_bytes_mut_spec. unfold inside. lia.
      + intros dst. apply spec_method; [apply nothing_stable|auto|auto|auto| |vacuous]. intros d. apply spec_write. sub.
  Qed.

  (** The string moves to the heap. *)
  Lemma spill_spec i self (pre : N -> emit unit) : inside i -> (forall inner, spec l true inline inner (pre inner) nothing) ->
    spec l true whole self (inner <! reborrow Mut self None inline ;; pre inner ;! a_spill i self inner) nothing.
  Proof.
    intros Hi Hpre. pose proof Hi as Hi'. unfold inside in Hi'.
    apply spec_same with (m' := (inner <! reborrow Mut self None inline ;; pre inner ;! r <! a_inline_as_str i inner ;; read r (text_range i)) ;! write self whole).
    { intros x. rewrite exec_assoc, !exec_andthen. destruct (exec l (reborrow _ _ _ _) x) as [[inner x1]|]; [|reflexivity].
      rewrite exec_assoc, !exec_andthen. destruct (exec l (pre inner) x1) as [[[] x2]|]; [|reflexivity].
      rewrite exec_assoc. reflexivity. }
    apply spec_seq with (res := nothing); [apply nothing_stable| |intros _; apply spec_write; auto].
    apply spec_use with (w2 := true) (r := inline) (P := Unique); [apply nothing_stable|sub|reflexivity|auto| | |vacuous].
    - apply (spec_reborrow l true whole self Mut inline); [sub|auto].
    - intros inner. apply spec_seq with (res := nothing); [apply nothing_stable|apply Hpre|]. intros _. apply spec_weaken.
      apply spec_use with (w2 := false) (r := text_range i) (P := SharedReadOnly); [apply nothing_stable|sub|reflexivity|auto|apply inline_as_str_spec, Hi| |vacuous].
      intros r. apply spec_read. auto.
  Qed.

  Lemma heap_spec self : spec l true whole self (method Mut self inline (fun s => read s inline ;! write s inline)) nothing.
  Proof.
    apply spec_method; [apply nothing_stable|auto|sub|auto| |vacuous]. intros s.
    apply spec_seq with (res := nothing); [apply nothing_stable|apply spec_read; auto|intros _; apply spec_write; auto].
  Qed.

  (** Two methods deep, then the variant is looked at. *)
  Lemma entry_spec self (body : N -> emit unit) : (forall self, spec l true whole self (body self) nothing) ->
    spec l true whole self (method Mut self whole (fun self => method Mut self whole (fun self => read self discriminant ;! body self))) nothing.
  Proof.
    intros Hb. apply spec_method; [apply nothing_stable|auto|auto|auto| |vacuous]. intros s.
    apply spec_method; [apply nothing_stable|auto|auto|auto| |vacuous]. intros s'.
    apply spec_seq with (res := nothing); [apply nothing_stable|apply spec_read; sub|intros _; apply Hb].
  Qed.

  Lemma inner_spec self (body : N -> emit unit) : (forall inner, spec l true inline inner (body inner) nothing) ->
    spec l true whole self (inner <! reborrow Mut self None inline ;; body inner) nothing.
  Proof.
    intros Hb. apply spec_use with (w2 := true) (r := inline) (P := Unique); [apply nothing_stable|sub|reflexivity|auto| |exact Hb|vacuous].
    apply (spec_reborrow l true whole self Mut inline); [sub|auto].
  Qed.

  Definition in_place (s : nominal_string) : Prop := match s with Inline i => exists rv, length_byte i = dir rv (inline_len i) /\ inline_len i <= 62 | Heap _ => True end.

  Lemma in_place_inside i : in_place (Inline i) -> inside i.
  Proof.
    intros (rv & Eb & Hle). unfold inside, offset, INLINE_CAPACITY. destruct (is_reverse i); lia.
  Qed.

  Lemma push_spec c s ch t : in_place s -> spec l true whole t (a_push c s ch t) nothing.
  Proof.
    intros Hs. apply entry_spec. intros self. destruct s as [i|bs]; [|apply heap_spec]. apply in_place_inside in Hs as Hi. cbv zeta.
    destruct (N.leb_spec (inline_len i + len_utf8 ch) INLINE_CAPACITY) as [Hle|Hgt].
    - apply inner_spec. intros inner. apply spec_seq with (res := nothing); [apply nothing_stable|apply spec_weaken, len_spec|intros _].
      apply inline_push_spec; [exact Hi|reflexivity|exact Hle].
    - destruct (has_alloc c).
      + apply (spill_spec i self a_len Hi). intros inner. apply spec_weaken, len_spec.
      + apply inner_spec. intros inner. apply spec_seq with (res := nothing); [apply nothing_stable|apply spec_weaken, len_spec|intros _; apply spec_done].
  Qed.

  Lemma push_str_spec c s str t : in_place s -> spec l true whole t (a_push_str c s str t) nothing.
  Proof.
    intros Hs. apply entry_spec. intros self. destruct s as [i|bs]; [|apply heap_spec]. apply in_place_inside in Hs as Hi. cbv zeta.
    assert (forall inner, spec l true inline inner (if N.of_nat (length str) <? 256 then a_len inner else done tt) nothing) as Hlen.
    { intros inner. destruct (_ <? _); [apply spec_weaken, len_spec|apply spec_done]. }
    destruct (N.leb_spec (inline_len i + N.of_nat (length str)) INLINE_CAPACITY) as [Hle|Hgt].
    - apply inner_spec. intros inner. apply spec_seq with (res := nothing); [apply nothing_stable|apply Hlen|intros _].
      apply inline_push_str_spec; [exact Hi|reflexivity|exact Hle].
    - destruct (has_alloc c).
      + apply spec_same with (m' := inner <! reborrow Mut self None inline ;; ((if N.of_nat (length str) <? 256 then a_len inner else done tt) ;! a_len_usize inner) ;! a_spill i self inner).
        { intros x. rewrite !exec_andthen. destruct (exec l (reborrow _ _ _ _) x) as [[inner x1]|]; [|reflexivity]. symmetry. apply exec_assoc. }
        apply (spill_spec i self (fun inner => (if N.of_nat (length str) <? 256 then a_len inner else done tt) ;! a_len_usize inner) Hi).
        intros inner. apply spec_seq with (res := nothing); [apply nothing_stable|apply Hlen|intros _; apply spec_weaken, len_usize_spec].
      + apply inner_spec. intros inner. apply spec_seq with (res := nothing); [apply nothing_stable|apply Hlen|intros _; apply spec_done].
  Qed.

  Lemma push_front_spec c s ch t : in_place s -> spec l true whole t (a_push_front c s ch t) nothing.
  Proof.
    intros Hs. apply entry_spec. intros self. destruct s as [i|bs]; [|apply heap_spec]. apply in_place_inside in Hs as Hi. cbv zeta.
    destruct (N.leb_spec (inline_len i + len_utf8 ch) INLINE_CAPACITY) as [Hle|Hgt].
    - apply inner_spec. intros inner. apply spec_seq with (res := nothing); [apply nothing_stable|apply spec_weaken, len_spec|intros _].
      destruct Hs as (rv & Eb & Hl).
      assert (length_byte (set_length i (inline_len i + len_utf8 ch)) = dir rv (inline_len i + len_utf8 ch)) as Eb'.
      { unfold set_length. cbn [length_byte]. rewrite Eb at 1. apply set_bits; assumption. }
      apply inline_push_front_spec; [exact Hi|reflexivity|exact Hle| |].
      + unfold is_reverse. rewrite Eb', Eb, !dir_bit by assumption. reflexivity.
      + unfold inline_len at 1. rewrite Eb'. apply len_bits. exact Hle.
    - destruct (has_alloc c).
      + apply (spill_spec i self a_len Hi). intros inner. apply spec_weaken, len_spec.
      + apply inner_spec. intros inner. apply spec_seq with (res := nothing); [apply nothing_stable|apply spec_weaken, len_spec|intros _; apply spec_done].
  Qed.

  Lemma deref_spec s t : in_place s -> spec l false whole t (a_deref s t) (gives l (borrowed s) SharedReadOnly).
  Proof.
    intros Hs.
    assert (covers (borrowed s) l = true -> covers whole l = true) as Hb.
    { destruct s as [i|bs]; cbn [borrowed]; [apply in_place_inside in Hs; unfold inside in Hs; sub|sub]. }
    assert (covers whole l = false -> forall a n above, gives l (borrowed s) SharedReadOnly a n above) as Hv.
    { intros Hf a n above Hc. specialize (Hb Hc). congruence. }
    apply spec_method; [apply gives_stable|auto|auto|discriminate| |exact Hv]. intros self.
    apply spec_method; [apply gives_stable|auto|auto|discriminate| |exact Hv]. intros self'.
    apply spec_seq with (res := nothing); [apply gives_stable|apply spec_read; sub|]. intros _. destruct s as [i|bs].
    - apply in_place_inside in Hs as Hi. pose proof Hi as Hi'. unfold inside in Hi'. cbn [borrowed].
      apply spec_use with (w2 := false) (r := inline) (P := SharedReadOnly); [apply gives_stable|sub|reflexivity|auto| | |vacuous].
      + apply (spec_reborrow l false whole self' Shared inline); [sub|discriminate].
      + intros inner. apply inline_as_str_spec, Hi.
    - cbn [borrowed].
      assert (forall a n above, gives l (0, 0) SharedReadOnly a n above) as Hno.
      { intros a n above Hc. exfalso. unfold covers in Hc. cbn [fst snd] in Hc. apply andb_true_iff in Hc as [_ Hc]. apply N.ltb_lt in Hc. lia. }
      apply spec_method; [apply gives_stable|auto|sub|discriminate| |auto]. intros h.
      apply spec_seq with (res := nothing); [apply gives_stable|apply spec_read; auto|]. intros _.
      destruct (spec_done l false inline h h) as [H1 H2]. split; [|exact H2]. intros HR n calls above rest Hy Hg Hc.
      destruct (H1 HR n calls above rest Hy Hg Hc) as (a & n' & above' & H). exists a, n', above'. repeat (split; [apply H|]). apply Hno.
  Qed.

  Lemma deref_mut_spec s t : in_place s -> spec l true whole t (a_deref_mut s t) (gives l (borrowed s) Unique).
  Proof.
    intros Hs.
    assert (covers (borrowed s) l = true -> covers whole l = true) as Hb.
    { destruct s as [i|bs]; cbn [borrowed]; [apply in_place_inside in Hs; unfold inside in Hs; sub|sub]. }
    assert (covers whole l = false -> forall a n above, gives l (borrowed s) Unique a n above) as Hv.
    { intros Hf a n above Hc. specialize (Hb Hc). congruence. }
    apply spec_method; [apply gives_stable|auto|auto|auto| |exact Hv]. intros self.
    apply spec_method; [apply gives_stable|auto|auto|auto| |exact Hv]. intros self'.
    apply spec_seq with (res := nothing); [apply gives_stable|apply spec_read; sub|]. intros _. destruct s as [i|bs].
    - apply in_place_inside in Hs as Hi. pose proof Hi as Hi'. unfold inside in Hi'. cbn [borrowed].
      apply spec_use with (w2 := true) (r := inline) (P := Unique); [apply gives_stable|sub|reflexivity|auto| | |vacuous].
      + apply (spec_reborrow l true whole self' Mut inline); [sub|auto].
      + intros inner. apply inline_as_mut_str_spec, Hi.
    - cbn [borrowed].
      assert (forall a n above, gives l (0, 0) Unique a n above) as Hno.
      { intros a n above Hc. exfalso. unfold covers in Hc. cbn [fst snd] in Hc. apply andb_true_iff in Hc as [_ Hc]. apply N.ltb_lt in Hc. lia. }
      apply spec_method; [apply gives_stable|auto|sub|auto| |auto]. intros h.
      apply spec_seq with (res := nothing); [apply gives_stable|apply spec_read; auto|]. intros _.
      destruct (spec_done l true inline h h) as [H1 H2]. split; [|exact H2]. intros HR n calls above rest Hy Hg Hc.
      destruct (H1 HR n calls above rest Hy Hg Hc) as (a & n' & above' & H). exists a, n', above'. repeat (split; [apply H|]). apply Hno.
  Qed.

  Lemma is_inline_spec t : spec l false whole t (a_is_inline t) nothing.
  Proof. apply spec_method; [apply nothing_stable|auto|auto|discriminate| |vacuous]. intros u. apply spec_read. sub. Qed.
End Functions.

(** ** Programs *)

(** Arguments are a [char] or a [str]. *)
Definition valid_use (u : use) : Prop :=
  match u with
  | UsePush ch | UsePushFront ch => is_scalar ch = true
  | UsePushStr str => valid_utf8 str = true
  | _ => True
  end.

(** What the borrow checker and bounds checks demand of a use: its reference
    has not ended, the byte is in the text. *)
Definition usable (x : scene) (u : use) : Prop :=
  match u with
  | Look which j => (which < length (views x))%nat /\ j < snd (borrowed (string_of x))
  | Peek j | Poke j => editor x <> None /\ j < snd (borrowed (string_of x))
  | _ => True
  end.

Lemma rep_in_place c s cs : rep c s cs -> in_place s.
Proof.
  intros [_ H]. destruct s as [i|bs]; [|exact I]. destruct H as [rv H]. exists rv. rewrite (ir_len _ _ _ H). destruct H as (Hl & Hb & _). auto.
Qed.

Lemma push_any c s cs cs' r s' x : push_effect c s cs' r -> rep c s cs -> r = Ret (s', x) -> exists cs'', rep c s' cs''.
Proof.
  unfold push_effect. intros H Hs E. destruct (StringFacts.room c cs').
  - destruct H as (s2 & -> & Hr & _). injection E as -> _. eauto.
  - rewrite H in E. injection E as -> _. eauto.
Qed.

Definition base : item := {| tag := 0; perm := Unique; guard := None |}.

Definition has (l : N) (s : nominal_string) (above : list item) (P : permission) (r : N) : Prop :=
  covers (borrowed s) l = true -> exists p i q, above = p ++ i :: q /\ tag i = r /\ perm i = P /\ Forall (fun j => tag j <> r) p.

(** Between two uses. *)
Definition between (c : config) (l : N) (x : scene) (n : N) (s : list item) : Prop :=
  (exists cs, rep c (string_of x) cs) /\ 0 < n /\
  if l <? 64 then
    exists above, s = above ++ [base] /\ young n [] s /\ clear [] 0 above /\
      Forall (has l (string_of x) above SharedReadOnly) (views x) /\
      forall r, editor x = Some r -> has l (string_of x) above Unique r
  else s = [].

Lemma unguarded s : Forall (fun i => guarded [] i = false) s.
Proof. apply Forall_forall. intros i _. unfold guarded. destruct (guard i); reflexivity. Qed.

Lemma covers_whole l : covers whole l = (l <? 64).
Proof. unfold covers, whole. cbn [fst snd]. destruct (N.leb_spec 0 l); [reflexivity|lia]. Qed.

Lemma base_granted w : granted w 0 [base].
Proof. exists base, []. auto. Qed.

(** A use of the whole string. *)
Lemma owner_step {A} c l x n s w (m : emit A) res : between c l x n s -> spec l w whole 0 m res ->
  exists a n' s', exec l m (n, [], s) = Some (a, (n', [], s')) /\ n <= n' /\
    if l <? 64 then exists above above', s = above ++ [base] /\ s' = above' ++ [base] /\ young n [] s /\ young n' [] s' /\ clear [] 0 above' /\
      effect w n above above' /\ res a n above' /\ Forall (has l (string_of x) above SharedReadOnly) (views x)
    else s' = [].
Proof.
  intros (_ & Hn & H) [H1 H2]. rewrite covers_whole in H1, H2. destruct (l <? 64).
  - destruct H as (above & -> & Hy & Hc & Hv & _).
    destruct (H1 eq_refl n [] above [base] Hy (base_granted w) Hc) as (a & n' & above' & -> & Hle & Hy' & Hgu & He & Hr).
    exists a, n', (above' ++ [base]). split; [reflexivity|]. split; [exact Hle|]. exists above, above'.
    split; [reflexivity|]. split; [reflexivity|]. split; [exact Hy|]. split; [exact Hy'|]. split; [|auto].
    eapply clear_after; [|exact Hc|exact (proj1 He)|exact Hgu]. exact Hn.
  - subst s. assert (young n [] []) as Hy by (split; constructor). destruct (H2 eq_refl n [] [] Hy) as (a & n' & -> & Hle).
    exists a, n', []. auto.
Qed.

Lemma has_later l s n above above' r : Forall (young_item n) above -> effect false n above above' ->
  has l s above SharedReadOnly r -> has l s above' SharedReadOnly r.
Proof.
  intros Hy [_ He] H Hc. destruct (H Hc) as (p & i & q & -> & Ht & HP & Hp).
  destruct (He eq_refl p i q eq_refl) as (p' & q' & -> & Hp'); [unfold is_unique; rewrite HP; reflexivity|].
  exists p', i, q'. repeat (split; [assumption || reflexivity|]). apply Forall_forall. intros j Hj. rewrite Forall_forall in Hp', Hp.
  apply Forall_app in Hy as [_ Hy]. apply Forall_cons_iff in Hy as [[Hy _] _].
  destruct (Hp' j Hj) as [H'|(j' & Hj' & <-)]; [lia|apply Hp, Hj'].
Qed.

(** A use of a reference taken before. *)
Lemma reference_step c l x n s w r P j (m : emit unit) : between c l x n s -> grants P w = true -> j < snd (borrowed (string_of x)) ->
  (forall above, Forall (has l (string_of x) above SharedReadOnly) (views x) -> (forall r, editor x = Some r -> has l (string_of x) above Unique r) -> has l (string_of x) above P r) ->
  spec l w (fst (borrowed (string_of x)) + j, 1) r m nothing -> (w = true -> views x = []) -> (P = Unique -> editor x = Some r /\ views x = []) ->
  (P <> Unique -> editor x = None) ->
  exists n' s', exec l m (n, [], s) = Some (tt, (n', [], s')) /\ between c l x n' s'.
Proof.
  intros (Hs & Hn & H) HP Hj Hhas Hm Hw HU HnU.
  assert (covers (fst (borrowed (string_of x)) + j, 1) l = true -> covers (borrowed (string_of x)) l = true) as Hsub.
  { destruct (borrowed (string_of x)) as [a len]. cbn [fst snd] in *. sub. }
  assert (covers (borrowed (string_of x)) l = true -> (l <? 64) = true) as Hin.
  { destruct Hs as [cs Hs]. apply rep_in_place in Hs. rewrite <- covers_whole. destruct (string_of x) as [i|bs]; cbn [borrowed].
    - apply in_place_inside in Hs. unfold inside in Hs. sub.
    - sub. }
  destruct (covers (fst (borrowed (string_of x)) + j, 1) l) eqn:Ec.
  - specialize (Hsub eq_refl). rewrite (Hin Hsub) in H. destruct H as (above & -> & Hy & Hc & Hv & He).
    destruct (Hhas above Hv He Hsub) as (p & i & q & -> & Ht & EP & Hp). rewrite <- EP in HP.
    destruct (use_at l w w _ r m nothing n [] p i q [base] Hm Ec HP (fun H => H) Ht Hp Hy (unguarded _)) as ([] & n' & p' & -> & Hle & Hy' & _ & Hef & Hp' & _).
    exists n', ((p' ++ i :: q) ++ [base]). split; [reflexivity|]. split; [exact Hs|]. split; [lia|]. rewrite (Hin Hsub).
    exists (p' ++ i :: q). split; [reflexivity|]. split; [exact Hy'|].
    split; [eapply clear_after; [exact Hn|exact Hc|exact (proj1 Hef)|apply unguarded]|]. split.
    + destruct w; [rewrite (Hw eq_refl); constructor|]. eapply Forall_impl; [|exact Hv]. intros r'. apply (has_later l (string_of x) n); [|exact Hef].
      destruct Hy as [Hy _]. apply Forall_app in Hy. tauto.
    + intros r' Er'. destruct P; try (rewrite HnU in Er' by discriminate; discriminate). destruct (HU eq_refl) as [Er _]. assert (r' = r) as -> by congruence.
      intros _. exists p', i, q. split; [reflexivity|]. split; [exact Ht|]. split; [exact EP|]. apply Forall_forall. intros y Hy1 Ey.
      rewrite Forall_forall in Hp', Hp. destruct Hy as [Hy _]. apply Forall_app in Hy as [Hy _]. apply Forall_app in Hy as [_ Hy]. apply Forall_cons_iff in Hy as [[Hy _] _].
      destruct (Hp' y Hy1) as [H'|(y' & Hy2 & Ey2)]; [lia|]. apply (Hp y' Hy2). congruence.
  - destruct Hm as [_ Hm]. assert (young n [] s) as Hy.
    { destruct (l <? 64); [destruct H as (above & -> & Hy & _); exact Hy|subst s; split; constructor]. }
    destruct (Hm Ec n [] s Hy) as ([] & n' & -> & Hle). exists n', s. split; [reflexivity|]. split; [exact Hs|]. split; [lia|].
    destruct (l <? 64); [|exact H]. destruct H as (above & -> & _ & Hc & Hv & He). exists above. split; [reflexivity|].
    split; [eapply young_more; eauto|]. auto.
Qed.

Lemma reborn c l s n s0 : (exists cs, rep c s cs) -> 0 < n ->
  (if l <? 64 then exists above, s0 = above ++ [base] /\ young n [] s0 /\ clear [] 0 above else s0 = []) ->
  between c l {| string_of := s; views := []; editor := None |} n s0.
Proof.
  intros Hs Hn H. split; [exact Hs|]. split; [exact Hn|]. cbn [views editor]. destruct (l <? 64); [|exact H].
  destruct H as (above & E & Hy & Hc). exists above. repeat (split; [assumption || constructor|]). discriminate.
Qed.

Lemma changed_step c l x n s (m : emit unit) s' : between c l x n s -> spec l true whole 0 m nothing -> (exists cs, rep c s' cs) ->
  exists x' n' s1, exec l (m ;! done {| string_of := s'; views := []; editor := None |}) (n, [], s) = Some (x', (n', [], s1)) /\ between c l x' n' s1.
Proof.
  intros Hb Hm Hs'. rewrite exec_andthen. destruct (owner_step c l x n s true m nothing Hb Hm) as ([] & n' & s1 & -> & Hle & H).
  eexists _, n', s1. split; [reflexivity|]. destruct Hb as (_ & Hn & _). apply reborn; [exact Hs'|lia|].
  destruct (l <? 64); [|exact H]. destruct H as (above & above' & _ & -> & _ & Hy' & Hc' & _). eauto.
Qed.

Definition tidy (x : scene) : Prop := editor x <> None -> views x = [].

Lemma use_step c l x n s u m : between c l x n s -> tidy x -> valid_use u -> use_trace c 0 x u = Some (Ret m) ->
  exists x' n' s', exec l m (n, [], s) = Some (x', (n', [], s')) /\ between c l x' n' s' /\ tidy x'.
Proof.
  intros Hb Ht Hv E. pose proof Hb as ((cs & Hs) & Hn & Hst). pose proof (rep_in_place _ _ _ Hs) as Hp.
  assert (forall (a : emit unit) r cs', push_effect c (string_of x) cs' r -> spec l true whole 0 a nothing ->
     ('(s', _) <- r ;; Ret (a ;! done {| string_of := s'; views := []; editor := None |})) = Ret m ->
     exists x' n' s', exec l m (n, [], s) = Some (x', (n', [], s')) /\ between c l x' n' s' /\ tidy x') as Hchanged.
  { intros a r cs' Hr Ha E'. destruct r as [[s' res]| | |] eqn:Er; try discriminate. cbn in E'. injection E' as <-.
    destruct (push_any c (string_of x) cs cs' _ s' res Hr Hs eq_refl) as [cs'' Hs'].
    destruct (changed_step c l x n s a s' Hb Ha (ex_intro _ _ Hs')) as (x' & n' & s1 & E1 & Hb').
    exists x', n', s1. split; [exact E1|]. split; [exact Hb'|]. rewrite exec_andthen in E1. destruct (exec l a _) as [[[] [[? ?] ?]]|]; [|discriminate].
    unfold exec, done in E1. cbn [check] in E1. injection E1 as <- _ _ _. intros []. reflexivity. }
  destruct u as [ch|str|ch| | | |which j|j|j]; cbn [use_trace valid_use] in *.
  - injection E as E. eapply Hchanged; [apply try_push_effect; eassumption|apply push_spec, Hp|exact E].
  - injection E as E. destruct (valid_utf8_inv str Hv) as (cs' & Hcs' & ->).
    eapply Hchanged; [apply try_push_str_effect; eassumption|apply push_str_spec, Hp|exact E].
  - injection E as E. eapply Hchanged; [apply try_push_front_effect; eassumption|apply push_front_spec, Hp|exact E].
  - injection E as <-. rewrite exec_andthen. destruct (owner_step c l x n s false _ nothing Hb (is_inline_spec l 0)) as ([] & n' & s' & -> & Hle & H).
    eexists _, n', s'. split; [reflexivity|]. split; [|intros []; reflexivity]. split; [eauto|]. split; [lia|]. destruct (l <? 64); [|exact H].
    destruct H as (above & above' & -> & -> & Hy & Hy' & Hc' & He & _ & Hvi). exists above'. repeat (split; [assumption || reflexivity|]).
    split; [|discriminate]. eapply Forall_impl; [|exact Hvi]. intros r. apply has_later with (n := n); [|exact He]. destruct Hy as [Hy _]. apply Forall_app in Hy. tauto.
  - injection E as <-. rewrite exec_andthen. destruct (owner_step c l x n s false _ _ Hb (deref_spec l (string_of x) 0 Hp)) as (r & n' & s' & -> & Hle & H).
    eexists _, n', s'. split; [reflexivity|]. split; [|intros []; reflexivity]. split; [eauto|]. split; [lia|]. destruct (l <? 64); [|exact H].
    destruct H as (above & above' & -> & -> & Hy & Hy' & Hc' & He & Hr & Hvi). exists above'. repeat (split; [assumption || reflexivity|]).
    split; [|discriminate]. constructor.
    + intros Hc. destruct (Hr Hc) as (p & i & q & E1 & E2 & E3 & E4 & _). exists p, i, q. auto.
    + eapply Forall_impl; [|exact Hvi]. intros r'. apply has_later with (n := n); [|exact He]. destruct Hy as [Hy _]. apply Forall_app in Hy. tauto.
  - injection E as <-. rewrite exec_andthen. destruct (owner_step c l x n s true _ _ Hb (deref_mut_spec l (string_of x) 0 Hp)) as (r & n' & s' & -> & Hle & H).
    eexists _, n', s'. split; [reflexivity|]. split; [|intros _; reflexivity]. split; [eauto|]. split; [lia|]. destruct (l <? 64); [|exact H].
    destruct H as (above & above' & -> & -> & Hy & Hy' & Hc' & He & Hr & _). exists above'. repeat (split; [assumption || reflexivity || constructor|]).
    intros r' [= <-] Hc. destruct (Hr Hc) as (p & i & q & E1 & E2 & E3 & E4 & _). exists p, i, q. auto.
  - destruct (nth_error (views x) which) as [r|] eqn:Er; [|discriminate]. destruct (N.ltb_spec j (snd (borrowed (string_of x)))) as [Hj|]; [|discriminate].
    injection E as <-. rewrite exec_andthen. apply nth_error_In in Er.
    destruct (reference_step c l x n s false r SharedReadOnly j (read r (fst (borrowed (string_of x)) + j, 1))) as (n' & s' & -> & Hb').
    + exact Hb.
    + reflexivity.
    + exact Hj.
    + intros above Hvi _. rewrite Forall_forall in Hvi. apply Hvi, Er.
    + apply spec_read. auto.
    + discriminate.
    + discriminate.
    + intros _. destruct (editor x) eqn:Ee; [|reflexivity]. rewrite Ht in Er; [destruct Er|]. congruence.
    + exists x, n', s'. auto.
  - destruct (editor x) as [r|] eqn:Er; [|discriminate]. destruct (N.ltb_spec j (snd (borrowed (string_of x)))) as [Hj|]; [|discriminate].
    injection E as <-. rewrite exec_andthen.
    destruct (reference_step c l x n s false r Unique j (read r (fst (borrowed (string_of x)) + j, 1))) as (n' & s' & -> & Hb').
    + exact Hb.
    + reflexivity.
    + exact Hj.
    + intros above _ He. apply He, Er.
    + apply spec_read. auto.
    + discriminate.
    + intros _. split; [exact Er|]. apply Ht. congruence.
    + congruence.
    + exists x, n', s'. auto.
  - destruct (editor x) as [r|] eqn:Er; [|discriminate]. destruct (N.ltb_spec j (snd (borrowed (string_of x)))) as [Hj|]; [|discriminate].
    injection E as <-. rewrite exec_andthen. assert (views x = []) as Hvi by (apply Ht; congruence).
    destruct (reference_step c l x n s true r Unique j (write r (fst (borrowed (string_of x)) + j, 1))) as (n' & s' & -> & Hb').
    + exact Hb.
    + reflexivity.
    + exact Hj.
    + intros above _ He. apply He, Er.
    + apply spec_write. auto.
    + intros _. exact Hvi.
    + auto.
    + congruence.
    + exists x, n', s'. auto.
Qed.

(** No program that uses a string through its methods and the references they
    return breaks the rules, at any byte; accesses outside of the 64 bytes would. *)
Theorem C106_no_violation : forall c s uses trace, reachable c s -> Forall valid_use uses ->
  plays c 0 {| string_of := s; views := []; editor := None |} 1 uses trace ->
  forall l, exists x, check l trace (variable l) = Some x.
Proof.
  intros c s uses trace Hs Hu Hp l. destruct (reachable_good c s Hs) as (text & cs & Hr & _).
  assert (forall x n us es, plays c 0 x n us es -> forall s0, Forall valid_use us -> between c l x n s0 -> tidy x -> exists y, check l es ([], s0) = Some y) as H.
  { clear. induction 1 as [x n|x n u us m x' es n' rest E Em Hp IH]; intros s0 Hu Hb Ht; [eexists; reflexivity|].
    apply Forall_cons_iff in Hu as [Hu Hus]. destruct (use_step c l x n s0 u m Hb Ht Hu E) as (x1 & n1 & s1 & E1 & Hb1 & Ht1).
    unfold exec in E1. rewrite Em in E1. rewrite check_app. destruct (check l es ([], s0)) as [[calls s2]|] eqn:Ec; (unfold stack in *; rewrite Ec in E1); [|discriminate E1].
    injection E1 as -> -> -> ->. apply IH; assumption. }
  apply (H _ _ _ _ Hp (snd (variable l)) Hu).
  - apply reborn; [eauto|lia|]. unfold variable. destruct (l <? 64); [|reflexivity]. exists []. split; [reflexivity|]. split; [|constructor].
    split; [|constructor]. constructor; [split; [cbn; lia|discriminate]|constructor].
  - intros _. reflexivity.
Qed.
Print Assumptions C106_no_violation.

(** Every use the compiler lets through has a trace: none panics. *)
Theorem C106_every_use : forall c x u, reachable c (string_of x) -> valid_use u -> usable x u ->
  exists m, use_trace c 0 x u = Some (Ret m).
Proof.
  intros c x u Hs Hv Hu. destruct (reachable_good c _ Hs) as (text & cs & Hr & _).
  assert (forall s cs' r (f : nominal_string -> emit scene), push_effect c s cs' r -> exists m, ('(s', _) <- r ;; Ret (f s')) = Ret m) as Hp.
  { intros s cs' r f. unfold push_effect. destruct (StringFacts.room c cs'); [intros (s' & -> & _)|intros ->]; eexists; reflexivity. }
  destruct u as [ch|str|ch| | | |which j|j|j]; cbn [use_trace valid_use usable] in *.
  - edestruct (Hp (string_of x)) as [m Em]; [apply try_push_effect; eassumption|]. exists m. f_equal. exact Em.
  - destruct (valid_utf8_inv str Hv) as (cs' & Hcs' & ->).
    edestruct (Hp (string_of x)) as [m Em]; [apply try_push_str_effect; eassumption|]. exists m. f_equal. exact Em.
  - edestruct (Hp (string_of x)) as [m Em]; [apply try_push_front_effect; eassumption|]. exists m. f_equal. exact Em.
  - eexists; reflexivity.
  - eexists; reflexivity.
  - eexists; reflexivity.
  - destruct Hu as [Hw Hj]. destruct (nth_error (views x) which) as [r|] eqn:Er; [|apply nth_error_None in Er; lia].
    apply N.ltb_lt in Hj. rewrite Hj. eexists; reflexivity.
  - destruct Hu as [He Hj]. destruct (editor x) as [r|]; [|congruence]. apply N.ltb_lt in Hj. rewrite Hj. eexists; reflexivity.
  - destruct Hu as [He Hj]. destruct (editor x) as [r|]; [|congruence]. apply N.ltb_lt in Hj. rewrite Hj. eexists; reflexivity.
Qed.
Print Assumptions C106_every_use.

(** A program with two views at once, an edit, pushes at both ends and a text
    that leaves the struct in the end. *)
Definition busy : list use :=
  [UsePush 0x61; UsePushFront 0xE9; UseDeref; UseIsInline; UseDeref; Look 1 0; Look 0 2; UseDerefMut; Poke 1; Peek 0;
   UsePushStr (bytes "nominal"%string); UseDeref; Look 0 9; UsePushStr (repeat 0x7A 60); UseDeref; UsePush 0x62].

Fixpoint trace_of (c : config) (x : scene) (n : N) (us : list use) : option (list event) :=
  match us with
  | [] => Some []
  | u :: us =>
      match use_trace c 0 x u with
      | Some (Ret m) =>
          let '(x', es, n') := m n in
          match trace_of c x' n' us with Some rest => Some (es ++ rest) | None => None end
      | _ => None
      end
  end.

Lemma trace_of_plays c us : forall x n es, trace_of c x n us = Some es -> plays c 0 x n us es.
Proof.
  induction us as [|u us IH]; intros x n es E; cbn [trace_of] in E.
  - injection E as <-. constructor.
  - destruct (use_trace c 0 x u) as [[m| | |]|] eqn:Eu; try discriminate. destruct (m n) as [[x' es'] n'] eqn:Em.
    destruct (trace_of c x' n' us) as [rest|] eqn:Er; [|discriminate]. injection E as <-. econstructor; eauto.
Qed.

Example C106_case : forall s, s = new \/ s = new_reverse -> exists trace,
  plays on_heap 0 {| string_of := s; views := []; editor := None |} 1 busy trace /\ (250 < length trace)%nat.
Proof.
  intros s Hs. destruct (trace_of on_heap {| string_of := s; views := []; editor := None |} 1 busy) as [es|] eqn:E.
  - exists es. split; [apply trace_of_plays, E|]. destruct Hs; subst s; vm_compute in E; injection E as <-; cbn [length]; lia.
  - destruct Hs; subst s; vm_compute in E; discriminate.
Qed.

(** What the rules forbid, at the first byte of the text: *)
Definition broken (m : emit unit) : Prop := let '(_, es, _) := m 1 in check 2 es (variable 2) = None.
Definition three : inline_string := {| length_byte := 3; cells := map Some (bytes "abc"%string) ++ repeat None 59 |}.

Example C106_forbidden :
  (* an edit through a reference taken before a push *)
  broken (r <! a_deref_mut (Inline three) 0 ;; a_push on_heap (Inline three) 0x64 0 ;! write r (2, 1)) /\
  (* a view used after an edit *)
  broken (r <! a_deref (Inline three) 0 ;; e <! a_deref_mut (Inline three) 0 ;; write e (2, 1) ;! read r (2, 1)) /\
  (* [as_bytes_mut] from [self.bytes.as_ptr()], cast to a [*mut] *)
  broken (method Mut 0 inline (fun s =>
    b <! reborrow Shared s None all_bytes ;; p <! a_as_ptr b all_bytes ;; a_data_offset three s ;!
    r <! reborrow Mut p None (text_range three) ;; write r (2, 1))) /\
  (* [set_length] between [as_mut_ptr] and the use of its pointer *)
  broken (method Mut 0 inline (fun s =>
    b <! reborrow Mut s None all_bytes ;; p <! a_as_mut_ptr b all_bytes ;; a_set_length s ;!
    r <! reborrow Mut p None (text_range three) ;; write r (2, 1))) /\
  (* a pointer to the first byte used for the next one *)
  (let '(_, es, _) := (p <! a_as_mut_ptr 0 (2, 1) ;; write p (3, 1)) 1 in check 3 es (variable 3) = None).
Proof. vm_compute. repeat split. Qed.

(** ** What the traces say is what happens to the bytes *)

(** Bytes of the struct that the model knows. *)
Definition byte_of (s : nominal_string) (l : N) : option N :=
  match s with
  | Inline i => if l =? 0 then Some 0 else if l =? 1 then Some (length_byte i) else nth (N.to_nat (l - 2)) (cells i) None
  | Heap _ => if l =? 0 then Some 1 else None
  end.

Definition access_at (w : bool) (l : N) (e : event) : Prop := exists t r, e = Access w t r /\ covers r l = true.

Definition accesses {A} (w : bool) (l : N) (m : emit A) : Prop := forall n, Exists (access_at w l) (snd (fst (m n))).

Lemma accesses_left {A B} w l (m : emit A) (f : A -> emit B) : accesses w l m -> accesses w l (andthen m f).
Proof.
  intros H n. specialize (H n). unfold andthen. destruct (m n) as [[a es] n']. destruct (f a n') as [[b es'] n'']. cbn [fst snd] in *. apply Exists_app. auto.
Qed.

Lemma accesses_right {A B} w l (m : emit A) (f : A -> emit B) : (forall a, accesses w l (f a)) -> accesses w l (andthen m f).
Proof.
  intros H n. unfold andthen. destruct (m n) as [[a es] n']. specialize (H a n'). destruct (f a n') as [[b es'] n'']. cbn [fst snd] in *. apply Exists_app. auto.
Qed.

Lemma accesses_method {A} w l k t r (body : N -> emit A) : (forall u, accesses w l (body u)) -> accesses w l (method k t r body).
Proof.
  intros H n. pose proof (accesses_right w l (reborrow k t (Some n) r) body H (n + 1)) as Hb. unfold method.
  destruct (andthen (reborrow k t (Some n) r) body (n + 1)) as [[a es] n']. cbn [fst snd] in *. apply Exists_app. right. apply Exists_app. auto.
Qed.

Lemma writes_write l t r : covers r l = true -> accesses true l (write t r).
Proof. intros H n. constructor. exists t, r. auto. Qed.

Lemma reads_read l t r : covers r l = true -> accesses false l (read t r).
Proof. intros H n. constructor. exists t, r. auto. Qed.

Lemma covers_iff r l : covers r l = true <-> fst r <= l < fst r + snd r.
Proof. unfold covers. rewrite andb_true_iff, N.leb_le, N.ltb_lt. tauto. Qed.

Lemma writes_each l iter count : forall first, first <= l < first + N.of_nat count -> accesses true l (a_write_each iter first count).
Proof.
  induction count as [|count IH]; intros first Hl; [lia|]. cbn [a_write_each]. apply accesses_right. intros dest.
  destruct (N.eq_dec l first) as [->|Hne].
  - apply accesses_left, accesses_method. intros u. apply writes_write, covers_iff. cbn [fst snd]. lia.
  - apply accesses_right. intros _. apply IH. lia.
Qed.

Lemma writes_zip l t start count : 2 + start <= l < 2 + start + count -> accesses true l (a_write_zip t start count).
Proof.
  intros Hl. apply accesses_right. intros b. apply accesses_right. intros slice. apply accesses_right. intros iter. apply writes_each. lia.
Qed.

Lemma writes_shift l t src count dest : 2 + dest <= l < 2 + dest + count -> accesses true l (a_shift t src count dest).
Proof.
  intros Hl. apply accesses_right. intros b. apply accesses_method. intros s. apply accesses_right. intros p. apply accesses_right. intros _.
  apply writes_write, covers_iff. cbn [fst snd some_bytes]. lia.
Qed.

Lemma writes_length t : accesses true 1 (a_set_length t).
Proof. apply accesses_method. intros s. apply accesses_right. intros _. apply writes_write. reflexivity. Qed.

Lemma overwrite_same buf off new j : (off + length new <= length buf)%nat -> (j < off \/ off + length new <= j)%nat ->
  nth j (overwrite buf off new) None = nth j buf None.
Proof.
  intros Hle Hj. unfold overwrite. rewrite <- (firstn_skipn off buf) at 3. destruct Hj as [Hj|Hj].
  - rewrite !app_nth1; [reflexivity|rewrite firstn_length; lia..].
  - rewrite !(app_nth2 (firstn off buf)) by (rewrite firstn_length; lia). rewrite firstn_length, Nat.min_l by lia.
    rewrite app_nth2 by lia. rewrite <- (firstn_skipn (length new) (skipn off buf)), skipn_skipn'.
    rewrite (app_nth2 (firstn _ _)) by (rewrite firstn_length, skipn_length; lia).
    rewrite firstn_length, skipn_length, Nat.min_l by lia. reflexivity.
Qed.

Lemma write_zip_same buf start stop src buf' j : write_zip buf start stop src = Ret buf' ->
  nth j buf' None <> nth j buf None -> (start <= j < stop /\ j < start + length src)%nat.
Proof.
  unfold write_zip. destruct (_ && _)%bool eqn:E; [|discriminate]. apply andb_true_iff in E as [E1%Nat.leb_le E2%Nat.leb_le]. intros [= <-] Hne.
  assert (length (map (@Some N) (firstn (stop - start) src)) = Nat.min (stop - start) (length src)) as El by (rewrite map_length, firstn_length; reflexivity).
  destruct (Nat.lt_ge_cases j start) as [H|H]; [exfalso; apply Hne, overwrite_same; lia|].
  destruct (Nat.lt_ge_cases j (start + Nat.min (stop - start) (length src))) as [H'|H']; [lia|exfalso; apply Hne, overwrite_same; lia].
Qed.

Lemma copy_within_same buf start stop dest buf' j : copy_within buf start stop dest = Ret buf' ->
  length buf' = length buf /\ (nth j buf' None <> nth j buf None -> (dest <= j < dest + (stop - start)))%nat.
Proof.
  unfold copy_within. destruct (_ && _)%bool eqn:E; [|discriminate]. apply andb_true_iff in E as [E E3%Nat.leb_le].
  apply andb_true_iff in E as [E1%Nat.leb_le E2%Nat.leb_le]. intros [= <-].
  assert (length (window buf start (stop - start)) = (stop - start)%nat) as El by (unfold window; rewrite firstn_length, skipn_length; lia).
  split; [unfold overwrite; rewrite !app_length, firstn_length, skipn_length, El; lia|]. intros Hne.
  destruct (Nat.lt_ge_cases j dest) as [H|H]; [exfalso; apply Hne, overwrite_same; lia|].
  destruct (Nat.lt_ge_cases j (dest + (stop - start))) as [H'|H']; [lia|exfalso; apply Hne, overwrite_same; lia].
Qed.

Lemma utf8_buffer_src ch : length (firstn (N.to_nat (len_utf8 ch)) (utf8_buffer ch)) = N.to_nat (len_utf8 ch).
Proof. rewrite utf8_buffer_firstn. apply encode_char_length_nat. Qed.

Lemma raw_copy_same buf off src buf' j : raw_copy buf off src = Ret buf' ->
  nth j buf' None <> nth j buf None -> (off <= j < off + length src)%nat.
Proof.
  unfold raw_copy. destruct (_ <=? _)%nat eqn:E; [|discriminate]. apply Nat.leb_le in E. intros [= <-] Hne.
  destruct (Nat.lt_ge_cases j off) as [H|H]; [exfalso; apply Hne, overwrite_same; rewrite ?map_length; lia|].
  destruct (Nat.lt_ge_cases j (off + length src)) as [H'|H']; [lia|exfalso; apply Hne, overwrite_same; rewrite ?map_length; lia].
Qed.

Lemma cell_eq (a b : cell) : a = b \/ a <> b.
Proof. destruct a as [a|], b as [b|]; try (right; discriminate); [|auto]. destruct (N.eq_dec a b) as [->|H]; [auto|right; intros [= ?]; auto]. Qed.

(** Byte [l] of an inline string changes only as part of the length or of the
    cells. *)
Lemma byte_changed i i' l : byte_of (Inline i') l <> byte_of (Inline i) l ->
  l = 1 \/ (2 <= l /\ nth (N.to_nat (l - 2)) (cells i') None <> nth (N.to_nat (l - 2)) (cells i) None).
Proof.
  unfold byte_of. destruct (l =? 0) eqn:E0; [intros H; contradiction|]. apply N.eqb_neq in E0.
  destruct (N.eqb_spec l 1) as [->|E1]; [auto|]. intros H. right. split; [lia|exact H].
Qed.

Lemma push_writes i cs rv ch i' t l : inline_rep rv i cs -> utf8_len cs + len_utf8 ch <= 62 ->
  inline_push i ch (len_utf8 ch) (inline_len i) (inline_len i + len_utf8 ch) = Ret i' ->
  byte_of (Inline i') l <> byte_of (Inline i) l -> accesses true l (a_inline_push i (len_utf8 ch) (inline_len i + len_utf8 ch) t).
Proof.
  intros H Hroom E Hl. pose proof (ir_len _ _ _ H) as Elen. pose proof H as (Hcs & _ & Hbuf & _). apply byte_changed in Hl.
  unfold a_inline_push. apply accesses_method. intros s. apply accesses_right. intros _.
  destruct Hl as [->|[Hl2 Hl]]; [apply accesses_right; intros _; apply writes_length|]. apply accesses_left.
  unfold inline_push in E. rewrite Elen in *. unfold data_offset, offset in *. rewrite Elen in *. set (j := N.to_nat (l - 2)) in *. unfold INLINE_CAPACITY in *.
  destruct (is_reverse i).
  - rewrite !offset_sub_le in E by lia. cbn [obind] in E.
    destruct (copy_within _ _ _ _) as [moved| | |] eqn:Em; [cbn [obind] in E|discriminate..].
    destruct (write_zip _ _ _ _) as [written| | |] eqn:Ew; [cbn [obind] in E|discriminate..]. injection E as <-. cbn [cells with_cells set_length] in Hl.
    destruct (copy_within_same _ _ _ _ _ j Em) as [Elm Hm]. pose proof (write_zip_same _ _ _ _ _ j Ew) as Hw. rewrite utf8_buffer_src in Hw.
    apply accesses_right. intros _.
    destruct (cell_eq (nth j written None) (nth j moved None)) as [Eq|Hne].
    + apply accesses_left, writes_shift. rewrite Eq in Hl. specialize (Hm Hl). subst j. lia.
    + apply accesses_right. intros _. apply writes_zip. specialize (Hw Hne). subst j. lia.
  - destruct (write_zip _ _ _ _) as [written| | |] eqn:Ew; [cbn [obind] in E|discriminate..]. injection E as <-. cbn [cells with_cells set_length] in Hl.
    pose proof (write_zip_same _ _ _ _ _ j Ew Hl) as Hw. apply writes_zip. subst j. lia.
Qed.

Lemma push_str_writes i cs rv str i' t l : inline_rep rv i cs -> utf8_len cs + N.of_nat (length str) <= 62 ->
  inline_push_str i str (inline_len i + N.of_nat (length str)) = Ret i' ->
  byte_of (Inline i') l <> byte_of (Inline i) l ->
  accesses true l (a_inline_push_str i (N.of_nat (length str)) (inline_len i + N.of_nat (length str)) t).
Proof.
  intros H Hroom E Hl. pose proof (ir_len _ _ _ H) as Elen. pose proof H as (Hcs & _ & Hbuf & _). apply byte_changed in Hl.
  unfold a_inline_push_str. apply accesses_method. intros s. apply accesses_right. intros _.
  destruct Hl as [->|[Hl2 Hl]]; [apply accesses_right; intros _; apply writes_length|]. apply accesses_left.
  unfold inline_push_str in E. rewrite Elen in *. unfold data_offset, offset in *. rewrite Elen in *. set (j := N.to_nat (l - 2)) in *. unfold INLINE_CAPACITY in *.
  destruct (is_reverse i).
  - rewrite !offset_sub_le in E by lia. cbn [obind] in E.
    destruct (copy_within _ _ _ _) as [moved| | |] eqn:Em; [cbn [obind] in E|discriminate..].
    destruct (write_zip _ _ _ _) as [written| | |] eqn:Ew; [cbn [obind] in E|discriminate..]. injection E as <-. cbn [cells with_cells set_length] in Hl.
    destruct (copy_within_same _ _ _ _ _ j Em) as [Elm Hm]. pose proof (write_zip_same _ _ _ _ _ j Ew) as Hw.
    apply accesses_right. intros _.
    destruct (cell_eq (nth j written None) (nth j moved None)) as [Eq|Hne].
    + apply accesses_left, writes_shift. rewrite Eq in Hl. specialize (Hm Hl). subst j. lia.
    + apply accesses_right. intros _. apply writes_zip. specialize (Hw Hne). subst j. lia.
  - destruct (raw_copy _ _ _) as [written| | |] eqn:Ew; [cbn [obind] in E|discriminate..]. injection E as <-. cbn [cells with_cells set_length] in Hl.
    pose proof (raw_copy_same _ _ _ _ j Ew Hl) as Hw. apply accesses_right. intros b. apply accesses_right. intros p. apply accesses_right. intros _.
    apply writes_write, covers_iff. cbn [fst snd some_bytes]. subst j. lia.
Qed.

Lemma push_front_writes i cs rv ch i' t l : inline_rep rv i cs -> utf8_len cs + len_utf8 ch <= 62 ->
  inline_push_front i ch (len_utf8 ch) (inline_len i) (inline_len i + len_utf8 ch) = Ret i' ->
  byte_of (Inline i') l <> byte_of (Inline i) l -> accesses true l (a_inline_push_front i (len_utf8 ch) (inline_len i + len_utf8 ch) t).
Proof.
  intros H Hroom E Hl. pose proof (ir_len _ _ _ H) as Elen. pose proof H as (Hcs & _ & Hbuf & _). apply byte_changed in Hl.
  unfold a_inline_push_front. apply accesses_method. intros s. apply accesses_right. intros _.
  unfold inline_push_front in E. destruct (is_reverse i) eqn:Erev.
  - destruct Hl as [->|[Hl2 Hl]]; [apply accesses_right; intros _; apply writes_length|]. apply accesses_left.
    rewrite Elen in *. set (j := N.to_nat (l - 2)) in *. unfold INLINE_CAPACITY in *. rewrite !offset_sub_le in E by lia. cbn [obind] in E.
    destruct (write_zip _ _ _ _) as [written| | |] eqn:Ew; [cbn [obind] in E|discriminate..]. injection E as <-. cbn [cells with_cells set_length] in Hl.
    pose proof (write_zip_same _ _ _ _ _ j Ew Hl) as Hw. apply writes_zip. subst j. lia.
  - destruct Hl as [->|[Hl2 Hl]]; [apply accesses_right; intros _; apply accesses_left, writes_length|].
    rewrite Elen in *. set (j := N.to_nat (l - 2)) in *.
    destruct (copy_within _ _ _ _) as [moved| | |] eqn:Em; [cbn [obind] in E|discriminate..].
    destruct (copy_within_same _ _ _ _ _ j Em) as [Elm Hm].
    unfold encode_into_bytes_mut in E.
    assert (is_reverse (set_length i (utf8_len cs + len_utf8 ch)) = false) as Er.
    { pose proof H as (_ & Eb & _). unfold is_reverse, set_length in *. cbn [length_byte]. rewrite Eb in *. rewrite dir_bit in Erev by assumption. rewrite set_bits, dir_bit by lia. exact Erev. }
    assert (data_offset (set_length (with_cells i moved) (utf8_len cs + len_utf8 ch)) = Ret 0) as Eo.
    { unfold data_offset. change (is_reverse (set_length (with_cells i moved) (utf8_len cs + len_utf8 ch))) with (is_reverse (set_length i (utf8_len cs + len_utf8 ch))). rewrite Er. reflexivity. }
    rewrite Eo in E. cbn [obind] in E. destruct (exposed_cells _) as [slice| | |] eqn:Es; [cbn [obind] in E|discriminate..].
    destruct (length (encode_char ch) <=? length slice)%nat; [|discriminate]. injection E as <-. cbn [cells with_cells set_length] in Hl.
    destruct (Nat.lt_ge_cases j (N.to_nat (len_utf8 ch))) as [Hj|Hj].
    + apply accesses_right. intros _. apply accesses_right. intros _. apply accesses_right. intros dst. apply accesses_method. intros d.
      apply writes_write, covers_iff. cbn [fst snd some_bytes]. subst j. lia.
    + apply accesses_left, writes_shift. rewrite overwrite_same in Hl.
      * specialize (Hm Hl). subst j. lia.
      * rewrite map_length, encode_char_length_nat. cbn. rewrite Elm, Hbuf. lia.
      * right. rewrite map_length, encode_char_length_nat. cbn. lia.
Qed.

Lemma spill_writes i self inner l : l < 64 -> accesses true l (a_spill i self inner).
Proof. intros Hl. apply accesses_right. intros r. apply accesses_right. intros _. apply writes_write, covers_iff. cbn. lia. Qed.

(** A byte of the struct that differs after a use was written by it: the
    traces leave nothing out that changes memory. *)
Theorem C106_changes_are_writes : forall c x u m n x' es n' l, reachable c (string_of x) -> valid_use u ->
  use_trace c 0 x u = Some (Ret m) -> m n = (x', es, n') -> l < 64 ->
  byte_of (string_of x') l <> byte_of (string_of x) l -> exists t r, In (Access true t r) es /\ covers r l = true.
Proof.
  intros c x u m n x' es n' l Hs Hv E Em Hl Hne. destruct (reachable_good c _ Hs) as (text & cs & Hr & _).
  assert (forall (f : emit unit) s', m = (f ;! done {| string_of := s'; views := []; editor := None |}) ->
    (byte_of s' l <> byte_of (string_of x) l -> accesses true l f) -> exists t r, In (Access true t r) es /\ covers r l = true) as Hgo.
  { intros f s' -> Hf. unfold andthen in Em. destruct (f n) as [[a es1] n1] eqn:Ef. cbn in Em. injection Em as <- <- <-. cbn in Hne. specialize (Hf Hne n).
    rewrite Ef in Hf. apply Exists_exists in Hf as (e & Hin & t & r & -> & Hc). exists t, r. split; [apply in_app_iff; auto|exact Hc]. }
  destruct Hr as [_ Hr].
  destruct u as [ch|str|ch| | | |which j|j|j]; cbn [use_trace] in E.
  - injection E as E. destruct (try_push c (string_of x) ch) as [[s' res]| | |] eqn:Ep; try discriminate E. injection E as <-.
    eapply Hgo; [reflexivity|]. intros Hb. apply accesses_method. intros s1. apply accesses_method. intros s2. apply accesses_right. intros _.
    destruct (string_of x) as [i|v]; [|injection Ep as <- <-; exfalso; apply Hb; reflexivity].
    destruct Hr as [rv Hr]. pose proof (ir_len _ _ _ Hr) as Elen. pose proof (proj1 Hr) as Hcs. pose proof (len_utf8_bounds ch) as Hch.
    apply accesses_right. intros inner. apply accesses_right. intros _. cbn [try_push] in Ep. unfold char_len_u8 in Ep.
    replace (len_utf8 ch <? 256) with true in Ep by (symmetry; apply N.ltb_lt; lia). cbn [obind] in Ep.
    rewrite uadd_8 in Ep by lia. cbn [obind] in Ep.
    cbv zeta. destruct (N.leb_spec (inline_len i + len_utf8 ch) INLINE_CAPACITY) as [Hle|Hgt].
    + destruct (inline_push _ _ _ _ _) as [i'| | |] eqn:Ei; try discriminate Ep. injection Ep as <- <-.
      eapply push_writes; try eassumption. rewrite Elen in Hle. exact Hle.
    + destruct (has_alloc c); [apply spill_writes; exact Hl|injection Ep as <- <-; contradiction].
  - injection E as E. destruct (try_push_str c (string_of x) str) as [[s' res]| | |] eqn:Ep; try discriminate E. injection E as <-.
    eapply Hgo; [reflexivity|]. intros Hb. apply accesses_method. intros s1. apply accesses_method. intros s2. apply accesses_right. intros _.
    destruct (string_of x) as [i|v]; [|injection Ep as <- <-; exfalso; apply Hb; reflexivity].
    destruct Hr as [rv Hr]. pose proof (ir_len _ _ _ Hr) as Elen. pose proof (proj1 Hr) as Hcs.
    apply accesses_right. intros inner. apply accesses_right. intros _. cbn [try_push_str] in Ep.
    cbv zeta. destruct (N.leb_spec (inline_len i + N.of_nat (length str)) INLINE_CAPACITY) as [Hle|Hgt].
    + unfold INLINE_CAPACITY in Hle. replace (N.of_nat (length str) <? 256) with true in Ep by (symmetry; apply N.ltb_lt; lia).
      replace (inline_len i + N.of_nat (length str) <? 256) with true in Ep by (symmetry; apply N.ltb_lt; lia).
      destruct (inline_push_str _ _ _) as [i'| | |] eqn:Ei; try discriminate Ep. injection Ep as <- <-.
      eapply push_str_writes; try eassumption. rewrite Elen in Hle. exact Hle.
    + destruct (has_alloc c); [apply accesses_right; intros _; apply spill_writes; exact Hl|].
      destruct (N.of_nat (length str) <? 256); [destruct (inline_len i + N.of_nat (length str) <? 256)|]; injection Ep as <- <-; contradiction.
  - injection E as E. destruct (try_push_front c (string_of x) ch) as [[s' res]| | |] eqn:Ep; try discriminate E. injection E as <-.
    eapply Hgo; [reflexivity|]. intros Hb. apply accesses_method. intros s1. apply accesses_method. intros s2. apply accesses_right. intros _.
    destruct (string_of x) as [i|v]; [|injection Ep as <- <-; exfalso; apply Hb; reflexivity].
    destruct Hr as [rv Hr]. pose proof (ir_len _ _ _ Hr) as Elen. pose proof (proj1 Hr) as Hcs. pose proof (len_utf8_bounds ch) as Hch.
    apply accesses_right. intros inner. apply accesses_right. intros _. cbn [try_push_front] in Ep. unfold char_len_u8 in Ep.
    replace (len_utf8 ch <? 256) with true in Ep by (symmetry; apply N.ltb_lt; lia). cbn [obind] in Ep.
    rewrite uadd_8 in Ep by lia. cbn [obind] in Ep.
    cbv zeta. destruct (N.leb_spec (inline_len i + len_utf8 ch) INLINE_CAPACITY) as [Hle|Hgt].
    + destruct (inline_push_front _ _ _ _ _) as [i'| | |] eqn:Ei; try discriminate Ep. injection Ep as <- <-.
      eapply push_front_writes; try eassumption. rewrite Elen in Hle. exact Hle.
    + destruct (has_alloc c); [apply spill_writes; exact Hl|injection Ep as <- <-; contradiction].
  - injection E as <-. unfold andthen in Em. destruct (a_is_inline 0 n) as [[a e1] n1]. injection Em as <- <- <-. contradiction.
  - injection E as <-. unfold andthen in Em. destruct (a_deref (string_of x) 0 n) as [[a e1] n1]. injection Em as <- <- <-. contradiction.
  - injection E as <-. unfold andthen in Em. destruct (a_deref_mut (string_of x) 0 n) as [[a e1] n1]. injection Em as <- <- <-. contradiction.
  - destruct (nth_error (views x) which) as [r|]; [|discriminate]. destruct (_ <? _); [|discriminate]. injection E as <-. injection Em as <- <- <-. contradiction.
  - destruct (editor x) as [r|]; [|discriminate]. destruct (_ <? _); [|discriminate]. injection E as <-. injection Em as <- <- <-. contradiction.
  - destruct (editor x) as [r|]; [|discriminate]. destruct (_ <? _); [|discriminate]. injection E as <-. injection Em as <- <- <-. contradiction.
Qed.
Print Assumptions C106_changes_are_writes.

(** Two buffers that differ in cell [j] only, if at all. *)
Definition agree (j : nat) (a b : list cell) : Prop :=
  length a = length b /\ forall k, k <> j -> nth k a None = nth k b None.

Lemma overwrite_nth buf off new k : (off + length new <= length buf)%nat ->
  nth k (overwrite buf off new) None = if ((off <=? k) && (k <? off + length new))%nat then nth (k - off) new None else nth k buf None.
Proof.
  intros Hle. destruct (Nat.leb_spec off k) as [H1|H1]; cbn [andb].
  - destruct (Nat.ltb_spec k (off + length new)) as [H2|H2]; [|apply overwrite_same; auto; lia].
    unfold overwrite. rewrite app_nth2, firstn_length, Nat.min_l by (rewrite ?firstn_length; lia). apply app_nth1. lia.
  - apply overwrite_same; auto; lia.
Qed.

Lemma overwrite_agree j a b off new : (off + length new <= length a)%nat -> agree j a b -> agree j (overwrite a off new) (overwrite b off new).
Proof.
  intros Hle [El Hn]. split.
  - unfold overwrite. rewrite !app_length, !firstn_length, !skipn_length. lia.
  - intros k Hk. rewrite !overwrite_nth by lia. rewrite (Hn k Hk). reflexivity.
Qed.

Lemma zip_agree j a b start stop src a' b' : agree j a b -> write_zip a start stop src = Ret a' -> write_zip b start stop src = Ret b' -> agree j a' b'.
Proof.
  intros H Ea Eb. unfold write_zip in *. destruct (_ && _)%bool eqn:E in Ea; [|discriminate]. injection Ea as <-.
  destruct (_ && _)%bool in Eb; [|discriminate]. injection Eb as <-. apply andb_true_iff in E as [E1%Nat.leb_le E2%Nat.leb_le].
  apply overwrite_agree; [rewrite map_length, firstn_length; lia|exact H].
Qed.

Lemma raw_agree j a b off src a' b' : agree j a b -> raw_copy a off src = Ret a' -> raw_copy b off src = Ret b' -> agree j a' b'.
Proof.
  intros H Ea Eb. unfold raw_copy in *. destruct (_ <=? _)%nat eqn:E in Ea; [|discriminate]. injection Ea as <-.
  destruct (_ <=? _)%nat in Eb; [|discriminate]. injection Eb as <-. apply Nat.leb_le in E. apply overwrite_agree; [rewrite map_length; lia|exact H].
Qed.

Lemma window_agree j a b off len : agree j a b -> (j < off \/ off + len <= j)%nat -> window a off len = window b off len.
Proof.
  intros [El Hn] Hj. unfold window. apply (nth_ext _ _ None None); [rewrite !firstn_length, !skipn_length; lia|].
  intros k Hk. rewrite firstn_length, skipn_length in Hk.
  assert (forall l : list cell, length l = length a -> nth k (firstn len (skipn off l)) None = nth (off + k) l None) as Hnth.
  { intros l Hl. rewrite <- (firstn_skipn off l) at 2. rewrite (app_nth2 (firstn off l)), firstn_length, Nat.min_l by (rewrite ?firstn_length; lia).
    replace (off + k - off)%nat with k by lia. rewrite <- (firstn_skipn len (skipn off l)) at 2. rewrite app_nth1; [reflexivity|rewrite firstn_length, skipn_length; lia]. }
  rewrite !Hnth by auto. apply Hn. lia.
Qed.

Lemma copy_agree j a b start stop dest a' b' : agree j a b -> (j < start \/ stop <= j)%nat ->
  copy_within a start stop dest = Ret a' -> copy_within b start stop dest = Ret b' -> agree j a' b'.
Proof.
  intros H Hj Ea Eb. unfold copy_within in *. destruct (_ && _)%bool eqn:E in Ea; [|discriminate]. injection Ea as <-.
  destruct (_ && _)%bool in Eb; [|discriminate]. injection Eb as <-. apply andb_true_iff in E as [E E3%Nat.leb_le]. apply andb_true_iff in E as [E1%Nat.leb_le E2%Nat.leb_le].
  rewrite <- (window_agree j a b) by (auto; lia). apply overwrite_agree; [unfold window; rewrite firstn_length, skipn_length; lia|exact H].
Qed.

Lemma reads_shift l t src count dest : 2 + src <= l < 2 + src + count -> accesses false l (a_shift t src count dest).
Proof.
  intros Hl. apply accesses_right. intros b. apply accesses_method. intros s. apply accesses_right. intros p. apply accesses_left.
  apply reads_read, covers_iff. cbn [fst snd some_bytes]. lia.
Qed.

(** Two inline strings that differ in byte [2 + j] of the struct only. *)
Definition alike (j : nat) (i k : inline_string) : Prop := length_byte i = length_byte k /\ agree j (cells i) (cells k).

Lemma alike_facts j i k : alike j i k -> inline_len k = inline_len i /\ is_reverse k = is_reverse i /\ data_offset k = data_offset i.
Proof. intros [E _]. unfold data_offset, inline_len, is_reverse. rewrite E. auto. Qed.

Lemma alike_set j i k a b len : alike j i k -> agree j a b -> alike j (set_length (with_cells i a) len) (set_length (with_cells k b) len).
Proof. intros [E _] H. split; [cbn; rewrite E; reflexivity|exact H]. Qed.

Lemma push_reads i k cs rv ch i' k' t j : inline_rep rv i cs -> alike j i k -> utf8_len cs + len_utf8 ch <= 62 ->
  inline_push i ch (len_utf8 ch) (inline_len i) (inline_len i + len_utf8 ch) = Ret i' ->
  inline_push k ch (len_utf8 ch) (inline_len k) (inline_len k + len_utf8 ch) = Ret k' ->
  alike j i' k' \/ accesses false (2 + N.of_nat j) (a_inline_push i (len_utf8 ch) (inline_len i + len_utf8 ch) t).
Proof.
  intros H Hk Hroom Ei Ek. destruct (alike_facts _ _ _ Hk) as (E1 & E2 & E3). pose proof (ir_len _ _ _ H) as Elen. pose proof H as (Hcs & _ & Hbuf & _).
  pose proof Hk as [_ Hagree]. pose proof Hagree as [Elk _]. unfold inline_push, a_inline_push in *. rewrite E1, E2, E3, <- Elk, Hbuf in *. rewrite Elen in *. unfold data_offset, offset in *. rewrite Elen in *. unfold INLINE_CAPACITY in *.
  destruct (is_reverse i).
  - rewrite !offset_sub_le in Ei, Ek by lia. cbn [obind] in Ei, Ek.
    destruct (copy_within (cells i) _ _ _) as [mi| | |] eqn:Em in Ei; [cbn [obind] in Ei|discriminate..].
    destruct (copy_within (cells k) _ _ _) as [mk| | |] eqn:Em' in Ek; [cbn [obind] in Ek|discriminate..].
    destruct (Nat.lt_ge_cases j (N.to_nat (62 - utf8_len cs))) as [Hj|Hj].
    + left. pose proof (copy_agree j _ _ _ _ _ _ _ Hagree (or_introl Hj) Em Em') as Hm. rewrite <- (proj1 Hm) in Ek.
      destruct (write_zip mi _ _ _) as [wi| | |] eqn:Ew in Ei; [cbn [obind] in Ei|discriminate..].
      destruct (write_zip mk _ _ _) as [wk| | |] eqn:Ew' in Ek; [cbn [obind] in Ek|discriminate..]. injection Ei as <-. injection Ek as <-.
      apply alike_set; [exact Hk|]. eapply zip_agree; eassumption.
    + destruct (Nat.lt_ge_cases j 62) as [Hj'|Hj'].
      * right. apply accesses_method. intros s. apply accesses_right. intros _. apply accesses_left. apply accesses_right. intros _. apply accesses_left, reads_shift. lia.
      * left. pose proof (copy_agree j _ _ _ _ _ _ _ Hagree (or_intror Hj') Em Em') as Hm. rewrite <- (proj1 Hm) in Ek.
        destruct (write_zip mi _ _ _) as [wi| | |] eqn:Ew in Ei; [cbn [obind] in Ei|discriminate..].
        destruct (write_zip mk _ _ _) as [wk| | |] eqn:Ew' in Ek; [cbn [obind] in Ek|discriminate..]. injection Ei as <-. injection Ek as <-.
        apply alike_set; [exact Hk|]. eapply zip_agree; eassumption.
  - left. destruct (write_zip (cells i) _ _ _) as [wi| | |] eqn:Ew in Ei; [cbn [obind] in Ei|discriminate..].
    destruct (write_zip (cells k) _ _ _) as [wk| | |] eqn:Ew' in Ek; [cbn [obind] in Ek|discriminate..]. injection Ei as <-. injection Ek as <-.
    apply alike_set; [exact Hk|]. eapply zip_agree; eassumption.
Qed.

Lemma push_str_reads i k cs rv str i' k' t j : inline_rep rv i cs -> alike j i k -> utf8_len cs + N.of_nat (length str) <= 62 ->
  inline_push_str i str (inline_len i + N.of_nat (length str)) = Ret i' ->
  inline_push_str k str (inline_len k + N.of_nat (length str)) = Ret k' ->
  alike j i' k' \/ accesses false (2 + N.of_nat j) (a_inline_push_str i (N.of_nat (length str)) (inline_len i + N.of_nat (length str)) t).
Proof.
  intros H Hk Hroom Ei Ek. destruct (alike_facts _ _ _ Hk) as (E1 & E2 & E3). pose proof (ir_len _ _ _ H) as Elen. pose proof H as (Hcs & _ & Hbuf & _).
  pose proof Hk as [_ Hagree]. pose proof Hagree as [Elk _]. unfold inline_push_str, a_inline_push_str in *. rewrite E1, E2, E3, <- Elk, Hbuf in *. rewrite Elen in *. unfold data_offset, offset in *. rewrite Elen in *. unfold INLINE_CAPACITY in *.
  destruct (is_reverse i).
  - rewrite !offset_sub_le in Ei, Ek by lia. cbn [obind] in Ei, Ek.
    destruct (copy_within (cells i) _ _ _) as [mi| | |] eqn:Em in Ei; [cbn [obind] in Ei|discriminate..].
    destruct (copy_within (cells k) _ _ _) as [mk| | |] eqn:Em' in Ek; [cbn [obind] in Ek|discriminate..].
    destruct (Nat.lt_ge_cases j (N.to_nat (62 - utf8_len cs))) as [Hj|Hj].
    + left. pose proof (copy_agree j _ _ _ _ _ _ _ Hagree (or_introl Hj) Em Em') as Hm. rewrite <- (proj1 Hm) in Ek.
      destruct (write_zip mi _ _ _) as [wi| | |] eqn:Ew in Ei; [cbn [obind] in Ei|discriminate..].
      destruct (write_zip mk _ _ _) as [wk| | |] eqn:Ew' in Ek; [cbn [obind] in Ek|discriminate..]. injection Ei as <-. injection Ek as <-.
      apply alike_set; [exact Hk|]. eapply zip_agree; eassumption.
    + destruct (Nat.lt_ge_cases j 62) as [Hj'|Hj'].
      * right. apply accesses_method. intros s. apply accesses_right. intros _. apply accesses_left. apply accesses_right. intros _. apply accesses_left, reads_shift. lia.
      * left. pose proof (copy_agree j _ _ _ _ _ _ _ Hagree (or_intror Hj') Em Em') as Hm. rewrite <- (proj1 Hm) in Ek.
        destruct (write_zip mi _ _ _) as [wi| | |] eqn:Ew in Ei; [cbn [obind] in Ei|discriminate..].
        destruct (write_zip mk _ _ _) as [wk| | |] eqn:Ew' in Ek; [cbn [obind] in Ek|discriminate..]. injection Ei as <-. injection Ek as <-.
        apply alike_set; [exact Hk|]. eapply zip_agree; eassumption.
  - left. destruct (raw_copy (cells i) _ _) as [wi| | |] eqn:Ew in Ei; [cbn [obind] in Ei|discriminate..].
    destruct (raw_copy (cells k) _ _) as [wk| | |] eqn:Ew' in Ek; [cbn [obind] in Ek|discriminate..]. injection Ei as <-. injection Ek as <-.
    apply alike_set; [exact Hk|]. eapply raw_agree; eassumption.
Qed.

Lemma push_front_reads i k cs rv ch i' k' t j : inline_rep rv i cs -> alike j i k -> utf8_len cs + len_utf8 ch <= 62 ->
  inline_push_front i ch (len_utf8 ch) (inline_len i) (inline_len i + len_utf8 ch) = Ret i' ->
  inline_push_front k ch (len_utf8 ch) (inline_len k) (inline_len k + len_utf8 ch) = Ret k' ->
  alike j i' k' \/ accesses false (2 + N.of_nat j) (a_inline_push_front i (len_utf8 ch) (inline_len i + len_utf8 ch) t).
Proof.
  intros H Hk Hroom Ei Ek. destruct (alike_facts _ _ _ Hk) as (E1 & E2 & E3). pose proof (ir_len _ _ _ H) as Elen. pose proof H as (Hcs & _ & Hbuf & _).
  pose proof Hk as [_ Hagree]. pose proof Hagree as [Elk _]. unfold inline_push_front, a_inline_push_front in *. rewrite E1, E2 in *. rewrite Elen in *.
  destruct (is_reverse i) eqn:Erev.
  - left. unfold INLINE_CAPACITY in *. rewrite !offset_sub_le in Ei, Ek by lia. cbn [obind] in Ei, Ek.
    destruct (write_zip (cells i) _ _ _) as [wi| | |] eqn:Ew in Ei; [cbn [obind] in Ei|discriminate..].
    destruct (write_zip (cells k) _ _ _) as [wk| | |] eqn:Ew' in Ek; [cbn [obind] in Ek|discriminate..]. injection Ei as <-. injection Ek as <-.
    apply alike_set; [exact Hk|]. eapply zip_agree; eassumption.
  - destruct (copy_within (cells i) _ _ _) as [mi| | |] eqn:Em in Ei; [cbn [obind] in Ei|discriminate..].
    destruct (copy_within (cells k) _ _ _) as [mk| | |] eqn:Em' in Ek; [cbn [obind] in Ek|discriminate..].
    destruct (Nat.lt_ge_cases j (N.to_nat (utf8_len cs))) as [Hj|Hj].
    + right. apply accesses_method. intros s. apply accesses_right. intros _. apply accesses_left, reads_shift. lia.
    + left. pose proof (copy_agree j _ _ _ _ _ _ _ Hagree (or_intror Hj) Em Em') as Hm.
      pose proof (alike_set j i k mi mk (utf8_len cs + len_utf8 ch) Hk Hm) as Hset. destruct (alike_facts _ _ _ Hset) as (F1 & F2 & F3).
      unfold encode_into_bytes_mut in *. rewrite F3 in Ek. destruct (copy_within_same _ _ _ _ _ j Em) as [Elm _].
      destruct (data_offset _) as [off| | |] eqn:Eo; [cbn [obind] in *|discriminate..].
      destruct (exposed_cells (set_length (with_cells i mi) _)) as [si| | |] eqn:Es in Ei; [cbn [obind] in Ei|discriminate..].
      destruct (exposed_cells (set_length (with_cells k mk) _)) as [sk| | |] in Ek; [cbn [obind] in Ek|discriminate..].
      destruct (Nat.leb_spec (length (encode_char ch)) (length si)) as [Hle|]; [|discriminate Ei].
      destruct (_ <=? _)%nat in Ek; [|discriminate Ek]. injection Ei as <-. injection Ek as <-. split; [exact (proj1 Hset)|]. cbn [cells with_cells set_length].
      apply overwrite_agree; [|exact Hm]. rewrite map_length. unfold exposed_cells in Es. rewrite Eo in Es. cbn [obind] in Es.
      destruct (_ <=? _)%nat eqn:El in Es; [|discriminate Es]. apply Nat.leb_le in El. injection Es as <-. unfold window in Hle. rewrite firstn_length in Hle. cbn [cells with_cells set_length] in El. lia.
Qed.

Lemma as_str_reads i k cs rv vi vk j : inline_rep rv i cs -> alike j i k -> inline_as_str i = Ret vi -> inline_as_str k = Ret vk ->
  vi = vk \/ covers (text_range i) (2 + N.of_nat j) = true.
Proof.
  intros H Hk Ei Ek. destruct (alike_facts _ _ _ Hk) as (E1 & E2 & E3). pose proof (ir_len _ _ _ H) as Elen. pose proof H as (Hcs & _ & Hbuf & _).
  pose proof Hk as [_ Hagree]. unfold inline_as_str, as_bytes in *. rewrite E1, E3 in Ek.
  assert (data_offset i = Ret (offset i)) as Eo.
  { unfold data_offset, offset, INLINE_CAPACITY. rewrite Elen. destruct (is_reverse i); [|reflexivity]. apply offset_sub_le. exact Hcs. }
  rewrite Eo in *. cbn [obind] in *. unfold read_bytes in *. rewrite <- (proj1 Hagree) in Ek.
  destruct (covers (text_range i) (2 + N.of_nat j)) eqn:Ec; [auto|]. left.
  assert (j < N.to_nat (offset i) \/ N.to_nat (offset i) + N.to_nat (inline_len i) <= j)%nat as Hj.
  { destruct (Nat.lt_ge_cases j (N.to_nat (offset i))); [auto|]. right. apply Nat.nlt_ge. intros Hlt. apply Bool.not_true_iff_false in Ec. apply Ec, covers_iff.
    unfold text_range, some_bytes. cbn [fst snd]. lia. }
  rewrite <- (window_agree j _ _ _ _ Hagree Hj) in Ek. congruence.
Qed.

Lemma spill_reads i self inner l : covers (text_range i) l = true -> accesses false l (a_spill i self inner).
Proof. intros Hl. apply accesses_right. intros r. apply accesses_left, reads_read, Hl. Qed.

Lemma len_reads t : accesses false 1 (a_len t).
Proof. apply accesses_method. intros s. apply reads_read. reflexivity. Qed.

(** Two strings that differ in byte [l] of the struct only, if at all. *)
Definition same_but (l : N) (s s' : nominal_string) : Prop :=
  (forall k, k < 64 -> k <> l -> byte_of s k = byte_of s' k) /\
  match s, s' with
  | Inline i, Inline i' => length (cells i) = length (cells i')
  | Heap v, Heap v' => v = v'
  | _, _ => True
  end.

Lemma same_but_alike l i k cs rv : inline_rep rv i cs -> 2 <= l -> same_but l (Inline i) (Inline k) -> alike (N.to_nat (l - 2)) i k.
Proof.
  intros (_ & _ & Hbuf & _) Hl [Hb El]. split; [|split; [exact El|]].
  - specialize (Hb 1). cbn in Hb. assert (Some (length_byte i) = Some (length_byte k)) as [= E] by (apply Hb; lia). exact E.
  - intros j Hj. destruct (Nat.lt_ge_cases j 62) as [H|H]; [|rewrite !nth_overflow by lia; reflexivity].
    specialize (Hb (2 + N.of_nat j)). unfold byte_of in Hb. replace (2 + N.of_nat j =? 0) with false in Hb by (symmetry; apply N.eqb_neq; lia).
    replace (2 + N.of_nat j =? 1) with false in Hb by (symmetry; apply N.eqb_neq; lia). replace (N.to_nat (2 + N.of_nat j - 2)) with j in Hb by lia. apply Hb; lia.
Qed.

Lemma alike_same_but l i k : 2 <= l -> alike (N.to_nat (l - 2)) i k -> same_but l (Inline i) (Inline k).
Proof.
  intros Hl [E [El Hn]]. split; [|exact El]. intros j _ Hj. unfold byte_of. destruct (N.eqb_spec j 0) as [->|]; [reflexivity|].
  destruct (N.eqb_spec j 1) as [->|]; [rewrite E; reflexivity|]. apply Hn. lia.
Qed.

(** Byte [l] matters to a use: it makes a difference to another byte, to a
    text on the heap, to the bytes a reference covers or to an answer. *)
Definition matters (u : use) (l : N) (s t s' t' : nominal_string) : Prop :=
  ~ same_but l s' t' \/
  match u with
  | UseIsInline => is_inline s <> is_inline t
  | UseDeref | UseDerefMut => borrowed s <> borrowed t
  | _ => False
  end.

Theorem C106_sources_are_reads : forall c x y u m n x' es n' my ny y' esy ny' l, reachable c (string_of x) -> valid_use u ->
  l < 64 -> same_but l (string_of x) (string_of y) ->
  use_trace c 0 x u = Some (Ret m) -> m n = (x', es, n') -> use_trace c 0 y u = Some (Ret my) -> my ny = (y', esy, ny') ->
  matters u l (string_of x) (string_of y) (string_of x') (string_of y') -> exists t r, In (Access false t r) es /\ covers r l = true.
Proof.
  intros c x y u m n x' es n' my ny y' esy ny' l Hs Hv Hl Hsame E Em Ey Emy Hm. destruct (reachable_good c _ Hs) as (text & cs & Hr & _). destruct Hr as [_ Hr].
  assert (forall A (f : emit A) g, m = andthen f g -> accesses false l f -> exists t r, In (Access false t r) es /\ covers r l = true) as Hgo.
  { intros A f g -> Hf. unfold andthen in Em. specialize (Hf n). destruct (f n) as [[a es1] n1]. destruct (g a n1) as [[b es2] n2]. injection Em as <- <- <-.
    apply Exists_exists in Hf as (e & Hin & t & r & -> & Hc). exists t, r. split; [apply in_app_iff; auto|exact Hc]. }
  assert (forall s t, (s = t \/ same_but l s t) -> ~ same_but l s t -> False) as Hno.
  { intros s t [->|H] Hn; apply Hn; [|exact H]. split; [reflexivity|destruct t; reflexivity]. }
  assert (string_of x = string_of y /\ 0 < l \/ l = 0 \/ 0 < l /\ exists i k, string_of x = Inline i /\ string_of y = Inline k) as Hcase.
  { destruct (N.eq_dec l 0) as [->|Hl0]; [auto|]. destruct Hsame as [Hb He]. specialize (Hb 0).
    destruct (string_of x) as [i|v], (string_of y) as [k|w]; cbn in Hb; try (exfalso; assert (Some 0 = Some 1 \/ Some 1 = Some 0) as [?|?] by (rewrite Hb by lia; auto); discriminate).
    - right. right. split; [lia|]. eauto.
    - left. subst w. split; [reflexivity|lia]. }
  assert (2 <= l -> 2 + N.of_nat (N.to_nat (l - 2)) = l) as Ej by lia.
  destruct u as [ch|str|ch| | | |which j|j|j]; cbn [use_trace] in E, Ey; unfold matters in Hm.
  - injection E as E. injection Ey as Ey. destruct Hm as [Hm|[]].
    destruct (try_push c (string_of x) ch) as [[s' res]| | |] eqn:Ep; try discriminate E. injection E as <-.
    destruct (try_push c (string_of y) ch) as [[t' rest]| | |] eqn:Epy; try discriminate Ey. injection Ey as <-.
    assert (string_of x' = s') as Ex' by (unfold andthen in Em; destruct (a_push _ _ _ _ n) as [[? ?] ?]; injection Em as <- <- <-; reflexivity).
    assert (string_of y' = t') as Ey' by (unfold andthen in Emy; destruct (a_push _ _ _ _ ny) as [[? ?] ?]; injection Emy as <- <- <-; reflexivity).
    rewrite Ex', Ey' in Hm. clear Em Emy Ex' Ey'.
    destruct Hcase as [[Eq _]|[->|(Hl0 & i & k & Ex & Eyk)]].
    + rewrite Eq in Ep. exfalso. eapply Hno; [left|exact Hm]. congruence.
    + eapply Hgo; [reflexivity|]. apply accesses_method. intros s1. apply accesses_method. intros s2. apply accesses_left, reads_read. reflexivity.
    + rewrite Ex, Eyk in *. destruct Hr as [rv Hr]. pose proof (ir_len _ _ _ Hr) as Elen. pose proof (proj1 Hr) as Hcs. pose proof (len_utf8_bounds ch) as Hch.
      destruct (N.eq_dec l 1) as [->|Hl1].
      { eapply Hgo; [reflexivity|]. apply accesses_method. intros s1. apply accesses_method. intros s2. apply accesses_right. intros _. apply accesses_right. intros inner. apply accesses_left, len_reads. }
      pose proof (same_but_alike l i k _ _ Hr ltac:(lia) Hsame) as Hk. pose proof (alike_facts _ _ _ Hk) as (E1 & _).
      cbn [try_push] in Ep, Epy. unfold char_len_u8 in *. replace (len_utf8 ch <? 256) with true in Ep, Epy by (symmetry; apply N.ltb_lt; lia). cbn [obind] in Ep, Epy.
      rewrite uadd_8 in Ep, Epy by lia. cbn [obind] in Ep, Epy. rewrite E1 in Epy.
      eapply Hgo; [reflexivity|]. apply accesses_method. intros s1. apply accesses_method. intros s2. apply accesses_right. intros _. apply accesses_right. intros inner.
      apply accesses_right. intros _. cbv zeta. destruct (N.leb_spec (inline_len i + len_utf8 ch) INLINE_CAPACITY) as [Hle|Hgt].
      * destruct (inline_push i ch _ _ _) as [i'| | |] eqn:Ei in Ep; try discriminate Ep. injection Ep as <- <-.
        destruct (inline_push k ch _ _ _) as [k'| | |] eqn:Ek in Epy; try discriminate Epy. injection Epy as <- <-. rewrite <- E1 in Ek. rewrite Elen in Hle.
        destruct (push_reads i k cs rv ch i' k' inner _ Hr Hk Hle Ei Ek) as [Ha|Ha]; [|rewrite Ej in Ha by lia; exact Ha].
        exfalso. eapply Hno; [right|exact Hm]. apply alike_same_but; [lia|exact Ha].
      * destruct (has_alloc c); [|injection Ep as <- <-; injection Epy as <- <-; contradiction].
        destruct (inline_as_str i) as [vi| | |] eqn:Ei in Ep; try discriminate Ep. injection Ep as <- <-.
        destruct (inline_as_str k) as [vk| | |] eqn:Ek in Epy; try discriminate Epy. injection Epy as <- <-.
        destruct (as_str_reads i k cs rv vi vk _ Hr Hk Ei Ek) as [->|Ha]; [exfalso; eapply Hno; [left; reflexivity|exact Hm]|].
        rewrite Ej in Ha by lia. apply spill_reads, Ha.
  - injection E as E. injection Ey as Ey. destruct Hm as [Hm|[]].
    destruct (try_push_str c (string_of x) str) as [[s' res]| | |] eqn:Ep; try discriminate E. injection E as <-.
    destruct (try_push_str c (string_of y) str) as [[t' rest]| | |] eqn:Epy; try discriminate Ey. injection Ey as <-.
    assert (string_of x' = s') as Ex' by (unfold andthen in Em; destruct (a_push_str _ _ _ _ n) as [[? ?] ?]; injection Em as <- <- <-; reflexivity).
    assert (string_of y' = t') as Ey' by (unfold andthen in Emy; destruct (a_push_str _ _ _ _ ny) as [[? ?] ?]; injection Emy as <- <- <-; reflexivity).
    rewrite Ex', Ey' in Hm. clear Em Emy Ex' Ey'.
    destruct Hcase as [[Eq _]|[->|(Hl0 & i & k & Ex & Eyk)]].
    + rewrite Eq in Ep. exfalso. eapply Hno; [left|exact Hm]. congruence.
    + eapply Hgo; [reflexivity|]. apply accesses_method. intros s1. apply accesses_method. intros s2. apply accesses_left, reads_read. reflexivity.
    + rewrite Ex, Eyk in *. destruct Hr as [rv Hr]. pose proof (ir_len _ _ _ Hr) as Elen. pose proof (proj1 Hr) as Hcs. cbn [try_push_str] in Ep, Epy.
      eapply Hgo; [reflexivity|]. apply accesses_method. intros s1. apply accesses_method. intros s2. apply accesses_right. intros _. apply accesses_right. intros inner. cbv zeta.
      destruct (N.eq_dec l 1) as [->|Hl1].
      { destruct (N.ltb_spec (N.of_nat (length str)) 256) as [Hn|Hn]; [apply accesses_left, len_reads|]. apply accesses_right. intros _.
        destruct (N.leb_spec (inline_len i + N.of_nat (length str)) INLINE_CAPACITY) as [Hle|_]; [unfold INLINE_CAPACITY in Hle; lia|].
        destruct (has_alloc c); [apply accesses_left, accesses_method; intros s; apply len_reads|]. injection Ep as <- <-. injection Epy as <- <-. contradiction. }
      pose proof (same_but_alike l i k _ _ Hr ltac:(lia) Hsame) as Hk. pose proof (alike_facts _ _ _ Hk) as (E1 & _). rewrite E1 in Epy.
      apply accesses_right. intros _. destruct (N.leb_spec (inline_len i + N.of_nat (length str)) INLINE_CAPACITY) as [Hle|Hgt].
      * assert (N.of_nat (length str) <? 256 = true) as B1 by (apply N.ltb_lt; unfold INLINE_CAPACITY in Hle; lia).
        assert (inline_len i + N.of_nat (length str) <? 256 = true) as B2 by (apply N.ltb_lt; unfold INLINE_CAPACITY in Hle; lia). rewrite B1, B2 in Ep, Epy.
        destruct (inline_push_str i str _) as [i'| | |] eqn:Ei in Ep; try discriminate Ep. injection Ep as <- <-.
        destruct (inline_push_str k str _) as [k'| | |] eqn:Ek in Epy; try discriminate Epy. injection Epy as <- <-. rewrite <- E1 in Ek. rewrite Elen in Hle.
        destruct (push_str_reads i k cs rv str i' k' inner _ Hr Hk Hle Ei Ek) as [Ha|Ha]; [|rewrite Ej in Ha by lia; exact Ha].
        exfalso. eapply Hno; [right|exact Hm]. apply alike_same_but; [lia|exact Ha].
      * assert ((if has_alloc c then old <- inline_as_str i ;; Ret (Heap (old ++ str), Ok tt) else Ret (Inline i, Err OutOfMemoryError)) = Ret (s', res)) as Fi
          by (destruct (_ <? 256) in Ep; [destruct (_ <? 256) in Ep|]; exact Ep).
        assert ((if has_alloc c then old <- inline_as_str k ;; Ret (Heap (old ++ str), Ok tt) else Ret (Inline k, Err OutOfMemoryError)) = Ret (t', rest)) as Fk
          by (destruct (_ <? 256) in Epy; [destruct (_ <? 256) in Epy|]; exact Epy).
        destruct (has_alloc c); [|injection Fi as <- <-; injection Fk as <- <-; contradiction].
        destruct (inline_as_str i) as [vi| | |] eqn:Ei in Fi; try discriminate Fi. injection Fi as <- <-.
        destruct (inline_as_str k) as [vk| | |] eqn:Ek in Fk; try discriminate Fk. injection Fk as <- <-.
        destruct (as_str_reads i k cs rv vi vk _ Hr Hk Ei Ek) as [->|Ha]; [exfalso; eapply Hno; [left; reflexivity|exact Hm]|].
        rewrite Ej in Ha by lia. apply accesses_right. intros _. apply spill_reads, Ha.
  - injection E as E. injection Ey as Ey. destruct Hm as [Hm|[]].
    destruct (try_push_front c (string_of x) ch) as [[s' res]| | |] eqn:Ep; try discriminate E. injection E as <-.
    destruct (try_push_front c (string_of y) ch) as [[t' rest]| | |] eqn:Epy; try discriminate Ey. injection Ey as <-.
    assert (string_of x' = s') as Ex' by (unfold andthen in Em; destruct (a_push_front _ _ _ _ n) as [[? ?] ?]; injection Em as <- <- <-; reflexivity).
    assert (string_of y' = t') as Ey' by (unfold andthen in Emy; destruct (a_push_front _ _ _ _ ny) as [[? ?] ?]; injection Emy as <- <- <-; reflexivity).
    rewrite Ex', Ey' in Hm. clear Em Emy Ex' Ey'.
    destruct Hcase as [[Eq _]|[->|(Hl0 & i & k & Ex & Eyk)]].
    + rewrite Eq in Ep. exfalso. eapply Hno; [left|exact Hm]. congruence.
    + eapply Hgo; [reflexivity|]. apply accesses_method. intros s1. apply accesses_method. intros s2. apply accesses_left, reads_read. reflexivity.
    + rewrite Ex, Eyk in *. destruct Hr as [rv Hr]. pose proof (ir_len _ _ _ Hr) as Elen. pose proof (proj1 Hr) as Hcs. pose proof (len_utf8_bounds ch) as Hch.
      destruct (N.eq_dec l 1) as [->|Hl1].
      { eapply Hgo; [reflexivity|]. apply accesses_method. intros s1. apply accesses_method. intros s2. apply accesses_right. intros _. apply accesses_right. intros inner. apply accesses_left, len_reads. }
      pose proof (same_but_alike l i k _ _ Hr ltac:(lia) Hsame) as Hk. pose proof (alike_facts _ _ _ Hk) as (E1 & _).
      cbn [try_push_front] in Ep, Epy. unfold char_len_u8 in *. replace (len_utf8 ch <? 256) with true in Ep, Epy by (symmetry; apply N.ltb_lt; lia). cbn [obind] in Ep, Epy.
      rewrite uadd_8 in Ep, Epy by lia. cbn [obind] in Ep, Epy. rewrite E1 in Epy.
      eapply Hgo; [reflexivity|]. apply accesses_method. intros s1. apply accesses_method. intros s2. apply accesses_right. intros _. apply accesses_right. intros inner.
      apply accesses_right. intros _. cbv zeta. destruct (N.leb_spec (inline_len i + len_utf8 ch) INLINE_CAPACITY) as [Hle|Hgt].
      * destruct (inline_push_front i ch _ _ _) as [i'| | |] eqn:Ei in Ep; try discriminate Ep. injection Ep as <- <-.
        destruct (inline_push_front k ch _ _ _) as [k'| | |] eqn:Ek in Epy; try discriminate Epy. injection Epy as <- <-. rewrite <- E1 in Ek. rewrite Elen in Hle.
        destruct (push_front_reads i k cs rv ch i' k' inner _ Hr Hk Hle Ei Ek) as [Ha|Ha]; [|rewrite Ej in Ha by lia; exact Ha].
        exfalso. eapply Hno; [right|exact Hm]. apply alike_same_but; [lia|exact Ha].
      * destruct (has_alloc c); [|injection Ep as <- <-; injection Epy as <- <-; contradiction].
        destruct (inline_as_str i) as [vi| | |] eqn:Ei in Ep; try discriminate Ep. injection Ep as <- <-.
        destruct (inline_as_str k) as [vk| | |] eqn:Ek in Epy; try discriminate Epy. injection Epy as <- <-.
        destruct (as_str_reads i k cs rv vi vk _ Hr Hk Ei Ek) as [->|Ha]; [exfalso; eapply Hno; [left; reflexivity|exact Hm]|].
        rewrite Ej in Ha by lia. apply spill_reads, Ha.
  - injection E as <-. injection Ey as <-.
    assert (string_of x' = string_of x) as Ex' by (unfold andthen in Em; destruct (a_is_inline _ n) as [[? ?] ?]; injection Em as <- <- <-; reflexivity).
    assert (string_of y' = string_of y) as Ey' by (unfold andthen in Emy; destruct (a_is_inline _ ny) as [[? ?] ?]; injection Emy as <- <- <-; reflexivity).
    rewrite Ex', Ey' in Hm. destruct Hm as [Hm|Hm]; [contradiction|]. destruct Hcase as [[Eq _]|[->|(Hl0 & i & k & Ex & Eyk)]]; [rewrite Eq in Hm; contradiction| |].
    + eapply Hgo; [reflexivity|]. apply accesses_method. intros s1. apply reads_read. reflexivity.
    + exfalso. apply Hm. rewrite Ex, Eyk. reflexivity.
  - injection E as <-. injection Ey as <-.
    assert (string_of x' = string_of x) as Ex' by (unfold andthen in Em; destruct (a_deref _ _ n) as [[? ?] ?]; injection Em as <- <- <-; reflexivity).
    assert (string_of y' = string_of y) as Ey' by (unfold andthen in Emy; destruct (a_deref _ _ ny) as [[? ?] ?]; injection Emy as <- <- <-; reflexivity).
    rewrite Ex', Ey' in Hm. destruct Hm as [Hm|Hm]; [contradiction|]. destruct Hcase as [[Eq _]|[->|(Hl0 & i & k & Ex & Eyk)]]; [rewrite Eq in Hm; contradiction| |].
    + eapply Hgo; [reflexivity|]. apply accesses_method. intros s1. apply accesses_method. intros s2. apply accesses_left, reads_read. reflexivity.
    + rewrite Ex, Eyk in *. destruct Hr as [rv Hr]. destruct (N.eq_dec l 1) as [->|Hl1].
      * eapply Hgo; [reflexivity|]. apply accesses_method. intros s1. apply accesses_method. intros s2. apply accesses_right. intros _. apply accesses_right. intros inner.
        apply accesses_method. intros s3. apply accesses_left, accesses_method. intros s4. apply accesses_right. intros b. apply accesses_right. intros p. apply accesses_right. intros _.
        apply accesses_left, accesses_method. intros s5. apply len_reads.
      * exfalso. apply Hm. pose proof (same_but_alike l i k _ _ Hr ltac:(lia) Hsame) as Hk. pose proof (alike_facts _ _ _ Hk) as (E1 & E2 & _).
        cbn [borrowed]. unfold text_range, offset. rewrite E1, E2. reflexivity.
  - injection E as <-. injection Ey as <-.
    assert (string_of x' = string_of x) as Ex' by (unfold andthen in Em; destruct (a_deref_mut _ _ n) as [[? ?] ?]; injection Em as <- <- <-; reflexivity).
    assert (string_of y' = string_of y) as Ey' by (unfold andthen in Emy; destruct (a_deref_mut _ _ ny) as [[? ?] ?]; injection Emy as <- <- <-; reflexivity).
    rewrite Ex', Ey' in Hm. destruct Hm as [Hm|Hm]; [contradiction|]. destruct Hcase as [[Eq _]|[->|(Hl0 & i & k & Ex & Eyk)]]; [rewrite Eq in Hm; contradiction| |].
    + eapply Hgo; [reflexivity|]. apply accesses_method. intros s1. apply accesses_method. intros s2. apply accesses_left, reads_read. reflexivity.
    + rewrite Ex, Eyk in *. destruct Hr as [rv Hr]. destruct (N.eq_dec l 1) as [->|Hl1].
      * eapply Hgo; [reflexivity|]. apply accesses_method. intros s1. apply accesses_method. intros s2. apply accesses_right. intros _. apply accesses_right. intros inner.
        apply accesses_method. intros s3. apply accesses_left, accesses_method. intros s4. apply accesses_right. intros b. apply accesses_right. intros p. apply accesses_right. intros _.
        apply accesses_left, accesses_method. intros s5. apply len_reads.
      * exfalso. apply Hm. pose proof (same_but_alike l i k _ _ Hr ltac:(lia) Hsame) as Hk. pose proof (alike_facts _ _ _ Hk) as (E1 & E2 & _).
        cbn [borrowed]. unfold text_range, offset. rewrite E1, E2. reflexivity.
  - destruct (nth_error (views x) which); [|discriminate]. destruct (_ <? _) in E; [|discriminate]. injection E as <-. injection Em as <- <- <-.
    destruct (nth_error (views y) which); [|discriminate]. destruct (_ <? _) in Ey; [|discriminate]. injection Ey as <-. injection Emy as <- <- <-. destruct Hm as [Hm|[]]. contradiction.
  - destruct (editor x); [|discriminate]. destruct (_ <? _) in E; [|discriminate]. injection E as <-. injection Em as <- <- <-.
    destruct (editor y); [|discriminate]. destruct (_ <? _) in Ey; [|discriminate]. injection Ey as <-. injection Emy as <- <- <-. destruct Hm as [Hm|[]]. contradiction.
  - destruct (editor x); [|discriminate]. destruct (_ <? _) in E; [|discriminate]. injection E as <-. injection Em as <- <- <-.
    destruct (editor y); [|discriminate]. destruct (_ <? _) in Ey; [|discriminate]. injection Ey as <-. injection Emy as <- <- <-. destruct Hm as [Hm|[]]. contradiction.
Qed.
Print Assumptions C106_sources_are_reads.

(** Pushing in front of "abc" moves all three letters: bytes 1 to 5 change,
    byte 4 ("c" or "d") decides what byte 5 is. *)
Definition held (text : string) : scene :=
  {| string_of := Inline {| length_byte := 3; cells := map Some (bytes text) ++ repeat None 59 |}; views := []; editor := None |}.

Example C106_effects_case :
  (forall text, text = "abc"%string \/ text = "abd"%string -> reachable on_heap (string_of (held text)) /\
     exists m x' es n', use_trace on_heap 0 (held text) (UsePushFront 0x78) = Some (Ret m) /\ m 1 = (x', es, n') /\
       (forall l, In l [1; 2; 3; 4; 5] -> byte_of (string_of x') l <> byte_of (string_of (held text)) l) /\
       byte_of (string_of x') 5 = byte_of (string_of (held text)) 4) /\
  same_but 4 (string_of (held "abc")) (string_of (held "abd")) /\
  byte_of (string_of (held "abc")) 4 <> byte_of (string_of (held "abd")) 4.
Proof.
  split; [|split; [split; [|reflexivity]|discriminate]].
  - intros text Ht. split; [exists (FromStr (bytes text)), [], []; destruct Ht as [-> | ->]; (split; [reflexivity|split; [constructor|vm_compute; reflexivity]])|].
    destruct Ht as [-> | ->];
    (do 4 eexists; split; [reflexivity|]; split; [vm_compute; reflexivity|]; split; [|reflexivity]);
    intros l Hl; cbn [In] in Hl; repeat (destruct Hl as [<-|Hl]; [vm_compute; discriminate|]); destruct Hl.
  - intros k Hk Hne. assert (k < 4 \/ k = 4 \/ 5 <= k) as [H|[H|H]] by lia; [|contradiction|].
    + assert (k = 0 \/ k = 1 \/ k = 2 \/ k = 3) as [-> | [-> | [-> | ->]]] by lia; reflexivity.
    + unfold byte_of, held, string_of. replace (k =? 0) with false by (symmetry; apply N.eqb_neq; lia). replace (k =? 1) with false by (symmetry; apply N.eqb_neq; lia).
      cbn [cells]. change (map Some (bytes "abc") ++ repeat None 59) with ([Some 97; Some 98; Some 99] ++ repeat (@None N) 59).
      change (map Some (bytes "abd") ++ repeat None 59) with ([Some 97; Some 98; Some 100] ++ repeat (@None N) 59). rewrite !app_nth2 by (cbn; lia). reflexivity.
Qed.
