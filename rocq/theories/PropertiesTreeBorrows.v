(** * C107: references and raw pointers follow Tree Borrows as well *)

From Coq Require Import String.
From Verif Require Import Prelude Utf8Facts StringFacts History Cases Aliasing PropertiesAliasing TreeBorrows.

(** ** What one access does *)

Definition usable (w : bool) (s : standing) : Prop :=
  if w then s = Active \/ s = Reserved false else s <> Dead.

Definition keeps (w : bool) (path : list N) (a b : node) : Prop :=
  id b = id a /\ shield b = shield a /\
  if on path a then standing_of b = standing_of a \/ (w = true /\ standing_of b = Active)
  else w = true \/ standing_of b = standing_of a \/ (standing_of a = Active /\ standing_of b = Frozen).

(** The pointer with ancestors [path] can be used, and arguments of running
    calls are among these. *)
Definition ready (w : bool) (calls path : list N) (xs : list node) : Prop :=
  forall x, In x xs -> (on path x = true -> usable w (standing_of x)) /\ (shielded calls x = true -> on path x = true).

Lemma usable_le w v s : (v = true -> w = true) -> usable w s -> usable v s.
Proof.
  intros H Hu. destruct v; [rewrite (H eq_refl) in Hu; exact Hu|]. destruct w; [|exact Hu]. destruct Hu as [-> | ->]; discriminate.
Qed.

Lemma ready_le w v calls path xs : (v = true -> w = true) -> ready w calls path xs -> ready v calls path xs.
Proof. intros H Hr x Hx. destruct (Hr x Hx) as [H1 H2]. split; [|exact H2]. intros Ho. eapply usable_le; eauto. Qed.

Lemma keeps_le w v path a b : (v = true -> w = true) -> keeps v path a b -> keeps w path a b.
Proof. intros H (H1 & H2 & H3). repeat split; auto. destruct (on path a); intuition. Qed.

Lemma keeps_refl w path a : keeps w path a a.
Proof. repeat split. destruct (on path a); auto. Qed.

Lemma by_own_keeps v w calls path x : on path x = true -> (v = true -> w = true) -> usable w (standing_of x) ->
  exists y, by_own calls v x = Some y /\ keeps v path x y.
Proof.
  intros Ho Hv Hu. apply (usable_le w v _ Hv) in Hu. unfold by_own, keeps. rewrite Ho. destruct v; cbn [usable] in Hu.
  - destruct Hu as [-> | ->]; cbn [andb]; (eexists; split; [reflexivity|]); cbn; auto.
  - destruct (standing_of x) eqn:E; try contradiction; (eexists; split; [reflexivity|]); cbn; auto.
Qed.

Lemma by_other_keeps v calls path x : on path x = false -> shielded calls x = false ->
  exists y, by_other calls v x = Some y /\ keeps v path x y.
Proof.
  intros Ho Hs. unfold by_other, keeps. rewrite Ho, Hs. cbn [andb]. destruct v; destruct (standing_of x) eqn:E;
    (eexists; split; [reflexivity|]); cbn; rewrite ?orb_false_r, ?E; auto 8.
Qed.

Lemma each_some (f : node -> option node) (R : node -> node -> Prop) xs :
  (forall x, In x xs -> exists y, f x = Some y /\ R x y) -> exists ys, each f xs = Some ys /\ Forall2 R xs ys.
Proof.
  induction xs as [|x xs IH]; intros H; [exists []; split; [reflexivity|constructor]|].
  destruct (H x (or_introl eq_refl)) as (y & Ey & Hy). destruct IH as (ys & Eys & Hys); [intros; apply H; right; assumption|].
  exists (y :: ys). cbn [each]. rewrite Ey, Eys. split; [reflexivity|constructor; assumption].
Qed.

Lemma touch_keeps v w calls path xs : (v = true -> w = true) -> ready w calls path xs ->
  exists ys, touch calls path v xs = Some ys /\ Forall2 (keeps v path) xs ys.
Proof.
  intros Hv Hr. apply each_some. intros x Hx. destruct (Hr x Hx) as [H1 H2]. destruct (on path x) eqn:Ho.
  - eapply by_own_keeps; eauto.
  - apply by_other_keeps; [exact Ho|]. destruct (shielded calls x); [|reflexivity]. specialize (H2 eq_refl). congruence.
Qed.

Lemma Forall2_in_r {A B} (R : A -> B -> Prop) xs ys y : Forall2 R xs ys -> In y ys -> exists x, In x xs /\ R x y.
Proof. induction 1 as [|x y' xs ys Hr H IH]; [intros []|]. intros [->|Hy]; [exists x; cbn; auto|]. destruct (IH Hy) as (z & Hz & Hzr). exists z. cbn. auto. Qed.

Lemma on_id path a b : id b = id a -> on path b = on path a.
Proof. intros E. unfold on. rewrite E. reflexivity. Qed.

Lemma shielded_same calls a b : shield b = shield a -> shielded calls b = shielded calls a.
Proof. intros E. unfold shielded. rewrite E. reflexivity. Qed.

Lemma keeps_usable w v path a b : keeps v path a b -> on path a = true -> usable w (standing_of a) -> usable w (standing_of b).
Proof.
  intros (_ & _ & H) Ho Hu. rewrite Ho in H. destruct H as [->|[-> ->]]; [exact Hu|]. destruct w; cbn; [auto|discriminate].
Qed.

Lemma keeps_ready w v calls path xs ys : Forall2 (keeps v path) xs ys -> ready w calls path xs -> ready w calls path ys.
Proof.
  intros H Hr y Hy. destruct (Forall2_in_r _ _ _ _ H Hy) as (x & Hx & Hk). destruct (Hr x Hx) as [H1 H2]. pose proof Hk as (E1 & E2 & _).
  rewrite (on_id path x y E1), (shielded_same calls x y E2). split; [|exact H2]. intros Ho. eapply keeps_usable; eauto.
Qed.

(** ** What code does *)

Definition unused (n : N) (W : world) : Prop :=
  (forall k, In k (running W) -> k < n) /\
  (forall t p, path_of t (pointers W) = Some p -> t < n /\ Forall (fun k => k < n) p) /\
  Forall (fun x => id x < n /\ forall k, shield x = Some k -> k < n) (nodes W).

Definition later (n : N) (x : node) : Prop := n <= id x /\ forall k, shield x = Some k -> n <= k.

Definition effect_on (w : bool) (path : list N) (n : N) (xs ys : list node) : Prop :=
  exists added old, ys = added ++ old /\ Forall2 (keeps w path) xs old /\ Forall (later n) added.

Definition step_to (w : bool) (path : list N) (n : N) (W : world) (n' : N) (W' : world) : Prop :=
  n <= n' /\ unused n' W' /\ running W' = running W /\
  (forall t p, path_of t (pointers W) = Some p -> path_of t (pointers W') = Some p) /\
  effect_on w path n (nodes W) (nodes W') /\ ready w (running W') path (nodes W').

Lemma step_refl w path n W : unused n W -> ready w (running W) path (nodes W) -> step_to w path n W n W.
Proof.
  intros Hu Hr. split; [lia|]. split; [exact Hu|]. split; [reflexivity|]. split; [auto|]. split; [|exact Hr]. exists [], (nodes W). split; [reflexivity|]. split; [|constructor].
  clear. induction (nodes W) as [|x xs IH]; constructor; [apply keeps_refl|exact IH].
Qed.

Lemma on_app q path x : on (q ++ path) x = on q x || on path x.
Proof. apply existsb_app. Qed.

Lemma on_fresh q x n : Forall (fun k => n <= k) q -> id x < n -> on q x = false.
Proof.
  intros Hq Hx. apply Bool.not_true_iff_false. intros H. apply existsb_exists in H as (k & Hk & E%N.eqb_eq). rewrite Forall_forall in Hq. specialize (Hq k Hk). lia.
Qed.

Lemma on_old p x n : Forall (fun k => k < n) p -> n <= id x -> on p x = false.
Proof.
  intros Hq Hx. apply Bool.not_true_iff_false. intros H. apply existsb_exists in H as (k & Hk & E%N.eqb_eq). rewrite Forall_forall in Hq. specialize (Hq k Hk). lia.
Qed.

Lemma keeps_trans w path a b c : keeps w path a b -> keeps w path b c -> keeps w path a c.
Proof.
  intros (A1 & A2 & A3) (B1 & B2 & B3). repeat split; [congruence..|]. rewrite (on_id path a b A1) in B3. destruct (on path a).
  - destruct B3 as [->|?]; [exact A3|auto].
  - destruct A3 as [->|A3]; [auto|]. destruct B3 as [->|B3]; [auto|]. right.
    destruct A3 as [<-|[H1 H2]]; [exact B3|]. destruct B3 as [->|[H3 _]]; [auto|congruence].
Qed.

(** Steps of a pointer made after [n] are steps of the one it was made from. *)
Lemma step_child w v q path n W n1 W1 n2 W2 : (v = true -> w = true) -> Forall (fun k => n <= k) q -> Forall (fun k => k < n1) (q ++ path) -> unused n W ->
  step_to w path n W n1 W1 -> step_to v (q ++ path) n1 W1 n2 W2 -> step_to w path n W n2 W2.
Proof.
  intros Hv Hq Hqp Hn (A1 & A2 & A3 & A4 & (add1 & old1 & E1 & F1 & L1) & A6) (B1 & B2 & B3 & B4 & (add2 & old2 & E2 & F2 & L2) & B6).
  split; [lia|]. split; [exact B2|]. split; [congruence|]. split; [auto|]. split.
  - rewrite E1 in F2. apply Forall2_app_inv_l in F2 as (add1' & old1' & Fa & Fo & ->). exists (add2 ++ add1'), old1'. split; [rewrite <- app_assoc; exact E2|]. split.
    + clear E1 E2. destruct Hn as (_ & _ & Hids). revert old1' Fo. induction F1 as [|x y xs ys Hk F1 IH]; intros old1' Fo; inversion Fo as [|? z ? zs Hz Fz]; subst; [constructor|].
      apply Forall_cons_iff in Hids as [[Hid _] Hids]. constructor; [|apply IH; assumption].
      eapply keeps_trans; [exact Hk|]. apply (keeps_le w v _ _ _ Hv). destruct Hz as (Z1 & Z2 & Z3). repeat split; auto.
      rewrite on_app, (on_fresh q y n) in Z3 by (auto; destruct Hk as (-> & _); exact Hid). exact Z3.
    + apply Forall_app. split; [eapply Forall_impl; [|exact L2]; intros x [Hx1 Hx2]; split; [lia|]; intros k Hk; specialize (Hx2 k Hk); lia|].
      apply Forall_forall. intros y Hy. destruct (Forall2_in_r _ _ _ _ Fa Hy) as (x & Hx & K1 & K2 & _). rewrite Forall_forall in L1. specialize (L1 x Hx). unfold later in *. rewrite K1, K2. exact L1.
  - intros x Hx. rewrite E2 in Hx. apply in_app_iff in Hx as [Hx|Hx].
    + rewrite Forall_forall in L2. destruct (L2 x Hx) as [Hid _]. assert (on (q ++ path) x = false) as Ho by (eapply on_old; eauto).
      destruct (B6 x) as [_ Hs]; [rewrite E2; apply in_app_iff; auto|]. rewrite on_app in Ho. apply orb_false_iff in Ho as [Ho1 Ho2]. rewrite Ho2.
      split; [discriminate|]. intros H. specialize (Hs H). rewrite on_app, Ho1, Ho2 in Hs. discriminate.
    + destruct (Forall2_in_r _ _ _ _ F2 Hx) as (y & Hy & Hk). destruct (A6 y Hy) as [U1 U2]. pose proof Hk as (K1 & K2 & K3).
      rewrite (on_id path y x K1), (shielded_same _ y x K2), B3. split; [|exact U2]. intros Ho.
      eapply keeps_usable; [exact Hk|rewrite on_app, Ho; apply orb_true_r|auto].
Qed.

(** ** Pointers made from another one, and not written through yet *)

Definition idle (v : bool) (s : standing) : Prop := s = Reserved false \/ (v = false /\ s = Frozen).

Definition gives (v : bool) (a : N) (path : list N) (n : N) (W : world) : Prop :=
  exists q, path_of a (pointers W) = Some (q ++ path) /\ Forall (fun k => n <= k) q /\
    forall x, In x (nodes W) -> on q x = true -> idle v (standing_of x).

Lemma idle_usable v v' s : (v = true -> v' = true) -> idle v' s -> usable v s.
Proof. intros H [->|[-> ->]]; destruct v; cbn; auto; try discriminate. specialize (H eq_refl). discriminate. Qed.

(** Reads do not change that. *)
Lemma gives_kept v a path n W path2 n1 n2 W2 : unused n1 W -> step_to false path2 n1 W n2 W2 -> gives v a path n W -> gives v a path n W2.
Proof.
  intros Hu (_ & _ & _ & Hp & (added & old & E & F & L) & _) (q & Eq & Hq & Hi). exists q. split; [auto|]. split; [exact Hq|]. intros x Hx Ho.
  rewrite E in Hx. apply in_app_iff in Hx as [Hx|Hx].
  - rewrite Forall_forall in L. destruct (L x Hx) as [Hid _]. destruct Hu as (_ & Hu & _). destruct (Hu _ _ Eq) as [_ Hall]. apply Forall_app in Hall as [Hall _].
    rewrite (on_old q x n1 Hall Hid) in Ho. discriminate.
  - destruct (Forall2_in_r _ _ _ _ F Hx) as (y & Hy & K1 & K2 & K3). rewrite (on_id q y x K1) in Ho. specialize (Hi y Hy Ho). destruct (on path2 y).
    + destruct K3 as [->|[? _]]; [exact Hi|discriminate].
    + destruct K3 as [?|[->|[K3 _]]]; [discriminate|exact Hi|]. rewrite K3 in Hi. destruct Hi as [?|[_ ?]]; discriminate.
Qed.

Lemma gives_ready v v' w a q path n W : (v = true -> v' = true /\ w = true) -> ready w (running W) path (nodes W) ->
  (forall x, In x (nodes W) -> on q x = true -> idle v' (standing_of x)) -> path_of a (pointers W) = Some (q ++ path) ->
  Forall (fun k => n <= k) q -> ready v (running W) (q ++ path) (nodes W).
Proof.
  intros Hv Hr Hi Ep Hq x Hx. destruct (Hr x Hx) as [H1 H2]. rewrite on_app. split.
  - intros Ho. apply orb_true_iff in Ho as [Ho|Ho]; [eapply idle_usable; [|apply Hi; assumption]; intros E; apply Hv, E|].
    eapply usable_le; [|apply H1, Ho]. intros E. apply Hv, E.
  - intros Hs. rewrite (H2 Hs). apply orb_true_r.
Qed.

(** ** Running code *)

Definition out {A} (l : N) (m : emit A) (n : N) (W : world) (Q : A -> N -> world -> Prop) : Prop :=
  let '(a, es, n') := m n in exists W', tree_check l es W = Some W' /\ Q a n' W'.

Lemma tree_check_app l es es' W : tree_check l (es ++ es') W = match tree_check l es W with Some W' => tree_check l es' W' | None => None end.
Proof. revert W. induction es as [|e es IH]; intros W; [reflexivity|]. cbn [app tree_check]. destruct (tree_event l e W); [apply IH|reflexivity]. Qed.

Lemma out_andthen {A B} l (m : emit A) (f : A -> emit B) n W P Q :
  out l m n W P -> (forall a n' W', P a n' W' -> out l (f a) n' W' Q) -> out l (andthen m f) n W Q.
Proof.
  unfold out, andthen. destruct (m n) as [[a es] n']. intros (W1 & E1 & H1) Hf. specialize (Hf a n' W1 H1). destruct (f a n') as [[b es'] n''].
  destruct Hf as (W2 & E2 & H2). exists W2. rewrite tree_check_app, E1. auto.
Qed.

Lemma out_mono {A} l (m : emit A) n W (P Q : A -> N -> world -> Prop) : out l m n W P -> (forall a n' W', P a n' W' -> Q a n' W') -> out l m n W Q.
Proof. unfold out. destruct (m n) as [[a es] n']. intros (W1 & E & H) HQ. exists W1. auto. Qed.

(** A claim: which result is a pointer that was not written through. *)
Definition claim (A : Type) := option (bool * (A -> N)).

Definition claimed {A} (c : claim A) (a : A) : list (bool * N) := match c with Some (v, f) => [(v, f a)] | None => [] end.

Definition haves (path : list N) (n : N) (W : world) : list (bool * N) -> Prop := Forall (fun '(v, a) => gives v a path n W).

Definition runs {A} (l : N) (w : bool) (t : N) (m : emit A) (c : claim A) : Prop :=
  forall path n W, path_of t (pointers W) = Some path -> unused n W -> ready w (running W) path (nodes W) ->
  out l m n W (fun a n' W' => step_to w path n W n' W' /\ haves path n W' (claimed c a)).

(** Inside a function with pointer [t]: what was made from it so far. *)
Definition tri {A} (l : N) (w : bool) (t : N) (gs : list (bool * N)) (m : emit A) (post : A -> list (bool * N)) : Prop :=
  forall path n0 W0 n W, path_of t (pointers W0) = Some path -> unused n0 W0 -> step_to w path n0 W0 n W -> haves path n0 W gs ->
  out l m n W (fun a n' W' => step_to w path n0 W0 n' W' /\ haves path n0 W' (post a)).

Lemma runs_of_tri {A} l w t (m : emit A) c : tri l w t [] m (claimed c) -> runs l w t m c.
Proof. intros H path n W Ep Hu Hr. apply (H path n W n W Ep Hu); [apply step_refl; assumption|constructor]. Qed.

Lemma tri_done {A} l w t gs (a : A) : tri l w t gs (done a) (fun _ => gs).
Proof. intros path n0 W0 n W Ep Hu Hs Hg. unfold out, done. exists W. auto. Qed.

Lemma tri_bind {A B} l w t gs (m : emit A) (f : A -> emit B) P Q : tri l w t gs m P -> (forall a, tri l w t (P a) (f a) Q) -> tri l w t gs (andthen m f) Q.
Proof. intros Hm Hf path n0 W0 n W Ep Hu Hs Hg. eapply out_andthen; [eapply Hm; eassumption|]. intros a n' W' [Hs' Hg']. eapply Hf; eassumption. Qed.

Lemma tri_weaken {A} l w t gs (m : emit A) P Q : tri l w t gs m P -> (forall a x, In x (Q a) -> In x (P a)) -> tri l w t gs m Q.
Proof.
  intros Hm HQ path n0 W0 n W Ep Hu Hs Hg. eapply out_mono; [eapply Hm; eassumption|]. intros a n' W' [Hs' Hg']. split; [exact Hs'|].
  unfold haves in *. rewrite Forall_forall in *. intros x Hx. apply Hg', HQ, Hx.
Qed.

Lemma step_path w path n W n' W' t p : step_to w path n W n' W' -> path_of t (pointers W) = Some p -> path_of t (pointers W') = Some p.
Proof. intros (_ & _ & _ & H & _). apply H. Qed.

Lemma step_unused w path n W n' W' : step_to w path n W n' W' -> unused n' W'.
Proof. intros (_ & H & _). exact H. Qed.

Lemma step_ready w path n W n' W' : step_to w path n W n' W' -> ready w (running W') path (nodes W').
Proof. intros (_ & _ & _ & _ & _ & H). exact H. Qed.

Lemma step_le w path n W n' W' : step_to w path n W n' W' -> n <= n'.
Proof. intros (H & _). exact H. Qed.

Lemma gives_later v a path n n' W : n <= n' -> gives v a path n' W -> gives v a path n W.
Proof. intros Hle (q & E & Hq & Hi). exists q. split; [exact E|]. split; [|exact Hi]. eapply Forall_impl; [|exact Hq]. intros k Hk. cbn beta in Hk. lia. Qed.

Lemma tri_self_read {A} l w t gs (m : emit A) c : runs l false t m c -> tri l w t gs m (fun a => claimed c a ++ gs).
Proof.
  intros Hm path n0 W0 n W Ep Hu Hs Hg. pose proof (step_path _ _ _ _ _ _ _ _ Hs Ep) as Ep'. pose proof (step_unused _ _ _ _ _ _ Hs) as Hu'.
  pose proof (proj2 (proj1 (proj2 Hu') t path Ep')) as Hpath.
  eapply out_mono; [eapply Hm; [exact Ep'|exact Hu'|eapply ready_le; [|eapply step_ready, Hs]; discriminate]|].
  cbn beta. intros a n' W' [Hs' Hc]. split; [eapply (step_child w false [] path); eauto; discriminate|].
  apply Forall_app. split.
  - eapply Forall_impl; [|exact Hc]. intros [v x] Hx. eapply gives_later; [eapply step_le, Hs|exact Hx].
  - eapply Forall_impl; [|exact Hg]. intros [v x] Hx. eapply gives_kept; eassumption.
Qed.

Lemma tri_self_write {A} l t gs (m : emit A) c : runs l true t m c -> tri l true t gs m (fun _ => []).
Proof.
  intros Hm path n0 W0 n W Ep Hu Hs Hg. pose proof (step_path _ _ _ _ _ _ _ _ Hs Ep) as Ep'. pose proof (step_unused _ _ _ _ _ _ Hs) as Hu'.
  pose proof (proj2 (proj1 (proj2 Hu') t path Ep')) as Hpath.
  eapply out_mono; [eapply Hm; [exact Ep'|exact Hu'|eapply step_ready, Hs]|].
  cbn beta. intros a n' W' [Hs' Hc]. split; [eapply (step_child true true [] path); eauto|constructor].
Qed.

Definition claim_le {A} (c : claim A) (v : bool) : Prop := match c with Some (true, _) => v = true | _ => True end.

Lemma tri_child_read {A} l w t gs (m : emit A) c v b : In (v, b) gs -> claim_le c v -> runs l false b m c ->
  tri l w t gs m (fun a => claimed c a ++ gs).
Proof.
  intros Hin Hle Hm path n0 W0 n W Ep Hu Hs Hg. pose proof (step_path _ _ _ _ _ _ _ _ Hs Ep) as Ep'. pose proof (step_unused _ _ _ _ _ _ Hs) as Hu'.
  pose proof Hg as Hg'. unfold haves in Hg'. rewrite Forall_forall in Hg'. specialize (Hg' _ Hin). cbn beta iota in Hg'. destruct Hg' as (q & Eq & Hq & Hi).
  pose proof (proj2 (proj1 (proj2 Hu') b _ Eq)) as Hqp.
  eapply out_mono; [eapply Hm; [exact Eq|exact Hu'|eapply gives_ready; [|eapply step_ready, Hs|exact Hi|exact Eq|exact Hq]; discriminate]|].
  cbn beta. intros a n' W' [Hs' Hc]. split; [eapply (step_child w false q path); eauto; discriminate|].
  apply Forall_app. split.
  - destruct c as [[v2 f]|]; [|constructor]. constructor; [|constructor]. apply Forall_inv in Hc. destruct Hc as (q2 & Eq2 & Hq2 & Hi2).
    assert (gives v b path n0 W') as (q' & Eq' & _ & Hi') by (eapply gives_kept; [exact Hu'|exact Hs'|exists q; auto]).
    exists (q2 ++ q). split; [rewrite <- app_assoc; exact Eq2|]. split.
    + apply Forall_app. split; [|exact Hq]. eapply Forall_impl; [|exact Hq2]. cbn beta. pose proof (step_le _ _ _ _ _ _ Hs). intros k Hk. lia.
    + intros x Hx Ho. rewrite on_app in Ho. apply orb_true_iff in Ho as [Ho|Ho]; [apply Hi2; assumption|].
      pose proof (step_path _ _ _ _ _ _ _ _ Hs' Eq) as Eqq. rewrite Eqq in Eq'. injection Eq' as Eq'. apply app_inv_tail in Eq'. subst q'. specialize (Hi' x Hx Ho).
      destruct Hi' as [->|[-> ->]]; [left; reflexivity|]. right. split; [|reflexivity]. destruct v2; [discriminate Hle|reflexivity].
  - eapply Forall_impl; [|exact Hg]. intros [v' x] Hx. eapply gives_kept; eassumption.
Qed.

Lemma tri_child_write {A} l t gs (m : emit A) c b : In (true, b) gs -> runs l true b m c -> tri l true t gs m (fun _ => []).
Proof.
  intros Hin Hm path n0 W0 n W Ep Hu Hs Hg. pose proof (step_path _ _ _ _ _ _ _ _ Hs Ep) as Ep'. pose proof (step_unused _ _ _ _ _ _ Hs) as Hu'.
  unfold haves in Hg. rewrite Forall_forall in Hg. specialize (Hg _ Hin). cbn beta iota in Hg. destruct Hg as (q & Eq & Hq & Hi).
  pose proof (proj2 (proj1 (proj2 Hu') b _ Eq)) as Hqp.
  eapply out_mono; [eapply Hm; [exact Eq|exact Hu'|eapply gives_ready; [|eapply step_ready, Hs|exact Hi|exact Eq|exact Hq]; auto]|].
  cbn beta. intros a n' W' [Hs' Hc]. split; [eapply (step_child true true q path); eauto|constructor].
Qed.

(** ** Single accesses and reborrows *)

Lemma unused_nodes n W ys v path : unused n W -> Forall2 (keeps v path) (nodes W) ys -> Forall (fun x => id x < n /\ forall k, shield x = Some k -> k < n) ys.
Proof.
  intros (_ & _ & H) F. rewrite Forall_forall in *. intros y Hy. destruct (Forall2_in_r _ _ _ _ F Hy) as (x & Hx & K1 & K2 & _). rewrite K1, K2. apply H, Hx.
Qed.

Lemma touched_step v path n W ys : unused n W -> ready v (running W) path (nodes W) -> Forall2 (keeps v path) (nodes W) ys ->
  step_to v path n W n {| running := running W; pointers := pointers W; nodes := ys |}.
Proof.
  intros Hu Hr F. split; [lia|]. split; [|split; [reflexivity|]; split; [auto|]; split].
  - split; [apply Hu|]. split; [apply Hu|]. cbn [nodes]. eapply unused_nodes; eassumption.
  - exists [], ys. auto.
  - eapply keeps_ready; eassumption.
Qed.

Lemma runs_access l w t r : runs l w t (tell (Access w t r)) None.
Proof.
  intros path n W Ep Hu Hr. unfold out, tell. cbn [tree_check tree_event]. rewrite Ep. destruct (covers r l).
  - destruct (touch_keeps w w (running W) path (nodes W) (fun E => E) Hr) as (ys & -> & F). eexists. split; [reflexivity|]. split; [apply touched_step; assumption|constructor].
  - exists W. split; [reflexivity|]. split; [apply step_refl; assumption|constructor].
Qed.

Lemma runs_read l t r : runs l false t (read t r) None.
Proof. apply runs_access. Qed.

Lemma runs_write l t r : runs l true t (write t r) None.
Proof. apply runs_access. Qed.

Lemma path_of_cons t t' p ps : path_of t ((t', p) :: ps) = if t' =? t then Some p else path_of t ps.
Proof. unfold path_of. cbn [find fst]. destruct (t' =? t); reflexivity. Qed.

Lemma unused_path n W t p : unused n W -> path_of t (pointers W) = Some p -> (n =? t) = false.
Proof. intros (_ & H & _) E. apply N.eqb_neq. destruct (H _ _ E). lia. Qed.

(** The reference made by a [Retag], with the accesses this implies. *)
Definition newborn (k : kind) (l n : N) (g : option N) (r : range) : node :=
  {| id := n; standing_of := match k with Mut => Reserved false | _ => Frozen end; seen := covers r l; shield := g |}.

Lemma retag_event l k t path n g r W : k = Mut \/ k = Shared -> path_of t (pointers W) = Some path -> ready false (running W) path (nodes W) ->
  exists ys, Forall2 (keeps false path) (nodes W) ys /\
    tree_event l (Retag k t n g r) W = Some {| running := running W; pointers := (n, n :: path) :: pointers W; nodes := newborn k l n g r :: ys |}.
Proof.
  intros Hk Ep Hr. cbn [tree_event]. rewrite Ep. unfold newborn. destruct (covers r l) eqn:Ec.
  - destruct (touch_keeps false false (running W) path (nodes W) (fun E => E) Hr) as (ys & -> & F). exists ys. split; [exact F|]. destruct Hk as [-> | ->]; reflexivity.
  - exists (nodes W). split; [|destruct Hk as [-> | ->]; reflexivity]. clear. induction (nodes W) as [|x xs IH]; constructor; [apply keeps_refl|exact IH].
Qed.

Lemma runs_reborrow l k t r : k = Mut \/ k = Shared -> runs l false t (reborrow k t None r) (Some (match k with Mut => true | _ => false end, fun a => a)).
Proof.
  intros Hk path n W Ep Hu Hr. unfold out, reborrow. destruct (retag_event l k t path n None r W Hk Ep Hr) as (ys & F & Ee). cbn [tree_check]. rewrite Ee.
  eexists. split; [reflexivity|]. pose proof (unused_nodes n W ys _ _ Hu F) as Hys. pose proof Hu as (Hu1 & Hu2 & _). destruct (Hu2 _ _ Ep) as [_ Hpath].
  split.
  - split; [lia|]. split; [|split; [reflexivity|]; split; [|split]].
    + split; [intros c Hc; specialize (Hu1 c Hc); cbn; lia|]. split.
      * cbn [pointers]. intros t' p. rewrite path_of_cons. destruct (N.eqb_spec n t') as [<-|].
        -- intros [= <-]. split; [lia|]. constructor; [lia|]. eapply Forall_impl; [|exact Hpath]. cbn beta. intros; lia.
        -- intros E. destruct (Hu2 _ _ E) as [H1 H2]. split; [lia|]. eapply Forall_impl; [|exact H2]. cbn beta. intros; lia.
      * cbn [nodes]. constructor; [split; [cbn; lia|discriminate]|]. eapply Forall_impl; [|exact Hys]. cbn beta. intros x [H1 H2]. split; [lia|]. intros c Hc. specialize (H2 c Hc). lia.
    + cbn [pointers]. intros t' p E. rewrite path_of_cons, (unused_path _ _ _ _ Hu E). exact E.
    + exists [newborn k l n None r], ys. split; [reflexivity|]. split; [exact F|]. constructor; [|constructor]. split; [cbn; lia|discriminate].
    + cbn [nodes running]. intros x [<-|Hx]; [|apply (keeps_ready false false _ path _ _ F Hr x Hx)].
      rewrite (on_old path (newborn k l n None r) n Hpath) by (cbn; lia). split; discriminate.
  - constructor; [|constructor]. exists [n]. cbn [pointers nodes]. rewrite path_of_cons, N.eqb_refl. split; [reflexivity|]. split; [constructor; [lia|constructor]|].
    intros x [<-|Hx] Ho.
    + unfold newborn, idle. cbn. destruct Hk as [-> | ->]; auto.
    + rewrite Forall_forall in Hys. destruct (Hys x Hx) as [Hid _]. unfold on in Ho. cbn in Ho. rewrite orb_false_r in Ho. apply N.eqb_eq in Ho. lia.
Qed.

Lemma runs_raw l k t r : k = RawMut \/ k = RawConst -> runs l false t (reborrow k t None r) (Some (true, fun a => a)).
Proof.
  intros Hk path n W Ep Hu Hr. unfold out, reborrow. cbn [tree_check tree_event]. rewrite Ep.
  exists {| running := running W; pointers := (n, path) :: pointers W; nodes := nodes W |}. split; [destruct Hk as [-> | ->]; reflexivity|].
  pose proof Hu as (Hu1 & Hu2 & Hu3). destruct (Hu2 _ _ Ep) as [_ Hpath]. split.
  - split; [lia|]. split; [|split; [reflexivity|]; split; [|split]].
    + split; [intros c Hc; specialize (Hu1 c Hc); cbn; lia|]. split.
      * cbn [pointers]. intros t' p. rewrite path_of_cons. destruct (N.eqb_spec n t') as [<-|].
        -- intros [= <-]. split; [lia|]. eapply Forall_impl; [|exact Hpath]. cbn beta. intros; lia.
        -- intros E. destruct (Hu2 _ _ E) as [H1 H2]. split; [lia|]. eapply Forall_impl; [|exact H2]. cbn beta. intros; lia.
      * cbn [nodes]. eapply Forall_impl; [|exact Hu3]. cbn beta. intros x [H1 H2]. split; [lia|]. intros c Hc. specialize (H2 c Hc). lia.
    + cbn [pointers]. intros t' p E. rewrite path_of_cons, (unused_path _ _ _ _ Hu E). exact E.
    + apply (step_refl false path n W Hu Hr).
    + exact Hr.
  - constructor; [|constructor]. exists []. cbn [pointers nodes app]. rewrite path_of_cons, N.eqb_refl. split; [reflexivity|]. split; [constructor|]. intros x _ Ho. discriminate Ho.
Qed.

(** ** Methods *)

Lemma Forall2_from_cons {A B} (R : A -> B -> Prop) x xs zs : Forall2 R (x :: xs) zs -> exists y ys, zs = y :: ys /\ R x y /\ Forall2 R xs ys.
Proof. intros H. inversion H; subst. eauto. Qed.

Lemma release_keeps w calls ps path s xs : path_of (id s) ps = Some path -> ready w calls path xs -> (is_active s = true -> w = true) ->
  exists ys, release calls ps s xs = Some ys /\ Forall2 (keeps w path) xs ys /\ (is_active s = false -> Forall2 (keeps false path) xs ys).
Proof.
  intros Ep Hr Ha. unfold release. rewrite Ep.
  destruct (each_some (fun x => if below ps (id s) x then Some x else if on path x then by_own calls (is_active s) x else by_other calls (is_active s) x) (keeps (is_active s) path) xs) as (ys & E & F).
  - intros x Hx. destruct (below ps (id s) x); [exists x; split; [reflexivity|apply keeps_refl]|]. destruct (Hr x Hx) as [H1 H2]. destruct (on path x) eqn:Ho.
    + apply (by_own_keeps (is_active s) w calls path x Ho Ha (H1 eq_refl)).
    + apply by_other_keeps; [exact Ho|]. destruct (shielded calls x); [|reflexivity]. specialize (H2 eq_refl). congruence.
  - exists ys. split; [exact E|]. split.
    + clear E Hr. induction F; constructor; [eapply keeps_le; eassumption|assumption].
    + intros Hf. rewrite Hf in F. exact F.
Qed.

Lemma runs_method {A : Type} (l : N) (w : bool) (k : kind) (t : N) (r : range) (body : N -> emit A) (c : claim A) : (if w then k = Mut else k = Mut \/ k = Shared) ->
  (c = None \/ (w = false /\ claim_le c (match k with Mut => true | _ => false end))) ->
  (forall s, runs l w s (body s) c) -> runs l w t (method k t r body) c.
Proof.
  intros Hkw Hc Hbody path n W Ep Hu Hr. assert (k = Mut \/ k = Shared) as Hk by (destruct w; auto). unfold out, method.
  set (W1 := {| running := n :: running W; pointers := pointers W; nodes := nodes W |}).
  pose proof Hu as (Hu1 & Hu2 & Hu3).
  assert (forall x, In x (nodes W) -> shielded (n :: running W) x = shielded (running W) x) as Hsh.
  { intros x Hx. unfold shielded. rewrite Forall_forall in Hu3. destruct (Hu3 x Hx) as [_ H]. destruct (shield x) as [c0|]; [|reflexivity]. cbn [existsb].
    replace (c0 =? n) with false; [reflexivity|]. symmetry. apply N.eqb_neq. specialize (H c0 eq_refl). lia. }
  assert (ready w (running W1) path (nodes W1)) as Hr1.
  { intros x Hx. cbn [W1 running nodes] in *. rewrite Hsh by exact Hx. apply Hr, Hx. }
  destruct (retag_event l k t path (n + 1) (Some n) r W1 Hk Ep) as (ys & F & Ee); [eapply ready_le; [|exact Hr1]; discriminate|].
  set (s := newborn k l (n + 1) (Some n) r) in *. set (W2 := {| running := running W1; pointers := (n + 1, (n + 1) :: path) :: pointers W1; nodes := s :: ys |}) in *.
  destruct (Hu2 _ _ Ep) as [_ Hpath]. pose proof (unused_nodes n W ys _ _ Hu F) as Hys.
  assert (unused (n + 2) W2) as Hu2'.
  { split; [|split].
    - cbn. intros c0 [<-|H]; [lia|]. specialize (Hu1 c0 H). lia.
    - cbn [W2 pointers]. intros t' p. rewrite path_of_cons. destruct (N.eqb_spec (n + 1) t') as [<-|].
      + intros [= <-]. split; [lia|]. constructor; [lia|]. eapply Forall_impl; [|exact Hpath]. cbn beta. intros; lia.
      + intros E. destruct (Hu2 _ _ E) as [H1 H2]. split; [lia|]. eapply Forall_impl; [|exact H2]. cbn beta. intros; lia.
    - cbn [W2 nodes]. constructor; [split; [cbn; lia|cbn; intros c0 [= <-]; lia]|]. eapply Forall_impl; [|exact Hys]. cbn beta. intros x [H1 H2]. split; [lia|]. intros c0 H0. specialize (H2 c0 H0). lia. }
  assert (ready w (running W2) ((n + 1) :: path) (nodes W2)) as Hr2.
  { cbn [W2 nodes running]. intros x [<-|Hx].
    - split; [|intros _; unfold on; cbn; rewrite N.eqb_refl; reflexivity]. intros _. cbn. destruct w; cbn; [subst k; auto|destruct Hk as [-> | ->]; discriminate].
    - destruct (keeps_ready w false _ path _ _ F Hr1 x Hx) as [H1 H2]. rewrite Forall_forall in Hys. destruct (Hys x Hx) as [Hid _].
      assert (on ((n + 1) :: path) x = on path x) as ->; [|auto]. unfold on. cbn. replace (id x =? n + 1) with false by (symmetry; apply N.eqb_neq; lia). reflexivity. }
  assert (path_of (n + 1) (pointers W2) = Some ((n + 1) :: path)) as Ep2 by (cbn [W2 pointers]; rewrite path_of_cons, N.eqb_refl; reflexivity).
  specialize (Hbody (n + 1) ((n + 1) :: path) (n + 2) W2 Ep2 Hu2' Hr2). unfold out in Hbody. unfold andthen, reborrow. replace (n + 1 + 1) with (n + 2) by lia.
  destruct (body (n + 1) (n + 2)) as [[a es] n']. destruct Hbody as (W3 & E3 & Hs3 & Hg3).
  pose proof Hs3 as (B1 & B2 & B3 & B4 & (added & old & Eo & Fo & Lo) & B6).
  cbn [W2 nodes] in Fo. apply Forall2_from_cons in Fo as (s' & old' & -> & Ks & Fold). pose proof Ks as (Ks1 & Ks2 & Ks3).
  (* the arguments of the call *)
  assert (forall x, In x added \/ In x old' -> argument_of n x = false) as Harg.
  { intros x Hx. unfold argument_of. destruct (shield x) as [c0|] eqn:Es; [|reflexivity]. replace (c0 =? n) with false; [reflexivity|]. symmetry. apply N.eqb_neq. destruct Hx as [Hx|Hx].
    - rewrite Forall_forall in Lo. destruct (Lo x Hx) as [_ H]. specialize (H _ Es). lia.
    - destruct (Forall2_in_r _ _ _ _ Fold Hx) as (y & Hy & _ & Y2 & _). rewrite Forall_forall in Hys. destruct (Hys y Hy) as [_ H]. rewrite Y2 in Es. specialize (H _ Es). lia. }
  assert (filter (argument_of n) (nodes W3) = if seen s' then [s'] else []) as Efil.
  { rewrite Eo, filter_app. cbn [filter]. assert (forall zs, (forall x, In x zs -> argument_of n x = false) -> filter (argument_of n) zs = []) as Hnil.
    { induction zs as [|z zs IH]; intros H; [reflexivity|]. cbn [filter]. rewrite (H z) by (left; reflexivity). apply IH. intros x Hx. apply H. right. exact Hx. }
    rewrite !Hnil by (intros x Hx; apply Harg; auto). unfold argument_of. rewrite Ks2. cbn. rewrite N.eqb_refl. cbn [andb]. destruct (seen s'); reflexivity. }
  assert (path_of (id s') (pointers W3) = Some ((n + 1) :: path)) as Ep3 by (rewrite Ks1; apply B4, Ep2).
  assert (is_active s' = true -> w = true) as Hact.
  { intros Ha. destruct w; [reflexivity|]. unfold is_active in Ha. unfold on in Ks3. cbn in Ks3. rewrite N.eqb_refl in Ks3. cbn in Ks3. destruct Ks3 as [E|[? _]]; [|discriminate]. rewrite E in Ha. destruct Hk as [-> | ->]; discriminate. }
  assert (exists zs, release_all (running W3) (pointers W3) (filter (argument_of n) (nodes W3)) (nodes W3) = Some zs /\ Forall2 (keeps w ((n + 1) :: path)) (nodes W3) zs /\
    (w = false -> Forall2 (keeps false ((n + 1) :: path)) (nodes W3) zs)) as (zs & Er & Fz & Fz').
  { rewrite Efil. destruct (seen s').
    - destruct (release_keeps w (running W3) (pointers W3) ((n + 1) :: path) s' (nodes W3) Ep3 B6 Hact) as (zs & Er & Fz & Fz'). exists zs. cbn [release_all]. rewrite Er. split; [reflexivity|]. split; [exact Fz|].
      intros Hw. apply Fz'. destruct (is_active s'); [rewrite Hact in Hw by reflexivity; discriminate|reflexivity].
    - exists (nodes W3). split; [reflexivity|]. assert (forall v, Forall2 (keeps v ((n + 1) :: path)) (nodes W3) (nodes W3)) as H; [|auto]. intros v. clear. induction (nodes W3) as [|x xs IH]; constructor; [apply keeps_refl|exact IH]. }
  set (W4 := {| running := tl (running W3); pointers := pointers W3; nodes := zs |}).
  exists W4. split.
  { cbn [app tree_check]. change (tree_event l (Enter n) W) with (Some W1). cbv iota. rewrite Ee. rewrite tree_check_app, E3. cbn [tree_check tree_event]. rewrite Er. reflexivity. }
  assert (running W4 = running W) as Erun by (cbn [W4 running]; rewrite B3; reflexivity).
  assert (step_to w ((n + 1) :: path) (n + 2) W2 n' {| running := running W3; pointers := pointers W3; nodes := zs |}) as Hs4.
  { eapply (step_child w w [] ((n + 1) :: path)); [auto|constructor| |exact Hu2'| |].
    - apply (proj2 (proj1 (proj2 B2) _ _ Ep3)).
    - exact Hs3.
    - apply (touched_step w ((n + 1) :: path) n' W3 zs); assumption. }
  destruct Hs4 as (C1 & (C2a & C2b & C2c) & _ & C4 & (add4 & old4 & E4 & F4 & L4) & C6). cbn [nodes pointers running] in *.
  apply Forall2_from_cons in F4 as (s4 & old4' & -> & K4 & F4'). pose proof K4 as (K4a & K4b & K4c).
  assert (Forall2 (keeps w path) (nodes W) old4') as Fmain.
  { clear - F F4' Hu3. cbn in F. revert old4' F4'. induction F as [|x y xs ys' Hk F IH]; intros old4' F4'; inversion F4' as [|? z ? zs' Hz Fz]; subst; [constructor|].
    apply Forall_cons_iff in Hu3 as [[Hid _] Hu3]. constructor; [|apply IH; assumption]. eapply keeps_trans; [eapply keeps_le; [|exact Hk]; discriminate|].
    destruct Hz as (Z1 & Z2 & Z3). repeat split; auto. assert (on ((n + 1) :: path) y = on path y) as E; [|rewrite E in Z3; exact Z3].
    unfold on. cbn. replace (id y =? n + 1) with false; [reflexivity|]. symmetry. apply N.eqb_neq. destruct Hk as (-> & _). lia. }
  split.
  - split; [lia|]. split; [|split; [exact Erun|]; split; [|split]].
    + split; [|split; [exact C2b|exact C2c]]. cbn [W4 running]. intros c0 H0. apply C2a. rewrite B3 in *. cbn in *. auto.
    + intros t' p E. cbn [W4 pointers]. apply B4. cbn [W2 pointers]. rewrite path_of_cons. replace (n + 1 =? t') with false; [exact E|]. symmetry. apply N.eqb_neq. destruct (Hu2 _ _ E). lia.
    + exists (add4 ++ [s4]), old4'. cbn [W4 nodes]. rewrite <- app_assoc. cbn [app]. split; [exact E4|]. split; [exact Fmain|]. apply Forall_app. split.
      * eapply Forall_impl; [|exact L4]. intros x [H1 H2]. split; [lia|]. intros c0 H0. specialize (H2 _ H0). lia.
      * constructor; [|constructor]. split; [rewrite K4a; cbn; lia|]. rewrite K4b. cbn. intros c0 [= <-]. lia.
    + cbn [W4 nodes]. rewrite Erun. intros x Hx. rewrite E4 in Hx. apply in_app_iff in Hx as [Hx|[<-|Hx]].
      * rewrite Forall_forall in L4. destruct (L4 x Hx) as [Hid Hsd]. rewrite (on_old path x n Hpath) by lia. split; [discriminate|]. intros H. exfalso.
        unfold shielded in H. destruct (shield x) as [c0|]; [|discriminate]. apply existsb_exists in H as (c1 & Hc1 & E%N.eqb_eq). subst c1. specialize (Hsd c0 eq_refl). specialize (Hu1 c0 Hc1). lia.
      * rewrite (on_old path s4 n Hpath) by (rewrite K4a; cbn; lia). split; [discriminate|]. intros H. exfalso.
        unfold shielded in H. rewrite K4b in H. cbn in H. apply existsb_exists in H as (c1 & Hc1 & E%N.eqb_eq). subst c1. specialize (Hu1 n Hc1). lia.
      * apply (keeps_ready w w _ path _ _ Fmain Hr x Hx).
  - destruct Hc as [->|[-> Hle]]; [constructor|]. destruct c as [[v f]|]; [|constructor]. constructor; [|constructor]. apply Forall_inv in Hg3.
    assert (gives v (f a) ((n + 1) :: path) (n + 2) {| running := running W3; pointers := pointers W3; nodes := zs |}) as (q & Eq & Hq & Hi).
    { eapply (gives_kept v (f a) _ _ W3 ((n + 1) :: path) n' n'); [exact B2| |exact Hg3]. apply touched_step; auto. }
    exists (q ++ [n + 1]). cbn [W4 pointers nodes] in *. split; [rewrite <- app_assoc; exact Eq|]. split.
    + apply Forall_app. split; [|constructor; [lia|constructor]]. eapply Forall_impl; [|exact Hq]. cbn beta. intros; lia.
    + intros x Hx Ho. rewrite on_app in Ho. apply orb_true_iff in Ho as [Ho|Ho]; [apply Hi; assumption|].
      assert (id x = n + 1) as Hid by (unfold on in Ho; cbn in Ho; rewrite orb_false_r in Ho; apply N.eqb_eq in Ho; exact Ho).
      rewrite E4 in Hx. apply in_app_iff in Hx as [Hx|[<-|Hx]].
      * rewrite Forall_forall in L4. destruct (L4 x Hx) as [H _]. lia.
      * unfold on in K4c. cbn in K4c. rewrite N.eqb_refl in K4c. cbn in K4c. destruct K4c as [->|[? _]]; [|discriminate]. unfold idle. cbn. destruct Hk as [-> | ->]; [auto|].
        destruct v; [discriminate Hle|auto].
      * destruct (Forall2_in_r _ _ _ _ Fmain Hx) as (y & Hy & Y1 & _). rewrite Forall_forall in Hu3. destruct (Hu3 y Hy) as [H _]. lia.
Qed.

(** ** The functions *)

Lemma runs_of_self {A} l w t (m : emit A) c : tri l w t [(true, t)] m (claimed c) -> runs l w t m c.
Proof.
  intros H path n W Ep Hu Hr. apply (H path n W n W Ep Hu); [apply step_refl; assumption|]. constructor; [|constructor].
  exists []. split; [exact Ep|]. split; [constructor|]. intros x _ Ho. discriminate Ho.
Qed.

Lemma runs_less {A} l w t (m : emit A) f : runs l w t m (Some (true, f)) -> runs l w t m (Some (false, f)).
Proof.
  intros H path n W Ep Hu Hr. eapply out_mono; [apply (H path n W Ep Hu Hr)|]. cbn beta. intros a n' W' [Hs Hg]. split; [exact Hs|]. apply Forall_inv in Hg. constructor; [|constructor].
  destruct Hg as (q & Eq & Hq & Hi). exists q. split; [exact Eq|]. split; [exact Hq|]. intros x Hx Ho. destruct (Hi x Hx Ho) as [->|[? _]]; [left; reflexivity|discriminate].
Qed.

Lemma runs_reading {A} l t (m : emit A) c : runs l false t m c -> runs l true t m None.
Proof. intros H. apply runs_of_tri. eapply tri_weaken; [apply tri_self_read, H|]. intros a x []. Qed.

Lemma tri_stop {A} l w t gs (a : A) : tri l w t gs (done a) (fun _ => []).
Proof. eapply tri_weaken; [apply tri_done|]. intros _ x []. Qed.

Ltac shared_method := apply runs_method; [first [left; reflexivity|right; reflexivity]|first [left; reflexivity|right; split; [reflexivity|cbn; trivial]]|intros ?s].
Ltac mut_method := apply runs_method; [first [reflexivity|left; reflexivity]|first [left; reflexivity|right; split; [reflexivity|cbn; trivial]]|intros ?s].
Ltac own_read lem := eapply tri_bind; [eapply tri_self_read; eapply lem|intros ?; cbn [claimed app]].
Ltac own_write lem := eapply tri_bind; [eapply tri_self_write; eapply lem|intros ?; cbn [claimed app]].
Ltac last_read lem := eapply tri_weaken; [eapply tri_self_read; eapply lem|intros ?; cbn [claimed app In]; tauto].
Ltac last_write lem := eapply tri_weaken; [eapply tri_self_write; eapply lem|intros ?; cbn [claimed app In]; tauto].
Ltac child_read b lem := eapply tri_bind; [eapply (tri_child_read _ _ _ _ _ _ _ b); [| |eapply lem]; [cbn [In]; eauto 8|cbn; first [exact I|reflexivity]]|intros ?; cbn [claimed app]].
Ltac last_child_read b lem := eapply tri_weaken; [eapply (tri_child_read _ _ _ _ _ _ _ b); [| |eapply lem]; [cbn [In]; eauto 8|cbn; first [exact I|reflexivity]]|intros ?; cbn [claimed app In]; tauto].
Ltac last_child_write b lem := eapply tri_weaken; [eapply (tri_child_write _ _ _ _ _ b); [cbn [In]; eauto 8|eapply lem]|intros ?; cbn [claimed app In]; tauto].

Lemma runs_mut l t r : runs l false t (reborrow Mut t None r) (Some (true, fun a => a)).
Proof. apply (runs_reborrow l Mut t r). auto. Qed.

Lemma runs_shared l t r : runs l false t (reborrow Shared t None r) (Some (false, fun a => a)).
Proof. apply (runs_reborrow l Shared t r). auto. Qed.

Lemma runs_raw_mut l t r : runs l false t (reborrow RawMut t None r) (Some (true, fun a => a)).
Proof. apply runs_raw. auto. Qed.

Lemma runs_len l t : runs l false t (a_len t) None.
Proof. shared_method. apply runs_read. Qed.

Lemma runs_len_usize l t : runs l false t (a_len_usize t) None.
Proof. shared_method. apply runs_len. Qed.

Lemma runs_is_reverse l t : runs l false t (a_is_reverse t) None.
Proof. shared_method. apply runs_read. Qed.

Lemma runs_data_offset l i t : runs l false t (a_data_offset i t) None.
Proof.
  shared_method. apply runs_of_tri. own_read runs_is_reverse. destruct (is_reverse i); [last_read runs_len_usize|apply tri_stop].
Qed.

Lemma runs_as_ptr l t r : runs l false t (a_as_ptr t r) (Some (false, fun a => a)).
Proof. shared_method. apply runs_less, runs_raw. auto. Qed.

Lemma runs_as_mut_ptr l t r : runs l false t (a_as_mut_ptr t r) (Some (true, fun a => a)).
Proof. mut_method. apply runs_raw_mut. Qed.

Lemma runs_as_bytes l i t : runs l false t (a_as_bytes i t) (Some (false, fun a => a)).
Proof.
  shared_method. apply runs_of_tri. own_read runs_shared. child_read a runs_as_ptr. own_read runs_data_offset. own_read runs_len_usize. last_child_read a0 runs_shared.
Qed.

Lemma runs_as_bytes_mut l i t : runs l false t (a_as_bytes_mut i t) (Some (true, fun a => a)).
Proof.
  mut_method. apply runs_of_tri. own_read runs_mut. child_read a runs_as_mut_ptr. own_read runs_data_offset. own_read runs_len_usize. last_child_read a0 runs_mut.
Qed.

Lemma runs_as_str l i t : runs l false t (a_inline_as_str i t) (Some (false, fun a => a)).
Proof. shared_method. apply runs_of_tri. own_read runs_as_bytes. last_child_read a runs_shared. Qed.

Lemma runs_as_mut_str l i t : runs l false t (a_inline_as_mut_str i t) (Some (true, fun a => a)).
Proof. mut_method. apply runs_of_tri. own_read runs_as_bytes_mut. last_child_read a runs_mut. Qed.

Lemma runs_set_length l t : runs l true t (a_set_length t) None.
Proof. mut_method. apply runs_of_tri. own_read runs_read. last_write runs_write. Qed.

Lemma runs_copy_within l t src count dest : runs l true t (a_copy_within t src count dest) None.
Proof. mut_method. apply runs_of_tri. own_read runs_as_mut_ptr. child_read a runs_read. last_child_write a runs_write. Qed.

Lemma runs_index_mut l t start count : runs l false t (a_index_mut t start count) (Some (true, fun a => a)).
Proof. mut_method. apply runs_mut. Qed.

Lemma runs_iter_mut l t r : runs l false t (a_iter_mut t r) (Some (true, fun a => a)).
Proof. mut_method. apply runs_raw_mut. Qed.

Lemma runs_write_one l t r : runs l true t (method Mut t r (fun s => write s r)) None.
Proof. mut_method. apply runs_write. Qed.

Lemma runs_write_each l t count : forall first, runs l true t (a_write_each t first count) None.
Proof.
  induction count as [|count IH]; intros first; cbn [a_write_each]; apply runs_of_tri; [apply tri_stop|].
  own_read runs_mut. eapply (tri_bind _ _ _ _ _ _ (fun _ => [])); [last_child_write a runs_write_one|]. intros ?. last_write IH.
Qed.

Lemma runs_write_zip l t start count : runs l true t (a_write_zip t start count) None.
Proof.
  apply runs_of_tri. own_read runs_mut. child_read a runs_index_mut. child_read a0 runs_iter_mut. last_child_write a1 runs_write_each.
Qed.

Lemma runs_shift l t src count dest : runs l true t (a_shift t src count dest) None.
Proof. apply runs_of_tri. own_read runs_mut. last_child_write a runs_copy_within. Qed.

Lemma runs_inline_push l i k new_length t : runs l true t (a_inline_push i k new_length t) None.
Proof.
  mut_method. apply runs_of_tri. own_read runs_is_reverse. eapply (tri_bind _ _ _ _ _ _ (fun _ => [])); [|intros ?; last_write runs_set_length].
  destruct (is_reverse i); [|last_write runs_write_zip]. own_read runs_data_offset. own_write runs_shift. last_write runs_write_zip.
Qed.

Lemma runs_inline_push_str l i count new_length t : runs l true t (a_inline_push_str i count new_length t) None.
Proof.
  mut_method. apply runs_of_tri. own_read runs_is_reverse. eapply (tri_bind _ _ _ _ _ _ (fun _ => [])); [|intros ?; last_write runs_set_length].
  destruct (is_reverse i); [own_read runs_data_offset; own_write runs_shift; last_write runs_write_zip|].
  own_read runs_mut. child_read a0 runs_as_mut_ptr. own_read runs_len_usize. last_child_write a1 runs_write.
Qed.

Lemma runs_write_in l t r r' : runs l true t (method Mut t r (fun s => write s r')) None.
Proof. mut_method. apply runs_write. Qed.

Lemma runs_inline_push_front l i k new_length t : runs l true t (a_inline_push_front i k new_length t) None.
Proof.
  mut_method. apply runs_of_tri. own_read runs_is_reverse. destruct (is_reverse i); [own_write runs_write_zip; last_write runs_set_length|].
  own_write runs_shift. own_write runs_set_length. cbv zeta. own_read runs_as_bytes_mut. last_child_write a2 runs_write_in.
Qed.

Lemma tri_spill l i t gs v inner : In (v, inner) gs -> tri l true t gs (a_spill i t inner) (fun _ => []).
Proof.
  intros Hin. unfold a_spill. eapply tri_bind; [eapply tri_child_read; [exact Hin| |apply runs_as_str]; exact I|]. intros a. cbn [claimed app].
  child_read a runs_read. last_write runs_write.
Qed.

Lemma runs_heap l t : runs l true t (method Mut t inline (fun s => read s inline ;! write s inline)) None.
Proof. mut_method. apply runs_of_tri. own_read runs_read. last_write runs_write. Qed.

Lemma runs_push l c s ch t : runs l true t (a_push c s ch t) None.
Proof.
  mut_method. mut_method. apply runs_of_tri. own_read runs_read. destruct s as [i|h]; [|last_write runs_heap]. own_read runs_mut. child_read a0 runs_len. cbv zeta.
  destruct (_ <=? _); [last_child_write a0 runs_inline_push|]. destruct (has_alloc c); [eapply tri_spill; cbn; eauto|apply tri_stop].
Qed.

Lemma runs_push_str l c s str t : runs l true t (a_push_str c s str t) None.
Proof.
  mut_method. mut_method. apply runs_of_tri. own_read runs_read. destruct s as [i|h]; [|last_write runs_heap]. own_read runs_mut. cbv zeta.
  eapply (tri_bind _ _ _ _ _ _ (fun _ => [(true, a0)])); [destruct (_ <? _); [last_child_read a0 runs_len|apply tri_done]|]. intros a1.
  destruct (_ <=? _); [last_child_write a0 runs_inline_push_str|]. destruct (has_alloc c); [child_read a0 runs_len_usize; eapply tri_spill; cbn; eauto|apply tri_stop].
Qed.

Lemma runs_push_front l c s ch t : runs l true t (a_push_front c s ch t) None.
Proof.
  mut_method. mut_method. apply runs_of_tri. own_read runs_read. destruct s as [i|h]; [|last_write runs_heap]. own_read runs_mut. child_read a0 runs_len. cbv zeta.
  destruct (_ <=? _); [last_child_write a0 runs_inline_push_front|]. destruct (has_alloc c); [eapply tri_spill; cbn; eauto|apply tri_stop].
Qed.


Lemma tri_return {A} l w t gs (a : A) v f : In (v, f a) gs -> tri l w t gs (done a) (claimed (Some (v, f))).
Proof.
  intros Hin path n0 W0 n W Ep Hu Hs Hg. unfold out, done. exists W. split; [reflexivity|]. split; [exact Hs|]. unfold haves in *. rewrite Forall_forall in Hg.
  constructor; [apply (Hg _ Hin)|constructor].
Qed.

Lemma runs_returned l v t r : runs l false t (read t r ;! done t) (Some (v, fun a => a)).
Proof.
  assert (runs l false t (read t r ;! done t) (Some (true, fun a => a))) as H; [|destruct v; [exact H|apply runs_less, H]].
  apply runs_of_self. own_read runs_read. apply tri_return. cbn. auto.
Qed.

Lemma runs_heap_shared l t : runs l false t (method Shared t inline (fun s => read s inline ;! done s)) (Some (false, fun a => a)).
Proof. shared_method. apply runs_returned. Qed.

Lemma runs_heap_mut l t : runs l false t (method Mut t inline (fun s => read s inline ;! done s)) (Some (true, fun a => a)).
Proof. mut_method. apply runs_returned. Qed.

Lemma runs_deref l s t : runs l false t (a_deref s t) (Some (false, fun a => a)).
Proof.
  shared_method. shared_method. apply runs_of_tri. own_read runs_read. destruct s as [i|h]; [|last_read runs_heap_shared]. own_read runs_shared. last_child_read a0 runs_as_str.
Qed.

Lemma runs_deref_mut l s t : runs l false t (a_deref_mut s t) (Some (true, fun a => a)).
Proof.
  mut_method. mut_method. apply runs_of_tri. own_read runs_read. destruct s as [i|h]; [|last_read runs_heap_mut]. own_read runs_mut. last_child_read a0 runs_as_mut_str.
Qed.

Lemma runs_is_inline l t : runs l false t (a_is_inline t) None.
Proof. shared_method. apply runs_read. Qed.

(** ** Programs *)

(** The owner is node 0. What a program has can be used. *)
Definition edits (e : N) (W : world) : Prop :=
  exists q, path_of e (pointers W) = Some (q ++ [0]) /\ Forall (fun k => 1 <= k) q /\
    forall x, In x (nodes W) -> on q x = true -> usable true (standing_of x).

Definition sound (x : scene) (n : N) (W : world) : Prop :=
  step_to true [0] 1 planted n W /\ haves [0] 1 W (map (pair false) (views x)) /\
  match editor x with Some e => views x = [] /\ edits e W | None => True end.

Lemma planted_path : path_of 0 (pointers planted) = Some [0].
Proof. reflexivity. Qed.

Lemma planted_unused : unused 1 planted.
Proof.
  split; [intros k []|]. split.
  - cbn [planted pointers]. intros t p. rewrite path_of_cons. destruct (N.eqb_spec 0 t); [intros [= <-]|discriminate]. split; [lia|]. constructor; [lia|constructor].
  - constructor; [|constructor]. cbn. split; [lia|discriminate].
Qed.

Lemma sound_start s : sound {| string_of := s; views := []; editor := None |} 1 planted.
Proof.
  split; [|split; [constructor|exact I]]. apply step_refl; [apply planted_unused|]. cbn. intros x [<-|[]]. split; [cbn; auto|discriminate].
Qed.

Lemma out_done {A B} l (m : emit A) (f : A -> B) n W (P : A -> N -> world -> Prop) (Q : B -> N -> world -> Prop) :
  out l m n W P -> (forall a n' W', P a n' W' -> Q (f a) n' W') -> out l (a <! m ;; done (f a)) n W Q.
Proof. intros H HQ. eapply out_andthen; [exact H|]. intros a n' W' HP. unfold out, done. exists W'. auto. Qed.

Lemma changed_sound l x n W (m : emit unit) s' : sound x n W -> runs l true 0 m None ->
  out l (m ;! done {| string_of := s'; views := []; editor := None |}) n W sound.
Proof.
  intros (Hs & _ & _) Hm. eapply (out_done l m (fun _ => {| string_of := s'; views := []; editor := None |})).
  - apply (tri_self_write l 0 [] m None Hm [0] 1 planted n W planted_path planted_unused Hs). constructor.
  - cbn beta. intros a n' W' [Hs' _]. split; [exact Hs'|]. split; [constructor|exact I].
Qed.

Lemma edit_sound l x e n W w r : sound x n W -> editor x = Some e -> views x = [] -> edits e W ->
  out l (tell (Access w e r) ;! done x) n W sound.
Proof.
  intros (Hs & _ & _) Ee Ev (q & Eq & Hq & Hi). pose proof (step_unused _ _ _ _ _ _ Hs) as Hu. pose proof (proj2 (proj1 (proj2 Hu) e _ Eq)) as Hqp.
  eapply (out_done l (tell (Access w e r)) (fun _ => x)).
  - apply (runs_access l w e r (q ++ [0]) n W Eq Hu). intros y Hy. destruct (step_ready _ _ _ _ _ _ Hs y Hy) as [H1 H2]. rewrite on_app. split.
    + intros Ho. apply (usable_le true w); [auto|]. apply orb_true_iff in Ho as [Ho|Ho]; auto.
    + intros H. rewrite (H2 H). apply orb_true_r.
  - cbn beta. intros a n' W' [Hs' _]. split; [|rewrite Ee, Ev; split; [constructor|]; split; [reflexivity|]].
    + eapply (step_child true w q [0]); eauto. apply planted_unused.
    + exists q. split; [eapply step_path; eassumption|]. split; [exact Hq|]. destruct Hs' as (_ & _ & _ & _ & (added & old & E & F & L) & _). intros y Hy Ho. rewrite E in Hy. apply in_app_iff in Hy as [Hy|Hy].
      * rewrite Forall_forall in L. destruct (L y Hy) as [Hid _]. apply Forall_app in Hqp as [Hqp _]. rewrite (on_old q y n Hqp Hid) in Ho. discriminate.
      * destruct (Forall2_in_r _ _ _ _ F Hy) as (z & Hz & Hk). pose proof Hk as (K1 & _). rewrite (on_id q z y K1) in Ho.
        eapply keeps_usable; [exact Hk|rewrite on_app, Ho; reflexivity|apply Hi; assumption].
Qed.

Lemma use_sound c l x n W u m : sound x n W -> use_trace c 0 x u = Some (Ret m) -> out l m n W sound.
Proof.
  intros Hx E. pose proof Hx as (Hs & Hv & He). destruct u as [ch|str|ch| | | |which j|j|j]; cbn [use_trace] in E.
  - destruct (try_push c (string_of x) ch) as [[s' r]| | |]; cbn in E; try discriminate. injection E as <-. eapply changed_sound; [exact Hx|apply runs_push].
  - destruct (try_push_str c (string_of x) str) as [[s' r]| | |]; cbn in E; try discriminate. injection E as <-. eapply changed_sound; [exact Hx|apply runs_push_str].
  - destruct (try_push_front c (string_of x) ch) as [[s' r]| | |]; cbn in E; try discriminate. injection E as <-. eapply changed_sound; [exact Hx|apply runs_push_front].
  - injection E as <-. eapply (out_done l (a_is_inline 0) (fun _ => {| string_of := string_of x; views := views x; editor := None |})).
    + apply (tri_self_read l true 0 _ _ None (runs_is_inline l 0) [0] 1 planted n W planted_path planted_unused Hs Hv).
    + cbn beta. intros a n' W' [Hs' Hv']. split; [exact Hs'|]. split; [exact Hv'|exact I].
  - injection E as <-. eapply (out_done l (a_deref (string_of x) 0) (fun r => {| string_of := string_of x; views := r :: views x; editor := None |})).
    + apply (tri_self_read l true 0 _ _ _ (runs_deref l (string_of x) 0) [0] 1 planted n W planted_path planted_unused Hs Hv).
    + cbn beta. intros a n' W' [Hs' Hv']. split; [exact Hs'|]. split; [exact Hv'|exact I].
  - injection E as <-. eapply (out_done l (a_deref_mut (string_of x) 0) (fun r => {| string_of := string_of x; views := []; editor := Some r |})).
    + apply (tri_self_read l true 0 [] _ _ (runs_deref_mut l (string_of x) 0) [0] 1 planted n W planted_path planted_unused Hs). constructor.
    + cbn beta. intros a n' W' [Hs' Hv']. split; [exact Hs'|]. split; [constructor|]. split; [reflexivity|]. apply Forall_inv in Hv'. destruct Hv' as (q & Eq & Hq & Hi).
      exists q. split; [exact Eq|]. split; [exact Hq|]. intros y Hy Ho. eapply idle_usable; [|apply Hi; assumption]. auto.
  - destruct (nth_error (views x) which) as [r|] eqn:Er; [|discriminate]. destruct (j <? _); [|discriminate]. injection E as <-.
    eapply (out_done l (read r _) (fun _ => x)).
    + eapply (tri_child_read l true 0 (map (pair false) (views x)) _ None false r); [|exact I|apply runs_read|exact planted_path|exact planted_unused|exact Hs|exact Hv].
      apply in_map, (nth_error_In _ _ Er).
    + cbn beta. intros a n' W' [Hs' Hv']. split; [exact Hs'|]. split; [exact Hv'|]. destruct (editor x) as [e|]; [|exact I]. destruct He as [He _]. rewrite He in Er. destruct which; discriminate.
  - destruct (editor x) as [e|] eqn:Ee; [|discriminate]. destruct (j <? _); [|discriminate]. injection E as <-. destruct He as [He Hed].
    eapply (edit_sound l x e n W false); eassumption.
  - destruct (editor x) as [e|] eqn:Ee; [|discriminate]. destruct (j <? _); [|discriminate]. injection E as <-. destruct He as [He Hed].
    eapply (edit_sound l x e n W true); eassumption.
Qed.

(** No program that uses a string through its methods and the references they
    return breaks the rules of Tree Borrows, at any byte. *)
Theorem C107_no_violation : forall c s uses trace,
  plays c 0 {| string_of := s; views := []; editor := None |} 1 uses trace ->
  forall l, exists W, tree_check l trace planted = Some W.
Proof.
  intros c s uses trace Hp l.
  assert (forall x n us es, plays c 0 x n us es -> forall W, sound x n W -> exists W', tree_check l es W = Some W') as H.
  { clear. induction 1 as [x n|x n u us m x' es n' rest E Em Hp IH]; intros W Hx; [eexists; reflexivity|].
    pose proof (use_sound c l x n W u m Hx E) as Ho. unfold out in Ho. rewrite Em in Ho. destruct Ho as (W1 & E1 & Hx1). rewrite tree_check_app, E1. apply (IH W1 Hx1). }
  apply (H _ _ _ _ Hp), sound_start.
Qed.
Print Assumptions C107_no_violation.

(** The program of C106, through all of its bytes. *)
Example C107_case : forall s, s = new \/ s = new_reverse -> exists trace,
  plays on_heap 0 {| string_of := s; views := []; editor := None |} 1 busy trace /\ (250 < length trace)%nat /\
  forallb (fun l => match tree_check (N.of_nat l) trace planted with Some W => (40 <? length (nodes W))%nat | None => false end) (seq 0 64) = true.
Proof.
  intros s Hs. destruct (trace_of on_heap {| string_of := s; views := []; editor := None |} 1 busy) as [es|] eqn:E.
  - exists es. split; [apply trace_of_plays, E|]. destruct Hs; subst s; vm_compute in E; injection E as <-; (split; [cbn [length]; lia|]); vm_compute; reflexivity.
  - destruct Hs; subst s; vm_compute in E; discriminate.
Qed.

(** ** What the rules forbid *)

(** A write ends every reference that is not an ancestor of the pointer written
    through, and all pointers made from one. *)
Theorem C107_writes_end_others : forall l t r path t' path' x W W',
  covers r l = true -> path_of t (pointers W) = Some path -> tree_event l (Access true t r) W = Some W' ->
  path_of t' (pointers W) = Some path' -> In x (nodes W) -> on path' x = true -> on path x = false ->
  forall w r', covers r' l = true -> tree_event l (Access w t' r') W' = None.
Proof.
  intros l t r path t' path' x W W' Hc Ep E Ep' Hx Ho' Ho w r' Hc'. cbn [tree_event] in *. rewrite Hc, Ep in E.
  destruct (touch (running W) path true (nodes W)) as [xs|] eqn:Et; [|discriminate]. injection E as <-. cbn [running pointers nodes]. rewrite Hc', Ep'.
  assert (exists y, In y xs /\ id y = id x /\ standing_of y = Dead) as (y & Hy & Ey & Hd).
  { unfold touch in Et. revert xs Et. induction (nodes W) as [|z zs IH]; [contradiction|]. intros xs Et. cbn [each] in Et.
    destruct (if on path z then by_own (running W) true z else by_other (running W) true z) as [z'|] eqn:Ez; [|discriminate].
    destruct (each _ zs) as [zs'|] eqn:Ezs; [|discriminate]. injection Et as <-. destruct Hx as [->|Hx].
    - exists z'. rewrite Ho in Ez. unfold by_other in Ez. destruct (standing_of x) eqn:Es; [| | |injection Ez as <-; split; [left; reflexivity|auto]];
        (destruct (shielded (running W) x && seen x); [discriminate|]; injection Ez as <-; split; [left; reflexivity|split; reflexivity]).
    - destruct (IH Hx zs' eq_refl) as (y & Hy & Hyy). exists y. split; [right; exact Hy|exact Hyy]. }
  assert (touch (running W) path' w xs = None) as ->; [|reflexivity].
  unfold touch. clear - Hy Ey Hd Ho'. induction xs as [|z zs IH]; [contradiction|]. cbn [each]. destruct Hy as [->|Hy].
  - rewrite (on_id path' x y Ey), Ho'. unfold by_own. rewrite Hd. reflexivity.
  - rewrite (IH Hy). destruct (if on path' z then _ else _); reflexivity.
Qed.
Print Assumptions C107_writes_end_others.

(** While a call runs, no other pointer may write what its argument was used
    for. *)
Theorem C107_arguments_are_protected : forall l t r path x W,
  covers r l = true -> path_of t (pointers W) = Some path -> In x (nodes W) -> on path x = false ->
  shielded (running W) x = true -> seen x = true -> standing_of x <> Dead -> tree_event l (Access true t r) W = None.
Proof.
  intros l t r path x W Hc Ep Hx Ho Hs Hn Hd. cbn [tree_event]. rewrite Hc, Ep. assert (touch (running W) path true (nodes W) = None) as ->; [|reflexivity].
  unfold touch. induction (nodes W) as [|z zs IH]; [contradiction|]. cbn [each]. destruct Hx as [->|Hx].
  - rewrite Ho. unfold by_other. rewrite Hs, Hn. cbn [andb]. destruct (standing_of x); try reflexivity. contradiction.
  - rewrite (IH Hx). destruct (if on path z then _ else _); reflexivity.
Qed.
Print Assumptions C107_arguments_are_protected.

(** When a call returns, an argument it wrote through ends every reference that
    is neither an ancestor nor made from it. *)
Theorem C107_release_ends_others : forall calls ps a path xs ys x path',
  path_of (id a) ps = Some path -> standing_of a = Active -> release calls ps a xs = Some ys ->
  In x xs -> path_of (id x) ps = Some path' -> ~ In (id x) path -> ~ In (id a) path' ->
  exists y, In y ys /\ id y = id x /\ standing_of y = Dead.
Proof.
  intros calls ps a path xs ys x path' Ep Ea Er Hx Ep' Ho Hb.
  assert (below ps (id a) x = false) as Eb.
  { unfold below. rewrite Ep'. destruct (existsb (N.eqb (id a)) path') eqn:E; [|reflexivity].
    apply existsb_exists in E. destruct E as (z & Hz & Ez). apply N.eqb_eq in Ez. subst z. contradiction. }
  assert (on path x = false) as Eo.
  { unfold on. destruct (existsb (N.eqb (id x)) path) eqn:E; [|reflexivity].
    apply existsb_exists in E. destruct E as (z & Hz & Ez). apply N.eqb_eq in Ez. subst z. contradiction. }
  unfold release in Er. rewrite Ep in Er. unfold is_active in Er. rewrite Ea in Er. clear Ep'.
  revert ys Er. induction xs as [|z zs IH]; [contradiction|]. intros ys Er. cbn [each] in Er.
  destruct (if below ps (id a) z then Some z else _) as [z'|] eqn:Ez; [|discriminate].
  destruct (each _ zs) as [zs'|]; [|discriminate]. injection Er as <-. destruct Hx as [->|Hx].
  - exists z'. rewrite Eb, Eo in Ez. unfold by_other in Ez. destruct (standing_of x) eqn:Es; [| | |injection Ez as <-; split; [left; reflexivity|auto]];
      (destruct (shielded calls x && seen x); [discriminate|]; injection Ez as <-; split; [left; reflexivity|split; reflexivity]).
  - destruct (IH Hx zs' eq_refl) as (y & Hy & Hyy). exists y. split; [right; exact Hy|exact Hyy].
Qed.
Print Assumptions C107_release_ends_others.

Example C107_release_case :
  let a := {| id := 2; standing_of := Active; seen := true; shield := Some 7 |} in
  let x := {| id := 3; standing_of := Reserved false; seen := true; shield := None |} in
  let own := {| id := 4; standing_of := Active; seen := true; shield := None |} in
  option_map (map standing_of) (release [7] [(0, [0]); (2, [2; 0]); (3, [3; 0]); (4, [4; 2; 0])] a [own; x; a]) = Some [Active; Dead; Active].
Proof. reflexivity. Qed.

Definition fails (l : N) (m : emit unit) : Prop := let '(_, es, _) := m 1 in tree_check l es planted = None.
Definition passes (l : N) (m : emit unit) : Prop := let '(_, es, _) := m 1 in tree_check l es planted <> None.

Example C107_forbidden :
  (* an edit through a reference taken before a push that moves the text *)
  fails 2 (r <! a_deref_mut (Inline three) 0 ;; a_push_front on_heap (Inline three) 0x64 0 ;! write r (2, 1)) /\
  (* a view used after an edit *)
  fails 2 (r <! a_deref (Inline three) 0 ;; e <! a_deref_mut (Inline three) 0 ;; write e (2, 1) ;! read r (2, 1)) /\
  (* a view edited *)
  fails 2 (r <! a_deref (Inline three) 0 ;; write r (2, 1)) /\
  (* an edit after a view was taken from an edited string *)
  fails 2 (e <! a_deref_mut (Inline three) 0 ;; write e (2, 1) ;! r <! a_deref (Inline three) 0 ;; write e (2, 1)) /\
  (* [as_bytes_mut] from [self.bytes.as_ptr()], cast to a [*mut] *)
  fails 2 (method Mut 0 inline (fun s =>
    b <! reborrow Shared s None all_bytes ;; p <! a_as_ptr b all_bytes ;; a_data_offset three s ;!
    r <! reborrow Mut p None (text_range three) ;; write r (2, 1))) /\
  (* the string written through its name inside of a method *)
  fails 2 (method Mut 0 inline (fun s => write s (2, 1) ;! write 0 (2, 1))) /\
  (* and read, after it was written through [self] *)
  fails 2 (method Mut 0 inline (fun s => write s (2, 1) ;! read 0 (2, 1))) /\
  (* or written through [self] after it was read *)
  fails 2 (method Mut 0 inline (fun s => read 0 (2, 1) ;! write s (2, 1))).
Proof. vm_compute. repeat split. Qed.

(** Some of what Stacked Borrows forbids is allowed: the two are different. *)
Example C107_lenient :
  let before_push := (r <! a_deref_mut (Inline three) 0 ;; a_push on_heap (Inline three) 0x64 0 ;! write r (2, 1)) in
  let before_set := method Mut 0 inline (fun s =>
    b <! reborrow Mut s None all_bytes ;; p <! a_as_mut_ptr b all_bytes ;; a_set_length s ;!
    r <! reborrow Mut p None (text_range three) ;; write r (2, 1)) in
  (broken before_push /\ passes 2 before_push) /\ (broken before_set /\ passes 2 before_set).
Proof. vm_compute. repeat split; discriminate. Qed.

(** What else is allowed. *)
Example C107_allowed :
  (* a reference made from [self] is returned after [self] was written *)
  passes 2 (r <! method Mut 0 whole (fun s => write s (2, 1) ;! reborrow Mut s None whole) ;; write r (2, 1)) /\
  (* a byte that [self] does not cover is written during the call *)
  passes 3 (method Mut 0 (2, 1) (fun s => write s (2, 1) ;! write 0 (3, 1))) /\
  (* a reference made from [self] is written through after the call, although
     the string was read during it *)
  passes 2 (r <! method Mut 0 whole (fun s => r <! reborrow Mut s None whole ;; read 0 (2, 1) ;! done r) ;; write r (2, 1)).
Proof. vm_compute. repeat split; discriminate. Qed.

(** An event elsewhere changes nothing at this byte. *)
Theorem C107_bytes_are_separate : forall l W W' r, covers r l = false ->
  (forall w t, tree_event l (Access w t r) W = Some W) /\
  (forall k t new g, tree_event l (Retag k t new g r) W = Some W' -> running W' = running W /\
     (nodes W' = nodes W \/ exists x, nodes W' = x :: nodes W /\ id x = new /\ seen x = false)).
Proof.
  intros l W W' r Hc. split; [intros; cbn [tree_event]; rewrite Hc; reflexivity|]. intros k t new g E. cbn [tree_event] in E. rewrite Hc in E.
  destruct (path_of t (pointers W)); [|discriminate]. destruct k; injection E as <-; cbn; (split; [reflexivity|]); eauto.
Qed.
Print Assumptions C107_bytes_are_separate.

(** Beside the theorems above: an edit ends a view, and an argument in use is
    protected. *)
Example C107_rules_case :
  (let '(r, es, n) := a_deref (Inline three) 0 1 in
   exists W, tree_check 2 es planted = Some W /\ exists path, path_of r (pointers W) = Some path /\ existsb (on path) (filter (fun x => negb (on [0] x)) (nodes W)) = true) /\
  (exists W, tree_check 2 [Enter 1; Retag Mut 0 2 (Some 1) whole; Access true 2 (2, 1)] planted = Some W /\
    existsb (fun x => shielded (running W) x && seen x && negb (on [0] x) && is_active x) (nodes W) = true).
Proof. split; vm_compute; eexists; (split; [reflexivity|]); [eexists; split; reflexivity|reflexivity]. Qed.
