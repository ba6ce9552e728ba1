(** * Outcome: what formatters return, and how pushes contribute to it *)

From Verif Require Import Prelude Utf8Facts StringFacts Layout.
From Verif Require Export Digital.

(** ** The statements used in the properties *)

(** [prints c r n cs]: the formatter outcome [r] for the number [n] is the text
    [cs] when it can be stored (with alloc always, without alloc up to 62
    bytes), inline exactly when it has at most 62 bytes, in a string the caller
    could have built; otherwise it is the out-of-memory error carrying [n]. *)
Definition prints (c : config) (r : outcome (result nominal_string error)) (n : N) (cs : list N) : Prop :=
  if has_alloc c || at_most_62 (utf8 cs) then
    exists s, r = Ret (Ok s) /\ as_str s = Ret (utf8 cs) /\ is_inline s = at_most_62 (utf8 cs) /\ reachable c s
  else r = Ret (Err (OutOfMemory n)).

(** ** The invariant *)

(** A well-formed string with text [cs] in its proper place. *)
Definition text (c : config) (s : nominal_string) (cs : list N) : Prop :=
  rep c s cs /\ is_inline s = (utf8_len cs <=? 62).

Definition stored (c : config) (n : N) (cs : list N) (r : result nominal_string error) : Prop :=
  if room c cs then exists s, r = Ok s /\ text c s cs else r = Err (OutOfMemory n).

Definition yields (c : config) (r : outcome (result nominal_string error)) (n : N) (cs : list N) : Prop :=
  exists x, r = Ret x /\ stored c n cs x.

Lemma yields_prints c r n cs : yields c r n cs -> prints c r n cs.
Proof.
  intros (x & -> & H). unfold stored, prints in *. rewrite room_roomy in H. unfold roomy in H.
  destruct (has_alloc c || at_most_62 (utf8 cs)).
  - destruct H as (s & -> & Hr & Hi). exists s. split; [reflexivity|]. split; [eapply rep_str, Hr|].
    split; [rewrite Hi; apply len_62|eapply rep_reachable, Hr].
  - congruence.
Qed.

Lemma prints_fun c r n cs cs' : scalars cs -> scalars cs' -> has_alloc c = true ->
  prints c r n cs -> prints c r n cs' -> cs = cs'.
Proof.
  unfold prints. intros Hs Hs' -> H H'. cbn [orb] in *.
  destruct H as (s & E & Ht & _), H' as (s' & E' & Ht' & _).
  apply utf8_inj; try assumption. congruence.
Qed.

Lemma text_scalars c s cs : text c s cs -> scalars cs.
Proof. intros [[H _] _]. exact H. Qed.

Lemma text_new c : text c new [].
Proof. split; [apply new_rep|reflexivity]. Qed.

Lemma text_new_reverse c : text c new_reverse [].
Proof. split; [apply new_reverse_rep|reflexivity]. Qed.

Lemma stored_text c n s cs : text c s cs -> stored c n cs (Ok s).
Proof.
  intros H. unfold stored. destruct (room c cs) eqn:E; [eauto|].
  destruct H as [[_ H] Hi]. unfold room in E. apply orb_false_iff in E as [Ea Eb].
  rewrite Eb in Hi. destruct s; [discriminate|]. destruct H. congruence.
Qed.

Lemma room_false_le c cs cs' : room c cs = false -> utf8_len cs <= utf8_len cs' -> room c cs' = false.
Proof.
  unfold room. intros H Hle. apply orb_false_iff in H as [-> H]. cbn [orb]. lia.
Qed.

Lemma room_false_pre c a b : room c a = false -> room c (a ++ b) = false.
Proof. intros H. eapply room_false_le; [exact H|]. rewrite utf8_len_app. lia. Qed.

Lemma room_false_post c a b : room c b = false -> room c (a ++ b) = false.
Proof. intros H. eapply room_false_le; [exact H|]. rewrite utf8_len_app. lia. Qed.

Lemma stored_oom c n cs : room c cs = false -> stored c n cs (Err (OutOfMemory n)).
Proof. unfold stored. intros ->. reflexivity. Qed.

(** ** Pushes *)

(** A push either succeeds and the string holds [cs], or there is no room for
    [cs]. *)
Definition pushed (c : config) (s : nominal_string) (cs : list N)
    (r : outcome (nominal_string * result unit out_of_memory)) : Prop :=
  (exists s', r = Ret (s', Ok tt) /\ text c s' cs) \/
  (r = Ret (s, Err OutOfMemoryError) /\ room c cs = false).

Lemma pushed_of c s cs cs' r : text c s cs -> utf8_len cs <= utf8_len cs' ->
  push_effect c s cs' r -> pushed c s cs' r.
Proof.
  intros [_ Hi] Hle H. unfold push_effect in H. destruct (room c cs') eqn:E.
  - left. destruct H as (s' & E' & Hr & Hi'). exists s'. split; [assumption|]. split; [assumption|].
    rewrite Hi', Hi. lia.
  - right. auto.
Qed.

Lemma push_pushed c s cs ch : text c s cs -> is_scalar ch = true ->
  pushed c s (cs ++ [ch]) (try_push c s ch).
Proof.
  intros H Hch. eapply pushed_of; [exact H| |apply try_push_effect; [apply H|assumption]].
  rewrite utf8_len_app; lia.
Qed.

Lemma push_str_pushed c s cs str : text c s cs -> scalars str ->
  pushed c s (cs ++ str) (try_push_str c s (utf8 str)).
Proof.
  intros H Hch. eapply pushed_of; [exact H| |apply try_push_str_effect; [apply H|assumption]].
  rewrite utf8_len_app; lia.
Qed.

Lemma push_front_pushed c s cs ch : text c s cs -> is_scalar ch = true ->
  pushed c s (ch :: cs) (try_push_front c s ch).
Proof.
  intros H Hch. eapply pushed_of; [exact H| |apply try_push_front_effect; [apply H|assumption]].
  rewrite utf8_len_cons; lia.
Qed.

Lemma from_char_text c ch : is_scalar ch = true -> exists s, from_char c ch = Ret s /\ text c s [ch].
Proof.
  intros H. destruct (from_char_rep c ch H) as (s & E & Hr & Hi). exists s. split; [assumption|].
  split; [assumption|]. rewrite Hi, utf8_len_single. pose proof (len_utf8_bounds ch). lia.
Qed.

Lemma from_str_text c cs : scalars cs -> room c cs = true ->
  exists s, from_str c (utf8 cs) = Ret s /\ text c s cs.
Proof.
  intros Hs Hr. pose proof (from_str_effect c cs Hs) as H. rewrite Hr in H.
  destruct H as (s & E & H1 & H2). exists s. split; [assumption|]. split; assumption.
Qed.

Lemma text_empty c s cs : text c s cs -> is_empty s = Ret (match cs with [] => true | _ => false end).
Proof. intros [H _]. eapply rep_empty, H. Qed.

(** ** Loops *)

(** From state [s] the loop breaks within [k] turns, with a result in [Q]. *)
Definition loops {S R} (body : S -> outcome (loop_step S R)) (k : N) (s : S) (Q : R -> Prop) : Prop :=
  exists j r, j <= k /\ runs body j s r /\ Q r.

Lemma loops_break {S R} (body : S -> outcome (loop_step S R)) k s (Q : R -> Prop) r :
  body s = Ret (Break r) -> 1 <= k -> Q r -> loops body k s Q.
Proof. intros H Hk Hq. exists 1, r. split; [assumption|]. split; [constructor; assumption|assumption]. Qed.

Lemma loops_step {S R} (body : S -> outcome (loop_step S R)) k s s' (Q : R -> Prop) :
  body s = Ret (Continue s') -> 1 <= k -> loops body (k - 1) s' Q -> loops body k s Q.
Proof.
  intros H Hk (j & r & Hj & Hr & Hq). exists (j + 1), r. split; [lia|]. split; [|assumption].
  eapply runs_step; eassumption.
Qed.

Lemma loops_weaken {S R} (body : S -> outcome (loop_step S R)) k k' s (Q Q' : R -> Prop) :
  k <= k' -> (forall r, Q r -> Q' r) -> loops body k s Q -> loops body k' s Q'.
Proof. intros Hk HQ (j & r & Hj & Hr & Hq). exists j, r. split; [lia|]. auto. Qed.

Lemma loops_run {S R} c (body : S -> outcome (loop_step S R)) k s (Q : R -> Prop) :
  valid_config c -> k <= 2 ^ 128 + 2 -> loops body k s Q -> exists r, run_loop c body s = Ret r /\ Q r.
Proof.
  intros Hc Hk (j & r & Hj & Hr & Hq). exists r. split; [|assumption].
  eapply runs_run_loop; [exact Hr|]. apply budget; [assumption|lia].
Qed.
