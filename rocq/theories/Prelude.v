(** * Prelude: tactics and general lemmas for the proofs *)

From Coq Require Import ZArith.
From Coq Require Export Lia ZifyBool ZifyN ZifyNat.
From Verif Require Export Base Utf8.

Ltac Zify.zify_post_hook ::= Z.div_mod_to_equations.

(** Split a boolean test in the goal, keeping what was learnt. *)
Ltac case_if :=
  match goal with
  | |- context [if ?b then _ else _] =>
      let E := fresh "E" in destruct b eqn:E
  end.

(** ** Lists *)

Lemma map_some_inj (a b : list N) : map Some a = map Some b -> a = b.
Proof.
  revert b; induction a as [|x a IH]; intros [|y b]; simpl; intros H; try congruence.
  injection H; intros; f_equal; auto.
Qed.

Lemma all_init_map (bs : list N) : all_init (map Some bs) = Some bs.
Proof. induction bs; simpl; [reflexivity|]. rewrite IHbs; reflexivity. Qed.

Lemma all_init_some cs bs : all_init cs = Some bs -> cs = map Some bs.
Proof.
  revert bs; induction cs as [|[b|] cs IH]; simpl; intros bs H.
  - injection H as <-; reflexivity.
  - destruct (all_init cs); [|discriminate]. injection H as <-. simpl; f_equal; auto.
  - discriminate.
Qed.

Lemma firstn_map_exact {A B} (f : A -> B) (l : list A) n :
  length l = n -> firstn n (map f l) = map f l.
Proof. intros <-. rewrite <- (map_length f l). apply firstn_all. Qed.

Lemma lookup_nth {A} (l : list A) i d : i < N.of_nat (length l) -> lookup l i = Some (nth (N.to_nat i) l d).
Proof.
  intros H. unfold lookup. destruct (N.ltb_spec i (N.of_nat (length l))); [|lia].
  apply nth_error_nth'. lia.
Qed.

Lemma lookup_none {A} (l : list A) i : N.of_nat (length l) <= i -> lookup l i = None.
Proof. intros H. unfold lookup. destruct (N.ltb_spec i (N.of_nat (length l))); [lia|reflexivity]. Qed.

(** ** Loops *)

(** [runs body k s r]: from state [s] the loop breaks with [r] in its [k]-th
    turn. *)
Inductive runs {S R} (body : S -> outcome (loop_step S R)) : N -> S -> R -> Prop :=
| runs_break s r : body s = Ret (Break r) -> runs body 1 s r
| runs_step s s' k r :
    body s = Ret (Continue s') -> runs body k s' r -> runs body (k + 1) s r.

Lemma runs_pos {S R} (body : S -> outcome (loop_step S R)) k s r : runs body k s r -> 1 <= k.
Proof. induction 1; lia. Qed.

Lemma runs_iterate {S R} (body : S -> outcome (loop_step S R)) d :
  forall k s r, runs body k s r ->
    (k <= 2 ^ N.of_nat d -> iterate d body s = Ret (Break r)) /\
    (2 ^ N.of_nat d < k ->
       exists s', iterate d body s = Ret (Continue s') /\ runs body (k - 2 ^ N.of_nat d) s' r).
Proof.
  induction d as [|d IH]; intros k s r H.
  - change (2 ^ N.of_nat 0) with 1. cbn [iterate]. split; intros Hk.
    + inversion H as [|? s1 k1 ? Hb Hr]; subst; [assumption|].
      pose proof (runs_pos _ _ _ _ Hr). lia.
    + inversion H as [|? s1 k1 ? Hb Hr]; subst; [lia|]. exists s1. split; [assumption|].
      replace (k1 + 1 - 1) with k1 by lia. assumption.
  - rewrite Nat2N.inj_succ, N.pow_succ_r'. cbn [iterate].
    destruct (IH _ _ _ H) as [IH1 IH2].
    destruct (N.le_gt_cases k (2 ^ N.of_nat d)) as [Hk|Hk].
    + rewrite (IH1 Hk). cbn [obind]. split; [reflexivity|lia].
    + destruct (IH2 Hk) as (s' & E & H'). rewrite E. cbn [obind].
      destruct (IH _ _ _ H') as [IH3 IH4]. split; intros Hk'.
      * apply IH3. lia.
      * destruct IH4 as (s'' & E' & H''); [lia|]. exists s''. split; [assumption|].
        replace (k - 2 * 2 ^ N.of_nat d) with (k - 2 ^ N.of_nat d - 2 ^ N.of_nat d) by lia.
        assumption.
Qed.

Lemma runs_run_loop {S R} c (body : S -> outcome (loop_step S R)) k s r :
  runs body k s r -> k <= 2 ^ N.of_nat (loop_depth c) -> run_loop c body s = Ret r.
Proof.
  intros H Hk. unfold run_loop. destruct (runs_iterate body (loop_depth c) _ _ _ H) as [H1 _].
  rewrite (H1 Hk). reflexivity.
Qed.

(** A loop that always goes on exhausts every budget. *)
Lemma never_breaks {S R} (body : S -> outcome (loop_step S R)) (I : S -> Prop) d s :
  (forall s, I s -> exists s', body s = Ret (Continue s') /\ I s') -> I s ->
  exists s', iterate d body s = Ret (Continue s') /\ I s'.
Proof.
  intros Hstep. revert s; induction d as [|d IH]; intros s Hs; simpl; [auto|].
  destruct (IH s Hs) as (s1 & E & H1). rewrite E. simpl. auto.
Qed.

(** A valid configuration's loop budget covers more than [2^128 + 2] turns. *)
Lemma budget c k : valid_config c -> k <= 2 ^ 128 + 2 -> k <= 2 ^ N.of_nat (loop_depth c).
Proof.
  intros [_ H] Hk. transitivity (2 ^ 130).
  - transitivity (2 ^ 128 + 2); [assumption|]. vm_compute; discriminate.
  - apply N.pow_le_mono_r; lia.
Qed.

(** ** Integer types *)

Lemma fits_128 c T n : valid_config c -> fits c T n -> n < 2 ^ 128.
Proof.
  intros [Hu _] H. unfold fits in H.
  eapply N.lt_le_trans; [exact H|]. apply N.pow_le_mono_r; [lia|].
  destruct T; simpl; lia.
Qed.

Lemma bits_ge_8 c T : valid_config c -> 8 <= bits c T.
Proof. intros [Hu _]. destruct T; simpl; lia. Qed.

Lemma fits_small c T n : valid_config c -> n < 256 -> fits c T n.
Proof.
  intros Hc H. unfold fits. eapply N.lt_le_trans; [exact H|].
  change 256 with (2 ^ 8). apply N.pow_le_mono_r; [lia|]. apply bits_ge_8, Hc.
Qed.

Lemma fits_le c T n m : fits c T n -> m <= n -> fits c T m.
Proof. unfold fits; lia. Qed.

Lemma try_from_fits c T n : fits c T n -> try_from c T n = Some n.
Proof. unfold fits, try_from; intros H. destruct (N.ltb_spec n (2 ^ bits c T)); [reflexivity|lia]. Qed.

Lemma try_from_not c T n : ~ fits c T n -> try_from c T n = None.
Proof. unfold fits, try_from; intros H. destruct (N.ltb_spec n (2 ^ bits c T)); [lia|reflexivity]. Qed.

Lemma try_from_some c T n m : try_from c T n = Some m -> m = n /\ fits c T n.
Proof.
  unfold try_from, fits. destruct (N.ltb_spec n (2 ^ bits c T)); [|discriminate].
  intros E; injection E as <-; auto.
Qed.

Lemma usize_bits_ge c : valid_config c -> 16 <= usize_bits c.
Proof. intros [Hu _]; lia. Qed.

Lemma as_usize_small c n : n < 2 ^ usize_bits c -> as_usize c n = n.
Proof. intros; unfold as_usize. apply N.mod_small; assumption. Qed.

Lemma as_usize_16 c n : valid_config c -> n < 65536 -> as_usize c n = n.
Proof.
  intros Hc H. apply as_usize_small. eapply N.lt_le_trans; [exact H|].
  change 65536 with (2 ^ 16). apply N.pow_le_mono_r; [lia|]. apply usize_bits_ge, Hc.
Qed.

Lemma usub_le c w a b : b <= a -> usub c w a b = Ret (a - b).
Proof. intros; unfold usub. destruct (N.leb_spec b a); [reflexivity|lia]. Qed.

Lemma offset_sub_le a b : b <= a -> offset_sub a b = Ret (a - b).
Proof. intros; unfold offset_sub. destruct (N.leb_spec b a); [reflexivity|lia]. Qed.

Lemma udiv_nz a b : b <> 0 -> udiv a b = Ret (a / b).
Proof. intros; unfold udiv. destruct (N.eqb_spec b 0); [contradiction|reflexivity]. Qed.

Lemma urem_nz a b : b <> 0 -> urem a b = Ret (a mod b).
Proof. intros; unfold urem. destruct (N.eqb_spec b 0); [contradiction|reflexivity]. Qed.
