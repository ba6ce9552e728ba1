(** * PropertiesHashing: C110, [OneBased] as a key *)

From Coq Require Import String.
From Verif Require Import Prelude Cases PropertiesBuild Digital Hashing.

(** What the documentation of [Eq] and [Hash] asks for. *)
Definition equivalence {V} (k : keyed V) : Prop :=
  (forall v, eq_of k v v = true) /\ (forall v w, eq_of k v w = true -> eq_of k w v = true) /\
  (forall u v w, eq_of k u v = true -> eq_of k v w = true -> eq_of k u w = true).

Definition hashes_agree {V} (k : keyed V) : Prop :=
  forall H (write : H -> list N -> H) h v w, eq_of k v w = true -> feed write h (hash_of k v) = feed write h (hash_of k w).

Theorem C110_lawful : forall V (k : keyed V),
  (equivalence k -> equivalence (derive_one_based k)) /\ (hashes_agree k -> hashes_agree (derive_one_based k)) /\
  equivalence derive_unit /\ hashes_agree derive_unit.
Proof.
  intros V k. split; [|split; [|split]].
  - intros (H1 & H2 & H3). split; [intros [v]; apply H1|]. split; [intros [v] [w]; apply H2|]. intros [u] [v] [w]. apply H3.
  - intros H X write h [v] [w]. apply H.
  - repeat split.
  - intros X write h [] [] _. reflexivity.
Qed.
Print Assumptions C110_lawful.

(** A wrapped value is hashed as the value in it, and no values but equal ones
    are equal; wrapping can be undone. *)
Theorem C110_transparent : forall V (k : keyed V) v w H (write : H -> list N -> H) h,
  feed write h (hash_of (derive_one_based k) (OneBasedOf v)) = feed write h (hash_of k v) /\
  eq_of (derive_one_based k) (OneBasedOf v) (OneBasedOf w) = eq_of k v w.
Proof. split; reflexivity. Qed.
Print Assumptions C110_transparent.

(** The built-in collections leave a hasher as it is, wrapped or not. *)
Theorem C110_units : forall H (write : H -> list N -> H) h u,
  feed write h (hash_of derive_unit u) = h /\ feed write h (hash_of (derive_one_based derive_unit) (OneBasedOf u)) = h /\
  feed write h (hash_of (derive_one_based (derive_one_based derive_unit)) (OneBasedOf (OneBasedOf u))) = h.
Proof. repeat split. Qed.
Print Assumptions C110_units.

(** ** Equal collections format alike *)

(** Two collections whose methods answer alike, and so do their fallbacks. *)
CoInductive same_answers : digit_collection -> digit_collection -> Prop :=
| answers fixed has_zero zero_based len digit digit' fallback fallback' :
    (forall i, digit i = digit' i) -> same_answers fallback fallback' ->
    same_answers (DC fixed has_zero zero_based len digit fallback) (DC fixed has_zero zero_based len digit' fallback').

Theorem C110_answers_decide : forall c T d e n, same_answers d e -> try_format_digits c T d n = try_format_digits c T e n.
Proof.
  intros c T d e n. unfold try_format_digits. generalize (loop_depth c) at 1 2 as depth. intros depth. revert d e.
  induction depth as [|depth IH]; intros d e H; [reflexivity|]. destruct H as [fixed has_zero zero_based len digit digit' fallback fallback' Hd Hf].
  cbn [format_digits dc_len dc_digit dc_fixed dc_zero_based dc_fallback].
  destruct len as [len| | |]; cbn [obind]; try reflexivity. destruct (try_from c T len) as [count|]; [|rewrite Hd; reflexivity].
  match goal with |- (if ?b then _ else _) = _ => destruct b end.
  - rewrite (IH _ _ Hf). destruct Hf. reflexivity.
  - apply run_loop_same; [reflexivity|]. intros st. unfold digit_loop_body. cbn [dc_len dc_digit dc_has_zero_digit dc_zero_based]. match goal with |- (if ?b then _ else _) = _ => destruct b end; [|reflexivity]. match goal with |- (if ?b then _ else _) = _ => destruct b end; [reflexivity|].
    apply obind_same; [reflexivity|]. intros m. apply obind_same; [reflexivity|]. intros r. rewrite Hd. reflexivity.
Qed.
Print Assumptions C110_answers_decide.

(** Where equal values of a user's type answer alike, so do wrapped ones, and
    all numbers are formatted alike. *)
Theorem C110_equal_alike : forall V (k : keyed V) methods, (forall v w, eq_of k v w = true -> same_answers (methods v) (methods w)) ->
  forall v w, eq_of (derive_one_based k) v w = true ->
  same_answers (wrapped_collection methods v) (wrapped_collection methods w) /\
  forall c T n, try_format_digits c T (wrapped_collection methods v) n = try_format_digits c T (wrapped_collection methods w) n.
Proof.
  intros V k methods H [v] [w] E. assert (same_answers (wrapped_collection methods (OneBasedOf v)) (wrapped_collection methods (OneBasedOf w))) as Hs.
  { cbn in E |- *. destruct (H v w E) as [fixed has_zero zero_based len digit digit' fallback fallback' Hd Hf]. unfold one_based. cbn. constructor; assumption. }
  split; [exact Hs|]. intros c T n. apply C110_answers_decide, Hs.
Qed.
Print Assumptions C110_equal_alike.

(** A user's type: an alphabet and a number that is not compared. *)
Definition labelled : keyed (list N * N) :=
  {| eq_of := fun '(a, _) '(b, _) => if list_eq_dec N.eq_dec a b then true else false; hash_of := fun '(a, _) => [a; [255]] |}.

Example C110_case :
  equivalence (derive_one_based labelled) /\ hashes_agree (derive_one_based labelled) /\
  eq_of (derive_one_based labelled) (OneBasedOf (chars "ab"%string, 1)) (OneBasedOf (chars "ab"%string, 2)) = true /\
  eq_of (derive_one_based labelled) (OneBasedOf (chars "ab"%string, 1)) (OneBasedOf (chars "ba"%string, 1)) = false /\
  feed (fun h bs => fold_left (fun h b => h * 31 + b) bs h) 7 (hash_of (derive_one_based labelled) (OneBasedOf (chars "ab"%string, 1))) = 305047 /\
  (forall v w, eq_of labelled v w = true -> same_answers (digit_set_zeroless (fst v)) (digit_set_zeroless (fst w))) /\
  try_format_digits no_heap U8 (wrapped_collection (fun v => digit_set_zeroless (fst v)) (OneBasedOf (chars "ab"%string, 1))) 5 <>
  try_format_digits no_heap U8 (wrapped_collection (fun v => digit_set_zeroless (fst v)) (OneBasedOf (chars "ba"%string, 1))) 5.
Proof.
  assert (forall d, same_answers d d) as Hrefl by (cofix CIH; intros []; constructor; auto).
  split; [|split; [|split; [|split; [|split; [|split]]]]].
  - split; [|split].
    + intros [[a x]]. cbn. destruct (list_eq_dec N.eq_dec a a); congruence.
    + intros [[a x]] [[b y]]. cbn. destruct (list_eq_dec N.eq_dec a b), (list_eq_dec N.eq_dec b a); congruence.
    + intros [[a x]] [[b y]] [[d z]]. cbn. destruct (list_eq_dec N.eq_dec a b), (list_eq_dec N.eq_dec b d), (list_eq_dec N.eq_dec a d); congruence.
  - intros H write h [[a x]] [[b y]]. cbn [derive_one_based eq_of hash_of labelled]. destruct (list_eq_dec N.eq_dec a b) as [->|]; [reflexivity|discriminate].
  - reflexivity.
  - reflexivity.
  - vm_compute. reflexivity.
  - intros [a x] [b y]. cbn. destruct (list_eq_dec N.eq_dec a b) as [->|]; [intros _; apply Hrefl|discriminate].
  - vm_compute. discriminate.
Qed.

(** What is written is written in order: each call finds the hasher as the
    calls before it left it. *)
Theorem C110_in_order : forall H (write : H -> list N -> H) h call calls,
  feed write h [] = h /\ feed write h (call :: calls) = feed write (write h call) calls /\
  feed write h (calls ++ [call]) = write (feed write h calls) call.
Proof. intros. unfold feed. rewrite fold_left_app. repeat split. Qed.
Print Assumptions C110_in_order.

(** What [OneBased] answers: the digits of the wrapped value, counted from
    one and never fixed. *)
Theorem C110_wrapped : forall V (methods : V -> digit_collection) v, let d := methods v in let w := wrapped_collection methods (OneBasedOf v) in
  dc_len w = dc_len d /\ (forall i, dc_digit w i = dc_digit d i) /\ dc_zero_based w = false /\
  dc_has_zero_digit w = dc_has_zero_digit d /\ dc_fixed w = false.
Proof. intros V methods v d w. subst d w. unfold wrapped_collection, one_based. destruct (methods v). repeat split. Qed.
Print Assumptions C110_wrapped.
