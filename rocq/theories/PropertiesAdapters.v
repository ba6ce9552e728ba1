(** * PropertiesAdapters: the text of the digit collections (C113)

    The [impl DigitCollection] blocks of [OneBased], [Chain], [Restrict],
    [DigitSet], [NoFallback], [CjkHeavenlyStem] and [CjkEarthlyBranch] and the
    methods the trait supplies, read by Rust.v and run by RustRun.v, answer as the collections
    of the model do. *)

From Coq Require Import String.
From Verif Require Import Base Utf8 NominalString Digital Cases Rust RustRun AdapterSources.
Local Open Scope N_scope.

(** What a method in a text answers. *)
Definition answer (source : string) (c : config) (T : uint) (depth : nat) (generics : list value)
    (method : name) (args : list value) : outcome value :=
  '(v, _) <- run (parse source) c T depth #"" (Named method) generics args ;; Ret v.

(** The values of [self]. *)
Definition one_based_value (d : digit_collection) : value := VStruct [(#"0", VDigits d)].
Definition chain_value (a b : digit_collection) : value := VStruct [(#"a", VDigits a); (#"b", VDigits b)].
Definition restrict_value (count : N) (d : digit_collection) : value :=
  VStruct [(#"0", VDigits d); (#"1", VInt (Some Usize) count)].
Definition digit_set_value (digits : list N) : value := VStruct [(#"digits", VChars digits)].
(** The constant [N] of [DigitSet<N, _>] is the length of its array. *)
Definition length_value (digits : list N) : value := VInt (Some Usize) (N.of_nat (length digits)).

Definition one_based_program : list func := Eval vm_compute in parse one_based_source.
Definition chain_program : list func := Eval vm_compute in parse chain_source.
Definition restrict_program : list func := Eval vm_compute in parse restrict_source.
Definition zeroless_program : list func := Eval vm_compute in parse zeroless_source.
Definition digit_set_program : list func := Eval vm_compute in parse digit_set_source.
Definition stem_program : list func := Eval vm_compute in parse stem_source.
Definition branch_program : list func := Eval vm_compute in parse branch_source.
Definition no_fallback_program : list func := Eval vm_compute in parse no_fallback_source.
Definition fixed_program : list func := Eval vm_compute in parse fixed_source.
Definition zero_based_program : list func := Eval vm_compute in parse zero_based_source.
Definition is_empty_program : list func := Eval vm_compute in parse is_empty_source.

Lemma one_based_parses : parse one_based_source = one_based_program.
Proof. vm_cast_no_check (eq_refl one_based_program). Qed.
Lemma chain_parses : parse chain_source = chain_program.
Proof. vm_cast_no_check (eq_refl chain_program). Qed.
Lemma restrict_parses : parse restrict_source = restrict_program.
Proof. vm_cast_no_check (eq_refl restrict_program). Qed.
Lemma zeroless_parses : parse zeroless_source = zeroless_program.
Proof. vm_cast_no_check (eq_refl zeroless_program). Qed.
Lemma digit_set_parses : parse digit_set_source = digit_set_program.
Proof. vm_cast_no_check (eq_refl digit_set_program). Qed.
Lemma stem_parses : parse stem_source = stem_program.
Proof. vm_cast_no_check (eq_refl stem_program). Qed.
Lemma branch_parses : parse branch_source = branch_program.
Proof. vm_cast_no_check (eq_refl branch_program). Qed.
Lemma no_fallback_parses : parse no_fallback_source = no_fallback_program.
Proof. vm_cast_no_check (eq_refl no_fallback_program). Qed.
Lemma fixed_parses : parse fixed_source = fixed_program.
Proof. vm_cast_no_check (eq_refl fixed_program). Qed.
Lemma zero_based_parses : parse zero_based_source = zero_based_program.
Proof. vm_cast_no_check (eq_refl zero_based_program). Qed.
Lemma is_empty_parses : parse is_empty_source = is_empty_program.
Proof. vm_cast_no_check (eq_refl is_empty_program). Qed.

(** What a collection of the model answers, as values. *)
Definition len_of (d : digit_collection) : outcome value := n <- dc_len d ;; Ret (VInt (Some Usize) n).
Definition digit_of (d : digit_collection) (i : N) : outcome value := ch <- dc_digit d i ;; Ret (VChar ch).

(** Runs a text, but not the collections and numbers it is about. *)
Ltac go := lazy -[N.leb N.sub N.of_nat uadd usize_bits lookup].

(** src/digital.rs:72-93 *)
Theorem C113_one_based : forall c T k d,
  let ask := answer one_based_source c T (S k) [] in
  let self := one_based_value d in
  ask #"has_zero_digit" [self] = Ret (VBool (dc_has_zero_digit (one_based d))) /\
  ask #"zero_based" [self] = Ret (VBool (dc_zero_based (one_based d))) /\
  ask #"len" [self] = len_of (one_based d) /\
  forall t i, ask #"digit" [self; VInt t i] = digit_of (one_based d) i.
Proof.
  intros c T k [f h z len digit fb]. cbv zeta. unfold answer, len_of, digit_of. rewrite one_based_parses. repeat split.
  - go. destruct len; reflexivity.
  - intros [t|] i; go; destruct (digit i); reflexivity.
Qed.
Print Assumptions C113_one_based.

(** src/digital.rs:444-470 *)
Theorem C113_chain : forall c T k a b,
  let ask := answer chain_source c T (S k) [] in
  let self := chain_value a b in
  ask #"has_zero_digit" [self] = Ret (VBool (dc_has_zero_digit (chain c a b))) /\
  ask #"zero_based" [self] = Ret (VBool (dc_zero_based (chain c a b))) /\
  ask #"len" [self] = len_of (chain c a b) /\
  forall t i, ask #"digit" [self; VInt t i] = digit_of (chain c a b) i.
Proof.
  intros c T k [f h z len digit fb] [f' h' z' len' digit' fb']. cbv zeta. unfold answer, len_of, digit_of.
  rewrite chain_parses. repeat split.
  - destruct len as [la| | |]; [|reflexivity..].
    destruct len' as [lb| | |]; [|reflexivity..]. go.
    destruct (uadd c (usize_bits c) la lb); reflexivity.
  - intros t i. destruct len as [la| | |]; [|reflexivity..].
    destruct t; go; destruct (la <=? i);
      [destruct (digit' (i - la))|destruct (digit i)
      |destruct (digit' (i - la))|destruct (digit i)]; reflexivity.
Qed.
Print Assumptions C113_chain.

(** src/digital.rs:483-504 *)
Theorem C113_restrict : forall c T k count d,
  let ask := answer restrict_source c T (S k) [] in
  let self := restrict_value count d in
  ask #"has_zero_digit" [self] = Ret (VBool (dc_has_zero_digit (restrict count d))) /\
  ask #"zero_based" [self] = Ret (VBool (dc_zero_based (restrict count d))) /\
  ask #"len" [self] = len_of (restrict count d) /\
  forall t i, ask #"digit" [self; VInt t i] = digit_of (restrict count d) i.
Proof.
  intros c T k count [f h z len digit fb]. cbv zeta. unfold answer, len_of, digit_of. rewrite restrict_parses. repeat split.
  intros [t|] i; go; destruct (digit i); reflexivity.
Qed.
Print Assumptions C113_restrict.

(** src/digital.rs:524-538 and :540-554; [zero_based] is not among the methods
    there. *)
Theorem C113_digit_set : forall c T k digits,
  let ask source := answer source c T (S k) [length_value digits] in
  let self := digit_set_value digits in
  (ask zeroless_source #"has_zero_digit" [self] = Ret (VBool (dc_has_zero_digit (digit_set_zeroless digits))) /\
   ask zeroless_source #"len" [self] = len_of (digit_set_zeroless digits) /\
   forall t i, ask zeroless_source #"digit" [self; VInt t i] = digit_of (digit_set_zeroless digits) i) /\
  (ask digit_set_source #"has_zero_digit" [self] = Ret (VBool (dc_has_zero_digit (digit_set_new digits))) /\
   ask digit_set_source #"len" [self] = len_of (digit_set_new digits) /\
   forall t i, ask digit_set_source #"digit" [self; VInt t i] = digit_of (digit_set_new digits) i).
Proof.
  intros c T k digits. cbv zeta. unfold answer, len_of, digit_of. rewrite zeroless_parses, digit_set_parses.
  repeat split; intros [t|] i; go; destruct (lookup digits i); reflexivity.
Qed.
Print Assumptions C113_digit_set.

(** src/digital.rs:189-214 and :223-248. The numbers of [len] are literals. *)
Theorem C113_fixed_sets : forall c T k,
  let ask source := answer source c T (S k) [] in
  (ask stem_source #"fixed" [VUnit] = Ret (VBool (dc_fixed CjkHeavenlyStem)) /\
   ask stem_source #"zero_based" [VUnit] = Ret (VBool (dc_zero_based CjkHeavenlyStem)) /\
   ask stem_source #"has_zero_digit" [VUnit] = Ret (VBool (dc_has_zero_digit CjkHeavenlyStem)) /\
   ask stem_source #"len" [VUnit] = (n <- dc_len CjkHeavenlyStem ;; Ret (VInt None n)) /\
   forall i, ask stem_source #"digit" [VUnit; VInt (Some Usize) i] = digit_of CjkHeavenlyStem i) /\
  (ask branch_source #"fixed" [VUnit] = Ret (VBool (dc_fixed CjkEarthlyBranch)) /\
   ask branch_source #"zero_based" [VUnit] = Ret (VBool (dc_zero_based CjkEarthlyBranch)) /\
   ask branch_source #"has_zero_digit" [VUnit] = Ret (VBool (dc_has_zero_digit CjkEarthlyBranch)) /\
   ask branch_source #"len" [VUnit] = (n <- dc_len CjkEarthlyBranch ;; Ret (VInt None n)) /\
   forall i, ask branch_source #"digit" [VUnit; VInt (Some Usize) i] = digit_of CjkEarthlyBranch i).
Proof.
  intros c T k. cbv zeta. unfold answer, digit_of. rewrite stem_parses, branch_parses.
  repeat split; intros i; go.
  - destruct (lookup _ i); reflexivity.
  - destruct (lookup _ i); reflexivity.
Qed.
Print Assumptions C113_fixed_sets.

(** src/digital.rs:614-628 *)
Theorem C113_no_fallback : forall c T k,
  let ask := answer no_fallback_source c T (S k) [] in
  ask #"has_zero_digit" [VUnit] = Ret (VBool (dc_has_zero_digit NoFallback)) /\
  ask #"len" [VUnit] = (n <- dc_len NoFallback ;; Ret (VInt None n)) /\
  forall i, ask #"digit" [VUnit; VInt (Some Usize) i] = digit_of NoFallback i.
Proof.
  intros c T k. cbv zeta. unfold answer, digit_of. rewrite no_fallback_parses. repeat split.
Qed.
Print Assumptions C113_no_fallback.

(** src/digital.rs:638-640, :647-649 and :655-657: the methods the trait
    supplies, for whatever [self] is; the collections without methods of their
    own have these answers in the model. *)
Theorem C113_defaults : forall c T k self,
  let ask source := answer source c T (S k) [] in
  (forall d count digits d', 
     In d [NoFallback; one_based d'; chain c d' d'; restrict count d'; digit_set_new digits;
           digit_set_zeroless digits; impl_digit_set d'] ->
     ask fixed_source #"fixed" [self] = Ret (VBool (dc_fixed d))) /\
  (forall d digits, In d [NoFallback; digit_set_new digits; digit_set_zeroless digits] ->
     ask zero_based_source #"zero_based" [self] = Ret (VBool (dc_zero_based d))) /\
  (forall d, ask is_empty_source #"is_empty" [VDigits d] = (n <- dc_len d ;; Ret (VBool (n =? 0)))).
Proof.
  intros c T k self. cbv zeta. unfold answer. rewrite fixed_parses, zero_based_parses, is_empty_parses.
  repeat split.
  - intros d count digits d' I. destruct self; cbn [In] in I; intuition (subst; reflexivity).
  - intros d digits I. destruct self; cbn [In] in I; intuition (subst; reflexivity).
  - intros [f h z len digit fb]. destruct len; reflexivity.
Qed.
Print Assumptions C113_defaults.

(** The letter behind ten digits, digits that are not there, and lengths. *)
Example C113_case :
  answer chain_source on_heap U32 1 [] #"digit" [chain_value Decimal LetterLower; VInt None 15] = Ret (VChar 102) /\
  answer chain_source on_heap U32 1 [] #"digit" [chain_value Decimal LetterLower; VInt None 36] = Panic /\
  answer chain_source on_heap U32 1 [] #"len" [chain_value Decimal LetterLower] = Ret (VInt (Some Usize) 36) /\
  answer restrict_source no_heap U8 1 [] #"len" [restrict_value 16 Decimal] = Ret (VInt (Some Usize) 16) /\
  answer one_based_source no_heap U8 1 [] #"zero_based" [one_based_value Decimal] = Ret (VBool false) /\
  answer zeroless_source no_heap U8 1 [length_value [97; 98]] #"digit" [digit_set_value [97; 98]; VInt None 1]
  = Ret (VChar 98) /\
  answer stem_source no_heap U8 1 [] #"digit" [VUnit; VInt (Some Usize) 9] = Ret (VChar 0x7678) /\
  answer branch_source no_heap U8 1 [] #"digit" [VUnit; VInt (Some Usize) 12] = Panic /\
  answer no_fallback_source no_heap U8 1 [] #"digit" [VUnit; VInt (Some Usize) 0] = Panic /\
  answer is_empty_source no_heap U8 1 [] #"is_empty" [VDigits NoFallback] = Ret (VBool true).
Proof. vm_compute. repeat split. Qed.
