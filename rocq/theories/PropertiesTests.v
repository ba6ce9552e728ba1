(** * PropertiesTests: the crate's tests pass on every target (C91) *)

From Coq Require Import String.
From Verif Require Import Prelude Utf8Facts StringFacts NominalString Spec History PropertiesString Outcome DigitFacts DigitOrder DigitSets PropertiesDigital
  Additive AdditiveSets Ethiopic Hebrew Chinese System Cases PropertiesSystem PropertiesCaller PropertiesDocumentation TestSuite.

Lemma transferred c T sys n : In sys builtin_systems -> valid_config c -> fits c T n -> n < 2 ^ 128 ->
  match seen (sys on_heap U128 n) with
  | Ret (Ok text) =>
      (has_alloc c || at_most_62 text = true -> exists s, sys c T n = Ret (Ok s) /\ as_str s = Ret text) /\
      (has_alloc c || at_most_62 text = false -> sys c T n = Ret (Err (OutOfMemory n)))
  | Ret (Err e) => sys c T n = Ret (Err e)
  | _ => False
  end.
Proof.
  intros Hin Hc Hf Hn. destruct (builtin_consistent sys Hin n) as (m & Hm).
  pose proof (Hm on_heap U128 on_heap_valid Hn) as H. specialize (Hm c T Hc Hf).
  destruct m as [cs| |]; cbn [means] in H, Hm.
  - destruct H as (s & E & Es & _). rewrite E. cbn [seen obind]. rewrite Es. cbn [obind]. unfold prints in Hm.
    split; intros Hs; rewrite Hs in Hm; [|exact Hm]. destruct Hm as (s' & E' & Es' & _). exists s'. auto.
  - destruct H as [_ H]. rewrite H. exact (proj2 Hm).
  - rewrite H. exact Hm.
Qed.

Lemma bytes_eqb_refl t : bytes_eqb t t = true.
Proof. induction t as [|b t IH]; [reflexivity|]. cbn [bytes_eqb]. rewrite N.eqb_refl. exact IH. Qed.

Definition text_is (r : outcome (result (list N) error)) (text : list N) : bool :=
  match r with Ret (Ok t) => bytes_eqb t text | _ => false end.

Lemma nominal_passes c T sys n text : In sys builtin_systems -> valid_config c -> fits c T n ->
  has_alloc c || at_most_62 (bytes text) = true ->
  (n <? 2 ^ 128) && text_is (seen (sys on_heap U128 n)) (bytes text) = true ->
  assert_nominal c T sys n text = Ret tt.
Proof.
  intros Hin Hc Hf Hs H. apply andb_true_iff in H as [Hn H]. apply N.ltb_lt in Hn. pose proof (transferred c T sys n Hin Hc Hf Hn) as Ht.
  destruct (seen (sys on_heap U128 n)) as [[t|]| | |]; try discriminate. cbn [text_is] in H. apply bytes_eqb_true in H. subst t.
  destruct (proj1 Ht Hs) as (s & E & Es). unfold assert_nominal, assert_reads, to_nominal. cbn [default_system format_nominal]. rewrite E.
  cbn [obind unwrap_or_decimal]. unfold eq_str. rewrite Es. cbn [obind]. rewrite bytes_eqb_refl. reflexivity.
Qed.

Lemma fits_bits c T n : (n <? 2 ^ bits on_heap T) = true -> T <> Usize -> fits c T n.
Proof. intros H HT. apply N.ltb_lt in H. unfold fits. destruct T; try exact H. contradiction. Qed.

Ltac passes Hc k :=
  apply nominal_passes; [apply (nth_error_In _ k); reflexivity|exact Hc|apply fits_bits; [reflexivity|discriminate]
    |apply orb_true_iff; first [right; reflexivity|left; assumption]|vm_compute; reflexivity].

Lemma in_turn_all l : Forall (fun r => r = Ret tt) l -> in_turn l = Ret tt.
Proof. induction 1 as [|r l H _ IH]; [reflexivity|]. cbn [in_turn]. rewrite H. exact IH. Qed.

Lemma shows_passes c T sys n text : always_shows sys (n, text) -> valid_config c -> fits c T n -> assert_nominal c T sys n text = Ret tt.
Proof.
  intros H Hc Hf. destruct (H c T Hc Hf) as (s & E & Es). unfold assert_nominal, assert_reads. rewrite E. cbn [obind]. unfold eq_str.
  rewrite Es. cbn [obind]. rewrite bytes_eqb_refl. reflexivity.
Qed.

Lemma no_zero_passes c T sys : In sys builtin_systems -> valid_config c -> seen (sys on_heap U128 0) = Ret (Err NoZeroSymbol) ->
  assert_no_zero (sys c T 0) = Ret tt.
Proof.
  intros Hin Hc E. pose proof (transferred c T sys 0 Hin Hc (fits_small c T 0 Hc eq_refl) eq_refl) as H. rewrite E in H. rewrite H. reflexivity.
Qed.

Lemma roman_passes c : valid_config c -> test_roman c = Ret tt.
Proof.
  intros Hc. apply in_turn_all. do 6 (apply Forall_cons; [passes Hc 70%nat|]). do 8 (apply Forall_cons; [passes Hc 71%nat|]). apply Forall_nil.
Qed.

Lemma ethiopic_passes c : valid_config c -> test_ethiopic c = Ret tt.
Proof. intros Hc. apply in_turn_all. do 5 (apply Forall_cons; [passes Hc 82%nat|]). apply Forall_nil. Qed.

Lemma hebrew_passes c : valid_config c -> test_hebrew c = Ret tt.
Proof.
  intros Hc. apply in_turn_all. do 4 (apply Forall_cons; [passes Hc 83%nat|]). apply Forall_cons; [|apply Forall_nil].
  apply (no_zero_passes c U32 Hebrew); [apply (nth_error_In _ 83%nat); reflexivity|exact Hc|vm_compute; reflexivity].
Qed.

Lemma hex_passes c : valid_config c -> test_hex c = Ret tt.
Proof. intros Hc. apply in_turn_all. apply Forall_cons; [passes Hc 66%nat|]. apply Forall_cons; [passes Hc 67%nat|apply Forall_nil]. Qed.

Lemma digits_pass c : valid_config c -> test_basic_digits c = Ret tt.
Proof.
  intros Hc. apply in_turn_all. do 3 (apply Forall_cons; [passes Hc 0%nat|]). apply Forall_cons; [passes Hc 22%nat|].
  apply Forall_cons; [passes Hc 21%nat|]. apply Forall_cons.
  { apply (no_zero_passes c U8 (fun c T => try_format_digits c T (one_based LetterLower))); [apply (nth_error_In _ 55%nat); reflexivity|exact Hc|vm_compute; reflexivity]. }
  apply Forall_cons; [passes Hc 55%nat|]. do 2 (apply Forall_cons; [passes Hc 54%nat|]). apply Forall_nil.
Qed.

Lemma basics_pass c : valid_config c -> test_runs c = Ret tt.
Proof.
  intros Hc. destruct C87_readme as (_ & _ & Hone & Hzero). apply in_turn_all. apply Forall_cons; [passes Hc 0%nat|].
  do 3 (apply Forall_cons; [passes Hc 22%nat|]). do 3 (apply Forall_cons; [passes Hc 55%nat|]). apply Forall_cons.
  - apply shows_passes; [|exact Hc|apply fits_small; [exact Hc|reflexivity]]. rewrite Forall_forall in Hone. apply Hone. do 3 right. left. reflexivity.
  - apply Forall_cons; [|apply Forall_nil]. rewrite (Hzero c U32 Hc). reflexivity.
Qed.

Lemma boxed_default c T (sys : system) n text : assert_nominal c T sys n text = Ret tt ->
  assert_reads (to_nominal n (boxed c T (default_system c T (sys c T)))) (bytes text) = Ret tt.
Proof. intros H. exact H. Qed.

Lemma boxing_passes c : valid_config c -> test_boxing c = Ret tt.
Proof.
  intros Hc. apply in_turn_all, Forall_forall. intros r Hr. apply repeat_spec in Hr. rewrite Hr. apply (boxed_default c U32 RomanUpper 1 "I").
  passes Hc 70%nat.
Qed.

Lemma long_passes c : valid_config c -> has_alloc c = true -> test_long_test c = Ret tt.
Proof. intros Hc Ha. unfold test_long_test. passes Hc 71%nat. Qed.

Lemma ops_pass c : has_alloc c = true -> test_forward_ops c = Ret tt /\ test_reverse_ops c = Ret tt.
Proof. intros Ha. destruct c as [a o u l]. cbn in Ha. subst a. split; vm_compute; reflexivity. Qed.

Lemma nominal_fails c T sys n text : In sys builtin_systems -> valid_config c -> fits c T n ->
  has_alloc c || at_most_62 (bytes text) = false ->
  (n <? 2 ^ 128) && text_is (seen (sys on_heap U128 n)) (bytes text) = true ->
  assert_nominal c T sys n text = Panic.
Proof.
  intros Hin Hc Hf Hs H. apply andb_true_iff in H as [Hn H]. apply N.ltb_lt in Hn. pose proof (transferred c T sys n Hin Hc Hf Hn) as Ht.
  destruct (seen (sys on_heap U128 n)) as [[t|]| | |]; try discriminate. cbn [text_is] in H. apply bytes_eqb_true in H. subst t.
  apply proj2 in Ht. specialize (Ht Hs). unfold assert_nominal, assert_reads, to_nominal. cbn [default_system format_nominal]. rewrite Ht. cbn [obind].
  destruct (proj2 (C47_unwrap_or_decimal c T n Hc Hf) (OutOfMemory n)) as (s & cs & E & Hd & Es); [auto|]. rewrite E. cbn [obind].
  unfold eq_str. rewrite Es. cbn [obind]. destruct (bytes_eqb (utf8 cs) (bytes text)) eqn:Eb; [|reflexivity].
  apply bytes_eqb_true in Eb. pose proof (decimal_short n cs Hn Hd) as H62. rewrite Eb in H62. rewrite H62, orb_true_r in Hs. discriminate.
Qed.

Lemma in_turn_iff l : in_turn l = Ret tt <-> Forall (fun r => r = Ret tt) l.
Proof.
  split; [|apply in_turn_all]. induction l as [|r l IH]; [constructor|]. cbn [in_turn]. intros H.
  destruct r as [[]| | |]; try discriminate. constructor; [reflexivity|apply IH, H].
Qed.

(** What the loop wants to hear about a case. *)
Definition wanted (r : outcome (result (list N) error)) (case : N) (expected : list N) : option (option (list N)) :=
  match r with
  | Ret (Ok t) => if bytes_eqb t expected then Some (Some t) else None
  | Ret (Err (OutOfBounds n)) => if n =? case then Some None else None
  | _ => None
  end.

Lemma turn_iff c sys reference case expected answer : In sys builtin_systems -> valid_config c -> has_alloc c = true -> case < 2 ^ 128 ->
  wanted (seen (sys on_heap U128 case)) case expected = Some answer ->
  (turn (default_system c U128 (sys c U128)) reference (case, expected) = Ret tt <-> reference case = answer).
Proof.
  intros Hin Hc Ha Hn Hw. pose proof (transferred c U128 sys case Hin Hc Hn Hn) as Ht. unfold turn, try_to_nominal. cbn [default_system try_format_nominal].
  destruct (seen (sys on_heap U128 case)) as [[t|[| |n]]| | |]; try discriminate; cbn [wanted] in Hw.
  - destruct (bytes_eqb t expected) eqn:Eb; [|discriminate]. injection Hw as <-. apply bytes_eqb_true in Eb. subst t.
    rewrite Ha in Ht. destruct (proj1 Ht eq_refl) as (s & -> & Es). cbn [obind].
    destruct (reference case) as [text|]; [|split; discriminate]. unfold assert_reads, eq_str. cbn [obind]. rewrite Es. cbn [obind].
    destruct (bytes_eqb expected text) eqn:Eb; cbn [assert obind].
    + apply bytes_eqb_true in Eb. subst text. split; reflexivity.
    + split; [discriminate|]. intros E. injection E as ->. rewrite bytes_eqb_refl in Eb. discriminate.
  - destruct (n =? case) eqn:En; [|discriminate]. injection Hw as <-. rewrite Ht. cbn [obind].
    destruct (reference case) as [text|]; [split; discriminate|]. rewrite En. split; reflexivity.
Qed.

(** ** C91 *)

(** Which tests need the heap. *)
Definition heap_tests : list (config -> run) := [test_long_test; test_forward_ops; test_reverse_ops].

Definition passes_in (c : config) (test : config -> run) : Prop := test c = Ret tt.

(** With the feature alloc every test of the crate that does not ask
    chinese_number passes, on every target and with overflow checks on or
    off. *)
Theorem C91_own_tests : forall c, valid_config c -> has_alloc c = true -> Forall (passes_in c) own_tests.
Proof.
  intros c Hc Ha. destruct (ops_pass c Ha) as [Hf Hr]. unfold own_tests.
  apply Forall_cons; [exact (roman_passes c Hc)|]. apply Forall_cons; [exact (long_passes c Hc Ha)|].
  apply Forall_cons; [exact (ethiopic_passes c Hc)|]. apply Forall_cons; [exact (hebrew_passes c Hc)|].
  apply Forall_cons; [exact (hex_passes c Hc)|]. apply Forall_cons; [exact (digits_pass c Hc)|].
  apply Forall_cons; [exact (basics_pass c Hc)|]. apply Forall_cons; [exact (boxing_passes c Hc)|].
  apply Forall_cons; [reflexivity|]. apply Forall_cons; [exact Hf|]. apply Forall_cons; [exact Hr|]. apply Forall_nil.
Qed.
Print Assumptions C91_own_tests.

(** Without it the assertions of exactly three would fail. *)
Theorem C91_needs_heap : forall c, valid_config c -> has_alloc c = false ->
  Forall (fun test => test c = Panic) heap_tests /\
  Forall (fun test => In test heap_tests \/ passes_in c test) own_tests.
Proof.
  intros c Hc Ha.
  assert (test_long_test c = Panic) as Hl.
  { unfold test_long_test. apply nominal_fails; [apply (nth_error_In _ 71%nat); reflexivity|exact Hc|apply fits_bits; [reflexivity|discriminate]
      |rewrite Ha; reflexivity|vm_compute; reflexivity]. }
  assert (test_forward_ops c = Panic /\ test_reverse_ops c = Panic) as [Hf Hr].
  { destruct c as [a o u l]. cbn in Ha. subst a. split; vm_compute; reflexivity. }
  split; [apply Forall_cons; [exact Hl|]; apply Forall_cons; [exact Hf|]; apply Forall_cons; [exact Hr|apply Forall_nil]|].
  unfold own_tests.
  apply Forall_cons; [right; exact (roman_passes c Hc)|]. apply Forall_cons; [left; left; reflexivity|].
  apply Forall_cons; [right; exact (ethiopic_passes c Hc)|]. apply Forall_cons; [right; exact (hebrew_passes c Hc)|].
  apply Forall_cons; [right; exact (hex_passes c Hc)|]. apply Forall_cons; [right; exact (digits_pass c Hc)|].
  apply Forall_cons; [right; exact (basics_pass c Hc)|]. apply Forall_cons; [right; exact (boxing_passes c Hc)|].
  apply Forall_cons; [right; reflexivity|]. apply Forall_cons; [left; right; left; reflexivity|]. apply Forall_cons; [left; right; right; left; reflexivity|]. apply Forall_nil.
Qed.
Print Assumptions C91_needs_heap.

(** The right answers: the texts expected by the test; on the short scale an
    error from 10^15 on (C40). *)
Definition right_answers (short : bool) (expected : list string) (reference : N -> option (list N)) : Prop :=
  forall i case text, nth_error cases i = Some case -> nth_error expected i = Some text ->
  reference case = if short && (10 ^ 15 <=? case) then None else Some (bytes text).

Definition right_answer (short : bool) (case : N) (text : string) : option (list N) :=
  if short && (10 ^ 15 <=? case) then None else Some (bytes text).

Definition answers_match (a : option (option (list N))) (b : option (list N)) : bool :=
  match a, b with
  | Some (Some x), Some y => bytes_eqb x y
  | Some None, None => true
  | _, _ => false
  end.

Definition all_wanted (sys : system) (short : bool) (expected : list string) : bool :=
  (length expected =? length cases)%nat &&
  forallb (fun '(case, text) => (case <? 2 ^ 128) &&
    answers_match (wanted (seen (sys on_heap U128 case)) case (bytes text)) (right_answer short case text)) (combine cases expected).

Lemma chinese_iff c reference sys expected short : valid_config c -> has_alloc c = true -> In sys builtin_systems ->
  all_wanted sys short expected = true ->
  (test_chinese c (sys, expected) reference = Ret tt <-> right_answers short expected reference).
Proof.
  intros Hc Ha Hin H. unfold all_wanted in H. apply andb_true_iff in H as [Hlen H]. unfold test_chinese, test_formatting. rewrite Hlen. cbn [assert obind].
  rewrite in_turn_iff, Forall_map. apply Nat.eqb_eq in Hlen. unfold right_answers. fold (right_answer short).
  assert (forall l, forallb (fun '(case, text) => (case <? 2 ^ 128) &&
      answers_match (wanted (seen (sys on_heap U128 case)) case (bytes text)) (right_answer short case text)) (combine l expected) = true ->
    length expected = length l ->
    (Forall (fun x => turn (default_system c U128 (sys c U128)) reference x = Ret tt) (combine l (map bytes expected)) <->
     forall i case text, nth_error l i = Some case -> nth_error expected i = Some text -> reference case = right_answer short case text)) as Hl.
  { clear H Hlen. induction expected as [|text expected IH]; intros [|case l] H Hlen; try discriminate.
    - split; [|constructor]. intros _ [|i] case text E; discriminate.
    - cbn [combine forallb] in H. apply andb_true_iff in H as [H1 H]. apply andb_true_iff in H1 as [Hn H1]. apply N.ltb_lt in Hn.
      injection Hlen as Hlen. specialize (IH l H Hlen). cbn [map combine].
      assert (turn (default_system c U128 (sys c U128)) reference (case, bytes text) = Ret tt <-> reference case = right_answer short case text) as Ht.
      { destruct (wanted (seen (sys on_heap U128 case)) case (bytes text)) as [answer|] eqn:Ew; [|discriminate].
        rewrite (turn_iff c sys reference case (bytes text) answer Hin Hc Ha Hn Ew). cbn [answers_match] in H1.
        destruct answer as [x|], (right_answer short case text) as [y|]; try discriminate; [|reflexivity].
        apply bytes_eqb_true in H1. subst y. reflexivity. }
      split.
      + intros Hf. inversion Hf as [|? ? Hx Hr]; subst. intros [|i] case' text' E E'; cbn [nth_error] in E, E'.
        * injection E as <-. injection E' as <-. apply Ht, Hx.
        * exact (proj1 IH Hr i case' text' E E').
      + intros Hall. constructor; [apply Ht, (Hall 0%nat); reflexivity|]. apply IH. intros i case' text' E E'. exact (Hall (S i) case' text' E E'). }
  exact (Hl cases H Hlen).
Qed.

(** The seven tests against chinese_number pass exactly when that crate gives
    the right answers. *)
Theorem C91_chinese : forall c reference, valid_config c -> has_alloc c = true ->
  Forall2 (fun test short => test_chinese c test reference = Ret tt <-> right_answers short (snd test) reference)
    chinese_tests [false; true; false; false; false; false; false].
Proof.
  intros c reference Hc Ha. unfold chinese_tests.
  apply Forall2_cons; [apply chinese_iff; [exact Hc|exact Ha|apply (nth_error_In _ 109%nat); reflexivity|vm_compute; reflexivity]|].
  apply Forall2_cons; [apply chinese_iff; [exact Hc|exact Ha|apply (nth_error_In _ 108%nat); reflexivity|vm_compute; reflexivity]|].
  apply Forall2_cons; [apply chinese_iff; [exact Hc|exact Ha|apply (nth_error_In _ 111%nat); reflexivity|vm_compute; reflexivity]|].
  apply Forall2_cons; [apply chinese_iff; [exact Hc|exact Ha|apply (nth_error_In _ 110%nat); reflexivity|vm_compute; reflexivity]|].
  apply Forall2_cons; [apply chinese_iff; [exact Hc|exact Ha|apply (nth_error_In _ 113%nat); reflexivity|vm_compute; reflexivity]|].
  apply Forall2_cons; [apply chinese_iff; [exact Hc|exact Ha|apply (nth_error_In _ 97%nat); reflexivity|vm_compute; reflexivity]|].
  apply Forall2_cons; [apply chinese_iff; [exact Hc|exact Ha|apply (nth_error_In _ 93%nat); reflexivity|vm_compute; reflexivity]|].
  apply Forall2_nil.
Qed.
Print Assumptions C91_chinese.

(** Right answers exist: the lists contradict themselves nowhere. The tests do
    not pass with any others. *)
Definition look_up (short : bool) (expected : list string) (n : N) : option (list N) :=
  match find (fun p => fst p =? n) (combine cases expected) with
  | Some (case, text) => right_answer short case text
  | None => None
  end.

Example C91_case :
  forallb (fun '((sys, expected), short) =>
    match test_chinese on_heap (sys, expected) (look_up short expected) with Ret tt => true | _ => false end)
    (combine chinese_tests [false; true; false; false; false; false; false]) = true /\
  test_chinese on_heap (SimplifiedChineseInformal default_options, expected_simplified)
    (look_up false expected_traditional) = Panic /\
  test_long_test on_heap = Ret tt /\ test_long_test no_heap = Panic.
Proof. vm_compute. repeat split. Qed.
