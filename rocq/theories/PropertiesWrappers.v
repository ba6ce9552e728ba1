(** * PropertiesWrappers: C78, laws of the wrappers of digit collections *)

From Coq Require Import String.
From Verif Require Import Prelude NominalString Digital PropertiesMethods Cases.

(** Two collections give the same answers to every question a formatter may
    ask: the same flags, the same length, and the same digits below it. *)
Definition agree (c : config) (d e : digit_collection) : Prop :=
  dc_fixed d = dc_fixed e /\ dc_has_zero_digit d = dc_has_zero_digit e /\ dc_zero_based d = dc_zero_based e /\
  exists len, dc_len d = Ret len /\ dc_len e = Ret len /\ len < 2 ^ usize_bits c /\
    forall i, i < len -> dc_digit d i = dc_digit e i.

(** They print every number of every type alike. *)
Definition interchangeable (c : config) (d e : digit_collection) : Prop :=
  forall T n, fits c T n -> try_format_digits c T d n = try_format_digits c T e n.

(** ** Loops with the same turns *)

Lemma iterate_same {S R} (I : S -> Prop) (f g : S -> outcome (loop_step S R)) :
  (forall s, I s -> f s = g s) -> (forall s s', I s -> f s = Ret (Continue s') -> I s') ->
  forall k s, I s -> iterate k f s = iterate k g s /\ forall s', iterate k f s = Ret (Continue s') -> I s'.
Proof.
  intros Hf Hi. induction k as [|k IH]; intros s Hs; cbn [iterate].
  - split; [apply Hf, Hs|]. intros s' E. exact (Hi _ _ Hs E).
  - destruct (IH s Hs) as [E1 H1]. rewrite <- E1. destruct (iterate k f s) as [[s1|r]| | |] eqn:E; cbn [obind].
    + destruct (IH s1 (H1 _ eq_refl)) as [E2 H2]. auto.
    + split; [reflexivity|intros s' X; inversion X].
    + split; [reflexivity|intros s' X; inversion X].
    + split; [reflexivity|intros s' X; inversion X].
    + split; [reflexivity|intros s' X; inversion X].
Qed.

Lemma body_same c T d e nominal st : agree c d e -> dc_len d = Ret (dl_count st) ->
  digit_loop_body c T d nominal st = digit_loop_body c T e nominal st.
Proof.
  intros (_ & Hz & Hb & len & Hd & He & Hlen & Hdigit) Hst. unfold digit_loop_body.
  rewrite <- Hz, <- Hb, Hd, He. rewrite Hd in Hst. injection Hst as <-.
  case_if; [|reflexivity]. case_if; [reflexivity|]. match goal with |- context [if ?b then usub ?x ?y ?z ?w else ?v] => destruct (if b then usub x y z w else v) as [rem| | |] end; cbn [obind]; try reflexivity.
  unfold urem. destruct (N.eqb_spec len 0) as [|Hnz]; cbn [obind]; [reflexivity|].
  pose proof (N.mod_lt rem len Hnz) as Hr. rewrite as_usize_small by lia. rewrite Hdigit by assumption. reflexivity.
Qed.

Lemma body_keeps_count c T d nominal st st' len : dc_len d = Ret len -> dc_len d = Ret (dl_count st) ->
  digit_loop_body c T d nominal st = Ret (Continue st') -> dc_len d = Ret (dl_count st').
Proof.
  intros Hd _. unfold digit_loop_body. rewrite Hd.
  case_if; [|discriminate]. case_if; [discriminate|]. match goal with |- context [if ?b then usub ?x ?y ?z ?w else ?v] => destruct (if b then usub x y z w else v) as [rem| | |] end; cbn [obind]; try discriminate.
  destruct (urem rem (dl_count st)) as [r| | |]; cbn [obind]; try discriminate.
  destruct (dc_digit d _) as [ch| | |]; cbn [obind]; try discriminate.
  destruct (try_push_front c (dl_formatted st) ch) as [[s [u|[]]]| | |]; cbn [obind]; try discriminate.
  destruct (udiv rem (dl_count st)) as [q| | |]; cbn [obind]; try discriminate.
  destruct (try_from c T len) as [count|] eqn:Et; [|discriminate]. intros H; injection H as <-. cbn.
  apply try_from_some in Et. destruct Et as [-> _]. reflexivity.
Qed.

Lemma format_same c T n : fits c T n -> forall depth d e, agree c d e ->
  (dc_fixed d = true -> forall k, agree c (nth_fallback (S k) d) (nth_fallback (S k) e)) ->
  format_digits depth c T d n = format_digits depth c T e n.
Proof.
  intros Hn. induction depth as [|depth IH]; intros d e Ha Hf; [reflexivity|]. cbn [format_digits].
  pose proof Ha as (Hfix & Hz & Hb & len & Hd & He & Hlen & Hdigit). rewrite Hd, He. cbn [obind].
  destruct (try_from c T len) as [count|] eqn:E.
  - rewrite <- Hfix, <- Hb. apply try_from_some in E. destruct E as [-> Hfits].
    destruct (dc_fixed d && _) eqn:Ef.
    + apply andb_prop in Ef. destruct Ef as [Ef _]. pose proof (Hf Ef O) as H0. cbn [nth_fallback] in H0.
      pose proof H0 as (_ & _ & _ & len' & Hd' & He' & _). rewrite Hd', He'. cbn [obind].
      case_if; [reflexivity|]. apply IH; [exact H0|]. intros _ k. exact (Hf Ef (S k)).
    + unfold run_loop.
      destruct (iterate_same (fun st => dc_len d = Ret (dl_count st)) (digit_loop_body c T d n) (digit_loop_body c T e n))
        with (k := loop_depth c) (s := {| dl_remaining := n; dl_first_loop := true; dl_count := len; dl_formatted := new_reverse |})
        as [-> _]; [| |exact Hd|reflexivity].
      * intros st Hst. apply body_same; assumption.
      * intros st st' Hst. apply body_keeps_count with (len := len); assumption.
  - assert (n < len).
    { unfold try_from in E. destruct (N.ltb_spec len (2 ^ bits c T)); [discriminate|]. unfold fits in Hn. lia. }
    rewrite as_usize_small by lia. rewrite Hdigit by assumption. reflexivity.
Qed.

(** ** Only the answers matter *)

Theorem C78_only_answers_matter : forall c d e, agree c d e ->
  (dc_fixed d = true -> forall k, agree c (nth_fallback (S k) d) (nth_fallback (S k) e)) ->
  interchangeable c d e.
Proof. intros c d e Ha Hf T n Hn. apply format_same; assumption. Qed.
Print Assumptions C78_only_answers_matter.

Lemma not_fixed c d e : dc_fixed d = false -> agree c d e -> interchangeable c d e.
Proof. intros H Ha. apply C78_only_answers_matter; [exact Ha|]. rewrite H. discriminate. Qed.

Ltac agreed len :=
  apply not_fixed; [reflexivity|];
  split; [first [reflexivity|symmetry; assumption]|
  split; [first [reflexivity|assumption]|
  split; [first [reflexivity|assumption]|
  exists len]]].

(** ** Chain *)

Lemma chain_len c a b la lb : dc_len a = Ret la -> dc_len b = Ret lb -> la + lb < 2 ^ usize_bits c ->
  dc_len (chain c a b) = Ret (la + lb).
Proof. intros Ha Hb H. cbn. rewrite Ha, Hb. cbn. unfold uadd. destruct (N.ltb_spec (la + lb) (2 ^ usize_bits c)); [reflexivity|lia]. Qed.

Lemma chain_digit c a b la i : dc_len a = Ret la ->
  dc_digit (chain c a b) i = if la <=? i then dc_digit b (i - la) else dc_digit a i.
Proof. intros Ha. cbn. rewrite Ha. reflexivity. Qed.

(** However three collections are put together, the order counts only. *)
Theorem C78_chain_associative : forall c a b d la lb ld,
  dc_len a = Ret la -> dc_len b = Ret lb -> dc_len d = Ret ld -> la + lb + ld < 2 ^ usize_bits c ->
  interchangeable c (chain c (chain c a b) d) (chain c a (chain c b d)).
Proof.
  intros c a b d la lb ld Ha Hb Hd H. agreed (la + lb + ld).
  assert (dc_len (chain c a b) = Ret (la + lb)) as Hab by (apply chain_len; [assumption..|lia]).
  assert (dc_len (chain c b d) = Ret (lb + ld)) as Hbd by (apply chain_len; [assumption..|lia]).
  split; [apply chain_len; [assumption..|lia]|].
  split; [rewrite <- N.add_assoc; apply chain_len; [assumption..|lia]|].
  split; [lia|]. intros i _.
  rewrite (chain_digit _ _ _ (la + lb) i Hab), (chain_digit _ a (chain c b d) la i Ha), (chain_digit _ a b la i Ha), (chain_digit _ b d lb _ Hb).
  destruct (N.leb_spec (la + lb) i), (N.leb_spec la i); try lia; try reflexivity.
  - destruct (N.leb_spec lb (i - la)); [|lia]. f_equal. lia.
  - destruct (N.leb_spec lb (i - la)); [lia|]. reflexivity.
Qed.
Print Assumptions C78_chain_associative.

(** Chaining an empty collection behind changes nothing; in front, it decides
    how to count, and nothing else. *)
Theorem C78_chain_empty : forall c d empty len,
  dc_fixed d = false -> dc_len d = Ret len -> len < 2 ^ usize_bits c -> dc_len empty = Ret 0 ->
  interchangeable c (chain c d empty) d /\
  (dc_has_zero_digit empty = dc_has_zero_digit d -> dc_zero_based empty = dc_zero_based d ->
   interchangeable c (chain c empty d) d).
Proof.
  intros c d empty len Hf Hd H He. split.
  - agreed len. split; [rewrite <- (N.add_0_r len); apply chain_len; [assumption..|lia]|]. split; [assumption|]. split; [assumption|].
    intros i Hi. rewrite (chain_digit _ _ _ len i Hd). destruct (N.leb_spec len i); [lia|reflexivity].
  - intros Hz Hb. agreed len.
    split; [change len with (0 + len); apply chain_len; [assumption..|lia]|]. split; [assumption|]. split; [assumption|].
    intros i Hi. rewrite (chain_digit _ _ _ 0 i He). destruct (N.leb_spec 0 i); [|lia]. f_equal. lia.
Qed.
Print Assumptions C78_chain_empty.

(** ** Restrict *)

Theorem C78_restrict : forall c d len,
  dc_len d = Ret len -> len < 2 ^ usize_bits c ->
  (forall k m, k < 2 ^ usize_bits c -> interchangeable c (restrict k (restrict m d)) (restrict k d)) /\
  (dc_fixed d = false -> interchangeable c (restrict len d) d).
Proof.
  intros c d len Hd H. split.
  - intros k m Hk. agreed k. repeat split. assumption.
  - intros Hf. agreed len. repeat split; assumption.
Qed.
Print Assumptions C78_restrict.

(** Restricting a chain restricts its second part, or leaves none of it. *)
Theorem C78_restrict_chain : forall c a b la lb k,
  dc_len a = Ret la -> dc_len b = Ret lb -> la + k < 2 ^ usize_bits c ->
  interchangeable c (restrict (la + k) (chain c a b)) (chain c a (restrict k b)) /\
  (forall m, m <= la -> interchangeable c (restrict m (chain c a b)) (restrict m a)).
Proof.
  intros c a b la lb k Ha Hb H. split.
  - agreed (la + k). split; [reflexivity|]. split; [apply chain_len; [assumption|reflexivity|lia]|]. split; [assumption|].
    intros i Hi. rewrite (chain_digit _ _ _ la i Ha). cbn [restrict dc_digit]. rewrite (chain_digit _ a b la i Ha). reflexivity.
  - intros m Hm. agreed m. split; [reflexivity|]. split; [reflexivity|]. split; [lia|].
    intros i Hi. cbn [restrict dc_digit]. rewrite (chain_digit _ _ _ la i Ha). destruct (N.leb_spec la i); [lia|reflexivity].
Qed.
Print Assumptions C78_restrict_chain.

(** ** OneBased *)

Lemma formats_zero c T d n : dc_has_zero_digit d = true -> dc_fixed d = false -> forall depth,
  format_digits depth c T (one_based d) n = format_digits depth c T d n.
Proof.
  intros Hz Hf [|depth]; [reflexivity|]. cbn [format_digits one_based dc_len dc_digit dc_fixed]. rewrite Hf.
  destruct (dc_len d) as [len| | |]; cbn [obind]; try reflexivity.
  destruct (try_from c T len) as [count|]; [|reflexivity]. cbn [andb].
  unfold run_loop.
  destruct (iterate_same (fun _ => True) (digit_loop_body c T (one_based d) n) (digit_loop_body c T d n))
    with (k := loop_depth c) (s := {| dl_remaining := n; dl_first_loop := true; dl_count := count; dl_formatted := new_reverse |})
    as [-> _]; [|auto|exact I|reflexivity].
  intros st _. unfold digit_loop_body. cbn [one_based dc_len dc_digit dc_has_zero_digit dc_zero_based]. rewrite Hz. reflexivity.
Qed.

(** Asking twice is asking once; it does not matter whether one asks before or
    after restricting or chaining; and, as documented, it has no effect on a
    collection with a zero digit (unless that is fixed, C20). *)
Theorem C78_one_based : forall c d len,
  dc_len d = Ret len -> len < 2 ^ usize_bits c ->
  interchangeable c (one_based (one_based d)) (one_based d) /\
  (forall k, k < 2 ^ usize_bits c -> interchangeable c (one_based (restrict k d)) (restrict k (one_based d))) /\
  (forall e len', dc_len e = Ret len' -> len + len' < 2 ^ usize_bits c ->
     interchangeable c (one_based (chain c d e)) (chain c (one_based d) e)) /\
  (dc_fixed d = false -> dc_has_zero_digit d = true -> interchangeable c (one_based d) d).
Proof.
  intros c d len Hd H. split; [|split; [|split]].
  - agreed len. repeat split; assumption.
  - intros k Hk. agreed k. repeat split. assumption.
  - intros e len' He H'. agreed (len + len').
    split; [exact (chain_len c d e len len' Hd He H')|]. split; [apply chain_len; [exact Hd|exact He|exact H']|]. split; [assumption|].
    intros i _. cbn [one_based dc_digit]. rewrite (chain_digit _ _ _ len i Hd), (chain_digit _ (one_based d) _ len i Hd). reflexivity.
  - intros Hf Hz T n _. apply formats_zero; assumption.
Qed.
Print Assumptions C78_one_based.

(** ** Cases *)

Definition vowels := digit_set_zeroless (chars "aeiou").
Definition signs := digit_set_new (chars "+-").
Definition none := digit_set_zeroless [].

Example chain_associative_case :
  interchangeable no_heap (chain no_heap (chain no_heap Decimal vowels) signs) (chain no_heap Decimal (chain no_heap vowels signs)) /\
  map (fun n => seen (try_format_digits no_heap U16 (chain no_heap (chain no_heap Decimal vowels) signs) n)) [9; 14; 15; 16; 17; 300] =
    map (fun s => Ret (Ok (bytes s))) ["9"; "u"; "+"; "-"; "10"; "10e"]%string.
Proof. split; [apply (C78_chain_associative no_heap Decimal vowels signs 10 5 2); reflexivity|vm_compute; reflexivity]. Qed.

(** The empty collection in front has no zero digit, and so the first digit
    stops being one. *)
Example chain_empty_case :
  interchangeable no_heap (chain no_heap signs none) signs /\
  interchangeable no_heap (chain no_heap none vowels) vowels /\
  seen (try_format_digits no_heap U8 signs 2) = Ret (Ok (bytes "-+"%string)) /\
  seen (try_format_digits no_heap U8 (chain no_heap none signs) 2) = Ret (Ok (bytes "++"%string)).
Proof.
  split; [exact (proj1 (C78_chain_empty no_heap signs none 2 eq_refl eq_refl eq_refl eq_refl))|].
  split; [exact (proj2 (C78_chain_empty no_heap vowels none 5 eq_refl eq_refl eq_refl eq_refl) eq_refl eq_refl)|]. split; vm_compute; reflexivity.
Qed.

Example restrict_case :
  interchangeable no_heap (restrict 16 (chain no_heap Decimal LetterUpper)) (chain no_heap Decimal (restrict 6 LetterUpper)) /\
  interchangeable no_heap (restrict 8 (chain no_heap Decimal LetterUpper)) (restrict 8 Decimal) /\
  interchangeable no_heap (restrict 8 (restrict 2 Decimal)) (restrict 8 Decimal) /\
  seen (try_format_digits no_heap U8 (restrict 8 (restrict 2 Decimal)) 63) = Ret (Ok (bytes "77"%string)) /\
  seen (try_format_digits no_heap U8 (chain no_heap Decimal (restrict 6 LetterUpper)) 0xBE) = Ret (Ok (bytes "BE"%string)).
Proof.
  split; [exact (proj1 (C78_restrict_chain no_heap Decimal LetterUpper 10 26 6 eq_refl eq_refl eq_refl))|].
  split; [refine (proj2 (C78_restrict_chain no_heap Decimal LetterUpper 10 26 6 eq_refl eq_refl eq_refl) 8 _); discriminate|].
  split; [exact (proj1 (C78_restrict no_heap Decimal 10 eq_refl eq_refl) 8 2 eq_refl)|]. split; vm_compute; reflexivity.
Qed.

Example one_based_case :
  interchangeable no_heap (one_based (restrict 3 vowels)) (restrict 3 (one_based vowels)) /\
  interchangeable no_heap (one_based (chain no_heap vowels signs)) (chain no_heap (one_based vowels) signs) /\
  interchangeable no_heap (one_based Decimal) Decimal /\
  map (fun n => seen (try_format_digits no_heap U8 (restrict 3 (one_based vowels)) n)) [0; 1; 3; 4] =
    [Ret (Err NoZeroSymbol); Ret (Ok (bytes "a"%string)); Ret (Ok (bytes "i"%string)); Ret (Ok (bytes "aa"%string))].
Proof.
  split; [exact (proj1 (proj2 (C78_one_based no_heap vowels 5 eq_refl eq_refl)) 3 eq_refl)|].
  split; [exact (proj1 (proj2 (proj2 (C78_one_based no_heap vowels 5 eq_refl eq_refl))) signs 2 eq_refl eq_refl)|].
  split; [exact (proj2 (proj2 (proj2 (C78_one_based no_heap Decimal 10 eq_refl eq_refl))) eq_refl eq_refl)|]. vm_compute; reflexivity.
Qed.

(** A fixed collection may be replaced by one that answers differently where
    it is never asked. *)
Definition branches_and_more : digit_collection :=
  DC true false false (Ret 12) (fun i => Ret (nth (N.to_nat i) earthly_branches 0x3F)) CjkDecimal.

Example only_answers_matter_case :
  interchangeable no_heap CjkEarthlyBranch branches_and_more /\
  dc_digit CjkEarthlyBranch 12 = Panic /\ dc_digit branches_and_more 12 = Ret 0x3F.
Proof.
  split; [|split; reflexivity]. apply C78_only_answers_matter.
  - repeat split. exists 12. repeat split. intros i Hi. cbn. rewrite (lookup_nth _ _ 0x3F) by exact Hi. reflexivity.
  - intros _ [|k].
    + repeat split. exists 10. repeat split.
    + change (agree no_heap (nth_fallback k NoFallback) (nth_fallback k NoFallback)).
      destruct (no_fallback_described k) as (_ & _ & _ & Hlen & _). repeat split. exists 0. repeat split; assumption.
Qed.
