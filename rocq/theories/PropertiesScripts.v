(** * PropertiesScripts: C32-C37, enumerated, Ethiopic and Hebrew systems *)

From Coq Require Import String.
From Verif Require Import Prelude Utf8Facts StringFacts History Outcome DigitSets AdditiveSets ScriptFacts
  Enumerated Ethiopic Hebrew Cases.

(** ** C32 *)

(** [symbols] are given by their characters. A Rust array has at most
    [usize::MAX] elements. Symbols too long for a build without alloc are the
    subject of C50. *)
Theorem C32_symbols_from_zero : forall c T symbols n,
  valid_config c -> N.of_nat (length symbols) < 2 ^ usize_bits c ->
  Forall (Forall (fun ch => is_scalar ch = true)) symbols ->
  (forall sym, n < N.of_nat (length symbols) -> nth_error symbols (N.to_nat n) = Some sym ->
     has_alloc c || at_most_62 (utf8 sym) = true ->
     prints c (try_format_enumerated c T (enumerated_new (map utf8 symbols)) n) n sym) /\
  (N.of_nat (length symbols) <= n ->
     try_format_enumerated c T (enumerated_new (map utf8 symbols)) n = Ret (Err (OutOfBounds n))).
Proof.
  intros c T symbols n Hc Hlen Hs. split.
  - intros sym Hn Hsym Hroom. apply yields_prints. apply enumerated_symbol; try assumption; try lia.
    + rewrite N.sub_0_r. assumption.
    + rewrite Forall_forall in Hs. apply Hs. eapply nth_error_In; eassumption.
    + rewrite room_roomy. exact Hroom.
  - intros Hn. apply enumerated_beyond; [assumption|discriminate|lia].
Qed.
Print Assumptions C32_symbols_from_zero.

Theorem C32_symbols_from_one : forall c T symbols n,
  valid_config c -> N.of_nat (length symbols) < 2 ^ usize_bits c ->
  Forall (Forall (fun ch => is_scalar ch = true)) symbols ->
  try_format_enumerated c T (enumerated_zeroless (map utf8 symbols)) 0 = Ret (Err NoZeroSymbol) /\
  (forall sym, 1 <= n <= N.of_nat (length symbols) -> nth_error symbols (N.to_nat (n - 1)) = Some sym ->
     has_alloc c || at_most_62 (utf8 sym) = true ->
     prints c (try_format_enumerated c T (enumerated_zeroless (map utf8 symbols)) n) n sym) /\
  (N.of_nat (length symbols) < n ->
     try_format_enumerated c T (enumerated_zeroless (map utf8 symbols)) n = Ret (Err (OutOfBounds n))).
Proof.
  intros c T symbols n Hc Hlen Hs. split; [|split].
  - unfold try_format_enumerated. rewrite try_from_fits; [reflexivity|]. unfold fits. lia.
  - intros sym Hn Hsym Hroom. apply yields_prints. apply enumerated_symbol; try assumption; try lia.
    + rewrite Forall_forall in Hs. apply Hs. eapply nth_error_In; eassumption.
    + rewrite room_roomy. exact Hroom.
  - intros Hn. apply enumerated_beyond; [assumption|lia|lia].
Qed.
Print Assumptions C32_symbols_from_one.

Definition seasons : list (list N) := map chars ["春"; "Été"; ""]%string.

Example C32_case :
  map (fun n => seen (try_format_enumerated no_heap U128 (enumerated_new (map utf8 seasons)) n)) [1; 2; 3; 65536; 65537] =
    [Ret (Ok (bytes "Été"%string)); Ret (Ok []); Ret (Err (OutOfBounds 3)); Ret (Err (OutOfBounds 65536)); Ret (Err (OutOfBounds 65537))] /\
  map (fun n => seen (try_format_enumerated no_heap U128 (enumerated_zeroless (map utf8 seasons)) n)) [0; 1; 3; 4; 65537] =
    [Ret (Err NoZeroSymbol); Ret (Ok (bytes "春"%string)); Ret (Ok []); Ret (Err (OutOfBounds 4)); Ret (Err (OutOfBounds 65537))].
Proof. split; vm_compute; reflexivity. Qed.

(** ** C33 *)

Theorem C33_circled : forall c T n, valid_config c ->
  (n <= 50 -> prints c (CircledNumber c T n) n [circled n]) /\
  (50 < n -> CircledNumber c T n = Ret (Err (OutOfBounds n))).
Proof.
  intros c T n Hc. pose proof (usize_bits_ge c Hc) as Hu.
  assert (2 ^ 16 <= 2 ^ usize_bits c) as Hpow by (apply N.pow_le_mono_r; lia). change (2 ^ 16) with 65536 in Hpow.
  assert (CircledNumber_symbols = map utf8 (map (fun i => [circled (N.of_nat i)]) (seq 0 51))) as E by (vm_compute; reflexivity).
  unfold CircledNumber. rewrite E.
  destruct (C32_symbols_from_zero c T (map (fun i => [circled (N.of_nat i)]) (seq 0 51)) n Hc) as [H1 H2].
  - rewrite map_length, seq_length. lia.
  - apply Forall_forall. intros x Hx. apply in_map_iff in Hx as (i & <- & Hi). apply in_seq in Hi.
    constructor; [|constructor]. unfold circled, is_scalar. destruct (N.eqb_spec (N.of_nat i) 0); [reflexivity|].
    destruct (N.leb_spec (N.of_nat i) 20); [lia|]. destruct (N.leb_spec (N.of_nat i) 35); lia.
  - rewrite map_length, seq_length in *. split; intros Hn; [|apply H2; lia].
    apply H1; [lia| |].
    + erewrite map_nth_error; [|apply (nth_error_nth' (seq 0 51) 0%nat); rewrite seq_length; lia].
      rewrite seq_nth by lia. cbn [Nat.add]. rewrite N2Nat.id. reflexivity.
    + apply orb_true_intro. right. unfold utf8. cbn [flat_map]. rewrite app_nil_r.
      unfold at_most_62. pose proof (encode_char_length (circled n)). pose proof (len_utf8_bounds (circled n)). lia.
Qed.
Print Assumptions C33_circled.

Theorem C33_double_circled : forall c T n, valid_config c ->
  DoubleCircledNumber c T 0 = Ret (Err NoZeroSymbol) /\
  (1 <= n <= 10 -> prints c (DoubleCircledNumber c T n) n [double_circled n]) /\
  (10 < n -> DoubleCircledNumber c T n = Ret (Err (OutOfBounds n))).
Proof.
  intros c T n Hc. pose proof (usize_bits_ge c Hc) as Hu.
  assert (2 ^ 16 <= 2 ^ usize_bits c) as Hpow by (apply N.pow_le_mono_r; lia). change (2 ^ 16) with 65536 in Hpow.
  assert (DoubleCircledNumber_symbols = map utf8 (map (fun i => [double_circled (N.of_nat i)]) (seq 1 10))) as E by (vm_compute; reflexivity).
  unfold DoubleCircledNumber. rewrite E.
  destruct (C32_symbols_from_one c T (map (fun i => [double_circled (N.of_nat i)]) (seq 1 10)) n Hc) as (H0 & H1 & H2).
  - rewrite map_length, seq_length. lia.
  - apply Forall_forall. intros x Hx. apply in_map_iff in Hx as (i & <- & Hi). apply in_seq in Hi.
    constructor; [|constructor]. unfold double_circled, is_scalar. lia.
  - rewrite map_length, seq_length in *. split; [exact H0|]. split; intros Hn; [|apply H2; lia].
    apply H1; [lia| |].
    + erewrite map_nth_error; [|apply (nth_error_nth' (seq 1 10) 0%nat); rewrite seq_length; lia].
      rewrite seq_nth by lia. do 3 f_equal. lia.
    + apply orb_true_intro. right. unfold utf8. cbn [flat_map]. rewrite app_nil_r.
      unfold at_most_62. pose proof (encode_char_length (double_circled n)). pose proof (len_utf8_bounds (double_circled n)). lia.
Qed.
Print Assumptions C33_double_circled.

Example C33_case :
  map circled [0; 20; 21; 35; 36; 50] = chars "⓪⑳㉑㉟㊱㊿"%string /\
  map (fun n => seen (CircledNumber no_heap U8 n)) [35; 36; 51] =
    [Ret (Ok (bytes "㉟"%string)); Ret (Ok (bytes "㊱"%string)); Ret (Err (OutOfBounds 51))] /\
  map double_circled [1; 10] = chars "⓵⓾"%string /\
  map (fun n => seen (DoubleCircledNumber no_heap U8 n)) [0; 10; 11] =
    [Ret (Err NoZeroSymbol); Ret (Ok (bytes "⓾"%string)); Ret (Err (OutOfBounds 11))].
Proof. repeat split; vm_compute; reflexivity. Qed.

(** ** C34 *)

Theorem C34_ethiopic_numeric : forall c T n, valid_config c -> fits c T n -> 1 <= n ->
  exists cs, ethiopic_numeral n cs /\ prints c (Ethiopic c T n) n cs.
Proof.
  intros c T n Hc Hn Hn1. destruct (ethiopic_numeral_exists n) as (cs & Hcs). exists cs. split; [assumption|].
  apply yields_prints, ethiopic_yields; try assumption. lia.
Qed.
Print Assumptions C34_ethiopic_numeric.

(** The algorithm has one result. *)
Theorem C34_numeral_is_unique : forall n cs cs', ethiopic_numeral n cs -> ethiopic_numeral n cs' -> cs = cs'.
Proof. exact ethiopic_numeral_fun. Qed.
Print Assumptions C34_numeral_is_unique.

Theorem C34_no_zero : forall c T, Ethiopic c T 0 = Ret (Err NoZeroSymbol).
Proof. reflexivity. Qed.
Print Assumptions C34_no_zero.

(** The examples of CSS Counter Styles. *)
Example C34_case :
  ethiopic_numeral 100 (chars "፻"%string) /\ ethiopic_numeral 78010092 (chars "፸፰፻፩፼፺፪"%string) /\
  ethiopic_numeral 780100000092 (chars "፸፰፻፩፼፼፺፪"%string) /\
  map (fun n => seen (Ethiopic no_heap U64 n)) [1; 10000; 78010092; 780100000092] =
    map (fun t => Ret (Ok t)) (map bytes ["፩"; "፼"; "፸፰፻፩፼፺፪"; "፸፰፻፩፼፼፺፪"]%string).
Proof.
  repeat split; try (vm_compute; reflexivity).
  - exists [1; 0]. repeat split; try (vm_compute; reflexivity); try discriminate. repeat constructor.
  - exists [78; 1; 0; 92]. repeat split; try (vm_compute; reflexivity); try discriminate. repeat constructor.
  - exists [78; 1; 0; 0; 0; 92]. repeat split; try (vm_compute; reflexivity); try discriminate. repeat constructor.
Qed.

(** ** C35 *)

Theorem C35_reads_back : forall c T n, valid_config c -> fits c T n -> 1 <= n ->
  exists cs, prints c (Ethiopic c T n) n cs /\ ethiopic_read cs = n.
Proof.
  intros c T n Hc Hn Hn1. destruct (C34_ethiopic_numeric c T n Hc Hn Hn1) as (cs & Hcs & Hp). exists cs.
  split; [assumption|]. apply ethiopic_reads; [lia|assumption].
Qed.
Print Assumptions C35_reads_back.

Theorem C35_distinct_texts : forall c c' T T' n m s s',
  valid_config c -> valid_config c' -> fits c T n -> fits c' T' m ->
  Ethiopic c T n = Ret (Ok s) -> Ethiopic c' T' m = Ret (Ok s') -> as_str s = as_str s' -> n = m.
Proof.
  assert (forall c T n s, valid_config c -> fits c T n -> Ethiopic c T n = Ret (Ok s) ->
    exists cs, scalars cs /\ as_str s = Ret (utf8 cs) /\ ethiopic_read cs = n) as H.
  { intros c T n s Hc Hn E. assert (n <> 0) as Hn0 by (intros ->; discriminate E).
    destruct (ethiopic_numeral_exists n) as (cs & Hcs). exists cs.
    destruct (yields_ok c _ n cs s (ethiopic_yields c T n cs Hc Hn Hn0 Hcs) E) as [H1 H2].
    split; [assumption|]. split; [assumption|]. apply ethiopic_reads; assumption. }
  intros c c' T T' n m s s' Hc Hc' Hn Hm E E' Heq.
  destruct (H c T n s Hc Hn E) as (cs & S1 & A1 & R1). destruct (H c' T' m s' Hc' Hm E') as (cs' & S2 & A2 & R2).
  rewrite A1, A2 in Heq. injection Heq as Heq. apply utf8_inj in Heq; try assumption. congruence.
Qed.
Print Assumptions C35_distinct_texts.

Example C35_case :
  map (fun t => ethiopic_read (chars t)) ["፩"; "፻"; "፼"; "፸፰፻፩፼፼፺፪"; "፻፼"; "፼፼፻፩"]%string =
    [1; 100; 10000; 780100000092; 1000000; 100000101] /\
  map (fun n => seen (Ethiopic no_heap U64 n)) [1000000; 100000101] =
    map (fun t => Ret (Ok t)) (map bytes ["፻፼"; "፼፼፻፩"]%string).
Proof. split; vm_compute; reflexivity. Qed.

(** ** C36 *)

Theorem C36_hebrew_numeral : forall c T n, valid_config c -> fits c T n -> 1 <= n ->
  prints c (Hebrew c T n) n (hebrew_numeral n).
Proof. intros c T n Hc Hn Hn1. apply yields_prints, hebrew_yields; try assumption. lia. Qed.
Print Assumptions C36_hebrew_numeral.

Theorem C36_no_zero : forall c T, Hebrew c T 0 = Ret (Err NoZeroSymbol).
Proof. reflexivity. Qed.
Print Assumptions C36_no_zero.

Example C36_case :
  map hebrew_numeral [4; 15; 116; 400; 800; 778; 5415] = map chars ["׳ד״"; "ט״ו"; "קט״ז"; "׳ת״"; "תת"; "תשעח"; "תתתתתתתתתתתתתרט״ו"]%string /\
  map (fun n => seen (Hebrew no_heap U16 n)) [4; 15; 116; 400; 800; 778; 5415] =
    map (fun t => Ret (Ok t)) (map bytes ["׳ד״"; "ט״ו"; "קט״ז"; "׳ת״"; "תת"; "תשעח"; "תתתתתתתתתתתתתרט״ו"]%string).
Proof. split; vm_compute; reflexivity. Qed.

(** ** C37 *)

Theorem C37_letters_add_up : forall c T n, valid_config c -> fits c T n -> 1 <= n ->
  exists cs, prints c (Hebrew c T n) n cs /\ hebrew_sum cs = n.
Proof.
  intros c T n Hc Hn Hn1. exists (hebrew_numeral n). split; [apply C36_hebrew_numeral; assumption|apply hebrew_sum_numeral].
Qed.
Print Assumptions C37_letters_add_up.

Theorem C37_distinct_texts : forall c c' T T' n m s s',
  valid_config c -> valid_config c' -> fits c T n -> fits c' T' m ->
  Hebrew c T n = Ret (Ok s) -> Hebrew c' T' m = Ret (Ok s') -> as_str s = as_str s' -> n = m.
Proof.
  assert (forall c T n s, valid_config c -> fits c T n -> Hebrew c T n = Ret (Ok s) ->
    scalars (hebrew_numeral n) /\ as_str s = Ret (utf8 (hebrew_numeral n))) as H.
  { intros c T n s Hc Hn E. assert (n <> 0) as Hn0 by (intros ->; discriminate E).
    exact (yields_ok c _ n _ s (hebrew_yields c T n Hc Hn Hn0) E). }
  intros c c' T T' n m s s' Hc Hc' Hn Hm E E' Heq.
  destruct (H c T n s Hc Hn E) as (S1 & A1). destruct (H c' T' m s' Hc' Hm E') as (S2 & A2).
  rewrite A1, A2 in Heq. injection Heq as Heq. apply utf8_inj in Heq; try assumption.
  rewrite <- (hebrew_sum_numeral n), Heq. apply hebrew_sum_numeral.
Qed.
Print Assumptions C37_distinct_texts.

Example C37_case : map hebrew_sum (map chars ["׳ד״"; "ט״ו"; "קט״ז"; "תשעח"]%string) = [4; 15; 116; 778].
Proof. reflexivity. Qed.
