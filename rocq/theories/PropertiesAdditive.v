(** * PropertiesAdditive: C24-C31, additive systems *)

From Coq Require Import String Sorted.
From Verif Require Import Prelude Utf8Facts StringFacts History Outcome Additive AdditiveSets Cases.

(** ** C24 *)

Theorem C24_symbols_add_up : forall c T tbl set n,
  valid_config c -> proper tbl -> additive_set_new (encode tbl) = Ret set -> In 1 (map snd tbl) ->
  fits c T n -> 1 <= n ->
  exists counts, worth tbl counts = n /\ largest_first tbl counts /\
    prints c (try_format_additive c T set n) n (spell tbl counts).
Proof.
  intros c T tbl set n Hc Hp Hset Hin Hn Hn1. exists (greedy tbl n).
  assert (strictly_descending tbl) as Hd.
  { unfold additive_set_new in Hset. destruct (descending (encode tbl)) eqn:E; [|discriminate].
    apply encode_sorted, descending_sorted, E. }
  split; [pose proof (worth_greedy tbl n); rewrite (grem_one tbl n Hd Hin) in *; lia|].
  split; [apply largest_first_greedy, Hd|]. rewrite spell_greedy.
  apply yields_prints, additive_text; try assumption. lia.
Qed.
Print Assumptions C24_symbols_add_up.

(** The rule leaves no choice. *)
Theorem C24_counts_are_unique : forall tbl counts counts',
  largest_first tbl counts -> largest_first tbl counts' -> worth tbl counts = worth tbl counts' -> counts = counts'.
Proof. exact largest_first_unique. Qed.
Print Assumptions C24_counts_are_unique.

Definition coins : table := [(chars "Q€"%string, 25); (chars "d"%string, 10); (chars "é"%string, 4); (chars "p"%string, 1); (chars "-"%string, 0)].

Example C24_case :
  proper coins /\ In 1 (map snd coins) /\
  worth coins [2; 1; 2; 1; 0] = 69 /\ largest_first coins [2; 1; 2; 1; 0] /\
  (set <- additive_set_new (encode coins) ;; seen (try_format_additive no_heap U8 set 69)) =
    Ret (Ok (bytes "Q€Q€déép"%string)).
Proof.
  split; [apply properb_proper; vm_compute; reflexivity|]. split; [cbn; tauto|]. split; [reflexivity|].
  split; [cbn; lia|]. vm_compute; reflexivity.
Qed.

(** ** C25 *)

Theorem C25_new_accepts_descending_tables : forall symbols,
  (strictly_descending symbols ->
     exists set, additive_set_new symbols = Ret set /\ as_symbols set = symbols) /\
  (~ strictly_descending symbols -> additive_set_new symbols = Panic).
Proof.
  intros symbols. rewrite <- descending_sorted. unfold additive_set_new.
  destruct (descending symbols); split; intros H; eauto; congruence.
Qed.
Print Assumptions C25_new_accepts_descending_tables.

Theorem C25_zero_symbol : forall c T tbl zero set,
  Forall (fun ch => is_scalar ch = true) zero -> additive_set_new (encode (tbl ++ [(zero, 0)])) = Ret set ->
  has_alloc c || at_most_62 (utf8 zero) = true ->
  prints c (try_format_additive c T set 0) 0 zero.
Proof.
  intros c T tbl zero set Hz Hset Hroom. unfold additive_set_new in Hset.
  destruct (descending _); [|discriminate]. injection Hset as <-. unfold try_format_additive.
  rewrite zero_of_encode. unfold zero_of. rewrite rev_app_distr. cbn. apply yields_prints.
  destruct (from_str_text c zero) as (s & E & Ht); [assumption|rewrite room_roomy; exact Hroom|].
  rewrite E. cbn. eexists. split; [reflexivity|]. apply stored_text, Ht.
Qed.
Print Assumptions C25_zero_symbol.

Theorem C25_no_zero_symbol : forall c T symbols set,
  Forall (fun sv => snd sv <> 0) symbols -> additive_set_new symbols = Ret set ->
  try_format_additive c T set 0 = Ret (Err NoZeroSymbol).
Proof.
  intros c T symbols set Hnz Hset. unfold additive_set_new in Hset. destruct (descending _); [|discriminate].
  injection Hset as <-. unfold try_format_additive. cbn. unfold zero_symbol.
  destruct (rev symbols) as [|[s v] l] eqn:E; [reflexivity|]. destruct v; [|reflexivity].
  assert (In (s, 0) symbols) as Hin by (apply in_rev; rewrite E; left; reflexivity).
  rewrite Forall_forall in Hnz. apply Hnz in Hin. contradiction.
Qed.
Print Assumptions C25_no_zero_symbol.

(** A symbol worth nothing is never used in a positive number: it could be
    replaced by any other. *)
Theorem C25_zero_symbol_is_not_used : forall c T tbl zero zero' set set' n,
  valid_config c -> proper (tbl ++ [(zero, 0)]) -> proper (tbl ++ [(zero', 0)]) ->
  additive_set_new (encode (tbl ++ [(zero, 0)])) = Ret set ->
  additive_set_new (encode (tbl ++ [(zero', 0)])) = Ret set' ->
  fits c T n -> 1 <= n ->
  exists cs, prints c (try_format_additive c T set n) n cs /\ prints c (try_format_additive c T set' n) n cs.
Proof.
  intros c T tbl zero zero' set set' n Hc Hp Hp' Hset Hset' Hn Hn1. exists (gtext (tbl ++ [(zero, 0)]) n).
  assert (gtext (tbl ++ [(zero, 0)]) n = gtext (tbl ++ [(zero', 0)]) n) as E.
  { clear. revert n; induction tbl as [|[s v] tbl IH]; intros n; [reflexivity|]. cbn. rewrite IH. reflexivity. }
  split; [|rewrite E]; (apply yields_prints, additive_text; try assumption; lia).
Qed.
Print Assumptions C25_zero_symbol_is_not_used.

Example C25_case :
  strictly_descending coins /\ ~ strictly_descending [(chars "a"%string, 5); (chars "b"%string, 5)] /\
  additive_set_new [(bytes "a"%string, 5); (bytes "b"%string, 7)] = Panic /\
  (set <- additive_set_new (encode coins) ;; seen (try_format_additive no_heap U8 set 0)) = Ret (Ok (bytes "-"%string)) /\
  (set <- additive_set_new (encode (removelast coins)) ;; seen (try_format_additive no_heap U8 set 0)) = Ret (Err NoZeroSymbol).
Proof.
  split; [apply descending_sorted; reflexivity|].
  split; [intros H; apply descending_sorted in H; discriminate H|]. repeat split; vm_compute; reflexivity.
Qed.

(** ** C26: false of the code *)

(** Largest first, when [lost] is left over at the end. *)
Fixpoint largest_first_losing (lost : N) (tbl : table) (counts : list N) : Prop :=
  match tbl, counts with
  | (_, v) :: tbl, k :: counts =>
      (if v =? 0 then k = 0 else worth tbl counts + lost < v) /\ largest_first_losing lost tbl counts
  | [], [] => True
  | _, _ => False
  end.

Lemma losing_greedy tbl n : strictly_descending tbl -> largest_first_losing (grem tbl n) tbl (greedy tbl n).
Proof.
  revert n; induction tbl as [|[s v] tbl IH]; intros n Hd; cbn [greedy grem]; [exact I|].
  apply strictly_descending_inv in Hd as [Hd Hall]. destruct (N.eqb_spec v 0) as [->|Hv].
  - cbn [map largest_first_losing]. cbn [N.eqb]. split; [reflexivity|].
    destruct tbl as [|[s' v'] tbl]; [exact I|]. inversion Hall; subst. cbn in *. lia.
  - cbn [largest_first_losing]. destruct (N.eqb_spec v 0); [contradiction|]. split; [|apply IH, Hd].
    rewrite worth_greedy. apply N.mod_lt. assumption.
Qed.

(** Full statement: [Ok] text is worth exactly [n]. What holds: it is worth
    [n] less a remainder that no symbol could cover; so the remainder is zero
    when the table has a symbol for 1. *)
Theorem C26_remainder_partial : forall c T tbl set n,
  valid_config c -> proper tbl -> additive_set_new (encode tbl) = Ret set -> fits c T n -> 1 <= n ->
  exists counts lost, worth tbl counts + lost = n /\
    largest_first_losing lost tbl counts /\ (forall s v, In (s, v) tbl -> v <> 0 -> lost < v) /\
    prints c (try_format_additive c T set n) n (spell tbl counts).
Proof.
  intros c T tbl set n Hc Hp Hset Hn Hn1. exists (greedy tbl n), (grem tbl n).
  assert (strictly_descending tbl) as Hd.
  { unfold additive_set_new in Hset. destruct (descending (encode tbl)) eqn:E; [|discriminate].
    apply encode_sorted, descending_sorted, E. }
  split; [apply worth_greedy|]. split; [apply losing_greedy, Hd|]. split; [intros s v; apply grem_lt, Hd|]. rewrite spell_greedy.
  apply yields_prints, additive_text; try assumption. lia.
Qed.
Print Assumptions C26_remainder_partial.

(** This determines the counts and what is lost. *)
Theorem C26_counts_are_unique : forall tbl counts counts' lost lost',
  largest_first_losing lost tbl counts -> largest_first_losing lost' tbl counts' ->
  worth tbl counts + lost = worth tbl counts' + lost' -> counts = counts' /\ lost = lost'.
Proof.
  induction tbl as [|[s v] tbl IH]; intros [|k ks] [|k' ks'] l l' H H' E; try contradiction; [cbn in E; auto|].
  cbn [largest_first_losing worth] in *. destruct H as [H1 H2], H' as [H1' H2'].
  destruct (N.eqb_spec v 0) as [->|Hv].
  - subst. destruct (IH ks ks' l l' H2 H2') as [-> ->]; [lia|auto].
  - assert (k = k') as -> by nia. destruct (IH ks ks' l l' H2 H2') as [-> ->]; [lia|auto].
Qed.
Print Assumptions C26_counts_are_unique.

Definition tens : table := [(chars "X"%string, 10); (chars "V"%string, 5)].

(** With symbols for ten and five only, 17 prints as XV, and 3 as nothing. *)
Theorem C26_no_remainder_refuted :
  strictly_descending tens /\
  (set <- additive_set_new (encode tens) ;; seen (try_format_additive on_heap U8 set 17)) = Ret (Ok (bytes "XV"%string)) /\
  (set <- additive_set_new (encode tens) ;; seen (try_format_additive on_heap U8 set 3)) = Ret (Ok []).
Proof. split; [apply descending_sorted; reflexivity|]. split; vm_compute; reflexivity. Qed.
Print Assumptions C26_no_remainder_refuted.

Example C26_case : proper tens /\ worth tens [1; 1] + 2 = 17 /\ largest_first_losing 2 tens [1; 1] /\ fits no_heap U8 17.
Proof. split; [apply properb_proper; reflexivity|]. repeat split; reflexivity. Qed.

(** ** C27 *)

(** The crate's tables are the encodings of these. *)
Theorem C27_tables :
  [encode roman_upper_table; encode roman_lower_table; encode armenian_upper_table; encode armenian_lower_table;
   encode georgian_table; encode japanese_formal_table; encode japanese_informal_table;
   encode korean_hangul_formal_table; encode korean_hanja_informal_table; encode korean_hanja_formal_table] =
  [RomanUpper_symbols; RomanLower_symbols; ArmenianUpper_symbols; ArmenianLower_symbols;
   Georgian_symbols; JapaneseFormal_symbols; JapaneseInformal_symbols;
   HangeulFormal_symbols; HanjaInformal_symbols; HanjaFormal_symbols].
Proof. vm_compute. reflexivity. Qed.
Print Assumptions C27_tables.

Theorem C27_reads_back : Forall (fun '(sys, tbl) =>
    forall c T n, valid_config c -> fits c T n -> n <> 0 \/ In 0 (map snd tbl) ->
    exists cs, prints c (sys c T n) n cs /\ read tbl cs = Some n)
  [(RomanUpper, roman_upper_table); (RomanLower, roman_lower_table);
   (ArmenianUpper, armenian_upper_table); (ArmenianLower, armenian_lower_table);
   (Georgian, georgian_table);
   (JapaneseFormal, japanese_formal_table); (JapaneseInformal, japanese_informal_table);
   (HangeulFormal, korean_hangul_formal_table);
   (HanjaInformal, korean_hanja_informal_table); (HanjaFormal, korean_hanja_formal_table)].
Proof.
  eapply Forall_impl; [|exact additive_systems_ok]. intros [sys tbl] [Hs Hg] c T n Hc Hn Hz.
  destruct (good_table_parts tbl Hg) as (Hp & Hd & H1 & Hu & H0).
  destruct (N.eq_dec n 0) as [->|Hn0].
  - destruct Hz as [Hz|Hz]; [contradiction|].
    destruct (zero_of tbl) as [z|] eqn:E.
    + exists z. split; [|apply H0; reflexivity]. apply yields_prints. eapply system_zero; eassumption.
    + exfalso. revert Hd Hz E. clear. unfold zero_of. intros Hd Hz E.
      apply in_map_iff in Hz as ([s v] & Ev & Hin). cbn in Ev. subst v.
      destruct tbl as [|[s' v'] tbl _] using rev_ind; [destruct Hin|].
      rewrite rev_app_distr in E. cbn in E. apply in_app_iff in Hin as [Hin|[Ex|[]]].
      * assert (v' < 0) as Hlt; [|lia]. clear E. induction tbl as [|a tbl IH]; [destruct Hin|].
        apply strictly_descending_inv in Hd as [Hd Hall]. destruct Hin as [->|Hin].
        -- rewrite Forall_forall in Hall. apply (Hall (s', v')). apply in_or_app. right. left. reflexivity.
        -- apply IH; assumption.
      * injection Ex as -> ->. discriminate.
  - exists (gtext tbl n). split; [|apply read_gtext; assumption].
    apply yields_prints. eapply system_positive; eassumption.
Qed.
Print Assumptions C27_reads_back.

(** Hence different numbers have different texts, whatever the types. *)
Theorem C27_distinct_texts : Forall (fun sys : system =>
    forall c c' T T' n m s s', valid_config c -> valid_config c' -> fits c T n -> fits c' T' m ->
    sys c T n = Ret (Ok s) -> sys c' T' m = Ret (Ok s') -> as_str s = as_str s' -> n = m)
  [RomanUpper; RomanLower; ArmenianUpper; ArmenianLower; Georgian; JapaneseFormal; JapaneseInformal;
   HangeulFormal; HanjaInformal; HanjaFormal].
Proof.
  assert (forall sys tbl, uses_table sys tbl /\ good_table tbl = true ->
    forall c c' T T' n m s s', valid_config c -> valid_config c' -> fits c T n -> fits c' T' m ->
    sys c T n = Ret (Ok s) -> sys c' T' m = Ret (Ok s') -> as_str s = as_str s' -> n = m) as H.
  { intros sys tbl [Hs Hg]. destruct (good_table_parts tbl Hg) as (Hp & Hd & H1 & Hu & H0).
    assert (forall c T n s, valid_config c -> fits c T n -> sys c T n = Ret (Ok s) ->
      exists cs, scalars cs /\ as_str s = Ret (utf8 cs) /\ read tbl cs = Some n) as Hx.
    { intros c T n s Hc Hn E.
      assert (exists cs, yields c (sys c T n) n cs /\ read tbl cs = Some n) as (cs & (x & Ex & Hst) & Hr).
      { destruct (N.eq_dec n 0) as [->|Hn0].
        - destruct (zero_of tbl) as [z|] eqn:Ez.
          + exists z. split; [eapply system_zero; eassumption|apply H0; reflexivity].
          + rewrite (system_no_zero sys tbl c T Hs Hg Ez) in E. discriminate.
        - exists (gtext tbl n). split; [eapply system_positive; eassumption|apply read_gtext; assumption]. }
      rewrite E in Ex. injection Ex as <-. unfold stored in Hst. destruct (room c cs); [|discriminate].
      destruct Hst as (s0 & Es & Ht). injection Es as <-. exists cs. split; [eapply text_scalars, Ht|].
      split; [eapply rep_str, Ht|exact Hr]. }
    intros c c' T T' n m s s' Hc Hc' Hn Hm E E' Heq.
    destruct (Hx c T n s Hc Hn E) as (cs & S1 & A1 & R1). destruct (Hx c' T' m s' Hc' Hm E') as (cs' & S2 & A2 & R2).
    rewrite A1, A2 in Heq. injection Heq as Heq. apply utf8_inj in Heq; try assumption. congruence. }
  repeat apply Forall_cons; [..|constructor].
  - exact (H _ _ roman_upper_ok).
  - exact (H _ _ roman_lower_ok).
  - exact (H _ _ armenian_upper_ok).
  - exact (H _ _ armenian_lower_ok).
  - exact (H _ _ georgian_ok).
  - exact (H _ _ japanese_formal_ok).
  - exact (H _ _ japanese_informal_ok).
  - exact (H _ _ korean_hangul_formal_ok).
  - exact (H _ _ korean_hanja_informal_ok).
  - exact (H _ _ korean_hanja_formal_ok).
Qed.
Print Assumptions C27_distinct_texts.

Example C27_case :
  read roman_upper_table (chars "M̅M̅D̅M̅L̅C̅I̅X̅CMXCIX"%string) = Some 2999999 /\
  seen (RomanUpper no_heap U32 2999999) = Ret (Ok (bytes "M̅M̅D̅M̅L̅C̅I̅X̅CMXCIX"%string)) /\
  read japanese_informal_table (chars "九千千百十一"%string) = Some 10111 /\
  seen (JapaneseInformal no_heap U16 10111) = Ret (Ok (bytes "九千千百十一"%string)).
Proof. repeat split; vm_compute; reflexivity. Qed.

(** ** C28 *)

Lemma classical_below_4000 nine5 nine4 letters n : n < 4000 ->
  vinculum nine5 nine4 letters n = classical_roman letters n.
Proof.
  intros Hn. destruct letters as [[[[[[i v] x] l] c] d] m]. unfold vinculum, classical_roman.
  rewrite (N.div_small n 1000000), copies_0 by lia.
  replace (n / 100000 mod 10) with 0 by lia. replace (n / 10000 mod 10) with 0 by lia.
  replace (n / 1000 mod 10) with (n / 1000) by lia.
  replace (n mod 1000 / 1000) with 0 by lia. rewrite copies_0.
  replace (n mod 1000 / 100 mod 10) with (n / 100 mod 10) by lia.
  replace (n mod 1000 / 10 mod 10) with (n / 10 mod 10) by lia.
  replace (n mod 1000 mod 10) with (n mod 10) by lia. cbn [app vinculum_place N.to_nat nth].
  f_equal. assert (n / 1000 = 0 \/ n / 1000 = 1 \/ n / 1000 = 2 \/ n / 1000 = 3) as [->|[->|[->| ->]]] by lia;
    cbn; rewrite ?app_nil_r; reflexivity.
Qed.

Theorem C28_roman_below_4000 : forall c T n, valid_config c -> fits c T n -> 1 <= n < 4000 ->
  prints c (RomanUpper c T n) n (classical_roman roman_upper n) /\
  prints c (RomanLower c T n) n (classical_roman roman_lower n).
Proof.
  intros c T n Hc Hn Hr. destruct roman_upper_ok as [U1 G1], roman_lower_ok as [U2 G2].
  split; apply yields_prints.
  - rewrite <- (classical_below_4000 (over "D" ++ over "M") (over "L" ++ over "C")), <- (roman_table_text _ _ _ (chars "N")) by lia.
    fold roman_upper_table. apply (system_positive _ _ _ _ _ U1 G1); try assumption. lia.
  - rewrite <- (classical_below_4000 (over "d" ++ over "m") (over "l" ++ over "c")), <- (roman_table_text _ _ _ (chars "n")) by lia.
    fold roman_lower_table. apply (system_positive _ _ _ _ _ U2 G2); try assumption. lia.
Qed.
Print Assumptions C28_roman_below_4000.

Theorem C28_roman_zero : forall c T,
  prints c (RomanUpper c T 0) 0 (chars "N"%string) /\ prints c (RomanLower c T 0) 0 (chars "n"%string).
Proof.
  intros c T. destruct roman_upper_ok as [U1 G1], roman_lower_ok as [U2 G2].
  split; apply yields_prints;
    [apply (system_zero _ _ _ _ _ U1 G1)|apply (system_zero _ _ _ _ _ U2 G2)]; vm_compute; reflexivity.
Qed.
Print Assumptions C28_roman_zero.

Example C28_case :
  map (classical_roman roman_upper) [1; 4; 1994; 3999] = map chars ["I"; "IV"; "MCMXCIV"; "MMMCMXCIX"]%string /\
  seen (RomanLower no_heap U16 3888) = Ret (Ok (bytes "mmmdccclxxxviii"%string)).
Proof. split; vm_compute; reflexivity. Qed.

(** ** C29: false of the code for nines in two places *)

(** Full statement: the text is [classical_vinculum]. What the code prints is
    the same except that a nine at the places 10^5 and 10^4 is written as D
    before M and L before C (overlined) instead of C before M and X before C.
    When neither digit is nine the full statement holds. *)
Theorem C29_vinculum_partial : forall c T n, valid_config c -> fits c T n -> 1 <= n ->
  prints c (RomanUpper c T n) n (vinculum (over "D" ++ over "M") (over "L" ++ over "C") roman_upper n) /\
  prints c (RomanLower c T n) n (vinculum (over "d" ++ over "m") (over "l" ++ over "c") roman_lower n) /\
  (n / 100000 mod 10 <> 9 -> n / 10000 mod 10 <> 9 ->
   prints c (RomanUpper c T n) n (classical_vinculum roman_upper n) /\
   prints c (RomanLower c T n) n (classical_vinculum roman_lower n)).
Proof.
  intros c T n Hc Hn Hr. destruct roman_upper_ok as [U1 G1], roman_lower_ok as [U2 G2].
  assert (prints c (RomanUpper c T n) n (vinculum (over "D" ++ over "M") (over "L" ++ over "C") roman_upper n)) as H1.
  { rewrite <- (roman_table_text _ _ _ (chars "N")). fold roman_upper_table.
    apply yields_prints, (system_positive _ _ _ _ _ U1 G1); try assumption. lia. }
  assert (prints c (RomanLower c T n) n (vinculum (over "d" ++ over "m") (over "l" ++ over "c") roman_lower n)) as H2.
  { rewrite <- (roman_table_text _ _ _ (chars "n")). fold roman_lower_table.
    apply yields_prints, (system_positive _ _ _ _ _ U2 G2); try assumption. lia. }
  split; [exact H1|]. split; [exact H2|]. intros H5 H4.
  assert (forall one sub five nine nine' d, d < 10 -> d <> 9 ->
    vinculum_place one sub five nine d = vinculum_place one sub five nine' d) as Hplace.
  { intros one sub five nine nine' d Hlt Hd.
    assert (d = 0 \/ d = 1 \/ d = 2 \/ d = 3 \/ d = 4 \/ d = 5 \/ d = 6 \/ d = 7 \/ d = 8) as Hcase by lia.
    repeat destruct Hcase as [->|Hcase]; [reflexivity..|subst d; reflexivity]. }
  assert (forall a b a' b' letters, vinculum a b letters n = vinculum a' b' letters n) as Hv.
  { intros a b a' b' [[[[[[i v] x] l] c'] d] m]. unfold vinculum.
    rewrite (Hplace (over c') (over c') (over d) a a' (n / 100000 mod 10)) by (lia || assumption).
    rewrite (Hplace (over x) (over x) (over l) b b' (n / 10000 mod 10)) by (lia || assumption). reflexivity. }
  unfold classical_vinculum, roman_upper, roman_lower in *. split.
  - erewrite Hv. exact H1.
  - erewrite Hv. exact H2.
Qed.
Print Assumptions C29_vinculum_partial.

(** The two differ for all other numbers. *)
Theorem C29_exactly_when : forall n,
  (vinculum (over "D" ++ over "M") (over "L" ++ over "C") roman_upper n = classical_vinculum roman_upper n <->
   n / 100000 mod 10 <> 9 /\ n / 10000 mod 10 <> 9) /\
  (vinculum (over "d" ++ over "m") (over "l" ++ over "c") roman_lower n = classical_vinculum roman_lower n <->
   n / 100000 mod 10 <> 9 /\ n / 10000 mod 10 <> 9).
Proof.
  assert (forall letters n5 n4, let '(i, v, x, l, c, d, m) := letters in
    (forall d5 d4, d5 < 10 -> d4 < 10 ->
      (vinculum_place (over c) (over c) (over d) n5 d5 ++ vinculum_place (over x) (over x) (over l) n4 d4 =
       vinculum_place (over c) (over c) (over d) (over c ++ over m) d5 ++ vinculum_place (over x) (over x) (over l) (over x ++ over c) d4 <->
       d5 <> 9 /\ d4 <> 9)) ->
    forall n, vinculum n5 n4 letters n = classical_vinculum letters n <-> n / 100000 mod 10 <> 9 /\ n / 10000 mod 10 <> 9) as H.
  { intros [[[[[[i v] x] l] c] d] m] n5 n4 Hd n. rewrite <- (Hd (n / 100000 mod 10) (n / 10000 mod 10)) by (apply N.mod_lt; discriminate).
    unfold classical_vinculum, vinculum. split.
    - intros E. apply app_inv_head in E. rewrite !app_assoc in E. apply app_inv_tail in E. apply app_inv_tail in E. exact E.
    - intros E. f_equal. rewrite !app_assoc. rewrite E. reflexivity. }
  assert (forall d, d < 10 -> d = 0 \/ d = 1 \/ d = 2 \/ d = 3 \/ d = 4 \/ d = 5 \/ d = 6 \/ d = 7 \/ d = 8 \/ d = 9) as Hten by (intros; lia).
  intros n. split; [apply (H roman_upper (over "D" ++ over "M") (over "L" ++ over "C"))|apply (H roman_lower (over "d" ++ over "m") (over "l" ++ over "c"))];
    intros d5 d4 H5 H4; apply Hten in H5, H4; repeat destruct H5 as [->|H5]; subst; repeat destruct H4 as [->|H4]; subst;
    (split; [vm_compute; intros E; split; discriminate|intros [H1 H2]; try (exfalso; lia); reflexivity]).
Qed.
Print Assumptions C29_exactly_when.

Theorem C29_vinculum_refuted :
  exists n, seen (RomanUpper on_heap U32 n) <> Ret (Ok (utf8 (classical_vinculum roman_upper n))) /\
    seen (RomanUpper on_heap U32 n) = Ret (Ok (bytes "D̅M̅L̅C̅"%string)) /\
    classical_vinculum roman_upper n = chars "C̅M̅X̅C̅"%string.
Proof. exists 990000. split; [vm_compute; discriminate|]. split; vm_compute; reflexivity. Qed.
Print Assumptions C29_vinculum_refuted.

Example C29_case :
  classical_vinculum roman_upper 12849999 = chars "M̅M̅M̅M̅M̅M̅M̅M̅M̅M̅M̅M̅D̅C̅C̅C̅X̅L̅I̅X̅CMXCIX"%string /\
  seen (RomanUpper on_heap U32 12849999) = Ret (Ok (utf8 (classical_vinculum roman_upper 12849999))) /\
  classical_vinculum roman_lower 7412 = chars "v̅mmcdxii"%string.
Proof. repeat split; vm_compute; reflexivity. Qed.

(** ** C30 *)

(** Up to 9999 one symbol per decimal place; beyond, the largest symbol is
    repeated first. *)
Theorem C30_decimal_places : Forall (fun '(sys, sym) =>
    forall c T n, valid_config c -> fits c T n -> 1 <= n ->
    prints c (sys c T n) n (copies (n / 9000) (sym 3 9) ++ decimal_text sym (n mod 9000)) /\
    (n <= 9999 -> prints c (sys c T n) n (decimal_text sym n)))
  [(ArmenianUpper, armenian_upper_spaced); (ArmenianLower, armenian_lower);
   (JapaneseFormal, japanese_formal); (JapaneseInformal, japanese_informal);
   (HangeulFormal, korean_hangul_formal); (HanjaInformal, korean_hanja_informal); (HanjaFormal, korean_hanja_formal)].
Proof.
  assert (forall sys sym tail, uses_table sys (decimal_table sym ++ tail) /\ good_table (decimal_table sym ++ tail) = true ->
    (forall m, gtext tail m = []) ->
    forall c T n, valid_config c -> fits c T n -> 1 <= n ->
    prints c (sys c T n) n (copies (n / 9000) (sym 3 9) ++ decimal_text sym (n mod 9000)) /\
    (n <= 9999 -> prints c (sys c T n) n (decimal_text sym n))) as H.
  { intros sys sym tail [Hs Hg] Htail c T n Hc Hn Hn1.
    assert (prints c (sys c T n) n (gtext (decimal_table sym ++ tail) n)) as Hp
      by (apply yields_prints, system_positive; try assumption; lia).
    split.
    - assert (decimal_table sym ++ tail = (sym 3 9, 9000) :: (tl (decimal_table sym) ++ tail)) as E by reflexivity.
      rewrite E, first_symbol, <- E in Hp by discriminate. rewrite decimal_table_text in Hp by (assumption || lia). exact Hp.
    - intros Hle. rewrite decimal_table_text in Hp by (assumption || lia). exact Hp. }
  repeat apply Forall_cons; [..|constructor].
  - apply (H _ _ []); [exact armenian_upper_ok|reflexivity].
  - apply (H _ _ []); [exact armenian_lower_ok|reflexivity].
  - eapply H; [exact japanese_formal_ok|reflexivity].
  - eapply H; [exact japanese_informal_ok|reflexivity].
  - eapply H; [exact korean_hangul_formal_ok|reflexivity].
  - eapply H; [exact korean_hanja_informal_ok|reflexivity].
  - eapply H; [exact korean_hanja_formal_ok|reflexivity].
Qed.
Print Assumptions C30_decimal_places.

Theorem C30_georgian : forall c T n, valid_config c -> fits c T n -> 1 <= n ->
  prints c (Georgian c T n) n (copies (n / 10000) (chars "ჵ"%string) ++ decimal_text georgian (n mod 10000)).
Proof.
  intros c T n Hc Hn Hn1. destruct georgian_ok as [Hs Hg].
  assert (prints c (Georgian c T n) n (gtext georgian_table n)) as Hp
    by (apply yields_prints, system_positive; try assumption; lia).
  unfold georgian_table in Hp. cbn [gtext] in Hp. cbn [N.eqb] in Hp.
  rewrite <- (app_nil_r (decimal_table georgian)) in Hp. rewrite decimal_table_text in Hp by (reflexivity || lia). exact Hp.
Qed.
Print Assumptions C30_georgian.

(** Zero: the documented zero character, or none in Armenian and Georgian. *)
Theorem C30_zero : forall c T,
  ArmenianUpper c T 0 = Ret (Err NoZeroSymbol) /\ ArmenianLower c T 0 = Ret (Err NoZeroSymbol) /\
  Georgian c T 0 = Ret (Err NoZeroSymbol) /\
  prints c (JapaneseFormal c T 0) 0 (chars "零"%string) /\ prints c (JapaneseInformal c T 0) 0 (chars "〇"%string) /\
  prints c (HangeulFormal c T 0) 0 (chars "영"%string) /\ prints c (HanjaInformal c T 0) 0 (chars "零"%string) /\
  prints c (HanjaFormal c T 0) 0 (chars "零"%string).
Proof.
  intros c T.
  assert (forall sys tbl z, table_ok sys tbl -> zero_of tbl = Some z -> prints c (sys c T 0) 0 z) as H
    by (intros sys tbl z [Hs Hg] Hz; apply yields_prints; eapply system_zero; eassumption).
  split; [reflexivity|]. split; [reflexivity|]. split; [reflexivity|].
  split; [apply (H _ _ _ japanese_formal_ok); vm_compute; reflexivity|].
  split; [apply (H _ _ _ japanese_informal_ok); vm_compute; reflexivity|].
  split; [apply (H _ _ _ korean_hangul_formal_ok); vm_compute; reflexivity|].
  split; [apply (H _ _ _ korean_hanja_informal_ok); vm_compute; reflexivity|].
  apply (H _ _ _ korean_hanja_formal_ok); vm_compute; reflexivity.
Qed.
Print Assumptions C30_zero.

Example C30_case :
  map (decimal_text georgian) [1978; 8060] = map chars ["ჩშოჱ"; "ჯჲ"]%string /\
  seen (Georgian no_heap U16 21978) = Ret (Ok (bytes "ჵჵჩშოჱ"%string)) /\
  map (fun sym => decimal_text sym 2015) [japanese_formal; japanese_informal; korean_hangul_formal; korean_hanja_informal; korean_hanja_formal] =
    map chars ["弐阡壱拾伍"; "二千十五"; "이천일십오"; "二千十五"; "貳仟壹拾五"]%string /\
  seen (HanjaFormal no_heap U16 20015) = Ret (Ok (bytes "九仟九仟貳仟壹拾五"%string)) /\
  seen (ArmenianLower no_heap U16 9999) = Ret (Ok (bytes "քջղթ"%string)).
Proof. repeat split; vm_compute; reflexivity. Qed.

(** ** C31: false of the code *)

(** Full statement: the text of [ArmenianUpper] is the capitalised text of
    [ArmenianLower] (capitals are 0x30 below small letters). It holds unless
    the last digit is one, when a space is appended. *)
Definition capital (x : N) : N := x - 0x30.

Theorem C31_capitalised_partial : forall c T n, valid_config c -> fits c T n -> 1 <= n ->
  exists cs, Forall (fun x => 0x561 <= x <= 0x584) cs /\ prints c (ArmenianLower c T n) n cs /\
    prints c (ArmenianUpper c T n) n (map capital cs ++ (if n mod 10 =? 1 then [0x20] else [])).
Proof.
  intros c T n Hc Hn Hn1.
  pose proof C30_decimal_places as H.
  apply Forall_cons_iff in H as [HU H]. apply Forall_cons_iff in H as [HL _].
  destruct (HU c T n Hc Hn Hn1) as [HU' _]. destruct (HL c T n Hc Hn Hn1) as [HL' _]. clear HU HL.
  exists (copies (n / 9000) (armenian_lower 3 9) ++ decimal_text armenian_lower (n mod 9000)).
  assert (forall k, map capital (copies k (armenian_lower 3 9)) = copies k (armenian_upper_spaced 3 9) /\
                    Forall (fun x => 0x561 <= x <= 0x584) (copies k (armenian_lower 3 9))) as Hcop.
  { induction k as [|k [IH1 IH2]] using N.peano_ind; [split; [reflexivity|constructor]|].
    rewrite <- N.add_1_r, !copies_succ, map_app, IH1. split; [reflexivity|]. apply Forall_app. split; [|assumption].
    constructor; [vm_compute; split; discriminate|constructor]. }
  destruct (Hcop (n / 9000)) as [E1 E2]. split; [|split; [exact HL'|]].
  - apply Forall_app. split; [exact E2|]. unfold decimal_text. apply Forall_flat_map.
    repeat constructor; (match goal with |- context [?d =? 0] => destruct (N.eqb_spec d 0) end; [constructor|]);
      (constructor; [|constructor]); lia.
  - rewrite map_app, E1, <- app_assoc.
    replace (map capital (decimal_text armenian_lower (n mod 9000)) ++ (if n mod 10 =? 1 then [32] else []))
      with (decimal_text armenian_upper_spaced (n mod 9000)); [exact HU'|].
    replace (n mod 10) with (n mod 9000 / 10 ^ 0 mod 10) by (change (10 ^ 0) with 1; lia).
    generalize (n mod 9000). intros m. unfold decimal_text. cbn [flat_map]. rewrite !map_app, app_nil_r, <- !app_assoc.
    assert (forall p, p <> 0 -> (if m / 10 ^ p mod 10 =? 0 then [] else armenian_upper_spaced p (m / 10 ^ p mod 10)) =
      map capital (if m / 10 ^ p mod 10 =? 0 then [] else armenian_lower p (m / 10 ^ p mod 10))) as Hp.
    { intros p Hp. generalize (m / 10 ^ p mod 10). intros d. destruct (d =? 0); [reflexivity|].
      unfold armenian_upper_spaced, armenian_upper, armenian_lower. destruct (N.eqb_spec p 0); [contradiction|].
      cbn [andb app map]. unfold capital. f_equal. lia. }
    rewrite !Hp by discriminate. f_equal. f_equal. f_equal. cbn [map].
    generalize (m / 10 ^ 0 mod 10). intros d. destruct (N.eqb_spec d 0) as [->|Hd]; [reflexivity|].
    unfold armenian_upper_spaced, armenian_upper, armenian_lower. cbn [N.eqb andb app map].
    unfold capital. destruct (d =? 1); cbn [app]; f_equal; lia.
Qed.
Print Assumptions C31_capitalised_partial.

Theorem C31_capitalised_refuted :
  exists n, seen (ArmenianLower on_heap U8 n) = Ret (Ok (utf8 [0x561])) /\
            seen (ArmenianUpper on_heap U8 n) = Ret (Ok (utf8 [0x531; 0x20])).
Proof. exists 1. split; vm_compute; reflexivity. Qed.
Print Assumptions C31_capitalised_refuted.

Example C31_case :
  seen (ArmenianLower no_heap U16 19872) = Ret (Ok (bytes "քքռպհբ"%string)) /\
  seen (ArmenianUpper no_heap U16 19872) = Ret (Ok (bytes "ՔՔՌՊՀԲ"%string)).
Proof. split; vm_compute; reflexivity. Qed.
