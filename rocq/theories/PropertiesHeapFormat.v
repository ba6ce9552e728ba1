(** * PropertiesHeapFormat: C98 and C99, formatting with the heap *)

From Coq Require Import String.
From Verif Require Import Prelude Utf8Facts StringFacts NominalString Spec History Outcome DigitSets AdditiveSets ScriptFacts ChineseNumeral
  Digital Additive Enumerated Ethiopic Hebrew Chinese ChineseFacts PropertiesChinese PropertiesSystem Live PropertiesUser Cases
  HeapMemory HeapFormat PropertiesHeap PropertiesAllocation HeapFormatFacts HeapFormatSim HeapFormatErrors.

(** Every built-in system: with its strings in memory, and on values. *)
Definition memory_systems : list (held_system * system) :=
  (map (fun d => (held_digit_system (fun _ => d), fun c T => try_format_digits c T d)) (digit_collections ++ fixed_collections) ++
   map (fun d => (held_digit_system (fun _ => one_based d), fun c T => try_format_digits c T (one_based d))) (digit_collections ++ fixed_collections) ++
   [(held_digit_system HexUpper, fun c T => try_format_digits c T (HexUpper c));
    (held_digit_system HexLower, fun c T => try_format_digits c T (HexLower c));
    (held_digit_system (fun c => one_based (HexUpper c)), fun c T => try_format_digits c T (one_based (HexUpper c)));
    (held_digit_system (fun c => one_based (HexLower c)), fun c T => try_format_digits c T (one_based (HexLower c)))]) ++
  [(held_additive_system RomanUpper_symbols, RomanUpper); (held_additive_system RomanLower_symbols, RomanLower);
   (held_additive_system ArmenianUpper_symbols, ArmenianUpper); (held_additive_system ArmenianLower_symbols, ArmenianLower);
   (held_additive_system Georgian_symbols, Georgian); (held_additive_system JapaneseFormal_symbols, JapaneseFormal);
   (held_additive_system JapaneseInformal_symbols, JapaneseInformal); (held_additive_system HangeulFormal_symbols, HangeulFormal);
   (held_additive_system HanjaInformal_symbols, HanjaInformal); (held_additive_system HanjaFormal_symbols, HanjaFormal)] ++
  [(held_enumerated_system (enumerated_new CircledNumber_symbols), CircledNumber);
   (held_enumerated_system (enumerated_zeroless DoubleCircledNumber_symbols), DoubleCircledNumber);
   (held_ethiopic, Ethiopic); (held_hebrew, Hebrew)] ++
  flat_map (fun traditional => flat_map (fun formal => flat_map (fun u => map (fun sc =>
    (held_chinese_system traditional formal {| usage := u; scale := sc |}, chinese traditional formal {| usage := u; scale := sc |}))
    [Short; Myriad; Mid; Long]) [Financial; Ordinary]) [true; false]) [true; false].

(** The list is complete. *)
Lemma memory_systems_all : map snd memory_systems = builtin_systems.
Proof. reflexivity. Qed.

(** The blocks of [m'] are those of [m] and the one of [v], which is new. *)
Definition adds_only (m m' : memory) (v : held) : Prop :=
  (forall p b, live m p = Some b -> live m' p = Some b) /\
  (forall p, live m' p <> None -> live m p = None -> exists h, v = HHeap h /\ has_block h p) /\
  (forall h p, v = HHeap h -> has_block h p -> live m p = None /\ live m' p <> None).

(** [v] is a string that reads as [t], in the struct if that has room for it,
    else in the heap. *)
Definition shows (m : memory) (v : held) (t : list N) : Prop :=
  held_str v m = Done m t /\ if at_most_62 t then exists i, v = HInline i else exists h, v = HHeap h /\ reads m h t.

Definition same_blocks (m m' : memory) : Prop := forall p, live m' p = live m p.

(** Formatting in memory against formatting on values, where memory does not
    run out. A formatter that would not return may be refused memory first. *)
Definition mirrors (m : memory) (r : outcome (result nominal_string error)) (f : status (result held error)) : Prop :=
  match r with
  | Ret (Err e) => f = Done m (Err e)
  | Ret (Ok s) =>
      exists t, as_str s = Ret t /\
      match f with
      | Done m' (Ok v) => shows m' v t /\ adds_only m m' v
      | Stopped m' why => (why = CapacityOverflow \/ why = AllocError) /\ at_most_62 t = false /\ same_blocks m m'
      | _ => False
      end
  | Panic => exists m' why, f = Stopped m' why /\ why <> Endless /\ same_blocks m m'
  | Hang => exists m' why, f = Stopped m' why /\ (why = Endless \/ (why = CapacityOverflow \/ why = AllocError) /\ same_blocks m m')
  | UB => True
  end.

Lemma framed_nothing m m' : framed m m' [] [] -> same_blocks m m'.
Proof.
  intros (H1 & H2 & _ & H4) p. destruct (Nat.lt_ge_cases p (length (blocks m))) as [Hp|Hp]; [apply H2; auto|].
  assert (live m p = None) as E by (unfold live; rewrite (proj2 (nth_error_None _ _) Hp); reflexivity).
  rewrite E. destruct (live m' p) eqn:E'; [|reflexivity]. destruct (H4 p ltac:(congruence)) as [[]|[Hl _]]. congruence.
Qed.

Lemma held_block v p : In p (blocks_of v) <-> exists h, v = HHeap h /\ has_block h p.
Proof.
  rewrite blocks_is. destruct v as [i|h]; cbn [held_owned].
  - split; [unfold is; discriminate|intros (h & E & _); discriminate].
  - rewrite owned_has. split; [eauto|intros (h' & [= <-] & H); exact H].
Qed.

Lemma framed_adds m m' v : framed m m' [] (owned_by [v]) -> (forall p, In p (blocks_of v) -> live m' p <> None) -> adds_only m m' v.
Proof.
  unfold owned_by. cbn [flat_map]. rewrite app_nil_r. intros (H1 & H2 & H3 & H4) Hl. split; [|split].
  - intros p b E. assert (p < length (blocks m))%nat as Hlt by (apply nth_error_Some; intros E'; unfold live in E; rewrite E' in E; discriminate).
    rewrite (H2 p Hlt); [exact E|intros []].
  - intros p Hp E. apply held_block. destruct (H4 p Hp) as [H|[H _]]; [exact H|contradiction].
  - intros h p -> Hb. assert (In p (blocks_of (HHeap h))) as Hin by (apply held_block; eauto). split; [|apply Hl, Hin].
    destruct (H3 p Hin) as [[]|Hle]. unfold live. rewrite (proj2 (nth_error_None _ _) Hle). reflexivity.
Qed.

Lemma repr_shows c m v s : repr c m v s -> exists t, as_str s = Ret t /\ shows m v t /\ good c s t.
Proof.
  intros Hr. destruct (same_str c m v s Hr) as (t & Hg & Es & Eh & _ & _ & _). exists t. split; [exact Es|]. split; [|exact Hg].
  split; [exact Eh|]. destruct Hr as (t' & Hg' & Hm & _). assert (t' = t) as -> by (apply good_str in Hg'; congruence).
  unfold matches, nominal_text in Hm. destruct v as [i|h]; cbn in Hm; destruct (at_most_62 t); destruct Hm as (_ & Hm & Hm'); try discriminate; eauto.
Qed.

Lemma simulates_mirrors pf f o m : simulates pf 62 f o -> immediate f o -> mirrors m o (f m).
Proof.
  intros Hs Hi. specialize (Hs m). unfold sim in Hs. unfold mirrors. destruct o as [[s|e]| | |] eqn:Eo; [| |..].
  - destruct (f m) as [m' r|m' why|]; [| |discriminate].
    + destruct Hs as (b & Eb & Hfr & Hrel & _). injection Eb as <-. destruct r as [v|]; [|contradiction].
      destruct (repr_shows _ _ _ _ Hrel) as (t & Es & Ht & _). exists t. split; [exact Es|]. split; [exact Ht|].
      apply framed_adds; [exact Hfr|]. intros p. apply (repr_live _ _ _ _ p Hrel).
    + assert (framed m m' [] [] /\ big (target pf) (N.succ 62) s -> (why = CapacityOverflow \/ why = AllocError) -> exists t, as_str s = Ret t /\
        (why = CapacityOverflow \/ why = AllocError) /\ at_most_62 t = false /\ same_blocks m m') as Hgo.
      { intros (Hfr & t & Hg & Hlt) Hw. exists t. split; [apply (good_str _ _ _ Hg)|]. split; [exact Hw|]. split; [|apply framed_nothing, Hfr].
        unfold at_most_62. apply Nat.leb_gt. lia. }
      destruct why; try discriminate.
      * destruct Hs as [Hfr Hb]. apply Hgo; [|auto]. split; [exact Hfr|exact (Hb _ eq_refl)].
      * destruct Hs as [Hfr Hb]. apply Hgo; [|auto]. split; [exact Hfr|exact (Hb _ eq_refl)].
      * destruct Hs; discriminate.
  - apply Hi. reflexivity.
  - destruct (f m) as [m' r|m' why|]; [destruct Hs as (b & Eb & _); discriminate| |discriminate].
    exists m', why. split; [reflexivity|]. destruct why; try discriminate; (split; [discriminate|]); apply framed_nothing, Hs.
  - destruct (f m) as [m' r|m' why|]; [destruct Hs as (b & Eb & _); discriminate| |discriminate].
    exists m', why. split; [reflexivity|]. destruct why; auto; destruct Hs as [Hs Hs']; [right|right|discriminate]; (split; [auto|apply framed_nothing, Hs]).
  - exact I.
Qed.

(** ** The tables are of the types Rust gives them *)

Lemma no_fallback_typed k i ch : dc_digit (nth_fallback k NoFallback) i <> Ret ch.
Proof.
  assert (nth_fallback k NoFallback = NoFallback) as ->; [|discriminate].
  induction k as [|k IH]; [reflexivity|exact IH].
Qed.

Lemma plain_typed digits d : plain_table digits d -> digits_typed d.
Proof.
  intros (H & _ & Hs) [|k] i ch; [|destruct H as [[-> _]|[-> _]]; intros E; destruct (no_fallback_typed k i ch E)].
  assert (Forall (fun ch => is_scalar ch = true) digits) as Hall by (apply scalars_all, Hs).
  destruct H as [[-> _]|[-> _]]; cbn [nth_fallback impl_digit_set dc_digit]; apply lookup_scalar, Hall.
Qed.

Lemma one_based_typed d : digits_typed d -> digits_typed (one_based d).
Proof. intros H [|k]; [apply (H 0%nat)|apply (H (S k))]. Qed.

Lemma hex_typed c letters : digits_typed letters -> digits_typed (impl_digit_set (restrict 16 (chain c Decimal letters))).
Proof.
  intros Hl [|k] i ch; [|intros E; destruct (no_fallback_typed k i ch E)].
  cbn [nth_fallback impl_digit_set restrict chain dc_digit dc_len Decimal digit_set_new obind].
  destruct (_ <=? i); [apply (Hl 0%nat)|]. apply lookup_scalar, scalars_all. reflexivity.
Qed.

Lemma collections_typed : Forall digits_typed (digit_collections ++ fixed_collections).
Proof.
  pose proof plain_collections as Hplain. rewrite Forall_forall in Hplain. apply Forall_forall. intros d Hd. apply in_app_iff in Hd as [Hd|Hd].
  - destruct (Hplain d Hd) as (digits & Hp). eapply plain_typed, Hp.
  - assert (digits_typed CjkDecimal) as Hcjk by (destruct (Hplain CjkDecimal) as (digits & Hp); [cbn; auto 10|eapply plain_typed, Hp]).
    destruct Hd as [<-|[<-|[]]]; intros [|k]; try apply (Hcjk k); intros i ch; apply lookup_scalar, scalars_all; reflexivity.
Qed.

Definition symbols_check (symbols : list (list N)) : bool := forallb (fun s => valid_utf8 s && at_most_62 s) symbols.

Lemma symbols_check_typed c symbols : valid_config c -> symbols_check symbols = true -> symbols_typed c symbols.
Proof.
  intros Hc H. pose proof (isize_max_large c Hc). unfold symbols_check in H. rewrite forallb_forall in H. apply Forall_forall. intros s Hs.
  specialize (H s Hs). apply andb_prop in H as [Hv Hl]. split; [exact Hv|]. unfold at_most_62 in Hl. apply Nat.leb_le in Hl. lia.
Qed.

(** ** The systems *)

Definition agrees (hs : held_system) (sys : system) : Prop := forall pf T n, valid_platform pf -> Base.fits (target pf) T n ->
  (forall L, provides pf L -> simulates pf L (hs pf T n) (sys (target pf) T n)) /\ immediate (hs pf T n) (sys (target pf) T n).

Lemma digit_system_agrees (d : config -> digit_collection) : (forall c, digits_typed (d c)) ->
  agrees (held_digit_system d) (fun c T => try_format_digits c T (d c)).
Proof.
  intros H pf T n Hp Hn. split; [intros L Hprov; apply digits_sim; auto|apply digits_immediate; auto].
Qed.

Lemma zero_symbol_in symbols z : zero_symbol symbols = Some z -> In (z, 0) symbols.
Proof.
  unfold zero_symbol. destruct (rev symbols) as [|[s v] l] eqn:E; [discriminate|]. destruct v; [|discriminate].
  intros [= <-]. apply in_rev. rewrite E. left. reflexivity.
Qed.

Lemma additive_system_agrees symbols (sys : system) : symbols_check (map fst symbols) = true ->
  (forall c T n, sys c T n = (set <- additive_set_new symbols ;; try_format_additive c T set n)) ->
  agrees (held_additive_system symbols) sys.
Proof.
  intros Hs Hsys pf T n Hp Hn. rewrite Hsys. unfold held_additive_system, additive_set_new. pose proof Hp as (Hc & _).
  pose proof (symbols_check_typed _ _ Hc Hs) as Ht.
  destruct (descending symbols); [|split; [intros L _ m; split; [reflexivity|apply framed_refl]|intros m e; discriminate]].
  cbn [obind]. split.
  - intros L Hprov m. apply (additive_sim pf L T {| as_symbols := symbols; as_zero := zero_symbol symbols |} n Hp Hprov Ht).
    intros zero E. cbn [as_zero] in E. unfold symbols_typed in Ht. rewrite Forall_forall in Ht. apply Ht. apply zero_symbol_in in E. apply (in_map fst _ _ E).
  - intros m e. apply (additive_immediate pf T {| as_symbols := symbols; as_zero := zero_symbol symbols |} n Hp Ht m e).
Qed.

Lemma enumerated_system_agrees set : symbols_check (es_symbols set) = true ->
  agrees (held_enumerated_system set) (fun c T n => try_format_enumerated c T set n).
Proof.
  intros Hs pf T n Hp Hn. split; [|apply enumerated_immediate]. intros L Hprov. apply enumerated_sim; [exact Hp|exact Hprov|].
  unfold symbols_check in Hs. rewrite forallb_forall in Hs. apply Forall_forall. intros s Hin. apply Hs in Hin. apply andb_prop in Hin. apply Hin.
Qed.

Lemma chinese_system_agrees traditional formal o : agrees (held_chinese_system traditional formal o) (chinese traditional formal o).
Proof.
  intros pf T n Hp Hn. split; [|apply chinese_immediate; assumption]. intros L Hprov.
  destruct traditional, formal; unfold held_chinese_system, chinese, SimplifiedChineseInformal, SimplifiedChineseFormal, TraditionalChineseInformal, TraditionalChineseFormal;
    destruct (usage o); (apply chinese_sim; [exact Hp|exact Hprov|apply scalars_all; reflexivity|apply scalars_all; reflexivity]).
Qed.

Lemma memory_systems_agree hs sys : In (hs, sys) memory_systems -> agrees hs sys.
Proof.
  intros H. unfold memory_systems in H. rewrite !in_app_iff in H. pose proof collections_typed as Hcol. rewrite Forall_forall in Hcol.
  assert (digits_typed LetterUpper /\ digits_typed LetterLower) as [Hu Hl].
  { split; apply Hcol; cbn; auto 40. }
  destruct H as [[H|[H|H]]|[H|[H|H]]].
  - apply in_map_iff in H as (d & [= <- <-] & Hd). apply (digit_system_agrees (fun _ => d)). auto.
  - apply in_map_iff in H as (d & [= <- <-] & Hd). apply (digit_system_agrees (fun _ => one_based d)). intros _. apply one_based_typed. auto.
  - destruct H as [[= <- <-]|[[= <- <-]|[[= <- <-]|[[= <- <-]|[]]]]];
      [apply (digit_system_agrees HexUpper)|apply (digit_system_agrees HexLower)
      |apply (digit_system_agrees (fun c => one_based (HexUpper c)))|apply (digit_system_agrees (fun c => one_based (HexLower c)))];
      intros c; try apply one_based_typed; apply hex_typed; assumption.
  - repeat destruct H as [[= <- <-]|H]; try destruct H; (apply additive_system_agrees; [vm_compute; reflexivity|intros; reflexivity]).
  - destruct H as [[= <- <-]|[[= <- <-]|[[= <- <-]|[[= <- <-]|[]]]]].
    + apply enumerated_system_agrees. vm_compute. reflexivity.
    + apply enumerated_system_agrees. vm_compute. reflexivity.
    + intros pf T n Hp Hn. split; [intros L Hprov; apply ethiopic_sim; assumption|apply ethiopic_immediate, Hp].
    + intros pf T n Hp Hn. split; [|apply hebrew_immediate, Hp]. intros L Hprov. apply hebrew_sim; try assumption.
      destruct Hp as (Hc & _). pose proof (isize_max_large _ Hc). lia.
  - apply in_flat_map in H as (traditional & _ & H). apply in_flat_map in H as (formal & _ & H). apply in_flat_map in H as (u & _ & H).
    apply in_map_iff in H as (sc & [= <- <-] & _). apply chinese_system_agrees.
Qed.

(** ** C98: the built-in systems *)

(** Whatever the allocator does: an error of the formatter is returned with the
    memory as it was; otherwise the text is formatted and the only new block is
    the one of the returned string, or the text is longer than 62 bytes, a
    request for memory was refused and the panic leaves no block behind. *)
Theorem C98_formatting_in_memory : forall hs sys pf T n m, In (hs, sys) memory_systems -> valid_platform pf -> Base.fits (target pf) T n ->
  mirrors m (sys (target pf) T n) (hs pf T n m) /\
  exists r, sys (target pf) T n = Ret r.
Proof.
  intros hs sys pf T n m Hin Hp Hn. destruct (memory_systems_agree hs sys Hin pf T n Hp Hn) as [Hs Hi]. split.
  - apply (simulates_mirrors pf); [|exact Hi]. apply Hs. split; [lia|]. intros cs k Hk. lia.
  - assert (In sys builtin_systems) as Hb by (rewrite <- memory_systems_all; exact (in_map snd _ _ Hin)).
    destruct (builtin_consistent sys Hb n) as (x & Hx). destruct Hp as (Hc & Hal & _). specialize (Hx (target pf) T Hc Hn).
    destruct x; cbn [means] in Hx; [|destruct Hx; eauto|eauto]. unfold prints in Hx. rewrite Hal in Hx. destruct Hx as (s & E & _). eauto.
Qed.
Print Assumptions C98_formatting_in_memory.

(** A text of at most 62 bytes is formatted without the allocator. *)
Theorem C98_short_texts : forall hs sys pf T n m s t, In (hs, sys) memory_systems -> valid_platform pf -> Base.fits (target pf) T n ->
  sys (target pf) T n = Ret (Ok s) -> as_str s = Ret t -> (length t <= 62)%nat ->
  exists m' i, hs pf T n m = Done m' (Ok (HInline i)) /\ held_str (HInline i) m' = Done m' t /\ calls m' = calls m /\ same_blocks m m'.
Proof.
  intros hs sys pf T n m s t Hin Hp Hn E Et Hlen. destruct (memory_systems_agree hs sys Hin pf T n Hp Hn) as [Hs Hi].
  specialize (Hs 62). rewrite E in Hs. assert (provides pf 62) as Hprov by (split; [lia|intros cs k Hk; lia]). specialize (Hs Hprov m).
  assert (~ big (target pf) (N.succ 62) s) as Hsmall.
  { intros (t' & Hg & Hlt). apply good_str in Hg. assert (t' = t) as -> by congruence. lia. }
  unfold sim in Hs. destruct (hs pf T n m) as [m' r|m' []|]; try discriminate.
  - destruct Hs as (b & [= <-] & Hfr & Hrel & Hc). destruct r as [v|]; [|contradiction].
    destruct (same_str _ _ _ _ Hrel) as (t' & _ & Et' & Ev & Hinl & _). assert (t' = t) as -> by congruence.
    destruct (Hinl Hlen) as (i & ->). exists m', i. split; [reflexivity|]. split; [exact Ev|].
    split; [destruct (Hc eq_refl) as [H|H]; [exact H|contradiction]|apply framed_nothing, Hfr].
  - destruct Hs as [_ Hb]. destruct (Hsmall (Hb _ eq_refl)).
  - destruct Hs as [_ Hb]. destruct (Hsmall (Hb _ eq_refl)).
  - destruct Hs as [Hs _]. discriminate.
Qed.
Print Assumptions C98_short_texts.

(** A text of up to [L] bytes is formatted if the allocator grants requests up
    to [B] bytes and a growing string of up to [L] bytes asks for no more. *)
Definition request_size (k : call) : N := match k with Allocate n | Reallocate _ n | Deallocate n => n end.

Theorem C98_enough_memory : forall hs sys pf T n m L B s t, In (hs, sys) memory_systems -> valid_platform pf -> Base.fits (target pf) T n ->
  L <= B -> B <= isize_max (target pf) ->
  (forall capacity required, capacity < required <= L -> grow pf capacity required <= B) ->
  (forall cs k, request_size k <= B -> grants pf cs k = true) ->
  sys (target pf) T n = Ret (Ok s) -> as_str s = Ret t -> N.of_nat (length t) <= L ->
  exists m' v, hs pf T n m = Done m' (Ok v) /\ shows m' v t /\ adds_only m m' v.
Proof.
  intros hs sys pf T n m L B s t Hin Hp Hn HLB HB Hgrow Hgrant E Et Hlen.
  destruct (C98_formatting_in_memory hs sys pf T n m Hin Hp Hn) as [Hm _]. rewrite E in Hm. destruct Hm as (t' & Et' & Hm).
  assert (t' = t) as -> by congruence. destruct (hs pf T n m) as [m' [v|]|m' why|] eqn:Ef; try contradiction; [eauto|].
  exfalso. destruct Hm as (Hwhy & H62 & _). unfold at_most_62 in H62. apply Nat.leb_gt in H62.
  destruct (memory_systems_agree hs sys Hin pf T n Hp Hn) as [Hs _]. specialize (Hs L). rewrite E in Hs.
  assert (provides pf L) as Hprov.
  { split; [lia|]. intros cs k Hk.
    assert (forall q, request_size q <= B -> answer pf cs (Some q) = None) as Ha.
    { intros q Hq. unfold answer. fold (request_size q).
      destruct (N.ltb_spec (isize_max (target pf)) (request_size q)); [lia|]. rewrite (Hgrant cs q Hq). reflexivity. }
    split; [apply Ha; cbn; lia|]. intros cap Hcap. apply Ha, Hgrow. lia. }
  specialize (Hs Hprov m). unfold sim in Hs. rewrite Ef in Hs.
  assert (~ big (target pf) (N.succ L) s) as Hsmall.
  { intros (t' & Hg & Hlt). apply good_str in Hg. assert (t' = t) as -> by congruence. lia. }
  destruct Hwhy as [-> | ->]; destruct Hs as [_ Hb]; exact (Hsmall (Hb _ eq_refl)).
Qed.
Print Assumptions C98_enough_memory.

(** With the growth of the standard library's [String] and an allocator that
    never refuses: all texts of up to half of [isize::MAX] bytes. *)
Theorem C98_standard_library : forall hs sys pf T n m s t, In (hs, sys) memory_systems -> valid_platform pf -> Base.fits (target pf) T n ->
  grow pf = amortized -> (forall cs k, grants pf cs k = true) ->
  sys (target pf) T n = Ret (Ok s) -> as_str s = Ret t -> 2 * N.of_nat (length t) <= isize_max (target pf) ->
  exists m' v, hs pf T n m = Done m' (Ok v) /\ shows m' v t /\ adds_only m m' v.
Proof.
  intros hs sys pf T n m s t Hin Hp Hn Hg Hgrant E Et Hlen. pose proof Hp as (Hc & _). pose proof (isize_max_large _ Hc) as Hlarge.
  apply (C98_enough_memory hs sys pf T n m (isize_max (target pf) / 2) (isize_max (target pf)) s t); auto.
  - apply N.div_le_upper_bound; lia.
  - lia.
  - intros cap req [H1 H2]. rewrite Hg. unfold amortized. pose proof (N.mul_div_le (isize_max (target pf)) 2 ltac:(lia)). lia.
  - apply N.div_le_lower_bound; lia.
Qed.
Print Assumptions C98_standard_library.

(** 45 millions in Roman numerals take 135 bytes: one block, moved twice. The
    allocator that refuses the third request makes it panic, and the block of
    the unfinished string is given back. 38 needs no memory, and zero is an
    error in Ethiopic. *)
Definition outline (r : status (result held error)) : list call * list N * option (result (option (N * N * nat)) error) * option stop :=
  match r with
  | Done m (Ok (HHeap h)) => (calls m, sizes_in_use m, Some (Ok (Some (capacity h, len h, pointer h))), None)
  | Done m (Ok (HInline i)) => (calls m, sizes_in_use m, Some (Ok None), None)
  | Done m (Err e) => (calls m, sizes_in_use m, Some (Err e), None)
  | Stopped m why => (calls m, sizes_in_use m, None, Some why)
  | Undefined => ([], [], None, None)
  end.

Example C98_case :
  In (held_additive_system RomanUpper_symbols, RomanUpper) memory_systems /\
  outline (held_additive_system RomanUpper_symbols generous U32 45000000 no_memory) =
    ([Allocate 63; Reallocate 63 126; Reallocate 126 252], [252], Some (Ok (Some (252, 135, 2%nat))), None) /\
  outline (held_additive_system RomanUpper_symbols refuses_third U32 45000000 no_memory) =
    ([Allocate 63; Reallocate 63 126; Deallocate 126], [], None, Some AllocError) /\
  outline (held_additive_system RomanUpper_symbols generous U32 38 no_memory) = ([], [], Some (Ok None), None) /\
  outline (held_ethiopic generous U32 0 no_memory) = ([], [], Some (Err NoZeroSymbol), None).
Proof. split; [apply (nth_error_In _ 70%nat); reflexivity|]. repeat split; vm_compute; reflexivity. Qed.

(** ** C99: what a caller may build *)

Lemma safe_parts l : safe_code l -> (forall i self ch self', live_digit l i self = Ret (ch, self') -> is_scalar ch = true) /\ safe_code (live_fallback l).
Proof. intros [d H1 H2 H3 H4 H5 H6 H7 H8]. split; assumption. Qed.

Lemma safe_typed d : safe_code (still d) -> digits_typed d.
Proof.
  intros H k. revert d H. induction k as [|k IH]; intros d H i ch E; apply safe_parts in H as [H1 H2].
  - apply (H1 i tt ch tt). cbn [still live_digit]. cbn [nth_fallback] in E. rewrite E. reflexivity.
  - exact (IH (dc_fallback d) H2 i ch E).
Qed.

(** Digit collections with safe methods, also with fallbacks. *)
Theorem C99_caller_digits : forall pf T d n m, valid_platform pf -> safe_code (still d) ->
  mirrors m (try_format_digits (target pf) T d n) (held_digit_system (fun _ => d) pf T n m) /\
  try_format_digits (target pf) T d n <> UB.
Proof.
  intros pf T d n m Hp Hs. pose proof (safe_typed d Hs) as Ht. split.
  - apply (simulates_mirrors pf); [|apply digits_immediate; assumption]. apply digits_sim; [exact Hp| |exact Ht]. split; [lia|]. intros cs k Hk. lia.
  - rewrite <- C57_no_state_no_difference. pose proof (C57_sound_whatever_the_collection (target pf) T (still d) n Hs) as H.
    intros E. rewrite E in H. exact H.
Qed.
Print Assumptions C99_caller_digits.

(** Additive sets with any symbols; a set that is not in order is a panic
    before any string is made. *)
Theorem C99_caller_additive : forall pf T tbl n m, valid_platform pf -> proper tbl -> Base.fits (target pf) T n ->
  Forall (fun sv => N.of_nat (length (utf8 (fst sv))) <= isize_max (target pf)) tbl ->
  mirrors m (set <- additive_set_new (encode tbl) ;; try_format_additive (target pf) T set n) (held_additive_system (encode tbl) pf T n m) /\
  ((exists r, (set <- additive_set_new (encode tbl) ;; try_format_additive (target pf) T set n) = Ret r) \/
   held_additive_system (encode tbl) pf T n m = Stopped m OtherPanic).
Proof.
  intros pf T tbl n m Hp Hpr Hn Hlen.
  assert (symbols_typed (target pf) (map fst (encode tbl))) as Ht.
  { apply Forall_forall. intros s Hs. apply in_map_iff in Hs as ([s' v] & <- & Hin). apply in_map_iff in Hin as ([cs v'] & [= <- <-] & Hin).
    unfold proper in Hpr. rewrite Forall_forall in Hpr, Hlen. split; [apply valid_utf8_utf8, (Hpr _ Hin)|apply (Hlen _ Hin)]. }
  assert (forall zero, zero_symbol (encode tbl) = Some zero -> valid_utf8 zero = true) as Hz.
  { intros zero E. unfold symbols_typed in Ht. rewrite Forall_forall in Ht. apply Ht. apply zero_symbol_in in E. apply (in_map fst _ _ E). }
  pose proof (additive_text (target pf) T tbl {| as_symbols := encode tbl; as_zero := zero_symbol (encode tbl) |} n (proj1 Hp) Hpr Hn) as Hret.
  unfold held_additive_system, additive_set_new in *. destruct (descending (encode tbl)); cbn [obind].
  - change (and_then (holding [] (Ret ?a)) ?k m) with (k a m). cbn beta. split.
    + apply (simulates_mirrors pf); [|apply additive_immediate; assumption]. apply additive_sim; [exact Hp| |exact Ht|exact Hz]. split; [lia|]. intros cs k Hk. lia.
    + left. destruct (N.eqb_spec n 0) as [->|Hn0]; [|destruct (Hret Hn0 eq_refl) as (x & E & _); eauto].
      unfold try_format_additive. cbn [is_zero as_zero N.eqb]. destruct (zero_symbol (encode tbl)) as [zero|] eqn:Ez; [|eauto].
      destruct (valid_utf8_inv _ (Hz zero eq_refl)) as (cs & Hcs & ->). destruct Hp as (_ & Hal & _).
      destruct (from_str_text (target pf) cs Hcs) as (s & E & _); [unfold StringFacts.room; rewrite Hal; reflexivity|]. rewrite E. cbn [obind]. eauto.
  - split; [|right; reflexivity]. exists m, OtherPanic. split; [reflexivity|]. split; [discriminate|intros p; reflexivity].
Qed.
Print Assumptions C99_caller_additive.

(** Enumerated sets with any symbols. *)
Theorem C99_caller_enumerated : forall pf T symbols zeroless n m, valid_platform pf -> Forall (fun s => Forall (fun ch => is_scalar ch = true) s) symbols ->
  let set := (if zeroless : bool then enumerated_zeroless else enumerated_new) (map utf8 symbols) in
  mirrors m (try_format_enumerated (target pf) T set n) (held_enumerated_system set pf T n m) /\
  exists r, try_format_enumerated (target pf) T set n = Ret r.
Proof.
  intros pf T symbols zeroless n m Hp Hs set.
  assert (Forall (fun symbol => valid_utf8 symbol = true) (es_symbols set)) as Ht.
  { assert (es_symbols set = map utf8 symbols) as -> by (unfold set; destruct zeroless; reflexivity).
    apply Forall_forall. intros s Hin. apply in_map_iff in Hin as (cs & <- & Hin). rewrite Forall_forall in Hs. apply valid_utf8_utf8, Hs, Hin. }
  split.
  - apply (simulates_mirrors pf); [|apply enumerated_immediate]. apply enumerated_sim; [exact Hp| |exact Ht]. split; [lia|]. intros cs k Hk. lia.
  - unfold try_format_enumerated. destruct (try_from _ _ _) as [i|] eqn:Ei; [|eauto]. destruct (_ && _) eqn:Ez; [eauto|].
    assert (exists j, usub (target pf) (usize_bits (target pf)) i (if es_has_zero set then 0 else 1) = Ret j) as (j & ->).
    { unfold usub. destruct (es_has_zero set); [destruct (N.leb_spec 0 i); [eauto|lia]|].
      assert (i = n) as -> by (unfold try_from in Ei; destruct (_ <? _); congruence).
      cbn [negb andb] in Ez. unfold is_zero in Ez. destruct (N.eqb_spec n 0); [discriminate|]. destruct (N.leb_spec 1 n); [eauto|lia]. }
    cbn [obind]. destruct (lookup _ _) as [symbol|] eqn:El; [|eauto].
    assert (valid_utf8 symbol = true) as Hv.
    { unfold lookup in El. destruct (_ <? _); [|discriminate]. rewrite Forall_forall in Ht. apply Ht. eapply nth_error_In, El. }
    destruct (valid_utf8_inv _ Hv) as (cs & Hcs & ->). destruct Hp as (_ & Hal & _).
    destruct (from_str_text (target pf) cs Hcs) as (s & E & _); [unfold StringFacts.room; rewrite Hal; reflexivity|]. rewrite E. cbn [obind]. eauto.
Qed.
Print Assumptions C99_caller_enumerated.

(** A collection with one digit, which never stops writing it: memory is refused
    first. An additive and an enumerated set with a symbol of 70 bytes; a set
    that is not in order. A collection whose third digit is a panic, reached
    with 79 digits written. *)
Definition ones_only : digit_collection := digit_set_new (chars "I"%string).
Definition two_of_three : digit_collection := DC false true true (Ret 3) (dc_digit (digit_set_new (chars "01"%string))) NoFallback.
Definition bar : list N := repeat 0x2D 70.

Example C99_case :
  safe_code (still two_of_three) /\
  outline (held_digit_system (fun _ => ones_only) refuses_third U8 1 no_memory) = ([Allocate 63; Reallocate 63 126; Deallocate 126], [], None, Some AllocError) /\
  try_format_digits on_heap U128 two_of_three (2 * 3 ^ 79) = Panic /\
  outline (held_digit_system (fun _ => two_of_three) generous U128 (2 * 3 ^ 79) no_memory) = ([Allocate 63; Reallocate 63 126; Deallocate 126], [], None, Some OtherPanic) /\
  outline (held_additive_system (encode [(bar, 5); ([0x49], 1)]) generous U8 7 no_memory) = ([Allocate 70; Reallocate 70 140], [140], Some (Ok (Some (140, 72, 1%nat))), None) /\
  outline (held_additive_system (encode [([0x49], 1); (bar, 5)]) generous U8 7 no_memory) = ([], [], None, Some OtherPanic) /\
  outline (held_enumerated_system (enumerated_new [bar]) generous U8 0 no_memory) = ([Allocate 70], [70], Some (Ok (Some (70, 70, 0%nat))), None) /\
  outline (held_enumerated_system (enumerated_new [bar]) generous U8 1 no_memory) = ([], [], Some (Err (OutOfBounds 1)), None).
Proof.
  split; [|repeat split; vm_compute; reflexivity].
  assert (safe_code (still NoFallback)) as Hno.
  { cofix H. constructor; try discriminate. exact H. }
  constructor; try discriminate; [| |exact Hno]; intros i u; cbn [still live_digit two_of_three dc_digit digit_set_new].
  - destruct (lookup (chars "01"%string) i); discriminate.
  - intros ch u'. destruct (lookup (chars "01"%string) i) as [x|] eqn:El; [|discriminate]. intros [= <- <-].
    apply (lookup_scalar (chars "01"%string) i); [apply scalars_all; reflexivity|rewrite El; reflexivity].
Qed.
