(** * AdditiveSets: the built-in additive systems print from their tables *)

From Coq Require Import String Sorted.
From Verif Require Import Prelude Utf8Facts StringFacts History Outcome Additive DigitSets.
From Verif Require Export AdditiveFacts.

Definition system := config -> uint -> N -> outcome (result nominal_string error).

(** The last symbol when it is worth nothing. *)
Definition zero_of (tbl : table) : option (list N) :=
  match rev tbl with (z, 0) :: _ => Some z | _ => None end.

(** The system is an additive set with this table. *)
Definition uses_table (sys : system) (tbl : table) : Prop :=
  forall c T n, sys c T n = (set <- additive_set_new (encode tbl) ;; try_format_additive c T set n).

Definition properb (tbl : table) : bool := forallb (fun '(s, _) => forallb is_scalar s) tbl.

Lemma properb_proper tbl : properb tbl = true -> proper tbl.
Proof.
  intros H. apply Forall_forall. intros [s v] Hin. unfold properb in H. rewrite forallb_forall in H.
  apply H in Hin. apply scalars_check, Hin.
Qed.

(** Everything the proofs need to know of a table, as one check. *)
Definition good_table (tbl : table) : bool :=
  properb tbl && descending tbl && existsb (fun '(_, v) => v =? 1) tbl && unclashing tbl &&
  match zero_of tbl with Some z => utf8_len z <=? 62 | None => true end &&
  match zero_of tbl with Some z => match read tbl z with Some v => v =? 0 | None => false end | None => true end.

Lemma good_table_parts tbl : good_table tbl = true ->
  proper tbl /\ strictly_descending tbl /\ In 1 (map snd tbl) /\ unclashing tbl = true /\
  (forall z, zero_of tbl = Some z -> utf8_len z <= 62 /\ read tbl z = Some 0).
Proof.
  unfold good_table. rewrite !andb_true_iff. intros (((((H1 & H2) & H3) & H4) & H5) & H6).
  split; [apply properb_proper, H1|]. split; [apply descending_sorted, H2|]. split.
  - apply existsb_exists in H3 as ([s v] & Hin & E). apply in_map_iff. exists (s, v). split; [cbn; lia|assumption].
  - split; [assumption|]. intros z Hz. rewrite Hz in H5, H6. split; [lia|].
    destruct (read tbl z); [|discriminate]. f_equal. lia.
Qed.

Lemma zero_of_encode tbl : zero_symbol (encode tbl) = option_map utf8 (zero_of tbl).
Proof.
  unfold zero_symbol, zero_of, encode. rewrite <- map_rev. destruct (rev tbl) as [|[s v] l]; [reflexivity|].
  cbn. destruct v; reflexivity.
Qed.

Lemma zero_of_in tbl z : zero_of tbl = Some z -> In (z, 0) tbl.
Proof.
  unfold zero_of. destruct (rev tbl) as [|[s v] l] eqn:E; [discriminate|]. destruct v; [|discriminate].
  intros H. injection H as <-. apply in_rev. rewrite E. left. reflexivity.
Qed.

Lemma table_new tbl : strictly_descending tbl ->
  additive_set_new (encode tbl) = Ret {| as_symbols := encode tbl; as_zero := option_map utf8 (zero_of tbl) |}.
Proof.
  intros H. unfold additive_set_new. apply encode_sorted, descending_sorted in H. rewrite H, zero_of_encode. reflexivity.
Qed.

Lemma system_positive sys tbl c T n : uses_table sys tbl -> good_table tbl = true ->
  valid_config c -> fits c T n -> n <> 0 -> yields c (sys c T n) n (gtext tbl n).
Proof.
  intros Hs Hg Hc Hn Hn0. destruct (good_table_parts tbl Hg) as (Hp & Hd & _).
  rewrite Hs, table_new by assumption. cbn [obind]. apply additive_text; try assumption. apply table_new, Hd.
Qed.

Lemma system_zero sys tbl c T z : uses_table sys tbl -> good_table tbl = true ->
  zero_of tbl = Some z -> yields c (sys c T 0) 0 z.
Proof.
  intros Hs Hg Hz. destruct (good_table_parts tbl Hg) as (Hp & Hd & _ & _ & H0).
  rewrite Hs, table_new by assumption. unfold try_format_additive. rewrite Hz. cbn.
  destruct (from_str_text c z) as (s & E & Ht).
  - unfold proper in Hp. rewrite Forall_forall in Hp. apply zero_of_in in Hz. apply (Hp _ Hz).
  - unfold room. destruct (H0 z Hz) as [Hl _]. destruct (has_alloc c); cbn [orb]; [reflexivity|]. lia.
  - rewrite E. cbn. eexists. split; [reflexivity|]. apply stored_text, Ht.
Qed.

Lemma system_no_zero sys tbl c T : uses_table sys tbl -> good_table tbl = true ->
  zero_of tbl = None -> sys c T 0 = Ret (Err NoZeroSymbol).
Proof.
  intros Hs Hg Hz. destruct (good_table_parts tbl Hg) as (Hp & Hd & _).
  rewrite Hs, table_new by assumption. unfold try_format_additive. rewrite Hz. reflexivity.
Qed.

(** ** The tables of the built-in systems *)

Definition additive_systems : list (system * table) :=
  [(RomanUpper, roman_upper_table); (RomanLower, roman_lower_table);
   (ArmenianUpper, armenian_upper_table); (ArmenianLower, armenian_lower_table);
   (Georgian, georgian_table);
   (JapaneseFormal, japanese_formal_table); (JapaneseInformal, japanese_informal_table);
   (HangeulFormal, korean_hangul_formal_table);
   (HanjaInformal, korean_hanja_informal_table); (HanjaFormal, korean_hanja_formal_table)].

Definition table_ok (sys : system) (tbl : table) : Prop := uses_table sys tbl /\ good_table tbl = true.

Lemma roman_upper_ok : table_ok RomanUpper roman_upper_table.
Proof.
  split; [|vm_compute; reflexivity]. intros c T n. change (encode roman_upper_table) with RomanUpper_symbols. reflexivity.
Qed.

Lemma roman_lower_ok : table_ok RomanLower roman_lower_table.
Proof.
  split; [|vm_compute; reflexivity]. intros c T n. change (encode roman_lower_table) with RomanLower_symbols. reflexivity.
Qed.

Lemma armenian_upper_ok : table_ok ArmenianUpper armenian_upper_table.
Proof.
  split; [|vm_compute; reflexivity]. intros c T n. change (encode armenian_upper_table) with ArmenianUpper_symbols. reflexivity.
Qed.

Lemma armenian_lower_ok : table_ok ArmenianLower armenian_lower_table.
Proof.
  split; [|vm_compute; reflexivity]. intros c T n. change (encode armenian_lower_table) with ArmenianLower_symbols. reflexivity.
Qed.

Lemma georgian_ok : table_ok Georgian georgian_table.
Proof.
  split; [|vm_compute; reflexivity]. intros c T n. change (encode georgian_table) with Georgian_symbols. reflexivity.
Qed.

Lemma japanese_formal_ok : table_ok JapaneseFormal japanese_formal_table.
Proof.
  split; [|vm_compute; reflexivity]. intros c T n. change (encode japanese_formal_table) with JapaneseFormal_symbols. reflexivity.
Qed.

Lemma japanese_informal_ok : table_ok JapaneseInformal japanese_informal_table.
Proof.
  split; [|vm_compute; reflexivity]. intros c T n. change (encode japanese_informal_table) with JapaneseInformal_symbols. reflexivity.
Qed.

Lemma korean_hangul_formal_ok : table_ok HangeulFormal korean_hangul_formal_table.
Proof.
  split; [|vm_compute; reflexivity]. intros c T n. change (encode korean_hangul_formal_table) with HangeulFormal_symbols. reflexivity.
Qed.

Lemma korean_hanja_informal_ok : table_ok HanjaInformal korean_hanja_informal_table.
Proof.
  split; [|vm_compute; reflexivity]. intros c T n. change (encode korean_hanja_informal_table) with HanjaInformal_symbols. reflexivity.
Qed.

Lemma korean_hanja_formal_ok : table_ok HanjaFormal korean_hanja_formal_table.
Proof.
  split; [|vm_compute; reflexivity]. intros c T n. change (encode korean_hanja_formal_table) with HanjaFormal_symbols. reflexivity.
Qed.

Lemma additive_systems_ok : Forall (fun '(sys, tbl) => table_ok sys tbl) additive_systems.
Proof.
  apply Forall_cons; [exact roman_upper_ok|].
  apply Forall_cons; [exact roman_lower_ok|].
  apply Forall_cons; [exact armenian_upper_ok|].
  apply Forall_cons; [exact armenian_lower_ok|].
  apply Forall_cons; [exact georgian_ok|].
  apply Forall_cons; [exact japanese_formal_ok|].
  apply Forall_cons; [exact japanese_informal_ok|].
  apply Forall_cons; [exact korean_hangul_formal_ok|].
  apply Forall_cons; [exact korean_hanja_informal_ok|].
  apply Forall_cons; [exact korean_hanja_formal_ok|].
  constructor.
Qed.
