(** * PropertiesBuild: C69 and C70, debug and release builds *)

From Coq Require Import String.
From Verif Require Import Prelude Utf8Facts StringFacts History Outcome DigitFacts DigitOrder DigitSets
  PropertiesDigital Additive Enumerated Live PropertiesUser PropertiesCalls PropertiesSystem System Cases.

(** The same configuration with overflow checks on (as in debug builds) or off
    (as in release builds). *)
Definition in_profile (c : config) (checks : bool) : config :=
  {| has_alloc := has_alloc c; overflow_checks := checks; usize_bits := usize_bits c; loop_depth := loop_depth c |}.

Lemma profile_bits c b T : bits (in_profile c b) T = bits c T.
Proof. destruct T; reflexivity. Qed.

Lemma profile_valid c b : valid_config c -> valid_config (in_profile c b).
Proof. exact (fun H => H). Qed.

Lemma profile_fits c b T n : fits (in_profile c b) T n <-> fits c T n.
Proof. unfold fits. rewrite profile_bits. reflexivity. Qed.

Lemma profile_try_from c b T n : try_from (in_profile c b) T n = try_from c T n.
Proof. unfold try_from. rewrite profile_bits. reflexivity. Qed.

Lemma profile_as_usize c b n : as_usize (in_profile c b) n = as_usize c n.
Proof. reflexivity. Qed.

(** ** C69 *)

Lemma inline_len_small i : inline_len i <= 127.
Proof.
  unfold inline_len. change 0x7F with (N.ones 7). rewrite N.land_ones.
  apply N.lt_succ_r. apply (N.mod_lt (length_byte i) 128). discriminate.
Qed.

Lemma profile_uadd c b i ch : uadd (in_profile c b) 8 (inline_len i) (len_utf8 ch) = uadd c 8 (inline_len i) (len_utf8 ch).
Proof.
  pose proof (inline_len_small i). pose proof (len_utf8_bounds ch). unfold uadd. change (2 ^ 8) with 256.
  destruct (N.ltb_spec (inline_len i + len_utf8 ch) 256); [reflexivity|lia].
Qed.

(** Whatever is in the string. *)
Theorem C69_pushes : forall c checks s ch str,
  try_push (in_profile c checks) s ch = try_push c s ch /\
  try_push_front (in_profile c checks) s ch = try_push_front c s ch /\
  try_push_str (in_profile c checks) s str = try_push_str c s str /\
  from_char (in_profile c checks) ch = from_char c ch /\
  from_str (in_profile c checks) str = from_str c str.
Proof.
  assert (forall c b s ch, try_push (in_profile c b) s ch = try_push c s ch) as Hp.
  { intros c b [i|h] ch; [|reflexivity]. unfold try_push. rewrite char_len_ok. cbn [obind]. rewrite profile_uadd. reflexivity. }
  intros c b s ch str. split; [apply Hp|]. split; [|split; [reflexivity|split; [|reflexivity]]].
  - destruct s as [i|h]; [|reflexivity]. unfold try_push_front. rewrite char_len_ok. cbn [obind].
    rewrite profile_uadd. reflexivity.
  - unfold from_char. rewrite Hp. reflexivity.
Qed.
Print Assumptions C69_pushes.

Lemma run_loop_same {S R} c c' (body body' : S -> outcome (loop_step S R)) : loop_depth c = loop_depth c' ->
  (forall s, body s = body' s) -> forall s, run_loop c body s = run_loop c' body' s.
Proof.
  intros Ed H s. unfold run_loop. rewrite Ed.
  assert (forall depth s, iterate depth body s = iterate depth body' s) as Hi.
  { induction depth as [|depth IH]; intros t; cbn [iterate]; [apply H|]. rewrite IH.
    destruct (iterate depth body' t) as [[]| | |]; cbn [obind]; auto. }
  rewrite Hi. reflexivity.
Qed.

Lemma obind_same {A B} (m m' : outcome A) (k k' : A -> outcome B) : m = m' -> (forall a, k a = k' a) -> obind m k = obind m' k'.
Proof. intros -> H. destruct m'; cbn [obind]; auto. Qed.

(** A collection whose methods are pure; its digits may be anything. *)
Theorem C69_collections : forall c checks T d n,
  try_format_digits (in_profile c checks) T d n = try_format_digits c T d n.
Proof.
  intros c b T d n. unfold try_format_digits. change (loop_depth (in_profile c b)) with (loop_depth c).
  generalize (loop_depth c) at 1 2. intros depth. revert d. induction depth as [|depth IH]; intros d; [reflexivity|].
  cbn [format_digits]. apply obind_same; [reflexivity|]. intros len. rewrite profile_try_from.
  destruct (try_from c T len) as [count|].
  2:{ apply obind_same; [reflexivity|]. intros ch. destruct (C69_pushes c b new ch []) as (_ & _ & _ & E & _). rewrite E. reflexivity. }
  destruct (dc_fixed d && (if dc_zero_based d then count <=? n else count <? n)).
  { apply obind_same; [reflexivity|]. intros flen. destruct (flen =? 0); [reflexivity|]. apply IH. }
  apply run_loop_same; [reflexivity|]. intros [rem first cnt s]. unfold digit_loop_body.
  cbn [dl_remaining dl_first_loop dl_count dl_formatted].
  destruct (negb (is_zero rem) || first); [|reflexivity].
  destruct (negb (dc_has_zero_digit d) && (negb (dc_zero_based d) || negb first)) eqn:Esub.
  - apply andb_true_iff in Esub as [-> _]. cbn [andb]. unfold is_zero. destruct (N.eqb_spec rem 0); [reflexivity|].
    rewrite !usub_le by lia. cbn [obind]. apply obind_same; [reflexivity|]. intros r.
    apply obind_same; [reflexivity|]. intros ch. destruct (C69_pushes c b s ch []) as (_ & E & _). rewrite E.
    apply obind_same; [reflexivity|]. intros [s' [[]|[]]]; [|reflexivity].
    apply obind_same; [reflexivity|]. intros rem'. apply obind_same; [reflexivity|]. intros len'.
    rewrite profile_try_from. reflexivity.
  - cbn [andb obind]. apply obind_same; [reflexivity|]. intros r.
    apply obind_same; [reflexivity|]. intros ch. destruct (C69_pushes c b s ch []) as (_ & E & _). rewrite E.
    apply obind_same; [reflexivity|]. intros [s' [[]|[]]]; [|reflexivity].
    apply obind_same; [reflexivity|]. intros rem'. apply obind_same; [reflexivity|]. intros len'.
    rewrite profile_try_from. reflexivity.
Qed.
Print Assumptions C69_collections.

(** Any additive and any enumerated set. *)
Theorem C69_sets : forall c checks T n,
  (forall set, try_format_additive (in_profile c checks) T set n = try_format_additive c T set n) /\
  (forall set, try_format_enumerated (in_profile c checks) T set n = try_format_enumerated c T set n).
Proof.
  intros c b T n. split; intros set.
  - unfold try_format_additive. destruct (is_zero n); [reflexivity|].
    generalize (as_symbols set), new. intros symbols s. generalize n at 2 4. intros rem. revert rem s.
    induction symbols as [|[sym v] symbols IH]; intros rem s; [reflexivity|]. cbn [additive_for].
    destruct (v =? 0); [reflexivity|]. rewrite profile_try_from. destruct (try_from c T v) as [v'|]; [|apply IH].
    apply obind_same; [|intros [[rem' s']|e]; [apply IH|reflexivity]].
    apply run_loop_same; [reflexivity|]. intros [rem' s']. unfold additive_while_body.
    destruct (N.leb_spec v' rem'); [|reflexivity]. rewrite !usub_le by assumption. reflexivity.
  - unfold try_format_enumerated. rewrite profile_try_from. destruct (try_from c Usize n) as [m|] eqn:Em; [|reflexivity].
    apply try_from_some in Em as [-> _].
    destruct (negb (es_has_zero set) && is_zero n) eqn:Ez; [reflexivity|].
    rewrite !usub_le; [reflexivity|..];
      (destruct (es_has_zero set); cbn [negb andb] in Ez; [lia|]; apply N.eqb_neq in Ez; lia).
Qed.
Print Assumptions C69_sets.

Theorem C69_builtin_systems : forall sys c checks T n,
  In sys builtin_systems -> valid_config c -> fits c T n ->
  seen (sys (in_profile c checks) T n) = seen (sys c T n).
Proof.
  intros sys c b T n Hin Hc Hn. destruct (builtin_consistent sys Hin n) as (m & Hm).
  pose proof (Hm c T Hc Hn) as M. pose proof (Hm (in_profile c b) T Hc (proj2 (profile_fits c b T n) Hn)) as M'.
  destruct m as [cs| |]; cbn [means] in M, M'.
  - unfold prints in *. cbn [in_profile has_alloc] in M'. destruct (has_alloc c || at_most_62 (utf8 cs)).
    + destruct M as (s & E & Es & _), M' as (s' & E' & Es' & _). rewrite E, E'. unfold seen. cbn [obind].
      rewrite Es, Es'. reflexivity.
    + rewrite M, M'. reflexivity.
  - destruct M as [_ M], M' as [_ M']. rewrite M, M'. reflexivity.
  - rewrite M, M'. reflexivity.
Qed.
Print Assumptions C69_builtin_systems.

Example C69_case :
  overflow_checks on_heap = true /\ overflow_checks (in_profile on_heap false) = false /\
  usub on_heap 8 0 1 = Panic /\ usub (in_profile on_heap false) 8 0 1 = Ret 255 /\
  map (fun b => seen (try_format_digits (in_profile on_heap b) U8 LetterLower 255)) [true; false] =
    [Ret (Ok (bytes "iv"%string)); Ret (Ok (bytes "iv"%string))].
Proof. repeat (split; [vm_compute; reflexivity|]). vm_compute; reflexivity. Qed.

(** ** C70: collections of the caller *)

(** [has_zero_digit()] always answers the same. *)
CoInductive steady : live_collection -> Prop :=
| Steady d z :
    (forall self answer self', live_has_zero_digit d self = Ret (answer, self') -> answer = z) ->
    steady (live_fallback d) -> steady d.

(** Full statement: the same for every collection written by the caller, and
    for chains of any two collections. *)
Theorem C70_steady_collections_partial : forall c checks T d n, steady d ->
  try_format_live (in_profile c checks) T d n = try_format_live c T d n.
Proof.
  intros c b T d n. unfold try_format_live. change (loop_depth (in_profile c b)) with (loop_depth c).
  generalize (loop_depth c) at 1 2. intros depth. revert d. induction depth as [|depth IH]; intros d Hd; [reflexivity|].
  cbn [format_live]. apply obind_same; [reflexivity|]. intros [len self]. rewrite profile_try_from.
  destruct (try_from c T len) as [count|].
  2:{ apply obind_same; [reflexivity|]. intros [ch self']. destruct (C69_pushes c b new ch []) as (_ & _ & _ & E & _).
      rewrite E. reflexivity. }
  apply obind_same; [reflexivity|]. intros [fixed self1]. apply obind_same; [reflexivity|]. intros [beyond self2].
  destruct Hd as [d z Hz Hd].
  destruct beyond.
  { apply obind_same; [reflexivity|]. intros [empty start]. destruct empty; [reflexivity|]. apply IH.
    destruct Hd as [e z' Hz' Hd']. apply Steady with z'; [exact Hz'|exact Hd']. }
  apply run_loop_same; [reflexivity|]. intros [rem first cnt s self3]. unfold live_loop_body.
  cbn [ll_remaining ll_first_loop ll_count ll_formatted ll_self].
  destruct (negb (is_zero rem) || first); [|reflexivity].
  destruct (live_has_zero_digit d self3) as [[has_zero self4]| | |] eqn:Eh; cbn [obind]; try reflexivity.
  apply Hz in Eh as ->. destruct z.
  - cbn [obind]. apply obind_same; [reflexivity|]. intros r. apply obind_same; [reflexivity|]. intros [ch self5].
    destruct (C69_pushes c b s ch []) as (_ & E & _). rewrite E. apply obind_same; [reflexivity|]. intros [s' [[]|[]]]; [|reflexivity].
    apply obind_same; [reflexivity|]. intros rem'. apply obind_same; [reflexivity|]. intros [len' self6].
    rewrite profile_try_from. reflexivity.
  - apply obind_same; [reflexivity|]. intros [subtract self5]. destruct subtract; cbn [obind].
    + destruct (live_has_zero_digit d self5) as [[has_zero self6]| | |] eqn:Eh'; cbn [obind]; try reflexivity.
      apply Hz in Eh' as ->. cbn [negb andb]. unfold is_zero. destruct (N.eqb_spec rem 0); [reflexivity|].
      rewrite !usub_le by lia. cbn [obind]. apply obind_same; [reflexivity|]. intros r. apply obind_same; [reflexivity|]. intros [ch self7].
      destruct (C69_pushes c b s ch []) as (_ & E & _). rewrite E. apply obind_same; [reflexivity|]. intros [s' [[]|[]]]; [|reflexivity].
      apply obind_same; [reflexivity|]. intros rem'. apply obind_same; [reflexivity|]. intros [len' self8].
      rewrite profile_try_from. reflexivity.
    + apply obind_same; [reflexivity|]. intros r. apply obind_same; [reflexivity|]. intros [ch self7].
      destruct (C69_pushes c b s ch []) as (_ & E & _). rewrite E. apply obind_same; [reflexivity|]. intros [s' [[]|[]]]; [|reflexivity].
      apply obind_same; [reflexivity|]. intros rem'. apply obind_same; [reflexivity|]. intros [len' self8].
      rewrite profile_try_from. reflexivity.
Qed.
Print Assumptions C70_steady_collections_partial.

(** The length of a chain: the sum of the lengths if it is a [usize]. *)
Theorem C70_chains_partial : forall c checks a b la lb,
  dc_len a = Ret la -> dc_len b = Ret lb ->
  dc_len (chain (in_profile c checks) a b) =
    if la + lb <? 2 ^ usize_bits c then Ret (la + lb)
    else if checks then Panic else Ret ((la + lb) mod 2 ^ usize_bits c).
Proof. intros c checks a b la lb Ha Hb. cbn [chain dc_len]. rewrite Ha, Hb. reflexivity. Qed.
Print Assumptions C70_chains_partial.

Theorem C70_fickle_refuted : exists c T n,
  seen (try_format_live (in_profile c true) T fickle n) = Panic /\
  seen (try_format_live (in_profile c false) T fickle n) = Ret (Ok (bytes "145"%string)).
Proof. exists on_heap, U8, 0. split; vm_compute; reflexivity. Qed.
Print Assumptions C70_fickle_refuted.

(** Two collections that together have one digit more than a [usize] counts
    (on a 16-bit target): formatting with their chain panics in debug builds,
    in release builds the chain has one digit. *)
Definition half : digit_collection := restrict 0x8000 Decimal.
Definition more_than_half : digit_collection := restrict 0x8001 Decimal.

Theorem C70_chains_refuted :
  seen (try_format_digits (in_profile no_heap true) U8 (chain (in_profile no_heap true) half more_than_half) 0) = Panic /\
  dc_len (chain (in_profile no_heap false) half more_than_half) = Ret 1 /\
  seen (try_format_digits (in_profile no_heap false) U8 (chain (in_profile no_heap false) half more_than_half) 0) = Ret (Ok (bytes "0"%string)).
Proof. split; [|split]; vm_compute; reflexivity. Qed.
Print Assumptions C70_chains_refuted.

Example C70_case :
  steady letters_live /\
  map (fun b => seen (try_format_live (in_profile no_heap b) U8 letters_live 255)) [true; false] =
    [Ret (Ok (bytes "bcaaa"%string)); Ret (Ok (bytes "bcaaa"%string))].
Proof.
  split; [|vm_compute; reflexivity]. cofix H. apply Steady with false; [|exact H].
  intros self answer self' E. cbn [letters_live live_has_zero_digit] in E. injection E as <- _. reflexivity.
Qed.
