(** * PropertiesHeapPrograms: C102, programs that format *)

From Coq Require Import String Permutation.
From Verif Require Import Prelude Utf8Facts StringFacts NominalString Spec History Outcome DigitSets AdditiveSets ScriptFacts DigitFacts PropertiesDigital
  Digital Additive Enumerated Ethiopic Hebrew Chinese System Live PropertiesSystem PropertiesUser Cases
  HeapMemory HeapFormat HeapLive PropertiesHeap PropertiesAllocation HeapFormatFacts HeapFormatSim HeapFormatErrors PropertiesHeapFormat PropertiesHeapLive.

(** ** What is meant *)

(** The systems a program may use: with strings in memory, and on values. *)
Inductive usable (c : config) : held_system -> system -> Prop :=
| built_in hs sys : In (hs, sys) memory_systems -> usable c hs sys
| callers_digits d : safe_code d -> usable c (held_live_system d) (fun c T => try_format_live c T d)
| callers_additive tbl : proper tbl -> Forall (fun sv => N.of_nat (length (utf8 (fst sv))) <= isize_max c) tbl ->
    usable c (held_additive_system (encode tbl)) (fun c T n => set <- additive_set_new (encode tbl) ;; try_format_additive c T set n)
| callers_enumerated symbols : Forall (fun s => Forall (fun ch => is_scalar ch = true) s) symbols -> forall zeroless : bool,
    let set := (if zeroless then enumerated_zeroless else enumerated_new) (map utf8 symbols) in
    usable c (held_enumerated_system set) (fun c T n => try_format_enumerated c T set n).

Definition keep_text (sp : descriptions) (x : nat) (r : outcome nominal_string) : descriptions :=
  match r with
  | Ret s => match as_str s with Ret t => put sp x (Some (inline_text t)) | _ => sp end
  | _ => sp
  end.

(** What a command does when every variable has a text of its own and strings
    are values. *)
Definition command_means (c : config) (systems : list system) (sp : descriptions) (k : command) : descriptions :=
  match k with
  | Do i => statement_means sp i
  | TryFormat k T n x =>
      match nth_error systems k with
      | Some sys => match sys c T n with Ret (Ok s) => keep_text sp x (Ret s) | _ => sp end
      | None => sp
      end
  | ToNominal k T n x =>
      match nth_error systems k with
      | Some sys => keep_text sp x (to_nominal n (default_system c T (sys c T)))
      | None => sp
      end
  | AppendTo x y =>
      match sp x, sp y with
      | Some {| is_string := false; text := t; in_heap := h |}, Some d =>
          if Nat.eqb x y then sp
          else put sp x (Some {| is_string := false; text := t ++ text d; in_heap := h || negb (at_most_62 (t ++ text d)) |})
      | _, _ => sp
      end
  end.

Definition command_gone (sp : descriptions) (k : command) : descriptions :=
  match k with Do i => gone sp i | _ => sp end.

Fixpoint commands_mean (c : config) (systems : list system) (sp : descriptions) (p : list command) (ws : list (option stop)) : descriptions :=
  match p, ws with
  | k :: p, None :: ws => commands_mean c systems (command_means c systems sp k) p ws
  | k :: p, Some _ :: ws => commands_mean c systems (command_gone sp k) p ws
  | _, _ => sp
  end.

Definition valid_command (c : config) (k : command) : Prop :=
  match k with
  | Do i => valid_statement c i
  | TryFormat _ T n _ | ToNominal _ T n _ => Base.fits c T n
  | AppendTo _ _ => True
  end.

(** The commands whose formatting does not return. *)
Definition hangs (c : config) (systems : list system) (k : command) : Prop :=
  match k with
  | Do _ | AppendTo _ _ => False
  | TryFormat k T n _ => exists sys, nth_error systems k = Some sys /\ sys c T n = Hang
  | ToNominal k T n _ => exists sys, nth_error systems k = Some sys /\ to_nominal n (default_system c T (sys c T)) = Hang
  end.

(** ** Proofs *)

(** *** The calls of the formatters *)

Lemma keeps_held_drop c v : keeps c (held_drop v).
Proof. apply (keeps_value_drop c (ANominal v)). Qed.

Lemma keeps_drop_all c l : keeps c (drop_all l).
Proof. induction l as [|v l IH]; cbn [drop_all]; [apply keeps_done|]. apply keeps_then; [apply keeps_held_drop|intros _; exact IH]. Qed.

Lemma keeps_unwinding {A} c l (f : action A) : keeps c f -> keeps c (unwinding l f).
Proof.
  intros Hf m Hm. specialize (Hf m Hm). unfold unwinding. destruct (f m) as [m1 a|m1 why|]; [exact Hf| |exact I].
  assert (keeps c (_ <~ drop_all l ;; @stopped A why)) as Hd by (apply keeps_then; [apply keeps_drop_all|intros _; apply keeps_stopped]).
  destruct why; [apply Hd, Hf|apply Hd, Hf|apply Hd, Hf|exact Hf].
Qed.

Lemma keeps_holding {A} c l (o : outcome A) : keeps c (holding l o).
Proof. apply keeps_unwinding, keeps_pure. Qed.

Lemma keeps_pushing {A} c l v push e (k : held -> action A) : keeps c push -> (forall v, keeps c (k v)) -> keeps c (pushing l v push e k).
Proof.
  intros Hp Hk. apply keeps_then; [apply keeps_unwinding, Hp|]. intros [v' [u|x]]; [apply Hk|].
  apply keeps_then; [apply keeps_drop_all|intros _; apply keeps_done].
Qed.

Lemma keeps_held_str c v : keeps c (held_str v).
Proof. destruct v; [apply keeps_pure|apply keeps_string_str]. Qed.

Lemma keeps_is_empty c v : keeps c (held_is_empty v).
Proof. apply keeps_then; [apply keeps_held_str|intros; apply keeps_done]. Qed.

Lemma keeps_repeat {S R} c d (body : S -> action (loop_step S R)) s : (forall s, keeps c (body s)) -> keeps c (repeat_action d body s).
Proof.
  intros H. revert s. induction d as [|d IH]; intros s; cbn [repeat_action]; [apply H|]. apply keeps_then; [apply IH|]. intros [s'|r]; [apply IH|apply keeps_done].
Qed.

Lemma keeps_loop {S R} c c' (body : S -> action (loop_step S R)) s : (forall s, keeps c (body s)) -> keeps c (loop_action c' body s).
Proof. intros H. apply keeps_then; [apply keeps_repeat, H|]. intros [s'|r]; [apply keeps_stopped|apply keeps_done]. Qed.

Lemma keeps_push_str pf v bs : valid_platform pf -> keeps (target pf) (held_push_str pf v bs).
Proof. intros Hp. unfold held_push_str. keep Hp. Qed.

Lemma keeps_push_front pf v ch : valid_platform pf -> keeps (target pf) (held_push_front pf v ch).
Proof. intros Hp. unfold held_push_front. keep Hp. Qed.

Lemma keeps_from_char pf ch : valid_platform pf -> keeps (target pf) (held_from_char pf ch).
Proof. intros Hp. unfold held_from_char. apply keeps_then; [apply keeps_push, Hp|]. intros [v [u|e]]; [apply keeps_done|apply keeps_stopped]. Qed.

Lemma keeps_from_str pf bs : valid_platform pf -> keeps (target pf) (held_from_str pf bs).
Proof. intros Hp. unfold held_from_str. keep Hp. Qed.

Ltac format_keep Hp :=
  match goal with
  | |- keeps _ (and_then _ _) => apply keeps_then; [format_keep Hp|intros ?; format_keep Hp]
  | |- keeps _ (done _) => apply keeps_done
  | |- keeps _ (stopped _) => apply keeps_stopped
  | |- keeps _ (holding _ _) => apply keeps_holding
  | |- keeps _ (unwinding _ _) => apply keeps_unwinding; format_keep Hp
  | |- keeps _ (pushing _ _ _ _ _) => apply keeps_pushing; [format_keep Hp|intros ?; format_keep Hp]
  | |- keeps _ (held_push _ _ _) => apply keeps_push, Hp
  | |- keeps _ (held_push_str _ _ _) => apply keeps_push_str, Hp
  | |- keeps _ (held_push_front _ _ _) => apply keeps_push_front, Hp
  | |- keeps _ (held_from_char _ _) => apply keeps_from_char, Hp
  | |- keeps _ (held_from_str _ _) => apply keeps_from_str, Hp
  | |- keeps _ (held_drop _) => apply keeps_held_drop
  | |- keeps _ (held_str _) => apply keeps_held_str
  | |- keeps _ (held_is_empty _) => apply keeps_is_empty
  | |- keeps _ (loop_action _ _ _) => apply keeps_loop; intros ?; format_keep Hp
  | |- keeps _ (let _ := _ in _) => cbn zeta; format_keep Hp
  | |- keeps _ (match ?x with _ => _ end) => destruct x; format_keep Hp
  | |- keeps _ _ => idtac
  end.

Lemma keeps_digits depth pf T d n : valid_platform pf -> keeps (target pf) (held_digits depth pf T d n).
Proof.
  intros Hp. revert d. induction depth as [|depth IH]; intros d; cbn [held_digits]; [apply keeps_stopped|].
  format_keep Hp; [apply IH|]. unfold held_digit_body. format_keep Hp.
Qed.

Lemma keeps_live depth pf T d n : valid_platform pf -> keeps (target pf) (held_live depth pf T d n).
Proof.
  intros Hp. revert d. induction depth as [|depth IH]; intros d; cbn [held_live]; [apply keeps_stopped|].
  format_keep Hp; [apply IH|]. unfold held_live_body. format_keep Hp.
Qed.

Lemma keeps_additive pf T set n : valid_platform pf -> keeps (target pf) (held_additive pf T set n).
Proof.
  intros Hp. unfold held_additive. format_keep Hp. generalize n at 2. generalize empty_forward.
  induction (as_symbols set) as [|[symbol value] rest IH]; intros v remaining; cbn [held_additive_for]; format_keep Hp; try apply IH.
  unfold held_additive_body. format_keep Hp.
Qed.

Lemma keeps_enumerated pf T set n : valid_platform pf -> keeps (target pf) (held_enumerated pf T set n).
Proof. intros Hp. unfold held_enumerated. format_keep Hp. Qed.

Lemma keeps_ethiopic pf T n : valid_platform pf -> keeps (target pf) (held_ethiopic pf T n).
Proof.
  intros Hp. unfold held_ethiopic. format_keep Hp. unfold held_ethiopic_body, held_push_front_if. format_keep Hp.
Qed.

Lemma keeps_hebrew pf T n : valid_platform pf -> keeps (target pf) (held_hebrew pf T n).
Proof.
  intros Hp. unfold held_hebrew. format_keep Hp. generalize n at 2. generalize empty_forward.
  induction hebrew_symbols as [|[symbol value] rest IH]; intros v remaining; cbn [held_hebrew_for]; format_keep Hp; try apply IH.
  unfold held_hebrew_body. format_keep Hp.
Qed.

Lemma keeps_push_char {E} conv pf v ch flag (k : held -> action (held_flagged E)) : valid_platform pf -> (forall v, keeps (target pf) (k v)) ->
  keeps (target pf) (held_push_char conv pf v ch flag k).
Proof. intros Hp Hk. unfold held_push_char. format_keep Hp. apply Hk. Qed.

Lemma keeps_inner pf formal chars n a b : valid_platform pf -> keeps (target pf) (held_chinese_inner pf formal chars n a b).
Proof.
  intros Hp. unfold held_chinese_inner. repeat (format_keep Hp; try (apply keeps_push_char; [exact Hp|]; intros ?)).
Qed.

Lemma keeps_append_result pf v tail flag : valid_platform pf -> keeps (target pf) (held_append_result pf v tail flag).
Proof. intros Hp. unfold held_append_result. format_keep Hp. Qed.

Lemma keeps_short pf T formal rank chars large n : valid_platform pf -> keeps (target pf) (held_short_rank pf T formal rank chars large n).
Proof.
  intros Hp. induction rank as [|rank IH]; cbn [held_short_rank]; format_keep Hp;
    try apply IH; try apply keeps_append_result, Hp; try apply keeps_inner, Hp; unfold held_short_body, held_short_next; format_keep Hp.
Qed.

Lemma keeps_scaled pf formal rank scales chars large n a b : valid_platform pf -> keeps (target pf) (held_scaled_rank pf formal rank scales chars large n a b).
Proof.
  intros Hp. revert n a b. induction rank as [|rank IH]; intros n a b.
  - cbn [held_scaled_rank].
    repeat (format_keep Hp; try apply keeps_inner, Hp; try apply keeps_append_result, Hp; try (apply keeps_push_char; [exact Hp|]; intros ?)).
  - cbn [held_scaled_rank]. set (next := held_scaled_rank pf formal rank scales chars large) in *. clearbody next.
    repeat (format_keep Hp; try apply IH; try apply keeps_append_result, Hp; try (apply keeps_push_char; [exact Hp|]; intros ?)).
Qed.

Lemma keeps_chinese pf T formal chars large n sc : valid_platform pf -> keeps (target pf) (held_chinese pf T formal chars large n sc).
Proof.
  intros Hp. unfold held_chinese, held_scale, held_scaled.
  repeat (format_keep Hp; try apply keeps_inner, Hp; try apply keeps_short, Hp; try apply keeps_scaled, Hp).
Qed.

Lemma keeps_additive_system pf T symbols n : valid_platform pf -> keeps (target pf) (held_additive_system symbols pf T n).
Proof. intros Hp. unfold held_additive_system. format_keep Hp. apply keeps_additive, Hp. Qed.

Lemma usable_keeps c hs sys pf T n : usable c hs sys -> valid_platform pf -> keeps (target pf) (hs pf T n).
Proof.
  intros Hu Hp. destruct Hu as [hs sys H|d _|tbl _ _|symbols _ zeroless set].
  - unfold memory_systems in H. rewrite !in_app_iff in H. destruct H as [[H|[H|H]]|[H|[H|H]]].
    + apply in_map_iff in H as (d & [= <- <-] & _). apply keeps_digits, Hp.
    + apply in_map_iff in H as (d & [= <- <-] & _). apply keeps_digits, Hp.
    + destruct H as [[= <- <-]|[[= <- <-]|[[= <- <-]|[[= <- <-]|[]]]]]; apply keeps_digits, Hp.
    + repeat destruct H as [[= <- <-]|H]; try destruct H; apply keeps_additive_system, Hp.
    + destruct H as [[= <- <-]|[[= <- <-]|[[= <- <-]|[[= <- <-]|[]]]]];
        [apply keeps_enumerated, Hp|apply keeps_enumerated, Hp|apply keeps_ethiopic, Hp|apply keeps_hebrew, Hp].
    + apply in_flat_map in H as (traditional & _ & H). apply in_flat_map in H as (formal & _ & H). apply in_flat_map in H as (u & _ & H).
      apply in_map_iff in H as (sc & [= <- <-] & _). apply keeps_chinese, Hp.
  - apply keeps_live, Hp.
  - apply keeps_additive_system, Hp.
  - apply keeps_enumerated, Hp.
Qed.

Lemma keeps_into_decimal depth pf T e : valid_platform pf -> keeps (target pf) (held_into_decimal depth pf T e).
Proof.
  intros Hp. revert e. induction depth as [|depth IH]; intros e; cbn [held_into_decimal]; [apply keeps_stopped|].
  destruct e; format_keep Hp; try apply IH; apply keeps_digits, Hp.
Qed.

Lemma keeps_to_nominal c hs sys pf T n : usable c hs sys -> valid_platform pf -> keeps (target pf) (held_to_nominal hs pf T n).
Proof.
  intros Hu Hp. apply keeps_then; [eapply usable_keeps; eassumption|]. intros [v|e]; [apply keeps_done|apply keeps_into_decimal, Hp].
Qed.

(** *** The systems *)

Lemma usable_sim hs sys pf T n : usable (target pf) hs sys -> valid_platform pf -> Base.fits (target pf) T n ->
  simulates pf 62 (hs pf T n) (sys (target pf) T n) /\ sys (target pf) T n <> UB.
Proof.
  intros Hu Hp Hn. destruct Hu as [hs sys H|d Hd|tbl Hpr Hlen|symbols Hs zeroless set].
  - split; [apply (memory_systems_agree hs sys H pf T n Hp Hn), provides_62|].
    destruct (C98_formatting_in_memory hs sys pf T n no_memory H Hp Hn) as [_ (r & ->)]. discriminate.
  - split; [apply live_sim; [exact Hp|apply provides_62|exact Hd]|apply (C100_stateful_digits pf T d n no_memory Hp Hd)].
  - assert (symbols_typed (target pf) (map fst (encode tbl))) as Ht.
    { apply Forall_forall. intros s Hs. apply in_map_iff in Hs as ([s' v] & <- & Hin). apply in_map_iff in Hin as ([cs v'] & [= <- <-] & Hin).
      unfold proper in Hpr. rewrite Forall_forall in Hpr, Hlen. split; [apply valid_utf8_utf8, (Hpr _ Hin)|apply (Hlen _ Hin)]. }
    split.
    + unfold held_additive_system, additive_set_new. destruct (descending (encode tbl)); cbn [obind].
      * intros m. apply (additive_sim pf 62 T {| as_symbols := encode tbl; as_zero := zero_symbol (encode tbl) |} n Hp (provides_62 pf) Ht).
        intros zero E. unfold symbols_typed in Ht. rewrite Forall_forall in Ht. apply Ht. apply zero_symbol_in in E. apply (in_map fst _ _ E).
      * intros m. split; [reflexivity|apply framed_refl].
    + destruct (C99_caller_additive pf T tbl n no_memory Hp Hpr Hn Hlen) as [Hm [(r & ->)|E]]; [discriminate|].
      intros E'. unfold additive_set_new in E'. destruct (descending (encode tbl)) eqn:Ed; [|discriminate].
      unfold held_additive_system, additive_set_new in E. rewrite Ed in E.
      pose proof (additive_text (target pf) T tbl {| as_symbols := encode tbl; as_zero := zero_symbol (encode tbl) |} n (proj1 Hp) Hpr Hn) as Hret.
      unfold additive_set_new in Hret. rewrite Ed in Hret. cbn [obind] in E'.
      destruct (N.eqb_spec n 0) as [->|Hn0]; [|destruct (Hret Hn0 eq_refl) as (x & Ex & _); congruence].
      unfold try_format_additive in E'. cbn [is_zero as_zero N.eqb] in E'. destruct (zero_symbol (encode tbl)) as [zero|] eqn:Ez; [|discriminate].
      assert (valid_utf8 zero = true) as Hz.
      { unfold symbols_typed in Ht. rewrite Forall_forall in Ht. apply Ht. apply zero_symbol_in in Ez. apply (in_map fst _ _ Ez). }
      destruct (valid_utf8_inv _ Hz) as (cs & Hcs & ->). destruct Hp as (_ & Hal & _).
      destruct (from_str_text (target pf) cs Hcs) as (s & Es & _); [unfold StringFacts.room; rewrite Hal; reflexivity|]. rewrite Es in E'. discriminate.
  - split; [|destruct (C99_caller_enumerated pf T symbols zeroless n no_memory Hp Hs) as [_ (r & E)]; unfold set; rewrite E; discriminate].
    apply enumerated_sim; [exact Hp|apply provides_62|].
    assert (es_symbols set = map utf8 symbols) as -> by (unfold set; destruct zeroless; reflexivity).
    apply Forall_forall. intros s Hin. apply in_map_iff in Hin as (cs & <- & Hin). rewrite Forall_forall in Hs. apply valid_utf8_utf8, Hs, Hin.
Qed.

Definition text_sim (pf : platform) (f : action held) (o : outcome nominal_string) : Prop :=
  forall m, sim pf 62 m [] f o (fun v => owned_by [v]) (repr (target pf)) (fun _ => True).

Lemma into_decimal_sim depth pf T e : valid_platform pf -> text_sim pf (held_into_decimal depth pf T e) (into_decimal depth (target pf) T e).
Proof.
  intros Hp. revert e. induction depth as [|depth IH]; intros e m; cbn [held_into_decimal into_decimal]; [reflexivity|].
  assert (digits_typed Decimal) as Hd by (pose proof collections_typed as H; rewrite Forall_forall in H; apply H; cbn; auto).
  assert (forall n, sim pf 62 m [] (r <~ held_digit_system (fun _ => Decimal) pf T n ;;
      match r with Ok s => done s | Err e => held_into_decimal depth pf T e end)
    (r <- try_format_digits (target pf) T Decimal n ;; match r with Ok s => Ret s | Err e => into_decimal depth (target pf) T e end)
    (fun v => owned_by [v]) (repr (target pf)) (fun _ => True)) as Hdec.
  { intros n. eapply sim_bind; [apply (digits_sim _ pf 62 T Decimal n Hp (provides_62 pf) Hd)| |auto].
    intros m1 [v|e1] [s|e2] _ Hr; cbn [result_related] in Hr; try contradiction; [apply sim_done; [reflexivity|exact Hr]|]. subst e2. apply IH. }
  destruct e as [|n|n]; [|apply Hdec|apply Hdec].
  eapply sim_weaken; [eapply (from_char_sim pf 62 m 48 Hp (provides_62 pf) eq_refl)|auto|auto].
Qed.

Lemma to_nominal_sim hs (sys : system) pf T n : valid_platform pf -> simulates pf 62 (hs pf T n) (sys (target pf) T n) ->
  text_sim pf (held_to_nominal hs pf T n) (to_nominal n (default_system (target pf) T (sys (target pf) T))).
Proof.
  intros Hp Hs m. unfold held_to_nominal, to_nominal, default_system. cbn [format_nominal].
  eapply sim_bind; [apply Hs| |auto]. intros m1 [v|e] [s|e'] _ Hr; cbn [result_related] in Hr; try contradiction.
  - apply sim_done; [reflexivity|exact Hr].
  - subst e'. cbn [held_unwrap_or_decimal unwrap_or_decimal result_owned]. apply into_decimal_sim, Hp.
Qed.

(** *** The variables *)

Lemma framed_frame m m' v : framed m m' [] (owned_by [v]) -> frame m m' None (held_owned v).
Proof.
  unfold owned_by. cbn [flat_map]. rewrite app_nil_r. intros (A1 & A2 & A3 & A4). split; [exact A1|]. split; [|split].
  - intros p Hp _. apply A2; [exact Hp|intros []].
  - intros p Hp. apply blocks_is in Hp. destruct (A3 p Hp) as [[]|H]. right. exact H.
  - intros p Hp. destruct (A4 p Hp) as [H|[H _]]; [left; apply blocks_is, H|right; split; [exact H|discriminate]].
Qed.

Lemma framed_none m m' : framed m m' [] [] -> frame m m' None None.
Proof. intros H. apply (framed_frame m m' (HInline {| length_byte := 0; cells := [] |})), H. Qed.

Lemma repr_inline_text c m v s : repr c m v s -> exists t, as_str s = Ret t /\ matches c m (ANominal v) (inline_text t).
Proof. intros (t & Hg & Hm & _). exists t. split; [apply (good_str _ _ _ Hg)|exact Hm]. Qed.

Lemma text_inv pf f o m st sp : text_sim pf f o -> o <> UB -> inv (target pf) m st sp None ->
  match f m with
  | Done m' v => exists s t, o = Ret s /\ as_str s = Ret t /\ inv (target pf) m' st sp (held_owned v) /\ matches (target pf) m' (ANominal v) (inline_text t)
  | Stopped m' Endless => o = Hang
  | Stopped m' _ => inv (target pf) m' st sp None
  | Undefined => False
  end.
Proof.
  intros Hs Hub Hinv. specialize (Hs m). unfold sim in Hs. destruct (f m) as [m' v|m' why|]; [| |contradiction].
  - destruct Hs as (s & E & Hfr & Hr & _). destruct (repr_inline_text _ _ _ _ Hr) as (t & Et & Hm). exists s, t.
    split; [exact E|]. split; [exact Et|]. split; [eapply inv_action; [exact Hinv|apply framed_frame, Hfr]|exact Hm].
  - destruct why; [| | |exact Hs]; (eapply inv_action; [exact Hinv|apply framed_none, Hs]).
Qed.

Lemma result_inv pf f o m st sp : simulates pf 62 f o -> o <> UB -> inv (target pf) m st sp None ->
  match f m with
  | Done m' (Ok v) => exists s t, o = Ret (Ok s) /\ as_str s = Ret t /\ inv (target pf) m' st sp (held_owned v) /\ matches (target pf) m' (ANominal v) (inline_text t)
  | Done m' (Err e) => o = Ret (Err e) /\ inv (target pf) m' st sp None
  | Stopped m' Endless => o = Hang
  | Stopped m' _ => inv (target pf) m' st sp None
  | Undefined => False
  end.
Proof.
  intros Hs Hub Hinv. specialize (Hs m). unfold sim in Hs. destruct (f m) as [m' r|m' why|]; [| |contradiction].
  - destruct Hs as (b & E & Hfr & Hr & _). destruct r as [v|e], b as [s|e']; cbn [result_related] in Hr; try contradiction.
    + destruct (repr_inline_text _ _ _ _ Hr) as (t & Et & Hm). exists s, t.
      split; [exact E|]. split; [exact Et|]. split; [eapply inv_action; [exact Hinv|apply framed_frame, Hfr]|exact Hm].
    + subst e'. split; [exact E|]. eapply inv_action; [exact Hinv|apply framed_none, Hfr].
  - destruct why; [| | |exact Hs]; (eapply inv_action; [exact Hinv|apply framed_none, Hs]).
Qed.

Lemma decimal_safe : safe_code (still Decimal).
Proof.
  assert (safe_code (still NoFallback)) as Hno by (cofix H; constructor; try discriminate; exact H).
  constructor; try discriminate; [| |exact Hno]; intros i u; cbn [still live_digit].
  - cbn [Decimal impl_digit_set dc_digit digit_set_new]. match goal with |- context [lookup ?l i] => destruct (lookup l i); discriminate end.
  - intros ch u' E. assert (digits_typed Decimal) as Hd by (pose proof collections_typed as H; rewrite Forall_forall in H; apply H; cbn; auto).
    apply (Hd 0%nat i). cbn [nth_fallback]. destruct (dc_digit Decimal i) as [x| | |] eqn:Ex; try discriminate E.
    cbn [obind] in E. congruence.
Qed.

Lemma to_nominal_defined (sys : system) pf T n : valid_platform pf -> sys (target pf) T n <> UB ->
  to_nominal n (default_system (target pf) T (sys (target pf) T)) <> UB.
Proof.
  intros Hp Hub. unfold to_nominal, default_system. cbn [format_nominal]. destruct (sys (target pf) T n) as [[s|e]| | |]; cbn [obind]; try discriminate; [|contradiction].
  unfold unwrap_or_decimal. intros E.
  enough (forall depth e, into_decimal depth (target pf) T e <> UB) as H by exact (H _ _ E). clear.
  induction depth as [|depth IH]; intros e; cbn [into_decimal]; [discriminate|].
  assert (forall n, (r <- try_format_digits (target pf) T Decimal n ;; match r with Ok s => Ret s | Err e => into_decimal depth (target pf) T e end) <> UB) as H.
  { intros n. pose proof (C57_sound_whatever_the_collection (target pf) T (still Decimal) n) as H. rewrite C57_no_state_no_difference in H.
    destruct (try_format_digits _ T Decimal n) as [[s|e']| | |]; cbn [obind]; try discriminate; [apply IH|].
    destruct (H decimal_safe). }
  destruct e; [|apply H|apply H]. intros E. destruct (from_char_text (target pf) 48 eq_refl) as (s & E' & _). congruence.
Qed.

(** *** Statements end *)

Definition ends {A} (f : action A) : Prop := forall m, match f m with Stopped _ Endless => False | _ => True end.

Lemma ends_then {A B} (f : action A) (g : A -> action B) : ends f -> (forall a, ends (g a)) -> ends (a <~ f ;; g a).
Proof. intros Hf Hg m. specialize (Hf m). unfold and_then. destruct (f m) as [m1 a|m1 why|]; [apply Hg|exact Hf|exact I]. Qed.

Lemma ends_done {A} (a : A) : ends (done a).
Proof. intros m. exact I. Qed.

Lemma ends_pure {A} (o : outcome A) : o <> Hang -> ends (pure o).
Proof. intros H m. destruct o; [exact I..|contradiction|exact I]. Qed.

Lemma ends_block p : ends (block p).
Proof. intros m. unfold block. destruct (nth_error (blocks m) p) as [[b|]|]; exact I. Qed.

Lemma ends_allocate pf n bs k : ends (allocate pf n bs k).
Proof. intros m. unfold allocate. destruct (_ <? _); [exact I|]. destruct (grants _ _ _); exact I. Qed.

Ltac no_hang := repeat match goal with |- context [match ?x with _ => _ end] => destruct x end; try discriminate.

Lemma bind_ends {A B} (o : outcome A) (f : A -> outcome B) : o <> Hang -> (forall a, f a <> Hang) -> obind o f <> Hang.
Proof. intros Ho Hf. destruct o; cbn [obind]; [apply Hf|discriminate|contradiction|discriminate]. Qed.

(** Nothing on inline strings loops. *)
Ltac outcome_ends :=
  lazymatch goal with
  | |- obind _ _ <> Hang => apply bind_ends; [outcome_ends|intros ?; outcome_ends]
  | |- raw_copy _ _ _ <> Hang => unfold raw_copy; no_hang
  | |- copy_within _ _ _ _ <> Hang => unfold copy_within; no_hang
  | |- write_zip _ _ _ _ <> Hang => unfold write_zip; no_hang
  | |- read_bytes _ _ _ <> Hang => unfold read_bytes; no_hang
  | |- uadd _ _ _ _ <> Hang => unfold uadd; no_hang
  | |- offset_sub _ _ <> Hang => unfold offset_sub; no_hang
  | |- char_len_u8 _ <> Hang => unfold char_len_u8; no_hang
  | |- data_offset _ <> Hang => unfold data_offset; outcome_ends
  | |- exposed_cells _ <> Hang => unfold exposed_cells; outcome_ends
  | |- as_bytes _ <> Hang => unfold as_bytes; outcome_ends
  | |- from_utf8_unchecked _ <> Hang => unfold from_utf8_unchecked; no_hang
  | |- inline_as_str _ <> Hang => unfold inline_as_str; outcome_ends
  | |- inline_push _ _ _ _ _ <> Hang => unfold inline_push; outcome_ends
  | |- inline_push_str _ _ _ <> Hang => unfold inline_push_str; outcome_ends
  | |- inline_push_front _ _ _ _ _ <> Hang => unfold inline_push_front; outcome_ends
  | |- encode_into_bytes_mut _ _ <> Hang => unfold encode_into_bytes_mut; outcome_ends
  | |- edit_str (Inline _) _ <> Hang => unfold edit_str, as_str; outcome_ends
  | |- (if ?b then _ else _) <> Hang => destruct b; outcome_ends
  | |- (let x := ?v in _) <> Hang => cbv zeta; outcome_ends
  | |- (match ?x with _ => _ end) <> Hang => destruct x; outcome_ends
  | |- _ => discriminate
  end.

Ltac ending :=
  lazymatch goal with
  | |- ends (and_then _ _) => apply ends_then; [ending|intros ?; ending]
  | |- ends (done _) => apply ends_done
  | |- ends (stopped _) => intros ?; exact I
  | |- ends undefined => intros ?; exact I
  | |- ends (pure _) => apply ends_pure; outcome_ends
  | |- ends (block _) => apply ends_block
  | |- ends (set_block _ _) => intros ?; exact I
  | |- ends (allocate _ _ _ _) => apply ends_allocate
  | |- ends (reallocate _ _ _ _) => unfold reallocate; ending
  | |- ends (deallocate _ _) => unfold deallocate; ending
  | |- ends (with_capacity _ _) => unfold with_capacity; ending
  | |- ends (reserve _ _ _) => unfold reserve; ending
  | |- ends (append _ _ _) => unfold append; ending
  | |- ends (prepend _ _ _) => unfold prepend; ending
  | |- ends (write_at _ _ _) => unfold write_at; ending
  | |- ends (move_to _ _) => unfold move_to; ending
  | |- ends (string_str _) => unfold string_str; ending
  | |- ends (string_from _ _) => unfold string_from; ending
  | |- ends (string_clone _ _) => unfold string_clone; ending
  | |- ends (string_drop _) => unfold string_drop; ending
  | |- ends (held_push _ _ _) => unfold held_push; ending
  | |- ends (held_push_str _ _ _) => unfold held_push_str; ending
  | |- ends (held_push_front _ _ _) => unfold held_push_front; ending
  | |- ends (held_edit _ _) => unfold held_edit; ending
  | |- ends (held_str _) => unfold held_str; ending
  | |- ends (held_from_str _ _) => unfold held_from_str; ending
  | |- ends (held_from_char _ _) => unfold held_from_char; ending
  | |- ends (held_clone _ _) => unfold held_clone; ending
  | |- ends (held_into_string _ _) => unfold held_into_string; ending
  | |- ends (held_drop _) => unfold held_drop; ending
  | |- ends (value_drop _) => unfold value_drop; ending
  | |- ends (value_str _) => unfold value_str; ending
  | |- ends (make _ _) => unfold make; ending
  | |- ends (change _ _ _) => unfold change; ending
  | |- ends (assign _ _ _) => unfold assign; ending
  | |- ends (execute _ _ _) => unfold execute; ending
  | |- ends (let x := ?v in _) => cbv zeta; ending
  | |- ends (if ?b then _ else _) => destruct b; ending
  | |- ends (match ?x with _ => _ end) => destruct x; ending
  | |- ends (fun _ => _) => intros ?; exact I
  end.

Lemma execute_ends pf st i : ends (execute pf st i).
Proof. ending. Qed.

Lemma append_ends pf st x y : ends (run_command pf [] st (AppendTo x y)).
Proof. cbn [run_command]. ending. Qed.

Lemma assign_ends st x v : ends (assign st x v).
Proof. ending. Qed.

(** A text in memory is no longer than a block can be. *)
Lemma text_bound c m v d : valid_config c -> accounts c m -> matches c m v d -> N.of_nat (length (text d)) <= isize_max c /\ valid_utf8 (text d) = true.
Proof.
  intros Hc [Hperm Hall] Hm. pose proof (isize_max_large c Hc).
  assert (forall s, reads m s (text d) -> N.of_nat (length (text d)) <= isize_max c /\ valid_utf8 (text d) = true) as Hr.
  { intros s (H1 & H2 & H3 & H4). split; [|exact H2]. destruct (N.eq_dec (capacity s) 0) as [E|E]; [rewrite (H3 E); cbn [length]; lia|].
    destruct (H4 E) as (rest & El & Ecap).
    assert (In (N.of_nat (length (map Some (text d) ++ rest))) (taken (calls m))) as Hin.
    { eapply Permutation_in; [apply Permutation_sym, Hperm|]. apply in_or_app. right. unfold sizes_in_use. apply in_flat_map.
      exists (Some (map Some (text d) ++ rest)). split; [|left; reflexivity].
      unfold live in El. destruct (nth_error (blocks m) (pointer s)) as [[b|]|] eqn:En; try discriminate. injection El as ->. eapply nth_error_In, En. }
    rewrite Forall_forall in Hall. apply Hall in Hin. unfold layout_ok in Hin. rewrite app_length, map_length in Hin. lia. }
  destruct v as [[i|s]|s]; cbn [matches] in Hm.
  - destruct Hm as (_ & _ & Hg & H62). destruct (inline_facts _ _ _ Hg) as (_ & _ & Hv). split; [|exact Hv].
    unfold at_most_62 in H62. apply Nat.leb_le in H62. lia.
  - apply (Hr s), Hm.
  - apply (Hr s), Hm.
Qed.

Lemma nth_pair {A B} (l : list (A * B)) k a : nth_error (map fst l) k = Some a -> exists b, nth_error (map snd l) k = Some b /\ In (a, b) l.
Proof.
  intros E. rewrite nth_error_map in E. destruct (nth_error l k) as [[a' b]|] eqn:El; [|discriminate]. injection E as <-.
  exists b. rewrite nth_error_map, El. split; [reflexivity|eapply nth_error_In, El].
Qed.

Lemma nth_pair_none {A B} (l : list (A * B)) k : nth_error (map fst l) k = None -> nth_error (map snd l) k = None.
Proof. rewrite !nth_error_None, !map_length. auto. Qed.

Definition all_usable (c : config) (systems : list (held_system * system)) : Prop := Forall (fun p => usable c (fst p) (snd p)) systems.

Lemma command_inv pf systems m st sp k : valid_platform pf -> all_usable (target pf) systems -> valid_command (target pf) k ->
  inv (target pf) m st sp None -> accounts (target pf) m ->
  match run_command pf (map fst systems) st k m with
  | Done m' st' => inv (target pf) m' st' (command_means (target pf) (map snd systems) sp k) None
  | Stopped m' Endless => hangs (target pf) (map snd systems) k
  | Stopped m' _ => inv (target pf) m' (after_command_panic st k) (command_gone sp k) None
  | Undefined => False
  end.
Proof.
  intros Hp Hu Hk Hinv Hacc. unfold all_usable in Hu. rewrite Forall_forall in Hu.
  assert (forall m' x y, run_command pf (map fst systems) st (AppendTo x y) m <> Stopped m' Endless) as Hap.
  { intros m' x y E. pose proof (append_ends pf st x y m) as H. change (run_command pf [] st (AppendTo x y) m) with (run_command pf (map fst systems) st (AppendTo x y) m) in H.
    rewrite E in H. exact H. }
  destruct k as [i|k T n x|k T n x|x y]; cbn [run_command command_means command_gone after_command_panic valid_command] in *.
  - pose proof (execute_inv pf m st sp i Hp Hk Hinv) as H. pose proof (execute_ends pf st i m) as He. destruct (execute pf st i m) as [m' st'|m' why|]; [exact H| |exact H].
    destruct H as [-> H]. destruct why; [exact H..|exact He].
  - destruct (nth_error (map fst systems) k) as [hs|] eqn:En; [|rewrite (nth_pair_none _ _ En); exact Hinv].
    destruct (nth_pair _ _ _ En) as (sys & Es & Hin). rewrite Es. pose proof (Hu _ Hin) as Hus. cbn [fst snd] in Hus.
    destruct (usable_sim hs sys pf T n Hus Hp Hk) as [Hsim Hub]. pose proof (result_inv pf _ _ m st sp Hsim Hub Hinv) as H. unfold and_then.
    destruct (hs pf T n m) as [m' [v|e]|m' why|]; [| |destruct why; try exact H; cbn [hangs]; eauto|exact H].
    + destruct H as (s & t & E & Et & H1 & H2). rewrite E. cbn [keep_text]. rewrite Et. pose proof (assign_surely _ _ _ _ x (ANominal v) _ H1 H2) as Ha.
      destruct (assign st x (ANominal v) m'); [exact Ha|contradiction|contradiction].
    + destruct H as [E H]. rewrite E. exact H.
  - destruct (nth_error (map fst systems) k) as [hs|] eqn:En; [|rewrite (nth_pair_none _ _ En); exact Hinv].
    destruct (nth_pair _ _ _ En) as (sys & Es & Hin). rewrite Es. pose proof (Hu _ Hin) as Hus. cbn [fst snd] in Hus.
    destruct (usable_sim hs sys pf T n Hus Hp Hk) as [Hsim Hub].
    pose proof (text_inv pf _ _ m st sp (to_nominal_sim hs sys pf T n Hp Hsim) (to_nominal_defined sys pf T n Hp Hub) Hinv) as H. unfold and_then.
    destruct (held_to_nominal hs pf T n m) as [m' v|m' why|]; [|destruct why; try exact H; cbn [hangs]; eauto|exact H].
    destruct H as (s & t & E & Et & H1 & H2). rewrite E. cbn [keep_text]. rewrite Et. pose proof (assign_surely _ _ _ _ x (ANominal v) _ H1 H2) as Ha.
    destruct (assign st x (ANominal v) m'); [exact Ha|contradiction|contradiction].
  - destruct (st x) as [[v|s]|] eqn:E.
    + destruct (inv_sp _ _ _ _ _ _ _ Hinv E) as (d & Ed & Hm). rewrite Ed.
      assert (exists t h, d = nominal_text t h) as (t & h & ->).
      { destruct d as [b t h]. exists t, h. destruct v as [i|s]; cbn [matches is_string] in Hm; destruct Hm as [-> _]; reflexivity. }
      cbn [nominal_text]. destruct (st y) as [w|] eqn:Ey; [|rewrite (inv_none _ _ _ _ _ _ Hinv Ey); exact Hinv].
      destruct (inv_sp _ _ _ _ _ _ _ Hinv Ey) as (dw & Edw & Hmw). rewrite Edw.
      destruct (Nat.eqb x y) eqn:Exy; [exact Hinv|].
      destruct (text_bound _ _ _ _ (proj1 Hp) Hacc Hmw) as [Hb Hv].
      unfold and_then. rewrite (matches_str _ _ _ _ Hmw). destruct (inv_take _ _ _ _ _ _ _ Hinv E Ed) as [Hinv1 _].
      pose proof (change_yields pf m v t h (PushStr (text dw)) Hp Hm Hv Hb) as H.
      destruct (change pf v (PushStr (text dw)) m) as [m1 v1|m1 why|] eqn:Ec; [| |exact H].
      * destruct H as [Hfr Hm1]. unfold done. pose proof (inv_action _ _ _ _ _ _ _ Hinv1 Hfr) as Hinv2.
        assert (set_var st x None x = None) as E0 by (unfold set_var; rewrite Nat.eqb_refl; reflexivity).
        pose proof (inv_put _ _ _ _ x (ANominal v1) _ Hinv2 E0 Hm1) as Hinv3. eapply inv_ext; [exact Hinv3| |].
        -- intros z. unfold set_var. destruct (Nat.eqb z x); reflexivity.
        -- intros z. unfold put. destruct (Nat.eqb z x); reflexivity.
      * cbn [yields] in H. subst m1. destruct why; try exact Hinv. exfalso.
        apply (Hap m x y). cbn [run_command]. rewrite E, Ey, Exy. unfold and_then. rewrite (matches_str _ _ _ _ Hmw), Ec. reflexivity.
    + destruct (inv_sp _ _ _ _ _ _ _ Hinv E) as (d & Ed & Hm). rewrite Ed. destruct d as [b t h]. cbn [matches is_string] in Hm. destruct Hm as [-> _]. exact Hinv.
    + rewrite (inv_none _ _ _ _ _ _ Hinv E). exact Hinv.
Qed.

Lemma keeps_command pf systems st k : valid_platform pf -> all_usable (target pf) systems -> keeps (target pf) (run_command pf (map fst systems) st k).
Proof.
  intros Hp Hu. unfold all_usable in Hu. rewrite Forall_forall in Hu. destruct k as [i|k T n x|k T n x|x y]; cbn [run_command].
  - apply keeps_execute, Hp.
  - destruct (nth_error (map fst systems) k) as [hs|] eqn:En; [|apply keeps_done]. destruct (nth_pair _ _ _ En) as (sys & _ & Hin). apply Hu in Hin.
    apply keeps_then; [eapply usable_keeps; eassumption|]. intros [v|e]; [apply keeps_assign|apply keeps_done].
  - destruct (nth_error (map fst systems) k) as [hs|] eqn:En; [|apply keeps_done]. destruct (nth_pair _ _ _ En) as (sys & _ & Hin). apply Hu in Hin.
    apply keeps_then; [eapply keeps_to_nominal; eassumption|]. intros v. apply keeps_assign.
  - destruct (st x) as [[v|s]|]; [|apply keeps_done..]. destruct (st y) as [w|]; [|apply keeps_done]. destruct (Nat.eqb x y); [apply keeps_done|].
    apply keeps_then; [destruct w; [apply keeps_held_str|apply keeps_string_str]|]. intros str. apply keeps_then; [apply keeps_change, Hp|]. intros v'. apply keeps_done.
Qed.

Lemma run_commands_inv pf systems p m st sp : valid_platform pf -> all_usable (target pf) systems -> Forall (valid_command (target pf)) p ->
  inv (target pf) m st sp None -> accounts (target pf) m ->
  exists m' st' ws, run_commands pf (map fst systems) m st p = Some (m', st', ws) /\ accounts (target pf) m' /\
    ((length ws = length p /\ ~ In (Some Endless) ws /\ inv (target pf) m' st' (commands_mean (target pf) (map snd systems) sp p ws) None) \/
     exists p1 k p2, p = p1 ++ k :: p2 /\ length ws = S (length p1) /\ hangs (target pf) (map snd systems) k).
Proof.
  intros Hp Hu Hall. revert m st sp. induction Hall as [|k p Hk _ IH]; intros m st sp Hinv Hacc.
  - exists m, st, []. split; [reflexivity|]. split; [exact Hacc|]. left. auto.
  - cbn [run_commands]. pose proof (command_inv pf systems m st sp k Hp Hu Hk Hinv Hacc) as H. pose proof (keeps_command pf systems st k Hp Hu m Hacc) as Ha.
    destruct (run_command pf (map fst systems) st k m) as [m1 st1|m1 why|]; [| |contradiction].
    + destruct (IH m1 st1 _ H Ha) as (m' & st' & ws & -> & H1 & H2). exists m', st', (None :: ws). split; [reflexivity|]. split; [exact H1|].
      destruct H2 as [(Hl & Hn & H2)|(p1 & k' & p2 & -> & Hl & Hh)].
      * left. cbn [length commands_mean]. split; [auto|]. split; [intros [[=]|Hi]; contradiction|exact H2].
      * right. exists (k :: p1), k', p2. cbn [length]. auto.
    + assert (why = Endless \/ why <> Endless) as [->|Hw] by (destruct why; auto; right; discriminate).
      * exists m1, st, [Some Endless]. split; [reflexivity|]. split; [exact Ha|]. right. exists [], k, p. auto.
      * assert (inv (target pf) m1 (after_command_panic st k) (command_gone sp k) None) as H' by (destruct why; [exact H..|contradiction]).
        destruct (IH m1 _ _ H' Ha) as (m' & st' & ws & E & H1 & H2). exists m', st', (Some why :: ws). split; [destruct why; try contradiction; rewrite E; reflexivity|]. split; [exact H1|].
        destruct H2 as [(Hl & Hn & H2)|(p1 & k' & p2 & -> & Hl & Hh)].
        -- left. cbn [length commands_mean]. split; [auto|]. split; [intros [[=]|Hi]; contradiction|exact H2].
        -- right. exists (k :: p1), k', p2. cbn [length]. auto.
Qed.

(** ** C102 *)

(** Programs that use strings as in C95 and format with any built-in system,
    with collections and sets of callers, and append strings to each other. A
    system of a caller that never returns ends the program there; otherwise all
    that C95 says of programs without formatting is true of them. *)
Theorem C102_programs_that_format : forall pf systems p, valid_platform pf -> Forall (fun '(hs, sys) => usable (target pf) hs sys) systems ->
  Forall (valid_command (target pf)) p ->
  exists m st ws, run_commands pf (map fst systems) no_memory nothing p = Some (m, st, ws) /\
    Permutation (taken (calls m)) (returned (calls m) ++ sizes_in_use m) /\
    Forall (layout_ok (target pf)) (taken (calls m)) /\
    ((length ws = length p /\ ~ In (Some Endless) ws /\
      (forall x, match st x, commands_mean (target pf) (map snd systems) nothing p ws x with
                 | Some v, Some d => PropertiesHeap.agrees m v d
                 | None, None => True
                 | _, _ => False
                 end) /\
      (forall q, live m q <> None <-> exists x, owns st x q) /\
      (forall x y q, owns st x q -> owns st y q -> x = y) /\
      (forall x v s, st x = Some v -> its_string v = Some s -> capacity s <> 0 ->
         exists b, live m (pointer s) = Some b /\ N.of_nat (length b) = capacity s)) \/
     exists p1 k p2, p = p1 ++ k :: p2 /\ length ws = S (length p1) /\ hangs (target pf) (map snd systems) k).
Proof.
  intros pf systems p Hp Hu Hall. assert (all_usable (target pf) systems) as Hu' by (eapply Forall_impl; [|exact Hu]; intros [hs sys] H; exact H).
  destruct (run_commands_inv pf systems p _ _ _ Hp Hu' Hall (inv_start _) (accounts_start _)) as (m & st & ws & E & [Ha1 Ha2] & H).
  exists m, st, ws. split; [exact E|]. split; [exact Ha1|]. split; [exact Ha2|]. destruct H as [(Hl & Hn & Hinv)|H]; [left|right; exact H].
  split; [exact Hl|]. split; [exact Hn|]. pose proof Hinv as (I1 & I2 & I3 & I4). split; [|split; [|split]].
  - intros x. specialize (I1 x). destruct (st x) as [v|], (commands_mean _ _ nothing p ws x) as [d|]; try exact I1. split; [eapply matches_str, I1|].
    split; [destruct v as [[i|s]|s]; apply I1|]. split; [destruct v as [[i|s]|s]; cbn [its_string]; apply I1|].
    intros s Es. destruct (matches_room _ _ _ _ _ I1 Es) as (H1 & H2 & _). auto.
  - intros q. split.
    + intros H. destruct (I4 q H) as [[=]|(x & Hx)]. exists x. apply owner_owns, Hx.
    + intros (x & Hx). apply owner_owns in Hx. eapply inv_owner_live; eassumption.
  - intros x y q Hx Hy. apply owner_owns in Hx, Hy. eapply I2; eassumption.
  - intros x v s Ev Es Hc. destruct (inv_sp _ _ _ _ _ _ _ Hinv Ev) as (d & _ & Hm). destruct (matches_room _ _ _ _ _ Hm Es) as (_ & _ & H). auto.
Qed.

(** The systems of the case: Roman and Ethiopic numerals and a collection of a
    caller that grows while it formats. *)
Definition some_systems : list (held_system * system) :=
  [(held_additive_system RomanUpper_symbols, RomanUpper); (held_ethiopic, Ethiopic);
   (held_live_system swelling, fun c T => try_format_live c T swelling)].

(** 21000001 in Roman numerals takes 64 bytes, and is formatted twice; there is
    no zero in Ethiopic, so the first attempt at it leaves the variable as it
    was; what the caller's collection gives has to be thrown away. The short
    string grows into the heap when a long one is appended to it. *)
Definition formatting_program : list command :=
  [ToNominal 0 U32 21000001 0; TryFormat 1 U32 0 0; ToNominal 1 U32 0 1; ToNominal 2 U8 7 2; TryFormat 0 U32 21000001 3;
   AppendTo 1 0; AppendTo 0 2; Do (Move 0 3); AppendTo 1 5; Do (DropVar 3)].

Definition texts (m : memory) (st : variables) (xs : list nat) : list (option (list N)) :=
  map (fun x => match st x with Some v => match value_str v m with Done _ t => Some t | _ => None end | None => None end) xs.

Definition after_program (pf : platform) (systems : list held_system) (p : list command) :=
  option_map (fun '(m, st, ws) => (calls m, sizes_in_use m, texts m st (seq 0 4), ws)) (run_commands pf systems no_memory nothing p).

Lemma roman_listed : In (held_additive_system RomanUpper_symbols, RomanUpper) memory_systems.
Proof. apply (nth_error_In _ 70%nat). reflexivity. Qed.

Lemma ethiopic_listed : In (held_ethiopic, Ethiopic) memory_systems.
Proof. apply (nth_error_In _ 82%nat). reflexivity. Qed.

Example C102_case :
  Forall (fun '(hs, sys) => usable on_heap hs sys) some_systems /\ Forall (valid_command on_heap) formatting_program /\
  after_program generous (map fst some_systems) formatting_program =
    Some ([Allocate 63; Reallocate 63 126; Allocate 64; Reallocate 64 128; Deallocate 128; Allocate 63; Reallocate 63 126; Allocate 65;
           Deallocate 126; Deallocate 126], [65],
          [None; Some (bytes "0M̅M̅M̅M̅M̅M̅M̅M̅M̅M̅M̅M̅M̅M̅M̅M̅M̅M̅M̅M̅M̅I"%string); Some (bytes "7"%string); None], repeat None 10) /\
  after_program refuses_third (map fst some_systems) formatting_program =
    Some ([Allocate 63; Reallocate 63 126; Deallocate 126], [], [None; Some (bytes "0"%string); None; None],
          [None; None; None; Some AllocError; Some AllocError; Some AllocError; None; None; None; None]).
Proof.
  split; [|split; [|split; vm_compute; reflexivity]].
  - apply Forall_cons; [apply built_in, roman_listed|]. apply Forall_cons; [apply built_in, ethiopic_listed|].
    apply Forall_cons; [apply callers_digits|apply Forall_nil]. cofix H. constructor; try discriminate; [|exact H]. intros i self ch self' [= <- <-]. reflexivity.
  - unfold formatting_program. repeat (apply Forall_cons; [first [exact I|vm_compute; reflexivity]|]). apply Forall_nil.
Qed.
Print Assumptions C102_programs_that_format.

(** With built-in systems every command ends. *)
Theorem C102_built_in_systems_return : forall pf systems p m st ws, valid_platform pf -> Forall (fun '(hs, sys) => In (hs, sys) memory_systems) systems ->
  Forall (valid_command (target pf)) p -> run_commands pf (map fst systems) no_memory nothing p = Some (m, st, ws) ->
  length ws = length p /\ ~ In (Some Endless) ws.
Proof.
  intros pf systems p m st ws Hp Hs Hall E.
  assert (Forall (fun '(hs, sys) => usable (target pf) hs sys) systems) as Hu by (eapply Forall_impl; [|exact Hs]; intros [hs sys] H; apply built_in, H).
  destruct (C102_programs_that_format pf systems p Hp Hu Hall) as (m' & st' & ws' & E' & _ & _ & H). rewrite E in E'. injection E' as <- <- <-.
  destruct H as [(H1 & H2 & _)|(p1 & k & p2 & -> & _ & Hh)]; [auto|exfalso].
  apply Forall_app in Hall as [_ Hk]. inversion_clear Hk as [|? ? Hk' _]. rewrite Forall_forall in Hs.
  destruct k as [i|k T n x|k T n x|x y]; cbn [hangs valid_command] in *; try contradiction; destruct Hh as (sys & En & Eh);
    rewrite nth_error_map in En; destruct (nth_error systems k) as [[hs sys']|] eqn:El; try discriminate; injection En as ->;
    apply nth_error_In in El; apply Hs in El.
  - destruct (C98_formatting_in_memory hs sys pf T n no_memory El Hp Hk') as [_ (r & Er)]. congruence.
  - destruct (C101_to_nominal hs sys pf T n no_memory El Hp Hk') as (s & t & Er & _). congruence.
Qed.

Example C102_built_in_case :
  Forall (fun '(hs, sys) => In (hs, sys) memory_systems) (firstn 2 some_systems) /\
  after_program generous (map fst (firstn 2 some_systems)) (firstn 3 formatting_program) =
    Some ([Allocate 63; Reallocate 63 126], [126],
          [Some (bytes "M̅M̅M̅M̅M̅M̅M̅M̅M̅M̅M̅M̅M̅M̅M̅M̅M̅M̅M̅M̅M̅I"%string); Some (bytes "0"%string); None; None], repeat None 3).
Proof.
  split; [|vm_compute; reflexivity]. apply Forall_cons; [apply roman_listed|]. apply Forall_cons; [apply ethiopic_listed|apply Forall_nil].
Qed.
Print Assumptions C102_built_in_systems_return.

(** When no variable holds anything any more and every command has returned,
    everything has been given back. *)
Theorem C102_no_leak : forall pf systems p m st ws, valid_platform pf -> Forall (fun '(hs, sys) => usable (target pf) hs sys) systems ->
  Forall (valid_command (target pf)) p -> run_commands pf (map fst systems) no_memory nothing p = Some (m, st, ws) ->
  ~ (exists k, In k p /\ hangs (target pf) (map snd systems) k) -> (forall x, st x = None) ->
  (forall q, live m q = None) /\ Permutation (taken (calls m)) (returned (calls m)).
Proof.
  intros pf systems p m st ws Hp Hu Hall E Hh Hnone.
  destruct (C102_programs_that_format pf systems p Hp Hu Hall) as (m' & st' & ws' & E' & Hperm & _ & H). rewrite E in E'. injection E' as <- <- <-.
  destruct H as [(_ & _ & _ & Hlive & _)|(p1 & k & p2 & -> & _ & Hk)].
  2:{ destruct Hh. exists k. split; [apply in_or_app; right; left; reflexivity|exact Hk]. }
  assert (forall q, live m q = None) as Hq.
  { intros q. destruct (live m q) as [b|] eqn:Eq; [|reflexivity]. exfalso. destruct (proj1 (Hlive q)) as (x & v & s & Ev & _); [congruence|]. rewrite Hnone in Ev. discriminate. }
  split; [exact Hq|]. assert (sizes_in_use m = []) as Ez; [|rewrite Ez, app_nil_r in Hperm; exact Hperm].
  clear - Hq. unfold sizes_in_use. unfold live in Hq. revert Hq. generalize (blocks m) as bl. induction bl as [|b bl IH]; intros Hq; [reflexivity|].
  cbn [flat_map]. rewrite IH by (intros q; exact (Hq (S q))). specialize (Hq 0%nat). cbn [nth_error] in Hq. destruct b; [discriminate|reflexivity].
Qed.

Example C102_no_leak_case :
  option_map (fun '(m, st, ws) => (taken (calls m), returned (calls m), map st (seq 0 4)))
    (run_commands generous (map fst some_systems) no_memory nothing (formatting_program ++ [Do (DropVar 1); Do (DropVar 2)]))
  = Some ([63; 126; 64; 128; 63; 126; 65], [63; 64; 128; 63; 126; 126; 65], repeat None 4).
Proof. vm_compute. reflexivity. Qed.
Print Assumptions C102_no_leak.
