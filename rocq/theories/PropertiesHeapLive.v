(** * PropertiesHeapLive: C100 and C101, callers' collections with state and
    [to_nominal] in memory *)

From Coq Require Import String.
From Verif Require Import Prelude Utf8Facts StringFacts NominalString Spec History Outcome DigitSets AdditiveSets ScriptFacts DigitFacts PropertiesDigital
  Digital Additive System Live PropertiesSystem PropertiesUser Cases
  HeapMemory HeapFormat HeapLive PropertiesHeap PropertiesAllocation HeapFormatFacts HeapFormatSim HeapFormatErrors PropertiesHeapFormat.

(** ** Collections with state *)

Definition live_state_related (c : config) {S} (m : memory) (a : held_live_loop S) (b : live_loop S) : Prop :=
  hl_remaining a = ll_remaining b /\ hl_first_loop a = ll_first_loop b /\ hl_count a = ll_count b /\
  repr c m (hl_formatted a) (ll_formatted b) /\ hl_self a = ll_self b.

Lemma live_body_big c L T d n s x : has_alloc c = true -> safe_code d -> big c L (ll_formatted s) -> live_loop_body c T d n s = Ret x ->
  step_big (fun s => big c L (ll_formatted s)) (result_big c L) x.
Proof.
  intros Ha Hd Hb E. apply safe_parts in Hd as [Hd _]. unfold live_loop_body in E.
  destruct (_ || _); [|injection E as <-; exact Hb].
  destruct (live_has_zero_digit d _) as [[hz self]| | |]; cbn [obind] in E; try discriminate.
  destruct (if hz then _ else _) as [[subtract self1]| | |]; cbn [obind] in E; try discriminate.
  destruct (if subtract then _ else _) as [[nz self2]| | |]; cbn [obind] in E; try discriminate.
  destruct nz; [injection E as <-; exact I|].
  destruct (if subtract then _ else _) as [remaining| | |]; cbn [obind] in E; try discriminate.
  destruct (urem _ _) as [r| | |]; cbn [obind] in E; try discriminate.
  destruct (live_digit d _ _) as [[ch self3]| | |] eqn:Ech; cbn [obind] in E; try discriminate.
  destruct (try_push_front c _ ch) as [[s' p]| | |] eqn:Ep; cbn [obind] in E; try discriminate.
  destruct (big_try_push_front c L _ ch s' p Ha Hb (Hd _ _ _ _ Ech) Ep) as [-> Hb'].
  destruct (udiv _ _) as [r'| | |]; cbn [obind] in E; try discriminate.
  destruct (live_len d _) as [[len self4]| | |]; cbn [obind] in E; try discriminate.
  destruct (try_from _ _ _); injection E as <-; [exact Hb'|exact I].
Qed.

Lemma live_body_sim pf L T d n m a b : valid_platform pf -> provides pf L -> safe_code d -> live_state_related (target pf) m a b ->
  sim pf L m (owned_by [hl_formatted a]) (held_live_body pf T d n a) (live_loop_body (target pf) T d n b)
    (step_owned (fun a => owned_by [hl_formatted a]) result_owned)
    (step_related (live_state_related (target pf)) (result_related (target pf)))
    (step_big (fun s => big (target pf) (N.succ L) (ll_formatted s)) (result_big (target pf) (N.succ L))).
Proof.
  intros Hp Hprov Hd (E1 & E2 & E3 & Hr & E5). pose proof Hp as (_ & Hal & _). apply safe_parts in Hd as [Ht _].
  unfold held_live_body, live_loop_body. rewrite E1, E2, E3, E5. cbn zeta.
  destruct (_ || _); [|apply sim_done; [reflexivity|exact Hr]].
  eapply hold_sim; [exact Hr|]. intros [hz self] _. eapply hold_sim; [exact Hr|]. intros [subtract self1] _.
  eapply hold_sim; [exact Hr|]. intros [nz self2] _. destruct nz.
  { eapply drop_one_sim; [exact Hr| |]; [intros m1; apply sim_done; reflexivity|]. intros _ _ x [= <-]. exact I. }
  eapply hold_sim; [exact Hr|]. intros remaining _. eapply hold_sim; [exact Hr|]. intros r _. eapply hold_sim; [exact Hr|]. intros [ch self3] Ech.
  pose proof (Ht _ _ _ _ Ech) as Hch.
  eapply (push_sim pf L m _ _ (PushFront ch)); [exact Hp|exact Hprov|exact Hr|split; [exact Hch|split; [reflexivity|exact I]]| |].
  - intros m1 v' s' Hr'. cbn beta iota. eapply hold_sim; [exact Hr'|]. intros remaining' _. eapply hold_sim; [exact Hr'|]. intros [len self4] _.
    destruct (try_from _ _ _) as [count|].
    + apply sim_done; [reflexivity|]. repeat split; try reflexivity. exact Hr'.
    + eapply drop_one_sim; [exact Hr'| |]; [intros m2; apply sim_done; reflexivity|]. intros _ _ x [= <-]. exact I.
  - intros s' x Hb E. cbn beta iota in E.
    destruct (udiv _ _) as [r'| | |]; cbn [obind] in E; try discriminate.
    destruct (live_len d _) as [[len self4]| | |]; cbn [obind] in E; try discriminate.
    destruct (try_from _ _ _); injection E as <-; [exact Hb|exact I].
Qed.

Lemma live_sim depth pf L T d n : valid_platform pf -> provides pf L -> safe_code d ->
  simulates pf L (held_live depth pf T d n) (format_live depth (target pf) T d n).
Proof.
  intros Hp Hprov. pose proof Hp as (_ & Hal & _). revert d. induction depth as [|depth IH]; intros d Hd m; cbn [held_live format_live]; [reflexivity|].
  pose proof (safe_parts d Hd) as [Ht Hf].
  apply bare_sim. intros [len self] _. destruct (try_from _ _ _) as [count|].
  - apply bare_sim. intros [fixed self1] _. apply bare_sim. intros [beyond self2] _. destruct beyond.
    + cbn zeta. apply bare_sim. intros [empty start] _. destruct empty; [apply sim_done; reflexivity|]. apply IH, in_state_safe, Hf.
    + apply (loop_sim pf L (target pf) (held_live_body pf T d n) (live_loop_body (target pf) T d n) (fun a => owned_by [hl_formatted a])
        result_owned (live_state_related (target pf)) (result_related (target pf)) (fun s => big (target pf) (N.succ L) (ll_formatted s))).
      * intros m1 a b Hr. apply live_body_sim; assumption.
      * intros s x. apply live_body_big; assumption.
      * repeat split; try reflexivity. apply repr_empty_reverse.
  - apply bare_sim. intros [ch self1] Ech. eapply sim_bind; [apply from_char_sim; [exact Hp|exact Hprov|exact (Ht _ _ _ _ Ech)]| |].
    + intros m1 v s _ Hr. apply sim_done; [unfold result_owned, owned_by; cbn [flat_map]; symmetry; apply app_nil_r|exact Hr].
    + intros s x Hb [= <-]. exact Hb.
Qed.

Definition refused (why : stop) : Prop := why = CapacityOverflow \/ why = AllocError.

(** [mirrors] of C98, except that an error may come after memory was asked for:
    then it is given back, or the request was refused before. *)
Definition follows (m : memory) (r : outcome (result nominal_string error)) (f : status (result held error)) : Prop :=
  match r with
  | Ret (Err e) => exists m', same_blocks m m' /\ (f = Done m' (Err e) \/ exists why, f = Stopped m' why /\ refused why)
  | _ => mirrors m r f
  end.

Lemma simulates_follows pf f o m : simulates pf 62 f o -> follows m o (f m).
Proof.
  intros Hs. destruct o as [[s|e]| | |] eqn:Eo; cbn [follows].
  - rewrite <- Eo. apply (simulates_mirrors pf); [rewrite Eo; exact Hs|]. intros m' e. rewrite Eo. discriminate.
  - specialize (Hs m). unfold sim in Hs. destruct (f m) as [m' r|m' why|]; [| |discriminate].
    + destruct Hs as (b & [= <-] & Hfr & Hrel & _). destruct r as [|e']; [contradiction|]. cbn [result_related] in Hrel. subst e'.
      exists m'. split; [apply framed_nothing, Hfr|auto].
    + destruct why; [| |destruct Hs; discriminate|discriminate]; exists m'; (split; [apply framed_nothing, Hs|]); right;
        [exists CapacityOverflow|exists AllocError]; unfold refused; auto.
  - rewrite <- Eo. apply (simulates_mirrors pf); [rewrite Eo; exact Hs|]. intros m' e. rewrite Eo. discriminate.
  - rewrite <- Eo. apply (simulates_mirrors pf); [rewrite Eo; exact Hs|]. intros m' e. rewrite Eo. discriminate.
  - exact I.
Qed.

Lemma provides_62 pf : provides pf 62.
Proof. split; [lia|]. intros cs k Hk. lia. Qed.

(** ** C100 *)

(** A digit collection with any safe methods, which may keep state, answer
    differently each time, panic or not return; also with fallbacks. *)
Theorem C100_stateful_digits : forall pf T d n m, valid_platform pf -> safe_code d ->
  follows m (try_format_live (target pf) T d n) (held_live_system d pf T n m) /\
  try_format_live (target pf) T d n <> UB.
Proof.
  intros pf T d n m Hp Hd. split.
  - apply (simulates_follows pf), live_sim; [exact Hp|apply provides_62|exact Hd].
  - pose proof (C57_sound_whatever_the_collection (target pf) T d n Hd) as H. intros E. rewrite E in H. exact H.
Qed.
Print Assumptions C100_stateful_digits.

(** Without state this is the formatter of C98 and C99. *)
Definition lift_step {S S' R} (f : S -> S') (r : status (loop_step S R)) : status (loop_step S' R) :=
  match r with
  | Done m (Continue s) => Done m (Continue (f s))
  | Done m (Break b) => Done m (Break b)
  | Stopped m why => Stopped m why
  | Undefined => Undefined
  end.

Lemma repeat_map {S S' R} (f : S -> S') (body : S -> action (loop_step S R)) (body' : S' -> action (loop_step S' R)) :
  (forall s m, body' (f s) m = lift_step f (body s m)) -> forall depth s m, repeat_action depth body' (f s) m = lift_step f (repeat_action depth body s m).
Proof.
  intros H. induction depth as [|depth IH]; intros s m; cbn [repeat_action]; [apply H|]. unfold and_then.
  rewrite IH. destruct (repeat_action depth body s m) as [m' [s'|r]|m' why|]; cbn [lift_step]; auto.
Qed.

Lemma loop_map {S S' R} c (f : S -> S') (body : S -> action (loop_step S R)) (body' : S' -> action (loop_step S' R)) s m :
  (forall s m, body' (f s) m = lift_step f (body s m)) -> loop_action c body' (f s) m = loop_action c body s m.
Proof.
  intros H. unfold loop_action, and_then. rewrite (repeat_map f body body' H). destruct (repeat_action _ body s m) as [m' [s'|r]|m' why|]; reflexivity.
Qed.

(** Both sides ask the same question. *)
Lemma holding_lift {A S S' R} (f : S -> S') locals (o : outcome A) (k' : A * unit -> action (loop_step S' R)) (k : A -> action (loop_step S R)) m :
  (forall a, k' (a, tt) m = lift_step f (k a m)) ->
  and_then (holding locals (a <- o ;; Ret (a, tt))) k' m = lift_step f (and_then (holding locals o) k m).
Proof.
  intros H. destruct o as [a| | |]; cbn [obind].
  - apply (H a).
  - unfold holding, unwinding, pure, stopped, and_then. destruct (drop_all locals m); reflexivity.
  - reflexivity.
  - reflexivity.
Qed.

Lemma holding_lift_same {A S S' R} (f : S -> S') locals (o : outcome A) (k' : A -> action (loop_step S' R)) (k : A -> action (loop_step S R)) m :
  (forall a, k' a m = lift_step f (k a m)) ->
  and_then (holding locals o) k' m = lift_step f (and_then (holding locals o) k m).
Proof.
  intros H. destruct o as [a| | |].
  - apply (H a).
  - unfold holding, unwinding, pure, stopped, and_then. destruct (drop_all locals m); reflexivity.
  - reflexivity.
  - reflexivity.
Qed.

Lemma pushing_lift {S S' R} (f : S -> S') v push (e : out_of_memory -> R) (k' : held -> action (loop_step S' R)) (k : held -> action (loop_step S R)) m :
  (forall v m, k' v m = lift_step f (k v m)) ->
  pushing [] v push (fun x => Break (e x)) k' m = lift_step f (pushing [] v push (fun x => Break (e x)) k m).
Proof.
  intros H. unfold pushing, and_then. destruct (unwinding [v] push m) as [m1 [v1 [u|x]]|m1 why|]; [apply H| |reflexivity|reflexivity].
  destruct (drop_all [v1] m1); reflexivity.
Qed.

Definition as_live (d : digit_collection) (st : held_digit_loop) : held_live_loop (live_state (still d)) :=
  HL (hd_remaining st) (hd_first_loop st) (hd_count st) (hd_formatted st) tt.

Lemma still_body pf T d n st m : held_live_body pf T (still d) n (as_live d st) m = lift_step (as_live d) (held_digit_body pf T d n st m).
Proof.
  destruct st as [rem first cnt v]. unfold as_live at 1, held_live_body, held_digit_body.
  cbn [hd_remaining hd_first_loop hd_count hd_formatted hl_remaining hl_first_loop hl_count hl_formatted hl_self].
  destruct (negb (is_zero rem) || first); [|reflexivity].
  cbn [still live_has_zero_digit live_zero_based live_digit live_len live_state].
  assert (forall (subtract : bool) m, (remaining <~ holding [v] (if subtract then usub (target pf) (bits (target pf) T) rem 1 else Ret rem) ;;
    r <~ holding [v] (urem remaining cnt) ;;
    '(ch, self) <~ holding [v] (ch <- dc_digit d (as_usize (target pf) r) ;; Ret (ch, tt)) ;;
    pushing [] v (held_push_front pf v ch) (fun _ => Break (Err (OutOfMemory n))) (fun formatted =>
    remaining <~ holding [formatted] (udiv remaining cnt) ;;
    '(len, self) <~ holding [formatted] (len <- dc_len d ;; Ret (len, self)) ;;
    match try_from (target pf) T len with
    | Some count => done (Continue (HL remaining false count formatted self))
    | None => _ <~ held_drop formatted ;; done (Break (Err (OutOfBounds n)))
    end)) m =
    lift_step (R := result held error) (as_live d) ((remaining <~ holding [v] (if subtract then usub (target pf) (bits (target pf) T) rem 1 else Ret rem) ;;
      r <~ holding [v] (urem remaining cnt) ;;
      ch <~ holding [v] (dc_digit d (as_usize (target pf) r)) ;;
      pushing [] v (held_push_front pf v ch) (fun _ => Break (Err (OutOfMemory n))) (fun formatted =>
      remaining <~ holding [formatted] (udiv remaining cnt) ;;
      len <~ holding [formatted] (dc_len d) ;;
      match try_from (target pf) T len with
      | Some count =>
          done (Continue {| hd_remaining := remaining; hd_first_loop := false;
                            hd_count := count; hd_formatted := formatted |})
      | None => _ <~ held_drop formatted ;; done (Break (Err (OutOfBounds n)))
      end)) m)) as Hrest.
  { clear m. intros subtract m. apply holding_lift_same. intros remaining. apply holding_lift_same. intros r.
    apply holding_lift. intros ch. apply pushing_lift. intros v' m'. apply holding_lift_same. intros remaining'.
    apply holding_lift. intros len. destruct (try_from _ _ _); [reflexivity|]. unfold and_then. destruct (held_drop v' m') as [m2 []|m2 why|]; reflexivity. }
  cbn zeta. destruct (dc_has_zero_digit d).
  - exact (Hrest false m).
  - change (and_then (holding [v] (Ret (false, tt))) ?k m) with (k (false, tt) m). cbn beta iota. cbn [obind negb andb].
    change (and_then (holding [v] (Ret ?x)) ?k m) with (k x m). cbn beta iota.
    destruct (negb (dc_zero_based d) || negb first).
    + cbn [obind negb andb]. change (and_then (holding [v] (Ret ?x)) ?k m) with (k x m). cbn beta iota.
      destruct (is_zero rem); [|exact (Hrest true m)]. unfold and_then. destruct (held_drop v m); reflexivity.
    + cbn [andb]. change (and_then (holding [v] (Ret ?x)) ?k m) with (k x m). cbn beta iota. exact (Hrest false m).
Qed.

Theorem C100_no_state_no_difference : forall pf T d n m, held_live_system (still d) pf T n m = held_digit_system (fun _ => d) pf T n m.
Proof.
  intros pf T d n. unfold held_live_system, held_digit_system. generalize (loop_depth (target pf)). intros depth. revert d.
  induction depth as [|depth IH]; intros d m; [reflexivity|]. cbn [held_live held_digits].
  cbn [still live_len live_start live_fixed live_zero_based live_digit live_fallback live_is_empty].
  destruct (dc_len d) as [len| | |]; cbn [obind]; try reflexivity.
  change (and_then (holding [] (Ret ?x)) ?k m) with (k x m). cbn beta iota.
  destruct (try_from (target pf) T len) as [count|].
  2:{ destruct (dc_digit d (as_usize (target pf) n)); reflexivity. }
  change (and_then (holding [] (Ret ?x)) ?k m) with (k x m). cbn beta iota.
  assert (loop_action (target pf) (held_live_body pf T (still d) n) (HL n true count empty_reverse tt) m =
          loop_action (target pf) (held_digit_body pf T d n) {| hd_remaining := n; hd_first_loop := true; hd_count := count; hd_formatted := empty_reverse |} m) as Hl.
  { apply (loop_map (target pf) (as_live d) (held_digit_body pf T d n) (held_live_body pf T (still d) n)
      {| hd_remaining := n; hd_first_loop := true; hd_count := count; hd_formatted := empty_reverse |} m).
    intros st m'. apply still_body. }
  destruct (dc_fixed d); cbn [obind andb]; change (and_then (holding [] (Ret ?x)) ?k m) with (k x m); cbn beta iota; [|exact Hl].
  destruct (if dc_zero_based d then count <=? n else count <? n); [|exact Hl].
  destruct (dc_len (dc_fallback d)) as [fl| | |]; cbn [obind]; try reflexivity.
  change (and_then (holding [] (Ret ?x)) ?k m) with (k x m). cbn beta iota.
  destruct (fl =? 0); [reflexivity|].
  change (held_live depth pf T (in_state (still (dc_fallback d)) tt) n m = held_digits depth pf T (dc_fallback d) n m).
  rewrite in_state_still. apply IH.
Qed.
Print Assumptions C100_no_state_no_difference.

Definition refuses_second : platform := {| target := on_heap; grants := fun cs _ => negb (length cs =? 1)%nat; grow := amortized |}.

(** A collection that says it has one digit for twenty calls, and then 300: an
    error after 80 bytes have been written. The block is given back; an
    allocator that refuses the second request makes it a panic. A collection
    whose method [has_zero_digit] panics at the twentieth call. *)
CoFixpoint swelling : live_collection :=
  Live N 0 (fun k => Ret (false, k)) (fun k => Ret (true, k)) (fun k => Ret (true, k))
    (fun k => Ret (if k <? 20 then 1 else 300, k + 1)) (fun k => Ret (false, k)) (fun i k => Ret (0x1D7D8, k)) swelling.

CoFixpoint tiring : live_collection :=
  Live N 0 (fun k => Ret (false, k)) (fun k => if k <? 20 then Ret (true, k + 1) else Panic) (fun k => Ret (true, k))
    (fun k => Ret (1, k)) (fun k => Ret (false, k)) (fun i k => Ret (0x1D7D8, k)) tiring.

Example C100_case :
  safe_code swelling /\ safe_code tiring /\
  outline (held_live_system swelling generous U8 7 no_memory) = ([Allocate 64; Reallocate 64 128; Deallocate 128], [], Some (Err (OutOfBounds 7)), None) /\
  seen (try_format_live on_heap U8 swelling 7) = Ret (Err (OutOfBounds 7)) /\
  outline (held_live_system swelling refuses_second U8 7 no_memory) = ([Allocate 64; Deallocate 64], [], None, Some AllocError) /\
  outline (held_live_system tiring generous U8 7 no_memory) = ([Allocate 64; Reallocate 64 128; Deallocate 128], [], None, Some OtherPanic).
Proof.
  split; [cofix H; constructor; try discriminate; [|exact H]; intros i self ch self' [= <- <-]; reflexivity|].
  split; [|repeat split; vm_compute; reflexivity].
  cofix H. constructor; try discriminate; [| |exact H].
  - intros self. cbn [tiring live_has_zero_digit]. destruct (self <? 20); discriminate.
  - intros i self ch self' [= <- <-]. reflexivity.
Qed.

(** ** C101: [to_nominal] *)

Lemma decimal_listed : In (held_digit_system (fun _ => Decimal), fun c T => try_format_digits c T Decimal) memory_systems.
Proof. apply (nth_error_In _ 0%nat). reflexivity. Qed.

(** The number an error names, 0 for [NoZeroSymbol]. *)
Definition error_number (e : error) : N :=
  match e with NoZeroSymbol => 0 | OutOfBounds n | OutOfMemory n => n end.

Lemma decimal_in_memory pf T e m : valid_platform pf -> Base.fits (target pf) T (error_number e) ->
  exists m' i s cs, held_into_decimal (loop_depth (target pf)) pf T e m = Done m' (HInline i) /\
    into_decimal (loop_depth (target pf)) (target pf) T e = Ret s /\ as_str s = Ret (utf8 cs) /\ decimal_numeral (error_number e) cs /\
    at_most_62 (utf8 cs) = true /\ held_str (HInline i) m' = Done m' (utf8 cs) /\ calls m' = calls m /\ same_blocks m m'.
Proof.
  intros Hp Hn. pose proof Hp as (Hc & Hal & _). destruct (depth_succ _ Hc) as (k & Ek). rewrite Ek.
  destruct (decimal_prints (target pf) T (error_number e) Hc Hn) as (cs & Hd & Hpr).
  pose proof (decimal_short _ cs (fits_128 _ T _ Hc Hn) Hd) as Hshort.
  assert (exists m' i s, held_digit_system (fun _ => Decimal) pf T (error_number e) m = Done m' (Ok (HInline i)) /\
    try_format_digits (target pf) T Decimal (error_number e) = Ret (Ok s) /\ as_str s = Ret (utf8 cs) /\
    held_str (HInline i) m' = Done m' (utf8 cs) /\ calls m' = calls m /\ same_blocks m m') as (m' & i & s & E1 & E2 & E3 & E4 & E5 & E6).
  { unfold prints in Hpr. rewrite Hal in Hpr. destruct Hpr as (s & E & Es & _).
    destruct (C98_short_texts _ _ pf T _ m s (utf8 cs) decimal_listed Hp Hn E Es (proj1 (Nat.leb_le _ _) Hshort)) as (m' & i & H1 & H2 & H3 & H4).
    exists m', i, s. auto 10. }
  destruct e as [|n|n]; cbn [error_number held_into_decimal into_decimal] in *.
  - destruct (from_char_text (target pf) 48 eq_refl) as (s0 & E & Ht).
    assert (exists i0, held_from_char pf 48 m = Done m (HInline i0) /\ held_str (HInline i0) m = Done m [48]) as (i0 & E0 & E0').
    { eexists. split; reflexivity. }
    exists m, i0, s0, [48]. split; [exact E0|]. split; [exact E|]. split; [eapply rep_str, Ht|].
    split; [exact (single_positional (ten_from ascii_zero) 0 eq_refl)|]. repeat split; assumption.
  - exists m', i, s, cs. unfold and_then. rewrite E1, E2. cbn [obind]. repeat split; assumption.
  - exists m', i, s, cs. unfold and_then. rewrite E1, E2. cbn [obind]. repeat split; assumption.
Qed.

(** The systems of the crate: the text of [to_nominal] on values, or a text of
    more than 62 bytes for which memory was refused. *)
Theorem C101_to_nominal : forall hs sys pf T n m, In (hs, sys) memory_systems -> valid_platform pf -> Base.fits (target pf) T n ->
  exists s t, to_nominal n (default_system (target pf) T (sys (target pf) T)) = Ret s /\ as_str s = Ret t /\
    match held_to_nominal hs pf T n m with
    | Done m' v => shows m' v t /\ adds_only m m' v
    | Stopped m' why => refused why /\ at_most_62 t = false /\ same_blocks m m'
    | Undefined => False
    end.
Proof.
  intros hs sys pf T n m Hin Hp Hn. destruct (C98_formatting_in_memory hs sys pf T n m Hin Hp Hn) as [Hm (r & Er)].
  unfold to_nominal, default_system, held_to_nominal. cbn [format_nominal]. rewrite Er in *. cbn [obind mirrors] in *.
  destruct r as [s|e]; cbn [unwrap_or_decimal mirrors] in *.
  - destruct Hm as (t & Et & Hm). exists s, t. split; [reflexivity|]. split; [exact Et|]. unfold and_then.
    destruct (hs pf T n m) as [m' [v|e]|m' why|]; try contradiction; exact Hm.
  - assert (Base.fits (target pf) T (error_number e)) as He.
    { assert (In sys builtin_systems) as Hb by (rewrite <- memory_systems_all; exact (in_map snd _ _ Hin)).
      destruct Hp as (Hc & Hal & _). pose proof (C46_errors_tell_the_truth sys (target pf) T n e Hb Hc Hn Er) as H.
      destruct H as [[-> ->]|[-> |[-> _]]]; exact Hn. }
    destruct (decimal_in_memory pf T e m Hp He) as (m' & i & s & cs & E1 & E2 & E3 & _ & E5 & E6 & E7 & E8).
    exists s, (utf8 cs). split; [exact E2|]. split; [exact E3|]. unfold and_then. rewrite Hm. cbn [held_unwrap_or_decimal]. rewrite E1. split.
    + split; [exact E6|]. rewrite E5. eauto.
    + split; [intros p b H; rewrite E8; exact H|]. split; [intros p H1 H2; rewrite E8 in H1; contradiction|]. intros h p [=].
Qed.
Print Assumptions C101_to_nominal.

(** When the system returns an error, the decimal numeral takes its place
    without a call to the allocator. *)
Theorem C101_fallback : forall hs sys pf T n m e, In (hs, sys) memory_systems -> valid_platform pf -> Base.fits (target pf) T n ->
  sys (target pf) T n = Ret (Err e) ->
  exists m' i cs, held_to_nominal hs pf T n m = Done m' (HInline i) /\ decimal_numeral n cs /\
    held_str (HInline i) m' = Done m' (utf8 cs) /\ calls m' = calls m /\ same_blocks m m'.
Proof.
  intros hs sys pf T n m e Hin Hp Hn Er. destruct (C98_formatting_in_memory hs sys pf T n m Hin Hp Hn) as [Hm _].
  rewrite Er in Hm. cbn [mirrors] in Hm.
  assert (error_number e = n) as He.
  { assert (In sys builtin_systems) as Hb by (rewrite <- memory_systems_all; exact (in_map snd _ _ Hin)).
    destruct Hp as (Hc & Hal & _). pose proof (C46_errors_tell_the_truth sys (target pf) T n e Hb Hc Hn Er) as H.
    destruct H as [[-> ->]|[-> |[-> _]]]; reflexivity. }
  assert (Base.fits (target pf) T (error_number e)) as Hf by (rewrite He; exact Hn).
  destruct (decimal_in_memory pf T e m Hp Hf) as (m' & i & s & cs & E1 & _ & _ & E4 & _ & E6 & E7 & E8).
  exists m', i, cs. unfold held_to_nominal, and_then. rewrite Hm. cbn [held_unwrap_or_decimal]. rewrite He in E4. repeat split; assumption.
Qed.
Print Assumptions C101_fallback.

(** Any system of a caller that keeps the default [format_nominal] and is known
    to format in memory as on values (C98 to C100). *)
Theorem C101_callers_system : forall (hs : held_system) (sys : system) pf T n m, valid_platform pf ->
  follows m (sys (target pf) T n) (hs pf T n m) ->
  (forall e, sys (target pf) T n = Ret (Err e) -> Base.fits (target pf) T (error_number e)) ->
  match to_nominal n (default_system (target pf) T (sys (target pf) T)) with
  | Ret s => exists t, as_str s = Ret t /\
      match held_to_nominal hs pf T n m with
      | Done m' v => shows m' v t /\ adds_only m m' v
      | Stopped m' why => refused why /\ same_blocks m m'
      | Undefined => False
      end
  | Panic => exists m' why, held_to_nominal hs pf T n m = Stopped m' why /\ why <> Endless /\ same_blocks m m'
  | Hang => exists m' why, held_to_nominal hs pf T n m = Stopped m' why /\ (why = Endless \/ refused why /\ same_blocks m m')
  | UB => True
  end.
Proof.
  intros hs sys pf T n m Hp Hm Hfit. unfold to_nominal, default_system, held_to_nominal. cbn [format_nominal].
  destruct (sys (target pf) T n) as [[s|e]| | |]; cbn [obind unwrap_or_decimal follows mirrors] in *.
  - destruct Hm as (t & Et & Hm). exists t. split; [exact Et|]. unfold and_then.
    destruct (hs pf T n m) as [m' [v|e]|m' why|]; try contradiction; [exact Hm|]. destruct Hm as (H1 & _ & H2). split; [exact H1|exact H2].
  - destruct Hm as (m1 & Hb & Hm).
    destruct (decimal_in_memory pf T e m1 Hp (Hfit e eq_refl)) as (m' & i & s & cs & E1 & E2 & E3 & _ & E5 & E6 & E7 & E8).
    rewrite E2. exists (utf8 cs). split; [exact E3|]. unfold and_then. destruct Hm as [-> |(why & -> & Hw)]; [|auto].
    cbn [held_unwrap_or_decimal]. rewrite E1. split; [split; [exact E6|rewrite E5; eauto]|].
    split; [intros p b H; rewrite E8, Hb; exact H|]. split; [intros p H1 H2; rewrite E8, Hb in H1; contradiction|]. intros h p [=].
  - destruct Hm as (m' & why & E & Hw & Hb). exists m', why. unfold and_then. rewrite E. auto.
  - destruct Hm as (m' & why & E & H). exists m', why. unfold and_then. rewrite E. auto.
  - exact I.
Qed.
Print Assumptions C101_callers_system.

(** A long Roman numeral; zero in Ethiopic, which is shown in decimal; the
    collection of C100 whose error comes after 80 bytes. *)
Definition text_outline (r : status held) : list call * list N * option (bool * list N) * option stop :=
  match r with
  | Done m v => (calls m, sizes_in_use m,
      match held_str v m with Done _ t => Some (match v with HInline _ => true | HHeap _ => false end, t) | _ => None end, None)
  | Stopped m why => (calls m, sizes_in_use m, None, Some why)
  | Undefined => ([], [], None, None)
  end.

Example C101_case :
  text_outline (held_to_nominal held_ethiopic generous U32 0 no_memory) = ([], [], Some (true, bytes "0"%string), None) /\
  text_outline (held_to_nominal (held_live_system swelling) generous U8 7 no_memory)
    = ([Allocate 64; Reallocate 64 128; Deallocate 128], [], Some (true, bytes "7"%string), None) /\
  text_outline (held_to_nominal (held_live_system swelling) refuses_second U8 7 no_memory) = ([Allocate 64; Deallocate 64], [], None, Some AllocError) /\
  text_outline (held_to_nominal (held_additive_system RomanUpper_symbols) generous U32 21000001 no_memory)
    = ([Allocate 63; Reallocate 63 126], [126], Some (false, bytes "M̅M̅M̅M̅M̅M̅M̅M̅M̅M̅M̅M̅M̅M̅M̅M̅M̅M̅M̅M̅M̅I"%string), None).
Proof. repeat split; vm_compute; reflexivity. Qed.
