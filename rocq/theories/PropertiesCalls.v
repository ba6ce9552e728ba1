(** * PropertiesCalls: C65 and C66, the calls a formatter makes to a collection *)

From Coq Require Import String.
From Verif Require Import Layout Prelude Utf8Facts StringFacts History Outcome DigitFacts DigitOrder DigitSets
  PropertiesDigital Live PropertiesUser System Cases.

(** A call to a method of a collection, with its answer. *)
Inductive call :=
| CallLen (answer : N)
| CallFixed (answer : bool)
| CallHasZeroDigit (answer : bool)
| CallZeroBased (answer : bool)
| CallIsEmpty (answer : bool)
| CallDigit.

(** The answer of the latest [len()], the calls being listed latest first. *)
Fixpoint latest_len (calls : list call) : option N :=
  match calls with
  | [] => None
  | CallLen len :: _ => Some len
  | _ :: calls => latest_len calls
  end.

(** ** When a method may be called *)

(** [is_empty()] is only asked of a fallback, first. *)
Definition may_is_empty (calls : list call) : bool :=
  match calls with [] => true | _ => false end.

(** [len()] comes first, and again after every digit. *)
Definition may_len (calls : list call) : bool :=
  match calls with
  | [] | [CallIsEmpty false] | CallDigit :: _ => true
  | _ => false
  end.

(** [fixed()] is asked once, after the first [len()]. *)
Definition may_fixed (calls : list call) : bool :=
  match calls with
  | [CallLen _] | [CallLen _; CallIsEmpty _] => true
  | _ => false
  end.

(** [has_zero_digit()] is not asked of a fixed collection before the bounds
    check, and not right after a digit. *)
Definition may_has_zero_digit (calls : list call) : bool :=
  match calls with
  | CallFixed false :: _ | CallZeroBased _ :: _ | CallLen _ :: CallDigit :: _ => true
  | _ => false
  end.

(** As documented, [zero_based()] is only called if [has_zero_digit()] returned
    false; unless [strict], also if [fixed()] returned true. *)
Definition may_zero_based (strict : bool) (calls : list call) : bool :=
  match calls with
  | CallHasZeroDigit false :: _ => true
  | CallFixed true :: _ => negb strict
  | _ => false
  end.

(** [digit(index)] may panic unless the index is below the length. *)
Definition may_digit (index : N) (calls : list call) : bool :=
  match latest_len calls with
  | Some len => index <? len
  | None => false
  end.

(** The collection [d], keeping a list of the calls made to it, and going
    wrong in the given way at a call that may not be made. *)
Definition record_call {S A} (wrong : forall B, outcome B) (allowed : list call -> bool) (entry : A -> call)
    (method : S -> outcome (A * S)) (self : S * list call) : outcome (A * (S * list call)) :=
  if allowed (snd self) then
    '(answer, s) <- method (fst self) ;;
    Ret (answer, (s, entry answer :: snd self))
  else wrong _.

CoFixpoint watched (strict : bool) (wrong : forall B, outcome B) (d : live_collection) : live_collection :=
  Live (live_state d * list call) (live_start d, [])
    (record_call wrong may_fixed CallFixed (live_fixed d))
    (record_call wrong may_has_zero_digit CallHasZeroDigit (live_has_zero_digit d))
    (record_call wrong (may_zero_based strict) CallZeroBased (live_zero_based d))
    (record_call wrong may_len CallLen (live_len d))
    (record_call wrong may_is_empty CallIsEmpty (live_is_empty d))
    (fun index => record_call wrong (may_digit index) (fun _ => CallDigit) (live_digit d index))
    (watched strict wrong (live_fallback d)).

(** Lengths are [usize]s, for the collection and for its fallbacks. *)
CoInductive usize_lengths (c : config) : live_collection -> Prop :=
| UsizeLengths d :
    (forall self len self', live_len d self = Ret (len, self') -> len < 2 ^ usize_bits c) ->
    usize_lengths c (live_fallback d) -> usize_lengths c d.

(** The collection never says that it is fixed. *)
Definition never_fixed (d : live_collection) : Prop :=
  forall self fixed self', live_fixed d self = Ret (fixed, self') -> fixed = false.

(** ** Proof *)

(** Two runs of a loop in step. *)
Definition in_step {S S' R} (rel : S -> S' -> Prop) (o : outcome (loop_step S R)) (o' : outcome (loop_step S' R)) : Prop :=
  match o, o' with
  | Ret (Continue s), Ret (Continue s') => rel s s'
  | Ret (Break r), Ret (Break r') => r = r'
  | Panic, Panic | Hang, Hang | UB, UB => True
  | _, _ => False
  end.

Lemma run_loop_in_step {S S' R} c (rel : S -> S' -> Prop) (body : S -> outcome (loop_step S R)) body' :
  (forall s s', rel s s' -> in_step rel (body s) (body' s')) ->
  forall s s', rel s s' -> run_loop c body' s' = run_loop c body s.
Proof.
  intros H.
  assert (forall depth s s', rel s s' -> in_step rel (iterate depth body s) (iterate depth body' s')) as Hi.
  { induction depth as [|depth IH]; intros s s' Hs; cbn [iterate]; [apply H, Hs|].
    pose proof (IH s s' Hs) as Hd.
    destruct (iterate depth body s) as [[t|r]| | |], (iterate depth body' s') as [[t'|r']| | |];
      cbn [in_step obind] in *; try contradiction; auto. }
  intros s s' Hs. unfold run_loop. pose proof (Hi (loop_depth c) s s' Hs) as Hd.
  destruct (iterate (loop_depth c) body s) as [[t|r]| | |], (iterate (loop_depth c) body' s') as [[t'|r']| | |];
    cbn [in_step obind] in *; try contradiction; try reflexivity. subst. reflexivity.
Qed.

(** The history at the head of the loop. *)
Definition history_at_loop (count : N) (h : list call) : Prop :=
  latest_len h = Some count /\ may_has_zero_digit h = true.

Definition loop_rel strict wrong c (d : live_collection) (st : live_loop (live_state d)) (st' : live_loop (live_state (watched strict wrong d))) : Prop :=
  ll_remaining st' = ll_remaining st /\ ll_first_loop st' = ll_first_loop st /\ ll_count st' = ll_count st /\
  ll_formatted st' = ll_formatted st /\ fst (ll_self st') = ll_self st /\
  ll_count st < 2 ^ usize_bits c /\
  history_at_loop (ll_count st) (snd (ll_self st')).

Lemma body_in_step strict wrong c T d n : usize_lengths c d ->
  forall st st', loop_rel strict wrong c d st st' ->
  in_step (loop_rel strict wrong c d) (live_loop_body c T d n st) (live_loop_body c T (watched strict wrong d) n st').
Proof.
  intros Hu [rem first count s self] [rem' first' count' s' [self' h]] (E1 & E2 & E3 & E4 & E5 & Hcount & Hlen & Hz).
  cbn [ll_remaining ll_first_loop ll_count ll_formatted ll_self fst snd] in *. subst.
  unfold live_loop_body. cbn [ll_remaining ll_first_loop ll_count ll_formatted ll_self].
  destruct (negb (is_zero rem) || first); [|reflexivity].
  cbn [watched live_has_zero_digit live_zero_based live_digit live_len].
  unfold record_call at 1. cbn [fst snd]. rewrite Hz.
  destruct (live_has_zero_digit d self) as [[has_zero self1]| | |]; cbn [obind]; try exact I.
  (* the rest of the turn, after the questions about zero *)
  assert (forall subtract (no_zero : bool) self2 h2, latest_len h2 = Some count ->
    in_step (loop_rel strict wrong c d)
      (if no_zero then Ret (Break (Err NoZeroSymbol))
       else
         remaining <- (if subtract : bool then usub c (bits c T) rem 1 else Ret rem) ;;
         r <- urem remaining count ;;
         '(ch, self) <- live_digit d (as_usize c r) self2 ;;
         '(formatted, pushed) <- try_push_front c s ch ;;
         match pushed with
         | Ok _ =>
             remaining <- udiv remaining count ;;
             '(len, self) <- live_len d self ;;
             match try_from c T len with
             | Some count => Ret (Continue (LL remaining false count formatted self))
             | None => Ret (Break (Err (OutOfBounds n)))
             end
         | Err OutOfMemoryError => Ret (Break (Err (OutOfMemory n)))
         end)
      ((if no_zero then Ret (Break (Err NoZeroSymbol))
       else
         remaining <- (if subtract : bool then usub c (bits c T) rem 1 else Ret rem) ;;
         r <- urem remaining count ;;
         '(ch, self) <- record_call wrong (may_digit (as_usize c r)) (fun _ => CallDigit) (live_digit d (as_usize c r)) (self2, h2) ;;
         '(formatted, pushed) <- try_push_front c s ch ;;
         match pushed with
         | Ok _ =>
             remaining <- udiv remaining count ;;
             '(len, self) <- record_call wrong may_len CallLen (live_len d) self ;;
             match try_from c T len with
             | Some count => Ret (Continue (LL remaining false count formatted self))
             | None => Ret (Break (Err (OutOfBounds n)))
             end
         | Err OutOfMemoryError => Ret (Break (Err (OutOfMemory n)))
         end) : outcome (loop_step (live_loop (live_state (watched strict wrong d))) (result nominal_string error)))) as Hrest.
  { intros subtract no_zero self2 h2 Hh. destruct no_zero; [reflexivity|].
    destruct (if subtract then usub c (bits c T) rem 1 else Ret rem) as [r0| | |]; cbn [obind]; try exact I.
    unfold urem. destruct (N.eqb_spec count 0) as [Hc0|Hc0]; cbn [obind]; [exact I|].
    assert (r0 mod count < count) as Hr by (apply N.mod_lt; assumption).
    rewrite as_usize_small by lia.
    unfold record_call at 1, may_digit. cbn [fst snd]. rewrite Hh.
    destruct (N.ltb_spec (r0 mod count) count) as [_|]; [|lia].
    destruct (live_digit d (r0 mod count) self2) as [[ch self3]| | |]; cbn [obind]; try exact I.
    destruct (try_push_front c s ch) as [[formatted [[]|[]]]| | |]; cbn [obind]; try exact I; [|reflexivity].
    destruct (udiv r0 count) as [r1| | |]; cbn [obind]; try exact I.
    unfold record_call. cbn [fst snd may_len].
    destruct (live_len d self3) as [[len self4]| | |] eqn:El; cbn [obind]; try exact I.
    destruct (try_from c T len) as [count'|] eqn:Et; [|reflexivity].
    apply try_from_some in Et as [-> _]. cbn [in_step].
    assert (len < 2 ^ usize_bits c) by (destruct Hu as [d Hu _]; eapply Hu; exact El).
    repeat split; assumption. }
  destruct has_zero; cbn [obind].
  { apply (Hrest false false self1 (CallHasZeroDigit true :: h)). exact Hlen. }
  unfold record_call at 1. cbn [fst snd may_zero_based].
  destruct (live_zero_based d self1) as [[zero_based self2]| | |]; cbn [obind]; try exact I.
  destruct (negb zero_based || negb first).
  - unfold record_call at 1. cbn [fst snd may_has_zero_digit].
    destruct (live_has_zero_digit d self2) as [[has_zero self3]| | |]; cbn [obind]; try exact I.
    apply (Hrest true (negb has_zero && is_zero rem) self3 (CallHasZeroDigit has_zero :: CallZeroBased zero_based :: CallHasZeroDigit false :: h)). exact Hlen.
  - cbn [obind]. apply (Hrest false false self2 (CallZeroBased zero_based :: CallHasZeroDigit false :: h)). exact Hlen.
Qed.

Lemma watched_format strict wrong c T n :
  fits c T n -> forall depth d self h,
  usize_lengths c d -> (strict = true -> never_fixed d) ->
  h = [] \/ h = [CallIsEmpty false] ->
  format_live depth c T (in_state (watched strict wrong d) (self, h)) n = format_live depth c T (in_state d self) n.
Proof.
  intros Hn. induction depth as [|depth IH]; intros d self h Hu Hf Hh; [reflexivity|].
  cbn [format_live in_state live_len live_start live_digit live_fixed live_zero_based live_fallback live_is_empty].
  cbn [watched live_len live_start live_digit live_fixed live_zero_based live_fallback live_is_empty].
  unfold record_call at 1. cbn [fst snd].
  replace (may_len h) with true by (destruct Hh; subst; reflexivity).
  destruct (live_len d self) as [[len self1]| | |] eqn:El; cbn [obind]; try reflexivity.
  assert (len < 2 ^ usize_bits c) as Hlen by (destruct Hu as [d Hu _]; eapply Hu; exact El).
  destruct (try_from c T len) as [count|] eqn:Et.
  2:{ assert (n < len) as Hlt.
      { unfold try_from in Et. destruct (N.ltb_spec len (2 ^ bits c T)); [discriminate|]. unfold fits in Hn. lia. }
      unfold record_call, may_digit. cbn [fst snd latest_len]. rewrite as_usize_small by lia.
      destruct (N.ltb_spec n len); [|lia].
      destruct (live_digit d n self1) as [[ch self2]| | |]; reflexivity. }
  apply try_from_some in Et as [-> _].
  assert (forall self h, history_at_loop len h ->
    run_loop c (live_loop_body c T (watched strict wrong d) n) (LL n true len new_reverse (self, h)) =
    run_loop c (live_loop_body c T d n) (LL n true len new_reverse self)) as Hloop.
  { intros s0 h0 Hh0. apply (run_loop_in_step c (loop_rel strict wrong c d)); [apply body_in_step, Hu|].
    repeat split; cbn [ll_count]; try assumption; apply Hh0. }
  unfold record_call at 1. cbn [fst snd].
  replace (may_fixed (CallLen len :: h)) with true by (destruct Hh; subst; reflexivity).
  destruct (live_fixed d self1) as [[fixed self2]| | |] eqn:Ef; cbn [obind]; try reflexivity.
  destruct fixed; cbn [obind].
  2:{ apply (Hloop self2). split; reflexivity. }
  unfold record_call at 1. cbn [fst snd may_zero_based].
  destruct strict.
  { exfalso. discriminate (Hf eq_refl _ _ _ Ef). }
  cbn [negb].
  destruct (live_zero_based d self2) as [[zero_based self3]| | |]; cbn [obind]; try reflexivity.
  destruct (if zero_based then len <=? n else len <? n).
  2:{ apply (Hloop self3). split; reflexivity. }
  unfold record_call. cbn [fst snd may_is_empty].
  destruct (live_is_empty (live_fallback d) (live_start (live_fallback d))) as [[empty start]| | |]; cbn [obind]; try reflexivity.
  destruct empty; [reflexivity|].
  apply IH; [destruct Hu as [d _ Hu]; exact Hu|discriminate|auto].
Qed.

(** ** C65 *)

Theorem C65_calls_made : forall c T d n wrong,
  fits c T n -> usize_lengths c d ->
  try_format_live c T (watched false wrong d) n = try_format_live c T d n.
Proof.
  intros c T d n wrong Hn Hu. unfold try_format_live.
  assert (forall depth d, format_live depth c T d n = format_live depth c T (in_state d (live_start d)) n) as E.
  { intros [|depth] d'; reflexivity. }
  rewrite (E _ (watched false wrong d)), (E _ d). apply (watched_format false wrong); auto. discriminate.
Qed.
Print Assumptions C65_calls_made.

(** ** C66 *)

(** Full statement, as documented: [zero_based()] is only called if
    [has_zero_digit()] returned false, and true means counting from 1. The
    first part holds of collections that are not fixed. *)
Theorem C66_zero_based_partial : forall c T d n wrong,
  fits c T n -> usize_lengths c d -> never_fixed d ->
  try_format_live c T (watched true wrong d) n = try_format_live c T d n.
Proof.
  intros c T d n wrong Hn Hu Hf. unfold try_format_live.
  assert (forall depth d, format_live depth c T d n = format_live depth c T (in_state d (live_start d)) n) as E.
  { intros [|depth] d'; reflexivity. }
  rewrite (E _ (watched true wrong d)), (E _ d). apply (watched_format true wrong); auto.
Qed.
Print Assumptions C66_zero_based_partial.

(** Rules are rules: out of turn, the watched collection goes wrong. *)
Definition go_wrong : forall A, outcome A := fun A => UB.

Lemma fickle_usize : usize_lengths no_heap fickle.
Proof.
  cofix H. constructor; [|exact H]. intros self len self' E. cbn [fickle live_len] in E. injection E as <- _.
  vm_compute. reflexivity.
Qed.

(** Letters, and two medals with the letters as their fallback. *)
Definition lookup_live (digits : list N) (index : N) (u : unit) : outcome (N * unit) :=
  ch <- or_panic (lookup digits index) ;; Ret (ch, u).

CoFixpoint letters_live : live_collection :=
  Live unit tt (fun u => Ret (false, u)) (fun u => Ret (false, u)) (fun u => Ret (true, u)) (fun u => Ret (3, u))
    (fun u => Ret (false, u)) (lookup_live abc) letters_live.

Definition medals_live (zero_digit : bool) (zero_based : unit -> outcome (bool * unit)) : live_collection :=
  Live unit tt (fun u => Ret (true, u)) (fun u => Ret (zero_digit, u)) zero_based (fun u => Ret (2, u))
    (fun u => Ret (false, u)) (lookup_live (chars "gs"%string)) letters_live.

Lemma letters_usize : usize_lengths no_heap letters_live /\ never_fixed letters_live.
Proof.
  split.
  - cofix H. constructor; [|exact H]. intros self len self' E. cbn [letters_live live_len] in E. injection E as <- _.
    vm_compute. reflexivity.
  - intros self fixed self' E. cbn [letters_live live_fixed] in E. injection E as <- _. reflexivity.
Qed.

Lemma medals_usize z zb : usize_lengths no_heap (medals_live z zb).
Proof.
  constructor; [|apply letters_usize]. intros self len self' E. cbn [medals_live live_len] in E. injection E as <- _.
  vm_compute. reflexivity.
Qed.

Example C65_case :
  usize_lengths no_heap fickle /\
  map (fun n => seen (try_format_live no_heap U8 (watched false go_wrong fickle) n)) [0; 10; 255] =
    map (fun n => seen (try_format_live no_heap U8 fickle n)) [0; 10; 255] /\
  map (fun n => seen (try_format_live no_heap U8 (watched false go_wrong (medals_live false (fun u => Ret (false, u)))) n)) [0; 1; 2; 3; 40] =
    Ret (Err NoZeroSymbol) :: map (fun t => Ret (Ok (bytes t))) ["g"; "s"; "aa"; "aaab"]%string /\
  live_digit (watched false go_wrong fickle) 9 (true, [CallHasZeroDigit true; CallFixed false; CallLen 10]) <> UB /\
  live_digit (watched false go_wrong fickle) 10 (true, [CallHasZeroDigit true; CallFixed false; CallLen 10]) = UB /\
  live_zero_based (watched false go_wrong fickle) (true, [CallHasZeroDigit true; CallFixed false; CallLen 10]) = UB.
Proof.
  split; [apply fickle_usize|]. split; [vm_compute; reflexivity|]. split; [vm_compute; reflexivity|].
  split; [discriminate|]. split; reflexivity.
Qed.

(** A fixed collection is asked whether it is [zero_based()] although it has a
    zero digit: one that does not expect this panics. *)
Theorem C66_zero_based_refuted : exists d wrong,
  usize_lengths no_heap d /\
  (forall self, live_has_zero_digit d self = Ret (true, self)) /\
  seen (try_format_live no_heap U8 d 1) = Panic /\
  seen (try_format_live no_heap U8 (watched true wrong d) 1) = UB /\
  seen (try_format_live no_heap U8 (medals_live true (fun u => Ret (true, u))) 1) = Ret (Ok (bytes "s"%string)).
Proof.
  exists (medals_live true (fun _ => Panic)), go_wrong. split; [apply medals_usize|].
  split; [reflexivity|]. split; [vm_compute; reflexivity|]. split; vm_compute; reflexivity.
Qed.
Print Assumptions C66_zero_based_refuted.

(** And an answer of true means counting from 0, not, as documented, from 1. *)
Theorem C66_meaning_refuted : exists d,
  dc_has_zero_digit d = false /\ dc_zero_based d = true /\
  seen (try_format_digits no_heap U8 d 0) = Ret (Ok (bytes "a"%string)) /\
  seen (try_format_digits no_heap U8 d 1) = Ret (Ok (bytes "b"%string)) /\
  dc_zero_based (one_based d) = false /\
  seen (try_format_digits no_heap U8 (one_based d) 0) = Ret (Err NoZeroSymbol) /\
  seen (try_format_digits no_heap U8 (one_based d) 1) = Ret (Ok (bytes "a"%string)).
Proof. exists LetterLower. repeat (split; [vm_compute; reflexivity|]). vm_compute; reflexivity. Qed.
Print Assumptions C66_meaning_refuted.

Example C66_case :
  usize_lengths no_heap letters_live /\ never_fixed letters_live /\
  map (fun n => seen (try_format_live no_heap U8 (watched true go_wrong letters_live) n)) [0; 3; 38; 39] =
    map (fun t => Ret (Ok (bytes t))) ["a"; "aa"; "ccc"; "aaaa"]%string.
Proof. split; [apply letters_usize|]. split; [apply letters_usize|]. vm_compute; reflexivity. Qed.
