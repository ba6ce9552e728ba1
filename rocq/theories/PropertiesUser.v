(** * PropertiesUser: C56, C57 and C58, collections written by the caller *)

From Coq Require Import String.
From Verif Require Import Layout Prelude Utf8Facts StringFacts History Outcome DigitFacts DigitOrder DigitSets
  PropertiesDigital Live System Cases.

(** ** C56: fixed collections *)

(** A caller's fixed collection: its symbols, counted from zero or from one,
    and what to use beyond them. *)
Record rung := { rung_from_zero : bool; rung_symbols : list N }.

(** [d] is a fixed collection with the symbols of the first rung, its fallback
    one with those of the second, and so on, ending with [last]. A fixed
    collection with a zero digit must count from zero. *)
Inductive ladder (c : config) : digit_collection -> list rung -> digit_collection -> Prop :=
| ladder_end last : ladder c last [] last
| ladder_rung d from_zero symbols rungs last :
    dc_fixed d = true -> dc_zero_based d = from_zero -> (from_zero = false -> dc_has_zero_digit d = false) ->
    collects c d symbols -> symbols <> [] -> ladder c (dc_fallback d) rungs last ->
    ladder c d ({| rung_from_zero := from_zero; rung_symbols := symbols |} :: rungs) last.

(** The symbol of [n]: the first rung long enough has it. *)
Inductive place := Symbol (ch : N) | Unnamed | Beyond.

Fixpoint climb (rungs : list rung) (n : N) : place :=
  match rungs with
  | [] => Beyond
  | r :: rungs =>
      let len := N.of_nat (length (rung_symbols r)) in
      if rung_from_zero r then
        if n <? len then Symbol (nth (N.to_nat n) (rung_symbols r) 0) else climb rungs n
      else if n =? 0 then Unnamed
      else if n <=? len then Symbol (nth (N.to_nat (n - 1)) (rung_symbols r) 0) else climb rungs n
  end.

(** One symbol is printed by the loop in one turn. *)
Lemma one_turn c T d digits n x k : valid_config c -> collects c d digits -> fits c T (N.of_nat (length digits)) ->
  fits c T n -> in_range d (N.of_nat (length digits)) n = true ->
  x < N.of_nat (length digits) ->
  n = x + (if negb (dc_has_zero_digit d) && negb (dc_zero_based d) then 1 else 0) ->
  yields c (format_digits (S k) c T d n) n [digit_char digits x].
Proof.
  intros Hc Hcol Hfit Hn Hr Hx En.
  apply format_loop with (digits := digits); try assumption.
  destruct (turn c T d digits n Hcol Hfit n true new_reverse []
    (negb (dc_has_zero_digit d) && negb (dc_zero_based d)) 0 x (text_new_reverse c)) as [(s' & E & Ht')|[E Hroom]].
  - apply andb_false_r.
  - rewrite orb_false_r. reflexivity.
  - rewrite En at 1. lia.
  - exact Hx.
  - assert (loops (digit_loop_body c T d n) 2 (state digits n true new_reverse) (stored c n [digit_char digits x])) as L.
    { eapply loops_step; [exact E|lia|]. eapply loops_break with (r := Ok s'); [reflexivity|lia|]. apply stored_text, Ht'. }
    eapply loops_run; [assumption| |exact L]. lia.
  - exists (Err (OutOfMemory n)). split.
    + eapply runs_run_loop; [constructor; exact E|]. apply budget; [assumption|lia].
    + apply stored_oom, Hroom.
Qed.

(** The fallback of the lowest rung the number does not fit is formatted, with
    the recursion budget that is left. *)
Theorem C56_fixed_collections : forall c T d rungs last len n,
  valid_config c -> ladder c d rungs last -> rungs <> [] -> (length rungs <= 128)%nat ->
  Forall (fun r => fits c T (N.of_nat (length (rung_symbols r)))) rungs -> fits c T n ->
  dc_fixed last = false -> dc_len last = Ret len ->
  match climb rungs n with
  | Symbol ch => prints c (try_format_digits c T d n) n [ch]
  | Unnamed => try_format_digits c T d n = Ret (Err NoZeroSymbol)
  | Beyond =>
      if len =? 0 then try_format_digits c T d n = Ret (Err (OutOfBounds n))
      else try_format_digits c T d n = try_format_digits c T last n
  end.
Proof.
  intros c T d rungs last len n Hc Hl Hne Hk Hfit Hn Hlast Hlen.
  assert (forall depth, (length rungs < depth)%nat -> 
    match climb rungs n with
    | Symbol ch => prints c (format_digits depth c T d n) n [ch]
    | Unnamed => format_digits depth c T d n = Ret (Err NoZeroSymbol)
    | Beyond =>
        if len =? 0 then format_digits depth c T d n = Ret (Err (OutOfBounds n))
        else format_digits depth c T d n = format_digits (depth - length rungs) c T last n
    end) as H.
  { clear Hk. induction Hl as [|d from_zero symbols rungs last Hf Hzb Hz Hcol Hsym Hl IH]; [contradiction|]. intros depth Hd.
    destruct depth as [|depth]; [cbn in Hd; lia|]. cbn [length] in Hd.
    apply Forall_cons_iff in Hfit as [Hfit1 Hfit]. cbn [rung_symbols] in Hfit1. cbn [climb rung_from_zero rung_symbols].
    assert (in_range d (N.of_nat (length symbols)) n = false ->
      match climb rungs n with
      | Symbol ch => prints c (format_digits (S depth) c T d n) n [ch]
      | Unnamed => format_digits (S depth) c T d n = Ret (Err NoZeroSymbol)
      | Beyond =>
          if len =? 0 then format_digits (S depth) c T d n = Ret (Err (OutOfBounds n))
          else format_digits (S depth) c T d n = format_digits (S depth - S (length rungs)) c T last n
      end) as Hfall.
    { intros Hr. pose proof Hcol as (Hdl & _). cbn [format_digits]. rewrite Hdl. cbn [obind]. rewrite try_from_fits by assumption.
      unfold in_range in Hr. apply negb_false_iff in Hr. rewrite Hr.
      destruct Hl as [last|d' fz symbols' rungs last Hf' Hzb' Hz' Hcol' Hsym' Hl'].
      - cbn [climb length]. rewrite Hlen. cbn [obind]. destruct (len =? 0); [reflexivity|]. f_equal. lia.
      - pose proof Hcol' as (Hdl' & _). rewrite Hdl'. cbn [obind].
        destruct (N.eqb_spec (N.of_nat (length symbols')) 0); [destruct symbols'; [contradiction|cbn in *; lia]|].
        replace (S depth - S (length ({| rung_from_zero := fz; rung_symbols := symbols' |} :: rungs)))%nat
          with (depth - length ({| rung_from_zero := fz; rung_symbols := symbols' |} :: rungs))%nat by lia.
        apply IH; try assumption; [discriminate|lia]. }
    destruct from_zero.
    - destruct (N.ltb_spec n (N.of_nat (length symbols))) as [Hlt|Hge].
      + apply yields_prints. apply (one_turn c T d symbols n n depth); try assumption.
        * unfold in_range. rewrite Hzb. apply negb_true_iff, andb_false_iff. right. lia.
        * rewrite Hzb, andb_false_r. lia.
      + apply Hfall. unfold in_range. rewrite Hf, Hzb. cbn [andb]. lia.
    - specialize (Hz eq_refl). destruct (N.eqb_spec n 0) as [->|Hn0].
      + eapply format_digits_zero; try eassumption. destruct symbols; [contradiction|cbn; lia].
      + destruct (N.leb_spec n (N.of_nat (length symbols))) as [Hle|Hgt].
        * apply yields_prints. apply (one_turn c T d symbols n (n - 1) depth); try assumption; [|lia|].
          -- unfold in_range. rewrite Hzb. apply negb_true_iff, andb_false_iff. right. lia.
          -- rewrite Hz, Hzb. cbn [negb andb]. lia.
        * apply Hfall. unfold in_range. rewrite Hf, Hzb. cbn [andb]. lia. }
  pose proof Hc as [_ Hdepth]. unfold try_format_digits. specialize (H (loop_depth c) ltac:(lia)).
  destruct (climb rungs n); [exact H|exact H|]. destruct (len =? 0); [exact H|]. rewrite H.
  destruct (loop_depth c) as [|j]; [lia|]. destruct (S j - length rungs)%nat as [|i] eqn:Ei; [lia|].
  cbn [format_digits]. rewrite Hlast. reflexivity.
Qed.
Print Assumptions C56_fixed_collections.

Definition fixed_set (has_zero zero_based : bool) (symbols : list N) (fallback : digit_collection) : digit_collection :=
  DC true has_zero zero_based (Ret (N.of_nat (length symbols))) (fun i => or_panic (lookup symbols i)) fallback.

(** A fixed collection that is its own fallback never returns beyond its
    symbols. *)
CoFixpoint circular (symbols : list N) : digit_collection :=
  DC true false true (Ret (N.of_nat (length symbols))) (fun i => or_panic (lookup symbols i)) (circular symbols).

Theorem C56_circular_fallback_hangs : forall c T symbols n,
  valid_config c -> symbols <> [] -> fits c T n -> N.of_nat (length symbols) <= n ->
  try_format_digits c T (circular symbols) n = Hang.
Proof.
  intros c T symbols n Hc Hs Hn Hle. unfold try_format_digits. induction (loop_depth c) as [|depth IH]; [reflexivity|].
  cbn [format_digits circular dc_len dc_fixed dc_zero_based dc_fallback obind].
  rewrite try_from_fits by (eapply fits_le; eassumption). cbn [andb].
  destruct (N.leb_spec (N.of_nat (length symbols)) n); [|lia].
  destruct (N.eqb_spec (N.of_nat (length symbols)) 0); [destruct symbols; [contradiction|cbn in *; lia]|]. exact IH.
Qed.
Print Assumptions C56_circular_fallback_hangs.

(** Suits, then circled letters from one, then decimal; or nothing beyond. *)
Definition suits := chars "♠♥♦♣"%string.
Definition letters6 := chars "abcdef"%string.

Example C56_case :
  let rungs := [{| rung_from_zero := true; rung_symbols := suits |}; {| rung_from_zero := false; rung_symbols := letters6 |}] in
  let d last := fixed_set false true suits (fixed_set false false letters6 last) in
  ladder no_heap (d Decimal) rungs Decimal /\ ladder no_heap (d NoFallback) rungs NoFallback /\
  map (climb rungs) [0; 3; 4; 6; 7] = [Symbol 0x2660; Symbol 0x2663; Symbol 0x64; Symbol 0x66; Beyond] /\
  map (fun n => seen (try_format_digits no_heap U8 (d Decimal) n)) [0; 3; 4; 6; 7] =
    map (fun t => Ret (Ok (bytes t))) ["♠"; "♣"; "d"; "f"; "7"]%string /\
  seen (try_format_digits no_heap U8 (d NoFallback) 7) = Ret (Err (OutOfBounds 7)) /\
  seen (try_format_digits no_heap U8 (fixed_set false false letters6 Decimal) 0) = Ret (Err NoZeroSymbol).
Proof.
  assert (forall z zb symbols last, (length symbols < 256)%nat -> scalars symbols ->
    collects no_heap (fixed_set z zb symbols last) symbols) as Hcol.
  { intros z zb symbols last Hl Hs. split; [reflexivity|]. split; [|split; [apply small_length; [apply no_heap_valid|exact Hl]|exact Hs]].
    intros i Hi. cbn [dc_digit fixed_set]. rewrite lookup_digit by exact Hi. reflexivity. }
  cbv zeta. split; [|split; [|repeat split; vm_compute; reflexivity]];
    (apply ladder_rung; [reflexivity|reflexivity|discriminate|apply Hcol; [cbn; lia|apply scalars_check; vm_compute; reflexivity]|discriminate|];
     apply ladder_rung; [reflexivity|reflexivity|reflexivity|apply Hcol; [cbn; lia|apply scalars_check; vm_compute; reflexivity]|discriminate|];
     constructor).
Qed.

(** ** C57: whatever the caller's collection does, formatting is sound *)

(** The methods are safe code: they may return anything of their type, panic or
    not return, but have no undefined behaviour; a [char] is a scalar value. *)
CoInductive safe_code : live_collection -> Prop :=
| safe_code_intro d :
    (forall self, live_fixed d self <> UB) -> (forall self, live_has_zero_digit d self <> UB) ->
    (forall self, live_zero_based d self <> UB) -> (forall self, live_len d self <> UB) ->
    (forall self, live_is_empty d self <> UB) ->
    (forall i self, live_digit d i self <> UB) ->
    (forall i self ch self', live_digit d i self = Ret (ch, self') -> is_scalar ch = true) ->
    safe_code (live_fallback d) -> safe_code d.

(** No undefined behaviour; a returned string is readable, valid UTF-8 and
    stored where it belongs; a returned error names this number. *)
Definition sound (c : config) (n : N) (r : outcome (result nominal_string error)) : Prop :=
  match r with
  | UB => False
  | Panic | Hang => True
  | Ret (Ok s) => exists text, as_str s = Ret text /\ valid_utf8 text = true /\ text <> [] /\
                    is_inline s = at_most_62 text /\ (is_inline s = false -> has_alloc c = true) /\ reachable c s
  | Ret (Err e) => match e with
                   | NoZeroSymbol => True
                   | OutOfMemory m => m = n /\ has_alloc c = false
                   | OutOfBounds m => m = n
                   end
  end.

Lemma iterate_invariant {S R} (body : S -> outcome (loop_step S R)) (I : S -> Prop) (Q : R -> Prop) :
  (forall s, I s -> match body s with UB => False | Ret (Continue s') => I s' | Ret (Break r) => Q r | _ => True end) ->
  forall depth s, I s -> match iterate depth body s with UB => False | Ret (Continue s') => I s' | Ret (Break r) => Q r | _ => True end.
Proof.
  intros H. induction depth as [|depth IH]; intros s Hs; cbn [iterate]; [apply H, Hs|].
  pose proof (IH s Hs) as H1. destruct (iterate depth body s) as [[s'|r]| | |]; cbn [obind]; [apply IH, H1|exact H1..].
Qed.

Lemma run_loop_invariant {S R} c (body : S -> outcome (loop_step S R)) (I : S -> Prop) (Q : R -> Prop) s :
  (forall s, I s -> match body s with UB => False | Ret (Continue s') => I s' | Ret (Break r) => Q r | _ => True end) ->
  I s -> match run_loop c body s with UB => False | Ret r => Q r | _ => True end.
Proof.
  intros H Hs. pose proof (iterate_invariant body I Q H (loop_depth c) s Hs) as Hi. unfold run_loop.
  destruct (iterate (loop_depth c) body s) as [[s'|r]| | |]; cbn [obind]; auto.
Qed.

Lemma sound_text c n s cs : text c s cs -> cs <> [] -> sound c n (Ret (Ok s)).
Proof.
  intros [Hr Hi] Hne. exists (utf8 cs). split; [eapply rep_str, Hr|]. split; [apply valid_utf8_utf8, Hr|]. split.
  - destruct cs as [|ch cs]; [contradiction|]. intros E. apply (f_equal (@length N)) in E. cbn [length] in E.
    pose proof (utf8_len_cons ch cs) as Hu. unfold utf8_len in Hu at 1. rewrite E in Hu. pose proof (len_utf8_bounds ch). lia.
  - split; [rewrite Hi; apply len_62|]. split; [|eapply rep_reachable, Hr].
    destruct s; [discriminate|]. intros _. destruct Hr as [_ Hr]. apply Hr.
Qed.

(** After the first turn the string is not empty. *)
Definition kept (c : config) (d : live_collection) (st : live_loop (live_state d)) : Prop :=
  exists cs, text c (ll_formatted st) cs /\ (ll_first_loop st = false -> cs <> []).

Lemma live_body_sound c T d n st : safe_code d -> kept c d st ->
  match live_loop_body c T d n st with
  | UB => False | Ret (Continue st') => kept c d st' | Ret (Break r) => sound c n (Ret r) | _ => True
  end.
Proof.
  intros Hd (cs & Ht & Hne). destruct Hd as [d H1 H2 H3 H4 H5 H6 H7 H8]. unfold live_loop_body.
  destruct (negb (is_zero (ll_remaining st)) || ll_first_loop st) eqn:Ego.
  2:{ eapply sound_text; [exact Ht|]. apply Hne. apply orb_false_iff in Ego. apply Ego. }
  assert (forall self sub, match
    ('(no_zero, self) <- (if sub : bool then '(has_zero, self) <- live_has_zero_digit d self ;;
         Ret (negb has_zero && is_zero (ll_remaining st), self) else Ret (false, self)) ;;
    if no_zero : bool then Ret (Break (Err NoZeroSymbol))
    else
      remaining <- (if sub then usub c (bits c T) (ll_remaining st) 1 else Ret (ll_remaining st)) ;;
      r <- urem remaining (ll_count st) ;;
      '(ch, self) <- live_digit d (as_usize c r) self ;;
      '(formatted, pushed) <- try_push_front c (ll_formatted st) ch ;;
      match pushed with
      | Err OutOfMemoryError => Ret (Break (Err (OutOfMemory n)))
      | Ok _ =>
          remaining <- udiv remaining (ll_count st) ;;
          '(len, self) <- live_len d self ;;
          match try_from c T len with
          | Some count => Ret (Continue (LL remaining false count formatted self))
          | None => Ret (Break (Err (OutOfBounds n)))
          end
      end) : outcome (loop_step (live_loop (live_state d)) (result nominal_string error)) with
    | UB => False | Ret (Continue st') => kept c d st' | Ret (Break r) => sound c n (Ret r) | _ => True end) as Hrest.
  { intros self sub.
    assert (forall self, match
      (remaining <- (if sub then usub c (bits c T) (ll_remaining st) 1 else Ret (ll_remaining st)) ;;
      r <- urem remaining (ll_count st) ;;
      '(ch, self) <- live_digit d (as_usize c r) self ;;
      '(formatted, pushed) <- try_push_front c (ll_formatted st) ch ;;
      match pushed with
      | Err OutOfMemoryError => Ret (Break (Err (OutOfMemory n)))
      | Ok _ =>
          remaining <- udiv remaining (ll_count st) ;;
          '(len, self) <- live_len d self ;;
          match try_from c T len with
          | Some count => Ret (Continue (LL remaining false count formatted self))
          | None => Ret (Break (Err (OutOfBounds n)))
          end
      end) : outcome (loop_step (live_loop (live_state d)) (result nominal_string error)) with
      | UB => False | Ret (Continue st') => kept c d st' | Ret (Break r) => sound c n (Ret r) | _ => True end) as Hturn.
    { clear self. intros self.
      assert (exists o : outcome N, (if sub then usub c (bits c T) (ll_remaining st) 1 else Ret (ll_remaining st)) = o /\ o <> UB) as (o & -> & Ho).
      { eexists. split; [reflexivity|]. destruct sub; [unfold usub; destruct (_ <=? _), (overflow_checks c)|]; discriminate. }
      destruct o as [remaining| | |]; cbn [obind]; auto. unfold urem, udiv. destruct (ll_count st =? 0); cbn [obind]; [exact I|].
      destruct (live_digit d (as_usize c (remaining mod ll_count st)) self) as [[ch self']| | |] eqn:Ed; cbn [obind]; auto.
      2:{ exact (H6 _ _ Ed). }
      destruct (push_front_pushed c (ll_formatted st) cs ch Ht (H7 _ _ _ _ Ed)) as [(s' & E & Ht')|[E Hroom]]; rewrite E; cbn [obind].
      - destruct (live_len d self') as [[len self'']| | |] eqn:El; cbn [obind]; auto; [|exact (H4 _ El)].
        destruct (try_from c T len); [|reflexivity]. exists (ch :: cs). split; [exact Ht'|]. discriminate.
      - split; [reflexivity|]. unfold room in Hroom. apply orb_false_iff in Hroom. apply Hroom. }
    destruct sub.
    - destruct (live_has_zero_digit d self) as [[hz self']| | |] eqn:Eh; cbn [obind]; auto; [|exact (H2 _ Eh)].
      destruct (negb hz && is_zero (ll_remaining st)); [exact I|]. apply Hturn.
    - cbn [obind]. apply Hturn. }
  destruct (live_has_zero_digit d (ll_self st)) as [[hz self]| | |] eqn:Eh; cbn [obind]; auto; [|exact (H2 _ Eh)].
  destruct hz; [apply (Hrest self false)|].
  destruct (live_zero_based d self) as [[zb self']| | |] eqn:Ez; cbn [obind]; auto; [|exact (H3 _ Ez)].
  apply (Hrest self' (negb zb || negb (ll_first_loop st))).
Qed.

Lemma in_state_safe d self : safe_code d -> safe_code (in_state d self).
Proof. intros H. revert self. destruct H as [d H1 H2 H3 H4 H5 H6 H7 H8]. intros self. constructor; assumption. Qed.

Theorem C57_sound_whatever_the_collection : forall c T d n, safe_code d -> sound c n (try_format_live c T d n).
Proof.
  intros c T d n. unfold try_format_live. generalize (loop_depth c) at 1. intros depth. revert d.
  induction depth as [|depth IH]; intros d Hd; [exact I|]. cbn [format_live].
  destruct Hd as [d' H1 H2 H3 H4 H5 H6 H7 H8]. assert (safe_code d') as Hd by (constructor; assumption).
  destruct (live_len d' (live_start d')) as [[len self]| | |] eqn:El; cbn [obind]; try exact I; [|exact (H4 _ El)].
  destruct (try_from c T len) as [count|].
  - assert (forall self, sound c n (run_loop c (live_loop_body c T d' n) (LL n true count new_reverse self))) as Hloop.
    { clear self El. intros self.
      pose proof (run_loop_invariant c (live_loop_body c T d' n) (kept c d') (fun r => sound c n (Ret r))
        (LL n true count new_reverse self)) as Hl.
      destruct (run_loop c (live_loop_body c T d' n) (LL n true count new_reverse self)); try exact I.
      - apply Hl; [intros st Hst; apply live_body_sound; assumption|]. exists []. split; [apply text_new_reverse|discriminate].
      - apply Hl; [intros st Hst; apply live_body_sound; assumption|]. exists []. split; [apply text_new_reverse|discriminate]. }
    destruct (live_fixed d' self) as [[fixed self1]| | |] eqn:Ef; cbn [obind]; try exact I; [|exact (H1 _ Ef)].
    assert (forall (beyond : bool) self, sound c n
      (if beyond then
         '(empty, start) <- live_is_empty (live_fallback d') (live_start (live_fallback d')) ;;
         if empty : bool then Ret (Err (OutOfBounds n))
         else format_live depth c T (in_state (live_fallback d') start) n
       else run_loop c (live_loop_body c T d' n) (LL n true count new_reverse self))) as Hb.
    { intros [|] self2; [|apply Hloop]. destruct (live_is_empty (live_fallback d') (live_start (live_fallback d'))) as [[empty start]| | |] eqn:Ee;
        cbn [obind]; try exact I; [|revert Ee; destruct H8 as [f F1 F2 F3 F4 F5 F6 F7 F8]; apply F5].
      destruct empty; [reflexivity|]. apply IH, in_state_safe, H8. }
    destruct fixed.
    + destruct (live_zero_based d' self1) as [[zb self2]| | |] eqn:Ez; cbn [obind]; try exact I; [|exact (H3 _ Ez)].
      apply Hb.
    + apply (Hb false).
  - destruct (live_digit d' (as_usize c n) self) as [[ch self1]| | |] eqn:Ed; cbn [obind]; try exact I; [|exact (H6 _ _ Ed)].
    destruct (from_char_text c ch (H7 _ _ _ _ Ed)) as (s & E & Ht). rewrite E. cbn [obind].
    eapply sound_text; [exact Ht|discriminate].
Qed.
Print Assumptions C57_sound_whatever_the_collection.

(** A collection without state is formatted as in [Digital]. *)
CoFixpoint still (d : digit_collection) : live_collection :=
  Live unit tt (fun u => Ret (dc_fixed d, u)) (fun u => Ret (dc_has_zero_digit d, u)) (fun u => Ret (dc_zero_based d, u))
    (fun u => len <- dc_len d ;; Ret (len, u)) (fun u => len <- dc_len d ;; Ret (len =? 0, u))
    (fun i u => ch <- dc_digit d i ;; Ret (ch, u)) (still (dc_fallback d)).

Lemma iterate_map {S S' R} (f : S -> S') (body : S -> outcome (loop_step S R)) (body' : S' -> outcome (loop_step S' R)) :
  let lift o := match o with Ret (Continue s) => Ret (Continue (f s)) | Ret (Break r) => Ret (Break r) | Panic => Panic | Hang => Hang | UB => UB end in
  (forall s, body' (f s) = lift (body s)) -> forall depth s, iterate depth body' (f s) = lift (iterate depth body s).
Proof.
  intros lift H. induction depth as [|depth IH]; intros s; cbn [iterate]; [apply H|].
  rewrite IH. destruct (iterate depth body s) as [[s'|r]| | |]; cbn [obind lift]; auto.
Qed.

Lemma run_loop_map {S S' R} c (f : S -> S') (body : S -> outcome (loop_step S R)) (body' : S' -> outcome (loop_step S' R)) s :
  (forall s, body' (f s) = match body s with Ret (Continue s) => Ret (Continue (f s)) | Ret (Break r) => Ret (Break r) | Panic => Panic | Hang => Hang | UB => UB end) ->
  run_loop c body' (f s) = run_loop c body s.
Proof.
  intros H. unfold run_loop. rewrite (iterate_map f body body' H). destruct (iterate (loop_depth c) body s) as [[s'|r]| | |]; reflexivity.
Qed.

Lemma in_state_still d : in_state (still d) tt = still d.
Proof.
  assert (forall l, l = match l with Live st a b e f g h i j => Live st a b e f g h i j end) as E by (intros []; reflexivity).
  rewrite (E (still d)) at 2. reflexivity.
Qed.

Theorem C57_no_state_no_difference : forall c T d n, try_format_live c T (still d) n = try_format_digits c T d n.
Proof.
  intros c T d n. unfold try_format_live, try_format_digits. generalize (loop_depth c). intros depth. revert d.
  induction depth as [|depth IH]; intros d; [reflexivity|]. cbn [format_live format_digits].
  cbn [still live_len live_start live_fixed live_zero_based live_digit live_fallback live_is_empty].
  destruct (dc_len d) as [len| | |]; cbn [obind]; try reflexivity.
  destruct (try_from c T len) as [count|].
  2:{ destruct (dc_digit d (as_usize c n)); reflexivity. }
  assert (run_loop c (live_loop_body c T (still d) n) (LL n true count new_reverse tt) =
          run_loop c (digit_loop_body c T d n) {| dl_remaining := n; dl_first_loop := true; dl_count := count; dl_formatted := new_reverse |}) as Hl.
  { set (f := fun st => LL (dl_remaining st) (dl_first_loop st) (dl_count st) (dl_formatted st) tt : live_loop (live_state (still d))).
    apply (run_loop_map c f (digit_loop_body c T d n) (live_loop_body c T (still d) n)
      {| dl_remaining := n; dl_first_loop := true; dl_count := count; dl_formatted := new_reverse |}).
    intros [rem first cnt s]. unfold f, live_loop_body, digit_loop_body.
    cbn [dl_remaining dl_first_loop dl_count dl_formatted ll_remaining ll_first_loop ll_count ll_formatted ll_self].
    destruct (negb (is_zero rem) || first); [|reflexivity].
    cbn [still live_has_zero_digit live_zero_based live_digit live_len live_state obind].
    destruct (dc_has_zero_digit d); cbn [obind negb andb].
    - destruct (urem rem cnt) as [r| | |]; cbn [obind]; try reflexivity.
      destruct (dc_digit d (as_usize c r)) as [ch| | |]; cbn [obind]; try reflexivity.
      destruct (try_push_front c s ch) as [[s' [u|[]]]| | |]; cbn [obind]; try reflexivity.
      destruct (udiv rem cnt) as [q| | |]; cbn [obind]; try reflexivity.
      destruct (dc_len d) as [l| | |]; cbn [obind]; try reflexivity. destruct (try_from c T l); reflexivity.
    - destruct (negb (dc_zero_based d) || negb first); cbn [obind andb negb].
      + destruct (is_zero rem); [reflexivity|].
        destruct (usub c (bits c T) rem 1) as [rem'| | |]; cbn [obind]; try reflexivity.
        destruct (urem rem' cnt) as [r| | |]; cbn [obind]; try reflexivity.
        destruct (dc_digit d (as_usize c r)) as [ch| | |]; cbn [obind]; try reflexivity.
        destruct (try_push_front c s ch) as [[s' [u|[]]]| | |]; cbn [obind]; try reflexivity.
        destruct (udiv rem' cnt) as [q| | |]; cbn [obind]; try reflexivity.
        destruct (dc_len d) as [l| | |]; cbn [obind]; try reflexivity. destruct (try_from c T l); reflexivity.
      + destruct (urem rem cnt) as [r| | |]; cbn [obind]; try reflexivity.
        destruct (dc_digit d (as_usize c r)) as [ch| | |]; cbn [obind]; try reflexivity.
        destruct (try_push_front c s ch) as [[s' [u|[]]]| | |]; cbn [obind]; try reflexivity.
        destruct (udiv rem cnt) as [q| | |]; cbn [obind]; try reflexivity.
        destruct (dc_len d) as [l| | |]; cbn [obind]; try reflexivity. destruct (try_from c T l); reflexivity. }
  destruct (dc_fixed d); cbn [obind andb]; [|exact Hl].
  destruct (if dc_zero_based d then count <=? n else count <? n); [|exact Hl].
  destruct (dc_len (dc_fallback d)) as [fl| | |]; cbn [obind]; try reflexivity.
  destruct (fl =? 0); [reflexivity|].
  change (format_live depth c T (in_state (still (dc_fallback d)) tt) n = format_digits depth c T (dc_fallback d) n).
  rewrite in_state_still. apply IH.
Qed.
Print Assumptions C57_no_state_no_difference.

(** A collection that gains a digit with every look at its length, and one
    that says first that it has no zero digit and then that it has: the second
    makes [remaining -= one] underflow, a panic in debug builds only. *)
CoFixpoint growing : live_collection :=
  Live N 2 (fun k => Ret (false, k)) (fun k => Ret (true, k)) (fun k => Ret (true, k))
    (fun k => Ret (k, k + 1)) (fun k => Ret (false, k)) (fun i k => if i <? 26 then Ret (0x61 + i, k) else Panic) growing.

CoFixpoint fickle : live_collection :=
  Live bool false (fun b => Ret (false, b)) (fun b => Ret (b, negb b)) (fun b => Ret (false, b))
    (fun b => Ret (10, b)) (fun b => Ret (false, b)) (fun i b => if i <? 10 then Ret (0x30 + i, b) else Panic) fickle.

Example C57_case :
  safe_code fickle /\
  seen (try_format_live no_heap U8 growing 23) = Ret (Ok (bytes "dcb"%string)) /\
  seen (try_format_live on_heap U8 fickle 0) = Panic /\
  seen (try_format_live no_heap U8 fickle 0) = Ret (Ok (bytes "145"%string)) /\
  seen (try_format_live no_heap U8 (still LetterLower) 27) = Ret (Ok (bytes "ab"%string)).
Proof.
  split; [|repeat split; vm_compute; reflexivity].
  assert (forall i, i < 10 -> is_scalar (0x30 + i) = true) as Hs.
  { intros i Hi. unfold is_scalar. apply orb_true_iff. left. apply N.ltb_lt. lia. }
  cofix H. constructor; try discriminate; [| |exact H]; intros i self; cbn [fickle live_digit].
  - destruct (i <? 10); discriminate.
  - intros ch self'. destruct (N.ltb_spec i 10); [|discriminate]. intros E. injection E as <- <-.
    apply Hs. assumption.
Qed.

(** ** C58: a fixed collection prints one digit *)

(** The documentation of [fixed] says that such a collection "can only produce
    a single digit". With a zero digit and counting from one it produces two:
    the number after the last symbol is not sent to the fallback. *)
Theorem C58_single_digit_refuted :
  exists d, dc_fixed d = true /\ collects on_heap d (chars "abc"%string) /\
    map (fun n => seen (try_format_digits on_heap U8 d n)) [0; 2; 3; 4] =
    [Ret (Ok (bytes "a"%string)); Ret (Ok (bytes "c"%string)); Ret (Ok (bytes "ba"%string)); Ret (Err (OutOfBounds 4))].
Proof.
  exists (fixed_set true false (chars "abc"%string) NoFallback). split; [reflexivity|]. split; [|vm_compute; reflexivity].
  split; [reflexivity|]. split; [|split; [vm_compute; reflexivity|apply scalars_check; vm_compute; reflexivity]].
  intros i Hi. cbn [dc_digit fixed_set]. rewrite lookup_digit by exact Hi. reflexivity.
Qed.
Print Assumptions C58_single_digit_refuted.

(** Exactly that: with a zero digit and counting from one, below the length a
    symbol, at the length the two digits of the length, beyond it the
    fallback. *)
Theorem C58_zero_digit_from_one_partial : forall c T d digits n,
  valid_config c -> dc_fixed d = true -> dc_has_zero_digit d = true -> dc_zero_based d = false ->
  collects c d digits -> (2 <= length digits)%nat -> fits c T (N.of_nat (length digits)) -> fits c T n ->
  let len := N.of_nat (length digits) in
  if n <? len then prints c (try_format_digits c T d n) n [digit_char digits n]
  else if n =? len then prints c (try_format_digits c T d n) n [digit_char digits 1; digit_char digits 0]
  else dc_len (dc_fallback d) = Ret 0 -> try_format_digits c T d n = Ret (Err (OutOfBounds n)).
Proof.
  intros c T d digits n Hc Hf Hz Hzb Hcol Hlen Hfit Hn len. unfold try_format_digits. destruct (depth_succ c Hc) as (k & ->).
  destruct (N.ltb_spec n len) as [Hlt|Hge]; [|destruct (N.eqb_spec n len) as [E|Hne]].
  - apply yields_prints. apply (one_turn c T d digits n n); try assumption.
    + unfold in_range. rewrite Hzb. apply negb_true_iff, andb_false_iff. right. unfold len in *. lia.
    + rewrite Hz. cbn [negb andb]. lia.
  - apply yields_prints. eapply format_digits_numeral; try eassumption.
    + unfold enough. rewrite Hz. unfold len in *. lia.
    + unfold in_range. rewrite Hzb. apply negb_true_iff, andb_false_iff. right. unfold len in *. lia.
    + unfold digit_numeral. rewrite Hz. exists [1; 0]. split; [|split; [|split; [|reflexivity]]].
      * repeat constructor; unfold len in *; lia.
      * cbn. discriminate.
      * unfold positional_value. cbn [fold_left]. unfold len in *. lia.
  - intros Hfl. destruct Hcol as (Hdl & _). cbn [format_digits]. rewrite Hdl. cbn [obind]. rewrite try_from_fits by assumption.
    rewrite Hf, Hzb. cbn [andb]. destruct (N.ltb_spec (N.of_nat (length digits)) n); [|unfold len in *; lia].
    rewrite Hfl. reflexivity.
Qed.
Print Assumptions C58_zero_digit_from_one_partial.

Example C58_case :
  let d := fixed_set true false suits NoFallback in
  dc_fixed d = true /\ dc_has_zero_digit d = true /\ dc_zero_based d = false /\
  map (fun n => seen (try_format_digits no_heap U128 d n)) [3; 4; 5] =
    [Ret (Ok (bytes "♣"%string)); Ret (Ok (bytes "♥♠"%string)); Ret (Err (OutOfBounds 5))].
Proof. repeat split; vm_compute; reflexivity. Qed.
