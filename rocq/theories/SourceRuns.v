(** * SourceRuns: the texts of Sources.v do what the model says

    One lemma for each function of the texts. PropertiesSources.v states the
    results. *)

From Coq Require Import String.
From Verif Require Import Base Utf8 NominalString StringFacts Outcome Digital Ethiopic Hebrew Additive
  Enumerated Rust RustRun Sources RustFacts.

Lemma run_S program c T d owner callee generics args f :
  find_fn program owner callee = Some f ->
  run program c T (S d) owner callee generics args = apply_fn c T (run program c T d) f generics args.
Proof. intros E. cbn [run]. rewrite E. reflexivity. Qed.

(** The programs, as they are read. *)
Definition ethiopic_program : list func := Eval vm_compute in parse ethiopic_source.
Definition hebrew_program : list func := Eval vm_compute in parse hebrew_source.
Definition additive_program : list func := Eval vm_compute in parse additive_source.
Definition digital_program : list func := Eval vm_compute in parse digital_source.
Definition enumerated_program : list func := Eval vm_compute in parse enumerated_source.

Lemma ethiopic_parses : parse ethiopic_source = ethiopic_program.
Proof. vm_cast_no_check (eq_refl ethiopic_program). Qed.
Lemma hebrew_parses : parse hebrew_source = hebrew_program.
Proof. vm_cast_no_check (eq_refl hebrew_program). Qed.
Lemma additive_parses : parse additive_source = additive_program.
Proof. vm_cast_no_check (eq_refl additive_program). Qed.
Lemma digital_parses : parse digital_source = digital_program.
Proof. vm_cast_no_check (eq_refl digital_program). Qed.
Lemma enumerated_parses : parse enumerated_source = enumerated_program.
Proof. vm_cast_no_check (eq_refl enumerated_program). Qed.

(** The function of a program that a call means. *)
Definition the_fn (program : list func) (callee : callee) : func :=
  match find_fn program #"" callee with
  | Some f => f
  | None => Build_func #"" #"" [] [] #"" EUnit
  end.

Definition ethiopic_fn : func := Eval vm_compute in the_fn ethiopic_program (Named #"try_format_nominal").
Definition format_ethiopic_fn : func :=
  Eval vm_compute in the_fn ethiopic_program (Path [#"format_ethiopic"]).
Definition hebrew_fn : func := Eval vm_compute in the_fn hebrew_program (Named #"try_format_nominal").
Definition additive_fn : func := Eval vm_compute in the_fn additive_program (Named #"try_format_nominal").
Definition digital_fn : func := Eval vm_compute in the_fn digital_program (Named #"try_format_nominal").
Definition enumerated_fn : func := Eval vm_compute in the_fn enumerated_program (Named #"try_format_nominal").

(** ** Enumerated symbols *)

Definition enumerated_value (set : enumerated_set) : value :=
  VStruct [(#"symbols", VStrs (es_symbols set))].

Lemma enumerated_runs c T call set n len :
  apply_fn c T call enumerated_fn [len; VBool (es_has_zero set)] [enumerated_value set; VInt (Some T) n]
  = (r <- try_format_enumerated c T set n ;; Ret (result_value T r, [None; None])).
Proof.
  unfold enumerated_value, try_format_enumerated. unfold obind at 1.
  enter enumerated_fn. change (usize_bits c) with (bits c Usize).
  repeat step. split_stuck; repeat step; try close.
  destruct (es_has_zero set); cbv beta iota zeta delta [negb andb obind];
    repeat first [step | close | split_stuck].
Qed.

(** ** Digits *)

Lemma digital_runs c T depth owner d n :
  run digital_program c T depth owner (Named #"try_format_nominal") [] [VDigits d; VInt (Some T) n]
  = (r <- format_digits depth c T d n ;; Ret (result_value T r, [None; None])).
Proof.
  revert owner d. induction depth as [|depth IH]; intros owner d; [reflexivity|].
  rewrite (run_S _ _ _ _ _ _ _ _ digital_fn) by reflexivity.
  cbn [format_digits]. enter digital_fn.
  repeat step. split_stuck.
  repeat step. split_stuck.
  2: solve [repeat first [step | close | split_stuck]].
  repeat (before_seq_if; step).
  lazymatch goal with
  | |- eval ?cx (ESeq ?a ?rest) ?R ?vars ?k ?j = _ =>
      assert (tail : eval cx rest R vars k j =
        (r <- run_loop c (digit_loop_body c T d n)
                {| dl_remaining := n; dl_first_loop := true; dl_count := n0; dl_formatted := new_reverse |} ;;
         Ret (result_value T r, [None; None])))
  end.
  { repeat step.
    simulate (fun st => [(#"first_loop", VBool (dl_first_loop st));
      (#"remaining", VInt (Some T) (dl_remaining st)); (#"formatted", VString (dl_formatted st));
      (#"one", VInt (Some T) 1); (#"count", VInt (Some T) (dl_count st));
      (#"self", VDigits d); (#"nominal", VInt (Some T) n)]).
    intros [r fl count s]. hide_after.
    cbv beta delta [digit_loop_body]. cbn [dl_remaining dl_first_loop dl_count dl_formatted].
    interpret.
    destruct fl, (dc_has_zero_digit d), (dc_zero_based d), (is_zero r);
      cbv beta iota zeta delta [negb andb orb obind]; repeat first [close | split_stuck]. }
  repeat first [exact_tail tail | step | close | recursion IH | split_stuck].
Qed.

(** ** Additive symbols *)

Definition symbol_value (p : list N * N) : value := VTuple [VStr (fst p); VInt (Some U128) (snd p)].
Definition symbol_values (l : list (list N * N)) : list value := map symbol_value l.
Definition additive_value (set : additive_set) : value :=
  VStruct [(#"symbols", VArray (symbol_values (as_symbols set)));
           (#"zero", match as_zero set with Some zero => v_some (VStr zero) | None => v_none end)].


Lemma additive_runs c T call set n :
  apply_fn c T call additive_fn [] [additive_value set; VInt (Some T) n]
  = (r <- try_format_additive c T set n ;; Ret (result_value T r, [None; None])).
Proof.
  unfold try_format_additive.
  enter additive_fn.
  repeat step. split_stuck.
  { unfold additive_value. destruct (as_zero set); repeat first [step | close | split_stuck]. }
  unfold additive_value. repeat step.
  fold (additive_value set).
  lazymatch goal with
  | |- for_each ?F _ ?vars ?done = _ =>
      enough (each : forall symbols r s,
        for_each F (symbol_values symbols)
          [(#"remaining", VInt (Some T) r); (#"formatted", VString s);
           (#"self", additive_value set); (#"nominal", VInt (Some T) n)] done
        = (r <- additive_for c T n symbols r s ;; Ret (result_value T r, [None; None])))
        by exact (each _ _ _)
  end.
  induction symbols as [|[symbol value] symbols IH]; intros r s.
  { lazymatch goal with |- for_each ?F _ ?vars ?done = ?r => change (done vars = r) end.
    cbv beta. repeat step. close. }
  lazymatch goal with
  | |- for_each ?F _ ?vars ?done = ?r =>
      pose (next := fun v => for_each F (symbol_values symbols) v done);
      change (F (symbol_value (symbol, value)) vars next = r)
  end.
  assert (IH' : forall r s, next
          [(#"remaining", VInt (Some T) r); (#"formatted", VString s);
           (#"self", additive_value set); (#"nominal", VInt (Some T) n)]
        = (r <- additive_for c T n symbols r s ;; Ret (result_value T r, [None; None]))) by exact IH.
  clearbody next. clear IH. unfold symbol_value at 1. cbn [fst snd].
  cbv beta. cbn [additive_for].
  repeat step. split_stuck; [repeat step; close|].
  repeat step. split_stuck; [|repeat step; apply IH'].
  repeat step.
  transitivity (obind (run_loop c (additive_while_body c T n symbol n0) (r, s)) (fun x =>
    match x with
    | Ok (r, s) => r <- additive_for c T n symbols r s ;; Ret (result_value T r, [@None RustRun.value; None])
    | Err e => Ret (result_value T (Err e), [@None RustRun.value; None])
    end)).
  2: { unfold obind. destruct run_loop as [[[? ?]|]| | |]; reflexivity. }
  simulate (fun st : N * nominal_string => [(#"value_as_t", VInt (Some T) n0);
        (#"value", VInt (Some U128) value); (#"symbol", VStr symbol);
        (#"remaining", VInt (Some T) (fst st)); (#"formatted", VString (snd st));
        (#"self", additive_value set); (#"nominal", VInt (Some T) n)]).
  intros [r' s'].
  hide_after.
  interpret. cbv beta iota zeta delta [additive_while_body fst snd obind].
  repeat first [solve [apply settle_break; exact (IH' _ _)] | close | split_stuck].
Qed.

(** ** Hebrew letters *)

Definition letter_value (p : N * N) : value := VTuple [VChar (fst p); VInt None (snd p)].
Definition letter_values (l : list (N * N)) : list value := map letter_value l.
Definition valid (c : config) (s : nominal_string) : Prop := exists cs, text c s cs.

Lemma hebrew_runs c T call n :
  apply_fn c T call hebrew_fn [] [VUnit; VInt (Some T) n]
  = (r <- Hebrew c T n ;; Ret (result_value T r, [None; None])).
Proof.
  unfold Hebrew. remember (hebrew_for c T n hebrew_symbols n new) as m eqn:Em.
  enter hebrew_fn.
  repeat step. split_stuck; [solve [repeat first [step | close | split_stuck]]|].
  repeat step.
  lazymatch goal with
  | |- for_each ?F ?l ?vars ?done = _ =>
      change l with (letter_values hebrew_symbols);
      transitivity (obind m (fun r => Ret (result_value T r, [@None value; None]))); [|reflexivity];
      rewrite Em; clear Em m;
      enough (each : forall symbols r s, Forall (fun p => is_scalar (fst p) = true) symbols -> valid c s ->
        for_each F (letter_values symbols)
          [(#"formatted", VString s); (#"sixteen", VInt (Some T) 16); (#"fifteen", VInt (Some T) 15);
           (#"remaining", VInt (Some T) r); (#"self", VUnit); (#"nominal", VInt (Some T) n)] done
        = (r <- hebrew_for c T n symbols r s ;; Ret (result_value T r, [None; None])))
  end.
  { refine (each hebrew_symbols n new _ _).
    - repeat (constructor; [reflexivity|]). constructor.
    - exists []. apply text_new. }
  induction symbols as [|[symbol v] symbols IH]; intros r s Hsymbols Hs.
  { lazymatch goal with |- for_each ?F _ ?vars ?done = ?r => change (done vars = r) end.
    cbv beta. repeat step. close. }
  inversion_clear Hsymbols as [|? ? Hsymbol Hrest]. cbn [fst] in Hsymbol.
  lazymatch goal with
  | |- for_each ?F _ ?vars ?done = ?r =>
      pose (next := fun v => for_each F (letter_values symbols) v done);
      change (F (letter_value (symbol, v)) vars next = r)
  end.
  assert (IH' : forall r s, valid c s -> next
          [(#"formatted", VString s); (#"sixteen", VInt (Some T) 16); (#"fifteen", VInt (Some T) 15);
           (#"remaining", VInt (Some T) r); (#"self", VUnit); (#"nominal", VInt (Some T) n)]
        = (r <- hebrew_for c T n symbols r s ;; Ret (result_value T r, [None; None])))
    by exact (fun r s => IH r s Hrest).
  clearbody next. clear IH Hrest. unfold letter_value at 1. cbn [fst snd].
  cbv beta. cbn [hebrew_for].
  repeat step. split_stuck; [|repeat step; apply IH'; exact Hs].
  repeat step.
  transitivity (obind (run_loop c (hebrew_while_body c T n symbol n0) (r, s)) (fun x =>
    match x with
    | NextSymbol r s => r <- hebrew_for c T n symbols r s ;; Ret (result_value T r, [@None value; None])
    | LeaveSymbolLoop s => Ret (result_value T (Ok s), [None; None])
    | ReturnErr e => Ret (result_value T (Err e), [None; None])
    end)).
  2: { unfold obind. destruct run_loop as [[? ?|?|?]| | |]; reflexivity. }
  simulate_under (fun st : N * nominal_string => valid c (snd st))
    (fun st : N * nominal_string => [(#"value", VInt (Some T) n0); (#"value", VInt None v); (#"symbol", VChar symbol);
        (#"formatted", VString (snd st)); (#"sixteen", VInt (Some T) 16); (#"fifteen", VInt (Some T) 15);
           (#"remaining", VInt (Some T) (fst st)); (#"self", VUnit); (#"nominal", VInt (Some T) n)]).
  3: exact Hs.
  - intros [r1 s1] [r2 s2] [cs Hs1] E. cbn [snd] in *.
    revert E. cbv beta iota zeta delta [hebrew_while_body push_or_return fst snd].
    rewrite (text_empty c s1 cs Hs1). cbv beta iota zeta delta [obind].
    destruct (n0 <=? r1); [|discriminate].
    destruct (r1 =? 15); [destruct try_push_str as [[? [|[]]]| | |]; discriminate|].
    destruct (r1 =? 16); [destruct try_push_str as [[? [|[]]]| | |]; discriminate|].
    destruct ((n0 =? r1) && _); cbv beta iota.
    + destruct try_push as [[? [|[]]]| | |]; try discriminate.
      destruct usub; try discriminate.
      destruct try_push as [[? [|[]]]| | |]; try discriminate.
      destruct try_push as [[? [|[]]]| | |]; discriminate.
    + destruct usub; try discriminate.
      destruct (push_pushed c s1 cs symbol Hs1 Hsymbol) as [(s3 & -> & Hs3)|(-> & _)]; [|discriminate].
      intros E. injection E as <- <-. exists (cs ++ [symbol])%list. exact Hs3.
  - intros [r' s'] [cs Hs']. cbn [snd] in Hs'.
    hide_after.
    interpret. cbv beta iota zeta delta [hebrew_while_body push_or_return fst snd].
    rewrite (text_empty c s' cs Hs').
    replace (bytes "ט״ו"%string) with [215; 152; 215; 180; 215; 149] by reflexivity.
    replace (bytes "ט״ז"%string) with [215; 152; 215; 180; 215; 150] by reflexivity.
    replace (char_of "׳"%string) with 1523 by reflexivity.
    replace (char_of "״"%string) with 1524 by reflexivity.
    cbv beta iota zeta delta [obind].
    destruct (n0 <=? r'); [|apply settle_break; apply IH'; exists cs; exact Hs'].
    destruct (r' =? 15); [repeat first [close | split_stuck]|].
    destruct (r' =? 16); [repeat first [close | split_stuck]|].
    destruct (match cs with [] => true | _ => false end) eqn:Hcs, (n0 =? r'); cbv beta iota delta [andb].
    2-4: solve [repeat first [close | split_stuck]].
    destruct (push_pushed c s' cs 1523 Hs' eq_refl) as [(s1 & -> & Hs1)|(-> & _)]; [|close].
    split_stuck.
    destruct (push_pushed c s1 _ symbol Hs1 Hsymbol) as [(s2 & -> & Hs2)|(-> & _)]; [|close].
    destruct (push_pushed c s2 _ 1524 Hs2 eq_refl) as [(s3 & -> & Hs3)|(-> & _)]; [|close].
    apply settle_break. apply IH'. eexists. exact Hs3.
Qed.

(** ** Ethiopic *)

Definition oom_value (r : result nominal_string out_of_memory) : value :=
  match r with
  | Ok s => v_ok (VString s)
  | Err OutOfMemoryError => v_err (VCon #"OutOfMemoryError" [])
  end.

(** [interpret] with the calls, which here only read the two tables. *)
Ltac interpret_ethiopic :=
  lazymatch goal with
  | |- ?l = ?r =>
      let l' := eval cbv beta iota zeta delta
        [run apply_fn find_fn find arguments coerce has_self fn_params fn_generics fn_owner fn_error
         fn_name fn_body pa_name pa_type pa_mut finals combine ethiopic_program
         eval eval_list eval_arms pushed loop_exit
         method builtin binary element array all_of constructor bind get set leave place write
         write_all is_oom same_label common option_of v_ok v_err v_some v_none
         cx_config cx_type cx_owner cx_error cx_call
         existsb last app skipn length Nat.sub map generic_value
         obind same andb orb negb] in l in
      change (l' = r)
  end.

Lemma format_ethiopic_runs c T d n :
  apply_fn c T (run ethiopic_program c T (S d)) format_ethiopic_fn [] [VInt (Some T) n]
  = (r <- format_ethiopic c n ;; Ret (oom_value r, [None])).
Proof.
  unfold format_ethiopic. enter format_ethiopic_fn. repeat step.
  simulate (fun st : N * N * nominal_string => let '(i, r, s) := st in
    (i, [(#"remaining", VInt (Some T) r); (#"formatted", VString s);
         (#"ten", VInt (Some T) 10); (#"nominal", VInt (Some T) n)])).
  intros [[i r] s]. hide_after. unfold ethiopic_body.
  repeat step. split_stuck; [repeat step; close|].
  repeat step.
  destruct (0 <? i), (i mod 2 =? 1), (is_zero (r mod 10)), (is_zero ((r / 10) mod 10)), (r mod 10 =? 1);
    cbv beta iota zeta delta [negb andb orb push_front_if obind or_panic ONES TENS];
    interpret_ethiopic; repeat first [close | split_stuck].
Qed.

Lemma format_ethiopic_called c T d owner n :
  run ethiopic_program c T (S (S d)) owner (Path [#"format_ethiopic"]) [] [VInt (Some T) n]
  = (r <- format_ethiopic c n ;; Ret (oom_value r, [None])).
Proof. rewrite (run_S _ _ _ _ _ _ _ _ format_ethiopic_fn) by reflexivity. apply format_ethiopic_runs. Qed.

Lemma ethiopic_runs c T d n :
  apply_fn c T (run ethiopic_program c T (S (S d))) ethiopic_fn [] [VUnit; VInt (Some T) n]
  = (r <- Ethiopic c T n ;; Ret (result_value T r, [None; None])).
Proof.
  unfold Ethiopic. pose proof (format_ethiopic_called c T d) as C.
  remember (format_ethiopic c n) as m eqn:E.
  enter ethiopic_fn.
  repeat step. split_stuck; [solve [repeat first [step | close]]|].
  repeat step.
  lazymatch goal with |- obind ?call ?k = _ =>
    transitivity (obind (r <- m ;; Ret (oom_value r, [None])) k)
  end.
  { rewrite E. apply (f_equal (fun x => obind x _)). apply C. }
  destruct m as [[s|[]]| | |]; cbv beta iota zeta delta [obind oom_value]; repeat first [step | close].
Qed.
