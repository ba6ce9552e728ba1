(** * RustFacts: executing the interpreter of RustRun.v on open terms *)

From Coq Require Import String.
From Verif Require Import Base Utf8 NominalString Digital Rust RustRun.

Lemma eval_eq cx e R vars k j : eval cx e R vars k j = eval_step cx (eval cx) e R vars k j.
Proof. destruct e; reflexivity. Qed.

(** ** Loops *)

(** What is left after a turn: another turn, or what comes after the loop. *)
Definition settle {S R Z} (after : R -> outcome Z) (turn : outcome (loop_step S R))
  : outcome (S + outcome Z) :=
  r <- turn ;; Ret (match r with Continue s => inl s | Break r => inr (after r) end).

Definition settled {S S' Z} (f : S -> S') (m : outcome (S + outcome Z)) : outcome (S' + outcome Z) :=
  r <- m ;; Ret (match r with inl s => inl (f s) | inr z => inr z end).

Section Simulation.
  Context {S S' R R' Z : Type} (f : S -> S') (after : R -> outcome Z) (after' : R' -> outcome Z)
    (body : S -> outcome (loop_step S R)) (body' : S' -> outcome (loop_step S' R'))
    (H : forall s, settle after' (body' (f s)) = settled f (settle after (body s))).

  Lemma iterate_settle d s :
    settle after' (iterate d body' (f s)) = settled f (settle after (iterate d body s)).
  Proof.
    revert s. induction d as [|d IH]; intros s; cbn [iterate]; [apply H|].
    pose proof (IH s) as E. unfold settle, settled, obind in *.
    destruct (iterate d body s) as [[s1|r]| | |], (iterate d body' (f s)) as [[s1'|r']| | |];
      try discriminate E; try reflexivity.
    - injection E as ->. apply IH.
    - exact E.
  Qed.

  Lemma loop_then c s :
    obind (run_loop c body' (f s)) after' = obind (run_loop c body s) after.
  Proof.
    pose proof (iterate_settle (loop_depth c) s) as E. unfold run_loop, settle, settled, obind in *.
    destruct (iterate (loop_depth c) body s) as [[s1|r]| | |],
      (iterate (loop_depth c) body' (f s)) as [[s1'|r']| | |];
      try discriminate E; try reflexivity.
    injection E as E. exact E.
  Qed.
End Simulation.

(** The same when the loop keeps an invariant. *)
Section SimulationUnder.
  Context {S S' R R' Z : Type} (P : S -> Prop) (f : S -> S') (after : R -> outcome Z) (after' : R' -> outcome Z)
    (body : S -> outcome (loop_step S R)) (body' : S' -> outcome (loop_step S' R'))
    (kept : forall s s', P s -> body s = Ret (Continue s') -> P s')
    (H : forall s, P s -> settle after' (body' (f s)) = settled f (settle after (body s))).

  Lemma iterate_kept d s s' : P s -> iterate d body s = Ret (Continue s') -> P s'.
  Proof.
    revert s s'. induction d as [|d IH]; intros s s' Hs; cbn [iterate]; [apply kept, Hs|].
    unfold obind. destruct (iterate d body s) as [[s1|r]| | |] eqn:E; try discriminate.
    intros E'. apply (IH s1 s'); [|exact E']. apply (IH s s1); assumption.
  Qed.

  Lemma iterate_settle_under d s : P s ->
    settle after' (iterate d body' (f s)) = settled f (settle after (iterate d body s)).
  Proof.
    revert s. induction d as [|d IH]; intros s Hs; cbn [iterate]; [apply H, Hs|].
    pose proof (IH s Hs) as E. pose proof (fun s1 => iterate_kept d s s1) as K.
    unfold settle, settled, obind in *.
    destruct (iterate d body s) as [[s1|r]| | |], (iterate d body' (f s)) as [[s1'|r']| | |];
      try discriminate E; try reflexivity.
    - injection E as ->. apply IH. apply (K s1 Hs eq_refl).
    - exact E.
  Qed.

  Lemma loop_then_under c s : P s ->
    obind (run_loop c body' (f s)) after' = obind (run_loop c body s) after.
  Proof.
    intros Hs. pose proof (iterate_settle_under (loop_depth c) s Hs) as E.
    unfold run_loop, settle, settled, obind in *.
    destruct (iterate (loop_depth c) body s) as [[s1|r]| | |],
      (iterate (loop_depth c) body' (f s)) as [[s1'|r']| | |];
      try discriminate E; try reflexivity.
    injection E as E. exact E.
  Qed.
End SimulationUnder.

Lemma settle_break {S S' R R' Z} (f : S -> S') (after : R -> outcome Z) (after' : R' -> outcome Z) x' x :
  after' x' = after x ->
  settle after' (Ret (@Break S' R' x')) = settled f (settle after (Ret (@Break S R x))).
Proof. intros E. cbn. now rewrite E. Qed.

(** ** Steps *)

(** Computes with the parts of the interpreter that look at names and shapes
    only. *)
Ltac compute_in x :=
  eval cbv beta iota zeta delta
    [method builtin binary element array all_of constructor bind get set leave place write write_all
     is_oom same_label common option_of v_ok v_err v_some v_none
     cx_config cx_type cx_owner cx_error cx_call
     existsb last app skipn length Nat.sub map generic_value
     same andb orb negb] in x.

(** Replaces the part [x] of [l] by what it computes to. *)
Ltac focus l x :=
  let x' := compute_in x in
  lazymatch eval pattern x in l with
  | ?F _ => let l' := eval cbv beta iota zeta in (F x') in l'
  end.

(** One step of the interpreter at the head of the term [l], other than
    unfolding [eval]. *)
Ltac small_step l :=
  lazymatch l with
  | eval_list _ _ _ _ => eval cbv beta iota zeta delta [eval_list] in l
  | eval_arms _ _ _ _ => eval cbv beta iota zeta delta [eval_arms] in l
  | binary ?c ?op ?a ?b ?R ?k =>
      let m := compute_in (binary c op a b) in eval cbv beta iota zeta in (m R k)
  | element ?v ?i ?R ?k =>
      let m := compute_in (element v i) in eval cbv beta iota zeta in (m R k)
  | pushed ?m ?R ?k => eval cbv beta iota zeta delta [pushed] in l
  | loop_exit _ _ _ _ _ => eval cbv beta iota zeta delta [loop_exit] in l
  | obind (Ret ?x) ?k => eval cbv beta iota zeta in (k x)
  | obind (urem ?x (Npos ?p)) ?k => eval cbv beta iota zeta in (k (x mod Npos p))
  | obind (udiv ?x (Npos ?p)) ?k => eval cbv beta iota zeta in (k (x / Npos p))
  | match ?x with _ => _ end =>
      let l' := focus l x in
      lazymatch l' with l => fail | _ => l' end
  end.

Ltac step :=
  lazymatch goal with
  | |- settle ?after (eval ?cx ?e ?R ?vars ?k ?j) = ?r =>
      let vars' := compute_in vars in
      let l' := eval cbv beta iota zeta delta [eval_step cx_config cx_type cx_owner cx_error cx_call] in (eval_step cx (eval cx) e R vars' k j) in
      refine (eq_trans (f_equal (settle after) (eval_eq cx e R vars' k j)) (_ : settle after l' = r))
  | |- eval ?cx ?e ?R ?vars ?k ?j = ?r =>
      let vars' := compute_in vars in
      let l' := eval cbv beta iota zeta delta [eval_step cx_config cx_type cx_owner cx_error cx_call] in (eval_step cx (eval cx) e R vars' k j) in
      refine (eq_trans (eval_eq cx e R vars' k j) (_ : l' = r))
  | |- settle ?after ?l = ?r => let l' := small_step l in change (settle after l' = r)
  | |- ?l = ?r => let l' := small_step l in change (l' = r)
  end.

(** Ends a branch that has stopped. *)
Ltac close :=
  lazymatch goal with
  | |- settle _ (Ret _) = _ => reflexivity
  | |- settle _ Panic = _ => reflexivity
  | |- settle _ Hang = _ => reflexivity
  | |- settle _ UB = _ => reflexivity
  | |- Ret _ = _ => reflexivity
  | |- Panic = _ => reflexivity
  | |- Hang = _ => reflexivity
  | |- UB = _ => reflexivity
  end.

(** Splits on what the term is stuck at. *)
Ltac split_at x :=
  lazymatch x with
  | obind ?m _ => split_at m
  | match ?y with _ => _ end => split_at y
  | _ => destruct x; cbv beta iota zeta delta [obind]; try close
  end.

Ltac split_on l :=
  lazymatch l with
  | obind ?m _ => split_at m
  | match ?x with _ => _ end => split_at x
  end.

Ltac split_stuck :=
  lazymatch goal with
  | |- settle _ ?l = _ => split_on l
  | |- ?l = _ => split_on l
  end.

(** Begins the body of the function [f]. *)
Ltac enter f :=
  cbv beta iota zeta delta
    [apply_fn f fn_params fn_generics fn_owner fn_error fn_body arguments coerce pa_name pa_type];
  repeat step;
  cbv beta iota zeta delta [combine app].

(** Runs the left side as far as it goes. Only for terms whose variables all
    hold values of a known shape; loops must be hidden. *)
Ltac interpret :=
  lazymatch goal with
  | |- ?l = ?r =>
      let l' := eval cbv beta iota zeta delta
        [eval eval_list eval_arms pushed loop_exit
         method builtin binary element array all_of constructor bind get set leave place write
         write_all is_oom same_label common option_of v_ok v_err v_some v_none
         cx_config cx_type cx_owner cx_error cx_call
         existsb last app skipn length Nat.sub map generic_value
         obind same andb orb negb] in l in
      change (l' = r)
  end.

(** Hides what comes after the loop. *)
Ltac hide_after :=
  lazymatch goal with |- settle ?after _ = _ => let A := fresh "A" in set (A := after) end.

(** Relates a loop of the program to one of the model, by the map [f] of the
    model's states to the variables. *)
Ltac simulate f :=
  lazymatch goal with
  | |- obind (run_loop ?c ?body' _) ?after' = obind (run_loop _ ?body ?s) ?after =>
      refine (loop_then f after after' body body' _ c s)
  end.

Ltac simulate_under P f :=
  lazymatch goal with
  | |- obind (run_loop ?c ?body' _) ?after' = obind (run_loop _ ?body ?s) ?after =>
      refine (loop_then_under P f after after' body body' _ _ c s _)
  end.

(** Fails before an [if] that something follows. *)
Ltac before_seq_if :=
  lazymatch goal with
  | |- settle _ (eval _ (ESeq (EIf _ _ _) _) _ _ _ _) = _ => fail
  | |- eval _ (ESeq (EIf _ _ _) _) _ _ _ _ = _ => fail
  | |- _ => idtac
  end.

(** Ends with what was shown for the rest of the block. *)
Ltac exact_tail tail :=
  lazymatch type of tail with
  | eval _ ?rest _ _ _ _ = _ =>
      lazymatch goal with |- eval _ rest _ _ _ _ = _ => exact tail end
  end.

(** Uses what is known about a call. *)
Ltac recursion IH :=
  lazymatch goal with
  | |- ?l = _ =>
      let at_call m :=
        lazymatch eval pattern m in l with
        | ?F _ => refine (eq_trans (f_equal F (IH _ _ : m = _)) _); cbv beta iota zeta delta [obind]
        end in
      lazymatch l with
      | obind (run ?p ?c ?T ?d ?o ?f ?g ?a) _ => at_call (run p c T d o f g a)
      | match run ?p ?c ?T ?d ?o ?f ?g ?a with _ => _ end => at_call (run p c T d o f g a)
      end
  end.
