(** * ChineseInner: src/chinese.rs:52-117 does what the model says *)

From Coq Require Import String Lia.
From Verif Require Import Base Utf8 NominalString StringFacts Outcome Digital Chinese Rust RustRun Sources
  RustFacts SourceRuns ChineseSource.

(** The four steps of the model, named. *)
Definition ones_step c characters ones formatted last : outcome (flagged out_of_memory) :=
    if negb (is_zero ones) then
      push_char (fun e => e) c formatted (char_at characters (as_usize c ones)) last (fun formatted =>
      Ret (Ok formatted, false))
    else Ret (Ok formatted, last).

Definition tens_step c (formal : bool) characters (no_prefix : bool) ones tens formatted last :=
    empty <- is_empty formatted ;;
    if is_zero tens then
      if (negb empty || negb no_prefix) && negb last && negb (is_zero ones) then
        push_char (fun e => e) c formatted (char_at characters 0) last (fun formatted =>
        ones_step c characters ones formatted true)
      else ones_step c characters ones formatted last
    else
      let omit_digit :=
        negb (formal || (negb empty || negb no_prefix) || last || negb (tens =? 1)) in
      let ten_marker formatted :=
        push_char (fun e => e) c formatted (char_at characters 10) last (fun formatted =>
        ones_step c characters ones formatted false) in
      if negb omit_digit then
        push_char (fun e => e) c formatted (char_at characters (as_usize c tens)) last ten_marker
      else ten_marker formatted.

Definition hundreds_step c (formal : bool) characters (no_prefix : bool) ones tens hundreds formatted last :=
    empty <- is_empty formatted ;;
    if is_zero hundreds then
      if (negb empty || negb no_prefix) && negb last && negb (is_zero tens) then
        push_char (fun e => e) c formatted (char_at characters 0) true (fun formatted =>
        tens_step c formal characters no_prefix ones tens formatted true)
      else tens_step c formal characters no_prefix ones tens formatted last
    else
      push_char (fun e => e) c formatted (char_at characters (as_usize c hundreds)) last (fun formatted =>
      push_char (fun e => e) c formatted (char_at characters 11) last (fun formatted =>
      tens_step c formal characters no_prefix ones tens formatted false)).

Definition thousands_step c (formal : bool) characters (no_prefix : bool) ones tens hundreds thousands formatted last :=
  if is_zero thousands then
    if negb no_prefix && negb last && negb (is_zero hundreds) then
      push_char (fun e => e) c formatted (char_at characters 0) true (fun formatted =>
      hundreds_step c formal characters no_prefix ones tens hundreds formatted true)
    else hundreds_step c formal characters no_prefix ones tens hundreds formatted last
  else
    push_char (fun e => e) c formatted (char_at characters (as_usize c thousands)) last (fun formatted =>
    push_char (fun e => e) c formatted (char_at characters 12) last (fun formatted =>
    hundreds_step c formal characters no_prefix ones tens hundreds formatted false)).

Lemma inner_steps c formal characters n no_prefix last :
  format_chinese_inner c formal characters n no_prefix last
  = thousands_step c formal characters no_prefix (n mod 10) (n / 10 mod 10) (n / 10 / 10 mod 10) (n / 10 / 10 / 10) new last.
Proof. reflexivity. Qed.

Lemma push_valid c s ch : valid c s -> is_scalar ch = true ->
  (exists s', try_push c s ch = Ret (s', Ok tt) /\ valid c s') \/ try_push c s ch = Ret (s, Err OutOfMemoryError).
Proof.
  intros [cs Hs] H. destruct (push_pushed c s cs ch Hs H) as [(s' & E & Hs')|(E & _)]; [left|right; exact E].
  exists s'. split; [exact E|]. eexists. exact Hs'.
Qed.

Lemma empty_valid c s : valid c s -> exists b, is_empty s = Ret b.
Proof. intros [cs Hs]. eexists. apply (text_empty c s cs Hs). Qed.

Lemma lookup_scalar characters i ch :
  Forall (fun ch => is_scalar ch = true) characters -> lookup characters i = Some ch -> is_scalar ch = true.
Proof.
  intros H. unfold lookup. destruct (i <? _); [|discriminate]. intros E. apply nth_error_In in E.
  rewrite Forall_forall in H. apply H, E.
Qed.

(** Splits on a lookup or a push at the head. *)
Ltac split_scalar H :=
  let at_head x :=
    lazymatch x with
    | lookup ?l ?i =>
        let E := fresh "E" in destruct (lookup l i) eqn:E; cbv beta iota zeta delta [obind or_panic];
        [apply (lookup_scalar _ _ _ H) in E|reflexivity]
    | try_push ?c ?s ?ch =>
        lazymatch goal with
        | V : valid c s, S : is_scalar ch = true |- _ =>
            let s' := fresh "s" in let E := fresh "E" in let V' := fresh "V" in
            destruct (push_valid c s ch V S) as [(s' & E & V')|E]; rewrite E; clear E; cbv beta iota zeta delta [obind]
        end
    end in
  lazymatch goal with
  | |- Ret _ = _ => reflexivity
  | |- Panic = _ => reflexivity
  | |- match ?x with _ => _ end = _ => at_head x
  end.

(** The continuation after the first statement. *)
Ltac hide_next c vars P :=
  step;
  lazymatch goal with
  | |- eval ?cx ?a ?R ?v ?next ?j = ?r =>
      let next' := fresh "next" in
      pose (next' := next); change (eval cx a R v next' j = r);
      assert (forall w s last, valid c s -> next' w (vars (VString s) (VBool last)) = P s last)
  end.

Lemma inner_runs c T call t formal characters n no_prefix last :
  Forall (fun ch => is_scalar ch = true) characters ->
  apply_fn c T call inner_fn [t; VBool formal] [VChars characters; VInt (Some T) n; VBool no_prefix; VBool last]
  = (r <- format_chinese_inner c formal characters n no_prefix last ;; Ret (inner_value r)).
Proof.
  intros Hcs. rewrite inner_steps.
  enter_until inner_fn.
  generalize (n mod 10) as ones, (n / 10 mod 10) as tens, (n / 10 / 10 mod 10) as hundreds, (n / 10 / 10 / 10) as thousands.
  intros ones tens hundreds thousands.
  assert (Vnew : valid c new) by (exists []; apply text_new).
  pose (vars := fun s last : value => [(#"formatted", s); (#"thousands", VInt (Some T) thousands);
          (#"hundreds", VInt (Some T) hundreds); (#"tens", VInt (Some T) tens); (#"ones", VInt (Some T) ones);
          (#"remaining", VInt (Some T) (n / 10 / 10)); (#"ten", VInt (Some T) 10); (#"one", VInt (Some T) 1);
          (#"characters", VChars characters); (#"nominal", VInt (Some T) n); (#"no_prefix", VBool no_prefix);
          (#"last_char_is_zero", last); (#"T", t); (#"FORMAL", VBool formal)]).
  pose (tail := fun m : outcome (flagged out_of_memory) => r <- m ;; Ret (inner_value r)).
  hide_next c vars (fun s last => tail (hundreds_step c formal characters no_prefix ones tens hundreds s last)).
  { intros w s flag V. unfold next; clear next. 
    hide_next c vars (fun s last => tail (tens_step c formal characters no_prefix ones tens s last)).
    { clear w s flag V. intros w s flag V. unfold next; clear next. 
      hide_next c vars (fun s last => tail (ones_step c characters ones s last)).
      { clear w s flag V. intros w s flag V. unfold next; clear next. unfold vars.
        unfold tail, ones_step, push_char, char_at.
        interpret. destruct (is_zero ones); cbv beta iota zeta delta [negb]; repeat split_scalar Hcs. }
      clearbody next. unfold vars in *.
      destruct (empty_valid c s V) as [empty Ee].
      unfold tail at 1. unfold tens_step, push_char, char_at. rewrite Ee. unfold obind at 1.
      interpret. rewrite ?Ee.
      destruct (is_zero tens);
        destruct empty, no_prefix, flag, (is_zero ones), formal, (tens =? 1); cbv beta iota zeta delta [obind negb andb orb or_panic];
        repeat first [apply H; assumption | split_scalar Hcs]. }
    clearbody next. unfold vars in *.
    destruct (empty_valid c s V) as [empty Ee].
    unfold tail at 1. unfold hundreds_step, push_char, char_at. rewrite Ee. unfold obind at 1.
    interpret. rewrite ?Ee.
    destruct (is_zero hundreds);
      destruct empty, no_prefix, flag, (is_zero tens); cbv beta iota zeta delta [obind negb andb orb or_panic];
      repeat first [apply H; assumption | split_scalar Hcs]. }
  clearbody next. unfold vars in *.
  unfold thousands_step, push_char, char_at.
  interpret.
  destruct (is_zero thousands);
    destruct no_prefix, last, (is_zero hundreds); cbv beta iota zeta delta [obind negb andb orb or_panic];
    repeat first [apply H; assumption | split_scalar Hcs].
Qed.
