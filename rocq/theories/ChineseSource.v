(** * ChineseSource: what the proofs about the text of src/chinese.rs share *)

From Coq Require Import String Lia.
From Verif Require Import Base Utf8 NominalString StringFacts Outcome Digital Chinese Rust RustRun Sources
  RustFacts SourceRuns.

(** ** The program *)

Definition chinese_tokens := Eval vm_compute in
  match tokens chinese_source with Some ts => ts | None => [] end.
Definition chinese_program : list func := Eval vm_compute in parse chinese_source.

Lemma chinese_lexes : tokens chinese_source = Some chinese_tokens.
Proof. vm_cast_no_check (eq_refl (Some chinese_tokens)). Qed.

Lemma chinese_tokens_parse :
  parse_items (S (S (length chinese_tokens))) #"" [] chinese_tokens = Some (chinese_program, []).
Proof. vm_cast_no_check (eq_refl (Some (chinese_program, @nil token))). Qed.

(** In two steps, for checkers that compute without the virtual machine. *)
Lemma chinese_parses : parse chinese_source = chinese_program.
Proof. unfold parse. rewrite chinese_lexes, chinese_tokens_parse. reflexivity. Qed.

Definition nothing : func :=
  {| fn_owner := #""; fn_name := #""; fn_generics := []; fn_params := []; fn_error := #""; fn_body := EUnit |}.

(** The function a path means inside [ChineseScale]. *)
Definition meant (path : list name) : func :=
  match find_fn chinese_program #"ChineseScale" (Path path) with Some f => f | None => nothing end.

Definition inner_fn : func := Eval vm_compute in meant [#"format_chinese_inner"].
Definition from_fn : func := Eval vm_compute in meant [#"ChineseFormatError"; #"from"].
Definition next_fn : func := Eval vm_compute in meant [#"Self"; #"format_next_scaled_rank"].
Definition rank_fn : func := Eval vm_compute in meant [#"Self"; #"format_scaled_rank"].
Definition scaled_inner_fn : func := Eval vm_compute in meant [#"Self"; #"format_scaled_inner"].
Definition scaled_fn : func := Eval vm_compute in meant [#"Self"; #"format_scaled"].
Definition short_fn : func := Eval vm_compute in meant [#"Self"; #"format_short_rank"].
Definition format_fn : func := Eval vm_compute in meant [#"Self"; #"format"].
Definition chinese_fn : func := Eval vm_compute in meant [#"format_chinese"].

Definition short_scale_fn : func := Eval vm_compute in meant [#"SHORT_SCALE"].
Definition myriad_scale_fn : func := Eval vm_compute in meant [#"MYRIAD_SCALE"].
Definition mid_scale_fn : func := Eval vm_compute in meant [#"MID_SCALE"].
Definition long_scale_fn : func := Eval vm_compute in meant [#"LONG_SCALE"].

(** ** Values *)

Definition inner_value (r : flagged out_of_memory) : value * list (option value) :=
  (oom_value (fst r), [None; None; None; Some (VBool (snd r))]).

Definition chinese_error_value (e : chinese_error) : value :=
  VCon (match e with COutOfBounds => #"OutOfBounds" | COutOfMemory => #"OutOfMemory" end) [].

Definition scaled_value (r : result nominal_string chinese_error) : value :=
  match r with Ok s => v_ok (VString s) | Err e => v_err (chinese_error_value e) end.

Definition flagged_value (r : flagged chinese_error) : value * list (option value) :=
  (scaled_value (fst r), [None; None; None; None; None; None; Some (VBool (snd r))]).

Definition short_value (r : result nominal_string chinese_error) : value * list (option value) :=
  (scaled_value r, [None; None; None; None]).

Definition scale_con (sc : chinese_scale) : value :=
  VCon match sc with Short => #"Short" | Myriad => #"Myriad" | Mid => #"Mid" | Long => #"Long" end [].

(** ** Tactics *)

(** Begins the body of [f], up to the first [if] that something follows. *)
Ltac enter_until f :=
  cbv beta iota zeta delta
    [apply_fn f fn_params fn_generics fn_owner fn_error fn_body arguments coerce pa_name pa_type];
  cbv beta iota zeta delta [combine app];
  repeat (before_seq_if; step).

(** Uses what is known about the call at the head. *)
Ltac rewrite_call H :=
  lazymatch goal with
  | |- obind ?m ?k = ?r => refine (eq_trans (f_equal (fun x => obind x k) (H : m = _)) _)
  | |- ?l = _ =>
      lazymatch l with
      | match ?m with _ => _ end =>
          lazymatch eval pattern m in l with ?F _ => refine (eq_trans (f_equal F (H : m = _)) _) end
      end
  end; cbv beta iota zeta delta [obind].

(** Uses what was shown for the rest of the block. *)
Ltac use_rank_tail tail :=
  lazymatch goal with
  | |- eval ?cx ?rest ?R ?vars ?k ?j = ?r =>
      lazymatch type of tail with
      | eval _ rest _ _ _ _ = _ => idtac
      | forall _ _, eval _ rest _ _ _ _ = _ => idtac
      end;
      let v := compute_in vars in change (eval cx rest R v k j = r); apply tail
  end.

(** The same inside a loop. *)
Ltac settle_call H :=
  lazymatch goal with
  | |- settle ?A (obind ?m ?k) = ?r => refine (eq_trans (f_equal (fun x => settle A (obind x k)) (H : m = _)) _)
  | |- settle ?A ?l = _ =>
      lazymatch l with
      | match ?m with _ => _ end =>
          lazymatch eval pattern m in l with ?F _ => refine (eq_trans (f_equal (fun x => settle A (F x)) (H : m = _)) _) end
      end
  end; cbv beta iota zeta delta [obind].

Ltac use_short_tail tail :=
  lazymatch goal with
  | |- settle ?A (eval ?cx ?rest ?R ?vars ?k ?j) = ?r =>
      lazymatch type of tail with
      | forall _ _, settle _ (eval _ rest _ _ _ _) = _ => idtac
      end;
      let v := compute_in vars in change (settle A (eval cx rest R v k j) = r); apply tail
  end.

(** Arms of a [match]. *)
Ltac first_arm f :=
  cbv beta iota zeta delta [apply_fn f fn_params fn_generics fn_owner fn_error fn_body arguments coerce pa_name pa_type];
  cbv beta iota zeta delta [combine app];
  repeat (lazymatch goal with |- match bind _ _ with _ => _ end = _ => fail | _ => idtac end; step).
Ltac other_arm :=
  lazymatch goal with |- match bind ?p ?v with _ => _ end = _ =>
    let E := fresh in assert (E : bind p v = None) by reflexivity; rewrite E; clear E end;
  cbv iota.
Ltac last_arm :=
  lazymatch goal with |- match bind ?p ?v with _ => _ end = _ =>
    let E := fresh in assert (E : bind p v = Some []) by reflexivity; rewrite E; clear E end;
  cbv iota; repeat step.

(** ** Facts *)

Lemma lookup_nat {A} (l : list A) i : lookup l (N.of_nat i) = nth_error l i.
Proof.
  unfold lookup. rewrite Nat2N.id. destruct (N.ltb_spec (N.of_nat i) (N.of_nat (length l))) as [H|H]; [reflexivity|].
  symmetry. apply nth_error_None. lia.
Qed.

Lemma uadd_rank c rank : 16 <= usize_bits c -> (rank <= 10)%nat -> uadd c (bits c Usize) (N.of_nat rank) 1 = Ret (N.of_nat (rank + 1)).
Proof.
  intros Hb H. unfold uadd. cbn [bits].
  assert (2 ^ 16 <= 2 ^ usize_bits c) by (apply N.pow_le_mono_r; lia). change (2 ^ 16) with 65536 in *.
  destruct (N.ltb_spec (N.of_nat rank + 1) (2 ^ usize_bits c)); [f_equal; lia|lia].
Qed.

Lemma usub_rank c rank : usub c (bits c Usize) (N.of_nat (S rank)) 1 = Ret (N.of_nat rank).
Proof.
  unfold usub. destruct (N.leb_spec 1 (N.of_nat (S rank))); [f_equal; lia|lia].
Qed.

Lemma from_runs c T d owner :
  run chinese_program c T (S d) owner (Path [#"ChineseFormatError"; #"from"]) [] [VCon #"OutOfMemoryError" []]
  = Ret (VCon #"OutOfMemory" [], [None]).
Proof. rewrite (run_S _ _ _ _ _ _ _ _ from_fn) by reflexivity. reflexivity. Qed.

Lemma short_scale_runs c T d : run chinese_program c T (S d) #"ChineseScale" (Path [#"SHORT_SCALE"]) [] [] = Ret (VInts None SHORT_SCALE, []).
Proof. rewrite (run_S _ _ _ _ _ _ _ _ short_scale_fn) by reflexivity. reflexivity. Qed.
Lemma myriad_scale_runs c T d : run chinese_program c T (S d) #"ChineseScale" (Path [#"MYRIAD_SCALE"]) [] [] = Ret (VInts None MYRIAD_SCALE, []).
Proof. rewrite (run_S _ _ _ _ _ _ _ _ myriad_scale_fn) by reflexivity. reflexivity. Qed.
Lemma mid_scale_runs c T d : run chinese_program c T (S d) #"ChineseScale" (Path [#"MID_SCALE"]) [] [] = Ret (VInts None MID_SCALE, []).
Proof. rewrite (run_S _ _ _ _ _ _ _ _ mid_scale_fn) by reflexivity. reflexivity. Qed.
Lemma long_scale_runs c T d : run chinese_program c T (S d) #"ChineseScale" (Path [#"LONG_SCALE"]) [] [] = Ret (VInts None LONG_SCALE, []).
Proof. rewrite (run_S _ _ _ _ _ _ _ _ long_scale_fn) by reflexivity. reflexivity. Qed.
