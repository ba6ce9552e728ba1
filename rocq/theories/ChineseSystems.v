(** * ChineseSystems: src/chinese.rs:442-526, the four systems, does what the model says *)

From Coq Require Import String Lia.
From Verif Require Import Base Utf8 NominalString StringFacts Outcome Digital Chinese Rust RustRun Sources
  RustFacts SourceRuns ChineseSource ChineseInner ChineseRanks ChineseShort ChineseRuns.

(** ** The four systems *)

Definition simplified_ordinary_fn : func := Eval vm_compute in meant [#"SIMPLIFIED_ORDINARY"].
Definition simplified_financial_fn : func := Eval vm_compute in meant [#"SIMPLIFIED_FINANCIAL"].
Definition simplified_large_fn : func := Eval vm_compute in meant [#"SIMPLIFIED_LARGE"].
Definition traditional_ordinary_fn : func := Eval vm_compute in meant [#"TRADITIONAL_ORDINARY"].
Definition traditional_financial_fn : func := Eval vm_compute in meant [#"TRADITIONAL_FINANCIAL"].
Definition traditional_large_fn : func := Eval vm_compute in meant [#"TRADITIONAL_LARGE"].

Definition simplified_informal_fn : func := Eval vm_compute in meant [#"SimplifiedChineseInformal"; #"try_format_nominal"].
Definition simplified_formal_fn : func := Eval vm_compute in meant [#"SimplifiedChineseFormal"; #"try_format_nominal"].
Definition traditional_formal_fn : func := Eval vm_compute in meant [#"TraditionalChineseFormal"; #"try_format_nominal"].
Definition traditional_informal_fn : func := Eval vm_compute in meant [#"TraditionalChineseInformal"; #"try_format_nominal"].

(** [SimplifiedChineseInformal(ChineseOptions { usage, scale })] and the like *)
Definition options_value (o : chinese_options) : value :=
  VStruct [(#"0", VStruct [(#"usage", VCon match usage o with Financial => #"Financial" | Ordinary => #"Ordinary" end []);
                           (#"scale", scale_con (scale o))])].

Lemma simplified_ordinary_runs c T d owner : run chinese_program c T (S d) owner (Path [#"SIMPLIFIED_ORDINARY"]) [] [] = Ret (VChars SIMPLIFIED_ORDINARY, []).
Proof. rewrite (run_S _ _ _ _ _ _ _ _ simplified_ordinary_fn) by reflexivity. reflexivity. Qed.
Lemma simplified_financial_runs c T d owner : run chinese_program c T (S d) owner (Path [#"SIMPLIFIED_FINANCIAL"]) [] [] = Ret (VChars SIMPLIFIED_FINANCIAL, []).
Proof. rewrite (run_S _ _ _ _ _ _ _ _ simplified_financial_fn) by reflexivity. reflexivity. Qed.
Lemma simplified_large_runs c T d owner : run chinese_program c T (S d) owner (Path [#"SIMPLIFIED_LARGE"]) [] [] = Ret (VChars SIMPLIFIED_LARGE, []).
Proof. rewrite (run_S _ _ _ _ _ _ _ _ simplified_large_fn) by reflexivity. reflexivity. Qed.
Lemma traditional_ordinary_runs c T d owner : run chinese_program c T (S d) owner (Path [#"TRADITIONAL_ORDINARY"]) [] [] = Ret (VChars TRADITIONAL_ORDINARY, []).
Proof. rewrite (run_S _ _ _ _ _ _ _ _ traditional_ordinary_fn) by reflexivity. reflexivity. Qed.
Lemma traditional_financial_runs c T d owner : run chinese_program c T (S d) owner (Path [#"TRADITIONAL_FINANCIAL"]) [] [] = Ret (VChars TRADITIONAL_FINANCIAL, []).
Proof. rewrite (run_S _ _ _ _ _ _ _ _ traditional_financial_fn) by reflexivity. reflexivity. Qed.
Lemma traditional_large_runs c T d owner : run chinese_program c T (S d) owner (Path [#"TRADITIONAL_LARGE"]) [] [] = Ret (VChars TRADITIONAL_LARGE, []).
Proof. rewrite (run_S _ _ _ _ _ _ _ _ traditional_large_fn) by reflexivity. reflexivity. Qed.

(** The two arms of the [match] on the usage. *)
Ltac usage_arm f owner Htable Hlarge H pick :=
  first_arm f; pick;
  rewrite_call (Htable owner); repeat step;
  rewrite_call (Hlarge owner); repeat step;
  lazymatch type of H with _ = obind ?m _ => destruct m as [r| | |] end; cbv beta iota delta [obind] in H |- *;
  rewrite_call H; repeat step; close.

Lemma simplified_informal_runs c T t o d n : 16 <= usize_bits c ->
  run chinese_program c T (28 + d) #"" (Path [#"SimplifiedChineseInformal"; #"try_format_nominal"]) [t]
    [options_value o; VInt (Some T) n]
  = (r <- SimplifiedChineseInformal o c T n ;; Ret (result_value T r, [None; None])).
Proof.
  intros Hb. change (28 + d)%nat with (S (27 + d)). rewrite (run_S _ _ _ _ _ _ _ _ simplified_informal_fn) by reflexivity.
  pose proof (simplified_ordinary_runs c T (26 + d)) as Hordinary.
  pose proof (simplified_financial_runs c T (26 + d)) as Hfinancial.
  pose proof (simplified_large_runs c T (26 + d)) as Hlarge.
  pose proof (fun characters scalars => chinese_runs c T false characters SIMPLIFIED_LARGE VUnit Hb scalars
                #"SimplifiedChineseInformal" (scale o) d n) as H.
  change (S (26 + d)) with (27 + d)%nat in *.
  remember (run chinese_program c T (27 + d)) as call eqn:E. clear E.
  unfold SimplifiedChineseInformal. destruct o as [[] sc]; cbv beta iota delta [options_value usage scale] in *.
  - specialize (H SIMPLIFIED_FINANCIAL ltac:(repeat constructor)).
    usage_arm simplified_informal_fn #"SimplifiedChineseInformal" Hfinancial Hlarge H ltac:(last_arm).
  - specialize (H SIMPLIFIED_ORDINARY ltac:(repeat constructor)).
    usage_arm simplified_informal_fn #"SimplifiedChineseInformal" Hordinary Hlarge H ltac:(other_arm; last_arm).
Qed.

Lemma simplified_formal_runs c T t o d n : 16 <= usize_bits c ->
  run chinese_program c T (28 + d) #"" (Path [#"SimplifiedChineseFormal"; #"try_format_nominal"]) [t]
    [options_value o; VInt (Some T) n]
  = (r <- SimplifiedChineseFormal o c T n ;; Ret (result_value T r, [None; None])).
Proof.
  intros Hb. change (28 + d)%nat with (S (27 + d)). rewrite (run_S _ _ _ _ _ _ _ _ simplified_formal_fn) by reflexivity.
  pose proof (simplified_ordinary_runs c T (26 + d)) as Hordinary.
  pose proof (simplified_financial_runs c T (26 + d)) as Hfinancial.
  pose proof (simplified_large_runs c T (26 + d)) as Hlarge.
  pose proof (fun characters scalars => chinese_runs c T true characters SIMPLIFIED_LARGE VUnit Hb scalars
                #"SimplifiedChineseFormal" (scale o) d n) as H.
  change (S (26 + d)) with (27 + d)%nat in *.
  remember (run chinese_program c T (27 + d)) as call eqn:E. clear E.
  unfold SimplifiedChineseFormal. destruct o as [[] sc]; cbv beta iota delta [options_value usage scale] in *.
  - specialize (H SIMPLIFIED_FINANCIAL ltac:(repeat constructor)).
    usage_arm simplified_formal_fn #"SimplifiedChineseFormal" Hfinancial Hlarge H ltac:(last_arm).
  - specialize (H SIMPLIFIED_ORDINARY ltac:(repeat constructor)).
    usage_arm simplified_formal_fn #"SimplifiedChineseFormal" Hordinary Hlarge H ltac:(other_arm; last_arm).
Qed.

Lemma traditional_formal_runs c T t o d n : 16 <= usize_bits c ->
  run chinese_program c T (28 + d) #"" (Path [#"TraditionalChineseFormal"; #"try_format_nominal"]) [t]
    [options_value o; VInt (Some T) n]
  = (r <- TraditionalChineseFormal o c T n ;; Ret (result_value T r, [None; None])).
Proof.
  intros Hb. change (28 + d)%nat with (S (27 + d)). rewrite (run_S _ _ _ _ _ _ _ _ traditional_formal_fn) by reflexivity.
  pose proof (traditional_ordinary_runs c T (26 + d)) as Hordinary.
  pose proof (traditional_financial_runs c T (26 + d)) as Hfinancial.
  pose proof (traditional_large_runs c T (26 + d)) as Hlarge.
  pose proof (fun characters scalars => chinese_runs c T true characters TRADITIONAL_LARGE VUnit Hb scalars
                #"TraditionalChineseFormal" (scale o) d n) as H.
  change (S (26 + d)) with (27 + d)%nat in *.
  remember (run chinese_program c T (27 + d)) as call eqn:E. clear E.
  unfold TraditionalChineseFormal. destruct o as [[] sc]; cbv beta iota delta [options_value usage scale] in *.
  - specialize (H TRADITIONAL_FINANCIAL ltac:(repeat constructor)).
    usage_arm traditional_formal_fn #"TraditionalChineseFormal" Hfinancial Hlarge H ltac:(last_arm).
  - specialize (H TRADITIONAL_ORDINARY ltac:(repeat constructor)).
    usage_arm traditional_formal_fn #"TraditionalChineseFormal" Hordinary Hlarge H ltac:(other_arm; last_arm).
Qed.

Lemma traditional_informal_runs c T t o d n : 16 <= usize_bits c ->
  run chinese_program c T (28 + d) #"" (Path [#"TraditionalChineseInformal"; #"try_format_nominal"]) [t]
    [options_value o; VInt (Some T) n]
  = (r <- TraditionalChineseInformal o c T n ;; Ret (result_value T r, [None; None])).
Proof.
  intros Hb. change (28 + d)%nat with (S (27 + d)). rewrite (run_S _ _ _ _ _ _ _ _ traditional_informal_fn) by reflexivity.
  pose proof (traditional_ordinary_runs c T (26 + d)) as Hordinary.
  pose proof (traditional_financial_runs c T (26 + d)) as Hfinancial.
  pose proof (traditional_large_runs c T (26 + d)) as Hlarge.
  pose proof (fun characters scalars => chinese_runs c T false characters TRADITIONAL_LARGE VUnit Hb scalars
                #"TraditionalChineseInformal" (scale o) d n) as H.
  change (S (26 + d)) with (27 + d)%nat in *.
  remember (run chinese_program c T (27 + d)) as call eqn:E. clear E.
  unfold TraditionalChineseInformal. destruct o as [[] sc]; cbv beta iota delta [options_value usage scale] in *.
  - specialize (H TRADITIONAL_FINANCIAL ltac:(repeat constructor)).
    usage_arm traditional_informal_fn #"TraditionalChineseInformal" Hfinancial Hlarge H ltac:(last_arm).
  - specialize (H TRADITIONAL_ORDINARY ltac:(repeat constructor)).
    usage_arm traditional_informal_fn #"TraditionalChineseInformal" Hordinary Hlarge H ltac:(other_arm; last_arm).
Qed.
