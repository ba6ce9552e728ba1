(** * Cases: configurations and observations used in the examples *)

From Verif Require Import Base Utf8 NominalString Digital.

Definition on_heap : config := {| has_alloc := true; overflow_checks := true; usize_bits := 64; loop_depth := 130 |}.
Definition no_heap : config := {| has_alloc := false; overflow_checks := false; usize_bits := 16; loop_depth := 130 |}.

Lemma on_heap_valid : valid_config on_heap.
Proof. vm_compute. split; [auto|repeat constructor]. Qed.

Lemma no_heap_valid : valid_config no_heap.
Proof. vm_compute. split; [auto|repeat constructor]. Qed.

(** What a caller sees of a formatter's outcome. *)
Definition seen (r : outcome (result nominal_string error)) : outcome (result (list N) error) :=
  x <- r ;;
  match x with
  | Ok s => t <- as_str s ;; Ret (Ok t)
  | Err e => Ret (Err e)
  end.
