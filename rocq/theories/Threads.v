(** * Threads: several threads read one string

    [NominalString] has no [Sync] or [Send] implementation of its own; the
    compiler derives both, so safe code may read one string from several
    threads at once (src/nominalstring.rs:14-16, :92-94, :184-190, :249-270).
    Programs in phases: one thread alone, or several with a shared reference;
    the events are those of Aliasing.v, in any order that keeps the order of
    each thread. *)

From Verif Require Import Base NominalString Aliasing TreeBorrows.

(** What a [&NominalString] allows. *)
Definition reader (u : use) : bool :=
  match u with UseIsInline | UseDeref | Look _ _ => true | _ => false end.

(** [plays] with where it ends. *)
Inductive plays_to (c : config) (owner : N) : scene -> N -> list use -> list event -> scene -> N -> Prop :=
| plays_to_nil x n : plays_to c owner x n [] [] x n
| plays_to_cons x n u us m x' es n' rest x'' n'' :
    use_trace c owner x u = Some (Ret m) -> m n = (x', es, n') ->
    plays_to c owner x' n' us rest x'' n'' -> plays_to c owner x n (u :: us) (es ++ rest) x'' n''.

Inductive interleaved : list (list event) -> list event -> Prop :=
| all_over ts : Forall (fun t => t = []) ts -> interleaved ts []
| one_goes before e t after es : interleaved (before ++ t :: after) es -> interleaved (before ++ (e :: t) :: after) (e :: es).

Inductive phase :=
| Alone (uses : list use)
| Together (threads : list (list use)).

Definition no_references (s : nominal_string) : scene := {| string_of := s; views := []; editor := None |}.

(** One thread of several: what it does with the reference [r]. The tags its
    references get are between [n] and [n']; that those of different threads
    differ is not needed. *)
Definition thread (c : config) (s : nominal_string) (r n n' : N) (uses : list use) (trace : list event) : Prop :=
  forallb reader uses = true /\
  exists first x last, n <= first /\ last <= n' /\ plays_to c r (no_references s) first uses trace x last.

(** The events of a program, phase by phase; [true] for several threads. *)
Inductive acts (c : config) : nominal_string -> N -> list phase -> list (bool * list event) -> Prop :=
| acts_end s n : acts c s n [] []
| acts_alone s n uses es x n' rest segments :
    plays_to c 0 (no_references s) n uses es x n' -> acts c (string_of x) n' rest segments ->
    acts c s n (Alone uses :: rest) ((false, es) :: segments)
| acts_together s n n' threads traces es rest segments :
    n < n' -> Forall2 (thread c s n (n + 1) n') threads traces -> interleaved traces es -> acts c s n' rest segments ->
    acts c s n (Together threads :: rest) ((true, Retag Shared 0 n None whole :: es) :: segments).

(** ** The rules, where calls of several threads are running *)

Definition returned (k : N) (calls : list N) : list N := filter (fun j => negb (j =? k)) calls.

Definition shared_event (l : N) (e : event) (x : list N * stack) : option (list N * stack) :=
  match e with Leave k => Some (returned k (fst x), snd x) | _ => check_event l e x end.

Fixpoint shared_check (l : N) (es : list event) (x : list N * stack) : option (list N * stack) :=
  match es with
  | [] => Some x
  | e :: es => match shared_event l e x with Some x => shared_check l es x | None => None end
  end.

(** After a phase no call is running. *)
Fixpoint judge (l : N) (segments : list (bool * list event)) (s : stack) : option stack :=
  match segments with
  | [] => Some s
  | (shared, es) :: segments =>
      match (if shared : bool then shared_check else check) l es ([], s) with
      | Some (_, s) => judge l segments s
      | None => None
      end
  end.

Definition shared_tree_event (l : N) (e : event) (w : world) : option world :=
  match e with
  | Leave k =>
      match release_all (running w) (pointers w) (filter (argument_of k) (nodes w)) (nodes w) with
      | Some xs => Some {| running := returned k (running w); pointers := pointers w; nodes := xs |}
      | None => None
      end
  | _ => tree_event l e w
  end.

Fixpoint shared_tree_check (l : N) (es : list event) (w : world) : option world :=
  match es with
  | [] => Some w
  | e :: es => match shared_tree_event l e w with Some w => shared_tree_check l es w | None => None end
  end.

Fixpoint tree_judge (l : N) (segments : list (bool * list event)) (w : world) : option world :=
  match segments with
  | [] => Some w
  | (shared, es) :: segments =>
      match (if shared : bool then shared_tree_check else tree_check) l es {| running := []; pointers := pointers w; nodes := nodes w |} with
      | Some w => tree_judge l segments w
      | None => None
      end
  end.

(** Two threads access a byte, one of them writing. *)
Definition races (traces : list (list event)) : Prop :=
  exists i j es es' w t r w' t' r' l, i <> j /\ nth_error traces i = Some es /\ nth_error traces j = Some es' /\
    In (Access w t r) es /\ In (Access w' t' r') es' /\ covers r l = true /\ covers r' l = true /\ w || w' = true.
