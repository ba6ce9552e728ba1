(** * TreeBorrows: other rules for the same references and pointers

    Tree Borrows (Villani, Hostert, Dreyer, Jung, PLDI 2025), which Miri checks
    with [-Zmiri-tree-borrows]: references form a tree, and an access through
    one of them is a different thing to its ancestors and to the others. Judged
    are the events of Aliasing.v. *)

From Verif Require Import Base NominalString Aliasing.

(** What a reference may still do with one byte. *)
Inductive standing :=
| Reserved (conflicted : bool)  (* a [&mut] not yet written through *)
| Active                        (* written through *)
| Frozen                        (* read only *)
| Dead.

(** One reference: [seen] once the byte was accessed through it, and the call
    it is an argument of. *)
Record node := { id : N; standing_of : standing; seen : bool; shield : option N }.

Definition shielded (calls : list N) (x : node) : bool :=
  match shield x with Some k => existsb (N.eqb k) calls | None => false end.

Definition now (x : node) (s : standing) (b : bool) : node :=
  {| id := id x; standing_of := s; seen := b; shield := shield x |}.

(** An access through the reference or one made from it. *)
Definition by_own (calls : list N) (write : bool) (x : node) : option node :=
  match standing_of x with
  | Reserved conflicted =>
      if write then if conflicted && shielded calls x then None else Some (now x Active true)
      else Some (now x (Reserved conflicted) true)
  | Active => Some (now x Active true)
  | Frozen => if write then None else Some (now x Frozen true)
  | Dead => None
  end.

(** An access through any other. Arguments of running calls must not lose what
    they were used for. *)
Definition by_other (calls : list N) (write : bool) (x : node) : option node :=
  let hurt := shielded calls x && seen x in
  match standing_of x with
  | Reserved conflicted =>
      if write then if hurt then None else Some (now x Dead (seen x))
      else Some (now x (Reserved (conflicted || shielded calls x)) (seen x))
  | Active => if hurt then None else Some (now x (if write then Dead else Frozen) (seen x))
  | Frozen => if write then if hurt then None else Some (now x Dead (seen x)) else Some x
  | Dead => Some x
  end.

Fixpoint each (f : node -> option node) (xs : list node) : option (list node) :=
  match xs with
  | [] => Some []
  | x :: xs => match f x, each f xs with Some x, Some xs => Some (x :: xs) | _, _ => None end
  end.

Definition on (path : list N) (x : node) : bool := existsb (N.eqb (id x)) path.

(** [path]: the reference and its ancestors. *)
Definition touch (calls : list N) (path : list N) (write : bool) : list node -> option (list node) :=
  each (fun x => if on path x then by_own calls write x else by_other calls write x).

(** Pointers, with their references and the ancestors of these. *)
Definition paths := list (N * list N).

Definition path_of (t : N) (ps : paths) : option (list N) :=
  match find (fun p => fst p =? t) ps with Some (_, path) => Some path | None => None end.

Definition is_active (x : node) : bool := match standing_of x with Active => true | _ => false end.

(** When a call returns, its arguments count as accessed once more, for all but
    the references made from them. *)
Definition below (ps : paths) (ancestor : N) (x : node) : bool :=
  match path_of (id x) ps with Some path => existsb (N.eqb ancestor) path && negb (id x =? ancestor) | None => false end.

Definition release (calls : list N) (ps : paths) (a : node) (xs : list node) : option (list node) :=
  match path_of (id a) ps with
  | None => None
  | Some path =>
      each (fun x => if below ps (id a) x then Some x
                     else if on path x then by_own calls (is_active a) x else by_other calls (is_active a) x) xs
  end.

Definition argument_of (call : N) (x : node) : bool :=
  match shield x with Some k => (k =? call) && seen x | None => false end.

Fixpoint release_all (calls : list N) (ps : paths) (args : list node) (xs : list node) : option (list node) :=
  match args with
  | [] => Some xs
  | a :: args => match release calls ps a xs with Some xs => release_all calls ps args xs | None => None end
  end.

Record world := { running : list N; pointers : paths; nodes : list node }.

Definition tree_event (l : N) (e : event) (w : world) : option world :=
  match e with
  | Enter k => Some {| running := k :: running w; pointers := pointers w; nodes := nodes w |}
  | Leave k =>
      match release_all (running w) (pointers w) (filter (argument_of k) (nodes w)) (nodes w) with
      | Some xs => Some {| running := tl (running w); pointers := pointers w; nodes := xs |}
      | None => None
      end
  | Access write t r =>
      if covers r l then
        match path_of t (pointers w) with
        | Some path =>
            match touch (running w) path write (nodes w) with
            | Some xs => Some {| running := running w; pointers := pointers w; nodes := xs |}
            | None => None
            end
        | None => None
        end
      else Some w
  | Retag k from new g r =>
      match path_of from (pointers w) with
      | None => None
      | Some path =>
          match k with
          | RawMut | RawConst => Some {| running := running w; pointers := (new, path) :: pointers w; nodes := nodes w |}
          | Mut | Shared =>
              match (if covers r l then touch (running w) path false (nodes w) else Some (nodes w)) with
              | Some xs =>
                  Some {| running := running w; pointers := (new, new :: path) :: pointers w;
                          nodes := {| id := new; standing_of := match k with Mut => Reserved false | _ => Frozen end;
                                      seen := covers r l; shield := g |} :: xs |}
              | None => None
              end
          end
      end
  end.

Fixpoint tree_check (l : N) (es : list event) (w : world) : option world :=
  match es with
  | [] => Some w
  | e :: es => match tree_event l e w with Some w => tree_check l es w | None => None end
  end.

(** A new variable. *)
Definition planted : world :=
  {| running := []; pointers := [(0, [0])]; nodes := [{| id := 0; standing_of := Active; seen := true; shield := None |}] |}.
