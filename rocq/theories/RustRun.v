(** * RustRun: running Rust source text

    What the programs read by Rust.v do, in terms of the outcomes, numbers and
    strings of the model. The control flow, the variables, the calls, [?],
    the numbers and the patterns are interpreted here; the methods of
    [NominalString] and of the digit collections are those of
    NominalString.v and Digital.v, which have theorems of their own.

    The interpreter passes continuations: one for the value of an expression
    and one for leaving it with [return], [break] or [continue]. *)

From Coq Require Import String.
From Verif Require Import Base Utf8 NominalString Digital Rust.
Local Open Scope string_scope.
Local Open Scope N_scope.

(** ** Values *)

(** A number carries its type, unless it is a literal. *)
Inductive value :=
| VUnit
| VInt (type : option uint) (n : N)
| VBool (b : bool)
| VChar (c : N)
| VStr (s : list N)
| VString (s : nominal_string)
| VTuple (vs : list value)
| VArray (vs : list value)
| VChars (cs : list N)                             (* an array of characters *)
| VStrs (ss : list (list N))                       (* an array of [&str] *)
| VInts (type : option uint) (ns : list N)         (* an array of numbers *)
| VOptions (type : option uint) (os : list (option N))  (* an array of [Option]s of numbers *)
| VCon (name : name) (vs : list value)           (* [Ok(v)], [None], [Error::NoZeroSymbol] *)
| VStruct (fields : list (name * value))
| VDigits (d : digit_collection).

Definition env := list (name * value).

Fixpoint get {A} (x : name) (l : list (name * A)) : option A :=
  match l with
  | (y, v) :: rest => if same x y then Some v else get x rest
  | [] => None
  end.

Fixpoint set (x : name) (v : value) (vars : env) : env :=
  match vars with
  | (y, w) :: rest => if same x y then (y, v) :: rest else (y, w) :: set x v rest
  | [] => []
  end.

(** The end of a scope: drop the names bound since [outer]. *)
Definition leave (outer vars : env) : env := skipn (length vars - length outer) vars.

Definition v_ok (v : value) : value := VCon #"Ok" [v].
Definition v_err (v : value) : value := VCon #"Err" [v].
Definition v_some (v : value) : value := VCon #"Some" [v].
Definition v_none : value := VCon #"None" [].

(** The names bound by a pattern; [None] when it does not match. *)
Fixpoint bind (p : pat) (v : value) {struct p} : option env :=
  match p with
  | PWild => Some []
  | PVar x => Some [(x, v)]
  | PInt n => match v with VInt _ m => if m =? n then Some [] else None | _ => None end
  | PTuple ps =>
      match v with
      | VTuple vs =>
          (fix go (ps : list pat) (vs : list value) : option env :=
             match ps, vs with
             | [], [] => Some []
             | p :: ps, v :: vs =>
                 match bind p v with
                 | Some a => match go ps vs with Some b => Some (b ++ a)%list | None => None end
                 | None => None
                 end
             | _, _ => None
             end) ps vs
      | _ => None
      end
  | PCon name ps =>
      match v with
      | VCon name' vs =>
          if same name name' then
            (fix go (ps : list pat) (vs : list value) : option env :=
               match ps, vs with
               | [], [] => Some []
               | p :: ps, v :: vs =>
                   match bind p v with
                   | Some a => match go ps vs with Some b => Some (b ++ a)%list | None => None end
                   | None => None
                   end
               | _, _ => None
               end) ps vs
          else None
      | _ => None
      end
  | POr p q => match bind p v with Some a => Some a | None => bind q v end
  end.

(** ** Operations *)

(** An operation on a literal and a number is one of the number's type. *)
Definition common (a b : option uint) : option uint :=
  match a with Some _ => a | None => b end.

(** Without any type the operation is on literals, and only what fits makes
    sense. A program that is not well typed has no meaning: [UB]. *)
Definition binary (c : config) (op : binop) (a b : value)
  : forall R, (value -> outcome R) -> outcome R :=
  fun R k =>
  match a, b with
  | VInt s x, VInt t y =>
      let type := common s t in
      match op with
      | Eql => k (VBool (x =? y))
      | Neq => k (VBool (negb (x =? y)))
      | Less => k (VBool (x <? y))
      | Greater => k (VBool (y <? x))
      | Leq => k (VBool (x <=? y))
      | Geq => k (VBool (y <=? x))
      | Add => match type with
               | Some u => r <- uadd c (bits c u) x y ;; k (VInt type r)
               | None => k (VInt None (x + y))
               end
      | Sub => match type with
               | Some u => r <- usub c (bits c u) x y ;; k (VInt type r)
               | None => UB
               end
      | Div => r <- udiv x y ;; k (VInt type r)
      | Rem => r <- urem x y ;; k (VInt type r)
      | _ => UB
      end
  | _, _ => UB
  end.

(** The element of an array. *)
Definition element (v : value) (i : N) : forall R, (option value -> outcome R) -> outcome R :=
  fun R k =>
  match v with
  | VArray vs => k (lookup vs i)
  | VChars cs => match lookup cs i with Some ch => k (Some (VChar ch)) | None => k None end
  | VStrs ss => match lookup ss i with Some s => k (Some (VStr s)) | None => k None end
  | VInts t ns => match lookup ns i with Some n => k (Some (VInt t n)) | None => k None end
  | VOptions t os =>
      match lookup os i with
      | Some (Some n) => k (Some (v_some (VInt t n)))
      | Some None => k (Some v_none)
      | None => k None
      end
  | _ => UB
  end.

(** The array of some values. *)
Fixpoint all_of {A} (f : value -> option A) (vs : list value) : option (list A) :=
  match vs with
  | [] => Some []
  | v :: vs =>
      match f v, all_of f vs with Some a, Some l => Some (a :: l) | _, _ => None end
  end.

Definition array (vs : list value) : value :=
  match all_of (fun v => match v with VChar ch => Some ch | _ => None end) vs with
  | Some cs => VChars cs
  | None =>
      match all_of (fun v => match v with VInt None n => Some n | _ => None end) vs with
      | Some ns => VInts None ns
      | None => VArray vs
      end
  end.

(** The array made by [array::from_fn], of [Option]s here. *)
Definition option_of (v : value) : option (option uint * option N) :=
  match v with
  | VCon con [VInt t n] => if same con #"Some" then Some (t, Some n) else None
  | VCon con [] => if same con #"None" then Some (None, None) else None
  | _ => None
  end.

Definition options (vs : list value) : value :=
  match all_of option_of vs with
  | Some os => VOptions (fold_right (fun o t => common (fst o) t) None os) (map snd os)
  | None => VArray vs
  end.

(** A push: the string afterwards and the result. *)
Definition pushed (m : outcome (nominal_string * result unit out_of_memory))
  : forall R, (value -> value -> outcome R) -> outcome R :=
  fun R k =>
  '(s, r) <- m ;;
  match r with
  | Ok _ => k (VString s) (v_ok VUnit)
  | Err OutOfMemoryError => k (VString s) (v_err (VCon #"OutOfMemoryError" []))
  end.

(** The methods the programs do not define themselves: the receiver afterwards
    and the result. [None]: there is no such method here. *)
Definition method (c : config) (name : name) (v : value) (args : list value)
  : option (forall R, (value -> value -> outcome R) -> outcome R) :=
  match v, args with
  | VInt type n, [] =>
      if same name #"is_zero" then Some (fun R (k : _ -> _ -> outcome R) => k v (VBool (is_zero n)))
      else if same name #"as_usize" then
        Some (fun R (k : _ -> _ -> outcome R) => k v (VInt (Some Usize) (as_usize c n)))
      else if same name #"try_into" then            (* into [usize], the only use *)
        Some (fun R (k : _ -> _ -> outcome R) =>
                match try_from c Usize n with
                | Some n => k v (v_ok (VInt (Some Usize) n))
                | None => k v (v_err (VCon #"TryFromIntError" []))
                end)
      else None
  | VInt type n, [VInt _ m] =>
      if same name #"pow" then Some (fun R (k : _ -> _ -> outcome R) => k v (VInt type (n ^ m)))
      else if same name #"checked_sub" then
        Some (fun R (k : _ -> _ -> outcome R) => if m <=? n then k v (v_some (VInt type (n - m))) else k v v_none)
      else None
  | VString s, [VChar ch] =>
      if same name #"try_push" then Some (pushed (try_push c s ch))
      else if same name #"try_push_front" then Some (pushed (try_push_front c s ch))
      else None
  | VString s, [VStr str] =>
      if same name #"try_push_str" then Some (pushed (try_push_str c s str)) else None
  | VString s, [VString t] =>                             (* [&t] derefs to its text *)
      if same name #"try_push_str" then
        Some (fun R (k : _ -> _ -> outcome R) => str <- as_str t ;; pushed (try_push_str c s str) R k)
      else None
  | VString s, [] =>
      if same name #"is_empty" then
        Some (fun R (k : _ -> _ -> outcome R) => b <- is_empty s ;; k v (VBool b))
      else None
  | VStr str, [] =>
      if same name #"into" then
        Some (fun R (k : _ -> _ -> outcome R) => s <- from_str c str ;; k v (VString s))
      else None
  | VCon con [], [] =>
      if same con #"None" && (same name #"copied" || same name #"flatten") then
        Some (fun R (k : _ -> _ -> outcome R) => k v v_none)
      else None
  | VCon con [w], [] =>
      if same name #"copied" then Some (fun R (k : _ -> _ -> outcome R) => k v v)
      else if same name #"flatten" then Some (fun R (k : _ -> _ -> outcome R) => k v w)
      else if same name #"ok" then
        Some (fun R (k : _ -> _ -> outcome R) => if same con #"Ok" then k v (v_some w) else k v v_none)
      else None
  | VCon con ws, [arg] =>
      if same name #"expect" then
        Some (fun R (k : _ -> _ -> outcome R) => match ws with [w] => k v w | _ => Panic end)
      else if same name #"with_nominal" then         (* src/lib.rs:243-247 *)
        Some (fun R (k : _ -> _ -> outcome R) =>
                if same con #"Ok" then k v v
                else k v (v_err (VCon #"OutOfMemory" [arg])))
      else None
  | VDigits d, [] =>                                       (* src/digital.rs:632-685 *)
      if same name #"len" then
        Some (fun R (k : _ -> _ -> outcome R) => n <- dc_len d ;; k v (VInt (Some Usize) n))
      else if same name #"is_empty" then
        Some (fun R (k : _ -> _ -> outcome R) => n <- dc_len d ;; k v (VBool (n =? 0)))
      else if same name #"fixed" then Some (fun R (k : _ -> _ -> outcome R) => k v (VBool (dc_fixed d)))
      else if same name #"zero_based" then Some (fun R (k : _ -> _ -> outcome R) => k v (VBool (dc_zero_based d)))
      else if same name #"has_zero_digit" then
        Some (fun R (k : _ -> _ -> outcome R) => k v (VBool (dc_has_zero_digit d)))
      else None
  | VDigits d, [VInt _ i] =>
      if same name #"digit" then Some (fun R (k : _ -> _ -> outcome R) => ch <- dc_digit d i ;; k v (VChar ch))
      else None
  | _, [VInt _ i] =>
      if same name #"get" then
        Some (fun R (k : _ -> _ -> outcome R) =>
                element v i R (fun o =>
                  match o with Some w => k v (v_some w) | None => k v v_none end))
      else None
  | _, _ => None
  end.

(** Constructors of the enumerations. *)
Definition constructor (name : name) : bool :=
  existsb (same name)
    [#"Ok"; #"Err"; #"Some"; #"None"; #"NoZeroSymbol"; #"OutOfMemory"; #"OutOfBounds";
     #"Short"; #"Myriad"; #"Mid"; #"Long"].

(** The functions the programs do not define themselves. [T] is the type
    parameter of the formatter, [digits] the value of [self]. *)
Definition builtin (c : config) (T : uint) (self : option value) (path : list name)
    (args : list value) : option (forall R, (value -> outcome R) -> outcome R) :=
  match path, args with
  | [a; b], [VInt _ n] =>
      if same a #"T" && same b #"from" then Some (fun R (k : _ -> outcome R) => k (VInt (Some T) n))
      else if same a #"T" && same b #"try_from" then
        Some (fun R (k : _ -> outcome R) =>
                match try_from c T n with
                | Some n => k (v_ok (VInt (Some T) n))
                | None => k (v_err (VCon #"TryFromIntError" []))
                end)
      else None
  | [a; b], [VBool x] =>
      if same a #"usize" && same b #"from" then
        Some (fun R (k : _ -> outcome R) => k (VInt (Some Usize) (if x then 1 else 0)))
      else None
  | [a; b], [VChar ch] =>
      if same a #"NominalString" && same b #"from" then
        Some (fun R (k : _ -> outcome R) => s <- from_char c ch ;; k (VString s))
      else None
  | [a; b], [VStr str] =>
      if same a #"NominalString" && same b #"from" then
        Some (fun R (k : _ -> outcome R) => s <- from_str c str ;; k (VString s))
      else None
  | [a; b], [] =>
      if same a #"NominalString" then
        if same b #"new" || same b #"default" then Some (fun R (k : _ -> outcome R) => k (VString new))
        else if same b #"new_reverse" then Some (fun R (k : _ -> outcome R) => k (VString new_reverse))
        else None
      else None
  | [a; b; d], [] =>                                       (* [<D::Fallback>::default()] *)
      if same b #"Fallback" && same d #"default" then
        match self with
        | Some (VDigits d) => Some (fun R (k : _ -> outcome R) => k (VDigits (dc_fallback d)))
        | _ => None
        end
      else None
  | _, _ => None
  end.

(** ** Running *)

Inductive exit :=
| XReturn (v : value)
| XBreak (label : option name)
| XContinue (label : option name).

Inductive callee :=
| Path (path : list name)
| Named (name : name).        (* a method *)

(** What an expression is run in: the configuration, the type [T], the type of
    the [impl], the error type of the function, and how to call a function with
    generic arguments and arguments. A call also gives the final values of the
    [&mut] parameters. *)
Record context := {
  cx_config : config;
  cx_type : uint;
  cx_owner : name;
  cx_error : name;
  cx_call : name -> callee -> list value -> list value -> outcome (value * list (option value))
}.

(** The variable an expression names. *)
Definition place (e : expr) : option name :=
  match e with
  | EPath [x] | EDeref (EPath [x]) | ERef _ (EPath [x]) => Some x
  | _ => None
  end.

Definition write (e : expr) (v : value) (vars : env) : env :=
  match place e with Some x => set x v vars | None => vars end.

Fixpoint write_all (es : list expr) (finals : list (option value)) (vars : env) : env :=
  match es, finals with
  | e :: es, Some v :: finals => write_all es finals (write e v vars)
  | _ :: es, None :: finals => write_all es finals vars
  | _, _ => vars
  end.

Definition generic_value (vars : env) (e : expr) : value :=
  match e with
  | EInt n => VInt None n
  | EBool b => VBool b
  | EPath [x] => match get x vars with Some v => v | None => VUnit end
  | _ => VUnit
  end.

Definition same_label (inner outer : option name) : bool :=
  match inner, outer with
  | None, _ => true
  | Some l, Some m => same l m
  | Some _, None => false
  end.

(** Evaluating several expressions from left to right. *)
Section Lists.
  Context {R : Type} (ev : expr -> env -> (value -> env -> outcome R) -> outcome R).

  Fixpoint eval_list (es : list expr) (vars : env) (k : list value -> env -> outcome R) : outcome R :=
    match es with
    | [] => k [] vars
    | e :: es => ev e vars (fun v vars => eval_list es vars (fun vs vars => k (v :: vs) vars))
    end.
End Lists.

(** The first arm that matches. *)
Section Arms.
  Context {R : Type} (ev : expr -> env -> outcome R).

  Fixpoint eval_arms (arms : list (pat * expr)) (v : value) (vars : env) : outcome R :=
    match arms with
    | [] => UB
    | (p, e) :: arms =>
        match bind p v with Some names => ev e (names ++ vars)%list | None => eval_arms arms v vars end
    end.
End Arms.

(** [step] for each value, in order. *)
Section Each.
  Context {R : Type} (step : value -> env -> (env -> outcome R) -> outcome R).

  Fixpoint for_each (vs : list value) (vars : env) (done : env -> outcome R) : outcome R :=
    match vs with
    | [] => done vars
    | v :: vs => step v vars (fun vars => for_each vs vars done)
    end.
End Each.

(** [f] of each number below [n], in order. *)
Section Build.
  Context {R : Type} (f : N -> env -> (value -> env -> outcome R) -> outcome R).

  Fixpoint build (n : nat) (from : N) (vars : env) (k : list value -> env -> outcome R) : outcome R :=
    match n with
    | O => k [] vars
    | S n => f from vars (fun v vars => build n (from + 1) vars (fun vs vars => k (v :: vs) vars))
    end.
End Build.

(** [?] turns an [OutOfMemoryError] into the error type of the function when
    that is another one; no other conversion occurs. *)
Definition is_oom (v : value) : bool :=
  match v with VCon con _ => same con #"OutOfMemoryError" | _ => false end.

(** What a turn of a loop does when its body is left. [outer] are the variables
    before the body. *)
Definition loop_exit {S} (label : option name) (outer : env) (continue : env -> S)
    (x : exit) (vars : env) : outcome (loop_step S (option exit * env)) :=
  match x with
  | XBreak l =>
      if same_label l label then Ret (Break (None, leave outer vars))
      else Ret (Break (Some x, leave outer vars))
  | XContinue l =>
      if same_label l label then Ret (Continue (continue (leave outer vars)))
      else Ret (Break (Some x, leave outer vars))
  | XReturn _ => Ret (Break (Some x, leave outer vars))
  end.

(** The type of [eval]: the variables, the continuation for the value and the
    one for leaving. *)
Definition evaluation : Type :=
  forall R, env -> (value -> env -> outcome R) -> (exit -> env -> outcome R) -> outcome R.

(** One expression, given how its parts are evaluated. *)
Definition eval_step (cx : context) (ev : expr -> evaluation) (e : expr) : evaluation :=
  fun R vars k j =>
  let c := cx_config cx in
  match e with
  | EUnit => k VUnit vars
  | EInt n => k (VInt None n) vars
  | EChar ch => k (VChar ch) vars
  | EStr s => k (VStr s) vars
  | EBool b => k (VBool b) vars
  | EPath path =>
      match path with
      | [x] =>
          match get x vars with
          | Some v => k v vars
          | None =>
              if constructor x then k (VCon x []) vars
              else '(v, _) <- cx_call cx (cx_owner cx) (Path path) [] [] ;; k v vars
          end
      | _ =>
          if constructor (last path #"") then k (VCon (last path #"") []) vars
          else UB
      end
  | ENot a =>
      ev a R vars (fun v vars =>
        match v with VBool b => k (VBool (negb b)) vars | _ => UB end) j
  | ERef _ a => ev a R vars k j
  | EDeref a => ev a R vars k j
  | EBin op a b =>
      match op with
      | And =>
          ev a R vars (fun v vars =>
            match v with
            | VBool true => ev b R vars k j
            | VBool false => k (VBool false) vars
            | _ => UB
            end) j
      | Or =>
          ev a R vars (fun v vars =>
            match v with
            | VBool true => k (VBool true) vars
            | VBool false => ev b R vars k j
            | _ => UB
            end) j
      | _ =>
          ev a R vars (fun x vars =>
          ev b R vars (fun y vars => binary c op x y R (fun r => k r vars)) j) j
      end
  | EAssign p a => ev a R vars (fun v vars => k VUnit (write p v vars)) j
  | EUpdate op p a =>
      ev a R vars (fun y vars =>
        match place p with
        | Some x =>
            match get x vars with
            | Some old => binary c op old y R (fun r => k VUnit (set x r vars))
            | None => UB
            end
        | None => UB
        end) j
  | ECall path generics args =>
      match args with
      | [EClosure (PVar i) body] =>                         (* [array::from_fn] *)
          match get #"N" vars with
          | Some (VInt _ n) =>
              build (fun index vars k =>
                       ev body R ((i, VInt (Some Usize) index) :: vars)
                         (fun v inner => k v (leave vars inner)) j)
                (N.to_nat n) 0 vars (fun vs vars => k (options vs) vars)
          | _ => UB
          end
      | _ =>
          eval_list (fun e vars k => ev e R vars k j) args vars (fun vs vars' =>
            if constructor (last path #"") then k (VCon (last path #"") vs) vars'
            else match builtin c (cx_type cx) (get #"self" vars') path vs with
            | Some m => m R (fun v => k v vars')
            | None =>
                '(v, finals) <- cx_call cx (cx_owner cx) (Path path)
                                  (map (generic_value vars') generics) vs ;;
                k v (write_all args finals vars')
            end)
      end
  | EMethod receiver name generics args =>
      if same name #"map_err" then
        ev receiver R vars (fun v vars =>
          match v with
          | VCon con [w] =>
              if same con #"Err" then
                match args with
                | [EClosure p body] =>
                    match bind p w with
                    | Some names =>
                        ev body R (names ++ vars)%list
                          (fun w inner => k (v_err w) (leave vars inner)) j
                    | None => UB
                    end
                | [EPath path] =>
                    '(w, _) <- cx_call cx (cx_owner cx) (Path path) [] [w] ;; k (v_err w) vars
                | _ => UB
                end
              else k v vars
          | _ => UB
          end) j
      else
        ev receiver R vars (fun v vars =>
        eval_list (fun e vars k => ev e R vars k j) args vars (fun vs vars' =>
          match method c name v vs with
          | Some m => m R (fun v r => k r (write receiver v vars'))
          | None =>
              '(r, finals) <- cx_call cx (cx_owner cx) (Named name)
                                (map (generic_value vars') generics) (v :: vs) ;;
              k r (write_all (receiver :: args) finals vars')
          end)) j
  | EField a name =>
      ev a R vars (fun v vars =>
        match v with
        | VStruct fields => match get name fields with Some v => k v vars | None => UB end
        | _ => UB
        end) j
  | EIndex a i =>
      ev a R vars (fun v vars =>
      ev i R vars (fun w vars =>
        match w with
        | VInt _ n =>
            element v n R (fun o => match o with Some v => k v vars | None => Panic end)
        | _ => UB
        end) j) j
  | ECast _ _ => UB
  | ETuple es =>
      eval_list (fun e vars k => ev e R vars k j) es vars (fun vs vars => k (VTuple vs) vars)
  | EArray es =>
      eval_list (fun e vars k => ev e R vars k j) es vars (fun vs vars => k (array vs) vars)
  | ETry a =>
      ev a R vars (fun v vars =>
        match v with
        | VCon con [w] =>
            if same con #"Ok" then k w vars
            else
              if is_oom w && negb (same (cx_error cx) #"OutOfMemoryError") then
                '(w, _) <- cx_call cx (cx_owner cx) (Path [cx_error cx; #"from"]) [] [w] ;;
                j (XReturn (v_err w)) vars
              else j (XReturn (v_err w)) vars
        | _ => UB
        end) j
  | EClosure _ _ => UB
  | EMacro name => if same name #"unreachable" then Panic else UB
  | EFrom _ => UB
  | EIf a yes no =>
      ev a R vars (fun v vars =>
        match v with
        | VBool b => if b then ev yes R vars k j else ev no R vars k j
        | _ => UB
        end) j
  | EMatch a arms =>
      ev a R vars (fun v vars =>
        eval_arms (fun e inner => ev e R inner (fun v inner => k v (leave vars inner)) j)
          arms v vars) j
  | EWhile label cond body =>
      '(x, vars) <- run_loop c (fun vars =>
        ev cond _ vars (fun v vars =>
          match v with
          | VBool b =>
              if b then
                ev body _ vars (fun _ inner => Ret (Continue (leave vars inner)))
                  (loop_exit label vars (fun vars => vars))
              else Ret (Break (None, vars))
          | _ => UB
          end) (fun x vars => Ret (Break (Some x, vars)))) vars ;;
      match x with None => k VUnit vars | Some x => j x vars end
  | EFor label p over body =>
      match over with
      | EFrom start =>
          ev start R vars (fun v vars =>
            match v with
            | VInt type n =>
                '(x, vars) <- run_loop c (fun (st : N * env) =>
                  let (i, vars) := st in
                  match bind p (VInt type i) with
                  | Some names =>
                      ev body _ (names ++ vars)%list
                        (fun _ inner => Ret (Continue (i + 1, leave vars inner)))
                        (loop_exit label vars (fun vars => (i + 1, vars)))
                  | None => UB
                  end) (n, vars) ;;
                match x with None => k VUnit vars | Some x => j x vars end
            | _ => UB
            end) j
      | _ =>
          ev over R vars (fun v vars =>
            match v with
            | VArray vs =>
                for_each (fun v vars next =>
                  match bind p v with
                  | Some names =>
                      ev body R (names ++ vars)%list (fun _ inner => next (leave vars inner))
                        (fun x inner =>
                           match x with
                           | XBreak l =>
                               if same_label l label then k VUnit (leave vars inner)
                               else j x (leave vars inner)
                           | XContinue l =>
                               if same_label l label then next (leave vars inner)
                               else j x (leave vars inner)
                           | XReturn _ => j x (leave vars inner)
                           end)
                  | None => UB
                  end) vs vars (fun vars => k VUnit vars)
            | _ => UB
            end) j
      end
  | EBreak label => j (XBreak label) vars
  | EContinue label => j (XContinue label) vars
  | EReturn a => ev a R vars (fun v vars => j (XReturn v) vars) j
  | ELet p a otherwise rest =>
      ev a R vars (fun v vars =>
        match bind p v with
        | Some names => ev rest R (names ++ vars)%list k j
        | None =>
            match otherwise with
            | Some b => ev b R vars (fun _ _ => UB) j
            | None => UB
            end
        end) j
  | ESeq a rest => ev a R vars (fun _ vars => ev rest R vars k j) j
  | EBlock a => ev a R vars (fun v inner => k v (leave vars inner)) j
  end.

Fixpoint eval (cx : context) (e : expr) {struct e} : evaluation :=
  ltac:(let body := eval cbv beta delta [eval_step] in (eval_step cx (eval cx) e) in exact body).

(** *** Functions *)

Definition has_self (f : func) : bool :=
  match fn_params f with p :: _ => same (pa_name p) #"self" | [] => false end.

(** The function meant by a path or a method name used in [owner]. *)
Definition find_fn (program : list func) (owner : name) (callee : callee) : option func :=
  find (fun f =>
    match callee with
    | Path [x] => same (fn_owner f) #"" && same (fn_name f) x
    | Path [o; x] =>
        same (fn_owner f) (if same o #"Self" then owner else o)
        && same (fn_name f) x
    | Path _ => false
    | Named m => has_self f && same (fn_name f) m
    end) program.

(** An argument: a literal takes the type of the parameter. *)
Definition coerce (T : uint) (type : name) (v : value) : value :=
  match v with
  | VInt None n =>
      if same type #"usize" then VInt (Some Usize) n
      else if same type #"T" then VInt (Some T) n
      else v
  | _ => v
  end.

Fixpoint arguments (T : uint) (params : list param) (args : list value) : option env :=
  match params, args with
  | [], [] => Some []
  | p :: params, v :: args =>
      match arguments T params args with
      | Some rest => Some ((pa_name p, coerce T (pa_type p) v) :: rest)
      | None => None
      end
  | _, _ => None
  end.

Definition finals (params : list param) (vars : env) : list (option value) :=
  map (fun p => if pa_mut p then get (pa_name p) vars else None) params.

(** A call, given how the calls in its body are made. *)
Definition apply_fn (c : config) (T : uint)
    (call : name -> callee -> list value -> list value -> outcome (value * list (option value)))
    (f : func) (generics args : list value) : outcome (value * list (option value)) :=
  match arguments T (fn_params f) args with
  | None => UB
  | Some vars =>
      let vars := (vars ++ combine (fn_generics f) generics)%list in
      let cx := {| cx_config := c; cx_type := T; cx_owner := fn_owner f;
                   cx_error := fn_error f; cx_call := call |} in
      let finish v inner := Ret (v, finals (fn_params f) (leave vars inner)) in
      eval cx (fn_body f) _ vars finish
        (fun x inner => match x with XReturn v => finish v inner | _ => UB end)
  end.

(** Calls a function of the program; [depth] bounds the recursion. *)
Fixpoint run (program : list func) (c : config) (T : uint) (depth : nat)
    (owner : name) (callee : callee) (generics args : list value)
  : outcome (value * list (option value)) :=
  match depth with
  | O => Hang
  | S depth =>
      match find_fn program owner callee with
      | None => UB
      | Some f => apply_fn c T (run program c T depth) f generics args
      end
  end.

(** *** Results *)

Definition error_value (T : uint) (e : error) : value :=
  match e with
  | NoZeroSymbol => VCon #"NoZeroSymbol" []
  | OutOfMemory n => VCon #"OutOfMemory" [VInt (Some T) n]
  | OutOfBounds n => VCon #"OutOfBounds" [VInt (Some T) n]
  end.

Definition result_value (T : uint) (r : result nominal_string error) : value :=
  match r with
  | Ok s => v_ok (VString s)
  | Err e => v_err (error_value T e)
  end.

(** What the method [try_format_nominal] in a text does with [self] and
    [nominal]. *)
Definition run_source (source : string) (c : config) (T : uint) (depth : nat)
    (generics : list value) (self : value) (nominal : N) : outcome value :=
  '(v, _) <- run (parse source) c T depth #"" (Named #"try_format_nominal") generics
               [self; VInt (Some T) nominal] ;;
  Ret v.

(** The same in a text with several systems. *)
Definition run_system (source : string) (system : name) (c : config) (T : uint) (depth : nat)
    (generics : list value) (self : value) (nominal : N) : outcome value :=
  '(v, _) <- run (parse source) c T depth #"" (Path [system; #"try_format_nominal"]) generics
               [self; VInt (Some T) nominal] ;;
  Ret v.
