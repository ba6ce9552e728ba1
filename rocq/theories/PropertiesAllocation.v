(** * PropertiesAllocation: C96, C97, the calls to the allocator *)

From Verif Require Import Prelude Utf8Facts StringFacts NominalString Spec History HeapMemory Cases PropertiesHeap.

(** ** What is meant *)

(** Of each variable only the number of bytes counts, and the capacity of
    its string if it has one on the heap. *)
Record slot := {
  a_string : bool;
  size : N;
  room : option N
}.

Definition slots := nat -> option slot.

Definition place (ss : slots) (x : nat) (s : option slot) : slots :=
  fun y => if Nat.eqb y x then s else ss y.

Definition bytes_added (o : op) : N :=
  match o with
  | Push ch | PushFront ch => N.of_nat (length (encode_char ch))
  | PushStr bs => N.of_nat (length bs)
  | Edit _ => 0
  end.

(** One block of [n] bytes, or none for no bytes. *)
Definition fresh (n : N) : option call := if n =? 0 then None else Some (Allocate n).

Definition given_up (s : option slot) : list call :=
  match s with
  | Some {| room := Some c |} => if c =? 0 then [] else [Deallocate c]
  | _ => []
  end.

(** A call that may be refused, the sizes after the statement if it is not,
    and the calls after that. [grow] is the capacity that replaces a smaller
    one. *)
Definition effect (grow : N -> N -> N) (ss : slots) (i : statement) : option call * slots * list call :=
  match i with
  | Let x k =>
      let (request, s) :=
        match k with
        | FromNew | FromNewReverse => (None, {| a_string := false; size := 0; room := None |})
        | FromOneChar ch => (None, {| a_string := false; size := N.of_nat (length (encode_char ch)); room := None |})
        | FromText bs =>
            let n := N.of_nat (length bs) in
            if n <=? 62 then (None, {| a_string := false; size := n; room := None |})
            else (Some (Allocate n), {| a_string := false; size := n; room := Some n |})
        | NewString bs spare =>
            let n := N.of_nat (length bs) in
            (fresh (n + spare), {| a_string := true; size := n; room := Some (n + spare) |})
        end in
      (request, place ss x (Some s), given_up (ss x))
  | Change x o =>
      match ss x with
      | Some {| a_string := false; size := old; room := None |} =>
          let n := old + bytes_added o in
          if n <=? 62 then (None, place ss x (Some {| a_string := false; size := n; room := None |}), [])
          else (Some (Allocate n), place ss x (Some {| a_string := false; size := n; room := Some n |}), [])
      | Some {| a_string := false; size := old; room := Some c |} =>
          let n := old + bytes_added o in
          if n <=? c then (None, place ss x (Some {| a_string := false; size := n; room := Some c |}), [])
          else (Some (if c =? 0 then Allocate (grow c n) else Reallocate c (grow c n)),
                place ss x (Some {| a_string := false; size := n; room := Some (grow c n) |}), [])
      | _ => (None, ss, [])
      end
  | CloneInto x y =>
      match ss x with
      | Some {| a_string := b; size := n; room := None |} => (None, place ss y (ss x), given_up (ss y))
      | Some {| a_string := b; size := n; room := Some _ |} =>
          (fresh n, place ss y (Some {| a_string := b; size := n; room := Some n |}), given_up (ss y))
      | None => (None, ss, [])
      end
  | IntoString x y =>
      match ss x with
      | Some {| a_string := false; size := n; room := r |} =>
          let after := place ss x None in
          (match r with None => fresh n | Some _ => None end,
           place after y (Some {| a_string := true; size := n; room := Some match r with None => n | Some c => c end |}), given_up (after y))
      | _ => (None, ss, [])
      end
  | TryIntoString x y =>
      match ss x with
      | Some {| a_string := false; size := n; room := Some c |} =>
          let after := place ss x None in
          (None, place after y (Some {| a_string := true; size := n; room := Some c |}), given_up (after y))
      | _ => (None, ss, [])
      end
  | FromString x y =>
      match ss x with
      | Some {| a_string := true; size := n; room := r |} =>
          let after := place ss x None in
          (None, place after y (Some {| a_string := false; size := n; room := r |}), given_up (after y))
      | _ => (None, ss, [])
      end
  | Move x y =>
      match ss x with
      | Some s => let after := place ss x None in (None, place after y (Some s), given_up (after y))
      | None => (None, ss, [])
      end
  | DropVar x => (None, place ss x None, given_up (ss x))
  end.

(** Too much is never asked for; otherwise the allocator decides. *)
Definition answer (pf : platform) (cs : list call) (request : option call) : option stop :=
  match request with
  | None => None
  | Some k =>
      let n := match k with Allocate n | Reallocate _ n | Deallocate n => n end in
      if isize_max (target pf) <? n then Some CapacityOverflow
      else if grants pf cs k then None else Some AllocError
  end.

Definition made (request : option call) : list call := match request with Some k => [k] | None => [] end.

Definition taken_away (ss : slots) (i : statement) : slots :=
  match i with IntoString x _ => place ss x None | _ => ss end.

Fixpoint traffic (pf : platform) (ss : slots) (cs : list call) (p : list statement) : slots * list call * list (option stop) :=
  match p with
  | [] => (ss, cs, [])
  | i :: p =>
      let '(request, after, released) := effect (grow pf) ss i in
      let '(ss', cs') :=
        match answer pf cs request with
        | None => (after, cs ++ made request ++ released)
        | Some _ => (taken_away ss i, cs)
        end in
      let '(ss'', cs'', ws) := traffic pf ss' cs' p in
      (ss'', cs'', answer pf cs request :: ws)
  end.

(** What is seen of a value. *)
Definition slot_of (v : value) : slot :=
  match v with
  | ANominal (HInline i) => {| a_string := false; size := inline_len i; room := None |}
  | ANominal (HHeap s) => {| a_string := false; size := len s; room := Some (capacity s) |}
  | AString s => {| a_string := true; size := len s; room := Some (capacity s) |}
  end.

(** ** Proofs *)

Definition asks {A} (pf : platform) (f : action A) (request : option call) (released : list call) (post : A -> Prop) : Prop := forall m,
  match f m with
  | Done m' a => answer pf (calls m) request = None /\ calls m' = calls m ++ made request ++ released /\ post a
  | Stopped m' why => answer pf (calls m) request = Some why /\ calls m' = calls m
  | Undefined => True
  end.

Lemma asks_weaken {A} pf (f : action A) request released (post post' : A -> Prop) :
  asks pf f request released post -> (forall a, post a -> post' a) -> asks pf f request released post'.
Proof. intros H Hp m. specialize (H m). destruct (f m); [|exact H|exact I]. destruct H as (H1 & H2 & H3). auto. Qed.

Lemma asks_done {A} pf (a : A) (post : A -> Prop) : post a -> asks pf (done a) None [] post.
Proof. intros H m. cbn. rewrite app_nil_r. auto. Qed.

Lemma asks_undefined {A} pf request released (post : A -> Prop) : asks pf undefined request released post.
Proof. intros m. exact I. Qed.

Lemma asks_pure {A} pf (o : outcome A) (post : A -> Prop) : (exists a, o = Ret a /\ post a) \/ o = UB -> asks pf (pure o) None [] post.
Proof. intros [(a & -> & H)| ->]; [apply asks_done, H|apply asks_undefined]. Qed.

(** First the request, then what asks for nothing. *)
Lemma asks_first {A B} pf (f : action A) (k : A -> action B) request released post post' :
  asks pf f request [] post -> (forall a, post a -> asks pf (k a) None released post') -> asks pf (and_then f k) request released post'.
Proof.
  intros Hf Hk m. specialize (Hf m). unfold and_then. destruct (f m) as [m1 a|m1 why|]; [|exact Hf|exact I].
  destruct Hf as (H1 & H2 & H3). specialize (Hk a H3 m1). destruct (k a m1) as [m2 b|m2 why|]; [| |exact I].
  - destruct Hk as (_ & H4 & H5). split; [exact H1|]. split; [|exact H5]. rewrite H4, H2, app_nil_r, <- app_assoc. reflexivity.
  - destruct Hk as [[=] _].
Qed.

Lemma asks_later {A B} pf (f : action A) (k : A -> action B) request released post post' :
  asks pf f None [] post -> (forall a, post a -> asks pf (k a) request released post') -> asks pf (and_then f k) request released post'.
Proof.
  intros Hf Hk m. specialize (Hf m). unfold and_then. destruct (f m) as [m1 a|m1 why|]; [| |exact I].
  - destruct Hf as (_ & H2 & H3). cbn [made app] in H2. rewrite app_nil_r in H2. specialize (Hk a H3 m1). rewrite H2 in Hk. exact Hk.
  - destruct Hf as [[=] _].
Qed.

Lemma asks_last {A B} pf (f : action A) (k : A -> action B) request released post post' :
  asks pf f request released post -> (forall a, post a -> asks pf (k a) None [] post') -> asks pf (and_then f k) request released post'.
Proof.
  intros Hf Hk m. specialize (Hf m). unfold and_then. destruct (f m) as [m1 a|m1 why|]; [|exact Hf|exact I].
  destruct Hf as (H1 & H2 & H3). specialize (Hk a H3 m1). destruct (k a m1) as [m2 b|m2 why|]; [| |exact I].
  - destruct Hk as (_ & H4 & H5). split; [exact H1|]. split; [|exact H5]. rewrite H4, H2, app_nil_r. reflexivity.
  - destruct Hk as [[=] _].
Qed.

Lemma asks_allocate pf n cells0 k : match k with Allocate s | Reallocate _ s => s = n | Deallocate _ => False end ->
  asks pf (allocate pf n cells0 k) (Some k) [] (fun _ => True).
Proof.
  intros Hk m. unfold allocate, answer. assert (match k with Allocate s | Reallocate _ s | Deallocate s => s end = n) as -> by (destruct k; tauto). cbn zeta.
  destruct (isize_max (target pf) <? n); [auto|]. destruct (grants pf (calls m) k); [|auto]. cbn [calls made app]. auto.
Qed.

Lemma asks_block pf p (post : list cell -> Prop) : (forall b, post b) -> asks pf (block p) None [] post.
Proof. intros Hp m. unfold block. destruct (nth_error (blocks m) p) as [[b|]|]; [|exact I|exact I]. cbn. rewrite app_nil_r. auto. Qed.

Lemma asks_set_block pf p b : asks pf (set_block p b) None [] (fun _ => True).
Proof. intros m. cbn. rewrite app_nil_r. auto. Qed.

Lemma asks_reallocate pf p from to : asks pf (reallocate pf p from to) (Some (Reallocate from to)) [] (fun _ => True).
Proof.
  unfold reallocate. eapply (asks_later _ _ _ _ _ (fun _ => True)); [apply asks_block; auto|]. intros b _. destruct (N.of_nat (length b) =? from); [|apply asks_undefined].
  eapply (asks_first _ _ _ _ _ (fun _ => True)); [apply asks_allocate; reflexivity|]. intros q _.
  eapply (asks_first _ _ _ _ _ (fun _ => True)); [apply asks_set_block|]. intros u _. apply asks_done. exact I.
Qed.

Lemma asks_deallocate pf p n : asks pf (deallocate p n) None [Deallocate n] (fun _ => True).
Proof.
  unfold deallocate. eapply (asks_later _ _ _ _ _ (fun _ => True)); [apply asks_block; auto|]. intros b _. destruct (N.of_nat (length b) =? n); [|apply asks_undefined].
  eapply (asks_later _ _ _ _ _ (fun _ => True)); [apply asks_set_block|]. intros u _ m. cbn. auto.
Qed.

Lemma asks_with_capacity pf n : asks pf (with_capacity pf n) (fresh n) [] (fun s => capacity s = n /\ len s = 0).
Proof.
  unfold with_capacity, fresh. destruct (N.eqb_spec n 0) as [->|]; [apply asks_done; auto|].
  eapply (asks_first _ _ _ _ _ (fun _ => True)); [apply asks_allocate; reflexivity|]. intros p _. apply asks_done. auto.
Qed.

Lemma asks_write_at pf s off bs : asks pf (write_at s off bs) None [] (fun _ => True).
Proof.
  destruct bs as [|b0 bs]; [apply asks_done; exact I|]. unfold write_at. eapply (asks_later _ _ _ _ _ (fun _ => True)); [apply asks_block; auto|]. intros b _.
  eapply (asks_later _ _ _ _ _ (fun _ => True)); [|intros b' _; apply asks_set_block]. apply asks_pure. unfold raw_copy.
  destruct (N.to_nat off + length (b0 :: bs) <=? length b)%nat; [left; eauto|right; reflexivity].
Qed.

Lemma asks_move_to pf s off : asks pf (move_to s off) None [] (fun _ => True).
Proof.
  unfold move_to. destruct (len s =? 0); [apply asks_done; exact I|]. eapply (asks_later _ _ _ _ _ (fun _ => True)); [apply asks_block; auto|]. intros b _.
  destruct (off + len s <=? N.of_nat (length b)); [apply asks_set_block|apply asks_undefined].
Qed.

(** What is asked for so that [n] bytes fit in place of [c]. *)
Definition more (grow : N -> N -> N) (c n : N) : option call :=
  if n <=? c then None else Some (if c =? 0 then Allocate (grow c n) else Reallocate c (grow c n)).

Definition then_room (grow : N -> N -> N) (c n : N) : N := if n <=? c then c else grow c n.

Lemma asks_reserve pf s n : valid_platform pf -> len s <= capacity s ->
  asks pf (reserve pf s n) (more (grow pf) (capacity s) (len s + n)) []
    (fun s' => capacity s' = then_room (grow pf) (capacity s) (len s + n) /\ len s' = len s).
Proof.
  intros (Hc & _ & Hg) Hle. unfold reserve, more, then_room.
  destruct (N.leb_spec n (capacity s - len s)) as [Hn|Hn]; destruct (N.leb_spec (len s + n) (capacity s)) as [Hn'|Hn']; try lia; [apply asks_done; auto|].
  cbn zeta. specialize (Hg (capacity s) (len s + n)). set (size := grow pf _ _) in *.
  destruct (N.leb_spec (2 ^ usize_bits (target pf)) (len s + n)) as [Hbig|_].
  - intros m. cbn [stopped]. unfold stopped. split; [|reflexivity]. unfold answer.
    assert (match (if capacity s =? 0 then Allocate size else Reallocate (capacity s) size) with Allocate k | Reallocate _ k | Deallocate k => k end = size) as -> by (destruct (capacity s =? 0); reflexivity).
    cbn zeta. destruct (N.ltb_spec (isize_max (target pf)) size) as [_|Hx]; [reflexivity|exfalso].
    unfold isize_max in Hx. destruct Hc as [[Hu|[Hu|Hu]] _]; rewrite Hu in Hx, Hbig; cbn in Hx, Hbig; lia.
  - eapply (asks_first _ _ _ _ _ (fun _ => True)); [|intros p _; apply asks_done; auto].
    destruct (capacity s =? 0); [apply asks_allocate; reflexivity|apply asks_reallocate].
Qed.

Lemma asks_append pf s bs : valid_platform pf -> len s <= capacity s -> forall n, n = len s + N.of_nat (length bs) ->
  asks pf (append pf s bs) (more (grow pf) (capacity s) n) []
    (fun s' => capacity s' = then_room (grow pf) (capacity s) n /\ len s' = n).
Proof.
  intros Hp Hle n ->. unfold append. eapply asks_first; [apply asks_reserve; assumption|]. intros s1 [H1 H2].
  eapply (asks_first _ _ _ _ _ (fun _ => True)); [apply asks_write_at|]. intros u _. apply asks_done. cbn [with_len capacity len]. rewrite H1, H2. auto.
Qed.

Lemma asks_prepend pf s bs : valid_platform pf -> len s <= capacity s -> forall n, n = len s + N.of_nat (length bs) ->
  asks pf (prepend pf s bs) (more (grow pf) (capacity s) n) []
    (fun s' => capacity s' = then_room (grow pf) (capacity s) n /\ len s' = n).
Proof.
  intros Hp Hle n ->. unfold prepend. eapply asks_first; [apply asks_reserve; assumption|]. intros s1 [H1 H2].
  eapply (asks_first _ _ _ _ _ (fun _ => True)); [apply asks_move_to|]. intros u0 _.
  eapply (asks_first _ _ _ _ _ (fun _ => True)); [apply asks_write_at|]. intros u _. apply asks_done. cbn [with_len capacity len]. rewrite H1, H2. auto.
Qed.

(** There is room already. *)
Lemma asks_append_quiet pf s bs : valid_platform pf -> len s + N.of_nat (length bs) <= capacity s ->
  asks pf (append pf s bs) None [] (fun s' => capacity s' = capacity s /\ len s' = len s + N.of_nat (length bs)).
Proof.
  intros Hp Hle. pose proof (asks_append pf s bs Hp ltac:(lia) _ eq_refl) as H. unfold more, then_room in H.
  destruct (N.leb_spec (len s + N.of_nat (length bs)) (capacity s)) as [_|]; [exact H|lia].
Qed.

Lemma asks_string_str pf s : asks pf (string_str s) None [] (fun bs => N.of_nat (length bs) = len s).
Proof.
  unfold string_str. destruct (N.eqb_spec (len s) 0) as [E|]; [apply asks_done; rewrite E; reflexivity|].
  eapply (asks_later _ _ _ _ _ (fun _ => True)); [apply asks_block; auto|]. intros b _.
  eapply (asks_later _ _ _ _ _ (fun bs => N.of_nat (length bs) = len s)).
  - apply asks_pure. unfold read_bytes. destruct (Nat.leb_spec (0 + N.to_nat (len s)) (length b)) as [Hle|]; [|right; reflexivity].
    destruct (all_init (window b 0 (N.to_nat (len s)))) as [bs|] eqn:E; [|right; reflexivity]. left. exists bs. split; [reflexivity|].
    assert (forall cs bs, all_init cs = Some bs -> length bs = length cs) as Hi.
    { clear. induction cs as [|[c|] cs IH]; intros bs H; cbn in H; [injection H as <-; reflexivity| |discriminate].
      destruct (all_init cs) as [l|]; [|discriminate]. injection H as <-. cbn. f_equal. apply IH. reflexivity. }
    rewrite (Hi _ _ E). unfold window. cbn [skipn]. rewrite firstn_length. lia.
  - intros bs Hl. destruct (valid_utf8 bs); [apply asks_done, Hl|apply asks_undefined].
Qed.

Lemma asks_string_from pf bs : valid_platform pf ->
  asks pf (string_from pf bs) (fresh (N.of_nat (length bs))) [] (fun s => capacity s = N.of_nat (length bs) /\ len s = N.of_nat (length bs)).
Proof.
  intros Hp. unfold string_from. eapply asks_first; [apply asks_with_capacity|]. intros s [H1 H2].
  eapply asks_weaken; [apply asks_append_quiet; [exact Hp|lia]|]. cbn beta. intros s' [H3 H4]. lia.
Qed.

Lemma asks_string_clone pf s : valid_platform pf ->
  asks pf (string_clone pf s) (fresh (len s)) [] (fun s' => capacity s' = len s /\ len s' = len s).
Proof.
  intros Hp. unfold string_clone. eapply asks_later; [apply asks_string_str|]. intros bs Hl. cbn beta in Hl. rewrite <- Hl. apply asks_string_from, Hp.
Qed.

Lemma asks_string_drop pf s b : asks pf (string_drop s) None (given_up (Some {| a_string := b; size := len s; room := Some (capacity s) |})) (fun _ => True).
Proof.
  unfold string_drop, given_up. destruct (capacity s =? 0); [apply asks_done; exact I|apply asks_deallocate].
Qed.

Lemma asks_value_drop pf v : asks pf (value_drop v) None (given_up (Some (slot_of v))) (fun _ => True).
Proof.
  destruct v as [[i|s]|s]; cbn [value_drop held_drop slot_of]; [apply asks_done; exact I|apply asks_string_drop|apply asks_string_drop].
Qed.

Definition fits (st : variables) (ss : slots) : Prop := forall x, ss x = option_map slot_of (st x).

Lemma fits_set st ss x v : fits st ss -> fits (set_var st x v) (place ss x (option_map slot_of v)).
Proof. intros H y. unfold set_var, place. destruct (Nat.eqb y x); [reflexivity|apply H]. Qed.

Lemma asks_assign pf st ss y v s : fits st ss -> s = slot_of v ->
  asks pf (assign st y v) None (given_up (ss y)) (fun st' => fits st' (place ss y (Some s))).
Proof.
  intros H ->. unfold assign. rewrite (H y). destruct (st y) as [old|].
  - cbn [option_map]. eapply (asks_last _ _ _ _ _ (fun _ => True)); [apply asks_value_drop|]. intros u _. apply asks_done. apply (fits_set _ _ _ (Some v)), H.
  - apply asks_done. apply (fits_set _ _ _ (Some v)), H.
Qed.

(** What is needed of a string to know what is asked for. *)
Definition sound (c : config) (v : value) : Prop :=
  match v with
  | ANominal (HInline i) => exists t, good c (Inline i) t /\ at_most_62 t = true
  | ANominal (HHeap s) | AString s => len s <= capacity s
  end.

Lemma matches_sound c m v d : matches c m v d -> sound c v.
Proof.
  intros Hm. destruct v as [[i|s]|s]; cbn [sound].
  - exists (text d). apply Hm.
  - apply (matches_room _ _ _ _ _ Hm eq_refl).
  - apply (matches_room _ _ _ _ _ Hm eq_refl).
Qed.

(** A string that takes two texts and has room for both. *)
Lemma asks_two pf n a b old : valid_platform pf -> n = N.of_nat (length a) + N.of_nat (length b) -> n <> 0 -> old = Ret a ->
  asks pf (string <~ with_capacity pf n ;; str <~ pure old ;; string <~ append pf string str ;; string <~ append pf string b ;; done (HHeap string, @Ok unit out_of_memory tt))
    (Some (Allocate n)) [] (fun r => slot_of (ANominal (fst r)) = {| a_string := false; size := n; room := Some n |}).
Proof.
  intros Hp En Hn ->. assert (Some (Allocate n) = fresh n) as -> by (unfold fresh; destruct (N.eqb_spec n 0); [contradiction|reflexivity]).
  eapply asks_first; [apply asks_with_capacity|]. intros s [H1 H2].
  eapply (asks_later _ _ _ _ _ (fun x => x = a)); [apply asks_done; reflexivity|]. intros x ->.
  eapply asks_later; [apply asks_append_quiet; [exact Hp|lia]|]. cbn beta. intros s' [H3 H4].
  eapply asks_later; [apply asks_append_quiet; [exact Hp|lia]|]. cbn beta. intros s'' [H5 H6]. apply asks_done. cbn [fst slot_of]. f_equal; [|f_equal]; lia.
Qed.

Lemma asks_two_front pf n a b old : valid_platform pf -> n = N.of_nat (length a) + N.of_nat (length b) -> n <> 0 -> old = Ret a ->
  asks pf (string <~ with_capacity pf n ;; string <~ append pf string b ;; str <~ pure old ;; string <~ append pf string str ;; done (HHeap string, @Ok unit out_of_memory tt))
    (Some (Allocate n)) [] (fun r => slot_of (ANominal (fst r)) = {| a_string := false; size := n; room := Some n |}).
Proof.
  intros Hp En Hn ->. assert (Some (Allocate n) = fresh n) as -> by (unfold fresh; destruct (N.eqb_spec n 0); [contradiction|reflexivity]).
  eapply asks_first; [apply asks_with_capacity|]. intros s [H1 H2].
  eapply asks_later; [apply asks_append_quiet; [exact Hp|lia]|]. cbn beta. intros s' [H3 H4].
  eapply (asks_later _ _ _ _ _ (fun x => x = a)); [apply asks_done; reflexivity|]. intros x ->.
  eapply asks_later; [apply asks_append_quiet; [exact Hp|lia]|]. cbn beta. intros s'' [H5 H6]. apply asks_done. cbn [fst slot_of]. f_equal; [|f_equal]; lia.
Qed.

(** What [Change] asks for and makes of a string. *)
Definition change_effect (grow : N -> N -> N) (s : slot) (added : N) : option call * slot :=
  let n := size s + added in
  match room s with
  | None =>
      if n <=? 62 then (None, {| a_string := false; size := n; room := None |})
      else (Some (Allocate n), {| a_string := false; size := n; room := Some n |})
  | Some c => (more grow c n, {| a_string := false; size := n; room := Some (then_room grow c n) |})
  end.

Lemma inline_stays pf i o t s' : good (target pf) s' (op_text t o) -> inline_len i = N.of_nat (length t) -> valid_op o -> valid_utf8 t = true -> forall i', s' = Inline i' ->
  inline_len i' = inline_len i + bytes_added o.
Proof.
  intros Hg El Ho Hv i' ->. destruct (inline_facts _ _ _ Hg) as (_ & -> & _). rewrite El. destruct o as [ch|bs|ch|f]; cbn [op_text bytes_added]; rewrite ?app_length; try lia.
  destruct (Ho t Hv) as [_ ->]. lia.
Qed.

Lemma asks_change pf v o : valid_platform pf -> sound (target pf) (ANominal v) -> valid_op o ->
  match o with PushStr bs => N.of_nat (length bs) <= isize_max (target pf) | _ => True end ->
  asks pf (change pf v o) (fst (change_effect (grow pf) (slot_of (ANominal v)) (bytes_added o))) []
    (fun v' => slot_of (ANominal v') = snd (change_effect (grow pf) (slot_of (ANominal v)) (bytes_added o))).
Proof.
  intros Hp Hs Ho Hmax.
  assert (forall (f : action (held * result unit out_of_memory)) k req (post : held -> Prop),
    (forall r, k r = @done held (fst r)) -> asks pf f req [] (fun r => post (fst r)) -> asks pf (and_then f k) req [] post) as Hmap.
  { intros f k req post Hk Hf. eapply asks_first; [exact Hf|]. intros r Hr. rewrite Hk. apply asks_done, Hr. }
  destruct v as [i|s]; cbn [sound] in Hs.
  - destruct Hs as (t & Hg & H62). pose proof Hp as (Hc & Ha & Hgrow). destruct (inline_facts _ _ _ Hg) as (Es & El & Hv).
    destruct (inline_step _ _ _ o Ha Hg Ho) as (s' & E & Hg' & Hi). pose proof (inline_stays pf i o t s' Hg' El Ho Hv) as Hst.
    assert (inline_len i <= 62) as Hle by (unfold at_most_62 in H62; apply Nat.leb_le in H62; lia).
    unfold change_effect. cbn [slot_of size room].
    destruct o as [ch|bs|ch|f]; cbn [change bytes_added step] in *.
    + apply Hmap; [intros [? ?]; reflexivity|]. unfold held_push.
      assert (len_utf8 ch <= 4) as H4 by (pose proof (len_utf8_bounds ch); lia).
      assert (N.of_nat (length (encode_char ch)) = len_utf8 ch) as Hlen by (rewrite encode_char_length_nat; lia). rewrite Hlen in *.
      eapply (asks_later _ _ _ _ _ (fun x => x = len_utf8 ch)); [apply asks_pure; left; eexists; split; [apply char_len_ok|reflexivity]|]. intros x ->. cbn zeta.
      eapply (asks_later _ _ _ _ _ (fun x => x = inline_len i + len_utf8 ch)); [apply asks_pure; left; eexists; split; [apply (uadd_8 (target pf) _ _ Hle H4)|reflexivity]|]. intros x ->.
      unfold try_push in E. rewrite char_len_ok in E. cbn [obind] in E. rewrite (uadd_8 (target pf) _ _ Hle H4) in E. cbn [obind] in E. unfold INLINE_CAPACITY in *.
      destruct (N.leb_spec (inline_len i + len_utf8 ch) 62).
      * destruct (inline_push i ch (len_utf8 ch) (inline_len i) (inline_len i + len_utf8 ch)) as [i'| | |]; cbn [obind] in E; try discriminate. injection E as <-.
        apply (asks_done pf (HInline i', Ok tt)). cbn [fst slot_of]. rewrite (Hst i' eq_refl). reflexivity.
      * eapply asks_two; [exact Hp| |lia|exact Es]. lia.
    + apply Hmap; [intros [? ?]; reflexivity|]. unfold held_push_str. cbn zeta. unfold try_push_str in E. cbn zeta in E. rewrite Ha, Es in E. cbn [obind] in E. unfold INLINE_CAPACITY in *.
      assert (uadd (target pf) (usize_bits (target pf)) (inline_len i) (N.of_nat (length bs)) = Ret (inline_len i + N.of_nat (length bs))) as Eu.
      { unfold uadd. destruct (N.ltb_spec (inline_len i + N.of_nat (length bs)) (2 ^ usize_bits (target pf))) as [_|Hx]; [reflexivity|exfalso].
        unfold isize_max in Hmax. destruct Hc as [[Hu|[Hu|Hu]] _]; rewrite Hu in Hmax, Hx; cbn in Hmax, Hx; lia. }
      destruct (N.leb_spec (inline_len i + N.of_nat (length bs)) 62).
      * destruct (N.ltb_spec (N.of_nat (length bs)) 256); [|lia]. destruct (N.ltb_spec (inline_len i + N.of_nat (length bs)) 256); [|lia]. cbn [andb] in *.
        destruct (inline_push_str i bs (inline_len i + N.of_nat (length bs))) as [i'| | |]; cbn [obind] in E; try discriminate. injection E as <-.
        apply (asks_done pf (HInline i', Ok tt)). cbn [fst slot_of]. rewrite (Hst i' eq_refl). reflexivity.
      * rewrite andb_false_r. eapply (asks_later _ _ _ _ _ (fun x => x = inline_len i + N.of_nat (length bs))); [apply asks_pure; left; eexists; split; [exact Eu|reflexivity]|]. intros x ->.
        eapply asks_two; [exact Hp| |lia|exact Es]. lia.
    + apply Hmap; [intros [? ?]; reflexivity|]. unfold held_push_front.
      assert (len_utf8 ch <= 4) as H4 by (pose proof (len_utf8_bounds ch); lia).
      assert (N.of_nat (length (encode_char ch)) = len_utf8 ch) as Hlen by (rewrite encode_char_length_nat; lia). rewrite Hlen in *.
      eapply (asks_later _ _ _ _ _ (fun x => x = len_utf8 ch)); [apply asks_pure; left; eexists; split; [apply char_len_ok|reflexivity]|]. intros x ->. cbn zeta.
      eapply (asks_later _ _ _ _ _ (fun x => x = inline_len i + len_utf8 ch)); [apply asks_pure; left; eexists; split; [apply (uadd_8 (target pf) _ _ Hle H4)|reflexivity]|]. intros x ->.
      unfold try_push_front in E. rewrite char_len_ok in E. cbn [obind] in E. rewrite (uadd_8 (target pf) _ _ Hle H4) in E. cbn [obind] in E. unfold INLINE_CAPACITY in *.
      destruct (N.leb_spec (inline_len i + len_utf8 ch) 62).
      * destruct (inline_push_front i ch (len_utf8 ch) (inline_len i) (inline_len i + len_utf8 ch)) as [i'| | |]; cbn [obind] in E; try discriminate. injection E as <-.
        apply (asks_done pf (HInline i', Ok tt)). cbn [fst slot_of]. rewrite (Hst i' eq_refl). reflexivity.
      * eapply asks_two_front; [exact Hp| |lia|exact Es]. lia.
    + rewrite N.add_0_r in *. destruct (N.leb_spec (inline_len i) 62); [|lia]. unfold held_edit.
      destruct (edit_str (Inline i) f) as [s1| | |] eqn:Ee; cbn [obind] in E; try discriminate. injection E as <-.
      destruct s1 as [i'|]; [|apply asks_undefined]. apply (asks_done pf (HInline i')). cbn [slot_of snd]. rewrite (Hst i' eq_refl). reflexivity.
  - unfold change_effect. cbn [slot_of size room fst snd].
    destruct o as [ch|bs|ch|f]; cbn [change bytes_added].
    + apply Hmap; [intros [? ?]; reflexivity|]. unfold held_push. eapply asks_first; [apply asks_append; [exact Hp|exact Hs|reflexivity]|].
      intros s' [H1 H2]. apply asks_done. cbn [fst slot_of]. rewrite H1, H2. reflexivity.
    + apply Hmap; [intros [? ?]; reflexivity|]. unfold held_push_str. eapply asks_first; [apply asks_append; [exact Hp|exact Hs|reflexivity]|].
      intros s' [H1 H2]. apply asks_done. cbn [fst slot_of]. rewrite H1, H2. reflexivity.
    + apply Hmap; [intros [? ?]; reflexivity|]. unfold held_push_front. eapply asks_first; [apply asks_prepend; [exact Hp|exact Hs|reflexivity]|].
      intros s' [H1 H2]. apply asks_done. cbn [fst slot_of]. rewrite H1, H2. reflexivity.
    + rewrite N.add_0_r. unfold more, then_room. destruct (N.leb_spec (len s) (capacity s)); [|lia]. unfold held_edit.
      eapply (asks_later _ _ _ _ _ (fun _ => True)); [eapply asks_weaken; [apply asks_string_str|auto]|]. intros old _. cbn zeta.
      destruct (valid_utf8 (f old) && (length (f old) =? length old)%nat); [|apply asks_undefined].
      eapply (asks_later _ _ _ _ _ (fun _ => True)); [apply asks_write_at|]. intros u _. apply asks_done. reflexivity.
Qed.

Definition made_slot (k : source) : option call * slot :=
  match k with
  | FromNew | FromNewReverse => (None, {| a_string := false; size := 0; room := None |})
  | FromOneChar ch => (None, {| a_string := false; size := N.of_nat (length (encode_char ch)); room := None |})
  | FromText bs =>
      let n := N.of_nat (length bs) in
      if n <=? 62 then (None, {| a_string := false; size := n; room := None |})
      else (Some (Allocate n), {| a_string := false; size := n; room := Some n |})
  | NewString bs spare =>
      let n := N.of_nat (length bs) in
      (fresh (n + spare), {| a_string := true; size := n; room := Some (n + spare) |})
  end.

(** On targets with a heap no error is returned. *)
Definition no_error {A B E} (f : action (A * result B E)) : Prop := forall m,
  match f m with Done _ (_, Err _) => False | _ => True end.

Lemma no_error_then {A B C E} (f : action A) (k : A -> action (B * result C E)) : (forall a, no_error (k a)) -> no_error (and_then f k).
Proof. intros H m. unfold and_then. destruct (f m) as [m1 a| |]; [apply H|exact I|exact I]. Qed.

Lemma push_no_error pf v ch : no_error (held_push pf v ch).
Proof.
  unfold held_push. destruct v as [i|s].
  - apply no_error_then. intros a. cbn zeta. apply no_error_then. intros n. destruct (n <=? INLINE_CAPACITY); repeat (apply no_error_then; intros ?); intros m; exact I.
  - apply no_error_then. intros a m. exact I.
Qed.

Lemma asks_make pf k : valid_platform pf -> (forall x, valid_statement (target pf) (Let x k)) ->
  asks pf (make pf k) (fst (made_slot k)) [] (fun v => slot_of v = snd (made_slot k)).
Proof.
  intros Hp Hk. specialize (Hk 0%nat). destruct k as [| |ch|bs|bs spare]; cbn [make made_slot valid_statement fst snd] in *.
  - apply asks_done. reflexivity.
  - apply asks_done. reflexivity.
  - pose proof (asks_change pf (HInline {| length_byte := 0; cells := uninit_cells |}) (Push ch) Hp) as H. cbn [sound valid_op change bytes_added] in H.
    specialize (H ltac:(exists []; split; [apply (good_reads _ new []), new_rep|reflexivity]) Hk I). unfold change_effect in H.
    change (slot_of (ANominal (HInline {| length_byte := 0; cells := uninit_cells |}))) with {| a_string := false; size := 0; room := None |} in H. cbn [size room] in H. rewrite N.add_0_l in H.
    pose proof (len_utf8_bounds ch) as Hb. assert (N.of_nat (length (encode_char ch)) = len_utf8 ch) as Hlen by (rewrite encode_char_length_nat; lia).
    destruct (N.leb_spec (N.of_nat (length (encode_char ch))) 62); [|lia]. cbn [fst snd] in H.
    eapply asks_first; [|intros v Hv; apply asks_done; exact Hv].
    intros m. specialize (H m). pose proof (push_no_error pf (HInline {| length_byte := 0; cells := uninit_cells |}) ch m) as Hn. unfold held_from_char. unfold and_then in *.
    destruct (held_push pf _ ch m) as [m1 [v [u|e]]|m1 why|]; [exact H|contradiction|exact H|exact I].
  - eapply asks_first; [|intros v Hv; apply asks_done; exact Hv]. unfold held_from_str. cbn zeta. unfold INLINE_CAPACITY.
    destruct (N.leb_spec (N.of_nat (length bs)) 62) as [Hle|Hgt]; cbn [fst snd].
    + pose proof (construct_spec (target pf) (FromStr bs) Hk) as H. destruct Hp as (_ & Ha & _). cbn [constructor_fits] in H. rewrite Ha in H. cbn [orb construct constructor_text] in H.
      destruct H as (s & E & Hgood & _). unfold from_str in E. cbn zeta in E. unfold INLINE_CAPACITY in E.
      destruct (N.ltb_spec (N.of_nat (length bs)) 256); [|lia]. destruct (N.leb_spec (N.of_nat (length bs)) 62); [|lia]. cbn [andb] in *.
      destruct (write_zip uninit_cells 0 (length bs) bs) as [cs| | |]; cbn [obind] in E; try discriminate. injection E as <-.
      destruct (inline_facts _ _ _ Hgood) as (_ & El & _). apply (asks_done pf (HInline {| length_byte := N.of_nat (length bs); cells := cs |})). cbn [slot_of]. rewrite El. reflexivity.
    + rewrite andb_false_r. assert (Some (Allocate (N.of_nat (length bs))) = fresh (N.of_nat (length bs))) as -> by (unfold fresh; destruct (N.eqb_spec (N.of_nat (length bs)) 0); [lia|reflexivity]).
      eapply asks_first; [apply asks_string_from, Hp|]. cbn beta. intros s [H1 H2]. apply asks_done. cbn [slot_of]. rewrite H1, H2. reflexivity.
  - eapply asks_first; [apply asks_with_capacity|]. intros s [H1 H2].
    eapply asks_first; [apply asks_append_quiet; [exact Hp|lia]|]. cbn beta. intros s' [H3 H4]. apply asks_done. cbn [slot_of]. f_equal; [|f_equal]; lia.
Qed.

Lemma fits_at st ss x v : fits st ss -> st x = Some v -> ss x = Some (slot_of v).
Proof. intros H E. rewrite H, E. reflexivity. Qed.

Lemma asks_execute pf st ss i : valid_platform pf -> valid_statement (target pf) i -> fits st ss -> (forall x v, st x = Some v -> sound (target pf) v) ->
  let '(request, after, released) := effect (grow pf) ss i in
  asks pf (execute pf st i) request released (fun st' => fits st' after).
Proof.
  intros Hp Hi Hf Hs.
  assert (forall x, fits (set_var st x None) (place ss x None)) as Hnone by (intros x; apply (fits_set st ss x None Hf)).
  destruct i as [x k|x o|x y|x y|x y|x y|x y|x]; cbn [effect execute].
  - pose proof (asks_make pf k Hp ltac:(intros x0; exact Hi)) as H. unfold made_slot in H.
    destruct k as [| |ch|bs|bs spare]; cbn zeta in *; [| | |destruct (N.of_nat (length bs) <=? 62)|]; cbn [fst snd] in H;
      (eapply asks_first; [exact H|]; intros v Hv; apply asks_assign; [exact Hf|symmetry; exact Hv]).
  - rewrite (Hf x). destruct (st x) as [[v|s]|] eqn:E; cbn [option_map].
    + pose proof (asks_change pf v o Hp (Hs x _ E) (proj1 Hi) (proj2 Hi)) as H. unfold change_effect in H.
      destruct v as [i|s]; cbn [slot_of size room] in *; cbn zeta in *.
      * destruct (inline_len i + bytes_added o <=? 62); cbn [fst snd] in H;
          (eapply asks_first; [exact H|]; cbn beta; intros v' Hv; apply asks_done; rewrite <- Hv; apply (fits_set st ss x (Some (ANominal v')) Hf)).
      * unfold more, then_room in H. destruct (len s + bytes_added o <=? capacity s); cbn [fst snd] in H;
          (eapply asks_first; [exact H|]; cbn beta; intros v' Hv; apply asks_done; rewrite <- Hv; apply (fits_set st ss x (Some (ANominal v')) Hf)).
    + apply asks_done, Hf.
    + apply asks_done, Hf.
  - rewrite (Hf x). destruct (st x) as [[[i|s]|s]|] eqn:E; cbn [option_map slot_of].
    + eapply (asks_first _ _ _ _ _ (fun v => v = HInline i)); [apply asks_done; reflexivity|]. intros v ->. apply asks_assign; [exact Hf|reflexivity].
    + cbn [held_clone]. eapply asks_first; [eapply asks_first; [apply asks_string_clone, Hp|]|].
      * intros s' Hs'. apply (asks_done pf (HHeap s') (fun v => exists s', v = HHeap s' /\ capacity s' = len s /\ len s' = len s)). eauto.
      * intros v (s' & -> & H1 & H2). apply asks_assign; [exact Hf|]. cbn [slot_of]. rewrite H1, H2. reflexivity.
    + eapply asks_first; [apply asks_string_clone, Hp|]. intros s' [H1 H2]. apply asks_assign; [exact Hf|]. cbn [slot_of]. rewrite H1, H2. reflexivity.
    + apply asks_done, Hf.
  - rewrite (Hf x). destruct (st x) as [[[i|s]|s]|] eqn:E; cbn [option_map slot_of]; cbn zeta.
    + cbn [held_into_string]. destruct (Hs x _ E) as (t & Hg & _). destruct (inline_facts _ _ _ Hg) as (Es & El & _). rewrite Es, El.
      eapply asks_first; [eapply (asks_later _ _ _ _ _ (fun bs => bs = t)); [apply asks_done; reflexivity|]; intros bs ->; apply asks_string_from, Hp|].
      cbn beta. intros s [H1 H2]. apply asks_assign; [apply Hnone|]. cbn [slot_of]. rewrite H1, H2. reflexivity.
    + cbn [held_into_string]. eapply (asks_first _ _ _ _ _ (fun s' => s' = s)); [apply asks_done; reflexivity|]. intros s' ->. apply asks_assign; [apply Hnone|reflexivity].
    + apply asks_done, Hf.
    + apply asks_done, Hf.
  - rewrite (Hf x). destruct (st x) as [[[i|s]|s]|] eqn:E; cbn [option_map slot_of]; cbn zeta; try (apply asks_done, Hf). apply asks_assign; [apply Hnone|reflexivity].
  - rewrite (Hf x). destruct (st x) as [[[i|s]|s]|] eqn:E; cbn [option_map slot_of]; cbn zeta; try (apply asks_done, Hf). apply asks_assign; [apply Hnone|reflexivity].
  - rewrite (Hf x). destruct (st x) as [v|] eqn:E; cbn [option_map]; cbn zeta; [|apply asks_done, Hf]. apply asks_assign; [apply Hnone|reflexivity].
  - rewrite (Hf x). destruct (st x) as [v|] eqn:E; cbn [option_map].
    + eapply (asks_last _ _ _ _ _ (fun _ => True)); [apply asks_value_drop|]. intros u _. apply asks_done. apply Hnone.
    + apply asks_done. intros y. unfold place. destruct (Nat.eqb_spec y x) as [->|]; [rewrite E; reflexivity|apply Hf].
Qed.

Lemma traffic_run pf p m st sp ss : valid_platform pf -> Forall (valid_statement (target pf)) p -> inv (target pf) m st sp None -> fits st ss ->
  match run_program pf m st p with
  | Some (m', st', ws) => exists ss', traffic pf ss (calls m) p = (ss', calls m', ws) /\ fits st' ss'
  | None => False
  end.
Proof.
  intros Hp Hall. revert m st sp ss. induction Hall as [|i p Hi _ IH]; intros m st sp ss Hinv Hf.
  - cbn [run_program traffic]. eauto.
  - cbn [run_program traffic].
    assert (forall x v, st x = Some v -> sound (target pf) v) as Hs.
    { intros x v E. destruct (inv_sp _ _ _ _ _ _ _ Hinv E) as (d & _ & Hm). eapply matches_sound, Hm. }
    pose proof (asks_execute pf st ss i Hp Hi Hf Hs) as Ha. destruct (effect (grow pf) ss i) as [[request after] released]. specialize (Ha m).
    pose proof (execute_inv pf m st sp i Hp Hi Hinv) as He.
    destruct (execute pf st i m) as [m1 st1|m1 why|]; [| |contradiction].
    + destruct Ha as (-> & Hc & Hf1). rewrite <- Hc. specialize (IH m1 st1 _ after He Hf1).
      destruct (run_program pf m1 st1 p) as [[[m' st'] ws]|]; [|contradiction]. destruct IH as (ss' & -> & H). eauto.
    + destruct Ha as [-> Hc]. destruct He as [-> He].
      assert (fits (after_panic st i) (taken_away ss i)) as Hf1 by (destruct i; cbn [after_panic taken_away]; try exact Hf; apply (fits_set st ss _ None Hf)).
      specialize (IH m _ _ _ He Hf1). destruct (run_program pf m (after_panic st i) p) as [[[m' st'] ws]|]; [|contradiction]. destruct IH as (ss' & -> & H). eauto.
Qed.

(** ** C96 *)

(** Exactly which calls are made, in which order, and which statements panic. *)
Theorem C96_allocator_calls pf p : valid_platform pf -> Forall (valid_statement (target pf)) p ->
  exists m st ss ws, run_program pf no_memory nothing p = Some (m, st, ws) /\
    traffic pf nothing [] p = (ss, calls m, ws) /\ (forall x, ss x = option_map slot_of (st x)).
Proof.
  intros Hp Hall. pose proof (traffic_run pf p no_memory nothing nothing nothing Hp Hall (inv_start _) (fun _ => eq_refl)) as H.
  destruct (run_program pf no_memory nothing p) as [[[m st] ws]|]; [|contradiction]. destruct H as (ss & H1 & H2). exists m, st, ss, ws. auto.
Qed.

Example C96_case :
  let '(ss, cs, ws) := traffic refuses_third nothing [] (sample_program ++ [Change 3 (PushStr (repeat 0x61 300))]) in
  (map ss (seq 0 5), cs, ws) =
  ([None; Some {| a_string := true; size := 63; room := Some 63 |}; None; None; None],
   [Allocate 63; Allocate 63; Deallocate 63; Allocate 63; Deallocate 63],
   [None; None; None; Some AllocError; None; Some AllocError; None; None; None; None; None]).
Proof. vm_compute. reflexivity. Qed.

Print Assumptions C96_allocator_calls.

(** ** C97 *)

Definition total_bytes (k : source) (os : list op) : N :=
  fold_left (fun n o => n + bytes_added o) os
    match k with
    | FromOneChar ch => N.of_nat (length (encode_char ch))
    | FromText bs | NewString bs _ => N.of_nat (length bs)
    | _ => 0
    end.

Lemma fold_bytes os n : n <= fold_left (fun n o => n + bytes_added o) os n.
Proof. revert n. induction os as [|o os IH]; intros n; cbn [fold_left]; [lia|]. specialize (IH (n + bytes_added o)). lia. Qed.

Definition growing (n : N) (r : option N) (cs : list call) : Prop :=
  match r with
  | None => n <= 62 /\ cs = []
  | Some c => 62 < n /\ n <= c <= 2 * n /\ cs <> [] /\ 63 * 2 ^ (N.of_nat (length cs) - 1) <= c
  end.

Lemma growing_traffic pf os ss n r cs : grow pf = amortized -> (forall cs k, grants pf cs k = true) ->
  ss 0%nat = Some {| a_string := false; size := n; room := r |} -> growing n r cs ->
  2 * fold_left (fun n o => n + bytes_added o) os n <= isize_max (target pf) ->
  exists ss' r' cs', traffic pf ss cs (map (Change 0) os) = (ss', cs', repeat None (length os)) /\
    ss' 0%nat = Some {| a_string := false; size := fold_left (fun n o => n + bytes_added o) os n; room := r' |} /\
    growing (fold_left (fun n o => n + bytes_added o) os n) r' cs'.
Proof.
  intros Hg Hgr. revert ss n r cs. induction os as [|o os IH]; intros ss n r cs E Hr Hmax.
  - exists ss, r, cs. auto.
  - cbn [fold_left map length repeat traffic effect] in *. rewrite E, Hg.
    pose proof (fold_bytes os (n + bytes_added o)) as Hle.
    assert (forall r', place ss 0 (Some {| a_string := false; size := n + bytes_added o; room := r' |}) 0%nat = Some {| a_string := false; size := n + bytes_added o; room := r' |}) as Ep by reflexivity.
    set (n' := n + bytes_added o) in *. cbn zeta.
    destruct r as [c|]; cbn [growing] in Hr.
    + destruct Hr as (H1 & H2 & H3 & H4). destruct (N.leb_spec n' c) as [Hfit|Hbig].
      * cbn [answer made app]. rewrite app_nil_r. destruct (IH _ n' (Some c) cs (Ep _)) as (ss' & r' & cs' & -> & H5 & H6); [cbn [growing]; split; [lia|]; split; [lia|]; split; [exact H3|exact H4]|exact Hmax|]. eauto 6.
      * destruct (N.eqb_spec c 0); [lia|]. unfold answer. cbn zeta. unfold amortized.
        destruct (N.ltb_spec (isize_max (target pf)) (N.max 8 (N.max (c * 2) n'))) as [Hx|_]; [lia|]. rewrite Hgr. cbn [made app].
        destruct (IH _ n' (Some (N.max 8 (N.max (c * 2) n'))) (cs ++ [Reallocate c (N.max 8 (N.max (c * 2) n'))]) (Ep _)) as (ss' & r' & cs' & -> & H5 & H6); [|exact Hmax|eauto 6].
        cbn [growing]. split; [lia|]. split; [lia|]. split; [destruct cs; discriminate|]. rewrite app_length. cbn [length].
        assert (length cs <> 0%nat) as Hl by (destruct cs; [contradiction|discriminate]).
        replace (N.of_nat (length cs + 1) - 1) with (N.succ (N.of_nat (length cs) - 1)) by lia. rewrite N.pow_succ_r'. lia.
    + destruct Hr as [H1 ->]. destruct (N.leb_spec n' 62) as [Hfit|Hbig].
      * cbn [answer made app]. destruct (IH _ n' None [] (Ep _)) as (ss' & r' & cs' & -> & H5 & H6); [cbn [growing]; auto|exact Hmax|]. eauto 6.
      * unfold answer. cbn zeta. destruct (N.ltb_spec (isize_max (target pf)) n') as [Hx|_]; [lia|]. rewrite Hgr. cbn [made app].
        destruct (IH _ n' (Some n') [Allocate n'] (Ep _)) as (ss' & r' & cs' & -> & H5 & H6); [|exact Hmax|eauto 6].
        cbn [growing length]. split; [lia|]. split; [lia|]. split; [discriminate|]. change (N.of_nat 1 - 1) with 0. change (2 ^ 0) with 1. lia.
Qed.

(** One string that grows: none of the calls below 63 bytes, then one call
    for each doubling. *)
Theorem C97_growth pf k os : valid_platform pf -> Forall (valid_statement (target pf)) (one_string k os) ->
  grow pf = amortized -> (forall cs k, grants pf cs k = true) -> nominal_source k ->
  2 * total_bytes k os <= isize_max (target pf) ->
  exists m st v, run_program pf no_memory nothing (one_string k os) = Some (m, st, repeat None (S (length os))) /\
    st 0%nat = Some (ANominal v) /\
    (total_bytes k os <= 62 -> calls m = [] /\ exists i, v = HInline i) /\
    (62 < total_bytes k os -> calls m <> [] /\ exists s, v = HHeap s /\ len s = total_bytes k os /\
       63 * 2 ^ (N.of_nat (length (calls m)) - 1) <= capacity s <= 2 * total_bytes k os).
Proof.
  intros Hp Hall Hg Hgr Hk Hmax. destruct (C96_allocator_calls pf _ Hp Hall) as (m & st & ss & ws & Hrun & Htr & Hss). rewrite Hrun.
  assert (exists n r cs, traffic pf nothing [] (one_string k os) =
      (let '(ss', cs', ws') := traffic pf (place nothing 0 (Some {| a_string := false; size := n; room := r |})) cs (map (Change 0) os) in (ss', cs', None :: ws')) /\
      growing n r cs /\ total_bytes k os = fold_left (fun n o => n + bytes_added o) os n) as (n & r & cs & E & Hgrow & Etot).
  { unfold one_string, total_bytes in *. cbn [traffic effect]. destruct k as [| |ch|bs|bs spare]; [| | | |contradiction].
    - exists 0, None, []. split; [reflexivity|]. split; [cbn; split; [lia|reflexivity]|reflexivity].
    - exists 0, None, []. split; [reflexivity|]. split; [cbn; split; [lia|reflexivity]|reflexivity].
    - exists (N.of_nat (length (encode_char ch))), None, []. split; [reflexivity|]. split; [|reflexivity]. cbn [growing]. split; [|reflexivity].
      pose proof (len_utf8_bounds ch). rewrite encode_char_length_nat. lia.
    - cbn zeta. pose proof (fold_bytes os (N.of_nat (length bs))) as Hle. destruct (N.leb_spec (N.of_nat (length bs)) 62) as [H|H].
      + exists (N.of_nat (length bs)), None, []. split; [reflexivity|]. split; [cbn [growing]; auto|reflexivity].
      + exists (N.of_nat (length bs)), (Some (N.of_nat (length bs))), [Allocate (N.of_nat (length bs))]. unfold answer. cbn zeta.
        destruct (N.ltb_spec (isize_max (target pf)) (N.of_nat (length bs))) as [Hx|_]; [lia|]. rewrite Hgr. split; [reflexivity|]. split; [|reflexivity].
        cbn [growing length]. split; [lia|]. split; [lia|]. split; [discriminate|]. change (N.of_nat 1 - 1) with 0. change (2 ^ 0) with 1. lia. }
  rewrite Etot in *. destruct (growing_traffic pf os (place nothing 0 (Some {| a_string := false; size := n; room := r |})) n r cs Hg Hgr eq_refl Hgrow Hmax) as (ss' & r' & cs' & Et & E0 & Hend).
  rewrite Et in E. rewrite E in Htr. injection Htr as -> -> <-. cbn [length repeat].
  rewrite Hss in E0. destruct (st 0%nat) as [[v|s]|] eqn:Ev; cbn [option_map] in E0; [| |discriminate]; [|discriminate].
  exists m, st, v. split; [reflexivity|]. split; [exact Ev|]. destruct v as [i|s]; cbn [slot_of] in E0.
  - injection E0 as E1 <-. cbn [growing] in Hend. destruct Hend as [H1 H2]. split; [intros _; eauto|]. intros H3. lia.
  - injection E0 as E1 <-. cbn [growing] in Hend. destruct Hend as (H1 & H2 & H3 & H4). split; [lia|]. intros _. split; [exact H3|]. exists s. split; [reflexivity|]. split; [exact E1|]. lia.
Qed.

(** A thousand characters: five calls. *)
Example C97_case :
  option_map (fun '(m, _, ws) => (calls m, forallb (fun w => match w with None => true | Some _ => false end) ws)) (run_program generous no_memory nothing (one_string FromNewReverse (repeat (PushFront 0x41) 1000)))
  = Some ([Allocate 63; Reallocate 63 126; Reallocate 126 252; Reallocate 252 504; Reallocate 504 1008], true) /\
  total_bytes FromNewReverse (repeat (PushFront 0x41) 1000) = 1000.
Proof. vm_compute. split; reflexivity. Qed.

Print Assumptions C97_growth.
