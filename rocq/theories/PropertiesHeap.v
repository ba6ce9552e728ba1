(** * PropertiesHeap: C95, heap strings in memory *)

From Coq Require Import Permutation.
From Verif Require Import Prelude Utf8Facts StringFacts NominalString Spec History HeapMemory Cases.

(** ** What is meant *)

(** What a variable holds: a [String] or a [NominalString], its text, and
    whether the text is on the heap. *)
Record described := {
  is_string : bool;
  text : list N;
  in_heap : bool
}.

Definition descriptions := nat -> option described.

Definition put (sp : descriptions) (x : nat) (d : option described) : descriptions :=
  fun y => if Nat.eqb y x then d else sp y.

Definition inline_text (bs : list N) : described := {| is_string := false; text := bs; in_heap := negb (at_most_62 bs) |}.
Definition heap_text (bs : list N) : described := {| is_string := false; text := bs; in_heap := true |}.
Definition string_text (bs : list N) : described := {| is_string := true; text := bs; in_heap := true |}.

Definition source_means (k : source) : described :=
  match k with
  | FromNew | FromNewReverse => inline_text []
  | FromOneChar ch => inline_text (encode_char ch)
  | FromText bs => inline_text bs
  | NewString bs _ => string_text bs
  end.

(** What a statement does when every variable has a text of its own. *)
Definition statement_means (sp : descriptions) (i : statement) : descriptions :=
  match i with
  | Let x k => put sp x (Some (source_means k))
  | Change x o =>
      match sp x with
      | Some {| is_string := false; text := t; in_heap := h |} =>
          put sp x (Some {| is_string := false; text := op_text t o; in_heap := h || negb (at_most_62 (op_text t o)) |})
      | _ => sp
      end
  | CloneInto x y => match sp x with Some d => put sp y (Some d) | None => sp end
  | IntoString x y =>
      match sp x with
      | Some {| is_string := false; text := t |} => put (put sp x None) y (Some (string_text t))
      | _ => sp
      end
  | TryIntoString x y =>
      match sp x with
      | Some {| is_string := false; text := t; in_heap := true |} => put (put sp x None) y (Some (string_text t))
      | _ => sp
      end
  | FromString x y =>
      match sp x with
      | Some {| is_string := true; text := t |} => put (put sp x None) y (Some (heap_text t))
      | _ => sp
      end
  | Move x y => match sp x with Some d => put (put sp x None) y (Some d) | None => sp end
  | DropVar x => put sp x None
  end.

Definition gone (sp : descriptions) (i : statement) : descriptions :=
  match i with
  | IntoString x _ => put sp x None
  | _ => sp
  end.

(** Statements that panic change nothing else. *)
Fixpoint program_means (sp : descriptions) (p : list statement) (ws : list (option stop)) : descriptions :=
  match p, ws with
  | i :: p, None :: ws => program_means (statement_means sp i) p ws
  | i :: p, Some _ :: ws => program_means (gone sp i) p ws
  | _, _ => sp
  end.

(** Texts and characters are what their types say, and fit in memory. *)
Definition valid_statement (c : config) (i : statement) : Prop :=
  match i with
  | Let _ (FromOneChar ch) => is_scalar ch = true
  | Let _ (FromText bs) | Let _ (NewString bs _) => valid_utf8 bs = true
  | Change _ o => valid_op o /\ match o with PushStr bs => N.of_nat (length bs) <= isize_max c | _ => True end
  | _ => True
  end.

(** An allocator that may refuse anything; [alloc::raw_vec] asks for enough. *)
Definition valid_platform (pf : platform) : Prop :=
  valid_config (target pf) /\ has_alloc (target pf) = true /\ (forall capacity required, required <= grow pf capacity required).

(** The blocks in use. *)
Definition live (m : memory) (p : nat) : option (list cell) :=
  match nth_error (blocks m) p with Some (Some b) => Some b | _ => None end.

Definition its_string (v : value) : option owned_string :=
  match v with ANominal (HHeap s) | AString s => Some s | ANominal (HInline _) => None end.

(** The string [s] has the block at [p]. *)
Definition has_block (s : owned_string) (p : nat) : Prop := capacity s <> 0 /\ pointer s = p.

Definition owns (st : variables) (x p : nat) : Prop :=
  exists v s, st x = Some v /\ its_string v = Some s /\ has_block s p.

(** The bytes of [s] are at the beginning of its block. *)
Definition reads (m : memory) (s : owned_string) (bs : list N) : Prop :=
  N.of_nat (length bs) = len s /\ valid_utf8 bs = true /\
  (capacity s = 0 -> bs = []) /\
  (capacity s <> 0 -> exists rest, live m (pointer s) = Some (map Some bs ++ rest) /\
     N.of_nat (length bs + length rest) = capacity s).

Definition matches (c : config) (m : memory) (v : value) (d : described) : Prop :=
  match v with
  | AString s => is_string d = true /\ in_heap d = true /\ reads m s (text d)
  | ANominal (HHeap s) => is_string d = false /\ in_heap d = true /\ reads m s (text d)
  | ANominal (HInline i) => is_string d = false /\ in_heap d = false /\ good c (Inline i) (text d) /\ at_most_62 (text d) = true
  end.

(** The sizes of blocks taken and returned by calls to the allocator. *)
Definition taken (cs : list call) : list N :=
  flat_map (fun k => match k with Allocate n | Reallocate _ n => [n] | Deallocate _ => [] end) cs.

Definition returned (cs : list call) : list N :=
  flat_map (fun k => match k with Allocate _ => [] | Reallocate n _ | Deallocate n => [n] end) cs.

Definition sizes_in_use (m : memory) : list N :=
  flat_map (fun b => match b with Some b => [N.of_nat (length b)] | None => [] end) (blocks m).

(** What [GlobalAlloc] requires of the size of a layout. *)
Definition layout_ok (c : config) (n : N) : Prop := 1 <= n <= isize_max c.

(** ** Proofs *)

Lemma live_set m p b q : (p < length (blocks m))%nat ->
  live (with_blocks m (set_nth (blocks m) p b)) q = if Nat.eqb q p then b else live m q.
Proof.
  intros Hp. unfold live, with_blocks, set_nth. cbn [blocks].
  destruct (Nat.eqb_spec q p) as [->|Hne].
  - rewrite nth_error_app2 by (rewrite firstn_length; lia). rewrite firstn_length, Nat.min_l, Nat.sub_diag by lia. cbn [nth_error].
    destruct b; reflexivity.
  - destruct (Nat.lt_ge_cases q p) as [Hlt|Hge].
    + rewrite nth_error_app1 by (rewrite firstn_length; lia).
      rewrite <- (firstn_skipn p (blocks m)) at 2. rewrite nth_error_app1 by (rewrite firstn_length; lia). reflexivity.
    + rewrite nth_error_app2 by (rewrite firstn_length; lia). rewrite firstn_length, Nat.min_l by lia.
      destruct (q - p)%nat as [|k] eqn:E; [lia|]. cbn [nth_error].
      rewrite <- (firstn_skipn (S p) (blocks m)) at 2. rewrite nth_error_app2 by (rewrite firstn_length; lia).
      rewrite firstn_length, Nat.min_l by lia. replace (q - S p)%nat with k by lia. reflexivity.
Qed.

Lemma set_nth_length {A} (l : list A) i a : (i < length l)%nat -> length (set_nth l i a) = length l.
Proof. intros H. unfold set_nth. rewrite app_length, firstn_length. cbn [length]. rewrite skipn_length. lia. Qed.

Lemma live_bound m p b : live m p = Some b -> (p < length (blocks m))%nat.
Proof. unfold live. intros H. apply nth_error_Some. intros E. rewrite E in H. discriminate. Qed.

Lemma live_app m b cs q :
  live {| blocks := blocks m ++ [b]; calls := cs |} q = if Nat.eqb q (length (blocks m)) then b else live m q.
Proof.
  unfold live. cbn [blocks]. destruct (Nat.eqb_spec q (length (blocks m))) as [->|Hne].
  - rewrite nth_error_app2, Nat.sub_diag by lia. cbn [nth_error]. destruct b; reflexivity.
  - destruct (Nat.lt_ge_cases q (length (blocks m))).
    + rewrite nth_error_app1 by assumption. reflexivity.
    + rewrite nth_error_app2 by assumption. destruct (q - length (blocks m))%nat as [|k] eqn:E; [lia|]. cbn [nth_error].
      assert (nth_error (@nil (option (list cell))) k = None) as -> by (destruct k; reflexivity).
      assert (nth_error (blocks m) q = None) as -> by (apply nth_error_None; lia). reflexivity.
Qed.

Definition is (o : option nat) (p : nat) : Prop := o = Some p.

(** From [m] to [m'] the block [before] is given up and [after] is taken. *)
Definition frame (m m' : memory) (before after : option nat) : Prop :=
  (length (blocks m) <= length (blocks m'))%nat /\
  (forall p, (p < length (blocks m))%nat -> ~ is before p -> live m' p = live m p) /\
  (forall p, is after p -> is before p \/ (length (blocks m) <= p)%nat) /\
  (forall p, live m' p <> None -> is after p \/ live m p <> None /\ ~ is before p).

Lemma frame_refl m o : frame m m o o.
Proof.
  split; [lia|]. split; [reflexivity|]. split; [auto|]. intros p H. destruct o as [q|].
  - destruct (Nat.eq_dec q p) as [->|Hne]; [left; reflexivity|]. right. split; [exact H|]. unfold is. congruence.
  - right. split; [exact H|]. unfold is. discriminate.
Qed.

Lemma frame_trans m m1 m2 a b d : frame m m1 a b -> frame m1 m2 b d -> frame m m2 a d.
Proof.
  intros (A1 & A2 & A3 & A4) (B1 & B2 & B3 & B4). split; [lia|]. split; [|split].
  - intros p Hp Ha. rewrite B2; [apply A2; assumption|lia|]. intros Hb. destruct (A3 p Hb); [contradiction|lia].
  - intros p Hd. destruct (B3 p Hd) as [Hb|]; [destruct (A3 p Hb); [auto|lia]|right; lia].
  - intros p Hl. destruct (B4 p Hl) as [|[H1 H2]]; [auto|]. destruct (A4 p H1) as [H3|H3]; [contradiction|auto].
Qed.

Definition owned (s : owned_string) : option nat := if capacity s =? 0 then None else Some (pointer s).

Lemma owned_has s p : is (owned s) p <-> has_block s p.
Proof. unfold is, owned, has_block. destruct (N.eqb_spec (capacity s) 0); split; intros H; try discriminate; try tauto; [split; congruence|]. destruct H; congruence. Qed.

(** What an action does: a result with [post], or nothing. *)
Definition yields {A} (m : memory) (before : option nat) (r : status A) (after : A -> option nat) (post : memory -> A -> Prop) : Prop :=
  match r with
  | Done m' a => frame m m' before (after a) /\ post m' a
  | Stopped m' _ => m' = m
  | Undefined => False
  end.

Lemma reads_intro m s bs : N.of_nat (length bs) = len s -> valid_utf8 bs = true -> (capacity s = 0 -> bs = []) ->
  (capacity s <> 0 -> exists rest, live m (pointer s) = Some (map Some bs ++ rest) /\
     N.of_nat (length bs + length rest) = capacity s) -> reads m s bs.
Proof. unfold reads. auto. Qed.

Lemma with_capacity_yields pf m n : valid_platform pf ->
  yields m None (with_capacity pf n m) owned (fun m' s => reads m' s [] /\ capacity s = n).
Proof.
  intros Hp. unfold with_capacity. destruct (N.eqb_spec n 0) as [->|Hn].
  - unfold done. cbn [yields]. split; [apply frame_refl|]. split; [|reflexivity]. apply reads_intro; [reflexivity|reflexivity|reflexivity|]. cbn [capacity]. congruence.
  - unfold and_then, allocate. destruct (isize_max (target pf) <? n); [reflexivity|]. destruct (grants pf (calls m) (Allocate n)); [|reflexivity].
    cbn [yields done]. unfold owned. cbn [capacity pointer]. destruct (N.eqb_spec n 0) as [|_]; [contradiction|]. split.
    + split; [cbn [blocks]; rewrite app_length; lia|]. split; [|split].
      * intros p Hlt _. rewrite live_app. destruct (Nat.eqb_spec p (length (blocks m))); [lia|reflexivity].
      * intros p [= <-]. right. lia.
      * intros p. rewrite live_app. destruct (Nat.eqb_spec p (length (blocks m))) as [->|]; [left; reflexivity|]. intros H. right. split; [exact H|discriminate].
    + split; [|reflexivity]. apply reads_intro; cbn [capacity pointer]; [reflexivity|reflexivity|congruence|].
      * intros _. eexists. rewrite live_app, Nat.eqb_refl. cbn [app length map]. split; [reflexivity|]. rewrite repeat_length. lia.
Qed.

Lemma reads_live m s bs : reads m s bs -> capacity s <> 0 -> (pointer s < length (blocks m))%nat.
Proof. intros (_ & _ & _ & H) H0. destruct (H H0) as (rest & E & _). eapply live_bound, E. Qed.

Lemma reserve_yields pf m s bs n : valid_platform pf -> reads m s bs ->
  yields m (owned s) (reserve pf s n m) owned (fun m' s' => reads m' s' bs /\ len s' = len s /\ len s + n <= capacity s').
Proof.
  intros (_ & _ & Hgrow) Hr. pose proof Hr as (Hlen & Hv & H0 & H1). unfold reserve.
  assert (len s <= capacity s) as Hle.
  { destruct (N.eq_dec (capacity s) 0) as [E|E]; [rewrite (H0 E) in Hlen; cbn [length] in Hlen; lia|]. destruct (H1 E) as (rest & _ & Hc). lia. }
  destruct (N.leb_spec n (capacity s - len s)) as [Hn|Hn].
  { unfold done. cbn [yields]. split; [apply frame_refl|]. split; [exact Hr|]. lia. }
  cbn zeta. destruct (2 ^ usize_bits (target pf) <=? len s + n); [reflexivity|].
  pose proof (Hgrow (capacity s) (len s + n)) as Hg. set (size := grow pf (capacity s) (len s + n)) in *.
  assert (size <> 0) as Hs by lia.
  destruct (N.eqb_spec (capacity s) 0) as [E0|E0].
  - unfold and_then, allocate. destruct (isize_max (target pf) <? size); [reflexivity|]. destruct (grants pf (calls m) (Allocate size)); [|reflexivity].
    cbn [yields done]. unfold owned. cbn [capacity pointer len]. rewrite E0. cbn [N.eqb]. destruct (N.eqb_spec size 0) as [|_]; [contradiction|]. split.
    + split; [cbn [blocks]; rewrite app_length; lia|]. split; [|split].
      * intros p Hlt _. rewrite live_app. destruct (Nat.eqb_spec p (length (blocks m))); [lia|reflexivity].
      * intros p [= <-]. right. lia.
      * intros p. rewrite live_app. destruct (Nat.eqb_spec p (length (blocks m))) as [->|]; [left; reflexivity|]. intros H. right. split; [exact H|discriminate].
    + split; [|lia]. pose proof (H0 E0) as ->. apply reads_intro; cbn [capacity pointer len]; [exact Hlen|reflexivity|reflexivity|].
      intros _. eexists. rewrite live_app, Nat.eqb_refl. cbn [app length map]. split; [reflexivity|]. rewrite repeat_length. lia.
  - destruct (H1 E0) as (rest & Hb & Hcap). pose proof (live_bound _ _ _ Hb) as Hlt.
    unfold reallocate, and_then, block. unfold live in Hb. destruct (nth_error (blocks m) (pointer s)) as [[b|]|] eqn:Eb; try discriminate. injection Hb as ->.
    rewrite app_length, map_length, Hcap, N.eqb_refl. unfold allocate.
    destruct (isize_max (target pf) <? size); [reflexivity|]. destruct (grants pf (calls m) (Reallocate (capacity s) size)); [|reflexivity].
    unfold set_block, done. cbn [yields].
    set (new := Some _) in |- *. set (m1 := {| blocks := blocks m ++ [new]; calls := _ |}).
    assert ((pointer s < length (blocks m1))%nat) as Hlt1 by (unfold m1; cbn [blocks]; rewrite app_length; lia).
    unfold owned. cbn [capacity pointer len]. destruct (N.eqb_spec (capacity s) 0) as [|_]; [contradiction|]. destruct (N.eqb_spec size 0) as [|_]; [contradiction|]. split.
    + split; [cbn [with_blocks blocks]; rewrite set_nth_length by exact Hlt1; unfold m1; cbn [blocks]; rewrite app_length; lia|]. split; [|split].
      * intros p Hp Hne. rewrite (live_set m1) by exact Hlt1. destruct (Nat.eqb_spec p (pointer s)) as [->|]; [exfalso; apply Hne; reflexivity|].
        unfold m1. rewrite live_app. destruct (Nat.eqb_spec p (length (blocks m))); [lia|reflexivity].
      * intros p [= <-]. right. lia.
      * intros p. rewrite (live_set m1) by exact Hlt1. destruct (Nat.eqb_spec p (pointer s)) as [->|Hne]; [congruence|].
        unfold m1. rewrite live_app. destruct (Nat.eqb_spec p (length (blocks m))) as [->|]; [left; reflexivity|]. intros H. right. split; [exact H|]. unfold is. congruence.
    + split; [|lia]. apply reads_intro; cbn [capacity pointer len]; [exact Hlen|exact Hv|congruence|].
      intros _. rewrite (live_set m1) by exact Hlt1. destruct (Nat.eqb_spec (length (blocks m)) (pointer s)); [lia|].
      unfold m1. rewrite live_app, Nat.eqb_refl. unfold new. rewrite <- app_assoc. eexists. split; [reflexivity|].
      rewrite !app_length, repeat_length, map_length. lia.
Qed.

(** As [yields], and the action does not stop. *)
Definition surely {A} (m : memory) (before : option nat) (r : status A) (after : A -> option nat) (post : memory -> A -> Prop) : Prop :=
  match r with
  | Done m' a => frame m m' before (after a) /\ post m' a
  | _ => False
  end.

Lemma surely_yields {A} m before (r : status A) after post : surely m before r after post -> yields m before r after post.
Proof. destruct r; cbn; tauto. Qed.

Lemma surely_weaken {A} m before (r : status A) after (post post' : memory -> A -> Prop) :
  surely m before r after post -> (forall m' a, post m' a -> post' m' a) -> surely m before r after post'.
Proof. destruct r; cbn; intuition. Qed.

Lemma yields_weaken {A} m before (r : status A) after (post post' : memory -> A -> Prop) :
  yields m before r after post -> (forall m' a, post m' a -> post' m' a) -> yields m before r after post'.
Proof. destruct r; cbn; intuition. Qed.

Lemma yields_then {A B} m before (f : action A) (k : A -> action B) after after' post post' :
  yields m before (f m) after post ->
  (forall m1 a, post m1 a -> surely m1 (after a) (k a m1) after' post') ->
  yields m before (and_then f k m) after' post'.
Proof.
  unfold and_then. intros Hf Hk. destruct (f m) as [m1 a|m1 why|]; [|exact Hf|exact Hf].
  destruct Hf as [Hfr Hp]. specialize (Hk m1 a Hp). destruct (k a m1) as [m2 b|m2 why|]; [|destruct Hk|destruct Hk].
  destruct Hk as [Hfr' Hp']. split; [|exact Hp']. eapply frame_trans; eassumption.
Qed.

Lemma surely_then {A B} m before (f : action A) (k : A -> action B) after after' post post' :
  surely m before (f m) after post ->
  (forall m1 a, post m1 a -> surely m1 (after a) (k a m1) after' post') ->
  surely m before (and_then f k m) after' post'.
Proof.
  unfold and_then. intros Hf Hk. destruct (f m) as [m1 a|m1 why|]; [|exact Hf|exact Hf].
  destruct Hf as [Hfr Hp]. specialize (Hk m1 a Hp). destruct (k a m1) as [m2 b|m2 why|]; [|destruct Hk|destruct Hk].
  destruct Hk as [Hfr' Hp']. split; [|exact Hp']. eapply frame_trans; eassumption.
Qed.

Lemma surely_done {A} m (a : A) after (post : memory -> A -> Prop) : post m a -> surely m (after a) (done a m) after post.
Proof. intros H. split; [apply frame_refl|exact H]. Qed.

Lemma block_live m p b : live m p = Some b -> block p m = Done m b.
Proof. unfold live, block. destruct (nth_error (blocks m) p) as [[x|]|]; congruence. Qed.

Lemma frame_set m p b b' : live m p = Some b -> frame m (with_blocks m (set_nth (blocks m) p (Some b'))) (Some p) (Some p).
Proof.
  intros H. pose proof (live_bound _ _ _ H) as Hp. split; [cbn [with_blocks blocks]; rewrite set_nth_length by exact Hp; lia|]. split; [|split].
  - intros q Hq Hne. rewrite live_set by exact Hp. destruct (Nat.eqb_spec q p) as [->|]; [exfalso; apply Hne; reflexivity|reflexivity].
  - auto.
  - intros q. rewrite live_set by exact Hp. destruct (Nat.eqb_spec q p) as [->|Hn]; [left; reflexivity|]. right. split; [assumption|]. unfold is. congruence.
Qed.

Lemma write_at_surely m s off bs b : capacity s <> 0 -> live m (pointer s) = Some b -> (N.to_nat off + length bs <= length b)%nat ->
  surely m (owned s) (write_at s off bs m) (fun _ => owned s) (fun m' _ => live m' (pointer s) = Some (overwrite b (N.to_nat off) (map Some bs))).
Proof.
  intros Hc Hb Hle. unfold write_at. destruct bs as [|x bs].
  - split; [apply frame_refl|]. unfold overwrite. cbn [map length app]. rewrite Nat.add_0_r, firstn_skipn. exact Hb.
  - unfold and_then. rewrite (block_live _ _ _ Hb). unfold pure, raw_copy. apply Nat.leb_le in Hle. rewrite Hle.
    unfold done, set_block. cbn [surely]. unfold owned. destruct (N.eqb_spec (capacity s) 0) as [|_]; [contradiction|].
    split; [eapply frame_set, Hb|]. rewrite live_set by (eapply live_bound, Hb). rewrite Nat.eqb_refl. reflexivity.
Qed.

Lemma overwrite_after (a b rest : list cell) : (length b <= length rest)%nat ->
  overwrite (a ++ rest) (length a) b = a ++ b ++ skipn (length b) rest.
Proof.
  intros H. unfold overwrite. rewrite firstn_app, firstn_all, Nat.sub_diag. cbn [firstn]. rewrite app_nil_r.
  rewrite skipn_app, skipn_all2 by lia. cbn [app]. do 3 f_equal. lia.
Qed.

Lemma valid_app a b : valid_utf8 a = true -> valid_utf8 b = true -> valid_utf8 (a ++ b) = true.
Proof.
  intros Ha Hb. apply valid_utf8_inv in Ha as (cs & Hc & ->). apply valid_utf8_inv in Hb as (ds & Hd & ->).
  rewrite <- utf8_app. apply valid_utf8_utf8. apply Forall_app. split; assumption.
Qed.

Lemma valid_char ch : is_scalar ch = true -> valid_utf8 (encode_char ch) = true.
Proof. intros H. rewrite <- utf8_single. apply valid_utf8_utf8. constructor; [exact H|constructor]. Qed.

Lemma append_rest m s bs0 bs : reads m s bs0 -> valid_utf8 bs = true -> len s + N.of_nat (length bs) <= capacity s ->
  surely m (owned s) ((_ <~ write_at s (len s) bs ;; done (with_len s (len s + N.of_nat (length bs)))) m) owned
    (fun m' s' => reads m' s' (bs0 ++ bs) /\ capacity s' = capacity s).
Proof.
  intros (Hlen & Hv & H0 & H1) Hvb Hroom. destruct (N.eq_dec (capacity s) 0) as [E|E].
  - assert (bs = []) as -> by (destruct bs; [reflexivity|cbn [length] in Hroom; lia]).
    unfold and_then, write_at, done. split; [apply frame_refl|]. split; [|reflexivity]. rewrite app_nil_r.
    apply reads_intro; cbn [with_len len capacity pointer length]; [lia|exact Hv|exact H0|exact H1].
  - destruct (H1 E) as (rest & Hb & Hc).
    eapply surely_then.
    + apply (write_at_surely m s (len s) bs _ E Hb). rewrite app_length, map_length. lia.
    + intros m1 [] Hl. cbn beta in Hl. rewrite <- Hlen, Nat2N.id in Hl.
      replace (length bs0) with (length (map (@Some N) bs0)) in Hl by apply map_length.
      rewrite overwrite_after in Hl by (rewrite map_length; lia).
      split; [apply frame_refl|]. split; [|reflexivity].
      apply reads_intro; cbn [with_len len capacity pointer]; rewrite ?app_length.
      * lia.
      * apply valid_app; assumption.
      * congruence.
      * intros _. rewrite Hl. eexists. rewrite map_app, <- app_assoc. split; [reflexivity|]. rewrite skipn_length, map_length. lia.
Qed.

Lemma append_yields pf m s bs0 bs : valid_platform pf -> reads m s bs0 -> valid_utf8 bs = true ->
  yields m (owned s) (append pf s bs m) owned (fun m' s' => reads m' s' (bs0 ++ bs)).
Proof.
  intros Hp Hr Hv. unfold append. eapply yields_then; [apply reserve_yields; [exact Hp|exact Hr]|].
  intros m1 s1 (Hr1 & Hl & Hroom). pose proof (append_rest m1 s1 bs0 bs Hr1 Hv) as H. rewrite Hl in H. specialize (H Hroom). rewrite Hl.
  eapply surely_weaken; [exact H|]. cbn beta. tauto.
Qed.

Lemma append_surely pf m s bs0 bs : reads m s bs0 -> valid_utf8 bs = true -> len s + N.of_nat (length bs) <= capacity s ->
  surely m (owned s) (append pf s bs m) owned (fun m' s' => reads m' s' (bs0 ++ bs) /\ capacity s' = capacity s).
Proof.
  intros Hr Hv Hroom. unfold append. eapply (surely_then _ _ _ _ owned _ (fun m' s' => m' = m /\ s' = s)).
  - unfold reserve. destruct (N.leb_spec (N.of_nat (length bs)) (capacity s - len s)) as [_|Hn]; [|lia].
    split; [apply frame_refl|auto].
  - intros m1 s1 [-> ->]. apply append_rest; assumption.
Qed.

Lemma overwrite_front (a b rest : list cell) : (length b <= length a)%nat ->
  overwrite (a ++ rest) 0 b = b ++ skipn (length b) a ++ rest.
Proof.
  intros H. unfold overwrite. cbn [firstn app Nat.add]. rewrite skipn_app. replace (length b - length a)%nat with 0%nat by lia. reflexivity.
Qed.

Lemma prepend_yields pf m s bs0 bs : valid_platform pf -> reads m s bs0 -> valid_utf8 bs = true ->
  yields m (owned s) (prepend pf s bs m) owned (fun m' s' => reads m' s' (bs ++ bs0)).
Proof.
  intros Hp Hr Hvb. unfold prepend. eapply yields_then; [apply reserve_yields; [exact Hp|exact Hr]|].
  intros m1 s1 ((Hlen & Hv & H0 & H1) & Hl & Hroom). rewrite <- Hl in Hroom. clear Hl.
  destruct (N.eq_dec (capacity s1) 0) as [E|E].
  - assert (bs = []) as -> by (destruct bs; [reflexivity|cbn [length] in Hroom; lia]). pose proof (H0 E) as ->. cbn [length] in Hlen.
    unfold and_then, move_to, write_at, done. replace (len s1) with 0 by lia. cbn [N.eqb]. split; [apply frame_refl|].
    apply reads_intro; cbn [with_len len capacity pointer length app]; [lia|reflexivity|reflexivity|congruence].
  - destruct (H1 E) as (rest & Hb & Hc).
    eapply (surely_then m1 (owned s1) _ _ (fun _ => owned s1) owned
      (fun m2 _ => exists gap rest', length gap = length bs /\ live m2 (pointer s1) = Some (gap ++ map Some bs0 ++ rest') /\
         (length gap + length bs0 + length rest' = length bs0 + length rest)%nat)).
    + unfold move_to. destruct (N.eqb_spec (len s1) 0) as [El|El].
      * split; [apply frame_refl|]. assert (bs0 = []) as -> by (destruct bs0; [reflexivity|cbn [length] in Hlen; lia]).
        exists (firstn (length bs) rest), (skipn (length bs) rest). cbn [map app length] in *. rewrite firstn_length, skipn_length, firstn_skipn.
        split; [lia|]. split; [exact Hb|lia].
      * unfold and_then. rewrite (block_live _ _ _ Hb), app_length, map_length.
        destruct (N.leb_spec (N.of_nat (length bs) + len s1) (N.of_nat (length bs0 + length rest))) as [_|Hx]; [|lia].
        unfold set_block. split; [unfold owned; destruct (N.eqb_spec (capacity s1) 0) as [|_]; [contradiction|]; eapply frame_set, Hb|].
        rewrite live_set by (eapply live_bound, Hb). rewrite Nat.eqb_refl.
        unfold window. cbn [skipn]. rewrite <- Hlen, !Nat2N.id, firstn_app, map_length, Nat.sub_diag. cbn [firstn]. rewrite app_nil_r.
        rewrite firstn_all2 by (rewrite map_length; lia).
        unfold overwrite. set (all := map Some bs0 ++ rest). assert (length all = (length bs0 + length rest)%nat) as Ha by (unfold all; rewrite app_length, map_length; lia).
        exists (firstn (length bs) all), (skipn (length bs + length (map Some bs0)) all). rewrite firstn_length, skipn_length, map_length, Ha.
        split; [lia|]. split; [reflexivity|lia].
    + intros m2 [] (gap & rest' & Hg & Hb2 & Hsum).
      eapply surely_then.
      * apply (write_at_surely m2 s1 0 bs _ E Hb2). rewrite !app_length, map_length. cbn [N.to_nat]. lia.
      * intros m3 [] Hl. cbn beta in Hl. change (N.to_nat 0) with 0%nat in Hl. rewrite overwrite_front in Hl by (rewrite map_length; lia).
        rewrite map_length, <- Hg, skipn_all in Hl. cbn [app] in Hl.
        split; [apply frame_refl|].
        apply reads_intro; cbn [with_len len capacity pointer]; rewrite ?app_length.
        -- lia.
        -- apply valid_app; assumption.
        -- congruence.
        -- intros _. rewrite Hl. eexists. rewrite map_app, <- app_assoc. split; [reflexivity|]. lia.
Qed.

Lemma string_str_reads m s bs : reads m s bs -> string_str s m = Done m bs.
Proof.
  intros (Hlen & Hv & H0 & H1). unfold string_str. destruct (N.eqb_spec (len s) 0) as [E|E].
  - destruct bs; [reflexivity|cbn [length] in Hlen; lia].
  - destruct (N.eq_dec (capacity s) 0) as [Ec|Ec]; [rewrite (H0 Ec) in Hlen; cbn [length] in Hlen; lia|].
    destruct (H1 Ec) as (rest & Hb & Hc). unfold and_then. rewrite (block_live _ _ _ Hb).
    unfold read_bytes. rewrite app_length, map_length.
    destruct (Nat.leb_spec (0 + N.to_nat (len s)) (length bs + length rest)) as [_|Hx]; [|lia].
    unfold window. cbn [skipn]. rewrite <- Hlen, Nat2N.id, firstn_app, map_length, Nat.sub_diag. cbn [firstn]. rewrite app_nil_r, firstn_all2 by (rewrite map_length; lia).
    rewrite all_init_map. unfold pure, done. rewrite Hv. reflexivity.
Qed.

Lemma string_from_yields pf m bs : valid_platform pf -> valid_utf8 bs = true ->
  yields m None (string_from pf bs m) owned (fun m' s => reads m' s bs /\ capacity s = N.of_nat (length bs)).
Proof.
  intros Hp Hv. unfold string_from. eapply yields_then; [apply with_capacity_yields, Hp|].
  intros m1 s1 [Hr Hc]. pose proof (append_surely pf m1 s1 [] bs Hr Hv) as H. cbn [app] in H. rewrite Hc in H. apply H.
  destruct Hr as [Hl _]. cbn [length] in Hl. lia.
Qed.

Lemma string_drop_surely m s bs : reads m s bs -> surely m (owned s) (string_drop s m) (fun _ => None) (fun _ _ => True).
Proof.
  intros (Hlen & Hv & H0 & H1). unfold string_drop, owned. destruct (N.eqb_spec (capacity s) 0) as [E|E]; [split; [apply frame_refl|exact I]|].
  destruct (H1 E) as (rest & Hb & Hc). unfold deallocate, and_then. rewrite (block_live _ _ _ Hb), app_length, map_length, Hc, N.eqb_refl.
  unfold set_block. cbn [surely]. split; [|exact I]. pose proof (live_bound _ _ _ Hb) as Hp.
  set (m1 := with_blocks m _).
  assert (forall q, live {| blocks := blocks m1; calls := calls m1 ++ [Deallocate (capacity s)] |} q = if Nat.eqb q (pointer s) then None else live m q) as El.
  { intros q. change (live m1 q = if Nat.eqb q (pointer s) then None else live m q). unfold m1. apply live_set, Hp. }
  split; [cbn [blocks]; unfold m1; cbn [with_blocks blocks]; rewrite set_nth_length by exact Hp; lia|]. split; [|split].
  - intros q Hq Hne. rewrite El. destruct (Nat.eqb_spec q (pointer s)) as [->|]; [exfalso; apply Hne; reflexivity|reflexivity].
  - intros q [=].
  - intros q. rewrite El. destruct (Nat.eqb_spec q (pointer s)) as [->|Hne]; [congruence|]. intros H. right. split; [exact H|]. unfold is. congruence.
Qed.

Lemma pure_then {A B} (o : outcome A) a (k : A -> action B) m : o = Ret a -> and_then (pure o) k m = k a m.
Proof. intros ->. reflexivity. Qed.

Definition held_owned (v : held) : option nat := match v with HInline _ => None | HHeap s => owned s end.

Definition nominal_text (t : list N) (h : bool) : described := {| is_string := false; text := t; in_heap := h |}.

(** A string that takes two texts and has room for both. *)
Lemma append_two pf m n a b : valid_platform pf -> valid_utf8 a = true -> valid_utf8 b = true -> n = N.of_nat (length (a ++ b)) ->
  yields m None ((string <~ with_capacity pf n ;; string <~ append pf string a ;; string <~ append pf string b ;; done (HHeap string, @Ok unit out_of_memory tt)) m)
    (fun r => held_owned (fst r)) (fun m' r => matches (target pf) m' (ANominal (fst r)) (nominal_text (a ++ b) true)).
Proof.
  intros Hp Ha Hb Hn. rewrite app_length in Hn. eapply yields_then; [apply with_capacity_yields, Hp|].
  intros m1 s1 [Hr Hc]. pose proof Hr as [Hl _]. cbn [length] in Hl.
  eapply surely_then; [apply (append_surely pf m1 s1 [] a Hr Ha); lia|]. intros m2 s2 [Hr2 Hc2]. cbn [app] in Hr2. pose proof Hr2 as [Hl2 _].
  eapply surely_then; [apply (append_surely pf m2 s2 a b Hr2 Hb); lia|]. intros m3 s3 [Hr3 Hc3].
  split; [apply frame_refl|]. cbn [fst matches nominal_text is_string in_heap text]. auto.
Qed.

Lemma inline_facts c i t : good c (Inline i) t -> inline_as_str i = Ret t /\ inline_len i = N.of_nat (length t) /\ valid_utf8 t = true.
Proof.
  intros H. split; [exact (good_str _ _ _ H)|]. split; [|exact (good_valid _ _ _ H)]. destruct H as (cs & [_ (rv & H)] & ->). exact (ir_len _ _ _ H).
Qed.

Lemma inline_step c i t o : has_alloc c = true -> good c (Inline i) t -> valid_op o ->
  exists s', step c (Inline i) o = Ret (s', Ok tt) /\ good c s' (op_text t o) /\ is_inline s' = is_edit o || at_most_62 (op_text t o).
Proof.
  intros Ha Hg Ho. pose proof (step_effect c (Inline i) t o Hg Ho) as H. unfold op_effect, succeeds, roomy in H. rewrite Ha in H. cbn [orb] in H. rewrite orb_true_r in H.
  exact H.
Qed.

Lemma change_push pf m v t h ch : valid_platform pf -> matches (target pf) m (ANominal v) (nominal_text t h) -> is_scalar ch = true ->
  yields m (held_owned v) (held_push pf v ch m) (fun r => held_owned (fst r))
    (fun m' r => matches (target pf) m' (ANominal (fst r)) (nominal_text (t ++ encode_char ch) (h || negb (at_most_62 (t ++ encode_char ch))))).
Proof.
  intros Hp Hm Hch. destruct v as [i|s]; cbn [matches nominal_text is_string in_heap text] in Hm.
  - destruct Hm as (_ & -> & Hg & H62). cbn [orb held_owned].
    destruct (inline_facts _ _ _ Hg) as (Es & El & Hv). destruct Hp as (Hc & Ha & Hgrow).
    destruct (inline_step _ _ _ (Push ch) Ha Hg Hch) as (s' & E & Hg' & Hi). cbn [op_text is_edit orb] in Hg', Hi.
    unfold held_push. rewrite (pure_then _ _ _ _ (char_len_ok ch)). cbn zeta.
    assert (inline_len i <= 62) as Hle by (unfold at_most_62 in H62; apply Nat.leb_le in H62; lia).
    assert (len_utf8 ch <= 4) as H4 by (pose proof (len_utf8_bounds ch); lia).
    rewrite (pure_then _ _ _ _ (uadd_8 (target pf) _ _ Hle H4)).
    cbn [step] in E. unfold try_push in E. rewrite char_len_ok in E. cbn [obind] in E. rewrite (uadd_8 (target pf) _ _ Hle H4) in E. cbn [obind] in E.
    destruct (inline_len i + len_utf8 ch <=? INLINE_CAPACITY).
    + destruct (inline_push i ch (len_utf8 ch) (inline_len i) (inline_len i + len_utf8 ch)) as [i'| | |]; cbn [obind] in E; try discriminate.
      injection E as <-. unfold and_then, pure, done. cbn [yields fst held_owned]. split; [apply frame_refl|].
      cbn [is_inline] in Hi. cbn [matches nominal_text is_string in_heap text]. rewrite <- Hi. auto.
    + rewrite Ha, Es in E. cbn [obind] in E. injection E as <-. cbn [is_inline] in Hi. rewrite <- Hi. cbn [negb].
      assert (yields m None ((string <~ with_capacity pf (inline_len i + len_utf8 ch) ;; string <~ append pf string t ;; string <~ append pf string (encode_char ch) ;; done (HHeap string, @Ok unit out_of_memory tt)) m)
        (fun r => held_owned (fst r)) (fun m' r => matches (target pf) m' (ANominal (fst r)) (nominal_text (t ++ encode_char ch) true))) as H.
      { apply append_two; [split; [exact Hc|split; assumption]|exact Hv|apply valid_char, Hch|]. rewrite app_length, encode_char_length_nat. lia. }
      rewrite Es. exact H.
  - destruct Hm as (_ & -> & Hr). cbn [orb held_owned]. unfold held_push.
    eapply yields_then; [apply append_yields; [exact Hp|exact Hr|apply valid_char, Hch]|].
    intros m1 s1 H1. split; [apply frame_refl|]. cbn [fst matches nominal_text is_string in_heap text]. auto.
Qed.

Lemma change_push_front pf m v t h ch : valid_platform pf -> matches (target pf) m (ANominal v) (nominal_text t h) -> is_scalar ch = true ->
  yields m (held_owned v) (held_push_front pf v ch m) (fun r => held_owned (fst r))
    (fun m' r => matches (target pf) m' (ANominal (fst r)) (nominal_text (encode_char ch ++ t) (h || negb (at_most_62 (encode_char ch ++ t))))).
Proof.
  intros Hp Hm Hch. destruct v as [i|s]; cbn [matches nominal_text is_string in_heap text] in Hm.
  - destruct Hm as (_ & -> & Hg & H62). cbn [orb held_owned].
    destruct (inline_facts _ _ _ Hg) as (Es & El & Hv). destruct Hp as (Hc & Ha & Hgrow).
    destruct (inline_step _ _ _ (PushFront ch) Ha Hg Hch) as (s' & E & Hg' & Hi). cbn [op_text is_edit orb] in Hg', Hi.
    unfold held_push_front. rewrite (pure_then _ _ _ _ (char_len_ok ch)). cbn zeta.
    assert (inline_len i <= 62) as Hle by (unfold at_most_62 in H62; apply Nat.leb_le in H62; lia).
    assert (len_utf8 ch <= 4) as H4 by (pose proof (len_utf8_bounds ch); lia).
    rewrite (pure_then _ _ _ _ (uadd_8 (target pf) _ _ Hle H4)).
    cbn [step] in E. unfold try_push_front in E. rewrite char_len_ok in E. cbn [obind] in E. rewrite (uadd_8 (target pf) _ _ Hle H4) in E. cbn [obind] in E.
    destruct (inline_len i + len_utf8 ch <=? INLINE_CAPACITY).
    + destruct (inline_push_front i ch (len_utf8 ch) (inline_len i) (inline_len i + len_utf8 ch)) as [i'| | |]; cbn [obind] in E; try discriminate.
      injection E as <-. unfold and_then, pure, done. cbn [yields fst held_owned]. split; [apply frame_refl|].
      cbn [is_inline] in Hi. cbn [matches nominal_text is_string in_heap text]. rewrite <- Hi. auto.
    + rewrite Ha, Es in E. cbn [obind] in E. injection E as <-. cbn [is_inline] in Hi. rewrite <- Hi. cbn [negb].
      assert (yields m None ((string <~ with_capacity pf (inline_len i + len_utf8 ch) ;; string <~ append pf string (encode_char ch) ;; string <~ append pf string t ;; done (HHeap string, @Ok unit out_of_memory tt)) m)
        (fun r => held_owned (fst r)) (fun m' r => matches (target pf) m' (ANominal (fst r)) (nominal_text (encode_char ch ++ t) true))) as H.
      { apply append_two; [split; [exact Hc|split; assumption]|apply valid_char, Hch|exact Hv|]. rewrite app_length, encode_char_length_nat. lia. }
      rewrite Es. exact H.
  - destruct Hm as (_ & -> & Hr). cbn [orb held_owned]. unfold held_push_front.
    eapply yields_then; [apply prepend_yields; [exact Hp|exact Hr|apply valid_char, Hch]|].
    intros m1 s1 H1. split; [apply frame_refl|]. cbn [fst matches nominal_text is_string in_heap text]. auto.
Qed.

Lemma change_push_str pf m v t h bs : valid_platform pf -> matches (target pf) m (ANominal v) (nominal_text t h) -> valid_utf8 bs = true ->
  N.of_nat (length bs) <= isize_max (target pf) ->
  yields m (held_owned v) (held_push_str pf v bs m) (fun r => held_owned (fst r))
    (fun m' r => matches (target pf) m' (ANominal (fst r)) (nominal_text (t ++ bs) (h || negb (at_most_62 (t ++ bs))))).
Proof.
  intros Hp Hm Hvb Hmax. destruct v as [i|s]; cbn [matches nominal_text is_string in_heap text] in Hm.
  - destruct Hm as (_ & -> & Hg & H62). cbn [orb held_owned].
    destruct (inline_facts _ _ _ Hg) as (Es & El & Hv). destruct Hp as (Hc & Ha & Hgrow).
    destruct (inline_step _ _ _ (PushStr bs) Ha Hg Hvb) as (s' & E & Hg' & Hi). cbn [op_text is_edit orb] in Hg', Hi.
    unfold held_push_str. cbn zeta. cbn [step] in E. unfold try_push_str in E. cbn zeta in E. rewrite Ha, Es in E. cbn [obind] in E.
    assert (inline_len i <= 62) as Hle by (unfold at_most_62 in H62; apply Nat.leb_le in H62; lia).
    assert (uadd (target pf) (usize_bits (target pf)) (inline_len i) (N.of_nat (length bs)) = Ret (inline_len i + N.of_nat (length bs))) as Eu.
    { unfold uadd. destruct (N.ltb_spec (inline_len i + N.of_nat (length bs)) (2 ^ usize_bits (target pf))) as [_|Hx]; [reflexivity|exfalso].
      unfold isize_max in Hmax. destruct Hc as [[Hu|[Hu|Hu]] _]; rewrite Hu in Hmax, Hx; cbn in Hmax, Hx; lia. }
    assert (yields m None ((string <~ with_capacity pf (inline_len i + N.of_nat (length bs)) ;; string <~ append pf string t ;; string <~ append pf string bs ;; done (HHeap string, @Ok unit out_of_memory tt)) m)
        (fun r => held_owned (fst r)) (fun m' r => matches (target pf) m' (ANominal (fst r)) (nominal_text (t ++ bs) true))) as H.
    { apply append_two; [split; [exact Hc|split; assumption]|exact Hv|exact Hvb|]. rewrite app_length. lia. }
    destruct (N.of_nat (length bs) <? 256); cbn [andb].
    2:{ injection E as <-. cbn [is_inline] in Hi. rewrite <- Hi. cbn [negb]. rewrite (pure_then _ _ _ _ Eu), Es. exact H. }
    destruct (inline_len i + N.of_nat (length bs) <? 256); cbn [andb].
    2:{ injection E as <-. cbn [is_inline] in Hi. rewrite <- Hi. cbn [negb]. rewrite (pure_then _ _ _ _ Eu), Es. exact H. }
    destruct (inline_len i + N.of_nat (length bs) <=? INLINE_CAPACITY).
    2:{ injection E as <-. cbn [is_inline] in Hi. rewrite <- Hi. cbn [negb]. rewrite (pure_then _ _ _ _ Eu), Es. exact H. }
    destruct (inline_push_str i bs (inline_len i + N.of_nat (length bs))) as [i'| | |]; cbn [obind] in E; try discriminate.
    injection E as <-. unfold and_then, pure, done. cbn [yields fst held_owned]. split; [apply frame_refl|].
    cbn [is_inline] in Hi. cbn [matches nominal_text is_string in_heap text]. rewrite <- Hi. auto.
  - destruct Hm as (_ & -> & Hr). cbn [orb held_owned]. unfold held_push_str.
    eapply yields_then; [apply append_yields; [exact Hp|exact Hr|exact Hvb]|].
    intros m1 s1 H1. split; [apply frame_refl|]. cbn [fst matches nominal_text is_string in_heap text]. auto.
Qed.

Lemma change_edit pf m v t h f : valid_platform pf -> matches (target pf) m (ANominal v) (nominal_text t h) -> valid_op (Edit f) ->
  surely m (held_owned v) (held_edit v f m) held_owned
    (fun m' v' => matches (target pf) m' (ANominal v') (nominal_text (f t) (h || negb (at_most_62 (f t))))).
Proof.
  intros Hp Hm Hf. destruct v as [i|s]; cbn [matches nominal_text is_string in_heap text] in Hm.
  - destruct Hm as (_ & -> & Hg & H62). cbn [orb held_owned].
    destruct (inline_facts _ _ _ Hg) as (Es & El & Hv). destruct Hp as (Hc & Ha & Hgrow).
    destruct (inline_step _ _ _ (Edit f) Ha Hg Hf) as (s' & E & Hg' & Hi). cbn [op_text is_edit orb] in Hg', Hi.
    destruct (Hf t Hv) as [Hvf Hlf].
    unfold held_edit. cbn [step] in E. destruct (edit_str (Inline i) f) as [s1| | |] eqn:Ee; cbn [obind] in E; try discriminate. injection E as <-.
    destruct s1 as [i'|]; [|discriminate]. unfold and_then, pure, done. cbn [surely]. split; [apply frame_refl|].
    cbn [matches nominal_text is_string in_heap text]. assert (at_most_62 (f t) = true) as -> by (unfold at_most_62; rewrite Hlf; exact H62). auto.
  - destruct Hm as (_ & -> & Hr). cbn [orb held_owned]. pose proof Hr as (Hlen & Hv & H0 & H1). destruct (Hf t Hv) as [Hvf Hlf].
    unfold held_edit. unfold and_then at 1. rewrite (string_str_reads _ _ _ Hr). cbn zeta. rewrite Hvf, Hlf, Nat.eqb_refl. cbn [andb].
    destruct (N.eq_dec (capacity s) 0) as [E|E].
    + pose proof (H0 E) as ->. destruct (f []) as [|x l] eqn:Ef; [|discriminate]. unfold and_then, write_at, done. split; [apply frame_refl|].
      cbn [matches nominal_text is_string in_heap text]. auto.
    + destruct (H1 E) as (rest & Hb & Hcap).
      eapply surely_then; [apply (write_at_surely m s 0 (f t) _ E Hb); rewrite app_length, map_length; cbn [N.to_nat]; lia|].
      intros m1 [] Hl. cbn beta in Hl. change (N.to_nat 0) with 0%nat in Hl. rewrite overwrite_front in Hl by (rewrite !map_length; lia).
      rewrite map_length, Hlf, skipn_all2 in Hl by (rewrite map_length; lia). cbn [app] in Hl.
      split; [apply frame_refl|]. cbn [matches nominal_text is_string in_heap text]. split; [reflexivity|]. split; [reflexivity|].
      apply reads_intro; [lia|exact Hvf|congruence|]. intros _. exists rest. split; [exact Hl|]. lia.
Qed.

Lemma yields_map {A B} m before (f : action A) (g : A -> B) after after' (post : memory -> A -> Prop) (post' : memory -> B -> Prop) :
  yields m before (f m) after post ->
  (forall a, after' (g a) = after a) -> (forall m' a, post m' a -> post' m' (g a)) ->
  yields m before (and_then f (fun a => done (g a)) m) after' post'.
Proof.
  intros Hf Ha Hp. eapply yields_then; [exact Hf|]. intros m1 a H. cbn. rewrite Ha. split; [apply frame_refl|]. apply Hp, H.
Qed.

Lemma change_yields pf m v t h o : valid_platform pf -> matches (target pf) m (ANominal v) (nominal_text t h) -> valid_op o ->
  match o with PushStr bs => N.of_nat (length bs) <= isize_max (target pf) | _ => True end ->
  yields m (held_owned v) (change pf v o m) held_owned
    (fun m' v' => matches (target pf) m' (ANominal v') (nominal_text (op_text t o) (h || negb (at_most_62 (op_text t o))))).
Proof.
  intros Hp Hm Ho Hmax.
  assert (forall (f : action (held * result unit out_of_memory)) k, (forall r, k r = @done held (fst r)) -> and_then f k m = and_then f (fun r => done (fst r)) m) as Hext.
  { intros f k Hk. unfold and_then. destruct (f m); [rewrite Hk|reflexivity|reflexivity]. reflexivity. }
  destruct o as [ch|bs|ch|f]; cbn [change op_text valid_op] in *.
  - rewrite Hext by (intros [? ?]; reflexivity). eapply yields_map; [apply change_push; eassumption|reflexivity|auto].
  - rewrite Hext by (intros [? ?]; reflexivity). eapply yields_map; [apply change_push_str; eassumption|reflexivity|auto].
  - rewrite Hext by (intros [? ?]; reflexivity). eapply yields_map; [apply change_push_front; eassumption|reflexivity|auto].
  - apply surely_yields, (change_edit pf); assumption.
Qed.

(** *** Variables *)

Definition value_owned (v : value) : option nat :=
  match v with ANominal v => held_owned v | AString s => owned s end.

Definition owner (st : variables) (x p : nat) : Prop := exists v, st x = Some v /\ is (value_owned v) p.

Lemma owner_owns st x p : owner st x p <-> owns st x p.
Proof.
  unfold owner, owns. split.
  - intros (v & E & H). exists v. destruct v as [[i|s]|s]; cbn [value_owned held_owned its_string] in *; [discriminate| |];
      (exists s; split; [exact E|]; split; [reflexivity|]; apply owned_has, H).
  - intros (v & s & E & Es & H). exists v. split; [exact E|]. apply owned_has in H.
    destruct v as [[i|s']|s']; cbn [value_owned held_owned its_string] in *; [discriminate| |]; injection Es as ->; exact H.
Qed.

Lemma reads_stable m m' s bs : reads m s bs -> (forall p, is (owned s) p -> live m' p = live m p) -> reads m' s bs.
Proof.
  intros (Hlen & Hv & H0 & H1) Hl. apply reads_intro; [exact Hlen|exact Hv|exact H0|]. intros E. destruct (H1 E) as (rest & Hb & Hc). exists rest. split; [|exact Hc].
  rewrite Hl; [exact Hb|]. apply owned_has. split; [exact E|reflexivity].
Qed.

Lemma matches_stable c m m' v d : matches c m v d -> (forall p, is (value_owned v) p -> live m' p = live m p) -> matches c m' v d.
Proof.
  destruct v as [[i|s]|s]; cbn [matches value_owned held_owned]; [tauto| |]; intros (H1 & H2 & H3) Hl; (split; [exact H1|]; split; [exact H2|]; eapply reads_stable; eassumption).
Qed.

Lemma matches_live c m v d p : matches c m v d -> is (value_owned v) p -> live m p <> None.
Proof.
  destruct v as [[i|s]|s]; cbn [matches value_owned held_owned]; [discriminate| |]; intros (_ & _ & H) Hp; apply owned_has in Hp as [Hc <-];
    destruct H as (_ & _ & _ & H); destruct (H Hc) as (rest & -> & _); discriminate.
Qed.

(** The variables have the described texts, share no block with each other or
    with [extra], and together with it own all blocks. *)
Definition inv (c : config) (m : memory) (st : variables) (sp : descriptions) (extra : option nat) : Prop :=
  (forall x, match st x, sp x with Some v, Some d => matches c m v d | None, None => True | _, _ => False end) /\
  (forall x y p, owner st x p -> owner st y p -> x = y) /\
  (forall x p, owner st x p -> ~ is extra p) /\
  (forall p, live m p <> None -> is extra p \/ exists x, owner st x p).

Lemma inv_owner_live c m st sp extra x p : inv c m st sp extra -> owner st x p -> live m p <> None.
Proof.
  intros (H & _) (v & E & Hp). specialize (H x). rewrite E in H. destruct (sp x) as [d|]; [|contradiction]. eapply matches_live; eassumption.
Qed.

Lemma live_lt m p : live m p <> None -> (p < length (blocks m))%nat.
Proof. intros H. destruct (live m p) as [b|] eqn:E; [|contradiction]. eapply live_bound, E. Qed.

Lemma inv_action c m st sp before m' after : inv c m st sp before -> frame m m' before after -> inv c m' st sp after.
Proof.
  intros Hinv (F1 & F2 & F3 & F4). pose proof Hinv as (I1 & I2 & I3 & I4). split; [|split; [|split]].
  - intros x. specialize (I1 x). destruct (st x) as [v|] eqn:E; [|exact I1]. destruct (sp x) as [d|]; [|exact I1].
    eapply matches_stable; [exact I1|]. intros p Hp. assert (owner st x p) as Ho by (exists v; auto).
    apply F2; [apply live_lt; eapply inv_owner_live; eassumption|eapply I3, Ho].
  - exact I2.
  - intros x p Ho Ha. destruct (F3 p Ha) as [Hb|Hb]; [exact (I3 x p Ho Hb)|].
    pose proof (live_lt _ _ (inv_owner_live _ _ _ _ _ _ _ Hinv Ho)). lia.
  - intros p Hl. destruct (F4 p Hl) as [Ha|[Hm Hb]]; [auto|]. destruct (I4 p Hm) as [|]; [contradiction|auto].
Qed.

Lemma inv_ext c m st st' sp sp' extra : inv c m st sp extra -> (forall x, st' x = st x) -> (forall x, sp' x = sp x) -> inv c m st' sp' extra.
Proof.
  intros (I1 & I2 & I3 & I4) Hs Hp.
  assert (forall x p, owner st' x p <-> owner st x p) as Ho by (intros x p; unfold owner; rewrite Hs; reflexivity).
  split; [|split; [|split]].
  - intros x. rewrite Hs, Hp. apply I1.
  - intros x y p H1 H2. apply Ho in H1, H2. eapply I2; eassumption.
  - intros x p H. apply Ho in H. eapply I3, H.
  - intros p H. destruct (I4 p H) as [|(x & Hx)]; [auto|]. right. exists x. apply Ho, Hx.
Qed.

Lemma owner_set st x v y p : owner (set_var st x v) y p <-> (y = x /\ exists w, v = Some w /\ is (value_owned w) p) \/ y <> x /\ owner st y p.
Proof.
  unfold owner, set_var. destruct (Nat.eqb_spec y x) as [->|Hne]; split.
  - intros (w & H). left. eauto.
  - intros [[_ (w & H)]|[H _]]; [eauto|contradiction].
  - intros H. right. auto.
  - intros [[H _]|[_ H]]; [contradiction|exact H].
Qed.

Lemma inv_take c m st sp x v d : inv c m st sp None -> st x = Some v -> sp x = Some d ->
  inv c m (set_var st x None) (put sp x None) (value_owned v) /\ matches c m v d.
Proof.
  intros (I1 & I2 & I3 & I4) E Ed. split.
  2:{ specialize (I1 x). rewrite E, Ed in I1. exact I1. }
  split; [|split; [|split]].
  - intros y. unfold set_var, put. destruct (Nat.eqb y x); [exact I|]. apply I1.
  - intros y z p H1 H2. apply owner_set in H1 as [[_ (w & [=] & _)]|[_ H1]]. apply owner_set in H2 as [[_ (w & [=] & _)]|[_ H2]]. eapply I2; eassumption.
  - intros y p H Hx. apply owner_set in H as [[_ (w & [=] & _)]|[Hne H]]. apply Hne. apply (I2 y x p); [exact H|exists v; auto].
  - intros p Hl. destruct (I4 p Hl) as [[=]|(y & Hy)]. destruct (Nat.eq_dec y x) as [->|Hne].
    + left. destruct Hy as (w & Ew & Hw). rewrite E in Ew. injection Ew as <-. exact Hw.
    + right. exists y. apply owner_set. auto.
Qed.

Lemma inv_put c m st sp y v d : inv c m st sp (value_owned v) -> st y = None -> matches c m v d ->
  inv c m (set_var st y (Some v)) (put sp y (Some d)) None.
Proof.
  intros (I1 & I2 & I3 & I4) E Hm. split; [|split; [|split]].
  - intros x. unfold set_var, put. destruct (Nat.eqb x y); [exact Hm|apply I1].
  - intros x z p H1 H2. apply owner_set in H1, H2.
    destruct H1 as [[-> (w & [= <-] & Hw)]|[Hn1 H1]], H2 as [[-> (w' & [= <-] & Hw')]|[Hn2 H2]].
    + reflexivity.
    + exfalso. exact (I3 _ _ H2 Hw).
    + exfalso. exact (I3 _ _ H1 Hw').
    + eapply I2; eassumption.
  - intros x p _ [=].
  - intros p Hl. right. destruct (I4 p Hl) as [H|(x & Hx)].
    + exists y. apply owner_set. left. eauto.
    + exists x. apply owner_set. right. split; [|exact Hx]. intros ->. destruct Hx as (w & Ew & _). congruence.
Qed.

Lemma value_drop_surely c m v d : matches c m v d -> surely m (value_owned v) (value_drop v m) (fun _ => None) (fun _ _ => True).
Proof.
  destruct v as [[i|s]|s]; cbn [matches value_owned held_owned value_drop held_drop].
  - intros _. split; [apply frame_refl|exact I].
  - intros (_ & _ & H). eapply string_drop_surely, H.
  - intros (_ & _ & H). eapply string_drop_surely, H.
Qed.

(** Dropping a variable while something else is held. *)
Lemma inv_drop c m st sp extra y old m' : inv c m st sp extra -> st y = Some old -> frame m m' (value_owned old) None ->
  (forall p, is extra p -> live m p <> None) ->
  inv c m' (set_var st y None) (put sp y None) extra /\ (forall p, is extra p -> live m' p = live m p).
Proof.
  intros Hinv E (F1 & F2 & F3 & F4) Hex. pose proof Hinv as (I1 & I2 & I3 & I4). split.
  - split; [|split; [|split]].
    + intros x. unfold set_var, put. destruct (Nat.eqb_spec x y) as [->|Hne]; [exact I|]. specialize (I1 x).
      destruct (st x) as [v|] eqn:Ex; [|exact I1]. destruct (sp x) as [d|]; [|exact I1]. eapply matches_stable; [exact I1|].
      intros p Hp. assert (owner st x p) as Ho by (exists v; auto). apply F2; [apply live_lt; eapply inv_owner_live; eassumption|].
      intros Hb. apply Hne. apply (I2 x y p Ho). exists old. auto.
    + intros x z p H1 H2. apply owner_set in H1 as [[_ (w & [=] & _)]|[_ H1]]. apply owner_set in H2 as [[_ (w & [=] & _)]|[_ H2]]. eapply I2; eassumption.
    + intros x p H. apply owner_set in H as [[_ (w & [=] & _)]|[_ H]]. eapply I3, H.
    + intros p Hl. destruct (F4 p Hl) as [[=]|[Hm Hb]]. destruct (I4 p Hm) as [|(x & Hx)]; [auto|]. right. exists x. apply owner_set. right. split; [|exact Hx].
      intros ->. destruct Hx as (w & Ew & Hw). rewrite E in Ew. injection Ew as <-. contradiction.
  - intros p Hp. apply F2; [apply live_lt, Hex, Hp|]. intros Hb. apply (I3 y p); [exists old; auto|exact Hp].
Qed.

Lemma assign_surely c m st sp y v d : inv c m st sp (value_owned v) -> matches c m v d ->
  match assign st y v m with
  | Done m' st' => inv c m' st' (put sp y (Some d)) None
  | _ => False
  end.
Proof.
  intros Hinv Hm. unfold assign. destruct (st y) as [old|] eqn:E.
  - pose proof Hinv as (I1 & _). pose proof (I1 y) as Iy. rewrite E in Iy. destruct (sp y) as [d'|]; [|contradiction].
    pose proof (value_drop_surely _ _ _ _ Iy) as Hd. unfold and_then. destruct (value_drop old m) as [m1 []| |]; [|exact Hd|exact Hd].
    destruct Hd as [Hf _]. destruct (inv_drop _ _ _ _ _ _ _ _ Hinv E Hf) as [Hinv1 Hl]; [intros p Hp; exact (matches_live _ _ _ _ _ Hm Hp)|].
    unfold done. eapply inv_ext; [eapply inv_put; [exact Hinv1| |]| |].
    + unfold set_var. rewrite Nat.eqb_refl. reflexivity.
    + eapply matches_stable; [exact Hm|exact Hl].
    + intros x. unfold set_var. destruct (Nat.eqb x y); reflexivity.
    + intros x. unfold put. destruct (Nat.eqb x y); reflexivity.
  - unfold done. apply inv_put; assumption.
Qed.

Lemma make_yields pf m k : valid_platform pf -> (forall x, valid_statement (target pf) (Let x k)) ->
  yields m None (make pf k m) value_owned (fun m' v => matches (target pf) m' v (source_means k)).
Proof.
  intros Hp Hk. specialize (Hk 0%nat). destruct k as [| |ch|bs|bs spare]; cbn [make source_means valid_statement] in *.
  - split; [apply frame_refl|]. split; [reflexivity|]. split; [reflexivity|]. split; [apply (good_reads _ new []), new_rep|reflexivity].
  - split; [apply frame_refl|]. split; [reflexivity|]. split; [reflexivity|]. split; [apply (good_reads _ new_reverse []), new_reverse_rep|reflexivity].
  - eapply (yields_map _ _ _ _ held_owned); [|reflexivity|intros m' a H; exact H]. unfold held_from_char.
    assert (matches (target pf) m (ANominal (HInline {| length_byte := 0; cells := uninit_cells |})) (nominal_text [] false)) as H0.
    { split; [reflexivity|]. split; [reflexivity|]. split; [apply (good_reads _ new []), new_rep|reflexivity]. }
    pose proof (change_push pf m _ _ _ ch Hp H0 Hk) as H. cbn [held_owned app orb] in H.
    unfold and_then. destruct (held_push _ _ ch m) as [m1 [v r]|m1 why|] eqn:E; [|exact H|exact H]. cbn [fst] in H.
    destruct r as [u|e]; [exact H|exfalso].
    unfold held_push in E. rewrite (pure_then _ _ _ _ (char_len_ok ch)) in E. cbn zeta in E. rewrite (pure_then _ (0 + len_utf8 ch)) in E by (apply uadd_8; [discriminate|pose proof (len_utf8_bounds ch); lia]).
    pose proof (len_utf8_bounds ch). destruct (N.leb_spec (0 + len_utf8 ch) INLINE_CAPACITY) as [_|Hx]; [|unfold INLINE_CAPACITY in Hx; lia].
    unfold and_then, pure in E. destruct (inline_push _ _ _ _ _); unfold done in E; discriminate.
  - eapply (yields_map _ _ _ _ held_owned); [|reflexivity|intros m' a H; exact H]. unfold held_from_str.
    pose proof (construct_spec (target pf) (FromStr bs) Hk) as H. destruct Hp as (Hc & Ha & Hg). cbn [constructor_fits] in H. rewrite Ha in H. cbn [orb construct constructor_text] in H.
    destruct H as (s & E & Hgood & Hi). unfold from_str in E. cbn zeta in E.
    destruct ((N.of_nat (length bs) <? 256) && (N.of_nat (length bs) <=? INLINE_CAPACITY)).
    + destruct (write_zip uninit_cells 0 (length bs) bs) as [cs| | |]; cbn [obind] in E; try discriminate. injection E as <-.
      split; [apply frame_refl|]. cbn [is_inline] in Hi. cbn [matches inline_text is_string in_heap text]. rewrite <- Hi. auto.
    + rewrite Ha in E. injection E as <-. cbn [is_inline from_string] in Hi.
      eapply (yields_map _ _ _ _ owned); [apply string_from_yields; [split; [exact Hc|split; assumption]|exact Hk]|reflexivity|].
      intros m1 s1 [Hr _]. cbn [matches inline_text is_string in_heap text]. rewrite <- Hi. auto.
  - eapply yields_then; [apply with_capacity_yields, Hp|]. intros m1 s1 [Hr Hcap].
    eapply surely_then; [apply (append_surely pf m1 s1 [] bs Hr Hk)|].
    + destruct Hr as [Hl _]. cbn [length] in Hl. lia.
    + intros m2 s2 [Hr2 _]. cbn [app] in Hr2. split; [apply frame_refl|]. cbn [matches string_text is_string in_heap text]. auto.
Qed.

Lemma string_clone_yields pf m s bs : valid_platform pf -> reads m s bs ->
  yields m None (string_clone pf s m) owned (fun m' s' => reads m' s' bs).
Proof.
  intros Hp Hr. unfold string_clone, and_then. rewrite (string_str_reads _ _ _ Hr).
  eapply yields_weaken; [apply string_from_yields; [exact Hp|apply Hr]|]. cbn beta. tauto.
Qed.

Lemma inv_sp c m st sp extra x v : inv c m st sp extra -> st x = Some v -> exists d, sp x = Some d /\ matches c m v d.
Proof. intros (H & _) E. specialize (H x). rewrite E in H. destruct (sp x) as [d|]; [eauto|contradiction]. Qed.

Lemma inv_none c m st sp extra x : inv c m st sp extra -> st x = None -> sp x = None.
Proof. intros (H & _) E. specialize (H x). rewrite E in H. destruct (sp x); [contradiction|reflexivity]. Qed.

(** A new value is made from others that stay, and assigned. *)
Lemma make_assign {A} c m st sp y (f : action A) (g : A -> value) after (d : described) :
  inv c m st sp None -> yields m None (f m) after (fun m' a => matches c m' (g a) d) -> (forall a, value_owned (g a) = after a) ->
  match (a <~ f ;; assign st y (g a)) m with
  | Done m' st' => inv c m' st' (put sp y (Some d)) None
  | Stopped m' _ => m' = m
  | Undefined => False
  end.
Proof.
  intros Hinv Hf Ha. unfold and_then. destruct (f m) as [m1 a|m1 why|]; [|exact Hf|exact Hf]. destruct Hf as [Hfr Hm].
  pose proof (inv_action _ _ _ _ _ _ _ Hinv Hfr) as Hinv1. rewrite <- Ha in Hinv1.
  pose proof (assign_surely _ _ _ _ y _ _ Hinv1 Hm) as H. destruct (assign st y (g a) m1); [exact H|contradiction|contradiction].
Qed.

Lemma execute_inv pf m st sp i : valid_platform pf -> valid_statement (target pf) i -> inv (target pf) m st sp None ->
  match execute pf st i m with
  | Done m' st' => inv (target pf) m' st' (statement_means sp i) None
  | Stopped m' _ => m' = m /\ inv (target pf) m (after_panic st i) (gone sp i) None
  | Undefined => False
  end.
Proof.
  intros Hp Hi Hinv.
  assert (forall r : status variables, match r with Done m' st' => inv (target pf) m' st' (statement_means sp i) None | Stopped m' _ => m' = m | Undefined => False end ->
    (after_panic st i = st /\ gone sp i = sp) ->
    match r with Done m' st' => inv (target pf) m' st' (statement_means sp i) None | Stopped m' _ => m' = m /\ inv (target pf) m (after_panic st i) (gone sp i) None | Undefined => False end) as Hsame.
  { intros [m1 st1|m1 why|] H [E1 E2]; [exact H| |exact H]. rewrite E1, E2. auto. }
  destruct i as [x k|x o|x y|x y|x y|x y|x y|x]; cbn [execute statement_means] in *.
  - apply Hsame; [|auto]. eapply (make_assign _ _ _ _ _ _ (fun v => v)); [exact Hinv|apply make_yields; [exact Hp|intros x0; exact Hi]|reflexivity].
  - destruct (st x) as [[v|s]|] eqn:E.
    + apply Hsame; [|auto]. destruct (inv_sp _ _ _ _ _ _ _ Hinv E) as (d & Ed & Hm). rewrite Ed.
      assert (exists t h, d = nominal_text t h) as (t & h & ->).
      { destruct d as [b t h]. exists t, h. destruct v as [i|s]; cbn [matches is_string] in Hm; destruct Hm as [-> _]; reflexivity. }
      cbn [nominal_text]. destruct (inv_take _ _ _ _ _ _ _ Hinv E Ed) as [Hinv1 _].
      pose proof (change_yields pf m v t h o Hp Hm (proj1 Hi) (proj2 Hi)) as H. unfold and_then.
      destruct (change pf v o m) as [m1 v1|m1 why|]; [|exact H|exact H]. destruct H as [Hfr Hm1]. unfold done.
      pose proof (inv_action _ _ _ _ _ _ _ Hinv1 Hfr) as Hinv2.
      assert (set_var st x None x = None) as E0 by (unfold set_var; rewrite Nat.eqb_refl; reflexivity).
      pose proof (inv_put _ _ _ _ x (ANominal v1) _ Hinv2 E0 Hm1) as Hinv3. eapply inv_ext; [exact Hinv3| |].
      * intros z. unfold set_var. destruct (Nat.eqb z x); reflexivity.
      * intros z. unfold put. destruct (Nat.eqb z x); reflexivity.
    + destruct (inv_sp _ _ _ _ _ _ _ Hinv E) as (d & Ed & Hm). rewrite Ed. destruct d as [b t h]. cbn [matches is_string] in Hm. destruct Hm as [-> _]. exact Hinv.
    + rewrite (inv_none _ _ _ _ _ _ Hinv E). exact Hinv.
  - destruct (st x) as [[v|s]|] eqn:E.
    + apply Hsame; [|auto]. destruct (inv_sp _ _ _ _ _ _ _ Hinv E) as (d & Ed & Hm). rewrite Ed.
      eapply (make_assign _ _ _ _ _ _ ANominal held_owned); [exact Hinv| |reflexivity].
      destruct v as [i|s]; cbn [held_clone].
      * split; [apply frame_refl|exact Hm].
      * destruct Hm as (H1 & H2 & H3). eapply (yields_map _ _ _ _ owned); [apply string_clone_yields; [exact Hp|exact H3]|reflexivity|].
        intros m1 s1 Hr. cbn [matches]. auto.
    + apply Hsame; [|auto]. destruct (inv_sp _ _ _ _ _ _ _ Hinv E) as (d & Ed & Hm). rewrite Ed.
      eapply (make_assign _ _ _ _ _ _ AString owned); [exact Hinv| |reflexivity].
      destruct Hm as (H1 & H2 & H3). eapply yields_weaken; [apply string_clone_yields; [exact Hp|exact H3]|]. intros m1 s1 Hr. cbn [matches]. auto.
    + rewrite (inv_none _ _ _ _ _ _ Hinv E). exact Hinv.
  - destruct (st x) as [[v|s]|] eqn:E.
    + destruct (inv_sp _ _ _ _ _ _ _ Hinv E) as (d & Ed & Hm). rewrite Ed. destruct (inv_take _ _ _ _ _ _ _ Hinv E Ed) as [Hinv1 _].
      destruct d as [b t h]. destruct v as [i|s]; cbn [held_into_string].
      * destruct Hm as (H1 & H2 & Hg & H62). cbn [is_string text in_heap] in *. subst b. destruct (inline_facts _ _ _ Hg) as (Es & El & Hv).
        assert (yields m None ((str <~ pure (inline_as_str i) ;; string_from pf str) m) owned
          (fun m' s => matches (target pf) m' (AString s) (string_text t))) as Hy.
        { rewrite (pure_then _ _ _ _ Es). eapply yields_weaken; [apply string_from_yields; [exact Hp|exact Hv]|]. intros m1 s1 [Hr _]. cbn [matches string_text is_string in_heap text]. auto. }
        pose proof (make_assign _ _ _ _ y _ AString _ _ Hinv1 Hy (fun _ => eq_refl)) as H.
        match type of H with match ?r with _ => _ end => destruct r as [m1 st1|m1 why|] end; [exact H| |exact H]. split; [exact H|exact Hinv1].
      * destruct Hm as (H1 & H2 & Hr). cbn [is_string text in_heap] in *. subst b. cbn [value_owned held_owned] in Hinv1.
        pose proof (assign_surely _ m (set_var st x None) (put sp x None) y (AString s) (string_text t) Hinv1) as H. cbn [matches string_text is_string in_heap text] in H.
        specialize (H (conj eq_refl (conj eq_refl Hr))). unfold and_then, done at 1. destruct (assign _ y (AString s) m); [exact H|contradiction|contradiction].
    + destruct (inv_sp _ _ _ _ _ _ _ Hinv E) as (d & Ed & Hm). rewrite Ed. destruct d as [b t h]. cbn [matches is_string] in Hm. destruct Hm as [-> _]. exact Hinv.
    + rewrite (inv_none _ _ _ _ _ _ Hinv E). exact Hinv.
  - destruct (st x) as [[[i|s]|s]|] eqn:E.
    + destruct (inv_sp _ _ _ _ _ _ _ Hinv E) as (d & Ed & Hm). rewrite Ed. destruct d as [b t h]. cbn [matches is_string in_heap] in Hm. destruct Hm as (-> & -> & _). exact Hinv.
    + apply Hsame; [|auto]. destruct (inv_sp _ _ _ _ _ _ _ Hinv E) as (d & Ed & Hm). rewrite Ed. destruct (inv_take _ _ _ _ _ _ _ Hinv E Ed) as [Hinv1 _].
      destruct d as [b t h]. destruct Hm as (H1 & H2 & Hr). cbn [is_string text in_heap] in *. subst b h.
      pose proof (assign_surely _ m (set_var st x None) (put sp x None) y (AString s) (string_text t) Hinv1) as H. cbn [matches string_text is_string in_heap text] in H.
      specialize (H (conj eq_refl (conj eq_refl Hr))). destruct (assign _ y (AString s) m); [exact H|contradiction|contradiction].
    + destruct (inv_sp _ _ _ _ _ _ _ Hinv E) as (d & Ed & Hm). rewrite Ed. destruct d as [b t h]. cbn [matches is_string] in Hm. destruct Hm as [-> _]. exact Hinv.
    + rewrite (inv_none _ _ _ _ _ _ Hinv E). exact Hinv.
  - destruct (st x) as [[v|s]|] eqn:E.
    + destruct (inv_sp _ _ _ _ _ _ _ Hinv E) as (d & Ed & Hm). rewrite Ed. destruct d as [b t h].
      assert (b = false) as -> by (destruct v; cbn [matches is_string] in Hm; apply Hm). exact Hinv.
    + apply Hsame; [|auto]. destruct (inv_sp _ _ _ _ _ _ _ Hinv E) as (d & Ed & Hm). rewrite Ed. destruct (inv_take _ _ _ _ _ _ _ Hinv E Ed) as [Hinv1 _].
      destruct d as [b t h]. destruct Hm as (H1 & H2 & Hr). cbn [is_string text in_heap] in *. subst b h.
      pose proof (assign_surely _ m (set_var st x None) (put sp x None) y (ANominal (HHeap s)) (heap_text t) Hinv1) as H. cbn [matches heap_text is_string in_heap text] in H.
      specialize (H (conj eq_refl (conj eq_refl Hr))). destruct (assign _ y (ANominal (HHeap s)) m); [exact H|contradiction|contradiction].
    + rewrite (inv_none _ _ _ _ _ _ Hinv E). exact Hinv.
  - destruct (st x) as [v|] eqn:E.
    + apply Hsame; [|auto]. destruct (inv_sp _ _ _ _ _ _ _ Hinv E) as (d & Ed & Hm). rewrite Ed. destruct (inv_take _ _ _ _ _ _ _ Hinv E Ed) as [Hinv1 _].
      pose proof (assign_surely _ _ _ _ y _ _ Hinv1 Hm) as H. destruct (assign _ y v m); [exact H|contradiction|contradiction].
    + rewrite (inv_none _ _ _ _ _ _ Hinv E). exact Hinv.
  - destruct (st x) as [v|] eqn:E.
    + destruct (inv_sp _ _ _ _ _ _ _ Hinv E) as (d & Ed & Hm). pose proof (value_drop_surely _ _ _ _ Hm) as H. unfold and_then.
      destruct (value_drop v m) as [m1 []| |]; [|contradiction|contradiction]. destruct H as [Hfr _]. unfold done.
      destruct (inv_take _ _ _ _ _ _ _ Hinv E Ed) as [Hinv1 _]. eapply inv_action; eassumption.
    + eapply inv_ext; [exact Hinv|reflexivity|]. intros z. unfold put. destruct (Nat.eqb_spec z x) as [->|]; [symmetry; eapply inv_none; eassumption|reflexivity].
Qed.

(** *** The calls *)

Definition accounts (c : config) (m : memory) : Prop :=
  Permutation (taken (calls m)) (returned (calls m) ++ sizes_in_use m) /\
  Forall (layout_ok c) (taken (calls m)).

Definition keeps {A} (c : config) (f : action A) : Prop :=
  forall m, accounts c m -> match f m with Done m' _ | Stopped m' _ => accounts c m' | Undefined => True end.

Lemma keeps_done {A} c (a : A) : keeps c (done a).
Proof. intros m H. exact H. Qed.

Lemma keeps_stopped {A} c why : keeps c (@stopped A why).
Proof. intros m H. exact H. Qed.

Lemma keeps_undefined {A} c : keeps c (@undefined A).
Proof. intros m H. exact I. Qed.

Lemma keeps_pure {A} c (o : outcome A) : keeps c (pure o).
Proof. destruct o; [apply keeps_done|apply keeps_stopped|apply keeps_stopped|apply keeps_undefined]. Qed.

Lemma keeps_then {A B} c (f : action A) (k : A -> action B) : keeps c f -> (forall a, keeps c (k a)) -> keeps c (and_then f k).
Proof.
  intros Hf Hk m H. specialize (Hf m H). unfold and_then. destruct (f m) as [m1 a|m1 why|]; [apply Hk, Hf|exact Hf|exact I].
Qed.

Lemma keeps_block c p : keeps c (block p).
Proof. intros m H. unfold block. destruct (nth_error (blocks m) p) as [[b|]|]; [exact H|exact I|exact I]. Qed.

Lemma taken_app a b : taken (a ++ b) = taken a ++ taken b.
Proof. apply flat_map_app. Qed.

Lemma returned_app a b : returned (a ++ b) = returned a ++ returned b.
Proof. apply flat_map_app. Qed.

Lemma in_use_split bl p b : nth_error bl p = Some (Some b) -> forall cs b',
  sizes_in_use {| blocks := bl; calls := cs |} = sizes_in_use {| blocks := firstn p bl; calls := cs |} ++ N.of_nat (length b) :: sizes_in_use {| blocks := skipn (S p) bl; calls := cs |} /\
  sizes_in_use {| blocks := set_nth bl p b'; calls := cs |} = sizes_in_use {| blocks := firstn p bl; calls := cs |} ++
    match b' with Some b' => [N.of_nat (length b')] | None => [] end ++ sizes_in_use {| blocks := skipn (S p) bl; calls := cs |}.
Proof.
  intros E cs b'. unfold sizes_in_use, set_nth. cbn [blocks]. rewrite flat_map_app. cbn [flat_map]. split; [|reflexivity].
  rewrite <- (firstn_skipn p bl) at 1. rewrite flat_map_app. f_equal.
  assert (skipn p bl = Some b :: skipn (S p) bl) as ->; [|reflexivity].
  clear b'. revert bl E. induction p as [|p IH]; intros [|a bl] E; cbn in *; try discriminate; [congruence|]. exact (IH bl E).
Qed.

Lemma keeps_allocate c pf n : target pf = c -> n <> 0 -> keeps c (allocate pf n [] (Allocate n)).
Proof.
  intros <- Hn m [H1 H2]. unfold allocate. destruct (N.ltb_spec (isize_max (target pf)) n) as [|Hle]; [split; assumption|].
  destruct (grants pf (calls m) (Allocate n)); [|split; assumption]. unfold accounts, sizes_in_use. cbn [blocks calls].
  rewrite taken_app, returned_app, flat_map_app. cbn [taken returned flat_map app length]. rewrite app_nil_r, app_assoc, repeat_length, Nat.sub_0_r, N2Nat.id. split.
  - apply Permutation_app_tail, H1.
  - apply Forall_app. split; [exact H2|]. constructor; [|constructor]. unfold layout_ok. lia.
Qed.

Lemma keeps_reallocate c pf p from to : target pf = c -> from <= to -> to <> 0 -> keeps c (reallocate pf p from to).
Proof.
  intros <- Hle Hn m [H1 H2]. unfold reallocate, and_then, block.
  destruct (nth_error (blocks m) p) as [[b|]|] eqn:Eb; [|exact I|exact I]. destruct (N.eqb_spec (N.of_nat (length b)) from) as [Ef|]; [|exact I].
  unfold allocate. destruct (N.ltb_spec (isize_max (target pf)) to) as [|Hmax]; [split; assumption|].
  destruct (grants pf (calls m) (Reallocate from to)); [|split; assumption]. unfold set_block, done, with_blocks, accounts. cbn [blocks calls].
  assert (nth_error (blocks m ++ [Some (b ++ repeat None (N.to_nat to - length b))]) p = Some (Some b)) as Eb1.
  { rewrite nth_error_app1; [exact Eb|]. apply nth_error_Some. congruence. }
  destruct (in_use_split _ _ _ Eb1 (calls m ++ [Reallocate from to]) None) as [E1 E2]. rewrite E2. cbn [app].
  destruct (in_use_split _ _ _ Eb (calls m) None) as [E3 _]. unfold sizes_in_use in E1. cbn [blocks] in E1. rewrite flat_map_app in E1. cbn [flat_map] in E1.
  rewrite taken_app, returned_app. cbn [taken returned flat_map app]. split.
  - rewrite app_length, repeat_length, app_nil_r in E1. replace (N.of_nat (length b + (N.to_nat to - length b))) with to in E1 by lia. rewrite Ef in E1.
    set (L := sizes_in_use {| blocks := firstn p _; calls := _ |}) in *. set (R := sizes_in_use {| blocks := skipn (S p) _; calls := _ |}) in *.
    fold (sizes_in_use m) in E1. change (flat_map _ (firstn _ _)) with L in E1. change (flat_map _ (skipn _ _)) with R in E1.
    rewrite <- app_assoc. apply (Permutation_trans (Permutation_app_tail _ H1)). rewrite <- app_assoc. apply Permutation_app_head.
    rewrite E1. cbn [app]. symmetry. apply Permutation_middle.
  - apply Forall_app. split; [exact H2|]. constructor; [|constructor]. unfold layout_ok. lia.
Qed.

Lemma keeps_deallocate c p n : keeps c (deallocate p n).
Proof.
  intros m [H1 H2]. unfold deallocate, and_then, block.
  destruct (nth_error (blocks m) p) as [[b|]|] eqn:Eb; [|exact I|exact I]. destruct (N.eqb_spec (N.of_nat (length b)) n) as [Ef|]; [|exact I].
  unfold set_block, with_blocks, accounts. cbn [blocks calls].
  destruct (in_use_split _ _ _ Eb (calls m) None) as [E1 E2]. cbn [app] in E2.
  rewrite taken_app, returned_app. cbn [taken returned flat_map app]. rewrite app_nil_r. split; [|exact H2].
  apply (Permutation_trans H1). rewrite <- app_assoc. apply Permutation_app_head.
  change (sizes_in_use {| blocks := set_nth (blocks m) p None; calls := calls m ++ [Deallocate n] |}) with (sizes_in_use {| blocks := set_nth (blocks m) p None; calls := calls m |}).
  change (sizes_in_use m) with (sizes_in_use {| blocks := blocks m; calls := calls m |}). rewrite E1, E2, Ef. cbn [app]. symmetry. apply Permutation_middle.
Qed.

(** A block is replaced by one of its size. *)
Lemma keeps_write c p b b' m : accounts c m -> nth_error (blocks m) p = Some (Some b) -> length b' = length b ->
  accounts c (with_blocks m (set_nth (blocks m) p (Some b'))).
Proof.
  intros [H1 H2] Eb Hl. unfold with_blocks, accounts. cbn [calls]. split; [|exact H2].
  destruct (in_use_split _ _ _ Eb (calls m) (Some b')) as [E1 E2]. rewrite E2, Hl. cbn [app]. rewrite <- E1. exact H1.
Qed.

Lemma overwrite_same_length (b new : list cell) off : (off + length new <= length b)%nat -> length (overwrite b off new) = length b.
Proof. intros H. unfold overwrite. rewrite !app_length, firstn_length, skipn_length. lia. Qed.

Lemma keeps_write_at c s off bs : keeps c (write_at s off bs).
Proof.
  destruct bs as [|b0 bs]; [apply keeps_done|]. intros m H. unfold write_at, and_then, block.
  destruct (nth_error (blocks m) (pointer s)) as [[b|]|] eqn:Eb; [|exact I|exact I]. unfold raw_copy.
  destruct (Nat.leb_spec (N.to_nat off + length (b0 :: bs)) (length b)) as [Hle|]; [|exact I]. unfold pure, done, set_block.
  apply (keeps_write c _ b); [exact H|exact Eb|]. apply overwrite_same_length. rewrite map_length. exact Hle.
Qed.

Lemma keeps_move_to c s off : keeps c (move_to s off).
Proof.
  intros m H. unfold move_to. destruct (len s =? 0); [exact H|]. unfold and_then, block.
  destruct (nth_error (blocks m) (pointer s)) as [[b|]|] eqn:Eb; [|exact I|exact I].
  destruct (N.leb_spec (off + len s) (N.of_nat (length b))) as [Hle|]; [|exact I]. unfold set_block.
  apply (keeps_write c _ b); [exact H|exact Eb|]. apply overwrite_same_length. unfold window. cbn [skipn]. rewrite firstn_length. lia.
Qed.

Lemma keeps_with_capacity pf n : keeps (target pf) (with_capacity pf n).
Proof.
  unfold with_capacity. destruct (N.eqb_spec n 0); [apply keeps_done|]. apply keeps_then; [apply keeps_allocate; [reflexivity|assumption]|]. intros p. apply keeps_done.
Qed.

Lemma keeps_reserve pf s n : valid_platform pf -> keeps (target pf) (reserve pf s n).
Proof.
  intros (_ & _ & Hg). unfold reserve. destruct (N.leb_spec n (capacity s - len s)) as [|Hn]; [apply keeps_done|]. cbn zeta.
  destruct (2 ^ usize_bits (target pf) <=? len s + n); [apply keeps_stopped|]. specialize (Hg (capacity s) (len s + n)).
  apply keeps_then; [|intros p; apply keeps_done]. destruct (capacity s =? 0); [apply keeps_allocate; [reflexivity|lia]|apply keeps_reallocate; [reflexivity|lia|lia]].
Qed.

Lemma keeps_append pf s bs : valid_platform pf -> keeps (target pf) (append pf s bs).
Proof.
  intros Hp. unfold append. apply keeps_then; [apply keeps_reserve, Hp|]. intros s1. apply keeps_then; [apply keeps_write_at|]. intros _. apply keeps_done.
Qed.

Lemma keeps_prepend pf s bs : valid_platform pf -> keeps (target pf) (prepend pf s bs).
Proof.
  intros Hp. unfold prepend. apply keeps_then; [apply keeps_reserve, Hp|]. intros s1. apply keeps_then; [apply keeps_move_to|]. intros _.
  apply keeps_then; [apply keeps_write_at|]. intros _. apply keeps_done.
Qed.

Lemma keeps_string_str c s : keeps c (string_str s).
Proof.
  unfold string_str. destruct (len s =? 0); [apply keeps_done|]. apply keeps_then; [apply keeps_block|]. intros b. apply keeps_then; [apply keeps_pure|]. intros bs.
  destruct (valid_utf8 bs); [apply keeps_done|apply keeps_undefined].
Qed.

Lemma keeps_string_from pf bs : valid_platform pf -> keeps (target pf) (string_from pf bs).
Proof. intros Hp. unfold string_from. apply keeps_then; [apply keeps_with_capacity|]. intros s. apply keeps_append, Hp. Qed.

Lemma keeps_string_clone pf s : valid_platform pf -> keeps (target pf) (string_clone pf s).
Proof. intros Hp. unfold string_clone. apply keeps_then; [apply keeps_string_str|]. intros bs. apply keeps_string_from, Hp. Qed.

Lemma keeps_string_drop c s : keeps c (string_drop s).
Proof. unfold string_drop. destruct (capacity s =? 0); [apply keeps_done|apply keeps_deallocate]. Qed.

Lemma keeps_value_drop c v : keeps c (value_drop v).
Proof. destruct v as [[i|s]|s]; [apply keeps_done|apply keeps_string_drop|apply keeps_string_drop]. Qed.

Ltac keep Hp :=
  match goal with
  | |- keeps _ (and_then _ _) => apply keeps_then; [keep Hp|intros ?; keep Hp]
  | |- keeps _ (done _) => apply keeps_done
  | |- keeps _ (stopped _) => apply keeps_stopped
  | |- keeps _ undefined => apply keeps_undefined
  | |- keeps _ (pure _) => apply keeps_pure
  | |- keeps _ (with_capacity _ _) => apply keeps_with_capacity
  | |- keeps _ (append _ _ _) => apply keeps_append, Hp
  | |- keeps _ (prepend _ _ _) => apply keeps_prepend, Hp
  | |- keeps _ (write_at _ _ _) => apply keeps_write_at
  | |- keeps _ (string_str _) => apply keeps_string_str
  | |- keeps _ (string_from _ _) => apply keeps_string_from, Hp
  | |- keeps _ (string_clone _ _) => apply keeps_string_clone, Hp
  | |- keeps _ (value_drop _) => apply keeps_value_drop
  | |- keeps _ (let _ := _ in _) => cbn zeta; keep Hp
  | |- keeps _ (match ?x with _ => _ end) => destruct x; keep Hp
  | |- keeps _ _ => idtac
  end.

Lemma keeps_push pf v ch : valid_platform pf -> keeps (target pf) (held_push pf v ch).
Proof. intros Hp. unfold held_push. keep Hp. Qed.

Lemma keeps_change pf v o : valid_platform pf -> keeps (target pf) (change pf v o).
Proof.
  intros Hp. unfold change, held_push, held_push_str, held_push_front, held_edit. keep Hp.
Qed.

Lemma keeps_make pf k : valid_platform pf -> keeps (target pf) (make pf k).
Proof.
  intros Hp. unfold make, held_from_char, held_from_str. keep Hp. apply keeps_push, Hp.
Qed.

Lemma keeps_assign c st y v : keeps c (assign st y v).
Proof. unfold assign. keep I. Qed.

Lemma keeps_execute pf st i : valid_platform pf -> keeps (target pf) (execute pf st i).
Proof.
  intros Hp. unfold execute, held_clone, held_into_string. keep Hp; solve [apply keeps_make, Hp|apply keeps_change, Hp|apply keeps_assign].
Qed.

Lemma run_program_inv pf p m st sp : valid_platform pf -> Forall (valid_statement (target pf)) p -> inv (target pf) m st sp None -> accounts (target pf) m ->
  exists m' st' ws, run_program pf m st p = Some (m', st', ws) /\ length ws = length p /\
    inv (target pf) m' st' (program_means sp p ws) None /\ accounts (target pf) m'.
Proof.
  intros Hp Hall. revert m st sp. induction Hall as [|i p Hi _ IH]; intros m st sp Hinv Hacc.
  - exists m, st, []. auto.
  - cbn [run_program]. pose proof (execute_inv pf m st sp i Hp Hi Hinv) as H. pose proof (keeps_execute pf st i Hp m Hacc) as Ha.
    destruct (execute pf st i m) as [m1 st1|m1 why|]; [| |contradiction].
    + destruct (IH m1 st1 _ H Ha) as (m' & st' & ws & -> & Hl & H1 & H2). exists m', st', (None :: ws). cbn [length program_means]. auto.
    + destruct H as [-> H]. destruct (IH m _ _ H Ha) as (m' & st' & ws & -> & Hl & H1 & H2). exists m', st', (Some why :: ws). cbn [length program_means]. auto.
Qed.

Definition nothing {A} : nat -> option A := fun _ => None.

Lemma inv_start c : inv c no_memory nothing nothing None.
Proof.
  assert (forall p, live no_memory p = None) as El by (intros [|p]; reflexivity).
  split; [intros x; exact I|]. split; [intros x y p (v & H & _); discriminate|]. split; [intros x p (v & H & _); discriminate|].
  intros p H. rewrite El in H. contradiction.
Qed.

Lemma accounts_start c : accounts c no_memory.
Proof. split; [apply Permutation_refl|constructor]. Qed.

Lemma matches_str c m v d : matches c m v d -> value_str v m = Done m (text d).
Proof.
  destruct v as [[i|s]|s]; cbn [matches value_str held_str].
  - intros (_ & _ & Hg & _). destruct (inline_facts _ _ _ Hg) as (-> & _). reflexivity.
  - intros (_ & _ & H). apply string_str_reads, H.
  - intros (_ & _ & H). apply string_str_reads, H.
Qed.

Lemma matches_room c m v d s : matches c m v d -> its_string v = Some s ->
  len s = N.of_nat (length (text d)) /\ len s <= capacity s /\
  (capacity s <> 0 -> exists b, live m (pointer s) = Some b /\ N.of_nat (length b) = capacity s).
Proof.
  intros Hm Es. assert (reads m s (text d)) as (H1 & _ & H0 & H2).
  { destruct v as [[i|s']|s']; cbn [its_string matches] in *; [discriminate| |]; injection Es as ->; apply Hm. }
  destruct (N.eq_dec (capacity s) 0) as [E|E].
  - rewrite (H0 E) in H1 |- *. cbn [length] in *. split; [congruence|]. split; [lia|congruence].
  - destruct (H2 E) as (rest & Hb & Hc). split; [congruence|]. split; [lia|]. intros _. eexists. split; [exact Hb|]. rewrite app_length, map_length. exact Hc.
Qed.

(** What the value of a variable and its description have in common. *)
Definition agrees (m : memory) (v : value) (d : described) : Prop :=
  value_str v m = Done m (text d) /\
  is_string d = match v with AString _ => true | ANominal _ => false end /\
  in_heap d = match its_string v with Some _ => true | None => false end /\
  (forall s, its_string v = Some s -> len s = N.of_nat (length (text d)) /\ len s <= capacity s).

(** ** C95 *)

(** Programs that create, change, clone, convert, move, overwrite and drop any
    number of strings, with an allocator that may refuse any request. *)
Theorem C95_heap_ownership pf p : valid_platform pf -> Forall (valid_statement (target pf)) p ->
  exists m st ws, run_program pf no_memory nothing p = Some (m, st, ws) /\ length ws = length p /\
    (forall x, match st x, program_means nothing p ws x with
               | Some v, Some d => agrees m v d
               | None, None => True
               | _, _ => False
               end) /\
    (forall q, live m q <> None <-> exists x, owns st x q) /\
    (forall x y q, owns st x q -> owns st y q -> x = y) /\
    (forall x v s, st x = Some v -> its_string v = Some s -> capacity s <> 0 ->
       exists b, live m (pointer s) = Some b /\ N.of_nat (length b) = capacity s) /\
    Permutation (taken (calls m)) (returned (calls m) ++ sizes_in_use m) /\
    Forall (layout_ok (target pf)) (taken (calls m)).
Proof.
  intros Hp Hall. destruct (run_program_inv pf p _ _ _ Hp Hall (inv_start _) (accounts_start _)) as (m & st & ws & E & Hl & Hinv & Ha1 & Ha2).
  exists m, st, ws. split; [exact E|]. split; [exact Hl|]. pose proof Hinv as (I1 & I2 & I3 & I4). split; [|split; [|split; [|split; [|split; assumption]]]].
  - intros x. specialize (I1 x). destruct (st x) as [v|], (program_means nothing p ws x) as [d|]; try exact I1. split; [eapply matches_str, I1|].
    split; [destruct v as [[i|s]|s]; apply I1|]. split; [destruct v as [[i|s]|s]; cbn [its_string]; apply I1|].
    intros s Es. destruct (matches_room _ _ _ _ _ I1 Es) as (H1 & H2 & _). auto.
  - intros q. split.
    + intros H. destruct (I4 q H) as [[=]|(x & Hx)]. exists x. apply owner_owns, Hx.
    + intros (x & Hx). apply owner_owns in Hx. eapply inv_owner_live; eassumption.
  - intros x y q Hx Hy. apply owner_owns in Hx, Hy. eapply I2; eassumption.
  - intros x v s Ev Es Hc. destruct (inv_sp _ _ _ _ _ _ _ Hinv Ev) as (d & _ & Hm). destruct (matches_room _ _ _ _ _ Hm Es) as (_ & _ & H). auto.
Qed.

(** An allocator that grants everything, and one that refuses the third call. *)
Definition generous : platform := {| target := on_heap; grants := fun _ _ => true; grow := amortized |}.
Definition refuses_third : platform := {| target := on_heap; grants := fun cs _ => negb (length cs =? 2)%nat; grow := amortized |}.

Definition sample_program : list statement :=
  [Let 0 (FromText (repeat 0x61 60)); Change 0 (PushStr [0x62; 0x63; 0x64]); CloneInto 0 1; Change 0 (PushFront 0xe9);
   IntoString 0 2; Let 3 (NewString [0x41; 0x42] 5); Move 2 3; FromString 3 4; TryIntoString 4 1; CloneInto 1 1].

Example sample_program_valid : Forall (valid_statement on_heap) sample_program.
Proof. repeat constructor; cbn [valid_statement]; try reflexivity; discriminate. Qed.

Example generous_valid : valid_platform generous /\ valid_platform refuses_third.
Proof. split; (split; [exact on_heap_valid|]); (split; [reflexivity|]); intros a b; cbn [grow generous refuses_third]; unfold amortized; lia. Qed.

Example C95_case :
  option_map (fun '(m, st, ws) => (calls m, sizes_in_use m, map (fun x => option_map its_string (st x)) (seq 0 5), ws)) (run_program generous no_memory nothing sample_program)
  = Some ([Allocate 63; Allocate 63; Reallocate 63 126; Allocate 7; Deallocate 7; Deallocate 63; Allocate 65; Deallocate 126],
          [65], [None; Some (Some {| pointer := 4; capacity := 65; len := 65 |}); None; None; None], repeat None 10).
Proof. vm_compute. reflexivity. Qed.

(** The refused request leaves the first string as it was. *)
Example C95_refused :
  option_map (fun '(m, st, ws) => (calls m, sizes_in_use m, ws, map (fun x => match st x with Some v => value_str v m | None => Undefined end) [0; 1]%nat)) (run_program refuses_third no_memory nothing (firstn 4 sample_program))
  = Some ([Allocate 63; Allocate 63], [63; 63], [None; None; None; Some AllocError],
          let m := {| blocks := [Some (map Some (repeat 0x61 60 ++ [0x62; 0x63; 0x64])); Some (map Some (repeat 0x61 60 ++ [0x62; 0x63; 0x64]))]; calls := [Allocate 63; Allocate 63] |} in
          [Done m (repeat 0x61 60 ++ [0x62; 0x63; 0x64]); Done m (repeat 0x61 60 ++ [0x62; 0x63; 0x64])]).
Proof. vm_compute. reflexivity. Qed.

Print Assumptions C95_heap_ownership.

(** When no variable holds anything any more, everything has been given back. *)
Theorem C95_no_leak pf p m st ws : valid_platform pf -> Forall (valid_statement (target pf)) p ->
  run_program pf no_memory nothing p = Some (m, st, ws) -> (forall x, st x = None) ->
  (forall q, live m q = None) /\ Permutation (taken (calls m)) (returned (calls m)).
Proof.
  intros Hp Hall E Hnone. destruct (C95_heap_ownership pf p Hp Hall) as (m' & st' & ws' & E' & _ & _ & Hlive & _ & _ & Hperm & _). rewrite E in E'. injection E' as <- <- <-.
  assert (forall q, live m q = None) as Hq.
  { intros q. destruct (live m q) as [b|] eqn:Eq; [|reflexivity]. exfalso. destruct (proj1 (Hlive q)) as (x & v & s & Ev & _); [congruence|]. rewrite Hnone in Ev. discriminate. }
  split; [exact Hq|]. assert (sizes_in_use m = []) as Ez; [|rewrite Ez, app_nil_r in Hperm; exact Hperm].
  clear - Hq. unfold sizes_in_use. unfold live in Hq. revert Hq. generalize (blocks m) as bl. induction bl as [|b bl IH]; intros Hq; [reflexivity|].
  cbn [flat_map]. rewrite IH by (intros q; exact (Hq (S q))). specialize (Hq 0%nat). cbn [nth_error] in Hq. destruct b; [discriminate|reflexivity].
Qed.

Example C95_no_leak_case :
  option_map (fun '(m, st, ws) => (taken (calls m), returned (calls m), st 1%nat)) (run_program generous no_memory nothing (sample_program ++ [DropVar 1]))
  = Some ([63; 63; 126; 7; 65], [63; 7; 63; 126; 65], None).
Proof. vm_compute. reflexivity. Qed.

Print Assumptions C95_no_leak.

(** A statement that panics leaves the memory as it was, whatever was executed before. *)
Theorem C95_panics_change_nothing pf p m st ws i m' why : valid_platform pf -> Forall (valid_statement (target pf)) (p ++ [i]) ->
  run_program pf no_memory nothing p = Some (m, st, ws) -> execute pf st i m = Stopped m' why -> m' = m.
Proof.
  intros Hp Hall E Es. apply Forall_app in Hall as [Hall Hi]. inversion_clear Hi as [|? ? Hi' _].
  destruct (run_program_inv pf p _ _ _ Hp Hall (inv_start _) (accounts_start _)) as (m1 & st1 & ws1 & E1 & _ & Hinv & _). rewrite E in E1. injection E1 as <- <- <-.
  pose proof (execute_inv pf m st _ i Hp Hi' Hinv) as H. rewrite Es in H. apply H.
Qed.

Example C95_panics_case :
  match run_program refuses_third no_memory nothing (firstn 3 sample_program) with
  | Some (m, st, _) => execute refuses_third st (Change 0 (PushFront 0xe9)) m = Stopped m AllocError /\ sizes_in_use m = [63; 63]
  | None => False
  end.
Proof. vm_compute. split; reflexivity. Qed.

Print Assumptions C95_panics_change_nothing.

(** *** The same as with heap strings as values *)

Definition same (m : memory) (v : held) (s : nominal_string) : Prop :=
  match v, s with
  | HInline i, Inline j => i = j
  | HHeap h, Heap bs => string_str h m = Done m bs
  | _, _ => False
  end.

Lemma same_good c m v t h s : has_alloc c = true -> matches c m (ANominal v) (nominal_text t h) -> same m v s -> good c s t.
Proof.
  intros Ha. destruct v as [i|hs], s as [j|bs]; cbn [matches nominal_text is_string in_heap text same]; intros Hm Hs; try contradiction.
  - subst j. apply Hm.
  - destruct Hm as (_ & _ & Hr). rewrite (string_str_reads _ _ _ Hr) in Hs. injection Hs as <-. destruct Hr as (_ & Hv & _).
    apply valid_utf8_inv in Hv as (cs & Hcs & ->). exists cs. split; [|reflexivity]. split; [exact Hcs|]. split; [exact Ha|reflexivity].
Qed.

(** What is on the heap is determined by its text. *)
Lemma same_heap c m hs t h s : matches c m (ANominal (HHeap hs)) (nominal_text t h) -> good c s t -> is_inline s = false -> same m (HHeap hs) s.
Proof.
  intros (_ & _ & Hr) (cs & [_ Hs] & Et) Hi. destruct s as [i|bs]; [discriminate|]. cbn [same]. cbn [nominal_text text] in Hr. rewrite (string_str_reads _ _ _ Hr). destruct Hs as [_ ->]. congruence.
Qed.

Lemma change_inline pf i o m m' i' : has_alloc (target pf) = true -> change pf (HInline i) o m = Done m' (HInline i') ->
  step (target pf) (Inline i) o = Ret (Inline i', Ok tt).
Proof.
  intros Ha. destruct o as [ch|bs|ch|f]; cbn [change step].
  - unfold held_push, try_push, and_then. destruct (char_len_u8 ch) as [n| | |]; cbn [pure obind done]; try discriminate. cbn zeta.
    destruct (uadd (target pf) 8 (inline_len i) n) as [k| | |]; cbn [pure obind done]; try discriminate. destruct (k <=? INLINE_CAPACITY).
    + destruct (inline_push i ch n (inline_len i) k) as [j| | |]; cbn [pure obind done]; try discriminate. intros [= _ <-]. reflexivity.
    + intros H. exfalso. destruct (with_capacity pf k m) as [m1 s1| |]; try discriminate. destruct (inline_as_str i); cbn [pure done] in H; try discriminate.
      destruct (append pf s1 _ m1) as [m2 s2| |]; try discriminate. destruct (append pf s2 _ m2) as [m3 s3| |]; discriminate.
  - unfold held_push_str, try_push_str, and_then. cbn zeta. rewrite Ha.
    destruct (N.of_nat (length bs) <? 256); [destruct (inline_len i + N.of_nat (length bs) <? 256); [destruct (inline_len i + N.of_nat (length bs) <=? INLINE_CAPACITY)|]|]; cbn [andb].
    + destruct (inline_push_str i bs (inline_len i + N.of_nat (length bs))) as [j| | |]; cbn [pure obind done]; try discriminate. intros [= _ <-]. reflexivity.
    + intros H. exfalso. destruct (uadd (target pf) _ _ _) as [k| | |]; cbn [pure done] in H; try discriminate. destruct (with_capacity pf k m) as [m1 s1| |]; try discriminate. destruct (inline_as_str i); cbn [pure done] in H; try discriminate.
      destruct (append pf s1 _ m1) as [m2 s2| |]; try discriminate. destruct (append pf s2 _ m2) as [m3 s3| |]; discriminate.
    + intros H. exfalso. destruct (uadd (target pf) _ _ _) as [k| | |]; cbn [pure done] in H; try discriminate. destruct (with_capacity pf k m) as [m1 s1| |]; try discriminate. destruct (inline_as_str i); cbn [pure done] in H; try discriminate.
      destruct (append pf s1 _ m1) as [m2 s2| |]; try discriminate. destruct (append pf s2 _ m2) as [m3 s3| |]; discriminate.
    + intros H. exfalso. destruct (uadd (target pf) _ _ _) as [k| | |]; cbn [pure done] in H; try discriminate. destruct (with_capacity pf k m) as [m1 s1| |]; try discriminate. destruct (inline_as_str i); cbn [pure done] in H; try discriminate.
      destruct (append pf s1 _ m1) as [m2 s2| |]; try discriminate. destruct (append pf s2 _ m2) as [m3 s3| |]; discriminate.
  - unfold held_push_front, try_push_front, and_then. destruct (char_len_u8 ch) as [n| | |]; cbn [pure obind done]; try discriminate. cbn zeta.
    destruct (uadd (target pf) 8 (inline_len i) n) as [k| | |]; cbn [pure obind done]; try discriminate. destruct (k <=? INLINE_CAPACITY).
    + destruct (inline_push_front i ch n (inline_len i) k) as [j| | |]; cbn [pure obind done]; try discriminate. intros [= _ <-]. reflexivity.
    + intros H. exfalso. destruct (with_capacity pf k m) as [m1 s1| |]; try discriminate.
      destruct (append pf s1 _ m1) as [m2 s2| |]; try discriminate. destruct (inline_as_str i); cbn [pure done] in H; try discriminate. destruct (append pf s2 _ m2) as [m3 s3| |]; discriminate.
  - unfold held_edit, and_then. destruct (edit_str (Inline i) f) as [s1| | |]; cbn [pure obind done]; try discriminate. destruct s1 as [j|]; [|discriminate]. intros [= _ <-]. reflexivity.
Qed.

Lemma change_same pf m v t h o m' v' s : valid_platform pf -> matches (target pf) m (ANominal v) (nominal_text t h) -> valid_op o ->
  match o with PushStr bs => N.of_nat (length bs) <= isize_max (target pf) | _ => True end ->
  same m v s -> change pf v o m = Done m' v' ->
  exists s', step (target pf) s o = Ret (s', Ok tt) /\ same m' v' s'.
Proof.
  intros Hp Hm Ho Hmax Hs E. pose proof (change_yields pf m v t h o Hp Hm Ho Hmax) as H. rewrite E in H. destruct H as [_ Hm'].
  destruct Hp as (_ & Ha & _). pose proof (same_good _ _ _ _ _ _ Ha Hm Hs) as Hg.
  pose proof (step_effect _ _ _ o Hg Ho) as Hst. unfold op_effect, succeeds, roomy in Hst. rewrite Ha in Hst. cbn [orb] in Hst. rewrite orb_true_r in Hst.
  destruct Hst as (s' & Es & Hg' & Hi). destruct v' as [i'|hs'].
  - assert (exists i, v = HInline i) as (i & ->).
    { destruct v as [i|hs]; [eauto|exfalso]. destruct Hm as (_ & Hh & _). destruct Hm' as (_ & Hh' & _). cbn [nominal_text in_heap] in Hh, Hh'. rewrite Hh in Hh'. discriminate. }
    destruct s as [j|]; [|contradiction]. cbn [same] in Hs. subst j. exists (Inline i'). split; [|reflexivity]. eapply change_inline; eassumption.
  - exists s'. split; [exact Es|]. eapply same_heap; [exact Hm'|exact Hg'|]. rewrite Hi.
    destruct Hm' as (_ & Hh' & _). cbn [nominal_text in_heap] in Hh'. apply orb_true_iff in Hh'.
    destruct v as [i|hs]; destruct s as [j|bs]; try contradiction; cbn [is_inline andb]; [|reflexivity].
    destruct Hm as (_ & Hh & _ & H62). cbn [nominal_text in_heap text] in Hh, H62. subst h. destruct Hh' as [|Hh']; [discriminate|].
    apply negb_true_iff in Hh'. rewrite Hh', orb_false_r. destruct o as [| | |f]; try reflexivity. exfalso. cbn [op_text] in Hh'.
    destruct (Ho t (good_valid _ _ _ Hg)) as [_ Hl]. unfold at_most_62 in *. rewrite Hl in Hh'. congruence.
Qed.

Definition constructor_of (k : source) : constructor :=
  match k with
  | FromNew => New
  | FromNewReverse => NewReverse
  | FromOneChar ch => FromChar ch
  | FromText bs | NewString bs _ => FromStr bs
  end.

Definition nominal_source (k : source) : Prop := match k with NewString _ _ => False | _ => True end.

Lemma make_same pf k m m' w : valid_platform pf -> (forall x, valid_statement (target pf) (Let x k)) -> nominal_source k -> make pf k m = Done m' w ->
  exists v s, w = ANominal v /\ construct (target pf) (constructor_of k) = Ret s /\ same m' v s.
Proof.
  intros Hp Hk Hn E. pose proof (make_yields pf m k Hp Hk) as Hy. rewrite E in Hy. destruct Hy as [_ Hm]. pose proof Hp as (_ & Ha & _). specialize (Hk 0%nat).
  destruct k as [| |ch|bs|bs spare]; cbn [make constructor_of construct valid_statement] in *; [| | | |contradiction].
  - injection E as <- <-. eexists _, new. repeat split; reflexivity.
  - injection E as <- <-. eexists _, new_reverse. repeat split; reflexivity.
  - unfold held_from_char in E.
    pose proof (change_inline pf {| length_byte := 0; cells := uninit_cells |} (Push ch) m) as Hi. cbn [change step] in Hi. unfold and_then in E, Hi.
    destruct (held_push pf _ ch m) as [m1 [v r]|m1 why|]; try discriminate. destruct r as [u|e]; [|discriminate]. unfold done in E. injection E as <- <-.
    destruct v as [i'|hs]; [|exfalso].
    + specialize (Hi m1 i' Ha eq_refl). exists (HInline i'), (Inline i'). split; [reflexivity|]. split; [|reflexivity]. unfold from_char. change new with (Inline {| length_byte := 0; cells := uninit_cells |}). rewrite Hi. reflexivity.
    + destruct Hm as (_ & Hh & _). cbn [source_means inline_text in_heap] in Hh. apply negb_true_iff in Hh. unfold at_most_62 in Hh.
      apply Nat.leb_gt in Hh. rewrite encode_char_length_nat in Hh. pose proof (len_utf8_bounds ch). lia.
  - unfold held_from_str, and_then in E. unfold from_str. cbn zeta in *. destruct ((N.of_nat (length bs) <? 256) && (N.of_nat (length bs) <=? INLINE_CAPACITY)).
    + destruct (write_zip uninit_cells 0 (length bs) bs) as [cs| | |]; cbn [pure done] in E; try discriminate. injection E as <- <-. eexists _, _. repeat split; reflexivity.
    + rewrite Ha. destruct (string_from pf bs m) as [m1 hs|m1 why|]; try discriminate. unfold done in E. injection E as <- <-.
      exists (HHeap hs), (Heap bs). split; [reflexivity|]. split; [reflexivity|]. cbn [same]. destruct Hm as (_ & _ & Hr). apply string_str_reads, Hr.
Qed.

Definition one_string (k : source) (os : list op) : list statement := Let 0 k :: map (Change 0) os.

Lemma changes_same pf os m st sp v s : valid_platform pf -> Forall (valid_statement (target pf)) (map (Change 0) os) -> inv (target pf) m st sp None ->
  st 0%nat = Some (ANominal v) -> same m v s -> forall m' st',
  run_program pf m st (map (Change 0) os) = Some (m', st', repeat None (length os)) ->
  exists v' s', st' 0%nat = Some (ANominal v') /\ run (target pf) s os = Ret (s', repeat (Ok tt) (length os)) /\ same m' v' s'.
Proof.
  intros Hp. revert m st sp v s. induction os as [|o os IH]; intros m st sp v s Hall Hinv Ev Hs m' st' E.
  - cbn in E. injection E as <- <-. eexists _, _. split; [exact Ev|]. split; [reflexivity|exact Hs].
  - cbn [map length repeat] in *. apply Forall_cons_iff in Hall as [Ho Hall]. cbn [run_program] in E. pose proof (execute_inv pf m st sp (Change 0 o) Hp Ho Hinv) as He.
    cbn [execute] in E, He. rewrite Ev in E, He. unfold and_then in E, He.
    destruct (inv_sp _ _ _ _ _ _ _ Hinv Ev) as (d & _ & Hm).
    assert (exists t h, d = nominal_text t h) as (t & h & ->).
    { destruct d as [b t h]. exists t, h. destruct v as [i|hs]; cbn [matches is_string] in Hm; destruct Hm as [-> _]; reflexivity. }
    destruct (change pf v o m) as [m1 v1|m1 why|] eqn:Ec.
    + destruct (change_same _ _ _ _ _ _ _ _ _ Hp Hm (proj1 Ho) (proj2 Ho) Hs Ec) as (s1 & Es & Hs1). unfold done in E, He.
      destruct (run_program pf m1 (set_var st 0 (Some (ANominal v1))) (map (Change 0) os)) as [[[m2 st2] ws]|] eqn:Er; [|discriminate]. injection E as <- <- ->.
      destruct (IH m1 _ _ v1 s1 Hall He eq_refl Hs1 m2 st2 Er) as (v' & s' & H1 & H2 & H3). exists v', s'. split; [exact H1|]. split; [|exact H3].
      cbn [run]. rewrite Es. cbn [obind]. rewrite H2. reflexivity.
    + destruct (run_program pf m1 _ _) as [[[m2 st2] ws]|]; discriminate.
    + discriminate.
Qed.

(** While the allocator refuses nothing, the string is the one of
    [NominalString.v], bit by bit if it is inline. *)
Theorem C95_value_model pf k os m st : valid_platform pf -> Forall (valid_statement (target pf)) (one_string k os) -> nominal_source k ->
  run_program pf no_memory nothing (one_string k os) = Some (m, st, repeat None (S (length os))) ->
  exists v s, st 0%nat = Some (ANominal v) /\ build (target pf) (constructor_of k) os = Ret (s, repeat (Ok tt) (length os)) /\ same m v s.
Proof.
  intros Hp Hall Hn E. unfold one_string in *. apply Forall_cons_iff in Hall as [Hk Hall]. cbn [run_program repeat] in E.
  pose proof (execute_inv pf _ _ _ (Let 0 k) Hp Hk (inv_start _)) as He. cbn [execute] in E, He. unfold and_then in E, He.
  destruct (make pf k no_memory) as [m1 w|m1 why|] eqn:Em; [|destruct (run_program pf m1 _ _) as [[[m2 st2] ws]|]; discriminate|discriminate].
  destruct (make_same pf k _ _ _ Hp ltac:(intros x; exact Hk) Hn Em) as (v & s & -> & Es & Hs). cbn [assign nothing] in E, He. unfold assign, nothing, done in E, He.
  destruct (run_program pf m1 _ (map (Change 0) os)) as [[[m2 st2] ws]|] eqn:Er; [|discriminate]. injection E as <- <- ->.
  destruct (changes_same pf os m1 _ _ v s Hp Hall He eq_refl Hs m2 st2 Er) as (v' & s' & H1 & H2 & H3). exists v', s'. split; [exact H1|]. split; [|exact H3].
  unfold build. rewrite Es. exact H2.
Qed.

Example C95_value_model_case :
  let os := repeat (PushFront 0x7532) 25 ++ [PushStr [0x41]; Edit (map (fun b => if b =? 0x41 then 0x42 else b))] in
  match run_program generous no_memory nothing (one_string FromNewReverse os), build on_heap NewReverse os with
  | Some (m, st, ws), Ret (Heap bs, rs) => (calls m, match st 0%nat with Some v => value_str v m | None => Undefined end) = ([Allocate 63; Reallocate 63 126], Done m bs) /\ length bs = 76%nat
  | _, _ => False
  end.
Proof. vm_compute. split; reflexivity. Qed.

Print Assumptions C95_value_model.
