(** * Slices: which cells the unsafe byte slices cover (C06) *)

From Verif Require Import Prelude Utf8Facts StringFacts History.

(** The byte slices a call makes of the [MaybeUninit] buffer:
    - a move to the heap reads [inline.as_str()]
      (src/nominalstring.rs:447, :482, :514);
    - [push_front] in the forward direction calls [as_bytes_mut] after moving
      the text and setting the new length (:406-412);
    - an edit calls [as_mut_str] (:324-329).
    The other paths write through the [MaybeUninit] array itself. *)
Definition slices (c : config) (s : nominal_string) (o : op) : list (outcome (list cell)) :=
  match s with
  | Heap _ => []
  | Inline i =>
      let overflow := if has_alloc c then [exposed_cells i] else [] in
      match o with
      | Push ch => if inline_len i + len_utf8 ch <=? 62 then [] else overflow
      | PushStr bs => if inline_len i + N.of_nat (length bs) <=? 62 then [] else overflow
      | PushFront ch =>
          let new_length := inline_len i + len_utf8 ch in
          if new_length <=? 62 then
            if is_reverse i then []
            else match copy_within (cells i) 0 (N.to_nat (inline_len i)) (N.to_nat (len_utf8 ch)) with
                 | Ret moved => [exposed_cells (set_length (with_cells i moved) new_length)]
                 | _ => []
                 end
          else overflow
      | Edit _ => [exposed_cells i]
      end
  end.

(** The forward, in-place [push_front]. *)
Definition forward_push_front (s : nominal_string) (o : op) : bool :=
  match s, o with
  | Inline i, PushFront ch => negb (is_reverse i) && (inline_len i + len_utf8 ch <=? 62)
  | _, _ => false
  end.

Definition initialised (cs : list cell) : Prop := Forall (fun x => x <> None) cs.

Lemma map_some_init bs : initialised (map Some bs).
Proof. apply Forall_forall. intros x H. apply in_map_iff in H as (b & <- & _). discriminate. Qed.

Lemma firstn_repeat {A} (x : A) n k : (n <= k)%nat -> firstn n (repeat x k) = repeat x n.
Proof. revert k; induction n as [|n IH]; intros [|k] H; try reflexivity; [lia|]. cbn. f_equal. apply IH. lia. Qed.

Lemma moved_exposed i cs ch : inline_rep false i cs -> utf8_len (ch :: cs) <= 62 ->
  exists moved stale,
    copy_within (cells i) 0 (length (utf8 cs)) (length (encode_char ch)) = Ret moved /\
    stale = firstn (length (encode_char ch)) (map Some (utf8 cs) ++ repeat None 4) /\
    exposed_cells (set_length (with_cells i moved) (utf8_len (ch :: cs))) = Ret (stale ++ map Some (utf8 cs)).
Proof.
  intros H Hl. pose proof (proj2 (proj2 H)) as Hh.
  pose proof Hl as Hl'. rewrite utf8_len_cons, <- encode_char_length in Hl'. unfold utf8_len in Hl'.
  destruct Hh as (Hlen & k & Hbuf). rewrite Hbuf in Hlen.
  assert (firstn (length (encode_char ch)) (cells i) =
          firstn (length (encode_char ch)) (map Some (utf8 cs) ++ repeat None 4)) as Hfirst.
  { rewrite app_length, map_length, repeat_length in Hlen. rewrite Hbuf, !firstn_app. f_equal.
    rewrite map_length, !firstn_repeat; [reflexivity| |lia].
    pose proof (len_utf8_bounds ch). pose proof (encode_char_length ch). lia. }
  set (junk := repeat None k) in *. rewrite app_length, map_length in Hlen.
  destruct (split_buf (cells i) (length (encode_char ch))) as (p & q & Hpq & Hp & Hq).
  { rewrite Hbuf, app_length, map_length. lia. }
  assert (length q = 62 - length (encode_char ch))%nat as Hq'.
  { rewrite Hq, Hbuf, app_length, map_length. lia. }
  exists (p ++ map Some (utf8 cs) ++ skipn (length (utf8 cs)) q), p.
  assert (length (cells i) = 62%nat) as H62 by (rewrite Hbuf, app_length, map_length; lia).
  split; [|split; [rewrite <- Hfirst, Hpq, <- Hp, firstn_app, firstn_all, Nat.sub_diag; symmetry; apply app_nil_r|]].
  - unfold copy_within. rewrite H62.
    match goal with |- (if ?t then _ else _) = _ => assert (t = true) as -> by lia end.
    f_equal. rewrite Nat.sub_0_r.
    assert (window (cells i) 0 (length (utf8 cs)) = map Some (utf8 cs)) as ->.
    { rewrite Hbuf, <- (map_length Some (utf8 cs)). apply (window_mid []). }
    rewrite Hpq, <- Hp, <- (firstn_skipn (length (utf8 cs)) q) at 1.
    apply overwrite_mid. rewrite map_length, firstn_length. lia.
  - set (moved := p ++ _). set (mid := set_length (with_cells i moved) (utf8_len (ch :: cs))).
    assert (length_byte mid = dir false (utf8_len (ch :: cs))) as Hb.
    { unfold mid. cbn. destruct H as (Hl0 & -> & _). apply set_bits; assumption. }
    unfold exposed_cells, data_offset, is_reverse. rewrite Hb, dir_bit by assumption. cbn [obind].
    unfold inline_len. rewrite Hb, len_bits by assumption. change (cells mid) with moved.
    assert (length moved = 62%nat) as ->.
    { unfold moved. rewrite !app_length, map_length, skipn_length. lia. }
    match goal with |- context [if ?t then _ else _] => assert (t = true) as -> by (simpl; lia) end.
    f_equal. unfold moved. rewrite app_assoc.
    replace (N.to_nat (utf8_len (ch :: cs))) with (length (p ++ map Some (utf8 cs))).
    + apply (window_mid [] (p ++ map Some (utf8 cs))).
    + rewrite app_length, map_length, utf8_len_cons, <- encode_char_length. unfold utf8_len. lia.
Qed.

Lemma slices_initialised c s o x : reachable c s -> valid_op o -> In x (slices c s o) ->
  forward_push_front s o = false -> exists cs, x = Ret cs /\ initialised cs.
Proof.
  intros Hr Ho Hx Hf. destruct (reachable_good c s Hr) as (text & cs & Hrep & ->).
  destruct s as [i|bs]; [|destruct Hx]. destruct Hrep as (Hs & rv & Hi).
  assert (forall y, In y (if has_alloc c then [exposed_cells i] else []) ->
          exists cs, y = Ret cs /\ initialised cs) as Hover.
  { intros y Hy. destruct (has_alloc c); [|destruct Hy]. destruct Hy as [<-|[]].
    rewrite (ir_exposed _ _ _ Hi). eexists; split; [reflexivity|]. apply map_some_init. }
  cbn [slices] in Hx. destruct o as [ch|bs|ch|f].
  - destruct (_ <=? 62); [destruct Hx|auto].
  - destruct (_ <=? 62); [destruct Hx|auto].
  - cbn [forward_push_front] in Hf. destruct (inline_len i + len_utf8 ch <=? 62); [|auto].
    destruct (is_reverse i); [destruct Hx|discriminate].
  - destruct Hx as [<-|[]]. rewrite (ir_exposed _ _ _ Hi).
    eexists; split; [reflexivity|]. apply map_some_init.
Qed.

Lemma slices_forward c s ch x : reachable c s -> is_scalar ch = true ->
  In x (slices c s (PushFront ch)) -> forward_push_front s (PushFront ch) = true ->
  exists text, as_str s = Ret text /\
    x = Ret (firstn (length (encode_char ch)) (map Some text ++ repeat None 4) ++ map Some text).
Proof.
  intros Hr Ho Hx Hf. destruct (reachable_good c s Hr) as (text & cs & Hrep & ->).
  pose proof (rep_str _ _ _ Hrep) as Hstr.
  destruct s as [i|bs]; [|destruct Hx]. destruct Hrep as (Hs & rv & Hi).
  cbn [slices forward_push_front] in *. rewrite (ir_rev _ _ _ Hi), (ir_len _ _ _ Hi) in *.
  destruct (utf8_len cs + len_utf8 ch <=? 62) eqn:E; [|rewrite andb_false_r in Hf; discriminate].
  destruct rv; [discriminate|].
  destruct (moved_exposed i cs ch Hi) as (moved & stale & E1 & E2 & E3); [rewrite utf8_len_cons; lia|].
  rewrite encode_char_length_nat in E1. unfold utf8_len in Hx at 1. rewrite Nat2N.id, E1 in Hx.
  destruct Hx as [<-|[]]. exists (utf8 cs). split; [exact Hstr|]. rewrite <- E2.
  rewrite N.add_comm, <- utf8_len_cons. exact E3.
Qed.

(** The slice made in between has uninitialised bytes when the text is shorter
    than the new character. *)
Lemma stale_initialised text n : (n <= 4)%nat ->
  initialised (firstn n (map Some text ++ repeat (None : cell) 4) ++ map Some text) <-> (n <= length text)%nat.
Proof.
  intros Hn. unfold initialised. rewrite Forall_app. rewrite firstn_app, map_length, Forall_app. split.
  - intros [[_ H] _]. destruct (Nat.le_gt_cases n (length text)) as [Hle|Hgt]; [assumption|].
    destruct (n - length text)%nat as [|k] eqn:E; [lia|]. inversion H; subst; contradiction.
  - intros Hle. split; [split|apply map_some_init].
    + rewrite firstn_map. apply map_some_init.
    + replace (n - length text)%nat with O by lia. constructor.
Qed.
