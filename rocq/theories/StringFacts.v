(** * StringFacts: the representation invariant of [NominalString] and the exact
    effect of every operation on the text *)

From Verif Require Import Prelude Utf8Facts.
From Verif Require Export NominalString.

(** ** Buffers *)

Lemma overwrite_mid (a b d new : list cell) :
  length new = length b -> overwrite (a ++ b ++ d) (length a) new = a ++ new ++ d.
Proof.
  intros H. unfold overwrite. f_equal; [|f_equal].
  - rewrite firstn_app, firstn_all, Nat.sub_diag. simpl. apply app_nil_r.
  - rewrite H, !app_assoc, <- app_length, skipn_app, skipn_all, Nat.sub_diag. reflexivity.
Qed.

Lemma window_mid (a b d : list cell) : window (a ++ b ++ d) (length a) (length b) = b.
Proof.
  unfold window. rewrite skipn_app, skipn_all, Nat.sub_diag. cbn [app skipn].
  rewrite firstn_app, firstn_all, Nat.sub_diag. cbn. apply app_nil_r.
Qed.

Lemma split_buf (buf : list cell) n : (n <= length buf)%nat ->
  exists a b, buf = a ++ b /\ length a = n /\ length b = (length buf - n)%nat.
Proof.
  intros H. exists (firstn n buf), (skipn n buf). rewrite firstn_skipn, firstn_length, skipn_length.
  repeat split; lia.
Qed.

(** ** The length byte *)

Lemma below_63 (P : N -> bool) :
  forallb P (map N.of_nat (seq 0 63)) = true -> forall l, l <= 62 -> P l = true.
Proof.
  intros H l Hl. rewrite forallb_forall in H. apply H.
  rewrite in_map_iff. exists (N.to_nat l). split; [lia|]. apply in_seq. lia.
Qed.

Definition dir (rv : bool) (l : N) : N := if rv then 128 + l else l.

Lemma len_bits l : l <= 62 -> forall rv, N.land (dir rv l) 0x7F = l.
Proof.
  intros H rv. apply N.eqb_eq.
  revert l H. apply below_63. destruct rv; vm_compute; reflexivity.
Qed.

Lemma dir_bit l : l <= 62 -> forall rv, negb (N.land (dir rv l) 0x80 =? 0) = rv.
Proof.
  intros H rv. apply eqb_prop. revert l H. apply below_63. destruct rv; vm_compute; reflexivity.
Qed.

Lemma set_bits l m : l <= 62 -> m <= 62 -> forall rv, N.lor (N.land (dir rv l) 0x80) m = dir rv m.
Proof.
  intros Hl Hm rv.
  assert (N.land (dir rv l) 0x80 = dir rv 0) as ->.
  { apply N.eqb_eq. revert l Hl. apply below_63. destruct rv; vm_compute; reflexivity. }
  apply N.eqb_eq. revert m Hm. apply below_63. destruct rv; vm_compute; reflexivity.
Qed.

(** ** The invariant *)

(** The cells of a 62-byte buffer holding [bs] at the end that direction
    [rv] fills, the others never written. *)
Definition holds (rv : bool) (buf : list cell) (bs : list N) : Prop :=
  length buf = 62%nat /\
  exists k, buf = if rv then repeat None k ++ map Some bs else map Some bs ++ repeat None k.

Lemma skipn_skipn' {A} n m (l : list A) : skipn n (skipn m l) = skipn (m + n) l.
Proof. revert l; induction m as [|m IH]; intros l; [reflexivity|]. destruct l; [destruct n; reflexivity|]. apply IH. Qed.

Lemma split_repeat {A} (x : A) k n : (n <= k)%nat -> repeat x k = repeat x n ++ repeat x (k - n).
Proof. intros H. rewrite <- repeat_app. f_equal. lia. Qed.

Lemma skipn_repeat {A} (x : A) n k : skipn n (repeat x k) = repeat x (k - n).
Proof. revert k; induction n as [|n IH]; intros [|k]; try reflexivity. apply IH. Qed.

Definition inline_rep (rv : bool) (i : inline_string) (cs : list N) : Prop :=
  utf8_len cs <= 62 /\ length_byte i = dir rv (utf8_len cs) /\ holds rv (cells i) (utf8 cs).

(** [rep c s cs]: in configuration [c], [s] is well formed and reads [cs]. *)
Definition rep (c : config) (s : nominal_string) (cs : list N) : Prop :=
  scalars cs /\
  match s with
  | Inline i => exists rv, inline_rep rv i cs
  | Heap bs => has_alloc c = true /\ bs = utf8 cs
  end.

(** There is room for [cs]. *)
Definition room (c : config) (cs : list N) : bool := has_alloc c || (utf8_len cs <=? 62).

Lemma uninit_length : length uninit_cells = 62%nat.
Proof. reflexivity. Qed.

Lemma new_rep c : rep c new [].
Proof.
  split; [constructor|]. exists false. split; [vm_compute; discriminate|]. split; [reflexivity|].
  split; [reflexivity|]. exists 62%nat. reflexivity.
Qed.

Lemma new_reverse_rep c : rep c new_reverse [].
Proof.
  split; [constructor|]. exists true. split; [vm_compute; discriminate|]. split; [reflexivity|].
  split; [reflexivity|]. exists 62%nat. reflexivity.
Qed.

Lemma ir_len rv i cs : inline_rep rv i cs -> inline_len i = utf8_len cs.
Proof. intros (Hl & Hb & _). unfold inline_len. rewrite Hb. apply len_bits, Hl. Qed.

Lemma ir_rev rv i cs : inline_rep rv i cs -> is_reverse i = rv.
Proof. intros (Hl & Hb & _). unfold is_reverse. rewrite Hb. apply dir_bit, Hl. Qed.

(** Where the text starts. *)
Definition start (rv : bool) (cs : list N) : nat :=
  if rv then (62 - length (utf8 cs))%nat else O.

Lemma ir_offset rv i cs : inline_rep rv i cs -> data_offset i = Ret (N.of_nat (start rv cs)).
Proof.
  intros H. unfold data_offset. rewrite (ir_rev _ _ _ H), (ir_len _ _ _ H).
  destruct H as (Hl & _). unfold start, utf8_len in *. destruct rv; [|reflexivity].
  rewrite offset_sub_le by (unfold INLINE_CAPACITY; lia). f_equal. unfold INLINE_CAPACITY. lia.
Qed.

Lemma holds_window rv buf cs : holds rv buf (utf8 cs) ->
  (start rv cs + length (utf8 cs) <= 62)%nat /\
  window buf (start rv cs) (length (utf8 cs)) = map Some (utf8 cs).
Proof.
  intros (Hlen & k & ->). set (junk := repeat None k) in *. unfold start. rewrite <- (map_length Some (utf8 cs)). destruct rv.
  - rewrite app_length in Hlen. split; [lia|].
    replace (62 - length (map Some (utf8 cs)))%nat with (length junk) by lia.
    rewrite <- (app_nil_r (map Some (utf8 cs))) at 1. apply window_mid.
  - rewrite app_length in Hlen. split; [lia|]. apply (window_mid [] (map Some (utf8 cs)) junk).
Qed.

Lemma ir_bytes rv i cs : inline_rep rv i cs -> as_bytes i = Ret (utf8 cs).
Proof.
  intros H. unfold as_bytes. rewrite (ir_offset _ _ _ H), (ir_len _ _ _ H). cbn [obind].
  unfold read_bytes, utf8_len. rewrite !Nat2N.id.
  destruct H as (_ & _ & H). destruct (holds_window _ _ _ H) as [Hb Hw].
  destruct H as (Hlen & _). rewrite Hlen.
  destruct (Nat.leb_spec (start rv cs + length (utf8 cs)) 62); [|lia].
  rewrite Hw, all_init_map. reflexivity.
Qed.

Lemma ir_exposed rv i cs : inline_rep rv i cs -> exposed_cells i = Ret (map Some (utf8 cs)).
Proof.
  intros H. unfold exposed_cells. rewrite (ir_offset _ _ _ H), (ir_len _ _ _ H). cbn [obind].
  unfold utf8_len. rewrite !Nat2N.id.
  destruct H as (_ & _ & H). destruct (holds_window _ _ _ H) as [Hb Hw].
  destruct H as (Hlen & _). rewrite Hlen.
  destruct (Nat.leb_spec (start rv cs + length (utf8 cs)) 62); [|lia].
  rewrite Hw. reflexivity.
Qed.

Lemma ir_str rv i cs : scalars cs -> inline_rep rv i cs -> inline_as_str i = Ret (utf8 cs).
Proof.
  intros Hs H. unfold inline_as_str. rewrite (ir_bytes _ _ _ H). cbn [obind].
  unfold from_utf8_unchecked. rewrite valid_utf8_utf8 by assumption. reflexivity.
Qed.

(** ** Pushing bytes at either end of a buffer *)

Lemma set_length_rep rv i buf cs cs' :
  inline_rep rv i cs -> utf8_len cs' <= 62 -> holds rv buf (utf8 cs') ->
  inline_rep rv (set_length (with_cells i buf) (utf8_len cs')) cs'.
Proof.
  intros (Hl & Hb & _) Hl' Hh. split; [assumption|]. split; [|assumption].
  cbn. rewrite Hb. apply set_bits; assumption.
Qed.

(** [copy_within] to make room at the end, then writing there: the reversed
    append. *)
Lemma append_reverse buf (a b : list N) :
  holds true buf a -> (length a + length b <= 62)%nat ->
  exists moved,
    copy_within buf (62 - length a) (length buf) (62 - (length a + length b)) = Ret moved /\
    length moved = 62%nat /\
    exists final, write_zip moved (62 - length b) (length moved) b = Ret final /\ holds true final (a ++ b).
Proof.
  intros (Hlen & k & ->) Hle.
  rewrite app_length, map_length, repeat_length in Hlen.
  assert (repeat None k = repeat (None : cell) (62 - (length a + length b)) ++ repeat None (length b)) as ->.
  { rewrite <- repeat_app. f_equal. lia. }
  set (p := repeat (None : cell) (62 - (length a + length b))). set (q := repeat (None : cell) (length b)).
  assert (length p = 62 - (length a + length b))%nat as Hp by apply repeat_length.
  assert (length q = length b) as Hq by apply repeat_length.
  exists (p ++ map Some a ++ skipn (length a) (q ++ map Some a)).
  assert (length (p ++ map Some a ++ skipn (length a) (q ++ map Some a)) = 62%nat) as Hm.
  { rewrite !app_length, skipn_length, app_length, map_length. lia. }
  split; [|split; [exact Hm|]].
  - unfold copy_within. rewrite !app_length, map_length.
    match goal with |- (if ?t then _ else _) = _ => assert (t = true) as -> by lia end.
    f_equal.
    replace (length p + length q + length a - (62 - length a))%nat with (length (map Some a))
      by (rewrite map_length; lia).
    replace (62 - length a)%nat with (length (p ++ q)) by (rewrite app_length; lia).
    replace (window ((p ++ q) ++ map Some a) (length (p ++ q)) (length (map Some a))) with (map Some a)
      by (rewrite <- (app_nil_r (map Some a)) at 2; rewrite window_mid; reflexivity).
    rewrite <- Hp, <- app_assoc.
    rewrite <- (firstn_skipn (length a) (q ++ map Some a)) at 1.
    apply overwrite_mid. rewrite map_length, firstn_length, app_length, map_length. lia.
  - exists (p ++ map Some a ++ map Some b). split.
    + unfold write_zip. rewrite Hm.
      match goal with |- (if ?t then _ else _) = _ => assert (t = true) as -> by lia end.
      f_equal. replace (62 - (62 - length b))%nat with (length b) by lia. rewrite firstn_all.
      replace (62 - length b)%nat with (length (p ++ map Some a)) by (rewrite app_length, map_length; lia).
      rewrite !app_assoc. rewrite <- (app_nil_r (skipn _ _)).
      rewrite overwrite_mid; [rewrite app_nil_r; reflexivity|].
      rewrite map_length, skipn_length, app_length, map_length. lia.
    + split; [rewrite !app_length, !map_length; lia|]. eexists. rewrite map_app. reflexivity.
Qed.

(** Writing after the text: the forward append. *)
Lemma append_forward buf (a b : list N) :
  holds false buf a -> (length a + length b <= 62)%nat ->
  holds false (overwrite buf (length a) (map Some b)) (a ++ b).
Proof.
  intros (Hlen & k & ->) Hle. rewrite app_length, map_length in Hlen.
  pose proof (skipn_repeat (None : cell) (length b) k) as Hj. set (junk := repeat None k) in *.
  rewrite <- (firstn_skipn (length b) junk). rewrite <- (map_length Some a) at 1.
  rewrite overwrite_mid by (rewrite map_length, firstn_length; lia).
  split.
  - rewrite !app_length, !map_length, skipn_length. lia.
  - exists (k - length b)%nat. rewrite <- Hj, map_app, app_assoc. reflexivity.
Qed.

Lemma app_assoc_nil {A} (a b : list A) : a ++ b = a ++ b ++ [].
Proof. rewrite app_nil_r. reflexivity. Qed.

(** Writing before the text: the reversed prepend. *)
Lemma prepend_reverse buf (a b : list N) :
  holds true buf a -> (length a + length b <= 62)%nat ->
  holds true (overwrite buf (62 - (length a + length b)) (map Some b)) (b ++ a).
Proof.
  intros (Hlen & k & ->) Hle. rewrite app_length, map_length, repeat_length in Hlen.
  rewrite (split_repeat None k (62 - (length a + length b))) by lia.
  set (p := repeat (None : cell) (62 - (length a + length b))).
  set (q := repeat (None : cell) (k - (62 - (length a + length b)))).
  assert (length p = 62 - (length a + length b))%nat as Hp by apply repeat_length.
  assert (length q = k - (62 - (length a + length b)))%nat as Hq by apply repeat_length.
  rewrite <- Hp, <- app_assoc, overwrite_mid by (rewrite map_length; lia).
  split.
  - rewrite !app_length, !map_length. lia.
  - eexists. rewrite map_app. reflexivity.
Qed.

(** Moving the text up and writing before it: the forward prepend. *)
Lemma prepend_forward buf (a b : list N) :
  holds false buf a -> (length a + length b <= 62)%nat ->
  exists moved,
    copy_within buf 0 (length a) (length b) = Ret moved /\ length moved = 62%nat /\
    holds false (overwrite moved 0 (map Some b)) (b ++ a).
Proof.
  intros (Hlen & k & ->) Hle. pose proof (skipn_repeat (None : cell) (length b) k) as Hj.
  set (junk := repeat None k) in *. rewrite app_length, map_length in Hlen.
  set (buf := map Some a ++ junk).
  assert (length buf = 62%nat) as Hbuf by (unfold buf; rewrite app_length, map_length; lia).
  destruct (split_buf buf (length b)) as (p & q & Hpq & Hp & Hq); [lia|].
  exists (p ++ map Some a ++ skipn (length a) q).
  assert (length (p ++ map Some a ++ skipn (length a) q) = 62%nat) as Hm.
  { rewrite !app_length, map_length, skipn_length. lia. }
  split; [|split; [exact Hm|]].
  - unfold copy_within.
    match goal with |- (if ?t then _ else _) = _ => assert (t = true) as -> by lia end.
    f_equal. rewrite Nat.sub_0_r.
    assert (window buf 0 (length a) = map Some a) as ->.
    { rewrite <- (map_length Some a). apply (window_mid []). }
    rewrite Hpq, <- Hp, <- (firstn_skipn (length a) q) at 1.
    apply overwrite_mid. rewrite map_length, firstn_length. lia.
  - replace (overwrite _ _ _) with (map Some b ++ map Some a ++ skipn (length a) q).
    + split; [rewrite !app_length, !map_length, skipn_length; lia|].
      exists (k - length b)%nat. rewrite map_app, <- app_assoc. do 2 f_equal.
      rewrite <- Hj. transitivity (skipn (length b + length a) buf).
      * rewrite Hpq, <- Hp, <- skipn_skipn'. f_equal. rewrite skipn_app, skipn_all, Nat.sub_diag. reflexivity.
      * unfold buf. rewrite Nat.add_comm, <- skipn_skipn'. f_equal. rewrite <- (map_length Some a).
        rewrite skipn_app, skipn_all, Nat.sub_diag. reflexivity.
    + symmetry. apply (overwrite_mid [] p). rewrite map_length. lia.
Qed.

(** ** The three pushes on an inline string with room *)

Lemma utf8_buffer_firstn ch : firstn (N.to_nat (len_utf8 ch)) (utf8_buffer ch) = encode_char ch.
Proof.
  unfold utf8_buffer. rewrite <- encode_char_length_nat, firstn_app, firstn_all, Nat.sub_diag.
  simpl. apply app_nil_r.
Qed.

Lemma inline_push_rep rv i cs ch :
  inline_rep rv i cs -> utf8_len (cs ++ [ch]) <= 62 ->
  exists i', inline_push i ch (len_utf8 ch) (utf8_len cs) (utf8_len (cs ++ [ch])) = Ret i' /\
             inline_rep rv i' (cs ++ [ch]).
Proof.
  intros H Hl. pose proof (proj2 (proj2 H)) as Hh.
  pose proof Hl as Hl'. rewrite utf8_len_app, utf8_len_single, <- encode_char_length in Hl'.
  unfold inline_push. rewrite (ir_rev _ _ _ H), utf8_buffer_firstn. unfold INLINE_CAPACITY.
  destruct rv.
  - rewrite (ir_offset _ _ _ H). cbn [obind]. rewrite Nat2N.id. unfold start.
    rewrite offset_sub_le by assumption. cbn [obind].
    destruct (append_reverse (cells i) (utf8 cs) (encode_char ch) Hh) as (moved & E1 & Hm & final & E2 & Hf);
      [unfold utf8_len in Hl'; lia|].
    replace (N.to_nat (62 - utf8_len (cs ++ [ch])))
      with (62 - (length (utf8 cs) + length (encode_char ch)))%nat
      by (rewrite utf8_len_app, utf8_len_single, <- encode_char_length; unfold utf8_len; lia).
    rewrite E1. cbn [obind]. rewrite offset_sub_le by (pose proof (len_utf8_bounds ch); lia). cbn [obind].
    replace (N.to_nat (62 - len_utf8 ch)) with (62 - length (encode_char ch))%nat
      by (rewrite encode_char_length_nat; lia).
    rewrite E2. cbn [obind]. eexists; split; [reflexivity|].
    eapply set_length_rep; [exact H|assumption|]. rewrite utf8_app, utf8_single. exact Hf.
  - unfold write_zip.
    match goal with |- context [if ?t then _ else _] => assert (t = true) as -> end.
    { destruct Hh as (Hlen & _). rewrite Hlen, utf8_len_app, utf8_len_single, <- encode_char_length.
      unfold utf8_len in *. lia. }
    cbn [obind]. eexists; split; [reflexivity|].
    eapply set_length_rep; [exact H|assumption|].
    replace (N.to_nat (utf8_len (cs ++ [ch])) - N.to_nat (utf8_len cs))%nat with (length (encode_char ch))
      by (rewrite utf8_len_app, utf8_len_single, <- encode_char_length; lia).
    rewrite firstn_all, utf8_app, utf8_single. unfold utf8_len. rewrite Nat2N.id.
    apply append_forward; [assumption|]. unfold utf8_len in Hl'. lia.
Qed.

Lemma inline_push_str_rep rv i cs bs :
  inline_rep rv i cs -> utf8_len (cs ++ bs) <= 62 ->
  exists i', inline_push_str i (utf8 bs) (utf8_len (cs ++ bs)) = Ret i' /\
             inline_rep rv i' (cs ++ bs).
Proof.
  intros H Hl. pose proof (proj2 (proj2 H)) as Hh.
  pose proof Hl as Hl'. rewrite utf8_len_app in Hl'.
  unfold inline_push_str. rewrite (ir_rev _ _ _ H). unfold INLINE_CAPACITY.
  destruct rv.
  - rewrite (ir_offset _ _ _ H). cbn [obind]. rewrite Nat2N.id. unfold start.
    rewrite offset_sub_le by assumption. cbn [obind].
    destruct (append_reverse (cells i) (utf8 cs) (utf8 bs) Hh) as (moved & E1 & Hm & final & E2 & Hf);
      [unfold utf8_len in Hl'; lia|].
    replace (N.to_nat (62 - utf8_len (cs ++ bs)))
      with (62 - (length (utf8 cs) + length (utf8 bs)))%nat
      by (rewrite utf8_len_app; unfold utf8_len; lia).
    rewrite E1. cbn [obind]. rewrite offset_sub_le by (unfold utf8_len in Hl'; lia). cbn [obind].
    replace (N.to_nat (62 - N.of_nat (length (utf8 bs)))) with (62 - length (utf8 bs))%nat by lia.
    rewrite E2. cbn [obind]. eexists; split; [reflexivity|].
    eapply set_length_rep; [exact H|assumption|]. rewrite utf8_app. exact Hf.
  - rewrite (ir_len _ _ _ H). unfold raw_copy.
    match goal with |- context [if ?t then _ else _] => assert (t = true) as -> end.
    { destruct Hh as (Hlen & _). rewrite Hlen. unfold utf8_len in *. lia. }
    cbn [obind]. eexists; split; [reflexivity|].
    eapply set_length_rep; [exact H|assumption|].
    rewrite utf8_app. unfold utf8_len. rewrite Nat2N.id.
    apply append_forward; [assumption|]. unfold utf8_len in Hl'. lia.
Qed.

Lemma inline_push_front_rep rv i cs ch :
  inline_rep rv i cs -> utf8_len (ch :: cs) <= 62 ->
  exists i', inline_push_front i ch (len_utf8 ch) (utf8_len cs) (utf8_len (ch :: cs)) = Ret i' /\
             inline_rep rv i' (ch :: cs).
Proof.
  intros H Hl. pose proof (proj2 (proj2 H)) as Hh.
  pose proof Hl as Hl'. rewrite utf8_len_cons, <- encode_char_length in Hl'.
  unfold inline_push_front. rewrite (ir_rev _ _ _ H). unfold INLINE_CAPACITY.
  destruct rv.
  - rewrite utf8_buffer_firstn. rewrite offset_sub_le by assumption. cbn [obind].
    rewrite offset_sub_le by (destruct H; assumption). cbn [obind].
    unfold write_zip.
    match goal with |- context [if ?t then _ else _] => assert (t = true) as -> end.
    { destruct Hh as (Hlen & _). rewrite Hlen, utf8_len_cons, <- encode_char_length.
      unfold utf8_len in *. lia. }
    cbn [obind]. eexists; split; [reflexivity|].
    eapply set_length_rep; [exact H|assumption|].
    replace (N.to_nat (62 - utf8_len cs) - N.to_nat (62 - utf8_len (ch :: cs)))%nat
      with (length (encode_char ch))
      by (rewrite utf8_len_cons, <- encode_char_length; lia).
    rewrite firstn_all, utf8_cons.
    replace (N.to_nat (62 - utf8_len (ch :: cs))) with (62 - (length (utf8 cs) + length (encode_char ch)))%nat
      by (rewrite utf8_len_cons, <- encode_char_length; unfold utf8_len; lia).
    apply prepend_reverse; [assumption|]. unfold utf8_len in Hl'. lia.
  - destruct (prepend_forward (cells i) (utf8 cs) (encode_char ch) Hh) as (moved & E & Hm & Hf);
      [unfold utf8_len in Hl'; lia|].
    replace (N.to_nat (utf8_len cs)) with (length (utf8 cs)) by (unfold utf8_len; lia).
    replace (N.to_nat (len_utf8 ch)) with (length (encode_char ch)) by apply encode_char_length_nat.
    rewrite E. cbn [obind].
    (* the string between the move and the write: the length is set, the first
       bytes are stale *)
    set (mid := set_length (with_cells i moved) (utf8_len (ch :: cs))).
    assert (length_byte mid = dir false (utf8_len (ch :: cs))) as Hb.
    { unfold mid. cbn. destruct H as (Hl0 & -> & _). apply set_bits; assumption. }
    assert (data_offset mid = Ret 0) as Ho.
    { unfold data_offset, is_reverse. rewrite Hb, dir_bit by assumption. reflexivity. }
    assert (inline_len mid = utf8_len (ch :: cs)) as Hi.
    { unfold inline_len. rewrite Hb. apply len_bits. assumption. }
    unfold encode_into_bytes_mut, exposed_cells. rewrite Ho. cbn [obind]. rewrite Hi.
    change (NominalString.cells mid) with moved. rewrite Hm.
    match goal with |- context [if ?t then _ else _] => assert (t = true) as -> by (simpl; lia) end.
    cbn [obind].
    match goal with |- context [if ?t then _ else _] => assert (t = true) as -> end.
    { unfold window. rewrite firstn_length, skipn_length, Hm, utf8_len_cons, <- encode_char_length.
      simpl. lia. }
    eexists; split; [reflexivity|].
    split; [assumption|]. split; [exact Hb|]. exact Hf.
Qed.

(** ** The public pushes *)

(** What a push does to a string [s] of text [cs] when the pushed text makes it
    [cs']: it succeeds with [cs'] if there is room and leaves [s] alone
    otherwise. *)
Definition push_effect (c : config) (s : nominal_string) (cs' : list N)
    (r : outcome (nominal_string * result unit out_of_memory)) : Prop :=
  if room c cs' then
    exists s', r = Ret (s', Ok tt) /\ rep c s' cs' /\
               is_inline s' = is_inline s && (utf8_len cs' <=? 62)
  else r = Ret (s, Err OutOfMemoryError).

Lemma rep_noalloc c s cs : rep c s cs -> has_alloc c = false -> is_inline s = true.
Proof. intros [_ H] Hc. destruct s; [reflexivity|]. destruct H; congruence. Qed.

Lemma char_len_ok ch : char_len_u8 ch = Ret (len_utf8 ch).
Proof.
  unfold char_len_u8. pose proof (len_utf8_bounds ch). destruct (N.ltb_spec (len_utf8 ch) 256); [reflexivity|lia].
Qed.

Lemma uadd_8 c a b : a <= 62 -> b <= 4 -> uadd c 8 a b = Ret (a + b).
Proof. intros. unfold uadd. change (2 ^ 8) with 256. destruct (N.ltb_spec (a + b) 256); [reflexivity|lia]. Qed.

Lemma try_push_effect c s cs ch : rep c s cs -> is_scalar ch = true ->
  push_effect c s (cs ++ [ch]) (try_push c s ch).
Proof.
  intros [Hs H] Hch. unfold push_effect, room.
  assert (scalars (cs ++ [ch])) as Hs'.
  { apply scalars_app; split; [assumption|]. repeat constructor; assumption. }
  destruct s as [i|bs].
  - destruct H as [rv H]. pose proof (proj1 H) as Hl. pose proof (len_utf8_bounds ch).
    unfold try_push. rewrite char_len_ok. cbn [obind]. rewrite (ir_len _ _ _ H), uadd_8 by lia.
    cbn [obind]. rewrite <- utf8_len_single, <- utf8_len_app. unfold INLINE_CAPACITY.
    destruct (utf8_len (cs ++ [ch]) <=? 62) eqn:E.
    + rewrite orb_true_r.
      destruct (inline_push_rep rv i cs ch H) as (i' & E' & H'); [lia|].
      rewrite utf8_len_single, E'. cbn [obind]. eexists; split; [reflexivity|].
      split; [split; [assumption|]; exists rv; assumption|reflexivity].
    + rewrite orb_false_r. destruct (has_alloc c) eqn:Ec; [|reflexivity].
      rewrite (ir_str _ _ _ Hs H). cbn [obind]. eexists; split; [reflexivity|].
      split; [|reflexivity]. split; [assumption|]. split; [assumption|].
      rewrite utf8_app, utf8_single. reflexivity.
  - destruct H as [Hc ->]. rewrite Hc. cbn [orb]. eexists; split; [reflexivity|].
    split; [|reflexivity]. split; [assumption|]. split; [assumption|].
    rewrite utf8_app, utf8_single. reflexivity.
Qed.

Lemma try_push_str_effect c s cs str : rep c s cs -> scalars str ->
  push_effect c s (cs ++ str) (try_push_str c s (utf8 str)).
Proof.
  intros [Hs H] Hstr. unfold push_effect, room.
  assert (scalars (cs ++ str)) as Hs' by (apply scalars_app; split; assumption).
  destruct s as [i|bs].
  - destruct H as [rv H]. pose proof (proj1 H) as Hl.
    unfold try_push_str. fold (utf8_len str). rewrite (ir_len _ _ _ H).
    rewrite <- utf8_len_app. unfold INLINE_CAPACITY.
    assert (utf8_len str <= utf8_len (cs ++ str)) as Hle by (rewrite utf8_len_app; lia).
    destruct (utf8_len (cs ++ str) <=? 62) eqn:E.
    + rewrite orb_true_r. if_true. if_true.
      destruct (inline_push_str_rep rv i cs str H) as (i' & E' & H'); [lia|].
      rewrite E'. cbn [obind]. eexists; split; [reflexivity|].
      split; [split; [assumption|]; exists rv; assumption|reflexivity].
    + rewrite orb_false_r. rewrite (ir_str _ _ _ Hs H). cbn [obind].
      match goal with |- context [if ?b then (if ?b' then ?x else ?x) else ?x] =>
        replace (if b then (if b' then x else x) else x) with x by (destruct b, b'; reflexivity) end.
      destruct (has_alloc c) eqn:Ec; [|reflexivity].
      eexists; split; [reflexivity|].
      split; [|reflexivity]. split; [assumption|]. split; [assumption|].
      rewrite utf8_app. reflexivity.
  - destruct H as [Hc ->]. rewrite Hc. cbn [orb]. eexists; split; [reflexivity|].
    split; [|reflexivity]. split; [assumption|]. split; [assumption|].
    rewrite utf8_app. reflexivity.
Qed.

Lemma try_push_front_effect c s cs ch : rep c s cs -> is_scalar ch = true ->
  push_effect c s (ch :: cs) (try_push_front c s ch).
Proof.
  intros [Hs H] Hch. unfold push_effect, room.
  assert (scalars (ch :: cs)) as Hs' by (apply scalars_cons; split; assumption).
  destruct s as [i|bs].
  - destruct H as [rv H]. pose proof (proj1 H) as Hl. pose proof (len_utf8_bounds ch).
    unfold try_push_front. rewrite char_len_ok. cbn [obind]. rewrite (ir_len _ _ _ H), uadd_8 by lia.
    cbn [obind]. rewrite N.add_comm, <- utf8_len_cons. unfold INLINE_CAPACITY.
    destruct (utf8_len (ch :: cs) <=? 62) eqn:E.
    + rewrite orb_true_r.
      destruct (inline_push_front_rep rv i cs ch H) as (i' & E' & H'); [lia|].
      rewrite E'. cbn [obind]. eexists; split; [reflexivity|].
      split; [split; [assumption|]; exists rv; assumption|reflexivity].
    + rewrite orb_false_r. destruct (has_alloc c) eqn:Ec; [|reflexivity].
      rewrite (ir_str _ _ _ Hs H). cbn [obind]. eexists; split; [reflexivity|].
      split; [|reflexivity]. split; [assumption|]. split; [assumption|]. reflexivity.
  - destruct H as [Hc ->]. rewrite Hc. cbn [orb]. eexists; split; [reflexivity|].
    split; [|reflexivity]. split; [assumption|]. split; [assumption|]. reflexivity.
Qed.

(** ** Reading and converting *)

Lemma rep_str c s cs : rep c s cs -> as_str s = Ret (utf8 cs).
Proof.
  intros [Hs H]. destruct s; cbn [as_str].
  - destruct H as [rv H]. eapply ir_str; eassumption.
  - destruct H as [_ ->]; reflexivity.
Qed.

Lemma rep_fun c c' s cs cs' : rep c s cs -> rep c' s cs' -> cs = cs'.
Proof.
  intros H H'. pose proof (rep_str _ _ _ H) as E. rewrite (rep_str _ _ _ H') in E.
  injection E as E. symmetry. apply utf8_inj; [apply H'|apply H|assumption].
Qed.

Lemma rep_empty c s cs : rep c s cs -> is_empty s = Ret (match cs with [] => true | _ => false end).
Proof.
  intros H. unfold is_empty. rewrite (rep_str _ _ _ H). cbn [obind]. f_equal.
  destruct cs as [|x cs]; [reflexivity|].
  destruct (utf8 (x :: cs)) eqn:E; [|reflexivity]. apply utf8_nil_inv in E. discriminate.
Qed.

Lemma from_str_effect c cs : scalars cs ->
  if room c cs then
    exists s, from_str c (utf8 cs) = Ret s /\ rep c s cs /\ is_inline s = (utf8_len cs <=? 62)
  else from_str c (utf8 cs) = Panic.
Proof.
  intros Hs. unfold room, from_str. fold (utf8_len cs). unfold INLINE_CAPACITY.
  destruct (utf8_len cs <=? 62) eqn:E.
  - rewrite orb_true_r. if_true. unfold write_zip. rewrite uninit_length.
    match goal with |- context [if ?t then _ else _] => assert (t = true) as -> by (unfold utf8_len in E; lia) end.
    cbn [obind]. eexists; split; [reflexivity|]. split; [|reflexivity].
    split; [assumption|]. exists false. split; [lia|]. split; [reflexivity|].
    cbn [cells]. rewrite Nat.sub_0_r, firstn_all. unfold overwrite. cbn [firstn app].
    rewrite map_length. cbn [Nat.add]. split.
    + rewrite app_length, map_length, skipn_length, uninit_length. unfold utf8_len in E. lia.
    + exists (62 - length (utf8 cs))%nat. f_equal. apply (skipn_repeat (None : cell) _ 62).
  - rewrite orb_false_r, andb_false_r. destruct (has_alloc c) eqn:Ec; [|reflexivity].
    eexists; split; [reflexivity|]. split; [|reflexivity]. split; [assumption|]. split; [assumption|reflexivity].
Qed.

Lemma from_string_rep c cs : scalars cs -> has_alloc c = true -> rep c (from_string (utf8 cs)) cs.
Proof. intros. split; [assumption|]. split; [assumption|reflexivity]. Qed.

Lemma from_char_rep c ch : is_scalar ch = true ->
  exists s, from_char c ch = Ret s /\ rep c s [ch] /\ is_inline s = true.
Proof.
  intros H. pose proof (try_push_effect c new [] ch (new_rep c) H) as E.
  unfold push_effect in E.
  assert (utf8_len ([] ++ [ch]) <=? 62 = true) as El.
  { cbn [app]. rewrite utf8_len_single. pose proof (len_utf8_bounds ch). lia. }
  unfold room in E. rewrite El, orb_true_r in E. destruct E as (s & E & Hr & Hi).
  exists s. unfold from_char. rewrite E. cbn [obind]. repeat split; try assumption; apply Hr.
Qed.

(** ** Editing in place *)

Lemma edit_str_effect c s cs cs' (edit : list N -> list N) :
  rep c s cs -> scalars cs' -> edit (utf8 cs) = utf8 cs' -> utf8_len cs' = utf8_len cs ->
  exists s', edit_str s edit = Ret s' /\ rep c s' cs' /\ is_inline s' = is_inline s.
Proof.
  intros H Hs' He Hl. unfold edit_str. rewrite (rep_str _ _ _ H). cbn [obind]. rewrite He.
  rewrite valid_utf8_utf8 by assumption. unfold utf8_len in Hl. apply Nat2N.inj in Hl.
  rewrite Hl, Nat.eqb_refl. cbn [andb]. destruct H as [Hs H].
  destruct s as [i|bs].
  - destruct H as [rv H]. rewrite (ir_offset _ _ _ H). cbn [obind]. eexists; split; [reflexivity|].
    split; [|reflexivity]. split; [assumption|]. exists rv.
    destruct H as (H1 & H2 & Hlen & k & Hbuf). set (junk := repeat None k) in *.
    split; [unfold utf8_len in *; lia|]. split; [cbn; rewrite H2; unfold utf8_len; rewrite Hl; reflexivity|].
    cbn [cells with_cells]. rewrite Nat2N.id, Hbuf in *. unfold start. destruct rv.
    + rewrite app_length, map_length in Hlen.
      replace (62 - length (utf8 cs))%nat with (length junk) by lia.
      rewrite (app_assoc_nil junk), overwrite_mid by (rewrite !map_length; assumption).
      rewrite app_nil_r. split; [rewrite app_length, map_length; lia|]. exists k; reflexivity.
    + rewrite app_length, map_length in Hlen.
      assert (overwrite (map Some (utf8 cs) ++ junk) 0 (map Some (utf8 cs')) = map Some (utf8 cs') ++ junk)
        as -> by (apply (overwrite_mid []); rewrite !map_length; assumption).
      split; [rewrite app_length, map_length; lia|]. exists k; reflexivity.
  - destruct H as [Hc ->]. eexists; split; [reflexivity|]. split; [|reflexivity].
    split; [assumption|]. split; [assumption|reflexivity].
Qed.
