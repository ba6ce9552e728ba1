(** * Utf8Facts: encoding and strict decoding are inverse; byte order is code
    point order *)

From Verif Require Import Prelude NominalString.

Lemma encode_char_length ch : N.of_nat (length (encode_char ch)) = len_utf8 ch.
Proof. unfold encode_char, len_utf8. repeat case_if; reflexivity. Qed.

Lemma len_utf8_bounds ch : 1 <= len_utf8 ch <= 4.
Proof. unfold len_utf8. repeat case_if; lia. Qed.

Lemma encode_char_length_nat ch : length (encode_char ch) = N.to_nat (len_utf8 ch).
Proof. rewrite <- encode_char_length. lia. Qed.

Lemma utf8_app a b : utf8 (a ++ b) = utf8 a ++ utf8 b.
Proof. apply flat_map_app. Qed.

Lemma utf8_cons ch b : utf8 (ch :: b) = encode_char ch ++ utf8 b.
Proof. reflexivity. Qed.

Lemma utf8_single ch : utf8 [ch] = encode_char ch.
Proof. simpl. apply app_nil_r. Qed.

Lemma utf8_len_app a b : utf8_len (a ++ b) = utf8_len a + utf8_len b.
Proof. unfold utf8_len. rewrite utf8_app, app_length. lia. Qed.

Lemma utf8_len_cons ch b : utf8_len (ch :: b) = len_utf8 ch + utf8_len b.
Proof. change (ch :: b) with ([ch] ++ b). rewrite utf8_len_app. unfold utf8_len at 1.
  rewrite utf8_single, encode_char_length. reflexivity. Qed.

Lemma utf8_len_single ch : utf8_len [ch] = len_utf8 ch.
Proof. unfold utf8_len. rewrite utf8_single. apply encode_char_length. Qed.

Lemma utf8_nil_inv cs : utf8 cs = [] -> cs = [].
Proof.
  destruct cs as [|c cs]; [reflexivity|]. intros H.
  apply (f_equal (@length N)) in H. rewrite utf8_cons, app_length, encode_char_length_nat in H.
  pose proof (len_utf8_bounds c). simpl in H. lia.
Qed.

Lemma scalars_app a b : scalars (a ++ b) <-> scalars a /\ scalars b.
Proof. apply Forall_app. Qed.

Lemma scalars_cons c b : scalars (c :: b) <-> is_scalar c = true /\ scalars b.
Proof. apply Forall_cons_iff. Qed.

(** Reduce [if b then _ else _] when [b]'s value follows by arithmetic. *)
Ltac if_true := match goal with |- context [if ?b then _ else _] =>
  let E := fresh in assert (b = true) as E by lia; rewrite E; clear E end.
Ltac if_false := match goal with |- context [if ?b then _ else _] =>
  let E := fresh in assert (b = false) as E by lia; rewrite E; clear E end.

Lemma decode_encode_char ch rest : is_scalar ch = true ->
  utf8_decode (encode_char ch ++ rest) = option_map (cons ch) (utf8_decode rest).
Proof.
  intros Hs. unfold is_scalar in Hs. unfold encode_char.
  destruct (ch <? 0x80) eqn:E1; [|destruct (ch <? 0x800) eqn:E2; [|destruct (ch <? 0x10000) eqn:E3]].
  - cbn [app utf8_decode]. rewrite E1. reflexivity.
  - cbn [app utf8_decode]. unfold is_cont.
    if_false. if_true. if_true.
    replace ((0xC0 + ch / 0x40 - 0xC0) * 0x40 + (0x80 + ch mod 0x40 - 0x80)) with ch by lia.
    reflexivity.
  - cbn [app utf8_decode]. unfold is_cont.
    if_false. if_false. if_true.
    replace ((0xE0 + ch / 0x1000 - 0xE0) * 0x1000 + (0x80 + ch / 0x40 mod 0x40 - 0x80) * 0x40 +
             (0x80 + ch mod 0x40 - 0x80)) with ch by lia.
    unfold is_scalar. if_true. reflexivity.
  - cbn [app utf8_decode]. unfold is_cont.
    if_false. if_false. if_false.
    replace ((0xF0 + ch / 0x40000 - 0xF0) * 0x40000 + (0x80 + ch / 0x1000 mod 0x40 - 0x80) * 0x1000
             + (0x80 + ch / 0x40 mod 0x40 - 0x80) * 0x40 + (0x80 + ch mod 0x40 - 0x80)) with ch by lia.
    unfold is_scalar. if_true. reflexivity.
Qed.

Lemma decode_utf8 cs : scalars cs -> utf8_decode (utf8 cs) = Some cs.
Proof.
  induction cs as [|c cs IH]; intros H; [reflexivity|].
  apply scalars_cons in H as [Hc Hs]. rewrite utf8_cons, decode_encode_char, IH; auto.
Qed.

Lemma valid_utf8_utf8 cs : scalars cs -> valid_utf8 (utf8 cs) = true.
Proof. intros H. unfold valid_utf8. rewrite decode_utf8; auto. Qed.

Lemma option_map_some {A B} (f : A -> B) o b : option_map f o = Some b -> exists a, o = Some a /\ b = f a.
Proof. destruct o; simpl; intros H; [|discriminate]. injection H as <-; eauto. Qed.

Lemma decode_sound : forall bs cs, utf8_decode bs = Some cs -> scalars cs /\ bs = utf8 cs.
Proof.
  intros bs. remember (length bs) as len eqn:Hlen.
  assert (length bs <= len)%nat as Hle by lia. clear Hlen. revert bs Hle.
  induction len as [|len IH]; intros bs Hle cs H.
  - destruct bs; [|simpl in Hle; lia]. injection H as <-. split; [constructor|reflexivity].
  - destruct bs as [|b0 r0]; [injection H as <-; split; [constructor|reflexivity]|].
    cbn [utf8_decode] in H. simpl in Hle.
    destruct (b0 <? 0x80) eqn:E0.
    { apply option_map_some in H as (t & H & ->). apply IH in H as [Hs ->]; [|lia].
      split; [apply scalars_cons; split; [unfold is_scalar; lia|assumption]|].
      rewrite utf8_cons. unfold encode_char. rewrite E0. reflexivity. }
    destruct r0 as [|b1 r1]; [discriminate|].
    destruct ((0xC2 <=? b0) && (b0 <? 0xE0)) eqn:E1.
    { destruct (is_cont b1) eqn:C1; [|discriminate]. unfold is_cont in C1.
      apply option_map_some in H as (t & H & ->). apply IH in H as [Hs ->]; [|simpl in Hle; lia].
      split; [apply scalars_cons; split; [unfold is_scalar; lia|assumption]|].
      rewrite utf8_cons. unfold encode_char. if_false. if_true. cbn [app].
      f_equal; [lia|]. f_equal. lia. }
    destruct r1 as [|b2 r2]; [discriminate|].
    destruct ((0xE0 <=? b0) && (b0 <? 0xF0)) eqn:E2.
    { cbv zeta in H. remember ((b0 - 0xE0) * 0x1000 + (b1 - 0x80) * 0x40 + (b2 - 0x80)) as ch eqn:Ech.
      unfold is_cont, is_scalar in H.
      match type of H with (if ?b then _ else _) = _ => destruct b eqn:C end; [|discriminate].
      apply option_map_some in H as (t & H & ->). apply IH in H as [Hs ->]; [|simpl in Hle; lia].
      split; [apply scalars_cons; split; [unfold is_scalar; lia|assumption]|].
      rewrite utf8_cons. unfold encode_char. if_false. if_false. if_true. cbn [app].
      f_equal; [lia|]. f_equal; [lia|]. f_equal. lia. }
    destruct r2 as [|b3 r3]; [discriminate|].
    cbv zeta in H.
    remember ((b0 - 0xF0) * 0x40000 + (b1 - 0x80) * 0x1000 + (b2 - 0x80) * 0x40 + (b3 - 0x80)) as ch eqn:Ech.
    unfold is_cont, is_scalar in H.
    match type of H with (if ?b then _ else _) = _ => destruct b eqn:C end; [|discriminate].
    apply option_map_some in H as (t & H & ->). apply IH in H as [Hs ->]; [|simpl in Hle; lia].
    split; [apply scalars_cons; split; [unfold is_scalar; lia|assumption]|].
    rewrite utf8_cons. unfold encode_char. if_false. if_false. if_false. cbn [app].
    f_equal; [lia|]. f_equal; [lia|]. f_equal; [lia|]. f_equal. lia.
Qed.

Lemma valid_utf8_inv bs : valid_utf8 bs = true -> exists cs, scalars cs /\ bs = utf8 cs.
Proof.
  unfold valid_utf8. destruct (utf8_decode bs) as [cs|] eqn:E; [|discriminate].
  intros _. exists cs. apply decode_sound, E.
Qed.

Lemma utf8_inj a b : scalars a -> scalars b -> utf8 a = utf8 b -> a = b.
Proof.
  intros Ha Hb H. apply (f_equal utf8_decode) in H. rewrite !decode_utf8 in H by assumption.
  congruence.
Qed.

(** ** Comparison *)

Lemma bytes_eqb_spec a b : bytes_eqb a b = true <-> a = b.
Proof.
  revert b; induction a as [|x a IH]; intros [|y b]; simpl; split; intros H; try easy.
  - apply andb_true_iff in H as [H1 H2]. apply N.eqb_eq in H1. apply IH in H2. congruence.
  - injection H as -> ->. rewrite N.eqb_refl. apply IH. reflexivity.
Qed.

Lemma bytes_compare_refl a : bytes_compare a a = Eq.
Proof. induction a; simpl; [reflexivity|]. rewrite N.compare_refl. assumption. Qed.

Lemma bytes_compare_app p a b : bytes_compare (p ++ a) (p ++ b) = bytes_compare a b.
Proof. induction p; simpl; [reflexivity|]. rewrite N.compare_refl. assumption. Qed.

(** The order of the encodings of two different characters, whatever follows. *)
Lemma encode_compare x y a b : is_scalar x = true -> is_scalar y = true -> x < y ->
  bytes_compare (encode_char x ++ a) (encode_char y ++ b) = Lt.
Proof.
  unfold is_scalar. intros Hx Hy H.
  unfold encode_char.
  assert (forall p q a b, p < q -> bytes_compare (p :: a) (q :: b) = Lt) as Lt_.
  { intros p q a' b' Hpq. simpl. apply N.compare_lt_iff in Hpq. rewrite Hpq. reflexivity. }
  assert (forall p q a b, p = q -> bytes_compare a b = Lt -> bytes_compare (p :: a) (q :: b) = Lt) as Eq_.
  { intros p q a' b' -> Hpq. simpl. rewrite N.compare_refl. assumption. }
  destruct (x <? 0x80) eqn:X1; [|destruct (x <? 0x800) eqn:X2; [|destruct (x <? 0x10000) eqn:X3]];
  (destruct (y <? 0x80) eqn:Y1; [|destruct (y <? 0x800) eqn:Y2; [|destruct (y <? 0x10000) eqn:Y3]]);
  try lia; cbn [app]; try (apply Lt_; lia).
  - destruct (N.eq_dec (x / 0x40) (y / 0x40)); [|apply Lt_; lia].
    apply Eq_; [lia|]. apply Lt_; lia.
  - destruct (N.eq_dec (x / 0x1000) (y / 0x1000)); [|apply Lt_; lia].
    apply Eq_; [lia|].
    destruct (N.eq_dec (x / 0x40) (y / 0x40)).
    + apply Eq_; [lia|]. apply Lt_; lia.
    + apply Lt_; lia.
  - destruct (N.eq_dec (x / 0x40000) (y / 0x40000)); [|apply Lt_; lia].
    apply Eq_; [lia|].
    destruct (N.eq_dec (x / 0x1000) (y / 0x1000)).
    + apply Eq_; [lia|].
      destruct (N.eq_dec (x / 0x40) (y / 0x40)).
      * apply Eq_; [lia|]. apply Lt_; lia.
      * apply Lt_; lia.
    + apply Lt_; lia.
Qed.

Lemma bytes_compare_antisym a b : bytes_compare b a = CompOpp (bytes_compare a b).
Proof.
  revert b; induction a as [|x a IH]; intros [|y b]; simpl; try reflexivity.
  rewrite N.compare_antisym. destruct (x ?= y); simpl; auto.
Qed.

(** Byte order is the lexicographic order of the code points; [bytes_compare]
    doubles as lexicographic comparison of code point lists. *)
Lemma utf8_compare a b : scalars a -> scalars b ->
  bytes_compare (utf8 a) (utf8 b) = bytes_compare a b.
Proof.
  revert b; induction a as [|x a IH]; intros [|y b] Ha Hb; try reflexivity.
  - rewrite utf8_cons. pose proof (encode_char_length_nat y). pose proof (len_utf8_bounds y).
    destruct (encode_char y); simpl in *; [lia|reflexivity].
  - rewrite utf8_cons. pose proof (encode_char_length_nat x). pose proof (len_utf8_bounds x).
    destruct (encode_char x); simpl in *; [lia|reflexivity].
  - apply scalars_cons in Ha as [Hx Ha]. apply scalars_cons in Hb as [Hy Hb].
    rewrite !utf8_cons. cbn [bytes_compare].
    destruct (N.compare_spec x y) as [->|H|H].
    + rewrite bytes_compare_app. apply IH; assumption.
    + apply encode_compare; assumption.
    + rewrite bytes_compare_antisym, encode_compare; auto.
Qed.
