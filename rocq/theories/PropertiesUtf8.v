(** * PropertiesUtf8: C90, the bytes of a text are UTF-8 as Unicode defines it *)

From Coq Require Import String.
From Verif Require Import Prelude Utf8Facts SpecUtf8 NominalString Spec StringFacts History PropertiesString Cases.

Lemma scalar_values ch : is_scalar ch = true <-> scalar_value ch.
Proof. unfold is_scalar, scalar_value. lia. Qed.

Lemma encoded_char ch : is_scalar ch = true -> encoded ch (encode_char ch).
Proof.
  intros H. unfold is_scalar in H. unfold encode_char.
  destruct (ch <? 0x80) eqn:E1; [|destruct (ch <? 0x800) eqn:E2; [|destruct (ch <? 0x10000) eqn:E3]].
  - apply one_byte. lia.
  - assert (ch = ch / 0x40 * 2 ^ 6 + ch mod 0x40) as E by lia. rewrite E at 1. apply two_bytes; lia.
  - assert (ch = ch / 0x1000 * 2 ^ 12 + ch / 0x40 mod 0x40 * 2 ^ 6 + ch mod 0x40) as E by lia. rewrite E at 1. apply three_bytes; lia.
  - assert (ch = ch / 0x40000 * 2 ^ 18 + ch / 0x1000 mod 0x40 * 2 ^ 12 + ch / 0x40 mod 0x40 * 2 ^ 6 + ch mod 0x40) as E by lia.
    rewrite E at 1. apply four_bytes; lia.
Qed.

Lemma encoded_fun ch bs bs' : encoded ch bs -> encoded ch bs' -> bs = bs'.
Proof.
  intros H H'. inversion H; subst; inversion H'; subst; try lia; repeat (apply f_equal2; [lia|]); reflexivity.
Qed.

Ltac in_rows k := exists (nth k well_formed_rows []); split; [apply nth_In; cbn; lia|repeat constructor; lia].

Lemma char_well_formed ch : is_scalar ch = true -> exists row, In row well_formed_rows /\ in_row row (encode_char ch).
Proof.
  intros H. unfold is_scalar in H. unfold encode_char.
  destruct (ch <? 0x80) eqn:E1; [|destruct (ch <? 0x800) eqn:E2; [|destruct (ch <? 0x10000) eqn:E3]].
  - in_rows 0%nat.
  - in_rows 1%nat.
  - destruct (N.ltb_spec ch 0x1000); [in_rows 2%nat|]. destruct (N.ltb_spec ch 0xD000); [in_rows 3%nat|].
    destruct (N.ltb_spec ch 0xE000); [in_rows 4%nat|]. in_rows 5%nat.
  - destruct (N.ltb_spec ch 0x40000); [in_rows 6%nat|]. destruct (N.ltb_spec ch 0x100000); [in_rows 7%nat|]. in_rows 8%nat.
Qed.

Lemma row_char row bs : In row well_formed_rows -> in_row row bs -> exists ch, is_scalar ch = true /\ encode_char ch = bs.
Proof.
  assert (forall b0, b0 <= 0x7F -> exists ch, is_scalar ch = true /\ encode_char ch = [b0]) as H1.
  { intros b0 H. exists b0. unfold is_scalar, encode_char. split; [lia|]. if_true. reflexivity. }
  assert (forall b0 b1, 0xC2 <= b0 <= 0xDF -> 0x80 <= b1 <= 0xBF -> exists ch, is_scalar ch = true /\ encode_char ch = [b0; b1]) as H2.
  { intros b0 b1 H0 H. exists ((b0 - 0xC0) * 0x40 + (b1 - 0x80)). unfold is_scalar, encode_char. split; [lia|].
    if_false. if_true. f_equal; [lia|]. f_equal. lia. }
  assert (forall b0 b1 b2, 0x800 <= (b0 - 0xE0) * 0x1000 + (b1 - 0x80) * 0x40 + (b2 - 0x80) -> 0xE0 <= b0 <= 0xEF ->
    0x80 <= b1 <= 0xBF -> 0x80 <= b2 <= 0xBF -> (b0 <> 0xED \/ b1 <= 0x9F) ->
    exists ch, is_scalar ch = true /\ encode_char ch = [b0; b1; b2]) as H3.
  { intros b0 b1 b2 H H0 H1' H2' Hs. exists ((b0 - 0xE0) * 0x1000 + (b1 - 0x80) * 0x40 + (b2 - 0x80)).
    unfold is_scalar, encode_char. split; [lia|]. if_false. if_false. if_true. f_equal; [lia|]. f_equal; [lia|]. f_equal. lia. }
  assert (forall b0 b1 b2 b3, 0x10000 <= (b0 - 0xF0) * 0x40000 + (b1 - 0x80) * 0x1000 + (b2 - 0x80) * 0x40 + (b3 - 0x80) ->
    0xF0 <= b0 <= 0xF4 -> 0x80 <= b1 <= 0xBF -> 0x80 <= b2 <= 0xBF -> 0x80 <= b3 <= 0xBF -> (b0 <> 0xF4 \/ b1 <= 0x8F) ->
    exists ch, is_scalar ch = true /\ encode_char ch = [b0; b1; b2; b3]) as H4.
  { intros b0 b1 b2 b3 H H0 H1' H2' H3' Hs. exists ((b0 - 0xF0) * 0x40000 + (b1 - 0x80) * 0x1000 + (b2 - 0x80) * 0x40 + (b3 - 0x80)).
    unfold is_scalar, encode_char. split; [lia|]. if_false. if_false. if_false. f_equal; [lia|]. f_equal; [lia|]. f_equal; [lia|]. f_equal. lia. }
  intros Hrow H.
  repeat (destruct Hrow as [<-|Hrow]; [unfold in_row in H;
    repeat match goal with H : Forall2 _ _ _ |- _ => inversion H; clear H; subst end;
    first [apply H1|apply H2|apply H3|apply H4]; lia|]).
  destruct Hrow.
Qed.

Lemma well_formed_utf8 bs : well_formed bs <-> exists cs, scalars cs /\ bs = utf8 cs.
Proof.
  split.
  - induction 1 as [|row bs rest Hrow Hin _ (cs & Hs & ->)]; [exists []; split; [constructor|reflexivity]|].
    destruct (row_char row bs Hrow Hin) as (ch & Hch & <-). exists (ch :: cs).
    split; [apply scalars_cons; auto|]. rewrite utf8_cons. reflexivity.
  - intros (cs & Hs & ->). induction cs as [|ch cs IH]; [constructor|]. apply scalars_cons in Hs as [Hch Hs].
    rewrite utf8_cons. destruct (char_well_formed ch Hch) as (row & Hrow & Hin). eapply well_formed_next; eauto.
Qed.

(** ** C90 *)

(** Every string reads as well-formed UTF-8. *)
Theorem C90_well_formed : forall c s, reachable c s -> exists bs, as_str s = Ret bs /\ well_formed bs.
Proof.
  intros c s Hr. destruct (C05_reads_are_safe c s Hr) as (bs & E & Hv & _). exists bs. split; [exact E|].
  apply well_formed_utf8, valid_utf8_inv, Hv.
Qed.
Print Assumptions C90_well_formed.

(** Every well-formed text can be held, with a heap or in 62 bytes. *)
Theorem C90_every_text : forall c bs, well_formed bs -> has_alloc c || at_most_62 bs = true ->
  exists s, from_str c bs = Ret s /\ as_str s = Ret bs /\ reachable c s.
Proof.
  intros c bs Hw Hr. assert (valid_constructor c (FromStr bs)) as Hk.
  { apply well_formed_utf8 in Hw as (cs & Hs & ->). apply (valid_utf8_utf8 cs Hs). }
  destruct (C05_construction c (FromStr bs) Hk) as [(s & E & Hs)|(_ & Ha & bs' & Eb & Hl)].
  - exists s. split; [exact E|]. split; [exact (C07_conversions_keep_the_text c (FromStr bs) s Hk E)|exact Hs].
  - injection Eb as <-. unfold at_most_62 in Hr. rewrite Ha in Hr. lia.
Qed.
Print Assumptions C90_every_text.

(** What the theorems on histories of calls take as a [char] and a [str] are
    the scalar values and the well-formed byte sequences. *)
Theorem C90_arguments :
  (forall ch, (valid_op (Push ch) <-> scalar_value ch) /\ (valid_op (PushFront ch) <-> scalar_value ch)) /\
  (forall bs, valid_op (PushStr bs) <-> well_formed bs) /\
  (forall c ch, valid_constructor c (FromChar ch) <-> scalar_value ch) /\
  (forall c bs, valid_constructor c (FromStr bs) <-> well_formed bs).
Proof.
  assert (forall bs, valid_utf8 bs = true <-> well_formed bs) as H.
  { intros bs. rewrite well_formed_utf8. split; [apply valid_utf8_inv|]. intros (cs & Hs & ->). apply valid_utf8_utf8, Hs. }
  split; [intros ch; split; apply scalar_values|]. split; [exact H|]. split; [intros c ch; apply scalar_values|]. intros c bs. apply H.
Qed.
Print Assumptions C90_arguments.

(** Each character adds the bytes of table 3-6. *)
Theorem C90_characters : forall c s bs ch b, reachable c s -> as_str s = Ret bs -> scalar_value ch -> encoded ch b ->
  has_alloc c || at_most_62 (bs ++ b) = true ->
  (exists s', try_push c s ch = Ret (s', Ok tt) /\ as_str s' = Ret (bs ++ b)) /\
  (exists s', try_push_front c s ch = Ret (s', Ok tt) /\ as_str s' = Ret (b ++ bs)) /\
  (exists s', from_char c ch = Ret s' /\ as_str s' = Ret b).
Proof.
  intros c s bs ch b Hr Es Hch Hb Hroom. apply scalar_values in Hch.
  assert (b = encode_char ch) as -> by exact (encoded_fun _ _ _ Hb (encoded_char ch Hch)).
  destruct (reachable_good c s Hr) as (text & Hg). assert (text = bs) as -> by (pose proof (good_str _ _ _ Hg); congruence).
  assert (at_most_62 (encode_char ch ++ bs) = at_most_62 (bs ++ encode_char ch)) as El.
  { unfold at_most_62. rewrite !app_length, Nat.add_comm. reflexivity. }
  assert (forall o, valid_op o -> is_edit o = false -> has_alloc c || at_most_62 (op_text bs o) = true ->
    exists s', step c s o = Ret (s', Ok tt) /\ as_str s' = Ret (op_text bs o)) as H.
  { intros o Ho He Hroom'. pose proof (step_effect c s bs o Hg Ho) as H. unfold op_effect in H.
    assert (succeeds c bs o = true) as E by (unfold succeeds; destruct o; [exact Hroom'..|discriminate He]).
    rewrite E in H. destruct H as (s' & E' & Hg' & _). exists s'. split; [exact E'|eapply good_str, Hg']. }
  split; [apply (H (Push ch) Hch eq_refl Hroom)|].
  split; [apply (H (PushFront ch) Hch eq_refl); cbn [op_text]; rewrite El; exact Hroom|].
  destruct (C05_construction c (FromChar ch) Hch) as [(s' & E & _)|(_ & _ & bs' & Eb & _)]; [|discriminate].
  exists s'. split; [exact E|]. exact (C07_conversions_keep_the_text c (FromChar ch) s' Hch E).
Qed.
Print Assumptions C90_characters.

(** The first and last scalar values of each length, and what is not one. *)
Example C90_case :
  Forall (fun '(ch, bs) => scalar_value ch /\ encoded ch bs /\ seen (s <- from_char no_heap ch ;; Ret (Ok s)) = Ret (Ok bs))
    [(0, [0]); (0x7F, [0x7F]); (0x80, [0xC2; 0x80]); (0x7FF, [0xDF; 0xBF]); (0x800, [0xE0; 0xA0; 0x80]);
     (0xD7FF, [0xED; 0x9F; 0xBF]); (0xE000, [0xEE; 0x80; 0x80]); (0xFFFF, [0xEF; 0xBF; 0xBF]);
     (0x10000, [0xF0; 0x90; 0x80; 0x80]); (0x10FFFF, [0xF4; 0x8F; 0xBF; 0xBF])] /\
  ~ scalar_value 0xD800 /\ ~ scalar_value 0x110000 /\ ~ well_formed [0xED; 0xA0; 0x80] /\ ~ well_formed [0xC0; 0x80].
Proof.
  split.
  - repeat (apply Forall_cons; [split; [unfold scalar_value; lia|]; split; [|vm_compute; reflexivity];
      match goal with |- encoded ?ch _ => apply (encoded_char ch); reflexivity end|]). apply Forall_nil.
  - split; [unfold scalar_value; lia|]. split; [unfold scalar_value; lia|].
    split; intros H; apply well_formed_utf8 in H as (cs & Hs & E); apply (f_equal utf8_decode) in E;
      rewrite decode_utf8 in E by exact Hs; vm_compute in E; discriminate.
Qed.
