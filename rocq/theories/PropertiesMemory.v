(** * PropertiesMemory: C59 and C60, the bytes of an inline string *)

From Coq Require Import String.
From Verif Require Import Prelude Utf8Facts StringFacts Layout Slices Cases.

(** ** C59: the whole representation *)

(** After any history, an inline string is a function of its text and of the
    constructor's direction: length byte, text, and every unused cell. *)
Theorem C59_representation : forall c k ops i rs,
  valid_constructor c k -> Forall valid_op ops -> build c k ops = Ret (Inline i, rs) ->
  exists text, as_str (Inline i) = Ret text /\ i = layout_string (built_reverse k) text.
Proof.
  intros c k ops i rs Hk Hops E.
  assert (reachable c (Inline i)) as Hr by (exists k, ops, rs; auto).
  destruct (reachable_good _ _ Hr) as (text & Hg). exists text. split; [eapply good_str, Hg|].
  unfold build in E. destruct (construct c k) as [s| | |] eqn:Ek; try discriminate. cbn [obind] in E.
  destruct (run_reverse _ _ _ _ _ E) as (i0 & -> & Hd). rewrite <- (construct_reverse _ _ _ Ek), <- Hd.
  eapply rep_layout, Hg.
Qed.
Print Assumptions C59_representation.

(** In particular no byte of an earlier, longer or differently placed text is
    left behind: strings with the same text and direction are the same. *)
Theorem C59_no_traces : forall c c' k k' ops ops' i i' rs rs' text,
  valid_constructor c k -> valid_constructor c' k' -> Forall valid_op ops -> Forall valid_op ops' ->
  built_reverse k = built_reverse k' ->
  build c k ops = Ret (Inline i, rs) -> build c' k' ops' = Ret (Inline i', rs') ->
  as_str (Inline i) = Ret text -> as_str (Inline i') = Ret text -> i = i'.
Proof.
  intros c c' k k' ops ops' i i' rs rs' text Hk Hk' Ho Ho' Hd E E' Ht Ht'.
  destruct (C59_representation _ _ _ _ _ Hk Ho E) as (t & H1 & ->).
  destruct (C59_representation _ _ _ _ _ Hk' Ho' E') as (t' & H2 & ->). congruence.
Qed.
Print Assumptions C59_no_traces.

Example C59_case :
  build no_heap NewReverse [PushFront 0x62; Push 0x63; PushStr (repeat 0x61 61); PushFront 0xE9; PushStr [0x64; 0x65]] =
    Ret (Inline (layout_string true ([0xC3; 0xA9] ++ [0x62; 0x63; 0x64; 0x65])),
         [Ok tt; Ok tt; Err OutOfMemoryError; Ok tt; Ok tt]) /\
  build no_heap (FromStr [0x62; 0x63]) [PushFront 0xE9; PushStr [0x64; 0x65]] =
    Ret (Inline (layout_string false ([0xC3; 0xA9] ++ [0x62; 0x63; 0x64; 0x65])), [Ok tt; Ok tt]).
Proof. split; vm_compute; reflexivity. Qed.

(** ** C60: pushing at the cheap end *)

(** [push] and [push_str] on a forward string and [push_front] on a reversed
    one leave every byte of the text where it is: only the cells of what is
    pushed change. This is what the documentation of [new_reverse] promises. *)
Definition pushed_bytes (o : op) : list N :=
  match o with Push ch | PushFront ch => encode_char ch | PushStr bs => bs | Edit _ => [] end.

Definition cheap (rv : bool) (o : op) : bool :=
  match o with Push _ | PushStr _ => negb rv | PushFront _ => rv | Edit _ => false end.

Theorem C60_cheap_end : forall c i o i' text j,
  reachable c (Inline i) -> valid_op o -> as_str (Inline i) = Ret text -> cheap (is_reverse i) o = true ->
  step c (Inline i) o = Ret (Inline i', Ok tt) ->
  let n := length (pushed_bytes o) in
  let start := if is_reverse i then (62 - length text - n)%nat else length text in
  (start + n <= 62)%nat /\
  nth j (cells i') None =
    if ((start <=? j) && (j <? start + n))%nat then Some (nth (j - start) (pushed_bytes o) 0) else nth j (cells i) None.
Proof.
  intros c i o i' text j Hr Ho Ht Hch E n st.
  destruct (reachable_good _ _ Hr) as (t & Hg). rewrite (good_str _ _ _ Hg) in Ht. injection Ht as ->.
  pose proof (step_effect c _ _ o Hg Ho) as He. unfold op_effect in He.
  destruct (succeeds c text o); [|rewrite He in E; discriminate].
  destruct He as (s' & E' & Hg' & Hi'). rewrite E in E'. injection E' as <-. cbn [is_inline andb] in Hi'.
  pose proof (rep_layout _ _ _ Hg) as Hl. pose proof (rep_layout _ _ _ Hg') as Hl'.
  rewrite (step_reverse _ _ _ _ _ E) in Hl'.
  assert (is_edit o = false) as Hed by (destruct o; try reflexivity; discriminate). rewrite Hed in Hi'. cbn [orb] in Hi'.
  assert (length (op_text text o) = length text + n)%nat as Hlen.
  { unfold n. destruct o; cbn [op_text pushed_bytes] in *; rewrite ?app_length; try lia. discriminate. }
  unfold at_most_62 in Hi'. rewrite Hlen in Hi'. symmetry in Hi'. apply Nat.leb_le in Hi'.
  split; [unfold st; destruct (is_reverse i); lia|].
  assert (cells i' = layout (is_reverse i) (op_text text o)) as -> by (rewrite Hl'; reflexivity).
  assert (cells i = layout (is_reverse i) text) as Hc by (rewrite Hl at 1; reflexivity). rewrite Hc.
  unfold layout. rewrite Hlen. unfold st. destruct (is_reverse i) eqn:Erv.
  - assert (op_text text o = pushed_bytes o ++ text) as -> by (destruct o; try discriminate; reflexivity).
    rewrite map_app.
    destruct (Nat.leb_spec (62 - length text - n) j) as [H1|H1]; cbn [andb].
    + rewrite app_nth2 by (rewrite repeat_length; lia). rewrite repeat_length.
      replace (j - (62 - (length text + n)))%nat with (j - (62 - length text - n))%nat by lia.
      destruct (Nat.ltb_spec j (62 - length text - n + n)) as [H2|H2].
      * rewrite app_nth1 by (rewrite map_length; fold n; lia).
        rewrite (nth_indep _ None (Some 0)) by (rewrite map_length; fold n; lia). apply map_nth.
      * rewrite app_nth2 by (rewrite map_length; fold n; lia). rewrite map_length. fold n.
        rewrite app_nth2 by (rewrite repeat_length; lia). rewrite repeat_length. f_equal. lia.
    + rewrite !app_nth1 by (rewrite repeat_length; lia). rewrite !nth_repeat. reflexivity.
  - assert (op_text text o = text ++ pushed_bytes o) as -> by (destruct o; try discriminate; reflexivity).
    rewrite map_app, <- app_assoc.
    destruct (Nat.leb_spec (length text) j) as [H1|H1]; cbn [andb].
    + rewrite (app_nth2 (map Some text) (_ ++ _)) by (rewrite map_length; lia). rewrite map_length.
      destruct (Nat.ltb_spec j (length text + n)) as [H2|H2].
      * rewrite app_nth1 by (rewrite map_length; fold n; lia).
        rewrite (nth_indep _ None (Some 0)) by (rewrite map_length; fold n; lia). apply map_nth.
      * rewrite !app_nth2 by (rewrite map_length; fold n; lia). rewrite !nth_repeat. reflexivity.
    + rewrite !app_nth1 by (rewrite map_length; lia). reflexivity.
Qed.
Print Assumptions C60_cheap_end.

Example C60_case :
  let i := layout_string true [0x62; 0x63] in
  cheap (is_reverse i) (PushFront 0xE9) = true /\
  step no_heap (Inline i) (PushFront 0xE9) = Ret (Inline (layout_string true [0xC3; 0xA9; 0x62; 0x63]), Ok tt) /\
  map (fun j => nth j (cells i) None) [58; 60; 61]%nat = [None; Some 0x62; Some 0x63] /\
  map (fun j => nth j (layout true [0xC3; 0xA9; 0x62; 0x63]) None) [58; 60; 61]%nat = [Some 0xC3; Some 0x62; Some 0x63].
Proof. repeat split; vm_compute; reflexivity. Qed.
