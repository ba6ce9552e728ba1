(** * PropertiesComposed: C75, how long Ethiopic and Hebrew numerals are
    composed of shorter ones *)

From Coq Require Import String.
From Verif Require Import Prelude Utf8Facts StringFacts History Outcome SpecAdditive DigitSets ScriptFacts
  Ethiopic Hebrew Cases.

(** ** Ethiopic *)

Lemma ethiopic_group_up first index v :
  ethiopic_group first (S (S index)) v =
  ethiopic_group first index v ++ (if Nat.eqb index 0 then [0x137C] else []).
Proof.
  unfold ethiopic_group. cbn [Nat.eqb]. rewrite Nat.odd_succ_succ. rewrite <- app_assoc. f_equal.
  destruct index as [|index]; [reflexivity|]. cbn [Nat.eqb]. rewrite app_nil_r. reflexivity.
Qed.

Lemma ethiopic_groups_up a b : forall gs first, gs <> [] ->
  ethiopic_groups first (gs ++ [a; b]) =
  ethiopic_groups first gs ++ [0x137C] ++ ethiopic_groups false [a; b].
Proof.
  induction gs as [|g gs IH]; intros first Hgs; [contradiction|].
  cbn [app ethiopic_groups]. rewrite app_length. cbn [length].
  replace (length gs + 2)%nat with (S (S (length gs))) by lia. rewrite ethiopic_group_up.
  destruct gs as [|g' gs].
  - cbn [app length Nat.eqb ethiopic_groups]. rewrite <- !app_assoc. reflexivity.
  - rewrite (IH false) by discriminate. cbn [length Nat.eqb]. rewrite app_nil_r, <- !app_assoc. reflexivity.
Qed.

Lemma ethiopic_small a : 1 <= a -> a < 100 -> ethiopic_numeral a (ethiopic_digits a).
Proof.
  intros H1 H2. unfold ethiopic_numeral. destruct (N.eqb_spec a 1) as [->|Ha]; [reflexivity|].
  exists [a]. split; [repeat constructor; lia|]. split; [cbn; lia|]. split; [cbn; lia|].
  cbn [ethiopic_groups length]. unfold ethiopic_group.
  destruct (N.eqb_spec a 0); [lia|]. destruct (N.eqb_spec a 1); [contradiction|].
  cbn. rewrite !app_nil_r. reflexivity.
Qed.

Lemma ethiopic_digits_0 : ethiopic_digits 0 = [].
Proof. reflexivity. Qed.

Lemma ethiopic_pair a b : 1 <= a -> a < 100 -> b < 100 ->
  ethiopic_numeral (a * 100 + b)
    ((if a =? 1 then [] else ethiopic_digits a) ++ [0x137B] ++ ethiopic_digits b).
Proof.
  intros Ha Ha' Hb. unfold ethiopic_numeral. destruct (N.eqb_spec (a * 100 + b) 1); [lia|].
  exists [a; b]. split; [repeat constructor; lia|]. split; [cbn; lia|]. split; [cbn; lia|].
  cbn [ethiopic_groups length]. unfold ethiopic_group.
  destruct (N.eqb_spec a 0); [lia|]. destruct (N.eqb_spec a 1); cbn [orb andb negb Nat.odd Nat.even Nat.eqb];
    rewrite ?app_nil_r, <- ?app_assoc; cbn [app]; destruct (N.eqb_spec b 0) as [->|]; cbn [orb]; reflexivity.
Qed.

Lemma ethiopic_low l : 1 <= l -> l < 10000 ->
  ethiopic_numeral l (ethiopic_groups false [l / 100; l mod 100]).
Proof.
  intros H1 H2. pose proof (N.div_mod' l 100) as E. pose proof (N.mod_lt l 100 ltac:(lia)) as Hm.
  assert (l / 100 < 100) as Hd by (apply N.div_lt_upper_bound; lia).
  set (a := l / 100) in *. set (b := l mod 100) in *.
  destruct (N.eqb_spec a 0) as [Ha|Ha].
  - rewrite Ha in *. replace l with b by lia.
    replace (ethiopic_groups false [0; b]) with (ethiopic_digits b); [apply ethiopic_small; lia|].
    cbn [ethiopic_groups length]. unfold ethiopic_group. destruct (N.eqb_spec b 0); [lia|].
    cbn. rewrite !app_nil_r. reflexivity.
  - replace l with (a * 100 + b) by lia.
    replace (ethiopic_groups false [a; b])
      with ((if a =? 1 then [] else ethiopic_digits a) ++ [0x137B] ++ ethiopic_digits b);
      [apply ethiopic_pair; lia|].
    cbn [ethiopic_groups length]. unfold ethiopic_group.
    destruct (N.eqb_spec a 0); [lia|]. destruct (N.eqb_spec a 1); cbn [orb andb negb Nat.odd Nat.even Nat.eqb];
      rewrite ?app_nil_r, <- ?app_assoc; cbn [app]; destruct (N.eqb_spec b 0) as [->|]; cbn [orb]; reflexivity.
Qed.

Lemma positional_value_app2 gs a b :
  positional_value 100 (gs ++ [a; b]) = positional_value 100 gs * 10000 + (a * 100 + b).
Proof. unfold positional_value. rewrite fold_left_app. cbn [fold_left]. lia. Qed.

Lemma ethiopic_compose h l ch cl : 1 <= h -> l < 10000 ->
  ethiopic_numeral h ch -> (1 <= l -> ethiopic_numeral l cl) ->
  ethiopic_numeral (h * 10000 + l) ((if h =? 1 then [] else ch) ++ [0x137C] ++ (if l =? 0 then [] else cl)).
Proof.
  intros Hh Hl Hch Hcl. pose proof (N.div_mod' l 100) as E. pose proof (N.mod_lt l 100 ltac:(lia)) as Hm.
  assert (l / 100 < 100) as Hd by (apply N.div_lt_upper_bound; lia).
  assert (exists gs, below 100 gs /\ canonical gs /\ positional_value 100 gs = h /\ gs <> [] /\
            (if h =? 1 then [] else ch) = ethiopic_groups true gs) as (gs & Hb & Hcan & Hv & Hne & ->).
  { unfold ethiopic_numeral in Hch. destruct (N.eqb_spec h 1) as [->|Hn1].
    - exists [1]. split; [repeat constructor; lia|]. split; [cbn; lia|]. repeat split; discriminate.
    - destruct Hch as (gs & H1 & H2 & H3 & H4). exists gs. repeat split; try assumption.
      intros ->. cbn in H3. lia. }
  replace (if l =? 0 then [] else cl) with (ethiopic_groups false [l / 100; l mod 100]).
  2:{ destruct (N.eqb_spec l 0) as [->|Hl0]; [reflexivity|].
      eapply ethiopic_numeral_fun; [apply ethiopic_low; lia|apply Hcl; lia]. }
  unfold ethiopic_numeral. destruct (N.eqb_spec (h * 10000 + l) 1); [lia|].
  exists (gs ++ [l / 100; l mod 100]). split.
  { apply Forall_app. split; [exact Hb|]. repeat constructor; assumption. }
  split.
  { destruct gs as [|g gs]; [contradiction|]. destruct gs as [|g' gs]; cbn in Hcan |- *.
    - cbn in Hv. lia.
    - exact Hcan. }
  split; [rewrite positional_value_app2, Hv; lia|].
  symmetry. apply ethiopic_groups_up, Hne.
Qed.

(** A numeral of ten thousand or more: the number of ten thousands, unless it
    is one, the sign U+137C, and the rest, unless it is zero. *)
Theorem C75_ethiopic_ten_thousands : forall c T h l,
  valid_config c -> fits c T (h * 10000 + l) -> 1 <= h -> l < 10000 ->
  exists high low, prints c (Ethiopic c T h) h high /\ (1 <= l -> prints c (Ethiopic c T l) l low) /\
    prints c (Ethiopic c T (h * 10000 + l)) (h * 10000 + l)
      ((if h =? 1 then [] else high) ++ [0x137C] ++ (if l =? 0 then [] else low)).
Proof.
  intros c T h l Hc Hn Hh Hl.
  destruct (ethiopic_numeral_exists h) as (high & Hhigh). destruct (ethiopic_numeral_exists l) as (low & Hlow).
  exists high, low. split; [|split].
  - apply yields_prints, ethiopic_yields; try assumption; [unfold fits in *; lia|lia].
  - intros Hl1. apply yields_prints, ethiopic_yields; try assumption; [unfold fits in *; lia|lia].
  - apply yields_prints, ethiopic_yields; try assumption; [lia|]. apply ethiopic_compose; auto.
Qed.
Print Assumptions C75_ethiopic_ten_thousands.

(** The same below ten thousand with hundreds and the sign U+137B. *)
Theorem C75_ethiopic_hundreds : forall c T a b,
  valid_config c -> fits c T (a * 100 + b) -> 1 <= a -> a < 100 -> b < 100 ->
  exists high low, prints c (Ethiopic c T a) a high /\ (1 <= b -> prints c (Ethiopic c T b) b low) /\
    prints c (Ethiopic c T (a * 100 + b)) (a * 100 + b)
      ((if a =? 1 then [] else high) ++ [0x137B] ++ (if b =? 0 then [] else low)).
Proof.
  intros c T a b Hc Hn Ha Ha' Hb. exists (ethiopic_digits a), (ethiopic_digits b). split; [|split].
  - apply yields_prints, ethiopic_yields; try assumption; [unfold fits in *; lia|lia|apply ethiopic_small; lia].
  - intros Hb1. apply yields_prints, ethiopic_yields; try assumption;
      [unfold fits in *; lia|lia|apply ethiopic_small; lia].
  - apply yields_prints, ethiopic_yields; try assumption; [lia|].
    replace (if b =? 0 then [] else ethiopic_digits b) with (ethiopic_digits b);
      [apply ethiopic_pair; lia|]. destruct (N.eqb_spec b 0) as [->|]; reflexivity.
Qed.
Print Assumptions C75_ethiopic_hundreds.

(** Below a hundred: a sign for the tens, a sign for the ones. *)
Theorem C75_ethiopic_small : forall c T t o,
  valid_config c -> fits c T (t * 10 + o) -> t < 10 -> o < 10 -> 1 <= t * 10 + o ->
  prints c (Ethiopic c T (t * 10 + o)) (t * 10 + o)
    ((if t =? 0 then [] else [0x1371 + t]) ++ (if o =? 0 then [] else [0x1368 + o])).
Proof.
  intros c T t o Hc Hn Ht Ho H1. apply yields_prints, ethiopic_yields; try assumption; [lia|].
  replace ((if t =? 0 then [] else [0x1371 + t]) ++ (if o =? 0 then [] else [0x1368 + o]))
    with (ethiopic_digits (t * 10 + o)); [apply ethiopic_small; lia|].
  unfold ethiopic_digits. rewrite N.div_add_l by lia. rewrite (N.div_small o 10) by lia.
  rewrite N.add_0_r. replace ((t * 10 + o) mod 10) with o.
  2:{ rewrite N.add_comm, N.mod_add by lia. rewrite N.mod_small by lia. reflexivity. }
  destruct (N.eqb_spec t 0); destruct (N.eqb_spec o 0); cbn [app]; f_equal; try lia; f_equal; lia.
Qed.
Print Assumptions C75_ethiopic_small.

(** Twenty times ten thousand and twelve hundred and three; a hundred million. *)
Example C75_ethiopic_case :
  seen (Ethiopic no_heap U32 201203) = Ret (Ok (utf8 [0x1373; 0x137C; 0x1372; 0x136A; 0x137B; 0x136B])) /\
  seen (Ethiopic no_heap U32 20) = Ret (Ok (utf8 [0x1373])) /\
  seen (Ethiopic no_heap U32 1203) = Ret (Ok (utf8 [0x1372; 0x136A; 0x137B; 0x136B])) /\
  seen (Ethiopic no_heap U32 10000) = Ret (Ok (utf8 [0x137C])) /\
  seen (Ethiopic no_heap U32 100000000) = Ret (Ok (utf8 [0x137C; 0x137C])) /\
  seen (Ethiopic no_heap U32 100010001) = Ret (Ok (utf8 [0x137C; 0x1369; 0x137C; 0x1369])).
Proof. vm_compute. repeat split. Qed.

(** ** Hebrew *)

(** A letter standing alone is put between a geresh and a gershayim; without
    them. *)
Definition bare (cs : list N) : list N :=
  match cs with
  | [g; x; g'] => if (g =? geresh) && (g' =? gershayim) then [x] else cs
  | _ => cs
  end.

Lemma hebrew_letters_400 n : hebrew_letters (400 + n) = tav :: hebrew_letters n.
Proof.
  unfold hebrew_letters.
  replace ((400 + n) / 400) with (N.succ (n / 400)).
  2:{ replace (400 + n) with (1 * 400 + n) by lia. rewrite N.div_add_l by lia. lia. }
  replace ((400 + n) mod 400) with (n mod 400).
  2:{ replace (400 + n) with (n + 1 * 400) by lia. rewrite N.mod_add by lia. reflexivity. }
  unfold copies. rewrite N.iter_succ. reflexivity.
Qed.

Lemma letter_not (letters : list N) d x : ~ In x letters -> x <> 0 -> ~ In x (letter letters d).
Proof.
  intros H H0. unfold letter. destruct (d =? 0); [tauto|]. intros [E|[]].
  destruct (Nat.lt_ge_cases (N.to_nat d) (length letters)) as [Hlt|Hge].
  - apply H. rewrite <- E. apply nth_In, Hlt.
  - rewrite nth_overflow in E by exact Hge. congruence.
Qed.

Lemma hebrew_no_geresh n : ~ In geresh (hebrew_letters n).
Proof.
  unfold hebrew_letters. rewrite !in_app_iff. intros [H|[H|H]].
  - unfold copies in H. induction (n / 400) as [|k IH] using N.peano_ind; [exact H|].
    rewrite N.iter_succ in H. destruct H as [H|H]; [discriminate H|exact (IH H)].
  - revert H. apply letter_not; [|discriminate]. vm_compute. intuition discriminate.
  - cbv zeta in H. destruct (_ =? 15); [vm_compute in H; intuition discriminate|].
    destruct (_ =? 16); [vm_compute in H; intuition discriminate|].
    apply in_app_iff in H. destruct H as [H|H]; revert H; apply letter_not; try discriminate;
      vm_compute; intuition discriminate.
Qed.

Lemma bare_numeral n : bare (hebrew_numeral n) = hebrew_letters n.
Proof.
  pose proof (hebrew_no_geresh n) as Hg. unfold hebrew_numeral.
  destruct (hebrew_letters n) as [|x [|y [|z [|w r]]]]; try reflexivity.
  cbn [bare]. destruct (N.eqb_spec x geresh) as [->|]; [exfalso; apply Hg; left; reflexivity|reflexivity].
Qed.

(** Four hundred more is one more tav in front. *)
Theorem C75_hebrew_four_hundreds : forall c T n,
  valid_config c -> fits c T (400 + n) -> 1 <= n ->
  exists cs, prints c (Hebrew c T n) n cs /\
    prints c (Hebrew c T (400 + n)) (400 + n) (tav :: bare cs).
Proof.
  intros c T n Hc Hn Hn1. exists (hebrew_numeral n).
  split; [apply yields_prints, hebrew_yields; try assumption; [unfold fits in *; lia|lia]|].
  rewrite bare_numeral.
  assert (hebrew_letters n <> []) as Hne.
  { intros E. pose proof (hebrew_sum_numeral n) as Hs. unfold hebrew_numeral in Hs.
    rewrite E in Hs. cbn in Hs. lia. }
  replace (tav :: hebrew_letters n) with (hebrew_numeral (400 + n)).
  2:{ unfold hebrew_numeral. rewrite hebrew_letters_400. destruct (hebrew_letters n); [contradiction|reflexivity]. }
  apply yields_prints, hebrew_yields; try assumption. lia.
Qed.
Print Assumptions C75_hebrew_four_hundreds.

(** Below four hundred: the hundreds, then the rest; fifteen and sixteen are
    written nine and six, nine and seven. *)
Theorem C75_hebrew_hundreds : forall c T h r,
  valid_config c -> fits c T (h * 100 + r) -> 1 <= h -> h < 4 -> 1 <= r -> r < 100 ->
  exists hundreds rest, prints c (Hebrew c T (h * 100)) (h * 100) hundreds /\ prints c (Hebrew c T r) r rest /\
    prints c (Hebrew c T (h * 100 + r)) (h * 100 + r) (bare hundreds ++ bare rest).
Proof.
  intros c T h r Hc Hn Hh Hh4 Hr Hr1. exists (hebrew_numeral (h * 100)), (hebrew_numeral r).
  split; [apply yields_prints, hebrew_yields; try assumption; [unfold fits in *; lia|lia]|].
  split; [apply yields_prints, hebrew_yields; try assumption; [unfold fits in *; lia|lia]|].
  rewrite !bare_numeral.
  assert (hebrew_letters (h * 100 + r) = hebrew_letters (h * 100) ++ hebrew_letters r) as E.
  { unfold hebrew_letters. rewrite (N.div_small (h * 100 + r) 400), (N.div_small (h * 100) 400), (N.div_small r 400) by lia.
    change (copies 0 [tav]) with (@nil N). cbn [app].
    rewrite (N.mod_small (h * 100 + r)), (N.mod_small (h * 100)), (N.mod_small r 400) by lia.
    rewrite N.div_add_l, N.div_mul, (N.div_small r 100), N.add_0_r by lia.
    rewrite N.mod_mul, (N.add_comm (h * 100) r), N.mod_add, (N.mod_small r 100) by lia.
    cbn [N.eqb]. cbv zeta. change (0 / 10) with 0. change (0 mod 10) with 0. change (letter hebrew_tens 0) with (@nil N).
    change (letter hebrew_ones 0) with (@nil N). change (letter hebrew_hundreds 0) with (@nil N).
    cbn [app]. rewrite app_nil_r. reflexivity. }
  assert (forall m, 1 <= m -> hebrew_letters m <> []) as Hne.
  { intros m Hm Em. pose proof (hebrew_sum_numeral m) as Hs. unfold hebrew_numeral in Hs.
    rewrite Em in Hs. cbn in Hs. lia. }
  rewrite <- E. replace (hebrew_letters (h * 100 + r)) with (hebrew_numeral (h * 100 + r)).
  - apply yields_prints, hebrew_yields; try assumption. lia.
  - unfold hebrew_numeral. rewrite E. pose proof (Hne (h * 100) ltac:(lia)). pose proof (Hne r Hr).
    destruct (hebrew_letters (h * 100)) as [|x [|y l]]; [contradiction| |reflexivity].
    destruct (hebrew_letters r); [contradiction|reflexivity].
Qed.
Print Assumptions C75_hebrew_hundreds.

Example C75_hebrew_case :
  seen (Hebrew no_heap U16 5) = Ret (Ok (utf8 [geresh; 0x5D4; gershayim])) /\
  seen (Hebrew no_heap U16 405) = Ret (Ok (utf8 [tav; 0x5D4])) /\
  seen (Hebrew no_heap U16 300) = Ret (Ok (utf8 [geresh; 0x5E9; gershayim])) /\
  seen (Hebrew no_heap U16 15) = Ret (Ok (utf8 [0x5D8; gershayim; 0x5D5])) /\
  seen (Hebrew no_heap U16 315) = Ret (Ok (utf8 [0x5E9; 0x5D8; gershayim; 0x5D5])) /\
  seen (Hebrew no_heap U16 1115) = Ret (Ok (utf8 [tav; tav; 0x5E9; 0x5D8; gershayim; 0x5D5])).
Proof. vm_compute. repeat split. Qed.
