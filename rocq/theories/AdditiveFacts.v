(** * AdditiveFacts: the additive formatter is the greedy algorithm *)

From Coq Require Import String Sorted.
From Verif Require Import Prelude Utf8Facts StringFacts History Outcome Additive.
From Verif Require Export SpecAdditive.

(** ** Greedy counts, text and remainder *)

Fixpoint greedy (tbl : table) (n : N) : list N :=
  match tbl with
  | [] => []
  | (_, v) :: rest => if v =? 0 then map (fun _ => 0) tbl else n / v :: greedy rest (n mod v)
  end.

Fixpoint gtext (tbl : table) (n : N) : list N :=
  match tbl with
  | [] => []
  | (s, v) :: rest => if v =? 0 then [] else copies (n / v) s ++ gtext rest (n mod v)
  end.

Fixpoint grem (tbl : table) (n : N) : N :=
  match tbl with
  | [] => n
  | (_, v) :: rest => if v =? 0 then n else grem rest (n mod v)
  end.

Lemma copies_0 s : copies 0 s = [].
Proof. reflexivity. Qed.

Lemma copies_succ k s : copies (k + 1) s = s ++ copies k s.
Proof. unfold copies. rewrite N.add_1_r, N.iter_succ. reflexivity. Qed.

Lemma copies_1 s : copies 1 s = s.
Proof. change 1 with (0 + 1). rewrite copies_succ, copies_0. apply app_nil_r. Qed.

Lemma copies_scalars k s : scalars s -> scalars (copies k s).
Proof.
  intros H. induction k as [|k IH] using N.peano_ind; [constructor|].
  rewrite <- N.add_1_r, copies_succ. apply scalars_app; auto.
Qed.

Lemma spell_zeros tbl tbl' : spell tbl (map (fun _ : list N * N => 0) tbl') = [].
Proof. revert tbl'; induction tbl as [|[s v] tbl IH]; intros [|y tbl']; cbn; auto. Qed.

Lemma worth_zeros tbl tbl' : worth tbl (map (fun _ : list N * N => 0) tbl') = 0.
Proof. revert tbl'; induction tbl as [|[s v] tbl IH]; intros [|y tbl']; cbn; auto. Qed.

Lemma spell_greedy tbl n : spell tbl (greedy tbl n) = gtext tbl n.
Proof.
  revert n; induction tbl as [|[s v] tbl IH]; intros n; cbn [greedy gtext]; [reflexivity|].
  destruct (v =? 0); [apply spell_zeros|]. cbn [spell]. rewrite IH. reflexivity.
Qed.

Lemma worth_greedy tbl n : worth tbl (greedy tbl n) + grem tbl n = n.
Proof.
  revert n; induction tbl as [|[s v] tbl IH]; intros n; cbn [greedy grem]; [cbn; lia|].
  destruct (N.eqb_spec v 0); [rewrite worth_zeros; lia|]. cbn [worth].
  pose proof (IH (n mod v)). pose proof (N.div_mod' n v). nia.
Qed.

Lemma strictly_descending_inv {A} (a : A * N) tbl : strictly_descending (a :: tbl) ->
  strictly_descending tbl /\ Forall (fun b => snd b < snd a) tbl.
Proof. intros H. inversion H; subst. auto. Qed.

Lemma largest_first_greedy tbl n : strictly_descending tbl -> largest_first tbl (greedy tbl n).
Proof.
  revert n; induction tbl as [|[s v] tbl IH]; intros n Hd; cbn [greedy]; [exact I|].
  apply strictly_descending_inv in Hd as [Hd Hall]. destruct (N.eqb_spec v 0) as [->|Hv].
  - cbn [map largest_first]. cbn [N.eqb]. split; [reflexivity|].
    destruct tbl as [|[s' v'] tbl]; [exact I|]. inversion Hall; subst. cbn in *. lia.
  - cbn [largest_first]. destruct (N.eqb_spec v 0); [contradiction|]. split; [|auto].
    pose proof (worth_greedy tbl (n mod v)). pose proof (N.mod_lt n v ltac:(assumption)). lia.
Qed.

Lemma grem_le tbl n : grem tbl n <= n.
Proof. pose proof (worth_greedy tbl n). lia. Qed.

Lemma grem_lt tbl n s v : strictly_descending tbl -> In (s, v) tbl -> v <> 0 -> grem tbl n < v.
Proof.
  revert n; induction tbl as [|[s' v'] tbl IH]; intros n Hd Hin Hv; [destruct Hin|].
  apply strictly_descending_inv in Hd as [Hd Hall]. cbn [grem]. destruct Hin as [E|Hin].
  - injection E as -> ->. destruct (N.eqb_spec v 0); [contradiction|].
    pose proof (grem_le tbl (n mod v)). pose proof (N.mod_lt n v ltac:(assumption)). lia.
  - destruct (N.eqb_spec v' 0) as [->|Hv']; [|auto].
    rewrite Forall_forall in Hall. apply Hall in Hin. cbn in Hin. lia.
Qed.

Lemma grem_one tbl n : strictly_descending tbl -> In 1 (map snd tbl) -> grem tbl n = 0.
Proof.
  intros Hd Hin. apply in_map_iff in Hin as ([s v] & E & Hin). cbn in E. subst v.
  pose proof (grem_lt tbl n s 1 Hd Hin ltac:(lia)). lia.
Qed.

(** The counts are determined by the rule. *)
Lemma largest_first_unique tbl : forall ks ks', largest_first tbl ks -> largest_first tbl ks' ->
  worth tbl ks = worth tbl ks' -> ks = ks'.
Proof.
  induction tbl as [|[s v] tbl IH]; intros [|k ks] [|k' ks'] H H' E; try contradiction; [reflexivity|].
  cbn [largest_first worth] in *. destruct H as [H1 H2], H' as [H1' H2'].
  destruct (N.eqb_spec v 0) as [->|Hv].
  - subst. f_equal. apply IH; auto; lia.
  - assert (k = k') as -> by nia. f_equal. apply IH; auto; lia.
Qed.

(** ** The formatter *)

Lemma while_loop c T n sym v : valid_config c -> scalars sym -> v <> 0 -> forall k r s cs, r < v -> text c s cs ->
  loops (additive_while_body c T n (utf8 sym) v) (k + 1) (k * v + r, s)
    (fun res => (exists s', res = Ok (r, s') /\ text c s' (cs ++ copies k sym)) \/
                (res = Err (OutOfMemory n) /\ room c (cs ++ copies k sym) = false)).
Proof.
  intros Hc Hsym Hv. induction k as [|k IH] using N.peano_ind; intros r s cs Hr Ht.
  - eapply loops_break; [|lia|].
    + unfold additive_while_body. replace (0 * v + r) with r by lia.
      destruct (N.leb_spec v r); [lia|]. reflexivity.
    + left. exists s. rewrite copies_0, app_nil_r. auto.
  - rewrite <- N.add_1_r. pose proof (push_str_pushed c s cs sym Ht Hsym) as Hp.
    assert (usub c (bits c T) ((k + 1) * v + r) v = Ret (k * v + r)) as Hsub.
    { unfold usub. destruct (N.leb_spec v ((k + 1) * v + r)); [|nia]. f_equal. nia. }
    destruct Hp as [(s' & E & Ht')|[E Hroom]].
    + eapply loops_step; [|lia|].
      * unfold additive_while_body. destruct (N.leb_spec v ((k + 1) * v + r)); [|nia].
        rewrite Hsub. cbn [obind]. rewrite E. reflexivity.
      * replace (k + 1 + 1 - 1) with (k + 1) by lia. eapply loops_weaken; [reflexivity| |apply IH; eassumption].
        rewrite copies_succ, app_assoc. auto.
    + eapply loops_break; [|lia|].
      * unfold additive_while_body. destruct (N.leb_spec v ((k + 1) * v + r)); [|nia].
        rewrite Hsub. cbn [obind]. rewrite E. reflexivity.
      * right. split; [reflexivity|]. rewrite copies_succ, app_assoc. apply room_false_pre, Hroom.
Qed.

Lemma additive_for_text c T n : valid_config c -> forall tbl rem s cs,
  proper tbl -> fits c T rem -> text c s cs ->
  yields c (additive_for c T n (encode tbl) rem s) n (cs ++ gtext tbl rem).
Proof.
  intros Hc. induction tbl as [|[sym v] tbl IH]; intros rem s cs Hp Hfit Ht; cbn [encode map additive_for gtext].
  - eexists; split; [reflexivity|]. rewrite app_nil_r. apply stored_text, Ht.
  - inversion Hp as [|? ? Hsym Hp']; subst. destruct (N.eqb_spec v 0) as [->|Hv].
    + eexists; split; [reflexivity|]. rewrite app_nil_r. apply stored_text, Ht.
    + destruct (N.lt_ge_cases v (2 ^ bits c T)) as [Hfv|Hfv].
      * rewrite try_from_fits by exact Hfv.
        pose proof (while_loop c T n sym v Hc Hsym Hv (rem / v) (rem mod v) s cs (N.mod_lt _ _ Hv) Ht) as L.
        replace (rem / v * v + rem mod v) with rem in L by (pose proof (N.div_mod' rem v); lia).
        apply loops_run with (c := c) in L; [|assumption|].
        2:{ pose proof (fits_128 c T rem Hc Hfit). pose proof (N.div_le_upper_bound rem v rem Hv ltac:(nia)). lia. }
        destruct L as (x & -> & [(s' & -> & Ht')|[-> Hroom]]); cbn [obind].
        -- rewrite app_assoc. apply IH; [assumption| |assumption].
           eapply fits_le; [exact Hfit|]. apply N.mod_le, Hv.
        -- eexists; split; [reflexivity|]. rewrite app_assoc. apply stored_oom, room_false_pre, Hroom.
      * rewrite try_from_not by (unfold fits; lia).
        assert (rem < v) as Hlt by (unfold fits in Hfit; lia).
        rewrite N.div_small, N.mod_small, copies_0 by assumption. apply IH; assumption.
Qed.

Lemma additive_text c T tbl set n : valid_config c -> proper tbl -> fits c T n -> n <> 0 ->
  additive_set_new (encode tbl) = Ret set ->
  yields c (try_format_additive c T set n) n (gtext tbl n).
Proof.
  intros Hc Hp Hn Hn0 Hset. unfold additive_set_new in Hset.
  destruct (descending (encode tbl)); [|discriminate]. injection Hset as <-.
  unfold try_format_additive, is_zero. destruct (N.eqb_spec n 0); [contradiction|].
  apply (additive_for_text c T n Hc tbl n new []); try assumption. apply text_new.
Qed.

(** ** Construction *)

Lemma descending_sorted symbols : descending symbols = true <-> strictly_descending symbols.
Proof.
  induction symbols as [|[s v] [|[s' w] rest] IH]; [split; constructor|split; repeat constructor|].
  change (descending ((s, v) :: (s', w) :: rest)) with ((w <? v) && descending ((s', w) :: rest)).
  rewrite andb_true_iff, IH. split.
  - intros [Hlt Hs]. constructor; [assumption|]. constructor; [cbn; lia|].
    apply strictly_descending_inv in Hs as [_ Hall]. eapply Forall_impl; [|exact Hall]. cbn. lia.
  - intros H. apply strictly_descending_inv in H as [Hs Hall]. split; [|assumption].
    inversion Hall; subst. cbn in *. lia.
Qed.

Lemma encode_sorted tbl : strictly_descending (encode tbl) <-> strictly_descending tbl.
Proof.
  induction tbl as [|[s v] tbl IH]; [split; constructor|]. cbn [encode map].
  assert (Forall (fun b => snd b < v) (encode tbl) <-> Forall (fun b => snd b < v) tbl) as H.
  { clear IH. induction tbl as [|[s' v'] tbl IH]; [split; constructor|]. cbn [encode map]. rewrite !Forall_cons_iff, IH. cbn. tauto. }
  split; intros Hd; apply strictly_descending_inv in Hd as [Hd Hall]; constructor.
  - apply IH, Hd.
  - apply H, Hall.
  - apply IH, Hd.
  - apply H, Hall.
Qed.

Lemma zero_symbol_app l s v : zero_symbol (l ++ [(s, v)]) = if v =? 0 then Some s else None.
Proof. unfold zero_symbol. rewrite rev_app_distr. cbn. destruct v; reflexivity. Qed.

(** ** Reading back *)

(** A text made of symbols of [later] might begin with [rest]. *)
Fixpoint can_match (fuel : nat) (rest : list N) (later : table) : bool :=
  match rest, fuel with
  | [], _ => true
  | _, O => true
  | _, S fuel =>
      existsb (fun '(s, _) => begins rest s || (begins s rest && can_match fuel (skipn (length s) rest) later)) later
  end.

(** An earlier symbol [s'] might match where [s] and then symbols of [later]
    are written. *)
Definition clashes (s s' : list N) (later : table) : bool :=
  begins s' s || (begins s s' && can_match (length s') (skipn (length s) s') later).

Fixpoint unclashing_from (before : table) (tbl : table) : bool :=
  match tbl with
  | [] => true
  | (s, v) :: rest =>
      negb (existsb (fun '(s', _) => clashes s s' tbl) before) &&
      (match s with [] => false | _ => true end) && unclashing_from (before ++ [(s, v)]) rest
  end.

Definition unclashing (tbl : table) : bool := unclashing_from [] tbl.

Lemma begins_app s t : begins s (s ++ t) = true.
Proof. induction s; cbn; [reflexivity|]. rewrite N.eqb_refl. auto. Qed.

Lemma begins_split s s' t : begins s' (s ++ t) = true ->
  begins s' s = true \/ (begins s s' = true /\ begins (skipn (length s) s') t = true).
Proof.
  revert s'; induction s as [|a s IH]; intros s' H.
  - right. split; [reflexivity|exact H].
  - destruct s' as [|x s']; [left; reflexivity|]. cbn in H. apply andb_true_iff in H as [H1 H2].
    apply N.eqb_eq in H1. subst x. destruct (IH s' H2) as [H|[H H']].
    + left. cbn. rewrite N.eqb_refl. exact H.
    + right. split; [cbn; rewrite N.eqb_refl; exact H|exact H'].
Qed.

Definition nonempty_symbols (tbl : table) : bool :=
  forallb (fun '(s, _) => match s with [] => false | _ => true end) tbl.

(** A text made of symbols of the table. *)
Definition made_of (tbl : table) (t : list N) : Prop :=
  exists l, Forall (fun sv => In sv tbl) l /\ t = flat_map fst l.

Lemma can_match_complete later : nonempty_symbols later = true -> forall fuel rest l,
  (length rest <= fuel)%nat -> Forall (fun sv => In sv later) l -> begins rest (flat_map fst l) = true ->
  can_match fuel rest later = true.
Proof.
  intros Hne. induction fuel as [|fuel IH]; intros rest l Hf Hl H.
  - destruct rest; reflexivity.
  - destruct rest as [|x rest]; [reflexivity|]. destruct l as [|[s v] l]; [discriminate|].
    inversion Hl as [|? ? Hin Hl']; subst. cbn [can_match]. apply existsb_exists. exists (s, v). split; [assumption|].
    cbn [flat_map fst] in H. destruct (begins_split _ _ _ H) as [H1|[H1 H2]]; [rewrite H1; reflexivity|].
    rewrite H1. cbn [andb]. rewrite IH with (l := l); [apply orb_true_r| |assumption|assumption].
    unfold nonempty_symbols in Hne. rewrite forallb_forall in Hne. specialize (Hne _ Hin). cbn in Hne.
    destruct s as [|y s]; [discriminate|]. rewrite skipn_length. cbn [length] in *. lia.
Qed.

Lemma find_app {A} (f : A -> bool) l l' : existsb f l = false -> find f (l ++ l') = find f l'.
Proof.
  induction l as [|a l IH]; cbn; [reflexivity|]. intros H. apply orb_false_iff in H as [-> H]. auto.
Qed.

Lemma find_symbol before s v rest t : nonempty_symbols ((s, v) :: rest) = true ->
  existsb (fun '(s', _) => clashes s s' ((s, v) :: rest)) before = false -> made_of ((s, v) :: rest) t ->
  find (fun '(s', _) => begins s' (s ++ t)) (before ++ (s, v) :: rest) = Some (s, v).
Proof.
  intros Hne Hcl (l & Hl & ->). rewrite find_app.
  - cbn [find]. rewrite begins_app. reflexivity.
  - induction before as [|[s' v'] before IH]; [reflexivity|]. cbn [existsb] in *.
    apply orb_false_iff in Hcl as [Hcl Hcl']. rewrite (IH Hcl'), orb_false_r.
    destruct (begins s' (s ++ flat_map fst l)) eqn:E; [|reflexivity]. exfalso.
    unfold clashes in Hcl. apply orb_false_iff in Hcl as [H1 H2].
    destruct (begins_split _ _ _ E) as [H|[H H']]; [congruence|].
    rewrite H in H2. cbn [andb] in H2. rewrite can_match_complete with (l := l) in H2; try assumption; [discriminate|].
    rewrite skipn_length. lia.
Qed.

Lemma made_of_mono a tbl t : made_of tbl t -> made_of (a :: tbl) t.
Proof. intros (l & Hl & E). exists l. split; [|assumption]. eapply Forall_impl; [|exact Hl]. intros sv H. right. exact H. Qed.

Lemma made_of_spell tbl counts : made_of tbl (spell tbl counts).
Proof.
  revert counts; induction tbl as [|[s v] tbl IH]; intros counts; [exists []; split; [constructor|reflexivity]|].
  destruct counts as [|k counts]; [exists []; split; [constructor|reflexivity]|]. cbn [spell].
  induction k as [|k IHk] using N.peano_ind.
  - rewrite copies_0. apply made_of_mono, IH.
  - rewrite <- N.add_1_r, copies_succ, <- app_assoc. destruct IHk as (l & Hl & E). rewrite E.
    exists ((s, v) :: l). split; [constructor; [left; reflexivity|assumption]|reflexivity].
Qed.

Lemma unclashing_nonempty before tbl : unclashing_from before tbl = true ->
  nonempty_symbols tbl = true.
Proof.
  unfold nonempty_symbols. revert before; induction tbl as [|[s v] tbl IH]; intros before H; [reflexivity|].
  cbn [unclashing_from forallb] in *.
  apply andb_true_iff in H as [H H2]. apply andb_true_iff in H as [_ H1]. rewrite H1. cbn [andb]. eapply IH, H2.
Qed.

Lemma read_copies before s v rest counts : unclashing_from before ((s, v) :: rest) = true -> forall k fuel m,
  (length (copies k s ++ spell rest counts) <= fuel)%nat ->
  (forall fuel, (length (spell rest counts) <= fuel)%nat ->
     read_in fuel (before ++ (s, v) :: rest) (spell rest counts) = Some m) ->
  read_in fuel (before ++ (s, v) :: rest) (copies k s ++ spell rest counts) = Some (k * v + m).
Proof.
  intros Hu. pose proof (unclashing_nonempty _ _ Hu) as Hne.
  cbn [unclashing_from] in Hu. apply andb_true_iff in Hu as [Hu _]. apply andb_true_iff in Hu as [Hcl Hs].
  apply negb_true_iff in Hcl.
  induction k as [|k IH] using N.peano_ind; intros fuel m Hf Hm.
  - rewrite copies_0. cbn [app]. rewrite Hm; [f_equal; lia|]. rewrite copies_0 in Hf. exact Hf.
  - rewrite <- N.add_1_r, copies_succ, <- app_assoc in *.
    pose proof (made_of_spell ((s, v) :: rest) (k :: counts)) as Hst. cbn [spell] in Hst.
    destruct s as [|x s]; [discriminate|]. destruct fuel as [|fuel]; [cbn in Hf; lia|].
    assert (read_in (S fuel) (before ++ (x :: s, v) :: rest) ((x :: s) ++ copies k (x :: s) ++ spell rest counts) =
      match find (fun '(s', _) => begins s' ((x :: s) ++ copies k (x :: s) ++ spell rest counts)) (before ++ (x :: s, v) :: rest) with
      | Some (s', v') => option_map (N.add v') (read_in fuel (before ++ (x :: s, v) :: rest)
            (skipn (length s') ((x :: s) ++ copies k (x :: s) ++ spell rest counts)))
      | None => None
      end) as -> by reflexivity.
    rewrite find_symbol by assumption.
    rewrite skipn_app, skipn_all, Nat.sub_diag. cbn [app skipn].
    rewrite (IH fuel m); [cbn [option_map]; f_equal; lia| |assumption].
    rewrite app_length in Hf. cbn [length] in Hf. lia.
Qed.

Lemma read_spell tbl : forall before counts fuel, unclashing_from before tbl = true ->
  (length (spell tbl counts) <= fuel)%nat ->
  read_in fuel (before ++ tbl) (spell tbl counts) = Some (worth tbl counts).
Proof.
  induction tbl as [|[s v] tbl IH]; intros before counts fuel Hu Hf; [cbn; destruct fuel; reflexivity|].
  destruct counts as [|k counts]; [cbn; destruct fuel; reflexivity|]. cbn [spell worth] in *.
  apply read_copies; [assumption|assumption|]. intros fuel' Hf'.
  change (before ++ (s, v) :: tbl) with (before ++ [(s, v)] ++ tbl). rewrite app_assoc. apply IH; [|assumption].
  cbn [unclashing_from] in Hu. apply andb_true_iff in Hu as [_ Hu]. exact Hu.
Qed.

Lemma read_gtext tbl n : unclashing tbl = true -> strictly_descending tbl -> In 1 (map snd tbl) ->
  read tbl (gtext tbl n) = Some n.
Proof.
  intros Hu Hd Hin. rewrite <- spell_greedy. unfold read.
  rewrite (read_spell tbl [] (greedy tbl n)); [|assumption|lia].
  pose proof (worth_greedy tbl n). rewrite (grem_one tbl n Hd Hin) in *. f_equal. lia.
Qed.

(** ** Texts of decimal tables *)

Lemma gtext_app t1 t2 n : forallb (fun '(_, v) => negb (v =? 0)) t1 = true ->
  gtext (t1 ++ t2) n = gtext t1 n ++ gtext t2 (grem t1 n).
Proof.
  revert n; induction t1 as [|[s v] t1 IH]; intros n H; [reflexivity|]. cbn [forallb app gtext grem] in *.
  apply andb_true_iff in H as [Hv H]. destruct (v =? 0); [discriminate|]. rewrite IH, app_assoc by assumption. reflexivity.
Qed.

Lemma gtext_small tbl n : Forall (fun '(_, v) => n < v) tbl -> gtext tbl n = [] /\ grem tbl n = n.
Proof.
  induction tbl as [|[s v] tbl IH]; intros H; [split; reflexivity|]. inversion H as [|? ? Hv H']; subst.
  destruct (IH H') as [E1 E2]. cbn [gtext grem]. destruct (N.eqb_spec v 0); [lia|].
  rewrite N.div_small, N.mod_small, copies_0 by assumption. auto.
Qed.

Lemma scale_div d k p r : r < p -> k <> 0 -> (d * p + r) / (k * p) = d / k.
Proof.
  intros Hr Hk. symmetry. apply N.div_unique with (r := (d mod k) * p + r).
  - pose proof (N.mod_lt d k Hk). nia.
  - pose proof (N.div_mod' d k). nia.
Qed.

Lemma scale_mod d k p r : r < p -> k <> 0 -> (d * p + r) mod (k * p) = (d mod k) * p + r.
Proof.
  intros Hr Hk. symmetry. apply N.mod_unique with (q := d / k).
  - pose proof (N.mod_lt d k Hk). nia.
  - pose proof (N.div_mod' d k). nia.
Qed.

Lemma block_small sym p k n : n < p -> gtext (block sym p k) n = [] /\ grem (block sym p k) n = n.
Proof.
  intros H. apply gtext_small. induction k as [|k IH]; [constructor|]. cbn [block]. constructor; [nia|exact IH].
Qed.

Lemma block_text sym p k n : p <> 0 -> n < N.of_nat (S k) * p ->
  gtext (block sym p k) n = (if n / p =? 0 then [] else sym (n / p)) /\ grem (block sym p k) n = n mod p.
Proof.
  intros Hp. revert n; induction k as [|k IH]; intros n Hn.
  - assert (n < p) by lia. cbn [block gtext grem]. rewrite N.div_small, N.mod_small by assumption. auto.
  - cbn [block gtext grem]. set (v := N.of_nat (S k) * p).
    assert (v <> 0) as Hv by (unfold v; nia). destruct (N.eqb_spec v 0); [contradiction|].
    destruct (N.lt_ge_cases n v) as [Hlt|Hge].
    + rewrite N.div_small, N.mod_small, copies_0 by assumption. cbn [app]. apply IH. exact Hlt.
    + assert (n / v = 1) as E1 by (symmetry; apply N.div_unique with (r := n - v); unfold v in *; nia).
      assert (n mod v = n - v) as E2 by (symmetry; apply N.mod_unique with (q := 1); unfold v in *; nia).
      assert (n - v < p) as Hs by (unfold v in *; nia).
      assert (n / p = N.of_nat (S k)) as E3 by (symmetry; apply N.div_unique with (r := n - v); unfold v in *; nia).
      assert (n mod p = n - v) as E4 by (symmetry; apply N.mod_unique with (q := N.of_nat (S k)); unfold v in *; nia).
      rewrite E1, E2, E3, E4, copies_1. destruct (block_small sym p k (n - v) Hs) as [-> ->].
      destruct (N.eqb_spec (N.of_nat (S k)) 0); [lia|]. rewrite app_nil_r. auto.
Qed.

Lemma block_nonzero sym p k : p <> 0 -> forallb (fun '(_, v) => negb (v =? 0)) (block sym p k) = true.
Proof.
  intros Hp. induction k as [|k IH]; [reflexivity|]. cbn [block forallb]. rewrite IH.
  destruct (N.eqb_spec (N.of_nat (S k) * p) 0); [lia|reflexivity].
Qed.

Lemma decimal_table_text sym tail n : n < 10000 -> (forall m, gtext tail m = []) ->
  gtext (decimal_table sym ++ tail) n = decimal_text sym n.
Proof.
  intros Hn Htail. unfold decimal_table. rewrite <- !app_assoc.
  destruct (block_text (sym 3) 1000 9 n) as [E3 R3]; [discriminate|cbn; lia|].
  destruct (block_text (sym 2) 100 9 (n mod 1000)) as [E2 R2]; [discriminate|cbn; lia|].
  destruct (block_text (sym 1) 10 9 (n mod 1000 mod 100)) as [E1 R1]; [discriminate|cbn; lia|].
  destruct (block_text (sym 0) 1 9 (n mod 1000 mod 100 mod 10)) as [E0 R0]; [discriminate|cbn; lia|].
  rewrite gtext_app, R3, E3 by (apply block_nonzero; discriminate).
  rewrite gtext_app, R2, E2 by (apply block_nonzero; discriminate).
  rewrite gtext_app, R1, E1 by (apply block_nonzero; discriminate).
  rewrite gtext_app, R0, E0, Htail by (apply block_nonzero; discriminate).
  unfold decimal_text. cbn [flat_map].
  change (10 ^ 3) with 1000. change (10 ^ 2) with 100. change (10 ^ 1) with 10. change (10 ^ 0) with 1.
  replace (n / 1000 mod 10) with (n / 1000) by lia.
  replace (n / 100 mod 10) with (n mod 1000 / 100) by lia.
  replace (n / 10 mod 10) with (n mod 1000 mod 100 / 10) by lia.
  replace (n / 1 mod 10) with (n mod 1000 mod 100 mod 10 / 1) by lia.
  reflexivity.
Qed.

(** Repeating the first symbol absorbs the rest. *)
Lemma first_symbol s v rest n : v <> 0 ->
  gtext ((s, v) :: rest) n = copies (n / v) s ++ gtext ((s, v) :: rest) (n mod v).
Proof.
  intros Hv. cbn [gtext]. destruct (N.eqb_spec v 0); [contradiction|].
  rewrite (N.div_small (n mod v)), (N.mod_small (n mod v)), copies_0 by (apply N.mod_lt, Hv). reflexivity.
Qed.

(** ** Texts of the Roman tables *)

Lemma roman_block_text one sub five nine p n : p <> 0 -> n < 10 * p ->
  gtext (roman_block p one sub five nine) n = vinculum_place one sub five nine (n / p) /\
  grem (roman_block p one sub five nine) n = n mod p.
Proof.
  intros Hp Hn. pose proof (N.mod_lt n p Hp) as Hr.
  assert (n / p < 10) as Hd by (apply N.div_lt_upper_bound; lia).
  pose proof (N.div_mod' n p) as E. rewrite N.mul_comm in E.
  set (d := n / p) in *. set (r := n mod p) in *. clearbody d r. subst n.
  unfold roman_block. cbn [gtext grem].
  destruct (N.eqb_spec (9 * p) 0); [lia|]. destruct (N.eqb_spec (5 * p) 0); [lia|].
  destruct (N.eqb_spec (4 * p) 0); [lia|]. destruct (N.eqb_spec (1 * p) 0); [lia|].
  repeat first [rewrite scale_div by (assumption || discriminate) | rewrite scale_mod by (assumption || discriminate)].
  assert (d = 0 \/ d = 1 \/ d = 2 \/ d = 3 \/ d = 4 \/ d = 5 \/ d = 6 \/ d = 7 \/ d = 8 \/ d = 9) as Hc by lia.
  repeat destruct Hc as [->|Hc]; [..|subst d].
  all: match goal with |- context [?a mod 9 mod 5 mod 4 / 1] =>
         let q9 := eval vm_compute in (a / 9) in let m9 := eval vm_compute in (a mod 9) in
         change (a / 9) with q9; change (a mod 9) with m9;
         let q5 := eval vm_compute in (m9 / 5) in let m5 := eval vm_compute in (m9 mod 5) in
         change (m9 / 5) with q5; change (m9 mod 5) with m5;
         let q4 := eval vm_compute in (m5 / 4) in let m4 := eval vm_compute in (m5 mod 4) in
         change (m5 / 4) with q4; change (m5 mod 4) with m4;
         let q1 := eval vm_compute in (m4 / 1) in let m1 := eval vm_compute in (m4 mod 1) in
         change (m4 / 1) with q1; change (m4 mod 1) with m1
       end.
  all: split; [|lia].
  all: unfold vinculum_place; cbn [N.to_nat Pos.to_nat Pos.iter_op Nat.add nth].
  all: repeat match goal with |- context [copies ?k _] =>
         first [change k with 0; rewrite copies_0 | change k with 1; rewrite copies_1
               | change k with (1 + 1); rewrite copies_succ, copies_1
               | change k with (1 + 1 + 1); rewrite 2!copies_succ, copies_1] end.
  all: cbn [app]; rewrite ?app_nil_r, <- ?app_assoc; reflexivity.
Qed.

Lemma roman_block_nonzero p one sub five nine : p <> 0 ->
  forallb (fun '(_, v) => negb (v =? 0)) (roman_block p one sub five nine) = true.
Proof.
  intros Hp. cbn [roman_block forallb]. repeat (match goal with |- context [?v =? 0] => destruct (N.eqb_spec v 0); [lia|] end).
  reflexivity.
Qed.

Lemma roman_vinculum_place one five ten d : roman_place one five ten d = vinculum_place one one five (one ++ ten) d.
Proof. reflexivity. Qed.

Lemma digit_places n : let n5 := n mod 1000000 in
  n5 mod 100000 mod 10000 mod 1000 = n mod 1000 /\ n5 / 100000 = n / 100000 mod 10 /\
  n5 mod 100000 / 10000 = n / 10000 mod 10 /\ n5 mod 100000 mod 10000 / 1000 = n / 1000 mod 10.
Proof. cbv zeta. repeat split; lia. Qed.

Lemma digit_places_3 n : n < 1000 ->
  n / 1000 = 0 /\ n / 100 mod 10 = n / 100 /\ n / 10 mod 10 = n mod 100 / 10 /\ n mod 10 = n mod 100 mod 10 / 1.
Proof. intros H. repeat split; lia. Qed.

Lemma roman_table_text nine5 nine4 letters zero n :
  gtext (roman_table nine5 nine4 letters zero) n = vinculum nine5 nine4 letters n.
Proof.
  destruct letters as [[[[[[i v] x] l] c] d] m]. unfold roman_table, vinculum, classical_roman.
  rewrite !roman_vinculum_place.
  set (n5 := n mod 1000000).
  destruct (roman_block_text (over c) (over c) (over d) nine5 100000 n5) as [E5 R5]; [discriminate|lia|].
  destruct (roman_block_text (over x) (over x) (over l) nine4 10000 (n5 mod 100000)) as [E4 R4]; [discriminate|lia|].
  destruct (roman_block_text (chars m) (over i) (over v) (over i ++ over x) 1000 (n5 mod 100000 mod 10000)) as [E3 R3]; [discriminate|lia|].
  set (n3 := n5 mod 100000 mod 10000 mod 1000) in *.
  destruct (roman_block_text (chars c) (chars c) (chars d) (chars c ++ chars m) 100 n3) as [E2 R2]; [discriminate|lia|].
  destruct (roman_block_text (chars x) (chars x) (chars l) (chars x ++ chars c) 10 (n3 mod 100)) as [E1 R1]; [discriminate|lia|].
  destruct (roman_block_text (chars i) (chars i) (chars v) (chars i ++ chars x) 1 (n3 mod 100 mod 10)) as [E0 R0]; [discriminate|lia|].
  cbn [gtext]. cbn [N.eqb]. fold n5.
  rewrite !gtext_app by (apply roman_block_nonzero; discriminate).
  rewrite R5, R4, R3. fold n3. rewrite R2, R1, R0, E5, E4, E3, E2, E1, E0. cbn [gtext N.eqb].
  destruct (digit_places n) as (Hn3 & D5 & D4 & D3). fold n5 in Hn3, D5, D4, D3. fold n3 in Hn3.
  assert (n3 < 1000) as Hlt by (rewrite Hn3; apply N.mod_lt; discriminate).
  destruct (digit_places_3 n3 Hlt) as (D & D2 & D1 & D0).
  rewrite D5, D4, D3, <- Hn3, D, copies_0, D2, D1, D0.
  rewrite app_nil_r. reflexivity.
Qed.
