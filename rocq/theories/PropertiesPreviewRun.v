(** * PropertiesPreviewRun: C93, the preview program when input and output fail
    (examples/previews.rs) *)

From Coq Require Import String.
From Verif Require Import Prelude Utf8Facts Previews PreviewRun Cases PropertiesPreviews PropertiesPreviewProgram PreviewFiles
  Base Utf8 NominalString Digital System Format.

(** ** Runs as lists of what was done *)

Definition exec (d : disk) (done : list action) : disk := fold_left does done d.

(** [part a a']: [a] is the beginning of [a']. *)
Definition part (a a' : action) : Prop :=
  match a' with
  | Print text => exists got missing, text = got ++ missing /\ a = Print got
  | WriteFile name text => exists got missing, text = got ++ missing /\ a = WriteFile name got
  | _ => False
  end.

Inductive upto : list action -> list action -> Prop :=
| upto_none l : upto [] l
| upto_on a done l : upto done l -> upto (a :: done) (a :: l)
| upto_part a a' l : part a a' -> upto [a] (a' :: l).

Lemma upto_refl l : upto l l.
Proof. induction l; constructor; assumption. Qed.

Lemma runs_upto d l d' ok : runs d l d' ok -> exists done, upto done l /\ d' = exec d done /\ (ok = true -> done = l).
Proof.
  induction 1 as [d|d a l d' ok _ (done & Hu & -> & Hok)|d a l d' H].
  - exists []. split; [constructor|]. split; reflexivity.
  - exists (a :: done). split; [constructor; exact Hu|]. split; [reflexivity|]. intros E. rewrite (Hok E). reflexivity.
  - destruct a as [|name|text|name text]; cbn [fails] in H.
    + exists []. split; [constructor|]. split; [exact H|discriminate].
    + destruct H as [->| ->].
      * exists []. split; [constructor|]. split; [reflexivity|discriminate].
      * exists [Open name]. split; [constructor; constructor|]. split; [reflexivity|discriminate].
    + destruct H as (got & missing & E & ->). exists [Print got]. split; [apply upto_part; exists got, missing; split; [exact E|reflexivity]|].
      split; [reflexivity|discriminate].
    + destruct H as (got & missing & E & ->). exists [WriteFile name got]. split; [apply upto_part; exists got, missing; split; [exact E|reflexivity]|].
      split; [reflexivity|discriminate].
Qed.

Lemma upto_app done l1 : forall l2, upto done (l1 ++ l2) -> upto done l1 \/ exists rest, done = l1 ++ rest /\ upto rest l2.
Proof.
  revert done. induction l1 as [|a l1 IH]; intros done l2 H; cbn [app] in H.
  - right. exists done. split; [reflexivity|exact H].
  - inversion H; subst.
    + left. constructor.
    + match goal with H : upto _ (l1 ++ l2) |- _ => destruct (IH _ _ H) as [Hl|(rest & -> & Hr)] end.
      * left. constructor. exact Hl.
      * right. exists rest. split; [reflexivity|exact Hr].
    + left. apply upto_part. assumption.
Qed.

Definition printed_by (a : action) : list N := match a with Print text => text | _ => [] end.
Definition printed (l : list action) : list N := flat_map printed_by l.

Definition filed_by (name : list N) (a : action) : list N :=
  match a with WriteFile other text => if bytes_eqb other name then text else [] | _ => [] end.
Definition filed (name : list N) (l : list action) : list N := flat_map (filed_by name) l.

Definition opens (name : list N) (a : action) : bool := match a with Open other => bytes_eqb other name | _ => false end.
Definition touches (name : list N) (a : action) : bool :=
  match a with Open other | WriteFile other _ => bytes_eqb other name | _ => false end.
Definition untouched (name : list N) (l : list action) : bool := forallb (fun a => negb (touches name a)) l.
Definition unopened (name : list N) (l : list action) : bool := forallb (fun a => negb (opens name a)) l.

Lemma printed_app a b : printed (a ++ b) = printed a ++ printed b.
Proof. apply flat_map_app. Qed.
Lemma filed_app name a b : filed name (a ++ b) = filed name a ++ filed name b.
Proof. apply flat_map_app. Qed.
Lemma untouched_app name a b : untouched name (a ++ b) = untouched name a && untouched name b.
Proof. apply forallb_app. Qed.
Lemma unopened_app name a b : unopened name (a ++ b) = unopened name a && unopened name b.
Proof. apply forallb_app. Qed.

Lemma eqb_refl t : bytes_eqb t t = true.
Proof. apply bytes_eqb_spec. reflexivity. Qed.

Lemma eqb_other a b : a <> b -> bytes_eqb a b = false.
Proof. intros H. destruct (bytes_eqb a b) eqn:E; [|reflexivity]. apply bytes_eqb_spec in E. contradiction. Qed.

Lemma upto_printed done l : upto done l -> exists missing, printed l = printed done ++ missing.
Proof.
  induction 1 as [l|a done l _ (missing & E)|a a' l H].
  - exists (printed l). reflexivity.
  - exists missing. unfold printed in *. cbn [flat_map]. rewrite E, app_assoc. reflexivity.
  - destruct a' as [|name|text|name text]; cbn [part] in H; try contradiction; destruct H as (got & missing & -> & ->).
    + exists (missing ++ printed l). unfold printed. cbn [flat_map printed_by]. rewrite app_nil_r, <- app_assoc. reflexivity.
    + exists (printed l). reflexivity.
Qed.

Lemma upto_filed name done l : upto done l -> exists missing, filed name l = filed name done ++ missing.
Proof.
  induction 1 as [l|a done l _ (missing & E)|a a' l H].
  - exists (filed name l). reflexivity.
  - exists missing. unfold filed in *. cbn [flat_map]. rewrite E, app_assoc. reflexivity.
  - destruct a' as [|other|text|other text]; cbn [part] in H; try contradiction; destruct H as (got & missing & -> & ->).
    + exists (filed name l). reflexivity.
    + unfold filed. cbn [flat_map filed_by]. destruct (bytes_eqb other name); rewrite app_nil_r.
      * exists (missing ++ filed name l). rewrite <- app_assoc. reflexivity.
      * exists (filed name l). reflexivity.
Qed.

Lemma upto_untouched name done l : upto done l -> untouched name l = true -> untouched name done = true.
Proof.
  unfold untouched. induction 1 as [l|a done l _ IH|a a' l H]; cbn [forallb]; intros E.
  - reflexivity.
  - apply andb_true_iff in E as [-> E]. apply IH, E.
  - apply andb_true_iff in E as [E _]. destruct a' as [|other|text|other text]; cbn [part] in H; try contradiction; destruct H as (got & missing & -> & ->); cbn [touches] in *; rewrite E; reflexivity.
Qed.

Lemma upto_unopened name done l : upto done l -> unopened name l = true -> unopened name done = true.
Proof.
  unfold unopened. induction 1 as [l|a done l _ IH|a a' l H]; cbn [forallb]; intros E.
  - reflexivity.
  - apply andb_true_iff in E as [-> E]. apply IH, E.
  - destruct a' as [|other|text|other text]; cbn [part] in H; try contradiction; destruct H as (got & missing & -> & ->); reflexivity.
Qed.

Lemma untouched_filed name l : untouched name l = true -> filed name l = [].
Proof.
  unfold untouched, filed. induction l as [|a l IH]; cbn [forallb flat_map]; intros E; [reflexivity|].
  apply andb_true_iff in E as [Ea E]. rewrite (IH E). destruct a as [|other|text|other text]; cbn [touches filed_by] in *; try reflexivity.
  destruct (bytes_eqb other name); [discriminate|reflexivity].
Qed.

Lemma untouched_unopened name l : untouched name l = true -> unopened name l = true.
Proof.
  unfold untouched, unopened. induction l as [|a l IH]; cbn [forallb]; intros E; [reflexivity|].
  apply andb_true_iff in E as [Ea E]. rewrite (IH E). destruct a as [|other|text|other text]; cbn [touches opens] in *; try reflexivity.
  rewrite Ea. reflexivity.
Qed.

Lemma exec_app d a b : exec d (a ++ b) = exec (exec d a) b.
Proof. apply fold_left_app. Qed.

Lemma exec_output l : forall d, output (exec d l) = output d ++ printed l.
Proof.
  induction l as [|a l IH]; intros d; [symmetry; apply app_nil_r|]. cbn [exec fold_left]. fold (exec (does d a) l). rewrite IH.
  unfold printed. cbn [flat_map]. rewrite app_assoc. f_equal. destruct a; cbn [does printed_by set_content output]; rewrite ?app_nil_r; reflexivity.
Qed.

Lemma exec_untouched name l : forall d, untouched name l = true -> content (exec d l) name = content d name.
Proof.
  unfold untouched. induction l as [|a l IH]; intros d E; [reflexivity|]. cbn [forallb] in E. apply andb_true_iff in E as [Ea E].
  cbn [exec fold_left]. fold (exec (does d a) l). rewrite (IH _ E). destruct a as [|other|text|other text]; cbn [does set_content content touches] in *; try reflexivity.
  - destruct (bytes_eqb name other) eqn:En; [|reflexivity]. apply bytes_eqb_spec in En as ->. rewrite eqb_refl in Ea. discriminate.
  - destruct (bytes_eqb name other) eqn:En; [|reflexivity]. apply bytes_eqb_spec in En as ->. rewrite eqb_refl in Ea. discriminate.
Qed.

Lemma exec_filed name l : forall d old, unopened name l = true -> content d name = Some old ->
  content (exec d l) name = Some (old ++ filed name l).
Proof.
  unfold unopened, filed. induction l as [|a l IH]; intros d old E Eo; [rewrite app_nil_r; exact Eo|]. cbn [forallb] in E. apply andb_true_iff in E as [Ea E].
  cbn [exec fold_left flat_map]. fold (exec (does d a) l).
  destruct a as [|other|text|other text]; cbn [does opens filed_by] in *.
  - apply IH; assumption.
  - apply IH; [exact E|]. cbn [set_content content]. destruct (bytes_eqb name other) eqn:En; [|exact Eo]. apply bytes_eqb_spec in En as ->. rewrite eqb_refl in Ea. discriminate.
  - apply IH; assumption.
  - destruct (bytes_eqb other name) eqn:En.
    + apply bytes_eqb_spec in En as ->. rewrite app_assoc. apply IH; [exact E|]. cbn [set_content content]. rewrite eqb_refl, Eo. reflexivity.
    + cbn [app]. apply IH; [exact E|]. cbn [set_content content]. destruct (bytes_eqb name other) eqn:En'; [|exact Eo].
      apply bytes_eqb_spec in En' as ->. rewrite eqb_refl in En. discriminate.
Qed.

(** A file that is opened once: what is in it after a run. *)
Lemma opened_once name l1 l2 done d :
  untouched name l1 = true -> unopened name l2 = true -> upto done (l1 ++ Open name :: l2) ->
  (upto done l1 /\ content (exec d done) name = content d name) \/
  (exists rest, done = l1 ++ Open name :: rest /\ upto rest l2 /\ content (exec d done) name = Some (filed name rest)).
Proof.
  intros H1 H2 H. destruct (upto_app _ _ _ H) as [Hl|(rest & -> & Hr)].
  - left. split; [exact Hl|]. apply exec_untouched, (upto_untouched _ _ _ Hl H1).
  - inversion Hr; subst.
    + left. rewrite app_nil_r. split; [apply upto_refl|apply exec_untouched, H1].
    + right. eexists. split; [reflexivity|]. split; [eassumption|]. rewrite exec_app. cbn [exec fold_left].
      match goal with H : upto ?r l2 |- _ => fold (exec (does (exec d l1) (Open name)) r); rewrite (exec_filed name r _ []); [reflexivity|exact (upto_unopened _ _ _ H H2)|] end.
      cbn [does set_content content]. rewrite eqb_refl. reflexivity.
    + match goal with H : part _ (Open _) |- _ => destruct H end.
Qed.

(** ** The shape of the program *)

Definition heading (name : list N) : list N := bytes "# " ++ name ++ newline ++ newline.

(** A table: its name and the texts handed to [print]. *)
Definition block (env : surroundings) (table : list N * list (list N)) : list action :=
  open_if_saving env (fst table) ++
  (if saving env then [WriteFile (fst table) (heading (fst table))] else []) ++
  flat_map (print env (fst table)) (snd table) ++ [Print newline].

Definition plan (env : surroundings) (tables : list (list N * list (list N))) (lines : list (list N)) : list action :=
  open_if_saving env (bytes "index") ++ flat_map (block env) tables ++ flat_map (print env (bytes "index")) lines.

Lemma row_actions_shape c env name w p rows : forall before line r,
  print_rows c env w p rows before line = Ret r ->
  exists texts, row_actions c env name w p rows line = Ret (flat_map (print env name) texts, snd r) /\ fst r = before ++ concat texts.
Proof.
  induction rows as [|[decimal nominal] rows IH]; intros before line r E; cbn [print_rows row_actions] in *.
  - apply ret_inj in E as <-. exists []. cbn [concat flat_map fst snd]. rewrite app_nil_r. split; reflexivity.
  - destruct (as_str nominal) as [str| | |]; try discriminate. cbn [obind] in *.
    destruct (str_chars str) as [cs| | |]; try discriminate. cbn [obind] in *.
    destruct (unicode_width c env nominal) as [columns| | |]; try discriminate. cbn [obind] in *.
    destruct (uadd _ _ _ _) as [wide| | |]; try discriminate. cbn [obind] in *.
    destruct (usub _ _ _ _) as [own_pad| | |]; try discriminate. cbn [obind] in *.
    destruct (display (padded_to w) decimal) as [left| | |]; try discriminate. cbn [obind] in *.
    destruct (display (padded_to own_pad) nominal) as [right| | |]; try discriminate. cbn [obind] in *.
    destruct (IH _ _ _ E) as (texts & Ea & Ep). rewrite Ea. cbn [obind].
    eexists (_ :: texts). cbn [flat_map concat]. split; [reflexivity|]. rewrite Ep. rewrite <- !app_assoc. reflexivity.
Qed.

Lemma preview_actions_shape c env p t : preview c env p = Ret t ->
  exists texts, preview_actions c env p = Ret (block env (file_name t, texts), (link t, one_line t)) /\
    to_stdout t = concat texts ++ newline /\ to_file t = heading (file_name t) ++ concat texts.
Proof.
  unfold preview, preview_actions. intros E.
  destruct (preview_values p) as [values| | |]; try discriminate. cbn [obind] in *.
  destruct (scan _ _ _ _ _) as [st| | |]; try discriminate. cbn [obind] in *.
  destruct (uadd _ _ _ _) as [quirk| | |]; try discriminate. cbn [obind] in *.
  destruct (placeholder _ (bytes "#")) as [number_sign| | |]; try discriminate. cbn [obind] in *.
  destruct (placeholder _ (last_type_name _)) as [header| | |]; try discriminate. cbn [obind] in *.
  destruct (placeholder (ruled_to (max_decimal_width st)) []) as [left_rule| | |]; try discriminate. cbn [obind] in *.
  destruct (placeholder (ruled_to (nominal_pad st)) []) as [right_rule| | |]; try discriminate. cbn [obind] in *.
  destruct (print_rows _ _ _ _ _ _ _) as [[rows line]| | |] eqn:Er; try discriminate. cbn [obind] in *.
  destruct (row_actions_shape _ _ (last_type_name (own_name p)) _ _ _ _ _ _ Er) as (texts & Ea & Ep). rewrite Ea. cbn [obind snd fst] in *.
  apply ret_inj in E as <-. cbn [file_name to_stdout to_file link one_line]. eexists (_ :: _ :: texts). cbn [flat_map concat]. split.
  - unfold block. cbn [fst snd flat_map]. rewrite <- !app_assoc. reflexivity.
  - subst rows. unfold heading. rewrite <- !app_assoc. split; reflexivity.
Qed.

Definition index_line (t : previewed) : list N := bytes "- " ++ link t ++ bytes ": " ++ one_line t ++ newline.

Lemma each_shape c env ps : forall ts, each (preview c env) ps = Ret ts ->
  exists tables acts, each (preview_actions c env) ps = Ret acts /\
    flat_map fst acts = flat_map (block env) tables /\
    flat_map (fun '(_, (name, summary)) => print env (bytes "index") (bytes "- " ++ name ++ bytes ": " ++ summary ++ newline)) acts =
      flat_map (print env (bytes "index")) (map index_line ts) /\
    flat_map to_stdout ts = flat_map (fun '(_, texts) => concat texts ++ newline) tables /\
    map (fun t => (file_name t, to_file t)) ts = map (fun '(name, texts) => (name, heading name ++ concat texts)) tables.
Proof.
  induction ps as [|p ps IH]; intros ts E; cbn [each] in *.
  - apply ret_inj in E as <-. exists [], []. repeat split; reflexivity.
  - destruct (preview c env p) as [t| | |] eqn:Et; try discriminate. cbn [obind] in E.
    destruct (each (preview c env) ps) as [ts'| | |]; try discriminate. cbn [obind] in E. apply ret_inj in E as <-.
    destruct (preview_actions_shape _ _ _ _ Et) as (texts & Ea & Es & Ef). rewrite Ea. cbn [obind].
    destruct (IH _ eq_refl) as (tables & acts & -> & E1 & E2 & E3 & E4). cbn [obind].
    exists ((file_name t, texts) :: tables). eexists. split; [reflexivity|]. cbn [flat_map map fst]. rewrite E1, E2, E3, E4, Es, Ef. repeat split.
Qed.

Lemma main_plan c env out : main c env = Ret out ->
  exists tables lines, main_actions c env = Ret (plan env tables lines) /\
    stdout out = flat_map (fun '(_, texts) => concat texts ++ newline) tables ++ concat lines /\
    files out = (if saving env then (bytes "index", concat lines) :: map (fun '(name, texts) => (name, heading name ++ concat texts)) tables else []).
Proof.
  unfold main, main_actions. intros E. destruct (each (preview c env) (previewed_systems c)) as [ts| | |] eqn:Et; try discriminate. cbn [obind] in E.
  destruct (each_shape _ _ _ _ Et) as (tables & acts & -> & E1 & E2 & E3 & E4). cbn [obind]. apply ret_inj in E as <-. cbn [stdout files].
  exists tables, (map index_line ts). rewrite E1, E2, E3, E4. unfold plan. rewrite <- (flat_map_concat_map index_line ts).
  split; [reflexivity|]. split; reflexivity.
Qed.

(** ** What a block prints and writes *)

Lemma printed_prints env name texts : printed (flat_map (print env name) texts) = concat texts.
Proof.
  induction texts as [|t texts IH]; [reflexivity|]. cbn [flat_map concat]. rewrite printed_app, IH. f_equal.
  unfold print, printed. destruct (saving env); cbn [flat_map printed_by]; rewrite ?app_nil_r; reflexivity.
Qed.

Lemma filed_prints env name texts : saving env = true -> filed name (flat_map (print env name) texts) = concat texts.
Proof.
  intros Hs. induction texts as [|t texts IH]; [reflexivity|]. cbn [flat_map concat]. rewrite filed_app, IH. f_equal.
  unfold print, filed. rewrite Hs. cbn [flat_map filed_by]. rewrite eqb_refl, app_nil_r. reflexivity.
Qed.

Lemma untouched_prints env name other texts : saving env = false \/ name <> other -> untouched other (flat_map (print env name) texts) = true.
Proof.
  intros H. induction texts as [|t texts IH]; [reflexivity|]. cbn [flat_map]. rewrite untouched_app, IH, andb_true_r.
  unfold print, untouched. destruct (saving env); [|reflexivity]. destruct H as [|H]; [discriminate|].
  cbn [forallb touches]. rewrite (eqb_other _ _ H). reflexivity.
Qed.

Lemma unopened_prints env name other texts : unopened other (flat_map (print env name) texts) = true.
Proof.
  induction texts as [|t texts IH]; [reflexivity|]. cbn [flat_map]. rewrite unopened_app, IH, andb_true_r.
  unfold print, unopened. destruct (saving env); reflexivity.
Qed.

Lemma printed_block env table : printed (block env table) = concat (snd table) ++ newline.
Proof.
  unfold block. rewrite !printed_app, printed_prints. unfold open_if_saving. destruct (saving env); reflexivity.
Qed.

Lemma untouched_block env table other : saving env = false \/ fst table <> other -> untouched other (block env table) = true.
Proof.
  intros H. unfold block. rewrite !untouched_app, untouched_prints by exact H. unfold open_if_saving, untouched.
  destruct (saving env); [|reflexivity]. destruct H as [|H]; [discriminate|]. cbn [forallb touches]. rewrite (eqb_other _ _ H). reflexivity.
Qed.

Lemma printed_blocks env tables : printed (flat_map (block env) tables) = flat_map (fun '(_, texts) => concat texts ++ newline) tables.
Proof.
  induction tables as [|[name texts] tables IH]; [reflexivity|]. cbn [flat_map]. rewrite printed_app, printed_block, IH. reflexivity.
Qed.

Lemma untouched_blocks env tables other : saving env = false \/ ~ In other (map fst tables) -> untouched other (flat_map (block env) tables) = true.
Proof.
  intros H. induction tables as [|table tables IH]; [reflexivity|]. cbn [flat_map]. rewrite untouched_app, untouched_block, IH; [reflexivity| |].
  - destruct H as [H|H]; [left; exact H|right]. intros Hi. apply H. right. exact Hi.
  - destruct H as [H|H]; [left; exact H|right]. intros Hi. apply H. left. exact Hi.
Qed.

Lemma printed_plan env tables lines :
  printed (plan env tables lines) = flat_map (fun '(_, texts) => concat texts ++ newline) tables ++ concat lines.
Proof.
  unfold plan. rewrite !printed_app, printed_blocks, printed_prints. unfold open_if_saving. destruct (saving env); reflexivity.
Qed.

(** What follows the opening of a table's file, up to the next table. *)
Definition body (env : surroundings) (name : list N) (texts : list (list N)) : list action :=
  WriteFile name (heading name) :: flat_map (print env name) texts ++ [Print newline].

Lemma plan_at env before name texts after lines : saving env = true ->
  plan env (before ++ (name, texts) :: after) lines =
  (open_if_saving env (bytes "index") ++ flat_map (block env) before ++ [MakeDirectory]) ++
  Open name :: body env name texts ++ flat_map (block env) after ++ flat_map (print env (bytes "index")) lines.
Proof.
  intros Hs. unfold plan. rewrite flat_map_app. cbn [flat_map]. unfold block at 2, body. cbn [fst snd]. unfold open_if_saving. rewrite Hs. cbn [app].
  rewrite <- !app_assoc. cbn [app]. rewrite <- !app_assoc. reflexivity.
Qed.

Lemma plan_index env tables lines : saving env = true ->
  plan env tables lines =
  [MakeDirectory] ++ Open (bytes "index") :: flat_map (block env) tables ++ flat_map (print env (bytes "index")) lines.
Proof. intros Hs. unfold plan, open_if_saving. rewrite Hs. reflexivity. Qed.

Lemma filed_body env name texts : saving env = true -> filed name (body env name texts) = heading name ++ concat texts.
Proof.
  intros Hs. unfold body. unfold filed at 1. cbn [flat_map filed_by]. rewrite eqb_refl. f_equal.
  fold (filed name (flat_map (print env name) texts ++ [Print newline])). rewrite filed_app, filed_prints by exact Hs. cbn. apply app_nil_r.
Qed.

(** The names, in the order of the files. *)
Definition distinct (tables : list (list N * list (list N))) : Prop := NoDup (bytes "index" :: map fst tables).

Lemma at_facts env before name texts after lines :
  saving env = true -> distinct (before ++ (name, texts) :: after) ->
  untouched name (open_if_saving env (bytes "index") ++ flat_map (block env) before ++ [MakeDirectory]) = true /\
  untouched name (flat_map (block env) after ++ flat_map (print env (bytes "index")) lines) = true /\
  unopened name (body env name texts ++ flat_map (block env) after ++ flat_map (print env (bytes "index")) lines) = true.
Proof.
  intros Hs Hd. unfold distinct in Hd. rewrite map_app in Hd. cbn [map fst] in Hd. apply NoDup_cons_iff in Hd as [Hi Hn].
  assert (bytes "index" <> name) as Hni by (intros E; apply Hi; rewrite E; apply in_or_app; right; left; reflexivity).
  apply NoDup_remove_2 in Hn.
  assert (untouched name (flat_map (block env) after ++ flat_map (print env (bytes "index")) lines) = true) as Ha.
  { rewrite untouched_app, untouched_blocks, untouched_prints; [reflexivity|right; exact Hni|]. right. intros H. apply Hn, in_or_app. right. exact H. }
  split; [|split; [exact Ha|]].
  - rewrite !untouched_app, untouched_blocks by (right; intros H; apply Hn, in_or_app; left; exact H).
    unfold open_if_saving. rewrite Hs. unfold untouched. cbn [forallb touches]. rewrite (eqb_other _ _ Hni). reflexivity.
  - rewrite unopened_app, (untouched_unopened _ _ Ha), andb_true_r. unfold body.
    change (WriteFile name (heading name) :: ?l) with ([WriteFile name (heading name)] ++ l). rewrite !unopened_app, unopened_prints. reflexivity.
Qed.

Lemma index_facts env tables lines : distinct tables ->
  untouched (bytes "index") (flat_map (block env) tables) = true /\
  unopened (bytes "index") (flat_map (block env) tables ++ flat_map (print env (bytes "index")) lines) = true.
Proof.
  intros Hd. apply NoDup_cons_iff in Hd as [Hi Hn]. assert (untouched (bytes "index") (flat_map (block env) tables) = true) as H by (apply untouched_blocks; right; exact Hi).
  split; [exact H|]. rewrite unopened_app, (untouched_unopened _ _ H), unopened_prints. reflexivity.
Qed.

(** Everything printed to a file is on standard output first. *)
Lemma prints_ahead env name done texts : saving env = true -> upto done (flat_map (print env name) texts) ->
  exists more, printed done = filed name done ++ more.
Proof.
  intros Hs. revert done. induction texts as [|t texts IH]; intros done H; cbn [flat_map] in H.
  - inversion H. exists []. reflexivity.
  - unfold print at 1 in H. rewrite Hs in H. cbn [app] in H. inversion H; subst.
    + exists []. reflexivity.
    + match goal with H : upto _ (WriteFile _ _ :: _) |- _ => inversion H; subst end.
      * exists t. unfold printed. cbn. apply app_nil_r.
      * match goal with H : upto ?d (flat_map _ texts) |- _ => destruct (IH _ H) as (more & E) end. exists more.
        unfold printed, filed in *. cbn [flat_map printed_by filed_by app]. rewrite eqb_refl, E, <- app_assoc. reflexivity.
      * match goal with H : part _ _ |- _ => destruct H as (got & missing & -> & ->) end. exists missing.
        unfold printed, filed. cbn [flat_map printed_by filed_by app]. rewrite eqb_refl, !app_nil_r. reflexivity.
    + match goal with H : part _ _ |- _ => destruct H as (got & missing & -> & ->) end. exists got.
      unfold printed, filed. cbn. apply app_nil_r.
Qed.

(** ** Runs of a plan *)

Definition before_at (env : surroundings) (before : list (list N * list (list N))) : list action :=
  open_if_saving env (bytes "index") ++ flat_map (block env) before ++ [MakeDirectory].

Lemma complete_at env before name texts rest d : saving env = true ->
  untouched name (before_at env before) = true -> untouched name rest = true ->
  content (exec d (before_at env before ++ Open name :: body env name texts ++ rest)) name = Some (heading name ++ concat texts).
Proof.
  intros Hs Hb Hr. rewrite exec_app. cbn [exec fold_left]. fold (exec (does (exec d (before_at env before)) (Open name)) (body env name texts ++ rest)).
  rewrite exec_app, (exec_untouched name rest _ Hr). rewrite (exec_filed name _ _ []).
  - rewrite filed_body by exact Hs. reflexivity.
  - unfold body. change (WriteFile name (heading name) :: ?l) with ([WriteFile name (heading name)] ++ l). rewrite !unopened_app, unopened_prints. reflexivity.
  - cbn [does set_content content]. rewrite eqb_refl. reflexivity.
Qed.

Lemma at_cases env before name texts after lines d done : saving env = true ->
  distinct (before ++ (name, texts) :: after) -> upto done (plan env (before ++ (name, texts) :: after) lines) ->
  (content (exec d done) name = content d name) \/
  (exists some, done = before_at env before ++ Open name :: some /\ upto some (body env name texts) /\
     content (exec d done) name = Some (filed name some)) \/
  (exists rest, done = before_at env before ++ Open name :: body env name texts ++ rest /\
     upto rest (flat_map (block env) after ++ flat_map (print env (bytes "index")) lines) /\
     content (exec d done) name = Some (heading name ++ concat texts)).
Proof.
  intros Hs Hd H. destruct (at_facts env before name texts after lines Hs Hd) as (Hb & Ha & Ho). fold (before_at env before) in Hb.
  rewrite plan_at in H by exact Hs. fold (before_at env before) in H.
  destruct (opened_once _ _ _ _ d Hb Ho H) as [[_ E]|(rest & -> & Hr & E)]; [left; exact E|right].
  destruct (upto_app _ _ _ Hr) as [Hl|(more & -> & Hm)].
  - left. exists rest. repeat split; assumption.
  - right. exists more. split; [reflexivity|]. split; [exact Hm|]. apply complete_at; [exact Hs|exact Hb|]. exact (upto_untouched _ _ _ Hm Ha).
Qed.

(** All tables before one that was opened are complete. *)
Lemma earlier_complete env tables rest d : saving env = true -> distinct tables ->
  forall before name texts after, tables = before ++ (name, texts) :: after -> untouched name rest = true ->
  content (exec d (open_if_saving env (bytes "index") ++ flat_map (block env) tables ++ rest)) name = Some (heading name ++ concat texts).
Proof.
  intros Hs Hd before name texts after -> Hr. destruct (at_facts env before name texts after [] Hs Hd) as (Hb & Ha & _).
  pose proof (plan_at env before name texts after [] Hs) as E. unfold plan in E. cbn [flat_map] in E. rewrite !app_nil_r in E.
  rewrite app_assoc, E. fold (before_at env before). rewrite <- app_assoc. cbn [app]. rewrite <- app_assoc. apply complete_at; [exact Hs|exact Hb|].
  rewrite untouched_app, Hr, andb_true_r. cbn [flat_map] in Ha. rewrite app_nil_r in Ha. exact Ha.
Qed.

Lemma index_cases env tables lines d done : saving env = true -> distinct tables -> upto done (plan env tables lines) ->
  (done = [] \/ done = [MakeDirectory]) \/
  (exists some, done = [MakeDirectory; Open (bytes "index")] ++ some /\ upto some (flat_map (block env) tables) /\
     content (exec d done) (bytes "index") = Some []) \/
  (exists rest, done = open_if_saving env (bytes "index") ++ flat_map (block env) tables ++ rest /\
     upto rest (flat_map (print env (bytes "index")) lines) /\
     content (exec d done) (bytes "index") = Some (filed (bytes "index") rest)).
Proof.
  intros Hs Hd H. destruct (index_facts env tables lines Hd) as [Ht Ho]. rewrite plan_index in H by exact Hs.
  destruct (opened_once _ _ _ _ d (eq_refl : untouched (bytes "index") [MakeDirectory] = true) Ho H) as [[Hu _]|(rest & -> & Hr & E)].
  - left. inversion Hu as [|a l l' Hl|a a' l Hp]; subst; [left; reflexivity| |destruct Hp]. inversion Hl. right. reflexivity.
  - right. destruct (upto_app _ _ _ Hr) as [Hl|(more & -> & Hm)].
    + left. exists rest. split; [reflexivity|]. split; [exact Hl|]. rewrite E. rewrite untouched_filed; [reflexivity|]. exact (upto_untouched _ _ _ Hl Ht).
    + right. exists more. split; [unfold open_if_saving; rewrite Hs; reflexivity|]. split; [exact Hm|]. rewrite E, filed_app, (untouched_filed _ _ Ht). reflexivity.
Qed.

Lemma plan_not_saving env tables lines name : saving env = false -> untouched name (plan env tables lines) = true.
Proof.
  intros Hs. unfold plan. rewrite !untouched_app, untouched_blocks, untouched_prints by (left; exact Hs). unfold open_if_saving. rewrite Hs. reflexivity.
Qed.

Lemma other_name env tables lines name : ~ In name (bytes "index" :: map fst tables) -> untouched name (plan env tables lines) = true.
Proof.
  intros H. unfold plan. rewrite !untouched_app, untouched_blocks, untouched_prints.
  - unfold open_if_saving, untouched. destruct (saving env); [|reflexivity]. cbn [forallb touches]. rewrite eqb_other; [reflexivity|]. intros E. apply H. left. exact E.
  - right. intros E. apply H. left. exact E.
  - right. intros E. apply H. right. exact E.
Qed.

(** What the hypotheses of the theorems come to. *)
Lemma run_plan c env out actions d d' ok : valid_config c -> sound_graphemes env ->
  main c env = Ret out -> main_actions c env = Ret actions -> runs d actions d' ok ->
  exists tables lines done, (saving env = true -> distinct tables) /\ upto done (plan env tables lines) /\ d' = exec d done /\
    (ok = true -> done = plan env tables lines) /\
    stdout out = printed (plan env tables lines) /\
    files out = (if saving env then (bytes "index", concat lines) :: map (fun '(name, texts) => (name, heading name ++ concat texts)) tables else []).
Proof.
  intros Hc Hg Em Ea Hr. destruct (main_plan c env out Em) as (tables & lines & Ep & Eo & Ef).
  rewrite Ep in Ea. apply ret_inj in Ea as <-. destruct (runs_upto _ _ _ _ Hr) as (done & Hu & -> & Hok).
  assert (saving env = true -> distinct tables) as Hd.
  { intros Hs. destruct (proj2 (C84_index c env out Hc Hg Em) Hs) as (tl' & _ & Hn & _). rewrite Ef, Hs in Hn. cbn [map fst] in Hn.
    rewrite map_map in Hn. unfold distinct. replace (map fst tables) with (map (fun x : list N * list (list N) => fst (let '(name, texts) := x in (name, heading name ++ concat texts))) tables); [exact Hn|].
    apply map_ext. intros [name texts]. reflexivity. }
  exists tables, lines, done. split; [exact Hd|]. split; [exact Hu|]. split; [reflexivity|]. split; [exact Hok|]. split; [rewrite printed_plan; exact Eo|exact Ef].
Qed.

Lemma split_tables (tables : list (list N * list (list N))) l1 name text l2 :
  map (fun '(name, texts) => (name, heading name ++ concat texts)) tables = l1 ++ (name, text) :: l2 ->
  exists before texts after, tables = before ++ (name, texts) :: after /\ text = heading name ++ concat texts /\
    l1 = map (fun '(name, texts) => (name, heading name ++ concat texts)) before /\
    l2 = map (fun '(name, texts) => (name, heading name ++ concat texts)) after.
Proof.
  revert l1. induction tables as [|[n ts] tables IH]; intros l1 E; cbn [map] in E; [destruct l1; discriminate|].
  destruct l1 as [|[n' t'] l1]; cbn [app] in E; injection E as E1 E2 E3.
  - subst. exists [], ts, tables. repeat split.
  - destruct (IH _ E3) as (before & texts & after & -> & -> & -> & ->). subst. exists ((n', ts) :: before), texts, after. repeat split.
Qed.

(** ** C93 *)

(** The program computes its actions without panicking, and ends if none fails. *)
Theorem C93_actions : forall c env, valid_config c -> sound_graphemes env ->
  exists actions, main_actions c env = Ret actions /\ forall d, exists d', runs d actions d' true.
Proof.
  intros c env Hc Hg. destruct (C84_every_build c env Hc Hg) as (out & Em & _). destruct (main_plan c env out Em) as (tables & lines & -> & _).
  eexists. split; [reflexivity|]. generalize (plan env tables lines). intros l. induction l as [|a l IH]; intros d.
  - exists d. constructor.
  - destruct (IH (does d a)) as (d' & H). exists d'. constructor. exact H.
Qed.
Print Assumptions C93_actions.

(** If it ends, the output and the files are what [main] says, and no other
    file has changed. *)
Theorem C93_complete : forall c env out actions d d', valid_config c -> sound_graphemes env ->
  main c env = Ret out -> main_actions c env = Ret actions -> runs d actions d' true ->
  output d' = output d ++ stdout out /\
  (forall name text, In (name, text) (files out) -> content d' name = Some text) /\
  (forall name, ~ In name (map fst (files out)) -> content d' name = content d name).
Proof.
  intros c env out actions d d' Hc Hg Em Ea Hr.
  destruct (run_plan c env out actions d d' true Hc Hg Em Ea Hr) as (tables & lines & done & Hd & Hu & -> & Hok & Eo & Ef). specialize (Hok eq_refl). subst done.
  split; [rewrite exec_output, Eo; reflexivity|]. rewrite Ef. destruct (saving env) eqn:Hs.
  - specialize (Hd eq_refl). split.
    + intros name text [E|Hin].
      * injection E as <- <-. destruct (index_facts env tables lines Hd) as [Ht Ho]. rewrite plan_index by exact Hs. rewrite exec_app. cbn [exec fold_left].
        fold (exec (does (does d MakeDirectory) (Open (bytes "index"))) (flat_map (block env) tables ++ flat_map (print env (bytes "index")) lines)).
        rewrite (exec_filed _ _ _ [] Ho).
        -- rewrite filed_app, (untouched_filed _ _ Ht), filed_prints by exact Hs. reflexivity.
        -- cbn [does set_content content]. rewrite eqb_refl. reflexivity.
      * apply in_map_iff in Hin as ([n texts] & E & Hin). injection E as <- <-. apply in_split in Hin as (before & after & ->).
        unfold plan. apply (earlier_complete env _ _ d Hs Hd before n texts after eq_refl).
        destruct (at_facts env before n texts after lines Hs Hd) as (_ & Ha & _). rewrite untouched_app in Ha. apply andb_true_iff in Ha as [_ Ha]. exact Ha.
    + intros name Hn. apply exec_untouched, other_name. intros Hi. apply Hn. cbn [map fst]. destruct Hi as [Hi|Hi]; [left; exact Hi|right].
      apply in_map_iff in Hi as ([n texts] & E & Hi). cbn [fst] in E. subst n. apply in_map_iff. exists (name, heading name ++ concat texts). split; [reflexivity|].
      apply in_map_iff. exists (name, texts). split; [reflexivity|exact Hi].
  - split; [intros name text []|]. intros name _. apply exec_untouched, plan_not_saving, Hs.
Qed.
Print Assumptions C93_complete.

(** Wherever it stops, the output is a beginning of the full output, and a
    file holds what it held before or a beginning of its full text. *)
Theorem C93_beginning : forall c env out actions d d' ok, valid_config c -> sound_graphemes env ->
  main c env = Ret out -> main_actions c env = Ret actions -> runs d actions d' ok ->
  (exists got missing, output d' = output d ++ got /\ stdout out = got ++ missing) /\
  forall name, content d' name = content d name \/
    exists got missing, content d' name = Some got /\ In (name, got ++ missing) (files out).
Proof.
  intros c env out actions d d' ok Hc Hg Em Ea Hr.
  destruct (run_plan c env out actions d d' ok Hc Hg Em Ea Hr) as (tables & lines & done & Hd & Hu & -> & _ & Eo & Ef). split.
  - destruct (upto_printed _ _ Hu) as (missing & E). exists (printed done), missing. split; [apply exec_output|]. rewrite Eo. exact E.
  - intros name. destruct (saving env) eqn:Hs; [|left; apply exec_untouched, (upto_untouched _ _ _ Hu), plan_not_saving, Hs].
    specialize (Hd eq_refl). rewrite Ef.
    destruct (in_dec (list_eq_dec N.eq_dec) name (bytes "index" :: map fst tables)) as [Hin|Hn];
      [|left; apply exec_untouched, (upto_untouched _ _ _ Hu), other_name, Hn].
    destruct Hin as [<-|Hin].
    + destruct (index_cases env tables lines d done Hs Hd Hu) as [[->| ->]|[(some & -> & _ & E)|(rest & -> & Hrest & E)]].
      * left. reflexivity.
      * left. reflexivity.
      * right. exists [], (concat lines). split; [exact E|]. left. reflexivity.
      * right. destruct (upto_filed (bytes "index") _ _ Hrest) as (missing & Em'). rewrite filed_prints in Em' by exact Hs. exists (filed (bytes "index") rest), missing.
        split; [exact E|]. left. rewrite Em'. reflexivity.
    + apply in_map_iff in Hin as ([n texts] & E & Hin). cbn [fst] in E. subst n. pose proof Hin as Hi. apply in_split in Hin as (before & after & ->).
      assert (In (name, heading name ++ concat texts) (map (fun '(name, texts) => (name, heading name ++ concat texts)) (before ++ (name, texts) :: after))) as Hf.
      { apply in_map_iff. exists (name, texts). split; [reflexivity|exact Hi]. }
      destruct (at_cases env before name texts after lines d done Hs Hd Hu) as [E|[(some & -> & Hsome & E)|(rest & -> & Hrest & E)]].
      * left. exact E.
      * right. destruct (upto_filed name _ _ Hsome) as (missing & Em'). rewrite filed_body in Em' by exact Hs. exists (filed name some), missing. split; [exact E|].
        right. rewrite <- Em'. exact Hf.
      * right. exists (heading name ++ concat texts), []. split; [exact E|]. right. rewrite app_nil_r. exact Hf.
Qed.
Print Assumptions C93_beginning.

(** A table is opened only when those before it are complete. *)
Theorem C93_in_order : forall c env out actions d d' ok l1 name1 text1 l2 name2 text2 l3, valid_config c -> sound_graphemes env ->
  main c env = Ret out -> main_actions c env = Ret actions -> runs d actions d' ok ->
  tl (files out) = l1 ++ (name1, text1) :: l2 ++ (name2, text2) :: l3 ->
  content d' name2 <> content d name2 -> content d' name1 = Some text1.
Proof.
  intros c env out actions d d' ok l1 name1 text1 l2 name2 text2 l3 Hc Hg Em Ea Hr El Hne.
  destruct (run_plan c env out actions d d' ok Hc Hg Em Ea Hr) as (tables & lines & done & Hd & Hu & -> & _ & Eo & Ef). rewrite Ef in El.
  destruct (saving env) eqn:Hs; cbn [tl] in El; [|destruct l1; discriminate]. specialize (Hd eq_refl).
  replace (l1 ++ (name1, text1) :: l2 ++ (name2, text2) :: l3) with ((l1 ++ (name1, text1) :: l2) ++ (name2, text2) :: l3) in El by (rewrite <- app_assoc; reflexivity).
  destruct (split_tables _ _ _ _ _ El) as (before & texts2 & after & -> & -> & El1 & _). symmetry in El1.
  destruct (split_tables _ _ _ _ _ El1) as (b1 & texts1 & b2 & -> & -> & _ & _).
  assert (distinct (b1 ++ (name1, texts1) :: b2) /\ name1 <> name2) as [Hd1 Hn12].
  { unfold distinct in *. rewrite map_app in Hd. cbn [map fst] in Hd. apply NoDup_cons_iff in Hd as [Hi Hn]. split.
    - apply NoDup_cons_iff. split; [intros H; apply Hi, in_or_app; left; exact H|]. clear - Hn. revert Hn. generalize (map fst (b1 ++ (name1, texts1) :: b2)). intros l.
      induction l as [|x l IH]; intros Hn; [constructor|]. cbn [app] in Hn. apply NoDup_cons_iff in Hn as [Hx Hn]. constructor; [intros H; apply Hx, in_or_app; left; exact H|apply IH, Hn].
    - intros <-. apply NoDup_remove_2 in Hn. apply Hn, in_or_app. left. rewrite map_app. apply in_or_app. right. left. reflexivity. }
  assert (forall rest, untouched name1 rest = true ->
    content (exec d (before_at env (b1 ++ (name1, texts1) :: b2) ++ Open name2 :: rest)) name1 = Some (heading name1 ++ concat texts1)) as Hdone.
  { intros rest Hrest. unfold before_at. rewrite <- !app_assoc. apply (earlier_complete env _ _ d Hs Hd1 b1 name1 texts1 b2 eq_refl).
    change ([MakeDirectory] ++ Open name2 :: rest) with ([MakeDirectory; Open name2] ++ rest). rewrite untouched_app, Hrest. unfold untouched. cbn [forallb touches].
    rewrite (eqb_other name2 name1) by (intros E; apply Hn12; symmetry; exact E). reflexivity. }
  assert (untouched name1 (body env name2 texts2) = true) as Hbody.
  { unfold body. change (WriteFile name2 (heading name2) :: ?l) with ([WriteFile name2 (heading name2)] ++ l).
    rewrite !untouched_app, untouched_prints by (right; intros E; apply Hn12; symmetry; exact E). unfold untouched. cbn [forallb touches].
    rewrite (eqb_other name2 name1) by (intros E; apply Hn12; symmetry; exact E). reflexivity. }
  assert (untouched name1 (flat_map (block env) after ++ flat_map (print env (bytes "index")) lines) = true) as Hafter.
  { rewrite <- app_assoc in Hd. cbn [app] in Hd.
    destruct (at_facts env b1 name1 texts1 (b2 ++ (name2, texts2) :: after) lines Hs Hd) as (_ & Ha & _).
    rewrite flat_map_app, !untouched_app in Ha. cbn [flat_map] in Ha. rewrite untouched_app in Ha.
    rewrite untouched_app. destruct (untouched name1 (flat_map (block env) after)), (untouched name1 (flat_map (print env (bytes "index")) lines)); try reflexivity;
    rewrite ?andb_false_r in Ha; discriminate. }
  destruct (at_cases env _ name2 texts2 after lines d done Hs Hd Hu) as [E|[(some & -> & Hsome & E)|(rest & -> & Hrest & E)]].
  - contradiction.
  - apply Hdone. exact (upto_untouched _ _ _ Hsome Hbody).
  - apply Hdone. rewrite untouched_app, Hbody. exact (upto_untouched _ _ _ Hrest Hafter).
Qed.
Print Assumptions C93_in_order.

(** The index is emptied before any other file is opened, and stays empty until
    every table is complete. *)
Theorem C93_index : forall c env out actions d d' ok, valid_config c -> sound_graphemes env ->
  main c env = Ret out -> main_actions c env = Ret actions -> runs d actions d' ok ->
  (forall name, content d' name <> content d name -> exists got, content d' (bytes "index") = Some got) /\
  (forall b got, content d' (bytes "index") <> content d (bytes "index") -> content d' (bytes "index") = Some (b :: got) ->
   forall name text, In (name, text) (tl (files out)) -> content d' name = Some text).
Proof.
  intros c env out actions d d' ok Hc Hg Em Ea Hr.
  destruct (run_plan c env out actions d d' ok Hc Hg Em Ea Hr) as (tables & lines & done & Hd & Hu & -> & _ & Eo & Ef). rewrite Ef. clear Ef Eo Ea Em Hr.
  destruct (saving env) eqn:Hs.
  - specialize (Hd eq_refl). cbn [tl].
    destruct (index_cases env tables lines d done Hs Hd Hu) as [[->| ->]|[(some & -> & _ & E)|(rest & -> & Hrest & E)]].
    + split; intros; exfalso; match goal with H : _ <> _ |- _ => apply H end; reflexivity.
    + split; intros; exfalso; match goal with H : _ <> _ |- _ => apply H end; reflexivity.
    + split; [intros name _; exists []; exact E|]. intros b got _ E' name text _. rewrite E in E'. discriminate.
    + split; [intros name _; eexists; exact E|]. intros b got _ _ name text Hin.
      apply in_map_iff in Hin as ([n texts] & En & Hin). injection En as <- <-. apply in_split in Hin as (before & after & ->).
      apply (earlier_complete env _ _ d Hs Hd before n texts after eq_refl). apply (upto_untouched _ _ _ Hrest).
      destruct (at_facts env before n texts after lines Hs Hd) as (_ & Ha & _). rewrite untouched_app in Ha. apply andb_true_iff in Ha as [_ Ha]. exact Ha.
  - assert (forall name, content (exec d done) name = content d name) as Hsame by (intros name; apply exec_untouched, (upto_untouched _ _ _ Hu), plan_not_saving, Hs).
    split; intros; exfalso; match goal with H : _ <> _ |- _ => apply H end; apply Hsame.
Qed.
Print Assumptions C93_index.

Lemma body_ahead env name texts some : saving env = true -> upto some (body env name texts) ->
  (exists missing, heading name = filed name some ++ missing) \/
  (exists shown more, filed name some = heading name ++ shown /\ printed some = shown ++ more).
Proof.
  intros Hs H. unfold body in H. inversion H; subst.
  - left. exists (heading name). reflexivity.
  - right. match goal with H : upto ?x (_ ++ [Print newline]) |- _ => rename x into rest; rename H into Hr end.
    exists (filed name rest). assert (filed name (WriteFile name (heading name) :: rest) = heading name ++ filed name rest) as ->.
    { unfold filed. cbn [flat_map filed_by]. rewrite eqb_refl. reflexivity. }
    assert (printed (WriteFile name (heading name) :: rest) = printed rest) as -> by reflexivity.
    destruct (upto_app _ _ _ Hr) as [Hl|(more & -> & Hm)].
    + destruct (prints_ahead _ _ _ _ Hs Hl) as (more & E). exists more. split; [reflexivity|exact E].
    + exists (printed more). split; [reflexivity|]. rewrite printed_app, filed_app, printed_prints, filed_prints by exact Hs.
      replace (filed name more) with (@nil N); [rewrite app_nil_r; reflexivity|]. destruct (upto_filed name _ _ Hm) as (missing & E). cbn in E.
      destruct (filed name more); [reflexivity|discriminate].
  - match goal with H : part _ _ |- _ => destruct H as (got & missing & E & ->) end. left. exists missing. unfold filed. cbn [flat_map filed_by]. rewrite eqb_refl, app_nil_r. exact E.
Qed.

(** What is in a table's file after the heading has been printed, and so has
    what is in the index. *)
Theorem C93_printed_first : forall c env out actions d d' ok name got, valid_config c -> sound_graphemes env ->
  main c env = Ret out -> main_actions c env = Ret actions -> runs d actions d' ok ->
  content d' name <> content d name -> content d' name = Some got ->
  (name = bytes "index" -> exists before after, output d' = output d ++ before ++ got ++ after) /\
  (name <> bytes "index" ->
   (exists missing, bytes "# " ++ name ++ [0x0A; 0x0A] = got ++ missing) \/
   exists shown before after, got = bytes "# " ++ name ++ [0x0A; 0x0A] ++ shown /\ output d' = output d ++ before ++ shown ++ after).
Proof.
  intros c env out actions d d' ok name got Hc Hg Em Ea Hr Hne Eg.
  destruct (run_plan c env out actions d d' ok Hc Hg Em Ea Hr) as (tables & lines & done & Hd & Hu & -> & _ & Eo & Ef). clear Ef Eo Ea Em Hr.
  destruct (saving env) eqn:Hs; [|exfalso; apply Hne, exec_untouched, (upto_untouched _ _ _ Hu), plan_not_saving, Hs]. specialize (Hd eq_refl). split.
  - intros ->. destruct (index_cases env tables lines d done Hs Hd Hu) as [[->| ->]|[(some & -> & _ & E)|(rest & -> & Hrest & E)]].
    + exfalso. apply Hne. reflexivity.
    + exfalso. apply Hne. reflexivity.
    + rewrite E in Eg. injection Eg as <-. exists [], (printed ([MakeDirectory; Open (bytes "index")] ++ some)). rewrite exec_output. reflexivity.
    + rewrite E in Eg. injection Eg as <-. destruct (prints_ahead _ _ _ _ Hs Hrest) as (more & Ep).
      exists (printed (open_if_saving env (bytes "index") ++ flat_map (block env) tables)), more. rewrite exec_output, !printed_app, Ep, <- !app_assoc. reflexivity.
  - intros Hn. assert (In name (bytes "index" :: map fst tables)) as Hin.
    { destruct (in_dec (list_eq_dec N.eq_dec) name (bytes "index" :: map fst tables)) as [Hin|Hx]; [exact Hin|].
      exfalso. apply Hne, exec_untouched, (upto_untouched _ _ _ Hu), other_name, Hx. }
    destruct Hin as [Hx|Hin]; [exfalso; apply Hn; symmetry; exact Hx|].
    apply in_map_iff in Hin as ([n texts] & E & Hin). cbn [fst] in E. subst n. apply in_split in Hin as (before & after & ->).
    destruct (at_cases env before name texts after lines d done Hs Hd Hu) as [E|[(some & -> & Hsome & E)|(rest & -> & Hrest & E)]].
    + contradiction.
    + rewrite E in Eg. injection Eg as <-. destruct (body_ahead env name texts some Hs Hsome) as [(missing & Em)|(shown & more & Ef & Ep)].
      * left. exists missing. exact Em.
      * right. exists shown, (printed (before_at env before)), more. split; [rewrite Ef; unfold heading; rewrite <- !app_assoc; reflexivity|].
        rewrite exec_output, printed_app. change (printed (Open name :: some)) with (printed some). rewrite Ep. reflexivity.
    + rewrite E in Eg. injection Eg as <-. right. exists (concat texts), (printed (before_at env before)), (newline ++ printed rest).
      split; [unfold heading; rewrite <- !app_assoc; reflexivity|]. rewrite exec_output, printed_app.
      change (printed (Open name :: body env name texts ++ rest)) with (printed (WriteFile name (heading name) :: (flat_map (print env name) texts ++ [Print newline]) ++ rest)).
      change (printed (WriteFile name (heading name) :: ?l)) with (printed l). rewrite !printed_app, printed_prints, <- !app_assoc. reflexivity.
Qed.
Print Assumptions C93_printed_first.

Lemma runs_to k : forall l d name got missing, nth_error l k = Some (WriteFile name (got ++ missing)) ->
  runs d l (exec d (firstn k l ++ [WriteFile name got])) false.
Proof.
  induction k as [|k IH]; intros l d name got missing E; (destruct l as [|a l]; [discriminate|]); cbn [nth_error firstn app] in *.
  - injection E as ->. apply runs_stop. exists got, missing. split; reflexivity.
  - apply runs_on. exact (IH l (does d a) name got missing E).
Qed.

Lemma begins_with c env actions first line : main_actions c env = Ret actions ->
  preview_actions c env (digit_preview c "nominals::digital::Decimal" Decimal) = Ret (first, line) ->
  exists rest, actions = (open_if_saving env (bytes "index") ++ first) ++ rest.
Proof.
  unfold main_actions, previewed_systems. cbn [each]. intros E Ef. rewrite Ef in E. cbn [obind] in E.
  match type of E with obind (obind ?x _) _ = _ => destruct x as [tables| | |]; try discriminate end. cbn [obind] in E. apply ret_inj in E as <-.
  cbn [flat_map fst]. eexists. rewrite <- !app_assoc. reflexivity.
Qed.

(** The disk is full while the second row of the first table is written: the
    row is printed, the file holds its beginning, the index is empty, and the
    next table's file is as it was. *)
Example C93_case :
  let d := {| output := []; content := fun name => if bytes_eqb name (bytes "LetterLower") then Some (bytes "old") else None |} in
  saving terminal = true /\
  exists actions d', main_actions on_heap terminal = Ret actions /\ runs d actions d' false /\
    content d' (bytes "index") = Some [] /\
    content d' (bytes "Decimal") = Some (bytes "# Decimal" ++ [10; 10] ++ bytes "| #   | Decimal |" ++ [10] ++ bytes "|-----|---------|" ++ [10] ++
      bytes "| 0   | 0       |" ++ [10] ++ bytes "| 1") /\
    output d' = bytes "| #   | Decimal |" ++ [10] ++ bytes "|-----|---------|" ++ [10] ++
      bytes "| 0   | 0       |" ++ [10] ++ bytes "| 1   | 1       |" ++ [10] /\
    content d' (bytes "LetterLower") = Some (bytes "old").
Proof.
  cbv zeta. split; [reflexivity|]. destruct (C93_actions on_heap terminal on_heap_valid terminal_sound) as (actions & E & _).
  destruct (preview_actions on_heap terminal (digit_preview on_heap "nominals::digital::Decimal" Decimal)) as [[first line]| | |] eqn:Ef;
    [|vm_compute in Ef; discriminate..].
  destruct (begins_with _ _ _ _ _ E Ef) as (rest & ->). eexists. eexists. split; [exact E|].
  assert (first = match preview_actions on_heap terminal (digit_preview on_heap "nominals::digital::Decimal" Decimal) with Ret (first, _) => first | _ => [] end) as Hf
    by (rewrite Ef; reflexivity).
  assert (firstn 12 ((open_if_saving terminal (bytes "index") ++ first) ++ rest) = firstn 12 (open_if_saving terminal (bytes "index") ++ first)) as Hn.
  { rewrite firstn_app. replace (12 - length (open_if_saving terminal (bytes "index") ++ first))%nat with 0%nat; [apply app_nil_r|]. rewrite Hf. vm_compute. reflexivity. }
  split.
  - apply (runs_to 12 _ _ (bytes "Decimal") (bytes "| 1") (bytes "   | 1       |" ++ [10])). rewrite nth_error_app1 by (rewrite Hf; apply Nat.ltb_lt; vm_compute; reflexivity).
    rewrite Hf. vm_compute. reflexivity.
  - rewrite Hn, Hf. repeat split; vm_compute; reflexivity.
Qed.
