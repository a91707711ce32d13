(** What the commands print. *)
From Verif Require Import Base Text Types Changes Diff Sql History SpecHistory HistoryLemmas HistoryLoad HistoryProofs
  HistoryRun HistoryClaims Dbh SpecDb DbLemmas DbRun DbSteps DbClaims Expand Project Definitions World Output SpecOutput OutputLemmas.

(** ** Migrations do the same whether or not they print *)
Section effect.
  Context {S : Type} (green dimmed : str -> str) (sem : str -> S -> option S) (ident : str -> option str).
  Lemma uniform_on_table {A} schema (f : vtable -> exec A * vtable) : uniform (@on_table S ident A schema f).
  Proof. apply uniform_step. Qed.
  Lemma uniform_exists schema : uniform (@meta_schema_exists S schema).
  Proof. apply uniform_step. Qed.
  Lemma uniform_ensure schema : uniform (@ensure_initialized S ident schema).
  Proof.
    apply uniform_bind; [apply uniform_exists|]. intros []; [apply uniform_ret|].
    apply uniform_bind; [apply uniform_step|]. intros _. apply uniform_bind; [apply uniform_step|]. intros _. apply uniform_on_table.
  Qed.
  Lemma uniform_current schema : uniform (@db_current_version S ident schema).
  Proof. apply uniform_bind; [apply uniform_exists|]. intros []; [apply uniform_on_table|apply uniform_read]. Qed.
  Lemma uniform_range schema from to : uniform (@get_downward_range S ident schema from to).
  Proof.
    apply uniform_bind; [apply uniform_on_table|]. intros f. apply uniform_bind; [apply uniform_on_table|]. intros t.
    destruct f; [|apply uniform_read]. destruct t; [apply uniform_on_table|apply uniform_read].
  Qed.
  Lemma mirrors_execute_all stmts : mirrors (execute_all_told dimmed sem stmts) (execute_all sem stmts).
  Proof.
    induction stmts as [|stmt stmts IH]; [apply uniform_ret|]. simpl.
    apply mirrors_bind; [apply uniform_unwrap, uniform_step|]. intros _. by apply mirrors_say_then.
  Qed.
  Lemma mirrors_apply d schema names :
    mirrors (apply_versions_told green dimmed sem ident d schema names) (apply_versions sem ident d schema names).
  Proof.
    induction names as [|n names IH]; [apply uniform_ret|]. simpl. apply mirrors_bind; [apply uniform_read|]. intros v.
    apply mirrors_say_then. apply mirrors_bind; [apply mirrors_execute_all|]. intros _.
    apply mirrors_bind; [apply uniform_unwrap, uniform_on_table|]. done.
  Qed.
  Lemma mirrors_revert schema names :
    mirrors (revert_versions_told green dimmed sem ident schema names) (revert_versions sem ident schema names).
  Proof.
    induction names as [|n names IH]; [apply uniform_ret|]. simpl.
    apply mirrors_bind; [apply uniform_unwrap, uniform_on_table|]. intros v.
    apply mirrors_say_then. apply mirrors_bind; [apply mirrors_execute_all|]. intros _.
    apply mirrors_bind; [apply uniform_unwrap, uniform_on_table|]. done.
  Qed.
  Lemma mirrors_up l d schema version :
    mirrors (up_told green dimmed sem ident l d schema version) (up sem ident l d schema version).
  Proof.
    apply mirrors_bind; [apply uniform_read|]. intros h. apply mirrors_bind; [apply uniform_ensure|]. intros _.
    apply mirrors_bind; [apply uniform_current|]. intros c. apply mirrors_bind; [apply uniform_read|]. intros to.
    apply mirrors_say_then, mirrors_say_then. apply mirrors_bind; [apply uniform_read|]. intros [|n names]; [apply mirrors_say|].
    apply mirrors_bind; [apply mirrors_apply|]. intros _. apply uniform_step.
  Qed.
  Lemma mirrors_down schema version :
    mirrors (down_told green dimmed sem ident schema version) (down sem ident schema version).
  Proof.
    apply mirrors_bind; [apply uniform_ensure|]. intros _. apply mirrors_bind; [apply uniform_current|]. intros c.
    apply mirrors_say_then. destruct (match version with Some v => Some v | None => _ end); [|apply mirrors_say].
    apply mirrors_say_then. apply mirrors_bind; [apply uniform_range|]. intros [|n names]; [apply mirrors_say|].
    apply mirrors_bind; [apply mirrors_revert|]. intros _. apply uniform_step.
  Qed.

  (** The same for the database that is left. *)
  Lemma run_told_effect (t : told (session S) ()) m k db r db' out :
    same_effect t m -> run_told t k db = (r, db', out) ->
    exists j r1, j <= k /\ run m j db = (r1, db') /\ (r <> Killed -> r1 = r).
  Proof.
    unfold run_told, run. intros H. destruct (t (k, Session db db)) as [[r0 [k' s']] o] eqn:E. intros [= -> <- <-].
    destruct (H _ _ _ _ _ _ E) as [H1 H2].
    assert (r = Killed \/ r <> Killed) as [Hr|Hr] by (destruct r; auto).
    - destruct (H2 Hr) as (j & r1 & x & Hj & Hm). exists j, r1. rewrite Hm. by split.
    - destruct (H1 Hr) as (j & Hj & x & Hm). exists j, r. by rewrite Hm.
  Qed.
End effect.

(** ** make, stage *)
Lemma uniform_save v : uniform (save_version v).
Proof. apply uniform_bind; [apply uniform_step|]. intros _. apply uniform_step. Qed.
Lemma mirrors_make green l now name : mirrors (make_told green l now name) (make l now name).
Proof.
  apply mirrors_bind; [apply uniform_read|]. intros _. apply mirrors_bind; [apply uniform_read|]. intros v.
  destruct (is_empty v); [apply mirrors_say|]. apply mirrors_say_then. apply mirrors_bind; [apply uniform_save|].
  intros _. apply uniform_save.
Qed.
Lemma mirrors_ext {S A} (t : told S A) m m' : (forall p, m p = m' p) -> mirrors t m -> mirrors t m'.
Proof.
  intros E [H1 H2]. split.
  - intros s. destruct (H1 s) as [r K]. exists r. by rewrite <- E.
  - intros k s r k' s' out K. destruct (H2 _ _ _ _ _ _ K) as [H3 H4]. split.
    + intros Hr. destruct (H3 Hr) as (j & ? & H). exists j. split; [done|]. intros x. by rewrite <- E.
    + intros Hr. destruct (H4 Hr) as (j & r1 & ? & H). exists j, r1. by rewrite <- E.
Qed.
Lemma mirrors_stage_changes green dimmed cs db v :
  mirrors (stage_changes_told green dimmed cs db v) (iread (fun _ : hdir => stage_changes cs db v)).
Proof.
  revert db v. induction cs as [|c cs IH]; intros db v; [apply uniform_ret|]. cbn [stage_changes_told stage_changes].
  apply mirrors_say_then.
  eapply mirrors_ext; [|apply (mirrors_bind _ (iread (fun _ : hdir => unwrap_result (revert c db)))
    _ (fun r => iread (fun _ : hdir => match apply c db with
        | (db', Ok _) => stage_changes cs db' (add_down (render_sql r) (add_up (render_sql c) (add_change c v)))
        | (_, Err e) => Raise (SnapshotFailed e) end))); [apply uniform_read|]].
  - intros p. unfold ibind, iread. by destruct (unwrap_result (revert c db)).
  - intros r. destruct (apply c db) as [db' [[]|e]]; [apply IH|apply uniform_read].
Qed.
Lemma mirrors_stage green dimmed l os ot definitions :
  mirrors (stage_told green dimmed l os ot definitions) (stage l os ot definitions).
Proof.
  apply mirrors_bind; [apply uniform_read|]. intros _. apply mirrors_bind; [apply uniform_read|]. intros t.
  apply mirrors_bind; [apply uniform_read|]. intros s. apply mirrors_bind; [apply uniform_read|]. intros v.
  apply mirrors_say_then.
  apply (mirrors_bind _ (iret ()) _ (fun _ => ibind (iread (fun _ : hdir => stage_changes (compare_diff os ot s t) s v)) save_version)).
  - destruct (decide _); [apply mirrors_say|apply uniform_ret].
  - intros _. apply mirrors_bind; [apply mirrors_stage_changes|]. intros w. apply uniform_save.
Qed.
