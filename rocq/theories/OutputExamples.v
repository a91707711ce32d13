(** Concrete output: the cases that meet the hypotheses of the theorems about output, and the
    counterexamples. *)
From Verif Require Import Base Text Types Changes SpecSnapshot SpecChange SpecDiff Diff DecideSpec DiffOrder SnapshotExamples Sql SpecSql History
  SpecHistory HistoryLemmas HistoryLoad HistoryProofs HistoryRun HistoryClaims HistoryExamples Dbh SpecDb DbLemmas DbRun
  DbSteps DbClaims DbChain DbProofs DbNames DbExamples Output SpecOutput OutputLemmas OutputProofs OutputTells.

(** Colours as marks. *)
Definition mark_green (s : str) : str := L "<g>" ++ s ++ L "</g>".
Definition mark_red (s : str) : str := L "<r>" ++ s ++ L "</r>".
Definition mark_dimmed (s : str) : str := L "<d>" ++ s ++ L "</d>".

Definition toy_up_told (k : nat) : exec () * pg (list str) * list str :=
  run_told (up_told mark_green mark_dimmed stack_sem pg_ident sorted_listing toy_dir podo None) k empty_db.
Lemma toy_up_output :
  (toy_up_told 1000).1.1 = Ret () /\
  (toy_up_told 1000).2 =
    [L "On database version: init"; L "Applying upward migrations to b:";
     L "  Applying version <g>a</g>"; L "    <d>+a</d>"; L "    <d>++a</d>";
     L "  Applying version <g>b</g>"; L "    <d>+b</d>"; L "    <d>++b</d>"].
Proof. split; vm_compute; reflexivity. Qed.
(** Killed after a statement was executed and before it was printed. *)
Lemma toy_up_killed :
  (toy_up_told 11).1.1 = Killed /\
  (toy_up_told 11).2 =
    [L "On database version: init"; L "Applying upward migrations to b:";
     L "  Applying version <g>a</g>"; L "    <d>+a</d>"].
Proof. split; vm_compute; reflexivity. Qed.
Definition toy_down_told (version : option str) : exec () * pg (list str) * list str :=
  run_told (down_told mark_green mark_dimmed stack_sem pg_ident podo version) 1000 toy_db2.
Lemma toy_down_output :
  (toy_down_told (Some (L "a"))).1.1 = Ret () /\
  (toy_down_told (Some (L "a"))).2 =
    [L "On database version: b"; L "Applying downward migrations to a:";
     L "  Reverting version <g>b</g>"; L "    <d>-+b</d>"; L "    <d>-b</d>"].
Proof. split; vm_compute; reflexivity. Qed.
Lemma toy_db2_distinct t : has_table toy_db2 podo t -> distinct (t_rows t).
Proof.
  intros H. eapply chained_distinct, migrated_chained; [exact podo_ident| |exact H].
  eapply migrated_step; [exact toy_migrated|]. eapply migration_up; [exact toy_named|exact toy_plain|].
  exact (proj1 (proj2 toy_runs)).
Qed.

(** ** A server that refuses to commit *)
Definition refuse_sem (stmt : str) (u : list str) : option (list str) :=
  if decide (stmt = L "COMMIT") then None else log_sem stmt u.
Definition telling (sem : str -> list str -> option (list str)) : exec () * pg (list str) * list str :=
  run_told (up_told mark_green mark_dimmed sem pg_ident sorted_listing ex_d5 podo None) 1000 empty_db.
Lemma triple_eta {A B C : Type} (p : A * B * C) a c : p.1.1 = a -> p.2 = c -> p = (a, p.1.2, c).
Proof. by destruct p as [[? ?] ?]; intros <- <-. Qed.
Lemma refused_same db2 out : telling refuse_sem = (Raise DbError, db2, out) -> same_contents empty_db db2.
Proof. unfold telling. intros H. eapply run_told_careful; [apply tcareful_up|exact H|discriminate]. Qed.
Lemma refute_output :
  exists (sem sem' : str -> list str -> option (list str)) l d db k db1 db2 out,
    (forall stmt, stmt <> L "COMMIT" -> sem stmt = sem' stmt) /\ reachable d /\
    pg_schemas db !! podo = None /\
    run_told (up_told mark_green mark_dimmed sem pg_ident l d podo None) k db = (Ret (), db1, out) /\
    run_told (up_told mark_green mark_dimmed sem' pg_ident l d podo None) k db = (Raise DbError, db2, out) /\
    ~ same_contents db db1 /\ same_contents db db2.
Proof.
  exists log_sem, refuse_sem, sorted_listing, ex_d5, empty_db, 1000, (telling log_sem).1.2, (telling refuse_sem).1.2, (telling log_sem).2.
  assert (telling refuse_sem = (Raise DbError, (telling refuse_sem).1.2, (telling log_sem).2)) as Hrefuse.
  { apply triple_eta; vm_compute; reflexivity. }
  split.
  { clear. intros stmt H. unfold refuse_sem. by destruct (decide (stmt = L "COMMIT")). }
  split; [exact ex_d5_reachable|]. split; [reflexivity|].
  split; [apply (triple_eta (telling log_sem)); [vm_compute; reflexivity|reflexivity]|].
  split; [exact Hrefuse|]. split.
  - clear. intros [K _].
    assert (bool_decide (pg_user empty_db = pg_user (telling log_sem).1.2) = false) as K' by (vm_compute; reflexivity).
    apply bool_decide_eq_false in K'. exact (K' K).
  - exact (refused_same _ _ Hrefuse).
Qed.

(** ** Announced, but not made *)
Definition slash_told : (exec () * (nat * hdir)) * list str :=
  make_told mark_green sorted_listing t1 (Some (L "a/b")) (5, ex_d1).
Lemma refute_made :
  exists d l now name k k' out, reachable d /\ timestamp now /\
    make_told mark_green l now name (k, d) = ((Raise FileError, (k', d)), out) /\
    L "Made version: " ++ mark_green (made_name now name) ∈ out.
Proof.
  exists ex_d1, sorted_listing, t1, (Some (L "a/b")), 5, 3, slash_told.2.
  split; [exact ex_d1_reachable|]. split; [exact t1_timestamp|]. split.
  - change (slash_told = ((Raise FileError, (3, ex_d1)), slash_told.2)).
    assert (slash_told = ((Raise FileError, (3, slash_told.1.2.2)), slash_told.2)) as ->.
    { assert (slash_told.1.1 = Raise FileError /\ slash_told.1.2.1 = 3) as [E1 E2] by (split; vm_compute; reflexivity).
      by destruct slash_told as [[? [? ?]] ?]; simpl in *; subst. }
    cbn [snd]. apply (f_equal (fun d => ((Raise FileError, (3, d)), slash_told.2))). by_computation.
  - assert (bool_decide (L "Made version: " ++ mark_green (made_name t1 (Some (L "a/b"))) ∈ slash_told.2) = true) as K
      by (vm_compute; reflexivity).
    by apply bool_decide_eq_true in K.
Qed.
Lemma make_output :
  (make_told mark_green sorted_listing t1 None (5, ex_d1)).1.1 = Ret () /\
  (make_told mark_green sorted_listing t1 None (5, ex_d1)).2 = [L "Made version: <g>20240101_120000-auto</g>"].
Proof. split; vm_compute; reflexivity. Qed.

(** ** Listed, but not staged *)
Definition broken_stage_told : (exec () * (nat * hdir)) * list str :=
  stage_told mark_green mark_dimmed sorted_listing any_order (order_first P (L "users_name")) (Ret w_indexed) (100, ex_d0).
Lemma refute_listed :
  exists d l os ot t k r k' out line, reachable d /\ wf_db t /\ no_dangling_index t /\
    stage_told mark_green mark_dimmed l os ot (Ret t) (k, d) = ((r, (k', d)), out) /\
    (exists e, r = Raise e) /\ out = [L "Staging changes:"; line].
Proof.
  exists ex_d0, sorted_listing, any_order, (order_first P (L "users_name")), w_indexed, 100,
    broken_stage_told.1.1, broken_stage_told.1.2.1, broken_stage_told.2.
  eexists. split; [exact ex_d0_reachable|]. split; [exact w_indexed_wf|]. split; [exact w_indexed_no_dangling|].
  split; [|split].
  - change (broken_stage_told = ((broken_stage_told.1.1, (broken_stage_told.1.2.1, ex_d0)), broken_stage_told.2)).
    assert (broken_stage_told.1.2.2 = ex_d0) as E by by_computation.
    rewrite <- E at 1. by destruct broken_stage_told as [[? [? ?]] ?].
  - eexists. vm_compute. reflexivity.
  - vm_compute. reflexivity.
Qed.
Definition stage_output : list str :=
  (stage_told mark_green mark_dimmed sorted_listing any_order table_first (Ret ex_target) (100, ex_d2)).2.
Lemma stage_output_length : length stage_output = 21 /\
  (stage_told mark_green mark_dimmed sorted_listing any_order table_first (Ret ex_target) (100, ex_d2)).1.1 = Ret ().
Proof. split; vm_compute; reflexivity. Qed.
