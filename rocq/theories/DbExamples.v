(** Concrete databases: the cases that meet the hypotheses of the migration theorems, and the
    counterexamples. *)
From Verif Require Import Base Text Types Changes SpecSnapshot Diff DecideSpec DiffOrder SnapshotExamples Sql SpecSql History
  SpecHistory HistoryLemmas HistoryLoad HistoryProofs HistoryRun HistoryClaims HistoryExamples Dbh SpecDb DbLemmas DbRun
  DbSteps DbClaims DbChain DbProofs DbNames.
From stdpp Require Import sorting.

(** ** A database that logs statements, and one that undoes them *)
Definition log_sem (stmt : str) (u : list str) : option (list str) := Some (u ++ [stmt]).
(** [+x] puts x on a stack, [-x] takes it off; everything else is an error. *)
Definition stack_sem (stmt : str) (u : list str) : option (list str) :=
  if decide (stmt = L "COMMIT") then Some u else
  match stmt with
  | c :: x => if decide (c = 43%N) then Some (x :: u) else
              if decide (c = 45%N) then match u with y :: u' => if decide (y = x) then Some u' else None | [] => None end
              else None
  | [] => None
  end.
(** Schema names, quoted or not. *)
Definition pg_ident (s : str) : option str :=
  match read_unquoted s with
  | Some (w, []) => Some w
  | _ => match read_quoted s with Some (w, []) => Some w | _ => None end
  end.
Definition podo : str := L "podo".
Lemma podo_ident : pg_ident podo = Some podo.
Proof. vm_compute. reflexivity. Qed.
Definition empty_db : pg (list str) := Pg [] ∅.

Lemma fst_pair {A B : Type} (p : A * B) a : p.1 = a -> p = (a, p.2).
Proof. by destruct p; intros <-. Qed.
Ltac run_to p := exact (fst_pair p _ ltac:(vm_compute; reflexivity)).

(** ** With the history of HistoryExamples *)
Definition log_up (d : hdir) (version : option str) (db : pg (list str)) : exec () * pg (list str) :=
  run (up log_sem pg_ident sorted_listing d podo version) 1000 db.
Definition log_down (version : option str) (db : pg (list str)) : exec () * pg (list str) :=
  run (down log_sem pg_ident podo version) 1000 db.
Definition ex_db1 : pg (list str) := (log_up ex_d5 None empty_db).2.
Definition ex_db2 : pg (list str) := (log_down None ex_db1).2.
Definition table_in (db : pg (list str)) : vtable :=
  match pg_schemas db !! podo with Some (Some t) => t | _ => VTable [] 0 end.
Lemma ex_up : log_up ex_d5 None empty_db = (Ret (), ex_db1).
Proof. run_to (log_up ex_d5 None empty_db). Qed.
Lemma ex_db1_table : has_table ex_db1 podo (table_in ex_db1) /\
  row_name <$> t_rows (table_in ex_db1) = [L "init"; made_name t1 None; made_name t2 (Some (L "users"))] /\
  r_order <$> t_rows (table_in ex_db1) = [1; 2; 3]%Z.
Proof. split; [vm_compute; reflexivity|]. split; vm_compute; reflexivity. Qed.
Lemma ex_down : log_down None ex_db1 = (Ret (), ex_db2).
Proof. run_to (log_down None ex_db1). Qed.
Lemma ex_db2_table : has_table ex_db2 podo (table_in ex_db2) /\
  row_name <$> t_rows (table_in ex_db2) = [L "init"; made_name t1 None].
Proof. split; vm_compute; reflexivity. Qed.
Lemma ex_d5_named : well_named ex_d5 /\ plain_dir ex_d5.
Proof. apply reachable_dir, ex_d5_reachable. Qed.
Lemma empty_db_migrated : migrated log_sem pg_ident podo empty_db.
Proof. by constructor. Qed.
Lemma ex_db1_migrated : migrated log_sem pg_ident podo ex_db1.
Proof.
  eapply migrated_step; [exact empty_db_migrated|]. destruct ex_d5_named as [H1 H2].
  eapply migration_up; [exact H1|exact H2|exact ex_up].
Qed.
Lemma ex_db2_migrated : migrated log_sem pg_ident podo ex_db2.
Proof. eapply migrated_step; [exact ex_db1_migrated|]. eapply migration_down. exact ex_down. Qed.
Lemma ex_db1_distinct t : has_table ex_db1 podo t -> distinct (t_rows t).
Proof. intros H. eapply chained_distinct, migrated_chained; [exact podo_ident|exact ex_db1_migrated|exact H]. Qed.

(** A budget that ends in the middle. *)
Lemma ex_up_killed :
  (run (up log_sem pg_ident sorted_listing ex_d5 podo None) 9 empty_db).1 = Killed /\
  (run (up log_sem pg_ident sorted_listing ex_d5 podo None) 9 empty_db).2 = empty_db.
Proof. split; vm_compute; reflexivity. Qed.

(** Together with the history directory. *)
Lemma made_in_together ns d : made_in ns d ->
  forall allowed, together log_sem pg_ident podo allowed d empty_db.
Proof.
  induction 1 as [k k' d H|ns d d' _ IH Hc _|ns n d d' _ IH Hc _ _]; intros allowed.
  - by eapply together_init.
  - eapply together_command; [apply IH|done].
  - eapply together_command; [apply IH|done].
Qed.
Lemma ex_together : together log_sem pg_ident podo (fun n => n <> L "stage") ex_d5 ex_db2.
Proof.
  eapply together_down; [|exact ex_down]. eapply (together_up _ _ _ _ _ _ _ None); [|discriminate|exact ex_up].
  eapply made_in_together, ex_d5_made_in.
Qed.

(** ** Scripts that can be undone *)
Definition toy (n p : string) : version :=
  Version (L n) (Some (L p)) [] [43%N :: L n; 43%N :: 43%N :: L n] [45%N :: 43%N :: L n; 45%N :: L n].
Definition toy_dir : hdir :=
  list_to_map [(L "init.yaml", Document new_init); (L "a.yaml", Document (toy "a" "init"));
    (L "b.yaml", Document (toy "b" "a")); (L "stage.yaml", Document (new_stage (L "b")))].
Lemma toy_named : well_named toy_dir.
Proof. apply check_well_named. by_computation. Qed.
Lemma check_plain d :
  Forall (fun kv => trim_yaml kv.1 ++ L ".yaml" = kv.1 /\ 47%N ∉ kv.1 /\ is_yaml (trim_yaml kv.1) = false) (map_to_list d) -> plain_dir d.
Proof.
  intros H f (_ & e & He & _). apply elem_of_map_to_list in He.
  destruct (proj1 (Forall_forall _ _) H _ He) as (E & H1 & H2). simpl in *. exists (trim_yaml f). split; [|done]. split.
  - intros K. apply H1. rewrite <- E. apply elem_of_app. by left.
  - intros (m & Em). assert (is_yaml (trim_yaml f) = true) by (apply is_yaml_iff; by exists m). congruence.
Qed.
Lemma toy_plain : plain_dir toy_dir.
Proof. apply check_plain. by_computation. Qed.
Lemma toy_settled u : settled stack_sem u.
Proof. unfold settled, stack_sem. rewrite decide_True by done. eauto. Qed.
Lemma toy_undone n v : stored toy_dir n v -> forall x y, runs stack_sem (v_up v) x y -> runs stack_sem (v_down v) y x.
Proof.
  intros [_ H].
  apply (doc_all_1 (fun v => bool_decide (v = new_init \/ v = toy "a" "init" \/ v = toy "b" "a" \/ v = new_stage (L "b")))) in H;
    [|vm_compute; reflexivity].
  apply bool_decide_eq_true in H as [->|[->|[->| ->]]]; intros x y.
  - intros (u & E & _)%runs_cons_inv. done.
  - intros (u1 & E1 & (u2 & E2 & ->%runs_nil_inv)%runs_cons_inv)%runs_cons_inv.
    injection E1 as <-. injection E2 as <-. econstructor; [reflexivity|]. econstructor; [reflexivity|]. constructor.
  - intros (u1 & E1 & (u2 & E2 & ->%runs_nil_inv)%runs_cons_inv)%runs_cons_inv.
    injection E1 as <-. injection E2 as <-. econstructor; [reflexivity|]. econstructor; [reflexivity|]. constructor.
  - intros ->%runs_nil_inv. constructor.
Qed.
Definition stack_up (version : option str) (db : pg (list str)) : exec () * pg (list str) :=
  run (up stack_sem pg_ident sorted_listing toy_dir podo version) 1000 db.
Definition stack_down (version : option str) (db : pg (list str)) : exec () * pg (list str) :=
  run (down stack_sem pg_ident podo version) 1000 db.
Definition toy_db1 : pg (list str) := (stack_up (Some (L "a")) empty_db).2.
Definition toy_db2 : pg (list str) := (stack_up None toy_db1).2.
Definition toy_db3 : pg (list str) := (stack_down (Some (L "a")) toy_db2).2.
Lemma toy_runs :
  stack_up (Some (L "a")) empty_db = (Ret (), toy_db1) /\ stack_up None toy_db1 = (Ret (), toy_db2) /\
  stack_down (Some (L "a")) toy_db2 = (Ret (), toy_db3) /\ stack_up None toy_db2 = (Ret (), toy_db2).
Proof.
  split; [run_to (stack_up (Some (L "a")) empty_db)|]. split; [run_to (stack_up None toy_db1)|].
  split; [run_to (stack_down (Some (L "a")) toy_db2)|]. vm_compute. reflexivity.
Qed.
Lemma toy_migrated : migrated stack_sem pg_ident podo toy_db1.
Proof.
  eapply migrated_step; [by apply (migrated_fresh _ _ _ empty_db)|].
  eapply migration_up; [exact toy_named|exact toy_plain|]. exact (proj1 toy_runs).
Qed.
Lemma toy_states : pg_user toy_db1 = [L "+a"; L "a"] /\ pg_user toy_db2 = [L "+b"; L "b"; L "+a"; L "a"] /\
  pg_user toy_db3 = pg_user toy_db1 /\ t_rows (table_in toy_db3) = t_rows (table_in toy_db1) /\
  t_next (table_in toy_db3) = (t_next (table_in toy_db1) + 1)%Z.
Proof. repeat split; vm_compute; reflexivity. Qed.

(** ** A failed migration moves the sequence *)
Definition fail_dir : hdir :=
  list_to_map [(L "init.yaml", Document new_init); (L "a.yaml", Document (toy "a" "init"));
    (L "b.yaml", Document (toy "b" "a"));
    (L "c.yaml", Document (Version (L "c") (Some (L "b")) [] [L "nonsense"] []));
    (L "stage.yaml", Document (new_stage (L "c")))].
Lemma refute_exactly_as_before :
  exists (sem : str -> list str -> option (list str)) ident l d schema version k (db : pg (list str)) db',
    run (up sem ident l d schema version) k db = (Abort, db') /\ db' <> db.
Proof.
  exists stack_sem, pg_ident, sorted_listing, fail_dir, podo, None, 1000, toy_db1,
    (run (up stack_sem pg_ident sorted_listing fail_dir podo None) 1000 toy_db1).2.
  split; [run_to (run (up stack_sem pg_ident sorted_listing fail_dir podo None) 1000 toy_db1)|]. intros E. apply (f_equal (fun db => t_next (table_in db))) in E.
  vm_compute in E. done.
Qed.

(** ** Migrating to the stage *)
Definition stage_db : pg (list str) := (log_up ex_d1 (Some (L "stage")) empty_db).2.
Lemma stage_db_up : log_up ex_d1 (Some (L "stage")) empty_db = (Ret (), stage_db).
Proof. run_to (log_up ex_d1 (Some (L "stage")) empty_db). Qed.
Lemma stage_together : together log_sem pg_ident podo (fun _ => True) ex_d2 stage_db.
Proof.
  eapply together_command; [|exact ex_d2_command]. eapply (together_up _ _ _ _ _ _ _ (Some (L "stage"))); [|intros; exact I|exact stage_db_up].
  eapply together_command; [|exact ex_d1_command].
  eapply together_init; [|done]. apply (pair_eta (init_history (4, ∅))). vm_compute. reflexivity.
Qed.
Lemma refute_chain_is_path :
  exists (sem : str -> list str -> option (list str)) ident schema d (db : pg (list str)) t,
    ident schema = Some schema /\ together sem ident schema (fun _ => True) d db /\ has_table db schema t /\
    (forall names to, v_name <$> (r_version <$> t_rows t) = L "init" :: names -> ~ path d (L "init") names to) /\
    (forall l k db', run (up sem ident l d schema None) k db <> (Ret (), db')).
Proof.
  exists log_sem, pg_ident, podo, ex_d2, stage_db, (table_in stage_db).
  split; [exact podo_ident|]. split; [exact stage_together|].
  assert (has_table stage_db podo (table_in stage_db)) as Ht by (vm_compute; reflexivity). split; [exact Ht|].
  pose proof ex_d2_reachable as Hr. pose proof Hr as (made & st & Hlin)%reachable_linear.
  pose proof (linear_stage _ _ _ Hlin) as Hst%get_version_iff.
  assert (v_previous st = Some (made_name t1 None)) as Hprev.
  { destruct Hst as [_ Hst].
    apply (doc_all_1 (fun v => bool_decide (v_name v = L "stage" -> v_previous v = Some (made_name t1 None)))) in Hst;
      [|vm_compute; reflexivity].
    apply bool_decide_eq_true in Hst. apply Hst. by destruct Hlin as (_ & _ & ? & _). }
  split.
  - intros names to E Hp.
    assert (names = [L "stage"]) as ->.
    { assert (v_name <$> (r_version <$> t_rows (table_in stage_db)) = [L "init"; L "stage"]) as K by (vm_compute; reflexivity).
      rewrite K in E. by injection E as <-. }
    clear E. inversion Hp as [v Hv E|ns b c v Hp' Hv Hpr E]; subst.
    destruct ns as [|n ns]; [|apply (f_equal length) in E; rewrite app_length in E; simpl in E; lia].
    simpl in E. injection E as ->. inversion Hp' as [w Hw|ns' b' c' w Hp2 Hw Hpw E2]; subst; [|by destruct ns'].
    rewrite (stored_unique _ _ _ _ Hv Hst) in Hpr. rewrite Hprev in Hpr. injection Hpr as Hpr. vm_compute in Hpr. done.
  - intros l k db' H. destruct (reachable_dir _ Hr) as [Hw Hpl].
    apply (up_inv _ _ _ _ podo_ident) in H as (t & cur & to & names & vs & _ & Hf & Hcur & Hto & Hp & _); [|done|done].
    assert (t = table_in stage_db) as -> by (eapply finds_unique; [exact Hf|by left]). clear Hf.
    assert (row_name cur = L "stage") as Ec.
    { destruct Hcur as [Hin Hmax].
      assert (exists a b, t_rows (table_in stage_db) = [a; b] /\ (r_order a < r_order b)%Z /\ row_name b = L "stage") as (a & b & E & Hab & Hb).
      { eexists _, _. split; [vm_compute; reflexivity|]. split; [vm_compute; reflexivity|vm_compute; reflexivity]. }
      rewrite E in Hin, Hmax. apply elem_of_cons in Hin as [->|Hin].
      - specialize (Hmax b ltac:(right; left)). lia.
      - by apply elem_of_list_singleton in Hin as ->. }
    rewrite Ec in Hp. pose proof Hlin as (Hd & Hl & Hn & _).
    destruct (linked_path_inv _ _ _ _ _ Hd Hl Hp) as (vs1 & u & ws & zs & E & Hu & -> & ->).
    assert (u = st) as ->.
    { eapply (holds_name _ _ _ _ Hd); [rewrite E; apply elem_of_app; right; left|apply elem_of_app; right; left|congruence]. }
    destruct (holds_split_unique _ _ _ _ _ (new_init :: made) [] Hd E eq_refl) as [_ Ews].
    apply app_nil in Ews as [-> ->]. simpl in Hto. apply (linear_is_current _ _ _ _ Hlin) in Hto.
    destruct Hd as (Hnd & _). rewrite fmap_app in Hnd. apply NoDup_app in Hnd as (_ & Hnd & _).
    apply (Hnd (v_name st)); [|by left]. rewrite Hto. apply elem_of_list_fmap_1.
    destruct (last made) as [w|] eqn:El; [right; by apply last_Some_elem_of|left].
Qed.

(** ** Names *)
Lemma refute_schema_name :
  exists schema : str, pg_ident schema <> None /\
    forall (S : Type) (sem : str -> S -> option S) l d version k db r db',
      pg_schemas db !! schema = None -> run (up sem pg_ident l d schema version) k db = (r, db') -> r <> Ret ().
Proof.
  exists (L "Podo"). split; [by vm_compute|]. intros S sem l d version k db r db' Hn H.
  eapply (misread_fails sem pg_ident); [|exact Hn|left; exact H]. vm_compute. done.
Qed.

(** A version name of 129 characters. *)
Definition long_name : str := replicate 113 97%N.
Definition long_d : hdir := (making t1 (Some long_name) ex_d1).2.2.
Lemma long_plain : plain_name (made_name t1 (Some long_name)).
Proof.
  apply made_name_plain; [exact t1_timestamp|]. intros n [= <-]. split; [by_computation|].
  intros [m E]. apply (f_equal reverse) in E. rewrite reverse_app in E. apply (f_equal head) in E. vm_compute in E. done.
Qed.
Lemma long_reachable : reachable long_d.
Proof.
  eapply reachable_command; [exact ex_d1_reachable|].
  apply making_command; [vm_compute; reflexivity|exact long_plain|vm_compute; reflexivity].
Qed.
Definition document (d : hdir) (f : str) : version := match d !! f with Some (Document v) => v | _ => new_init end.
Lemma long_stored : stored long_d (made_name t1 (Some long_name)) (document long_d (made_name t1 (Some long_name) ++ L ".yaml")).
Proof. split; [by_computation|vm_compute; reflexivity]. Qed.
Lemma refute_applicable :
  exists d n v, reachable d /\ stored d n v /\ n <> L "stage" /\
    forall (S : Type) (sem : str -> S -> option S) ident schema l version k db r db',
      ident schema = Some schema -> pg_schemas db !! schema = None -> version = None \/ version = Some n ->
      run (up sem ident l d schema version) k db = (r, db') -> r <> Ret ().
Proof.
  exists long_d, (made_name t1 (Some long_name)), (document long_d (made_name t1 (Some long_name) ++ L ".yaml")).
  split; [exact long_reachable|]. split; [exact long_stored|]. split; [vm_compute; intros H; discriminate H|].
  intros S sem ident schema l version k db r db' Hi Hdb Hv. eapply too_long; [exact Hi|exact long_reachable|exact long_stored| | |exact Hv|exact Hdb].
  - vm_compute; intros H; discriminate H.
  - vm_compute. lia.
Qed.
Lemma ex_names_short : Forall short ex_names.
Proof.
  apply Forall_cons; split; [|apply Forall_cons; split; [|constructor]]; apply made_name_short;
    try exact t1_timestamp; try exact t2_timestamp; try by_computation; simpl; lia.
Qed.
Lemma ex_d5_text n v : stored ex_d5 n v -> Forall (fun s : str => 0%N ∉ s) (v_up v ++ v_down v).
Proof.
  intros [_ H]. apply (doc_all_1 (fun v => bool_decide (Forall (fun s : str => 0%N ∉ s) (v_up v ++ v_down v)))) in H;
    [|vm_compute; reflexivity]. by apply bool_decide_eq_true in H.
Qed.
