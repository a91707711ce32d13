(** Changes that PostgreSQL refuses, though they apply to the snapshot. *)
From Verif Require Import Base Text Types Changes SpecSnapshot SpecMerge SpecDiff Diff DecideSpec DiffOrder SnapshotExamples Sql SpecSql
  History SpecHistory SpecDb SpecLex SpecStatement SpecServer SpecAccept SpecObey SayLemmas ServerLemmas
  ObeyLemmas DecideServer ServerExamples.

(** The database is as the snapshot describes it; the differences say what they mean, and do
    not carry over. *)
Definition stuck (os ot : iter_order) (s t : database) : Prop :=
  exists sv cs, cs = compare_diff os ot s t /\ wf_db s /\ wf_db t /\ described s sv /\
    Forall well_spelled cs /\ faithful s cs /\ (exists d', apply_all cs s = (d', Ok ()) /\ db_equiv d' t) /\
    ~ exists sv', runs obey (render_sql <$> cs) sv sv'.
(** The same, but they do. *)
Definition moves (os ot : iter_order) (s t : database) : Prop :=
  exists sv sv' cs, cs = compare_diff os ot s t /\ wf_db s /\ wf_db t /\ described s sv /\
    Forall well_spelled cs /\ faithful s cs /\ runs obey (render_sql <$> cs) sv sv' /\ described t sv'.

Lemma refused stmts sv : obey_all stmts sv = None -> ~ exists sv', runs obey stmts sv sv'.
Proof.
  intros H [sv' Hr]. revert H. induction Hr as [|stmt stmts s1 s2 s3 Ho Hr IH]; [done|]. cbn. by rewrite Ho.
Qed.
Lemma built_described cs d : Forall well_spelled cs -> faithful sv_init cs ->
  match apply_all cs sv_init with (d', Ok _) => bool_decide (d' = d) | _ => false end = true ->
  match obey_all (render_sql <$> cs) fresh with Some _ => True | None => False end -> described d (sv_at cs).
Proof.
  intros Hw Hf Ha%applied H. unfold sv_at. destruct (obey_all _ fresh) as [sv|] eqn:E; [|done]. cbn [default].
  apply (runs_faithful cs sv_init fresh); [exact Hw|exact init_wf|exact fresh_described|exact Ha|by apply obey_all_runs|exact Hf].
Qed.
Ltac built := apply built_described; [by_computation|by_computation|vm_compute; reflexivity|vm_compute; exact I].
Lemma stuck_if os ot s t cs : wf_db s -> wf_db t -> described s (sv_at cs) ->
  Forall well_spelled (compare_diff os ot s t) -> faithful s (compare_diff os ot s t) ->
  match apply_all (compare_diff os ot s t) s with (d', Ok _) => bool_decide (d' = t) | _ => false end = true ->
  bool_decide (obey_all (render_sql <$> compare_diff os ot s t) (sv_at cs) = None) = true -> stuck os ot s t.
Proof.
  intros H1 H2 H3 H4 H5 H6%applied H7%bool_decide_eq_true. eexists _, _. split; [done|].
  split; [exact H1|]. split; [exact H2|]. split; [exact H3|]. split; [exact H4|]. split; [exact H5|].
  split; [|by apply refused]. exists t. split; [exact H6|]. apply InvertLemmas.db_equiv_refl.
Qed.
Lemma moves_if os ot s t cs : wf_db s -> wf_db t -> described s (sv_at cs) ->
  Forall well_spelled (compare_diff os ot s t) -> faithful s (compare_diff os ot s t) ->
  match apply_all (compare_diff os ot s t) s with (d', Ok _) => bool_decide (d' = t) | _ => false end = true ->
  match obey_all (render_sql <$> compare_diff os ot s t) (sv_at cs) with Some _ => True | None => False end -> moves os ot s t.
Proof.
  intros H1 H2 H3 H4 H5 H6%applied H7. destruct (obey_all _ _) as [sv'|] eqn:E; [|done]. apply obey_all_runs in E.
  eexists _, sv', _. split; [done|].
  split; [exact H1|]. split; [exact H2|]. split; [exact H3|]. split; [exact H4|]. split; [exact H5|].
  split; [exact E|]. exact (runs_faithful _ s (sv_at cs) t sv' H4 H1 H3 H6 E H5).
Qed.

(** The name of a primary key changes: the new key is added while the old one is still there. *)
Definition ac_users (c : list constraint) : relation :=
  RTable (Table P (L "users") [col (L "users") (L "id") (L "int4") true None] (mk_constraints c)).
Definition ac_key (n : str) : constraint := CPrimaryKey (PrimaryKey P (L "users") n [L "id"] false false).
Definition ac_db (l : list relation) : database := mk_db [Schema P (mk_relations l) ∅].
Definition ac_key1 : database := ac_db [ac_users [ac_key (L "users_pkey")]].
Definition ac_key2 : database := ac_db [ac_users [ac_key (L "users_id")]].
Definition ac_users_made : list change :=
  [CreateTable P (L "users") [CreateTableColumn (L "id") (L "int4") false None];
   AlterColumnSetNotNull P (L "users") (L "id") true].
Definition ac_key1_made : list change := ac_users_made ++ [AddPrimaryKey P (L "users") (L "users_pkey") [L "id"] false false].
(** A key becomes deferrable. *)
Definition ac_unique (def : bool) : constraint := CUnique (Unique P (L "users") (L "users_key") [L "id"] def false).
Definition ac_unique1 : database := ac_db [ac_users [ac_unique false]].
Definition ac_unique2 : database := ac_db [ac_users [ac_unique true]].
Definition ac_unique1_made : list change := ac_users_made ++ [AddUnique P (L "users") (L "users_key") [L "id"] false false].
(** A name moves from one table to another. *)
Definition ac_table (t : str) (c : list constraint) : relation :=
  RTable (Table P t [col t (L "id") (L "int4") false None] (mk_constraints c)).
Definition ac_named (t : str) : constraint := CUnique (Unique P t (L "one_id") [L "id"] false false).
Definition ac_move1 : database := ac_db [ac_table (L "a") [ac_named (L "a")]; ac_table (L "b") []].
Definition ac_move2 : database := ac_db [ac_table (L "a") []; ac_table (L "b") [ac_named (L "b")]].
Definition ac_move1_made : list change :=
  [CreateTable P (L "a") [CreateTableColumn (L "id") (L "int4") false None];
   CreateTable P (L "b") [CreateTableColumn (L "id") (L "int4") false None];
   AddUnique P (L "a") (L "one_id") [L "id"] false false].

Lemma refute_accepted :
  stuck any_order any_order ac_key1 ac_key2 /\ stuck any_order any_order ac_unique1 ac_unique2 /\
  (stuck (order_first P (L "b")) any_order ac_move1 ac_move2 /\ moves (order_first P (L "a")) any_order ac_move1 ac_move2).
Proof.
  split; [|split; [|split]].
  - apply (stuck_if _ _ _ _ ac_key1_made); [by_computation|by_computation|built|by_computation|by_computation|vm_compute; reflexivity..].
  - apply (stuck_if _ _ _ _ ac_unique1_made); [by_computation|by_computation|built|by_computation|by_computation|vm_compute; reflexivity..].
  - apply (stuck_if _ _ _ _ ac_move1_made); [by_computation|by_computation|built|by_computation|by_computation|vm_compute; reflexivity..].
  - apply (moves_if _ _ _ _ ac_move1_made); [by_computation|by_computation|built|by_computation|by_computation|vm_compute; reflexivity|vm_compute; exact I].
Qed.

(** ** For the examples *)
Definition ac_new (n : str) : change := AddUnique P (L "users") n [L "id"] false false.
Lemma ex_accepted :
  wf_db sv_first /\ described sv_first (sv_at first_changes) /\
  (well_spelled (ac_new (L "users_ids")) /\ sayable (ac_new (L "users_ids")) /\
   apply (ac_new (L "users_ids")) sv_first = (after (ac_new (L "users_ids")) sv_first, Ok ()) /\
   accepted (ac_new (L "users_ids")) sv_first) /\
  (* the name of an index *)
  (well_spelled (ac_new (L "users_name")) /\ sayable (ac_new (L "users_name")) /\
   apply (ac_new (L "users_name")) sv_first = (after (ac_new (L "users_name")) sv_first, Ok ()) /\
   ~ accepted (ac_new (L "users_name")) sv_first).
Proof.
  destruct first_described as [Hd Hwf]. split; [exact Hwf|]. split; [exact Hd|]. split.
  - assert (Hw : well_spelled (ac_new (L "users_ids"))) by by_computation.
    assert (Hs : sayable (ac_new (L "users_ids"))) by by_computation.
    assert (Ha := after_ok (ac_new (L "users_ids")) sv_first ltac:(vm_compute; exact I)).
    split; [exact Hw|]. split; [exact Hs|]. split; [exact Ha|].
    apply (obey_accept _ _ _ _ Hw Hs Hwf Hd Ha). rewrite sv_after_some; [done|]. vm_compute. exact I.
  - assert (Hw : well_spelled (ac_new (L "users_name"))) by by_computation.
    assert (Hs : sayable (ac_new (L "users_name"))) by by_computation.
    assert (Ha := after_ok (ac_new (L "users_name")) sv_first ltac:(vm_compute; exact I)).
    split; [exact Hw|]. split; [exact Hs|]. split; [exact Ha|].
    intros K. apply (obey_accept _ _ _ _ Hw Hs Hwf Hd Ha) in K. revert K. clear. intros [x Hx].
    assert (match obey (render_sql (ac_new (L "users_name"))) (sv_at first_changes) with Some _ => false | None => true end = true)
      as K by (vm_compute; reflexivity). by rewrite Hx in K.
Qed.
Lemma ex_acceptable : wf_db sv_init /\ described sv_init fresh /\
  (exists d', apply_all (all_changes sv_versions) sv_init = (d', Ok ())) /\
  length (all_changes sv_versions) = 12 /\ Forall well_spelled (all_changes sv_versions) /\
  faithful sv_init (all_changes sv_versions) /\ acceptable sv_init (all_changes sv_versions) /\
  ~ acceptable ac_key1 (compare_diff any_order any_order ac_key1 ac_key2).
Proof.
  split; [exact init_wf|]. split; [exact fresh_described|]. split.
  { exists (apply_all (all_changes sv_versions) sv_init).1. apply applied. vm_compute. reflexivity. }
  destruct sv_changes as (H1 & H2 & H3 & H4). split; [exact H1|]. split; [exact H2|]. split; [exact H3|]. split; [exact H4|].
  clear. intros K. destruct (proj1 refute_accepted) as (sv & cs & -> & H1 & _ & H2 & H3 & H4 & (d' & H5 & _) & H6).
  apply H6. by apply (acceptable_runs _ _ _ d' H3 H1 H2 H5 H4).
Qed.
