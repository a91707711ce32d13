(** Definitions whose difference can be said, and differences that are refused. *)
From Verif Require Import Base Text Types Changes SpecSnapshot SpecMerge SpecDiff Diff DecideSpec DiffOrder SnapshotExamples Sql SpecSql
  History SpecHistory SpecDb SpecLex SpecStatement SpecServer SpecSpelled SpecAccept SpecObey HistoryRun SayLemmas ServerLemmas
  ObeyLemmas DecideServer ServerExamples AcceptExamples SpelledLemmas RefusedLemmas.

Lemma faithful_sayable cs d d' : apply_all cs d = (d', Ok ()) -> faithful d cs -> Forall sayable cs.
Proof.
  revert d. induction cs as [|c cs IH]; intros d Ha H; [constructor|]. destruct H as (H1 & _ & H3). constructor; [done|].
  rewrite apply_all_cons in Ha. destruct (apply c d) as [d1 [[]|e]] eqn:E; [|done]. apply (IH d1); [done|by apply H3].
Qed.
(** The statements of a difference keep a database in step only if it can be said. *)
Theorem in_step_sayable os ot s t d' sv sv' :
  wf_db s -> wf_db t -> spelled_db s -> spelled_db t -> described s sv ->
  apply_all (compare_diff os ot s t) s = (d', Ok ()) ->
  runs obey (render_sql <$> compare_diff os ot s t) sv sv' ->
  (forall pre post d1 sv1, compare_diff os ot s t = pre ++ post -> apply_all pre s = (d1, Ok ()) ->
     runs obey (render_sql <$> pre) sv sv1 -> described d1 sv1) -> difference_sayable s t.
Proof.
  intros Hs Ht Ss St Hd Ha Hr H. apply (diff_sayable_iff os ot s t Hs Ht).
  pose proof (diff_spelled os ot s t Hs Ht Ss St) as Hw.
  apply (faithful_sayable _ s d' Ha). by apply (in_step _ _ _ _ _ Hw Hs Hd Ha Hr).
Qed.

(** ** Deciding *)
Global Instance attributes_spelled_dec c : Decision (attributes_spelled c).
Proof. unfold attributes_spelled. apply _. Defined.
Global Instance constraint_spelled_dec c : Decision (constraint_spelled c).
Proof. destruct c; cbn; apply _. Defined.
Definition check_relation_spelled (r : relation) : Prop :=
  match r with
  | RTable t => Forall attributes_spelled (tb_columns t) /\ map_Forall (fun k c => nameable k /\ constraint_spelled c) (tb_constraints t)
  | r => relation_spelled r
  end.
Lemma check_relation_spelled_iff r : check_relation_spelled r <-> relation_spelled r.
Proof. by destruct r. Qed.
Global Instance check_relation_spelled_dec r : Decision (check_relation_spelled r).
Proof. destruct r; cbn; apply _. Defined.
Global Instance function_spelled_dec f : Decision (function_spelled f).
Proof. unfold function_spelled. apply _. Defined.
Definition check_spelled (d : database) : Prop :=
  map_Forall (fun n sc => (nameable n /\ is_Some (lex n)) /\
    map_Forall (fun k r => nameable k /\ check_relation_spelled r) (sc_relations sc) /\
    map_Forall (fun k f => nameable k /\ function_spelled f) (sc_functions sc)) (db_schemas d).
Lemma check_spelled_iff d : check_spelled d -> spelled_db d.
Proof.
  intros H. split_and!.
  - intros n [sc Hn]. apply (H n sc Hn).
  - intros n k r Hr. unfold relation_at in Hr. destruct (db_schemas d !! n) as [sc|] eqn:E; [|done]. cbn in Hr.
    destruct (H n sc E) as (_ & K & _). destruct (K k r Hr) as [K1 K2]. split; [done|]. by apply check_relation_spelled_iff.
  - intros n k f Hf. unfold function_at in Hf. destruct (db_schemas d !! n) as [sc|] eqn:E; [|done]. cbn in Hf.
    destruct (H n sc E) as (_ & _ & K). by apply K.
Qed.
Global Instance check_spelled_dec d : Decision (check_spelled d).
Proof. unfold check_spelled. apply _. Defined.

(** ** A difference that can be said, and one that cannot *)
Definition sp_added : database := mk_db
  [Schema P
    (mk_relations
      [RTable (Table P (L "users")
         [col (L "users") (L "id") (L "int4") false None;
          col (L "users") (L "name") (L "character varying(20)") false (Some (L "'nobody'::text"));
          col (L "users") (L "email") (L "text") false None]
         (mk_constraints [CUnique (Unique P (L "users") (L "users_key") [L "id"; L "name"] true false);
                          CCheck (Check P (L "users") (L "named") (L "(name <> '')") false false)]));
       RIndex (users_index [L "name"]);
       RView (View P (L "names") (L "SELECT name FROM users"));
       RSequence (counter 100 None)])
    ∅].
Lemma sayable_by s t : wf_db s -> wf_db t -> Forall sayable (compare_diff any_order any_order s t) -> difference_sayable s t.
Proof. intros Hs Ht. apply (diff_sayable_iff any_order any_order s t Hs Ht). Qed.
Lemma not_sayable_by s t : wf_db s -> wf_db t -> ~ Forall sayable (compare_diff any_order any_order s t) -> ~ difference_sayable s t.
Proof. intros Hs Ht H K. by apply H, (diff_sayable_iff any_order any_order s t Hs Ht). Qed.
Lemma ex_difference :
  (wf_db sv_first /\ wf_db sv_second /\ wf_db sp_added) /\ (spelled_db sv_first /\ spelled_db sv_second /\ spelled_db sp_added) /\
  length (compare_diff any_order any_order sv_first sv_second) = 6 /\
  difference_sayable sv_first sv_second /\ ~ difference_sayable sv_first sp_added.
Proof.
  assert (W1 : wf_db sv_first) by by_computation. assert (W2 : wf_db sv_second) by by_computation.
  assert (W3 : wf_db sp_added) by by_computation.
  split; [split; [exact W1|split; [exact W2|exact W3]]|].
  split; [split; [|split]; apply check_spelled_iff; by_computation|].
  split; [vm_compute; reflexivity|]. split.
  - apply (sayable_by _ _ W1 W2). by_computation.
  - apply (not_sayable_by _ _ W1 W3). by_computation.
Qed.
(** The database follows. *)
Lemma ex_following : exists d' sv', described sv_first (sv_at first_changes) /\
  apply_all (compare_diff any_order any_order sv_first sv_second) sv_first = (d', Ok ()) /\
  runs obey (render_sql <$> compare_diff any_order any_order sv_first sv_second) (sv_at first_changes) sv' /\ described d' sv'.
Proof.
  destruct first_described as [Hd Hwf].
  assert (Hf : faithful sv_first (compare_diff any_order any_order sv_first sv_second)) by by_computation.
  assert (Hw : Forall well_spelled (compare_diff any_order any_order sv_first sv_second)) by by_computation.
  assert (Ha : exists d', apply_all (compare_diff any_order any_order sv_first sv_second) sv_first = (d', Ok ())).
  { exists (apply_all (compare_diff any_order any_order sv_first sv_second) sv_first).1. apply applied. vm_compute. reflexivity. }
  assert (Hr : exists sv', runs obey (render_sql <$> compare_diff any_order any_order sv_first sv_second) (sv_at first_changes) sv').
  { apply obeyed. vm_compute. exact I. }
  destruct Ha as [d' Ha], Hr as [sv' Hr]. exists d', sv'.
  split; [exact Hd|]. split; [exact Ha|]. split; [exact Hr|]. exact (runs_faithful _ _ _ _ _ Hw Hwf Hd Ha Hr Hf).
Qed.

(** ** Differences that are refused *)
Lemma ex_refused :
  (wf_db ac_key1 /\ wf_db ac_key2 /\ spelled_db ac_key1 /\ spelled_db ac_key2 /\ difference_sayable ac_key1 ac_key2 /\
   described ac_key1 (sv_at ac_key1_made) /\
   (exists p q, constraint_at ac_key1 P (L "users") (L "users_pkey") = Some (CPrimaryKey p) /\
      constraint_at ac_key2 P (L "users") (L "users_pkey") = None /\
      constraint_at ac_key1 P (L "users") (L "users_id") = None /\
      constraint_at ac_key2 P (L "users") (L "users_id") = Some (CPrimaryKey q))) /\
  (wf_db ac_unique1 /\ wf_db ac_unique2 /\ spelled_db ac_unique1 /\ spelled_db ac_unique2 /\ difference_sayable ac_unique1 ac_unique2 /\
   described ac_unique1 (sv_at ac_unique1_made) /\
   constraint_at ac_unique1 P (L "users") (L "users_key") = Some (ac_unique false) /\
   constraint_at ac_unique2 P (L "users") (L "users_key") = Some (ac_unique true) /\
   ac_unique false <> ac_unique true /\ undeferred (ac_unique false) = undeferred (ac_unique true)).
Proof.
  assert (W1 : wf_db ac_key1) by by_computation. assert (W2 : wf_db ac_key2) by by_computation.
  assert (W3 : wf_db ac_unique1) by by_computation. assert (W4 : wf_db ac_unique2) by by_computation.
  split.
  - split; [exact W1|]. split; [exact W2|]. split; [apply check_spelled_iff; by_computation|]. split; [apply check_spelled_iff; by_computation|].
    split; [apply (sayable_by _ _ W1 W2); by_computation|]. split; [built|].
    eexists _, _. split; [|split; [|split]]; vm_compute; reflexivity.
  - split; [exact W3|]. split; [exact W4|]. split; [apply check_spelled_iff; by_computation|]. split; [apply check_spelled_iff; by_computation|].
    split; [apply (sayable_by _ _ W3 W4); by_computation|]. split; [built|].
    split; [vm_compute; reflexivity|]. split; [vm_compute; reflexivity|]. split; [by_computation|]. vm_compute; reflexivity.
Qed.
