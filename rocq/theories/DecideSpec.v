(** Decision procedures for the specification predicates, used by the worked examples. *)
From Verif Require Import Base Types Changes SpecSnapshot SpecChange SpecDiff.

Ltac dec := apply _.

Global Instance wf_column_dec n k c : Decision (wf_column n k c).
Proof. unfold wf_column. dec. Defined.
Global Instance wf_constraint_dec n k i c : Decision (wf_constraint n k i c).
Proof. unfold wf_constraint. dec. Defined.
Global Instance wf_table_dec n k t : Decision (wf_table n k t).
Proof. unfold wf_table. dec. Defined.
Global Instance wf_relation_dec n k r : Decision (wf_relation n k r).
Proof. destruct r; simpl; dec. Defined.
Global Instance wf_function_dec n k f : Decision (wf_function n k f).
Proof. unfold wf_function. dec. Defined.
Global Instance wf_schema_dec n s : Decision (wf_schema n s).
Proof. unfold wf_schema. dec. Defined.
Global Instance wf_db_dec d : Decision (wf_db d).
Proof. unfold wf_db. dec. Defined.

Global Instance is_table_decision o : Decision (is_table o).
Proof.
  refine (match o with Some (RTable t) => left _ | _ => right _ end);
    try (by intros [? ?]); by exists t.
Defined.
Global Instance table_at_dec d n k : Decision (table_at d n k).
Proof. unfold table_at. dec. Defined.

(** All relations of a snapshot. *)
Definition for_relations (d : database) (P : str -> str -> relation -> Prop) : Prop :=
  map_Forall (fun n sc => map_Forall (fun k r => P n k r) (sc_relations sc)) (db_schemas d).

Lemma for_relations_spec d P :
  for_relations d P <-> forall n k r, relation_at d n k = Some r -> P n k r.
Proof.
  split.
  - intros H n k r Hr. unfold relation_at in Hr.
    destruct (db_schemas d !! n) as [sc|] eqn:E; [|done]. simpl in Hr. by apply (H _ _ E).
  - intros H n sc Hsc k r Hr. apply H. unfold relation_at. by rewrite Hsc.
Qed.

Global Instance for_relations_dec d P `{!forall n k r, Decision (P n k r)} :
  Decision (for_relations d P).
Proof. unfold for_relations. dec. Defined.

Global Instance index_recreate_safe_dec a b i : Decision (index_recreate_safe a b i).
Proof. unfold index_recreate_safe. dec. Defined.
Global Instance index_safe_dec a b k i : Decision (index_safe a b k i).
Proof. unfold index_safe. destruct (a !! k) as [[| | |]|]; dec. Defined.

Definition check_indexes_safe (s t : database) : Prop :=
  for_relations t (fun n k r => match r with
    | RIndex i => index_safe (source_relations s n) (source_relations t n) k i
    | _ => True end).
Global Instance check_indexes_safe_dec s t : Decision (check_indexes_safe s t).
Proof. unfold check_indexes_safe. apply for_relations_dec. intros n k []; dec. Defined.
Lemma check_indexes_safe_1 s t : check_indexes_safe s t -> indexes_safe s t.
Proof.
  intros H n sct k i Hsct Hk. unfold check_indexes_safe in H. rewrite for_relations_spec in H.
  specialize (H n k (RIndex i)). unfold relation_at, source_relations at 2 in H. rewrite Hsct in H.
  by apply H.
Qed.

Definition check_index_attributes (s t : database) : Prop :=
  for_relations s (fun n k r => match r, relation_at t n k with
    | RIndex a, Some (RIndex b) => ix_keys a = ix_keys b -> a = b
    | _, _ => True end).
Global Instance check_index_attributes_dec s t : Decision (check_index_attributes s t).
Proof.
  unfold check_index_attributes. apply for_relations_dec. intros n k r.
  destruct r, (relation_at t n k) as [[]|]; dec.
Defined.
Lemma check_index_attributes_1 s t : check_index_attributes s t -> index_attributes_agree s t.
Proof.
  unfold check_index_attributes. rewrite for_relations_spec. intros H n k a b Ha Hb.
  specialize (H _ _ _ Ha). by rewrite Hb in H.
Qed.

Definition check_new_sequences (s t : database) : Prop :=
  for_relations t (fun n k r => match r with
    | RSequence q => relation_at s n k = Some (RSequence q) \/
        (sq_owned_table q = None /\ sq_owned_column q = None)
    | _ => True end).
Global Instance check_new_sequences_dec s t : Decision (check_new_sequences s t).
Proof. unfold check_new_sequences. apply for_relations_dec. intros n k []; dec. Defined.
Lemma check_new_sequences_1 s t : check_new_sequences s t -> new_sequences_unowned s t.
Proof.
  unfold check_new_sequences. rewrite for_relations_spec. intros H n k q Hq. by apply (H _ _ _ Hq).
Qed.

Definition check_rollback (s t : database) : Prop :=
  for_relations s (fun n k r => match r with
    | RTable tb => ~ table_at t n k -> tb_constraints tb = ∅
    | RSequence q => relation_at t n k <> Some (RSequence q) ->
        sq_owned_table q = None /\ sq_owned_column q = None
    | RIndex i =>
        match relation_at t n k with
        | Some (RIndex j) => ix_keys j = ix_keys i
        | _ => False
        end \/
        ((relation_at s n (ix_table i) = None \/ table_at s n (ix_table i)) /\
         table_at t n (ix_table i))
    | RView _ => True
    end).
Global Instance check_rollback_dec s t : Decision (check_rollback s t).
Proof.
  unfold check_rollback. apply for_relations_dec. intros n k [tb|v|i|q]; try dec.
  destruct (relation_at t n k) as [[]|]; dec.
Defined.
Lemma check_rollback_1 s t : check_rollback s t -> rollback_safe s t.
Proof.
  unfold check_rollback. rewrite for_relations_spec. intros H. split_and!.
  - intros n k tb Htb. apply (H _ _ _ Htb).
  - intros n k q Hq. apply (H _ _ _ Hq).
  - intros n k i Hi Hne. specialize (H _ _ _ Hi). simpl in H. destruct H as [H|H]; [|done].
    destruct (relation_at t n k) as [[j|j|j|j]|]; try done. by destruct (Hne j eq_refl).
Qed.

Global Instance recoverable_dec c d : Decision (recoverable c d).
Proof.
  destruct c; simpl; try dec.
  - destruct (relation_at d schema index) as [[x|x|x|x]|] eqn:E.
    3: destruct (decide (table_at d schema (ix_table x))) as [H|H];
      [left; by intros i [= <-]|right; intros Hx; apply H; by apply Hx].
    all: left; by intros.
  - destruct (db_schemas d !! schema_name) as [sc|] eqn:E; [|left; by intros].
    destruct (decide (sc_relations sc = ∅ /\ sc_functions sc = ∅)) as [H|H];
      [left; by intros ? [= <-]|right; intros Hx; apply H; by apply Hx].
  - destruct (relation_at d schema sequence) as [[x|x|x|x]|] eqn:E.
    4: destruct (decide (sq_owned_table x = None /\ sq_owned_column x = None)) as [H|H];
      [left; by intros i [= <-]|right; intros Hx; apply H; by apply Hx].
    all: left; by intros.
  - destruct (relation_at d schema table) as [[x|x|x|x]|] eqn:E.
    1: destruct (decide (tb_constraints x = ∅)) as [H|H];
      [left; by intros i [= <-]|right; intros Hx; apply H; by apply Hx].
    all: left; by intros.
Defined.

Definition check_no_dangling (d : database) : Prop :=
  for_relations d (fun n k r => match r with RIndex i => table_at d n (ix_table i) | _ => True end).
Global Instance check_no_dangling_dec d : Decision (check_no_dangling d).
Proof. unfold check_no_dangling. apply for_relations_dec. intros n k []; dec. Defined.
Lemma check_no_dangling_1 d : check_no_dangling d -> no_dangling_index d.
Proof.
  unfold check_no_dangling. rewrite for_relations_spec. intros H n k i Hi. apply (H _ _ _ Hi).
Qed.

(** Prove a decidable closed proposition by computation. *)
Ltac by_computation := apply (bool_decide_unpack _); vm_compute; exact I.
