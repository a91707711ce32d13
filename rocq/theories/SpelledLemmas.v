(** When every change of a diff is spelled well, and when every change says what it means. *)
From Verif Require Import Base Text Types Changes SpecSnapshot SpecSql SpecLex SpecStatement SpecServer SpecSpelled Sql
  SpecDiff Diff StepLemmas ColumnLemmas DiffSound DiffSame DiffLocal SayLemmas.

(** ** The parts of a diff *)
Definition schema_part (a b : option schema) : list change :=
  match a, b with
  | None, Some t => [new_create_schema t]
  | Some s, None => [new_drop_schema s]
  | _, _ => []
  end.
Definition relation_part (os ot : iter_order) (a b : option relation) : list change :=
  match a, b with
  | None, Some r => diff_relation_create ot r
  | Some r, Some r' => diff_relation_update os ot r r'
  | Some r, None => diff_relation_drop r
  | None, None => []
  end.
Definition function_part (a b : option function) : list change :=
  match a, b with
  | None, Some f => diff_function_create f
  | Some f, Some f' => diff_function_update f f'
  | Some f, None => diff_function_drop f
  | None, None => []
  end.
Definition constraint_part (a b : option constraint) : list change :=
  match a, b with
  | None, Some c => diff_constraint_create c
  | Some c, Some c' => diff_constraint_update c c'
  | Some c, None => diff_constraint_drop c
  | None, None => []
  end.

Lemma Forall_bind_iff {A B : Type} (P : B -> Prop) (f : A -> list B) (l : list A) :
  Forall P (l ≫= f) <-> forall x, x ∈ l -> Forall P (f x).
Proof.
  split; [|apply Forall_bind]. intros H x Hx. rewrite Forall_forall in H. apply Forall_forall.
  intros y Hy. apply H. apply elem_of_list_bind. eauto.
Qed.

Section parts.
  Context (P : change -> Prop) (os ot : iter_order).

  Lemma schema_update_forall n a b : wf_schema n a -> wf_schema n b ->
    (Forall P (diff_schema_update os ot a b) <->
     (forall k, Forall P (relation_part os ot (sc_relations a !! k) (sc_relations b !! k))) /\
     (forall k, Forall P (function_part (sc_functions a !! k) (sc_functions b !! k)))).
  Proof.
    intros (Ha1 & Ha2 & Ha3) (Hb1 & Hb2 & Hb3).
    unfold diff_schema_update, iter_relations, iter_functions. rewrite !Forall_app, !Forall_bind_iff. split.
    - intros (H1 & H2 & H3 & H4). split; intros k.
      + destruct (sc_relations a !! k) as [r|] eqn:Ea.
        * assert (relation_name r = k) as <- by exact (wf_relations_named _ _ Ha2 _ _ Ea).
          pose proof (H2 _ (proj2 (iter_elem _ _ _ (io_relations_perm _ _ _) (wf_relations_named _ _ Ha2) _) Ea)) as Ka. unfold diff_schema_relation_old in Ka. by destruct (sc_relations b !! relation_name r).
        * destruct (sc_relations b !! k) as [r|] eqn:Eb; [|constructor].
          assert (relation_name r = k) as <- by exact (wf_relations_named _ _ Hb2 _ _ Eb).
          pose proof (H1 _ (proj2 (iter_elem _ _ _ (io_relations_perm _ _ _) (wf_relations_named _ _ Hb2) _) Eb)) as Kb. unfold diff_schema_relation_new, has_relation in Kb. by rewrite Ea in Kb.
      + destruct (sc_functions a !! k) as [r|] eqn:Ea.
        * assert (fn_name r = k) as <- by exact (wf_functions_named _ _ Ha3 _ _ Ea).
          pose proof (H4 _ (proj2 (iter_elem _ _ _ (io_functions_perm _ _ _) (wf_functions_named _ _ Ha3) _) Ea)) as Ka. unfold diff_schema_function_old in Ka. by destruct (sc_functions b !! fn_name r).
        * destruct (sc_functions b !! k) as [r|] eqn:Eb; [|constructor].
          assert (fn_name r = k) as <- by exact (wf_functions_named _ _ Hb3 _ _ Eb).
          pose proof (H3 _ (proj2 (iter_elem _ _ _ (io_functions_perm _ _ _) (wf_functions_named _ _ Hb3) _) Eb)) as Kb. unfold diff_schema_function_new, has_function in Kb. by rewrite Ea in Kb.
    - intros [H1 H2]. split_and!; intros r Hr.
      + apply (iter_elem _ _ _ (io_relations_perm _ _ _) (wf_relations_named _ _ Hb2)) in Hr.
        specialize (H1 (relation_name r)). rewrite Hr in H1. unfold diff_schema_relation_new, has_relation.
        by destruct (sc_relations a !! relation_name r).
      + apply (iter_elem _ _ _ (io_relations_perm _ _ _) (wf_relations_named _ _ Ha2)) in Hr.
        specialize (H1 (relation_name r)). rewrite Hr in H1. unfold diff_schema_relation_old.
        by destruct (sc_relations b !! relation_name r).
      + apply (iter_elem _ _ _ (io_functions_perm _ _ _) (wf_functions_named _ _ Hb3)) in Hr.
        specialize (H2 (fn_name r)). rewrite Hr in H2. unfold diff_schema_function_new, has_function.
        by destruct (sc_functions a !! fn_name r).
      + apply (iter_elem _ _ _ (io_functions_perm _ _ _) (wf_functions_named _ _ Ha3)) in Hr.
        specialize (H2 (fn_name r)). rewrite Hr in H2. unfold diff_schema_function_old.
        by destruct (sc_functions b !! fn_name r).
  Qed.
  Lemma schema_create_forall n b : wf_schema n b ->
    (Forall P (diff_schema_create ot b) <-> P (new_create_schema b) /\
     (forall k, Forall P (relation_part os ot None (sc_relations b !! k))) /\
     (forall k, Forall P (function_part None (sc_functions b !! k)))).
  Proof.
    intros (Hb1 & Hb2 & Hb3). unfold diff_schema_create, iter_relations, iter_functions.
    rewrite Forall_cons, Forall_app, !Forall_bind_iff. split.
    - intros (H0 & H1 & H2). split_and!; [done|intros k..].
      + destruct (sc_relations b !! k) as [r|] eqn:Eb; [|constructor].
        assert (relation_name r = k) as <- by exact (wf_relations_named _ _ Hb2 _ _ Eb).
        pose proof (H1 _ (proj2 (iter_elem _ _ _ (io_relations_perm _ _ _) (wf_relations_named _ _ Hb2) _) Eb)) as Kb. done.
      + destruct (sc_functions b !! k) as [r|] eqn:Eb; [|constructor].
        assert (fn_name r = k) as <- by exact (wf_functions_named _ _ Hb3 _ _ Eb).
        pose proof (H2 _ (proj2 (iter_elem _ _ _ (io_functions_perm _ _ _) (wf_functions_named _ _ Hb3) _) Eb)) as Kb. done.
    - intros (H0 & H1 & H2). split_and!; [done|intros r Hr..].
      + apply (iter_elem _ _ _ (io_relations_perm _ _ _) (wf_relations_named _ _ Hb2)) in Hr.
        specialize (H1 (relation_name r)). by rewrite Hr in H1.
      + apply (iter_elem _ _ _ (io_functions_perm _ _ _) (wf_functions_named _ _ Hb3)) in Hr.
        specialize (H2 (fn_name r)). by rewrite Hr in H2.
  Qed.
  Lemma schema_drop_forall n a : wf_schema n a ->
    (Forall P (diff_schema_drop os a) <-> P (new_drop_schema a) /\
     (forall k, Forall P (relation_part os ot (sc_relations a !! k) None)) /\
     (forall k, Forall P (function_part (sc_functions a !! k) None))).
  Proof.
    intros (Hb1 & Hb2 & Hb3). unfold diff_schema_drop, iter_relations, iter_functions.
    rewrite !Forall_app, !Forall_bind_iff, Forall_singleton. split.
    - intros (H1 & H2 & H0). split_and!; [done|intros k..].
      + destruct (sc_relations a !! k) as [r|] eqn:Eb; [|constructor].
        assert (relation_name r = k) as <- by exact (wf_relations_named _ _ Hb2 _ _ Eb).
        pose proof (H1 _ (proj2 (iter_elem _ _ _ (io_relations_perm _ _ _) (wf_relations_named _ _ Hb2) _) Eb)) as Kb. done.
      + destruct (sc_functions a !! k) as [r|] eqn:Eb; [|constructor].
        assert (fn_name r = k) as <- by exact (wf_functions_named _ _ Hb3 _ _ Eb).
        pose proof (H2 _ (proj2 (iter_elem _ _ _ (io_functions_perm _ _ _) (wf_functions_named _ _ Hb3) _) Eb)) as Kb. done.
    - intros (H0 & H1 & H2). split_and!; [intros r Hr..|done].
      + apply (iter_elem _ _ _ (io_relations_perm _ _ _) (wf_relations_named _ _ Hb2)) in Hr.
        specialize (H1 (relation_name r)). by rewrite Hr in H1.
      + apply (iter_elem _ _ _ (io_functions_perm _ _ _) (wf_functions_named _ _ Hb3)) in Hr.
        specialize (H2 (fn_name r)). by rewrite Hr in H2.
  Qed.
  Lemma database_part n (s t : database) : wf_db s -> wf_db t ->
    (Forall P (match db_schemas s !! n, db_schemas t !! n with
               | Some a, Some b => diff_schema_update os ot a b
               | Some a, None => diff_schema_drop os a
               | None, Some b => diff_schema_create ot b
               | None, None => []
               end) <->
     Forall P (schema_part (db_schemas s !! n) (db_schemas t !! n)) /\
     (forall k, Forall P (relation_part os ot (relation_at s n k) (relation_at t n k))) /\
     (forall k, Forall P (function_part (function_at s n k) (function_at t n k)))).
  Proof.
    intros Hs Ht. unfold relation_at, function_at.
    destruct (db_schemas s !! n) as [a|] eqn:Ea, (db_schemas t !! n) as [b|] eqn:Eb; cbn [schema_part mbind option_bind].
    - rewrite (schema_update_forall n a b (Hs _ _ Ea) (Ht _ _ Eb)). split; [|by intros [_ ?]]. intros H. split; [constructor|done].
    - rewrite (schema_drop_forall n a (Hs _ _ Ea)), Forall_singleton. done.
    - rewrite (schema_create_forall n b (Ht _ _ Eb)), Forall_singleton. done.
    - split; [|constructor]. intros _. split_and!; [constructor|intros; constructor..].
  Qed.
  Lemma diff_forall (s t : database) : wf_db s -> wf_db t ->
    (Forall P (compare_diff os ot s t) <->
     (forall n, Forall P (schema_part (db_schemas s !! n) (db_schemas t !! n))) /\
     (forall n k, Forall P (relation_part os ot (relation_at s n k) (relation_at t n k))) /\
     (forall n k, Forall P (function_part (function_at s n k) (function_at t n k)))).
  Proof.
    intros Hs Ht. unfold compare_diff, diff_database_update, iter_schemas. rewrite Forall_app, !Forall_bind_iff.
    transitivity (forall n, Forall P (match db_schemas s !! n, db_schemas t !! n with
               | Some a, Some b => diff_schema_update os ot a b
               | Some a, None => diff_schema_drop os a
               | None, Some b => diff_schema_create ot b
               | None, None => []
               end)).
    - split.
      + intros [H1 H2] n. destruct (db_schemas s !! n) as [a|] eqn:Ea.
        * assert (sc_name a = n) as <- by exact (wf_schemas_named _ Hs _ _ Ea).
          pose proof (H2 _ (proj2 (iter_elem _ _ _ (io_schemas_perm _ _) (wf_schemas_named _ Hs) _) Ea)) as Ka.
          unfold diff_database_old in Ka. by destruct (db_schemas t !! sc_name a).
        * destruct (db_schemas t !! n) as [b|] eqn:Eb; [|constructor].
          assert (sc_name b = n) as <- by exact (wf_schemas_named _ Ht _ _ Eb).
          pose proof (H1 _ (proj2 (iter_elem _ _ _ (io_schemas_perm _ _) (wf_schemas_named _ Ht) _) Eb)) as Kb.
          unfold diff_database_new, has_schema in Kb. by rewrite Ea in Kb.
      + intros H. split; intros sc Hsc.
        * apply (iter_elem _ _ _ (io_schemas_perm _ _) (wf_schemas_named _ Ht)) in Hsc.
          specialize (H (sc_name sc)). rewrite Hsc in H. unfold diff_database_new, has_schema.
          by destruct (db_schemas s !! sc_name sc).
        * apply (iter_elem _ _ _ (io_schemas_perm _ _) (wf_schemas_named _ Hs)) in Hsc.
          specialize (H (sc_name sc)). rewrite Hsc in H. unfold diff_database_old.
          by destruct (db_schemas t !! sc_name sc).
    - setoid_rewrite (fun n => database_part n s t Hs Ht). split.
      + intros H. split_and!; intros n; destruct (H n) as (H1 & H2 & H3); done.
      + intros (H1 & H2 & H3) n. done.
  Qed.

  Lemma table_update_forall n k a b : wf_table n k a -> wf_table n k b ->
    (Forall P (diff_table_update os ot a b) <->
     (forall c, c ∈ tb_columns b -> Forall P (diff_table_column a c)) /\
     (forall c, c ∈ tb_columns a -> Forall P (diff_table_column_drop b c)) /\
     (forall x, Forall P (constraint_part (tb_constraints a !! x) (tb_constraints b !! x)))).
  Proof.
    intros (_ & _ & _ & _ & Ha) (_ & _ & _ & _ & Hb). unfold diff_table_update, iter_constraints.
    rewrite !Forall_app, !Forall_bind_iff. split.
    - intros (H1 & H2 & H3 & H4). split_and!; [done|done|]. intros x.
      destruct (tb_constraints b !! x) as [c|] eqn:Eb.
      + assert (constraint_name c = x) as <- by exact (wf_constraints_named _ _ _ Hb _ _ Eb).
        pose proof (H3 _ (proj2 (iter_elem _ _ _ (io_constraints_perm _ _ _ _) (wf_constraints_named _ _ _ Hb) _) Eb)) as Kb.
        unfold diff_table_constraint in Kb. by destruct (tb_constraints a !! constraint_name c).
      + destruct (tb_constraints a !! x) as [c|] eqn:Ea; [|constructor].
        assert (constraint_name c = x) as <- by exact (wf_constraints_named _ _ _ Ha _ _ Ea).
        pose proof (H4 _ (proj2 (iter_elem _ _ _ (io_constraints_perm _ _ _ _) (wf_constraints_named _ _ _ Ha) _) Ea)) as Ka.
        unfold diff_table_constraint_drop, has_constraint in Ka. by rewrite Eb in Ka.
    - intros (H1 & H2 & H3). split_and!; [done|done|intros c Hc..].
      + apply (iter_elem _ _ _ (io_constraints_perm _ _ _ _) (wf_constraints_named _ _ _ Hb)) in Hc.
        specialize (H3 (constraint_name c)). rewrite Hc in H3. unfold diff_table_constraint.
        by destruct (tb_constraints a !! constraint_name c).
      + apply (iter_elem _ _ _ (io_constraints_perm _ _ _ _) (wf_constraints_named _ _ _ Ha)) in Hc.
        specialize (H3 (constraint_name c)). rewrite Hc in H3. unfold diff_table_constraint_drop, has_constraint.
        by destruct (tb_constraints b !! constraint_name c).
  Qed.
  Lemma table_create_forall n k b : wf_table n k b ->
    (Forall P (diff_table_create ot b) <->
     P (new_create_table b) /\ forall x, Forall P (constraint_part None (tb_constraints b !! x))).
  Proof.
    intros (_ & _ & _ & _ & Hb). unfold diff_table_create, iter_constraints. rewrite Forall_cons, Forall_bind_iff. split.
    - intros [H0 H]. split; [done|]. intros x. destruct (tb_constraints b !! x) as [c|] eqn:Eb; [|constructor].
      assert (constraint_name c = x) as <- by exact (wf_constraints_named _ _ _ Hb _ _ Eb).
      by apply H, (iter_elem _ _ _ (io_constraints_perm _ _ _ _) (wf_constraints_named _ _ _ Hb)).
    - intros [H0 H]. split; [done|]. intros c Hc.
      apply (iter_elem _ _ _ (io_constraints_perm _ _ _ _) (wf_constraints_named _ _ _ Hb)) in Hc.
      specialize (H (constraint_name c)). by rewrite Hc in H.
  Qed.
End parts.

Lemma relation_at_wf (d : database) n k r : wf_db d -> relation_at d n k = Some r -> is_Some (db_schemas d !! n) /\ wf_relation n k r.
Proof.
  intros Hd H. unfold relation_at in H. destruct (db_schemas d !! n) as [sc|] eqn:E; [|done]. split; [by eexists|].
  destruct (Hd _ _ E) as (_ & H2 & _). by apply H2.
Qed.
Lemma function_at_wf (d : database) n k f : wf_db d -> function_at d n k = Some f -> is_Some (db_schemas d !! n) /\ wf_function n k f.
Proof.
  intros Hd H. unfold function_at in H. destruct (db_schemas d !! n) as [sc|] eqn:E; [|done]. split; [by eexists|].
  destruct (Hd _ _ E) as (_ & _ & H3). by apply H3.
Qed.
(** Splits a list of changes that depends on comparisons. *)
Ltac parts := repeat match goal with
  | |- Forall _ (_ ++ _) => apply Forall_app_2
  | |- Forall _ (if ?b then _ else _) => destruct b
  | |- Forall _ [] => constructor
  | |- Forall _ (_ :: _) => constructor
  end.

(** ** Spelling *)
Lemma constraint_part_spelled n k x a b : nameable n -> nameable k ->
  (forall c, a = Some c -> wf_constraint n k x c /\ nameable x) ->
  (forall c, b = Some c -> wf_constraint n k x c /\ nameable x /\ constraint_spelled c) ->
  Forall well_spelled (constraint_part a b).
Proof.
  intros Hn Hk Ha Hb.
  assert (Hd : forall c, a = Some c -> Forall well_spelled (diff_constraint_drop c)).
  { intros c Hc. destruct (Ha c Hc) as [(<- & <- & <-) ?]. destruct c; apply Forall_singleton; done. }
  assert (Hc : forall c, b = Some c -> Forall well_spelled (diff_constraint_create c)).
  { intros c Hc. destruct (Hb c Hc) as [(<- & <- & <-) [? Hs]]. destruct c; apply Forall_singleton; cbn in *; tauto. }
  destruct a as [a|], b as [b|]; cbn [constraint_part]; [|by apply Hd|by apply Hc|constructor].
  specialize (Hd _ eq_refl). specialize (Hc _ eq_refl). destruct (Hb b eq_refl) as [(<- & <- & <-) [? Hs]].
  assert (Forall well_spelled (diff_constraint_drop a ++ diff_constraint_create b)) as Hdc by (by apply Forall_app).
  destruct a as [a|a|a|a], b as [b|b|b|b]; cbn [diff_constraint_update]; try exact Hdc.
  all: unfold diff_primary_key_update, diff_foreign_key_update, diff_unique_update, diff_check_update.
  all: repeat match goal with |- Forall _ (if ?b then _ else _) => destruct b end; try exact Hdc; try apply Forall_nil_2; apply Forall_singleton; cbn in *; tauto.
Qed.
Lemma table_constraints_spelled n k t x : wf_table n k t -> relation_spelled (RTable t) ->
  forall c, tb_constraints t !! x = Some c -> wf_constraint n k x c /\ nameable x /\ constraint_spelled c.
Proof. intros (_ & _ & _ & _ & W) [_ H] c Hc. split; [by apply W|by apply H]. Qed.
Lemma relation_create_spelled ot n k r : nameable n -> nameable k -> wf_relation n k r -> relation_spelled r ->
  Forall well_spelled (diff_relation_create ot r).
Proof.
  intros Hn Hk Hw Hs. destruct r as [t|v|i|q].
  - cbn [diff_relation_create]. apply (table_create_forall well_spelled ot n k t Hw). split.
    + destruct Hw as (W1 & W2 & _), Hs as [H1 H2]. cbn. rewrite W1, W2. split; [done|]. split; [done|]. apply Forall_fmap. exact H1.
    + intros x. apply (constraint_part_spelled n k x); [done|done|done|]. by apply table_constraints_spelled.
  - destruct Hw as [W1 W2]. apply Forall_singleton. cbn in *. by rewrite W1, W2.
  - destruct Hw as [W1 W2], Hs as (S1 & S2 & S3). apply Forall_singleton. cbn in *. rewrite W1, W2. by split_and!.
  - destruct Hw as [W1 W2]. apply Forall_singleton. cbn in *. by rewrite W1, W2.
Qed.
Lemma relation_drop_spelled n k r : nameable n -> nameable k -> wf_relation n k r -> Forall well_spelled (diff_relation_drop r).
Proof.
  intros Hn Hk Hw. destruct r as [t|v|i|q]; [destruct Hw as (W1 & W2 & _)|destruct Hw as [W1 W2]..]; apply Forall_singleton; cbn in *; by rewrite W1, W2.
Qed.
Lemma relation_part_spelled os ot n k a b : nameable n ->
  (forall r, a = Some r -> wf_relation n k r /\ nameable k /\ relation_spelled r) ->
  (forall r, b = Some r -> wf_relation n k r /\ nameable k /\ relation_spelled r) ->
  Forall well_spelled (relation_part os ot a b).
Proof.
  intros Hn Ha Hb.
  destruct a as [a|]; [destruct (Ha a eq_refl) as (Wa & Hk & Sa)|];
    (destruct b as [b|]; [destruct (Hb b eq_refl) as (Wb & Hk' & Sb)|]); cbn [relation_part].
  - assert (Forall well_spelled (diff_relation_drop a ++ diff_relation_create ot b)) as Hdc.
    { apply Forall_app_2; [by apply (relation_drop_spelled n k)|by apply (relation_create_spelled ot n k)]. }
    destruct a as [a|a|a|a], b as [b|b|b|b]; cbn [diff_relation_update]; try exact Hdc.
    + apply (table_update_forall well_spelled os ot n k a b Wa Wb).
      pose proof (fun x => table_constraints_spelled n k a x Wa Sa) as Ca.
      pose proof (fun x => table_constraints_spelled n k b x Wb Sb) as Cb.
      destruct Wa as (_ & _ & _ & Wa & _), Wb as (_ & _ & _ & Wb & _), Sa as [Sa _], Sb as [Sb _].
      rewrite Forall_forall in Wa, Wb, Sa, Sb. split_and!.
      * intros c Hc. destruct (Wb c Hc) as [E1 E2], (Sb c Hc) as (S1 & S2 & S3).
        unfold diff_table_column. destruct (find_column _ _); [unfold diff_column_update|unfold diff_column_create]; parts.
        all: cbn; rewrite E1, E2; by split_and!.
      * intros c Hc. destruct (Wa c Hc) as [E1 E2], (Sa c Hc) as (S1 & _).
        unfold diff_table_column_drop. destruct (has_column _ _); [constructor|]. apply Forall_singleton. cbn. rewrite E1, E2. by split_and!.
      * intros x. apply (constraint_part_spelled n k x); [done|done| |exact (Cb x)]. intros c Hc. destruct (Ca x c Hc) as (? & ? & _). done.
    + unfold diff_view_update. destruct (neqb _ _); [exact Hdc|constructor].
    + unfold diff_index_update. destruct (neqb _ _); [exact Hdc|constructor].
    + unfold diff_sequence_update. destruct (_ || _); [exact Hdc|constructor].
  - by apply (relation_drop_spelled n k).
  - by apply (relation_create_spelled ot n k).
  - constructor.
Qed.
Theorem diff_spelled os ot s t : wf_db s -> wf_db t -> spelled_db s -> spelled_db t ->
  Forall well_spelled (compare_diff os ot s t).
Proof.
  intros Ws Wt (Ss1 & Ss2 & Ss3) (St1 & St2 & St3). apply (diff_forall well_spelled os ot s t Ws Wt). split_and!.
  - intros n. destruct (db_schemas s !! n) as [a|] eqn:Ea, (db_schemas t !! n) as [b|] eqn:Eb;
      [constructor|apply Forall_singleton..|constructor]; cbn.
    + destruct (Ws _ _ Ea) as (-> & _). apply (Ss1 n). by rewrite Ea.
    + destruct (Wt _ _ Eb) as (-> & _). apply (St1 n). by rewrite Eb.
  - intros n k. destruct (relation_at s n k) as [a|] eqn:Ea, (relation_at t n k) as [b|] eqn:Eb; [..|constructor].
    all: apply (relation_part_spelled os ot n k).
    all: try (by apply (Ss1 n); eapply relation_at_wf). all: try (by apply (St1 n); eapply relation_at_wf).
    all: intros r [= <-].
    all: (split; [by eapply (relation_at_wf s)|by apply (Ss2 n)]) || (split; [by eapply (relation_at_wf t)|by apply (St2 n)]).
  - intros n k. destruct (function_at s n k) as [a|] eqn:Ea, (function_at t n k) as [b|] eqn:Eb; cbn [function_part]; [..|constructor].
    + destruct (function_at_wf _ _ _ _ Ws Ea) as [Hn [W1 W2]], (Ss3 _ _ _ Ea) as [Hk _].
      destruct (function_at_wf _ _ _ _ Wt Eb) as [Hn' [W1' W2']], (St3 _ _ _ Eb) as [Hk' (S1 & S2 & S3 & S4)].
      destruct (Ss1 n Hn) as [Hnn _]. unfold diff_function_update. destruct (_ || _); parts; cbn.
      * by rewrite W1, W2.
      * rewrite W1', W2'. by split_and!.
    + destruct (function_at_wf _ _ _ _ Ws Ea) as [Hn [W1 W2]], (Ss3 _ _ _ Ea) as [Hk _]. destruct (Ss1 n Hn) as [Hnn _].
      unfold diff_function_drop. parts. cbn. by rewrite W1, W2.
    + destruct (function_at_wf _ _ _ _ Wt Eb) as [Hn' [W1' W2']], (St3 _ _ _ Eb) as [Hk' (S1 & S2 & S3 & S4)].
      destruct (St1 n Hn') as [Hnn _]. unfold diff_function_create. parts. cbn. rewrite W1', W2'. by split_and!.
Qed.

(** ** What can be said *)
Lemma constraint_create_sayable c : Forall sayable (diff_constraint_create c) <-> constraint_creatable c.
Proof. destruct c; cbn; unfold diff_primary_key_create, diff_foreign_key_create, diff_unique_create, diff_check_create; rewrite Forall_singleton; done. Qed.
Lemma constraint_drop_sayable c : Forall sayable (diff_constraint_drop c).
Proof. destruct c; cbn; unfold diff_primary_key_drop, diff_foreign_key_drop, diff_unique_drop, diff_check_drop; parts; done. Qed.
Lemma constraint_update_cases n k x a b : wf_constraint n k x a -> wf_constraint n k x b ->
  diff_constraint_update a b =
    (if decide (a = b) then [] else if decide (undeferred a = undeferred b)
     then match b with
          | CPrimaryKey c => [new_alter_primary_key c] | CUnique c => [new_alter_unique c]
          | CForeignKey c => [new_alter_foreign_key c] | CCheck c => [new_alter_check c]
          end
     else diff_constraint_drop a ++ diff_constraint_create b).
Proof.
  intros (A1 & A2 & A3) (B1 & B2 & B3).
  destruct a as [a|a|a|a], b as [b|b|b|b];
    try (rewrite !decide_False by (cbn; congruence); reflexivity).
  all: destruct a, b; cbn in *; subst.
  all: unfold diff_primary_key_update, diff_foreign_key_update, diff_unique_update, diff_check_update, neqb; cbn.
  all: repeat match goal with |- context [bool_decide (?u = ?v)] => destruct (decide (u = v)) as [?|?];
    [subst; rewrite (bool_decide_true (v = v)) by done|rewrite (bool_decide_false (u = v)) by done]; cbn end.
  all: repeat case_decide; first [reflexivity|congruence].
Qed.
Lemma constraint_part_sayable n k x a b :
  (forall c, a = Some c -> wf_constraint n k x c) -> (forall c, b = Some c -> wf_constraint n k x c) ->
  (Forall sayable (constraint_part a b) <-> forall c, b = Some c -> constraint_reachable a c).
Proof.
  intros Ha Hb. unfold constraint_reachable. destruct a as [a|], b as [b|]; cbn [constraint_part].
  - rewrite (constraint_update_cases n k x a b (Ha a eq_refl) (Hb b eq_refl)). cbn.
    case_decide as E1; [subst; split; [intros _ c [= <-]; by left|constructor]|]. case_decide as E2.
    + split.
      * intros H c [= <-]. right. left. split; [by rewrite E2|]. destruct b; exact (proj1 (Forall_singleton sayable _) H).
      * intros H. destruct (H b eq_refl) as [[= ?]|[[_ K]|[K _]]]; [done| |by rewrite E2 in K].
        destruct b; apply (proj2 (Forall_singleton sayable _)); exact K.
    + rewrite Forall_app, constraint_create_sayable. split.
      * intros [_ H] c [= <-]. right. right. split; [congruence|done].
      * intros H. split; [apply constraint_drop_sayable|]. destruct (H b eq_refl) as [[= ?]|[[[= K] _]|[_ K]]]; done.
  - split; [done|]. intros _. apply constraint_drop_sayable.
  - rewrite constraint_create_sayable. split.
    + intros H c [= <-]. right. right. done.
    + intros H. destruct (H b eq_refl) as [?|[[? _]|[_ K]]]; done.
  - split; [done|constructor].
Qed.
Lemma function_update_cases n k a b : wf_function n k a -> wf_function n k b ->
  diff_function_update a b = if decide (a = b) then [] else [new_drop_function a; new_create_function b].
Proof.
  intros [A1 A2] [B1 B2]. destruct a, b; cbn in *; subst. unfold diff_function_update, neqb; cbn.
  repeat match goal with |- context [bool_decide (?u = ?v)] => destruct (decide (u = v)) as [?|?];
    [subst; rewrite (bool_decide_true (v = v)) by done|rewrite (bool_decide_false (u = v)) by done]; cbn end.
  all: repeat case_decide; first [reflexivity|congruence].
Qed.

(** ** What can be said of a relation *)
Definition old_column (a : option relation) (c : str) : option column :=
  match a with Some (RTable t) => find_column c (tb_columns t) | _ => None end.
Definition old_constraint (a : option relation) (c : str) : option constraint :=
  match a with Some (RTable t) => tb_constraints t !! c | _ => None end.
Definition relation_sayable (a b : option relation) : Prop :=
  (forall i, b = Some (RIndex i) -> ix_keys i = [] -> exists j, a = Some (RIndex j) /\ ix_keys j = []) /\
  (forall c col, old_column b c = Some col -> is_Some (old_column a c) \/ ~ is_table a /\ col_notnull col = false) /\
  (forall c x, old_constraint b c = Some x -> constraint_reachable (old_constraint a c) x).

Lemma relation_drop_sayable r : Forall sayable (diff_relation_drop r).
Proof. destruct r; apply Forall_singleton; exact I. Qed.
Lemma table_columns_sayable n k t (a : option relation) : wf_table n k t -> ~ is_table a ->
  (sayable (new_create_table t) <->
   forall c col, find_column c (tb_columns t) = Some col -> is_Some (old_column a c) \/ ~ is_table a /\ col_notnull col = false).
Proof.
  intros (_ & _ & Hd & _) Ha. unfold new_create_table. cbn. rewrite Forall_fmap, Forall_forall. split.
  - intros H c col Hc. right. split; [done|]. apply find_column_Some in Hc as [Hc _]. exact (H _ Hc).
  - intros H c Hc. destruct (H (col_name c) c) as [[x K]|[_ K]]; [by apply find_column_elem| |exact K].
    exfalso. destruct a as [[t'|?|?|?]|]; try done. apply Ha. by eexists.
Qed.
Lemma not_table (a : option relation) : ~ is_table a -> forall c, old_constraint a c = None.
Proof. intros H c. destruct a as [[t|?|?|?]|]; try done. exfalso. apply H. by eexists. Qed.
Lemma relation_create_sayable ot n k (a : option relation) r : wf_relation n k r ->
  (forall t, r = RTable t -> ~ is_table a) -> (forall i j, r = RIndex i -> a <> Some (RIndex j)) ->
  (Forall sayable (diff_relation_create ot r) <-> relation_sayable a (Some r)).
Proof.
  intros Hw Ht Hi. unfold relation_sayable. destruct r as [t|v|i|q].
  - specialize (Ht t eq_refl). change (diff_relation_create ot (RTable t)) with (diff_table_create ot t).
    rewrite (table_create_forall sayable ot n k t Hw), (table_columns_sayable n k t a Hw Ht). cbn [old_column old_constraint].
    split.
    + intros [H1 H2]. split_and!; [done|done|]. intros c x Hx. rewrite (not_table a Ht).
      apply (proj1 (constraint_part_sayable n k c None (tb_constraints t !! c) ltac:(done) ltac:(intros ? ?; by apply Hw)) (H2 c) x Hx).
    + intros (_ & H1 & H2). split; [done|]. intros x.
      apply (constraint_part_sayable n k x None (tb_constraints t !! x) ltac:(done) ltac:(intros ? ?; by apply Hw)).
      intros c Hc. rewrite <- (not_table a Ht x). by apply H2.
  - split; [done|]. intros _. by apply Forall_singleton.
  - split.
    + intros H. split_and!; [|done|done]. intros i' [= <-] E. apply (proj1 (Forall_singleton sayable _)) in H. done.
    + intros (H & _). apply Forall_singleton. intros E. destruct (H i eq_refl E) as (j & -> & _). by apply (Hi i j).
  - split; [done|]. intros _. by apply Forall_singleton.
Qed.
Lemma replaced_sayable ot n k a b : wf_relation n k b ->
  (forall t, b = RTable t -> ~ is_table (Some a)) -> (forall i j, b = RIndex i -> a <> RIndex j) ->
  (Forall sayable (diff_relation_drop a ++ diff_relation_create ot b) <-> relation_sayable (Some a) (Some b)).
Proof.
  intros Hw Ht Hi. rewrite Forall_app, (relation_create_sayable ot n k (Some a) b Hw Ht ltac:(naive_solver)).
  pose proof (relation_drop_sayable a). tauto.
Qed.
Lemma relation_part_sayable os ot n k a b :
  (forall r, a = Some r -> wf_relation n k r) -> (forall r, b = Some r -> wf_relation n k r) ->
  (Forall sayable (relation_part os ot a b) <-> relation_sayable a b).
Proof.
  intros Ha Hb. destruct b as [b|].
  2: { split; [intros _; split; [done|by split]|]. intros _. destruct a; [apply relation_drop_sayable|constructor]. }
  destruct a as [a|].
  2: { apply (relation_create_sayable ot n k None b); [by apply Hb| |done]. intros t _ [? ?]. done. }
  specialize (Ha a eq_refl). specialize (Hb b eq_refl). cbn [relation_part].
  destruct a as [a|a|a|a], b as [b|b|b|b]; cbn [diff_relation_update];
    try (apply (replaced_sayable ot n k); [done|intros ? ? [? ?]; done|done]).
  - rewrite (table_update_forall sayable os ot n k a b Ha Hb). unfold relation_sayable. cbn [old_column old_constraint].
    assert (is_table (Some (RTable a))) as Hta by by eexists.
    pose proof Ha as (_ & _ & Hda & _ & Hca). pose proof Hb as (_ & _ & Hdb & _ & Hcb). split.
    + intros (H1 & H2 & H3). split_and!; [done| |].
      * intros c col Hc. left. apply find_column_Some in Hc as [Hc <-]. specialize (H1 col Hc). unfold diff_table_column in H1.
        destruct (find_column (col_name col) (tb_columns a)); [by eexists|]. by apply (proj1 (Forall_singleton sayable _)) in H1.
      * intros c x Hx.
        apply (proj1 (constraint_part_sayable n k c (tb_constraints a !! c) (tb_constraints b !! c)
          ltac:(intros ? ?; by apply Hca) ltac:(intros ? ?; by apply Hcb)) (H3 c) x Hx).
    + intros (_ & H1 & H2). split_and!.
      * intros c Hc. unfold diff_table_column. destruct (H1 (col_name c) c) as [[y ->]|[? _]]; [by apply find_column_elem| |done].
        unfold diff_column_update. parts; exact I.
      * intros c _. unfold diff_table_column_drop. destruct (has_column _ _); [constructor|]. by apply Forall_singleton.
      * intros x. apply (constraint_part_sayable n k x (tb_constraints a !! x) (tb_constraints b !! x)
          ltac:(intros ? ?; by apply Hca) ltac:(intros ? ?; by apply Hcb)). intros c Hc. by apply H2.
  - split; [done|]. intros _. unfold diff_view_update. destruct (neqb _ _); [|constructor]. repeat constructor.
  - unfold relation_sayable, diff_index_update. destruct (neqb (ix_keys a) (ix_keys b)) eqn:E.
    + apply neqb_true in E. split.
      * intros H. split_and!; [|done|done]. intros i [= <-] E'. inversion H as [|? ? _ H']. apply (proj1 (Forall_singleton sayable _)) in H'. done.
      * intros (H & _). repeat constructor. intros E'. destruct (H b eq_refl E') as (j & [= <-] & E''). congruence.
    + apply neqb_false_1 in E. split; [|constructor]. intros _. split_and!; [|done|done].
      intros i [= <-] E'. exists a. split; [done|congruence].
  - split; [done|]. intros _. unfold diff_sequence_update. destruct (_ || _); [|constructor]. repeat constructor.
Qed.

Theorem diff_sayable_iff os ot s t : wf_db s -> wf_db t ->
  (Forall sayable (compare_diff os ot s t) <-> difference_sayable s t).
Proof.
  intros Hs Ht. rewrite (diff_forall sayable os ot s t Hs Ht). unfold difference_sayable.
  assert (Hr : (forall n k, Forall sayable (relation_part os ot (relation_at s n k) (relation_at t n k))) <->
    (forall n k i, relation_at t n k = Some (RIndex i) -> ix_keys i = [] ->
       exists j, relation_at s n k = Some (RIndex j) /\ ix_keys j = []) /\
    (forall n k c col, column_at t n k c = Some col ->
       is_Some (column_at s n k c) \/ ~ table_at s n k /\ col_notnull col = false) /\
    (forall n k c x, constraint_at t n k c = Some x -> constraint_reachable (constraint_at s n k c) x)).
  { transitivity (forall n k, relation_sayable (relation_at s n k) (relation_at t n k)).
    - assert (forall n k, Forall sayable (relation_part os ot (relation_at s n k) (relation_at t n k)) <->
        relation_sayable (relation_at s n k) (relation_at t n k)) as E.
      { intros n k. apply (relation_part_sayable os ot n k); intros r Hr;
          [exact (proj2 (relation_at_wf s n k r Hs Hr))|exact (proj2 (relation_at_wf t n k r Ht Hr))]. }
      split; intros H n k; by apply E.
    - split; [intros H; split_and!; intros n k; apply (H n k)|intros (H1 & H2 & H3) n k; split_and!; [apply H1|apply H2|apply H3]]. }
  assert (Hf : (forall n k, Forall sayable (function_part (function_at s n k) (function_at t n k))) <->
    (forall n f, is_Some (function_at t n f) -> function_at s n f = function_at t n f)).
  { split.
    - intros H n k [b Hb]. specialize (H n k). rewrite Hb in H |- *. destruct (function_at s n k) as [a|] eqn:Ea; cbn [function_part] in H.
      + rewrite (function_update_cases n k a b (proj2 (function_at_wf s n k a Hs Ea)) (proj2 (function_at_wf t n k b Ht Hb))) in H. case_decide as E; [by subst|].
        inversion H as [|? ? _ H']. by apply (proj1 (Forall_singleton sayable _)) in H'.
      + by apply (proj1 (Forall_singleton sayable _)) in H.
    - intros H n k. destruct (function_at t n k) as [b|] eqn:Eb.
      + rewrite (H n k), Eb by (by rewrite Eb). cbn [function_part].
        pose proof (proj2 (function_at_wf t n k b Ht Eb)) as W. rewrite (function_update_cases n k b b W W), decide_True by done. constructor.
      + destruct (function_at s n k); [by apply Forall_singleton|constructor]. }
  assert (Hsc : (forall n, Forall sayable (schema_part (db_schemas s !! n) (db_schemas t !! n))) <->
    (forall n, is_Some (db_schemas s !! n) /\ db_schemas t !! n = None \/
               db_schemas s !! n = None /\ is_Some (db_schemas t !! n) -> simple_name n)).
  { apply forall_proper. intros n. destruct (db_schemas s !! n) as [a|] eqn:Ea, (db_schemas t !! n) as [b|] eqn:Eb; cbn [schema_part].
    - split; [|constructor]. intros _ [[_ ?]|[? _]]; done.
    - rewrite Forall_singleton. destruct (Hs _ _ Ea) as (E & _). cbn. rewrite E. split; [done|]. intros H. apply H. left. by split.
    - rewrite Forall_singleton. destruct (Ht _ _ Eb) as (E & _). cbn. rewrite E. split; [done|]. intros H. apply H. right. by split.
    - split; [|constructor]. intros _ [[[? ?] _]|[_ [? ?]]]; done. }
  rewrite Hr, Hf, Hsc. tauto.
Qed.
(** Every statement for the difference says its change, or the difference cannot be said. *)
Theorem diff_says_iff os ot s t : wf_db s -> wf_db t -> spelled_db s -> spelled_db t ->
  (Forall (fun c => says (render_sql c) c) (compare_diff os ot s t) <-> difference_sayable s t).
Proof.
  intros Ws Wt Ss St. rewrite <- (diff_sayable_iff os ot s t Ws Wt).
  pose proof (diff_spelled os ot s t Ws Wt Ss St) as H. rewrite !Forall_forall in *.
  apply forall_proper. intros c. split; intros K Hc; [apply (says_iff c (H c Hc))|apply (says_iff c (H c Hc))]; by apply K.
Qed.
