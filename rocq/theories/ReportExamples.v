(** Concrete documents with mistakes. *)
From Verif Require Import Base Text Types Changes SpecSnapshot DiffOrder Node Yaml SpecDefinition Ddl
  Load SpecMerge SnapshotExamples ParseLemmas PanicLemmas DefinitionExamples
  SpecMeaning MeaningLemmas Display SpecReport ReportLemmas.

Definition object (kind name : str) (l : list node) : node := MkNode kind (Some name) (Some (ChildNodes l)).
Definition texty (kind : str) (name : option str) (s : str) : node := MkNode kind name (Some (ChildValue (VString s))).
Definition numbery (kind : str) (name : option str) (z : Z) : node :=
  MkNode kind name (Some (ChildValue (VNumber (NInteger z)))).

(** A table with a column whose expression has no reading, a constraint with two wrong
    attributes and one missing, and a node that does not belong there; a view without a
    query; a function that has a value instead of attributes; a fine sequence. *)
Definition bad_column : node := texty (L "column") (Some (L "a")) (L "int ! !").
Definition bad_constraint : node :=
  object (L "constraint") (L "fk") [texty (L "foreign key") None (L "a"); texty (L "references") (Some (L "x.y.z")) (L "id");
    texty (L "deferrable") None (L "yes")].
Definition bad_table : node :=
  object (L "table") (L "t") [texty (L "column") (Some (L "b")) (L "text"); bad_column; bad_constraint;
    texty (L "check") None (L "a > 0")].
Definition bad_schema : node :=
  object (L "schema") (L "public") [bad_table; object (L "view") (L "v") [];
    object (L "sequence") (L "s") [numbery (L "start") None 7]; texty (L "function") (Some (L "f")) (L "x")].
Definition bad_report : derror :=
  HasErrors (L "schema public")
    [HasErrors (L "table t")
       [HasErrors (L "column a") [InvalidTypeExpression (L "int ! !")];
        HasErrors (L "constraint fk")
          [InvalidTableReference (L "x.y.z"); InvalidTypeAttribute (L "deferrable") (L "boolean");
           AttributeRequired (L "constraint fk") (L "references")];
        UnexpectedNode (L "check")];
     HasErrors (L "view v") [AttributeRequired (L "view v") (L "as")];
     ChildNodesRequired (L "function f")].
Lemma bad_schema_report : schema_report bad_schema bad_report /\ ~ schema_aborts bad_schema.
Proof.
  assert (parse_schema_definition bad_schema = Fail bad_report) as H by (vm_compute; reflexivity).
  assert (parse_schema_definition bad_schema <> Panic) as Hp by congruence.
  split; [by apply schema_Fail|]. by rewrite <- schema_Panic.
Qed.
Lemma bad_schema_text :
  parse_schema_definition bad_schema = Fail bad_report /\
  forall f, display f bad_report = Some (
    L "has errors: schema public" ++ line_break ++ L "has errors: table t" ++ line_break ++
    L "has errors: column a" ++ line_break ++ L "invalid type expression: int ! !" ++ line_break ++
    L "has errors: constraint fk" ++ line_break ++ L "invalid table reference: x.y.z" ++ line_break ++
    L "invalid type attribute: deferrable expected boolean" ++ line_break ++
    L "attribute required: constraint fk references" ++ line_break ++ L "unexpected node: check" ++ line_break ++
    L "has errors: view v" ++ line_break ++ L "attribute required: view v as" ++ line_break ++
    L "child nodes required: function f").
Proof. split; [vm_compute; reflexivity|]. intros f. vm_compute. reflexivity. Qed.
Lemma bad_nodes :
  n_name bad_schema = Some (L "public") /\
  (exists l, below bad_schema = Some l /\ bad_table ∈ l /\
     ~ (exists r, relation_means (L "public") bad_table r) /\ ~ (exists g, function_means (L "public") bad_table g)) /\
  (exists l, below bad_table = Some l /\ bad_column ∈ l /\
     ~ (exists x, column_means (L "public") (L "t") bad_column x) /\
     ~ (exists x, constraint_means (L "public") (L "t") bad_column x)).
Proof.
  assert (~ (exists x, column_means (L "public") (L "t") bad_column x)) as Hcol.
  { intros [x Hx%column_Done]. revert Hx. vm_compute. discriminate. }
  split; [done|]. split.
  - eexists. split; [done|]. split; [left|]. split.
    + intros [r [(_ & t & l & cols & cts & m & Ht & Hl & (_ & H1 & _) & _)|[[E _]|[[E _]|[E _]]]]];
        [|vm_compute in E; discriminate E..].
      injection Ht as <-. injection Hl as <-.
      assert (bad_column ∈ filter (fun c => n_type c = L "column")
        [texty (L "column") (Some (L "b")) (L "text"); bad_column; bad_constraint; texty (L "check") None (L "a > 0")])
        as Hin by (apply elem_of_list_filter; split; [done|right; left]).
      apply elem_of_list_lookup in Hin as [i Hi]. eapply Forall2_lookup_l in H1 as (x & _ & Hx); [|exact Hi].
      apply Hcol. by exists x.
    + intros [g [E _]]. vm_compute in E. discriminate E.
  - eexists. split; [done|]. split; [right; left|]. split; [done|].
    intros [x [E _]]. vm_compute in E. discriminate E.
Qed.

(** An index with a wrong attribute and one that does not belong there. *)
Definition lax_index : node :=
  object (L "index") (L "i") [texty (L "on") (Some (L "t")) (L "a"); texty (L "unique") None (L "yes");
    numbery (L "cache") None 5].
Lemma index_mistakes_ignored :
  exists n l a, n_type n = L "index" /\ below n = Some l /\ a ∈ l /\ n_type a = L "unique" /\ flag a = None /\
    (exists s, parse_schema_definition (object (L "schema") (L "public") [n]) = Done s) /\
    ~ exists e, object_report n e.
Proof.
  exists lax_index. eexists. exists (texty (L "unique") None (L "yes")).
  split; [done|]. split; [done|]. split; [right; left|]. split; [done|]. split; [done|]. split.
  - destruct (parse_schema_definition _) as [s|e|] eqn:E; [by exists s|exfalso; revert E; vm_compute; discriminate..].
  - intros [e He]. apply (sc_step_fail (L "public") ([], [])) in He; [|vm_compute; discriminate].
    revert He. vm_compute. discriminate.
Qed.

(** The same text for a mistake in a table and one outside. *)
Definition in_table : node :=
  object (L "schema") (L "public") [object (L "table") (L "t") [numbery (L "column") (Some (L "a")) 5;
    texty (L "check") None (L "a > 0")]].
Definition out_of_table : node :=
  object (L "schema") (L "public") [object (L "table") (L "t") [numbery (L "column") (Some (L "a")) 5];
    texty (L "check") None (L "a > 0")].
Lemma place_not_shown :
  exists n n' e e', parse_schema_definition n = Fail e /\ parse_schema_definition n' = Fail e' /\ e <> e' /\
    (forall f, display f e = display f e') /\
    (exists c l d, below n = Some [c] /\ below c = Some l /\ d ∈ l /\ entry_report d (UnexpectedNode (label d))) /\
    (exists c d, below n' = Some [c; d] /\ object_report d (UnexpectedNode (label d)) /\
       forall l d', below c = Some l -> d' ∈ l -> ~ entry_report d' (UnexpectedNode (label d'))).
Proof.
  exists in_table, out_of_table. eexists. eexists.
  split; [vm_compute; reflexivity|]. split; [vm_compute; reflexivity|]. split; [done|].
  split; [intros f; vm_compute; reflexivity|]. split.
  - eexists. eexists. exists (texty (L "check") None (L "a > 0")). split; [reflexivity|]. split; [reflexivity|].
    split; [right; left|]. right. right. done.
  - eexists. exists (texty (L "check") None (L "a > 0")). split; [reflexivity|]. split.
    + do 5 right. split; [|done]. apply (bool_decide_unpack _). vm_compute. exact I.
    + intros l d' Hl Hd. injection Hl as <-. apply elem_of_list_singleton in Hd as ->.
      intros He. apply (tb_step_fail [] [] ([], [])) in He. revert He. vm_compute. discriminate.
Qed.

(** The nodes that a report is about. *)
Fixpoint labels (e : derror) : list (option str) :=
  about e :: match e with HasErrors _ l => concat (labels <$> l) | _ => [] end.
Lemma inside_labels x e : inside x e -> about x ∈ labels e.
Proof.
  induction 1 as [e|x n l y Hy Hx IH]; [destruct e; left|]. cbn [labels]. right.
  apply elem_of_list_In, in_concat. exists (labels y). split; [|by apply elem_of_list_In].
  apply elem_of_list_In. by apply elem_of_list_fmap_1.
Qed.
(** Two schemas with mistakes. *)
Definition also_bad : node := object (L "schema") (L "other") [object (L "view") (L "w") []].
Lemma later_not_shown :
  forall o, load_nodes o [bad_schema; also_bad] database_new = Fail bad_report /\
  exists e, schema_report also_bad e /\ ~ schema_aborts also_bad /\ ~ inside e bad_report.
Proof.
  intros o. split; [vm_compute; reflexivity|].
  exists (HasErrors (L "schema other") [HasErrors (L "view w") [AttributeRequired (L "view w") (L "as")]]).
  assert (parse_schema_definition also_bad =
    Fail (HasErrors (L "schema other") [HasErrors (L "view w") [AttributeRequired (L "view w") (L "as")]])) as H
    by (vm_compute; reflexivity).
  assert (parse_schema_definition also_bad <> Panic) as Hp by congruence.
  split; [by apply schema_Fail|]. split; [by rewrite <- schema_Panic|].
  intros Hi%inside_labels. revert Hi. apply (bool_decide_unpack _). vm_compute. exact I.
Qed.
Lemma bad_objects :
  ~ object_aborts (L "public") bad_table /\ (exists e, object_report bad_table e) /\
  ~ (n_type bad_constraint = L "constraint" /\ ~ constraint_safe bad_constraint) /\
  (exists e, entry_report bad_constraint e).
Proof.
  rewrite <- (sc_step_aborts (L "public") ([], [])), <- (tb_step_aborts (L "public") (L "t") ([], [])).
  split; [vm_compute; discriminate|]. split.
  - eexists. apply (sc_step_fail (L "public") ([], [])); [vm_compute; discriminate|]. vm_compute. reflexivity.
  - split; [vm_compute; discriminate|]. eexists. apply (tb_step_fail (L "public") (L "t") ([], [])). vm_compute. reflexivity.
Qed.
