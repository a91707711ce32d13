(** The refutations and examples behind PropsDefinition.v. *)
From Verif Require Import Base Text Types Changes SpecSnapshot Node Yaml SpecDefinition Ddl Load SpecMerge
  TextLemmas KeyLemmas YamlLemmas DdlLemmas ParseLemmas SaveLemmas PanicLemmas ContentLemmas
  SequenceLemmas DiffOrder MergeLemmas DecideSpec DecideDefinition SnapshotExamples DefinitionExamples.

Lemma column_expression_refuted :
  exists ty notnull default,
    parse_column_expression (render_column_expression ty notnull default) <> Done (ty, notnull, default).
Proof.
  exists (L "text"), false, (Some [39; 10; 39]%N). intros H%column_round_trip_iff. revert H.
  by_computation.
Qed.

Lemma column_writable_example :
  column_writable (L "character varying(20)") true (Some (L "'a = b!'")) /\
  ~ column_writable (L "text") false (Some [39; 10; 39]%N).
Proof. split; by_computation. Qed.

Lemma named_kind_iff kind name child :
  kind ∈ named_kinds ->
  create_node_from_mapping_key (render_node_key (MkNode kind (Some name) child)) = Done (kind, Some name) <->
  name_writable kind name.
Proof.
  intros H. apply named_key_iff. revert kind H. apply Forall_forall. by_computation.
Qed.

Lemma keys_refuted :
  (exists kind name child, kind ∈ named_kinds /\ name <> [] /\ bare name /\
     create_node_from_mapping_key (render_node_key (MkNode kind (Some name) child)) <> Done (kind, Some name)) /\
  (exists kind child, kind ∈ plain_kinds /\
     create_node_from_mapping_key (render_node_key (MkNode kind None child)) <> Done (kind, None)).
Proof.
  split.
  - exists (L "on"), (L "updates"), None. split; [by_computation|]. split; [done|].
    split; [by_computation|]. vm_compute. discriminate.
  - exists (L "using"), None. split; [by_computation|]. vm_compute. discriminate.
Qed.

Lemma name_writable_example :
  name_writable (L "table") (L "order items") /\ L "table" ∈ named_kinds /\
  ~ name_writable (L "on") (L "Updates") /\ L "primary key" ∈ plain_kinds.
Proof. split; [by_computation|]. split; [by_computation|]. split; by_computation. Qed.

Lemma forest_refuted : exists l, parse_mapping_to_nodes (render_nodes_to_mapping l) <> Done l.
Proof. exists [MkNode (L "table") (Some (L " t")) None]. vm_compute. discriminate. Qed.

Lemma forest_example : forest_writable (node_list g_doc) /\ length (node_list g_doc) = 1.
Proof. split; [|vm_compute; reflexivity]. apply forest_round_trip. vm_compute. reflexivity. Qed.

Lemma constraint_refuted :
  (exists c, (forall s t, c <> CUnique (Unique s t (constraint_name c) [] false false)) /\
     parse_constraint_definition (constraint_schema c) (constraint_table c)
       (render_constraint_definition (constraint_schema c) c) <> Done c) /\
  (exists c, parse_constraint_definition (constraint_schema (CUnique c)) (constraint_table (CUnique c))
     (render_constraint_definition (constraint_schema (CUnique c)) (CUnique c)) <> Done (CUnique c)).
Proof.
  split.
  - exists (CForeignKey (ForeignKey (L "public") (L "t") (L "fk") [L "a"] (L "public") (L "x.y") [L "a"]
       (L "SIMPLE") (L "NO ACTION") (L "NO ACTION") false false)).
    split; [done|]. vm_compute. discriminate.
  - exists (Unique (L "public") (L "t") (L "u") [] false false). vm_compute. discriminate.
Qed.

Lemma constraint_example :
  map_Forall (fun _ c => constraint_schema c = L "public" /\ constraint_table c = L "order items" /\
    constraint_writable (L "public") c) (tb_constraints s_table) /\ size (tb_constraints s_table) = 4.
Proof. split; [by_computation|vm_compute; reflexivity]. Qed.

Lemma sequence_example :
  sequence_writable (Sequence (L "public") (L "ids") (L "int4") (-2) (-100) (-1) (-10) 5 true
    (Some (L "order items")) (Some (L "id"))).
Proof. split; [right; left; reflexivity|]. split; by eexists. Qed.

(** ** Snapshots with one relation *)
Lemma save_one o r :
  save_document o (with_relation r) =
  (n ← render_relation o (L "public") r;
   Done (render_nodes_to_mapping [with_nodes [n] (with_name (L "public") (node_new (L "schema")))])).
Proof.
  unfold save_document, with_relation, iter_schemas. simpl.
  assert (io_schemas o {[L "public" := Schema (L "public") {[relation_name r := r]} ∅]} =
    [(L "public", Schema (L "public") {[relation_name r := r]} ∅)]) as ->.
  { apply Permutation_singleton_r. rewrite io_schemas_perm. by rewrite map_to_list_singleton. }
  simpl. unfold render_schema_definition, iter_relations, iter_functions. simpl.
  assert (io_relations o (L "public") {[relation_name r := r]} = [(relation_name r, r)]) as ->.
  { apply Permutation_singleton_r. rewrite io_relations_perm. by rewrite map_to_list_singleton. }
  assert (io_functions o (L "public") ∅ = []) as ->.
  { apply Permutation_nil_r. rewrite io_functions_perm. by rewrite map_to_list_empty. }
  simpl. by destruct (render_relation o (L "public") r).
Qed.

Lemma no_constraints o p q : io_constraints o p q ∅ = [].
Proof. apply Permutation_nil_r. rewrite io_constraints_perm. by rewrite map_to_list_empty. Qed.
Lemma one_constraint o p q n c : io_constraints o p q {[n := c]} = [(n, c)].
Proof. apply Permutation_singleton_r. rewrite io_constraints_perm. by rewrite map_to_list_singleton. Qed.

Ltac reloads := unfold reload, n_using, n_on_update, n_increment, n_view, n_default, n_dotted;
  intros; rewrite save_one.

Lemma using_fails o o' : exists e, reload o o' n_using = Fail e.
Proof. reloads. fails_now. Qed.
Lemma on_update_panics o o' : reload o o' n_on_update = Panic.
Proof. reloads. panics_now. Qed.
Lemma increment_fails o o' : exists e, reload o o' n_increment = Fail e.
Proof. reloads. fails_now. Qed.
Lemma view_fails o o' : exists e, reload o o' n_view = Fail e.
Proof. reloads. fails_now. Qed.
Lemma default_fails o o' : exists e, reload o o' n_default = Fail e.
Proof.
  reloads. unfold render_relation, render_table_definition, iter_constraints. cbn [tb_constraints].
  rewrite no_constraints. fails_now.
Qed.
Lemma dotted_differs o o' : reload o o' n_dotted <> Done n_dotted.
Proof.
  reloads. unfold render_relation, render_table_definition, iter_constraints. cbn [tb_constraints].
  rewrite one_constraint. intros H. revert H. vm_compute. discriminate.
Qed.

Definition not_saved : list database := [n_default; n_dotted; n_using; n_on_update; n_increment; n_view].

Lemma save_load_refuted :
  length not_saved = 6 /\
  Forall (fun d => wf_db d /\ machine_db d /\ forall o o', reload o o' d <> Done d) not_saved.
Proof.
  split; [reflexivity|].
  assert (forall d, (forall o o', exists e, reload o o' d = Fail e) ->
    forall o o', reload o o' d <> Done d) as Hf.
  { intros d H o o'. destruct (H o o') as [e ->]. done. }
  repeat (constructor; [split; [by_computation|split; [by_computation|]]|]); [..|constructor].
  - apply Hf, default_fails.
  - apply dotted_differs.
  - apply Hf, using_fails.
  - intros o o'. by rewrite on_update_panics.
  - apply Hf, increment_fails.
  - apply Hf, view_fails.
Qed.

Lemma sequence_document_refuted :
  exists d, wf_db d /\ machine_db d /\ (forall n k q, relation_at d n k = Some (RSequence q) -> sequence_writable q) /\
  forall o o', reload o o' d <> Done d.
Proof.
  exists n_increment. split; [by_computation|]. split; [by_computation|]. split.
  - intros n k q. unfold relation_at, n_increment, with_relation. simpl.
    intros (s & Hs & Hr)%bind_Some. apply lookup_singleton_Some in Hs as [_ <-]. simpl in Hr.
    apply lookup_singleton_Some in Hr as [_ [= <-]].
    split; [by right; right|]. split; by intros [].
  - intros o o'. by destruct (increment_fails o o') as [e ->].
Qed.

Lemma index_document_refuted :
  (exists d, wf_db d /\ machine_db d /\ forall o o', exists e, reload o o' d = Fail e) /\
  (exists d, wf_db d /\ machine_db d /\ forall o o', reload o o' d = Panic).
Proof.
  split.
  - exists n_using. split; [by_computation|]. split; [by_computation|]. exact using_fails.
  - exists n_on_update. split; [by_computation|]. split; [by_computation|]. exact on_update_panics.
Qed.

(** ** Documents *)
Lemma no_panic_refuted :
  length p_all = 7 /\ Forall (fun m => forall o, load_document o m = Panic) p_all.
Proof. split; [reflexivity|]. repeat (constructor; [intros o; panics_now|]). constructor. Qed.

Lemma unknown_attributes_refuted :
  exists m, (forall o, exists d, load_document o m = Done d) /\
    forall l, parse_mapping_to_nodes m = Done l -> ~ vetted [] l.
Proof.
  exists u_index. split.
  - assert (load_document any_order u_index = Done u_loaded) as H.
    { unfold u_loaded. assert (failed (load_document any_order u_index) = false) as H1 by (vm_compute; reflexivity).
      assert (panicked (load_document any_order u_index) = false) as H2 by (vm_compute; reflexivity).
      by destruct (load_document any_order u_index). }
    intros o. exists u_loaded. by apply (load_order any_order).
  - intros l Hl. assert (l = node_list u_index) as -> by (unfold node_list; by rewrite Hl). clear Hl.
    match eval vm_compute in (node_list u_index) with ?t => change (node_list u_index) with t end.
    intros [[_ [[_ [H _]] _]%Forall_cons] _]%Forall_cons.
    assert (forall x : str, x ∉ []) as Hn by (intros x; apply not_elem_of_nil).
    specialize (H (Hn _)). revert H. by_computation.
Qed.

Lemma g_doc_loads : exists d, load_document any_order g_doc = Done d.
Proof.
  assert (failed (load_document any_order g_doc) = false) as H1 by (vm_compute; reflexivity).
  assert (panicked (load_document any_order g_doc) = false) as H2 by (vm_compute; reflexivity).
  destruct (load_document any_order g_doc); [by eexists|done|done].
Qed.

Lemma load_text_order_independent read os os' o o' dir dir' :
  relisted dir dir' ->
  load_snapshot (load_yaml_string read o) os dir = load_snapshot (load_yaml_string read o') os' dir'.
Proof.
  intros H. rewrite (load_order_independent (load_yaml_string read o) os os' dir dir' (read_wf read o) H).
  unfold load_snapshot. f_equal. apply imap_ext. intros i c _. by rewrite (read_order read o o').
Qed.

Lemma load_text_exact read os o dir d :
  load_snapshot (load_yaml_string read o) os dir = Some d <->
  exists cs l, definition_files dir cs /\ Some <$> l = load_yaml_string read o <$> cs /\ no_clashes l /\
    wf_db d /\ contains_exactly l d.
Proof. exact (load_snapshot_spec _ os dir d (read_wf read o)). Qed.

(** ** Sequences *)
Definition seq_bounded : node :=
  MkNode (L "sequence") (Some (L "s")) (Some (ChildNodes
    [MkNode (L "maxvalue") None (Some (ChildValue (VNumber (NInteger 0))))])).
Definition seq_down : node :=
  MkNode (L "sequence") (Some (L "s")) (Some (ChildNodes
    [MkNode (L "as") None (Some (ChildValue (VString (L "int2"))));
     MkNode (L "increment") None (Some (ChildValue (VNumber (NInteger (-3)))))])).

Lemma one_bound_refuted :
  exists ctx n q, parse_sequence_definition ctx n = Done q /\ omits (L "minvalue") n /\
    omits (L "start") n /\ ~ start_in_bounds q.
Proof.
  exists (L "public"), seq_bounded. eexists. split; [vm_compute; reflexivity|].
  split; [unfold omits; by_computation|]. split; [unfold omits; by_computation|].
  unfold start_in_bounds. simpl. lia.
Qed.

Lemma seq_down_ok :
  exists q, parse_sequence_definition (L "public") seq_down = Done q /\ sq_increment q = (-3)%Z /\
    omits (L "minvalue") seq_down /\ omits (L "maxvalue") seq_down /\ omits (L "start") seq_down.
Proof.
  eexists. split; [vm_compute; reflexivity|]. split; [reflexivity|].
  split; [|split]; unfold omits; by_computation.
Qed.
