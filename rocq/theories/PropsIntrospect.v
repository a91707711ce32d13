(** C53, C54, C65, C66: introspection. *)
From Verif Require Import Base Types Changes SpecSnapshot Diff Sql History Catalog Introspect
  SpecIntrospect SpecCatalog IntrospectLemmas IntrospectProofs IntrospectExamples CatalogLemmas
  CatalogProofs CatalogShows CatalogSuccess CatalogCoherent CatalogExamples.

(** ** C53: introspection is faithful to the catalogue rows *)

(** One object per row and nothing else, with the row's attributes, in a well-formed snapshot. *)
Theorem C53_snapshot_exact (b : objects) (q : results) (d : database) :
  described b q -> introspect_rows q = Ret d <-> coherent b /\ holds_exactly b d.
Proof. exact (introspect_exact b q d). Qed.
Print Assumptions C53_snapshot_exact.

(** [holds_exactly] leaves one snapshot. *)
Theorem C53_snapshot_determined (b : objects) (d e : database) :
  holds_exactly b d -> holds_exactly b e -> d = e.
Proof. exact (exact_unique b d e). Qed.
Print Assumptions C53_snapshot_determined.

(** It succeeds when there are neither duplicates nor orphans, *)
Theorem C53_succeeds (b : objects) (q : results) :
  described b q -> coherent b -> exists d, introspect_rows q = Ret d /\ holds_exactly b d.
Proof. exact (introspect_coherent b q). Qed.
Print Assumptions C53_succeeds.

(** and reports an error, without panic, when there are. *)
Theorem C53_fails (b : objects) (q : results) :
  described b q -> ~ coherent b -> exists e, introspect_rows q = Raise (SnapshotFailed e).
Proof. exact (introspect_incoherent b q). Qed.
Print Assumptions C53_fails.

Example C53_example :
  described ex_objects ex_results /\ coherent ex_objects /\
  described ex_orphans ex_orphan_results /\ ~ coherent ex_orphans.
Proof.
  exact (conj ex_described (conj ex_coherent (conj ex_orphans_described ex_orphans_incoherent))).
Qed.

(** ** C54: cloning a database captures all its objects

    Full statement: every schema, table, column, constraint, sequence, index, function and
    view of the schemas is in the snapshot.  It is false for views. *)

(** Everything but views is captured: each object of the database is in the snapshot, with
    its attributes, and each object of the snapshot is in the database ([shows]). *)
Theorem C54_captured_partial (p : planner) (c : catalogue) (schemas : list str) (d : database) :
  proper c -> introspect_catalogue p c schemas = Ret d -> shows (typmod_out p) c schemas d.
Proof. exact (introspect_shows p c schemas d). Qed.
Print Assumptions C54_captured_partial.

(** A view leaves no trace, *)
Theorem C54_view_lost (p : planner) (c : catalogue) (schemas : list str) (d : database) (r : class) (n : namespace) :
  proper c -> indexed c -> introspect_catalogue p c schemas = Ret d ->
  placed c schemas r n -> cl_kind r = KView -> relation_at d (ns_name n) (cl_name r) = None.
Proof. exact (introspect_view_lost p c schemas d r n). Qed.
Print Assumptions C54_view_lost.

(** and no snapshot from a database has a view, whatever the queries return. *)
Theorem C54_never_a_view (q : results) (d : database) (n k : str) (v : view) :
  introspect_rows q = Ret d -> relation_at d n k <> Some (RView v).
Proof. exact (introspect_no_view q d n k v). Qed.
Print Assumptions C54_never_a_view.

Theorem C54_captured_refuted :
  exists p c schemas d r n, proper c /\ indexed c /\ introspect_catalogue p c schemas = Ret d /\
    placed c schemas r n /\ cl_kind r = KView /\ forall v, relation_at d (ns_name n) (cl_name r) <> Some (RView v).
Proof. exact ex_view_lost. Qed.
Print Assumptions C54_captured_refuted.

Example C54_example :
  proper ex_catalogue /\ indexed ex_catalogue /\
  exists d, introspect_catalogue ex_planner ex_catalogue ex_schemas = Ret d /\
    shows (typmod_out ex_planner) ex_catalogue ex_schemas d.
Proof.
  exact (conj (ex_proper _ _) (conj ex_catalogue_indexed
    (introspect_succeeds ex_planner _ _ (ex_proper _ _) ex_catalogue_indexed ex_clonable))).
Qed.

(** ** C65: every database can be cloned

    False; the databases that can be cloned are these, exactly. *)
Theorem C65_clones_iff (p : planner) (c : catalogue) (schemas : list str) :
  proper c -> indexed c -> (exists d, introspect_catalogue p c schemas = Ret d) <-> clonable c schemas.
Proof. exact (introspect_succeeds_iff p c schemas). Qed.
Print Assumptions C65_clones_iff.

(** Two functions that share a name. *)
Theorem C65_overloaded_refuted :
  exists p c schemas e, proper c /\ indexed c /\ introspect_catalogue p c schemas = Raise (SnapshotFailed e).
Proof.
  destruct ex_overloaded_fails as [e He].
  exact (ex_intro _ _ (ex_intro _ _ (ex_intro _ _ (ex_intro _ e
    (conj (ex_proper _ _) (conj ex_overloaded_indexed He)))))).
Qed.
Print Assumptions C65_overloaded_refuted.

(** A foreign key to a unique index that no constraint made: a panic. *)
Theorem C65_foreign_key_refuted :
  exists p c schemas, proper c /\ indexed c /\ introspect_catalogue p c schemas = Abort.
Proof.
  exact (ex_intro _ _ (ex_intro _ _ (ex_intro _ _ (conj (ex_proper _ _) (conj ex_bare_index_indexed ex_bare_index_panics))))).
Qed.
Print Assumptions C65_foreign_key_refuted.

Example C65_example : clonable ex_catalogue ex_schemas /\ ~ clonable ex_overloaded ex_schemas.
Proof. exact (conj ex_clonable ex_overloaded_not_clonable). Qed.

(** ** C66: cloned objects have the attributes of the originals

    True of those named in [shows] (C54_captured_partial), false of the following. *)

(** The columns to which a foreign key refers, in the order of its columns: introspection
    yields the same whatever they are. *)
Theorem C66_pairing_lost (p : planner) (f : pgconstraint -> list Z) (c : catalogue) (schemas : list str) :
  introspect_catalogue p (repaired f c) schemas = introspect_catalogue p c schemas.
Proof. exact (repaired_same p f c schemas). Qed.
Print Assumptions C66_pairing_lost.

Theorem C66_pairing_refuted :
  exists p c c' schemas d k k', ct_constraints c !! 1 = Some k /\ ct_constraints c' !! 1 = Some k' /\
    cn_type k = KForeign /\ cn_key k = cn_key k' /\ cn_fkey k <> cn_fkey k' /\
    introspect_catalogue p c schemas = Ret d /\ introspect_catalogue p c' schemas = Ret d.
Proof. exact ex_pairing_lost. Qed.
Print Assumptions C66_pairing_refuted.

(** The columns of a partitioned table. *)
Theorem C66_partitioned_bare (p : planner) (c : catalogue) (schemas : list str) (d : database) (r : class)
    (n : namespace) (j : str) :
  proper c -> indexed c -> introspect_catalogue p c schemas = Ret d ->
  placed c schemas r n -> cl_kind r = KPartitioned -> column_at d (ns_name n) (cl_name r) j = None.
Proof. exact (partitioned_bare p c schemas d r n j). Qed.
Print Assumptions C66_partitioned_bare.

(** The columns of an index that has expressions, too. *)
Theorem C66_index_columns_lost (p : planner) (c : catalogue) (schemas : list str) (d : database)
    (i : pgindex) (x : class) (n : namespace) (t : class) (m : access_method) (e : str) :
  proper c -> introspect_catalogue p c schemas = Ret d -> is_index c schemas i x n t m -> in_expr i = Some e ->
  exists y, relation_at d (ns_name n) (cl_name x) = Some (RIndex y) /\ ix_keys y = [e].
Proof. exact (expressions_only p c schemas d i x n t m e). Qed.
Print Assumptions C66_index_columns_lost.

(** A unique index to which a foreign key refers. *)
Theorem C66_index_lost (p : planner) (c : catalogue) (schemas : list str) (d : database)
    (k : pgconstraint) (x : class) (n : namespace) :
  proper c -> indexed c -> introspect_catalogue p c schemas = Ret d ->
  placed c schemas x n -> k ∈ ct_constraints c -> cn_index k = cl_oid x ->
  forall y, relation_at d (ns_name n) (cl_name x) <> Some (RIndex y).
Proof. exact (index_lost p c schemas d k x n). Qed.
Print Assumptions C66_index_lost.

(** MATCH SIMPLE, which every foreign key has that says nothing else, becomes NONE. *)
Theorem C66_match_simple_lost (p : planner) (c : catalogue) (schemas : list str) (d : database)
    (k : pgconstraint) (r : class) (n : namespace) :
  proper c -> introspect_catalogue p c schemas = Ret d -> is_foreign_key c schemas k r n -> cn_match k = 115%N ->
  exists x, constraint_at d (ns_name n) (cl_name r) (cn_name k) = Some (CForeignKey x) /\ fk_match x = L "NONE".
Proof. exact (match_simple_none p c schemas d k r n). Qed.
Print Assumptions C66_match_simple_lost.

Example C66_example :
  exists k r n i x t m e s,
    is_foreign_key ex_catalogue ex_schemas k r n /\ cn_match k = 115%N /\
    is_index ex_catalogue ex_schemas i x n t m /\ in_expr i = Some e /\ in_key i = [1; 0]%Z /\
    placed ex_catalogue ex_schemas s n /\ cl_kind s = KPartitioned /\
    exists a, a ∈ ct_attributes ex_catalogue /\ at_rel a = cl_oid s.
Proof. exact ex_attributes_lost. Qed.
