(** Property theorems C72 and the exact form of C23: what a document means, and the documents
    on which the program aborts. *)
From Verif Require Import Base Text Types Changes SpecSnapshot Node Yaml SpecDefinition Ddl Load SpecMerge
  SpecMeaning MeaningLemmas DefinitionExamples MeaningExamples.

(** ** C72: a document is loaded as what it means *)
Theorem C72_document_means o m d :
  load_document o m = Done d <-> exists l, nodes_mean m l /\ document_means l d.
Proof. exact (load_Done o m d). Qed.
Print Assumptions C72_document_means.

(** It means one thing. *)
Theorem C72_one_meaning m :
  (forall l l', nodes_mean m l -> nodes_mean m l' -> l = l') /\
  (forall l d d', document_means l d -> document_means l d' -> d = d').
Proof. exact (one_meaning m). Qed.
Print Assumptions C72_one_meaning.

(** The pieces: columns, constraints, relations, functions, schemas. *)
Theorem C72_objects_mean s t n :
  (forall c, parse_column_definition s t n = Done c <-> column_means s t n c) /\
  (forall c, parse_constraint_definition s t n = Done c <-> constraint_means s t n c) /\
  (forall x, parse_table_definition s n = Done x <-> table_means s n (RTable x)) /\
  (forall x, parse_view_definition s n = Done x <-> view_means s n (RView x)) /\
  (forall x, parse_index_definition s n = Done x <-> index_means s n (RIndex x)) /\
  (forall x, parse_sequence_definition s n = Done x <-> sequence_means s n (RSequence x)) /\
  (forall x, parse_function_definition s n = Done x <-> function_means s n x) /\
  (forall x, parse_schema_definition n = Done x <-> schema_means n x).
Proof. exact (objects_mean s t n). Qed.
Print Assumptions C72_objects_mean.

Example C72_example : exists l, nodes_mean m_doc l /\ document_means l m_db.
Proof. exact m_doc_means. Qed.

(** ** C23: exactly when loading aborts *)
Theorem C23_aborts_iff o m :
  load_document o m = Panic <->
  child_aborts (YMap m) \/ exists l, nodes_mean m l /\ document_aborts l.
Proof. exact (load_Panic o m). Qed.
Print Assumptions C23_aborts_iff.

Example C23_aborts_example :
  Forall (fun m => child_aborts (YMap m) \/ exists l, nodes_mean m l /\ document_aborts l) p_all.
Proof. exact p_all_abort. Qed.

(** Everything else is an error: the outcome of loading is settled for every document. *)
Theorem C72_rejected_iff o m :
  (exists e, load_document o m = Fail e) <->
  ~ (exists l d, nodes_mean m l /\ document_means l d) /\
  ~ (child_aborts (YMap m) \/ exists l, nodes_mean m l /\ document_aborts l).
Proof. exact (rejected_iff o m). Qed.
Print Assumptions C72_rejected_iff.

Example C72_rejected_example :
  ~ (exists l d, nodes_mean r_doc l /\ document_means l d) /\
  ~ (child_aborts (YMap r_doc) \/ exists l, nodes_mean r_doc l /\ document_aborts l).
Proof. exact r_doc_rejected. Qed.
