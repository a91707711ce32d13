(** C73: mistakes in the definitions are reported. *)
From Verif Require Import Base Text Types Changes SpecSnapshot DiffOrder Node Yaml SpecDefinition Ddl
  Load SpecMerge SnapshotExamples SpecMeaning Display SpecReport ReportLemmas ReportExamples.

(** The error of a schema is the report of its mistakes: no more, no less, in their order. *)
Theorem C73_report_iff n e :
  ~ schema_aborts n -> parse_schema_definition n = Fail e <-> schema_report n e.
Proof. exact (schema_report_iff n e). Qed.
Print Assumptions C73_report_iff.

Example C73_report_example : schema_report bad_schema bad_report /\ ~ schema_aborts bad_schema.
Proof. exact bad_schema_report. Qed.

(** Every object and every entry of a table that means nothing is named in the text that is
    displayed. *)
Theorem C73_named_in_text malformed n e s l c :
  parse_schema_definition n = Fail e -> n_name n = Some s -> below n = Some l -> c ∈ l ->
  (~ (exists r, relation_means s c r) -> ~ (exists g, function_means s c g) ->
   exists t a b, display malformed e = Some t /\ t = a ++ label c ++ b) /\
  (forall t l' d, n_type c = L "table" -> n_name c = Some t -> below c = Some l' -> d ∈ l' ->
   ~ (exists x, column_means s t d x) -> ~ (exists x, constraint_means s t d x) ->
   exists txt a b, display malformed e = Some txt /\ txt = a ++ label d ++ b).
Proof. exact (named_in_text malformed n e s l c). Qed.
Print Assumptions C73_named_in_text.

Example C73_text_example :
  parse_schema_definition bad_schema = Fail bad_report /\
  forall malformed, display malformed bad_report = Some (
    L "has errors: schema public" ++ line_break ++ L "has errors: table t" ++ line_break ++
    L "has errors: column a" ++ line_break ++ L "invalid type expression: int ! !" ++ line_break ++
    L "has errors: constraint fk" ++ line_break ++ L "invalid table reference: x.y.z" ++ line_break ++
    L "invalid type attribute: deferrable expected boolean" ++ line_break ++
    L "attribute required: constraint fk references" ++ line_break ++ L "unexpected node: check" ++ line_break ++
    L "has errors: view v" ++ line_break ++ L "attribute required: view v as" ++ line_break ++
    L "child nodes required: function f").
Proof. exact bad_schema_text. Qed.
Example C73_nodes_example :
  n_name bad_schema = Some (L "public") /\
  (exists l, below bad_schema = Some l /\ bad_table ∈ l /\
     ~ (exists r, relation_means (L "public") bad_table r) /\ ~ (exists g, function_means (L "public") bad_table g)) /\
  (exists l, below bad_table = Some l /\ bad_column ∈ l /\
     ~ (exists x, column_means (L "public") (L "t") bad_column x) /\
     ~ (exists x, constraint_means (L "public") (L "t") bad_column x)).
Proof. exact bad_nodes. Qed.

(** Only what is wrong is reported: an object, or an entry of a table, has a report exactly
    if it means nothing, provided it does not abort the program. *)
Theorem C73_faulty_iff s t n :
  (~ object_aborts s n ->
   (exists e, object_report n e) <-> ~ (exists r, relation_means s n r) /\ ~ exists f, function_means s n f) /\
  (~ (n_type n = L "constraint" /\ ~ constraint_safe n) ->
   (exists e, entry_report n e) <-> ~ (exists c, column_means s t n c) /\ ~ exists c, constraint_means s t n c).
Proof. exact (conj (object_faulty s n) (entry_faulty s t n)). Qed.
Print Assumptions C73_faulty_iff.

Example C73_faulty_example :
  ~ object_aborts (L "public") bad_table /\ (exists e, object_report bad_table e) /\
  ~ (n_type bad_constraint = L "constraint" /\ ~ constraint_safe bad_constraint) /\
  (exists e, entry_report bad_constraint e).
Proof. exact bad_objects. Qed.

(** The report is displayed, and has a line for each of its errors, at any depth. *)
Theorem C73_displayed malformed n e :
  schema_report n e ->
  exists t, display malformed e = Some t /\ forall x, inside x e -> exists a b, t = a ++ first_line x ++ b.
Proof. exact (report_displayed malformed n e). Qed.
Print Assumptions C73_displayed.

(** What is reported of a document: the mistakes of the first schema that has any, or that
    this schema has objects that the earlier ones have as well. *)
Theorem C73_document_report o l e :
  load_nodes o l database_new = Fail e <->
  exists a n b d, l = a ++ n :: b /\ document_means a d /\ ~ schema_aborts n /\
    (schema_report n e \/
     exists s, schema_means n s /\ (~ exists d', document_means (a ++ [n]) d') /\
       load_nodes o (a ++ [n]) database_new = Fail e).
Proof. exact (document_report o l e). Qed.
Print Assumptions C73_document_report.

(** As stated for all mistakes, it is false: those of the attributes of an index are
    forgotten, *)
Theorem C73_index_refuted :
  exists n l a, n_type n = L "index" /\ below n = Some l /\ a ∈ l /\ n_type a = L "unique" /\ flag a = None /\
    (exists s, parse_schema_definition (object (L "schema") (L "public") [n]) = Done s) /\
    ~ exists e, object_report n e.
Proof. exact index_mistakes_ignored. Qed.
Print Assumptions C73_index_refuted.

(** those of a later schema are not looked for, *)
Theorem C73_later_refuted :
  forall o, load_nodes o [bad_schema; also_bad] database_new = Fail bad_report /\
  exists e, schema_report also_bad e /\ ~ schema_aborts also_bad /\ ~ inside e bad_report.
Proof. exact later_not_shown. Qed.
Print Assumptions C73_later_refuted.

(** and the text does not show where a mistake is: it is the same for a node that does not
    belong into a table and one that does not belong after it. *)
Theorem C73_place_refuted :
  exists n n' e e', parse_schema_definition n = Fail e /\ parse_schema_definition n' = Fail e' /\ e <> e' /\
    (forall malformed, display malformed e = display malformed e') /\
    (exists c l d, below n = Some [c] /\ below c = Some l /\ d ∈ l /\ entry_report d (UnexpectedNode (label d))) /\
    (exists c d, below n' = Some [c; d] /\ object_report d (UnexpectedNode (label d)) /\
       forall l d', below c = Some l -> d' ∈ l -> ~ entry_report d' (UnexpectedNode (label d'))).
Proof. exact place_not_shown. Qed.
Print Assumptions C73_place_refuted.
