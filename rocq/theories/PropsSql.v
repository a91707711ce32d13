(** Property theorems C44 to C47: the text of SQL statements. *)
From Verif Require Import Base Text Types Changes Sql SpecSql SqlDecode SqlProofs SqlExamples.

(** ** C44: quoted names

    [read_quoted] and [read_unquoted] follow SQL's rules for identifiers; a name written by
    [sql_qn] reads back exactly when it is not empty and has no double quote. *)
Theorem C44_quoted_iff n r :
  head r <> Some 34%N -> read_quoted (sql_qn n ++ r) = Some (n, r) <-> quotable n.
Proof. exact (quoted_iff n r). Qed.
Print Assumptions C44_quoted_iff.

(** Every statement about a relation or a function names that object. *)
Theorem C44_statement_object_iff c s t :
  change_object c = Some (s, t) ->
  read_object (render_sql c) = Some (s, t) <-> quotable s /\ quotable t.
Proof. exact (statement_object_iff c s t). Qed.
Print Assumptions C44_statement_object_iff.

Theorem C44_created_index_iff s t n u m ks :
  read_created_index (render_sql (CreateIndex s t n u m ks)) = Some (n, (s, t)) <->
  quotable n /\ quotable s /\ quotable t.
Proof. exact (created_index_iff s t n u m ks). Qed.
Print Assumptions C44_created_index_iff.

(** The statements that create and drop schemas write the name without quotes. *)
Theorem C44_schema_name_iff n : read_unquoted (n ++ L ";") = Some (n, L ";") <-> wordlike n.
Proof. exact (unquoted_iff n). Qed.
Print Assumptions C44_schema_name_iff.

Theorem C44_names_distinct s t s' t' :
  34%N ∉ s -> 34%N ∉ s' -> 34%N ∉ t -> 34%N ∉ t' -> sql_qa s t = sql_qa s' t' -> s = s' /\ t = t'.
Proof. exact (qa_inj s t s' t'). Qed.
Print Assumptions C44_names_distinct.

(** A name with a double quote does not read back; two schemas are created by statements
    with the same meaning; two qualified names have the same text. *)
Theorem C44_quoting_refuted :
  (exists n, n <> [] /\ read_quoted (sql_qn n) <> Some (n, [])) /\
  (exists n n', n <> n' /\ n <> [] /\ n' <> [] /\
     exists x, read_unquoted (n ++ L ";") = Some x /\ read_unquoted (n' ++ L ";") = Some x) /\
  (exists s t s' t', (s, t) <> (s', t') /\ sql_qa s t = sql_qa s' t').
Proof. exact quoting_refuted. Qed.
Print Assumptions C44_quoting_refuted.

Theorem C44_schema_statement_refuted :
  exists n, n <> [] /\
    (forall r, read_unquoted (n ++ r) <> Some (n, r)) /\
    render_sql (CreateSchema n) = L "CREATE SCHEMA " ++ n ++ L ";".
Proof. exact schema_statement_refuted. Qed.
Print Assumptions C44_schema_statement_refuted.

Example C44_example :
  read_object (L "ALTER TABLE ""public"".""order items"" ADD COLUMN ""id"" integer;") =
    Some (L "public", L "order items") /\
  read_quoted (L """a""""b""") = Some (L "a""b", []) /\
  quotable (L "order items") /\ wordlike (L "public") /\ ~ wordlike (L "user") /\ ~ wordlike (L "Audit").
Proof. exact quoted_example. Qed.

(** ** C45: nullability *)
Theorem C45_set_not_null s t n nn :
  sets_nullability s t n nn (render_sql (AlterColumnSetNotNull s t n nn)).
Proof. exact (set_not_null s t n nn). Qed.
Print Assumptions C45_set_not_null.

(** Adding a column always says the opposite of what is meant... *)
Theorem C45_add_column_never s t n ty nn d :
  ~ adds_column s t n ty nn d (render_sql (AddColumn s t n ty nn d)).
Proof. exact (add_column_never s t n ty nn d). Qed.
Print Assumptions C45_add_column_never.
Theorem C45_add_column_opposite s t n ty nn d :
  adds_column s t n ty (negb nn) d (render_sql (AddColumn s t n ty nn d)).
Proof. exact (add_column_opposite s t n ty nn d). Qed.
Print Assumptions C45_add_column_opposite.

(** ...and creating a table makes every column nullable. *)
Theorem C45_create_table_iff s t cs :
  Forall unquoted_column cs ->
  creates_table s t cs (render_sql (CreateTable s t cs)) <-> Forall (fun c => cc_notnull c = false) cs.
Proof. exact (create_table_iff s t cs). Qed.
Print Assumptions C45_create_table_iff.
Theorem C45_create_table_nullable s t cs :
  creates_table s t (nullable <$> cs) (render_sql (CreateTable s t cs)).
Proof. exact (create_table_nullable s t cs). Qed.
Print Assumptions C45_create_table_nullable.

Theorem C45_nullability_refuted :
  (exists s t n ty d, ~ adds_column s t n ty true d (render_sql (AddColumn s t n ty true d))) /\
  (exists s t cs, Forall unquoted_column cs /\ ~ creates_table s t cs (render_sql (CreateTable s t cs))).
Proof. exact nullability_refuted. Qed.
Print Assumptions C45_nullability_refuted.

Example C45_example :
  Forall unquoted_column example_columns /\ Forall (fun c => cc_notnull c = false) example_columns /\
  adds_column (L "public") (L "t") (L "n") (L "text") true None
    (L "ALTER TABLE ""public"".""t"" ADD COLUMN ""n"" text NOT NULL;").
Proof. exact nullability_example. Qed.

(** ** C46: deferrability *)
Theorem C46_deferral_iff c a :
  change_deferral c = Some a -> constraint_text_plain c ->
  read_deferral (render_sql c) = a <-> deferral_stated c.
Proof. exact (deferral_iff c a). Qed.
Print Assumptions C46_deferral_iff.

Theorem C46_deferral_refuted :
  (exists c a, change_deferral c = Some a /\ constraint_text_plain c /\
     (exists s t n, c = AlterCheck s t n true false) /\ read_deferral (render_sql c) <> a) /\
  (exists c a, change_deferral c = Some a /\ constraint_text_plain c /\
     (exists s t n cs ts t2 tcs m u d, c = AddForeignKey s t n cs ts t2 tcs m u d true true) /\
     read_deferral (render_sql c) <> a).
Proof. exact deferral_refuted. Qed.
Print Assumptions C46_deferral_refuted.

Example C46_example :
  let c := AddUnique (L "public") (L "t") (L "u") [L "a"; L "b"] true false in
  constraint_text_plain c /\ deferral_stated c /\
  render_sql c = L "ALTER TABLE ""public"".""t"" ADD CONSTRAINT ""u"" UNIQUE (""a"", ""b"") DEFERRABLE INITIALLY IMMEDIATE;" /\
  read_deferral (render_sql c) = (true, false).
Proof. exact deferral_example. Qed.

(** ** C47: different changes, different SQL

    Two plain changes have the same text exactly when they differ only in what
    [sql_image] erases. *)
Theorem C47_same_sql_iff c c' :
  plain_change c -> plain_change c' -> render_sql c = render_sql c' <-> sql_image c = sql_image c'.
Proof. exact (same_sql_iff c c'). Qed.
Print Assumptions C47_same_sql_iff.

Theorem C47_same_sql_refuted :
  exists c c', c <> c' /\ plain_change c /\ plain_change c' /\ render_sql c = render_sql c'.
Proof. exact same_sql_refuted. Qed.
Print Assumptions C47_same_sql_refuted.

Example C47_example :
  let c := CreateTable (L "public") (L "t") example_columns in
  let c' := DropUnique (L "public") (L "t") (L "u") in
  plain_change c /\ plain_change c' /\ sql_image c <> sql_image c'.
Proof. exact same_sql_example. Qed.
