(** Concrete statements: cases meeting the hypotheses of the SQL theorems, and statements
    that say the wrong thing. *)
From Verif Require Import Base Text Types Changes Sql SpecSql SqlLemmas SqlDecode SqlProofs.

Lemma add_column_opposite s t n ty nn d :
  adds_column s t n ty (negb nn) d (render_sql (AddColumn s t n ty nn d)).
Proof.
  exists (L """" ++ n ++ L """ " ++ ty ++ (if nn then [] else L " NOT NULL") ++ default_option d). split.
  - exists (if nn then [] else L " NOT NULL"). split; [destruct nn; constructor|by left].
  - cbn [render_sql]. rewrite join_cons.
    unfold alter_table, sql_qa, sql_qn, qualified, add_column_tokens, default_option.
    rewrite <- !(assoc_L (++)). destruct nn, d as [d|]; csimpl; rewrite ?app_nil_r; simpl;
      rewrite <- ?(assoc_L (++)); reflexivity.
Qed.

Definition nullable (c : create_table_column) : create_table_column :=
  CreateTableColumn (cc_name c) (cc_type c) false (cc_default c).
Lemma column_text_nullable c :
  column_text (cc_name c) (cc_type c) false (cc_default c) (create_table_column_sql c).
Proof.
  rewrite create_table_column_tail, column_tail_text. exists (if cc_notnull c then [] else L " NULL").
  split; [destruct (cc_notnull c); constructor|]. left. unfold sql_qn.
  change (L """ ") with (L """" ++ L " "). by rewrite <- !(assoc_L (++)).
Qed.
Lemma create_table_nullable s t cs :
  creates_table s t (nullable <$> cs) (render_sql (CreateTable s t cs)).
Proof.
  exists (columns_text cs). split; [|apply create_table_text].
  induction cs as [|c cs IH]; [constructor|]. destruct cs as [|b cs].
  - constructor. exact (column_text_nullable c).
  - rewrite columns_text_cons. rewrite fmap_cons. constructor; [exact (column_text_nullable c)|done|done].
Qed.

Lemma quoted_example :
  read_object (L "ALTER TABLE ""public"".""order items"" ADD COLUMN ""id"" integer;") =
    Some (L "public", L "order items") /\
  read_quoted (L """a""""b""") = Some (L "a""b", []) /\
  quotable (L "order items") /\ wordlike (L "public") /\ ~ wordlike (L "user") /\ ~ wordlike (L "Audit").
Proof.
  split; [reflexivity|]. split; [reflexivity|]. split; [split; [done|by_not]|].
  split; [by apply unquoted_iff; vm_compute|].
  split; intros H%unquoted_iff; revert H; by vm_compute.
Qed.

Lemma quoting_refuted :
  (exists n, n <> [] /\ read_quoted (sql_qn n) <> Some (n, [])) /\
  (exists n n', n <> n' /\ n <> [] /\ n' <> [] /\
     exists x, read_unquoted (n ++ L ";") = Some x /\ read_unquoted (n' ++ L ";") = Some x) /\
  (exists s t s' t', (s, t) <> (s', t') /\ sql_qa s t = sql_qa s' t').
Proof.
  split; [|split].
  - exists (L "a""b"). split; [done|]. by vm_compute.
  - exists (L "audit"), (L "Audit"). split; [done|]. split; [done|]. split; [done|]. by eexists.
  - exists (L "a"".""b"), (L "c"), (L "a"), (L "b"".""c"). by split.
Qed.

Lemma schema_statement_refuted :
  exists n, n <> [] /\
    (forall r, read_unquoted (n ++ r) <> Some (n, r)) /\
    render_sql (CreateSchema n) = L "CREATE SCHEMA " ++ n ++ L ";".
Proof.
  exists (L "order-log"). split; [done|]. split; [|done]. intros r. vm_compute. by intros [= ].
Qed.

Definition example_columns : list create_table_column :=
  [CreateTableColumn (L "id") (L "bigint") false None;
   CreateTableColumn (L "note") (L "text") false (Some (L "'none'"))].
Lemma nullability_example :
  Forall unquoted_column example_columns /\ Forall (fun c => cc_notnull c = false) example_columns /\
  adds_column (L "public") (L "t") (L "n") (L "text") true None
    (L "ALTER TABLE ""public"".""t"" ADD COLUMN ""n"" text NOT NULL;").
Proof.
  split; [|split].
  - repeat constructor; try by_not; simpl; intros d; [done|intros [= <-]; by_not].
  - by repeat constructor.
  - exists (L """n"" text NOT NULL"). split; [|done]. exists (L " NOT NULL"). split; [constructor|by left].
Qed.

Lemma nullability_refuted :
  (exists s t n ty d, ~ adds_column s t n ty true d (render_sql (AddColumn s t n ty true d))) /\
  (exists s t cs, Forall unquoted_column cs /\ ~ creates_table s t cs (render_sql (CreateTable s t cs))).
Proof.
  split.
  - exists (L "public"), (L "t"), (L "n"), (L "text"), None. apply add_column_never.
  - exists (L "public"), (L "t"), [CreateTableColumn (L "n") (L "text") true None].
    assert (Forall unquoted_column [CreateTableColumn (L "n") (L "text") true None]) as H.
    { repeat constructor; try by_not; simpl; by intros d. }
    split; [done|]. rewrite create_table_iff by done. intros [? _]%Forall_cons. done.
Qed.

Lemma deferral_example :
  let c := AddUnique (L "public") (L "t") (L "u") [L "a"; L "b"] true false in
  constraint_text_plain c /\ deferral_stated c /\
  render_sql c = L "ALTER TABLE ""public"".""t"" ADD CONSTRAINT ""u"" UNIQUE (""a"", ""b"") DEFERRABLE INITIALLY IMMEDIATE;" /\
  read_deferral (render_sql c) = (true, false).
Proof. by vm_compute. Qed.

Lemma deferral_refuted :
  (exists c a, change_deferral c = Some a /\ constraint_text_plain c /\
     (exists s t n, c = AlterCheck s t n true false) /\ read_deferral (render_sql c) <> a) /\
  (exists c a, change_deferral c = Some a /\ constraint_text_plain c /\
     (exists s t n cs ts t2 tcs m u d, c = AddForeignKey s t n cs ts t2 tcs m u d true true) /\
     read_deferral (render_sql c) <> a).
Proof.
  split.
  - exists (AlterCheck (L "public") (L "t") (L "k") true false), (true, false).
    split; [done|]. split; [done|]. split; [by do 3 eexists|]. by vm_compute.
  - exists (AddForeignKey (L "public") (L "t") (L "k") [L "a"] (L "public") (L "u") [L "id"]
      (L "SIMPLE") (L "NO ACTION") (L "CASCADE") true true), (true, true).
    split; [done|]. split; [apply (bool_decide_unpack _); vm_compute; exact I|].
    split; [by do 10 eexists|]. by vm_compute.
Qed.

Lemma same_sql_example :
  let c := CreateTable (L "public") (L "t") example_columns in
  let c' := DropUnique (L "public") (L "t") (L "u") in
  plain_change c /\ plain_change c' /\ sql_image c <> sql_image c'.
Proof.
  split; [|split].
  - split; [by_not|]. split; [by_not|].
    repeat constructor; try by_not; simpl; intros d; [done|intros [= <-]; by_not].
  - split; [by_not|]. split; by_not.
  - by vm_compute.
Qed.

Lemma same_sql_refuted :
  exists c c', c <> c' /\ plain_change c /\ plain_change c' /\ render_sql c = render_sql c'.
Proof.
  exists (DropPrimaryKey (L "public") (L "t") (L "k")), (DropUnique (L "public") (L "t") (L "k")).
  split; [done|]. split; [split; [by_not|split; by_not]|]. split; [split; [by_not|split; by_not]|]. done.
Qed.
