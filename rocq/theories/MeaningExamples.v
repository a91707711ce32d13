(** Concrete documents for what documents mean and which abort. *)
From Verif Require Import Base Text Types Changes SpecSnapshot DiffOrder Node Yaml SpecDefinition Ddl
  Load SpecMerge DecideSpec DecideDefinition SnapshotExamples ParseLemmas PanicLemmas DefinitionExamples
  SpecMeaning MeaningLemmas.

(** A schema in two pieces, keys in any case, a repeated attribute, references with and without
    a schema, an index with an attribute that does not count. *)
Definition m_doc : list (yaml * yaml) :=
  [obj "Schema public"
     [obj "TABLE orders" [att "column id" "int8 !"; att "column of" "int8 = 1";
        obj "constraint fk" [att "foreign key" "of"; att "references users" "id"; att "on delete" "CASCADE";
          (key "deferrable", YBool true); (key "deferrable", YBool false)];
        obj "constraint fk2" [(key "foreign key", YSeq [key "id"; key "of"]);
          (key "references aux.pairs", YSeq [key "a"; key "b"])]];
      obj "index i" [(key "on orders", YSeq [key "id"]); (key "cache", YInt 3); att "unique" "yes"]];
   obj "schema  public "
     [obj "sequence s" [att "as" "int2"; (key "start", YInt 7); att "owned by orders" "id"];
      obj "function f" [att "as" "() AS $$ $$"]]].
Definition m_table : table :=
  Table (L "public") (L "orders")
    [Column (L "public") (L "orders") (L "id") (L "int8") true None;
     Column (L "public") (L "orders") (L "of") (L "int8") false (Some (L "1"))]
    (list_to_map [
      (L "fk", CForeignKey (ForeignKey (L "public") (L "orders") (L "fk") [L "of"] (L "public") (L "users") [L "id"]
         (L "SIMPLE") (L "NO ACTION") (L "CASCADE") false false));
      (L "fk2", CForeignKey (ForeignKey (L "public") (L "orders") (L "fk2") [L "id"; L "of"] (L "aux") (L "pairs")
         [L "a"; L "b"] (L "SIMPLE") (L "NO ACTION") (L "NO ACTION") false false))]).
Definition m_db : database := Database (list_to_map [
  (L "public", Schema (L "public") (list_to_map [
     (L "orders", RTable m_table);
     (L "i", RIndex (Index (L "public") (L "i") (L "orders") false (L "btree") [L "id"]));
     (L "s", RSequence (Sequence (L "public") (L "s") (L "int2") 1 1 32767 7 1 false
                           (Some (L "orders")) (Some (L "id"))))])
     (list_to_map [(L "f", Function (L "public") (L "f") (L "() AS $$ $$") (L "SQL") (L "void") (L "VOLATILE"))]))]).

Definition gives (r : dres database) (d : database) : bool :=
  match r with Done d' => bool_decide (d' = d) | _ => false end.
Lemma gives_spec r d : gives r d = true -> r = Done d.
Proof. destruct r; simpl; [|done|done]. by intros ->%bool_decide_eq_true. Qed.

Lemma m_doc_means : exists l, nodes_mean m_doc l /\ document_means l m_db.
Proof.
  apply (load_Done any_order). apply gives_spec. vm_compute. reflexivity.
Qed.

(** Seven documents that abort, and how. *)
Lemma p_all_abort :
  Forall (fun m => child_aborts (YMap m) \/ exists l, nodes_mean m l /\ document_aborts l) p_all.
Proof.
  eapply Forall_impl; [exact p_all_panic|]. intros m. simpl. apply load_Panic.
Qed.

(** A document with an object in both pieces of its schema, and an error. *)
Definition r_doc : list (yaml * yaml) :=
  [obj "schema public" [obj "view v" [att "as" "SELECT 1"]];
   obj "Schema public" [obj "view v" [att "as" "SELECT 2"]]].
Lemma r_doc_rejected :
  ~ (exists l d, nodes_mean r_doc l /\ document_means l d) /\
  ~ (child_aborts (YMap r_doc) \/ exists l, nodes_mean r_doc l /\ document_aborts l).
Proof. apply (rejected_iff any_order). fails_now. Qed.
