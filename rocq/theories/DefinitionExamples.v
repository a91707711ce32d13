(** Concrete documents and snapshots for the properties of definitions. *)
From Verif Require Import Base Text Types Changes SpecSnapshot DiffOrder Node Yaml SpecDefinition Ddl
  Load SpecMerge DecideSpec DecideDefinition SnapshotExamples TextLemmas ParseLemmas PanicLemmas YamlLemmas.

(** Column expressions, and two that have no reading. *)
Lemma column_reading_example :
  column_reading (L "varchar(20) ! =  'a = b!' ") (L "varchar(20)") true (Some (L "'a = b!'")) /\
  column_reading (L "int =" ++ [10%N] ++ L "5") (L "int") false (Some (L "5")) /\
  ~ (exists ty nn d, column_reading (L "text = 'a" ++ [10%N] ++ L "b'") ty nn d) /\
  ~ (exists ty nn d, column_reading (L "int ! x") ty nn d).
Proof.
  split; [|split; [|split]].
  - apply column_reading_iff. vm_compute. reflexivity.
  - apply column_reading_iff. vm_compute. reflexivity.
  - apply column_rejected_iff. vm_compute. reflexivity.
  - apply column_rejected_iff. vm_compute. reflexivity.
Qed.

(** Documents, written with literals. *)
Definition key (s : string) : yaml := YString (L s).
Definition obj (k : string) (m : list (yaml * yaml)) : yaml * yaml := (key k, YMap m).
Definition att (k v : string) : yaml * yaml := (key k, key v).

(** A snapshot with every kind of object, in two schemas. *)
Definition s_table : table :=
  Table (L "public") (L "order items")
    [Column (L "public") (L "order items") (L "id") (L "bigint") true (Some (L "nextval('ids')"));
     Column (L "public") (L "order items") (L "note") (L "character varying(20)") false None]
    (list_to_map [
      (L "items_pk", CPrimaryKey (PrimaryKey (L "public") (L "order items") (L "items_pk") [L "id"] true false));
      (L "items_fk", CForeignKey (ForeignKey (L "public") (L "order items") (L "items_fk") [L "id"; L "note"]
         (L "aux") (L "notes") [L "id"; L "text"] (L "FULL") (L "CASCADE") (L "NO ACTION") false false));
      (L "items_ck", CCheck (Check (L "public") (L "order items") (L "items_ck") (L "(id > 0)") false false));
      (L "items_uq", CUnique (Unique (L "public") (L "order items") (L "items_uq") [L "note"] false true))]).
Definition s_db : database := Database (list_to_map [
  (L "public", Schema (L "public") (list_to_map [
     (L "order items", RTable s_table);
     (L "recent", RView (View (L "public") (L "recent") (L "SELECT 1")));
     (L "items_note", RIndex (Index (L "public") (L "items_note") (L "order items") true (L "btree") [L "note"]));
     (L "ids", RSequence (Sequence (L "public") (L "ids") (L "int4") 1 1 2147483647 10 5 true
                           (Some (L "order items")) (Some (L "id"))))])
     (list_to_map [(L "f", Function (L "public") (L "f") (L "() AS $$ $$") (L "SQL") (L "int8") (L "STABLE"))]));
  (L "aux", Schema (L "aux") ∅ ∅)]).

Lemma s_db_ok : wf_db s_db /\ machine_db s_db /\ savable s_db.
Proof. split; [|split]; by_computation. Qed.

(** Snapshots that do not come back. *)
Definition with_relation (r : relation) : database :=
  Database {[L "public" := Schema (L "public") {[relation_name r := r]} ∅]}.

Definition n_using : database :=
  with_relation (RIndex (Index (L "public") (L "i") (L "t") false (L "gin") [L "doc"])).
Definition n_increment : database :=
  with_relation (RSequence (Sequence (L "public") (L "s") (L "int8") 2 1 9223372036854775807 1 1 false None None)).
Definition n_on_update : database :=
  with_relation (RIndex (Index (L "public") (L "i") (L "updates") false (L "btree") [L "id"])).
Definition n_default : database :=
  with_relation (RTable (Table (L "public") (L "t")
    [Column (L "public") (L "t") (L "a") (L "text") false (Some ([39; 10; 39]%N))] ∅)).
Definition n_dotted : database :=
  with_relation (RTable (Table (L "public") (L "t") []
    {[L "fk" := CForeignKey (ForeignKey (L "public") (L "t") (L "fk") [L "a"] (L "public") (L "x.y") [L "a"]
       (L "SIMPLE") (L "NO ACTION") (L "NO ACTION") false false)]})).
Definition n_view : database := with_relation (RView (View (L "public") (L "v") [])).

(** The outcome of saving and loading, for the examples. *)
Definition reload (o o' : iter_order) (d : database) : dres database :=
  m ← save_document o d; load_document o' m.


(** Loading fails with an error, or aborts. *)
Definition failed {A} (r : dres A) : bool := match r with Fail _ => true | _ => false end.
Definition panicked {A} (r : dres A) : bool := match r with Panic => true | _ => false end.
Lemma failed_spec {A} (r : dres A) : failed r = true -> exists e, r = Fail e.
Proof. destruct r; [done|by eexists|done]. Qed.
Lemma panicked_spec {A} (r : dres A) : panicked r = true -> r = Panic.
Proof. by destruct r. Qed.
Ltac fails_now := apply failed_spec; vm_compute; reflexivity.
Ltac panics_now := apply panicked_spec; vm_compute; reflexivity.

(** Documents that abort the program. *)
Definition p_toplevel : list (yaml * yaml) := [obj "table users" [att "column id" "int"]].
Definition p_index : list (yaml * yaml) := [obj "schema public" [obj "index i" [(key "unique", YBool true)]]].
Definition p_constraint : list (yaml * yaml) :=
  [obj "schema public" [obj "table t" [obj "constraint c" [(key "deferrable", YBool true); att "unique" "a"]]]].
Definition p_sequence : list (yaml * yaml) :=
  [obj "schema public" [obj "sequence s" [att "as" "bigint"]]].
Definition p_duplicate : list (yaml * yaml) :=
  [obj "schema public" [obj "view v" [att "as" "SELECT 1"]; obj "View v" [att "as" "SELECT 2"]]].
Definition p_nested : list (yaml * yaml) :=
  [obj "schema public" [obj "table t" [(key "constraint c", YSeq [YMap []])]]].
Definition p_kelvin : list (yaml * yaml) :=
  [obj "schema public" [obj "table t" [obj "constraint c" [(YString (L "chec" ++ [8490%N]), key "a > 0")]]]].
Definition p_all : list (list (yaml * yaml)) :=
  [p_toplevel; p_index; p_constraint; p_sequence; p_duplicate; p_nested; p_kelvin].

Lemma p_all_panic : Forall (fun m => load_document any_order m = Panic) p_all.
Proof. repeat (constructor; [panics_now|]). constructor. Qed.

(** A document that is safe. *)
Definition g_doc : list (yaml * yaml) :=
  [obj "schema public"
     [obj "table users" [att "column id" "bigint!"; att "column name" "text = 'x'";
        obj "constraint users_pk" [att "primary key" "id"]];
      obj "Index i" [(key "on users", YSeq [key "id"; key "name"])];
      obj "sequence s" [att "as" "int4"; att "owned by users" "id"]]].

Definition node_list (m : list (yaml * yaml)) : list node :=
  match parse_mapping_to_nodes m with Done l => l | _ => [] end.

Lemma g_doc_yaml_safe : yaml_safe (YMap g_doc).
Proof.
  assert (forall s, 8490%N ∉ s -> key_safe s) as Hk.
  { intros s Hs a r -> _. apply Hs. apply elem_of_app. right. left. }
  unfold g_doc, obj, att, key.
  repeat first
    [ apply ys_map
    | apply ys_leaf; repeat constructor; fail
    | apply Forall_nil; exact I
    | apply Forall_cons; split
    | intros k [= <-]; apply Hk; by_computation ].
Qed.

(** Every child of the named kind, decided by listing. *)
Lemma g_doc_safe : document_safe g_doc.
Proof.
  split; [exact g_doc_yaml_safe|]. intros l Hl.
  assert (l = node_list g_doc) as -> by (unfold node_list; by rewrite Hl).
  assert (parse_mapping_to_nodes g_doc = Done (node_list g_doc)) as _ by (vm_compute; reflexivity).
  clear Hl.
  match eval vm_compute in (node_list g_doc) with ?t => change (node_list g_doc) with t end.
  constructor; [|constructor]. split; [reflexivity|]. intros l [= <-]. split; [|split; by_computation].
  intros c Hc. repeat (apply elem_of_cons in Hc as [->|Hc]); [..|by apply elem_of_nil in Hc].
  - split; [|split; discriminate]. intros _ l [= <-]. split; [|split; by_computation].
    intros c Hc. repeat (apply elem_of_cons in Hc as [->|Hc]); [..|by apply elem_of_nil in Hc];
      try discriminate. intros _ l [= <-]. eexists _, _. split; [reflexivity|]. by_computation.
  - split; [discriminate|]. split; [|discriminate]. intros _ l [= <-] _. eexists. split; [left|].
    split; [reflexivity|]. split; discriminate.
  - split; [discriminate|]. split; [discriminate|]. intros _ l [= <-] _. left.
    intros ty Hty. vm_compute in Hty. injection Hty as <-. right. left. reflexivity.
Qed.

(** An index with an attribute nobody knows. *)
Definition u_index : list (yaml * yaml) :=
  [obj "schema public" [obj "index i" [att "on t" "id"; att "language" "C"]]].
Definition u_loaded : database :=
  match load_document any_order u_index with Done d => d | _ => database_new end.
