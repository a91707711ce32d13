(** Rows for the examples about introspection. *)
From Verif Require Import Base Types Changes SpecSnapshot Diff Sql History Catalog Introspect
  SpecIntrospect IntrospectLemmas IntrospectProofs.

(** A schema with two tables, a foreign key between them, a sequence, two indexes and a
    function. *)
Definition ex_objects : objects :=
  Objects [L "app"; L "lib"]
    [Sequence (L "app") (L "users_id_seq") (L "int8") 1 1 1000 1 1 false (Some (L "users")) (Some (L "id"))]
    [(L "app", L "users"); (L "app", L "posts")]
    [Column (L "app") (L "posts") (L "author") (L "int8") true None;
     Column (L "app") (L "users") (L "id") (L "int8") true (Some (L "nextval('users_id_seq')"));
     Column (L "app") (L "users") (L "name") (L "varchar(20)") false None]
    [PrimaryKey (L "app") (L "users") (L "users_pkey") [L "id"] false false]
    [ForeignKey (L "app") (L "posts") (L "posts_fkey") [L "author"] (L "app") (L "users") [L "id"]
       (L "NONE") (L "NO ACTION") (L "CASCADE") false false]
    [Function (L "lib") (L "one") (L "select 1") (L "sql") (L "integer") (L "IMMUTABLE")]
    [Unique (L "app") (L "users") (L "users_name_key") [L "name"] true false]
    [Check (L "app") (L "users") (L "users_check") (L "((id > 0))") false false]
    [Index (L "app") (L "posts_author") (L "posts") false (L "btree") [L "author"];
     Index (L "app") (L "users_lower") (L "users") true (L "btree") [L "lower(name)"]].

Definition ex_results : results :=
  Results (Some [[Text (L "app")]; [Text (L "lib")]])
    (Some [[Text (L "app"); Text (L "users_id_seq"); Text (L "int8"); Int 1; Int 1; Int 1000; Int 1; Int 1;
            Bool false; Text (L "users"); Text (L "id")]])
    (Some [[Text (L "app"); Text (L "users")]; [Text (L "app"); Text (L "posts")]])
    (Some [[Text (L "app"); Text (L "posts"); Int 1; Text (L "author"); Text []; Bool true; Text (L "int8")];
           [Text (L "app"); Text (L "users"); Int 1; Text (L "id"); Text (L "nextval('users_id_seq')");
            Bool true; Text (L "int8")];
           [Text (L "app"); Text (L "users"); Int 3; Text (L "name"); Text []; Bool false;
            Text (L "varchar(20)")]])
    (Some [[Text (L "app"); Text (L "users_pkey"); Text (L "app"); Text (L "users"); Texts [L "id"];
            Bool false; Bool false]])
    (Some [[Text (L "app"); Text (L "posts_fkey"); Text (L "posts"); Texts [L "author"]; Text (L "app");
            Text (L "users"); Texts [L "id"]; Bool false; Bool false; Text (L "NONE");
            Text (L "NO ACTION"); Text (L "CASCADE")]])
    (Some [[Text (L "lib"); Text (L "one"); Text (L "select 1"); Text (L "sql"); Text (L "integer");
            Text (L "IMMUTABLE")]])
    (Some [[Text (L "app"); Text (L "users_name_key"); Text (L "app"); Text (L "users"); Texts [L "name"];
            Bool true; Bool false]])
    (Some [[Text (L "app"); Text (L "users"); Text (L "users_check"); Text (L "((id > 0))"); Bool false;
            Bool false]])
    (Some [[Text (L "app"); Text (L "posts_author"); Text (L "posts"); Bool false; Text (L "btree"); Int 1;
            Texts [L "author"]; Ints [0%Z]; Null];
           [Text (L "app"); Text (L "users_lower"); Text (L "users"); Bool true; Text (L "btree"); Int 1;
            Null; Ints [0%Z]; Text (L "lower(name)")]]).

Lemma ex_described : described ex_objects ex_results.
Proof.
  split; try reflexivity.
  - eexists; split; [reflexivity|]. repeat constructor. discriminate.
  - eexists; split; [reflexivity|]. repeat constructor.
  - eexists; split; [reflexivity|]. repeat constructor.
  - eexists; split; [reflexivity|]. constructor; [constructor|]. constructor; [|constructor].
    constructor. by left.
Qed.

Lemma ex_coherent : coherent ex_objects.
Proof.
  assert (exists d, introspect_rows ex_results = Ret d) as [d Hd].
  { assert (match introspect_rows ex_results with Ret _ => True | _ => False end) as H.
    { vm_compute. exact I. }
    destruct (introspect_rows ex_results); [by eexists|destruct H..]. }
  by apply (introspect_exact _ _ _ ex_described) in Hd as [? _].
Qed.

(** The same with the table of the foreign key missing: its column and its constraint are
    orphans. *)
Definition ex_orphans : objects :=
  Objects (ob_schemas ex_objects) (ob_sequences ex_objects) [(L "app", L "users")]
    (ob_columns ex_objects) (ob_primary_keys ex_objects) (ob_foreign_keys ex_objects)
    (ob_functions ex_objects) (ob_uniques ex_objects) (ob_checks ex_objects) (ob_indexes ex_objects).
Definition ex_orphan_results : results :=
  Results (rs_schemas ex_results) (rs_sequences ex_results) (Some [[Text (L "app"); Text (L "users")]])
    (rs_columns ex_results) (rs_primary_keys ex_results) (rs_foreign_keys ex_results)
    (rs_functions ex_results) (rs_uniques ex_results) (rs_checks ex_results) (rs_indexes ex_results).
Lemma ex_orphans_described : described ex_orphans ex_orphan_results.
Proof. destruct ex_described. by split. Qed.
Lemma ex_orphans_incoherent : ~ coherent ex_orphans.
Proof.
  intros [_ _ _ _ _ _ _ H _].
  assert (column_place (Column (L "app") (L "posts") (L "author") (L "int8") true None) ∈ ob_tables ex_orphans) as Hin.
  { apply H. left. }
  revert Hin. apply (bool_decide_unpack _). vm_compute. exact I.
Qed.
