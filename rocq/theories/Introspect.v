(** Introspection: src/introspection/*.sql and *.rs. *)
From Verif Require Import Base Types Changes Diff Sql History Catalog.

(** ** Rows *)

(** A value in a row of a result. *)
Inductive cell :=
  | Null
  | Text (s : str)
  | Texts (l : list str)
  | Bool (b : bool)
  | Int (z : Z)
  | Ints (l : list Z).
Notation row := (list cell).

(** [row.get(i)] for the Rust types at which it is used; it panics on a NULL, unless the
    type is an [Option], and on another type. *)
Definition get_text (r : row) (i : nat) : exec str :=
  match r !! i with Some (Text s) => Ret s | _ => Abort end.
(** See [get_text]. *)
Definition get_texts (r : row) (i : nat) : exec (list str) :=
  match r !! i with Some (Texts l) => Ret l | _ => Abort end.
(** See [get_text]. *)
Definition get_bool (r : row) (i : nat) : exec bool :=
  match r !! i with Some (Bool b) => Ret b | _ => Abort end.
(** See [get_text]; the ranges of i16 and i64 are not modelled. *)
Definition get_int (r : row) (i : nat) : exec Z :=
  match r !! i with Some (Int z) => Ret z | _ => Abort end.
(** See [get_int]. *)
Definition get_ints (r : row) (i : nat) : exec (list Z) :=
  match r !! i with Some (Ints l) => Ret l | _ => Abort end.
(** See [get_text]. *)
Definition get_opt {A} (get : row -> nat -> exec A) (r : row) (i : nat) : exec (option A) :=
  match r !! i with Some Null => Ret None | _ => ex x <- get r i; Ret (Some x) end.

(** [for row in rows { vals.push(..) }] *)
Fixpoint decode_rows {A} (f : row -> exec A) (rows : list row) : exec (list A) :=
  match rows with
  | [] => Ret []
  | r :: rows => ex a <- f r; ex l <- decode_rows f rows; Ret (a :: l)
  end.

(** A [for] loop that updates the snapshot and may end early. *)
Fixpoint efor {S A} (f : A -> S -> exec S) (l : list A) (s : S) : exec S :=
  match l with
  | [] => Ret s
  | a :: l => ex s' <- f a s; efor f l s'
  end.
(** An operation of the snapshot followed by [?]; after an error the snapshot is dropped. *)
Definition attempt {S} (m : mut S ()) (s : S) : exec S :=
  match m s with (s', Ok _) => Ret s' | (_, Err e) => Raise (SnapshotFailed e) end.

(** ** From rows to values

    The structs of src/introspection/{schema,table,..}.rs are not kept where
    src/introspection/mod.rs copies their fields one by one into the snapshot type: the
    functions below build the snapshot type. *)

(** schema.rs:17-20, mod.rs:46 *)
Definition schema_of_row (r : row) : exec schema := ex n <- get_text r 0; Ret (schema_new n).
(** sequence.rs:27-41, mod.rs:58-70 *)
Definition sequence_of_row (r : row) : exec sequence :=
  ex s <- get_text r 0; ex n <- get_text r 1; ex ty <- get_text r 2;
  ex inc <- get_int r 3; ex mn <- get_int r 4; ex mx <- get_int r 5; ex st <- get_int r 6;
  ex ca <- get_int r 7; ex cy <- get_bool r 8;
  ex ot <- get_opt get_text r 9; ex oc <- get_opt get_text r 10;
  Ret (Sequence s n ty inc mn mx st ca cy ot oc).
(** table.rs:15-20, mod.rs:84 *)
Definition table_of_row (r : row) : exec table :=
  ex s <- get_text r 0; ex n <- get_text r 1; Ret (table_new s n).
(** column.rs:20-32, mod.rs:98-109 *)
Definition column_of_row (r : row) : exec column :=
  ex s <- get_text r 0; ex t <- get_text r 1; ex num <- get_int r 2; ex n <- get_text r 3;
  ex d <- get_text r 4; ex nn <- get_bool r 5; ex ty <- get_text r 6;
  Ret (Column s t n ty nn (if decide (d = []) then None else Some d)).
(** primarykey.rs:23-34, mod.rs:125-132; the schema of the table is not used. *)
Definition primary_key_of_row (r : row) : exec constraint :=
  ex s <- get_text r 0; ex n <- get_text r 1; ex ts <- get_text r 2; ex t <- get_text r 3;
  ex cs <- get_texts r 4; ex d <- get_bool r 5; ex i <- get_bool r 6;
  Ret (CPrimaryKey (PrimaryKey s t n cs d i)).
(** foreignkey.rs:28-44, mod.rs:173-186 *)
Definition foreign_key_of_row (r : row) : exec constraint :=
  ex s <- get_text r 0; ex n <- get_text r 1; ex t <- get_text r 2; ex cs <- get_texts r 3;
  ex ts <- get_text r 4; ex t2 <- get_text r 5; ex tcs <- get_texts r 6;
  ex d <- get_bool r 7; ex i <- get_bool r 8;
  ex m <- get_text r 9; ex u <- get_text r 10; ex de <- get_text r 11;
  Ret (CForeignKey (ForeignKey s t n cs ts t2 tcs m u de d i)).
(** function.rs:22-32, mod.rs:253-260 *)
Definition function_of_row (r : row) : exec function :=
  ex s <- get_text r 0; ex n <- get_text r 1; ex b <- get_text r 2; ex l <- get_text r 3;
  ex ret <- get_text r 4; ex v <- get_text r 5; Ret (Function s n b l ret v).
(** unique.rs:23-34, mod.rs:149-156; the schema of the table is not used. *)
Definition unique_of_row (r : row) : exec constraint :=
  ex s <- get_text r 0; ex n <- get_text r 1; ex ts <- get_text r 2; ex t <- get_text r 3;
  ex cs <- get_texts r 4; ex d <- get_bool r 5; ex i <- get_bool r 6;
  Ret (CUnique (Unique s t n cs d i)).
(** check.rs:18-29, mod.rs:203-210 *)
Definition check_of_row (r : row) : exec constraint :=
  ex s <- get_text r 0; ex t <- get_text r 1; ex n <- get_text r 2; ex e <- get_text r 3;
  ex d <- get_bool r 4; ex i <- get_bool r 5; Ret (CCheck (Check s t n e d i)).
(** index.rs:21-35.  The struct is kept as far as mod.rs:225-239 uses it: the index
    without its keys, the key columns and the expressions. *)
Definition index_of_row (r : row) : exec (index * option (list str) * option str) :=
  ex s <- get_text r 0; ex n <- get_text r 1; ex t <- get_text r 2; ex u <- get_bool r 3;
  ex m <- get_text r 4; ex len <- get_int r 5; ex ks <- get_opt get_texts r 6;
  ex os <- get_ints r 7; ex e <- get_opt get_text r 8;
  Ret (Index s n t u m [], ks, e).

(** ** Loading: src/introspection/mod.rs *)

(** The results of the ten queries; [None]: PostgreSQL reports an error. *)
Record results := Results {
  rs_schemas : option (list row); rs_sequences : option (list row);
  rs_tables : option (list row); rs_columns : option (list row);
  rs_primary_keys : option (list row); rs_foreign_keys : option (list row);
  rs_functions : option (list row); rs_uniques : option (list row);
  rs_checks : option (list row); rs_indexes : option (list row) }.

(** The functions introspect_*: [client.query(..)?] and the loop over the rows. *)
Definition fetch {A} (f : row -> exec A) (q : option (list row)) : exec (list A) :=
  match q with Some rows => decode_rows f rows | None => Raise DbError end.

(** mod.rs:71-73, 85-87, 240-242 *)
Definition load_relation (r : relation) : database -> exec database :=
  attempt (with_schema_mut (relation_schema r) (add_relation r)).
(** mod.rs:110-114 *)
Definition load_column (c : column) : database -> exec database :=
  attempt (with_schema_mut (col_schema c)
    (with_relation_mut (col_table c) (with_table_mut (add_column c)))).
(** mod.rs:134-138, 158-162, 188-192, 211-215 *)
Definition load_constraint (c : constraint) : database -> exec database :=
  attempt (with_schema_mut (constraint_schema c)
    (with_relation_mut (constraint_table c) (with_table_mut (add_constraint c)))).
(** mod.rs:261-263 *)
Definition load_function (f : function) : database -> exec database :=
  attempt (with_schema_mut (fn_schema f) (add_function f)).
(** mod.rs:225-242; [unwrap] panics when there are neither expressions nor columns. *)
Definition load_index (i : index * option (list str) * option str) (d : database) : exec database :=
  let '(i, ks, e) := i in
  ex keys <- match e with
             | Some e => Ret [e]
             | None => match ks with Some ks => Ret ks | None => Abort end
             end;
  load_relation (RIndex (Index (ix_schema i) (ix_name i) (ix_table i) (ix_unique i)
                           (ix_method i) keys)) d.

(** mod.rs:40-50, load_schemas *)
Definition load_schemas (q : results) (d : database) : exec database :=
  ex l <- fetch schema_of_row (rs_schemas q); efor (fun s => attempt (add_schema s)) l d.
(** mod.rs:52-76, load_sequences *)
Definition load_sequences (q : results) (d : database) : exec database :=
  ex l <- fetch sequence_of_row (rs_sequences q); efor (fun s => load_relation (RSequence s)) l d.
(** mod.rs:78-90, load_tables *)
Definition load_tables (q : results) (d : database) : exec database :=
  ex l <- fetch table_of_row (rs_tables q); efor (fun t => load_relation (RTable t)) l d.
(** mod.rs:92-117, load_columns *)
Definition load_columns (q : results) (d : database) : exec database :=
  ex l <- fetch column_of_row (rs_columns q); efor load_column l d.
(** mod.rs:119-141, load_primary_keys *)
Definition load_primary_keys (q : results) (d : database) : exec database :=
  ex l <- fetch primary_key_of_row (rs_primary_keys q); efor load_constraint l d.
(** mod.rs:167-195, load_foreign_keys *)
Definition load_foreign_keys (q : results) (d : database) : exec database :=
  ex l <- fetch foreign_key_of_row (rs_foreign_keys q); efor load_constraint l d.
(** mod.rs:247-266, load_functions *)
Definition load_functions (q : results) (d : database) : exec database :=
  ex l <- fetch function_of_row (rs_functions q); efor load_function l d.
(** mod.rs:143-165, load_unique *)
Definition load_unique (q : results) (d : database) : exec database :=
  ex l <- fetch unique_of_row (rs_uniques q); efor load_constraint l d.
(** mod.rs:197-218, load_checks *)
Definition load_checks (q : results) (d : database) : exec database :=
  ex l <- fetch check_of_row (rs_checks q); efor load_constraint l d.
(** mod.rs:220-245, load_indexes *)
Definition load_indexes (q : results) (d : database) : exec database :=
  ex l <- fetch index_of_row (rs_indexes q); efor load_index l d.

(** mod.rs:23-38, introspect, given what the queries return. *)
Definition introspect_rows (q : results) : exec database :=
  ex d <- load_schemas q database_new;
  ex d <- load_sequences q d;
  ex d <- load_tables q d;
  ex d <- load_columns q d;
  ex d <- load_primary_keys q d;
  ex d <- load_foreign_keys q d;
  ex d <- load_functions q d;
  ex d <- load_unique q d;
  ex d <- load_checks q d;
  load_indexes q d.

(** ** The queries *)

(** What the queries leave open: the order of the rows of each result (none has an ORDER
    BY), the order in which [array_agg] meets the columns of an object, and the texts of
    type modifiers ([bpchartypmodout] and so on, by the name of the type). *)
Record planner := Planner {
  row_order : str -> list row -> list row;
  row_order_perm : forall q l, row_order q l ≡ₚ l;
  agg_order : str -> oid -> list str -> list str;
  agg_order_perm : forall q o l, agg_order q o l ≡ₚ l;
  typmod_out : str -> Z -> str }.

(** A boolean condition. *)
Notation is b := (bool_decide b).
(** FROM and JOIN, by nested loops, and WHERE and ON. *)
Notation "'from' x 'in' l ';' k" := (@mbind list list_bind _ _ (fun x => k) l)
  (at level 200, x name, l at level 100, k at level 200).
Notation "'where' b ';' k" := (if b then k else [])
  (at level 200, b at level 100, k at level 200).
(** LEFT JOIN *)
Definition left_join {A} (l : list A) (on : A -> bool) : list (option A) :=
  match filter (fun a => on a = true) l with [] => [None] | l => Some <$> l end.
(** A subquery used as a value.  In all of them a row is selected by its oid, so that
    there is at most one; PostgreSQL would report an error otherwise. *)
Definition scalar (l : list str) : option str := head l.
(** A value that may be NULL. *)
Definition nullable {A} (f : A -> cell) (x : option A) : cell :=
  match x with Some a => f a | None => Null end.
(** A condition that may be NULL, which counts as false. *)
Definition holds {A} (x : option A) (f : A -> bool) : bool :=
  match x with Some a => f a | None => false end.
(** [array_agg(..)], NULL when there is nothing to aggregate. *)
Definition array_agg {A} (l : list A) : option (list A) := match l with [] => None | l => Some l end.
(** [||], NULL when a part is NULL. *)
Definition concat_null (a b : option str) : option str :=
  match a, b with Some a, Some b => Some (a ++ b) | _, _ => None end.

Section queries.
  Variable p : planner.
  Variable c : catalogue.
  Variable schemas : list str.

  (** The names of the columns [keys] of the relation [rel]: the subselect
      [array_agg(pa.attname) FROM UNNEST(..) JOIN pg_attribute], e.g. primarykey.sql:7-9. *)
  Definition column_names (q : str) (o rel : oid) (keys : list Z) : option (list str) :=
    array_agg (agg_order p q o
      (from k in keys;
       from a in ct_attributes c;
       where is (at_rel a = rel) && is (at_num a = k);
       [at_name a])).

  (** schema.sql *)
  Definition schema_rows : list row :=
    row_order p (L "schema")
      (from n in ct_namespaces c;
       where is (ns_name n ∈ schemas);
       [[Text (ns_name n)]]).

  (** sequence.sql:23-25, the last join *)
  Definition owners : list (depend * attribute) :=
    from pd in ct_depends c;
    from pa in ct_attributes c;
    where is (at_rel pa = de_refobj pd) && is (at_num pa = de_refsub pd);
    [(pd, pa)].
  (** sequence.sql *)
  Definition sequence_rows : list row :=
    row_order p (L "sequence")
      (from ps in ct_sequences c;
       from pc in ct_classes c; where is (se_rel ps = cl_oid pc);
       from pn in ct_namespaces c; where is (ns_oid pn = cl_namespace pc);
       from own in left_join owners (fun d => is (de_obj d.1 = se_rel ps));
       where is (ns_name pn ∈ schemas);
       [[Text (ns_name pn); Text (cl_name pc);
         nullable Text (scalar (from t in ct_types c; where is (ty_oid t = se_type ps); [ty_name t]));
         Int (se_increment ps); Int (se_min ps); Int (se_max ps); Int (se_start ps);
         Int (se_cache ps); Bool (se_cycle ps);
         nullable Text (own ≫= fun d => scalar (
           from t in ct_classes c; where is (at_rel d.2 = cl_oid t); [cl_name t]));
         nullable Text ((fun d => at_name d.2) <$> own)]]).

  (** table.sql:9-10, the last join: the types with a namespace *)
  Definition placed_types : list pgtype :=
    from t in ct_types c;
    from nt in ct_namespaces c; where is (ty_namespace t = ns_oid nt); [t].
  (** table.sql *)
  Definition table_rows : list row :=
    row_order p (L "table")
      (from nc in ct_namespaces c;
       from r in ct_classes c; where is (ns_oid nc = cl_namespace r);
       from t in left_join placed_types (fun t => is (cl_oftype r = ty_oid t));
       where (is (cl_kind r = KTable) || is (cl_kind r = KPartitioned)) &&
         negb (ns_other_temp nc) && (cl_usage r || (cl_select r || cl_write r)) &&
         is (ns_name nc ∈ schemas);
       [[Text (ns_name nc); Text (cl_name r)]]).

  (** column.sql:21-43, CASE t.typname: the types whose modifier is printed, together with
      the arrays of them. *)
  Definition modified_types : list str :=
    L <$> ["bpchar"; "varchar"; "time"; "timestamp"; "timestamptz"; "interval"; "timetz";
           "bit"; "varbit"; "numeric"]%string.
  (** See [modified_types]. *)
  Definition modifier (name : str) (m : Z) : option str :=
    match list_find (fun t => name = t \/ name = L "_" ++ t) modified_types with
    | Some (_, t) => Some (typmod_out p t m)
    | None => None
    end.
  (** column.sql:15-48, data_type *)
  Definition data_type (a : attribute) (t : pgtype) : option str :=
    concat_null (concat_null
      (if decide (ty_elem t <> 0%N)
       then scalar (from e in ct_types c; where is (ty_oid e = ty_elem t); [ty_name e])
       else Some (ty_name t))
      (match at_typmod a with Some m => modifier (ty_name t) m | None => Some [] end))
      (Some (if decide (ty_elem t <> 0%N) then L "[]" else [])).
  (** column.sql:10-11; an attribute has at most one default. *)
  Definition default_text (a : attribute) (ad : option attrdef) : str :=
    match ad with Some d => if at_generated a then [] else ad_expr d | None => [] end.

  (** column.sql *)
  Definition column_rows : list row :=
    row_order p (L "column")
      (from a in ct_attributes c;
       from ad in left_join (ct_attrdefs c) (fun d => is (at_rel a = ad_rel d) && is (at_num a = ad_num d));
       from r in ct_classes c; where is (at_rel a = cl_oid r);
       from nc in ct_namespaces c; where is (cl_namespace r = ns_oid nc);
       from t in placed_types; where is (at_type a = ty_oid t);
       where negb (ns_other_temp nc) && is (0 < at_num a)%Z && negb (at_dropped a) &&
         is (cl_kind r = KTable) && is (ns_name nc ∈ schemas);
       [[Text (ns_name nc); Text (cl_name r); Int (at_num a); Text (at_name a);
         Text (default_text a ad);
         Bool (at_notnull a || (ty_domain t && ty_notnull t));
         nullable Text (data_type a t)]]).

  (** primarykey.sql and unique.sql, which differ in [contype] only. *)
  Definition key_rows (q : str) (k : contype) : list row :=
    row_order p q
      (from nc in ct_namespaces c;
       from nr in ct_namespaces c;
       from n in ct_constraints c;
       from r in ct_classes c;
       where is (ns_oid nc = cn_namespace n) && is (ns_oid nr = cl_namespace r) &&
         is (cn_rel n = cl_oid r) && is (cn_type n = k) &&
         (is (cl_kind r = KTable) || is (cl_kind r = KPartitioned)) &&
         negb (ns_other_temp nr) && (cl_usage r || cl_write r) &&
         is (ns_name nc ∈ schemas);
       [[Text (ns_name nc); Text (cn_name n); Text (ns_name nr); Text (cl_name r);
         nullable Texts (column_names q (cn_oid n) (cn_rel n) (cn_key n));
         Bool (cn_deferrable n); Bool (cn_deferred n)]]).
  (** primarykey.sql *)
  Definition primary_key_rows : list row := key_rows (L "primarykey") KPrimary.
  (** unique.sql *)
  Definition unique_rows : list row := key_rows (L "unique") KUnique.

  (** foreignkey.sql:29-34 *)
  Definition match_text (m : N) : option str :=
    if decide (m = 102%N) then Some (L "FULL") else if decide (m = 112%N) then Some (L "PARTIAL")
    else if decide (m = 115%N) then Some (L "NONE") else None.
  (** foreignkey.sql:35-42 and 43-50 *)
  Definition rule_text (r : N) : option str :=
    if decide (r = 99%N) then Some (L "CASCADE") else if decide (r = 110%N) then Some (L "SET NULL")
    else if decide (r = 100%N) then Some (L "SET DEFAULT")
    else if decide (r = 114%N) then Some (L "RESTRICT")
    else if decide (r = 97%N) then Some (L "NO ACTION") else None.
  (** foreignkey.sql:14-26; the constraint [k] is a primary key or unique, so that the
      cases for [contype = 'f'] do not arise. *)
  Definition target_names (con k : pgconstraint) (fc : class) : option (list str) :=
    array_agg (agg_order p (L "foreignkey target") (cn_oid con)
      (from a in ct_attributes c;
       where is (cl_oid fc = at_rel a) && is (cl_oid fc = cn_rel k) &&
         is (at_num a ∈ cn_key k) && negb (at_dropped a);
       [at_name a])).

  (** foreignkey.sql *)
  Definition foreign_key_rows : list row :=
    row_order p (L "foreignkey")
      (from ncon in ct_namespaces c;
       from con in ct_constraints c; where is (ns_oid ncon = cn_namespace con);
       from r in ct_classes c; where is (cn_rel con = cl_oid r) && is (cn_type con = KForeign);
       from d1 in left_join (ct_depends c) (fun d =>
         is (de_obj d = cn_oid con) && is (de_class d = PgConstraint) &&
         is (de_refclass d = PgClass) && is (de_refsub d = 0%Z));
       from d2 in left_join (ct_depends c) (fun d =>
         is (de_refclass d = PgConstraint) && is (de_class d = PgClass) &&
         holds d1 (fun d1 => is (de_obj d = de_refobj d1)) &&
         is (de_sub d = 0%Z) && de_internal d);
       from fc in left_join (ct_classes c) (fun f => is (cn_frel con = cl_oid f));
       from pkc in left_join (ct_constraints c) (fun k =>
         holds d2 (fun d2 => is (cn_oid k = de_refobj d2)) &&
         (is (cn_type k = KPrimary) || is (cn_type k = KUnique)) &&
         is (cn_rel k = cn_frel con));
       from npkc in left_join (ct_namespaces c) (fun n =>
         holds pkc (fun k => is (cn_namespace k = ns_oid n)));
       where (cl_usage r || cl_write r) && is (ns_name ncon ∈ schemas);
       [[Text (ns_name ncon); Text (cn_name con); Text (cl_name r);
         nullable Texts (column_names (L "foreignkey") (cn_oid con) (cn_rel con) (cn_key con));
         nullable Text (ns_name <$> npkc); nullable Text (cl_name <$> fc);
         nullable Texts (pkc ≫= fun k => fc ≫= target_names con k);
         Bool (cn_deferrable con); Bool (cn_deferred con);
         nullable Text (match_text (cn_match con)); nullable Text (rule_text (cn_update con));
         nullable Text (rule_text (cn_delete con))]]).

  (** function.sql:6-9 *)
  Definition returns_text (f : proc) : option str :=
    concat_null (Some (if pr_retset f then L "setof " else []))
      (scalar (from t in ct_types c; where is (ty_oid t = pr_rettype f); [ty_format t])).
  (** function.sql:10-14 *)
  Definition volatility_text (v : N) : str :=
    if decide (v = 105%N) then L "IMMUTABLE" else if decide (v = 115%N) then L "STABLE"
    else L "VOLATILE".
  (** function.sql *)
  Definition function_rows : list row :=
    row_order p (L "function")
      (from f in ct_procs c;
       from n in ct_namespaces c; where is (pr_namespace f = ns_oid n);
       from l in ct_languages c; where is (pr_lang f = la_oid l);
       where is (ns_name n ∈ schemas);
       [[Text (ns_name n); Text (pr_name f); Text (pr_src f); Text (la_name l);
         nullable Text (returns_text f); Text (volatility_text (pr_volatile f))]]).

  (** check.sql.  [SUBSTRING(.., 7)] is the text from the seventh character on; the join
      with pg_type is dropped: it has at most one partner and is used only for
      constraints of domains, which [conrelid <> 0] excludes. *)
  Definition check_rows : list row :=
    row_order p (L "check")
      (from con in ct_constraints c;
       from rs in left_join (ct_namespaces c) (fun n => is (ns_oid n = cn_namespace con));
       from r in left_join (ct_classes c) (fun r => is (cl_oid r = cn_rel con));
       where holds r cl_usage && is (cn_type con = KCheck) && is (cn_rel con <> 0%N) &&
         holds rs (fun n => is (ns_name n ∈ schemas));
       [[nullable Text (ns_name <$> rs); nullable Text (cl_name <$> r); Text (cn_name con);
         Text (drop 6 (cn_def con)); Bool (cn_deferrable con); Bool (cn_deferred con)]]).

  (** index.sql *)
  Definition index_rows : list row :=
    row_order p (L "index")
      (from i in ct_indexes c;
       from x in ct_classes c; where is (cl_oid x = in_oid i);
       from n in ct_namespaces c; where is (cl_namespace x = ns_oid n);
       from t in ct_classes c; where is (cl_oid t = in_rel i);
       from am in ct_ams c; where is (am_oid am = cl_am x);
       from k in left_join (ct_constraints c) (fun k => is (cn_index k = cl_oid x));
       where match k with None => true | Some _ => false end && is (ns_name n ∈ schemas);
       [[Text (ns_name n); Text (cl_name x); Text (cl_name t); Bool (in_unique i);
         Text (am_name am); Int (in_natts i);
         nullable Texts (column_names (L "index") (in_oid i) (in_rel i) (in_key i));
         nullable Ints (array_agg (in_option i)); nullable Text (in_expr i)]]).

  (** src/introspection/mod.rs:23-38 on the catalogues; PostgreSQL reports no error. *)
  Definition query_results : results :=
    Results (Some schema_rows) (Some sequence_rows) (Some table_rows) (Some column_rows)
      (Some primary_key_rows) (Some foreign_key_rows) (Some function_rows) (Some unique_rows)
      (Some check_rows) (Some index_rows).
  (** See [query_results]. *)
  Definition introspect_catalogue : exec database := introspect_rows query_results.
End queries.
