(** What the queries of src/introspection/*.sql read: the system catalogues of PostgreSQL.
    Each record has the columns that some query mentions, and no others. *)
From Verif Require Import Base.

(** Object identifiers; 0 stands for none. *)
Notation oid := N.

(** pg_namespace (schema.sql:4-5).  [ns_other_temp] is [pg_is_other_temp_schema(oid)]. *)
Record namespace := Namespace { ns_oid : oid; ns_name : str; ns_other_temp : bool }.

(** [relkind] (table.sql:11, column.sql:57, view.sql:44). *)
Inductive relkind := KTable | KPartitioned | KView | KIndex | KSequence | KOther.
Global Instance relkind_eq_dec : EqDecision relkind.
Proof. solve_decision. Defined.

(** pg_class.  The privileges of the current role on the relation: [cl_usage] is
    [pg_has_role(relowner, 'USAGE')]; [cl_write] is [has_table_privilege] or
    [has_any_column_privilege] for the privileges listed in primarykey.sql:26-27, all
    but SELECT; [cl_select] is the same for SELECT (table.sql:15-16). *)
Record class := Class {
  cl_oid : oid; cl_name : str; cl_namespace : oid; cl_kind : relkind;
  cl_oftype : oid; cl_am : oid;
  cl_usage : bool; cl_write : bool; cl_select : bool }.

(** pg_attribute (column.sql). [at_generated] is [attgenerated <> ''];
    [at_typmod] is [None] for -1. *)
Record attribute := Attribute {
  at_rel : oid; at_num : Z; at_name : str; at_type : oid; at_typmod : option Z;
  at_notnull : bool; at_dropped : bool; at_generated : bool }.

(** pg_attrdef (column.sql:52). [ad_expr] is [pg_get_expr(adbin, adrelid)]. *)
Record attrdef := Attrdef { ad_rel : oid; ad_num : Z; ad_expr : str }.

(** pg_type (column.sql:15-19,45-50).  [ty_domain] is [typtype = 'd']; [ty_format] is
    [format_type(oid, NULL)] (function.sql:7-8). *)
Record pgtype := Pgtype {
  ty_oid : oid; ty_name : str; ty_namespace : oid; ty_elem : oid;
  ty_domain : bool; ty_notnull : bool; ty_format : str }.

(** [contype] *)
Inductive contype := KPrimary | KUnique | KForeign | KCheck | KOtherConstraint.
Global Instance contype_eq_dec : EqDecision contype.
Proof. solve_decision. Defined.

(** pg_constraint. [cn_def] is [pg_get_constraintdef(oid)] (check.sql:8); the three
    one-letter codes of foreign keys are characters. *)
Record pgconstraint := Pgconstraint {
  cn_oid : oid; cn_name : str; cn_namespace : oid; cn_type : contype; cn_rel : oid;
  cn_key : list Z; cn_frel : oid; cn_fkey : list Z; cn_index : oid;
  cn_deferrable : bool; cn_deferred : bool;
  cn_match : N; cn_update : N; cn_delete : N; cn_def : str }.

(** pg_index (index.sql). [in_expr] is [pg_get_expr(indexprs, indrelid)]. *)
Record pgindex := Pgindex {
  in_oid : oid; in_rel : oid; in_unique : bool; in_natts : Z; in_key : list Z;
  in_option : list Z; in_expr : option str }.

(** pg_am (index.sql:33) *)
Record access_method := AccessMethod { am_oid : oid; am_name : str }.

(** pg_sequence (sequence.sql) *)
Record pgsequence := Pgsequence {
  se_rel : oid; se_type : oid; se_increment : Z; se_min : Z; se_max : Z; se_start : Z;
  se_cache : Z; se_cycle : bool }.

(** The catalogues that pg_depend can refer to: the two that foreignkey.sql:57-58 names,
    and the others. *)
Inductive catalogue_id := PgClass | PgConstraint | PgOther (n : N).
Global Instance catalogue_id_eq_dec : EqDecision catalogue_id.
Proof. solve_decision. Defined.

(** pg_depend. [de_internal] is [deptype = 'i']. *)
Record depend := Depend {
  de_class : catalogue_id; de_obj : oid; de_sub : Z;
  de_refclass : catalogue_id; de_refobj : oid; de_refsub : Z; de_internal : bool }.

(** pg_proc (function.sql) *)
Record proc := Proc {
  pr_name : str; pr_namespace : oid; pr_lang : oid; pr_src : str;
  pr_retset : bool; pr_rettype : oid; pr_volatile : N }.

(** pg_language (function.sql:18) *)
Record language := Language { la_oid : oid; la_name : str }.

(** The catalogues; each lists its rows in the order in which a scan meets them. *)
Record catalogue := Catalogue {
  ct_namespaces : list namespace; ct_classes : list class;
  ct_attributes : list attribute; ct_attrdefs : list attrdef; ct_types : list pgtype;
  ct_constraints : list pgconstraint; ct_indexes : list pgindex; ct_ams : list access_method;
  ct_sequences : list pgsequence; ct_depends : list depend; ct_procs : list proc;
  ct_languages : list language }.
