(** Specification of introspection in terms of the catalogues: what a database contains,
    without reference to the queries. *)
From Verif Require Import Base Types Changes SpecSnapshot Diff Sql History Catalog Introspect.

Section spec.
  (** [mods] is how PostgreSQL shows a type modifier, by the name of the type. *)
  Context (mods : str -> Z -> str) (c : catalogue) (schemas : list str).

  (** ** Catalogues of PostgreSQL

      Unique indexes and references between catalogues, as PostgreSQL maintains them. *)
  Record proper : Prop := Proper {
    pr_namespace_oid : forall n m, n ∈ ct_namespaces c -> m ∈ ct_namespaces c -> ns_oid n = ns_oid m -> n = m;
    pr_class_oid : forall r s, r ∈ ct_classes c -> s ∈ ct_classes c -> cl_oid r = cl_oid s -> r = s;
    pr_type_oid : forall t u, t ∈ ct_types c -> u ∈ ct_types c -> ty_oid t = ty_oid u -> t = u;
    pr_type_namespace : forall t, t ∈ ct_types c -> exists n, n ∈ ct_namespaces c /\ ns_oid n = ty_namespace t;
    (** the columns of keys exist *)
    pr_attribute_num : forall a b, a ∈ ct_attributes c -> b ∈ ct_attributes c ->
      at_rel a = at_rel b -> at_num a = at_num b -> a = b;
    pr_attributes : NoDup (ct_attributes c);
    pr_key : forall k z, k ∈ ct_constraints c ->
      cn_type k = KPrimary \/ cn_type k = KUnique \/ cn_type k = KForeign -> z ∈ cn_key k ->
      exists a, a ∈ ct_attributes c /\ at_rel a = cn_rel k /\ at_num a = z;
    pr_index_key : forall i z, i ∈ ct_indexes c -> in_expr i = None -> z ∈ in_key i ->
      exists a, a ∈ ct_attributes c /\ at_rel a = in_rel i /\ at_num a = z;
    pr_attribute_name : forall a b, a ∈ ct_attributes c -> b ∈ ct_attributes c ->
      at_rel a = at_rel b -> at_name a = at_name b -> a = b;
    (** a constraint lies in the schema of its table *)
    pr_constraint_schema : forall k r, k ∈ ct_constraints c -> r ∈ ct_classes c ->
      cn_rel k = cl_oid r -> cn_namespace k = cl_namespace r }.

  (** ** The objects of the schemas *)

  (** A schema. *)
  Definition in_scope (n : namespace) : Prop := n ∈ ct_namespaces c /\ ns_name n ∈ schemas.

  (** A relation in a schema. *)
  Definition placed (r : class) (n : namespace) : Prop :=
    r ∈ ct_classes c /\ in_scope n /\ cl_namespace r = ns_oid n.

  (** The role may use a table, or change it. *)
  Definition may_use (r : class) : Prop := cl_usage r = true \/ cl_select r = true \/ cl_write r = true.
  Definition may_change (r : class) : Prop := cl_usage r = true \/ cl_write r = true.

  Definition is_table_class (r : class) (n : namespace) : Prop :=
    placed r n /\ (cl_kind r = KTable \/ cl_kind r = KPartitioned) /\ ns_other_temp n = false.

  (** The names of the columns of a table, by number. *)
  Definition column_named (rel : oid) (z : Z) (s : str) : Prop :=
    exists a, a ∈ ct_attributes c /\ at_rel a = rel /\ at_num a = z /\ at_name a = s.
  (** The names of some columns, in some order. *)
  Definition columns_named (rel : oid) (zs : list Z) (l : list str) : Prop :=
    exists l', Forall2 (column_named rel) zs l' /\ l ≡ₚ l'.

  (** How the type of a column is written. *)
  Inductive type_written : attribute -> pgtype -> str -> Prop :=
    | type_plain a t m :
        ty_elem t = 0%N -> modifier_written a t m -> type_written a t (ty_name t ++ m)
    | type_array a t e m :
        ty_elem t <> 0%N -> e ∈ ct_types c -> ty_oid e = ty_elem t -> modifier_written a t m ->
        type_written a t (ty_name e ++ m ++ L "[]")
  with modifier_written : attribute -> pgtype -> str -> Prop :=
    | modifier_none a t : at_typmod a = None -> modifier_written a t []
    | modifier_some a t z n :
        at_typmod a = Some z ->
        n ∈ (L <$> ["bpchar"; "varchar"; "time"; "timestamp"; "timestamptz"; "interval";
                    "timetz"; "bit"; "varbit"; "numeric"]%string) ->
        ty_name t = n \/ ty_name t = L "_" ++ n ->
        modifier_written a t (mods n z).

  (** The default of a column; that of a generated column is not one. *)
  Inductive default_of : attribute -> option str -> Prop :=
    | default_none a :
        (forall x, x ∈ ct_attrdefs c -> ad_rel x = at_rel a -> ad_num x <> at_num a) -> default_of a None
    | default_generated a : at_generated a = true -> default_of a None
    | default_some a x :
        at_generated a = false -> x ∈ ct_attrdefs c -> ad_rel x = at_rel a -> ad_num x = at_num a ->
        default_of a (if decide (ad_expr x = []) then None else Some (ad_expr x)).

  (** A column of an ordinary table. *)
  Record is_column (a : attribute) (r : class) (n : namespace) (t : pgtype) : Prop := IsColumn {
    ic_attribute : a ∈ ct_attributes c /\ at_rel a = cl_oid r /\ (0 < at_num a)%Z /\ at_dropped a = false;
    ic_table : placed r n /\ cl_kind r = KTable /\ ns_other_temp n = false;
    ic_type : t ∈ ct_types c /\ at_type a = ty_oid t }.
  Record column_of (a : attribute) (r : class) (n : namespace) (t : pgtype) (x : column) : Prop := ColumnOf {
    cf_names : col_schema x = ns_name n /\ col_table x = cl_name r /\ col_name x = at_name a;
    cf_type : type_written a t (col_type x);
    cf_notnull : col_notnull x = at_notnull a || (ty_domain t && ty_notnull t);
    cf_default : default_of a (col_default x) }.

  (** A constraint of a table. *)
  Definition is_constraint (k : pgconstraint) (r : class) (n : namespace) : Prop :=
    k ∈ ct_constraints c /\ placed r n /\ cn_rel k = cl_oid r.
  Definition is_key (k : pgconstraint) (r : class) (n : namespace) (ty : contype) : Prop :=
    is_constraint k r n /\ cn_type k = ty /\ (cl_kind r = KTable \/ cl_kind r = KPartitioned) /\
    ns_other_temp n = false /\ may_change r.
  Definition constraint_of (k : pgconstraint) (r : class) (n : namespace) (x : constraint) : Prop :=
    constraint_schema x = ns_name n /\ constraint_table x = cl_name r /\ constraint_name x = cn_name k.
  Definition primary_key_of (k : pgconstraint) (r : class) (n : namespace) (x : primary_key) : Prop :=
    constraint_of k r n (CPrimaryKey x) /\ columns_named (cn_rel k) (cn_key k) (pk_columns x) /\
    pk_deferrable x = cn_deferrable k /\ pk_initially x = cn_deferred k.
  Definition unique_of (k : pgconstraint) (r : class) (n : namespace) (x : unique) : Prop :=
    constraint_of k r n (CUnique x) /\ columns_named (cn_rel k) (cn_key k) (uq_columns x) /\
    uq_deferrable x = cn_deferrable k /\ uq_initially x = cn_deferred k.
  Definition is_check (k : pgconstraint) (r : class) (n : namespace) : Prop :=
    is_constraint k r n /\ cn_type k = KCheck /\ cn_rel k <> 0%N /\ cl_usage r = true.
  (** The definition is [CHECK] and a space, followed by the expression. *)
  Definition check_of (k : pgconstraint) (r : class) (n : namespace) (x : check) : Prop :=
    constraint_of k r n (CCheck x) /\
    (forall e, cn_def k = L "CHECK " ++ e -> ck_expression x = e) /\
    ck_deferrable x = cn_deferrable k /\ ck_initially x = cn_deferred k.

  (** The key that a foreign key refers to: the constraint to which the index belongs on
      which the foreign key depends. *)
  Definition needs_index (k : pgconstraint) (d : depend) : Prop :=
    d ∈ ct_depends c /\ de_class d = PgConstraint /\ de_obj d = cn_oid k /\
    de_refclass d = PgClass /\ de_refsub d = 0%Z.
  Definition index_belongs (d e : depend) : Prop :=
    e ∈ ct_depends c /\ de_class e = PgClass /\ de_obj e = de_refobj d /\ de_sub e = 0%Z /\
    de_refclass e = PgConstraint /\ de_internal e = true.
  Definition refers_to (k g : pgconstraint) : Prop :=
    g ∈ ct_constraints c /\ (cn_type g = KPrimary \/ cn_type g = KUnique) /\ cn_rel g = cn_frel k /\
    exists d e, needs_index k d /\ index_belongs d e /\ de_refobj e = cn_oid g.
  Definition is_foreign_key (k : pgconstraint) (r : class) (n : namespace) : Prop :=
    is_constraint k r n /\ cn_type k = KForeign /\ may_change r.
  Inductive rule_written : N -> str -> Prop :=
    | rule_c : rule_written 99 (L "CASCADE") | rule_n : rule_written 110 (L "SET NULL")
    | rule_d : rule_written 100 (L "SET DEFAULT") | rule_r : rule_written 114 (L "RESTRICT")
    | rule_a : rule_written 97 (L "NO ACTION").
  (** As the query writes it: MATCH SIMPLE is shown as NONE. *)
  Inductive match_written : N -> str -> Prop :=
    | match_f : match_written 102 (L "FULL") | match_p : match_written 112 (L "PARTIAL")
    | match_s : match_written 115 (L "NONE").
  (** The columns referred to are the live columns of that key, in some order. *)
  Definition foreign_key_of (k : pgconstraint) (r : class) (n : namespace)
      (g : pgconstraint) (r2 : class) (n2 : namespace) (x : foreign_key) : Prop :=
    constraint_of k r n (CForeignKey x) /\
    refers_to k g /\ r2 ∈ ct_classes c /\ cn_frel k = cl_oid r2 /\
    n2 ∈ ct_namespaces c /\ cl_namespace r2 = ns_oid n2 /\
    columns_named (cn_rel k) (cn_key k) (fk_columns x) /\
    fk_tschema x = ns_name n2 /\ fk_ttable x = cl_name r2 /\
    NoDup (fk_tcolumns x) /\
    (forall s, s ∈ fk_tcolumns x <-> exists a, a ∈ ct_attributes c /\ at_rel a = cl_oid r2 /\
       at_num a ∈ cn_key g /\ at_dropped a = false /\ at_name a = s) /\
    match_written (cn_match k) (fk_match x) /\
    rule_written (cn_update k) (fk_update x) /\ rule_written (cn_delete k) (fk_delete x) /\
    fk_deferrable x = cn_deferrable k /\ fk_initially x = cn_deferred k.

  (** Sequences, and the columns that own them. *)
  Definition is_sequence (q : pgsequence) (r : class) (n : namespace) : Prop :=
    q ∈ ct_sequences c /\ placed r n /\ se_rel q = cl_oid r.
  Definition owned_by (q : pgsequence) (a : attribute) : Prop :=
    a ∈ ct_attributes c /\ exists d, d ∈ ct_depends c /\ de_obj d = se_rel q /\
      de_refobj d = at_rel a /\ de_refsub d = at_num a.
  Inductive owner_of : pgsequence -> option str -> option str -> Prop :=
    | owner_none q : (forall a, ~ owned_by q a) -> owner_of q None None
    | owner_some q a r :
        owned_by q a -> r ∈ ct_classes c -> at_rel a = cl_oid r ->
        owner_of q (Some (cl_name r)) (Some (at_name a))
    | owner_lost q a :
        owned_by q a -> (forall r, r ∈ ct_classes c -> at_rel a <> cl_oid r) ->
        owner_of q None (Some (at_name a)).
  Record sequence_of (q : pgsequence) (r : class) (n : namespace) (x : sequence) : Prop := SequenceOf {
    sf_names : sq_schema x = ns_name n /\ sq_name x = cl_name r;
    sf_type : exists t, t ∈ ct_types c /\ ty_oid t = se_type q /\ sq_type x = ty_name t;
    sf_increment : sq_increment x = se_increment q;
    sf_min : sq_min x = se_min q;
    sf_max : sq_max x = se_max q;
    sf_start : sq_start x = se_start q;
    sf_cache : sq_cache x = se_cache q;
    sf_cycle : sq_cycle x = se_cycle q;
    sf_owner : owner_of q (sq_owned_table x) (sq_owned_column x) }.

  (** Functions. *)
  Definition is_function (f : proc) (n : namespace) (l : language) : Prop :=
    f ∈ ct_procs c /\ in_scope n /\ pr_namespace f = ns_oid n /\ l ∈ ct_languages c /\ pr_lang f = la_oid l.
  Inductive volatility_written : N -> str -> Prop :=
    | volatility_i : volatility_written 105 (L "IMMUTABLE")
    | volatility_s : volatility_written 115 (L "STABLE")
    | volatility_v v : v <> 105%N -> v <> 115%N -> volatility_written v (L "VOLATILE").
  Record function_of (f : proc) (n : namespace) (l : language) (x : function) : Prop := FunctionOf {
    ff_names : fn_schema x = ns_name n /\ fn_name x = pr_name f;
    ff_body : fn_body x = pr_src f;
    ff_language : fn_language x = la_name l;
    ff_returns : exists t, t ∈ ct_types c /\ ty_oid t = pr_rettype f /\
      fn_returns x = if pr_retset f then L "setof " ++ ty_format t else ty_format t;
    ff_volatility : volatility_written (pr_volatile f) (fn_volatility x) }.

  (** Indexes: only those to which no constraint refers. *)
  Definition is_index (i : pgindex) (x : class) (n : namespace) (t : class) (m : access_method) : Prop :=
    i ∈ ct_indexes c /\ placed x n /\ in_oid i = cl_oid x /\
    t ∈ ct_classes c /\ in_rel i = cl_oid t /\ m ∈ ct_ams c /\ cl_am x = am_oid m /\
    forall k, k ∈ ct_constraints c -> cn_index k <> cl_oid x.
  Inductive index_keys : pgindex -> list str -> Prop :=
    | keys_expressions i e : in_expr i = Some e -> index_keys i [e]
    | keys_columns i l :
        in_expr i = None -> l <> [] -> columns_named (in_rel i) (in_key i) l -> index_keys i l.
  Record index_of (i : pgindex) (x : class) (n : namespace) (t : class) (m : access_method) (y : index) : Prop := IndexOf {
    if_names : ix_schema y = ns_name n /\ ix_name y = cl_name x /\ ix_table y = cl_name t;
    if_unique : ix_unique y = in_unique i;
    if_method : ix_method y = am_name m;
    if_keys : index_keys i (ix_keys y) }.

  (** ** Databases that can be cloned *)

  (** More of what PostgreSQL maintains: unique indexes and references again. *)
  Record indexed : Prop := Indexed {
    iq_namespaces : NoDup (ct_namespaces c);
    iq_namespace_name : forall n m, n ∈ ct_namespaces c -> m ∈ ct_namespaces c -> ns_name n = ns_name m -> n = m;
    iq_classes : NoDup (ct_classes c);
    iq_class_name : forall r s, r ∈ ct_classes c -> s ∈ ct_classes c ->
      cl_namespace r = cl_namespace s -> cl_name r = cl_name s -> r = s;
    iq_types : NoDup (ct_types c);
    iq_attrdefs : NoDup (ct_attrdefs c);
    iq_attrdef : forall x y, x ∈ ct_attrdefs c -> y ∈ ct_attrdefs c ->
      ad_rel x = ad_rel y -> ad_num x = ad_num y -> x = y;
    iq_constraints : NoDup (ct_constraints c);
    iq_constraint_oid : forall k g, k ∈ ct_constraints c -> g ∈ ct_constraints c -> cn_oid k = cn_oid g -> k = g;
    iq_constraint_name : forall k g r, k ∈ ct_constraints c -> g ∈ ct_constraints c -> r ∈ ct_classes c ->
      cn_rel k = cl_oid r -> cn_rel g = cl_oid r -> cn_name k = cn_name g -> k = g;
    iq_indexes : NoDup (ct_indexes c);
    iq_index_oid : forall i j, i ∈ ct_indexes c -> j ∈ ct_indexes c -> in_oid i = in_oid j -> i = j;
    iq_ams : NoDup (ct_ams c);
    iq_am_oid : forall m m', m ∈ ct_ams c -> m' ∈ ct_ams c -> am_oid m = am_oid m' -> m = m';
    iq_sequences : NoDup (ct_sequences c);
    iq_sequence_oid : forall q q', q ∈ ct_sequences c -> q' ∈ ct_sequences c -> se_rel q = se_rel q' -> q = q';
    iq_depends : NoDup (ct_depends c);
    iq_procs : NoDup (ct_procs c);
    iq_languages : NoDup (ct_languages c);
    iq_language_oid : forall l m, l ∈ ct_languages c -> m ∈ ct_languages c -> la_oid l = la_oid m -> l = m;
    (** the relations of sequences and indexes are of that kind *)
    iq_sequence_kind : forall q r, q ∈ ct_sequences c -> r ∈ ct_classes c -> se_rel q = cl_oid r -> cl_kind r = KSequence;
    iq_index_kind : forall i r, i ∈ ct_indexes c -> r ∈ ct_classes c -> in_oid i = cl_oid r -> cl_kind r = KIndex;
    (** the types of sequences, of results and of elements exist *)
    iq_sequence_type : forall q, q ∈ ct_sequences c -> exists t, t ∈ ct_types c /\ ty_oid t = se_type q;
    iq_result_type : forall f, f ∈ ct_procs c -> exists t, t ∈ ct_types c /\ ty_oid t = pr_rettype f;
    iq_element_type : forall t, t ∈ ct_types c -> ty_elem t <> 0%N -> exists e, e ∈ ct_types c /\ ty_oid e = ty_elem t;
    (** keys have columns, which are not dropped *)
    iq_key : forall k, k ∈ ct_constraints c ->
      cn_type k = KPrimary \/ cn_type k = KUnique \/ cn_type k = KForeign -> cn_key k <> [];
    iq_key_live : forall k a, k ∈ ct_constraints c -> cn_type k = KPrimary \/ cn_type k = KUnique ->
      a ∈ ct_attributes c -> at_rel a = cn_rel k -> at_num a ∈ cn_key k -> at_dropped a = false;
    iq_index_columns : forall i, i ∈ ct_indexes c -> in_key i <> [] /\ in_option i <> [];
    (** foreign keys are between tables, and their codes are known *)
    iq_foreign_table : forall k r, k ∈ ct_constraints c -> cn_type k = KForeign ->
      r ∈ ct_classes c -> cn_rel k = cl_oid r -> cl_kind r = KTable \/ cl_kind r = KPartitioned;
    iq_foreign_target : forall k, k ∈ ct_constraints c -> cn_type k = KForeign ->
      exists r n, r ∈ ct_classes c /\ cn_frel k = cl_oid r /\ n ∈ ct_namespaces c /\ cl_namespace r = ns_oid n;
    iq_foreign_codes : forall k, k ∈ ct_constraints c -> cn_type k = KForeign ->
      cn_match k ∈ [102; 112; 115]%N /\ cn_update k ∈ [99; 110; 100; 114; 97]%N /\
      cn_delete k ∈ [99; 110; 100; 114; 97]%N }.

  (** What the database must avoid besides: functions that share a name, tables that the
      role may not use at all, columns with a type modifier that the query does not know,
      check constraints of relations other than tables, foreign keys to an index that
      belongs to no constraint, foreign keys and check constraints in the temporary schema
      of another session, and sequences with several owners. *)
  Record clonable : Prop := Clonable {
    cb_function : forall f g n l m, is_function f n l -> is_function g n m -> pr_name f = pr_name g -> f = g;
    cb_visible : forall a r n t, is_column a r n t -> may_use r;
    cb_modifier : forall a r n t z, is_column a r n t -> at_typmod a = Some z ->
      exists s, s ∈ (L <$> ["bpchar"; "varchar"; "time"; "timestamp"; "timestamptz"; "interval";
                            "timetz"; "bit"; "varbit"; "numeric"]%string) /\
        (ty_name t = s \/ ty_name t = L "_" ++ s);
    cb_check : forall k r n, is_check k r n ->
      (cl_kind r = KTable \/ cl_kind r = KPartitioned) /\ ns_other_temp n = false;
    cb_reference : forall k r n, is_foreign_key k r n -> ns_other_temp n = false /\
      (exists g, refers_to k g) /\ (forall d d', needs_index k d -> needs_index k d' -> d = d') /\
      (forall d e e', needs_index k d -> index_belongs d e -> index_belongs d e' -> e = e');
    cb_owner : forall q r n a a' d d', is_sequence q r n ->
      a ∈ ct_attributes c -> d ∈ ct_depends c -> de_obj d = se_rel q -> de_refobj d = at_rel a -> de_refsub d = at_num a ->
      a' ∈ ct_attributes c -> d' ∈ ct_depends c -> de_obj d' = se_rel q -> de_refobj d' = at_rel a' ->
      de_refsub d' = at_num a' -> d = d' /\ a = a' }.

  (** ** A snapshot that shows the database

      For each kind, every object of the database is in the snapshot ([_in]), and every
      object in the snapshot is one of the database ([_of]).  Views are not mentioned. *)
  Record shows (d : database) : Prop := Shows {
    sh_schema : forall s, is_Some (db_schemas d !! s) <-> exists n, in_scope n /\ ns_name n = s;
    sh_table : forall s k, table_at d s k <->
      exists r n, is_table_class r n /\ may_use r /\ ns_name n = s /\ cl_name r = k;
    sh_column_in : forall a r n t, is_column a r n t ->
      exists x, column_of a r n t x /\ column_at d (ns_name n) (cl_name r) (at_name a) = Some x;
    sh_column_of : forall s k j x, column_at d s k j = Some x ->
      exists a r n t, is_column a r n t /\ column_of a r n t x /\ ns_name n = s /\ cl_name r = k /\ at_name a = j;
    sh_primary_key_in : forall k r n, is_key k r n KPrimary ->
      exists x, primary_key_of k r n x /\
        constraint_at d (ns_name n) (cl_name r) (cn_name k) = Some (CPrimaryKey x);
    sh_primary_key_of : forall s t j x, constraint_at d s t j = Some (CPrimaryKey x) ->
      exists k r n, is_key k r n KPrimary /\ primary_key_of k r n x /\
        ns_name n = s /\ cl_name r = t /\ cn_name k = j;
    sh_unique_in : forall k r n, is_key k r n KUnique ->
      exists x, unique_of k r n x /\
        constraint_at d (ns_name n) (cl_name r) (cn_name k) = Some (CUnique x);
    sh_unique_of : forall s t j x, constraint_at d s t j = Some (CUnique x) ->
      exists k r n, is_key k r n KUnique /\ unique_of k r n x /\
        ns_name n = s /\ cl_name r = t /\ cn_name k = j;
    sh_check_in : forall k r n, is_check k r n ->
      exists x, check_of k r n x /\
        constraint_at d (ns_name n) (cl_name r) (cn_name k) = Some (CCheck x);
    sh_check_of : forall s t j x, constraint_at d s t j = Some (CCheck x) ->
      exists k r n, is_check k r n /\ check_of k r n x /\ ns_name n = s /\ cl_name r = t /\ cn_name k = j;
    sh_foreign_key_in : forall k r n, is_foreign_key k r n ->
      exists g r2 n2 x, foreign_key_of k r n g r2 n2 x /\
        constraint_at d (ns_name n) (cl_name r) (cn_name k) = Some (CForeignKey x);
    sh_foreign_key_of : forall s t j x, constraint_at d s t j = Some (CForeignKey x) ->
      exists k r n g r2 n2, is_foreign_key k r n /\ foreign_key_of k r n g r2 n2 x /\
        ns_name n = s /\ cl_name r = t /\ cn_name k = j;
    sh_sequence_in : forall q r n, is_sequence q r n ->
      exists x, sequence_of q r n x /\ relation_at d (ns_name n) (cl_name r) = Some (RSequence x);
    sh_sequence_of : forall s j x, relation_at d s j = Some (RSequence x) ->
      exists q r n, is_sequence q r n /\ sequence_of q r n x /\ ns_name n = s /\ cl_name r = j;
    sh_function_in : forall f n l, is_function f n l ->
      exists x, function_of f n l x /\ function_at d (ns_name n) (pr_name f) = Some x;
    sh_function_of : forall s j x, function_at d s j = Some x ->
      exists f n l, is_function f n l /\ function_of f n l x /\ ns_name n = s /\ pr_name f = j;
    sh_index_in : forall i x n t m, is_index i x n t m ->
      exists y, index_of i x n t m y /\ relation_at d (ns_name n) (cl_name x) = Some (RIndex y);
    sh_index_of : forall s j y, relation_at d s j = Some (RIndex y) ->
      exists i x n t m, is_index i x n t m /\ index_of i x n t m y /\ ns_name n = s /\ cl_name x = j }.
End spec.
