(** Specification vocabulary for definitions: which texts, nodes and snapshots can be
    written and read back. *)
From Verif Require Import Base Text Types Changes SpecSnapshot Node Yaml.

(** ** Texts *)

(** No white space at either end. *)
Definition bare (s : str) : Prop :=
  (forall c, head s = Some c -> is_ws c = false) /\
  (forall c, last s = Some c -> is_ws c = false).

(** No '=', '!' or line feed inside. *)
Definition lacks (c : N) (s : str) : Prop := c ∉ s.

(** The column expressions that can be read back: the type has no '=' or '!' and no white
    space at its ends, and is not empty unless only a default follows; the default has no
    white space at its ends and no line feed. *)
Definition column_writable (ty : str) (notnull : bool) (default : option str) : Prop :=
  lacks 61 ty /\ lacks 33 ty /\ bare ty /\
  (ty <> [] \/ (notnull = false /\ default <> None)) /\
  (forall d, default = Some d -> bare d /\ lacks 10 d).

(** [t] is [s] without the white space at its ends. *)
Definition blank (s : str) : Prop := Forall (fun c => is_ws c = true) s.
Definition stripped (s t : str) : Prop :=
  bare t /\ exists w1 w2, blank w1 /\ blank w2 /\ s = w1 ++ t ++ w2.
(** How the expression of a column is to be read: a type without '=' and '!', perhaps a '!',
    perhaps a '=' and a default on one line, with white space around the '='. *)
Definition column_reading (e ty : str) (notnull : bool) (default : option str) : Prop :=
  exists t r, e = t ++ (if notnull then L "!" else []) ++ r /\
    t <> [] /\ lacks 61 t /\ lacks 33 t /\ stripped t ty /\
    match default with
    | None => r = []
    | Some d => exists w1 w2 v, r = w1 ++ L "=" ++ w2 ++ v /\ blank w1 /\ blank w2 /\
        v <> [] /\ lacks 10 v /\ stripped v d
    end.

(** ** Keys *)

(** The text begins with [p], letter case aside. *)
Definition begins_with (p s : str) : Prop := exists r, lower s = p ++ r.

(** The kinds of nodes written with a name, and those written without. *)
Definition named_kinds : list str :=
  L <$> ["schema"; "table"; "view"; "index"; "sequence"; "function"; "column"; "constraint";
         "references"; "on"; "owned by"]%string.
Definition plain_kinds : list str :=
  L <$> ["primary key"; "unique"; "check"; "foreign key"; "deferrable"; "initially deferred";
         "match"; "on update"; "on delete"; "as"; "using"; "increment"; "minvalue"; "maxvalue";
         "start"; "cache"; "cycle"; "language"; "returns"; "volatility"]%string.

(** The names that survive in a key: not empty, no white space at the ends; after [on],
    not beginning with "delete" or "update". *)
Definition name_writable (kind name : str) : Prop :=
  name <> [] /\ bare name /\
  (kind = L "on" -> ~ begins_with (L "delete") name /\ ~ begins_with (L "update") name).

(** ** Trees *)

(** Values whose integers are 64-bit. *)
Inductive value_writable : value -> Prop :=
  | vw_bool b : value_writable (VBoolean b)
  | vw_string s : value_writable (VString s)
  | vw_float f : value_writable (VNumber (NFloat f))
  | vw_int i : (- 9223372036854775808 <= i <= 9223372036854775807)%Z ->
      value_writable (VNumber (NInteger i))
  | vw_list l : Forall value_writable l -> value_writable (VList l).

(** What identifies a node among its siblings. *)
Definition label (n : node) : str * option str := (n_type n, n_name n).

(** Trees of known kinds with writable names, no two siblings with the same label. *)
Inductive node_writable : node -> Prop :=
  | nw_node t name c :
      t ∈ KEYWORDS -> (forall s, name = Some s -> name_writable t s) -> child_writable c ->
      node_writable (MkNode t name c)
with child_writable : option node_child -> Prop :=
  | cw_none : child_writable None
  | cw_value v : value_writable v -> child_writable (Some (ChildValue v))
  | cw_nodes l : NoDup (label <$> l) -> Forall node_writable l ->
      child_writable (Some (ChildNodes l)).

(** The same for a whole document. *)
Definition forest_writable (l : list node) : Prop :=
  NoDup (label <$> l) /\ Forall node_writable l.

(** ** Objects *)

(** Names that fit the dotted form "schema.table": no dot. *)
Definition undotted (s : str) : Prop := lacks 46 s.

(** Constraints that can be written as definitions of schema [ctx]. *)
Definition constraint_writable (ctx : str) (c : constraint) : Prop :=
  match c with
  | CPrimaryKey _ | CCheck _ => True
  | CUnique c => uq_columns c <> []
  | CForeignKey c =>
      fk_tcolumns c <> [] /\ undotted (fk_ttable c) /\
      (fk_tschema c <> ctx -> undotted (fk_tschema c))
  end.

(** Sequences of a known type with either both or none of the owner's names. *)
Definition sequence_writable (s : sequence) : Prop :=
  (sq_type s = L "int2" \/ sq_type s = L "int4" \/ sq_type s = L "int8") /\
  (is_Some (sq_owned_table s) <-> is_Some (sq_owned_column s)).

(** ** Snapshots

    What can be written as a document and loaded back. *)

(** A 64-bit integer. *)
Definition int64 (z : Z) : Prop := (- 9223372036854775808 <= z <= 9223372036854775807)%Z.

Definition column_savable (c : column) : Prop :=
  name_writable (L "column") (col_name c) /\
  column_writable (col_type c) (col_notnull c) (col_default c).

(** The reference of a foreign key is part of a key: "table", or "schema.table" for a table
    of another schema. *)
Definition constraint_savable (ctx : str) (c : constraint) : Prop :=
  name_writable (L "constraint") (constraint_name c) /\ constraint_writable ctx c /\
  match c with
  | CForeignKey c =>
      (fk_tschema c = ctx -> name_writable (L "references") (fk_ttable c)) /\
      (fk_tschema c <> ctx -> bare (fk_tschema c ++ L "." ++ fk_ttable c))
  | _ => True
  end.

Definition relation_savable (r : relation) : Prop :=
  match r with
  | RTable t =>
      name_writable (L "table") (tb_name t) /\ Forall column_savable (tb_columns t) /\
      map_Forall (fun _ c => constraint_savable (tb_schema t) c) (tb_constraints t)
  | RView v => name_writable (L "view") (vw_name v) /\ vw_query v <> []
  | RSequence s =>
      name_writable (L "sequence") (sq_name s) /\ sequence_writable s /\ sq_increment s = 1%Z /\
      (forall t, sq_owned_table s = Some t -> name_writable (L "owned by") t)
  | RIndex i =>
      name_writable (L "index") (ix_name i) /\ ix_method i = L "btree" /\
      name_writable (L "on") (ix_table i)
  end.

Definition schema_savable (s : schema) : Prop :=
  name_writable (L "schema") (sc_name s) /\
  map_Forall (fun _ r => relation_savable r) (sc_relations s) /\
  map_Forall (fun _ f => name_writable (L "function") (fn_name f)) (sc_functions s).

Definition savable (d : database) : Prop := map_Forall (fun _ s => schema_savable s) (db_schemas d).

(** The attributes of sequences are 64-bit integers, as their Rust type says. *)
Definition int64_sequence (s : sequence) : Prop :=
  int64 (sq_increment s) /\ int64 (sq_min s) /\ int64 (sq_max s) /\ int64 (sq_start s) /\
  int64 (sq_cache s).
Definition machine_db (d : database) : Prop :=
  map_Forall (fun _ s => map_Forall (fun _ r =>
    match r with RSequence q => int64_sequence q | _ => True end) (sc_relations s)) (db_schemas d).

(** ** Documents that do not abort the program *)

(** The kinds that tell what a constraint is; one of them must come first. *)
Definition constraint_kinds : list str :=
  L <$> ["primary key"; "unique"; "foreign key"; "check"]%string.
Definition constraint_safe (n : node) : Prop :=
  forall l, get_nodes n = Some l -> exists c r, l = c :: r /\ n_type c ∈ constraint_kinds.

(** An index says which table it is on. *)
Definition index_safe (n : node) : Prop :=
  forall l, get_nodes n = Some l -> n_name n <> None ->
  exists c, c ∈ l /\ n_type c = L "on" /\ n_name c <> None /\ get_string_varargs_value c <> None.

(** The last value given for an attribute, if any. *)
Definition last_value {A} (kind : str) (get : node -> option A) (l : list node) : option A :=
  last (omap (fun c => if decide (n_type c = kind) then get c else None) l).

(** A sequence is of a known type, or says its bounds: the default of the lower bound depends
    on the type for a decreasing sequence, that of the upper bound for the others. *)
Definition sequence_safe (n : node) : Prop :=
  forall l, get_nodes n = Some l -> n_name n <> None ->
  (forall ty, last_value (L "as") get_string_value l = Some ty ->
     ty = L "int2" \/ ty = L "int4" \/ ty = L "int8") \/
  last_value (if decide (default 1 (last_value (L "increment") get_number_integer_value l) < 0)%Z
              then L "minvalue" else L "maxvalue") get_number_integer_value l <> None.

(** The names of the children of the given kinds. *)
Definition names_of (kinds : list str) (l : list node) : list str :=
  omap (fun c => if decide (n_type c ∈ kinds) then n_name c else None) l.

Definition table_safe (n : node) : Prop :=
  forall l, get_nodes n = Some l ->
  (forall c, c ∈ l -> n_type c = L "constraint" -> constraint_safe c) /\
  NoDup (names_of [L "column"] l) /\ NoDup (names_of [L "constraint"] l).

Definition relation_kinds : list str := L <$> ["table"; "view"; "sequence"; "index"]%string.

Definition schema_safe (n : node) : Prop :=
  n_type n = L "schema" /\
  forall l, get_nodes n = Some l ->
  (forall c, c ∈ l -> (n_type c = L "table" -> table_safe c) /\
     (n_type c = L "index" -> index_safe c) /\ (n_type c = L "sequence" -> sequence_safe c)) /\
  NoDup (names_of relation_kinds l) /\ NoDup (names_of [L "function"] l).

(** The only key on which the text is cut inside a character: "check" spelled with the
    Kelvin sign. *)
Definition key_safe (k : str) : Prop :=
  forall a r, k = a ++ 8490%N :: r -> lower a <> L "chec".

(** No mapping inside a sequence. *)
Inductive seq_safe : yaml -> Prop :=
  | ss_null : seq_safe YNull
  | ss_bool b : seq_safe (YBool b)
  | ss_int z : seq_safe (YInt z)
  | ss_float f : seq_safe (YFloat f)
  | ss_string s : seq_safe (YString s)
  | ss_seq l : Forall seq_safe l -> seq_safe (YSeq l)
  | ss_tagged t v : seq_safe (YTagged t v).

Inductive yaml_safe : yaml -> Prop :=
  | ys_leaf v : seq_safe v -> yaml_safe v
  | ys_map m : Forall (fun e => forall k, as_str e.1 = Some k -> key_safe k) m ->
      Forall (fun e => yaml_safe e.2) m -> yaml_safe (YMap m).

(** The same for a whole document, which is also a document of schemas that are safe. *)
Definition document_safe (m : list (yaml * yaml)) : Prop :=
  yaml_safe (YMap m) /\ forall l, parse_mapping_to_nodes m = Done l -> Forall schema_safe l.

(** ** What a document defines *)

(** The attributes each kind of node may have. *)
Definition constraint_attributes (kind : str) : list str :=
  if decide (kind = L "foreign key")
  then L <$> ["foreign key"; "references"; "deferrable"; "initially deferred"; "match";
              "on update"; "on delete"]%string
  else [kind; L "deferrable"; L "initially deferred"].
Definition object_attributes (kind : str) : list str :=
  if decide (kind = L "table") then [L "column"; L "constraint"]
  else if decide (kind = L "view") then [L "as"]
  else if decide (kind = L "sequence")
  then L <$> ["as"; "increment"; "minvalue"; "maxvalue"; "start"; "cache"; "cycle"; "owned by"]%string
  else if decide (kind = L "function") then L <$> ["as"; "language"; "returns"; "volatility"]%string
  else if decide (kind = L "index") then L <$> ["unique"; "on"; "using"]%string
  else [].

(** The children of a node, if it has nodes as children. *)
Definition children (n : node) : list node := default [] (get_nodes n).

(** Nothing but known attributes, below the schemas [l]; nothing is said of the attributes of
    objects whose kind is in [skip]. *)
Definition constraint_vetted (n : node) : Prop :=
  exists c r, children n = c :: r /\ n_type c ∈ constraint_kinds /\
    Forall (fun a => n_type a ∈ constraint_attributes (n_type c)) (children n).
Definition object_vetted (skip : list str) (n : node) : Prop :=
  n_type n ∈ relation_kinds ++ [L "function"] /\
  (n_type n ∉ skip -> Forall (fun a => n_type a ∈ object_attributes (n_type n)) (children n)) /\
  (n_type n = L "table" ->
     forall c, c ∈ children n -> n_type c = L "constraint" -> constraint_vetted c).
Definition vetted (skip : list str) (l : list node) : Prop :=
  Forall (fun n => n_type n = L "schema" /\ Forall (object_vetted skip) (children n)) l.

(** The kind of node that defines a relation. *)
Definition relation_kind (r : relation) : str :=
  match r with
  | RTable _ => L "table"
  | RView _ => L "view"
  | RIndex _ => L "index"
  | RSequence _ => L "sequence"
  end.

(** [d] has exactly the objects the nodes [l] name, and the tables have exactly the columns
    (in order) and the constraints that their nodes name. *)
Definition defines (l : list node) (d : database) : Prop :=
  (forall n, is_Some (db_schemas d !! n) <-> exists x, x ∈ l /\ n_name x = Some n) /\
  (forall n k kind, kind ∈ relation_kinds ->
     (exists r, relation_at d n k = Some r /\ relation_kind r = kind) <->
     exists x c, x ∈ l /\ n_name x = Some n /\ c ∈ children x /\ n_name c = Some k /\ n_type c = kind) /\
  (forall n k, is_Some (function_at d n k) <->
     exists x c, x ∈ l /\ n_name x = Some n /\ c ∈ children x /\ n_name c = Some k /\
       n_type c = L "function") /\
  (forall n k t, relation_at d n k = Some (RTable t) ->
     exists x c, x ∈ l /\ n_name x = Some n /\ c ∈ children x /\ n_name c = Some k /\
       n_type c = L "table" /\
       col_name <$> tb_columns t = names_of [L "column"] (children c) /\
       forall cn, is_Some (tb_constraints t !! cn) <-> cn ∈ names_of [L "constraint"] (children c)).

(** ** Sequences *)

(** The range of each type a sequence may have. *)
Definition type_range (ty : str) : option (Z * Z) :=
  if decide (ty = L "int2") then Some (- 2 ^ 15, 2 ^ 15 - 1)%Z
  else if decide (ty = L "int4") then Some (- 2 ^ 31, 2 ^ 31 - 1)%Z
  else if decide (ty = L "int8") then Some (- 2 ^ 63, 2 ^ 63 - 1)%Z
  else None.

(** It starts between its bounds. *)
Definition start_in_bounds (q : sequence) : Prop := (sq_min q <= sq_start q <= sq_max q)%Z.

(** The bounds fit the type and follow the sign of the increment: an increasing sequence
    runs over the positive numbers from its lower bound, a decreasing one over the negative
    numbers from its upper bound. *)
Definition sequence_in_range (q : sequence) : Prop :=
  start_in_bounds q /\
  (exists lo hi, type_range (sq_type q) = Some (lo, hi) /\ lo <= sq_min q /\ sq_max q <= hi)%Z /\
  (0 <= sq_increment q -> 0 < sq_min q /\ sq_start q = sq_min q)%Z /\
  (sq_increment q < 0 -> sq_max q < 0 /\ sq_start q = sq_max q)%Z.

(** The node has no attribute of that kind. *)
Definition omits (kind : str) (n : node) : Prop := Forall (fun c => n_type c <> kind) (children n).
