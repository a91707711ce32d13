(** What a document means: the objects that its nodes describe, and the documents on which
    the program aborts. *)
From Verif Require Import Base Text Types SpecSnapshot Load SpecMerge Node Yaml SpecDefinition.

(** ** Attributes *)

(** The value of a node, as a text, as a truth value, as an integer, as one or more texts;
    its name together with its value; the nodes below it. *)
Definition text_of (v : value) : option str := match v with VString s => Some s | _ => None end.
Definition text (n : node) : option str :=
  match n_child n with Some (ChildValue (VString s)) => Some s | _ => None end.
Definition flag (n : node) : option bool :=
  match n_child n with Some (ChildValue (VBoolean b)) => Some b | _ => None end.
Definition whole (n : node) : option Z :=
  match n_child n with Some (ChildValue (VNumber (NInteger z))) => Some z | _ => None end.
Definition texts (n : node) : option (list str) :=
  match n_child n with
  | Some (ChildValue (VString s)) => Some [s]
  | Some (ChildValue (VList l)) => mapM text_of l
  | _ => None
  end.
Definition named {A} (get : node -> option A) (n : node) : option (str * A) :=
  match n_name n, get n with Some name, Some v => Some (name, v) | _, _ => None end.
Definition below (n : node) : option (list node) :=
  match n_child n with
  | None => Some []
  | Some (ChildNodes l) => Some l
  | Some (ChildValue _) => None
  end.

(** The node is an attribute of that kind, properly given. *)
Definition given {A} (kind : str) (get : node -> option A) (n : node) : Prop :=
  n_type n = kind /\ is_Some (get n).
(** The last attribute of that kind counts. *)
Notation latest kind get l := (last_value kind get l).

(** ** Columns and constraints *)

Definition column_means (s t : str) (n : node) (c : column) : Prop :=
  n_type n = L "column" /\
  exists name e ty nn d, n_name n = Some name /\ text n = Some e /\ column_reading e ty nn d /\
    c = Column s t name ty nn d.

Definition deferral (n : node) : Prop :=
  given (L "deferrable") flag n \/ given (L "initially deferred") flag n.
Definition deferrable (l : list node) : bool := default false (latest (L "deferrable") flag l).
Definition deferred (l : list node) : bool := default false (latest (L "initially deferred") flag l).

Definition primary_key_means (s t name : str) (l : list node) (c : constraint) : Prop :=
  Forall (fun a => given (L "primary key") texts a \/ deferral a) l /\
  exists cols, latest (L "primary key") texts l = Some cols /\
    c = CPrimaryKey (PrimaryKey s t name cols (deferrable l) (deferred l)).
(** Some column is named. *)
Definition unique_means (s t name : str) (l : list node) (c : constraint) : Prop :=
  Forall (fun a => given (L "unique") texts a \/ deferral a) l /\
  exists cols, latest (L "unique") texts l = Some cols /\ cols <> [] /\
    c = CUnique (Unique s t name cols (deferrable l) (deferred l)).
Definition check_means (s t name : str) (l : list node) (c : constraint) : Prop :=
  Forall (fun a => given (L "check") text a \/ deferral a) l /\
  exists e, latest (L "check") text l = Some e /\
    c = CCheck (Check s t name e (deferrable l) (deferred l)).

(** What a reference names: [table], in the schema [s], or [schema.table]; and the columns. *)
Fixpoint cut (s : str) : option (str * str) :=
  match s with
  | [] => None
  | c :: s => if decide (c = 46%N) then Some ([], s) else (fun p => (c :: p.1, p.2)) <$> cut s
  end.
Definition target (s : str) (n : node) : option (str * str * list str) :=
  match named texts n with
  | Some (name, cols) =>
      match cut name with
      | None => Some (s, name, cols)
      | Some (a, b) => match cut b with None => Some (a, b, cols) | Some _ => None end
      end
  | None => None
  end.
Definition foreign_key_means (s t name : str) (l : list node) (c : constraint) : Prop :=
  Forall (fun a => given (L "foreign key") texts a \/ given (L "references") (target s) a \/
    given (L "match") text a \/ given (L "on update") text a \/ given (L "on delete") text a \/
    deferral a) l /\
  exists cols ts tb tcols, latest (L "foreign key") texts l = Some cols /\
    latest (L "references") (target s) l = Some (ts, tb, tcols) /\ tcols <> [] /\
    c = CForeignKey (ForeignKey s t name cols ts tb tcols
          (default (L "SIMPLE") (latest (L "match") text l))
          (default (L "NO ACTION") (latest (L "on update") text l))
          (default (L "NO ACTION") (latest (L "on delete") text l)) (deferrable l) (deferred l)).

(** The first attribute tells what the constraint is. *)
Definition constraint_means (s t : str) (n : node) (c : constraint) : Prop :=
  n_type n = L "constraint" /\
  exists name k r, n_name n = Some name /\ below n = Some (k :: r) /\
    ((n_type k = L "primary key" /\ primary_key_means s t name (k :: r) c) \/
     (n_type k = L "unique" /\ unique_means s t name (k :: r) c) \/
     (n_type k = L "foreign key" /\ foreign_key_means s t name (k :: r) c) \/
     (n_type k = L "check" /\ check_means s t name (k :: r) c)).

(** ** Relations and functions *)

(** The objects of a map, by name, are those of a list in which no name occurs twice. *)
Definition is_map_of {V} (name : V -> str) (l : list V) (m : gmap str V) : Prop :=
  NoDup (name <$> l) /\ forall k v, m !! k = Some v <-> v ∈ l /\ name v = k.

(** The nodes below a table: columns and constraints. *)
Definition table_contents (s name : str) (l : list node) (cols : list column) (cts : list constraint) : Prop :=
  Forall (fun c => n_type c = L "column" \/ n_type c = L "constraint") l /\
  Forall2 (column_means s name) (filter (fun c => n_type c = L "column") l) cols /\
  Forall2 (constraint_means s name) (filter (fun c => n_type c = L "constraint") l) cts.
Definition table_means (s : str) (n : node) (r : relation) : Prop :=
  n_type n = L "table" /\
  exists name l cols cts m, n_name n = Some name /\ below n = Some l /\
    table_contents s name l cols cts /\ NoDup (col_name <$> cols) /\ is_map_of constraint_name cts m /\
    r = RTable (Table s name cols m).

Definition view_means (s : str) (n : node) (r : relation) : Prop :=
  n_type n = L "view" /\
  exists name l q, n_name n = Some name /\ below n = Some l /\
    Forall (given (L "as") text) l /\ latest (L "as") text l = Some q /\ r = RView (View s name q).

(** Attributes of an index that are not properly given, or not known, do not count. *)
Definition index_means (s : str) (n : node) (r : relation) : Prop :=
  n_type n = L "index" /\
  exists name l tb keys, n_name n = Some name /\ below n = Some l /\
    latest (L "on") (named texts) l = Some (tb, keys) /\
    r = RIndex (Index s name tb (default false (latest (L "unique") flag l))
          (default (L "btree") (latest (L "using") text l)) keys).

(** The bounds of a sequence that gives none. *)
Definition least (inc : Z) (ty : str) : option Z :=
  if decide (0 <= inc)%Z then Some 1%Z else fst <$> type_range ty.
Definition greatest (inc : Z) (ty : str) : option Z :=
  if decide (0 <= inc)%Z then snd <$> type_range ty else Some (-1)%Z.
Definition or_else {A} (a b : option A) : option A := match a with Some _ => a | None => b end.
Definition sequence_means (s : str) (n : node) (r : relation) : Prop :=
  n_type n = L "sequence" /\
  exists name l lo hi, n_name n = Some name /\ below n = Some l /\
    Forall (fun a => given (L "as") text a \/ given (L "increment") whole a \/
      given (L "minvalue") whole a \/ given (L "maxvalue") whole a \/ given (L "start") whole a \/
      given (L "cache") whole a \/ given (L "cycle") flag a \/ given (L "owned by") (named text) a) l /\
    let ty := default (L "int8") (latest (L "as") text l) in
    let inc := default 1%Z (latest (L "increment") whole l) in
    or_else (latest (L "minvalue") whole l) (least inc ty) = Some lo /\
    or_else (latest (L "maxvalue") whole l) (greatest inc ty) = Some hi /\
    r = RSequence (Sequence s name ty inc lo hi
          (default (if decide (0 <= inc)%Z then lo else hi) (latest (L "start") whole l))
          (default 1%Z (latest (L "cache") whole l)) (default false (latest (L "cycle") flag l))
          (fst <$> latest (L "owned by") (named text) l) (snd <$> latest (L "owned by") (named text) l)).

Definition relation_means (s : str) (n : node) (r : relation) : Prop :=
  table_means s n r \/ view_means s n r \/ index_means s n r \/ sequence_means s n r.

Definition function_means (s : str) (n : node) (f : function) : Prop :=
  n_type n = L "function" /\
  exists name l b, n_name n = Some name /\ below n = Some l /\
    Forall (fun a => given (L "as") text a \/ given (L "language") text a \/
      given (L "returns") text a \/ given (L "volatility") text a) l /\
    latest (L "as") text l = Some b /\
    f = Function s name b (default (L "SQL") (latest (L "language") text l))
          (default (L "void") (latest (L "returns") text l))
          (default (L "VOLATILE") (latest (L "volatility") text l)).

(** ** Schemas and documents *)

Definition schema_contents (name : str) (l : list node) (rels : list relation) (funs : list function) : Prop :=
  Forall (fun c => n_type c ∈ relation_kinds \/ n_type c = L "function") l /\
  Forall2 (relation_means name) (filter (fun c => n_type c ∈ relation_kinds) l) rels /\
  Forall2 (function_means name) (filter (fun c => n_type c = L "function") l) funs.
Definition schema_means (n : node) (s : schema) : Prop :=
  n_type n = L "schema" /\
  exists name l rels funs mr mf, n_name n = Some name /\ below n = Some l /\
    schema_contents name l rels funs /\ is_map_of relation_name rels mr /\ is_map_of fn_name funs mf /\
    s = Schema name mr mf.

(** A schema may be given in several pieces that have no object in common. *)
Definition pieces (ss : list schema) : list database := (fun s => Database {[sc_name s := s]}) <$> ss.
Definition document_means (l : list node) (d : database) : Prop :=
  exists ss, Forall2 schema_means l ss /\ no_clashes (pieces ss) /\ wf_db d /\
    contains_exactly (pieces ss) d.

(** ** Documents as trees *)

(** The number of bytes of a text. *)
Definition bytes (s : str) : nat := sum_list (utf8_len <$> s).
(** A key: the longest keyword it begins with, letter case aside, and a name in the rest. The
    rest begins after as many bytes as the keyword has. *)
Definition key_kind (key kind : str) : Prop :=
  kind ∈ KEYWORDS /\ begins_with kind key /\
  forall k, k ∈ KEYWORDS -> begins_with k key -> length k <= length kind.
Definition key_means (key kind : str) (name : option str) : Prop :=
  key_kind key kind /\
  exists a b, key = a ++ b /\ bytes a = length kind /\
    match name with
    | None => blank b
    | Some t => t <> [] /\ stripped b t
    end.

Inductive value_means : yaml -> value -> Prop :=
  | vm_string s : value_means (YString s) (VString s)
  | vm_bool b : value_means (YBool b) (VBoolean b)
  | vm_int z : (- 2 ^ 63 <= z < 2 ^ 63)%Z -> value_means (YInt z) (VNumber (NInteger z))
  | vm_float f : value_means (YFloat f) (VNumber (NFloat f))
  | vm_seq l vs : Forall2 value_means l vs -> value_means (YSeq l) (VList vs).
Inductive child_means : yaml -> option node_child -> Prop :=
  | cm_null : child_means YNull None
  | cm_value v w : value_means v w -> child_means v (Some (ChildValue w))
  | cm_map m l :
      Forall2 (fun e n => exists key, as_str (e.1) = Some key /\ key_means key (n_type n) (n_name n) /\
        child_means (e.2) (n_child n)) m l ->
      child_means (YMap m) (Some (ChildNodes l)).
(** The nodes of a document. *)
Definition nodes_mean (m : list (yaml * yaml)) (l : list node) : Prop :=
  child_means (YMap m) (Some (ChildNodes l)).

(** ** Documents on which the program aborts *)

(** A value that is, or has inside, a mapping; whatever comes before is fine. *)
Inductive value_aborts : yaml -> Prop :=
  | va_map m : value_aborts (YMap m)
  | va_seq a v b : Forall (fun v => exists w, value_means v w) a -> value_aborts v ->
      value_aborts (YSeq (a ++ v :: b)).
(** The same for the value of a key, which may be a mapping; or a key is cut inside a
    character. *)
Definition entry_fine (e : yaml * yaml) : Prop :=
  exists key kind name c, as_str (e.1) = Some key /\ key_means key kind name /\ child_means (e.2) c.
Inductive child_aborts : yaml -> Prop :=
  | ca_seq l : value_aborts (YSeq l) -> child_aborts (YSeq l)
  | ca_key a k v b key : Forall entry_fine a -> as_str k = Some key -> ~ key_safe key ->
      child_aborts (YMap (a ++ (k, v) :: b))
  | ca_value a k v b key kind name : Forall entry_fine a -> as_str k = Some key ->
      key_means key kind name -> child_aborts v -> child_aborts (YMap (a ++ (k, v) :: b)).

(** A table: a constraint that is not one; or everything is fine but for names that occur
    twice. *)
Definition table_aborts (s : str) (n : node) : Prop :=
  n_type n = L "table" /\
  exists name l, n_name n = Some name /\ below n = Some l /\
    ((exists c, c ∈ l /\ n_type c = L "constraint" /\ ~ constraint_safe c) \/
     exists cols cts, table_contents s name l cols cts /\
       ~ (NoDup (col_name <$> cols) /\ NoDup (constraint_name <$> cts))).
Definition object_aborts (s : str) (n : node) : Prop :=
  table_aborts s n \/
  (n_type n = L "index" /\ ~ index_safe n) \/ (n_type n = L "sequence" /\ ~ sequence_safe n).
Definition schema_aborts (n : node) : Prop :=
  n_type n <> L "schema" \/
  exists name l, n_name n = Some name /\ below n = Some l /\
    ((exists c, c ∈ l /\ object_aborts name c) \/
     exists rels funs, schema_contents name l rels funs /\
       ~ (NoDup (relation_name <$> rels) /\ NoDup (fn_name <$> funs))).
(** The schemas before it are fine. *)
Definition document_aborts (l : list node) : Prop :=
  exists a n b d, l = a ++ n :: b /\ document_means a d /\ schema_aborts n.
