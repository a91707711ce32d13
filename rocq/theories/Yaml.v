(** YAML documents as trees, and their conversion to definition nodes:
    src/definition/base/yaml.rs.  The text syntax of YAML is not modelled. *)
From Verif Require Import Base Text Node.

(** serde_yaml::Value (crate serde_yaml 0.9).  A number is an integer (of type u64 or i64)
    or an f64 (an opaque token); a mapping is the list of its entries in order. *)
Inductive yaml :=
  | YNull
  | YBool (b : bool)
  | YInt (z : Z)
  | YFloat (f : N)
  | YString (s : str)
  | YSeq (l : list yaml)
  | YMap (m : list (yaml * yaml))
  | YTagged (tag : str) (v : yaml).

(** Failures of this module: src/definition/base/error.rs:1-10 (the text of the message
    is not modelled). *)
Inductive yaml_error := InvalidKey | InvalidValue | InvalidNumber.

(** src/definition/base/yaml.rs:8-42 *)
Definition KEYWORDS : list str :=
  L <$> ["foreign key"; "initially deferred"; "not null"; "on delete"; "on update"; "owned by";
   "primary key"; "as"; "cache"; "check"; "column"; "constraint"; "cycle"; "default";
   "deferrable"; "function"; "volatility"; "index"; "language"; "match"; "maxvalue"; "method";
   "minvalue"; "on"; "references"; "returns"; "schema"; "sequence"; "start"; "table"; "type";
   "unique"; "view"]%string.

(** serde_yaml::Value::as_str, which looks through tags. *)
Fixpoint as_str (v : yaml) : option str :=
  match v with
  | YString s => Some s
  | YTagged _ v => as_str v
  | _ => None
  end.

(** The loop of src/definition/base/yaml.rs:78-84: the first keyword that is a prefix. *)
Fixpoint find_keyword (key : str) (kws : list str) : option str :=
  match kws with
  | [] => None
  | k :: kws => if starts_with k (lower key) then Some k else find_keyword key kws
  end.

(** src/definition/base/yaml.rs:74-93: the type and the name of the node. *)
Definition create_node_from_mapping_key (key : str) : outcome yaml_error (str * option str) :=
  match find_keyword key KEYWORDS with
  | None => Fail InvalidKey
  | Some k =>
      match slice_from (length k) key with
      | None => Panic
      | Some rest => Done (k, match trim rest with [] => None | name => Some name end)
      end
  end.

(** serde_yaml::Number::is_i64 on an integer. *)
Definition in_i64 (z : Z) : Prop := (- 2 ^ 63 <= z < 2 ^ 63)%Z.
Global Instance in_i64_dec z : Decision (in_i64 z).
Proof. unfold in_i64. apply _. Defined.

(** src/definition/base/yaml.rs:95-137 (parse_serde_value_to_ddl_value, ..._list, ..._number) *)
Fixpoint parse_serde_value (v : yaml) : outcome yaml_error value :=
  match v with
  | YString s => Done (VString s)
  | YInt z => if decide (in_i64 z) then Done (VNumber (NInteger z)) else Fail InvalidNumber
  | YFloat f => Done (VNumber (NFloat f))
  | YBool b => Done (VBoolean b)
  | YMap _ => Panic
  | YSeq l =>
      l ← (fix go l : outcome yaml_error (list value) :=
             match l with
             | [] => Done []
             | v :: l => v ← parse_serde_value v; l ← go l; Done (v :: l)
             end) l;
      Done (VList l)
  | YNull | YTagged _ _ => Fail InvalidValue
  end.

(** The loop of src/definition/base/yaml.rs:47-69, for a given treatment of the values. *)
Definition parse_entries (child : yaml -> outcome yaml_error (option node_child)) :
    list (yaml * yaml) -> outcome yaml_error (list node) :=
  fix go m :=
    match m with
    | [] => Done []
    | (k, v) :: m =>
        match as_str k with
        | None => Fail InvalidKey
        | Some key =>
            '(t, name) ← create_node_from_mapping_key key;
            c ← child v;
            nodes ← go m;
            Done (MkNode t name c :: nodes)
        end
    end.

(** The match of src/definition/base/yaml.rs:54-66. *)
Fixpoint parse_child (v : yaml) : outcome yaml_error (option node_child) :=
  match v with
  | YMap m => nodes ← parse_entries parse_child m; Done (Some (ChildNodes nodes))
  | YNull => Done None
  | _ => v ← parse_serde_value v; Done (Some (ChildValue v))
  end.

(** src/definition/base/yaml.rs:44-72 *)
Definition parse_mapping_to_nodes : list (yaml * yaml) -> outcome yaml_error (list node) :=
  parse_entries parse_child.

(** src/definition/base/yaml.rs:151-158: the text of the key. *)
Definition render_node_key (n : node) : str :=
  match n_name n with
  | Some name => n_type n ++ L " " ++ name
  | None => n_type n
  end.

(** src/definition/base/yaml.rs:174-205 *)
Fixpoint render_value (v : value) : yaml :=
  match v with
  | VBoolean b => YBool b
  | VString s => YString s
  | VNumber (NInteger i) => YInt i
  | VNumber (NFloat f) => YFloat f
  | VList l => YSeq (render_value <$> l)
  end.

(** serde_yaml::Mapping::insert for a string key: the value of an existing entry is
    replaced in place, otherwise the entry is appended. *)
Fixpoint mapping_insert (key : str) (v : yaml) (m : list (yaml * yaml)) : list (yaml * yaml) :=
  match m with
  | [] => [(YString key, v)]
  | (k, w) :: m =>
      match k with
      | YString key' => if decide (key' = key) then (k, v) :: m
                        else (k, w) :: mapping_insert key v m
      | _ => (k, w) :: mapping_insert key v m
      end
  end.

(** src/definition/base/yaml.rs:139-149 for a given treatment of the values. *)
Definition render_entries (value_of : node -> yaml) : list (yaml * yaml) -> list node ->
    list (yaml * yaml) :=
  fix go m l :=
    match l with
    | [] => m
    | n :: l => go (mapping_insert (render_node_key n) (value_of n) m) l
    end.

(** src/definition/base/yaml.rs:160-172 *)
Fixpoint render_node_value (n : node) : yaml :=
  match n with
  | MkNode _ _ None => YNull
  | MkNode _ _ (Some (ChildValue v)) => render_value v
  | MkNode _ _ (Some (ChildNodes l)) => YMap (render_entries render_node_value [] l)
  end.

(** src/definition/base/yaml.rs:139-149, the mapping. *)
Definition render_nodes_to_mapping (l : list node) : list (yaml * yaml) :=
  render_entries render_node_value [] l.
