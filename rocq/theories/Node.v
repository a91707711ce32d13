(** Definition nodes: src/definition/base/node.rs. *)
From Verif Require Import Base Text.

(** src/definition/base/node.rs:187-191; an f64 is kept as an opaque token. *)
Inductive number := NInteger (i : Z) | NFloat (f : N).

(** src/definition/base/node.rs:113-119 *)
Inductive value :=
  | VBoolean (b : bool)
  | VString (s : str)
  | VNumber (n : number)
  | VList (l : list value).

(** src/definition/base/node.rs:1-6 and 92-96 *)
Inductive node := MkNode (ntype : str) (nname : option str) (nchild : option node_child)
with node_child := ChildValue (v : value) | ChildNodes (l : list node).

Definition n_type (n : node) : str := let '(MkNode t _ _) := n in t.
Definition n_name (n : node) : option str := let '(MkNode _ m _) := n in m.
Definition n_child (n : node) : option node_child := let '(MkNode _ _ c) := n in c.

(** src/definition/base/node.rs:20-26, Node::new *)
Definition node_new (t : str) : node := MkNode t None None.
(** src/definition/base/node.rs:52-55 *)
Definition with_name (name : str) (n : node) : node := MkNode (n_type n) (Some name) (n_child n).
(** Sets the child: the bodies of lines 56-79. *)
Definition set_child (c : node_child) (n : node) : node := MkNode (n_type n) (n_name n) (Some c).
(** src/definition/base/node.rs:56-59 *)
Definition with_nodes (l : list node) (n : node) : node := set_child (ChildNodes l) n.
(** src/definition/base/node.rs:60-63, 163-165 *)
Definition with_boolean_value (b : bool) (n : node) : node :=
  set_child (ChildValue (VBoolean b)) n.
(** src/definition/base/node.rs:64-67, 166-168, 206-208 *)
Definition with_number_integer_value (i : Z) (n : node) : node :=
  set_child (ChildValue (VNumber (NInteger i))) n.
(** src/definition/base/node.rs:72-75, 172-174 *)
Definition with_string_value (s : str) (n : node) : node := set_child (ChildValue (VString s)) n.
(** src/definition/base/node.rs:175-184 *)
Definition from_string_varargs (l : list str) : value :=
  match l with
  | [s] => VString s
  | _ => VList (VString <$> l)
  end.
(** src/definition/base/node.rs:76-79 *)
Definition with_string_varargs_value (l : list str) (n : node) : node :=
  set_child (ChildValue (from_string_varargs l)) n.

(** src/definition/base/node.rs:30-35, 99-104: no child counts as no nodes. *)
Definition get_nodes (n : node) : option (list node) :=
  match n_child n with
  | None => Some []
  | Some (ChildNodes l) => Some l
  | Some (ChildValue _) => None
  end.
(** [self.child.as_ref()?.to_value()?], node.rs:105-110. *)
Definition get_value (n : node) : option value :=
  match n_child n with Some (ChildValue v) => Some v | _ => None end.
(** src/definition/base/node.rs:122-127 *)
Definition to_boolean (v : value) : option bool :=
  match v with VBoolean b => Some b | _ => None end.
(** src/definition/base/node.rs:129-134, 194-199 *)
Definition to_number_integer (v : value) : option Z :=
  match v with VNumber (NInteger i) => Some i | _ => None end.
(** src/definition/base/node.rs:141-146 *)
Definition to_string (v : value) : option str :=
  match v with VString s => Some s | _ => None end.
(** src/definition/base/node.rs:147-161 *)
Definition to_string_varargs (v : value) : option (list str) :=
  match v with
  | VList l => mapM to_string l
  | VString s => Some [s]
  | _ => None
  end.
(** src/definition/base/node.rs:36-38 *)
Definition get_boolean_value (n : node) : option bool := get_value n ≫= to_boolean.
(** src/definition/base/node.rs:39-41 *)
Definition get_number_integer_value (n : node) : option Z := get_value n ≫= to_number_integer.
(** src/definition/base/node.rs:45-47 *)
Definition get_string_value (n : node) : option str := get_value n ≫= to_string.
(** src/definition/base/node.rs:48-50 *)
Definition get_string_varargs_value (n : node) : option (list str) :=
  get_value n ≫= to_string_varargs.
(** src/definition/base/node.rs:81-89 *)
Definition display_string (n : node) : str :=
  match n_name n with
  | Some m => n_type n ++ L " " ++ m
  | None => n_type n
  end.
