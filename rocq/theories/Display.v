(** The text of an error: src/definition/ddl/error.rs. *)
From Verif Require Import Base Text Types Changes Node Yaml Regex Ddl.

Section display.
  (** The message of a failure of src/definition/base (base/error.rs:14-18, yaml.rs:86, 124
      and 136); it shows the key or value with Rust's [Debug], which is not modelled. *)
  Context (malformed : yaml_error -> str).

  (** [?] on the results of [write!], where [None] stands for the panic of
      src/snapshot/error.rs:105-109. *)
  Definition put (a b : option str) : option str :=
    match a, b with Some a, Some b => Some (a ++ b) | _, _ => None end.

  (** error.rs:81-136, fmt *)
  Fixpoint display (e : derror) : option str :=
    match e with
    | UnexpectedNode n => Some (L "unexpected node: " ++ n)
    | NameRequired n => Some (L "name required: " ++ n)
    | ChildNodesRequired n => Some (L "child nodes required: " ++ n)
    | AttributeRequired n a => Some (L "attribute required: " ++ n ++ L " " ++ a)
    | InvalidTypeAttribute n x => Some (L "invalid type attribute: " ++ n ++ L " expected " ++ x)
    | InvalidTypeExpression x => Some (L "invalid type expression: " ++ x)
    | InvalidTableReference r => Some (L "invalid table reference: " ++ r)
    | HasErrors n l =>
        put (Some (L "has errors: " ++ n))
          ((fix go l := match l with
                        | [] => Some []
                        | e :: l => put (put (Some (10%N :: L "  ")) (display e)) (go l)
                        end) l)
    | Malformed e => Some (malformed e)
    | Snapshot _ => None
    end.
End display.
