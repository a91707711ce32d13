(** Specification of merging snapshots. *)
From Verif Require Import Base Types Changes SpecSnapshot Load.

(** No relation and no function is defined by both. *)
Definition no_clash (a b : database) : Prop :=
  (forall n k, relation_at a n k = None \/ relation_at b n k = None) /\
  (forall n k, function_at a n k = None \/ function_at b n k = None).

(** [d] contains exactly the schemas, relations and functions of the snapshots [l]. *)
Definition contains_exactly (l : list database) (d : database) : Prop :=
  (forall n, is_Some (db_schemas d !! n) <-> exists f, f ∈ l /\ is_Some (db_schemas f !! n)) /\
  (forall n k r, relation_at d n k = Some r <-> exists f, f ∈ l /\ relation_at f n k = Some r) /\
  (forall n k g, function_at d n k = Some g <-> exists f, f ∈ l /\ function_at f n k = Some g).

(** No two of the snapshots define the same relation or the same function. *)
Fixpoint no_clashes (l : list database) : Prop :=
  match l with
  | [] => True
  | a :: l => Forall (no_clash a) l /\ no_clashes l
  end.

(** The contents of the definition files under an entry, in the order of the listing: the
    files, at any depth, whose names end in ".yaml" and have something before that. *)
Definition definition_name (name : str) : Prop := exists stem, stem <> [] /\ name = stem ++ L ".yaml".
Inductive definition_files : entry -> list str -> Prop :=
  | definition_file name content : definition_name name -> definition_files (File name content) [content]
  | other_file name content : ~ definition_name name -> definition_files (File name content) []
  | definition_dir name es ls : definition_list es ls -> definition_files (Dir name es) ls
with definition_list : list entry -> list str -> Prop :=
  | definition_nil : definition_list [] []
  | definition_cons e es l ls :
      definition_files e l -> definition_list es ls -> definition_list (e :: es) (l ++ ls).

(** The same directory tree, listed in another order. *)
Inductive relisted : entry -> entry -> Prop :=
  | relisted_file n c : relisted (File n c) (File n c)
  | relisted_dir n es fs : relisted_list es fs -> relisted (Dir n es) (Dir n fs)
with relisted_list : list entry -> list entry -> Prop :=
  | relisted_nil : relisted_list [] []
  | relisted_cons e f es fs :
      relisted e f -> relisted_list es fs -> relisted_list (e :: es) (f :: fs)
  | relisted_swap e f es : relisted_list (e :: f :: es) (f :: e :: es)
  | relisted_trans a b c : relisted_list a b -> relisted_list b c -> relisted_list a c.
