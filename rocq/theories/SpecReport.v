(** What is wrong with a document, and where: the report of the mistakes of a schema. *)
From Verif Require Import Base Text Types Ddl SpecSnapshot Load SpecMerge Node Yaml SpecDefinition SpecMeaning.

(** How a node is called in a report. *)
Definition label (n : node) : str :=
  n_type n ++ match n_name n with Some name => L " " ++ name | None => [] end.

(** ** Attributes *)

(** What an attribute has to be: a text, a truth value, an integer, one or more texts, a name
    and a text, a table and one or more texts. *)
Inductive expected := AText | AFlag | AWhole | ATexts | ANamed | AReference.
(** The mistake of such an attribute. *)
Definition ill {A} (o : option A) (n : node) (what : str) : option derror :=
  match o with Some _ => None | None => Some (InvalidTypeAttribute (label n) what) end.
Definition mistake (x : expected) (n : node) : option derror :=
  match x with
  | AText => ill (text n) n (L "string")
  | AFlag => ill (flag n) n (L "boolean")
  | AWhole => ill (whole n) n (L "integer")
  | ATexts => ill (texts n) n (L "...string")
  | ANamed => match n_name n with
              | None => Some (NameRequired (label n))
              | Some _ => ill (text n) n (L "string")
              end
  | AReference =>
      match n_name n with
      | None => Some (NameRequired (label n))
      | Some name =>
          match texts n with
          | None => Some (InvalidTypeAttribute (label n) (L "...string"))
          | Some _ => match target [] n with
                      | None => Some (InvalidTableReference name)
                      | Some _ => None
                      end
          end
      end
  end.
(** The attributes that an object can have. *)
Definition attributes := list (str * expected).
Fixpoint fault (T : attributes) (n : node) : option derror :=
  match T with
  | [] => Some (UnexpectedNode (label n))
  | (kind, x) :: T => if decide (n_type n = kind) then mistake x n else fault T n
  end.

Definition deferral_attributes : attributes :=
  [(L "deferrable", AFlag); (L "initially deferred", AFlag)].
Definition primary_key_attributes : attributes := (L "primary key", ATexts) :: deferral_attributes.
Definition unique_attributes : attributes := (L "unique", ATexts) :: deferral_attributes.
Definition check_attributes : attributes := (L "check", AText) :: deferral_attributes.
Definition foreign_key_attributes : attributes :=
  [(L "foreign key", ATexts); (L "references", AReference); (L "match", AText);
   (L "on update", AText); (L "on delete", AText)] ++ deferral_attributes.
Definition view_attributes : attributes := [(L "as", AText)].
Definition sequence_attributes : attributes :=
  [(L "as", AText); (L "increment", AWhole); (L "minvalue", AWhole); (L "maxvalue", AWhole);
   (L "start", AWhole); (L "cache", AWhole); (L "cycle", AFlag); (L "owned by", ANamed)].
Definition function_attributes : attributes :=
  [(L "as", AText); (L "language", AText); (L "returns", AText); (L "volatility", AText)].

(** What is lacking. *)
Definition unless {A} (o : option A) (what : str) : list str :=
  match o with Some _ => [] | None => [what] end.
Definition unless_any {A} (o : option (list A)) (what : str) : list str :=
  match o with Some (_ :: _) => [] | _ => [what] end.
Definition foreign_key_lacks (l : list node) : list str :=
  unless (latest (L "foreign key") texts l) (L "columns") ++
  unless_any (snd <$> latest (L "references") (target []) l) (L "references").

(** The report of an object that has a name and nodes below it. *)
Definition report_of (contents : list node -> list derror -> Prop) (n : node) (e : derror) : Prop :=
  (n_name n = None /\ e = NameRequired (label n)) \/
  exists name, n_name n = Some name /\
    ((below n = None /\ e = ChildNodesRequired (label n)) \/
     exists l es, below n = Some l /\ contents l es /\ es <> [] /\ e = HasErrors (label n) es).
(** Of an object with attributes: every mistake, then everything that is lacking. *)
Definition attributes_report (T : attributes) (lacks : list node -> list str) (n : node) (e : derror) : Prop :=
  report_of (fun l es => es = omap (fault T) l ++ (AttributeRequired (label n) <$> lacks l)) n e.

(** ** Objects *)

Definition column_report (n : node) (e : derror) : Prop :=
  (n_name n = None /\ e = NameRequired (label n)) \/
  (is_Some (n_name n) /\ text n = None /\ e = InvalidTypeAttribute (label n) (L "string")) \/
  (is_Some (n_name n) /\ exists x, text n = Some x /\ (~ exists ty nn d, column_reading x ty nn d) /\
    e = HasErrors (label n) [InvalidTypeExpression x]).
Definition constraint_report (n : node) (e : derror) : Prop :=
  (below n = None /\ e = ChildNodesRequired (label n)) \/
  exists k r, below n = Some (k :: r) /\
    ((n_type k = L "primary key" /\ attributes_report primary_key_attributes
        (fun l => unless (latest (L "primary key") texts l) (L "primary key")) n e) \/
     (n_type k = L "unique" /\ attributes_report unique_attributes
        (fun l => unless_any (latest (L "unique") texts l) (L "unique")) n e) \/
     (n_type k = L "foreign key" /\ attributes_report foreign_key_attributes foreign_key_lacks n e) \/
     (n_type k = L "check" /\ attributes_report check_attributes
        (fun l => unless (latest (L "check") text l) (L "expression")) n e)).

(** The reports of the nodes that have one, in their order. *)
Inductive reports (R : node -> derror -> Prop) : list node -> list derror -> Prop :=
  | no_reports : reports R [] []
  | faulty n e l es : R n e -> reports R l es -> reports R (n :: l) (e :: es)
  | faultless n l es : (~ exists e, R n e) -> reports R l es -> reports R (n :: l) es.

Definition entry_report (n : node) (e : derror) : Prop :=
  (n_type n = L "column" /\ column_report n e) \/
  (n_type n = L "constraint" /\ constraint_report n e) \/
  (n_type n <> L "column" /\ n_type n <> L "constraint" /\ e = UnexpectedNode (label n)).
Definition object_report (n : node) (e : derror) : Prop :=
  (n_type n = L "table" /\ report_of (reports entry_report) n e) \/
  (n_type n = L "view" /\ attributes_report view_attributes
     (fun l => unless (latest (L "as") text l) (L "as")) n e) \/
  (n_type n = L "index" /\ report_of (fun _ es => es = []) n e) \/
  (n_type n = L "sequence" /\ attributes_report sequence_attributes (fun _ => []) n e) \/
  (n_type n = L "function" /\ attributes_report function_attributes
     (fun l => unless (latest (L "as") text l) (L "body")) n e) \/
  (n_type n ∉ relation_kinds /\ n_type n <> L "function" /\ e = UnexpectedNode (label n)).
Definition schema_report (n : node) (e : derror) : Prop := report_of (reports object_report) n e.

(** ** Reading a report *)

(** An error of a report, at any depth. *)
Inductive inside : derror -> derror -> Prop :=
  | inside_here e : inside e e
  | inside_below e n l x : x ∈ l -> inside e x -> inside e (HasErrors n l).
(** The node that an error is about. *)
Definition about (e : derror) : option str :=
  match e with
  | UnexpectedNode n | NameRequired n | ChildNodesRequired n | AttributeRequired n _
  | InvalidTypeAttribute n _ | HasErrors n _ => Some n
  | _ => None
  end.
(** Its first line. *)
Definition first_line (e : derror) : str :=
  match e with
  | UnexpectedNode n => L "unexpected node: " ++ n
  | NameRequired n => L "name required: " ++ n
  | ChildNodesRequired n => L "child nodes required: " ++ n
  | AttributeRequired n a => L "attribute required: " ++ n ++ L " " ++ a
  | InvalidTypeAttribute n x => L "invalid type attribute: " ++ n ++ L " expected " ++ x
  | InvalidTypeExpression x => L "invalid type expression: " ++ x
  | InvalidTableReference r => L "invalid table reference: " ++ r
  | HasErrors n _ => L "has errors: " ++ n
  | Malformed _ | Snapshot _ => []
  end.
