(** A text format for serde's data model, to show that the hypotheses about such formats can
    be met: a document is written as the single number that encodes it. *)
From Verif Require Import Base Types Changes History Serde SpecSerde SerdeLemmas.

Fixpoint to_tree (d : data) : gen_tree (bool + Z + str) :=
  match d with
  | DNull => GenNode 0 []
  | DBool b => GenLeaf (inl (inl b))
  | DInt z => GenLeaf (inl (inr z))
  | DStr s => GenLeaf (inr s)
  | DSeq l => GenNode 1 (map to_tree l)
  | DMap l => GenNode 2 (map (fun e => GenNode 3 [GenLeaf (inr e.1); to_tree e.2]) l)
  end.
Fixpoint of_tree (t : gen_tree (bool + Z + str)) : data :=
  match t with
  | GenLeaf (inl (inl b)) => DBool b
  | GenLeaf (inl (inr z)) => DInt z
  | GenLeaf (inr s) => DStr s
  | GenNode 1 l => DSeq (map of_tree l)
  | GenNode 2 l =>
      DMap (map (fun t => match t with
                          | GenNode _ [GenLeaf (inr k); t] => (k, of_tree t)
                          | _ => ([], DNull)
                          end) l)
  | _ => DNull
  end.
Fixpoint of_to_tree (d : data) : of_tree (to_tree d) = d.
Proof.
  destruct d as [| | | |l|l]; try reflexivity.
  - cbn. f_equal. rewrite map_map. induction l as [|x l IH]; [reflexivity|].
    cbn [map]. f_equal; [apply of_to_tree|exact IH].
  - cbn. f_equal. rewrite map_map. induction l as [|[k x] l IH]; [reflexivity|].
    cbn [map]. f_equal; [|exact IH]. cbn. f_equal. apply of_to_tree.
Qed.
Global Instance data_eq_dec : EqDecision data.
Proof.
  refine (fun x y => cast_if (decide (to_tree x = to_tree y))).
  - by rewrite <-(of_to_tree x), <-(of_to_tree y), e.
  - by intros ->.
Defined.
Global Instance data_countable : Countable data := inj_countable' to_tree of_tree of_to_tree.

Definition ex_print {A} `{Countable A} (d : A) : str := [Npos (encode d)].
Definition ex_parse {A} `{Countable A} (s : str) : option A :=
  match s with [Npos p] => decode p | _ => None end.
Lemma ex_parse_print {A} `{Countable A} (d : A) : ex_parse (ex_print d) = Some d.
Proof. apply decode_encode. Qed.

(** The same document with its keys in another order. *)
Definition ex_document : data :=
  DMap [(L "down", DSeq [DStr (L "DROP SCHEMA audit;")]);
        (L "changes", DSeq [DMap [(L "change", DMap [(L "schema_name", DStr (L "audit"))]);
                                  (L "type", DStr (L "CreateSchemaChange"))]]);
        (L "up", DSeq [DStr (L "CREATE SCHEMA audit;")]);
        (L "previous", DStr (L "init")); (L "name", DStr (L "audit"))].
Definition ex_version : version :=
  Version (L "audit") (Some (L "init")) [CreateSchema (L "audit")] [L "CREATE SCHEMA audit;"]
    [L "DROP SCHEMA audit;"].
Lemma ex_reordered : reordered (of_version ex_version) ex_document.
Proof.
  pose (c := DMap [(L "change", DMap [(L "schema_name", DStr (L "audit"))]);
                   (L "type", DStr (L "CreateSchemaChange"))]).
  apply (in_map _ [(L "name", DStr (L "audit")); (L "previous", DStr (L "init"));
                   (L "changes", DSeq [c]);
                   (L "up", DSeq [DStr (L "CREATE SCHEMA audit;")]);
                   (L "down", DSeq [DStr (L "DROP SCHEMA audit;")])]).
  - constructor; [split; [reflexivity|apply as_is]|].
    constructor; [split; [reflexivity|apply as_is]|].
    constructor; [split; [reflexivity|]|].
    { apply in_sequence. constructor; [|constructor].
      unfold c. eapply in_map; [|apply perm_swap].
      constructor; [split; [reflexivity|apply as_is]|].
      constructor; [split; [reflexivity|apply as_is]|]. constructor. }
    constructor; [split; [reflexivity|apply as_is]|].
    constructor; [split; [reflexivity|apply as_is]|]. constructor.
  - apply (bool_decide_unpack _). vm_compute. exact I.
Qed.
