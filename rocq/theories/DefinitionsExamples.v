(** Documents as texts, for the examples: some way of writing mappings that can be read back. *)
From Verif Require Import Base Text Types Changes SpecSnapshot SpecMerge SnapshotExamples Load Node Yaml Ddl
  SpecDefinition DecideDefinition SaveLemmas History Expand Project Definitions SpecDefinitions DefinitionsLemmas
  SerdeExamples.

(** ** Mappings are countable *)
Notation leaf := (() + bool + Z + N + str)%type.

Fixpoint tree_of (y : yaml) : gen_tree leaf :=
  match y with
  | YNull => GenLeaf (inl (inl (inl (inl ()))))
  | YBool b => GenLeaf (inl (inl (inl (inr b))))
  | YInt z => GenLeaf (inl (inl (inr z)))
  | YFloat f => GenLeaf (inl (inr f))
  | YString s => GenLeaf (inr s)
  | YSeq l => GenNode 0 (tree_of <$> l)
  | YMap m => GenNode 1 ((fun e => GenNode 0 [tree_of (e.1); tree_of (e.2)]) <$> m)
  | YTagged tag v => GenNode 2 [GenLeaf (inr tag); tree_of v]
  end.
Fixpoint yaml_of (t : gen_tree leaf) : yaml :=
  match t with
  | GenLeaf (inl (inl (inl (inl _)))) => YNull
  | GenLeaf (inl (inl (inl (inr b)))) => YBool b
  | GenLeaf (inl (inl (inr z))) => YInt z
  | GenLeaf (inl (inr f)) => YFloat f
  | GenLeaf (inr s) => YString s
  | GenNode 0 l => YSeq (yaml_of <$> l)
  | GenNode 1 l => YMap ((fun t => match t with
                                    | GenNode _ [k; v] => (yaml_of k, yaml_of v)
                                    | _ => (YNull, YNull)
                                    end) <$> l)
  | GenNode _ [GenLeaf (inr tag); v] => YTagged tag (yaml_of v)
  | _ => YNull
  end.
Fixpoint yaml_of_tree (y : yaml) : yaml_of (tree_of y) = y.
Proof.
  destruct y; cbn; try done.
  - f_equal. induction l as [|y l IH]; cbn; [done|]. by rewrite yaml_of_tree, IH.
  - f_equal. induction m as [|[k v] m IH]; cbn; [done|]. by rewrite !yaml_of_tree, IH.
  - by rewrite yaml_of_tree.
Defined.
Global Instance yaml_eq_dec : EqDecision yaml.
Proof.
  refine (fun x y => cast_if (decide (tree_of x = tree_of y))); [|congruence].
  rewrite <- (yaml_of_tree x), <- (yaml_of_tree y). congruence.
Defined.
Global Instance yaml_countable : Countable yaml.
Proof. exact (inj_countable' tree_of yaml_of yaml_of_tree). Defined.

(** ** A way of writing *)
Definition document_of (d : database) : list (yaml * yaml) :=
  match save_document any_order d with Done m => m | _ => [] end.

(** The texts "source" and "owned" stand for two particular documents. *)
Definition ex_read (text : str) : option (list (yaml * yaml)) :=
  if decide (text = L "source") then Some (document_of ex_source) else
  if decide (text = L "owned") then Some (document_of w_owned) else ex_parse text.
Definition ex_documents : documents.
Proof. by refine (Documents ex_read ex_print map_to_list _ (fun _ => any_order) any_order). Defined.

Lemma ex_reads_back : reads_back ex_documents.
Proof.
  intros o d m _. cbn. unfold ex_read. rewrite !decide_False by (intros [=]). apply ex_parse_print.
Qed.

Lemma ex_source_defined : defines ex_documents (L "source") ex_source.
Proof.
  destruct (save_load any_order any_order ex_source) as (m & H1 & H2);
    [exact ex_source_wf|apply (bool_decide_unpack _); vm_compute; exact I..|].
  exists m, any_order. split; [|done]. cbn. unfold ex_read. rewrite decide_True by done. unfold document_of. by rewrite H1.
Qed.
