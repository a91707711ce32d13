(** Property theorems C13 and C14: loading and merging definitions. *)
From Verif Require Import Base Types Changes SpecSnapshot Load SpecMerge MergeLemmas
  SnapshotExamples LoadExamples.

(** ** C13: loading does not depend on the order of files

    For any parser of single files whose results are well formed, any two listings of
    the same directory tree and any hash orders, loading gives the same outcome. *)
Theorem C13_load_order_independent parse os os' dir dir' :
  (forall c x, parse c = Some x -> wf_db x) -> relisted dir dir' ->
  load_snapshot parse os dir = load_snapshot parse os' dir'.
Proof. exact (load_order_independent parse os os' dir dir'). Qed.
Print Assumptions C13_load_order_independent.

Example C13_example :
  (forall c x, ex_parse c = Some x -> wf_db x) /\ relisted ex_dir ex_dir_relisted /\
  ex_dir <> ex_dir_relisted /\ is_Some (load_snapshot ex_parse (fun _ => any_order) ex_dir).
Proof. split_and!; [exact ex_parse_wf|exact ex_relisted|discriminate|exact ex_loads]. Qed.

(** ** C14: merging never drops or overwrites an object *)
Theorem C14_merge_exact o a b :
  wf_db a -> wf_db b ->
  (no_clash a b -> exists d, database_merge o b a = (d, Ok ()) /\ contains_exactly [a; b] d /\ wf_db d) /\
  (forall d, database_merge o b a = (d, Ok ()) -> no_clash a b).
Proof. exact (merge_spec o a b). Qed.
Print Assumptions C14_merge_exact.

(** The same for a whole directory: it loads exactly when every file parses and nothing
    is defined twice, and then the snapshot contains exactly the objects of the files.  The
    files are those named *.yaml, at any depth. *)
Theorem C14_load_exact parse os dir d :
  (forall c x, parse c = Some x -> wf_db x) ->
  load_snapshot parse os dir = Some d <->
  exists cs l, definition_files dir cs /\ Some <$> l = parse <$> cs /\ no_clashes l /\
    wf_db d /\ contains_exactly l d.
Proof. exact (load_snapshot_spec parse os dir d). Qed.
Print Assumptions C14_load_exact.

Example C14_example :
  wf_db w_plain_table /\ wf_db ex_extra /\ no_clash w_plain_table ex_extra /\
  ~ no_clash w_plain_table w_two.
Proof. exact (conj w_plain_table_wf (conj ex_extra_wf (conj ex_no_clash ex_clash))). Qed.

Example C14_files_example :
  definition_files (Dir (L "schema") [File (L "a.yaml") (L "A"); File (L "b.yml") (L "B");
    Dir (L "sub.yaml") [File (L ".yaml") (L "C"); File (L "d.sql.yaml") (L "D")]]) [L "A"; L "D"].
Proof. exact (collect_definition_files _). Qed.
