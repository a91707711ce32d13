(** C23 for a directory of files: loading the definitions aborts exactly if a file is reached that
    aborts. *)
From Verif Require Import Base Text Types Changes SpecSnapshot SpecMerge Load Node Yaml Ddl History Expand Project SpecDefinition
  SpecMeaning DefinitionExamples Definitions SpecDefinitions DirectoryLemmas.

(** A file is reached if those read before it are loaded. *)
Theorem C23_directory_aborts_iff dc fs :
  load_definition_files dc fs = Abort <->
  fs !! [] = Some Directory /\ exists pre text post d m, definition_texts dc fs = pre ++ text :: post /\
    load_texts dc 0 database_new pre = Ret d /\ dc_read dc text = Some m /\
    (child_aborts (YMap m) \/ exists l, nodes_mean m l /\ document_aborts l).
Proof. exact (directory_aborts_iff dc fs). Qed.
Print Assumptions C23_directory_aborts_iff.

(** Then there is such a definition file, *)
Theorem C23_directory_aborts dc fs :
  load_definition_files dc fs = Abort -> exists q text m, definition_at fs q text /\ dc_read dc text = Some m /\
    (child_aborts (YMap m) \/ exists l, nodes_mean m l /\ document_aborts l).
Proof. exact (directory_aborts_file dc fs). Qed.
Print Assumptions C23_directory_aborts.

(** and if it is the only one, that is enough. *)
Theorem C23_only_file_aborts dc fs q text m :
  fs !! [] = Some Directory -> (forall q' text', definition_at fs q' text' <-> q' = q /\ text' = text) ->
  dc_read dc text = Some m -> child_aborts (YMap m) \/ (exists l, nodes_mean m l /\ document_aborts l) ->
  load_definition_files dc fs = Abort.
Proof. exact (directory_aborts_only dc fs q text m). Qed.
Print Assumptions C23_only_file_aborts.

Example C23_directory_example : load_definition_files dy_documents dy_files = Abort.
Proof. exact ex_directory_aborts. Qed.
