(** Specification vocabulary: versions that only add. *)
From Verif Require Import Base Text Types Changes SpecSnapshot SpecDiff Diff History SpecHistory SpecSql SpecLex SpecStatement SpecServer
  SpecSpelled SpecAccept SpecNull SpecAdd.

(** The changes of each version are the difference between the snapshot before it and
    definitions that only add to it; what they add can be taken back. *)
Inductive additions : database -> list version -> Prop :=
  | additions_nil d : additions d []
  | additions_cons d v vs os ot t d1 :
      wf_db t -> spelled_db d -> spelled_db t -> only_adds d t -> new_sayable d t -> indexes_safe d t -> new_sequences_unowned d t ->
      self_contained d -> new_unused d t ->
      v_changes v = compare_diff os ot d t -> apply_all (v_changes v) d = (d1, Ok ()) -> additions d1 vs ->
      additions d (v :: vs).
