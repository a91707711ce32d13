(** C55: stored versions.

    [print_*] and [parse_*] stand for serde_yaml and serde_json, between text and serde's data
    model; the theorems assume only that they read back what they wrote. *)
From Verif Require Import Base Types Changes History Serde SpecSerde SerdeLemmas SerdeExamples.

(** ** C55: stored versions are read back unchanged *)

Theorem C55_file_read_back (print_yaml : data -> str) (parse_yaml : str -> option data) (v : version) :
  (forall d, parse_yaml (print_yaml d) = Some d) ->
  version_of_file parse_yaml (file_of_version print_yaml v) = Some v.
Proof. exact (file_back print_yaml parse_yaml v). Qed.
Print Assumptions C55_file_read_back.

Theorem C55_row_read_back (print_json : data -> str) (parse_json : str -> option data) (v : version) :
  (forall d, parse_json (print_json d) = Some d) ->
  populate_row parse_json (row_of_version print_json v) = Some v.
Proof. exact (row_back print_json parse_json v). Qed.
Print Assumptions C55_row_read_back.

(** Also when the keys of a version file are put into another order. *)
Theorem C55_order_of_keys (v : version) (d : data) :
  reordered (of_version v) d -> to_version d = Some v.
Proof. intros H. rewrite <-(version_same _ _ H). exact (to_of_version v). Qed.
Print Assumptions C55_order_of_keys.

Example C55_example :
  (forall d, @ex_parse data _ _ (ex_print d) = Some d) /\
  version_of_file ex_parse (ex_print ex_document) = Some ex_version /\
  reordered (of_version ex_version) ex_document /\ of_version ex_version <> ex_document /\
  to_version (DMap [(L "name", DStr (L "x"))]) = None.
Proof.
  split; [exact ex_parse_print|]. split; [vm_compute; reflexivity|]. split; [exact ex_reordered|].
  split; [discriminate|vm_compute; reflexivity].
Qed.
