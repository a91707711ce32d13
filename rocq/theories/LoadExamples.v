(** Examples for the loading properties. *)
From Verif Require Import Base Types Changes SpecSnapshot Load SpecMerge MergeLemmas DiffOrder
  DecideSpec SnapshotExamples.

(** A parser that knows two files. *)
Definition ex_parse (c : str) : option database :=
  if decide (c = L "A") then Some w_plain_table
  else if decide (c = L "B") then Some ex_extra
  else None.

Lemma ex_parse_wf c x : ex_parse c = Some x -> wf_db x.
Proof.
  unfold ex_parse. destruct (decide _); [intros [= <-]; apply w_plain_table_wf|].
  destruct (decide _); [intros [= <-]; apply ex_extra_wf|done].
Qed.

Definition ex_dir : entry :=
  Dir [] [Dir (L "sub") [File (L "one.yaml") (L "A"); File (L "notes.txt") (L "?")];
          File (L "two.yaml") (L "B")].
Definition ex_dir_relisted : entry :=
  Dir [] [File (L "two.yaml") (L "B");
          Dir (L "sub") [File (L "notes.txt") (L "?"); File (L "one.yaml") (L "A")]].

Lemma ex_relisted : relisted ex_dir ex_dir_relisted.
Proof.
  constructor. eapply relisted_trans; [apply relisted_swap|].
  apply relisted_cons; [constructor|]. apply relisted_cons; [|constructor].
  constructor. apply relisted_swap.
Qed.

Lemma ex_loads : is_Some (load_snapshot ex_parse (fun _ => any_order) ex_dir).
Proof. by_computation. Qed.

Lemma ex_no_clash : no_clash w_plain_table ex_extra.
Proof.
  apply (merge_ok_inv any_order _ _ (database_merge any_order ex_extra w_plain_table).1 ex_extra_wf).
  run.
Qed.

Lemma ex_clash : ~ no_clash w_plain_table w_two.
Proof.
  intros [H _]. destruct (H P (L "users")) as [H1|H1]; revert H1; by_computation.
Qed.
