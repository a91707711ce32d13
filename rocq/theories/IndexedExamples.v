(** A new column and an index on it. *)
From Verif Require Import Base Text Types Changes SpecSnapshot Diff SpecDiff DecideSpec SnapshotExamples HistoryExamples Sql SpecSql SpecDb
  SpecLex SpecStatement SpecServer SpecSpelled SpecAccept SpecNull SpecAdd DecideServer ServerExamples NullExamples
  AddExamples TakeBackExamples SpecIndexed.

Lemma ex_indexed : (wf_db nl_keyed /\ wf_db tk_indexed /\ spelled_db nl_keyed /\ spelled_db tk_indexed /\ described nl_keyed ad_server) /\
  (only_adds nl_keyed tk_indexed /\ new_sayable nl_keyed tk_indexed /\ indexes_safe nl_keyed tk_indexed /\ new_sequences_unowned nl_keyed tk_indexed) /\
  relation_at nl_keyed P (L "users_email") = None /\
  relation_at tk_indexed P (L "users_email") = Some (RIndex (Index P (L "users_email") (L "users") false (L "btree") [L "email"])) /\
  table_at nl_keyed P (L "users") /\ table_at tk_indexed P (L "users") /\
  column_at nl_keyed P (L "users") (L "email") = None /\ is_Some (column_at tk_indexed P (L "users") (L "email")) /\
  runs obey (render_sql <$> compare_diff any_order table_first nl_keyed tk_indexed) ad_server tk_applied.
Proof.
  destruct tk_added_indexed as ((A1 & A2 & A3) & (B1 & B2) & A4 & A5 & A6 & A7 & _).
  split; [split; [exact A1|split; [exact B1|split; [exact A2|split; [exact B2|exact A3]]]]|].
  split; [split; [exact A4|split; [exact A5|split; [exact A6|exact A7]]]|].
  split; [by_computation|]. split; [by_computation|]. split; [eexists; vm_compute; reflexivity|]. split; [eexists; vm_compute; reflexivity|].
  split; [by_computation|]. split; [eexists; vm_compute; reflexivity|]. exact (proj2 tk_goes_up).
Qed.

(** [obey], looking for the columns of an index. *)
Definition key_found (sv : server) (n b : str) (key : list token) : Prop :=
  match key with
  | [e] => match name_of e with Some x => match server_column sv n b x with Some _ => True | None => False end | None => True end
  | _ => True
  end.
Global Instance key_found_dec sv n b key : Decision (key_found sv n b key).
Proof.
  destruct key as [|e [|]]; cbn; try apply _. destruct (name_of e) as [x|]; [|apply _]. destruct (server_column sv n b x); apply _.
Defined.
Definition checked_sem (sql : str) (sv : server) : option server :=
  match read_statement sql with
  | Some (DoCreateIndex _ n b _ _ keys) => if decide (Forall (key_found sv n b) keys) then obey sql sv else None
  | _ => obey sql sv
  end.
Lemma checked_obeys sql sv sv' : checked_sem sql sv = Some sv' -> obey sql sv = Some sv'.
Proof. unfold checked_sem. destruct (read_statement sql) as [[]|]; try done. by case_decide. Qed.
Lemma ex_index_refused : obedient checked_sem (fun sv => sv) /\ indexes_checked checked_sem (fun sv => sv) /\
  keys_fit tk_indexed /\ new_valid nl_keyed tk_indexed /\ lex (L "email") = Some [Word (L "email")] /\ name_of (Word (L "email")) = Some (L "email").
Proof.
  split.
  { intros c u u' Hw H%checked_obeys. split.
    - intros _. unfold obey in H. destruct (read_statement (render_sql c)); [by eexists|done].
    - intros sv Hsv. congruence. }
  split.
  { intros sql u u' k n b uq m keys e x H Hr Hin He. unfold checked_sem in H. rewrite Hr in H. case_decide as D; [|done].
    rewrite Forall_forall in D. specialize (D _ Hin). cbn in D. rewrite He in D. destruct (server_column u n b x); [by eexists|done]. }
  destruct tk_added_indexed as (_ & _ & _ & _ & _ & _ & A8 & A9 & _). split; [exact A8|]. split; [exact A9|].
  split; vm_compute; reflexivity.
Qed.
