(** The conditions on changes can be decided, for concrete cases. *)
From Verif Require Import Base Text Types Changes Sql SpecSnapshot SpecSql History SpecHistory SpecLex SpecStatement
  SpecServer SpecObey DecideSpec SpecDb SpecAccept HistoryRun InvertLemmas SayLemmas ServerLemmas ObeyLemmas.

Global Instance nameable_dec n : Decision (nameable n).
Proof. unfold nameable, quotable. apply _. Defined.
Global Instance spelled_dec Q x `{!forall l, Decision (Q l)} : Decision (spelled Q x).
Proof.
  destruct (lex x) as [l|] eqn:E.
  - destruct (decide (l <> [] /\ no_semicolon l /\ Q l)) as [Hq|Hq].
    + left. exists l. by split.
    + right. intros (l' & H1 & H2). rewrite E in H1. injection H1 as <-. by apply Hq.
  - right. intros (l' & H1 & _). by rewrite E in H1.
Defined.
Global Instance type_spelled_dec x : Decision (type_spelled x).
Proof. unfold type_spelled. apply _. Defined.
Global Instance expression_spelled_dec x : Decision (expression_spelled x).
Proof. unfold expression_spelled. apply spelled_dec. intros [|t l]; apply _. Defined.
Global Instance word_spelled_dec x : Decision (word_spelled x).
Proof.
  destruct (lex x) as [[|[w| | | |] [|]]|] eqn:E;
    try (right; intros (w' & H & _); rewrite E in H; discriminate).
  destruct (decide (w ∉ reserved /\ clip w = w)) as [H|H].
  - left. exists w. by split.
  - right. intros (w' & H1 & H2). rewrite E in H1. injection H1 as <-. by apply H.
Defined.
Global Instance default_spelled_dec (d : option str) : Decision (forall x, d = Some x -> expression_spelled x).
Proof.
  destruct d as [x|]; [|left; discriminate]. destruct (decide (expression_spelled x)) as [H|H].
  - left. by intros ? [= <-].
  - right. intros K. by apply H, K.
Defined.
Global Instance column_spelled_dec c : Decision (column_spelled c).
Proof. unfold column_spelled. apply _. Defined.
Global Instance well_spelled_dec c : Decision (well_spelled c).
Proof. destruct c; cbn [well_spelled]; apply _. Defined.

Global Instance grouped_dec e : Decision (exists l a, lex e = Some l /\ group l = Some (a, []) /\ a <> []).
Proof.
  destruct (lex e) as [l|] eqn:E; [|right; by intros (? & ? & ? & _)].
  destruct (group l) as [[a [|]]|] eqn:G;
    try (right; intros (l' & a' & H1 & H2 & _); injection H1 as <-; rewrite G in H2; discriminate).
  destruct (decide (a = [])) as [Ha|Ha].
  - right. intros (l' & a' & H1 & H2 & H3). injection H1 as <-. rewrite G in H2. by injection H2 as <-.
  - left. by exists l, a.
Defined.
Global Instance sayable_dec c : Decision (sayable c).
Proof. destruct c; cbn [sayable]; apply _. Defined.

(** What is to be dropped has nothing that goes with it. *)
Definition check_relations (d : database) (s : str) (Q : relation -> Prop) : Prop :=
  match db_schemas d !! s with Some sc => map_Forall (fun _ r => Q r) (sc_relations sc) | None => True end.
Lemma check_relations_at d s Q : check_relations d s Q <-> forall k r, relation_at d s k = Some r -> Q r.
Proof.
  unfold check_relations, relation_at. destruct (db_schemas d !! s) as [sc|]; [|split; [done|done]]. done.
Qed.
Global Instance check_relations_dec d s Q `{!forall r, Decision (Q r)} : Decision (check_relations d s Q).
Proof. unfold check_relations. destruct (db_schemas d !! s); apply _. Defined.
Definition not_of_column (t n : str) (r : relation) : Prop :=
  match r with
  | RIndex i => ix_table i = t -> Forall (fun e => lex e ≫= one_name <> Some n) (ix_keys i)
  | RSequence q => owner_meant q <> Some (t, n)
  | _ => True
  end.
Definition not_of_table (t : str) (r : relation) : Prop :=
  match r with
  | RIndex i => ix_table i <> t
  | RSequence q => fst <$> owner_meant q <> Some t
  | _ => True
  end.
Global Instance not_of_column_dec t n r : Decision (not_of_column t n r).
Proof. destruct r; cbn [not_of_column]; apply _. Defined.
Global Instance not_of_table_dec t r : Decision (not_of_table t r).
Proof. destruct r; cbn [not_of_table]; apply _. Defined.
Definition check_plain_effect (c : change) (d : database) : Prop :=
  match c with
  | AddPrimaryKey s t _ cs _ _ =>
      Forall (fun n => match column_at d s t n with Some col => col_notnull col = true | None => True end) cs
  | DropColumn s t n =>
      match relation_at d s t with
      | Some (RTable x) => map_Forall (fun _ c => n ∉ constrained_columns c) (tb_constraints x)
      | _ => True
      end /\ check_relations d s (not_of_column t n)
  | DropTable s t => check_relations d s (not_of_table t)
  | _ => True
  end.
Lemma check_plain_effect_iff c d : check_plain_effect c d <-> plain_effect c d.
Proof.
  destruct c; try done; cbn [check_plain_effect plain_effect].
  - rewrite Forall_forall. split.
    + intros H n col Hn Hc. specialize (H n Hn). by rewrite Hc in H.
    + intros H n Hn. destruct (column_at _ _ _ n) as [col|] eqn:E; [|done]. by eapply H.
  - rewrite check_relations_at. split.
    + intros [H1 H2]. split_and!.
      * intros k c Hc. unfold constraint_at in Hc. destruct (relation_at _ _ _) as [[x| | |]|]; try done. by apply (H1 k).
      * intros k i Hi. exact (H2 k (RIndex i) Hi).
      * intros k q Hq. exact (H2 k (RSequence q) Hq).
    + intros (H1 & H2 & H3). split.
      * unfold constraint_at in H1. destruct (relation_at _ _ _) as [[x| | |]|]; done.
      * intros k [| |i|q] Hr; try done; [exact (H2 k i Hr)|exact (H3 k q Hr)].
  - rewrite check_relations_at. split.
    + intros H. split.
      * intros k i Hi. exact (H k (RIndex i) Hi).
      * intros k q n Hq E. apply (H k (RSequence q) Hq). by rewrite E.
    + intros [H2 H3] k [| |i|q] Hr; try done; [exact (H2 k i Hr)|].
      cbn. destruct (owner_meant q) as [[t' n]|] eqn:E; [|done]. cbn. intros [= ->]. by apply (H3 k q n Hr).
Qed.
Global Instance check_plain_effect_dec c d : Decision (check_plain_effect c d).
Proof.
  destruct c; cbn [check_plain_effect]; try apply _.
  - apply Forall_dec. intros n. destruct (column_at _ _ _ n); apply _.
  - apply and_dec; [|apply _]. destruct (relation_at _ _ _) as [[]|]; apply _.
Defined.
Global Instance plain_effect_dec c d : Decision (plain_effect c d).
Proof.
  destruct (decide (check_plain_effect c d)) as [H|H].
  - left. by apply check_plain_effect_iff.
  - right. by intros ?%check_plain_effect_iff.
Defined.

Global Instance faithful_dec d cs : Decision (faithful d cs).
Proof.
  revert d. induction cs as [|c cs IH]; intros d; cbn [faithful]; [apply _|].
  apply and_dec; [apply _|]. apply and_dec; [apply _|].
  destruct (apply c d) as [d1 [[]|e]] eqn:E; [|left; discriminate].
  destruct (IH d1) as [H|H].
  - left. by intros d' [= <-].
  - right. intros K. by apply H, K.
Defined.

(** Whether changes are acceptable shows in a database that the snapshot describes. *)
Fixpoint obey_all (stmts : list str) (sv : server) : option server :=
  match stmts with [] => Some sv | stmt :: stmts => obey stmt sv ≫= obey_all stmts end.
Lemma obey_all_runs stmts sv sv' : obey_all stmts sv = Some sv' -> runs obey stmts sv sv'.
Proof.
  revert sv. induction stmts as [|stmt stmts IH]; intros sv H; [injection H as <-; constructor|].
  cbn in H. destruct (obey stmt sv) as [sv1|] eqn:E; [|discriminate]. econstructor; [done|by apply IH].
Qed.
Lemma obeyed stmts sv : match obey_all stmts sv with Some _ => True | None => False end -> exists sv', runs obey stmts sv sv'.
Proof. destruct (obey_all stmts sv) as [sv'|] eqn:E; [|done]. intros _. exists sv'. by apply obey_all_runs. Qed.
Definition is_done {A B} (m : A * result B) : Prop := match m.2 with Ok _ => True | Err _ => False end.
Lemma shown_acceptable cs d sv : wf_db d -> described d sv -> Forall well_spelled cs -> is_done (apply_all cs d) ->
  faithful d cs -> match obey_all (render_sql <$> cs) sv with Some _ => True | None => False end -> acceptable d cs.
Proof.
  intros Hwf Hd Hw Ha Hf H%obeyed. unfold is_done in Ha. destruct (apply_all cs d) as [d' [[]|]] eqn:E; [|done].
  by apply (acceptable_runs cs d sv d').
Qed.

(** The snapshots come back exactly, not just up to the order of columns. *)
Fixpoint check_back (d : database) (sv : server) (vs : list version) : bool :=
  match vs with
  | [] => true
  | v :: vs =>
      match apply_all (v_changes v) d, collect_reverts (v_changes v) d, obey_all (render_sql <$> v_changes v) sv with
      | (d1, Ok _), Some rs, Some sv1 =>
          bool_decide (Forall well_spelled (v_changes v)) && bool_decide (faithful d (v_changes v)) &&
          match apply_all (reverse rs) d1 with (d2, Ok _) => bool_decide (d2 = d) | _ => false end && bool_decide (Forall well_spelled rs) &&
          bool_decide (faithful d1 (reverse rs)) &&
          match obey_all (render_sql <$> reverse rs) sv1 with Some _ => true | None => false end && check_back d1 sv1 vs
      | _, _, _ => false
      end
  end.
Lemma check_back_taken d sv vs : wf_db d -> described d sv -> check_back d sv vs = true -> taken_back d vs.
Proof.
  revert d sv. induction vs as [|v vs IH]; intros d sv Hwf Hd H; [constructor|]. cbn in H.
  destruct (apply_all (v_changes v) d) as [d1 [[]|e]] eqn:Ea; [|done].
  destruct (collect_reverts (v_changes v) d) as [rs|] eqn:Er; [|done].
  destruct (obey_all (render_sql <$> v_changes v) sv) as [sv1|] eqn:Eo; [|done].
  apply andb_true_iff in H as [H H5]. apply andb_true_iff in H as [H H4]. apply andb_true_iff in H as [H H3].
  apply andb_true_iff in H as [H H2]. apply andb_true_iff in H as [H H1]. apply andb_true_iff in H as [Hw Hf].
  apply bool_decide_eq_true in H2, H3, Hw, Hf.
  destruct (apply_all (reverse rs) d1) as [d2 [[]|e]] eqn:Eb; [|done]. apply bool_decide_eq_true in H1. subst d2.
  assert (Hd1 : described d1 sv1) by (eapply (runs_faithful (v_changes v) d sv); [done|done|done|done|by apply obey_all_runs|done]).
  assert (Hwf1 : wf_db d1) by (by eapply apply_all_wf).
  econstructor; [exact Ea|exact Er|exact Eb|apply db_equiv_refl|exact H2|exact H3| |by eapply IH].
  apply (shown_acceptable _ d1 sv1); [done|done|by rewrite reverse_Permutation|by rewrite Eb|done|by destruct (obey_all _ sv1)].
Qed.
