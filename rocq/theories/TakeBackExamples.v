(** Additions that are taken back, and some that cannot be. *)
From Verif Require Import Base Text Types Changes SpecSnapshot SpecMerge Diff SpecDiff DecideSpec SnapshotExamples
  Sql SpecSql History SpecHistory HistoryExamples Dbh SpecDb DbExamples Project Definitions World SpecProject SpecSession ProjectSession
  WorldExamples SpecLex SpecStatement SpecServer SpecSpelled SpecAccept SpecNull SpecObey SpecAdd SpecTakeBack
  DecideServer ServerExamples ObeyFlowExamples SpelledLemmas SpelledExamples AcceptExamples NullLemmas NullDiff NullFlow NullExamples
  AddLemmas TakeBackLemmas AddFlow TakeBackFlow AddExamples HistoryLemmas DbProofs ObeyLemmas.

(** ** Deciding (for snapshots without foreign keys and owned sequences) *)
Definition check_self (s : database) : Prop :=
  for_relations s (fun n k r =>
    match r with
    | RTable b => map_Forall (fun x c => match c with CForeignKey _ => False | _ => True end /\
        Forall (fun y => is_Some (find_column y (tb_columns b))) (constrained_columns c)) (tb_constraints b)
    | RIndex i => match relation_at s n (ix_table i) with Some (RTable _) => True | _ => False end
    | RSequence q => owner_meant q = None
    | RView _ => True
    end).
Global Instance check_self_dec s : Decision (check_self s).
Proof.
  apply for_relations_dec. intros n k [b| |i|q]; try apply _.
  - apply map_Forall_dec. intros x c. apply and_dec; [destruct c; apply _|apply _].
  - destruct (relation_at s n (ix_table i)) as [[| | |]|]; apply _.
Defined.
Lemma no_foreign_keys s : check_self s -> forall n k x f, constraint_at s n k x <> Some (CForeignKey f).
Proof.
  unfold check_self. rewrite for_relations_spec. intros H n k x f. unfold constraint_at.
  destruct (relation_at s n k) as [[b| | |]|] eqn:E; try done. intros Hx. specialize (H _ _ _ E x _ Hx). cbv beta in H. by destruct H.
Qed.
Lemma check_self_1 s : check_self s -> self_contained s.
Proof.
  intros H. pose proof (no_foreign_keys s H) as F. unfold check_self in H. rewrite for_relations_spec in H. split_and!.
  - intros n k x c. unfold constraint_at, column_at. destruct (relation_at s n k) as [[b| | |]|] eqn:E; try done. intros Hx.
    specialize (H _ _ _ E x _ Hx). cbv beta in H. apply H.
  - intros n k x f Hf. by destruct (F n k x f).
  - intros n k i Hi. specialize (H _ _ _ Hi). cbv beta iota in H. unfold table_at, is_table.
    destruct (relation_at s n (ix_table i)) as [[b| | |]|]; try done. by exists b.
  - intros n k q b x Hq Ho. specialize (H _ _ _ Hq). cbv beta iota in H. congruence.
Qed.
Definition unmentioned (x : str) (s t : database) : Prop :=
  for_relations s (fun _ _ r =>
    match r with
    | RTable a => map_Forall (fun _ c =>
        match c with
        | CCheck c => match expression_meant (ck_expression c) with Some e => mentions x e = false | None => True end
        | _ => True
        end) (tb_constraints a)
    | _ => True
    end) /\
  for_relations t (fun _ _ r =>
    match r with
    | RIndex i => Forall (fun e => match lex e with Some l => mentions x l = false | None => True end) (ix_keys i)
    | _ => True
    end).
Global Instance unmentioned_dec x s t : Decision (unmentioned x s t).
Proof.
  apply and_dec; apply for_relations_dec; intros n k [b| |i|q]; try apply _.
  - apply map_Forall_dec. intros y [| | |c]; try apply _. destruct (expression_meant _); apply _.
  - apply Forall_dec. intros e. destruct (lex e); apply _.
Defined.
Definition check_unused (s t : database) : Prop :=
  for_relations t (fun n k r =>
    match r, relation_at s n k with
    | RTable b, Some (RTable a) =>
        Forall (fun c => match find_column (col_name c) (tb_columns a) with Some _ => True | None => unmentioned (col_name c) s t end) (tb_columns b)
    | _, _ => True
    end).
Global Instance check_unused_dec s t : Decision (check_unused s t).
Proof.
  apply for_relations_dec. intros n k r. destruct r as [b| | |], (relation_at s n k) as [[a| | |]|]; try apply _.
  apply Forall_dec. intros c. destruct (find_column _ _); apply _.
Defined.
Lemma check_unused_1 s t : check_self s -> check_unused s t -> new_unused s t.
Proof.
  intros Hs H. pose proof (no_foreign_keys s Hs) as F. unfold check_unused in H. rewrite for_relations_spec in H. split.
  - intros n k x [a Ha] Hx [c Hc]. unfold column_at in Hx, Hc. rewrite Ha in Hx.
    destruct (relation_at t n k) as [[b| | |]|] eqn:Eb; try done. specialize (H _ _ _ Eb). cbv beta iota in H. rewrite Ha in H.
    apply ColumnLemmas.find_column_Some in Hc as [Hc <-]. rewrite Forall_forall in H. specialize (H _ Hc). cbv beta in H. rewrite Hx in H.
    destruct H as [H1 H2]. rewrite for_relations_spec in H1, H2. split.
    + intros (y & e & l & G1 & G2 & G3). unfold constraint_at in G1. rewrite Ha in G1. specialize (H1 _ _ _ Ha y _ G1). cbv beta iota in H1.
      rewrite G2 in H1. congruence.
    + intros (y & i & e & l & G1 & _ & G3 & G4 & G5). specialize (H2 _ _ _ G1). cbv beta iota in H2. rewrite Forall_forall in H2.
      specialize (H2 _ G3). cbv beta in H2. rewrite G4 in H2. congruence.
  - intros n k x c cs _ _ _ (n1 & k1 & y & f & G & _). by destruct (F n1 k1 y f).
Qed.

(** ** The additions of C93 *)
Lemma tk_additions : self_contained nl_keyed /\ new_unused nl_keyed ad_good /\ old_nulls_kept nl_keyed ad_good.
Proof.
  assert (K : check_self nl_keyed) by by_computation.
  split; [exact (check_self_1 _ K)|]. split; [apply check_unused_1; [exact K|]; by_computation|].
  destruct ad_good_case as (H1 & _ & H2 & _).
  apply (old_nulls_iff any_order table_first nl_keyed ad_good (proj1 ad_described) H1 H2). apply check_nulls_iff. by_computation.
Qed.

(** ** A key for a column that may be null *)
Definition tk_db (key : bool) : database := mk_db
  [Schema P
    (mk_relations
      [RTable (Table P (L "users") [col (L "users") (L "id") (L "int4") false None; col (L "users") (L "name") (L "text") false None]
         (if key then mk_constraints [CPrimaryKey (PrimaryKey P (L "users") (L "users_pkey") [L "id"] false false)] else ∅))])
    ∅].
Definition tk_server : server := sv_at (nl_diff (tk_db false)).
Lemma tk_case : nl_case (tk_db false).
Proof. nl_case. Qed.
Lemma tk_described : described (tk_db false) tk_server.
Proof.
  destruct tk_case as (H1 & H2 & H3 & H4 & _).
  assert (Hr : runs obey (render_sql <$> nl_diff (tk_db false)) fresh tk_server).
  { apply obey_all_runs. unfold tk_server, sv_at.
    assert (K : match obey_all (render_sql <$> nl_diff (tk_db false)) fresh with Some _ => True | None => False end) by (vm_compute; exact I).
    destruct (obey_all (render_sql <$> nl_diff (tk_db false)) fresh) as [sv|]; [reflexivity|destruct K]. }
  apply (nulls_after (nl_diff (tk_db false)) sv_init fresh (tk_db false) tk_server); [|exact init_wf|exact fresh_described|exact H4|exact H3|exact Hr|].
  - exact (diff_spelled any_order table_first sv_init (tk_db false) init_wf H1 init_spelled H2).
  - apply check_nulls_iff. by_computation.
Qed.
Definition tk_added (s t : database) (sv : server) : Prop :=
  (wf_db s /\ spelled_db s /\ described s sv) /\ (wf_db t /\ spelled_db t) /\ only_adds s t /\ new_sayable s t /\
  indexes_safe s t /\ new_sequences_unowned s t /\ keys_fit t /\ new_valid s t /\ self_contained s.
Lemma tk_added_keyed : tk_added (tk_db false) (tk_db true) tk_server.
Proof.
  split; [split; [exact (proj1 tk_case)|split; [exact (proj1 (proj2 tk_case))|exact tk_described]]|].
  split; [split; [by_computation|apply check_spelled_iff; by_computation]|].
  split; [apply check_adds_1; by_computation|]. split; [apply check_new_sayable_1; by_computation|].
  split; [apply check_indexes_safe_1; by_computation|]. split; [apply check_new_sequences_1; by_computation|].
  split; [apply check_keys_1; by_computation|]. split; [apply check_new_valid_1; by_computation|].
  apply check_self_1. by_computation.
Qed.
Lemma tk_unused_keyed : new_unused (tk_db false) (tk_db true).
Proof. apply check_unused_1; by_computation. Qed.
Lemma tk_not_kept : ~ old_nulls_kept (tk_db false) (tk_db true).
Proof.
  intros H. specialize (H P (L "users") (L "id") (col (L "users") (L "id") (L "int4") false None)).
  assert (K : false = true); [|discriminate K]. apply H; [by_computation|].
  exists (L "users_pkey"), (PrimaryKey P (L "users") (L "users_pkey") [L "id"] false false).
  split; [by_computation|]. split; [by_computation|]. vm_compute. discriminate.
Qed.

(** ** An index on a new column *)
Definition tk_indexed : database := mk_db
  [Schema P
    (mk_relations
      [RTable (Table P (L "users")
         [col (L "users") (L "id") (L "int4") true None; col (L "users") (L "name") (L "text") false None;
          col (L "users") (L "email") (L "text") false None]
         (mk_constraints [CPrimaryKey (PrimaryKey P (L "users") (L "users_pkey") [L "id"] false false)]));
       RIndex (Index P (L "users_email") (L "users") false (L "btree") [L "email"])])
    ∅].
Lemma tk_added_indexed : tk_added nl_keyed tk_indexed ad_server.
Proof.
  destruct ad_described as (D1 & D2 & D3 & _). split; [split; [exact D1|split; [exact D2|exact D3]]|].
  split; [split; [by_computation|apply check_spelled_iff; by_computation]|].
  split; [apply check_adds_1; by_computation|]. split; [apply check_new_sayable_1; by_computation|].
  split; [apply check_indexes_safe_1; by_computation|]. split; [apply check_new_sequences_1; by_computation|].
  split; [apply check_keys_1; by_computation|]. split; [apply check_new_valid_1; by_computation|].
  apply check_self_1. by_computation.
Qed.
Definition tk_up : list change := compare_diff any_order table_first nl_keyed tk_indexed.
Definition tk_reverts : list change := default [] (collect_reverts tk_up nl_keyed).
Definition tk_applied : server := default ad_server (obey_all (render_sql <$> tk_up) ad_server).
Lemma tk_goes_up : collect_reverts tk_up nl_keyed = Some tk_reverts /\ runs obey (render_sql <$> tk_up) ad_server tk_applied.
Proof.
  split.
  - unfold tk_reverts. assert (K : match collect_reverts tk_up nl_keyed with Some _ => True | None => False end) by (vm_compute; exact I).
    destruct (collect_reverts tk_up nl_keyed); [reflexivity|destruct K].
  - apply obey_all_runs. unfold tk_applied.
    assert (K : match obey_all (render_sql <$> tk_up) ad_server with Some _ => True | None => False end) by (vm_compute; exact I).
    destruct (obey_all (render_sql <$> tk_up) ad_server); [reflexivity|destruct K].
Qed.
Lemma tk_stuck : ~ exists sv2, runs obey (render_sql <$> reverse tk_reverts) tk_applied sv2.
Proof.
  apply refused. vm_compute. reflexivity.
Qed.
Lemma refute_indexed : exists os ot s t sv rs sv1, wf_db s /\ wf_db t /\ spelled_db s /\ spelled_db t /\ described s sv /\
  only_adds s t /\ new_sayable s t /\ indexes_safe s t /\ new_sequences_unowned s t /\ self_contained s /\
  collect_reverts (compare_diff os ot s t) s = Some rs /\ runs obey (render_sql <$> compare_diff os ot s t) sv sv1 /\
  (exists d', apply_all (compare_diff os ot s t) s = (d', Ok ()) /\ apply_all (reverse rs) d' = (s, Ok ())) /\
  ~ exists sv2, runs obey (render_sql <$> reverse rs) sv1 sv2.
Proof.
  exists any_order, table_first, nl_keyed, tk_indexed, ad_server, tk_reverts, tk_applied.
  destruct tk_added_indexed as ((A1 & A2 & A3) & (B1 & B2) & A4 & A5 & A6 & A7 & _ & _ & A10). destruct tk_goes_up as [C1 C2].
  repeat (split; [assumption|]). split; [|exact tk_stuck].
  exists (expected_db nl_keyed tk_indexed). split; [exact (proj1 (adds_run any_order table_first nl_keyed tk_indexed A1 B1 A4 A6 A7))|].
  apply (steps_back nl_keyed tk_indexed tk_up nl_keyed (expected_db nl_keyed tk_indexed) tk_reverts); [|exact A1| |exact C1].
  - exact (diff_added nl_keyed tk_indexed A1 B1 A4 any_order table_first).
  - exact (proj1 (adds_run any_order table_first nl_keyed tk_indexed A1 B1 A4 A6 A7)).
Qed.
Lemma refute_null : exists s t sv, wf_db s /\ wf_db t /\ spelled_db s /\ spelled_db t /\ described s sv /\
  only_adds s t /\ new_sayable s t /\ indexes_safe s t /\ new_sequences_unowned s t /\ self_contained s /\ new_unused s t /\
  forall os ot, exists rs sv1 sv2, collect_reverts (compare_diff os ot s t) s = Some rs /\
    runs obey (render_sql <$> compare_diff os ot s t) sv sv1 /\ runs obey (render_sql <$> reverse rs) sv1 sv2 /\ ~ described s sv2.
Proof.
  exists (tk_db false), (tk_db true), tk_server.
  destruct tk_added_keyed as ((A1 & A2 & A3) & (B1 & B2) & A4 & A5 & A6 & A7 & A8 & A9 & A10). pose proof tk_unused_keyed as A11.
  repeat (split; [assumption|]). intros os ot.
  pose proof (adds_carried_out os ot _ _ _ A1 B1 A2 B2 A3 A4 A5 A6 A7 A8 A9) as (sv1 & R1 & _).
  destruct (DiffRun.diff_reverts os ot _ _ _ A1 B1 (proj1 (adds_run os ot _ _ A1 B1 A4 A6 A7))) as [rs Hrs].
  pose proof (adds_taken_back os ot _ _ _ A1 B1 A2 B2 A3 A4 A5 A6 A7 A10 A11 sv1 rs Hrs R1) as (sv2 & R2 & H).
  exists rs, sv1, sv2. split; [exact Hrs|]. split; [exact R1|]. split; [exact R2|]. intros K. exact (tk_not_kept (proj1 H K)).
Qed.
Lemma ex_taken_back : (wf_db nl_keyed /\ spelled_db nl_keyed /\ described nl_keyed ad_server /\ keys_fit nl_keyed) /\
  ad_case ad_good /\ (self_contained nl_keyed /\ new_unused nl_keyed ad_good /\ old_nulls_kept nl_keyed ad_good) /\
  forall os ot, exists rs sv1, collect_reverts (compare_diff os ot nl_keyed ad_good) nl_keyed = Some rs /\
    runs obey (render_sql <$> compare_diff os ot nl_keyed ad_good) ad_server sv1.
Proof.
  split; [exact ad_described|]. split; [exact ad_good_case|]. split; [exact tk_additions|]. intros os ot.
  destruct ad_described as (A1 & A2 & A3 & _). destruct ad_good_case as (B1 & B2 & A4 & A5 & A6 & A7). destruct ad_good_fits as [A8 A9].
  pose proof (adds_carried_out os ot _ _ _ A1 B1 A2 B2 A3 A4 A5 A6 A7 A8 A9) as (sv1 & R1 & _).
  destruct (DiffRun.diff_reverts os ot _ _ _ A1 B1 (proj1 (adds_run os ot _ _ A1 B1 A4 A6 A7))) as [rs Hrs].
  exists rs, sv1. split; [exact Hrs|exact R1].
Qed.

(** ** Two versions *)
Definition tk_d1 : hdir := (staging nl_keyed ex_d0).2.2.
Definition tk_d2 : hdir := (making t1 None tk_d1).2.2.
Definition tk_d3 : hdir := (staging ad_kept tk_d2).2.2.
Definition tk_d4 : hdir := (making t2 (Some (L "users")) tk_d3).2.2.
Definition tk_versions : list version := named_in tk_d4 <$> sv_names.
Lemma tk_together allowed : together pg_sem pg_ident podo allowed tk_d4 pg0.
Proof.
  assert (C1 : command ex_d0 tk_d1) by (apply staging_command; vm_compute; reflexivity).
  assert (C2 : command tk_d1 tk_d2) by (apply making_command; [vm_compute; reflexivity|exact ex_name1_plain|vm_compute; reflexivity]).
  assert (C3 : command tk_d2 tk_d3) by (apply staging_command; vm_compute; reflexivity).
  assert (C4 : command tk_d3 tk_d4) by (apply making_command; [vm_compute; reflexivity|exact ex_name2_plain|vm_compute; reflexivity]).
  eapply together_command; [|exact C4]. eapply together_command; [|exact C3].
  eapply together_command; [|exact C2]. eapply together_command; [|exact C1]. apply sv_d0_together.
Qed.
Lemma tk_reachable : reachable tk_d4.
Proof. exact (DbProofs.together_reachable pg_sem pg_ident podo _ _ _ (tk_together (fun _ => True))). Qed.
Definition tk_first : str := made_name t1 None.
Definition tk_pg1 : pg server := (pg_up tk_d4 (Some tk_first) pg0).2.
Definition tk_pg2 : pg server := (pg_up tk_d4 None tk_pg1).2.
Definition tk_pg3 : pg server := (pg_down (Some tk_first) tk_pg2).2.
Definition tk_pg4 : pg server := (pg_down (Some (L "init")) tk_pg2).2.
Lemma tk_up1 : pg_up tk_d4 (Some tk_first) pg0 = (Ret (), tk_pg1).
Proof. run_to (pg_up tk_d4 (Some tk_first) pg0). Qed.
Lemma tk_up2 : pg_up tk_d4 None tk_pg1 = (Ret (), tk_pg2).
Proof. run_to (pg_up tk_d4 None tk_pg1). Qed.
Lemma tk_down3 : pg_down (Some tk_first) tk_pg2 = (Ret (), tk_pg3).
Proof. run_to (pg_down (Some tk_first) tk_pg2). Qed.
Lemma tk_down4 : pg_down (Some (L "init")) tk_pg2 = (Ret (), tk_pg4).
Proof. run_to (pg_down (Some (L "init")) tk_pg2). Qed.
Lemma tk_pg2_together : together pg_sem pg_ident podo (fun n => n <> L "stage") tk_d4 tk_pg2.
Proof.
  eapply (together_up _ _ _ _ _ _ _ None); [|discriminate|exact tk_up2].
  eapply (together_up _ _ _ _ _ _ _ (Some tk_first)); [apply tk_together| |exact tk_up1]. intros n [= <-]. by_computation.
Qed.
Lemma tk_path : SpecHistory.path tk_d4 (L "init") sv_names (L "20240102_093000-users") /\ Forall2 (stored tk_d4) sv_names tk_versions.
Proof.
  split.
  - apply (range_named_iff _ _ _ _ (proj1 (reachable_dir tk_d4 tk_reachable))). vm_compute. reflexivity.
  - constructor; [by_computation|]. constructor; [by_computation|constructor].
Qed.
Lemma tk_snapshots : calculate_snapshot tk_d4 (L "init") = Ret sv_init /\ calculate_snapshot tk_d4 tk_first = Ret nl_keyed /\
  calculate_snapshot tk_d4 (L "20240102_093000-users") = Ret ad_kept.
Proof. split; [by_computation|split; by_computation]. Qed.
Lemma tk_versions_additions : additions sv_init tk_versions.
Proof.
  destruct ex_cycle_adds as (_ & (A1 & A2 & A3 & A4) & A5 & A6 & A7 & A8 & A9 & A10).
  destruct ad_described as (B1 & _). destruct ad_kept_case as (C1 & C2 & C3 & C4 & C5 & C6).
  unfold tk_versions, sv_names. cbn [fmap list_fmap].
  apply (additions_cons sv_init _ _ any_order table_first nl_keyed nl_keyed); [exact B1|exact A2|exact A4|exact A5|exact A7|exact A9|exact A10| | | | |].
  - apply check_self_1; by_computation.
  - apply check_unused_1; by_computation.
  - by_computation.
  - apply applied. vm_compute. reflexivity.
  - apply (additions_cons nl_keyed _ _ any_order table_first ad_kept (expected_db nl_keyed ad_kept)); [exact C1|exact A4|exact C2|exact C3|exact C4|exact C5|exact C6| | | | |constructor].
    + apply check_self_1; by_computation.
    + apply check_unused_1; by_computation.
    + by_computation.
    + assert (E : v_changes (named_in tk_d4 (made_name t2 (Some (L "users")))) = compare_diff any_order table_first nl_keyed ad_kept) by by_computation.
      rewrite E. exact (proj1 (adds_run any_order table_first nl_keyed ad_kept B1 C1 C3 C5 C6)).
Qed.
Definition tk_rows : vtable := match pg_schemas tk_pg1 !! podo with Some (Some t) => t | _ => VTable [] 0 end.
Definition tk_newest : row := Row (named_in tk_d4 tk_first) 2.
Lemma tk_pg1_rows : finds tk_pg1 podo tk_rows /\ newest (t_rows tk_rows) tk_newest /\ v_name (r_version tk_newest) = tk_first.
Proof.
  assert (E : t_rows tk_rows = [Row new_init 1; tk_newest]) by by_computation.
  split; [left|split; [|by_computation]].
  - unfold has_table, tk_rows. assert (K : match pg_schemas tk_pg1 !! podo with Some (Some _) => True | _ => False end) by (vm_compute; exact I).
    destruct (pg_schemas tk_pg1 !! podo) as [[t|]|]; [reflexivity|destruct K|destruct K].
  - rewrite E. clear E. unfold tk_newest. generalize (named_in tk_d4 tk_first). intros v. split; [set_solver|].
    intros r' Hr. apply elem_of_cons in Hr as [->|Hr]; [cbn; lia|]. apply elem_of_list_singleton in Hr as ->. cbn. lia.
Qed.
Lemma tk_user1 : pg_user tk_pg1 = ad_server.
Proof. by_computation. Qed.
Lemma runs_obey_all stmts sv sv' : runs obey stmts sv sv' -> obey_all stmts sv = Some sv'.
Proof. induction 1 as [|stmt stmts sv sv1 sv' H _ IH]; [done|]. cbn. by rewrite H. Qed.
Lemma same_some {A} (o : option A) a b : o = Some a -> o = Some b -> a = b.
Proof. congruence. Qed.
Lemma tk_user2 : described ad_kept (pg_user tk_pg2).
Proof.
  destruct ad_described as (A1 & A2 & A3 & _). destruct ad_kept_case as (B1 & B2 & A4 & A5 & A6 & A7). destruct ad_kept_fits as [A8 A9].
  pose proof (adds_carried_out any_order table_first _ _ _ A1 B1 A2 B2 A3 A4 A5 A6 A7 A8 A9) as (sv1 & R1 & H).
  pose proof (proj2 H ad_kept_nulls) as K. apply runs_obey_all in R1. clear - R1 K.
  assert (E : obey_all (render_sql <$> compare_diff any_order table_first nl_keyed ad_kept) ad_server = Some (pg_user tk_pg2)) by by_computation.
  rewrite (same_some _ _ _ E R1). exact K.
Qed.
Lemma ex_down_additions : together pg_sem pg_ident podo (fun n => n <> L "stage") tk_d4 tk_pg2 /\
  pg_down (Some (L "init")) tk_pg2 = (Ret (), tk_pg4) /\
  SpecHistory.path tk_d4 (L "init") sv_names (L "20240102_093000-users") /\ Forall2 (stored tk_d4) sv_names tk_versions /\
  calculate_snapshot tk_d4 (L "init") = Ret sv_init /\
  calculate_snapshot tk_d4 (L "20240102_093000-users") = Ret ad_kept /\
  described ad_kept (pg_user tk_pg2) /\ additions sv_init tk_versions /\
  length (all_changes tk_versions) = 11.
Proof.
  split; [exact tk_pg2_together|]. split; [exact tk_down4|]. split; [exact (proj1 tk_path)|]. split; [exact (proj2 tk_path)|].
  split; [exact (proj1 tk_snapshots)|]. split; [exact (proj2 (proj2 tk_snapshots))|]. split; [exact tk_user2|].
  split; [exact tk_versions_additions|]. vm_compute. reflexivity.
Qed.
Lemma ex_up_down_additions : (reachable tk_d4 /\ migrated pg_sem pg_ident podo tk_pg1) /\
  (finds tk_pg1 podo tk_rows /\ newest (t_rows tk_rows) tk_newest /\ v_name (r_version tk_newest) = tk_first) /\
  pg_up tk_d4 None tk_pg1 = (Ret (), tk_pg2) /\ pg_down (Some tk_first) tk_pg2 = (Ret (), tk_pg3) /\
  v_changes (named_in tk_d4 (made_name t2 (Some (L "users")))) = compare_diff any_order table_first nl_keyed ad_kept /\
  calculate_snapshot tk_d4 tk_first = Ret nl_keyed /\ pg_user tk_pg1 = ad_server /\ described nl_keyed ad_server /\
  ad_case ad_kept /\ keys_fit ad_kept /\ new_valid nl_keyed ad_kept /\ self_contained nl_keyed /\ new_unused nl_keyed ad_kept.
Proof.
  split. { split; [exact tk_reachable|]. apply (together_migrated pg_sem pg_ident podo (fun _ => True) tk_d4).
    eapply (together_up _ _ _ _ _ _ _ (Some tk_first)); [apply tk_together|done|exact tk_up1]. }
  split; [exact tk_pg1_rows|]. split; [exact tk_up2|]. split; [exact tk_down3|]. split; [by_computation|].
  split; [exact (proj1 (proj2 tk_snapshots))|]. split; [exact tk_user1|]. split; [exact (proj1 (proj2 (proj2 ad_described)))|].
  split; [exact ad_kept_case|]. split; [exact (proj1 ad_kept_fits)|]. split; [exact (proj2 ad_kept_fits)|].
  assert (K : check_self nl_keyed) by by_computation. split; [by apply check_self_1|]. apply check_unused_1; [exact K|by_computation].
Qed.
