(** Definitions with new tables, keys and sequences, and some that do not fit. *)
From Verif Require Import Base Text Types Changes SpecSnapshot SpecMerge Diff SpecDiff DecideSpec SnapshotExamples
  Sql SpecSql History SpecHistory HistoryExamples Dbh SpecDb DbExamples Project Definitions World SpecProject SpecSession ProjectSession
  WorldExamples SpecLex SpecStatement SpecServer SpecSpelled SpecAccept SpecNull SpecObey SpecAdd
  DecideServer ServerExamples ObeyFlowExamples SpelledLemmas SpelledExamples AcceptExamples NullLemmas NullDiff NullFlow NullExamples AddLemmas AddFlow.

(** ** Deciding *)
Definition check_adds (s t : database) : Prop :=
  map_Forall (fun n sc =>
    match db_schemas t !! n with
    | Some sc' => sc_functions sc' = sc_functions sc /\
        map_Forall (fun k r =>
          match r, sc_relations sc' !! k with
          | RTable a, Some (RTable b) => Forall (fun c => find_column (col_name c) (tb_columns b) = Some c) (tb_columns a) /\
              map_Forall (fun x e => tb_constraints b !! x = Some e) (tb_constraints a)
          | RTable _, _ => False
          | r, r' => r' = Some r
          end) (sc_relations sc)
    | None => False
    end) (db_schemas s) /\
  map_Forall (fun n sc => match db_schemas s !! n with Some _ => True | None => sc_functions sc = ∅ end) (db_schemas t).
Global Instance check_adds_dec s t : Decision (check_adds s t).
Proof.
  apply and_dec.
  - apply map_Forall_dec. intros n sc. destruct (db_schemas t !! n) as [sc'|]; [|apply _]. apply and_dec; [apply _|].
    apply map_Forall_dec. intros k r. destruct r as [a|v|i|q], (sc_relations sc' !! k) as [[b|v'|i'|q']|]; apply _.
  - apply map_Forall_dec. intros n sc. destruct (db_schemas s !! n); apply _.
Defined.
Lemma check_adds_1 s t : check_adds s t -> only_adds s t.
Proof.
  intros [H1 H2].
  assert (R : forall n k r, relation_at s n k = Some r -> exists r', relation_at t n k = Some r' /\
    match r, r' with
    | RTable a, RTable b => Forall (fun c => find_column (col_name c) (tb_columns b) = Some c) (tb_columns a) /\
              map_Forall (fun x e => tb_constraints b !! x = Some e) (tb_constraints a)
    | RTable _, _ => False
    | r, r' => r' = r
    end).
  { intros n k r. unfold relation_at. destruct (db_schemas s !! n) as [sc|] eqn:E; [|done]. cbn. intros Hr. specialize (H1 n sc E); cbv beta in H1.
    destruct (db_schemas t !! n) as [sc'|]; [|done]. destruct H1 as [_ H1]. specialize (H1 k r Hr); cbv beta in H1. cbn in H1 |- *.
    destruct r as [a|v|i|q], (sc_relations sc' !! k) as [[b|v'|i'|q']|]; try done; eexists; (split; [reflexivity|]); try done.
    all: congruence. }
  split_and!.
  - intros n [sc E]. specialize (H1 n sc E); cbv beta in H1. by destruct (db_schemas t !! n).
  - intros n f. unfold function_at. destruct (db_schemas s !! n) as [sc|] eqn:E.
    + specialize (H1 n sc E); cbv beta in H1. destruct (db_schemas t !! n) as [sc'|]; [|done]. cbn. by destruct H1 as [-> _].
    + destruct (db_schemas t !! n) as [sc'|] eqn:E'; [|done]. specialize (H2 n sc' E'); cbv beta in H2. rewrite E in H2. cbn in H2 |- *.
      by rewrite H2, lookup_empty.
  - intros n k r Hr. destruct (R _ _ _ Hr) as (r' & E & H). destruct r as [a|v|i|q]; [left; by exists a|right..]; by subst r'.
  - intros n k [a Ha]. destruct (R _ _ _ Ha) as (r' & E & H). destruct r' as [b| | |]; try done. by exists b.
  - intros n k x c. unfold column_at. destruct (relation_at s n k) as [[a| | |]|] eqn:E; try done.
    destruct (R _ _ _ E) as (r' & -> & H). destruct r' as [b| | |]; try done. destruct H as [H _].
    intros [Hi <-]%ColumnLemmas.find_column_Some. rewrite Forall_forall in H. by apply H.
  - intros n k x c. unfold constraint_at. destruct (relation_at s n k) as [[a| | |]|] eqn:E; try done.
    destruct (R _ _ _ E) as (r' & -> & H). destruct r' as [b| | |]; try done. destruct H as [_ H]. apply H.
Qed.

Definition table_constraints (P : str -> str -> constraint -> schema -> table -> Prop) (n : str) (sc : schema) : Prop :=
  map_Forall (fun k r => match r with RTable b => map_Forall (fun x c => P k x c sc b) (tb_constraints b) | _ => True end) (sc_relations sc).
Definition check_key (k x : str) (c : constraint) (sc : schema) (b : table) : Prop :=
  match key_columns c with
  | Some cs => sc_relations sc !! x = None /\ NoDup cs /\ Forall (fun y => is_Some (find_column y (tb_columns b))) cs /\
      map_Forall (fun k' r => match r with
        | RTable b' => match tb_constraints b' !! x with
                       | Some c' => match key_columns c' with Some _ => k' = k | None => True end
                       | None => True
                       end
        | _ => True
        end) (sc_relations sc)
  | None => True
  end /\
  match c with
  | CPrimaryKey _ => map_Forall (fun y c' => match c' with CPrimaryKey _ => x = y | _ => True end) (tb_constraints b)
  | _ => True
  end.
Definition check_keys (t : database) : Prop := map_Forall (table_constraints check_key) (db_schemas t).
Global Instance check_keys_dec t : Decision (check_keys t).
Proof.
  apply map_Forall_dec. intros n sc. apply map_Forall_dec. intros k [b| | |]; try apply _. apply map_Forall_dec. intros x c.
  unfold check_key. apply and_dec.
  - destruct (key_columns c); [|apply _]. repeat apply and_dec; try apply _. apply map_Forall_dec. intros k' [b'| | |]; try apply _.
    destruct (tb_constraints b' !! x) as [c'|]; [|apply _]. destruct (key_columns c'); apply _.
  - destruct c; try apply _. apply map_Forall_dec. intros y [| | |]; apply _.
Defined.
Lemma constraint_at_inv t n k x c : constraint_at t n k x = Some c ->
  exists sc b, db_schemas t !! n = Some sc /\ sc_relations sc !! k = Some (RTable b) /\ tb_constraints b !! x = Some c.
Proof.
  unfold constraint_at, relation_at. destruct (db_schemas t !! n) as [sc|]; [|done]. cbn.
  destruct (sc_relations sc !! k) as [[b| | |]|] eqn:E; try done. intros H. by exists sc, b.
Qed.
Lemma check_keys_1 t : check_keys t -> keys_fit t.
Proof.
  intros H.
  assert (K : forall n k x c, constraint_at t n k x = Some c -> exists sc b, db_schemas t !! n = Some sc /\
    sc_relations sc !! k = Some (RTable b) /\ tb_constraints b !! x = Some c /\ check_key k x c sc b).
  { intros n k x c Hc. destruct (constraint_at_inv _ _ _ _ _ Hc) as (sc & b & E1 & E2 & E3). exists sc, b. split_and!; [done..|].
    exact (H n sc E1 k _ E2 x c E3). }
  split_and!.
  - intros n k x c Hc Hk. destruct (K _ _ _ _ Hc) as (sc & b & E1 & E2 & E3 & G & _). destruct (key_columns c) as [cs|]; [|done].
    destruct G as (G1 & _ & _ & G2). split; [unfold relation_at; by rewrite E1|].
    intros k' c' Hc' Hk'. destruct (constraint_at_inv _ _ _ _ _ Hc') as (sc' & b' & F1 & F2 & F3). rewrite E1 in F1. injection F1 as <-.
    specialize (G2 k' _ F2). cbn in G2. rewrite F3 in G2. by destruct (key_columns c').
  - intros n k x y p q Hp Hq. destruct (K _ _ _ _ Hp) as (sc & b & E1 & E2 & E3 & _ & G).
    destruct (constraint_at_inv _ _ _ _ _ Hq) as (sc' & b' & F1 & F2 & F3). rewrite E1 in F1. injection F1 as <-.
    rewrite E2 in F2. injection F2 as <-. exact (G y _ F3).
  - intros n k x c cs Hc Hk. destruct (K _ _ _ _ Hc) as (sc & b & E1 & E2 & E3 & G & _). rewrite Hk in G.
    destruct G as (_ & G1 & G2 & _). split; [done|]. eapply Forall_impl; [exact G2|]. intros y Hy. unfold column_at, relation_at.
    rewrite E1. cbn. by rewrite E2.
Qed.

Definition check_new_sayable (s t : database) : Prop :=
  map_Forall (fun n _ => match db_schemas s !! n with Some _ => True | None => simple_name n end) (db_schemas t) /\
  for_relations t (fun n k r =>
    match r with
    | RIndex i => ix_keys i <> []
    | RTable b => map_Forall (fun _ c => constraint_creatable c) (tb_constraints b)
    | _ => True
    end).
Global Instance simple_name_dec n : Decision (simple_name n).
Proof. unfold simple_name. apply _. Defined.
Global Instance constraint_creatable_dec c : Decision (constraint_creatable c).
Proof. destruct c; cbn [constraint_creatable]; apply _. Defined.
Global Instance check_new_sayable_dec s t : Decision (check_new_sayable s t).
Proof.
  apply and_dec.
  - apply map_Forall_dec. intros n sc. destruct (db_schemas s !! n); apply _.
  - apply map_Forall_dec. intros n sc. apply map_Forall_dec. intros k [b| | |]; apply _.
Defined.
Lemma check_new_sayable_1 s t : check_new_sayable s t -> new_sayable s t.
Proof.
  intros [H1 H2]. rewrite for_relations_spec in H2. split_and!.
  - intros n Hn [sc Hsc]. specialize (H1 n sc Hsc). cbv beta in H1. by rewrite Hn in H1.
  - intros n k i _ Hi. exact (H2 _ _ _ Hi).
  - intros n k x c _. unfold constraint_at. destruct (relation_at t n k) as [[b| | |]|] eqn:E; try done. exact (H2 _ _ _ E x c).
Qed.
Definition check_new_valid (t : database) : Prop :=
  map_Forall (fun n _ => starts_with (L "pg_") n = false) (db_schemas t) /\
  for_relations t (fun n k r =>
    match r with
    | RSequence q =>
        match sequence_meant (sq_type q) (sq_increment q) (sq_min q) (sq_max q) (sq_start q) (sq_cache q) (sq_cycle q) with
        | Some m => valid_sequence m = true
        | None => False
        end
    | _ => True
    end).
Global Instance check_new_valid_dec t : Decision (check_new_valid t).
Proof.
  apply and_dec; [apply _|]. apply map_Forall_dec. intros n sc. apply map_Forall_dec. intros k [|  | |q]; try apply _.
  destruct (sequence_meant _ _ _ _ _ _ _); apply _.
Defined.
Lemma check_new_valid_1 s t : check_new_valid t -> new_valid s t.
Proof.
  intros [H1 H2]. rewrite for_relations_spec in H2. split.
  - intros n _ [sc Hsc]. exact (H1 n sc Hsc).
  - intros n k q _ Hq. specialize (H2 _ _ _ Hq). cbv beta iota in H2. destruct (sequence_meant _ _ _ _ _ _ _) as [m|]; [|done]. by exists m.
Qed.

(** ** Additions to the table with a key *)
Definition ad_col (t n : str) (ty : str) (b : bool) : column := col t n ty b None.
(** A schema, a table, a column (if [extra]), another key, a check, an index, a view and a
    sequence, under the given names and with the given least value. *)
Definition ad_db (extra : bool) (key : str) (least : Z) : database := mk_db
  [Schema P
    (mk_relations
      [RTable (Table P (L "users")
         ([ad_col (L "users") (L "id") (L "int4") true; ad_col (L "users") (L "name") (L "text") false] ++
          (if extra then [ad_col (L "users") (L "email") (L "text") false] else []))
         (mk_constraints [CPrimaryKey (PrimaryKey P (L "users") (L "users_pkey") [L "id"] false false);
                          CUnique (Unique P (L "users") key [if extra then L "email" else L "name"] false false);
                          CCheck (Check P (L "users") (L "named") (L "(name <> '')") false false)]));
       RTable (Table P (L "orders")
         [ad_col (L "orders") (L "user") (L "int4") true; ad_col (L "orders") (L "number") (L "int4") true;
          ad_col (L "orders") (L "note") (L "text") false]
         (mk_constraints [CPrimaryKey (PrimaryKey P (L "orders") (L "orders_pkey") [L "user"; L "number"] true false)]));
       RIndex (Index P (L "users_name") (L "users") false (L "btree") [L "name"]);
       RView (View P (L "names") (L "SELECT name FROM users"));
       RSequence (Sequence P (L "numbers") (L "int4") 1 least 1000 10 1 false None None)])
    ∅;
   Schema (L "shop") (mk_relations [RTable (Table (L "shop") (L "items") [Column (L "shop") (L "items") (L "id") (L "int4") false None] ∅)]) ∅].
Definition ad_good : database := ad_db true (L "users_email") 1.
Definition ad_kept : database := ad_db false (L "users_unique") 1.
(** The name of the key is that of a table; the first value is less than the least one. *)
Definition ad_clash : database := ad_db true (L "orders") 1.
Definition ad_bounds : database := ad_db true (L "users_email") 20.
Definition ad_server : server := sv_at (nl_diff nl_keyed).

Definition ad_case (t : database) : Prop :=
  wf_db t /\ spelled_db t /\ only_adds nl_keyed t /\ new_sayable nl_keyed t /\ indexes_safe nl_keyed t /\ new_sequences_unowned nl_keyed t.
Ltac ad_case :=
  split; [by_computation|]; split; [apply check_spelled_iff; by_computation|];
  split; [apply check_adds_1; by_computation|]; split; [apply check_new_sayable_1; by_computation|];
  split; [apply check_indexes_safe_1|apply check_new_sequences_1]; by_computation.
Lemma ad_good_case : ad_case ad_good.
Proof. ad_case. Qed.
Lemma ad_clash_case : ad_case ad_clash.
Proof. ad_case. Qed.
Lemma ad_bounds_case : ad_case ad_bounds.
Proof. ad_case. Qed.
Lemma ad_described : wf_db nl_keyed /\ spelled_db nl_keyed /\ described nl_keyed ad_server /\ keys_fit nl_keyed.
Proof.
  destruct nl_keyed_case as (H1 & H2 & H3 & H4 & _). split; [exact H1|]. split; [exact H2|]. split; [|apply check_keys_1; by_computation].
  assert (Hr : runs obey (render_sql <$> nl_diff nl_keyed) fresh ad_server).
  { apply obey_all_runs. unfold ad_server, sv_at.
    assert (K : match obey_all (render_sql <$> nl_diff nl_keyed) fresh with Some _ => True | None => False end) by (vm_compute; exact I).
    destruct (obey_all (render_sql <$> nl_diff nl_keyed) fresh) as [sv|]; [reflexivity|destruct K]. }
  pose proof (diff_described any_order table_first sv_init nl_keyed fresh nl_keyed ad_server init_wf H1 init_spelled H2 fresh_described H3
    (InvertLemmas.db_equiv_refl _) H4 Hr) as K.
  exact (proj2 K nl_keyed_nulls).
Qed.
Lemma ad_good_fits : keys_fit ad_good /\ new_valid nl_keyed ad_good.
Proof. split; [apply check_keys_1|apply check_new_valid_1]; by_computation. Qed.
Lemma ad_good_nulls : ~ nulls_kept nl_keyed ad_good.
Proof.
  intros H. pose proof (proj2 (nulls_kept_iff any_order table_first nl_keyed ad_good (proj1 ad_described) (proj1 ad_good_case)) H) as H'. clear H.
  specialize (H' P (L "users") (L "email") (ad_col (L "users") (L "email") (L "text") false)).
  assert (K : column_at ad_good P (L "users") (L "email") = Some (ad_col (L "users") (L "email") (L "text") false)) by by_computation.
  apply H' in K. clear H'. revert K. vm_compute. discriminate.
Qed.
Lemma ad_kept_case : ad_case ad_kept.
Proof. ad_case. Qed.
Lemma ad_kept_fits : keys_fit ad_kept /\ new_valid nl_keyed ad_kept.
Proof. split; [apply check_keys_1|apply check_new_valid_1]; by_computation. Qed.
Lemma ad_kept_nulls : nulls_kept nl_keyed ad_kept.
Proof.
  apply (nulls_kept_iff any_order table_first nl_keyed ad_kept (proj1 ad_described) (proj1 ad_kept_case)).
  apply check_nulls_iff. by_computation.
Qed.
Lemma ad_clash_fits : ~ keys_fit ad_clash.
Proof.
  intros (F & _). destruct (F P (L "users") (L "orders") (CUnique (Unique P (L "users") (L "orders") [L "email"] false false))) as [K _].
  - by_computation.
  - discriminate.
  - revert K. vm_compute. discriminate.
Qed.
Lemma ad_bounds_fits : keys_fit ad_bounds /\ ~ new_valid nl_keyed ad_bounds.
Proof.
  split; [apply check_keys_1; by_computation|]. intros [_ F].
  destruct (F P (L "numbers") (Sequence P (L "numbers") (L "int4") 1 20 1000 10 1 false None None)) as (m & K1 & K2).
  - by_computation.
  - by_computation.
  - revert K1 K2. vm_compute. intros [= <-]. discriminate.
Qed.
Lemma ex_adds : (wf_db nl_keyed /\ spelled_db nl_keyed /\ described nl_keyed ad_server /\ keys_fit nl_keyed) /\
  (ad_case ad_kept /\ keys_fit ad_kept /\ new_valid nl_keyed ad_kept /\ nulls_kept nl_keyed ad_kept) /\
  (ad_case ad_good /\ keys_fit ad_good /\ new_valid nl_keyed ad_good /\ ~ nulls_kept nl_keyed ad_good) /\
  (ad_case ad_clash /\ ~ keys_fit ad_clash) /\
  (ad_case ad_bounds /\ keys_fit ad_bounds /\ ~ new_valid nl_keyed ad_bounds).
Proof.
  split; [exact ad_described|]. 
  split; [split; [exact ad_kept_case|split; [exact (proj1 ad_kept_fits)|split; [exact (proj2 ad_kept_fits)|exact ad_kept_nulls]]]|].
  split; [split; [exact ad_good_case|split; [exact (proj1 ad_good_fits)|split; [exact (proj2 ad_good_fits)|exact ad_good_nulls]]]|].
  split; [split; [exact ad_clash_case|exact ad_clash_fits]|]. split; [exact ad_bounds_case|exact ad_bounds_fits].
Qed.

(** The session of C92 that ends well meets these conditions. *)
Lemma ex_cycle_adds : nl_session nl_keyed /\
  (wf_db sv_init /\ spelled_db sv_init /\ described sv_init fresh /\ spelled_db nl_keyed) /\
  only_adds sv_init nl_keyed /\ keys_fit nl_keyed /\ new_sayable sv_init nl_keyed /\ new_valid sv_init nl_keyed /\
  indexes_safe sv_init nl_keyed /\ new_sequences_unowned sv_init nl_keyed.
Proof.
  split; [exact nl_keyed_session|]. split; [split; [exact init_wf|split; [exact init_spelled|split; [exact fresh_described|exact (proj1 (proj2 nl_keyed_case))]]]|].
  split; [apply check_adds_1; by_computation|]. split; [apply check_keys_1; by_computation|].
  split; [apply check_new_sayable_1; by_computation|]. split; [apply check_new_valid_1; by_computation|].
  split; [apply check_indexes_safe_1|apply check_new_sequences_1]; by_computation.
Qed.
Lemma refute_adds : exists s t sv, wf_db s /\ wf_db t /\ spelled_db s /\ spelled_db t /\ described s sv /\ keys_fit s /\ only_adds s t /\
  new_sayable s t /\ indexes_safe s t /\ new_sequences_unowned s t /\
  forall os ot, (exists d', apply_all (compare_diff os ot s t) s = (d', Ok ()) /\ db_equiv d' t) /\
    ~ exists sv', runs obey (render_sql <$> compare_diff os ot s t) sv sv'.
Proof.
  destruct ad_described as (D1 & D2 & D3 & D4). destruct ad_clash_case as (C1 & C2 & C3 & C4 & C5 & C6).
  exists nl_keyed, ad_clash, ad_server.
  split; [exact D1|]. split; [exact C1|]. split; [exact D2|]. split; [exact C2|]. split; [exact D3|]. split; [exact D4|].
  split; [exact C3|]. split; [exact C4|]. split; [exact C5|]. split; [exact C6|]. intros os ot. split.
  - exists (expected_db nl_keyed ad_clash). exact (adds_run os ot nl_keyed ad_clash D1 C1 C3 C5 C6).
  - intros H. pose proof (proj1 (adds_iff os ot nl_keyed ad_clash ad_server D1 C1 D2 C2 D3 C3 C4 C5 C6 D4) H) as [K _].
    exact (ad_clash_fits K).
Qed.
