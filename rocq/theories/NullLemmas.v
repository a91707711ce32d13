(** What becomes of NOT NULL. *)
From Verif Require Import Base Text Types Changes SpecSnapshot SpecSql SpecLex SpecStatement SpecServer SpecNull Sql SpecDb
  StepLemmas ApplyLemmas ColumnLemmas DiffRollback SayLemmas ServerLemmas.

(** ** A snapshot with other NOT NULLs *)
Definition renull_column (N : nullability) (c : column) : column :=
  col_set_notnull (N (col_schema c) (col_table c) (col_name c)) c.
Definition renull_table (N : nullability) (t : table) : table := set_columns t (renull_column N <$> tb_columns t).
Definition renull_relation (N : nullability) (r : relation) : relation :=
  match r with RTable t => RTable (renull_table N t) | _ => r end.
Definition renull_schema (N : nullability) (s : schema) : schema :=
  set_relations s (renull_relation N <$> sc_relations s).
Definition renull (N : nullability) (d : database) : database := Database (renull_schema N <$> db_schemas d).

Lemma find_renull N n cs : find_column n (renull_column N <$> cs) = renull_column N <$> find_column n cs.
Proof. induction cs as [|c cs IH]; [done|]. cbn. destruct (decide (col_name c = n)); [done|]. exact IH. Qed.
Lemma delete_renull N n cs : delete_column n (renull_column N <$> cs) = renull_column N <$> delete_column n cs.
Proof. induction cs as [|c cs IH]; [done|]. cbn. destruct (decide (col_name c = n)); [done|]. cbn. by f_equal. Qed.
Lemma update_renull N N' n f cs :
  (forall c, c ∈ cs -> col_name c = n -> f (renull_column N c) = renull_column N' (f c)) ->
  (forall c, c ∈ cs -> col_name c <> n -> renull_column N c = renull_column N' c) ->
  NoDup (col_name <$> cs) ->
  update_column n f (renull_column N <$> cs) = renull_column N' <$> update_column n f cs.
Proof.
  induction cs as [|c cs IH]; [done|]. intros H1 H2 Hnd. cbn. apply NoDup_cons in Hnd as [Hn Hnd].
  destruct (decide (col_name c = n)) as [E|E]; cbn; f_equal.
  - apply H1; [by left|done].
  - clear IH. assert (Hx : forall c', c' ∈ cs -> renull_column N c' = renull_column N' c').
    { intros c' Hc'. apply H2; [by right|]. intros E'. apply Hn. rewrite E, <- E'. by apply elem_of_list_fmap_1. }
    clear -Hx. induction cs as [|c' cs IH]; [done|]. cbn. f_equal; [apply Hx; by left|].
    apply IH. intros ? ?. apply Hx. by right.
  - apply H2; [by left|done].
  - apply IH; [|intros c' Hc' Hne; apply H2; [by right|done]|done].
    intros c' Hc'. apply H1. by right.
Qed.
Lemma renull_table_agree N N' s t tb :
  wf_table s t tb -> (forall x, is_Some (find_column x (tb_columns tb)) -> N s t x = N' s t x) ->
  renull_table N tb = renull_table N' tb.
Proof.
  intros (_ & _ & Hnd & Hwf & _) H. unfold renull_table. f_equal. revert Hnd Hwf H.
  generalize (tb_columns tb). intros cs. induction cs as [|c cs IH]; [done|]. intros Hnd Hwf H. cbn.
  apply NoDup_cons in Hnd as [Hn Hnd]. apply Forall_cons in Hwf as [[E1 E2] Hwf]. f_equal.
  - unfold renull_column. rewrite E1, E2. f_equal. apply H. cbn. by rewrite decide_True.
  - apply IH; [done..|]. intros x Hx. apply H. cbn. destruct (decide (col_name c = x)); [by eexists|done].
Qed.
Lemma renull_relation_agree N N' s t r :
  wf_relation s t r -> (forall x, N s t x = N' s t x) -> renull_relation N r = renull_relation N' r.
Proof. intros Hwf H. destruct r; cbn; [|done..]. f_equal. eapply renull_table_agree; [exact Hwf|]. by intros. Qed.
Lemma renull_schema_agree N N' s sc :
  wf_schema s sc -> (forall t x, N s t x = N' s t x) -> renull_schema N sc = renull_schema N' sc.
Proof.
  intros (_ & Hr & _) H. unfold renull_schema. f_equal. apply map_fmap_ext. intros t r Htr.
  eapply renull_relation_agree; [by eapply Hr|]. by intros.
Qed.
Lemma column_at_renull N d s t x :
  wf_db d -> column_at (renull N d) s t x = col_set_notnull (N s t x) <$> column_at d s t x.
Proof.
  intros Hwf. unfold column_at, relation_at, renull. cbn. rewrite lookup_fmap.
  destruct (db_schemas d !! s) as [sc|] eqn:Es; [|done]. cbn. rewrite lookup_fmap.
  destruct (sc_relations sc !! t) as [[tb| | |]|] eqn:Et; try done. cbn. rewrite find_renull.
  destruct (find_column x (tb_columns tb)) as [c|] eqn:Ef; [|done]. cbn. unfold renull_column.
  destruct (Hwf _ _ Es) as (_ & Hr & _). destruct (Hr _ _ Et) as (_ & _ & _ & Hc & _).
  apply find_column_Some in Ef as [Hin Hn].
  rewrite Forall_forall in Hc. destruct (Hc _ Hin) as [-> ->]. by rewrite Hn.
Qed.
Lemma renull_agree N N' d :
  wf_db d -> (forall s t x, is_Some (column_at d s t x) -> N s t x = N' s t x) -> renull N d = renull N' d.
Proof.
  intros Hwf H. unfold renull. f_equal. apply map_fmap_ext. intros s sc Hsc. unfold renull_schema. f_equal.
  apply map_fmap_ext. intros t r Htr. destruct (Hwf _ _ Hsc) as (_ & Hr & _). specialize (Hr _ _ Htr).
  destruct r as [tb| | |]; cbn; [|done..]. f_equal. eapply renull_table_agree; [exact Hr|].
  intros x Hx. apply H. unfold column_at, relation_at. rewrite Hsc. cbn. by rewrite Htr.
Qed.
Lemma renull_same d N :
  wf_db d -> (forall s t x c, column_at d s t x = Some c -> col_notnull c = N s t x) -> renull N d = d.
Proof.
  intros Hwf H. destruct d as [m]. unfold renull. f_equal. cbn. apply map_eq. intros s. rewrite lookup_fmap.
  destruct (m !! s) as [sc|] eqn:Es; [|done]. cbn. f_equal. unfold renull_schema.
  rewrite <- (schema_eta sc) at 3. f_equal. apply map_eq. intros t. rewrite lookup_fmap.
  destruct (sc_relations sc !! t) as [r|] eqn:Et; [|done]. cbn. f_equal. destruct r as [tb| | |]; cbn; [|done..]. f_equal.
  destruct (Hwf _ _ Es) as (_ & Hr & _). destruct (Hr _ _ Et) as (_ & _ & Hnd & Hc & _).
  unfold renull_table. destruct tb as [a b cs k]. unfold set_columns. cbn in *. f_equal.
  assert (Hx : forall c, c ∈ cs -> renull_column N c = c).
  { intros c Hin. specialize (H s t (col_name c) c). unfold column_at, relation_at in H. cbn in H. rewrite Es in H.
    cbn in H. rewrite Et in H. cbn in H. rewrite Forall_forall in Hc. destruct (Hc _ Hin) as [E1 E2].
    unfold renull_column. rewrite E1, E2, <- H; [by destruct c|]. by apply find_column_elem. }
  clear -Hx. induction cs as [|c cs IH]; [done|]. cbn. f_equal; [apply Hx; by left|].
  apply IH. intros ? ?. apply Hx. by right.
Qed.

(** ** Changes of a snapshot with other NOT NULLs *)
Definition elsewhere (s t : str) (N N' : nullability) : Prop :=
  forall s' t' x, (s', t') <> (s, t) -> N s' t' x = N' s' t' x.

Lemma with_schema_renull N N' s (k k' : mut schema ()) d d' :
  wf_db d -> (forall s' t x, s' <> s -> N s' t x = N' s' t x) ->
  with_schema_mut s k d = (d', Ok ()) ->
  (forall sc sc', wf_schema s sc -> k sc = (sc', Ok ()) -> k' (renull_schema N sc) = (renull_schema N' sc', Ok ())) ->
  with_schema_mut s k' (renull N d) = (renull N' d', Ok ()).
Proof.
  intros Hwf Hel Ha Hk. apply with_schema_mut_inv in Ha as [(_ & _ & ?)|(sc & sc' & Hsc & Hk0 & ->)]; [done|].
  unfold with_schema_mut, renull at 1. cbn. rewrite lookup_fmap, Hsc. cbn.
  rewrite (Hk _ _ (Hwf _ _ Hsc) Hk0). f_equal. unfold renull, put. cbn. f_equal. rewrite fmap_insert.
  apply map_eq. intros s'. destruct (decide (s' = s)) as [->|Hn]; [by rewrite !lookup_insert|].
  rewrite !lookup_insert_ne by done. rewrite !lookup_fmap. destruct (db_schemas d !! s') as [sc2|] eqn:E; [|done].
  cbn. f_equal. eapply renull_schema_agree; [by eapply Hwf|]. intros t x. by apply Hel.
Qed.
Lemma in_table_renull N N' s t (k k' : mut table ()) d d' :
  wf_db d -> elsewhere s t N N' ->
  in_table s t k d = (d', Ok ()) ->
  (forall tb tb', wf_table s t tb -> k tb = (tb', Ok ()) -> k' (renull_table N tb) = (renull_table N' tb', Ok ())) ->
  in_table s t k' (renull N d) = (renull N' d', Ok ()).
Proof.
  intros Hwf Hel Ha Hk. unfold in_table in *. eapply with_schema_renull; [exact Hwf| |exact Ha|].
  { intros s' t' x Hn. apply Hel. congruence. }
  intros sc sc' Hsc Hk0. unfold with_relation_mut in *. unfold renull_schema at 1. cbn. rewrite lookup_fmap.
  destruct (sc_relations sc !! t) as [[tb| | |]|] eqn:Et; try done; cbn in *. 
  destruct (k tb) as [tb' r] eqn:Ek. injection Hk0 as <- ->. destruct Hsc as (_ & Hr & _).
  rewrite (Hk _ _ (Hr _ _ Et) Ek). f_equal. unfold renull_schema, set_relations. cbn. f_equal. rewrite fmap_insert.
  apply map_eq. intros t'. destruct (decide (t' = t)) as [->|Hn]; [by rewrite !lookup_insert|].
  rewrite !lookup_insert_ne by done. rewrite !lookup_fmap. destruct (sc_relations sc !! t') as [r2|] eqn:E; [|done].
  cbn. f_equal. eapply renull_relation_agree; [by eapply Hr|]. intros x. apply Hel. congruence.
Qed.
Lemma elsewhere_refl s t N : elsewhere s t N N.
Proof. by intros ? ? ?. Qed.
Lemma has_renull N tb n : has_column (renull_table N tb) n = has_column tb n.
Proof. unfold has_column. cbn. rewrite find_renull. by destruct (find_column n (tb_columns tb)). Qed.

Lemma add_constraint_renull N c tb tb' :
  add_constraint c tb = (tb', Ok ()) -> add_constraint c (renull_table N tb) = (renull_table N tb', Ok ()).
Proof. unfold add_constraint, has_constraint. cbn. destruct (tb_constraints tb !! _); [done|]. by intros [= <-]. Qed.
Lemma with_constraint_renull N n (k : mut constraint ()) tb tb' :
  with_constraint_mut n k tb = (tb', Ok ()) -> with_constraint_mut n k (renull_table N tb) = (renull_table N tb', Ok ()).
Proof.
  unfold with_constraint_mut. cbn. destruct (tb_constraints tb !! n); [|done]. destruct (k _) as [? r].
  by intros [= <- ->].
Qed.
Lemma drop_constraint_renull N {A} (k : constraint -> result A) n tb tb' :
  drop_constraint k n tb = (tb', Ok ()) -> drop_constraint k n (renull_table N tb) = (renull_table N tb', Ok ()).
Proof.
  unfold drop_constraint, mthen, mread, get_constraint, remove_constraint. cbn.
  destruct (tb_constraints tb !! n) as [c|]; [|done]. cbn. destruct (k c); [|done]. by intros [= <-].
Qed.
Lemma with_column_renull N N' n f s t tb tb' :
  wf_table s t tb -> (forall x, x <> n -> N s t x = N' s t x) ->
  (forall c, col_schema c = s -> col_table c = t -> col_name c = n -> f (renull_column N c) = renull_column N' (f c)) ->
  with_column_mut n f tb = (tb', Ok ()) -> with_column_mut n f (renull_table N tb) = (renull_table N' tb', Ok ()).
Proof.
  intros (_ & _ & Hnd & Hc & _) Hel Hf. unfold with_column_mut. cbn. rewrite find_renull.
  destruct (find_column n (tb_columns tb)) as [c|] eqn:E; [|done]. intros [= <-]. cbn. f_equal.
  unfold renull_table, set_columns. cbn. f_equal. rewrite Forall_forall in Hc. apply update_renull; [| |done].
  - intros c' Hin Hn. destruct (Hc _ Hin). by apply Hf.
  - intros c' Hin Hn. destruct (Hc _ Hin) as [E1 E2]. unfold renull_column. f_equal. rewrite E1, E2. by apply Hel.
Qed.
Lemma renull_columns_ne N N' s t n cs :
  Forall (wf_column s t) cs -> n ∉ col_name <$> cs -> (forall x, x <> n -> N s t x = N' s t x) ->
  renull_column N <$> cs = renull_column N' <$> cs.
Proof.
  intros Hwf Hn Hel. induction cs as [|c cs IH]; [done|]. apply Forall_cons in Hwf as [[E1 E2] Hwf].
  cbn in Hn. apply not_elem_of_cons in Hn as [Hn1 Hn2]. cbn. f_equal; [|by apply IH].
  unfold renull_column. f_equal. rewrite E1, E2. apply Hel. congruence.
Qed.
Lemma add_column_renull N N' c c' s t tb tb' :
  Forall (wf_column s t) (tb_columns tb) -> (forall x, x <> col_name c -> N s t x = N' s t x) ->
  col_name c' = col_name c -> c' = renull_column N' c ->
  add_column c tb = (tb', Ok ()) -> add_column c' (renull_table N tb) = (renull_table N' tb', Ok ()).
Proof.
  intros Hc Hel En Ec. unfold add_column. rewrite has_renull, En. destruct (has_column tb (col_name c)) eqn:E; [done|].
  intros [= <-]. f_equal. unfold renull_table, set_columns. cbn. f_equal. rewrite fmap_app. cbn. rewrite Ec. f_equal.
  eapply renull_columns_ne; [exact Hc| |exact Hel]. unfold has_column in E.
  destruct (find_column _ _) eqn:Ef; [done|]. by apply find_column_None in Ef.
Qed.
Lemma remove_column_renull N n tb tb' :
  (let? _ := remove_column n in mok ()) tb = (tb', Ok ()) ->
  (let? _ := remove_column n in mok ()) (renull_table N tb) = (renull_table N tb', Ok ()).
Proof.
  unfold mthen, remove_column, mok. cbn. rewrite find_renull. destruct (find_column n (tb_columns tb)); [|done].
  cbn. intros [= <-]. f_equal. unfold renull_table, set_columns. cbn. f_equal. apply delete_renull.
Qed.
Lemma rename_column_renull N N' n n' s t tb tb' :
  wf_table s t tb -> (forall x, x <> n' -> N s t x = N' s t x) -> N' s t n' = N s t n ->
  rename_column_in n n' tb = (tb', Ok ()) -> rename_column_in n n' (renull_table N tb) = (renull_table N' tb', Ok ()).
Proof.
  intros (_ & _ & Hnd & Hc & _) Hel En. unfold rename_column_in, mthen, remove_column. cbn [renull_table set_columns tb_columns].
  rewrite find_renull.
  destruct (find_column n (tb_columns tb)) as [c|] eqn:Ef; [|done]. cbn [fmap option_fmap option_map]. intros Ha.
  apply find_column_Some in Ef as [Hin Hn]. pose proof Hc as Hc0. rewrite Forall_forall in Hc0. destruct (Hc0 _ Hin) as [E1 E2].
  rewrite delete_renull.
  apply (add_column_renull N N' _ (col_set_name n' (renull_column N c)) s t) in Ha; [exact Ha| |done|done|].
  - cbn. apply Forall_forall. intros c' Hc'. apply Hc0. clear -Hc'. revert Hc'. generalize (tb_columns tb). intros cs.
    induction cs as [|c0 cs IH]; [done|]. cbn. destruct (decide _); [by right|]. intros [->|H]%elem_of_cons; [by left|].
    right. by apply IH.
  - unfold renull_column, col_set_name, col_set_notnull. cbn. rewrite E1, E2, Hn. by rewrite En.
Qed.
Definition nulled (c : create_table_column) : create_table_column :=
  CreateTableColumn (cc_name c) (cc_type c) false (cc_default c).
Lemma create_columns_renull N s t cs tb tb' :
  (forall x, N s t x = false) ->
  mfor (fun c => add_column (make_column s t c)) cs tb = (tb', Ok ()) ->
  mfor (fun c => add_column (make_column s t c)) (nulled <$> cs) (renull_table N tb) = (renull_table N tb', Ok ()).
Proof.
  intros Hf. revert tb. induction cs as [|c cs IH]; intros tb; [by intros [= <-]|].
  cbn [mfor fmap list_fmap]. unfold mthen. destruct (add_column (make_column s t c) tb) as [tb1 [[]|e]] eqn:E; [|done].
  intros Ha. unfold add_column in *. rewrite has_renull. cbn [col_name make_column nulled cc_name] in *.
  destruct (has_column tb (cc_name c)); [done|]. injection E as <-. rewrite <- (IH _ Ha). f_equal.
  unfold renull_table, set_columns. cbn. rewrite fmap_app. cbn. f_equal. f_equal. unfold renull_column, make_column. cbn.
  unfold col_set_notnull. cbn. by rewrite Hf.
Qed.
Lemma add_relation_renull N r r' sc sc' :
  relation_name r' = relation_name r -> r' = renull_relation N r ->
  add_relation r sc = (sc', Ok ()) -> add_relation r' (renull_schema N sc) = (renull_schema N sc', Ok ()).
Proof.
  intros En Er. unfold add_relation, has_relation. rewrite En. unfold renull_schema at 1. cbn. rewrite lookup_fmap.
  destruct (sc_relations sc !! _); [done|]. intros [= <-]. cbn. f_equal. unfold renull_schema, set_relations. cbn.
  f_equal. by rewrite fmap_insert, Er.
Qed.
Lemma drop_relation_renull N {A} (k : relation -> result A) n sc sc' :
  (forall tb a, k (RTable tb) <> Ok a) ->
  drop_relation k n sc = (sc', Ok ()) -> drop_relation k n (renull_schema N sc) = (renull_schema N sc', Ok ()).
Proof.
  intros Hk. unfold drop_relation, mthen, mread, get_relation, remove_relation, mok. cbn. rewrite lookup_fmap.
  destruct (sc_relations sc !! n) as [r|] eqn:E; [|done]. cbn. destruct (k r) as [a|] eqn:Ek; [|done].
  assert (renull_relation N r = r) as -> by (destruct r; [by apply Hk in Ek|done..]). rewrite Ek, ?lookup_fmap, ?E. cbn. intros [= <-]. f_equal. unfold renull_schema, set_relations. cbn. by rewrite fmap_delete.
Qed.

(** What the statement of a change says, when it differs from the change in NOT NULL only. *)
Definition as_said (c : change) : change :=
  match c with
  | CreateTable s t cs => CreateTable s t (nulled <$> cs)
  | AddColumn s t n ty nn df => AddColumn s t n ty (negb nn) df
  | _ => c
  end.
(** The columns of a primary key are made NOT NULL separately. *)
Definition null_said (c : change) (N : nullability) : nullability :=
  match c with AddPrimaryKey _ _ _ _ _ _ => N | _ => null_step c N end.

Lemma apply_renull c N d d' :
  wf_db d -> apply c d = (d', Ok ()) -> apply (as_said c) (renull N d) = (renull (null_said c N) d', Ok ()).
Proof.
  intros Hwf Ha.
  assert (Hel : forall s t x (N1 N2 : nullability), (forall s' t' x', (s', t', x') <> (s, t, x) -> N1 s' t' x' = N2 s' t' x') ->
    elsewhere s t N1 N2 /\ (forall x', x' <> x -> N1 s t x' = N2 s t x')).
  { intros s t x N1 N2 H. split; [intros s' t' x' Hn|intros x' Hn]; apply H; congruence. }
  destruct c as [s t n e df i|s t n ty nn df|s t n cs s' t' tcs m u dl df i|s t n cs df i|s t n cs df i|s t n df i
    |s t n ty|s t n df|s t n nn|s t n df i|s t n df i|s t n df i|s f body lang ret vol|s t n u m ks|n|s n ty inc mn mx sta ca cy
    |s t cs|s v q|s t n|s t n|s t n|s f|s n|s t n|n|s n|s t|s t n|s v|s t n n']; cbn [apply as_said null_said] in *.
  (* in a table *)
  all: try (eapply in_table_renull; [exact Hwf|apply elsewhere_refl|exact Ha|];
    intros tb tb' _; first [apply add_constraint_renull|apply with_constraint_renull|apply drop_constraint_renull|apply remove_column_renull]).
  - (* AddColumn *)
    destruct (Hel s t n N (null_step (AddColumn s t n ty nn df) N)) as [H1 H2].
    { intros s' t' x' Hn. cbn. by rewrite decide_False. }
    eapply in_table_renull; [exact Hwf|exact H1|exact Ha|]. intros tb tb' (_ & _ & _ & Hc & _).
    apply (add_column_renull _ _ _ _ s t); [exact Hc|exact H2|done|].
    unfold renull_column, col_set_notnull. cbn. by rewrite decide_True.
  - eapply in_table_renull; [exact Hwf|apply elsewhere_refl|exact Ha|]. intros tb tb' Htb.
    by apply (with_column_renull N N n _ s t).
  - eapply in_table_renull; [exact Hwf|apply elsewhere_refl|exact Ha|]. intros tb tb' Htb.
    by apply (with_column_renull N N n _ s t).
  - (* AlterColumnSetNotNull *)
    destruct (Hel s t n N (null_step (AlterColumnSetNotNull s t n nn) N)) as [H1 H2].
    { intros s' t' x' Hn. cbn. by rewrite decide_False. }
    eapply in_table_renull; [exact Hwf|exact H1|exact Ha|]. intros tb tb' Htb.
    apply (with_column_renull _ _ n _ s t); [exact Htb|exact H2|]. intros c E1 E2 E3.
    unfold renull_column, col_set_notnull. cbn. rewrite E1, E2, E3. by rewrite decide_True.
  - (* CreateFunction *)
    eapply with_schema_renull; [exact Hwf|done|exact Ha|]. intros sc sc' _. unfold add_function, has_function. cbn.
    destruct (sc_functions sc !! f); [done|]. by intros [= <-].
  - (* CreateIndex *)
    eapply with_schema_renull; [exact Hwf|done|exact Ha|]. intros sc sc' _.
    unfold create_index_in, mthen, mread, get_relation. cbn. rewrite lookup_fmap.
    destruct (sc_relations sc !! t) as [[tb| | |]|] eqn:Et; try done. cbn [rbind as_table fmap option_fmap option_map renull_relation].
    intros Hx. by apply (add_relation_renull N (RIndex (Index s n (tb_name tb) u m ks))).
  - (* CreateSchema *)
    unfold add_schema, has_schema in *. cbn in *. rewrite lookup_fmap. destruct (db_schemas d !! n); [done|].
    injection Ha as <-. cbn. f_equal. unfold renull. cbn. rewrite fmap_insert. f_equal. f_equal.
    unfold renull_schema, schema_new, set_relations. cbn. by rewrite fmap_empty.
  - (* CreateSequence *)
    eapply with_schema_renull; [exact Hwf|done|exact Ha|]. intros sc sc' _. by apply add_relation_renull.
  - (* CreateTable *)
    eapply with_schema_renull; [exact Hwf| |exact Ha|].
    { intros s' t' x Hn. cbn. by rewrite decide_False by congruence. }
    intros sc sc' (_ & Hr & _). unfold create_table_in.
    destruct (mfor _ cs (table_new s t)) as [tb [[]|e]] eqn:E; [|done].
    assert (Hf : forall x, null_step (CreateTable s t cs) N s t x = false) by (intros x; cbn; by rewrite decide_True).
    pose proof (create_columns_renull _ _ _ _ _ _ Hf E) as E'.
    change (renull_table _ (table_new s t)) with (table_new s t) in E'. rewrite E'. intros Hx.
    assert (En : tb_name tb = t) by (by apply mfor_add_column_names in E as (_ & -> & _)).
    assert (Hsame : renull_schema N sc = renull_schema (null_step (CreateTable s t cs) N) sc).
    { unfold renull_schema. f_equal. apply map_fmap_ext. intros t' r Htr. eapply renull_relation_agree; [by eapply Hr|].
      intros x. cbn. rewrite decide_False; [done|]. intros [= ->]. unfold add_relation, has_relation in Hx. cbn in Hx.
      rewrite En in Hx. by rewrite Htr in Hx. }
    rewrite Hsame. by apply (add_relation_renull _ (RTable tb)).
  - (* CreateView *)
    eapply with_schema_renull; [exact Hwf|done|exact Ha|]. intros sc sc' _. by apply add_relation_renull.
  - (* DropFunction *)
    eapply with_schema_renull; [exact Hwf|done|exact Ha|]. intros sc sc' _. unfold mthen, remove_function, mok. cbn.
    destruct (sc_functions sc !! f); [|done]. by intros [= <-].
  - eapply with_schema_renull; [exact Hwf|done|exact Ha|]. intros sc sc' _. by apply drop_relation_renull.
  - (* DropSchema *)
    unfold mthen, remove_schema, mok in *. cbn. rewrite lookup_fmap. destruct (db_schemas d !! n); [|done].
    injection Ha as <-. cbn. f_equal. unfold renull. cbn. by rewrite fmap_delete.
  - eapply with_schema_renull; [exact Hwf|done|exact Ha|]. intros sc sc' _. by apply drop_relation_renull.
  - (* DropTable *)
    eapply with_schema_renull; [exact Hwf|done|exact Ha|]. intros sc sc' _. unfold mthen, remove_relation, mok. cbn.
    rewrite lookup_fmap. destruct (sc_relations sc !! t); [|done]. intros [= <-]. cbn. f_equal.
    unfold renull_schema, set_relations. cbn. by rewrite fmap_delete.
  - eapply with_schema_renull; [exact Hwf|done|exact Ha|]. intros sc sc' _. by apply drop_relation_renull.
  - (* RenameColumn *)
    destruct (Hel s t n' N (null_step (RenameColumn s t n n') N)) as [H1 H2].
    { intros s' t' x' Hn. cbn. by rewrite decide_False. }
    eapply in_table_renull; [exact Hwf|exact H1|exact Ha|]. intros tb tb' Htb.
    apply (rename_column_renull _ _ n n' s t); [exact Htb|exact H2|]. cbn. by rewrite decide_True.
Qed.

(** ** One statement *)
Lemma read_said c : well_spelled c -> said c ->
  exists st, meant (as_said c) = Some st /\ read_statement (render_sql c) = Some st.
Proof.
  intros Hw Hs. assert (H : sayable c -> as_said c = c ->
    exists st, meant (as_said c) = Some st /\ read_statement (render_sql c) = Some st).
  { intros Hc ->. destruct (proj2 (says_iff c Hw) Hc) as (st & H1 & H2). by exists st. }
  destruct c; try (by apply H); clear H Hs; cbn [as_said].
  - destruct (read_add_column_text _ _ _ _ _ _ Hw) as (x & Hx & Hr). eexists. cbn [meant]. rewrite Hx. by split.
  - destruct (read_create_table_text _ _ _ Hw) as (xs & Hx & Hr). eexists. cbn [meant].
    rewrite mapM_map. cbn [nulled cc_name cc_type cc_notnull cc_default]. rewrite Hx. by split.
Qed.
Lemma relation_at_renull N d s t : relation_at (renull N d) s t = renull_relation N <$> relation_at d s t.
Proof.
  unfold relation_at, renull. cbn. rewrite lookup_fmap. destruct (db_schemas d !! s) as [sc|]; [|done]. cbn. by rewrite lookup_fmap.
Qed.
Lemma constraint_at_renull N d s t x : constraint_at (renull N d) s t x = constraint_at d s t x.
Proof. unfold constraint_at. rewrite relation_at_renull. by destruct (relation_at d s t) as [[| | |]|]. Qed.
Lemma index_at_renull N d s t i : relation_at (renull N d) s t = Some (RIndex i) -> relation_at d s t = Some (RIndex i).
Proof. rewrite relation_at_renull. destruct (relation_at d s t) as [[| | |]|]; try done. Qed.
Lemma sequence_at_renull N d s t i : relation_at (renull N d) s t = Some (RSequence i) -> relation_at d s t = Some (RSequence i).
Proof. rewrite relation_at_renull. destruct (relation_at d s t) as [[| | |]|]; try done. Qed.
Lemma plain_renull N c d :
  (forall s t n cs df i, c <> AddPrimaryKey s t n cs df i) -> plain_drop c d -> plain_effect (as_said c) (renull N d).
Proof.
  intros Hn. destruct c; cbn; try done; [by destruct (Hn _ _ _ _ _ _ eq_refl)| |].
  - intros (H1 & H2 & H3). split_and!.
    + intros k c. rewrite constraint_at_renull. apply H1.
    + intros k i Hi. apply index_at_renull in Hi. by apply (H2 k).
    + intros k q Hq. apply sequence_at_renull in Hq. by apply (H3 k).
  - intros (H1 & H2). split.
    + intros k i Hi. apply index_at_renull in Hi. by apply (H1 k).
    + intros k q m Hq. apply sequence_at_renull in Hq. by apply (H2 k).
Qed.
Lemma renull_renull N N' c : renull_column N (renull_column N' c) = renull_column N c.
Proof. by destruct c. Qed.
Lemma renull_wf N d : wf_db d -> wf_db (renull N d).
Proof.
  intros Hwf s' sc' Hs. unfold renull in Hs. cbn in Hs. rewrite lookup_fmap in Hs.
  destruct (db_schemas d !! s') as [sc|] eqn:E; [|done]. injection Hs as <-. destruct (Hwf _ _ E) as (E1 & E2 & E3).
  split_and!; [done| |done]. intros t' r Hr. cbn in Hr. rewrite lookup_fmap in Hr.
  destruct (sc_relations sc !! t') as [r0|] eqn:Er; [|done]. injection Hr as <-. specialize (E2 _ _ Er).
  destruct r0 as [tb| | |]; try done. destruct E2 as (F1 & F2 & F3 & F4 & F5). split_and!; try done.
  - unfold renull_table. cbn. rewrite <- list_fmap_compose. exact F3.
  - unfold renull_table. cbn. by apply Forall_fmap.
Qed.
Lemma primary_key_null s t n cs df i N d sv d' sv' :
  let c := AddPrimaryKey s t n cs df i in
  wf_db d -> described (renull N d) sv -> deferral_meant df i = Some tt ->
  apply c d = (d', Ok ()) ->
  perform (DoAlterTable s t (ToAddConstraint n (KPrimary cs df i))) sv = Some sv' ->
  described (renull (null_step c N) d') sv'.
Proof.
  intros c Hwf Hd Hm Ha Hx. cbn [apply c] in Ha.
  set (pk := CPrimaryKey (PrimaryKey s t n cs df i)) in *. set (N' := null_step c N).
  set (k := fun tb : table => (renull_table N' (set_constraints tb (<[n := pk]> (tb_constraints tb))), @Ok () tt)).
  assert (Hk : in_table s t k (renull N d) = (renull N' d', Ok ())).
  { eapply in_table_renull; [exact Hwf| |exact Ha|].
    - intros s' t' x Hn. unfold N', c. cbn. rewrite decide_False; [done|]. by intros [? _].
    - intros tb tb' _ Htb. unfold k. apply added_constraint in Htb as ->. f_equal.
      unfold renull_table, set_columns, set_constraints. cbn. f_equal. rewrite <- list_fmap_compose.
      apply list_fmap_ext. intros ? ? _. apply renull_renull. }
  pose proof (renull_wf N d Hwf) as Hwf'.
  destruct (table_effect _ _ _ _ _ _ _ _ Hwf' Hd Hk Hx) as
    (sc & ss & tb & tb' & cols & cks & cols' & cks' & rels' & Hsc & Htb & Hdes & Hnd & Ht & Htb' & Hal & G & _).
  injection Htb' as <-. cbn [alter] in Hal. do 2 passed Hal. injection Hal as <- <- <-.
  apply (G eq_refl). clear G. split; [|apply (insert_constraint tb cols cks n pk _ Ht); cbn; by rewrite Hm].
  destruct Ht as [Hc _]. intros m. cbn [set_columns renull_table tb_columns set_constraints]. rewrite find_renull, map_lookup_imap.
  specialize (Hc m). inversion Hc as [c1 x1 Hm1 Ec1 Ex1|Ec1 Ex1]; cbn; [|constructor].
  assert (Hcol : column_at (renull N d) s t m = Some c1).
  { unfold column_at, relation_at. rewrite Hsc. cbn. by rewrite Htb. }
  pose proof Hcol as Hcol'. rewrite (column_at_renull N d s t m Hwf) in Hcol.
  destruct (column_at d s t m) as [c0|] eqn:E0; [|done]. injection Hcol as Hcol.
  destruct (Hwf' _ _ Hsc) as (_ & Hr & _). destruct (Hr _ _ Htb) as (_ & _ & _ & Hwc & _).
  symmetry in Ec1. apply find_column_Some in Ec1 as [Hin Hname]. rewrite Forall_forall in Hwc.
  destruct (Hwc _ Hin) as [E1 E2]. 
  assert (Hnn : col_notnull c1 = N s t m) by (by rewrite <- Hcol).
  apply column_meant_iff in Hm1 as (G1 & G2 & G3).
  destruct (decide (m ∈ cs)) as [Hmc|Hmc]; constructor; apply column_meant_iff; unfold renull_column, col_set_notnull; cbn;
    rewrite E1, E2, Hname; unfold N', c; cbn.
  - rewrite decide_True by done. split_and!; done.
  - rewrite decide_False by (intros [_ ?]; done). split_and!; [done| |done]. by rewrite <- Hnn.
Qed.
Lemma obey_null c N d sv d' sv' :
  well_spelled c -> said c -> plain_drop c d -> wf_db d -> described (renull N d) sv -> apply c d = (d', Ok ()) ->
  obey (render_sql c) sv = Some sv' -> described (renull (null_step c N) d') sv'.
Proof.
  intros Hw Hs Hp Hwf Hd Ha Ho. destruct (read_said c Hw Hs) as (st & Hm & Hr). unfold obey in Ho. rewrite Hr in Ho.
  cbn [mbind option_bind] in Ho.
  assert (Hor : (exists s t n cs df i, c = AddPrimaryKey s t n cs df i) \/
    ~ exists s t n cs df i, c = AddPrimaryKey s t n cs df i).
  { clear. destruct c; try (right; intros (? & ? & ? & ? & ? & ? & ?); discriminate). left. eauto 10. }
  destruct Hor as [(s & t & n & cs & df & i & ->)|Hn].
  - cbn [as_said meant constraint_meant pk_columns pk_deferrable pk_initially] in Hm.
    destruct (deferral_meant df i) as [[]|] eqn:Ed; [|done]. injection Hm as <-. by eapply primary_key_null.
  - assert (Hn' : forall s t n cs df i, c <> AddPrimaryKey s t n cs df i) by (intros s t n cs df i ->; apply Hn; eauto 10).
    assert (null_said c N = null_step c N) as <- by (destruct c; try done; by destruct (Hn' _ _ _ _ _ _ eq_refl)).
    pose proof (renull_wf N d Hwf) as Hwf'.
    apply (effect_iff (as_said c) (renull N d) sv st); [done|done|done| |done|by apply plain_renull].
    by apply apply_renull.
Qed.

(** ** Many statements *)
Lemma runs_null cs N d sv d' sv' :
  Forall well_spelled cs -> wf_db d -> described (renull N d) sv -> faithful_but_null d cs ->
  apply_all cs d = (d', Ok ()) -> runs obey (render_sql <$> cs) sv sv' ->
  described (renull (null_after cs N) d') sv'.
Proof.
  revert N d sv. induction cs as [|c cs IH]; intros N d sv Hw Hwf Hd Hf Ha Hr.
  - injection Ha as <-. by inversion Hr; subst.
  - apply Forall_cons in Hw as [Hw Hws]. destruct Hf as (Hs & Hp & Hf).
    cbn [apply_all mfor] in Ha. unfold mthen in Ha. destruct (apply c d) as [d1 [[]|e]] eqn:E; [|done].
    inversion Hr as [|? ? ? sv1 ? H1 H2]; subst. cbn [null_after].
    apply (IH (null_step c N) d1 sv1); [done|by eapply apply_wf| |by apply Hf|done|done].
    by apply (obey_null c N d sv d1 sv1).
Qed.
Lemma column_found d sv s t x c :
  described d sv -> column_at d s t x = Some c ->
  exists sc cols cks y, sv !! s = Some sc /\ ss_relations sc !! t = Some (HasTable cols cks) /\ cols !! x = Some y /\
    column_meant (col_type c) (col_notnull c) (col_default c) = Some y.
Proof.
  intros Hd Hc. unfold column_at, relation_at in Hc. destruct (db_schemas d !! s) as [sc|] eqn:Es; [|done]. cbn in Hc.
  destruct (sc_relations sc !! t) as [[tb| | |]|] eqn:Et; try done.
  destruct (described_schema _ _ _ _ Hd Es) as (ss & Hss & Hr & _). specialize (Hr t). rewrite Et in Hr.
  inversion Hr as [r y Hry E1 E2|]; subst. destruct y as [cols cks| | |]; try done. destruct Hry as [Hcols _].
  specialize (Hcols x). rewrite Hc in Hcols. inversion Hcols as [c1 y Hy E3 E4|]; subst. by exists ss, cols, cks, y.
Qed.
Lemma described_null N d sv :
  wf_db d -> described (renull N d) sv ->
  (described d sv <-> forall s t x c, column_at d s t x = Some c -> col_notnull c = N s t x).
Proof.
  intros Hwf Hd. split.
  - intros Hd' s t x c Hc. destruct (column_found _ _ _ _ _ _ Hd' Hc) as (sc & cols & cks & y & H1 & H2 & H3 & H4).
    assert (Hc' : column_at (renull N d) s t x = Some (col_set_notnull (N s t x) c)) by (by rewrite column_at_renull, Hc).
    destruct (column_found _ _ _ _ _ _ Hd Hc') as (sc' & cols' & cks' & y' & F1 & F2 & F3 & F4).
    simplify_eq. apply column_meant_iff in H4 as (_ & E1 & _). apply column_meant_iff in F4 as (_ & E2 & _).
    cbn in E2. congruence.
  - intros H. by rewrite <- (renull_same d N Hwf H).
Qed.
Lemma nulls_after cs d sv d' sv' :
  Forall well_spelled cs -> wf_db d -> described d sv -> faithful_but_null d cs ->
  apply_all cs d = (d', Ok ()) -> runs obey (render_sql <$> cs) sv sv' ->
  (described d' sv' <->
   forall s t x c, column_at d' s t x = Some c -> col_notnull c = null_after cs (not_null_in d) s t x).
Proof.
  intros Hw Hwf Hd Hf Ha Hr.
  assert (Hd0 : described (renull (not_null_in d) d) sv).
  { rewrite renull_same; [done|done|]. intros s t x c Hc. unfold not_null_in. by rewrite Hc. }
  pose proof (runs_null cs _ d sv d' sv' Hw Hwf Hd0 Hf Ha Hr) as H.
  assert (Hwf' : wf_db d') by (by eapply apply_all_wf).
  by apply described_null.
Qed.
