(** Concrete snapshots for the worked examples, refutation witnesses, and the remaining
    lemmas behind PropsSnapshot.v. *)
From Verif Require Import Base Types Changes SpecSnapshot SpecChange SpecDiff Diff
  StepLemmas ColumnLemmas DiffSound ApplyLemmas InvertLemmas DiffSame DiffLocal DiffRun DiffOrder
  DecideSpec.

(** ** Re-diffing after applying *)
Lemma expected_same_iff s t :
  wf_db s -> wf_db t -> db_same (expected_db s t) t <-> new_sequences_unowned s t.
Proof.
  intros Hs Ht. split; [|by apply expected_db_same]. intros H n k q Hq.
  assert (option_Forall2 relation_same (relation_at (expected_db s t) n k) (relation_at t n k)) as Hr.
  { unfold relation_at. destruct (H n) as [x y (_&Hr&_)|]; simpl; [done|constructor]. }
  rewrite relation_at_expected, Hq in Hr.
  destruct (relation_at s n k) as [[x|x|x|x]|] eqn:E; simpl in Hr.
  all: try (inversion Hr as [? ? Hxy|]; subst; simpl in Hxy; right;
            injection Hxy as Hxy; rewrite <- Hxy; done).
  destruct (decide (x = q)) as [->|]; [by left|].
  inversion Hr as [? ? Hxy|]; subst; simpl in Hxy; right.
  injection Hxy as Hxy; rewrite <- Hxy; done.
Qed.

Lemma rediff os ot os' ot' s t d' :
  wf_db s -> wf_db t -> apply_all (compare_diff os ot s t) s = (d', Ok ()) ->
  compare_diff os' ot' d' t = [] <-> new_sequences_unowned s t.
Proof.
  intros Hs Ht H. destruct (diff_result _ _ _ _ _ Hs Ht H) as [-> _].
  rewrite diff_empty_iff by auto using expected_db_wf. by apply expected_same_iff.
Qed.

Lemma diff_reaches s t :
  wf_db s -> wf_db t ->
  (forall os ot, exists d', apply_all (compare_diff os ot s t) s = (d', Ok ()) /\ db_equiv d' t) <->
  indexes_safe s t /\ index_attributes_agree s t /\ new_sequences_unowned s t.
Proof.
  intros Hs Ht. rewrite <- (diff_applies_iff s t Hs Ht), <- (expected_equiv_iff s t Hs Ht). split.
  - intros H. split.
    + intros os ot. destruct (H os ot) as (d' & ? & _). eauto.
    + destruct (H (order_first [] []) (order_first [] [])) as (d' & Ha & He).
      by destruct (diff_result _ _ _ _ _ Hs Ht Ha) as [-> _].
  - intros [H He] os ot. destruct (H os ot) as (d' & Ha). exists d'. split; [done|].
    by destruct (diff_result _ _ _ _ _ Hs Ht Ha) as [-> _].
Qed.

Lemma diff_empty_equiv os ot s t :
  wf_db s -> wf_db t -> compare_diff os ot s t = [] -> index_attributes_agree s t -> db_equiv s t.
Proof. intros Hs Ht H. apply db_same_equiv. by apply (diff_empty_iff os ot). Qed.

Lemma diff_self os ot s : wf_db s -> compare_diff os ot s s = [].
Proof. intros Hs. apply diff_empty_iff; [done|done|]. apply db_same_refl. Qed.

Lemma diff_local os ot s t c :
  wf_db s -> wf_db t -> c ∈ compare_diff os ot s t -> differs s t (target_of c).
Proof.
  intros Hs Ht Hc. pose proof (diff_justified s t os ot Hs Ht) as H.
  rewrite Forall_forall in H. by apply justified_differs, H.
Qed.

(** ** Failed changes *)
Lemma put_put d n a b : put (put d n a) n b = put d n b.
Proof. unfold put; simpl. by rewrite insert_insert. Qed.

Lemma rename_fails n k from to d d' e :
  wf_db d -> apply (RenameColumn n k from to) d = (d', Err e) ->
  d' = d \/
  (from <> to /\ is_Some (column_at d n k from) /\ is_Some (column_at d n k to) /\
   apply (DropColumn n k from) d = (d', Ok ())).
Proof.
  intros Hwf H. simpl in *. apply in_table_inv in H as [[-> _]|(sc & tb & tb' & Hsc & Htb & Hr & ->)].
  { by left. }
  unfold rename_column_in, mthen in Hr.
  destruct (remove_column from tb) as [tb1 [c|e1]] eqn:Erm.
  2:{ assert (tb1 = tb) as -> by (by eapply atomic_remove_column).
      injection Hr as <- _. left. rewrite set_relations_same by done. by apply put_same. }
  pose proof (remove_column_name _ _ _ _ Erm) as Hn.
  unfold add_column, has_column in Hr. simpl in Hr.
  destruct (find_column to (tb_columns tb1)) as [c2|] eqn:E2; [|done].
  injection Hr as <- _. right.
  assert (column_at d n k = fun c => find_column c (tb_columns tb)) as Hcol.
  { unfold column_at, relation_at. rewrite Hsc. simpl. by rewrite Htb. }
  unfold remove_column in Erm. destruct (find_column from (tb_columns tb)) as [c'|] eqn:Ef; [|done].
  injection Erm as <- <-. simpl in E2.
  assert (from <> to) as Hne.
  { intros ->. destruct (Hwf _ _ Hsc) as (_ & Hrels & _).
    destruct (Hrels _ _ Htb) as (_ & _ & Hnd & _).
    assert (forall l, NoDup (col_name <$> l) -> find_column to (delete_column to l) = None) as Hx.
    { clear. intros l. induction l as [|a l IH]; [done|]. csimpl. intros [Hna Hnd]%NoDup_cons.
      destruct (decide (col_name a = to)) as [Hto|Hne].
      - rewrite Hto in Hna. clear -Hna. destruct (find_column _ l) as [x|] eqn:E; [|done].
        destruct Hna. induction l as [|b l IH]; [done|]. csimpl. simpl in E.
        destruct (decide _) as [<-|]; [left|right; auto].
      - simpl. rewrite decide_False by done. auto. }
    by rewrite Hx in E2. }
  split_and!; [done|by rewrite Hcol, Ef| |].
  - rewrite Hcol. assert (forall l x, find_column to (delete_column from l) = Some x ->
      is_Some (find_column to l)) as Hx; [|by eapply Hx].
    intros l. induction l as [|a l IH]; [done|]. simpl. intros x.
    destruct (decide (col_name a = from)), (decide (col_name a = to)); simpl; eauto.
    rewrite decide_False by done. eauto.
  - unfold in_table, with_schema_mut, with_relation_mut, with_table_mut. rewrite Hsc, Htb.
    unfold remove_column, mthen. simpl. by rewrite Ef.
Qed.

Lemma apply_fails c d d' e :
  wf_db d -> apply c d = (d', Err e) ->
  d' = d \/
  exists n k from to, c = RenameColumn n k from to /\ from <> to /\
    is_Some (column_at d n k from) /\ is_Some (column_at d n k to) /\
    apply (DropColumn n k from) d = (d', Ok ()).
Proof.
  intros Hwf H.
  assert ((exists n k a b, c = RenameColumn n k a b) \/ forall n k a b, c <> RenameColumn n k a b)
    as [(n&k&a&b&->)|Hn] by (destruct c; eauto 10; right; done).
  - destruct (rename_fails _ _ _ _ _ _ _ Hwf H) as [->|?]; [by left|right]. eauto 10.
  - left. by eapply apply_atomic.
Qed.

Lemma apply_fails_atomic c d d' e :
  (forall n k a b, c <> RenameColumn n k a b) -> apply c d = (d', Err e) -> d' = d.
Proof. intros H. by apply apply_atomic. Qed.

(** ** Any sequence of changes *)

(** The state after trying every change in turn, whether it succeeds or not. *)
Definition try_all (cs : list change) (d : database) : database :=
  foldl (fun d c => (apply c d).1) d cs.

Lemma try_all_wf cs d : wf_db d -> wf_db (try_all cs d).
Proof.
  revert d. induction cs as [|c cs IH]; intros d Hd; [done|]. apply IH.
  destruct (apply c d) as [d' r] eqn:E. by eapply apply_wf.
Qed.

Lemma database_new_wf : wf_db database_new.
Proof. apply map_Forall_empty. Qed.

Lemma try_all_new_wf cs : wf_db (try_all cs database_new).
Proof. apply try_all_wf, database_new_wf. Qed.

(** ** Reverts *)
Lemma revert_restores_iff c d d1 r :
  wf_db d -> apply c d = (d1, Ok ()) -> revert c d = Ok r ->
  (exists d2, apply r d1 = (d2, Ok ()) /\ db_equiv d2 d) <-> recoverable c d.
Proof.
  intros Hwf Ha Hr. split.
  - intros (d2 & H1 & H2). by eapply revert_lossy.
  - intros Hc. by eapply revert_run.
Qed.

(** ** Example snapshots *)
Notation P := (L "public").

Definition mk_relations (l : list relation) : gmap str relation :=
  list_to_map ((fun r => (relation_name r, r)) <$> l).
Definition mk_functions (l : list function) : gmap str function :=
  list_to_map ((fun f => (fn_name f, f)) <$> l).
Definition mk_constraints (l : list constraint) : gmap str constraint :=
  list_to_map ((fun c => (constraint_name c, c)) <$> l).
Definition mk_db (l : list schema) : database :=
  Database (list_to_map ((fun s => (sc_name s, s)) <$> l)).

Definition col (t n ty : str) (nn : bool) (df : option str) : column := Column P t n ty nn df.
Definition users_index (ks : list str) : index :=
  Index P (L "users_name") (L "users") false (L "btree") ks.
Definition counter (mx : Z) (owner : option (str * str)) : sequence :=
  Sequence P (L "counter") (L "int8") 1 1 mx 1 1 false (fst <$> owner) (snd <$> owner).

(** A source with every kind of object, and a target that creates, alters and drops some
    of each. *)
Definition ex_source : database := mk_db
  [Schema P
    (mk_relations
      [RTable (Table P (L "users")
         [col (L "users") (L "id") (L "int4") true None;
          col (L "users") (L "name") (L "text") false None;
          col (L "users") (L "age") (L "int4") false (Some (L "0"))]
         (mk_constraints
           [CPrimaryKey (PrimaryKey P (L "users") (L "users_pkey") [L "id"] false false);
            CCheck (Check P (L "users") (L "adult") (L "(age > 18)") false false)]));
       RIndex (users_index [L "name"]);
       RView (View P (L "names") (L "SELECT name FROM users"));
       RSequence (counter 100 None);
       RTable (Table P (L "scratch") [col (L "scratch") (L "x") (L "text") false None] ∅)])
    (mk_functions [Function P (L "one") (L "SELECT 1") (L "sql") (L "int4") (L "immutable")]);
   Schema (L "old") ∅ ∅].

Definition ex_target : database := mk_db
  [Schema P
    (mk_relations
      [RTable (Table P (L "users")
         [col (L "users") (L "email") (L "text") true (Some (L "''"));
          col (L "users") (L "id") (L "int8") true None;
          col (L "users") (L "name") (L "text") true None]
         (mk_constraints
           [CPrimaryKey (PrimaryKey P (L "users") (L "users_pkey") [L "id"] true true);
            CUnique (Unique P (L "users") (L "one_name") [L "name"] false false)]));
       RIndex (users_index [L "name"; L "email"]);
       RView (View P (L "names") (L "SELECT name, email FROM users"));
       RSequence (counter 1000 None);
       RTable (Table P (L "orders")
         [col (L "orders") (L "id") (L "int4") true None;
          col (L "orders") (L "user") (L "int8") false None]
         (mk_constraints
           [CForeignKey (ForeignKey P (L "orders") (L "orders_user") [L "user"] P (L "users")
              [L "id"] (L "SIMPLE") (L "CASCADE") (L "CASCADE") false false)]))])
    (mk_functions [Function P (L "two") (L "SELECT 2") (L "sql") (L "int4") (L "immutable")]);
   Schema (L "app") ∅ ∅].

Lemma ex_source_wf : wf_db ex_source. Proof. by_computation. Qed.
Lemma ex_target_wf : wf_db ex_target. Proof. by_computation. Qed.
Lemma ex_indexes_safe : indexes_safe ex_source ex_target.
Proof. apply check_indexes_safe_1. by_computation. Qed.
Lemma ex_index_attributes : index_attributes_agree ex_source ex_target.
Proof. apply check_index_attributes_1. by_computation. Qed.
Lemma ex_new_sequences : new_sequences_unowned ex_source ex_target.
Proof. apply check_new_sequences_1. by_computation. Qed.
Lemma ex_rollback_safe : rollback_safe ex_source ex_target.
Proof. apply check_rollback_1. by_computation. Qed.
Lemma ex_source_no_dangling : no_dangling_index ex_source.
Proof. apply check_no_dangling_1. by_computation. Qed.

(** Some order. *)
Definition any_order : iter_order := order_first [] [].

(** The diff of the example pair is far from empty. *)
Lemma ex_diff_size : length (compare_diff any_order any_order ex_source ex_target) = 20.
Proof. vm_compute. reflexivity. Qed.

(** *** Witnesses *)

(** A new table and an index on it. *)
Definition w_empty : database := mk_db [Schema P ∅ ∅].
Definition w_table : table :=
  Table P (L "users") [col (L "users") (L "name") (L "text") false None] ∅.
Definition w_indexed : database :=
  mk_db [Schema P (mk_relations [RTable w_table; RIndex (users_index [L "name"])]) ∅].
Definition w_plain_table : database := mk_db [Schema P (mk_relations [RTable w_table]) ∅].

(** The same index made unique. *)
Definition w_unique : database :=
  mk_db [Schema P (mk_relations [RTable w_table;
    RIndex (Index P (L "users_name") (L "users") true (L "hash") [L "name"])]) ∅].

(** A sequence with an owner. *)
Definition w_owned : database :=
  mk_db [Schema P (mk_relations [RTable w_table;
    RSequence (counter 100 (Some (L "users", L "name")))]) ∅].

(** A table with a constraint. *)
Definition w_pk_table : table :=
  Table P (L "users") [col (L "users") (L "name") (L "text") false None]
    (mk_constraints [CPrimaryKey (PrimaryKey P (L "users") (L "users_pkey") [L "name"] false false)]).
Definition w_pk : database := mk_db [Schema P (mk_relations [RTable w_pk_table]) ∅].

(** A table with two columns. *)
Definition w_two : database :=
  mk_db [Schema P (mk_relations [RTable (Table P (L "users")
    [col (L "users") (L "name") (L "text") false None;
     col (L "users") (L "nick") (L "text") false None] ∅)]) ∅].

Lemma w_empty_wf : wf_db w_empty. Proof. by_computation. Qed.
Lemma w_indexed_wf : wf_db w_indexed. Proof. by_computation. Qed.
Lemma w_plain_table_wf : wf_db w_plain_table. Proof. by_computation. Qed.
Lemma w_unique_wf : wf_db w_unique. Proof. by_computation. Qed.
Lemma w_owned_wf : wf_db w_owned. Proof. by_computation. Qed.
Lemma w_pk_wf : wf_db w_pk. Proof. by_computation. Qed.
Lemma w_two_wf : wf_db w_two. Proof. by_computation. Qed.

Lemma w_indexed_no_dangling : no_dangling_index w_indexed.
Proof. apply check_no_dangling_1. by_computation. Qed.

(** Snapshots that differ in a relation that is not a table are not equivalent. *)
Lemma relation_not_equiv a b n k r r' :
  relation_at a n k = Some r -> relation_at b n k = Some r' -> ~ relation_equiv r r' ->
  ~ db_equiv a b.
Proof.
  intros Ha Hb Hne H. pose proof (option_Forall2_relation _ _ n k H) as Hr.
  rewrite Ha, Hb in Hr. by inversion Hr.
Qed.

Lemma pair_snd {A B} (p : A * B) b : p.2 = b -> p = (p.1, b).
Proof. destruct p. simpl. by intros ->. Qed.

Lemma pair_err {S A} (p : S * result A) e : p.2 = Err e -> exists s e', p = (s, Err e').
Proof. destruct p. simpl. intros ->. eauto. Qed.

(** Run a closed call to its result without writing down the final state. *)
Ltac run := apply pair_snd; vm_compute; reflexivity.
Ltac run_err := eapply pair_err; vm_compute; reflexivity.

Lemma refute_order :
  exists s t os ot, wf_db s /\ wf_db t /\ no_dangling_index s /\ no_dangling_index t /\
    exists d' e, apply_all (compare_diff os ot s t) s = (d', Err e).
Proof.
  exists w_empty, w_indexed, any_order, (order_first P (L "users_name")).
  split_and!; [apply w_empty_wf|apply w_indexed_wf| |apply w_indexed_no_dangling|].
  { apply check_no_dangling_1. by_computation. }
  run_err.
Qed.

Definition unique_index : index := Index P (L "users_name") (L "users") true (L "hash") [L "name"].

Lemma refute_index_attributes :
  exists s t os ot d', wf_db s /\ wf_db t /\
    apply_all (compare_diff os ot s t) s = (d', Ok ()) /\ ~ db_equiv d' t.
Proof.
  exists w_indexed, w_unique, any_order, any_order,
    (apply_all (compare_diff any_order any_order w_indexed w_unique) w_indexed).1.
  split_and!; [apply w_indexed_wf|apply w_unique_wf|run|].
  apply (relation_not_equiv _ _ P (L "users_name") (RIndex (users_index [L "name"])) (RIndex unique_index));
    [by_computation|by_computation|]. simpl. intros H. discriminate H.
Qed.

Lemma refute_sequence_owner :
  exists s t os ot d', wf_db s /\ wf_db t /\
    apply_all (compare_diff os ot s t) s = (d', Ok ()) /\ ~ db_equiv d' t.
Proof.
  exists w_plain_table, w_owned, any_order, any_order,
    (apply_all (compare_diff any_order any_order w_plain_table w_owned) w_plain_table).1.
  split_and!; [apply w_plain_table_wf|apply w_owned_wf|run|].
  apply (relation_not_equiv _ _ P (L "counter")
    (RSequence (counter 100 None))
    (RSequence (counter 100 (Some (L "users", L "name")))));
    [by_computation|by_computation|]. simpl. intros H. discriminate H.
Qed.

Lemma refute_empty_diff :
  exists s t os ot, wf_db s /\ wf_db t /\ compare_diff os ot s t = [] /\ ~ db_equiv s t.
Proof.
  exists w_indexed, w_unique, any_order, any_order.
  split_and!; [apply w_indexed_wf|apply w_unique_wf|by_computation|].
  apply (relation_not_equiv _ _ P (L "users_name") (RIndex (users_index [L "name"])) (RIndex unique_index));
    [by_computation|by_computation|]. simpl. intros H. discriminate H.
Qed.

Lemma refute_converges :
  exists s t os ot d', wf_db s /\ wf_db t /\
    apply_all (compare_diff os ot s t) s = (d', Ok ()) /\ compare_diff os ot d' t <> [].
Proof.
  exists w_plain_table, w_owned, any_order, any_order,
    (apply_all (compare_diff any_order any_order w_plain_table w_owned) w_plain_table).1.
  split_and!; [apply w_plain_table_wf|apply w_owned_wf|run|by_computation].
Qed.

Lemma refute_revert :
  exists c d d1 r, wf_db d /\ apply c d = (d1, Ok ()) /\ revert c d = Ok r /\
    ~ exists d2, apply r d1 = (d2, Ok ()) /\ db_equiv d2 d.
Proof.
  exists (DropTable P (L "users")), w_pk, (apply (DropTable P (L "users")) w_pk).1,
    (new_create_table w_pk_table).
  assert (apply (DropTable P (L "users")) w_pk =
    ((apply (DropTable P (L "users")) w_pk).1, Ok ())) as Ha by run.
  assert (revert (DropTable P (L "users")) w_pk = Ok (new_create_table w_pk_table)) as Hr
    by (vm_compute; reflexivity).
  split_and!; [apply w_pk_wf|exact Ha|exact Hr|].
  intros H. apply (revert_restores_iff _ _ _ _ w_pk_wf Ha Hr) in H.
  specialize (H w_pk_table). assert (tb_constraints w_pk_table = ∅) as Hc.
  { apply H. by_computation. }
  revert Hc. by_computation.
Qed.

Lemma refute_rollback :
  exists s t os ot d' rs, wf_db s /\ wf_db t /\ no_dangling_index s /\ no_dangling_index t /\
    apply_all (compare_diff os ot s t) s = (d', Ok ()) /\
    collect_reverts (compare_diff os ot s t) s = Some rs /\
    exists d2 e, apply_all (reverse rs) d' = (d2, Err e).
Proof.
  exists w_indexed, w_empty, (order_first P (L "users")), any_order,
    (apply_all (compare_diff (order_first P (L "users")) any_order w_indexed w_empty) w_indexed).1,
    [new_create_table w_table; new_create_index (users_index [L "name"])].
  split_and!; [apply w_indexed_wf|apply w_empty_wf|apply w_indexed_no_dangling| |run|by_computation|].
  - apply check_no_dangling_1. by_computation.
  - run_err.
Qed.

Lemma refute_failed_apply :
  exists c d d' e, wf_db d /\ apply c d = (d', Err e) /\ d' <> d.
Proof.
  exists (RenameColumn P (L "users") (L "name") (L "nick")), w_two,
    (apply (RenameColumn P (L "users") (L "name") (L "nick")) w_two).1,
    (column_already_exists P (L "users") (L "nick")).
  split_and!; [apply w_two_wf|run|by_computation].
Qed.

Definition w_dangling_changes : list change :=
  [CreateSchema P; CreateTable P (L "users") [CreateTableColumn (L "name") (L "text") false None];
   CreateIndex P (L "users") (L "users_name") false (L "btree") [L "name"];
   DropTable P (L "users")].

Lemma refute_dangling :
  exists cs d', apply_all cs database_new = (d', Ok ()) /\ ~ no_dangling_index d'.
Proof.
  exists w_dangling_changes, (apply_all w_dangling_changes database_new).1. split; [run|].
  intros H. assert (table_at (apply_all w_dangling_changes database_new).1 P (L "users")) as Ht.
  { apply (H P (L "users_name") (users_index [L "name"])). by_computation. }
  revert Ht. by_computation.
Qed.

Definition w_two_swapped : database :=
  mk_db [Schema P (mk_relations [RTable (Table P (L "users")
    [col (L "users") (L "nick") (L "text") false None;
     col (L "users") (L "name") (L "text") false None] ∅)]) ∅].

Lemma ex_column_order :
  wf_db w_two /\ wf_db w_two_swapped /\ w_two <> w_two_swapped /\
  compare_diff any_order any_order w_two w_two_swapped = [] /\
  index_attributes_agree w_two w_two_swapped.
Proof.
  split_and!; [apply w_two_wf|by_computation|by_computation|by_computation|].
  - apply check_index_attributes_1. by_computation.
Qed.

Lemma ex_apply_frame : exists d',
  apply (AlterPrimaryKey P (L "users") (L "users_pkey") true true) ex_source = (d', Ok ()) /\
  d' <> ex_source.
Proof.
  exists (apply (AlterPrimaryKey P (L "users") (L "users_pkey") true true) ex_source).1.
  split; [run|by_computation].
Qed.

Lemma no_drop_no_dangling cs d' :
  apply_all cs database_new = (d', Ok ()) -> (forall n k, DropTable n k ∉ cs) -> no_dangling_index d'.
Proof.
  intros H Hn. apply apply_all_steps in H.
  assert (wf_db database_new) as Hwf by apply database_new_wf.
  assert (no_dangling_index database_new) as Hd.
  { intros n k i Hi. unfold relation_at in Hi. simpl in Hi. by rewrite lookup_empty in Hi. }
  revert Hwf Hd. induction H as [d|c cs d d1 d2 Ha _ Hs IH]; intros Hwf Hd; [done|].
  apply IH.
  - intros n k Hin. apply (Hn n k). by right.
  - by eapply apply_wf.
  - apply (apply_dangling c d d1 Hwf Hd Ha). intros (n & k & -> & _). apply (Hn n k). left.
Qed.

(** Evidence that a call succeeds, without writing down the state it leaves. *)
Lemma runs {S : Type} (m : mut S ()) s : (m s).2 = Ok () -> exists s', m s = (s', Ok ()).
Proof. intros H. exists (m s).1. destruct (m s). simpl in *. by subst. Qed.

Lemma fails {S A : Type} (m : mut S A) s e : (m s).2 = Err e -> exists s' e', m s = (s', Err e') /\ e' = e.
Proof. intros H. exists (m s).1, e. destruct (m s). simpl in *. by subst. Qed.

Lemma ex_failed_change : exists d' e,
  apply (CreateTable P (L "fresh") [CreateTableColumn (L "a") (L "text") false None;
                                    CreateTableColumn (L "a") (L "int4") false None]) ex_source
  = (d', Err e) /\
  e = ObjectAlreadyExists [P; L "fresh"; L "a"] (L "column").
Proof. apply fails. vm_compute. reflexivity. Qed.

(** More objects for schema "public", and another schema. *)
Definition ex_extra : database := mk_db
  [Schema P (mk_relations [RView (View P (L "names") (L "SELECT name FROM users"))]) ∅;
   Schema (L "app") ∅
     (mk_functions [Function (L "app") (L "one") (L "SELECT 1") (L "sql") (L "int4") (L "immutable")])].
Lemma ex_extra_wf : wf_db ex_extra. Proof. by_computation. Qed.
