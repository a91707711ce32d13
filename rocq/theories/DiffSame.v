(** Lemmas: when the diff is empty, and which objects its changes name. *)
From Verif Require Import Base Types Changes SpecSnapshot SpecChange SpecDiff Diff
  StepLemmas ColumnLemmas DiffSound ApplyLemmas InvertLemmas.

Lemma bind_nil {A B} (l : list A) (f : A -> list B) :
  l ≫= f = [] <-> forall x, x ∈ l -> f x = [].
Proof.
  induction l as [|a l IH]; csimpl.
  - split; [|done]. intros _ x Hx. by apply elem_of_nil in Hx.
  - split.
    + intros [H1 H2]%app_nil x Hx. apply elem_of_cons in Hx as [->|Hx]; [done|]. by apply IH.
    + intros H. rewrite (H a) by left. simpl. apply IH. intros x Hx. apply H. by right.
Qed.

Lemma orb_false_l a b : a || b = false <-> a = false /\ b = false.
Proof. apply orb_false_iff. Qed.

Ltac neqbs := repeat match goal with
  | H : neqb _ _ = false |- _ => apply neqb_false_1 in H
  | H : _ || _ = false |- _ => apply orb_false_iff in H as [? ?]
  end.

Lemma neqb_refl {A} `{EqDecision A} (x : A) : neqb x x = false.
Proof. by apply neqb_false. Qed.

(** ** Columns *)
Lemma column_update_nil n k si ti :
  wf_column n k si -> wf_column n k ti -> col_name si = col_name ti ->
  diff_column_update si ti = [] <-> si = ti.
Proof.
  intros [H1 H2] [H3 H4] Hn. unfold diff_column_update. split.
  - intros H. apply app_nil in H as [Ha H]. apply app_nil in H as [Hb Hc].
    destruct (neqb (col_type si) _) eqn:E1; [done|].
    destruct (neqb (col_default si) _) eqn:E2; [done|].
    destruct (neqb (col_notnull si) _) eqn:E3; [done|].
    neqbs. destruct si, ti; simpl in *; by subst.
  - intros ->. by rewrite !neqb_refl.
Qed.

Lemma columns_nil n k (s t : table) :
  wf_table n k s -> wf_table n k t ->
  (tb_columns t ≫= diff_table_column s = [] /\ tb_columns s ≫= diff_table_column_drop t = []) <->
  tb_columns s ≡ₚ tb_columns t.
Proof.
  intros (_&_&Hs1&Hs2&_) (_&_&Ht1&Ht2&_). rewrite !bind_nil. split.
  - intros [H1 H2].
    assert (forall c, c ∈ tb_columns t -> c ∈ tb_columns s) as Hts.
    { intros c Hc. specialize (H1 _ Hc). unfold diff_table_column in H1.
      destruct (find_column _ _) as [c'|] eqn:E; [|done].
      apply find_column_Some in E as [Hin Hn].
      rewrite (column_update_nil n k) in H1; [by subst| |by eapply Forall_forall in Ht2|done].
      by eapply Forall_forall in Hs2. }
    apply NoDup_Permutation; [by apply NoDup_names_NoDup..|]. intros c. split; [|by auto].
    intros Hc. specialize (H2 _ Hc). unfold diff_table_column_drop, has_column in H2.
    destruct (find_column _ _) as [c'|] eqn:E; [|done].
    apply find_column_Some in E as [Hin Hn]. pose proof (Hts _ Hin) as Hin'.
    assert (Some c = Some c') as [= ->]; [|done].
    rewrite <- (find_column_elem _ _ Hs1 Hc), <- (find_column_elem _ _ Hs1 Hin'). by rewrite Hn.
  - intros Hp. split.
    + intros c Hc. unfold diff_table_column. rewrite (find_column_perm _ _ _ Hs1 Hp).
      rewrite find_column_elem by done. eapply Forall_forall in Ht2; [|done].
      by eapply column_update_nil.
    + intros c Hc. unfold diff_table_column_drop, has_column.
      rewrite <- (find_column_perm _ _ _ Hs1 Hp). by rewrite find_column_elem.
Qed.

(** ** A pair of loops over two maps *)
Lemma two_loops_nil {V B : Type} (name : V -> str) (ms mt : gmap str V) (ls lt : list (str * V))
    (new old : V -> list B) (R : V -> V -> Prop) :
  ls ≡ₚ map_to_list ms -> lt ≡ₚ map_to_list mt ->
  map_Forall (fun (i : str) v => name v = i) ms -> map_Forall (fun (i : str) v => name v = i) mt ->
  (forall x, mt !! name x = Some x -> new x = [] <-> is_Some (ms !! name x)) ->
  (forall x, ms !! name x = Some x ->
     old x = [] <-> exists y, mt !! name x = Some y /\ R x y) ->
  (lt.*2 ≫= new = [] /\ ls.*2 ≫= old = []) <->
  forall k, option_Forall2 R (ms !! k) (mt !! k).
Proof.
  intros Hls Hlt Hms Hmt Hnew Hold. rewrite !bind_nil. split.
  - intros [H1 H2] k. destruct (ms !! k) as [x|] eqn:Ex.
    + pose proof (Hms _ _ Ex) as Hk. simpl in Hk. subst k.
      assert (old x = []) as Ho by (by apply H2, (iter_elem _ _ _ Hls Hms)).
      apply Hold in Ho as (y & Hy & HR); [|done]. rewrite Hy. by constructor.
    + destruct (mt !! k) as [y|] eqn:Ey; [|constructor].
      pose proof (Hmt _ _ Ey) as Hk. simpl in Hk. subst k.
      assert (new y = []) as Ho by (by apply H1, (iter_elem _ _ _ Hlt Hmt)).
      apply Hnew in Ho as [z Hz]; [|done]. congruence.
  - intros H. split.
    + intros y Hy%(iter_elem _ _ _ Hlt Hmt). apply Hnew; [done|].
      specialize (H (name y)). rewrite Hy in H. inversion H. by eexists.
    + intros x Hx%(iter_elem _ _ _ Hls Hms). apply Hold; [done|].
      specialize (H (name x)). rewrite Hx in H. inversion H; subst. eauto.
Qed.

Lemma option_Forall2_eq_map {V} (m1 m2 : gmap str V) :
  (forall k, option_Forall2 eq (m1 !! k) (m2 !! k)) <-> m1 = m2.
Proof.
  split.
  - intros H. apply map_eq. intros k. by destruct (H k); subst.
  - intros -> k. apply option_Forall2_refl. done.
Qed.

(** ** Constraints *)
Lemma constraint_update_nil n k cn a b :
  wf_constraint n k cn a -> wf_constraint n k cn b ->
  diff_constraint_update a b = [] <-> a = b.
Proof.
  intros (Ha1&Ha2&Ha3) (Hb1&Hb2&Hb3).
  destruct a as [a|a|a|a], b as [b|b|b|b]; simpl in *; try (split; [done|by intros [=]]).
  - unfold diff_primary_key_update. split.
    + destruct (neqb _ _) eqn:E1; [done|]. destruct (_ || _) eqn:E2; [done|]. intros _. neqbs.
      destruct a, b; simpl in *; by subst.
    + intros [= ->]. by rewrite !neqb_refl.
  - unfold diff_foreign_key_update. split.
    + destruct (_ || _) eqn:E1; [done|]. destruct (neqb (fk_deferrable a) _ || _) eqn:E2; [done|].
      intros _. neqbs. 
      destruct a, b; simpl in *; by subst.
    + intros [= ->].
      by rewrite !neqb_refl.
  - unfold diff_unique_update. split.
    + destruct (neqb _ _) eqn:E1; [done|]. destruct (_ || _) eqn:E2; [done|]. intros _. neqbs.
      destruct a, b; simpl in *; by subst.
    + intros [= ->].
      by rewrite !neqb_refl.
  - unfold diff_check_update. split.
    + destruct (neqb _ _) eqn:E1; [done|]. destruct (_ || _) eqn:E2; [done|]. intros _. neqbs.
      destruct a, b; simpl in *; by subst.
    + intros [= ->].
      by rewrite !neqb_refl.
Qed.

Lemma constraint_create_not_nil c : diff_constraint_create c <> [].
Proof. by destruct c. Qed.
Lemma constraint_drop_not_nil c : diff_constraint_drop c <> [].
Proof. by destruct c. Qed.

(** The third and fourth loop of a table update are not of the shape of [two_loops_nil]
    (the update is made in the loop over the target), so they are treated directly. *)
Lemma constraints_nil os ot n k (s t : table) :
  wf_table n k s -> wf_table n k t ->
  (iter_constraints ot t ≫= diff_table_constraint s = [] /\
   iter_constraints os s ≫= diff_table_constraint_drop t = []) <->
  tb_constraints s = tb_constraints t.
Proof.
  intros (_&_&_&_&Hs) (_&_&_&_&Ht).
  pose proof (wf_constraints_named _ _ _ Hs) as Hsn. pose proof (wf_constraints_named _ _ _ Ht) as Htn.
  unfold iter_constraints. rewrite (and_comm (_ = [])).
  rewrite (two_loops_nil constraint_name (tb_constraints t) (tb_constraints s) _ _
             (diff_table_constraint_drop t) (diff_table_constraint s) (fun x y => y = x)).
  - rewrite <- option_Forall2_eq_map. split; intros H k'; specialize (H k'); destruct H; by constructor.
  - apply io_constraints_perm.
  - apply io_constraints_perm.
  - done.
  - done.
  - intros c Hc. unfold diff_table_constraint_drop, has_constraint.
    destruct (tb_constraints t !! constraint_name c); [done|].
    split; [by intros H%constraint_drop_not_nil|by intros [??]].
  - intros c Hc. unfold diff_table_constraint.
    destruct (tb_constraints s !! constraint_name c) as [c'|] eqn:E.
    + rewrite (constraint_update_nil n k (constraint_name c)); [|by apply Hs|by apply Ht].
      naive_solver.
    + split; [by intros H%constraint_create_not_nil|by intros (?&?&?)].
Qed.

Lemma table_update_nil os ot n k s t :
  wf_table n k s -> wf_table n k t ->
  diff_table_update os ot s t = [] <-> table_equiv s t.
Proof.
  intros Hs Ht. unfold diff_table_update, table_equiv.
  pose proof (columns_nil _ _ _ _ Hs Ht) as Hc.
  pose proof (constraints_nil os ot _ _ _ _ Hs Ht) as Hk.
  destruct Hs as (Hs1&Hs2&_), Ht as (Ht1&Ht2&_).
  split.
  - intros H. apply app_nil in H as [H1 H]. apply app_nil in H as [H2 H]. apply app_nil in H as [H3 H4].
    split; [congruence|]. split; [congruence|]. tauto.
  - intros (_&_&H1&H2). apply Hc in H1 as [-> ->]. apply Hk in H2 as [-> ->]. done.
Qed.

(** ** Relations and functions *)
Lemma relation_create_not_nil ot r : diff_relation_create ot r <> [].
Proof. by destruct r. Qed.
Lemma relation_drop_not_nil r : diff_relation_drop r <> [].
Proof. by destruct r. Qed.

Lemma relation_update_nil os ot n k a b :
  wf_relation n k a -> wf_relation n k b ->
  diff_relation_update os ot a b = [] <-> relation_same a b.
Proof.
  intros Ha Hb. destruct a as [a|a|a|a], b as [b|b|b|b]; simpl; try (split; [done|by intros [=]]).
  - by eapply table_update_nil.
  - destruct Ha as [Ha1 Ha2], Hb as [Hb1 Hb2]; simpl in *. unfold diff_view_update. split.
    + destruct (neqb _ _) eqn:E; [done|]. neqbs. intros _. destruct a, b; simpl in *; by subst.
    + intros [= ->]. by rewrite neqb_refl.
  - destruct Ha as [Ha1 Ha2], Hb as [Hb1 Hb2]; simpl in *. unfold diff_index_update. split.
    + destruct (neqb _ _) eqn:E; [done|]. neqbs. intros _. repeat split; congruence.
    + intros (_&_&->). by rewrite neqb_refl.
  - destruct Ha as [Ha1 Ha2], Hb as [Hb1 Hb2]; simpl in *. unfold diff_sequence_update. split.
    + destruct (_ || _) eqn:E; [done|]. neqbs. intros _.
      destruct a, b; simpl in *; by subst.
    + intros [= ->]. by rewrite !neqb_refl.
Qed.

Lemma function_update_nil n k a b :
  wf_function n k a -> wf_function n k b -> diff_function_update a b = [] <-> a = b.
Proof.
  intros [Ha1 Ha2] [Hb1 Hb2]. unfold diff_function_update. split.
  - destruct (_ || _) eqn:E; [done|]. neqbs. intros _. 
    destruct a, b; simpl in *; by subst.
  - intros ->. by rewrite !neqb_refl.
Qed.

Lemma schema_update_nil os ot n s t :
  wf_schema n s -> wf_schema n t ->
  diff_schema_update os ot s t = [] <-> schema_same s t.
Proof.
  intros (Hs1&Hs2&Hs3) (Ht1&Ht2&Ht3).
  pose proof (two_loops_nil relation_name (sc_relations s) (sc_relations t) _ _
    (diff_schema_relation_new ot s) (diff_schema_relation_old os ot t) relation_same
    (io_relations_perm os (sc_name s) _) (io_relations_perm ot (sc_name t) _)
    (wf_relations_named _ _ Hs2) (wf_relations_named _ _ Ht2)) as Hrel.
  pose proof (two_loops_nil fn_name (sc_functions s) (sc_functions t) _ _
    (diff_schema_function_new s) (diff_schema_function_old t) eq
    (io_functions_perm os (sc_name s) _) (io_functions_perm ot (sc_name t) _)
    (wf_functions_named _ _ Hs3) (wf_functions_named _ _ Ht3)) as Hfn.
  rewrite option_Forall2_eq_map in Hfn.
  unfold diff_schema_update, schema_same. unfold iter_relations, iter_functions.
  assert (Hrel' := Hrel). clear Hrel. rename Hrel' into Hrel.
  match type of Hrel with ?A -> ?B -> _ => assert A as HA; [|assert B as HB; [|specialize (Hrel HA HB)]] end.
  { intros r Hr. unfold diff_schema_relation_new, has_relation.
    destruct (sc_relations s !! relation_name r); [done|].
    split; [by intros H%relation_create_not_nil|by intros [??]]. }
  { intros r Hr. unfold diff_schema_relation_old.
    destruct (sc_relations t !! relation_name r) as [r'|] eqn:E.
    - rewrite (relation_update_nil os ot n (relation_name r)); [|by apply Hs2|by apply Ht2]. naive_solver.
    - split; [by intros H%relation_drop_not_nil|by intros (?&?&?)]. }
  match type of Hfn with ?A -> ?B -> _ => assert A as HA'; [|assert B as HB'; [|specialize (Hfn HA' HB')]] end.
  { intros r Hr. unfold diff_schema_function_new, has_function.
    destruct (sc_functions s !! fn_name r); [done|].
    split; [done|by intros [??]]. }
  { intros r Hr. unfold diff_schema_function_old.
    destruct (sc_functions t !! fn_name r) as [r'|] eqn:E.
    - rewrite (function_update_nil n (fn_name r)); [|by apply Hs3|by apply Ht3]. naive_solver.
    - split; [done|by intros (?&?&?)]. }
  split.
  - intros H. apply app_nil in H as [H1 H]. apply app_nil in H as [H2 H]. apply app_nil in H as [H3 H4].
    split; [congruence|]. tauto.
  - intros (_&H1&H2). apply Hrel in H1 as [-> ->]. apply Hfn in H2 as [-> ->]. done.
Qed.

Lemma diff_empty_iff os ot s t :
  wf_db s -> wf_db t -> compare_diff os ot s t = [] <-> db_same s t.
Proof.
  intros Hs Ht.
  pose proof (two_loops_nil sc_name (db_schemas s) (db_schemas t) _ _
    (diff_database_new ot s) (diff_database_old os ot t) schema_same
    (io_schemas_perm os _) (io_schemas_perm ot _)
    (wf_schemas_named _ Hs) (wf_schemas_named _ Ht)) as H.
  unfold compare_diff, diff_database_update, iter_schemas, db_same. rewrite <- H.
  - split; [by intros ?%app_nil|by intros [-> ->]].
  - intros sc Hsc. unfold diff_database_new, has_schema.
    destruct (db_schemas s !! sc_name sc); [done|]. split; [done|by intros [??]].
  - intros sc Hsc. unfold diff_database_old.
    destruct (db_schemas t !! sc_name sc) as [sc'|] eqn:E.
    + rewrite (schema_update_nil os ot (sc_name sc)); [|by apply Hs|by apply Ht]. naive_solver.
    + split; [|by intros (?&?&?)]. unfold diff_schema_drop. intros Hx.
      by apply app_nil in Hx as [_ [_ ?]%app_nil].
Qed.

(** ** From what the diff sees to equality *)
Lemma relation_same_refl r : relation_same r r.
Proof. destruct r; simpl; try done; apply table_equiv_refl. Qed.
Lemma db_same_refl d : db_same d d.
Proof.
  intros n. apply option_Forall2_refl. intros sc. split; [done|]. split; [|done].
  intros k. apply option_Forall2_refl. intros r. apply relation_same_refl.
Qed.

Lemma db_same_equiv s t :
  db_same s t -> index_attributes_agree s t -> db_equiv s t.
Proof.
  intros Hs Ha n. specialize (Hs n). specialize (Ha n). unfold relation_at in Ha.
  destruct Hs as [a b (H1&H2&H3)|]; constructor. simpl in Ha. split; [done|]. split; [|done].
  intros k. specialize (H2 k). specialize (Ha k).
  destruct H2 as [x y Hxy|]; constructor. destruct x, y; simpl in *; try done.
  destruct Hxy as (_&_&Hk). by f_equal; apply Ha.
Qed.

Lemma db_equiv_same s t : db_equiv s t -> db_same s t.
Proof.
  intros Hs n. specialize (Hs n). destruct Hs as [a b (H1&H2&H3)|]; constructor.
  split; [done|]. split; [|done]. intros k. specialize (H2 k).
  destruct H2 as [x y Hxy|]; constructor. destruct x, y; simpl in *; try done. by injection Hxy as ->.
Qed.

Local Arguments unowned : simpl never.
Lemma expected_relation_same s t :
  (forall x y, s = Some x -> t = Some y -> exists n k, wf_relation n k x /\ wf_relation n k y) ->
  (forall q, t = Some (RSequence q) ->
     s = Some (RSequence q) \/ (sq_owned_table q = None /\ sq_owned_column q = None)) ->
  option_Forall2 relation_same (expected_relation s t) t.
Proof.
  intros Hwf Hq. destruct t as [y|]; [|destruct s as [[]|]; constructor].
  assert (forall q, y = RSequence q -> s <> Some (RSequence q) -> unowned q = q) as Hun.
  { intros q -> Hne. destruct (Hq q eq_refl) as [?|[H1 H2]]; [done|].
    destruct q; simpl in *; by subst. }
  destruct s as [x|].
  - destruct (Hwf x y eq_refl eq_refl) as (n & k & Hx & Hy).
    destruct x as [x|x|x|x], y as [y|y|y|y]; simpl; try (constructor; apply relation_same_refl).
    + constructor. destruct Hx as (_&_&Hx&_), Hy as (_&_&Hy&_). repeat split; simpl; try done.
      by apply merged_columns_perm.
    + constructor. simpl. by rewrite (Hun y).
    + constructor. simpl. by rewrite (Hun y).
    + destruct (decide (ix_keys x = ix_keys y)) as [E|E]; constructor; simpl; [|done].
      destruct Hx as [Hx1 Hx2], Hy as [Hy1 Hy2]. simpl in *. split; [|split]; congruence.
    + constructor. simpl. by rewrite (Hun y).
    + destruct (decide (x = y)) as [->|E]; constructor; simpl; [done|].
      rewrite (Hun y); [done|done|congruence].
  - constructor. destruct y; try apply relation_same_refl. simpl. by rewrite Hun.
Qed.

Lemma expected_db_same s t :
  wf_db s -> wf_db t -> new_sequences_unowned s t -> db_same (expected_db s t) t.
Proof.
  intros Hs Ht Hq n. unfold expected_db; simpl. rewrite map_lookup_imap.
  destruct (db_schemas t !! n) as [sct|] eqn:E; simpl; [|constructor]. constructor.
  split; [done|]. split; [|done]. intros k. unfold expected_schema; simpl.
  rewrite lookup_merge.
  assert (source_relations s n !! k = relation_at s n k) as Hsr.
  { unfold source_relations, relation_at. by destruct (db_schemas s !! n). }
  rewrite Hsr.
  assert (diag_None expected_relation (relation_at s n k) (sc_relations sct !! k) =
          expected_relation (relation_at s n k) (sc_relations sct !! k)) as ->.
  { by destruct (relation_at s n k), (sc_relations sct !! k). }
  apply expected_relation_same.
  - intros x y Hx Hy. exists n, k. split; [|by apply (Ht _ _ E)].
    unfold relation_at in Hx. destruct (db_schemas s !! n) as [scs|] eqn:Es; [|done].
    by apply (Hs _ _ Es).
  - intros q Hq'. apply Hq. unfold relation_at. by rewrite E.
Qed.

Lemma expected_db_wf s t : wf_db s -> wf_db t -> wf_db (expected_db s t).
Proof.
  intros Hs Ht n sc Hsc. unfold expected_db in Hsc; simpl in Hsc. rewrite map_lookup_imap in Hsc.
  destruct (db_schemas t !! n) as [sct|] eqn:E; simpl in Hsc; [|done]. injection Hsc as <-.
  destruct (Ht _ _ E) as (Ht1&Ht2&Ht3). split; [done|]. split; [|done].
  intros k r Hr. unfold expected_schema in Hr; simpl in Hr. rewrite lookup_merge in Hr.
  destruct (sc_relations sct !! k) as [y|] eqn:Ey.
  2:{ destruct (source_relations s n !! k) as [[]|]; done. }
  pose proof (Ht2 _ _ Ey) as Hy.
  assert (wf_relation n k (created y)) as Hcy by (by destruct y).
  destruct (source_relations s n !! k) as [x|] eqn:Ex; simpl in Hr.
  - assert (wf_relation n k x) as Hx.
    { unfold source_relations in Ex. destruct (db_schemas s !! n) as [scs|] eqn:Es; [|done].
      by apply (Hs _ _ Es). }
    destruct x as [x|x|x|x], y as [y|y|y|y]; simpl in Hr; try (by injection Hr as <-).
    + injection Hr as <-. destruct Hx as (Hx1&Hx2&Hx3&Hx4&Hx5), Hy as (Hy1&Hy2&Hy3&Hy4&Hy5).
      unfold wf_relation, wf_table; simpl. split_and!; try done.
      * by apply NoDup_merged_columns.
      * apply Forall_forall. intros c Hc. rewrite Forall_forall in Hy4. apply Hy4.
        by apply merged_columns_elem in Hc.
    + destruct (decide _); by injection Hr as <-.
    + destruct (decide _); by injection Hr as <-.
  - by injection Hr as <-.
Qed.
