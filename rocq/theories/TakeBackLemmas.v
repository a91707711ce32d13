(** Differences that only add are taken back. *)
From Verif Require Import Base Text Types Changes SpecSnapshot SpecDiff Diff SpecSql SpecLex SpecStatement SpecServer SpecSpelled SpecNull
  SpecAccept SpecAdd Sql SpecDb HistoryRun StepLemmas ColumnLemmas ApplyLemmas InvertLemmas DiffSound DiffSame DiffLocal DiffRun DiffOrder DiffRollback
  SayLemmas ServerLemmas AcceptLemmas SpelledLemmas ObeyLemmas NullLemmas NullDiff NullFlow AddLemmas.

(** ** One step back *)
Lemma in_table_back n k sc tb tb' (m : mut table ()) d :
  db_schemas d !! n = Some sc -> sc_relations sc !! k = Some (RTable tb) -> m tb' = (tb, Ok ()) ->
  in_table n k m (put d n (set_relations sc (<[k := RTable tb']> (sc_relations sc)))) = (d, Ok ()).
Proof.
  intros Hsc Htb Hm. unfold in_table, with_schema_mut, with_relation_mut, with_table_mut, put; simpl.
  rewrite lookup_insert; simpl. rewrite lookup_insert; simpl. rewrite Hm. f_equal.
  unfold set_relations. cbn. rewrite !insert_insert, (insert_id (sc_relations sc)) by done.
  destruct d as [ss]. cbn in *. f_equal. apply insert_id. rewrite Hsc. by destruct sc.
Qed.
Lemma with_schema_back n sc sc' (m : mut schema ()) d :
  db_schemas d !! n = Some sc -> m sc' = (sc, Ok ()) -> with_schema_mut n m (put d n sc') = (d, Ok ()).
Proof.
  intros Hsc Hm. unfold with_schema_mut, put; simpl. rewrite lookup_insert, Hm. f_equal. rewrite insert_insert.
  destruct d as [ss]. cbn in *. by rewrite insert_id.
Qed.

Definition opposite (c : change) : change :=
  match c with
  | AddCheck s t n _ _ _ => DropCheck s t n
  | AddColumn s t n _ _ _ => DropColumn s t n
  | AddForeignKey s t n _ _ _ _ _ _ _ _ _ => DropForeignKey s t n
  | AddPrimaryKey s t n _ _ _ => DropPrimaryKey s t n
  | AddUnique s t n _ _ _ => DropUnique s t n
  | CreateIndex s _ i _ _ _ => DropIndex s i
  | CreateSchema s => DropSchema s
  | CreateSequence s n _ _ _ _ _ _ _ => DropSequence s n
  | CreateTable s t _ => DropTable s t
  | CreateView s v _ => DropView s v
  | c => c
  end.
Lemma step_back s t c d d' r :
  added s t c -> wf_db d -> apply c d = (d', Ok ()) -> revert c d = Ok r -> r = opposite c /\ apply (opposite c) d' = (d, Ok ()).
Proof.
  intros Hc Hwf Ha Hr. destruct c; try done; cbn [apply revert opposite] in *.
  1-5: apply in_table_ok in Ha as (sc & tb & tb' & Hsc & Htb & Hk & ->);
       rewrite (look_table_ok _ _ _ _ _ Hsc Htb) in Hr; cbn in Hr;
       destruct (Hwf _ _ Hsc) as (Hscn & Hrels & _); pose proof (Hrels _ _ Htb) as (_ & Htn & _);
       injection Hr as <-; rewrite Hscn, Htn; (split; [done|]); cbn [apply]; (eapply in_table_back; [done|done|]).
  1,3-5: eapply undo_add_constraint; done.
  1: by eapply undo_add_column.
  2:{ injection Hr as <-. split; [done|]. cbn [apply]. unfold add_schema, has_schema in Ha; simpl in Ha.
      destruct (db_schemas d !! schema_name) eqn:E; [done|]. injection Ha as <-.
      unfold mthen, mok, remove_schema; simpl. rewrite lookup_insert. rewrite delete_insert by done. by rewrite db_eta. }
  all: apply with_schema_mut_ok in Ha as (sc & sc' & Hsc & Hk & ->);
       destruct (Hwf _ _ Hsc) as (Hscn & _); unfold get_schema in Hr; rewrite Hsc in Hr; cbn in Hr;
       injection Hr as <-; rewrite Hscn; (split; [done|]); cbn [apply]; (apply (with_schema_back _ sc); [done|]).
  - apply create_index_inv in Hk as (tb & _ & Hk & ->).
    unfold drop_relation, mthen, mread, mok, get_relation, remove_relation; simpl. rewrite lookup_insert; simpl. by rewrite undo_add_relation.
  - apply add_relation_inv in Hk as [Hk ->]. cbn [relation_name] in *.
    unfold drop_relation, mthen, mread, mok, get_relation, remove_relation; simpl in *. rewrite lookup_insert; simpl. by rewrite undo_add_relation.
  - apply create_table_inv in Hk as (tb & _ & _ & Hk & ->).
    unfold mthen, mok, remove_relation; simpl. rewrite lookup_insert. by rewrite undo_add_relation.
  - apply add_relation_inv in Hk as [Hk ->]. cbn [relation_name] in *.
    unfold drop_relation, mthen, mread, mok, get_relation, remove_relation; simpl in *. rewrite lookup_insert; simpl. by rewrite undo_add_relation.
Qed.

(** ** All steps back *)
Lemma steps_back s t cs d d' rs :
  Forall (added s t) cs -> wf_db d -> apply_all cs d = (d', Ok ()) -> collect_reverts cs d = Some rs ->
  rs = opposite <$> cs /\ apply_all (reverse rs) d' = (d, Ok ()).
Proof.
  intros Hc. revert d rs. induction Hc as [|c cs Hc _ IH]; intros d rs Hwf Ha Hr.
  - injection Ha as <-. injection Hr as <-. done.
  - rewrite apply_all_cons in Ha. cbn [collect_reverts] in Hr. destruct (revert c d) as [r|] eqn:Er; [|done].
    destruct (apply c d) as [d1 [[]|e]] eqn:Ea; [|done]. destruct (collect_reverts cs d1) as [rs'|] eqn:Es; [|done].
    injection Hr as <-. destruct (IH d1 rs') as [-> H]; [by eapply apply_wf|done|done|].
    destruct (step_back _ _ _ _ _ _ Hc Hwf Ea Er) as [-> Hb]. split; [done|].
    cbn [fmap list_fmap]. rewrite reverse_cons, apply_all_app, H. by rewrite apply_all_cons, Hb.
Qed.

Lemma acceptable_app a b d d1 : apply_all a d = (d1, Ok ()) -> acceptable d a -> acceptable d1 b -> acceptable d (a ++ b).
Proof.
  revert d. induction a as [|c a IH]; intros d Ha Hx Hb; [by injection Ha as ->|].
  rewrite apply_all_cons in Ha. destruct (apply c d) as [d2 [[]|e]] eqn:Ea; [|done]. destruct Hx as [H1 H2].
  split; [done|]. intros d3 Ea3. rewrite Ea in Ea3. injection Ea3 as <-. by apply IH, Hb; [|apply H2].
Qed.
Lemma faithful_app a b d d1 : apply_all a d = (d1, Ok ()) -> faithful d a -> faithful d1 b -> faithful d (a ++ b).
Proof.
  revert d. induction a as [|c a IH]; intros d Ha Hx Hb; [by injection Ha as ->|].
  rewrite apply_all_cons in Ha. destruct (apply c d) as [d2 [[]|e]] eqn:Ea; [|done]. destruct Hx as (H1 & H2 & H3).
  split_and!; [done|done|]. intros d3 Ea3. rewrite Ea in Ea3. injection Ea3 as <-. by apply IH, Hb; [|apply H3].
Qed.
Lemma back_steps s t cs d d' rs :
  Forall (added s t) cs -> wf_db d -> apply_all cs d = (d', Ok ()) -> collect_reverts cs d = Some rs ->
  (forall pre c post d1 d2, cs = pre ++ c :: post -> apply_all pre d = (d1, Ok ()) -> apply c d1 = (d2, Ok ()) ->
     apply_all post d2 = (d', Ok ()) -> accepted (opposite c) d2 /\ sayable (opposite c) /\ plain_effect (opposite c) d2) ->
  acceptable d' (reverse rs) /\ faithful d' (reverse rs).
Proof.
  intros Hc. revert d rs. induction Hc as [|c cs Hc Hcs IH]; intros d rs Hwf Ha Hr H.
  - by injection Hr as <-.
  - rewrite apply_all_cons in Ha. cbn [collect_reverts] in Hr. destruct (revert c d) as [r|] eqn:Er; [|done].
    destruct (apply c d) as [d1 [[]|e]] eqn:Ea; [|done]. destruct (collect_reverts cs d1) as [rs'|] eqn:Es; [|done].
    injection Hr as <-. assert (Hwf1 : wf_db d1) by (by eapply apply_wf).
    destruct (steps_back s t cs d1 d' rs' Hcs Hwf1 Ha Es) as [_ Hb].
    destruct (IH d1 rs' Hwf1 Ha Es) as [G1 G2].
    { intros pre e post d2 d3 -> K1 K2 K3. apply (H (c :: pre) e post d2 d3); [done| |done|done]. by rewrite apply_all_cons, Ea. }
    destruct (step_back _ _ _ _ _ _ Hc Hwf Ea Er) as [-> _].
    destruct (H [] c cs d d1) as (H1 & H2 & H3); [done..|].
    rewrite reverse_cons. split; [apply (acceptable_app _ _ _ d1)|apply (faithful_app _ _ _ d1)]; try done; by split_and!.
Qed.

(** ** What stays *)
Definition more (d d' : database) : Prop :=
  (forall n k r, relation_at d n k = Some r -> ~ is_table (Some r) -> relation_at d' n k = Some r) /\
  (forall n k, table_at d n k -> table_at d' n k) /\
  (forall n k x, is_Some (column_at d n k x) -> is_Some (column_at d' n k x)).
Lemma more_refl d : more d d.
Proof. done. Qed.
Lemma more_trans a b c : more a b -> more b c -> more a c.
Proof.
  intros (A1 & A2 & A3) (B1 & B2 & B3). split_and!.
  - intros n k r Hr Ht. apply B1; [|done]. by apply A1.
  - intros n k H. by apply B2, A2.
  - intros n k x H. by apply B3, A3.
Qed.
Lemma more_relation d d' n k r :
  relation_at d n k = None ->
  (forall n' k', relation_at d' n' k' = if decide ((n', k') = (n, k)) then Some r else relation_at d n' k') -> more d d'.
Proof.
  intros H1 H2. split_and!.
  - intros n' k' r' Hr _. rewrite H2. case_decide as D; [|done]. injection D as -> ->. congruence.
  - intros n' k'. unfold table_at. rewrite H2. case_decide as D; [|done]. injection D as -> ->. rewrite H1. by intros [? ?].
  - intros n' k' x. unfold column_at. rewrite H2. case_decide as D; [|done]. injection D as -> ->. rewrite H1. by intros [? ?].
Qed.
Lemma more_table d d' n k tb tb' :
  relation_at d n k = Some (RTable tb) ->
  (forall n' k', relation_at d' n' k' = if decide ((n', k') = (n, k)) then Some (RTable tb') else relation_at d n' k') ->
  (forall x, is_Some (find_column x (tb_columns tb)) -> is_Some (find_column x (tb_columns tb'))) -> more d d'.
Proof.
  intros H1 H2 H3. split_and!.
  - intros n' k' r' Hr Ht. rewrite H2. case_decide as D; [|done]. injection D as -> ->. rewrite H1 in Hr. injection Hr as <-.
    destruct Ht. by exists tb.
  - intros n' k'. unfold table_at. rewrite H2. case_decide as D; [|done]. intros _. by exists tb'.
  - intros n' k' x. unfold column_at. rewrite H2. case_decide as D; [|done]. injection D as -> ->. rewrite H1. apply H3.
Qed.
(** A step that adds: the new object, if it is one, is named. *)
Definition created_at (c : change) (n k : str) : Prop :=
  match c with
  | CreateIndex s _ x _ _ _ | CreateSequence s x _ _ _ _ _ _ _ | CreateTable s x _ | CreateView s x _ => (s, x) = (n, k)
  | _ => False
  end.
Lemma step_more s t c d d' : added s t c -> apply c d = (d', Ok ()) ->
  more d d' /\
  (forall n k, relation_at d n k = None -> is_Some (relation_at d' n k) -> created_at c n k) /\
  (forall n k, created_at c n k -> relation_at d n k = None).
Proof.
  intros Hc Ha.
  assert (Hin : forall n k (m : mut table ()), apply c d = in_table n k m d ->
    (forall tb tb', m tb = (tb', Ok ()) -> forall x, is_Some (find_column x (tb_columns tb)) -> is_Some (find_column x (tb_columns tb'))) ->
    more d d' /\ (forall n k, relation_at d n k = None -> is_Some (relation_at d' n k) -> False)).
  { intros n k m E Hm. rewrite E in Ha. apply in_table_ok in Ha as (sc & tb & tb' & Hsc & Htb & Hk & ->).
    assert (Hr : relation_at d n k = Some (RTable tb)) by (by rewrite (relation_at_lookup _ _ _ _ Hsc)). split.
    - apply (more_table d _ n k tb tb' Hr); [|by eapply Hm]. intros n' k'. by apply relation_at_set.
    - intros n' k' H1 [r H2]. rewrite relation_at_set in H2 by done. case_decide as D; [|congruence]. congruence. }
  assert (Hcon : forall n k e, apply c d = in_table n k (add_constraint e) d -> more d d' /\
    (forall n k, relation_at d n k = None -> is_Some (relation_at d' n k) -> False)).
  { intros n k e E. apply (Hin n k _ E). intros tb tb' Hk. by apply add_constraint_inv in Hk as [_ ->]. }
  assert (Hnew : forall n sc k r, d' = put d n (set_relations sc (<[k := r]> (sc_relations sc))) -> db_schemas d !! n = Some sc ->
    sc_relations sc !! k = None -> (forall n' k', created_at c n' k' <-> (n, k) = (n', k')) ->
    more d d' /\ (forall n k, relation_at d n k = None -> is_Some (relation_at d' n k) -> created_at c n k) /\
    (forall n k, created_at c n k -> relation_at d n k = None)).
  { intros n sc k r -> Hsc Hk E. assert (Hr : relation_at d n k = None) by (by rewrite (relation_at_lookup _ _ _ _ Hsc)). split_and!.
    - apply (more_relation d _ n k r Hr). intros n' k'. by apply relation_at_set.
    - intros n' k' H1 [r' H2]. rewrite relation_at_set in H2 by done. apply E. case_decide as D; [done|congruence].
    - intros n' k' D%E. by injection D as <- <-. }
  destruct c; try done.
  1,3-5: edestruct Hcon as [G1 G2]; [reflexivity|]; split_and!; [done|by intros ? ? K1 K2; destruct (G2 _ _ K1 K2)|done].
  all: cbn in Ha.
  - edestruct Hin as [G1 G2]; [reflexivity| |split_and!; [exact G1|by intros ? ? K1 K2; destruct (G2 _ _ K1 K2)|done]].
    intros tb tb' Hk x. apply add_column_inv in Hk as [_ ->]. cbn [set_columns tb_columns]. rewrite find_column_app.
    intros [y Hy]. rewrite Hy. by eexists.
  - apply with_schema_mut_ok in Ha as (sc & sc' & Hsc & Hr & ->). apply create_index_inv in Hr as (tb & _ & Hk & ->).
    by eapply Hnew.
  - unfold add_schema, has_schema in Ha. cbn in Ha. destruct (db_schemas d !! schema_name) eqn:E; [done|]. injection Ha as <-.
    assert (K : forall n k, relation_at (Database (<[schema_name := schema_new schema_name]> (db_schemas d))) n k = relation_at d n k).
    { intros n k. unfold relation_at. cbn. destruct (decide (schema_name = n)) as [<-|Hn].
      - rewrite lookup_insert, E. cbn. by rewrite lookup_empty.
      - by rewrite lookup_insert_ne. }
    split_and!; [|intros n k; rewrite K; intros -> [? ?]; done|done]. split_and!.
    + intros n k. by rewrite K.
    + intros n k. unfold table_at. by rewrite K.
    + intros n k x. unfold column_at. by rewrite K.
  - apply with_schema_mut_ok in Ha as (sc & sc' & Hsc & Hr & ->). apply add_relation_inv in Hr as [Hk ->]. by eapply Hnew.
  - apply with_schema_mut_ok in Ha as (sc & sc' & Hsc & Hr & ->). apply create_table_inv in Hr as (tb & _ & _ & Hk & ->). by eapply Hnew.
  - apply with_schema_mut_ok in Ha as (sc & sc' & Hsc & Hr & ->). apply add_relation_inv in Hr as [Hk ->]. by eapply Hnew.
Qed.
Lemma run_more s t cs d d' : Forall (added s t) cs -> apply_all cs d = (d', Ok ()) -> more d d'.
Proof.
  intros Hc. revert d. induction Hc as [|c cs Hc _ IH]; intros d Ha; [injection Ha as <-; apply more_refl|].
  rewrite apply_all_cons in Ha. destruct (apply c d) as [d1 [[]|e]] eqn:Ea; [|done].
  destruct (step_more _ _ _ _ _ Hc Ea) as [K _]. apply (more_trans _ d1); [done|by apply IH].
Qed.

(** ** What is there at a step *)
Definition indexed (d : database) : Prop :=
  forall n k i, relation_at d n k = Some (RIndex i) -> is_Some (relation_at d n (ix_table i)).
Lemma step_indexed s t c d d' : added s t c -> wf_db d -> apply c d = (d', Ok ()) -> indexed d -> indexed d'.
Proof.
  intros Hc Hwf Ha Hi. destruct (step_keeps s t c d d' Hc Ha) as [[K1 _] _].
  assert (Hset : forall n sc k r, d' = put d n (set_relations sc (<[k := r]> (sc_relations sc))) -> db_schemas d !! n = Some sc ->
    (forall i, r = RIndex i -> is_Some (relation_at d n (ix_table i))) -> indexed d').
  { intros n sc k r E Hsc H n' k' i Hr. apply K1. rewrite E, relation_at_set in Hr by done. case_decide as D; [|by eapply Hi].
    injection D as -> ->. injection Hr as ->. by apply H. }
  assert (Hin : forall n k (m : mut table ()), apply c d = in_table n k m d -> indexed d').
  { intros n k m E. rewrite E in Ha. apply in_table_ok in Ha as (sc & tb & tb' & Hsc & Htb & Hk & E'). by eapply Hset. }
  destruct c; try done.
  1-5: by eapply Hin.
  all: cbn in Ha.
  - apply with_schema_mut_ok in Ha as (sc & sc' & Hsc & Hr & E). apply create_index_inv in Hr as (tb & Htb & Hk & ->).
    eapply Hset; [done|done|]. intros i [= <-]. cbn. rewrite (relation_at_lookup _ _ _ _ Hsc).
    destruct (Hwf _ _ Hsc) as (_ & Hrels & _). pose proof (Hrels _ _ Htb) as (_ & -> & _). by rewrite Htb.
  - unfold add_schema, has_schema in Ha. cbn in Ha. destruct (db_schemas d !! schema_name) eqn:E; [done|]. injection Ha as <-.
    intros n k i Hr. apply K1. revert Hr. unfold relation_at at 1. cbn. destruct (decide (schema_name = n)) as [<-|Hn].
    + rewrite lookup_insert. cbn. by rewrite lookup_empty.
    + rewrite lookup_insert_ne by done. apply Hi.
  - apply with_schema_mut_ok in Ha as (sc & sc' & Hsc & Hr & E). apply add_relation_inv in Hr as [Hk ->]. by eapply Hset.
  - apply with_schema_mut_ok in Ha as (sc & sc' & Hsc & Hr & E). apply create_table_inv in Hr as (tb & _ & _ & Hk & ->). by eapply Hset.
  - apply with_schema_mut_ok in Ha as (sc & sc' & Hsc & Hr & E). apply add_relation_inv in Hr as [Hk ->]. by eapply Hset.
Qed.
Lemma run_indexed s t cs d d' : Forall (added s t) cs -> wf_db d -> apply_all cs d = (d', Ok ()) -> indexed d -> indexed d'.
Proof.
  intros Hc. revert d. induction Hc as [|c cs Hc _ IH]; intros d Hwf Ha Hi; [by injection Ha as <-|].
  rewrite apply_all_cons in Ha. destruct (apply c d) as [d1 [[]|e]] eqn:Ea; [|done].
  apply (IH d1); [by eapply apply_wf|done|]. by apply (step_indexed s t c d d1).
Qed.
Lemma step_constraints s t c d d' n k x e : added s t c -> apply c d = (d', Ok ()) -> phase n k c <> Some true ->
  constraint_at d' n k x = Some e -> constraint_at d n k x = Some e.
Proof.
  intros Hc Ha Hp.
  assert (Hin : forall n0 k0 (m : mut table ()), apply c d = in_table n0 k0 m d ->
    ((n, k) = (n0, k0) -> forall tb tb', m tb = (tb', Ok ()) -> tb_constraints tb' = tb_constraints tb) ->
    constraint_at d' n k x = Some e -> constraint_at d n k x = Some e).
  { intros n0 k0 m E Hm. rewrite E in Ha. apply in_table_ok in Ha as (sc & tb & tb' & Hsc & Htb & Hk & ->).
    unfold constraint_at. rewrite relation_at_set by done. case_decide as D; [|done]. rewrite (Hm D _ _ Hk).
    injection D as -> ->. by rewrite (relation_at_lookup _ _ _ _ Hsc), Htb. }
  assert (Hnew : forall n0 sc k0 r, d' = put d n0 (set_relations sc (<[k0 := r]> (sc_relations sc))) -> db_schemas d !! n0 = Some sc ->
    (forall tb, r = RTable tb -> tb_constraints tb = ∅) -> constraint_at d' n k x = Some e -> constraint_at d n k x = Some e).
  { intros n0 sc k0 r E Hsc Hcr. unfold constraint_at. rewrite E, relation_at_set by done. case_decide as D; [|done].
    destruct r as [tb| | |]; try done. rewrite (Hcr _ eq_refl). by rewrite lookup_empty. }
  destruct c; try done.
  1,3-5: eapply Hin; [reflexivity|]; intros [= -> ->]; cbn in Hp; by rewrite decide_True in Hp.
  - eapply Hin; [reflexivity|]. intros _ tb tb' Hk. by apply add_column_inv in Hk as [_ ->].
  - cbn in Ha. apply with_schema_mut_ok in Ha as (sc & sc' & Hsc & Hr & E). apply create_index_inv in Hr as (tb & Htb & Hk & ->).
    by eapply Hnew.
  - cbn in Ha. unfold add_schema, has_schema in Ha. cbn in Ha. destruct (db_schemas d !! schema_name) eqn:E; [done|]. injection Ha as <-.
    unfold constraint_at, relation_at. cbn. destruct (decide (schema_name = n)) as [<-|Hn].
    + rewrite lookup_insert. cbn. by rewrite lookup_empty.
    + by rewrite lookup_insert_ne.
  - cbn in Ha. apply with_schema_mut_ok in Ha as (sc & sc' & Hsc & Hr & E). apply add_relation_inv in Hr as [Hk ->]. by eapply Hnew.
  - cbn in Ha. apply with_schema_mut_ok in Ha as (sc & sc' & Hsc & Hr & E). apply create_table_inv in Hr as (tb & Hm & _ & Hk & ->).
    eapply Hnew; [done|done|]. intros tb' [= <-]. by apply mfor_add_column_names in Hm as (_ & _ & ->).
  - cbn in Ha. apply with_schema_mut_ok in Ha as (sc & sc' & Hsc & Hr & E). apply add_relation_inv in Hr as [Hk ->]. by eapply Hnew.
Qed.
Lemma run_constraints s t cs d d' n k x e : Forall (added s t) cs -> apply_all cs d = (d', Ok ()) ->
  (forall c, c ∈ cs -> phase n k c <> Some true) -> constraint_at d' n k x = Some e -> constraint_at d n k x = Some e.
Proof.
  intros Hc. revert d. induction Hc as [|c cs Hc _ IH]; intros d Ha Hp He; [by injection Ha as <-|].
  rewrite apply_all_cons in Ha. destruct (apply c d) as [d1 [[]|]] eqn:Ea; [|done].
  apply (step_constraints s t c d d1); [done|done|apply Hp; by left|]. apply (IH d1); [done| |done]. intros b Hb. apply Hp. by right.
Qed.
Lemma phases_before (f : change -> option bool) pre c post :
  in_phases (omap f (pre ++ c :: post)) -> f c = Some false -> forall e, e ∈ pre -> f e <> Some true.
Proof.
  intros (a & b & E & Fa & Fb) Hc e He Hf. rewrite omap_app in E. cbn in E. rewrite Hc in E.
  assert (Hin : true ∈ omap f pre) by (apply elem_of_list_omap; by exists e).
  revert a E Fa. generalize dependent (omap f pre). intros l Hin. induction l as [|x l IH]; intros a E Fa; [by apply elem_of_nil in Hin|].
  destruct a as [|y a].
  - cbn in E. rewrite <- E in Fb. rewrite Forall_forall in Fb. specialize (Fb false).
    assert (true = false); [|done]. apply Fb. right. apply elem_of_app. right. by left.
  - cbn in E. injection E as <- E. apply Forall_cons in Fa as [<- Fa]. apply elem_of_cons in Hin as [?|Hin]; [done|]. by apply (IH Hin a).
Qed.
Lemma one_name_mentions x l : one_name l = Some x -> mentions x l = true.
Proof. destruct l as [|a [|]]; try done. cbn. intros H. by rewrite bool_decide_true. Qed.

Lemma back_ok os ot s t d' : wf_db s -> wf_db t -> only_adds s t -> new_sayable s t -> new_sequences_unowned s t ->
  self_contained s -> new_unused s t ->
  apply_all (compare_diff os ot s t) s = (d', Ok ()) -> db_equiv d' t ->
  forall pre c post d1 d2, compare_diff os ot s t = pre ++ c :: post -> apply_all pre s = (d1, Ok ()) -> apply c d1 = (d2, Ok ()) ->
    apply_all post d2 = (d', Ok ()) -> accepted (opposite c) d2 /\ sayable (opposite c) /\ plain_effect (opposite c) d2.
Proof.
  intros Hs Ht Had (N1 & _ & N4) Hq (C1 & C2 & C3 & C4) (U1 & U2) Ha He pre c post d1 d2 E H1 H2 H3.
  pose proof (diff_added s t Hs Ht Had os ot) as Hall. rewrite E in Hall.
  apply Forall_app in Hall as [Hpre Hall]. apply Forall_cons in Hall as [Hc Hpost].
  pose proof (run_more s t pre s d1 Hpre H1) as (P1 & P2 & P3).
  destruct (step_more s t c d1 d2 Hc H2) as [M (S1 & S2)].
  pose proof (run_more s t post d2 d' Hpost H3) as (L1 & L2 & L3).
  destruct (run_keeps s t post d2 d') as [[_ K2] _]; [done|done|].
  assert (Hwf1 : wf_db d1) by (by apply (DiffRollback.apply_all_wf pre s)).
  assert (Hi1 : indexed d1).
  { apply (run_indexed s t pre s d1 Hpre Hs H1). intros n k i Hi. destruct (C3 _ _ _ Hi) as [tb Htb]. by rewrite Htb. }
  (* foreign keys *)
  assert (FK : forall n k x f, constraint_at d2 n k x = Some (CForeignKey f) -> constraint_at s n k x = Some (CForeignKey f)).
  { intros n k x f Hx. apply K2 in Hx. rewrite (constraint_at_equiv d' t n k x He) in Hx.
    destruct (constraint_at s n k x) as [e|] eqn:Ee; [|by destruct (N4 _ _ _ _ Ee Hx)].
    destruct Had as (_ & _ & _ & _ & _ & A6). pose proof (A6 _ _ _ _ Ee). congruence. }
  assert (NT : forall n k r, relation_at d2 n k = Some r -> ~ is_table (Some r) -> relation_at t n k = Some r).
  { intros n k r Hr Hn. apply L1 in Hr; [|done]. pose proof (option_Forall2_relation _ _ n k He) as Hf. rewrite Hr in Hf.
    inversion Hf as [a b Hab E1 E2|]; subst. destruct r as [tb| | |]; [destruct Hn; by exists tb|destruct b; cbn in Hab; try done; congruence..]. }
  assert (SQ : forall n k q b x, relation_at d2 n k = Some (RSequence q) -> owner_meant q = Some (b, x) -> is_Some (column_at s n b x)).
  { intros n k q b x Hr Ho. apply NT in Hr; [|by intros [? ?]]. destruct (Hq _ _ _ Hr) as [Hr'|[E1 E2]]; [by eapply C4|].
    unfold owner_meant in Ho. by rewrite E1 in Ho. }
  assert (IX : forall n k i, relation_at d2 n k = Some (RIndex i) -> relation_at t n k = Some (RIndex i)).
  { intros n k i Hr. apply NT; [done|by intros [? ?]]. }
  assert (REF : forall n k P, referenced d2 None n k P -> exists cs, P cs /\ table_at s n k /\ Forall (fun y => is_Some (column_at s n k y)) cs /\
    referenced s None n k (fun l => l = cs)).
  { intros n k P (n1 & k1 & x & f & Hf & _ & <- & <- & HP). exists (fk_tcolumns f). apply FK in Hf. destruct (C2 _ _ _ _ Hf) as [G1 G2].
    split_and!; [done..|]. by exists n1, k1, x, f. }
  destruct c; try done; cbn [opposite accepted sayable plain_effect] in *.
  - (* columns *)
    match type of H2 with apply (AddColumn ?a ?b ?x ?ty ?nn ?df) _ = _ =>
      rename a into n0; rename b into k0; rename x into x0; rename ty into ty0; rename nn into nn0; rename df into df0 end.
    pose proof Hc as (B1 & B2 & B3 & B4).
    assert (CN : forall x e, constraint_at d2 n0 k0 x = Some e -> constraint_at s n0 k0 x = Some e).
    { intros x e Hx. destruct B2 as [b Hb]. pose proof (diff_phases os ot s t _ _ b Hs Ht Had Hb) as Hph. rewrite E in Hph.
      assert (Hp : phase n0 k0 (AddColumn n0 k0 x0 ty0 nn0 df0) = Some false).
      { cbn. by rewrite decide_True. }
      apply (run_constraints s t pre s d1 _ _ _ _ Hpre H1).
      - intros e' He'. by apply (phases_before _ pre _ post Hph).
      - apply (step_constraints s t _ d1 d2 _ _ _ _ Hc H2); [by rewrite Hp|done]. }
    destruct (U1 _ _ _ B1 B3 B4) as [W1 W2]. split_and!.
    + intros (cs & G1 & _ & G2 & _)%REF. rewrite Forall_forall in G2. specialize (G2 _ G1). rewrite B3 in G2. by destruct G2.
    + intros (x & e & l & G1 & G2 & G3). apply W1. exists x, e, l. split_and!; [by apply CN|done|done].
    + intros (x & i & e & l & G1 & G2 & G3 & G4 & G5 & _). apply W2. exists x, i, e, l. split_and!; [by apply IX|done..].
    + done.
    + intros x e Hx Hin. apply CN, C1 in Hx. rewrite Forall_forall in Hx. specialize (Hx _ Hin). rewrite B3 in Hx. by destruct Hx.
    + intros x i Hx Hi. apply Forall_forall. intros e He' Hl. destruct (lex e) as [l|] eqn:El; [|done]. cbn in Hl.
      apply W2. exists x, i, e, l. split_and!; [by apply IX|done..|by apply one_name_mentions].
    + intros x q Hx Ho. destruct (SQ _ _ _ _ _ Hx Ho) as [y Hy]. congruence.
  - destruct Hc as [B1 B2]. split_and!; [|done..]. intros e cs Hx Hk Hr.
    apply K2 in Hx. rewrite (constraint_at_equiv d' t _ _ _ He), B2 in Hx. injection Hx as <-.
    destruct (REF _ _ _ Hr) as (l & G1 & _ & _ & G2). apply (U2 _ _ _ _ cs B1 B2 Hk).
    destruct G2 as (n1 & k1 & x & f & F1 & F2 & F3 & F4 & <-). by exists n1, k1, x, f.
  - destruct Hc as [B1 B2]. split_and!; [|done..]. intros e cs Hx Hk Hr.
    apply K2 in Hx. rewrite (constraint_at_equiv d' t _ _ _ He), B2 in Hx. injection Hx as <-.
    destruct (REF _ _ _ Hr) as (l & G1 & _ & _ & G2). apply (U2 _ _ _ _ cs B1 B2 Hk).
    destruct G2 as (n1 & k1 & x & f & F1 & F2 & F3 & F4 & <-). by exists n1, k1, x, f.
  - (* schemas *) destruct Hc as [B1 B2]. split; [|split; [exact (N1 _ B1 B2)|done]].
    cbn in H2. unfold add_schema, has_schema in H2. cbn in H2. destruct (db_schemas d1 !! schema_name) eqn:Es; [done|]. injection H2 as <-.
    intros k. unfold relation_at, function_at. cbn. rewrite lookup_insert. cbn. by rewrite !lookup_empty.
  - (* tables *)
    match type of H2 with apply (CreateTable ?a ?b ?cs) _ = _ => rename a into n0; rename b into k0; rename cs into cs0 end.
    pose proof (S2 _ _ eq_refl) as Hnone.
    assert (Hnt : ~ table_at s n0 k0).
    { intros [b Hb]%P2. congruence. }
    split_and!; [| |done| |].
    + cbn in H2. apply with_schema_mut_ok in H2 as (sc & sc' & Hsc & Hr & ->). apply create_table_inv in Hr as (tb & _ & _ & Hk & ->).
      exists tb. rewrite relation_at_set by done. by rewrite decide_True.
    + intros (n1 & k1 & x & f & F1 & _ & F3 & F4 & _). apply FK, C2 in F1 as [F1 _]. rewrite F3, F4 in F1. done.
    + intros x i Hx Hi. destruct (relation_at d1 n0 x) as [r|] eqn:Er.
      * assert (r = RIndex i) as ->.
        { destruct M as (M1 & M2 & _). destruct r as [b|v|i'|q'].
          - destruct (M2 n0 x) as [b' Hb']; [by exists b|congruence].
          - assert (relation_at d2 n0 x = Some (RView v)); [|congruence]. apply M1; [done|by intros [? ?]].
          - assert (relation_at d2 n0 x = Some (RIndex i')); [|congruence]. apply M1; [done|by intros [? ?]].
          - assert (relation_at d2 n0 x = Some (RSequence q')); [|congruence]. apply M1; [done|by intros [? ?]]. }
        apply Hi1 in Er. rewrite Hi, Hnone in Er. by destruct Er.
      * assert (created_at (CreateTable n0 k0 cs0) n0 x) as [= <-] by (apply S1; [done|by rewrite Hx]).
        cbn in H2. apply with_schema_mut_ok in H2 as (sc & sc' & Hsc & Hr & ->). apply create_table_inv in Hr as (tb & _ & _ & Hk & ->).
        rewrite relation_at_set in Hx by done. by rewrite decide_True in Hx.
    + intros x q y Hx Ho. destruct (SQ _ _ _ _ _ Hx Ho) as [col Hcol]. apply Hnt. unfold column_at in Hcol.
      destruct (relation_at s n0 k0) as [[b| | |]|] eqn:Eb; try done. unfold table_at. rewrite Eb. by exists b.
Qed.

(** ** Altogether *)
Lemma opposite_spelled s t c : added s t c -> well_spelled c -> well_spelled (opposite c).
Proof.
  intros Hc Hw. destruct c; try done; cbn [opposite well_spelled] in *; try done;
    try (by destruct Hw as (? & ? & ? & ?)); try (by destruct Hw as (? & ? & ?)).
Qed.
Lemma opposites_null s t cs N : Forall (added s t) cs -> null_after (reverse (opposite <$> cs)) N = N.
Proof.
  intros Hc. assert (G : Forall (fun r => forall M, null_step r M = M) (reverse (opposite <$> cs))).
  { apply Forall_reverse, Forall_fmap. eapply Forall_impl; [exact Hc|]. intros c H M. by destruct c. }
  revert N. induction G as [|r rs Hr _ IH]; intros N; [done|]. cbn. by rewrite Hr, IH.
Qed.
Lemma faithful_nulls cs d : faithful d cs -> faithful_but_null d cs.
Proof.
  revert d. induction cs as [|c cs IH]; intros d; [done|]. intros (H1 & H2 & H3). split_and!.
  - by destruct c.
  - by destruct c.
  - intros d' Ha. by apply IH, H3.
Qed.

Lemma old_nulls_iff os ot s t : wf_db s -> wf_db t -> only_adds s t ->
  ((forall n k x c, column_at s n k x = Some c -> col_notnull c = null_after (compare_diff os ot s t) (not_null_in s) n k x) <->
   old_nulls_kept s t).
Proof.
  intros Hs Ht (_ & _ & _ & _ & A5 & _). split.
  - intros H n k x c Hc Hk. rewrite (H _ _ _ _ Hc).
    by apply (diff_nulls os ot s t n k x c Hs Ht (A5 _ _ _ _ Hc)).
  - intros H n k x c Hc. destruct (diff_nulls os ot s t n k x c Hs Ht (A5 _ _ _ _ Hc)) as [K1 K2].
    assert (Hk : key_added s t n k x \/ ~ key_added s t n k x) by (by apply (key_added_dec ot)).
    destruct Hk as [Hk|Hk]; [rewrite (K1 Hk); by apply (H n k x c)|]. destruct (K2 Hk) as [K _]. rewrite K; [done|by rewrite Hc].
Qed.

Section altogether.
  Context (os ot : iter_order) (s t : database) (sv : server).
  Hypothesis Hs : wf_db s.
  Hypothesis Ht : wf_db t.
  Hypothesis Ps : spelled_db s.
  Hypothesis Pt : spelled_db t.
  Hypothesis Hd : described s sv.
  Hypothesis Had : only_adds s t.
  Hypothesis Hn : new_sayable s t.
  Hypothesis Hix : indexes_safe s t.
  Hypothesis Hq : new_sequences_unowned s t.
  Hypothesis Hsc : self_contained s.
  Hypothesis Hun : new_unused s t.

  Lemma adds_back rs : collect_reverts (compare_diff os ot s t) s = Some rs ->
    Forall well_spelled rs /\ apply_all (reverse rs) (expected_db s t) = (s, Ok ()) /\
    faithful (expected_db s t) (reverse rs) /\ acceptable (expected_db s t) (reverse rs).
  Proof.
    intros Hr. destruct (adds_run os ot s t Hs Ht Had Hix Hq) as [Ha He].
    pose proof (diff_added s t Hs Ht Had os ot) as Hall.
    destruct (steps_back s t _ s _ rs Hall Hs Ha Hr) as [E Hb].
    destruct (back_steps s t _ s _ rs Hall Hs Ha Hr (back_ok os ot s t _ Hs Ht Had Hn Hq Hsc Hun Ha He)) as [G1 G2].
    split_and!; [|done..]. rewrite E. apply Forall_fmap.
    pose proof (SpelledLemmas.diff_spelled os ot s t Hs Ht Ps Pt) as Hw.
    apply Forall_forall. intros c Hc. rewrite Forall_forall in Hall, Hw. eapply opposite_spelled; by eauto.
  Qed.
  Lemma adds_taken_back sv1 rs : collect_reverts (compare_diff os ot s t) s = Some rs ->
    runs obey (render_sql <$> compare_diff os ot s t) sv sv1 ->
    exists sv2, runs obey (render_sql <$> reverse rs) sv1 sv2 /\ (described s sv2 <-> old_nulls_kept s t).
  Proof.
    intros Hr Hrun. destruct (adds_run os ot s t Hs Ht Had Hix Hq) as [Ha He].
    pose proof (diff_added s t Hs Ht Had os ot) as Hall.
    pose proof (SpelledLemmas.diff_spelled os ot s t Hs Ht Ps Pt) as Hw.
    destruct (adds_back rs Hr) as (W & Hb & Hf & Hac).
    destruct (steps_back s t _ s _ rs Hall Hs Ha Hr) as [E _].
    assert (Hwf : wf_db (expected_db s t)) by (by apply (DiffRollback.apply_all_wf (compare_diff os ot s t) s)).
    set (N := null_after (compare_diff os ot s t) (not_null_in s)).
    assert (D1 : described (renull N (expected_db s t)) sv1).
    { apply (runs_null _ _ s sv); [done|done|by rewrite own_nulls|by apply (adds_faithful s t)|done|done]. }
    apply faithful_nulls in Hf. assert (W' : Forall well_spelled (reverse rs)) by (by apply Forall_reverse).
    apply (acceptable_null N _ _ sv1 s W' Hwf D1 Hb Hf) in Hac as [sv2 Hr2]. exists sv2. split; [done|].
    pose proof (runs_null _ N _ sv1 s sv2 W' Hwf D1 Hf Hb Hr2) as D2. rewrite E, (opposites_null s t _ N Hall) in D2.
    rewrite (described_null N s sv2 Hs D2). by apply old_nulls_iff.
  Qed.
End altogether.
