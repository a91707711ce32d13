(** New relations of a schema come before changes to its old ones. *)
From Verif Require Import Base Types Changes SpecSnapshot SpecDiff Diff DiffSound DiffRun SpecSpelled SpelledLemmas NullDiff AddLemmas TakeBackLemmas SpecIndexed ColumnLemmas ApplyLemmas InvertLemmas.

Definition creates_index (n k : str) (c : change) : Prop :=
  match c with CreateIndex s _ i _ _ _ => (s, i) = (n, k) | _ => False end.
Definition rank (n k b : str) (c : change) : option bool :=
  match c with
  | CreateIndex s _ i _ _ _ => if decide ((s, i) = (n, k)) then Some false else None
  | AddColumn s t _ _ _ _ | CreateTable s t _ | RenameColumn s t _ _ => if decide ((s, t) = (n, b)) then Some true else None
  | _ => None
  end.
Lemma rank_index n k b c : rank n k b c = Some false <-> creates_index n k c.
Proof. destruct c; cbn; try done; case_decide; done. Qed.
Lemma rank_columns n k b c : rank n k b c = Some true <-> brings_columns n b c.
Proof. destruct c; cbn; try done; case_decide; done. Qed.

Definition index_on (n k : str) (c : change) : Prop := match c with CreateIndex s _ i _ _ _ => (s, i) = (n, k) | _ => True end.
Definition indexes (c : change) : Prop := match c with CreateIndex _ _ _ _ _ _ => True | _ => False end.
Lemma indexes_on n k l : Forall (fun c => ~ indexes c) l -> Forall (index_on n k) l.
Proof. intros H. eapply Forall_impl; [exact H|]. intros c K. by destruct c. Qed.
Lemma relation_create_index ot n k r : wf_relation n k r -> Forall (index_on n k) (diff_relation_create ot r).
Proof.
  destruct r as [b|v|i|q]; intros Hw; [|by apply Forall_singleton| |by apply Forall_singleton].
  - apply indexes_on. cbn. unfold diff_table_create. constructor; [by intros []|]. apply Forall_forall. intros e (c & He & _)%elem_of_list_bind.
    destruct c; apply elem_of_list_singleton in He as ->; by intros [].
  - apply Forall_singleton. destruct Hw as (E1 & E2). cbn in *. subst. done.
Qed.
Lemma relation_drop_index n k r : Forall (index_on n k) (diff_relation_drop r).
Proof. by destruct r; apply Forall_singleton. Qed.
Lemma relation_update_index os ot n k r r' :
  wf_relation n k r -> wf_relation n k r' -> Forall (index_on n k) (diff_relation_update os ot r r').
Proof.
  intros Ha Hb. pose proof (relation_create_index ot n k r' Hb) as Hc. pose proof (relation_drop_index n k r) as Hd.
  assert (Hdc : Forall (index_on n k) (diff_relation_drop r ++ diff_relation_create ot r')) by (by apply Forall_app).
  destruct r as [a|v|i|q], r' as [b|v'|i'|q']; cbn [diff_relation_update]; try exact Hdc.
  - apply (table_update_forall (index_on n k) os ot n k a b Ha Hb).
    pose proof Ha as (_ & _ & _ & _ & Ca). pose proof Hb as (_ & _ & _ & _ & Cb). split_and!.
    + intros c _. unfold diff_table_column, diff_column_update, diff_column_create.
      destruct (find_column _ _); [repeat destruct (neqb _ _); repeat constructor|by apply Forall_singleton].
    + intros c _. unfold diff_table_column_drop. destruct (has_column _ _); [constructor|]. by apply Forall_singleton.
    + intros x.
      assert (Kc : forall c, Forall (index_on n k) (diff_constraint_create c)) by (intros c; destruct c; by apply Forall_singleton).
      assert (Kd : forall c, Forall (index_on n k) (diff_constraint_drop c)) by (intros c; destruct c; by apply Forall_singleton).
      destruct (tb_constraints a !! x) as [ca|] eqn:Ea, (tb_constraints b !! x) as [cb|] eqn:Eb; cbn [constraint_part]; [|done..|constructor].
      rewrite (constraint_update_cases n k x ca cb) by eauto. repeat case_decide; [constructor| |].
      * destruct cb; by apply Forall_singleton.
      * apply Forall_app. split; eauto.
  - unfold diff_view_update. destruct (neqb _ _); [exact Hdc|constructor].
  - unfold diff_index_update. destruct (neqb _ _); [exact Hdc|constructor].
  - unfold diff_sequence_update. destruct (_ || _); [exact Hdc|constructor].
Qed.

Section ordered.
  Context (os ot : iter_order) (s t : database) (Hs : wf_db s) (Ht : wf_db t) (n k b : str).
  Context (sa sb : schema) (Ea : db_schemas s !! n = Some sa) (Eb : db_schemas t !! n = Some sb).
  Context (Hk : sc_relations sa !! k = None) (Hb : is_Some (sc_relations sa !! b)).

  Lemma other_rank n' k' l : n' <> n -> Forall (on_table n' k') l -> Forall (index_on n' k') l -> omap (rank n k b) l = [].
  Proof.
    intros Hn H1 H2. apply omap_none. rewrite Forall_forall in H1, H2 |- *. intros c Hc. specialize (H1 c Hc). specialize (H2 c Hc).
    destruct c; cbn in *; try done; case_decide; congruence.
  Qed.
  Lemma plain_rank l : Forall (fun c => ~ indexes c /\ rank n k b c = None) l -> omap (rank n k b) l = [].
  Proof. intros H. apply omap_none. eapply Forall_impl; [exact H|]. by intros c [_ K]. Qed.
  Lemma fn_create_rank g : omap (rank n k b) (diff_function_create g) = [].
  Proof. done. Qed.
  Lemma fn_drop_rank g : omap (rank n k b) (diff_function_drop g) = [].
  Proof. done. Qed.
  Lemma fn_update_rank g h : omap (rank n k b) (diff_function_update g h) = [].
  Proof. unfold diff_function_update. by destruct (_ || _). Qed.
  Lemma drop_rank r : omap (rank n k b) (diff_relation_drop r) = [].
  Proof. by destruct r. Qed.
  Lemma functions_rank a a' : omap (rank n k b) ((iter_functions ot a' ≫= diff_schema_function_new a) ++ (iter_functions os a ≫= diff_schema_function_old a')) = [].
  Proof.
    rewrite omap_app, !omap_bind_none; [done| |].
    - intros g _. unfold diff_schema_function_old. destruct (sc_functions a' !! fn_name g); [apply fn_update_rank|apply fn_drop_rank].
    - intros g _. unfold diff_schema_function_new. destruct (has_function _ _); [done|apply fn_create_rank].
  Qed.
  Lemma create_other_rank n' sc : wf_schema n' sc -> n' <> n -> omap (rank n k b) (diff_schema_create ot sc) = [].
  Proof.
    intros (E & Hr & _) Hn. unfold diff_schema_create. cbn [omap list_omap new_create_schema rank]. rewrite omap_app, !omap_bind_none; [done| |].
    - intros g _. apply fn_create_rank.
    - intros r Hin. apply (iter_elem _ _ _ (io_relations_perm _ _ _) (wf_relations_named _ _ Hr)) in Hin.
      apply (other_rank n' (relation_name r)); [done|apply relation_create_on; by apply Hr|apply relation_create_index; by apply Hr].
  Qed.
  Lemma drop_schema_rank sc : omap (rank n k b) (diff_schema_drop os sc) = [].
  Proof.
    unfold diff_schema_drop. rewrite !omap_app, !omap_bind_none; [done| |].
    - intros g _. apply fn_drop_rank.
    - intros r _. apply drop_rank.
  Qed.
  Lemma update_other_rank n' a a' : wf_schema n' a -> wf_schema n' a' -> n' <> n -> omap (rank n k b) (diff_schema_update os ot a a') = [].
  Proof.
    intros (E & Ha & _) (E' & Ha' & _) Hn. unfold diff_schema_update.
    rewrite omap_app, (omap_app _ (_ ≫= diff_schema_relation_old os ot a')), functions_rank, !omap_bind_none; [done| |].
    - intros r Hin. apply (iter_elem _ _ _ (io_relations_perm _ _ _) (wf_relations_named _ _ Ha)) in Hin.
      unfold diff_schema_relation_old. destruct (sc_relations a' !! relation_name r) as [r'|] eqn:Er; [|apply drop_rank].
      apply (other_rank n' (relation_name r)); [done|apply relation_update_on; [by apply Ha|by apply Ha']|apply relation_update_index; [by apply Ha|by apply Ha']].
    - intros r Hin. apply (iter_elem _ _ _ (io_relations_perm _ _ _) (wf_relations_named _ _ Ha')) in Hin.
      unfold diff_schema_relation_new. destruct (has_relation _ _); [done|].
      apply (other_rank n' (relation_name r)); [done|apply relation_create_on; by apply Ha'|apply relation_create_index; by apply Ha'].
  Qed.
  Lemma diff_ranks : in_phases (omap (rank n k b) (compare_diff os ot s t)).
  Proof.
    destruct (Hs _ _ Ea) as (Na & Ra & _). destruct (Ht _ _ Eb) as (Nb & Rb & _).
    unfold compare_diff, diff_database_update. rewrite omap_app, (omap_bind_none _ (diff_database_new ot s)).
    2:{ intros sc Hin. apply (iter_elem _ _ _ (io_schemas_perm _ _) (wf_schemas_named _ Ht)) in Hin.
        unfold diff_database_new, has_schema. destruct (decide (sc_name sc = n)) as [->|Hn]; [by rewrite Ea|].
        destruct (db_schemas s !! sc_name sc); [done|]. apply (create_other_rank (sc_name sc)); [by apply Ht|done]. }
    cbn [app]. rewrite (omap_bind_one _ _ sc_name _ sa); [|by apply (iter_nodup _ _ _ (io_schemas_perm _ _) (wf_schemas_named _ Hs))| |].
    2:{ apply (iter_elem _ _ _ (io_schemas_perm _ _) (wf_schemas_named _ Hs)). by rewrite Na. }
    2:{ intros sc Hin Hn. apply (iter_elem _ _ _ (io_schemas_perm _ _) (wf_schemas_named _ Hs)) in Hin. rewrite Na in Hn.
        unfold diff_database_old. destruct (db_schemas t !! sc_name sc) as [sc'|] eqn:E; [|apply drop_schema_rank].
        apply (update_other_rank (sc_name sc)); [by apply Hs|by apply Ht|done]. }
    unfold diff_database_old. rewrite Na, Eb. unfold diff_schema_update.
    rewrite omap_app, (omap_app _ (_ ≫= diff_schema_relation_old os ot sb)), functions_rank, app_nil_r.
    eexists _, _. split; [reflexivity|]. split.
    - apply omap_all. intros c (r & Hc & Hin)%elem_of_list_bind. cbn [negb]. rewrite rank_columns. intros Hbc.
      apply (iter_elem _ _ _ (io_relations_perm _ _ _) (wf_relations_named _ _ Rb)) in Hin.
      unfold diff_schema_relation_new, has_relation in Hc. destruct (sc_relations sa !! relation_name r) as [r'|] eqn:Er; [by apply elem_of_nil in Hc|].
      cbn in Hc. pose proof (relation_create_on ot n (relation_name r) r ltac:(by apply Rb)) as K. rewrite Forall_forall in K. specialize (K c Hc).
      assert (relation_name r = b) as E by (destruct c; cbn in *; try done; congruence).
      rewrite E in Er. destruct Hb. congruence.
    - apply omap_all. intros c (r & Hc & Hin)%elem_of_list_bind. cbn [negb]. rewrite rank_index. intros Hix.
      apply (iter_elem _ _ _ (io_relations_perm _ _ _) (wf_relations_named _ _ Ra)) in Hin.
      assert (K : Forall (index_on n (relation_name r)) (diff_schema_relation_old os ot sb r)).
      { unfold diff_schema_relation_old. destruct (sc_relations sb !! relation_name r) as [r'|] eqn:Er; [|apply relation_drop_index].
        apply relation_update_index; [by apply Ra|by apply Rb]. }
      rewrite Forall_forall in K. specialize (K c Hc). destruct c; cbn in *; try done. congruence.
  Qed.
End ordered.

Lemma first_of {A} (P : A -> Prop) `{forall a, Decision (P a)} l a : a ∈ l -> P a ->
  exists l1 c l2, l = l1 ++ c :: l2 /\ P c /\ Forall (fun e => ~ P e) l1.
Proof.
  induction l as [|y l IH]; intros Hin Ha; [by apply elem_of_nil in Hin|]. destruct (decide (P y)) as [Hy|Hy]; [by exists [], y, l|].
  apply elem_of_cons in Hin as [->|Hin]; [done|]. destruct (IH Hin Ha) as (l1 & c & l2 & -> & Hc & Hl). exists (y :: l1), c, l2. split; [done|]. split; [done|]. by constructor.
Qed.
Global Instance brings_columns_dec n b c : Decision (brings_columns n b c).
Proof. destruct c; cbn; apply _. Defined.
Lemma index_before_column os ot s t n k i b x :
  wf_db s -> wf_db t -> relation_at s n k = None -> relation_at t n k = Some (RIndex i) ->
  table_at s n b -> table_at t n b -> column_at s n b x = None -> is_Some (column_at t n b x) ->
  exists pre post, compare_diff os ot s t = pre ++ CreateIndex n (ix_table i) k (ix_unique i) (ix_method i) (ix_keys i) :: post /\
    Forall (fun e => ~ brings_columns n b e) pre /\ Exists (adds_column n b x) post.
Proof.
  intros Hs Ht Hk Hi [ta Ta] [tb Tb] Hx [cx Hcx].
  assert (exists sa, db_schemas s !! n = Some sa /\ sc_relations sa !! b = Some (RTable ta)) as (sa & Ea & Ra).
  { unfold relation_at in Ta. destruct (db_schemas s !! n) as [sa|]; [|done]. by exists sa. }
  assert (exists sb, db_schemas t !! n = Some sb) as (sb & Eb).
  { unfold relation_at in Tb. destruct (db_schemas t !! n) as [sb|]; [|done]. by exists sb. }
  assert (Hk' : sc_relations sa !! k = None) by (unfold relation_at in Hk; by rewrite Ea in Hk).
  pose proof (diff_ranks os ot s t Hs Ht n k b sa sb Ea Eb Hk' (ex_intro _ _ Ra)) as Hp.
  assert (Hpart : forall n k e, e ∈ relation_part os ot (relation_at s n k) (relation_at t n k) -> e ∈ compare_diff os ot s t).
  { intros n' k' e He. pose proof (proj1 (diff_forall (fun e => e ∈ compare_diff os ot s t) os ot s t Hs Ht)) as K.
    destruct K as (_ & K & _); [apply Forall_forall; done|]. specialize (K n' k'). rewrite Forall_forall in K. by apply K. }
  assert (Hci : new_create_index i ∈ compare_diff os ot s t).
  { apply (Hpart n k). rewrite Hk, Hi. cbn. by left. }
  assert (Hac : new_add_column cx ∈ compare_diff os ot s t).
  { apply (Hpart n b). rewrite Ta, Tb. cbn [relation_part diff_relation_update]. unfold diff_table_update. apply elem_of_app. left.
    unfold column_at in Hx, Hcx. rewrite Ta in Hx. rewrite Tb in Hcx. apply elem_of_list_bind. exists cx.
    apply find_column_Some in Hcx as [Hin En]. split; [|exact Hin]. unfold diff_table_column. rewrite En, Hx. by left. }
  assert (Wi : relation_schema (RIndex i) = n /\ relation_name (RIndex i) = k) by exact (proj2 (SpelledLemmas.relation_at_wf t n k _ Ht Hi)).
  assert (Wx : col_schema cx = n /\ col_table cx = b /\ col_name cx = x).
  { unfold column_at in Hcx. rewrite Tb in Hcx. apply find_column_Some in Hcx as [Hin En].
    pose proof (proj2 (SpelledLemmas.relation_at_wf t n b _ Ht Tb)) as W. destruct W as (_ & _ & _ & W & _). rewrite Forall_forall in W. destruct (W _ Hin). done. }
  destruct Wi as [W1 W2]. destruct Wx as (X1 & X2 & X3).
  destruct (first_of (brings_columns n b) _ _ Hac) as (l1 & c & l2 & E & Hc & Hl1); [cbn; congruence|].
  assert (Hc' : rank n k b c = Some true) by (by apply rank_columns).
  rewrite E in Hp. pose proof (phases_split (rank n k b) l1 c l2 Hp Hc') as K.
  assert (Hf : rank n k b (new_create_index i) = Some false) by (apply rank_index; cbn in *; congruence).
  assert (Hin : new_create_index i ∈ l1).
  { rewrite E in Hci. apply elem_of_app in Hci as [?|[<-|?]%elem_of_cons]; [done|congruence|]. by destruct (K _ H). }
  apply elem_of_list_split in Hin as (p1 & p2 & ->). exists p1, (p2 ++ c :: l2).
  assert (Ei : CreateIndex n (ix_table i) k (ix_unique i) (ix_method i) (ix_keys i) = new_create_index i) by (cbn in W1, W2; unfold new_create_index; congruence). rewrite Ei.
  split; [by rewrite E, <- app_assoc|]. apply Forall_app in Hl1 as [Hp1 Hp2]. split; [done|].
  apply Exists_exists. exists (new_add_column cx). split; [|cbn; congruence].
  apply Forall_cons in Hp2 as [_ Hp2]. rewrite Forall_forall in Hp1, Hp2.
  assert (Hbr : brings_columns n b (new_add_column cx)) by (cbn; congruence).
  rewrite E in Hac. rewrite <- app_assoc in Hac. apply elem_of_app in Hac as [Hac|Hac]; [by destruct (Hp1 _ Hac)|].
  cbn in Hac. apply elem_of_cons in Hac as [?|Hac]; [done|exact Hac].
Qed.

(** ** When the index is created *)
Definition has_col (r : option relation) (x : str) : Prop :=
  match r with Some (RTable tb) => x ∈ names (tb_columns tb) | _ => False end.
Lemma column_at_has d n b x : is_Some (column_at d n b x) <-> has_col (relation_at d n b) x.
Proof.
  unfold column_at, has_col. destruct (relation_at d n b) as [[tb| | |]|]; [apply find_column_is_Some|split; [by intros []|done]..].
Qed.
Lemma with_schema_cols s (k : mut schema ()) d d' n b x : with_schema_mut s k d = (d', Ok ()) ->
  (forall sc sc', k sc = (sc', Ok ()) -> n = s -> has_col (sc_relations sc' !! b) x -> has_col (sc_relations sc !! b) x) ->
  has_col (relation_at d' n b) x -> has_col (relation_at d n b) x.
Proof.
  intros Ha Hk. unfold with_schema_mut in Ha. destruct (db_schemas d !! s) as [sc|] eqn:Es; [|done].
  destruct (k sc) as [sc' r] eqn:Ek. injection Ha as <- ->. unfold relation_at. cbn [db_schemas]. destruct (decide (n = s)) as [->|Hn].
  - rewrite lookup_insert, Es. cbn. by apply (Hk sc sc').
  - by rewrite lookup_insert_ne by done.
Qed.
Lemma in_table_cols s t (k : mut table ()) d d' n b x : in_table s t k d = (d', Ok ()) ->
  (forall tb tb', k tb = (tb', Ok ()) -> (s, t) = (n, b) -> x ∈ names (tb_columns tb') -> x ∈ names (tb_columns tb)) ->
  has_col (relation_at d' n b) x -> has_col (relation_at d n b) x.
Proof.
  intros Ha Hk. apply (with_schema_cols _ _ _ _ _ _ _ Ha). intros sc sc' H ->. unfold with_relation_mut in H.
  destruct (sc_relations sc !! t) as [[tb| | |]|] eqn:Et; try done. cbn in H. destruct (k tb) as [tb' r] eqn:Ek. injection H as <- ->.
  cbn. destruct (decide (b = t)) as [->|Hb]; [|by rewrite lookup_insert_ne by done].
  rewrite lookup_insert, Et. cbn. by apply (Hk tb tb').
Qed.
Lemma add_relation_cols r sc sc' b x : ~ is_table (Some r) -> add_relation r sc = (sc', Ok ()) -> has_col (sc_relations sc' !! b) x -> has_col (sc_relations sc !! b) x.
Proof.
  intros Hr. unfold add_relation. destruct (has_relation _ _); [done|]. intros [= <-]. cbn.
  destruct (decide (b = relation_name r)) as [->|Hb]; [|by rewrite lookup_insert_ne by done].
  rewrite lookup_insert. destruct r as [tb| | |]; try done. destruct Hr. by exists tb.
Qed.
Lemma delete_cols (m : gmap str relation) k b x : has_col (delete k m !! b) x -> has_col (m !! b) x.
Proof. destruct (decide (b = k)) as [->|]; [by rewrite lookup_delete|by rewrite lookup_delete_ne by done]. Qed.
Lemma drop_relation_cols {A} (k : relation -> result A) n sc sc' b x :
  drop_relation k n sc = (sc', Ok ()) -> has_col (sc_relations sc' !! b) x -> has_col (sc_relations sc !! b) x.
Proof.
  unfold drop_relation, mthen, mread, mok, remove_relation, get_relation. destruct (sc_relations sc !! n) as [r|] eqn:E; [|done]. cbn.
  destruct (k r); [|done]. intros [= <-]. cbn. apply delete_cols.
Qed.
Lemma with_column_cols n f tb tb' : (forall c, col_name (f c) = col_name c) -> with_column_mut n f tb = (tb', Ok ()) -> names (tb_columns tb') = names (tb_columns tb).
Proof.
  intros Hf. unfold with_column_mut. destruct (find_column _ _); [|done]. intros [= <-]. cbn. by apply update_column_names.
Qed.
Lemma with_constraint_cols m (k : mut constraint ()) tb tb' : with_constraint_mut m k tb = (tb', Ok ()) -> tb_columns tb' = tb_columns tb.
Proof. unfold with_constraint_mut. destruct (tb_constraints tb !! m) as [c|]; [|done]. destruct (k c) as [c' r]. by intros [= <- _]. Qed.
Lemma no_columns_brought c d d' n b x : apply c d = (d', Ok ()) -> ~ brings_columns n b c ->
  is_Some (column_at d' n b x) -> is_Some (column_at d n b x).
Proof.
  intros Ha Hb. rewrite !column_at_has.
  destruct c as [s t m e df i|s t m ty nn df|s t m cs s' t' tcs mt u dl df i|s t m cs df i|s t m cs df i|s t m df i
    |s t m ty|s t m df|s t m nn|s t m df i|s t m df i|s t m df i|s f body lang ret vol|s t m u me ks|m|s m ty inc mn mx sta ca cy
    |s t cs|s v q|s t m|s t m|s t m|s f|s m|s t m|m|s m|s t|s t m|s v|s t m m']; cbn [apply] in Ha.
  all: try (apply (in_table_cols _ _ _ _ _ _ _ _ Ha); intros tb tb' H E; try (by destruct Hb); clear - H; revert H;
    first [ unfold add_constraint; destruct (has_constraint _ _); [done|]; by intros [= <-]
          | intros H; by rewrite (with_constraint_cols _ _ _ _ H)
          | unfold drop_constraint, mthen, mread, mok, remove_constraint, get_constraint; destruct (tb_constraints tb !! _) as [c|] eqn:Ec; [|done]; cbn;
            destruct c; cbn; try done; by intros [= <-]
          | intros H; assert (K : names (tb_columns tb') = names (tb_columns tb)) by (eapply with_column_cols; [|exact H]; by intros []); by rewrite K
          | idtac ]).
  all: try (apply (with_schema_cols _ _ _ _ _ _ _ Ha); intros sc sc' H E; clear - H Hb E; revert H;
    first [ apply add_relation_cols; by intros [? ?]
          | apply drop_relation_cols
          | idtac ]).
  - unfold add_function. destruct (has_function _ _); [done|]. by intros [= <-].
  - unfold create_index_in, mthen, mread. destruct (rbind _ _); [|done]. apply add_relation_cols. by intros [? ?].
  - unfold add_schema in Ha. destruct (has_schema d _) eqn:Em; [done|]. injection Ha as <-. unfold relation_at. cbn.
    destruct (decide (n = m)) as [->|Hn]; [by rewrite lookup_insert|by rewrite lookup_insert_ne by done].
  - unfold create_table_in. destruct (mfor _ cs _) as [tb [[]|e]] eqn:Et; [|done].
    assert (En : tb_name tb = t) by (by apply mfor_add_column_names in Et as (_ & -> & _)).
    unfold add_relation. destruct (has_relation _ _); [done|]. intros [= <-]. cbn. rewrite En.
    rewrite lookup_insert_ne; [done|]. intros ->. apply Hb. cbn. by rewrite E.
  - unfold mthen, remove_column, mok. destruct (find_column m (tb_columns tb)) as [c|] eqn:Ec; [|done]. intros [= <-]. cbn. intros Hx.
    apply elem_of_list_fmap in Hx as (y & -> & Hy). apply elem_of_list_fmap. exists y. split; [done|].
    rewrite <- (delete_column_perm m (tb_columns tb) c Ec). by right.
  - unfold mthen, remove_function, mok. destruct (sc_functions sc !! f); [|done]. by intros [= <-].
  - unfold mthen, remove_schema, mok in Ha. destruct (db_schemas d !! m) eqn:Em; [|done]. injection Ha as <-. unfold relation_at. cbn.
    destruct (decide (n = m)) as [->|Hn]; [by rewrite lookup_delete|by rewrite lookup_delete_ne by done].
  - unfold mthen, remove_relation, mok. destruct (sc_relations sc !! t); [|done]. intros [= <-]. cbn. apply delete_cols.
Qed.
Lemma columns_missing cs d d' n b x : apply_all cs d = (d', Ok ()) -> Forall (fun e => ~ brings_columns n b e) cs ->
  column_at d n b x = None -> column_at d' n b x = None.
Proof.
  intros Ha Hc. revert d Ha. induction Hc as [|c cs Hc _ IH]; intros d Ha Hx; [by injection Ha as <-|].
  cbn [apply_all mfor] in Ha. unfold mthen in Ha. destruct (apply c d) as [d1 [[]|e]] eqn:E; [|done].
  apply (IH d1 Ha). apply eq_None_not_Some. intros K. apply (no_columns_brought c d d1 n b x E Hc) in K. rewrite Hx in K. by destruct K.
Qed.
Lemma index_without_column os ot s t d' n k i b x :
  wf_db s -> wf_db t -> relation_at s n k = None -> relation_at t n k = Some (RIndex i) ->
  table_at s n b -> table_at t n b -> column_at s n b x = None -> is_Some (column_at t n b x) ->
  apply_all (compare_diff os ot s t) s = (d', Ok ()) ->
  exists pre post d, compare_diff os ot s t = pre ++ CreateIndex n (ix_table i) k (ix_unique i) (ix_method i) (ix_keys i) :: post /\ Exists (adds_column n b x) post /\
    apply_all pre s = (d, Ok ()) /\ column_at d n b x = None.
Proof.
  intros Hs Ht Hk Hi Ta Tb Hx Hcx Ha. destruct (index_before_column os ot s t n k i b x) as (pre & post & E & H2 & H3); try done.
  rewrite E, apply_all_app in Ha. unfold mthen in Ha. destruct (apply_all pre s) as [d [[]|e]] eqn:Ep; [|done].
  exists pre, post, d. split; [done|]. split; [done|]. split; [done|]. by apply (columns_missing pre s).
Qed.
