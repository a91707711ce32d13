(** Lemmas: if a diff applies for every iteration order then its indexes are safe. *)
From Verif Require Import Base Types Changes SpecSnapshot SpecChange SpecDiff Diff
  StepLemmas ColumnLemmas DiffSound ApplyLemmas InvertLemmas DiffSame DiffLocal DiffRun.

(** ** An order that visits one relation of one schema first *)
Definition bring {V : Type} (k : str) (l : list (str * V)) : list (str * V) :=
  filter (fun p => p.1 = k) l ++ filter (fun p => p.1 <> k) l.

Lemma bring_perm {V : Type} k (l : list (str * V)) : bring k l ≡ₚ l.
Proof.
  unfold bring. induction l as [|[a v] l IH]; [done|]. rewrite !filter_cons; simpl.
  destruct (decide (a = k)) as [->|Hne].
  - rewrite decide_False by (intros H; by apply H). simpl. by rewrite IH.
  - rewrite decide_True by done. rewrite <- Permutation_middle. by rewrite IH.
Qed.

Lemma bring_first {V : Type} (k : str) (m : gmap str V) (l : list (str * V)) v :
  l ≡ₚ map_to_list m -> m !! k = Some v ->
  exists l', bring k l = (k, v) :: l' /\ (forall p, p ∈ l' -> p.1 <> k).
Proof.
  intros Hl Hk. exists (filter (fun p => p.1 <> k) l). split.
  2:{ intros p Hp. by apply elem_of_list_filter in Hp as [? _]. }
  unfold bring. assert (filter (fun p => p.1 = k) l = [(k, v)]) as ->; [|done].
  apply Permutation_length_1_inv. symmetry.
  rewrite Hl. apply NoDup_Permutation.
  - apply NoDup_filter, NoDup_map_to_list.
  - apply NoDup_singleton.
  - intros [a x]. rewrite elem_of_list_filter, elem_of_map_to_list, elem_of_list_singleton. simpl.
    split; [intros [-> ?]; congruence|intros [= -> ->]; done].
Qed.

Program Definition order_first (n k : str) : iter_order :=
  IterOrder map_to_list
    (fun p m => if decide (p = n) then bring k (map_to_list m) else map_to_list m)
    (fun _ => map_to_list) (fun _ _ => map_to_list) _ _ _ _.
Next Obligation. done. Qed.
Next Obligation. intros n k p m. simpl. destruct (decide (p = n)); [apply bring_perm|done]. Qed.
Next Obligation. done. Qed.
Next Obligation. done. Qed.

(** ** Tables appear only through "create table" *)
Lemma table_appears c d d' n T :
  apply c d = (d', Ok ()) -> table_at d' n T -> ~ table_at d n T ->
  exists cols, c = CreateTable n T cols.
Proof.
  intros Ha Ht Hn. pose proof (apply_frame _ _ _ _ Ha) as Hf.
  destruct (target_of c) as [m|m k|m f|m k cs|m k cn] eqn:Eg.
  - (* schemas *)
    destruct c; simpl in Eg; try done; injection Eg as <-.
    + simpl in Ha. unfold add_schema, has_schema in Ha. simpl in Ha.
      destruct (db_schemas d !! schema_name) eqn:E; [done|]. injection Ha as <-.
      destruct Ht as [t Ht]. unfold relation_at in Ht; simpl in Ht.
      destruct (decide (n = schema_name)) as [->|Hne].
      * rewrite lookup_insert in Ht. simpl in Ht. by rewrite lookup_empty in Ht.
      * rewrite lookup_insert_ne in Ht by done. destruct Hn. by exists t.
    + simpl in Ha. unfold mthen, remove_schema in Ha.
      destruct (db_schemas d !! schema_name) eqn:E; [|done]. injection Ha as <-.
      destruct Ht as [t Ht]. unfold relation_at in Ht; simpl in Ht.
      destruct (decide (n = schema_name)) as [->|Hne].
      * by rewrite lookup_delete in Ht.
      * rewrite lookup_delete_ne in Ht by done. destruct Hn. by exists t.
  - destruct (decide ((n, T) = (m, k))) as [[= -> ->]|Hne].
    2:{ destruct Hn. unfold table_at. by rewrite <- (same_but_relation_ne _ _ _ _ _ _ Hf Hne). }
    destruct (apply_relation_effect _ _ _ _ _ Ha Eg) as [(_ & _)|(Hx & _)].
    2:{ destruct Ht as [t Ht]. congruence. }
    destruct c; simpl in Eg; try done; injection Eg as <- <-; simpl in Ha.
    all: apply with_schema_mut_ok in Ha as (sc & sc' & Hsc & Hr & ->).
    all: unfold table_at in Ht; rewrite relation_at_put_eq in Ht; destruct Ht as [t Ht].
    + apply create_index_inv in Hr as (tb & _ & _ & ->). simpl in Ht. by rewrite lookup_insert in Ht.
    + apply add_relation_inv in Hr as [_ ->]. simpl in Ht. by rewrite lookup_insert in Ht.
    + eauto.
    + apply add_relation_inv in Hr as [_ ->]. simpl in Ht. by rewrite lookup_insert in Ht.
    + apply drop_relation_inv in Hr as (r & a & _ & _ & ->). simpl in Ht. by rewrite lookup_delete in Ht.
    + apply drop_relation_inv in Hr as (r & a & _ & _ & ->). simpl in Ht. by rewrite lookup_delete in Ht.
    + apply remove_relation_inv in Hr as (r & _ & ->). simpl in Ht. by rewrite lookup_delete in Ht.
    + apply drop_relation_inv in Hr as (r & a & _ & _ & ->). simpl in Ht. by rewrite lookup_delete in Ht.
  - destruct (same_but_kinds _ _ _ n T Hf I) as [H|[H _]]; [|done].
    destruct Hn. unfold table_at. by rewrite <- H.
  - destruct (same_but_kinds _ _ _ n T Hf I) as [H|[H _]]; [|done].
    destruct Hn. unfold table_at. by rewrite <- H.
  - destruct (same_but_kinds _ _ _ n T Hf I) as [H|[H _]]; [|done].
    destruct Hn. unfold table_at. by rewrite <- H.
Qed.

Lemma no_table_run cs d d' n T :
  apply_all cs d = (d', Ok ()) -> (forall cols, CreateTable n T cols ∉ cs) ->
  ~ table_at d n T -> ~ table_at d' n T.
Proof.
  intros H%apply_all_steps. induction H as [d|c cs d d1 d2 Ha _ _ IH]; [done|].
  intros Hno Hn. apply IH.
  - intros cols Hin. apply (Hno cols). by right.
  - intros Ht. destruct (table_appears _ _ _ _ _ Ha Ht Hn) as [cols ->].
    apply (Hno cols). left.
Qed.

Lemma apply_all_split cs1 c cs2 d d' :
  apply_all (cs1 ++ c :: cs2) d = (d', Ok ()) ->
  exists d1 d2, apply_all cs1 d = (d1, Ok ()) /\ apply c d1 = (d2, Ok ()) /\
    apply_all cs2 d2 = (d', Ok ()).
Proof.
  rewrite apply_all_app. destruct (apply_all cs1 d) as [d1 [[]|e]]; [|done].
  unfold apply_all at 1; simpl. unfold mthen.
  destruct (apply c d1) as [d2 [[]|e]] eqn:E; [|done]. eauto.
Qed.

Lemma create_index_needs n T k u m ks d d' :
  apply (CreateIndex n T k u m ks) d = (d', Ok ()) -> table_at d n T.
Proof.
  simpl. intros H. apply with_schema_mut_ok in H as (sc & sc' & Hsc & Hr & ->).
  apply create_index_inv in Hr as (tb & Htb & _ & _).
  exists tb. by rewrite (relation_at_lookup _ _ _ _ Hsc).
Qed.

Lemma index_too_early pre n T k u m ks post d d' :
  apply_all (pre ++ CreateIndex n T k u m ks :: post) d = (d', Ok ()) ->
  (forall cols, CreateTable n T cols ∉ pre) -> ~ table_at d n T -> False.
Proof.
  intros H Hno Hn. apply apply_all_split in H as (d1 & d2 & H1 & H2 & _).
  apply create_index_needs in H2. by eapply no_table_run in H1.
Qed.

(** ** Names in the pieces of a diff *)
Definition only_schema (n : str) (c : change) : Prop := target_schema (target_of c) = n.
Definition only_relation (n k : str) (c : change) : Prop :=
  match target_of c with
  | TRelation n' k' | TColumns n' k' _ | TConstraint n' k' _ => n' = n /\ k' = k
  | _ => False
  end.
Lemma only_relation_schema n k c : only_relation n k c -> only_schema n c.
Proof. unfold only_relation, only_schema. destruct (target_of c); naive_solver. Qed.

Lemma column_update_names n k a b :
  wf_column n k a -> wf_column n k b -> Forall (only_relation n k) (diff_column_update a b).
Proof.
  intros [] []. unfold diff_column_update. repeat apply Forall_app_2;
    (destruct (neqb _ _); [apply Forall_singleton; by split|constructor]).
Qed.

Lemma constraint_create_names n k i c :
  wf_constraint n k i c -> Forall (only_relation n k) (diff_constraint_create c).
Proof. intros (?&?&?). destruct c; apply Forall_singleton; by split. Qed.
Lemma constraint_drop_names n k i c :
  wf_constraint n k i c -> Forall (only_relation n k) (diff_constraint_drop c).
Proof. intros (?&?&?). destruct c; apply Forall_singleton; by split. Qed.

Lemma Forall_pair {A : Type} (P : A -> Prop) x y : P x -> P y -> Forall P [x; y].
Proof. intros. by repeat constructor. Qed.

Lemma constraint_update_names n k i j a b :
  wf_constraint n k i a -> wf_constraint n k j b ->
  Forall (only_relation n k) (diff_constraint_update a b).
Proof.
  intros Ha Hb.
  pose proof (constraint_drop_names _ _ _ _ Ha) as Hd.
  pose proof (constraint_create_names _ _ _ _ Hb) as Hc.
  destruct Ha as (?&?&?), Hb as (?&?&?).
  destruct a, b; simpl in *; try exact (Forall_app_2 _ _ _ Hd Hc).
  - unfold diff_primary_key_update. destruct (neqb _ _); [apply Forall_pair; by split|].
    destruct (_ || _); [apply Forall_singleton; by split|constructor].
  - unfold diff_foreign_key_update. destruct (_ || _); [apply Forall_pair; by split|].
    destruct (neqb (fk_deferrable _) _ || _); [apply Forall_singleton; by split|constructor].
  - unfold diff_unique_update. destruct (neqb _ _); [apply Forall_pair; by split|].
    destruct (_ || _); [apply Forall_singleton; by split|constructor].
  - unfold diff_check_update. destruct (neqb _ _); [apply Forall_pair; by split|].
    destruct (_ || _); [apply Forall_singleton; by split|constructor].
Qed.

Lemma table_update_names os ot n k s t :
  wf_table n k s -> wf_table n k t -> Forall (only_relation n k) (diff_table_update os ot s t).
Proof.
  intros (_&_&Hs3&Hs4&Hs5) (_&_&Ht3&Ht4&Ht5). rewrite Forall_forall in Hs4, Ht4.
  unfold diff_table_update, iter_constraints. repeat apply Forall_app_2; apply Forall_bind; intros c Hc.
  - unfold diff_table_column. destruct (find_column _ _) as [c'|] eqn:E.
    + apply find_column_Some in E as [E _]. apply column_update_names; auto.
    + apply Forall_singleton. by apply Ht4 in Hc as [].
  - unfold diff_table_column_drop. destruct (has_column _ _); [constructor|].
    apply Forall_singleton. by apply Hs4 in Hc as [].
  - apply (iter_elem _ _ _ (io_constraints_perm _ _ _ _) (wf_constraints_named _ _ _ Ht5)) in Hc.
    unfold diff_table_constraint. destruct (tb_constraints s !! _) as [c'|] eqn:E.
    + eapply constraint_update_names; [by apply Hs5|by apply Ht5].
    + eapply constraint_create_names. by apply Ht5.
  - apply (iter_elem _ _ _ (io_constraints_perm _ _ _ _) (wf_constraints_named _ _ _ Hs5)) in Hc.
    unfold diff_table_constraint_drop. destruct (has_constraint _ _); [constructor|].
    eapply constraint_drop_names. by apply Hs5.
Qed.

Lemma relation_create_names ot n k r :
  wf_relation n k r -> Forall (only_relation n k) (diff_relation_create ot r).
Proof.
  intros Hw. destruct r as [t|v|i|q]; simpl in *; try (destruct Hw; apply Forall_singleton; by split).
  destruct Hw as (?&?&_&_&H5). constructor; [by split|]. unfold iter_constraints.
  apply Forall_bind. intros c Hc.
  apply (iter_elem _ _ _ (io_constraints_perm _ _ _ _) (wf_constraints_named _ _ _ H5)) in Hc.
  eapply constraint_create_names. by apply H5.
Qed.
Lemma relation_drop_names n k r :
  wf_relation n k r -> Forall (only_relation n k) (diff_relation_drop r).
Proof.
  intros Hw. destruct r as [t|v|i|q]; simpl in *; try (destruct Hw; apply Forall_singleton; by split).
  destruct Hw as (?&?&_). apply Forall_singleton; by split.
Qed.
Lemma relation_update_names os ot n k a b :
  wf_relation n k a -> wf_relation n k b ->
  Forall (only_relation n k) (diff_relation_update os ot a b).
Proof.
  intros Ha Hb.
  pose proof (relation_drop_names _ _ _ Ha) as Hd.
  pose proof (relation_create_names ot _ _ _ Hb) as Hc.
  destruct a, b; try exact (Forall_app_2 _ _ _ Hd Hc); simpl in *.
  - by apply table_update_names.
  - unfold diff_view_update. destruct Ha, Hb. destruct (neqb _ _); [apply Forall_pair; by split|constructor].
  - unfold diff_index_update. destruct Ha, Hb. destruct (neqb _ _); [apply Forall_pair; by split|constructor].
  - unfold diff_sequence_update. destruct Ha, Hb. destruct (_ || _); [apply Forall_pair; by split|constructor].
Qed.

Lemma function_update_names n f g a b :
  wf_function n f a -> wf_function n g b -> Forall (only_schema n) (diff_function_update a b).
Proof.
  intros [] []. unfold diff_function_update. destruct (_ || _); [apply Forall_pair; done|constructor].
Qed.

Lemma schema_create_names ot n t : wf_schema n t -> Forall (only_schema n) (diff_schema_create ot t).
Proof.
  intros (H1&H2&H3). unfold diff_schema_create, iter_relations, iter_functions.
  constructor; [done|]. apply Forall_app_2; apply Forall_bind; intros r Hr.
  - apply (iter_elem _ _ _ (io_relations_perm _ _ _) (wf_relations_named _ _ H2)) in Hr.
    eapply Forall_impl; [by apply (relation_create_names ot n (relation_name r)), H2|].
    apply only_relation_schema.
  - apply (iter_elem _ _ _ (io_functions_perm _ _ _) (wf_functions_named _ _ H3)) in Hr.
    apply Forall_singleton. by destruct (H3 _ _ Hr).
Qed.

Lemma schema_drop_names os n t : wf_schema n t -> Forall (only_schema n) (diff_schema_drop os t).
Proof.
  intros (H1&H2&H3). unfold diff_schema_drop, iter_relations, iter_functions.
  apply Forall_app_2; [|apply Forall_app_2].
  - apply Forall_bind; intros r Hr.
    apply (iter_elem _ _ _ (io_relations_perm _ _ _) (wf_relations_named _ _ H2)) in Hr.
    eapply Forall_impl; [by apply (relation_drop_names n (relation_name r)), H2|].
    apply only_relation_schema.
  - apply Forall_bind; intros r Hr.
    apply (iter_elem _ _ _ (io_functions_perm _ _ _) (wf_functions_named _ _ H3)) in Hr.
    apply Forall_singleton. by destruct (H3 _ _ Hr).
  - by apply Forall_singleton.
Qed.

Lemma relation_new_names ot n s t :
  wf_schema n t ->
  Forall (fun c => exists k, sc_relations s !! k = None /\ only_relation n k c)
    (iter_relations ot t ≫= diff_schema_relation_new ot s).
Proof.
  intros (H1&H2&H3). unfold iter_relations. apply Forall_bind; intros r Hr.
  apply (iter_elem _ _ _ (io_relations_perm _ _ _) (wf_relations_named _ _ H2)) in Hr.
  unfold diff_schema_relation_new, has_relation.
  destruct (sc_relations s !! relation_name r) eqn:E; [constructor|].
  eapply Forall_impl; [by apply (relation_create_names ot n (relation_name r)), H2|].
  intros c Hc. eauto.
Qed.

Lemma relation_old_names os ot n s t r :
  wf_schema n s -> wf_schema n t -> sc_relations s !! relation_name r = Some r ->
  Forall (only_relation n (relation_name r)) (diff_schema_relation_old os ot t r).
Proof.
  intros (_&Hs&_) (_&Ht&_) Hr. unfold diff_schema_relation_old.
  destruct (sc_relations t !! relation_name r) as [r'|] eqn:E.
  - apply relation_update_names; [by apply Hs|by apply Ht].
  - by apply relation_drop_names, Hs.
Qed.

Lemma schema_update_names os ot n s t :
  wf_schema n s -> wf_schema n t -> Forall (only_schema n) (diff_schema_update os ot s t).
Proof.
  intros Hs Ht. unfold diff_schema_update. apply Forall_app_2; [|apply Forall_app_2; [|apply Forall_app_2]].
  - eapply Forall_impl; [by apply relation_new_names|]. intros c (k & _ & Hc).
    by eapply only_relation_schema.
  - unfold iter_relations. apply Forall_bind. intros r Hr.
    apply (iter_elem _ _ _ (io_relations_perm _ _ _) (wf_relations_named n _ (proj1 (proj2 Hs)))) in Hr.
    eapply Forall_impl; [exact (relation_old_names os ot n s t r Hs Ht Hr)|]. apply only_relation_schema.
  - unfold iter_functions. apply Forall_bind. intros r Hr.
    destruct Ht as (_&_&H3).
    apply (iter_elem _ _ _ (io_functions_perm _ _ _) (wf_functions_named _ _ H3)) in Hr.
    unfold diff_schema_function_new. destruct (has_function _ _); [constructor|].
    apply Forall_singleton. by destruct (H3 _ _ Hr).
  - unfold iter_functions. apply Forall_bind. intros r Hr.
    destruct Hs as (_&_&H3), Ht as (_&_&H4).
    apply (iter_elem _ _ _ (io_functions_perm _ _ _) (wf_functions_named _ _ H3)) in Hr.
    unfold diff_schema_function_old. destruct (sc_functions t !! _) eqn:E.
    + eapply function_update_names; [by apply H3|by apply H4].
    + apply Forall_singleton. by destruct (H3 _ _ Hr).
Qed.

(** ** The changes of one schema inside a diff *)
Lemma bind_split {A B : Type} (f : A -> list B) l1 x l2 :
  (l1 ++ x :: l2) ≫= f = (l1 ≫= f) ++ f x ++ (l2 ≫= f).
Proof. by rewrite bind_app. Qed.

Section schemas.
  Context (s t : database) (Hs : wf_db s) (Ht : wf_db t).

  Lemma new_schema_names ot sc :
    db_schemas t !! sc_name sc = Some sc -> Forall (only_schema (sc_name sc)) (diff_database_new ot s sc).
  Proof.
    intros H. unfold diff_database_new. destruct (has_schema _ _); [constructor|].
    by apply schema_create_names, Ht.
  Qed.
  Lemma old_schema_names os ot sc :
    db_schemas s !! sc_name sc = Some sc -> Forall (only_schema (sc_name sc)) (diff_database_old os ot t sc).
  Proof.
    intros H. unfold diff_database_old. destruct (db_schemas t !! sc_name sc) eqn:E.
    - by apply schema_update_names; [apply Hs|apply Ht].
    - by apply schema_drop_names, Hs.
  Qed.

  Lemma other_schemas_new ot n l :
    l ⊆ iter_schemas ot t -> (forall sc, sc ∈ l -> sc_name sc <> n) ->
    Forall (fun c => ~ only_schema n c) (l ≫= diff_database_new ot s).
  Proof.
    intros Hl Hn. apply Forall_bind. intros sc Hsc. unfold iter_schemas in Hl.
    pose proof (Hl _ Hsc) as Hin.
    apply (iter_elem _ _ _ (io_schemas_perm _ _) (wf_schemas_named _ Ht)) in Hin.
    eapply Forall_impl; [by apply new_schema_names|]. unfold only_schema. intros c Hc Heq. rewrite Hc in Heq.
    by eapply Hn.
  Qed.
  Lemma other_schemas_old os ot n l :
    l ⊆ iter_schemas os s -> (forall sc, sc ∈ l -> sc_name sc <> n) ->
    Forall (fun c => ~ only_schema n c) (l ≫= diff_database_old os ot t).
  Proof.
    intros Hl Hn. apply Forall_bind. intros sc Hsc. unfold iter_schemas in Hl.
    pose proof (Hl _ Hsc) as Hin.
    apply (iter_elem _ _ _ (io_schemas_perm _ _) (wf_schemas_named _ Hs)) in Hin.
    eapply Forall_impl; [by apply old_schema_names|]. unfold only_schema. intros c Hc Heq. rewrite Hc in Heq.
    by eapply Hn.
  Qed.

  Lemma iter_schemas_split o (d : database) n sc :
    wf_db d -> db_schemas d !! n = Some sc ->
    exists l1 l2, iter_schemas o d = l1 ++ sc :: l2 /\
      (forall x, x ∈ l1 -> sc_name x <> n) /\ l1 ⊆ iter_schemas o d.
  Proof.
    intros Hd Hn. pose proof (wf_schemas_named _ Hd) as Hnm.
    pose proof (Hnm _ _ Hn) as Hname. simpl in Hname. subst n.
    assert (sc ∈ iter_schemas o d) as Hin.
    { unfold iter_schemas. by apply (iter_elem _ _ _ (io_schemas_perm _ _) Hnm). }
    apply elem_of_list_split in Hin as (l1 & l2 & Heq). exists l1, l2. split; [done|]. split.
    - intros x Hx Heqn.
      assert (NoDup (sc_name <$> iter_schemas o d)) as Hnd.
      { unfold iter_schemas. eapply iter_nodup; [apply io_schemas_perm|done]. }
      rewrite Heq, fmap_app in Hnd. apply NoDup_app in Hnd as (_ & Hnd & _).
      apply (Hnd (sc_name x)); [by apply elem_of_list_fmap_1|].
      rewrite Heqn. csimpl. left.
    - rewrite Heq. intros x Hx. apply elem_of_app. by left.
  Qed.

  (** The part of the diff before the changes of a schema that both sides have. *)
  Lemma diff_at_schema os ot n scs sct :
    db_schemas s !! n = Some scs -> db_schemas t !! n = Some sct ->
    exists pre post, compare_diff os ot s t = pre ++ diff_schema_update os ot scs sct ++ post /\
      Forall (fun c => ~ only_schema n c) pre.
  Proof.
    intros Hns Hnt.
    destruct (iter_schemas_split os s n scs Hs Hns) as (l1 & l2 & Heq & Hl1 & Hsub).
    unfold compare_diff, diff_database_update. rewrite Heq, bind_split.
    exists ((iter_schemas ot t ≫= diff_database_new ot s) ++ (l1 ≫= diff_database_old os ot t)),
      (l2 ≫= diff_database_old os ot t).
    split.
    - rewrite <- !app_assoc. do 3 f_equal. unfold diff_database_old.
      by rewrite (wf_schemas_named _ Hs _ _ Hns), Hnt.
    - apply Forall_app_2; [|by apply other_schemas_old].
      apply Forall_bind. intros sc Hsc.
      unfold iter_schemas in Hsc.
      apply (iter_elem _ _ _ (io_schemas_perm _ _) (wf_schemas_named _ Ht)) in Hsc.
      destruct (decide (sc_name sc = n)) as [<-|Hne].
      + unfold diff_database_new, has_schema. rewrite Hns. constructor.
      + eapply Forall_impl; [by apply new_schema_names|]. unfold only_schema. intros c Hc Hce. by rewrite Hc in Hce.
  Qed.

  Lemma diff_at_new_schema os ot n sct :
    db_schemas s !! n = None -> db_schemas t !! n = Some sct ->
    exists pre post, compare_diff os ot s t = pre ++ diff_schema_create ot sct ++ post /\
      Forall (fun c => ~ only_schema n c) pre.
  Proof.
    intros Hns Hnt.
    destruct (iter_schemas_split ot t n sct Ht Hnt) as (l1 & l2 & Heq & Hl1 & Hsub).
    unfold compare_diff, diff_database_update. rewrite Heq, bind_split.
    exists (l1 ≫= diff_database_new ot s),
      ((l2 ≫= diff_database_new ot s) ++ (iter_schemas os s ≫= diff_database_old os ot t)).
    split; [|by apply other_schemas_new].
    rewrite <- !app_assoc. do 2 f_equal. unfold diff_database_new, has_schema.
    by rewrite (wf_schemas_named _ Ht _ _ Hnt), Hns.
  Qed.

  Lemma not_only_schema_create n T pre :
    Forall (fun c => ~ only_schema n c) pre -> forall cols, CreateTable n T cols ∉ pre.
  Proof. intros H cols Hin. rewrite Forall_forall in H. by apply (H _ Hin). Qed.

  Lemma first_relation n k sc r :
    wf_schema n sc -> sc_relations sc !! k = Some r ->
    exists l', iter_relations (order_first n k) sc = r :: l' /\
      forall x, x ∈ l' -> relation_name x <> k.
  Proof.
    intros (Hn & Hr & _) Hk. unfold iter_relations; simpl. rewrite decide_True by done.
    destruct (bring_first k (sc_relations sc) (map_to_list (sc_relations sc)) r) as (l' & Hl & Hne);
      [done|done|].
    rewrite Hl. exists l'.*2. split; [done|]. intros x Hx.
    apply elem_of_list_fmap in Hx as ([a y] & -> & Hp). simpl.
    pose proof (Hne _ Hp) as Ha. simpl in Ha.
    assert ((a, y) ∈ map_to_list (sc_relations sc)) as Hin.
    { rewrite <- (bring_perm k), Hl. by right. }
    apply elem_of_map_to_list in Hin.
    by rewrite (wf_relations_named _ _ Hr _ _ Hin).
  Qed.
End schemas.

Lemma diff_applies_safe s t :
  wf_db s -> wf_db t ->
  (forall os ot, exists d', apply_all (compare_diff os ot s t) s = (d', Ok ())) ->
  indexes_safe s t.
Proof.
  intros Hs Ht Hall n sct k i Hsct Hk.
  pose proof (Ht _ _ Hsct) as Hwt.
  pose proof Hwt as (_ & Hrt & _). destruct (Hrt _ _ Hk) as [Hi1 Hi2]. simpl in Hi1, Hi2.
  set (T := ix_table i).
  assert (relation_at t n k = Some (RIndex i)) as Hkt.
  { unfold relation_at. by rewrite Hsct. }
  destruct (db_schemas s !! n) as [scs|] eqn:Hscs.
  2:{ (* the schema is new *)
    exfalso. destruct (Hall (order_first n k) (order_first n k)) as [d' Hd'].
    destruct (diff_at_new_schema s t Ht (order_first n k) (order_first n k) n sct Hscs Hsct)
      as (pre & post & Heq & Hpre).
    rewrite Heq in Hd'. unfold diff_schema_create in Hd'.
    destruct (first_relation n k sct _ Hwt Hk) as (l' & Hl & _). rewrite Hl in Hd'. csimpl in Hd'.
    replace (pre ++ _) with
      ((pre ++ [new_create_schema sct]) ++ new_create_index i ::
        ((l' ≫= diff_relation_create (order_first n k)) ++
         (iter_functions (order_first n k) sct ≫= diff_function_create)) ++ post) in Hd'
      by (by rewrite <- !app_assoc; simpl; rewrite <- ?app_assoc).
    unfold new_create_index in Hd'. rewrite Hi1, Hi2 in Hd'.
    eapply index_too_early; [exact Hd'| |].
    - intros cols Hin. apply elem_of_app in Hin as [Hin|Hin].
      + by eapply not_only_schema_create.
      + apply elem_of_list_singleton in Hin. done.
    - intros [x Hx]. unfold relation_at in Hx. by rewrite Hscs in Hx. }
  unfold source_relations. rewrite Hscs.
  pose proof (Hs _ _ Hscs) as Hws. pose proof Hws as (_ & Hrs & _).
  assert (forall x, relation_at s n x = sc_relations scs !! x) as Hsr.
  { intros x. unfold relation_at. by rewrite Hscs. }
  assert (forall x, relation_at t n x = sc_relations sct !! x) as Htr.
  { intros x. unfold relation_at. by rewrite Hsct. }
  unfold index_safe. destruct (sc_relations scs !! k) as [r|] eqn:Ek.
  2:{ (* a brand-new index *)
    destruct (is_table_dec (sc_relations scs !! T)) as [?|Hno]; [done|exfalso].
    destruct (Hall (order_first n k) (order_first n k)) as [d' Hd'].
    destruct (diff_at_schema s t Hs Ht (order_first n k) (order_first n k) n scs sct Hscs Hsct)
      as (pre & post & Heq & Hpre).
    rewrite Heq in Hd'. unfold diff_schema_update in Hd'.
    destruct (first_relation n k sct _ Hwt Hk) as (l' & Hl & _). rewrite Hl in Hd'. csimpl in Hd'.
    unfold diff_schema_relation_new at 1, has_relation in Hd'. simpl in Hd'.
    rewrite Hi2, Ek in Hd'. simpl in Hd'.
    unfold new_create_index in Hd'. rewrite Hi1, Hi2 in Hd'.
    eapply index_too_early; [exact Hd'| |].
    - by apply not_only_schema_create.
    - unfold table_at. by rewrite Hsr. }
  assert (((exists j, r = RIndex j /\ ix_keys j = ix_keys i) \/
           index_recreate_safe (sc_relations scs) (sc_relations sct) i) ->
          match r with
          | RIndex j => ix_keys j = ix_keys i \/
              index_recreate_safe (sc_relations scs) (sc_relations sct) i
          | _ => index_recreate_safe (sc_relations scs) (sc_relations sct) i
          end) as Hgoal.
  { intros [(j & -> & ?)|?]; [by left|]. destruct r; auto. }
  apply Hgoal. clear Hgoal.
  assert ((exists j, r = RIndex j /\ ix_keys j = ix_keys i) \/
          ~ (exists j, r = RIndex j /\ ix_keys j = ix_keys i)) as [?|Hnk].
  { destruct r as [x|x|x|x]; try (right; by intros (?&?&?)).
    destruct (decide (ix_keys x = ix_keys i)); [left; eauto|right; naive_solver]. }
  { by left. }
  right.
  (* the index is re-created: its creation is among the changes of relation [k] *)
  assert (forall os ot, exists p q, diff_schema_relation_old os ot sct r =
            p ++ new_create_index i :: q /\ (forall cols, CreateTable n T cols ∉ p)) as Hbody.
  { intros os ot. unfold diff_schema_relation_old.
    rewrite (wf_relation_name _ _ _ (Hrs _ _ Ek)), Hk.
    assert (forall cols, CreateTable n T cols ∉ diff_relation_drop r) as Hdr.
    { intros cols Hin. destruct r; apply elem_of_list_singleton in Hin; done. }
    destruct r as [x|x|x|x]; simpl.
    - by exists (diff_table_drop x), [].
    - by exists (diff_view_drop x), [].
    - unfold diff_index_update. assert (neqb (ix_keys x) (ix_keys i) = true) as ->.
      { apply neqb_true. intros ?. apply Hnk. eauto. }
      by exists (diff_index_drop x), [].
    - by exists (diff_sequence_drop x), []. }
  assert (forall os ot l1 l2 d', iter_relations os scs = l1 ++ r :: l2 ->
            apply_all (compare_diff os ot s t) s = (d', Ok ()) ->
            exists pre post, compare_diff os ot s t = pre ++ CreateIndex n T k (ix_unique i) (ix_method i) (ix_keys i) :: post /\
              exists p1 p2 p, pre = p1 ++ (iter_relations ot sct ≫= diff_schema_relation_new ot scs) ++
                  (l1 ≫= diff_schema_relation_old os ot sct) ++ p /\ p2 = p /\
                Forall (fun c => ~ only_schema n c) p1 /\
                (forall cols, CreateTable n T cols ∉ p)) as Hshape.
  { intros os ot l1 l2 d' Hl Hd'.
    destruct (diff_at_schema s t Hs Ht os ot n scs sct Hscs Hsct) as (p1 & post & Heq & Hpre).
    destruct (Hbody os ot) as (p & q & Hpq & Hp).
    rewrite Heq. unfold diff_schema_update. rewrite Hl, bind_split, Hpq.
    exists (p1 ++ (iter_relations ot sct ≫= diff_schema_relation_new ot scs) ++
                  (l1 ≫= diff_schema_relation_old os ot sct) ++ p).
    eexists. split.
    - unfold new_create_index. rewrite Hi1, Hi2. fold T. rewrite <- !app_assoc. simpl.
      rewrite <- ?app_assoc. simpl. reflexivity.
    - exists p1, p, p. done. }
  (* tables of that name are never created by the first loop if the source has the name *)
  assert (forall ot, is_Some (sc_relations scs !! T) ->
            forall cols, CreateTable n T cols ∉ (iter_relations ot sct ≫= diff_schema_relation_new ot scs)) as Hl1T.
  { intros ot [x Hx] cols Hin. pose proof (relation_new_names ot n scs sct Hwt) as H.
    rewrite Forall_forall in H. destruct (H _ Hin) as (k' & Hk' & _ & Heqk). congruence. }
  assert (forall os ot cols, ~ table_at t n T -> CreateTable n T cols ∉ compare_diff os ot s t) as Hnever.
  { intros os ot cols Hnt Hin. pose proof (diff_justified s t os ot Hs Ht) as HJ.
    rewrite Forall_forall in HJ. by destruct (HJ _ Hin). }
  destruct (is_table_dec (sc_relations sct !! T)) as [HtT|HtT].
  - split; [done|].
    destruct (sc_relations scs !! T) as [x|] eqn:ET; [|by left].
    destruct (is_table_dec (Some x)) as [?|HsT]; [right; fold T; by rewrite ET|exfalso].
    destruct (first_relation n k scs _ Hws Ek) as (l' & Hl & _).
    destruct (Hall (order_first n k) (order_first n k)) as [d' Hd'].
    destruct (Hshape (order_first n k) (order_first n k) [] l' d' Hl Hd')
      as (pre & post & Heq & p1 & _ & p & -> & _ & Hp1 & Hp).
    rewrite Heq in Hd'. eapply index_too_early; [exact Hd'| |].
    + intros cols Hin. apply elem_of_app in Hin as [Hin|Hin]; [by eapply not_only_schema_create|].
      apply elem_of_app in Hin as [Hin|Hin]; [by eapply Hl1T; [by eexists|]|]. by apply (Hp cols).
    + unfold table_at. by rewrite Hsr, ET.
  - exfalso. assert (~ table_at t n T) as Hnt by (unfold table_at; by rewrite Htr).
    destruct (is_table_dec (sc_relations scs !! T)) as [[tb HsT]|HsT].
    + (* the table is dropped first *)
      destruct (decide (T = k)) as [HTk|HTk].
      * (* the index replaces its own table *)
        assert (r = RTable tb) as -> by congruence.
        destruct (first_relation n k scs _ Hws Ek) as (l' & Hl & _).
        destruct (Hall (order_first n k) (order_first n k)) as [d' Hd'].
        destruct (diff_at_schema s t Hs Ht (order_first n k) (order_first n k) n scs sct Hscs Hsct)
          as (p1 & post & Heq & Hpre).
        rewrite Heq in Hd'. unfold diff_schema_update in Hd'. rewrite Hl in Hd'. csimpl in Hd'.
        unfold diff_schema_relation_old at 1 in Hd'.
        rewrite (wf_relation_name _ _ _ (Hrs _ _ Ek)), Hk in Hd'. simpl in Hd'.
        destruct (Hrs _ _ Ek) as (Htb1 & Htb2 & _).
        rewrite <- app_assoc in Hd'.
        replace (p1 ++ _) with
          ((p1 ++ (iter_relations (order_first n k) sct ≫= diff_schema_relation_new (order_first n k) scs)) ++
            new_drop_table tb :: new_create_index i ::
            ((l' ≫= diff_schema_relation_old (order_first n k) (order_first n k) sct) ++
             (iter_functions (order_first n k) sct ≫= diff_schema_function_new scs) ++
             (iter_functions (order_first n k) scs ≫= diff_schema_function_old sct)) ++ post) in Hd'
          by (by rewrite <- !app_assoc; simpl; rewrite <- ?app_assoc).
        apply apply_all_split in Hd' as (d1 & d2 & _ & Hdrop & Hd').
        unfold new_drop_table in Hdrop. rewrite Htb1, Htb2 in Hdrop.
        unfold new_create_index in Hd'. rewrite Hi1, Hi2 in Hd'.
        eapply (index_too_early [] n T k); [exact Hd'|by intros ? ?%elem_of_nil|].
        intros [y Hy]. destruct (apply_relation_effect _ _ _ _ _ Hdrop eq_refl) as [(_ & z & Hz & _)|(Hz & _)].
        -- simpl in Hdrop. apply with_schema_mut_ok in Hdrop as (sc & sc' & Hsc & Hr & ->).
           apply remove_relation_inv in Hr as (r' & _ & ->).
           rewrite relation_at_put_eq in Hz. simpl in Hz. by rewrite lookup_delete in Hz.
        -- rewrite HTk in Hy. congruence.
      * destruct (first_relation n T scs _ Hws HsT) as (l' & Hl & Hl'ne).
        assert (r ∈ l') as Hr.
        { assert (r ∈ iter_relations (order_first n T) scs) as Hin.
          { unfold iter_relations.
            apply (iter_elem _ _ _ (io_relations_perm _ _ _) (wf_relations_named _ _ Hrs)).
            by rewrite (wf_relation_name _ _ _ (Hrs _ _ Ek)). }
          rewrite Hl in Hin. apply elem_of_cons in Hin as [->|?]; [|done].
          pose proof (wf_relation_name _ _ _ (Hrs _ _ Ek)) as Hn1.
          pose proof (wf_relation_name _ _ _ (Hrs _ _ HsT)) as Hn2. congruence. }
        apply elem_of_list_split in Hr as (la & lb & ->).
        destruct (Hall (order_first n T) (order_first n T)) as [d' Hd'].
        destruct (Hshape (order_first n T) (order_first n T) (RTable tb :: la) lb d' Hl Hd')
          as (pre & post & Heq & p1 & _ & p & -> & _ & Hp1 & Hp).
        pose proof (Hnever (order_first n T) (order_first n T)) as Hnev. rewrite Heq in Hnev.
        rewrite Heq in Hd'. csimpl in Hd'. csimpl in Hnev.
        assert (exists rest, diff_schema_relation_old (order_first n T) (order_first n T) sct (RTable tb) =
                  new_drop_table tb :: rest) as [rest Hrest].
        { unfold diff_schema_relation_old. simpl.
          destruct (Hrs _ _ HsT) as (_ & -> & _).
          destruct (sc_relations sct !! T) as [[y|y|y|y]|] eqn:E; simpl; eauto.
          destruct HtT. by exists y. }
        rewrite Hrest in Hd', Hnev.
        replace (_ ++ CreateIndex n T k _ _ _ :: post) with
          ((p1 ++ (iter_relations (order_first n T) sct ≫= diff_schema_relation_new (order_first n T) scs)) ++
           new_drop_table tb :: ((rest ++ (la ≫= diff_schema_relation_old (order_first n T) (order_first n T) sct) ++ p) ++
             CreateIndex n T k (ix_unique i) (ix_method i) (ix_keys i) :: post)) in Hd'
          by (by rewrite <- !app_assoc; simpl; rewrite <- ?app_assoc).
        apply apply_all_split in Hd' as (d1 & d2 & _ & Hdrop & Hd').
        destruct (Hrs _ _ HsT) as (Htb1 & Htb2 & _).
        unfold new_drop_table in Hdrop. rewrite Htb1, Htb2 in Hdrop.
        eapply index_too_early; [exact Hd'| |].
        -- intros cols Hin. apply (Hnev cols Hnt). apply elem_of_app. left.
           apply elem_of_app. right. apply elem_of_app. right.
           rewrite <- ?app_assoc in *. simpl. right.
           rewrite <- ?app_assoc. done.
        -- intros [y Hy]. destruct (apply_relation_effect _ _ _ _ _ Hdrop eq_refl) as [(_ & z & Hz & _)|(Hz & _)].
           ++ simpl in Hdrop. apply with_schema_mut_ok in Hdrop as (sc & sc' & Hsc & Hr & ->).
              apply remove_relation_inv in Hr as (r' & _ & ->).
              rewrite relation_at_put_eq in Hz. simpl in Hz. by rewrite lookup_delete in Hz.
           ++ congruence.
    + (* never a table *)
      destruct (first_relation n k scs _ Hws Ek) as (l' & Hl & _).
      destruct (Hall (order_first n k) (order_first n k)) as [d' Hd'].
      destruct (Hshape (order_first n k) (order_first n k) [] l' d' Hl Hd')
        as (pre & post & Heq & _).
      pose proof (Hnever (order_first n k) (order_first n k)) as Hnev. rewrite Heq in Hd', Hnev.
      eapply index_too_early; [exact Hd'| |].
      * intros cols Hin. apply (Hnev cols Hnt). apply elem_of_app. by left.
      * unfold table_at. by rewrite Hsr.
Qed.

Lemma diff_applies_iff s t :
  wf_db s -> wf_db t ->
  (forall os ot, exists d', apply_all (compare_diff os ot s t) s = (d', Ok ())) <->
  indexes_safe s t.
Proof.
  intros Hs Ht. split; [by apply diff_applies_safe|].
  intros Hix os ot. exists (expected_db s t). eapply steps_apply_all. by apply diff_exact.
Qed.
