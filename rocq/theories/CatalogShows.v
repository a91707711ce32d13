(** A snapshot introspected from the catalogues shows the database. *)
From Verif Require Import Base Types Changes SpecSnapshot ColumnLemmas Diff Sql History Catalog Introspect
  SpecIntrospect SpecCatalog IntrospectLemmas IntrospectProofs CatalogLemmas CatalogProofs.

Lemma column_at_iff b d s k j x :
  coherent b -> holds_exactly b d ->
  column_at d s k j = Some x <-> x ∈ ob_columns b /\ column_place x = (s, k) /\ col_name x = j.
Proof.
  intros C H. unfold column_at. split.
  - destruct (relation_at d s k) as [[t|?|?|?]|] eqn:E; try done. rewrite (ho_columns b d H s k t E).
    intros [[Hp Hin]%elem_of_list_filter Hn]%find_column_Some. done.
  - intros (Hin & Hp & Hn).
    assert (table_at d s k) as [t Ht].
    { apply (ho_table b d H). rewrite <-Hp. by apply (co_column_table b C). }
    rewrite Ht. rewrite <-Hn. apply find_column_elem.
    + unfold relation_at in Ht. apply bind_Some in Ht as (sc & Hsc & Ht).
      destruct (ho_wf b d H s sc Hsc) as (_ & Hr & _). destruct (Hr k _ Ht) as (_ & _ & ? & _). done.
    + rewrite (ho_columns b d H s k t Ht). by apply elem_of_list_filter.
Qed.

Section shows.
  Context (p : planner) (c : catalogue) (schemas : list str) (b : objects).
  Hypothesis (Hp : proper c).
  Hypothesis (Hb : decoded b (query_results p c schemas)).

  Lemma fetched_rows {A} (f : row -> exec A) rows l : fetch f (Some rows) = Ret l -> decode_rows f rows = Ret l.
  Proof. done. Qed.

  Lemma shown_schemas s : s ∈ ob_schemas b <-> exists n, in_scope c schemas n /\ ns_name n = s.
  Proof.
    pose proof (fe_schemas _ _ (dc_fetched _ _ Hb)) as H. apply fetched_rows in H. split.
    - intros Hs. assert (schema_new s ∈ schema_new <$> ob_schemas b) as Hin by by apply elem_of_list_fmap_1.
      rewrite (decode_elem _ _ _ _ H) in Hin. destruct Hin as (r & Hr & Hd).
      apply (schema_rows_in p c schemas) in Hr as (n & Hn & ->). injection Hd as Hd. by exists n.
    - intros (n & Hn & <-). destruct (decode_total _ _ _ [Text (ns_name n)] H) as (a & Ha & Hin).
      { apply (schema_rows_in p c schemas). by exists n. }
      injection Ha as <-. apply elem_of_list_fmap in Hin as (s & [= ->] & ?). done.
  Qed.

  Lemma shown_tables s k :
    (s, k) ∈ ob_tables b <-> exists r n, is_table_class c schemas r n /\ may_use r /\ ns_name n = s /\ cl_name r = k.
  Proof.
    pose proof (fe_tables _ _ (dc_fetched _ _ Hb)) as H. apply fetched_rows in H. split.
    - intros Hs. assert (table_new s k ∈ (fun t => table_new t.1 t.2) <$> ob_tables b) as Hin.
      { apply elem_of_list_fmap. by exists (s, k). }
      rewrite (decode_elem _ _ _ _ H) in Hin. destruct Hin as (row & Hr & Hd).
      apply (table_rows_in p c schemas) in Hr as (r & n & Hn & Hu & ->). injection Hd as Hd1 Hd2. by exists r, n.
    - intros (r & n & Hn & Hu & <- & <-).
      destruct (decode_total _ _ _ [Text (ns_name n); Text (cl_name r)] H) as (a & Ha & Hin).
      { apply (table_rows_in p c schemas). by exists r, n. }
      injection Ha as <-. apply elem_of_list_fmap in Hin as ([s k] & [= -> ->] & ?). done.
  Qed.

  Lemma shown_columns x :
    x ∈ ob_columns b <-> exists a ad r n t, is_column c schemas a r n t /\ has_default c a ad /\
      column_of_row (column_text p c a ad r n t) = Ret x.
  Proof.
    pose proof (fe_columns _ _ (dc_fetched _ _ Hb)) as H. apply fetched_rows in H.
    rewrite (decode_elem _ _ _ _ H). setoid_rewrite (column_rows_in p c schemas Hp). naive_solver.
  Qed.
  Lemma shown_columns_total a ad r n t :
    is_column c schemas a r n t -> has_default c a ad ->
    exists x, x ∈ ob_columns b /\ column_of_row (column_text p c a ad r n t) = Ret x.
  Proof.
    pose proof (fe_columns _ _ (dc_fetched _ _ Hb)) as H. apply fetched_rows in H. intros Hc Ha.
    destruct (decode_total _ _ _ (column_text p c a ad r n t) H) as (x & Hx & Hin).
    { apply (column_rows_in p c schemas Hp). by exists a, ad, r, n, t. }
    by exists x.
  Qed.

  Lemma fmap_in {A B} (f : A -> B) (l : list A) x : (forall a a', f a = f a' -> a = a') -> f x ∈ f <$> l <-> x ∈ l.
  Proof.
    intros Hf. rewrite elem_of_list_fmap. split.
    - by intros (y & <-%Hf & Hy).
    - intros Hx. by exists x.
  Qed.
  Lemma pk_inj a a' : CPrimaryKey a = CPrimaryKey a' -> a = a'. Proof. by intros [= ->]. Qed.
  Lemma fk_inj a a' : CForeignKey a = CForeignKey a' -> a = a'. Proof. by intros [= ->]. Qed.
  Lemma uq_inj a a' : CUnique a = CUnique a' -> a = a'. Proof. by intros [= ->]. Qed.
  Lemma ck_inj a a' : CCheck a = CCheck a' -> a = a'. Proof. by intros [= ->]. Qed.

  Lemma shown_primary_keys x :
    x ∈ ob_primary_keys b -> exists k r n, is_key c schemas k r n KPrimary /\ primary_key_of c k r n x.
  Proof.
    pose proof (fe_primary_keys _ _ (dc_fetched _ _ Hb)) as H. apply fetched_rows in H.
    rewrite <-(fmap_in CPrimaryKey _ x pk_inj), (decode_elem _ _ _ _ H). intros (row & Hr & Hd).
    apply (key_rows_in p c schemas Hp) in Hr as (k & r & n & Hk & ->). exists k, r, n. split; [done|].
    by apply (primary_key_decoded p c schemas Hp) in Hd as (y & [= <-] & ?).
  Qed.
  Lemma shown_primary_keys_total k r n :
    is_key c schemas k r n KPrimary -> exists x, x ∈ ob_primary_keys b /\ primary_key_of c k r n x.
  Proof.
    pose proof (fe_primary_keys _ _ (dc_fetched _ _ Hb)) as H. apply fetched_rows in H. intros Hk.
    destruct (decode_total _ _ _ (key_text p c (L "primarykey") k r n) H) as (x & Hx & Hin).
    { apply (key_rows_in p c schemas Hp). by exists k, r, n. }
    apply (primary_key_decoded p c schemas Hp) in Hx as (y & -> & Hy); [|done].
    apply fmap_in in Hin; [by exists y|exact pk_inj].
  Qed.
  Lemma shown_uniques x :
    x ∈ ob_uniques b -> exists k r n, is_key c schemas k r n KUnique /\ unique_of c k r n x.
  Proof.
    pose proof (fe_uniques _ _ (dc_fetched _ _ Hb)) as H. apply fetched_rows in H.
    rewrite <-(fmap_in CUnique _ x uq_inj), (decode_elem _ _ _ _ H). intros (row & Hr & Hd).
    apply (key_rows_in p c schemas Hp) in Hr as (k & r & n & Hk & ->). exists k, r, n. split; [done|].
    by apply (unique_decoded p c schemas Hp) in Hd as (y & [= <-] & ?).
  Qed.
  Lemma shown_uniques_total k r n :
    is_key c schemas k r n KUnique -> exists x, x ∈ ob_uniques b /\ unique_of c k r n x.
  Proof.
    pose proof (fe_uniques _ _ (dc_fetched _ _ Hb)) as H. apply fetched_rows in H. intros Hk.
    destruct (decode_total _ _ _ (key_text p c (L "unique") k r n) H) as (x & Hx & Hin).
    { apply (key_rows_in p c schemas Hp). by exists k, r, n. }
    apply (unique_decoded p c schemas Hp) in Hx as (y & -> & Hy); [|done].
    apply fmap_in in Hin; [by exists y|exact uq_inj].
  Qed.
  Lemma shown_checks x :
    x ∈ ob_checks b -> exists k r n, is_check c schemas k r n /\ check_of k r n x.
  Proof.
    pose proof (fe_checks _ _ (dc_fetched _ _ Hb)) as H. apply fetched_rows in H.
    rewrite <-(fmap_in CCheck _ x ck_inj), (decode_elem _ _ _ _ H). intros (row & Hr & Hd).
    apply (check_rows_in p c schemas Hp) in Hr as (k & r & n & Hk & ->). exists k, r, n. split; [done|].
    by apply check_decoded in Hd as (y & [= <-] & ?).
  Qed.
  Lemma shown_checks_total k r n :
    is_check c schemas k r n -> exists x, x ∈ ob_checks b /\ check_of k r n x.
  Proof.
    pose proof (fe_checks _ _ (dc_fetched _ _ Hb)) as H. apply fetched_rows in H. intros Hk.
    destruct (decode_total _ _ _ (check_text k r n) H) as (x & Hx & Hin).
    { apply (check_rows_in p c schemas Hp). by exists k, r, n. }
    apply check_decoded in Hx as (y & -> & Hy).
    apply fmap_in in Hin; [by exists y|exact ck_inj].
  Qed.
  Lemma shown_foreign_keys x :
    x ∈ ob_foreign_keys b ->
    exists k r n g r2 n2, is_foreign_key c schemas k r n /\ foreign_key_of c k r n g r2 n2 x.
  Proof.
    pose proof (fe_foreign_keys _ _ (dc_fetched _ _ Hb)) as H. apply fetched_rows in H.
    rewrite <-(fmap_in CForeignKey _ x fk_inj), (decode_elem _ _ _ _ H). intros (row & Hr & Hd).
    apply (foreign_key_rows_in p c schemas Hp) in Hr as (k & r & n & d1 & d2 & r2 & g & n2 & Hk & Hj & ->).
    eapply (foreign_key_decoded p c schemas Hp) in Hd as (g' & r2' & n2' & y & [= <-] & ?); [|done..].
    by exists k, r, n, g', r2', n2'.
  Qed.
  Lemma shown_foreign_keys_total k r n :
    is_foreign_key c schemas k r n ->
    exists g r2 n2 x, x ∈ ob_foreign_keys b /\ foreign_key_of c k r n g r2 n2 x.
  Proof.
    pose proof (fe_foreign_keys _ _ (dc_fetched _ _ Hb)) as H. apply fetched_rows in H. intros Hk.
    destruct (joined_some c k) as (d1 & d2 & r2 & g & n2 & Hj).
    destruct (decode_total _ _ _ (foreign_key_text p c k r n g r2 n2) H) as (x & Hx & Hin).
    { apply (foreign_key_rows_in p c schemas Hp). by exists k, r, n, d1, d2, r2, g, n2. }
    eapply (foreign_key_decoded p c schemas Hp) in Hx as (g' & r2' & n2' & y & -> & Hy); [|done..].
    apply fmap_in in Hin; [by exists g', r2', n2', y|exact fk_inj].
  Qed.
  Lemma shown_sequences x :
    x ∈ ob_sequences b -> exists q r n, is_sequence c schemas q r n /\ sequence_of c q r n x.
  Proof.
    pose proof (fe_sequences _ _ (dc_fetched _ _ Hb)) as H. apply fetched_rows in H.
    rewrite (decode_elem _ _ _ _ H). intros (row & Hr & Hd).
    apply (sequence_rows_in p c schemas) in Hr as (q & r & n & own & Hq & Ho & ->).
    exists q, r, n. split; [done|]. by eapply sequence_decoded.
  Qed.
  Lemma shown_sequences_total q r n :
    is_sequence c schemas q r n -> exists x, x ∈ ob_sequences b /\ sequence_of c q r n x.
  Proof.
    pose proof (fe_sequences _ _ (dc_fetched _ _ Hb)) as H. apply fetched_rows in H. intros Hq.
    destruct (has_owner_some c q) as [own Ho].
    destruct (decode_total _ _ _ (sequence_text c q r n own) H) as (x & Hx & Hin).
    { apply (sequence_rows_in p c schemas). by exists q, r, n, own. }
    exists x. split; [done|]. by eapply sequence_decoded.
  Qed.
  Lemma shown_functions x :
    x ∈ ob_functions b -> exists f n l, is_function c schemas f n l /\ function_of c f n l x.
  Proof.
    pose proof (fe_functions _ _ (dc_fetched _ _ Hb)) as H. apply fetched_rows in H.
    rewrite (decode_elem _ _ _ _ H). intros (row & Hr & Hd).
    apply (function_rows_in p c schemas) in Hr as (f & n & l & Hq & ->).
    exists f, n, l. split; [done|]. by apply function_decoded.
  Qed.
  Lemma shown_functions_total f n l :
    is_function c schemas f n l -> exists x, x ∈ ob_functions b /\ function_of c f n l x.
  Proof.
    pose proof (fe_functions _ _ (dc_fetched _ _ Hb)) as H. apply fetched_rows in H. intros Hq.
    destruct (decode_total _ _ _ (function_text c f n l) H) as (x & Hx & Hin).
    { apply (function_rows_in p c schemas). by exists f, n, l. }
    exists x. split; [done|]. by apply function_decoded.
  Qed.
  Lemma shown_indexes y :
    y ∈ ob_indexes b -> exists i x n t m, is_index c schemas i x n t m /\ index_of c i x n t m y.
  Proof.
    destruct (dc_indexes _ _ Hb) as (l & H & HF). apply fetched_rows in H. intros Hy.
    apply elem_of_list_lookup in Hy as [j Hj]. destruct (Forall2_lookup_l _ _ _ _ _ HF Hj) as (z & Hz & Hk).
    apply elem_of_list_lookup_2 in Hz. rewrite (decode_elem _ _ _ _ H) in Hz. destruct Hz as (row & Hr & Hd).
    apply (index_rows_in p c schemas) in Hr as (i & x & n & t & m & Hi & ->).
    exists i, x, n, t, m. split; [done|]. eapply (index_decoded p c Hp); [apply Hi|done..].
  Qed.
  Lemma shown_indexes_total i x n t m :
    is_index c schemas i x n t m -> exists y, y ∈ ob_indexes b /\ index_of c i x n t m y.
  Proof.
    destruct (dc_indexes _ _ Hb) as (l & H & HF). apply fetched_rows in H. intros Hi.
    destruct (decode_total _ _ _ (index_text p c i x n t m) H) as (z & Hz & Hin).
    { apply (index_rows_in p c schemas). by exists i, x, n, t, m. }
    apply elem_of_list_lookup in Hin as [j Hj]. destruct (Forall2_lookup_r _ _ _ _ _ HF Hj) as (y & Hy & Hk).
    apply elem_of_list_lookup_2 in Hy. exists y. split; [done|].
    eapply (index_decoded p c Hp); [apply Hi|done..].
  Qed.

  Lemma constraints_in x :
    x ∈ ob_constraints b <->
    match x with
    | CPrimaryKey y => y ∈ ob_primary_keys b | CForeignKey y => y ∈ ob_foreign_keys b
    | CUnique y => y ∈ ob_uniques b | CCheck y => y ∈ ob_checks b
    end.
  Proof.
    unfold ob_constraints. rewrite !elem_of_app, !elem_of_list_fmap. destruct x; naive_solver.
  Qed.

  Lemma shown d : coherent b -> holds_exactly b d -> shows (typmod_out p) c schemas d.
  Proof.
    intros C H.
    pose proof (fun s k j x => ho_constraint b d H s k j x) as Hcon. setoid_rewrite constraints_in in Hcon.
    split.
    - intros s. rewrite (ho_schema b d H). apply shown_schemas.
    - intros s k. rewrite (ho_table b d H). apply shown_tables.
    - intros a r n t Ha. destruct (has_default_some c a) as [ad Had].
      destruct (shown_columns_total a ad r n t Ha Had) as (x & Hin & Hx).
      apply column_decoded in Hx; [|done]. exists x. split; [done|].
      apply (column_at_iff b d); [done..|]. destruct (cf_names _ _ _ _ _ _ _ Hx) as (H1 & H2 & H3).
      split; [done|]. unfold column_place. by rewrite H1, H2.
    - intros s k j x Hx. apply (column_at_iff b d) in Hx as (Hin & [= H1 H2] & H3); [|done..].
      apply shown_columns in Hin as (a & ad & r & n & t & Hc & Ha & Hx). apply column_decoded in Hx; [|done].
      destruct (cf_names _ _ _ _ _ _ _ Hx) as (H1' & H2' & H3').
      exists a, r, n, t. split; [done|]. split; [done|]. split_and!; congruence.
    - intros k r n Hk. destruct (shown_primary_keys_total k r n Hk) as (x & Hin & Hx).
      exists x. split; [done|]. apply Hcon. destruct Hx as ((H1 & H2 & H3) & _).
      split; [done|]. split; [|done]. unfold constraint_place. by rewrite H1, H2.
    - intros s t j x Hx. apply Hcon in Hx as (Hin & [= H1 H2] & H3).
      apply shown_primary_keys in Hin as (k & r & n & Hk & Hx). pose proof Hx as ((H1' & H2' & H3') & _).
      exists k, r, n. cbn in *. split_and!; [done..|congruence|congruence|congruence].
    - intros k r n Hk. destruct (shown_uniques_total k r n Hk) as (x & Hin & Hx).
      exists x. split; [done|]. apply Hcon. destruct Hx as ((H1 & H2 & H3) & _).
      split; [done|]. split; [|done]. unfold constraint_place. by rewrite H1, H2.
    - intros s t j x Hx. apply Hcon in Hx as (Hin & [= H1 H2] & H3).
      apply shown_uniques in Hin as (k & r & n & Hk & Hx). pose proof Hx as ((H1' & H2' & H3') & _).
      exists k, r, n. cbn in *. split_and!; [done..|congruence|congruence|congruence].
    - intros k r n Hk. destruct (shown_checks_total k r n Hk) as (x & Hin & Hx).
      exists x. split; [done|]. apply Hcon. destruct Hx as ((H1 & H2 & H3) & _).
      split; [done|]. split; [|done]. unfold constraint_place. by rewrite H1, H2.
    - intros s t j x Hx. apply Hcon in Hx as (Hin & [= H1 H2] & H3).
      apply shown_checks in Hin as (k & r & n & Hk & Hx). pose proof Hx as ((H1' & H2' & H3') & _).
      exists k, r, n. cbn in *. split_and!; [done..|congruence|congruence|congruence].
    - intros k r n Hk. destruct (shown_foreign_keys_total k r n Hk) as (g & r2 & n2 & x & Hin & Hx).
      exists g, r2, n2, x. split; [done|]. apply Hcon. destruct Hx as ((H1 & H2 & H3) & _).
      split; [done|]. split; [|done]. unfold constraint_place. by rewrite H1, H2.
    - intros s t j x Hx. apply Hcon in Hx as (Hin & [= H1 H2] & H3).
      apply shown_foreign_keys in Hin as (k & r & n & g & r2 & n2 & Hk & Hx).
      pose proof Hx as ((H1' & H2' & H3') & _).
      exists k, r, n, g, r2, n2. cbn in H1', H2', H3', H1, H2, H3.
      split; [done|]. split; [done|]. split_and!; congruence.
    - intros q r n Hq. destruct (shown_sequences_total q r n Hq) as (x & Hin & Hx).
      exists x. split; [done|]. apply (ho_sequence b d H). by destruct (sf_names _ _ _ _ _ Hx).
    - intros s j x Hx. apply (ho_sequence b d H) in Hx as (Hin & H1 & H2).
      apply shown_sequences in Hin as (q & r & n & Hq & Hx). destruct (sf_names _ _ _ _ _ Hx).
      exists q, r, n. split_and!; [done..|congruence|congruence].
    - intros f n l Hf. destruct (shown_functions_total f n l Hf) as (x & Hin & Hx).
      exists x. split; [done|]. apply (ho_function b d H). by destruct (ff_names _ _ _ _ _ Hx).
    - intros s j x Hx. apply (ho_function b d H) in Hx as (Hin & H1 & H2).
      apply shown_functions in Hin as (f & n & l & Hf & Hx). destruct (ff_names _ _ _ _ _ Hx).
      exists f, n, l. split_and!; [done..|congruence|congruence].
    - intros i x n t m Hi. destruct (shown_indexes_total i x n t m Hi) as (y & Hin & Hy).
      exists y. split; [done|]. apply (ho_index b d H). by destruct (if_names _ _ _ _ _ _ _ Hy) as (? & ? & ?).
    - intros s j y Hy. apply (ho_index b d H) in Hy as (Hin & H1 & H2).
      apply shown_indexes in Hin as (i & x & n & t & m & Hi & Hy).
      destruct (if_names _ _ _ _ _ _ _ Hy) as (? & ? & ?).
      exists i, x, n, t, m. split_and!; [done..|congruence|congruence].
  Qed.
End shows.

Lemma introspect_shows p c schemas d :
  proper c -> introspect_catalogue p c schemas = Ret d -> shows (typmod_out p) c schemas d.
Proof.
  intros Hp H. apply introspect_decoded in H as (b & Hb & C & Hd). by eapply shown.
Qed.

(** Views are never loaded. *)
Lemma introspect_no_view q d n k v : introspect_rows q = Ret d -> relation_at d n k <> Some (RView v).
Proof. intros H. apply introspect_decoded in H as (b & _ & _ & Hd). apply (ho_view _ _ Hd). Qed.
