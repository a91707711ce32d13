(** Introspection of the catalogues: the snapshot shows the database. *)
From Verif Require Import Base Types Changes SpecSnapshot ColumnLemmas Diff Sql History Catalog Introspect
  SpecIntrospect SpecCatalog IntrospectLemmas IntrospectProofs CatalogLemmas.

Section catalogue.
  Context (p : planner) (c : catalogue) (schemas : list str).
  Hypothesis (Hp : proper c).

  Lemma ordered q l (r : row) : r ∈ row_order p q l <-> r ∈ l.
  Proof. by rewrite (row_order_perm p q l). Qed.
  Lemma aggregated q o l (s : str) : s ∈ agg_order p q o l <-> s ∈ l.
  Proof. by rewrite (agg_order_perm p q o l). Qed.

  (** ** Columns of keys *)
  Lemma one_name rel z (l : list attribute) :
    NoDup l -> (forall a b, a ∈ l -> b ∈ l -> at_rel a = at_rel b -> at_num a = at_num b -> a = b) ->
    (exists a, a ∈ l /\ at_rel a = rel /\ at_num a = z) ->
    exists a, a ∈ l /\ at_rel a = rel /\ at_num a = z /\
      (from a in l; where is (at_rel a = rel) && is (at_num a = z); [at_name a]) = [at_name a].
  Proof.
    intros Hn Hu (a & Ha & Hr & Hz). exists a. split_and!; [done..|].
    assert (forall m, (forall b, b ∈ m -> b ∈ l) -> a ∉ m ->
      (from a in m; where is (at_rel a = rel) && is (at_num a = z); [at_name a]) = []) as Hnone.
    { intros m. induction m as [|b m IH]; intros Hm Hni; [done|]. rewrite bind_cons.
      apply not_elem_of_cons in Hni as [Hab Hni].
      rewrite IH; [|intros; apply Hm; by right|done]. rewrite app_nil_r.
      case_bool_decide as E1; [|done]. case_bool_decide as E2; [|done]. exfalso. apply Hab.
      apply Hu; [done|apply Hm; left|congruence..]. }
    apply elem_of_list_split in Ha as (l1 & l2 & ->). rewrite bind_app, bind_cons.
    apply NoDup_app in Hn as (_ & Hdis & [Hn2 _]%NoDup_cons).
    rewrite (Hnone l1), (Hnone l2).
    - rewrite !bool_decide_true by done. done.
    - intros b Hb. apply elem_of_app. right. by right.
    - done.
    - intros b Hb. apply elem_of_app. by left.
    - intros H. apply (Hdis a H). left.
  Qed.

  Lemma names_forall rel keys :
    (forall z, z ∈ keys -> exists a, a ∈ ct_attributes c /\ at_rel a = rel /\ at_num a = z) ->
    Forall2 (column_named c rel) keys
      (from k in keys; from a in ct_attributes c; where is (at_rel a = rel) && is (at_num a = k); [at_name a]).
  Proof.
    induction keys as [|z keys IH]; intros H; [constructor|]. rewrite bind_cons.
    destruct (one_name rel z (ct_attributes c)) as (a & Ha & Hr & Hz & ->);
      [apply Hp..|apply H; left|]. cbn [app]. constructor; [by exists a|]. apply IH. intros. apply H. by right.
  Qed.

  Lemma names_named q o rel keys l :
    (forall z, z ∈ keys -> exists a, a ∈ ct_attributes c /\ at_rel a = rel /\ at_num a = z) ->
    column_names p c q o rel keys = Some l -> columns_named c rel keys l /\ l <> [].
  Proof.
    intros H [Hne ->]%array_agg_some. split; [|done].
    eexists. split; [by apply names_forall|apply agg_order_perm].
  Qed.

  (** ** Namespaces *)
  Lemma same_namespace n m o : n ∈ ct_namespaces c -> m ∈ ct_namespaces c -> ns_oid n = o -> ns_oid m = o -> n = m.
  Proof. intros. apply (pr_namespace_oid c Hp); [done..|congruence]. Qed.

  (** ** Schemas *)
  Lemma schema_rows_in row :
    row ∈ schema_rows p c schemas <-> exists n, in_scope c schemas n /\ row = [Text (ns_name n)].
  Proof.
    unfold schema_rows. rewrite ordered. split.
    - intros H. unrow H. unrow H. unrow H. subst. by exists x.
    - intros (n & [Hn Hs] & ->). inrow n. onrow. inlast.
  Qed.

  (** ** Tables *)
  Lemma table_rows_in row :
    row ∈ table_rows p c schemas <->
    exists r n, is_table_class c schemas r n /\ may_use r /\ row = [Text (ns_name n); Text (cl_name r)].
  Proof.
    unfold table_rows. rewrite ordered. split.
    - intros H. apply elem_of_list_bind in H as (n & H & Hn). apply elem_of_list_bind in H as (r & H & Hr).
      unrow H. apply elem_of_list_bind in H as (t & H & _). unrow H. unrow H.
      destruct Hb0 as (((Hk & Ht) & Hu) & Hs). exists r, n.
      split; [split; [split; [done|split; [done|done]]|done]|]. split; [|done].
      unfold may_use. tauto.
    - intros (r & n & ((Hr & [Hn Hs] & Hrn) & Hk & Ht) & Hu & ->). inrow n. inrow r. onrow.
      destruct (left_join_some (placed_types c) (fun t => is (cl_oftype r = ty_oid t))) as [t Hj].
      inrow t. onrow. inlast.
  Qed.

  (** ** Columns *)
  Definition column_text a ad r n t : row :=
    [Text (ns_name n); Text (cl_name r); Int (at_num a); Text (at_name a);
     Text (default_text a ad); Bool (at_notnull a || (ty_domain t && ty_notnull t));
     nullable Text (data_type p c a t)].
  Definition has_default a ad : Prop :=
    ad ∈ left_join (ct_attrdefs c) (fun d => is (at_rel a = ad_rel d) && is (at_num a = ad_num d)).
  Lemma placed_types_in t : t ∈ placed_types c <-> t ∈ ct_types c.
  Proof.
    unfold placed_types. split.
    - intros H. unrow H. apply elem_of_list_bind in H as (n & H & Hn). unrow H. unrow H. by subst.
    - intros Ht. destruct (pr_type_namespace c Hp t Ht) as (n & Hn & Ho).
      inrow t. inrow n. onrow. inlast.
  Qed.
  Lemma column_rows_in row :
    row ∈ column_rows p c schemas <->
    exists a ad r n t, is_column c schemas a r n t /\ has_default a ad /\ row = column_text a ad r n t.
  Proof.
    unfold column_rows. rewrite ordered. split.
    - intros H. apply elem_of_list_bind in H as (a & H & Ha). apply elem_of_list_bind in H as (ad & H & Had).
      apply elem_of_list_bind in H as (r & H & Hr). unrow H.
      apply elem_of_list_bind in H as (n & H & Hn). unrow H.
      apply elem_of_list_bind in H as (t & H & Ht). unrow H. unrow H. unrow H.
      apply placed_types_in in Ht. destruct Hb2 as ((((Hq & Hz) & Hd) & Hk) & Hs).
      exists a, ad, r, n, t. split; [|done]. split; [done| |done]. split; [split; [done|done]|done].
    - intros (a & ad & r & n & t & [(Ha & Har & Hz & Hd) ((Hr & [Hn Hs] & Hrn) & Hk & Hq) (Ht & Hat)] & Had & ->).
      inrow a. inrow ad. inrow r. onrow. inrow n. onrow. inrow t; [|by apply placed_types_in].
      onrow. onrow. inlast.
  Qed.

  Lemma data_type_written a t s : data_type p c a t = Some s -> type_written (typmod_out p) c a t s.
  Proof.
    unfold data_type. intros H.
    assert (forall m, (match at_typmod a with Some m => modifier p (ty_name t) m | None => Some [] end) = Some m ->
      modifier_written (typmod_out p) c a t m) as Hmod.
    { intros m. destruct (at_typmod a) as [z|] eqn:Ez; [|intros [= <-]; by constructor].
      unfold modifier. destruct (list_find _ _) as [[i n]|] eqn:Ef; [|done]. intros [= <-].
      apply list_find_Some in Ef as (Hi & Hn & _). econstructor; [done| |done].
      by eapply elem_of_list_lookup_2. }
    destruct (match at_typmod a with Some _ => _ | None => _ end) as [m|].
    - specialize (Hmod m eq_refl). destruct (decide (ty_elem t <> 0%N)) as [Hne|He].
      + destruct (scalar _) as [e|] eqn:Es; [|done]. apply head_elem in Es. unrow Es. unrow Es. unrow Es. subst e.
        cbn in H. injection H as <-. rewrite <-app_assoc. by eapply type_array.
      + cbn in H. injection H as <-. rewrite app_nil_r. apply type_plain; [|done]. by apply dec_stable.
    - destruct (if decide _ then _ else _); done.
  Qed.

  Lemma default_written a ad :
    has_default a ad ->
    default_of c a (if decide (default_text a ad = []) then None else Some (default_text a ad)).
  Proof.
    unfold has_default. rewrite left_join_elem. intros [(x & -> & Hx & Hon)|[-> Hno]]; cbn.
    - bools Hon. destruct Hon as [H1 H2]. destruct (at_generated a) eqn:Eg.
      + rewrite decide_True by done. by apply default_generated.
      + by eapply default_some.
    - rewrite decide_True by done. apply default_none. intros x Hx H1 H2. apply (Hno x Hx). boolgoal. done.
  Qed.

  Lemma column_decoded a ad r n t x :
    has_default a ad -> column_of_row (column_text a ad r n t) = Ret x -> column_of (typmod_out p) c a r n t x.
  Proof.
    intros Had H. unfold column_of_row, column_text, get_text, get_int, get_bool in H. cbn -[data_type default_text] in H.
    destruct (data_type p c a t) as [ty|] eqn:Ety; cbn -[default_text] in H; [|done]. injection H as <-.
    split; cbn -[default_text]; [done|by apply data_type_written|done|by apply default_written].
  Qed.

  Lemma has_default_some a : exists ad, has_default a ad.
  Proof. apply left_join_some. Qed.

  (** ** Primary keys and unique constraints *)
  Definition key_text q k r n : row :=
    [Text (ns_name n); Text (cn_name k); Text (ns_name n); Text (cl_name r);
     nullable Texts (column_names p c q (cn_oid k) (cn_rel k) (cn_key k));
     Bool (cn_deferrable k); Bool (cn_deferred k)].
  Lemma key_rows_in q ty row :
    row ∈ key_rows p c schemas q ty <-> exists k r n, is_key c schemas k r n ty /\ row = key_text q k r n.
  Proof.
    unfold key_rows. rewrite ordered. split.
    - intros H. apply elem_of_list_bind in H as (n & H & Hn). apply elem_of_list_bind in H as (m & H & Hm).
      apply elem_of_list_bind in H as (k & H & Hk). apply elem_of_list_bind in H as (r & H & Hr).
      unrow H. unrow H. destruct Hb as (((((((H1 & H2) & H3) & H4) & H5) & H6) & H7) & H8).
      assert (n = m) as <-.
      { eapply same_namespace; [done..|]. rewrite (pr_constraint_schema c Hp k r) by done. done. }
      exists k, r, n. split; [|done]. split; [split; [done|split; [|done]]|].
      + split; [done|]. split; [split|]; done.
      + split; [done|]. split; [done|]. split; [done|]. unfold may_change. tauto.
    - intros (k & r & n & ((Hk & (Hr & [Hn Hs] & Hrn) & Hkr) & Hty & Hkind & Ht & Hm) & ->).
      inrow n. inrow n. inrow k. inrow r. onrow.
      { unfold may_change in Hm. pose proof (pr_constraint_schema c Hp k r Hk Hr Hkr).
        assert (ns_oid n = cl_namespace r) by done. assert (ns_oid n = cn_namespace k) by congruence. tauto. }
      inlast.
  Qed.

  Lemma key_columns k ty r n z :
    ty = KPrimary \/ ty = KUnique \/ ty = KForeign ->
    is_constraint c schemas k r n -> cn_type k = ty -> z ∈ cn_key k ->
    exists a, a ∈ ct_attributes c /\ at_rel a = cn_rel k /\ at_num a = z.
  Proof. intros Hty (Hk & _) <-. by apply (pr_key c Hp). Qed.

  Lemma primary_key_decoded q k r n x :
    is_key c schemas k r n KPrimary -> primary_key_of_row (key_text q k r n) = Ret x ->
    exists y, x = CPrimaryKey y /\ primary_key_of c k r n y.
  Proof.
    intros (Hk & Hty & _) H. unfold primary_key_of_row, key_text, get_text, get_texts, get_bool in H.
    cbn -[column_names] in H. destruct (column_names p c q _ _ _) as [l|] eqn:E; cbn in H; [|done].
    injection H as <-. eexists. split; [done|].
    apply names_named in E as [E _]; [|intros; apply (key_columns k KPrimary r n); [tauto|done..]].
    split; [done|]. done.
  Qed.
  Lemma unique_decoded q k r n x :
    is_key c schemas k r n KUnique -> unique_of_row (key_text q k r n) = Ret x ->
    exists y, x = CUnique y /\ unique_of c k r n y.
  Proof.
    intros (Hk & Hty & _) H. unfold unique_of_row, key_text, get_text, get_texts, get_bool in H.
    cbn -[column_names] in H. destruct (column_names p c q _ _ _) as [l|] eqn:E; cbn in H; [|done].
    injection H as <-. eexists. split; [done|].
    apply names_named in E as [E _]; [|intros; apply (key_columns k KUnique r n); [tauto|done..]].
    split; [done|]. done.
  Qed.

  (** ** Check constraints *)
  Definition check_text k r n : row :=
    [Text (ns_name n); Text (cl_name r); Text (cn_name k); Text (drop 6 (cn_def k));
     Bool (cn_deferrable k); Bool (cn_deferred k)].
  Lemma check_rows_in row :
    row ∈ check_rows p c schemas <-> exists k r n, is_check c schemas k r n /\ row = check_text k r n.
  Proof.
    unfold check_rows. rewrite ordered. split.
    - intros H. apply elem_of_list_bind in H as (k & H & Hk). apply elem_of_list_bind in H as (n & H & Hn).
      apply elem_of_list_bind in H as (r & H & Hr). unrow H. destruct Hb as (((Hu & Hty) & Hz) & Hs).
      apply left_join_elem in Hr as [(r' & -> & Hr & Hon)|[-> _]]; [|done]. bools Hon. cbn in Hu.
      apply left_join_elem in Hn as [(n' & -> & Hn & Hon')|[-> _]]; [|done]. bools Hon'. cbn in Hs. bools Hs.
      unrow H. exists k, r', n'. split; [|done]. split; [|done]. split; [done|]. split; [|done].
      split; [done|]. split; [done|]. by rewrite <-(pr_constraint_schema c Hp k r').
    - intros (k & r & n & ((Hk & (Hr & [Hn Hs] & Hrn) & Hkr) & Hty & Hz & Hu) & ->).
      inrow k. inrow (Some n); [inrow (Some r)|].
      + onrow; [|inlast]. cbn. boolgoal. done.
      + apply left_join_elem. left. exists r. boolgoal. done.
      + apply left_join_elem. left. exists n. boolgoal.
        rewrite (pr_constraint_schema c Hp k r) by done. done.
  Qed.
  Lemma check_decoded k r n x :
    check_of_row (check_text k r n) = Ret x -> exists y, x = CCheck y /\ check_of k r n y.
  Proof.
    intros [= <-]. eexists. split; [done|]. split; [done|]. split; [|done]. cbn -[drop]. by intros e ->.
  Qed.

  (** ** Foreign keys *)
  Definition foreign_key_text k r n g r2 n2 : row :=
    [Text (ns_name n); Text (cn_name k); Text (cl_name r);
     nullable Texts (column_names p c (L "foreignkey") (cn_oid k) (cn_rel k) (cn_key k));
     nullable Text (ns_name <$> n2); nullable Text (cl_name <$> r2);
     nullable Texts (g ≫= fun g => r2 ≫= target_names p c k g);
     Bool (cn_deferrable k); Bool (cn_deferred k);
     nullable Text (match_text (cn_match k)); nullable Text (rule_text (cn_update k));
     nullable Text (rule_text (cn_delete k))].
  (** The rows joined to a foreign key. *)
  Definition joined k (d1 d2 : option depend) r2 g n2 : Prop :=
    d1 ∈ left_join (ct_depends c) (fun d =>
      is (de_obj d = cn_oid k) && is (de_class d = PgConstraint) &&
      is (de_refclass d = PgClass) && is (de_refsub d = 0%Z)) /\
    d2 ∈ left_join (ct_depends c) (fun d =>
      is (de_refclass d = PgConstraint) && is (de_class d = PgClass) &&
      holds d1 (fun d1 => is (de_obj d = de_refobj d1)) &&
      is (de_sub d = 0%Z) && de_internal d) /\
    r2 ∈ left_join (ct_classes c) (fun f => is (cn_frel k = cl_oid f)) /\
    g ∈ left_join (ct_constraints c) (fun g =>
      holds d2 (fun d2 => is (cn_oid g = de_refobj d2)) &&
      (is (cn_type g = KPrimary) || is (cn_type g = KUnique)) && is (cn_rel g = cn_frel k)) /\
    n2 ∈ left_join (ct_namespaces c) (fun n => holds g (fun k => is (cn_namespace k = ns_oid n))).
  Lemma foreign_key_rows_in row :
    row ∈ foreign_key_rows p c schemas <->
    exists k r n d1 d2 r2 g n2, is_foreign_key c schemas k r n /\ joined k d1 d2 r2 g n2 /\
      row = foreign_key_text k r n g r2 n2.
  Proof.
    unfold foreign_key_rows. rewrite ordered. split.
    - intros H. apply elem_of_list_bind in H as (n & H & Hn). apply elem_of_list_bind in H as (k & H & Hk).
      unrow H. apply elem_of_list_bind in H as (r & H & Hr). unrow H. destruct Hb0 as [H1 H2].
      apply elem_of_list_bind in H as (d1 & H & Hd1). apply elem_of_list_bind in H as (d2 & H & Hd2).
      apply elem_of_list_bind in H as (r2 & H & Hr2). apply elem_of_list_bind in H as (g & H & Hg).
      apply elem_of_list_bind in H as (n2 & H & Hn2). unrow H. destruct Hb0 as [H3 H4]. unrow H.
      exists k, r, n, d1, d2, r2, g, n2. split; [|done].
      split; [|split; [done|unfold may_change; tauto]]. split; [done|]. split; [|done].
      split; [done|]. split; [done|]. by rewrite <-(pr_constraint_schema c Hp k r).
    - intros (k & r & n & d1 & d2 & r2 & g & n2 & ((Hk & (Hr & [Hn Hs] & Hrn) & Hkr) & Hty & Hm) &
        (H1 & H2 & H3 & H4 & H5) & ->).
      inrow n. inrow k. onrow; [rewrite (pr_constraint_schema c Hp k r) by done; done|].
      inrow r. onrow. inrow d1. inrow d2. inrow r2. inrow g. inrow n2.
      onrow. inlast.
  Qed.

  Lemma joined_some k : exists d1 d2 r2 g n2, joined k d1 d2 r2 g n2.
  Proof.
    unfold joined.
    destruct (left_join_some (ct_depends c) (fun d =>
      is (de_obj d = cn_oid k) && is (de_class d = PgConstraint) &&
      is (de_refclass d = PgClass) && is (de_refsub d = 0%Z))) as [d1 H1]. exists d1.
    destruct (left_join_some (ct_depends c) (fun d =>
      is (de_refclass d = PgConstraint) && is (de_class d = PgClass) &&
      holds d1 (fun d1 => is (de_obj d = de_refobj d1)) &&
      is (de_sub d = 0%Z) && de_internal d)) as [d2 H2]. exists d2.
    destruct (left_join_some (ct_classes c) (fun f => is (cn_frel k = cl_oid f))) as [r2 H3]. exists r2.
    destruct (left_join_some (ct_constraints c) (fun g =>
      holds d2 (fun d2 => is (cn_oid g = de_refobj d2)) &&
      (is (cn_type g = KPrimary) || is (cn_type g = KUnique)) && is (cn_rel g = cn_frel k))) as [g H4].
    exists g.
    destruct (left_join_some (ct_namespaces c) (fun n => holds g (fun k => is (cn_namespace k = ns_oid n)))) as [n2 H5].
    by exists n2.
  Qed.

  Lemma match_text_written m s : match_text m = Some s -> match_written m s.
  Proof. unfold match_text. repeat case_decide; subst; intros [= <-]; constructor. Qed.
  Lemma rule_text_written m s : rule_text m = Some s -> rule_written m s.
  Proof. unfold rule_text. repeat case_decide; subst; intros [= <-]; constructor. Qed.

  Lemma target_names_spec k g r2 l :
    cl_oid r2 = cn_rel g -> target_names p c k g r2 = Some l ->
    NoDup l /\ (forall s, s ∈ l <-> exists a, a ∈ ct_attributes c /\ at_rel a = cl_oid r2 /\
       at_num a ∈ cn_key g /\ at_dropped a = false /\ at_name a = s).
  Proof.
    intros Hrel [_ ->]%array_agg_some. split.
    - rewrite agg_order_perm.
      assert (forall m, NoDup m -> (forall a, a ∈ m -> a ∈ ct_attributes c) ->
        NoDup (from a in m; where is (cl_oid r2 = at_rel a) && is (cl_oid r2 = cn_rel g) &&
                 is (at_num a ∈ cn_key g) && negb (at_dropped a); [at_name a])) as Hgo.
      { induction m as [|a m IH]; intros Hn Hm; [constructor|]. apply NoDup_cons in Hn as [Hni Hn].
        rewrite bind_cons. apply NoDup_app. split; [|split].
        - destruct (_ && _); [|constructor]. apply NoDup_singleton.
        - intros s Hs Hin. unrow Hs. unrow Hs. subst s. unrow Hin. unrow Hin. unrow Hin.
          destruct Hb as (((Hb & _) & _) & _), Hb0 as (((Hb0 & _) & _) & _).
          assert (a = x); [|by subst]. apply (pr_attribute_name c Hp); [apply Hm; left|apply Hm; by right|congruence..].
        - apply IH; [done|]. intros. apply Hm. by right. }
      apply Hgo; [apply Hp|done].
    - intros s. rewrite aggregated. split.
      + intros H. apply elem_of_list_bind in H as (a & H & Ha). unrow H. unrow H. exists a. naive_solver.
      + intros (a & Ha & H1 & H2 & H3 & <-). inrow a. onrow. inlast.
  Qed.

  Lemma foreign_key_decoded k r n d1 d2 r2 g n2 x :
    is_foreign_key c schemas k r n -> joined k d1 d2 r2 g n2 ->
    foreign_key_of_row (foreign_key_text k r n g r2 n2) = Ret x ->
    exists g' r2' n2' y, x = CForeignKey y /\ foreign_key_of c k r n g' r2' n2' y.
  Proof.
    intros (Hk & Hty & Hm) (H1 & H2 & H3 & H4 & H5) H.
    unfold foreign_key_of_row, foreign_key_text, get_text, get_texts, get_bool in H.
    cbn -[column_names target_names match_text rule_text] in H.
    destruct (column_names p c _ _ _ _) as [cs|] eqn:E1; [|done].
    destruct n2 as [n2|]; [|done]. destruct r2 as [r2|]; [|done].
    destruct g as [g|]; [|done]. cbn -[column_names target_names match_text rule_text] in H.
    destruct (target_names p c k g r2) as [ts|] eqn:E2; [|done].
    destruct (match_text (cn_match k)) as [m|] eqn:E3; [|done].
    destruct (rule_text (cn_update k)) as [u|] eqn:E4; [|done].
    destruct (rule_text (cn_delete k)) as [de|] eqn:E5; [|done]. cbn in H. injection H as <-.
    apply left_join_elem in H4 as [(g' & [= <-] & Hg & H4)|[? _]]; [|done]. bools H4.
    destruct H4 as ((H4 & Hgty) & Hgrel). destruct d2 as [d2|]; [|done]. cbn in H4. bools H4.
    apply left_join_elem in H2 as [(d2' & [= <-] & Hd2 & H2)|[? _]]; [|done]. bools H2.
    destruct H2 as ((((H2a & H2b) & H2c) & H2d) & H2e). destruct d1 as [d1|]; [|done]. cbn in H2c. bools H2c.
    apply left_join_elem in H1 as [(d1' & [= <-] & Hd1 & H1)|[? _]]; [|done]. bools H1.
    destruct H1 as (((H1a & H1b) & H1c) & H1d).
    apply left_join_elem in H3 as [(r2' & [= <-] & Hr2 & H3)|[? _]]; [|done]. bools H3.
    apply left_join_elem in H5 as [(n2' & [= <-] & Hn2 & H5)|[? _]]; [|done]. cbn in H5. bools H5.
    apply names_named in E1 as [E1 _]; [|intros; apply (key_columns k KForeign r n); [tauto|done..]].
    apply target_names_spec in E2 as [E2 E2']; [|congruence].
    exists g, r2, n2. eexists. split; [done|]. unfold foreign_key_of.
    split; [done|]. split; [split; [done|]; split; [done|]; split; [done|]; exists d1, d2; done|].
    split; [done|]. split; [done|]. split; [done|].
    split; [rewrite <-(pr_constraint_schema c Hp g r2) by (done || congruence); done|].
    split; [done|]. split; [done|]. split; [done|]. split; [done|]. split; [done|].
    split; [by apply match_text_written|]. split; [by apply rule_text_written|].
    split; [by apply rule_text_written|]. done.
  Qed.

  (** ** Sequences *)
  Definition sequence_text q r n own : row :=
    [Text (ns_name n); Text (cl_name r);
     nullable Text (scalar (from t in ct_types c; where is (ty_oid t = se_type q); [ty_name t]));
     Int (se_increment q); Int (se_min q); Int (se_max q); Int (se_start q); Int (se_cache q); Bool (se_cycle q);
     nullable Text (own ≫= fun d : depend * attribute => scalar (
       from t in ct_classes c; where is (at_rel d.2 = cl_oid t); [cl_name t]));
     nullable Text ((fun d => at_name d.2) <$> own)].
  Definition has_owner (q : pgsequence) own : Prop :=
    own ∈ left_join (owners c) (fun d => is (de_obj d.1 = se_rel q)).
  Lemma owners_in d a :
    (d, a) ∈ owners c <-> d ∈ ct_depends c /\ a ∈ ct_attributes c /\ at_rel a = de_refobj d /\ at_num a = de_refsub d.
  Proof.
    unfold owners. split.
    - intros H. unrow H. unrow H. unrow H. unrow H. naive_solver.
    - intros (Hd & Ha & H1 & H2). inrow d. inrow a. onrow. inlast.
  Qed.
  Lemma sequence_rows_in row :
    row ∈ sequence_rows p c schemas <->
    exists q r n own, is_sequence c schemas q r n /\ has_owner q own /\ row = sequence_text q r n own.
  Proof.
    unfold sequence_rows. rewrite ordered. split.
    - intros H. apply elem_of_list_bind in H as (q & H & Hq). apply elem_of_list_bind in H as (r & H & Hr). unrow H.
      apply elem_of_list_bind in H as (n & H & Hn). unrow H.
      apply elem_of_list_bind in H as (own & H & Ho). unrow H. unrow H.
      exists q, r, n, own. done.
    - intros (q & r & n & own & (Hq & (Hr & [Hn Hs] & Hrn) & Hqr) & Ho & ->).
      inrow q. inrow r. onrow. inrow n. onrow. inrow own. onrow. inlast.
  Qed.
  Lemma owner_written q own :
    has_owner q own ->
    owner_of c q (own ≫= fun d : depend * attribute => scalar (
       from t in ct_classes c; where is (at_rel d.2 = cl_oid t); [cl_name t])) ((fun d => at_name d.2) <$> own).
  Proof.
    unfold has_owner. rewrite left_join_elem. intros [([d a] & -> & Hd & Hon)|[-> Hno]]; cbn [fmap option_fmap option_map mbind option_bind snd].
    - cbn in Hon. bools Hon. apply owners_in in Hd as (Hd & Ha & H1 & H2).
      assert (owned_by c q a) as Hown by (split; [done|by exists d]).
      destruct (scalar _) as [s|] eqn:Es.
      + apply head_elem in Es. unrow Es. unrow Es. unrow Es. subst s. by apply owner_some.
      + apply head_none in Es. apply owner_lost; [done|]. intros r Hr Heq.
        assert (cl_name r ∈ (from t in ct_classes c; where is (at_rel a = cl_oid t); [cl_name t])) as Hin.
        { inrow r. onrow. inlast. }
        rewrite Es in Hin. by apply elem_of_nil in Hin.
    - apply owner_none. intros a (Ha & d & Hd & H1 & H2 & H3). apply (Hno (d, a)); [|cbn; boolgoal; done].
      by apply owners_in.
  Qed.
  Lemma sequence_decoded q r n own x :
    has_owner q own -> sequence_of_row (sequence_text q r n own) = Ret x -> sequence_of c q r n x.
  Proof.
    intros Ho H. apply owner_written in Ho.
    unfold sequence_of_row, sequence_text, get_opt, get_text, get_int, get_bool in H.
    set (ot := own ≫= _) in *. set (oc := _ <$> own) in *.
    cbn -[scalar] in H. destruct (scalar _) as [ty|] eqn:Ety; cbn in H; [|done].
    assert (x = Sequence (ns_name n) (cl_name r) ty (se_increment q) (se_min q) (se_max q) (se_start q)
      (se_cache q) (se_cycle q) ot oc) as ->.
    { destruct ot, oc; cbn in H; by injection H as <-. }
    split; cbn; try done. apply head_elem in Ety. unrow Ety. unrow Ety. unrow Ety. subst ty. by eexists.
  Qed.
  Lemma has_owner_some q : exists own, has_owner q own.
  Proof. apply left_join_some. Qed.

  (** ** Functions *)
  Definition function_text f n l : row :=
    [Text (ns_name n); Text (pr_name f); Text (pr_src f); Text (la_name l);
     nullable Text (returns_text c f); Text (volatility_text (pr_volatile f))].
  Lemma function_rows_in row :
    row ∈ function_rows p c schemas <-> exists f n l, is_function c schemas f n l /\ row = function_text f n l.
  Proof.
    unfold function_rows. rewrite ordered. split.
    - intros H. apply elem_of_list_bind in H as (f & H & Hf). apply elem_of_list_bind in H as (n & H & Hn). unrow H.
      apply elem_of_list_bind in H as (l & H & Hl). unrow H. unrow H. unrow H. exists f, n, l. done.
    - intros (f & n & l & (Hf & [Hn Hs] & Hfn & Hl & Hfl) & ->).
      inrow f. inrow n. onrow. inrow l. onrow. onrow. inlast.
  Qed.
  Lemma volatility_text_written v : volatility_written v (volatility_text v).
  Proof. unfold volatility_text. repeat case_decide; subst; by constructor. Qed.
  Lemma function_decoded f n l x : function_of_row (function_text f n l) = Ret x -> function_of c f n l x.
  Proof.
    intros H. unfold function_of_row, function_text, get_text in H. cbn -[returns_text volatility_text] in H.
    destruct (returns_text c f) as [ret|] eqn:E; cbn -[volatility_text] in H; [|done]. injection H as <-.
    split; cbn -[volatility_text]; try done; [|apply volatility_text_written].
    unfold returns_text in E. destruct (scalar _) as [s|] eqn:Es; [|done]. cbn -[L] in E. injection E as <-.
    apply head_elem in Es. unrow Es. unrow Es. unrow Es. subst s. eexists. split; [done|]. split; [done|].
    by destruct (pr_retset f).
  Qed.

  (** ** Indexes *)
  Definition index_text i x n t m : row :=
    [Text (ns_name n); Text (cl_name x); Text (cl_name t); Bool (in_unique i); Text (am_name m); Int (in_natts i);
     nullable Texts (column_names p c (L "index") (in_oid i) (in_rel i) (in_key i));
     nullable Ints (array_agg (in_option i)); nullable Text (in_expr i)].
  Lemma index_rows_in row :
    row ∈ index_rows p c schemas <-> exists i x n t m, is_index c schemas i x n t m /\ row = index_text i x n t m.
  Proof.
    unfold index_rows. rewrite ordered. split.
    - intros H. apply elem_of_list_bind in H as (i & H & Hi). apply elem_of_list_bind in H as (x & H & Hx). unrow H.
      apply elem_of_list_bind in H as (n & H & Hn). unrow H.
      apply elem_of_list_bind in H as (t & H & Ht). unrow H.
      apply elem_of_list_bind in H as (m & H & Hm). unrow H.
      apply elem_of_list_bind in H as (k & H & Hk). unrow H. unrow H.
      apply left_join_elem in Hk as [(k' & -> & _)|[-> Hno]]; [by destruct Hb3|].
      exists i, x, n, t, m. split; [|done]. unfold is_index. split_and!; try done; [by destruct Hb3|].
      intros k Hk Heq. apply (Hno k Hk). boolgoal. done.
    - intros (i & x & n & t & m & (Hi & (Hx & [Hn Hs] & Hxn) & Hix & Ht & Hit & Hm & Hxm & Hno) & ->).
      inrow i. inrow x. onrow. inrow n. onrow. inrow t. onrow. inrow m. onrow.
      inrow (@None pgconstraint).
      + onrow. inlast.
      + apply left_join_elem. right. split; [done|]. intros k Hk. boolgoal. by apply Hno.
  Qed.
  Lemma index_decoded i x n t m y z :
    i ∈ ct_indexes c -> index_of_row (index_text i x n t m) = Ret z -> keyed z = Some y -> index_of c i x n t m y.
  Proof.
    intros Hi H Hy. unfold index_of_row, index_text, get_opt, get_text, get_texts, get_int, get_ints, get_bool in H.
    cbn -[column_names] in H.
    assert (z = (Index (ns_name n) (cl_name x) (cl_name t) (in_unique i) (am_name m) [],
      column_names p c (L "index") (in_oid i) (in_rel i) (in_key i), in_expr i)) as ->.
    { destruct (column_names p c _ _ _ _), (array_agg _), (in_expr i); cbn in H; try done; by injection H as <-. }
    cbn -[column_names] in Hy. destruct (in_expr i) as [e|] eqn:Ee.
    - injection Hy as <-. split; cbn; try done. by constructor.
    - destruct (column_names p c _ _ _ _) as [l|] eqn:El; [|done]. injection Hy as <-. split; cbn; try done.
      apply names_named in El as [??]; [|intros; by apply (pr_index_key c Hp)]. by constructor.
  Qed.
End catalogue.
