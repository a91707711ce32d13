(** Lemmas: indexes and their tables, [apply] up to column order, and reverts. *)
From Verif Require Import Base Types Changes SpecSnapshot SpecChange StepLemmas ColumnLemmas
  ApplyLemmas.

(** ** Relations after a change *)
Lemma relation_at_put_eq d n sc k : relation_at (put d n sc) n k = sc_relations sc !! k.
Proof. unfold relation_at, put; simpl. by rewrite lookup_insert. Qed.
Lemma relation_at_put_ne d n sc n' k : n <> n' -> relation_at (put d n sc) n' k = relation_at d n' k.
Proof. intros H. unfold relation_at, put; simpl. by rewrite lookup_insert_ne. Qed.
Lemma relation_at_lookup d n sc k :
  db_schemas d !! n = Some sc -> relation_at d n k = sc_relations sc !! k.
Proof. intros H. unfold relation_at. by rewrite H. Qed.

Lemma option_Forall2_bind {A B} (R : A -> A -> Prop) (f : A -> option B) x y (Q : option B -> option B -> Prop) :
  option_Forall2 R x y -> Q None None -> (forall a b, R a b -> Q (f a) (f b)) -> Q (x ≫= f) (y ≫= f).
Proof. intros [] ??; simpl; auto. Qed.

(** Changes of columns, constraints and functions keep every relation of its kind. *)
Lemma same_but_kinds g d d' n k :
  same_but g d d' ->
  match g with TSchema _ | TRelation _ _ => False | _ => True end ->
  relation_at d' n k = relation_at d n k \/ (table_at d n k /\ table_at d' n k).
Proof.
  intros [H1 H2] Hg. destruct (decide (n = target_schema g)) as [->|Hn].
  2:{ left. unfold relation_at. by rewrite H1. }
  assert (option_Forall2 (schema_same_but g) (db_schemas d !! target_schema g)
            (db_schemas d' !! target_schema g)) as H by (by destruct g). clear H2.
  unfold table_at, relation_at, is_table.
  destruct H as [sc sc' [_ H]|]; simpl; [|by left].
  destruct g as [|??|n f|n k0 cs|n k0 c]; try done.
  - destruct H as [-> _]. by left.
  - destruct H as (Hne & Hor & _). destruct (decide (k = k0)) as [->|Hk]; [|left; by rewrite Hne].
    destruct Hor as [->|(x & y & Hx & Hy & _)]; [by left|right]. eauto.
  - destruct H as (Hne & Hor & _). destruct (decide (k = k0)) as [->|Hk]; [|left; by rewrite Hne].
    destruct Hor as [->|(x & y & Hx & Hy & _)]; [by left|right]. eauto.
Qed.

Lemma same_but_relation_ne n k d d' n' k' :
  same_but (TRelation n k) d d' -> (n', k') <> (n, k) ->
  relation_at d' n' k' = relation_at d n' k'.
Proof.
  intros [H1 H2] Hne. simpl in *. destruct (decide (n' = n)) as [->|Hn].
  2:{ unfold relation_at. by rewrite H1. }
  unfold relation_at. destruct H2 as [sc sc' (_ & Hr & _)|]; simpl; [|done].
  rewrite Hr; [done|congruence].
Qed.

Definition creates (c : change) (d d' : database) (n k : str) : Prop :=
  relation_at d n k = None /\ exists r, relation_at d' n k = Some r /\
  forall i, r = RIndex i -> exists t tb, relation_at d n t = Some (RTable tb) /\ ix_table i = tb_name tb.
Definition drops (c : change) (d d' : database) (n k : str) : Prop :=
  relation_at d' n k = None /\ exists r, relation_at d n k = Some r /\
  (is_table (Some r) -> c = DropTable n k).

Lemma add_relation_inv r sc sc' :
  add_relation r sc = (sc', Ok ()) ->
  sc_relations sc !! relation_name r = None /\
  sc' = set_relations sc (<[relation_name r := r]> (sc_relations sc)).
Proof.
  unfold add_relation, has_relation. destruct (_ !! _) eqn:E; intros [= <-]; done.
Qed.
Lemma drop_relation_inv {A} (f : relation -> result A) k sc sc' :
  drop_relation f k sc = (sc', Ok ()) ->
  exists r a, sc_relations sc !! k = Some r /\ f r = Ok a /\
    sc' = set_relations sc (delete k (sc_relations sc)).
Proof.
  unfold drop_relation, mthen, mread, mok, get_relation, remove_relation.
  destruct (sc_relations sc !! k) as [r|] eqn:E; simpl; [|done].
  destruct (f r) as [a|] eqn:Ef; [|done]. intros [= <-]. eauto.
Qed.
Lemma remove_relation_inv k sc sc' :
  (let? _ := remove_relation k in mok ()) sc = (sc', Ok ()) ->
  exists r, sc_relations sc !! k = Some r /\ sc' = set_relations sc (delete k (sc_relations sc)).
Proof.
  unfold mthen, mok, remove_relation.
  destruct (sc_relations sc !! k) as [r|] eqn:E; [|done]. intros [= <-]. eauto.
Qed.
Lemma create_table_inv n k cols sc sc' :
  create_table_in n k cols sc = (sc', Ok ()) ->
  exists tb, mfor (fun c => add_column (make_column n k c)) cols (table_new n k) = (tb, Ok ()) /\
    tb_name tb = k /\ sc_relations sc !! k = None /\
    sc' = set_relations sc (<[k := RTable tb]> (sc_relations sc)).
Proof.
  unfold create_table_in. destruct (mfor _ _ _) as [tb [[]|e]] eqn:E; [|done].
  intros H. apply add_relation_inv in H as [H1 H2]. simpl in *.
  pose proof (mfor_add_column_names _ _ _ _ _ _ E) as (_ & Hn & _). simpl in Hn. rewrite Hn in *.
  eauto.
Qed.
Lemma create_index_inv n t k u m ks sc sc' :
  create_index_in n t k u m ks sc = (sc', Ok ()) ->
  exists tb, sc_relations sc !! t = Some (RTable tb) /\ sc_relations sc !! k = None /\
    sc' = set_relations sc (<[k := RIndex (Index n k (tb_name tb) u m ks)]> (sc_relations sc)).
Proof.
  unfold create_index_in, mthen, mread, get_relation.
  destruct (sc_relations sc !! t) as [[tb| | |]|] eqn:E; simpl; try done.
  intros H. apply add_relation_inv in H as [H1 H2]. eauto.
Qed.
Lemma with_schema_mut_ok {A} n (k : mut schema A) d d' a :
  with_schema_mut n k d = (d', Ok a) ->
  exists sc sc', db_schemas d !! n = Some sc /\ k sc = (sc', Ok a) /\ d' = put d n sc'.
Proof. intros H. apply with_schema_mut_inv in H as [(_ & _ & ?)|H]; done. Qed.
Lemma in_table_ok {A} n t (k : mut table A) d d' a :
  in_table n t k d = (d', Ok a) ->
  exists sc tb tb', db_schemas d !! n = Some sc /\ sc_relations sc !! t = Some (RTable tb) /\
    k tb = (tb', Ok a) /\ d' = put d n (set_relations sc (<[t := RTable tb']> (sc_relations sc))).
Proof. intros H. apply in_table_inv in H as [(_ & e & ?)|H]; done. Qed.

Lemma apply_relation_effect c d d' n k :
  apply c d = (d', Ok ()) -> target_of c = TRelation n k ->
  creates c d d' n k \/ drops c d d' n k.
Proof.
  destruct c; simpl; try (intros _ [=]; fail); intros H [= <- <-];
    apply with_schema_mut_ok in H as (sc & sc' & Hsc & Hr & ->).
  - apply create_index_inv in Hr as (tb & Htb & Hk & ->). left. split.
    { by rewrite (relation_at_lookup _ _ _ _ Hsc). }
    eexists. rewrite relation_at_put_eq; simpl. rewrite lookup_insert. split; [done|].
    intros i [= <-]. eexists _, tb. by rewrite (relation_at_lookup _ _ _ _ Hsc).
  - apply add_relation_inv in Hr as [Hk ->]. left. split.
    { by rewrite (relation_at_lookup _ _ _ _ Hsc). }
    eexists. rewrite relation_at_put_eq; simpl. by rewrite lookup_insert.
  - apply create_table_inv in Hr as (tb & _ & Hn & Hk & ->). left. split.
    { by rewrite (relation_at_lookup _ _ _ _ Hsc). }
    eexists. rewrite relation_at_put_eq; simpl. by rewrite lookup_insert.
  - apply add_relation_inv in Hr as [Hk ->]. left. split.
    { by rewrite (relation_at_lookup _ _ _ _ Hsc). }
    eexists. rewrite relation_at_put_eq; simpl. by rewrite lookup_insert.
  - apply drop_relation_inv in Hr as (r & a & Hk & Ha & ->). right. split.
    { rewrite relation_at_put_eq. simpl. apply lookup_delete. }
    exists r. rewrite (relation_at_lookup _ _ _ _ Hsc). split; [done|]. by intros [t [= ->]].
  - apply drop_relation_inv in Hr as (r & a & Hk & Ha & ->). right. split.
    { rewrite relation_at_put_eq. simpl. apply lookup_delete. }
    exists r. rewrite (relation_at_lookup _ _ _ _ Hsc). split; [done|]. by intros [t [= ->]].
  - apply remove_relation_inv in Hr as (r & Hk & ->). right. split.
    { rewrite relation_at_put_eq. simpl. apply lookup_delete. }
    exists r. by rewrite (relation_at_lookup _ _ _ _ Hsc).
  - apply drop_relation_inv in Hr as (r & a & Hk & Ha & ->). right. split.
    { rewrite relation_at_put_eq. simpl. apply lookup_delete. }
    exists r. rewrite (relation_at_lookup _ _ _ _ Hsc). split; [done|]. by intros [t [= ->]].
Qed.

(** ** Indexes and their tables *)
Lemma wf_table_name d n k tb :
  wf_db d -> relation_at d n k = Some (RTable tb) -> tb_name tb = k.
Proof.
  intros Hd. unfold relation_at. destruct (db_schemas d !! n) as [sc|] eqn:E; [|done]. simpl.
  intros H. destruct (Hd _ _ E) as (_ & Hr & _). by destruct (Hr _ _ H) as (_ & ? & _).
Qed.

Lemma apply_dangling c d d' :
  wf_db d -> no_dangling_index d -> apply c d = (d', Ok ()) ->
  no_dangling_index d' <->
  ~ exists n k, c = DropTable n k /\ table_at d n k /\ indexed d n k.
Proof.
  intros Hwf Hnd Happ. pose proof (apply_frame _ _ _ _ Happ) as Hfr.
  destruct (target_of c) as [n|n k|n f|n k cs|n k cn] eqn:Et.
  - (* schemas *)
    assert (forall n' k, relation_at d' n' k = relation_at d n' k \/ (n' = n /\ relation_at d' n' k = None)) as Hrel.
    { intros n' k. destruct (decide (n' = n)) as [->|Hn].
      2:{ left. destruct Hfr as [Hfr _]. unfold relation_at. by rewrite Hfr. }
      right. split; [done|]. destruct c; try done; injection Et as ->; simpl in Happ.
      - unfold add_schema in Happ. destruct (has_schema _ _); [done|]. injection Happ as <-.
        unfold relation_at; simpl. rewrite lookup_insert. simpl. apply lookup_empty.
      - unfold mthen, remove_schema, mok in Happ. destruct (db_schemas d !! n) eqn:E; [|done].
        injection Happ as <-. unfold relation_at; simpl. by rewrite lookup_delete. }
    split; [by intros _ (?&?&->&_)|]. intros _ n' k i Hi.
    destruct (Hrel n' k) as [Heq|[-> Heq]]; [|congruence].
    rewrite Heq in Hi. pose proof (Hnd _ _ _ Hi) as Ht. unfold table_at in *.
    destruct (Hrel n' (ix_table i)) as [->|[-> _]]; [done|].
    (* relations of the touched schema are gone, yet one is still there *)
    exfalso. destruct c; try done; injection Et as ->; simpl in Happ.
    + unfold add_schema in Happ. destruct (has_schema _ _) eqn:Eh; [done|].
      unfold has_schema in Eh. simpl in Eh. unfold relation_at in Hi.
      by destruct (db_schemas d !! n).
    + unfold mthen, remove_schema, mok in Happ. destruct (db_schemas d !! n) eqn:E; [|done].
      injection Happ as <-. rewrite Hi in Heq. unfold relation_at in Heq; simpl in Heq.
      by rewrite lookup_delete in Heq.
  - (* relations *)
    destruct (apply_relation_effect _ _ _ _ _ Happ Et) as
      [[Hnone (r & Hr & Hix)]|[Hnone (r & Hr & Htab)]].
    + assert (forall n' k', table_at d n' k' -> table_at d' n' k') as Hkeep.
      { intros n' k' [t Ht]. exists t. rewrite (same_but_relation_ne _ _ _ _ _ _ Hfr); [done|].
        intros [= -> ->]. congruence. }
      split.
      { intros _ (n' & k' & -> & [t Ht] & _). injection Et as -> ->. congruence. }
      intros _ n' k' i Hi. destruct (decide ((n', k') = (n, k))) as [[= -> ->]|Hne].
      * destruct (Hix i) as (t & tb & Ht & Heq); [congruence|]. apply Hkeep.
        rewrite Heq, (wf_table_name _ _ _ _ Hwf Ht). by exists tb.
      * rewrite (same_but_relation_ne _ _ _ _ _ _ Hfr) in Hi by done. by apply Hkeep, (Hnd _ k').
    + split.
      * intros Hnd' (n' & k' & -> & [t Ht] & (j & i & Hj & Hi & Hti)). injection Et as -> ->.
        assert (relation_at d' n j = Some (RIndex i)) as Hi'.
        { rewrite (same_but_relation_ne _ _ _ _ _ _ Hfr); [done|congruence]. }
        apply Hnd' in Hi' as [t' Ht']. rewrite Hti in Ht'. congruence.
      * intros Hno n' k' i Hi.
        assert ((n', k') <> (n, k)) as Hne by (intros [= -> ->]; congruence).
        rewrite (same_but_relation_ne _ _ _ _ _ _ Hfr) in Hi by done.
        pose proof (Hnd _ _ _ Hi) as [t Ht]. exists t.
        rewrite (same_but_relation_ne _ _ _ _ _ _ Hfr); [done|].
        intros [= -> Hk]. apply Hno. exists n, k. subst.
        assert (r = RTable t) as -> by congruence.
        split; [apply Htab; by exists t|]. split; [by exists t|].
        exists k', i. split; [congruence|]. done.
  - pose proof (fun n k => same_but_kinds _ _ _ n k Hfr I) as Hk.
    split; [by intros _ (?&?&->&_)|]. intros _ n' k' i Hi.
    destruct (Hk n' k') as [Heq|[_ [t Ht]]]; [|congruence]. rewrite Heq in Hi.
    pose proof (Hnd _ _ _ Hi) as Ht. destruct (Hk n' (ix_table i)) as [Heq'|[_ ?]]; [|done].
    unfold table_at in *. by rewrite Heq'.
  - pose proof (fun n k => same_but_kinds _ _ _ n k Hfr I) as Hk.
    split; [by intros _ (?&?&->&_)|]. intros _ n' k' i Hi.
    destruct (Hk n' k') as [Heq|[_ [t Ht]]]; [|congruence]. rewrite Heq in Hi.
    pose proof (Hnd _ _ _ Hi) as Ht. destruct (Hk n' (ix_table i)) as [Heq'|[_ ?]]; [|done].
    unfold table_at in *. by rewrite Heq'.
  - pose proof (fun n k => same_but_kinds _ _ _ n k Hfr I) as Hk.
    split; [by intros _ (?&?&->&_)|]. intros _ n' k' i Hi.
    destruct (Hk n' k') as [Heq|[_ [t Ht]]]; [|congruence]. rewrite Heq in Hi.
    pose proof (Hnd _ _ _ Hi) as Ht. destruct (Hk n' (ix_table i)) as [Heq'|[_ ?]]; [|done].
    unfold table_at in *. by rewrite Heq'.
Qed.

(** ** Equality up to column order *)
Lemma table_equiv_refl t : table_equiv t t.
Proof. by repeat split. Qed.
Lemma relation_equiv_refl r : relation_equiv r r.
Proof. destruct r; simpl; try done; apply table_equiv_refl. Qed.
Lemma schema_equiv_refl sc : schema_equiv sc sc.
Proof. repeat split. intros k. apply option_Forall2_refl. intros r. apply relation_equiv_refl. Qed.
Lemma db_equiv_refl d : db_equiv d d.
Proof. intros n. apply option_Forall2_refl. intros sc. apply schema_equiv_refl. Qed.
Lemma table_equiv_sym a b : table_equiv a b -> table_equiv b a.
Proof. by intros (?&?&?&?). Qed.
Lemma relation_equiv_sym a b : relation_equiv a b -> relation_equiv b a.
Proof. destruct a, b; simpl; try done; apply table_equiv_sym. Qed.
Lemma schema_equiv_sym a b : schema_equiv a b -> schema_equiv b a.
Proof.
  intros (H1&H2&H3). split; [done|]. split; [|done]. intros k.
  destruct (H2 k); constructor. by apply relation_equiv_sym.
Qed.
Lemma db_equiv_sym a b : db_equiv a b -> db_equiv b a.
Proof. intros H n. destruct (H n); constructor. by apply schema_equiv_sym. Qed.
Lemma table_equiv_trans a b c : table_equiv a b -> table_equiv b c -> table_equiv a c.
Proof. intros (?&?&?&?) (?&?&?&?). repeat split; try congruence. by etrans. Qed.
Lemma relation_equiv_trans a b c : relation_equiv a b -> relation_equiv b c -> relation_equiv a c.
Proof. destruct a, b, c; simpl; intros; try congruence. by eapply table_equiv_trans. Qed.
Lemma option_Forall2_trans {A} (R : A -> A -> Prop) x y z :
  (forall a b c, R a b -> R b c -> R a c) ->
  option_Forall2 R x y -> option_Forall2 R y z -> option_Forall2 R x z.
Proof. intros HR H1 H2. destruct H1; inversion H2; subst; constructor; eauto. Qed.
Lemma schema_equiv_trans a b c : schema_equiv a b -> schema_equiv b c -> schema_equiv a c.
Proof.
  intros (H1&H2&H3) (H4&H5&H6). split; [congruence|]. split; [|congruence]. intros k.
  eapply option_Forall2_trans; [apply relation_equiv_trans|apply H2|apply H5].
Qed.
Lemma db_equiv_trans a b c : db_equiv a b -> db_equiv b c -> db_equiv a c.
Proof.
  intros H1 H2 n.
  eapply option_Forall2_trans; [apply schema_equiv_trans|apply H1|apply H2].
Qed.

Lemma put_equiv a b n sc sc' :
  db_equiv a b -> schema_equiv sc sc' -> db_equiv (put a n sc) (put b n sc').
Proof.
  intros H Hs n'. unfold put; simpl. destruct (decide (n' = n)) as [->|Hn].
  - rewrite !lookup_insert. by constructor.
  - rewrite !lookup_insert_ne by done. apply H.
Qed.
Lemma put_equiv_l d n sc sc' :
  db_schemas d !! n = Some sc -> schema_equiv sc' sc -> db_equiv (put d n sc') d.
Proof.
  intros Hsc Hs. rewrite <- (put_same d n sc) at 2 by done.
  apply put_equiv; [apply db_equiv_refl|done].
Qed.
Lemma set_relations_equiv sc sc' k r r' :
  schema_equiv sc sc' -> relation_equiv r r' ->
  schema_equiv (set_relations sc (<[k := r]> (sc_relations sc)))
               (set_relations sc' (<[k := r']> (sc_relations sc'))).
Proof.
  intros (H1&H2&H3) Hr. split; [done|]. split; [|done]. simpl. intros k'.
  destruct (decide (k' = k)) as [->|Hk].
  - rewrite !lookup_insert. by constructor.
  - rewrite !lookup_insert_ne by done. apply H2.
Qed.
Lemma set_relations_equiv_l sc k r r' :
  sc_relations sc !! k = Some r -> relation_equiv r' r ->
  schema_equiv (set_relations sc (<[k := r']> (sc_relations sc))) sc.
Proof.
  intros Hk Hr. rewrite <- (set_relations_same sc k r) at 3 by done.
  apply set_relations_equiv; [apply schema_equiv_refl|done].
Qed.

(** Lookups in equivalent snapshots. *)
Lemma db_equiv_schema a b n sc :
  db_equiv a b -> db_schemas a !! n = Some sc ->
  exists sc', db_schemas b !! n = Some sc' /\ schema_equiv sc sc'.
Proof. intros H Hsc. specialize (H n). rewrite Hsc in H. inversion H; subst. eauto. Qed.
Lemma schema_equiv_relation a b k r :
  schema_equiv a b -> sc_relations a !! k = Some r ->
  exists r', sc_relations b !! k = Some r' /\ relation_equiv r r'.
Proof. intros (_&H&_) Hr. specialize (H k). rewrite Hr in H. inversion H; subst. eauto. Qed.
Lemma schema_equiv_none a b k :
  schema_equiv a b -> sc_relations a !! k = None -> sc_relations b !! k = None.
Proof. intros (_&H&_) Hr. specialize (H k). rewrite Hr in H. by inversion H. Qed.
Lemma schema_equiv_table a b k t :
  schema_equiv a b -> sc_relations a !! k = Some (RTable t) ->
  exists t', sc_relations b !! k = Some (RTable t') /\ table_equiv t t'.
Proof.
  intros H Ht. destruct (schema_equiv_relation _ _ _ _ H Ht) as ([t'| | |] & Hr & He); try done.
  eauto.
Qed.

(** ** [apply] respects equality up to column order *)
Definition table_compat {A} (m : mut table A) : Prop :=
  forall t t' u a, NoDup (names (tb_columns t)) -> table_equiv t t' -> m t = (u, Ok a) ->
  exists u' a', m t' = (u', Ok a') /\ table_equiv u u'.

Lemma in_table_compat {A} n k (m : mut table A) a b a' x :
  table_compat m -> wf_db a -> db_equiv a b -> in_table n k m a = (a', Ok x) ->
  exists b' x', in_table n k m b = (b', Ok x') /\ db_equiv a' b'.
Proof.
  intros Hm Hwf He H. apply in_table_ok in H as (sc&tb&tb'&Hsc&Htb&Hr&->).
  destruct (db_equiv_schema _ _ _ _ He Hsc) as (sc2&Hsc2&Hes).
  destruct (schema_equiv_table _ _ _ _ Hes Htb) as (tb2&Htb2&Het).
  destruct (Hm tb tb2 tb' x) as (u' & x' & Hm' & Heu); [|done|done|].
  { destruct (Hwf _ _ Hsc) as (_ & Hrel & _). by destruct (Hrel _ _ Htb) as (_&_&?&_). }
  eexists _, x'. unfold in_table, with_schema_mut, with_relation_mut, with_table_mut.
  rewrite Hsc2, Htb2, Hm'. split; [done|].
  apply put_equiv; [done|]. by apply set_relations_equiv.
Qed.

Lemma with_schema_compat {A} n (m : mut schema A) a b a' x :
  (forall sc sc2 sc', schema_equiv sc sc2 -> m sc = (sc', Ok x) ->
     exists sc2' x', m sc2 = (sc2', Ok x') /\ schema_equiv sc' sc2') ->
  db_equiv a b -> with_schema_mut n m a = (a', Ok x) ->
  exists b' x', with_schema_mut n m b = (b', Ok x') /\ db_equiv a' b'.
Proof.
  intros Hm He H. apply with_schema_mut_ok in H as (sc&sc'&Hsc&Hr&->).
  destruct (db_equiv_schema _ _ _ _ He Hsc) as (sc2&Hsc2&Hes).
  destruct (Hm sc sc2 sc') as (u' & x' & Hm' & Heu); [done|done|].
  eexists _, x'. unfold with_schema_mut. rewrite Hsc2, Hm'. split; [done|]. by apply put_equiv.
Qed.

Lemma compat_add_constraint c : table_compat (add_constraint c).
Proof.
  intros t t' u a _ (H1&H2&H3&H4). unfold add_constraint, has_constraint. rewrite <- H4.
  destruct (_ !! _); intros [= <- <-]. eexists _, (). split; [done|].
  by repeat split.
Qed.
Lemma compat_with_constraint {A} n (k : mut constraint A) : table_compat (with_constraint_mut n k).
Proof.
  intros t t' u a _ (H1&H2&H3&H4). unfold with_constraint_mut. rewrite <- H4.
  destruct (_ !! _) as [c|]; [|done]. destruct (k c) as [c' x]. intros [= <- ->].
  eexists _, a. split; [done|]. repeat split; simpl; try done.
Qed.
Lemma compat_drop_constraint {A} (f : constraint -> result A) n : table_compat (drop_constraint f n).
Proof.
  intros t t' u a _ (H1&H2&H3&H4). unfold drop_constraint, mthen, mread, mok, get_constraint, remove_constraint.
  rewrite <- H4. destruct (tb_constraints t !! n) as [c|]; simpl; [|done]. destruct (f c); [|done].
  intros [= <- <-]. eexists _, (). split; [done|]. repeat split; simpl; try done.
Qed.
Lemma compat_add_column c : table_compat (add_column c).
Proof.
  intros t t' u a Hnd (H1&H2&H3&H4). unfold add_column, has_column.
  rewrite <- (find_column_perm _ _ _ Hnd H3). destruct (find_column _ _); intros [= <- <-].
  eexists _, (). split; [done|]. repeat split; simpl; try done. by rewrite H3.
Qed.
Lemma update_column_perm n f a b :
  NoDup (names a) -> a ≡ₚ b -> update_column n f a ≡ₚ update_column n f b.
Proof.
  intros Hnd Hp. rewrite !update_column_nodup; [by rewrite Hp|by rewrite <- Hp|done].
Qed.
Lemma delete_column_perm2 n a b :
  NoDup (names a) -> a ≡ₚ b -> delete_column n a ≡ₚ delete_column n b.
Proof.
  intros Hnd Hp. rewrite !delete_column_filter; [by rewrite Hp|by rewrite <- Hp|done].
Qed.
Lemma compat_with_column n f : table_compat (with_column_mut n f).
Proof.
  intros t t' u a Hnd (H1&H2&H3&H4). unfold with_column_mut.
  rewrite <- (find_column_perm _ _ _ Hnd H3). destruct (find_column _ _); intros [= <- <-].
  eexists _, (). split; [done|]. repeat split; simpl; try done. by apply update_column_perm.
Qed.
Lemma compat_remove_column n t t' u a :
  NoDup (names (tb_columns t)) -> table_equiv t t' -> remove_column n t = (u, Ok a) ->
  exists u', remove_column n t' = (u', Ok a) /\ table_equiv u u' /\ NoDup (names (tb_columns u)).
Proof.
  intros Hnd (H1&H2&H3&H4). unfold remove_column.
  rewrite <- (find_column_perm _ _ _ Hnd H3). destruct (find_column _ _); intros [= <- <-].
  eexists. split; [done|]. split.
  - repeat split; simpl; try done. by apply delete_column_perm2.
  - by apply NoDup_delete_column.
Qed.
Lemma compat_drop_column n : table_compat (let? _ := remove_column n in mok ()).
Proof.
  intros t t' u a Hnd He. unfold mthen, mok. destruct (remove_column n t) as [t1 [c|e]] eqn:E; [|done].
  destruct (compat_remove_column _ _ _ _ _ Hnd He E) as (u' & -> & ? & _).
  intros [= <- <-]. eauto.
Qed.
Lemma compat_rename_column from to : table_compat (rename_column_in from to).
Proof.
  intros t t' u a Hnd He. unfold rename_column_in, mthen.
  destruct (remove_column from t) as [t1 [c|e]] eqn:E; [|done].
  destruct (compat_remove_column _ _ _ _ _ Hnd He E) as (u' & -> & ? & ?).
  by apply compat_add_column.
Qed.

Lemma compat_add_relation r sc sc2 sc' :
  schema_equiv sc sc2 -> add_relation r sc = (sc', Ok ()) ->
  exists sc2' x', add_relation r sc2 = (sc2', Ok x') /\ schema_equiv sc' sc2'.
Proof.
  intros He H. apply add_relation_inv in H as [Hk ->]. unfold add_relation, has_relation.
  rewrite (schema_equiv_none _ _ _ He Hk). eexists _, (). split; [done|].
  apply set_relations_equiv; [done|apply relation_equiv_refl].
Qed.
Lemma delete_relation_equiv sc sc2 k :
  schema_equiv sc sc2 ->
  schema_equiv (set_relations sc (delete k (sc_relations sc)))
               (set_relations sc2 (delete k (sc_relations sc2))).
Proof.
  intros (H1&H2&H3). split; [done|]. split; [|done]. simpl. intros k'.
  destruct (decide (k' = k)) as [->|Hk].
  - rewrite !lookup_delete. constructor.
  - rewrite !lookup_delete_ne by done. apply H2.
Qed.
Lemma compat_drop_relation {A} (f : relation -> result A) k sc sc2 sc' :
  (forall r r' a, f r = Ok a -> relation_equiv r r' -> exists a', f r' = Ok a') ->
  schema_equiv sc sc2 -> drop_relation f k sc = (sc', Ok ()) ->
  exists sc2' x', drop_relation f k sc2 = (sc2', Ok x') /\ schema_equiv sc' sc2'.
Proof.
  intros Hf He H. apply drop_relation_inv in H as (r & a & Hk & Ha & ->).
  destruct (schema_equiv_relation _ _ _ _ He Hk) as (r2 & Hk2 & Her).
  destruct (Hf _ _ _ Ha Her) as [a2 Ha2].
  unfold drop_relation, mthen, mread, mok, get_relation, remove_relation. rewrite Hk2; simpl.
  rewrite Ha2. eexists _, (). split; [done|]. by apply delete_relation_equiv.
Qed.

Lemma apply_compat c a b a' :
  wf_db a -> db_equiv a b -> apply c a = (a', Ok ()) ->
  exists b', apply c b = (b', Ok ()) /\ db_equiv a' b'.
Proof.
  intros Hwf He H.
  enough (exists b' x, apply c b = (b', Ok x) /\ db_equiv a' b') as (b' & [] & ? & ?) by eauto.
  revert H. destruct c; simpl.
  all: try (apply in_table_compat; [|done|done];
    auto using compat_add_constraint, compat_with_constraint, compat_drop_constraint,
      compat_add_column, compat_with_column, compat_drop_column, compat_rename_column).
  all: try (apply with_schema_compat; [|done]; intros sc sc2 sc' Hes; simpl).
  all: try (by apply compat_add_relation).
  all: try (apply compat_drop_relation; [|done];
            intros [] [] a0; simpl; intros Ha0 Her; (done || by eauto)).
  - intros H. unfold add_function, has_function in *. destruct Hes as (H1&H2&H3).
    rewrite <- H3. destruct (_ !! _); [done|]. injection H as <-. eexists _, (). split; [done|].
    by repeat split.
  - intros H. apply create_index_inv in H as (tb & Htb & Hk & ->).
    destruct (schema_equiv_table _ _ _ _ Hes Htb) as (tb2&Htb2&(_&Hn&_)).
    unfold create_index_in, mthen, mread, get_relation. rewrite Htb2; simpl.
    unfold add_relation, has_relation; simpl. rewrite (schema_equiv_none _ _ _ Hes Hk).
    eexists _, (). split; [done|]. rewrite <- Hn. by apply set_relations_equiv.
  - unfold add_schema, has_schema; simpl. intros H. pose proof (He schema_name) as He'.
    destruct (db_schemas a !! schema_name) eqn:E; [done|]. inversion He'. injection H as <-.
    eexists _, (). split; [done|]. apply (put_equiv a b); [done|apply schema_equiv_refl].
  - intros H. apply create_table_inv in H as (tb & Htb & Hn & Hk & ->).
    unfold create_table_in. rewrite Htb. unfold add_relation, has_relation; simpl.
    rewrite Hn, (schema_equiv_none _ _ _ Hes Hk).
    eexists _, (). split; [done|]. by apply set_relations_equiv; [|apply relation_equiv_refl].
  - intros H. unfold mthen, mok, remove_function in *. destruct Hes as (H1&H2&H3).
    rewrite <- H3. destruct (_ !! _); [|done]. injection H as <-. eexists _, (). split; [done|].
    by repeat split.
  - unfold mthen, mok, remove_schema. intros H. pose proof (He schema_name) as He'.
    destruct (db_schemas a !! schema_name) eqn:E; [|done]. inversion He'; subst. injection H as <-.
    eexists _, (). split; [done|]. intros n. simpl. destruct (decide (n = schema_name)) as [->|Hn].
    + rewrite !lookup_delete. constructor.
    + rewrite !lookup_delete_ne by done. apply He.
  - intros H. apply remove_relation_inv in H as (r & Hk & ->).
    destruct (schema_equiv_relation _ _ _ _ Hes Hk) as (r2 & Hk2 & Her).
    unfold mthen, mok, remove_relation. rewrite Hk2. eexists _, (). split; [done|].
    by apply delete_relation_equiv.
Qed.

(** ** Reverts *)
Lemma look_table_ok d n k sc tb :
  db_schemas d !! n = Some sc -> sc_relations sc !! k = Some (RTable tb) ->
  look_table d n k = Ok (sc, tb).
Proof. intros H1 H2. unfold look_table, get_schema, get_relation. by rewrite H1; simpl; rewrite H2. Qed.

Lemma look_table_inv d n k sc tb :
  look_table d n k = Ok (sc, tb) ->
  db_schemas d !! n = Some sc /\ sc_relations sc !! k = Some (RTable tb).
Proof.
  unfold look_table, get_schema, get_relation.
  destruct (db_schemas d !! n) as [sc0|] eqn:E1; simpl; [|done].
  destruct (sc_relations sc0 !! k) as [[]|] eqn:E2; simpl; try done.
  by intros [= -> ->].
Qed.

Lemma in_table_undo n k sc tb tb' tb'' (m : mut table ()) d :
  db_schemas d !! n = Some sc -> sc_relations sc !! k = Some (RTable tb) ->
  m tb' = (tb'', Ok ()) -> table_equiv tb'' tb ->
  exists d2, in_table n k m (put d n (set_relations sc (<[k := RTable tb']> (sc_relations sc)))) =
    (d2, Ok ()) /\ db_equiv d2 d.
Proof.
  intros Hsc Htb Hm He. eexists.
  unfold in_table, with_schema_mut, with_relation_mut, with_table_mut, put; simpl.
  rewrite lookup_insert; simpl. rewrite lookup_insert; simpl. rewrite Hm. split; [done|].
  rewrite insert_insert. unfold set_relations at 1; simpl. rewrite insert_insert.
  eapply (put_equiv_l d n sc); [done|]. eapply (set_relations_equiv_l sc k); done.
Qed.

Lemma with_schema_undo n sc sc' sc'' (m : mut schema ()) d :
  db_schemas d !! n = Some sc -> m sc' = (sc'', Ok ()) -> schema_equiv sc'' sc ->
  exists d2, with_schema_mut n m (put d n sc') = (d2, Ok ()) /\ db_equiv d2 d.
Proof.
  intros Hsc Hm He. eexists. unfold with_schema_mut, put; simpl.
  rewrite lookup_insert, Hm. split; [done|]. rewrite insert_insert.
  by apply (put_equiv_l d n sc).
Qed.

(** Adding and dropping constraints. *)
Lemma add_constraint_inv c tb tb' :
  add_constraint c tb = (tb', Ok ()) ->
  tb_constraints tb !! constraint_name c = None /\
  tb' = set_constraints tb (<[constraint_name c := c]> (tb_constraints tb)).
Proof. unfold add_constraint, has_constraint. by destruct (_ !! _); intros [= <-]. Qed.

Lemma undo_add_constraint {A} (f : constraint -> result A) c a tb tb' n :
  add_constraint c tb = (tb', Ok ()) -> constraint_name c = n -> f c = Ok a ->
  drop_constraint f n tb' = (tb, Ok ()).
Proof.
  intros H <- Hf. apply add_constraint_inv in H as [Hk ->].
  unfold drop_constraint, mthen, mread, mok, get_constraint, remove_constraint; simpl.
  rewrite lookup_insert; simpl. rewrite Hf. simpl.
  unfold set_constraints; simpl. rewrite delete_insert by done. by destruct tb.
Qed.

Lemma drop_constraint_inv {A} (f : constraint -> result A) n tb tb' :
  drop_constraint f n tb = (tb', Ok ()) ->
  exists c a, tb_constraints tb !! n = Some c /\ f c = Ok a /\
    tb' = set_constraints tb (delete n (tb_constraints tb)).
Proof.
  unfold drop_constraint, mthen, mread, mok, get_constraint, remove_constraint.
  destruct (tb_constraints tb !! n) as [c|]; simpl; [|done].
  destruct (f c) as [a|] eqn:E; [|done]. intros [= <-]. eauto.
Qed.

Lemma undo_drop_constraint c n tb :
  tb_constraints tb !! n = Some c -> constraint_name c = n ->
  add_constraint c (set_constraints tb (delete n (tb_constraints tb))) = (tb, Ok ()).
Proof.
  intros Hc Hn. unfold add_constraint, has_constraint; simpl. rewrite Hn, lookup_delete.
  unfold set_constraints; simpl. rewrite insert_delete by done. by destruct tb.
Qed.

Lemma with_constraint_ok {A} n (m : mut constraint A) tb tb' a :
  with_constraint_mut n m tb = (tb', Ok a) ->
  exists c c', tb_constraints tb !! n = Some c /\ m c = (c', Ok a) /\
    tb' = set_constraints tb (<[n := c']> (tb_constraints tb)).
Proof.
  unfold with_constraint_mut. destruct (_ !! _) as [c|] eqn:E; [|done].
  destruct (m c) as [c' x] eqn:Em. intros [= <- ->]. eauto 10.
Qed.

Lemma undo_with_constraint n (m : mut constraint ()) c c' tb :
  tb_constraints tb !! n = Some c -> m c' = (c, Ok ()) ->
  with_constraint_mut n m (set_constraints tb (<[n := c']> (tb_constraints tb))) = (tb, Ok ()).
Proof.
  intros Hc Hm. unfold with_constraint_mut; simpl. rewrite lookup_insert, Hm.
  unfold set_constraints; simpl. rewrite insert_insert, insert_id by done. by destruct tb.
Qed.

Lemma with_column_ok n f tb tb' :
  with_column_mut n f tb = (tb', Ok ()) ->
  exists c, find_column n (tb_columns tb) = Some c /\
    tb' = set_columns tb (update_column n f (tb_columns tb)).
Proof. unfold with_column_mut. destruct (find_column _ _) eqn:E; intros [= <-]. eauto. Qed.

Lemma undo_with_column n f g c tb :
  find_column n (tb_columns tb) = Some c ->
  (forall c, col_name (f c) = col_name c) -> g (f c) = c ->
  with_column_mut n g (set_columns tb (update_column n f (tb_columns tb))) = (tb, Ok ()).
Proof.
  intros Hc Hf Hg. unfold with_column_mut; simpl.
  rewrite find_update_column by done. rewrite decide_True, Hc by done. simpl.
  unfold set_columns; simpl. rewrite update_column_compose by done.
  rewrite update_column_id; [by destruct tb|]. intros x Hx. assert (x = c) as -> by congruence. done.
Qed.

Lemma add_column_inv c tb tb' :
  add_column c tb = (tb', Ok ()) ->
  find_column (col_name c) (tb_columns tb) = None /\ tb' = set_columns tb (tb_columns tb ++ [c]).
Proof. unfold add_column, has_column. by destruct (find_column _ _); intros [= <-]. Qed.

Lemma delete_column_app n a c :
  find_column n a = None -> col_name c = n -> delete_column n (a ++ [c]) = a.
Proof.
  intros Ha Hc. induction a as [|x a IH]; csimpl in *.
  - by rewrite decide_True.
  - destruct (decide (col_name x = n)); [done|]. by rewrite IH.
Qed.

Lemma undo_add_column c n tb tb' :
  add_column c tb = (tb', Ok ()) -> col_name c = n ->
  (let? _ := remove_column n in mok ()) tb' = (tb, Ok ()).
Proof.
  intros H <-. apply add_column_inv in H as [Hf ->].
  unfold mthen, mok, remove_column; simpl. rewrite find_column_app, Hf; simpl.
  rewrite decide_True by done. unfold set_columns; simpl. rewrite delete_column_app by done.
  by destruct tb.
Qed.

Lemma undo_drop_column c n tb :
  NoDup (names (tb_columns tb)) -> find_column n (tb_columns tb) = Some c ->
  exists tb'', add_column c (set_columns tb (delete_column n (tb_columns tb))) = (tb'', Ok ()) /\
    table_equiv tb'' tb.
Proof.
  intros Hnd Hc. pose proof (find_column_Some _ _ _ Hc) as [_ Hn].
  unfold add_column, has_column; simpl.
  assert (find_column (col_name c) (delete_column n (tb_columns tb)) = None) as ->.
  { rewrite Hn. apply find_column_None. rewrite delete_column_filter by done.
    rewrite elem_of_list_fmap. intros (x & Hx & Hin). apply elem_of_list_filter in Hin as [? _]. done. }
  eexists. split; [done|]. repeat split; simpl.
  etrans; [apply Permutation_app_comm|]. by apply (delete_column_perm n _ c).
Qed.

Lemma mfor_new_create_columns n k cols :
  NoDup (names cols) -> Forall (wf_column n k) cols ->
  forall tb, (forall c, c ∈ cols -> col_name c ∉ names (tb_columns tb)) ->
  mfor (fun c => add_column (make_column n k c)) (new_create_column <$> cols) tb =
  (set_columns tb (tb_columns tb ++ cols), Ok ()).
Proof.
  intros Hnd Hwf. induction Hwf as [|c cols Hc Hwf IH]; intros tb Hin; csimpl.
  { by rewrite app_nil_r, table_eta_c. }
  apply NoDup_cons in Hnd as [Hnc Hnd]. unfold mthen at 1, add_column at 1, has_column.
  assert (make_column n k (new_create_column c) = c) as ->.
  { destruct Hc as [<- <-]. by destruct c. }
  assert (find_column (col_name c) (tb_columns tb) = None) as ->.
  { apply find_column_None, Hin. left. }
  rewrite IH; [|done|].
  - unfold set_columns; simpl. by rewrite <- app_assoc.
  - intros c' Hc'. simpl. rewrite fmap_app, not_elem_of_app. split; [apply Hin; by right|].
    csimpl. rewrite elem_of_list_singleton. intros Heq. apply Hnc. rewrite <- Heq.
    by apply elem_of_list_fmap_1.
Qed.

(** Undoing the creation or the removal of a relation. *)
Lemma undo_add_relation sc k r :
  sc_relations sc !! k = None ->
  set_relations (set_relations sc (<[k := r]> (sc_relations sc)))
    (delete k (<[k := r]> (sc_relations sc))) = sc.
Proof. intros H. unfold set_relations; simpl. rewrite delete_insert by done. by destruct sc. Qed.

Lemma undo_drop_relation sc k r :
  sc_relations sc !! k = Some r -> relation_name r = k ->
  add_relation r (set_relations sc (delete k (sc_relations sc))) = (sc, Ok ()).
Proof.
  intros H Hn. unfold add_relation, has_relation; simpl. rewrite Hn, lookup_delete.
  unfold set_relations; simpl. rewrite insert_delete by done. by destruct sc.
Qed.

Definition renames (c : change) : Prop :=
  match c with RenameColumn _ _ a b => a <> b | _ => False end.

(** A change that applies can be reverted, except a rename and a "drop table" of
    something that is not a table. *)
Lemma revert_defined c d d1 :
  apply c d = (d1, Ok ()) -> ~ renames c ->
  (forall n k, c = DropTable n k -> table_at d n k) ->
  exists r, revert c d = Ok r.
Proof.
  intros H Hren Hdt. destruct c; simpl in *.
  all: try (apply in_table_ok in H as (sc&tb&tb'&Hsc&Htb&Hr&->);
            rewrite (look_table_ok _ _ _ _ _ Hsc Htb); simpl; try by eauto).
  all: try (apply with_constraint_ok in Hr as (c & c' & Hc & Hm & ->); unfold get_constraint;
            rewrite Hc; simpl; destruct c; simpl in *; try done; by eauto).
  all: try (apply with_column_ok in Hr as (c & Hc & ->); unfold get_column;
            rewrite Hc; simpl; by eauto).
  all: try (apply drop_constraint_inv in Hr as (c & a & Hc & Ha & ->); unfold get_constraint;
            rewrite Hc; simpl; rewrite Ha; simpl; by eauto).
  all: try (apply with_schema_mut_ok in H as (sc&sc'&Hsc&Hr&->); unfold get_schema;
            rewrite Hsc; simpl; try by eauto).
  all: try (apply drop_relation_inv in Hr as (r & a & Hr & Ha & ->); unfold get_relation;
            rewrite Hr; simpl; rewrite Ha; simpl; by eauto).
  - eauto.
  - unfold mthen, mok, remove_column in Hr. unfold get_column.
    destruct (find_column _ _); [|done]. simpl. eauto.
  - unfold mthen, mok, remove_function in Hr. unfold get_function.
    destruct (sc_functions sc !! _) as [f|]; [|done]. by eexists.
  - eauto.
  - apply with_schema_mut_ok in H as (sc&sc'&Hsc&_&_).
    destruct (Hdt _ _ eq_refl) as [t Ht]. rewrite (relation_at_lookup _ _ _ _ Hsc) in Ht.
    rewrite (look_table_ok _ _ _ _ _ Hsc Ht). simpl. eauto.
  - destruct (decide (from_column = to_column)) as [->|]; [|done]. unfold rename_column_in, mthen, remove_column in Hr.
    unfold get_column. destruct (find_column _ _); [|done]. simpl. eauto.
Qed.

(** A successful change followed by its revert restores the snapshot up to the order of
    columns exactly when the change is [recoverable]. *)
Lemma revert_run c d d1 r :
  wf_db d -> apply c d = (d1, Ok ()) -> revert c d = Ok r -> recoverable c d ->
  exists d2, apply r d1 = (d2, Ok ()) /\ db_equiv d2 d.
Proof.
  intros Hwf H Hrev Hrec. destruct c; simpl in *.
  (* table-level changes *)
  all: try (apply in_table_ok in H as (sc&tb&tb'&Hsc&Htb&Hr&->);
            rewrite (look_table_ok _ _ _ _ _ Hsc Htb) in Hrev; simpl in Hrev;
            destruct (Hwf _ _ Hsc) as (Hscn & Hrels & Hfns);
            pose proof (Hrels _ _ Htb) as (Hts & Htn & Hnd & Hcols & Hcons)).
  (* added constraints *)
  all: try (injection Hrev as <-; rewrite Hscn, Htn; simpl;
            eapply in_table_undo; [done|done| |apply table_equiv_refl];
            eapply undo_add_constraint; done).
  (* altered constraints *)
  all: try (apply with_constraint_ok in Hr as (c & c' & Hc & Hm & ->);
            unfold get_constraint in Hrev; rewrite Hc in Hrev; simpl in Hrev;
            destruct (Hcons _ _ Hc) as (Hc1 & Hc2 & Hc3);
            destruct c as [c|c|c|c]; simpl in *; try done;
            injection Hm as <-; injection Hrev as <-; simpl; rewrite Hscn, Htn;
            eapply in_table_undo; [done|done| |apply table_equiv_refl];
            rewrite Hc3; eapply undo_with_constraint; [done|]; destruct c; simpl in *; by subst).
  (* dropped constraints *)
  all: try (apply drop_constraint_inv in Hr as (c & a & Hc & Ha & ->);
            unfold get_constraint in Hrev; rewrite Hc in Hrev; simpl in Hrev;
            destruct (Hcons _ _ Hc) as (Hc1 & Hc2 & Hc3);
            destruct c as [c|c|c|c]; simpl in *; try done;
            injection Ha as <-; injection Hrev as <-; simpl; rewrite ?Hscn, ?Htn;
            eapply in_table_undo; [done|done| |apply table_equiv_refl];
            destruct c; simpl in *; subst; by apply undo_drop_constraint).
  (* altered columns *)
  all: try (apply with_column_ok in Hr as (c & Hc & ->);
            unfold get_column in Hrev; rewrite Hc in Hrev; simpl in Hrev;
            pose proof (find_column_Some _ _ _ Hc) as [_ Hcn];
            injection Hrev as <-; simpl; rewrite Hscn, Htn, Hcn;
            eapply in_table_undo; [done|done| |apply table_equiv_refl];
            eapply undo_with_column; [done|done|by destruct c]).
  (* everything else *)
  all: try (apply with_schema_mut_ok in H as (sc&sc'&Hsc&Hr&->);
            destruct (Hwf _ _ Hsc) as (Hscn & Hrels & Hfns);
            unfold look_table, get_schema in Hrev;
            rewrite Hsc in Hrev; simpl in Hrev).
  (* created relations other than tables *)
  all: try (injection Hrev as <-; rewrite Hscn; simpl;
            apply add_relation_inv in Hr as [Hk ->]; simpl in *;
            eapply with_schema_undo; [done| |apply schema_equiv_refl];
            unfold drop_relation, mthen, mread, mok, get_relation, remove_relation; simpl;
            rewrite lookup_insert; simpl; by rewrite undo_add_relation).
  - (* AddColumn *)
    injection Hrev as <-. rewrite Hscn, Htn; simpl.
    eapply in_table_undo; [done|done| |apply table_equiv_refl]. by eapply undo_add_column.
  - (* CreateFunction *)
    injection Hrev as <-. rewrite Hscn; simpl.
    unfold add_function, has_function in Hr; simpl in Hr.
    destruct (sc_functions sc !! _) eqn:E; [done|]. injection Hr as <-.
    eapply with_schema_undo; [done| |apply schema_equiv_refl].
    unfold mthen, mok, remove_function; simpl. rewrite lookup_insert. unfold set_functions; simpl.
    rewrite delete_insert by done. by destruct sc.
  - (* CreateIndex *)
    injection Hrev as <-. rewrite Hscn; simpl.
    apply create_index_inv in Hr as (tb & Htb & Hk & ->).
    eapply with_schema_undo; [done| |apply schema_equiv_refl].
    unfold drop_relation, mthen, mread, mok, get_relation, remove_relation; simpl.
    rewrite lookup_insert; simpl. by rewrite undo_add_relation.
  - (* CreateSchema *)
    injection Hrev as <-. simpl. unfold add_schema, has_schema in H; simpl in H.
    destruct (db_schemas d !! _) eqn:E; [done|]. injection H as <-.
    unfold mthen, mok, remove_schema; simpl. rewrite lookup_insert. eexists. split; [done|].
    rewrite delete_insert by done. rewrite db_eta. apply db_equiv_refl.
  - (* CreateTable *)
    injection Hrev as <-. rewrite Hscn; simpl.
    apply create_table_inv in Hr as (tb & Htb & Hn & Hk & ->).
    eapply with_schema_undo; [done| |apply schema_equiv_refl].
    unfold mthen, mok, remove_relation; simpl. rewrite lookup_insert. by rewrite undo_add_relation.
  - (* DropColumn *)
    unfold mthen, mok, remove_column in Hr. unfold get_column in Hrev.
    destruct (find_column _ _) as [c|] eqn:E; [|done]. injection Hr as <-. injection Hrev as <-.
    simpl. rewrite Hscn, Htn.
    destruct (undo_drop_column c _ _ Hnd E) as (tb'' & Hadd & He).
    eapply in_table_undo; [done|done| |done].
    rewrite <- Hadd. f_equal. f_equal.
    pose proof (find_column_Some _ _ _ E) as [Hin _]. eapply Forall_forall in Hcols; [|done].
    destruct Hcols as [<- <-]. by destruct c.
  - (* DropFunction *)
    unfold mthen, mok, remove_function in Hr. unfold get_function in Hrev.
    destruct (sc_functions sc !! _) as [f|] eqn:E; [|done]. injection Hr as <-. injection Hrev as <-.
    simpl. rewrite Hscn. eapply with_schema_undo; [done| |apply schema_equiv_refl].
    unfold add_function, has_function; simpl. rewrite lookup_delete.
    unfold set_functions; simpl. destruct (Hfns _ _ E) as [Hf1 Hf2].
    rewrite insert_delete_insert. rewrite insert_id; [by destruct sc|].
    rewrite E. f_equal. destruct f; simpl in *; by subst.
  - (* DropIndex *)
    apply drop_relation_inv in Hr as (r0 & a & Hk & Ha & ->). unfold get_relation in Hrev.
    rewrite Hk in Hrev; simpl in Hrev. rewrite Ha in Hrev; simpl in Hrev.
    destruct r0 as [| |i|]; try done. injection Ha as <-. injection Hrev as <-.
    destruct (Hrels _ _ Hk) as [Hi1 Hi2]. simpl in *.
    destruct (Hrec i) as [t Ht]; [by rewrite (relation_at_lookup _ _ _ _ Hsc)|].
    rewrite (relation_at_lookup _ _ _ _ Hsc) in Ht. rewrite Hscn.
    eapply with_schema_undo; [done| |apply schema_equiv_refl].
    unfold create_index_in, mthen, mread, get_relation; simpl. rewrite Hi2.
    rewrite lookup_delete_ne by congruence. rewrite Ht; simpl.
    destruct (Hrels _ _ Ht) as (_ & Htn & _). rewrite Htn.
    apply undo_drop_relation; [|done]. rewrite Hk. destruct i; simpl in *; by subst.
  - (* DropSchema *)
    injection Hrev as <-. simpl. unfold mthen, mok, remove_schema in H.
    destruct (db_schemas d !! _) as [sc|] eqn:E; [|done]. injection H as <-.
    destruct (Hrec _ eq_refl) as [He1 He2].
    unfold add_schema, has_schema; simpl. rewrite lookup_delete. eexists. split; [done|].
    rewrite insert_delete_insert. rewrite insert_id; [rewrite db_eta; apply db_equiv_refl|].
    rewrite E. destruct (Hwf _ _ E) as (Hn & _ & _). destruct sc; simpl in *; by subst.
  - (* DropSequence *)
    apply drop_relation_inv in Hr as (r0 & a & Hk & Ha & ->). unfold get_relation in Hrev.
    rewrite Hk in Hrev; simpl in Hrev. rewrite Ha in Hrev; simpl in Hrev.
    destruct r0 as [| | |q]; try done. injection Ha as <-. injection Hrev as <-.
    destruct (Hrels _ _ Hk) as [Hi1 Hi2]. simpl in *.
    destruct (Hrec q) as [Ho1 Ho2]; [by rewrite (relation_at_lookup _ _ _ _ Hsc)|].
    unfold new_create_sequence; simpl. rewrite Hi1, Hi2.
    eapply with_schema_undo; [done| |apply schema_equiv_refl].
    apply undo_drop_relation; [|done]. rewrite Hk. destruct q; simpl in *; by subst.
  - (* DropTable *)
    apply remove_relation_inv in Hr as (r0 & Hk & ->).
    unfold get_relation in Hrev. rewrite Hk in Hrev; simpl in Hrev.
    destruct r0 as [tb| | |]; try done. injection Hrev as <-.
    destruct (Hrels _ _ Hk) as (Hts & Htn & Hnd & Hcols & Hcons).
    specialize (Hrec tb). rewrite (relation_at_lookup _ _ _ _ Hsc) in Hrec. specialize (Hrec Hk).
    unfold new_create_table; simpl. rewrite Hts, Htn.
    eapply with_schema_undo; [done| |apply schema_equiv_refl].
    unfold create_table_in. rewrite mfor_new_create_columns; [|done|done|].
    2:{ intros c _. simpl. apply not_elem_of_nil. }
    apply undo_drop_relation; [|by simpl]. rewrite Hk. unfold set_columns; simpl.
    destruct tb; simpl in *; by subst.
  - (* DropView *)
    apply drop_relation_inv in Hr as (r0 & a & Hk & Ha & ->). unfold get_relation in Hrev.
    rewrite Hk in Hrev; simpl in Hrev. rewrite Ha in Hrev; simpl in Hrev.
    destruct r0 as [|v| |]; try done. injection Ha as <-. injection Hrev as <-.
    destruct (Hrels _ _ Hk) as [Hi1 Hi2]. simpl in *.
    eapply with_schema_undo; [done| |apply schema_equiv_refl].
    apply undo_drop_relation; [|done]. rewrite Hk. destruct v; simpl in *; by subst.
  - (* RenameColumn *)
    unfold rename_column_in in Hr. unfold get_column in Hrev.
    destruct (find_column to_column (tb_columns tb)) as [c|] eqn:E; [|done].
    pose proof (find_column_Some _ _ _ E) as [Hin Hcn].
    injection Hrev as <-. simpl. rewrite Hscn, Htn, Hcn.
    destruct (decide (from_column = to_column)) as [->|Hne].
    + unfold mthen, remove_column in Hr. rewrite E in Hr.
      assert (col_set_name to_column c = c) as Hc by (destruct c; simpl in *; by subst).
      destruct (undo_drop_column c _ _ Hnd E) as (tb1 & Hadd & He).
      rewrite Hc, Hadd in Hr. injection Hr as <-.
      assert (NoDup (names (tb_columns tb1))) as Hnd1.
      { destruct He as (_&_&Hp&_). by rewrite Hp. }
      assert (find_column to_column (tb_columns tb1) = Some c) as E1.
      { destruct He as (_&_&Hp&_). rewrite <- E. by apply find_column_perm. }
      destruct (undo_drop_column c _ _ Hnd1 E1) as (tb2 & Hadd2 & He2).
      eapply in_table_undo; [done|done| |by eapply table_equiv_trans].
      unfold rename_column_in, mthen, remove_column. rewrite E1, Hc. exact Hadd2.
    + exfalso. unfold mthen, remove_column in Hr.
      destruct (find_column from_column (tb_columns tb)) as [c0|] eqn:E0; [|done].
      apply add_column_inv in Hr as [Hr _]. simpl in Hr.
      apply find_column_None in Hr. apply Hr. rewrite delete_column_filter by done.
      apply elem_of_list_fmap. exists c. split; [done|]. apply elem_of_list_filter.
      split; [congruence|done].
Qed.

Lemma db_equiv_relation a b n k r :
  db_equiv a b -> relation_at a n k = Some r ->
  exists r', relation_at b n k = Some r' /\ relation_equiv r r'.
Proof.
  intros He. unfold relation_at. destruct (db_schemas a !! n) as [sc|] eqn:E; [|done]; simpl.
  intros Hr. destruct (db_equiv_schema _ _ _ _ He E) as (sc' & -> & Hes). simpl.
  by eapply schema_equiv_relation.
Qed.

Lemma revert_lossy c d d1 r d2 :
  wf_db d -> apply c d = (d1, Ok ()) -> revert c d = Ok r ->
  apply r d1 = (d2, Ok ()) -> db_equiv d2 d -> recoverable c d.
Proof.
  intros Hwf H Hrev Hr2 He. destruct c; simpl in *; try done.
  - (* DropIndex *)
    apply with_schema_mut_ok in H as (sc&sc'&Hsc&Hr&->).
    apply drop_relation_inv in Hr as (r0 & a & Hk & Ha & ->).
    unfold get_schema in Hrev. rewrite Hsc in Hrev; simpl in Hrev.
    unfold get_relation in Hrev. rewrite Hk in Hrev; simpl in Hrev. rewrite Ha in Hrev; simpl in Hrev.
    injection Hrev as <-. simpl in Hr2.
    destruct (Hwf _ _ Hsc) as (Hscn & Hrels & Hfns). rewrite Hscn in Hr2.
    intros i Hi. rewrite (relation_at_lookup _ _ _ _ Hsc), Hk in Hi. injection Hi as ->.
    injection Ha as <-.
    apply with_schema_mut_ok in Hr2 as (sc2&sc2'&Hsc2&Hr2&->).
    unfold put in Hsc2; simpl in Hsc2. rewrite lookup_insert in Hsc2. injection Hsc2 as <-.
    apply create_index_inv in Hr2 as (tb & Htb & _ & _). simpl in Htb.
    apply lookup_delete_Some in Htb as [_ Htb]. exists tb.
    by rewrite (relation_at_lookup _ _ _ _ Hsc).
  - (* DropSchema *)
    injection Hrev as <-. simpl in Hr2. unfold mthen, mok, remove_schema in H.
    destruct (db_schemas d !! schema_name) as [sc0|] eqn:E; [|done]. injection H as <-.
    unfold add_schema, has_schema in Hr2; simpl in Hr2. rewrite lookup_delete in Hr2.
    injection Hr2 as <-. intros sc [= <-].
    specialize (He schema_name). simpl in He. rewrite lookup_insert, E in He.
    inversion He as [x y Hes|]; subst. destruct Hes as (_ & Hes & Hf). simpl in *.
    split; [|done]. apply map_eq. intros k. specialize (Hes k). rewrite lookup_empty in *.
    by inversion Hes.
  - (* DropSequence *)
    apply with_schema_mut_ok in H as (sc&sc'&Hsc&Hr&->).
    apply drop_relation_inv in Hr as (r0 & a & Hk & Ha & ->).
    unfold get_schema in Hrev. rewrite Hsc in Hrev; simpl in Hrev.
    unfold get_relation in Hrev. rewrite Hk in Hrev; simpl in Hrev. rewrite Ha in Hrev; simpl in Hrev.
    injection Hrev as <-. simpl in Hr2.
    destruct (Hwf _ _ Hsc) as (Hscn & Hrels & Hfns).
    intros q Hq. rewrite (relation_at_lookup _ _ _ _ Hsc), Hk in Hq. injection Hq as ->.
    injection Ha as <-. destruct (Hrels _ _ Hk) as [Hs1 Hs2]. simpl in *.
    rewrite Hs1, Hs2 in Hr2.
    apply with_schema_mut_ok in Hr2 as (sc2&sc2'&Hsc2&Hr2&->).
    apply add_relation_inv in Hr2 as [_ ->]. simpl in He.
    match type of He with db_equiv (put _ _ ?s) _ =>
      destruct (db_equiv_relation _ _ _ _ _ He
        (eq_trans (relation_at_put_eq _ _ _ _) (lookup_insert _ _ _))) as (r' & Hr' & Her) end.
    rewrite (relation_at_lookup _ _ _ _ Hsc), Hk in Hr'. injection Hr' as <-.
    simpl in Her. injection Her as Hq. by rewrite <- Hq.
  - (* DropTable *)
    apply with_schema_mut_ok in H as (sc&sc'&Hsc&Hr&->).
    apply remove_relation_inv in Hr as (r0 & Hk & ->).
    destruct (look_table _ _ _) as [[sc0 tb]|] eqn:El; [|done].
    apply look_table_inv in El as [Hsc0 Htb]. assert (sc0 = sc) as -> by congruence.
    injection Hrev as <-. destruct (Hwf _ _ Hsc) as (Hscn & Hrels & Hfns).
    destruct (Hrels _ _ Htb) as (Hts & Htn & Hnd & Hcols & Hcons).
    unfold new_create_table in Hr2; simpl in Hr2. rewrite Hts, Htn in Hr2.
    apply with_schema_mut_ok in Hr2 as (sc2&sc2'&Hsc2&Hr2&->).
    apply create_table_inv in Hr2 as (tb2 & Hm & Hn & _ & ->).
    apply mfor_add_column_names in Hm as (_ & _ & Hc). simpl in Hc.
    match type of He with db_equiv (put _ _ ?s) _ =>
      destruct (db_equiv_relation _ _ _ _ _ He
        (eq_trans (relation_at_put_eq _ _ _ _) (lookup_insert _ _ _))) as (r' & Hr' & Her) end.
    intros tb0 Htb0. rewrite Hr' in Htb0. injection Htb0 as ->.
    destruct Her as (_&_&_&Her). congruence.
Qed.

(** ** Rolling back a list of changes *)

Definition can_revert (c : change) (d : database) : Prop :=
  ~ renames c /\ (forall n k, c = DropTable n k -> table_at d n k).

Lemma steps_wf G cs d d' : steps G cs d d' -> wf_db d -> wf_db d'.
Proof. induction 1 as [|c cs d d1 d2 Ha _ _ IH]; [done|]. intros Hd. apply IH. by eapply apply_wf. Qed.

Lemma collect_defined cs d d' :
  steps can_revert cs d d' -> exists rs, collect_reverts cs d = Some rs.
Proof.
  induction 1 as [|c cs d d1 d2 Ha [Hg1 Hg2] _ [rs IH]]; [by exists []|]. simpl.
  destruct (revert_defined _ _ _ Ha Hg1 Hg2) as [r Hr]. rewrite Hr, Ha, IH. simpl. eauto.
Qed.

Lemma apply_all_app cs1 cs2 d :
  apply_all (cs1 ++ cs2) d =
  match apply_all cs1 d with (d1, Ok _) => apply_all cs2 d1 | (d1, Err e) => (d1, Err e) end.
Proof.
  revert d. induction cs1 as [|c cs1 IH]; intros d; [done|]. unfold apply_all in *; simpl.
  unfold mthen. destruct (apply c d) as [d1 [[]|e]]; [apply IH|done].
Qed.

Lemma apply_all_compat cs a b a' :
  wf_db a -> db_equiv a b -> apply_all cs a = (a', Ok ()) ->
  exists b', apply_all cs b = (b', Ok ()) /\ db_equiv a' b'.
Proof.
  revert a b. induction cs as [|c cs IH]; intros a b Hwf He H; unfold apply_all in *; simpl in *.
  { injection H as <-. eauto. }
  unfold mthen in *. destruct (apply c a) as [a1 [[]|e]] eqn:Ea; [|done].
  destruct (apply_compat _ _ _ _ Hwf He Ea) as (b1 & -> & He1).
  eapply IH; [|done|done]. by eapply apply_wf.
Qed.

Lemma rollback_run cs d d' rs :
  wf_db d -> steps recoverable cs d d' -> collect_reverts cs d = Some rs ->
  exists d2, apply_all (reverse rs) d' = (d2, Ok ()) /\ db_equiv d2 d.
Proof.
  intros Hwf H. revert rs Hwf. induction H as [d|c cs d d1 d2 Ha Hg Hs IH]; intros rs Hwf; simpl.
  { intros [= <-]. exists d. split; [done|apply db_equiv_refl]. }
  rewrite Ha. destruct (revert c d) as [r|] eqn:Hr; [|done].
  destruct (collect_reverts cs d1) as [rs'|]; simpl; [|done]. intros [= <-].
  pose proof (apply_wf _ _ _ _ Hwf Ha) as Hwf1.
  destruct (IH _ Hwf1 eq_refl) as (e & He1 & He2).
  rewrite reverse_cons, apply_all_app, He1.
  destruct (revert_run _ _ _ _ Hwf Ha Hr Hg) as (e2 & Hr2 & He3).
  assert (wf_db e) as Hwfe.
  { apply apply_all_steps in He1. eapply steps_wf; [done|]. by eapply steps_wf. }
  destruct (apply_compat _ _ e _ Hwf1 (db_equiv_sym _ _ He2) Hr2) as (e3 & He4 & He5).
  exists e3. unfold apply_all; simpl. unfold mthen. rewrite He4. split; [done|].
  eapply db_equiv_trans; [by apply db_equiv_sym|done].
Qed.
