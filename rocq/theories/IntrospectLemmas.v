(** Loading a snapshot from rows. *)
From Verif Require Import Base Types Changes SpecSnapshot Diff Sql History ApplyLemmas StepLemmas
  Catalog Introspect SpecIntrospect.

(** ** Decoding *)
Lemma decode_all {A} (f : row -> exec A) (xs : list A) l :
  Forall2 (fun x r => f r = Ret x) xs l -> decode_rows f l = Ret xs.
Proof. induction 1 as [|x r xs l H _ IH]; csimpl; [done|]. rewrite H. simpl. by rewrite IH. Qed.

Lemma decode_fmap {A B} (f : row -> exec A) (g : B -> A) (h : B -> row) (l : list B) :
  (forall x, f (h x) = Ret (g x)) -> decode_rows f (h <$> l) = Ret (g <$> l).
Proof. intros H. apply decode_all. induction l; csimpl; constructor; auto. Qed.

Lemma decode_rel {A B} (f : row -> exec A) (g : B -> A) (R : B -> row -> Prop) (xs : list B) l :
  (forall x r, R x r -> f r = Ret (g x)) -> Forall2 R xs l -> decode_rows f l = Ret (g <$> xs).
Proof. intros H HF. apply decode_all. induction HF; csimpl; constructor; auto. Qed.

(** ** The snapshot made of lists of objects *)
Record loaded := Loaded {
  ld_schemas : list str; ld_relations : list relation; ld_columns : list column;
  ld_constraints : list constraint; ld_functions : list function }.

Definition relation_key (r : relation) : str * str := (relation_schema r, relation_name r).

Definition built_columns (b : loaded) (n k : str) : list column :=
  filter (fun c => column_place c = (n, k)) (ld_columns b).
Definition built_constraints (b : loaded) (n k : str) : gmap str constraint :=
  list_to_map ((fun c => (constraint_name c, c)) <$>
    filter (fun c => constraint_place c = (n, k)) (ld_constraints b)).
Definition fill (b : loaded) (r : relation) : relation :=
  match r with
  | RTable t => RTable (Table (tb_schema t) (tb_name t) (built_columns b (tb_schema t) (tb_name t))
                          (built_constraints b (tb_schema t) (tb_name t)))
  | _ => r
  end.
Definition built_relations (b : loaded) (n : str) : gmap str relation :=
  list_to_map ((fun r => (relation_name r, fill b r)) <$>
    filter (fun r => relation_schema r = n) (ld_relations b)).
Definition built_functions (b : loaded) (n : str) : gmap str function :=
  list_to_map ((fun f => (fn_name f, f)) <$> filter (fun f => fn_schema f = n) (ld_functions b)).
Definition built_schema (b : loaded) (n : str) : schema :=
  Schema n (built_relations b n) (built_functions b n).
Definition built (b : loaded) : database :=
  Database (list_to_map ((fun n => (n, built_schema b n)) <$> ld_schemas b)).

(** Lists of values with names, looked up by name. *)
Section named.
  Context {A V : Type} (key : A -> str) (val : A -> V).
  Lemma named_none (l : list A) k :
    (list_to_map ((fun a => (key a, val a)) <$> l) : gmap str V) !! k = None <-> k ∉ key <$> l.
  Proof.
    rewrite <- not_elem_of_list_to_map, <- list_fmap_compose. done.
  Qed.
  Lemma named_some (l : list A) k v :
    NoDup (key <$> l) ->
    (list_to_map ((fun a => (key a, val a)) <$> l) : gmap str V) !! k = Some v <->
    exists a, a ∈ l /\ key a = k /\ val a = v.
  Proof.
    intros Hnd. rewrite <- elem_of_list_to_map.
    - rewrite elem_of_list_fmap. split; [intros (a & [= -> ->] & Ha); eauto|intros (a & Ha & <- & <-); eauto].
    - rewrite <- list_fmap_compose. done.
  Qed.
  Lemma named_app (l : list A) a :
    key a ∉ key <$> l ->
    (list_to_map ((fun a => (key a, val a)) <$> l ++ [a]) : gmap str V) =
    <[key a := val a]> (list_to_map ((fun a => (key a, val a)) <$> l)).
  Proof.
    intros Hk. rewrite fmap_app, list_to_map_app. csimpl. rewrite insert_empty.
    rewrite map_union_comm; [by rewrite insert_union_singleton_l|].
    apply map_disjoint_singleton_r. by apply named_none.
  Qed.
End named.

Lemma built_lookup b n :
  db_schemas (built b) !! n = if decide (n ∈ ld_schemas b) then Some (built_schema b n) else None.
Proof.
  unfold built. cbn [db_schemas]. induction (ld_schemas b) as [|m l IH].
  - rewrite decide_False by apply not_elem_of_nil. apply lookup_empty.
  - rewrite fmap_cons, list_to_map_cons. destruct (decide (m = n)) as [->|Hne].
    + rewrite lookup_insert. by rewrite decide_True by left.
    + rewrite lookup_insert_ne by done. rewrite IH.
      destruct (decide (n ∈ l)); [by rewrite decide_True by (by right)|].
      rewrite decide_False; [done|]. intros [->|?]%elem_of_cons; done.
Qed.

Lemma built_in b n : n ∈ ld_schemas b -> db_schemas (built b) !! n = Some (built_schema b n).
Proof. intros. rewrite built_lookup. by rewrite decide_True. Qed.

Lemma built_out b n : n ∉ ld_schemas b -> db_schemas (built b) !! n = None.
Proof. intros. rewrite built_lookup. by rewrite decide_False. Qed.

(** Two stages with the same schemas, all but one of which are equal. *)
Lemma built_change b b' n s :
  n ∈ ld_schemas b -> ld_schemas b' = ld_schemas b -> built_schema b' n = s ->
  (forall m, m <> n -> built_schema b' m = built_schema b m) ->
  built b' = Database (<[n := s]> (db_schemas (built b))).
Proof.
  intros Hn Hs Hb Ho. rewrite <- (db_eta (built b')). f_equal. apply map_eq. intros m.
  destruct (decide (m = n)) as [->|Hne].
  - rewrite lookup_insert, built_in by (by rewrite Hs). by rewrite Hb.
  - rewrite lookup_insert_ne by done. rewrite !built_lookup, Hs. by rewrite Ho.
Qed.

Lemma filter_snoc {A} (P : A -> Prop) `{!forall a, Decision (P a)} (l : list A) a :
  filter P (l ++ [a]) = filter P l ++ (if decide (P a) then [a] else []).
Proof. by rewrite filter_app. Qed.

(** Adding to a list of keys. *)
Lemma nodup_snoc {A} (l : list A) a : NoDup (l ++ [a]) <-> NoDup l /\ a ∉ l.
Proof.
  rewrite NoDup_app. split.
  - intros (H & H1 & H2). split; [done|]. intros Ha. apply (H1 a); [done|left].
  - intros (H & H1). split_and!; [done| |apply NoDup_singleton]. intros x Hx ->%elem_of_list_singleton. done.
Qed.

(** ** One step *)

Section steps.
  Context (b : loaded).

  Definition with_schema_named (n : str) : loaded :=
    Loaded (ld_schemas b ++ [n]) (ld_relations b) (ld_columns b) (ld_constraints b) (ld_functions b).
  Definition with_relation (r : relation) : loaded :=
    Loaded (ld_schemas b) (ld_relations b ++ [r]) (ld_columns b) (ld_constraints b) (ld_functions b).
  Definition with_column (c : column) : loaded :=
    Loaded (ld_schemas b) (ld_relations b) (ld_columns b ++ [c]) (ld_constraints b) (ld_functions b).
  Definition with_constraint (c : constraint) : loaded :=
    Loaded (ld_schemas b) (ld_relations b) (ld_columns b) (ld_constraints b ++ [c]) (ld_functions b).
  Definition with_function (f : function) : loaded :=
    Loaded (ld_schemas b) (ld_relations b) (ld_columns b) (ld_constraints b) (ld_functions b ++ [f]).

  Lemma attempt_ok {S} (m : mut S ()) s s' : m s = (s', Ok ()) -> attempt m s = Ret s'.
  Proof. unfold attempt. by intros ->. Qed.
  Lemma attempt_err {S} (m : mut S ()) s : (exists s' e, m s = (s', Err e)) ->
    exists e, attempt m s = Raise (SnapshotFailed e).
  Proof. unfold attempt. intros (s' & e & ->). by exists e. Qed.

  (** Schemas *)
  Lemma load_schema_ok n :
    ld_relations b = [] -> ld_functions b = [] -> n ∉ ld_schemas b ->
    attempt (add_schema (schema_new n)) (built b) = Ret (built (with_schema_named n)).
  Proof.
    intros Hr Hf Hn. apply attempt_ok. unfold add_schema, has_schema. cbn [sc_name schema_new].
    rewrite built_out by done. f_equal. rewrite <- (db_eta (built (with_schema_named n))). f_equal.
    apply map_eq. intros m. rewrite (built_lookup (with_schema_named n)). cbn [ld_schemas with_schema_named].
    destruct (decide (m = n)) as [->|Hne].
    - rewrite lookup_insert, decide_True by (apply elem_of_app; right; left).
      unfold built_schema, built_relations, built_functions, schema_new. cbn. by rewrite Hr, Hf.
    - rewrite lookup_insert_ne, built_lookup by done.
      destruct (decide (m ∈ ld_schemas b)).
      + rewrite decide_True by (apply elem_of_app; by left). done.
      + rewrite decide_False; [done|]. rewrite elem_of_app, elem_of_list_singleton. naive_solver.
  Qed.
  Lemma load_schema_err n :
    n ∈ ld_schemas b -> exists e, attempt (add_schema (schema_new n)) (built b) = Raise (SnapshotFailed e).
  Proof.
    intros Hn. apply attempt_err. unfold add_schema, has_schema. cbn [sc_name schema_new].
    rewrite built_in by done. eauto.
  Qed.

  (** Relations *)
  Lemma relation_key_in r :
    relation_key r ∈ relation_key <$> ld_relations b <->
    relation_name r ∈ relation_name <$> filter (fun x => relation_schema x = relation_schema r) (ld_relations b).
  Proof.
    rewrite !elem_of_list_fmap. unfold relation_key. split.
    - intros (x & [= Hs Hn] & Hx). exists x. split; [done|]. by apply elem_of_list_filter.
    - intros (x & Hn & [Hs Hx]%elem_of_list_filter). exists x. by rewrite Hs, Hn.
  Qed.
  Lemma load_relation_ok r :
    relation_schema r ∈ ld_schemas b -> relation_key r ∉ relation_key <$> ld_relations b ->
    fill b r = r -> load_relation r (built b) = Ret (built (with_relation r)).
  Proof.
    intros Hs Hk Hfill. apply attempt_ok. unfold with_schema_mut. rewrite built_in by done.
    unfold add_relation, has_relation. cbn [sc_relations built_schema].
    rewrite relation_key_in in Hk. pose proof Hk as Hk'.
    apply (named_none _ (fill b)) in Hk. unfold built_relations at 1. rewrite Hk. f_equal.
    symmetry. apply built_change; [done|done| |].
    - unfold built_schema, set_relations. cbn [sc_name sc_relations sc_functions]. f_equal.
      unfold built_relations. cbn [ld_relations with_relation]. rewrite filter_snoc, decide_True by done.
      rewrite (named_app relation_name (fill b)); [by rewrite Hfill|done].
    - intros m Hne. unfold built_schema, built_relations. cbn [ld_relations with_relation].
      rewrite filter_snoc, decide_False, app_nil_r by done. done.
  Qed.
  Lemma load_relation_err r :
    relation_schema r ∉ ld_schemas b \/ relation_key r ∈ relation_key <$> ld_relations b ->
    exists e, load_relation r (built b) = Raise (SnapshotFailed e).
  Proof.
    intros H. apply attempt_err. unfold with_schema_mut. rewrite built_lookup.
    destruct (decide (relation_schema r ∈ ld_schemas b)) as [Hs|Hs]; [|eauto].
    destruct H as [?|H]; [done|]. unfold add_relation, has_relation. cbn [sc_relations built_schema].
    destruct (built_relations b (relation_schema r) !! relation_name r) eqn:E; [eauto|].
    apply (named_none _ (fill b)) in E. by rewrite relation_key_in in H.
  Qed.

  (** Functions *)
  Lemma function_key_in f :
    function_name f ∈ function_name <$> ld_functions b <->
    fn_name f ∈ fn_name <$> filter (fun x => fn_schema x = fn_schema f) (ld_functions b).
  Proof.
    rewrite !elem_of_list_fmap. unfold function_name. split.
    - intros (x & [= Hs Hn] & Hx). exists x. split; [done|]. by apply elem_of_list_filter.
    - intros (x & Hn & [Hs Hx]%elem_of_list_filter). exists x. by rewrite Hs, Hn.
  Qed.
  Lemma load_function_ok f :
    fn_schema f ∈ ld_schemas b -> function_name f ∉ function_name <$> ld_functions b ->
    load_function f (built b) = Ret (built (with_function f)).
  Proof.
    intros Hs Hk. apply attempt_ok. unfold with_schema_mut. rewrite built_in by done.
    unfold add_function, has_function. cbn [sc_functions built_schema].
    rewrite function_key_in in Hk. pose proof Hk as Hk'.
    apply (named_none _ (fun f => f)) in Hk. unfold built_functions at 1. rewrite Hk. f_equal.
    symmetry. apply built_change; [done|done| |].
    - unfold built_schema, set_functions. cbn [sc_name sc_relations sc_functions]. f_equal.
      unfold built_functions. cbn [ld_functions with_function]. rewrite filter_snoc, decide_True by done.
      by rewrite (named_app fn_name (fun f => f)).
    - intros m Hne. unfold built_schema, built_functions. cbn [ld_functions with_function].
      rewrite filter_snoc, decide_False, app_nil_r by done. done.
  Qed.
  Lemma load_function_err f :
    fn_schema f ∉ ld_schemas b \/ function_name f ∈ function_name <$> ld_functions b ->
    exists e, load_function f (built b) = Raise (SnapshotFailed e).
  Proof.
    intros H. apply attempt_err. unfold with_schema_mut. rewrite built_lookup.
    destruct (decide (fn_schema f ∈ ld_schemas b)) as [Hs|Hs]; [|eauto].
    destruct H as [?|H]; [done|]. unfold add_function, has_function. cbn [sc_functions built_schema].
    destruct (built_functions b (fn_schema f) !! fn_name f) eqn:E; [eauto|].
    apply (named_none _ (fun f => f)) in E. by rewrite function_key_in in H.
  Qed.

  (** Inside a table *)
  Definition table_key (r : relation) : option (str * str) :=
    match r with RTable t => Some (tb_schema t, tb_name t) | _ => None end.

  Context (Hnd : NoDup (relation_key <$> ld_relations b)).
  Context (Hsc : forall r, r ∈ ld_relations b -> relation_schema r ∈ ld_schemas b).

  Lemma relation_names_nodup n : NoDup (relation_name <$> filter (fun r => relation_schema r = n) (ld_relations b)).
  Proof.
    clear Hsc. induction (ld_relations b) as [|r l IH]; csimpl; [constructor|].
    apply NoDup_cons in Hnd as [Hr Hl]. rewrite filter_cons. destruct (decide _) as [Hs|]; [|by apply IH].
    csimpl. constructor; [|by apply IH]. intros (x & Hx & [Hxs Hin]%elem_of_list_filter)%elem_of_list_fmap.
    apply Hr, elem_of_list_fmap. exists x. unfold relation_key. by rewrite Hx, Hxs, Hs.
  Qed.

  Lemma relation_found n k r :
    built_relations b n !! k = Some r <->
    exists x, x ∈ ld_relations b /\ relation_key x = (n, k) /\ fill b x = r.
  Proof.
    unfold built_relations. rewrite (named_some _ (fill b)) by apply relation_names_nodup.
    setoid_rewrite elem_of_list_filter. unfold relation_key. naive_solver.
  Qed.

  Lemma table_found n k :
    Some (n, k) ∈ table_key <$> ld_relations b ->
    n ∈ ld_schemas b /\
    built_relations b n !! k = Some (RTable (Table n k (built_columns b n k) (built_constraints b n k))).
  Proof.
    intros (r & Hr & Hin)%elem_of_list_fmap. destruct r; try done. injection Hr as -> ->.
    split; [by apply (Hsc _ Hin)|]. apply relation_found. by exists (RTable t).
  Qed.

  Lemma no_table {A} n k (m : mut table A) :
    Some (n, k) ∉ table_key <$> ld_relations b ->
    exists s' e, with_schema_mut n (with_relation_mut k (with_table_mut m)) (built b) = (s', Err e).
  Proof.
    intros Hno. unfold with_schema_mut. rewrite built_lookup.
    destruct (decide (n ∈ ld_schemas b)); [|eauto]. unfold with_relation_mut. cbn [sc_relations built_schema].
    destruct (built_relations b n !! k) as [r|] eqn:E; [|eauto].
    apply relation_found in E as (x & Hin & Hk & <-). unfold with_table_mut.
    destruct x; cbn [fill]; eauto. exfalso. apply Hno, elem_of_list_fmap. exists (RTable t).
    unfold relation_key in Hk. cbn in Hk. cbn. by rewrite Hk.
  Qed.

  Lemma table_change b' n k t :
    Some (n, k) ∈ table_key <$> ld_relations b ->
    ld_schemas b' = ld_schemas b -> ld_relations b' = ld_relations b -> ld_functions b' = ld_functions b ->
    (forall n' k', (n', k') <> (n, k) -> built_columns b' n' k' = built_columns b n' k' /\
       built_constraints b' n' k' = built_constraints b n' k') ->
    Table n k (built_columns b' n k) (built_constraints b' n k) = t ->
    built b' = Database (<[n := set_relations (built_schema b n)
      (<[k := RTable t]> (built_relations b n))]> (db_schemas (built b))).
  Proof.
    intros Hin Hs Hr Hf Ho <-. destruct (table_found _ _ Hin) as [Hn Ht].
    assert (forall x, x ∈ ld_relations b -> relation_key x <> (n, k) -> fill b' x = fill b x) as Hfill.
    { intros x Hx Hne. destruct x; try done. cbn. destruct (Ho (tb_schema t) (tb_name t)) as [-> ->]; done. }
    apply built_change; [done|done| |].
    - unfold built_schema, set_relations. cbn [sc_name sc_functions].
      f_equal; [|unfold built_functions; by rewrite Hf].
      apply map_eq. intros j. unfold built_relations at 1. rewrite Hr.
      destruct (decide (j = k)) as [->|Hne].
      + rewrite lookup_insert. apply (named_some _ (fill b')); [apply relation_names_nodup|].
        apply elem_of_list_fmap in Hin as (r & Hrk & Hin). destruct r; try done. injection Hrk as -> ->.
        exists (RTable t). split_and!; [by apply elem_of_list_filter|done|done].
      + rewrite lookup_insert_ne by done. apply option_eq. intros r.
        rewrite (named_some _ (fill b')) by apply relation_names_nodup. rewrite relation_found.
        setoid_rewrite elem_of_list_filter. unfold relation_key.
        split; intros (x & Hx); exists x.
        * destruct Hx as ([Hxs Hx] & Hj & <-). split_and!; [done|by f_equal|]. symmetry. apply Hfill; [done|].
          unfold relation_key. congruence.
        * destruct Hx as (Hx & [= Hxs Hj] & <-). split_and!; [done|done|done|]. apply Hfill; [done|].
          unfold relation_key. congruence.
    - intros m Hne. unfold built_schema. f_equal; [|unfold built_functions; by rewrite Hf].
      unfold built_relations. rewrite Hr. f_equal. apply list_fmap_ext. intros ix x Hx.
      apply elem_of_list_lookup_2, elem_of_list_filter in Hx as [Hxs Hx].
      f_equal. apply Hfill; [done|]. unfold relation_key. congruence.
  Qed.

  Lemma find_column_none n (l : list column) : find_column n l = None <-> n ∉ col_name <$> l.
  Proof.
    induction l as [|c l IH]; csimpl.
    - split; [intros _; apply not_elem_of_nil|done].
    - rewrite not_elem_of_cons. destruct (decide (col_name c = n)); naive_solver.
  Qed.

  Lemma column_key_in c :
    (column_place c, col_name c) ∈ (fun c => (column_place c, col_name c)) <$> ld_columns b <->
    col_name c ∈ col_name <$> built_columns b (col_schema c) (col_table c).
  Proof.
    unfold built_columns. rewrite !elem_of_list_fmap. split.
    - intros (x & [= Hs Hn Hp] & Hx). exists x. split; [done|]. apply elem_of_list_filter.
      split; [|done]. unfold column_place. congruence.
    - intros (x & Hn & [Hp Hx]%elem_of_list_filter). exists x. split; [|done].
      rewrite Hp, <- Hn. done.
  Qed.

  Lemma load_column_ok c :
    Some (column_place c) ∈ table_key <$> ld_relations b ->
    (column_place c, col_name c) ∉ (fun c => (column_place c, col_name c)) <$> ld_columns b ->
    load_column c (built b) = Ret (built (with_column c)).
  Proof.
    intros Ht Hk. apply attempt_ok. destruct (table_found _ _ Ht) as [Hn Hf].
    unfold with_schema_mut. rewrite built_in by done. unfold with_relation_mut.
    cbn [sc_relations built_schema]. rewrite Hf. cbn [with_table_mut].
    unfold add_column, has_column. cbn [tb_columns].
    rewrite column_key_in, <- find_column_none in Hk. rewrite Hk. f_equal. symmetry.
    apply table_change; [done|done|done|done| |].
    - intros n' k' Hne. split; [|done]. unfold built_columns. cbn [ld_columns with_column].
      rewrite filter_snoc, decide_False, app_nil_r; [done|]. intros H. apply Hne. by rewrite <- H.
    - unfold set_columns. cbn. f_equal. unfold built_columns. cbn [ld_columns with_column].
      by rewrite filter_snoc, decide_True.
  Qed.
  Lemma load_column_err c :
    Some (column_place c) ∉ table_key <$> ld_relations b \/
    (column_place c, col_name c) ∈ (fun c => (column_place c, col_name c)) <$> ld_columns b ->
    exists e, load_column c (built b) = Raise (SnapshotFailed e).
  Proof.
    intros H. apply attempt_err.
    destruct (decide (Some (column_place c) ∈ table_key <$> ld_relations b)) as [Ht|Ht]; [|by apply no_table].
    destruct H as [?|H]; [done|]. destruct (table_found _ _ Ht) as [Hn Hf].
    unfold with_schema_mut. rewrite built_in by done. unfold with_relation_mut.
    cbn [sc_relations built_schema]. rewrite Hf. cbn [with_table_mut].
    unfold add_column, has_column. cbn [tb_columns]. rewrite column_key_in in H.
    destruct (find_column _ _) eqn:E; [eauto|]. by apply find_column_none in E.
  Qed.

  Lemma constraint_key_in c :
    (constraint_place c, constraint_name c) ∈ (fun c => (constraint_place c, constraint_name c)) <$> ld_constraints b <->
    constraint_name c ∈ constraint_name <$>
      filter (fun x => constraint_place x = (constraint_schema c, constraint_table c)) (ld_constraints b).
  Proof.
    rewrite !elem_of_list_fmap. split.
    - intros (x & [= Hs Hn Hp] & Hx). exists x. split; [done|]. apply elem_of_list_filter.
      split; [|done]. unfold constraint_place. congruence.
    - intros (x & Hn & [Hp Hx]%elem_of_list_filter). exists x. split; [|done].
      rewrite Hp, <- Hn. done.
  Qed.

  Lemma load_constraint_ok c :
    Some (constraint_place c) ∈ table_key <$> ld_relations b ->
    (constraint_place c, constraint_name c) ∉ (fun c => (constraint_place c, constraint_name c)) <$> ld_constraints b ->
    load_constraint c (built b) = Ret (built (with_constraint c)).
  Proof.
    intros Ht Hk. apply attempt_ok. destruct (table_found _ _ Ht) as [Hn Hf].
    unfold with_schema_mut. rewrite built_in by done. unfold with_relation_mut.
    cbn [sc_relations built_schema]. rewrite Hf. cbn [with_table_mut].
    unfold add_constraint, has_constraint. cbn [tb_constraints].
    rewrite constraint_key_in in Hk. pose proof Hk as Hk'. apply (named_none _ (fun c => c)) in Hk.
    unfold built_constraints at 1. rewrite Hk. f_equal. symmetry.
    apply table_change; [done|done|done|done| |].
    - intros n' k' Hne. split; [done|]. unfold built_constraints. cbn [ld_constraints with_constraint].
      rewrite filter_snoc, decide_False, app_nil_r; [done|]. intros H. apply Hne. by rewrite <- H.
    - unfold set_constraints. cbn. f_equal. unfold built_constraints. cbn [ld_constraints with_constraint].
      rewrite filter_snoc, decide_True by done. by rewrite (named_app constraint_name (fun c => c)).
  Qed.
  Lemma load_constraint_err c :
    Some (constraint_place c) ∉ table_key <$> ld_relations b \/
    (constraint_place c, constraint_name c) ∈ (fun c => (constraint_place c, constraint_name c)) <$> ld_constraints b ->
    exists e, load_constraint c (built b) = Raise (SnapshotFailed e).
  Proof.
    intros H. apply attempt_err.
    destruct (decide (Some (constraint_place c) ∈ table_key <$> ld_relations b)) as [Ht|Ht]; [|by apply no_table].
    destruct H as [?|H]; [done|]. destruct (table_found _ _ Ht) as [Hn Hf].
    unfold with_schema_mut. rewrite built_in by done. unfold with_relation_mut.
    cbn [sc_relations built_schema]. rewrite Hf. cbn [with_table_mut].
    unfold add_constraint, has_constraint. cbn [tb_constraints]. rewrite constraint_key_in in H.
    destruct (built_constraints b (constraint_schema c) (constraint_table c) !! constraint_name c) eqn:E; [eauto|].
    by apply (named_none _ (fun c => c)) in E.
  Qed.
End steps.
