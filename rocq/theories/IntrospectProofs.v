(** Introspection succeeds exactly on coherent rows, with exactly their objects. *)
From Verif Require Import Base Types Changes SpecSnapshot Diff Sql History ApplyLemmas StepLemmas
  Catalog Introspect SpecIntrospect IntrospectLemmas.

(** ** Loops *)
Section loop.
  Context {A K : Type} (f : A -> database -> exec database) (add : loaded -> A -> loaded).
  Context (inv : loaded -> Prop) (keys : loaded -> list K) (key : A -> K) (Q : loaded -> A -> Prop).
  Context (dec : forall b x, Decision (key x ∉ keys b /\ Q b x)).
  Context (Hok : forall b x, inv b -> NoDup (keys b) -> key x ∉ keys b -> Q b x ->
             f x (built b) = Ret (built (add b x)) /\ inv (add b x)).
  Context (Herr : forall b x, inv b -> NoDup (keys b) -> ~ (key x ∉ keys b /\ Q b x) ->
             exists e, f x (built b) = Raise (SnapshotFailed e)).
  Context (Hkeys : forall b x, keys (add b x) = keys b ++ [key x]).
  Context (HQ : forall b x y, Q (add b x) y <-> Q b y).

  Lemma loop_all b l :
    inv b -> NoDup (keys b) ->
    (NoDup (keys b ++ (key <$> l)) /\ (forall x, x ∈ l -> Q b x) /\
     efor f l (built b) = Ret (built (foldl add b l)) /\ inv (foldl add b l)) \/
    (~ (NoDup (keys b ++ (key <$> l)) /\ (forall x, x ∈ l -> Q b x)) /\
     exists e, efor f l (built b) = Raise (SnapshotFailed e)).
  Proof.
    revert b. induction l as [|x l IH]; intros b Hi Hnd.
    { left. cbn. rewrite app_nil_r. split_and!; [done| |done|done]. by intros x ?%elem_of_nil. }
    rewrite fmap_cons. cbn [efor foldl].
    destruct (decide (key x ∉ keys b /\ Q b x)) as [[Hk Hq]|Hno].
    - destruct (Hok b x Hi Hnd Hk Hq) as [-> Hi']. cbn [ebind].
      assert (NoDup (keys (add b x))) as Hnd' by (rewrite Hkeys; by apply nodup_snoc).
      destruct (IH (add b x) Hi' Hnd') as [(H1 & H2 & H3 & H4)|(H1 & H2)];
        rewrite Hkeys, <- app_assoc in H1; cbn in H1.
      + left. split_and!; [done| |done|done]. intros y [->|Hy]%elem_of_cons; [done|].
        apply (HQ b x). by apply H2.
      + right. split; [|done]. intros [H3 H4]. apply H1. split; [done|].
        intros y Hy. apply HQ, H4. by right.
    - right. split.
      + intros [H1 H2]. apply Hno. split; [|apply H2; left].
        intros Hin. apply NoDup_app in H1 as (_ & H1 & _). apply (H1 _ Hin). left.
      + destruct (Herr b x Hi Hnd Hno) as [e ->]. by exists e.
  Qed.
End loop.

Definition relation_keys (b : loaded) : list (str * str) := relation_key <$> ld_relations b.
Definition column_keys (b : loaded) : list (str * str * str) :=
  (fun c => (column_place c, col_name c)) <$> ld_columns b.
Definition constraint_keys (b : loaded) : list (str * str * str) :=
  (fun c => (constraint_place c, constraint_name c)) <$> ld_constraints b.
Definition function_keys (b : loaded) : list (str * str) := function_name <$> ld_functions b.

(** ** The phases *)
Definition add_schemas (b : loaded) (l : list str) : loaded :=
  Loaded (ld_schemas b ++ l) (ld_relations b) (ld_columns b) (ld_constraints b) (ld_functions b).
Definition add_relations (b : loaded) (l : list relation) : loaded :=
  Loaded (ld_schemas b) (ld_relations b ++ l) (ld_columns b) (ld_constraints b) (ld_functions b).
Definition add_columns (b : loaded) (l : list column) : loaded :=
  Loaded (ld_schemas b) (ld_relations b) (ld_columns b ++ l) (ld_constraints b) (ld_functions b).
Definition add_constraints (b : loaded) (l : list constraint) : loaded :=
  Loaded (ld_schemas b) (ld_relations b) (ld_columns b) (ld_constraints b ++ l) (ld_functions b).
Definition add_functions (b : loaded) (l : list function) : loaded :=
  Loaded (ld_schemas b) (ld_relations b) (ld_columns b) (ld_constraints b) (ld_functions b ++ l).

Ltac fold_adds :=
  intros b l; revert b; induction l as [|? ? IH]; intros b;
  [destruct b; unfold add_schemas, add_relations, add_columns, add_constraints, add_functions;
   cbn; by rewrite app_nil_r|
   cbn [foldl]; rewrite IH; unfold add_schemas, add_relations, add_columns, add_constraints, add_functions;
   cbn; by rewrite <- app_assoc].
Lemma fold_schemas : forall b l, foldl with_schema_named b l = add_schemas b l.
Proof. fold_adds. Qed.
Lemma fold_relations {A} (g : A -> relation) :
  forall b l, foldl (fun b x => with_relation b (g x)) b l = add_relations b (g <$> l).
Proof. fold_adds. Qed.
Lemma fold_columns : forall b l, foldl with_column b l = add_columns b l.
Proof. fold_adds. Qed.
Lemma fold_constraints : forall b l, foldl with_constraint b l = add_constraints b l.
Proof. fold_adds. Qed.
Lemma fold_functions : forall b l, foldl with_function b l = add_functions b l.
Proof. fold_adds. Qed.

(** The relations have distinct names, and lie in schemas that exist. *)
Definition sound (b : loaded) : Prop :=
  NoDup (relation_keys b) /\ forall r, r ∈ ld_relations b -> relation_schema r ∈ ld_schemas b.

(** What a phase does: it adds its objects, or fails because a condition does not hold. *)
Definition phase (P : Prop) (inv : loaded -> Prop) (r : exec database) (b : loaded) : Prop :=
  (P /\ r = Ret (built b) /\ inv b) \/ (~ P /\ exists e, r = Raise (SnapshotFailed e)).

Lemma phase_schemas l :
  phase (NoDup l) sound (efor (fun s => attempt (add_schema s)) (schema_new <$> l) database_new)
    (Loaded l [] [] [] []).
Proof.
  change database_new with (built (Loaded [] [] [] [] [])).
  assert (forall b l, efor (fun s => attempt (add_schema s)) (schema_new <$> l) b =
                      efor (fun n => attempt (add_schema (schema_new n))) l b) as Hmap.
  { clear l. intros b l. revert b. induction l as [|n l IH]; intros b; [done|].
    rewrite fmap_cons. cbn [efor]. destruct (attempt _ _); cbn [ebind]; [apply IH|done..]. }
  rewrite Hmap.
  destruct (loop_all (fun n => attempt (add_schema (schema_new n))) with_schema_named
    (fun b => ld_relations b = [] /\ ld_functions b = []) ld_schemas (fun n => n) (fun _ _ => True) _)
    with (b := Loaded [] [] [] [] []) (l := l) as [(H1 & _ & H3 & H4)|(H1 & H2)].
  - intros b x [Hr Hf] _ Hk _. split; [by apply load_schema_ok|done].
  - intros b x _ _ Hno. apply load_schema_err. destruct (decide (x ∈ ld_schemas b)); [done|].
    exfalso. by apply Hno.
  - done.
  - done.
  - done.
  - constructor.
  - left. rewrite fold_schemas in H3, H4. cbn in H1. rewrite list_fmap_id in H1.
    split_and!; [done|done|]. split; [constructor|]. intros r. cbn. by intros ?%elem_of_nil.
  - right. cbn in H1. rewrite list_fmap_id in H1. split; [|done]. intros Hn. apply H1. by split.
Qed.

Lemma phase_relations {A} (g : A -> relation) (inv : loaded -> Prop) b l :
  sound b -> inv b ->
  (forall b x, inv b -> fill b (g x) = g x) -> (forall b x, inv b -> inv (with_relation b (g x))) ->
  phase (NoDup (relation_keys b ++ (relation_key <$> (g <$> l))) /\
         forall r, r ∈ g <$> l -> relation_schema r ∈ ld_schemas b)
    (fun b => sound b /\ inv b)
    (efor (fun x => load_relation (g x)) l (built b)) (add_relations b (g <$> l)).
Proof.
  intros [Hnd Hs] Hi Hfill Hinv.
  destruct (loop_all (fun x => load_relation (g x)) (fun b x => with_relation b (g x)) (fun b => sound b /\ inv b) relation_keys
    (fun x => relation_key (g x)) (fun b x => relation_schema (g x) ∈ ld_schemas b) _) with (b := b) (l := l)
    as [(H1 & H2 & H3 & H4)|(H1 & H2)].
  - intros b' x [[Hnd' Hs'] Hi'] _ Hk Hq. split; [by apply load_relation_ok; auto|].
    split; [|by apply Hinv]. split.
    + unfold relation_keys. cbn [ld_relations with_relation]. rewrite fmap_app. by apply nodup_snoc.
    + intros r. cbn. intros [Hr| ->%elem_of_list_singleton]%elem_of_app; [by apply Hs'|done].
  - intros b' x _ _ Hno. apply load_relation_err.
    destruct (decide (relation_schema (g x) ∈ ld_schemas b')); [right|by left].
    destruct (decide (relation_key (g x) ∈ relation_keys b')); [done|]. exfalso. by apply Hno.
  - intros b' x. unfold relation_keys. cbn. by rewrite fmap_app.
  - done.
  - by split.
  - done.
  - left. rewrite fold_relations in H3, H4. rewrite <- list_fmap_compose. split_and!; [done| |done|apply H4..].
    intros r (x & -> & Hx)%elem_of_list_fmap. by apply H2.
  - right. rewrite <- list_fmap_compose. split; [|done]. intros [H3 H4]. apply H1. split; [done|].
    intros x Hx. apply H4. by apply elem_of_list_fmap_1.
Qed.

Lemma phase_columns b l :
  sound b -> NoDup (column_keys b) ->
  phase (NoDup (column_keys b ++ ((fun c => (column_place c, col_name c)) <$> l)) /\
         forall c, c ∈ l -> Some (column_place c) ∈ table_key <$> ld_relations b)
    sound (efor load_column l (built b)) (add_columns b l).
Proof.
  intros Hs Hnd.
  destruct (loop_all load_column with_column sound column_keys (fun c => (column_place c, col_name c))
    (fun b c => Some (column_place c) ∈ table_key <$> ld_relations b) _) with (b := b) (l := l)
    as [(H1 & H2 & H3 & H4)|(H1 & H2)].
  - intros b' x [Hn Hr] _ Hk Hq. split; [by apply load_column_ok|done].
  - intros b' x [Hn Hr] _ Hno. apply load_column_err; [done|done|].
    destruct (decide (Some (column_place x) ∈ table_key <$> ld_relations b')); [right|by left].
    destruct (decide ((column_place x, col_name x) ∈ column_keys b')); [done|]. exfalso. by apply Hno.
  - intros b' x. unfold column_keys. cbn. by rewrite fmap_app.
  - done.
  - done.
  - done.
  - left. rewrite fold_columns in H3, H4. done.
  - right. done.
Qed.

Lemma phase_constraints b l :
  sound b -> NoDup (constraint_keys b) ->
  phase (NoDup (constraint_keys b ++ ((fun c => (constraint_place c, constraint_name c)) <$> l)) /\
         forall c, c ∈ l -> Some (constraint_place c) ∈ table_key <$> ld_relations b)
    sound (efor load_constraint l (built b)) (add_constraints b l).
Proof.
  intros Hs Hnd.
  destruct (loop_all load_constraint with_constraint sound constraint_keys
    (fun c => (constraint_place c, constraint_name c))
    (fun b c => Some (constraint_place c) ∈ table_key <$> ld_relations b) _) with (b := b) (l := l)
    as [(H1 & H2 & H3 & H4)|(H1 & H2)].
  - intros b' x [Hn Hr] _ Hk Hq. split; [by apply load_constraint_ok|done].
  - intros b' x [Hn Hr] _ Hno. apply load_constraint_err; [done|done|].
    destruct (decide (Some (constraint_place x) ∈ table_key <$> ld_relations b')); [right|by left].
    destruct (decide ((constraint_place x, constraint_name x) ∈ constraint_keys b')); [done|].
    exfalso. by apply Hno.
  - intros b' x. unfold constraint_keys. cbn. by rewrite fmap_app.
  - done.
  - done.
  - done.
  - left. rewrite fold_constraints in H3, H4. done.
  - right. done.
Qed.

Lemma phase_functions b l :
  sound b -> NoDup (function_keys b) ->
  phase (NoDup (function_keys b ++ (function_name <$> l)) /\
         forall f, f ∈ l -> fn_schema f ∈ ld_schemas b)
    sound (efor load_function l (built b)) (add_functions b l).
Proof.
  intros Hs Hnd.
  destruct (loop_all load_function with_function sound function_keys function_name
    (fun b f => fn_schema f ∈ ld_schemas b) _) with (b := b) (l := l)
    as [(H1 & H2 & H3 & H4)|(H1 & H2)].
  - intros b' x [Hn Hr] _ Hk Hq. split; [by apply load_function_ok|done].
  - intros b' x [Hn Hr] _ Hno. apply load_function_err.
    destruct (decide (fn_schema x ∈ ld_schemas b')); [right|by left].
    destruct (decide (function_name x ∈ function_keys b')); [done|]. exfalso. by apply Hno.
  - intros b' x. unfold function_keys. cbn. by rewrite fmap_app.
  - done.
  - done.
  - done.
  - left. rewrite fold_functions in H3, H4. done.
  - right. done.
Qed.

(** ** The rows as objects *)
Section decoded.
  Context (b : objects) (q : results) (H : described b q).

  Lemma fetch_schemas : fetch schema_of_row (rs_schemas q) = Ret (schema_new <$> ob_schemas b).
  Proof. rewrite (de_schemas _ _ H). by apply decode_fmap. Qed.
  Lemma fetch_sequences : fetch sequence_of_row (rs_sequences q) = Ret (ob_sequences b).
  Proof.
    rewrite (de_sequences _ _ H). rewrite <- (list_fmap_id (ob_sequences b)) at 2. apply decode_fmap.
    intros [? ? ? ? ? ? ? ? ? [?|] [?|]]; done.
  Qed.
  Lemma fetch_tables : fetch table_of_row (rs_tables q) = Ret ((fun t => table_new t.1 t.2) <$> ob_tables b).
  Proof. rewrite (de_tables _ _ H). by apply decode_fmap. Qed.
  Lemma fetch_columns : fetch column_of_row (rs_columns q) = Ret (ob_columns b).
  Proof.
    destruct (de_columns _ _ H) as (l & -> & HF). rewrite <- (list_fmap_id (ob_columns b)).
    eapply decode_rel, HF. intros x r Hr. destruct Hr; cbn; [by rewrite decide_False|done].
  Qed.
  Lemma fetch_primary_keys : fetch primary_key_of_row (rs_primary_keys q) = Ret (CPrimaryKey <$> ob_primary_keys b).
  Proof. destruct (de_primary_keys _ _ H) as (l & -> & HF). eapply decode_rel, HF. by intros x r []. Qed.
  Lemma fetch_foreign_keys : fetch foreign_key_of_row (rs_foreign_keys q) = Ret (CForeignKey <$> ob_foreign_keys b).
  Proof. rewrite (de_foreign_keys _ _ H). apply decode_fmap. by intros []. Qed.
  Lemma fetch_functions : fetch function_of_row (rs_functions q) = Ret (ob_functions b).
  Proof.
    rewrite (de_functions _ _ H). rewrite <- (list_fmap_id (ob_functions b)) at 2. apply decode_fmap. by intros [].
  Qed.
  Lemma fetch_uniques : fetch unique_of_row (rs_uniques q) = Ret (CUnique <$> ob_uniques b).
  Proof. destruct (de_uniques _ _ H) as (l & -> & HF). eapply decode_rel, HF. by intros x r []. Qed.
  Lemma fetch_checks : fetch check_of_row (rs_checks q) = Ret (CCheck <$> ob_checks b).
  Proof. rewrite (de_checks _ _ H). apply decode_fmap. by intros []. Qed.
  Lemma fetch_indexes d :
    load_indexes q d = efor (fun i => load_relation (RIndex i)) (ob_indexes b) d.
  Proof.
    unfold load_indexes. destruct (de_indexes _ _ H) as (l & -> & HF). cbn [fetch].
    assert (exists xs, decode_rows index_of_row l = Ret xs /\
      Forall2 (fun i x => forall d, load_index x d = load_relation (RIndex i) d) (ob_indexes b) xs)
      as (xs & -> & HX).
    { induction HF as [|i r is rs Hi HF (xs & IH & HX)]; [by exists []|].
      assert (exists x, index_of_row r = Ret x /\ forall d, load_index x d = load_relation (RIndex i) d)
        as (x & Hx & Hl).
      { destruct Hi as [|s n t u m e len ks os Hks]; [by eexists|].
        destruct Hks as [-> |[ks' ->]]; by eexists. }
      exists (x :: xs). cbn [decode_rows]. rewrite Hx. cbn [ebind]. rewrite IH. cbn. auto. }
    cbn [ebind]. clear HF. revert d. induction HX as [|i x is xs Hi _ IH]; intros d; [done|].
    cbn [efor]. rewrite Hi. destruct (load_relation (RIndex i) d); cbn [ebind]; [apply IH|done..].
  Qed.
End decoded.

(** What the proofs below use of the rows. *)
Record fetched (b : objects) (q : results) : Prop := Fetched {
  fe_schemas : fetch schema_of_row (rs_schemas q) = Ret (schema_new <$> ob_schemas b);
  fe_sequences : fetch sequence_of_row (rs_sequences q) = Ret (ob_sequences b);
  fe_tables : fetch table_of_row (rs_tables q) = Ret ((fun t => table_new t.1 t.2) <$> ob_tables b);
  fe_columns : fetch column_of_row (rs_columns q) = Ret (ob_columns b);
  fe_primary_keys : fetch primary_key_of_row (rs_primary_keys q) = Ret (CPrimaryKey <$> ob_primary_keys b);
  fe_foreign_keys : fetch foreign_key_of_row (rs_foreign_keys q) = Ret (CForeignKey <$> ob_foreign_keys b);
  fe_functions : fetch function_of_row (rs_functions q) = Ret (ob_functions b);
  fe_uniques : fetch unique_of_row (rs_uniques q) = Ret (CUnique <$> ob_uniques b);
  fe_checks : fetch check_of_row (rs_checks q) = Ret (CCheck <$> ob_checks b);
  fe_indexes : forall d, load_indexes q d = efor (fun i => load_relation (RIndex i)) (ob_indexes b) d }.

Lemma described_fetched b q : described b q -> fetched b q.
Proof.
  intros H. split; [by apply fetch_schemas|by apply fetch_sequences|by apply fetch_tables|
    by apply fetch_columns|by apply fetch_primary_keys|by apply fetch_foreign_keys|
    by apply fetch_functions|by apply fetch_uniques|by apply fetch_checks|by apply fetch_indexes].
Qed.

(** ** All phases *)
Definition new_table (t : str * str) : relation := RTable (table_new t.1 t.2).
Definition all_relations (b : objects) : list relation :=
  (RSequence <$> ob_sequences b) ++ (new_table <$> ob_tables b) ++ (RIndex <$> ob_indexes b).
Definition whole (b : objects) : loaded :=
  Loaded (ob_schemas b) (all_relations b) (ob_columns b) (ob_constraints b) (ob_functions b).

Lemma efor_fmap {S A B} (f : B -> S -> exec S) (g : A -> B) l s :
  efor f (g <$> l) s = efor (fun x => f (g x)) l s.
Proof.
  revert s. induction l as [|a l IH]; intros s; [done|]. rewrite fmap_cons. cbn [efor].
  destruct (f (g a) s); cbn [ebind]; [apply IH|done..].
Qed.

Lemma all_relation_names b : relation_key <$> all_relations b = relation_names b.
Proof.
  unfold all_relations, relation_names. rewrite !fmap_app, <- !list_fmap_compose. f_equal. f_equal.
  rewrite <- (list_fmap_id (ob_tables b)) at 2. apply list_fmap_ext. by intros ? [] _.
Qed.

Lemma table_keys_fmap (l : list (str * str)) x : Some x ∈ table_key <$> (new_table <$> l) <-> x ∈ l.
Proof.
  rewrite <- list_fmap_compose, elem_of_list_fmap. split.
  - intros ([n k] & [= ->] & Hy). done.
  - intros Hx. exists x. by destruct x.
Qed.
Lemma table_keys_sequence (l : list sequence) x : Some x ∉ table_key <$> (RSequence <$> l).
Proof. rewrite <- list_fmap_compose, elem_of_list_fmap. by intros (y & Hy & _). Qed.
Lemma table_keys_index (l : list index) x : Some x ∉ table_key <$> (RIndex <$> l).
Proof. rewrite <- list_fmap_compose, elem_of_list_fmap. by intros (y & Hy & _). Qed.
Lemma table_keys_some (s : list sequence) (l : list (str * str)) x :
  Some x ∈ table_key <$> ((RSequence <$> s) ++ (new_table <$> l)) <-> x ∈ l.
Proof.
  rewrite fmap_app, elem_of_app, table_keys_fmap. split; [|by right].
  intros [Hx|?]; [|done]. by apply table_keys_sequence in Hx.
Qed.

Lemma relation_in_names b r : r ∈ all_relations b -> relation_key r ∈ relation_names b.
Proof. intros Hr. rewrite <- all_relation_names. by apply elem_of_list_fmap_1. Qed.

(** A phase that fails makes the whole fail. *)
Lemma introspect_built b q :
  fetched b q ->
  (coherent b /\ introspect_rows q = Ret (built (whole b)) /\ sound (whole b)) \/
  (~ coherent b /\ exists e, introspect_rows q = Raise (SnapshotFailed e)).
Proof.
  intros H. unfold introspect_rows.
  unfold load_schemas. rewrite (fe_schemas b q H). cbn [ebind].
  destruct (phase_schemas (ob_schemas b)) as [(P1 & -> & I1)|(P1 & e & ->)]; cbn [ebind];
    [|right; split; [intros []; by apply P1|by exists e]].
  unfold load_sequences. rewrite (fe_sequences b q H). cbn [ebind].
  destruct (phase_relations RSequence (fun b => ld_columns b = [] /\ ld_constraints b = [])
    (Loaded (ob_schemas b) [] [] [] []) (ob_sequences b))
    as [(P2 & -> & I2)|(P2 & e & ->)]; [done|done|done|done| |]; cbn [ebind];
    [|right; split; [|by exists e]].
  2: { intros C. apply P2. clear P2. pose proof (co_relations _ C) as Hn.
       rewrite <- all_relation_names in Hn. unfold all_relations in Hn. rewrite fmap_app in Hn.
       apply NoDup_app in Hn as (Hn & _). split; [done|].
       intros r Hr. apply (co_relation_schema _ C (relation_key r)).
       apply relation_in_names. apply elem_of_app. by left. }
  unfold load_tables. rewrite (fe_tables b q H). cbn [ebind]. rewrite efor_fmap.
  change (fun x : str * str => load_relation (RTable (table_new x.1 x.2))) with
    (fun x => load_relation (new_table x)).
  destruct I2 as [I2 I2'].
  destruct (phase_relations new_table (fun b => ld_columns b = [] /\ ld_constraints b = []) _ (ob_tables b)
    I2 I2') as [(P3 & -> & I3)|(P3 & e & ->)]; cbn [ebind].
  { intros b' x [Hc Hk]. unfold new_table, table_new. cbn.
    unfold built_columns, built_constraints. by rewrite Hc, Hk. }
  { done. }
  2: { right. split; [|by exists e]. intros C. apply P3. clear P3. pose proof (co_relations _ C) as Hn.
       rewrite <- all_relation_names in Hn. unfold all_relations in Hn. rewrite app_assoc, fmap_app in Hn.
       apply NoDup_app in Hn as (Hn & _). rewrite fmap_app in Hn. split; [done|].
       intros r Hr. apply (co_relation_schema _ C (relation_key r)).
       apply relation_in_names. apply elem_of_app. right. apply elem_of_app. by left. }
  destruct I3 as [I3 _]. unfold add_relations in *. cbn [ld_schemas ld_relations ld_columns ld_constraints ld_functions app] in *.
  unfold load_columns. rewrite (fe_columns b q H). cbn [ebind].
  destruct (phase_columns _ (ob_columns b) I3) as [(P4 & -> & I4)|(P4 & e & ->)]; cbn [ebind].
  { constructor. }
  2: { right. split; [|by exists e]. intros C. apply P4. split; [apply (co_columns _ C)|].
       intros c Hc. apply table_keys_some. by apply (co_column_table _ C). }
  unfold load_primary_keys. rewrite (fe_primary_keys b q H). cbn [ebind].
  destruct (phase_constraints _ (CPrimaryKey <$> ob_primary_keys b) I4) as [(P5 & -> & I5)|(P5 & e & ->)]; cbn [ebind].
  { constructor. }
  2: { right. split; [|by exists e]. intros C. apply P5. pose proof (co_constraints _ C) as Hn.
       unfold ob_constraints in Hn. rewrite fmap_app in Hn. apply NoDup_app in Hn as (Hn & _).
       split; [done|]. intros c Hc. apply table_keys_some. apply (co_constraint_table _ C).
       unfold ob_constraints. set_solver. }
  unfold add_columns, add_constraints in *. cbn [ld_schemas ld_relations ld_columns ld_constraints ld_functions app] in *.
  unfold load_foreign_keys. rewrite (fe_foreign_keys b q H). cbn [ebind].
  destruct (phase_constraints _ (CForeignKey <$> ob_foreign_keys b) I5) as [(P6 & -> & I6)|(P6 & e & ->)]; cbn [ebind].
  { apply P5. }
  2: { right. split; [|by exists e]. intros C. apply P6. pose proof (co_constraints _ C) as Hn.
       unfold ob_constraints in Hn. rewrite app_assoc, fmap_app in Hn. apply NoDup_app in Hn as (Hn & _).
       rewrite fmap_app in Hn.
       split; [done|]. intros c Hc. apply table_keys_some. apply (co_constraint_table _ C).
       unfold ob_constraints. set_solver. }
  unfold load_functions. rewrite (fe_functions b q H). cbn [ebind].
  destruct (phase_functions _ (ob_functions b) I6) as [(P7 & -> & I7)|(P7 & e & ->)]; cbn [ebind].
  { constructor. }
  2: { right. split; [|by exists e]. intros C. apply P7. split; [apply (co_functions _ C)|].
       apply (co_function_schema _ C). }
  unfold add_functions, add_constraints in *. cbn [ld_schemas ld_relations ld_columns ld_constraints ld_functions app] in *.
  unfold load_unique. rewrite (fe_uniques b q H). cbn [ebind].
  destruct (phase_constraints _ (CUnique <$> ob_uniques b) I7) as [(P8 & -> & I8)|(P8 & e & ->)]; cbn [ebind].
  { unfold constraint_keys. cbn. rewrite fmap_app. apply P6. }
  2: { right. split; [|by exists e]. intros C. apply P8. pose proof (co_constraints _ C) as Hn.
       unfold ob_constraints in Hn. rewrite !app_assoc, fmap_app in Hn. apply NoDup_app in Hn as (Hn & _).
       rewrite fmap_app in Hn.
       split; [done|]. intros c Hc. apply table_keys_some. apply (co_constraint_table _ C).
       unfold ob_constraints. set_solver. }
  unfold load_checks. rewrite (fe_checks b q H). cbn [ebind].
  unfold add_functions, add_constraints in *. cbn [ld_schemas ld_relations ld_columns ld_constraints ld_functions app] in *.
  destruct (phase_constraints _ (CCheck <$> ob_checks b) I8) as [(P9 & -> & I9)|(P9 & e & ->)]; cbn [ebind].
  { unfold constraint_keys. cbn. rewrite fmap_app. apply P8. }
  2: { right. split; [|by exists e]. intros C. apply P9. pose proof (co_constraints _ C) as Hn.
       unfold ob_constraints in Hn. rewrite !app_assoc, fmap_app in Hn.
       split; [done|]. intros c Hc. apply table_keys_some. apply (co_constraint_table _ C).
       unfold ob_constraints. set_solver. }
  rewrite (fe_indexes b q H).
  destruct (phase_relations RIndex (fun _ => True) _ (ob_indexes b) I9 I)
    as [(P10 & -> & I10)|(P10 & e & ->)]; [done|done| |].
  2: { right. split; [|by exists e]. intros C. apply P10. pose proof (co_relations _ C) as Hn.
       rewrite <- all_relation_names in Hn. unfold all_relations in Hn. rewrite app_assoc, fmap_app in Hn.
       split; [done|].
       intros r Hr. apply (co_relation_schema _ C (relation_key r)).
       apply relation_in_names. apply elem_of_app. right. apply elem_of_app. by right. }
  left. assert (add_relations (add_constraints
    (Loaded (ob_schemas b) ((RSequence <$> ob_sequences b) ++ (new_table <$> ob_tables b)) (ob_columns b)
      (((CPrimaryKey <$> ob_primary_keys b) ++ (CForeignKey <$> ob_foreign_keys b)) ++ (CUnique <$> ob_uniques b))
      (ob_functions b)) (CCheck <$> ob_checks b)) (RIndex <$> ob_indexes b) = whole b) as Hw.
  { unfold whole, all_relations, ob_constraints, add_relations, add_constraints.
    cbn [ld_schemas ld_relations ld_columns ld_constraints ld_functions]. by rewrite <- !app_assoc. }
  rewrite Hw in I10. split_and!; [|by do 2 f_equal|apply I10].
  destruct P2 as [_ P2], P3 as [_ P3], P10 as [N10 P10]. destruct I10 as [[N I] _].
  split.
  - done.
  - rewrite <- all_relation_names. done.
  - apply P4.
  - unfold ob_constraints. rewrite !app_assoc, fmap_app. apply P9.
  - apply P7.
  - intros x Hx. rewrite <- all_relation_names in Hx. apply elem_of_list_fmap in Hx as (r & -> & Hr).
    by apply I.
  - apply P7.
  - intros c Hc. by eapply table_keys_some, P4.
  - intros c Hc. unfold ob_constraints in Hc. rewrite !elem_of_app in Hc.
    destruct Hc as [Hc|[Hc|[Hc|Hc]]].
    + by eapply table_keys_some, P5.
    + by eapply table_keys_some, P6.
    + by eapply table_keys_some, P8.
    + by eapply table_keys_some, P9.
Qed.

(** ** What the snapshot holds *)
Lemma filter_nodup_pair {A} (key : A -> str) (place : A -> str * str) (l : list A) p :
  NoDup ((fun a => (place a, key a)) <$> l) -> NoDup (key <$> filter (fun a => place a = p) l).
Proof.
  induction l as [|a l IH]; intros Hn; [constructor|]. rewrite fmap_cons in Hn.
  apply NoDup_cons in Hn as [Ha Hn]. rewrite filter_cons. destruct (decide _) as [Hp|]; [|by apply IH].
  rewrite fmap_cons. constructor; [|by apply IH].
  intros (x & Hx & [Hxp Hin]%elem_of_list_filter)%elem_of_list_fmap. apply Ha, elem_of_list_fmap.
  exists x. by rewrite Hx, Hxp, Hp.
Qed.

Lemma filter_nodup_function (l : list function) n :
  NoDup (function_name <$> l) -> NoDup (fn_name <$> filter (fun f => fn_schema f = n) l).
Proof.
  induction l as [|a l IH]; intros Hn; [constructor|]. rewrite fmap_cons in Hn.
  apply NoDup_cons in Hn as [Ha Hn]. rewrite filter_cons. destruct (decide _) as [Hp|]; [|by apply IH].
  rewrite fmap_cons. constructor; [|by apply IH].
  intros (x & Hx & [Hxp Hin]%elem_of_list_filter)%elem_of_list_fmap. apply Ha, elem_of_list_fmap.
  exists x. unfold function_name. by rewrite Hx, Hxp, Hp.
Qed.

Section exact.
  Context (b : objects) (C : coherent b) (Hs : sound (whole b)).

  Lemma whole_relation n k r :
    relation_at (built (whole b)) n k = Some r <->
    exists x, x ∈ all_relations b /\ relation_key x = (n, k) /\ fill (whole b) x = r.
  Proof.
    unfold relation_at. rewrite built_lookup. destruct Hs as [Hnd Hin].
    destruct (decide (n ∈ ld_schemas (whole b))) as [Hn|Hn]; cbn [mbind option_bind].
    - cbn [sc_relations built_schema]. by apply relation_found.
    - split; [done|]. intros (x & Hx & [= <- <-] & _). exfalso. by apply Hn, Hin.
  Qed.

  Lemma in_all_relations x :
    x ∈ all_relations b <->
    (exists s, x = RSequence s /\ s ∈ ob_sequences b) \/ (exists t, x = new_table t /\ t ∈ ob_tables b) \/
    (exists i, x = RIndex i /\ i ∈ ob_indexes b).
  Proof. unfold all_relations. by rewrite !elem_of_app, !elem_of_list_fmap. Qed.

  Definition whole_table (n k : str) : table :=
    Table n k (built_columns (whole b) n k) (built_constraints (whole b) n k).

  Lemma whole_table_at n k t :
    relation_at (built (whole b)) n k = Some (RTable t) <-> (n, k) ∈ ob_tables b /\ t = whole_table n k.
  Proof.
    rewrite whole_relation. setoid_rewrite in_all_relations. split.
    - intros (x & [(s & -> & _)|[([n' k'] & -> & Hx)|(i & -> & _)]] & Hk & Hf); try done.
      injection Hk as -> ->. injection Hf as <-. done.
    - intros [Hin ->]. exists (new_table (n, k)). split_and!; [|done|done]. right; left. eauto.
  Qed.

  Lemma whole_constraint n k c x :
    built_constraints (whole b) n k !! c = Some x <->
    x ∈ ob_constraints b /\ constraint_place x = (n, k) /\ constraint_name x = c.
  Proof.
    unfold built_constraints. rewrite (named_some constraint_name (fun c => c)).
    - setoid_rewrite elem_of_list_filter. naive_solver.
    - apply filter_nodup_pair, (co_constraints _ C).
  Qed.

  Lemma whole_function n k f :
    function_at (built (whole b)) n k = Some f <-> f ∈ ob_functions b /\ fn_schema f = n /\ fn_name f = k.
  Proof.
    unfold function_at. rewrite built_lookup.
    destruct (decide (n ∈ ld_schemas (whole b))) as [Hn|Hn]; cbn [mbind option_bind].
    - cbn [sc_functions built_schema]. unfold built_functions.
      rewrite (named_some fn_name (fun c => c)) by apply filter_nodup_function, (co_functions _ C).
      setoid_rewrite elem_of_list_filter. naive_solver.
    - split; [done|]. intros (Hf & <- & _). exfalso. by apply Hn, (co_function_schema _ C).
  Qed.

  Lemma whole_exact : holds_exactly b (built (whole b)).
  Proof.
    split.
    - intros n s Hn. rewrite built_lookup in Hn. destruct (decide _) as [Hin|]; [|done]. injection Hn as <-.
      split_and!; [done| |].
      + intros k r Hr. cbn [sc_relations built_schema] in Hr.
        assert (relation_at (built (whole b)) n k = Some r) as Hat.
        { unfold relation_at. by rewrite built_in. }
        pose proof Hat as Hat'. apply whole_relation in Hat as (x & Hx & Hk & <-). destruct x; try by injection Hk as <- <-.
        apply whole_table_at in Hat' as [_ Ht]. cbn [fill] in *. cbn [wf_relation]. rewrite Ht.
        split_and!; [done|done| | |].
        * apply filter_nodup_pair, (co_columns _ C).
        * apply Forall_forall. intros c [Hc _]%elem_of_list_filter. unfold column_place in Hc.
          split; congruence.
        * intros j c Hc. apply whole_constraint in Hc as (_ & Hp & <-). unfold constraint_place in Hp.
          split_and!; congruence.
      + intros k f Hf. assert (function_at (built (whole b)) n k = Some f) as Hat.
        { unfold function_at. by rewrite built_in. }
        apply whole_function in Hat as (_ & ? & ?). done.
    - intros n. rewrite built_lookup. cbn [ld_schemas whole]. destruct (decide _); split; try done.
      intros [? ?]. done.
    - intros n k s. rewrite whole_relation. setoid_rewrite in_all_relations. split.
      + intros (x & [(s' & -> & Hx)|[([n' k'] & -> & Hx)|(i & -> & _)]] & Hk & Hf); try done.
        cbn in Hf. injection Hf as ->. by injection Hk as <- <-.
      + intros (Hin & <- & <-). exists (RSequence s). split_and!; [|done|done]. left. eauto.
    - intros n k s. rewrite whole_relation. setoid_rewrite in_all_relations. split.
      + intros (x & [(s' & -> & Hx)|[([n' k'] & -> & Hx)|(i & -> & Hx)]] & Hk & Hf); try done.
        cbn in Hf. injection Hf as ->. by injection Hk as <- <-.
      + intros (Hin & <- & <-). exists (RIndex s). split_and!; [|done|done]. right; right. eauto.
    - intros n k. unfold table_at, is_table. setoid_rewrite whole_table_at. naive_solver.
    - intros n k v. rewrite whole_relation. setoid_rewrite in_all_relations.
      intros (x & [(s' & -> & Hx)|[([n' k'] & -> & Hx)|(i & -> & Hx)]] & Hk & Hf); done.
    - intros n k t Ht. apply whole_table_at in Ht as [_ ->]. done.
    - intros n k c x. rewrite <- whole_constraint. unfold constraint_at.
      destruct (relation_at (built (whole b)) n k) as [r|] eqn:E; [destruct r|].
      + apply whole_table_at in E as [_ ->]. done.
      + exfalso. apply whole_relation in E as (y & Hy & Hk & Hf).
        apply in_all_relations in Hy as [(s' & -> & Hx)|[([n' k'] & -> & Hx)|(i & -> & Hx)]]; done.
      + split; [done|]. intros (Hc & Hp & _)%whole_constraint. exfalso.
        apply (co_constraint_table _ C) in Hc. rewrite Hp in Hc.
        assert (relation_at (built (whole b)) n k = Some (RTable (whole_table n k))) as E'
          by by apply whole_table_at. by rewrite E in E'.
      + split; [done|]. intros (Hc & Hp & _)%whole_constraint. exfalso.
        apply (co_constraint_table _ C) in Hc. rewrite Hp in Hc.
        assert (relation_at (built (whole b)) n k = Some (RTable (whole_table n k))) as E'
          by by apply whole_table_at. by rewrite E in E'.
      + split; [done|]. intros (Hc & Hp & _)%whole_constraint. exfalso.
        apply (co_constraint_table _ C) in Hc. rewrite Hp in Hc.
        assert (relation_at (built (whole b)) n k = Some (RTable (whole_table n k))) as E'
          by by apply whole_table_at. by rewrite E in E'.
    - apply whole_function.
  Qed.
End exact.

(** ** The objects determine the snapshot *)
Lemma relations_determined b d e n k r :
  holds_exactly b d -> holds_exactly b e -> relation_at d n k = Some r -> relation_at e n k = Some r.
Proof.
  intros Hd He Hr. destruct r as [t|v|i|s].
  - assert (table_at e n k) as [t' Ht'].
    { apply (ho_table _ _ He), (ho_table _ _ Hd). by exists t. }
    rewrite Ht'. do 2 f_equal.
    assert (wf_table n k t /\ wf_table n k t') as [(? & ? & _) (? & ? & _)].
    { unfold relation_at in Hr, Ht'. apply bind_Some in Hr as (s1 & Hs1 & Hr), Ht' as (s2 & Hs2 & Ht').
      destruct (ho_wf _ _ Hd n s1 Hs1) as (_ & H1 & _), (ho_wf _ _ He n s2 Hs2) as (_ & H2 & _).
      split; [apply (H1 k _ Hr)|apply (H2 k _ Ht')]. }
    pose proof (ho_columns _ _ Hd n k t Hr) as Hc1. pose proof (ho_columns _ _ He n k t' Ht') as Hc2.
    assert (tb_constraints t = tb_constraints t').
    { apply map_eq. intros c. apply option_eq. intros x.
      pose proof (ho_constraint _ _ Hd n k c x) as H3. pose proof (ho_constraint _ _ He n k c x) as H4.
      unfold constraint_at in H3, H4. rewrite Hr in H3. rewrite Ht' in H4. by rewrite H3, H4. }
    destruct t, t'; cbn in *; congruence.
  - by apply (ho_view _ _ Hd) in Hr.
  - by apply (ho_index _ _ He), (ho_index _ _ Hd).
  - by apply (ho_sequence _ _ He), (ho_sequence _ _ Hd).
Qed.

Lemma exact_unique b d e : holds_exactly b d -> holds_exactly b e -> d = e.
Proof.
  intros Hd He. rewrite <- (db_eta d), <- (db_eta e). f_equal. apply map_eq. intros n.
  assert (forall s1 s2, db_schemas d !! n = Some s1 -> db_schemas e !! n = Some s2 -> s1 = s2) as Hsame.
  { intros s1 s2 H1 H2.
    destruct (ho_wf _ _ Hd n s1 H1) as (N1 & _ & _), (ho_wf _ _ He n s2 H2) as (N2 & _ & _).
    assert (sc_relations s1 = sc_relations s2).
    { apply map_eq. intros k. apply option_eq. intros r.
      pose proof (relations_determined b d e n k r Hd He) as H3.
      pose proof (relations_determined b e d n k r He Hd) as H4.
      unfold relation_at in H3, H4. rewrite H1, H2 in H3, H4. cbn in H3, H4. by split. }
    assert (sc_functions s1 = sc_functions s2).
    { apply map_eq. intros k. apply option_eq. intros f.
      pose proof (ho_function _ _ Hd n k f) as H3. pose proof (ho_function _ _ He n k f) as H4.
      unfold function_at in H3, H4. rewrite H1 in H3. rewrite H2 in H4. cbn in H3, H4. by rewrite H3, H4. }
    destruct s1, s2; cbn in *; congruence. }
  pose proof (ho_schema _ _ Hd n) as H1. pose proof (ho_schema _ _ He n) as H2.
  destruct (db_schemas d !! n) as [s1|] eqn:E1, (db_schemas e !! n) as [s2|] eqn:E2; try done.
  - f_equal. by apply Hsame.
  - exfalso. destruct (proj2 H2) as [? ?]; [apply H1; by eexists|done].
  - exfalso. destruct (proj2 H1) as [? ?]; [apply H2; by eexists|done].
Qed.

Lemma introspect_exact b q d :
  described b q -> introspect_rows q = Ret d <-> coherent b /\ holds_exactly b d.
Proof.
  intros H. destruct (introspect_built b q (described_fetched b q H)) as [(C & HR & Hs)|(C & e & HR)]; rewrite HR.
  - pose proof (whole_exact b C Hs) as HE. split.
    + intros [= <-]. done.
    + intros [_ Hd]. f_equal. by eapply exact_unique.
  - split; [done|]. by intros [? _].
Qed.

Lemma introspect_incoherent b q :
  described b q -> ~ coherent b -> exists e, introspect_rows q = Raise (SnapshotFailed e).
Proof. intros H C. by destruct (introspect_built b q (described_fetched b q H)) as [(? & _)|(_ & ?)]. Qed.

Lemma introspect_coherent b q :
  described b q -> coherent b -> exists d, introspect_rows q = Ret d /\ holds_exactly b d.
Proof.
  intros H C. destruct (introspect_built b q (described_fetched b q H)) as [(_ & HR & Hs)|(C' & _)]; [|done].
  eexists. split; [exact HR|]. by apply whole_exact.
Qed.
