(** What a loaded document contains. *)
From Verif Require Import Base Text Types Changes SpecSnapshot Node Yaml SpecDefinition Ddl Load SpecMerge
  KeyLemmas YamlLemmas DdlLemmas MergeLemmas ColumnLemmas ParseLemmas PanicLemmas.

(** ** Attributes *)
Lemma run_Forall {S : Type} (f : S -> node -> dres S) (P : node -> Prop) st l st' :
  (forall st n st', n ∈ l -> f st n = Done st' -> P n) -> run f st l = Done st' -> Forall P l.
Proof.
  revert st. induction l as [|n l IH]; intros st Hf; [constructor|]. cbn [run].
  intros (s1 & H1 & H2)%bind_inv. constructor; [eapply Hf; [left|exact H1]|].
  eapply IH; [|exact H2]. intros. eapply Hf; [by right|done].
Qed.

(** In each branch the kind of the node is known. *)
Ltac known_kind H :=
  repeat match type of H with
  | (if of_type ?n ?k then _ else _) = _ =>
      let E := fresh in destruct (of_type n k) eqn:E;
      [apply of_type_true in E; rewrite E; apply (bool_decide_unpack _); vm_compute; exact I|clear E]
  end; done.

Lemma pk_kinds st n st' : pk_step st n = Done st' -> n_type n ∈ constraint_attributes (L "primary key").
Proof. destruct st as [[? ?] ?]. unfold pk_step. intros H. known_kind H. Qed.
Lemma uq_kinds st n st' : uq_step st n = Done st' -> n_type n ∈ constraint_attributes (L "unique").
Proof. destruct st as [[? ?] ?]. unfold uq_step. intros H. known_kind H. Qed.
Lemma ck_kinds st n st' : ck_step st n = Done st' -> n_type n ∈ constraint_attributes (L "check").
Proof. destruct st as [[? ?] ?]. unfold ck_step. intros H. known_kind H. Qed.
Lemma fk_kinds s st n st' : fk_step s st n = Done st' -> n_type n ∈ constraint_attributes (L "foreign key").
Proof. destruct st as [? ? ? ? ? ? ? ? ?]. unfold fk_step. intros H. known_kind H. Qed.
Lemma sq_kinds st n st' : sq_step st n = Done st' -> n_type n ∈ object_attributes (L "sequence").
Proof. destruct st as [? ? ? ? ? ? ? ? ?]. unfold sq_step. intros H. known_kind H. Qed.
Lemma fn_kinds st n st' : fn_step st n = Done st' -> n_type n ∈ object_attributes (L "function").
Proof. destruct st as [[[? ?] ?] ?]. unfold fn_step. intros H. known_kind H. Qed.
Lemma vw_kinds st n st' : vw_step st n = Done st' -> n_type n ∈ object_attributes (L "view").
Proof. unfold vw_step. intros H. known_kind H. Qed.
Lemma tb_kinds s k st n st' : tb_step s k st n = Done st' -> n_type n ∈ object_attributes (L "table").
Proof. destruct st as [? ?]. unfold tb_step. intros H. known_kind H. Qed.

Lemma children_eq n l : get_nodes n = Some l -> children n = l.
Proof. unfold children. by intros ->. Qed.

(** From the opening of a parser to its loop. *)
Ltac to_loop H lem :=
  opening H; apply bind_inv in H as ([?st ?e] & Hc & H);
  repeat match goal with x : (_ * _)%type |- _ => destruct x end;
  apply bind_inv in H as (? & He & _); apply check_errors_inv in He;
  repeat (apply push_if_nil in He as [_ He]); subst;
  apply collect_run in Hc; erewrite children_eq by eassumption;
  eapply run_Forall; [|exact Hc]; intros; by eapply lem.

Lemma pk_vetted s t n c : parse_primary_key_definition s t n = Done c ->
  Forall (fun a => n_type a ∈ constraint_attributes (L "primary key")) (children n).
Proof. unfold parse_primary_key_definition. intros H. to_loop H pk_kinds. Qed.
Lemma uq_vetted s t n c : parse_unique_definition s t n = Done c ->
  Forall (fun a => n_type a ∈ constraint_attributes (L "unique")) (children n).
Proof. unfold parse_unique_definition. intros H. to_loop H uq_kinds. Qed.
Lemma ck_vetted s t n c : parse_check_constraint_definition s t n = Done c ->
  Forall (fun a => n_type a ∈ constraint_attributes (L "check")) (children n).
Proof. unfold parse_check_constraint_definition. intros H. to_loop H ck_kinds. Qed.
Lemma fk_vetted s t n c : parse_foreign_key_constraint_definition s t n = Done c ->
  Forall (fun a => n_type a ∈ constraint_attributes (L "foreign key")) (children n).
Proof. unfold parse_foreign_key_constraint_definition. intros H. to_loop H fk_kinds. Qed.
Lemma view_vetted s n c : parse_view_definition s n = Done c ->
  Forall (fun a => n_type a ∈ object_attributes (L "view")) (children n).
Proof. unfold parse_view_definition. intros H. to_loop H vw_kinds. Qed.
Lemma function_vetted s n c : parse_function_definition s n = Done c ->
  Forall (fun a => n_type a ∈ object_attributes (L "function")) (children n).
Proof. unfold parse_function_definition. intros H. to_loop H fn_kinds. Qed.
Lemma sequence_vetted s n c : parse_sequence_definition s n = Done c ->
  Forall (fun a => n_type a ∈ object_attributes (L "sequence")) (children n).
Proof.
  unfold parse_sequence_definition. intros H. opening H.
  apply bind_inv in H as ([st e] & Hc & H).
  apply bind_inv in H as (? & _ & H). apply bind_inv in H as (? & _ & H).
  apply bind_inv in H as (? & He%check_errors_inv & _). subst.
  apply collect_run in Hc. erewrite children_eq by eassumption.
  eapply run_Forall; [|exact Hc]; intros; by eapply sq_kinds.
Qed.

Lemma constraint_parsed_vetted s t n c : parse_constraint_definition s t n = Done c -> constraint_vetted n.
Proof.
  unfold parse_constraint_definition. intros H. apply bind_inv in H as (l & Hl%ok_or_inv & H).
  destruct l as [|x l]; [done|]. unfold constraint_vetted. pose proof (children_eq _ _ Hl) as Hch.
  exists x, l. split; [done|].
  destruct (of_type x (L "primary key")) eqn:E1.
  { apply of_type_true in E1. rewrite E1. apply bind_inv in H as (y & Hy & _).
    split; [apply (bool_decide_unpack _); vm_compute; exact I|by eapply pk_vetted]. }
  destruct (of_type x (L "unique")) eqn:E2.
  { apply of_type_true in E2. rewrite E2. apply bind_inv in H as (y & Hy & _).
    split; [apply (bool_decide_unpack _); vm_compute; exact I|by eapply uq_vetted]. }
  destruct (of_type x (L "foreign key")) eqn:E3.
  { apply of_type_true in E3. rewrite E3. apply bind_inv in H as (y & Hy & _).
    split; [apply (bool_decide_unpack _); vm_compute; exact I|by eapply fk_vetted]. }
  destruct (of_type x (L "check")) eqn:E4; [|done].
  apply of_type_true in E4. rewrite E4. apply bind_inv in H as (y & Hy & _).
  split; [apply (bool_decide_unpack _); vm_compute; exact I|by eapply ck_vetted].
Qed.

Lemma table_vetted s n t : parse_table_definition s n = Done t ->
  Forall (fun a => n_type a ∈ object_attributes (L "table")) (children n) /\
  forall c, c ∈ children n -> n_type c = L "constraint" -> constraint_vetted c.
Proof.
  intros (_ & _ & l & cts & Hl & Hr & _)%parse_table_inv. rewrite (children_eq _ _ Hl). split.
  - refine (run_Forall _ _ _ _ _ _ Hr). intros. by eapply tb_kinds.
  - assert (Forall (fun c => n_type c = L "constraint" -> constraint_vetted c) l) as Hf;
      [|exact (proj1 (Forall_forall _ _) Hf)].
    refine (run_Forall _ _ _ _ _ _ Hr).
    intros [cols' cts'] c [cols2 cts2] _ [(x & Hx & _)|(x & Hx & _)]%tb_step_inv Ht.
    + apply parse_column_inv in Hx as (Hx & _). by rewrite Hx in Ht.
    + by eapply constraint_parsed_vetted.
Qed.

Ltac member := apply (bool_decide_unpack _); vm_compute; exact I.

Lemma sc_vetted s st n st' : sc_step s st n = Done st' -> object_vetted [L "index"] n.
Proof.
  destruct st as [rels funs], st' as [rels' funs'].
  intros [(r & Hr & _)|(f & Ht & Hf & _)]%sc_step_inv.
  - unfold parse_relation in Hr.
    destruct (of_type n (L "table")) eqn:E1.
    { apply of_type_true in E1. apply bind_inv in Hr as (x & Hx & _). apply table_vetted in Hx as [H1 H2].
      split; [rewrite E1; member|]. split; [by rewrite E1|done]. }
    destruct (of_type n (L "view")) eqn:E2.
    { apply of_type_true in E2. apply bind_inv in Hr as (x & Hx & _). apply view_vetted in Hx.
      split; [rewrite E2; member|]. rewrite E2. by split. }
    destruct (of_type n (L "sequence")) eqn:E3.
    { apply of_type_true in E3. apply bind_inv in Hr as (x & Hx & _). apply sequence_vetted in Hx.
      split; [rewrite E3; member|]. rewrite E3. by split. }
    destruct (of_type n (L "index")) eqn:E4; [|done].
    apply of_type_true in E4. split; [rewrite E4; member|]. rewrite E4. split; [|done].
    intros H. destruct H. by apply elem_of_list_singleton.
  - apply of_type_true in Ht. apply function_vetted in Hf.
    split; [rewrite Ht; member|]. rewrite Ht. by split.
Qed.

Lemma parse_schemas_vetted l ss : parse_schemas l = Done ss -> vetted [L "index"] l.
Proof.
  revert ss. induction l as [|n l IH]; intros ss; [constructor|]. cbn [parse_schemas].
  intros (s & Hs & H)%bind_inv. apply bind_inv in H as (ss' & H1 & _).
  constructor; [|by eapply IH]. apply parse_schema_inv in Hs as (Ht & _ & k & rels & funs & Hk & Hr & _).
  split; [done|]. rewrite (children_eq _ _ Hk). refine (run_Forall _ _ _ _ _ _ Hr).
  intros. by eapply sc_vetted.
Qed.

Lemma load_inv o m d :
  load_document o m = Done d ->
  exists l ss, parse_mapping_to_nodes m = Done l /\ parse_schemas l = Done ss /\
    no_clashes (database_new :: singletons ss) /\ wf_db d /\
    contains_exactly (database_new :: singletons ss) d.
Proof.
  unfold load_document. intros (l & Hl & H)%bind_inv.
  apply load_nodes_spec in H as (ss & ?); [|apply wf_new]. exists l, ss.
  unfold of_yaml in Hl. by destruct (parse_mapping_to_nodes m); [injection Hl as ->|..].
Qed.

Lemma load_vetted o m d :
  load_document o m = Done d -> exists l, parse_mapping_to_nodes m = Done l /\ vetted [L "index"] l.
Proof. intros (l & ss & Hl & Hs & _)%load_inv. exists l. split; [done|]. by eapply parse_schemas_vetted. Qed.

(** ** Contents *)
Lemma parse_schemas_elem l ss s :
  parse_schemas l = Done ss -> s ∈ ss -> exists n, n ∈ l /\ parse_schema_definition n = Done s.
Proof.
  revert ss. induction l as [|n l IH]; intros ss; cbn [parse_schemas].
  - by intros [= <-] ?%elem_of_nil.
  - intros (s' & Hs & H)%bind_inv. apply bind_inv in H as (ss' & H1 & [= <-]).
    intros [->|Hin]%elem_of_cons; [exists n; split; [left|done]|].
    destruct (IH _ H1 Hin) as (n' & ? & ?). exists n'. split; [by right|done].
Qed.
Lemma parse_schemas_elem_2 l ss n :
  parse_schemas l = Done ss -> n ∈ l -> exists s, s ∈ ss /\ parse_schema_definition n = Done s.
Proof.
  revert ss. induction l as [|x l IH]; intros ss; cbn [parse_schemas].
  - by intros _ ?%elem_of_nil.
  - intros (s' & Hs & H)%bind_inv. apply bind_inv in H as (ss' & H1 & [= <-]).
    intros [->|Hin]%elem_of_cons; [exists s'; split; [left|done]|].
    destruct (IH _ H1 Hin) as (n' & ? & ?). exists n'. split; [by right|done].
Qed.

(** What is found in the snapshots made of single schemas. *)
Lemma singletons_exists ss (P : database -> Prop) :
  ~ P database_new ->
  (exists f, f ∈ database_new :: singletons ss /\ P f) <-> exists s, s ∈ ss /\ P (Database {[sc_name s := s]}).
Proof.
  intros Hn. split.
  - intros (f & [->|Hf]%elem_of_cons & Hp); [done|].
    unfold singletons in Hf. apply elem_of_list_fmap in Hf as (s & -> & Hs). eauto.
  - intros (s & Hs & Hp). eexists. split; [|exact Hp]. right. unfold singletons.
    apply elem_of_list_fmap. by exists s.
Qed.

Lemma relation_single s n k :
  relation_at (Database {[sc_name s := s]}) n k = if decide (sc_name s = n) then sc_relations s !! k else None.
Proof.
  unfold relation_at. simpl. case_decide as H; [subst; by rewrite lookup_singleton|].
  by rewrite lookup_singleton_ne.
Qed.
Lemma function_single s n k :
  function_at (Database {[sc_name s := s]}) n k = if decide (sc_name s = n) then sc_functions s !! k else None.
Proof.
  unfold function_at. simpl. case_decide as H; [subst; by rewrite lookup_singleton|].
  by rewrite lookup_singleton_ne.
Qed.

(** Each parsed relation comes from a child, each child gives one. *)
Lemma sc_run_sources s l rels funs rels' funs' :
  run (sc_step s) (rels, funs) l = Done (rels', funs') ->
  (forall r, r ∈ rels' <-> r ∈ rels \/ exists c, c ∈ l /\ parse_relation s c = Done r).
Proof.
  revert rels funs. induction l as [|c l IH]; intros rels funs.
  { intros [= <- <-] r. split; [by left|]. by intros [?|(? & []%elem_of_nil & _)]. }
  cbn [run]. intros ([rels1 funs1] & Hs & H)%bind_inv r. rewrite (IH _ _ H). clear IH H.
  apply sc_step_inv in Hs as [(x & Hx & -> & ->)|(x & Ht & Hx & -> & ->)].
  - rewrite elem_of_app, elem_of_list_singleton. split.
    + intros [[?| ->]|(c' & ? & ?)]; [by left| |].
      * right. exists c. split; [left|done].
      * right. exists c'. split; [by right|done].
    + intros [?|(c' & [->|Hin]%elem_of_cons & Hr)]; [by left; left| |].
      * left; right. congruence.
      * right. eauto.
  - split.
    + intros [?|(c' & ? & ?)]; [by left|]. right. exists c'. split; [by right|done].
    + intros [?|(c' & [->|Hin]%elem_of_cons & Hr)]; [by left| |right; eauto].
      exfalso. apply of_type_true in Ht. unfold parse_relation, of_type in Hr. by rewrite Ht in Hr.
Qed.

Lemma parse_relation_kind s c r :
  parse_relation s c = Done r -> n_type c = relation_kind r /\ n_name c = Some (relation_name r).
Proof.
  intros H. split; [|by apply parse_relation_wf in H as [_ ?]]. unfold parse_relation in H.
  repeat match type of H with
  | (if of_type c ?k then _ else _) = _ =>
      destruct (of_type c k) eqn:?E; [apply of_type_true in E; apply bind_inv in H as (x & _ & [= <-]); exact E|clear E]
  end. done.
Qed.

Lemma names_of_elem kinds l k : k ∈ names_of kinds l <-> exists c, c ∈ l /\ n_type c ∈ kinds /\ n_name c = Some k.
Proof.
  unfold names_of. rewrite elem_of_list_omap. split.
  - intros (c & Hc & H). case_decide; [|done]. by exists c.
  - intros (c & Hc & Hk & Hn). exists c. split; [done|]. by rewrite decide_True.
Qed.

Lemma by_name_lookup {V} (name : V -> str) (l : list V) v :
  NoDup (name <$> l) -> v ∈ l -> by_name name l !! name v = Some v.
Proof.
  intros Hn Hv. unfold by_name. apply elem_of_list_to_map_1.
  - by rewrite <- list_fmap_compose.
  - apply elem_of_list_fmap. by exists v.
Qed.

Lemma schema_contents n s :
  parse_schema_definition n = Done s ->
  n_name n = Some (sc_name s) /\
  (forall k r, sc_relations s !! k = Some r <->
     exists c, c ∈ children n /\ n_name c = Some k /\ parse_relation (sc_name s) c = Done r) /\
  (forall k, is_Some (sc_functions s !! k) <->
     exists c, c ∈ children n /\ n_name c = Some k /\ n_type c = L "function").
Proof.
  intros (_ & Hn & l & rels & funs & Hl & Hr & Hnr & Hnf & Hs)%parse_schema_inv. split; [done|].
  rewrite (children_eq _ _ Hl). pose proof (sc_run_sources _ _ _ _ _ _ Hr) as Hsrc.
  pose proof (sc_run_names _ _ _ _ _ _ Hr) as [_ Hfn]. simpl in Hfn. split.
  - intros k r. rewrite Hs at 1. simpl. split.
    + intros [Hin <-]%by_name_elem. apply Hsrc in Hin as [[]%elem_of_nil|(c & Hc & Hp)].
      exists c. split; [done|]. split; [|done]. by apply parse_relation_kind in Hp as [_ ?].
    + intros (c & Hc & Hk & Hp). pose proof (parse_relation_kind _ _ _ Hp) as [_ Hk'].
      assert (k = relation_name r) as -> by congruence. apply by_name_lookup; [done|].
      apply Hsrc. right. eauto.
  - intros k. rewrite Hs. simpl. rewrite <- not_eq_None_Some, by_name_None.
    rewrite Hfn. split.
    + intros Hk. destruct (decide (k ∈ names_of [L "function"] l)) as [Hin|]; [|done].
      apply names_of_elem in Hin as (c & ? & ?%elem_of_list_singleton & ?). eauto.
    + intros (c & ? & ? & ?) Hk. apply Hk. apply names_of_elem. exists c.
      split; [done|]. split; [by apply elem_of_list_singleton|done].
Qed.

Lemma load_defines o m d :
  load_document o m = Done d -> exists l, parse_mapping_to_nodes m = Done l /\ defines l d.
Proof.
  intros (l & ss & Hl & Hs & _ & _ & (C1 & C2 & C3))%load_inv. exists l. split; [done|].
  assert (forall (n k : str) (P : relation -> Prop),
    (exists r, relation_at d n k = Some r /\ P r) <->
    exists x s, x ∈ l /\ parse_schema_definition x = Done s /\ sc_name s = n /\
      exists r, sc_relations s !! k = Some r /\ P r) as Hrel.
  { intros n k P. split.
    - intros (r & Hr & Hp). apply C2 in Hr.
      apply (singletons_exists ss (fun f => relation_at f n k = Some r)) in Hr as (s & Hin & Hr).
      2: { unfold relation_at. simpl. by rewrite lookup_empty. }
      rewrite relation_single in Hr. case_decide as Hsn; [|done].
      destruct (parse_schemas_elem _ _ _ Hs Hin) as (x & Hx & Hpx). exists x, s. eauto 8.
    - intros (x & s & Hx & Hpx & Hn & r & Hr & Hp). exists r. split; [|done]. apply C2.
      apply (singletons_exists ss (fun f => relation_at f n k = Some r)).
      { unfold relation_at. simpl. by rewrite lookup_empty. }
      destruct (parse_schemas_elem_2 _ _ _ Hs Hx) as (s' & Hin & Hp').
      assert (s' = s) as -> by congruence. exists s. split; [done|].
      rewrite relation_single, decide_True by done. done. }
  split; [|split; [|split]].
  - intros n. rewrite C1, (singletons_exists ss (fun f => is_Some (db_schemas f !! n))).
    2: { simpl. rewrite lookup_empty. by intros []. }
    simpl. split.
    + intros (s & Hin & Hsome). destruct (parse_schemas_elem _ _ _ Hs Hin) as (x & Hx & Hp).
      destruct Hsome as [s' [Hn _]%lookup_singleton_Some]. exists x. split; [done|].
      apply schema_contents in Hp as [-> _]. by rewrite Hn.
    + intros (x & Hx & Hn). destruct (parse_schemas_elem_2 _ _ _ Hs Hx) as (s & Hin & Hp).
      exists s. split; [done|]. apply schema_contents in Hp as [Hp _].
      assert (n = sc_name s) as -> by congruence. rewrite lookup_singleton. eauto.
  - intros n k kind Hk. rewrite Hrel. split.
    + intros (x & s & Hx & Hp & <- & r & Hr & Hkind). pose proof (schema_contents _ _ Hp) as (Hn & Hc & _).
      apply Hc in Hr as (c & Hc1 & Hc2 & Hc3). apply parse_relation_kind in Hc3 as [Hc3 _].
      exists x, c. repeat (split; [done|]). congruence.
    + intros (x & c & Hx & Hn & Hc & Hck & Ht).
      destruct (parse_schemas_elem_2 _ _ _ Hs Hx) as (s & Hin & Hp). exists x, s.
      pose proof (schema_contents _ _ Hp) as (Hn' & Hcont & _).
      repeat (split; [congruence|]).
      pose proof Hp as (_ & _ & cl & rels & funs & Hcl & Hr & _)%parse_schema_inv.
      rewrite (children_eq _ _ Hcl) in Hc.
      assert (Forall (fun c => n_type c ∈ relation_kinds -> exists r, parse_relation (sc_name s) c = Done r) cl) as Hall.
      { refine (run_Forall _ _ _ _ _ _ Hr). intros [a b] c' [a' b'] _ [(r & Hr' & _)|(f & Hf & _)]%sc_step_inv Hty.
        - by exists r.
        - apply of_type_true in Hf. rewrite Hf in Hty. revert Hty. intros Hty. exfalso.
          revert Hty. change (~ (L "function" ∈ relation_kinds)). member. }
      rewrite Forall_forall in Hall. destruct (Hall c Hc) as [r Hr']; [by rewrite Ht|].
      exists r. split.
      * apply Hcont. exists c. rewrite (children_eq _ _ Hcl). done.
      * apply parse_relation_kind in Hr' as [Hr' _]. congruence.
  - intros n k. split.
    + intros [f Hf]. apply C3 in Hf.
      apply (singletons_exists ss (fun g => function_at g n k = Some f)) in Hf as (s & Hin & Hf).
      2: { unfold function_at. simpl. by rewrite lookup_empty. }
      rewrite function_single in Hf. case_decide as Hsn; [|done].
      destruct (parse_schemas_elem _ _ _ Hs Hin) as (x & Hx & Hp).
      pose proof (schema_contents _ _ Hp) as (Hn' & _ & Hcont).
      destruct (proj1 (Hcont k)) as (c & ? & ? & ?); [eauto|]. exists x, c. split; [done|].
      split; [congruence|done].
    + intros (x & c & Hx & Hn & Hc & Hck & Ht).
      destruct (parse_schemas_elem_2 _ _ _ Hs Hx) as (s & Hin & Hp).
      pose proof (schema_contents _ _ Hp) as (Hn' & _ & Hcont).
      destruct (proj2 (Hcont k)) as [f Hf]; [eauto|]. exists f. apply C3.
      apply (singletons_exists ss (fun g => function_at g n k = Some f)).
      { unfold function_at. simpl. by rewrite lookup_empty. }
      exists s. split; [done|]. rewrite function_single, decide_True by congruence. done.
  - intros n k t Ht.
    destruct (proj1 (Hrel n k (fun r => r = RTable t))) as (x & s & Hx & Hp & <- & r & Hr & ->); [by eexists|].
    pose proof (schema_contents _ _ Hp) as (Hn & Hc & _).
    apply Hc in Hr as (c & Hc1 & Hc2 & Hc3). exists x, c.
    pose proof (parse_relation_kind _ _ _ Hc3) as [Hk _]. repeat (split; [done|]).
    unfold parse_relation, of_type in Hc3. rewrite Hk in Hc3. simpl in Hc3.
    apply bind_inv in Hc3 as (t' & Ht' & [= ->]).
    apply parse_table_inv in Ht' as (_ & _ & cl & cts & Hcl & Hrun & _ & Hnd & Heq).
    rewrite (children_eq _ _ Hcl). apply tb_run_names in Hrun as [N1 N2]. simpl in N1, N2.
    split; [exact N1|]. intros cn. rewrite Heq. simpl.
    rewrite <- not_eq_None_Some, by_name_None, N2. split; [|auto].
    intros Hnn. destruct (decide (cn ∈ names_of [L "constraint"] cl)); [done|]. by destruct Hnn.
Qed.

(** ** Order independence, and whole directories *)
Lemma load_order o o' m d : load_document o m = Done d -> load_document o' m = Done d.
Proof.
  unfold load_document. intros (l & Hl & H)%bind_inv. rewrite Hl. simpl.
  apply load_nodes_spec; [apply wf_new|]. by apply (load_nodes_spec o); [apply wf_new|].
Qed.

Lemma read_wf read o c x : load_yaml_string read o c = Some x -> wf_db x.
Proof.
  unfold load_yaml_string. destruct (read c) as [m|]; [|done].
  destruct (load_document o m) eqn:E; [|done|done]. intros [= <-]. by eapply load_document_wf.
Qed.

Lemma read_order read o o' c : load_yaml_string read o c = load_yaml_string read o' c.
Proof. unfold load_yaml_string. destruct (read c) as [m|]; [|done].
  destruct (load_document o m) eqn:E; [by rewrite (load_order o o' m _ E)|..];
    (destruct (load_document o' m) eqn:E'; [rewrite (load_order o' o m _ E') in E; done|done..]).
Qed.
