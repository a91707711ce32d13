(** Whole snapshots through documents. *)
From Verif Require Import Base Text Types Changes SpecSnapshot Node Yaml SpecDefinition Ddl Load SpecMerge
  TextLemmas KeyLemmas YamlLemmas DdlLemmas MergeLemmas ColumnLemmas ParseLemmas.

(** ** The nodes written are writable *)
Lemma writable_leaf t v : t ∈ KEYWORDS -> value_writable v -> node_writable (MkNode t None (Some (ChildValue v))).
Proof. intros Ht Hv. constructor; [done|done|by constructor]. Qed.
Lemma writable_named_leaf t s v :
  t ∈ KEYWORDS -> name_writable t s -> value_writable v ->
  node_writable (MkNode t (Some s) (Some (ChildValue v))).
Proof. intros Ht Hs Hv. constructor; [done|by intros ? [= <-]|by constructor]. Qed.
Lemma writable_object t s l :
  t ∈ KEYWORDS -> name_writable t s -> NoDup (label <$> l) -> Forall node_writable l ->
  node_writable (MkNode t (Some s) (Some (ChildNodes l))).
Proof. intros Ht Hs Hn Hf. constructor; [done|by intros ? [= <-]|by constructor]. Qed.

Lemma writable_varargs l : value_writable (from_string_varargs l).
Proof.
  destruct l as [|s [|s' l]]; [repeat constructor|repeat constructor|].
  change (from_string_varargs (s :: s' :: l)) with (VList (VString <$> (s :: s' :: l))).
  constructor. apply Forall_fmap, Forall_true. intros. constructor.
Qed.

Lemma Forall_if {A} (P : A -> Prop) (b : bool) x : (b = true -> P x) -> Forall P (if b then [x] else []).
Proof. destruct b; [intros H; apply Forall_singleton; auto|constructor]. Qed.

Lemma sublist_NoDup {A} (l k : list A) : NoDup k -> l `sublist_of` k -> NoDup l.
Proof.
  intros Hn Hs. induction Hs as [|x l k Hs IH|x l k Hs IH].
  - constructor.
  - apply NoDup_cons in Hn as [Hx Hn]. constructor; [|auto].
    intros Hin. apply Hx. eapply elem_of_submseteq; [exact Hin|]. by apply sublist_submseteq.
  - apply NoDup_cons in Hn as [Hx Hn]. auto.
Qed.

(** Siblings with distinct kinds have distinct labels. *)
Lemma labels_of_types l ts : NoDup ts -> (n_type <$> l) `sublist_of` ts -> NoDup (label <$> l).
Proof.
  intros Hn Hs. apply (NoDup_fmap_1 fst). rewrite <- list_fmap_compose.
  eapply sublist_NoDup; [exact Hn|exact Hs].
Qed.
Lemma sublist_if (b : bool) x : (n_type <$> (if b then [x] else [])) `sublist_of` [n_type x].
Proof. destruct b; [done|apply sublist_nil_l]. Qed.

Ltac keyword := apply (bool_decide_unpack _); vm_compute; exact I.
Ltac nodup := apply (bool_decide_unpack _); vm_compute; exact I.
(** Goals [(n_type <$> l) `sublist_of` ts]. *)
Ltac subl := rewrite ?fmap_app, ?fmap_cons;
  repeat first [apply sublist_nil_l | apply sublist_if | apply sublist_skip; try done
               | apply (sublist_app _ [_])].

Lemma deferral_writable a b : Forall node_writable (render_deferral a b).
Proof.
  unfold render_deferral. apply Forall_app. split; apply Forall_if; intros _;
    (apply writable_leaf; [keyword|constructor]).
Qed.
Lemma deferral_types a b :
  (n_type <$> render_deferral a b) `sublist_of` [L "deferrable"; L "initially deferred"].
Proof.
  unfold render_deferral. rewrite fmap_app. apply (sublist_app _ [_]); apply sublist_if.
Qed.

Lemma writable_constraint ctx c :
  constraint_savable ctx c -> node_writable (render_constraint_definition ctx c).
Proof.
  destruct c as [c|c|c|c]; intros (Hn & Hw & Hr); simpl in Hn |- *.
  - apply writable_object; [keyword|done| |].
    + eapply (labels_of_types _ [_; _; _]); [|csimpl; apply sublist_skip, deferral_types]. nodup.
    + constructor; [apply writable_leaf; [keyword|apply writable_varargs]|apply deferral_writable].
  - apply writable_object; [keyword|done| |].
    + eapply (labels_of_types _ ([_; _] ++ ([_; _] ++ ([_] ++ ([_] ++ [_])))));
        [|csimpl; do 2 apply sublist_skip; rewrite !fmap_app;
          apply (sublist_app _ [_; _] _ [_; _; _]); [apply deferral_types|];
          apply (sublist_app _ [_] _ [_; _]); [apply sublist_if|];
          apply (sublist_app _ [_] _ [_]); apply sublist_if]. nodup.
    + destruct Hw as (Htc & Hu & Hus). destruct Hr as [Hr1 Hr2].
      constructor; [apply writable_leaf; [keyword|apply writable_varargs]|].
      constructor; [apply writable_named_leaf; [keyword| |apply writable_varargs]|].
      { unfold render_table_reference. case_bool_decide as Hs; [by apply Hr1|].
        split; [|split; [by apply Hr2|done]]. by destruct (fk_tschema c). }
      apply Forall_app. split; [apply deferral_writable|].
      apply Forall_app. split; [apply Forall_if; intros _; apply writable_leaf; [keyword|constructor]|].
      apply Forall_app. split; apply Forall_if; intros _; (apply writable_leaf; [keyword|constructor]).
  - apply writable_object; [keyword|done| |].
    + eapply (labels_of_types _ [_; _; _]); [|csimpl; apply sublist_skip, deferral_types]. nodup.
    + constructor; [apply writable_leaf; [keyword|apply writable_varargs]|apply deferral_writable].
  - apply writable_object; [keyword|done| |].
    + eapply (labels_of_types _ [_; _; _]); [|csimpl; apply sublist_skip, deferral_types]. nodup.
    + constructor; [apply writable_leaf; [keyword|constructor]|apply deferral_writable].
Qed.

(** Objects of distinct names have distinct labels. *)
Lemma labels_of_names l : NoDup (n_name <$> l) -> NoDup (label <$> l).
Proof. intros Hn. apply (NoDup_fmap_1 snd). by rewrite <- list_fmap_compose. Qed.

Lemma NoDup_names {V} (name : V -> str) (f : V -> node) (l : list V) :
  (forall v, v ∈ l -> n_name (f v) = Some (name v)) -> NoDup (name <$> l) -> NoDup (n_name <$> (f <$> l)).
Proof.
  intros Hf Hn. assert (n_name <$> (f <$> l) = Some <$> (name <$> l)) as ->.
  { rewrite <- !list_fmap_compose. apply list_fmap_ext. 
    - intros i x Hi. apply Hf. by eapply elem_of_list_lookup_2. }
  apply (NoDup_fmap_2 Some). exact Hn.
Qed.
Lemma NoDup_labels {V} (name : V -> str) (f : V -> node) (l : list V) :
  (forall v, v ∈ l -> n_name (f v) = Some (name v)) -> NoDup (name <$> l) -> NoDup (label <$> (f <$> l)).
Proof. intros Hf Hn. apply labels_of_names. by eapply NoDup_names. Qed.

Lemma labels_app l1 l2 :
  NoDup (label <$> l1) -> NoDup (label <$> l2) ->
  (forall a b, a ∈ l1 -> b ∈ l2 -> n_type a <> n_type b) -> NoDup (label <$> (l1 ++ l2)).
Proof.
  intros H1 H2 H. rewrite fmap_app. apply NoDup_app. split; [done|]. split; [|done].
  intros x (a & -> & Ha)%elem_of_list_fmap (b & Hb & Hb')%elem_of_list_fmap.
  apply (H a b); [done|done|]. by injection Hb.
Qed.

(** ** Iterating a map *)
Section iter.
  Context {V : Type} (name : V -> str) (m : gmap str V) (l : list (str * V)).
  Context (Hp : l ≡ₚ map_to_list m) (Hn : map_Forall (fun k v => name v = k) m).

  Lemma iter_elem v : v ∈ l.*2 <-> m !! name v = Some v.
  Proof.
    rewrite elem_of_list_fmap. split.
    - intros ([k w] & -> & Hin). simpl. apply (iter_in _ _ _ _ Hp) in Hin.
      by rewrite (Hn _ _ Hin).
    - intros Hv. exists (name v, v). split; [done|]. by apply (iter_in _ _ _ _ Hp).
  Qed.
  Lemma iter_pairs : (fun v => (name v, v)) <$> l.*2 = l.
  Proof.
    rewrite <- list_fmap_compose. rewrite <- (list_fmap_id l) at 2. apply list_fmap_ext.
    - intros i [k v] Hi. simpl. f_equal. apply (Hn k v). apply (iter_in _ _ _ _ Hp).
      by eapply elem_of_list_lookup_2.
  Qed.
  Lemma iter_by_name : by_name name l.*2 = m.
  Proof. unfold by_name. rewrite iter_pairs. by apply iter_map. Qed.
  Lemma iter_NoDup : NoDup (name <$> l.*2).
  Proof.
    assert (name <$> l.*2 = l.*1) as ->; [|by eapply iter_fst].
    rewrite <- iter_pairs at 2. rewrite <- (list_fmap_compose _ fst). done.
  Qed.
End iter.

(** ** Tables *)
Lemma run_app {S : Type} (f : S -> node -> dres S) st l1 l2 :
  run f st (l1 ++ l2) = (st' ← run f st l1; run f st' l2).
Proof.
  revert st. induction l1 as [|n l1 IH]; intros st; [done|]. simpl.
  destruct (f st n); simpl; [apply IH|done|done].
Qed.

Lemma column_definition_round_trip s t c :
  parse_column_definition s t (render_column_definition c) = Done c <->
  wf_column s t c /\ column_writable (col_type c) (col_notnull c) (col_default c).
Proof.
  unfold parse_column_definition, render_column_definition. enter.
  change (coerce_name _) with (Done (A:=str) (E:=derror) (col_name c)). coerce.
  rewrite <- column_round_trip_iff. unfold wf_column. destruct c as [cs ct name ty nn d]. simpl.
  destruct (parse_column_expression _) as [[[ty' nn'] d']|e|]; simpl.
  - split; [by intros [= -> -> -> -> ->]|]. by intros [[-> ->] [= -> -> ->]].
  - split; [done|by intros [_ ?]].
  - split; [done|by intros [_ ?]].
Qed.

Lemma run_columns s k cols cts cs :
  Forall (wf_column s k) cs ->
  Forall (fun c => column_writable (col_type c) (col_notnull c) (col_default c)) cs ->
  run (tb_step s k) (cols, cts) (render_column_definition <$> cs) = Done (cols ++ cs, cts).
Proof.
  intros Hw Hf. revert cols. induction cs as [|c cs IH]; intros cols; csimpl.
  { by rewrite app_nil_r. }
  apply Forall_cons in Hw as [Hw1 Hw]. apply Forall_cons in Hf as [Hf1 Hf].
  change (of_type (render_column_definition c) (L "column")) with true. cbv iota.
  rewrite (proj2 (column_definition_round_trip s k c)) by done. simpl.
  rewrite IH by done. by rewrite <- (assoc_L (++)).
Qed.

Lemma constraint_type ctx c : n_type (render_constraint_definition ctx c) = L "constraint".
Proof. by destruct c. Qed.
Lemma constraint_node_name ctx c :
  n_name (render_constraint_definition ctx c) = Some (constraint_name c).
Proof. by destruct c. Qed.

Lemma run_constraints s k cols cts cs :
  Forall (fun c => parse_constraint_definition s k (render_constraint_definition s c) = Done c) cs ->
  run (tb_step s k) (cols, cts) (render_constraint_definition s <$> cs) = Done (cols, cts ++ cs).
Proof.
  intros Hw. revert cts. induction cs as [|c cs IH]; intros cts.
  { simpl. by rewrite app_nil_r. }
  rewrite fmap_cons. cbn [run].
  apply Forall_cons in Hw as [Hw1 Hw].
  assert (tb_step s k (cols, cts) (render_constraint_definition s c) = Done (cols, cts ++ [c])) as ->.
  { unfold tb_step, of_type. rewrite constraint_type.
    change (bool_decide (L "constraint" = L "column")) with false.
    change (bool_decide (L "constraint" = L "constraint")) with true. cbv iota. by rewrite Hw1. }
  simpl. rewrite IH by done. by rewrite <- (assoc_L (++)).
Qed.

Lemma parse_table_ok s name l cols cts n :
  n = MkNode (L "table") (Some name) (Some (ChildNodes l)) ->
  run (tb_step s name) ([], []) l = Done (cols, cts) ->
  NoDup (names cols) -> NoDup (constraint_name <$> cts) ->
  parse_table_definition s n = Done (Table s name cols (by_name constraint_name cts)).
Proof.
  intros -> Hr Hc Hk. unfold parse_table_definition. enter.
  change (coerce_name _) with (Done (A:=str) (E:=derror) name). coerce.
  change (coerce_nodes _) with (Done (A:=list node) (E:=derror) l). coerce.
  apply collect_run in Hr. rewrite Hr. coerce. cbn [check_errors]. coerce.
  destruct (col_unwrap_all cols (table_new s name)) as [[Hn Hu]|[Hn Hu]]; [constructor| |done].
  rewrite Hu. coerce.
  apply (unwrap_all_new tb_constraints set_constraints constraint_name);
    [done|done|by intros []|exact con_add_new|exact con_add_old|done|]. split; [exact Hk|]. done.
Qed.

Lemma wf_table_names s k t :
  wf_table s k t -> map_Forall (fun k c => constraint_name c = k) (tb_constraints t).
Proof. intros (_&_&_&_&H) x c Hx. by destruct (H x c Hx) as (_&_&?). Qed.

Lemma table_round_trip o s t :
  wf_table s (tb_name t) t ->
  Forall (fun c => column_writable (col_type c) (col_notnull c) (col_default c)) (tb_columns t) ->
  map_Forall (fun _ c => constraint_writable s c) (tb_constraints t) ->
  parse_table_definition s (render_table_definition o s t) = Done t.
Proof.
  intros Hwf Hc Hk. pose proof (wf_table_names _ _ _ Hwf) as Hnm.
  destruct Hwf as (Hs & _ & Hnd & Hwc & Hwk). destruct t as [ts name cols cts]. simpl in *. subst ts.
  set (t := Table s name cols cts). 
  assert (iter_constraints o t = (io_constraints o s name cts).*2) as Hi by done.
  pose proof (io_constraints_perm o s name cts) as Hp.
  rewrite (parse_table_ok s name ((render_column_definition <$> cols) ++
     (render_constraint_definition s <$> iter_constraints o t)) cols (iter_constraints o t)).
  - rewrite Hi, (iter_by_name constraint_name cts _ Hp Hnm). done.
  - done.
  - rewrite run_app, run_columns by done. simpl. apply run_constraints. rewrite Hi.
    apply Forall_forall. intros c Hin. apply (iter_elem constraint_name _ _ Hp Hnm) in Hin.
    apply constraint_round_trip. destruct (Hwk _ _ Hin) as (?&?&?). split; [done|].
    split; [done|]. by apply (Hk _ _ Hin).
  - exact Hnd.
  - rewrite Hi. apply (iter_NoDup constraint_name _ _ Hp Hnm).
Qed.

Lemma writable_table o s t :
  wf_table s (tb_name t) t -> relation_savable (RTable t) ->
  node_writable (render_table_definition o s t).
Proof.
  intros Hwf (Hname & Hc & Hk). pose proof (wf_table_names _ _ _ Hwf) as Hnm.
  destruct Hwf as (Hs & _ & Hnd & _ & _). destruct t as [ts name cols cts]. simpl in *. subst ts.
  pose proof (io_constraints_perm o s name cts) as Hp.
  unfold render_table_definition, iter_constraints. simpl.
  apply writable_object; [keyword|done| |].
  - apply labels_app.
    + by apply (NoDup_labels col_name).
    + apply (NoDup_labels constraint_name); [intros; apply constraint_node_name|].
      apply (iter_NoDup constraint_name _ _ Hp Hnm).
    + intros a b (c & -> & _)%elem_of_list_fmap (k & -> & _)%elem_of_list_fmap.
      rewrite constraint_type. done.
  - apply Forall_app. split; apply Forall_fmap.
    + eapply Forall_impl; [exact Hc|]. intros c [Hn _]. simpl.
      apply writable_named_leaf; [keyword|done|constructor].
    + apply Forall_forall. intros c Hin. simpl.
      apply (iter_elem constraint_name _ _ Hp Hnm) in Hin.
      apply writable_constraint. by apply (Hk _ _ Hin).
Qed.

(** ** Relations *)
Definition machine_relation (r : relation) : Prop :=
  match r with RSequence q => int64_sequence q | _ => True end.

Lemma writable_int t v d : t ∈ KEYWORDS -> int64 v -> Forall node_writable (int_node t v d).
Proof. intros Ht Hv. apply Forall_if. intros _. apply writable_leaf; [done|by constructor]. Qed.

Lemma writable_sequence s n :
  relation_savable (RSequence s) -> int64_sequence s ->
  render_sequence_definition s = Done n ->
  node_writable n /\ n_type n = L "sequence" /\ n_name n = Some (sq_name s).
Proof.
  intros (Hn & Hw & Hinc & Ho) (I1 & I2 & I3 & I4 & I5) H. unfold render_sequence_definition in H.
  apply bind_inv in H as (mn & _ & H). apply bind_inv in H as (mx & _ & H).
  apply bind_inv in H as (owned & Hown & [= <-]). split; [|done].
  assert ((n_type <$> owned) `sublist_of` [L "owned by"] /\ Forall node_writable owned) as [Ht Hf].
  { destruct (sq_owned_table s) as [t|].
    - apply bind_inv in Hown as (c & _ & [= <-]). split; [done|]. apply Forall_singleton.
      apply writable_named_leaf; [keyword|by apply Ho|constructor].
    - injection Hown as <-. split; [apply sublist_nil_l|constructor]. }
  apply writable_object; [keyword|done| |].
  - apply (labels_of_types _ [L "as"; L "increment"; L "minvalue"; L "maxvalue"; L "start";
      L "cache"; L "cycle"; L "owned by"]); [nodup|]. unfold int_node. rewrite !fmap_app.
    repeat (apply (sublist_app _ [_]); [apply sublist_if|]). exact Ht.
  - unfold int_node at 1. rewrite Hinc. unfold default_increment.
    rewrite (bool_decide_eq_false_2 (1%Z <> 1%Z)) by (intros []; done). cbn [app].
    repeat (apply Forall_app; split); [..|exact Hf].
    + apply Forall_if. intros _. apply writable_leaf; [keyword|constructor].
    + apply writable_int; [keyword|done].
    + apply writable_int; [keyword|done].
    + apply writable_int; [keyword|done].
    + apply writable_int; [keyword|done].
    + apply Forall_if. intros _. apply writable_leaf; [keyword|constructor].
Qed.

Lemma writable_index i :
  relation_savable (RIndex i) -> node_writable (render_index_definition i).
Proof.
  intros (Hn & Hm & Ht). unfold render_index_definition. apply writable_object; [keyword|done| |].
  - apply (labels_of_types _ [L "unique"; L "using"; L "on"]); [nodup|]. rewrite !fmap_app.
    repeat (apply (sublist_app _ [_]); [apply sublist_if|]). done.
  - rewrite Hm. unfold default_method. rewrite (bool_decide_eq_false_2 (L "btree" <> L "btree")) by (intros []; done).
    cbn [app]. apply Forall_app. split.
    + apply Forall_if. intros _. apply writable_leaf; [keyword|constructor].
    + apply Forall_singleton. apply writable_named_leaf; [keyword|done|apply writable_varargs].
Qed.

Lemma writable_function f :
  name_writable (L "function") (fn_name f) -> node_writable (render_function_definition f).
Proof.
  intros Hn. unfold render_function_definition. apply writable_object; [keyword|done| |].
  - apply (labels_of_types _ [L "as"; L "language"; L "returns"; L "volatility"]); [nodup|].
    rewrite !fmap_app. apply (sublist_app _ [_]); [done|].
    apply (sublist_app _ [_]); [apply sublist_if|].
    apply (sublist_app _ [_] _ [_]); apply sublist_if.
  - apply Forall_app. split; [apply Forall_singleton, writable_leaf; [keyword|constructor]|].
    repeat (apply Forall_app; split); apply Forall_if; intros _; (apply writable_leaf; [keyword|constructor]).
Qed.

Ltac stepped Hn := unfold sc_step, of_type; rewrite Hn;
  repeat match goal with
  | |- context [bool_decide (L ?a = L ?b)] =>
      let v := eval vm_compute in (bool_decide (L a = L b)) in
      change (bool_decide (L a = L b)) with v
  end; cbv iota.

Lemma relation_saved o s r :
  wf_relation s (relation_name r) r -> relation_savable r -> machine_relation r ->
  exists n, render_relation o s r = Done n /\ node_writable n /\ n_name n = Some (relation_name r) /\
    n_type n <> L "function" /\
    forall rels funs, sc_step s (rels, funs) n = Done (rels ++ [r], funs).
Proof.
  intros Hwf Hs Hm. destruct r as [t|v|i|q].
  - exists (render_table_definition o s t). split; [done|]. split; [by apply writable_table|].
    split; [done|]. split; [done|]. intros rels funs.
    assert (n_type (render_table_definition o s t) = L "table") as Ht by done. stepped Ht.
    destruct Hs as (_ & Hc & Hk). simpl in Hwf. pose proof Hwf as (Hts & _). rewrite Hts in Hk.
    rewrite table_round_trip; [done|done| |].
    + eapply Forall_impl; [exact Hc|]. by intros c [_ ?].
    + intros k c Hk'. by destruct (Hk k c Hk') as (_ & ? & _).
  - destruct Hwf as [Hvs _]. simpl in Hvs. destruct Hs as [Hn Hq].
    pose proof (proj2 (view_round_trip s v) (conj Hvs Hq)) as Hr.
    apply bind_inv in Hr as (n & Hn1 & Hn2). exists n. split; [done|].
    unfold render_view_definition in Hn1. apply bind_inv in Hn1 as (? & _ & [= <-]).
    split; [|split; [done|split; [done|]]].
    + apply writable_object; [keyword|done| |]; destruct (vw_query v) as [|c q]; try done.
      * apply NoDup_singleton.
      * apply Forall_singleton, writable_leaf; [keyword|constructor].
    + intros rels funs.
      match type of Hn2 with parse_view_definition _ ?n = _ =>
        assert (n_type n = L "view") as Ht by done; stepped Ht end.
      by rewrite Hn2.
  - destruct Hwf as [Hvs _]. simpl in Hvs.
    exists (render_index_definition i). split; [done|]. split; [by apply writable_index|].
    split; [done|]. split; [done|]. intros rels funs.
    assert (n_type (render_index_definition i) = L "index") as Ht by done. stepped Ht.
    by rewrite (proj2 (index_round_trip s i) Hvs).
  - destruct Hwf as [Hvs _]. simpl in Hvs. pose proof Hs as (_ & Hw & _).
    pose proof (proj2 (sequence_round_trip s q) (conj Hvs Hw)) as Hr.
    apply bind_inv in Hr as (n & Hn1 & Hn2).
    destruct (writable_sequence q n Hs Hm Hn1) as (H1 & H2 & H3).
    exists n. split; [done|]. split; [done|]. split; [done|]. split; [by rewrite H2|].
    intros rels funs. stepped H2. by rewrite Hn2.
Qed.

(** ** Schemas *)
Lemma relations_saved o s rs :
  Forall (fun r => wf_relation s (relation_name r) r /\ relation_savable r /\ machine_relation r) rs ->
  exists ns, render_all (render_relation o s) rs = Done ns /\ Forall node_writable ns /\
    n_name <$> ns = Some <$> (relation_name <$> rs) /\
    Forall (fun n => n_type n <> L "function") ns /\
    forall rels funs, run (sc_step s) (rels, funs) ns = Done (rels ++ rs, funs).
Proof.
  induction 1 as [|r rs (H1 & H2 & H3) _ IH].
  - exists []. split_and!; try done. intros. simpl. by rewrite app_nil_r.
  - destruct (relation_saved o s r H1 H2 H3) as (n & Hn1 & Hn2 & Hn3 & Hn4 & Hn5).
    destruct IH as (ns & Hs1 & Hs2 & Hs3 & Hs4 & Hs5). exists (n :: ns).
    cbn [render_all]. rewrite Hn1, Hs1. split; [done|]. split; [by constructor|].
    split; [csimpl; by rewrite Hn3, Hs3|]. split; [by constructor|].
    intros rels funs. cbn [run]. rewrite Hn5. simpl. rewrite Hs5. by rewrite <- (assoc_L (++)).
Qed.

Lemma run_functions s rels funs fs :
  Forall (fun f => fn_schema f = s) fs ->
  run (sc_step s) (rels, funs) (render_function_definition <$> fs) = Done (rels, funs ++ fs).
Proof.
  intros Hw. revert funs. induction fs as [|f fs IH]; intros funs.
  { simpl. by rewrite app_nil_r. }
  rewrite fmap_cons. cbn [run]. apply Forall_cons in Hw as [Hw1 Hw].
  assert (n_type (render_function_definition f) = L "function") as Ht by done.
  assert (sc_step s (rels, funs) (render_function_definition f) = Done (rels, funs ++ [f])) as ->.
  { stepped Ht. by rewrite (proj2 (function_round_trip s f) Hw1). }
  simpl. rewrite IH by done. by rewrite <- (assoc_L (++)).
Qed.

Lemma parse_schema_ok name l rels funs :
  run (sc_step name) ([], []) l = Done (rels, funs) ->
  NoDup (relation_name <$> rels) -> NoDup (fn_name <$> funs) ->
  parse_schema_definition (MkNode (L "schema") (Some name) (Some (ChildNodes l))) =
  Done (Schema name (by_name relation_name rels) (by_name fn_name funs)).
Proof.
  intros Hr Hc Hk. unfold parse_schema_definition. enter.
  change (coerce_name _) with (Done (A:=str) (E:=derror) name). coerce.
  change (coerce_nodes _) with (Done (A:=list node) (E:=derror) l). coerce.
  apply collect_run in Hr. rewrite Hr. coerce. cbn [check_errors]. coerce.
  rewrite (proj2 (unwrap_all_new sc_relations set_relations relation_name (fun _ _ => eq_refl)
    (fun _ _ _ => eq_refl) ltac:(by intros []) add_relation rel_add_new rel_add_old rels
    (schema_new name) (set_relations (schema_new name) (by_name relation_name rels)) eq_refl))
    by done. coerce.
  by apply (proj2 (unwrap_all_new sc_functions set_functions fn_name (fun _ _ => eq_refl)
    (fun _ _ _ => eq_refl) ltac:(by intros []) add_function fn_add_new fn_add_old funs
    (set_relations (schema_new name) (by_name relation_name rels))
    (set_functions (set_relations (schema_new name) (by_name relation_name rels)) (by_name fn_name funs))
    eq_refl)).
Qed.

Lemma schema_saved o s :
  wf_schema (sc_name s) s -> schema_savable s ->
  map_Forall (fun _ r => machine_relation r) (sc_relations s) ->
  exists n, render_schema_definition o s = Done n /\ node_writable n /\
    label n = (L "schema", Some (sc_name s)) /\ parse_schema_definition n = Done s.
Proof.
  intros (_ & Hr & Hf) (Hn & Sr & Sf) Hm. destruct s as [name rels funs]. simpl in *.
  set (s := Schema name rels funs).
  assert (map_Forall (fun k r => relation_name r = k) rels) as Nr.
  { intros k r Hk. by apply (wf_relation_name name), Hr. }
  assert (map_Forall (fun k f => fn_name f = k) funs) as Nf.
  { intros k f Hk. by destruct (Hf k f Hk). }
  pose proof (io_relations_perm o name rels) as Pr. pose proof (io_functions_perm o name funs) as Pf.
  unfold render_schema_definition, iter_relations, iter_functions. simpl.
  destruct (relations_saved o name (io_relations o name rels).*2) as (ns & H1 & H2 & H3 & H4 & H5).
  { apply Forall_forall. intros r Hin. apply (iter_elem relation_name _ _ Pr Nr) in Hin.
    split; [by apply Hr|]. split; [by apply (Sr _ _ Hin)|by apply (Hm _ _ Hin)]. }
  rewrite H1. simpl. eexists. split; [reflexivity|]. split; [|split; [done|]].
  - apply writable_object; [keyword|done| |].
    + apply labels_app.
      * apply labels_of_names. rewrite H3. apply (NoDup_fmap_2 Some).
        apply (iter_NoDup relation_name _ _ Pr Nr).
      * apply (NoDup_labels fn_name); [done|]. apply (iter_NoDup fn_name _ _ Pf Nf).
      * intros a b Ha (f & -> & _)%elem_of_list_fmap Heq. rewrite Forall_forall in H4.
        by apply (H4 a Ha).
    + apply Forall_app. split; [done|]. apply Forall_fmap, Forall_forall. intros f Hin. simpl.
      apply (iter_elem fn_name _ _ Pf Nf) in Hin. apply writable_function. by apply (Sf _ _ Hin).
  - etrans; [apply (parse_schema_ok name _ (io_relations o name rels).*2
      (io_functions o name funs).*2)|].
    4: rewrite (iter_by_name relation_name _ _ Pr Nr), (iter_by_name fn_name _ _ Pf Nf); done.
    + rewrite run_app, H5. simpl. rewrite run_functions; [done|].
      apply Forall_forall. intros f Hin. apply (iter_elem fn_name _ _ Pf Nf) in Hin.
      by apply (Hf _ _ Hin).
    + apply (iter_NoDup relation_name _ _ Pr Nr).
    + apply (iter_NoDup fn_name _ _ Pf Nf).
Qed.

(** ** Snapshots *)
Lemma schemas_saved o (ss : list schema) :
  Forall (fun s => wf_schema (sc_name s) s /\ schema_savable s /\
    map_Forall (fun _ r => machine_relation r) (sc_relations s)) ss ->
  exists ns, render_all (render_schema_definition o) ss = Done ns /\ Forall node_writable ns /\
    label <$> ns = (fun s => (L "schema", Some (sc_name s))) <$> ss /\ parse_schemas ns = Done ss.
Proof.
  induction 1 as [|s ss (H1 & H2 & H3) _ IH].
  - by exists [].
  - destruct (schema_saved o s H1 H2 H3) as (n & Hn1 & Hn2 & Hn3 & Hn4).
    destruct IH as (ns & Hs1 & Hs2 & Hs3 & Hs4). exists (n :: ns).
    cbn [render_all parse_schemas]. rewrite Hn1, Hs1, Hn4, Hs4. split; [done|].
    split; [by constructor|]. split; [csimpl; by rewrite Hn3, Hs3|done].
Qed.

Lemma singletons_exact (d : database) (ss : list schema) :
  (forall s, s ∈ ss <-> db_schemas d !! sc_name s = Some s) ->
  map_Forall (fun k s => sc_name s = k) (db_schemas d) ->
  contains_exactly (database_new :: singletons ss) d.
Proof.
  intros Hin Hnm.
  assert (forall P : schema -> Prop, forall n, (exists s, db_schemas d !! n = Some s /\ P s) <->
    exists f, f ∈ database_new :: singletons ss /\ exists s, db_schemas f !! n = Some s /\ P s) as Hex.
  { intros P n. split.
    - intros (s & Hs & Hp). pose proof (Hnm _ _ Hs) as <-. exists (Database {[sc_name s := s]}).
      split; [|exists s; split; [apply lookup_singleton|done]].
      right. unfold singletons. apply elem_of_list_fmap. exists s. split; [done|]. by apply Hin.
    - intros (f & [->|Hf]%elem_of_cons & s & Hs & Hp); [simpl in Hs; by rewrite lookup_empty in Hs|].
      unfold singletons in Hf. apply elem_of_list_fmap in Hf as (s' & -> & Hin').
      simpl in Hs. apply lookup_singleton_Some in Hs as [<- ->]. exists s. split; [|done].
      by apply Hin. }
  split; [|split].
  - intros n. specialize (Hex (fun _ => True) n). unfold is_Some. split.
    + intros [s Hs]. destruct (proj1 Hex) as (f & Hf & x & Hx & _); [by exists s|]. eauto.
    + intros (f & Hf & x & Hx). destruct (proj2 Hex) as (s & Hs & _); [eauto 6|]. eauto.
  - intros n k r. specialize (Hex (fun s => sc_relations s !! k = Some r) n).
    unfold relation_at. setoid_rewrite bind_Some. exact Hex.
  - intros n k r. specialize (Hex (fun s => sc_functions s !! k = Some r) n).
    unfold function_at. setoid_rewrite bind_Some. exact Hex.
Qed.

Lemma singletons_no_clash (ss : list schema) :
  NoDup (sc_name <$> ss) -> no_clashes (database_new :: singletons ss).
Proof.
  intros Hnd. split.
  - apply Forall_forall. intros f _. split; intros n k; left; unfold relation_at, function_at; simpl;
      by rewrite lookup_empty.
  - unfold singletons. induction ss as [|s ss IH]; [done|]. csimpl in *.
    apply NoDup_cons in Hnd as [Hn Hnd]. split; [|by apply IH].
    apply Forall_fmap, Forall_forall. intros s' Hs'. simpl.
    assert (sc_name s <> sc_name s') as Hne.
    { intros He. apply Hn. rewrite He. by apply elem_of_list_fmap_1. }
    split; intros n k; unfold relation_at, function_at; simpl;
      (destruct (decide (n = sc_name s)) as [->|Hx];
       [right; by rewrite lookup_singleton_ne|left; by rewrite lookup_singleton_ne]).
Qed.

Lemma save_load o o' d :
  wf_db d -> machine_db d -> savable d ->
  exists m, save_document o d = Done m /\ load_document o' m = Done d.
Proof.
  intros Hwf Hm Hs. pose proof (io_schemas_perm o (db_schemas d)) as Hp.
  assert (map_Forall (fun k s => sc_name s = k) (db_schemas d)) as Hnm.
  { intros k s Hk. by destruct (Hwf k s Hk). }
  destruct (schemas_saved o (iter_schemas o d)) as (ns & H1 & H2 & H3 & H4).
  { apply Forall_forall. intros s Hin. apply (iter_elem sc_name _ _ Hp Hnm) in Hin.
    split; [by apply Hwf|]. split; [by apply (Hs _ _ Hin)|]. by apply (Hm _ _ Hin). }
  assert (NoDup (sc_name <$> iter_schemas o d)) as Hnd by apply (iter_NoDup sc_name _ _ Hp Hnm).
  exists (render_nodes_to_mapping ns). unfold save_document. rewrite H1. split; [done|].
  unfold load_document. rewrite (proj2 (forest_round_trip ns)).
  - simpl. apply load_nodes_spec; [apply wf_new|]. exists (iter_schemas o d). split; [done|].
    split; [by apply singletons_no_clash|]. split; [done|]. apply singletons_exact; [|done].
    intros s. apply (iter_elem sc_name _ _ Hp Hnm).
  - split; [|done]. rewrite H3.
    assert ((fun s => (L "schema", Some (sc_name s))) <$> iter_schemas o d =
      (fun n => (L "schema", Some n)) <$> (sc_name <$> iter_schemas o d)) as ->.
    { by rewrite <- list_fmap_compose. }
    apply NoDup_fmap_2; [|done]. by intros ? ? [=].
Qed.
