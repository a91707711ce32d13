(** Which snapshots come back from the document they are saved as: exactly the savable ones. *)
From Verif Require Import Base Text Types Changes SpecSnapshot Node Yaml SpecDefinition Ddl Load SpecMerge
  TextLemmas KeyLemmas YamlLemmas DdlLemmas MergeLemmas ColumnLemmas ParseLemmas SaveLemmas.

(** ** Nodes through a mapping *)

(** [n] is written, and read as [n']. *)
Definition reread (n n' : node) : Prop :=
  create_node_from_mapping_key (render_node_key n) = Done (label n') /\ child_of n = Done (n_child n').

Lemma parse_entries_reread l l' :
  parse_entries parse_child (entry_of render_node_value <$> l) = Done l' <-> Forall2 reread l l'.
Proof.
  revert l'. induction l as [|n l IH]; intros l'.
  { split; [by intros [= <-]|]. intros H. by inversion H. }
  csimpl. split.
  - intros H. destruct (create_node_from_mapping_key _) as [[t name]| |] eqn:E1; [|done..]. cbn in H.
    apply bind_inv in H as (c & E2 & H). apply bind_inv in H as (ns & E3 & [= <-]).
    constructor; [|by apply IH]. split; [exact E1|exact E2].
  - intros H. inversion H as [|? n' ? l2 [H1 H2] H3]; subst. unfold child_of in H2. rewrite H1, H2.
    destruct n' as [t name c]. cbn. apply IH in H3. rewrite H3. done.
Qed.

Lemma reread_forest l l' :
  NoDup (render_node_key <$> l) ->
  parse_mapping_to_nodes (render_nodes_to_mapping l) = Done l' <-> Forall2 reread l l'.
Proof.
  intros Hn. unfold parse_mapping_to_nodes, render_nodes_to_mapping.
  rewrite render_entries_new; [|constructor|by apply Hn]. apply parse_entries_reread.
Qed.

Lemma reread_nodes t name l n' :
  NoDup (render_node_key <$> l) -> reread (MkNode t name (Some (ChildNodes l))) n' ->
  exists l', Forall2 reread l l' /\ n' = MkNode (n_type n') (n_name n') (Some (ChildNodes l')).
Proof.
  intros Hn [_ H]. unfold child_of in H. cbn in H.
  rewrite render_entries_new in H; [|constructor|by apply Hn].
  apply bind_inv in H as (l' & H1 & [= H2]). exists l'. split; [by apply parse_entries_reread|].
  destruct n'. cbn in *. by subst.
Qed.
Lemma reread_value t name v n' :
  value_writable v -> reread (MkNode t name (Some (ChildValue v))) n' ->
  n' = MkNode (n_type n') (n_name n') (Some (ChildValue v)).
Proof.
  intros Hv [_ H]. unfold child_of in H. cbn [render_node_value] in H. rewrite parse_child_value in H.
  apply value_round_trip in Hv. rewrite Hv in H. destruct n'. cbn in *. congruence.
Qed.

(** Kinds without a name come back. *)
Lemma reread_plain t v n' :
  t ∈ KEYWORDS -> value_writable v -> reread (MkNode t None (Some (ChildValue v))) n' ->
  n' = MkNode t None (Some (ChildValue v)).
Proof.
  intros Ht Hv Hr. pose proof (reread_value _ _ _ _ Hv Hr) as Hn. destruct Hr as [H _].
  rewrite plain_key in H by done. destruct n' as [t' nm c]. cbn in *. unfold label in H. cbn in H. congruence.
Qed.
(** Kinds that are no keywords do not. *)
Lemma reread_using v n' : ~ reread (MkNode (L "using") None v) n'.
Proof. intros [H _]. vm_compute in H. discriminate. Qed.
Lemma reread_increment v n' : ~ reread (MkNode (L "increment") None v) n'.
Proof. intros [H _]. vm_compute in H. discriminate. Qed.

(** Names lose the white space at their ends. *)
Lemma reread_named t name c n' :
  t ∈ KEYWORDS -> t <> L "on" -> reread (MkNode t (Some name) c) n' ->
  n_type n' = t /\ forall m, n_name n' = Some m -> m = trim name /\ m <> [].
Proof.
  intros Ht Hon [H _]. rewrite render_key_named in H. unfold create_node_from_mapping_key in H.
  rewrite find_keyword_eq, lower_app in H.
  destruct (proj1 (Forall_forall _ _) keywords_ascii t Ht) as [Hlow Hascii]. rewrite Hlow in H.
  change (lower (32%N :: name)) with (32%N :: lower name) in H.
  rewrite (proj1 (Forall_forall _ _) find_spaced t Ht Hon) in H.
  rewrite slice_from_ascii in H by done. rewrite trim_space in H. unfold label in H.
  injection H as <- H. split; [done|]. intros m Hm. rewrite Hm in H.
  destruct (trim name); [discriminate H|]. by injection H as <-.
Qed.
Lemma reread_writable t name c n' :
  t ∈ KEYWORDS -> reread (MkNode t (Some name) c) n' -> n_type n' = t -> n_name n' = Some name ->
  name_writable t name.
Proof.
  intros Ht [H _] H1 H2. apply (named_key_iff t name c Ht). rewrite H. unfold label. by rewrite H1, H2.
Qed.

(** ** Keys are distinct *)
Lemma keys_of_prefixes k l ts :
  NoDup ts -> (take k <$> (render_node_key <$> l)) `sublist_of` ts -> NoDup (render_node_key <$> l).
Proof. intros Hn Hs. apply (NoDup_fmap_1 (take k)). by eapply sublist_NoDup. Qed.
Lemma prefix_if k (b : bool) x :
  (take k <$> (render_node_key <$> (if b then [x] else []))) `sublist_of` [take k (render_node_key x)].
Proof. destruct b; [done|apply sublist_nil_l]. Qed.

(** Kinds of one word. *)
Definition word_kinds : list str :=
  L <$> ["schema"; "table"; "view"; "index"; "sequence"; "function"; "column"; "constraint"]%string.
Lemma word_kinds_word : Forall (fun t => 32%N ∉ t) word_kinds.
Proof. apply (bool_decide_unpack _). vm_compute. exact I. Qed.
Lemma space_inj (a b x y : str) : 32%N ∉ a -> 32%N ∉ b -> a ++ 32%N :: x = b ++ 32%N :: y -> a = b /\ x = y.
Proof.
  revert b. induction a as [|c a IH]; intros [|d b] Ha Hb; cbn.
  - by intros [= ->].
  - intros [= <- _]. destruct Hb. left.
  - intros [= -> _]. destruct Ha. left.
  - intros [= -> H]. apply not_elem_of_cons in Ha as [_ Ha]. apply not_elem_of_cons in Hb as [_ Hb].
    destruct (IH b Ha Hb H) as [-> ->]. done.
Qed.
Lemma keys_of_words l :
  Forall (fun n => n_type n ∈ word_kinds /\ is_Some (n_name n)) l -> NoDup (label <$> l) -> NoDup (render_node_key <$> l).
Proof.
  induction 1 as [|n l [Hw [m Hm]] Hl IH]; [constructor|]. csimpl. intros [H1 H2]%NoDup_cons.
  apply NoDup_cons. split; [|by apply IH]. intros (n' & Hk & Hin)%elem_of_list_fmap. apply H1.
  rewrite Forall_forall in Hl. destruct (Hl n' Hin) as [Hw' [m' Hm']].
  apply elem_of_list_fmap. exists n'. split; [|done]. unfold render_node_key in Hk. rewrite Hm, Hm' in Hk.
  pose proof (proj1 (Forall_forall _ _) word_kinds_word) as Hword.
  apply space_inj in Hk as [H3 H4]; [|by apply Hword..]. unfold label. by rewrite H3, Hm, Hm', H4.
Qed.

(** ** Maps whose names lose white space *)
Section fixpoint.
  Context {V : Type} (name : V -> str).

  Lemma by_name_lookup (l : list V) v : NoDup (name <$> l) -> v ∈ l -> by_name name l !! name v = Some v.
  Proof.
    intros Hn Hv. unfold by_name. apply elem_of_list_to_map_1.
    - by rewrite <- list_fmap_compose.
    - apply elem_of_list_fmap. by exists v.
  Qed.

  (** If the values of a map, in some order, are the values of a list whose names are the
      trimmed names of the values of the map, then nothing is trimmed. *)
  Lemma trimmed_same (m : gmap str V) (l l' : list V) :
    (forall v, v ∈ l <-> m !! name v = Some v) ->
    NoDup (name <$> l') -> by_name name l' = m ->
    Forall2 (fun v v' => name v' = trim (name v)) l l' -> l' = l.
  Proof.
    intros Hl Hn Hm Hf.
    assert (forall v, v ∈ l -> v ∈ l') as Hsub.
    { intros v Hv%Hl. rewrite <-Hm in Hv. by apply by_name_elem in Hv as [? _]. }
    assert (forall v, v ∈ l -> trim (name v) = name v) as Hbare.
    { intros v Hv. apply Hsub in Hv. apply elem_of_list_lookup in Hv as [i Hi].
      destruct (Forall2_lookup_r _ _ _ _ _ Hf Hi) as (w & _ & ->). apply trim_id, trim_bare. }
    pose proof (Forall2_length _ _ _ Hf) as Hlen.
    eapply list_eq_same_length; [reflexivity|by symmetry|]. intros i v' v _ Hi' Hi.
    pose proof (Forall2_lookup_lr _ _ _ _ _ _ Hf Hi Hi') as Hnm. cbn in Hnm.
    pose proof (elem_of_list_lookup_2 _ _ _ Hi) as Hv. pose proof (elem_of_list_lookup_2 _ _ _ Hi') as Hv'.
    rewrite (Hbare v Hv) in Hnm. apply (by_name_lookup l' v' Hn) in Hv'. apply Hl in Hv.
    rewrite Hm, Hnm, Hv in Hv'. by injection Hv'.
  Qed.
End fixpoint.

(** ** Lists of attributes *)
Definition plain (n : node) : Prop :=
  n_name n = None /\ n_type n ∈ KEYWORDS /\ exists v, n_child n = Some (ChildValue v) /\ value_writable v.
Lemma reread_plains l l' : Forall plain l -> Forall2 reread l l' -> l' = l.
Proof.
  intros Hp Hf. revert Hp. induction Hf as [|n n' l l' Hr Hf IH]; [done|].
  intros [(Hn & Ht & v & Hv & Hw) Hp]%Forall_cons. f_equal; [|by apply IH].
  destruct n as [t name c]. cbn in *. subst. by apply reread_plain.
Qed.
Lemma reread_object t name l n' :
  NoDup (render_node_key <$> l) -> Forall plain l ->
  reread (MkNode t (Some name) (Some (ChildNodes l))) n' -> n_type n' = t -> n_name n' = Some name ->
  n' = MkNode t (Some name) (Some (ChildNodes l)).
Proof.
  intros Hn Hp Hr Ht Hm. destruct (reread_nodes _ _ _ _ Hn Hr) as (l' & Hf & ->).
  apply (reread_plains _ _ Hp) in Hf as ->. cbn in *. by rewrite Ht, Hm.
Qed.
Lemma plain_leaf t v : t ∈ KEYWORDS -> value_writable v -> plain (MkNode t None (Some (ChildValue v))).
Proof. intros Ht Hv. split; [done|]. split; [done|]. by exists v. Qed.
Lemma deferral_plain a b : Forall plain (render_deferral a b).
Proof.
  unfold render_deferral. apply Forall_app. split; apply Forall_if; intros _;
    (apply plain_leaf; [keyword|constructor]).
Qed.
Lemma deferral_prefixes a b :
  (take 4 <$> (render_node_key <$> render_deferral a b)) `sublist_of` [L "defe"; L "init"].
Proof. unfold render_deferral. rewrite !fmap_app. apply (sublist_app _ [_]); apply prefix_if. Qed.

(** ** Constraints *)
Lemma trim_length_le s : length (trim s) <= length s.
Proof.
  unfold trim. destruct (trim_start_spec s) as (w & Hw & _).
  destruct (trim_end_spec (trim_start s)) as (v & Hv & _). rewrite Hw at 2. rewrite Hv at 2.
  rewrite !app_length. lia.
Qed.
Lemma split_on_nil sep s : split_on sep s <> [].
Proof. destruct s as [|c s]; [done|]. simpl. destruct (c =? sep)%N; [done|]. by destruct (split_on sep s). Qed.
Lemma split_join sep s :
  match split_on sep s with
  | [a] => s = a
  | [a; b] => s = a ++ sep :: b
  | _ => True
  end.
Proof.
  induction s as [|c s IH]; simpl; [done|].
  destruct (c =? sep)%N eqn:Hc.
  - apply N.eqb_eq in Hc as ->. destruct (split_on sep s) as [|a [|b l]] eqn:E; [|by subst|done].
    by apply split_on_nil in E.
  - destruct (split_on sep s) as [|a [|b [|d l]]] eqn:E; [by apply split_on_nil in E|by subst| |done].
    by subst.
Qed.

(** A reference read without the white space at its ends is the one written only if there is none. *)
Lemma reference_back ctx s t x :
  x = trim (render_table_reference ctx s t) -> parse_table_reference ctx x = Done (s, t) ->
  x = render_table_reference ctx s t.
Proof.
  unfold parse_table_reference. intros Hx H. pose proof (split_join 46 x) as Hj.
  destruct (split_on 46 x) as [|a [|b [|c l]]]; [done| | |done].
  - injection H as -> ->. unfold render_table_reference. by rewrite bool_decide_eq_true_2.
  - injection H as -> ->. unfold render_table_reference in *. case_bool_decide as Hs; [|exact Hj].
    exfalso. pose proof (trim_length_le t) as Hl. rewrite <-Hx, Hj, app_length in Hl. simpl in Hl. lia.
Qed.

Definition fk_rest (c : foreign_key) : list node :=
  render_deferral (fk_deferrable c) (fk_initially c) ++
  (if bool_decide (fk_match c <> default_match)
   then [with_string_value (fk_match c) (node_new (L "match"))] else []) ++
  (if bool_decide (fk_update c <> default_update)
   then [with_string_value (fk_update c) (node_new (L "on update"))] else []) ++
  (if bool_decide (fk_delete c <> default_delete)
   then [with_string_value (fk_delete c) (node_new (L "on delete"))] else []).
Lemma fk_rest_plain c : Forall plain (fk_rest c).
Proof.
  apply Forall_app. split; [apply deferral_plain|].
  apply Forall_app. split; [apply Forall_if; intros _; apply plain_leaf; [keyword|constructor]|].
  apply Forall_app. split; apply Forall_if; intros _; (apply plain_leaf; [keyword|constructor]).
Qed.
Definition fk_node (c : foreign_key) (ref : option str) : node :=
  MkNode (L "constraint") (Some (fk_name c)) (Some (ChildNodes (
    [with_string_varargs_value (fk_columns c) (node_new (L "foreign key"));
     MkNode (L "references") ref (Some (ChildValue (from_string_varargs (fk_tcolumns c))))] ++ fk_rest c))).
Lemma fk_keys s c : NoDup (render_node_key <$>
  ([with_string_varargs_value (fk_columns c) (node_new (L "foreign key"));
      with_string_varargs_value (fk_tcolumns c)
        (with_name (render_table_reference s (fk_tschema c) (fk_ttable c))
           (node_new (L "references")))] ++ fk_rest c)).
Proof.
  eapply (keys_of_prefixes 4 _ ([_; _] ++ ([_; _] ++ ([_] ++ ([_] ++ [_])))));
    [|unfold fk_rest; csimpl; do 2 apply sublist_skip; rewrite !fmap_app;
      apply (sublist_app _ [_; _] _ [_; _; _]); [apply deferral_prefixes|];
      apply (sublist_app _ [_] _ [_; _]); [apply prefix_if|];
      apply (sublist_app _ [_] _ [_]); apply prefix_if]. nodup.
Qed.

Lemma fk_back s t c ref :
  (forall m, ref = Some m -> m = trim (render_table_reference s (fk_tschema c) (fk_ttable c))) ->
  parse_constraint_definition s t (fk_node c ref) = Done (CForeignKey c) ->
  ref = Some (render_table_reference s (fk_tschema c) (fk_ttable c)).
Proof.
  intros Href Hp. unfold parse_constraint_definition in Hp.
  change (coerce_nodes (fk_node c ref)) with (Done (E:=derror)
    (with_string_varargs_value (fk_columns c) (node_new (L "foreign key")) ::
     MkNode (L "references") ref (Some (ChildValue (from_string_varargs (fk_tcolumns c)))) :: fk_rest c)) in Hp.
  cbn [mbind outcome_bind] in Hp.
  replace (of_type (with_string_varargs_value (fk_columns c) (node_new (L "foreign key"))) (L "primary key"))
    with false in Hp by done.
  replace (of_type (with_string_varargs_value (fk_columns c) (node_new (L "foreign key"))) (L "unique"))
    with false in Hp by done.
  replace (of_type (with_string_varargs_value (fk_columns c) (node_new (L "foreign key"))) (L "foreign key"))
    with true in Hp by done. cbv iota in Hp.
  apply bind_inv in Hp as (x & Hp & [= ->]).
  destruct ref as [r|].
  - f_equal. apply reference_back; [by apply Href|].
    set (c2 := ForeignKey (fk_schema c) (fk_table c) (fk_name c) (fk_columns c) s r (fk_tcolumns c)
      (fk_match c) (fk_update c) (fk_delete c) (fk_deferrable c) (fk_initially c)).
    assert (fk_node c (Some r) = render_foreign_key_constraint_definition s c2) as Hc2.
    { unfold render_foreign_key_constraint_definition, render_table_reference. cbn [c2 fk_tschema].
      rewrite bool_decide_eq_true_2 by done. done. }
    rewrite Hc2, fk_rendered in Hp. cbn [c2 fk_tschema fk_ttable] in Hp.
    unfold render_table_reference in Hp. rewrite bool_decide_eq_true_2 in Hp by done.
    destruct (parse_table_reference s r) as [[a b]| |]; [|done..].
    destruct (is_empty _); [done|]. injection Hp as Hp. rewrite <-Hp. done.
  - exfalso. unfold parse_foreign_key_constraint_definition in Hp.
    apply bind_inv in Hp as (? & _ & Hp). apply bind_inv in Hp as (? & _ & Hp).
    apply bind_inv in Hp as (l & [= <-]%ok_or_inv & Hp).
    apply bind_inv in Hp as ([st e] & Hc & Hp).
    apply bind_inv in Hp as (? & He%check_errors_inv & _).
    apply push_if_nil in He as [_ [_ ->]%push_if_nil]. apply collect_run in Hc.
    cbn [run] in Hc. apply bind_inv in Hc as (st1 & _ & Hc). apply bind_inv in Hc as (st2 & Hc & _).
    unfold fk_step in Hc. destruct st1. 
    replace (of_type _ (L "foreign key")) with false in Hc by done.
    replace (of_type _ (L "references")) with true in Hc by done. done.
Qed.

Lemma constraint_back s t c n' :
  reread (render_constraint_definition s c) n' -> parse_constraint_definition s t n' = Done c ->
  constraint_savable s c.
Proof.
  intros Hr Hp. pose proof (parse_constraint_inv _ _ _ _ Hp) as (Ht & Hs & Htb & Hn).
  assert (name_writable (L "constraint") (constraint_name c)) as Hw.
  { destruct c; (eapply reread_writable; [keyword|exact Hr|done|done]). }
  split; [done|].
  assert (n' = render_constraint_definition s c /\
    match c with CForeignKey c => name_writable (L "references") (render_table_reference s (fk_tschema c) (fk_ttable c)) | _ => True end)
    as [-> Href].
  2: { split; [by apply constraint_round_trip in Hp as (_ & _ & ?)|]. destruct c as [|c| |]; [done| |done..].
       split.
       - intros He. unfold render_table_reference in Href. by rewrite bool_decide_eq_true_2 in Href.
       - intros He. unfold render_table_reference in Href. rewrite bool_decide_eq_false_2 in Href by done.
         by destruct Href as (_ & ? & _). }
  destruct c as [c|c|c|c]; cbn [render_constraint_definition] in Hr |- *.
  - split; [|done]. apply reread_object; [| |exact Hr|done|done].
    + eapply (keys_of_prefixes 4 _ [_; _; _]); [|csimpl; apply sublist_skip, deferral_prefixes]. nodup.
    + constructor; [apply plain_leaf; [keyword|apply writable_varargs]|apply deferral_plain].
  - destruct (reread_nodes _ _ _ _ (fk_keys s c) Hr) as (l' & Hf & Hn'). rewrite Ht, Hn in Hn'.
    apply Forall2_cons_inv_l in Hf as (n1 & l1 & H1 & Hf & ->).
    apply Forall2_cons_inv_l in Hf as (n2 & l2 & H2 & Hf & ->).
    apply reread_plain in H1 as ->; [|keyword|apply writable_varargs].
    apply reread_plains in Hf as ->; [|apply fk_rest_plain].
    pose proof (reread_named (L "references") _ _ _ ltac:(keyword) ltac:(done) H2) as [Ht2 Hn2].
    pose proof (reread_value _ _ _ _ (writable_varargs _) H2) as Hv2. rewrite Ht2 in Hv2.
    assert (n' = fk_node c (n_name n2)) as Hfk by (rewrite Hn', Hv2; done).
    rewrite Hfk in Hp. apply fk_back in Hp; [|by intros m [? _]%Hn2].
    split; [by rewrite Hfk, Hp|].
    eapply reread_writable; [keyword|exact H2|done|done].
  - split; [|done]. apply reread_object; [| |exact Hr|done|done].
    + eapply (keys_of_prefixes 4 _ [_; _; _]); [|csimpl; apply sublist_skip, deferral_prefixes]. nodup.
    + constructor; [apply plain_leaf; [keyword|apply writable_varargs]|apply deferral_plain].
  - split; [|done]. apply reread_object; [| |exact Hr|done|done].
    + eapply (keys_of_prefixes 4 _ [_; _; _]); [|csimpl; apply sublist_skip, deferral_prefixes]. nodup.
    + constructor; [apply plain_leaf; [keyword|constructor]|apply deferral_plain].
Qed.

(** ** Views, functions, indexes and sequences *)
Lemma view_back o s v n n' :
  render_relation o s (RView v) = Done n -> reread n n' -> parse_view_definition s n' = Done v ->
  relation_savable (RView v).
Proof.
  cbn [render_relation]. intros Hn Hr Hp. pose proof (parse_view_inv _ _ _ Hp) as (Ht & Hs & Hm).
  pose proof Hn as Hn2. unfold render_view_definition in Hn2. apply bind_inv in Hn2 as (? & _ & [= Hn2]).
  rewrite <-Hn2 in Hr. cbn [with_nodes] in Hr.
  assert (name_writable (L "view") (vw_name v)) as Hw by (eapply reread_writable; [keyword|exact Hr|done|done]).
  split; [done|]. apply (view_round_trip s v). rewrite Hn. cbn [mbind outcome_bind].
  assert (n' = n) as ->; [|done]. rewrite <-Hn2. apply reread_object; [| |exact Hr|done|done].
  - destruct (vw_query v); [constructor|apply NoDup_singleton].
  - destruct (vw_query v); [constructor|]. apply Forall_singleton, plain_leaf; [keyword|constructor].
Qed.

Lemma function_back s f n' :
  reread (render_function_definition f) n' -> parse_function_definition s n' = Done f ->
  name_writable (L "function") (fn_name f).
Proof.
  intros Hr Hp. apply parse_function_inv in Hp as (Ht & Hs & Hm).
  eapply reread_writable; [keyword|exact Hr|done|done].
Qed.

Lemma index_back s i n' :
  reread (render_index_definition i) n' -> parse_index_definition s n' = Done i ->
  relation_savable (RIndex i).
Proof.
  intros Hr Hp. pose proof (parse_index_inv _ _ _ Hp) as (Ht & Hs & Hm).
  assert (name_writable (L "index") (ix_name i)) as Hw by (eapply reread_writable; [keyword|exact Hr|done|done]).
  split; [done|]. unfold render_index_definition in Hr. apply reread_nodes in Hr as (l' & Hf & Hn').
  2: { apply (keys_of_prefixes 2 _ [L "un"; L "us"; L "on"]); [nodup|]. rewrite !fmap_app.
       repeat (apply (sublist_app _ [_]); [apply prefix_if|]). done. }
  apply Forall2_app_inv_l in Hf as (l1 & l2 & H1 & Hf & ->).
  apply Forall2_app_inv_l in Hf as (l2' & l3 & H2 & H3 & ->).
  case_bool_decide as Hmet.
  { apply Forall2_cons_inv_l in H2 as (? & ? & H2 & _). by apply reread_using in H2. }
  apply Forall2_nil_inv_l in H2 as ->.
  split; [by destruct (decide (ix_method i = L "btree"))|].
  apply reread_plains in H1 as ->.
  2: { apply Forall_if. intros _. apply plain_leaf; [keyword|constructor]. }
  apply Forall2_cons_inv_l in H3 as (n3 & l4 & H3 & H4 & ->). apply Forall2_nil_inv_l in H4 as ->.
  unfold parse_index_definition in Hp.
  apply bind_inv in Hp as (? & _ & Hp). apply bind_inv in Hp as (? & _ & Hp).
  rewrite Hn' in Hp. cbn [coerce_nodes get_nodes n_child ok_or mbind outcome_bind] in Hp.
  rewrite collect_app in Hp.
  apply bind_inv in Hp as ([[[[tb ks] uq] me] e] & Hc & Hp).
  apply bind_inv in Hp as (tb' & Htb%unwrap_inv & Hp). apply bind_inv in Hp as (ks' & _ & [= Hi]).
  apply bind_inv in Hc as ([[[[tb1 ks1] uq1] me1] e1] & Hc1 & Hc).
  assert (tb1 = None) as ->.
  { destruct (bool_decide (ix_unique i <> default_unique)); cbn in Hc1; by injection Hc1. }
  subst tb. cbn [app collect] in Hc. 
  assert (n_type n3 = L "on" /\ n_name n3 = Some tb') as [Ht3 Hn3].
  { unfold ix_step at 1 in Hc. unfold of_type in Hc.
    destruct (bool_decide (n_type n3 = L "unique")); [destruct (coerce_boolean_value n3); cbn in Hc; congruence|].
    destruct (bool_decide (n_type n3 = L "on")) eqn:E2.
    - apply bool_decide_eq_true_1 in E2. split; [done|]. unfold coerce_name_and_string_varargs_value in Hc.
      destruct (n_name n3) as [nm|]; cbn in Hc; [|congruence].
      destruct (get_string_varargs_value n3); cbn in Hc; congruence.
    - destruct (bool_decide (n_type n3 = L "using")); [destruct (coerce_string_value n3); cbn in Hc; congruence|].
      cbn in Hc. congruence. }
  assert (tb' = ix_table i) as -> by (by rewrite <-Hi).
  eapply reread_writable; [keyword|exact H3|done|done].
Qed.

Lemma plain_int t v d : t ∈ KEYWORDS -> int64 v -> Forall plain (int_node t v d).
Proof. intros Ht Hv. apply Forall_if. intros _. apply plain_leaf; [done|by constructor]. Qed.

Lemma sequence_back s q n n' :
  int64_sequence q -> render_sequence_definition q = Done n -> reread n n' ->
  parse_sequence_definition s n' = Done q -> relation_savable (RSequence q).
Proof.
  intros (I1 & I2 & I3 & I4 & I5) Hn Hr Hp. pose proof (parse_sequence_inv _ _ _ Hp) as (Ht & Hs & Hm).
  pose proof Hn as Hn2. unfold render_sequence_definition in Hn2.
  apply bind_inv in Hn2 as (mn & _ & Hn2). apply bind_inv in Hn2 as (mx & _ & Hn2).
  apply bind_inv in Hn2 as (owned & Hown & [= Hn2]). 
  rewrite <-Hn2 in Hr. cbn [with_nodes with_name node_new] in Hr.
  assert (name_writable (L "sequence") (sq_name q)) as Hw by (eapply reread_writable; [keyword|exact Hr|done|done]).
  assert (NoDup (render_node_key <$> ((if bool_decide (sq_type q <> default_seq_type)
      then [with_string_value (sq_type q) (node_new (L "as"))] else []) ++
     int_node (L "increment") (sq_increment q) default_increment ++
     int_node (L "minvalue") (sq_min q) mn ++
     int_node (L "maxvalue") (sq_max q) mx ++
     int_node (L "start") (sq_start q)
       (get_sequence_start (sq_increment q) (sq_min q) (sq_max q)) ++
     int_node (L "cache") (sq_cache q) default_cache ++
     (if bool_decide (sq_cycle q <> default_cycle)
      then [with_boolean_value (sq_cycle q) (node_new (L "cycle"))] else []) ++ owned))) as Hkeys.
  { apply (keys_of_prefixes 4 _ [L "as"; L "incr"; L "minv"; L "maxv"; L "star"; L "cach"; L "cycl"; L "owne"]); [nodup|].
    unfold int_node. rewrite !fmap_app.
    repeat (apply (sublist_app _ [_]); [apply prefix_if|]).
    destruct (sq_owned_table q) as [t|].
    - apply bind_inv in Hown as (c & _ & [= <-]). done.
    - injection Hown as <-. apply sublist_nil_l. }
  pose proof Hr as Hr0. apply reread_nodes in Hr as (l' & Hf & Hn'); [|exact Hkeys].
  rewrite Ht, Hm in Hn'.
  apply Forall2_app_inv_l in Hf as (l1 & l2 & F1 & Hf & ->).
  apply Forall2_app_inv_l in Hf as (l2' & l3 & F2 & Hf & ->).
  apply Forall2_app_inv_l in Hf as (l3' & l4 & F3 & Hf & ->).
  apply Forall2_app_inv_l in Hf as (l4' & l5 & F4 & Hf & ->).
  apply Forall2_app_inv_l in Hf as (l5' & l6 & F5 & Hf & ->).
  apply Forall2_app_inv_l in Hf as (l6' & l7 & F6 & Hf & ->).
  apply Forall2_app_inv_l in Hf as (l7' & l8 & F7 & F8 & ->).
  apply reread_plains in F1 as ->; [|apply Forall_if; intros _; apply plain_leaf; [keyword|constructor]].
  apply reread_plains in F3 as ->; [|apply plain_int; [keyword|done]].
  apply reread_plains in F4 as ->; [|apply plain_int; [keyword|done]].
  apply reread_plains in F5 as ->; [|apply plain_int; [keyword|done]].
  apply reread_plains in F6 as ->; [|apply plain_int; [keyword|done]].
  apply reread_plains in F7 as ->; [|apply Forall_if; intros _; apply plain_leaf; [keyword|constructor]].
  assert (sq_increment q = 1%Z) as Hinc1.
  { destruct (decide (sq_increment q = 1%Z)) as [|Hinc]; [done|]. unfold int_node in F2.
    rewrite bool_decide_eq_true_2 in F2 by exact Hinc.
    apply Forall2_cons_inv_l in F2 as (? & ? & F2 & _). by apply reread_increment in F2. }
  assert (int_node (L "increment") (sq_increment q) default_increment = []) as Hno.
  { unfold int_node. rewrite Hinc1. done. }
  rewrite Hno in F2, Hn2. apply Forall2_nil_inv_l in F2 as ->.
  assert (l8 = owned /\ forall t, sq_owned_table q = Some t -> name_writable (L "owned by") t) as [-> Hot].
  { destruct (sq_owned_table q) as [t|] eqn:Hqt.
    - apply bind_inv in Hown as (c & _ & [= <-]).
      apply Forall2_cons_inv_l in F8 as (n8 & l9 & F8 & F9 & ->). apply Forall2_nil_inv_l in F9 as ->.
      assert (value_writable (VString c)) as Hv by constructor.
      pose proof (reread_value _ _ _ _ Hv F8) as Hv8.
      pose proof (reread_named (L "owned by") _ _ _ ltac:(keyword) ltac:(done) F8) as [Ht8 _].
      assert (n_name n8 = Some t) as Hn8.
      { unfold parse_sequence_definition in Hp.
        apply bind_inv in Hp as (? & _ & Hp). apply bind_inv in Hp as (? & _ & Hp).
        rewrite Hn' in Hp. cbn [coerce_nodes get_nodes n_child ok_or mbind outcome_bind] in Hp.
        apply bind_inv in Hp as ([st e] & Hc & Hp).
        apply bind_inv in Hp as (? & _ & Hp). apply bind_inv in Hp as (? & _ & Hp).
        apply bind_inv in Hp as (? & He%check_errors_inv & [= Hq]). subst e.
        apply collect_run in Hc. rewrite !(assoc_L (++)), run_app in Hc.
        apply bind_inv in Hc as (st1 & _ & Hc). cbn [run] in Hc. apply bind_inv in Hc as (st2 & Hc & [= ->]).
        rewrite <-Hq in Hqt. cbn in Hqt. rewrite Hv8, Ht8 in Hc. unfold sq_step in Hc. destruct st1.
        repeat match type of Hc with context [of_type (MkNode ?t ?n ?v) ?u] =>
          let b := eval vm_compute in (bool_decide (t = u)) in change (of_type (MkNode t n v) u) with b in Hc end.
        cbv iota in Hc. unfold coerce_name_and_string_value in Hc. cbn in Hc.
        destruct (n_name n8) as [nm|]; [|done]. cbn in Hc. injection Hc as Hc. rewrite <-Hc in Hqt. done. }
      split.
      + f_equal. rewrite Hv8, Ht8, Hn8. done.
      + intros ? [= <-]. eapply reread_writable; [keyword|exact F8|done|done].
    - injection Hown as <-. apply Forall2_nil_inv_l in F8 as ->. done. }
  split; [done|]. split; [|done]. apply (sequence_round_trip s q). rewrite Hn. cbn [mbind outcome_bind].
  assert (n' = n) as ->; [|done]. by rewrite <-Hn2.
Qed.

(** ** Tables *)
Lemma run_columns_inv s k cols cts l st :
  Forall (fun n => n_type n = L "column") l -> run (tb_step s k) (cols, cts) l = Done st ->
  exists cs, st = (cols ++ cs, cts) /\ Forall2 (fun n c => parse_column_definition s k n = Done c) l cs.
Proof.
  intros Hl. revert cols. induction Hl as [|n l Hn Hl IH]; intros cols; cbn [run].
  - intros [= <-]. exists []. by rewrite app_nil_r.
  - intros ([cols1 cts1] & H1 & H2)%bind_inv.
    apply tb_step_inv in H1 as [(c & Hc & -> & ->)|(c & Hc%parse_constraint_inv & _)].
    + apply IH in H2 as (cs & -> & Hf). exists (c :: cs). split; [by rewrite <- (assoc_L (++))|]. by constructor.
    + destruct Hc as [Hc _]. by rewrite Hn in Hc.
Qed.
Lemma run_constraints_inv s k cols cts l st :
  Forall (fun n => n_type n = L "constraint") l -> run (tb_step s k) (cols, cts) l = Done st ->
  exists cs, st = (cols, cts ++ cs) /\ Forall2 (fun n c => parse_constraint_definition s k n = Done c) l cs.
Proof.
  intros Hl. revert cts. induction Hl as [|n l Hn Hl IH]; intros cts; cbn [run].
  - intros [= <-]. exists []. by rewrite app_nil_r.
  - intros ([cols1 cts1] & H1 & H2)%bind_inv.
    apply tb_step_inv in H1 as [(c & Hc%parse_column_inv & _)|(c & Hc & -> & ->)].
    + destruct Hc as [Hc _]. by rewrite Hn in Hc.
    + apply IH in H2 as (cs & -> & Hf). exists (c :: cs). split; [by rewrite <- (assoc_L (++))|]. by constructor.
Qed.

Lemma reread_types l l' t :
  t ∈ KEYWORDS -> t <> L "on" -> Forall (fun n => n_type n = t /\ is_Some (n_name n)) l ->
  Forall2 reread l l' -> Forall (fun n => n_type n = t) l'.
Proof.
  intros Ht Hon Hl Hf. induction Hf as [|n n' l l' Hr Hf IH]; [constructor|].
  apply Forall_cons in Hl as [[Hn [m Hm]] Hl]. constructor; [|by apply IH].
  destruct n as [t' nm c]. cbn in Hn, Hm. subst. by eapply reread_named.
Qed.

Lemma column_back s k c n' :
  reread (render_column_definition c) n' -> parse_column_definition s k n' = Done c -> column_savable c.
Proof.
  intros Hr Hp. pose proof (parse_column_inv _ _ _ _ Hp) as (Ht & _ & _ & Hm).
  assert (name_writable (L "column") (col_name c)) as Hw by (eapply reread_writable; [keyword|exact Hr|done|done]).
  split; [done|]. apply (column_definition_round_trip s k c).
  assert (n' = render_column_definition c) as <-; [|done].
  apply reread_value in Hr as Hv; [|constructor]. rewrite Hv, Ht, Hm. done.
Qed.

Lemma Forall2_both {A B C} (P : A -> B -> Prop) (Q : B -> C -> Prop) l1 l2 l3 :
  Forall2 P l1 l2 -> Forall2 Q l2 l3 -> Forall2 (fun a c => exists b, P a b /\ Q b c) l1 l3.
Proof.
  intros H. revert l3. induction H as [|a b l1 l2 Hab H IH]; intros l3 H2.
  - apply Forall2_nil_inv_l in H2 as ->. constructor.
  - apply Forall2_cons_inv_l in H2 as (c & l4 & Hc & H2 & ->). constructor; [by exists b|by apply IH].
Qed.
Lemma Forall2_same {A} (P : A -> A -> Prop) l : Forall2 P l l -> Forall (fun a => P a a) l.
Proof. induction l; intros H; inversion H; subst; constructor; auto. Qed.

(** The names read are the trimmed names. *)
Lemma reread_name {A} (name : A -> str) (f : A -> node) a n' m :
  n_name (f a) = Some (name a) -> n_type (f a) ∈ KEYWORDS -> n_type (f a) <> L "on" ->
  reread (f a) n' -> n_name n' = Some m -> m = trim (name a).
Proof.
  intros Hn Ht Hon Hr Hm. destruct (f a) as [t nm c]. cbn in *. subst.
  destruct (reread_named _ _ _ _ Ht Hon Hr) as [_ H]. by apply H in Hm as [-> _].
Qed.

Lemma table_back o s t n' :
  wf_table s (tb_name t) t -> reread (render_table_definition o s t) n' ->
  parse_table_definition s n' = Done t -> relation_savable (RTable t).
Proof.
  intros Hwf Hr Hp. pose proof (wf_table_names _ _ _ Hwf) as Hnm.
  pose proof (parse_table_inv _ _ _ Hp) as (Ht & Hm & l & cts & Hl & Hrun & Hnd & Hndc & Heq).
  assert (name_writable (L "table") (tb_name t)) as Hw by (eapply reread_writable; [keyword|exact Hr|done|done]).
  destruct Hwf as (Hs & _ & _ & _ & _). split; [done|].
  pose proof (io_constraints_perm o (tb_schema t) (tb_name t) (tb_constraints t)) as Hpm.
  assert (NoDup (constraint_name <$> iter_constraints o t)) as Hci by apply (iter_NoDup constraint_name _ _ Hpm Hnm).
  unfold render_table_definition in Hr. apply reread_nodes in Hr as (l' & Hf & Hn').
  2: { apply keys_of_words.
       - apply Forall_app. split; apply Forall_fmap, Forall_true.
         + intros c. split; [keyword|by eexists].
         + intros c. cbn. rewrite constraint_type, constraint_node_name. split; [keyword|by eexists].
       - apply labels_app.
         + by apply (NoDup_labels col_name).
         + apply (NoDup_labels constraint_name); [intros; apply constraint_node_name|done].
         + intros a b (c & -> & _)%elem_of_list_fmap (k & -> & _)%elem_of_list_fmap.
           rewrite constraint_type. done. }
  rewrite Hn' in Hl. injection Hl as ->.
  apply Forall2_app_inv_l in Hf as (l1 & l2 & F1 & F2 & ->).
  assert (Forall (fun n => n_type n = L "column") l1) as T1.
  { eapply reread_types; [keyword|done| |exact F1]. apply Forall_fmap, Forall_true. intros c. by split; [|eexists]. }
  assert (Forall (fun n => n_type n = L "constraint") l2) as T2.
  { eapply reread_types; [keyword|done| |exact F2]. apply Forall_fmap, Forall_true. intros c. cbn.
    rewrite constraint_type, constraint_node_name. by split; [|eexists]. }
  rewrite run_app in Hrun. apply bind_inv in Hrun as ([c1 k1] & R1 & R2).
  apply run_columns_inv in R1 as (cs & [= -> ->] & P1); [|done].
  apply run_constraints_inv in R2 as (ks & [= Hcs ->] & P2); [|done]. rewrite Hcs in *. clear Hcs. cbn [app] in *.
  split.
  - rewrite Forall2_fmap_l in F1. pose proof (Forall2_both _ _ _ _ _ F1 P1) as F.
    apply Forall2_same in F. eapply Forall_impl; [exact F|]. intros c (n & Hr & Hpc). by eapply column_back.
  - rewrite Forall2_fmap_l in F2. pose proof (Forall2_both _ _ _ _ _ F2 P2) as F.
    assert (ks = iter_constraints o t) as ->.
    { apply (trimmed_same constraint_name (tb_constraints t)); [|done| |].
      - intros c. apply (iter_elem constraint_name _ _ Hpm Hnm).
      - rewrite Heq. done.
      - eapply Forall2_impl; [exact F|]. intros c c' (n & Hr & Hpc).
        apply parse_constraint_inv in Hpc as (_ & _ & _ & Hnc).
        eapply (reread_name constraint_name); [apply constraint_node_name| | |exact Hr|exact Hnc].
        + rewrite constraint_type. keyword.
        + by rewrite constraint_type. }
    apply Forall2_same in F. rewrite Forall_forall in F. intros k c Hk. rewrite Hs.
    destruct (F c) as (n & Hr & Hpc).
    { apply (iter_elem constraint_name _ _ Hpm Hnm). by rewrite (Hnm _ _ Hk). }
    by eapply constraint_back.
Qed.

(** ** Relations and schemas *)
Definition relation_kinds : list str := L <$> ["table"; "view"; "index"; "sequence"]%string.
Lemma relation_label o s r n :
  render_relation o s r = Done n -> n_type n ∈ relation_kinds /\ n_name n = Some (relation_name r).
Proof.
  destruct r as [t|v|i|q]; cbn [render_relation].
  - intros [= <-]. split; [keyword|done].
  - unfold render_view_definition. intros (? & _ & [= <-])%bind_inv. split; [keyword|done].
  - intros [= <-]. split; [keyword|done].
  - unfold render_sequence_definition. intros (? & _ & H)%bind_inv. apply bind_inv in H as (? & _ & H).
    apply bind_inv in H as (? & _ & [= <-]). split; [keyword|done].
Qed.
Lemma relation_kinds_keywords : Forall (fun t => t ∈ KEYWORDS /\ t <> L "on" /\ t <> L "function" /\ t ∈ word_kinds) relation_kinds.
Proof. apply (bool_decide_unpack _). vm_compute. exact I. Qed.

Lemma relation_back o s r n n' :
  wf_relation s (relation_name r) r -> machine_relation r ->
  render_relation o s r = Done n -> reread n n' -> parse_relation s n' = Done r -> relation_savable r.
Proof.
  intros Hwf Hm Hn Hr Hp. pose proof (relation_label _ _ _ _ Hn) as [Hk Hnm].
  assert (n_type n' = n_type n) as Ht.
  { destruct (proj1 (Forall_forall _ _) relation_kinds_keywords _ Hk) as (H1 & H2 & _).
    destruct n as [t nm c]. cbn in *. subst. by eapply reread_named. }
  unfold parse_relation, of_type in Hp. destruct r as [t|v|i|q].
  - injection Hn as <-. rewrite Ht in Hp.
    change (n_type (render_table_definition o s t)) with (L "table") in Hp.
    rewrite bool_decide_eq_true_2 in Hp by done. apply bind_inv in Hp as (x & Hp & [= ->]).
    by eapply table_back.
  - assert (n_type n = L "view") as Hv.
    { cbn in Hn. unfold render_view_definition in Hn. by apply bind_inv in Hn as (? & _ & [= <-]). }
    rewrite Ht, Hv in Hp. 
    rewrite bool_decide_eq_false_2, bool_decide_eq_true_2 in Hp by done. apply bind_inv in Hp as (x & Hp & [= ->]).
    by eapply view_back.
  - injection Hn as <-. rewrite Ht in Hp.
    change (n_type (render_index_definition i)) with (L "index") in Hp.
    do 3 rewrite bool_decide_eq_false_2 in Hp by done.
    rewrite bool_decide_eq_true_2 in Hp by done. apply bind_inv in Hp as (x & Hp & [= ->]).
    by eapply index_back.
  - assert (n_type n = L "sequence") as Hv.
    { cbn in Hn. unfold render_sequence_definition in Hn. apply bind_inv in Hn as (? & _ & H).
      apply bind_inv in H as (? & _ & H). by apply bind_inv in H as (? & _ & [= <-]). }
    rewrite Ht, Hv in Hp. do 2 rewrite bool_decide_eq_false_2 in Hp by done.
    rewrite bool_decide_eq_true_2 in Hp by done. apply bind_inv in Hp as (x & Hp & [= ->]).
    by eapply sequence_back.
Qed.

Lemma render_all_inv {A} (f : A -> dres node) l ns :
  render_all f l = Done ns -> Forall2 (fun a n => f a = Done n) l ns.
Proof.
  revert ns. induction l as [|a l IH]; intros ns; cbn [render_all]; [by intros [= <-]|].
  intros (n & Hn & H)%bind_inv. apply bind_inv in H as (ns' & H & [= <-]). constructor; [done|by apply IH].
Qed.

Lemma run_relations_inv s rels funs l st :
  Forall (fun n => n_type n <> L "function") l -> run (sc_step s) (rels, funs) l = Done st ->
  exists rs, st = (rels ++ rs, funs) /\ Forall2 (fun n r => parse_relation s n = Done r) l rs.
Proof.
  intros Hl. revert rels. induction Hl as [|n l Hn Hl IH]; intros rels; cbn [run].
  - intros [= <-]. exists []. by rewrite app_nil_r.
  - intros ([r1 f1] & H1 & H2)%bind_inv.
    apply sc_step_inv in H1 as [(r & Hr & -> & ->)|(f & Ht & _)].
    + apply IH in H2 as (cs & -> & Hf). exists (r :: cs). split; [by rewrite <- (assoc_L (++))|]. by constructor.
    + by apply bool_decide_eq_true_1 in Ht.
Qed.
Lemma run_functions_inv s rels funs l st :
  Forall (fun n => n_type n = L "function") l -> run (sc_step s) (rels, funs) l = Done st ->
  exists fs, st = (rels, funs ++ fs) /\ Forall2 (fun n f => parse_function_definition s n = Done f) l fs.
Proof.
  intros Hl. revert funs. induction Hl as [|n l Hn Hl IH]; intros funs; cbn [run].
  - intros [= <-]. exists []. by rewrite app_nil_r.
  - intros ([r1 f1] & H1 & H2)%bind_inv.
    apply sc_step_inv in H1 as [(r & Hr & _)|(f & Ht & Hf & -> & ->)].
    + unfold parse_relation, of_type in Hr. rewrite Hn in Hr.
      by do 4 rewrite bool_decide_eq_false_2 in Hr by done.
    + apply IH in H2 as (cs & -> & Hf'). exists (f :: cs). split; [by rewrite <- (assoc_L (++))|]. by constructor.
Qed.

Lemma schema_label o s n :
  render_schema_definition o s = Done n -> n_type n = L "schema" /\ n_name n = Some (sc_name s).
Proof. unfold render_schema_definition. by intros (? & _ & [= <-])%bind_inv. Qed.

Lemma schema_back o s n n' :
  wf_schema (sc_name s) s -> map_Forall (fun _ r => machine_relation r) (sc_relations s) ->
  render_schema_definition o s = Done n -> reread n n' -> parse_schema_definition n' = Done s ->
  schema_savable s.
Proof.
  intros (_ & Hwr & Hwf) Hmach Hn Hr Hp.
  pose proof (parse_schema_inv _ _ Hp) as (Ht & Hm & l & rels & funs & Hl & Hrun & Hndr & Hndf & Heq).
  unfold render_schema_definition in Hn. apply bind_inv in Hn as (ns & Hns%render_all_inv & [= <-]).
  assert (name_writable (L "schema") (sc_name s)) as Hw by (eapply reread_writable; [keyword|exact Hr|done|done]).
  split; [done|].
  assert (map_Forall (fun k r => relation_name r = k) (sc_relations s)) as Nr.
  { intros k r Hk. by apply (wf_relation_name (sc_name s)), Hwr. }
  assert (map_Forall (fun k f => fn_name f = k) (sc_functions s)) as Nf.
  { intros k f Hk. by destruct (Hwf k f Hk). }
  pose proof (io_relations_perm o (sc_name s) (sc_relations s)) as Pr.
  pose proof (io_functions_perm o (sc_name s) (sc_functions s)) as Pf.
  assert (NoDup (relation_name <$> iter_relations o s)) as Hri by apply (iter_NoDup relation_name _ _ Pr Nr).
  assert (NoDup (fn_name <$> iter_functions o s)) as Hfi by apply (iter_NoDup fn_name _ _ Pf Nf).
  assert (Forall (fun n => n_type n ∈ relation_kinds /\ is_Some (n_name n)) ns) as Hkinds.
  { clear -Hns. induction Hns as [|r n rs ns Hn _ IH]; constructor; [|done].
    apply relation_label in Hn as [? ->]. split; [done|by eexists]. }
  assert (n_name <$> ns = Some <$> (relation_name <$> iter_relations o s)) as Hnames.
  { clear -Hns. induction Hns as [|r n rs ns Hn _ IH]; [done|]. csimpl.
    apply relation_label in Hn as [_ ->]. by rewrite IH. }
  apply reread_nodes in Hr as (l' & Hf & Hn').
  2: { apply keys_of_words.
       - apply Forall_app. split.
         + eapply Forall_impl; [exact Hkinds|]. intros n [Hk Hsome]. split; [|done].
           by apply (proj1 (Forall_forall _ _) relation_kinds_keywords).
         + apply Forall_fmap, Forall_true. intros f. split; [keyword|by eexists].
       - apply labels_app.
         + apply labels_of_names. rewrite Hnames. by apply (NoDup_fmap_2 Some).
         + by apply (NoDup_labels fn_name).
         + intros a b Ha (f & -> & _)%elem_of_list_fmap Hab. rewrite Forall_forall in Hkinds.
           destruct (Hkinds a Ha) as [Hk _].
           by apply (proj1 (Forall_forall _ _) relation_kinds_keywords) in Hk as (_ & _ & ? & _). }
  rewrite Hn' in Hl. injection Hl as ->.
  apply Forall2_app_inv_l in Hf as (l1 & l2 & F1 & F2 & ->).
  assert (Forall (fun n => n_type n <> L "function") l1) as T1.
  { clear -F1 Hkinds. induction F1 as [|n n' ns l1 Hr _ IH]; [constructor|].
    apply Forall_cons in Hkinds as [[Hk [m Hm]] Hkinds]. constructor; [|by apply IH].
    apply (proj1 (Forall_forall _ _) relation_kinds_keywords) in Hk as (Hk1 & Hk2 & Hk3 & _).
    destruct n as [t nm c]. cbn in *. subst. apply reread_named in Hr as [-> _]; done. }
  assert (Forall (fun n => n_type n = L "function") l2) as T2.
  { eapply reread_types; [keyword|done| |exact F2]. apply Forall_fmap, Forall_true. intros c. by split; [|eexists]. }
  rewrite run_app in Hrun. apply bind_inv in Hrun as ([r1 f1] & R1 & R2).
  apply run_relations_inv in R1 as (rs & [= -> ->] & P1); [|done].
  apply run_functions_inv in R2 as (fs & [= -> ->] & P2); [|done]. cbn [app] in *.
  split.
  - pose proof (Forall2_both _ _ _ _ _ Hns (Forall2_both _ _ _ _ _ F1 P1)) as F.
    assert (rs = iter_relations o s) as ->.
    { apply (trimmed_same relation_name (sc_relations s)); [|done| |].
      - intros r. apply (iter_elem relation_name _ _ Pr Nr).
      - rewrite Heq. done.
      - eapply Forall2_impl; [exact F|]. intros r r' (n & Hn & n2 & Hr & Hpr).
        apply relation_label in Hn as [Hk Hnm].
        apply (proj1 (Forall_forall _ _) relation_kinds_keywords) in Hk as (Hk1 & Hk2 & _).
        apply parse_relation_wf in Hpr as [_ Hnc].
        by eapply (reread_name relation_name (fun _ => n)). }
    apply Forall2_same in F. rewrite Forall_forall in F. intros k r Hk.
    destruct (F r) as (n & Hn & n2 & Hr & Hpr).
    { apply (iter_elem relation_name _ _ Pr Nr). by rewrite (Nr _ _ Hk). }
    eapply relation_back; [|by eapply Hmach|exact Hn|exact Hr|exact Hpr].
    rewrite (Nr _ _ Hk). by apply Hwr.
  - rewrite Forall2_fmap_l in F2. pose proof (Forall2_both _ _ _ _ _ F2 P2) as F.
    assert (fs = iter_functions o s) as ->.
    { apply (trimmed_same fn_name (sc_functions s)); [|done| |].
      - intros f. apply (iter_elem fn_name _ _ Pf Nf).
      - rewrite Heq. done.
      - eapply Forall2_impl; [exact F|]. intros f f' (n & Hr & Hpf).
        apply parse_function_inv in Hpf as (_ & _ & Hnc).
        eapply (reread_name fn_name render_function_definition); [done|keyword|done|exact Hr|exact Hnc]. }
    apply Forall2_same in F. rewrite Forall_forall in F. intros k f Hk.
    destruct (F f) as (n & Hr & Hpf).
    { apply (iter_elem fn_name _ _ Pf Nf). by rewrite (Nf _ _ Hk). }
    by eapply function_back.
Qed.

(** ** Snapshots *)
Lemma parse_schemas_inv l ss :
  parse_schemas l = Done ss -> Forall2 (fun n s => parse_schema_definition n = Done s) l ss.
Proof.
  revert ss. induction l as [|n l IH]; intros ss; cbn [parse_schemas]; [by intros [= <-]|].
  intros (s & Hs & H)%bind_inv. apply bind_inv in H as (ss' & H & [= <-]). constructor; [done|by apply IH].
Qed.

Lemma load_saved o o' d m :
  wf_db d -> machine_db d -> save_document o d = Done m -> load_document o' m = Done d -> savable d.
Proof.
  intros Hwf Hmach Hsave Hload. pose proof (io_schemas_perm o (db_schemas d)) as Hp.
  assert (map_Forall (fun k s => sc_name s = k) (db_schemas d)) as Hnm.
  { intros k s Hk. by destruct (Hwf k s Hk). }
  assert (NoDup (sc_name <$> iter_schemas o d)) as Hnd by apply (iter_NoDup sc_name _ _ Hp Hnm).
  unfold save_document in Hsave. apply bind_inv in Hsave as (ns & Hns%render_all_inv & [= <-]).
  unfold load_document in Hload. apply bind_inv in Hload as (ns' & Hrd & Hload).
  apply load_nodes_spec in Hload as (ss & Hss & _ & _ & Hex); [|apply wf_new].
  assert (Forall2 reread ns ns') as Hf.
  { apply reread_forest; [|].
    - apply keys_of_words.
      + clear -Hns. induction Hns as [|s n ? ? Hn _ IH]; constructor; [|done].
        apply schema_label in Hn as [-> ->]. split; [keyword|by eexists].
      + apply labels_of_names.
        assert (n_name <$> ns = Some <$> (sc_name <$> iter_schemas o d)) as ->.
        { clear -Hns. induction Hns as [|s n ? ? Hn _ IH]; [done|]. csimpl.
          apply schema_label in Hn as [_ ->]. by rewrite IH. }
        by apply (NoDup_fmap_2 Some).
    - destruct (parse_mapping_to_nodes _); [by injection Hrd as ->|done..]. }
  pose proof (Forall2_both _ _ _ _ _ Hns (Forall2_both _ _ _ _ _ Hf (parse_schemas_inv _ _ Hss))) as F.
  assert (Forall2 (fun s s' => sc_name s' = trim (sc_name s)) (iter_schemas o d) ss) as Fn.
  { eapply Forall2_impl; [exact F|]. intros s s' (n & Hn & n2 & Hr & Hps).
    apply schema_label in Hn as [Hk Hn1]. apply parse_schema_inv in Hps as (_ & Hn2 & _).
    eapply (reread_name sc_name (fun _ => n)); [done| | |exact Hr|exact Hn2]; rewrite Hk; [keyword|done]. }
  assert (forall n, is_Some (db_schemas d !! n) -> trim n = n) as Hbare.
  { intros n Hn. apply (proj1 Hex) in Hn as (f & Hf1 & Hf2).
    apply elem_of_cons in Hf1 as [->|Hf1]; [cbn in Hf2; by rewrite lookup_empty in Hf2; destruct Hf2|].
    apply elem_of_list_fmap in Hf1 as (s' & -> & Hs'). destruct Hf2 as [x Hx]. cbn in Hx. apply lookup_singleton_Some in Hx as [Hx _]. subst n.
    apply elem_of_list_lookup in Hs' as [i Hi].
    destruct (Forall2_lookup_r _ _ _ _ _ Fn Hi) as (w & _ & ->). apply trim_id, trim_bare. }
  assert (forall s, s ∈ iter_schemas o d -> trim (sc_name s) = sc_name s) as Hb.
  { intros s Hs. apply Hbare. apply (iter_elem sc_name _ _ Hp Hnm) in Hs. by eexists. }
  assert (sc_name <$> ss = sc_name <$> iter_schemas o d) as Hsn.
  { clear -Fn Hb. induction Fn as [|s s' l l' Hs _ IH]; [done|]. csimpl. rewrite Hs, Hb by left.
    f_equal. apply IH. intros. apply Hb. by right. }
  assert (forall s s', s' ∈ ss -> db_schemas d !! sc_name s' = Some s -> s' = s) as Huniq.
  { intros s s' Hs' Hs. pose proof (parse_schemas_wf _ _ Hss) as Hwfs. rewrite Forall_forall in Hwfs.
    destruct (Hwfs s' Hs') as (_ & _ & _). pose proof (Hnm _ _ Hs) as Hsame.
    assert (forall s2, s2 ∈ ss -> sc_name s2 = sc_name s' -> s2 = s') as Hone.
    { intros s2 Hs2 He. rewrite <-Hsn in Hnd. clear -Hnd Hs2 He Hs'.
      apply elem_of_list_lookup in Hs2 as [i Hi]. apply elem_of_list_lookup in Hs' as [j Hj].
      assert (i = j) as <-; [|congruence].
      eapply NoDup_lookup; [exact Hnd| |]; rewrite list_lookup_fmap; [by rewrite Hi|by rewrite Hj, He]. }
    assert (forall f n, f ∈ database_new :: singletons ss -> n = sc_name s' -> is_Some (db_schemas f !! n) ->
      f = Database {[sc_name s' := s']}) as Hfs.
    { intros f n Hfi -> Hfl. apply elem_of_cons in Hfi as [->|Hfi]; [cbn in Hfl; by rewrite lookup_empty in Hfl; destruct Hfl|].
      apply elem_of_list_fmap in Hfi as (s2 & -> & Hs2). destruct Hfl as [x Hx]. cbn in Hx. apply lookup_singleton_Some in Hx as [Hx _].
      by rewrite (Hone s2 Hs2 Hx). }
    assert (Database {[sc_name s' := s']} ∈ database_new :: singletons ss) as Hin.
    { right. apply elem_of_list_fmap. by exists s'. }
    destruct Hex as (_ & Hxr & Hxf). destruct s as [nm rels funs], s' as [nm' rels' funs']. cbn in *. subst nm.
    f_equal.
    - apply map_eq. intros k. apply option_eq. intros r.
      specialize (Hxr nm' k r). unfold relation_at in Hxr. rewrite Hs in Hxr. cbn in Hxr. rewrite Hxr. split.
      + intros Hk. exists (Database {[nm' := Schema nm' rels' funs']}). split; [done|]. cbn.
        by rewrite lookup_singleton.
      + intros (f & Hfi & Hfl). apply bind_Some in Hfl as (x & Hx & Hy).
        pose proof (Hfs f nm' Hfi eq_refl ltac:(by eexists)) as ->. cbn in Hx.
        apply lookup_singleton_Some in Hx as [_ <-]. exact Hy.
    - apply map_eq. intros k. apply option_eq. intros r.
      specialize (Hxf nm' k r). unfold function_at in Hxf. rewrite Hs in Hxf. cbn in Hxf. rewrite Hxf. split.
      + intros Hk. exists (Database {[nm' := Schema nm' rels' funs']}). split; [done|]. cbn.
        by rewrite lookup_singleton.
      + intros (f & Hfi & Hfl). apply bind_Some in Hfl as (x & Hx & Hy).
        pose proof (Hfs f nm' Hfi eq_refl ltac:(by eexists)) as ->. cbn in Hx.
        apply lookup_singleton_Some in Hx as [_ <-]. exact Hy. }
  intros k s Hk. pose proof (Hnm _ _ Hk) as <-.
  assert (s ∈ iter_schemas o d) as Hs by (by apply (iter_elem sc_name _ _ Hp Hnm)).
  apply elem_of_list_lookup in Hs as [i Hi].
  destruct (Forall2_lookup_l _ _ _ _ _ F Hi) as (s' & Hi' & n & Hn & n2 & Hr & Hps).
  pose proof (Forall2_lookup_lr _ _ _ _ _ _ Fn Hi Hi') as Hnn. cbn in Hnn.
  rewrite Hb in Hnn by (by eapply elem_of_list_lookup_2).
  assert (s' = s) as ->.
  { apply Huniq; [by eapply elem_of_list_lookup_2|]. by rewrite Hnn. }
  eapply schema_back; [by apply Hwf|by apply (Hmach _ _ Hk)|exact Hn|exact Hr|exact Hps].
Qed.

Lemma save_load_iff o o' d :
  wf_db d -> machine_db d ->
  (exists m, save_document o d = Done m /\ load_document o' m = Done d) <-> savable d.
Proof.
  intros Hwf Hm. split; [|by apply save_load]. intros (m & H1 & H2). by eapply load_saved.
Qed.
