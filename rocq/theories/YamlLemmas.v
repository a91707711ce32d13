(** Node trees through YAML mappings. *)
From Verif Require Import Base Text Types Node Yaml SpecDefinition Ddl TextLemmas KeyLemmas.

Section inductions.
  Context (P : value -> Prop).
  Context (Hb : forall b, P (VBoolean b)) (Hs : forall s, P (VString s))
    (Hn : forall n, P (VNumber n)) (Hl : forall l, Forall P l -> P (VList l)).
  Fixpoint value_induction (v : value) : P v :=
    match v with
    | VBoolean b => Hb b
    | VString s => Hs s
    | VNumber n => Hn n
    | VList l => Hl l ((fix go l : Forall P l :=
        match l with
        | [] => Forall_nil_2 P
        | v :: l => Forall_cons_2 P v l (value_induction v) (go l)
        end) l)
    end.
End inductions.

Section node_inductions.
  Context (P : node -> Prop).
  Context (H0 : forall t n, P (MkNode t n None))
    (Hv : forall t n v, P (MkNode t n (Some (ChildValue v))))
    (Hl : forall t n l, Forall P l -> P (MkNode t n (Some (ChildNodes l)))).
  Fixpoint node_induction (n : node) : P n :=
    match n with
    | MkNode t m None => H0 t m
    | MkNode t m (Some (ChildValue v)) => Hv t m v
    | MkNode t m (Some (ChildNodes l)) => Hl t m l ((fix go l : Forall P l :=
        match l with
        | [] => Forall_nil_2 P
        | v :: l => Forall_cons_2 P v l (node_induction v) (go l)
        end) l)
    end.
End node_inductions.

(** ** Values *)
Fixpoint parse_values (l : list yaml) : outcome yaml_error (list value) :=
  match l with
  | [] => Done []
  | v :: l => v ← parse_serde_value v; l ← parse_values l; Done (v :: l)
  end.

Lemma parse_serde_seq l :
  parse_serde_value (YSeq l) = (l ← parse_values l; Done (VList l)).
Proof. done. Qed.

Lemma in_i64_iff z : in_i64 z <-> (- 9223372036854775808 <= z <= 9223372036854775807)%Z.
Proof. unfold in_i64. change (2 ^ 63)%Z with 9223372036854775808%Z. lia. Qed.

Lemma value_round_trip v : parse_serde_value (render_value v) = Done v <-> value_writable v.
Proof.
  induction v as [b|s|[i|f]|l IH] using value_induction.
  - split; [constructor|done].
  - split; [constructor|done].
  - cbn [render_value parse_serde_value]. split.
    + intros H. constructor. apply in_i64_iff. by destruct (decide (in_i64 i)).
    + intros H. inversion_clear H as [| | |? Hi|]. rewrite decide_True; [done|].
      by apply in_i64_iff.
  - split; [constructor|done].
  - cbn [render_value]. rewrite parse_serde_seq.
    assert (parse_values (render_value <$> l) = Done l <-> Forall value_writable l) as Hl.
    { induction IH as [|v l Hv _ IH]; [by split; [constructor|]|]. csimpl.
      rewrite Forall_cons. rewrite <- Hv, <- IH.
      destruct (parse_serde_value (render_value v)) as [v'| |]; simpl.
      2: { by split; [|intros [? ?]]. } 2: { by split; [|intros [? ?]]. }
      destruct (parse_values (render_value <$> l)) as [l'| |]; simpl.
      2: { by split; [|intros [? ?]]. } 2: { by split; [|intros [? ?]]. }
      split; [by intros [= -> ->]|]. by intros [[= ->] [= ->]]. }
    split.
    + intros H. constructor. apply Hl.
      destruct (parse_values (render_value <$> l)); simpl in H; [|done|done]. by injection H as ->.
    + intros H. inversion_clear H as [| | | |? Hw]. apply Hl in Hw. by rewrite Hw.
Qed.

(** ** Mappings *)
Definition str_keys (m : list (yaml * yaml)) : list str := omap (fun e => as_str e.1) m.

(** Mappings with string keys only, as written. *)
Definition written (m : list (yaml * yaml)) : Prop := Forall (fun e => exists s, e.1 = YString s) m.

Lemma mapping_insert_new key v m :
  written m -> key ∉ str_keys m -> mapping_insert key v m = m ++ [(YString key, v)].
Proof.
  induction 1 as [|[k w] m [s Hs] _ IH]; [done|]. simpl in Hs. subst k. csimpl.
  intros [Hne Hn]%not_elem_of_cons. rewrite decide_False by congruence. by rewrite IH.
Qed.

Lemma mapping_insert_old key v m :
  written m -> written (mapping_insert key v m) /\
  str_keys (mapping_insert key v m) =
    if decide (key ∈ str_keys m) then str_keys m else str_keys m ++ [key].
Proof.
  intros Hw. induction Hw as [|[k w] m [s Hs] Hw [IH1 IH2]].
  - split; [apply Forall_singleton; by exists key|]. done.
  - simpl in Hs. subst k. csimpl. destruct (decide (s = key)) as [->|Hne].
    + split; [constructor; [by exists key|done]|]. csimpl. rewrite decide_True; [done|]. by left.
    + split; [constructor; [by exists s|done]|]. csimpl. rewrite IH2.
      destruct (decide (key ∈ str_keys m)) as [Hin|Hin].
      * by rewrite decide_True by (by right).
      * rewrite decide_False; [done|]. apply not_elem_of_cons. by split.
Qed.

Definition entry_of (f : node -> yaml) (n : node) : yaml * yaml := (YString (render_node_key n), f n).

Lemma written_entries f l : written (entry_of f <$> l).
Proof. apply Forall_fmap, Forall_forall. intros n _. by exists (render_node_key n). Qed.
Lemma keys_entries f l : str_keys (entry_of f <$> l) = render_node_key <$> l.
Proof. induction l as [|n l IH]; [done|]. csimpl. by f_equal. Qed.
Lemma str_keys_app a b : str_keys (a ++ b) = str_keys a ++ str_keys b.
Proof. unfold str_keys. induction a as [|e a IH]; [done|]. csimpl. rewrite IH. by destruct (as_str e.1). Qed.

Lemma render_entries_new f m l :
  written m -> NoDup (str_keys m ++ (render_node_key <$> l)) ->
  render_entries f m l = m ++ (entry_of f <$> l).
Proof.
  revert m. induction l as [|n l IH]; intros m Hw Hn; csimpl; [by rewrite app_nil_r|].
  rewrite mapping_insert_new; [|done|].
  - rewrite IH.
    + by rewrite <- (assoc (++)).
    + apply Forall_app. split; [done|]. apply Forall_singleton. by exists (render_node_key n).
    + rewrite str_keys_app. by rewrite <- (assoc (++)).
  - apply NoDup_app in Hn as (_ & Hn & _). intros Hin. apply (Hn _ Hin). csimpl. by left.
Qed.

Lemma render_entries_keys f m l :
  written m -> NoDup (str_keys m) ->
  written (render_entries f m l) /\ NoDup (str_keys (render_entries f m l)) /\
  (forall k, k ∈ str_keys (render_entries f m l) <-> k ∈ str_keys m \/ k ∈ render_node_key <$> l).
Proof.
  revert m. induction l as [|n l IH]; intros m Hw Hn; csimpl.
  { split; [done|]. split; [done|]. intros k. split; [by left|]. intros [?|?%elem_of_nil]; done. }
  destruct (mapping_insert_old (render_node_key n) (f n) m Hw) as [Hw' Hk'].
  destruct (IH _ Hw') as (H1 & H2 & H3).
  { rewrite Hk'. case_decide as Hd; [done|]. apply NoDup_app. split; [done|].
    split; [|by apply NoDup_singleton]. intros x Hx ->%elem_of_list_singleton. done. }
  split; [done|]. split; [done|]. intros k. rewrite H3, Hk'. rewrite elem_of_cons.
  case_decide as Hd.
  - split; [intros [?|?]; auto|]. intros [?|[->|?]]; auto.
  - rewrite elem_of_app, elem_of_list_singleton. naive_solver.
Qed.

Lemma length_str_keys m : written m -> length (str_keys m) = length m.
Proof. induction 1 as [|[k w] m [s Hs] _ IH]; [done|]. simpl in Hs. subst k. csimpl. by rewrite IH. Qed.

Lemma parse_entries_length child m ns : parse_entries child m = Done ns -> length ns = length m.
Proof.
  revert ns. induction m as [|[k v] m IH]; intros ns; simpl; [by intros [= <-]|].
  destruct (as_str k) as [key|]; [|done].
  destruct (create_node_from_mapping_key key) as [[t name]| |]; simpl; [|done|done].
  destruct (child v); simpl; [|done|done].
  destruct (parse_entries child m) as [ns'| |]; simpl; [|done|done]. intros [= <-].
  simpl. by rewrite (IH ns').
Qed.

Lemma parse_render_nodup f child l ns :
  parse_entries child (render_entries f [] l) = Done ns -> length ns = length l ->
  NoDup (render_node_key <$> l).
Proof.
  intros H%parse_entries_length Hlen.
  destruct (render_entries_keys f [] l) as (H1 & H2 & H3); [constructor|constructor|].
  set (m := render_entries f [] l) in *.
  assert (str_keys m ≡ₚ render_node_key <$> l) as Hp.
  { apply submseteq_Permutation_length_le.
    - rewrite length_str_keys by done. rewrite fmap_length. lia.
    - apply NoDup_submseteq; [done|]. intros x Hx. apply H3 in Hx as [?%elem_of_nil|?]; done. }
  by rewrite <- Hp.
Qed.

Lemma find_in_elem low kws k : find_in low kws = Some k -> k ∈ kws.
Proof.
  induction kws as [|k' kws IH]; simpl; [done|].
  destruct (starts_with k' low); [intros [= ->]; by left|]. intros H. right. by apply IH.
Qed.

Lemma create_keyword key t name : create_node_from_mapping_key key = Done (t, name) -> t ∈ KEYWORDS.
Proof.
  unfold create_node_from_mapping_key. rewrite find_keyword_eq.
  destruct (find_in (lower key) KEYWORDS) as [k|] eqn:Hk; [|done].
  destruct (slice_from _ _); [|done]. intros [= -> _]. by eapply find_in_elem.
Qed.

Lemma key_round_trip n :
  create_node_from_mapping_key (render_node_key n) = Done (label n) <->
  n_type n ∈ KEYWORDS /\ (forall s, n_name n = Some s -> name_writable (n_type n) s).
Proof.
  destruct n as [t [name|] c]; unfold label; simpl.
  - split.
    + intros H. assert (t ∈ KEYWORDS) by by eapply create_keyword. split; [done|].
      intros s [= <-]. by eapply named_key_iff.
    + intros [Ht Hn]. apply named_key_iff; auto.
  - split.
    + intros H. split; [by eapply create_keyword|done].
    + intros [Ht _]. by apply plain_key.
Qed.

(** The keys of siblings differ as soon as their labels do. *)
Lemma keys_labels l :
  Forall (fun n => create_node_from_mapping_key (render_node_key n) = Done (label n)) l ->
  NoDup (label <$> l) <-> NoDup (render_node_key <$> l).
Proof.
  intros H. split.
  - intros Hn. induction H as [|n l Hc Hl IH]; [constructor|]. csimpl in *.
    apply NoDup_cons in Hn as [Hn1 Hn2]. apply NoDup_cons. split; [|by apply IH].
    intros (n' & Hk & Hin)%elem_of_list_fmap. apply Hn1.
    assert (label n = label n') as ->; [|by apply elem_of_list_fmap_1].
    rewrite Forall_forall in Hl. specialize (Hl n' Hin). rewrite <- Hk, Hc in Hl. congruence.
  - intros Hn. induction H as [|n l Hc Hl IH]; [constructor|]. csimpl in *.
    apply NoDup_cons in Hn as [Hn1 Hn2]. apply NoDup_cons. split; [|by apply IH].
    intros (n' & Hk & Hin)%elem_of_list_fmap. apply Hn1.
    assert (render_node_key n = render_node_key n') as ->; [|by apply elem_of_list_fmap_1].
    destruct n, n'. unfold label in Hk. simpl in Hk. by injection Hk as -> ->.
Qed.

Definition child_of (n : node) : outcome yaml_error (option node_child) :=
  parse_child (render_node_value n).

(** Entries written one per node are read back node by node. *)
Lemma parse_entries_nodes l :
  parse_entries parse_child (entry_of render_node_value <$> l) = Done l <->
  Forall (fun n => create_node_from_mapping_key (render_node_key n) = Done (label n) /\
                   child_of n = Done (n_child n)) l.
Proof.
  induction l as [|n l IH]; [by split; [constructor|]|]. rewrite Forall_cons, <- IH.
  csimpl. unfold child_of.
  destruct (create_node_from_mapping_key (render_node_key n)) as [[t name]| |]; simpl.
  2: { by split; [|intros [[? ?] ?]]. } 2: { by split; [|intros [[? ?] ?]]. }
  destruct (parse_child (render_node_value n)) as [c| |]; simpl.
  2: { by split; [|intros [[? ?] ?]]. } 2: { by split; [|intros [[? ?] ?]]. }
  destruct (parse_entries parse_child (entry_of render_node_value <$> l)) as [l'| |]; simpl.
  2: { by split; [|intros [[? ?] ?]]. } 2: { by split; [|intros [[? ?] ?]]. }
  destruct n as [t' name' c']. unfold label. simpl. split.
  - by intros [= -> -> -> ->].
  - by intros [[[= -> ->] [= ->]] [= ->]].
Qed.

Lemma parse_child_value v : parse_child (render_value v) = (v ← parse_serde_value (render_value v); Done (Some (ChildValue v))).
Proof. by destruct v as [| |[]|]. Qed.

Lemma mapping_round_trip l :
  Forall (fun n => child_of n = Done (n_child n) <-> child_writable (n_child n)) l ->
  parse_entries parse_child (render_entries render_node_value [] l) = Done l <->
  NoDup (label <$> l) /\ Forall node_writable l.
Proof.
  intros Hc.
  assert (forall n, n ∈ l -> node_writable n <->
    (create_node_from_mapping_key (render_node_key n) = Done (label n) /\
     child_of n = Done (n_child n))) as Hn.
  { intros n Hin. rewrite Forall_forall in Hc. rewrite (Hc n Hin), key_round_trip.
    destruct n as [t name c]. simpl. split.
    - intros H. by inversion_clear H.
    - intros [[? ?] ?]. by constructor. }
  assert (Forall node_writable l <-> Forall (fun n =>
    create_node_from_mapping_key (render_node_key n) = Done (label n) /\
     child_of n = Done (n_child n)) l) as Hall.
  { rewrite !Forall_forall. split; intros H n Hin; by apply Hn, H. }
  rewrite Hall. split.
  - intros H. assert (NoDup (render_node_key <$> l)) as Hd.
    { by eapply parse_render_nodup. }
    rewrite render_entries_new in H; [|constructor|by apply Hd]. apply parse_entries_nodes in H.
    split; [|done]. apply keys_labels; [|done]. eapply Forall_impl; [exact H|]. by intros n [? _].
  - intros [Hd H]. assert (NoDup (render_node_key <$> l)) as Hd'.
    { apply keys_labels; [|done]. eapply Forall_impl; [exact H|]. by intros n [? _]. }
    rewrite render_entries_new; [|constructor|by apply Hd']. by apply parse_entries_nodes.
Qed.

Lemma child_round_trip n : child_of n = Done (n_child n) <-> child_writable (n_child n).
Proof.
  induction n as [t m|t m v|t m l IH] using node_induction; unfold child_of.
  - split; [constructor|done].
  - cbn [render_node_value n_child]. rewrite parse_child_value.
    assert ((v' ← parse_serde_value (render_value v); Done (Some (ChildValue v'))) =
      Done (Some (ChildValue v)) <-> parse_serde_value (render_value v) = Done v) as ->.
    { destruct (parse_serde_value (render_value v)); simpl; [|done|done].
      split; [by intros [= ->]|by intros [= ->]]. }
    rewrite value_round_trip. split; [by constructor|]. intros H. by inversion H.
  - cbn [n_child render_node_value parse_child].
    assert ((nodes ← parse_entries parse_child (render_entries render_node_value [] l);
      Done (Some (ChildNodes nodes))) = Done (Some (ChildNodes l)) <->
      parse_entries parse_child (render_entries render_node_value [] l) = Done l) as ->.
    { destruct (parse_entries parse_child (render_entries render_node_value [] l)); simpl; [|done|done].
      split; [by intros [= ->]|by intros [= ->]]. }
    rewrite mapping_round_trip by done. split; [by intros []; constructor|].
    intros H. by inversion H.
Qed.

Lemma forest_round_trip l :
  parse_mapping_to_nodes (render_nodes_to_mapping l) = Done l <-> forest_writable l.
Proof.
  apply mapping_round_trip. apply Forall_forall. intros n _. apply child_round_trip.
Qed.
