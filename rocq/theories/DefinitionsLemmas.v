(** Lemmas about the directory of definitions. *)
From Verif Require Import Base Text Types Changes SpecSnapshot SpecMerge MergeLemmas Load Node Yaml Ddl
  SnapshotExamples SpecDefinition SaveLemmas ParseLemmas ContentLemmas DefinitionLemmas History Expand Project Definitions SpecDefinitions.

Definition parse_with (dc : documents) (i : nat) (text : str) : iter_order * option database :=
  (dc_load_order dc i, load_yaml_string (dc_read dc) (dc_load_order dc i) text).

Lemma load_texts_files dc i d texts d' :
  load_texts dc i d texts = Ret d' <-> load_files d (imap (fun j => parse_with dc (i + j)) texts) = Some d'.
Proof.
  revert i d. induction texts as [|t texts IH]; intros i d; cbn; [split; congruence|].
  unfold parse_with at 1. rewrite Nat.add_0_r. unfold load_yaml_string.
  destruct (dc_read dc t) as [m|]; [|done].
  destruct (load_document (dc_load_order dc i) m) as [f|e|]; cbn; [| destruct e; done|done].
  destruct (database_merge (dc_load_order dc i) f d) as [d1 [[]|e]]; [|done].
  rewrite IH. f_equiv. f_equal. apply imap_ext. intros j x _. cbn. by rewrite Nat.add_succ_r.
Qed.

Lemma parse_all_wf dc texts :
  Forall (fun f => forall x, f.2 = Some x -> wf_db x) (imap (fun j => parse_with dc (0 + j)) texts).
Proof.
  apply Forall_forall. intros [o f] H. apply elem_of_lookup_imap in H as (j & y & [= -> ->] & _).
  intros x. apply read_wf.
Qed.

Lemma parse_any dc texts : (imap (fun j => parse_with dc (0 + j)) texts).*2 =
  load_yaml_string (dc_read dc) any_order <$> texts.
Proof.
  apply list_eq. intros j. rewrite !list_lookup_fmap, list_lookup_imap.
  destruct (texts !! j); [|done]. cbn. f_equal. apply read_order.
Qed.

Lemma load_texts_exact dc texts d :
  load_texts dc 0 database_new texts = Ret d <->
  exists l, Some <$> l = load_yaml_string (dc_read dc) any_order <$> texts /\ no_clashes l /\ wf_db d /\
    contains_exactly l d.
Proof.
  rewrite load_texts_files, load_files_spec; [|apply map_Forall_empty|apply parse_all_wf].
  rewrite parse_any. split.
  - intros (l & Hl & [_ Hn] & Hd & Hc). exists l. by rewrite contains_exactly_new in Hc.
  - intros (l & Hl & Hn & Hd & Hc). exists l. rewrite contains_exactly_new.
    split; [done|]. split; [|done]. simpl. split; [|done].
    apply Forall_forall. intros f _. apply no_clash_new.
Qed.

Lemma defines_iff dc text f : defines dc text f <-> load_yaml_string (dc_read dc) any_order text = Some f.
Proof.
  unfold defines. split.
  - intros (m & o & Hm & Hf). rewrite <- (read_order (dc_read dc) o). unfold load_yaml_string.
    by rewrite Hm, Hf.
  - unfold load_yaml_string. destruct (dc_read dc text) as [m|]; [|done].
    destruct (load_document any_order m) as [d|e|] eqn:E; [|done..]. intros [= <-]. by exists m, any_order.
Qed.

(** ** The files *)
Lemma listed_prefix (fs : filesystem) above p :
  listed fs above p = true <->
  p <> [] /\ forall r, above `prefix_of` r -> r `prefix_of` above ++ p -> r <> above ++ p -> fs !! r = Some Directory.
Proof.
  revert above. induction p as [|c p IH]; intros above.
  - cbn. rewrite andb_false_r. split; [done|]. by intros [? _].
  - cbn. destruct p as [|c' p].
    + rewrite andb_true_r, bool_decide_eq_true. split.
      * intros H. split; [done|]. intros r [s ->] Hr Hne. destruct s as [|x s]; [by rewrite app_nil_r|].
        apply prefix_app_inv in Hr. apply prefix_cons_inv_2 in Hr as Hr'. apply prefix_cons_inv_1 in Hr. subst x.
        apply prefix_nil_inv in Hr'. subst s. done.
      * intros [_ H]. apply H; [done|by exists [c]|]. intros E. apply (f_equal length) in E.
        rewrite app_length in E. cbn in E. lia.
    + rewrite andb_true_iff, bool_decide_eq_true, IH. split.
      * intros (Ha & _ & H). split; [done|]. intros r [s ->] Hr Hne. destruct s as [|x s]; [by rewrite app_nil_r|].
        apply prefix_app_inv in Hr as Hx. apply prefix_cons_inv_1 in Hx. subst x.
        assert (forall t : list str, above ++ c :: t = (above ++ [c]) ++ t) as Ht
          by (intros t; by rewrite <- (assoc_L (++))).
        rewrite (Ht s), (Ht (c' :: p)) in Hr. rewrite (Ht s), (Ht (c' :: p)) in Hne. rewrite (Ht s). apply H; [by exists s|exact Hr|exact Hne].
      * intros (_ & H). split; [|split; [done|]].
        -- apply H; [done|by apply prefix_app_r|]. intros E. apply (f_equal length) in E.
           rewrite app_length in E. cbn in E. lia.
        -- intros r Hr1 Hr2 Hne. rewrite <- (assoc_L (++)) in Hr2, Hne.
           apply H; [|exact Hr2|exact Hne]. etransitivity; [|exact Hr1]. by apply prefix_app_r.
Qed.

Lemma definition_text_iff (fs : filesystem) q n text :
  fs !! q = Some n -> definition_text fs (q, n) = Some text <-> definition_at fs q text.
Proof.
  intros Hq. unfold definition_text, definition_at. cbn [fst snd]. rewrite Hq.
  destruct n as [|b]; [split; [done|]; by intros [? _]|].
  destruct (last q) as [name|] eqn:El.
  - apply last_Some in El as [p ->]. destruct (bool_decide_reflect (extension name = Some (L "yaml"))) as [He|He]; cbn [andb].
    + apply extension_yaml in He. split.
      * destruct (listed fs [] (p ++ [name])) eqn:Hl; [|done]. intros [= ->]. split; [done|]. split; [by exists p, name|].
        apply listed_prefix in Hl as [_ Hl]. intros r Hr Hne. apply Hl; [apply prefix_nil|done|done].
      * intros ([= ->] & _ & Hp). assert (listed fs [] (p ++ [name]) = true) as ->; [|done].
        apply listed_prefix. split; [by destruct p|]. intros r _. apply Hp.
    + rewrite extension_yaml in He. split; [done|]. intros (_ & (p' & name' & E & Hn) & _).
      apply app_inj_tail in E as [_ ->]. done.
  - apply last_None in El as ->. split; [done|]. intros (_ & (p' & name' & E & Hn) & _). by destruct p'.
Qed.

Definition read_files (dc : documents) (fs : filesystem) : gmap path str :=
  list_to_map (omap (fun e => (fun t => (e.1, t)) <$> definition_text fs e) (dc_files dc fs)).

Lemma read_keys (fs : filesystem) (l : list (path * node)) :
  NoDup l.*1 -> NoDup (omap (fun e => (fun t => (e.1, t)) <$> definition_text fs e) l).*1.
Proof.
  induction l as [|[q n] l IH]; intros Hd; csimpl; [constructor|].
  apply NoDup_cons in Hd as [Hn Hd]. destruct (definition_text fs (q, n)) as [t|]; csimpl; [|auto].
  constructor; [|auto]. intros Hin. apply Hn.
  apply elem_of_list_fmap in Hin as ([q' t'] & -> & Hin). apply elem_of_list_omap in Hin as ([q2 n2] & Hin & E).
  cbn in E. destruct (definition_text fs (q2, n2)); [|done]. injection E as -> ->.
  apply elem_of_list_fmap. by exists (q', n2).
Qed.

Lemma read_files_list dc fs :
  map_to_list (read_files dc fs) ≡ₚ omap (fun e => (fun t => (e.1, t)) <$> definition_text fs e) (dc_files dc fs).
Proof.
  unfold read_files. apply map_to_list_to_map, read_keys. rewrite dc_files_perm. apply NoDup_fst_map_to_list.
Qed.

Lemma read_files_iff dc fs q text : read_files dc fs !! q = Some text <-> definition_at fs q text.
Proof.
  rewrite <- elem_of_map_to_list, read_files_list. rewrite elem_of_list_omap. split.
  - intros ([q' n] & Hin & E). cbn in E. destruct (definition_text fs (q', n)) as [t|] eqn:Et; [|done].
    injection E as -> ->. rewrite dc_files_perm in Hin. apply elem_of_map_to_list in Hin.
    by apply (definition_text_iff fs q n).
  - intros H. pose proof H as [Hq _]. exists (q, Bytes text). split.
    + rewrite dc_files_perm. by apply elem_of_map_to_list.
    + apply (definition_text_iff fs q (Bytes text) text Hq) in H. by rewrite H.
Qed.

Lemma texts_read dc fs : definition_texts dc fs ≡ₚ (map_to_list (read_files dc fs)).*2.
Proof.
  rewrite read_files_list. unfold definition_texts. generalize (dc_files dc fs) as l.
  intros l. induction l as [|e l IH]; csimpl; [done|]. destruct (definition_text fs e); csimpl; [by rewrite IH|done].
Qed.

(** ** Loading *)
Lemma no_clashes_apart (l : gmap path database) : no_clashes (map_to_list l).*2 <-> apart l.
Proof.
  assert (forall k : list (path * database), NoDup k.*1 ->
    no_clashes k.*2 <-> forall p q a b, (p, a) ∈ k -> (q, b) ∈ k -> p <> q -> no_clash a b) as H.
  { intros k. induction k as [|[p a] k IH]; intros Hd; csimpl.
    - split; [|done]. intros _ p q a b Hin. by apply elem_of_nil in Hin.
    - apply NoDup_cons in Hd as [Hn Hd]. rewrite (IH Hd), Forall_forall. split.
      + intros [H1 H2] p1 q1 a1 b1 [[= -> ->]|Hp]%elem_of_cons [[= -> ->]|Hq]%elem_of_cons Hne; [done| | |by eauto].
        * apply H1, elem_of_list_fmap. by exists (q1, b1).
        * destruct (H1 a1) as [G1 G2]; [apply elem_of_list_fmap; by exists (p1, a1)|].
          split; intros n x; [specialize (G1 n x)|specialize (G2 n x)]; tauto.
      + intros H. split.
        * intros b Hb. apply elem_of_list_fmap in Hb as ([q b'] & -> & Hin). apply (H p q a b'); [left|by right|].
          intros ->. apply Hn, elem_of_list_fmap. by exists (q, b').
        * intros p1 q1 a1 b1 Hp Hq. apply (H p1 q1); by right. }
  rewrite H by apply NoDup_fst_map_to_list. unfold apart.
  split; intros G p q a b; specialize (G p q a b); rewrite ?elem_of_map_to_list in *; done.
Qed.

Lemma load_definition_files_exact dc fs d :
  load_definition_files dc fs = Ret d <->
  fs !! [] = Some Directory /\ exists l, defined dc fs l /\ apart l /\ wf_db d /\
    contains_exactly (map_to_list l).*2 d.
Proof.
  unfold load_definition_files. case_decide as Hr; [|split; [done|by intros [? _]]].
  rewrite load_texts_exact. set (g := load_yaml_string (dc_read dc) any_order).
  set (m := read_files dc fs).
  split.
  - intros (l & Hl & Hn & Hd & Hc). split; [done|].
    assert (forall q t, m !! q = Some t -> is_Some (g t)) as Hg.
    { intros q t Hq. apply elem_of_map_to_list in Hq.
      assert (g t ∈ g <$> definition_texts dc fs) as Hin.
      { apply elem_of_list_fmap_1. rewrite texts_read. apply elem_of_list_fmap. by exists (q, t). }
      rewrite <- Hl in Hin. apply elem_of_list_fmap in Hin as (x & -> & _). by eexists. }
    exists (omap g m).
    assert (l ≡ₚ (map_to_list (omap g m)).*2) as Hp.
    { assert (Some <$> l ≡ₚ Some <$> (map_to_list (omap g m)).*2) as Hp; [|].
      - rewrite Hl. rewrite texts_read. fold m. clear Hl. revert Hg. clear.
        induction m as [|q t m Hq IH] using map_ind; intros Hg.
        + by rewrite omap_empty, !map_to_list_empty.
        + destruct (Hg q t) as [f Hf]; [apply lookup_insert|].
          rewrite (omap_insert_Some g m q t f Hf).
          rewrite !map_to_list_insert by (rewrite ?lookup_omap, Hq; done).
          csimpl. rewrite Hf. rewrite IH; [done|]. intros q' t' Hq'. apply (Hg q'). rewrite lookup_insert_ne; [done|congruence].
      - apply Permutation_map_inv in Hp as (l' & E & Hp). change (Some <$> l = Some <$> l') in E. apply (inj (fmap Some)) in E. by subst l'. }
    split; [|split; [|split; [done|]]].
    + split.
      * intros q f Hf. rewrite lookup_omap in Hf. destruct (m !! q) as [t|] eqn:Et; [|done]. cbn in Hf.
        exists t. split; [by apply (read_files_iff dc)|]. by apply defines_iff.
      * intros q t Ht. apply (read_files_iff dc) in Ht. fold m in Ht. rewrite lookup_omap, Ht. cbn. by apply (Hg q).
    + apply no_clashes_apart. eapply no_clashes_perm; [exact Hp|exact Hn].
    + eapply contains_exactly_perm; [exact Hp|exact Hc].
  - intros (_ & l & [H1 H2] & Ha & Hd & Hc).
    assert (l = omap g m) as ->.
    { apply map_eq. intros q. rewrite lookup_omap. destruct (m !! q) as [t|] eqn:Et; cbn.
      - apply (read_files_iff dc) in Et as Hat. destruct (H2 _ _ Hat) as [f Hf]. rewrite Hf.
        destruct (H1 _ _ Hf) as (t' & Ht' & Hd'). apply (read_files_iff dc) in Ht'. fold m in Ht'.
        assert (t' = t) as -> by congruence. symmetry. by apply defines_iff.
      - destruct (l !! q) as [f|] eqn:Ef; [|done]. destruct (H1 _ _ Ef) as (t' & Ht' & _).
        apply (read_files_iff dc) in Ht'. fold m in Ht'. congruence. }
    assert (forall q t, m !! q = Some t -> is_Some (g t)) as Hg.
    { intros q t Hq. apply (read_files_iff dc) in Hq as Hat. apply H2 in Hat. rewrite lookup_omap in Hat.
      fold m in Hq. by rewrite Hq in Hat. }
    assert (Some <$> (map_to_list (omap g m)).*2 ≡ₚ g <$> definition_texts dc fs) as Hp.
    { rewrite texts_read. fold m. revert Hg. clear.
      induction m as [|q t m Hq IH] using map_ind; intros Hg.
      + by rewrite omap_empty, !map_to_list_empty.
      + destruct (Hg q t) as [f Hf]; [apply lookup_insert|].
        rewrite (omap_insert_Some g m q t f Hf).
        rewrite !map_to_list_insert by (rewrite ?lookup_omap, Hq; done).
        csimpl. rewrite Hf. rewrite IH; [done|]. intros q' t' Hq'. apply (Hg q'). rewrite lookup_insert_ne; [done|congruence]. }
    symmetry in Hp. apply Permutation_map_inv in Hp as (l' & E & Hp). exists l'. split; [by symmetry|].
    split; [|split; [done|]].
    + eapply no_clashes_perm; [exact Hp|]. by apply no_clashes_apart.
    + eapply contains_exactly_perm; [exact Hp|exact Hc].
Qed.

Lemma load_definition_files_wf dc fs d : load_definition_files dc fs = Ret d -> wf_db d.
Proof. by intros (_ & l & _ & _ & ? & _)%load_definition_files_exact. Qed.

(** ** Saving, then loading *)
Lemma saved_text_loads dc d :
  reads_back dc -> wf_db d -> machine_db d -> savable d ->
  exists text, saved_text dc d = Ret text /\ defines dc text d.
Proof.
  intros Hb Hw Hm Hs. destruct (save_load (dc_save_order dc) any_order d Hw Hm Hs) as (m & H1 & H2).
  exists (dc_print dc m). unfold saved_text. rewrite H1. split; [done|].
  exists m, any_order. split; [by eapply Hb|done].
Qed.

Lemma load_only dc fs q text d :
  fs !! [] = Some Directory -> wf_db d ->
  (forall q' text', definition_at fs q' text' <-> q' = q /\ text' = text) -> defines dc text d ->
  load_definition_files dc fs = Ret d.
Proof.
  intros Hr Hw Hat Hd. apply load_definition_files_exact. split; [done|]. exists {[q := d]}.
  split; [split|split; [|split; [done|]]].
  - intros q' f [<- <-]%lookup_singleton_Some. exists text. split; [by apply Hat|done].
  - intros q' t [-> _]%Hat. rewrite lookup_singleton. by eexists.
  - intros p1 q1 a b [<- <-]%lookup_singleton_Some [<- <-]%lookup_singleton_Some. done.
  - rewrite map_to_list_singleton. csimpl. apply contains_exactly_one.
Qed.
