(** Lemmas: running a diff with the real [apply]. *)
From Verif Require Import Base Types Changes SpecSnapshot SpecChange SpecDiff Diff
  StepLemmas ColumnLemmas DiffSound ApplyLemmas InvertLemmas DiffSame DiffLocal.

Lemma apply_relaxed c d d' :
  wf_db d -> apply c d = (d', Ok ()) -> relaxed c d = (d', Ok ()).
Proof.
  intros Hwf H. destruct c; try exact H. simpl in *.
  apply with_schema_mut_ok in H as (sc & sc' & Hsc & Hr & ->).
  unfold with_schema_mut. rewrite Hsc.
  apply create_index_inv in Hr as (tb & Htb & Hk & ->).
  unfold add_relation, has_relation; simpl. rewrite Hk.
  assert (tb_name tb = table) as ->; [|done].
  destruct (Hwf _ _ Hsc) as (_ & Hr & _). by destruct (Hr _ _ Htb) as (_ & ? & _).
Qed.

Lemma relaxed_apply c d d' :
  wf_db d -> relaxed c d = (d', Ok ()) ->
  (forall n T k u m ks, c = CreateIndex n T k u m ks -> table_at d n T) ->
  apply c d = (d', Ok ()).
Proof.
  intros Hwf H HT. destruct c; try exact H. simpl in *.
  apply with_schema_mut_ok in H as (sc & sc' & Hsc & Hr & ->).
  destruct (HT _ _ _ _ _ _ eq_refl) as [tb Htb].
  rewrite (relation_at_lookup _ _ _ _ Hsc) in Htb.
  unfold with_schema_mut. rewrite Hsc. unfold create_index_in, mthen, mread, get_relation.
  rewrite Htb. simpl.
  assert (tb_name tb = table) as ->.
  { destruct (Hwf _ _ Hsc) as (_ & Hr' & _). by destruct (Hr' _ _ Htb) as (_ & ? & _). }
  unfold add_relation, has_relation in *; simpl in *.
  destruct (sc_relations sc !! index); [done|]. by injection Hr as <-.
Qed.

Lemma steps_agree (G G' : change -> database -> Prop) cs d d1 d2 :
  wf_db d -> steps G cs d d1 -> steps_of relaxed G' cs d d2 ->
  d1 = d2 /\ steps G' cs d d2.
Proof.
  intros Hwf H. revert d2 Hwf. induction H as [d|c cs d d1 d3 Ha _ _ IH]; intros d2 Hwf H2.
  - inversion H2; subst. split; [done|constructor].
  - inversion H2 as [|? ? ? d1' ? Hr Hg Hs]; subst.
    rewrite (apply_relaxed _ _ _ Hwf Ha) in Hr. injection Hr as <-.
    destruct (IH d2) as [-> Hs']; [by eapply apply_wf|done|]. split; [done|]. by econstructor.
Qed.

(** If the changes of a diff apply, whatever the hash orders, the result is the
    expected one. *)
Lemma diff_result os ot s t d' :
  wf_db s -> wf_db t -> apply_all (compare_diff os ot s t) s = (d', Ok ()) ->
  d' = expected_db s t /\ steps (dgood s t) (compare_diff os ot s t) s d'.
Proof.
  intros Hs Ht H%apply_all_steps.
  destruct (steps_agree _ _ _ _ _ _ Hs H (diff_run_relaxed s t os ot Hs Ht)) as [-> ?]. done.
Qed.

Lemma steps_strict G cs d d' :
  wf_db d -> steps_of relaxed G cs d d' ->
  (forall n T k u m ks d, CreateIndex n T k u m ks ∈ cs -> G (CreateIndex n T k u m ks) d -> table_at d n T) ->
  steps G cs d d'.
Proof.
  intros Hwf H. revert Hwf. induction H as [d|c cs d d1 d3 Ha Hg Hs IH]; intros Hwf HT; [constructor|].
  assert (apply c d = (d1, Ok ())) as Ha'.
  { apply relaxed_apply; [done|done|]. intros n T k u m ks ->. eapply HT; [|done]. left. }
  econstructor; [done|done|]. apply IH; [by eapply apply_wf|].
  intros n T k u m ks d' Hin. apply (HT n T k u m ks). by right.
Qed.

Lemma index_safe_at s t n k i :
  indexes_safe s t -> relation_at t n k = Some (RIndex i) ->
  index_safe (source_relations s n) (source_relations t n) k i.
Proof.
  intros H Hk. unfold relation_at in Hk. destruct (db_schemas t !! n) as [sct|] eqn:E; [|done].
  simpl in Hk. unfold source_relations at 2. rewrite E. by eapply H.
Qed.

Lemma diff_exact os ot s t :
  wf_db s -> wf_db t -> indexes_safe s t ->
  steps (dgood s t) (compare_diff os ot s t) s (expected_db s t).
Proof.
  intros Hs Ht Hix. apply steps_strict; [done|by apply diff_run_relaxed|].
  intros n T k u m ks d _ (i & Hi & Hsf). by apply Hsf, index_safe_at.
Qed.

(** ** The result and the target *)
Lemma relation_at_expected s t n k :
  relation_at (expected_db s t) n k = expected_relation (relation_at s n k) (relation_at t n k).
Proof.
  unfold relation_at, expected_db; simpl. rewrite map_lookup_imap.
  destruct (db_schemas t !! n) as [sct|] eqn:E; simpl.
  - rewrite lookup_merge.
    assert (source_relations s n !! k = (db_schemas s !! n ≫= fun sc => sc_relations sc !! k)) as ->.
    { unfold source_relations. by destruct (db_schemas s !! n). }
    destruct (db_schemas s !! n ≫= _) as [r|], (sc_relations sct !! k) as [r'|]; done.
  - destruct (db_schemas s !! n ≫= _) as [[]|]; done.
Qed.

Lemma option_Forall2_relation a b n k :
  db_equiv a b -> option_Forall2 relation_equiv (relation_at a n k) (relation_at b n k).
Proof.
  intros H. unfold relation_at. destruct (H n) as [x y (_&Hr&_)|]; simpl; [done|constructor].
Qed.

Lemma expected_equiv_iff s t :
  wf_db s -> wf_db t ->
  db_equiv (expected_db s t) t <-> index_attributes_agree s t /\ new_sequences_unowned s t.
Proof.
  intros Hs Ht. split.
  - intros H. split.
    + intros n k a b Ha Hb Hk. pose proof (option_Forall2_relation _ _ n k H) as Hr.
      rewrite relation_at_expected, Ha, Hb in Hr. simpl in Hr. rewrite decide_True in Hr by done.
      inversion Hr as [x y Hxy|]; subst. simpl in Hxy. congruence.
    + intros n k q Hq. pose proof (option_Forall2_relation _ _ n k H) as Hr.
      rewrite relation_at_expected, Hq in Hr.
      destruct (relation_at s n k) as [[x|x|x|x]|] eqn:E; simpl in Hr.
      all: try (inversion Hr as [? ? Hxy|]; subst; simpl in Hxy; right;
                injection Hxy as Hxy; rewrite <- Hxy; done).
      destruct (decide (x = q)) as [->|]; [by left|].
      inversion Hr as [? ? Hxy|]; subst; simpl in Hxy; right.
      injection Hxy as Hxy; rewrite <- Hxy; done.
  - intros [Ha Hq]. apply db_same_equiv; [by apply expected_db_same|].
    intros n k a b Hx Hy Hk. rewrite relation_at_expected in Hx.
    destruct (relation_at s n k) as [[x|x|x|x]|] eqn:E; rewrite Hy in Hx; simpl in Hx;
      try (by injection Hx as ->).
    destruct (decide (ix_keys x = ix_keys b)) as [Hkk|]; injection Hx as ->; [|done].
    by eapply Ha.
Qed.

(** ** Reverts along a run *)
Lemma dgood_can_revert s t c d : dgood s t c d -> can_revert c d.
Proof.
  intros H. split.
  - destruct c; simpl in *; tauto.
  - intros n k ->. destruct H as (tb & H & _). by exists tb.
Qed.

Lemma diff_reverts os ot s t d' :
  wf_db s -> wf_db t -> apply_all (compare_diff os ot s t) s = (d', Ok ()) ->
  exists rs, collect_reverts (compare_diff os ot s t) s = Some rs.
Proof.
  intros Hs Ht H. destruct (diff_result _ _ _ _ _ Hs Ht H) as [_ Hst].
  eapply collect_defined, steps_mono; [|exact Hst]. apply dgood_can_revert.
Qed.

(** ** Rolling back *)
Lemma steps_elem ap (G : change -> database -> Prop) cs d d' :
  steps_of ap G cs d d' -> steps_of ap (fun c d => c ∈ cs /\ G c d) cs d d'.
Proof.
  induction 1 as [|c cs d d1 d2 Ha Hg Hs IH]; [constructor|].
  econstructor; [done|split; [left|done]|].
  eapply steps_mono; [|exact IH]. intros c' d' [Hin ?]. split; [by right|done].
Qed.

Lemma dgood_recoverable s t c d :
  rollback_safe s t -> justified s t c -> dgood s t c d -> recoverable c d.
Proof.
  intros (Ht & Hq & Hi) HJ Hg. destruct c; simpl in *; try done.
  - destruct Hg as (i & Hd & Hs & Hst), HJ as (i' & Hs' & Hk).
    intros j Hj. rewrite Hd in Hj. injection Hj as <-. rewrite Hs in Hs'. injection Hs' as <-.
    destruct (Hi _ _ _ Hs Hk) as [Ha Hb]. by apply Hst.
  - intros sc Hsc. rewrite Hg in Hsc. by injection Hsc as <-.
  - destruct Hg as (q & Hd & Hs), HJ as (_ & Hne). intros q' Hq'. rewrite Hd in Hq'.
    injection Hq' as <-. apply (Hq _ _ _ Hs). congruence.
  - destruct Hg as (tb & Hd & Hs), HJ as (_ & Hne). intros tb' Htb'. rewrite Hd in Htb'.
    injection Htb' as <-. by eapply Ht.
Qed.

Lemma diff_rollback os ot s t d' rs :
  wf_db s -> wf_db t -> rollback_safe s t ->
  apply_all (compare_diff os ot s t) s = (d', Ok ()) ->
  collect_reverts (compare_diff os ot s t) s = Some rs ->
  exists d2, apply_all (reverse rs) d' = (d2, Ok ()) /\ db_equiv d2 s.
Proof.
  intros Hs Ht Hsafe H Hrs. destruct (diff_result _ _ _ _ _ Hs Ht H) as [_ Hst].
  eapply rollback_run; [done| |done].
  eapply steps_mono; [|apply steps_elem, Hst]. simpl. intros c d [Hc Hg].
  eapply dgood_recoverable; [done| |done].
  pose proof (diff_justified s t os ot Hs Ht) as HJ. rewrite Forall_forall in HJ. by apply HJ.
Qed.
