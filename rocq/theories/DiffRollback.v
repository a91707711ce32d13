(** Lemmas: what the reverts of a diff cannot restore. *)
From Verif Require Import Base Types Changes SpecSnapshot SpecChange SpecDiff Diff
  StepLemmas ColumnLemmas DiffSound ApplyLemmas InvertLemmas DiffSame DiffLocal DiffRun DiffOrder.

(** ** Constraints and owners do not appear by themselves *)
Definition adds_constraint (n k x : str) (c : change) : Prop :=
  match c with
  | AddCheck a b y _ _ _ | AddForeignKey a b y _ _ _ _ _ _ _ _ _
  | AddPrimaryKey a b y _ _ _ | AddUnique a b y _ _ _ => a = n /\ b = k /\ y = x
  | _ => False
  end.

Lemma constraint_frame g d d' n k x :
  same_but g d d' ->
  match g with
  | TSchema m => m <> n
  | TRelation m j => (m, j) <> (n, k)
  | TConstraint m j y => (m, j, y) <> (n, k, x)
  | _ => True
  end ->
  constraint_at d' n k x = constraint_at d n k x.
Proof.
  intros [H1 H2] Hg. unfold constraint_at. destruct (decide (n = target_schema g)) as [->|Hn].
  2:{ unfold relation_at. by rewrite H1. }
  destruct g as [m|m j|m f|m j cs|m j y]; simpl in *; [done| | | |];
    unfold relation_at; destruct H2 as [sc sc' [_ H]|]; simpl; try done.
  - destruct H as [H _]. rewrite H; [done|congruence].
  - by destruct H as [-> _].
  - destruct H as (Hne & Hor & _). destruct (decide (k = j)) as [->|Hk]; [|by rewrite Hne].
    destruct Hor as [->|(a & b & -> & -> & (_ & _ & _ & ->))]; done.
  - destruct H as (Hne & Hor & _). destruct (decide (k = j)) as [->|Hk]; [|by rewrite Hne].
    destruct Hor as [->|(a & b & -> & -> & (_ & _ & _ & Hc))]; [done|]. symmetry. apply Hc. congruence.
Qed.

Lemma created_table_constraints n k cols sc sc' tb :
  create_table_in n k cols sc = (sc', Ok ()) -> sc_relations sc' !! k = Some (RTable tb) -> tb_constraints tb = ∅.
Proof.
  intros H Hk. apply create_table_inv in H as (tb' & Hm & _ & _ & ->). simpl in Hk.
  rewrite lookup_insert in Hk. injection Hk as <-. by destruct (mfor_add_column_names _ _ _ _ _ _ Hm) as (_ & _ & ->).
Qed.

Lemma schema_step_relation c d d' n k m :
  apply c d = (d', Ok ()) -> target_of c = TSchema m ->
  relation_at d' n k = relation_at d n k \/ relation_at d' n k = None.
Proof.
  intros Ha Eg. destruct c; simpl in Eg; try done; injection Eg as ->; simpl in Ha.
  - unfold add_schema in Ha. destruct (has_schema _ _); [done|]. injection Ha as <-.
    unfold relation_at; simpl. destruct (decide (n = m)) as [->|Hne].
    + right. rewrite lookup_insert. simpl. apply lookup_empty.
    + left. by rewrite lookup_insert_ne.
  - unfold mthen, remove_schema, mok in Ha. destruct (db_schemas d !! m) eqn:E; [|done].
    injection Ha as <-. unfold relation_at; simpl. destruct (decide (n = m)) as [->|Hne].
    + right. by rewrite lookup_delete.
    + left. by rewrite lookup_delete_ne.
Qed.

Lemma constraint_appears c d d' n k x :
  apply c d = (d', Ok ()) -> constraint_at d n k x = None -> constraint_at d' n k x <> None ->
  adds_constraint n k x c.
Proof.
  intros Ha Hn Hs. pose proof (apply_frame _ _ _ _ Ha) as Hf.
  destruct (target_of c) as [m|m j|m f|m j cs|m j y] eqn:Eg.
  - destruct Hs. unfold constraint_at in *.
    destruct (schema_step_relation _ _ _ n k _ Ha Eg) as [-> | ->]; done.
  - destruct (decide ((m, j) = (n, k))) as [[= -> ->]|Hne].
    2:{ destruct Hs. by rewrite (constraint_frame _ _ _ _ _ _ Hf Hne). }
    exfalso. apply Hs. unfold constraint_at.
    destruct c; simpl in Eg; try done; injection Eg as -> ->; simpl in Ha.
    all: apply with_schema_mut_ok in Ha as (sc & sc' & Hsc & Hr & ->).
    all: rewrite relation_at_put_eq.
    + apply create_index_inv in Hr as (tb & _ & _ & ->). simpl. by rewrite lookup_insert.
    + apply add_relation_inv in Hr as [_ ->]. simpl. by rewrite lookup_insert.
    + destruct (sc_relations sc' !! k) as [[tb| | |]|] eqn:E; try done.
      by rewrite (created_table_constraints _ _ _ _ _ _ Hr E).
    + apply add_relation_inv in Hr as [_ ->]. simpl. by rewrite lookup_insert.
    + apply drop_relation_inv in Hr as (r & a & _ & _ & ->). simpl. by rewrite lookup_delete.
    + apply drop_relation_inv in Hr as (r & a & _ & _ & ->). simpl. by rewrite lookup_delete.
    + apply remove_relation_inv in Hr as (r & _ & ->). simpl. by rewrite lookup_delete.
    + apply drop_relation_inv in Hr as (r & a & _ & _ & ->). simpl. by rewrite lookup_delete.
  - destruct Hs. by rewrite (constraint_frame _ _ _ _ _ _ Hf I).
  - destruct Hs. by rewrite (constraint_frame _ _ _ _ _ _ Hf I).
  - destruct (decide ((m, j, y) = (n, k, x))) as [[= -> -> ->]|Hne].
    2:{ destruct Hs. by rewrite (constraint_frame _ _ _ _ _ _ Hf Hne). }
    destruct c; simpl in Eg; try done; injection Eg as -> -> ->; simpl in Ha |- *; try done; exfalso.
    all: apply in_table_ok in Ha as (sc & tb & tb' & Hsc & Htb & Hm & ->).
    all: unfold constraint_at in Hn; rewrite (relation_at_lookup _ _ _ _ Hsc), Htb in Hn.
    all: first [apply with_constraint_ok in Hm as (c0 & ? & Hc & _)
               |apply drop_constraint_inv in Hm as (c0 & ? & Hc & _)]; congruence.
Qed.

(** The sequence at (n, k), if there is one, has no owner. *)
Definition no_owner (n k : str) (d : database) : Prop :=
  forall q, relation_at d n k = Some (RSequence q) -> sq_owned_table q = None /\ sq_owned_column q = None.

Lemma owner_appears c d d' n k : apply c d = (d', Ok ()) -> no_owner n k d -> no_owner n k d'.
Proof.
  intros Ha Hn q Hq. pose proof (apply_frame _ _ _ _ Ha) as Hf.
  destruct (target_of c) as [m|m j|m f|m j cs|m j y] eqn:Eg.
  - destruct (schema_step_relation _ _ _ n k _ Ha Eg) as [He|He]; [|congruence].
    apply Hn. by rewrite <- He.
  - destruct (decide ((n, k) = (m, j))) as [[= -> ->]|Hne].
    2:{ apply Hn. by rewrite <- (same_but_relation_ne _ _ _ _ _ _ Hf Hne). }
    destruct c; simpl in Eg; try done; injection Eg as -> ->; simpl in Ha.
    all: apply with_schema_mut_ok in Ha as (sc & sc' & Hsc & Hr & ->).
    all: rewrite relation_at_put_eq in Hq.
    + apply create_index_inv in Hr as (tb & _ & _ & ->). simpl in Hq. by rewrite lookup_insert in Hq.
    + apply add_relation_inv in Hr as [_ ->]. simpl in Hq. rewrite lookup_insert in Hq. by injection Hq as <-.
    + apply create_table_inv in Hr as (tb & _ & _ & _ & ->). simpl in Hq. by rewrite lookup_insert in Hq.
    + apply add_relation_inv in Hr as [_ ->]. simpl in Hq. by rewrite lookup_insert in Hq.
    + apply drop_relation_inv in Hr as (r & a & _ & _ & ->). simpl in Hq. by rewrite lookup_delete in Hq.
    + apply drop_relation_inv in Hr as (r & a & _ & _ & ->). simpl in Hq. by rewrite lookup_delete in Hq.
    + apply remove_relation_inv in Hr as (r & _ & ->). simpl in Hq. by rewrite lookup_delete in Hq.
    + apply drop_relation_inv in Hr as (r & a & _ & _ & ->). simpl in Hq. by rewrite lookup_delete in Hq.
  - destruct (same_but_kinds _ _ _ n k Hf I) as [H|[_ [? H]]]; [|congruence]. apply Hn. by rewrite <- H.
  - destruct (same_but_kinds _ _ _ n k Hf I) as [H|[_ [? H]]]; [|congruence]. apply Hn. by rewrite <- H.
  - destruct (same_but_kinds _ _ _ n k Hf I) as [H|[_ [? H]]]; [|congruence]. apply Hn. by rewrite <- H.
Qed.

(** ** Which change a revert comes from *)
Lemma collect_split cs1 c cs2 d d1 d2 rs :
  collect_reverts (cs1 ++ c :: cs2) d = Some rs ->
  apply_all cs1 d = (d1, Ok ()) -> apply c d1 = (d2, Ok ()) ->
  exists rs1 r rs2, rs = rs1 ++ r :: rs2 /\ collect_reverts cs1 d = Some rs1 /\
    revert c d1 = Ok r /\ collect_reverts cs2 d2 = Some rs2.
Proof.
  revert d rs. induction cs1 as [|c1 cs1 IH]; intros d rs; simpl.
  - intros H [= ->] Hc. rewrite Hc in H. destruct (revert c d1) as [r|]; [|done].
    destruct (collect_reverts cs2 d2) as [rs2|]; [|done]. injection H as <-. by exists [], r, rs2.
  - unfold apply_all; simpl. unfold mthen. destruct (revert c1 d) as [r1|]; [|done].
    destruct (apply c1 d) as [e [[]|]]; [|done]. destruct (collect_reverts (cs1 ++ c :: cs2) e) as [rs'|] eqn:E; [|done].
    intros [= <-] H1 H2. destruct (IH _ _ E H1 H2) as (rs1 & r & rs2 & -> & -> & ? & ?).
    by exists (r1 :: rs1), r, rs2.
Qed.

Lemma collect_elem cs d rs r :
  wf_db d -> collect_reverts cs d = Some rs -> r ∈ rs ->
  exists c d1, c ∈ cs /\ wf_db d1 /\ revert c d1 = Ok r.
Proof.
  revert d rs. induction cs as [|c cs IH]; intros d rs Hwf; simpl.
  - intros [= <-] ?%elem_of_nil. done.
  - destruct (revert c d) as [r1|] eqn:Er; [|done]. destruct (apply c d) as [e [[]|]] eqn:Ea; [|done].
    destruct (collect_reverts cs e) as [rs'|] eqn:E; [|done]. intros [= <-] [->|Hin]%elem_of_cons.
    + exists c, d. split; [left|done].
    + destruct (IH e rs' (apply_wf _ _ _ _ Hwf Ea) E Hin) as (c' & d1 & ? & ?). exists c', d1. split; [by right|done].
Qed.

Lemma look_table_names d n k sc tb :
  wf_db d -> look_table d n k = Ok (sc, tb) -> sc_name sc = n /\ tb_schema tb = n /\ tb_name tb = k.
Proof.
  intros Hd [H1 H2]%look_table_inv. destruct (Hd _ _ H1) as (H3 & Hr & _).
  by destruct (Hr _ _ H2) as (? & ? & _).
Qed.

Lemma adds_from s t n k x c d r :
  wf_db d -> revert c d = Ok r -> adds_constraint n k x r -> justified s t c -> table_at t n k.
Proof.
  intros Hd Hr Hx HJ. destruct c; simpl in Hr; unfold rbind in Hr; simpl in Hr.
  all: try (injection Hr as <-; done).
  all: try (destruct (look_table d _ _) as [[sc tb]|] eqn:El; [|done];
            destruct (look_table_names _ _ _ _ _ Hd El) as (En & En' & Ek); simpl in Hr).
  all: try (injection Hr as <-; done).
  all: repeat match type of Hr with context [match ?e with Ok _ => _ | Err _ => _ end] =>
                destruct e; [|done] end.
  all: injection Hr as <-; simpl in Hx; try done.
  all: destruct Hx as (<- & <- & _); simpl in HJ; destruct HJ as (_ & ? & _); congruence.
Qed.

Lemma creates_table_from n T cols c d :
  wf_db d -> revert c d = Ok (CreateTable n T cols) -> c = DropTable n T.
Proof.
  intros Hd Hr. destruct c; simpl in Hr; unfold rbind in Hr; simpl in Hr.
  all: try done.
  all: try (destruct (look_table d _ _) as [[sc tb]|] eqn:El; [|done];
            destruct (look_table_names _ _ _ _ _ Hd El) as (En & En' & Ek); simpl in Hr).
  all: repeat match type of Hr with context [match ?e with Ok _ => _ | Err _ => _ end] =>
                destruct e; [|done] end.
  all: try done.
  unfold new_create_table in Hr. injection Hr as H1 H2 _. congruence.
Qed.

Lemma apply_all_wf cs d d' : wf_db d -> apply_all cs d = (d', Ok ()) -> wf_db d'.
Proof. intros Hd H%apply_all_steps. by eapply steps_wf. Qed.

Lemma steps_app_inv ap G cs1 cs2 d d' :
  steps_of ap G (cs1 ++ cs2) d d' -> exists e, steps_of ap G cs1 d e /\ steps_of ap G cs2 e d'.
Proof.
  revert d. induction cs1 as [|c cs1 IH]; intros d H; simpl in H.
  - exists d. split; [constructor|done].
  - inversion H as [|? ? ? d1 ? Ha Hg Hr]; subst. destruct (IH _ Hr) as (e & ? & ?).
    exists e. split; [by econstructor|done].
Qed.

(** ** What a diff does to the relations of one schema *)
Definition old_relation (os ot : iter_order) (t : database) (n : str) (r : relation) : list change :=
  match relation_at t n (relation_name r) with
  | Some r' => diff_relation_update os ot r r'
  | None => diff_relation_drop r
  end.

Lemma diff_old_relations os ot s t n scs :
  wf_db s -> db_schemas s !! n = Some scs ->
  exists pre post, compare_diff os ot s t =
    pre ++ (iter_relations os scs ≫= old_relation os ot t n) ++ post.
Proof.
  intros Hs Hns. destruct (iter_schemas_split os s n scs Hs Hns) as (l1 & l2 & Heq & _).
  unfold compare_diff, diff_database_update. rewrite Heq, bind_split.
  assert (exists p q, diff_database_old os ot t scs = p ++ (iter_relations os scs ≫= old_relation os ot t n) ++ q)
    as (p & q & ->).
  { unfold diff_database_old. rewrite (wf_schemas_named _ Hs _ _ Hns).
    destruct (db_schemas t !! n) as [sct|] eqn:E.
    - unfold diff_schema_update. eexists _, _. do 2 f_equal.
      apply list_bind_ext; [|done]. intros r. unfold old_relation, diff_schema_relation_old, relation_at.
      by rewrite E.
    - unfold diff_schema_drop. exists []. eexists. cbn [app]. f_equal.
      apply list_bind_ext; [|done]. intros r. unfold old_relation, relation_at. by rewrite E. }
  exists ((iter_schemas ot t ≫= diff_database_new ot s) ++ (l1 ≫= diff_database_old os ot t) ++ p),
    (q ++ (l2 ≫= diff_database_old os ot t)). by rewrite <- !app_assoc.
Qed.

Section necessary.
  Context (s t : database) (Hs : wf_db s) (Ht : wf_db t).
  Context (os ot : iter_order) (d' d2 : database) (rs : list change).
  Context (Hrun : apply_all (compare_diff os ot s t) s = (d', Ok ())).
  Context (Hrs : collect_reverts (compare_diff os ot s t) s = Some rs).
  Context (Hback : apply_all (reverse rs) d' = (d2, Ok ())).

  Lemma final_relation n k : relation_at d' n k = expected_relation (relation_at s n k) (relation_at t n k).
  Proof. destruct (diff_result _ _ _ _ _ Hs Ht Hrun) as [He _]. rewrite He. apply relation_at_expected. Qed.

  Lemma final_table n k : table_at d' n k -> table_at t n k.
  Proof.
    unfold table_at. rewrite final_relation. intros [tb Hx].
    destruct (relation_at t n k) as [[y|y|y|y]|]; [by exists y| | | |];
      destruct (relation_at s n k) as [[z|z|z|z]|]; simpl in Hx;
      try (destruct (decide _) in Hx); discriminate Hx.
  Qed.

  Lemma revert_justified r :
    r ∈ rs -> exists c d1, c ∈ compare_diff os ot s t /\ wf_db d1 /\ revert c d1 = Ok r /\ justified s t c.
  Proof.
    intros Hin. destruct (collect_elem _ _ _ _ Hs Hrs Hin) as (c & d1 & Hc & Hd1 & Hr).
    exists c, d1. split; [done|]. split; [done|]. split; [done|].
    pose proof (diff_justified s t os ot Hs Ht) as HJ. rewrite Forall_forall in HJ. by apply HJ.
  Qed.

  Lemma lost_constraints n k :
    ~ table_at t n k -> forall x, constraint_at d2 n k x = None.
  Proof.
    intros Hn x.
    assert (constraint_at d' n k x = None) as H0.
    { unfold constraint_at. destruct (relation_at d' n k) as [[tb| | |]|] eqn:E; try done.
      destruct Hn. apply final_table. by exists tb. }
    assert (forall r, r ∈ reverse rs -> ~ adds_constraint n k x r) as Hno.
    { intros r Hr Ha. rewrite elem_of_reverse in Hr.
      destruct (revert_justified r Hr) as (c & d1 & _ & Hd1 & Hrv & HJ).
      apply Hn. by eapply adds_from. }
    clear Hrs. revert Hback H0. generalize d'. induction (reverse rs) as [|r l IH]; intros d Hb H0.
    - unfold apply_all in Hb; simpl in Hb. by injection Hb as <-.
    - unfold apply_all in Hb; simpl in Hb; unfold mthen in Hb.
      destruct (apply r d) as [d1 [[]|]] eqn:Ea; [|done].
      apply (IH (fun r Hr => Hno r (elem_of_list_further _ _ _ Hr)) d1 Hb).
      destruct (constraint_at d1 n k x) as [c|] eqn:E; [|done]. exfalso.
      apply (Hno r); [left|]. eapply constraint_appears; [exact Ea|done|congruence].
  Qed.

  Lemma lost_owner n k q :
    relation_at s n k = Some (RSequence q) -> relation_at t n k <> Some (RSequence q) -> no_owner n k d2.
  Proof.
    intros Hq Hne.
    assert (no_owner n k d') as H0.
    { intros y Hy. rewrite final_relation, Hq in Hy.
      destruct (relation_at t n k) as [[z|z|z|z]|]; simpl in Hy; try done.
      rewrite decide_False in Hy by congruence. by injection Hy as <-. }
    clear Hrun Hrs. revert Hback H0. generalize d'. induction (reverse rs) as [|r l IH]; intros d Hb H0.
    - unfold apply_all in Hb; simpl in Hb. by injection Hb as <-.
    - unfold apply_all in Hb; simpl in Hb; unfold mthen in Hb.
      destruct (apply r d) as [d1 [[]|]] eqn:Ea; [|done].
      eapply IH; [exact Hb|]. by eapply owner_appears.
  Qed.

  (** The revert of a dropped index, and the reverts before and after it. *)
  Lemma dropped_index n k i pre post :
    relation_at s n k = Some (RIndex i) ->
    compare_diff os ot s t = pre ++ DropIndex n k :: post ->
    exists e1 e2 rs1 rs2, apply_all pre s = (e1, Ok ()) /\ apply_all post e2 = (d', Ok ()) /\ wf_db e2 /\
      collect_reverts post e2 = Some rs2 /\
      rs = rs1 ++ CreateIndex n (ix_table i) k (ix_unique i) (ix_method i) (ix_keys i) :: rs2.
  Proof.
    intros Hi Heq. destruct (diff_result _ _ _ _ _ Hs Ht Hrun) as [_ Hst].
    pose proof Hrun as Hrun'. rewrite Heq in Hrun', Hst. pose proof Hrs as Hrs'. rewrite Heq in Hrs'.
    apply apply_all_split in Hrun' as (e1 & e2 & H1 & H2 & H3).
    destruct (collect_split _ _ _ _ _ _ _ Hrs' H1 H2) as (rs1 & r & rs2 & Hrq & _ & Hr & Hc).
    assert (wf_db e1) as Hw1 by (eapply (apply_all_wf pre); [exact Hs|exact H1]).
    exists e1, e2, rs1, rs2. split; [done|]. split; [done|]. split; [by eapply apply_wf|]. split; [done|].
    rewrite Hrq. do 2 f_equal.
    assert (relation_at e1 n k = Some (RIndex i)) as He.
    { apply steps_app_inv in Hst as (e & Ha & Hb). inversion Hb as [|? ? ? e' ? Hc1 Hg]; subst.
      simpl in Hg. destruct Hg as (j & Hj & Hsj & _).
      assert (e = e1) as -> by (apply steps_apply_all in Ha; congruence). congruence. }
    simpl in Hr. unfold relation_at in He. unfold get_schema in Hr.
    destruct (db_schemas e1 !! n) as [sc|] eqn:Esc; [|done]. simpl in He, Hr. unfold get_relation in Hr.
    rewrite He in Hr. simpl in Hr. injection Hr as <-.
    destruct (Hw1 _ _ Esc) as (-> & Hw & _). destruct (Hw _ _ He) as [_ Hk]. simpl in Hk. by rewrite Hk.
  Qed.

  Lemma index_not_back n k i pre post :
    relation_at s n k = Some (RIndex i) ->
    compare_diff os ot s t = pre ++ DropIndex n k :: post ->
    ~ table_at t n (ix_table i) -> DropTable n (ix_table i) ∉ post -> False.
  Proof.
    intros Hi Heq Hnt Hno.
    destruct (dropped_index n k i pre post Hi Heq) as (e1 & e2 & rs1 & rs2 & _ & Hp & Hw & Hc & Hrq).
    pose proof Hback as Hback'. rewrite Hrq in Hback'.
    rewrite reverse_app, reverse_cons, <- app_assoc in Hback'. simpl in Hback'.
    eapply index_too_early; [exact Hback'| |].
    - intros cols Hin. rewrite elem_of_reverse in Hin.
      destruct (collect_elem _ _ _ _ Hw Hc Hin) as (c & e & Hc1 & He & Hr).
      apply creates_table_from in Hr as ->; [|done]. done.
    - intros H. by apply Hnt, final_table.
  Qed.

  Lemma index_not_back_new n k i cols pre post :
    relation_at s n k = Some (RIndex i) ->
    compare_diff os ot s t = pre ++ DropIndex n k :: post ->
    ~ table_at s n (ix_table i) -> CreateTable n (ix_table i) cols ∈ post -> False.
  Proof.
    intros Hi Heq Hns (q1 & q2 & ->)%elem_of_list_split.
    destruct (dropped_index n k i _ _ Hi Heq) as (e1 & e2 & rs1 & rs2 & _ & Hp & Hw & Hc & Hrq).
    pose proof Hback as Hback'. rewrite Hrq in Hback'.
    apply apply_all_split in Hp as (f1 & f2 & Hq1 & Hct & _).
    destruct (collect_split _ _ _ _ _ _ _ Hc Hq1 Hct) as (r1 & r & r2 & Hrq2 & Hc1 & Hr & _).
    rewrite Hrq2 in Hback'.
    assert (r = DropTable n (ix_table i)) as ->.
    { assert (wf_db f1) as Hf by (eapply (apply_all_wf q1); [exact Hw|exact Hq1]).
      simpl in Hr. unfold get_schema in Hr. destruct (db_schemas f1 !! n) as [sc|] eqn:E; [|done].
      simpl in Hr. injection Hr as <-. by destruct (Hf _ _ E) as [-> _]. }
    rewrite reverse_app, reverse_cons, reverse_app, reverse_cons, <- !app_assoc in Hback'. simpl in Hback'.
    rewrite <- ?app_assoc in Hback'. simpl in Hback'.
    apply apply_all_split in Hback' as (g1 & g2 & _ & Hdrop & Hb).
    eapply index_too_early; [exact Hb| |].
    - intros cs Hin. rewrite elem_of_reverse in Hin.
      destruct (collect_elem _ _ _ _ Hw Hc1 Hin) as (c & e & Hcq & He & Hr').
      apply creates_table_from in Hr' as ->; [|done].
      pose proof (diff_justified s t os ot Hs Ht) as HJ. rewrite Forall_forall in HJ.
      assert (DropTable n (ix_table i) ∈ compare_diff os ot s t) as Hin2.
      { rewrite Heq. apply elem_of_app. right. right. apply elem_of_app. by left. }
      by destruct (HJ _ Hin2).
    - simpl in Hdrop. apply with_schema_mut_ok in Hdrop as (sc & sc' & Hsc & Hr' & ->).
      apply remove_relation_inv in Hr' as (r' & _ & ->). intros [y Hy].
      rewrite relation_at_put_eq in Hy. simpl in Hy. by rewrite lookup_delete in Hy.
  Qed.

  Lemma dropped_once n T pre c post :
    compare_diff os ot s t = pre ++ c :: post -> ~ table_at t n T ->
    DropTable n T ∈ pre -> DropTable n T ∉ post.
  Proof.
    intros Heq Hnt (p1 & p2 & ->)%elem_of_list_split (q1 & q2 & ->)%elem_of_list_split.
    destruct (diff_result _ _ _ _ _ Hs Ht Hrun) as [_ Hst]. pose proof Hrun as Hrun'.
    pose proof (diff_justified s t os ot Hs Ht) as HJ. rewrite Forall_forall in HJ.
    rewrite Heq in Hrun', Hst, HJ. rewrite <- app_assoc in Hrun', Hst, HJ. simpl in Hrun', Hst, HJ.
    apply apply_all_split in Hrun' as (e1 & e2 & H1 & Hdrop & H2).
    replace (p2 ++ c :: q1 ++ DropTable n T :: q2) with ((p2 ++ c :: q1) ++ DropTable n T :: q2) in H2, Hst, HJ
      by (by rewrite <- app_assoc).
    apply apply_all_split in H2 as (e3 & e4 & H3 & Hd2 & _).
    assert (~ table_at e2 n T) as Hn2.
    { simpl in Hdrop. apply with_schema_mut_ok in Hdrop as (sc & sc' & Hsc & Hr' & ->).
      apply remove_relation_inv in Hr' as (r' & _ & ->). intros [y Hy].
      rewrite relation_at_put_eq in Hy. simpl in Hy. by rewrite lookup_delete in Hy. }
    assert (~ table_at e3 n T) as Hn3.
    { eapply no_table_run; [exact H3| |exact Hn2]. intros cols Hin.
      destruct (HJ (CreateTable n T cols)) as [_ ?]; [|done].
      apply elem_of_app. right. right. apply elem_of_app. by left. }
    apply Hn3.
    apply steps_app_inv in Hst as (f1 & Ha & Hb). inversion Hb as [|? ? ? f2 ? Hc1 _ Hb2]; subst.
    apply steps_app_inv in Hb2 as (f3 & Hb2 & Hb3). inversion Hb3 as [|? ? ? f4 ? _ Hg _]; subst.
    apply steps_apply_all in Ha, Hb2.
    assert (f1 = e1) as -> by congruence. assert (f2 = e2) as -> by congruence.
    assert (f3 = e3) as -> by congruence. destruct Hg as (tb & ? & _). by exists tb.
  Qed.
End necessary.

Lemma old_relation_index os ot s t n k i :
  wf_db s -> relation_at s n k = Some (RIndex i) ->
  (forall j, relation_at t n k = Some (RIndex j) -> ix_keys j <> ix_keys i) ->
  exists rest, old_relation os ot t n (RIndex i) = DropIndex n k :: rest.
Proof.
  intros Hs Hi Hk. unfold relation_at in Hi. destruct (db_schemas s !! n) as [sc|] eqn:E; [|done].
  destruct (Hs _ _ E) as (_ & Hr & _). destruct (Hr _ _ Hi) as [H1 H2]. simpl in H1, H2.
  unfold old_relation; simpl. rewrite H2.
  assert (new_drop_index i = DropIndex n k) as Hd by (unfold new_drop_index; congruence).
  destruct (relation_at t n k) as [[y|y|y|y]|]; simpl; unfold diff_index_drop; rewrite ?Hd; eauto.
  unfold diff_index_update. assert (neqb (ix_keys i) (ix_keys y) = true) as ->.
  { apply neqb_true. intros He. by apply (Hk y). }
  rewrite Hd. eauto.
Qed.

Lemma rollback_necessary s t :
  wf_db s -> wf_db t ->
  (forall os ot, exists d', apply_all (compare_diff os ot s t) s = (d', Ok ())) ->
  (forall os ot d' rs, apply_all (compare_diff os ot s t) s = (d', Ok ()) ->
     collect_reverts (compare_diff os ot s t) s = Some rs ->
     exists d2, apply_all (reverse rs) d' = (d2, Ok ()) /\ db_equiv d2 s) ->
  rollback_safe s t.
Proof.
  intros Hs Ht Hall Hback.
  assert (forall os ot, exists d' rs d2, apply_all (compare_diff os ot s t) s = (d', Ok ()) /\
    collect_reverts (compare_diff os ot s t) s = Some rs /\
    apply_all (reverse rs) d' = (d2, Ok ()) /\ db_equiv d2 s) as Hb.
  { intros os ot. destruct (Hall os ot) as [d' Hr]. destruct (diff_reverts _ _ _ _ _ Hs Ht Hr) as [rs Hc].
    destruct (Hback _ _ _ _ Hr Hc) as (d2 & ? & ?). eauto 10. }
  clear Hall Hback. split; [|split].
  - intros n k tb Htb Hn. destruct (Hb (order_first n k) (order_first n k)) as (d' & rs & d2 & H1 & H2 & H3 & He).
    pose proof (lost_constraints _ _ Hs Ht _ _ _ _ _ H1 H2 H3 n k Hn) as Hl.
    pose proof (option_Forall2_relation _ _ n k He) as Hq. rewrite Htb in Hq.
    inversion Hq as [a b Hab Ha|]; subst. destruct a as [ta| | |]; simpl in Hab; try done.
    destruct Hab as (_ & _ & _ & Hc). rewrite <- Hc. apply map_empty. intros x. specialize (Hl x).
    unfold constraint_at in Hl. by rewrite <- Ha in Hl.
  - intros n k q Hq Hne. destruct (Hb (order_first n k) (order_first n k)) as (d' & rs & d2 & H1 & H2 & H3 & He).
    pose proof (lost_owner _ _ Hs Ht _ _ _ _ _ H1 H3 n k q Hq Hne) as Hl.
    pose proof (option_Forall2_relation _ _ n k He) as Hqq. rewrite Hq in Hqq.
    inversion Hqq as [a b Hab Ha|]; subst. destruct a as [| | |qa]; simpl in Hab; try done.
    injection Hab as ->. by apply Hl.
  - intros n k i Hi Hk.
    assert (exists scs, db_schemas s !! n = Some scs /\ sc_relations scs !! k = Some (RIndex i)) as (scs & Hscs & Hik).
    { unfold relation_at in Hi. destruct (db_schemas s !! n) as [sc|]; [|done]. eauto. }
    pose proof (Hs _ _ Hscs) as Hws. pose proof Hws as (_ & Hwr & _).
    assert (forall x, relation_at s n x = sc_relations scs !! x) as Hsr.
    { intros x. unfold relation_at. by rewrite Hscs. }
    set (T := ix_table i).
    destruct (is_table_dec (relation_at s n T)) as [[tb HsT]|HsT].
    + (* the table is in the source *)
      assert (table_at t n T) as ?; [|split; [right; by exists tb|done]].
      destruct (is_table_dec (relation_at t n T)) as [?|HtT]; [done|exfalso].
      destruct (Hb (order_first n T) (order_first n T)) as (d' & rs & d2 & H1 & H2 & H3 & _).
      rewrite Hsr in HsT. destruct (first_relation n T scs _ Hws HsT) as (l' & Hl & _).
      assert (RIndex i ∈ l') as Hr.
      { assert (RIndex i ∈ iter_relations (order_first n T) scs) as Hin.
        { unfold iter_relations.
          apply (iter_elem _ _ _ (io_relations_perm _ _ _) (wf_relations_named _ _ Hwr)).
          by rewrite (wf_relation_name _ _ _ (Hwr _ _ Hik)). }
        rewrite Hl in Hin. apply elem_of_cons in Hin as [Hin|?]; done. }
      apply elem_of_list_split in Hr as (la & lb & ->).
      destruct (diff_old_relations (order_first n T) (order_first n T) s t n scs Hs Hscs) as (pre & post & Heq).
      rewrite Hl in Heq. csimpl in Heq. rewrite bind_split in Heq.
      destruct (old_relation_index (order_first n T) (order_first n T) s t n k i Hs Hi Hk) as [rest Hrest].
      rewrite Hrest in Heq.
      assert (exists p q, compare_diff (order_first n T) (order_first n T) s t = p ++ DropIndex n k :: q /\
        DropTable n T ∈ p) as (p & q & Hpq & HpT).
      { eexists (pre ++ old_relation (order_first n T) (order_first n T) t n (RTable tb) ++ (la ≫= _)), _.
        split.
        - rewrite Heq. rewrite <- !app_assoc. do 3 f_equal.
        - apply elem_of_app. right. apply elem_of_app. left.
          destruct (Hwr _ _ HsT) as (Hb1 & Hb2 & _).
          unfold old_relation; simpl. rewrite Hb2.
          assert (new_drop_table tb = DropTable n T) as Hd by (unfold new_drop_table; congruence).
          unfold table_at in HtT.
          destruct (relation_at t n T) as [[y|y|y|y]|]; simpl; unfold diff_table_drop; rewrite ?Hd;
            [destruct HtT; by exists y| | | |]; simpl; left. }
      eapply (index_not_back s t Hs Ht _ _ _ _ _ H1 H2 H3 n k i p q Hi Hpq HtT).
      by eapply (dropped_once s t Hs Ht _ _ _ H1).
    + (* it is not *)
      destruct (Hb (order_first n k) (order_first n k)) as (d' & rs & d2 & H1 & H2 & H3 & _).
      destruct (first_relation n k scs _ Hws Hik) as (l' & Hl & _).
      destruct (diff_old_relations (order_first n k) (order_first n k) s t n scs Hs Hscs) as (pre & post & Heq).
      assert (forall c, c ∈ (iter_relations (order_first n k) scs ≫= old_relation (order_first n k) (order_first n k) t n) ->
                c <> DropIndex n k -> exists q, compare_diff (order_first n k) (order_first n k) s t = pre ++ DropIndex n k :: q /\ c ∈ q) as Hafter.
      { intros c Hc Hne. destruct (old_relation_index (order_first n k) (order_first n k) s t n k i Hs Hi Hk) as [rest Hrest].
        rewrite Hl in Heq, Hc. csimpl in Heq. csimpl in Hc. rewrite Hrest in Heq, Hc. simpl in Heq, Hc.
        eexists. split; [exact Heq|]. apply elem_of_cons in Hc as [->|Hc]; [done|].
        apply elem_of_app. by left. }
      destruct (old_relation_index (order_first n k) (order_first n k) s t n k i Hs Hi Hk) as [rest Hrest].
      rewrite Hl in Heq. csimpl in Heq. rewrite Hrest in Heq. simpl in Heq.
      destruct (is_table_dec (relation_at t n T)) as [[tb HtT]|HtT].
      * split; [left|by exists tb].
        destruct (relation_at s n T) as [r|] eqn:ET; [exfalso|done].
        pose proof ET as ET'. rewrite Hsr in ET'.
        destruct (Hafter (new_create_table tb)) as (q & Hq & Hin); [|done|].
        { apply elem_of_list_bind. exists r. split.
          - unfold old_relation. rewrite (wf_relation_name _ _ _ (Hwr _ _ ET')), HtT.
            destruct r as [y|y|y|y]; simpl; [destruct HsT; by exists y| | |]; right; left.
          - unfold iter_relations.
            apply (iter_elem _ _ _ (io_relations_perm _ _ _) (wf_relations_named _ _ Hwr)).
            by rewrite (wf_relation_name _ _ _ (Hwr _ _ ET')). }
        assert (exists cols, new_create_table tb = CreateTable n T cols) as [cols Hc].
        { unfold relation_at in HtT. destruct (db_schemas t !! n) as [sct|] eqn:Esct; [|done].
          destruct (Ht _ _ Esct) as (_ & Hwt & _). destruct (Hwt _ _ HtT) as (Hb1 & Hb2 & _).
          unfold new_create_table. rewrite Hb1, Hb2. eauto. }
        rewrite Hc in Hin.
        eapply (index_not_back_new s t Hs Ht _ _ _ _ _ H1 H2 H3 n k i cols _ _ Hi Hq); [|exact Hin].
        fold T. unfold table_at. by rewrite ET.
      * exfalso. eapply (index_not_back s t Hs Ht _ _ _ _ _ H1 H2 H3 n k i _ _ Hi Heq HtT).
        intros Hin. pose proof (diff_justified s t (order_first n k) (order_first n k) Hs Ht) as HJ.
        rewrite Forall_forall in HJ. destruct (HJ (DropTable n T)) as [? _]; [|done].
        rewrite Heq. apply elem_of_app. right. by right.
Qed.

Lemma diff_rollback_iff s t :
  wf_db s -> wf_db t ->
  (forall os ot, exists d', apply_all (compare_diff os ot s t) s = (d', Ok ())) ->
  (forall os ot d' rs, apply_all (compare_diff os ot s t) s = (d', Ok ()) ->
     collect_reverts (compare_diff os ot s t) s = Some rs ->
     exists d2, apply_all (reverse rs) d' = (d2, Ok ()) /\ db_equiv d2 s) <->
  rollback_safe s t.
Proof.
  intros Hs Ht Hall. split; [by apply rollback_necessary|].
  intros Hsafe os ot d' rs. by apply diff_rollback.
Qed.
