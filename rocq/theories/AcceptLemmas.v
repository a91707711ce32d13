(** Which changes PostgreSQL carries out on a database that a snapshot describes. *)
From Verif Require Import Base Text Types Changes SpecSnapshot ApplyLemmas ColumnLemmas InvertLemmas Sql SpecSql
  SpecLex SpecStatement SpecServer SpecAccept SayLemmas ServerLemmas.

(** ** Looking into a database that is described *)

Definition state_at (sv : server) (s n : str) : option relation_state :=
  sv !! s ≫= fun ss => ss_relations ss !! n.
Definition spec_at (sv : server) (s t k : str) : option constraint_spec :=
  match state_at sv s t with Some (HasTable _ cks) => cks !! k | _ => None end.

Lemma relation_described_at d sv s n : described d sv ->
  option_Forall2 relation_described (relation_at d s n) (state_at sv s n).
Proof.
  intros H. specialize (H s). unfold relation_at, state_at. inversion H as [sc ss [Hs _] E1 E2|E1 E2]; cbn; [apply Hs|constructor].
Qed.
Lemma constraint_described_at d sv s t k : described d sv ->
  option_Forall2 (fun c x => constraint_meant c = Some x) (constraint_at d s t k) (spec_at sv s t k).
Proof.
  intros H. pose proof (relation_described_at d sv s t H) as Hr. unfold constraint_at, spec_at.
  inversion Hr as [r x Hx E1 E2|E1 E2]; [|constructor].
  destruct r as [tb|v|i|q]; destruct x as [cols cks|vq|t' u m ks|q' o]; cbn in Hx; try done; try constructor.
  apply Hx.
Qed.
Lemma constraint_to_spec d sv s t k c : described d sv -> constraint_at d s t k = Some c ->
  exists x, spec_at sv s t k = Some x /\ constraint_meant c = Some x.
Proof. intros H Hc. pose proof (constraint_described_at d sv s t k H) as G. rewrite Hc in G. inversion G; subst. eauto. Qed.
Lemma spec_to_constraint d sv s t k x : described d sv -> spec_at sv s t k = Some x ->
  exists c, constraint_at d s t k = Some c /\ constraint_meant c = Some x.
Proof. intros H Hc. pose proof (constraint_described_at d sv s t k H) as G. rewrite Hc in G. inversion G; subst. eauto. Qed.

(** What a constraint means. *)
Lemma meant_cases c x : constraint_meant c = Some x ->
  match c with
  | CPrimaryKey p => x = KPrimary (pk_columns p) (pk_deferrable p) (pk_initially p)
  | CUnique p => x = KUnique (uq_columns p) (uq_deferrable p) (uq_initially p)
  | CCheck p => exists e, expression_meant (ck_expression p) = Some e /\ x = KCheck e
  | CForeignKey f => exists m u dl, x = KForeign (fk_columns f) (fk_tschema f) (fk_ttable f) (fk_tcolumns f) m u dl
                       (fk_deferrable f) (fk_initially f)
  end.
Proof.
  destruct c as [p|f|p|p]; cbn.
  - destruct (deferral_meant _ _) as [[]|]; [|done]. by intros [= <-].
  - destruct (deferral_meant _ _) as [[]|]; [|done]. cbn. destruct (match_meant _) as [m|]; [|done]. cbn.
    destruct (action_meant (fk_update f)) as [u|]; [|done]. cbn. destruct (action_meant _) as [dl|]; [|done].
    intros [= <-]. by exists m, u, dl.
  - destruct (deferral_meant _ _) as [[]|]; [|done]. by intros [= <-].
  - destruct (guard_ _); [|done]. cbn. destruct (expression_meant _) as [e|]; [|done]. intros [= <-]. by exists e.
Qed.
Lemma is_key_meant c x : constraint_meant c = Some x -> is_key x = true <-> is_Some (key_columns c).
Proof.
  intros H. apply meant_cases in H. destruct c as [p|f|p|p]; cbn.
  - subst. split; [by eexists|done].
  - destruct H as (m & u & dl & ->). split; [done|by intros [??]].
  - subst. split; [by eexists|done].
  - destruct H as (e & _ & ->). split; [done|by intros [??]].
Qed.

Lemma some_relation_true P sc : some_relation P sc = true <-> exists n r, ss_relations sc !! n = Some r /\ P n r = true.
Proof.
  unfold some_relation. rewrite existsb_exists. split.
  - intros ([n r] & Hin & HP). apply elem_of_list_In, elem_of_map_to_list in Hin. eauto.
  - intros (n & r & Hl & HP). exists (n, r). split; [|done]. by apply elem_of_list_In, elem_of_map_to_list.
Qed.
Lemma some_constraint_true P cks : some_constraint P cks = true <-> exists k x, cks !! k = Some x /\ P x = true.
Proof.
  unfold some_constraint. rewrite existsb_exists. split.
  - intros ([n r] & Hin & HP). apply elem_of_list_In, elem_of_map_to_list in Hin. eauto.
  - intros (n & r & Hl & HP). exists (n, r). split; [|done]. by apply elem_of_list_In, elem_of_map_to_list.
Qed.
Lemma some_foreign_key_true but P sv : some_foreign_key but P sv = true <->
  exists s t k x, spec_at sv s t k = Some x /\ but <> Some (s, t) /\ P x = true.
Proof.
  unfold some_foreign_key. rewrite existsb_exists. split.
  - intros ([s ss] & Hin & HP). apply elem_of_list_In, elem_of_map_to_list in Hin.
    apply some_relation_true in HP as (t & r & Hr & HP). destruct r as [cols cks| | |]; try done.
    apply andb_true_iff in HP as [Hb HP]. apply negb_true_iff, bool_decide_eq_false in Hb.
    apply (some_constraint_true P cks) in HP as (k & x & Hx & HP).
    exists s, t, k, x. split; [|done]. unfold spec_at, state_at. rewrite Hin. cbn in Hr |- *. by rewrite Hr.
  - intros (s & t & k & x & Hx & Hb & HP). unfold spec_at, state_at in Hx.
    destruct (sv !! s) as [ss|] eqn:Es; [|done]. cbn in Hx. destruct (ss_relations ss !! t) as [r|] eqn:Er; [|done].
    destruct r as [cols cks| | |]; try done. exists (s, ss). split; [by apply elem_of_list_In, elem_of_map_to_list|].
    apply some_relation_true. exists t, (HasTable cols cks). split; [done|]. apply andb_true_iff.
    split; [by apply negb_true_iff, bool_decide_eq_false|]. apply (some_constraint_true P cks). eauto.
Qed.
Lemma referenced_server d sv but s t (Q : list str -> Prop) (P : constraint_spec -> bool) : described d sv ->
  (forall x, P x = true <-> exists cs tcs m u dl df i, x = KForeign cs s t tcs m u dl df i /\ Q tcs) ->
  some_foreign_key but P sv = true <-> referenced d but s t Q.
Proof.
  intros Hd HP. rewrite some_foreign_key_true. split.
  - intros (s1 & t1 & k & x & Hx & Hb & Hp). apply HP in Hp as (cs & tcs & m & u & dl & df & i & -> & HQ).
    destruct (spec_to_constraint _ _ _ _ _ _ Hd Hx) as (c & Hc & Hm). apply meant_cases in Hm.
    destruct c as [p|f|p|p]; try done; [|by destruct Hm as (? & ? & ?)].
    destruct Hm as (m' & u' & dl' & [= -> -> -> -> -> -> -> -> ->]). exists s1, t1, k, f. done.
  - intros (s1 & t1 & k & f & Hc & Hb & <- & <- & HQ). destruct (constraint_to_spec _ _ _ _ _ _ Hd Hc) as (x & Hx & Hm).
    exists s1, t1, k, x. split; [done|]. split; [done|]. apply HP. apply meant_cases in Hm as (m & u & dl & ->).
    by do 7 eexists.
Qed.
Lemma guard_is b : is_Some (guard_ b) <-> b = true.
Proof. destruct b; cbn; [split; [done|by eexists]|split; [by intros [? ?]|done]]. Qed.
Lemma bind_is {A B} (o : option A) (f : A -> option B) : is_Some (o ≫= f) <-> exists a, o = Some a /\ is_Some (f a).
Proof. destruct o as [a|]; cbn; [split; [eauto|by intros (? & [= <-] & ?)]|split; [by intros [? ?]|by intros (? & ? & _)]]. Qed.
Lemma guard_bind_is {B} b (f : unit -> option B) : is_Some (guard_ b ≫= f) <-> b = true /\ is_Some (f tt).
Proof. destruct b; cbn; [tauto|split; [by intros [? ?]|by intros []]]. Qed.
Lemma some_is {A} (x : A) : is_Some (Some x) <-> True.
Proof. split; [done|by eexists]. Qed.
Lemma same_columns_true a b : same_columns a b = true <-> same_set a b.
Proof.
  unfold same_columns. rewrite andb_true_iff, !bool_decide_eq_true, !Forall_forall. unfold same_set.
  split; [intros [H1 H2] x; split; [apply H1|apply H2]|]. intros H. split; intros x; apply H.
Qed.

Lemma taken_false d sv s ss n : described d sv -> sv !! s = Some ss ->
  taken ss n = false <-> name_free d s n.
Proof.
  intros Hd Hs. unfold taken, name_free. rewrite orb_false_iff.
  assert (Hst : forall k, state_at sv s k = ss_relations ss !! k) by (intros k; unfold state_at; by rewrite Hs).
  pose proof (relation_described_at d sv s n Hd) as Hr. rewrite Hst in Hr.
  assert (E : some_relation (fun _ r => key_named n r) ss = false <->
    forall t c, constraint_at d s t n = Some c -> key_columns c = None).
  { rewrite <- not_true_iff_false, some_relation_true. split.
    - intros H t c Hc. destruct (key_columns c) as [cs|] eqn:Ek; [|done]. exfalso. apply H.
      destruct (constraint_to_spec _ _ _ _ _ _ Hd Hc) as (x & Hx & Hm). unfold spec_at in Hx. rewrite Hst in Hx.
      destruct (ss_relations ss !! t) as [r|] eqn:Er; [|done]. exists t, r. split; [done|].
      destruct r as [cols cks| | |]; try done. cbn. rewrite Hx. apply (is_key_meant _ _ Hm). by rewrite Ek.
    - intros H (t & r & Hl & Hk). destruct r as [cols cks| | |]; try done. cbn in Hk.
      destruct (cks !! n) as [x|] eqn:Ex; [|done].
      destruct (spec_to_constraint d sv s t n x Hd) as (c & Hc & Hm); [unfold spec_at; by rewrite Hst, Hl|].
      destruct (proj1 (is_key_meant _ _ Hm) Hk) as [cs Hk']. by rewrite (H _ _ Hc) in Hk'. }
  rewrite E. inversion Hr as [r x Hx E1 E2|E1 E2]; split; intros [? ?]; try done.
Qed.

(** ** Tables *)

Lemma table_accept (k : mut table ()) a s t d sv d' :
  described d sv -> in_table s t k d = (d', Ok ()) ->
  exists sc ss tb tb' cols cks,
    db_schemas d !! s = Some sc /\ sc_relations sc !! t = Some (RTable tb) /\
    sv !! s = Some ss /\ ss_relations ss !! t = Some (HasTable cols cks) /\ schema_described sc ss /\
    table_described tb cols cks /\ k tb = (tb', Ok ()) /\
    (is_Some (perform (DoAlterTable s t a) sv) <-> is_Some (alter sv s t ss cols cks a)).
Proof.
  intros Hd Hk. apply in_table_inv in Hk as [[_ [? ?]]|(sc & tb & tb' & Hsc & Htb & Hk & ->)]; [done|].
  destruct (described_schema _ _ _ _ Hd Hsc) as (ss & Hss & Hdes).
  pose proof Hdes as [Hr _]. specialize (Hr t). rewrite Htb in Hr. inversion Hr as [r x Hrx Er Ex|]; subst.
  destruct x as [cols cks| | |]; cbn in Hrx; try done.
  exists sc, ss, tb, tb', cols, cks. split_and!; try done.
  cbn [perform]. unfold in_schema. rewrite Hss. cbn [mbind option_bind]. rewrite <- Ex.
  destruct (alter sv s t ss cols cks a) as [[[? ?] ?]|]; cbn; [by rewrite !some_is|]. split; by intros [? ?].
Qed.
Lemma column_at_table d s t sc tb n : db_schemas d !! s = Some sc -> sc_relations sc !! t = Some (RTable tb) ->
  column_at d s t n = find_column n (tb_columns tb).
Proof. intros H1 H2. unfold column_at. by rewrite (relation_at_schema _ _ _ _ H1), H2. Qed.
Lemma constraint_at_table d s t sc tb n : db_schemas d !! s = Some sc -> sc_relations sc !! t = Some (RTable tb) ->
  constraint_at d s t n = tb_constraints tb !! n.
Proof. intros H1 H2. unfold constraint_at. by rewrite (relation_at_schema _ _ _ _ H1), H2. Qed.
Lemma column_is tb cols cks n : table_described tb cols cks -> is_Some (find_column n (tb_columns tb)) <-> is_Some (cols !! n).
Proof. intros [H _]. specialize (H n). inversion H; split; intros [? ?]; done || by eexists. Qed.
Lemma column_none tb cols cks n : table_described tb cols cks -> find_column n (tb_columns tb) = None <-> cols !! n = None.
Proof. intros [H _]. specialize (H n). inversion H; split; done. Qed.
Lemma constraint_none tb cols cks n : table_described tb cols cks -> tb_constraints tb !! n = None <-> cks !! n = None.
Proof. intros [_ H]. specialize (H n). inversion H; split; done. Qed.
Lemma have_columns_true d s t sc tb cols cks cs : db_schemas d !! s = Some sc -> sc_relations sc !! t = Some (RTable tb) ->
  table_described tb cols cks -> have_columns cols cs = true <-> columns_exist d s t cs.
Proof.
  intros H1 H2 Ht. unfold have_columns, columns_exist. rewrite andb_true_iff, !bool_decide_eq_true.
  assert (E : forall n, is_Some (column_at d s t n) <-> is_Some (cols !! n)).
  { intros n. rewrite (column_at_table _ _ _ _ _ _ H1 H2). by apply (column_is _ _ cks). }
  rewrite !Forall_forall. setoid_rewrite E. done.
Qed.
Lemma table_constraint tb cols cks k x : table_described tb cols cks -> cks !! k = Some x ->
  exists c, tb_constraints tb !! k = Some c /\ constraint_meant c = Some x.
Proof. intros [_ H] Hk. specialize (H k). rewrite Hk in H. inversion H; subst. eauto. Qed.
Lemma table_spec tb cols cks k c : table_described tb cols cks -> tb_constraints tb !! k = Some c ->
  exists x, cks !! k = Some x /\ constraint_meant c = Some x.
Proof. intros [_ H] Hk. specialize (H k). rewrite Hk in H. inversion H; subst. eauto. Qed.
Lemma some_constraint_described tb cols cks (P : constraint_spec -> bool) (Q : constraint -> Prop) :
  table_described tb cols cks -> (forall c x, constraint_meant c = Some x -> P x = true <-> Q c) ->
  some_constraint P cks = true <-> exists k c, tb_constraints tb !! k = Some c /\ Q c.
Proof.
  intros Ht HP. rewrite some_constraint_true. split.
  - intros (k & x & Hx & Hp). destruct (table_constraint _ _ _ _ _ Ht Hx) as (c & Hc & Hm). exists k, c. split; [done|].
    by apply (HP c x).
  - intros (k & c & Hc & HQ). destruct (table_spec _ _ _ _ _ Ht Hc) as (x & Hx & Hm). exists k, x. split; [done|].
    by apply (HP c x).
Qed.
Lemma check_true (f : list token -> bool) d s t sc tb cols cks (P : constraint_spec -> bool) :
  db_schemas d !! s = Some sc -> sc_relations sc !! t = Some (RTable tb) -> table_described tb cols cks ->
  (forall x, P x = match x with KCheck e => f e | _ => false end) ->
  some_constraint P cks = true <-> checked d s t (fun e => f e = true).
Proof.
  intros H1 H2 Ht HP.
  rewrite (some_constraint_described _ _ _ P (fun c => match c with
    | CCheck c => exists e, expression_meant (ck_expression c) = Some e /\ f e = true | _ => False end) Ht).
  - unfold checked. setoid_rewrite (constraint_at_table _ _ _ _ _ _ H1 H2). split.
    + intros (k & c & Hc & HQ). destruct c as [?|?|?|c]; try done. destruct HQ as (e & He & Hf). eauto 10.
    + intros (k & c & e & Hc & He & Hf). exists k, (CCheck c). eauto.
  - intros c x Hm. rewrite HP. apply meant_cases in Hm. destruct c as [p|g|p|p].
    + by subst.
    + by destruct Hm as (? & ? & ? & ->).
    + by subst.
    + destruct Hm as (e & He & ->). split; [eauto|]. intros (e' & He' & Hf). by simplify_eq.
Qed.
Lemma indexed_true (f : list token -> bool) d sv s ss t (P : str -> relation_state -> bool) :
  described d sv -> sv !! s = Some ss ->
  (forall n r, P n r = match r with HasIndex t' _ _ ks => bool_decide (t' = t) && existsb f ks | _ => false end) ->
  some_relation P ss = true <-> indexed_by d s t (fun l => f l = true).
Proof.
  intros Hd Hs HP. rewrite some_relation_true. unfold indexed_by.
  assert (Hst : forall k, state_at sv s k = ss_relations ss !! k) by (intros k; unfold state_at; by rewrite Hs).
  split.
  - intros (n & r & Hr & Hp). rewrite HP in Hp. destruct r as [| |t' u m ks|]; try done.
    apply andb_true_iff in Hp as [Ht Hp]. apply bool_decide_eq_true in Ht as ->.
    apply existsb_exists in Hp as (l & Hl & Hf). apply elem_of_list_In in Hl.
    pose proof (relation_described_at d sv s n Hd) as G. rewrite Hst, Hr in G. inversion G as [r x Hx E1 E2|]; subst.
    destruct r as [|v|i|]; cbn in Hx; try done. destruct Hx as (H1 & H2 & H3 & H4).
    apply mapM_Some in H4. apply elem_of_list_lookup in Hl as [j Hj].
    destruct (Forall2_lookup_r _ _ _ _ _ H4 Hj) as (e & He & Hlex).
    exists n, i, e, l. split_and!; try done. by eapply elem_of_list_lookup_2.
  - intros (k & i & e & l & Hr & Ht & He & Hl & Hf).
    pose proof (relation_described_at d sv s k Hd) as G. rewrite Hst, Hr in G. inversion G as [r x Hx E1 E2|]; subst.
    destruct x as [| |t' u m ks|]; cbn in Hx; try done. destruct Hx as (H1 & H2 & H3 & H4).
    exists k, (HasIndex t' u m ks). split; [done|]. rewrite HP. apply andb_true_iff.
    split; [by apply bool_decide_eq_true|]. apply existsb_exists. exists l. split; [|done].
    apply mapM_Some in H4. apply elem_of_list_lookup in He as [j Hj].
    destruct (Forall2_lookup_l _ _ _ _ _ H4 Hj) as (l' & Hl' & Hlex). rewrite Hlex in Hl. injection Hl as ->.
    apply elem_of_list_In. by eapply elem_of_list_lookup_2.
Qed.
Lemma schema_accept (k : mut schema ()) f s d sv d' :
  described d sv -> with_schema_mut s k d = (d', Ok ()) ->
  exists sc sc' ss, db_schemas d !! s = Some sc /\ sv !! s = Some ss /\ schema_described sc ss /\
    k sc = (sc', Ok ()) /\ (is_Some (in_schema s f sv) <-> is_Some (f ss)).
Proof.
  intros Hd Hk. apply with_schema_mut_inv in Hk as [(_ & _ & ?)|(sc & sc' & Hsc & Hk & ->)]; [done|].
  destruct (described_schema _ _ _ _ Hd Hsc) as (ss & Hss & Hdes). exists sc, sc', ss. split_and!; try done.
  unfold in_schema. rewrite Hss. cbn [mbind option_bind]. destruct (f ss); cbn; [by rewrite !some_is|]. split; by intros [? ?].
Qed.
Lemma add_state_is n r ss : is_Some (add_relation_state n r ss) <-> taken ss n = false.
Proof. unfold add_relation_state. rewrite guard_bind_is, some_is, negb_true_iff. tauto. Qed.

(** ** Single changes *)

Lemma add_key_accept c s t n k cs d sv d' :
  described d sv -> constraint_name c = n -> constraint_meant c = Some k ->
  (exists df i, k = KUnique cs df i) ->
  in_table s t (add_constraint c) d = (d', Ok ()) ->
  is_Some (perform (DoAlterTable s t (ToAddConstraint n k)) sv) <-> name_free d s n /\ columns_exist d s t cs.
Proof.
  intros Hd Hn Hm (df & i & ->) Ha.
  destruct (table_accept _ (ToAddConstraint n (KUnique cs df i)) _ _ _ _ _ Hd Ha) as
    (sc & ss & tb & tb' & cols & cks & Hsc & Htb & Hss & Hst & Hdes & Ht & Hk & ->).
  cbn [alter]. rewrite !guard_bind_is, some_is, bool_decide_eq_true, andb_true_iff, negb_true_iff.
  rewrite (taken_false _ _ _ _ _ Hd Hss), (have_columns_true _ _ _ _ _ _ _ _ Hsc Htb Ht).
  rewrite <- (constraint_none _ _ _ _ Ht). unfold add_constraint, has_constraint in Hk. rewrite Hn in Hk.
  destruct (tb_constraints tb !! n); [done|]. tauto.
Qed.
Lemma add_primary_accept s t n cs df i d sv d' :
  described d sv ->
  in_table s t (add_constraint (CPrimaryKey (PrimaryKey s t n cs df i))) d = (d', Ok ()) ->
  is_Some (perform (DoAlterTable s t (ToAddConstraint n (KPrimary cs df i))) sv) <->
  accepted (AddPrimaryKey s t n cs df i) d.
Proof.
  intros Hd Ha.
  destruct (table_accept _ (ToAddConstraint n (KPrimary cs df i)) _ _ _ _ _ Hd Ha) as
    (sc & ss & tb & tb' & cols & cks & Hsc & Htb & Hss & Hst & Hdes & Ht & Hk & ->).
  cbn [alter accepted]. rewrite !guard_bind_is, some_is, bool_decide_eq_true, !andb_true_iff, !negb_true_iff.
  rewrite (taken_false _ _ _ _ _ Hd Hss), (have_columns_true _ _ _ _ _ _ _ _ Hsc Htb Ht).
  rewrite <- (constraint_none _ _ _ _ Ht). unfold add_constraint, has_constraint in Hk. cbn [constraint_name pk_name] in Hk.
  destruct (tb_constraints tb !! n) eqn:En; [done|].
  assert (E : some_constraint is_primary cks = false <-> forall k p, constraint_at d s t k <> Some (CPrimaryKey p)).
  { rewrite <- not_true_iff_false, (some_constraint_described _ _ _ _ (fun c => exists p, c = CPrimaryKey p) Ht).
    - setoid_rewrite (constraint_at_table _ _ _ _ _ _ Hsc Htb). split.
      + intros H k p Hp. apply H. eauto.
      + intros H (k & c & Hc & p & ->). by apply (H k p).
    - intros c x Hx. apply meant_cases in Hx. destruct c as [p|g|p|p].
      + subst. split; [eauto|done].
      + destruct Hx as (? & ? & ? & ->). split; [done|by intros []].
      + subst. split; [done|by intros []].
      + destruct Hx as (? & ? & ->). split; [done|by intros []]. }
  rewrite E. tauto.
Qed.
Lemma add_foreign_accept s t n cs s' t' tcs m u dl df i m' u' dl' d sv d' :
  described d sv ->
  in_table s t (add_constraint (CForeignKey (ForeignKey s t n cs s' t' tcs m u dl df i))) d = (d', Ok ()) ->
  is_Some (perform (DoAlterTable s t (ToAddConstraint n (KForeign cs s' t' tcs m' u' dl' df i))) sv) <->
  accepted (AddForeignKey s t n cs s' t' tcs m u dl df i) d.
Proof.
  intros Hd Ha.
  destruct (table_accept _ (ToAddConstraint n (KForeign cs s' t' tcs m' u' dl' df i)) _ _ _ _ _ Hd Ha) as
    (sc & ss & tb & tb' & cols & cks & Hsc & Htb & Hss & Hst & Hdes & Ht & Hk & ->).
  cbn [alter accepted]. rewrite !guard_bind_is, some_is, bool_decide_eq_true, !andb_true_iff, bool_decide_eq_true.
  rewrite (have_columns_true _ _ _ _ _ _ _ _ Hsc Htb Ht).
  rewrite <- (constraint_none _ _ _ _ Ht). unfold add_constraint, has_constraint in Hk. cbn [constraint_name fk_name] in Hk.
  destruct (tb_constraints tb !! n) eqn:En; [done|].
  assert (E : valid_target sv s' t' tcs = true <->
    exists k c cs', constraint_at d s' t' k = Some c /\ key_columns c = Some cs' /\ same_set tcs cs').
  { unfold valid_target. change (sv !! s' ≫= fun sc => ss_relations sc !! t') with (state_at sv s' t'). split.
    - intros H. destruct (state_at sv s' t') as [r|] eqn:Er; [|done]. destruct r as [cols' cks'| | |]; try done.
      apply some_constraint_true in H as (k & x & Hx & HP).
      destruct (spec_to_constraint d sv s' t' k x Hd) as (c & Hc & Hm); [unfold spec_at; by rewrite Er|].
      exists k, c. apply meant_cases in Hm. destruct c as [p|g|p|p].
      + subst. apply same_columns_true in HP. eauto.
      + by destruct Hm as (? & ? & ? & ->).
      + subst. apply same_columns_true in HP. eauto.
      + by destruct Hm as (? & ? & ->).
    - intros (k & c & cs' & Hc & Hcs & Hsame). destruct (constraint_to_spec _ _ _ _ _ _ Hd Hc) as (x & Hx & Hm).
      unfold spec_at in Hx. destruct (state_at sv s' t') as [r|] eqn:Er; [|done]. destruct r as [cols' cks'| | |]; try done.
      apply some_constraint_true. exists k, x. split; [done|]. apply meant_cases in Hm.
      destruct c as [p|g|p|p]; try done; injection Hcs as <-; subst x; by apply same_columns_true. }
  rewrite E. tauto.
Qed.
Lemma alter_constraint_accept (m : mut constraint ()) s t n df i d sv d' :
  described d sv -> in_table s t (with_constraint_mut n m) d = (d', Ok ()) ->
  exists c c', constraint_at d s t n = Some c /\ m c = (c', Ok ()) /\
    (is_Some (perform (DoAlterTable s t (ToAlterConstraint n df i)) sv) <-> exists f, c = CForeignKey f).
Proof.
  intros Hd Ha.
  destruct (table_accept _ (ToAlterConstraint n df i) _ _ _ _ _ Hd Ha) as
    (sc & ss & tb & tb' & cols & cks & Hsc & Htb & Hss & Hst & Hdes & Ht & Hk & Hal).
  unfold with_constraint_mut in Hk. destruct (tb_constraints tb !! n) as [c|] eqn:En; [|done].
  destruct (m c) as [c' r] eqn:Em. exists c, c'. rewrite (constraint_at_table _ _ _ _ _ _ Hsc Htb).
  split; [done|]. split; [rewrite Em; f_equal; congruence|].
  destruct (table_spec _ _ _ _ _ Ht En) as (x & Hx & Hm). rewrite Hal. cbn [alter]. rewrite Hx. apply meant_cases in Hm.
  destruct c as [p|g|p|p].
  - subst. split; [by intros [? ?]|by intros [? ?]].
  - destruct Hm as (? & ? & ? & ->). rewrite some_is. split; [eauto|done].
  - subst. split; [by intros [? ?]|by intros [? ?]].
  - destruct Hm as (? & ? & ->). split; [by intros [? ?]|by intros [? ?]].
Qed.
Lemma drop_constraint_accept {A} (as_kind : constraint -> result A) s t n d sv d' :
  described d sv -> in_table s t (drop_constraint as_kind n) d = (d', Ok ()) ->
  exists c, constraint_at d s t n = Some c /\ (exists a, as_kind c = Ok a) /\
    (is_Some (perform (DoAlterTable s t (ToDropConstraint n)) sv) <->
     forall cs, key_columns c = Some cs -> ~ referenced d None s t (same_set cs)).
Proof.
  intros Hd Ha.
  destruct (table_accept _ (ToDropConstraint n) _ _ _ _ _ Hd Ha) as
    (sc & ss & tb & tb' & cols & cks & Hsc & Htb & Hss & Hst & Hdes & Ht & Hk & Hal).
  unfold drop_constraint, mthen, mread, get_constraint in Hk.
  destruct (tb_constraints tb !! n) as [c|] eqn:En; cbn in Hk; [|done]. exists c.
  rewrite (constraint_at_table _ _ _ _ _ _ Hsc Htb). split; [done|].
  split; [destruct (as_kind c) as [a|]; [by exists a|done]|].
  destruct (table_spec _ _ _ _ _ Ht En) as (x & Hx & Hm). rewrite Hal. cbn [alter]. rewrite Hx. cbn [mbind option_bind].
  rewrite guard_bind_is, some_is.
  assert (R : forall cs, some_foreign_key None (refers_to_columns s t cs) sv = true <-> referenced d None s t (same_set cs)).
  { intros cs. apply referenced_server; [done|]. intros y. split.
    - destruct y as [| | |cs1 s1 t1 tcs m u dl df i]; try done. cbn. rewrite andb_true_iff, bool_decide_eq_true, same_columns_true.
      intros [[= -> ->] HQ]. by do 7 eexists.
    - intros (cs1 & tcs & m & u & dl & df & i & -> & HQ). cbn. rewrite andb_true_iff, bool_decide_eq_true, same_columns_true. done. }
  apply meant_cases in Hm. destruct c as [p|g|p|p].
  - subst. rewrite negb_true_iff, <- not_true_iff_false, R. cbn. split; [by intros [? _] ? [= <-]|auto].
  - destruct Hm as (? & ? & ? & ->). done.
  - subst. rewrite negb_true_iff, <- not_true_iff_false, R. cbn. split; [by intros [? _] ? [= <-]|auto].
  - destruct Hm as (? & ? & ->). done.
Qed.
Lemma set_column_accept (f : column -> column) a s t n d sv d' :
  described d sv -> in_table s t (with_column_mut n f) d = (d', Ok ()) ->
  exists sc ss tb cols cks x, db_schemas d !! s = Some sc /\ sc_relations sc !! t = Some (RTable tb) /\
    table_described tb cols cks /\ cols !! n = Some x /\
    (is_Some (perform (DoAlterTable s t a) sv) <-> is_Some (alter sv s t ss cols cks a)).
Proof.
  intros Hd Ha.
  destruct (table_accept _ a _ _ _ _ _ Hd Ha) as
    (sc & ss & tb & tb' & cols & cks & Hsc & Htb & Hss & Hst & Hdes & Ht & Hk & E).
  unfold with_column_mut in Hk. destruct (find_column n (tb_columns tb)) as [c|] eqn:En; [|done].
  assert (is_Some (cols !! n)) as [x Hx] by (apply (column_is _ _ _ _ Ht); by rewrite En).
  exists sc, ss, tb, cols, cks, x. done.
Qed.
Lemma refers_column d sv s t n : described d sv ->
  some_foreign_key None (refers_to_column s t n) sv = true <-> referenced d None s t (fun cs => n ∈ cs).
Proof.
  intros Hd. apply referenced_server; [done|]. intros y. split.
  - destruct y as [| | |cs1 s1 t1 tcs m u dl df i]; try done. cbn. rewrite andb_true_iff, !bool_decide_eq_true.
    intros [[= -> ->] HQ]. by do 7 eexists.
  - intros (cs1 & tcs & m & u & dl & df & i & -> & HQ). cbn. rewrite andb_true_iff, !bool_decide_eq_true. done.
Qed.
Lemma removed_column n tb tb' : (let? _ := remove_column n in mok ()) tb = (tb', Ok ()) ->
  is_Some (find_column n (tb_columns tb)).
Proof. unfold mthen, remove_column. destruct (find_column n (tb_columns tb)); [by eexists|done]. Qed.
Lemma drop_column_accept s t n d sv d' :
  described d sv -> in_table s t (let? _ := remove_column n in mok ()) d = (d', Ok ()) ->
  is_Some (perform (DoAlterTable s t (ToDropColumn n)) sv) <-> accepted (DropColumn s t n) d.
Proof.
  intros Hd Ha.
  destruct (table_accept _ (ToDropColumn n) _ _ _ _ _ Hd Ha) as
    (sc & ss & tb & tb' & cols & cks & Hsc & Htb & Hss & Hst & Hdes & Ht & Hk & ->).
  apply removed_column, (column_is _ _ _ _ Ht) in Hk as [x Hx]. cbn [alter accepted]. rewrite Hx. cbn [mbind option_bind].
  rewrite !guard_bind_is, some_is, !negb_true_iff, <- !not_true_iff_false, (refers_column _ _ _ _ _ Hd).
  rewrite (check_true (mentions n) _ _ _ _ _ _ _ (check_mentions n) Hsc Htb Ht) by (by intros []).
  rewrite (indexed_true (fun k => mentions n k && negb (bool_decide (one_name k = Some n))) _ _ _ _ t _ Hd Hss) by done.
  unfold indexed_by. setoid_rewrite andb_true_iff. setoid_rewrite negb_true_iff. setoid_rewrite bool_decide_eq_false. tauto.
Qed.
Lemma rename_column_accept s t n n' d sv d' :
  wf_db d -> described d sv -> in_table s t (rename_column_in n n') d = (d', Ok ()) ->
  is_Some (perform (DoAlterTable s t (ToRenameColumn n n')) sv) <-> accepted (RenameColumn s t n n') d.
Proof.
  intros Hwf Hd Ha.
  destruct (table_accept _ (ToRenameColumn n n') _ _ _ _ _ Hd Ha) as
    (sc & ss & tb & tb' & cols & cks & Hsc & Htb & Hss & Hst & Hdes & Ht & Hk & ->).
  unfold rename_column_in, mthen, remove_column in Hk. destruct (find_column n (tb_columns tb)) as [c|] eqn:Ef; [|done].
  assert (is_Some (cols !! n)) as [x Hx] by (apply (column_is _ _ _ _ Ht); by rewrite Ef).
  cbn [alter accepted]. rewrite Hx. cbn [mbind option_bind].
  rewrite !guard_bind_is, some_is, !negb_true_iff, <- !not_true_iff_false, (refers_column _ _ _ _ _ Hd), bool_decide_eq_true.
  assert (E1 : cols !! n' = None <-> n' <> n).
  { split; [congruence|]. intros Hn. apply (column_none _ _ _ _ Ht).
    unfold add_column, has_column in Hk. cbn [col_set_name col_name set_columns tb_columns] in Hk.
    assert (Hnd : NoDup (col_name <$> tb_columns tb)).
    { specialize (Hwf _ _ Hsc) as (_ & Hw & _). specialize (Hw _ _ Htb). apply Hw. }
    rewrite (find_deleted _ _ _ Hnd), decide_False in Hk by done. by destruct (find_column n' (tb_columns tb)). }
  assert (E2 : some_constraint (fun k => constrains n k || check_mentions n k) cks = true <->
    (exists k c, constraint_at d s t k = Some c /\ n ∈ constrained_columns c) \/ checked d s t (fun e => mentions n e = true)).
  { rewrite <- (check_true (mentions n) _ _ _ _ _ _ _ (check_mentions n) Hsc Htb Ht) by (by intros []).
    setoid_rewrite (constraint_at_table _ _ _ _ _ _ Hsc Htb).
    rewrite <- (some_constraint_described _ _ _ (constrains n) (fun c => n ∈ constrained_columns c) Ht).
    - rewrite !some_constraint_true. setoid_rewrite orb_true_iff. split.
      + intros (k & y & Hy & [H|H]); [left|right]; eauto.
      + intros [(k & y & Hy & H)|(k & y & Hy & H)]; eauto.
    - intros c0 y Hy. rewrite <- not_false_iff_true, (constrains_meant n _ _ Hy).
      destruct (decide (n ∈ constrained_columns c0)); tauto. }
  assert (E3 : some_relation (fun _ r =>
        match r with
        | HasIndex t' _ _ ks => bool_decide (t' = t) && existsb (mentions n) ks
        | HasSequence _ (Some o) => bool_decide (o = (t, n))
        | _ => false
        end) ss = true <->
    indexed_by d s t (fun e => mentions n e = true) \/ exists k q, relation_at d s k = Some (RSequence q) /\ owner_meant q = Some (t, n)).
  { rewrite <- (indexed_true (mentions n) _ _ _ _ t
      (fun _ r => match r with HasIndex t' _ _ ks => bool_decide (t' = t) && existsb (mentions n) ks | _ => false end) Hd Hss) by done.
    rewrite !some_relation_true. split.
    - intros (k & r & Hr & HP). destruct r as [| |t' u m ks|q [o|]]; try done; [left; by exists k, (HasIndex t' u m ks)|].
      right. apply bool_decide_eq_true in HP as ->. destruct Hdes as [G _]. specialize (G k). rewrite Hr in G.
      inversion G as [r y Hy G1 G2|]; subst. destruct r as [| | |q']; cbn in Hy; try done. destruct Hy as [_ Hy].
      exists k, q'. by rewrite (relation_at_schema _ _ _ _ Hsc).
    - intros [(k & r & Hr & HP)|(k & q & Hq & Ho)].
      + exists k, r. split; [done|]. by destruct r.
      + rewrite (relation_at_schema _ _ _ _ Hsc) in Hq. destruct Hdes as [G _]. specialize (G k). rewrite Hq in G.
        inversion G as [r y Hy G1 G2|]; subst. destruct y as [| | |q' o]; cbn in Hy; try done. destruct Hy as [_ Hy].
        exists k, (HasSequence q' o). split; [done|]. rewrite <- Hy, Ho. by apply bool_decide_eq_true. }
  rewrite E1, E2, E3. split.
  - intros (H1 & H2 & H3 & H4 & _). split_and!; try tauto.
    + intros k c0 Hc0 Hin. apply H3. left. eauto.
    + intros k q Hq Ho. apply H4. right. eauto.
  - intros (H1 & H2 & H3 & H4 & H5 & H6). split_and!; try tauto.
    + intros [(k & c0 & Hc0 & Hin)|H]; [by eapply H3|tauto].
    + intros [H|(k & q & Hq & Ho)]; [tauto|by eapply H6].
Qed.
Lemma drop_table_accept s t d sv d' :
  described d sv -> with_schema_mut s (let? _ := remove_relation t in mok ()) d = (d', Ok ()) ->
  is_Some (perform (DoDropTable s t) sv) <-> accepted (DropTable s t) d.
Proof.
  intros Hd Ha. cbn [perform accepted]. rewrite guard_bind_is.
  edestruct (schema_accept _ (fun sc =>
        match ss_relations sc !! t with
        | Some (HasTable _ _) =>
            Some (SchemaState (filter (fun e : str * relation_state => of_table t e.2 = false) (delete t (ss_relations sc))) (ss_functions sc))
        | _ => None
        end) s d sv d' Hd Ha) as (sc & sc' & ss & Hsc & Hss & Hdes & Hk & ->).
  rewrite negb_true_iff, <- not_true_iff_false, (referenced_server d sv (Some (s, t)) s t (fun _ => True) (refers_to s t) Hd).
  - assert (E : is_Some (match ss_relations ss !! t with
        | Some (HasTable _ _) =>
            Some (SchemaState (filter (fun e : str * relation_state => of_table t e.2 = false) (delete t (ss_relations ss))) (ss_functions ss))
        | _ => None
        end) <-> table_at d s t).
    { unfold table_at, is_table. rewrite (relation_at_schema _ _ _ _ Hsc). destruct Hdes as [G _]. specialize (G t).
      inversion G as [r y Hy G1 G2|G1 G2].
      - destruct r as [tb|v|ix|q]; destruct y; cbn in Hy; try done; split; intros [? ?]; try done; by eexists.
      - split; by intros [? ?]. }
    rewrite E. tauto.
  - intros y. split.
    + destruct y as [| | |cs1 s1 t1 tcs m u dl df i]; try done. cbn. rewrite bool_decide_eq_true.
      intros [= -> ->]. by do 7 eexists.
    + intros (cs1 & tcs & m & u & dl & df & i & -> & HQ). cbn. by apply bool_decide_eq_true.
Qed.
Lemma add_relation_accept (k : mut schema ()) n r s d sv d' :
  described d sv -> with_schema_mut s k d = (d', Ok ()) ->
  is_Some (in_schema s (add_relation_state n r) sv) <-> name_free d s n.
Proof.
  intros Hd Ha. destruct (schema_accept _ (add_relation_state n r) s d sv d' Hd Ha) as (sc & sc' & ss & Hsc & Hss & Hdes & Hk & ->).
  rewrite add_state_is. by apply taken_false with sv.
Qed.
Lemma drop_relation_accept {A} (as_kind : relation -> result A) (is_kind : relation_state -> bool) n s d sv d' :
  described d sv -> with_schema_mut s (drop_relation as_kind n) d = (d', Ok ()) ->
  (forall r x a, as_kind r = Ok a -> relation_described r x -> is_kind x = true) ->
  is_Some (in_schema s (drop_relation_state is_kind n) sv).
Proof.
  intros Hd Ha Hkind. destruct (schema_accept _ (drop_relation_state is_kind n) s d sv d' Hd Ha) as (sc & sc' & ss & Hsc & Hss & [G _] & Hk & ->).
  unfold drop_relation, mthen, mread, get_relation in Hk. specialize (G n).
  destruct (sc_relations sc !! n) as [r|] eqn:Er; [|done]. cbn in Hk. destruct (as_kind r) as [a|] eqn:Ea; [|done].
  inversion G as [r' y Hy G1 G2|]; subst. unfold drop_relation_state. rewrite <- G2. cbn [mbind option_bind].
  by rewrite (Hkind _ _ _ Ea Hy).
Qed.

Lemma created_distinct s t cs xs sc sc' :
  mapM (fun c => pair (cc_name c) <$> column_meant (cc_type c) (cc_notnull c) (cc_default c)) cs = Some xs ->
  create_table_in s t cs sc = (sc', Ok ()) -> NoDup xs.*1.
Proof.
  intros Hm Hc. apply create_table_inv in Hc as (tb & Hcols & _).
  assert (Hwf : wf_table s t tb).
  { eapply mfor_add_column_wf; [done|]. unfold wf_table; split_and!; simpl; try done; try constructor; apply map_Forall_empty. }
  apply created_columns in Hcols. cbn in Hcols. destruct Hwf as (_ & _ & Hnd & _). rewrite Hcols in Hnd.
  assert (E : xs.*1 = cc_name <$> cs).
  { apply mapM_Some in Hm. clear -Hm. induction Hm as [|c x cs xs Hx H IH]; [done|]. cbn. rewrite IH. f_equal.
    destruct (column_meant _ _ _); cbn in Hx; [|done]. by injection Hx as <-. }
  rewrite E. by rewrite <- list_fmap_compose in Hnd.
Qed.

Theorem accept_iff c d sv st d' :
  wf_db d -> described d sv -> meant c = Some st -> apply c d = (d', Ok ()) ->
  (is_Some (perform st sv) <-> accepted c d).
Proof.
  intros Hwf Hd Hm Ha. destruct c; cbn [meant] in Hm; cbn [apply] in Ha.
  - destruct (constraint_meant _) as [k|] eqn:Ek; [|done]. injection Hm as <-. cbn [accepted].
    destruct (table_accept _ (ToAddConstraint constraint k) _ _ _ _ _ Hd Ha) as
      (sc & ss & tb & tb' & cols & cks & Hsc & Htb & Hss & Hst & Hdes & Ht & Hk & ->).
    apply meant_cases in Ek as (e & He & ->). cbn [alter]. rewrite guard_bind_is, some_is, bool_decide_eq_true.
    unfold add_constraint, has_constraint in Hk. cbn [constraint_name ck_name] in Hk. rewrite <- (constraint_none _ _ _ _ Ht).
    destruct (tb_constraints tb !! constraint); [done|tauto].
  - destruct (column_meant _ _ _) as [x|] eqn:Ek; [|done]. injection Hm as <-. cbn [accepted].
    destruct (table_accept _ (ToAddColumn column x) _ _ _ _ _ Hd Ha) as
      (sc & ss & tb & tb' & cols & cks & Hsc & Htb & Hss & Hst & Hdes & Ht & Hk & ->).
    cbn [alter]. unfold add_column, has_column in Hk. cbn [col_name] in Hk.
    destruct (find_column column (tb_columns tb)) eqn:Ef; [done|].
    apply (column_none _ _ _ _ Ht) in Ef. rewrite Ef. by rewrite some_is.
  - destruct (constraint_meant _) as [k|] eqn:Ek; [|done]. injection Hm as <-.
    apply meant_cases in Ek as (m' & u' & dl' & ->). cbn [fk_columns fk_tschema fk_ttable fk_tcolumns fk_deferrable fk_initially].
    by eapply add_foreign_accept.
  - cbn [constraint_meant pk_columns pk_deferrable pk_initially] in Hm.
    destruct (deferral_meant _ _) as [[]|] eqn:Ek; [|done]. injection Hm as <-. by eapply add_primary_accept.
  - destruct (constraint_meant _) as [k|] eqn:Ek; [|done]. injection Hm as <-. cbn [accepted].
    pose proof (meant_cases _ _ Ek) as Hk. cbn in Hk. eapply add_key_accept; try eassumption; [done|]. eauto.
  - destruct (deferral_meant _ _) as [[]|] eqn:Ek; [|done]. injection Hm as <-.
    destruct (alter_constraint_accept _ _ _ _ deferrable initially_deferred _ _ _ Hd Ha) as (c & c' & Hc & Hs & ->).
    cbn [accepted]. destruct c; try done. split; [by intros [? ?]|done].
  - destruct (lex _) as [ty|] eqn:Ek; [|done]. injection Hm as <-. cbn [accepted].
    destruct (set_column_accept _ (ToSetType column ty) _ _ _ _ _ _ Hd Ha) as (sc & ss & tb & cols & cks & x & Hsc & Htb & Ht & Hx & ->).
    cbn [alter]. rewrite Hx. cbn [mbind option_bind]. rewrite guard_bind_is, some_is, negb_true_iff, Ek.
    split; [by intros [? _] ? [= <-]|auto].
  - destruct (default_meant _) as [df|] eqn:Ek; [|done]. injection Hm as <-. cbn [accepted].
    destruct (set_column_accept _ (ToSetDefault column df) _ _ _ _ _ _ Hd Ha) as (sc & ss & tb & cols & cks & x & Hsc & Htb & Ht & Hx & ->).
    cbn [alter]. rewrite Hx. cbn [mbind option_bind]. by rewrite some_is.
  - injection Hm as <-. cbn [accepted].
    destruct (set_column_accept _ (ToSetNotNull column not_null) _ _ _ _ _ _ Hd Ha) as (sc & ss & tb & cols & cks & x & Hsc & Htb & Ht & Hx & ->).
    cbn [alter]. rewrite Hx. cbn [mbind option_bind]. rewrite guard_bind_is, some_is, orb_true_iff, negb_true_iff, <- not_true_iff_false.
    rewrite (some_constraint_described _ _ _ _ (fun c => exists p, c = CPrimaryKey p /\ column ∈ pk_columns p) Ht).
    + setoid_rewrite (constraint_at_table _ _ _ _ _ _ Hsc Htb). split.
      * intros [[H|H] _]; [by left|]. right. intros k p Hk Hin. apply H. eauto 10.
      * intros [H|H]; split; try done; [by left|]. right. intros (k & c & Hk & p & -> & Hin). by eapply H.
    + intros c y Hy. rewrite andb_true_iff. apply meant_cases in Hy. destruct c as [p|g|p|p].
      * subst. cbn. rewrite bool_decide_eq_true. split; [intros [_ H]; eauto|by intros (? & [= <-] & ?)].
      * destruct Hy as (? & ? & ? & ->). split; [by intros []|by intros (? & ? & _)].
      * subst. split; [by intros []|by intros (? & ? & _)].
      * destruct Hy as (? & ? & ->). split; [by intros []|by intros (? & ? & _)].
  - destruct (deferral_meant _ _) as [[]|] eqn:Ek; [|done]. injection Hm as <-.
    destruct (alter_constraint_accept _ _ _ _ deferrable initially_deferred _ _ _ Hd Ha) as (c & c' & Hc & Hs & ->).
    cbn [accepted]. destruct c; try done. split; [done|eauto].
  - destruct (deferral_meant _ _) as [[]|] eqn:Ek; [|done]. injection Hm as <-.
    destruct (alter_constraint_accept _ _ _ _ deferrable initially_deferred _ _ _ Hd Ha) as (c & c' & Hc & Hs & ->).
    cbn [accepted]. destruct c; try done. split; [by intros [? ?]|done].
  - destruct (deferral_meant _ _) as [[]|] eqn:Ek; [|done]. injection Hm as <-.
    destruct (alter_constraint_accept _ _ _ _ deferrable initially_deferred _ _ _ Hd Ha) as (c & c' & Hc & Hs & ->).
    cbn [accepted]. destruct c; try done. split; [by intros [? ?]|done].
  - destruct (function_meant _ _ _ _) as [x|] eqn:Ek; [|done]. injection Hm as <-. cbn [accepted perform].
    match goal with |- context [in_schema _ ?f _] => destruct (schema_accept _ f _ _ _ _ Hd Ha) as (sc & sc' & ss & Hsc & Hss & [_ G] & Hk & ->) end.
    unfold add_function, has_function in Hk. cbn [fn_name] in Hk. specialize (G function).
    destruct (sc_functions sc !! function); [done|]. inversion G. by rewrite some_is.
  - destruct (word_meant _) as [m'|] eqn:Em; [|done]. cbn [mbind option_bind] in Hm.
    destruct (mapM lex _) as [ks'|] eqn:Ek; [|done]. injection Hm as <-. cbn [accepted perform].
    match goal with |- context [in_schema _ ?f _] => destruct (schema_accept _ f _ _ _ _ Hd Ha) as (sc & sc' & ss & Hsc & Hss & [G _] & Hk & ->) end.
    unfold create_index_in, mthen, mread, get_relation in Hk. specialize (G table).
    destruct (sc_relations sc !! table) as [r|]; [|done]. cbn in Hk. destruct r as [tb| | |]; try done.
    inversion G as [r' y Hy G1 G2|]; subst. destruct y; cbn in Hy; try done. rewrite add_state_is. by apply taken_false with sv.
  - injection Hm as <-. cbn [accepted perform]. unfold add_schema in Ha. cbn in Ha.
    rewrite guard_bind_is, some_is, andb_true_iff, bool_decide_eq_true, negb_true_iff.
    pose proof (Hd schema_name) as G. destruct (db_schemas d !! schema_name) eqn:En; unfold has_schema in Ha; rewrite En in Ha; [done|].
    inversion G. tauto.
  - destruct (sequence_meant _ _ _ _ _ _ _) as [x|] eqn:Ek; [|done]. injection Hm as <-. cbn [accepted perform].
    rewrite guard_bind_is, (add_relation_accept _ _ _ _ _ _ _ Hd Ha). rewrite Ek. split.
    + intros [H1 H2]. split; [done|]. by exists x.
    + intros [H1 (q & [= <-] & H2)]. done.
  - destruct (mapM (fun c => pair (cc_name c) <$> column_meant (cc_type c) (cc_notnull c) (cc_default c)) _) as [xs|] eqn:Ek; [|done].
    injection Hm as <-. cbn [accepted perform]. rewrite guard_bind_is, (add_relation_accept _ _ _ _ _ _ _ Hd Ha).
    split; [by intros []|]. intros H. split; [|done]. apply bool_decide_eq_true.
    apply with_schema_mut_inv in Ha as [(_ & _ & ?)|(sc & sc' & Hsc & Hk & ->)]; [done|]. by eapply created_distinct.
  - destruct (query_meant _) as [x|] eqn:Ek; [|done]. injection Hm as <-. cbn [accepted perform].
    by apply (add_relation_accept _ _ _ _ _ _ _ Hd Ha).
  - injection Hm as <-. destruct (drop_constraint_accept _ _ _ _ _ _ _ Hd Ha) as (c & Hc & [a Hk] & ->).
    cbn [accepted]. by destruct c.
  - injection Hm as <-. by eapply drop_column_accept.
  - injection Hm as <-. destruct (drop_constraint_accept _ _ _ _ _ _ _ Hd Ha) as (c & Hc & [a Hk] & ->).
    cbn [accepted]. by destruct c.
  - injection Hm as <-. cbn [accepted perform].
    match goal with |- context [in_schema _ ?f _] => destruct (schema_accept _ f _ _ _ _ Hd Ha) as (sc & sc' & ss & Hsc & Hss & [_ G] & Hk & ->) end.
    unfold mthen, remove_function in Hk. specialize (G function). destruct (sc_functions sc !! function); [|done].
    inversion G. cbn. by rewrite some_is.
  - injection Hm as <-. cbn [accepted perform]. split; [done|]. intros _. eapply drop_relation_accept; try eassumption.
    intros r x a Hr Hx. destruct r; try done. by destruct x.
  - injection Hm as <-. destruct (drop_constraint_accept _ _ _ _ _ _ _ Hd Ha) as (c & Hc & [a Hk] & ->).
    cbn [accepted]. rewrite Hc. split; [intros H ? cs [= <-]; apply H|eauto].
  - injection Hm as <-. cbn [accepted perform]. unfold mthen, remove_schema, mok in Ha. pose proof (Hd schema_name) as G.
    unfold relation_at, function_at.
    destruct (db_schemas d !! schema_name) as [sc|] eqn:En; [|done]. inversion G as [sc1 ss [Gr Gf] G1 G2|]; subst. cbn [mbind option_bind].
    rewrite guard_bind_is, some_is, andb_true_iff, !bool_decide_eq_true. split.
    + intros [[H1 H2] _] k. specialize (Gr k). specialize (Gf k). rewrite H1, lookup_empty in Gr. rewrite H2, lookup_empty in Gf.
      inversion Gr. inversion Gf. done.
    + intros H. split; [|done]. split; apply map_eq; intros k; rewrite lookup_empty; specialize (H k) as [H1 H2].
      * specialize (Gr k). rewrite H1 in Gr. by inversion Gr.
      * specialize (Gf k). rewrite H2 in Gf. by inversion Gf.
  - injection Hm as <-. cbn [accepted perform]. split; [done|]. intros _. eapply drop_relation_accept; try eassumption.
    intros r x a Hr Hx. destruct r; try done. by destruct x.
  - injection Hm as <-. by eapply drop_table_accept.
  - injection Hm as <-. destruct (drop_constraint_accept _ _ _ _ _ _ _ Hd Ha) as (c & Hc & [a Hk] & ->).
    cbn [accepted]. rewrite Hc. split; [intros H ? cs [= <-]; apply H|eauto].
  - injection Hm as <-. cbn [accepted perform]. split; [done|]. intros _. eapply drop_relation_accept; try eassumption.
    intros r x a Hr Hx. destruct r; try done. by destruct x.
  - injection Hm as <-. by eapply rename_column_accept.
Qed.
