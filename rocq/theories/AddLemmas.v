(** Differences that only add are carried out. *)
From Verif Require Import Base Text Types Changes SpecSnapshot SpecDiff Diff SpecSql SpecLex SpecStatement SpecServer SpecSpelled SpecNull
  SpecAccept SpecAdd Sql SpecDb HistoryRun StepLemmas ColumnLemmas ApplyLemmas InvertLemmas DiffSound DiffSame DiffLocal DiffRun DiffOrder DiffRollback
  SayLemmas ServerLemmas AcceptLemmas SpelledLemmas ObeyLemmas NullLemmas NullDiff NullFlow.

(** ** The changes *)
Definition added (s t : database) (c : change) : Prop :=
  match c with
  | CreateSchema n => db_schemas s !! n = None /\ is_Some (db_schemas t !! n)
  | CreateTable n k _ => table_at t n k
  | AddColumn n k x _ _ _ => table_at s n k /\ table_at t n k /\ column_at s n k x = None /\ is_Some (column_at t n k x)
  | AddPrimaryKey n k x cs d i =>
      constraint_at s n k x = None /\ constraint_at t n k x = Some (CPrimaryKey (PrimaryKey n k x cs d i))
  | AddUnique n k x cs d i => constraint_at s n k x = None /\ constraint_at t n k x = Some (CUnique (Unique n k x cs d i))
  | AddCheck n k x e d i => constraint_at s n k x = None /\ constraint_at t n k x = Some (CCheck (Check n k x e d i))
  | AddForeignKey n k x _ _ _ _ _ _ _ _ _ => constraint_at s n k x = None /\ exists f, constraint_at t n k x = Some (CForeignKey f)
  | CreateIndex n b k u m ks => relation_at s n k = None /\ relation_at t n k = Some (RIndex (Index n k b u m ks))
  | CreateView n k q => relation_at s n k = None /\ relation_at t n k = Some (RView (View n k q))
  | CreateSequence n k ty inc mn mx st ca cy => relation_at s n k = None /\
      exists q, relation_at t n k = Some (RSequence q) /\ sq_type q = ty /\ sq_increment q = inc /\ sq_min q = mn /\ sq_max q = mx /\
        sq_start q = st /\ sq_cache q = ca /\ sq_cycle q = cy
  | _ => False
  end.

Lemma neqb_refl {A} `{EqDecision A} (x : A) : neqb x x = false.
Proof. by apply neqb_false. Qed.
Section added.
  Context (s t : database) (Hs : wf_db s) (Ht : wf_db t) (Had : only_adds s t).

  Lemma constraint_create_added n k x c :
    wf_constraint n k x c -> constraint_at s n k x = None -> constraint_at t n k x = Some c ->
    Forall (added s t) (diff_constraint_create c).
  Proof.
    intros (E1 & E2 & E3) H1 H2. destruct c as [[]|[]|[]|[]]; cbn in *; subst; apply Forall_singleton; cbn; eauto.
  Qed.
  Lemma constraint_part_added n k x :
    (forall c, constraint_at s n k x = Some c -> wf_constraint n k x c) ->
    (forall c, constraint_at t n k x = Some c -> wf_constraint n k x c) ->
    Forall (added s t) (constraint_part (constraint_at s n k x) (constraint_at t n k x)).
  Proof.
    intros Wa Wb. destruct Had as (_ & _ & _ & _ & _ & H).
    destruct (constraint_at s n k x) as [a|] eqn:Ea; cbn [constraint_part].
    - rewrite (H _ _ _ _ Ea). rewrite (constraint_update_cases n k x a a) by eauto. by rewrite decide_True.
    - destruct (constraint_at t n k x) as [b|] eqn:Eb; [|constructor]. eapply constraint_create_added; eauto.
  Qed.
  Lemma relation_create_added ot n k r :
    wf_relation n k r -> relation_at s n k = None -> relation_at t n k = Some r -> Forall (added s t) (diff_relation_create ot r).
  Proof.
    intros Hw H1 H2. destruct r as [b|v|i|q].
    - change (diff_relation_create ot (RTable b)) with (diff_table_create ot b).
      pose proof Hw as (E1 & E2 & _ & _ & Hc). apply (table_create_forall (added s t) ot n k b Hw). split.
      + cbn. rewrite E1, E2. by exists b.
      + intros x. pose proof (constraint_part_added n k x) as K. unfold constraint_at in K. rewrite H1, H2 in K.
        apply K; [done|]. intros c Hx. by apply Hc.
    - destruct v, Hw as [E1 E2]; cbn in *; subst. apply Forall_singleton. done.
    - destruct i, Hw as [E1 E2]; cbn in *; subst. apply Forall_singleton. done.
    - destruct Hw as [E1 E2]; cbn in *; subst. apply Forall_singleton. split; [done|]. exists q. by split_and!.
  Qed.
  Lemma diff_added os ot : Forall (added s t) (compare_diff os ot s t).
  Proof.
    destruct Had as (A1 & A2 & A3 & A4 & A5 & A6).
    apply (diff_forall _ os ot s t Hs Ht). split_and!.
    - intros n. destruct (db_schemas s !! n) as [a|] eqn:Ea, (db_schemas t !! n) as [b|] eqn:Eb; cbn [schema_part]; [constructor| | |constructor].
      + destruct (A1 n) as [? ?]; [by rewrite Ea|congruence].
      + apply Forall_singleton. destruct (Ht _ _ Eb) as (E & _). cbn. rewrite E, Ea, Eb. by split.
    - intros n k. destruct (relation_at s n k) as [a|] eqn:Ea.
      2:{ destruct (relation_at t n k) as [b|] eqn:Eb; [|constructor]. eapply relation_create_added; [|done|done].
          by eapply (relation_at_wf t). }
      destruct (A3 n k a Ea) as [[ta [= ->]]|Eb].
      + destruct (A4 n k) as [tb Eb]; [by exists ta|]. rewrite Eb. cbn [relation_part diff_relation_update].
        destruct (relation_at_wf _ _ _ _ Hs Ea) as [_ Wa], (relation_at_wf _ _ _ _ Ht Eb) as [_ Wb]. cbn in Wa, Wb.
        pose proof Wa as (_ & _ & Na & _ & Ca). pose proof Wb as (_ & _ & Nb & _ & Cb).
        assert (Hcol : forall x c, find_column x (tb_columns ta) = Some c -> find_column x (tb_columns tb) = Some c).
        { intros x c. specialize (A5 n k x c). unfold column_at in A5. by rewrite Ea, Eb in A5. }
        apply (table_update_forall _ os ot n k ta tb Wa Wb). split_and!.
        * intros c Hin. unfold diff_table_column. destruct (find_column (col_name c) (tb_columns ta)) as [o|] eqn:Eo.
          -- apply Hcol in Eo. rewrite (find_column_elem _ _ Nb Hin) in Eo. injection Eo as <-.
             unfold diff_column_update. rewrite !neqb_refl. constructor.
          -- apply Forall_cons. split; [|constructor]. pose proof Wb as (_ & _ & _ & Hcs & _).
             assert (col_schema c = n /\ col_table c = k) as [E1 E2] by (rewrite Forall_forall in Hcs; by apply (Hcs c Hin)).
             cbn. rewrite E1, E2. unfold table_at, is_table, column_at. rewrite Ea, Eb, Eo, (find_column_elem _ _ Nb Hin).
             split_and!; by eauto.
        * intros c Hin. unfold diff_table_column_drop, has_column.
          rewrite (Hcol _ _ (find_column_elem _ _ Na Hin)). constructor.
        * intros x. pose proof (constraint_part_added n k x) as K. unfold constraint_at in K. rewrite Ea, Eb in K.
          apply K; intros c Hx; [by apply Ca|by apply Cb].
      + rewrite Eb. cbn [relation_part]. destruct a as [ta|v|i|q]; cbn [diff_relation_update].
        * destruct (relation_at_wf _ _ _ _ Hs Ea) as [_ Wa]. cbn in Wa. pose proof Wa as (_ & _ & Na & _ & Ca).
          apply (table_update_forall _ os ot n k ta ta Wa Wa). split_and!.
          -- intros c Hin. unfold diff_table_column. rewrite (find_column_elem _ _ Na Hin).
             unfold diff_column_update. rewrite !neqb_refl. constructor.
          -- intros c Hin. unfold diff_table_column_drop, has_column. rewrite (find_column_elem _ _ Na Hin). constructor.
          -- intros x. destruct (tb_constraints ta !! x) as [c|] eqn:Ex; cbn [constraint_part]; [|constructor].
             rewrite (constraint_update_cases n k x c c) by (by apply Ca). by rewrite decide_True.
        * unfold diff_view_update. rewrite !neqb_refl. constructor.
        * unfold diff_index_update. rewrite !neqb_refl. constructor.
        * unfold diff_sequence_update. rewrite !neqb_refl. constructor.
    - intros n k. rewrite A2. destruct (function_at s n k) as [f|] eqn:Ef; cbn [function_part]; [|constructor].
      destruct (function_at_wf _ _ _ _ Hs Ef) as [_ W]. rewrite (function_update_cases n k f f W W). by rewrite decide_True.
  Qed.
End added.

(** ** Columns are added before the keys *)
Definition phase (n k : str) (c : change) : option bool :=
  match c with
  | CreateTable s t _ | AddColumn s t _ _ _ _ => if decide ((n, k) = (s, t)) then Some false else None
  | AddPrimaryKey s t _ _ _ _ | AddUnique s t _ _ _ _ | AddCheck s t _ _ _ _ | AddForeignKey s t _ _ _ _ _ _ _ _ _ _ =>
      if decide ((n, k) = (s, t)) then Some true else None
  | _ => None
  end.
Lemma phase_touches n k c : is_Some (phase n k c) -> touches n k c.
Proof. destruct c; cbn; intros [? H]; try done; case_decide as D; try done; by rewrite D. Qed.
Definition in_phases (l : list bool) : Prop := exists a b, l = a ++ b /\ Forall (eq false) a /\ Forall (eq true) b.
Lemma omap_all {A : Type} (f : A -> option bool) v l : (forall c, c ∈ l -> f c <> Some (negb v)) -> Forall (eq v) (omap f l).
Proof.
  induction l as [|a l IH]; intros H; cbn; [constructor|]. specialize (IH (fun c Hc => H c (elem_of_list_further _ _ _ Hc))).
  specialize (H a (elem_of_list_here _ _)). destruct (f a) as [b|]; [|done]. constructor; [|done]. by destruct v, b.
Qed.
Lemma constraint_create_phase n k c e : e ∈ diff_constraint_create c -> phase n k e <> Some false.
Proof. destruct c; cbn; intros ->%elem_of_list_singleton; cbn; try done; by case_decide. Qed.
Lemma constraint_drop_phase n k c e : e ∈ diff_constraint_drop c -> phase n k e = None.
Proof. destruct c; cbn; by intros ->%elem_of_list_singleton. Qed.
Lemma constraint_update_phase n k i a b e :
  wf_constraint n k i a -> wf_constraint n k i b -> e ∈ diff_constraint_update a b -> phase n k e <> Some false.
Proof.
  intros Wa Wb. rewrite (constraint_update_cases n k i a b Wa Wb).
  repeat case_decide; [by intros ?%elem_of_nil| |].
  - destruct b; cbn; by intros ->%elem_of_list_singleton.
  - intros [He|He]%elem_of_app; [by rewrite (constraint_drop_phase _ _ _ _ He)|by eapply constraint_create_phase].
Qed.
Lemma diff_phases os ot s t n k b :
  wf_db s -> wf_db t -> only_adds s t -> relation_at t n k = Some (RTable b) -> in_phases (omap (phase n k) (compare_diff os ot s t)).
Proof.
  intros Hs Ht Had Hr. destruct Had as (_ & _ & A3 & _).
  rewrite (diff_touches os ot s t Hs Ht n k (phase n k) (phase_touches n k) _ Hr).
  destruct (relation_at_wf _ _ _ _ Ht Hr) as [_ Wb]. cbn in Wb. pose proof Wb as (E1 & E2 & _ & _ & Cb).
  destruct (relation_at s n k) as [a|] eqn:Ea; cbn [relation_part].
  2:{ cbn [diff_relation_create]. unfold diff_table_create. eexists [false], _. split_and!; [|by constructor|].
      - cbn [omap list_omap new_create_table phase]. rewrite E1, E2, decide_True by done. reflexivity.
      - apply omap_all. intros e (c & He & _)%elem_of_list_bind. by eapply constraint_create_phase. }
  assert (exists a', a = RTable a') as [a' ->].
  { destruct (A3 _ _ _ Ea) as [[a' [= ->]]|K]; [by exists a'|]. exists b. congruence. }
  destruct (relation_at_wf _ _ _ _ Hs Ea) as [_ Wa]. cbn in Wa. pose proof Wa as (_ & _ & _ & _ & Ca).
  cbn [diff_relation_update]. unfold diff_table_update. rewrite !omap_app.
  rewrite (omap_bind_none _ (diff_table_column_drop b)), (omap_bind_none _ (diff_table_constraint_drop b)).
  2:{ intros c _. unfold diff_table_constraint_drop. destruct (has_constraint _ _); [done|]. by destruct c. }
  2:{ intros c _. unfold diff_table_column_drop. by destruct (has_column _ _). }
  rewrite app_nil_r. cbn [app]. eexists _, _. split; [reflexivity|]. split; apply omap_all.
  - intros e (c & He & _)%elem_of_list_bind. unfold diff_table_column in He. destruct (find_column _ _).
    + unfold diff_column_update in He. repeat destruct (neqb _ _); cbn in He;
        repeat (apply elem_of_cons in He as [->|He]; [done|]); by apply elem_of_nil in He.
    + cbn in He. apply elem_of_list_singleton in He as ->. cbn. by case_decide.
  - intros e (c & He & Hc)%elem_of_list_bind. unfold diff_table_constraint in He.
    assert (Hc' : tb_constraints b !! constraint_name c = Some c).
    { by apply (iter_elem _ _ _ (io_constraints_perm _ _ _ _) (wf_constraints_named _ _ _ Cb)) in Hc. }
    destruct (tb_constraints a' !! constraint_name c) as [o|] eqn:Eo.
    + eapply constraint_update_phase; [by apply Ca|by apply Cb|done].
    + by eapply constraint_create_phase.
Qed.
Lemma phases_split (f : change -> option bool) pre c post :
  in_phases (omap f (pre ++ c :: post)) -> f c = Some true -> forall e, e ∈ post -> f e <> Some false.
Proof.
  intros (a & b & E & Fa & Fb) Hc e He Hf. rewrite omap_app in E. cbn in E. rewrite Hc in E.
  assert (Hin : false ∈ omap f post) by (apply elem_of_list_omap; by exists e).
  revert a E Fa. generalize (omap f pre) as l. intros l. induction l as [|x l IH]; intros a E Fa.
  - cbn in E. destruct a as [|y a].
    + cbn in E. rewrite <- E in Fb. apply Forall_cons in Fb as [_ Fb]. rewrite Forall_forall in Fb. by specialize (Fb _ Hin).
    + cbn in E. injection E as <- _. apply Forall_cons in Fa as [? _]. done.
  - destruct a as [|y a].
    + cbn in E. rewrite <- E in Fb. rewrite Forall_forall in Fb. specialize (Fb false). 
      assert (true = false); [|done]. apply Fb. right. apply elem_of_app. right. by right.
    + cbn in E. injection E as _ E. apply Forall_cons in Fa as [_ Fa]. by apply (IH a).
Qed.

(** ** What is there stays *)
Definition keeps (d d' : database) : Prop :=
  (forall n k, is_Some (relation_at d n k) -> is_Some (relation_at d' n k)) /\
  (forall n k x e, constraint_at d n k x = Some e -> constraint_at d' n k x = Some e).
Definition no_columns (d d' : database) (n k : str) : Prop :=
  forall x, is_Some (column_at d' n k x) -> is_Some (column_at d n k x).
Lemma relation_at_set d n sc k r n' k' : db_schemas d !! n = Some sc ->
  relation_at (put d n (set_relations sc (<[k := r]> (sc_relations sc)))) n' k' =
  if decide ((n', k') = (n, k)) then Some r else relation_at d n' k'.
Proof.
  intros Hsc. destruct (decide (n = n')) as [<-|Hn].
  - rewrite relation_at_put_eq. cbn. rewrite (relation_at_lookup _ _ _ _ Hsc).
    destruct (decide (k = k')) as [<-|Hk]; [by rewrite lookup_insert, decide_True|].
    rewrite lookup_insert_ne by done. by rewrite decide_False by congruence.
  - rewrite relation_at_put_ne by done. by rewrite decide_False by congruence.
Qed.
Lemma new_relation_keeps d d' n k r :
  relation_at d n k = None ->
  (forall n' k', relation_at d' n' k' = if decide ((n', k') = (n, k)) then Some r else relation_at d n' k') ->
  keeps d d' /\ forall n' k', (n', k') <> (n, k) \/ ~ is_table (Some r) -> no_columns d d' n' k'.
Proof.
  intros H1 H2. split; [split|].
  - intros n' k'. rewrite H2. by case_decide.
  - intros n' k' x e. unfold constraint_at. rewrite H2. case_decide as D; [|done]. injection D as -> ->. by rewrite H1.
  - intros n' k' H x. unfold column_at. rewrite H2. case_decide as D; [|done]. destruct H as [H|H]; [done|].
    destruct r as [b| | |]; [destruct H; by exists b|by intros [? ?]..].
Qed.
Lemma in_table_keeps d d' n k tb tb' :
  relation_at d n k = Some (RTable tb) ->
  (forall n' k', relation_at d' n' k' = if decide ((n', k') = (n, k)) then Some (RTable tb') else relation_at d n' k') ->
  (forall x e, tb_constraints tb !! x = Some e -> tb_constraints tb' !! x = Some e) ->
  keeps d d' /\ forall n' k', (n', k') <> (n, k) \/ tb_columns tb' = tb_columns tb -> no_columns d d' n' k'.
Proof.
  intros H1 H2 H3. split; [split|].
  - intros n' k'. rewrite H2. by case_decide.
  - intros n' k' x e. unfold constraint_at. rewrite H2. case_decide as D; [|done]. injection D as -> ->. rewrite H1. apply H3.
  - intros n' k' H x. unfold column_at. rewrite H2. case_decide as D; [|done]. destruct H as [H|H]; [done|].
    injection D as -> ->. by rewrite H1, H.
Qed.
Lemma new_relation_put d n sc k r : db_schemas d !! n = Some sc -> sc_relations sc !! k = None ->
  let d' := put d n (set_relations sc (<[k := r]> (sc_relations sc))) in
  keeps d d' /\ forall n' k', (n', k') <> (n, k) \/ ~ is_table (Some r) -> no_columns d d' n' k'.
Proof.
  intros Hsc Hk d'. apply new_relation_keeps; [by rewrite (relation_at_lookup _ _ _ _ Hsc)|].
  intros n' k'. by apply relation_at_set.
Qed.
Lemma in_table_put d n sc k tb tb' : db_schemas d !! n = Some sc -> sc_relations sc !! k = Some (RTable tb) ->
  (forall x e, tb_constraints tb !! x = Some e -> tb_constraints tb' !! x = Some e) ->
  let d' := put d n (set_relations sc (<[k := RTable tb']> (sc_relations sc))) in
  keeps d d' /\ forall n' k', (n', k') <> (n, k) \/ tb_columns tb' = tb_columns tb -> no_columns d d' n' k'.
Proof.
  intros Hsc Hk H d'. apply (in_table_keeps d d' n k tb tb'); [by rewrite (relation_at_lookup _ _ _ _ Hsc)| |done].
  intros n' k'. by apply relation_at_set.
Qed.
Lemma step_keeps s t c d d' : added s t c -> apply c d = (d', Ok ()) ->
  keeps d d' /\ forall n k, phase n k c <> Some false -> no_columns d d' n k.
Proof.
  intros Hc Ha.
  assert (Hcon : forall n k e,
    apply c d = in_table n k (add_constraint e) d -> keeps d d' /\ forall n k, phase n k c <> Some false -> no_columns d d' n k).
  { intros n k e E. rewrite E in Ha. apply in_table_ok in Ha as (sc & tb & tb' & Hsc & Htb & Hk & ->).
    apply add_constraint_inv in Hk as [Hn ->].
    edestruct (in_table_put d) as [K1 K2]; [exact Hsc|exact Htb| |split; [exact K1|]].
    { intros x e' He. cbn [set_constraints tb_constraints]. rewrite lookup_insert_ne; [done|]. intros <-. congruence. }
    intros n' k' _. apply K2. by right. }
  destruct c; try done.
  1,3-5: eapply Hcon; reflexivity.
  all: clear Hcon; cbn in Ha.
  - apply in_table_ok in Ha as (sc & tb & tb' & Hsc & Htb & Hk & ->).
    apply add_column_inv in Hk as [Hn ->].
    edestruct (in_table_put d) as [K1 K2]; [exact Hsc|exact Htb| |split; [exact K1|]].
    { done. }
    intros n' k' Hp. apply K2. left. cbn in Hp. by case_decide.
  - apply with_schema_mut_ok in Ha as (sc & sc' & Hsc & Hr & ->). apply create_index_inv in Hr as (tb & _ & Hk & ->).
    edestruct (new_relation_put d) as [K1 K2]; [exact Hsc|exact Hk|split; [exact K1|]].
    intros n' k' _. apply K2. right. by intros [? ?].
  - unfold add_schema, has_schema in Ha. cbn in Ha. destruct (db_schemas d !! schema_name) eqn:E; [done|]. injection Ha as <-.
    assert (K : forall n k, relation_at (Database (<[schema_name := schema_new schema_name]> (db_schemas d))) n k = relation_at d n k).
    { intros n k. unfold relation_at. cbn. destruct (decide (schema_name = n)) as [<-|Hn].
      - rewrite lookup_insert, E. cbn. by rewrite lookup_empty.
      - by rewrite lookup_insert_ne. }
    split; [split|].
    + intros n k. by rewrite K.
    + intros n k x e. unfold constraint_at. by rewrite K.
    + intros n k _ x. unfold column_at. by rewrite K.
  - apply with_schema_mut_ok in Ha as (sc & sc' & Hsc & Hr & ->). apply add_relation_inv in Hr as [Hk ->].
    edestruct (new_relation_put d) as [K1 K2]; [exact Hsc|exact Hk|split; [exact K1|]].
    intros n' k' _. apply K2. right. by intros [? ?].
  - apply with_schema_mut_ok in Ha as (sc & sc' & Hsc & Hr & ->). apply create_table_inv in Hr as (tb & _ & _ & Hk & ->).
    edestruct (new_relation_put d) as [K1 K2]; [exact Hsc|exact Hk|split; [exact K1|]].
    intros n' k' Hp. apply K2. left. cbn in Hp. by case_decide.
  - apply with_schema_mut_ok in Ha as (sc & sc' & Hsc & Hr & ->). apply add_relation_inv in Hr as [Hk ->].
    edestruct (new_relation_put d) as [K1 K2]; [exact Hsc|exact Hk|split; [exact K1|]].
    intros n' k' _. apply K2. right. by intros [? ?].
Qed.
Lemma run_keeps s t cs d d' : Forall (added s t) cs -> apply_all cs d = (d', Ok ()) ->
  keeps d d' /\ forall n k, (forall e, e ∈ cs -> phase n k e <> Some false) -> no_columns d d' n k.
Proof.
  intros Hc. revert d. induction Hc as [|c cs Hc _ IH]; intros d Ha.
  - injection Ha as <-. split; [by split|]. by intros n k _ x.
  - rewrite apply_all_cons in Ha. destruct (apply c d) as [d1 [[]|e]] eqn:Ea; [|done].
    destruct (step_keeps _ _ _ _ _ Hc Ea) as [[K1 K2] K3]. destruct (IH _ Ha) as [[G1 G2] G3]. split; [split|].
    + intros n k H. by apply G1, K1.
    + intros n k x e H. by apply G2, K2.
    + intros n k H x Hx. apply K3; [apply H; by left|]. apply G3; [|done]. intros e He. apply H. by right.
Qed.

(** ** Each step is accepted *)
Lemma acceptable_steps cs d d' :
  (forall pre c post d1 d2, cs = pre ++ c :: post -> apply_all pre d = (d1, Ok ()) -> apply c d1 = (d2, Ok ()) ->
     apply_all post d2 = (d', Ok ()) -> accepted c d1) ->
  apply_all cs d = (d', Ok ()) -> acceptable d cs.
Proof.
  revert d. induction cs as [|c cs IH]; intros d H Ha; [done|]. rewrite apply_all_cons in Ha.
  destruct (apply c d) as [d1 [[]|e]] eqn:Ea; [|done]. split.
  - by apply (H [] c cs d d1).
  - intros d2 Ea2. rewrite Ea in Ea2. injection Ea2 as <-. apply IH; [|done].
    intros pre e post d2 d3 -> H1 H2 H3. apply (H (c :: pre) e post d2 d3); [done| |done|done]. by rewrite apply_all_cons, Ea.
Qed.
Lemma constraint_at_equiv a b n k x : db_equiv a b -> constraint_at a n k x = constraint_at b n k x.
Proof.
  intros He. unfold constraint_at. pose proof (option_Forall2_relation _ _ n k He) as Hr.
  destruct Hr as [r r' Hr|]; [|done]. destruct r, r'; try done. destruct Hr as (_ & _ & _ & ->). done.
Qed.
Lemma adds_accepted os ot s t d' : wf_db s -> wf_db t -> only_adds s t -> keys_fit t -> new_sayable s t -> new_valid s t ->
  apply_all (compare_diff os ot s t) s = (d', Ok ()) -> db_equiv d' t -> acceptable s (compare_diff os ot s t).
Proof.
  intros Hs Ht Had (F1 & F2 & F3) (_ & _ & N4) (N1 & N3) Ha He. apply (acceptable_steps _ s d'); [|done].
  intros pre c post d1 d2 E H1 H2 H3. pose proof (diff_added s t Hs Ht Had os ot) as Hall. rewrite E in Hall.
  apply Forall_app in Hall as [_ Hall]. apply Forall_cons in Hall as [Hc Hpost].
  assert (Hrest : Forall (added s t) (c :: post)) by (by constructor).
  destruct (run_keeps s t (c :: post) d1 d') as [[K1 K2] _]; [done|by rewrite apply_all_cons, H2|].
  destruct (run_keeps s t post d2 d') as [_ K3]; [done|done|].
  destruct (step_keeps s t c d1 d2 Hc H2) as [_ K4].
  assert (Hwf : wf_db d') by (by apply (DiffRollback.apply_all_wf (compare_diff os ot s t) s)).
  assert (R : forall n k, relation_at t n k = None -> relation_at d1 n k = None).
  { intros n k Hn. destruct (relation_at d1 n k) as [r|] eqn:Er; [|done].
    destruct (K1 n k) as [r' Hr']; [by rewrite Er|]. pose proof (option_Forall2_relation _ _ n k He) as Hf.
    rewrite Hr', Hn in Hf. inversion Hf. }
  assert (Q : forall n k x e, constraint_at d1 n k x = Some e -> constraint_at t n k x = Some e).
  { intros n k x e Hx. rewrite <- (constraint_at_equiv d' t n k x He). by apply K2. }
  assert (Hnew : forall n k, is_Some (relation_at t n k) -> relation_at d1 n k = None -> name_free d1 n k).
  { intros n k Hr Hn. split; [done|]. intros k' e Hx. apply Q in Hx. destruct (key_columns e) as [cs|] eqn:Ek; [|done].
    destruct (F1 n k' k e Hx) as [G _]; [by rewrite Ek|]. rewrite G in Hr. by destruct Hr. }
  assert (Hcols : forall n k x e cs, phase n k c = Some true -> constraint_at t n k x = Some e -> key_columns e = Some cs ->
            columns_exist d1 n k cs).
  { intros n k x e cs Hp Hx Hk. destruct (F3 _ _ _ _ _ Hx Hk) as [Hnd Hcs]. split; [done|].
    rewrite Forall_forall in Hcs. apply Forall_forall. intros y Hy. specialize (Hcs _ Hy) as [col Hcol].
    apply K4; [by rewrite Hp|]. apply K3.
    - unfold constraint_at in Hx. destruct (relation_at t n k) as [[b| | |]|] eqn:Eb; try done.
      pose proof (diff_phases os ot s t n k b Hs Ht Had Eb) as Hph. rewrite E in Hph. by apply (phases_split _ pre c post).
    - exists col. apply (column_at_equiv t d'); [done|by apply db_equiv_sym|done]. }
  assert (Hkey : forall n k x e, constraint_at t n k x = Some e -> key_columns e <> None ->
            constraint_at d1 n k x = None -> name_free d1 n x).
  { intros n k x e Hx Hk Hn. destruct (F1 _ _ _ _ Hx Hk) as [G1 G2]. split; [by apply R|].
    intros k' e' Hx'. destruct (key_columns e') as [cs|] eqn:Ek; [|done]. pose proof (Q _ _ _ _ Hx') as Hx2.
    assert (k' = k) as -> by (apply (G2 k' e'); [done|by rewrite Ek]). congruence. }
  assert (Hput : forall n k e d2, in_table n k (add_constraint e) d1 = (d2, Ok ()) -> constraint_at d1 n k (constraint_name e) = None).
  { intros n k e d3 H. apply in_table_ok in H as (sc & tb & tb' & Hsc & Htb & Hk & _). apply add_constraint_inv in Hk as [Hk _].
    unfold constraint_at. by rewrite (relation_at_lookup _ _ _ _ Hsc), Htb. }
  destruct c; try done; cbn [added] in Hc; cbn [accepted].
  - (* foreign keys *) destruct Hc as [Hc1 [f Hc2]]. by destruct (N4 _ _ _ _ Hc1 Hc2).
  - (* primary keys *) destruct Hc as [Hc1 Hc2]. apply Hput in H2. cbn in H2. split_and!.
    + by eapply Hkey.
    + eapply Hcols; [|done|done]. cbn. by rewrite decide_True.
    + intros y p Hy. apply Q in Hy as Hy'. pose proof (F2 _ _ _ _ _ _ Hc2 Hy') as <-. congruence.
  - (* unique *) destruct Hc as [Hc1 Hc2]. apply Hput in H2. cbn in H2. split.
    + by eapply Hkey.
    + eapply Hcols; [|done|done]. cbn. by rewrite decide_True.
  - (* indexes *) destruct Hc as [Hc1 Hc2]. apply Hnew; [by rewrite Hc2|].
    cbn in H2. apply with_schema_mut_ok in H2 as (sc & sc' & Hsc & Hr & _). apply create_index_inv in Hr as (tb & _ & Hk & _).
    by rewrite (relation_at_lookup _ _ _ _ Hsc).
  - (* schemas *) destruct Hc as [Hc1 Hc2]. exact (N1 _ Hc1 Hc2).
  - (* sequences *) destruct Hc as [Hc1 (q & Hc2 & <- & <- & <- & <- & <- & <- & <-)]. split; [|by eapply N3].
    apply Hnew; [by rewrite Hc2|].
    cbn in H2. apply with_schema_mut_ok in H2 as (sc & sc' & Hsc & Hr & _). apply add_relation_inv in Hr as [Hk _].
    by rewrite (relation_at_lookup _ _ _ _ Hsc).
  - (* tables *) destruct Hc as [b Hc]. apply Hnew; [by rewrite Hc|].
    cbn in H2. apply with_schema_mut_ok in H2 as (sc & sc' & Hsc & Hr & _). apply create_table_inv in Hr as (tb & _ & _ & Hk & _).
    by rewrite (relation_at_lookup _ _ _ _ Hsc).
  - (* views *) destruct Hc as [Hc1 Hc2]. apply Hnew; [by rewrite Hc2|].
    cbn in H2. apply with_schema_mut_ok in H2 as (sc & sc' & Hsc & Hr & _). apply add_relation_inv in Hr as [Hk _].
    by rewrite (relation_at_lookup _ _ _ _ Hsc).
Qed.
Lemma adds_faithful s t cs d : new_sayable s t -> Forall (added s t) cs -> faithful_but_null d cs.
Proof.
  intros (N1 & N2 & N4) Hc. revert d. induction Hc as [|c cs Hc _ IH]; intros d; [done|].
  split; [|split; [by destruct c|by intros d' _]]. clear IH. destruct c; cbn [added said sayable] in *; try done.
  - by destruct Hc as [H1 H2]; apply (N4 _ _ _ _ H1 H2).
  - destruct Hc as [H1 [f H2]]; apply (N4 _ _ _ _ H1 H2).
  - by destruct Hc as [H1 H2]; apply (N4 _ _ _ _ H1 H2).
  - by destruct Hc as [H1 H2]; apply (N4 _ _ _ _ H1 H2).
  - destruct Hc as [H1 H2]. by apply (N2 _ _ _ H1 H2).
  - destruct Hc as [H1 H2]. by apply (N1 _ H1 H2).
Qed.

(** ** What was accepted fits *)
Lemma keys_fit_more d d' :
  (forall n k x, constraint_at d' n k x = constraint_at d n k x) ->
  (forall n k x, is_Some (column_at d n k x) -> is_Some (column_at d' n k x)) ->
  (forall n k, relation_at d n k = None -> ~ name_free d n k -> relation_at d' n k = None) ->
  keys_fit d -> keys_fit d'.
Proof.
  intros H1 H2 H3 (F1 & F2 & F3). split_and!.
  - intros n k x c Hx Hk. rewrite H1 in Hx. destruct (F1 _ _ _ _ Hx Hk) as [G1 G2]. split.
    + apply H3; [done|]. intros [_ K]. by apply K in Hx.
    + intros k' c'. rewrite H1. apply G2.
  - intros n k x y p q. rewrite !H1. apply F2.
  - intros n k x c cs. rewrite H1. intros Hx Hk. destruct (F3 _ _ _ _ _ Hx Hk) as [G1 G2]. split; [done|].
    eapply Forall_impl; [exact G2|]. intros y. apply H2.
Qed.
Lemma keys_fit_constraint d d' n k x e :
  (forall n' k' x', constraint_at d' n' k' x' = if decide ((n', k', x') = (n, k, x)) then Some e else constraint_at d n' k' x') ->
  (forall n' k' x', is_Some (column_at d n' k' x') -> is_Some (column_at d' n' k' x')) ->
  (forall n' k', relation_at d n' k' = None -> relation_at d' n' k' = None) ->
  (forall cs, key_columns e = Some cs -> name_free d n x /\ columns_exist d n k cs) ->
  (forall p y q, e = CPrimaryKey p -> constraint_at d n k y <> Some (CPrimaryKey q)) ->
  keys_fit d -> keys_fit d'.
Proof.
  intros H1 H2 H3 H4 H5 (F1 & F2 & F3). split_and!.
  - intros n0 k0 x0 c Hx Hk. rewrite H1 in Hx. case_decide as D.
    + injection D as -> -> ->. injection Hx as <-. destruct (key_columns e) as [cs|] eqn:Ek; [|done].
      destruct (H4 _ eq_refl) as [[G1 G2] _]. split; [by apply H3|]. intros k' c'. rewrite H1. case_decide as D; [congruence|].
      intros Hx Hk'. by apply G2 in Hx.
    + destruct (F1 _ _ _ _ Hx Hk) as [G1 G2]. split; [by apply H3|]. intros k' c'. rewrite H1. case_decide as D'; [|apply G2].
      injection D' as -> -> ->. intros [= <-] Hk'. destruct (key_columns e) as [cs|] eqn:Ek; [|done].
      destruct (H4 _ eq_refl) as [[_ G3] _]. by apply G3 in Hx.
  - intros n0 k0 x0 y0 p q. rewrite !H1. case_decide as D; case_decide as D'; try congruence.
    + injection D as -> -> ->. intros [= ->] Hq. by destruct (H5 p y0 q eq_refl).
    + injection D' as -> -> ->. intros Hq [= ->]. by destruct (H5 q x0 p eq_refl).
    + apply F2.
  - assert (Hc : forall n' k' cs, columns_exist d n' k' cs -> columns_exist d' n' k' cs).
    { intros n' k' cs [G1 G2]. split; [done|]. eapply Forall_impl; [exact G2|]. intros y. apply H2. }
    intros n0 k0 x0 c cs. rewrite H1. case_decide as D; [|intros Hx Hk; by eapply Hc, F3].
    injection D as -> -> ->. intros [= <-] Hk. apply Hc. by apply H4.
Qed.
Lemma add_constraint_fits d d' n k e :
  in_table n k (add_constraint e) d = (d', Ok ()) ->
  (forall cs, key_columns e = Some cs -> name_free d n (constraint_name e) /\ columns_exist d n k cs) ->
  (forall p y q, e = CPrimaryKey p -> constraint_at d n k y <> Some (CPrimaryKey q)) ->
  keys_fit d -> keys_fit d'.
Proof.
  intros H. apply in_table_ok in H as (sc & tb & tb' & Hsc & Htb & Hk & ->). apply add_constraint_inv in Hk as [Hk ->].
  assert (Hr : relation_at d n k = Some (RTable tb)) by (by rewrite (relation_at_lookup _ _ _ _ Hsc)).
  apply (keys_fit_constraint d _ n k (constraint_name e) e).
  - intros n' k' x'. unfold constraint_at. rewrite relation_at_set by done. destruct (decide ((n', k') = (n, k))) as [D|D].
    + injection D as -> ->. cbn [set_constraints tb_constraints]. rewrite Hr. destruct (decide (constraint_name e = x')) as [<-|D'].
      * by rewrite lookup_insert, decide_True.
      * rewrite lookup_insert_ne by done. by rewrite decide_False by congruence.
    + by rewrite (decide_False (P := (n', k', x') = _)) by congruence.
  - intros n' k' x'. unfold column_at. rewrite relation_at_set by done. case_decide as D; [|done]. injection D as -> ->. by rewrite Hr.
  - intros n' k'. rewrite relation_at_set by done. case_decide as D; [|done]. injection D as -> ->. congruence.
Qed.
Lemma new_relation_fits d d' n k r :
  relation_at d n k = None -> name_free d n k ->
  (forall n' k', relation_at d' n' k' = if decide ((n', k') = (n, k)) then Some r else relation_at d n' k') ->
  (forall tb, r = RTable tb -> tb_constraints tb = ∅) -> keys_fit d -> keys_fit d'.
Proof.
  intros H1 H2 H3 H4. apply keys_fit_more.
  - intros n' k' x. unfold constraint_at. rewrite H3. case_decide as D; [|done]. injection D as -> ->. rewrite H1.
    destruct r as [tb| | |]; try done. by rewrite (H4 _ eq_refl), lookup_empty.
  - intros n' k' x. unfold column_at. rewrite H3. case_decide as D; [|done]. injection D as -> ->. rewrite H1. by intros [? ?].
  - intros n' k' Hn Hf. rewrite H3. case_decide as D; [|done]. by injection D as -> ->.
Qed.
Lemma step_fits s t c d d' : added s t c -> accepted c d -> apply c d = (d', Ok ()) -> keys_fit d -> keys_fit d'.
Proof.
  intros Hc Hac Ha. destruct c; try done; cbn [accepted] in Hac; cbn [apply] in Ha.
  - by apply (add_constraint_fits _ _ _ _ _ Ha).
  - apply in_table_ok in Ha as (sc & tb & tb' & Hsc & Htb & Hk & ->). apply add_column_inv in Hk as [Hk ->].
    pose proof (eq_trans (relation_at_lookup _ _ _ _ Hsc) Htb) as Hr.
    apply keys_fit_more.
    + intros n k x. unfold constraint_at. rewrite relation_at_set by done. case_decide as D; [|done]. injection D as -> ->. by rewrite Hr.
    + intros n k x. unfold column_at. rewrite relation_at_set by done. case_decide as D; [|done]. injection D as -> ->. rewrite Hr.
      cbn [set_columns tb_columns]. intros [c Hx]. exists c. by rewrite find_column_app, Hx.
    + intros n k Hn _. rewrite relation_at_set by done. case_decide as D; [|done]. injection D as -> ->. congruence.
  - by apply (add_constraint_fits _ _ _ _ _ Ha).
  - destruct Hac as (G1 & G2 & G3). apply (add_constraint_fits _ _ _ _ _ Ha).
    + by intros cs [= <-].
    + intros p y q _. apply G3.
  - destruct Hac as (G1 & G2). apply (add_constraint_fits _ _ _ _ _ Ha); [|done]. by intros cs [= <-].
  - apply with_schema_mut_ok in Ha as (sc & sc' & Hsc & Hr & ->). apply create_index_inv in Hr as (tb & _ & Hk & ->).
    eapply new_relation_fits; [exact (proj1 Hac)|exact Hac|intros n' k'; by apply relation_at_set|done].
  - unfold add_schema, has_schema in Ha. cbn in Ha. destruct (db_schemas d !! schema_name) eqn:E; [done|]. injection Ha as <-.
    assert (K : forall n k, relation_at (Database (<[schema_name := schema_new schema_name]> (db_schemas d))) n k = relation_at d n k).
    { intros n k. unfold relation_at. cbn. destruct (decide (schema_name = n)) as [<-|Hn].
      - rewrite lookup_insert, E. cbn. by rewrite lookup_empty.
      - by rewrite lookup_insert_ne. }
    apply keys_fit_more.
    + intros n k x. unfold constraint_at. by rewrite K.
    + intros n k x. unfold column_at. by rewrite K.
    + intros n k. by rewrite K.
  - destruct Hac as [Hac _].
    apply with_schema_mut_ok in Ha as (sc & sc' & Hsc & Hr & ->). apply add_relation_inv in Hr as [Hk ->].
    eapply new_relation_fits; [exact (proj1 Hac)|exact Hac|intros n' k'; by apply relation_at_set|done].
  - apply with_schema_mut_ok in Ha as (sc & sc' & Hsc & Hr & ->). apply create_table_inv in Hr as (tb & Hm & _ & Hk & ->).
    eapply new_relation_fits; [exact (proj1 Hac)|exact Hac|intros n' k'; by apply relation_at_set|].
    intros tb' [= <-]. by destruct (mfor_add_column_names _ _ _ _ _ _ Hm) as (_ & _ & ->).
  - apply with_schema_mut_ok in Ha as (sc & sc' & Hsc & Hr & ->). apply add_relation_inv in Hr as [Hk ->].
    eapply new_relation_fits; [exact (proj1 Hac)|exact Hac|intros n' k'; by apply relation_at_set|done].
Qed.
Lemma run_fits s t cs d d' : Forall (added s t) cs -> acceptable d cs -> apply_all cs d = (d', Ok ()) -> keys_fit d -> keys_fit d'.
Proof.
  intros Hc. revert d. induction Hc as [|c cs Hc _ IH]; intros d Hac Ha Hk.
  - by injection Ha as <-.
  - rewrite apply_all_cons in Ha. destruct (apply c d) as [d1 [[]|e]] eqn:Ea; [|done]. destruct Hac as [G1 G2].
    apply (IH d1); [by apply G2|done|]. by apply (step_fits s t c d).
Qed.
Lemma keys_fit_equiv a b : wf_db a -> db_equiv a b -> keys_fit a -> keys_fit b.
Proof.
  intros Hwf He (F1 & F2 & F3).
  assert (E : forall n k x, constraint_at b n k x = constraint_at a n k x) by (intros; symmetry; by apply constraint_at_equiv).
  split_and!.
  - intros n k x c. rewrite E. intros Hx Hk. destruct (F1 _ _ _ _ Hx Hk) as [G1 G2]. split.
    + pose proof (option_Forall2_relation _ _ n x He) as Hf. rewrite G1 in Hf. by inversion Hf.
    + intros k' c'. rewrite E. apply G2.
  - intros n k x y p q. rewrite !E. apply F2.
  - intros n k x c cs. rewrite E. intros Hx Hk. destruct (F3 _ _ _ _ _ Hx Hk) as [G1 G2]. split; [done|].
    eapply Forall_impl; [exact G2|]. intros y [col Hc]. exists col. by apply (column_at_equiv a b).
Qed.
(** The part of [accepted] that does not depend on the snapshot. *)
Definition valid_new (c : change) : Prop :=
  match c with
  | CreateSchema n => starts_with (L "pg_") n = false
  | CreateSequence _ _ ty inc mn mx st ca cy =>
      exists q, sequence_meant ty inc mn mx st ca cy = Some q /\ valid_sequence q = true
  | _ => True
  end.
Lemma acceptable_valid cs d d' : acceptable d cs -> apply_all cs d = (d', Ok ()) -> Forall valid_new cs.
Proof.
  revert d. induction cs as [|c cs IH]; intros d Hac Ha; [constructor|]. rewrite apply_all_cons in Ha.
  destruct (apply c d) as [d1 [[]|e]] eqn:Ea; [|done]. destruct Hac as [G1 G2]. constructor; [|by apply (IH d1); [apply G2|]].
  destruct c; try done. by destruct G1.
Qed.
Lemma valid_diff os ot s t : wf_db s -> wf_db t -> Forall valid_new (compare_diff os ot s t) -> new_valid s t.
Proof.
  intros Hs Ht H. apply (diff_forall _ os ot s t Hs Ht) in H as (H1 & H2 & _). split.
  - intros n Hn [sc Hsc]. specialize (H1 n). rewrite Hn, Hsc in H1. cbn [schema_part] in H1.
    apply Forall_cons in H1 as [H1 _]. destruct (Ht _ _ Hsc) as [E _]. rewrite <- E. exact H1.
  - intros n k q Hn Hq. specialize (H2 n k). rewrite Hn, Hq in H2. cbn [relation_part diff_relation_create] in H2.
    apply Forall_cons in H2 as [H2 _]. exact H2.
Qed.

(** ** Altogether *)
Section altogether.
  Context (os ot : iter_order) (s t : database) (sv : server).
  Hypothesis Hs : wf_db s.
  Hypothesis Ht : wf_db t.
  Hypothesis Ps : spelled_db s.
  Hypothesis Pt : spelled_db t.
  Hypothesis Hd : described s sv.
  Hypothesis Had : only_adds s t.
  Hypothesis Hn : new_sayable s t.
  Hypothesis Hix : indexes_safe s t.
  Hypothesis Hq : new_sequences_unowned s t.

  Lemma adds_run : apply_all (compare_diff os ot s t) s = (expected_db s t, Ok ()) /\ db_equiv (expected_db s t) t.
  Proof.
    split; [exact (steps_apply_all _ _ _ _ (diff_exact os ot s t Hs Ht Hix))|].
    apply expected_equiv_iff; [done|done|]. split; [|done]. intros n k a b H1 H2 _. destruct Had as (_ & _ & A3 & _).
    destruct (A3 _ _ _ H1) as [[? ?]|H]; [done|congruence].
  Qed.
  Lemma adds_carried_out : keys_fit t -> new_valid s t ->
    exists sv', runs obey (render_sql <$> compare_diff os ot s t) sv sv' /\ (described t sv' <-> nulls_kept s t).
  Proof.
    intros Hk Hv. destruct adds_run as [Ha He].
    apply (diff_migrates os ot s t sv (expected_db s t)); [done..| |].
    - apply (adds_faithful s t); [done|by apply diff_added].
    - by apply (adds_accepted os ot s t (expected_db s t)).
  Qed.
  Lemma adds_iff : keys_fit s ->
    ((exists sv', runs obey (render_sql <$> compare_diff os ot s t) sv sv') <-> keys_fit t /\ new_valid s t).
  Proof.
    intros Hk. destruct adds_run as [Ha He]. split.
    - intros Hr. pose proof (diff_added s t Hs Ht Had os ot) as Hall.
      apply (accepted_but_null _ s sv (expected_db s t)) in Hr; [|by apply SpelledLemmas.diff_spelled|done|done|done|by apply (adds_faithful s t)].
      split; [|apply (valid_diff os ot s t Hs Ht); by apply (acceptable_valid _ s (expected_db s t))].
      apply (keys_fit_equiv (expected_db s t)); [by apply (DiffRollback.apply_all_wf (compare_diff os ot s t) s)|done|].
      by apply (run_fits s t (compare_diff os ot s t) s).
    - intros [G1 G2]. destruct (adds_carried_out G1 G2) as (sv' & Hr & _). by exists sv'.
  Qed.
End altogether.
