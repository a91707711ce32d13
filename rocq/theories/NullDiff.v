(** What the statements for the differences between two snapshots make of NOT NULL. *)
From Verif Require Import Base Text Types Changes SpecSnapshot SpecDiff Diff SpecSql SpecLex SpecStatement SpecServer SpecSpelled SpecNull Sql SpecDb
  StepLemmas ColumnLemmas DiffRollback InvertLemmas DiffSound DiffSame DiffLocal SayLemmas ServerLemmas SpelledLemmas ObeyLemmas NullLemmas.

(** ** The changes that set one column *)
Definition sets (n k x : str) (c : change) : option bool :=
  match c with
  | CreateTable s t _ => if decide ((n, k) = (s, t)) then Some false else None
  | AddColumn s t y _ nn _ => if decide ((n, k, x) = (s, t, y)) then Some (negb nn) else None
  | AlterColumnSetNotNull s t y b => if decide ((n, k, x) = (s, t, y)) then Some b else None
  | AddPrimaryKey s t _ cs _ _ => if decide ((n, k) = (s, t) /\ x ∈ cs) then Some true else None
  | _ => None
  end.
Definition renames (c : change) : Prop := match c with RenameColumn _ _ _ _ => True | _ => False end.
Lemma null_step_sets c N n k x : ~ renames c -> null_step c N n k x = default (N n k x) (sets n k x c).
Proof. intros H. destruct c; cbn; try done; try (by case_decide). Qed.
Lemma null_after_sets cs N n k x :
  Forall (fun c => ~ renames c) cs -> null_after cs N n k x = List.last (omap (sets n k x) cs) (N n k x).
Proof.
  revert N. induction cs as [|c cs IH]; intros N H; [done|]. apply Forall_cons in H as [H1 H2]. cbn [null_after].
  rewrite (IH _ H2), (null_step_sets c N n k x H1). cbn. destruct (sets n k x c) as [b|]; [|done]. cbn.
  clear. destruct (omap (sets n k x) cs) as [|e l]; [done|]. 
  assert (Hl : forall v w, List.last (e :: l) v = List.last (e :: l) w).
  { revert e. induction l as [|f l IH]; intros e v w; [done|]. cbn in *. apply (IH f). }
  apply Hl.
Qed.
Lemma omap_none {A B : Type} (f : A -> option B) l : Forall (fun a => f a = None) l -> omap f l = [].
Proof. induction 1 as [|a l H _ IH]; [done|]. cbn. by rewrite H. Qed.
Lemma omap_app {A B : Type} (f : A -> option B) l l' : omap f (l ++ l') = omap f l ++ omap f l'.
Proof. induction l as [|a l IH]; [done|]. cbn. destruct (f a); cbn; by rewrite IH. Qed.
Lemma omap_bind_none {A B C : Type} (f : B -> option C) (g : A -> list B) l :
  (forall a, a ∈ l -> omap f (g a) = []) -> omap f (l ≫= g) = [].
Proof.
  induction l as [|a l IH]; intros H; [done|]. rewrite bind_cons, omap_app, (H a) by (by left).
  apply IH. intros b Hb. apply H. by right.
Qed.
Lemma omap_bind_one {A B C : Type} (f : B -> option C) (g : A -> list B) (name : A -> str) l a :
  NoDup (name <$> l) -> a ∈ l -> (forall b, b ∈ l -> name b <> name a -> omap f (g b) = []) ->
  omap f (l ≫= g) = omap f (g a).
Proof.
  intros Hnd Hin H. apply elem_of_list_split in Hin as (l1 & l2 & ->).
  rewrite bind_app, bind_cons, !omap_app. rewrite fmap_app in Hnd. cbn in Hnd.
  apply NoDup_app in Hnd as (_ & Hd & Hnd). apply NoDup_cons in Hnd as [Hn _].
  rewrite (omap_bind_none _ g l1), (omap_bind_none _ g l2); [by rewrite app_nil_r| |].
  - intros b Hb. apply H; [apply elem_of_app; right; by right|]. intros E. apply Hn. rewrite <- E. by apply elem_of_list_fmap_1.
  - intros b Hb. apply H; [apply elem_of_app; by left|]. intros E. apply (Hd (name b)); [by apply elem_of_list_fmap_1|].
    rewrite E. by left.
Qed.

(** ** The parts of a diff *)
Definition on_table (n k : str) (c : change) : Prop :=
  match c with
  | CreateTable s t _ | AddColumn s t _ _ _ _ | AlterColumnSetNotNull s t _ _ | AddPrimaryKey s t _ _ _ _
  | AddUnique s t _ _ _ _ | AddCheck s t _ _ _ _ | AddForeignKey s t _ _ _ _ _ _ _ _ _ _ => (s, t) = (n, k)
  | RenameColumn _ _ _ _ => False
  | _ => True
  end.
(** The changes to the columns and keys of one table. *)
Definition touches (n k : str) (c : change) : Prop :=
  match c with
  | CreateTable s t _ | AddColumn s t _ _ _ _ | AlterColumnSetNotNull s t _ _ | AddPrimaryKey s t _ _ _ _
  | AddUnique s t _ _ _ _ | AddCheck s t _ _ _ _ | AddForeignKey s t _ _ _ _ _ _ _ _ _ _ => (s, t) = (n, k)
  | _ => False
  end.
Lemma constraint_part_on n k x a b :
  (forall c, a = Some c -> wf_constraint n k x c) -> (forall c, b = Some c -> wf_constraint n k x c) ->
  Forall (on_table n k) (constraint_part a b).
Proof.
  intros Ha Hb.
  assert (Hc : forall c, wf_constraint n k x c -> Forall (on_table n k) (diff_constraint_create c)).
  { intros c (E1 & E2 & _). destruct c; apply Forall_singleton; cbn in *; congruence || done. }
  assert (Hd : forall c, wf_constraint n k x c -> Forall (on_table n k) (diff_constraint_drop c)).
  { intros c _. destruct c; by apply Forall_singleton. }
  destruct a as [a|], b as [b|]; cbn [constraint_part]; [|by apply Hd; eauto|by apply Hc; eauto|constructor].
  rewrite (constraint_update_cases n k x a b) by eauto. repeat case_decide; [constructor| |].
  - destruct b; by apply Forall_singleton.
  - apply Forall_app. split; eauto.
Qed.
Lemma relation_create_on ot n k r : wf_relation n k r -> Forall (on_table n k) (diff_relation_create ot r).
Proof.
  destruct r as [b|v|i|q]; intros Hw; [|by apply Forall_singleton..]. cbn [diff_relation_create].
  apply (table_create_forall (on_table n k) ot n k b Hw). pose proof Hw as (E1 & E2 & _ & _ & Hc). split; [cbn; congruence|].
  intros x. apply (constraint_part_on n k x); [done|]. intros c Hx. by apply Hc.
Qed.
Lemma relation_drop_on n k r : Forall (on_table n k) (diff_relation_drop r).
Proof. by destruct r; apply Forall_singleton. Qed.
Lemma relation_update_on os ot n k r r' :
  wf_relation n k r -> wf_relation n k r' -> Forall (on_table n k) (diff_relation_update os ot r r').
Proof.
  intros Ha Hb. pose proof (relation_create_on ot n k r' Hb) as Hc. pose proof (relation_drop_on n k r) as Hd.
  assert (Hdc : Forall (on_table n k) (diff_relation_drop r ++ diff_relation_create ot r')) by (by apply Forall_app).
  destruct r as [a|v|i|q], r' as [b|v'|i'|q']; cbn [diff_relation_update]; try exact Hdc.
  - apply (table_update_forall (on_table n k) os ot n k a b Ha Hb).
    pose proof Ha as (_ & _ & _ & _ & Ca). pose proof Hb as (_ & _ & _ & Cols & Cb). rewrite Forall_forall in Cols. split_and!.
    + intros c Hin. destruct (Cols c Hin) as [E1 E2]. unfold diff_table_column, diff_column_update, diff_column_create.
      destruct (find_column _ _).
      * repeat destruct (neqb _ _); repeat constructor; cbn; congruence.
      * apply Forall_singleton. cbn. congruence.
    + intros c _. unfold diff_table_column_drop. destruct (has_column _ _); [constructor|]. by apply Forall_singleton.
    + intros x. apply (constraint_part_on n k x); intros c Hx; [by apply Ca|by apply Cb].
  - unfold diff_view_update. destruct (neqb _ _); [exact Hdc|constructor].
  - unfold diff_index_update. destruct (neqb _ _); [exact Hdc|constructor].
  - unfold diff_sequence_update. destruct (_ || _); [exact Hdc|constructor].
Qed.
Lemma diff_no_renames os ot s t : wf_db s -> wf_db t -> Forall (fun c => ~ renames c) (compare_diff os ot s t).
Proof.
  intros Hs Ht.
  assert (H : forall n k l, Forall (on_table n k) l -> Forall (fun c => ~ renames c) l).
  { intros n k l Hl. eapply Forall_impl; [exact Hl|]. intros c Hc Hr. by destruct c. }
  apply (diff_forall _ os ot s t Hs Ht). split_and!.
  - intros n. destruct (db_schemas s !! n), (db_schemas t !! n); cbn [schema_part]; repeat constructor; by intros [].
  - intros n k. apply (H n k). destruct (relation_at s n k) as [a|] eqn:Ea, (relation_at t n k) as [b|] eqn:Eb; cbn [relation_part].
    + apply relation_update_on; [by eapply (relation_at_wf s)|by eapply (relation_at_wf t)].
    + apply relation_drop_on.
    + apply relation_create_on. by eapply (relation_at_wf t).
    + constructor.
  - intros n k. destruct (function_at s n k) as [a|], (function_at t n k) as [b|]; cbn [function_part];
      [|repeat constructor; by intros []|repeat constructor; by intros []|constructor].
    unfold diff_function_update. destruct (_ || _); repeat constructor; by intros [].
Qed.

(** Only the part for one table touches its columns. *)
Section part.
  Context {B : Type} (os ot : iter_order) (s t : database) (Hs : wf_db s) (Ht : wf_db t).
  Context (n k : str) (f : change -> option B) (Hf : forall c, is_Some (f c) -> touches n k c).

  Lemma untouched l : Forall (fun c => ~ touches n k c) l -> omap f l = [].
  Proof.
    intros H. apply omap_none. eapply Forall_impl; [exact H|]. intros c K. destruct (f c) as [b|] eqn:E; [|done].
    exfalso. apply K, Hf. by rewrite E.
  Qed.
  Lemma on_table_sets n' k' l : (n', k') <> (n, k) -> Forall (on_table n' k') l -> omap f l = [].
  Proof.
    intros Hne H. apply untouched. eapply Forall_impl; [exact H|]. intros c K1 K2.
    destruct c; cbn in *; try done; congruence.
  Qed.
  Lemma function_create_none (g : function) : omap f (diff_function_create g) = [].
  Proof. apply untouched. by repeat constructor; intros []. Qed.
  Lemma function_drop_none (g : function) : omap f (diff_function_drop g) = [].
  Proof. apply untouched. by repeat constructor; intros []. Qed.
  Lemma function_update_none (g h : function) : omap f (diff_function_update g h) = [].
  Proof. apply untouched. unfold diff_function_update. destruct (_ || _); repeat constructor; by intros []. Qed.
  Lemma relation_drop_none r : omap f (diff_relation_drop r) = [].
  Proof. apply untouched. destruct r; repeat constructor; by intros []. Qed.
  Lemma create_schema_none sc l : omap f (new_create_schema sc :: l) = omap f l.
  Proof.
    change (new_create_schema sc :: l) with ([new_create_schema sc] ++ l). rewrite omap_app, untouched; [done|].
    repeat constructor. by intros [].
  Qed.
  Lemma drop_schema_none sc : omap f [new_drop_schema sc] = [].
  Proof. apply untouched. repeat constructor. by intros []. Qed.

  Lemma schema_create_other n' sc : wf_schema n' sc -> n' <> n -> omap f (diff_schema_create ot sc) = [].
  Proof.
    intros (E & Hr & _) Hn. unfold diff_schema_create. rewrite create_schema_none, omap_app.
    rewrite !omap_bind_none; [done| |].
    - intros g _. apply function_create_none.
    - intros r Hin. apply (iter_elem _ _ _ (io_relations_perm _ _ _) (wf_relations_named _ _ Hr)) in Hin.
      apply (on_table_sets n' (relation_name r)); [congruence|]. apply relation_create_on. by apply Hr.
  Qed.
  Lemma schema_drop_none sc : omap f (diff_schema_drop os sc) = [].
  Proof.
    unfold diff_schema_drop. rewrite !omap_app, drop_schema_none, !omap_bind_none; [done| |].
    - intros g _. apply function_drop_none.
    - intros r _. apply relation_drop_none.
  Qed.
  Lemma schema_update_other n' a b :
    wf_schema n' a -> wf_schema n' b -> n' <> n -> omap f (diff_schema_update os ot a b) = [].
  Proof.
    intros (E & Ha & _) (E' & Hb & _) Hn. unfold diff_schema_update. rewrite !omap_app, !omap_bind_none; [done| | | |].
    - intros g _. unfold diff_schema_function_old. destruct (_ !! _); [apply function_update_none|apply function_drop_none].
    - intros g _. unfold diff_schema_function_new. destruct (has_function _ _); [done|apply function_create_none].
    - intros r Hin. apply (iter_elem _ _ _ (io_relations_perm _ _ _) (wf_relations_named _ _ Ha)) in Hin.
      unfold diff_schema_relation_old. destruct (sc_relations b !! relation_name r) as [r'|] eqn:Eb; [|apply relation_drop_none].
      apply (on_table_sets n' (relation_name r)); [congruence|]. apply relation_update_on; [by apply Ha|by apply Hb].
    - intros r Hin. apply (iter_elem _ _ _ (io_relations_perm _ _ _) (wf_relations_named _ _ Hb)) in Hin.
      unfold diff_schema_relation_new. destruct (has_relation _ _); [done|].
      apply (on_table_sets n' (relation_name r)); [congruence|]. apply relation_create_on. by apply Hb.
  Qed.
  Lemma diff_touches r : relation_at t n k = Some r ->
    omap f (compare_diff os ot s t) = omap f (relation_part os ot (relation_at s n k) (Some r)).
  Proof.
    intros Hr. unfold relation_at in *. destruct (db_schemas t !! n) as [sb|] eqn:Eb; [|done]. cbn in Hr.
    destruct (Ht _ _ Eb) as (Nb & Rb & _). pose proof (wf_relations_named _ _ Rb _ _ Hr) as Nr.
    assert (Inb : sb ∈ iter_schemas ot t).
    { apply (iter_elem _ _ _ (io_schemas_perm _ _) (wf_schemas_named _ Ht)). by rewrite Nb. }
    assert (Inr : r ∈ iter_relations ot sb).
    { apply (iter_elem _ _ _ (io_relations_perm _ _ _) (wf_relations_named _ _ Rb)). by rewrite Nr. }
    unfold compare_diff, diff_database_update. rewrite omap_app.
    rewrite (omap_bind_one _ _ sc_name _ sb); [|by apply (iter_nodup _ _ _ (io_schemas_perm _ _) (wf_schemas_named _ Ht))|done|].
    2:{ intros sc Hin Hn. apply (iter_elem _ _ _ (io_schemas_perm _ _) (wf_schemas_named _ Ht)) in Hin.
        unfold diff_database_new. destruct (has_schema _ _); [done|].
        apply (schema_create_other (sc_name sc)); [by apply Ht|congruence]. }
    unfold diff_database_new, has_schema. rewrite Nb.
    assert (Hother : forall sc, sc ∈ iter_schemas os s -> sc_name sc <> n -> omap f (diff_database_old os ot t sc) = []).
    { intros sc Hin Hn. apply (iter_elem _ _ _ (io_schemas_perm _ _) (wf_schemas_named _ Hs)) in Hin.
      unfold diff_database_old. destruct (db_schemas t !! sc_name sc) as [sc'|] eqn:E; [|apply schema_drop_none].
      apply (schema_update_other (sc_name sc)); [by apply Hs|by apply Ht|done]. }
    destruct (db_schemas s !! n) as [sa|] eqn:Ea; cbn [mbind option_bind].
    - destruct (Hs _ _ Ea) as (Na & Ra & _).
      assert (Ina : sa ∈ iter_schemas os s).
      { apply (iter_elem _ _ _ (io_schemas_perm _ _) (wf_schemas_named _ Hs)). by rewrite Na. }
      cbn [app omap list_omap].
      rewrite (omap_bind_one _ _ sc_name _ sa); [|by apply (iter_nodup _ _ _ (io_schemas_perm _ _) (wf_schemas_named _ Hs))|done|].
      2:{ intros sc Hin Hn. apply Hother; [done|congruence]. }
      unfold diff_database_old. rewrite Na, Eb. unfold diff_schema_update. rewrite !omap_app.
      rewrite (omap_bind_none _ (diff_schema_function_new sa)), (omap_bind_none _ (diff_schema_function_old sb)), !app_nil_r.
      2:{ intros g _. unfold diff_schema_function_old. destruct (sc_functions sb !! fn_name g); [apply function_update_none|apply function_drop_none]. }
      2:{ intros g _. unfold diff_schema_function_new. destruct (has_function _ _); [done|apply function_create_none]. }
      rewrite (omap_bind_one _ _ relation_name _ r); [|by apply (iter_nodup _ _ _ (io_relations_perm _ _ _) (wf_relations_named _ _ Rb))|done|].
      2:{ intros r' Hin Hn. apply (iter_elem _ _ _ (io_relations_perm _ _ _) (wf_relations_named _ _ Rb)) in Hin.
          unfold diff_schema_relation_new. destruct (has_relation _ _); [done|].
          apply (on_table_sets n (relation_name r')); [congruence|]. apply relation_create_on. by apply Rb. }
      unfold diff_schema_relation_new, has_relation. rewrite Nr.
      assert (Hother2 : forall r', r' ∈ iter_relations os sa -> relation_name r' <> k -> omap f (diff_schema_relation_old os ot sb r') = []).
      { intros r' Hin Hn. apply (iter_elem _ _ _ (io_relations_perm _ _ _) (wf_relations_named _ _ Ra)) in Hin.
        unfold diff_schema_relation_old. destruct (sc_relations sb !! relation_name r') as [r2|] eqn:E; [|apply relation_drop_none].
        apply (on_table_sets n (relation_name r')); [congruence|]. apply relation_update_on; [by apply Ra|by apply Rb]. }
      destruct (sc_relations sa !! k) as [ra|] eqn:Er; cbn [relation_part].
      + pose proof (wf_relations_named _ _ Ra _ _ Er) as Nra. cbn [app omap list_omap].
        rewrite (omap_bind_one _ _ relation_name _ ra); [|by apply (iter_nodup _ _ _ (io_relations_perm _ _ _) (wf_relations_named _ _ Ra))| |].
        * unfold diff_schema_relation_old. by rewrite Nra, Hr.
        * apply (iter_elem _ _ _ (io_relations_perm _ _ _) (wf_relations_named _ _ Ra)). by rewrite Nra.
        * intros r' Hin Hn. apply Hother2; [done|congruence].
      + rewrite omap_bind_none; [by rewrite app_nil_r|]. intros r' Hin. apply Hother2; [done|].
        apply (iter_elem _ _ _ (io_relations_perm _ _ _) (wf_relations_named _ _ Ra)) in Hin. intros E. by rewrite E, Er in Hin.
    - rewrite (omap_bind_none _ (diff_database_old os ot t)); [|].
      2:{ intros sc Hin. apply Hother; [done|]. apply (iter_elem _ _ _ (io_schemas_perm _ _) (wf_schemas_named _ Hs)) in Hin.
          intros E. by rewrite E, Ea in Hin. }
      rewrite app_nil_r. unfold diff_schema_create. rewrite create_schema_none, omap_app.
      rewrite (omap_bind_none _ diff_function_create) by (intros; apply function_create_none). rewrite app_nil_r.
      cbn [relation_part].
      apply (omap_bind_one _ _ relation_name); [by apply (iter_nodup _ _ _ (io_relations_perm _ _ _) (wf_relations_named _ _ Rb))|done|].
      intros r' Hin Hn. apply (iter_elem _ _ _ (io_relations_perm _ _ _) (wf_relations_named _ _ Rb)) in Hin.
      apply (on_table_sets n (relation_name r')); [congruence|]. apply relation_create_on. by apply Rb.
  Qed.
End part.

Lemma diff_sets os ot s t : wf_db s -> wf_db t -> forall n k x r, relation_at t n k = Some r ->
  omap (sets n k x) (compare_diff os ot s t) = omap (sets n k x) (relation_part os ot (relation_at s n k) (Some r)).
Proof.
  intros Hs Ht n k x r Hr. apply (diff_touches os ot s t Hs Ht n k (sets n k x)); [|done].
  intros c [b Hb]. destruct c; cbn in *; try done; case_decide as E; try done; first [congruence|destruct E; congruence].
Qed.

(** ** One table *)
Lemma last_trues (l l' : list bool) v : Forall (eq true) l' ->
  List.last (l ++ l') v = match l' with [] => List.last l v | _ => true end.
Proof.
  intros H. destruct l' as [|b l'] using rev_ind; [by rewrite app_nil_r|]. apply Forall_app in H as [_ H]. rewrite Forall_singleton in H.
  assert (b = true) as -> by (by destruct H).
  rewrite app_assoc, List.last_last. by destruct l'.
Qed.
Lemma constraint_sets n k x y a b :
  wf_constraint n k y b -> (forall c, a = Some c -> wf_constraint n k y c) ->
  omap (sets n k x) (constraint_part a (Some b)) =
    match b with
    | CPrimaryKey p => if decide (x ∈ pk_columns p /\ undeferred <$> a <> Some (undeferred b)) then [true] else []
    | _ => []
    end.
Proof.
  intros Hb Ha.
  assert (Hc : omap (sets n k x) (diff_constraint_create b) =
    match b with CPrimaryKey p => if decide (x ∈ pk_columns p) then [true] else [] | _ => [] end).
  { destruct Hb as (E1 & E2 & _). destruct b as [p| | |]; try done. cbn in *. rewrite E1, E2.
    repeat case_decide; try done; tauto. }
  destruct a as [a|]; cbn [constraint_part].
  - rewrite (constraint_update_cases n k y a b) by eauto. case_decide as D1; [|case_decide as D2].
    + subst. destruct b; try done. rewrite decide_False; [done|]. by intros [_ K].
    + destruct b; try done. rewrite decide_False; [done|]. intros [_ K]. apply K. cbn. by rewrite D2.
    + rewrite omap_app, Hc. replace (omap (sets n k x) (diff_constraint_drop a)) with (@nil bool) by (by destruct a).
      destruct b as [p| | |]; try done. cbn [app].
      destruct (decide (x ∈ pk_columns p)) as [K|K]; [rewrite decide_True; [done|]|rewrite decide_False; [done|tauto]].
      split; [done|]. cbn. intros [= E]. by apply D2.
  - rewrite Hc. destruct b as [p| | |]; try done.
    destruct (decide (x ∈ pk_columns p)) as [K|K]; [by rewrite decide_True|rewrite decide_False; [done|tauto]].
Qed.
Definition key_in (x : str) (old : gmap str constraint) (new : gmap str constraint) : Prop :=
  exists c p, new !! c = Some (CPrimaryKey p) /\ x ∈ pk_columns p /\ undeferred <$> old !! c <> Some (undeferred (CPrimaryKey p)).
(** Constraints that are visited set the columns of the added primary keys. *)
Lemma constraints_set (n k x : str) (old : gmap str constraint) b (g : constraint -> list change) (ot : iter_order) :
  wf_table n k b -> map_Forall (wf_constraint n k) old ->
  (forall c, tb_constraints b !! constraint_name c = Some c -> g c = constraint_part (old !! constraint_name c) (Some c)) ->
  Forall (eq true) (omap (sets n k x) (iter_constraints ot b ≫= g)) /\
  (omap (sets n k x) (iter_constraints ot b ≫= g) <> [] <-> key_in x old (tb_constraints b)).
Proof.
  intros (_ & _ & _ & _ & Hb) Ho Hg.
  assert (Hin : forall c, c ∈ iter_constraints ot b <-> tb_constraints b !! constraint_name c = Some c).
  { intros c. apply (iter_elem _ _ _ (io_constraints_perm _ _ _ _) (wf_constraints_named _ _ _ Hb)). }
  assert (Hs : forall c, c ∈ iter_constraints ot b -> omap (sets n k x) (g c) =
    match c with
    | CPrimaryKey p => if decide (x ∈ pk_columns p /\ undeferred <$> old !! constraint_name c <> Some (undeferred c)) then [true] else []
    | _ => []
    end).
  { intros c Hc. apply Hin in Hc. rewrite (Hg c Hc). apply (constraint_sets n k x (constraint_name c)); [by apply Hb|].
    intros c' Hc'. by apply Ho. }
  split.
  - clear Hin. induction (iter_constraints ot b) as [|c l IH]; [constructor|]. rewrite bind_cons, omap_app. apply Forall_app. split.
    + rewrite Hs by (by left). destruct c; try constructor. case_decide; repeat constructor.
    + apply IH. intros c' Hc'. apply Hs. by right.
  - split.
    + intros Hne.
      assert (Hex : exists c, c ∈ iter_constraints ot b /\ omap (sets n k x) (g c) <> []).
      { clear -Hne. induction (iter_constraints ot b) as [|c l IH]; [done|]. rewrite bind_cons, omap_app in Hne.
        destruct (omap (sets n k x) (g c)) eqn:E.
        - destruct IH as (c' & ? & ?); [done|]. exists c'. split; [by right|done].
        - exists c. split; [by left|by rewrite E]. }
      destruct Hex as (c & Hc & Hx). rewrite Hs in Hx by done. apply Hin in Hc. destruct c as [p| | |]; try done.
      case_decide as K; [|done]. destruct K as [K1 K2]. exists (constraint_name (CPrimaryKey p)), p. done.
    + intros (c & p & Hc & Hx & Hu) E.
      assert (constraint_name (CPrimaryKey p) = c) as En by exact (wf_constraints_named _ _ _ Hb _ _ Hc). rewrite <- En in Hc, Hu.
      apply Hin in Hc. pose proof (Hs _ Hc) as K. cbv beta iota in K. rewrite decide_True in K by done.
      assert (Hin' : true ∈ omap (sets n k x) (iter_constraints ot b ≫= g)).
      { apply elem_of_list_split in Hc as (l1 & l2 & ->). rewrite bind_app, bind_cons, !omap_app, K.
        apply elem_of_app. right. by left. }
      rewrite E in Hin'. by apply elem_of_nil in Hin'.
Qed.

Lemma columns_set n k x a b col :
  wf_table n k b -> find_column x (tb_columns b) = Some col ->
  omap (sets n k x) (tb_columns b ≫= diff_table_column a) =
    match find_column x (tb_columns a) with
    | Some o => if neqb (col_notnull o) (col_notnull col) then [col_notnull col] else []
    | None => [negb (col_notnull col)]
    end.
Proof.
  intros (_ & _ & Hnd & Hw & _) Hc. apply find_column_Some in Hc as [Hin Hn]. rewrite Forall_forall in Hw.
  rewrite (omap_bind_one _ _ col_name _ col Hnd Hin).
  - destruct (Hw _ Hin) as [E1 E2]. unfold diff_table_column. rewrite Hn. destruct (find_column x (tb_columns a)) as [o|].
    + unfold diff_column_update. rewrite !omap_app. destruct (neqb (col_type o) _), (neqb (col_default o) _), (neqb (col_notnull o) _);
        cbn; rewrite ?E1, ?E2, ?Hn, ?decide_True by done; done.
    + cbn. rewrite E1, E2, Hn. by rewrite decide_True.
  - intros c Hc Hne. destruct (Hw _ Hc) as [E1 E2]. apply omap_none.
    assert (Hd : (n, k, x) <> (n, k, col_name c)) by congruence.
    unfold diff_table_column. destruct (find_column _ _) as [o|].
    + unfold diff_column_update. destruct (neqb (col_type o) _), (neqb (col_default o) _), (neqb (col_notnull o) _);
        repeat constructor; cbn; rewrite ?E1, ?E2; by rewrite decide_False.
    + apply Forall_singleton. cbn. rewrite E1, E2. by rewrite decide_False.
Qed.

Lemma key_added_in s t n k x a b :
  relation_at t n k = Some (RTable b) ->
  (forall c, constraint_at s n k c = a !! c) -> (key_added s t n k x <-> key_in x a (tb_constraints b)).
Proof.
  intros Hb Ha. unfold key_added, key_in, constraint_at at 1. rewrite Hb.
  split; intros (c & p & H1 & H2 & H3); exists c, p; (split_and!; [done|done|]); first [by rewrite Ha|by rewrite <- Ha].
Qed.

Lemma key_added_dec (ot : iter_order) s t n k x : wf_db s -> wf_db t -> key_added s t n k x \/ ~ key_added s t n k x.
Proof.
  intros Hs Ht. destruct (relation_at t n k) as [[b| | |]|] eqn:Eb;
    [|right; intros (c & p & K & _); unfold constraint_at in K; by rewrite Eb in K..].
  destruct (relation_at_wf _ _ _ _ Ht Eb) as [_ Wb]. cbn in Wb.
  set (old := match relation_at s n k with Some (RTable a) => tb_constraints a | _ => ∅ end).
  assert (Hold : forall c, constraint_at s n k c = old !! c).
  { intros c. unfold constraint_at, old. destruct (relation_at s n k) as [[a| | |]|]; by rewrite ?lookup_empty. }
  assert (Ho : map_Forall (wf_constraint n k) old).
  { unfold old. destruct (relation_at s n k) as [[a| | |]|] eqn:Ea; try done.
    destruct (relation_at_wf _ _ _ _ Hs Ea) as [_ (_ & _ & _ & _ & Ca)]. exact Ca. }
  destruct (constraints_set n k x old b (fun c => constraint_part (old !! constraint_name c) (Some c)) ot Wb Ho) as [_ G]; [done|].
  rewrite (key_added_in s t n k x old b Eb Hold), <- G.
  destruct (omap _ _); [right; by intros K|by left].
Qed.

(** ** The whole diff *)
Lemma last_keys (P : Prop) (l l' : list bool) v :
  Forall (eq true) l' -> (l' <> [] <-> P) ->
  (P -> List.last (l ++ l') v = true) /\ (~ P -> List.last (l ++ l') v = List.last l v).
Proof.
  intros H1 H2. rewrite (last_trues l l' v H1). destruct l'; [|split; [done|]; intros K; by destruct K; apply H2].
  split; [|done]. intros K. by apply H2 in K.
Qed.
Lemma diff_nulls os ot s t n k x col : wf_db s -> wf_db t -> column_at t n k x = Some col ->
  let v := null_after (compare_diff os ot s t) (not_null_in s) n k x in
  (key_added s t n k x -> v = true) /\
  (~ key_added s t n k x ->
     (is_Some (column_at s n k x) -> v = col_notnull col) /\
     (~ table_at s n k -> v = false) /\
     (table_at s n k -> column_at s n k x = None -> v = negb (col_notnull col))).
Proof.
  intros Hs Ht Hc v. unfold v. clear v. rewrite null_after_sets by (by apply diff_no_renames).
  unfold column_at in Hc at 1. destruct (relation_at t n k) as [[b| | |]|] eqn:Eb; try done.
  destruct (relation_at_wf _ _ _ _ Ht Eb) as [_ Wb]. cbn in Wb.
  rewrite (diff_sets os ot s t Hs Ht n k x (RTable b) Eb).
  assert (Hnew : ~ table_at s n k ->
    let l := omap (sets n k x) (diff_table_create ot b) in
    (key_added s t n k x -> List.last l (not_null_in s n k x) = true) /\
    (~ key_added s t n k x -> List.last l (not_null_in s n k x) = false)).
  { intros Hnt l. unfold l, diff_table_create. pose proof Wb as (E1 & E2 & _).
    assert (Hk : key_added s t n k x <-> key_in x ∅ (tb_constraints b)).
    { apply key_added_in; [done|]. intros c. rewrite lookup_empty. unfold constraint_at.
      destruct (relation_at s n k) as [[a| | |]|] eqn:Ea; try done. destruct Hnt. by exists a. }
    destruct (constraints_set n k x ∅ b diff_constraint_create ot Wb) as [G1 G2]; [done| |].
    { intros c _. by rewrite lookup_empty. }
    rewrite <- Hk in G2. cbn [omap list_omap new_create_table sets]. rewrite E1, E2, decide_True by done.
    destruct (last_keys _ [false] _ (not_null_in s n k x) G1 G2) as [F1 F2]. split; [exact F1|exact F2]. }
  assert (Hcreate : forall l, l = omap (sets n k x) (diff_table_create ot b) -> ~ table_at s n k ->
    (key_added s t n k x -> List.last l (not_null_in s n k x) = true) /\
    (~ key_added s t n k x ->
     (is_Some (column_at s n k x) -> List.last l (not_null_in s n k x) = col_notnull col) /\
     (~ table_at s n k -> List.last l (not_null_in s n k x) = false) /\
     (table_at s n k -> column_at s n k x = None -> List.last l (not_null_in s n k x) = negb (col_notnull col)))).
  { intros l -> Hnt. destruct (Hnew Hnt) as [F1 F2]. split; [exact F1|]. intros Hk. split_and!; [|by intros _; apply F2|done].
    intros [c Hx]. exfalso. apply Hnt. unfold column_at in Hx. destruct (relation_at s n k) as [[a| | |]|] eqn:Ea; try done.
    by exists a. }
  destruct (relation_at s n k) as [r|] eqn:Ea.
  2:{ apply Hcreate; [done|]. intros [a K]. congruence. }
  destruct r as [a|v|i|q].
  2-4: apply Hcreate; [done|]; intros [a K]; congruence.
  clear Hnew Hcreate. cbn [relation_part diff_relation_update].
  destruct (relation_at_wf _ _ _ _ Hs Ea) as [_ Wa]. cbn in Wa. pose proof Wa as (_ & _ & _ & _ & Ca).
  assert (Hk : key_added s t n k x <-> key_in x (tb_constraints a) (tb_constraints b)).
  { apply key_added_in; [done|]. intros c. unfold constraint_at. by rewrite Ea. }
  destruct (constraints_set n k x (tb_constraints a) b (diff_table_constraint a) ot Wb Ca) as [G1 G2].
  { intros c _. unfold diff_table_constraint. by destruct (tb_constraints a !! constraint_name c). }
  rewrite <- Hk in G2. unfold diff_table_update. rewrite !omap_app.
  rewrite (omap_bind_none _ (diff_table_column_drop b)), (omap_bind_none _ (diff_table_constraint_drop b)).
  2:{ intros c _. unfold diff_table_constraint_drop. destruct (has_constraint _ _); [done|]. by destruct c. }
  2:{ intros c _. unfold diff_table_column_drop. by destruct (has_column _ _). }
  rewrite app_nil_r. cbn [app]. rewrite (columns_set n k x a b col Wb Hc).
  destruct (last_keys _ (match find_column x (tb_columns a) with
    | Some o => if neqb (col_notnull o) (col_notnull col) then [col_notnull col] else []
    | None => [negb (col_notnull col)]
    end) _ (not_null_in s n k x) G1 G2) as [F1 F2].
  split; [exact F1|]. intros Hnk. specialize (F2 Hnk). unfold not_null_in, column_at, table_at in *. rewrite Ea in *.
  split_and!.
  - intros [o Ho]. rewrite Ho in *. rewrite F2. unfold neqb. case_bool_decide as D; [by rewrite <- D|done].
  - intros Hnt. destruct Hnt. by exists a.
  - intros _ Ho. rewrite Ho in *. exact F2.
Qed.
Lemma nulls_kept_iff os ot s t : wf_db s -> wf_db t ->
  ((forall n k x col, column_at t n k x = Some col ->
      col_notnull col = null_after (compare_diff os ot s t) (not_null_in s) n k x) <-> nulls_kept s t).
Proof.
  intros Hs Ht. split.
  - intros H n k x col Hc. specialize (H _ _ _ _ Hc). destruct (diff_nulls os ot s t n k x col Hs Ht Hc) as [K1 K2].
    rewrite <- H in K1, K2.
    destruct (column_at s n k x) as [o|] eqn:Eo; [left; split; [done|exact K1]|].
    assert (Ht' : table_at s n k \/ ~ table_at s n k).
    { unfold table_at, is_table. destruct (relation_at s n k) as [[a| | |]|]; [left; by eexists|right; by intros [? ?]..]. }
    assert (Hk : key_added s t n k x \/ ~ key_added s t n k x) by (by apply (key_added_dec ot)).
    destruct Ht' as [Hta|Hta].
    + right. right. destruct Hk as [Hk|Hk]; [by split_and!; auto|]. destruct (K2 Hk) as (_ & _ & K). specialize (K Hta eq_refl).
      by destruct (col_notnull col).
    + right. left. split; [done|]. split; [|exact K1]. intros Hn. destruct Hk as [Hk|Hk]; [done|].
      destruct (K2 Hk) as (_ & K & _). specialize (K Hta). congruence.
  - intros H n k x col Hc. destruct (diff_nulls os ot s t n k x col Hs Ht Hc) as [K1 K2].
    assert (Hk : key_added s t n k x \/ ~ key_added s t n k x) by (by apply (key_added_dec ot)).
    destruct (H _ _ _ _ Hc) as [[H1 H2]|[[H1 H2]|(H1 & H2 & H3 & H4)]].
    + destruct Hk as [Hk|Hk]; [rewrite (K1 Hk); by apply H2|]. destruct (K2 Hk) as (K & _). by rewrite (K H1).
    + destruct Hk as [Hk|Hk]; [rewrite (K1 Hk); by apply H2|]. destruct (K2 Hk) as (_ & K & _). rewrite (K H1).
      destruct (col_notnull col); [|done]. by destruct Hk; apply H2.
    + by rewrite (K1 H4).
Qed.

Lemma column_at_equiv a b n k x c : wf_db a -> db_equiv a b -> column_at a n k x = Some c -> column_at b n k x = Some c.
Proof.
  intros Hwf He Hc. unfold column_at, relation_at in *. specialize (He n). specialize (Hwf n).
  destruct (db_schemas a !! n) as [sa|]; [|done]. cbn in Hc. inversion He as [x0 y0 Hxy E1 E2|]; subst.
  cbn [mbind option_bind]. destruct Hxy as (_ & Hr & _). specialize (Hr k). destruct (Hwf _ eq_refl) as (_ & Hw & _).
  destruct (sc_relations sa !! k) as [[ta| | |]|] eqn:Ek; try done. inversion Hr as [r r2 Hrr E3 E4|]; subst.
  destruct r2 as [tb| | |]; try done. destruct Hrr as (_ & _ & Hp & _). specialize (Hw _ _ Ek). destruct Hw as (_ & _ & Hnd & _).
  by rewrite <- (find_column_perm x (tb_columns ta)).
Qed.
Lemma diff_described os ot s t sv d' sv' :
  wf_db s -> wf_db t -> spelled_db s -> spelled_db t -> described s sv ->
  apply_all (compare_diff os ot s t) s = (d', Ok ()) -> db_equiv d' t ->
  faithful_but_null s (compare_diff os ot s t) ->
  runs obey (render_sql <$> compare_diff os ot s t) sv sv' ->
  (described t sv' <-> nulls_kept s t).
Proof.
  intros Hs Ht Ps Pt Hd Ha He Hf Hr.
  assert (Hw : Forall well_spelled (compare_diff os ot s t)) by (by apply diff_spelled).
  assert (Hwf' : wf_db d') by (by apply (DiffRollback.apply_all_wf (compare_diff os ot s t) s)).
  rewrite <- (nulls_kept_iff os ot s t Hs Ht).
  transitivity (described d' sv'); [split; intros K; [apply (described_equiv t); [done|by apply db_equiv_sym|done]|by apply (described_equiv d')]|].
  rewrite (nulls_after _ s sv d' sv' Hw Hs Hd Hf Ha Hr). split; intros H n k x c Hc; apply H.
  - apply (column_at_equiv t d'); [done|by apply db_equiv_sym|done].
  - by apply (column_at_equiv d' t).
Qed.
