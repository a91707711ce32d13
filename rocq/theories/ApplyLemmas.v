(** Lemmas about a single [apply]: inversion, frame, atomicity, well-formedness. *)
From Verif Require Import Base Types Changes SpecSnapshot SpecChange StepLemmas ColumnLemmas.

(** ** Inversion of the borrow chains *)
Lemma with_schema_mut_inv {A} n (k : mut schema A) d d' r :
  with_schema_mut n k d = (d', r) ->
  (db_schemas d !! n = None /\ d' = d /\ r = Err (schema_not_found n)) \/
  exists sc sc', db_schemas d !! n = Some sc /\ k sc = (sc', r) /\ d' = put d n sc'.
Proof.
  unfold with_schema_mut. destruct (db_schemas d !! n) as [sc|] eqn:E.
  - destruct (k sc) as [sc' x] eqn:Ek. intros [= <- <-]. right. eauto.
  - intros [= <- <-]. by left.
Qed.

Lemma put_same d n sc : db_schemas d !! n = Some sc -> put d n sc = d.
Proof. intros H. unfold put. rewrite insert_id by done. apply db_eta. Qed.

Lemma set_relations_same sc k r :
  sc_relations sc !! k = Some r -> set_relations sc (<[k := r]> (sc_relations sc)) = sc.
Proof. intros H. rewrite insert_id by done. apply schema_eta. Qed.

Lemma in_table_inv {A} n t (k : mut table A) d d' r :
  in_table n t k d = (d', r) ->
  (d' = d /\ exists e, r = Err e) \/
  exists sc tb tb', db_schemas d !! n = Some sc /\ sc_relations sc !! t = Some (RTable tb) /\
    k tb = (tb', r) /\ d' = put d n (set_relations sc (<[t := RTable tb']> (sc_relations sc))).
Proof.
  unfold in_table. intros H. apply with_schema_mut_inv in H as [(H1 & H2 & H3)|H].
  { left. eauto. }
  destruct H as (sc & sc' & Hsc & Hk & ->). unfold with_relation_mut in Hk.
  destruct (sc_relations sc !! t) as [r0|] eqn:E.
  - destruct r0 as [tb| | |]; simpl in Hk.
    + destruct (k tb) as [tb' x] eqn:Ek. injection Hk as <- <-. right. eauto 10.
    + injection Hk as <- <-. left. rewrite set_relations_same by done.
      rewrite put_same by done. eauto.
    + injection Hk as <- <-. left. rewrite set_relations_same by done.
      rewrite put_same by done. eauto.
    + injection Hk as <- <-. left. rewrite set_relations_same by done.
      rewrite put_same by done. eauto.
  - injection Hk as <- <-. left. rewrite put_same by done. eauto.
Qed.

(** ** Atomicity *)
Definition atomic {S A} (m : mut S A) : Prop := forall s s' e, m s = (s', Err e) -> s' = s.

Lemma atomic_with_schema {A} n (k : mut schema A) : atomic k -> atomic (with_schema_mut n k).
Proof.
  intros Hk d d' e H. apply with_schema_mut_inv in H as [(?&->&?)|(sc&sc'&Hsc&Hr&->)]; [done|].
  apply Hk in Hr as ->. by apply put_same.
Qed.

Lemma atomic_in_table {A} n t (k : mut table A) : atomic k -> atomic (in_table n t k).
Proof.
  intros Hk d d' e H. apply in_table_inv in H as [[-> _]|(sc&tb&tb'&Hsc&Htb&Hr&->)]; [done|].
  apply Hk in Hr as ->. rewrite set_relations_same by done. by apply put_same.
Qed.

Lemma atomic_add_column c : atomic (add_column c).
Proof. intros t t' e. unfold add_column. by destruct (has_column _ _); intros [=]. Qed.
Lemma atomic_add_constraint c : atomic (add_constraint c).
Proof. intros t t' e. unfold add_constraint. by destruct (has_constraint _ _); intros [=]. Qed.
Lemma atomic_with_column n f : atomic (with_column_mut n f).
Proof. intros t t' e. unfold with_column_mut. by destruct (find_column _ _); intros [=]. Qed.
Lemma atomic_with_constraint {A} n (k : mut constraint A) :
  atomic k -> atomic (with_constraint_mut n k).
Proof.
  intros Hk t t' e. unfold with_constraint_mut.
  destruct (tb_constraints t !! n) as [c|] eqn:E; [|by intros [=]].
  destruct (k c) as [c' x] eqn:Ek. intros [= <- ->]. apply Hk in Ek as ->.
  rewrite insert_id by done. apply table_eta.
Qed.
Lemma atomic_remove_column n : atomic (remove_column n).
Proof. intros t t' e. unfold remove_column. by destruct (find_column _ _); intros [=]. Qed.
Lemma atomic_add_relation r : atomic (add_relation r).
Proof. intros s s' e. unfold add_relation. by destruct (has_relation _ _); intros [=]. Qed.
Lemma atomic_add_function f : atomic (add_function f).
Proof. intros s s' e. unfold add_function. by destruct (has_function _ _); intros [=]. Qed.
Lemma atomic_add_schema s : atomic (add_schema s).
Proof. intros d d' e. unfold add_schema. by destruct (has_schema _ _); intros [=]. Qed.
Lemma atomic_then_ok {S A} (m : mut S A) : atomic m -> atomic (let? _ := m in mok ()).
Proof.
  intros Hm s s' e. unfold mthen, mok. destruct (m s) as [s1 [a|e1]] eqn:E; intros [=]; subst.
  by eapply Hm.
Qed.
Lemma atomic_remove_relation n : atomic (remove_relation n).
Proof. intros t t' e. unfold remove_relation. by destruct (_ !! _); intros [=]. Qed.
Lemma atomic_remove_function n : atomic (remove_function n).
Proof. intros t t' e. unfold remove_function. by destruct (_ !! _); intros [=]. Qed.
Lemma atomic_remove_schema n : atomic (remove_schema n).
Proof. intros t t' e. unfold remove_schema. by destruct (_ !! _); intros [=]. Qed.
Lemma atomic_drop_constraint {A} (f : constraint -> result A) n : atomic (drop_constraint f n).
Proof.
  intros t t' e. unfold drop_constraint, mthen, mread, mok.
  destruct (rbind _ _); [|by intros [=]].
  unfold remove_constraint. by destruct (_ !! _); intros [=].
Qed.
Lemma atomic_drop_relation {A} (f : relation -> result A) n : atomic (drop_relation f n).
Proof.
  intros t t' e. unfold drop_relation, mthen, mread, mok.
  destruct (rbind _ _); [|by intros [=]].
  unfold remove_relation. by destruct (_ !! _); intros [=].
Qed.
Lemma atomic_create_table s t cols : atomic (create_table_in s t cols).
Proof.
  intros sc sc' e. unfold create_table_in. destruct (mfor _ _ _) as [tb [a|e']].
  - apply atomic_add_relation.
  - by intros [=].
Qed.
Lemma atomic_create_index s t i u m ks : atomic (create_index_in s t i u m ks).
Proof.
  intros sc sc' e. unfold create_index_in, mthen, mread.
  destruct (rbind _ _); [apply atomic_add_relation|by intros [=]].
Qed.

Lemma apply_atomic c : (forall n k a b, c <> RenameColumn n k a b) -> atomic (apply c).
Proof.
  intros Hc. destruct c; simpl;
    try (apply atomic_in_table); try (apply atomic_with_schema); try (apply atomic_with_constraint);
    auto using atomic_add_column, atomic_add_constraint, atomic_with_column, atomic_add_relation,
      atomic_add_function, atomic_add_schema, atomic_drop_constraint, atomic_drop_relation,
      atomic_create_table, atomic_create_index;
    try (apply atomic_then_ok;
         auto using atomic_remove_column, atomic_remove_relation, atomic_remove_function,
           atomic_remove_schema).
  all: try by (intros [] c' e; intros [=]).
  by edestruct Hc.
Qed.

(** ** Frame *)
Lemma schema_same_but_refl g sc : schema_same_but g sc sc.
Proof. split; [done|]. destruct g; by repeat split; try left. Qed.

Lemma same_but_refl g d : same_but g d d.
Proof.
  split; [done|]. destruct g; try done; apply option_Forall2_refl; intros ?;
    apply schema_same_but_refl.
Qed.

Lemma put_same_but g d n sc sc' :
  target_schema g = n -> db_schemas d !! n = Some sc -> schema_same_but g sc sc' ->
  same_but g d (put d n sc').
Proof.
  intros Hg Hsc Hs. split.
  - intros n' Hn'. unfold put; simpl. by rewrite lookup_insert_ne by congruence.
  - rewrite Hg. unfold put; simpl. rewrite lookup_insert, Hsc.
    destruct g; try done; by constructor.
Qed.

Definition frame_columns {A} (cs : list str) (m : mut table A) : Prop :=
  forall t t' r, m t = (t', r) -> same_but_columns cs t t'.
Definition frame_constraint {A} (c : str) (m : mut table A) : Prop :=
  forall t t' r, m t = (t', r) -> same_but_constraint c t t'.
Definition frame_relation {A} (k : str) (m : mut schema A) : Prop :=
  forall s s' r, m s = (s', r) ->
    sc_name s = sc_name s' /\ sc_functions s = sc_functions s' /\
    forall k', k' <> k -> sc_relations s !! k' = sc_relations s' !! k'.
Definition frame_function {A} (k : str) (m : mut schema A) : Prop :=
  forall s s' r, m s = (s', r) ->
    sc_name s = sc_name s' /\ sc_relations s = sc_relations s' /\
    forall k', k' <> k -> sc_functions s !! k' = sc_functions s' !! k'.

Lemma in_table_frame {A} g n k (R : table -> table -> Prop) (m : mut table A) d d' r :
  (forall t t' r, m t = (t', r) -> R t t') ->
  target_schema g = n ->
  (forall sc sc', sc_name sc = sc_name sc' -> sc_functions sc = sc_functions sc' ->
     (forall k', k' <> k -> sc_relations sc !! k' = sc_relations sc' !! k') ->
     rel_same_or R (sc_relations sc !! k) (sc_relations sc' !! k) -> schema_same_but g sc sc') ->
  in_table n k m d = (d', r) -> same_but g d d'.
Proof.
  intros Hm Hg Hs H. apply in_table_inv in H as [[-> _]|(sc&tb&tb'&Hsc&Htb&Hr&->)].
  { apply same_but_refl. }
  eapply put_same_but; [done|done|]. apply Hs; simpl; [done|done| |].
  - intros k' Hk'. by rewrite lookup_insert_ne.
  - right. exists tb, tb'. rewrite lookup_insert. eauto.
Qed.

Lemma in_table_frame_columns {A} n k cs (m : mut table A) d d' r :
  frame_columns cs m -> in_table n k m d = (d', r) -> same_but (TColumns n k cs) d d'.
Proof.
  intros Hm. apply in_table_frame with (R := same_but_columns cs); [done|done|].
  intros sc sc' ????. by repeat split.
Qed.

Lemma in_table_frame_constraint {A} n k c (m : mut table A) d d' r :
  frame_constraint c m -> in_table n k m d = (d', r) -> same_but (TConstraint n k c) d d'.
Proof.
  intros Hm. apply in_table_frame with (R := same_but_constraint c); [done|done|].
  intros sc sc' ????. by repeat split.
Qed.

Lemma with_schema_frame_relation {A} n k (m : mut schema A) d d' r :
  frame_relation k m -> with_schema_mut n m d = (d', r) -> same_but (TRelation n k) d d'.
Proof.
  intros Hm H. apply with_schema_mut_inv in H as [(_ & -> & _)|(sc & sc' & Hsc & Hr & ->)].
  { apply same_but_refl. }
  apply Hm in Hr as (? & ? & ?). eapply put_same_but; [done|done|]. by repeat split.
Qed.

Lemma with_schema_frame_function {A} n k (m : mut schema A) d d' r :
  frame_function k m -> with_schema_mut n m d = (d', r) -> same_but (TFunction n k) d d'.
Proof.
  intros Hm H. apply with_schema_mut_inv in H as [(_ & -> & _)|(sc & sc' & Hsc & Hr & ->)].
  { apply same_but_refl. }
  apply Hm in Hr as (? & ? & ?). eapply put_same_but; [done|done|]. by repeat split.
Qed.

Lemma other_columns_app cs t l :
  Forall (fun c => col_name c ∈ cs) l ->
  other_columns cs (set_columns t (tb_columns t ++ l)) = other_columns cs t.
Proof.
  intros Hl. unfold other_columns; simpl. rewrite filter_app.
  assert (filter (fun c => col_name c ∉ cs) l = []) as ->; [|by rewrite app_nil_r].
  induction Hl as [|c l Hc Hl IH]; [done|]. rewrite filter_cons_False; [done|]. naive_solver.
Qed.

Lemma other_columns_delete (cs : list str) n l :
  n ∈ cs -> filter (fun c => col_name c ∉ cs) (delete_column n l) =
            filter (fun c => col_name c ∉ cs) l.
Proof.
  intros Hn. induction l as [|c l IH]; [done|]. csimpl. case_decide as Hc.
  - rewrite filter_cons_False; [done|]. subst. naive_solver.
  - rewrite !filter_cons. by rewrite IH.
Qed.

Lemma other_columns_update (cs : list str) n f l :
  n ∈ cs -> (forall c, col_name (f c) = col_name c) ->
  filter (fun c => col_name c ∉ cs) (update_column n f l) =
  filter (fun c => col_name c ∉ cs) l.
Proof.
  intros Hn Hf. induction l as [|c l IH]; [done|]. csimpl. case_decide as Hc.
  - rewrite !filter_cons_False; [done| |]; rewrite ?Hf; subst; naive_solver.
  - rewrite !filter_cons. by rewrite IH.
Qed.

Lemma frame_add_column c (cs : list str) : col_name c ∈ cs -> frame_columns cs (add_column c).
Proof.
  intros Hc t t' r. unfold add_column. destruct (has_column _ _); intros [= <- <-].
  - by repeat split.
  - repeat split; try done. symmetry. apply other_columns_app. by repeat constructor.
Qed.
Lemma frame_remove_column n (cs : list str) : n ∈ cs -> frame_columns cs (remove_column n).
Proof.
  intros Hn t t' r. unfold remove_column. destruct (find_column _ _); intros [= <- <-].
  - repeat split; try done. symmetry. by apply other_columns_delete.
  - by repeat split.
Qed.
Lemma frame_with_column n f :
  (forall c, col_name (f c) = col_name c) -> frame_columns [n] (with_column_mut n f).
Proof.
  intros Hf t t' r. unfold with_column_mut. destruct (find_column _ _); intros [= <- <-].
  - repeat split; try done. symmetry. apply other_columns_update; [left|done].
  - by repeat split.
Qed.
Lemma same_but_columns_trans cs a b c :
  same_but_columns cs a b -> same_but_columns cs b c -> same_but_columns cs a c.
Proof. intros (?&?&?&?) (?&?&?&?). repeat split; congruence. Qed.
Lemma frame_then {A B} cs (m : mut table A) (k : A -> mut table B) :
  frame_columns cs m -> (forall a, frame_columns cs (k a)) ->
  frame_columns cs (let? x := m in k x).
Proof.
  intros Hm Hk t t' r. unfold mthen. destruct (m t) as [t1 [a|e]] eqn:E.
  - intros H. eapply same_but_columns_trans; [by eapply Hm|by eapply Hk].
  - intros [= <- <-]. by eapply Hm.
Qed.
Lemma frame_mok {A} cs (a : A) : frame_columns cs (mok a).
Proof. intros t t' r [= <- <-]. by repeat split. Qed.
Lemma remove_column_name n t t' c : remove_column n t = (t', Ok c) -> col_name c = n.
Proof.
  unfold remove_column. destruct (find_column _ _) eqn:E; intros [= <- <-].
  by apply find_column_Some in E as [_ ?].
Qed.
Lemma frame_rename from to : frame_columns [from; to] (rename_column_in from to).
Proof.
  apply frame_then; [apply frame_remove_column; left|].
  intros c. apply frame_add_column. simpl. right. left.
Qed.

Lemma same_but_constraint_refl c t : same_but_constraint c t t.
Proof. by repeat split. Qed.
Lemma frame_add_constraint c n : constraint_name c = n -> frame_constraint n (add_constraint c).
Proof.
  intros Hn t t' r. unfold add_constraint. destruct (has_constraint _ _); intros [= <- <-].
  - apply same_but_constraint_refl.
  - repeat split; try done. intros c' Hc'. simpl. rewrite lookup_insert_ne; [done|congruence].
Qed.
Lemma frame_with_constraint {A} n (k : mut constraint A) : frame_constraint n (with_constraint_mut n k).
Proof.
  intros t t' r. unfold with_constraint_mut. destruct (_ !! _) as [c|].
  - destruct (k c) as [c' x]. intros [= <- <-]. repeat split; try done.
    intros c'' Hc. simpl. by rewrite lookup_insert_ne.
  - intros [= <- <-]. apply same_but_constraint_refl.
Qed.
Lemma frame_drop_constraint {A} (f : constraint -> result A) n : frame_constraint n (drop_constraint f n).
Proof.
  intros t t' r. unfold drop_constraint, mthen, mread, mok.
  destruct (rbind _ _).
  - unfold remove_constraint. destruct (_ !! _); intros [= <- <-].
    + repeat split; try done. intros c' Hc. simpl. by rewrite lookup_delete_ne.
    + apply same_but_constraint_refl.
  - intros [= <- <-]. apply same_but_constraint_refl.
Qed.

Lemma frame_add_relation r k : relation_name r = k -> frame_relation k (add_relation r).
Proof.
  intros Hk s s' x. unfold add_relation. destruct (has_relation _ _); intros [= <- <-]; [done|].
  repeat split; try done. intros k' Hk'. simpl. rewrite lookup_insert_ne; [done|congruence].
Qed.
Lemma frame_remove_relation k : frame_relation k (let? _ := remove_relation k in mok ()).
Proof.
  intros s s' x. unfold mthen, mok, remove_relation. destruct (_ !! _); intros [= <- <-]; [|done].
  repeat split; try done. intros k' Hk'. simpl. by rewrite lookup_delete_ne.
Qed.
Lemma frame_drop_relation {A} (f : relation -> result A) k : frame_relation k (drop_relation f k).
Proof.
  intros s s' x. unfold drop_relation, mthen, mread, mok. destruct (rbind _ _); [|by intros [= <- <-]].
  unfold remove_relation. destruct (_ !! _); intros [= <- <-]; [|done].
  repeat split; try done. intros k' Hk'. simpl. by rewrite lookup_delete_ne.
Qed.

(** Filling a fresh table keeps its names. *)
Lemma mfor_add_column_names s t cols tb tb' r :
  mfor (fun c => add_column (make_column s t c)) cols tb = (tb', r) ->
  tb_schema tb' = tb_schema tb /\ tb_name tb' = tb_name tb /\ tb_constraints tb' = tb_constraints tb.
Proof.
  revert tb. induction cols as [|c cols IH]; intros tb; simpl.
  { by intros [= <- <-]. }
  unfold mthen, add_column. destruct (has_column _ _).
  - by intros [= <- <-].
  - intros H. apply IH in H as (-> & -> & ->). done.
Qed.
Lemma frame_create_table s t cols : frame_relation t (create_table_in s t cols).
Proof.
  intros sc sc' r. unfold create_table_in. destruct (mfor _ _ _) as [tb [a|e]] eqn:E.
  - apply frame_add_relation. simpl. by apply mfor_add_column_names in E as (_ & -> & _).
  - by intros [= <- <-].
Qed.
Lemma frame_create_index s t i u m ks : frame_relation i (create_index_in s t i u m ks).
Proof.
  intros sc sc' r. unfold create_index_in, mthen, mread.
  destruct (rbind _ _); [by apply frame_add_relation|by intros [= <- <-]].
Qed.
Lemma frame_add_function f k : fn_name f = k -> frame_function k (add_function f).
Proof.
  intros Hk s s' x. unfold add_function. destruct (has_function _ _); intros [= <- <-]; [done|].
  repeat split; try done. intros k' Hk'. simpl. rewrite lookup_insert_ne; [done|congruence].
Qed.
Lemma frame_remove_function k : frame_function k (let? _ := remove_function k in mok ()).
Proof.
  intros s s' x. unfold mthen, mok, remove_function. destruct (_ !! _); intros [= <- <-]; [|done].
  repeat split; try done. intros k' Hk'. simpl. by rewrite lookup_delete_ne.
Qed.

Lemma apply_frame c d d' r : apply c d = (d', r) -> same_but (target_of c) d d'.
Proof.
  destruct c; simpl;
    try (apply in_table_frame_constraint;
         auto using frame_add_constraint, frame_with_constraint, frame_drop_constraint; fail);
    try (apply with_schema_frame_relation;
         auto using frame_add_relation, frame_remove_relation, frame_drop_relation,
           frame_create_table, frame_create_index; fail);
    try (apply with_schema_frame_function;
         auto using frame_add_function, frame_remove_function; fail);
    try (apply in_table_frame_columns).
  - apply frame_add_column. simpl. left.
  - by apply frame_with_column.
  - by apply frame_with_column.
  - by apply frame_with_column.
  - unfold add_schema. destruct (has_schema _ _); intros [= <- <-]; split; try done.
    intros n Hn. simpl in *. by rewrite lookup_insert_ne.
  - apply frame_then; [apply frame_remove_column; left|intros _; apply frame_mok].
  - unfold mthen, mok, remove_schema. destruct (_ !! _); intros [= <- <-]; split; try done.
    intros n Hn. simpl in *. by rewrite lookup_delete_ne.
  - apply frame_rename.
Qed.

(** ** Well-formedness *)
Lemma put_wf d n sc : wf_db d -> wf_schema n sc -> wf_db (put d n sc).
Proof.
  intros Hd Hsc n' sc' H. unfold put in H; simpl in H.
  apply lookup_insert_Some in H as [[<- <-]|[_ H]]; [done|]. by apply Hd.
Qed.

Lemma in_table_wf {A} n k (m : mut table A) d d' r :
  (forall tb tb' r, wf_table n k tb -> m tb = (tb', r) -> wf_table n k tb') ->
  wf_db d -> in_table n k m d = (d', r) -> wf_db d'.
Proof.
  intros Hm Hd H. apply in_table_inv in H as [[-> _]|(sc&tb&tb'&Hsc&Htb&Hr&->)]; [done|].
  destruct (Hd _ _ Hsc) as (H1 & H2 & H3). apply put_wf; [done|]. split; [done|]. split; [|done].
  simpl. apply map_Forall_insert_2; [|done]. simpl. eapply Hm; [|done]. exact (H2 _ _ Htb).
Qed.

Lemma with_schema_wf {A} n (m : mut schema A) d d' r :
  (forall sc sc' r, wf_schema n sc -> m sc = (sc', r) -> wf_schema n sc') ->
  wf_db d -> with_schema_mut n m d = (d', r) -> wf_db d'.
Proof.
  intros Hm Hd H. apply with_schema_mut_inv in H as [(_ & -> & _)|(sc & sc' & Hsc & Hr & ->)]; [done|].
  apply put_wf; [done|]. eapply Hm; [|done]. by apply Hd.
Qed.

Lemma add_constraint_wf n k c tb tb' r :
  wf_constraint n k (constraint_name c) c ->
  wf_table n k tb -> add_constraint c tb = (tb', r) -> wf_table n k tb'.
Proof.
  intros Hc (H1&H2&H3&H4&H5). unfold add_constraint. destruct (has_constraint _ _); intros [= <- <-].
  - by (unfold wf_table, wf_schema; split_and!).
  - unfold wf_table, wf_schema; split_and!; try done. simpl. by apply map_Forall_insert_2.
Qed.

Lemma with_constraint_wf n k cn (m : mut constraint ()) tb tb' r :
  (forall c c' r, m c = (c', r) -> wf_constraint n k cn c -> wf_constraint n k cn c') ->
  wf_table n k tb -> with_constraint_mut cn m tb = (tb', r) -> wf_table n k tb'.
Proof.
  intros Hm (H1&H2&H3&H4&H5). unfold with_constraint_mut. destruct (_ !! _) as [c|] eqn:E.
  - destruct (m c) as [c' x] eqn:Em. intros [= <- <-]. unfold wf_table, wf_schema; split_and!; try done. simpl.
    apply map_Forall_insert_2; [|done]. eapply Hm; [done|]. by apply H5.
  - intros [= <- <-]. by (unfold wf_table, wf_schema; split_and!).
Qed.

Lemma drop_constraint_wf {A} (f : constraint -> result A) n k cn tb tb' r :
  wf_table n k tb -> drop_constraint f cn tb = (tb', r) -> wf_table n k tb'.
Proof.
  intros (H1&H2&H3&H4&H5). unfold drop_constraint, mthen, mread, mok.
  destruct (rbind _ _); [|by intros [= <- <-]].
  unfold remove_constraint. destruct (_ !! _); intros [= <- <-]; [|done].
  unfold wf_table, wf_schema; split_and!; try done. simpl. by apply map_Forall_delete.
Qed.

Lemma add_column_wf n k c tb tb' r :
  wf_column n k c -> wf_table n k tb -> add_column c tb = (tb', r) -> wf_table n k tb'.
Proof.
  intros Hc (H1&H2&H3&H4&H5). unfold add_column, has_column.
  destruct (find_column _ _) eqn:E; intros [= <- <-]; [by (unfold wf_table; split_and!)|].
  unfold wf_table, wf_schema; split_and!; try done; simpl.
  - rewrite fmap_app. apply NoDup_app. split; [done|]. split; [|by apply NoDup_singleton].
    intros x Hx Hx2. csimpl in Hx2. apply elem_of_list_singleton in Hx2 as ->.
    by apply find_column_None in E.
  - apply Forall_app. split; [done|]. by apply Forall_singleton.
Qed.

Lemma delete_column_wf n k cn cols :
  Forall (wf_column n k) cols -> Forall (wf_column n k) (delete_column cn cols).
Proof.
  induction 1 as [|c cols Hc Hcols IH]; csimpl; [constructor|]. case_decide; [done|].
  by constructor.
Qed.

Lemma remove_column_wf n k cn tb tb' r :
  wf_table n k tb -> remove_column cn tb = (tb', r) -> wf_table n k tb'.
Proof.
  intros (H1&H2&H3&H4&H5). unfold remove_column. destruct (find_column _ _); intros [= <- <-].
  - unfold wf_table, wf_schema; split_and!; try done; simpl; [by apply NoDup_delete_column|by apply delete_column_wf].
  - by (unfold wf_table, wf_schema; split_and!).
Qed.

Lemma with_column_wf n k cn f tb tb' r :
  (forall c, col_name (f c) = col_name c) ->
  (forall c, wf_column n k c -> wf_column n k (f c)) ->
  wf_table n k tb -> with_column_mut cn f tb = (tb', r) -> wf_table n k tb'.
Proof.
  intros Hf Hw (H1&H2&H3&H4&H5). unfold with_column_mut. destruct (find_column _ _); intros [= <- <-].
  - unfold wf_table, wf_schema; split_and!; try done; simpl; [by rewrite update_column_names|].
    clear -Hw H4. induction H4 as [|c cols Hc Hcols IH]; csimpl; [constructor|].
    case_decide; constructor; auto.
  - by (unfold wf_table, wf_schema; split_and!).
Qed.

Lemma rename_column_wf n k from to tb tb' r :
  wf_table n k tb -> rename_column_in from to tb = (tb', r) -> wf_table n k tb'.
Proof.
  intros Hwf. unfold rename_column_in, mthen.
  destruct (remove_column from tb) as [tb1 [c|e]] eqn:E.
  - intros H. eapply add_column_wf; [| |done]; [|by eapply remove_column_wf].
    destruct Hwf as (_&_&_&H4&_). unfold remove_column in E.
    destruct (find_column from (tb_columns tb)) as [c0|] eqn:Ef; [|done]. injection E as <- <-.
    apply find_column_Some in Ef as [Hin _]. eapply Forall_forall in H4; [|done].
    destruct H4. by split.
  - intros [= <- <-]. by eapply remove_column_wf.
Qed.

Lemma add_relation_wf n r sc sc' x :
  wf_relation n (relation_name r) r -> wf_schema n sc -> add_relation r sc = (sc', x) ->
  wf_schema n sc'.
Proof.
  intros Hr (H1&H2&H3). unfold add_relation. destruct (has_relation _ _); intros [= <- <-]; [done|].
  unfold wf_table, wf_schema; split_and!; try done. simpl. by apply map_Forall_insert_2.
Qed.
Lemma remove_relation_wf n k sc sc' x :
  wf_schema n sc -> (let? _ := remove_relation k in mok ()) sc = (sc', x) -> wf_schema n sc'.
Proof.
  intros (H1&H2&H3). unfold mthen, mok, remove_relation.
  destruct (_ !! _); intros [= <- <-]; [|done].
  unfold wf_table, wf_schema; split_and!; try done. simpl. by apply map_Forall_delete.
Qed.
Lemma drop_relation_wf {A} (f : relation -> result A) n k sc sc' x :
  wf_schema n sc -> drop_relation f k sc = (sc', x) -> wf_schema n sc'.
Proof.
  intros (H1&H2&H3). unfold drop_relation, mthen, mread, mok.
  destruct (rbind _ _); [|by intros [= <- <-]].
  unfold remove_relation. destruct (_ !! _); intros [= <- <-]; [|done].
  unfold wf_table, wf_schema; split_and!; try done. simpl. by apply map_Forall_delete.
Qed.
Lemma mfor_add_column_wf n k cols tb tb' r :
  mfor (fun c => add_column (make_column n k c)) cols tb = (tb', r) ->
  wf_table n k tb -> wf_table n k tb'.
Proof.
  revert tb. induction cols as [|c cols IH]; intros tb; simpl.
  { by intros [= <- <-]. }
  unfold mthen. destruct (add_column _ _) as [tb1 [[]|e]] eqn:E.
  - intros H Hwf. eapply IH; [done|]. eapply add_column_wf; [|done|done]. done.
  - intros [= <- <-] Hwf. eapply add_column_wf; [|done|done]. done.
Qed.
Lemma create_table_wf n k cols sc sc' r :
  wf_schema n sc -> create_table_in n k cols sc = (sc', r) -> wf_schema n sc'.
Proof.
  intros Hsc. unfold create_table_in. destruct (mfor _ _ _) as [tb [a|e]] eqn:E.
  - intros H. eapply add_relation_wf; [|done|done]. simpl.
    assert (wf_table n k tb) as Hwf.
    { eapply mfor_add_column_wf; [done|]. unfold wf_table; split_and!; simpl; try done; try constructor; apply map_Forall_empty. }
    assert (tb_name tb = k) as -> by apply Hwf. done.
  - by intros [= <- <-].
Qed.
Lemma create_index_wf n t i u m ks sc sc' r :
  wf_schema n sc -> create_index_in n t i u m ks sc = (sc', r) -> wf_schema n sc'.
Proof.
  intros Hsc. unfold create_index_in, mthen, mread. destruct (rbind _ _); [|by intros [= <- <-]].
  by apply add_relation_wf.
Qed.
Lemma add_function_wf n f sc sc' x :
  fn_schema f = n -> wf_schema n sc -> add_function f sc = (sc', x) -> wf_schema n sc'.
Proof.
  intros Hr (H1&H2&H3). unfold add_function. destruct (has_function _ _); intros [= <- <-]; [done|].
  unfold wf_table, wf_schema; split_and!; try done. simpl. by apply map_Forall_insert_2.
Qed.
Lemma remove_function_wf n k sc sc' x :
  wf_schema n sc -> (let? _ := remove_function k in mok ()) sc = (sc', x) -> wf_schema n sc'.
Proof.
  intros (H1&H2&H3). unfold mthen, mok, remove_function.
  destruct (_ !! _); intros [= <- <-]; [|done].
  unfold wf_table, wf_schema; split_and!; try done. simpl. by apply map_Forall_delete.
Qed.

Lemma apply_wf c d d' r : wf_db d -> apply c d = (d', r) -> wf_db d'.
Proof.
  intros Hd. destruct c; simpl.
  all: try (apply in_table_wf; [|done]; intros tb tb' x Hwf).
  all: try (apply with_schema_wf; [|done]; intros sc sc' x Hwf).
  all: try (apply add_constraint_wf; [done|done]).
  all: try (apply drop_constraint_wf; done).
  all: try (apply add_relation_wf; done).
  all: try (apply drop_relation_wf; done).
  all: try (apply with_column_wf; [done|by intros ? []|done]).
  all: try (apply with_constraint_wf; [|done]; intros [c|c|c|c] c' x' [= <- <-] (?&?&?); by (unfold wf_constraint; split_and!)).
  - by apply add_column_wf.
  - by apply add_function_wf.
  - by apply create_index_wf.
  - unfold add_schema. destruct (has_schema _ _); intros [= <- <-]; [done|].
    apply (put_wf d schema_name); [done|]. unfold wf_schema; split_and!; [done|apply map_Forall_empty..].
  - by apply create_table_wf.
  - unfold mthen, mok. destruct (remove_column _ _) as [tb1 [c|e]] eqn:E; intros [= <- <-];
      by eapply remove_column_wf.
  - by apply remove_function_wf.
  - unfold mthen, mok, remove_schema. destruct (_ !! _); intros [= <- <-]; [|done].
    by apply map_Forall_delete.
  - by apply remove_relation_wf.
  - by apply rename_column_wf.
Qed.
