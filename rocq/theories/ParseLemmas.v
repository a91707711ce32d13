(** What the definition parsers accept, and what they build. *)
From Verif Require Import Base Text Types Changes SpecSnapshot Node Yaml SpecDefinition Ddl Load SpecMerge
  MergeLemmas ColumnLemmas.

(** ** The loop *)

(** The loop without any error. *)
Fixpoint run {S : Type} (f : S -> node -> dres S) (st : S) (l : list node) : dres S :=
  match l with
  | [] => Done st
  | n :: l => st' ← f st n; run f st' l
  end.

Lemma collect_errors {S : Type} (f : S -> node -> dres S) st e l st' e' :
  collect f st e l = Done (st', e') -> exists x, e' = e ++ x.
Proof.
  revert st e. induction l as [|n l IH]; intros st e; simpl.
  - intros [= -> ->]. exists []. by rewrite app_nil_r.
  - destruct (f st n); [apply IH| |done]. intros [x ->]%IH. exists ([e0] ++ x).
    by rewrite (assoc_L (++)).
Qed.

Lemma collect_run {S : Type} (f : S -> node -> dres S) st l st' :
  collect f st [] l = Done (st', []) <-> run f st l = Done st'.
Proof.
  revert st. induction l as [|n l IH]; intros st; simpl.
  - split; by intros [= ->].
  - destruct (f st n) as [st1|e|]; simpl; [apply IH| |done].
    split; [|done]. intros [x Hx]%collect_errors. by destruct x.
Qed.

Lemma bind_inv {E A B} (m : outcome E A) (f : A -> outcome E B) b :
  (m ≫= f) = Done b -> exists a, m = Done a /\ f a = Done b.
Proof. destruct m as [a| |]; simpl; [by exists a|done|done]. Qed.

Lemma assert_inv {E} (P : Prop) `{!Decision P} u : @assert_that E P _ = Done u -> P.
Proof. unfold assert_that. by case_decide. Qed.

Lemma check_errors_inv n e u : check_errors n e = Done u -> e = [].
Proof. by destruct e. Qed.

Lemma push_if_nil c e l : push_if c e l = [] -> c = false /\ l = [].
Proof. destruct c; simpl; [|done]. by destruct l. Qed.

Lemma ok_or_inv {A} (o : option A) e a : ok_or o e = Done a -> o = Some a.
Proof. destruct o; [by intros [= ->]|done]. Qed.

Lemma unwrap_inv {E A} (o : option A) (a : A) : unwrap (E:=E) o = Done a -> o = Some a.
Proof. destruct o; [by intros [= ->]|done]. Qed.

(** An invariant of the states reached without error. *)
Lemma run_invariant {S : Type} (f : S -> node -> dres S) (P : S -> Prop) st l st' :
  (forall s n s', P s -> n ∈ l -> f s n = Done s' -> P s') -> P st -> run f st l = Done st' -> P st'.
Proof.
  intros Hs. revert st. induction l as [|n l IH]; intros st Hp; simpl; [by intros [= <-]|].
  intros (s1 & H1 & H2)%bind_inv. eapply IH; [|eapply Hs; [exact Hp|left|exact H1]|exact H2].
  intros. eapply Hs; [done|by right|done].
Qed.

(** ** Adding the collected objects *)
Section unwrap_all.
  Context {S V : Type} (get : S -> gmap str V) (set : S -> gmap str V -> S) (name : V -> str).
  Context (Hgs : forall s m, get (set s m) = m) (Hss : forall s m m', set (set s m) m' = set s m')
    (Hsg : forall s, set s (get s) = s).
  Context (add : V -> mut S ()).
  Context (add_new : forall s v, get s !! name v = None ->
             add v s = (set s (<[name v := v]> (get s)), Ok ())).
  Context (add_old : forall s v, is_Some (get s !! name v) -> exists e, add v s = (s, Err e)).

  Definition by_name (l : list V) : gmap str V := list_to_map ((fun v => (name v, v)) <$> l).

  Lemma by_name_None l k : by_name l !! k = None <-> k ∉ name <$> l.
  Proof.
    unfold by_name. rewrite <- not_elem_of_list_to_map. by rewrite <- list_fmap_compose.
  Qed.

  Lemma unwrap_all_spec l s :
    (NoDup (name <$> l) /\ (forall v, v ∈ l -> get s !! name v = None) /\
     unwrap_all add l s = Done (set s (get s ∪ by_name l))) \/
    (~ (NoDup (name <$> l) /\ (forall v, v ∈ l -> get s !! name v = None)) /\
     unwrap_all add l s = Panic).
  Proof.
    revert s. induction l as [|v l IH]; intros s.
    - left. split; [constructor|]. split; [by intros ? ?%elem_of_nil|]. simpl.
      unfold by_name. simpl. by rewrite (right_id_L ∅ (∪)), Hsg.
    - simpl. unfold unwrap_mut. destruct (get s !! name v) as [w|] eqn:E.
      + right. split.
        * intros [_ H]. specialize (H v). rewrite E in H. discriminate H. left.
        * destruct (add_old s v) as [e ->]; [by rewrite E|done].
      + rewrite (add_new _ _ E). simpl.
        destruct (IH (set s (<[name v := v]> (get s)))) as [(H1 & H2 & H3)|[H1 H2]].
        * left. assert (name v ∉ name <$> l) as Hv.
          { intros (w & Hw & Hin)%elem_of_list_fmap. specialize (H2 w Hin).
            rewrite Hgs, <- Hw, lookup_insert in H2. done. }
          split; [by constructor|]. split.
          { intros w [->|Hin]%elem_of_cons; [done|]. specialize (H2 w Hin). rewrite Hgs in H2.
            rewrite lookup_insert_ne in H2; [done|]. intros Hw. apply Hv. rewrite Hw.
            by apply elem_of_list_fmap_1. }
          rewrite H3, Hss, Hgs. do 2 f_equal. apply map_eq. intros j.
          unfold by_name at 2. csimpl. fold (by_name l).
          destruct (decide (j = name v)) as [->|Hne].
          -- rewrite !lookup_union, !lookup_insert, E.
             rewrite (proj2 (by_name_None l (name v)) Hv). done.
          -- rewrite !lookup_union, !lookup_insert_ne by done. done.
        * right. split; [|exact H2]. intros [Hn Hf]. apply H1. csimpl in Hn.
          apply NoDup_cons in Hn as [Hn1 Hn2]. split; [done|]. intros w Hw. rewrite Hgs.
          rewrite lookup_insert_ne; [apply Hf; by right|]. intros He. apply Hn1. rewrite He.
          by apply elem_of_list_fmap_1.
  Qed.

  Lemma unwrap_all_new l s s' :
    get s = ∅ -> unwrap_all add l s = Done s' <-> NoDup (name <$> l) /\ s' = set s (by_name l).
  Proof.
    intros He. destruct (unwrap_all_spec l s) as [(H1 & _ & H3)|[H1 H2]].
    - rewrite H3, He, (left_id_L ∅ (∪)). split; [by intros [= <-]|by intros [_ ->]].
    - rewrite H2. split; [done|]. intros [Hn _]. destruct H1. split; [done|].
      intros v _. rewrite He. apply lookup_empty.
  Qed.
End unwrap_all.

Lemma col_unwrap_all cols t :
  NoDup (names (tb_columns t)) ->
  (NoDup (names (tb_columns t ++ cols)) /\
   unwrap_all add_column cols t = Done (set_columns t (tb_columns t ++ cols))) \/
  (~ NoDup (names (tb_columns t ++ cols)) /\ unwrap_all add_column cols t = Panic).
Proof.
  revert t. induction cols as [|c cols IH]; intros t Hn.
  - left. rewrite app_nil_r. split; [done|]. simpl. by destruct t.
  - cbn [unwrap_all].
    destruct (find_column (col_name c) (tb_columns t)) as [c'|] eqn:E.
    + right. split; [|unfold unwrap_mut, add_column, has_column; by rewrite E]. unfold names. rewrite fmap_app. csimpl. intros (_ & Hd & _)%NoDup_app.
      eapply (Hd (col_name c)); [|left]. apply find_column_is_Some. by eexists.
    + pose proof E as E'. apply find_column_None in E.
      destruct (IH (set_columns t (tb_columns t ++ [c]))) as [[H1 H2]|[H1 H2]].
      { simpl. unfold names. rewrite fmap_app. apply NoDup_app. split; [done|]. split.
        - intros x Hx ->%elem_of_list_singleton. done.
        - apply NoDup_singleton. }
      * left. simpl in H1, H2. rewrite <- (assoc_L (++)) in H1, H2. split; [done|].
        unfold unwrap_mut, add_column, has_column. rewrite E'. exact H2.
      * right. simpl in H1. rewrite <- (assoc_L (++)) in H1. split; [done|].
        unfold unwrap_mut, add_column, has_column. rewrite E'. exact H2.
Qed.

Lemma con_add_new t v : tb_constraints t !! constraint_name v = None ->
  add_constraint v t = (set_constraints t (<[constraint_name v := v]> (tb_constraints t)), Ok ()).
Proof. unfold add_constraint, has_constraint. by intros ->. Qed.
Lemma con_add_old t v : is_Some (tb_constraints t !! constraint_name v) ->
  exists e, add_constraint v t = (t, Err e).
Proof. unfold add_constraint, has_constraint. intros [x ->]. by eexists. Qed.

(** ** What is parsed *)

(** What every parser does first. *)
Ltac opening H :=
  apply bind_inv in H as (? & Hty%assert_inv & H);
  apply bind_inv in H as (?name & Hname%ok_or_inv & H);
  apply bind_inv in H as (?l & Hl%ok_or_inv & H).

Lemma parse_column_inv s t n c :
  parse_column_definition s t n = Done c ->
  n_type n = L "column" /\ col_schema c = s /\ col_table c = t /\ n_name n = Some (col_name c).
Proof.
  unfold parse_column_definition. intros H.
  apply bind_inv in H as (? & Hty%assert_inv & H).
  apply bind_inv in H as (name & Hname%ok_or_inv & H).
  apply bind_inv in H as (expr & _ & H).
  apply bind_inv in H as ([[ty nn] d] & _ & H). by injection H as <-.
Qed.

Lemma parse_pk_inv s t n c :
  parse_primary_key_definition s t n = Done c ->
  n_type n = L "constraint" /\ pk_schema c = s /\ pk_table c = t /\ n_name n = Some (pk_name c).
Proof.
  unfold parse_primary_key_definition. intros H. opening H.
  apply bind_inv in H as ([[[cols de] ini] e] & _ & H).
  apply bind_inv in H as (? & _ & H). apply bind_inv in H as (? & _ & H). by injection H as <-.
Qed.
Lemma parse_uq_inv s t n c :
  parse_unique_definition s t n = Done c ->
  n_type n = L "constraint" /\ uq_schema c = s /\ uq_table c = t /\ n_name n = Some (uq_name c).
Proof.
  unfold parse_unique_definition. intros H. opening H.
  apply bind_inv in H as ([[[cols de] ini] e] & _ & H).
  apply bind_inv in H as (? & _ & H). by injection H as <-.
Qed.
Lemma parse_ck_inv s t n c :
  parse_check_constraint_definition s t n = Done c ->
  n_type n = L "constraint" /\ ck_schema c = s /\ ck_table c = t /\ n_name n = Some (ck_name c).
Proof.
  unfold parse_check_constraint_definition. intros H. opening H.
  apply bind_inv in H as ([[[cols de] ini] e] & _ & H).
  apply bind_inv in H as (? & _ & H). apply bind_inv in H as (? & _ & H). by injection H as <-.
Qed.
Lemma parse_fk_inv s t n c :
  parse_foreign_key_constraint_definition s t n = Done c ->
  n_type n = L "constraint" /\ fk_schema c = s /\ fk_table c = t /\ n_name n = Some (fk_name c).
Proof.
  unfold parse_foreign_key_constraint_definition. intros H. opening H.
  apply bind_inv in H as ([st e] & _ & H).
  apply bind_inv in H as (? & _ & H). apply bind_inv in H as (? & _ & H).
  apply bind_inv in H as (? & _ & H). apply bind_inv in H as (? & _ & H). by injection H as <-.
Qed.

Lemma parse_constraint_inv s t n c :
  parse_constraint_definition s t n = Done c ->
  n_type n = L "constraint" /\ constraint_schema c = s /\ constraint_table c = t /\
  n_name n = Some (constraint_name c).
Proof.
  unfold parse_constraint_definition. intros H. apply bind_inv in H as (l & _ & H).
  destruct l as [|cn l]; [done|].
  repeat (case_match; [apply bind_inv in H as (x & Hx & [= <-])|]); [..|done].
  - by apply parse_pk_inv.
  - by apply parse_uq_inv.
  - by apply parse_fk_inv.
  - by apply parse_ck_inv.
Qed.

Lemma parse_table_inv s n t :
  parse_table_definition s n = Done t ->
  n_type n = L "table" /\ n_name n = Some (tb_name t) /\
  exists l cts, get_nodes n = Some l /\
    run (tb_step s (tb_name t)) ([], []) l = Done (tb_columns t, cts) /\
    NoDup (names (tb_columns t)) /\ NoDup (constraint_name <$> cts) /\
    t = Table s (tb_name t) (tb_columns t) (by_name constraint_name cts).
Proof.
  unfold parse_table_definition. intros H. opening H.
  apply bind_inv in H as ([[cols cts] e] & Hc & H).
  apply bind_inv in H as (? & He%check_errors_inv & H). subst e. apply collect_run in Hc.
  apply bind_inv in H as (t1 & H1 & H2).
  destruct (col_unwrap_all cols (table_new s name)) as [[Hn Hu]|[_ Hu]]; [constructor| |congruence].
  rewrite Hu in H1. injection H1 as <-. simpl in *.
  rewrite (unwrap_all_new tb_constraints set_constraints constraint_name) in H2;
    [|done|done|by intros []|exact con_add_new|exact con_add_old|done].
  destruct H2 as [Hnc ->]. simpl. split; [done|]. split; [done|]. by exists l, cts.
Qed.

Lemma tb_step_inv s k n cols cts cols' cts' :
  tb_step s k (cols, cts) n = Done (cols', cts') ->
  (exists c, parse_column_definition s k n = Done c /\ cols' = cols ++ [c] /\ cts' = cts) \/
  (exists c, parse_constraint_definition s k n = Done c /\ cols' = cols /\ cts' = cts ++ [c]).
Proof.
  unfold tb_step. intros H. case_match.
  - apply bind_inv in H as (c & Hc & [= <- <-]). left. by exists c.
  - case_match; [|done]. apply bind_inv in H as (c & Hc & [= <- <-]). right. by exists c.
Qed.

Lemma parse_table_wf s n t : parse_table_definition s n = Done t -> wf_table s (tb_name t) t.
Proof.
  intros (_ & _ & l & cts & _ & Hr & Hn & Hnc & Ht)%parse_table_inv.
  set (k := tb_name t) in *.
  assert (Forall (wf_column s k) (tb_columns t) /\
    Forall (fun c => constraint_schema c = s /\ constraint_table c = k) cts) as [Hc Hk].
  { apply (run_invariant (tb_step s k) (fun st => Forall (wf_column s k) st.1 /\
      Forall (fun c => constraint_schema c = s /\ constraint_table c = k) st.2)
      ([], []) l (tb_columns t, cts)); [|split; constructor|done].
    intros [a b] n' [a' b'] [Ha Hb] _ [(c & Hc & -> & ->)|(c & Hc & -> & ->)]%tb_step_inv; simpl in *.
    - split; [|done]. apply Forall_app. split; [done|]. apply Forall_singleton.
      apply parse_column_inv in Hc as (_ & ? & ? & _). by split.
    - split; [done|]. apply Forall_app. split; [done|]. apply Forall_singleton.
      by apply parse_constraint_inv in Hc as (_ & ? & ? & _). }
  rewrite Ht. split; [done|]. split; [done|]. split; [done|]. split; [done|]. simpl.
  intros x c Hx. unfold by_name in Hx. apply elem_of_list_to_map_2 in Hx.
  apply elem_of_list_fmap in Hx as (c' & [= -> ->] & Hin). rewrite Forall_forall in Hk.
  destruct (Hk c' Hin). by split.
Qed.

Lemma parse_view_inv s n v :
  parse_view_definition s n = Done v ->
  n_type n = L "view" /\ vw_schema v = s /\ n_name n = Some (vw_name v).
Proof.
  unfold parse_view_definition. intros H. opening H.
  apply bind_inv in H as ([q e] & _ & H).
  apply bind_inv in H as (? & _ & H). apply bind_inv in H as (? & _ & H). by injection H as <-.
Qed.
Lemma parse_index_inv s n v :
  parse_index_definition s n = Done v ->
  n_type n = L "index" /\ ix_schema v = s /\ n_name n = Some (ix_name v).
Proof.
  unfold parse_index_definition. intros H. opening H.
  apply bind_inv in H as ([[[[tb ks] uq] me] e] & _ & H).
  apply bind_inv in H as (? & _ & H). apply bind_inv in H as (? & _ & H). by injection H as <-.
Qed.
Lemma parse_function_inv s n v :
  parse_function_definition s n = Done v ->
  n_type n = L "function" /\ fn_schema v = s /\ n_name n = Some (fn_name v).
Proof.
  unfold parse_function_definition. intros H. opening H.
  apply bind_inv in H as ([[[[bo la] re] vo] e] & _ & H).
  apply bind_inv in H as (? & _ & H). apply bind_inv in H as (? & _ & H). by injection H as <-.
Qed.
Lemma parse_sequence_inv s n v :
  parse_sequence_definition s n = Done v ->
  n_type n = L "sequence" /\ sq_schema v = s /\ n_name n = Some (sq_name v).
Proof.
  unfold parse_sequence_definition. intros H. opening H.
  apply bind_inv in H as ([st e] & _ & H).
  apply bind_inv in H as (? & _ & H). apply bind_inv in H as (? & _ & H).
  apply bind_inv in H as (? & _ & H). by injection H as <-.
Qed.

(** The parser of a relation, by the kind of the node. *)
Definition parse_relation (s : str) (n : node) : dres relation :=
  if of_type n (L "table") then x ← parse_table_definition s n; Done (RTable x)
  else if of_type n (L "view") then x ← parse_view_definition s n; Done (RView x)
  else if of_type n (L "sequence") then x ← parse_sequence_definition s n; Done (RSequence x)
  else if of_type n (L "index") then x ← parse_index_definition s n; Done (RIndex x)
  else Fail (UnexpectedNode (display_string n)).

Lemma sc_step_inv s n rels funs rels' funs' :
  sc_step s (rels, funs) n = Done (rels', funs') ->
  (exists r, parse_relation s n = Done r /\ rels' = rels ++ [r] /\ funs' = funs) \/
  (exists f, of_type n (L "function") = true /\ parse_function_definition s n = Done f /\
     rels' = rels /\ funs' = funs ++ [f]).
Proof.
  unfold sc_step, parse_relation. intros H.
  destruct (of_type n (L "table")) eqn:E1.
  { apply bind_inv in H as (x & -> & [= <- <-]). left. by eexists. }
  destruct (of_type n (L "view")) eqn:E2.
  { apply bind_inv in H as (x & -> & [= <- <-]). left. by eexists. }
  destruct (of_type n (L "sequence")) eqn:E3.
  { apply bind_inv in H as (x & -> & [= <- <-]). left. by eexists. }
  destruct (of_type n (L "index")) eqn:E4.
  { apply bind_inv in H as (x & -> & [= <- <-]). left. by eexists. }
  destruct (of_type n (L "function")) eqn:E5; [|done].
  apply bind_inv in H as (x & -> & [= <- <-]). right. by eexists.
Qed.

Lemma parse_relation_wf s n r :
  parse_relation s n = Done r -> wf_relation s (relation_name r) r /\ n_name n = Some (relation_name r).
Proof.
  unfold parse_relation. intros H.
  repeat (case_match; [apply bind_inv in H as (x & Hx & [= <-])|]); [..|done]; simpl.
  - split; [by eapply parse_table_wf|]. by apply parse_table_inv in Hx as (_ & ? & _).
  - by apply parse_view_inv in Hx as (_ & ? & ?).
  - by apply parse_sequence_inv in Hx as (_ & ? & ?).
  - by apply parse_index_inv in Hx as (_ & ? & ?).
Qed.

Lemma parse_schema_inv n s :
  parse_schema_definition n = Done s ->
  n_type n = L "schema" /\ n_name n = Some (sc_name s) /\
  exists l rels funs, get_nodes n = Some l /\
    run (sc_step (sc_name s)) ([], []) l = Done (rels, funs) /\
    NoDup (relation_name <$> rels) /\ NoDup (fn_name <$> funs) /\
    s = Schema (sc_name s) (by_name relation_name rels) (by_name fn_name funs).
Proof.
  unfold parse_schema_definition. intros H. opening H.
  apply bind_inv in H as ([[rels funs] e] & Hc & H).
  apply bind_inv in H as (? & He%check_errors_inv & H). subst e. apply collect_run in Hc.
  apply bind_inv in H as (s1 & H1 & H2).
  rewrite (unwrap_all_new sc_relations set_relations relation_name) in H1;
    [|done|done|by intros []|exact rel_add_new|exact rel_add_old|done].
  destruct H1 as [Hnr ->].
  rewrite (unwrap_all_new sc_functions set_functions fn_name) in H2;
    [|done|done|by intros []|exact fn_add_new|exact fn_add_old|done].
  destruct H2 as [Hnf ->]. simpl. split; [done|]. split; [done|]. by exists l, rels, funs.
Qed.

Lemma by_name_elem {V} (name : V -> str) (l : list V) k v :
  by_name name l !! k = Some v -> v ∈ l /\ name v = k.
Proof.
  unfold by_name. intros Hx%elem_of_list_to_map_2.
  apply elem_of_list_fmap in Hx as (c' & [= -> ->] & Hin). done.
Qed.

Lemma parse_schema_wf n s : parse_schema_definition n = Done s -> wf_schema (sc_name s) s.
Proof.
  intros (_ & _ & l & rels & funs & _ & Hr & _ & _ & Hs)%parse_schema_inv.
  set (k := sc_name s) in *.
  assert (Forall (fun r => wf_relation k (relation_name r) r) rels /\
    Forall (fun f => fn_schema f = k) funs) as [Hrels Hfuns].
  { apply (run_invariant (sc_step k) (fun st =>
      Forall (fun r => wf_relation k (relation_name r) r) st.1 /\
      Forall (fun f => fn_schema f = k) st.2)
      ([], []) l (rels, funs)); [|split; constructor|done].
    intros [a b] n' [a' b'] [Ha Hb] _ [(r & Hc & -> & ->)|(f & _ & Hc & -> & ->)]%sc_step_inv; simpl in *.
    - split; [|done]. apply Forall_app. split; [done|]. apply Forall_singleton.
      by apply parse_relation_wf in Hc as [? _].
    - split; [done|]. apply Forall_app. split; [done|]. apply Forall_singleton.
      by apply parse_function_inv in Hc as (_ & ? & _). }
  pose proof (proj1 (Forall_forall _ _) Hrels) as Hrels'.
  pose proof (proj1 (Forall_forall _ _) Hfuns) as Hfuns'.
  rewrite Hs. split; [done|]. simpl. split.
  - intros x r [Hin <-]%by_name_elem. by apply Hrels'.
  - intros x f [Hin <-]%by_name_elem. split; [by apply Hfuns'|done].
Qed.

(** Adding one schema is merging the database made of it. *)
Lemma singleton_merge o s d :
  (if has_schema d (sc_name s) then with_schema_mut (sc_name s) (merge_schema o s)
   else add_schema s) d = database_merge o (Database {[sc_name s := s]}) d.
Proof.
  unfold database_merge. simpl.
  assert (io_schemas o {[sc_name s := s]} = [(sc_name s, s)]) as ->.
  { apply Permutation_singleton_r. rewrite io_schemas_perm. by rewrite map_to_list_singleton. }
  simpl. unfold mthen. change (merge_one o (sc_name s, s) d) with
    (if has_schema d (sc_name s) then with_schema_mut (sc_name s) (merge_schema o s) d
     else add_schema s d).
  by destruct (has_schema d (sc_name s)); destruct (_ : database * result ()) as [? [[]|]].
Qed.

Lemma singleton_wf s : wf_schema (sc_name s) s -> wf_db (Database {[sc_name s := s]}).
Proof. intros Hs n x. simpl. intros [<- <-]%lookup_singleton_Some. done. Qed.

(** The schemas read from the nodes of a document. *)
Fixpoint parse_schemas (l : list node) : dres (list schema) :=
  match l with
  | [] => Done []
  | n :: l => s ← parse_schema_definition n; ss ← parse_schemas l; Done (s :: ss)
  end.

Definition singletons (ss : list schema) : list database :=
  (fun s => Database {[sc_name s := s]}) <$> ss.

Lemma parse_schemas_wf l ss :
  parse_schemas l = Done ss -> Forall (fun s => wf_schema (sc_name s) s) ss.
Proof.
  revert ss. induction l as [|n l IH]; intros ss; simpl; [by intros [= <-]|].
  intros (s & Hs & H)%bind_inv. apply bind_inv in H as (ss' & H1 & [= <-]).
  constructor; [by eapply parse_schema_wf|by apply IH].
Qed.

Lemma load_nodes_files o l d d' :
  load_nodes o l d = Done d' <->
  exists ss, parse_schemas l = Done ss /\
    load_files d ((fun x => (o, Some x)) <$> singletons ss) = Some d'.
Proof.
  revert d. induction l as [|n l IH]; intros d; simpl.
  { split; [intros [= <-]; by exists []|]. by intros (ss & [= <-] & [= <-]). }
  destruct (parse_schema_definition n) as [s| |] eqn:Es; simpl; [|by split; [|intros (?&?&_)]..].
  unfold of_mut. rewrite singleton_merge.
  assert (forall P : list schema -> Prop,
    (exists ss, (ss ← parse_schemas l; Done (s :: ss)) = Done ss /\ P ss) <->
    exists ss, parse_schemas l = Done ss /\ P (s :: ss)) as Hex.
  { intros P. split.
    - intros (ss & (x & Hx & [= <-])%bind_inv & Hp). by exists x.
    - intros (ss & -> & Hp). by exists (s :: ss). }
  rewrite Hex. clear Hex. csimpl.
  destruct (database_merge _ _ _) as [x [[]|]]; simpl; [by rewrite IH|].
  split; [done|]. by intros (?&_&?).
Qed.

Lemma singletons_wf ss (o : iter_order) :
  Forall (fun s => wf_schema (sc_name s) s) ss ->
  Forall (fun f : iter_order * option database => forall x, f.2 = Some x -> wf_db x)
    ((fun x => (o, Some x)) <$> singletons ss).
Proof.
  unfold singletons. induction 1; csimpl; constructor; [|done]. simpl. intros x' [= <-].
  by apply singleton_wf.
Qed.

(** A document loads exactly when its schemas parse and do not clash, and then the result holds
    exactly what they define. *)
Lemma load_nodes_spec o l d d' :
  wf_db d ->
  load_nodes o l d = Done d' <->
  exists ss, parse_schemas l = Done ss /\ no_clashes (d :: singletons ss) /\ wf_db d' /\
    contains_exactly (d :: singletons ss) d'.
Proof.
  intros Hd. rewrite load_nodes_files.
  assert (forall ss : list schema,
     ((fun x : database => (o, Some x)) <$> singletons ss).*2 = Some <$> singletons ss) as Hs.
  { intros ss. by rewrite <- list_fmap_compose. }
  split.
  - intros (ss & Hss & Hl). exists ss. split; [done|].
    apply load_files_spec in Hl; [|done|by apply singletons_wf, (parse_schemas_wf l)].
    destruct Hl as (k & Hk & Hrest). rewrite Hs in Hk. apply (inj (fmap Some)) in Hk. by subst k.
  - intros (ss & Hss & Hrest). exists ss. split; [done|].
    apply load_files_spec; [done|by apply singletons_wf, (parse_schemas_wf l)|].
    exists (singletons ss). by rewrite Hs.
Qed.

Lemma wf_new : wf_db database_new.
Proof. intros n s. simpl. by rewrite lookup_empty. Qed.

(** Whatever is loaded is well formed. *)
Lemma load_document_wf o m d : load_document o m = Done d -> wf_db d.
Proof.
  unfold load_document. intros (l & _ & H)%bind_inv.
  apply load_nodes_spec in H as (ss & _ & _ & H & _); [done|apply wf_new].
Qed.
