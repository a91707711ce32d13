(** The errors of the definitions are the reports of their mistakes. *)
From Verif Require Import Base Text Types Changes SpecSnapshot Node Yaml SpecDefinition Ddl ColumnRegex Load SpecMerge
  TextLemmas KeyLemmas YamlLemmas DdlLemmas MergeLemmas ColumnLemmas ParseLemmas PanicLemmas ContentLemmas
  DefinitionLemmas SnapshotExamples SpecMeaning MeaningLemmas Display SpecReport.

Lemma label_eq n : display_string n = label n.
Proof. unfold display_string, label. destruct (n_name n); [done|]. by rewrite app_nil_r. Qed.

(** ** One parser *)
Lemma opened_fail {A} (k : str) (n : node) (f : str -> list node -> dres A) e :
  n_type n = k ->
  (_ ← assert_that (n_type n = k); name ← coerce_name n; l ← coerce_nodes n; f name l) = Fail e <->
  (n_name n = None /\ e = NameRequired (label n)) \/
  exists name, n_name n = Some name /\
    ((below n = None /\ e = ChildNodesRequired (label n)) \/
     exists l, below n = Some l /\ f name l = Fail e).
Proof.
  intros Hk. unfold coerce_name, coerce_nodes. rewrite below_eq, assert_true_done, label_eq by done. simpl.
  destruct (n_name n) as [name|]; simpl.
  - destruct (below n) as [l|]; simpl; split.
    + intros H. right. exists name. split; [done|]. right. by exists l.
    + intros [[? _]|(? & [= <-] & [[? _]|(? & [= <-] & H)])]; done.
    + intros [= <-]. right. exists name. split; [done|]. by left.
    + intros [[? _]|(? & [= <-] & [[_ ->]|(? & ? & H)])]; done.
  - split; [intros [= <-]; by left|]. by intros [[_ ->]|(? & ? & _)].
Qed.
Lemma check_fail {A} n es (k : dres A) e :
  (forall e, k <> Fail e) ->
  (_ ← check_errors n es; k) = Fail e <-> es <> [] /\ e = HasErrors (label n) es.
Proof.
  intros Hk. unfold check_errors. rewrite label_eq. destruct es as [|x es]; simpl.
  - split; [intros H; by apply Hk in H|]. by intros [? _].
  - split; [intros [= <-]; done|]. by intros [_ ->].
Qed.
Lemma unwrap_not_Fail {A B} (o : option A) (f : A -> dres B) :
  (forall a e, f a <> Fail e) -> forall e, (a ← unwrap o; f a) <> Fail e.
Proof. intros Hf e. destruct o; simpl; [apply Hf|done]. Qed.

(** The loop: the errors of the attributes that have one; the others count. *)
Lemma collect_faults {S X : Type} (f : S -> node -> dres S) (p : X -> S) (ok : node -> Prop)
    (upd : X -> node -> X) (R : node -> option derror) :
  (forall x c st', f (p x) c = Done st' <-> ok c /\ st' = p (upd x c)) ->
  (forall st c e, f st c = Fail e <-> R c = Some e) ->
  (forall st c, f st c <> Panic) ->
  (forall x c, ~ ok c -> upd x c = x) ->
  forall l x e0, collect f (p x) e0 l = Done (p (foldl upd x l), e0 ++ omap R l).
Proof.
  intros H1 H2 H3 H4. induction l as [|c l IH]; intros x e0; simpl; [by rewrite app_nil_r|].
  destruct (f (p x) c) as [st'|e|] eqn:E.
  - destruct (R c) as [e|] eqn:Hr; [apply (H2 (p x)) in Hr; congruence|].
    apply H1 in E as [_ ->]. apply IH.
  - rewrite (proj1 (H2 _ _ _) E). rewrite H4.
    + rewrite IH. by rewrite <- app_assoc.
    + intros Hok. assert (f (p x) c = Done (p (upd x c))) by by apply H1. congruence.
  - by apply H3 in E.
Qed.
Lemma next_not_given {A} k (get : node -> option A) c o : ~ given k get c -> next k get c o = o.
Proof.
  intros H. unfold next. case_decide as Hk; [|done]. destruct (get c) eqn:Hg; [|done].
  destruct H. by split; [|rewrite Hg].
Qed.

(** The steps. *)
Ltac step_fails :=
  unfold coerce_string_value, coerce_boolean_value, coerce_integer_value, coerce_string_varargs_value;
  rewrite ?text_eq, ?flag_eq, ?whole_eq, ?texts_eq, ?label_eq; unfold ill;
  repeat match goal with |- context [ok_or ?o _] => destruct o eqn:?; simpl end; simpl;
  split; intros Hs; try discriminate Hs; injection Hs as <-; reflexivity.
Lemma of_type_decide n t : of_type n t = if decide (n_type n = t) then true else false.
Proof. unfold of_type. case_bool_decide; by case_decide. Qed.

Ltac fail_cases :=
  simpl; rewrite ?of_type_decide;
  repeat (case_decide; [step_fails|]); rewrite label_eq;
  split; intros Hs; try discriminate Hs; injection Hs as <-; reflexivity.
Ltac panic_cases :=
  unfold of_type, coerce_string_value, coerce_boolean_value, coerce_integer_value, coerce_string_varargs_value;
  repeat (case_bool_decide;
    [repeat match goal with |- context [ok_or ?o _] => destruct o; simpl end; simpl; done|]); done.

Lemma pk_step_fail st c e : pk_step st c = Fail e <-> fault primary_key_attributes c = Some e.
Proof. destruct st as [[a d] i]. unfold pk_step. fail_cases. Qed.
Lemma pk_step_panic st c : pk_step st c <> Panic.
Proof. destruct st as [[a d] i]. unfold pk_step. panic_cases. Qed.
Lemma uq_step_fail st c e : uq_step st c = Fail e <-> fault unique_attributes c = Some e.
Proof. destruct st as [[a d] i]. unfold uq_step. fail_cases. Qed.
Lemma uq_step_panic st c : uq_step st c <> Panic.
Proof. destruct st as [[a d] i]. unfold uq_step. panic_cases. Qed.
Lemma ck_step_fail st c e : ck_step st c = Fail e <-> fault check_attributes c = Some e.
Proof. destruct st as [[a d] i]. unfold ck_step. fail_cases. Qed.
Lemma ck_step_panic st c : ck_step st c <> Panic.
Proof. destruct st as [[a d] i]. unfold ck_step. panic_cases. Qed.
Lemma vw_step_fail st c e : vw_step st c = Fail e <-> fault view_attributes c = Some e.
Proof. unfold vw_step. fail_cases. Qed.
Lemma vw_step_panic st c : vw_step st c <> Panic.
Proof. unfold vw_step. panic_cases. Qed.
Lemma fn_step_fail st c e : fn_step st c = Fail e <-> fault function_attributes c = Some e.
Proof. destruct st as [[[b l] r] v]. unfold fn_step. fail_cases. Qed.
Lemma fn_step_panic st c : fn_step st c <> Panic.
Proof. destruct st as [[[b l] r] v]. unfold fn_step. panic_cases. Qed.

(** What a reference names besides its schema does not depend on the schema it is in. *)
Lemma target_any s n : (fun r => (r.1.2, r.2)) <$> target s n = (fun r => (r.1.2, r.2)) <$> target [] n.
Proof.
  unfold target. destruct (named texts n) as [[name cols]|]; [|done]. destruct (cut name) as [[a b]|]; [|done].
  by destruct (cut b).
Qed.
Lemma last_target_any s l :
  (fun r => (r.1.2, r.2)) <$> last_value (L "references") (target s) l =
  (fun r => (r.1.2, r.2)) <$> last_value (L "references") (target []) l.
Proof.
  induction l as [|c l IH]; [done|]. rewrite !last_value_cons.
  destruct (last_value (L "references") (target s) l), (last_value (L "references") (target []) l); try done.
  case_decide; [|done]. apply target_any.
Qed.
Lemma reference_fail {A} s n (F : str -> str -> list str -> A) e :
  ('(name, v) ← coerce_name_and_string_varargs_value n;
   '(x, y) ← parse_table_reference s name; Done (F x y v)) = Fail e <-> mistake AReference n = Some e.
Proof.
  unfold coerce_name_and_string_varargs_value. rewrite texts_eq, !label_eq. unfold mistake, target, named.
  destruct (n_name n) as [name|] eqn:Hn; simpl; [|split; by intros [= <-]].
  destruct (texts n) as [v|] eqn:Hv; simpl; [|split; by intros [= <-]].
  unfold parse_table_reference. rewrite (split_cut name). destruct (cut name) as [[a b]|]; simpl; [|done].
  rewrite (split_cut b). destruct (cut b) as [[b1 b2]|]; simpl; [|done].
  pose proof (split_nonempty b2). destruct (split_on 46 b2); [done|]. split; by intros [= <-].
Qed.
Lemma fk_step_fail s st c e : fk_step s st c = Fail e <-> fault foreign_key_attributes c = Some e.
Proof.
  destruct st as [cols ts ta tc de ini m u d]. unfold fk_step. rewrite ?of_type_decide.
  unfold foreign_key_attributes, deferral_attributes. cbn [fault app].
  case_decide; [cbn [mistake]; step_fails|].
  case_decide; [apply reference_fail|].
  destruct (decide (n_type c = L "match")) as [E1|E1].
  { do 2 (rewrite decide_False by (rewrite E1; done)). cbn [mistake]; step_fails. }
  destruct (decide (n_type c = L "on update")) as [E2|E2].
  { do 2 (rewrite decide_False by (rewrite E2; done)). cbn [mistake]; step_fails. }
  destruct (decide (n_type c = L "on delete")) as [E3|E3].
  { do 2 (rewrite decide_False by (rewrite E3; done)). cbn [mistake]; step_fails. }
  case_decide; [cbn [mistake]; step_fails|].
  case_decide; [cbn [mistake]; step_fails|].
  rewrite label_eq. split; by intros [= <-].
Qed.
Lemma reference_panic {A} s n (F : str -> str -> list str -> A) :
  ('(name, v) ← coerce_name_and_string_varargs_value n;
   '(x, y) ← parse_table_reference s name; Done (F x y v)) <> Panic.
Proof.
  unfold coerce_name_and_string_varargs_value. destruct (n_name n) as [name|]; [|done]. simpl.
  destruct (get_string_varargs_value n); [|done]. simpl.
  unfold parse_table_reference. by destruct (split_on 46 name) as [|? [|? [|? ?]]].
Qed.
Lemma fk_step_panic s st c : fk_step s st c <> Panic.
Proof.
  destruct st as [cols ts ta tc de ini m u d]. unfold fk_step, of_type. 
  case_bool_decide; [unfold coerce_string_varargs_value; by destruct (get_string_varargs_value c)|].
  case_bool_decide; [apply reference_panic|]. fold (of_type c (L "deferrable")).
  panic_cases.
Qed.
Lemma named_fail {A} n (F : str -> str -> A) e :
  ('(name, v) ← coerce_name_and_string_value n; Done (F name v)) = Fail e <-> mistake ANamed n = Some e.
Proof.
  unfold coerce_name_and_string_value. rewrite text_eq, !label_eq. unfold mistake, ill.
  destruct (n_name n) as [name|]; simpl; [|split; by intros [= <-]].
  destruct (text n) as [v|]; simpl; [done|split; by intros [= <-]].
Qed.
Lemma sq_step_fail st c e : sq_step st c = Fail e <-> fault sequence_attributes c = Some e.
Proof.
  destruct st as [ty inc mn mx start cache cycle ot oc]. unfold sq_step. rewrite ?of_type_decide.
  unfold sequence_attributes. cbn [fault].
  do 7 (case_decide; [cbn [mistake]; step_fails|]).
  case_decide; [apply named_fail|]. rewrite label_eq. split; by intros [= <-].
Qed.
Lemma sq_step_panic st c : sq_step st c <> Panic.
Proof.
  destruct st as [ty inc mn mx start cache cycle ot oc]. unfold sq_step, coerce_name_and_string_value.
  unfold of_type, coerce_string_value, coerce_boolean_value, coerce_integer_value.
  repeat (case_bool_decide;
    [repeat match goal with |- context [ok_or ?o _] => destruct o; simpl end; simpl; done|]). done.
Qed.

(** Nothing counts that is not properly given. *)
Ltac unchanged H := repeat (rewrite next_not_given by (intros ?; apply H; unfold deferral; tauto)); done.
Lemma pk_unchanged x c : ~ pk_ok c -> pk_upd x c = x.
Proof. destruct x as [[a d] i]. intros H. unfold pk_ok in H. simpl. unchanged H. Qed.
Lemma uq_unchanged x c : ~ uq_ok c -> uq_upd x c = x.
Proof. destruct x as [[a d] i]. intros H. unfold uq_ok in H. simpl. unchanged H. Qed.
Lemma ck_unchanged x c : ~ ck_ok c -> ck_upd x c = x.
Proof. destruct x as [[a d] i]. intros H. unfold ck_ok in H. simpl. unchanged H. Qed.
Lemma fk_unchanged s x c : ~ fk_ok s c -> fk_upd s x c = x.
Proof. destruct x as [[[[[[cols r] m] u] d] de] ini]. intros H. unfold fk_ok in H. simpl. unchanged H. Qed.
Lemma fn_unchanged x c : ~ fn_ok c -> fn_upd x c = x.
Proof. destruct x as [[[a d] i] v]. intros H. unfold fn_ok in H. simpl. unchanged H. Qed.
Lemma sq_unchanged x c : ~ sq_ok c -> sq_upd x c = x.
Proof. destruct x as [[[[[[[ty inc] mn] mx] start] cache] cycle] owner]. intros H. unfold sq_ok in H. simpl. unchanged H. Qed.

(** ** Objects with attributes *)
Lemma push_lacks {A} n (o : option A) what es :
  push_if (is_none o) (AttributeRequired (label n) what) es = es ++ (AttributeRequired (label n) <$> unless o what).
Proof. destruct o; simpl; [by rewrite app_nil_r|done]. Qed.
Lemma push_lacks_any {A} n (o : option (list A)) what es :
  push_if (is_empty (default [] o)) (AttributeRequired (label n) what) es =
  es ++ (AttributeRequired (label n) <$> unless_any o what).
Proof. destruct o as [[|]|]; simpl; [done|by rewrite app_nil_r|done]. Qed.
Lemma attributes_Fail {A} k T lacks n (f : str -> list node -> dres A) e :
  n_type n = k ->
  (forall name l e, f name l = Fail e <->
     let es := omap (fault T) l ++ (AttributeRequired (label n) <$> lacks l) in
     es <> [] /\ e = HasErrors (label n) es) ->
  (_ ← assert_that (n_type n = k); name ← coerce_name n; l ← coerce_nodes n; f name l) = Fail e <->
  attributes_report T lacks n e.
Proof.
  intros Hk Hf. rewrite opened_fail by done. unfold attributes_report, report_of.
  apply or_iff_compat_l. apply exist_proper; intros name. apply and_iff_compat_l, or_iff_compat_l.
  apply exist_proper; intros l. setoid_rewrite Hf. split.
  - intros (Hl & Hne & ->). by eexists.
  - by intros (es & Hl & -> & Hne & ->).
Qed.

Lemma pk_Fail s t n e :
  n_type n = L "constraint" ->
  parse_primary_key_definition s t n = Fail e <->
  attributes_report primary_key_attributes
    (fun l => unless (last_value (L "primary key") texts l) (L "primary key")) n e.
Proof.
  intros Ht. unfold parse_primary_key_definition. apply attributes_Fail; [done|].
  intros name l e'. cbv zeta.
  rewrite (collect_faults _ id _ _ _ pk_step_by pk_step_fail pk_step_panic pk_unchanged l (None, None, None)).
  rewrite pk_fold, !after_None. unfold id. cbn [mbind outcome_bind]. rewrite label_eq, push_lacks.
  apply check_fail. by apply unwrap_not_Fail.
Qed.
Lemma uq_Fail s t n e :
  n_type n = L "constraint" ->
  parse_unique_definition s t n = Fail e <->
  attributes_report unique_attributes
    (fun l => unless_any (last_value (L "unique") texts l) (L "unique")) n e.
Proof.
  intros Ht. unfold parse_unique_definition. apply attributes_Fail; [done|].
  intros name l e'. cbv zeta.
  change (@nil str, @None bool, @None bool) with (uq_state (None, None, None)).
  rewrite (collect_faults _ uq_state _ _ _ uq_step_by uq_step_fail uq_step_panic uq_unchanged l).
  rewrite uq_fold, !after_None. unfold uq_state. cbn [mbind outcome_bind fst snd]. rewrite label_eq, push_lacks_any.
  by apply check_fail.
Qed.
Lemma ck_Fail s t n e :
  n_type n = L "constraint" ->
  parse_check_constraint_definition s t n = Fail e <->
  attributes_report check_attributes
    (fun l => unless (last_value (L "check") text l) (L "expression")) n e.
Proof.
  intros Ht. unfold parse_check_constraint_definition. apply attributes_Fail; [done|].
  intros name l e'. cbv zeta.
  rewrite (collect_faults _ id _ _ _ ck_step_by ck_step_fail ck_step_panic ck_unchanged l (None, None, None)).
  rewrite ck_fold, !after_None. unfold id. cbn [mbind outcome_bind]. rewrite label_eq, push_lacks.
  apply check_fail. by apply unwrap_not_Fail.
Qed.
Lemma fk_Fail s t n e :
  n_type n = L "constraint" ->
  parse_foreign_key_constraint_definition s t n = Fail e <->
  attributes_report foreign_key_attributes foreign_key_lacks n e.
Proof.
  intros Ht. unfold parse_foreign_key_constraint_definition. apply attributes_Fail; [done|].
  intros name l e'. cbv zeta.
  change (FkState None None None [] None None None None None)
    with (fk_of (None, None, None, None, None, None, None)).
  rewrite (collect_faults _ fk_of _ _ _ (fk_step_by s) (fk_step_fail s) (fk_step_panic s) (fk_unchanged s) l).
  rewrite fk_fold, !after_None. cbn [mbind outcome_bind fk_of fs_columns fs_tschema fs_ttable fs_tcolumns
      fs_deferrable fs_initially fs_match fs_update fs_delete].
  rewrite label_eq, push_lacks. unfold foreign_key_lacks. rewrite fmap_app, !app_assoc.
  assert (forall es,
    push_if (is_none ((fun r => r.1.1) <$> last_value (L "references") (target s) l) ||
             is_none ((fun r => r.1.2) <$> last_value (L "references") (target s) l) ||
             is_empty (default [] (snd <$> last_value (L "references") (target s) l)))
      (AttributeRequired (label n) (L "references")) es =
    es ++ (AttributeRequired (label n) <$>
      unless_any (snd <$> last_value (L "references") (target []) l) (L "references"))) as ->.
  { intros es. pose proof (last_target_any s l) as Ha.
    destruct (last_value (L "references") (target s) l) as [[[a b] c]|],
      (last_value (L "references") (target []) l) as [[[a' b'] c']|]; simplify_eq/=; [|done].
    destruct c'; simpl; [done|by rewrite app_nil_r]. }
  apply check_fail. apply unwrap_not_Fail; intros ?. apply unwrap_not_Fail; intros ?. by apply unwrap_not_Fail.
Qed.
Lemma constraint_Fail s t n e :
  n_type n = L "constraint" ->
  parse_constraint_definition s t n = Fail e <-> constraint_report n e.
Proof.
  intros Ht. unfold parse_constraint_definition, constraint_report, coerce_nodes. rewrite below_eq, label_eq.
  destruct (below n) as [[|k r]|] eqn:Hb; simpl.
  - split; [done|]. by intros [[? _]|(? & ? & ? & _)].
  - assert (forall {A B} (m : dres A) (g : A -> B), (x ← m; Done (g x)) = Fail e <-> m = Fail e) as Hbind.
    { intros A B [?|?|] g; simpl; [done| |done]. split; by intros [= ->]. }
    unfold of_type.
    case_bool_decide as E1; [|case_bool_decide as E2; [|case_bool_decide as E3; [|case_bool_decide as E4]]].
    + rewrite Hbind, pk_Fail by done. split.
      * intros H. right. exists k, r. split; [done|]. by left.
      * intros [[? _]|(? & ? & [= <- <-] & [[_ H]|[[E _]|[[E _]|[E _]]]])]; [done|done|exfalso; two_kinds..].
    + rewrite Hbind, uq_Fail by done. split.
      * intros H. right. exists k, r. split; [done|]. right; by left.
      * intros [[? _]|(? & ? & [= <- <-] & [[E H]|[[E H]|[[E _]|[E _]]]])]; [done|done|done|exfalso; two_kinds..].
    + rewrite Hbind, fk_Fail by done. split.
      * intros H. right. exists k, r. split; [done|]. right; right; by left.
      * intros [[? _]|(? & ? & [= <- <-] & [[E H]|[[E H]|[[E H]|[E _]]]])]; [done|done|done|done|exfalso; two_kinds].
    + rewrite Hbind, ck_Fail by done. split.
      * intros H. right. exists k, r. split; [done|]. right; right; by right.
      * intros [[? _]|(? & ? & [= <- <-] & [[E H]|[[E H]|[[E H]|[E H]]]])]; done.
    + split; [done|]. intros [[? _]|(? & ? & [= <- <-] & [[E H]|[[E H]|[[E H]|[E H]]]])]; done.
  - split; [intros [= <-]; by left|]. intros [[_ ->]|(? & ? & ? & _)]; done.
Qed.
Lemma column_Fail s t n e :
  n_type n = L "column" -> parse_column_definition s t n = Fail e <-> column_report n e.
Proof.
  intros Ht. unfold parse_column_definition, column_report, coerce_name, coerce_string_value.
  rewrite assert_true_done, text_eq, !label_eq by done. simpl.
  destruct (n_name n) as [name|]; simpl.
  2:{ split; [intros [= <-]; by left|]. by intros [[_ ->]|[[[? ?] _]|[[? ?] _]]]. }
  destruct (text n) as [x|]; simpl.
  2:{ split; [intros [= <-]; right; left; by eauto|]. by intros [[? _]|[(_ & _ & ->)|(_ & ? & ? & _)]]. }
  destruct (parse_column_expression x) as [[[ty nn] d]|e'|] eqn:Hp; simpl.
  - split; [done|]. intros [[? _]|[(_ & ? & _)|(_ & ? & [= <-] & Hno & _)]]; [done|done|].
    destruct Hno. exists ty, nn, d. by apply column_reading_iff.
  - assert (e' = InvalidTypeExpression x) as ->.
    { rewrite parse_column_expression_eq in Hp. unfold read_column_expression in Hp. repeat case_match; congruence. }
    apply column_rejected_iff in Hp. split.
    + intros [= <-]. right; right. split; [done|]. by exists x.
    + by intros [[? _]|[(_ & ? & _)|(_ & ? & [= <-] & _ & ->)]].
  - exfalso. rewrite parse_column_expression_eq in Hp. unfold read_column_expression in Hp. repeat case_match; congruence.
Qed.

Lemma view_Fail s n e :
  n_type n = L "view" ->
  parse_view_definition s n = Fail e <->
  attributes_report view_attributes (fun l => unless (last_value (L "as") text l) (L "as")) n e.
Proof.
  intros Ht. unfold parse_view_definition. apply attributes_Fail; [done|].
  intros name l e'. cbv zeta.
  rewrite (collect_faults _ id _ (fun o c => next (L "as") text c o) _ vw_step_by vw_step_fail vw_step_panic
             (fun x c => next_not_given (L "as") text c x) l None).
  rewrite vw_fold, !after_None. unfold id. cbn [mbind outcome_bind]. rewrite label_eq, push_lacks.
  apply check_fail. by apply unwrap_not_Fail.
Qed.
Lemma function_Fail s n e :
  n_type n = L "function" ->
  parse_function_definition s n = Fail e <->
  attributes_report function_attributes (fun l => unless (last_value (L "as") text l) (L "body")) n e.
Proof.
  intros Ht. unfold parse_function_definition. apply attributes_Fail; [done|].
  intros name l e'. cbv zeta.
  rewrite (collect_faults _ id _ _ _ fn_step_by fn_step_fail fn_step_panic fn_unchanged l (None, None, None, None)).
  rewrite fn_fold, !after_None. unfold id. cbn [mbind outcome_bind]. rewrite label_eq, push_lacks.
  apply check_fail. by apply unwrap_not_Fail.
Qed.
Lemma index_Fail s n e :
  n_type n = L "index" -> parse_index_definition s n = Fail e <-> report_of (fun _ es => es = []) n e.
Proof.
  intros Ht. unfold parse_index_definition. rewrite opened_fail by done. unfold report_of.
  apply or_iff_compat_l. apply exist_proper; intros name. apply and_iff_compat_l, or_iff_compat_l.
  apply exist_proper; intros l. split; [|by intros (es & _ & -> & ? & _)]. intros [_ H]. exfalso. revert H.
  change (@None str, @None (list str), @None bool, @None str) with (ix_of (None, None, None)).
  destruct (ix_collect l (None, None, None) []) as [e' ->]. simpl.
  destruct (ix_of _) as [[[tb keys] uq] me]. apply unwrap_not_Fail; intros ? ?. by apply unwrap_not_Fail.
Qed.
Lemma bound_not_Fail (o : option Z) inc ty :
  (forall e, match o with Some v => Done v | None => get_sequence_min_value inc ty end <> Fail e) /\
  (forall e, match o with Some v => Done v | None => get_sequence_max_value inc ty end <> Fail e).
Proof.
  unfold get_sequence_min_value, get_sequence_max_value. destruct o; [done|].
  split; repeat case_match; done.
Qed.
Lemma sequence_Fail s n e :
  n_type n = L "sequence" -> parse_sequence_definition s n <> Panic ->
  parse_sequence_definition s n = Fail e <-> attributes_report sequence_attributes (fun _ => []) n e.
Proof.
  intros Ht. unfold parse_sequence_definition.
  change (SqState None None None None None None None None None)
    with (sq_of (None, None, None, None, None, None, None, None)).
  intros Hp. rewrite opened_fail by done. unfold attributes_report, report_of.
  apply or_iff_compat_l. destruct (n_name n) as [name|] eqn:Hn.
  2:{ split; by intros (? & ? & _). }
  apply exist_proper; intros name'. apply and_iff_compat_l, or_iff_compat_l.
  destruct (below n) as [l|] eqn:Hl.
  2:{ split; [by intros (? & ? & _)|by intros (? & ? & ? & _)]. }
  revert Hp. unfold coerce_name, coerce_nodes. rewrite assert_true_done, Hn, below_eq, Hl by done.
  cbn [ok_or mbind outcome_bind].
  rewrite (collect_faults _ sq_of _ _ _ sq_step_by sq_step_fail sq_step_panic sq_unchanged l).
  cbn [mbind outcome_bind app].
  set (st := sq_of (foldl sq_upd (None, None, None, None, None, None, None, None) l)). cbv zeta.
  destruct (bound_not_Fail (ss_min st) (default default_increment (ss_increment st))
    (default default_seq_type (ss_type st))) as [Hmin _].
  destruct (bound_not_Fail (ss_max st) (default default_increment (ss_increment st))
    (default default_seq_type (ss_type st))) as [_ Hmax].
  intros Hp.
  assert (forall l', Some l = Some l' /\
    ('(st, errors) ← collect sq_step (sq_of (None, None, None, None, None, None, None, None)) [] l';
      mn ← match ss_min st with Some v => Done v
           | None => get_sequence_min_value (default default_increment (ss_increment st))
                       (default default_seq_type (ss_type st)) end;
      mx ← match ss_max st with Some v => Done v
           | None => get_sequence_max_value (default default_increment (ss_increment st))
                       (default default_seq_type (ss_type st)) end;
      _ ← check_errors n errors;
      Done (Sequence s name' (default default_seq_type (ss_type st)) (default default_increment (ss_increment st))
        mn mx (default (get_sequence_start (default default_increment (ss_increment st)) mn mx) (ss_start st))
        (default default_cache (ss_cache st)) (default default_cycle (ss_cycle st)) (ss_table st) (ss_column st)))
      = Fail e <->
    Some l = Some l' /\ omap (fault sequence_attributes) l' <> [] /\
      e = HasErrors (label n) (omap (fault sequence_attributes) l')) as Hkey.
  { intros l'. split.
    - intros [[= <-] H]. split; [done|]. revert H.
      rewrite (collect_faults _ sq_of _ _ _ sq_step_by sq_step_fail sq_step_panic sq_unchanged l).
      cbn [mbind outcome_bind app]. fold st.
      destruct (match ss_min st with Some v => Done v | None => _ end) as [mn|e1|] eqn:E1; cbn [mbind outcome_bind] in *;
        [|by destruct (Hmin e1)|done].
      destruct (match ss_max st with Some v => Done v | None => _ end) as [mx|e2|] eqn:E2; cbn [mbind outcome_bind] in *;
        [|by destruct (Hmax e2)|done].
      by apply check_fail.
    - intros ([= <-] & H). split; [done|]. revert H.
      rewrite (collect_faults _ sq_of _ _ _ sq_step_by sq_step_fail sq_step_panic sq_unchanged l).
      cbn [mbind outcome_bind app]. fold st.
      destruct (match ss_min st with Some v => Done v | None => _ end) as [mn|e1|] eqn:E1; cbn [mbind outcome_bind] in *;
        [|by destruct (Hmin e1)|done].
      destruct (match ss_max st with Some v => Done v | None => _ end) as [mx|e2|] eqn:E2; cbn [mbind outcome_bind] in *;
        [|by destruct (Hmax e2)|done].
      by apply check_fail. }
  split.
  - intros (l' & H). apply Hkey in H as ([= <-] & Hne & ->). exists l, (omap (fault sequence_attributes) l).
    split; [done|]. split; [simpl; by rewrite app_nil_r|done].
  - intros (l' & es & [= <-] & -> & Hne & ->). exists l. apply Hkey. simpl in *. rewrite app_nil_r in *. done.
Qed.

(** ** Tables and schemas *)
Lemma collect_reports {S : Type} (f : S -> node -> dres S) (R : node -> derror -> Prop) l :
  (forall st c e, c ∈ l -> f st c <> Panic -> f st c = Fail e <-> R c e) ->
  (forall st c, c ∈ l -> f st c <> Panic) ->
  forall st e0, exists st' es, collect f st e0 l = Done (st', e0 ++ es) /\ reports R l es.
Proof.
  induction l as [|c l IH]; intros Hf Hp st e0; simpl.
  { exists st, []. rewrite app_nil_r. split; [done|constructor]. }
  destruct (f st c) as [st1|e|] eqn:E.
  - destruct (IH (fun st c e Hc => Hf st c e (elem_of_list_further _ _ _ Hc))
      (fun st c Hc => Hp st c (elem_of_list_further _ _ _ Hc)) st1 e0) as (st' & es & Hc & Hr).
    exists st', es. split; [done|]. constructor; [|done]. intros [e He].
    apply (Hf st) in He; [congruence|left|congruence].
  - destruct (IH (fun st c e Hc => Hf st c e (elem_of_list_further _ _ _ Hc))
      (fun st c Hc => Hp st c (elem_of_list_further _ _ _ Hc)) st (e0 ++ [e])) as (st' & es & Hc & Hr).
    exists st', (e :: es). split; [rewrite Hc, <- app_assoc; done|]. constructor; [|done].
    apply (Hf st); [left|congruence|done].
  - by apply Hp in E; [|left].
Qed.
Lemma reports_one (R : node -> derror -> Prop) l es es' :
  (forall c e e', c ∈ l -> R c e -> R c e' -> e = e') -> reports R l es -> reports R l es' -> es = es'.
Proof.
  intros HR H. revert es'. induction H as [|c e l es He H IH|c l es He H IH]; intros es' H'.
  - by inversion H'.
  - inversion H' as [|c' e' l' es2 He' H2|c' l' es2 He' H2]; subst.
    + f_equal; [eapply HR; [left|done|done]|]. apply IH; [|done]. intros ? ? ? Hc. apply HR. by right.
    + destruct He'. by exists e.
  - inversion H' as [|c' e' l' es2 He' H2|c' l' es2 He' H2]; subst.
    + destruct He. by exists e'.
    + apply IH; [|done]. intros ? ? ? Hc. apply HR. by right.
Qed.
Lemma unwrap_all_not_Fail {S A : Type} (f : A -> mut S ()) l s e : unwrap_all f l s <> Fail e.
Proof.
  revert s. induction l as [|a l IH]; intros s; simpl; [done|]. unfold unwrap_mut.
  destruct (f a s) as [s' [?|?]]; simpl; [apply IH|done].
Qed.

(** What a parser does that collects the reports of its nodes. *)
Lemma contents_Fail {A S : Type} (k : str) n (f : str -> S -> node -> dres S) (st0 : S) (fin : str -> S -> dres A)
    (R : node -> derror -> Prop) e :
  n_type n = k ->
  (forall name st c e, f name st c <> Panic -> f name st c = Fail e <-> R c e) ->
  (forall name st st' c, f name st c = Panic -> f name st' c = Panic) ->
  (forall name st e, fin name st <> Fail e) ->
  let m := (_ ← assert_that (n_type n = k); name ← coerce_name n; l ← coerce_nodes n;
            '(st, errors) ← collect (f name) st0 [] l;
            _ ← check_errors n errors; fin name st) in
  m <> Panic -> m = Fail e <-> report_of (reports R) n e.
Proof.
  intros Hk Hf Hind Hfin m Hm. unfold m. rewrite opened_fail by done. unfold report_of.
  apply or_iff_compat_l. destruct (n_name n) as [name|] eqn:Hn.
  2:{ split; by intros (? & ? & _). }
  assert (forall name', (Some name = Some name' /\
    ((below n = None /\ e = ChildNodesRequired (label n)) \/
     exists l, below n = Some l /\
       ('(st, errors) ← collect (f name') st0 [] l; _ ← check_errors n errors; fin name' st) = Fail e)) <->
    (Some name = Some name' /\
    ((below n = None /\ e = ChildNodesRequired (label n)) \/
     exists l es, below n = Some l /\ reports R l es /\ es <> [] /\ e = HasErrors (label n) es))) as Hiff;
    [|by apply exist_proper].
  intros name'. destruct (decide (name = name')) as [<-|Hne].
  2:{ split; by intros [[= ?] _]. }
  apply and_iff_compat_l, or_iff_compat_l. destruct (below n) as [l|] eqn:Hl.
  2:{ split; [by intros (? & ? & _)|by intros (? & ? & ? & _)]. }
  unfold m in Hm. unfold coerce_name, coerce_nodes in Hm.
  rewrite assert_true_done, Hn, below_eq, Hl in Hm by done. simpl in Hm.
  assert (forall st c, c ∈ l -> f name st c <> Panic) as Hp.
  { intros st c Hc E. apply Hm. rewrite (collect_panic_2 (f name) st0 [] l c Hc); [done|].
    intros st'. by eapply Hind. }
  destruct (collect_reports (f name) R l (fun st c e _ => Hf name st c e) Hp st0 []) as (st' & es & Hc & Hr).
  split.
  - intros (l' & [= <-] & H). rewrite Hc in H. simpl in H. apply check_fail in H as [Hes ->]; [|apply Hfin].
    by exists l, es.
  - intros (l' & es' & [= <-] & Hr' & Hes & ->). exists l. split; [done|]. rewrite Hc. simpl.
    assert (es' = es) as ->.
    { eapply reports_one; [|exact Hr'|exact Hr]. intros c e1 e2 Hin H1 H2.
      apply (Hf name st0) in H1; [|by apply Hp]. apply (Hf name st0) in H2; [|by apply Hp]. congruence. }
    apply check_fail; [apply Hfin|done].
Qed.
Lemma bind_Done_fail {E A B} (m : outcome E A) (g : A -> B) e : (x ← m; Done (g x)) = Fail e <-> m = Fail e.
Proof. destruct m; simpl; [done| |done]. split; by intros [= ->]. Qed.
Lemma tb_step_fail s k st c e : tb_step s k st c = Fail e <-> entry_report c e.
Proof.
  destruct st as [cols cts]. unfold tb_step, of_type, entry_report.
  case_bool_decide as E1; [|case_bool_decide as E2]; rewrite ?bind_Done_fail.
  - rewrite column_Fail by done. split; [by left|]. intros [[_ H]|[[E H]|(E & _)]]; [done|exfalso; two_kinds|done].
  - rewrite constraint_Fail by done. split; [right; by left|]. by intros [[E H]|[[E H]|(_ & E & _)]].
  - rewrite label_eq. split; [intros [= <-]; by right; right|]. by intros [[E H]|[[E H]|(_ & _ & ->)]].
Qed.
Lemma table_Fail s n e :
  n_type n = L "table" -> parse_table_definition s n <> Panic ->
  parse_table_definition s n = Fail e <-> report_of (reports entry_report) n e.
Proof.
  intros Ht.
  set (fin := fun name (st : list column * list constraint) => let '(cols, cts) := st in
       t ← unwrap_all add_column cols (table_new s name); unwrap_all add_constraint cts t).
  assert (parse_table_definition s n =
    (_ ← assert_that (n_type n = L "table"); name ← coerce_name n; l ← coerce_nodes n;
     '(st, errors) ← collect (tb_step s name) ([], []) [] l; _ ← check_errors n errors; fin name st)) as ->.
  { unfold parse_table_definition. rewrite assert_true_done by done. simpl.
    destruct (coerce_name n); [|done|done]. simpl. destruct (coerce_nodes n); [|done|done]. simpl.
    by destruct (collect _ _ _ _) as [[[? ?] ?]| |]. }
  apply contents_Fail; [done|intros; apply tb_step_fail|..].
  - intros ? st st' c Hp%tb_step_aborts. by apply tb_step_aborts.
  - intros ? [cols cts] e'. simpl. destruct (unwrap_all add_column _ _) eqn:E; simpl; [apply unwrap_all_not_Fail| |done].
    by apply unwrap_all_not_Fail in E.
Qed.
Lemma sc_step_fail s st c e : sc_step s st c <> Panic -> sc_step s st c = Fail e <-> object_report c e.
Proof.
  destruct st as [rels funs]. unfold sc_step, of_type, object_report.
  case_bool_decide as E1; [|case_bool_decide as E2; [|case_bool_decide as E3; [|case_bool_decide as E4;
    [|case_bool_decide as E5]]]]; rewrite ?bind_Done_fail, ?bind_Done_panic.
  - intros Hp. rewrite table_Fail by done. split; [by left|].
    intros [[_ H]|[[E _]|[[E _]|[[E _]|[[E _]|(E & _)]]]]]; [done|exfalso; two_kinds..|].
    destruct E. is_kind.
  - intros _. rewrite view_Fail by done. split; [right; by left|].
    intros [[E _]|[[_ H]|[[E _]|[[E _]|[[E _]|(E & _)]]]]]; [exfalso; two_kinds|done|exfalso; two_kinds..|].
    destruct E. is_kind.
  - intros Hp. rewrite sequence_Fail by done. split; [intros H; do 3 right; by left|].
    intros [[E _]|[[E _]|[[E _]|[[_ H]|[[E _]|(E & _)]]]]]; [exfalso; two_kinds..|done|exfalso; two_kinds|].
    destruct E. is_kind.
  - intros Hp. rewrite index_Fail by done. split; [intros H; do 2 right; by left|].
    intros [[E _]|[[E _]|[[_ H]|[[E _]|[[E _]|(E & _)]]]]]; [exfalso; two_kinds|exfalso; two_kinds|done|exfalso; two_kinds|exfalso; two_kinds|].
    destruct E. is_kind.
  - intros Hp. rewrite function_Fail by done. split; [intros H; do 4 right; by left|].
    intros [[E _]|[[E _]|[[E _]|[[E _]|[[_ H]|(_ & E & _)]]]]]; [exfalso; two_kinds..|done|done].
  - intros _. rewrite label_eq. split.
    + intros [= <-]. do 5 right. split; [|done]. intros Hk.
      apply relation_kinds_inv in Hk. naive_solver.
    + by intros [[E _]|[[E _]|[[E _]|[[E _]|[[E _]|(_ & _ & ->)]]]]].
Qed.
Lemma schema_Fail n e :
  parse_schema_definition n <> Panic ->
  parse_schema_definition n = Fail e <-> schema_report n e.
Proof.
  destruct (decide (n_type n = L "schema")) as [Ht|Ht].
  2:{ intros []. unfold parse_schema_definition, assert_that. by rewrite decide_False. }
  set (fin := fun name (st : list relation * list function) => let '(rels, funs) := st in
       s ← unwrap_all add_relation rels (schema_new name); unwrap_all add_function funs s).
  assert (parse_schema_definition n =
    (_ ← assert_that (n_type n = L "schema"); name ← coerce_name n; l ← coerce_nodes n;
     '(st, errors) ← collect (sc_step name) ([], []) [] l; _ ← check_errors n errors; fin name st)) as ->.
  { unfold parse_schema_definition. rewrite assert_true_done by done. simpl.
    destruct (coerce_name n); [|done|done]. simpl. destruct (coerce_nodes n); [|done|done]. simpl.
    by destruct (collect _ _ _ _) as [[[? ?] ?]| |]. }
  apply contents_Fail; [done|intros; by apply sc_step_fail|..].
  - intros ? st st' c Hp%sc_step_aborts. by apply sc_step_aborts.
  - intros ? [rels funs] e'. simpl. destruct (unwrap_all add_relation _ _) eqn:E; simpl; [apply unwrap_all_not_Fail| |done].
    by apply unwrap_all_not_Fail in E.
Qed.
Lemma schema_report_iff n e : ~ schema_aborts n -> parse_schema_definition n = Fail e <-> schema_report n e.
Proof. intros H. apply schema_Fail. by rewrite schema_Panic. Qed.

(** ** Documents *)
Lemma load_nodes_Fail o l d e :
  load_nodes o l d = Fail e <->
  exists a n b d', l = a ++ n :: b /\ load_nodes o a d = Done d' /\ load_nodes o [n] d' = Fail e.
Proof.
  revert d. induction l as [|n l IH]; intros d.
  { split; [done|]. intros ([|? ?] & ? & ? & ? & ? & _); done. }
  split.
  - destruct (load_nodes o [n] d) as [d1|e1|] eqn:E.
    + assert (load_nodes o (n :: l) d = load_nodes o l d1) as ->.
      { simpl in *. apply bind_inv in E as (s & -> & E). simpl. apply bind_inv in E as (d2 & -> & [= ->]). done. }
      rewrite IH. intros (a & n' & b & d' & -> & Ha & Hn). exists (n :: a), n', b, d'. split; [done|].
      split; [|done]. simpl in *. apply bind_inv in E as (s & -> & E). simpl.
      apply bind_inv in E as (d2 & -> & [= ->]). done.
    + intros H. exists [], n, l, d. split; [done|]. split; [done|]. rewrite E. simpl in *.
      destruct (parse_schema_definition n) as [s|e2|]; simpl in *; [|congruence|done].
      destruct (of_mut _ d); simpl in *; [done|congruence|done].
    + intros H. simpl in *. destruct (parse_schema_definition n) as [s|e2|]; simpl in *; [|done|done].
      by destruct (of_mut _ d).
  - intros ([|x a] & n' & b & d' & Hl & Ha & Hp).
    + injection Hl as <- <-. injection Ha as <-. simpl in *.
      destruct (parse_schema_definition n) as [s|e2|]; simpl in *; [|congruence|done].
      destruct (of_mut _ d); simpl in *; [done|congruence|done].
    + injection Hl as <- ->. simpl in *. apply bind_inv in Ha as (s & -> & Ha). simpl.
      apply bind_inv in Ha as (d1 & -> & Ha). simpl. apply IH. by exists a, n', b, d'.
Qed.
Lemma load_nodes_app o a b d d1 :
  load_nodes o a d = Done d1 -> load_nodes o (a ++ b) d = load_nodes o b d1.
Proof.
  revert d. induction a as [|n a IH]; intros d; simpl; [by intros [= ->]|].
  intros (s & -> & H)%bind_inv. simpl. apply bind_inv in H as (d2 & -> & H). simpl. by apply IH.
Qed.
Lemma document_report o l e :
  load_nodes o l database_new = Fail e <->
  exists a n b d, l = a ++ n :: b /\ document_means a d /\ ~ schema_aborts n /\
    (schema_report n e \/
     exists s, schema_means n s /\ (~ exists d', document_means (a ++ [n]) d') /\
       load_nodes o (a ++ [n]) database_new = Fail e).
Proof.
  rewrite load_nodes_Fail. do 4 (apply exist_proper; intros ?). rename x into a, x0 into n, x1 into b, x2 into d.
  apply and_iff_compat_l. rewrite document_Done.
  destruct (load_nodes o a database_new) as [d1|e1|] eqn:Ha.
  2,3: split; [intros [H _]|intros [H _]]; apply (document_Done o) in H; congruence.
  assert (document_means a d <-> d1 = d) as ->.
  { rewrite <- (document_Done o), Ha. split; [by intros [= ->]|by intros ->]. }
  split.
  - intros [-> H]. split; [done|].
    assert (parse_schema_definition n <> Panic) as Hp.
    { intros E. simpl in H. rewrite E in H. done. }
    split; [by rewrite <- schema_Panic|]. destruct (parse_schema_definition n) as [s|e1|] eqn:E; [| |done].
    + right. exists s. split; [by apply schema_Done|].
      rewrite (load_nodes_app _ _ _ _ _ Ha). split; [|done]. intros (d' & Hd).
      apply (document_Done o) in Hd. rewrite (load_nodes_app _ _ _ _ _ Ha) in Hd. congruence.
    + left. apply schema_Fail; [congruence|]. rewrite E. simpl in H. rewrite E in H. simpl in H. congruence.
  - intros (-> & Hp & H). split; [done|]. rewrite <- schema_Panic in Hp. destruct H as [H|(s & Hs & _ & H)].
    + apply schema_Fail in H; [|done]. simpl. by rewrite H.
    + by rewrite (load_nodes_app _ _ _ _ _ Ha) in H.
Qed.
Lemma of_mut_fail {S : Type} (m : mut S ()) s e : of_mut m s = Fail e -> exists x, e = Snapshot x.
Proof. unfold of_mut. destruct (m s) as [? [|x]]; [done|]. intros [= <-]. by exists x. Qed.
Lemma clash_is_snapshot o a n d s e :
  document_means a d -> schema_means n s -> load_nodes o (a ++ [n]) database_new = Fail e -> exists x, e = Snapshot x.
Proof.
  intros Ha%(document_Done o) Hs%schema_Done H. rewrite (load_nodes_app _ _ _ _ _ Ha) in H. simpl in H.
  rewrite Hs in H. simpl in H. destruct (of_mut _ d) eqn:E; simpl in H; [done| |done]. 
  apply of_mut_fail in E as [x ->]. injection H as <-. by exists x.
Qed.
(** A report is about mistakes in the document. *)
Inductive of_document : derror -> Prop :=
  | od_unexpected n : of_document (UnexpectedNode n)
  | od_name n : of_document (NameRequired n)
  | od_nodes n : of_document (ChildNodesRequired n)
  | od_attribute n a : of_document (AttributeRequired n a)
  | od_type n x : of_document (InvalidTypeAttribute n x)
  | od_expression x : of_document (InvalidTypeExpression x)
  | od_reference x : of_document (InvalidTableReference x)
  | od_errors n l : Forall of_document l -> of_document (HasErrors n l).
Lemma report_of_document (contents : list node -> list derror -> Prop) n e :
  (forall l es, contents l es -> Forall of_document es) -> report_of contents n e -> of_document e.
Proof.
  intros H [[_ ->]|(name & _ & [[_ ->]|(l & es & _ & Hc & _ & ->)])]; constructor. by eapply H.
Qed.
Lemma reports_of_document (R : node -> derror -> Prop) l es :
  (forall n e, R n e -> of_document e) -> reports R l es -> Forall of_document es.
Proof. intros H. induction 1; [constructor|constructor; eauto|done]. Qed.
Lemma fault_of_document T n e : fault T n = Some e -> of_document e.
Proof.
  induction T as [|[k x] T IH]; simpl; [intros [= <-]; constructor|]. case_decide; [|done].
  destruct x; unfold mistake, ill; repeat case_match; intros [= <-]; constructor.
Qed.
Lemma attributes_of_document T lacks n e : attributes_report T lacks n e -> of_document e.
Proof.
  apply report_of_document. intros l es ->. apply Forall_app. split.
  - apply Forall_forall. intros e' (a & _ & Ha)%elem_of_list_omap. by eapply fault_of_document.
  - apply Forall_forall. intros e' (a & -> & _)%elem_of_list_fmap. constructor.
Qed.
Lemma entry_of_document n e : entry_report n e -> of_document e.
Proof.
  intros [[_ H]|[[_ H]|(_ & _ & ->)]]; [| |constructor].
  - destruct H as [[_ ->]|[(_ & _ & ->)|(_ & x & _ & _ & ->)]]; constructor. repeat constructor.
  - destruct H as [[_ ->]|(k & r & _ & [[_ H]|[[_ H]|[[_ H]|[_ H]]]])]; [constructor|..];
      by eapply attributes_of_document.
Qed.
Lemma object_of_document n e : object_report n e -> of_document e.
Proof.
  intros [[_ H]|[[_ H]|[[_ H]|[[_ H]|[[_ H]|(_ & _ & ->)]]]]]; [..|constructor].
  - eapply report_of_document; [|exact H]. intros l es. apply reports_of_document. exact entry_of_document.
  - by eapply attributes_of_document.
  - eapply report_of_document; [|exact H]. by intros l es ->.
  - by eapply attributes_of_document.
  - by eapply attributes_of_document.
Qed.
Lemma schema_of_document n e : schema_report n e -> of_document e.
Proof. apply report_of_document. intros l es. apply reports_of_document. exact object_of_document. Qed.

(** ** Which nodes are reported, and by which name *)
Lemma report_about (contents : list node -> list derror -> Prop) n e : report_of contents n e -> about e = Some (label n).
Proof. by intros [[_ ->]|(name & _ & [[_ ->]|(l & es & _ & _ & _ & ->)])]. Qed.
Lemma entry_about n e : entry_report n e -> about e = Some (label n).
Proof.
  intros [[_ H]|[[_ H]|(_ & _ & ->)]]; [| |done].
  - by destruct H as [[_ ->]|[(_ & _ & ->)|(_ & x & _ & _ & ->)]].
  - destruct H as [[_ ->]|(k & r & _ & [[_ H]|[[_ H]|[[_ H]|[_ H]]]])]; [done|..]; by eapply report_about.
Qed.
Lemma object_about n e : object_report n e -> about e = Some (label n).
Proof.
  intros [[_ H]|[[_ H]|[[_ H]|[[_ H]|[[_ H]|(_ & _ & ->)]]]]]; [..|done]; by eapply report_about.
Qed.
Lemma schema_about n e : schema_report n e -> about e = Some (label n).
Proof. apply report_about. Qed.

Lemma entry_faulty s t n :
  ~ (n_type n = L "constraint" /\ ~ constraint_safe n) ->
  (exists e, entry_report n e) <-> ~ (exists c, column_means s t n c) /\ ~ exists c, constraint_means s t n c.
Proof.
  intros Hs. rewrite <- (tb_step_aborts s t ([], [])) in Hs.
  destruct (tb_step s t ([], []) n) as [st|e|] eqn:E; [| |done].
  - split.
    + intros [e He]. apply (tb_step_fail s t ([], [])) in He. congruence.
    + intros [H1 H2]. exfalso. apply tb_step_by in E. naive_solver.
  - split; [|intros _; exists e; by eapply tb_step_fail]. intros _. split.
    + intros [c Hc]. pose proof Hc as [Ht _]. apply column_Done in Hc. unfold tb_step, of_type in E.
      rewrite bool_decide_eq_true_2, Hc in E by done. done.
    + intros [c Hc]. pose proof Hc as [Ht _]. apply constraint_Done in Hc. unfold tb_step, of_type in E.
      rewrite bool_decide_eq_false_2, bool_decide_eq_true_2, Hc in E; [done|done|]. by rewrite Ht.
Qed.
Lemma object_faulty s n :
  ~ object_aborts s n ->
  (exists e, object_report n e) <-> ~ (exists r, relation_means s n r) /\ ~ exists f, function_means s n f.
Proof.
  intros Hs. rewrite <- (sc_step_aborts s ([], [])) in Hs.
  destruct (sc_step s ([], []) n) as [st|e|] eqn:E; [| |done].
  - split.
    + intros [e He]. apply (sc_step_fail s ([], [])) in He; congruence.
    + intros [H1 H2]. exfalso. apply sc_step_by in E. naive_solver.
  - split; [|intros _; exists e; by eapply (sc_step_fail s ([], [])); [congruence|exact E]]. intros _. split.
    + intros [r Hr]. 
      assert (sc_step s ([], []) n = Done ([r], [])) as HD; [|congruence].
      apply sc_step_by. left. split; [|by exists r].
      destruct Hr as [[Et _]|[[Et _]|[[Et _]|[Et _]]]]; clear E; is_kind.
    + intros [f Hf].
      assert (sc_step s ([], []) n = Done ([], [f])) as HD; [|congruence].
      apply sc_step_by. right. split; [apply Hf|by exists f].
Qed.

(** ** The text *)
Lemma derror_tree (P : derror -> Prop) :
  (forall e, (forall n l, e <> HasErrors n l) -> P e) ->
  (forall n l, Forall P l -> P (HasErrors n l)) -> forall e, P e.
Proof.
  intros Hleaf Htree. refine (fix IH e : P e := _).
  destruct e as [ | | | | | | |n l| | ]; [apply Hleaf; discriminate..| |apply Hleaf; discriminate|apply Hleaf; discriminate].
  apply Htree. induction l as [|e l IHl]; constructor; [apply IH|exact IHl].
Qed.

(** The text: the first line, then each of the errors below it, on new lines. *)
Definition line_break : str := 10%N :: L "  ".
Lemma display_errors f n l ts :
  Forall2 (fun e t => display f e = Some t) l ts ->
  display f (HasErrors n l) = Some (L "has errors: " ++ n ++ concat ((fun t => line_break ++ t) <$> ts)).
Proof.
  intros H. cbn [display]. set (go := fix go l := match l with [] => Some [] | e :: l => _ end).
  assert (go l = Some (concat ((fun t => line_break ++ t) <$> ts))) as ->.
  { induction H as [|e t l ts He H IH]; [done|]. cbn [go]. rewrite He. fold go. rewrite IH. done. }
  cbn [put]. by rewrite <- app_assoc.
Qed.
Lemma displayed f e :
  of_document e ->
  exists t, display f e = Some t /\ forall x, inside x e -> exists a b, t = a ++ first_line x ++ b.
Proof.
  induction e as [e He|n l IH] using derror_tree; intros Hd.
  - assert (display f e = Some (first_line e)) as ->.
    { destruct Hd; try done. by destruct (He n l). }
    exists (first_line e). split; [done|]. intros x Hx. inversion Hx; subst.
    + exists [], []. by rewrite app_nil_r.
    + by destruct (He n l).
  - inversion Hd as [| | | | | | |? ? Hl]; subst.
    assert (exists ts, Forall2 (fun e t => display f e = Some t) l ts /\
      forall x e, e ∈ l -> inside x e -> exists t, t ∈ ts /\ exists a b, t = a ++ first_line x ++ b) as (ts & Hts & Hin).
    { clear Hd. induction l as [|e l IHl].
      - exists []. split; [constructor|]. intros x e He. by apply elem_of_nil in He.
      - apply Forall_cons in IH as [He IH]. apply Forall_cons in Hl as [Hde Hl].
        destruct (IHl IH Hl) as (ts & Hts & Hin). destruct (He Hde) as (t & Ht & Hx).
        exists (t :: ts). split; [by constructor|]. intros x e' [->|He']%elem_of_cons Hi.
        + exists t. split; [left|]. by apply Hx.
        + destruct (Hin x e' He' Hi) as (t' & Ht' & H'). exists t'. split; [by right|done]. }
    rewrite (display_errors f n l ts Hts). eexists. split; [done|]. intros x Hx.
    inversion Hx as [|? ? ? e He Hi]; subst.
    + exists [], (concat ((fun t => line_break ++ t) <$> ts)). done.
    + destruct (Hin x e He Hi) as (t & Ht & a & b & ->).
      apply elem_of_list_split in Ht as (ts1 & ts2 & ->).
      exists (L "has errors: " ++ n ++ concat ((fun t => line_break ++ t) <$> ts1) ++ line_break ++ a),
        (b ++ concat ((fun t => line_break ++ t) <$> ts2)).
      rewrite fmap_app, concat_app, fmap_cons. cbn [concat]. by rewrite !app_assoc.
Qed.
Lemma report_displayed f n e :
  schema_report n e ->
  exists t, display f e = Some t /\ forall x, inside x e -> exists a b, t = a ++ first_line x ++ b.
Proof. intros H. by eapply displayed, schema_of_document. Qed.

(** ** Every mistake *)
Lemma reports_in (R : node -> derror -> Prop) l es n e :
  reports R l es -> n ∈ l -> R n e -> (forall e', R n e' -> e' = e) -> e ∈ es.
Proof.
  intros H Hin He Hone. induction H as [|c e' l es He' H IH|c l es He' H IH].
  - by apply elem_of_nil in Hin.
  - apply elem_of_cons in Hin as [<-|Hin]; [|right; by apply IH]. rewrite (Hone _ He'). left.
  - apply elem_of_cons in Hin as [<-|Hin]; [|by apply IH]. destruct He'. by exists e.
Qed.
Lemma reports_only (R : node -> derror -> Prop) l es e : reports R l es -> e ∈ es -> exists n, n ∈ l /\ R n e.
Proof.
  induction 1 as [|c e' l es He' H IH|c l es He' H IH].
  - by intros ?%elem_of_nil.
  - intros [->|Hin]%elem_of_cons; [exists c; by split; [left|]|].
    destruct (IH Hin) as (n & Hn & HR). exists n. by split; [right|].
  - intros Hin. destruct (IH Hin) as (n & Hn & HR). exists n. by split; [right|].
Qed.

(** A node that is reported somewhere is named in the text. *)
Lemma about_line x n : about x = Some n -> exists a b, first_line x = a ++ n ++ b.
Proof.
  destruct x as [m|m|m|m a|m w|w|r|m es|w|w]; intros [= ->]; cbn [first_line].
  - exists (L "unexpected node: "), []. by rewrite app_nil_r.
  - exists (L "name required: "), []. by rewrite app_nil_r.
  - exists (L "child nodes required: "), []. by rewrite app_nil_r.
  - exists (L "attribute required: "), (L " " ++ a). done.
  - exists (L "invalid type attribute: "), (L " expected " ++ w). done.
  - exists (L "has errors: "), []. by rewrite app_nil_r.
Qed.
Lemma objects_reported n e s l c :
  parse_schema_definition n = Fail e -> n_name n = Some s -> below n = Some l -> c ∈ l ->
  ~ (exists r, relation_means s c r) -> ~ (exists f, function_means s c f) ->
  exists x es, e = HasErrors (label n) es /\ x ∈ es /\ object_report c x.
Proof.
  intros H Hn Hl Hc Hr Hf.
  assert (parse_schema_definition n <> Panic) as Hp by congruence.
  assert (~ object_aborts s c) as Ha.
  { intros Ha. apply Hp, schema_Panic. right. exists s, l. split; [done|]. split; [done|]. left. by exists c. }
  apply schema_Fail in H; [|done]. destruct H as [[H _]|(s' & Hs & [[H _]|(l' & es & Hl' & He & Hne & ->)])];
    [congruence|congruence|].
  assert (l' = l) as -> by congruence. 
  destruct (proj2 (object_faulty s c Ha) (conj Hr Hf)) as [x Hx]. exists x, es. split; [done|].
  split; [|done]. eapply reports_in; [done|done|done|]. intros e' He'.
  rewrite <- (sc_step_aborts s ([], [])) in Ha.
  apply (sc_step_fail s ([], [])) in Hx; [|done]. apply (sc_step_fail s ([], [])) in He'; [|done]. congruence.
Qed.
Lemma entries_reported n e s l c t l' d :
  parse_schema_definition n = Fail e -> n_name n = Some s -> below n = Some l -> c ∈ l ->
  n_type c = L "table" -> n_name c = Some t -> below c = Some l' -> d ∈ l' ->
  ~ (exists x, column_means s t d x) -> ~ (exists x, constraint_means s t d x) ->
  exists x es es', e = HasErrors (label n) es /\ HasErrors (label c) es' ∈ es /\ x ∈ es' /\ entry_report d x.
Proof.
  intros H Hn Hl Hc Ht Hcn Hcl Hd Hcol Hcon.
  assert (~ (exists r, relation_means s c r)) as Hr.
  { intros [r [Hr|[[E _]|[[E _]|[E _]]]]]; [|two_kinds..].
    destruct Hr as (_ & t' & l2 & cols & cts & m & Ht' & Hl2 & (Hk & H1 & H2) & _).
    assert (l2 = l') as -> by congruence. assert (t' = t) as -> by congruence.
    destruct (proj1 (Forall_forall _ _) Hk d Hd) as [Hkd|Hkd].
    - apply Hcol. assert (d ∈ filter (fun c => n_type c = L "column") l') as Hin by by apply elem_of_list_filter.
      apply elem_of_list_lookup in Hin as [i Hi]. eapply Forall2_lookup_l in H1 as (x & _ & Hx); [|exact Hi]. by exists x.
    - apply Hcon. assert (d ∈ filter (fun c => n_type c = L "constraint") l') as Hin by by apply elem_of_list_filter.
      apply elem_of_list_lookup in Hin as [i Hi]. eapply Forall2_lookup_l in H2 as (x & _ & Hx); [|exact Hi]. by exists x. }
  assert (~ (exists f, function_means s c f)) as Hf by (intros [f [E _]]; two_kinds).
  assert (~ table_aborts s c) as Ha.
  { intros Ha. assert (parse_schema_definition n = Panic); [|congruence]. apply schema_Panic. right. exists s, l.
    split; [done|]. split; [done|]. left. exists c. split; [done|]. by left. }
  destruct (objects_reported n e s l c H Hn Hl Hc Hr Hf) as (x & es & -> & Hx & Hrep).
  destruct Hrep as [[_ Hrep]|[[E _]|[[E _]|[[E _]|[[E _]|(E & _)]]]]]; [|two_kinds..|].
  2:{ destruct E. is_kind. }
  destruct Hrep as [[E _]|(t' & _ & [[E _]|(l2 & es' & Hl2 & He & Hne & ->)])]; [congruence|congruence|].
  assert (l2 = l') as -> by congruence.
  assert (~ (n_type d = L "constraint" /\ ~ constraint_safe d)) as Hs.
  { intros Hs. apply Ha. split; [done|]. exists t, l'. split; [done|]. split; [done|]. left. by exists d. }
  destruct (proj2 (entry_faulty s t d Hs) (conj Hcol Hcon)) as [y Hy]. exists y, es, es'.
  split; [done|]. split; [done|]. split; [|done]. eapply reports_in; [done|done|done|]. intros e' He'.
  apply (tb_step_fail s t ([], [])) in Hy. apply (tb_step_fail s t ([], [])) in He'. congruence.
Qed.
Lemma named_in_text f n e s l c :
  parse_schema_definition n = Fail e -> n_name n = Some s -> below n = Some l -> c ∈ l ->
  (~ (exists r, relation_means s c r) -> ~ (exists g, function_means s c g) ->
   exists t a b, display f e = Some t /\ t = a ++ label c ++ b) /\
  (forall t l' d, n_type c = L "table" -> n_name c = Some t -> below c = Some l' -> d ∈ l' ->
   ~ (exists x, column_means s t d x) -> ~ (exists x, constraint_means s t d x) ->
   exists txt a b, display f e = Some txt /\ txt = a ++ label d ++ b).
Proof.
  intros H Hn Hl Hc.
  assert (exists t, display f e = Some t /\ forall x, inside x e -> exists a b, t = a ++ first_line x ++ b)
    as (txt & Ht & Hin).
  { eapply report_displayed, schema_Fail; [|exact H]. congruence. }
  assert (forall x m, inside x e -> about x = Some m -> exists a b, txt = a ++ m ++ b) as Hline.
  { intros x m Hx Hm. destruct (Hin x Hx) as (a & b & ->). destruct (about_line x m Hm) as (a' & b' & ->).
    exists (a ++ a'), (b' ++ b). by rewrite <- !app_assoc. }
  split.
  - intros Hr Hf. destruct (objects_reported n e s l c H Hn Hl Hc Hr Hf) as (x & es & -> & Hx & Hrep).
    destruct (Hline x (label c)) as (a & b & Hab); [|by apply object_about|by exists txt, a, b].
    eapply inside_below; [done|constructor].
  - intros t l' d Htc Hct Hcl Hd Hcol Hcon.
    destruct (entries_reported n e s l c t l' d H Hn Hl Hc Htc Hct Hcl Hd Hcol Hcon) as (x & es & es' & -> & H1 & H2 & H3).
    destruct (Hline x (label d)) as (a & b & Hab); [|by apply entry_about|by exists txt, a, b].
    eapply inside_below; [done|]. eapply inside_below; [done|constructor].
Qed.
