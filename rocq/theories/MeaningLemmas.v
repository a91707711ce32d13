(** The objects that are read are those that the definitions mean. *)
From Verif Require Import Base Text Types Changes SpecSnapshot Node Yaml SpecDefinition Ddl ColumnRegex Load SpecMerge
  TextLemmas KeyLemmas YamlLemmas DdlLemmas MergeLemmas ColumnLemmas ParseLemmas PanicLemmas ContentLemmas
  DefinitionLemmas SnapshotExamples SpecMeaning.

(** ** Values of nodes *)
Lemma text_eq n : get_string_value n = text n.
Proof. destruct n as [t m [[[]|]|]]; done. Qed.
Lemma flag_eq n : get_boolean_value n = flag n.
Proof. destruct n as [t m [[[]|]|]]; done. Qed.
Lemma whole_eq n : get_number_integer_value n = whole n.
Proof. destruct n as [t m [[[| |[]|]|]|]]; done. Qed.
Lemma texts_eq n : get_string_varargs_value n = texts n.
Proof. destruct n as [t m [[[]|]|]]; done. Qed.
Lemma below_eq n : get_nodes n = below n.
Proof. destruct n as [t m [[]|]]; done. Qed.

(** ** The last value of each attribute *)

(** The value after one more attribute, after many. *)
Definition next {A} (k : str) (get : node -> option A) (c : node) (o : option A) : option A :=
  or_else (if decide (n_type c = k) then get c else None) o.
Definition after {A} (k : str) (get : node -> option A) (l : list node) (o : option A) : option A :=
  or_else (last_value k get l) o.

Lemma after_nil {A} k (get : node -> option A) o : after k get [] o = o.
Proof. done. Qed.
Lemma after_cons {A} k (get : node -> option A) c l o : after k get (c :: l) o = after k get l (next k get c o).
Proof.
  unfold after, next. rewrite last_value_cons. destruct (last_value k get l); [done|].
  simpl. by destruct (if decide _ then _ else _).
Qed.
Lemma after_None {A} k (get : node -> option A) l : after k get l None = last_value k get l.
Proof. unfold after. by destruct (last_value k get l). Qed.
Lemma next_hit {A} k (get : node -> option A) c o v : n_type c = k -> get c = Some v -> next k get c o = Some v.
Proof. intros Hk Hg. unfold next. by rewrite decide_True, Hg. Qed.
Lemma next_miss {A} k (get : node -> option A) c o : n_type c <> k -> next k get c o = o.
Proof. intros Hk. unfold next. by rewrite decide_False. Qed.

(** A loop whose steps are described by a condition and an update. *)
Lemma run_by {S X : Type} (f : S -> node -> dres S) (p : X -> S) (ok : node -> Prop) (upd : X -> node -> X) :
  (forall x c st', f (p x) c = Done st' <-> ok c /\ st' = p (upd x c)) ->
  forall l x st', run f (p x) l = Done st' <-> Forall ok l /\ st' = p (foldl upd x l).
Proof.
  intros Hf. induction l as [|c l IH]; intros x st'; simpl.
  - split; [by intros [= ->]|by intros [_ ->]].
  - rewrite Forall_cons. split.
    + intros (s1 & [H1 ->]%Hf & [H2 ->]%IH)%bind_inv. done.
    + intros ([H1 H2] & ->). rewrite (proj2 (Hf x c (p (upd x c)))) by done.
      by apply IH.
Qed.

(** One branch of a step: the node has the kind [E], the others are excluded. *)
Ltac kinds_differ :=
  match goal with
  | E : n_type ?c = _ |- n_type ?c <> _ => rewrite E; done
  | H : n_type ?c <> ?k |- n_type ?c <> ?k => exact H
  end.
Ltac two_kinds :=
  match goal with
  | E1 : n_type ?c = _, E2 : n_type ?c = _ |- _ =>
      rewrite E1 in E2; vm_compute in E2; discriminate E2
  end.
Ltac refute_given :=
  unfold deferral, given in *;
  repeat match goal with H : _ \/ _ |- _ => destruct H as [H|H] end;
  match goal with H : _ /\ is_Some _ |- _ => destruct H as [? [? ?]] end;
  first [congruence | exfalso; two_kinds].
Ltac show_given E G :=
  unfold deferral, given; repeat first [ split; [exact E | rewrite G; by eexists] | left; split; [exact E | rewrite G; by eexists] | right ].

Ltac one_changes :=
  repeat match goal with
    | |- context [next ?k ?g ?c ?o] =>
        first [ rewrite (next_miss k g c o) by kinds_differ
              | erewrite (next_hit k g c o); [|eassumption|eassumption] ]
    end; simpl; done.
Ltac step_by get :=
  let G := fresh "G" in
  destruct get as [?v|] eqn:G; simpl;
  [ split;
    [ intros [= <-]; split;
      [ match goal with E : n_type _ = _ |- _ => show_given E G end | one_changes ]
    | intros [_ ->]; one_changes ]
  | split; [done|]; intros [Hg _]; refute_given ].
Ltac step_none :=
  split; [done|]; intros [Hg _]; refute_given.


(** Columns. *)
Lemma column_Done s t n c : parse_column_definition s t n = Done c <-> column_means s t n c.
Proof.
  unfold parse_column_definition, column_means, coerce_name, coerce_string_value. rewrite text_eq. split.
  - intros H. apply bind_inv in H as (? & Hty%assert_inv & H).
    apply bind_inv in H as (name & Hname%ok_or_inv & H).
    apply bind_inv in H as (e & He%ok_or_inv & H).
    apply bind_inv in H as ([[ty nn] d] & Hp & [= <-]).
    split; [done|]. exists name, e, ty, nn, d. split_and!; try done.
    apply column_reading_iff. by destruct (parse_column_expression e).
  - intros (Hty & name & e & ty & nn & d & Hn & He & Hr & ->).
    unfold assert_that. rewrite decide_True by done. rewrite Hn, He. simpl.
    apply column_reading_iff in Hr. by rewrite Hr.
Qed.

(** What every parser of an object with attributes does: the steps, then the end. *)
Definition pk_ok (c : node) : Prop := given (L "primary key") texts c \/ deferral c.
Definition pk_upd (st : option (list str) * option bool * option bool) (c : node) :=
  let '(a, d, i) := st in
  (next (L "primary key") texts c a, next (L "deferrable") flag c d, next (L "initially deferred") flag c i).
Lemma pk_step_by st c st' : pk_step st c = Done st' <-> pk_ok c /\ st' = pk_upd st c.
Proof.
  destruct st as [[a d] i]. unfold pk_ok, pk_step, of_type, pk_upd, coerce_string_varargs_value, coerce_boolean_value.
  rewrite texts_eq, flag_eq.
  case_bool_decide; [step_by (texts c)|].
  case_bool_decide; [step_by (flag c)|].
  case_bool_decide; [step_by (flag c)|].
  step_none.
Qed.
Lemma pk_fold l a d i :
  foldl pk_upd (a, d, i) l =
  (after (L "primary key") texts l a, after (L "deferrable") flag l d, after (L "initially deferred") flag l i).
Proof. revert a d i. induction l as [|c l IH]; intros; [done|]. rewrite !after_cons. apply IH. Qed.

(** The parser of an attribute list reaches its end. *)
Lemma opened {A} (k : str) (n : node) (f : str -> list node -> dres A) a :
  (_ ← assert_that (n_type n = k); name ← coerce_name n; l ← coerce_nodes n; f name l) = Done a <->
  n_type n = k /\ exists name l, n_name n = Some name /\ below n = Some l /\ f name l = Done a.
Proof.
  unfold coerce_name, coerce_nodes. rewrite below_eq. split.
  - intros H. apply bind_inv in H as (? & Hty%assert_inv & H).
    apply bind_inv in H as (name & Hname%ok_or_inv & H).
    apply bind_inv in H as (l & Hl%ok_or_inv & H). split; [done|]. by exists name, l.
  - intros (Hty & name & l & Hn & Hl & H). unfold assert_that. rewrite decide_True by done.
    rewrite Hn, Hl. exact H.
Qed.
Lemma collect_by {S X : Type} (f : S -> node -> dres S) (p : X -> S) (ok : node -> Prop) (upd : X -> node -> X) :
  (forall x c st', f (p x) c = Done st' <-> ok c /\ st' = p (upd x c)) ->
  forall l x st', collect f (p x) [] l = Done (st', []) <-> Forall ok l /\ st' = p (foldl upd x l).
Proof. intros Hf l x st'. rewrite collect_run. by apply run_by. Qed.
Lemma collect_ok {S X : Type} (f : S -> node -> dres S) (p : X -> S) (ok : node -> Prop) (upd : X -> node -> X) :
  (forall x c st', f (p x) c = Done st' <-> ok c /\ st' = p (upd x c)) ->
  forall l x, Forall ok l -> collect f (p x) [] l = Done (p (foldl upd x l), []).
Proof. intros Hf l x Hl. by apply (collect_by f p ok upd Hf). Qed.

Lemma pk_Done s t n c :
  parse_primary_key_definition s t n = Done c <->
  n_type n = L "constraint" /\ exists name l, n_name n = Some name /\ below n = Some l /\
    primary_key_means s t name l (CPrimaryKey c).
Proof.
  unfold parse_primary_key_definition. rewrite opened. apply and_iff_compat_l.
  do 2 (apply exist_proper; intros ?). do 2 apply and_iff_compat_l.
  unfold primary_key_means. split.
  - intros H. apply bind_inv in H as ([[[cols de] ini] e] & Hc & H). cbv zeta in H.
    apply bind_inv in H as ([] & He%check_errors_inv & H). apply push_if_nil in He as [_ ->].
    apply (collect_by _ id _ _ pk_step_by) in Hc as [Hok Hst]. simpl in Hst; rewrite pk_fold, !after_None in Hst.
    injection Hst as -> -> ->.
    apply bind_inv in H as (cols & Hcols%unwrap_inv & [= <-]). split; [exact Hok|]. by exists cols.
  - intros (Hok & cols & Hcols & [= ->]).
    pose proof (collect_ok _ id _ _ pk_step_by x0 (None, None, None) Hok) as Hc. simpl in Hc. rewrite Hc.
    rewrite pk_fold, !after_None. simpl. rewrite Hcols. done.
Qed.

Definition uq_ok (c : node) : Prop := given (L "unique") texts c \/ deferral c.
Definition uq_state (x : option (list str) * option bool * option bool) := (default [] (x.1.1), x.1.2, x.2).
Definition uq_upd (st : option (list str) * option bool * option bool) (c : node) :=
  let '(a, d, i) := st in
  (next (L "unique") texts c a, next (L "deferrable") flag c d, next (L "initially deferred") flag c i).
Lemma uq_step_by st c st' : uq_step (uq_state st) c = Done st' <-> uq_ok c /\ st' = uq_state (uq_upd st c).
Proof.
  destruct st as [[a d] i]. unfold uq_ok, uq_step, of_type, uq_upd, uq_state, coerce_string_varargs_value, coerce_boolean_value.
  cbn [fst snd]. rewrite texts_eq, flag_eq.
  case_bool_decide; [step_by (texts c)|].
  case_bool_decide; [step_by (flag c)|].
  case_bool_decide; [step_by (flag c)|].
  step_none.
Qed.
Lemma uq_fold l a d i :
  foldl uq_upd (a, d, i) l =
  (after (L "unique") texts l a, after (L "deferrable") flag l d, after (L "initially deferred") flag l i).
Proof. revert a d i. induction l as [|c l IH]; intros; [done|]. rewrite !after_cons. apply IH. Qed.
Lemma uq_Done s t n c :
  parse_unique_definition s t n = Done c <->
  n_type n = L "constraint" /\ exists name l, n_name n = Some name /\ below n = Some l /\
    unique_means s t name l (CUnique c).
Proof.
  unfold parse_unique_definition. rewrite opened. apply and_iff_compat_l.
  do 2 (apply exist_proper; intros ?). do 2 apply and_iff_compat_l.
  unfold unique_means. change ([], None, None) with (uq_state (None, None, None)). split.
  - intros H. apply bind_inv in H as ([[[cols de] ini] e] & Hc & H). cbv zeta in H.
    apply bind_inv in H as ([] & He%check_errors_inv & H). apply push_if_nil in He as [Hne ->].
    apply (collect_by _ uq_state _ _ uq_step_by) in Hc as [Hok Hst]. rewrite uq_fold, !after_None in Hst.
    unfold uq_state in Hst. simpl in Hst. injection Hst as -> -> ->. injection H as <-.
    split; [exact Hok|].
    destruct (last_value (L "unique") texts x0) as [[|cc cols]|]; [done| |done].
    by exists (cc :: cols).
  - intros (Hok & cols & Hcols & Hne & [= ->]).
    rewrite (collect_ok _ uq_state _ _ uq_step_by x0 (None, None, None) Hok).
    rewrite uq_fold, !after_None. unfold uq_state. simpl. rewrite Hcols. simpl.
    by destruct cols.
Qed.

Definition ck_ok (c : node) : Prop := given (L "check") text c \/ deferral c.
Definition ck_upd (st : option str * option bool * option bool) (c : node) :=
  let '(a, d, i) := st in
  (next (L "check") text c a, next (L "deferrable") flag c d, next (L "initially deferred") flag c i).
Lemma ck_step_by st c st' : ck_step st c = Done st' <-> ck_ok c /\ st' = ck_upd st c.
Proof.
  destruct st as [[a d] i]. unfold ck_ok, ck_step, of_type, ck_upd, coerce_string_value, coerce_boolean_value.
  rewrite text_eq, flag_eq.
  case_bool_decide; [step_by (text c)|].
  case_bool_decide; [step_by (flag c)|].
  case_bool_decide; [step_by (flag c)|].
  step_none.
Qed.
Lemma ck_fold l a d i :
  foldl ck_upd (a, d, i) l =
  (after (L "check") text l a, after (L "deferrable") flag l d, after (L "initially deferred") flag l i).
Proof. revert a d i. induction l as [|c l IH]; intros; [done|]. rewrite !after_cons. apply IH. Qed.
Lemma ck_Done s t n c :
  parse_check_constraint_definition s t n = Done c <->
  n_type n = L "constraint" /\ exists name l, n_name n = Some name /\ below n = Some l /\
    check_means s t name l (CCheck c).
Proof.
  unfold parse_check_constraint_definition. rewrite opened. apply and_iff_compat_l.
  do 2 (apply exist_proper; intros ?). do 2 apply and_iff_compat_l.
  unfold check_means. split.
  - intros H. apply bind_inv in H as ([[[cols de] ini] e] & Hc & H). cbv zeta in H.
    apply bind_inv in H as ([] & He%check_errors_inv & H). apply push_if_nil in He as [_ ->].
    apply (collect_by _ id _ _ ck_step_by) in Hc as [Hok Hst]. simpl in Hst.
    rewrite ck_fold, !after_None in Hst. injection Hst as -> -> ->.
    apply bind_inv in H as (cols & Hcols%unwrap_inv & [= <-]). split; [exact Hok|]. by exists cols.
  - intros (Hok & cols & Hcols & [= ->]).
    pose proof (collect_ok _ id _ _ ck_step_by x0 (None, None, None) Hok) as Hc. simpl in Hc. rewrite Hc.
    rewrite ck_fold, !after_None. simpl. rewrite Hcols. done.
Qed.

(** The reference of a foreign key. *)
Lemma split_cut s :
  split_on 46 s = match cut s with None => [s] | Some (a, b) => a :: split_on 46 b end.
Proof.
  induction s as [|c s IH]; [done|]. simpl. destruct (N.eqb_spec c 46) as [->|Hc]; [done|].
  rewrite decide_False by done. rewrite IH. by destruct (cut s) as [[a b]|].
Qed.
Lemma split_nonempty s : split_on 46 s <> [].
Proof. rewrite split_cut. by destruct (cut s) as [[]|]. Qed.
Lemma target_eq s n v :
  (x ← coerce_name_and_string_varargs_value n;
   r ← parse_table_reference s x.1; Done (r.1, r.2, x.2)) = Done v <-> target s n = Some v.
Proof.
  unfold coerce_name_and_string_varargs_value, target, named. rewrite texts_eq.
  destruct (n_name n) as [name|]; [|done]. simpl. destruct (texts n) as [cols|]; [|done]. simpl.
  unfold parse_table_reference. rewrite (split_cut name). destruct (cut name) as [[a b]|]; simpl.
  - rewrite (split_cut b). destruct (cut b) as [[b1 b2]|]; simpl.
    + pose proof (split_nonempty b2). destruct (split_on 46 b2); done.
    + split; by intros [= ->].
  - split; by intros [= ->].
Qed.
Lemma target_step {A} s n (F : str -> str -> list str -> A) a :
  ('(name, v) ← coerce_name_and_string_varargs_value n;
   '(x, y) ← parse_table_reference s name; Done (F x y v)) = Done a <->
  exists x y v, target s n = Some (x, y, v) /\ a = F x y v.
Proof.
  split.
  - intros ([name v] & H1 & ([x y] & H2 & [= <-])%bind_inv)%bind_inv. exists x, y, v. split; [|done].
    apply target_eq. rewrite H1. simpl. by rewrite H2.
  - intros (x & y & v & Ht%target_eq & ->). apply bind_inv in Ht as ([name v'] & H1 & Ht).
    apply bind_inv in Ht as ([x' y'] & H2 & [= <- <- <-]). rewrite H1. simpl in *. by rewrite H2.
Qed.

Definition fk_ok (s : str) (a : node) : Prop :=
  given (L "foreign key") texts a \/ given (L "references") (target s) a \/
  given (L "match") text a \/ given (L "on update") text a \/ given (L "on delete") text a \/
  deferral a.
Definition fk_values : Type :=
  option (list str) * option (str * str * list str) * option str * option str * option str *
  option bool * option bool.
Definition fk_of (x : fk_values) : fk_state :=
  let '(cols, r, m, u, d, de, ini) := x in
  FkState cols ((fun r => r.1.1) <$> r) ((fun r => r.1.2) <$> r) (default [] (snd <$> r)) de ini m u d.
Definition fk_upd (s : str) (x : fk_values) (c : node) : fk_values :=
  let '(cols, r, m, u, d, de, ini) := x in
  (next (L "foreign key") texts c cols, next (L "references") (target s) c r, next (L "match") text c m,
   next (L "on update") text c u, next (L "on delete") text c d, next (L "deferrable") flag c de,
   next (L "initially deferred") flag c ini).
Lemma fk_step_by s x c st' : fk_step s (fk_of x) c = Done st' <-> fk_ok s c /\ st' = fk_of (fk_upd s x c).
Proof.
  destruct x as [[[[[[cols r] m] u] d] de] ini].
  unfold fk_ok, fk_step, of_type, fk_upd, fk_of, coerce_string_varargs_value, coerce_boolean_value,
    coerce_string_value.
  rewrite texts_eq, flag_eq, text_eq.
  case_bool_decide; [step_by (texts c)|].
  case_bool_decide.
  { rewrite target_step. destruct (target s c) as [[[ts tb] tc]|] eqn:G.
    - split.
      + intros (x & y & v & [= <- <- <-] & ->). split; [show_given H0 G|one_changes].
      + intros [_ ->]. exists ts, tb, tc. split; [done|one_changes].
    - split; [by intros (? & ? & ? & ? & _)|]. intros [Hg _]. refute_given. }
  case_bool_decide; [step_by (flag c)|].
  case_bool_decide; [step_by (flag c)|].
  case_bool_decide; [step_by (text c)|].
  case_bool_decide; [step_by (text c)|].
  case_bool_decide; [step_by (text c)|].
  step_none.
Qed.
Lemma fk_fold s l cols r m u d de ini :
  foldl (fk_upd s) (cols, r, m, u, d, de, ini) l =
  (after (L "foreign key") texts l cols, after (L "references") (target s) l r, after (L "match") text l m,
   after (L "on update") text l u, after (L "on delete") text l d, after (L "deferrable") flag l de,
   after (L "initially deferred") flag l ini).
Proof.
  revert cols r m u d de ini. induction l as [|c l IH]; intros; [done|]. rewrite !after_cons. apply IH.
Qed.
Lemma fk_Done s t n c :
  parse_foreign_key_constraint_definition s t n = Done c <->
  n_type n = L "constraint" /\ exists name l, n_name n = Some name /\ below n = Some l /\
    foreign_key_means s t name l (CForeignKey c).
Proof.
  unfold parse_foreign_key_constraint_definition. rewrite opened. apply and_iff_compat_l.
  do 2 (apply exist_proper; intros ?). do 2 apply and_iff_compat_l.
  unfold foreign_key_means.
  change (FkState None None None [] None None None None None)
    with (fk_of (None, None, None, None, None, None, None)). split.
  - intros H. apply bind_inv in H as ([st e] & Hc & H). cbv zeta in H.
    apply bind_inv in H as ([] & He%check_errors_inv & H).
    apply push_if_nil in He as [Hr He]. apply push_if_nil in He as [_ ->].
    apply (collect_by _ fk_of _ _ (fk_step_by s)) in Hc as [Hok ->].
    rewrite fk_fold, !after_None in *. cbn [fk_of fs_columns fs_tschema fs_ttable fs_tcolumns
      fs_deferrable fs_initially fs_match fs_update fs_delete] in *.
    apply bind_inv in H as (cols & Hcols%unwrap_inv & H).
    apply bind_inv in H as (ts & Hts%unwrap_inv & H). apply bind_inv in H as (tb & Htb%unwrap_inv & [= <-]).
    split; [exact Hok|].
    destruct (last_value (L "references") (target s) x0) as [[[ts' tb'] tc]|]; [|done].
    simpl in *. injection Hts as ->. injection Htb as ->.
    exists cols, ts, tb, tc. split_and!; try done. by destruct tc.
  - intros (Hok & cols & ts & tb & tc & Hcols & Href & Hne & [= ->]).
    rewrite (collect_ok _ fk_of _ _ (fk_step_by s) x0 _ Hok).
    rewrite fk_fold, !after_None, Hcols, Href. simpl. by destruct tc.
Qed.

Lemma constraint_Done s t n c : parse_constraint_definition s t n = Done c <-> constraint_means s t n c.
Proof.
  unfold parse_constraint_definition, constraint_means, coerce_nodes, of_type. rewrite below_eq. split.
  - intros H. apply bind_inv in H as (l & Hl%ok_or_inv & H). destruct l as [|k r]; [done|].
    repeat case_bool_decide; [..|done]; apply bind_inv in H as (x & Hx & [= <-]).
    + apply pk_Done in Hx as (Hty & name & l & Hn & Hl' & Hx). simplify_eq. split; [done|].
      exists name, k, r. split; [done|]. split; [done|]. by left.
    + apply uq_Done in Hx as (Hty & name & l & Hn & Hl' & Hx). simplify_eq. split; [done|].
      exists name, k, r. split; [done|]. split; [done|]. right. by left.
    + apply fk_Done in Hx as (Hty & name & l & Hn & Hl' & Hx). simplify_eq. split; [done|].
      exists name, k, r. split; [done|]. split; [done|]. right. right. by left.
    + apply ck_Done in Hx as (Hty & name & l & Hn & Hl' & Hx). simplify_eq. split; [done|].
      exists name, k, r. split; [done|]. split; [done|]. right. right. by right.
  - intros (Hty & name & k & r & Hn & Hl & H). rewrite Hl. simpl.
    destruct H as [[Hk H]|[[Hk H]|[[Hk H]|[Hk H]]]]; rewrite Hk.
    + pose proof H as (_ & ? & _ & ->). rewrite bool_decide_eq_true_2 by done.
      match goal with |- (_ ← _; _) = Done (_ ?x) => rewrite (proj2 (pk_Done s t n x)); [done|] end.
      split; [done|]. by exists name, (k :: r).
    + pose proof H as (_ & ? & _ & _ & ->). rewrite bool_decide_eq_false_2, bool_decide_eq_true_2 by done.
      match goal with |- (_ ← _; _) = Done (_ ?x) => rewrite (proj2 (uq_Done s t n x)); [done|] end.
      split; [done|]. by exists name, (k :: r).
    + pose proof H as (_ & ? & ? & ? & ? & _ & _ & _ & ->).
      rewrite 2 bool_decide_eq_false_2, bool_decide_eq_true_2 by done.
      match goal with |- (_ ← _; _) = Done (_ ?x) => rewrite (proj2 (fk_Done s t n x)); [done|] end.
      split; [done|]. by exists name, (k :: r).
    + pose proof H as (_ & ? & _ & ->). rewrite 3 bool_decide_eq_false_2, bool_decide_eq_true_2 by done.
      match goal with |- (_ ← _; _) = Done (_ ?x) => rewrite (proj2 (ck_Done s t n x)); [done|] end.
      split; [done|]. by exists name, (k :: r).
Qed.

(** ** Views, functions, sequences and indexes *)
Lemma vw_step_by st c st' :
  vw_step st c = Done st' <-> given (L "as") text c /\ st' = next (L "as") text c st.
Proof.
  unfold vw_step, of_type, coerce_string_value. rewrite text_eq.
  case_bool_decide; [step_by (text c)|]. step_none.
Qed.
Lemma vw_fold l o : foldl (fun o c => next (L "as") text c o) o l = after (L "as") text l o.
Proof. revert o. induction l as [|c l IH]; intros; [done|]. rewrite after_cons. apply IH. Qed.
Lemma view_Done s n v : parse_view_definition s n = Done v <-> view_means s n (RView v).
Proof.
  unfold parse_view_definition, view_means. rewrite opened. apply and_iff_compat_l. split.
  - intros (name & l & Hn & Hl & H). apply bind_inv in H as ([q e] & Hc & H). cbv zeta in H.
    apply bind_inv in H as ([] & He%check_errors_inv & H). apply push_if_nil in He as [_ ->].
    apply (collect_by _ id _ (fun o c => next (L "as") text c o) vw_step_by) in Hc as [Hok Hst].
    simpl in Hst. rewrite vw_fold, after_None in Hst. subst q.
    apply bind_inv in H as (q & Hq%unwrap_inv & [= <-]). by exists name, l, q.
  - intros (name & l & q & Hn & Hl & Hok & Hq & [= ->]). exists name, l. split; [done|]. split; [done|].
    pose proof (collect_ok _ id _ (fun o c => next (L "as") text c o) vw_step_by l None Hok) as Hc.
    simpl in Hc. rewrite Hc, vw_fold, after_None, Hq. done.
Qed.

Definition fn_ok (a : node) : Prop :=
  given (L "as") text a \/ given (L "language") text a \/
  given (L "returns") text a \/ given (L "volatility") text a.
Definition fn_upd (st : option str * option str * option str * option str) (c : node) :=
  let '(a, l, r, v) := st in
  (next (L "as") text c a, next (L "language") text c l, next (L "returns") text c r,
   next (L "volatility") text c v).
Lemma fn_step_by st c st' : fn_step st c = Done st' <-> fn_ok c /\ st' = fn_upd st c.
Proof.
  destruct st as [[[a l] r] v]. unfold fn_ok, fn_step, of_type, fn_upd, coerce_string_value.
  rewrite text_eq.
  case_bool_decide; [step_by (text c)|].
  case_bool_decide; [step_by (text c)|].
  case_bool_decide; [step_by (text c)|].
  case_bool_decide; [step_by (text c)|].
  step_none.
Qed.
Lemma fn_fold ns a l r v :
  foldl fn_upd (a, l, r, v) ns =
  (after (L "as") text ns a, after (L "language") text ns l, after (L "returns") text ns r,
   after (L "volatility") text ns v).
Proof. revert a l r v. induction ns as [|c ns IH]; intros; [done|]. rewrite !after_cons. apply IH. Qed.
Lemma function_Done s n f : parse_function_definition s n = Done f <-> function_means s n f.
Proof.
  unfold parse_function_definition, function_means. rewrite opened. apply and_iff_compat_l. split.
  - intros (name & l & Hn & Hl & H). apply bind_inv in H as ([[[[b la] r] v] e] & Hc & H). cbv zeta in H.
    apply bind_inv in H as ([] & He%check_errors_inv & H). apply push_if_nil in He as [_ ->].
    apply (collect_by _ id _ _ fn_step_by) in Hc as [Hok Hst].
    simpl in Hst. rewrite fn_fold, !after_None in Hst. injection Hst as -> -> -> ->.
    apply bind_inv in H as (b & Hb%unwrap_inv & [= <-]). by exists name, l, b.
  - intros (name & l & b & Hn & Hl & Hok & Hb & ->). exists name, l. split; [done|]. split; [done|].
    pose proof (collect_ok _ id _ _ fn_step_by l (None, None, None, None) Hok) as Hc.
    simpl in Hc. rewrite Hc, fn_fold, !after_None, Hb. done.
Qed.

Lemma named_text_step {A} n (F : str -> str -> A) a :
  ('(name, v) ← coerce_name_and_string_value n; Done (F name v)) = Done a <->
  exists x v, named text n = Some (x, v) /\ a = F x v.
Proof.
  unfold coerce_name_and_string_value, named. rewrite text_eq.
  destruct (n_name n) as [name|]; simpl; [|by split; [|intros (?&?&?&_)]].
  destruct (text n) as [v|]; simpl; [|by split; [|intros (?&?&?&_)]]. split.
  - intros [= <-]. by exists name, v.
  - by intros (? & ? & [= <- <-] & ->).
Qed.

Definition sq_ok (a : node) : Prop :=
  given (L "as") text a \/ given (L "increment") whole a \/
  given (L "minvalue") whole a \/ given (L "maxvalue") whole a \/ given (L "start") whole a \/
  given (L "cache") whole a \/ given (L "cycle") flag a \/ given (L "owned by") (named text) a.
Definition sq_values : Type :=
  option str * option Z * option Z * option Z * option Z * option Z * option bool * option (str * str).
Definition sq_of (x : sq_values) : sq_state :=
  let '(ty, inc, mn, mx, start, cache, cycle, owner) := x in
  SqState ty inc mn mx start cache cycle (fst <$> owner) (snd <$> owner).
Definition sq_upd (x : sq_values) (c : node) : sq_values :=
  let '(ty, inc, mn, mx, start, cache, cycle, owner) := x in
  (next (L "as") text c ty, next (L "increment") whole c inc, next (L "minvalue") whole c mn,
   next (L "maxvalue") whole c mx, next (L "start") whole c start, next (L "cache") whole c cache,
   next (L "cycle") flag c cycle, next (L "owned by") (named text) c owner).
Lemma sq_step_by x c st' : sq_step (sq_of x) c = Done st' <-> sq_ok c /\ st' = sq_of (sq_upd x c).
Proof.
  destruct x as [[[[[[[ty inc] mn] mx] start] cache] cycle] owner].
  unfold sq_ok, sq_step, of_type, sq_upd, sq_of, coerce_integer_value, coerce_boolean_value,
    coerce_string_value.
  rewrite whole_eq, flag_eq, text_eq.
  case_bool_decide; [step_by (text c)|].
  case_bool_decide; [step_by (whole c)|].
  case_bool_decide; [step_by (whole c)|].
  case_bool_decide; [step_by (whole c)|].
  case_bool_decide; [step_by (whole c)|].
  case_bool_decide; [step_by (whole c)|].
  case_bool_decide; [step_by (flag c)|].
  case_bool_decide.
  { rewrite named_text_step. destruct (named text c) as [[ot oc]|] eqn:G.
    - split.
      + intros (x & v & [= <- <-] & ->). split; [|one_changes].
        match goal with E : n_type _ = _ |- _ => show_given E G end.
      + intros [_ ->]. exists ot, oc. split; [done|one_changes].
    - split; [by intros (? & ? & ? & _)|]. intros [Hg _]. refute_given. }
  step_none.
Qed.
Lemma sq_fold l ty inc mn mx start cache cycle owner :
  foldl sq_upd (ty, inc, mn, mx, start, cache, cycle, owner) l =
  (after (L "as") text l ty, after (L "increment") whole l inc, after (L "minvalue") whole l mn,
   after (L "maxvalue") whole l mx, after (L "start") whole l start, after (L "cache") whole l cache,
   after (L "cycle") flag l cycle, after (L "owned by") (named text) l owner).
Proof.
  revert ty inc mn mx start cache cycle owner. induction l as [|c l IH]; intros; [done|].
  rewrite !after_cons. apply IH.
Qed.
Ltac by_type ty :=
  repeat match goal with
    | |- context [bool_decide (ty = ?k)] =>
        let Heq := fresh "Heq" in let Hne := fresh "Hne" in destruct (decide (ty = k)) as [Heq|Hne];
        [rewrite (bool_decide_eq_true_2 _ Heq) | rewrite (bool_decide_eq_false_2 _ Hne)]
    end; simpl; split; try done; let Hi := fresh "Hi" in intros Hi; injection Hi as <-; done.
Lemma min_Done inc ty z : get_sequence_min_value inc ty = Done z <-> least inc ty = Some z.
Proof.
  unfold get_sequence_min_value, least, type_range.
  destruct (Z.leb_spec 0 inc); [rewrite decide_True by done|rewrite decide_False by lia].
  { split; by intros [= ->]. }
  by_type ty.
Qed.
Lemma max_Done inc ty z : get_sequence_max_value inc ty = Done z <-> greatest inc ty = Some z.
Proof.
  unfold get_sequence_max_value, greatest, type_range.
  destruct (Z.ltb_spec inc 0); [rewrite decide_False by lia|rewrite decide_True by lia].
  { split; by intros [= ->]. }
  by_type ty.
Qed.
Lemma or_else_Done (o : option Z) (m : dres Z) (d : option Z) z :
  (m = Done z <-> d = Some z) ->
  match o with Some v => Done v | None => m end = Done z <-> or_else o d = Some z.
Proof. intros Hm. destruct o as [v|]; simpl; [|done]. split; by intros [= ->]. Qed.
Lemma start_eq inc lo hi : get_sequence_start inc lo hi = if decide (0 <= inc)%Z then lo else hi.
Proof. unfold get_sequence_start. destruct (Z.leb_spec 0 inc); case_decide; lia || done. Qed.
Lemma sequence_Done s n q : parse_sequence_definition s n = Done q <-> sequence_means s n (RSequence q).
Proof.
  unfold parse_sequence_definition, sequence_means. rewrite opened. apply and_iff_compat_l.
  change (SqState None None None None None None None None None)
    with (sq_of (None, None, None, None, None, None, None, None)). split.
  - intros (name & l & Hn & Hl & H). apply bind_inv in H as ([st e] & Hc & H). cbv zeta in H.
    apply bind_inv in H as (lo & Hlo & H). apply bind_inv in H as (hi & Hhi & H).
    apply bind_inv in H as ([] & He%check_errors_inv & [= <-]). subst e.
    apply (collect_by _ sq_of _ _ sq_step_by) in Hc as [Hok ->].
    rewrite sq_fold, !after_None in *. cbn [sq_of ss_type ss_increment ss_min ss_max ss_start ss_cache
      ss_cycle ss_table ss_column] in *.
    exists name, l, lo, hi. split; [done|]. split; [done|]. split; [exact Hok|]. cbv zeta.
    apply (or_else_Done _ _ _ _ (min_Done _ _ _)) in Hlo.
    apply (or_else_Done _ _ _ _ (max_Done _ _ _)) in Hhi.
    split; [exact Hlo|]. split; [exact Hhi|]. by rewrite start_eq.
  - intros (name & l & lo & hi & Hn & Hl & Hok & Hlo & Hhi & Hr). injection Hr as ->.
    exists name, l. split; [done|]. split; [done|].
    rewrite (collect_ok _ sq_of _ _ sq_step_by l _ Hok).
    rewrite sq_fold, !after_None. simpl.
    apply (or_else_Done _ _ _ _ (min_Done _ _ _)) in Hlo.
    apply (or_else_Done _ _ _ _ (max_Done _ _ _)) in Hhi.
    unfold default_seq_type, default_increment. rewrite Hlo. simpl. rewrite Hhi. simpl.
    by rewrite start_eq.
Qed.

(** The errors of an index are forgotten. *)
Definition ix_values : Type := option (str * list str) * option bool * option str.
Definition ix_of (x : ix_values) : option str * option (list str) * option bool * option str :=
  let '(on, uq, me) := x in (fst <$> on, snd <$> on, uq, me).
Definition ix_upd (x : ix_values) (c : node) : ix_values :=
  let '(on, uq, me) := x in
  (next (L "on") (named texts) c on, next (L "unique") flag c uq, next (L "using") text c me).
Lemma next_bad {A} k (get : node -> option A) c o : get c = None -> next k get c o = o.
Proof. intros Hg. unfold next. rewrite Hg. by case_decide. Qed.
Lemma ix_step_by x c :
  ix_step (ix_of x) c = Done (ix_of (ix_upd x c)) \/
  exists e, ix_step (ix_of x) c = Fail e /\ ix_upd x c = x.
Proof.
  destruct x as [[on uq] me].
  unfold ix_step, of_type, ix_upd, ix_of, coerce_boolean_value, coerce_string_value,
    coerce_name_and_string_varargs_value.
  rewrite flag_eq, texts_eq, text_eq.
  case_bool_decide.
  { rewrite !(next_miss _ (named texts)), !(next_miss _ text) by kinds_differ.
    destruct (flag c) as [v|] eqn:G; simpl.
    - left. by rewrite (next_hit _ _ _ _ v).
    - right. eexists. split; [done|]. by rewrite next_bad. }
  rewrite !(next_miss (L "unique")) by done.
  case_bool_decide.
  { rewrite !(next_miss _ text) by kinds_differ. destruct (n_name c) as [name|] eqn:Hn; simpl.
    - destruct (texts c) as [v|] eqn:G; simpl.
      + left. rewrite (next_hit _ _ _ _ (name, v)); [done|done|]. unfold named. by rewrite Hn, G.
      + right. eexists. split; [done|]. rewrite next_bad; [done|]. unfold named. by rewrite Hn, G.
    - right. eexists. split; [done|]. rewrite next_bad; [done|]. unfold named. by rewrite Hn. }
  rewrite !(next_miss (L "on")) by done.
  case_bool_decide.
  { destruct (text c) as [v|] eqn:G; simpl.
    - left. by rewrite (next_hit _ _ _ _ v).
    - right. eexists. split; [done|]. by rewrite next_bad. }
  right. eexists. split; [done|]. by rewrite next_miss.
Qed.
Lemma ix_collect l x e : exists e', collect ix_step (ix_of x) e l = Done (ix_of (foldl ix_upd x l), e').
Proof.
  revert x e. induction l as [|c l IH]; intros x e; [by exists e|]. simpl.
  destruct (ix_step_by x c) as [->|(e1 & -> & Hu)]; [apply IH|]. rewrite Hu. apply IH.
Qed.
Lemma ix_fold l on uq me :
  foldl ix_upd (on, uq, me) l =
  (after (L "on") (named texts) l on, after (L "unique") flag l uq, after (L "using") text l me).
Proof. revert on uq me. induction l as [|c l IH]; intros; [done|]. rewrite !after_cons. apply IH. Qed.
Lemma index_Done s n i : parse_index_definition s n = Done i <-> index_means s n (RIndex i).
Proof.
  unfold parse_index_definition, index_means. rewrite opened. apply and_iff_compat_l.
  change (@None str, @None (list str), @None bool, @None str) with (ix_of (None, None, None)). split.
  - intros (name & l & Hn & Hl & H). destruct (ix_collect l (None, None, None) []) as [e He].
    rewrite He in H. rewrite ix_fold, !after_None in H. simpl in H.
    apply bind_inv in H as (tb & Htb%unwrap_inv & H). apply bind_inv in H as (ks & Hks%unwrap_inv & [= <-]).
    destruct (last_value (L "on") (named texts) l) as [[tb' ks']|] eqn:Hon; [|done]. simpl in *.
    injection Htb as ->. injection Hks as ->. by exists name, l, tb, ks.
  - intros (name & l & tb & ks & Hn & Hl & Hon & Hr). injection Hr as ->. exists name, l.
    split; [done|]. split; [done|]. destruct (ix_collect l (None, None, None) []) as [e He].
    rewrite He. rewrite ix_fold, !after_None, Hon. done.
Qed.

(** ** Tables and schemas *)
Lemma is_map_by_name {V} (name : V -> str) (l : list V) m :
  is_map_of name l m <-> NoDup (name <$> l) /\ m = by_name name l.
Proof.
  unfold is_map_of. assert (NoDup (name <$> l) -> forall k v, by_name name l !! k = Some v <-> v ∈ l /\ name v = k) as H.
  { intros Hn k v. split; [apply by_name_elem|]. intros [Hin <-]. unfold by_name.
    apply elem_of_list_to_map; [by rewrite <- list_fmap_compose|]. by apply (elem_of_list_fmap_1 (fun v => (name v, v))). }
  split.
  - intros [Hn Hm]. split; [done|]. apply map_eq. intros k. apply option_eq. intros v.
    by rewrite Hm, (H Hn).
  - intros [Hn ->]. split; [done|]. by apply H.
Qed.

(** A loop that collects objects of two kinds. *)
Lemma run_two {X Y : Type} (f : list X * list Y -> node -> dres (list X * list Y))
    (K1 K2 : node -> Prop) `{!forall c, Decision (K1 c), !forall c, Decision (K2 c)}
    (M1 : node -> X -> Prop) (M2 : node -> Y -> Prop) :
  (forall c, K1 c -> K2 c -> False) ->
  (forall a b c st', f (a, b) c = Done st' <->
     (K1 c /\ exists x, M1 c x /\ st' = (a ++ [x], b)) \/ (K2 c /\ exists y, M2 c y /\ st' = (a, b ++ [y]))) ->
  forall l a b st', run f (a, b) l = Done st' <->
    exists xs ys, Forall (fun c => K1 c \/ K2 c) l /\ Forall2 M1 (filter K1 l) xs /\
      Forall2 M2 (filter K2 l) ys /\ st' = (a ++ xs, b ++ ys).
Proof.
  intros Hd Hf. induction l as [|c l IH]; intros a b st'; simpl.
  - split.
    + intros [= <-]. exists [], []. rewrite !app_nil_r. split_and!; try constructor; done.
    + intros (xs & ys & _ & ->%Forall2_nil_inv_l & ->%Forall2_nil_inv_l & ->). by rewrite !app_nil_r.
  - rewrite !filter_cons. split.
    + intros ([a' b'] & H1 & (xs & ys & Ha & Hx & Hy & ->)%IH)%bind_inv.
      apply Hf in H1 as [[Hk (x & Hm & [= -> ->])]|[Hk (y & Hm & [= -> ->])]].
      * exists (x :: xs), ys. rewrite decide_True by done. rewrite decide_False by (intros ?; by eapply Hd).
        rewrite <- (assoc_L (++)). split_and!; [by constructor; [left|]|by constructor|done|done].
      * exists xs, (y :: ys). rewrite decide_False by (intros ?; by eapply Hd). rewrite decide_True by done.
        rewrite <- (assoc_L (++)). split_and!; [by constructor; [right|]|done|by constructor|done].
    + intros (xs & ys & Ha & Hx & Hy & ->). apply Forall_cons in Ha as [[Hk|Hk] Ha].
      * rewrite decide_True in Hx by done. rewrite decide_False in Hy by (intros ?; by eapply Hd).
        apply Forall2_cons_inv_l in Hx as (x & xs' & Hm & Hx & ->).
        rewrite (proj2 (Hf a b c (a ++ [x], b))) by (left; split; [done|]; by exists x). simpl.
        apply IH. exists xs', ys. rewrite <- (assoc_L (++)). done.
      * rewrite decide_True in Hy by done. rewrite decide_False in Hx by (intros ?; by eapply Hd).
        apply Forall2_cons_inv_l in Hy as (y & ys' & Hm & Hy & ->).
        rewrite (proj2 (Hf a b c (a, b ++ [y]))) by (right; split; [done|]; by exists y). simpl.
        apply IH. exists xs, ys'. rewrite <- (assoc_L (++)). done.
Qed.

Lemma tb_step_by s k a b c st' :
  tb_step s k (a, b) c = Done st' <->
  (n_type c = L "column" /\ exists x, column_means s k c x /\ st' = (a ++ [x], b)) \/
  (n_type c = L "constraint" /\ exists y, constraint_means s k c y /\ st' = (a, b ++ [y])).
Proof.
  unfold tb_step, of_type. case_bool_decide as E1; [|case_bool_decide as E2].
  - split.
    + intros (x & Hx%column_Done & [= <-])%bind_inv. left. split; [done|]. by exists x.
    + intros [[_ (x & Hx%column_Done & ->)]|[E _]]; [by rewrite Hx|two_kinds].
  - split.
    + intros (x & Hx%constraint_Done & [= <-])%bind_inv. right. split; [done|]. by exists x.
    + intros [[E _]|[_ (x & Hx%constraint_Done & ->)]]; [done|by rewrite Hx].
  - split; [done|]. by intros [[E _]|[E _]].
Qed.
Lemma tb_run s k l cols cts :
  run (tb_step s k) ([], []) l = Done (cols, cts) <-> table_contents s k l cols cts.
Proof.
  rewrite (run_two (tb_step s k) _ _ _ _) with (2 := tb_step_by s k);
    [|intros c E1 E2; two_kinds].
  unfold table_contents. split.
  - intros (xs & ys & H1 & H2 & H3 & H4). simpl in H4. injection H4 as -> ->. done.
  - intros (H1 & H2 & H3). by exists cols, cts.
Qed.
Lemma table_Done s n t : parse_table_definition s n = Done t <-> table_means s n (RTable t).
Proof.
  unfold parse_table_definition, table_means. rewrite opened. apply and_iff_compat_l. split.
  - intros (name & l & Hn & Hl & H). apply bind_inv in H as ([[cols cts] e] & Hc & H).
    apply bind_inv in H as ([] & He%check_errors_inv & H). subst e.
    apply collect_run, tb_run in Hc. apply bind_inv in H as (t1 & H1 & H2).
    destruct (col_unwrap_all cols (table_new s name)) as [[Hnc Hu]|[_ Hu]]; [constructor| |congruence].
    rewrite Hu in H1. injection H1 as <-. simpl in *.
    rewrite (unwrap_all_new tb_constraints set_constraints constraint_name) in H2;
      [|done|done|by intros []|exact con_add_new|exact con_add_old|done].
    destruct H2 as [Hnk ->]. exists name, l, cols, cts, (by_name constraint_name cts).
    split_and!; try done. by apply is_map_by_name.
  - intros (name & l & cols & cts & m & Hn & Hl & Hc & Hnc & [Hnk ->]%is_map_by_name & Hr). injection Hr as ->.
    exists name, l. split; [done|]. split; [done|].
    rewrite (proj2 (collect_run _ _ _ _) (proj2 (tb_run _ _ _ _ _) Hc)). simpl.
    destruct (col_unwrap_all cols (table_new s name)) as [[_ Hu]|[Hx _]]; [constructor| |done].
    rewrite Hu. simpl.
    rewrite (unwrap_all_new tb_constraints set_constraints constraint_name);
      [|done|done|by intros []|exact con_add_new|exact con_add_old|done].
    done.
Qed.

Lemma relation_kind c k : k ∈ relation_kinds -> n_type c = k -> n_type c ∈ relation_kinds.
Proof. by intros ? ->. Qed.
Lemma relation_kinds_inv k :
  k ∈ relation_kinds -> k = L "table" \/ k = L "view" \/ k = L "sequence" \/ k = L "index".
Proof.
  unfold relation_kinds. cbn [fmap list_fmap]. rewrite !elem_of_cons, elem_of_nil. tauto.
Qed.
Ltac is_kind := match goal with E : n_type _ = _ |- _ ∈ relation_kinds => rewrite E; apply elem_of_list_In; simpl; tauto end.
Lemma sc_step_by s a b c st' :
  sc_step s (a, b) c = Done st' <->
  (n_type c ∈ relation_kinds /\ exists x, relation_means s c x /\ st' = (a ++ [x], b)) \/
  (n_type c = L "function" /\ exists y, function_means s c y /\ st' = (a, b ++ [y])).
Proof.
  unfold sc_step, of_type, relation_means.
  case_bool_decide as E1; [|case_bool_decide as E2; [|case_bool_decide as E3; [|case_bool_decide as E4;
    [|case_bool_decide as E5]]]].
  - split.
    + intros (x & Hx%table_Done & [= <-])%bind_inv. left. split; [is_kind|].
      exists (RTable x). split; [by left|done].
    + intros [[_ (x & Hm & ->)]|[E _]]; [|two_kinds].
      destruct Hm as [Hm|[[E _]|[[E _]|[E _]]]]; [|two_kinds..].
      pose proof Hm as (_ & ? & ? & ? & ? & ? & _ & _ & _ & _ & _ & ->). apply table_Done in Hm. by rewrite Hm.
  - split.
    + intros (x & Hx%view_Done & [= <-])%bind_inv. left. split; [is_kind|].
      exists (RView x). split; [right; by left|done].
    + intros [[_ (x & Hm & ->)]|[E _]]; [|two_kinds].
      destruct Hm as [[E _]|[Hm|[[E _]|[E _]]]]; [two_kinds| |two_kinds..].
      pose proof Hm as (_ & ? & ? & ? & _ & _ & _ & _ & ->). apply view_Done in Hm. by rewrite Hm.
  - split.
    + intros (x & Hx%sequence_Done & [= <-])%bind_inv. left. split; [is_kind|].
      exists (RSequence x). split; [by do 3 right|done].
    + intros [[_ (x & Hm & ->)]|[E _]]; [|two_kinds].
      destruct Hm as [[E _]|[[E _]|[[E _]|Hm]]]; [two_kinds..|].
      pose proof Hm as (_ & ? & ? & ? & ? & _ & _ & _ & _ & _ & ->). apply sequence_Done in Hm. by rewrite Hm.
  - split.
    + intros (x & Hx%index_Done & [= <-])%bind_inv. left. split; [is_kind|].
      exists (RIndex x). split; [do 2 right; by left|done].
    + intros [[_ (x & Hm & ->)]|[E _]]; [|two_kinds].
      destruct Hm as [[E _]|[[E _]|[Hm|[E _]]]]; [two_kinds..| |two_kinds].
      pose proof Hm as (_ & ? & ? & ? & ? & _ & _ & _ & ->). apply index_Done in Hm. by rewrite Hm.
  - split.
    + intros (x & Hx%function_Done & [= <-])%bind_inv. right. split; [done|]. by exists x.
    + intros [[_ (x & Hm & ->)]|[_ (x & Hm%function_Done & ->)]]; [|by rewrite Hm].
      destruct Hm as [[E _]|[[E _]|[[E _]|[E _]]]]; two_kinds.
  - split; [done|]. intros [[E _]|[E _]]; [|done]. apply relation_kinds_inv in E. tauto.
Qed.
Lemma sc_run k l rels funs :
  run (sc_step k) ([], []) l = Done (rels, funs) <-> schema_contents k l rels funs.
Proof.
  rewrite (run_two (sc_step k) _ _ _ _) with (2 := sc_step_by k).
  - unfold schema_contents. split.
    + intros (xs & ys & H1 & H2 & H3 & H4). simpl in H4. injection H4 as -> ->. done.
    + intros (H1 & H2 & H3). by exists rels, funs.
  - intros c E1 E2. apply relation_kinds_inv in E1. destruct E1 as [E1|[E1|[E1|E1]]]; two_kinds.
Qed.
Lemma schema_Done n s : parse_schema_definition n = Done s <-> schema_means n s.
Proof.
  unfold parse_schema_definition, schema_means. rewrite opened. apply and_iff_compat_l. split.
  - intros (name & l & Hn & Hl & H). apply bind_inv in H as ([[rels funs] e] & Hc & H).
    apply bind_inv in H as ([] & He%check_errors_inv & H). subst e.
    apply collect_run, sc_run in Hc. apply bind_inv in H as (s1 & H1 & H2).
    rewrite (unwrap_all_new sc_relations set_relations relation_name) in H1;
      [|done|done|by intros []|exact rel_add_new|exact rel_add_old|done].
    destruct H1 as [Hnr ->].
    rewrite (unwrap_all_new sc_functions set_functions fn_name) in H2;
      [|done|done|by intros []|exact fn_add_new|exact fn_add_old|done].
    destruct H2 as [Hnf ->].
    exists name, l, rels, funs, (by_name relation_name rels), (by_name fn_name funs).
    split; [done|]. split; [done|]. split; [done|]. split; [by apply is_map_by_name|].
    split; [by apply is_map_by_name|done].
  - intros (name & l & rels & funs & mr & mf & Hn & Hl & Hc & [Hnr ->]%is_map_by_name & [Hnf ->]%is_map_by_name & ->).
    exists name, l. split; [done|]. split; [done|].
    rewrite (proj2 (collect_run _ _ _ _) (proj2 (sc_run _ _ _ _) Hc)). simpl.
    assert (unwrap_all add_relation rels (schema_new name) =
      Done (set_relations (schema_new name) (by_name relation_name rels))) as ->.
    { apply (unwrap_all_new sc_relations set_relations relation_name);
        [done|done|by intros []|exact rel_add_new|exact rel_add_old|done|done]. }
    simpl. apply (unwrap_all_new sc_functions set_functions fn_name);
      [done|done|by intros []|exact fn_add_new|exact fn_add_old|done|done].
Qed.
Lemma schemas_Done l ss : parse_schemas l = Done ss <-> Forall2 schema_means l ss.
Proof.
  revert ss. induction l as [|n l IH]; intros ss; simpl.
  - split; [intros [= <-]; constructor|by intros ->%Forall2_nil_inv_l].
  - split.
    + intros (s & Hs%schema_Done & (ss' & Hss%IH & [= <-])%bind_inv)%bind_inv. by constructor.
    + intros (s & ss' & Hs%schema_Done & Hss%IH & ->)%Forall2_cons_inv_l. rewrite Hs. simpl. by rewrite Hss.
Qed.
Lemma document_Done o l d : load_nodes o l database_new = Done d <-> document_means l d.
Proof.
  rewrite (load_nodes_spec _ _ _ _ wf_new). unfold document_means.
  apply exist_proper; intros ss. rewrite schemas_Done. apply and_iff_compat_l.
  change (singletons ss) with (pieces ss).
  rewrite contains_exactly_new. apply and_iff_compat_r. simpl. split; [by intros [_ ?]|].
  intros ?. split; [|done]. apply Forall_forall. intros f _. apply no_clash_new.
Qed.

(** ** Documents as trees *)

(** No keyword begins with an earlier one. *)
Fixpoint in_order (kws : list str) : bool :=
  match kws with
  | [] => true
  | k :: kws => forallb (fun k' => negb (starts_with k k')) kws && in_order kws
  end.
Lemma two_prefixes (a b s : str) :
  starts_with a s = true -> starts_with b s = true -> length a <= length b -> starts_with a b = true.
Proof.
  rewrite !starts_with_spec. intros [r ->] [r' H] Hl. exists (take (length b - length a) r).
  apply (f_equal (take (length b))) in H. rewrite take_app, take_app_ge in H by done.
  by rewrite H.
Qed.
Lemma starts_with_len a b : starts_with a b = true -> length a <= length b.
Proof. rewrite starts_with_spec. intros [r ->]. rewrite app_length. lia. Qed.
Lemma find_longest kws low k :
  in_order kws = true ->
  find_in low kws = Some k <->
  k ∈ kws /\ starts_with k low = true /\
  forall k', k' ∈ kws -> starts_with k' low = true -> length k' <= length k.
Proof.
  intros Ho. induction kws as [|k0 kws IH]; simpl.
  { split; [done|]. by intros [?%elem_of_nil _]. }
  simpl in Ho. apply andb_prop in Ho as [H0 Ho]. rewrite forallb_forall in H0.
  destruct (starts_with k0 low) eqn:E0.
  - assert (forall k', k' ∈ k0 :: kws -> starts_with k' low = true -> length k' <= length k0) as Hmax.
    { intros k' [->|Hin]%elem_of_cons Hp; [done|]. destruct (decide (length k' <= length k0)); [done|].
      apply elem_of_list_In, H0 in Hin. rewrite (two_prefixes k0 k' low) in Hin; [done|done|done|lia]. }
    split.
    + intros [= <-]. split; [left|]. done.
    + intros (Hin & Hp & Hm). f_equal.
      assert (length k0 = length k) as Hlen.
      { apply Nat.le_antisymm; [apply Hm; [left|done]|by apply Hmax]. }
      apply starts_with_spec in E0 as [r ->]. apply starts_with_spec in Hp as [r' H].
      by apply app_inj_1 in H as [-> _].
  - rewrite IH by done. split.
    + intros (Hin & Hp & Hm). split; [by right|]. split; [done|].
      intros k' [->|Hin']%elem_of_cons; [by rewrite E0|auto].
    + intros (Hin & Hp & Hm). apply elem_of_cons in Hin as [->|Hin]; [by rewrite E0 in Hp|].
      split; [done|]. split; [done|]. intros k' Hin'. apply Hm. by right.
Qed.
Lemma keywords_in_order : in_order KEYWORDS = true.
Proof. vm_compute. reflexivity. Qed.
Lemma find_kind key k : find_keyword key KEYWORDS = Some k <-> key_kind key k.
Proof.
  rewrite find_keyword_eq, (find_longest _ _ _ keywords_in_order). unfold key_kind.
  setoid_rewrite starts_with_begins. done.
Qed.
Lemma utf8_pos c : 0 < utf8_len c.
Proof. unfold utf8_len. repeat case_match; lia. Qed.
Lemma bytes_cons c a : bytes (c :: a) = utf8_len c + bytes a.
Proof. done. Qed.
Lemma slice_bytes n s b : slice_from n s = Some b <-> exists a, s = a ++ b /\ bytes a = n.
Proof.
  revert n. induction s as [|c s IH]; intros n.
  - destruct n as [|n]; simpl; split.
    + intros [= <-]. by exists [].
    + intros (a & H & _). by apply app_nil in H as [_ ->] || (symmetry in H; apply app_nil in H as [_ ->]).
    + done.
    + intros (a & H & Hb). symmetry in H. apply app_nil in H as [-> ->]. done.
  - destruct n as [|n].
    + simpl. split.
      * intros [= <-]. by exists [].
      * intros ([|x a] & H & Hb); [by simpl in H; subst|].
        rewrite bytes_cons in Hb. pose proof (utf8_pos x). lia.
    + cbn [slice_from]. case_decide as Hd.
      * rewrite IH. split.
        -- intros (a & -> & Hb). exists (c :: a). split; [done|]. rewrite bytes_cons.
           pose proof (utf8_pos c). lia.
        -- intros ([|x a] & H & Hb); [done|]. injection H as <- ->. exists a. split; [done|].
           rewrite bytes_cons in Hb. lia.
      * split; [done|]. intros ([|x a] & H & Hb); [done|]. injection H as <- ->.
        rewrite bytes_cons in Hb. lia.
Qed.
Lemma blank_trim b : trim b = [] <-> blank b.
Proof.
  rewrite <- stripped_iff. unfold stripped, blank. split.
  - intros (_ & w1 & w2 & H1 & H2 & ->). simpl. by apply Forall_app.
  - intros Hb. split; [split; by intros ? ?|]. exists b, []. rewrite !app_nil_r. split; [done|].
    split; [constructor|done].
Qed.
Lemma key_Done key k name : create_node_from_mapping_key key = Done (k, name) <-> key_means key k name.
Proof.
  unfold create_node_from_mapping_key, key_means. rewrite <- find_kind.
  destruct (find_keyword key KEYWORDS) as [k'|]; [|split; [done|by intros [? _]]].
  destruct (slice_from (length k') key) as [b|] eqn:Es.
  - pose proof Es as Es'. apply slice_bytes in Es' as (a & Hk & Hb). split.
    + intros [= -> <-]. split; [done|]. exists a, b. split; [done|]. split; [done|].
      destruct (trim b) as [|c t] eqn:Et; [by apply blank_trim|]. split; [done|]. by apply stripped_iff.
    + intros ([= ->] & a' & b' & Hk' & Hb' & Hn).
      assert (b' = b) as ->.
      { assert (slice_from (length k) key = Some b') as E by (apply slice_bytes; by exists a').
        rewrite E in Es. by injection Es. }
      destruct name as [t|].
      * destruct Hn as [Hne Ht%stripped_iff]. rewrite Ht. by destruct t.
      * apply blank_trim in Hn. by rewrite Hn.
  - split; [done|]. intros ([= ->] & a' & b' & Hk' & Hb' & _).
    assert (slice_from (length k) key = Some b') as E by (apply slice_bytes; by exists a').
    by rewrite E in Es.
Qed.

Lemma yaml_tree (P : yaml -> Prop) :
  P YNull -> (forall b, P (YBool b)) -> (forall z, P (YInt z)) -> (forall f, P (YFloat f)) ->
  (forall s, P (YString s)) -> (forall l, Forall P l -> P (YSeq l)) ->
  (forall m, Forall (fun e => P e.2) m -> P (YMap m)) -> (forall t v, P (YTagged t v)) ->
  forall v, P v.
Proof.
  intros H1 H2 H3 H4 H5 H6 H7 H8. fix IH 1. intros [|b|z|f|s|l|m|t v].
  - exact H1.
  - apply H2.
  - apply H3.
  - apply H4.
  - apply H5.
  - apply H6. induction l as [|v l IHl]; constructor; [apply IH|exact IHl].
  - apply H7. induction m as [|[k v] m IHm]; constructor; [apply IH|exact IHm].
  - apply H8.
Qed.

Lemma values_Done l vs :
  Forall (fun v => forall w, parse_serde_value v = Done w <-> value_means v w) l ->
  parse_values l = Done vs <-> Forall2 value_means l vs.
Proof.
  intros Hl. revert vs. induction Hl as [|v l Hv _ IH]; intros vs; simpl.
  - split; [intros [= <-]; constructor|by intros ->%Forall2_nil_inv_l].
  - split.
    + intros (w & Hw%Hv & (ws & Hws%IH & [= <-])%bind_inv)%bind_inv. by constructor.
    + intros (w & ws & Hw%Hv & Hws%IH & ->)%Forall2_cons_inv_l. rewrite Hw. simpl. by rewrite Hws.
Qed.
Lemma value_Done v w : parse_serde_value v = Done w <-> value_means v w.
Proof.
  revert w. induction v as [|b|z|f|s|l IH|m _|t v] using yaml_tree; intros w.
  - split; [done|]. intros H. inversion H.
  - split; [intros [= <-]; constructor|]. intros H. by inversion H.
  - cbn [parse_serde_value]. split.
    + case_decide as Hz; [|done]. intros [= <-]. by constructor.
    + intros H. inversion H; subst. by rewrite decide_True.
  - split; [intros [= <-]; constructor|]. intros H. by inversion H.
  - split; [intros [= <-]; constructor|]. intros H. by inversion H.
  - rewrite parse_serde_seq. split.
    + intros (vs & Hvs & [= <-])%bind_inv. constructor. by apply values_Done.
    + intros H. inversion H as [| | | |? vs Hvs]; subst. by rewrite (proj2 (values_Done l vs IH) Hvs).
  - split; [done|]. intros H. inversion H.
  - split; [done|]. intros H. inversion H.
Qed.

Definition entry_means (e : yaml * yaml) (n : node) : Prop :=
  exists key, as_str (e.1) = Some key /\ key_means key (n_type n) (n_name n) /\ child_means (e.2) (n_child n).
Lemma entries_Done m l :
  Forall (fun e => forall c, parse_child e.2 = Done c <-> child_means e.2 c) m ->
  parse_entries parse_child m = Done l <-> Forall2 entry_means m l.
Proof.
  intros Hm. revert l. induction Hm as [|[k v] m Hv _ IH]; intros l; simpl.
  - split; [intros [= <-]; constructor|by intros ->%Forall2_nil_inv_l].
  - simpl in Hv. split.
    + destruct (as_str k) as [key|] eqn:Ek; [|done].
      intros ([t name] & Ht%key_Done & (c & Hc%Hv & (ns & Hns%IH & [= <-])%bind_inv)%bind_inv)%bind_inv.
      constructor; [|done]. by exists key.
    + intros (n & ns & (key & Ek & Ht%key_Done & Hc%Hv) & Hns%IH & ->)%Forall2_cons_inv_l.
      simpl in *. rewrite Ek, Ht. simpl. rewrite Hc. simpl. rewrite Hns. simpl. by destruct n.
Qed.
Lemma child_Done v c : parse_child v = Done c <-> child_means v c.
Proof.
  revert c. induction v as [|b|z|f|s|l _|m IH|t v] using yaml_tree; intros c.
  - split; [intros [= <-]; constructor|]. intros H. inversion H as [|? ? Hv|]; [done|]. inversion Hv.
  - split; [intros [= <-]; repeat constructor|]. intros H. inversion H as [|? ? Hv|]; subst. by inversion Hv.
  - change (parse_child (YInt z)) with (v ← parse_serde_value (YInt z); Done (Some (ChildValue v)) : outcome yaml_error _). split.
    + intros (w & Hw%value_Done & [= <-])%bind_inv. by constructor.
    + intros H. inversion H as [|? ? Hv|]; subst. apply value_Done in Hv. by rewrite Hv.
  - split; [intros [= <-]; repeat constructor|]. intros H. inversion H as [|? ? Hv|]; subst. by inversion Hv.
  - split; [intros [= <-]; repeat constructor|]. intros H. inversion H as [|? ? Hv|]; subst. by inversion Hv.
  - change (parse_child (YSeq l)) with (v ← parse_serde_value (YSeq l); Done (Some (ChildValue v)) : outcome yaml_error _). split.
    + intros (w & Hw%value_Done & [= <-])%bind_inv. by constructor.
    + intros H. inversion H as [|? ? Hv|]; subst. apply value_Done in Hv. by rewrite Hv.
  - change (parse_child (YMap m)) with (nodes ← parse_entries parse_child m; Done (Some (ChildNodes nodes))). split.
    + intros (ns & Hns & [= <-])%bind_inv. constructor. by apply entries_Done.
    + intros H. inversion H as [|? ? Hv|? ns Hns]; subst; [by inversion Hv|].
      by rewrite (proj2 (entries_Done m ns IH) Hns).
  - split; [done|]. intros H. inversion H as [|? ? Hv|]; subst. by inversion Hv.
Qed.
Lemma nodes_Done m l : parse_mapping_to_nodes m = Done l <-> nodes_mean m l.
Proof.
  unfold nodes_mean. rewrite <- child_Done.
  change (parse_child (YMap m)) with (nodes ← parse_mapping_to_nodes m; Done (Some (ChildNodes nodes))). split.
  - by intros ->.
  - by intros (ns & -> & [= ->])%bind_inv.
Qed.

Lemma load_Done o m d :
  load_document o m = Done d <-> exists l, nodes_mean m l /\ document_means l d.
Proof.
  unfold load_document. split.
  - intros (l & Hl & Hd%document_Done)%bind_inv. exists l. split; [|done]. apply nodes_Done.
    by destruct (parse_mapping_to_nodes m); [injection Hl as ->| |].
  - intros (l & Hl%nodes_Done & Hd). rewrite Hl. simpl. by apply document_Done.
Qed.

(** ** Aborting *)
Lemma assert_true_done (P : Prop) `{!Decision P} : P -> @assert_that derror P _ = Done ().
Proof. intros HP. unfold assert_that. by rewrite decide_True. Qed.
Lemma opened_panic {A} (k : str) (n : node) (f : str -> list node -> dres A) :
  n_type n = k ->
  (_ ← assert_that (n_type n = k); name ← coerce_name n; l ← coerce_nodes n; f name l) = Panic <->
  exists name l, n_name n = Some name /\ below n = Some l /\ f name l = Panic.
Proof.
  intros Hk. unfold coerce_name, coerce_nodes. rewrite below_eq, assert_true_done by done. simpl.
  destruct (n_name n) as [name|]; simpl; [|by split; [|intros (?&?&?&_)]].
  destruct (below n) as [l|]; simpl; [|by split; [|intros (?&?&?&?&_)]]. split.
  - intros H. by exists name, l.
  - by intros (? & ? & [= <-] & [= <-] & H).
Qed.
(** A loop of which the steps abort on the nodes alone. *)
Lemma collect_aborts {S : Type} (f : S -> node -> dres S) (bad : node -> Prop) st e l :
  (forall st c, f st c = Panic <-> bad c) ->
  collect f st e l = Panic <-> exists c, c ∈ l /\ bad c.
Proof.
  intros Hf. split.
  - intros (st' & c & Hc & Hp%Hf)%collect_panic. by exists c.
  - intros (c & Hc & Hp). eapply collect_panic_2; [exact Hc|]. intros st'. by apply Hf.
Qed.

Lemma bind_Done_panic {E A B} (m : outcome E A) (g : A -> B) : (x ← m; Done (g x)) = Panic <-> m = Panic.
Proof. by destruct m. Qed.
Lemma tb_step_aborts s k st c :
  tb_step s k st c = Panic <-> n_type c = L "constraint" /\ ~ constraint_safe c.
Proof.
  destruct st as [cols cts]. unfold tb_step, of_type.
  case_bool_decide as E1; [|case_bool_decide as E2].
  - rewrite bind_Done_panic. split; [intros H; by apply parse_column_panic in H|].
    intros [E _]. exfalso. two_kinds.
  - rewrite bind_Done_panic, (parse_constraint_panic s k c E2). by split; [|intros [_ ?]].
  - split; [done|]. by intros [E _].
Qed.
Lemma table_Panic s n :
  n_type n = L "table" -> parse_table_definition s n = Panic <-> table_aborts s n.
Proof.
  intros Ht. unfold parse_table_definition, table_aborts. rewrite (opened_panic (L "table") n _ Ht).
  assert (forall P : Prop, P <-> n_type n = L "table" /\ P) as Hand by tauto. rewrite <- Hand. clear Hand.
  do 2 (apply exist_proper; intros ?). do 2 apply and_iff_compat_l. rename x into name, x0 into l.
  assert (forall cols cts,
    (t ← unwrap_all add_column cols (table_new s name); unwrap_all add_constraint cts t) = Panic <->
    ~ (NoDup (col_name <$> cols) /\ NoDup (constraint_name <$> cts))) as Hadd.
  { intros cols cts. destruct (col_unwrap_all cols (table_new s name)) as [[Hn ->]|[Hn ->]]; [constructor|..].
    - simpl. simpl in Hn. change (names cols) with (col_name <$> cols) in Hn.
      destruct (unwrap_all_spec tb_constraints set_constraints constraint_name) with
        (add := add_constraint) (l := cts) (s := set_columns (table_new s name) cols)
        as [(H1 & H2 & ->)|[H1 ->]];
        [done|done|by intros []|exact con_add_new|exact con_add_old|..].
      + split; [done|]. intros []. by split.
      + split; [|done]. intros _ [_ H]. apply H1. split; [done|]. intros v _. apply lookup_empty.
    - simpl in Hn. split; [|done]. intros _ [H _]. by apply Hn. }
  rewrite bind_panic, (collect_aborts _ _ _ _ _ (tb_step_aborts s name)). apply or_iff_compat_l. split.
  - intros ([[cols cts] e] & Hc & H). apply bind_panic in H as [H|([] & He%check_errors_inv & H)].
    { by apply check_errors_panic in H. }
    subst e. apply collect_run, tb_run in Hc. exists cols, cts. split; [done|]. by apply Hadd.
  - intros (cols & cts & Hc & Hn). exists ((cols, cts), []). split.
    + by apply collect_run, tb_run.
    + simpl. by apply Hadd.
Qed.
Lemma sc_step_aborts s st c : sc_step s st c = Panic <-> object_aborts s c.
Proof.
  destruct st as [rels funs]. unfold sc_step, of_type, object_aborts.
  case_bool_decide as E1; [|case_bool_decide as E2; [|case_bool_decide as E3; [|case_bool_decide as E4;
    [|case_bool_decide as E5]]]]; rewrite ?bind_Done_panic.
  - rewrite (table_Panic s c E1). split; [by left|]. intros [H|[[E _]|[E _]]]; [done|two_kinds..].
  - split; [intros H; by apply parse_view_panic in H|].
    intros [[E _]|[[E _]|[E _]]]; exfalso; two_kinds.
  - rewrite (parse_sequence_panic s c E3). split; [intros H; right; by right|].
    intros [[E _]|[[E _]|[_ ?]]]; [exfalso; two_kinds..|done].
  - rewrite (parse_index_panic s c E4). split; [intros H; right; by left|].
    intros [[E _]|[[_ ?]|[E _]]]; [exfalso; two_kinds|done|exfalso; two_kinds].
  - split; [intros H; by apply parse_function_panic in H|].
    intros [[E _]|[[E _]|[E _]]]; exfalso; two_kinds.
  - split; [done|]. by intros [[E _]|[[E _]|[E _]]].
Qed.
Lemma schema_Panic n : parse_schema_definition n = Panic <-> schema_aborts n.
Proof.
  unfold schema_aborts. destruct (decide (n_type n = L "schema")) as [Ht|Ht].
  2:{ split; [by left|]. intros _. unfold parse_schema_definition, assert_that. by rewrite decide_False. }
  assert (forall P : Prop, n_type n <> L "schema" \/ P <-> P) as -> by tauto.
  unfold parse_schema_definition. rewrite (opened_panic (L "schema") n _ Ht).
  do 2 (apply exist_proper; intros ?). do 2 apply and_iff_compat_l. rename x into name, x0 into l.
  assert (forall rels funs,
    (s ← unwrap_all add_relation rels (schema_new name); unwrap_all add_function funs s) = Panic <->
    ~ (NoDup (relation_name <$> rels) /\ NoDup (fn_name <$> funs))) as Hadd.
  { intros rels funs.
    destruct (unwrap_all_spec sc_relations set_relations relation_name) with
      (add := add_relation) (l := rels) (s := schema_new name)
      as [(H1 & _ & ->)|[H1 ->]];
      [done|done|by intros []|exact rel_add_new|exact rel_add_old|..].
    - cbn [mbind outcome_bind].
      destruct (unwrap_all_spec sc_functions set_functions fn_name) with
        (add := add_function) (l := funs)
        (s := set_relations (schema_new name) (sc_relations (schema_new name) ∪ by_name relation_name rels))
        as [(H2 & _ & H3)|[H2 H3]];
        [done|done|by intros []|exact fn_add_new|exact fn_add_old|..]; simpl in H3 |- *; rewrite H3.
      + split; [done|]. intros []. by split.
      + split; [|done]. intros _ [_ H]. apply H2. split; [done|]. intros v _. apply lookup_empty.
    - split; [|done]. intros _ [H _]. apply H1. split; [done|]. intros v _. apply lookup_empty. }
  rewrite bind_panic, (collect_aborts _ _ _ _ _ (sc_step_aborts name)). apply or_iff_compat_l. split.
  - intros ([[rels funs] e] & Hc & H). apply bind_panic in H as [H|([] & He%check_errors_inv & H)].
    { by apply check_errors_panic in H. }
    subst e. apply collect_run, sc_run in Hc. exists rels, funs. split; [done|]. by apply Hadd.
  - intros (rels & funs & Hc & Hn). exists ((rels, funs), []). split.
    + by apply collect_run, sc_run.
    + simpl. by apply Hadd.
Qed.
Lemma load_nodes_Panic o l d :
  load_nodes o l d = Panic <->
  exists a n b d', l = a ++ n :: b /\ load_nodes o a d = Done d' /\ parse_schema_definition n = Panic.
Proof.
  revert d. induction l as [|n l IH]; intros d; simpl.
  { split; [done|]. intros ([|? ?] & ? & ? & ? & ? & _); done. }
  rewrite bind_panic. split.
  - intros [H|(s & Hs & H)].
    { by exists [], n, l, d. }
    apply bind_panic in H as [H|(d1 & Hd & H)].
    { unfold of_mut in H. by destruct (_ : database * result ()) as [? [|]] in H. }
    apply IH in H as (a & n' & b & d' & -> & Ha & Hp). exists (n :: a), n', b, d'.
    split; [done|]. split; [|done]. simpl. rewrite Hs. simpl. by rewrite Hd.
  - intros ([|x a] & n' & b & d' & Hl & Ha & Hp).
    { injection Hl as <- ->. by left. }
    injection Hl as <- ->. right. simpl in Ha. apply bind_inv in Ha as (s & Hs & Ha).
    apply bind_inv in Ha as (d1 & Hd & Ha). exists s. split; [done|]. rewrite Hd. simpl.
    apply IH. by exists a, n', b, d'.
Qed.

Lemma values_Panic l :
  Forall (fun v => parse_serde_value v = Panic <-> value_aborts v) l ->
  parse_values l = Panic <->
  exists a v b, l = a ++ v :: b /\ Forall (fun v => exists w, value_means v w) a /\ value_aborts v.
Proof.
  induction 1 as [|v l Hv _ IH]; simpl.
  { split; [done|]. by intros ([|? ?] & ? & ? & ? & _). }
  rewrite bind_panic. split.
  - intros [H%Hv|(w & Hw%value_Done & H)].
    { by exists [], v, l. }
    rewrite bind_Done_panic in H. apply IH in H as (a & x & b & -> & Ha & Hx). exists (v :: a), x, b.
    split; [done|]. split; [|done]. constructor; [by exists w|done].
  - intros ([|y a] & x & b & Hl & Ha & Hx).
    { injection Hl as -> ->. left. by apply Hv. }
    injection Hl as <- ->. apply Forall_cons in Ha as [[w Hw%value_Done] Ha]. right. exists w.
    split; [done|]. rewrite bind_Done_panic. apply IH. by exists a, x, b.
Qed.
Lemma value_Panic v : parse_serde_value v = Panic <-> value_aborts v.
Proof.
  induction v as [|b|z|f|s|l IH|m _|t v] using yaml_tree.
  - split; [done|]. intros H. inversion H.
  - split; [done|]. intros H. inversion H.
  - cbn [parse_serde_value]. split; [by case_decide|]. intros H. inversion H.
  - split; [done|]. intros H. inversion H.
  - split; [done|]. intros H. inversion H.
  - rewrite parse_serde_seq, bind_Done_panic, (values_Panic _ IH). split.
    + intros (a & v & b & -> & Ha & Hv). by constructor.
    + intros H. inversion H as [|a v b Ha Hv]; subst. by exists a, v, b.
  - split; [constructor|done].
  - split; [done|]. intros H. inversion H.
Qed.
Lemma entries_Panic m :
  Forall (fun e => parse_child e.2 = Panic <-> child_aborts e.2) m ->
  parse_entries parse_child m = Panic <-> child_aborts (YMap m).
Proof.
  intros Hm.
  assert (parse_entries parse_child m = Panic <->
    exists a k v b key, m = a ++ (k, v) :: b /\ Forall entry_fine a /\ as_str k = Some key /\
      (~ key_safe key \/ exists kind name, key_means key kind name /\ child_aborts v)) as ->.
  { induction Hm as [|[k v] m Hv _ IH]; simpl.
    { split; [done|]. by intros ([|? ?] & ? & ? & ? & ? & ? & _). }
    simpl in Hv. split.
    - destruct (as_str k) as [key|] eqn:Ek; [|done].
      intros [H%key_panic|([t name] & Hk%key_Done & H)]%bind_panic.
      { exists [], k, v, m, key. split; [done|]. split; [constructor|]. split; [done|]. by left. }
      apply bind_panic in H as [H%Hv|(c & Hc%child_Done & H)].
      { exists [], k, v, m, key. split; [done|]. split; [constructor|]. split; [done|]. right. by exists t, name. }
      rewrite bind_Done_panic in H. apply IH in H as (a & k' & v' & b & key' & -> & Ha & Hr).
      exists ((k, v) :: a), k', v', b, key'. split; [done|]. split; [|done]. constructor; [|done].
      by exists key, t, name, c.
    - intros ([|e a] & k' & v' & b & key & Hl & Ha & Hk & Hr).
      { injection Hl as -> -> ->. rewrite Hk. apply bind_panic. destruct Hr as [Hr|(kind & name & Hm & Hc)].
        - left. by apply key_panic.
        - right. exists (kind, name). split; [by apply key_Done|]. apply bind_panic. left. by apply Hv. }
      injection Hl as <- ->. apply Forall_cons in Ha as [(key0 & kind & name & c & Ek & Hm%key_Done & Hc%child_Done) Ha].
      simpl in *. rewrite Ek, Hm. simpl. rewrite Hc. simpl. rewrite bind_Done_panic. apply IH.
      by exists a, k', v', b, key. }
  split.
  - intros (a & k & v & b & key & -> & Ha & Hk & [Hr|(kind & name & Hm' & Hc)]).
    + by eapply ca_key.
    + by eapply ca_value.
  - intros H. inversion H as [|a k v b key Ha Hk Hr|a k v b key kind name Ha Hk Hm' Hc]; subst.
    + exists a, k, v, b, key. split; [done|]. split; [done|]. split; [done|]. by left.
    + exists a, k, v, b, key. split; [done|]. split; [done|]. split; [done|]. right. by exists kind, name.
Qed.
Lemma child_Panic v : parse_child v = Panic <-> child_aborts v.
Proof.
  induction v as [|b|z|f|s|l _|m IH|t v] using yaml_tree.
  - split; [done|]. intros H. inversion H.
  - split; [done|]. intros H. inversion H.
  - simpl. split; [by case_decide|]. intros H. inversion H.
  - split; [done|]. intros H. inversion H.
  - split; [done|]. intros H. inversion H.
  - change (parse_child (YSeq l)) with (v ← parse_serde_value (YSeq l); Done (Some (ChildValue v)) : outcome yaml_error _).
    rewrite bind_Done_panic, value_Panic. split; [by constructor|]. intros H. by inversion H.
  - change (parse_child (YMap m)) with (nodes ← parse_entries parse_child m; Done (Some (ChildNodes nodes))).
    rewrite bind_Done_panic. by apply entries_Panic.
  - split; [done|]. intros H. inversion H.
Qed.

Lemma load_Panic o m :
  load_document o m = Panic <->
  child_aborts (YMap m) \/ exists l, nodes_mean m l /\ document_aborts l.
Proof.
  unfold load_document. rewrite bind_panic.
  assert (of_yaml (parse_mapping_to_nodes m) = Panic <-> child_aborts (YMap m)) as ->.
  { rewrite <- child_Panic.
    change (parse_child (YMap m)) with (nodes ← parse_mapping_to_nodes m; Done (Some (ChildNodes nodes))).
    rewrite bind_Done_panic. by destruct (parse_mapping_to_nodes m). }
  apply or_iff_compat_l. apply exist_proper; intros l.
  assert (of_yaml (parse_mapping_to_nodes m) = Done l <-> nodes_mean m l) as ->.
  { rewrite <- nodes_Done. destruct (parse_mapping_to_nodes m); simpl; [|done|done].
    split; by intros [= ->]. }
  apply and_iff_compat_l. rewrite load_nodes_Panic. unfold document_aborts.
  do 4 (apply exist_proper; intros ?). by rewrite document_Done, schema_Panic.
Qed.

Lemma one_meaning m :
  (forall l l', nodes_mean m l -> nodes_mean m l' -> l = l') /\
  (forall l d d', document_means l d -> document_means l d' -> d = d').
Proof.
  split.
  - intros l l' H%nodes_Done H'%nodes_Done. congruence.
  - intros l d d' H%(document_Done any_order) H'%(document_Done any_order). congruence.
Qed.
Lemma rejected_iff o m :
  (exists e, load_document o m = Fail e) <->
  ~ (exists l d, nodes_mean m l /\ document_means l d) /\
  ~ (child_aborts (YMap m) \/ exists l, nodes_mean m l /\ document_aborts l).
Proof.
  rewrite <- (load_Panic o). split.
  - intros [e He]. split; [|by rewrite He]. intros (l & d & H).
    assert (load_document o m = Done d) as Hd by (apply load_Done; by exists l). by rewrite He in Hd.
  - intros [H1 H2]. destruct (load_document o m) as [d|e|] eqn:E; [|by exists e|done].
    destruct H1. apply load_Done in E as (l & H). by exists l, d.
Qed.
Lemma objects_mean s t n :
  (forall c, parse_column_definition s t n = Done c <-> column_means s t n c) /\
  (forall c, parse_constraint_definition s t n = Done c <-> constraint_means s t n c) /\
  (forall x, parse_table_definition s n = Done x <-> table_means s n (RTable x)) /\
  (forall x, parse_view_definition s n = Done x <-> view_means s n (RView x)) /\
  (forall x, parse_index_definition s n = Done x <-> index_means s n (RIndex x)) /\
  (forall x, parse_sequence_definition s n = Done x <-> sequence_means s n (RSequence x)) /\
  (forall x, parse_function_definition s n = Done x <-> function_means s n x) /\
  (forall x, parse_schema_definition n = Done x <-> schema_means n x).
Proof.
  split; [intros; apply column_Done|]. split; [intros; apply constraint_Done|].
  split; [intros; apply table_Done|]. split; [intros; apply view_Done|].
  split; [intros; apply index_Done|]. split; [intros; apply sequence_Done|].
  split; [intros; apply function_Done|intros; apply schema_Done].
Qed.
