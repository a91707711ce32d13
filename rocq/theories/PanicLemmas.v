(** When loading a definition aborts the program. *)
From Verif Require Import Base Text Types Changes SpecSnapshot Node Yaml SpecDefinition Ddl ColumnRegex Load SpecMerge
  KeyLemmas YamlLemmas DdlLemmas MergeLemmas ColumnLemmas ParseLemmas.

Lemma bind_panic {E A B} (m : outcome E A) (f : A -> outcome E B) :
  (m ≫= f) = Panic <-> m = Panic \/ exists a, m = Done a /\ f a = Panic.
Proof.
  destruct m as [a|e|]; simpl; split; try done.
  - intros H. right. by exists a.
  - by intros [|(b & [= <-] & ?)].
  - by intros [|(b & ? & ?)].
  - by left.
Qed.
Lemma ok_or_panic {A} (o : option A) e : ok_or o e <> Panic.
Proof. by destruct o. Qed.
Lemma check_errors_panic n e : check_errors n e <> Panic.
Proof. by destruct e. Qed.

Lemma collect_panic {S : Type} (f : S -> node -> dres S) st e l :
  collect f st e l = Panic -> exists st' n, n ∈ l /\ f st' n = Panic.
Proof.
  revert st e. induction l as [|n l IH]; intros st e; [done|]. simpl.
  destruct (f st n) as [st'|x|] eqn:E.
  - intros (a & b & ? & ?)%IH. exists a, b. split; [by right|done].
  - intros (a & b & ? & ?)%IH. exists a, b. split; [by right|done].
  - intros _. exists st, n. split; [left|done].
Qed.
Lemma collect_panic_2 {S : Type} (f : S -> node -> dres S) st e l n :
  n ∈ l -> (forall st, f st n = Panic) -> collect f st e l = Panic.
Proof.
  intros Hn Hp. revert st e. induction l as [|x l IH]; intros st e; [by apply elem_of_nil in Hn|].
  simpl. apply elem_of_cons in Hn as [<-|Hn]; [by rewrite Hp|].
  destruct (f st x); [by apply IH|by apply IH|done].
Qed.

(** Splits a panic of a bind. *)
Ltac bp H := apply bind_panic in H as [H|(?x & ?Hx & H)].
(** No function of this shape panics. *)
Ltac no_panic H := repeat match type of H with
  | (_ ≫= _) = Panic => apply bind_panic in H as [H|(? & _ & H)]
  | context [let '(_, _) := ?p in _] => destruct p
  end; try by apply ok_or_panic in H; try done.

Ltac step_no_panic f :=
  unfold f; intros H; repeat match type of H with
  | context [if ?b then _ else _] => destruct b
  end; unfold coerce_string_varargs_value, coerce_boolean_value, coerce_string_value,
    coerce_name_and_string_varargs_value, coerce_integer_value, coerce_name_and_string_value,
    parse_table_reference in H;
  no_panic H; repeat case_match; done.

Lemma pk_step_panic st n : pk_step st n <> Panic.
Proof. destruct st as [[? ?] ?]. step_no_panic pk_step. Qed.
Lemma uq_step_panic st n : uq_step st n <> Panic.
Proof. destruct st as [[? ?] ?]. step_no_panic uq_step. Qed.
Lemma ck_step_panic st n : ck_step st n <> Panic.
Proof. destruct st as [[? ?] ?]. step_no_panic ck_step. Qed.
Lemma fk_step_panic s st n : fk_step s st n <> Panic.
Proof. destruct st as [? ? ? ? ? ? ? ? ?]. step_no_panic fk_step. Qed.
Lemma ix_step_panic st n : ix_step st n <> Panic.
Proof. destruct st as [[[? ?] ?] ?]. step_no_panic ix_step. Qed.
Lemma sq_step_panic st n : sq_step st n <> Panic.
Proof. destruct st as [? ? ? ? ? ? ? ? ?]. step_no_panic sq_step. Qed.
Lemma fn_step_panic st n : fn_step st n <> Panic.
Proof. destruct st as [[[? ?] ?] ?]. step_no_panic fn_step. Qed.
Lemma vw_step_panic st n : vw_step st n <> Panic.
Proof. step_no_panic vw_step. Qed.

(** ** Constraints *)
Lemma parse_pk_panic s t n : n_type n = L "constraint" -> parse_primary_key_definition s t n <> Panic.
Proof.
  intros Ht. unfold parse_primary_key_definition. rewrite assert_true by done. coerce. intros H.
  bp H; [by apply ok_or_panic in H|]. bp H; [by apply ok_or_panic in H|].
  bp H; [apply collect_panic in H as (? & ? & _ & H); by apply pk_step_panic in H|].
  destruct x1 as [[[cols de] ini] e]. bp H; [by apply check_errors_panic in H|].
  apply check_errors_inv, push_if_nil in Hx2 as [Hc _]. by destruct cols.
Qed.
Lemma parse_uq_panic s t n : n_type n = L "constraint" -> parse_unique_definition s t n <> Panic.
Proof.
  intros Ht. unfold parse_unique_definition. rewrite assert_true by done. coerce. intros H.
  bp H; [by apply ok_or_panic in H|]. bp H; [by apply ok_or_panic in H|].
  bp H; [apply collect_panic in H as (? & ? & _ & H); by apply uq_step_panic in H|].
  destruct x1 as [[[cols de] ini] e]. bp H; [by apply check_errors_panic in H|]. done.
Qed.
Lemma parse_ck_panic s t n : n_type n = L "constraint" -> parse_check_constraint_definition s t n <> Panic.
Proof.
  intros Ht. unfold parse_check_constraint_definition. rewrite assert_true by done. coerce. intros H.
  bp H; [by apply ok_or_panic in H|]. bp H; [by apply ok_or_panic in H|].
  bp H; [apply collect_panic in H as (? & ? & _ & H); by apply ck_step_panic in H|].
  destruct x1 as [[[cols de] ini] e]. bp H; [by apply check_errors_panic in H|].
  apply check_errors_inv, push_if_nil in Hx2 as [Hc _]. by destruct cols.
Qed.
Lemma parse_fk_panic s t n :
  n_type n = L "constraint" -> parse_foreign_key_constraint_definition s t n <> Panic.
Proof.
  intros Ht. unfold parse_foreign_key_constraint_definition. rewrite assert_true by done. coerce.
  intros H. bp H; [by apply ok_or_panic in H|]. bp H; [by apply ok_or_panic in H|].
  bp H; [apply collect_panic in H as (? & ? & _ & H); by apply fk_step_panic in H|].
  destruct x1 as [st e]. bp H; [by apply check_errors_panic in H|].
  apply check_errors_inv, push_if_nil in Hx2 as [H2 [H1 _]%push_if_nil].
  destruct (fs_columns st); [|done]. destruct (fs_tschema st); [|done].
  by destruct (fs_ttable st).
Qed.

Lemma of_type_true n t : of_type n t = true <-> n_type n = t.
Proof. apply bool_decide_eq_true. Qed.
Lemma of_type_false n t : of_type n t = false <-> n_type n <> t.
Proof. apply bool_decide_eq_false. Qed.

Lemma parse_constraint_panic s t n :
  n_type n = L "constraint" -> parse_constraint_definition s t n = Panic <-> ~ constraint_safe n.
Proof.
  intros Ht. unfold parse_constraint_definition, constraint_safe, coerce_nodes.
  destruct (get_nodes n) as [l|]; simpl; [|by split; [|intros []]].
  assert (forall P : list node -> Prop, (forall l', Some l = Some l' -> P l') <-> P l) as ->.
  { intros P. split; [by intros H; apply H|by intros H ? [= <-]]. }
  destruct l as [|c l].
  { split; [|done]. by intros _ (? & ? & ? & _). }
  assert ((exists c0 r, c :: l = c0 :: r /\ n_type c0 ∈ constraint_kinds) <-> n_type c ∈ constraint_kinds) as ->.
  { split; [by intros (? & ? & [= <- <-] & ?)|]. intros. by exists c, l. }
  split.
  - intros H Hin. revert H. unfold constraint_kinds in Hin. csimpl in Hin. unfold of_type.
    repeat (apply elem_of_cons in Hin as [->|Hin]; [simpl; intros H; bp H; [|done];
      first [by apply parse_pk_panic in H|by apply parse_uq_panic in H|by apply parse_fk_panic in H
            |by apply parse_ck_panic in H]|]). by apply elem_of_nil in Hin.
  - intros Hin.
    assert (forall k, k ∈ constraint_kinds -> of_type c k = false) as Hk.
    { intros k Hk. apply of_type_false. intros He. apply Hin. by rewrite He. }
    rewrite !Hk; [done|apply (bool_decide_unpack _); vm_compute; exact I..].
Qed.

(** ** Views, functions and columns *)
Lemma parse_column_panic s t n : n_type n = L "column" -> parse_column_definition s t n <> Panic.
Proof.
  intros Ht. unfold parse_column_definition. rewrite assert_true by done. coerce. intros H.
  bp H; [by apply ok_or_panic in H|]. bp H; [by apply ok_or_panic in H|].
  rewrite parse_column_expression_eq in H. unfold read_column_expression in H. bp H; [|by destruct x1 as [[? ?] ?]].
  repeat case_match; done.
Qed.
Lemma parse_view_panic s n : n_type n = L "view" -> parse_view_definition s n <> Panic.
Proof.
  intros Ht. unfold parse_view_definition. rewrite assert_true by done. coerce. intros H.
  bp H; [by apply ok_or_panic in H|]. bp H; [by apply ok_or_panic in H|].
  bp H; [apply collect_panic in H as (? & ? & _ & H); by apply vw_step_panic in H|].
  destruct x1 as [q e]. bp H; [by apply check_errors_panic in H|].
  apply check_errors_inv, push_if_nil in Hx2 as [Hc _]. by destruct q.
Qed.
Lemma parse_function_panic s n : n_type n = L "function" -> parse_function_definition s n <> Panic.
Proof.
  intros Ht. unfold parse_function_definition. rewrite assert_true by done. coerce. intros H.
  bp H; [by apply ok_or_panic in H|]. bp H; [by apply ok_or_panic in H|].
  bp H; [apply collect_panic in H as (? & ? & _ & H); by apply fn_step_panic in H|].
  destruct x1 as [[[[b la] re] vo] e]. bp H; [by apply check_errors_panic in H|].
  apply check_errors_inv, push_if_nil in Hx2 as [Hc _]. by destruct b.
Qed.

(** ** Indexes *)
Lemma ix_step_done st c st' :
  ix_step st c = Done st' ->
  st'.1.1 = st.1.1 \/
  (n_type c = L "on" /\ n_name c <> None /\ get_string_varargs_value c <> None /\
   st'.1.1.1 <> None /\ st'.1.1.2 <> None).
Proof.
  destruct st as [[[tb ks] uq] me]. unfold ix_step. intros H.
  case_match; [apply bind_inv in H as (? & _ & [= <-]); by left|].
  case_match eqn:Hon; [|case_match; [|done]; apply bind_inv in H as (? & _ & [= <-]); by left].
  apply bind_inv in H as ([nm v] & Hc & [= <-]). right.
  unfold coerce_name_and_string_varargs_value in Hc. apply bind_inv in Hc as (a & Ha%ok_or_inv & Hc).
  apply bind_inv in Hc as (b & Hb%ok_or_inv & [= -> ->]). apply of_type_true in Hon.
  rewrite Ha, Hb. done.
Qed.

Lemma ix_collect l st e r :
  collect ix_step st e l = Done r ->
  (st.1.1.1 = None <-> st.1.1.2 = None) ->
  (r.1.1.1.1 = None <-> r.1.1.1.2 = None) /\
  (r.1.1.1.1 <> None <-> st.1.1.1 <> None \/ exists c, c ∈ l /\ n_type c = L "on" /\ n_name c <> None /\
     get_string_varargs_value c <> None).
Proof.
  revert st e. induction l as [|c l IH]; intros st e; simpl.
  - intros [= <-] Hs. split; [done|]. simpl. split; [by left|].
    intros [?|(? & []%elem_of_nil & _)]. done.
  - assert (forall P : node -> Prop, (exists x, x ∈ c :: l /\ P x) <-> P c \/ exists x, x ∈ l /\ P x) as Hcons.
    { intros P. split.
      - intros (x & [->|Hx]%elem_of_cons & ?); eauto.
      - intros [?|(x & ? & ?)]; [exists c|exists x]; split; auto; [left|by right]. }
    rewrite Hcons. clear Hcons.
    destruct (ix_step st c) as [st1|e1|] eqn:E; [| |done]; intros H Hs.
    + destruct (ix_step_done _ _ _ E) as [Heq|(H1 & H2 & H3 & H4 & H5)].
      * destruct (IH _ _ H) as [G1 G2]; [by rewrite Heq|]. split; [done|]. rewrite G2, Heq.
        split; [intros [?|?]; auto|]. intros [?|[(K1 & K2 & K3)|?]]; [by left| |by right].
        left. destruct st as [[[tb ks] uq] me]. unfold ix_step, of_type in E. rewrite K1 in E.
        simpl in E. unfold coerce_name_and_string_varargs_value in E.
        destruct (n_name c) as [nm|]; [|done]. destruct (get_string_varargs_value c) as [v|]; [|done].
        simpl in E. injection E as <-. simpl in Heq. simpl. by injection Heq as <- <-.
      * destruct (IH _ _ H) as [G1 G2]; [by split|]. split; [done|]. rewrite G2. split; [|by left].
        intros _. right. by left.
    + destruct (IH _ _ H Hs) as [G1 G2]. split; [done|]. rewrite G2.
      split; [intros [?|?]; auto|]. intros [?|[(K1 & K2 & K3)|?]]; [by left| |by right].
      exfalso. destruct st as [[[tb ks] uq] me]. unfold ix_step, of_type in E. rewrite K1 in E.
      simpl in E. unfold coerce_name_and_string_varargs_value in E.
      destruct (n_name c) as [nm|]; [|done]. by destruct (get_string_varargs_value c).
Qed.

Lemma parse_index_panic s n :
  n_type n = L "index" -> parse_index_definition s n = Panic <-> ~ index_safe n.
Proof.
  intros Ht. unfold parse_index_definition, index_safe. rewrite assert_true by done. coerce.
  unfold coerce_name, coerce_nodes.
  destruct (n_name n) as [nm|]; simpl; [|by split; [|intros []]].
  destruct (get_nodes n) as [l|]; simpl; [|by split; [|intros []]].
  assert (forall P : list node -> Prop, (forall l', Some l = Some l' -> Some nm <> None -> P l') <-> P l) as ->.
  { intros P. split; [by intros H; apply H|by intros H ? [= <-]]. }
  destruct (collect _ _ _ _) as [[[[[tb ks] uq] me] e]|e|] eqn:E.
  - apply ix_collect in E as [H1 H2]; [|done]. simpl in H1, H2. simpl.
    assert (tb <> None <-> exists c, c ∈ l /\ n_type c = L "on" /\ n_name c <> None /\
      get_string_varargs_value c <> None) as <-.
    { rewrite H2. split; [by intros [?|?]|by right]. }
    destruct tb as [t|]; simpl.
    + split; [|by intros []]. destruct ks; [done|]. by destruct H1 as [_ H1%(fun f => f eq_refl)].
    + split; [|done]. intros _ H. done.
  - exfalso. clear -E. revert E. generalize (@nil derror).
    generalize (@None str, @None (list str), @None bool, @None str). induction l as [|c l IH]; [done|].
    intros st e'. simpl. destruct (ix_step st c); [apply IH|apply IH|done].
  - apply collect_panic in E as (? & ? & _ & E). by apply ix_step_panic in E.
Qed.

(** ** Sequences *)
Lemma last_value_cons {A} k (get : node -> option A) c l :
  last_value k get (c :: l) =
  match last_value k get l with
  | Some v => Some v
  | None => if decide (n_type c = k) then get c else None
  end.
Proof.
  unfold last_value. csimpl. destruct (if decide _ then _ else _) as [v|]; [|by destruct (last _)].
  rewrite last_cons. by destruct (last _).
Qed.

(** A field of the state set by one kind of attribute. *)
Lemma collect_field {S A : Type} (f : S -> node -> dres S) (field : S -> option A) k get st e l st' e' :
  (forall st c st', f st c = Done st' ->
     field st' = if decide (n_type c = k) then get c else field st) ->
  (forall st c e, f st c = Fail e -> n_type c = k -> get c = None) ->
  (forall st c st', f st c = Done st' -> n_type c = k -> get c <> None) ->
  collect f st e l = Done (st', e') ->
  field st' = match last_value k get l with Some v => Some v | None => field st end.
Proof.
  intros Hd Hf Hg. revert st e. induction l as [|c l IH]; intros st e; simpl.
  - by intros [= <- <-].
  - rewrite last_value_cons. destruct (f st c) as [st1|e1|] eqn:E; [| |done]; intros H.
    + rewrite (IH _ _ H), (Hd _ _ _ E). destruct (last_value k get l); [done|].
      case_decide as Hk; [|done]. pose proof (Hg _ _ _ E Hk). by destruct (get c).
    + rewrite (IH _ _ H). destruct (last_value k get l); [done|].
      case_decide as Hk; [|done]. by rewrite (Hf _ _ _ E Hk).
Qed.

Lemma collect_never_fails {S : Type} (f : S -> node -> dres S) st e l x : collect f st e l <> Fail x.
Proof. revert st e. induction l as [|n l IH]; intros st e; [done|]. simpl. destruct (f st n); auto. Qed.

(** What one attribute does to the fields that matter. *)
Lemma sq_fields st c st' :
  sq_step st c = Done st' ->
  (ss_type st' = (if decide (n_type c = L "as") then get_string_value c else ss_type st) /\
   (n_type c = L "as" -> get_string_value c <> None)) /\
  (ss_increment st' =
     (if decide (n_type c = L "increment") then get_number_integer_value c else ss_increment st) /\
   (n_type c = L "increment" -> get_number_integer_value c <> None)) /\
  (ss_min st' =
     (if decide (n_type c = L "minvalue") then get_number_integer_value c else ss_min st) /\
   (n_type c = L "minvalue" -> get_number_integer_value c <> None)) /\
  (ss_max st' =
     (if decide (n_type c = L "maxvalue") then get_number_integer_value c else ss_max st) /\
   (n_type c = L "maxvalue" -> get_number_integer_value c <> None)).
Proof.
  destruct st as [ty inc mn mx start cache cycle ot oc]. unfold sq_step. intros H.
  assert (forall k, of_type c (L k) = true -> n_type c = L k) as Hof by (intros; by apply of_type_true).
  destruct (of_type c (L "as")) eqn:E1; [|destruct (of_type c (L "increment")) eqn:E2;
  [|destruct (of_type c (L "minvalue")) eqn:E3; [|destruct (of_type c (L "maxvalue")) eqn:E4;
  [|destruct (of_type c (L "start")) eqn:E5; [|destruct (of_type c (L "cache")) eqn:E6;
  [|destruct (of_type c (L "cycle")) eqn:E7; [|destruct (of_type c (L "owned by")) eqn:E8;[|done]]]]]]]];
  match goal with E : of_type _ _ = true |- _ => apply Hof in E; rewrite E end; clear Hof;
  apply bind_inv in H as (v & Hv & H); try destruct v; injection H as <-; cbn [ss_type ss_increment ss_min ss_max];
  try (unfold coerce_string_value, coerce_integer_value in Hv; apply ok_or_inv in Hv; rewrite Hv).
  all: split_and!; try (intros; done); case_decide as Hd; done.
Qed.

Lemma sq_fails st c e :
  sq_step st c = Fail e ->
  (n_type c = L "as" -> get_string_value c = None) /\
  (n_type c = L "increment" -> get_number_integer_value c = None) /\
  (n_type c = L "minvalue" -> get_number_integer_value c = None) /\
  (n_type c = L "maxvalue" -> get_number_integer_value c = None).
Proof.
  destruct st as [ty inc mn mx start cache cycle ot oc]. unfold sq_step, of_type. intros H.
  split_and!; intros Ht; rewrite Ht in H; simpl in H;
    unfold coerce_string_value, coerce_integer_value in H.
  - by destruct (get_string_value c).
  - by destruct (get_number_integer_value c).
  - by destruct (get_number_integer_value c).
  - by destruct (get_number_integer_value c).
Qed.

Lemma sq_collect l e st' :
  collect sq_step (SqState None None None None None None None None None) [] l = Done (st', e) ->
  ss_type st' = last_value (L "as") get_string_value l /\
  ss_increment st' = last_value (L "increment") get_number_integer_value l /\
  ss_min st' = last_value (L "minvalue") get_number_integer_value l /\
  ss_max st' = last_value (L "maxvalue") get_number_integer_value l.
Proof.
  intros H.
  assert (forall {A} (field : sq_state -> option A) k get,
    (forall st c st', sq_step st c = Done st' ->
       field st' = if decide (n_type c = k) then get c else field st) ->
    (forall st c e, sq_step st c = Fail e -> n_type c = k -> get c = None) ->
    (forall st c st', sq_step st c = Done st' -> n_type c = k -> get c <> None) ->
    field (SqState None None None None None None None None None) = None ->
    field st' = last_value k get l) as Hfield.
  { intros A field k get H1 H2 H3 H4. rewrite (collect_field _ _ _ _ _ _ _ _ _ H1 H2 H3 H).
    rewrite H4. by destruct (last_value k get l). }
  split; [|split; [|split]]; apply Hfield; try done.
  1,4,7,10: intros st c x Hx; by destruct (sq_fields _ _ _ Hx) as ([? ?] & [? ?] & [? ?] & [? ?]).
  1,3,5,7: intros st c x Hx; by destruct (sq_fails _ _ _ Hx) as (? & ? & ? & ?).
  all: intros st c x Hx; by destruct (sq_fields _ _ _ Hx) as ([? ?] & [? ?] & [? ?] & [? ?]).
Qed.

Lemma parse_sequence_panic s n :
  n_type n = L "sequence" -> parse_sequence_definition s n = Panic <-> ~ sequence_safe n.
Proof.
  intros Ht. unfold parse_sequence_definition, sequence_safe. rewrite assert_true by done. coerce.
  unfold coerce_name, coerce_nodes.
  destruct (n_name n) as [nm|]; simpl; [|by split; [|intros []]].
  destruct (get_nodes n) as [l|]; simpl; [|by split; [|intros []]].
  assert (forall P : list node -> Prop, (forall l', Some l = Some l' -> Some nm <> None -> P l') <-> P l) as ->.
  { intros P. split; [by intros H; apply H|by intros H ? [= <-]]. }
  destruct (collect _ _ _ _) as [[st e]|e|] eqn:E.
  - apply sq_collect in E as (<- & <- & Hmin & Hmax). simpl.
    assert ((forall ty, ss_type st = Some ty -> ty = L "int2" \/ ty = L "int4" \/ ty = L "int8") <->
      known_type (default default_seq_type (ss_type st))) as ->.
    { destruct (ss_type st) as [ty|]; simpl.
      - split; [by intros H; apply H|by intros H ? [= <-]].
      - split; [by right; right|done]. }
    generalize (default default_seq_type (ss_type st)). intros ty.
    unfold default_increment. generalize (default 1%Z (ss_increment st)). intros inc.
    destruct (decide (known_type ty)) as [Hk|Hk].
    + split; [|intros Hn; destruct Hn; by left]. intros H. exfalso.
      destruct (min_known inc ty Hk) as [a Ha]. destruct (max_known inc ty Hk) as [b Hb].
      rewrite Ha, Hb in H.
      bp H; [by destruct (ss_min st)|]. bp H; [by destruct (ss_max st)|].
      bp H; [by apply check_errors_panic in H|done].
    + assert (forall x y : dres sequence, (x = Panic <-> y = Panic) -> True) as _ by done.
      assert (get_sequence_min_value inc ty = if decide (inc < 0)%Z then Panic else Done 1%Z) as ->.
      { unfold get_sequence_min_value. destruct (0 <=? inc)%Z eqn:H1.
        - apply Z.leb_le in H1. rewrite decide_False by lia. done.
        - apply Z.leb_gt in H1. rewrite decide_True by lia.
          repeat (case_bool_decide; [destruct Hk; unfold known_type; tauto|]). done. }
      assert (get_sequence_max_value inc ty = if decide (inc < 0)%Z then Done (-1)%Z else Panic) as ->.
      { unfold get_sequence_max_value. destruct (inc <? 0)%Z eqn:H1.
        - apply Z.ltb_lt in H1. rewrite decide_True by lia. done.
        - apply Z.ltb_ge in H1. rewrite decide_False by lia.
          repeat (case_bool_decide; [destruct Hk; unfold known_type; tauto|]). done. }
      assert (forall P Q : Prop, ~ P -> (P \/ Q) <-> Q) as Hor by tauto.
      rewrite (Hor _ _ Hk). clear Hor.
      destruct (decide (inc < 0)%Z).
      * rewrite <- Hmin. destruct (ss_min st) as [a|]; simpl.
        -- split; [|by intros []]. intros H. exfalso.
           bp H; [by destruct (ss_max st)|]. bp H; [by apply check_errors_panic in H|done].
        -- split; [|done]. intros _ Hn. by destruct Hn.
      * rewrite <- Hmax. destruct (ss_min st) as [a|]; simpl.
        -- destruct (ss_max st) as [b|]; simpl.
           ++ split; [|by intros []]. intros H. exfalso.
              bp H; [by apply check_errors_panic in H|done].
           ++ split; [|done]. intros _ Hn. by destruct Hn.
        -- destruct (ss_max st) as [b|]; simpl.
           ++ split; [|by intros []]. intros H. exfalso.
              bp H; [by apply check_errors_panic in H|done].
           ++ split; [|done]. intros _ Hn. by destruct Hn.
  - by apply collect_never_fails in E.
  - apply collect_panic in E as (? & ? & _ & E). by apply sq_step_panic in E.
Qed.

(** ** Tables and schemas *)

(** The names of what was parsed are the names of the nodes. *)
Lemma names_of_cons kinds c l :
  names_of kinds (c :: l) = (if decide (n_type c ∈ kinds) then option_list (n_name c) else []) ++ names_of kinds l.
Proof.
  unfold names_of. csimpl. case_decide; [|done]. by destruct (n_name c).
Qed.

Lemma tb_run_names s k l cols cts cols' cts' :
  run (tb_step s k) (cols, cts) l = Done (cols', cts') ->
  names cols' = names cols ++ names_of [L "column"] l /\
  (constraint_name <$> cts') = (constraint_name <$> cts) ++ names_of [L "constraint"] l.
Proof.
  revert cols cts. induction l as [|c l IH]; intros cols cts.
  { intros [= <- <-]. unfold names_of. simpl. by rewrite !app_nil_r. }
  cbn [run]. intros ([cols1 cts1] & Hs & H)%bind_inv. apply IH in H as [-> ->].
  rewrite !names_of_cons.
  apply tb_step_inv in Hs as [(x & Hx & -> & ->)|(x & Hx & -> & ->)].
  - apply parse_column_inv in Hx as (Ht & _ & _ & Hn). rewrite Ht, Hn.
    rewrite decide_True by (by apply elem_of_list_singleton).
    rewrite decide_False by (by intros ?%elem_of_list_singleton).
    unfold names. rewrite fmap_app. simpl. by rewrite <- (assoc_L (++)).
  - apply parse_constraint_inv in Hx as (Ht & _ & _ & Hn). rewrite Ht, Hn.
    rewrite decide_False by (by intros ?%elem_of_list_singleton).
    rewrite decide_True by (by apply elem_of_list_singleton).
    rewrite fmap_app. simpl. by rewrite <- (assoc_L (++)).
Qed.

Lemma parse_table_no_panic s n :
  n_type n = L "table" -> table_safe n -> parse_table_definition s n <> Panic.
Proof.
  intros Ht Hs. unfold parse_table_definition. rewrite assert_true by done. coerce. intros H.
  bp H; [by apply ok_or_panic in H|]. rename x into name.
  bp H; [by apply ok_or_panic in H|]. rename x into l. apply ok_or_inv in Hx0.
  destruct (Hs l Hx0) as (Hc & Hn1 & Hn2).
  bp H.
  { apply collect_panic in H as ([cols cts] & c & Hin & H). unfold tb_step in H.
    destruct (of_type c (L "column")) eqn:E1.
    { apply of_type_true in E1. bp H; [by apply parse_column_panic in H|done]. }
    destruct (of_type c (L "constraint")) eqn:E2; [|done]. apply of_type_true in E2.
    bp H; [|done]. apply parse_constraint_panic in H; [|done]. by apply H, Hc. }
  destruct x as [[cols cts] e]. bp H; [by apply check_errors_panic in H|].
  apply check_errors_inv in Hx2 as ->. apply collect_run, tb_run_names in Hx1 as [N1 N2].
  simpl in N1, N2.
  destruct (col_unwrap_all cols (table_new s name)) as [[_ Hu]|[Hn _]]; [constructor| |].
  2: { destruct Hn. simpl. by rewrite N1. }
  rewrite Hu in H. simpl in H.
  destruct (unwrap_all_spec tb_constraints set_constraints constraint_name
    (fun _ _ => eq_refl) (fun _ _ _ => eq_refl) ltac:(by intros []) add_constraint con_add_new
    con_add_old cts (Table s name cols ∅)) as [(_ & _ & Hk)|[Hk _]].
  - unfold table_new, set_columns in H. simpl in H. congruence.
  - destruct Hk. split; [by rewrite N2|]. intros v _. apply lookup_empty.
Qed.

Lemma sc_run_names s l rels funs rels' funs' :
  run (sc_step s) (rels, funs) l = Done (rels', funs') ->
  relation_name <$> rels' = (relation_name <$> rels) ++ names_of relation_kinds l /\
  (fn_name <$> funs') = (fn_name <$> funs) ++ names_of [L "function"] l.
Proof.
  revert rels funs. induction l as [|c l IH]; intros rels funs.
  { intros [= <- <-]. unfold names_of. simpl. by rewrite !app_nil_r. }
  cbn [run]. intros ([rels1 funs1] & Hs & H)%bind_inv. apply IH in H as [-> ->].
  rewrite !names_of_cons.
  apply sc_step_inv in Hs as [(x & Hx & -> & ->)|(x & _ & Hx & -> & ->)].
  - pose proof (parse_relation_wf _ _ _ Hx) as [_ Hn]. rewrite Hn.
    assert (n_type c ∈ relation_kinds) as Hk.
    { unfold parse_relation in Hx.
      repeat (destruct (of_type c _) eqn:E in Hx; [apply of_type_true in E; rewrite E; 
        apply (bool_decide_unpack _); vm_compute; exact I|clear E]). done. }
    rewrite decide_True by done. rewrite decide_False.
    + rewrite fmap_app. simpl. by rewrite <- (assoc_L (++)).
    + intros Hf%elem_of_list_singleton. rewrite Hf in Hk. revert Hk.
      apply (bool_decide_unpack _). vm_compute. exact I.
  - apply parse_function_inv in Hx as (Ht & _ & Hn). rewrite Ht, Hn.
    rewrite decide_False by (apply (bool_decide_unpack _); vm_compute; exact I).
    rewrite decide_True by (by apply elem_of_list_singleton).
    rewrite fmap_app. simpl. by rewrite <- (assoc_L (++)).
Qed.

Lemma parse_schema_no_panic n : schema_safe n -> parse_schema_definition n <> Panic.
Proof.
  intros [Ht Hs]. unfold parse_schema_definition. rewrite assert_true by done. coerce. intros H.
  bp H; [by apply ok_or_panic in H|]. rename x into name.
  bp H; [by apply ok_or_panic in H|]. rename x into l. apply ok_or_inv in Hx0.
  destruct (Hs l Hx0) as (Hc & Hn1 & Hn2).
  bp H.
  { apply collect_panic in H as ([rels funs] & c & Hin & H). unfold sc_step in H.
    destruct (Hc c Hin) as (C1 & C2 & C3).
    destruct (of_type c (L "table")) eqn:E1.
    { apply of_type_true in E1. bp H; [|done]. apply parse_table_no_panic in H; auto. }
    destruct (of_type c (L "view")) eqn:E2.
    { apply of_type_true in E2. bp H; [|done]. apply parse_view_panic in H; auto. }
    destruct (of_type c (L "sequence")) eqn:E3.
    { apply of_type_true in E3. bp H; [|done]. apply parse_sequence_panic in H; auto. }
    destruct (of_type c (L "index")) eqn:E4.
    { apply of_type_true in E4. bp H; [|done]. apply parse_index_panic in H; auto. }
    destruct (of_type c (L "function")) eqn:E5; [|done].
    apply of_type_true in E5. bp H; [|done]. apply parse_function_panic in H; auto. }
  destruct x as [[rels funs] e]. bp H; [by apply check_errors_panic in H|].
  apply check_errors_inv in Hx2 as ->. apply collect_run, sc_run_names in Hx1 as [N1 N2].
  simpl in N1, N2.
  destruct (unwrap_all_spec sc_relations set_relations relation_name
    (fun _ _ => eq_refl) (fun _ _ _ => eq_refl) ltac:(by intros []) add_relation rel_add_new
    rel_add_old rels (schema_new name)) as [(_ & _ & Hk)|[Hk _]].
  2: { destruct Hk. split; [by rewrite N1|]. intros v _. apply lookup_empty. }
  rewrite Hk, bind_Done in H.
  destruct (unwrap_all_spec sc_functions set_functions fn_name
    (fun _ _ => eq_refl) (fun _ _ _ => eq_refl) ltac:(by intros []) add_function fn_add_new
    fn_add_old funs (set_relations (schema_new name)
       (sc_relations (schema_new name) ∪ by_name relation_name rels))) as [(_ & _ & Hk')|[Hk' _]].
  - rewrite Hk' in H. done.
  - destruct Hk'. split; [by rewrite N2|]. intros v _. apply lookup_empty.
Qed.

Lemma load_nodes_no_panic o l d : Forall schema_safe l -> load_nodes o l d <> Panic.
Proof.
  intros Hl. revert d. induction Hl as [|n l Hn _ IH]; intros d; [done|]. simpl. intros H.
  bp H; [by apply parse_schema_no_panic in H|]. bp H; [|by apply IH in H].
  unfold of_mut in H. by destruct (_ : database * result ()) as [? [|]] in H.
Qed.

(** ** Keys *)
Definition ascii (s : str) : Prop := Forall (fun c => (c < 128)%N) s.

Lemma lower_cons c s : lower (c :: s) = lower_char c ++ lower s.
Proof. done. Qed.

Lemma lower_char_cases c :
  (exists d, lower_char c = [d] /\ (c < 128)%N /\ (d < 128)%N) \/
  (c = 8490%N /\ lower_char c = [107%N]) \/
  (c = 304%N /\ lower_char c = [105; 775]%N) \/
  (lower_char c = [c] /\ (128 <= c)%N).
Proof.
  unfold lower_char. destruct ((65 <=? c) && (c <=? 90))%N eqn:E1.
  { left. apply andb_true_iff in E1 as [H1 H2]. apply N.leb_le in H1, H2.
    exists (c + 32)%N. split; [done|]. lia. }
  destruct (c =? 8490)%N eqn:E2; [apply N.eqb_eq in E2; auto|].
  destruct (c =? 304)%N eqn:E3; [apply N.eqb_eq in E3; auto|].
  destruct (N.lt_ge_cases c 128) as [H|H]; [|auto 6]. left. by exists c.
Qed.

(** The part of a text whose lower case is a given ASCII text. *)
Lemma lower_split p s r :
  lower s = p ++ r -> ascii p -> last p <> Some 105%N ->
  exists a b, s = a ++ b /\ lower a = p /\ lower b = r /\ (107%N ∉ p -> ascii a).
Proof.
  revert s. induction p as [|x p IH]; intros s Hs Hp Hl.
  { exists [], s. split; [done|]. split; [done|]. split; [done|]. intros _. constructor. }
  apply Forall_cons in Hp as [Hx Hp]. destruct s as [|c s]; [done|].
  rewrite lower_cons in Hs.
  assert (forall d, lower_char c = [d] -> d = x -> (107%N <> x -> (c < 128)%N) ->
    exists a b, c :: s = a ++ b /\ lower a = x :: p /\ lower b = r /\ (107%N ∉ x :: p -> ascii a)) as Hone.
  { intros d Hd -> Hc. rewrite Hd in Hs. injection Hs as Hs.
    destruct (IH s Hs Hp) as (a & b & -> & <- & <- & Ha).
    { intros He. apply Hl. destruct p; [done|]. done. }
    exists (c :: a), b. split; [done|]. rewrite lower_cons, Hd. split; [done|]. split; [done|].
    intros [H1 H2]%not_elem_of_cons. constructor; [by apply Hc|by apply Ha]. }
  destruct (lower_char_cases c) as [(d & Hd & Hc & _)|[[-> Hd]|[[-> Hd]|[Hd Hc]]]].
  - apply (Hone d Hd); [|done]. rewrite Hd in Hs. by injection Hs.
  - apply (Hone _ Hd); [|by intros []; rewrite Hd in Hs; injection Hs]. rewrite Hd in Hs. by injection Hs.
  - exfalso. rewrite Hd in Hs. injection Hs as <- Hs. destruct p as [|y p]; [by destruct Hl|].
    injection Hs as <- _. apply Forall_cons in Hp as [Hp _]. lia.
  - exfalso. rewrite Hd in Hs. injection Hs as -> _. lia.
Qed.

Lemma lower_length a p : lower a = p -> ascii a -> length a = length p.
Proof.
  intros <- Ha. induction Ha as [|c a Hc _ IH]; [done|]. rewrite lower_cons, app_length, <- IH.
  destruct (lower_char_cases c) as [(d & -> & _)|[[-> _]|[[-> _]|[_ ?]]]]; [done|lia|lia|lia].
Qed.

Lemma slice_app a b n : ascii a -> slice_from (length a + n) (a ++ b) = slice_from n b.
Proof.
  induction 1 as [|c t Hc _ IH]; [done|]. simpl.
  assert (utf8_len c = 1) as ->.
  { unfold utf8_len. by apply N.ltb_lt in Hc as ->. }
  rewrite decide_True by lia. by replace (S (length t + n) - 1) with (length t + n) by lia.
Qed.

Lemma slice_plain k key r :
  lower key = k ++ r -> ascii k -> last k <> Some 105%N -> 107%N ∉ k ->
  slice_from (length k) key <> None.
Proof.
  intros Hk Ha Hl Hn. destruct (lower_split _ _ _ Hk Ha Hl) as (a & b & -> & Hla & _ & Haa).
  rewrite <- (lower_length a k Hla) by auto. rewrite <- (Nat.add_0_r (length a)), slice_app by auto.
  by destruct b.
Qed.

(** A keyword with a k in it. *)
Lemma slice_k k1 k2 key r :
  lower key = k1 ++ 107%N :: k2 ++ r -> ascii k1 -> ascii k2 -> last k1 <> Some 105%N ->
  last k2 <> Some 105%N -> 107%N ∉ k1 -> 107%N ∉ k2 ->
  (exists a b, key = a ++ 8490%N :: b /\ lower a = k1 /\ ascii a) \/
  slice_from (length (k1 ++ 107%N :: k2)) key <> None.
Proof.
  intros Hk A1 A2 L1 L2 N1 N2.
  destruct (lower_split _ _ _ Hk A1 L1) as (a & b & -> & Hla & Hlb & Ha).
  destruct b as [|c b]; [done|]. rewrite lower_cons in Hlb.
  specialize (Ha N1).
  destruct (lower_char_cases c) as [(d & Hd & Hc & _)|[[-> Hd]|[[-> Hd]|[Hd Hc]]]].
  - right. rewrite Hd in Hlb. injection Hlb as -> Hlb.
    pose proof (slice_plain k2 b r Hlb A2 L2 N2) as Hs.
    rewrite app_length, <- (lower_length a k1 Hla Ha), slice_app by done.
    change (length (107%N :: k2)) with (S (length k2)). simpl.
    assert (utf8_len c = 1) as ->.
    { unfold utf8_len. by apply N.ltb_lt in Hc as ->. }
    rewrite decide_True by lia. by replace (S (length k2) - 1) with (length k2) by lia.
  - left. by exists a, b.
  - exfalso. by rewrite Hd in Hlb.
  - exfalso. rewrite Hd in Hlb. injection Hlb as -> _. lia.
Qed.

Global Instance ascii_dec s : Decision (ascii s).
Proof. unfold ascii. apply _. Defined.

Lemma plain_keywords :
  Forall (fun k => ascii k /\ last k <> Some 105%N /\
    (k = L "foreign key" \/ k = L "primary key" \/ k = L "check" \/ 107%N ∉ k)) KEYWORDS.
Proof. apply (bool_decide_unpack _). vm_compute. exact I. Qed.

Lemma lower_nil b : lower b = [] -> b = [].
Proof.
  destruct b as [|c b]; [done|]. rewrite lower_cons.
  destruct (lower_char_cases c) as [(d & -> & _)|[[_ ->]|[[_ ->]|[-> ?]]]]; done.
Qed.

Lemma lower_chec a : lower a = L "chec" -> ascii a.
Proof.
  intros Ha. destruct (lower_split (L "chec") a []) as (a' & b & -> & _ & Hb & Hasc);
    [by rewrite app_nil_r|apply (bool_decide_unpack _); vm_compute; exact I..|].
  apply lower_nil in Hb as ->. rewrite app_nil_r. apply Hasc.
  apply (bool_decide_unpack _); vm_compute; exact I.
Qed.

Lemma key_panic key : create_node_from_mapping_key key = Panic <-> ~ key_safe key.
Proof.
  unfold create_node_from_mapping_key. rewrite find_keyword_eq. split.
  - destruct (find_in (lower key) KEYWORDS) as [k|] eqn:E; [|done].
    destruct (slice_from (length k) key) eqn:Es; [done|]. intros _.
    pose proof (find_in_elem _ _ _ E) as Hin.
    assert (exists r, lower key = k ++ r) as [r Hr].
    { clear -E. revert E. induction KEYWORDS as [|k' kws IH]; simpl; [done|].
      destruct (starts_with k' (lower key)) eqn:Hs; [|done]. intros [= ->]. by apply starts_with_spec. }
    pose proof (proj1 (Forall_forall _ _) plain_keywords k Hin) as (Ha & Hl & Hk).
    intros Hsafe. destruct Hk as [->|[->|[->|Hk]]].
    + destruct (slice_k (L "foreign ") (L "ey") key r) as [(a & b & -> & Hla & Haa)|Hs]; try done;
        try (apply (bool_decide_unpack _); vm_compute; exact I).
      rewrite <- (Nat.add_0_r (length (L "foreign key"))) in Es.
      change (length (L "foreign key") + 0) with (length (L "foreign ") + 3) in Es.
      rewrite <- (lower_length a _ Hla Haa), slice_app in Es by done. simpl in Es. by destruct b.
    + destruct (slice_k (L "primary ") (L "ey") key r) as [(a & b & -> & Hla & Haa)|Hs]; try done;
        try (apply (bool_decide_unpack _); vm_compute; exact I).
      change (length (L "primary key")) with (length (L "primary ") + 3) in Es.
      rewrite <- (lower_length a _ Hla Haa), slice_app in Es by done. simpl in Es. by destruct b.
    + destruct (slice_k (L "chec") [] key r) as [(a & b & -> & Hla & Haa)|Hs]; try done;
        try (apply (bool_decide_unpack _); vm_compute; exact I).
      by apply (Hsafe a b).
    + by apply (slice_plain k key r).
  - intros Hs. unfold key_safe in Hs.
    assert (exists a r, key = a ++ 8490%N :: r /\ lower a = L "chec") as (a & r & -> & Ha).
    { destruct (decide (lower (take 4 key) = L "chec" /\ key !! 4 = Some 8490%N)) as [[H1 H2]|Hn].
      - exists (take 4 key), (drop 5 key). split; [|done]. symmetry. by apply take_drop_middle.
      - destruct Hs. intros a r -> Ha. apply Hn.
        pose proof (lower_length a _ Ha (lower_chec a Ha)) as Hlen.
        change (length (L "chec")) with 4 in Hlen. rewrite <- Hlen, take_app.
        split; [done|]. by rewrite list_lookup_middle. }
    rewrite lower_app, lower_cons, Ha.
    change (find_in (L "chec" ++ lower_char 8490 ++ lower r) KEYWORDS) with (Some (L "check")).
    cbv iota beta.
    pose proof (lower_chec a Ha) as Haa.
    change (length (L "check")) with (length (L "chec") + 1).
    by rewrite <- (lower_length a _ Ha Haa), slice_app by done.
Qed.

(** ** Documents *)
Lemma serde_no_panic v : seq_safe v -> parse_serde_value v <> Panic.
Proof.
  revert v. fix IH 2. intros v Hv. destruct Hv as [|b|z|f|s|l Hl|t v]; try done.
  - simpl. by case_decide.
  - simpl. intros H. bp H; [|done]. revert H.
    assert (Forall (fun v => parse_serde_value v <> Panic) l) as Hl'.
    { clear -IH Hl. induction Hl as [|v l Hv Hl IHl]; constructor; [by apply IH|exact IHl]. }
    clear -Hl'. induction Hl' as [|v l Hv _ IHl]; [done|]. intros H. bp H; [done|].
    bp H; [by apply IHl|done].
Qed.

Lemma entries_no_panic child m :
  Forall (fun e => forall k, as_str e.1 = Some k -> key_safe k) m ->
  Forall (fun e => child e.2 <> Panic) m -> parse_entries child m <> Panic.
Proof.
  induction 1 as [|[k v] m Hk _ IH]; intros Hc; [done|]. apply Forall_cons in Hc as [Hc1 Hc].
  simpl in *. destruct (as_str k) as [key|]; [|done]. intros H.
  bp H; [apply key_panic in H; by apply H, Hk|]. destruct x as [t name].
  bp H; [done|]. bp H; [by apply IH|done].
Qed.

Lemma child_no_panic v : yaml_safe v -> parse_child v <> Panic.
Proof.
  revert v. fix IH 2. intros v Hv. destruct Hv as [v Hv|m Hk Hm].
  - destruct Hv as [|b|z|f|s|l Hl|t v]; try done.
    + simpl. by case_decide.
    + simpl. intros H. bp H; [|done].
      change (parse_serde_value (YSeq l) = Panic) in H. apply serde_no_panic in H; [done|].
      by constructor.
  - simpl. intros H. bp H; [|done]. apply entries_no_panic in H; [done|done|].
    clear -IH Hm. induction Hm as [|e m He Hm IHm]; constructor; [by apply IH|exact IHm].
Qed.

Lemma load_no_panic o m : document_safe m -> load_document o m <> Panic.
Proof.
  intros [Hy Hs]. unfold load_document. intros H. bp H.
  - unfold of_yaml in H. destruct (parse_mapping_to_nodes m) as [| |] eqn:E; try done.
    apply child_no_panic in Hy. simpl in Hy. unfold parse_mapping_to_nodes in E. by rewrite E in Hy.
  - apply load_nodes_no_panic in H; [done|]. apply Hs. unfold of_yaml in Hx.
    destruct (parse_mapping_to_nodes m); [by injection Hx as ->|done|done].
Qed.

