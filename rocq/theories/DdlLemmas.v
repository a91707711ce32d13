(** Objects through definition nodes. *)
From Verif Require Import Base Text Types Changes Node Yaml SpecDefinition Ddl TextLemmas KeyLemmas
  YamlLemmas.

Lemma mapM_strings l : mapM to_string (VString <$> l) = Some l.
Proof. apply mapM_Some_2. induction l as [|s l IH]; csimpl; constructor; [done|exact IH]. Qed.

Lemma varargs_round_trip l : to_string_varargs (from_string_varargs l) = Some l.
Proof.
  destruct l as [|s [|s' l]]; [done|done|].
  change (from_string_varargs (s :: s' :: l)) with (VList (VString <$> (s :: s' :: l))).
  apply mapM_strings.
Qed.

Lemma co_varargs l n : coerce_string_varargs_value (with_string_varargs_value l n) = Done l.
Proof.
  unfold coerce_string_varargs_value, get_string_varargs_value, get_value. simpl.
  by rewrite varargs_round_trip.
Qed.
Lemma co_name_varargs l s n :
  coerce_name_and_string_varargs_value (with_string_varargs_value l (with_name s n)) = Done (s, l).
Proof.
  unfold coerce_name_and_string_varargs_value, get_string_varargs_value, get_value. simpl.
  by rewrite varargs_round_trip.
Qed.
Lemma co_name_string v s n :
  coerce_name_and_string_value (with_string_value v (with_name s n)) = Done (s, v).
Proof. done. Qed.
Lemma co_bool b n : coerce_boolean_value (with_boolean_value b n) = Done b.
Proof. done. Qed.
Lemma co_string s n : coerce_string_value (with_string_value s n) = Done s.
Proof. done. Qed.
Lemma co_int i n : coerce_integer_value (with_number_integer_value i n) = Done i.
Proof. done. Qed.
Lemma co_nodes l n : coerce_nodes (with_nodes l n) = Done l.
Proof. done. Qed.
Lemma co_name_nodes l s n : coerce_name (with_nodes l (with_name s n)) = Done s.
Proof. done. Qed.
Lemma bind_Done {A B} (a : A) (f : A -> dres B) : (Done a ≫= f) = f a.
Proof. done. Qed.
Lemma bind_Fail {A B} e (f : A -> dres B) : (Fail e ≫= f) = Fail e.
Proof. done. Qed.
Lemma assert_true (P : Prop) `{!Decision P} : P -> @assert_that derror P _ = Done ().
Proof. intros. unfold assert_that. by rewrite decide_True. Qed.

(** Decides the kinds of the nodes in the goal. *)
Ltac types := repeat match goal with
  | |- context [of_type ?n ?t] =>
      let b := eval vm_compute in (of_type n t) in
      lazymatch b with
      | true => change (of_type n t) with true
      | false => change (of_type n t) with false
      end
  end; cbv iota.
Ltac coerce := repeat first [rewrite co_varargs | rewrite co_name_varargs | rewrite co_name_string
  | rewrite co_bool | rewrite co_string | rewrite co_int | rewrite co_nodes
  | rewrite co_name_nodes | rewrite bind_Done | rewrite bind_Fail]; cbv beta iota.
Ltac enter := rewrite assert_true by (vm_compute; reflexivity); coerce.

Lemma collect_nil {S : Type} (f : S -> node -> dres S) st e : collect f st e [] = Done (st, e).
Proof. done. Qed.
Lemma collect_ok {S : Type} (f : S -> node -> dres S) st st' e n l :
  f st n = Done st' -> collect f st e (n :: l) = collect f st' e l.
Proof. intros H. simpl. by rewrite H. Qed.
Lemma collect_app {S : Type} (f : S -> node -> dres S) st e l1 l2 :
  collect f st e (l1 ++ l2) = ('(st', e') ← collect f st e l1; collect f st' e' l2).
Proof.
  revert st e. induction l1 as [|n l1 IH]; intros st e; [done|]. simpl.
  destruct (f st n); [apply IH|apply IH|done].
Qed.

(** The value of an attribute written only if it differs from its default. *)
Definition opt {A} `{!EqDecision A} (v d : A) : option A := if bool_decide (v <> d) then Some v else None.
Lemma default_opt {A} `{!EqDecision A} (v d : A) : default d (opt v d) = v.
Proof. unfold opt. case_bool_decide as H; [done|]. simpl. by destruct (decide (v = d)). Qed.

Lemma collect_opt {S : Type} (f : S -> node -> dres S) st st1 e (b : bool) n rest :
  (b = true -> f st n = Done st1) -> (b = false -> st = st1) ->
  collect f st e ((if b then [n] else []) ++ rest) = collect f st1 e rest.
Proof. destruct b; intros H1 H2; simpl; [by rewrite H1|by rewrite H2]. Qed.

(** Runs the loop over one attribute, leaving the given state. *)
Tactic Notation "attr" uconstr(st) reference(f) :=
  first [rewrite (collect_ok _ _ st) by (unfold f; types; by coerce)
        |rewrite (collect_opt _ _ st);
         [|intros Hb; unfold f, opt; rewrite ?Hb; types; by coerce|intros Hb; unfold opt; by rewrite ?Hb]].

(** ** Constraints *)
Lemma pk_round_trip s t c :
  parse_primary_key_definition s t (render_primary_key_definition c) =
  Done (PrimaryKey s t (pk_name c) (pk_columns c) (pk_deferrable c) (pk_initially c)).
Proof.
  unfold parse_primary_key_definition, render_primary_key_definition, render_deferral. enter.
  destruct c as [? ? name cols de ini]. cbn [pk_name pk_columns pk_deferrable pk_initially].
  rewrite <- (app_nil_r (if bool_decide (ini <> _) then _ else _)).
  attr (Some cols, None, None) pk_step.
  attr (Some cols, opt de default_deferrable, None) pk_step.
  attr (Some cols, opt de default_deferrable, opt ini default_initially) pk_step.
  rewrite collect_nil. coerce. cbn [is_none push_if check_errors]. coerce. cbn [unwrap]. coerce.
  by rewrite !default_opt.
Qed.

Lemma uq_round_trip s t c :
  parse_unique_definition s t (render_unique_definition c) =
  if is_empty (uq_columns c)
  then Fail (HasErrors (display_string (render_unique_definition c))
         [AttributeRequired (display_string (render_unique_definition c)) (L "unique")])
  else Done (Unique s t (uq_name c) (uq_columns c) (uq_deferrable c) (uq_initially c)).
Proof.
  unfold parse_unique_definition, render_unique_definition, render_deferral. enter.
  destruct c as [? ? name cols de ini]. cbn [uq_name uq_columns uq_deferrable uq_initially].
  rewrite <- (app_nil_r (if bool_decide (ini <> _) then _ else _)).
  attr (cols, None, None) uq_step.
  attr (cols, opt de default_deferrable, None) uq_step.
  attr (cols, opt de default_deferrable, opt ini default_initially) uq_step.
  rewrite collect_nil. coerce. rewrite !default_opt. by destruct cols.
Qed.

Lemma ck_round_trip s t c :
  parse_check_constraint_definition s t (render_check_constraint_definition c) =
  Done (Check s t (ck_name c) (ck_expression c) (ck_deferrable c) (ck_initially c)).
Proof.
  unfold parse_check_constraint_definition, render_check_constraint_definition, render_deferral.
  enter. destruct c as [? ? name expr de ini].
  cbn [ck_name ck_expression ck_deferrable ck_initially].
  rewrite <- (app_nil_r (if bool_decide (ini <> _) then _ else _)).
  attr (Some expr, None, None) ck_step.
  attr (Some expr, opt de default_deferrable, None) ck_step.
  attr (Some expr, opt de default_deferrable, opt ini default_initially) ck_step.
  rewrite collect_nil. coerce. by rewrite !default_opt.
Qed.

(** *** Table references *)
Lemma split_on_pieces sep s : Forall (lacks sep) (split_on sep s).
Proof.
  induction s as [|c s IH]; simpl.
  - apply Forall_singleton, not_elem_of_nil.
  - destruct (c =? sep)%N eqn:Hc; [constructor; [apply not_elem_of_nil|done]|].
    apply N.eqb_neq in Hc. destruct (split_on sep s) as [|p ps].
    + apply Forall_singleton. apply not_elem_of_cons. split; [congruence|apply not_elem_of_nil].
    + apply Forall_cons in IH as [H1 H2]. constructor; [|done].
      apply not_elem_of_cons. split; [congruence|done].
Qed.

Lemma split_on_lacks sep s : lacks sep s -> split_on sep s = [s].
Proof.
  induction s as [|c s IH]; [done|]. intros [H1 H2]%not_elem_of_cons. simpl.
  rewrite (proj2 (N.eqb_neq c sep)) by congruence. by rewrite IH.
Qed.

Lemma split_on_sep sep a b : lacks sep a -> lacks sep b -> split_on sep (a ++ sep :: b) = [a; b].
Proof.
  induction a as [|c a IH]; intros Ha Hb; simpl.
  - rewrite N.eqb_refl. by rewrite split_on_lacks.
  - apply not_elem_of_cons in Ha as [H1 H2].
    rewrite (proj2 (N.eqb_neq c sep)) by congruence. by rewrite IH.
Qed.

Lemma table_reference_iff ctx s t :
  parse_table_reference ctx (render_table_reference ctx s t) = Done (s, t) <->
  undotted t /\ (s <> ctx -> undotted s).
Proof.
  split.
  - unfold parse_table_reference. pose proof (split_on_pieces 46 (render_table_reference ctx s t)) as Hp.
    destruct (split_on 46 _) as [|a [|b [|c l]]]; [done| | |done].
    + intros [= <- <-]. rewrite Forall_singleton in Hp. split; [exact Hp|by intros []].
    + intros [= <- <-]. rewrite Forall_cons, Forall_singleton in Hp. destruct Hp. by split.
  - intros [Ht Hs]. unfold parse_table_reference, render_table_reference.
    case_bool_decide as Hc.
    + subst. by rewrite split_on_lacks.
    + change (s ++ L "." ++ t) with (s ++ 46%N :: t). rewrite split_on_sep; [done|by apply Hs|done].
Qed.

Lemma parse_table_reference_no_panic ctx r : parse_table_reference ctx r <> Panic.
Proof. unfold parse_table_reference. by destruct (split_on 46 r) as [|? [|? [|? ?]]]. Qed.

Lemma collect_fail {S : Type} (f : S -> node -> dres S) st x e n l :
  f st n = Fail x -> collect f st e (n :: l) = collect f st (e ++ [x]) l.
Proof. intros H. simpl. by rewrite H. Qed.

Lemma fk_rendered s t ctx c :
  parse_foreign_key_constraint_definition s t (render_foreign_key_constraint_definition ctx c) =
  match parse_table_reference s (render_table_reference ctx (fk_tschema c) (fk_ttable c)) with
  | Done (a, b) =>
      if is_empty (fk_tcolumns c)
      then Fail (HasErrors (L "constraint " ++ fk_name c)
             [AttributeRequired (L "constraint " ++ fk_name c) (L "references")])
      else Done (ForeignKey s t (fk_name c) (fk_columns c) a b (fk_tcolumns c) (fk_match c)
                   (fk_update c) (fk_delete c) (fk_deferrable c) (fk_initially c))
  | Fail e => Fail (HasErrors (L "constraint " ++ fk_name c)
                [e; AttributeRequired (L "constraint " ++ fk_name c) (L "references")])
  | Panic => Panic
  end.
Proof.
  unfold parse_foreign_key_constraint_definition, render_foreign_key_constraint_definition,
    render_deferral. enter. destruct c as [? ? name cols ts ta tc m u d de ini].
  cbn [fk_name fk_columns fk_tschema fk_ttable fk_tcolumns fk_match fk_update fk_delete
       fk_deferrable fk_initially].
  rewrite <- (app_nil_r (if bool_decide (d <> _) then _ else _)).
  rewrite <- !(assoc_L (++)). cbn [app].
  attr (FkState (Some cols) None None [] None None None None None) fk_step.
  assert (display_string (with_nodes [] (with_name name (node_new (L "constraint")))) =
    L "constraint " ++ name) as Hd by done.
  destruct (parse_table_reference s (render_table_reference ctx ts ta)) as [[a b]|e|] eqn:Hr.
  - rewrite (collect_ok _ _ (FkState (Some cols) (Some a) (Some b) tc None None None None None)).
    2: { unfold fk_step. types. coerce. rewrite Hr. by coerce. }
    attr (FkState (Some cols) (Some a) (Some b) tc (opt de default_deferrable) None None None None) fk_step.
    attr (FkState (Some cols) (Some a) (Some b) tc (opt de default_deferrable)
            (opt ini default_initially) None None None) fk_step.
    attr (FkState (Some cols) (Some a) (Some b) tc (opt de default_deferrable)
            (opt ini default_initially) (opt m default_match) None None) fk_step.
    attr (FkState (Some cols) (Some a) (Some b) tc (opt de default_deferrable)
            (opt ini default_initially) (opt m default_match) (opt u default_update) None) fk_step.
    attr (FkState (Some cols) (Some a) (Some b) tc (opt de default_deferrable)
            (opt ini default_initially) (opt m default_match) (opt u default_update)
            (opt d default_delete)) fk_step.
    rewrite collect_nil. coerce.
    cbn [fs_columns fs_tschema fs_ttable fs_tcolumns fs_deferrable fs_initially fs_match
         fs_update fs_delete is_none orb push_if]. rewrite !default_opt.
    by destruct tc.
  - rewrite (collect_fail _ _ e).
    2: { unfold fk_step. types. coerce. rewrite Hr. by coerce. }
    attr (FkState (Some cols) None None [] (opt de default_deferrable) None None None None) fk_step.
    attr (FkState (Some cols) None None [] (opt de default_deferrable)
            (opt ini default_initially) None None None) fk_step.
    attr (FkState (Some cols) None None [] (opt de default_deferrable)
            (opt ini default_initially) (opt m default_match) None None) fk_step.
    attr (FkState (Some cols) None None [] (opt de default_deferrable)
            (opt ini default_initially) (opt m default_match) (opt u default_update) None) fk_step.
    attr (FkState (Some cols) None None [] (opt de default_deferrable)
            (opt ini default_initially) (opt m default_match) (opt u default_update)
            (opt d default_delete)) fk_step.
    rewrite collect_nil. coerce. done.
  - by apply parse_table_reference_no_panic in Hr.
Qed.

Lemma constraint_round_trip s t c :
  parse_constraint_definition s t (render_constraint_definition s c) = Done c <->
  constraint_schema c = s /\ constraint_table c = t /\ constraint_writable s c.
Proof.
  unfold parse_constraint_definition.
  destruct c as [c|c|c|c]; cbn [render_constraint_definition constraint_schema constraint_table
    constraint_writable].
  - replace (coerce_nodes (render_primary_key_definition c)) with (Done (E:=derror)
      (with_string_varargs_value (pk_columns c) (node_new (L "primary key")) ::
       render_deferral (pk_deferrable c) (pk_initially c))) by done.
    coerce. types. rewrite pk_round_trip. coerce.
    destruct c. simpl. split; [by intros [= -> ->]|by intros (-> & -> & _)].
  - assert (exists rest, coerce_nodes (render_foreign_key_constraint_definition s c) = Done
      (with_string_varargs_value (fk_columns c) (node_new (L "foreign key")) :: rest)) as [rest ->].
    { unfold render_foreign_key_constraint_definition. coerce. cbn [app]. by eexists. }
    coerce. types.
    rewrite fk_rendered.
    destruct (parse_table_reference s (render_table_reference s (fk_tschema c) (fk_ttable c)))
      as [[a b]|e|] eqn:Hr.
    + destruct (fk_tcolumns c) eqn:Htc; simpl; [by split; [|intros (_ & _ & ? & _)]|].
      split.
      * intros [= H]. rewrite <- H at 1 2. simpl. split; [done|]. split; [done|]. split; [done|].
        apply table_reference_iff. rewrite Hr. rewrite <- H at 1 2. done.
      * intros (H1 & H2 & _ & Hw). apply table_reference_iff in Hw. rewrite Hw in Hr.
        injection Hr as <- <-. destruct c. simpl in *. by subst.
    + split; [done|]. intros (_ & _ & _ & Hw%table_reference_iff). by rewrite Hw in Hr.
    + split; [done|]. intros (_ & _ & _ & Hw%table_reference_iff). by rewrite Hw in Hr.
  - replace (coerce_nodes (render_unique_definition c)) with (Done (E:=derror)
      (with_string_varargs_value (uq_columns c) (node_new (L "unique")) ::
       render_deferral (uq_deferrable c) (uq_initially c))) by done.
    coerce. types. rewrite uq_round_trip.
    destruct c as [us ut un cols ud ui]. cbn [uq_columns uq_schema uq_table uq_name uq_deferrable uq_initially].
    destruct cols as [|x cols]; simpl.
    + split; [done|]. by intros (_ & _ & ?).
    + split; [by intros [= -> ->]|by intros (-> & -> & _)].
  - replace (coerce_nodes (render_check_constraint_definition c)) with (Done (E:=derror)
      (with_string_value (ck_expression c) (node_new (L "check")) ::
       render_deferral (ck_deferrable c) (ck_initially c))) by done.
    coerce. types. rewrite ck_round_trip. coerce.
    destruct c. simpl. split; [by intros [= -> ->]|by intros (-> & -> & _)].
Qed.

(** ** Views, indexes and functions *)
Lemma view_round_trip ctx v :
  (n ← render_view_definition ctx v; parse_view_definition ctx n) = Done v <->
  vw_schema v = ctx /\ vw_query v <> [].
Proof.
  unfold render_view_definition, assert_that. case_decide as Hs.
  2: { split; [done|by intros [? _]]. }
  coerce. unfold parse_view_definition. enter.
  change (coerce_name _) with (Done (A:=str) (E:=derror) (vw_name v)). coerce.
  destruct v as [sch name q]. simpl in *. subst. destruct q as [|c q].
  - split; [done|by intros [_ ?]].
  - split; [done|]. done.
Qed.

Lemma index_round_trip ctx i :
  parse_index_definition ctx (render_index_definition i) = Done i <-> ix_schema i = ctx.
Proof.
  unfold parse_index_definition, render_index_definition. enter.
  destruct i as [sch name tb uq me keys].
  cbn [ix_schema ix_name ix_table ix_unique ix_method ix_keys].
  attr (None, None, opt uq default_unique, None) ix_step.
  attr (None, None, opt uq default_unique, opt me default_method) ix_step.
  attr (Some tb, Some keys, opt uq default_unique, opt me default_method) ix_step.
  rewrite collect_nil. coerce. rewrite !default_opt. cbn [unwrap]. coerce.
  split; [by intros [= ->]|by intros ->].
Qed.

Lemma function_round_trip ctx f :
  parse_function_definition ctx (render_function_definition f) = Done f <-> fn_schema f = ctx.
Proof.
  unfold parse_function_definition, render_function_definition. enter.
  destruct f as [sch name body la re vo].
  cbn [fn_schema fn_name fn_body fn_language fn_returns fn_volatility].
  rewrite <- (app_nil_r (if bool_decide (vo <> _) then _ else _)). cbn [app].
  attr (Some body, None, None, None) fn_step.
  attr (Some body, opt la default_language, None, None) fn_step.
  attr (Some body, opt la default_language, opt re default_returns, None) fn_step.
  attr (Some body, opt la default_language, opt re default_returns, opt vo default_volatility) fn_step.
  rewrite collect_nil. coerce. rewrite !default_opt.
  cbn [is_none push_if check_errors unwrap]. coerce. cbn [unwrap]. coerce.
  split; [by intros [= ->]|by intros ->].
Qed.

(** ** Sequences *)
Definition known_type (ty : str) : Prop := ty = L "int2" \/ ty = L "int4" \/ ty = L "int8".

Lemma min_known inc ty : known_type ty -> exists z, get_sequence_min_value inc ty = Done z.
Proof.
  unfold get_sequence_min_value. destruct (0 <=? inc)%Z; [by eexists|].
  intros [->|[->| ->]]; (eexists; vm_compute; reflexivity).
Qed.
Lemma max_known inc ty : known_type ty -> exists z, get_sequence_max_value inc ty = Done z.
Proof.
  unfold get_sequence_max_value. destruct (inc <? 0)%Z; [by eexists|].
  intros [->|[->| ->]]; (eexists; vm_compute; reflexivity).
Qed.
Lemma bounds_unknown inc ty a b :
  get_sequence_min_value inc ty = Done a -> get_sequence_max_value inc ty = Done b -> known_type ty.
Proof.
  unfold get_sequence_min_value, get_sequence_max_value, known_type.
  destruct (0 <=? inc)%Z eqn:H1; destruct (inc <? 0)%Z eqn:H2; intros H3 H4;
    repeat case_bool_decide; auto; try done.
  apply Z.leb_le in H1. apply Z.ltb_lt in H2. lia.
Qed.

Lemma bound_opt (v d : Z) (r : dres Z) :
  r = Done d -> match opt v d with Some v => Done v | None => r end = Done v.
Proof.
  intros ->. unfold opt. case_bool_decide as H; [done|]. by destruct (decide (v = d)) as [->|].
Qed.

Lemma sequence_round_trip ctx s :
  (n ← render_sequence_definition s; parse_sequence_definition ctx n) = Done s <->
  sq_schema s = ctx /\ sequence_writable s.
Proof.
  destruct s as [sch name ty inc mn mx start cache cycle ot oc].
  unfold sequence_writable. fold (known_type ty).
  unfold render_sequence_definition, int_node.
  cbn [sq_schema sq_name sq_type sq_increment sq_min sq_max sq_start sq_cache sq_cycle
       sq_owned_table sq_owned_column].
  destruct (get_sequence_min_value inc ty) as [dmin|e|] eqn:Hmin; coerce.
  2: { unfold get_sequence_min_value in Hmin. by repeat case_match. }
  2: { split; [done|]. intros (_ & Hk & _). fold (known_type ty) in Hk.
       destruct (min_known inc ty Hk). congruence. }
  destruct (get_sequence_max_value inc ty) as [dmax|e|] eqn:Hmax; coerce.
  2: { unfold get_sequence_max_value in Hmax. by repeat case_match. }
  2: { split; [done|]. intros (_ & Hk & _). fold (known_type ty) in Hk.
       destruct (max_known inc ty Hk). congruence. }
  assert (known_type ty) as Hk by by eapply bounds_unknown.
  assert (forall owned st7,
    collect sq_step (SqState (opt ty default_seq_type) (opt inc default_increment)
      (opt mn dmin) (opt mx dmax) (opt start (get_sequence_start inc mn mx))
      (opt cache default_cache) (opt cycle default_cycle) None None) [] owned = Done (st7, []) ->
    (exists a b, st7 = SqState (opt ty default_seq_type) (opt inc default_increment)
      (opt mn dmin) (opt mx dmax) (opt start (get_sequence_start inc mn mx))
      (opt cache default_cache) (opt cycle default_cycle) a b) ->
    parse_sequence_definition ctx (with_nodes
     ((if bool_decide (ty <> default_seq_type)
       then [with_string_value ty (node_new (L "as"))] else []) ++
      (if bool_decide (inc <> default_increment)
       then [with_number_integer_value inc (node_new (L "increment"))] else []) ++
      (if bool_decide (mn <> dmin)
       then [with_number_integer_value mn (node_new (L "minvalue"))] else []) ++
      (if bool_decide (mx <> dmax)
       then [with_number_integer_value mx (node_new (L "maxvalue"))] else []) ++
      (if bool_decide (start <> get_sequence_start inc mn mx)
       then [with_number_integer_value start (node_new (L "start"))] else []) ++
      (if bool_decide (cache <> default_cache)
       then [with_number_integer_value cache (node_new (L "cache"))] else []) ++
      (if bool_decide (cycle <> default_cycle)
       then [with_boolean_value cycle (node_new (L "cycle"))] else []) ++ owned)
     (with_name name (node_new (L "sequence")))) =
    Done (Sequence ctx name ty inc mn mx start cache cycle (ss_table st7) (ss_column st7))) as Hrun.
  { intros owned st7 Hc (a & b & Hst). unfold parse_sequence_definition. enter.
    attr (SqState (opt ty default_seq_type) None None None None None None None None) sq_step.
    attr (SqState (opt ty default_seq_type) (opt inc default_increment)
            None None None None None None None) sq_step.
    attr (SqState (opt ty default_seq_type) (opt inc default_increment) (opt mn dmin)
            None None None None None None) sq_step.
    attr (SqState (opt ty default_seq_type) (opt inc default_increment) (opt mn dmin)
            (opt mx dmax) None None None None None) sq_step.
    attr (SqState (opt ty default_seq_type) (opt inc default_increment) (opt mn dmin)
            (opt mx dmax) (opt start (get_sequence_start inc mn mx)) None None None None) sq_step.
    attr (SqState (opt ty default_seq_type) (opt inc default_increment) (opt mn dmin)
            (opt mx dmax) (opt start (get_sequence_start inc mn mx)) (opt cache default_cache)
            None None None) sq_step.
    attr (SqState (opt ty default_seq_type) (opt inc default_increment) (opt mn dmin)
            (opt mx dmax) (opt start (get_sequence_start inc mn mx)) (opt cache default_cache)
            (opt cycle default_cycle) None None) sq_step.
    rewrite Hc. coerce. subst st7.
    cbn [ss_type ss_increment ss_min ss_max ss_start ss_cache ss_cycle ss_table ss_column].
    rewrite !default_opt. rewrite !bound_opt by done. coerce. rewrite !default_opt. done. }
  destruct ot as [ot|].
  - destruct oc as [oc|]; cbn [unwrap]; coerce.
    + rewrite (Hrun _ (SqState (opt ty default_seq_type) (opt inc default_increment) (opt mn dmin)
            (opt mx dmax) (opt start (get_sequence_start inc mn mx)) (opt cache default_cache)
            (opt cycle default_cycle) (Some ot) (Some oc))).
      * cbn [ss_table ss_column]. split; [intros [= ->]|by intros [-> _]].
        split; [done|]. split; [done|]. by split.
      * rewrite (collect_ok _ _ (SqState (opt ty default_seq_type) (opt inc default_increment)
          (opt mn dmin) (opt mx dmax) (opt start (get_sequence_start inc mn mx))
          (opt cache default_cache) (opt cycle default_cycle) (Some ot) (Some oc))); [done|].
        unfold sq_step. types. by coerce.
      * by do 2 eexists.
    + split; [done|]. intros (_ & _ & [Ho _]). by destruct Ho.
  - coerce. rewrite (Hrun _ (SqState (opt ty default_seq_type) (opt inc default_increment) (opt mn dmin)
            (opt mx dmax) (opt start (get_sequence_start inc mn mx)) (opt cache default_cache)
            (opt cycle default_cycle) None None)).
    + cbn [ss_table ss_column]. split.
      * intros [= -> <-]. split; [done|]. split; [done|]. by split.
      * intros (-> & _ & [_ Ho]). destruct oc; [|done]. by destruct Ho.
    + done.
    + by do 2 eexists.
Qed.
