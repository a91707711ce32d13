(** Lemmas: every change of a diff names an object that differs. *)
From Verif Require Import Base Types Changes SpecSnapshot SpecChange SpecDiff Diff
  StepLemmas ColumnLemmas DiffSound ApplyLemmas InvertLemmas DiffSame.

Lemma Forall_bind {A B : Type} (P : B -> Prop) (f : A -> list B) (l : list A) :
  (forall x, x ∈ l -> Forall P (f x)) -> Forall P (l ≫= f).
Proof.
  induction l as [|a l IH]; intros H; csimpl; [constructor|].
  apply Forall_app. split; [apply H; left|apply IH; intros x Hx; apply H; by right].
Qed.

Section local.
  Context (s0 t0 : database).
  Notation J := (justified s0 t0).

  (** ** Inside two tables *)
  Section tables.
    Context (n k : str) (s t : table).
    Context (Hs : relation_at s0 n k = Some (RTable s)) (Ht : relation_at t0 n k = Some (RTable t)).
    Context (Hws : wf_table n k s) (Hwt : wf_table n k t).

    Lemma column_at_s c : column_at s0 n k c = find_column c (tb_columns s).
    Proof. unfold column_at. by rewrite Hs. Qed.
    Lemma column_at_t c : column_at t0 n k c = find_column c (tb_columns t).
    Proof. unfold column_at. by rewrite Ht. Qed.
    Lemma constraint_at_s c : constraint_at s0 n k c = tb_constraints s !! c.
    Proof. unfold constraint_at. by rewrite Hs. Qed.
    Lemma constraint_at_t c : constraint_at t0 n k c = tb_constraints t !! c.
    Proof. unfold constraint_at. by rewrite Ht. Qed.

    Lemma column_local c : c ∈ tb_columns t -> Forall J (diff_table_column s c).
    Proof.
      intros Hc. destruct Hwt as (_&_&Hnd&Hwf&_).
      rewrite Forall_forall in Hwf. destruct (Hwf _ Hc) as [H1 H2].
      pose proof (find_column_elem _ _ Hnd Hc) as Hf.
      unfold diff_table_column. destruct (find_column (col_name c) (tb_columns s)) as [a|] eqn:E.
      - unfold diff_column_update. repeat apply Forall_app_2.
        + destruct (neqb _ _) eqn:En; constructor; [|constructor].
          apply neqb_true in En. simpl. rewrite H1, H2, column_at_s, column_at_t. eauto 10.
        + destruct (neqb _ _) eqn:En; constructor; [|constructor].
          apply neqb_true in En. simpl. rewrite H1, H2, column_at_s, column_at_t. eauto 10.
        + destruct (neqb _ _) eqn:En; constructor; [|constructor].
          apply neqb_true in En. simpl. rewrite H1, H2, column_at_s, column_at_t. eauto 10.
      - constructor; [|constructor]. simpl. rewrite H1, H2, column_at_s, column_at_t, Hf.
        split; [by exists s|]. split; [done|by eexists].
    Qed.

    Lemma column_drop_local c : c ∈ tb_columns s -> Forall J (diff_table_column_drop t c).
    Proof.
      intros Hc. destruct Hws as (_&_&Hnd&Hwf&_).
      rewrite Forall_forall in Hwf. destruct (Hwf _ Hc) as [H1 H2].
      pose proof (find_column_elem _ _ Hnd Hc) as Hf.
      unfold diff_table_column_drop, has_column.
      destruct (find_column (col_name c) (tb_columns t)) as [a|] eqn:E; constructor; [|constructor].
      simpl. rewrite H1, H2, column_at_s, column_at_t, Hf.
      split; [by eexists|]. split; [by exists t|done].
    Qed.

    Lemma constraint_local c :
      tb_constraints t !! constraint_name c = Some c -> Forall J (diff_table_constraint s c).
    Proof.
      intros Hc. destruct Hws as (_&_&_&_&Hwfs), Hwt as (_&_&_&_&Hwft).
      destruct (Hwft _ _ Hc) as (H1&H2&H3).
      unfold diff_table_constraint.
      destruct (tb_constraints s !! constraint_name c) as [a|] eqn:E.
      - destruct (Hwfs _ _ E) as (H4&H5&H6).
        destruct (decide (a = c)) as [->|Hne].
        { assert (diff_constraint_update c c = []) as ->; [|constructor].
          by eapply constraint_update_nil. }
        assert (is_Some (constraint_at s0 n k (constraint_name c)) /\
                is_Some (constraint_at t0 n k (constraint_name c)) /\
                constraint_at s0 n k (constraint_name c) <> constraint_at t0 n k (constraint_name c))
          as (Ha&Hb&Hd).
        { rewrite constraint_at_s, constraint_at_t, Hc, E. split; [by eexists|].
          split; [by eexists|]. congruence. }
        assert (table_at t0 n k) as Htt by (by exists t).
        assert (Forall J (diff_constraint_drop a)) as Hdrop.
        { destruct a; simpl in *; apply Forall_singleton; simpl;
            rewrite H4, H5, H6; auto. }
        assert (Forall J (diff_constraint_create c)) as Hcreate.
        { destruct c; simpl in *; apply Forall_singleton; simpl; rewrite H1, H2; auto. }
        destruct a, c; simpl in *; try exact (Forall_app_2 _ _ _ Hdrop Hcreate).
        + unfold diff_primary_key_update. destruct (neqb _ _).
          { constructor; [by inversion Hdrop|by inversion Hcreate; constructor]. }
          destruct (_ || _); constructor; [|constructor]. simpl. rewrite H1, H2. auto.
        + unfold diff_foreign_key_update. destruct (_ || _).
          { constructor; [by inversion Hdrop|by inversion Hcreate; constructor]. }
          destruct (neqb (fk_deferrable _) _ || _); constructor; [|constructor].
          simpl. rewrite H1, H2. auto.
        + unfold diff_unique_update. destruct (neqb _ _).
          { constructor; [by inversion Hdrop|by inversion Hcreate; constructor]. }
          destruct (_ || _); constructor; [|constructor]. simpl. rewrite H1, H2. auto.
        + unfold diff_check_update. destruct (neqb _ _).
          { constructor; [by inversion Hdrop|by inversion Hcreate; constructor]. }
          destruct (_ || _); constructor; [|constructor]. simpl. rewrite H1, H2. auto.
      - assert (is_Some (constraint_at t0 n k (constraint_name c)) /\
                constraint_at s0 n k (constraint_name c) <> constraint_at t0 n k (constraint_name c)).
        { rewrite constraint_at_s, constraint_at_t, Hc, E. split; [by eexists|done]. }
        destruct c; simpl in *; apply Forall_singleton; simpl; by rewrite H1, H2.
    Qed.

    Lemma constraint_drop_local c :
      tb_constraints s !! constraint_name c = Some c -> Forall J (diff_table_constraint_drop t c).
    Proof.
      intros Hc. destruct Hws as (_&_&_&_&Hwfs). destruct (Hwfs _ _ Hc) as (H1&H2&H3).
      unfold diff_table_constraint_drop, has_constraint.
      destruct (tb_constraints t !! constraint_name c) as [a|] eqn:E; [constructor|].
      assert (is_Some (constraint_at s0 n k (constraint_name c)) /\ table_at t0 n k /\
              constraint_at s0 n k (constraint_name c) <> constraint_at t0 n k (constraint_name c)).
      { rewrite constraint_at_s, constraint_at_t, Hc, E. split; [by eexists|].
        split; [by exists t|done]. }
      destruct c; simpl in *; apply Forall_singleton; simpl; by rewrite H1, H2.
    Qed.

    Lemma table_update_local os ot : Forall J (diff_table_update os ot s t).
    Proof.
      pose proof Hws as (_&_&_&_&Hwfs). pose proof Hwt as (_&_&_&_&Hwft).
      unfold diff_table_update. repeat apply Forall_app_2; apply Forall_bind.
      - apply column_local.
      - apply column_drop_local.
      - intros c Hc. apply constraint_local. unfold iter_constraints in Hc.
        by apply (iter_elem _ _ _ (io_constraints_perm _ _ _ _) (wf_constraints_named _ _ _ Hwft)) in Hc.
      - intros c Hc. apply constraint_drop_local. unfold iter_constraints in Hc.
        by apply (iter_elem _ _ _ (io_constraints_perm _ _ _ _) (wf_constraints_named _ _ _ Hwfs)) in Hc.
    Qed.
  End tables.

  (** ** Relations *)

  (** The relation is created although the source holds something else, or nothing. *)
  Definition create_needed (n k : str) (r : relation) : Prop :=
    match r with
    | RTable _ => ~ table_at s0 n k
    | RIndex i => forall j, relation_at s0 n k = Some (RIndex j) -> ix_keys j <> ix_keys i
    | _ => relation_at s0 n k <> relation_at t0 n k
    end.
  Definition drop_needed (n k : str) (r : relation) : Prop :=
    match r with
    | RTable _ => ~ table_at t0 n k
    | RIndex i => forall j, relation_at t0 n k = Some (RIndex j) -> ix_keys j <> ix_keys i
    | _ => relation_at s0 n k <> relation_at t0 n k
    end.

  Lemma relation_create_local ot n k r :
    wf_relation n k r -> relation_at t0 n k = Some r -> create_needed n k r ->
    Forall J (diff_relation_create ot r).
  Proof.
    intros Hw Hr Hn. destruct r as [t|v|i|q]; simpl in *.
    - destruct Hw as (H1&H2&_&_&H5). constructor.
      + simpl. rewrite H1, H2. split; [done|by exists t].
      + apply Forall_bind. intros c Hc. unfold iter_constraints in Hc.
        apply (iter_elem _ _ _ (io_constraints_perm _ _ _ _) (wf_constraints_named _ _ _ H5)) in Hc.
        destruct (H5 _ _ Hc) as (Hc1&Hc2&_).
        assert (is_Some (constraint_at t0 n k (constraint_name c)) /\
                constraint_at s0 n k (constraint_name c) <> constraint_at t0 n k (constraint_name c)).
        { unfold constraint_at at 1 3. rewrite Hr, Hc. split; [by eexists|]. unfold constraint_at.
          destruct (relation_at s0 n k) as [[t'| | |]|] eqn:E; try done.
          exfalso. apply Hn. by exists t'. }
        destruct c; simpl in *; apply Forall_singleton; simpl; by rewrite Hc1, Hc2.
    - destruct Hw as [H1 H2]. constructor; [|constructor]. simpl in *. rewrite H1, H2. eauto.
    - destruct Hw as [H1 H2]. constructor; [|constructor]. simpl in *. rewrite H1, H2. eauto.
    - destruct Hw as [H1 H2]. constructor; [|constructor]. simpl in *. rewrite H1, H2. eauto.
  Qed.

  Lemma relation_drop_local n k r :
    wf_relation n k r -> relation_at s0 n k = Some r -> drop_needed n k r ->
    Forall J (diff_relation_drop r).
  Proof.
    intros Hw Hr Hn. destruct r as [t|v|i|q]; simpl in *.
    - destruct Hw as (H1&H2&_). constructor; [|constructor]. simpl. rewrite H1, H2.
      split; [by exists t|done].
    - destruct Hw as [H1 H2]. constructor; [|constructor]. simpl in *. rewrite H1, H2. eauto.
    - destruct Hw as [H1 H2]. constructor; [|constructor]. simpl in *. rewrite H1, H2. eauto.
    - destruct Hw as [H1 H2]. constructor; [|constructor]. simpl in *. rewrite H1, H2. eauto.
  Qed.

  Lemma relation_update_local os ot n k a b :
    wf_relation n k a -> wf_relation n k b ->
    relation_at s0 n k = Some a -> relation_at t0 n k = Some b ->
    Forall J (diff_relation_update os ot a b).
  Proof.
    intros Hwa Hwb Ha Hb.
    destruct (decide (a = b)) as [->|Hne].
    { assert (diff_relation_update os ot b b = []) as ->; [|constructor].
      eapply relation_update_nil; [done|done|apply relation_same_refl]. }
    assert ((forall x y, a = RTable x -> b = RTable y -> False) ->
            (forall x y, a = RIndex x -> b = RIndex y -> ix_keys x <> ix_keys y) ->
            Forall J (diff_relation_drop a) /\ Forall J (diff_relation_create ot b)) as Hboth.
    { intros Ht Hi. split.
      - apply (relation_drop_local n k); [done..|].
        destruct a as [x|x|x|x]; simpl; try congruence.
        + intros [y Hy]. rewrite Hb in Hy. injection Hy as ->. by eapply Ht.
        + intros j. rewrite Hb. intros [= ->] Heq. by eapply Hi.
      - apply (relation_create_local ot n k); [done..|].
        destruct b as [y|y|y|y]; simpl; try congruence.
        + intros [x Hx]. rewrite Ha in Hx. injection Hx as ->. by eapply Ht.
        + intros j. rewrite Ha. intros [= ->] Heq. by eapply Hi. }
    destruct a as [a|a|a|a], b as [b|b|b|b];
      try (apply Forall_app_2; by apply Hboth; intros).
    - by eapply table_update_local.
    - simpl. unfold diff_view_update. destruct (neqb _ _) eqn:E; [|constructor].
      destruct Hboth as [Hd Hc]; [by intros..|].
      constructor; [by inversion Hd|by inversion Hc; constructor].
    - simpl. unfold diff_index_update. destruct (neqb _ _) eqn:E; [|constructor].
      apply neqb_true in E. destruct Hboth as [Hd Hc]; [by intros|naive_solver|].
      constructor; [by inversion Hd|by inversion Hc; constructor].
    - simpl. unfold diff_sequence_update. destruct (_ || _) eqn:E; [|constructor].
      destruct Hboth as [Hd Hc]; [by intros..|].
      constructor; [by inversion Hd|by inversion Hc; constructor].
  Qed.

  (** ** Functions *)
  Lemma function_create_local n k f :
    wf_function n k f -> function_at t0 n k = Some f -> function_at s0 n k <> Some f ->
    Forall J (diff_function_create f).
  Proof.
    intros [H1 H2] Hf Hne. constructor; [|constructor]. simpl. rewrite H1, H2, Hf.
    split; [by eexists|done].
  Qed.
  Lemma function_drop_local n k f :
    wf_function n k f -> function_at s0 n k = Some f -> function_at t0 n k <> Some f ->
    Forall J (diff_function_drop f).
  Proof.
    intros [H1 H2] Hf Hne. constructor; [|constructor]. simpl. rewrite H1, H2, Hf.
    split; [by eexists|done].
  Qed.
  Lemma function_update_local n k f f' :
    wf_function n k f -> wf_function n k f' ->
    function_at s0 n k = Some f -> function_at t0 n k = Some f' ->
    Forall J (diff_function_update f f').
  Proof.
    intros H1 H2 Hf Hf'. destruct (decide (f = f')) as [->|Hne].
    { assert (diff_function_update f' f' = []) as ->; [|constructor].
      by eapply function_update_nil. }
    unfold diff_function_update. destruct (_ || _); [|constructor].
    constructor; [|constructor; [|constructor]].
    - assert (Forall J (diff_function_drop f)) as Hd
        by (eapply function_drop_local; [done|done|congruence]). by inversion Hd.
    - assert (Forall J (diff_function_create f')) as Hd
        by (eapply function_create_local; [done|done|congruence]). by inversion Hd.
  Qed.

  (** ** Schemas *)
  Lemma relation_at_some (d : database) n sc k :
    db_schemas d !! n = Some sc -> relation_at d n k = sc_relations sc !! k.
  Proof. unfold relation_at. by intros ->. Qed.
  Lemma function_at_some (d : database) n sc k :
    db_schemas d !! n = Some sc -> function_at d n k = sc_functions sc !! k.
  Proof. unfold function_at. by intros ->. Qed.
  Lemma relation_at_none (d : database) n k :
    db_schemas d !! n = None -> relation_at d n k = None.
  Proof. unfold relation_at. by intros ->. Qed.
  Lemma function_at_none (d : database) n k :
    db_schemas d !! n = None -> function_at d n k = None.
  Proof. unfold function_at. by intros ->. Qed.

  Lemma create_needed_none n k r : relation_at t0 n k = Some r ->
    relation_at s0 n k = None -> create_needed n k r.
  Proof.
    intros H1 H2. destruct r; simpl; unfold table_at; rewrite H2; try done.
    - by intros [??].
    - by rewrite H1.
    - by rewrite H1.
  Qed.
  Lemma drop_needed_none n k r : relation_at s0 n k = Some r ->
    relation_at t0 n k = None -> drop_needed n k r.
  Proof.
    intros H1 H2. destruct r; simpl; unfold table_at; rewrite H2; try done.
    - by intros [??].
    - by rewrite H1.
    - by rewrite H1.
  Qed.

  Lemma schema_update_local os ot n s t :
    wf_schema n s -> wf_schema n t ->
    db_schemas s0 !! n = Some s -> db_schemas t0 !! n = Some t ->
    Forall J (diff_schema_update os ot s t).
  Proof.
    intros (Hs1&Hs2&Hs3) (Ht1&Ht2&Ht3) Hs Ht.
    pose proof (fun k => relation_at_some _ _ _ k Hs) as Ers.
    pose proof (fun k => relation_at_some _ _ _ k Ht) as Ert.
    pose proof (fun k => function_at_some _ _ _ k Hs) as Efs.
    pose proof (fun k => function_at_some _ _ _ k Ht) as Eft.
    unfold diff_schema_update, iter_relations, iter_functions.
    repeat apply Forall_app_2; apply Forall_bind; intros r Hr.
    - apply (iter_elem _ _ _ (io_relations_perm _ _ _) (wf_relations_named _ _ Ht2)) in Hr.
      unfold diff_schema_relation_new, has_relation.
      destruct (sc_relations s !! relation_name r) eqn:E; [constructor|].
      apply (relation_create_local ot n (relation_name r)); [by apply Ht2|by rewrite Ert|].
      apply create_needed_none; [by rewrite Ert|by rewrite Ers].
    - apply (iter_elem _ _ _ (io_relations_perm _ _ _) (wf_relations_named _ _ Hs2)) in Hr.
      unfold diff_schema_relation_old.
      destruct (sc_relations t !! relation_name r) as [r'|] eqn:E.
      + apply (relation_update_local os ot n (relation_name r));
          [by apply Hs2|by apply Ht2|by rewrite Ers|by rewrite Ert].
      + apply (relation_drop_local n (relation_name r)); [by apply Hs2|by rewrite Ers|].
        apply drop_needed_none; [by rewrite Ers|by rewrite Ert].
    - apply (iter_elem _ _ _ (io_functions_perm _ _ _) (wf_functions_named _ _ Ht3)) in Hr.
      unfold diff_schema_function_new, has_function.
      destruct (sc_functions s !! fn_name r) eqn:E; [constructor|].
      apply (function_create_local n (fn_name r)); [by apply Ht3|by rewrite Eft|].
      by rewrite Efs, E.
    - apply (iter_elem _ _ _ (io_functions_perm _ _ _) (wf_functions_named _ _ Hs3)) in Hr.
      unfold diff_schema_function_old.
      destruct (sc_functions t !! fn_name r) as [r'|] eqn:E.
      + apply (function_update_local n (fn_name r));
          [by apply Hs3|by apply Ht3|by rewrite Efs|by rewrite Eft].
      + apply (function_drop_local n (fn_name r)); [by apply Hs3|by rewrite Efs|].
        by rewrite Eft, E.
  Qed.

  Lemma schema_create_local ot n t :
    wf_schema n t -> db_schemas s0 !! n = None -> db_schemas t0 !! n = Some t ->
    Forall J (diff_schema_create ot t).
  Proof.
    intros (Ht1&Ht2&Ht3) Hs Ht.
    pose proof (fun k => relation_at_some _ _ _ k Ht) as Ert.
    pose proof (fun k => function_at_some _ _ _ k Ht) as Eft.
    unfold diff_schema_create, iter_relations, iter_functions. constructor.
    { simpl. rewrite Ht1, Ht. split; [done|by eexists]. }
    apply Forall_app_2; apply Forall_bind; intros r Hr.
    - apply (iter_elem _ _ _ (io_relations_perm _ _ _) (wf_relations_named _ _ Ht2)) in Hr.
      apply (relation_create_local ot n (relation_name r)); [by apply Ht2|by rewrite Ert|].
      apply create_needed_none; [by rewrite Ert|by apply relation_at_none].
    - apply (iter_elem _ _ _ (io_functions_perm _ _ _) (wf_functions_named _ _ Ht3)) in Hr.
      apply (function_create_local n (fn_name r)); [by apply Ht3|by rewrite Eft|].
      by rewrite function_at_none.
  Qed.

  Lemma schema_drop_local os n s :
    wf_schema n s -> db_schemas s0 !! n = Some s -> db_schemas t0 !! n = None ->
    Forall J (diff_schema_drop os s).
  Proof.
    intros (Hs1&Hs2&Hs3) Hs Ht.
    pose proof (fun k => relation_at_some _ _ _ k Hs) as Ers.
    pose proof (fun k => function_at_some _ _ _ k Hs) as Efs.
    unfold diff_schema_drop, iter_relations, iter_functions.
    apply Forall_app_2; [|apply Forall_app_2].
    - apply Forall_bind; intros r Hr.
      apply (iter_elem _ _ _ (io_relations_perm _ _ _) (wf_relations_named _ _ Hs2)) in Hr.
      apply (relation_drop_local n (relation_name r)); [by apply Hs2|by rewrite Ers|].
      apply drop_needed_none; [by rewrite Ers|by apply relation_at_none].
    - apply Forall_bind; intros r Hr.
      apply (iter_elem _ _ _ (io_functions_perm _ _ _) (wf_functions_named _ _ Hs3)) in Hr.
      apply (function_drop_local n (fn_name r)); [by apply Hs3|by rewrite Efs|].
      by rewrite function_at_none.
    - constructor; [|constructor]. simpl. rewrite Hs1, Hs. split; [by eexists|done].
  Qed.

  Lemma diff_justified os ot :
    wf_db s0 -> wf_db t0 -> Forall J (compare_diff os ot s0 t0).
  Proof.
    intros Hs Ht. unfold compare_diff, diff_database_update, iter_schemas.
    apply Forall_app_2; apply Forall_bind; intros sc Hsc.
    - apply (iter_elem _ _ _ (io_schemas_perm _ _) (wf_schemas_named _ Ht)) in Hsc.
      unfold diff_database_new, has_schema.
      destruct (db_schemas s0 !! sc_name sc) eqn:E; [constructor|].
      by apply (schema_create_local ot (sc_name sc)); [apply Ht|..].
    - apply (iter_elem _ _ _ (io_schemas_perm _ _) (wf_schemas_named _ Hs)) in Hsc.
      unfold diff_database_old. destruct (db_schemas t0 !! sc_name sc) eqn:E.
      + by apply (schema_update_local os ot (sc_name sc)); [apply Hs|apply Ht|..].
      + by apply (schema_drop_local os (sc_name sc)); [apply Hs|..].
  Qed.

  Lemma option_Forall2_equiv_some n k r :
    option_Forall2 relation_equiv (relation_at s0 n k) (relation_at t0 n k) ->
    relation_at s0 n k = Some r \/ relation_at t0 n k = Some r ->
    table_at s0 n k /\ table_at t0 n k \/ relation_at s0 n k = relation_at t0 n k.
  Proof.
    intros H _. destruct (relation_at s0 n k) as [a|] eqn:Ea, (relation_at t0 n k) as [b|] eqn:Eb;
      inversion H as [x y Hxy|]; subst; [|by right].
    destruct a, b; simpl in Hxy; try congruence; try (right; congruence).
    left. split; [by eexists|by eexists].
  Qed.

  Lemma justified_differs c : justified s0 t0 c -> differs s0 t0 (target_of c).
  Proof.
    assert (forall n k, option_Forall2 relation_equiv (relation_at s0 n k) (relation_at t0 n k) ->
              table_at s0 n k /\ table_at t0 n k \/ relation_at s0 n k = relation_at t0 n k) as Heq.
    { intros n k H. destruct (relation_at s0 n k) as [r|] eqn:E.
      - rewrite <- E. eapply option_Forall2_equiv_some; [by rewrite E|by left].
      - inversion H as [|Hx]; subst. by right. }
    destruct c; simpl; try done;
      try (intros (a & b & Ha & Hb & Hne & _); eexists; split; [done|];
           rewrite Ha, Hb; congruence);
      try (intros (?&?&?); done); try (intros (?&?); done).
    - intros (_ & H1 & [? H2]). eexists. split; [done|]. by rewrite H1, H2.
    - intros (i & Hi & Hk) H%Heq. destruct H as [[_ [t Ht]]|H]; [congruence|].
      rewrite Hi in H. by eapply Hk.
    - intros (H1 & [? H2]) H. rewrite H1, H2 in H. destruct H as [_ [? H]]; [by eexists|done].
    - intros ([q Hq] & Hne) H%Heq. destruct H as [[_ [t Ht]]|H]; [congruence|done].
    - intros (H1 & [t H2]) H%Heq. destruct H as [[? _]|H]; [done|].
      apply H1. exists t. by rewrite H.
    - intros ([q Hq] & Hne) H%Heq. destruct H as [[_ [t Ht]]|H]; [congruence|done].
    - intros ([? H1] & _ & H2). eexists. split; [done|]. by rewrite H1, H2.
    - intros (i & Hi & Hk) H%Heq. destruct H as [[[t Ht] _]|H]; [congruence|].
      rewrite Hi in H. by eapply Hk.
    - intros ([? H1] & H2) H. rewrite H1, H2 in H. destruct H as [[? H] _]; [by eexists|done].
    - intros ([q Hq] & Hne) H%Heq. destruct H as [[[t Ht] _]|H]; [congruence|done].
    - intros ([t H1] & H2) H%Heq. destruct H as [[_ ?]|H]; [done|].
      apply H2. exists t. by rewrite <- H.
    - intros ([q Hq] & Hne) H%Heq. destruct H as [[[t Ht] _]|H]; [congruence|done].
  Qed.
End local.
