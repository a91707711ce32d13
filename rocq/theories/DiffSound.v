(** Proof that a diff run from [s] to [t] succeeds and produces [expected_db s t]. *)
From Verif Require Import Base Types Changes Diff SpecSnapshot SpecDiff StepLemmas ColumnLemmas.

Lemma neqb_false {A} `{EqDecision A} (x y : A) : neqb x y = false <-> x = y.
Proof. unfold neqb. case_bool_decide; naive_solver. Qed.
Lemma neqb_false_1 {A} `{EqDecision A} (x y : A) : neqb x y = false -> x = y.
Proof. apply neqb_false. Qed.
Lemma neqb_true {A} `{EqDecision A} (x y : A) : neqb x y = true <-> x <> y.
Proof. unfold neqb. case_bool_decide; naive_solver. Qed.

Lemma map_to_list_fst_nodup {V} (m : gmap str V) l : l ≡ₚ map_to_list m -> NoDup l.*1.
Proof. intros ->. apply NoDup_fst_map_to_list. Qed.

(** ** Iterating over a map whose values know their key *)
Section iter.
  Context {V : Type} (name : V -> str) (m : gmap str V) (l : list (str * V)).
  Context (Hl : l ≡ₚ map_to_list m).
  Context (Hm : map_Forall (fun (i : str) v => name v = i) m).

  Lemma iter_elem v : v ∈ l.*2 <-> m !! name v = Some v.
  Proof.
    rewrite elem_of_list_fmap. split.
    - intros ([k v'] & -> & Hin). rewrite Hl in Hin. apply elem_of_map_to_list in Hin.
      simpl. by rewrite (Hm _ _ Hin).
    - intros H. exists (name v, v). split; [done|]. rewrite Hl. by apply elem_of_map_to_list.
  Qed.

  Lemma iter_names : name <$> l.*2 = l.*1.
  Proof.
    rewrite <- list_fmap_compose. apply fmap_ext_in. intros [k v] Hin. simpl.
    rewrite Hl in Hin. apply elem_of_map_to_list in Hin. by apply Hm.
  Qed.

  Lemma iter_nodup : NoDup (name <$> l.*2).
  Proof. rewrite iter_names. by eapply map_to_list_fst_nodup. Qed.

  Lemma lookup_upd_iter {W} (e : V -> option W) m0 k :
    upd_map name e l.*2 m0 !! k = match m !! k with Some v => e v | None => m0 !! k end.
  Proof.
    destruct (m !! k) as [v|] eqn:E.
    - assert (name v = k) as <- by (by apply Hm).
      apply lookup_upd_map_in; [apply iter_nodup|by apply iter_elem].
    - apply lookup_upd_map_notin. intros Hin.
      apply elem_of_list_fmap in Hin as (v & -> & Hv%iter_elem). congruence.
  Qed.
End iter.

Lemma wf_constraints_named (n k : str) (m : gmap str constraint) :
  map_Forall (wf_constraint n k) m -> map_Forall (fun (i : str) v => constraint_name v = i) m.
Proof. intros H i x Hx. by destruct (H i x Hx) as (?&?&?). Qed.

Lemma wf_relation_name n k r : wf_relation n k r -> relation_name r = k.
Proof. destruct r; simpl; [by intros (?&?&_)|by intros [??]..]. Qed.
Lemma wf_relations_named (n : str) (m : gmap str relation) :
  map_Forall (wf_relation n) m -> map_Forall (fun (i : str) v => relation_name v = i) m.
Proof. intros H i x Hx. by eapply wf_relation_name, H. Qed.
Lemma wf_functions_named (n : str) (m : gmap str function) :
  map_Forall (wf_function n) m -> map_Forall (fun (i : str) v => fn_name v = i) m.
Proof. intros H i x Hx. by destruct (H i x Hx). Qed.
Lemma wf_schemas_named d :
  wf_db d -> map_Forall (fun (i : str) v => sc_name v = i) (db_schemas d).
Proof. intros H i x Hx. by destruct (H i x Hx) as (?&?&?). Qed.

Section sound.
  Context (s0 t0 : database).
  Notation G := (dgood s0 t0).
  Notation ssteps := (ssteps G).
  Notation tsteps := (tsteps G).

  (** ** Columns *)
  Lemma column_alter_step n k cn (b : bool) c f tb :
    relaxed c = in_table n k (with_column_mut cn f) -> (forall d, G c d) ->
    is_Some (find_column cn (tb_columns tb)) ->
    (b = false -> forall x, find_column cn (tb_columns tb) = Some x -> f x = x) ->
    tsteps n k (if b then [c] else []) tb
      (set_columns tb (update_column cn f (tb_columns tb))).
  Proof.
    intros Hc HG [x Hx] Hid. destruct b.
    - eapply tstep; [done| |done]. unfold with_column_mut. by rewrite Hx.
    - rewrite update_column_id by auto. rewrite table_eta_c. apply tsteps_nil.
  Qed.

  Lemma column_update_step n k tb si ti :
    wf_column n k si -> wf_column n k ti ->
    find_column (col_name ti) (tb_columns tb) = Some si ->
    tsteps n k (diff_column_update si ti) tb
      (set_columns tb (update_column (col_name ti) (fun _ => ti) (tb_columns tb))).
  Proof.
    intros [Hs1 Hs2] [Ht1 Ht2] Hf.
    apply find_column_Some in Hf as Hn. destruct Hn as [_ Hn].
    set (cn := col_name ti) in *.
    set (f1 := col_set_type (col_type ti)). set (f2 := col_set_default (col_default ti)).
    set (f3 := col_set_notnull (col_notnull ti)).
    set (tb1 := set_columns tb (update_column cn f1 (tb_columns tb))).
    set (tb2 := set_columns tb1 (update_column cn f2 (tb_columns tb1))).
    assert (set_columns tb (update_column cn (fun _ => ti) (tb_columns tb)) =
            set_columns tb2 (update_column cn f3 (tb_columns tb2))) as ->.
    { unfold tb2, tb1. simpl. unfold set_columns; simpl. f_equal.
      rewrite !update_column_compose by done.
      apply update_column_ext. intros x Hx. assert (x = si) as -> by congruence.
      unfold f1, f2, f3, col_set_type, col_set_default, col_set_notnull; simpl.
      destruct si, ti; simpl in *. by subst. }
    assert (find_column cn (tb_columns tb1) = Some (f1 si)) as Hf1.
    { unfold tb1; simpl. rewrite find_update_column by done.
      by rewrite decide_True, Hf. }
    assert (find_column cn (tb_columns tb2) = Some (f2 (f1 si))) as Hf2.
    { unfold tb2; simpl. rewrite find_update_column by done.
      fold tb1. change (update_column cn f1 (tb_columns tb)) with (tb_columns tb1).
      by rewrite decide_True, Hf1. }
    unfold diff_column_update.
    apply (tsteps_app _ _ _ _ _ _ tb1); [|apply (tsteps_app _ _ _ _ _ _ tb2)].
    - apply (column_alter_step n k cn); [by unfold new_alter_data_type; simpl; rewrite Ht1, Ht2|done|eauto|].
      rewrite neqb_false. intros Heq x Hx. assert (x = si) as -> by congruence.
      unfold f1, col_set_type. rewrite <- Heq. by destruct si.
    - apply (column_alter_step n k cn); [by unfold new_alter_default; simpl; rewrite Ht1, Ht2|done|eauto|].
      rewrite neqb_false. intros Heq x Hx. assert (x = f1 si) as -> by congruence.
      unfold f2, f1, col_set_default, col_set_type. rewrite <- Heq. by destruct si.
    - apply (column_alter_step n k cn); [by unfold new_alter_not_null; simpl; rewrite Ht1, Ht2|done|eauto|].
      rewrite neqb_false. intros Heq x Hx. assert (x = f2 (f1 si)) as -> by congruence.
      unfold f3, f2, f1, col_set_notnull, col_set_default, col_set_type.
      rewrite <- Heq. by destruct si.
  Qed.

  Lemma column_create_step n k tb ti :
    wf_column n k ti -> find_column (col_name ti) (tb_columns tb) = None ->
    tsteps n k (diff_column_create ti) tb (set_columns tb (tb_columns tb ++ [ti])).
  Proof.
    intros [H1 H2] Hf. eapply tstep; [by unfold new_add_column; simpl; rewrite H1, H2| |done].
    unfold add_column, has_column; simpl. rewrite Hf.
    destruct ti; simpl in *; by subst.
  Qed.

  Lemma column_drop_step n k tb si :
    wf_column n k si -> is_Some (find_column (col_name si) (tb_columns tb)) ->
    tsteps n k (diff_column_drop si) tb
      (set_columns tb (delete_column (col_name si) (tb_columns tb))).
  Proof.
    intros [H1 H2] [x Hf]. eapply tstep; [by unfold new_drop_column; simpl; rewrite H1, H2| |done].
    unfold mthen, remove_column. by rewrite Hf.
  Qed.

  Lemma column_loop1 n k s l tb :
    Forall (wf_column n k) l -> Forall (wf_column n k) (tb_columns s) ->
    NoDup (names l) ->
    (forall c, c ∈ l -> find_column (col_name c) (tb_columns tb) =
                        find_column (col_name c) (tb_columns s)) ->
    tsteps n k (l ≫= diff_table_column s) tb
      (set_columns tb (foldl put_column (tb_columns tb) l)).
  Proof.
    intros Hl Hs. revert tb. induction Hl as [|a l Ha Hl IH]; intros tb Hnd Hfind; csimpl.
    { rewrite table_eta_c. apply tsteps_nil. }
    apply NoDup_cons in Hnd as [Hna Hnd].
    assert (tsteps n k (diff_table_column s a) tb
              (set_columns tb (put_column (tb_columns tb) a))) as Hstep.
    { assert (Hfa := Hfind a ltac:(left)). unfold diff_table_column, put_column.
      rewrite Hfa. destruct (find_column (col_name a) (tb_columns s)) as [si|] eqn:E.
      - apply column_update_step; [|done|congruence].
        apply find_column_Some in E as [E _]. by eapply Forall_forall in Hs.
      - by apply column_create_step. }
    eapply tsteps_app; [exact Hstep|].
    apply (IH (set_columns tb (put_column (tb_columns tb) a))); [done|].
    intros c Hc. simpl. rewrite <- Hfind by (by right).
    assert (col_name c <> col_name a).
    { intros Heq. apply Hna. rewrite <- Heq. by apply elem_of_list_fmap_1. }
    unfold put_column. destruct (find_column (col_name a) (tb_columns tb)) as [x|] eqn:E.
    - rewrite update_column_ext with (g := fun x => if decide (col_name x = col_name a) then a else x).
      2:{ intros y Hy. apply find_column_Some in Hy as [_ Hy]. by rewrite decide_True. }
      rewrite find_update_column; [by rewrite decide_False|].
      intros y. by case_decide.
    - rewrite find_column_app. destruct (find_column (col_name c) (tb_columns tb)); [done|].
      simpl. by rewrite decide_False.
  Qed.

  Lemma column_loop2 n k (t : table) l tb :
    Forall (wf_column n k) l -> NoDup (names l) -> NoDup (names (tb_columns tb)) ->
    (forall c, c ∈ l -> col_name c ∈ names (tb_columns tb)) ->
    tsteps n k (l ≫= diff_table_column_drop t) tb
      (set_columns tb (foldl (cut_column (tb_columns t)) (tb_columns tb) l)).
  Proof.
    intros Hl. revert tb. induction Hl as [|a l Ha Hl IH]; intros tb Hnd Hnd' Hin; csimpl.
    { rewrite table_eta_c. apply tsteps_nil. }
    apply NoDup_cons in Hnd as [Hna Hnd].
    assert (tsteps n k (diff_table_column_drop t a) tb
              (set_columns tb (cut_column (tb_columns t) (tb_columns tb) a))) as Hstep.
    { unfold diff_table_column_drop, has_column, cut_column.
      destruct (find_column (col_name a) (tb_columns t)).
      - rewrite table_eta_c. apply tsteps_nil.
      - apply column_drop_step; [done|]. apply find_column_is_Some, Hin. left. }
    eapply tsteps_app; [exact Hstep|].
    apply (IH (set_columns tb (cut_column (tb_columns t) (tb_columns tb) a))); [done| |].
    - simpl. unfold cut_column. case_match; [done|]. by apply NoDup_delete_column.
    - intros c Hc. simpl. unfold cut_column. case_match; [apply Hin; by right|].
      rewrite delete_column_filter by done.
      assert (Hc' := Hin c ltac:(by right)).
      apply elem_of_list_fmap in Hc' as (y & Hy1 & Hy2).
      apply elem_of_list_fmap. exists y. split; [done|]. apply elem_of_list_filter.
      split; [|done]. intros Heq. apply Hna. rewrite <- Heq, <- Hy1.
      by apply elem_of_list_fmap_1.
  Qed.

  (** ** Constraints *)
  Lemma constraint_create_step n k cn c tb :
    wf_constraint n k cn c -> tb_constraints tb !! cn = None ->
    tsteps n k (diff_constraint_create c) tb
      (set_constraints tb (<[cn := c]> (tb_constraints tb))).
  Proof.
    intros (H1 & H2 & H3) Hl.
    destruct c as [[]|[]|[]|[]]; simpl in *; subst; (eapply tstep; [done| |done]);
      unfold add_constraint, has_constraint; simpl; by rewrite Hl.
  Qed.

  Lemma constraint_drop_step n k cn c tb :
    wf_constraint n k cn c -> tb_constraints tb !! cn = Some c ->
    tsteps n k (diff_constraint_drop c) tb
      (set_constraints tb (delete cn (tb_constraints tb))).
  Proof.
    intros (H1 & H2 & H3) Hl.
    destruct c as [[]|[]|[]|[]]; simpl in *; subst; (eapply tstep; [done| |done]);
      unfold drop_constraint, mthen, mread, get_constraint; simpl; rewrite Hl; simpl;
      unfold remove_constraint; simpl; by rewrite Hl.
  Qed.

  Lemma constraint_replace_step n k cn c c' tb :
    wf_constraint n k cn c -> wf_constraint n k cn c' ->
    tb_constraints tb !! cn = Some c ->
    tsteps n k (diff_constraint_drop c ++ diff_constraint_create c') tb
      (set_constraints tb (<[cn := c']> (tb_constraints tb))).
  Proof.
    intros Hc Hc' Hl. eapply tsteps_app; [by eapply constraint_drop_step|].
    set (tb1 := set_constraints tb (delete cn (tb_constraints tb))).
    assert (set_constraints tb (<[cn:=c']> (tb_constraints tb)) =
            set_constraints tb1 (<[cn:=c']> (tb_constraints tb1))) as ->.
    { unfold tb1, set_constraints; simpl. f_equal. by rewrite insert_delete_insert. }
    apply constraint_create_step; [done|]. unfold tb1; simpl. by rewrite lookup_delete.
  Qed.

  Lemma constraint_update_step n k cn c c' tb :
    wf_constraint n k cn c -> wf_constraint n k cn c' ->
    tb_constraints tb !! cn = Some c ->
    tsteps n k (diff_constraint_update c c') tb
      (set_constraints tb (<[cn := c']> (tb_constraints tb))).
  Proof.
    intros Hc Hc' Hl. pose proof (constraint_replace_step _ _ _ _ _ _ Hc Hc' Hl) as Hrep.
    destruct c as [c|c|c|c], c' as [c'|c'|c'|c']; try exact Hrep; simpl; simpl in Hrep.
    - unfold diff_primary_key_update. destruct (neqb (pk_columns c) _) eqn:E1; [exact Hrep|].
      apply neqb_false_1 in E1. destruct (_ || _) eqn:E2.
      + destruct Hc as (?&?&?), Hc' as (?&?&?), c, c'; simpl in *; subst.
        eapply tstep; [done| |done]. unfold with_constraint_mut; simpl. rewrite Hl. by simplify_eq.
      + apply orb_false_iff in E2 as [E2 E3]. apply neqb_false_1 in E2. apply neqb_false_1 in E3.
        destruct Hc as (?&?&?), Hc' as (?&?&?), c, c'; simpl in *; subst.
        rewrite insert_id by done. rewrite table_eta. apply tsteps_nil.
    - unfold diff_foreign_key_update. destruct (_ || _) eqn:E1; [exact Hrep|].
      rewrite !orb_false_iff, !neqb_false in E1. destruct E1 as ((((((?&?)&?)&?)&?)&?)&?).
      destruct (_ || _) eqn:E2.
      + destruct Hc as (?&?&?), Hc' as (?&?&?), c, c'; simpl in *; subst.
        eapply tstep; [done| |done]. unfold with_constraint_mut; simpl. rewrite Hl. by simplify_eq.
      + apply orb_false_iff in E2 as [E2 E3]. apply neqb_false_1 in E2. apply neqb_false_1 in E3.
        destruct Hc as (?&?&?), Hc' as (?&?&?), c, c'; simpl in *; subst.
        rewrite insert_id by done. rewrite table_eta. apply tsteps_nil.
    - unfold diff_unique_update. destruct (neqb (uq_columns c) _) eqn:E1; [exact Hrep|].
      apply neqb_false_1 in E1. destruct (_ || _) eqn:E2.
      + destruct Hc as (?&?&?), Hc' as (?&?&?), c, c'; simpl in *; subst.
        eapply tstep; [done| |done]. unfold with_constraint_mut; simpl. rewrite Hl. by simplify_eq.
      + apply orb_false_iff in E2 as [E2 E3]. apply neqb_false_1 in E2. apply neqb_false_1 in E3.
        destruct Hc as (?&?&?), Hc' as (?&?&?), c, c'; simpl in *; subst.
        rewrite insert_id by done. rewrite table_eta. apply tsteps_nil.
    - unfold diff_check_update. destruct (neqb (ck_expression c) _) eqn:E1; [exact Hrep|].
      apply neqb_false_1 in E1. destruct (_ || _) eqn:E2.
      + destruct Hc as (?&?&?), Hc' as (?&?&?), c, c'; simpl in *; subst.
        eapply tstep; [done| |done]. unfold with_constraint_mut; simpl. rewrite Hl. by simplify_eq.
      + apply orb_false_iff in E2 as [E2 E3]. apply neqb_false_1 in E2. apply neqb_false_1 in E3.
        destruct Hc as (?&?&?), Hc' as (?&?&?), c, c'; simpl in *; subst.
        rewrite insert_id by done. rewrite table_eta. apply tsteps_nil.
  Qed.

  (** ** Tables *)
  Lemma constraints_loop1 ot n k (s t tb : table) :
    map_Forall (wf_constraint n k) (tb_constraints s) ->
    map_Forall (wf_constraint n k) (tb_constraints t) ->
    tb_constraints tb = tb_constraints s ->
    tsteps n k (iter_constraints ot t ≫= diff_table_constraint s) tb
      (set_constraints tb (tb_constraints t ∪ tb_constraints s)).
  Proof.
    intros Hs Ht Htb. pose proof (wf_constraints_named _ _ _ Ht) as Htn.
    unfold iter_constraints.
    set (l := io_constraints ot (tb_schema t) (tb_name t) (tb_constraints t)).
    assert (l ≡ₚ map_to_list (tb_constraints t)) as Hl by apply io_constraints_perm.
    assert (tb_constraints t ∪ tb_constraints s =
            upd_map constraint_name Some l.*2 (tb_constraints tb)) as ->.
    { apply map_eq. intros i. rewrite (lookup_upd_iter _ _ _ Hl Htn).
      rewrite lookup_union, Htb. by destruct (tb_constraints t !! i), (tb_constraints s !! i). }
    apply (loop_run (tsteps n k) (tsteps_nil _ n k) (tsteps_app _ n k)
             tb_constraints set_constraints) with (P := fun _ => True).
    - done.
    - done.
    - apply table_eta.
    - by eapply iter_nodup.
    - done.
    - intros c tb' Hc _ Hget. split; [|done].
      apply (iter_elem _ _ _ Hl Htn) in Hc.
      pose proof (Ht _ _ Hc) as Hwf. unfold diff_table_constraint.
      rewrite Htb in Hget. destruct (tb_constraints s !! constraint_name c) as [c0|] eqn:E.
      + apply (constraint_update_step _ _ (constraint_name c)); [by apply Hs|done|done].
      + apply constraint_create_step; done.
  Qed.

  Lemma constraints_loop2 os n k (s t tb : table) :
    map_Forall (wf_constraint n k) (tb_constraints s) ->
    tb_constraints tb = tb_constraints t ∪ tb_constraints s ->
    tsteps n k (iter_constraints os s ≫= diff_table_constraint_drop t) tb
      (set_constraints tb (tb_constraints t)).
  Proof.
    intros Hs Htb. pose proof (wf_constraints_named _ _ _ Hs) as Hsn.
    unfold iter_constraints.
    set (l := io_constraints os (tb_schema s) (tb_name s) (tb_constraints s)).
    assert (l ≡ₚ map_to_list (tb_constraints s)) as Hl by apply io_constraints_perm.
    assert (tb_constraints t =
            upd_map constraint_name (fun c => tb_constraints t !! constraint_name c) l.*2
              (tb_constraints tb)) as Heq.
    { apply map_eq. intros i. rewrite (lookup_upd_iter _ _ _ Hl Hsn).
      rewrite Htb, lookup_union.
      destruct (tb_constraints s !! i) as [c|] eqn:E.
      - by rewrite (Hsn _ _ E).
      - by destruct (tb_constraints t !! i). }
    rewrite Heq.
    apply (loop_run (tsteps n k) (tsteps_nil _ n k) (tsteps_app _ n k)
             tb_constraints set_constraints) with (P := fun _ => True).
    - done.
    - done.
    - apply table_eta.
    - by eapply iter_nodup.
    - done.
    - intros c tb' Hc _ Hget. split; [|done].
      apply (iter_elem _ _ _ Hl Hsn) in Hc.
      pose proof (Hs _ _ Hc) as Hwf. unfold diff_table_constraint_drop, has_constraint.
      rewrite Htb, lookup_union, Hc in Hget.
      destruct (tb_constraints t !! constraint_name c) as [c0|] eqn:E; simpl in Hget.
      + change (partial_alter _ _ _) with (<[constraint_name c := c0]> (tb_constraints tb')).
        rewrite insert_id by done. rewrite table_eta. apply tsteps_nil.
      + by apply constraint_drop_step.
  Qed.

  Lemma table_update_run os ot n k s t :
    wf_table n k s -> wf_table n k t ->
    tsteps n k (diff_table_update os ot s t) s
      (Table n k (merged_columns (tb_columns s) (tb_columns t)) (tb_constraints t)).
  Proof.
    intros (Hs1 & Hs2 & Hs3 & Hs4 & Hs5) (Ht1 & Ht2 & Ht3 & Ht4 & Ht5).
    unfold diff_table_update.
    set (s1 := set_columns s (foldl put_column (tb_columns s) (tb_columns t))).
    set (s2 := set_columns s1 (foldl (cut_column (tb_columns t)) (tb_columns s1) (tb_columns s))).
    set (s3 := set_constraints s2 (tb_constraints t ∪ tb_constraints s)).
    apply (tsteps_app _ _ _ _ _ _ s1); [|apply (tsteps_app _ _ _ _ _ _ s2);
      [|apply (tsteps_app _ _ _ _ _ _ s3)]].
    - by apply column_loop1.
    - apply column_loop2; [done|done| |].
      + unfold s1; simpl. rewrite put_columns_eq by done.
        clear -Hs3 Ht3. rewrite <- put_columns_eq by done. revert Hs3 Ht3.
        generalize (tb_columns s), (tb_columns t). intros l l0. revert l.
        induction l0 as [|a l0 IH]; intros l Hl Hl0; [done|]. simpl.
        apply NoDup_cons in Hl0 as [_ Hl0]. apply IH; [|done]. by apply put_column_names.
      + intros c Hc. unfold s1; simpl. rewrite put_columns_eq by done.
        rewrite fmap_app. apply elem_of_app. left. rewrite <- list_fmap_compose.
        apply elem_of_list_fmap. exists c. split; [|done]. simpl.
        destruct (find_column (col_name c) (tb_columns t)) as [c'|] eqn:E; [|done].
        simpl. by apply find_column_Some in E as [_ ->].
    - by apply (constraints_loop1 _ _ _ s t s2).
    - assert (Table n k (merged_columns (tb_columns s) (tb_columns t)) (tb_constraints t) =
              set_constraints s3 (tb_constraints t)) as ->.
      { unfold s3, s2, s1, set_constraints, set_columns; simpl.
        rewrite merged_columns_run by done. by rewrite Hs1, Hs2. }
      by apply (constraints_loop2 _ _ _ s t s3).
  Qed.

  Lemma create_table_columns n k cols :
    NoDup (names cols) -> Forall (wf_column n k) cols ->
    forall tb, (forall c, c ∈ cols -> col_name c ∉ names (tb_columns tb)) ->
    mfor (fun c => add_column (make_column n k c)) (new_create_column <$> cols) tb =
    (set_columns tb (tb_columns tb ++ cols), Ok ()).
  Proof.
    intros Hnd Hwf. induction Hwf as [|c cols Hc Hwf IH]; intros tb Hin; csimpl.
    { by rewrite app_nil_r, table_eta_c. }
    apply NoDup_cons in Hnd as [Hnc Hnd]. unfold mthen at 1, add_column at 1, has_column.
    assert (make_column n k (new_create_column c) = c) as ->.
    { destruct Hc as [<- <-]. by destruct c. }
    assert (find_column (col_name c) (tb_columns tb) = None) as ->.
    { apply find_column_None, Hin. left. }
    rewrite IH; [|done|].
    - unfold set_columns; simpl. by rewrite <- app_assoc.
    - intros c' Hc'. simpl. rewrite fmap_app, not_elem_of_app. split; [apply Hin; by right|].
      csimpl. rewrite elem_of_list_singleton. intros Heq. apply Hnc. rewrite <- Heq.
      by apply elem_of_list_fmap_1.
  Qed.

  Lemma table_create_run ot n k t sc :
    wf_table n k t -> sc_relations sc !! k = None ->
    ssteps n (diff_table_create ot t) sc
      (set_relations sc (<[k := RTable t]> (sc_relations sc))).
  Proof.
    intros (Ht1 & Ht2 & Ht3 & Ht4 & Ht5) Hk. unfold diff_table_create.
    set (t1 := Table n k (tb_columns t) ∅).
    set (sc1 := set_relations sc (<[k := RTable t1]> (sc_relations sc))).
    apply (ssteps_app _ _ [new_create_table t] _ _ sc1).
    - eapply sstep; [by unfold new_create_table; simpl; rewrite Ht1| |done].
      unfold create_table_in. rewrite Ht2, create_table_columns; [|done|done|].
      + simpl. unfold set_columns; simpl. unfold add_relation, has_relation; simpl. by rewrite Hk.
      + intros c _. simpl. by apply not_elem_of_nil.
    - pose proof (wf_constraints_named _ _ _ Ht5) as Htn.
      unfold iter_constraints.
      set (l := io_constraints ot (tb_schema t) (tb_name t) (tb_constraints t)).
      assert (l ≡ₚ map_to_list (tb_constraints t)) as Hl by apply io_constraints_perm.
      assert (tsteps n k (l.*2 ≫= diff_constraint_create) t1 t) as Hrun.
      { assert (t = set_constraints t1 (upd_map constraint_name Some l.*2 (tb_constraints t1))) as Heq.
        { assert (tb_constraints t = upd_map constraint_name Some l.*2 (tb_constraints t1)) as <-.
          { apply map_eq. intros i. rewrite (lookup_upd_iter _ _ _ Hl Htn). simpl.
            rewrite lookup_empty. by destruct (tb_constraints t !! i). }
          unfold t1, set_constraints; simpl. rewrite <- Ht1, <- Ht2. by destruct t. }
        rewrite Heq.
        apply (loop_run (tsteps n k) (tsteps_nil _ n k) (tsteps_app _ n k)
             tb_constraints set_constraints) with (P := fun _ => True).
        - done.
        - done.
        - apply table_eta.
        - by eapply iter_nodup.
        - done.
        - intros c tb' Hc _ Hget. split; [|done].
          apply (iter_elem _ _ _ Hl Htn) in Hc.
          apply constraint_create_step; [by apply Ht5|].
          rewrite Hget. apply lookup_empty. }
      assert (set_relations sc (<[k:=RTable t]> (sc_relations sc)) =
              set_relations sc1 (<[k:=RTable t]> (sc_relations sc1))) as ->.
      { unfold sc1, set_relations; simpl. by rewrite insert_insert. }
      eapply tsteps_ssteps; [exact Hrun|]. unfold sc1; simpl. by rewrite lookup_insert.
  Qed.

  (** ** Relations *)
  Definition named_table (o : option relation) (k : str) : Prop :=
    exists tb, o = Some (RTable tb) /\ tb_name tb = k.

  Lemma named_table_is_table o k : named_table o k -> is_table o.
  Proof. intros (tb & -> & _). by exists tb. Qed.

  Definition safe (n k : str) (i : index) : Prop :=
    index_safe (source_relations s0 n) (source_relations t0 n) k i.

  Lemma relation_at_put d n sc k :
    db_schemas d !! n = Some sc -> relation_at d n k = sc_relations sc !! k.
  Proof. intros H. unfold relation_at. by rewrite H. Qed.

  Lemma relation_create_run ot n k r sc :
    wf_relation n k r -> sc_relations sc !! k = None ->
    relation_at t0 n k = Some r ->
    (forall i, r = RIndex i -> safe n k i -> is_table (sc_relations sc !! ix_table i)) ->
    ssteps n (diff_relation_create ot r) sc
      (set_relations sc (<[k := created r]> (sc_relations sc))).
  Proof.
    intros Hwf Hk Hr Hix. destruct r as [t|v|i|q]; simpl.
    - by apply table_create_run.
    - destruct Hwf as [H1 H2]; simpl in *. eapply sstep; [by unfold new_create_view; simpl; rewrite H1, H2| |done].
      unfold add_relation, has_relation; simpl. rewrite Hk. destruct v; simpl in *; by subst.
    - destruct Hwf as [H1 H2]; simpl in *.
      eapply sstep; [by unfold new_create_index; simpl; rewrite H1, H2| |].
      + unfold add_relation, has_relation; simpl. rewrite Hk. destruct i; simpl in *; by subst.
      + intros d Hd. unfold new_create_index. rewrite H1, H2. simpl. exists i. split; [done|].
        intros Hs. unfold table_at. rewrite (relation_at_put _ _ _ _ Hd). by apply Hix.
    - destruct Hwf as [H1 H2]; simpl in *.
      eapply sstep; [by unfold new_create_sequence; simpl; rewrite H1, H2| |done].
      unfold add_relation, has_relation; simpl. rewrite Hk. unfold unowned. by rewrite H1, H2.
  Qed.

  Lemma relation_drop_run n k r sc :
    wf_relation n k r -> sc_relations sc !! k = Some r ->
    relation_at s0 n k = Some r ->
    (forall i, r = RIndex i -> relation_at s0 n (ix_table i) = None \/ table_at s0 n (ix_table i) -> table_at t0 n (ix_table i) ->
       is_table (sc_relations sc !! ix_table i)) ->
    ssteps n (diff_relation_drop r) sc
      (set_relations sc (delete k (sc_relations sc))).
  Proof.
    intros Hwf Hk Hs0 Hix. destruct r as [t|v|i|q]; simpl.
    - destruct Hwf as (H1 & H2 & _). eapply sstep; [by unfold new_drop_table; simpl; rewrite H1, H2| |].
      + unfold mthen, remove_relation. by rewrite Hk.
      + intros d Hd. unfold new_drop_table. rewrite H1, H2. simpl. exists t.
        by rewrite (relation_at_put _ _ _ _ Hd).
    - destruct Hwf as [H1 H2]; simpl in *. eapply sstep; [by unfold new_drop_view; simpl; rewrite H1, H2| |done].
      unfold drop_relation, mthen, mread, get_relation; simpl. rewrite Hk; simpl.
      unfold remove_relation. by rewrite Hk.
    - destruct Hwf as [H1 H2]; simpl in *. eapply sstep; [by unfold new_drop_index; simpl; rewrite H1, H2| |].
      + unfold drop_relation, mthen, mread, get_relation; simpl. rewrite Hk; simpl.
        unfold remove_relation. by rewrite Hk.
      + intros d Hd. unfold new_drop_index. rewrite H1, H2. simpl. exists i.
        rewrite (relation_at_put _ _ _ _ Hd). split; [done|]. split; [done|].
        intros Ha Hb. unfold table_at. rewrite (relation_at_put _ _ _ _ Hd). by apply Hix.
    - destruct Hwf as [H1 H2]; simpl in *. eapply sstep; [by unfold new_drop_sequence; simpl; rewrite H1, H2| |].
      + unfold drop_relation, mthen, mread, get_relation; simpl. rewrite Hk; simpl.
        unfold remove_relation. by rewrite Hk.
      + intros d Hd. unfold new_drop_sequence. rewrite H1, H2. simpl. exists q.
        by rewrite (relation_at_put _ _ _ _ Hd).
  Qed.

  Lemma relation_replace_run ot n k r r' sc :
    wf_relation n k r -> wf_relation n k r' -> sc_relations sc !! k = Some r ->
    relation_at s0 n k = Some r ->
    (forall i, r = RIndex i -> relation_at s0 n (ix_table i) = None \/ table_at s0 n (ix_table i) -> table_at t0 n (ix_table i) ->
       is_table (sc_relations sc !! ix_table i)) ->
    relation_at t0 n k = Some r' ->
    (forall i, r' = RIndex i -> safe n k i ->
       ix_table i <> k /\ is_table (sc_relations sc !! ix_table i)) ->
    ssteps n (diff_relation_drop r ++ diff_relation_create ot r') sc
      (set_relations sc (<[k := created r']> (sc_relations sc))).
  Proof.
    intros Hwf Hwf' Hk Hs0 Hix Ht0 Hix'.
    set (sc1 := set_relations sc (delete k (sc_relations sc))).
    apply (ssteps_app _ _ _ _ _ sc1); [by apply relation_drop_run|].
    assert (set_relations sc (<[k:=created r']> (sc_relations sc)) =
            set_relations sc1 (<[k:=created r']> (sc_relations sc1))) as ->.
    { unfold sc1, set_relations; simpl. by rewrite insert_delete_insert. }
    apply relation_create_run; [done| |done|].
    - unfold sc1; simpl. by rewrite lookup_delete.
    - intros i Hi Hsf. destruct (Hix' i Hi Hsf) as [Hne Hn]. unfold sc1; simpl.
      by rewrite lookup_delete_ne.
  Qed.

  Lemma relation_update_run os ot n k r r' sc :
    wf_relation n k r -> wf_relation n k r' -> sc_relations sc !! k = Some r ->
    relation_at s0 n k = Some r ->
    (forall i, r = RIndex i -> relation_at s0 n (ix_table i) = None \/ table_at s0 n (ix_table i) -> table_at t0 n (ix_table i) ->
       is_table (sc_relations sc !! ix_table i)) ->
    relation_at t0 n k = Some r' ->
    (forall i, r' = RIndex i -> safe n k i ->
       (exists j, r = RIndex j /\ ix_keys j = ix_keys i) \/
       (ix_table i <> k /\ is_table (sc_relations sc !! ix_table i))) ->
    ssteps n (diff_relation_update os ot r r') sc
      (set_relations sc (partial_alter (fun _ => expected_relation (Some r) (Some r')) k
                           (sc_relations sc))).
  Proof.
    intros Hwf Hwf' Hk Hs0 Hix Ht0 Hix'.
    assert ((forall i, r' = RIndex i -> ~ (exists j, r = RIndex j /\ ix_keys j = ix_keys i)) ->
            ssteps n (diff_relation_drop r ++ diff_relation_create ot r') sc
              (set_relations sc (<[k := created r']> (sc_relations sc)))) as Hrep.
    { intros Hno. apply relation_replace_run; try done.
      intros i Hi Hsf. destruct (Hix' i Hi Hsf) as [?|?]; [|done]. by destruct (Hno i Hi). }
    assert (Hsame : forall x, x = r -> set_relations sc (<[k := x]> (sc_relations sc)) = sc).
    { intros x ->. rewrite insert_id by done. apply schema_eta. }
    destruct r as [t|v|i|q], r' as [t'|v'|i'|q']; simpl;
      try (apply Hrep; intros ? ? (? & ? & ?); done).
    - eapply tsteps_ssteps; [|done]. destruct Hwf' as (H1 & H2 & ?).
      rewrite H1, H2. by apply table_update_run.
    - unfold diff_view_update. destruct (neqb _ _) eqn:E.
      + apply Hrep. intros ? ? (? & ? & ?); done.
      + apply neqb_false_1 in E.
        change (partial_alter _ _ _) with (<[k := RView v']> (sc_relations sc)).
        rewrite Hsame; [apply ssteps_nil|].
        destruct Hwf, Hwf', v, v'; simpl in *; by subst.
    - unfold diff_index_update. destruct (neqb _ _) eqn:E.
      + apply neqb_true in E. rewrite decide_False by done. apply Hrep.
        intros i0 [= <-] (j & [= <-] & ?). done.
      + apply neqb_false_1 in E. rewrite decide_True by done.
        change (partial_alter _ _ _) with (<[k := RIndex i]> (sc_relations sc)).
        rewrite Hsame by done. apply ssteps_nil.
    - unfold diff_sequence_update. destruct (_ || _) eqn:E.
      + rewrite decide_False.
        * apply Hrep. intros ? ? (? & ? & ?); done.
        * intros ->. rewrite !orb_true_iff, !neqb_true in E. tauto.
      + rewrite !orb_false_iff, !neqb_false in E.
        destruct E as ((((((((?&?)&?)&?)&?)&?)&?)&?)&?).
        assert (q = q') as ->.
        { destruct Hwf, Hwf', q, q'; simpl in *; by subst. }
        rewrite decide_True by done.
        change (partial_alter _ _ _) with (<[k := RSequence q']> (sc_relations sc)).
        rewrite Hsame by done. apply ssteps_nil.
  Qed.

  (** ** Functions *)
  Lemma function_create_run n k f sc :
    wf_function n k f -> sc_functions sc !! k = None ->
    ssteps n (diff_function_create f) sc (set_functions sc (<[k := f]> (sc_functions sc))).
  Proof.
    intros [H1 H2] Hk. eapply sstep; [by unfold new_create_function; simpl; rewrite H1, H2| |done].
    unfold add_function, has_function; simpl. rewrite Hk. destruct f; simpl in *; by subst.
  Qed.

  Lemma function_drop_run n k f sc :
    wf_function n k f -> sc_functions sc !! k = Some f ->
    ssteps n (diff_function_drop f) sc (set_functions sc (delete k (sc_functions sc))).
  Proof.
    intros [H1 H2] Hk. eapply sstep; [by unfold new_drop_function; simpl; rewrite H1, H2| |done].
    unfold mthen, remove_function. by rewrite Hk.
  Qed.

  Lemma function_update_run n k f f' sc :
    wf_function n k f -> wf_function n k f' -> sc_functions sc !! k = Some f ->
    ssteps n (diff_function_update f f') sc (set_functions sc (<[k := f']> (sc_functions sc))).
  Proof.
    intros Hf Hf' Hk. unfold diff_function_update. destruct (_ || _) eqn:E.
    - set (sc1 := set_functions sc (delete k (sc_functions sc))).
      apply (ssteps_app _ _ [new_drop_function f] [new_create_function f'] _ sc1).
      + by apply function_drop_run.
      + assert (set_functions sc (<[k:=f']> (sc_functions sc)) =
                set_functions sc1 (<[k:=f']> (sc_functions sc1))) as ->.
        { unfold sc1, set_functions; simpl. by rewrite insert_delete_insert. }
        apply function_create_run; [done|]. unfold sc1; simpl. by rewrite lookup_delete.
    - rewrite !orb_false_iff, !neqb_false in E. destruct E as (((?&?)&?)&?).
      assert (f = f') as -> by (destruct Hf, Hf', f, f'; simpl in *; by subst).
      rewrite insert_id by done. rewrite schema_eta_f. apply ssteps_nil.
  Qed.

  (** ** Schemas *)
  Lemma functions_loop1 ot n (scs sct sc : schema) :
    map_Forall (wf_function n) (sc_functions sct) ->
    sc_functions sc = sc_functions scs ->
    ssteps n (iter_functions ot sct ≫= diff_schema_function_new scs) sc
      (set_functions sc (sc_functions scs ∪ sc_functions sct)).
  Proof.
    intros Ht Hsc. pose proof (wf_functions_named _ _ Ht) as Htn. unfold iter_functions.
    set (l := io_functions ot (sc_name sct) (sc_functions sct)).
    assert (l ≡ₚ map_to_list (sc_functions sct)) as Hl by apply io_functions_perm.
    assert (sc_functions scs ∪ sc_functions sct =
            upd_map fn_name (fun f => Some (default f (sc_functions scs !! fn_name f))) l.*2
              (sc_functions sc)) as ->.
    { apply map_eq. intros i. rewrite (lookup_upd_iter _ _ _ Hl Htn), lookup_union, Hsc.
      destruct (sc_functions sct !! i) as [f|] eqn:E.
      - rewrite (Htn _ _ E). by destruct (sc_functions scs !! i).
      - by destruct (sc_functions scs !! i). }
    apply (loop_run (ssteps n) (ssteps_nil _ n) (ssteps_app _ n)
             sc_functions set_functions) with (P := fun _ => True).
    - done.
    - done.
    - apply schema_eta_f.
    - by eapply iter_nodup.
    - done.
    - intros f sc' Hf _ Hget. split; [|done].
      apply (iter_elem _ _ _ Hl Htn) in Hf. rewrite Hsc in Hget.
      unfold diff_schema_function_new, has_function.
      destruct (sc_functions scs !! fn_name f) as [f0|] eqn:E; simpl.
      + change (partial_alter _ _ _) with (<[fn_name f := f0]> (sc_functions sc')).
        rewrite insert_id by done. rewrite schema_eta_f. apply ssteps_nil.
      + apply function_create_run; [by apply Ht|done].
  Qed.

  Lemma functions_loop2 os n (scs sct sc : schema) :
    map_Forall (wf_function n) (sc_functions scs) ->
    map_Forall (wf_function n) (sc_functions sct) ->
    sc_functions sc = sc_functions scs ∪ sc_functions sct ->
    ssteps n (iter_functions os scs ≫= diff_schema_function_old sct) sc
      (set_functions sc (sc_functions sct)).
  Proof.
    intros Hs Ht Hsc. pose proof (wf_functions_named _ _ Hs) as Hsn. unfold iter_functions.
    set (l := io_functions os (sc_name scs) (sc_functions scs)).
    assert (l ≡ₚ map_to_list (sc_functions scs)) as Hl by apply io_functions_perm.
    assert (sc_functions sct =
            upd_map fn_name (fun f => sc_functions sct !! fn_name f) l.*2
              (sc_functions sc)) as Heq.
    { apply map_eq. intros i. rewrite (lookup_upd_iter _ _ _ Hl Hsn), Hsc, lookup_union.
      destruct (sc_functions scs !! i) as [f|] eqn:E.
      - by rewrite (Hsn _ _ E).
      - by destruct (sc_functions sct !! i). }
    rewrite Heq.
    apply (loop_run (ssteps n) (ssteps_nil _ n) (ssteps_app _ n)
             sc_functions set_functions) with (P := fun _ => True).
    - done.
    - done.
    - apply schema_eta_f.
    - by eapply iter_nodup.
    - done.
    - intros f sc' Hf _ Hget. split; [|done].
      apply (iter_elem _ _ _ Hl Hsn) in Hf. rewrite Hsc, lookup_union, Hf in Hget.
      unfold diff_schema_function_old.
      destruct (sc_functions sct !! fn_name f) as [f0|] eqn:E; simpl in *.
      + apply function_update_run; [by apply Hs|by apply Ht|done].
      + apply function_drop_run; [by apply Hs|done].
  Qed.

  Lemma relations_loop1 ot n (scs sct : schema) :
    wf_schema n scs -> wf_schema n sct ->
    db_schemas s0 !! n = Some scs -> db_schemas t0 !! n = Some sct ->
    ssteps n (iter_relations ot sct ≫= diff_schema_relation_new ot scs) scs
      (set_relations scs (sc_relations scs ∪ (created <$> sc_relations sct))).
  Proof.
    intros (Hs1 & Hs2 & Hs3) (Ht1 & Ht2 & Ht3) Hs0 Ht0.
    pose proof (wf_relations_named _ _ Ht2) as Htn. unfold iter_relations.
    set (l := io_relations ot (sc_name sct) (sc_relations sct)).
    assert (l ≡ₚ map_to_list (sc_relations sct)) as Hl by apply io_relations_perm.
    assert (sc_relations scs ∪ (created <$> sc_relations sct) =
            upd_map relation_name (fun r => Some (default (created r) (sc_relations scs !! relation_name r)))
              l.*2 (sc_relations scs)) as ->.
    { apply map_eq. intros i. rewrite (lookup_upd_iter _ _ _ Hl Htn), lookup_union, lookup_fmap.
      destruct (sc_relations sct !! i) as [r|] eqn:E.
      - rewrite (Htn _ _ E). by destruct (sc_relations scs !! i).
      - by destruct (sc_relations scs !! i). }
    apply (loop_run (ssteps n) (ssteps_nil _ n) (ssteps_app _ n)
             sc_relations set_relations) with
             (P := fun sc' => forall k r, sc_relations scs !! k = Some r -> sc_relations sc' !! k = Some r).
    - done.
    - done.
    - apply schema_eta.
    - by eapply iter_nodup.
    - done.
    - intros r sc' Hr HP Hget.
      apply (iter_elem _ _ _ Hl Htn) in Hr.
      unfold diff_schema_relation_new, has_relation.
      destruct (sc_relations scs !! relation_name r) as [r0|] eqn:E; simpl.
      + change (partial_alter _ _ _) with (<[relation_name r := r0]> (sc_relations sc')).
        rewrite insert_id by done. rewrite schema_eta. split; [apply ssteps_nil|done].
      + split.
        * apply relation_create_run; [by apply Ht2|done|by rewrite (relation_at_put _ _ _ _ Ht0)|].
          intros i -> Hsf. unfold safe, source_relations, index_safe in Hsf. rewrite Hs0, E in Hsf.
          destruct Hsf as [tb Htb]. exists tb. by apply HP.
        * intros k r' Hk. rewrite lookup_partial_alter_ne; [by apply HP|]. congruence.
  Qed.

  Lemma is_table_dec o : {is_table o} + {~ is_table o}.
  Proof.
    destruct o as [[t|v|i|q]|]; [left; by exists t|right; by intros [??]..].
  Qed.

  (** Tables the target keeps or adds: present all along the second relation loop. *)
  Definition stable (scs sct : schema) (k : str) : Prop :=
    is_table (sc_relations sct !! k) /\
    (sc_relations scs !! k = None \/ is_table (sc_relations scs !! k)).

  Lemma relations_loop2 os ot n (scs sct sc : schema) :
    wf_schema n scs -> wf_schema n sct ->
    db_schemas s0 !! n = Some scs -> db_schemas t0 !! n = Some sct ->
    sc_relations sc = sc_relations scs ∪ (created <$> sc_relations sct) ->
    ssteps n (iter_relations os scs ≫= diff_schema_relation_old os ot sct) sc
      (set_relations sc (merge expected_relation (sc_relations scs) (sc_relations sct))).
  Proof.
    intros (Hs1 & Hs2 & Hs3) (Ht1 & Ht2 & Ht3) Hs0 Ht0 Hsc.
    pose proof (wf_relations_named _ _ Hs2) as Hsn. unfold iter_relations.
    set (l := io_relations os (sc_name scs) (sc_relations scs)).
    assert (l ≡ₚ map_to_list (sc_relations scs)) as Hl by apply io_relations_perm.
    assert (merge expected_relation (sc_relations scs) (sc_relations sct) =
            upd_map relation_name
              (fun r => expected_relation (Some r) (sc_relations sct !! relation_name r))
              l.*2 (sc_relations sc)) as ->.
    { apply map_eq. intros i. rewrite (lookup_upd_iter _ _ _ Hl Hsn), Hsc, lookup_union, lookup_fmap.
      rewrite lookup_merge.
      destruct (sc_relations scs !! i) as [r|] eqn:E.
      - rewrite (Hsn _ _ E). by destruct (sc_relations sct !! i).
      - by destruct (sc_relations sct !! i). }
    apply (loop_run (ssteps n) (ssteps_nil _ n) (ssteps_app _ n)
             sc_relations set_relations) with
             (P := fun sc' => forall k, stable scs sct k -> named_table (sc_relations sc' !! k) k).
    - done.
    - done.
    - apply schema_eta.
    - by eapply iter_nodup.
    - intros k ([t Ht] & Hor). rewrite Hsc, lookup_union, lookup_fmap, Ht. simpl.
      destruct Hor as [->|[s Hs]]; simpl.
      + exists t. split; [done|]. by destruct (Ht2 _ _ Ht) as (_ & ? & _).
      + rewrite Hs. exists s. split; [done|]. by destruct (Hs2 _ _ Hs) as (_ & ? & _).
    - intros r sc' Hr HP Hget.
      apply (iter_elem _ _ _ Hl Hsn) in Hr.
      assert (sc_relations sc' !! relation_name r = Some r) as Hr'.
      { rewrite Hget, Hsc. by apply lookup_union_Some_l. }
      assert (relation_at s0 n (relation_name r) = Some r) as Hat.
      { by rewrite (relation_at_put _ _ _ _ Hs0). }
      assert (forall i, r = RIndex i -> relation_at s0 n (ix_table i) = None \/ table_at s0 n (ix_table i) -> table_at t0 n (ix_table i) ->
                is_table (sc_relations sc' !! ix_table i)) as Hixd.
      { intros i _ Ha Hb. unfold table_at in *.
        rewrite (relation_at_put _ _ _ _ Hs0) in Ha. rewrite (relation_at_put _ _ _ _ Ht0) in Hb.
        eapply named_table_is_table, HP. split; auto. }
      unfold diff_schema_relation_old.
      destruct (sc_relations sct !! relation_name r) as [r'|] eqn:E; split.
      + apply relation_update_run; [by apply Hs2|by apply Ht2|done|done|done|
          by rewrite (relation_at_put _ _ _ _ Ht0)|].
        intros i -> Hsf. unfold safe, source_relations, index_safe in Hsf.
        rewrite Hs0, Ht0, Hr in Hsf.
        assert ((exists j, r = RIndex j /\ ix_keys j = ix_keys i) \/ stable scs sct (ix_table i))
          as [?|Hst].
        { destruct r as [t|v|j|q]; try (right; exact Hsf).
          destruct Hsf as [?|Hsf]; [left; eauto|right; exact Hsf]. }
        { by left. }
        right. split; [|by eapply named_table_is_table, HP].
        intros Heq. destruct Hst as [[t Ht] _]. congruence.
      + intros k Hk. simpl. destruct (decide (k = relation_name r)) as [->|Hne].
        * rewrite lookup_partial_alter. destruct Hk as [[t Ht] [Hn|[s Hs]]]; [congruence|].
          assert (r = RTable s) as -> by congruence. assert (r' = RTable t) as -> by congruence.
          simpl. eexists. split; [done|]. simpl. by destruct (Ht2 _ _ Ht) as (_ & ? & _).
        * rewrite lookup_partial_alter_ne by done. by apply HP.
      + assert (expected_relation (Some r) None = None) as -> by (by destruct r).
        apply relation_drop_run; [by apply Hs2|done..].
      + intros k Hk. simpl. destruct (decide (k = relation_name r)) as [->|Hne].
        * destruct Hk as [[t Ht] _]. congruence.
        * rewrite lookup_partial_alter_ne by done. by apply HP.
  Qed.

  Lemma schema_update_run os ot n (scs sct : schema) :
    wf_schema n scs -> wf_schema n sct ->
    db_schemas s0 !! n = Some scs -> db_schemas t0 !! n = Some sct ->
    ssteps n (diff_schema_update os ot scs sct) scs (expected_schema (sc_relations scs) sct).
  Proof.
    intros Hs Ht Hs0 Ht0. unfold diff_schema_update.
    set (sc1 := set_relations scs (sc_relations scs ∪ (created <$> sc_relations sct))).
    set (sc2 := set_relations sc1 (merge expected_relation (sc_relations scs) (sc_relations sct))).
    set (sc3 := set_functions sc2 (sc_functions scs ∪ sc_functions sct)).
    apply (ssteps_app _ _ _ _ _ sc1); [|apply (ssteps_app _ _ _ _ _ sc2);
      [|apply (ssteps_app _ _ _ _ _ sc3)]].
    - by apply relations_loop1.
    - by apply relations_loop2.
    - apply functions_loop1; [apply Ht|done].
    - assert (expected_schema (sc_relations scs) sct = set_functions sc3 (sc_functions sct)) as ->.
      { unfold expected_schema, sc3, sc2, sc1, set_functions, set_relations; simpl.
        destruct Hs as [-> _], Ht as [-> _]. done. }
      apply functions_loop2; [apply Hs|apply Ht|done].
  Qed.

  Lemma schema_create_contents ot n (sct : schema) :
    wf_schema n sct -> db_schemas s0 !! n = None -> db_schemas t0 !! n = Some sct ->
    ssteps n ((iter_relations ot sct ≫= diff_relation_create ot) ++
              (iter_functions ot sct ≫= diff_function_create))
      (schema_new n) (expected_schema ∅ sct).
  Proof.
    intros (Ht1 & Ht2 & Ht3) Hs0 Ht0.
    set (sc1 := set_relations (schema_new n) (created <$> sc_relations sct)).
    apply (ssteps_app _ _ _ _ _ sc1).
    - unfold sc1. pose proof (wf_relations_named _ _ Ht2) as Htn. unfold iter_relations.
      set (l := io_relations ot (sc_name sct) (sc_relations sct)).
      assert (l ≡ₚ map_to_list (sc_relations sct)) as Hl by apply io_relations_perm.
      assert (created <$> sc_relations sct =
              upd_map relation_name (fun r => Some (created r)) l.*2 (sc_relations (schema_new n))) as ->.
      { apply map_eq. intros i. rewrite (lookup_upd_iter _ _ _ Hl Htn), lookup_fmap. simpl.
        rewrite lookup_empty. by destruct (sc_relations sct !! i). }
      apply (loop_run (ssteps n) (ssteps_nil _ n) (ssteps_app _ n)
               sc_relations set_relations) with (P := fun _ => True).
      + done.
      + done.
      + apply schema_eta.
      + by eapply iter_nodup.
      + done.
      + intros r sc' Hr _ Hget. split; [|done].
        apply (iter_elem _ _ _ Hl Htn) in Hr.
        apply relation_create_run; [by apply Ht2|by rewrite Hget; apply lookup_empty|
          by rewrite (relation_at_put _ _ _ _ Ht0)|].
        intros i -> Hsf. unfold safe, source_relations, index_safe in Hsf. rewrite Hs0 in Hsf.
        rewrite !lookup_empty in Hsf. by destruct Hsf.
    - assert (expected_schema ∅ sct = set_functions sc1 (sc_functions sct)) as ->.
      { unfold expected_schema, sc1, set_functions, set_relations, schema_new; simpl.
        rewrite Ht1. f_equal. apply map_eq. intros i.
        rewrite lookup_merge, lookup_empty, lookup_fmap. by destruct (sc_relations sct !! i). }
      pose proof (wf_functions_named _ _ Ht3) as Htn. unfold iter_functions.
      set (l := io_functions ot (sc_name sct) (sc_functions sct)).
      assert (l ≡ₚ map_to_list (sc_functions sct)) as Hl by apply io_functions_perm.
      assert (sc_functions sct =
              upd_map fn_name Some l.*2 (sc_functions sc1)) as ->.
      { apply map_eq. intros i. rewrite (lookup_upd_iter _ _ _ Hl Htn). simpl.
        rewrite lookup_empty. by destruct (sc_functions sct !! i). }
      apply (loop_run (ssteps n) (ssteps_nil _ n) (ssteps_app _ n)
               sc_functions set_functions) with (P := fun _ => True).
      + done.
      + done.
      + apply schema_eta_f.
      + by eapply iter_nodup.
      + done.
      + intros f sc' Hf _ Hget. split; [|done].
        apply (iter_elem _ _ _ Hl Htn) in Hf.
        apply function_create_run; [by apply Ht3|]. rewrite Hget. apply lookup_empty.
  Qed.

  Lemma schema_drop_contents os n (scs : schema) :
    wf_schema n scs -> db_schemas s0 !! n = Some scs -> db_schemas t0 !! n = None ->
    ssteps n ((iter_relations os scs ≫= diff_relation_drop) ++
              (iter_functions os scs ≫= diff_function_drop))
      scs (Schema n ∅ ∅).
  Proof.
    intros (Hs1 & Hs2 & Hs3) Hs0 Ht0.
    set (sc1 := set_relations scs ∅).
    apply (ssteps_app _ _ _ _ _ sc1).
    - unfold sc1. pose proof (wf_relations_named _ _ Hs2) as Hsn. unfold iter_relations.
      set (l := io_relations os (sc_name scs) (sc_relations scs)).
      assert (l ≡ₚ map_to_list (sc_relations scs)) as Hl by apply io_relations_perm.
      assert (∅ = upd_map relation_name (fun _ => None) l.*2 (sc_relations scs)) as ->.
      { apply map_eq. intros i. rewrite (lookup_upd_iter _ _ _ Hl Hsn), lookup_empty.
        by destruct (sc_relations scs !! i). }
      apply (loop_run (ssteps n) (ssteps_nil _ n) (ssteps_app _ n)
               sc_relations set_relations) with (P := fun _ => True).
      + done.
      + done.
      + apply schema_eta.
      + by eapply iter_nodup.
      + done.
      + intros r sc' Hr _ Hget. split; [|done].
        apply (iter_elem _ _ _ Hl Hsn) in Hr.
        apply relation_drop_run; [by apply Hs2|congruence| |].
        * by rewrite (relation_at_put _ _ _ _ Hs0).
        * intros i _ _ [t Ht]. unfold relation_at in Ht. by rewrite Ht0 in Ht.
    - assert (Schema n ∅ ∅ = set_functions sc1 ∅) as ->.
      { unfold sc1, set_functions, set_relations; simpl. by rewrite Hs1. }
      pose proof (wf_functions_named _ _ Hs3) as Hsn. unfold iter_functions.
      set (l := io_functions os (sc_name scs) (sc_functions scs)).
      assert (l ≡ₚ map_to_list (sc_functions scs)) as Hl by apply io_functions_perm.
      assert (∅ = upd_map fn_name (fun _ => None) l.*2 (sc_functions sc1)) as ->.
      { apply map_eq. intros i. rewrite (lookup_upd_iter _ _ _ Hl Hsn), lookup_empty. simpl.
        by destruct (sc_functions scs !! i). }
      apply (loop_run (ssteps n) (ssteps_nil _ n) (ssteps_app _ n)
               sc_functions set_functions) with (P := fun _ => True).
      + done.
      + done.
      + apply schema_eta_f.
      + by eapply iter_nodup.
      + done.
      + intros f sc' Hf _ Hget. split; [|done].
        apply (iter_elem _ _ _ Hl Hsn) in Hf.
        apply function_drop_run; [by apply Hs3|]. rewrite Hget. done.
  Qed.

  (** ** Databases *)
  Definition with_new_schemas : gmap str schema :=
    db_schemas s0 ∪ (expected_schema ∅ <$> db_schemas t0).

  Lemma database_loop1 ot :
    wf_db s0 -> wf_db t0 ->
    steps_of relaxed (dgood s0 t0) (iter_schemas ot t0 ≫= diff_database_new ot s0) s0
      (Database with_new_schemas).
  Proof.
    intros Hs Ht. pose proof (wf_schemas_named _ Ht) as Htn. unfold iter_schemas.
    set (l := io_schemas ot (db_schemas t0)).
    assert (l ≡ₚ map_to_list (db_schemas t0)) as Hl by apply io_schemas_perm.
    assert (with_new_schemas =
            upd_map sc_name (fun sc => Some (default (expected_schema ∅ sc) (db_schemas s0 !! sc_name sc)))
              l.*2 (db_schemas s0)) as ->.
    { apply map_eq. intros i. unfold with_new_schemas.
      rewrite (lookup_upd_iter _ _ _ Hl Htn), lookup_union, lookup_fmap.
      destruct (db_schemas t0 !! i) as [sc|] eqn:E.
      - rewrite (Htn _ _ E). by destruct (db_schemas s0 !! i).
      - by destruct (db_schemas s0 !! i). }
    apply (loop_run (steps_of relaxed (dgood s0 t0)) (steps_nil _ _) (steps_app _ _)
             db_schemas (fun _ m => Database m)) with (P := fun _ => True).
    - done.
    - done.
    - apply db_eta.
    - by eapply iter_nodup.
    - done.
    - intros sc d Hsc _ Hget. split; [|done].
      apply (iter_elem _ _ _ Hl Htn) in Hsc.
      unfold diff_database_new, has_schema.
      destruct (db_schemas s0 !! sc_name sc) as [sc0|] eqn:E; simpl.
      + change (partial_alter _ _ _) with (<[sc_name sc := sc0]> (db_schemas d)).
        rewrite insert_id by done. rewrite db_eta. apply steps_nil.
      + unfold diff_schema_create. econstructor.
        * unfold new_create_schema; simpl. unfold add_schema, has_schema; simpl. by rewrite Hget.
        * done.
        * change (partial_alter _ _ _) with (<[sc_name sc := expected_schema ∅ sc]> (db_schemas d)).
          rewrite <- (insert_insert _ (sc_name sc) (expected_schema ∅ sc) (schema_new (sc_name sc))).
          refine (ssteps_steps _ (sc_name sc) _ (schema_new (sc_name sc)) (expected_schema ∅ sc)
                   (Database (<[sc_name sc := schema_new (sc_name sc)]> (db_schemas d))) _ _).
          -- apply schema_create_contents; [by apply Ht|done|done].
          -- simpl. by rewrite lookup_insert.
  Qed.

  Lemma database_loop2 os ot d :
    wf_db s0 -> wf_db t0 ->
    db_schemas d = with_new_schemas ->
    steps_of relaxed (dgood s0 t0) (iter_schemas os s0 ≫= diff_database_old os ot t0) d
      (expected_db s0 t0).
  Proof.
    intros Hs Ht Hd. pose proof (wf_schemas_named _ Hs) as Hsn. unfold iter_schemas.
    set (l := io_schemas os (db_schemas s0)).
    assert (l ≡ₚ map_to_list (db_schemas s0)) as Hl by apply io_schemas_perm.
    assert (expected_db s0 t0 = Database (
            upd_map sc_name (fun sc => expected_schema (sc_relations sc) <$> (db_schemas t0 !! sc_name sc))
              l.*2 (db_schemas d))) as ->.
    { unfold expected_db. f_equal. apply map_eq. intros i. rewrite Hd. unfold with_new_schemas.
      rewrite (lookup_upd_iter _ _ _ Hl Hsn), lookup_union, lookup_fmap.
      rewrite map_lookup_imap. unfold source_relations.
      destruct (db_schemas s0 !! i) as [sc|] eqn:E.
      - rewrite (Hsn _ _ E). by destruct (db_schemas t0 !! i).
      - by destruct (db_schemas t0 !! i). }
    apply (loop_run (steps_of relaxed (dgood s0 t0)) (steps_nil _ _) (steps_app _ _)
             db_schemas (fun _ m => Database m)) with (P := fun _ => True).
    - done.
    - done.
    - apply db_eta.
    - by eapply iter_nodup.
    - done.
    - intros sc d' Hsc _ Hget. split; [|done].
      apply (iter_elem _ _ _ Hl Hsn) in Hsc.
      assert (db_schemas d' !! sc_name sc = Some sc) as Hd'.
      { rewrite Hget, Hd. unfold with_new_schemas. by apply lookup_union_Some_l. }
      unfold diff_database_old. destruct (db_schemas t0 !! sc_name sc) as [sct|] eqn:E.
      + simpl. change (partial_alter _ _ _) with
          (<[sc_name sc := expected_schema (sc_relations sc) sct]> (db_schemas d')).
        refine (ssteps_steps _ (sc_name sc) _ sc _ d' _ _); [|done].
        apply schema_update_run; [by apply Hs|by apply Ht|done|done].
      + unfold diff_schema_drop. rewrite app_assoc.
        eapply steps_app.
        * refine (ssteps_steps _ (sc_name sc) _ sc _ d' _ _); [|done].
          apply schema_drop_contents; [by apply Hs|done|done].
        * econstructor; [| |apply steps_nil_eq].
          -- unfold new_drop_schema; simpl. unfold mthen, remove_schema, put; simpl.
             by rewrite lookup_insert.
          -- unfold new_drop_schema; simpl. by rewrite lookup_insert.
          -- f_equal. simpl. change (partial_alter _ _ _) with (delete (sc_name sc) (db_schemas d')).
             by rewrite delete_insert_delete.
  Qed.

  (** With "create index" not looking for its table, a diff always runs through. *)
  Lemma diff_run_relaxed os ot :
    wf_db s0 -> wf_db t0 ->
    steps_of relaxed (dgood s0 t0) (compare_diff os ot s0 t0) s0 (expected_db s0 t0).
  Proof.
    intros Hs Ht. unfold compare_diff, diff_database_update.
    eapply steps_app; [by apply database_loop1|by apply database_loop2].
  Qed.
End sound.
