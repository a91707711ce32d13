(** Introspection succeeds on the databases that can be cloned: neither duplicates nor orphans. *)
From Verif Require Import Base Types Changes SpecSnapshot ColumnLemmas Diff Sql History Catalog Introspect
  SpecIntrospect SpecCatalog IntrospectLemmas IntrospectProofs CatalogLemmas CatalogProofs CatalogShows
  CatalogSuccess.

(** Keys of rows *)
Definition key1 (r : row) : str := text_at r 0.
Definition key2 (r : row) : str * str := (text_at r 0, text_at r 1).
Definition key_column (r : row) : (str * str) * str := ((text_at r 0, text_at r 1), text_at r 3).
Definition key_key (r : row) : (str * str) * str := ((text_at r 0, text_at r 3), text_at r 1).
Definition key_foreign (r : row) : (str * str) * str := ((text_at r 0, text_at r 2), text_at r 1).
Definition key_check (r : row) : (str * str) * str := ((text_at r 0, text_at r 1), text_at r 2).

Ltac key_of H :=
  repeat (let E := fresh "E" in apply ebind_inv in H as (? & E & H); try apply get_text_at in E); injection H as <-.

Section coherent.
  Context (p : planner) (c : catalogue) (schemas : list str).
  Hypothesis (Hp : proper c) (Hi : indexed c) (Hc : clonable c schemas).

  Let same := same_class c schemas Hi.

  Lemma schema_keys : NoDup (key1 <$> schema_rows p c schemas).
  Proof.
    apply ordered_keys, keys_bind; [apply Hi| |].
    - intros n _. apply keys_where, keys_one.
    - intros n m z w Hn Hm Hz Hw Hk. unrow Hz. unrow Hz. unrow Hw. unrow Hw. subst.
      by apply (iq_namespace_name c Hi).
  Qed.

  Lemma table_keys : NoDup (key2 <$> table_rows p c schemas).
  Proof.
    apply ordered_keys, keys_bind; [apply Hi| |].
    - intros n Hn. apply keys_bind; [apply Hi| |].
      + intros r Hr. apply keys_where, keys_join.
        * apply NoDup_filtered; [apply Hi| |].
          -- intros x y Hy. apply elem_of_list_bind in Hy as (n' & Hy & _). unrow Hy. unrow Hy. done.
          -- intros x. rewrite <-(list_fmap_id (_ ≫= _)). apply keys_bind; [apply Hi| |].
             ++ intros n' _. apply keys_where, keys_one.
             ++ intros n1 n2 z w H1 H2 Hz Hw _. unrow Hz. unrow Hw.
                apply (pr_namespace_oid c Hp); [done..|congruence].
        * intros a b Ha Hb H1 H2. bools H1. bools H2. apply (placed_types_in c Hp) in Ha, Hb.
          apply (pr_type_oid c Hp); [done..|congruence].
        * intros t _. apply keys_where, keys_one.
      + intros r r' z w Hr Hr' Hz Hw Hk. unrow Hz. unrow Hw.
        apply elem_of_list_bind in Hz as (? & Hz & _). apply elem_of_list_bind in Hw as (? & Hw & _).
        unrow Hz. unrow Hz. unrow Hw. unrow Hw. subst. unfold key2 in Hk. cbn in Hk. injection Hk as Hk.
        apply (iq_class_name c Hi); [done..|congruence|done].
    - intros n m z w Hn Hm Hz Hw Hk.
      apply elem_of_list_bind in Hz as (r & Hz & _). unrow Hz. apply elem_of_list_bind in Hz as (? & Hz & _).
      unrow Hz. unrow Hz. apply elem_of_list_bind in Hw as (r' & Hw & _). unrow Hw.
      apply elem_of_list_bind in Hw as (? & Hw & _). unrow Hw. unrow Hw. subst.
      unfold key2 in Hk. cbn in Hk. injection Hk as Hk _. by apply (iq_namespace_name c Hi).
  Qed.

  Lemma namespace_keys {K} (key : row -> K) (cond : namespace -> bool) o (f : namespace -> list row) :
    (forall n, cond n = true -> ns_oid n = o) ->
    (forall n, NoDup (key <$> f n)) ->
    NoDup (key <$> (from n in ct_namespaces c; where cond n; f n)).
  Proof.
    intros Ho Hf. apply keys_bind; [apply Hi| |].
    - intros n _. by apply keys_where.
    - intros n m z w Hn Hm Hz Hw _. apply where_elem in Hz as [Hz _], Hw as [Hw _].
      apply (pr_namespace_oid c Hp); [done..|]. by rewrite (Ho n), (Ho m).
  Qed.
  Lemma class_keys {K} (key : row -> K) (cond : class -> bool) o (f : class -> list row) :
    (forall r, cond r = true -> cl_oid r = o) ->
    (forall r, NoDup (key <$> f r)) ->
    NoDup (key <$> (from r in ct_classes c; where cond r; f r)).
  Proof.
    intros Ho Hf. apply keys_bind; [apply Hi| |].
    - intros n _. by apply keys_where.
    - intros n m z w Hn Hm Hz Hw _. apply where_elem in Hz as [Hz _], Hw as [Hw _].
      apply (pr_class_oid c Hp); [done..|]. by rewrite (Ho n), (Ho m).
  Qed.

  Lemma owners_nodup : NoDup (owners c).
  Proof.
    unfold owners. rewrite <-(list_fmap_id (_ ≫= _)). apply keys_bind; [apply Hi| |].
    - intros d _. apply keys_bind; [apply Hp| |].
      + intros a _. apply keys_where, keys_one.
      + intros a b z w _ _ Hz Hw Hk. unrow Hz. unrow Hz. unrow Hw. unrow Hw. cbn in Hk. congruence.
    - intros d e z w _ _ Hz Hw Hk. unrow Hz. unrow Hz. unrow Hz. unrow Hw. unrow Hw. unrow Hw. cbn in Hk. congruence.
  Qed.

  Lemma sequence_keys : NoDup (key2 <$> sequence_rows p c schemas).
  Proof.
    apply ordered_keys, keys_bind; [apply Hi| |].
    - intros q Hq. apply keys_bind; [apply Hi| |].
      + intros r Hr. destruct (decide (se_rel q = cl_oid r)) as [Hqr|]; [|rewrite bool_decide_false by done; constructor].
        apply keys_where, keys_bind; [apply Hi| |].
        * intros n Hn. destruct (decide (ns_oid n = cl_namespace r)) as [Hrn|]; [|rewrite bool_decide_false by done; constructor].
          destruct (decide (ns_name n ∈ schemas)) as [Hs|Hs].
          -- apply keys_where, keys_join; [apply owners_nodup| |].
             ++ intros [d a] [d' a'] Ha Hb H1 H2. cbn in H1, H2. bools H1. bools H2.
                apply owners_in in Ha as (Hd & Ha & Ha1 & Ha2), Hb as (Hd' & Hb & Hb1 & Hb2).
                assert (is_sequence c schemas q r n) as Hseq by (split; [done|]; split; [|done]; split; [done|]; split; done).
                by destruct (cb_owner c schemas Hc q r n a a' d d') as [-> ->].
             ++ intros own _. apply keys_where, keys_one.
          -- apply keys_where.
             rewrite bool_decide_false by done.
             assert (forall l : list (option (depend * attribute)), (from own in l; []) = ([] : list row)) as ->; [|constructor].
             induction l as [|x l IH]; [done|]. by rewrite bind_cons, IH.
        * intros n m z w Hn Hm Hz Hw _. unrow Hz. unrow Hw. apply (pr_namespace_oid c Hp); [done..|congruence].
      + intros r r' z w Hr Hr' Hz Hw _. unrow Hz. unrow Hw. apply (pr_class_oid c Hp); [done..|congruence].
    - intros q q' z w Hq Hq' Hz Hw Hk.
      apply elem_of_list_bind in Hz as (r & Hz & Hr). unrow Hz.
      apply elem_of_list_bind in Hz as (n & Hz & Hn). unrow Hz.
      apply elem_of_list_bind in Hz as (own & Hz & _). unrow Hz. unrow Hz.
      apply elem_of_list_bind in Hw as (r' & Hw & Hr'). unrow Hw.
      apply elem_of_list_bind in Hw as (n' & Hw & Hn'). unrow Hw.
      apply elem_of_list_bind in Hw as (own' & Hw & _). unrow Hw. unrow Hw. subst.
      unfold key2 in Hk. cbn in Hk. injection Hk as Hk1 Hk2.
      destruct (same r n r' n') as [-> _]; [split; [done|split; [split|]; done]..|done|done|].
      apply (iq_sequence_oid c Hi); [done..|congruence].
  Qed.

  Lemma column_keys : NoDup (key_column <$> column_rows p c schemas).
  Proof.
    apply ordered_keys, keys_bind; [apply Hp| |].
    - intros a Ha. apply keys_join; [apply Hi| |].
      + intros x y Hx Hy H1 H2. bools H1. bools H2. destruct H1, H2.
        apply (iq_attrdef c Hi); [done..|congruence|congruence].
      + intros ad _. apply (class_keys _ _ (at_rel a)).
        * intros r H. bools H. done.
        * intros r. apply (namespace_keys _ _ (cl_namespace r)).
          -- intros n H. bools H. done.
          -- intros n. apply keys_bind.
             ++ apply NoDup_filtered; [apply Hi| |].
                ** intros x y Hy. apply elem_of_list_bind in Hy as (n' & Hy & _). unrow Hy. unrow Hy. done.
                ** intros x. rewrite <-(list_fmap_id (_ ≫= _)). apply keys_bind; [apply Hi| |].
                   --- intros n' _. apply keys_where, keys_one.
                   --- intros n1 n2 z w H1 H2 Hz Hw _. unrow Hz. unrow Hw.
                       apply (pr_namespace_oid c Hp); [done..|congruence].
             ++ intros t _. apply keys_where, keys_where, keys_one.
             ++ intros t t' z w Ht Ht' Hz Hw _. unrow Hz. unrow Hw. apply (placed_types_in c Hp) in Ht, Ht'.
                apply (pr_type_oid c Hp); [done..|congruence].
    - intros a a' z w Ha Ha' Hz Hw Hk.
      apply elem_of_list_bind in Hz as (ad & Hz & _). apply elem_of_list_bind in Hz as (r & Hz & Hr). unrow Hz.
      apply elem_of_list_bind in Hz as (n & Hz & Hn). unrow Hz. apply elem_of_list_bind in Hz as (t & Hz & _).
      unrow Hz. unrow Hz. unrow Hz.
      apply elem_of_list_bind in Hw as (ad' & Hw & _). apply elem_of_list_bind in Hw as (r' & Hw & Hr'). unrow Hw.
      apply elem_of_list_bind in Hw as (n' & Hw & Hn'). unrow Hw. apply elem_of_list_bind in Hw as (t' & Hw & _).
      unrow Hw. unrow Hw. unrow Hw. subst. unfold key_column in Hk. cbn in Hk. injection Hk as Hk1 Hk2 Hk3.
      destruct (same r n r' n') as [-> _]; [split; [done|split; [split|]; tauto]..|done|done|].
      apply (pr_attribute_name c Hp); [done..|congruence|done].
  Qed.

  Lemma key_keys q ty : NoDup (key_key <$> key_rows p c schemas q ty).
  Proof.
    apply ordered_keys, keys_bind; [apply Hi| |].
    - intros n Hn. apply keys_bind; [apply Hi| |].
      + intros m Hm. apply keys_bind; [apply Hi| |].
        * intros k Hk. apply (class_keys _ _ (cn_rel k)).
          -- intros r H. bools H. destruct H as (((((((_ & _) & H) & _) & _) & _) & _) & _). done.
          -- intros r. apply keys_one.
        * intros k k' z w Hk Hk' Hz Hw He.
          apply elem_of_list_bind in Hz as (r & Hz & Hr). unrow Hz. unrow Hz.
          apply elem_of_list_bind in Hw as (r' & Hw & Hr'). unrow Hw. unrow Hw. subst.
          unfold key_key in He. cbn in He. injection He as He1 He2.
          assert (r = r') as <-. { apply (iq_class_name c Hi); [done..| |done]. destruct Hb, Hb0. intuition congruence. }
          apply (iq_constraint_name c Hi k k' r); tauto.
      + intros m m' z w Hm Hm' Hz Hw _.
        apply elem_of_list_bind in Hz as (k & Hz & Hk). apply elem_of_list_bind in Hz as (r & Hz & Hr). unrow Hz.
        apply elem_of_list_bind in Hw as (k' & Hw & Hk'). apply elem_of_list_bind in Hw as (r' & Hw & Hr'). unrow Hw.
        destruct Hb as (((((((H1 & H2) & H3) & _) & _) & _) & _) & _).
        destruct Hb0 as (((((((H1' & H2') & H3') & _) & _) & _) & _) & _).
        apply (pr_namespace_oid c Hp); [done..|].
        rewrite H2, H2', <-(pr_constraint_schema c Hp k r), <-(pr_constraint_schema c Hp k' r') by done. congruence.
    - intros n n' z w Hn Hn' Hz Hw He.
      apply elem_of_list_bind in Hz as (m & Hz & _). apply elem_of_list_bind in Hz as (k & Hz & Hk).
      apply elem_of_list_bind in Hz as (r & Hz & Hr). unrow Hz. unrow Hz.
      apply elem_of_list_bind in Hw as (m' & Hw & _). apply elem_of_list_bind in Hw as (k' & Hw & Hk').
      apply elem_of_list_bind in Hw as (r' & Hw & Hr'). unrow Hw. unrow Hw. subst.
      unfold key_key in He. cbn in He. injection He as He1 _ _. by apply (iq_namespace_name c Hi).
  Qed.

  Lemma check_keys : NoDup (key_check <$> check_rows p c schemas).
  Proof.
    apply ordered_keys, keys_bind; [apply Hi| |].
    - intros k Hk. apply keys_join; [apply Hi| |].
      + intros n m Hn Hm H1 H2. bools H1. bools H2. apply (pr_namespace_oid c Hp); [done..|congruence].
      + intros n _. apply keys_join; [apply Hi| |].
        * intros r s Hr Hs H1 H2. bools H1. bools H2. apply (pr_class_oid c Hp); [done..|congruence].
        * intros r _. apply keys_where, keys_one.
    - intros k k' z w Hk Hk' Hz Hw He.
      assert (z ∈ check_rows p c schemas) as Hz'.
      { unfold check_rows. apply ordered, elem_of_list_bind. by exists k. }
      apply elem_of_list_bind in Hz as (n & Hz & Hn). apply elem_of_list_bind in Hz as (r & Hz & Hr). unrow Hz. unrow Hz.
      apply elem_of_list_bind in Hw as (n' & Hw & Hn'). apply elem_of_list_bind in Hw as (r' & Hw & Hr'). unrow Hw. unrow Hw.
      destruct Hb as (((Hu & _) & _) & Hs). destruct Hb0 as (((Hu' & _) & _) & Hs').
      destruct r as [r|], r' as [r'|], n as [n|], n' as [n'|]; try done. cbn in Hu, Hu', Hs, Hs'. bools Hs. bools Hs'.
      apply left_join_elem in Hn as [(? & [= <-] & Hn & H1)|[? _]]; [|done]. bools H1.
      apply left_join_elem in Hn' as [(? & [= <-] & Hn' & H1')|[? _]]; [|done]. bools H1'.
      apply left_join_elem in Hr as [(? & [= <-] & Hr & H2)|[? _]]; [|done]. bools H2.
      apply left_join_elem in Hr' as [(? & [= <-] & Hr' & H2')|[? _]]; [|done]. bools H2'.
      subst z w. unfold key_check in He. cbn in He. injection He as He1 He2 He3.
      destruct (same r n r' n') as [-> _]; [split; [done|]; split; [by split|]..|done|done|].
      + rewrite H1. symmetry. by apply (pr_constraint_schema c Hp).
      + rewrite H1'. symmetry. by apply (pr_constraint_schema c Hp).
      + apply (iq_constraint_name c Hi k k' r'); done.
  Qed.

  Lemma function_keys : NoDup (key2 <$> function_rows p c schemas).
  Proof.
    apply ordered_keys, keys_bind; [apply Hi| |].
    - intros f _. apply (namespace_keys _ _ (pr_namespace f)).
      + intros n H. bools H. done.
      + intros n. apply keys_bind; [apply Hi| |].
        * intros l _. apply keys_where, keys_where, keys_one.
        * intros l m z w Hl Hm Hz Hw _. unrow Hz. unrow Hw. apply (iq_language_oid c Hi); [done..|congruence].
    - intros f g z w Hf Hg Hz Hw Hk.
      apply elem_of_list_bind in Hz as (n & Hz & Hn). unrow Hz.
      apply elem_of_list_bind in Hz as (l & Hz & Hl). unrow Hz. unrow Hz. unrow Hz.
      apply elem_of_list_bind in Hw as (n' & Hw & Hn'). unrow Hw.
      apply elem_of_list_bind in Hw as (l' & Hw & Hl'). unrow Hw. unrow Hw. unrow Hw. subst.
      unfold key2 in Hk. cbn in Hk. injection Hk as Hk1 Hk2.
      assert (n = n') as <- by by apply (iq_namespace_name c Hi).
      by apply (cb_function c schemas Hc f g n l l').
  Qed.

  Lemma index_keys_nodup : NoDup (key2 <$> index_rows p c schemas).
  Proof.
    apply ordered_keys, keys_bind; [apply Hi| |].
    - intros i _. apply (class_keys _ _ (in_oid i)); [intros x H; bools H; done|]. intros x.
      apply (namespace_keys _ _ (cl_namespace x)); [intros n H; bools H; done|]. intros n.
      apply (class_keys _ _ (in_rel i)); [intros t H; bools H; done|]. intros t.
      apply keys_bind; [apply Hi| |].
      + intros m _. apply keys_where. unfold left_join. destruct (filter _ _) as [|k l].
        * rewrite bind_cons. cbn [mbind list_bind]. rewrite app_nil_r. apply keys_where, keys_one.
        * assert (forall l : list pgconstraint, (from k in Some <$> l;
            where match k with None => true | Some _ => false end && is (ns_name n ∈ schemas);
            [[Text (ns_name n); Text (cl_name x); Text (cl_name t); Bool (in_unique i);
              Text (am_name m); Int (in_natts i);
              nullable Texts (column_names p c (L "index") (in_oid i) (in_rel i) (in_key i));
              nullable Ints (array_agg (in_option i)); nullable Text (in_expr i)]]) = []) as ->; [|constructor].
          clear l. induction l as [|k' l IH]; [done|]. by rewrite fmap_cons, bind_cons, IH.
      + intros m m' z w Hm Hm' Hz Hw _. unrow Hz. unrow Hw. apply (iq_am_oid c Hi); [done..|congruence].
    - intros i i' z w Hx Hx' Hz Hw Hk.
      apply elem_of_list_bind in Hz as (x & Hz & Hix). unrow Hz.
      apply elem_of_list_bind in Hz as (n & Hz & Hn). unrow Hz. apply elem_of_list_bind in Hz as (t & Hz & _). unrow Hz.
      apply elem_of_list_bind in Hz as (m & Hz & _). unrow Hz. apply elem_of_list_bind in Hz as (k & Hz & _). unrow Hz. unrow Hz.
      apply elem_of_list_bind in Hw as (x' & Hw & Hix'). unrow Hw.
      apply elem_of_list_bind in Hw as (n' & Hw & Hn'). unrow Hw. apply elem_of_list_bind in Hw as (t' & Hw & _). unrow Hw.
      apply elem_of_list_bind in Hw as (m' & Hw & _). unrow Hw. apply elem_of_list_bind in Hw as (k' & Hw & _). unrow Hw. unrow Hw.
      subst z w. unfold key2 in Hk. cbn in Hk. injection Hk as Hk1 Hk2.
      destruct (same x n x' n') as [-> _]; [split; [done|split; [split|]; tauto]..|done|done|].
      apply (iq_index_oid c Hi); [done..|congruence].
  Qed.
  
  Lemma foreign_key_keys : NoDup (key_foreign <$> foreign_key_rows p c schemas).
  Proof.
    apply ordered_keys, keys_bind; [apply Hi| |].
    - intros n Hn. apply keys_bind; [apply Hi| |].
      + intros k Hk. destruct (decide (ns_oid n = cn_namespace k)) as [Hnk|]; [|rewrite bool_decide_false by done; constructor].
        apply keys_where, keys_bind; [apply Hi| |].
        * intros r Hr.
          destruct (decide (cn_rel k = cl_oid r /\ cn_type k = KForeign)) as [[Hkr Hkt]|Hno].
          2: { destruct (_ && _) eqn:E; [|constructor]. bools E. tauto. }
          apply keys_where.
          destruct (decide (cl_usage r || cl_write r = true /\ ns_name n ∈ schemas)) as [[Hu Hs]|Hno].
          -- assert (is_foreign_key c schemas k r n) as Hfk.
             { split; [|split; [done|unfold may_change; by apply orb_true_iff]]. split; [done|]. split; [|done].
               split; [done|]. split; [done|]. rewrite <-(pr_constraint_schema c Hp k r) by done. done. }
             destruct (cb_reference c schemas Hc k r n Hfk) as (_ & _ & Hu1 & Hu2).
             apply keys_join; [apply Hi| |].
             { intros d e Hd He H1 H2. bools H1. bools H2. apply Hu1; unfold needs_index; tauto. }
             intros d1 H1. apply keys_join; [apply Hi| |].
             { intros d e Hd He Ho1 Ho2. destruct d1 as [d1|]; cbn in Ho1, Ho2; bools Ho1; bools Ho2; [|intuition discriminate].
               apply left_join_elem in H1 as [(d' & [= <-] & Hd1 & H1)|[? _]]; [|done]. bools H1.
               apply (Hu2 d1); [unfold needs_index|unfold index_belongs..]; tauto. }
             intros d2 H2. apply keys_join; [apply Hi| |].
             { intros f f' Hf Hf' Ho1 Ho2. bools Ho1. bools Ho2. apply (pr_class_oid c Hp); [done..|congruence]. }
             intros r2 H3. apply keys_join; [apply Hi| |].
             { intros g g' Hg Hg' Ho1 Ho2. destruct d2 as [d2|]; cbn in Ho1, Ho2; bools Ho1; bools Ho2; [|intuition discriminate].
               destruct Ho1 as ((Ho1 & _) & _), Ho2 as ((Ho2 & _) & _).
               apply (iq_constraint_oid c Hi); [done..|congruence]. }
             intros g H4. apply keys_join; [apply Hi| |].
             { intros m m' Hm Hm' Ho1 Ho2. destruct g as [g|]; cbn in Ho1, Ho2; [|done]. bools Ho1; bools Ho2.
               apply (pr_namespace_oid c Hp); [done..|congruence]. }
             intros n2 _. apply keys_where, keys_one.
          -- assert (forall l : list row, l = [] -> NoDup (key_foreign <$> l)) as Hnil by (intros l ->; constructor).
             apply Hnil. clear Hnil.
             assert (forall A (l : list A) (f : A -> list row), (forall x, f x = []) -> (l ≫= f) = []) as Hb.
             { intros A l f Hf. induction l as [|x l IH]; [done|]. by rewrite bind_cons, Hf, IH. }
             do 5 (apply Hb; intros ?). destruct (_ && _) eqn:E; [|done]. exfalso. apply Hno.
             apply andb_true_iff in E as [? E]. apply bool_decide_eq_true in E. done.
        * intros r r' z w Hr Hr' Hz Hw _. unrow Hz. unrow Hw. apply (pr_class_oid c Hp); [done..|].
          destruct Hb, Hb0. congruence.
      + intros k k' z w Hk Hk' Hz Hw He. unrow Hz. unrow Hw.
        apply elem_of_list_bind in Hz as (r & Hz & Hr). unrow Hz. do 5 (apply elem_of_list_bind in Hz as (? & Hz & _)).
        unrow Hz. unrow Hz.
        apply elem_of_list_bind in Hw as (r' & Hw & Hr'). unrow Hw. do 5 (apply elem_of_list_bind in Hw as (? & Hw & _)).
        unrow Hw. unrow Hw. subst z w. unfold key_foreign in He. cbn in He. injection He as He1 He2.
        destruct Hb1 as [Hkr _], Hb3 as [Hkr' _].
        assert (r = r') as <-.
        { apply (iq_class_name c Hi); [done..| |done].
          rewrite <-(pr_constraint_schema c Hp k r), <-(pr_constraint_schema c Hp k' r') by done. congruence. }
        by apply (iq_constraint_name c Hi k k' r).
    - intros n n' z w Hn Hn' Hz Hw He.
      apply elem_of_list_bind in Hz as (k & Hz & _). unrow Hz. apply elem_of_list_bind in Hz as (r & Hz & _). unrow Hz.
      do 5 (apply elem_of_list_bind in Hz as (? & Hz & _)). unrow Hz. unrow Hz.
      apply elem_of_list_bind in Hw as (k' & Hw & _). unrow Hw. apply elem_of_list_bind in Hw as (r' & Hw & _). unrow Hw.
      do 5 (apply elem_of_list_bind in Hw as (? & Hw & _)). unrow Hw. unrow Hw.
      subst z w. unfold key_foreign in He. cbn in He. injection He as He1 _ _. by apply (iq_namespace_name c Hi).
  Qed.

  (** ** Objects *)
  Section objects.
    Variable b : objects.
    Hypothesis (Hb : decoded b (query_results p c schemas)).
    Let Hf := dc_fetched _ _ Hb.

    Lemma schemas_nodup : NoDup (ob_schemas b).
    Proof.
      pose proof (fe_schemas _ _ Hf) as H. apply fetched_rows in H.
      assert (sc_name <$> (schema_new <$> ob_schemas b) = ob_schemas b) as E.
      { rewrite <-list_fmap_compose. apply list_fmap_id. }
      rewrite <-E. erewrite (decode_keys _ sc_name key1); [apply schema_keys| |exact H].
      intros r a Ha. key_of Ha. unfold key1. cbn. congruence.
    Qed.
    Lemma sequences_nodup : NoDup ((fun s => (sq_schema s, sq_name s)) <$> ob_sequences b).
    Proof.
      pose proof (fe_sequences _ _ Hf) as H. apply fetched_rows in H.
      erewrite (decode_keys _ _ key2); [apply sequence_keys| |exact H].
      intros r a Ha. key_of Ha. unfold key2. cbn. congruence.
    Qed.
    Lemma tables_nodup : NoDup (ob_tables b).
    Proof.
      pose proof (fe_tables _ _ Hf) as H. apply fetched_rows in H.
      assert ((fun t => (tb_schema t, tb_name t)) <$> ((fun t => table_new t.1 t.2) <$> ob_tables b) = ob_tables b) as E.
      { rewrite <-list_fmap_compose. rewrite <-(list_fmap_id (ob_tables b)) at 2. apply list_fmap_ext. by intros ? []. }
      rewrite <-E. erewrite (decode_keys _ _ key2); [apply table_keys| |exact H].
      intros r a Ha. key_of Ha. unfold key2. cbn. congruence.
    Qed.
    Lemma columns_nodup : NoDup ((fun x => (column_place x, col_name x)) <$> ob_columns b).
    Proof.
      pose proof (fe_columns _ _ Hf) as H. apply fetched_rows in H.
      erewrite (decode_keys _ _ key_column); [apply column_keys| |exact H].
      intros r a Ha. key_of Ha. unfold key_column, column_place. cbn. congruence.
    Qed.
    Definition constraint_key (x : constraint) := (constraint_place x, constraint_name x).
    Lemma primary_keys_nodup : NoDup (constraint_key <$> (CPrimaryKey <$> ob_primary_keys b)).
    Proof.
      pose proof (fe_primary_keys _ _ Hf) as H. apply fetched_rows in H.
      erewrite (decode_keys _ _ key_key); [apply key_keys| |exact H].
      intros r a Ha. key_of Ha. unfold key_key, constraint_key, constraint_place. cbn. congruence.
    Qed.
    Lemma uniques_nodup : NoDup (constraint_key <$> (CUnique <$> ob_uniques b)).
    Proof.
      pose proof (fe_uniques _ _ Hf) as H. apply fetched_rows in H.
      erewrite (decode_keys _ _ key_key); [apply key_keys| |exact H].
      intros r a Ha. key_of Ha. unfold key_key, constraint_key, constraint_place. cbn. congruence.
    Qed.
    Lemma foreign_keys_nodup : NoDup (constraint_key <$> (CForeignKey <$> ob_foreign_keys b)).
    Proof.
      pose proof (fe_foreign_keys _ _ Hf) as H. apply fetched_rows in H.
      erewrite (decode_keys _ _ key_foreign); [apply foreign_key_keys| |exact H].
      intros r a Ha. key_of Ha. unfold key_foreign, constraint_key, constraint_place. cbn. congruence.
    Qed.
    Lemma checks_nodup : NoDup (constraint_key <$> (CCheck <$> ob_checks b)).
    Proof.
      pose proof (fe_checks _ _ Hf) as H. apply fetched_rows in H.
      erewrite (decode_keys _ _ key_check); [apply check_keys| |exact H].
      intros r a Ha. key_of Ha. unfold key_check, constraint_key, constraint_place. cbn. congruence.
    Qed.
    Lemma functions_nodup : NoDup (function_name <$> ob_functions b).
    Proof.
      pose proof (fe_functions _ _ Hf) as H. apply fetched_rows in H.
      erewrite (decode_keys _ _ key2); [apply function_keys| |exact H].
      intros r a Ha. key_of Ha. unfold key2, function_name. cbn. congruence.
    Qed.
    Lemma indexes_nodup : NoDup ((fun i => (ix_schema i, ix_name i)) <$> ob_indexes b).
    Proof.
      destruct (dc_indexes _ _ Hb) as (l & H & HF). apply fetched_rows in H.
      assert ((fun i => (ix_schema i, ix_name i)) <$> ob_indexes b =
        (fun x : index * option (list str) * option str => (ix_schema x.1.1, ix_name x.1.1)) <$> l) as ->.
      { clear H. induction HF as [|i x is l Hk _ IH]; [done|]. rewrite !fmap_cons, IH. f_equal.
        destruct x as [[j ks] [e|]]; cbn in Hk; [by injection Hk as <-|]. destruct ks; [|done]. by injection Hk as <-. }
      erewrite (decode_keys _ _ key2); [apply index_keys_nodup| |exact H].
      intros r a Ha. key_of Ha. unfold key2. cbn. congruence.
    Qed.

    (** The constraint in the catalogue that a constraint shows. *)
    Definition shows_constraint (x : constraint) (ty : contype) : Prop :=
      exists k r n, is_constraint c schemas k r n /\ cn_type k = ty /\ constraint_of k r n x.
    Lemma shows_primary x : x ∈ ob_primary_keys b -> shows_constraint (CPrimaryKey x) KPrimary.
    Proof. intros (k & r & n & (H1 & H2 & _) & H3 & _)%(shown_primary_keys p c schemas b Hp Hb). by exists k, r, n. Qed.
    Lemma shows_unique x : x ∈ ob_uniques b -> shows_constraint (CUnique x) KUnique.
    Proof. intros (k & r & n & (H1 & H2 & _) & H3 & _)%(shown_uniques p c schemas b Hp Hb). by exists k, r, n. Qed.
    Lemma shows_foreign x : x ∈ ob_foreign_keys b -> shows_constraint (CForeignKey x) KForeign.
    Proof. intros (k & r & n & g & r2 & n2 & (H1 & H2 & _) & H3 & _)%(shown_foreign_keys p c schemas b Hp Hb). by exists k, r, n. Qed.
    Lemma shows_check x : x ∈ ob_checks b -> shows_constraint (CCheck x) KCheck.
    Proof. intros (k & r & n & (H1 & H2 & _) & H3 & _)%(shown_checks p c schemas b Hp Hb). by exists k, r, n. Qed.

    Lemma same_constraint x y ty ty' :
      shows_constraint x ty -> shows_constraint y ty' -> constraint_key x = constraint_key y -> ty = ty'.
    Proof.
      intros (k & r & n & (Hk & Hr & Hkr) & <- & (H1 & H2 & H3)) (k' & r' & n' & (Hk' & Hr' & Hkr') & <- & (H1' & H2' & H3')) [= E1 E2 E3].
      destruct (same r n r' n') as [<- _]; [done..|congruence|congruence|].
      assert (k = k') as ->; [|done]. apply (iq_constraint_name c Hi k k' r); [done|done|apply Hr|done|done|congruence].
    Qed.

    Lemma constraints_nodup : NoDup (constraint_key <$> ob_constraints b).
    Proof.
      unfold ob_constraints. rewrite !fmap_app. rewrite !NoDup_app.
      split; [apply primary_keys_nodup|]. split; [|split; [apply foreign_keys_nodup|split; [|split; [apply uniques_nodup|split; [|apply checks_nodup]]]]].
      all: intros K (x & -> & (y & -> & Hy)%elem_of_list_fmap)%elem_of_list_fmap; rewrite ?elem_of_app;
        intros Hin; repeat match type of Hin with _ \/ _ => destruct Hin as [Hin|Hin] end;
        apply elem_of_list_fmap in Hin as (x' & E & (y' & -> & Hy')%elem_of_list_fmap).
      - by pose proof (same_constraint _ _ _ _ (shows_primary y Hy) (shows_foreign y' Hy') E).
      - by pose proof (same_constraint _ _ _ _ (shows_primary y Hy) (shows_unique y' Hy') E).
      - by pose proof (same_constraint _ _ _ _ (shows_primary y Hy) (shows_check y' Hy') E).
      - by pose proof (same_constraint _ _ _ _ (shows_foreign y Hy) (shows_unique y' Hy') E).
      - by pose proof (same_constraint _ _ _ _ (shows_foreign y Hy) (shows_check y' Hy') E).
      - by pose proof (same_constraint _ _ _ _ (shows_unique y Hy) (shows_check y' Hy') E).
    Qed.

    Definition shows_class (s k : str) (f : relkind -> Prop) : Prop :=
      exists r n, placed c schemas r n /\ ns_name n = s /\ cl_name r = k /\ f (cl_kind r).
    Lemma class_sequence x : x ∈ ob_sequences b -> shows_class (sq_schema x) (sq_name x) (eq KSequence).
    Proof.
      intros (q & r & n & (H1 & H2 & H3) & H4)%(shown_sequences p c schemas b Hb).
      destruct (sf_names _ _ _ _ _ H4) as [E1 E2]. exists r, n. split; [done|]. split; [done|]. split; [done|].
      symmetry. apply (iq_sequence_kind c Hi q r); [done|apply H2|done].
    Qed.
    Lemma class_index x : x ∈ ob_indexes b -> shows_class (ix_schema x) (ix_name x) (eq KIndex).
    Proof.
      intros (i & r & n & t & m & (H1 & H2 & H3 & _) & H4)%(shown_indexes p c schemas b Hp Hb).
      destruct (if_names _ _ _ _ _ _ _ H4) as (E1 & E2 & _). exists r, n. split; [done|]. split; [done|]. split; [done|].
      symmetry. apply (iq_index_kind c Hi i r); [done|apply H2|done].
    Qed.
    Lemma class_table s k : (s, k) ∈ ob_tables b -> shows_class s k (fun y => y = KTable \/ y = KPartitioned).
    Proof. intros (r & n & (H1 & H2 & _) & _ & H3 & H4)%(shown_tables p c schemas b Hb). by exists r, n. Qed.
    Lemma same_kind s k f g : shows_class s k f -> shows_class s k g -> exists y, f y /\ g y.
    Proof.
      intros (r & n & H1 & H2 & H3 & H4) (r' & n' & H1' & H2' & H3' & H4').
      destruct (same r n r' n') as [<- _]; [done..|congruence|congruence|]. eauto.
    Qed.
    Lemma class_schema s k f : shows_class s k f -> s ∈ ob_schemas b.
    Proof.
      intros (r & n & (_ & H1 & _) & H2 & _). apply (shown_schemas p c schemas b Hb). by exists n.
    Qed.

    Lemma relations_nodup : NoDup (relation_names b).
    Proof.
      unfold relation_names. rewrite !NoDup_app. split; [apply sequences_nodup|].
      split; [|split; [apply tables_nodup|split; [|apply indexes_nodup]]].
      - intros K (x & -> & Hx)%elem_of_list_fmap. apply class_sequence in Hx.
        rewrite elem_of_app. intros [Hy|(y & E & Hy)%elem_of_list_fmap].
        + apply class_table in Hy. destruct (same_kind _ _ _ _ Hx Hy) as (? & <- & [?|?]); done.
        + apply class_index in Hy. injection E as E1 E2. rewrite E1, E2 in Hx.
          destruct (same_kind _ _ _ _ Hx Hy) as (? & <- & ?); done.
      - intros [s k] Hx%class_table (y & E & Hy)%elem_of_list_fmap. apply class_index in Hy. injection E as -> ->.
        destruct (same_kind _ _ _ _ Hx Hy) as (? & [->| ->] & ?); done.
    Qed.

    Lemma all_coherent : coherent b.
    Proof.
      split; [apply schemas_nodup|apply relations_nodup|apply columns_nodup|apply constraints_nodup|apply functions_nodup|..].
      - intros x Hx. unfold relation_names in Hx. rewrite !elem_of_app in Hx.
        destruct Hx as [(y & -> & Hy)%elem_of_list_fmap|[Hy|(y & -> & Hy)%elem_of_list_fmap]].
        + eapply class_schema, class_sequence, Hy.
        + destruct x as [s k]. eapply class_schema, class_table, Hy.
        + eapply class_schema, class_index, Hy.
      - intros f Hx. apply (shown_functions p c schemas b Hb) in Hx as (g & n & l & (_ & Hn & _) & Hg).
        apply (shown_schemas p c schemas b Hb). destruct (ff_names _ _ _ _ _ Hg) as [E _]. by exists n.
      - intros x Hx. apply (shown_columns p c schemas b Hp Hb) in Hx as (a & ad & r & n & t & Ha & Had & Hx).
        apply column_decoded in Hx; [|done]. destruct (cf_names _ _ _ _ _ _ _ Hx) as (E1 & E2 & _).
        unfold column_place. apply (shown_tables p c schemas b Hb). exists r, n.
        destruct (ic_table _ _ _ _ _ _ Ha) as (H1 & H2 & H3). split; [split; [done|split; [by left|done]]|].
        split; [by apply (cb_visible c schemas Hc a r n t)|]. done.
      - intros x Hx. apply constraints_in in Hx. unfold constraint_place. apply (shown_tables p c schemas b Hb).
        destruct x as [y|y|y|y].
        + apply (shown_primary_keys p c schemas b Hp Hb) in Hx as (k & r & n & ((_ & H1 & _) & _ & H2 & H3 & H4) & (E1 & E2 & _) & _).
          exists r, n. split; [done|]. split; [destruct H4; unfold may_use; tauto|]. done.
        + apply (shown_foreign_keys p c schemas b Hp Hb) in Hx as (k & r & n & g & r2 & n2 & ((Hk & H1 & Hkr) & Hty & H4) & (E1 & E2 & _) & _).
          exists r, n. split; [|split; [destruct H4; unfold may_use; tauto|done]].
          split; [done|]. split; [apply (iq_foreign_table c Hi k r); try done; apply H1|].
          by apply (cb_reference c schemas Hc k r n).
        + apply (shown_uniques p c schemas b Hp Hb) in Hx as (k & r & n & ((_ & H1 & _) & _ & H2 & H3 & H4) & (E1 & E2 & _) & _).
          exists r, n. split; [done|]. split; [destruct H4; unfold may_use; tauto|]. done.
        + apply (shown_checks p c schemas b Hp Hb) in Hx as (k & r & n & Hk & (E1 & E2 & _) & _).
          pose proof Hk as ((_ & H1 & _) & _ & _ & H4).
          exists r, n. split; [|split; [unfold may_use; tauto|done]].
          split; [done|]. by apply (cb_check c schemas Hc k r n).
    Qed.
  End objects.
End coherent.

(** ** Conversely *)
Lemma keys_bind_in {A B K} (key : B -> K) (f : A -> list B) l x :
  NoDup (key <$> (l ≫= f)) -> x ∈ l -> NoDup (key <$> f x).
Proof.
  intros H Hx. apply elem_of_list_split in Hx as (l1 & l2 & ->). rewrite bind_app, bind_cons, !fmap_app in H.
  by apply NoDup_app in H as (_ & _ & (? & _)%NoDup_app).
Qed.
Lemma keys_bind_sep {A B K} (key : B -> K) (f : A -> list B) l x y z w :
  NoDup (key <$> (l ≫= f)) -> x ∈ l -> y ∈ l -> z ∈ f x -> w ∈ f y -> key z = key w -> x = y.
Proof.
  induction l as [|a l IH]; intros H Hx Hy Hz Hw Hk; [by apply elem_of_nil in Hx|].
  rewrite bind_cons, fmap_app in H. apply NoDup_app in H as (_ & Hdis & H).
  apply elem_of_cons in Hx as [->|Hx], Hy as [->|Hy]; [done| | |by apply IH].
  - exfalso. apply (Hdis (key z)); [by apply elem_of_list_fmap_1|]. rewrite Hk. apply elem_of_list_fmap_1.
    apply elem_of_list_bind. eauto.
  - exfalso. apply (Hdis (key w)); [by apply elem_of_list_fmap_1|]. rewrite <-Hk. apply elem_of_list_fmap_1.
    apply elem_of_list_bind. eauto.
Qed.
Lemma keys_where_in {A K} (key : A -> K) (b : bool) (l : list A) :
  NoDup (key <$> if b then l else []) -> b = true -> NoDup (key <$> l).
Proof. by intros H ->. Qed.

Section converse.
  Context (p : planner) (c : catalogue) (schemas : list str) (d : database).
  Hypothesis (Hp : proper c) (Hi : indexed c).
  Hypothesis (Hd : introspect_catalogue p c schemas = Ret d).

  Let same := same_class c schemas Hi.
  Let Hs := introspect_shows p c schemas d Hp Hd.

  Lemma unordered_keys {K} (key : row -> K) q l : NoDup (key <$> row_order p q l) -> NoDup (key <$> l).
  Proof. by rewrite (row_order_perm p q l). Qed.

  Lemma constraint_table_shown k r n x :
    placed c schemas r n -> constraint_at d (ns_name n) (cl_name r) k = Some x ->
    (cl_kind r = KTable \/ cl_kind r = KPartitioned) /\ ns_other_temp n = false.
  Proof.
    intros Hr Hx. assert (table_at d (ns_name n) (cl_name r)) as Ht.
    { unfold constraint_at in Hx. destruct (relation_at d _ _) as [[t|?|?|?]|] eqn:E; try done. by exists t. }
    apply (sh_table _ _ _ _ Hs) in Ht as (r' & n' & (H1 & H2 & H3) & _ & H4 & H5).
    by destruct (same r' n' r n) as [-> ->].
  Qed.

  Lemma function_once f g n l m :
    is_function c schemas f n l -> is_function c schemas g n m -> pr_name f = pr_name g -> f = g.
  Proof.
    intros (Hf & [Hn Hsn] & Hfn & Hl & Hfl) (Hg & _ & Hgn & Hm & Hgm) Hname.
    destruct (introspect_decoded _ _ Hd) as (b & Hb & C & _). pose proof (co_functions _ C) as HN.
    pose proof (fe_functions _ _ (dc_fetched _ _ Hb)) as H. apply fetched_rows in H.
    erewrite (decode_keys _ _ key2) in HN; [| |exact H].
    2: { intros r a Ha. key_of Ha. unfold key2, function_name. cbn. congruence. }
    apply unordered_keys in HN.
    apply (keys_bind_sep _ _ _ f g (function_text c f n l) (function_text c g n m) HN); [done..| | |].
    - inrow n. onrow. inrow l. onrow. onrow. inlast.
    - inrow n. onrow. inrow m. onrow. onrow. inlast.
    - unfold key2. cbn. by rewrite Hname.
  Qed.

  Lemma owner_once q r n a a' x x' :
    is_sequence c schemas q r n ->
    a ∈ ct_attributes c -> x ∈ ct_depends c -> de_obj x = se_rel q -> de_refobj x = at_rel a -> de_refsub x = at_num a ->
    a' ∈ ct_attributes c -> x' ∈ ct_depends c -> de_obj x' = se_rel q -> de_refobj x' = at_rel a' ->
    de_refsub x' = at_num a' -> x = x' /\ a = a'.
  Proof.
    intros (Hq & (Hr & [Hn Hsn] & Hrn) & Hqr) Ha Hx H1 H2 H3 Ha' Hx' H1' H2' H3'.
    destruct (introspect_decoded _ _ Hd) as (b & Hb & C & _).
    pose proof (co_relations _ C) as HN. unfold relation_names in HN. apply NoDup_app in HN as (HN & _ & _).
    pose proof (fe_sequences _ _ (dc_fetched _ _ Hb)) as H. apply fetched_rows in H.
    erewrite (decode_keys _ _ key2) in HN; [| |exact H].
    2: { intros r' y Hy. key_of Hy. unfold key2. cbn. congruence. }
    apply unordered_keys in HN. apply (keys_bind_in _ _ _ q) in HN; [|done].
    apply (keys_bind_in _ _ _ r) in HN; [|done]. apply keys_where_in in HN; [|by apply bool_decide_eq_true].
    apply (keys_bind_in _ _ _ n) in HN; [|done]. apply keys_where_in in HN; [|by apply bool_decide_eq_true].
    assert (Some (x, a) = Some (x', a')) as E; [|by injection E as -> ->].
    apply (keys_bind_sep _ _ _ _ _ (sequence_text c q r n (Some (x, a))) (sequence_text c q r n (Some (x', a'))) HN).
    - apply left_join_elem. left. exists (x, a). split; [done|]. split; [by apply owners_in|]. cbn. by apply bool_decide_eq_true.
    - apply left_join_elem. left. exists (x', a'). split; [done|]. split; [by apply owners_in|]. cbn. by apply bool_decide_eq_true.
    - onrow. inlast.
    - onrow. inlast.
    - done.
  Qed.

  Lemma reference_once k r n :
    is_foreign_key c schemas k r n ->
    (forall x y, needs_index c k x -> needs_index c k y -> x = y) /\
    (forall x y z, needs_index c k x -> index_belongs c x y -> index_belongs c x z -> y = z).
  Proof.
    intros ((Hk & (Hr & [Hn Hsn] & Hrn) & Hkr) & Hkt & Hm).
    destruct (introspect_decoded _ _ Hd) as (b & Hb & C & _).
    pose proof (co_constraints _ C) as HN. unfold ob_constraints in HN. rewrite !fmap_app in HN.
    apply NoDup_app in HN as (_ & _ & (HN & _ & _)%NoDup_app).
    pose proof (fe_foreign_keys _ _ (dc_fetched _ _ Hb)) as H. apply fetched_rows in H.
    erewrite (decode_keys _ _ key_foreign) in HN; [| |exact H].
    2: { intros r' y Hy. key_of Hy. unfold key_foreign, constraint_place. cbn. congruence. }
    apply unordered_keys in HN. apply (keys_bind_in _ _ _ n) in HN; [|done].
    apply (keys_bind_in _ _ _ k) in HN; [|done].
    apply keys_where_in in HN; [|apply bool_decide_eq_true; by rewrite (pr_constraint_schema c Hp k r)].
    apply (keys_bind_in _ _ _ r) in HN; [|done]. apply keys_where_in in HN; [|boolgoal; done].
    assert (cl_usage r || cl_write r = true) as Hu by (apply orb_true_iff; destruct Hm; tauto).
    assert (forall x, needs_index c k x -> Some x ∈ left_join (ct_depends c) (fun d =>
         is (de_obj d = cn_oid k) && is (de_class d = PgConstraint) &&
         is (de_refclass d = PgClass) && is (de_refsub d = 0%Z))) as Hd1.
    { intros x (H1 & H2 & H3 & H4 & H5). apply left_join_elem. left. exists x. boolgoal. done. }
    (* a row for each choice of the first two joins *)
    assert (forall d2, exists r2 g n2,
      r2 ∈ left_join (ct_classes c) (fun f => is (cn_frel k = cl_oid f)) /\
      g ∈ left_join (ct_constraints c) (fun g =>
        holds d2 (fun d2 => is (cn_oid g = de_refobj d2)) &&
        (is (cn_type g = KPrimary) || is (cn_type g = KUnique)) && is (cn_rel g = cn_frel k)) /\
      n2 ∈ left_join (ct_namespaces c) (fun n => holds g (fun k => is (cn_namespace k = ns_oid n)))) as Hrest.
    { intros d2.
      destruct (left_join_some (ct_classes c) (fun f => is (cn_frel k = cl_oid f))) as [r2 H3].
      destruct (left_join_some (ct_constraints c) (fun g =>
        holds d2 (fun d2 => is (cn_oid g = de_refobj d2)) &&
        (is (cn_type g = KPrimary) || is (cn_type g = KUnique)) && is (cn_rel g = cn_frel k))) as [g H4].
      destruct (left_join_some (ct_namespaces c) (fun n => holds g (fun k => is (cn_namespace k = ns_oid n)))) as [n2 H5].
      by exists r2, g, n2. }
    split.
    - intros x y Hx Hy.
      assert (Some x = Some y) as E; [|by injection E].
      destruct (left_join_some (ct_depends c) (fun d =>
         is (de_refclass d = PgConstraint) && is (de_class d = PgClass) &&
         holds (Some x) (fun d1 => is (de_obj d = de_refobj d1)) && is (de_sub d = 0%Z) && de_internal d)) as [e He].
      destruct (left_join_some (ct_depends c) (fun d =>
         is (de_refclass d = PgConstraint) && is (de_class d = PgClass) &&
         holds (Some y) (fun d1 => is (de_obj d = de_refobj d1)) && is (de_sub d = 0%Z) && de_internal d)) as [e' He'].
      destruct (Hrest e) as (r2 & g & n2 & H3 & H4 & H5).
      destruct (Hrest e') as (r2' & g' & n2' & H3' & H4' & H5').
      apply (keys_bind_sep _ _ _ _ _ (foreign_key_text p c k r n g r2 n2) (foreign_key_text p c k r n g' r2' n2') HN).
      + by apply Hd1.
      + by apply Hd1.
      + inrow e. inrow r2. inrow g. inrow n2. onrow. inlast.
      + inrow e'. inrow r2'. inrow g'. inrow n2'. onrow. inlast.
      + done.
    - intros x y z Hx Hy Hz.
      apply (keys_bind_in _ _ _ (Some x)) in HN; [|by apply Hd1].
      assert (Some y = Some z) as E; [|by injection E].
      destruct (Hrest (Some y)) as (r2 & g & n2 & H3 & H4 & H5).
      destruct (Hrest (Some z)) as (r2' & g' & n2' & H3' & H4' & H5').
      apply (keys_bind_sep _ _ _ _ _ (foreign_key_text p c k r n g r2 n2) (foreign_key_text p c k r n g' r2' n2') HN).
      + destruct Hy as (? & ? & ? & ? & ? & ?). apply left_join_elem. left. exists y. cbn. boolgoal. done.
      + destruct Hz as (? & ? & ? & ? & ? & ?). apply left_join_elem. left. exists z. cbn. boolgoal. done.
      + inrow r2. inrow g. inrow n2. onrow. inlast.
      + inrow r2'. inrow g'. inrow n2'. onrow. inlast.
      + done.
  Qed.

  Lemma introspect_clonable : clonable c schemas.
  Proof.
    split.
    - exact function_once.
    - intros a r n t Ha. destruct (sh_column_in _ _ _ _ Hs a r n t Ha) as (x & _ & Hx).
      destruct (ic_table _ _ _ _ _ _ Ha) as (Hr & _ & _).
      assert (table_at d (ns_name n) (cl_name r)) as Ht.
      { unfold column_at in Hx. destruct (relation_at d _ _) as [[tb|?|?|?]|] eqn:E; try done. by exists tb. }
      apply (sh_table _ _ _ _ Hs) in Ht as (r' & n' & (H1 & H2 & H3) & Hu & H4 & H5).
      by destruct (same r' n' r n) as [-> ->].
    - intros a r n t z Ha Hz. destruct (sh_column_in _ _ _ _ Hs a r n t Ha) as (x & [_ Hty _ _] & _).
      inversion Hty as [? ? ? ? Hm|? ? ? ? ? ? ? Hm]; subst; inversion Hm; subst; try congruence; eauto.
    - intros k r n Hk. destruct (sh_check_in _ _ _ _ Hs k r n Hk) as (x & _ & Hx).
      eapply constraint_table_shown, Hx. apply Hk.
    - intros k r n Hk. destruct (sh_foreign_key_in _ _ _ _ Hs k r n Hk) as (g & r2 & n2 & x & (_ & Hg & _) & Hx).
      split; [eapply constraint_table_shown, Hx; apply Hk|]. split; [by exists g|]. by eapply reference_once.
    - exact owner_once.
  Qed.
End converse.

Lemma introspect_succeeds p c schemas :
  proper c -> indexed c -> clonable c schemas ->
  exists d, introspect_catalogue p c schemas = Ret d /\ shows (typmod_out p) c schemas d.
Proof.
  intros Hp Hi Hc. destruct (all_decoded p c schemas Hp Hi Hc) as [b Hb].
  pose proof (all_coherent p c schemas Hp Hi Hc b Hb) as C.
  destruct (introspect_built b _ (dc_fetched _ _ Hb)) as [(_ & HR & _)|(? & _)]; [|done].
  eexists. split; [exact HR|]. by eapply introspect_shows.
Qed.

Lemma introspect_succeeds_iff p c schemas :
  proper c -> indexed c -> (exists d, introspect_catalogue p c schemas = Ret d) <-> clonable c schemas.
Proof.
  intros Hp Hi. split.
  - intros [d Hd]. by eapply introspect_clonable.
  - intros Hc. destruct (introspect_succeeds p c schemas Hp Hi Hc) as (d & Hd & _). by exists d.
Qed.

(** A view leaves no trace. *)
Lemma introspect_view_lost p c schemas d r n :
  proper c -> indexed c -> introspect_catalogue p c schemas = Ret d ->
  placed c schemas r n -> cl_kind r = KView -> relation_at d (ns_name n) (cl_name r) = None.
Proof.
  intros Hp Hi Hd Hr Hk. pose proof (introspect_shows p c schemas d Hp Hd) as Hs.
  destruct (relation_at d (ns_name n) (cl_name r)) as [[t|v|i|q]|] eqn:E; [exfalso..|done].
  - assert (table_at d (ns_name n) (cl_name r)) as Ht by by exists t.
    apply (sh_table _ _ _ _ Hs) in Ht as (r' & n' & (H1 & H2 & H3) & _ & H4 & H5).
    destruct (same_class c schemas Hi r' n' r n) as [-> _]; [done..|]. destruct H2; congruence.
  - by apply (introspect_no_view _ _ _ _ _ Hd) in E.
  - apply (sh_index_of _ _ _ _ Hs) in E as (j & x & n' & t & m & (H1 & H2 & H3 & _) & _ & H4 & H5).
    destruct (same_class c schemas Hi x n' r n) as [-> _]; [done..|].
    pose proof (iq_index_kind c Hi j r H1 ltac:(apply Hr) H3). congruence.
  - apply (sh_sequence_of _ _ _ _ Hs) in E as (j & x & n' & (H1 & H2 & H3) & _ & H4 & H5).
    destruct (same_class c schemas Hi x n' r n) as [-> _]; [done..|].
    pose proof (iq_sequence_kind c Hi j r H1 ltac:(apply Hr) H3). congruence.
Qed.
