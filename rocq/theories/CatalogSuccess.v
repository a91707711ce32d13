(** Introspection succeeds on the databases that can be cloned. *)
From Verif Require Import Base Types Changes SpecSnapshot ColumnLemmas Diff Sql History Catalog Introspect
  SpecIntrospect SpecCatalog IntrospectLemmas IntrospectProofs CatalogLemmas CatalogProofs CatalogShows.

(** ** Lists without duplicate keys *)
Lemma keys_bind {A B K} (key : B -> K) (f : A -> list B) (l : list A) :
  NoDup l -> (forall x, x ∈ l -> NoDup (key <$> f x)) ->
  (forall x y z w, x ∈ l -> y ∈ l -> z ∈ f x -> w ∈ f y -> key z = key w -> x = y) ->
  NoDup (key <$> (l ≫= f)).
Proof.
  induction l as [|x l IH]; intros Hn Hf Hx; [constructor|]. apply NoDup_cons in Hn as [Hni Hn].
  rewrite bind_cons, fmap_app. apply NoDup_app. split; [apply Hf; left|]. split.
  - intros k (z & -> & Hz)%elem_of_list_fmap (w & Hk & Hw)%elem_of_list_fmap.
    apply elem_of_list_bind in Hw as (y & Hw & Hy).
    assert (x = y); [|by subst]. eapply Hx; [left|by right|done..].
  - apply IH; [done| |].
    + intros. apply Hf. by right.
    + intros x' y' z w ??. apply Hx; by right.
Qed.
Lemma keys_where {A K} (key : A -> K) (b : bool) (l : list A) :
  NoDup (key <$> l) -> NoDup (key <$> if b then l else []).
Proof. destruct b; [done|]. intros _. constructor. Qed.
Lemma keys_one {A K} (key : A -> K) z : NoDup (key <$> [z]).
Proof. apply NoDup_singleton. Qed.
Lemma join_one {A} (l : list A) on :
  NoDup l -> (forall a b, a ∈ l -> b ∈ l -> on a = true -> on b = true -> a = b) ->
  exists x, left_join l on = [x].
Proof.
  intros Hn Hu. unfold left_join. destruct (filter _ l) as [|x l'] eqn:E; [by eexists|].
  assert (l' = []) as ->; [|by eexists]. destruct l' as [|y l']; [done|]. exfalso.
  assert (NoDup (x :: y :: l')) as Hn' by (rewrite <-E; by apply NoDup_filter).
  assert (x ∈ filter (fun a => on a = true) l) as Hx by (rewrite E; left).
  assert (y ∈ filter (fun a => on a = true) l) as Hy by (rewrite E; right; left).
  apply elem_of_list_filter in Hx as [??], Hy as [??].
  apply NoDup_cons in Hn' as [Hni _]. apply Hni. rewrite (Hu x y) by done. left.
Qed.
Lemma keys_join {A B K} (key : B -> K) (l : list A) on (f : option A -> list B) :
  NoDup l -> (forall a b, a ∈ l -> b ∈ l -> on a = true -> on b = true -> a = b) ->
  (forall x, x ∈ left_join l on -> NoDup (key <$> f x)) -> NoDup (key <$> (left_join l on ≫= f)).
Proof.
  intros Hn Hu Hf. destruct (join_one l on Hn Hu) as [x Hx]. rewrite Hx in *. rewrite bind_cons. cbn [mbind list_bind].
  rewrite app_nil_r. apply Hf. left.
Qed.

Definition text_at (r : row) (i : nat) : str := match r !! i with Some (Text s) => s | _ => [] end.

Lemma decode_keys {A K} (f : row -> exec A) (key : A -> K) (rkey : row -> K) rows l :
  (forall r a, f r = Ret a -> key a = rkey r) -> decode_rows f rows = Ret l -> key <$> l = rkey <$> rows.
Proof.
  intros Hk. revert l. induction rows as [|r rows IH]; intros l H; cbn in H.
  - by injection H as <-.
  - destruct (f r) as [a| | | |] eqn:E; try done. cbn in H.
    destruct (decode_rows f rows) as [l'| | | |]; try done. injection H as <-.
    rewrite !fmap_cons, (Hk _ _ E). f_equal. by apply IH.
Qed.
Lemma get_text_at r i s : get_text r i = Ret s -> text_at r i = s.
Proof. unfold get_text, text_at. destruct (r !! i) as [[]|]; try done. by intros [= ->]. Qed.

Lemma NoDup_filtered {A} (f : A -> list A) l :
  NoDup l -> (forall x y, y ∈ f x -> y = x) -> (forall x, NoDup (f x)) -> NoDup (l ≫= f).
Proof.
  intros Hn Hf Hd. rewrite <-(list_fmap_id (l ≫= f)). apply keys_bind; [done| |].
  - intros x _. by rewrite list_fmap_id.
  - intros x y z w _ _ Hz Hw Hk. apply Hf in Hz, Hw. cbn in Hk. congruence.
Qed.

Section success.
  Context (p : planner) (c : catalogue) (schemas : list str).
  Hypothesis (Hp : proper c) (Hi : indexed c) (Hc : clonable c schemas).

  Lemma ordered_keys {K} (key : row -> K) q l : NoDup (key <$> l) -> NoDup (key <$> row_order p q l).
  Proof. by rewrite (row_order_perm p q l). Qed.

  Lemma same_class r n r' n' :
    placed c schemas r n -> placed c schemas r' n' -> ns_name n = ns_name n' -> cl_name r = cl_name r' ->
    r = r' /\ n = n'.
  Proof.
    intros (Hr & [Hn _] & Hrn) (Hr' & [Hn' _] & Hrn') H1 H2.
    assert (n = n') as <- by by apply (iq_namespace_name c Hi). split; [|done].
    apply (iq_class_name c Hi); [done..|congruence|done].
  Qed.

  Lemma column_names_some q o rel keys :
    keys <> [] ->
    (forall z, z ∈ keys -> exists a, a ∈ ct_attributes c /\ at_rel a = rel /\ at_num a = z) ->
    exists l, column_names p c q o rel keys = Some l.
  Proof.
    intros Hne H. unfold column_names. pose proof (names_forall c Hp rel keys H) as HF.
    eexists. apply array_agg_some. split; [|done]. intros Hnil.
    pose proof (agg_order_perm p q o
      (from k in keys; from a in ct_attributes c; where is (at_rel a = rel) && is (at_num a = k); [at_name a])) as HP.
    rewrite Hnil in HP. apply Permutation_nil in HP. apply Forall2_length in HF. rewrite HP in HF. by destruct keys.
  Qed.

  (** ** Every row can be decoded *)
  Lemma scalar_some {A} (l : list A) (f : A -> bool) (g : A -> str) :
    (exists a, a ∈ l /\ f a = true) -> exists s, scalar (from a in l; where f a; [g a]) = Some s.
  Proof.
    intros (a & Ha & Hf). destruct (scalar _) as [s|] eqn:E; [by eexists|]. apply head_none in E.
    assert (g a ∈ (from a in l; where f a; [g a])) as Hin.
    { inrow a. apply where_elem. split; [done|]. inlast. }
    rewrite E in Hin. by apply elem_of_nil in Hin.
  Qed.

  Lemma schema_ok row : row ∈ schema_rows p c schemas -> exists a, schema_of_row row = Ret a.
  Proof. intros (n & _ & ->)%schema_rows_in. by eexists. Qed.
  Lemma table_ok row : row ∈ table_rows p c schemas -> exists a, table_of_row row = Ret a.
  Proof. intros (r & n & _ & _ & ->)%table_rows_in. by eexists. Qed.
  Lemma sequence_ok row : row ∈ sequence_rows p c schemas -> exists a, sequence_of_row row = Ret a.
  Proof.
    intros (q & r & n & own & (Hq & _) & _ & ->)%sequence_rows_in. unfold sequence_text.
    destruct (scalar_some (ct_types c) (fun t => is (ty_oid t = se_type q)) ty_name) as [ty ->].
    { destruct (iq_sequence_type c Hi q Hq) as (t & Ht & Ho). exists t. split; [done|]. boolgoal. done. }
    set (ot := own ≫= _). set (oc := _ <$> own). destruct ot, oc; by eexists.
  Qed.
  Lemma modifier_some a r n t z :
    is_column c schemas a r n t -> at_typmod a = Some z -> exists s, modifier p (ty_name t) z = Some s.
  Proof.
    intros Ha Hz. destruct (cb_modifier c schemas Hc a r n t z Ha Hz) as (s & Hs & Hn). unfold modifier.
    destruct (list_find_elem_of (fun x => ty_name t = x \/ ty_name t = L "_" ++ x) modified_types s) as [[i x] Hf];
      [done..|]. rewrite Hf. by eexists.
  Qed.
  Lemma column_ok row : row ∈ column_rows p c schemas -> exists a, column_of_row row = Ret a.
  Proof.
    intros (a & ad & r & n & t & Ha & _ & ->)%column_rows_in; [|done]. unfold column_text.
    assert (exists s, data_type p c a t = Some s) as [s ->]; [|by eexists].
    unfold data_type.
    assert (exists m, match at_typmod a with Some m => modifier p (ty_name t) m | None => Some [] end = Some m) as [m ->].
    { destruct (at_typmod a) as [z|] eqn:Ez; [by eapply modifier_some|by eexists]. }
    destruct (decide (ty_elem t <> 0%N)) as [Hne|He]; [|by eexists].
    destruct (scalar_some (ct_types c) (fun e => is (ty_oid e = ty_elem t)) ty_name) as [e ->]; [|by eexists].
    destruct (iq_element_type c Hi t) as (e & He & Ho); [apply Ha|done|]. exists e. split; [done|]. boolgoal. done.
  Qed.
  Lemma key_ok {A} (f : row -> exec A) q ty row :
    ty = KPrimary \/ ty = KUnique ->
    (forall s1 s2 s3 s4 l b1 b2, exists a, f [Text s1; Text s2; Text s3; Text s4; Texts l; Bool b1; Bool b2] = Ret a) ->
    row ∈ key_rows p c schemas q ty -> exists a, f row = Ret a.
  Proof.
    intros Hty Hf (k & r & n & Hk & ->)%key_rows_in; [|done]. unfold key_text.
    destruct Hk as ((Hk & _) & Hkt & _).
    destruct (column_names_some q (cn_oid k) (cn_rel k) (cn_key k)) as [l ->]; [| |apply Hf].
    - apply (iq_key c Hi); [done|]. rewrite Hkt. tauto.
    - intros z Hz. apply (pr_key c Hp); [done| |done]. rewrite Hkt. tauto.
  Qed.
  Lemma primary_key_ok row : row ∈ primary_key_rows p c schemas -> exists a, primary_key_of_row row = Ret a.
  Proof. apply key_ok; [by left|]. intros. by eexists. Qed.
  Lemma unique_ok row : row ∈ unique_rows p c schemas -> exists a, unique_of_row row = Ret a.
  Proof. apply key_ok; [by right|]. intros. by eexists. Qed.
  Lemma check_ok row : row ∈ check_rows p c schemas -> exists a, check_of_row row = Ret a.
  Proof. intros (k & r & n & Hk & ->)%check_rows_in; [|done]. by eexists. Qed.
  Lemma function_ok row : row ∈ function_rows p c schemas -> exists a, function_of_row row = Ret a.
  Proof.
    intros (f & n & l & (Hf & _) & ->)%function_rows_in. unfold function_text, returns_text.
    destruct (scalar_some (ct_types c) (fun t => is (ty_oid t = pr_rettype f)) ty_format) as [ty ->]; [|by eexists].
    destruct (iq_result_type c Hi f Hf) as (t & Ht & Ho). exists t. split; [done|]. boolgoal. done.
  Qed.
  Lemma index_ok row :
    row ∈ index_rows p c schemas -> exists a, index_of_row row = Ret a /\ is_Some (keyed a).
  Proof.
    intros (i & x & n & t & m & (Hix & _) & ->)%index_rows_in. unfold index_text.
    destruct (iq_index_columns c Hi i Hix) as [Hk Ho].
    destruct (in_option i) as [|o os]; [done|]. cbn [array_agg].
    destruct (in_expr i) as [e|] eqn:Ee.
    - destruct (column_names p c _ _ _ _); (eexists; split; [reflexivity|by eexists]).
    - destruct (column_names_some (L "index") (in_oid i) (in_rel i) (in_key i)) as [l ->]; [done| |].
      + intros z Hz. by apply (pr_index_key c Hp).
      + eexists; split; [reflexivity|by eexists].
  Qed.

  (** The joins of a foreign key find the key that it refers to. *)
  Lemma joined_target k r n d1 d2 r2 g n2 :
    is_foreign_key c schemas k r n -> joined c k d1 d2 r2 g n2 ->
    exists d e r' g' n', d1 = Some d /\ d2 = Some e /\ r2 = Some r' /\ g = Some g' /\ n2 = Some n' /\
      needs_index c k d /\ index_belongs c d e /\ cl_oid r' = cn_frel k /\
      g' ∈ ct_constraints c /\ cn_oid g' = de_refobj e /\ (cn_type g' = KPrimary \/ cn_type g' = KUnique) /\ cn_rel g' = cn_frel k.
  Proof.
    intros Hk (H1 & H2 & H3 & H4 & H5).
    destruct (cb_reference c schemas Hc k r n Hk) as (_ & (g0 & Hg0 & Hty0 & Hrel0 & d0 & e0 & Hd0 & He0 & Ho0) & Hu1 & Hu2).
    destruct Hk as ((Hk & _) & Hkt & _).
    apply left_join_elem in H1 as [(d & -> & Hd & H1)|[-> H1]].
    2: { exfalso. destruct Hd0 as (? & ? & ? & ? & ?). apply (H1 d0); [done|]. boolgoal. done. }
    bools H1. assert (needs_index c k d) as Hd' by (unfold needs_index; tauto).
    assert (d = d0) as -> by by apply Hu1.
    apply left_join_elem in H2 as [(e & -> & He & H2)|[-> H2]].
    2: { exfalso. destruct He0 as (? & ? & ? & ? & ? & ?). apply (H2 e0); [done|]. cbn. boolgoal. done. }
    cbn in H2. bools H2. assert (index_belongs c d0 e) as He' by (unfold index_belongs; tauto).
    assert (e = e0) as -> by by eapply Hu2.
    apply left_join_elem in H3 as [(r' & -> & Hr & H3)|[-> H3]].
    2: { exfalso. destruct (iq_foreign_target c Hi k Hk Hkt) as (r' & n' & Hr' & Hf & _).
         apply (H3 r'); [done|]. boolgoal. done. }
    bools H3.
    apply left_join_elem in H4 as [(g' & -> & Hg & H4)|[-> H4]].
    2: { exfalso. apply (H4 g0); [done|]. cbn. boolgoal. done. }
    cbn in H4. bools H4. destruct H4 as ((H4 & Hty) & Hrel).
    apply left_join_elem in H5 as [(n' & -> & Hn & H5)|[-> H5]].
    2: { exfalso. destruct (iq_foreign_target c Hi k Hk Hkt) as (r1 & n' & Hr1 & Hf & Hn' & Hrn).
         apply (H5 n'); [done|]. cbn. boolgoal. rewrite (pr_constraint_schema c Hp g' r1); [done..|congruence]. }
    exists d0, e0, r', g', n'. split_and!; done.
  Qed.

  Lemma target_names_some k g r2 :
    g ∈ ct_constraints c -> cn_type g = KPrimary \/ cn_type g = KUnique -> cl_oid r2 = cn_rel g ->
    exists l, target_names p c k g r2 = Some l.
  Proof.
    intros Hg Hty Hrel. unfold target_names. eexists. apply array_agg_some. split; [|done].
    destruct (cn_key g) as [|z l] eqn:Ez. { exfalso. apply (iq_key c Hi g); [done|tauto|done]. }
    destruct (pr_key c Hp g z Hg) as (a & Ha & Har & Haz); [tauto|rewrite Ez; left|].
    intros Hnil.
    assert (at_name a ∈ agg_order p (L "foreignkey target") (cn_oid k)
      (from a in ct_attributes c;
       where is (cl_oid r2 = at_rel a) && is (cl_oid r2 = cn_rel g) && is (at_num a ∈ z :: l) && negb (at_dropped a);
       [at_name a])) as Hin.
    { apply aggregated. inrow a. onrow; [|inlast].
      assert (at_dropped a = false). { apply (iq_key_live c Hi g); try done. rewrite Ez, Haz. left. }
      assert (at_num a ∈ z :: l) by (rewrite Haz; left).
      assert (cl_oid r2 = at_rel a) by congruence. tauto. }
    rewrite Hnil in Hin. by apply elem_of_nil in Hin.
  Qed.

  Lemma foreign_key_ok row : row ∈ foreign_key_rows p c schemas -> exists a, foreign_key_of_row row = Ret a.
  Proof.
    intros (k & r & n & d1 & d2 & r2 & g & n2 & Hk & Hj & ->)%foreign_key_rows_in; [|done].
    eapply joined_target in Hj as (d & e & r' & g' & n' & -> & -> & -> & -> & -> & _ & _ & Hr & Hg & _ & Hty & Hrel); [|done].
    destruct Hk as ((Hk & _) & Hkt & _). unfold foreign_key_text.
    destruct (column_names_some (L "foreignkey") (cn_oid k) (cn_rel k) (cn_key k)) as [l ->].
    { apply (iq_key c Hi); [done|]. rewrite Hkt. tauto. }
    { intros z Hz. apply (pr_key c Hp); [done| |done]. rewrite Hkt. tauto. }
    cbn [mbind option_bind]. destruct (target_names_some k g' r') as [ts ->]; [done..|congruence|].
    destruct (iq_foreign_codes c Hi k Hk Hkt) as (Hm & Hu & Hd).
    assert (exists m, match_text (cn_match k) = Some m) as [m ->].
    { clear - Hm. rewrite !elem_of_cons, elem_of_nil in Hm. destruct Hm as [->|[->|[->|[]]]]; by eexists. }
    assert (forall x, x ∈ [99; 110; 100; 114; 97]%N -> exists m, rule_text x = Some m) as Hrule.
    { clear. intros x Hx. rewrite !elem_of_cons, elem_of_nil in Hx.
      destruct Hx as [->|[->|[->|[->|[->|[]]]]]]; by eexists. }
    destruct (Hrule _ Hu) as [u ->], (Hrule _ Hd) as [de ->]. by eexists.
  Qed.

  Lemma all_decoded : exists b, decoded b (query_results p c schemas).
  Proof.
    destruct (decode_ok schema_of_row (schema_rows p c schemas) schema_ok) as [x1 H1].
    destruct (decode_ok sequence_of_row (sequence_rows p c schemas) sequence_ok) as [x2 H2].
    destruct (decode_ok table_of_row (table_rows p c schemas) table_ok) as [x3 H3].
    destruct (decode_ok column_of_row (column_rows p c schemas) column_ok) as [x4 H4].
    destruct (decode_ok primary_key_of_row (primary_key_rows p c schemas) primary_key_ok) as [x5 H5].
    destruct (decode_ok foreign_key_of_row (foreign_key_rows p c schemas) foreign_key_ok) as [x6 H6].
    destruct (decode_ok function_of_row (function_rows p c schemas) function_ok) as [x7 H7].
    destruct (decode_ok unique_of_row (unique_rows p c schemas) unique_ok) as [x8 H8].
    destruct (decode_ok check_of_row (check_rows p c schemas) check_ok) as [x9 H9].
    destruct (decode_ok index_of_row (index_rows p c schemas)) as [x10 H10].
    { intros r Hr. destruct (index_ok r Hr) as (a & ? & _). by eexists. }
    assert (exists is, Forall2 (fun i x => keyed x = Some i) is x10) as [is His].
    { assert (Forall (fun x => is_Some (keyed x)) x10) as HF.
      { apply Forall_forall. intros x Hx. rewrite (decode_elem _ _ _ _ H10) in Hx. destruct Hx as (r & Hr & Hd).
        destruct (index_ok r Hr) as (a & Ha & Hk). assert (x = a) as -> by congruence. done. }
      clear -HF. induction HF as [|x l [i Hx] _ [is IH]]; [by exists []|]. exists (i :: is). by constructor. }
    by apply (fetch_all (query_results p c schemas) x1 x2 x3 x4 x5 x6 x7 x8 x9 x10 is).
  Qed.
End success.
