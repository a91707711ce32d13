(** Lemmas about the version table and about running the migration commands. *)
From Verif Require Import Base Text Types Changes Sql History SpecHistory HistoryLemmas HistoryLoad HistoryProofs Dbh SpecDb.
From stdpp Require Import sorting.

(** ** Statements *)
Lemma runs_nil_inv {S} (sem : str -> S -> option S) u u' : runs sem [] u u' -> u' = u.
Proof. by inversion 1. Qed.
Lemma runs_cons_inv {S} (sem : str -> S -> option S) stmt stmts u u' :
  runs sem (stmt :: stmts) u u' -> exists u1, sem stmt u = Some u1 /\ runs sem stmts u1 u'.
Proof. inversion 1; subst; eauto. Qed.
Lemma runs_app {S} (sem : str -> S -> option S) l1 l2 u u1 u2 :
  runs sem l1 u u1 -> runs sem l2 u1 u2 -> runs sem (l1 ++ l2) u u2.
Proof. intros H. revert u2. induction H as [|stmt l u u' u'' E H IH]; intros u2 H2; [done|]. econstructor; [done|]. by apply IH. Qed.
Lemma runs_app_inv {S} (sem : str -> S -> option S) l1 l2 u u2 :
  runs sem (l1 ++ l2) u u2 -> exists u1, runs sem l1 u u1 /\ runs sem l2 u1 u2.
Proof.
  revert u. induction l1 as [|stmt l1 IH]; intros u H; [exists u; split; [constructor|done]|].
  apply runs_cons_inv in H as (u' & E & (u1 & H1 & H2)%IH). exists u1. split; [by econstructor|done].
Qed.
Lemma runs_unique {S} (sem : str -> S -> option S) l u u1 u2 : runs sem l u u1 -> runs sem l u u2 -> u1 = u2.
Proof.
  intros H. revert u2. induction H as [|stmt l u u' u'' E H IH]; intros u2 H2; [by apply runs_nil_inv in H2|].
  apply runs_cons_inv in H2 as (x & E' & H2). rewrite E in E'. injection E' as <-. by apply IH.
Qed.

(** ** Sorting *)
Global Instance order_desc_trans : Transitive order_desc.
Proof. intros a b c. unfold order_desc. lia. Qed.
Global Instance order_desc_total : Total order_desc.
Proof. intros a b. unfold order_desc. lia. Qed.
Lemma newest_first_sorted l : StronglySorted order_desc (newest_first l).
Proof. apply StronglySorted_merge_sort; apply _. Qed.
Lemma newest_first_perm l : newest_first l ≡ₚ l.
Proof. apply merge_sort_Permutation. Qed.
Lemma order_inj rows r r' : NoDup (r_order <$> rows) -> r ∈ rows -> r' ∈ rows -> r_order r = r_order r' -> r = r'.
Proof.
  induction rows as [|x rows IH]; [by intros _ ?%elem_of_nil|]. rewrite fmap_cons, NoDup_cons.
  intros [Hx Hn] [->|Hr]%elem_of_cons [->|Hr']%elem_of_cons E; [done| | |by apply IH].
  - destruct Hx. rewrite E. by apply elem_of_list_fmap_1.
  - destruct Hx. rewrite <- E. by apply elem_of_list_fmap_1.
Qed.
Lemma name_inj rows r r' : NoDup (v_name ∘ r_version <$> rows) -> r ∈ rows -> r' ∈ rows -> row_name r = row_name r' -> r = r'.
Proof.
  unfold row_name. induction rows as [|x rows IH]; [by intros _ ?%elem_of_nil|]. rewrite fmap_cons, NoDup_cons.
  intros [Hx Hn] [->|Hr]%elem_of_cons [->|Hr']%elem_of_cons E; [done| | |by apply IH].
  - destruct Hx. simpl. rewrite E. apply elem_of_list_fmap. by exists r'.
  - destruct Hx. simpl. rewrite <- E. apply elem_of_list_fmap. by exists r.
Qed.
Lemma sorted_unique l l' :
  l ≡ₚ l' -> NoDup (r_order <$> l) -> StronglySorted order_desc l -> StronglySorted order_desc l' -> l = l'.
Proof.
  revert l'. induction l as [|a l IH]; intros l' Hp Hn Hs Hs'; [symmetry; by apply Permutation_nil|].
  destruct l' as [|b l']; [by apply Permutation_sym, Permutation_nil in Hp|].
  assert (a = b) as ->.
  { apply (order_inj (a :: l)); [done|by left|rewrite Hp; by left|].
    apply StronglySorted_inv in Hs as [_ Ha], Hs' as [_ Hb]. rewrite Forall_forall in Ha, Hb.
    assert (b ∈ a :: l) as [->|K]%elem_of_cons by (rewrite Hp; by left); [done|].
    assert (a ∈ b :: l') as [->|K']%elem_of_cons by (rewrite <- Hp; by left); [done|].
    specialize (Ha _ K). specialize (Hb _ K'). unfold order_desc in *. lia. }
  f_equal. apply IH.
  - by apply (Permutation_cons_inv (a := b)).
  - by apply NoDup_cons in Hn as [_ ?].
  - by apply StronglySorted_inv in Hs as [? _].
  - by apply StronglySorted_inv in Hs' as [? _].
Qed.
Lemma newest_first_newest rows r rest : newest_first rows = r :: rest -> newest rows r.
Proof.
  intros E. pose proof (newest_first_sorted rows) as Hs. pose proof (newest_first_perm rows) as Hp. rewrite E in Hs, Hp.
  apply StronglySorted_inv in Hs as [_ Hs]. rewrite Forall_forall in Hs. split; [rewrite <- Hp; by left|].
  intros r'. rewrite <- Hp. intros [->|K]%elem_of_cons; [lia|]. by apply Hs.
Qed.
Lemma newest_head rows r : NoDup (r_order <$> rows) -> newest rows r -> exists rest, newest_first rows = r :: rest.
Proof.
  intros Hn [Hr Hmax]. destruct (newest_first rows) as [|x rest] eqn:E.
  - pose proof (newest_first_perm rows) as Hp. rewrite E in Hp. apply Permutation_nil in Hp as ->. by apply elem_of_nil in Hr.
  - exists rest. f_equal. apply newest_first_newest in E as [Hx Hm]. apply (order_inj rows); [done..|].
    specialize (Hmax _ Hx). specialize (Hm _ Hr). lia.
Qed.
Lemma newest_unique rows r r' : NoDup (r_order <$> rows) -> newest rows r -> newest rows r' -> r = r'.
Proof. intros Hn [H1 H2] [H1' H2']. apply (order_inj rows); [done..|]. specialize (H2 _ H1'). specialize (H2' _ H1). lia. Qed.

(** ** Strictly increasing tables *)
Notation increasing rows := (StronglySorted Z.lt (r_order <$> rows)).
Lemma increasing_nodup rows : increasing rows -> NoDup (r_order <$> rows).
Proof.
  induction rows as [|r rows IH]; [constructor|]. rewrite fmap_cons. intros [H1 H2]%StronglySorted_inv.
  constructor; [|by apply IH]. rewrite Forall_forall in H2. intros K. specialize (H2 _ K). lia.
Qed.
Lemma increasing_app rows rows' :
  increasing (rows ++ rows') <->
  increasing rows /\ increasing rows' /\ forall r r', r ∈ rows -> r' ∈ rows' -> (r_order r < r_order r')%Z.
Proof.
  induction rows as [|r rows IH].
  - simpl. split; [intros H; split; [constructor|split; [done|by intros ?? ?%elem_of_nil]]|tauto].
  - change ((r :: rows) ++ rows') with (r :: rows ++ rows'). rewrite !fmap_cons. split.
    + intros [H1 H2]%StronglySorted_inv. rewrite Forall_forall in H2. apply IH in H1 as (K1 & K2 & K3).
      split; [constructor; [done|]; apply Forall_forall; intros x Hx; apply H2; rewrite fmap_app; apply elem_of_app; by left|].
      split; [done|]. intros a b [->|Ha]%elem_of_cons Hb; [|by apply K3].
      apply H2. rewrite fmap_app. apply elem_of_app. right. by apply elem_of_list_fmap_1.
    + intros ([H1 H2]%StronglySorted_inv & H3 & H4). constructor.
      * apply IH. split; [done|]. split; [done|]. intros a b Ha Hb. apply H4; [by right|done].
      * rewrite fmap_app. apply Forall_app. split; [done|]. apply Forall_forall. intros x (r' & -> & Hr')%elem_of_list_fmap.
        apply H4; [by left|done].
Qed.
Lemma desc_app l1 l2 :
  StronglySorted order_desc l1 -> StronglySorted order_desc l2 ->
  (forall x y, x ∈ l1 -> y ∈ l2 -> order_desc x y) -> StronglySorted order_desc (l1 ++ l2).
Proof.
  intros H1 H2 H3. induction H1 as [|a l H IH Ha]; [done|]. simpl. constructor.
  - apply IH. intros x y Hx Hy. apply H3; [by right|done].
  - apply Forall_app. split; [done|]. apply Forall_forall. intros y Hy. apply H3; [by left|done].
Qed.
Lemma increasing_reverse rows : increasing rows -> StronglySorted order_desc (reverse rows).
Proof.
  induction rows as [|r rows IH]; [constructor|]. rewrite fmap_cons, reverse_cons. intros [H1 H2]%StronglySorted_inv.
  apply desc_app; [by apply IH|repeat constructor|].
  intros x y Hx ->%elem_of_list_singleton. rewrite elem_of_reverse in Hx. rewrite Forall_forall in H2. unfold order_desc.
  assert (r_order r < r_order x)%Z; [|lia]. apply H2. by apply elem_of_list_fmap_1.
Qed.
Lemma newest_first_increasing rows : increasing rows -> newest_first rows = reverse rows.
Proof.
  intros H. apply sorted_unique.
  - by rewrite newest_first_perm, reverse_Permutation.
  - rewrite newest_first_perm. by apply increasing_nodup.
  - apply newest_first_sorted.
  - by apply increasing_reverse.
Qed.
Lemma newest_last rows r : increasing (rows ++ [r]) -> newest (rows ++ [r]) r.
Proof.
  intros (_ & _ & H)%increasing_app. split; [apply elem_of_app; right; by left|].
  intros r' [Hr|Hr%elem_of_list_singleton]%elem_of_app; [|by subst].
  assert (r_order r' < r_order r)%Z; [|lia]. apply H; [done|by left].
Qed.
Lemma newest_is_last rows r : increasing rows -> newest rows r -> last rows = Some r.
Proof.
  intros H Hn. destruct rows as [|x rows _] using rev_ind; [by destruct Hn as [?%elem_of_nil _]|].
  rewrite last_snoc. f_equal. apply (newest_unique (rows ++ [x])); [by apply increasing_nodup|by apply newest_last|done].
Qed.

(** ** Rows *)
Lemma numbered_versions o vs : r_version <$> numbered o vs = vs.
Proof. revert o. induction vs as [|v vs IH]; intros o; [done|]. simpl. f_equal. apply IH. Qed.
Lemma numbered_app o vs ws : numbered o (vs ++ ws) = numbered o vs ++ numbered (o + Z.of_nat (length vs)) ws.
Proof.
  revert o. induction vs as [|v vs IH]; intros o; simpl; [by rewrite Z.add_0_r|]. f_equal. rewrite IH. do 2 f_equal. lia.
Qed.
Lemma numbered_order o vs r : r ∈ numbered o vs -> (o <= r_order r < o + Z.of_nat (length vs))%Z.
Proof.
  revert o. induction vs as [|v vs IH]; intros o; simpl; [by intros ?%elem_of_nil|].
  intros [->|H]%elem_of_cons; [simpl; lia|]. apply IH in H. lia.
Qed.
Lemma numbered_increasing o vs : increasing (numbered o vs).
Proof.
  revert o. induction vs as [|v vs IH]; intros o; [constructor|]. simpl. constructor; [apply IH|].
  apply Forall_forall. intros x (r & -> & Hr)%elem_of_list_fmap. apply numbered_order in Hr. lia.
Qed.
Lemma varchar_iff s : varchar s = true <-> length s <= 128 /\ 0%N ∉ s.
Proof. unfold varchar. rewrite andb_true_iff, !bool_decide_eq_true. done. Qed.
Lemma texts_iff l : texts l = true <-> Forall (fun s : str => 0%N ∉ s) l.
Proof.
  unfold texts. induction l as [|s l IH]; simpl; [split; [constructor|done]|].
  rewrite andb_true_iff, bool_decide_eq_true, IH, Forall_cons. done.
Qed.
Lemma fits_iff v :
  varchar (v_name v) && from_option varchar true (v_previous v) && texts (v_up v) && texts (v_down v) = true <-> fits v.
Proof.
  rewrite !andb_true_iff, !texts_iff, varchar_iff. unfold fits. destruct (v_previous v) as [p|]; simpl.
  - rewrite varchar_iff. split.
    + intros [[[[H1 H2] [H3 H4]] H5] H6]. split; [done|]. split; [done|]. split; [by intros ? [= <-]|done].
    + intros (H1 & H2 & H3 & H4 & H5). specialize (H3 _ eq_refl). tauto.
  - split; [|tauto]. intros [[[[H1 H2] _] H5] H6]. do 2 (split; [done|]). by split.
Qed.
Lemma insert_row_iff v t t' :
  insert_row v t = (Ret (), t') <->
  fits v /\ (t_next t <= max_order)%Z /\ v_name v ∉ row_name <$> t_rows t /\ t_next t ∉ r_order <$> t_rows t /\
  (forall p, v_previous v = Some p -> p = v_name v \/ p ∈ row_name <$> t_rows t) /\
  t' = VTable (t_rows t ++ [Row v (t_next t)]) (t_next t + 1).
Proof.
  unfold insert_row. rewrite <- fits_iff.
  destruct (_ && _) eqn:Ef; [|split; [done|intros [? _]; done]]. cbn [negb].
  destruct (decide (max_order < t_next t)%Z); [split; [done|intros (_ & ? & _); lia]|].
  destruct (decide (v_name v ∈ _)); [split; [done|by intros (_ & _ & ? & _)]|].
  destruct (decide (t_next t ∈ _)); [split; [done|by intros (_ & _ & _ & ? & _)]|].
  destruct (v_previous v) as [p|].
  - destruct (decide (p = v_name v \/ _)) as [Hd|Hd].
    + split.
      * intros [= <-]. split; [done|]. split; [lia|]. do 2 (split; [done|]). split; [by intros ? [= <-]|done].
      * by intros (_ & _ & _ & _ & _ & ->).
    + split; [done|]. intros (_ & _ & _ & _ & H & _). destruct Hd. by apply H.
  - split; [|by intros (_ & _ & _ & _ & _ & ->)].
    intros [= <-]. split; [done|]. split; [lia|]. do 2 (split; [done|]). by split.
Qed.
Lemma insert_row_cases v t : insert_row v t = (Ret (), (insert_row v t).2) \/ (insert_row v t).1 = Raise DbError.
Proof.
  unfold insert_row. destruct (negb _); [by right|]. repeat case_decide; try (by right).
  destruct (v_previous v); [case_decide|]; [by left|by right|by left].
Qed.
Lemma insert_row_failed v t : (insert_row v t).1 <> Ret () -> t_rows (insert_row v t).2 = t_rows t.
Proof.
  unfold insert_row. destruct (negb _); [done|]. repeat case_decide; try done.
  destruct (v_previous v); [case_decide|]; done.
Qed.
