(** Facts about Serde.v. *)
From Verif Require Import Base Types Changes History Serde SpecSerde.

Lemma mapM_fmap {A B C} (f : B -> option C) (g : A -> B) (h : A -> C) (l : list A) :
  (forall x, f (g x) = Some (h x)) -> mapM f (g <$> l) = Some (h <$> l).
Proof.
  intros E. induction l as [|x l IH]; [done|].
  cbn [mapM fmap list_fmap]. rewrite E. cbn. rewrite IH. done.
Qed.

Lemma mapM_back {A B} (f : B -> option A) (g : A -> B) (l : list A) :
  (forall x, f (g x) = Some x) -> mapM f (g <$> l) = Some l.
Proof. intros E. rewrite (mapM_fmap f g id) by done. by rewrite list_fmap_id. Qed.

Lemma strings_back l : strings (of_strings l) = Some l.
Proof. apply mapM_back. done. Qed.

Lemma to_of_column c : to_column (of_column c) = Some c.
Proof. destruct c as [n t nn [d|]]; vm_compute; reflexivity. Qed.

Lemma columns_back l : columns_of (of_columns l) = Some l.
Proof. apply mapM_back. apply to_of_column. Qed.

Lemma to_of_change c : to_change (of_change c) = Some c.
Proof.
  destruct c; repeat match goal with o : option _ |- _ => destruct o end;
    lazy -[strings of_strings columns_of of_columns];
    rewrite ?strings_back, ?columns_back; try reflexivity.
Qed.

Lemma to_of_version v : to_version (of_version v) = Some v.
Proof.
  destruct v as [n p cs u d].
  assert (E : sequence_of to_change (DSeq (of_change <$> cs)) = Some cs).
  { apply mapM_back, to_of_change. }
  unfold of_version. cbn [v_name v_previous v_changes v_up v_down].
  generalize dependent (DSeq (of_change <$> cs)); intros x E.
  destruct p;
    lazy -[strings of_strings sequence_of to_change];
    rewrite E, !strings_back; reflexivity.
Qed.

Lemma file_back py qy v :
  (forall d : data, qy (py d) = Some d) -> version_of_file qy (file_of_version py v) = Some v.
Proof.
  intros E. unfold version_of_file, file_of_version. rewrite E. apply to_of_version.
Qed.

Lemma row_back pj qj v :
  (forall d : data, qj (pj d) = Some d) -> populate_row qj (row_of_version pj v) = Some v.
Proof.
  intros E. destruct v. unfold populate_row, row_of_version. cbn. rewrite E. cbn.
  rewrite (mapM_back _ _ _ to_of_change). done.
Qed.

Definition same_fields (m m'' : list (str * data)) : Prop :=
  exists m', Forall2 (fun e e' => e.1 = e'.1 /\ reordered e.2 e'.2) m m' /\ m' ≡ₚ m''.

Lemma same_fields_refl m : same_fields m m.
Proof.
  exists m. split; [|done]. apply Forall_Forall2_diag, Forall_forall.
  intros; split; [done|constructor].
Qed.

Lemma reordered_map m d : reordered (DMap m) d -> exists m', d = DMap m' /\ same_fields m m'.
Proof.
  inversion 1; subst; eauto using same_fields_refl. eexists; split; [done|]. eexists; eauto.
Qed.

Lemma values_same m m' k :
  same_fields m m' -> exists vs, Forall2 reordered (values m k) vs /\ vs ≡ₚ values m' k.
Proof.
  intros (x & F & P). exists (values x k). split.
  - clear P. unfold values. induction F as [|[k1 d1] [k2 d2] ? ? [E R] F IH]; [constructor|].
    cbn in E, R. subst k2. rewrite !filter_cons. cbn.
    destruct (decide (k1 = k)); cbn; [constructor|]; auto.
  - unfold values. by rewrite P.
Qed.

(** What a field reads is the same in both. *)
Lemma field_same {A : Type} (f : data -> option A) m m' k :
  same_fields m m' -> (forall d d', reordered d d' -> f d = f d') ->
  field m k ≫= f = field m' k ≫= f.
Proof.
  intros Sm Hf. destruct (values_same m m' k Sm) as (vs & F & P). unfold field.
  destruct F as [|a b ? ? R F]; [by apply Permutation_nil in P as ->|].
  destruct F as [|a' b' ? ? R' F].
  - symmetry in P. apply Permutation_singleton_r in P as ->. cbn. by apply Hf.
  - pose proof (Permutation_length P) as Hl.
    destruct (values m' k) as [|? [|]]; [done..|]. done.
Qed.

Lemma optional_same m m' k : same_fields m m' -> optional m k = optional m' k.
Proof.
  intros Sm. destruct (values_same m m' k Sm) as (vs & F & P). unfold optional.
  destruct F as [|a b ? ? R F]; [by apply Permutation_nil in P as ->|].
  destruct F as [|a' b' ? ? R' F].
  - symmetry in P. apply Permutation_singleton_r in P as ->. by inversion R.
  - pose proof (Permutation_length P) as Hl.
    destruct (values m' k) as [|? [|]]; [done..|]. by destruct a, d.
Qed.

Lemma text_same d d' : reordered d d' -> text d = text d'.
Proof. by inversion 1. Qed.
Lemma boolean_same d d' : reordered d d' -> boolean d = boolean d'.
Proof. by inversion 1. Qed.
Lemma integer_same d d' : reordered d d' -> integer d = integer d'.
Proof. by inversion 1. Qed.

Lemma mapM_same {A B} (f : A -> option B) (R : A -> A -> Prop) l l' :
  (forall d d', R d d' -> f d = f d') -> Forall2 R l l' -> mapM f l = mapM f l'.
Proof.
  intros Hf F. induction F as [|x y l l' E F IH]; [done|]. cbn. by rewrite (Hf _ _ E), IH.
Qed.

Lemma sequence_same {A} (f : data -> option A) d d' :
  (forall d d', reordered d d' -> f d = f d') -> reordered d d' ->
  sequence_of f d = sequence_of f d'.
Proof.
  intros Hf R. inversion R; subst; try done. cbn. by eapply mapM_same.
Qed.

Lemma strings_same d d' : reordered d d' -> strings d = strings d'.
Proof. apply sequence_same, text_same. Qed.

Lemma column_same d d' : reordered d d' -> to_column d = to_column d'.
Proof.
  intros R. destruct d as [| | | | |m];
    [inversion R; by subst..|].
  apply reordered_map in R as (m' & -> & R). unfold to_column.
  rewrite !(field_same text m m' _ R text_same),
    (field_same boolean m m' _ R boolean_same), (optional_same m m' _ R). done.
Qed.

Lemma columns_same d d' : reordered d d' -> columns_of d = columns_of d'.
Proof. apply sequence_same, column_same. Qed.

Lemma variants_same m m' :
  same_fields m m' -> Forall (fun e => e.2 m = e.2 m') variants.
Proof.
  intros R.
  assert (E1 := fun k => field_same text m m' k R text_same).
  assert (E2 := fun k => field_same boolean m m' k R boolean_same).
  assert (E3 := fun k => field_same integer m m' k R integer_same).
  assert (E4 := fun k => field_same strings m m' k R strings_same).
  assert (E5 := fun k => field_same columns_of m m' k R columns_same).
  assert (E6 := fun k => optional_same m m' k R).
  unfold variants. repeat (apply Forall_cons; split);
    [cbn [snd]; rewrite ?E1, ?E2, ?E3, ?E4, ?E5, ?E6; reflexivity..|constructor].
Qed.

Lemma change_same d d' : reordered d d' -> to_change d = to_change d'.
Proof.
  intros R. destruct d as [| | | | |m];
    [inversion R; by subst..|].
  apply reordered_map in R as (m' & -> & R). unfold to_change.
  rewrite (field_same text m m' _ R text_same).
  apply option_bind_ext_fun. intros tag.
  apply (field_same _ m m' _ R). intros d d' Rd.
  destruct (variant tag) as [make|] eqn:E; [|done]. cbn.
  destruct d as [| | | | |f]; [inversion Rd; by subst..|].
  apply reordered_map in Rd as (f' & -> & Rd).
  unfold variant in E. apply fmap_Some in E as ([t mk] & E & ->). cbn.
  pose proof (variants_same f f' Rd) as F. rewrite Forall_forall in F.
  apply (F (t, mk)). destruct (filter _ variants) as [|x l] eqn:El; [done|].
  cbn in E. injection E as ->.
  assert (Hin : (t, mk) ∈ filter (fun e => e.1 = tag) variants) by (rewrite El; left).
  by apply elem_of_list_filter in Hin as [_ ?].
Qed.

Lemma version_same d d' : reordered d d' -> to_version d = to_version d'.
Proof.
  intros R. destruct d as [| | | | |m];
    [inversion R; by subst..|].
  apply reordered_map in R as (m' & -> & R). unfold to_version.
  rewrite (field_same text m m' _ R text_same), (optional_same m m' _ R),
    !(field_same strings m m' _ R strings_same).
  rewrite (field_same (sequence_of to_change) m m' _ R); [done|].
  intros ? ?. apply sequence_same, change_same.
Qed.
