(** Lemmas about column lists. *)
From Verif Require Import Base Types Changes Diff SpecSnapshot SpecDiff.

Notation names cs := (col_name <$> cs).

Lemma find_column_Some n cs c : find_column n cs = Some c -> c ∈ cs /\ col_name c = n.
Proof.
  induction cs as [|c' cs IH]; csimpl; [done|]. case_decide.
  - intros [= ->]. split; [left|done].
  - intros [??]%IH. split; [by right|done].
Qed.

Lemma find_column_None n cs : find_column n cs = None <-> n ∉ names cs.
Proof.
  induction cs as [|c cs IH]; csimpl.
  - split; [|done]. intros _. by apply not_elem_of_nil.
  - rewrite not_elem_of_cons. case_decide; naive_solver.
Qed.

Lemma find_column_is_Some n cs : is_Some (find_column n cs) <-> n ∈ names cs.
Proof.
  rewrite <- not_eq_None_Some, find_column_None. split; [apply dec_stable|tauto].
Qed.

Lemma find_column_elem cs c :
  NoDup (names cs) -> c ∈ cs -> find_column (col_name c) cs = Some c.
Proof.
  induction cs as [|c' cs IH]; csimpl; intros Hnd Hc; [by apply elem_of_nil in Hc|].
  apply NoDup_cons in Hnd as [Hc' Hnd]. apply elem_of_cons in Hc as [->|Hc].
  - by rewrite decide_True.
  - rewrite decide_False; [auto|]. intros Heq. apply Hc'. rewrite Heq.
    by apply elem_of_list_fmap_1.
Qed.

Lemma find_column_app n c1 c2 :
  find_column n (c1 ++ c2) =
  match find_column n c1 with Some c => Some c | None => find_column n c2 end.
Proof. induction c1 as [|c c1 IH]; csimpl; [done|]. by case_decide. Qed.

Lemma find_column_perm n c1 c2 :
  NoDup (names c1) -> c1 ≡ₚ c2 -> find_column n c1 = find_column n c2.
Proof.
  intros Hnd Hp.
  assert (NoDup (names c2)) as Hnd2 by (by rewrite <- Hp).
  destruct (find_column n c1) as [c|] eqn:E1.
  - apply find_column_Some in E1 as [Hc <-]. symmetry.
    apply find_column_elem; [done|]. by rewrite <- Hp.
  - symmetry. apply find_column_None. rewrite <- Hp. by apply find_column_None.
Qed.

(** [update_column] *)
Lemma update_column_id n f cs :
  (forall c, find_column n cs = Some c -> f c = c) -> update_column n f cs = cs.
Proof.
  induction cs as [|c cs IH]; csimpl; intros H; [done|]. case_decide.
  - by rewrite H.
  - by rewrite IH.
Qed.

Lemma update_column_ext n f g cs :
  (forall c, find_column n cs = Some c -> f c = g c) ->
  update_column n f cs = update_column n g cs.
Proof.
  induction cs as [|c cs IH]; csimpl; intros H; [done|]. case_decide.
  - by rewrite H.
  - by rewrite IH.
Qed.

Lemma update_column_names n f cs :
  (forall c, col_name (f c) = col_name c) -> names (update_column n f cs) = names cs.
Proof.
  intros H. induction cs as [|c cs IH]; [done|]. csimpl. case_decide; csimpl; [by rewrite H|by rewrite IH].
Qed.

Lemma find_update_column n m f cs :
  (forall c, col_name (f c) = col_name c) ->
  find_column m (update_column n f cs) =
  if decide (m = n) then f <$> find_column m cs else find_column m cs.
Proof.
  intros Hf. induction cs as [|c cs IH]; csimpl.
  { by case_decide. }
  destruct (decide (col_name c = n)) as [<-|Hn]; csimpl.
  - rewrite Hf. destruct (decide (col_name c = m)) as [<-|Hm].
    + by rewrite decide_True.
    + by rewrite decide_False.
  - destruct (decide (col_name c = m)) as [<-|Hm].
    + by rewrite decide_False.
    + apply IH.
Qed.

Lemma update_column_compose n f g cs :
  (forall c, col_name (f c) = col_name c) ->
  update_column n g (update_column n f cs) = update_column n (fun c => g (f c)) cs.
Proof.
  intros Hf. induction cs as [|c cs IH]; csimpl; [done|].
  destruct (decide (col_name c = n)) as [<-|Hn]; csimpl.
  - by rewrite Hf, decide_True.
  - by rewrite decide_False, IH.
Qed.

Lemma update_column_nodup n f cs :
  NoDup (names cs) ->
  update_column n f cs = (fun c => if decide (col_name c = n) then f c else c) <$> cs.
Proof.
  induction cs as [|c cs IH]; csimpl; intros Hnd; [done|].
  apply NoDup_cons in Hnd as [Hc Hnd]. case_decide as Hn.
  - f_equal. symmetry. rewrite <- (list_fmap_id cs) at 2.
    apply list_fmap_ext. intros i x Hx. rewrite decide_False; [done|].
    intros Heq. apply Hc. rewrite Hn, <- Heq. apply elem_of_list_fmap_1.
    by eapply elem_of_list_lookup_2.
  - by rewrite <- IH.
Qed.

(** Filters that keep everything. *)
Lemma filter_all {A} (P : A -> Prop) `{!forall x, Decision (P x)} (l : list A) :
  (forall x, x ∈ l -> P x) -> filter P l = l.
Proof.
  induction l as [|x l IH]; intros Hin; [done|].
  rewrite filter_cons_True; [|apply Hin; left]. f_equal. apply IH. intros; apply Hin; by right.
Qed.

Lemma filter_ext_in {A} (P Q : A -> Prop) `{!forall x, Decision (P x)}
    `{!forall x, Decision (Q x)} (l : list A) :
  (forall x, x ∈ l -> P x <-> Q x) -> filter P l = filter Q l.
Proof.
  induction l as [|x l IH]; intros Hin; [done|].
  assert (filter P l = filter Q l) as IH' by (apply IH; intros; apply Hin; by right).
  destruct (decide (P x)) as [HP|HP].
  - rewrite !filter_cons_True; [by rewrite IH'| |done]. apply Hin; [left|done].
  - rewrite !filter_cons_False; [by rewrite IH'| |done].
    intros HQ. apply HP. apply Hin; [left|done].
Qed.

Lemma fmap_ext_in {A B} (f g : A -> B) (l : list A) :
  (forall x, x ∈ l -> f x = g x) -> f <$> l = g <$> l.
Proof.
  intros H. apply list_fmap_ext. intros i x Hx. apply H. by eapply elem_of_list_lookup_2.
Qed.

(** [delete_column] *)
Lemma delete_column_filter n cs :
  NoDup (names cs) -> delete_column n cs = filter (fun c => col_name c <> n) cs.
Proof.
  induction cs as [|c cs IH]; csimpl; intros Hnd; [done|].
  apply NoDup_cons in Hnd as [Hc Hnd]. case_decide as Hn.
  - rewrite filter_cons_False; [|tauto]. symmetry. apply filter_all.
    intros x Hx Heq. apply Hc. rewrite Hn, <- Heq. by apply elem_of_list_fmap_1.
  - rewrite filter_cons_True; [|done]. by rewrite IH.
Qed.

Lemma delete_column_perm n cs c :
  find_column n cs = Some c -> c :: delete_column n cs ≡ₚ cs.
Proof.
  induction cs as [|c' cs IH]; csimpl; [done|]. case_decide.
  - by intros [= ->].
  - intros Hf. rewrite <- (IH Hf) at 2. apply perm_swap.
Qed.

Lemma NoDup_names_filter (P : column -> Prop) `{!forall x, Decision (P x)} cs :
  NoDup (names cs) -> NoDup (names (filter P cs)).
Proof.
  induction cs as [|c cs IH]; csimpl; intros Hnd; [done|].
  apply NoDup_cons in Hnd as [Hc Hnd]. rewrite filter_cons. case_decide; [|auto].
  csimpl. apply NoDup_cons. split; [|auto]. intros (x & Hx & Hin)%elem_of_list_fmap.
  apply elem_of_list_filter in Hin as [_ Hin]. apply Hc. rewrite Hx.
  by apply elem_of_list_fmap_1.
Qed.

Lemma NoDup_delete_column n cs : NoDup (names cs) -> NoDup (names (delete_column n cs)).
Proof. intros H. rewrite delete_column_filter by done. by apply NoDup_names_filter. Qed.

(** ** The column list produced by the two column loops of a table update *)

(** One iteration of the first loop. *)
Definition put_column (cs : list column) (c : column) : list column :=
  match find_column (col_name c) cs with
  | Some _ => update_column (col_name c) (fun _ => c) cs
  | None => cs ++ [c]
  end.

Notation merged_columns := kept_then_new.

Lemma put_column_names cs c :
  NoDup (names cs) ->
  NoDup (names (put_column cs c)) /\ (forall n, n ∈ names (put_column cs c) <-> n ∈ names cs \/ n = col_name c).
Proof.
  intros Hnd. unfold put_column. destruct (find_column (col_name c) cs) as [c0|] eqn:E.
  - apply find_column_Some in E as [Hin Hn].
    assert (names (update_column (col_name c) (fun _ => c) cs) = names cs) as ->.
    { rewrite update_column_nodup by done. rewrite <- list_fmap_compose.
      apply fmap_ext_in. intros x Hx. csimpl. by case_decide. }
    split; [done|]. intros n. split; [auto|]. intros [?| ->]; [done|].
    rewrite <- Hn. by apply elem_of_list_fmap_1.
  - apply find_column_None in E. rewrite fmap_app. split.
    + apply NoDup_app. split; [done|]. split; [|apply NoDup_singleton].
      intros x Hx Hx'. apply elem_of_list_singleton in Hx'. by subst.
    + intros n. rewrite elem_of_app. csimpl. rewrite elem_of_list_singleton. done.
Qed.

Lemma put_columns_eq l cs :
  NoDup (names l) -> NoDup (names cs) ->
  foldl put_column cs l =
  ((fun c => default c (find_column (col_name c) l)) <$> cs) ++
  filter (fun c => find_column (col_name c) cs = None) l.
Proof.
  revert cs. induction l as [|a l IH]; intros cs Hl Hcs; csimpl.
  { rewrite filter_nil, app_nil_r. symmetry. apply list_fmap_id. }
  apply NoDup_cons in Hl as [Ha Hl].
  destruct (put_column_names cs a Hcs) as [Hnd1 Hmem].
  rewrite (IH _ Hl Hnd1). apply find_column_None in Ha as Ha'.
  unfold put_column in *. destruct (find_column (col_name a) cs) as [a0|] eqn:E.
  - rewrite filter_cons_False by (by rewrite E). f_equal.
    + rewrite update_column_nodup by done. rewrite <- list_fmap_compose.
      apply fmap_ext_in. intros x Hx. csimpl. destruct (decide (col_name x = col_name a)) as [Hx'|Hx'].
      * rewrite Ha'. csimpl. by rewrite decide_True.
      * by rewrite decide_False.
    + apply filter_ext_in. intros x Hx. rewrite !find_column_None, Hmem.
      split; [tauto|]. intros Hn [?|Heq]; [done|]. apply Ha. rewrite <- Heq.
      by apply elem_of_list_fmap_1.
  - rewrite filter_cons_True by done. rewrite fmap_app, <- app_assoc. csimpl. rewrite Ha'. simpl.
    f_equal; [|f_equal].
    + apply find_column_None in E. apply fmap_ext_in. intros x Hx.
      rewrite decide_False; [done|]. intros Heq. apply E. rewrite Heq.
      by apply elem_of_list_fmap_1.
    + apply filter_ext_in. intros x Hx. rewrite !find_column_None, Hmem.
      split; [tauto|]. intros Hn [?|Heq]; [done|]. apply Ha. rewrite <- Heq.
      by apply elem_of_list_fmap_1.
Qed.

(** The second loop: delete the columns of [l] that are not in [t]. *)
Definition cut_column (t cs : list column) (c : column) : list column :=
  match find_column (col_name c) t with
  | Some _ => cs
  | None => delete_column (col_name c) cs
  end.

Lemma cut_columns_eq t l cs :
  NoDup (names cs) ->
  foldl (cut_column t) cs l =
  filter (fun c => ~ (col_name c ∈ names l /\ find_column (col_name c) t = None)) cs.
Proof.
  revert cs. induction l as [|a l IH]; intros cs Hcs; csimpl.
  { symmetry. apply filter_all. intros x _ [Hx _]. by apply elem_of_nil in Hx. }
  unfold cut_column at 2. destruct (find_column (col_name a) t) as [a0|] eqn:E.
  - rewrite IH by done. apply filter_ext_in. intros x Hx. rewrite elem_of_cons.
    split; intros H [H1 H2]; apply H; split; auto.
    destruct H1 as [H1|H1]; [|done]. rewrite H1 in H2. congruence.
  - rewrite IH by (by apply NoDup_delete_column).
    rewrite delete_column_filter by done. rewrite list_filter_filter.
    apply filter_ext_in. intros x Hx. rewrite elem_of_cons.
    split.
    + intros [H1 H2] [[H3|H3] H4]; [done|]. apply H1. done.
    + intros H. split.
      * intros [H1 H2]. apply H. auto.
      * intros Heq. apply H. rewrite Heq. auto.
Qed.

Lemma merged_columns_run s t :
  NoDup (names s) -> NoDup (names t) ->
  foldl (cut_column t) (foldl put_column s t) s = merged_columns s t.
Proof.
  intros Hs Ht.
  assert (NoDup (names (foldl put_column s t))) as Hnd.
  { clear Ht. revert s Hs. induction t as [|a t IH]; intros s Hs; [done|]. csimpl. apply IH.
    by apply put_column_names. }
  rewrite cut_columns_eq by done. rewrite put_columns_eq by done.
  rewrite filter_app. unfold kept_then_new. f_equal.
  - (* the kept ones *)
    assert (forall l : list column, (forall x, x ∈ l -> col_name x ∈ names s) ->
      filter (fun c => ~ (col_name c ∈ names s /\ find_column (col_name c) t = None))
        ((fun c => default c (find_column (col_name c) t)) <$> l) =
      omap (fun c => find_column (col_name c) t) l) as Hgen.
    { induction l as [|x l IH]; intros Hl; [done|]. csimpl.
      assert (Hx := Hl x ltac:(left)).
      destruct (find_column (col_name x) t) as [y|] eqn:E; csimpl.
      - apply find_column_Some in E as Hy. destruct Hy as [_ Hy].
        rewrite filter_cons_True; [|rewrite Hy, E; naive_solver].
        f_equal. apply IH. intros; apply Hl; by right.
      - rewrite filter_cons_False; [|tauto]. apply IH. intros; apply Hl; by right. }
    apply Hgen. intros x Hx. by apply elem_of_list_fmap_1.
  - apply filter_all. intros x [_ Hx]%elem_of_list_filter [_ H2].
    by rewrite find_column_elem in H2.
Qed.

Lemma NoDup_names_NoDup cs : NoDup (names cs) -> NoDup cs.
Proof. apply NoDup_fmap_1. Qed.

Lemma merged_columns_elem s t c :
  NoDup (names t) -> c ∈ merged_columns s t <-> c ∈ t.
Proof.
  intros Ht. unfold kept_then_new. rewrite elem_of_app, elem_of_list_omap, elem_of_list_filter.
  split.
  - intros [(x & Hx & Hf)|[_ ?]]; [|done]. by apply find_column_Some in Hf as [? _].
  - intros Hc. destruct (find_column (col_name c) s) as [x|] eqn:E; [left|by right].
    apply find_column_Some in E as [Hx Hn]. exists x. split; [done|].
    rewrite Hn. by apply find_column_elem.
Qed.

Lemma NoDup_merged_columns s t :
  NoDup (names s) -> NoDup (names t) -> NoDup (names (merged_columns s t)).
Proof.
  intros Hs Ht. rewrite <- merged_columns_run by done.
  assert (NoDup (names (foldl put_column s t))) as Hnd.
  { clear Ht. revert s Hs. induction t as [|a t IH]; intros s Hs; [done|]. csimpl. apply IH.
    by apply put_column_names. }
  rewrite cut_columns_eq by done. by apply NoDup_names_filter.
Qed.

Lemma merged_columns_perm s t :
  NoDup (names s) -> NoDup (names t) -> merged_columns s t ≡ₚ t.
Proof.
  intros Hs Ht. apply NoDup_Permutation.
  - by apply NoDup_names_NoDup, NoDup_merged_columns.
  - by apply NoDup_names_NoDup.
  - intros c. by apply merged_columns_elem.
Qed.
