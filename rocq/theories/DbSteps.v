(** Applying and reverting versions. *)
From Verif Require Import Base Text Types Changes Sql History SpecHistory HistoryLemmas HistoryLoad HistoryProofs Dbh SpecDb DbLemmas DbRun.
From stdpp Require Import sorting.

Lemma row_names_numbered o vs : row_name <$> numbered o vs = v_name <$> vs.
Proof. revert o. induction vs as [|v vs IH]; intros o; [done|]. simpl. f_equal. apply IH. Qed.

Lemma filter_all {A} (P : A -> Prop) `{forall x, Decision (P x)} (l : list A) : (forall x, x ∈ l -> P x) -> filter P l = l.
Proof.
  induction l as [|x l IH]; intros Hl; [done|]. rewrite filter_cons_True by (apply Hl; by left). f_equal.
  apply IH. intros y Hy. apply Hl. by right.
Qed.
Lemma filter_none {A} (P : A -> Prop) `{forall x, Decision (P x)} (l : list A) : (forall x, x ∈ l -> ~ P x) -> filter P l = [].
Proof.
  induction l as [|x l IH]; intros Hl; [done|]. rewrite filter_cons_False by (apply Hl; by left).
  apply IH. intros y Hy. apply Hl. by right.
Qed.

Section steps.
  Context {S : Type} (sem : str -> S -> option S) (ident : str -> option str) (schema : str) (db : pg S).
  Hypothesis Hident : ident schema = Some schema.
  Notation W := (W schema db).

  (** ** Applying *)
  Definition after (t : vtable) (vs : list version) : vtable :=
    VTable (t_rows t ++ numbered (t_next t) vs) (t_next t + Z.of_nat (length vs)).
  Lemma after_cons t v vs :
    after (VTable (t_rows t ++ [Row v (t_next t)]) (t_next t + 1)) vs = after t (v :: vs).
  Proof. unfold after. simpl. rewrite <- (assoc (++)). f_equal. lia. Qed.
  Lemma record_step v k u t :
    killed (iunwrap (record_version ident schema v) (k, W u t)) \/
    (exists k' t', insert_row v t = (Ret (), t') /\ iunwrap (record_version ident schema v) (k, W u t) = (Ret (), (k', W u t'))) \/
    ((insert_row v t).1 <> Ret () /\ (iunwrap (record_version ident schema v) (k, W u t)).1 = Abort).
  Proof.
    destruct k as [|k]; [by left|]. right. unfold iunwrap, record_version. rewrite on_table_step by done.
    destruct (insert_row_cases v t) as [E|E].
    - left. exists k, (insert_row v t).2. split; [done|]. by rewrite E.
    - right. by rewrite E.
  Qed.
  Lemma apply_inv d names k u t q :
    apply_versions sem ident d schema names (k, W u t) = (Ret (), q) ->
    exists vs u' k', Forall2 (stored d) names vs /\ runs sem (vs ≫= v_up) u u' /\
      q = (k', W u' (after t vs)) /\ Forall fits vs /\
      NoDup (v_name <$> vs) /\ (forall v, v ∈ vs -> v_name v ∉ row_name <$> t_rows t) /\
      (t_next t + Z.of_nat (length vs) <= max_order + 1 \/ vs = [])%Z.
  Proof.
    revert k u t. induction names as [|n names IH]; intros k u t H.
    - simpl in H. injection H as <-. exists [], u, k. split; [constructor|]. split; [constructor|]. split.
      + unfold after. simpl. rewrite app_nil_r, Z.add_0_r. by destruct t.
      + split; [constructor|]. split; [constructor|]. split; [by intros v ?%elem_of_nil|by right].
    - cbn [apply_versions] in H. destruct (get_version_cases d n) as [(v & Hv & E)|E].
      2: { unfold ibind at 1, iread in H. by rewrite E in H. }
      rewrite (bind_ret _ _ _ v (k, W u t)) in H by (unfold iread; by rewrite E).
      destruct (execute_all_step sem schema db (v_up v) k u t) as [K|[(u1 & k1 & Hr & K)|[_ K]]].
      1: { apply (bind_killed _ (fun _ => ibind (iunwrap (record_version ident schema v)) (fun _ => apply_versions sem ident d schema names))) in K.
           unfold killed in K. by rewrite H in K. }
      2: { apply (bind_abort _ (fun _ => ibind (iunwrap (record_version ident schema v)) (fun _ => apply_versions sem ident d schema names))) in K.
           by rewrite H in K. }
      rewrite (bind_ret _ _ _ _ _ K) in H.
      destruct (record_step v k1 u1 t) as [K'|[(k2 & t2 & Hi & K')|[_ K']]].
      1: { apply (bind_killed _ (fun _ => apply_versions sem ident d schema names)) in K'. unfold killed in K'. by rewrite H in K'. }
      2: { apply (bind_abort _ (fun _ => apply_versions sem ident d schema names)) in K'. by rewrite H in K'. }
      rewrite (bind_ret _ _ _ _ _ K') in H.
      apply insert_row_iff in Hi as (Hf & Hmax & Hnew & _ & _ & ->).
      apply IH in H as (vs & u' & k' & H1 & H2 & -> & H4 & H5 & H6 & H7). exists (v :: vs), u', k'.
      split; [by constructor|]. split; [cbn [mbind list_bind]; by eapply runs_app|].
      split; [by rewrite after_cons|]. split; [by constructor|].
      cbn [t_rows t_next] in H6, H7.
      assert (forall w, w ∈ vs -> v_name w ∉ row_name <$> t_rows t /\ v_name w <> v_name v) as H6'.
      { intros w Hw. specialize (H6 w Hw). rewrite fmap_app in H6. apply not_elem_of_app in H6 as [? H6].
        split; [done|]. intros E'. apply H6. simpl. rewrite E'. by left. }
      split; [rewrite fmap_cons; constructor; [|done]; intros (w & E' & Hw)%elem_of_list_fmap; by destruct (H6' w Hw)|].
      split; [intros w [->|Hw]%elem_of_cons; [done|by apply H6']|].
      left. cbn [length]. destruct H7 as [H7| ->]; [lia|]. simpl. lia.
  Qed.
  (** When every insertion is fine, only the statements matter. *)
  Lemma apply_forward d names vs k u t p :
    Forall2 (stored d) names vs -> Forall fits vs -> NoDup (v_name <$> vs) ->
    (forall v, v ∈ vs -> v_name v ∉ row_name <$> t_rows t) ->
    Forall (fun r => r_order r < t_next t)%Z (t_rows t) -> p ∈ row_name <$> t_rows t ->
    linked (Some p) vs -> (t_next t + Z.of_nat (length vs) <= max_order + 1)%Z ->
    killed (apply_versions sem ident d schema names (k, W u t)) \/
    (exists u' k', runs sem (vs ≫= v_up) u u' /\ apply_versions sem ident d schema names (k, W u t) = (Ret (), (k', W u' (after t vs)))) \/
    ((forall u', ~ runs sem (vs ≫= v_up) u u') /\ (apply_versions sem ident d schema names (k, W u t)).1 = Abort).
  Proof.
    intros Hs. revert k u t p. induction Hs as [|n v names vs Hv Hs IH]; intros k u t p Hf Hnd Hnew Hord Hp Hl Hmax.
    - right. left. exists u, k. split; [constructor|]. unfold after. simpl. rewrite app_nil_r, Z.add_0_r. by destruct t.
    - cbn [apply_versions]. rewrite (bind_ret _ _ _ v (k, W u t)) by (unfold iread; by rewrite (proj2 (get_version_iff _ _ _) Hv)).
      cbn [mbind list_bind].
      destruct (execute_all_step sem schema db (v_up v) k u t) as [K|[(u1 & k1 & Hr & K)|[Hno K]]].
      + left. by apply bind_killed.
      + rewrite (bind_ret _ _ _ _ _ K).
        destruct (record_step v k1 u1 t) as [K'|[(k2 & t2 & Hi & K')|[Hbad K']]].
        * left. by apply bind_killed.
        * rewrite (bind_ret _ _ _ _ _ K'). apply insert_row_iff in Hi as (_ & _ & _ & _ & _ & ->).
          apply Forall_cons in Hf as [Hf1 Hf2]. rewrite fmap_cons in Hnd. apply NoDup_cons in Hnd as [Hn1 Hn2].
          destruct Hl as [Hl1 Hl2].
          destruct (IH k2 u1 (VTable (t_rows t ++ [Row v (t_next t)]) (t_next t + 1)) (v_name v)) as [K2|[(u' & k' & Hr' & K2)|[Hno K2]]]; try done.
          -- intros w Hw. cbn [t_rows]. rewrite fmap_app. apply not_elem_of_app. split; [apply Hnew; by right|].
             simpl. intros E%elem_of_list_singleton. apply Hn1. unfold row_name in E. simpl in E. rewrite <- E.
             by apply elem_of_list_fmap_1.
          -- cbn [t_rows t_next]. apply Forall_app. split; [eapply Forall_impl; [done|]; simpl; intros; lia|].
             constructor; [simpl; lia|constructor].
          -- cbn [t_rows]. rewrite fmap_app. apply elem_of_app. right. by left.
          -- cbn [t_next]. cbn [length] in Hmax. lia.
          -- by left.
          -- right. left. exists u', k'. split; [by eapply runs_app|]. by rewrite after_cons in K2.
          -- right. right. split; [|done]. intros u' (u2 & R1 & R2)%runs_app_inv.
             rewrite (runs_unique _ _ _ _ _ R1 Hr) in R2. by apply (Hno u').
        * exfalso. apply Hbad.
          rewrite (proj2 (insert_row_iff v t (VTable (t_rows t ++ [Row v (t_next t)]) (t_next t + 1)))); [done|].
          apply Forall_cons in Hf as [Hf1 Hf2]. split; [done|]. cbn [length] in Hmax. split; [lia|].
          split; [apply Hnew; by left|]. split.
          -- intros (r & E & Hr')%elem_of_list_fmap. rewrite Forall_forall in Hord. specialize (Hord _ Hr'). lia.
          -- split; [|done]. destruct Hl as [Hl1 _]. intros p' Hp'. rewrite Hl1 in Hp'. injection Hp' as <-. by right.
      + right. right. split; [|by apply bind_abort]. intros u' (u1 & R & _)%runs_app_inv. by apply (Hno u1).
  Qed.

  (** ** Reverting *)
  Definition without (t : vtable) (ns : list str) : vtable :=
    VTable (filter (fun r => row_name r ∉ ns) (t_rows t)) (t_next t).
  Lemma delete_row_inv n t t' :
    delete_row n t = (Ret (), t') -> t' = without t [n].
  Proof.
    unfold delete_row, without. destruct (decide _); [done|]. intros [= <-]. f_equal.
    apply list_filter_iff. intros r. by rewrite elem_of_list_singleton.
  Qed.
  Lemma recorded_step r k u t :
    NoDup (row_name <$> t_rows t) -> r ∈ t_rows t ->
    killed (iunwrap (recorded_version ident schema (row_name r)) (k, W u t)) \/
    exists k', iunwrap (recorded_version ident schema (row_name r)) (k, W u t) = (Ret (r_version r), (k', W u t)).
  Proof.
    intros Hn Hr. destruct k as [|k]; [by left|]. right. exists k. unfold iunwrap, recorded_version.
    rewrite ask_step by done.
    assert (filter (fun x => row_name x = row_name r) (t_rows t) = [r]) as ->; [|done].
    apply elem_of_list_split in Hr as (l1 & l2 & E). rewrite E in Hn |- *. rewrite fmap_app, fmap_cons in Hn.
    apply NoDup_app in Hn as (_ & Hn1 & [Hn2 _]%NoDup_cons). rewrite filter_app, filter_cons_True by done.
    rewrite !filter_none; [done| |].
    - intros x Hx E'. apply Hn2. rewrite <- E'. by apply elem_of_list_fmap_1.
    - intros x Hx E'. apply (Hn1 (row_name x)); [by apply elem_of_list_fmap_1|]. rewrite E'. by left.
  Qed.
  Lemma delete_step n v k u t : n = v_name v ->
    killed (iunwrap (delete_version ident schema v) (k, W u t)) \/
    (exists k', (delete_row n t).1 = Ret () /\
       iunwrap (delete_version ident schema v) (k, W u t) = (Ret (), (k', W u (without t [n])))) \/
    ((delete_row n t).1 <> Ret () /\ (iunwrap (delete_version ident schema v) (k, W u t)).1 = Abort).
  Proof.
    intros ->. destruct k as [|k]; [by left|]. right. unfold iunwrap, delete_version. rewrite on_table_step by done.
    destruct (delete_row (v_name v) t) as [[[]|e| | |] t'] eqn:E; simpl.
    - left. exists k. split; [done|]. by rewrite (delete_row_inv _ _ _ E).
    - right. done.
    - exfalso. unfold delete_row in E. by destruct (decide _).
    - exfalso. unfold delete_row in E. by destruct (decide _).
    - exfalso. unfold delete_row in E. by destruct (decide _).
  Qed.
  Lemma without_without t ns ns' : without (without t ns) ns' = without t (ns ++ ns').
  Proof.
    unfold without. simpl. f_equal. rewrite list_filter_filter. apply list_filter_iff. intros r.
    rewrite not_elem_of_app. tauto.
  Qed.
  Lemma without_nil t : without t [] = t.
  Proof.
    unfold without. rewrite filter_all; [by destruct t|]. intros r _. apply not_elem_of_nil.
  Qed.
  Lemma without_nodup t ns : NoDup (row_name <$> t_rows t) -> NoDup (row_name <$> t_rows (without t ns)).
  Proof.
    unfold without. simpl. generalize (t_rows t). induction l as [|r l IH]; [done|]. rewrite fmap_cons, NoDup_cons.
    intros [H1 H2]. rewrite filter_cons. destruct (decide _); [|by apply IH]. rewrite fmap_cons. constructor; [|by apply IH].
    intros (x & E & [_ Hx]%elem_of_list_filter)%elem_of_list_fmap. apply H1. rewrite E. by apply elem_of_list_fmap_1.
  Qed.
  Lemma revert_inv rs k u t q :
    NoDup (row_name <$> t_rows t) -> NoDup (row_name <$> rs) -> (forall r, r ∈ rs -> r ∈ t_rows t) ->
    revert_versions sem ident schema (row_name <$> rs) (k, W u t) = (Ret (), q) ->
    exists u' k', runs sem ((r_version <$> rs) ≫= v_down) u u' /\ q = (k', W u' (without t (row_name <$> rs))).
  Proof.
    revert k u t. induction rs as [|r rs IH]; intros k u t Hn Hrs Hin H.
    - simpl in H. injection H as <-. exists u, k. split; [constructor|]. simpl. by rewrite without_nil.
    - rewrite fmap_cons in H. cbn [revert_versions] in H.
      destruct (recorded_step r k u t Hn ltac:(apply Hin; by left)) as [K|[k1 K]].
      { eapply bind_killed in K. unfold killed in K. erewrite H in K. done. }
      rewrite (bind_ret _ _ _ _ _ K) in H.
      destruct (execute_all_step sem schema db (v_down (r_version r)) k1 u t) as [K1|[(u1 & k2 & Hr & K1)|[_ K1]]].
      1: { eapply bind_killed in K1. unfold killed in K1. erewrite H in K1. done. }
      2: { eapply bind_abort in K1. erewrite H in K1. done. }
      rewrite (bind_ret _ _ _ _ _ K1) in H.
      destruct (delete_step (row_name r) (r_version r) k2 u1 t eq_refl) as [K2|[(k3 & _ & K2)|[_ K2]]].
      1: { eapply bind_killed in K2. unfold killed in K2. erewrite H in K2. done. }
      2: { eapply bind_abort in K2. erewrite H in K2. done. }
      rewrite (bind_ret _ _ _ _ _ K2) in H. rewrite fmap_cons in Hrs. apply NoDup_cons in Hrs as [Hr1 Hr2].
      apply IH in H as (u' & k' & R & ->).
      + exists u', k'. split; [rewrite fmap_cons; cbn [mbind list_bind]; by eapply runs_app|].
        rewrite without_without. done.
      + by apply without_nodup.
      + done.
      + intros x Hx. unfold without. simpl. apply elem_of_list_filter. split; [|apply Hin; by right].
        intros E%elem_of_list_singleton. apply Hr1. rewrite <- E. by apply elem_of_list_fmap_1.
  Qed.

  Lemma delete_last n l r o :
    linked None (r_version <$> l ++ [r]) -> NoDup (row_name <$> l ++ [r]) -> n = row_name r ->
    delete_row n (VTable (l ++ [r]) o) = (Ret (), VTable l o).
  Proof.
    intros Hl Hn ->. unfold delete_row. cbn [t_rows t_next].
    assert (filter (fun x => row_name x <> row_name r) (l ++ [r]) = l) as E.
    { rewrite filter_app, filter_cons_False by (intros K; by apply K). rewrite filter_nil, app_nil_r. apply filter_all.
      intros x Hx Hxr. rewrite fmap_app in Hn. apply NoDup_app in Hn as (_ & Hn & _). apply (Hn (row_name x)).
      - by apply elem_of_list_fmap_1.
      - rewrite Hxr. by left. }
    rewrite E. rewrite decide_False; [done|]. intros [_ (x & Hx1 & Hx2)%elem_of_list_fmap].
    rewrite fmap_app in Hl. apply linked_app in Hl as [Hl _].
    destruct (linked_previous _ _ (r_version x) (row_name r) Hl) as [[? _]|(vs1 & w & vs2 & Ev & Hw)]; [|done|done|].
    { by apply elem_of_list_fmap_1. }
    assert (w ∈ r_version <$> l) as (y & -> & Hy)%elem_of_list_fmap by (rewrite Ev; apply elem_of_app; right; by left).
    rewrite fmap_app in Hn. apply NoDup_app in Hn as (_ & Hn & _). apply (Hn (row_name y)).
    - by apply elem_of_list_fmap_1.
    - change (row_name y = row_name r) in Hw. rewrite Hw. by left.
  Qed.
  Lemma revert_forward pre suf k u o :
    linked None (r_version <$> pre ++ suf) -> NoDup (row_name <$> pre ++ suf) ->
    killed (revert_versions sem ident schema (row_name <$> reverse suf) (k, W u (VTable (pre ++ suf) o))) \/
    (exists u' k', runs sem ((r_version <$> reverse suf) ≫= v_down) u u' /\
      revert_versions sem ident schema (row_name <$> reverse suf) (k, W u (VTable (pre ++ suf) o)) = (Ret (), (k', W u' (VTable pre o)))) \/
    ((forall u', ~ runs sem ((r_version <$> reverse suf) ≫= v_down) u u') /\
      (revert_versions sem ident schema (row_name <$> reverse suf) (k, W u (VTable (pre ++ suf) o))).1 = Abort).
  Proof.
    revert k u. induction suf as [|r suf IH] using rev_ind; intros k u Hl Hn.
    - right. left. exists u, k. rewrite app_nil_r. split; [constructor|done].
    - rewrite reverse_app, reverse_singleton. cbn [app]. rewrite !fmap_cons. cbn [revert_versions mbind list_bind].
      replace (pre ++ suf ++ [r]) with ((pre ++ suf) ++ [r]) in * by (by rewrite <- (assoc (++))).
      assert (r ∈ (pre ++ suf) ++ [r]) as Hin by (apply elem_of_app; right; by left).
      destruct (recorded_step r k u (VTable ((pre ++ suf) ++ [r]) o) Hn Hin) as [K|[k1 K]].
      { left. by apply bind_killed. }
      rewrite (bind_ret _ _ _ _ _ K).
      destruct (execute_all_step sem schema db (v_down (r_version r)) k1 u (VTable ((pre ++ suf) ++ [r]) o)) as [K1|[(u1 & k2 & Hr & K1)|[Hno K1]]].
      { left. by apply bind_killed. }
      2: { right. right. split; [|by apply bind_abort]. intros u' (x & R & _)%runs_app_inv. by apply (Hno x). }
      rewrite (bind_ret _ _ _ _ _ K1). pose proof (delete_last (row_name r) (pre ++ suf) r o Hl Hn eq_refl) as Hd.
      destruct (delete_step (row_name r) (r_version r) k2 u1 (VTable ((pre ++ suf) ++ [r]) o) eq_refl) as [K2|[(k3 & _ & K2)|[Hbad K2]]].
      { left. by apply bind_killed. }
      2: { exfalso. apply Hbad. by rewrite Hd. }
      rewrite (bind_ret _ _ _ _ _ K2). rewrite <- (delete_row_inv _ _ _ Hd).
      rewrite (fmap_app _ (pre ++ suf)) in Hl. rewrite (fmap_app _ (pre ++ suf)) in Hn. apply linked_app in Hl as [Hl _]. apply NoDup_app in Hn as (Hn & _ & _).
      destruct (IH k3 u1 Hl Hn) as [K3|[(u' & k' & R & K3)|[Hno K3]]].
      + by left.
      + right. left. exists u', k'. split; [by eapply runs_app|]. exact K3.
      + right. right. split; [|done]. intros u' (x & R1 & R2)%runs_app_inv.
        rewrite (runs_unique _ _ _ _ _ R1 Hr) in R2. by apply (Hno u').
  Qed.
End steps.
