(** The migration commands only add versions of the project, and never delete init. *)
From Verif Require Import Base Text Types Changes Sql History SpecHistory HistoryLemmas HistoryLoad Dbh SpecDb DbLemmas DbSteps
  Concurrent SpecConcurrent ConcurrentLemmas.
From stdpp Require Import sorting.

Section programs.
  Context (vs : list version) (Hvs : timeline vs).

  Lemma not_stage j u : (new_init :: vs) !! j = Some u -> v_name u <> L "stage".
  Proof.
    destruct Hvs as (_ & _ & H). destruct j as [|j]; simpl; [by intros [= <-]|]. intros Hu E. apply H.
    apply elem_of_list_fmap. exists u. split; [done|]. by apply elem_of_list_lookup_2 in Hu.
  Qed.
  (** The versions between two of the project, in a directory of the project. *)
  Lemma segment d m u a ns b : on_timeline vs d -> path d a ns b -> (new_init :: vs) !! m = Some u -> a = v_name u ->
    b <> L "stage" ->
    exists T w, m <= T <= length vs /\ (new_init :: vs) !! T = Some w /\ b = v_name w /\ Forall2 (stored d) ns (drop m (take T vs)).
  Proof.
    intros (Hw & _ & Hd) Hp Hu ->. induction Hp as [v Hv|ns b c v Hp IH Hv Hprev]; intros Hb.
    - exists m, u. pose proof (lookup_lt_Some _ _ _ Hu) as Hlt. simpl in Hlt.
      split; [lia|]. split; [done|]. split; [done|]. rewrite take_drop_nil. constructor.
    - pose proof (Hd c v Hv Hb) as [->|[j Hj]%elem_of_list_lookup]%elem_of_cons; [done|].
      assert (is_Some ((new_init :: vs) !! j)) as [w Hwj].
      { apply lookup_lt_is_Some. apply lookup_lt_Some in Hj. simpl. lia. }
      rewrite (previous_of vs Hvs j w v Hwj Hj) in Hprev. injection Hprev as <-.
      destruct IH as (T & w' & HT & HwT & E & Hf); [by eapply not_stage|].
      pose proof (names_inj vs Hvs j T w w' Hwj HwT E) as <-. pose proof (lookup_lt_Some _ _ _ Hj) as Hlt.
      exists (S j), v. split; [lia|]. split; [done|]. split; [symmetry; by apply Hw|].
      rewrite (take_next vs j v Hj), drop_app_le by (rewrite take_length; lia). apply Forall2_app; [done|]. by constructor.
  Qed.
  Lemma current_not_stage d c : on_timeline vs d -> is_current d c -> c <> L "stage".
  Proof.
    intros (Hw & _ & Hd) [_ H] ->. destruct H as [(b & (n & v & Hv & Hp & <-) & Hlast)|[H _]]; [|done].
    destruct (decide (n = L "stage")) as [->|Hn].
    - apply (Hlast (v_name v)). exists (L "stage"), v. rewrite (Hw _ v Hv) in *. done.
    - pose proof (Hd n v Hv Hn) as [->|[j Hj]%elem_of_list_lookup]%elem_of_cons; [done|].
      assert (is_Some ((new_init :: vs) !! j)) as [w Hwj].
      { apply lookup_lt_is_Some. apply lookup_lt_Some in Hj. simpl. lia. }
      rewrite (previous_of vs Hvs j w v Hwj Hj) in Hp. injection Hp as Hp. by apply (not_stage j w).
  Qed.
  (** Where [up] goes. *)
  Lemma goal_not_stage l d h version v : on_timeline vs d -> version <> Some (L "stage") -> from_dir l d = Ret h ->
    match version with Some v => get_version d v | None => get_current_version h d end = Ret v ->
    target d version (v_name v) /\ v_name v <> L "stage".
  Proof.
    intros Ht Hver Hh Hv. pose proof Ht as (Hw & Hp & _). destruct version as [n|].
    - apply get_version_iff in Hv. rewrite (Hw n v Hv). split; [by split; [|exists v]|]. congruence.
    - unfold get_current_version in Hv. apply get_version_iff in Hv. rewrite (Hw _ v Hv).
      assert (is_current d (current_version h)) as Hc by (by apply (from_dir_iff l d h Hp) in Hh as (_ & _ & _ & ?)).
      split; [done|]. by eapply current_not_stage.
  Qed.

  Context (o0 : Z).
  Local Notation polite := (polite vs o0).
  Local Notation good := (good vs o0).

  Lemma polite_raise ph r : polite ph (Stop r).
  Proof. constructor. Qed.
  Lemma polite_execute_all stmts f : polite Plain (f tt) -> polite Plain (pbind (p_execute_all stmts) f).
  Proof. intros Hf. induction stmts as [|stmt stmts IH]; [done|]. cbn. constructor; cbn; [done|constructor]. Qed.
  Lemma polite_apply d names ws f : Forall2 (stored d) names ws -> (forall w, w ∈ ws -> w ∈ vs) -> polite Plain (f tt) ->
    polite Plain (pbind (p_apply_versions d names) f).
  Proof.
    intros H Hin Hf. induction H as [|n w names ws Hn H IH]; [done|]. cbn.
    apply get_version_iff in Hn as ->. cbn.
    assert (polite Plain (pbind (pbind (p_execute_all (v_up w)) (fun _ => pbind (punwrap (tell (InsertRow w))) (fun _ => p_apply_versions d names))) f)) as K.
    { clear Hf. generalize (v_up w) as stmts. intros stmts. induction stmts as [|stmt stmts IH'].
      - cbn. constructor; [apply Hin; by left| |constructor]. cbn. apply IH. intros w' Hw'. apply Hin. by right.
      - cbn. constructor; cbn; [done|constructor]. }
    done.
  Qed.
  Lemma polite_ensure (f : () -> program ()) : polite Plain (f tt) -> polite Plain (pbind p_ensure_initialized f).
  Proof.
    intros Hf. cbn. constructor; [|cbn; constructor]. intros []; cbn; [done|].
    constructor; cbn; [|constructor]. constructor; cbn; [|constructor]. constructor; cbn; [done|by eexists].
  Qed.
  Lemma polite_current (f : version -> program ()) :
    (forall n l r, good n l -> r ∈ l -> polite Plain (f (r_version r))) -> polite Plain (pbind p_current_version f).
  Proof.
    intros Hf. cbn. constructor; [|cbn; constructor]. intros []; cbn; [|constructor].
    constructor; [|cbn; constructor]. intros n l Hl. cbn. destruct (newest_first l) as [|r rest] eqn:E; [constructor|].
    apply (Hf n l); [done|]. rewrite <- (newest_first_perm l), E. by left.
  Qed.
  Lemma good_elem n l r : good n l -> r ∈ l ->
    (r = Row new_init o0) \/ (exists j, vs !! j = Some (r_version r) /\ o0 < r_order r)%Z.
  Proof.
    intros (Hn & rest & -> & E & Ho) [->|Hr]%elem_of_cons; [by left|right].
    assert (r_version r ∈ take n vs) as (j & _ & Hj)%elem_upto by (rewrite <- E; by apply elem_of_list_fmap_1).
    exists j. split; [done|]. by eapply Forall_forall in Ho.
  Qed.
  Lemma good_place n l r : good n l -> r ∈ l -> exists m, (new_init :: vs) !! m = Some (r_version r).
  Proof. intros Hl Hr. destruct (good_elem n l r Hl Hr) as [->|(j & Hj & _)]; [by exists 0|by exists (S j)]. Qed.

  Lemma up_polite l d version : on_timeline vs d -> version <> Some (L "stage") -> polite Plain (up_program l d version).
  Proof.
    intros Ht Hver. unfold up_program. destruct (from_dir l d) as [h| | | |] eqn:Eh; cbn [pbind]; [|constructor..].
    apply polite_ensure. apply polite_current. intros n rows r Hl Hr.
    destruct (match version with Some v => get_version d v | None => get_current_version h d end) as [to| | | |] eqn:Eto; cbn [pbind]; [|constructor..].
    destruct (goal_not_stage l d h version to Ht Hver Eh Eto) as [_ Hs].
    destruct (get_upward_range d (v_name (r_version r)) (v_name to)) as [names| | | |] eqn:Er; cbn [pbind]; [|constructor..].
    destruct names as [|n0 names]; [constructor|].
    pose proof Ht as (Hw & _ & _). apply (range_named_iff _ _ _ _ Hw) in Er as [Hp _].
    destruct (good_place n rows r Hl Hr) as [m Hm].
    destruct (segment d m _ _ _ _ Ht Hp Hm eq_refl Hs) as (T & w & HT & _ & _ & Hf).
    eapply polite_apply; [done| |].
    - intros v (j & _ & Hj)%elem_between. by apply elem_of_list_lookup_2 in Hj.
    - cbn. constructor; constructor.
  Qed.

  Lemma polite_revert names f : Forall (fun n => n <> INIT) names -> polite Plain (f tt) ->
    polite Plain (pbind (p_revert_versions names) f).
  Proof.
    intros H Hf. induction H as [|n names Hn H IH]; [done|]. cbn. constructor; [|cbn; constructor]. intros k l Hl. cbn.
    destruct (filter (fun r => row_name r = n) l) as [|r [|]] eqn:E; cbn; try constructor.
    assert (row_name r = n) as Er.
    { assert (r ∈ filter (fun r => row_name r = n) l) as K by (rewrite E; by left). by apply elem_of_list_filter in K as [? _]. }
    assert (polite Plain (pbind (pbind (p_execute_all (v_down (r_version r)))
      (fun _ => pbind (punwrap (tell (DeleteRow (v_name (r_version r))))) (fun _ => p_revert_versions names))) f)) as K.
    { generalize (v_down (r_version r)) as stmts. intros stmts. induction stmts as [|stmt stmts IH'].
      - cbn. constructor; [|done|constructor]. rewrite <- Er in Hn. done.
      - cbn. constructor; cbn; [done|constructor]. }
    done.
  Qed.
  Lemma order_least n l m o : good n l ->
    match filter (fun r => row_name r = m) l with [] => Ret None | [r] => Ret (Some (r_order r)) | _ => Raise DbError end = Ret (Some o) ->
    (o0 <= o)%Z.
  Proof.
    intros Hl. destruct (filter (fun r => row_name r = m) l) as [|r [|]] eqn:E; intros [=]; subst.
    assert (r ∈ filter (fun r => row_name r = m) l) as K by (rewrite E; by left). apply elem_of_list_filter in K as [_ K].
    destruct (good_elem n l r Hl K) as [->|(j & _ & Hlt)]; simpl; lia.
  Qed.
  Lemma down_polite version : polite Plain (down_program version).
  Proof.
    unfold down_program. apply polite_ensure. apply polite_current. intros n rows r Hl Hr.
    destruct (match version with Some v => Some v | None => v_previous (r_version r) end) as [to|]; [|constructor].
    cbn. constructor; [|cbn; constructor]. intros n1 l1 Hl1. cbn.
    destruct (filter _ l1) as [|r1 [|]] eqn:E1; cbn; try constructor.
    - intros n2 l2 Hl2. cbn. destruct (filter _ l2) as [|r2 [|]]; cbn; constructor.
    - constructor.
    - intros n2 l2 Hl2. cbn. destruct (filter (fun r => row_name r = to) l2) as [|r2 [|]] eqn:E2; cbn; try constructor; [|constructor].
      intros n3 l3 Hl3. cbn.
      destruct (row_name <$> newest_first (filter (fun r => r_order r <= r_order r1 /\ r_order r2 < r_order r)%Z l3)) as [|n0 names] eqn:E3;
        [constructor|].
      apply polite_revert; [|cbn; constructor; constructor]. rewrite <- E3. apply Forall_forall. intros m Hm.
      apply elem_of_list_fmap in Hm as (r3 & -> & Hr3). rewrite newest_first_perm in Hr3.
      apply elem_of_list_filter in Hr3 as [[_ Hlt] Hr3].
      assert (o0 <= r_order r2)%Z as Hle by (apply (order_least n2 l2 to); [done|]; by rewrite E2).
      destruct (good_elem n3 l3 r3 Hl3 Hr3) as [->|(j & Hj & _)]; [simpl in Hlt; lia|].
      by apply (name_not_init vs Hvs j).
    - constructor.
  Qed.

  Lemma sane_welcome e : sane vs e -> welcome vs o0 e.
  Proof. destruct e as [i [l d version|version]|i|i|i]; simpl; try done. - intros [? ?]. by apply up_polite. - intros _. apply down_polite. Qed.
End programs.
