(** Several [down]s at the same time: rows only go away. *)
From Verif Require Import Base Text Types Changes Sql History SpecHistory HistoryLemmas HistoryLoad Dbh SpecDb DbLemmas DbSteps
  Concurrent SpecConcurrent ConcurrentLemmas ConcurrentPrograms ConcurrentClaims.
From stdpp Require Import sorting.

(** Programs that record nothing but init in a table of their own. *)
Inductive modest : phase -> program () -> Prop :=
  | modest_stop ph r : modest ph (Stop r)
  | modest_ask k : (forall b, modest Plain (k (Exists_ b))) -> modest Plain (k Failed) -> modest Plain (Ask AskSchema k)
  | modest_schema k : modest HasSchema (k Accepted) -> modest Plain (k Failed) -> modest Plain (Ask MakeSchema k)
  | modest_table k : modest HasTable (k Accepted) -> (exists r, k Failed = Stop r) -> modest HasSchema (Ask MakeTable k)
  | modest_init k : modest Plain (k Accepted) -> (exists r, k Failed = Stop r) -> modest HasTable (Ask (InsertRow new_init) k)
  | modest_select k : (forall l, modest Plain (k (Rows l))) -> modest Plain (k Failed) -> modest Plain (Ask Select k)
  | modest_delete n k : modest Plain (k Accepted) -> modest Plain (k Failed) -> modest Plain (Ask (DeleteRow n) k)
  | modest_execute stmt k : modest Plain (k Accepted) -> modest Plain (k Failed) -> modest Plain (Ask (Execute stmt) k)
  | modest_commit k : modest Plain (k Accepted) -> modest Plain (k Failed) -> modest Plain (Ask Commit k).

Lemma modest_revert names f : modest Plain (f tt) -> modest Plain (pbind (p_revert_versions names) f).
Proof.
  intros Hf. induction names as [|n names IH]; [done|]. cbn. constructor; [|cbn; constructor]. intros l. cbn.
  destruct (filter (fun r => row_name r = n) l) as [|r [|]]; cbn; try constructor.
  assert (forall stmts, modest Plain (pbind (pbind (p_execute_all stmts)
    (fun _ => pbind (punwrap (tell (DeleteRow (v_name (r_version r))))) (fun _ => p_revert_versions names))) f)) as K.
  { intros stmts. induction stmts as [|stmt stmts IH']; cbn; constructor; cbn; try constructor; done. }
  apply K.
Qed.
Lemma down_modest version : modest Plain (down_program version).
Proof.
  assert (modest Plain (go current <- p_current_version;
    match (match version with Some v => Some v | None => v_previous current end) with
    | None => Stop (Ret ())
    | Some to =>
        go versions <- p_downward_range (v_name current) to;
        match versions with
        | [] => Stop (Ret ())
        | _ => go _ <- p_revert_versions versions; tell Commit
        end
    end)) as K.
  { cbn. constructor; [|cbn; constructor]. intros []; cbn; [|constructor]. constructor; [|cbn; constructor]. intros l. cbn.
    destruct (newest_first l) as [|r rest]; cbn; [constructor|].
    destruct (match version with Some v => Some v | None => v_previous (r_version r) end) as [to|]; [|constructor].
    cbn. constructor; [|cbn; constructor]. intros l1. cbn. destruct (filter _ l1) as [|r1 [|]]; cbn.
    - constructor; [|cbn; constructor]. intros l2. cbn. destruct (filter _ l2) as [|r2 [|]]; cbn; constructor.
    - constructor; [|cbn; constructor]. intros l2. cbn. destruct (filter _ l2) as [|r2 [|]]; cbn; [constructor| |constructor].
      constructor; [|cbn; constructor]. intros l3. cbn.
      destruct (row_name <$> newest_first _) as [|n0 names]; [constructor|]. apply modest_revert. cbn. constructor; cbn; constructor.
    - constructor. }
  unfold down_program. cbn [pbind p_ensure_initialized p_meta_schema_exists]. constructor; [|cbn; constructor]. intros []; [exact K|].
  cbn [pbind tell]. constructor; [|cbn; constructor]. constructor; [|by eexists]. constructor; [exact K|by eexists].
Qed.

Lemma filter_sublist (P : row -> Prop) `{!forall r, Decision (P r)} (l : list row) : filter P l `sublist_of` l.
Proof. induction l as [|r l IH]; [constructor|]. rewrite filter_cons. destruct (decide (P r)); by constructor. Qed.
Section down.
  (** The table at the beginning. *)
  Context (o : option (option vtable)).
  Definition first_rows : list row := match o with Some (Some t) => t_rows t | _ => [Row new_init 1] end.
  Definition first_next : Z := match o with Some (Some t) => t_next t | _ => 2%Z end.

  Definition sinks (ph : phase) (x : transaction) : Prop :=
    match ph with
    | HasSchema => o = None /\ x_new x = Some None /\ x_rows x = [] /\ x_number x = None
    | HasTable => o = None /\ x_rows x = [] /\ exists z, x_new x = Some (Some z) /\
        ((exists r, x_program x = Stop r) \/ (z = 1%Z /\ x_number x = None) \/ (z = 2%Z /\ x_number x = Some 1%Z))
    | Plain => x_number x = None /\
        ((x_new x = None /\ x_rows x = []) \/ (o = None /\ x_new x = Some (Some 2%Z) /\ x_rows x `sublist_of` [Row new_init 1]))
    end.
  Definition lower (o' : option (option vtable)) : Prop :=
    match o' with
    | None => o = None
    | Some None => False
    | Some (Some t) => t_rows t `sublist_of` first_rows /\ t_next t = first_next
    end.
  Definition sinking (s : server) : Prop :=
    lower (s_table s) /\ forall i x, s_running s !! i = Some x -> exists ph, modest ph (x_program x) /\ sinks ph x.

  Lemma sinking_set s i x tr co en o' : sinking s -> lower o' -> (exists ph, modest ph (x_program x) /\ sinks ph x) ->
    sinking (Server o' (<[i := x]> (s_running s)) tr co en).
  Proof.
    intros [_ H] Ho Hx. split; [done|]. simpl. intros j y [[<- <-]|[_ Hy]]%lookup_insert_Some; [done|by eapply H].
  Qed.
  Lemma sinking_ends i r s : sinking s -> sinking (ends i r s).
  Proof. intros [H1 H2]. split; [done|]. simpl. intros j y [_ Hy]%lookup_delete_Some. by eapply H2. Qed.
  Lemma sinks_stop x r ph : sinks ph x -> exists ph', modest ph' (Stop r) /\ sinks ph' (set_program (Stop r) (drop_number x)).
  Proof.
    intros H. exists ph. split; [constructor|]. destruct ph; simpl in *.
    - naive_solver.
    - naive_solver.
    - destruct H as (H1 & H2 & z & H3 & _). split_and!; try done. exists z. split; [done|]. left. by eexists.
  Qed.
  Lemma sinks_stop' x r ph : sinks ph x -> exists ph', modest ph' (Stop r) /\ sinks ph' (set_program (Stop r) x).
  Proof.
    intros H. exists ph. split; [constructor|]. destruct ph; simpl in *; [done|done|].
    destruct H as (H1 & H2 & z & H3 & _). split_and!; try done. exists z. split; [done|]. left. by eexists.
  Qed.
  Lemma serve_sinks i q k x s : sinking s -> s_running s !! i = Some x -> x_program x = Ask q k ->
    match serve i q x s with
    | Waits => True
    | Proceeds x' s' => sinking (set_running i x' s')
    | Replies r x' s' => sinking (set_running i (set_program (k r) x') s')
    end.
  Proof.
    intros Hs Hx Ep. pose proof Hs as [Ho Hr]. destruct (Hr i x Hx) as (ph & Hm & Hsk). rewrite Ep in Hm.
    assert (forall p, modest Plain p -> ph = Plain -> sinking (set_running i (set_program p x) s)) as Hkeep.
    { intros p Hp ->. apply (sinking_set s); [done|done|]. by exists Plain. }
    inversion Hm as [|k' J1 J2|k' J1 J2|k' J1 [r J2]|k' J1 [r J2]|k' J1 J2|n k' J1 J2|stmt k' J1 J2|k' J1 J2]; subst; cbn [serve].
    - by apply Hkeep.
    - destruct (decide (is_Some (x_new x) \/ is_Some (s_table s))) as [|Hn]; [by apply Hkeep|]. destruct (decide _); [done|].
      assert (o = None) as Eo.
      { unfold lower in Ho. destruct (s_table s); [|done]. destruct Hn. right. by eexists. }
      apply (sinking_set s); [done|done|]. exists HasSchema. split; [done|]. destruct Hsk as (H1 & [[H2 H3]|(_ & H2 & _)]); [done|].
      destruct Hn. left. rewrite H2. by eexists.
    - destruct Hsk as (Eo & H1 & H2 & H3). rewrite H1. apply (sinking_set s); [done|done|]. exists HasTable. split; [done|].
      split_and!; try done. exists 1%Z. split; [done|]. right. by left.
    - destruct Hsk as (Eo & H1 & z & H2 & Hz). unfold insert_step, visible. rewrite H1, H2.
      assert (sinking (set_running i (set_program (k Failed) x) s) /\ sinking (set_running i (set_program (k Failed) (drop_number x)) s)) as [Hf1 Hf2].
      { rewrite J2. split; (apply (sinking_set s); [done|done|]).
        - apply (sinks_stop' x r HasTable). split_and!; [done|done|]. by exists z.
        - apply (sinks_stop x r HasTable). split_and!; [done|done|]. by exists z. }
      destruct Hz as [[r' Hz]|[[-> Hz]|[-> Hz]]]; [congruence|..]; rewrite Hz.
      + destruct (negb _); [done|]. destruct (decide _); [done|]. apply (sinking_set s); [done|done|]. exists HasTable. split; [simpl; by rewrite Ep|].
        split_and!; [done|done|]. exists 2%Z. split; [done|]. right. by right.
      + destruct (decide _); [done|]. destruct (decide _); [done|]. destruct (decide _); [done|]. destruct (decide _); [|done].
        apply (sinking_set s); [done|done|]. exists Plain. split; [done|]. split; [done|]. right. done.
    - apply Hkeep; [|done]. by destruct (visible x s).
    - unfold delete_step. destruct (visible x s) as [rows|]; [|by apply Hkeep]. destruct (decide _); [|by apply Hkeep].
      destruct (decide _); [done|]. destruct (decide _); [|by apply Hkeep]. destruct Hsk as (H1 & H2). destruct (decide _).
      + apply (sinking_set s); [done|done|]. exists Plain. split; [done|]. split; [done|]. simpl.
        destruct H2 as [[H2 H3]|(H2 & H3 & H4)]; [left; by rewrite H3|right]. split_and!; [done|done|].
        etrans; [|exact H4]. apply filter_sublist.
      + apply (sinking_set s); [done|done|]. by exists Plain.
    - apply (sinking_set s); [done|done|]. by exists Plain.
    - apply (sinking_set s); [done| |exists Plain; split; [done|]; split; [done|by left]].
      destruct Hsk as (H1 & [[H2 H3]|(H2 & H3 & H4)]); unfold outcome_of; [|rewrite H3].
      + rewrite H2. destruct (s_table s) as [[t|]|]; [|done..]. simpl in *. rewrite H3, app_nil_r. split; [|apply Ho].
        etrans; [apply filter_sublist|apply Ho].
      + simpl. unfold first_rows, first_next. by rewrite H2.
  Qed.
End down.

Lemma unfolds_sinks o es : forall s s', Forall downward es -> sinking o s -> unfolds es s = Some s' -> sinking o s'.
Proof.
  induction es as [|e es IH]; intros s s' Hd Hs H; simpl in H; [by injection H as <-|].
  apply Forall_cons in Hd as [He Hd]. destruct (happen e s) as [s1|] eqn:E; [|done]. apply (IH s1); [done| |done]. clear IH H.
  destruct e as [i c|i|i|i]; simpl in E.
  - destruct (decide _); [|done]. injection E as <-. destruct c as [|version]; [done|]. apply sinking_set; [done|apply Hs|].
    exists Plain. split; [apply down_modest|]. split; [done|by left].
  - destruct (s_running s !! i) as [x|] eqn:Hx; [|done]. destruct (x_program x) as [r|q k] eqn:Ep; [injection E as <-; by apply sinking_ends|].
    pose proof (serve_sinks o i q k x s Hs Hx Ep) as K. destruct (serve i q x s); [done|..]; by injection E as <-.
  - destruct (s_running s !! i) as [x|] eqn:Hx; [|done]. destruct (x_program x) as [r|q k] eqn:Ep; [done|]. injection E as <-.
    pose proof Hs as [Ho Hr]. destruct (Hr i x Hx) as (ph & Hm & Hsk). rewrite Ep in Hm. apply sinking_set; [done|done|].
    assert (forall p, modest Plain p -> ph = Plain -> exists ph', modest ph' p /\ sinks o ph' (set_program p (drop_number x))) as Hplain.
    { intros p Hp ->. exists Plain. split; [done|]. by destruct Hsk. }
    inversion Hm as [|k' J1 J2|k' J1 J2|k' J1 [r J2]|k' J1 [r J2]|k' J1 J2|n k' J1 J2|stmt k' J1 J2|k' J1 J2]; subst; try (by apply Hplain).
    + simpl. rewrite J2. by eapply sinks_stop.
    + simpl. rewrite J2. by eapply sinks_stop.
  - destruct (s_running s !! i) as [x|] eqn:Hx; [|done]. injection E as <-. by apply sinking_ends.
Qed.

Lemma sublist_in {A} (l l' : list A) x : l `sublist_of` l' -> x ∈ l -> x ∈ l'.
Proof. induction 1 as [|y l l' Hl IH|y l l' Hl IH]; [done|..]; rewrite ?elem_of_cons; naive_solver. Qed.
Lemma sublist_sorted (l l' : list row) : l `sublist_of` l' -> StronglySorted Z.lt (r_order <$> l') -> StronglySorted Z.lt (r_order <$> l).
Proof.
  induction 1 as [|x l l' Hl IH|x l l' Hl IH]; intros Hs; [done|..]; rewrite fmap_cons in *; apply StronglySorted_inv in Hs as [Hs Hf].
  - constructor; [by apply IH|]. apply Forall_forall. intros z (r & -> & Hr)%elem_of_list_fmap.
    eapply (proj1 (Forall_forall _ _) Hf). apply elem_of_list_fmap_1. by eapply sublist_in.
  - by apply IH.
Qed.
Lemma downs_only_remove vs m es s s' : timeline vs -> idle s -> begins vs m (s_table s) -> Forall downward es -> unfolds es s = Some s' ->
  s_table s' = None \/ exists n t, n <= m /\ s_table s' = Some (Some t) /\ records vs n t /\ numbered_up t.
Proof.
  intros Hvs Hi Hb Hes H.
  assert (Forall (sane vs) es) as Hsane by (eapply Forall_impl; [exact Hes|]; by intros [? []| | |]).
  destruct (chain_survives vs m es s s' Hvs Hi Hb Hsane H) as [|(n & t & Et & Hn)]; [by left|]. right. exists n, t.
  assert (sinking (s_table s) s) as Hs.
  { destruct Hi as (E1 & _). split; [|rewrite E1; by intros i x ?%lookup_empty_Some].
    destruct Hb as [[-> _]|(t0 & -> & _)]; simpl; done. }
  pose proof (unfolds_sinks _ es s s' Hes Hs H) as [K _]. rewrite Et in K. simpl in K. destruct K as [K1 K2].
  assert (length (first_rows (s_table s)) = S m /\ StronglySorted Z.lt (r_order <$> first_rows (s_table s)) /\
    Forall (fun o => o < first_next (s_table s))%Z (r_order <$> first_rows (s_table s))) as (H1 & H2 & H3).
  { destruct Hb as [[-> ->]|(t0 & -> & [Hm Hr] & [Hs1 Hs2])]; simpl.
    - split_and!; [done|repeat constructor|repeat constructor]. all: lia.
    - split; [|done]. rewrite <- (fmap_length r_version), Hr. simpl. rewrite take_length. lia. }
  split; [|split; [done|]; split; [done|]].
  - apply sublist_length in K1. rewrite H1 in K1. destruct Hn as [Hn Hr]. rewrite <- (fmap_length r_version), Hr in K1. simpl in K1.
    rewrite take_length in K1. lia.
  - split; [by eapply sublist_sorted|]. rewrite K2. apply Forall_forall. intros z (r & -> & Hr)%elem_of_list_fmap.
    apply (proj1 (Forall_forall _ _) H3). apply elem_of_list_fmap_1. by eapply sublist_in.
Qed.
