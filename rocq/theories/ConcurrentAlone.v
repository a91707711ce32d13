(** A command on its own: every run of Dbh.v is a run of the server of Concurrent.v. *)
From Verif Require Import Base Text Types Changes Sql History SpecHistory HistoryLemmas HistoryLoad Dbh SpecDb DbLemmas DbSteps
  Concurrent ConcurrentRefine SpecConcurrent ConcurrentLemmas ConcurrentPrograms ConcurrentClaims.

(** Nothing but the end comes after a commit. *)
Inductive commits_last : program () -> Prop :=
  | last_stop r : commits_last (Stop r)
  | last_ask q k : q <> Commit -> (forall r, commits_last (k r)) -> commits_last (Ask q k)
  | last_commit k : (forall r, exists r', k r = Stop r') -> commits_last (Ask Commit k).
(** Programs that do not commit. *)
Inductive no_commit {A} : program A -> Prop :=
  | no_commit_stop r : no_commit (Stop r)
  | no_commit_ask q k : q <> Commit -> (forall r, no_commit (k r)) -> no_commit (Ask q k).
Lemma no_commit_bind {A B} (m : program A) (f : A -> program B) : no_commit m -> (forall a, no_commit (f a)) -> no_commit (pbind m f).
Proof. intros Hm Hf. induction Hm as [r|q k Hq Hk IH]; [destruct r; cbn; [apply Hf|constructor..]|]. cbn. by constructor. Qed.
Lemma last_after {A} (m : program A) f : no_commit m -> (forall a, commits_last (f a)) -> commits_last (pbind m f).
Proof. intros Hm Hf. induction Hm as [r|q k Hq Hk IH]; [destruct r; cbn; [apply Hf|constructor..]|]. cbn. by constructor. Qed.
Lemma no_commit_unwrap {A} (m : program A) : no_commit m -> no_commit (punwrap m).
Proof. induction 1 as [r|q k Hq Hk IH]; cbn; by constructor. Qed.
Lemma no_commit_tell q : q <> Commit -> no_commit (tell q).
Proof. intros Hq. constructor; [done|]. intros []; constructor. Qed.
Lemma no_commit_select {A} (f : list row -> exec A) : no_commit (select f).
Proof. constructor; [done|]. intros []; constructor. Qed.
Lemma no_commit_exists : no_commit p_meta_schema_exists.
Proof. constructor; [done|]. intros []; constructor. Qed.
Lemma no_commit_ensure : no_commit p_ensure_initialized.
Proof.
  apply no_commit_bind; [apply no_commit_exists|]. intros []; [constructor|].
  apply no_commit_bind; [by apply no_commit_tell|]. intros _. apply no_commit_bind; [by apply no_commit_tell|]. intros _. by apply no_commit_tell.
Qed.
Lemma no_commit_current : no_commit p_current_version.
Proof. apply no_commit_bind; [apply no_commit_exists|]. intros []; [apply no_commit_select|constructor]. Qed.
Lemma no_commit_execute stmts : no_commit (p_execute_all stmts).
Proof.
  induction stmts as [|stmt stmts IH]; [constructor|]. apply no_commit_bind; [|done]. by apply no_commit_unwrap, no_commit_tell.
Qed.
Lemma no_commit_apply d names : no_commit (p_apply_versions d names).
Proof.
  induction names as [|n names IH]; [constructor|]. apply no_commit_bind; [constructor|]. intros v.
  apply no_commit_bind; [apply no_commit_execute|]. intros _. apply no_commit_bind; [|done]. by apply no_commit_unwrap, no_commit_tell.
Qed.
Lemma no_commit_revert names : no_commit (p_revert_versions names).
Proof.
  induction names as [|n names IH]; [constructor|]. apply no_commit_bind; [apply no_commit_unwrap, no_commit_select|]. intros v.
  apply no_commit_bind; [apply no_commit_execute|]. intros _. apply no_commit_bind; [|done]. by apply no_commit_unwrap, no_commit_tell.
Qed.
Lemma last_tell : commits_last (tell Commit).
Proof. apply last_commit. intros []; by eexists. Qed.
Lemma up_commits_last l d version : commits_last (up_program l d version).
Proof.
  apply last_after; [constructor|]. intros h. apply last_after; [apply no_commit_ensure|]. intros _.
  apply last_after; [apply no_commit_current|]. intros c. apply last_after; [constructor|]. intros to. apply last_after; [constructor|].
  intros [|n ns]; [constructor|]. apply last_after; [apply no_commit_apply|]. intros _. apply last_tell.
Qed.
Lemma no_commit_range a b : no_commit (p_downward_range a b).
Proof.
  apply no_commit_bind; [apply no_commit_select|]. intros f. apply no_commit_bind; [apply no_commit_select|]. intros t.
  destruct f, t; [apply no_commit_select|constructor..].
Qed.
Lemma down_commits_last version : commits_last (down_program version).
Proof.
  apply last_after; [apply no_commit_ensure|]. intros _. apply last_after; [apply no_commit_current|]. intros c.
  destruct (match version with Some v => Some v | None => v_previous c end); [|constructor].
  apply last_after; [apply no_commit_range|]. intros [|n ns]; [constructor|]. apply last_after; [apply no_commit_revert|]. intros _. apply last_tell.
Qed.

Section alone.
  Context {S : Type} (sem : str -> S -> option S) (ident : str -> option str) (schema : str) (Hid : ident schema = Some schema).
  Context (i : nat) (u0 : S).

  (** What the transaction sees of the table. *)
  Definition seen (x : transaction) (s : server) : option (option vtable) :=
    match x_new x with
    | Some (Some z) => Some (Some (VTable (x_rows x) z))
    | Some None => Some None
    | None =>
        match s_table s with
        | Some (Some t) => Some (Some (VTable (filter (fun r => row_name r ∉ x_gone x) (t_rows t) ++ x_rows x) (t_next t)))
        | o => o
        end
    end.
  Record agree (s : server) (x : transaction) (ss : session S) : Prop := {
    agree_running : s_running s = {[i := x]};
    agree_back : pg_schemas (rolled_back ss) !! schema = s_table s;
    agree_seen : pg_schemas (working ss) !! schema = seen x s;
    agree_number : x_number x = None;
    agree_new : is_Some (x_new x) -> pg_schemas (committed ss) !! schema = None;
    agree_names : forall t, seen x s = Some (Some t) -> NoDup (row_name <$> t_rows t);
    agree_rows : (forall t, seen x s <> Some (Some t)) -> x_rows x = [];
    agree_trace : Forall (fun e => e.1 = i) (s_trace s);
    agree_user : (s_committed s = [] /\ s_table s <> Some None /\ pg_user (committed ss) = u0 /\ runs sem (snd <$> s_trace s) u0 (pg_user (working ss))) \/
      (s_committed s = [i] /\ runs sem (snd <$> s_trace s) u0 (pg_user (committed ss)) /\ exists r, x_program x = Stop r) }.

  Lemma back_lookup (ss : session S) : pg_schemas (rolled_back ss) !! schema =
    match pg_schemas (committed ss) !! schema with
    | Some (Some t) => Some (match pg_schemas (working ss) !! schema with Some (Some t') => Some (advance t t') | _ => Some t end)
    | o => o
    end.
  Proof.
    unfold rolled_back. simpl. rewrite map_lookup_imap. destruct (pg_schemas (committed ss) !! schema) as [[t|]|]; simpl; [|done..].
    by destruct (pg_schemas (working ss) !! schema) as [[t'|]|].
  Qed.
  Lemma visible_seen x s : visible x s = match seen x s with Some (Some t) => Some (t_rows t) | _ => None end.
  Proof. unfold visible, seen. destruct (x_new x) as [[z|]|]; [done..|]. by destruct (s_table s) as [[t|]|]. Qed.
  Lemma others_none s x : s_running s = {[i := x]} -> others i s = [].
  Proof. intros E. unfold others. rewrite E, delete_singleton. by rewrite map_to_list_empty. Qed.

  (** The same server, the program gets a reply. *)
  Lemma agree_reply s x ss p : agree s x ss -> (exists q k, x_program x = Ask q k) -> agree (set_running i (set_program p x) s) (set_program p x) ss.
  Proof.
    intros [H1 H2 H3 H4 H5 H6 H9 H7 H8] (q & k & Ep). split; simpl; try done.
    - rewrite H1. apply insert_singleton.
    - destruct H8 as [H8|(_ & _ & r & E)]; [by left|congruence].
  Qed.
  Lemma agree_dropped s x ss p : agree s x ss -> (exists q k, x_program x = Ask q k) ->
    agree (set_running i (set_program p (drop_number x)) s) (set_program p (drop_number x)) ss.
  Proof.
    intros H E. pose proof (agree_number _ _ _ H) as En. destruct x as [px nx zx rx gx]. simpl in En. subst zx. exact (agree_reply s _ ss p H E).
  Qed.
  (** The table that the transaction sees becomes another one; the sequence behind the committed one goes along. *)
  Lemma agree_table s x ss p t t' x' o' : agree s x ss -> (exists q k, x_program x = Ask q k) ->
    seen x s = Some (Some t) -> x_program x' = p -> x_number x' = None -> (is_Some (x_new x') <-> is_Some (x_new x)) ->
    NoDup (row_name <$> t_rows t') ->
    (x_new x = None -> forall t0, s_table s = Some (Some t0) -> o' = Some (Some (VTable (t_rows t0) (t_next t')))) ->
    (is_Some (x_new x) -> o' = s_table s) ->
    seen x' (set_table o' s) = Some (Some t') ->
    agree (Server o' {[i := x']} (s_trace s) (s_committed s) (s_ended s)) x'
      (Session (committed ss) (Pg (pg_user (working ss)) (<[schema := Some t']> (pg_schemas (working ss))))).
  Proof.
    intros [H1 H2 H3 H4 H5 H6 H9 H7 H8] (q & k & Ep) Hseen Hp Hnum Hnew Hnd Ho1 Ho2 Hseen'.
    split; cbn [s_running s_table s_trace s_committed s_ended working committed pg_schemas pg_user]; try done.
    - rewrite back_lookup in *. cbn [working committed pg_schemas]. rewrite lookup_insert. destruct (x_new x) as [z|] eqn:En.
      + rewrite (H5 ltac:(by eexists)) in *. rewrite Ho2 by (by eexists). done.
      + rewrite H3, Hseen in H2. unfold seen in Hseen. rewrite En in Hseen.
        destruct (s_table s) as [[t0|]|] eqn:Et; [|done..]. rewrite (Ho1 eq_refl t0 eq_refl).
        destruct (pg_schemas (committed ss) !! schema) as [[tc|]|]; [|done..]. by injection H2 as <-.
    - rewrite lookup_insert. by rewrite <- Hseen'.
    - intros K. apply H5. by apply Hnew.
    - intros t1 E1. assert (Some (Some t1) = Some (Some t')) as [= ->] by (by rewrite <- E1, <- Hseen'). done.
    - intros K. by destruct (K t').
    - destruct H8 as [(E1 & E2 & E3)|(_ & _ & r & E)]; [left|congruence]. split; [done|]. split; [|done].
      destruct (x_new x) as [z|] eqn:En; [by rewrite Ho2 by (by eexists)|]. unfold seen in Hseen. rewrite En in Hseen.
      destruct (s_table s) as [[t0|]|]; [|done..]. by rewrite (Ho1 eq_refl t0 eq_refl).
  Qed.
  Lemma unfolds_one e s s' : happen e s = Some s' -> unfolds [e] s = Some s'.
  Proof. intros H. simpl. by rewrite H. Qed.

  Lemma fail_once s x q k : s_running s = {[i := x]} -> x_program x = Ask q k ->
    happen (Fails i) s = Some (set_running i (set_program (k Failed) (drop_number x)) s).
  Proof. intros H1 Ep. simpl. by rewrite H1, lookup_singleton, Ep. Qed.
  Lemma step_once s x q k r x' s' : s_running s = {[i := x]} -> x_program x = Ask q k -> serve i q x s = Replies r x' s' ->
    happen (Step i) s = Some (set_running i (set_program (k r) x') s').
  Proof. intros H1 Ep Es. simpl. by rewrite H1, lookup_singleton, Ep, Es. Qed.

  Definition goes (s : server) (p : program ()) (ss1 : session S) : Prop :=
    exists es s1 x1, unfolds es s = Some s1 /\ Forall (own i) es /\ x_program x1 = p /\ agree s1 x1 ss1.
  Lemma goes_one e s s1 x1 p ss1 : happen e s = Some (set_running i x1 s1) -> own i e -> x_program x1 = p ->
    agree (set_running i x1 s1) x1 ss1 -> goes s p ss1.
  Proof. intros H He Hp Ha. exists [e], (set_running i x1 s1), x1. split; [by apply unfolds_one|]. split; [by repeat constructor|]. done. Qed.
  Lemma goes_failed s x q k ss : agree s x ss -> x_program x = Ask q k -> goes s (k Failed) ss.
  Proof.
    intros H Ep. eapply (goes_one (Fails i)); [by eapply fail_once; [apply H|]|done| |apply agree_dropped; [done|by eauto]]. done.
  Qed.

  Lemma delete_seen x s n t : seen x s = Some (Some t) -> NoDup (row_name <$> t_rows t) -> n ∈ row_name <$> t_rows t ->
    seen (if decide (n ∈ row_name <$> x_rows x)
          then Transaction (x_program x) (x_new x) (x_number x) (filter (fun r => row_name r <> n) (x_rows x)) (x_gone x)
          else Transaction (x_program x) (x_new x) (x_number x) (x_rows x) (n :: x_gone x)) s =
      Some (Some (VTable (filter (fun r => row_name r <> n) (t_rows t)) (t_next t))).
  Proof.
    assert (forall l : list row, n ∉ row_name <$> l -> filter (fun r => row_name r <> n) l = l) as Hkeep.
    { intros l. induction l as [|r l IH]; [done|]. rewrite fmap_cons, not_elem_of_cons. intros [K1 K2]. rewrite filter_cons_True by done.
      by rewrite IH. }
    intros Hs Hnd Hn. unfold seen in *. destruct (x_new x) as [[z|]|] eqn:En; [|done|].
    - injection Hs as <-. simpl in *. destruct (decide _); [|done]. done.
    - destruct (s_table s) as [[t0|]|]; [|done..]. injection Hs as <-. simpl in *. rewrite fmap_app in Hnd, Hn.
      apply NoDup_app in Hnd as (Hn1 & Hn2 & Hn3). destruct (decide _) as [Hin|Hin]; simpl; rewrite filter_app.
      + do 3 f_equal. f_equal. symmetry. apply Hkeep. intros K. by apply (Hn2 n).
      + rewrite (Hkeep (x_rows x)) by done. do 3 f_equal. rewrite list_filter_filter. f_equal. apply list_filter_iff. intros r.
        rewrite not_elem_of_cons. naive_solver.
  Qed.

  Lemma ask_ok s x ss q k kb rep kb' ss1 : agree s x ss -> x_program x = Ask q k -> commits_last (Ask q k) ->
    asked sem ident schema q (Datatypes.S kb, ss) = (Ret rep, (kb', ss1)) -> goes s (k rep) ss1.
  Proof.
    intros Ha Ep Hl H. pose proof (agree_running _ _ _ Ha) as Hrun. pose proof (agree_number _ _ _ Ha) as Hnum.
    pose proof (agree_seen _ _ _ Ha) as Hseen. pose proof (visible_seen x s) as Hvis. pose proof (others_none _ _ Hrun) as Hoth.
    assert (exists q k, x_program x = Ask q k) as Hask by eauto.
    assert (forall rep ss1, (rep, ss1) = (Failed, ss) -> goes s (k rep) ss1) as Hf.
    { intros ? ? [= -> ->]. by eapply goes_failed. }
    assert (forall r, serve i q x s = Replies r x s -> goes s (k r) ss) as Hsame.
    { intros r Es. eapply (goes_one (Step i)); [by eapply step_once|done| |by apply agree_reply]. done. }
    destruct q as [| | |v|n| |stmt|]; simpl in H; unfold ibind, replied, istep in H; simpl in H.
    - (* AskSchema *)
      injection H as <- <- <-. apply Hsame. cbn. do 2 f_equal. apply bool_decide_ext.
      unfold meta_schema_exists. rewrite Hseen. unfold seen. 
      destruct (x_new x) as [[z|]|]; [split; intros _; [|left]; by eexists..|].
      destruct (s_table s) as [[t|]|]; [split; intros _; [|right]; by eexists..|]. split; [intros [[? ?]|[? ?]]|intros [? ?]]; done.
    - (* MakeSchema *)
      unfold create_schema, istep in H. rewrite Hid, Hseen in H. destruct (seen x s) as [o|] eqn:Es; [by injection H as <- <- <-; apply Hf|].
      injection H as <- <- <-.
      assert (x_new x = None /\ s_table s = None) as [En Et].
      { unfold seen in Es. destruct (x_new x) as [[z|]|]; [done..|]. by destruct (s_table s) as [[t|]|]. }
      eapply (goes_one (Step i)); [eapply step_once; [done|done|]|done|..].
      + cbn. rewrite decide_False by (rewrite En, Et; intros [[? ?]|[? ?]]; done). rewrite decide_False; [done|]. rewrite Hoth. by intros ?%Exists_nil.
      + done.
      + destruct Ha as [H1 H2 H3 H4 H5 H6 H9 H7 H8].
        assert (pg_schemas (committed ss) !! schema = None) as Ec.
        { rewrite back_lookup, Et in H2. by destruct (pg_schemas (committed ss) !! schema) as [[t|]|]. }
        split; cbn [s_running s_table s_trace s_committed s_ended working committed pg_schemas pg_user set_running set_program x_number x_new x_program]; try done.
        * rewrite H1. apply insert_singleton.
        * rewrite back_lookup in *. cbn [working committed pg_schemas]. by rewrite Ec in *.
        * by rewrite lookup_insert.
        * intros _. simpl. apply H9. by rewrite Es.
        * destruct H8 as [H8|(_ & _ & r & E)]; [by left|congruence].
    - (* MakeTable *)
      unfold create_table, istep in H. rewrite Hid, Hseen in H. destruct (seen x s) as [[t|]|] eqn:Es; [by injection H as <- <- <-; apply Hf| |by injection H as <- <- <-; apply Hf].
      injection H as <- <- <-. destruct Ha as [H1 H2 H3 H4 H5 H6 H9 H7 H8].
      destruct H8 as [(E1 & E2 & E3)|(_ & _ & r & E)]; [|congruence].
      assert (x_new x = Some None) as En.
      { unfold seen in Es. destruct (x_new x) as [[z|]|]; [done|done|]. by destruct (s_table s) as [[t|]|] eqn:Et. }
      eapply (goes_one (Step i)); [eapply step_once; [done|done|]|done|..].
      + cbn. by rewrite En.
      + done.
      + split; cbn [s_running s_table s_trace s_committed s_ended working committed pg_schemas pg_user set_running set_program x_number x_new x_program]; try done.
        * rewrite H1. apply insert_singleton.
        * rewrite back_lookup in *. cbn [working committed pg_schemas]. by rewrite (H5 ltac:(by rewrite En; eexists)) in *.
        * rewrite lookup_insert. unfold seen. simpl. by rewrite H9 by (rewrite Es; done).
        * intros _. apply H5. rewrite En. by eexists.
        * intros t. unfold seen. simpl. intros [= <-]. simpl. rewrite H9 by (rewrite Es; done). constructor.
        * intros K. apply H9. by rewrite Es.
        * by left.
    - (* InsertRow *)
      unfold record_version, on_table, istep in H. rewrite Hid, Hseen in H.
      destruct (seen x s) as [[t|]|] eqn:Es; [|by injection H as <- <- <-; apply Hf..].
      assert (pg_schemas (working ss) = <[schema := Some t]> (pg_schemas (working ss))) as Esame by (by rewrite insert_id).
      unfold insert_row in H.
      destruct (negb _) eqn:Efit.
      { injection H as <- <- <-. rewrite <- Esame. apply Hf. by destruct ss as [? []]. }
      destruct (decide (max_order < t_next t)%Z) as [|Hmax].
      { injection H as <- <- <-. rewrite <- Esame. apply Hf. by destruct ss as [? []]. }
      (* the number is drawn *)
      set (x1 := Transaction (x_program x) (match x_new x with Some (Some z) => Some (Some (z + 1)%Z) | o => o end) (Some (t_next t)) (x_rows x) (x_gone x)).
      set (o1 := match x_new x, s_table s with None, Some (Some t0) => Some (Some (VTable (t_rows t0) (t_next t0 + 1))) | _, o => o end).
      assert (happen (Step i) s = Some (set_running i x1 (set_table o1 s))) as Hdraw.
      { simpl. rewrite Hrun, lookup_singleton, Ep. cbn [serve]. unfold insert_step. rewrite Hvis, Hnum, Efit. unfold x1, o1. unfold seen in Es.
        destruct (x_new x) as [[z|]|] eqn:En; [|done|].
        - injection Es as <-. simpl in *. rewrite decide_False by done. by destruct s.
        - destruct (s_table s) as [[t0|]|] eqn:Et; [|done..]. injection Es as <-. simpl in *. by rewrite decide_False by done. }
      assert (seen x1 (set_table o1 s) = Some (Some (VTable (t_rows t) (t_next t + 1)))) as Es1.
      { unfold seen in *. unfold x1, o1. simpl. destruct (x_new x) as [[z|]|]; [by injection Es as <-|done|].
        destruct (s_table s) as [[t0|]|]; [|done..]. by injection Es as <-. }
      assert (forall p, agree (set_running i (set_program p (drop_number x1)) (set_table o1 s)) (set_program p (drop_number x1))
        (Session (committed ss) (Pg (pg_user (working ss)) (<[schema := Some (VTable (t_rows t) (t_next t + 1))]> (pg_schemas (working ss)))))) as Hdrawn.
      { intros p. unfold set_running. simpl. rewrite Hrun, insert_singleton. eapply (agree_table s x ss p t); try done.
        - simpl. destruct (x_new x) as [[]|]; naive_solver.
        - simpl. by apply (agree_names _ _ _ Ha).
        - unfold o1. intros En t0 Et. rewrite En, Et. simpl. do 3 f_equal. unfold seen in Es. rewrite En, Et in Es. by injection Es as <-.
        - unfold o1. intros [z ->]. done. }
      set (s1 := set_running i x1 (set_table o1 s)) in *.
      assert (s_running s1 = {[i := x1]}) as Hrun1 by (simpl; by rewrite Hrun, insert_singleton).
      assert (visible x1 s1 = Some (t_rows t)) as Hvis1.
      { rewrite visible_seen. change (seen x1 s1) with (seen x1 (set_table o1 s)). by rewrite Es1. }
      assert (forall r x2, serve i (InsertRow v) x1 s1 = Replies r x2 s1 ->
        forall ss2, agree (set_running i (set_program (k r) x2) s1) (set_program (k r) x2) ss2 -> goes s (k r) ss2) as Hplace.
      { intros r x2 Esv ss2 Hag. exists [Step i; Step i], (set_running i (set_program (k r) x2) s1), (set_program (k r) x2).
        split; [|by split; [repeat constructor|]]. change [Step i; Step i] with ([Step i] ++ [Step i]).
        rewrite unfolds_app, (unfolds_one _ _ _ Hdraw). apply unfolds_one. by eapply step_once. }
      assert (forall p x2, set_running i (set_program p x2) s1 = set_running i (set_program p x2) (set_table o1 s)) as Hset.
      { intros p x2. unfold s1, set_running. simpl. by rewrite insert_insert. }
      assert (serve i (InsertRow v) x1 s1 =
        if decide (v_name v ∈ row_name <$> t_rows t) then Replies Failed (drop_number x1) s1 else
        if decide (t_next t ∈ r_order <$> t_rows t) then Replies Failed (drop_number x1) s1 else
        if decide (Forall (fun p => p = v_name v \/ p ∈ row_name <$> t_rows t) (option_list (v_previous v)))
        then Replies Accepted (Transaction (x_program x1) (x_new x1) None (x_rows x1 ++ [Row v (t_next t)]) (x_gone x1)) s1
        else Replies Failed (drop_number x1) s1) as Esv.
      { cbn [serve]. unfold insert_step. rewrite Hvis1. cbn [x_number x1]. rewrite (others_none s1 x1 Hrun1), decide_False; [done|].
        by intros ?%Exists_nil. }
      destruct (decide (v_name v ∈ row_name <$> t_rows t)) as [|Hfresh].
      { injection H as <- <- <-. eapply Hplace; [done|]. rewrite Hset. apply Hdrawn. }
      destruct (decide (t_next t ∈ r_order <$> t_rows t)).
      { injection H as <- <- <-. eapply Hplace; [done|]. rewrite Hset. apply Hdrawn. }
      assert (agree (set_running i (set_program (k Accepted) (Transaction (x_program x1) (x_new x1) None (x_rows x1 ++ [Row v (t_next t)]) (x_gone x1))) s1)
        (set_program (k Accepted) (Transaction (x_program x1) (x_new x1) None (x_rows x1 ++ [Row v (t_next t)]) (x_gone x1)))
        (Session (committed ss) (Pg (pg_user (working ss))
          (<[schema := Some (VTable (t_rows t ++ [Row v (t_next t)]) (t_next t + 1))]> (pg_schemas (working ss)))))) as Hadded.
      { rewrite Hset. unfold set_running. simpl. rewrite Hrun, insert_singleton. eapply (agree_table s x ss (k Accepted) t); try done.
        - simpl. destruct (x_new x) as [[]|]; naive_solver.
        - simpl. rewrite fmap_app. apply NoDup_app. split; [by apply (agree_names _ _ _ Ha)|]. split; [|apply NoDup_singleton].
          intros m Hm ->%elem_of_list_singleton. done.
        - unfold o1. intros En t0 Et. rewrite En, Et. simpl. do 3 f_equal. unfold seen in Es. rewrite En, Et in Es. by injection Es as <-.
        - unfold o1. intros [z ->]. done.
        - unfold seen in *. unfold o1. simpl. destruct (x_new x) as [[z|]|]; [by injection Es as <-|done|].
          destruct (s_table s) as [[t0|]|]; [|done..]. injection Es as <-. simpl. by rewrite <- app_assoc. }
      destruct (v_previous v) as [p|] eqn:Epv; simpl in Esv.
      + destruct (decide (p = v_name v \/ p ∈ row_name <$> t_rows t)) as [Hp|Hp]; injection H as <- <- <-.
        * rewrite decide_True in Esv by (by constructor). by eapply Hplace.
        * rewrite decide_False in Esv by (by rewrite Forall_singleton). eapply Hplace; [done|]. rewrite Hset. apply Hdrawn.
      + injection H as <- <- <-. by eapply Hplace.
    - (* DeleteRow *)
      unfold on_table, istep in H. rewrite Hid, Hseen in H.
      destruct (seen x s) as [[t|]|] eqn:Es; [|by injection H as <- <- <-; apply Hf..].
      assert (Session (committed ss) (Pg (pg_user (working ss)) (<[schema := Some t]> (pg_schemas (working ss)))) = ss) as Esame.
      { rewrite insert_id by done. by destruct ss as [? []]. }
      unfold delete_row in H. set (rest := filter (fun r => row_name r <> n) (t_rows t)) in *.
      assert (filter (fun r => row_name r <> n /\ v_previous (r_version r) = Some n) (t_rows t) = [] <->
        Some n ∉ (fun r => v_previous (r_version r)) <$> rest) as Hrefers.
      { split.
        - intros K (r & E & Hr)%elem_of_list_fmap. apply elem_of_list_filter in Hr as [Hr1 Hr2].
          assert (r ∈ filter (fun r => row_name r <> n /\ v_previous (r_version r) = Some n) (t_rows t)) as K' by (by apply elem_of_list_filter).
          rewrite K in K'. by apply elem_of_nil in K'.
        - intros K. apply filter_none. intros r Hr [Hr1 Hr2]. apply K. apply elem_of_list_fmap. exists r. split; [done|].
          by apply elem_of_list_filter. }
      destruct (decide (n ∈ row_name <$> t_rows t)) as [Hn|Hn].
      + destruct (decide (n ∈ row_name <$> t_rows t /\ Some n ∈ (fun r => v_previous (r_version r)) <$> rest)) as [Hbad|Hgood].
        { injection H as <- <- <-. rewrite Esame. by apply Hf. }
        injection H as <- <- <-.
        pose proof (delete_seen x s n t Es (agree_names _ _ _ Ha t Es) Hn) as Hdel.
        set (x' := if decide (n ∈ row_name <$> x_rows x)
          then Transaction (x_program x) (x_new x) (x_number x) (filter (fun r => row_name r <> n) (x_rows x)) (x_gone x)
          else Transaction (x_program x) (x_new x) (x_number x) (x_rows x) (n :: x_gone x)) in *.
        assert (x_new x' = x_new x /\ x_number x' = None) as [En' Enum'] by (unfold x'; by destruct (decide _)).
        eapply (goes_one (Step i) s s (set_program (k Accepted) x')); [eapply step_once; [done|done|]|done|done|].
        * cbn [serve]. unfold delete_step. rewrite Hvis, decide_True by done. rewrite Hoth, decide_False by (by intros ?%Exists_nil).
          rewrite decide_True by (apply Hrefers; naive_solver). unfold x'. by destruct (decide _).
        * unfold set_running. rewrite Hrun, insert_singleton. eapply (agree_table s x ss (k Accepted) t); try done.
          -- simpl. by rewrite En'.
          -- simpl. apply (agree_names _ _ _ Ha) in Es. unfold rest. clear -Es. induction (t_rows t) as [|r l IH]; [constructor|].
             rewrite fmap_cons in Es. apply NoDup_cons in Es as [E1 E2]. rewrite filter_cons. destruct (decide _); [|by apply IH].
             rewrite fmap_cons. constructor; [|by apply IH]. intros (r' & E & [_ Hr']%elem_of_list_filter)%elem_of_list_fmap.
             apply E1. rewrite E. by apply elem_of_list_fmap_1.
          -- intros En t0 Et. rewrite Et. simpl. unfold seen in Es. rewrite En, Et in Es. injection Es as <-. by destruct t0.
      + rewrite decide_False in H by naive_solver. injection H as <- <- <-.
        assert (VTable rest (t_next t) = t) as Et.
        { assert (rest = t_rows t) as ->; [|by destruct t]. unfold rest. clear -Hn. induction (t_rows t) as [|r l IH]; [done|].
          rewrite fmap_cons, not_elem_of_cons in Hn. rewrite filter_cons_True by naive_solver. f_equal. apply IH. naive_solver. }
        rewrite Et, Esame. apply Hsame. cbn [serve]. unfold delete_step. by rewrite Hvis, decide_False by done.
    - (* Select *)
      unfold ask_table, on_table, istep in H. rewrite Hid, Hseen in H.
      destruct (seen x s) as [[t|]|] eqn:Es; [|by injection H as <- <- <-; apply Hf..].
      injection H as <- <- <-. rewrite insert_id by done.
      assert (Session (committed ss) (Pg (pg_user (working ss)) (pg_schemas (working ss))) = ss) as -> by (by destruct ss as [? []]).
      apply Hsame. cbn [serve]. by rewrite Hvis.
    - (* Execute *)
      unfold execute, istep in H. destruct (sem stmt (pg_user (working ss))) as [u|] eqn:Eu; [|by injection H as <- <- <-; apply Hf].
      injection H as <- <- <-. eapply (goes_one (Step i)); [eapply step_once; [done|done|done]|done|done|].
      destruct Ha as [H1 H2 H3 H4 H5 H6 H9 H7 H8]. destruct H8 as [(E1 & E2 & E3 & E4)|(_ & _ & r & E)]; [|congruence].
      split; cbn [s_running s_table s_trace s_committed s_ended working committed pg_schemas pg_user set_running set_program x_number x_new x_program]; try done.
      + rewrite H1. apply insert_singleton.
      + apply Forall_app. split; [done|]. by repeat constructor.
      + left. split; [done|]. split; [done|]. split; [done|]. rewrite fmap_app. eapply runs_app; [done|]. econstructor; [done|constructor].
    - (* Commit *)
      unfold commit, istep in H. destruct (sem (L "COMMIT") (pg_user (working ss))) as [u|] eqn:Eu; [|by injection H as <- <- <-; apply Hf].
      injection H as <- <- <-.
      eapply (goes_one (Step i)); [eapply step_once; [done|done|done]|done|done|].
      assert (outcome_of x s = seen x s) as Eout.
      { unfold outcome_of, seen. destruct (x_new x) as [[]|]; [done..|]. by destruct (s_table s) as [[]|]. }
      assert (forall p s', s_table s' = seen x s -> seen (Transaction p None None [] []) s' = seen x s) as Eseen.
      { intros p s' E. unfold seen at 1. simpl. rewrite E. destruct (seen x s) as [[t|]|]; [|done..].
        rewrite app_nil_r. do 2 f_equal. destruct t as [l z]. f_equal. simpl. clear. induction l as [|r l IH]; [done|].
        rewrite filter_cons_True by apply not_elem_of_nil. by rewrite IH. }
      destruct Ha as [H1 H2 H3 H4 H5 H6 H9 H7 H8]. destruct H8 as [(E1 & E2 & E3 & E4)|(_ & _ & r & E)]; [|congruence].
      inversion Hl as [|? ? K|? K]; subst; [done|].
      split; cbn [s_running s_table s_trace s_committed s_ended working committed pg_schemas pg_user set_running set_program x_number x_new x_program]; try done.
      + rewrite H1. apply insert_singleton.
      + rewrite back_lookup. cbn [working committed]. rewrite Hseen, Eout. destruct (seen x s) as [[[]|]|]; done.
      + rewrite Hseen. symmetry. by apply Eseen.
      + by intros [? ?].
      + intros t Ht. apply H6. rewrite <- Ht. symmetry. by apply Eseen.
      + right. rewrite E1. split; [done|]. split; [done|]. apply K.
  Qed.

  Lemma asked_replies q k (ss : session S) r k' ss' : asked sem ident schema q (Datatypes.S k, ss) = (r, (k', ss')) -> exists rep, r = Ret rep.
  Proof.
    destruct q as [| | |v|n| |stmt|]; cbn; unfold ibind, replied, meta_schema_exists, create_schema, create_table, record_version, ask_table, on_table, execute, commit, istep;
      rewrite ?Hid; [by intros [= <- _ _]; eexists|..].
    - destruct (pg_schemas (working ss) !! schema); intros [= <- _ _]; by eexists.
    - destruct (pg_schemas (working ss) !! schema) as [[]|]; intros [= <- _ _]; by eexists.
    - destruct (pg_schemas (working ss) !! schema) as [[t|]|]; [|intros [= <- _ _]; by eexists..]. unfold insert_row.
      repeat case_match; intros; simplify_eq; by eexists.
    - destruct (pg_schemas (working ss) !! schema) as [[t|]|]; [|intros [= <- _ _]; by eexists..]. unfold delete_row.
      repeat case_match; intros; simplify_eq; by eexists.
    - destruct (pg_schemas (working ss) !! schema) as [[t|]|]; intros [= <- _ _]; by eexists.
    - destruct (sem _ _); intros [= <- _ _]; by eexists.
    - destruct (sem _ _); intros [= <- _ _]; by eexists.
  Qed.
  Lemma alone p : forall s x ss k r k' ss', agree s x ss -> x_program x = p -> commits_last p ->
    interp sem ident schema p (k, ss) = (r, (k', ss')) ->
    exists es s', unfolds es s = Some s' /\ Forall (own i) es /\ s_table s' = pg_schemas (rolled_back ss') !! schema /\
      s_ended s' !! i = Some r /\ runs sem (in_effect s') u0 (pg_user (committed ss')).
  Proof.
    assert (forall s x ss e r, agree s x ss -> own i e -> happen e s = Some (ends i r s) ->
      exists es s', unfolds es s = Some s' /\ Forall (own i) es /\ s_table s' = pg_schemas (rolled_back ss) !! schema /\
      s_ended s' !! i = Some r /\ runs sem (in_effect s') u0 (pg_user (committed ss))) as Hends.
    { intros s x ss e r [H1 H2 H3 H4 H5 H6 H9 H7 H8] He Hh. exists [e], (ends i r s). split; [by apply unfolds_one|].
      split; [by repeat constructor|]. split; [done|]. split; [apply lookup_insert|]. unfold in_effect. simpl.
      destruct H8 as [(-> & _ & -> & _)|(-> & H8 & _)].
      - rewrite filter_none; [constructor|]. intros e' _. apply not_elem_of_nil.
      - rewrite filter_all; [done|]. intros e' He'. apply elem_of_list_singleton. by apply (proj1 (Forall_forall _ _) H7). }
    induction p as [r0|q k0 IH]; intros s x ss k r k' ss' Ha Ep Hl H.
    - cbn in H. injection H as <- <- <-. eapply (Hends _ _ _ (Step i)); [done|done|]. simpl. by rewrite (agree_running _ _ _ Ha), lookup_singleton, Ep.
    - cbn [interp] in H. destruct k as [|k].
      + assert (asked sem ident schema q (0, ss) = (Killed, (0, ss))) as Ek by (by destruct q).
        unfold ibind in H. rewrite Ek in H. injection H as <- <- <-. eapply (Hends _ _ _ (Kill i)); [done|done|].
        simpl. by rewrite (agree_running _ _ _ Ha), lookup_singleton.
      + unfold ibind in H. destruct (asked sem ident schema q (Datatypes.S k, ss)) as [r1 [k1 ss1]] eqn:Eq.
        assert (exists rep, r1 = Ret rep) as [rep ->].
        { by eapply asked_replies. }
        destruct (ask_ok _ _ _ _ _ _ _ _ _ Ha Ep Hl Eq) as (es & s1 & x1 & Hu & Hown & Hp & Ha1).
        assert (commits_last (k0 rep)) as Hl1.
        { inversion Hl as [|? ? _ K|? K]; subst; [apply K|]. destruct (K rep) as [? ->]. constructor. }
        destruct (IH rep s1 x1 ss1 k1 r k' ss' Ha1 Hp Hl1 H) as (es' & s' & Hu' & Hown' & K). exists (es ++ es'), s'.
        rewrite unfolds_app, Hu. split; [done|]. split; [by apply Forall_app|done].
  Qed.
End alone.

Lemma run_alone {S} (sem : str -> S -> option S) ident schema i c (m : io (session S) ()) k db r db' :
  ident schema = Some schema -> commits_last (program_of c) -> (forall s, interp sem ident schema (program_of c) s = m s) ->
  pg_schemas db !! schema <> Some None -> (forall t, pg_schemas db !! schema = Some (Some t) -> NoDup (row_name <$> t_rows t)) ->
  run m k db = (r, db') ->
  exists es s', Forall (own i) es /\ unfolds (Start i c :: es) (Server (pg_schemas db !! schema) ∅ [] [] ∅) = Some s' /\
    s_table s' = pg_schemas db' !! schema /\ s_ended s' !! i = Some r /\ runs sem (in_effect s') (pg_user db) (pg_user db').
Proof.
  intros Hid Hl Hm Hnone Hnd H. unfold run in H. destruct (m (k, Session db db)) as [r' [k' ss']] eqn:E. injection H as -> <-.
  rewrite <- Hm in E.
  set (x := Transaction (program_of c) None None [] []).
  set (s := Server (pg_schemas db !! schema) {[i := x]} [] [] ∅).
  assert (seen x s = pg_schemas db !! schema) as Hseen.
  { unfold seen. simpl. destruct (pg_schemas db !! schema) as [[[rows z]|]|]; [|done..]. simpl. rewrite app_nil_r. do 3 f_equal.
    clear. induction rows as [|r l IH]; [done|]. rewrite filter_cons_True by apply not_elem_of_nil. by rewrite IH. }
  assert (agree sem schema i (pg_user db) s x (Session db db)) as Ha.
  { split; try done.
    - rewrite back_lookup. simpl. destruct (pg_schemas db !! schema) as [[[]|]|]; done.
    - by intros [? ?].
    - rewrite Hseen. done.
    - simpl. constructor.
    - left. split_and!; [done..|constructor]. }
  destruct (alone sem ident schema Hid i (pg_user db) _ s x _ _ _ _ _ Ha eq_refl Hl E) as (es & s' & H1 & H2 & H3 & H4 & H5).
  exists es, s'. split; [done|]. split; [|done]. simpl. rewrite decide_True by done. done.
Qed.
