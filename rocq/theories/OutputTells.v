(** What the migrations tell. *)
From Verif Require Import Base Text Types Changes Diff Sql History SpecHistory HistoryLemmas HistoryLoad HistoryProofs
  HistoryRun HistoryClaims Dbh SpecDb DbLemmas DbRun DbSteps DbClaims Expand Project Definitions World Output SpecOutput OutputLemmas OutputProofs.
From stdpp Require Import sorting.

Lemma statements_app a b : statements (a ++ b) = statements a ++ statements b.
Proof. unfold statements. apply omap_app. Qed.
Lemma statements_did ss : statements (Did <$> ss) = ss.
Proof. induction ss as [|s ss IH]; [done|]. exact (f_equal (cons s) IH). Qed.
Lemma statements_items script vs : statements (items script vs) = vs ≫= script.
Proof.
  unfold items. induction vs as [|v vs IH]; [done|]. cbn [mbind list_bind]. rewrite statements_app.
  change (statements (Begins (v_name v) :: (Did <$> script v))) with (statements (Did <$> script v)).
  rewrite statements_did. by rewrite <- IH.
Qed.
Lemma told_of_nil all : told_of all [] [].
Proof. split; [apply prefix_nil|by left]. Qed.
Lemma told_of_all all : told_of all all (statements all).
Proof. split; [done|by left]. Qed.
Lemma told_of_more pre all its ss : told_of all its ss -> told_of (pre ++ all) (pre ++ its) (statements pre ++ ss).
Proof.
  intros [H1 H2]. split; [by apply prefix_app|]. destruct H2 as [->|(s & -> & H2)].
  - left. by rewrite statements_app.
  - right. exists s. rewrite statements_app, (assoc_L (++)). split; [done|]. rewrite <- (assoc_L (++)). by apply prefix_app.
Qed.
Lemma told_of_app all suf its ss : told_of all its ss -> told_of (all ++ suf) its ss.
Proof.
  intros [H1 H2]. split; [by apply prefix_app_r|]. destruct H2 as [->|(s & -> & H2)]; [by left|].
  right. exists s. split; [done|]. by apply prefix_app_r.
Qed.

(** What is left in the database unless the command succeeds. *)
Section careful.
  Context {S : Type} (green dimmed : str -> str) (sem : str -> S -> option S) (ident : str -> option str).
  Definition tkeeps {A} (t : told (session S) A) : Prop := forall p, committed (t p).1.2.2 = committed p.2.
  Definition tcareful (t : told (session S) ()) : Prop :=
    forall p, (t p).1.1 <> Ret () -> committed (t p).1.2.2 = committed p.2.
  Lemma tkeeps_quietly {A} (m : io (session S) A) : keeps m -> tkeeps (quietly m).
  Proof. intros H p. apply H. Qed.
  Lemma tkeeps_say line : tkeeps (say line).
  Proof. by intros [[|k] s]. Qed.
  Lemma tkeeps_bind {A B} (t : told (session S) A) (f : A -> told (session S) B) :
    tkeeps t -> (forall a, tkeeps (f a)) -> tkeeps (tbind t f).
  Proof.
    intros Ht Hf p. specialize (Ht p). unfold tbind. destruct (t p) as [[[a|e| | |] p'] o]; simpl in *; [|done..].
    specialize (Hf a p'). destruct (f a p') as [[x q] o']. simpl in *. by rewrite Hf.
  Qed.
  Lemma tcareful_bind {A} (t : told (session S) A) f : tkeeps t -> (forall a, tcareful (f a)) -> tcareful (tbind t f).
  Proof.
    intros Ht Hf p. specialize (Ht p). unfold tbind. destruct (t p) as [[[a|e| | |] p'] o]; simpl in *; [|done..].
    specialize (Hf a p'). destruct (f a p') as [[x q] o']. simpl in *. intros H. by rewrite Hf.
  Qed.
  Lemma tcareful_say line : tcareful (say line).
  Proof. intros p _. apply tkeeps_say. Qed.
  Lemma tcareful_commit : tcareful (quietly (commit sem)).
  Proof. intros p. apply careful_commit. Qed.
  Lemma tkeeps_execute_all stmts : tkeeps (execute_all_told dimmed sem stmts).
  Proof.
    induction stmts as [|stmt stmts IH]; [apply tkeeps_quietly, keeps_ret|]. simpl.
    apply tkeeps_bind; [apply tkeeps_quietly, keeps_unwrap, keeps_execute|]. intros _.
    apply tkeeps_bind; [apply tkeeps_say|done].
  Qed.
  Lemma tkeeps_apply d schema names : tkeeps (apply_versions_told green dimmed sem ident d schema names).
  Proof.
    induction names as [|n names IH]; [apply tkeeps_quietly, keeps_ret|]. simpl.
    apply tkeeps_bind; [apply tkeeps_quietly, keeps_read|]. intros v.
    apply tkeeps_bind; [apply tkeeps_say|]. intros _. apply tkeeps_bind; [apply tkeeps_execute_all|]. intros _.
    apply tkeeps_bind; [apply tkeeps_quietly, keeps_unwrap, keeps_on_table|done].
  Qed.
  Lemma tkeeps_revert schema names : tkeeps (revert_versions_told green dimmed sem ident schema names).
  Proof.
    induction names as [|n names IH]; [apply tkeeps_quietly, keeps_ret|]. simpl.
    apply tkeeps_bind; [apply tkeeps_quietly, keeps_unwrap, keeps_on_table|]. intros v.
    apply tkeeps_bind; [apply tkeeps_say|]. intros _. apply tkeeps_bind; [apply tkeeps_execute_all|]. intros _.
    apply tkeeps_bind; [apply tkeeps_quietly, keeps_unwrap, keeps_on_table|done].
  Qed.
  Lemma tcareful_up l d schema version : tcareful (up_told green dimmed sem ident l d schema version).
  Proof.
    apply tcareful_bind; [apply tkeeps_quietly, keeps_read|]. intros h.
    apply tcareful_bind; [apply tkeeps_quietly, keeps_ensure|]. intros _.
    apply tcareful_bind; [apply tkeeps_quietly, keeps_current|]. intros c.
    apply tcareful_bind; [apply tkeeps_quietly, keeps_read|]. intros to.
    apply tcareful_bind; [apply tkeeps_say|]. intros _. apply tcareful_bind; [apply tkeeps_say|]. intros _.
    apply tcareful_bind; [apply tkeeps_quietly, keeps_read|]. intros [|n names]; [apply tcareful_say|].
    apply tcareful_bind; [apply tkeeps_apply|]. intros _. apply tcareful_commit.
  Qed.
  Lemma tcareful_down schema version : tcareful (down_told green dimmed sem ident schema version).
  Proof.
    apply tcareful_bind; [apply tkeeps_quietly, keeps_ensure|]. intros _.
    apply tcareful_bind; [apply tkeeps_quietly, keeps_current|]. intros c.
    apply tcareful_bind; [apply tkeeps_say|]. intros _.
    destruct (match version with Some v => Some v | None => _ end); [|apply tcareful_say].
    apply tcareful_bind; [apply tkeeps_say|]. intros _.
    apply tcareful_bind; [apply tkeeps_quietly, keeps_range|]. intros [|n names]; [apply tcareful_say|].
    apply tcareful_bind; [apply tkeeps_revert|]. intros _. apply tcareful_commit.
  Qed.
  Lemma run_told_careful t k db r db' out :
    tcareful t -> run_told t k db = (r, db', out) -> r <> Ret () -> same_contents db db'.
  Proof.
    unfold run_told. intros Hm. specialize (Hm (k, Session db db)). destruct (t _) as [[x [k' s]] o]. simpl in Hm.
    intros [= <- <- <-] Hr. specialize (Hm Hr). rewrite <- Hm. apply rolled_back_contents.
  Qed.
End careful.

Section tells.
  Context {S : Type} (green dimmed : str -> str) (sem : str -> S -> option S) (ident : str -> option str)
    (schema : str) (db : pg S).
  Hypothesis Hident : ident schema = Some schema.
  Notation W := (W schema db).
  Notation line := (item_line green dimmed).

  Lemma execute_all_tells verb stmts k u t r k' s' out :
    execute_all_told dimmed sem stmts (k, W u t) = ((r, (k', s')), out) ->
    exists its ss u', told_of (Did <$> stmts) its ss /\ out = line verb <$> its /\ runs sem ss u u' /\ s' = W u' t /\
      (r = Ret () -> its = Did <$> stmts /\ ss = stmts).
  Proof.
    revert k u out. induction stmts as [|stmt stmts IH]; intros k u out H.
    - injection H as <- _ <- <-. exists [], [], u. split; [apply told_of_nil|]. split; [done|]. split; [constructor|]. done.
    - cbn [execute_all_told] in H. apply quietly_inv in H as [(a & p' & H1 & H)|((r1 & H1 & Hr1) & -> & Hr)].
      + destruct k as [|k]; [done|]. unfold iunwrap, execute, istep in H1. cbn [working pg_user DbRun.W] in H1.
        destruct (sem stmt u) as [u1|] eqn:E; [|done]. injection H1 as <- <-. change (Session _ _) with (W u1 t) in H.
        apply say_then_inv in H as [(-> & Hq & ->)|(k1 & o2 & H & ->)].
        * simpl in Hq. exists [], [stmt], u1. split.
          -- split; [apply prefix_nil|]. right. exists stmt. split; [done|]. rewrite fmap_cons. simpl. by apply prefix_cons, prefix_nil.
          -- split; [done|]. split; [econstructor; [done|constructor]|]. by split.
        * apply IH in H as (its & ss & u' & H2 & -> & H3 & -> & H4).
          exists (Did stmt :: its), (stmt :: ss), u'.
          split; [apply (told_of_more [Did stmt] _ _ _ H2)|]. split; [done|]. split; [by econstructor|]. split; [done|].
          intros Hr. destruct (H4 Hr) as [-> ->]. done.
      + exists [], [], u. split; [apply told_of_nil|]. split; [done|]. split; [constructor|].
        split; [|intros ->; by destruct (Hr ())].
        destruct k as [|k]; [by injection H1 as _ _ <-|]. unfold iunwrap, execute, istep in H1. cbn [working pg_user DbRun.W] in H1.
        destruct (sem stmt u) as [u1|] eqn:E.
        * injection H1 as <- _ _. by destruct (Hr1 ()).
        * by injection H1 as _ _ <-.
  Qed.

  Lemma on_table_tells {A} (f : vtable -> exec A * vtable) k u t r k' s' :
    iunwrap (on_table ident schema f) (k, W u t) = (r, (k', s')) -> exists t', s' = W u t'.
  Proof.
    destruct k as [|k]; [intros [= <- <- <-]; by exists t|]. unfold iunwrap. rewrite on_table_step by done.
    destruct (f t) as [[a|e| | |] t']; intros [= <- <- <-]; by exists t'.
  Qed.

  (** One version: its name, its statements, its row. *)
  Lemma version_tells {A} verb script v (m : io (session S) A) (rest : told (session S) ()) allrest k u t r k' s' out :
    (forall k u t r k' s', m (k, W u t) = (r, (k', s')) -> exists t', s' = W u t') ->
    (forall k u t r k' s' out, rest (k, W u t) = ((r, (k', s')), out) ->
       exists its ss u' t', told_of allrest its ss /\ out = line verb <$> its /\ runs sem ss u u' /\ s' = W u' t' /\
         (r = Ret () -> its = allrest /\ ss = statements allrest)) ->
    tbind (say (L "  " ++ verb ++ L " version " ++ green (v_name v)))
      (fun _ => tbind (execute_all_told dimmed sem (script v)) (fun _ => tbind (quietly m) (fun _ => rest)))
      (k, W u t) = ((r, (k', s')), out) ->
    exists its ss u' t', told_of (items script [v] ++ allrest) its ss /\ out = line verb <$> its /\ runs sem ss u u' /\
      s' = W u' t' /\ (r = Ret () -> its = items script [v] ++ allrest /\ ss = statements (items script [v] ++ allrest)).
  Proof.
    intros Hm Hrest H. unfold items. cbn [mbind list_bind]. rewrite app_nil_r.
    apply say_then_inv in H as [(-> & Hq & ->)|(k1 & o2 & H & ->)].
    { simpl in Hq. exists [], [], u, t. split; [apply told_of_nil|]. split; [done|]. split; [constructor|]. by split. }
    apply tbind_inv in H as [([] & [k2 s2] & o3 & o4 & H1 & H & ->)|[(r1 & H1 & Hr1) Hr]].
    2: { apply (execute_all_tells verb) in H1 as (its & ss & u' & H2 & -> & H3 & -> & _).
         exists (Begins (v_name v) :: its), ss, u', t.
         split; [apply told_of_app; apply (told_of_more [Begins (v_name v)] _ _ _ H2)|]. split; [done|].
         split; [done|]. split; [done|]. intros ->. by destruct (Hr ()). }
    apply (execute_all_tells verb) in H1 as (its & ss & u' & _ & -> & H3 & -> & H4).
    destruct (H4 eq_refl) as [-> ->]. clear H4.
    set (pre := Begins (v_name v) :: (Did <$> script v)).
    assert (statements pre = script v) as Hpre by (exact (statements_did (script v))).
    apply quietly_inv in H as [(a & [k3 s3] & H1 & H)|((r1 & H1 & Hr1) & -> & Hr)].
    - apply Hm in H1 as [t' ->]. apply Hrest in H as (its & ss & u2 & t2 & H4 & -> & H5 & -> & H6).
      exists (pre ++ its), (statements pre ++ ss), u2, t2. split; [by apply told_of_more|].
      split; [by rewrite fmap_app|]. split; [rewrite Hpre; by eapply runs_app|]. split; [done|].
      intros Hr. destruct (H6 Hr) as [-> ->]. by rewrite statements_app.
    - apply Hm in H1 as [t' ->]. exists pre, (statements pre), u', t'.
      split; [apply told_of_app, told_of_all|]. split; [by rewrite app_nil_r|]. split; [by rewrite Hpre|]. split; [done|].
      intros ->. by destruct (Hr ()).
  Qed.

  Lemma apply_tells d names vs k u t r k' s' out :
    Forall2 (stored d) names vs ->
    apply_versions_told green dimmed sem ident d schema names (k, W u t) = ((r, (k', s')), out) ->
    exists its ss u' t', told_of (items v_up vs) its ss /\ out = line (L "Applying") <$> its /\ runs sem ss u u' /\
      s' = W u' t' /\ (r = Ret () -> its = items v_up vs /\ ss = statements (items v_up vs)).
  Proof.
    intros Hs. revert k u t r k' s' out. induction Hs as [|n v names vs Hv Hs IH]; intros k u t r k' s' out H.
    - injection H as <- _ <- <-. exists [], [], u, t. split; [apply told_of_nil|]. split; [done|]. split; [constructor|]. by split.
    - cbn [apply_versions_told] in H. apply quietly_read_inv in H as [(v' & Ev & H)|(K & _)].
      2: { apply get_version_iff in Hv. by apply K in Hv. }
      assert (v' = v) as -> by (apply get_version_iff in Hv; congruence).
      apply (version_tells (L "Applying") v_up v (iunwrap (record_version ident schema v)) _ (items v_up vs)) in H; [| |done].
      { replace (items v_up (v :: vs)) with (items v_up [v] ++ items v_up vs); [exact H|].
        unfold items. cbn [mbind list_bind]. by rewrite app_nil_r. }
      intros k0 u0 t0 r0 k0' s0'. apply on_table_tells.
  Qed.

  Lemma revert_tells rs k u t r k' s' out :
    NoDup (row_name <$> t_rows t) -> NoDup (row_name <$> rs) -> (forall r, r ∈ rs -> r ∈ t_rows t) ->
    revert_versions_told green dimmed sem ident schema (row_name <$> rs) (k, W u t) = ((r, (k', s')), out) ->
    exists its ss u' t', told_of (items v_down (r_version <$> rs)) its ss /\ out = line (L "Reverting") <$> its /\ runs sem ss u u' /\
      s' = W u' t' /\ (r = Ret () -> its = items v_down (r_version <$> rs) /\ ss = statements (items v_down (r_version <$> rs))).
  Proof.
    revert k u t r k' s' out. induction rs as [|x rs IH]; intros k u t r k' s' out Hn Hrs Hin H.
    - injection H as <- _ <- <-. exists [], [], u, t. split; [apply told_of_nil|]. split; [done|]. split; [constructor|]. by split.
    - rewrite fmap_cons in H. cbn [revert_versions_told] in H.
      apply quietly_inv in H as [(v & [k1 s1] & H1 & H)|((r1 & H1 & Hr1) & -> & Hr)].
      2: { exists [], [], u. apply on_table_tells in H1 as [t' ->]. exists t'. split; [apply told_of_nil|]. split; [done|].
           split; [constructor|]. split; [done|]. intros ->. by destruct (Hr ()). }
      destruct (recorded_step ident schema db Hident x k u t Hn ltac:(apply Hin; by left)) as [K|[k2 K]].
      { unfold killed in K. by rewrite H1 in K. }
      rewrite K in H1. injection H1 as <- <- <-. rewrite fmap_cons in Hrs. apply NoDup_cons in Hrs as [Hx Hrs].
      (* the rest works on a table without this row *)
      rewrite fmap_cons.
      apply say_then_inv in H as [(-> & Hq & ->)|(k3 & o2 & H & ->)].
      { simpl in Hq. exists [], [], u, t. split; [apply told_of_nil|]. split; [done|]. split; [constructor|]. by split. }
      set (pre := Begins (v_name (r_version x)) :: (Did <$> v_down (r_version x))).
      change (items v_down (r_version x :: (r_version <$> rs))) with (pre ++ items v_down (r_version <$> rs)).
      apply tbind_inv in H as [([] & [k4 s2] & o3 & o4 & H1 & H & ->)|[(r1 & H1 & Hr1) Hr]].
      2: { apply (execute_all_tells (L "Reverting")) in H1 as (its & ss & u' & H2 & -> & H3 & -> & _).
           exists (Begins (v_name (r_version x)) :: its), ss, u', t.
           split; [apply told_of_app; apply (told_of_more [Begins (v_name (r_version x))] _ _ _ H2)|]. split; [done|].
           split; [done|]. split; [done|]. intros ->. by destruct (Hr ()). }
      apply (execute_all_tells (L "Reverting")) in H1 as (its & ss & u' & _ & -> & H3 & -> & H4).
      destruct (H4 eq_refl) as [-> ->]. clear H4.
      assert (statements pre = v_down (r_version x)) as Hpre by (exact (statements_did (v_down (r_version x)))).
      apply quietly_inv in H as [(a & [k5 s3] & H1 & H)|((r1 & H1 & Hr1) & -> & Hr)].
      + destruct (delete_step ident schema db Hident (row_name x) (r_version x) k4 u' t eq_refl) as [K1|[(k6 & _ & K1)|[_ K1]]].
        1: { unfold killed in K1. by rewrite H1 in K1. }
        2: { by rewrite H1 in K1. }
        rewrite K1 in H1. injection H1 as _ <- <-.
        apply IH in H as (its & ss & u2 & t2 & H4 & -> & H5 & -> & H6).
        * exists (pre ++ its), (statements pre ++ ss), u2, t2. split; [by apply told_of_more|].
          split; [by rewrite fmap_app|]. split; [rewrite Hpre; by eapply runs_app|]. split; [done|].
          intros Hr. destruct (H6 Hr) as [-> ->]. by rewrite statements_app.
        * by apply without_nodup.
        * done.
        * intros y Hy. unfold without. simpl. apply elem_of_list_filter. split; [|apply Hin; by right].
          intros E%elem_of_list_singleton. apply Hx. rewrite <- E. by apply elem_of_list_fmap_1.
      + apply on_table_tells in H1 as [t' ->]. exists pre, (statements pre), u', t'.
        split; [apply told_of_app, told_of_all|]. split; [by rewrite app_nil_r|]. split; [by rewrite Hpre|]. split; [done|].
        intros ->. by destruct (Hr ()).
  Qed.

  (** What both commands start with. *)
  Lemma prelude_tells (f : version -> told (session S) ()) k r q out :
    tbind (quietly (ensure_initialized ident schema)) (fun _ =>
      tbind (quietly (db_current_version ident schema)) f) (k, Session db db) = ((r, q), out) ->
    (out = [] /\ r <> Ret ()) \/
    exists t cur rest k1, finds db schema t /\ newest_first (t_rows t) = cur :: rest /\
      f (r_version cur) (k1, W (pg_user db) t) = ((r, q), out).
  Proof.
    intros H.
    assert (tbind (quietly (ibind (ensure_initialized ident schema) (fun _ => ibind (db_current_version ident schema) (fun c => iret c)))) f
      (k, Session db db) = ((r, q), out)) as H'.
    { rewrite <- H. unfold tbind, quietly, ibind, iret.
      destruct (ensure_initialized ident schema (k, Session db db)) as [[[]|e| | |] p]; [|done..].
      destruct (db_current_version ident schema p) as [[c|e| | |] p']; [|done..].
      by destruct (f c p'). }
    clear H. rename H' into H.
    destruct (prelude ident schema db Hident iret k) as [K|[(t & cur & rest & k1 & Ht & Hcur & K)|[_ K]]].
    - left. apply quietly_inv in H as [(a & p & H1 & _)|(_ & -> & Hr)].
      + unfold killed in K. by rewrite H1 in K.
      + split; [done|]. intros ->. by destruct (Hr ()).
    - right. exists t, cur, rest, k1. split; [done|]. split; [done|].
      apply quietly_inv in H as [(a & p & H1 & H)|((r1 & H1 & Hr1) & _)]; rewrite K in H1; injection H1 as <- <-; [done|].
      by destruct (Hr1 (r_version cur)).
    - left. apply quietly_inv in H as [(a & p & H1 & _)|(_ & -> & Hr)].
      + by rewrite H1 in K.
      + split; [done|]. intros ->. by destruct (Hr ()).
  Qed.

  Lemma commit_tells k u t r k' s' out :
    quietly (commit sem) (k, W u t) = ((r, (k', s')), out) -> out = [] /\ pg_user (working s') = u.
  Proof.
    intros [= H <-]. split; [done|]. destruct k as [|k]; [by injection H as _ _ <-|].
    unfold commit, istep in H. cbn [working pg_user DbRun.W] in H. destruct (sem _ _); by injection H as _ _ <-.
  Qed.

  Lemma up_tells l d version k r k' s' out :
    well_named d -> plain_dir d ->
    up_told green dimmed sem ident l d schema version (k, Session db db) = ((r, (k', s')), out) ->
    (out = [] /\ r <> Ret ()) \/
    exists t cur to, finds db schema t /\ newest (t_rows t) cur /\ target d version to /\
      let first := heading (L "upward") (row_name cur) to in
      ((out `prefix_of` first /\ r <> Ret ()) \/
       exists names vs, SpecHistory.path d (row_name cur) names to /\ row_name cur ∉ names /\ Forall2 (stored d) names vs /\
         ((vs = [] /\ r = Ret () /\ out = first ++ [L "  No migrations to apply."]) \/
          (vs <> [] /\ exists its ss, out = first ++ (line (L "Applying") <$> its) /\
             told_of (items v_up vs) its ss /\ runs sem ss (pg_user db) (pg_user (working s')) /\
             (r = Ret () -> its = items v_up vs)))).
  Proof.
    intros Hw Hp H. unfold up_told in H. apply quietly_read_inv in H as [(h & Hh & H)|(_ & _ & -> & Hr)].
    2: { left. split; [done|]. intros ->. by destruct (Hr ()). }
    apply prelude_tells in H as [?|(t & cur & rest & k1 & Ht & Hcur & H)]; [by left|].
    apply quietly_read_inv in H as [(v & Hv & H)|(_ & _ & -> & Hr)].
    2: { left. split; [done|]. intros ->. by destruct (Hr ()). }
    right. apply (target_from l d h) in Hv; [|done..]. apply newest_first_newest in Hcur.
    exists t, cur, (v_name v). do 3 (split; [done|]). change (v_name (r_version cur)) with (row_name cur) in H.
    set (l1 := L "On database version: " ++ row_name cur) in H.
    set (l2 := L "Applying upward migrations to " ++ v_name v ++ L ":") in H.
    cbv zeta. change (heading (L "upward") (row_name cur) (v_name v)) with [l1; l2].
    apply say_then_inv in H as [(-> & _ & ->)|(k2 & o2 & H & ->)]; [left; split; [apply prefix_nil|done]|].
    apply say_then_inv in H as [(-> & _ & ->)|(k3 & o3 & H & ->)].
    { left. split; [by apply prefix_cons, prefix_nil|done]. }
    apply quietly_read_inv in H as [(names & Hn & H)|(_ & _ & -> & Hr)].
    2: { left. split; [done|]. intros ->. by destruct (Hr ()). }
    apply (range_named_iff d _ _ _ Hw) in Hn as [Hn1 Hn2]. destruct (path_stored d _ _ _ Hn1) as [vs Hvs].
    destruct names as [|n names].
    - apply say_inv in H as [(-> & _ & ->)|(-> & _ & ->)]; [by left|]. right. exists [], [].
      do 3 (split; [done|]). by left.
    - right. exists (n :: names), vs. split; [done|]. split; [done|]. split; [done|]. right.
      split; [intros ->; by apply Forall2_nil_inv_r in Hvs|].
      apply tbind_inv in H as [([] & [k4 s4] & o4 & o5 & H1 & H & ->)|[(r1 & H1 & Hr1) Hr]].
      + apply (apply_tells d _ vs) in H1 as (its & ss & u' & t' & H2 & -> & H3 & -> & H4); [|done].
        apply commit_tells in H as [-> H]. exists its, ss. rewrite app_nil_r. split; [done|]. split; [done|].
        split; [by rewrite H|]. intros _. by destruct (H4 eq_refl).
      + apply (apply_tells d _ vs) in H1 as (its & ss & u' & t' & H2 & -> & H3 & -> & H4); [|done].
        exists its, ss. split; [done|]. split; [done|]. split; [done|]. intros ->. by destruct (Hr ()).
  Qed.

  Lemma later_desc rt t : distinct (t_rows t) -> StronglySorted (fun a b => r_order b < r_order a)%Z (newest_first (later rt (t_rows t))).
  Proof.
    intros [_ Hord]. pose proof (newest_first_perm (later rt (t_rows t))) as Hp.
    assert (NoDup (r_order <$> newest_first (later rt (t_rows t)))) as Hnd.
    { rewrite Hp. unfold later. revert Hord. clear. induction (t_rows t) as [|x l IH]; [done|]. rewrite fmap_cons, NoDup_cons.
      intros [H1 H2]. rewrite filter_cons. destruct (decide _); [|by apply IH]. rewrite fmap_cons. constructor; [|by apply IH].
      intros (y & Ey & [_ Hy]%elem_of_list_filter)%elem_of_list_fmap. apply H1. rewrite Ey. by apply elem_of_list_fmap_1. }
    pose proof (newest_first_sorted (later rt (t_rows t))) as Hs. revert Hnd Hs. clear.
    generalize (newest_first (later rt (t_rows t))). induction l as [|x l IH]; [constructor|]. rewrite fmap_cons, NoDup_cons.
    intros [H1 H2] [H3 H4]%StronglySorted_inv. constructor; [by apply IH|]. rewrite Forall_forall in H4 |- *.
    intros y Hy. specialize (H4 y Hy). unfold order_desc in H4. assert (r_order y <> r_order x); [|lia].
    intros E. apply H1. rewrite <- E. by apply elem_of_list_fmap_1.
  Qed.

  Lemma down_tells version k r k' s' out :
    (forall t, has_table db schema t -> distinct (t_rows t)) ->
    down_told green dimmed sem ident schema version (k, Session db db) = ((r, (k', s')), out) ->
    (out = [] /\ r <> Ret ()) \/
    exists t cur, finds db schema t /\ newest (t_rows t) cur /\
      ((version = None /\ v_previous (r_version cur) = None /\
        (out = [L "On database version: " ++ row_name cur] /\ r <> Ret () \/
         out = [L "On database version: " ++ row_name cur; L "No migrations to apply. Already on the init version."] /\ r = Ret ())) \/
       exists to, match version with Some n => to = n | None => v_previous (r_version cur) = Some to end /\
         let first := heading (L "downward") (row_name cur) to in
         ((out `prefix_of` first /\ r <> Ret ()) \/
          exists rt rs, rt ∈ t_rows t /\ row_name rt = to /\
            (forall r, r ∈ rs <-> r ∈ t_rows t /\ (r_order rt < r_order r)%Z) /\
            StronglySorted (fun a b => r_order b < r_order a)%Z rs /\
            ((rs = [] /\ r = Ret () /\ out = first ++ [L "  No migrations to apply."]) \/
             (rs <> [] /\ exists its ss, out = first ++ (line (L "Reverting") <$> its) /\
                told_of (items v_down (r_version <$> rs)) its ss /\ runs sem ss (pg_user db) (pg_user (working s')) /\
                (r = Ret () -> its = items v_down (r_version <$> rs)))))).
  Proof.
    intros Hd H. unfold down_told in H.
    apply prelude_tells in H as [?|(t & cur & rest & k1 & Ht & Hcur & H)]; [by left|].
    change (v_name (r_version cur)) with (row_name cur) in H.
    apply say_then_inv in H as [(-> & _ & ->)|(k2 & o2 & H & ->)]; [by left|].
    right. destruct (finds_distinct schema db t Hd Ht) as [Hn Ho]. apply newest_first_newest in Hcur.
    exists t, cur. split; [done|]. split; [done|].
    destruct (match version with Some v => Some v | None => v_previous (r_version cur) end) as [to|] eqn:Eto.
    2: { left. destruct version; [done|]. split; [done|]. split; [done|].
         apply say_inv in H as [(-> & _ & ->)|(-> & _ & ->)]; [by left|by right]. }
    right. exists to. split; [destruct version; congruence|].
    set (l1 := L "On database version: " ++ row_name cur).
    set (l2 := L "Applying downward migrations to " ++ to ++ L ":") in H.
    cbv zeta. change (heading (L "downward") (row_name cur) to) with [l1; l2].
    apply say_then_inv in H as [(-> & _ & ->)|(k3 & o3 & H & ->)].
    { left. split; [by apply prefix_cons, prefix_nil|done]. }
    destruct (range_step ident schema db Hident (row_name cur) to k3 (pg_user db) t Hn) as [Kr|[(rf & rt & k4 & Hrf & Ef & Hrt & Et & Kr)|[_ [n Kr]]]].
    1: { left. apply quietly_inv in H as [(a & p & H1 & _)|(_ & -> & Hr)].
         - unfold killed in Kr. by rewrite H1 in Kr.
         - split; [done|]. intros ->. by destruct (Hr ()). }
    2: { left. apply quietly_inv in H as [(a & p & H1 & _)|(_ & -> & Hr)].
         - by rewrite H1 in Kr.
         - split; [done|]. intros ->. by destruct (Hr ()). }
    apply quietly_inv in H as [(a & p & H1 & H)|((r1 & H1 & Hr1) & _)]; rewrite Kr in H1; injection H1 as <- <-.
    2: { exfalso. by eapply Hr1. }
    rewrite (name_inj (t_rows t) rf cur Hn Hrf (proj1 Hcur) Ef) in H. rewrite range_later in H by done.
    assert ((exists rs', rs' = newest_first (later rt (t_rows t)))) as [rs Hrs] by eauto.
    assert (forall r, r ∈ rs <-> r ∈ t_rows t /\ (r_order rt < r_order r)%Z) as Hrs1.
    { intros x. rewrite Hrs, newest_first_perm. unfold later. rewrite elem_of_list_filter. tauto. }
    assert (StronglySorted (fun a b => r_order b < r_order a)%Z rs) as Hrs2 by (rewrite Hrs; by apply later_desc).
    assert (NoDup (row_name <$> rs)) as Hrs3 by (rewrite Hrs; by apply later_nodup).
    rewrite <- Hrs in H. clear Hrs.
    destruct rs as [|x rs].
    - apply say_inv in H as [(-> & _ & ->)|(-> & _ & ->)]; [by left|]. right. exists rt, [].
      do 4 (split; [done|]). by left.
    - right. exists rt, (x :: rs). do 4 (split; [done|]). right. split; [done|].
      rewrite fmap_cons in H. cbv beta iota in H. rewrite <- (fmap_cons row_name) in H.
      apply tbind_inv in H as [([] & [k5 s5] & o4 & o5 & H1 & H & ->)|[(r1 & H1 & Hr1) Hr]].
      + apply revert_tells in H1 as (its & ss & u' & t' & H2 & -> & H3 & -> & H4); [|done|done|intros y Hy; by apply Hrs1].
        apply commit_tells in H as [-> H]. exists its, ss. rewrite app_nil_r. split; [done|]. split; [done|].
        split; [by rewrite H|]. intros _. by destruct (H4 eq_refl).
      + apply revert_tells in H1 as (its & ss & u' & t' & H2 & -> & H3 & -> & H4); [|done|done|intros y Hy; by apply Hrs1].
        exists its, ss. split; [done|]. split; [done|]. split; [done|]. intros ->. by destruct (Hr ()).
  Qed.
End tells.
