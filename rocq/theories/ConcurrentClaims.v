(** Any commands at the same time: the rows stay a chain, and everything can finish. *)
From Verif Require Import Base Text Types Changes Sql History SpecHistory HistoryLemmas HistoryLoad Dbh SpecDb DbLemmas DbSteps
  Concurrent SpecConcurrent ConcurrentLemmas ConcurrentPrograms.
From stdpp Require Import sorting.

Lemma begins_consistent vs m s : timeline vs -> idle s -> begins vs m (s_table s) ->
  exists o0, consistent vs o0 s.
Proof.
  intros Hvs (Hr & _) [[Ht _]|(t & Ht & [Hm Hrows] & [Hs Hlt])].
  - exists 1%Z. split; [by rewrite Ht|]. rewrite Hr. split; [by intros i x ?%lookup_empty_Some|]. by intros i j x y ?%lookup_empty_Some.
  - destruct (t_rows t) as [|r rest] eqn:E; [done|]. rewrite fmap_cons in Hrows. injection Hrows as H1 H2.
    exists (r_order r). rewrite fmap_cons in Hs, Hlt. apply StronglySorted_inv in Hs as [_ Hs]. split.
    + rewrite Ht, E. split.
      * exists m. split; [done|]. exists rest. split; [destruct r; simpl in *; by subst|]. split; [done|].
        exact (proj1 (Forall_fmap _ _ _) Hs).
      * by apply Forall_inv in Hlt.
    + rewrite Hr. split; [by intros i x ?%lookup_empty_Some|]. by intros i j x y ?%lookup_empty_Some.
Qed.
Lemma sane_consistent vs m es s s' : timeline vs -> idle s -> begins vs m (s_table s) -> Forall (sane vs) es ->
  unfolds es s = Some s' -> exists o0, consistent vs o0 s'.
Proof.
  intros Hvs Hi Hb Hes H. destruct (begins_consistent vs m s Hvs Hi Hb) as [o0 Hc]. exists o0.
  apply (unfolds_ok vs Hvs o0 es s); [|done|done]. eapply Forall_impl; [exact Hes|]. intros e He. by apply sane_welcome.
Qed.

Lemma chain_survives vs m es s s' : timeline vs -> idle s -> begins vs m (s_table s) -> Forall (sane vs) es ->
  unfolds es s = Some s' ->
  s_table s' = None \/ exists n t, s_table s' = Some (Some t) /\ records vs n t.
Proof.
  intros Hvs Hi Hb Hes H. destruct (sane_consistent vs m es s s' Hvs Hi Hb Hes H) as (o0 & Ho & _).
  destruct (s_table s') as [[t|]|]; [|done|by left]. right. destruct Ho as [[n Hn] _]. exists n, t. split; [done|].
  split; [apply Hn|by eapply good_versions].
Qed.

(** ** Nobody waits for ever *)

Lemma unfolds_app es es' s : unfolds (es ++ es') s = match unfolds es s with Some s' => unfolds es' s' | None => None end.
Proof. revert s. induction es as [|e es IH]; intros s; [done|]. simpl. destruct (happen e s); [apply IH|done]. Qed.
Lemma not_waiting i q x s : (forall y, y ∈ others i s -> clean y) -> serve i q x s <> Waits.
Proof.
  intros H. destruct q; simpl; try done.
  - destruct (decide _); [done|]. destruct (decide _) as [K|]; [|done]. apply Exists_exists in K as (y & Hy & [z Hz]).
    destruct (H y Hy) as (E & _). congruence.
  - by destruct (x_new x) as [[]|].
  - unfold insert_step. destruct (visible x s); [|done]. destruct (x_number x) as [o|].
    + destruct (decide _) as [K|].
      * apply Exists_exists in K as (y & Hy & K). destruct (H y Hy) as (_ & E1 & E2). rewrite E1, E2 in K.
        destruct K as [K|[K|K]]; [by apply elem_of_nil in K..|]. apply Exists_exists in K as (p & _ & K). by apply elem_of_nil in K.
      * destruct (decide _); [done|]. destruct (decide _); [done|]. by destruct (decide _).
    + destruct (negb _); [done|]. destruct (x_new x) as [[o|]|], (s_table s) as [[t|]|]; try done; by destruct (decide _).
  - unfold delete_step. destruct (visible x s); [|done]. destruct (decide _); [|done]. cbn zeta.
    destruct (decide _) as [K|].
    + apply Exists_exists in K as (y & Hy & K). destruct (H y Hy) as (_ & E1 & E2). rewrite E1, E2 in K.
      destruct K as [K|[K|K]]; [by apply elem_of_nil in K..|]. apply Exists_exists in K as (p & _ & K). by apply elem_of_nil in K.
    + destruct (decide _); [|done]. by destruct (decide _).
Qed.
Lemma serve_running i q x s :
  match serve i q x s with Waits => True | Proceeds x' s' => s_running s' = s_running s /\ x_program x' = x_program x /\ x_number x = None /\ is_Some (x_number x')
  | Replies _ _ s' => s_running s' = s_running s end.
Proof.
  destruct q; simpl; try done.
  - destruct (decide _); [done|]. by destruct (decide _).
  - by destruct (x_new x) as [[]|].
  - unfold insert_step. destruct (visible x s); [|done]. destruct (x_number x) as [o|].
    + destruct (decide _); [done|]. destruct (decide _); [done|]. destruct (decide _); [done|]. by destruct (decide _).
    + destruct (negb _); [done|]. destruct (x_new x) as [[o|]|], (s_table s) as [[t|]|]; try done;
        destruct (decide _); try done; (split; [done|]; split; [done|]; split; [done|]; by eexists).
  - unfold delete_step. destruct (visible x s); [|done]. destruct (decide _); [|done]. cbn zeta. destruct (decide _); [done|].
    destruct (decide _); [|done]. by destruct (decide _).
Qed.
Lemma others_same i x s s' : s_running s' = <[i := x]> (s_running s) -> others i s' = others i s.
Proof. intros E. unfold others. by rewrite E, delete_insert_delete. Qed.

(** If nobody else changed anything yet, a command can go on until it ends. *)
Lemma one_finishes i x s : s_running s !! i = Some x -> (forall y, y ∈ others i s -> clean y) ->
  exists k s', unfolds (replicate k (Step i)) s = Some s' /\ s_running s' = delete i (s_running s).
Proof.
  remember (x_program x) as p eqn:Ep. revert x s Ep. induction p as [r|q k IH]; intros x s Ep Hx Hcl.
  - exists 1, (ends i r s). simpl. rewrite Hx, <- Ep. done.
  - assert (exists j s1 x1 r, unfolds (replicate j (Step i)) s = Some s1 /\ s_running s1 = <[i := x1]> (s_running s) /\ x_program x1 = k r)
      as (j & s1 & x1 & r & Hj & Hr1 & Hp1).
    { pose proof (not_waiting i q x s Hcl) as Hw. pose proof (serve_running i q x s) as Hs.
      destruct (serve i q x s) as [|x' s'|r x' s'] eqn:E; [done|..].
      - destruct Hs as (Hs & Hp & Hn & [o Ho]).
        assert (others i (set_running i x' s') = others i s) as Eo.
        { unfold others. simpl. by rewrite delete_insert_delete, Hs. }
        pose proof (not_waiting i q x' (set_running i x' s')) as Hw'. rewrite Eo in Hw'. specialize (Hw' Hcl).
        pose proof (serve_running i q x' (set_running i x' s')) as Hs'.
        destruct (serve i q x' (set_running i x' s')) as [|x2 s2|r x2 s2] eqn:E'; [done|..].
        + destruct Hs' as (_ & _ & K & _). congruence.
        + exists 2, (set_running i (set_program (k r) x2) s2), (set_program (k r) x2), r. split_and!; [|simpl|done].
          * simpl. rewrite Hx, <- Ep, E. simpl. rewrite lookup_insert, Hp, <- Ep, E'. done.
          * rewrite Hs'. simpl. rewrite insert_insert, Hs. done.
      - exists 1, (set_running i (set_program (k r) x') s'), (set_program (k r) x'), r. split_and!; [|simpl|done].
        + simpl. by rewrite Hx, <- Ep, E.
        + by rewrite Hs. }
    destruct (IH r x1 s1) as (j' & s' & Hj' & Hr'); [done|by rewrite Hr1, lookup_insert|by rewrite (others_same i x1 s s1)|].
    exists (j + j'), s'. rewrite replicate_add, unfolds_app, Hj. split; [done|]. by rewrite Hr', Hr1, delete_insert_delete.
Qed.
Definition is_step (e : event) : Prop := match e with Step _ => True | _ => False end.
Lemma all_finish vs o0 s : timeline vs -> consistent vs o0 s ->
  exists es s', Forall is_step es /\ unfolds es s = Some s' /\ s_running s' = ∅.
Proof.
  intros Hvs. remember (size (s_running s)) as n eqn:En. revert s En. induction n as [|n IH]; intros s En Hc.
  - exists [], s. split; [constructor|]. split; [done|]. by apply map_size_empty_inv.
  - assert (exists i x, s_running s !! i = Some x /\ forall y, y ∈ others i s -> clean y) as (i & x & Hx & Hcl).
    { assert (exists i x, s_running s !! i = Some x) as (i & x & Hx).
      { destruct (map_choose (s_running s)) as (i & x & Hx); [|by exists i, x].
        intros K. by rewrite K, map_size_empty in En. }
      destruct (others_clean_or vs o0 s i x Hc Hx) as [Hcl|(y & j & Hj & Hy & Hny & Hcx)]; [by exists i, x|].
      exists j, y. split; [done|].
      destruct (others_clean_or vs o0 s j y Hc Hy) as [Hcl|(z & k & _ & _ & _ & K)]; [done|by destruct Hny]. }
    destruct (one_finishes i x s Hx Hcl) as (k & s1 & Hk & Hr).
    destruct (IH s1) as (es & s' & Hes & H & Hend).
    + rewrite Hr. rewrite map_size_delete_Some by (by eexists). lia.
    + apply (unfolds_ok vs Hvs o0 (replicate k (Step i)) s); [|done|done]. by apply Forall_replicate.
    + exists (replicate k (Step i) ++ es), s'. split; [apply Forall_app; split; [by apply Forall_replicate|done]|].
      split; [|done]. by rewrite unfolds_app, Hk.
Qed.
Lemma no_deadlock vs m es s s' : timeline vs -> idle s -> begins vs m (s_table s) -> Forall (sane vs) es ->
  unfolds es s = Some s' ->
  exists es' s'', Forall (fun e => exists i, e = Step i) es' /\ unfolds es' s' = Some s'' /\ s_running s'' = ∅.
Proof.
  intros Hvs Hi Hb Hes H. destruct (sane_consistent vs m es s s' Hvs Hi Hb Hes H) as (o0 & Hc).
  destruct (all_finish vs o0 s' Hvs Hc) as (es' & s'' & H1 & H2 & H3). exists es', s''. split; [|done].
  eapply Forall_impl; [exact H1|]. intros [] He; try done. by eexists.
Qed.
