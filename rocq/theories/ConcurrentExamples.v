(** Examples and counterexamples for several migrations at the same time. *)
From Verif Require Import Base Text Types Changes SpecSnapshot DecideSpec SnapshotExamples Sql SpecSql History SpecHistory HistoryLemmas HistoryLoad
  HistoryExamples Dbh SpecDb DbLemmas DbExamples Concurrent SpecConcurrent.
From stdpp Require Import sorting.

Definition toy_vs : list version := [toy "a" "init"; toy "b" "a"].
Definition row_a : row := Row (toy "a" "init") 2.
Definition row_b : row := Row (toy "b" "a") 3.
Definition at_rest (o : option (option vtable)) : server := Server o ∅ [] [] ∅.
Definition steps (i n : nat) : list event := replicate n (Step i).
Definition up_toy (i : nat) (version : option str) : event := Start i (Up sorted_listing toy_dir version).

Lemma toy_timeline : timeline toy_vs.
Proof. split; [by repeat constructor|]. split; by_computation. Qed.
Lemma entries_on_timeline vs d : well_named d -> plain_dir d ->
  Forall (fun kv => match kv.2 with Document v => kv.1 = L "stage.yaml" \/ v ∈ new_init :: vs | _ => True end) (map_to_list d) ->
  on_timeline vs d.
Proof.
  intros H1 H2 H. split; [done|]. split; [done|]. intros n v [_ Hv] Hn. apply elem_of_map_to_list in Hv.
  destruct (proj1 (Forall_forall _ _) H _ Hv) as [E|E]; [|done]. simpl in E. destruct Hn.
  apply (app_inj_2 n (L "stage") (L ".yaml") (L ".yaml")); done.
Qed.
Lemma toy_on_timeline : on_timeline toy_vs toy_dir.
Proof.
  apply entries_on_timeline; [apply toy_named|apply toy_plain|]. apply Forall_forall. intros [f e] He%elem_of_map_to_list.
  assert (Forall (fun kv => kv.1 = L "stage.yaml" \/ kv.2 ∈ Document <$> new_init :: toy_vs) (map_to_list toy_dir)) as K by by_computation.
  apply elem_of_map_to_list in He. destruct (proj1 (Forall_forall _ _) K _ He) as [E|E]; cbn [fst snd] in *; destruct e; try done; [by left|].
  right. apply elem_of_list_fmap in E as (v' & [= ->] & E). done.
Qed.
Lemma toy_sane (es : list event) :
  Forall (fun e => match e with Start _ (Up _ _ _) => False | _ => True end) es -> Forall (sane toy_vs) es.
Proof. intros H. eapply Forall_impl; [exact H|]. by intros [? []| | |]. Qed.

(** To look at the end of a run. *)
Lemma unfolds_view {A} (f : server -> A) es s a : option_map f (unfolds es s) = Some a -> exists s', unfolds es s = Some s' /\ f s' = a.
Proof. destruct (unfolds es s) as [s'|]; [|done]. intros [= H]. by exists s'. Qed.
Definition view (s : server) : option (option vtable) * list str * list (option (exec ())) :=
  (s_table s, in_effect s, (fun i => s_ended s !! i) <$> [1; 2; 3; 4]).
Lemma look es s o e r1 r2 r3 r4 : option_map view (unfolds es s) = Some (o, e, [r1; r2; r3; r4]) ->
  exists s', unfolds es s = Some s' /\ s_table s' = o /\ in_effect s' = e /\
    s_ended s' !! 1 = r1 /\ s_ended s' !! 2 = r2 /\ s_ended s' !! 3 = r3.
Proof. intros (s' & H & E)%unfolds_view. exists s'. unfold view in E. by injection E as E1 E2 E3 E4 E5 E6. Qed.

(** ** Two [up]s on an empty database

    Both find no schema.  The first makes it, the second has to wait; when the first is done,
    the second fails.  A third, from the same directory and started in between, finds the
    schema and the versions there. *)
Definition two_ups : list event :=
  [up_toy 1 None; up_toy 2 None; up_toy 3 None] ++ steps 1 1 ++ steps 2 1 ++ steps 1 16 ++ steps 2 2 ++ steps 3 4.
Lemma two_ups_run : exists s', unfolds two_ups (at_rest None) = Some s' /\
  s_table s' = Some (Some (VTable [Row new_init 1; row_a; row_b] 4)) /\
  in_effect s' = toy_vs ≫= v_up /\
  s_ended s' !! 1 = Some (Ret ()) /\ s_ended s' !! 2 = Some (Raise DbError) /\ s_ended s' !! 3 = Some (Ret ()).
Proof.
  assert (option_map view (unfolds two_ups (at_rest None)) =
    Some (Some (Some (VTable [Row new_init 1; row_a; row_b] 4)), toy_vs ≫= v_up,
          [Some (Ret ()); Some (Raise DbError); Some (Ret ()); None])) as K by (vm_compute; reflexivity).
  exact (look _ _ _ _ _ _ _ _ K).
Qed.
Lemma two_ups_sane : Forall (sane toy_vs) two_ups /\ Forall upward two_ups.
Proof.
  split.
  - unfold two_ups, steps. repeat (apply Forall_app; split); try (apply Forall_replicate; done).
    repeat (apply Forall_cons; split); try done; (split; [apply toy_on_timeline|done]).
  - unfold two_ups, steps. repeat (apply Forall_app; split); try (apply Forall_replicate; done).
    repeat (apply Forall_cons; split); done.
Qed.
Lemma begins_empty : begins toy_vs 0 (s_table (at_rest None)).
Proof. by left. Qed.
Lemma at_rest_idle o : idle (at_rest o).
Proof. done. Qed.

(** ** Two [down]s: the script for going back takes effect twice *)
Definition toy_table : vtable := VTable [Row new_init 1; row_a; row_b] 4.
Lemma begins_toy : begins toy_vs 2 (s_table (at_rest (Some (Some toy_table)))).
Proof.
  right. exists toy_table. split; [done|]. split; [by split; [simpl; lia|]|]. split.
  - cbn. repeat constructor; lia.
  - cbn. repeat constructor; lia.
Qed.
Definition two_downs : list event := [Start 1 (Down None); Start 2 (Down None)] ++ steps 1 8 ++ steps 2 8 ++ steps 1 4 ++ steps 2 4.
Lemma two_downs_run : exists s', unfolds two_downs (at_rest (Some (Some toy_table))) = Some s' /\
  s_table s' = Some (Some (VTable [Row new_init 1; row_a] 4)) /\
  in_effect s' = [L "-+b"; L "-+b"; L "-b"; L "-b"] /\
  s_ended s' !! 1 = Some (Ret ()) /\ s_ended s' !! 2 = Some (Ret ()).
Proof.
  assert (option_map view (unfolds two_downs (at_rest (Some (Some toy_table)))) =
    Some (Some (Some (VTable [Row new_init 1; row_a] 4)), [L "-+b"; L "-+b"; L "-b"; L "-b"], [Some (Ret ()); Some (Ret ()); None; None])) as K
    by (vm_compute; reflexivity).
  destruct (look _ _ _ _ _ _ _ _ K) as (s' & H & E1 & E2 & E3 & E4 & _). exists s'.
  split; [exact H|]. split; [exact E1|]. split; [exact E2|]. split; [exact E3|exact E4].
Qed.
Lemma two_downs_sane : Forall (sane toy_vs) two_downs.
Proof.
  apply toy_sane. unfold two_downs, steps. repeat (apply Forall_app; split); try (apply Forall_replicate; done).
  repeat (apply Forall_cons; split); done.
Qed.
Lemma refute_down_once :
  exists vs m es s s', timeline vs /\ idle s /\ begins vs m (s_table s) /\ Forall (sane vs) es /\ unfolds es s = Some s' /\
    exists i j n t, i <> j /\ s_ended s' !! i = Some (Ret ()) /\ s_ended s' !! j = Some (Ret ()) /\
      s_table s' = Some (Some t) /\ records vs n t /\ n < m /\
      length (in_effect s') = 2 * length (reverse (drop n (take m vs)) ≫= v_down).
Proof.
  destruct two_downs_run as (s' & H & E1 & E2 & E3 & E4).
  exists toy_vs, 2, two_downs, (at_rest (Some (Some toy_table))), s'. split; [apply toy_timeline|]. split; [apply at_rest_idle|]. split; [apply begins_toy|].
  split; [apply two_downs_sane|]. split; [exact H|]. exists 1, 2, 1, (VTable [Row new_init 1; row_a] 4).
  split; [discriminate|]. split; [exact E3|]. split; [exact E4|]. split; [exact E1|]. split; [split; [simpl; lia|reflexivity]|]. split; [lia|]. rewrite E2. reflexivity.
Qed.

(** ** [up] and [down]: a number drawn too early

    The table has a.  The first command is about to record b and has drawn 3; the second goes
    back to init; the third applies a again, with 4; then the first one goes on. *)
Definition one_table : vtable := VTable [Row new_init 1; row_a] 3.
Definition mixed : list event :=
  [up_toy 1 None] ++ steps 1 6 ++ [Start 2 (Down None)] ++ steps 2 12 ++ [up_toy 3 (Some (L "a"))] ++ steps 3 9 ++ steps 1 3.
Definition mixed_table : vtable := VTable [Row new_init 1; Row (toy "a" "init") 4; row_b] 5.
Lemma begins_one : begins toy_vs 1 (s_table (at_rest (Some (Some one_table)))).
Proof.
  right. exists one_table. split; [done|]. split; [by split; [simpl; lia|]|]. split.
  - cbn. repeat constructor; lia.
  - cbn. repeat constructor; lia.
Qed.
Lemma mixed_sane : Forall (sane toy_vs) mixed.
Proof.
  unfold mixed, steps. repeat (apply Forall_app; split); try (apply Forall_replicate; done); repeat (apply Forall_cons; split); try done;
    (split; [apply toy_on_timeline|done]).
Qed.
Lemma refute_current :
  exists vs m es s s' t, timeline vs /\ idle s /\ begins vs m (s_table s) /\ Forall (sane vs) es /\ unfolds es s = Some s' /\
    s_running s' = ∅ /\ s_table s' = Some (Some t) /\ records vs (length vs) t /\
    (exists r, newest (t_rows t) r /\ last vs <> Some (r_version r)) /\
    exists l d, on_timeline vs d /\ (forall v, v ∈ vs -> stored d (v_name v) v) /\
      (run (up log_sem pg_ident l d podo None) 1000 (Pg [] {[podo := Some t]})).1 = Abort /\
      (run (down log_sem pg_ident podo None) 1000 (Pg [] {[podo := Some t]})).1 = Abort.
Proof.
  assert (option_map (fun s => (s_table s, map_to_list (s_running s))) (unfolds mixed (at_rest (Some (Some one_table)))) = Some (Some (Some mixed_table), [])) as K
    by (vm_compute; reflexivity).
  apply unfolds_view in K as (s' & H & E). apply pair_equal_spec in E as [E1 E2].
  exists toy_vs, 1, mixed, (at_rest (Some (Some one_table))), s', mixed_table.
  split; [apply toy_timeline|]. split; [apply at_rest_idle|]. split; [apply begins_one|]. split; [apply mixed_sane|]. split; [exact H|].
  split; [apply map_to_list_empty_iff; exact E2|]. split; [exact E1|]. clear H E1 E2. split; [split; [simpl; lia|reflexivity]|]. split.
  - exists (Row (toy "a" "init") 4). split; [|discriminate]. split; [right; left|]. intros r Hr. revert r Hr. apply Forall_forall. by_computation.
  - exists sorted_listing, toy_dir. split; [apply toy_on_timeline|]. split.
    + intros v [->|[->|?%elem_of_nil]%elem_of_cons]%elem_of_cons; [..|done]; (split; [by_computation|reflexivity]).
    + split; vm_compute; reflexivity.
Qed.

(** ** Two directories that disagree about what follows init *)
Definition other_dir : hdir :=
  list_to_map [(L "init.yaml", Document new_init); (L "c.yaml", Document (toy "c" "init"))].
Lemma other_named : well_named other_dir.
Proof. apply check_well_named. by_computation. Qed.
Lemma other_plain : plain_dir other_dir.
Proof. apply check_plain. by_computation. Qed.
Definition fork : list event :=
  [up_toy 1 (Some (L "a")); Start 2 (Up sorted_listing other_dir (Some (L "c")))] ++ steps 1 3 ++ steps 2 3 ++ steps 1 6 ++ steps 2 6.
Definition fork_table : vtable := VTable [Row new_init 1; row_a; Row (toy "c" "init") 3] 4.
Lemma refute_disagreement :
  exists es s s' t, idle s /\ begins [] 0 (s_table s) /\ Forall upward es /\
    (forall i l d version, Start i (Up l d version) ∈ es -> exists vs, timeline vs /\ on_timeline vs d /\ version <> Some (L "stage")) /\
    unfolds es s = Some s' /\ s_table s' = Some (Some t) /\
    exists a b, a ∈ r_version <$> t_rows t /\ b ∈ r_version <$> t_rows t /\ a <> b /\ v_previous a = v_previous b /\
      s_ended s' !! 1 = Some (Ret ()) /\ s_ended s' !! 2 = Some (Ret ()).
Proof.
  assert (option_map view (unfolds fork (at_rest (Some (Some (VTable [Row new_init 1] 2))))) =
    Some (Some (Some fork_table), (v_up (toy "a" "init") ++ v_up (toy "c" "init")), [Some (Ret ()); Some (Ret ()); None; None])) as K
    by (vm_compute; reflexivity).
  destruct (look _ _ _ _ _ _ _ _ K) as (s' & H & E1 & _ & E2 & E3 & _).
  exists fork, (at_rest (Some (Some (VTable [Row new_init 1] 2)))), s', fork_table. split; [apply at_rest_idle|]. split.
  { clear. right. eexists. split; [done|]. split; [done|]. split; cbn; repeat constructor; lia. }
  split.
  { clear. unfold fork, steps. repeat (apply Forall_app; split); try (apply Forall_replicate; done). repeat (apply Forall_cons; split); done. }
  split.
  { clear. intros i l d version Hin. unfold fork, steps in Hin. rewrite !elem_of_app, !elem_of_replicate in Hin.
    destruct Hin as [Hin|[[? _]|[[? _]|[[? _]|[? _]]]]]; [|done..].
    apply elem_of_cons in Hin as [Hin|Hin]; [|apply elem_of_list_singleton in Hin].
    - injection Hin as -> -> -> ->. exists toy_vs. split; [apply toy_timeline|]. split; [apply toy_on_timeline|done].
    - injection Hin as -> -> -> ->. exists [toy "c" "init"]. split; [split; [by repeat constructor|split; by_computation]|]. split; [|done].
      apply entries_on_timeline; [apply other_named|apply other_plain|]. apply Forall_forall. intros [f e] He.
      assert (Forall (fun kv => kv.2 ∈ Document <$> [new_init; toy "c" "init"]) (map_to_list other_dir)) as K by by_computation.
      pose proof (proj1 (Forall_forall _ _) K _ He) as E. cbn [fst snd] in *. destruct e; try done. right.
      apply elem_of_list_fmap in E as (v' & [= ->] & E). done. }
  split; [exact H|]. split; [exact E1|]. exists (toy "a" "init"), (toy "c" "init").
  split; [right; left|]. split; [right; right; left|]. split; [discriminate|]. split; [reflexivity|]. split; [exact E2|exact E3].
Qed.

(** ** One command on its own *)
Lemma toy_db1_alone :
  stack_up None toy_db1 = (Ret (), toy_db2) /\
  match pg_schemas toy_db1 !! podo with Some (Some t) => NoDup (row_name <$> t_rows t) /\ length (t_rows t) = 2 | _ => False end.
Proof.
  split; [exact (proj1 (proj2 toy_runs))|].
  assert (match pg_schemas toy_db1 !! podo with Some (Some t) => bool_decide (NoDup (row_name <$> t_rows t)) && bool_decide (length (t_rows t) = 2) | _ => false end = true) as K
    by (vm_compute; reflexivity).
  destruct (pg_schemas toy_db1 !! podo) as [[t|]|]; [|discriminate K..]. apply andb_true_iff in K as [K1 K2].
  split; [exact (bool_decide_eq_true_1 _ K1)|exact (bool_decide_eq_true_1 _ K2)].
Qed.
