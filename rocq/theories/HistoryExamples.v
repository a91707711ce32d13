(** Concrete histories: the cases that meet the hypotheses of the history theorems, and the
    counterexamples. *)
From Verif Require Import Base Text Types Changes SpecSnapshot SpecChange SpecDiff Diff DecideSpec DiffOrder SnapshotExamples Sql History
  SpecHistory HistoryLemmas HistoryLoad HistoryProofs HistoryRun HistoryClaims.

Global Instance dirent_eq_dec : EqDecision dirent.
Proof. solve_decision. Defined.
Global Instance herror_eq_dec : EqDecision herror.
Proof. solve_decision. Defined.
Global Instance exec_eq_dec {A} `{EqDecision A} : EqDecision (exec A).
Proof. solve_decision. Defined.

Definition sorted_listing : listing.
Proof. by refine (Listing (fun d => (map_to_list d).*1) _). Defined.
Definition reversed_listing : listing.
Proof. refine (Listing (fun d => reverse (map_to_list d).*1) _). intros d. apply reverse_Permutation. Defined.

Global Instance stored_dec d n v : Decision (stored d n v).
Proof. unfold stored. apply _. Defined.
Lemma pair_eta {A B C : Type} (p : A * (B * C)) a : p.1 = a -> p = (a, (p.2.1, p.2.2)).
Proof. by destruct p as [? []]; intros <-. Qed.

Lemma run_pair {A B C : Type} (p : A * (B * C)) a b : p.1 = a -> p.2.1 = b -> p = (a, (b, p.2.2)).
Proof. by destruct p as [? []]; intros <- <-. Qed.

(** ** A run: init, stage, make, stage, make, stage. *)
Definition t1 : str := L "20240101_120000".
Definition t2 : str := L "20240102_093000".
Definition ex_d0 : hdir := (init_history (4, ∅)).2.2.
Definition table_first : iter_order := order_first P (L "users").
Definition staging (t : database) (d : hdir) : exec () * (nat * hdir) :=
  stage sorted_listing any_order table_first (Ret t) (4, d).
Definition making (now : str) (name : option str) (d : hdir) : exec () * (nat * hdir) :=
  make sorted_listing now name (4, d).
Definition ex_d1 : hdir := (staging ex_source ex_d0).2.2.
Definition ex_d2 : hdir := (making t1 None ex_d1).2.2.
Definition ex_d3 : hdir := (staging ex_target ex_d2).2.2.
Definition ex_d4 : hdir := (making t2 (Some (L "users")) ex_d3).2.2.
Definition ex_d5 : hdir := (staging ex_source ex_d4).2.2.

Lemma ex_d0_reachable : reachable ex_d0.
Proof. eapply reachable_init. apply (pair_eta (init_history (4, ∅))). vm_compute. reflexivity. Qed.
Lemma staging_command t d : (staging t d).1 = Ret () -> command d (staging t d).2.2.
Proof. intros H. eapply command_stage; [exact (pair_eta _ _ H)|done]. Qed.
Lemma making_command now name d :
  d !! (made_name now name ++ L ".yaml") = None -> plain_name (made_name now name) ->
  (making now name d).1 = Ret () -> command d (making now name d).2.2.
Proof. intros H1 H2 H. eapply command_make; [exact H1|exact H2|exact (pair_eta _ _ H)|done]. Qed.
Lemma t1_timestamp : timestamp t1. Proof. split; [done|by_computation]. Qed.
Lemma t2_timestamp : timestamp t2. Proof. split; [done|by_computation]. Qed.
Lemma ex_name1_plain : plain_name (made_name t1 None).
Proof. apply made_name_plain; [exact t1_timestamp|done]. Qed.
Lemma ex_name2_plain : plain_name (made_name t2 (Some (L "users"))).
Proof.
  apply made_name_plain; [exact t2_timestamp|]. intros n [= <-]. split; [by_computation|].
  intros [m E]. apply (f_equal reverse) in E. rewrite reverse_app in E. apply (f_equal head) in E. vm_compute in E. done.
Qed.
Lemma ex_d1_command : command ex_d0 ex_d1.
Proof. apply staging_command. vm_compute. reflexivity. Qed.
Lemma ex_d1_reachable : reachable ex_d1.
Proof. eapply reachable_command; [exact ex_d0_reachable|exact ex_d1_command]. Qed.
Lemma ex_d2_command : command ex_d1 ex_d2.
Proof. apply making_command; [vm_compute; reflexivity|exact ex_name1_plain|vm_compute; reflexivity]. Qed.
Lemma ex_d2_reachable : reachable ex_d2.
Proof. eapply reachable_command; [exact ex_d1_reachable|exact ex_d2_command]. Qed.
Lemma ex_d3_command : command ex_d2 ex_d3.
Proof. apply staging_command. vm_compute. reflexivity. Qed.
Lemma ex_d3_reachable : reachable ex_d3.
Proof. eapply reachable_command; [exact ex_d2_reachable|exact ex_d3_command]. Qed.
Lemma ex_d4_command : command ex_d3 ex_d4.
Proof. apply making_command; [vm_compute; reflexivity|exact ex_name2_plain|vm_compute; reflexivity]. Qed.
Lemma ex_d4_reachable : reachable ex_d4.
Proof. eapply reachable_command; [exact ex_d3_reachable|exact ex_d4_command]. Qed.
Lemma ex_d5_command : command ex_d4 ex_d5.
Proof. apply staging_command. vm_compute. reflexivity. Qed.
Lemma ex_d5_reachable : reachable ex_d5.
Proof. eapply reachable_command; [exact ex_d4_reachable|exact ex_d5_command]. Qed.
Definition ex_names : list str := [made_name t1 None; made_name t2 (Some (L "users"))].
Lemma ex_range : get_upward_range ex_d5 (L "init") (L "stage") = Ret (ex_names ++ [L "stage"]).
Proof. vm_compute. reflexivity. Qed.
Lemma ex_current : exists h, from_dir sorted_listing ex_d5 = Ret h /\ current_version h = L "20240102_093000-users".
Proof.
  destruct (reachable_terminates sorted_listing ex_d5 ex_d5_reachable) as ((h & Hh) & _). exists h. split; [done|].
  assert (match from_dir sorted_listing ex_d5 with Ret h => current_version h = L "20240102_093000-users" | _ => False end) as K
    by (vm_compute; reflexivity).
  by rewrite Hh in K.
Qed.

Definition stage_of (d : hdir) : version :=
  match d !! L "stage.yaml" with Some (Document v) => v | _ => new_init end.

Lemma same_files (d d' : hdir) :
  (dom d : gset str) = dom d' -> forall f, is_Some (d' !! f) <-> is_Some (d !! f).
Proof. intros H f. by rewrite <- !elem_of_dom, H. Qed.
Lemma more_files (d d' : hdir) n :
  (dom d' : gset str) = {[n ++ L ".yaml"]} ∪ dom d ->
  forall f, is_Some (d' !! f) <-> f = n ++ L ".yaml" \/ is_Some (d !! f).
Proof. intros H f. rewrite <- !elem_of_dom, H. set_solver. Qed.
Lemma ex_d5_made_in : made_in ex_names ex_d5.
Proof.
  apply (made_in_same _ ex_d4); [|exact ex_d5_command|apply same_files; by_computation].
  apply (made_in_new [made_name t1 None] (made_name t2 (Some (L "users"))) ex_d3);
    [|exact ex_d4_command|apply more_files; by_computation|vm_compute; reflexivity].
  apply (made_in_same _ ex_d2); [|exact ex_d3_command|apply same_files; by_computation].
  apply (made_in_new [] (made_name t1 None) ex_d1);
    [|exact ex_d2_command|apply more_files; by_computation|vm_compute; reflexivity].
  apply (made_in_same _ ex_d0); [|exact ex_d1_command|apply same_files; by_computation].
  eapply made_in_init. apply (pair_eta (init_history (4, ∅))). vm_compute. reflexivity.
Qed.

(** ** Cycles *)
Definition loop_dir : hdir :=
  list_to_map [(L "init.yaml", Document new_init);
    (L "a.yaml", Document (Version (L "a") (Some (L "b")) [] [] []));
    (L "b.yaml", Document (Version (L "b") (Some (L "a")) [] [] []));
    (L "stage.yaml", Document (new_stage (L "a")))].
Definition init_loop_dir : hdir :=
  list_to_map [(L "init.yaml", Document (Version (L "init") (Some (L "a")) [] [] []));
    (L "a.yaml", Document (Version (L "a") (Some (L "init")) [] [] []))].
Lemma map_entries {A} (m : gmap str A) (P : str -> A -> Prop) :
  Forall (fun kv => P kv.1 kv.2) (map_to_list m) -> forall k a, m !! k = Some a -> P k a.
Proof. intros H k a Hk. apply elem_of_map_to_list in Hk. exact (proj1 (Forall_forall _ _) H _ Hk). Qed.

Definition doc_all (p : version -> bool) (d : hdir) : bool :=
  forallb (fun kv => match kv.2 with Document v => p v | _ => true end) (map_to_list d).
Lemma doc_all_1 p d f v : doc_all p d = true -> d !! f = Some (Document v) -> p v = true.
Proof.
  intros H Hf. apply elem_of_map_to_list, elem_of_list_In in Hf.
  exact (proj1 (forallb_forall _ _) H _ Hf).
Qed.
Definition well_named_entry (f : str) (e : dirent) : Prop :=
  match e with Document v => f = v_name v ++ L ".yaml" | _ => True end.
Global Instance well_named_entry_dec f e : Decision (well_named_entry f e).
Proof. unfold well_named_entry. destruct e; apply _. Defined.
Lemma check_well_named d : Forall (fun kv => well_named_entry kv.1 kv.2) (map_to_list d) -> well_named d.
Proof.
  intros H n v [_ Hv]. pose proof (map_entries d well_named_entry H _ _ Hv) as K. simpl in K.
  by apply app_inv_tail in K.
Qed.
Lemma refute_range_fails :
  exists d from to, well_named d /\ (forall l, ~ path d from l to) /\ get_upward_range d from to = Hang.
Proof.
  exists loop_dir, (L "init"), (L "stage"). split; [apply check_well_named; by_computation|].
  assert (get_upward_range loop_dir (L "init") (L "stage") = Hang) as Hh by (vm_compute; reflexivity).
  split; [|done]. intros l Hp.
  assert (well_named loop_dir) as Hw by (apply check_well_named; by_computation).
  assert (forall a l b, path loop_dir a l b -> a = L "init" -> b = L "init") as K.
  { clear. induction 1 as [v Hv|ns b c v Hp IH Hv Hpr]; [done|]. intros ->. rewrite (IH eq_refl) in Hpr. exfalso.
    destruct Hv as [_ Hv].
    apply (doc_all_1 (fun v => bool_decide (v_previous v <> Some (L "init")))) in Hv; [|vm_compute; reflexivity].
    by apply bool_decide_eq_true in Hv. }
  pose proof (K _ _ _ Hp eq_refl) as Kc. vm_compute in Kc. done.
Qed.
Lemma refute_terminates :
  (exists l d, from_dir l d = Hang) /\ (exists d from to, get_upward_range d from to = Hang).
Proof.
  split; [exists sorted_listing, init_loop_dir|exists loop_dir, (L "init"), (L "stage")]; vm_compute; reflexivity.
Qed.

(** ** Listing order and branches *)
Definition branched_dir : hdir :=
  list_to_map [(L "init.yaml", Document new_init);
    (L "a.yaml", Document (Version (L "a") (Some (L "init")) [] [] []));
    (L "stage.yaml", Document (new_stage (L "init")))].
Lemma refute_listing_order :
  exists d l l', from_dir l d <> from_dir l' d.
Proof. exists branched_dir, sorted_listing, reversed_listing. vm_compute. intros H. discriminate H. Qed.
(** [init.yaml.yaml] is considered as version init. *)
Definition hidden_dir : hdir :=
  list_to_map [(L "init.yaml", Document new_init);
    (L "init.yaml.yaml", Document (Version (L "init.yaml") (Some (L "init")) [] [] []));
    (L "stage.yaml", Document (new_stage (L "init")))].
Lemma refute_branches :
  exists d, branches d /\ forall l, exists h, from_dir l d = Ret h.
Proof.
  exists hidden_dir. split.
  - exists (L "init.yaml"), (L "stage"), (Version (L "init.yaml") (Some (L "init")) [] [] []), (new_stage (L "init")), (L "init").
    split; [vm_compute; intros H; discriminate H|]. split; [by_computation|]. split; [by_computation|done].
  - intros l.
    assert (exists h, from_dir sorted_listing hidden_dir = Ret h) as [h Hh].
    { destruct (from_dir sorted_listing hidden_dir) as [h|e| | |] eqn:E; [by exists h|exfalso..];
        assert (match from_dir sorted_listing hidden_dir with Ret _ => True | _ => False end) as K
          by (vm_compute; exact I); by rewrite E in K. }
    exists h. by apply (proj1 (from_dir_order sorted_listing l hidden_dir)).
Qed.

(** ** Collisions *)
Definition same_d3 : hdir := ex_d3.
Definition same_d4 : hdir := (making t1 None ex_d3).2.2.
Lemma refute_same_second :
  exists d l now k k' d' n v,
    reachable d /\ timestamp now /\ stored d n v /\ n <> L "stage" /\
    make l now None (k, d) = (Ret (), (k', d')) /\ ~ stored d' n v /\ exists e, from_dir l d' = Raise e.
Proof.
  exists ex_d3, sorted_listing, t1, 4, 0, same_d4, (made_name t1 None),
    (match ex_d3 !! (made_name t1 None ++ L ".yaml") with Some (Document v) => v | _ => new_init end).
  split; [exact ex_d3_reachable|]. split; [exact t1_timestamp|]. split; [by_computation|].
  split; [vm_compute; intros H; discriminate H|]. split; [|split].
  - apply (run_pair (making t1 None ex_d3)); vm_compute; reflexivity.
  - by_computation.
  - exists (Branched (made_name t1 None) (L "stage") (made_name t1 None)). vm_compute. reflexivity.
Qed.
Definition suffix_d2 : hdir := (making t1 (Some (L "x.yaml")) ex_d1).2.2.
Lemma refute_suffix :
  exists d l now name k k' d' e,
    reachable d /\ timestamp now /\ d !! (made_name now name ++ L ".yaml") = None /\
    make l now name (k, d) = (Ret (), (k', d')) /\ from_dir l d' = Raise e.
Proof.
  exists ex_d1, sorted_listing, t1, (Some (L "x.yaml")), 4, 0, suffix_d2, FileError.
  split; [exact ex_d1_reachable|]. split; [exact t1_timestamp|]. split; [vm_compute; reflexivity|]. split.
  - apply (run_pair (making t1 (Some (L "x.yaml")) ex_d1)); vm_compute; reflexivity.
  - vm_compute. reflexivity.
Qed.
Lemma refute_slash :
  exists d l now name k k', reachable d /\ timestamp now /\
    make l now name (k, d) = (Raise FileError, (k', d)).
Proof.
  exists ex_d1, sorted_listing, t1, (Some (L "a/b")), 4, 3.
  split; [exact ex_d1_reachable|]. split; [exact t1_timestamp|].
  rewrite (run_pair (make sorted_listing t1 (Some (L "a/b")) (4, ex_d1)) (Raise FileError) 3)
    by (vm_compute; reflexivity).
  apply (f_equal (fun d => (Raise FileError, (3, d)))). by_computation.
Qed.

(** ** Crashes *)
Definition crash_make (k : nat) : exec () * (nat * hdir) := make sorted_listing t2 None (k, ex_d3).
Definition crash_stage (k : nat) : exec () * (nat * hdir) :=
  stage sorted_listing any_order table_first (Ret ex_source) (k, ex_d3).
Lemma refute_crash :
  exists d d', reachable d /\ interrupted d d' /\ (forall l, exists e, from_dir l d' = Raise e) /\
    exists st, stored d (L "stage") st /\ v_changes st <> [] /\
      forall n v, stored d' n v -> v_changes v <> v_changes st.
Proof.
  exists ex_d3, (crash_stage 1).2.2. split; [exact ex_d3_reachable|].
  assert (interrupted ex_d3 (crash_stage 1).2.2) as Hi.
  { eapply (interrupted_stage sorted_listing any_order table_first (Ret ex_source) 1); [done|].
    apply (pair_eta (crash_stage 1)). vm_compute. reflexivity. }
  split; [done|]. split.
  - intros l. destruct (interrupted_breaks l _ _ ex_d3_reachable Hi) as [E|?]; [|done]. exfalso.
    revert E. by_computation.
  - exists (stage_of ex_d3). split; [by_computation|]. split; [by_computation|].
    intros n v [_ Hv].
    apply (doc_all_1 (fun v => bool_decide (v_changes v <> v_changes (stage_of ex_d3)))) in Hv; [|vm_compute; reflexivity].
    by apply bool_decide_eq_true in Hv.
Qed.
Lemma ex_crash_make :
  (crash_make 1).1 = Killed /\ (crash_make 2).1 = Killed /\ (crash_make 3).1 = Killed /\ (crash_make 4).1 = Ret ().
Proof. vm_compute. done. Qed.

(** ** Staging *)
Lemma refute_stage_converges :
  exists d l os ot t k k' d' source,
    reachable d /\ wf_db t /\ stage l os ot (Ret t) (k, d) = (Ret (), (k', d')) /\
    calculate_snapshot d' (L "stage") = Ret source /\ compare_diff os ot source t <> [].
Proof.
  exists ex_d0, sorted_listing, any_order, table_first, w_owned, 4, 2, (staging w_owned ex_d0).2.2,
    (match calculate_snapshot (staging w_owned ex_d0).2.2 STAGE with Ret d => d | _ => database_new end).
  split; [exact ex_d0_reachable|]. split; [exact w_owned_wf|]. split; [|split].
  - apply (run_pair (staging w_owned ex_d0)); vm_compute; reflexivity.
  - assert (match calculate_snapshot (staging w_owned ex_d0).2.2 STAGE with Ret _ => True | _ => False end) as K
      by (vm_compute; exact I).
    change (L "stage") with STAGE. by destruct (calculate_snapshot (staging w_owned ex_d0).2.2 STAGE).
  - by_computation.
Qed.
Lemma refute_stage_succeeds :
  exists d l os ot t k e, reachable d /\ wf_db t /\ no_dangling_index t /\ (stage l os ot (Ret t) (k, d)).1 = Raise e.
Proof.
  exists ex_d0, sorted_listing, any_order, (order_first P (L "users_name")), w_indexed, 4.
  eexists. split; [exact ex_d0_reachable|]. split; [exact w_indexed_wf|]. split; [exact w_indexed_no_dangling|].
  vm_compute. reflexivity.
Qed.
Lemma ex_stage : exists k' d' source,
  stage sorted_listing any_order table_first (Ret ex_target) (4, ex_d2) = (Ret (), (k', d')) /\
  calculate_snapshot ex_d2 (L "stage") = Ret source /\ length (compare_diff any_order table_first source ex_target) = 20.
Proof.
  exists (staging ex_target ex_d2).2.1, ex_d3,
    (match calculate_snapshot ex_d2 STAGE with Ret d => d | _ => database_new end). split; [|split].
  - apply (pair_eta (staging ex_target ex_d2)). vm_compute. reflexivity.
  - assert (match calculate_snapshot ex_d2 STAGE with Ret _ => True | _ => False end) as K by (vm_compute; exact I).
    change (L "stage") with STAGE. by destruct (calculate_snapshot ex_d2 STAGE).
  - vm_compute. reflexivity.
Qed.

Lemma ex_d3_times n v : stored ex_d3 n v -> n <> L "init" -> n <> L "stage" ->
  exists t nm, timestamp t /\ t <> t2 /\ n = made_name t nm.
Proof.
  intros [_ Hv] H1 H2. exists t1, None. split; [exact t1_timestamp|]. split; [vm_compute; intros H; discriminate H|].
  assert (n ++ L ".yaml" ∈ (map_to_list ex_d3).*1) as K.
  { apply elem_of_list_fmap. eexists (_, _). split; [|by apply elem_of_map_to_list]. done. }
  assert ((map_to_list ex_d3).*1 ≡ₚ [L "init" ++ L ".yaml"; L "stage" ++ L ".yaml"; made_name t1 None ++ L ".yaml"]) as E
    by by_computation.
  rewrite E in K. rewrite !elem_of_cons, elem_of_nil in K.
  clear Hv E. destruct K as [K|[K|[K|[]]]]; apply app_inv_tail in K; [by destruct H1|by destruct H2|exact K].
Qed.
Lemma ex_interrupted : reachable ex_d3 /\ interrupted ex_d3 (crash_make 2).2.2 /\ (crash_make 2).2.2 <> ex_d3.
Proof.
  split; [exact ex_d3_reachable|]. split; [|by_computation].
  eapply (interrupted_make sorted_listing t2 None 2); [vm_compute; reflexivity| |].
  - apply made_name_plain; [exact t2_timestamp|done].
  - apply (pair_eta (crash_make 2)). vm_compute. reflexivity.
Qed.
Lemma init_loop_plain : plain_dir init_loop_dir.
Proof.
  intros f (_ & e & He & _).
  assert (f ∈ (map_to_list init_loop_dir).*1) as K.
  { apply elem_of_list_fmap. eexists (_, _). split; [|by apply elem_of_map_to_list]. done. }
  assert ((map_to_list init_loop_dir).*1 ≡ₚ [L "init" ++ L ".yaml"; L "a" ++ L ".yaml"]) as E by by_computation.
  rewrite E in K. rewrite !elem_of_cons, elem_of_nil in K.
  destruct K as [->|[->|[]]]; eexists; (split; [|done]); (split; [by_computation|]);
    intros [m Em]; apply (f_equal length) in Em; rewrite app_length in Em; simpl in Em; lia.
Qed.
