(** Versions that only add, applied and taken back. *)
From Verif Require Import Base Text Types Changes SpecSnapshot SpecMerge SpecDiff Diff Sql History SpecHistory HistoryLemmas
  HistoryProofs HistoryRun HistoryClaims Dbh SpecDb DbChain DbProofs StepLemmas InvertLemmas DiffRun DiffOrder DiffRollback
  SpecSql SpecLex SpecStatement SpecServer SpecSpelled SpecNull SpecAccept SpecObey SpecAdd SpecTakeBack
  ObeyLemmas NullLemmas NullDiff NullFlow AddLemmas TakeBackLemmas.

Lemma additions_taken_back d vs : wf_db d -> additions d vs -> taken_back d vs.
Proof.
  intros Hwf Ha. induction Ha as [d|d v vs os ot t d1 Ht Pd Pt Had Hn Hix Hq Hsc Hun Ev Ha _ IH]; [constructor|].
  destruct (adds_run os ot d t Hwf Ht Had Hix Hq) as [Hrun _].
  destruct (diff_reverts os ot d t _ Hwf Ht Hrun) as [rs Hrs].
  destruct (adds_back os ot d t Hwf Ht Pd Pt Had Hn Hix Hq Hsc Hun rs Hrs) as (W & Hb & Hf & Hac).
  rewrite Ev, Hrun in Ha. injection Ha as <-.
  assert (Hwf1 : wf_db (expected_db d t)) by (by apply (DiffRollback.apply_all_wf (compare_diff os ot d t) d)).
  apply (taken_back_cons d v vs (expected_db d t) rs d); rewrite ?Ev; try done; [apply db_equiv_refl|by apply IH].
Qed.

Section flow.
  Context {S : Type} (sem : str -> S -> option S) (view : S -> server) (ident : str -> option str) (schema : str).
  Hypothesis Hident : ident schema = Some schema.
  Hypothesis Hobey : obedient sem view.

  Lemma down_additions d version k db db' :
    together sem ident schema (fun n => n <> L "stage") d db ->
    run (down sem ident schema version) k db = (Ret (), db') ->
    exists t cur, finds db schema t /\ newest (t_rows t) cur /\
      ((version = None /\ v_previous (r_version cur) = None /\ db' = db) \/
       exists to names vs, match version with Some n => to = n | None => v_previous (r_version cur) = Some to end /\
         SpecHistory.path d to names (v_name (r_version cur)) /\ Forall2 (stored d) names vs /\
         forall d0 d1, calculate_snapshot d to = Ret d0 -> calculate_snapshot d (v_name (r_version cur)) = Ret d1 ->
           described d1 (view (pg_user db)) -> additions d0 vs -> described d0 (view (pg_user db'))).
  Proof.
    intros Htog Hrun. pose proof (together_reachable sem ident schema _ _ _ Htog) as Hre.
    destruct (down_described sem view ident schema Hident Hobey d version k db db' Htog Hrun) as (t & cur & H1 & H2 & H).
    exists t, cur. split; [done|]. split; [done|]. destruct H as [H|(to & names & vs & H3 & H4 & H5 & H6)]; [by left|right].
    exists to, names, vs. split_and!; [done..|]. intros d0 d1 E0 E1 Hd Hadd.
    destruct (path_snapshot d _ _ _ _ d0 Hre H4 H5 E0) as (_ & _ & Hwf & _).
    apply (H6 d0 d1 E0 E1 Hd). by apply additions_taken_back.
  Qed.

  (** One version, applied and taken back. *)
  Lemma back_and_forth os ot s t rs u u1 u2 :
    wf_db s -> wf_db t -> spelled_db s -> spelled_db t -> described s (view u) ->
    only_adds s t -> new_sayable s t -> indexes_safe s t -> new_sequences_unowned s t -> keys_fit t -> new_valid s t ->
    self_contained s -> new_unused s t ->
    collect_reverts (compare_diff os ot s t) s = Some rs ->
    runs sem (render_sql <$> compare_diff os ot s t) u u1 -> runs sem (render_sql <$> reverse rs) u1 u2 ->
    (described s (view u2) <-> old_nulls_kept s t).
  Proof.
    intros Hs Ht Ps Pt Hd Had Hn Hix Hq Hk Hv Hsc Hun Hrs R1 R2.
    destruct (adds_carried_out os ot s t (view u) Hs Ht Ps Pt Hd Had Hn Hix Hq Hk Hv) as (sv1 & O1 & _).
    destruct (adds_taken_back os ot s t (view u) Hs Ht Ps Pt Hd Had Hn Hix Hq Hsc Hun sv1 rs Hrs O1) as (sv2 & O2 & H).
    destruct (adds_back os ot s t Hs Ht Ps Pt Had Hn Hix Hq Hsc Hun rs Hrs) as (W & _).
    pose proof (SpelledLemmas.diff_spelled os ot s t Hs Ht Ps Pt) as Hw.
    rewrite <- (obedient_runs sem view _ _ _ _ Hobey Hw R1 O1) in O2.
    by rewrite (obedient_runs sem view _ _ _ _ Hobey (proj2 (Forall_reverse _ _) W) R2 O2).
  Qed.
  Lemma up_down_additions l d version k db db1 k' db2 t cur :
    reachable d -> migrated sem ident schema db -> finds db schema t -> newest (t_rows t) cur ->
    run (up sem ident l d schema version) k db = (Ret (), db1) ->
    run (down sem ident schema (Some (v_name (r_version cur)))) k' db1 = (Ret (), db2) ->
    exists to names vs, target d version to /\ SpecHistory.path d (v_name (r_version cur)) names to /\ Forall2 (stored d) names vs /\
      forall v os ot d0 t0, vs = [v] -> v_changes v = compare_diff os ot d0 t0 ->
        calculate_snapshot d (v_name (r_version cur)) = Ret d0 -> described d0 (view (pg_user db)) ->
        wf_db t0 -> spelled_db d0 -> spelled_db t0 -> only_adds d0 t0 -> new_sayable d0 t0 -> indexes_safe d0 t0 ->
        new_sequences_unowned d0 t0 -> keys_fit t0 -> new_valid d0 t0 -> self_contained d0 -> new_unused d0 t0 ->
        (described d0 (view (pg_user db2)) <-> old_nulls_kept d0 t0).
  Proof.
    intros Hre Hm Ht Hn H1 H2. destruct (reachable_dir d Hre) as [Hw Hp].
    destruct (up_down sem ident schema Hident l d version k db db1 k' (Ret ()) db2 t cur Hw Hp Hm Ht Hn H1 H2)
      as (to & names & vs & G1 & G2 & G3 & R1 & G); [done|]. clear H1 H2.
    destruct G as [(t2 & R2 & _)|[[_ ?]|(? & _ & _ & ?)]]; [|done..].
    exists to, names, vs. split_and!; [done..|].
    intros v os ot d0 t0 -> Ev E0 Hd Wt Pd Pt Had Hns Hix Hq Hk Hv Hsc Hun.
    destruct (path_snapshot d _ _ _ _ d0 Hre G2 G3 E0) as (d1 & _ & Hwf & _ & Eu & Hs).
    inversion Hs as [|x y z dv Hv1 (rs & Hrs & Hu & Hdn) _]; subst. rewrite Ev in Hrs, Hu.
    rewrite reverse_singleton in R2. cbn in R1, R2. rewrite app_nil_r in R1, R2. rewrite Hu in R1. rewrite Hdn, <- fmap_reverse in R2.
    by apply (back_and_forth os ot d0 t0 rs (pg_user db) (pg_user db1) (pg_user db2)).
  Qed.
End flow.
