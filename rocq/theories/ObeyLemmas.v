(** What migrating does to a database that a snapshot describes. *)
From Verif Require Import Base Text Types Changes SpecSnapshot ApplyLemmas ColumnLemmas InvertLemmas Sql SpecSql
  SpecLex SpecStatement SpecServer SpecAccept SpecObey SayLemmas ServerLemmas AcceptLemmas
  History SpecHistory HistoryLemmas HistoryLoad HistoryProofs HistoryRun HistoryClaims Dbh SpecDb DbLemmas DbRun DbClaims DbChain DbCounter DbProofs DbNames.

(** ** Statements in a row *)

Lemma runs_app {S} (sem : str -> S -> option S) a b u u' :
  runs sem (a ++ b) u u' <-> exists u1, runs sem a u u1 /\ runs sem b u1 u'.
Proof.
  revert u. induction a as [|x a IH]; intros u; cbn.
  - split; [intros H; exists u; split; [constructor|done]|]. intros (u1 & H1 & H2). by inversion H1; subst.
  - split.
    + inversion 1 as [|stmt stmts u0 u1 u2 H1 H2]; subst. apply IH in H2 as (u2 & H2 & H3). exists u2. split; [|done].
      by econstructor.
    + intros (u1 & H1 & H2). inversion H1 as [|stmt stmts u0 u2 u3 H3 H4]; subst. econstructor; [done|]. apply IH. eauto.
Qed.

Theorem in_step cs d sv d' sv' :
  Forall well_spelled cs -> wf_db d -> described d sv ->
  apply_all cs d = (d', Ok ()) -> runs obey (render_sql <$> cs) sv sv' ->
  ((forall pre post d1 sv1, cs = pre ++ post -> apply_all pre d = (d1, Ok ()) ->
      runs obey (render_sql <$> pre) sv sv1 -> described d1 sv1) <-> faithful d cs).
Proof.
  intros Hw. revert d sv. induction Hw as [|c cs Hc Hw IH]; intros d sv Hwf Hd Ha Hr.
  - split; [done|]. intros _ pre post d1 sv1 E Hp Hs. symmetry in E. apply app_nil in E as [-> ->].
    injection Hp as <-. by inversion Hs; subst.
  - rewrite apply_all_cons in Ha. destruct (apply c d) as [d1 [[]|e]] eqn:Ea; [|done].
    inversion Hr as [|stmt stmts u0 sv1 u2 Ho Hr']; subst.
    pose proof (obey_iff c d sv d1 sv1 Hc Hwf Hd Ea Ho) as E. cbn [faithful]. split.
    + intros G. assert (Hd1 : described d1 sv1).
      { apply (G [c] cs d1 sv1); [done| |]. { by rewrite apply_all_cons, Ea. } econstructor; [done|constructor]. }
      destruct (proj1 E Hd1) as [H1 H2]. split_and!; [done|done|]. intros d2 Ha2. rewrite Ea in Ha2. injection Ha2 as <-.
      apply (IH d1 sv1); [by eapply apply_wf|done|done|done|].
      intros pre post d3 sv3 -> Hp Hs. apply (G (c :: pre) post d3 sv3); [done| |].
      * by rewrite apply_all_cons, Ea.
      * by econstructor.
    + intros (H1 & H2 & H3) pre post d3 sv3 Epre Hp Hs. specialize (H3 _ Ea).
      assert (Hd1 : described d1 sv1) by by apply E.
      destruct pre as [|c' pre]; [injection Hp as <-; by inversion Hs; subst|].
      injection Epre as <- ->. rewrite apply_all_cons, Ea in Hp.
      inversion Hs as [|stmt stmts u0 sv2 u2 Ho' Hs']; subst. rewrite Ho in Ho'. injection Ho' as <-.
      by eapply (proj2 (IH d1 sv1 ltac:(by eapply apply_wf) Hd1 Ha Hr') H3).
Qed.
Lemma runs_faithful cs d sv d' sv' :
  Forall well_spelled cs -> wf_db d -> described d sv ->
  apply_all cs d = (d', Ok ()) -> runs obey (render_sql <$> cs) sv sv' -> faithful d cs -> described d' sv'.
Proof.
  intros Hw Hwf Hd Ha Hr Hf. apply (proj2 (in_step cs d sv d' sv' Hw Hwf Hd Ha Hr) Hf cs [] d' sv'); [|done|done].
  by rewrite app_nil_r.
Qed.
(** A change that says what it means is carried out exactly if it is accepted. *)
Theorem obey_accept c d sv d' :
  well_spelled c -> sayable c -> wf_db d -> described d sv -> apply c d = (d', Ok ()) ->
  (is_Some (obey (render_sql c) sv) <-> accepted c d).
Proof.
  intros Hw Hs Hwf Hd Ha. destruct (proj2 (says_iff c Hw) Hs) as (st & Hm & Hr). unfold obey. rewrite Hr. cbn [mbind option_bind].
  by eapply accept_iff.
Qed.
Theorem acceptable_runs cs d sv d' :
  Forall well_spelled cs -> wf_db d -> described d sv -> apply_all cs d = (d', Ok ()) -> faithful d cs ->
  ((exists sv', runs obey (render_sql <$> cs) sv sv') <-> acceptable d cs).
Proof.
  intros Hw. revert d sv. induction Hw as [|c cs Hc Hw IH]; intros d sv Hwf Hd Ha Hf.
  - split; [done|]. intros _. exists sv. constructor.
  - rewrite apply_all_cons in Ha. destruct (apply c d) as [d1 [[]|e]] eqn:Ea; [|done]. destruct Hf as (H1 & H2 & H3).
    specialize (H3 _ Ea). pose proof (obey_accept c d sv d1 Hc H1 Hwf Hd Ea) as E. cbn [acceptable].
    assert (Hwf1 : wf_db d1) by (by eapply apply_wf). split.
    + intros [sv' Hr]. inversion Hr as [|stmt stmts u0 sv1 u2 Ho Hr']; subst. split; [apply E; by rewrite Ho|].
      intros d2 Ha2. rewrite Ea in Ha2. injection Ha2 as <-.
      apply (IH d1 sv1); [done| |done|done|by exists sv']. by apply (obey_iff c d sv d1 sv1).
    + intros [G1 G2]. apply E in G1 as [sv1 Ho]. specialize (G2 _ Ea).
      apply (IH d1 sv1) in G2 as [sv' Hr]; [exists sv'; by econstructor|done| |done|done]. by apply (obey_iff c d sv d1 sv1).
Qed.
Lemma obedient_runs {S} (sem : str -> S -> option S) view cs u u' sv :
  obedient sem view -> Forall well_spelled cs -> runs sem (render_sql <$> cs) u u' ->
  runs obey (render_sql <$> cs) (view u) sv -> view u' = sv.
Proof.
  intros Ho Hw. revert u. induction Hw as [|c cs Hc Hw IH]; intros u H1 H2.
  - inversion H1; subst. by inversion H2; subst.
  - inversion H1 as [|stmt stmts u0 u1 u2 H3 H4]; subst. inversion H2 as [|stmt stmts u0 sv1 u2 H5 H6]; subst.
    destruct (Ho c u u1 Hc H3) as [_ E]. apply E in H5. subst sv1. by eapply IH.
Qed.
Theorem obedient_described {S} (sem : str -> S -> option S) view cs d u d' u' :
  obedient sem view -> Forall well_spelled cs -> wf_db d -> described d (view u) ->
  apply_all cs d = (d', Ok ()) -> runs sem (render_sql <$> cs) u u' ->
  faithful d cs -> acceptable d cs -> described d' (view u').
Proof.
  intros Ho Hw Hwf Hd Ha H1 Hf Hac. apply (acceptable_runs cs d (view u) d') in Hac as [sv H2]; [|done..]. rewrite (obedient_runs _ _ _ _ _ _ Ho Hw H1 H2). by eapply runs_faithful.
Qed.

(** ** Statements that are none *)

Lemma unreadable_refused {S} (sem : str -> S -> option S) view c u : obedient sem view ->
  well_spelled c -> unreadable c -> sem (render_sql c) u = None.
Proof.
  intros Ho Hw Hc. destruct (sem (render_sql c) u) as [u'|] eqn:E; [|done]. exfalso.
  destruct (Ho c u u' Hw E) as [[st Hr] _]; [by destruct c|].
  destruct c; cbn in Hc; try done.
  - by rewrite (read_add_foreign_key_text _ _ _ _ _ _ _ _ _ _ _ _ Hw) in Hr.
  - destruct Hc as [x Hc]. by rewrite (read_create_function_text _ _ _ _ _ _ _ Hw Hc) in Hr.
Qed.
Lemma runs_all {S} (sem : str -> S -> option S) stmts u u' x : runs sem stmts u u' -> x ∈ stmts -> exists v, is_Some (sem x v).
Proof.
  induction 1 as [|stmt stmts u u1 u' H _ IH]; [by intros ?%elem_of_nil|].
  intros [->|Hx]%elem_of_cons; [exists u; by rewrite H|by apply IH].
Qed.

(** ** The snapshots along a path of versions *)

Lemma scripted_ups db vs : scripted db vs -> vs ≫= v_up = render_sql <$> all_changes vs.
Proof.
  induction 1 as [|db v vs db1 _ (rs & _ & Hup & _) _ IH]; [done|]. unfold all_changes in *. cbn.
  rewrite fmap_app, Hup. by f_equal.
Qed.
Lemma path_snapshot d a names to vs d0 :
  reachable d -> path d a names to -> Forall2 (stored d) names vs -> calculate_snapshot d a = Ret d0 ->
  exists d1, calculate_snapshot d to = Ret d1 /\ wf_db d0 /\ apply_all (all_changes vs) d0 = (d1, Ok ()) /\
    vs ≫= v_up = render_sql <$> all_changes vs /\ scripted d0 vs.
Proof.
  intros (made & st & Hlin)%reachable_linear Hp Hs H0.
  destruct Hlin as (Hd & Hl & Hst & db0 & Hdb0 & Hsc).
  destruct (linked_path_inv _ _ _ _ _ Hd Hl Hp) as (vs1 & u & ws & zs & E & <- & -> & ->).
  assert (vs = ws) as ->.
  { eapply stored_all; [done|]. intros w Hw. apply (holds_stored _ _ _ _ Hd). split; [|done]. rewrite E. set_solver. }
  assert (exists pre, vs1 ++ [u] = new_init :: pre) as [pre Epre].
  { destruct vs1 as [|i vs1]; injection E as -> _; [by exists []|by exists (vs1 ++ [u])]. }
  assert (E' : made ++ [st] = pre ++ ws ++ zs).
  { assert (new_init :: made ++ [st] = new_init :: pre ++ ws ++ zs) as [= ->]; [|done].
    rewrite (app_comm_cons pre), <- Epre, <- app_assoc. exact E. }
  assert (Hu : v_name u = v_name (default new_init (last pre))).
  { destruct pre as [|p pre _] using rev_ind.
    - destruct vs1; [by injection Epre as ->|]. injection Epre as _ Ep. by destruct vs1.
    - rewrite last_snoc. cbn. rewrite app_comm_cons in Epre. by apply app_inj_tail in Epre as [_ ->]. }
  assert (Hd' : holds d ((new_init :: pre) ++ ws ++ zs)) by (cbn in *; by rewrite E' in Hd).
  assert (Hl' : linked None ((new_init :: pre) ++ ws ++ zs)) by (cbn in *; by rewrite E' in Hl).
  rewrite Hu in H0. apply (linked_snapshot d pre (ws ++ zs) db0 d0 Hd' Hl' Hdb0) in H0.
  rewrite E' in Hsc. apply scripted_app in Hsc as (_ & d0' & Hr0 & Hsc). rewrite (replays_det _ _ _ _ Hr0 H0) in Hsc.
  apply scripted_app in Hsc as (Hsw & d1 & Hr1 & _). exists d1. split_and!.
  - assert (E2 : v_name (default u (last ws)) = v_name (default new_init (last (pre ++ ws)))).
    { rewrite last_app. destruct (last ws); [done|]. exact Hu. }
    rewrite E2. apply (linked_snapshot d (pre ++ ws) zs db0 d1); [| |done|].
    + cbn in *. by rewrite <- app_assoc.
    + cbn in *. by rewrite <- app_assoc.
    + apply replays_app. by exists d0.
  - apply replays_all_changes in H0. eapply apply_all_wf; [|exact H0]. eapply apply_all_wf; [|exact Hdb0]. done.
  - by apply replays_all_changes.
  - by eapply scripted_ups.
  - done.
Qed.

Lemma path_unique d a ns ns' b : SpecHistory.path d a ns b -> SpecHistory.path d a ns' b -> a ∉ ns -> a ∉ ns' -> ns = ns'.
Proof.
  intros H. revert ns'. induction H as [v Hv|ns b c v H IH Hv Hpr]; intros ns' H' Hn Hn'.
  - inversion H' as [|ns2 b2 c2 v2 H2 Hv2 Hpr2]; subst; [done|]. set_solver.
  - inversion H' as [v2 Hv2|ns2 b2 c2 v2 H2 Hv2 Hpr2]; subst; [set_solver|].
    rewrite (stored_unique _ _ _ _ Hv2 Hv), Hpr in Hpr2. injection Hpr2 as <-. f_equal. apply IH; set_solver.
Qed.
Lemma path_start_snapshot d a names to : reachable d -> SpecHistory.path d a names to ->
  exists d0, calculate_snapshot d a = Ret d0.
Proof.
  intros (made & st & Hlin)%reachable_linear Hp. destruct Hlin as (Hd & Hl & Hst & db0 & Hdb0 & Hsc).
  destruct (linked_path_inv _ _ _ _ _ Hd Hl Hp) as (vs1 & u & ws & zs & E & <- & -> & ->).
  assert (exists pre, vs1 ++ [u] = new_init :: pre) as [pre Epre].
  { destruct vs1 as [|i vs1]; injection E as -> _; [by exists []|by exists (vs1 ++ [u])]. }
  assert (E' : made ++ [st] = pre ++ ws ++ zs).
  { assert (new_init :: made ++ [st] = new_init :: pre ++ ws ++ zs) as [= ->]; [|done].
    rewrite (app_comm_cons pre), <- Epre, <- app_assoc. exact E. }
  assert (Hu : v_name u = v_name (default new_init (last pre))).
  { destruct pre as [|p pre _] using rev_ind.
    - destruct vs1; [by injection Epre as ->|]. injection Epre as _ Ep. by destruct vs1.
    - rewrite last_snoc. cbn. rewrite app_comm_cons in Epre. by apply app_inj_tail in Epre as [_ ->]. }
  assert (Hd' : holds d ((new_init :: pre) ++ ws ++ zs)) by (cbn in *; by rewrite E' in Hd).
  assert (Hl' : linked None ((new_init :: pre) ++ ws ++ zs)) by (cbn in *; by rewrite E' in Hl).
  rewrite E' in Hsc. apply scripted_app in Hsc as (_ & d0 & Hr0 & _). exists d0. rewrite Hu.
  by apply (linked_snapshot d pre (ws ++ zs) db0 d0 Hd' Hl' Hdb0).
Qed.

(** ** Up *)
Section migrate.
  Context {S : Type} (sem : str -> S -> option S) (view : S -> server) (ident : str -> option str) (schema : str).
  Hypothesis Hident : ident schema = Some schema.
  Hypothesis Hobey : obedient sem view.

  Theorem up_described l d version k db db' :
    reachable d -> run (up sem ident l d schema version) k db = (Ret (), db') ->
    exists t cur to names vs,
      finds db schema t /\ newest (t_rows t) cur /\ target d version to /\
      SpecHistory.path d (v_name (r_version cur)) names to /\ Forall2 (stored d) names vs /\
      forall d0, calculate_snapshot d (v_name (r_version cur)) = Ret d0 -> described d0 (view (pg_user db)) ->
        Forall well_spelled (all_changes vs) -> faithful d0 (all_changes vs) -> acceptable d0 (all_changes vs) ->
        exists d1, calculate_snapshot d to = Ret d1 /\ described d1 (view (pg_user db')).
  Proof.
    intros Hre Hrun. destruct (reachable_dir d Hre) as [Hw Hp].
    destruct (up_applies sem ident schema Hident l d version k db db' Hw Hp Hrun)
      as (t & cur & to & names & vs & H1 & H2 & H3 & H4 & _ & H5 & H6 & _). clear Hrun.
    exists t, cur, to, names, vs. split_and!; [done..|].
    intros d0 H0 Hd Hws Hf Hac.
    destruct (path_snapshot d _ names to vs d0 Hre H4 H5 H0) as (d1 & Hd1 & Hwf & Ha & E & _).
    exists d1. split; [done|]. rewrite E in H6. by eapply obedient_described.
  Qed.

  Theorem up_refused l d version k db r db' t cur to names vs c :
    reachable d -> migrated sem ident schema db ->
    finds db schema t -> newest (t_rows t) cur -> target d version to ->
    SpecHistory.path d (v_name (r_version cur)) names to -> Forall2 (stored d) names vs ->
    c ∈ all_changes vs -> well_spelled c -> unreadable c ->
    run (up sem ident l d schema version) k db = (r, db') -> r <> Ret () /\ pg_user db' = pg_user db.
  Proof.
    intros Hre Hm Ht Hn Hto Hp Hs Hc Hw Hu Hrun. destruct (reachable_dir d Hre) as [Hwn Hpd].
    assert (r <> Ret ()) as Hr; [|split; [done|]; by eapply up_counter].
    intros ->.
    destruct (up_inv sem ident schema db Hident l d version k db' Hwn Hpd Hrun)
      as (t' & cur' & to' & names' & vs' & (h & v & Hh & Hv & <-) & Ht' & Hn' & _ & Hp' & Hnot' & Hs' & R & _). clear Hrun.
    rewrite (finds_unique _ _ _ _ Ht' Ht) in *. clear Ht' t'.
    destruct (migrated_finds sem ident schema Hident db t Hm Ht) as (_ & _ & _ & Hinc & _).
    assert (cur' = cur) as -> by (apply (newest_unique (t_rows t)); [by apply increasing_nodup|done|done]).
    destruct (reachable_target l d version to Hre Hto) as (h2 & v2 & Hh2 & Hv2 & <-).
    rewrite Hh in Hh2. injection Hh2 as <-. rewrite Hv in Hv2. injection Hv2 as <-.
    assert (names' = names) as ->.
    { destruct (reachable_path_nodup _ _ _ _ _ Hre Hp Hs) as [_ Hnot]. by eapply (path_unique d (v_name (r_version cur))). }
    assert (vs' = vs) as ->.
    { clear -Hs Hs'. revert vs' Hs'. induction Hs as [|n v ns vs Hv Hs IH]; intros vs' Hs'.
      - by apply Forall2_nil_inv_l in Hs'.
      - apply Forall2_cons_inv_l in Hs' as (v' & vs'' & Hv' & Hs' & ->). f_equal; [by eapply stored_unique|by apply IH]. }
    assert (exists d0, calculate_snapshot d (v_name (r_version cur)) = Ret d0) as [d0 H0] by (by eapply path_start_snapshot).
    destruct (path_snapshot d _ names _ vs d0 Hre Hp Hs H0) as (_ & _ & _ & _ & E & _). rewrite E in R.
    destruct (runs_all _ _ _ _ (render_sql c) R) as [u [u' Hu']]; [by apply elem_of_list_fmap_1|].
    by rewrite (unreadable_refused sem view c u Hobey Hw Hu) in Hu'.
  Qed.
End migrate.

(** ** Databases that differ in the order of columns *)

Lemma described_equiv a b sv : wf_db a -> db_equiv a b -> described a sv -> described b sv.
Proof.
  intros Hwf He Hd n. specialize (He n). specialize (Hd n). specialize (Hwf n).
  destruct (db_schemas a !! n) as [x|]; destruct (db_schemas b !! n) as [y|]; try by inversion He.
  destruct (sv !! n) as [z|]; [|by inversion Hd].
  assert (schema_equiv x y) as (_ & Hr & Hf) by (by inversion He).
  assert (schema_described x z) as [Hr' Hf'] by (by inversion Hd). constructor.
  specialize (Hwf x eq_refl) as (_ & Hwf & _). split; [|intros m; by rewrite <- Hf].
  intros m. specialize (Hr m). specialize (Hr' m). specialize (Hwf m).
  destruct (sc_relations x !! m) as [r|]; destruct (sc_relations y !! m) as [r2|]; try by inversion Hr.
  destruct (ss_relations z !! m) as [w|]; [|by inversion Hr'].
  assert (relation_equiv r r2) as Hrr by (by inversion Hr). assert (relation_described r w) as Hrw by (by inversion Hr').
  constructor. specialize (Hwf r eq_refl). clear Hr Hr' He Hd.
  destruct r as [ta|v|i|q]; destruct r2 as [tb|v2|i2|q2]; cbn in Hrr; try done; try (injection Hrr as <-; done).
  destruct w as [cols cks| | |]; try done. cbn in *. destruct Hrr as (_ & _ & Hp & Hc), Hrw as [H1 H2].
  split; [|intros j; by rewrite <- Hc]. intros j. rewrite <- (find_column_perm j (tb_columns ta)); [done| |done].
  by destruct Hwf as (_ & _ & ? & _).
Qed.

(** ** Down *)

Lemma downs_described {S} (sem : str -> S -> option S) view vs d0 d1 u u' :
  obedient sem view -> wf_db d0 -> scripted d0 vs -> taken_back d0 vs -> apply_all (all_changes vs) d0 = (d1, Ok ()) ->
  described d1 (view u) -> runs sem (reverse vs ≫= v_down) u u' -> described d0 (view u').
Proof.
  intros Ho Hwf Hs Ht Ha Hd H1. revert Ht d1 Ha u u' Hd H1.
  induction Hs as [d0|d0 v vs dv Hv (rs & Hrs & _ & Hdown) _ IH]; intros Ht d1 Ha u u' Hd H1.
  - injection Ha as <-. by inversion H1; subst.
  - inversion Ht as [|x v' vs' dv' rs' d2 Hv' Hrs' Hback He Hw Hf Hac Ht']; subst.
    rewrite Hv in Hv'. injection Hv' as <-. rewrite Hrs in Hrs'. injection Hrs' as <-.
    unfold all_changes in Ha. cbn in Ha. rewrite apply_all_app, Hv in Ha.
    rewrite reverse_cons, bind_app in H1. apply runs_app in H1 as (u1 & H1 & H1').
    assert (Hwf1 : wf_db dv) by (by eapply apply_all_wf).
    pose proof (IH Hwf1 Ht' d1 Ha u u1 Hd H1) as Hd1.
    cbn in H1'. rewrite app_nil_r, Hdown, <- fmap_reverse in H1'.
    assert (Hw' : Forall well_spelled (reverse rs)) by (by rewrite reverse_Permutation).
    eapply described_equiv; [|exact He|by eapply obedient_described]. by eapply apply_all_wf.
Qed.

Section revert.
  Context {S : Type} (sem : str -> S -> option S) (view : S -> server) (ident : str -> option str) (schema : str).
  Hypothesis Hident : ident schema = Some schema.
  Hypothesis Hobey : obedient sem view.

  Theorem down_described d version k db db' :
    together sem ident schema (fun n => n <> L "stage") d db ->
    run (down sem ident schema version) k db = (Ret (), db') ->
    exists t cur, finds db schema t /\ newest (t_rows t) cur /\
      ((version = None /\ v_previous (r_version cur) = None /\ db' = db) \/
       exists to names vs, match version with Some n => to = n | None => v_previous (r_version cur) = Some to end /\
         SpecHistory.path d to names (v_name (r_version cur)) /\ Forall2 (stored d) names vs /\
         forall d0 d1, calculate_snapshot d to = Ret d0 -> calculate_snapshot d (v_name (r_version cur)) = Ret d1 ->
           described d1 (view (pg_user db)) -> taken_back d0 vs -> described d0 (view (pg_user db'))).
  Proof.
    intros Htog Hrun. pose proof (together_reachable sem ident schema _ _ _ Htog) as Hre.
    pose proof (together_migrated sem ident schema _ _ _ Htog) as Hm.
    destruct (down_inv sem ident schema db Hident version k db') as (t & cur & Ht & Hn & Hcase); [|done|].
    { intros t Ht. by eapply chained_distinct, migrated_chained. }
    exists t, cur. split; [done|]. split; [done|]. destruct Hcase as [?|(to & rt & Hto & Hrt & <- & _)]; [by left|right].
    pose proof (migrated_finds sem ident schema Hident db t Hm Ht) as Hch.
    pose proof Hrt as (pre & suf & Erows)%elem_of_list_split.
    destruct (down_forward sem ident schema db Hident version k (Ret ()) db' t pre rt suf cur)
      as [(u' & R & _ & _ & Edb)|[[_ ?]|(? & _ & _ & _ & ?)]]; try done.
    clear Hrun.
    assert (pg_user db' = u') as <-. { destruct suf; [|by subst]. subst. by inversion R. }
    destruct (together_follows sem ident schema Hident _ _ Htog) as (made & st & Hlin & Hf).
    destruct (follows_finds schema made db t Hf Ht) as (pre0 & post & -> & E).
    destruct Hch as (_ & _ & _ & Hinc & _).
    assert (Hcur : r_version cur = default (r_version rt) (last (r_version <$> suf))).
    { destruct suf as [|c suf _] using rev_ind.
      - cbn. f_equal. apply (newest_unique (t_rows t)); [by apply increasing_nodup|done|].
        rewrite Erows. apply newest_last. by rewrite <- Erows.
      - rewrite fmap_app. cbn [fmap list_fmap]. rewrite last_snoc. cbn.
        assert (t_rows t = (pre ++ rt :: suf) ++ [c]) as Er by (by rewrite Erows, <- app_assoc).
        f_equal. apply (newest_unique (t_rows t)); [by apply increasing_nodup|done|].
        rewrite Er. apply newest_last. by rewrite <- Er. }
    assert (Eall : (new_init :: pre0 ++ post) ++ [st] = (r_version <$> pre) ++ r_version rt :: (r_version <$> suf) ++ post ++ [st]).
    { rewrite app_comm_cons, <- E, Erows, fmap_app, fmap_cons. rewrite <- !app_assoc. cbn. by rewrite <- ?app_assoc. }
    pose proof Hlin as (Hd & Hl & _).
    exists (row_name rt), (v_name <$> (r_version <$> suf)), (r_version <$> suf).
    assert (Hp : SpecHistory.path d (row_name rt) (v_name <$> (r_version <$> suf)) (v_name (r_version cur))).
    { rewrite Hcur. rewrite Eall in Hd, Hl. apply (linked_path d _ _ _ Hd Hl). by eexists. }
    assert (Hs : Forall2 (stored d) (v_name <$> (r_version <$> suf)) (r_version <$> suf)).
    { apply Forall2_fmap_l, Forall_Forall2_diag, Forall_forall. intros v Hv. apply (holds_stored _ _ _ _ Hd). split; [|done].
      rewrite Eall. set_solver. }
    split_and!; [done..|].
    intros d0 d1 H0 H1 Hde Htb.
    destruct (path_snapshot d _ _ _ _ d0 Hre Hp Hs H0) as (d1' & H1' & Hwf & Ha & _ & Hsc).
    rewrite H1 in H1'. injection H1' as <-. rewrite fmap_reverse in R. by eapply downs_described.
  Qed.
End revert.
