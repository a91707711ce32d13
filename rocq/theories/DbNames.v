(** Which version names the version table can hold, and migrating a new database. *)
From Verif Require Import Base Text Types Changes Sql History SpecHistory HistoryLemmas HistoryLoad HistoryProofs
  HistoryRun HistoryClaims Dbh SpecDb DbLemmas DbRun DbSteps DbClaims DbChain DbProofs.
From stdpp Require Import sorting.

Lemma path_last d a ns b : path d a ns b -> ns = [] \/ exists ns', ns = ns' ++ [b].
Proof. intros [v Hv|ns' b' c v Hp Hv Hpr]; [by left|right; by exists ns']. Qed.
Lemma stored_all d ws vs : Forall2 (stored d) (v_name <$> ws) vs -> (forall w, w ∈ ws -> stored d (v_name w) w) -> vs = ws.
Proof.
  revert vs. induction ws as [|w ws IH]; intros vs Hs Hall.
  - by apply Forall2_nil_inv_l in Hs.
  - rewrite fmap_cons in Hs. apply Forall2_cons_inv_l in Hs as (v & vs' & Hv & Hs & ->).
    rewrite (stored_unique _ _ _ _ Hv (Hall w ltac:(by left))). f_equal. apply IH; [done|].
    intros x Hx. apply Hall. by right.
Qed.
Lemma init_newest cur : newest [Row new_init 1] cur -> cur = Row new_init 1.
Proof. intros [H _]. by apply elem_of_list_singleton in H. Qed.

(** The path from init to the current version is everything that was made. *)
Lemma linear_init_path d made st names to vs :
  linear d made st -> path d (L "init") names to -> is_current d to -> Forall2 (stored d) names vs -> vs = made.
Proof.
  intros Hlin Hp Hto%(linear_is_current _ _ _ _ Hlin) Hs. pose proof Hlin as (Hd & Hl & Hst & _).
  destruct (path_in_order d made st [] made new_init [] names to vs) as [post' E]; try done.
  { subst to. pose proof Hd as (Hnd & _). rewrite fmap_app in Hnd. apply NoDup_app in Hnd as (_ & Hnd & _).
    intros E. apply (Hnd (L "stage")); [|rewrite <- Hst; by left]. rewrite <- E. apply elem_of_list_fmap_1.
    destruct (last made) as [w|] eqn:El; [right; by apply last_Some_elem_of|left]. }
  destruct post' as [|x post' _] using rev_ind; [by rewrite app_nil_r in E|]. exfalso. subst made.
  rewrite (assoc (++)), last_snoc in Hto. simpl in Hto.
  assert (v_name x ∉ v_name <$> new_init :: vs) as Hx.
  { destruct Hd as (Hnd & _). replace ((new_init :: vs ++ post' ++ [x]) ++ [st]) with ((new_init :: vs) ++ (post' ++ [x]) ++ [st]) in Hnd
      by (simpl; by rewrite <- !(assoc (++))).
    rewrite !fmap_app in Hnd. apply NoDup_app in Hnd as (_ & Hnd & _). intros K. apply (Hnd _ K).
    apply elem_of_app. left. apply elem_of_app. right. left. }
  apply Hx. rewrite <- Hto. destruct (path_last _ _ _ _ Hp) as [->|[ns' ->]].
  - inversion Hp as [v Hv|ns b c v Hp' _ _ K]; subst; [by left|by destruct ns].
  - apply Forall2_app_inv_l in Hs as (k1 & k2 & _ & H2 & ->). apply Forall2_cons_inv_l in H2 as (w & k2' & Hw & Hk & ->).
    assert (v_name w = to) as <- by (by destruct (linear_stored_cases _ _ _ _ _ Hlin Hw)).
    apply elem_of_list_fmap_1. right. apply elem_of_app. right. left.
Qed.

Section names.
  Context {S : Type} (sem : str -> S -> option S) (ident : str -> option str) (schema : str).
  Hypothesis Hident : ident schema = Some schema.

  Lemma too_long l d n v version k db r db' :
    reachable d -> stored d n v -> n <> L "stage" -> 128 < length n -> version = None \/ version = Some n ->
    pg_schemas db !! schema = None ->
    run (up sem ident l d schema version) k db = (r, db') -> r <> Ret ().
  Proof.
    intros Hr Hv Hn Hlen Hver Hdb H ->. pose proof (reachable_dir _ Hr) as [Hw Hpl].
    pose proof Hr as (made & st & Hlin)%reachable_linear.
    apply (up_inv sem ident schema db Hident) in H
      as (t & cur & to & names & vs & _ & Ht & Hcur & Hto & Hp & _ & Hs & _ & Hfit & _); try done.
    destruct Ht as [Ht|[_ ->]]; [unfold has_table in Ht; congruence|]. apply init_newest in Hcur as ->.
    change (row_name (Row new_init 1)) with (L "init") in Hp.
    assert (v ∈ vs) as Hin.
    { destruct Hver as [->| ->]; simpl in Hto.
      - rewrite (linear_init_path _ _ _ _ _ _ Hlin Hp Hto Hs).
        destruct (linear_stored_cases _ _ _ _ _ Hlin Hv) as [-> [->|[?| ->]]]; [simpl in Hlen; lia|done|].
        destruct Hlin as (_ & _ & ? & _). done.
      - destruct Hto as [-> _]. destruct (path_last _ _ _ _ Hp) as [->|[ns' ->]].
        + inversion Hp as [w Hw'|ns b c w Hp' _ _ K]; subst; [simpl in Hlen; lia|by destruct ns].
        + apply Forall2_app_inv_l in Hs as (k1 & k2 & _ & H2 & ->).
          apply Forall2_cons_inv_l in H2 as (w & k2' & Hw' & _ & ->). rewrite (stored_unique _ _ _ _ Hv Hw').
          apply elem_of_app. right. left. }
    apply (proj1 (Forall_forall _ _) Hfit) in Hin as [Hle _]. destruct (linear_stored_cases _ _ _ _ _ Hlin Hv) as [-> _]. lia.
  Qed.

  Definition short (n : str) : Prop := length n <= 128 /\ 0%N ∉ n.
  Lemma short_fits ns d n v :
    made_in ns d -> Forall short ns -> stored d n v ->
    Forall (fun s : str => 0%N ∉ s) (v_up v ++ v_down v) -> fits v.
  Proof.
    intros (made & st & Hlin & <-)%made_in_linear Hshort Hv [Hup Hdown]%Forall_app. pose proof Hlin as (Hd & Hl & Hst & _).
    assert (forall w, w ∈ (new_init :: made) ++ [st] -> short (v_name w)) as Hall.
    { intros w [[->|Hw]%elem_of_cons| ->%elem_of_list_singleton]%elem_of_app.
      - split; [simpl; lia|]. apply (bool_decide_unpack _). vm_compute. exact I.
      - apply (proj1 (Forall_forall _ _) Hshort). by apply elem_of_list_fmap_1.
      - rewrite Hst. split; [simpl; lia|]. apply (bool_decide_unpack _). vm_compute. exact I. }
    assert (v ∈ (new_init :: made) ++ [st]) as Hin.
    { destruct (linear_stored_cases _ _ _ _ _ Hlin Hv) as [_ [->|[?| ->]]].
      - by left.
      - apply elem_of_app. left. by right.
      - apply elem_of_app. right. left. }
    destruct (Hall _ Hin) as [H1 H2]. split; [done|]. split; [done|]. split; [|done].
    intros p Hp. assert (exists w, w ∈ (new_init :: made) ++ [st] /\ v_name w = p) as (w & Hw & <-); [|by apply Hall].
    clear - Hl Hin Hp. set (vs := (new_init :: made) ++ [st]) in *.
    assert (forall q, linked q vs -> v ∈ vs -> q = Some p \/ exists w, w ∈ vs /\ v_name w = p) as K.
    { clear Hl Hin. induction vs as [|x vs IH]; intros q H [->|Hin]%elem_of_cons || intros q _ []%elem_of_nil.
      - left. destruct H as [H _]. congruence.
      - destruct H as [_ H]. destruct (IH _ H Hin) as [[= E]|(w & Hw & E)]; right.
        + exists x. split; [left|done].
        + exists w. split; [by right|done]. }
    destruct (K None Hl Hin) as [?|?]; done.
  Qed.

  (** Everything that was made can be applied to a new database, unless a statement fails. *)
  Lemma up_new_database l ns d k db r db' :
    made_in ns d -> Forall short ns -> (Z.of_nat (length ns) < 2147483647)%Z ->
    (forall n v, n ∈ ns -> stored d n v -> Forall (fun s : str => 0%N ∉ s) (v_up v ++ v_down v)) ->
    pg_schemas db !! schema = None ->
    run (up sem ident l d schema None) k db = (r, db') -> r <> Killed ->
    exists vs, Forall2 (stored d) ns vs /\
      ((exists u', runs sem (vs ≫= v_up) (pg_user db) u' /\ (vs = [] \/ settled sem u') /\ r = Ret () /\ pg_user db' = u') \/
       ((forall u', ~ runs sem (vs ≫= v_up) (pg_user db) u') /\ r = Abort) \/
       (exists u', runs sem (vs ≫= v_up) (pg_user db) u' /\ vs <> [] /\ ~ settled sem u' /\ r = Raise DbError)).
  Proof.
    intros Hm Hshort Hlen Htext Hdb Hrun Hkill. pose proof Hm as (made & st & Hlin & Hns)%made_in_linear.
    assert (reachable d) as Hr by (apply reachable_made_in; by exists ns).
    pose proof Hlin as (Hd & Hl & Hst & _).
    assert (forall w, w ∈ made -> stored d (v_name w) w) as Hall.
    { intros w Hw. apply (holds_stored _ _ _ _ Hd). split; [|done]. apply elem_of_app. left. by right. }
    assert (Forall2 (stored d) ns made) as Hs.
    { subst ns. clear -Hall. induction made as [|w made IH]; [constructor|]. rewrite fmap_cons. constructor.
      - apply Hall. left.
      - apply IH. intros x Hx. apply Hall. by right. }
    exists made. split; [done|].
    assert (exists to, is_current d to) as [to Hto].
    { destruct (linear_loads l _ _ _ Hlin) as (h & Hh & E). exists (current_version h).
      apply from_dir_iff in Hh; [by destruct Hh as (_ & _ & _ & ?)|by apply reachable_dir]. }
    pose proof (linear_is_current _ _ _ _ Hlin Hto) as Eto.
    apply (up_succeeds sem ident schema Hident l d None k db r db' (VTable [Row new_init 1] 2) (Row new_init 1) to ns made); try done.
    - by constructor.
    - by right.
    - split; [left|]. intros x Hx%elem_of_list_singleton. by subst.
    - cbn [r_version]. rewrite Eto, <- Hns. change (L "init") with (v_name new_init).
      apply (linked_path d [] new_init (made ++ [st])); [done|done|]. by exists [st].
    - apply Forall_forall. intros v Hv. apply (short_fits ns d (v_name v)); [done|done|by apply Hall|].
      apply (Htext (v_name v)); [|by apply Hall]. rewrite <- Hns. by apply elem_of_list_fmap_1.
    - intros v x Hv Hx%elem_of_list_singleton. subst x. cbn [r_version]. intros E.
      destruct Hd as (Hnd & _). rewrite <- app_comm_cons, fmap_cons in Hnd. apply NoDup_cons in Hnd as [Hnd _]. apply Hnd.
      rewrite E. apply elem_of_list_fmap_1. apply elem_of_app. by left.
    - cbn [t_next]. apply (f_equal length) in Hns. rewrite fmap_length in Hns. rewrite Hns. lia.
  Qed.

  (** Exactly what the first [up] of a project needs. *)
  Lemma first_up_iff l ns d k db r db' :
    made_in ns d -> (Z.of_nat (length ns) < 2147483647)%Z -> pg_schemas db !! schema = None ->
    run (up sem ident l d schema None) k db = (r, db') -> r <> Killed ->
    exists vs, Forall2 (stored d) ns vs /\
      (r = Ret () <->
       Forall short ns /\ Forall (fun v => Forall (fun s : str => 0%N ∉ s) (v_up v ++ v_down v)) vs /\
       exists u', runs sem (vs ≫= v_up) (pg_user db) u' /\ (vs = [] \/ settled sem u')).
  Proof.
    intros Hm Hlen Hdb Hrun Hkill. pose proof Hm as (made & st & Hlin & Hns)%made_in_linear.
    assert (reachable d) as Hr by (apply reachable_made_in; by exists ns).
    pose proof Hlin as (Hd & Hl & Hst & _).
    assert (forall w, w ∈ made -> stored d (v_name w) w) as Hall.
    { intros w Hw. apply (holds_stored _ _ _ _ Hd). split; [|done]. apply elem_of_app. left. by right. }
    assert (Forall2 (stored d) ns made) as Hs.
    { subst ns. clear -Hall. induction made as [|w made IH]; [constructor|]. rewrite fmap_cons. constructor.
      - apply Hall. left.
      - apply IH. intros x Hx. apply Hall. by right. }
    exists made. split; [done|]. split.
    - intros ->. pose proof (reachable_dir _ Hr) as [Hw Hpl].
      apply (up_inv sem ident schema db Hident) in Hrun
        as (t & cur & to & names & vs & _ & Ht & Hcur & Hto & Hp & _ & Hs' & Hruns & Hfit & _ & _ & _ & Hset); try done.
      destruct Ht as [Ht|[_ ->]]; [unfold has_table in Ht; congruence|]. apply init_newest in Hcur as ->.
      change (row_name (Row new_init 1)) with (L "init") in Hp. simpl in Hto.
      rewrite (linear_init_path _ _ _ _ _ _ Hlin Hp Hto Hs') in *. rewrite Forall_forall in Hfit. split; [|split].
      + rewrite <- Hns. apply Forall_fmap, Forall_forall. intros v Hv. by destruct (Hfit v Hv) as (? & ? & _).
      + apply Forall_forall. intros v Hv. apply Forall_app. by destruct (Hfit v Hv) as (_ & _ & _ & ? & ?).
      + exists (pg_user db'). split; [done|]. destruct made as [|v0 made]; [by left|]. right. by apply Hset.
    - intros (Hshort & Htext & u' & Hu & Hset).
      destruct (up_new_database l ns d k db r db') as (vs & Hvs & H); try done.
      { intros n v Hn Hv. rewrite <- Hns in Hn. apply elem_of_list_fmap in Hn as (w & -> & Hw).
        rewrite (stored_unique _ _ _ _ Hv (Hall w Hw)). rewrite Forall_forall in Htext. by apply Htext. }
      assert (vs = made) as ->.
      { clear - Hs Hvs. revert vs Hvs. induction Hs as [|n v ns vs0 Hv _ IH]; intros vs; [by intros ->%Forall2_nil_inv_l|].
        intros (w & ws & Hw & Hws & ->)%Forall2_cons_inv_l. rewrite (stored_unique _ _ _ _ Hv Hw). f_equal. by apply IH. }
      destruct H as [(u1 & _ & _ & -> & _)|[[H _]|(u1 & H1 & H2 & H3 & _)]]; [done| |].
      + by destruct (H u').
      + destruct H3. destruct Hset as [->|Hset]; [done|]. by rewrite (runs_unique _ _ _ _ _ H1 Hu).
  Qed.
End names.
Lemma first_up_exactly {S : Type} (sem : str -> S -> option S) (ident : str -> option str) (schema : str) l ns d k db r db' :
  made_in ns d -> (Z.of_nat (length ns) < 2147483647)%Z -> pg_schemas db !! schema = None ->
  run (up sem ident l d schema None) k db = (r, db') -> r <> Killed ->
  exists vs, Forall2 (stored d) ns vs /\
    (r = Ret () <->
     ident schema = Some schema /\
     Forall short ns /\ Forall (fun v => Forall (fun s : str => 0%N ∉ s) (v_up v ++ v_down v)) vs /\
     exists u', runs sem (vs ≫= v_up) (pg_user db) u' /\ (vs = [] \/ settled sem u')).
Proof.
  intros Hm Hlen Hdb Hrun Hk. destruct (decide (ident schema = Some schema)) as [Hi|Hi].
  - destruct (first_up_iff sem ident schema Hi l ns d k db r db' Hm Hlen Hdb Hrun Hk) as (vs & Hvs & H).
    exists vs. split; [done|]. rewrite H. tauto.
  - pose proof Hm as (made & st & Hlin & Hns)%made_in_linear. exists made. split.
    + subst ns. pose proof Hlin as (Hd & _). apply Forall2_fmap_l, Forall_Forall2_diag, Forall_forall. intros w Hw.
      apply (holds_stored _ _ _ _ Hd). split; [|done]. apply elem_of_app. left. by right.
    + split; [|by intros [? _]]. intros ->.
      destruct (misread_fails sem ident schema l d None k db (Ret ()) db' Hi Hdb (or_introl Hrun)) as [[] _]. done.
Qed.

(** Names that [make] gives. *)
Lemma made_name_length now name : length (made_name now name) = length now + 1 + length (default (L "auto") name).
Proof. unfold made_name. rewrite !app_length. destruct name; simpl; lia. Qed.
Lemma made_name_short now name :
  timestamp now -> 0%N ∉ now -> 0%N ∉ default [] name -> length (default [] name) <= 112 -> short (made_name now name).
Proof.
  intros [Hlen _] H1 H2 Hle. split.
  - rewrite made_name_length, Hlen. destruct name; simpl in *; lia.
  - unfold made_name. rewrite !elem_of_app. intros [H|[H|H]]; [done| |].
    + apply elem_of_list_singleton in H. done.
    + destruct name; [done|]. revert H. apply (bool_decide_unpack _). vm_compute. exact I.
Qed.
