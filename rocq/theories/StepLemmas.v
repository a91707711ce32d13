(** Lemmas: runs of change lists, at database, schema and table level. *)
From Verif Require Import Base Types Changes Diff SpecSnapshot SpecDiff.

(** ** Runs

    [relaxed] is [apply], except that "create index" does not look for its table. *)
Definition relaxed (c : change) : mut database () :=
  match c with
  | CreateIndex s t i u m ks =>
      with_schema_mut s (add_relation (RIndex (Index s i t u m ks)))
  | _ => apply c
  end.

Inductive steps_of (ap : change -> mut database ()) (G : change -> database -> Prop) :
    list change -> database -> database -> Prop :=
  | steps_nil d : steps_of ap G [] d d
  | steps_cons c cs d d1 d2 :
      ap c d = (d1, Ok ()) -> G c d -> steps_of ap G cs d1 d2 -> steps_of ap G (c :: cs) d d2.
Notation steps := (steps_of apply).

Lemma steps_nil_eq ap G d d' : d = d' -> steps_of ap G [] d d'.
Proof. intros ->. constructor. Qed.

Lemma steps_app ap G c1 c2 d1 d2 d3 :
  steps_of ap G c1 d1 d2 -> steps_of ap G c2 d2 d3 -> steps_of ap G (c1 ++ c2) d1 d3.
Proof. induction 1; simpl; eauto using steps_of. Qed.

Lemma steps_apply_all G cs d d' : steps G cs d d' -> apply_all cs d = (d', Ok ()).
Proof.
  induction 1 as [|c cs d d1 d2 Ha HG _ IH]; [done|].
  unfold apply_all in *; simpl. unfold mthen. by rewrite Ha.
Qed.

Lemma apply_all_steps cs d d' :
  apply_all cs d = (d', Ok ()) -> steps (fun _ _ => True) cs d d'.
Proof.
  revert d. induction cs as [|c cs IH]; intros d H; unfold apply_all in *; simpl in H.
  { inversion H; subst; constructor. }
  unfold mthen in H. destruct (apply c d) as [d1 [[]|e]] eqn:E; [|done].
  econstructor; eauto.
Qed.

Lemma steps_mono ap (G G' : change -> database -> Prop) cs d d' :
  (forall c d, G c d -> G' c d) -> steps_of ap G cs d d' -> steps_of ap G' cs d d'.
Proof. intros HG. induction 1; econstructor; eauto. Qed.

Lemma steps_det ap G G' cs d d1 d2 :
  steps_of ap G cs d d1 -> steps_of ap G' cs d d2 -> d1 = d2.
Proof.
  intros H. revert d2. induction H as [d|c cs d d1 d2 Ha _ _ IH]; intros d3 H3; inversion H3; subst; [done|].
  apply IH. assert (d1 = d4) as -> by congruence. done.
Qed.

(** ** A loop over the entries of a map *)
Definition upd_map {V A} (key : A -> str) (e : A -> option V) (l : list A)
    (m : gmap str V) : gmap str V :=
  foldl (fun m a => partial_alter (fun _ => e a) (key a) m) m l.

Lemma lookup_upd_map_notin {V A} (key : A -> str) (e : A -> option V) l m k :
  k ∉ key <$> l -> upd_map key e l m !! k = m !! k.
Proof.
  revert m. induction l as [|a l IH]; intros m Hk; [done|]. simpl in *.
  apply not_elem_of_cons in Hk as [Hk1 Hk2]. rewrite (IH _ Hk2).
  by rewrite lookup_partial_alter_ne.
Qed.

Lemma lookup_upd_map_in {V A} (key : A -> str) (e : A -> option V) l m a :
  NoDup (key <$> l) -> a ∈ l -> upd_map key e l m !! key a = e a.
Proof.
  revert m. induction l as [|b l IH]; intros m Hnd Ha; [by apply elem_of_nil in Ha|].
  simpl in *. apply NoDup_cons in Hnd as [Hb Hnd].
  apply elem_of_cons in Ha as [->|Ha]; [|by apply IH].
  rewrite lookup_upd_map_notin; [|done]. by rewrite lookup_partial_alter.
Qed.

Section loop.
  Context {S V A : Type} (R : list change -> S -> S -> Prop).
  Context (Rnil : forall s, R [] s s).
  Context (Rapp : forall c1 c2 s1 s2 s3, R c1 s1 s2 -> R c2 s2 s3 -> R (c1 ++ c2) s1 s3).
  Context (get : S -> gmap str V) (set : S -> gmap str V -> S).
  Context (get_set : forall s m, get (set s m) = m).
  Context (set_set : forall s m m', set (set s m) m' = set s m').
  Context (set_get : forall s, set s (get s) = s).
  Context (key : A -> str) (g : A -> list change) (e : A -> option V) (P : S -> Prop).

  Lemma loop_run l s :
    NoDup (key <$> l) -> P s ->
    (forall a s', a ∈ l -> P s' -> get s' !! key a = get s !! key a ->
       R (g a) s' (set s' (partial_alter (fun _ => e a) (key a) (get s'))) /\
       P (set s' (partial_alter (fun _ => e a) (key a) (get s')))) ->
    R (l ≫= g) s (set s (upd_map key e l (get s))) /\
    P (set s (upd_map key e l (get s))).
  Proof.
    revert s. induction l as [|a l IH]; intros s Hnd HP Hstep; simpl.
    { unfold upd_map; simpl. rewrite set_get. split; [apply Rnil|done]. }
    apply NoDup_cons in Hnd as [Ha Hnd].
    destruct (Hstep a s) as [HR1 HP1]; [left|done|done|].
    set (s1 := set s (partial_alter (fun _ => e a) (key a) (get s))) in *.
    destruct (IH s1 Hnd HP1) as [HR2 HP2].
    { intros a' s' Ha' HP' Hget. apply Hstep; [by right|done|].
      rewrite Hget. unfold s1. rewrite get_set, lookup_partial_alter_ne; [done|].
      intros Heq. apply Ha. rewrite Heq. by apply elem_of_list_fmap_1. }
    assert (set s1 (upd_map key e l (get s1)) = set s (upd_map key e (a :: l) (get s))) as Heq.
    { unfold s1. by rewrite set_set, get_set. }
    rewrite Heq in *. split; [|done]. eapply Rapp; eauto.
  Qed.
End loop.

(** ** Facts about the pre-states of a diff run

    [dgood s t c d]: what is known about the state [d] in which change [c] of the diff
    from [s] to [t] is applied. *)
Definition dgood (s t : database) (c : change) (d : database) : Prop :=
  match c with
  | DropTable n k => exists tb,
      relation_at d n k = Some (RTable tb) /\ relation_at s n k = Some (RTable tb)
  | DropSequence n k => exists q,
      relation_at d n k = Some (RSequence q) /\ relation_at s n k = Some (RSequence q)
  | DropIndex n k => exists i,
      relation_at d n k = Some (RIndex i) /\ relation_at s n k = Some (RIndex i) /\
      (relation_at s n (ix_table i) = None \/ table_at s n (ix_table i) ->
       table_at t n (ix_table i) -> table_at d n (ix_table i))
  | DropSchema n => db_schemas d !! n = Some (Schema n ∅ ∅)
  | CreateIndex n T k _ _ _ => exists i, relation_at t n k = Some (RIndex i) /\
      (index_safe (source_relations s n) (source_relations t n) k i -> table_at d n T)
  | RenameColumn _ _ _ _ => False
  | _ => True
  end.

(** ** Schema-level and table-level runs *)
Definition put (d : database) (n : str) (sc : schema) : database :=
  Database (<[n := sc]> (db_schemas d)).

Lemma db_eta d : Database (db_schemas d) = d.
Proof. by destruct d. Qed.
Lemma schema_eta s : set_relations s (sc_relations s) = s.
Proof. by destruct s. Qed.
Lemma schema_eta_f s : set_functions s (sc_functions s) = s.
Proof. by destruct s. Qed.
Lemma table_eta t : set_constraints t (tb_constraints t) = t.
Proof. by destruct t. Qed.
Lemma table_eta_c t : set_columns t (tb_columns t) = t.
Proof. by destruct t. Qed.

Section levels.
  Context (G : change -> database -> Prop).

  Definition ssteps (n : str) (cs : list change) (sc sc' : schema) : Prop :=
    forall d, db_schemas d !! n = Some sc -> steps_of relaxed G cs d (put d n sc').

  Definition tsteps (n k : str) (cs : list change) (tb tb' : table) : Prop :=
    forall d sc, db_schemas d !! n = Some sc -> sc_relations sc !! k = Some (RTable tb) ->
    steps_of relaxed G cs d (put d n (set_relations sc (<[k := RTable tb']> (sc_relations sc)))).

  Lemma ssteps_nil n sc : ssteps n [] sc sc.
  Proof.
    intros d Hd. unfold put. rewrite insert_id by done. rewrite db_eta. constructor.
  Qed.

  Lemma ssteps_app n c1 c2 s1 s2 s3 :
    ssteps n c1 s1 s2 -> ssteps n c2 s2 s3 -> ssteps n (c1 ++ c2) s1 s3.
  Proof.
    intros H1 H2 d Hd. eapply steps_app; [by apply H1|].
    assert (put d n s3 = put (put d n s2) n s3) as ->.
    { unfold put; simpl. by rewrite insert_insert. }
    apply H2. unfold put; simpl. by rewrite lookup_insert.
  Qed.

  Lemma tsteps_nil n k tb : tsteps n k [] tb tb.
  Proof.
    intros d sc Hd Hk. rewrite (insert_id (sc_relations sc)) by done.
    rewrite schema_eta. by apply ssteps_nil.
  Qed.

  Lemma tsteps_app n k c1 c2 t1 t2 t3 :
    tsteps n k c1 t1 t2 -> tsteps n k c2 t2 t3 -> tsteps n k (c1 ++ c2) t1 t3.
  Proof.
    intros H1 H2 d sc Hd Hk. eapply steps_app; [by apply H1|].
    set (sc2 := set_relations sc (<[k:=RTable t2]> (sc_relations sc))).
    assert (put d n (set_relations sc (<[k:=RTable t3]> (sc_relations sc))) =
            put (put d n sc2) n (set_relations sc2 (<[k:=RTable t3]> (sc_relations sc2)))) as ->.
    { unfold put, sc2; simpl. by rewrite !insert_insert. }
    apply H2; unfold put, sc2; simpl; by rewrite lookup_insert.
  Qed.

  Lemma tsteps_ssteps n k cs tb tb' sc :
    tsteps n k cs tb tb' -> sc_relations sc !! k = Some (RTable tb) ->
    ssteps n cs sc (set_relations sc (<[k := RTable tb']> (sc_relations sc))).
  Proof. intros H Hk d Hd. by apply H. Qed.

  Lemma ssteps_steps n cs sc sc' d :
    ssteps n cs sc sc' -> db_schemas d !! n = Some sc -> steps_of relaxed G cs d (put d n sc').
  Proof. intros H Hd. by apply H. Qed.

  Lemma sstep n c (k : mut schema ()) sc sc' :
    relaxed c = with_schema_mut n k -> k sc = (sc', Ok ()) ->
    (forall d, db_schemas d !! n = Some sc -> G c d) ->
    ssteps n [c] sc sc'.
  Proof.
    intros Hc Hk HG d Hd. econstructor; [|by apply HG|constructor].
    rewrite Hc. unfold with_schema_mut. by rewrite Hd, Hk.
  Qed.

  Lemma tstep n k c (m : mut table ()) tb tb' :
    relaxed c = in_table n k m -> m tb = (tb', Ok ()) -> (forall d, G c d) ->
    tsteps n k [c] tb tb'.
  Proof.
    intros Hc Hm HG d sc Hd Hk. econstructor; [|by apply HG|constructor].
    rewrite Hc. unfold in_table, with_schema_mut, with_relation_mut, with_table_mut.
    by rewrite Hd, Hk, Hm.
  Qed.
End levels.
