(** Catalogues for the examples and counterexamples about introspection. *)
From Verif Require Import Base Types Changes SpecSnapshot ColumnLemmas Diff Sql History Catalog Introspect
  SpecIntrospect SpecCatalog IntrospectLemmas IntrospectProofs CatalogLemmas CatalogProofs CatalogShows
  CatalogSuccess CatalogCoherent.

(** A planner that keeps every order, and prints type modifiers in parentheses. *)
Definition ex_planner : planner.
Proof.
  refine (Planner (fun _ l => l) _ (fun _ _ l => l) _ (fun _ z => L "(" ++ (if decide (z = 24%Z) then L "20" else L "?") ++ L ")"));
    done.
Defined.

(** Lists of few elements, by cases. *)
Ltac cases H := repeat first [apply elem_of_cons in H as [H|H] | by apply elem_of_nil in H]; try subst.

Lemma unique_by {A K} (key : A -> K) (l : list A) x y : NoDup (key <$> l) -> x ∈ l -> y ∈ l -> key x = key y -> x = y.
Proof.
  induction l as [|a l IH]; intros Hn Hx Hy Hk; [by apply elem_of_nil in Hx|].
  rewrite fmap_cons in Hn. apply NoDup_cons in Hn as [Hni Hn].
  apply elem_of_cons in Hx as [->|Hx], Hy as [->|Hy]; [done| | |by apply IH].
  - exfalso. apply Hni. rewrite Hk. by apply elem_of_list_fmap_1.
  - exfalso. apply Hni. rewrite <-Hk. by apply elem_of_list_fmap_1.
Qed.
Lemma nodup_by {A K} (key : A -> K) (l : list A) : NoDup (key <$> l) -> NoDup l.
Proof. apply NoDup_fmap_1. Qed.
Lemma each {A} (P : A -> Prop) `{!forall x, Decision (P x)} (l : list A) :
  bool_decide (Forall P l) = true -> forall x, x ∈ l -> P x.
Proof. intros HF%bool_decide_eq_true. by apply Forall_forall. Qed.

Ltac each_decided :=
  match goal with |- forall x, x ∈ ?l -> @?P x => refine (each P l _); vm_compute; reflexivity end.
Ltac decided := apply (bool_decide_unpack _); vm_compute; exact I.

(** Two tables with a foreign key, the sequence of a column, indexes, a function and a view.
    The table [posts] has a composite key. *)
Definition ex_constraints : list pgconstraint :=
  [Pgconstraint 201 (L "users_pkey") 10 KPrimary 100 [2; 1]%Z 0 [] 103 false false 32 32 32 [];
   Pgconstraint 202 (L "posts_fkey") 10 KForeign 101 [1; 2]%Z 100 [1; 2]%Z 103 true false 115 97 99 [];
   Pgconstraint 203 (L "users_check") 10 KCheck 100 [1]%Z 0 [] 0 false false 32 32 32 (L "CHECK ((id > 0))");
   Pgconstraint 204 (L "users_name") 10 KUnique 100 [3]%Z 0 [] 107 false false 32 32 32 []].
Definition ex_indexes : list pgindex :=
  [Pgindex 103 100 true 2 [2; 1]%Z [0; 0]%Z None;
   Pgindex 104 101 false 1 [3]%Z [0]%Z None;
   Pgindex 107 100 true 1 [3]%Z [0]%Z None;
   Pgindex 108 100 false 2 [1; 0]%Z [0; 0]%Z (Some (L "lower(name)"))].
Definition ex_procs : list proc := [Proc (L "one") 11 14 (L "select 1") false 20 105].
Definition ex_depends : list depend :=
  [Depend PgClass 102 0 PgClass 100 1 false;
   Depend PgConstraint 202 0 PgClass 103 0 false;
   Depend PgClass 103 0 PgConstraint 201 0 true].
Definition ex_catalogue_with (depends : list depend) (procs : list proc) : catalogue := Catalogue
  [Namespace 1 (L "pg_catalog") false; Namespace 10 (L "app") false; Namespace 11 (L "lib") false]
  [Class 100 (L "users") 10 KTable 0 2 true true true;
   Class 101 (L "posts") 10 KTable 0 2 true true true;
   Class 102 (L "users_id_seq") 10 KSequence 0 0 true true true;
   Class 103 (L "users_pkey") 10 KIndex 0 403 true true true;
   Class 104 (L "posts_title") 10 KIndex 0 403 true true true;
   Class 105 (L "authors") 10 KView 0 0 true true true;
   Class 106 (L "events") 10 KPartitioned 0 0 true true true;
   Class 107 (L "users_name") 10 KIndex 0 403 true true true;
   Class 108 (L "users_lower") 10 KIndex 0 403 true true true]
  [Attribute 100 1 (L "id") 20 None true false false;
   Attribute 100 2 (L "tenant") 20 None true false false;
   Attribute 100 3 (L "name") 1043 (Some 24%Z) false false false;
   Attribute 101 1 (L "author") 20 None true false false;
   Attribute 101 2 (L "tenant") 20 None true false false;
   Attribute 101 3 (L "title") 25 None false false false;
   Attribute 105 1 (L "id") 20 None false false false;
   Attribute 106 1 (L "at") 20 None false false false]
  [Attrdef 100 1 (L "nextval('users_id_seq')")]
  [Pgtype 20 (L "int8") 1 0 false false (L "bigint"); Pgtype 25 (L "text") 1 0 false false (L "text");
   Pgtype 1043 (L "varchar") 1 0 false false (L "character varying")]
  ex_constraints ex_indexes
  [AccessMethod 2 (L "heap"); AccessMethod 403 (L "btree")]
  [Pgsequence 102 20 1 1 1000 1 1 false]
  depends procs
  [Language 14 (L "sql")].
Definition ex_catalogue : catalogue := ex_catalogue_with ex_depends ex_procs.
Definition ex_schemas : list str := [L "app"; L "lib"].

Lemma ex_proper depends procs : proper (ex_catalogue_with depends procs).
Proof.
  split.
  - intros n m. apply unique_by. decided.
  - intros n m. apply unique_by. decided.
  - intros n m. apply unique_by. decided.
  - intros t Ht. exists (Namespace 1 (L "pg_catalog") false). split; [left|]. revert t Ht. each_decided.
  - intros a b Ha Hb H1 H2. apply (unique_by (fun a => (at_rel a, at_num a)) (ct_attributes ex_catalogue)); [decided|done|done|congruence].
  - apply (nodup_by (fun a => (at_rel a, at_num a))). decided.
  - intros k z Hk Hty Hz.
    assert (Exists (fun a => at_rel a = cn_rel k /\ at_num a = z) (ct_attributes ex_catalogue)) as HE.
    { revert k Hk Hty Hz. change (ct_constraints ex_catalogue) with ex_constraints.
      assert (forall k, k ∈ ex_constraints -> Forall (fun z => Exists (fun a => at_rel a = cn_rel k /\ at_num a = z) (ct_attributes ex_catalogue)) (cn_key k)) as H.
      { each_decided. }
      intros k Hk _. specialize (H k Hk). rewrite Forall_forall in H. by apply H. }
    apply Exists_exists in HE as (a & Ha & H1 & H2). by exists a.
  - intros i z Hi He Hz.
    assert (forall i, i ∈ ex_indexes -> in_expr i = None -> Forall (fun z => Exists (fun a => at_rel a = in_rel i /\ at_num a = z) (ct_attributes ex_catalogue)) (in_key i)) as H.
    { each_decided. }
    specialize (H i Hi He). rewrite Forall_forall in H. apply H, Exists_exists in Hz as (a & Ha & H1 & H2). by exists a.
  - intros a b Ha Hb H1 H2. apply (unique_by (fun a => (at_rel a, at_name a)) (ct_attributes ex_catalogue)); [decided|done|done|congruence].
  - intros k r Hk Hr Hkr.
    assert (forall k, k ∈ ex_constraints -> Forall (fun r => cn_rel k = cl_oid r -> cn_namespace k = cl_namespace r) (ct_classes ex_catalogue)) as H.
    { each_decided. }
    specialize (H k Hk). rewrite Forall_forall in H. by apply H.
Qed.

Lemma ex_indexed depends procs :
  NoDup depends -> NoDup procs -> (forall f, f ∈ procs -> pr_rettype f = 20%N) -> indexed (ex_catalogue_with depends procs).
Proof.
  intros Hdep Hproc Hret. split.
  - apply (nodup_by ns_oid). decided.
  - intros n m. apply unique_by. decided.
  - apply (nodup_by cl_oid). decided.
  - intros r s Hr Hs H1 H2. apply (unique_by (fun r => (cl_namespace r, cl_name r)) (ct_classes ex_catalogue)); [decided|done|done|congruence].
  - apply (nodup_by ty_oid). decided.
  - apply (nodup_by (fun x => (ad_rel x, ad_num x))). decided.
  - intros r s Hr Hs H1 H2. apply (unique_by (fun r => (ad_rel r, ad_num r)) (ct_attrdefs ex_catalogue)); [decided|done|done|congruence].
  - apply (nodup_by cn_oid). decided.
  - intros n m. apply unique_by. decided.
  - intros k g r Hk Hg Hr H1 H2 H3. apply (unique_by (fun r => (cn_rel r, cn_name r)) (ct_constraints ex_catalogue)); [decided|done|done|congruence].
  - apply (nodup_by in_oid). decided.
  - intros n m. apply unique_by. decided.
  - apply (nodup_by am_oid). decided.
  - intros n m. apply unique_by. decided.
  - apply (nodup_by se_rel). decided.
  - intros n m. apply unique_by. decided.
  - done.
  - done.
  - apply (nodup_by la_oid). decided.
  - intros n m. apply unique_by. decided.
  - intros q r Hq Hr Hqr.
    assert (forall q, q ∈ ct_sequences ex_catalogue -> Forall (fun r => se_rel q = cl_oid r -> cl_kind r = KSequence) (ct_classes ex_catalogue)) as H.
    { each_decided. }
    specialize (H q Hq). rewrite Forall_forall in H. by apply H.
  - intros i r Hq Hr Hqr.
    assert (forall q, q ∈ ct_indexes ex_catalogue -> Forall (fun r => in_oid q = cl_oid r -> cl_kind r = KIndex) (ct_classes ex_catalogue)) as H.
    { each_decided. }
    specialize (H i Hq). rewrite Forall_forall in H. by apply H.
  - intros q Hq. assert (Exists (fun t => ty_oid t = se_type q) (ct_types ex_catalogue)) as HE.
    { revert q Hq. each_decided. }
    by apply Exists_exists in HE.
  - intros q Hq. rewrite (Hret q Hq). exists (Pgtype 20 (L "int8") 1 0 false false (L "bigint")). split; [left|done].
  - intros t Ht He. exfalso. apply He. revert t Ht He. intros t Ht _. revert t Ht. each_decided.
  - intros k Hk _. revert k Hk. each_decided.
  - intros k a Hk _ Ha _ _. revert a Ha. each_decided.
  - each_decided.
  - intros k r Hk Ht Hr Hkr.
    assert (forall q, q ∈ ct_constraints ex_catalogue -> cn_type q = KForeign -> Forall (fun r => cn_rel q = cl_oid r -> cl_kind r = KTable \/ cl_kind r = KPartitioned) (ct_classes ex_catalogue)) as H.
    { each_decided. }
    specialize (H k Hk Ht). rewrite Forall_forall in H. by apply H.
  - intros k Hk Ht. exists (Class 100 (L "users") 10 KTable 0 2 true true true), (Namespace 10 (L "app") false).
    split; [left|]. split; [|split; [right; left|done]].
    revert k Hk Ht. apply (each (fun k => cn_type k = KForeign -> cn_frel k = 100%N)). vm_compute. reflexivity.
  - apply (each (fun k => cn_type k = KForeign -> cn_match k ∈ [102; 112; 115]%N /\ cn_update k ∈ [99; 110; 100; 114; 97]%N /\
      cn_delete k ∈ [99; 110; 100; 114; 97]%N)). vm_compute. reflexivity.
Qed.

Lemma ex_procs_integers : forall f, f ∈ ex_procs -> pr_rettype f = 20%N.
Proof. each_decided. Qed.
Lemma ex_depends_nodup : NoDup ex_depends.
Proof. apply (nodup_by de_obj). decided. Qed.
Lemma ex_catalogue_indexed : indexed ex_catalogue.
Proof. apply ex_indexed; [exact ex_depends_nodup|apply (nodup_by pr_name); decided|exact ex_procs_integers]. Qed.

Lemma ex_clonable : clonable ex_catalogue ex_schemas.
Proof.
  apply (introspect_succeeds_iff ex_planner ex_catalogue ex_schemas (ex_proper _ _) ex_catalogue_indexed).
  assert (match introspect_catalogue ex_planner ex_catalogue ex_schemas with Ret _ => True | _ => False end) as H.
  { vm_compute. exact I. }
  destruct (introspect_catalogue ex_planner ex_catalogue ex_schemas); [by eexists|destruct H..].
Qed.

(** The same with two functions that share a name. *)
Definition ex_overloaded : catalogue :=
  ex_catalogue_with ex_depends (Proc (L "one") 11 14 (L "select $1") false 20 105 :: ex_procs).
Lemma ex_overloaded_indexed : indexed ex_overloaded.
Proof.
  apply ex_indexed; [exact ex_depends_nodup|apply (nodup_by pr_src); decided|].
  intros f [->|H]%elem_of_cons; [done|]. by apply ex_procs_integers.
Qed.
Lemma ex_overloaded_fails : exists e, introspect_catalogue ex_planner ex_overloaded ex_schemas = Raise (SnapshotFailed e).
Proof.
  assert (match introspect_catalogue ex_planner ex_overloaded ex_schemas with Raise (SnapshotFailed _) => True | _ => False end) as H.
  { vm_compute. exact I. }
  destruct (introspect_catalogue ex_planner ex_overloaded ex_schemas) as [|[]| | |]; try destruct H. by eexists.
Qed.

(** The same with a foreign key to a unique index that no constraint made. *)
Definition ex_bare_index : catalogue :=
  ex_catalogue_with [Depend PgClass 102 0 PgClass 100 1 false; Depend PgConstraint 202 0 PgClass 103 0 false] ex_procs.
Lemma ex_bare_index_indexed : indexed ex_bare_index.
Proof. apply ex_indexed; [apply (nodup_by de_obj); decided|apply (nodup_by pr_name); decided|exact ex_procs_integers]. Qed.
Lemma ex_bare_index_panics : introspect_catalogue ex_planner ex_bare_index ex_schemas = Abort.
Proof. vm_compute. reflexivity. Qed.

(** ** The columns that a foreign key pairs *)
Definition with_fkey (f : pgconstraint -> list Z) (k : pgconstraint) : pgconstraint :=
  Pgconstraint (cn_oid k) (cn_name k) (cn_namespace k) (cn_type k) (cn_rel k) (cn_key k) (cn_frel k) (f k)
    (cn_index k) (cn_deferrable k) (cn_deferred k) (cn_match k) (cn_update k) (cn_delete k) (cn_def k).
(** The catalogue with other columns referred to by its foreign keys. *)
Definition repaired (f : pgconstraint -> list Z) (c : catalogue) : catalogue :=
  Catalogue (ct_namespaces c) (ct_classes c) (ct_attributes c) (ct_attrdefs c) (ct_types c)
    (with_fkey f <$> ct_constraints c) (ct_indexes c) (ct_ams c) (ct_sequences c) (ct_depends c)
    (ct_procs c) (ct_languages c).

Lemma bind_map {A B C} (g : A -> B) (f : B -> list C) (l : list A) : (g <$> l) ≫= f = l ≫= (fun x => f (g x)).
Proof. induction l as [|a l IH]; [done|]. by rewrite fmap_cons, !bind_cons, IH. Qed.
Lemma bind_cong {A B} (f g : A -> list B) (l : list A) : (forall x, f x = g x) -> l ≫= f = l ≫= g.
Proof. intros H. induction l as [|a l IH]; [done|]. by rewrite !bind_cons, H, IH. Qed.
Lemma left_join_map {A B} (g : A -> B) (on : B -> bool) (l : list A) :
  left_join (g <$> l) on = (option_map g : option A -> option B) <$> left_join l (fun x => on (g x)).
Proof.
  unfold left_join. assert (filter (fun b => on b = true) (g <$> l) = g <$> filter (fun a => on (g a) = true) l) as ->.
  { induction l as [|a l IH]; [done|]. rewrite fmap_cons, !filter_cons. case_decide; [|done]. by rewrite IH. }
  destruct (filter _ l) as [|a l']; [done|].
  change (Some <$> (g <$> (a :: l')) = (option_map g : option A -> option B) <$> (Some <$> (a :: l'))).
  rewrite <-!list_fmap_compose. reflexivity.
Qed.

(** Introspection does not look at them. *)
Lemma repaired_same p f c schemas : introspect_catalogue p (repaired f c) schemas = introspect_catalogue p c schemas.
Proof.
  unfold introspect_catalogue. apply (f_equal introspect_rows). unfold query_results.
  assert (forall a b c d e e' h h' i j j' k k' l l',
    e = e' -> h = h' -> j = j' -> k = k' -> l = l' -> Results a b c d e h i j k l = Results a b c d e' h' i j' k' l') as HR
    by (intros; by subst).
  apply HR; apply (f_equal Some).
  - unfold primary_key_rows, key_rows. f_equal. cbn [ct_namespaces ct_constraints repaired].
    apply bind_cong. intros n. apply bind_cong. intros m. rewrite bind_map. done.
  - unfold foreign_key_rows. f_equal. cbn [ct_namespaces ct_constraints ct_classes ct_depends repaired].
    apply bind_cong. intros n. rewrite bind_map. apply bind_cong. intros k. destruct (is _); [|done].
    apply bind_cong. intros r. cbn [cn_rel cn_type with_fkey]. destruct (_ && _); [|done].
    apply bind_cong. intros d1. apply bind_cong. intros d2. apply bind_cong. intros r2.
    rewrite left_join_map, bind_map. apply bind_cong. intros [g|]; [|done]. done.
  - unfold unique_rows, key_rows. f_equal. cbn [ct_namespaces ct_constraints repaired].
    apply bind_cong. intros n. apply bind_cong. intros m. rewrite bind_map. done.
  - unfold check_rows. f_equal. cbn [ct_constraints repaired]. rewrite bind_map. done.
  - unfold index_rows. f_equal. cbn [ct_indexes ct_classes ct_namespaces ct_ams ct_constraints repaired].
    apply bind_cong. intros i. apply bind_cong. intros x. destruct (is _); [|done].
    apply bind_cong. intros n. destruct (is _); [|done]. apply bind_cong. intros t. destruct (is _); [|done].
    apply bind_cong. intros m. destruct (is _); [|done]. rewrite left_join_map, bind_map.
    apply bind_cong. intros [g|]; done.
Qed.

(** ** What else is lost *)
Lemma partitioned_bare p c schemas d r n j :
  proper c -> indexed c -> introspect_catalogue p c schemas = Ret d ->
  placed c schemas r n -> cl_kind r = KPartitioned -> column_at d (ns_name n) (cl_name r) j = None.
Proof.
  intros Hp Hi Hd Hr Hk. pose proof (introspect_shows p c schemas d Hp Hd) as Hs.
  destruct (column_at d _ _ _) as [x|] eqn:E; [|done]. exfalso.
  apply (sh_column_of _ _ _ _ Hs) in E as (a & r' & n' & t & Ha & _ & H1 & H2 & _).
  destruct (ic_table _ _ _ _ _ _ Ha) as (Hr' & Hk' & _).
  destruct (same_class c schemas Hi r' n' r n) as [-> _]; [done..|]. congruence.
Qed.

Lemma index_lost p c schemas d k x n :
  proper c -> indexed c -> introspect_catalogue p c schemas = Ret d ->
  placed c schemas x n -> k ∈ ct_constraints c -> cn_index k = cl_oid x ->
  forall y, relation_at d (ns_name n) (cl_name x) <> Some (RIndex y).
Proof.
  intros Hp Hi Hd Hx Hk Hkx y E. pose proof (introspect_shows p c schemas d Hp Hd) as Hs.
  apply (sh_index_of _ _ _ _ Hs) in E as (i & x' & n' & t & m & (_ & Hx' & _ & _ & _ & _ & _ & Hno) & _ & H1 & H2).
  destruct (same_class c schemas Hi x' n' x n) as [-> _]; [done..|]. by apply (Hno k).
Qed.

Lemma match_simple_none p c schemas d k r n :
  proper c -> introspect_catalogue p c schemas = Ret d -> is_foreign_key c schemas k r n -> cn_match k = 115%N ->
  exists x, constraint_at d (ns_name n) (cl_name r) (cn_name k) = Some (CForeignKey x) /\ fk_match x = L "NONE".
Proof.
  intros Hp Hd Hk Hm. pose proof (introspect_shows p c schemas d Hp Hd) as Hs.
  destruct (sh_foreign_key_in _ _ _ _ Hs k r n Hk) as (g & r2 & n2 & x & Hx & Hat). exists x. split; [done|].
  destruct Hx as (_ & _ & _ & _ & _ & _ & _ & _ & _ & _ & _ & Hw & _). rewrite Hm in Hw. by inversion Hw.
Qed.

Lemma expressions_only p c schemas d i x n t m e :
  proper c -> introspect_catalogue p c schemas = Ret d -> is_index c schemas i x n t m -> in_expr i = Some e ->
  exists y, relation_at d (ns_name n) (cl_name x) = Some (RIndex y) /\ ix_keys y = [e].
Proof.
  intros Hp Hd Hi He. pose proof (introspect_shows p c schemas d Hp Hd) as Hs.
  destruct (sh_index_in _ _ _ _ Hs i x n t m Hi) as (y & [_ _ _ Hk] & Hy). exists y. split; [done|].
  inversion Hk; congruence.
Qed.

(** ** Counterexamples *)
Lemma ex_introspects : exists d, introspect_catalogue ex_planner ex_catalogue ex_schemas = Ret d.
Proof. apply (introspect_succeeds_iff ex_planner ex_catalogue ex_schemas (ex_proper _ _) ex_catalogue_indexed), ex_clonable. Qed.

Definition ex_app : namespace := Namespace 10 (L "app") false.
Lemma ex_placed r : r ∈ ct_classes ex_catalogue -> cl_namespace r = 10%N -> placed ex_catalogue ex_schemas r ex_app.
Proof. intros Hr H. split; [done|]. split; [split; [right; left|left]|done]. Qed.

Lemma ex_view_lost :
  exists p c schemas d r n, proper c /\ indexed c /\ introspect_catalogue p c schemas = Ret d /\
    placed c schemas r n /\ cl_kind r = KView /\ forall v, relation_at d (ns_name n) (cl_name r) <> Some (RView v).
Proof.
  destruct ex_introspects as [d Hd].
  exists ex_planner, ex_catalogue, ex_schemas, d, (Class 105 (L "authors") 10 KView 0 0 true true true), ex_app.
  split; [apply ex_proper|]. split; [apply ex_catalogue_indexed|]. split; [done|].
  split; [apply ex_placed; [|done]; do 5 right; left|]. split; [done|].
  intros v. by apply (introspect_no_view _ _ _ _ _ Hd).
Qed.

Lemma ex_overloaded_not_clonable : ~ clonable ex_overloaded ex_schemas.
Proof.
  intros H. apply (introspect_succeeds_iff ex_planner ex_overloaded ex_schemas (ex_proper _ _) ex_overloaded_indexed) in H as [d Hd].
  destruct ex_overloaded_fails as [e He]. congruence.
Qed.

Lemma ex_pairing_lost :
  exists p c c' schemas d k k', ct_constraints c !! 1 = Some k /\ ct_constraints c' !! 1 = Some k' /\
    cn_type k = KForeign /\ cn_key k = cn_key k' /\ cn_fkey k <> cn_fkey k' /\
    introspect_catalogue p c schemas = Ret d /\ introspect_catalogue p c' schemas = Ret d.
Proof.
  destruct ex_introspects as [d Hd].
  exists ex_planner, ex_catalogue, (repaired (fun k => rev (cn_fkey k)) ex_catalogue), ex_schemas, d.
  eexists. eexists. split; [reflexivity|]. split; [reflexivity|]. split; [reflexivity|]. split; [reflexivity|].
  split; [cbn; congruence|]. split; [done|]. by rewrite repaired_same.
Qed.

Lemma ex_attributes_lost :
  exists k r n i x t m e s,
    is_foreign_key ex_catalogue ex_schemas k r n /\ cn_match k = 115%N /\
    is_index ex_catalogue ex_schemas i x n t m /\ in_expr i = Some e /\ in_key i = [1; 0]%Z /\
    placed ex_catalogue ex_schemas s n /\ cl_kind s = KPartitioned /\
    exists a, a ∈ ct_attributes ex_catalogue /\ at_rel a = cl_oid s.
Proof.
  exists (Pgconstraint 202 (L "posts_fkey") 10 KForeign 101 [1; 2]%Z 100 [1; 2]%Z 103 true false 115 97 99 []).
  exists (Class 101 (L "posts") 10 KTable 0 2 true true true), ex_app.
  exists (Pgindex 108 100 false 2 [1; 0]%Z [0; 0]%Z (Some (L "lower(name)"))).
  exists (Class 108 (L "users_lower") 10 KIndex 0 403 true true true).
  exists (Class 100 (L "users") 10 KTable 0 2 true true true), (AccessMethod 403 (L "btree")), (L "lower(name)").
  exists (Class 106 (L "events") 10 KPartitioned 0 0 true true true).
  split. { split; [|split; [done|by left]]. split; [right; left|]. split; [|done]. apply ex_placed; [right; left|done]. }
  split; [done|].
  split. { split; [do 3 right; left|]. split; [apply ex_placed; [do 8 right; left|done]|]. split; [done|].
    split; [left|]. split; [done|]. split; [right; left|]. split; [done|].
    change (ct_constraints ex_catalogue) with ex_constraints.
    apply (each (fun k => cn_index k <> 108%N)). vm_compute. reflexivity. }
  split; [done|]. split; [done|]. split; [apply ex_placed; [do 6 right; left|done]|]. split; [done|].
  exists (Attribute 106 1 (L "at") 20 None false false false). split; [do 7 right; left|done].
Qed.
