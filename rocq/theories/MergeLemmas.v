(** Lemmas about merging snapshots. *)
From Verif Require Import Base Types Changes SpecSnapshot Load SpecMerge ApplyLemmas.

(** ** Adding a list of objects to a map *)
Section add_all.
  Context {S V : Type} (get : S -> gmap str V) (set : S -> gmap str V -> S) (name : V -> str).
  Context (Hgs : forall s m, get (set s m) = m) (Hss : forall s m m', set (set s m) m' = set s m')
    (Hsg : forall s, set s (get s) = s).
  Context (add : V -> mut S ()).
  Context (add_new : forall s v, get s !! name v = None ->
             add v s = (set s (<[name v := v]> (get s)), Ok ())).
  Context (add_old : forall s v, is_Some (get s !! name v) -> exists e, add v s = (s, Err e)).

  Lemma add_all_ok (l : list (str * V)) s :
    NoDup l.*1 -> (forall k v, (k, v) ∈ l -> name v = k) ->
    (forall k v, (k, v) ∈ l -> get s !! k = None) ->
    mfor add l.*2 s = (set s (get s ∪ list_to_map l), Ok ()).
  Proof.
    revert s. induction l as [|[k v] l IH]; intros s Hnd Hn Hf; csimpl.
    { unfold mok. by rewrite (right_id_L ∅ (∪)), Hsg. }
    apply NoDup_cons in Hnd as [Hk Hnd]. unfold mthen.
    assert (name v = k) as Hv by (apply Hn; left).
    assert (get s !! k = None) as Hg by (eapply Hf; left).
    rewrite add_new by (by rewrite Hv). rewrite Hv. rewrite IH; [|done| |].
    - rewrite Hss, Hgs. do 2 f_equal. apply map_eq. intros j.
      destruct (decide (j = k)) as [->|Hne].
      + rewrite !lookup_union, Hg, !lookup_insert.
        by destruct ((list_to_map l : gmap str V) !! k).
      + rewrite !lookup_union, lookup_insert_ne by done. by rewrite lookup_insert_ne by done.
    - intros. apply Hn. by right.
    - intros k' v' Hin. rewrite Hgs. assert (k' <> k) as Hne.
      { intros ->. apply Hk. apply elem_of_list_fmap. by exists (k, v'). }
      rewrite lookup_insert_ne by done. eapply Hf. by right.
  Qed.

  Lemma add_all_err (l : list (str * V)) s k v :
    (forall k v, (k, v) ∈ l -> name v = k) ->
    (k, v) ∈ l -> is_Some (get s !! k) -> exists s' e, mfor add l.*2 s = (s', Err e).
  Proof.
    revert s. induction l as [|[k1 v1] l IH]; intros s Hn Hin Hs; [by apply elem_of_nil in Hin|].
    csimpl. unfold mthen. assert (name v1 = k1) as Hv by (apply Hn; left).
    destruct (get s !! k1) as [w|] eqn:E.
    - destruct (add_old s v1) as [e ->]; [rewrite Hv, E; by eexists|]. by exists s, e.
    - rewrite add_new by (by rewrite Hv). apply IH.
      + intros. apply Hn. by right.
      + apply elem_of_cons in Hin as [[= -> ->]|]; [|done]. rewrite E in Hs. by destruct Hs.
      + rewrite Hgs, Hv. destruct (decide (k1 = k)) as [->|].
        * rewrite lookup_insert. by eexists.
        * by rewrite lookup_insert_ne.
  Qed.
End add_all.

(** ** Schemas *)
Definition join (a b : schema) : schema :=
  Schema (sc_name a) (sc_relations a ∪ sc_relations b) (sc_functions a ∪ sc_functions b).

Definition disjoint_schemas (a b : schema) : Prop :=
  sc_relations a ##ₘ sc_relations b /\ sc_functions a ##ₘ sc_functions b.

Lemma iter_fst {V} (l : list (str * V)) (m : gmap str V) : l ≡ₚ map_to_list m -> NoDup l.*1.
Proof. intros ->. apply NoDup_fst_map_to_list. Qed.
Lemma iter_map {V} (l : list (str * V)) (m : gmap str V) :
  l ≡ₚ map_to_list m -> list_to_map l = m.
Proof.
  intros H. rewrite <- (list_to_map_to_list m). apply list_to_map_proper; [|done].
  by eapply iter_fst.
Qed.
Lemma iter_in {V} (l : list (str * V)) (m : gmap str V) k v :
  l ≡ₚ map_to_list m -> (k, v) ∈ l <-> m !! k = Some v.
Proof. intros ->. apply elem_of_map_to_list. Qed.

Lemma not_disjoint {V} (a b : gmap str V) :
  ~ a ##ₘ b -> exists k, is_Some (a !! k) /\ is_Some (b !! k).
Proof.
  intros H.
  destruct (decide (map_Forall (fun k _ => a !! k = None) b)) as [Hd|Hd].
  - destruct H. apply map_disjoint_spec. intros k x y Hx Hy. specialize (Hd _ _ Hy).
    simpl in Hd. congruence.
  - apply map_not_Forall in Hd as (k & v & Hk & Hn); [|apply _].
    exists k. split; [|by eexists]. destruct (a !! k); [by eexists|done].
Qed.

Lemma rel_add_new s v : sc_relations s !! relation_name v = None ->
  add_relation v s = (set_relations s (<[relation_name v := v]> (sc_relations s)), Ok ()).
Proof. unfold add_relation, has_relation. by intros ->. Qed.
Lemma rel_add_old s v : is_Some (sc_relations s !! relation_name v) ->
  exists e, add_relation v s = (s, Err e).
Proof. unfold add_relation, has_relation. intros [x ->]. by eexists. Qed.
Lemma fn_add_new s v : sc_functions s !! fn_name v = None ->
  add_function v s = (set_functions s (<[fn_name v := v]> (sc_functions s)), Ok ()).
Proof. unfold add_function, has_function. by intros ->. Qed.
Lemma fn_add_old s v : is_Some (sc_functions s !! fn_name v) ->
  exists e, add_function v s = (s, Err e).
Proof. unfold add_function, has_function. intros [x ->]. by eexists. Qed.

Lemma wf_relation_name n k r : wf_relation n k r -> relation_name r = k.
Proof. destruct r; simpl; [intros (_&?&_); done|by intros [_ ?]..]. Qed.

Lemma merge_schema_ok o n a b :
  wf_schema n b -> disjoint_schemas a b -> merge_schema o b a = (join a b, Ok ()).
Proof.
  intros (_ & Hr & Hf) [Hdr Hdf]. unfold merge_schema, mthen.
  pose proof (io_relations_perm o (sc_name b) (sc_relations b)) as Hp1.
  pose proof (io_functions_perm o (sc_name b) (sc_functions b)) as Hp2.
  rewrite (add_all_ok sc_relations set_relations relation_name);
    [| |..|exact rel_add_new| | |]; try done.
  - rewrite (iter_map _ _ Hp1).
    rewrite (add_all_ok sc_functions set_functions fn_name);
      [| |..|exact fn_add_new| | |]; try done.
    + rewrite (iter_map _ _ Hp2). done.
    + by intros [].
    + by eapply iter_fst.
    + intros k v Hin. apply (iter_in _ _ _ _ Hp2) in Hin. by destruct (Hf _ _ Hin).
    + intros k v Hin. apply (iter_in _ _ _ _ Hp2) in Hin. simpl.
      destruct (sc_functions a !! k) eqn:E; [|done].
      by destruct (proj1 (map_disjoint_spec _ _) Hdf _ _ _ E Hin).
  - by intros [].
  - by eapply iter_fst.
  - intros k v Hin. apply (iter_in _ _ _ _ Hp1) in Hin. by eapply wf_relation_name, Hr.
  - intros k v Hin. apply (iter_in _ _ _ _ Hp1) in Hin.
    destruct (sc_relations a !! k) eqn:E; [|done].
    by destruct (proj1 (map_disjoint_spec _ _) Hdr _ _ _ E Hin).
Qed.

Lemma merge_schema_err o n a b :
  wf_schema n b -> ~ disjoint_schemas a b -> exists s' e, merge_schema o b a = (s', Err e).
Proof.
  intros (Hn & Hr & Hf) Hd. unfold merge_schema, mthen.
  pose proof (io_relations_perm o (sc_name b) (sc_relations b)) as Hp1.
  pose proof (io_functions_perm o (sc_name b) (sc_functions b)) as Hp2.
  destruct (decide (sc_relations a ##ₘ sc_relations b)) as [Hdr|Hdr].
  - rewrite (add_all_ok sc_relations set_relations relation_name);
      [| |..|exact rel_add_new| | |]; try done.
    + assert (~ sc_functions a ##ₘ sc_functions b) as Hdf by (intros ?; by apply Hd).
      apply not_disjoint in Hdf as (k & Hk & [v Hv]).
      eapply (add_all_err sc_functions set_functions fn_name);
        [|exact fn_add_new|exact fn_add_old| | |]; try done.
      * intros k' v' Hin. apply (iter_in _ _ _ _ Hp2) in Hin. by destruct (Hf _ _ Hin).
      * by apply (iter_in _ _ _ _ Hp2).
    + by intros [].
    + by eapply iter_fst.
    + intros k v Hin. apply (iter_in _ _ _ _ Hp1) in Hin. by eapply wf_relation_name, Hr.
    + intros k v Hin. apply (iter_in _ _ _ _ Hp1) in Hin.
      destruct (sc_relations a !! k) eqn:E; [|done].
      by destruct (proj1 (map_disjoint_spec _ _) Hdr _ _ _ E Hin).
  - apply not_disjoint in Hdr as (k & Hk & [v Hv]).
    edestruct (add_all_err sc_relations set_relations relation_name) as (s' & e & ->);
      [|exact rel_add_new|exact rel_add_old| | |exact Hk|by eauto].
    + done.
    + intros k' v' Hin. apply (iter_in _ _ _ _ Hp1) in Hin. by eapply wf_relation_name, Hr.
    + by apply (iter_in _ _ _ _ Hp1).
Qed.

(** ** Databases *)
Definition join_opt (a b : option schema) : option schema :=
  match a, b with Some a, Some b => Some (join a b) | Some a, None => Some a | None, b => b end.
Definition join_db (a b : database) : database :=
  Database (merge join_opt (db_schemas a) (db_schemas b)).

Lemma lookup_join a b n :
  db_schemas (join_db a b) !! n = join_opt (db_schemas a !! n) (db_schemas b !! n).
Proof.
  unfold join_db; simpl. rewrite lookup_merge. by destruct (db_schemas a !! n), (db_schemas b !! n).
Qed.

Lemma merge_one_ok o n s d :
  wf_schema n s -> (forall x, db_schemas d !! n = Some x -> disjoint_schemas x s) ->
  merge_one o (n, s) d =
    (Database (<[n := match db_schemas d !! n with Some x => join x s | None => s end]> (db_schemas d)), Ok ()).
Proof.
  intros Hwf Hd. unfold merge_one, has_schema, with_schema_mut, add_schema, has_schema.
  destruct (db_schemas d !! n) as [x|] eqn:E.
  - by rewrite (merge_schema_ok o n) by auto.
  - destruct Hwf as [-> _]. by rewrite E.
Qed.
Lemma merge_one_err o n s d x :
  wf_schema n s -> db_schemas d !! n = Some x -> ~ disjoint_schemas x s ->
  exists d' e, merge_one o (n, s) d = (d', Err e).
Proof.
  intros Hwf E Hd. unfold merge_one, has_schema, with_schema_mut. rewrite E.
  destruct (merge_schema_err o _ _ _ Hwf Hd) as (s' & e & ->). by eexists _, _.
Qed.

Lemma merge_list_ok o (l : list (str * schema)) d :
  NoDup l.*1 -> (forall n s, (n, s) ∈ l -> wf_schema n s) ->
  (forall n s x, (n, s) ∈ l -> db_schemas d !! n = Some x -> disjoint_schemas x s) ->
  mfor (merge_one o) l d = (join_db d (Database (list_to_map l)), Ok ()).
Proof.
  revert d. induction l as [|[n s] l IH]; intros d Hnd Hwf Hd; csimpl.
  { unfold mok, join_db. simpl. destruct d as [m]. simpl. do 2 f_equal. apply map_eq. intros i.
    rewrite lookup_merge, lookup_empty. by destruct (m !! i). }
  apply NoDup_cons in Hnd as [Hn Hnd]. unfold mthen.
  rewrite merge_one_ok; [| |].
  - rewrite IH; [|done| |].
    + unfold join_db. simpl. do 2 f_equal. apply map_eq. intros i. rewrite !lookup_merge.
      destruct (decide (i = n)) as [->|Hne].
      * rewrite !lookup_insert.
        assert ((list_to_map l : gmap str schema) !! n = None) as -> by (by apply not_elem_of_list_to_map).
        simpl. by destruct (db_schemas d !! n).
      * by rewrite !lookup_insert_ne.
    + intros. apply Hwf. by right.
    + intros n' s' x Hin. assert (n' <> n) as Hne.
      { intros ->. apply Hn. apply elem_of_list_fmap. by exists (n, s'). }
      simpl. rewrite lookup_insert_ne by done. apply Hd. by right.
  - apply Hwf. left.
  - intros x. apply Hd. left.
Qed.

Lemma merge_list_err o (l : list (str * schema)) d n s x :
  NoDup l.*1 -> (forall n s, (n, s) ∈ l -> wf_schema n s) ->
  (n, s) ∈ l -> db_schemas d !! n = Some x -> ~ disjoint_schemas x s ->
  exists d' e, mfor (merge_one o) l d = (d', Err e).
Proof.
  revert d. induction l as [|[n1 s1] l IH]; intros d Hnd Hwf Hin Hx Hdis; [by apply elem_of_nil in Hin|].
  csimpl. unfold mthen. apply NoDup_cons in Hnd as [Hn1 Hnd].
  apply elem_of_cons in Hin as [[= <- <-]|Hin].
  { destruct (merge_one_err o n s d x) as (d' & e & ->); [apply Hwf; left|done|done|]. by eexists _, _. }
  destruct (merge_one o (n1, s1) d) as [d1 [[]|e]] eqn:E; [|by eexists _, _].
  apply IH; [done| |done| |done].
  { intros. apply Hwf. by right. }
  assert (n1 <> n) as Hne.
  { intros ->. apply Hn1. apply elem_of_list_fmap. by exists (n, s). }
  assert (wf_schema n1 s1) as Hw by (apply Hwf; left).
  assert (db_schemas d1 !! n = db_schemas d !! n) as ->; [|done].
  unfold merge_one, has_schema, with_schema_mut, add_schema in E.
  destruct (db_schemas d !! n1) as [y|] eqn:Ey.
  - destruct (merge_schema o s1 y) as [y' r]. injection E as <- _. simpl. by rewrite lookup_insert_ne.
  - destruct Hw as [Hw _]. unfold has_schema in E. rewrite Hw, Ey in E. injection E as <-. simpl.
    by rewrite lookup_insert_ne.
Qed.

(** ** In terms of objects *)
Definition disjoint_db (a b : database) : Prop :=
  forall n x y, db_schemas a !! n = Some x -> db_schemas b !! n = Some y -> disjoint_schemas x y.

Lemma disjoint_no_clash a b : disjoint_db a b <-> no_clash a b.
Proof.
  split.
  - intros H. split; intros n k; unfold relation_at, function_at.
    + destruct (db_schemas a !! n) as [x|] eqn:Ea; [|by left].
      destruct (db_schemas b !! n) as [y|] eqn:Eb; [|by right]. simpl.
      destruct (H _ _ _ Ea Eb) as [Hr _]. destruct (sc_relations x !! k) eqn:E; [|by left].
      right. by eapply map_disjoint_Some_l.
    + destruct (db_schemas a !! n) as [x|] eqn:Ea; [|by left].
      destruct (db_schemas b !! n) as [y|] eqn:Eb; [|by right]. simpl.
      destruct (H _ _ _ Ea Eb) as [_ Hr]. destruct (sc_functions x !! k) eqn:E; [|by left].
      right. by eapply map_disjoint_Some_l.
  - intros [Hr Hf] n x y Hx Hy. split; apply map_disjoint_spec; intros k u v Hu Hv.
    + destruct (Hr n k) as [H|H]; unfold relation_at in H; rewrite ?Hx, ?Hy in H; simpl in H; congruence.
    + destruct (Hf n k) as [H|H]; unfold function_at in H; rewrite ?Hx, ?Hy in H; simpl in H; congruence.
Qed.

Lemma merge_ok o a b :
  wf_db b -> no_clash a b -> database_merge o b a = (join_db a b, Ok ()).
Proof.
  intros Hb Hd%disjoint_no_clash. unfold database_merge.
  pose proof (io_schemas_perm o (db_schemas b)) as Hp. rewrite merge_list_ok.
  - rewrite (iter_map _ _ Hp). by destruct b.
  - by eapply iter_fst.
  - intros n s Hin. apply (iter_in _ _ _ _ Hp) in Hin. by apply Hb.
  - intros n s x Hin Hx. apply (iter_in _ _ _ _ Hp) in Hin. by eapply Hd.
Qed.

Lemma merge_ok_inv o a b d :
  wf_db b -> database_merge o b a = (d, Ok ()) -> no_clash a b /\ d = join_db a b.
Proof.
  intros Hb H. assert (no_clash a b) as Hd.
  { apply disjoint_no_clash. intros n x y Hx Hy.
    destruct (decide (sc_relations x ##ₘ sc_relations y /\ sc_functions x ##ₘ sc_functions y))
      as [?|Hn]; [done|].
    pose proof (io_schemas_perm o (db_schemas b)) as Hp.
    destruct (merge_list_err o (io_schemas o (db_schemas b)) a n y x) as (d' & e & He).
    - by eapply iter_fst.
    - intros n' s Hin. apply (iter_in _ _ _ _ Hp) in Hin. by apply Hb.
    - by apply (iter_in _ _ _ _ Hp).
    - done.
    - done.
    - unfold database_merge in H. congruence. }
  split; [done|]. rewrite merge_ok in H by done. by injection H.
Qed.

Lemma relation_at_join a b n k :
  relation_at (join_db a b) n k = relation_at a n k ∪ relation_at b n k.
Proof.
  unfold relation_at. rewrite lookup_join.
  destruct (db_schemas a !! n), (db_schemas b !! n); simpl; try done.
  - by rewrite lookup_union.
  - by rewrite (right_id_L None (∪)).
  - by rewrite (left_id_L None (∪)).
Qed.
Lemma function_at_join a b n k :
  function_at (join_db a b) n k = function_at a n k ∪ function_at b n k.
Proof.
  unfold function_at. rewrite lookup_join.
  destruct (db_schemas a !! n), (db_schemas b !! n); simpl; try done.
  - by rewrite lookup_union.
  - by rewrite (right_id_L None (∪)).
  - by rewrite (left_id_L None (∪)).
Qed.
Lemma is_Some_join a b n :
  is_Some (db_schemas (join_db a b) !! n) <-> is_Some (db_schemas a !! n) \/ is_Some (db_schemas b !! n).
Proof.
  rewrite lookup_join. destruct (db_schemas a !! n), (db_schemas b !! n); simpl; split; eauto.
  intros [[]|[]]; done.
Qed.

Lemma join_wf a b : wf_db a -> wf_db b -> wf_db (join_db a b).
Proof.
  intros Ha Hb n s. rewrite lookup_join.
  destruct (db_schemas a !! n) as [x|] eqn:Ea, (db_schemas b !! n) as [y|] eqn:Eb; simpl.
  - intros [= <-]. destruct (Ha _ _ Ea) as (?&?&?), (Hb _ _ Eb) as (?&?&?).
    split_and!; simpl; [done|by apply map_Forall_union_2..].
  - intros [= <-]. by apply Ha.
  - intros [= <-]. by apply Hb.
  - done.
Qed.

Lemma option_union_Some {A} (a b : option A) x :
  (a = None \/ b = None) -> a ∪ b = Some x <-> a = Some x \/ b = Some x.
Proof.
  intros [->| ->].
  - rewrite (left_id_L None (∪)). naive_solver.
  - rewrite (right_id_L None (∪)). naive_solver.
Qed.

Lemma exists_two {A} (a b : A) (Q : A -> Prop) : (exists f, f ∈ [a; b] /\ Q f) <-> Q a \/ Q b.
Proof.
  split.
  - intros (f & [->|[->|[]%elem_of_nil]%elem_of_cons]%elem_of_cons & ?); auto.
  - intros [?|?]; [exists a|exists b]; split; auto; [left|right; left].
Qed.

Lemma join_exact a b : no_clash a b -> contains_exactly [a; b] (join_db a b).
Proof.
  intros [Hr Hf]. split_and!.
  - intros n. rewrite exists_two. apply is_Some_join.
  - intros n k r. rewrite exists_two, relation_at_join. by apply option_union_Some.
  - intros n k r. rewrite exists_two, function_at_join. by apply option_union_Some.
Qed.

(** Two well-formed snapshots with the same contents are equal. *)
Lemma contains_exactly_unique l d d' :
  wf_db d -> wf_db d' -> contains_exactly l d -> contains_exactly l d' -> d = d'.
Proof.
  intros Hd Hd' (Hn & Hr & Hf) (Hn' & Hr' & Hf'). destruct d as [m], d' as [m']. f_equal.
  apply map_eq. intros n. simpl in *.
  assert (is_Some (m !! n) <-> is_Some (m' !! n)) as Hs by (by rewrite Hn, Hn').
  destruct (m !! n) as [x|] eqn:E, (m' !! n) as [y|] eqn:E'.
  - f_equal. pose proof (Hd _ _ E) as (Hx & _). pose proof (Hd' _ _ E') as (Hy & _).
    destruct x as [xn xr xf], y as [yn yr yf]. simpl in *. f_equal; [congruence| |].
    + apply map_eq. intros k. apply option_eq. intros r.
      specialize (Hr n k r). specialize (Hr' n k r). unfold relation_at in *. simpl in *.
      rewrite E in Hr. rewrite E' in Hr'. simpl in *. by rewrite Hr, Hr'.
    + apply map_eq. intros k. apply option_eq. intros r.
      specialize (Hf n k r). specialize (Hf' n k r). unfold function_at in *. simpl in *.
      rewrite E in Hf. rewrite E' in Hf'. simpl in *. by rewrite Hf, Hf'.
  - destruct Hs as [Hs _]. destruct Hs; [by eexists|done].
  - destruct Hs as [_ Hs]. destruct Hs; [by eexists|done].
  - done.
Qed.

Lemma merge_spec o a b :
  wf_db a -> wf_db b ->
  (no_clash a b -> exists d, database_merge o b a = (d, Ok ()) /\ contains_exactly [a; b] d /\ wf_db d) /\
  (forall d, database_merge o b a = (d, Ok ()) -> no_clash a b).
Proof.
  intros Ha Hb. split.
  - intros Hc. exists (join_db a b). split_and!; [by apply merge_ok|by apply join_exact|by apply join_wf].
  - intros d H. by apply merge_ok_inv in H as [? _].
Qed.

(** ** Lists of files *)
Lemma no_clash_sym a b : no_clash a b -> no_clash b a.
Proof. intros [H1 H2]. split; intros n k; [destruct (H1 n k)|destruct (H2 n k)]; auto. Qed.
Lemma no_clash_join a b c : no_clash a b -> no_clash (join_db a b) c <-> no_clash a c /\ no_clash b c.
Proof.
  intros [H1 H2]. split.
  - intros [Hr Hf]. split; split; intros n k.
    + destruct (Hr n k) as [H|H]; [|by right]. rewrite relation_at_join in H.
      left. by destruct (relation_at a n k), (relation_at b n k).
    + destruct (Hf n k) as [H|H]; [|by right]. rewrite function_at_join in H.
      left. by destruct (function_at a n k), (function_at b n k).
    + destruct (Hr n k) as [H|H]; [|by right]. rewrite relation_at_join in H.
      left. by destruct (relation_at a n k), (relation_at b n k).
    + destruct (Hf n k) as [H|H]; [|by right]. rewrite function_at_join in H.
      left. by destruct (function_at a n k), (function_at b n k).
  - intros [[Ha Hb] [Hc Hd]]. split; intros n k; rewrite ?relation_at_join, ?function_at_join.
    + destruct (Ha n k) as [->|]; [|by right]. destruct (Hc n k) as [->|]; [by left|by right].
    + destruct (Hb n k) as [->|]; [|by right]. destruct (Hd n k) as [->|]; [by left|by right].
Qed.

Lemma contains_exactly_join a b l d :
  no_clash a b -> contains_exactly (join_db a b :: l) d <-> contains_exactly (a :: b :: l) d.
Proof.
  intros Hc. pose proof (join_exact _ _ Hc) as (H1 & H2 & H3).
  assert (forall (Q : database -> Prop), (Q (join_db a b) <-> exists f, f ∈ [a; b] /\ Q f) ->
    (exists f, f ∈ join_db a b :: l /\ Q f) <-> (exists f, f ∈ a :: b :: l /\ Q f)) as Hx.
  { intros Q HQ. rewrite exists_two in HQ. split.
    - intros (f & [->|Hf]%elem_of_cons & HQf).
      + apply HQ in HQf as [?|?]; [exists a|exists b]; split; auto; [left|right; left].
      + exists f. split; [|done]. by do 2 right.
    - intros (f & [->|[->|Hf]%elem_of_cons]%elem_of_cons & HQf).
      + exists (join_db a b). split; [left|]. apply HQ. auto.
      + exists (join_db a b). split; [left|]. apply HQ. auto.
      + exists f. split; [by right|done]. }
  unfold contains_exactly. split; intros (G1 & G2 & G3); split_and!; intros.
  - rewrite G1. apply Hx, H1.
  - rewrite G2. apply Hx, H2.
  - rewrite G3. apply Hx, H3.
  - rewrite G1. symmetry. apply Hx, H1.
  - rewrite G2. symmetry. apply Hx, H2.
  - rewrite G3. symmetry. apply Hx, H3.
Qed.

Lemma contains_exactly_one a : contains_exactly [a] a.
Proof.
  split_and!; intros; (split; [intros; exists a; split; [left|done]|]);
    intros (f & [->|[]%elem_of_nil]%elem_of_cons & ?); done.
Qed.

Lemma load_files_spec d (files : list (iter_order * option database)) d' :
  wf_db d -> Forall (fun f => forall x, f.2 = Some x -> wf_db x) files ->
  load_files d files = Some d' <->
  exists l, Some <$> l = files.*2 /\ no_clashes (d :: l) /\ wf_db d' /\ contains_exactly (d :: l) d'.
Proof.
  revert d. induction files as [|[o [f|]] files IH]; intros d Hd Hf; csimpl.
  - split.
    + intros [= ->]. exists []. split_and!; simpl; auto using contains_exactly_one.
    + intros ([] & Hl & _ & Hd' & Hc); [|done]. f_equal.
      eapply (contains_exactly_unique [d]); auto using contains_exactly_one.
  - apply Forall_cons in Hf as [Hf Hfs]. simpl in Hf. specialize (Hf _ eq_refl). split.
    + destruct (database_merge o f d) as [d1 [[]|e]] eqn:E; [|done]. intros H.
      apply (merge_ok_inv _ _ _ _ Hf) in E as [Hc ->].
      apply IH in H as (l & Hl & (Hn & Hns) & Hd' & Hcx); [|by apply join_wf|done].
      exists (f :: l). split; [csimpl; congruence|]. split; [|split; [done|by apply contains_exactly_join]].
      simpl. split.
      * constructor; [done|]. eapply Forall_impl; [exact Hn|]. simpl. intros x Hx.
        by apply no_clash_join in Hx as [? _].
      * split; [|done]. eapply Forall_impl; [exact Hn|]. simpl. intros x Hx.
        by apply no_clash_join in Hx as [_ ?].
    + intros (l & Hl & Hn & Hd' & Hc). destruct l as [|f' l]; [done|]. csimpl in Hl.
      injection Hl as -> Hl. simpl in Hn. destruct Hn as (Hn & Hn2 & Hns).
      apply Forall_cons in Hn as [Hn1 Hn]. rewrite merge_ok by done.
      apply IH; [by apply join_wf|done|]. exists l. split; [done|]. split; [|split; [done|by apply contains_exactly_join]].
      simpl. split; [|done]. rewrite Forall_forall in *. intros x Hx. apply no_clash_join; auto.
  - split; [done|]. intros (l & Hl & _). by destruct l.
Qed.

(** ** Order independence *)
Lemma no_clashes_perm l l' : l ≡ₚ l' -> no_clashes l -> no_clashes l'.
Proof.
  induction 1 as [|x l l' Hp IH|x y l|]; simpl; auto.
  - intros [H1 H2]. split; [|by apply IH]. by rewrite <- Hp.
  - intros (H1 & H2 & H3). apply Forall_cons in H1 as [H0 H1].
    split_and!; [|done..]. constructor; [by apply no_clash_sym|done].
Qed.

Lemma contains_exactly_perm l l' d : l ≡ₚ l' -> contains_exactly l d -> contains_exactly l' d.
Proof.
  intros Hp (H1 & H2 & H3). split_and!; intros; rewrite ?H1, ?H2, ?H3;
    split; intros (f & Hf & ?); exists f; split; auto; revert Hf; by rewrite Hp.
Qed.

Lemma load_files_perm d (fs fs' : list (iter_order * option database)) :
  wf_db d -> Forall (fun f => forall x, f.2 = Some x -> wf_db x) fs ->
  fs.*2 ≡ₚ fs'.*2 -> load_files d fs = load_files d fs'.
Proof.
  intros Hd Hf Hp.
  assert (Forall (fun f => forall x, f.2 = Some x -> wf_db x) fs') as Hf'.
  { rewrite Forall_forall in *. intros [o f] Hin x Hx. simpl in Hx.
    assert (f ∈ fs.*2) as Hin2. { rewrite Hp. apply elem_of_list_fmap. by exists (o, f). }
    apply elem_of_list_fmap in Hin2 as ([o' f'] & -> & Hin2). by apply (Hf _ Hin2). }
  assert (forall gs gs' d', Forall (fun f => forall x, f.2 = Some x -> wf_db x) gs ->
     Forall (fun f => forall x, f.2 = Some x -> wf_db x) gs' -> gs.*2 ≡ₚ gs'.*2 ->
     load_files d gs = Some d' -> load_files d gs' = Some d') as Hone.
  { intros gs gs' d' Hg Hg' Hq. rewrite !load_files_spec by done.
    intros (l & Hl & Hn & Hw & Hc). rewrite <- Hl in Hq. symmetry in Hq.
    destruct (Permutation_map_inv Some l Hq) as (l' & Hl' & Hp').
    exists l'. split; [done|]. split; [|split; [done|]].
    - eapply no_clashes_perm; [|done]. by rewrite Hp'.
    - eapply contains_exactly_perm; [|done]. by rewrite Hp'. }
  apply option_eq. intros d'. split; intros; [eapply Hone|eapply Hone]; eauto. by symmetry.
Qed.

(** ** Directories *)
Lemma collect_dir n es : collect_yaml_file (Dir n es) = es ≫= collect_yaml_file.
Proof. simpl. induction es as [|e es IH]; [done|]. csimpl. by rewrite IH. Qed.

Scheme relisted_mind := Induction for relisted Sort Prop
  with relisted_list_mind := Induction for relisted_list Sort Prop.

Lemma relisted_collect e f : relisted e f -> collect_yaml_file e ≡ₚ collect_yaml_file f.
Proof.
  revert e f. apply (relisted_mind (fun e f _ => collect_yaml_file e ≡ₚ collect_yaml_file f)
    (fun es fs _ => es ≫= collect_yaml_file ≡ₚ fs ≫= collect_yaml_file)).
  - done.
  - intros n es fs _ IH. by rewrite !collect_dir.
  - done.
  - intros e f es fs _ IH _ IHs. csimpl. by rewrite IH, IHs.
  - intros e f es. csimpl. rewrite !(assoc (++)). by rewrite (Permutation_app_comm (collect_yaml_file e)).
  - intros a b c _ IH1 _ IH2. by rewrite IH1.
Qed.

Lemma imap_snd (parse : str -> option database) (os : nat -> iter_order) (cs : list str) :
  (imap (fun i c => (os i, parse c)) cs).*2 = parse <$> cs.
Proof.
  apply list_eq. intros i. rewrite list_lookup_fmap, list_lookup_imap, list_lookup_fmap.
  by destruct (cs !! i).
Qed.

Lemma imap_all (parse : str -> option database) (os : nat -> iter_order) (cs : list str) :
  (forall c x, parse c = Some x -> wf_db x) ->
  Forall (fun f => forall x, f.2 = Some x -> wf_db x) (imap (fun i c => (os i, parse c)) cs).
Proof.
  intros H. rewrite Forall_lookup. intros i [o f]. rewrite list_lookup_imap.
  destruct (cs !! i) as [c|]; [|done]. simpl. intros [= <- <-]. apply H.
Qed.

Lemma load_order_independent parse os os' a b :
  (forall c x, parse c = Some x -> wf_db x) ->
  relisted a b -> load_snapshot parse os a = load_snapshot parse os' b.
Proof.
  intros Hp Hr. unfold load_snapshot. apply load_files_perm.
  - apply map_Forall_empty.
  - by apply imap_all.
  - rewrite !imap_snd. by rewrite (relisted_collect _ _ Hr).
Qed.

Lemma contains_exactly_new l d :
  contains_exactly (database_new :: l) d <-> contains_exactly l d.
Proof.
  assert (forall (Q : database -> Prop), ~ Q database_new ->
    (exists f, f ∈ database_new :: l /\ Q f) <-> (exists f, f ∈ l /\ Q f)) as Hx.
  { intros Q HQ. split.
    - intros (f & [->|Hf]%elem_of_cons & ?); [done|eauto].
    - intros (f & ? & ?). exists f. split; [by right|done]. }
  assert (forall n, ~ is_Some (db_schemas database_new !! n)) as H1.
  { intros n. simpl. rewrite lookup_empty. by intros []. }
  assert (forall n k r, relation_at database_new n k <> Some r) as H2.
  { intros n k r. unfold relation_at. simpl. by rewrite lookup_empty. }
  assert (forall n k r, function_at database_new n k <> Some r) as H3.
  { intros n k r. unfold function_at. simpl. by rewrite lookup_empty. }
  unfold contains_exactly. split; intros (G1 & G2 & G3); split_and!; intros.
  - rewrite G1. apply Hx, H1.
  - rewrite G2. apply Hx, H2.
  - rewrite G3. apply Hx, H3.
  - rewrite G1. symmetry. apply Hx, H1.
  - rewrite G2. symmetry. apply Hx, H2.
  - rewrite G3. symmetry. apply Hx, H3.
Qed.

Lemma no_clash_new f : no_clash database_new f.
Proof.
  split; intros n k; left; unfold relation_at, function_at; simpl; by rewrite lookup_empty.
Qed.

(** ** The files that are read *)
Lemma last_dot_none s : last_dot s = None -> 46%N ∉ s.
Proof.
  induction s as [|c s IH]; [intros _; apply not_elem_of_nil|].
  cbn. destruct (last_dot s) as [[stem ext]|]; [done|]. case_decide; [done|].
  intros _. apply not_elem_of_cons. auto.
Qed.

Lemma last_dot_some s stem ext : last_dot s = Some (stem, ext) -> s = stem ++ 46%N :: ext /\ 46%N ∉ ext.
Proof.
  revert stem. induction s as [|c s IH]; [done|]. intros stem. cbn.
  destruct (last_dot s) as [[st ex]|] eqn:E.
  - intros [= <- <-]. destruct (IH _ eq_refl) as [-> Hn]. done.
  - case_decide as Hc; [|done]. intros [= <- <-]. subst c. split; [done|by apply last_dot_none].
Qed.

Lemma last_dot_app stem ext : 46%N ∉ ext -> last_dot (stem ++ 46%N :: ext) = Some (stem, ext).
Proof.
  intros Hn. induction stem as [|c stem IH]; cbn.
  - destruct (last_dot ext) as [[st ex]|] eqn:E; [|done].
    apply last_dot_some in E as [-> _]. destruct Hn. apply elem_of_app. right. left.
  - by rewrite IH.
Qed.

Lemma extension_yaml name : extension name = Some (L "yaml") <-> definition_name name.
Proof.
  unfold extension, definition_name. split.
  - case_decide; [done|]. destruct (last_dot name) as [[[|c stem] ext]|] eqn:E; [done| |done].
    intros [= ->]. apply last_dot_some in E as [-> _]. by exists (c :: stem).
  - intros (stem & Hs & ->). rewrite decide_False.
    + change (L ".yaml") with (46%N :: L "yaml"). rewrite last_dot_app by (vm_compute; set_solver).
      by destruct stem.
    + intros H. apply (f_equal length) in H. rewrite app_length in H.
      change (length stem + 5 = 2) in H. lia.
Qed.

Fixpoint collect_definition_files (e : entry) : definition_files e (collect_yaml_file e).
Proof.
  destruct e as [name content|name es].
  - cbn. case_decide as H; constructor; by rewrite <- extension_yaml.
  - constructor. induction es as [|e es IH]; constructor; [apply collect_definition_files|exact IH].
Qed.

Scheme definition_files_mind := Induction for definition_files Sort Prop
  with definition_list_mind := Induction for definition_list Sort Prop.

Lemma definition_files_collect e l : definition_files e l -> l = collect_yaml_file e.
Proof.
  revert e l. apply (definition_files_mind (fun e l _ => l = collect_yaml_file e)
    (fun es l _ => l = es ≫= collect_yaml_file)).
  - intros name content H. cbn. rewrite decide_True; [done|]. by apply extension_yaml.
  - intros name content H. cbn. rewrite decide_False; [done|]. by rewrite extension_yaml.
  - intros name es ls _ ->. by rewrite collect_dir.
  - done.
  - intros e es l ls _ -> _ ->. done.
Qed.

(** Loading succeeds exactly when every file parses and nothing is defined twice. *)
Lemma load_snapshot_spec parse os dir d :
  (forall c x, parse c = Some x -> wf_db x) ->
  load_snapshot parse os dir = Some d <->
  exists cs l, definition_files dir cs /\ Some <$> l = parse <$> cs /\ no_clashes l /\
    wf_db d /\ contains_exactly l d.
Proof.
  intros Hp. transitivity (exists l, Some <$> l = parse <$> collect_yaml_file dir /\ no_clashes l /\
    wf_db d /\ contains_exactly l d);
    [|split; [intros (l & Hl); exists (collect_yaml_file dir), l; split; [apply collect_definition_files|exact Hl]
      |intros (cs & l & Hf & Hl); exists l; by rewrite <- (definition_files_collect _ _ Hf)]]. unfold load_snapshot. rewrite load_files_spec; [|apply map_Forall_empty|by apply imap_all].
  rewrite imap_snd. split.
  - intros (l & Hl & [_ Hn] & Hd & Hc). exists l. by rewrite contains_exactly_new in Hc.
  - intros (l & Hl & Hn & Hd & Hc). exists l. rewrite contains_exactly_new.
    split; [done|]. split; [|done]. simpl. split; [|done].
    apply Forall_forall. intros f _. apply no_clash_new.
Qed.
