(** Differences that PostgreSQL refuses, whatever the rest of the definitions. *)
From Verif Require Import Base Text Types Changes SpecSnapshot SpecDiff Diff SpecSql SpecLex SpecStatement SpecServer SpecSpelled Sql SpecDb
  StepLemmas ColumnLemmas DiffSound DiffSame DiffLocal SayLemmas ServerLemmas SpelledLemmas.

(** ** Where the constraints of a database come from *)
Definition constraint_in (sv : server) (s t x : str) : option constraint_spec :=
  match sv !! s ≫= fun sc => ss_relations sc !! t with
  | Some (HasTable _ cks) => cks !! x
  | _ => None
  end.
Definition is_foreign (k : constraint_spec) : bool := match k with KForeign _ _ _ _ _ _ _ _ _ => true | _ => false end.
Definition same_kind (a b : constraint_spec) : Prop := is_primary a = is_primary b /\ is_foreign a = is_foreign b.

Lemma constraint_in_put sv s sc s' t x :
  constraint_in (<[s := sc]> sv) s' t x =
  if decide (s' = s) then match ss_relations sc !! t with Some (HasTable _ cks) => cks !! x | _ => None end
  else constraint_in sv s' t x.
Proof.
  unfold constraint_in. destruct (decide (s' = s)) as [->|Hn]; [by rewrite lookup_insert|by rewrite lookup_insert_ne].
Qed.
Lemma constraint_in_same sv s sc t x : sv !! s = Some sc ->
  constraint_in sv s t x = match ss_relations sc !! t with Some (HasTable _ cks) => cks !! x | _ => None end.
Proof. intros H. unfold constraint_in. by rewrite H. Qed.

(** The relations of a schema after a statement that leaves its tables alone or drops them. *)
Lemma in_schema_constraints f s0 sv sv' s t x k' :
  (forall sc sc', sv !! s0 = Some sc -> f sc = Some sc' -> forall t cols cks, ss_relations sc' !! t = Some (HasTable cols cks) ->
     cks = ∅ \/ ss_relations sc !! t = Some (HasTable cols cks)) ->
  in_schema s0 f sv = Some sv' -> constraint_in sv' s t x = Some k' -> constraint_in sv s t x = Some k'.
Proof.
  intros Hf H Hc. unfold in_schema in H. binds H. injection H as <-. rewrite constraint_in_put in Hc.
  destruct (decide (s = s0)) as [->|]; [|done].
  destruct (ss_relations _ !! t) as [[cols cks|?|? ? ? ?|? ?]|] eqn:Et; try done.
  destruct (Hf _ _ eq_refl E0 _ _ _ Et) as [->|K]; [by rewrite lookup_empty in Hc|].
  by rewrite (constraint_in_same _ _ _ _ _ E), K.
Qed.
Lemma add_relation_constraints n r sc sc' : add_relation_state n r sc = Some sc' ->
  (forall cols cks, r = HasTable cols cks -> cks = ∅) ->
  forall t cols cks, ss_relations sc' !! t = Some (HasTable cols cks) -> cks = ∅ \/ ss_relations sc !! t = Some (HasTable cols cks).
Proof.
  intros H Hr t cols cks Ht. unfold add_relation_state in H. binds H. injection H as <-. cbn in Ht.
  destruct (decide (t = n)) as [->|]; [rewrite lookup_insert in Ht; injection Ht as ->; left; by eapply Hr|].
  rewrite lookup_insert_ne in Ht by done. by right.
Qed.
Lemma drop_relation_constraints p n sc sc' : drop_relation_state p n sc = Some sc' ->
  forall t r, ss_relations sc' !! t = Some r -> ss_relations sc !! t = Some r.
Proof.
  intros H t r Ht. unfold drop_relation_state in H. binds H. injection H as <-. cbn in Ht.
  by apply lookup_delete_Some in Ht as [_ ?].
Qed.
(** What an action leaves of the constraints, and of the tables besides. *)
Lemma alter_constraints sv s t sc cols cks a cols' cks' rels' :
  alter sv s t sc cols cks a = Some (cols', cks', rels') ->
  (forall x k', cks' !! x = Some k' -> (exists k, cks !! x = Some k /\ same_kind k k') \/ a = ToAddConstraint x k') /\
  (forall t' r, rels' !! t' = Some r -> ss_relations sc !! t' = Some r).
Proof.
  intros H. destruct a as [n c|n|n n'|n ty|n e|n b|n k|n df i|n]; cbn [alter] in H.
  - destruct (cols !! n); [done|]. injection H as <- <- <-. split; [|done]. intros x k' Hx. left. by exists k'.
  - binds H. injection H as <- <- <-. split.
    + intros x k' Hx. apply map_filter_lookup_Some in Hx as [Hx _]. left. by exists k'.
    + intros t' r Ht. by apply map_filter_lookup_Some in Ht as [? _].
  - binds H. injection H as <- <- <-. split; [|done]. intros x k' Hx. left. by exists k'.
  - binds H. injection H as <- <- <-. split; [|done]. intros x k' Hx. left. by exists k'.
  - binds H. injection H as <- <- <-. split; [|done]. intros x k' Hx. left. by exists k'.
  - binds H. injection H as <- <- <-. split; [|done]. intros x k' Hx. left. by exists k'.
  - assert (exists c1, (c1, <[n := k]> cks, ss_relations sc) = (cols', cks', rels')) as [c1 E].
    { binds H. destruct k; binds H; injection H as <- <- <-; by eexists. }
    injection E as _ <- <-. split; [|done]. intros x k' Hx.
    destruct (decide (x = n)) as [->|]; [rewrite lookup_insert in Hx; injection Hx as <-; by right|].
    rewrite lookup_insert_ne in Hx by done. left. by exists k'.
  - destruct (cks !! n) as [[]|] eqn:En; try done. injection H as <- <- <-. split; [|done]. intros x k' Hx. left.
    destruct (decide (x = n)) as [->|]; [rewrite lookup_insert in Hx; injection Hx as <-; eexists; split; [done|done]|].
    rewrite lookup_insert_ne in Hx by done. by exists k'.
  - binds H. injection H as <- <- <-. split; [|done]. intros x k' Hx. apply lookup_delete_Some in Hx as [_ Hx]. left. by exists k'.
Qed.
Lemma perform_constraints st sv sv' s t x k' :
  perform st sv = Some sv' -> constraint_in sv' s t x = Some k' ->
  (exists k, constraint_in sv s t x = Some k /\ same_kind k k') \/ st = DoAlterTable s t (ToAddConstraint x k').
Proof.
  intros H Hc.
  assert (Hsame : constraint_in sv s t x = Some k' -> (exists k, constraint_in sv s t x = Some k /\ same_kind k k') \/
    st = DoAlterTable s t (ToAddConstraint x k')) by (intros K; left; by exists k').
  destruct st as [n|n|s0 t0 cs|s0 t0|s0 t0 a|n s0 t0 u m ks|s0 n|s0 n q|s0 n|s0 v q|s0 v|s0 f y|s0 f]; cbn [perform] in H.
  - binds H. injection H as <-. rewrite constraint_in_put in Hc. destruct (decide (s = n)) as [->|]; [cbn in Hc; by rewrite lookup_empty in Hc|]. by apply Hsame.
  - binds H. injection H as <-. apply Hsame. unfold constraint_in in *. destruct (decide (s = n)) as [->|].
    + by rewrite lookup_delete in Hc.
    + by rewrite lookup_delete_ne in Hc.
  - binds H. apply Hsame. eapply in_schema_constraints; [|exact H|exact Hc]. intros sc sc' _ Hs. eapply add_relation_constraints; [exact Hs|].
    by intros ? ? [= _ <-].
  - binds H. apply Hsame. eapply in_schema_constraints; [|exact H|exact Hc]. intros sc sc' _ Hs t' cols cks Ht. right. cbv beta in Hs.
    destruct (ss_relations sc !! t0) as [[| | |]|]; try done. injection Hs as <-. cbn in Ht.
    apply map_filter_lookup_Some in Ht as [Ht _]. by apply lookup_delete_Some in Ht as [_ ?].
  - unfold in_schema in H. binds H. injection H as <-. rewrite constraint_in_put in Hc.
    destruct (decide (s = s0)) as [->|]; [|by apply Hsame].
    destruct (ss_relations s1 !! t0) as [[cols cks|?|? ? ? ?|? ?]|] eqn:Et; try done. binds E0.
    destruct p as [[cols' cks'] rels']. injection E0 as <-. cbn in Hc.
    destruct (alter_constraints _ _ _ _ _ _ _ _ _ _ E1) as [A1 A2].
    destruct (decide (t = t0)) as [->|].
    + rewrite lookup_insert in Hc. destruct (A1 x k' Hc) as [(k & Hk & Hs)| ->]; [|by right].
      left. exists k. by rewrite (constraint_in_same _ _ _ _ _ E), Et.
    + rewrite lookup_insert_ne in Hc by done. apply Hsame. rewrite (constraint_in_same _ _ _ _ _ E).
      destruct (rels' !! t) as [r|] eqn:Er; [|done]. by rewrite (A2 _ _ Er).
  - apply Hsame. eapply in_schema_constraints; [|exact H|exact Hc]. intros sc sc' _ Hs. cbv beta in Hs.
    destruct (ss_relations sc !! t0) as [[| | |]|]; try done. by eapply add_relation_constraints; [exact Hs|].
  - apply Hsame. eapply in_schema_constraints; [|exact H|exact Hc]. intros sc sc' _ Hs t' cols cks Ht. right. cbv beta in Hs.
    by eapply drop_relation_constraints.
  - binds H. apply Hsame. eapply in_schema_constraints; [|exact H|exact Hc]. intros sc sc' _ Hs. by eapply add_relation_constraints; [exact Hs|].
  - apply Hsame. eapply in_schema_constraints; [|exact H|exact Hc]. intros sc sc' _ Hs t' cols cks Ht. right. cbv beta in Hs.
    by eapply drop_relation_constraints.
  - apply Hsame. eapply in_schema_constraints; [|exact H|exact Hc]. intros sc sc' _ Hs. by eapply add_relation_constraints; [exact Hs|].
  - apply Hsame. eapply in_schema_constraints; [|exact H|exact Hc]. intros sc sc' _ Hs t' cols cks Ht. right. cbv beta in Hs.
    by eapply drop_relation_constraints.
  - apply Hsame. eapply in_schema_constraints; [|exact H|exact Hc]. intros sc sc' _ Hs t' cols cks Ht. right. cbv beta in Hs.
    destruct (ss_functions sc !! f); [done|]. by injection Hs as <-.
  - apply Hsame. eapply in_schema_constraints; [|exact H|exact Hc]. intros sc sc' _ Hs t' cols cks Ht. right. cbv beta in Hs.
    destruct (ss_functions sc !! f); [|done]. by injection Hs as <-.
Qed.

(** ** Changes in a row *)
Definition adds (s t x : str) (c : change) : Prop :=
  match c with
  | AddCheck s' t' n _ _ _ | AddForeignKey s' t' n _ _ _ _ _ _ _ _ _ | AddPrimaryKey s' t' n _ _ _ | AddUnique s' t' n _ _ _ =>
      s' = s /\ t' = t /\ n = x
  | _ => False
  end.
Lemma meant_adds c s t x k : sayable c -> meant c = Some (DoAlterTable s t (ToAddConstraint x k)) ->
  adds s t x c /\ is_foreign k = false.
Proof.
  intros Hs H. destruct c; cbn [meant] in H; binds H; try done; injection H as <- <- <- <-.
  all: split; [done|]. all: unfold constraint_meant in E; binds E; by injection E as <-.
Qed.
Lemma obey_constraints c sv sv' s t x k' : well_spelled c -> sayable c ->
  obey (render_sql c) sv = Some sv' -> constraint_in sv' s t x = Some k' ->
  (exists k, constraint_in sv s t x = Some k /\ same_kind k k') \/ (adds s t x c /\ is_foreign k' = false).
Proof.
  intros Hw Hs Ho Hc. destruct (proj2 (says_iff c Hw) Hs) as (st & Hm & Hr).
  unfold obey in Ho. rewrite Hr in Ho. cbn in Ho.
  destruct (perform_constraints _ _ _ _ _ _ _ Ho Hc) as [?| ->]; [by left|]. right. by apply meant_adds.
Qed.
Lemma runs_constraints cs sv sv' s t x k' : Forall well_spelled cs -> Forall sayable cs ->
  runs obey (render_sql <$> cs) sv sv' -> constraint_in sv' s t x = Some k' ->
  (exists k, constraint_in sv s t x = Some k /\ same_kind k k') \/ (Exists (adds s t x) cs /\ is_foreign k' = false).
Proof.
  intros Hw Hs. revert sv. induction Hw as [|c cs Hc Hw IH]; intros sv Hr Hk; inversion Hr; subst.
  - left. by exists k'.
  - apply Forall_cons in Hs as [Hs1 Hs2]. destruct (IH Hs2 _ ltac:(eassumption) Hk) as [(k & Hk1 & Hk2)|[Ka Kb]].
    + destruct (obey_constraints _ _ _ _ _ _ _ Hc Hs1 ltac:(eassumption) Hk1) as [(k0 & Hk0 & Hk3)|[Ka Kb]].
      * left. exists k0. split; [done|]. destruct Hk2, Hk3. split; congruence.
      * right. split; [by left|]. destruct Hk2. congruence.
    + right. split; [by right|done].
Qed.
Lemma runs_split {S : Type} (sem : str -> S -> option S) (a : list change) c b u u' :
  runs sem (render_sql <$> a ++ c :: b) u u' ->
  exists u1 u2, runs sem (render_sql <$> a) u u1 /\ sem (render_sql c) u1 = Some u2 /\ runs sem (render_sql <$> b) u2 u'.
Proof.
  revert u. induction a as [|d a IH]; intros u Hr; cbn in Hr; inversion Hr; subst.
  - exists u, u1. split; [constructor|done].
  - destruct (IH _ ltac:(eassumption)) as (v1 & v2 & K1 & K2 & K3). exists v1, v2. split; [econstructor; [eassumption|done]|done].
Qed.
Lemma described_constraint d sv n k x : described d sv ->
  option_Forall2 (fun c y => constraint_meant c = Some y) (constraint_at d n k x) (constraint_in sv n k x).
Proof.
  intros H. unfold constraint_at, constraint_in, relation_at. specialize (H n). inversion H as [sc ss Hs E1 E2|E1 E2]; cbn; [|constructor].
  destruct Hs as [Hs _]. specialize (Hs k). inversion Hs as [r y Hy E3 E4|E3 E4]; [|constructor].
  destruct r, y; cbn in Hy; try done; try constructor. apply Hy.
Qed.

(** ** Where in a diff *)
Lemma bind_split {A B : Type} (f : A -> list B) l x : x ∈ l -> exists a b, l ≫= f = a ++ f x ++ b.
Proof.
  intros (l1 & l2 & ->)%elem_of_list_split. exists (l1 ≫= f), (l2 ≫= f). by rewrite bind_app, bind_cons.
Qed.
Lemma app_within {A : Type} (x : list A) a l1 b l2 c d r1 e r2 :
  exists l r : list A, a ++ l1 ++ (b ++ (l2 ++ x ++ r2) ++ c ++ d) ++ r1 ++ e = l ++ x ++ r.
Proof. exists (a ++ l1 ++ b ++ l2), (r2 ++ c ++ d ++ r1 ++ e). by rewrite <- !app_assoc. Qed.
Lemma diff_table os ot s t n k a b : wf_db s -> wf_db t ->
  relation_at s n k = Some (RTable a) -> relation_at t n k = Some (RTable b) ->
  exists l r, compare_diff os ot s t = l ++ diff_table_update os ot a b ++ r.
Proof.
  intros Hs Ht Ha Hb. unfold relation_at in Ha, Hb.
  destruct (db_schemas s !! n) as [sa|] eqn:Ea; [|done]. destruct (db_schemas t !! n) as [sb|] eqn:Eb; [|done]. cbn in Ha, Hb.
  destruct (Hs _ _ Ea) as (N1 & R1 & _), (Ht _ _ Eb) as (N2 & R2 & _).
  assert (In1 : sa ∈ iter_schemas os s).
  { apply (iter_elem _ _ _ (io_schemas_perm _ _) (wf_schemas_named _ Hs)). by rewrite N1. }
  assert (In2 : RTable a ∈ iter_relations os sa).
  { apply (iter_elem _ _ _ (io_relations_perm _ _ _) (wf_relations_named _ _ R1)).
    assert (relation_name (RTable a) = k) as -> by exact (wf_relations_named _ _ R1 _ _ Ha). done. }
  unfold compare_diff, diff_database_update.
  destruct (bind_split (diff_database_old os ot t) _ _ In1) as (l1 & r1 & ->).
  assert (diff_database_old os ot t sa = diff_schema_update os ot sa sb) as ->.
  { unfold diff_database_old. rewrite N1, Eb. done. }
  unfold diff_schema_update. destruct (bind_split (diff_schema_relation_old os ot sb) _ _ In2) as (l2 & r2 & ->).
  assert (diff_schema_relation_old os ot sb (RTable a) = diff_table_update os ot a b) as ->.
  { unfold diff_schema_relation_old. assert (relation_name (RTable a) = k) as -> by exact (wf_relations_named _ _ R1 _ _ Ha). by rewrite Hb. }
  pose proof (app_within (diff_table_update os ot a b) (iter_schemas ot t ≫= diff_database_new ot s) l1
    (iter_relations ot sb ≫= diff_schema_relation_new ot sa) l2 (iter_functions ot sb ≫= diff_schema_function_new sa)
    (iter_functions os sa ≫= diff_schema_function_old sb) r1 [] r2) as K. by rewrite app_nil_r in K.
Qed.

(** ** A key whose deferrability changes *)
Lemma diff_alters os ot s t n k x a b : wf_db s -> wf_db t ->
  constraint_at s n k x = Some a -> constraint_at t n k x = Some b -> a <> b -> undeferred a = undeferred b ->
  exists c d i, c ∈ compare_diff os ot s t /\ meant c = deferral_meant d i ≫= fun _ => Some (DoAlterTable n k (ToAlterConstraint x d i)).
Proof.
  intros Hs Ht Ha Hb Hne Hu. unfold constraint_at in Ha, Hb.
  destruct (relation_at s n k) as [[ta| | |]|] eqn:Ra; try done. destruct (relation_at t n k) as [[tb| | |]|] eqn:Rb; try done.
  destruct (relation_at_wf _ _ _ _ Hs Ra) as [_ Wa], (relation_at_wf _ _ _ _ Ht Rb) as [_ Wb]. cbn in Wa, Wb.
  destruct (diff_table os ot s t n k ta tb Hs Ht Ra Rb) as (l & r & E).
  pose proof Wa as (_ & _ & _ & _ & Ca). pose proof Wb as (_ & _ & _ & _ & Cb).
  pose proof (Ca _ _ Ha) as W1. pose proof (Cb _ _ Hb) as W2.
  assert (In : b ∈ iter_constraints ot tb).
  { apply (iter_elem _ _ _ (io_constraints_perm _ _ _ _) (wf_constraints_named _ _ _ Cb)). destruct W2 as (_ & _ & ->). done. }
  destruct (bind_split (diff_table_constraint ta) _ _ In) as (l1 & r1 & E1).
  assert (E2 : diff_table_constraint ta b = diff_constraint_update a b).
  { unfold diff_table_constraint. destruct W2 as (_ & _ & ->). by rewrite Ha. }
  rewrite (constraint_update_cases n k x a b W1 W2), decide_False, decide_True in E2 by done.
  set (c := match b with
            | CPrimaryKey c => new_alter_primary_key c | CUnique c => new_alter_unique c
            | CForeignKey c => new_alter_foreign_key c | CCheck c => new_alter_check c
            end).
  assert (E3 : diff_table_constraint ta b = [c]) by (rewrite E2; by destruct b).
  destruct W2 as (<- & <- & <-).
  assert (exists d i, meant c = deferral_meant d i ≫= fun _ => Some (DoAlterTable (constraint_schema b) (constraint_table b) (ToAlterConstraint (constraint_name b) d i))) as (d & i & Hm).
  { destruct b as [b|b|b|b]; by eexists _, _. }
  exists c, d, i. split; [|exact Hm]. rewrite E. unfold diff_table_update. rewrite E1, E3, !elem_of_app, elem_of_list_singleton. tauto.
Qed.
Theorem deferrability_refused os ot s t sv n k x a b :
  wf_db s -> wf_db t -> spelled_db s -> spelled_db t -> difference_sayable s t -> described s sv ->
  constraint_at s n k x = Some a -> constraint_at t n k x = Some b ->
  a <> b -> undeferred a = undeferred b -> (forall f, a <> CForeignKey f) ->
  ~ exists sv', runs obey (render_sql <$> compare_diff os ot s t) sv sv'.
Proof.
  intros Hs Ht Ss St Hd Hdes Ha Hb Hne Hu Hf [sv' Hr].
  pose proof (diff_spelled os ot s t Hs Ht Ss St) as Hw. pose proof (proj2 (diff_sayable_iff os ot s t Hs Ht) Hd) as Hsay.
  destruct (diff_alters os ot s t n k x a b Hs Ht Ha Hb Hne Hu) as (c & df & i & Hc & Hm).
  apply elem_of_list_split in Hc as (l1 & l2 & E). rewrite E in *.
  destruct (runs_split _ _ _ _ _ _ Hr) as (u1 & u2 & R1 & R2 & _).
  apply Forall_app in Hw as [Hw1 Hw2]. apply Forall_app in Hsay as [Hs1 Hs2].
  apply Forall_cons in Hw2 as [Hw2 _]. apply Forall_cons in Hs2 as [Hs2 _].
  destruct (proj2 (says_iff c Hw2) Hs2) as (st & Hst & Hread). rewrite Hm in Hst. binds Hst. injection Hst as <-.
  unfold obey in R2. rewrite Hread in R2. cbn in R2. unfold in_schema in R2.
  destruct (u1 !! n) as [sc|] eqn:En; [|done]. cbn in R2. destruct (ss_relations sc !! k) as [[cols cks|?|? ? ? ?|? ?]|] eqn:Ek; try done.
  cbn in R2. destruct (cks !! x) as [y|] eqn:Ex; [|done].
  assert (is_foreign y = true) as Hy by (by destruct y).
  destruct (runs_constraints _ _ _ n k x y Hw1 Hs1 R1) as [(y0 & Hy0 & Hy1)|[_ Hy0]].
  - unfold constraint_in. by rewrite En; cbn; rewrite Ek.
  - pose proof (described_constraint s sv n k x Hdes) as K. rewrite Ha, Hy0 in K. inversion K as [? ? K1|]; subst.
    destruct Hy1 as [_ Hy1]. rewrite Hy in Hy1. destruct a as [a|a|a|a]; [|by apply (Hf a)|..]; unfold constraint_meant in K1; binds K1; by injection K1 as <-.
  - congruence.
Qed.

(** ** A primary key whose name changes *)
Lemma primary_in_table sv s t sc cols cks x n k u : sv !! s = Some sc -> ss_relations sc !! t = Some (HasTable cols cks) ->
  is_primary k = true -> cks !! x = Some u -> is_primary u = true ->
  perform (DoAlterTable s t (ToAddConstraint n k)) sv = None.
Proof.
  intros H1 H2 Hk Hx Hu. cbn [perform]. unfold in_schema. rewrite H1. cbn. rewrite H2. cbn [alter].
  destruct (guard_ (bool_decide (cks !! n = None))); [|done]. cbn. destruct k; try done.
  assert (some_constraint is_primary cks = true) as ->.
  { unfold some_constraint. apply existsb_exists. exists (x, u). split; [|done]. apply elem_of_list_In. by apply elem_of_map_to_list. }
  by rewrite andb_false_r.
Qed.
Lemma diff_renames os ot s t n k x y p q : wf_db s -> wf_db t ->
  constraint_at s n k x = Some (CPrimaryKey p) -> constraint_at t n k x = None ->
  constraint_at s n k y = None -> constraint_at t n k y = Some (CPrimaryKey q) ->
  exists l m r, compare_diff os ot s t =
    l ++ AddPrimaryKey n k y (pk_columns q) (pk_deferrable q) (pk_initially q) :: m ++ DropPrimaryKey n k x :: r.
Proof.
  intros Hs Ht Hsx Htx Hsy Hty. unfold constraint_at in *.
  destruct (relation_at s n k) as [[ta| | |]|] eqn:Ra; try done. destruct (relation_at t n k) as [[tb| | |]|] eqn:Rb; try done.
  destruct (relation_at_wf _ _ _ _ Hs Ra) as [_ Wa], (relation_at_wf _ _ _ _ Ht Rb) as [_ Wb]. cbn in Wa, Wb.
  destruct (diff_table os ot s t n k ta tb Hs Ht Ra Rb) as (l & r & E). rewrite E.
  pose proof Wa as (_ & _ & _ & _ & Ca). pose proof Wb as (_ & _ & _ & _ & Cb).
  pose proof (Ca _ _ Hsx) as (P1 & P2 & P3). pose proof (Cb _ _ Hty) as (Q1 & Q2 & Q3). cbn in P1, P2, P3, Q1, Q2, Q3.
  assert (In1 : CPrimaryKey q ∈ iter_constraints ot tb).
  { apply (iter_elem _ _ _ (io_constraints_perm _ _ _ _) (wf_constraints_named _ _ _ Cb)). cbn. by rewrite Q3. }
  assert (In2 : CPrimaryKey p ∈ iter_constraints os ta).
  { apply (iter_elem _ _ _ (io_constraints_perm _ _ _ _) (wf_constraints_named _ _ _ Ca)). cbn. by rewrite P3. }
  destruct (bind_split (diff_table_constraint ta) _ _ In1) as (l1 & r1 & E1).
  destruct (bind_split (diff_table_constraint_drop tb) _ _ In2) as (l2 & r2 & E2).
  assert (F1 : diff_table_constraint ta (CPrimaryKey q) = [AddPrimaryKey n k y (pk_columns q) (pk_deferrable q) (pk_initially q)]).
  { unfold diff_table_constraint. cbn. rewrite Q3, Hsy. unfold diff_primary_key_create, new_add_primary_key. by rewrite Q1, Q2, Q3. }
  assert (F2 : diff_table_constraint_drop tb (CPrimaryKey p) = [DropPrimaryKey n k x]).
  { unfold diff_table_constraint_drop, has_constraint. cbn. rewrite P3, Htx. cbn. unfold diff_primary_key_drop. by rewrite P1, P2, P3. }
  unfold diff_table_update. rewrite E1, E2, F1, F2.
  exists (l ++ (tb_columns tb ≫= diff_table_column ta) ++ (tb_columns ta ≫= diff_table_column_drop tb) ++ l1), (r1 ++ l2), (r2 ++ r).
  rewrite <- !app_assoc. reflexivity.
Qed.
Theorem renamed_key_refused os ot s t sv n k x y p q :
  wf_db s -> wf_db t -> spelled_db s -> spelled_db t -> difference_sayable s t -> described s sv ->
  constraint_at s n k x = Some (CPrimaryKey p) -> constraint_at t n k x = None ->
  constraint_at s n k y = None -> constraint_at t n k y = Some (CPrimaryKey q) ->
  ~ exists sv', runs obey (render_sql <$> compare_diff os ot s t) sv sv'.
Proof.
  intros Hs Ht Ss St Hd Hdes Hsx Htx Hsy Hty [sv' Hr].
  pose proof (diff_spelled os ot s t Hs Ht Ss St) as Hw. pose proof (proj2 (diff_sayable_iff os ot s t Hs Ht) Hd) as Hsay.
  assert (Hno : Forall (fun c => ~ adds n k x c) (compare_diff os ot s t)).
  { pose proof (diff_justified s t os ot Hs Ht) as J. eapply Forall_impl; [exact J|]. intros c Jc Ac.
    destruct c; cbn in Ac; try done; destruct Ac as (-> & -> & ->); destruct Jc as [[? Jc] _]; congruence. }
  destruct (diff_renames os ot s t n k x y p q Hs Ht Hsx Htx Hsy Hty) as (l & m & r & E). rewrite E in *.
  set (add := AddPrimaryKey n k y (pk_columns q) (pk_deferrable q) (pk_initially q)) in *.
  destruct (runs_split _ _ _ _ _ _ Hr) as (u1 & u2 & R1 & R2 & R3).
  destruct (runs_split _ _ _ _ _ _ R3) as (u3 & u4 & R4 & R5 & _).
  apply Forall_app in Hw as [Hw1 Hw2]. apply Forall_cons in Hw2 as [Hw2 Hw3]. apply Forall_app in Hw3 as [Hw3 Hw4]. apply Forall_cons in Hw4 as [Hw4 _].
  apply Forall_app in Hsay as [Hs1 Hs2]. apply Forall_cons in Hs2 as [Hs2 Hs3]. apply Forall_app in Hs3 as [Hs3 Hs4]. apply Forall_cons in Hs4 as [Hs4 _].
  apply Forall_app in Hno as [Hn1 Hn2]. apply Forall_cons in Hn2 as [Hn2 Hn3]. apply Forall_app in Hn3 as [Hn3 _].
  (* the constraint is there when it is dropped *)
  assert (exists z, constraint_in u3 n k x = Some z) as [z Hz].
  { destruct (proj2 (says_iff _ Hw4) Hs4) as (st & Hst & Hread). cbn in Hst. injection Hst as <-.
    unfold obey in R5. rewrite Hread in R5. cbn in R5. unfold in_schema in R5. unfold constraint_in.
    destruct (u3 !! n) as [sc|] eqn:En; [|done]. cbn in R5 |- *. destruct (ss_relations sc !! k) as [[cols cks|?|? ? ? ?|? ?]|] eqn:Ek; try done.
    cbn in R5. destruct (cks !! x) as [z|]; [by eexists|done]. }
  (* so it is there, and a primary key, when the new one is added *)
  assert (Hback : forall cs v v' z, Forall well_spelled cs -> Forall sayable cs -> Forall (fun c => ~ adds n k x c) cs ->
    runs obey (render_sql <$> cs) v v' -> constraint_in v' n k x = Some z -> exists z0, constraint_in v n k x = Some z0 /\ same_kind z0 z).
  { intros cs v v' z0 H1 H2 H3 H4 H5. destruct (runs_constraints cs v v' n k x z0 H1 H2 H4 H5) as [?|[K _]]; [done|].
    apply Exists_exists in K as (c & K1 & K2). rewrite Forall_forall in H3. by destruct (H3 c K1). }
  destruct (Hback _ _ _ _ Hw3 Hs3 Hn3 R4 Hz) as (z2 & Hz2 & _).
  destruct (obey_constraints _ _ _ _ _ _ _ Hw2 Hs2 R2 Hz2) as [(z1 & Hz1 & _)|[K _]]; [|done].
  destruct (Hback _ _ _ _ Hw1 Hs1 Hn1 R1 Hz1) as (z0 & Hz0 & Hkind & _).
  assert (is_primary z1 = true) as Hp.
  { pose proof (described_constraint s sv n k x Hdes) as K. rewrite Hsx, Hz0 in K. inversion K as [? ? K1|]; subst.
    rewrite <- Hkind. unfold constraint_meant in K1. binds K1. by injection K1 as <-. }
  destruct (proj2 (says_iff _ Hw2) Hs2) as (st & Hst & Hread). unfold obey in R2. rewrite Hread in R2. cbn [mbind option_bind] in R2.
  unfold add in Hst. cbn [meant] in Hst. destruct (constraint_meant _) as [kn|] eqn:Ek; [|done]. cbn in Hst. injection Hst as <-.
  assert (is_primary kn = true) as Hkn by (unfold constraint_meant in Ek; binds Ek; by injection Ek as <-).
  unfold constraint_in in Hz1. destruct (u1 !! n) as [sc|] eqn:En; [|done]. cbn in Hz1.
  destruct (ss_relations sc !! k) as [[cols cks|?|? ? ? ?|? ?]|] eqn:Er; try done.
  by rewrite (primary_in_table _ _ _ _ _ _ _ _ _ _ En Er Hkn Hz1 Hp) in R2.
Qed.
