(** What the statement of each change does to a database that a snapshot describes. *)
From Verif Require Import Base Text Types Changes SpecSnapshot ColumnLemmas StepLemmas ApplyLemmas InvertLemmas
  Sql SpecSql SpecLex SpecStatement SpecServer LexLemmas StatementLemmas SayLemmas.

Lemma guard_some b (u : unit) : guard_ b = Some u -> b = true.
Proof. by destruct b. Qed.
Ltac binds H :=
  repeat match type of H with
  | (match ?o with Some _ => _ | None => None end) = Some _ => destruct o eqn:?; [|done]
  | context [mbind ?f ?o] => let E := fresh "E" in destruct o eqn:E; cbn [mbind option_bind] in H; [|done]
  end.

(** ** Where the change is *)

Lemma described_schema d sv s sc : described d sv -> db_schemas d !! s = Some sc ->
  exists ss, sv !! s = Some ss /\ schema_described sc ss.
Proof. intros H Hs. specialize (H s). rewrite Hs in H. inversion H; subst. eauto. Qed.
Lemma described_put d sv s sc' ss' : described d sv ->
  (described (put d s sc') (<[s := ss']> sv) <-> schema_described sc' ss').
Proof.
  intros H. split.
  - intros G. specialize (G s). unfold put in G. cbn in G. rewrite !lookup_insert in G. by inversion G.
  - intros G n. unfold put. cbn. destruct (decide (n = s)) as [->|Hn].
    + rewrite !lookup_insert. by constructor.
    + rewrite !lookup_insert_ne by done. apply H.
Qed.
Lemma schema_insert sc ss t r x : schema_described sc ss ->
  (schema_described (set_relations sc (<[t := r]> (sc_relations sc))) (SchemaState (<[t := x]> (ss_relations ss)) (ss_functions ss))
   <-> relation_described r x).
Proof.
  intros [Hr Hf]. split.
  - intros [G _]. specialize (G t). cbn in G. rewrite !lookup_insert in G. by inversion G.
  - intros G. split; [|done]. intros n. cbn. destruct (decide (n = t)) as [->|Hn].
    + rewrite !lookup_insert. by constructor.
    + rewrite !lookup_insert_ne by done. apply Hr.
Qed.
Lemma schema_delete sc ss t : schema_described sc ss ->
  schema_described (set_relations sc (delete t (sc_relations sc))) (SchemaState (delete t (ss_relations ss)) (ss_functions ss)).
Proof.
  intros [Hr Hf]. split; [|done]. intros n. cbn. destruct (decide (n = t)) as [->|Hn].
  - rewrite !lookup_delete. constructor.
  - rewrite !lookup_delete_ne by done. apply Hr.
Qed.
Lemma schema_function sc ss f x y : schema_described sc ss ->
  function_described x y ->
  schema_described (set_functions sc (<[f := x]> (sc_functions sc))) (SchemaState (ss_relations ss) (<[f := y]> (ss_functions ss))).
Proof.
  intros [Hr Hf] H. split; [done|]. intros n. cbn. destruct (decide (n = f)) as [->|Hn].
  - rewrite !lookup_insert. by constructor.
  - rewrite !lookup_insert_ne by done. apply Hf.
Qed.
Lemma schema_no_function sc ss f : schema_described sc ss ->
  schema_described (set_functions sc (delete f (sc_functions sc))) (SchemaState (ss_relations ss) (delete f (ss_functions ss))).
Proof.
  intros [Hr Hf]. split; [done|]. intros n. cbn. destruct (decide (n = f)) as [->|Hn].
  - rewrite !lookup_delete. constructor.
  - rewrite !lookup_delete_ne by done. apply Hf.
Qed.

(** The schema of a change that works in one schema. *)
Lemma schema_effect (k : mut schema ()) f s d sv d' sv' :
  described d sv -> with_schema_mut s k d = (d', Ok ()) -> in_schema s f sv = Some sv' ->
  exists sc sc' ss ss', db_schemas d !! s = Some sc /\ sv !! s = Some ss /\ schema_described sc ss /\
    k sc = (sc', Ok ()) /\ f ss = Some ss' /\ (described d' sv' <-> schema_described sc' ss').
Proof.
  intros Hd Hk Hf. apply with_schema_mut_inv in Hk as [(_ & _ & ?)|(sc & sc' & Hsc & Hk & ->)]; [done|].
  destruct (described_schema _ _ _ _ Hd Hsc) as (ss & Hss & Hdes).
  unfold in_schema in Hf. rewrite Hss in Hf. cbn [mbind option_bind] in Hf.
  destruct (f ss) as [ss'|] eqn:Ef; [|done]. injection Hf as <-.
  exists sc, sc', ss, ss'. split_and!; try done. by apply described_put.
Qed.
(** The table of a change that works in one table. *)
Lemma table_effect (k : mut table ()) a s t d sv d' sv' :
  wf_db d -> described d sv -> in_table s t k d = (d', Ok ()) -> perform (DoAlterTable s t a) sv = Some sv' ->
  exists sc ss tb tb' cols cks cols' cks' rels',
    db_schemas d !! s = Some sc /\ sc_relations sc !! t = Some (RTable tb) /\ schema_described sc ss /\
    NoDup (col_name <$> tb_columns tb) /\
    table_described tb cols cks /\ k tb = (tb', Ok ()) /\
    alter sv s t ss cols cks a = Some (cols', cks', rels') /\
    (rels' = ss_relations ss -> (described d' sv' <-> table_described tb' cols' cks')) /\
    (described d' sv' <-> schema_described (set_relations sc (<[t := RTable tb']> (sc_relations sc)))
                            (SchemaState (<[t := HasTable cols' cks']> rels') (ss_functions ss))).
Proof.
  intros Hwf Hd Hk Hx. apply in_table_inv in Hk as [[_ [? ?]]|(sc & tb & tb' & Hsc & Htb & Hk & ->)]; [done|].
  destruct (described_schema _ _ _ _ Hd Hsc) as (ss & Hss & Hdes).
  destruct Hdes as [Hr Hf]. pose proof (Hr t) as Ht. rewrite Htb in Ht. inversion Ht as [r x Hrx Er Ex|]; subst.
  destruct x as [cols cks| | |]; cbn in Hrx; try done.
  cbn [perform] in Hx. unfold in_schema in Hx. rewrite Hss in Hx. cbn [mbind option_bind] in Hx.
  rewrite <- Ex in Hx. destruct (alter sv s t ss cols cks a) as [[[cols' cks'] rels']|] eqn:Ea; [|done].
  cbn [mbind option_bind] in Hx. injection Hx as <-.
  exists sc, ss, tb, tb', cols, cks, cols', cks', rels'.
  assert (G : described (put d s (set_relations sc (<[t := RTable tb']> (sc_relations sc))))
            (<[s := SchemaState (<[t := HasTable cols' cks']> rels') (ss_functions ss)]> sv) <->
          schema_described (set_relations sc (<[t := RTable tb']> (sc_relations sc)))
                            (SchemaState (<[t := HasTable cols' cks']> rels') (ss_functions ss))) by by apply described_put.
  split_and!; try done.
  - specialize (Hwf _ _ Hsc) as (_ & Hw & _). specialize (Hw _ _ Htb). apply Hw.
  - intros ->. rewrite G. by apply schema_insert.
Qed.

(** ** Columns *)

Lemma column_meant_iff ty nn d x :
  column_meant ty nn d = Some x <-> lex ty = Some (cs_type x) /\ nn = cs_notnull x /\ default_meant d = Some (cs_default x).
Proof.
  unfold column_meant. destruct (lex ty) as [l|]; cbn; [|by split; [|intros [? _]]].
  destruct (default_meant d) as [e|]; cbn; [|by split; [|intros (_ & _ & ?)]].
  split; [by intros [= <-]|]. destruct x as [ty' nn' d']. cbn. by intros ([= ->] & -> & [= ->]).
Qed.
Lemma find_deleted n m cs : NoDup (col_name <$> cs) ->
  find_column m (delete_column n cs) = if decide (m = n) then None else find_column m cs.
Proof.
  intros H. induction cs as [|c cs IH]; cbn.
  - by destruct (decide (m = n)).
  - apply NoDup_cons in H as [Hc H]. specialize (IH H).
    destruct (decide (col_name c = n)) as [E|E].
    + destruct (decide (m = n)) as [E'|E'].
      * apply find_column_None. unfold names in *. subst. done.
      * cbn. destruct (decide (col_name c = m)); [congruence|done].
    + cbn. destruct (decide (col_name c = m)) as [E'|E']; [destruct (decide (m = n)); congruence|]. exact IH.
Qed.

Lemma update_described tb cols cks n f x : table_described tb cols cks ->
  (forall c, col_name (f c) = col_name c) ->
  (forall c, find_column n (tb_columns tb) = Some c -> column_meant (col_type (f c)) (col_notnull (f c)) (col_default (f c)) = Some x) ->
  is_Some (find_column n (tb_columns tb)) ->
  table_described (set_columns tb (update_column n f (tb_columns tb))) (<[n := x]> cols) cks.
Proof.
  intros [Hc Hk] Hf Hx [c Hn]. split; [|done]. intros m. cbn [set_columns tb_columns].
  rewrite find_update_column by done. destruct (decide (m = n)) as [->|Hm].
  - rewrite Hn, lookup_insert. constructor. by apply Hx.
  - rewrite lookup_insert_ne by done. apply Hc.
Qed.

(** ** Constraints *)

Lemma insert_constraint tb cols cks n c x : table_described tb cols cks ->
  constraint_meant c = Some x ->
  table_described (set_constraints tb (<[n := c]> (tb_constraints tb))) cols (<[n := x]> cks).
Proof.
  intros [Hc Hk] Hx. split; [done|]. intros m. cbn. destruct (decide (m = n)) as [->|Hm].
  - rewrite !lookup_insert. by constructor.
  - rewrite !lookup_insert_ne by done. apply Hk.
Qed.
Lemma delete_constraint tb cols cks n : table_described tb cols cks ->
  table_described (set_constraints tb (delete n (tb_constraints tb))) cols (delete n cks).
Proof.
  intros [Hc Hk]. split; [done|]. intros m. cbn. destruct (decide (m = n)) as [->|Hm].
  - rewrite !lookup_delete. constructor.
  - rewrite !lookup_delete_ne by done. apply Hk.
Qed.

(** ** CREATE TABLE *)

Lemma created_columns s t cs tb tb' : mfor (fun c => add_column (make_column s t c)) cs tb = (tb', Ok ()) ->
  tb_columns tb' = tb_columns tb ++ (make_column s t <$> cs).
Proof.
  revert tb. induction cs as [|c cs IH]; intros tb; cbn [mfor].
  - intros [= <-]. by rewrite app_nil_r.
  - unfold mthen, add_column. destruct (has_column _ _); [done|]. intros H. apply IH in H. rewrite H. cbn.
    by rewrite <- app_assoc.
Qed.
Lemma created_described s t cs xs :
  mapM (fun c => pair (cc_name c) <$> column_meant (cc_type c) (cc_notnull c) (cc_default c)) cs = Some xs ->
  forall n, option_Forall2 (fun c x => column_meant (col_type c) (col_notnull c) (col_default c) = Some x)
    (find_column n (make_column s t <$> cs)) ((list_to_map xs : gmap str column_spec) !! n).
Proof.
  intros H n. apply mapM_Some in H. induction H as [|c x cs xs Hc H IH]; [constructor|].
  destruct (column_meant _ _ _) as [y|] eqn:E; [|done]. injection Hc as <-.
  cbn. destruct (decide (cc_name c = n)) as [<-|Hn].
  - rewrite lookup_insert. constructor. exact E.
  - rewrite lookup_insert_ne by done. exact IH.
Qed.

(** ** Every change *)

Lemma relation_at_schema d s sc n : db_schemas d !! s = Some sc -> relation_at d s n = sc_relations sc !! n.
Proof. unfold relation_at. by intros ->. Qed.
Lemma constrains_meant n c x : constraint_meant c = Some x ->
  constrains n x = false <-> n ∉ constrained_columns c.
Proof.
  destruct c as [c|c|c|c]; cbn; unfold deferral_meant; intros H; repeat case_match; simplify_eq/=;
    repeat match goal with H : context [mbind _ ?o] |- _ => destruct o eqn:?; cbn in H end; simplify_eq/=;
    rewrite ?bool_decide_eq_false; done || set_solver.
Qed.
Lemma added_constraint (c : constraint) tb tb' : add_constraint c tb = (tb', Ok ()) ->
  tb' = set_constraints tb (<[constraint_name c := c]> (tb_constraints tb)).
Proof. unfold add_constraint. destruct (has_constraint _ _); [done|]. by intros [= <-]. Qed.
Lemma dropped_constraint {A} (f : constraint -> result A) n tb tb' : drop_constraint f n tb = (tb', Ok ()) ->
  tb' = set_constraints tb (delete n (tb_constraints tb)).
Proof.
  unfold drop_constraint, mthen, mread, mok, remove_constraint. destruct (rbind _ _); [|done].
  destruct (_ !! _); [|done]. by intros [= <-].
Qed.
Lemma dropped_relation {A} (f : relation -> result A) n sc sc' : drop_relation f n sc = (sc', Ok ()) ->
  sc' = set_relations sc (delete n (sc_relations sc)).
Proof.
  unfold drop_relation, mthen, mread, mok, remove_relation. destruct (rbind _ _); [|done].
  destruct (_ !! _); [|done]. by intros [= <-].
Qed.
Lemma added_relation r sc sc' : add_relation r sc = (sc', Ok ()) ->
  sc' = set_relations sc (<[relation_name r := r]> (sc_relations sc)).
Proof. unfold add_relation. destruct (has_relation _ _); [done|]. by intros [= <-]. Qed.
Lemma added_state n r ss ss' : add_relation_state n r ss = Some ss' ->
  ss' = SchemaState (<[n := r]> (ss_relations ss)) (ss_functions ss).
Proof. unfold add_relation_state. destruct (guard_ _); [|done]. by intros [= <-]. Qed.
Lemma dropped_state k n ss ss' : drop_relation_state k n ss = Some ss' ->
  ss' = SchemaState (delete n (ss_relations ss)) (ss_functions ss).
Proof.
  unfold drop_relation_state. destruct (ss_relations ss !! n); [|done]. cbn [mbind option_bind].
  destruct (guard_ _); [|done]. by intros [= <-].
Qed.

(** Adding a constraint other than a primary key. *)
Lemma add_constraint_effect c s t n k d sv d' sv' :
  wf_db d -> described d sv -> constraint_name c = n -> constraint_meant c = Some k -> is_primary k = false ->
  in_table s t (add_constraint c) d = (d', Ok ()) ->
  perform (DoAlterTable s t (ToAddConstraint n k)) sv = Some sv' -> described d' sv'.
Proof.
  intros Hwf Hd Hn Hm Hp Ha Hx.
  destruct (table_effect _ _ _ _ _ _ _ _ Hwf Hd Ha Hx) as
    (sc & ss & tb & tb' & cols & cks & cols' & cks' & rels' & Hsc & Htb & Hdes & Hnd & Ht & Hk & Hal & G & _).
  apply added_constraint in Hk as ->. rewrite Hn in G.
  assert (cols' = cols /\ cks' = <[n := k]> cks /\ rels' = ss_relations ss) as (-> & -> & ->).
  { cbn [alter] in Hal. destruct (guard_ _); [|done]. cbn [mbind option_bind] in Hal.
    destruct k; try done; repeat (destruct (guard_ _); [|done]; cbn [mbind option_bind] in Hal); by injection Hal as <- <- <-. }
  apply G; [done|]. by apply insert_constraint.
Qed.
(** Changing a column. *)
Lemma set_column_effect f a s t n d sv d' sv' :
  wf_db d -> described d sv -> (forall c, col_name (f c) = col_name c) ->
  in_table s t (with_column_mut n f) d = (d', Ok ()) ->
  perform (DoAlterTable s t a) sv = Some sv' ->
  (forall ss cols cks c x cols' cks' rels', cols !! n = Some x ->
     column_meant (col_type c) (col_notnull c) (col_default c) = Some x ->
     alter sv s t ss cols cks a = Some (cols', cks', rels') ->
     cks' = cks /\ rels' = ss_relations ss /\ exists x', cols' = <[n := x']> cols /\
       column_meant (col_type (f c)) (col_notnull (f c)) (col_default (f c)) = Some x') ->
  described d' sv'.
Proof.
  intros Hwf Hd Hf Ha Hx Hal'.
  destruct (table_effect _ _ _ _ _ _ _ _ Hwf Hd Ha Hx) as
    (sc & ss & tb & tb' & cols & cks & cols' & cks' & rels' & Hsc & Htb & Hdes & Hnd & Ht & Hk & Hal & G & _).
  unfold with_column_mut in Hk. destruct (find_column n (tb_columns tb)) as [c|] eqn:Ec; [|done].
  injection Hk as <-. pose proof (proj1 Ht n) as Hn. rewrite Ec in Hn. inversion Hn as [c1 x Hm Ec1 Ex|]; subst.
  symmetry in Ex. destruct (Hal' _ _ _ _ _ _ _ _ Ex Hm Hal) as (-> & -> & x' & -> & Hx'). apply G; [done|].
  apply update_described; [done|done| |by eauto]. intros c' Hc'. rewrite Ec in Hc'. by injection Hc' as <-.
Qed.
(** Dropping a constraint. *)
Lemma drop_constraint_effect {A} (f : constraint -> result A) s t n d sv d' sv' :
  wf_db d -> described d sv ->
  in_table s t (drop_constraint f n) d = (d', Ok ()) ->
  perform (DoAlterTable s t (ToDropConstraint n)) sv = Some sv' -> described d' sv'.
Proof.
  intros Hwf Hd Ha Hx.
  destruct (table_effect _ _ _ _ _ _ _ _ Hwf Hd Ha Hx) as
    (sc & ss & tb & tb' & cols & cks & cols' & cks' & rels' & Hsc & Htb & Hdes & Hnd & Ht & Hk & Hal & G & _).
  apply dropped_constraint in Hk as ->. cbn [alter] in Hal. destruct (cks !! n); [|done].
  cbn [mbind option_bind] in Hal. destruct (guard_ _); [|done]. injection Hal as <- <- <-.
  apply G; [done|]. by apply delete_constraint.
Qed.
(** Changing a constraint: only foreign keys. *)
Lemma alter_constraint_effect (m : mut constraint ()) s t n df i d sv d' sv' :
  wf_db d -> described d sv ->
  in_table s t (with_constraint_mut n m) d = (d', Ok ()) ->
  perform (DoAlterTable s t (ToAlterConstraint n df i)) sv = Some sv' ->
  (forall c c' cs s' t' tcs mt u dl a b, m c = (c', Ok ()) ->
     constraint_meant c = Some (KForeign cs s' t' tcs mt u dl a b) ->
     constraint_meant c' = Some (KForeign cs s' t' tcs mt u dl df i)) ->
  described d' sv'.
Proof.
  intros Hwf Hd Ha Hx Hm.
  destruct (table_effect _ _ _ _ _ _ _ _ Hwf Hd Ha Hx) as
    (sc & ss & tb & tb' & cols & cks & cols' & cks' & rels' & Hsc & Htb & Hdes & Hnd & Ht & Hk & Hal & G & _).
  unfold with_constraint_mut in Hk. destruct (tb_constraints tb !! n) as [c|] eqn:Ec; [|done].
  destruct (m c) as [c' r] eqn:Em. injection Hk as <- ->.
  pose proof (proj2 Ht n) as Hn. rewrite Ec in Hn. inversion Hn as [c1 x Hm' Ec1 Ex|]; subst.
  cbn [alter] in Hal. rewrite <- Ex in Hal. destruct x as [| | |cs s' t' tcs mt u dl a b]; try done.
  injection Hal as <- <- <-. apply G; [done|]. apply insert_constraint; [done|]. by eapply Hm.
Qed.
(** Creating a relation. *)
Lemma add_relation_effect r n x s d sv d' sv' f (k : mut schema ()) :
  described d sv -> relation_name r = n -> relation_described r x ->
  (forall sc sc', k sc = (sc', Ok ()) -> add_relation r sc = (sc', Ok ())) ->
  (forall ss ss', f ss = Some ss' -> add_relation_state n x ss = Some ss') ->
  with_schema_mut s k d = (d', Ok ()) -> in_schema s f sv = Some sv' -> described d' sv'.
Proof.
  intros Hd Hn Hr Hk Hf Ha Hx.
  destruct (schema_effect _ _ _ _ _ _ _ Hd Ha Hx) as (sc & sc' & ss & ss' & Hsc & Hss & Hdes & Hks & Hfs & G).
  apply G. apply Hk, added_relation in Hks as ->. apply Hf, added_state in Hfs as ->.
  rewrite Hn. by apply schema_insert.
Qed.
Lemma drop_relation_effect {A} (as_kind : relation -> result A) is_kind n s d sv d' sv' :
  described d sv ->
  with_schema_mut s (drop_relation as_kind n) d = (d', Ok ()) -> in_schema s (drop_relation_state is_kind n) sv = Some sv' ->
  described d' sv'.
Proof.
  intros Hd Ha Hx.
  destruct (schema_effect _ _ _ _ _ _ _ Hd Ha Hx) as (sc & sc' & ss & ss' & Hsc & Hss & Hdes & Hks & Hfs & G).
  apply G. apply dropped_relation in Hks as ->. apply dropped_state in Hfs as ->. by apply schema_delete.
Qed.

Ltac passed H :=
  lazymatch type of H with
  | mbind _ (guard_ ?b) = _ => destruct b eqn:?; cbn [guard_ mbind option_bind] in H; [|discriminate H]
  end.
Lemma add_column_effect s t n ty nn df x d sv d' sv' :
  wf_db d -> described d sv -> column_meant ty nn df = Some x ->
  in_table s t (add_column (Column s t n ty nn df)) d = (d', Ok ()) ->
  perform (DoAlterTable s t (ToAddColumn n x)) sv = Some sv' -> described d' sv'.
Proof.
  intros Hwf Hd Hm Ha Hx.
  destruct (table_effect _ _ _ _ _ _ _ _ Hwf Hd Ha Hx) as
    (sc & ss & tb & tb' & cols & cks & cols' & cks' & rels' & Hsc & Htb & Hdes & Hnd & Ht & Hk & Hal & G & _).
  cbn [alter] in Hal. destruct (cols !! n) eqn:En; [done|]. injection Hal as <- <- <-.
  apply G; [done|]. unfold add_column, has_column in Hk. cbn [col_name] in Hk.
  destruct (find_column n (tb_columns tb)) eqn:Ef; [done|]. injection Hk as <-.
  destruct Ht as [Hc Hk]. split; [|done]. intros m. cbn [set_columns tb_columns]. rewrite find_column_app.
  destruct (decide (m = n)) as [->|Hmn].
  - rewrite Ef, lookup_insert. cbn. rewrite decide_True by done. by constructor.
  - rewrite lookup_insert_ne by done. specialize (Hc m).
    destruct (find_column m (tb_columns tb)); [done|]. cbn. by rewrite decide_False by congruence.
Qed.
Lemma rename_column_effect s t n n' d sv d' sv' :
  wf_db d -> described d sv ->
  in_table s t (rename_column_in n n') d = (d', Ok ()) ->
  perform (DoAlterTable s t (ToRenameColumn n n')) sv = Some sv' -> described d' sv'.
Proof.
  intros Hwf Hd Ha Hx.
  destruct (table_effect _ _ _ _ _ _ _ _ Hwf Hd Ha Hx) as
    (sc & ss & tb & tb' & cols & cks & cols' & cks' & rels' & Hsc & Htb & Hdes & Hnd & Ht & Hk & Hal & G & _).
  cbn [alter] in Hal. destruct (cols !! n) as [x|] eqn:En; [|done]. cbn [mbind option_bind] in Hal.
  do 4 passed Hal. injection Hal as <- <- <-.
  apply G; [done|]. unfold rename_column_in, mthen, remove_column, add_column, has_column in Hk.
  destruct (find_column n (tb_columns tb)) as [c|] eqn:Ef; [|done]. cbn [col_set_name col_name set_columns tb_columns] in Hk.
  destruct (find_column n' (delete_column n (tb_columns tb))) eqn:Ef'; [done|]. injection Hk as <-.
  destruct Ht as [Hc Hk]. split; [|done]. intros m. cbn [set_columns tb_columns]. rewrite find_column_app.
  pose proof (Hc n) as Hn. rewrite Ef, En in Hn. inversion Hn as [c1 x1 Hm Ec1 Ex1|]; subst.
  destruct (decide (m = n')) as [->|Hmn].
  - rewrite Ef', lookup_insert. cbn. rewrite decide_True by done. by constructor.
  - rewrite lookup_insert_ne by done. rewrite find_deleted by done. destruct (decide (m = n)) as [->|Hm'].
    + rewrite lookup_delete. cbn. rewrite decide_False by congruence. constructor.
    + rewrite lookup_delete_ne by done. specialize (Hc m).
      destruct (find_column m (tb_columns tb)); [done|]. cbn. by rewrite decide_False by congruence.
Qed.
Lemma add_primary_key_effect s t n cs df i d sv d' sv' :
  wf_db d -> described d sv -> deferral_meant df i = Some tt ->
  in_table s t (add_constraint (CPrimaryKey (PrimaryKey s t n cs df i))) d = (d', Ok ()) ->
  perform (DoAlterTable s t (ToAddConstraint n (KPrimary cs df i))) sv = Some sv' ->
  (described d' sv' <-> plain_effect (AddPrimaryKey s t n cs df i) d).
Proof.
  intros Hwf Hd Hm Ha Hx.
  destruct (table_effect _ _ _ _ _ _ _ _ Hwf Hd Ha Hx) as
    (sc & ss & tb & tb' & cols & cks & cols' & cks' & rels' & Hsc & Htb & Hdes & Hnd & Ht & Hk & Hal & G & _).
  apply added_constraint in Hk as ->. cbn [alter] in Hal.
  do 2 passed Hal. injection Hal as <- <- <-.
  rewrite (G eq_refl). clear G. cbn [plain_effect]. unfold column_at. rewrite (relation_at_schema _ _ _ _ Hsc), Htb.
  assert (Hck : forall m, option_Forall2 (fun c x => constraint_meant c = Some x)
    (<[n := CPrimaryKey (PrimaryKey s t n cs df i)]> (tb_constraints tb) !! m) (<[n := KPrimary cs df i]> cks !! m)).
  { apply (insert_constraint tb cols cks n (CPrimaryKey (PrimaryKey s t n cs df i)) _ Ht). cbn. by rewrite Hm. }
  destruct Ht as [Hc _]. split.
  - intros [Hc' _] m col Hin Hcol. specialize (Hc' m). cbn [set_constraints tb_columns] in Hc'. rewrite Hcol in Hc'.
    rewrite map_lookup_imap in Hc'. specialize (Hc m). rewrite Hcol in Hc. inversion Hc as [c1 x1 Hm1 Ec1 Ex1|]; subst.
    rewrite <- Ex1 in Hc'. cbn in Hc'. rewrite decide_True in Hc' by done.
    inversion Hc' as [c2 x2 Hm2 Ec2 Ex2|]; subst. apply column_meant_iff in Hm2 as (_ & -> & _). done.
  - intros Hf. split; [|done]. intros m. cbn [set_constraints tb_columns]. rewrite map_lookup_imap.
    specialize (Hc m). inversion Hc as [c1 x1 Hm1 Ec1 Ex1|Ec1 Ex1]; cbn; [|constructor].
    destruct (decide (m ∈ cs)) as [Hin|Hin]; constructor; [|done].
    apply column_meant_iff in Hm1 as (H1 & H2 & H3). apply column_meant_iff. split_and!; [done| |done].
    cbn. symmetry in Ec1. by apply (Hf m).
Qed.
Lemma mapM_lex_keys ks ls n : mapM lex ks = Some ls ->
  indexes n ls = false <-> Forall (fun e => lex e ≫= one_name <> Some n) ks.
Proof.
  intros H. apply mapM_Some in H. induction H as [|k l ks ls Hk H IH]; [split; [by constructor|done]|].
  unfold indexes in *. cbn [existsb]. rewrite orb_false_iff, Forall_cons, IH, bool_decide_eq_false, Hk. done.
Qed.
Lemma of_column_described r x t n : relation_described r x ->
  of_column t n x = false <->
  (forall i, r = RIndex i -> ix_table i = t -> Forall (fun e => lex e ≫= one_name <> Some n) (ix_keys i)) /\
  (forall q, r = RSequence q -> owner_meant q <> Some (t, n)).
Proof.
  intros H. destruct r as [tb|v|ix|q]; destruct x as [cols cks|vq|t' u m ks|q' o]; cbn in H; try done.
  - destruct H as (H1 & _ & _ & H4). cbn [of_column]. rewrite andb_false_iff, bool_decide_eq_false, (mapM_lex_keys _ _ n H4).
    split.
    + intros Hq. split; [|done]. intros i [= <-] Ht. destruct Hq as [Hq|Hq]; [congruence|done].
    + intros [Hq _]. destruct (decide (t' = t)) as [->|Ht]; [right; by apply Hq|by left].
  - destruct H as [_ H]. cbn [of_column]. split.
    + intros Hq. split; [done|]. intros q0 [= <-]. rewrite H. destruct o as [o|]; [|done].
      apply bool_decide_eq_false in Hq. congruence.
    + intros [_ Hq]. specialize (Hq _ eq_refl). rewrite H in Hq. destruct o as [o|]; [|done].
      apply bool_decide_eq_false. congruence.
Qed.
Lemma of_table_described r x t : relation_described r x ->
  of_table t x = false <->
  (forall i, r = RIndex i -> ix_table i <> t) /\ (forall q n, r = RSequence q -> owner_meant q <> Some (t, n)).
Proof.
  intros H. destruct r as [tb|v|ix|q]; destruct x as [cols cks|vq|t' u m ks|q' o]; cbn in H; try done.
  - destruct H as (H1 & _). cbn [of_table]. rewrite bool_decide_eq_false. split.
    + intros Hq. split; [|done]. intros i [= <-]. congruence.
    + intros [Hq _]. specialize (Hq _ eq_refl). congruence.
  - destruct H as [_ H]. cbn [of_table]. split.
    + intros Hq. split; [done|]. intros q0 n [= <-]. rewrite H. destruct o as [[o1 o2]|]; [|done].
      apply bool_decide_eq_false in Hq. congruence.
    + intros [_ Hq]. destruct o as [[o1 o2]|]; [|done].
      apply bool_decide_eq_false. specialize (Hq _ o2 eq_refl). rewrite H in Hq. congruence.
Qed.
(** Relations of which some are gone. *)
Lemma filter_described (P : relation_state -> bool) m rels :
  (forall k, option_Forall2 relation_described (m !! k) (rels !! k)) ->
  (forall k, option_Forall2 relation_described ((m : gmap str relation) !! k) ((filter (fun e : str * relation_state => P e.2 = false) rels : gmap str relation_state) !! k)) <->
  (forall k x, rels !! k = Some x -> P x = false).
Proof.
  intros H. split.
  - intros G k x Hk. specialize (G k). specialize (H k). rewrite Hk in H. inversion H as [r y Hy Er Ey|]; subst.
    rewrite <- Er in G. inversion G as [r' y' Hy' Er' Ey'|]; subst. symmetry in Ey'.
    apply map_filter_lookup_Some in Ey' as [E1 E2]. cbn in E2. rewrite Hk in E1. by injection E1 as <-.
  - intros G k. specialize (H k). inversion H as [r x Hx Er Ex|Er Ex].
    + symmetry in Ex. assert (E : filter (fun e : str * relation_state => P e.2 = false) rels !! k = Some x).
      { apply map_filter_lookup_Some. split; [done|]. cbn. by eapply G. }
      rewrite E. by constructor.
    + symmetry in Ex. rewrite map_filter_lookup_None_2; [constructor|]. by left.
Qed.
Lemma drop_column_effect s t n d sv d' sv' :
  wf_db d -> described d sv ->
  in_table s t (let? _ := remove_column n in mok ()) d = (d', Ok ()) ->
  perform (DoAlterTable s t (ToDropColumn n)) sv = Some sv' ->
  (described d' sv' <-> plain_effect (DropColumn s t n) d).
Proof.
  intros Hwf Hd Ha Hx.
  destruct (table_effect _ _ _ _ _ _ _ _ Hwf Hd Ha Hx) as
    (sc & ss & tb & tb' & cols & cks & cols' & cks' & rels' & Hsc & Htb & Hdes & Hnd & Ht & Hk & Hal & _ & G).
  cbn [alter] in Hal. destruct (cols !! n) as [x|] eqn:En; [|done]. cbn [mbind option_bind] in Hal.
  do 3 passed Hal. injection Hal as <- <- <-.
  unfold mthen, remove_column, mok in Hk. destruct (find_column n (tb_columns tb)) as [c|] eqn:Ef; [|done].
  injection Hk as <-. rewrite G. clear G.
  cbn [plain_effect]. unfold constraint_at. rewrite (relation_at_schema _ _ _ _ Hsc), Htb.
  setoid_rewrite (relation_at_schema _ _ _ _ Hsc).
  destruct Hdes as [Hr Hf]. destruct Ht as [Hc Hk].
  set (rels := filter (fun e : str * relation_state => of_column t n e.2 = false) (ss_relations ss)).
  assert (E1 : (forall m, option_Forall2 (fun c x => constraint_meant c = Some x) (tb_constraints tb !! m)
      ((filter (fun e : str * constraint_spec => constrains n e.2 = false) cks : gmap str constraint_spec) !! m)) <->
    (forall k c, tb_constraints tb !! k = Some c -> n ∉ constrained_columns c)).
  { split.
    - intros G k c0 Hk0. specialize (G k). specialize (Hk k). rewrite Hk0 in G. inversion G as [c1 x1 Hm E1 E2|].
      subst. symmetry in E2. apply map_filter_lookup_Some in E2 as [_ E2]. cbn in E2.
      by apply (constrains_meant n _ _ Hm).
    - intros G k. specialize (Hk k). inversion Hk as [c1 x1 Hm E1 E2|E1 E2].
      + assert (E : filter (fun e : str * constraint_spec => constrains n e.2 = false) cks !! k = Some x1).
        { apply map_filter_lookup_Some. split; [done|]. cbn. apply (constrains_meant n _ _ Hm). by apply (G k). }
        rewrite E. by constructor.
      + rewrite map_filter_lookup_None_2; [constructor|]. by left. }
  pose proof (filter_described (of_column t n) _ _ Hr) as E2.
  assert (E3 : (forall k x, ss_relations ss !! k = Some x -> of_column t n x = false) <->
    (forall k i, sc_relations sc !! k = Some (RIndex i) -> ix_table i = t ->
         Forall (fun e => lex e ≫= one_name <> Some n) (ix_keys i)) /\
    (forall k q, sc_relations sc !! k = Some (RSequence q) -> owner_meant q <> Some (t, n))).
  { split.
    - intros G. split; intros k i Hki; specialize (Hr k); rewrite Hki in Hr; inversion Hr as [r y Hy E4 E5|]; subst;
        symmetry in E5; apply G in E5; by apply (proj1 (of_column_described _ _ _ _ Hy) E5).
    - intros [G1 G2] k y Hky. specialize (Hr k). rewrite Hky in Hr. inversion Hr as [r y' Hy E4 E5|]; subst.
      apply (of_column_described _ _ _ _ Hy). split; intros i ->; [by apply (G1 k)|by apply (G2 k)]. }
  assert (E4 : (forall k, option_Forall2 relation_described (sc_relations sc !! k) (rels !! k)) /\
     (forall k c, tb_constraints tb !! k = Some c -> n ∉ constrained_columns c) <->
     schema_described (set_relations sc (<[t := RTable (set_columns tb (delete_column n (tb_columns tb)))]> (sc_relations sc)))
       (SchemaState (<[t := HasTable (delete n cols) (filter (fun e : str * constraint_spec => constrains n e.2 = false) cks)]> rels)
          (ss_functions ss))).
  { rewrite <- E1. split.
    - intros [G1 G2]. split; [|done]. intros k. cbn. destruct (decide (k = t)) as [->|Hkt].
      + rewrite !lookup_insert. constructor. split; [|done]. intros m. cbn [set_columns tb_columns].
        rewrite find_deleted by done. destruct (decide (m = n)) as [->|Hmn].
        * rewrite lookup_delete. constructor.
        * rewrite lookup_delete_ne by done. apply Hc.
      + rewrite !lookup_insert_ne by done. apply G1.
    - intros [G _]. split.
      + intros k. specialize (G k). cbn in G. destruct (decide (k = t)) as [->|Hkt].
        * assert (E : rels !! t = ss_relations ss !! t).
          { assert (exists y, ss_relations ss !! t = Some y /\ of_column t n y = false) as (y & E6 & Hy).
            { specialize (Hr t). rewrite Htb in Hr. inversion Hr as [r y Hy E5 E6|]. exists y. split; [done|].
              subst. by destruct y. }
            rewrite E6. apply map_filter_lookup_Some. by split. }
          rewrite E. apply Hr.
        * by rewrite !lookup_insert_ne in G by done.
      + specialize (G t). cbn in G. rewrite !lookup_insert in G. inversion G as [r y Hy E5 E6|]. by destruct Hy. }
  rewrite <- E4. etransitivity; [apply and_iff_compat_r, E2|]. rewrite E3. tauto.
Qed.
Lemma drop_table_effect s t d sv d' sv' :
  wf_db d -> described d sv ->
  with_schema_mut s (let? _ := remove_relation t in mok ()) d = (d', Ok ()) ->
  perform (DoDropTable s t) sv = Some sv' ->
  (described d' sv' <-> plain_effect (DropTable s t) d).
Proof.
  intros Hwf Hd Ha Hx. cbn [perform] in Hx. passed Hx.
  destruct (schema_effect _ _ _ _ _ _ _ Hd Ha Hx) as (sc & sc' & ss & ss' & Hsc & Hss & Hdes & Hks & Hfs & G).
  rewrite G. clear G. apply remove_relation_inv in Hks as (r & Hr0 & ->).
  cbn [plain_effect]. setoid_rewrite (relation_at_schema _ _ _ _ Hsc).
  destruct Hdes as [Hr Hf]. pose proof (Hr t) as Hrt. rewrite Hr0 in Hrt. inversion Hrt as [r1 y Hy E1 E2|]; subst.
  rewrite <- E2 in Hfs. destruct y as [cols cks| | |]; try done. injection Hfs as <-.
  destruct r as [tb| | |]; cbn in Hy; try done.
  assert (Hr' : forall k, option_Forall2 relation_described (delete t (sc_relations sc) !! k) (delete t (ss_relations ss) !! k)).
  { intros k. destruct (decide (k = t)) as [->|Hkt]; [rewrite !lookup_delete; constructor|].
    rewrite !lookup_delete_ne by done. apply Hr. }
  pose proof (filter_described (of_table t) _ _ Hr') as E3.
  assert (E4 : forall m, schema_described (set_relations sc (delete t (sc_relations sc))) (SchemaState m (ss_functions ss)) <->
    forall k, option_Forall2 relation_described (delete t (sc_relations sc) !! k) (m !! k)).
  { intros m. split; [by intros [? _]|]. intros H. by split. }
  rewrite E4. etransitivity; [apply E3|]. split.
  - intros G. split.
    + intros k i Hki. specialize (Hr k). rewrite Hki in Hr. inversion Hr as [r1 y1 Hy1 E5 E6|]; subst. symmetry in E6.
      assert (Hkt : k <> t) by congruence.
      apply (proj1 (of_table_described _ _ t Hy1)); [|done]. apply (G k). by rewrite lookup_delete_ne.
    + intros k q n Hki. specialize (Hr k). rewrite Hki in Hr. inversion Hr as [r1 y1 Hy1 E5 E6|]; subst. symmetry in E6.
      assert (Hkt : k <> t) by congruence.
      apply (proj1 (of_table_described _ _ t Hy1)); [|done]. apply (G k). by rewrite lookup_delete_ne.
  - intros [G1 G2] k y Hky. specialize (Hr' k). rewrite Hky in Hr'. inversion Hr' as [r1 y1 Hy1 E5 E6|]; subst.
    symmetry in E5. apply lookup_delete_Some in E5 as [_ E5].
    apply (of_table_described _ _ t Hy1). split; [intros i ->; by apply (G1 k)|intros q n ->; by apply (G2 k)].
Qed.
Lemma create_table_effect s t cs xs d sv d' sv' :
  wf_db d -> described d sv ->
  mapM (fun c => pair (cc_name c) <$> column_meant (cc_type c) (cc_notnull c) (cc_default c)) cs = Some xs ->
  with_schema_mut s (create_table_in s t cs) d = (d', Ok ()) ->
  perform (DoCreateTable s t xs) sv = Some sv' -> described d' sv'.
Proof.
  intros Hwf Hd Hm Ha Hx. cbn [perform] in Hx. passed Hx.
  destruct (schema_effect _ _ _ _ _ _ _ Hd Ha Hx) as (sc & sc' & ss & ss' & Hsc & Hss & Hdes & Hks & Hfs & G).
  rewrite G. clear G. apply create_table_inv in Hks as (tb & Hcols & _ & _ & ->). apply added_state in Hfs as ->.
  apply schema_insert; [done|]. pose proof (created_columns _ _ _ _ _ Hcols) as Ec.
  apply mfor_add_column_names in Hcols as (_ & _ & Ek). split.
  - rewrite Ec. cbn [table_new tb_columns app]. by apply created_described.
  - intros n. rewrite Ek. cbn. rewrite !lookup_empty. constructor.
Qed.
Lemma create_index_effect s t n u m ks m' ks' d sv d' sv' :
  wf_db d -> described d sv -> word_meant m = Some m' -> mapM lex ks = Some ks' ->
  with_schema_mut s (create_index_in s t n u m ks) d = (d', Ok ()) ->
  perform (DoCreateIndex n s t u m' ks') sv = Some sv' -> described d' sv'.
Proof.
  intros Hwf Hd Hm Hks' Ha Hx. cbn [perform] in Hx.
  destruct (schema_effect _ _ _ _ _ _ _ Hd Ha Hx) as (sc & sc' & ss & ss' & Hsc & Hss & Hdes & Hks & Hfs & G).
  rewrite G. clear G. apply create_index_inv in Hks as (tb & Htb & _ & ->).
  destruct (ss_relations ss !! t) as [[| | |]|] eqn:Et; try done. apply added_state in Hfs as ->.
  apply schema_insert; [done|]. cbn. split_and!; try done.
  destruct (Hwf _ _ Hsc) as (_ & Hr & _). by apply (Hr _ _ Htb).
Qed.

(** ** Every change *)

Lemma schema_created_effect n d sv d' sv' :
  described d sv -> add_schema (schema_new n) d = (d', Ok ()) ->
  perform (DoCreateSchema n) sv = Some sv' -> described d' sv'.
Proof.
  intros Hd Ha Hx. cbn [perform] in Hx. passed Hx. injection Hx as <-.
  unfold add_schema in Ha. destruct (has_schema _ _); [done|]. injection Ha as <-. intros m. cbn.
  destruct (decide (m = n)) as [->|Hm].
  - rewrite !lookup_insert. constructor. split; intros k; cbn; rewrite !lookup_empty; constructor.
  - rewrite !lookup_insert_ne by done. apply Hd.
Qed.
Lemma schema_dropped_effect n d sv d' sv' :
  described d sv -> (let? _ := remove_schema n in mok ()) d = (d', Ok ()) ->
  perform (DoDropSchema n) sv = Some sv' -> described d' sv'.
Proof.
  intros Hd Ha Hx. cbn [perform] in Hx. destruct (sv !! n); [|done]. cbn [mbind option_bind] in Hx.
  passed Hx. injection Hx as <-. unfold mthen, remove_schema, mok in Ha.
  destruct (db_schemas d !! n); [|done]. injection Ha as <-. intros m. cbn.
  destruct (decide (m = n)) as [->|Hm].
  - rewrite !lookup_delete. constructor.
  - rewrite !lookup_delete_ne by done. apply Hd.
Qed.
Lemma function_created_effect s f b l r v x d sv d' sv' :
  described d sv -> function_meant b l r v = Some x ->
  with_schema_mut s (add_function (Function s f b l r v)) d = (d', Ok ()) ->
  perform (DoCreateFunction s f x) sv = Some sv' -> described d' sv'.
Proof.
  intros Hd Hm Ha Hx. cbn [perform] in Hx.
  destruct (schema_effect _ _ _ _ _ _ _ Hd Ha Hx) as (sc & sc' & ss & ss' & Hsc & Hss & Hdes & Hks & Hfs & G).
  rewrite G. clear G. unfold add_function in Hks. cbn [fn_name] in Hks. destruct (has_function _ _); [done|].
  injection Hks as <-. destruct (ss_functions ss !! f); [done|]. injection Hfs as <-. by apply schema_function.
Qed.
Lemma function_dropped_effect s f d sv d' sv' :
  described d sv -> with_schema_mut s (let? _ := remove_function f in mok ()) d = (d', Ok ()) ->
  perform (DoDropFunction s f) sv = Some sv' -> described d' sv'.
Proof.
  intros Hd Ha Hx. cbn [perform] in Hx.
  destruct (schema_effect _ _ _ _ _ _ _ Hd Ha Hx) as (sc & sc' & ss & ss' & Hsc & Hss & Hdes & Hks & Hfs & G).
  rewrite G. clear G. unfold mthen, remove_function, mok in Hks. destruct (sc_functions sc !! f); [|done].
  injection Hks as <-. destruct (ss_functions ss !! f); [|done]. injection Hfs as <-. by apply schema_no_function.
Qed.

Lemma check_meant_not_primary c k : constraint_meant (CCheck c) = Some k -> is_primary k = false.
Proof. cbn. destruct (guard_ _); [|done]. cbn. destruct (expression_meant _); [|done]. by intros [= <-]. Qed.
Lemma unique_meant_not_primary c k : constraint_meant (CUnique c) = Some k -> is_primary k = false.
Proof. cbn. destruct (deferral_meant _ _); [|done]. by intros [= <-]. Qed.
Lemma foreign_meant_not_primary c k : constraint_meant (CForeignKey c) = Some k -> is_primary k = false.
Proof.
  cbn. destruct (deferral_meant _ _); [|done]. cbn. destruct (match_meant _); [|done]. cbn.
  destruct (action_meant (fk_update c)); [|done]. cbn. destruct (action_meant _); [|done]. by intros [= <-].
Qed.
Lemma meant_kind_check c cs s t tcs m u dl a b : constraint_meant (CCheck c) <> Some (KForeign cs s t tcs m u dl a b).
Proof. cbn. destruct (guard_ _); [|done]. cbn. by destruct (expression_meant _). Qed.
Lemma meant_kind_unique c cs s t tcs m u dl a b : constraint_meant (CUnique c) <> Some (KForeign cs s t tcs m u dl a b).
Proof. cbn. by destruct (deferral_meant _ _). Qed.
Lemma meant_kind_primary c cs s t tcs m u dl a b : constraint_meant (CPrimaryKey c) <> Some (KForeign cs s t tcs m u dl a b).
Proof. cbn. by destruct (deferral_meant _ _). Qed.

Theorem effect_iff c d sv st d' sv' :
  wf_db d -> described d sv -> meant c = Some st ->
  apply c d = (d', Ok ()) -> perform st sv = Some sv' ->
  (described d' sv' <-> plain_effect c d).
Proof.
  intros Hwf Hd Hm Ha Hx.
  assert (T : described d' sv' -> (plain_effect c d <-> True) -> (described d' sv' <-> plain_effect c d)) by tauto.
  destruct c; cbn [meant] in Hm; cbn [apply] in Ha.
  - destruct (constraint_meant _) as [k|] eqn:Ek; [|done]. injection Hm as <-. apply T; [|done].
    eapply add_constraint_effect; try eassumption; [done|]. by eapply check_meant_not_primary.
  - destruct (column_meant _ _ _) as [x|] eqn:Ek; [|done]. injection Hm as <-. apply T; [|done].
    by eapply add_column_effect.
  - destruct (constraint_meant _) as [k|] eqn:Ek; [|done]. injection Hm as <-. apply T; [|done].
    eapply add_constraint_effect; try eassumption; [done|]. by eapply foreign_meant_not_primary.
  - cbn [constraint_meant pk_columns pk_deferrable pk_initially] in Hm.
    destruct (deferral_meant _ _) as [[]|] eqn:Ek; [|done]. injection Hm as <-. by eapply add_primary_key_effect.
  - destruct (constraint_meant _) as [k|] eqn:Ek; [|done]. injection Hm as <-. apply T; [|done].
    eapply add_constraint_effect; try eassumption; [done|]. by eapply unique_meant_not_primary.
  - destruct (deferral_meant _ _) as [[]|] eqn:Ek; [|done]. injection Hm as <-. apply T; [|done].
    eapply alter_constraint_effect; try eassumption. intros c c' cs s' t' tcs mt u dl a b Hc Hf.
    destruct c; try done. by apply meant_kind_check in Hf.
  - destruct (lex _) as [ty|] eqn:Ek; [|done]. injection Hm as <-. apply T; [|done].
    eapply set_column_effect; try eassumption; [done|]. intros ss cols cks c x cols' cks' rels' Hn Hc Hal.
    cbn [alter] in Hal. rewrite Hn in Hal. cbn [mbind option_bind] in Hal. passed Hal. injection Hal as <- <- <-.
    split_and!; try done. eexists. split; [done|]. apply column_meant_iff in Hc as (_ & H2 & H3).
    by apply column_meant_iff.
  - destruct (default_meant _) as [df|] eqn:Ek; [|done]. injection Hm as <-. apply T; [|done].
    eapply set_column_effect; try eassumption; [done|]. intros ss cols cks c x cols' cks' rels' Hn Hc Hal.
    cbn [alter] in Hal. rewrite Hn in Hal. cbn [mbind option_bind] in Hal. injection Hal as <- <- <-.
    split_and!; try done. eexists. split; [done|]. apply column_meant_iff in Hc as (H1 & H2 & _).
    by apply column_meant_iff.
  - injection Hm as <-. apply T; [|done].
    eapply set_column_effect; try eassumption; [done|]. intros ss cols cks c x cols' cks' rels' Hn Hc Hal.
    cbn [alter] in Hal. rewrite Hn in Hal. cbn [mbind option_bind] in Hal. passed Hal. injection Hal as <- <- <-.
    split_and!; try done. eexists. split; [done|]. apply column_meant_iff in Hc as (H1 & _ & H3).
    by apply column_meant_iff.
  - destruct (deferral_meant _ _) as [[]|] eqn:Ek; [|done]. injection Hm as <-. apply T; [|done].
    eapply alter_constraint_effect; try eassumption. intros c c' cs s' t' tcs mt u dl a b Hc Hf.
    destruct c; try done. injection Hc as <-. revert Hf. cbn. rewrite Ek.
    destruct (deferral_meant (fk_deferrable _) _); [|done]. cbn.
    destruct (match_meant _); [|done]. cbn.
    destruct (action_meant (fk_update _)); [|done]. cbn. destruct (action_meant _); [|done]. cbn.
    by intros [= <- <- <- <- <- <- <- _ _].
  - destruct (deferral_meant _ _) as [[]|] eqn:Ek; [|done]. injection Hm as <-. apply T; [|done].
    eapply alter_constraint_effect; try eassumption. intros c c' cs s' t' tcs mt u dl a b Hc Hf.
    destruct c; try done. by apply meant_kind_primary in Hf.
  - destruct (deferral_meant _ _) as [[]|] eqn:Ek; [|done]. injection Hm as <-. apply T; [|done].
    eapply alter_constraint_effect; try eassumption. intros c c' cs s' t' tcs mt u dl a b Hc Hf.
    destruct c; try done. by apply meant_kind_unique in Hf.
  - destruct (function_meant _ _ _ _) as [x|] eqn:Ek; [|done]. injection Hm as <-. apply T; [|done].
    by eapply function_created_effect.
  - destruct (word_meant _) as [m'|] eqn:Em; [|done]. cbn [mbind option_bind] in Hm.
    destruct (mapM lex _) as [ks'|] eqn:Ek; [|done]. injection Hm as <-. apply T; [|done].
    by eapply create_index_effect.
  - injection Hm as <-. apply T; [|done]. by eapply schema_created_effect.
  - destruct (sequence_meant _ _ _ _ _ _ _) as [x|] eqn:Ek; [|done]. injection Hm as <-. apply T; [|done].
    cbn [perform] in Hx. passed Hx. eapply add_relation_effect; try eassumption; [done| |done|done]. by split.
  - destruct (mapM (fun c => pair (cc_name c) <$> column_meant (cc_type c) (cc_notnull c) (cc_default c)) _) as [xs|] eqn:Ek; [|done].
    injection Hm as <-. apply T; [|done]. by eapply create_table_effect.
  - destruct (query_meant _) as [x|] eqn:Ek; [|done]. injection Hm as <-. apply T; [|done].
    cbn [perform] in Hx. eapply (add_relation_effect (RView (View _ _ _)) _ (HasView x)); [exact Hd|done|exact Ek| | |exact Ha|exact Hx]; done.
  - injection Hm as <-. apply T; [|done]. by eapply drop_constraint_effect.
  - injection Hm as <-. by eapply drop_column_effect.
  - injection Hm as <-. apply T; [|done]. by eapply drop_constraint_effect.
  - injection Hm as <-. apply T; [|done]. by eapply function_dropped_effect.
  - injection Hm as <-. apply T; [|done]. by eapply drop_relation_effect.
  - injection Hm as <-. apply T; [|done]. by eapply drop_constraint_effect.
  - injection Hm as <-. apply T; [|done]. by eapply schema_dropped_effect.
  - injection Hm as <-. apply T; [|done]. by eapply drop_relation_effect.
  - injection Hm as <-. by eapply drop_table_effect.
  - injection Hm as <-. apply T; [|done]. by eapply drop_constraint_effect.
  - injection Hm as <-. apply T; [|done]. by eapply drop_relation_effect.
  - injection Hm as <-. apply T; [|done]. by eapply rename_column_effect.
Qed.

(** ** Statements that say something else *)

Lemma obey_reads sql sv sv' : obey sql sv = Some sv' -> exists st, read_statement sql = Some st /\ perform st sv = Some sv'.
Proof. unfold obey. destruct (read_statement sql) as [st|]; [|done]. cbn. eauto. Qed.
Lemma alters_other_read s t n d i sv sv' (m : mut constraint ()) db db' :
  wf_db db -> described db sv -> in_table s t (with_constraint_mut n m) db = (db', Ok ()) ->
  perform (DoAlterTable s t (ToAlterConstraint n d d)) sv = Some sv' -> described db' sv' ->
  (forall c c', m c = (c', Ok ()) -> forall x, constraint_meant c' = Some x ->
     match x with KForeign _ _ _ _ _ _ _ d' i' => d' = d /\ i' = i | _ => d = i end) ->
  d = i.
Proof.
  intros Hwf Hd Ha Hx Hd' Hm.
  destruct (table_effect _ _ _ _ _ _ _ _ Hwf Hd Ha Hx) as
    (sc & ss & tb & tb' & cols & cks & cols' & cks' & rels' & Hsc & Htb & Hdes & Hnd & Ht & Hk & Hal & G & _).
  cbn [alter] in Hal. destruct (cks !! n) as [k|] eqn:En; [|done].
  destruct k as [| | |cs s' t' tcs mt u dl a b]; try done. injection Hal as <- <- <-.
  apply G in Hd'; [|done]. destruct Hd' as [_ Hc]. specialize (Hc n). rewrite lookup_insert in Hc.
  unfold with_constraint_mut in Hk. destruct (tb_constraints tb !! n) as [c0|] eqn:Ec; [|done].
  destruct (m c0) as [c1 [[]|e]] eqn:Em; [|done]. injection Hk as <-. cbn in Hc. rewrite lookup_insert in Hc.
  inversion Hc as [c2 x2 Hx2 E1 E2|]; subst. specialize (Hm _ _ Em _ Hx2). cbn in Hm. tauto.
Qed.

Lemma mapM_map {A B C} (f : B -> option C) (g : A -> B) l : mapM f (g <$> l) = mapM (fun x => f (g x)) l.
Proof. induction l as [|x l IH]; [done|]. cbn. by rewrite <- IH. Qed.
Lemma described_sayable c d sv d' sv' :
  well_spelled c -> wf_db d -> described d sv -> apply c d = (d', Ok ()) ->
  obey (render_sql c) sv = Some sv' -> described d' sv' -> sayable c.
Proof.
  intros Hw Hwf Hd Ha Ho Hd'. destruct (obey_reads _ _ _ Ho) as (st & Hr & Hx). clear Ho.
  destruct c as [s t n e df i|s t n ty nn df|s t n cs s' t' tcs m u dl df i|s t n cs df i|s t n cs df i|s t n df i
    |s t n ty|s t n df|s t n nn|s t n df i|s t n df i|s t n df i|s f body lang ret vol|s t n u m ks|n|s n ty inc mn mx sta ca cy
    |s t cs|s v q|s t n|s t n|s t n|s f|s n|s t n|n|s n|s t|s t n|s v|s t n n']; try done; cbn [apply] in Ha.
  - (* AddCheck *)
    assert (Hm : is_Some (constraint_meant (CCheck (Check s t n e df i)))).
    { apply in_table_inv in Ha as [[_ [? ?]]|(sc & tb & tb' & Hsc & Htb & Hk & ->)]; [done|].
      apply added_constraint in Hk as ->. specialize (Hd' s). unfold put in Hd'. cbn in Hd'. rewrite lookup_insert in Hd'.
      inversion Hd' as [sc1 ss [Hrels _] E1 E2|]; subst. specialize (Hrels t). cbn in Hrels. rewrite lookup_insert in Hrels.
      inversion Hrels as [r x Hrx E1 E3|]; subst. destruct x as [cols cks| | |]; cbn in Hrx; try done.
      destruct Hrx as [_ Hc]. specialize (Hc n). cbn in Hc. rewrite lookup_insert in Hc.
      inversion Hc as [c1 x1 Hx1 E4 E5|]; subst. by exists x1. }
    destruct Hm as [k Hm]. cbn in Hm. destruct df, i; try done. clear Hm.
    destruct Hw as (Hs & Ht & Hn & He). rewrite (read_add_check_text s t n e Hs Ht Hn He) in Hr.
    destruct He as (l & Hl & _). rewrite Hl in Hr. cbn [mbind option_bind] in Hr.
    destruct (group l) as [[[|a0 a] []]|] eqn:Eg; try done. cbn. split_and!; [done|done|]. by exists l, (a0 :: a).
  - (* AddColumn *)
    destruct (read_add_column_text _ _ _ _ _ _ Hw) as (x & Hx1 & Hr'). rewrite Hr' in Hr. injection Hr as <-.
    destruct (table_effect _ _ _ _ _ _ _ _ Hwf Hd Ha Hx) as
      (sc & ss & tb & tb' & cols & cks & cols' & cks' & rels' & Hsc & Htb & Hdes & Hnd & Ht & Hk & Hal & G & _).
    cbn [alter] in Hal. destruct (cols !! n) eqn:En; [done|]. injection Hal as <- <- <-.
    apply G in Hd'; [|done]. destruct Hd' as [Hc _]. specialize (Hc n). rewrite lookup_insert in Hc.
    unfold add_column, has_column in Hk. cbn [col_name] in Hk.
    destruct (find_column n (tb_columns tb)) eqn:Ef; [done|]. injection Hk as <-.
    cbn [set_columns tb_columns] in Hc. rewrite find_column_app, Ef in Hc. cbn in Hc. rewrite decide_True in Hc by done.
    inversion Hc as [c1 x1 Hx2 E1 E2|]; subst. cbn in Hx2. apply column_meant_iff in Hx1 as (_ & E1 & _).
    apply column_meant_iff in Hx2 as (_ & E2 & _). rewrite <- E1 in E2. by destruct nn.
  - (* AddForeignKey *) by rewrite (read_add_foreign_key_text _ _ _ _ _ _ _ _ _ _ _ _ Hw) in Hr.
  - (* AddPrimaryKey *)
    destruct Hw as (Hs & Ht & Hn & Hcs). rewrite (proj1 (read_add_key_text s t n cs df i Hs Ht Hn Hcs)) in Hr.
    by destruct df, i, cs.
  - destruct Hw as (Hs & Ht & Hn & Hcs). rewrite (proj2 (read_add_key_text s t n cs df i Hs Ht Hn Hcs)) in Hr.
    by destruct df, i, cs.
  - (* AlterCheck *)
    destruct Hw as (Hs & Ht & Hn). destruct (read_alter_constraint_text s t n df i Hs Ht Hn) as [_ Hr'].
    cbn [render_sql] in Hr. rewrite Hr' in Hr. injection Hr as <-. cbn.
    eapply (alters_other_read s t n df i); try eassumption.
    intros c c' Hc x Hx'. destruct c; try done. injection Hc as <-. cbn in Hx'.
    destruct df, i; try done. cbn in Hx'. destruct (expression_meant _); [|done]. by injection Hx' as <-.
  - (* AlterForeignKey *)
    destruct Hw as (Hs & Ht & Hn). destruct (read_alter_constraint_text s t n df i Hs Ht Hn) as [_ Hr'].
    cbn [render_sql] in Hr. rewrite Hr' in Hr. injection Hr as <-. cbn.
    eapply (alters_other_read s t n df i); try eassumption.
    intros c c' Hc x Hx'. destruct c; try done. injection Hc as <-. revert Hx'. cbn.
    destruct (deferral_meant _ _); [|done]. cbn. destruct (match_meant _); [|done]. cbn.
    destruct (action_meant (fk_update _)); [|done]. cbn. destruct (action_meant _); [|done]. by intros [= <-].
  - destruct Hw as (Hs & Ht & Hn). destruct (read_alter_constraint_text s t n df i Hs Ht Hn) as [Hr' _].
    cbn [render_sql] in Hr. rewrite Hr' in Hr. by destruct df, i.
  - destruct Hw as (Hs & Ht & Hn). destruct (read_alter_constraint_text s t n df i Hs Ht Hn) as [Hr' _].
    cbn [render_sql] in Hr. rewrite Hr' in Hr. by destruct df, i.
  - (* CreateFunction *)
    assert (Hm : is_Some (function_meant body lang ret vol)).
    { apply with_schema_mut_inv in Ha as [(_ & _ & ?)|(sc & sc' & Hsc & Hk & ->)]; [done|].
      unfold add_function in Hk. cbn [fn_name] in Hk. destruct (has_function _ _); [done|]. injection Hk as <-.
      specialize (Hd' s). unfold put in Hd'. cbn in Hd'. rewrite lookup_insert in Hd'.
      inversion Hd' as [sc1 ss [_ Hf] E1 E2|]; subst. specialize (Hf f). cbn in Hf. rewrite lookup_insert in Hf.
      inversion Hf as [g x Hx1 E3 E4|]; subst. by exists x. }
    destruct Hm as [x Hm]. by rewrite (read_create_function_text _ _ _ _ _ _ _ Hw Hm) in Hr.
  - (* CreateIndex *)
    destruct (read_create_index_text _ _ _ _ _ _ Hw) as (m' & ls & _ & _ & Hr'). rewrite Hr' in Hr. by destruct ks.
  - (* CreateSchema *)
    destruct Hw as [l Hl]. rewrite (proj1 (read_schema_text n l Hl)) in Hr. cbn [sayable]. apply (schema_name n l Hl).
    destruct l as [|t [|]]; try done. exists t. split; [done|]. destruct (name_of t) as [k|]; [|done].
    cbn in Hr. injection Hr as <-. destruct (decide (k = n)) as [->|Hk]; [done|]. exfalso.
    cbn [perform] in Hx. passed Hx. injection Hx as <-.
    unfold add_schema, has_schema in Ha. cbn [schema_new sc_name] in Ha. destruct (db_schemas d !! n) eqn:En; [done|].
    injection Ha as <-. specialize (Hd n). specialize (Hd' n). rewrite En in Hd. cbn in Hd'. rewrite lookup_insert in Hd'.
    rewrite lookup_insert_ne in Hd' by done. inversion Hd as [|E1 E2]. rewrite <- E2 in Hd'. by inversion Hd'.
  - (* CreateTable *)
    destruct (read_create_table_text _ _ _ Hw) as (xs & Hxs & Hr'). rewrite Hr' in Hr. injection Hr as <-. cbn [sayable].
    cbn [perform] in Hx. passed Hx.
    destruct (schema_effect _ _ _ _ _ _ _ Hd Ha Hx) as (sc & sc' & ss & ss' & Hsc & Hss & Hdes & Hks & Hfs & G).
    apply G in Hd'. clear G. apply create_table_inv in Hks as (tb & Hcols & _ & _ & ->). apply added_state in Hfs as ->.
    apply schema_insert in Hd'; [|done]. destruct Hd' as [Hd' _].
    pose proof (created_columns _ _ _ _ _ Hcols) as Ec. rewrite Ec in Hd'. cbn [table_new tb_columns app] in Hd'.
    assert (Hnd : NoDup (cc_name <$> cs)).
    { apply bool_decide_eq_true in Heqb.
      assert (Ex : cc_name <$> cs = xs.*1).
      { clear -Hxs. apply mapM_Some in Hxs. induction Hxs as [|c x cs xs Hc _ IH]; [done|].
        destruct (column_meant _ _ _); [|done]. injection Hc as <-. cbn. by f_equal. }
      by rewrite Ex. }
    apply Forall_forall. intros c Hc. specialize (Hd' (cc_name c)).
    pose proof (created_described s t ((fun c => CreateTableColumn (cc_name c) (cc_type c) false (cc_default c)) <$> cs) xs) as Hq.
    assert (Hfind : forall g : create_table_column -> create_table_column, (forall c, cc_name (g c) = cc_name c) ->
      find_column (cc_name c) (make_column s t <$> (g <$> cs)) = Some (make_column s t (g c))).
    { intros g Hg. clear -Hnd Hc Hg. induction cs as [|c' cs IH]; [by apply elem_of_nil in Hc|].
      cbn. apply NoDup_cons in Hnd as [Hn Hnd]. apply elem_of_cons in Hc as [->|Hc].
      - by rewrite decide_True by apply Hg.
      - rewrite decide_False; [by apply IH|]. rewrite Hg. intros E. apply Hn. rewrite E. by apply elem_of_list_fmap_1. }
    rewrite mapM_map in Hq. specialize (Hq Hxs (cc_name c)).
    rewrite (Hfind (fun c => CreateTableColumn (cc_name c) (cc_type c) false (cc_default c))) in Hq by done.
    specialize (Hfind id (fun _ => eq_refl)). rewrite list_fmap_id in Hfind. rewrite Hfind in Hd'.
    inversion Hq as [c1 x1 Hx1 E1 E2|]; subst. rewrite <- E2 in Hd'. inversion Hd' as [c2 x2 Hx2 E3 E4|]; subst.
    cbn in Hx1, Hx2. apply column_meant_iff in Hx1 as (_ & E5 & _). apply column_meant_iff in Hx2 as (_ & E6 & _). congruence.
  - (* DropSchema *)
    destruct Hw as [l Hl]. rewrite (proj2 (read_schema_text n l Hl)) in Hr. cbn [sayable]. apply (schema_name n l Hl).
    destruct l as [|t [|]]; try done. exists t. split; [done|]. destruct (name_of t) as [k|]; [|done].
    cbn in Hr. injection Hr as <-. destruct (decide (k = n)) as [->|Hk]; [done|]. exfalso.
    cbn [perform] in Hx. destruct (sv !! k); [|done]. cbn [mbind option_bind] in Hx. passed Hx. injection Hx as <-.
    unfold mthen, remove_schema, mok in Ha. destruct (db_schemas d !! n) eqn:En; [|done].
    injection Ha as <-. specialize (Hd n). specialize (Hd' n). rewrite En in Hd. cbn in Hd'. rewrite lookup_delete in Hd'.
    rewrite lookup_delete_ne in Hd' by done. inversion Hd as [x y Hxy E1 E2|]. rewrite <- E2 in Hd'. by inversion Hd'.
Qed.

Theorem obey_iff c d sv d' sv' :
  well_spelled c -> wf_db d -> described d sv -> apply c d = (d', Ok ()) -> obey (render_sql c) sv = Some sv' ->
  (described d' sv' <-> sayable c /\ plain_effect c d).
Proof.
  intros Hw Hwf Hd Ha Ho.
  assert (E : sayable c -> (described d' sv' <-> plain_effect c d)).
  { intros Hs. apply (says_iff c Hw) in Hs as (st & Hm & Hr). destruct (obey_reads _ _ _ Ho) as (st' & Hr' & Hx).
    rewrite Hr in Hr'. injection Hr' as <-. by eapply effect_iff. }
  split.
  - intros Hd'. assert (Hs : sayable c) by by eapply described_sayable. split; [done|]. by apply E.
  - intros [Hs Hp]. by apply E.
Qed.
