(** Definition files that abort the program. *)
From Verif Require Import Base Text Types Changes SpecSnapshot SpecMerge Load Node Yaml Ddl History Expand Project SnapshotExamples SpecDefinition
  SpecMeaning MeaningLemmas DefinitionExamples Definitions SpecDefinitions DefinitionsLemmas DefinitionsExamples.

Lemma load_texts_aborts dc i d texts :
  load_texts dc i d texts = Abort <->
  exists pre text post d' m, texts = pre ++ text :: post /\ load_texts dc i d pre = Ret d' /\ dc_read dc text = Some m /\
    (child_aborts (YMap m) \/ exists l, nodes_mean m l /\ document_aborts l).
Proof.
  revert i d. induction texts as [|t texts IH]; intros i d.
  { split; [done|]. intros (pre & text & post & d' & m & H & _). by destruct pre. }
  cbn [load_texts]. split.
  - intros H. destruct (dc_read dc t) as [m|] eqn:Er; [|done].
    destruct (load_document (dc_load_order dc i) m) as [f|e|] eqn:El; cbn in H.
    + destruct (database_merge (dc_load_order dc i) f d) as [d1 [[]|e]] eqn:Em; [|done].
      apply IH in H as (pre & text & post & d' & m' & -> & H1 & H2 & H3).
      exists (t :: pre), text, post, d', m'. split; [done|]. split; [|done]. cbn [load_texts]. rewrite Er, El. cbn. by rewrite Em.
    + by destruct e.
    + exists [], t, texts, d, m. split; [done|]. split; [done|]. split; [done|]. by apply (load_Panic (dc_load_order dc i)).
  - intros (pre & text & post & d' & m & H & H1 & H2 & H3). destruct pre as [|p pre].
    + injection H as -> ->. rewrite H2. apply (load_Panic (dc_load_order dc i)) in H3. by rewrite H3.
    + injection H as -> ->. cbn [load_texts] in H1. destruct (dc_read dc p) as [m'|]; [|done].
      destruct (load_document (dc_load_order dc i) m') as [f|e|]; cbn in H1 |- *; [|by destruct e|done].
      destruct (database_merge (dc_load_order dc i) f d) as [d1 [[]|e]]; [|done].
      apply IH. by exists pre, text, post, d', m.
Qed.
Lemma directory_aborts_iff dc fs :
  load_definition_files dc fs = Abort <->
  fs !! [] = Some Directory /\ exists pre text post d m, definition_texts dc fs = pre ++ text :: post /\
    load_texts dc 0 database_new pre = Ret d /\ dc_read dc text = Some m /\
    (child_aborts (YMap m) \/ exists l, nodes_mean m l /\ document_aborts l).
Proof.
  unfold load_definition_files. case_decide as D; [|by split; [|intros [? _]]]. rewrite load_texts_aborts. naive_solver.
Qed.
Lemma definition_texts_at dc fs text : text ∈ definition_texts dc fs <-> exists q, definition_at fs q text.
Proof.
  rewrite texts_read. rewrite elem_of_list_fmap. split.
  - intros ([q x] & -> & H%elem_of_map_to_list%read_files_iff). by exists q.
  - intros [q H%(read_files_iff dc)]. exists (q, text). split; [done|]. by apply elem_of_map_to_list.
Qed.
Lemma directory_aborts_file dc fs :
  load_definition_files dc fs = Abort -> exists q text m, definition_at fs q text /\ dc_read dc text = Some m /\
    (child_aborts (YMap m) \/ exists l, nodes_mean m l /\ document_aborts l).
Proof.
  intros (_ & pre & text & post & d & m & E & _ & H1 & H2)%directory_aborts_iff.
  assert (text ∈ definition_texts dc fs) as [q Hq]%definition_texts_at by (rewrite E; apply elem_of_app; right; by left).
  by exists q, text, m.
Qed.
(** A directory with a single definition file. *)
Lemma directory_aborts_only dc fs q text m :
  fs !! [] = Some Directory -> (forall q' text', definition_at fs q' text' <-> q' = q /\ text' = text) ->
  dc_read dc text = Some m -> child_aborts (YMap m) \/ (exists l, nodes_mean m l /\ document_aborts l) ->
  load_definition_files dc fs = Abort.
Proof.
  intros Hd Hq Hr Hm. apply directory_aborts_iff. split; [done|].
  destruct (definition_texts dc fs) as [|t ts] eqn:E.
  - assert (text ∈ definition_texts dc fs) as H by (apply definition_texts_at; exists q; by apply Hq). rewrite E in H. by apply elem_of_nil in H.
  - assert (t ∈ definition_texts dc fs) as [q' [_ ->]%Hq]%definition_texts_at by (rewrite E; by left).
    by exists [], text, ts, database_new, m.
Qed.

Definition dy_documents : documents.
Proof. by refine (Documents (fun _ => Some p_index) (fun _ => []) map_to_list _ (fun _ => any_order) any_order). Defined.
Definition dy_files : filesystem := {[ [] := Directory; [L "public.yaml"] := Bytes (L "schema public: {index i: {unique: true}}") ]}.
Lemma ex_directory_aborts : load_definition_files dy_documents dy_files = Abort.
Proof. vm_compute. reflexivity. Qed.
