(** An index on a column that the server does not have yet. *)
From Verif Require Import Base Text Types Changes SpecSnapshot SpecDiff Diff SpecSql SpecLex SpecStatement SpecServer SpecSpelled SpecNull
  SpecAccept SpecAdd Sql SpecDb ServerLemmas AcceptLemmas SpelledLemmas ObeyLemmas NullLemmas NullDiff AddLemmas InvertLemmas DiffRollback SayLemmas SpecIndexed IndexedLemmas.

Lemma server_column_none d sv n b x : described d sv -> column_at d n b x = None -> server_column sv n b x = None.
Proof.
  intros Hd Hx. unfold server_column. unfold column_at, relation_at in Hx. specialize (Hd n).
  destruct (db_schemas d !! n) as [sc|], (sv !! n) as [ss|]; inversion Hd as [a a' Hs E1 E2|]; subst; [|done]. cbn in *.
  destruct Hs as [Hr _]. specialize (Hr b).
  destruct (sc_relations sc !! b) as [r|], (ss_relations ss !! b) as [r'|]; inversion Hr as [a a' Hrr E1 E2|]; subst; [|done].
  destruct r as [tb| | |], r' as [cols cks| | |]; try done. destruct Hrr as [Hc _]. specialize (Hc x). rewrite Hx in Hc.
  by inversion Hc.
Qed.
Lemma index_on_server os ot s t sv sv' n k i b x :
  wf_db s -> wf_db t -> spelled_db s -> spelled_db t -> described s sv -> only_adds s t -> new_sayable s t -> indexes_safe s t -> new_sequences_unowned s t ->
  relation_at s n k = None -> relation_at t n k = Some (RIndex i) ->
  table_at s n b -> table_at t n b -> column_at s n b x = None -> is_Some (column_at t n b x) ->
  runs obey (render_sql <$> compare_diff os ot s t) sv sv' ->
  exists pre post sv1, compare_diff os ot s t = pre ++ CreateIndex n (ix_table i) k (ix_unique i) (ix_method i) (ix_keys i) :: post /\
    runs obey (render_sql <$> pre) sv sv1 /\ server_column sv1 n b x = None.
Proof.
  intros Hs Ht Ps Pt Hd Had Hn Hix Hq Hk Hi Ta Tb Hx Hcx Hr.
  destruct (adds_run os ot s t Hs Ht Had Hix Hq) as [Ha _].
  destruct (index_without_column os ot s t _ n k i b x Hs Ht Hk Hi Ta Tb Hx Hcx Ha) as (pre & post & d & E & _ & H3 & H4).
  pose proof (diff_added s t Hs Ht Had os ot) as Hadd. pose proof (diff_spelled os ot s t Hs Ht Ps Pt) as Hsp.
  rewrite E in Hr, Hadd, Hsp. rewrite fmap_app in Hr. apply runs_app in Hr as (sv1 & Hr1 & _).
  apply Forall_app in Hadd as [Hadd _]. apply Forall_app in Hsp as [Hsp _].
  exists pre, post, sv1. split; [done|]. split; [done|].
  assert (Hd0 : described (renull (not_null_in s) s) sv).
  { rewrite renull_same; [done|done|]. intros s' t' x' c Hc. unfold not_null_in. by rewrite Hc. }
  pose proof (runs_null pre _ s sv d sv1 Hsp Hs Hd0 (adds_faithful s t pre s Hn Hadd) H3 Hr1) as Hd1.
  apply (server_column_none _ _ _ _ _ Hd1). rewrite column_at_renull, H4; [done|]. by apply (DiffRollback.apply_all_wf pre s).
Qed.
Lemma index_refused {S} (sem : str -> S -> option S) view os ot s t u n k i x y e :
  obedient sem view -> indexes_checked sem view ->
  wf_db s -> wf_db t -> spelled_db s -> spelled_db t -> described s (view u) ->
  only_adds s t -> new_sayable s t -> indexes_safe s t -> new_sequences_unowned s t -> keys_fit t -> new_valid s t ->
  relation_at s n k = None -> relation_at t n k = Some (RIndex i) -> y ∈ ix_keys i -> lex y = Some [e] -> name_of e = Some x ->
  table_at s n (ix_table i) -> table_at t n (ix_table i) -> column_at s n (ix_table i) x = None -> is_Some (column_at t n (ix_table i) x) ->
  ~ exists u', runs sem (render_sql <$> compare_diff os ot s t) u u'.
Proof.
  intros Ho Hc Hs Ht Ps Pt Hd Had Hn Hix Hq Hk' Hv Hk Hi Hy Hl He Ta Tb Hx Hcx [u' Hr].
  destruct (adds_carried_out os ot s t (view u) Hs Ht Ps Pt Hd Had Hn Hix Hq Hk' Hv) as (sv' & Hr' & _).
  destruct (index_on_server os ot s t (view u) sv' n k i (ix_table i) x Hs Ht Ps Pt Hd Had Hn Hix Hq Hk Hi Ta Tb Hx Hcx Hr') as (pre & post & sv1 & E & R1 & H1).
  pose proof (diff_spelled os ot s t Hs Ht Ps Pt) as Hsp. rewrite E in Hr, Hsp. rewrite fmap_app in Hr. apply runs_app in Hr as (u1 & Ra & Rb).
  apply Forall_app in Hsp as [Hsp Hsp2]. apply Forall_cons in Hsp2 as [Hci _].
  pose proof (obedient_runs sem view pre u u1 sv1 Ho Hsp Ra R1) as Ev. rewrite fmap_cons in Rb.
  inversion Rb as [|stmt stmts u0 u2 u3 H3 H4]; subst. clear Rb.
  destruct (read_create_index_text _ _ _ _ _ _ Hci) as (m' & ls & _ & Hls & Hread).
  destruct (ix_keys i) as [|y0 ys] eqn:Ek; [by apply elem_of_nil in Hy|].
  assert (Hin : [e] ∈ ls).
  { rewrite <- Ek in Hls, Hy. apply mapM_Some in Hls. clear - Hls Hy Hl. induction Hls as [|a b l l' Hab _ IH]; [by apply elem_of_nil in Hy|].
    apply elem_of_cons in Hy as [->|Hy]; [apply elem_of_cons; left; congruence|apply elem_of_cons; right; by apply IH]. }
  destruct (Hc _ _ _ _ _ _ _ _ _ e x H3 Hread Hin He) as [z Hz]. congruence.
Qed.
