(** Facts about trimming, splitting and column expressions. *)
From Verif Require Import Base Text Types Node Yaml Regex SpecRegex RegexLemmas Ddl ColumnRegex SpecDefinition.

Lemma trim_start_head s : (forall c, head s = Some c -> is_ws c = false) -> trim_start s = s.
Proof. destruct s as [|c s]; [done|]. intros H. simpl. by rewrite (H c). Qed.

Lemma trim_start_spec s :
  exists w, s = w ++ trim_start s /\ Forall (fun c => is_ws c = true) w /\
    (forall c, head (trim_start s) = Some c -> is_ws c = false).
Proof.
  induction s as [|c s (w & Hs & Hw & Hh)]; [by exists []|]. simpl.
  destruct (is_ws c) eqn:Hc.
  - exists (c :: w). split; [by simpl; f_equal|]. split; [by constructor|done].
  - exists []. split; [done|]. split; [constructor|]. by intros ? [= <-].
Qed.

Lemma trim_start_idem s : trim_start (trim_start s) = trim_start s.
Proof. apply trim_start_head. by destruct (trim_start_spec s) as (w & _ & _ & H). Qed.

Lemma trim_start_ws w s : Forall (fun c => is_ws c = true) w -> trim_start (w ++ s) = trim_start s.
Proof. induction 1 as [|c w Hc _ IH]; [done|]. simpl. by rewrite Hc. Qed.

Lemma last_reverse {A} (l : list A) : last (reverse l) = head l.
Proof. destruct l as [|a l]; [done|]. rewrite reverse_cons. by rewrite last_snoc. Qed.
Lemma head_reverse {A} (l : list A) : head (reverse l) = last l.
Proof. rewrite <- (reverse_involutive l) at 2. by rewrite last_reverse. Qed.

Lemma trim_end_last s : (forall c, last s = Some c -> is_ws c = false) -> trim_end s = s.
Proof.
  intros H. unfold trim_end. rewrite trim_start_head; [by rewrite reverse_involutive|].
  intros c. rewrite head_reverse. apply H.
Qed.

Lemma trim_end_spec s :
  exists w, s = trim_end s ++ w /\ Forall (fun c => is_ws c = true) w /\
    (forall c, last (trim_end s) = Some c -> is_ws c = false).
Proof.
  destruct (trim_start_spec (reverse s)) as (w & Hs & Hw & Hh). exists (reverse w).
  unfold trim_end. split; [|split].
  - rewrite <- reverse_app, <- Hs. by rewrite reverse_involutive.
  - by apply Forall_reverse.
  - intros c. rewrite last_reverse. apply Hh.
Qed.

Lemma trim_end_ws s w : Forall (fun c => is_ws c = true) w -> trim_end (s ++ w) = trim_end s.
Proof.
  intros H. unfold trim_end. rewrite reverse_app, trim_start_ws; [done|]. by apply Forall_reverse.
Qed.

Lemma head_app_ne {A} (a b : list A) : a <> [] -> head (a ++ b) = head a.
Proof. by destruct a. Qed.

Lemma trim_bare s : bare (trim s).
Proof.
  unfold trim. destruct (trim_start_spec s) as (w & _ & _ & Hh).
  destruct (trim_end_spec (trim_start s)) as (v & Hv & _ & Hl). split; [|done].
  intros c Hc. apply Hh. rewrite Hv. rewrite head_app_ne; [done|]. by intros Hn; rewrite Hn in Hc.
Qed.

Lemma trim_id s : bare s -> trim s = s.
Proof.
  intros [Hh Hl]. unfold trim. rewrite (trim_start_head s Hh). by apply trim_end_last.
Qed.

Lemma trim_id_iff s : trim s = s <-> bare s.
Proof. split; [intros <-; apply trim_bare|apply trim_id]. Qed.

Lemma trim_start_nil s : trim_start s = [] <-> Forall (fun c => is_ws c = true) s.
Proof.
  split.
  - destruct (trim_start_spec s) as (w & Hs & Hw & _). intros Hn. rewrite Hn, app_nil_r in Hs. by subst.
  - intros H. rewrite <- (app_nil_r s). by rewrite trim_start_ws.
Qed.

Lemma trim_space s : trim (32%N :: s) = trim s.
Proof. done. Qed.

Lemma trim_start_app s t : trim_start s <> [] -> trim_start (s ++ t) = trim_start s ++ t.
Proof. induction s as [|c s IH]; [done|]. simpl. by destruct (is_ws c). Qed.

Lemma trim_snoc_space s : trim (s ++ [32%N]) = trim s.
Proof.
  unfold trim. destruct (decide (trim_start s = [])) as [Hn|Hn].
  - rewrite Hn. assert (trim_start (s ++ [32%N]) = []) as ->; [|done].
    apply trim_start_nil, Forall_app. split; [by apply trim_start_nil|]. by constructor.
  - rewrite trim_start_app by done. apply trim_end_ws. by constructor.
Qed.

(** ** Column expressions *)
Lemma span_type_app ty rest :
  lacks 61 ty -> lacks 33 ty -> (forall c, head rest = Some c -> c = 61%N \/ c = 33%N) ->
  span_type (ty ++ rest) = (ty, rest).
Proof.
  intros H1 H2 Hr. induction ty as [|c ty IH]; simpl.
  - destruct rest as [|c rest]; [done|]. simpl. by destruct (Hr c eq_refl) as [->| ->].
  - rewrite IH.
    + destruct ((c =? 61)%N || (c =? 33)%N) eqn:Hc; [|done].
      apply orb_true_iff in Hc as [->%N.eqb_eq| ->%N.eqb_eq].
      * by destruct H1; left.
      * by destruct H2; left.
    + intros ?. by apply H1; right.
    + intros ?. by apply H2; right.
Qed.

Lemma span_type_spec s :
  s = (span_type s).1 ++ (span_type s).2 /\ lacks 61 (span_type s).1 /\ lacks 33 (span_type s).1.
Proof.
  induction s as [|c s (IH1 & IH2 & IH3)]; simpl.
  - split; [done|]. split; apply not_elem_of_nil.
  - destruct ((c =? 61)%N || (c =? 33)%N) eqn:Hc; simpl.
    + split; [done|]. split; apply not_elem_of_nil.
    + apply orb_false_iff in Hc as [Hc1%N.eqb_neq Hc2%N.eqb_neq].
      destruct (span_type s) as [a b]. simpl in *. split; [by f_equal|].
      split; apply not_elem_of_cons; split; by try congruence.
Qed.

Lemma last_cons_bare (d : str) c : bare d -> d <> [] -> last d = Some c -> is_ws c = false.
Proof. intros [_ H] _. apply H. Qed.

Lemma match_default_ok d : bare d -> lacks 10 d -> match_default (32%N :: d) = Some d.
Proof.
  intros Hb Hl. unfold match_default. simpl. rewrite (trim_start_head d (proj1 Hb)).
  destruct d as [|c d]; [done|].
  rewrite decide_False by exact Hl. by rewrite trim_id.
Qed.

Lemma match_default_inv d d' : match_default (32%N :: d) = Some d' -> bare d' /\ lacks 10 d'.
Proof.
  unfold match_default. simpl trim_start. destruct (trim_start d) as [|c s] eqn:Hs.
  - destruct (last _); [|done]. destruct (_ =? _)%N; [done|]. intros [= <-].
    split; [|apply not_elem_of_nil]. by split.
  - destruct (decide _) as [|Hn]; [done|]. intros [= <-]. split; [apply trim_bare|].
    intros Hin. apply Hn. unfold trim in Hin.
    destruct (trim_start_spec (c :: s)) as (w & Hw & _).
    destruct (trim_end_spec (trim_start (c :: s))) as (v & Hv & _).
    rewrite Hw, Hv. apply elem_of_app. right. apply elem_of_app. by left.
Qed.

Lemma render_expr_eq ty nn d :
  render_column_expression ty nn d =
  ty ++ (if nn then [33%N] else []) ++ match d with Some d => 32%N :: 61%N :: 32%N :: d | None => [] end.
Proof. by destruct nn, d. Qed.

Lemma column_round_trip ty nn d :
  column_writable ty nn d ->
  parse_column_expression (render_column_expression ty nn d) = Done (ty, nn, d).
Proof.
  intros (H1 & H2 & Hb & Hne & Hd). rewrite render_expr_eq, parse_column_expression_eq. unfold read_column_expression.
  destruct nn.
  - destruct Hne as [Hne|[? _]]; [|done].
    rewrite span_type_app; [|done|done|intros c [= <-]; by right].
    destruct ty as [|c0 ty0]; [done|]. rewrite trim_id by done. cbn -[match_default].
    destruct d as [d|]; [|done]. cbn -[match_default].
    destruct (Hd d eq_refl). by rewrite match_default_ok.
  - destruct d as [d|].
    + change ([] ++ 32%N :: 61%N :: 32%N :: d) with ([32%N] ++ 61%N :: 32%N :: d). rewrite app_assoc.
      rewrite span_type_app; [| | |intros c [= <-]; by left].
      * assert (trim (ty ++ [32%N]) = ty) as Ht by (rewrite trim_snoc_space; by apply trim_id).
        rewrite Ht. destruct (Hd d eq_refl) as [Hd1 Hd2].
        destruct (ty ++ [32%N]) as [|c0 ty0] eqn:E; [by destruct ty|].
        cbn -[match_default]. by rewrite match_default_ok.
      * intros [?|Hx%elem_of_list_singleton]%elem_of_app; [by apply H1|done].
      * intros [?|Hx%elem_of_list_singleton]%elem_of_app; [by apply H2|done].
    + destruct Hne as [Hne|[_ ?]]; [|done].
      rewrite !app_nil_r. rewrite <- (app_nil_r ty) at 1. rewrite span_type_app by done.
      destruct ty as [|c0 ty0]; [done|]. by rewrite trim_id.
Qed.

Lemma trim_lacks x s : lacks x s -> lacks x (trim s).
Proof.
  intros Hx Hin. apply Hx. unfold trim in Hin.
  destruct (trim_start_spec s) as (w & Hw & _).
  destruct (trim_end_spec (trim_start s)) as (v & Hv & _).
  rewrite Hw, Hv. apply elem_of_app. right. apply elem_of_app. by left.
Qed.

Lemma parsed_column_writable e ty nn d :
  parse_column_expression e = Done (ty, nn, d) -> lacks 61 ty /\ lacks 33 ty /\ bare ty.
Proof.
  rewrite parse_column_expression_eq. unfold read_column_expression. destruct (span_type_spec e) as (_ & H1 & H2).
  destruct (span_type e) as [ty0 rest]. simpl in *. destruct ty0 as [|c ty0]; [done|].
  destruct (match rest with [] => _ | _ => _ end) as [nn0 rest0].
  destruct (match_rest rest0) as [d0|]; [|done].
  intros [= <- -> ->]. split; [by apply trim_lacks|]. split; [by apply trim_lacks|apply trim_bare].
Qed.

Lemma column_round_trip_inv ty nn d :
  parse_column_expression (render_column_expression ty nn d) = Done (ty, nn, d) ->
  column_writable ty nn d.
Proof.
  intros H. pose proof (parsed_column_writable _ _ _ _ H) as (H1 & H2 & Hb).
  split; [done|]. split; [done|]. split; [done|].
  rewrite render_expr_eq, parse_column_expression_eq in H. unfold read_column_expression in H.
  destruct nn.
  - rewrite span_type_app in H; [|done|done|intros c [= <-]; by right].
    destruct ty as [|c0 ty0]; [done|]. split; [by left|].
    cbn -[match_default] in H. intros x ->. cbn -[match_default] in H.
    destruct (match_default (32%N :: x)) as [x'|] eqn:Hx; [|done]. simpl in H.
    injection H as _ ->. by eapply match_default_inv.
  - destruct d as [d|].
    + change ([] ++ 32%N :: 61%N :: 32%N :: d) with ([32%N] ++ 61%N :: 32%N :: d) in H. rewrite app_assoc in H.
      rewrite span_type_app in H; [| | |intros c [= <-]; by left].
      * destruct (ty ++ [32%N]) as [|c0 ty0] eqn:E; [by destruct ty|].
        cbn -[match_default] in H.
        destruct (match_default (32%N :: d)) as [x'|] eqn:Hx; [|done]. simpl in H.
        injection H as _ ->. split; [by right|]. intros ? [= <-]. by eapply match_default_inv.
      * intros [?|Hx%elem_of_list_singleton]%elem_of_app; [by apply H1|done].
      * intros [?|Hx%elem_of_list_singleton]%elem_of_app; [by apply H2|done].
    + rewrite !app_nil_r in H. rewrite <- (app_nil_r ty) in H at 1.
      rewrite span_type_app in H by done. destruct ty as [|c0 ty0]; [done|].
      split; [by left|done].
Qed.

Lemma column_round_trip_iff ty nn d :
  parse_column_expression (render_column_expression ty nn d) = Done (ty, nn, d) <->
  column_writable ty nn d.
Proof. split; [apply column_round_trip_inv|apply column_round_trip]. Qed.

(** ** The readings of a column expression *)
Lemma trim_blank w s : blank w -> trim (w ++ s) = trim s.
Proof. intros H. unfold trim. by rewrite trim_start_ws. Qed.
Lemma trim_blank_end s w : blank w -> trim (s ++ w) = trim s.
Proof.
  intros Hw. unfold trim. destruct (decide (trim_start s = [])) as [Hn|Hn].
  - rewrite Hn. assert (trim_start (s ++ w) = []) as ->; [|done].
    apply trim_start_nil, Forall_app. split; [by apply trim_start_nil|done].
  - rewrite trim_start_app by done. by apply trim_end_ws.
Qed.
Lemma stripped_iff s t : stripped s t <-> trim s = t.
Proof.
  split.
  - intros (Hb & w1 & w2 & H1 & H2 & ->). rewrite trim_blank, trim_blank_end by done. by apply trim_id.
  - intros <-. split; [apply trim_bare|]. unfold trim.
    destruct (trim_start_spec s) as (w & Hw & Hws & _).
    destruct (trim_end_spec (trim_start s)) as (v & Hv & Hvs & _).
    exists w, v. split; [done|]. split; [done|]. by rewrite <- Hv.
Qed.

Lemma match_default_iff r d :
  match_default r = Some d <->
  exists w v, r = w ++ v /\ blank w /\ v <> [] /\ lacks 10 v /\ stripped v d.
Proof.
  unfold match_default. split.
  - destruct (trim_start_spec r) as (w & Hr & Hw & Hh). destruct (trim_start r) as [|c s] eqn:E.
    + rewrite app_nil_r in Hr. subst w. destruct r as [|z r _] using rev_ind; [done|]. rewrite last_snoc.
      destruct (z =? 10)%N eqn:Ez; [done|]. intros [= <-]. apply N.eqb_neq in Ez. apply Forall_app in Hw as [Hw Hz].
      exists r, [z]. split; [done|]. split; [done|]. split; [done|]. split.
      * by intros ?%elem_of_list_singleton.
      * split; [by split|]. exists [z], []. split; [exact Hz|]. split; [constructor|done].
    + destruct (decide _) as [|Hn]; [done|]. intros [= <-]. exists w, (c :: s). split; [done|]. split; [done|].
      split; [done|]. split; [done|]. by apply stripped_iff.
  - intros (w & v & -> & Hw & Hne & Hl & <-%stripped_iff). rewrite trim_start_ws by done.
    destruct (trim_start_spec v) as (u & Hv & Hu & _). destruct (trim_start v) as [|c s] eqn:E.
    + rewrite app_nil_r in Hv. subst u. assert (trim v = []) as -> by (unfold trim; by rewrite E).
      destruct v as [|z v _] using rev_ind; [done|]. rewrite (assoc_L (++)), last_snoc.
      rewrite (proj2 (N.eqb_neq _ _)); [done|]. intros ->. apply Hl, elem_of_app. right. by apply elem_of_list_singleton.
    + rewrite decide_False.
      * f_equal. rewrite Hv. by rewrite trim_blank.
      * intros Hin. apply Hl. rewrite Hv. apply elem_of_app. by right.
Qed.

Lemma blank_lacks c w : is_ws c = false -> blank w -> lacks c w.
Proof. intros Hc Hw Hin. unfold blank in Hw. rewrite Forall_forall in Hw. specialize (Hw c Hin). congruence. Qed.

Lemma match_rest_equals w s : blank w -> match_rest (w ++ L "=" ++ s) = Some <$> match_default s.
Proof.
  intros Hw. unfold match_rest. rewrite trim_start_ws by done.
  destruct (w ++ L "=" ++ s) as [|x r] eqn:E; [by destruct w|done].
Qed.

Lemma column_reading_iff e ty nn d :
  parse_column_expression e = Done (ty, nn, d) <-> column_reading e ty nn d.
Proof.
  rewrite parse_column_expression_eq. unfold read_column_expression. split.
  - destruct (span_type_spec e) as (He & H1 & H2). destruct (span_type e) as [t rest]. cbn [fst snd] in *.
    destruct t as [|c t]; [done|]. set (t' := c :: t) in *.
    destruct (match rest with [] => _ | _ => _ end) as [nn0 r] eqn:Em.
    assert (rest = (if nn0 then L "!" else []) ++ r) as Hrest.
    { destruct rest as [|x rest]; [by injection Em as <- <-|].
      destruct (x =? 33)%N eqn:E; injection Em as <- <-; [|done]. by apply N.eqb_eq in E as ->. }
    destruct (match_rest r) as [d0|] eqn:Er; [|done]. intros [= <- -> ->]. exists t', r.
    split; [by rewrite <- Hrest|]. split; [done|]. split; [done|]. split; [done|].
    split; [by apply stripped_iff|]. unfold match_rest in Er. destruct r as [|x r]; [by injection Er as <-|].
    destruct (trim_start_spec (x :: r)) as (w & Hr & Hw & _). destruct (trim_start (x :: r)) as [|y r']; [done|].
    destruct (y =? 61)%N eqn:E; [|done]. apply N.eqb_eq in E as ->.
    destruct (match_default r') as [v|] eqn:Ed; [|done]. injection Er as <-.
    apply match_default_iff in Ed as (w2 & v0 & -> & Hw2 & Hne & Hl & Hs). exists w, w2, v0. done.
  - intros (t & r & -> & Hne & H1 & H2 & <-%stripped_iff & Hd).
    destruct nn.
    + rewrite span_type_app; [|done|done|intros c [= <-]; by right]. destruct t as [|c t]; [done|].
      change (match L "!" ++ r with [] => _ | _ => _ end) with (true, r). cbv iota. destruct d as [d|].
      * destruct Hd as (w1 & w2 & v & -> & Hw1 & Hw2 & Hv & Hl & Hs).
        rewrite match_rest_equals by done.
        assert (match_default (w2 ++ v) = Some d) as -> by (apply match_default_iff; by exists w2, v). done.
      * by rewrite Hd.
    + cbn [app]. destruct d as [d|].
      * destruct Hd as (w1 & w2 & v & -> & Hw1 & Hw2 & Hv & Hl & Hs). rewrite (assoc_L (++)).
        rewrite span_type_app; [| | |intros c [= <-]; by left].
        -- rewrite trim_blank_end by done. destruct (t ++ w1) as [|c t'] eqn:E; [by destruct t|].
           change (match L "=" ++ w2 ++ v with [] => _ | _ => _ end) with (false, 61%N :: w2 ++ v). cbv iota.
           change (match_rest (61%N :: w2 ++ v)) with (Some <$> match_default (w2 ++ v)).
           assert (match_default (w2 ++ v) = Some d) as -> by (apply match_default_iff; by exists w2, v). done.
        -- intros [?|Hx]%elem_of_app; [by apply H1|]. exact (blank_lacks 61 w1 eq_refl Hw1 Hx).
        -- intros [?|Hx]%elem_of_app; [by apply H2|]. exact (blank_lacks 33 w1 eq_refl Hw1 Hx).
      * rewrite Hd. rewrite span_type_app by done. destruct t as [|c t]; done.
Qed.

Lemma column_reading_one e ty nn d ty' nn' d' :
  column_reading e ty nn d -> column_reading e ty' nn' d' -> ty' = ty /\ nn' = nn /\ d' = d.
Proof. intros H1%column_reading_iff H2%column_reading_iff. rewrite H1 in H2. by injection H2 as -> -> ->. Qed.

Lemma column_rejected_iff e :
  parse_column_expression e = Fail (InvalidTypeExpression e) <-> ~ exists ty nn d, column_reading e ty nn d.
Proof.
  split.
  - intros H (ty & nn & d & H'%column_reading_iff). by rewrite H in H'.
  - intros H. destruct (parse_column_expression e) as [[[ty nn] d]| |] eqn:E.
    + destruct H. exists ty, nn, d. by apply column_reading_iff.
    + rewrite parse_column_expression_eq in E. unfold read_column_expression in E. repeat case_match; congruence.
    + rewrite parse_column_expression_eq in E. unfold read_column_expression in E. repeat case_match; congruence.
Qed.

(** The expressions that are accepted are those that the regular expression matches. *)
Lemma column_language e :
  (exists ty nn d, parse_column_expression e = Done (ty, nn, d)) <->
  exists b w a, e = b ++ w ++ a /\ spans column_regex b w a.
Proof.
  rewrite <- regex_captures_iff. split.
  - intros (ty & nn & d & H) Hn. unfold parse_column_expression in H. by rewrite Hn in H.
  - intros H. destruct (parse_column_expression e) as [[[ty nn] d]| |] eqn:E.
    + by exists ty, nn, d.
    + unfold parse_column_expression in E. destruct (regex_captures column_regex e) as [c|]; [|done].
      by destruct (capture (L "type") c).
    + rewrite parse_column_expression_eq in E. unfold read_column_expression in E. repeat case_match; congruence.
Qed.
