(** The defaults of a sequence definition. *)
From Verif Require Import Base Text Types Changes SpecSnapshot Node Yaml SpecDefinition Ddl
  ParseLemmas PanicLemmas ContentLemmas.

Lemma sq_step_omits st c st' : sq_step st c = Done st' ->
  (n_type c <> L "minvalue" -> ss_min st' = ss_min st) /\
  (n_type c <> L "maxvalue" -> ss_max st' = ss_max st) /\
  (n_type c <> L "start" -> ss_start st' = ss_start st).
Proof.
  destruct st as [ty inc mn mx start cache cycle ot oc]. unfold sq_step, of_type. intros H.
  repeat (case_bool_decide; [
    first [apply bind_inv in H as ([? ?] & _ & [= <-])|apply bind_inv in H as (? & _ & [= <-])];
    split; [|split]; simpl; congruence|]). done.
Qed.

Lemma sq_run_omits l st st' : run sq_step st l = Done st' ->
  (Forall (fun c => n_type c <> L "minvalue") l -> ss_min st' = ss_min st) /\
  (Forall (fun c => n_type c <> L "maxvalue") l -> ss_max st' = ss_max st) /\
  (Forall (fun c => n_type c <> L "start") l -> ss_start st' = ss_start st).
Proof.
  revert st. induction l as [|c l IH]; intros st; [by intros [= <-]|].
  cbn [run]. intros (st1 & Hs & H)%bind_inv. apply IH in H as (H1 & H2 & H3).
  apply sq_step_omits in Hs as (K1 & K2 & K3).
  split; [|split]; intros [Hc Hl]%Forall_cons; [rewrite H1, K1|rewrite H2, K2|rewrite H3, K3]; done.
Qed.

Lemma sequence_defaults ctx n q : parse_sequence_definition ctx n = Done q ->
  (omits (L "minvalue") n -> get_sequence_min_value (sq_increment q) (sq_type q) = Done (sq_min q)) /\
  (omits (L "maxvalue") n -> get_sequence_max_value (sq_increment q) (sq_type q) = Done (sq_max q)) /\
  (omits (L "start") n -> sq_start q = get_sequence_start (sq_increment q) (sq_min q) (sq_max q)).
Proof.
  unfold parse_sequence_definition. intros H. opening H.
  apply bind_inv in H as ([st e] & Hc & H).
  apply bind_inv in H as (mn & Hmn & H). apply bind_inv in H as (mx & Hmx & H).
  apply bind_inv in H as (? & He%check_errors_inv & [= <-]). subst.
  apply collect_run in Hc. apply sq_run_omits in Hc as (H1 & H2 & H3).
  unfold omits. erewrite !children_eq by eassumption. simpl in *.
  split; [|split]; intros Ho.
  - by rewrite (H1 Ho) in Hmn.
  - by rewrite (H2 Ho) in Hmx.
  - by rewrite (H3 Ho).
Qed.

Lemma sequence_start_omitted ctx n q :
  parse_sequence_definition ctx n = Done q -> omits (L "start") n ->
  start_in_bounds q <-> (sq_min q <= sq_max q)%Z.
Proof.
  intros (_ & _ & H)%sequence_defaults Ho. unfold start_in_bounds. rewrite (H Ho).
  unfold get_sequence_start. destruct (0 <=? sq_increment q)%Z; lia.
Qed.

Lemma sequence_all_omitted ctx n q :
  parse_sequence_definition ctx n = Done q ->
  omits (L "minvalue") n -> omits (L "maxvalue") n -> omits (L "start") n -> sequence_in_range q.
Proof.
  intros (H1 & H2 & H3)%sequence_defaults O1 O2 O3.
  specialize (H1 O1). specialize (H2 O2). specialize (H3 O3).
  unfold sequence_in_range, start_in_bounds, type_range. rewrite H3. clear H3.
  unfold get_sequence_min_value, get_sequence_max_value, get_sequence_start in *.
  destruct (0 <=? sq_increment q)%Z eqn:E1, (sq_increment q <? 0)%Z eqn:E2;
    try (apply Z.leb_le in E1); try (apply Z.leb_gt in E1);
    try (apply Z.ltb_lt in E2); try (apply Z.ltb_ge in E2); try lia.
  - injection H1 as <-.
    assert (forall hi, Done hi = Done (sq_max q) :> dres Z -> hi = sq_max q) as Hd by congruence.
    repeat (case_bool_decide; [apply Hd in H2; rewrite <- H2;
      split; [lia|]; split; [|lia]; repeat (rewrite decide_False by congruence);
      rewrite decide_True by done; eexists _, _; split; [reflexivity|lia]|]). done.
  - injection H2 as <-.
    assert (forall hi, Done hi = Done (sq_min q) :> dres Z -> hi = sq_min q) as Hd by congruence.
    repeat (case_bool_decide; [apply Hd in H1; rewrite <- H1;
      split; [lia|]; split; [|lia]; repeat (rewrite decide_False by congruence);
      rewrite decide_True by done; eexists _, _; split; [reflexivity|lia]|]). done.
Qed.

Lemma min_default inc ty v :
  get_sequence_min_value inc ty = Done v ->
  (0 <= inc /\ v = 1)%Z \/ (inc < 0 /\ exists hi, type_range ty = Some (v, hi))%Z.
Proof.
  unfold get_sequence_min_value, type_range. destruct (Z.leb_spec 0 inc); [intros [= <-]; by left|]. intros H1. right. split; [done|].
  repeat (case_bool_decide; [injection H1 as <-; repeat (rewrite decide_False by congruence);
    rewrite decide_True by done; by eexists|]). done.
Qed.
Lemma max_default inc ty v :
  get_sequence_max_value inc ty = Done v ->
  (inc < 0 /\ v = -1)%Z \/ (0 <= inc /\ exists lo, type_range ty = Some (lo, v))%Z.
Proof.
  unfold get_sequence_max_value, type_range. destruct (Z.ltb_spec inc 0); [intros [= <-]; by left|]. intros H1. right. split; [done|].
  repeat (case_bool_decide; [injection H1 as <-; repeat (rewrite decide_False by congruence);
    rewrite decide_True by done; by eexists|]). done.
Qed.
Lemma type_range_signs ty lo hi : type_range ty = Some (lo, hi) -> (lo < -1 /\ 1 < hi)%Z.
Proof. unfold type_range. repeat case_decide; intros [= <- <-]; lia. Qed.

Lemma sequence_min_omitted ctx n q :
  parse_sequence_definition ctx n = Done q -> omits (L "minvalue") n -> omits (L "start") n ->
  sequence_in_range q <->
  exists lo hi, type_range (sq_type q) = Some (lo, hi) /\
    (0 <= sq_increment q -> 1 <= sq_max q <= hi)%Z /\ (sq_increment q < 0 -> lo <= sq_max q < 0)%Z.
Proof.
  intros (H1 & _ & H3)%sequence_defaults O1 O3. specialize (H1 O1). specialize (H3 O3). apply min_default in H1.
  unfold sequence_in_range, start_in_bounds. rewrite H3. unfold get_sequence_start.
  destruct (Z.leb_spec 0 (sq_increment q)); destruct H1 as [[? H1]|[? [hi1 H1]]]; try lia.
  - rewrite H1. split.
    + intros (? & (lo & hi & -> & ?) & ?). exists lo, hi. split; [done|]. lia.
    + intros (lo & hi & Ht & ?). pose proof (type_range_signs _ _ _ Ht). split; [lia|].
      split; [exists lo, hi; split; [done|]|]; lia.
  - rewrite H1. split.
    + intros (? & (lo & hi & Ht & ?) & ?). injection Ht as <- <-. exists (sq_min q), hi1. split; [done|]. lia.
    + intros (lo & hi & Ht & ?). injection Ht as <- <-. pose proof (type_range_signs _ _ _ H1). split; [lia|].
      split; [exists (sq_min q), hi1; split; [done|]|]; lia.
Qed.
Lemma sequence_max_omitted ctx n q :
  parse_sequence_definition ctx n = Done q -> omits (L "maxvalue") n -> omits (L "start") n ->
  sequence_in_range q <->
  exists lo hi, type_range (sq_type q) = Some (lo, hi) /\
    (0 <= sq_increment q -> 0 < sq_min q <= hi)%Z /\ (sq_increment q < 0 -> lo <= sq_min q <= -1)%Z.
Proof.
  intros (_ & H1 & H3)%sequence_defaults O1 O3. specialize (H1 O1). specialize (H3 O3). apply max_default in H1.
  unfold sequence_in_range, start_in_bounds. rewrite H3. unfold get_sequence_start.
  destruct (Z.leb_spec 0 (sq_increment q)); destruct H1 as [[? H1]|[? [lo1 H1]]]; try lia.
  - rewrite H1. split.
    + intros (? & (lo & hi & Ht & ?) & ?). injection Ht as <- <-. exists lo1, (sq_max q). split; [done|]. lia.
    + intros (lo & hi & Ht & ?). injection Ht as <- <-. pose proof (type_range_signs _ _ _ H1). split; [lia|].
      split; [exists lo1, (sq_max q); split; [done|]|]; lia.
  - rewrite H1. split.
    + intros (? & (lo & hi & -> & ?) & ?). exists lo, hi. split; [done|]. lia.
    + intros (lo & hi & Ht & ?). pose proof (type_range_signs _ _ _ Ht). split; [lia|].
      split; [exists lo, hi; split; [done|]|]; lia.
Qed.
