(** Lemmas about the history directory: loading it, walking through it. *)
From Verif Require Import Base Text Types Changes SpecSnapshot Sql History SpecHistory.

(** ** Iterating a partial function *)
Section iterate.
  Context {A : Type} `{Countable A}.
  Implicit Types f : A -> option A.

  Fixpoint iterate f (k : nat) (x : A) : option A :=
    match k with 0 => Some x | S k => f x ≫= iterate f k end.

  Lemma iterate_add f m n x : iterate f (m + n) x = iterate f m x ≫= iterate f n.
  Proof. revert x. induction m as [|m IH]; intros x; [done|]. simpl. destruct (f x); simpl; [apply IH|done]. Qed.
  Lemma iterate_S f k x : iterate f (S k) x = iterate f k x ≫= f.
  Proof.
    replace (S k) with (k + 1) by lia. rewrite iterate_add. destruct (iterate f k x) as [y|]; [|done].
    simpl. by destruct (f y).
  Qed.
  Lemma iterate_le f k k' x : k <= k' -> is_Some (iterate f k' x) -> is_Some (iterate f k x).
  Proof.
    intros Hk. replace k' with (k + (k' - k)) by lia. rewrite iterate_add. intros [y Hy].
    destruct (iterate f k x); [by eexists|done].
  Qed.

  Fixpoint orbit f (k : nat) (x : A) : list A :=
    match k with 0 => [] | S k => x :: match f x with Some y => orbit f k y | None => [] end end.
  Lemma orbit_lookup f k x i y : orbit f k x !! i = Some y -> iterate f i x = Some y.
  Proof.
    revert x i. induction k as [|k IH]; intros x i; [done|]. destruct i as [|i]; [done|]. simpl.
    destruct (f x) as [z|]; [|done]. apply IH.
  Qed.
  Lemma orbit_length f k x : is_Some (iterate f k x) -> length (orbit f k x) = k.
  Proof.
    revert x. induction k as [|k IH]; intros x Hx; [done|]. simpl in *.
    destruct (f x) as [y|]; [by rewrite (IH y)|by destruct Hx].
  Qed.
  Lemma orbit_domain f (X : gset A) (g : A -> A) k x :
    (forall a b, f a = Some b -> g a ∈ X) -> is_Some (iterate f k x) -> Forall (fun a => g a ∈ X) (orbit f k x).
  Proof.
    intros HX. revert x. induction k as [|k IH]; intros x Hx; [constructor|]. simpl in *.
    destruct (f x) as [y|] eqn:E; [|by destruct Hx]. constructor; [by eapply HX|by apply IH].
  Qed.
  Lemma duplicates (l : list A) : ~ NoDup l -> exists i j x, i < j /\ l !! i = Some x /\ l !! j = Some x.
  Proof.
    induction l as [|a l IH]; intros Hl; [destruct Hl; constructor|].
    destruct (decide (a ∈ l)) as [[j Hj]%elem_of_list_lookup|Ha].
    - exists 0, (S j), a. split; [lia|]. by split.
    - destruct IH as (i & j & x & ? & ? & ?). { intros Hn. apply Hl. by constructor. }
      exists (S i), (S j), x. split; [lia|]. by split.
  Qed.
  Lemma iterate_repeats f (X : gset A) (g : A -> A) `{!Inj (=) (=) g} x :
    (forall a b, f a = Some b -> g a ∈ X) -> is_Some (iterate f (S (size X)) x) ->
    exists i j y, i < j /\ iterate f i x = Some y /\ iterate f j x = Some y.
  Proof.
    intros HX Hx. destruct (decide (NoDup (orbit f (S (size X)) x))) as [Hn|Hn].
    - exfalso. pose proof (orbit_domain _ _ _ _ _ HX Hx) as Hf. pose proof (orbit_length _ _ _ Hx) as Hl.
      assert (size (list_to_set (g <$> orbit f (S (size X)) x) : gset A) <= size X) as Hsize.
      { apply subseteq_size. intros a (b & -> & Hb)%elem_of_list_to_set%elem_of_list_fmap.
        exact (proj1 (Forall_forall _ _) Hf b Hb). }
      rewrite size_list_to_set in Hsize by (by apply NoDup_fmap_2). rewrite fmap_length in Hsize. lia.
    - apply duplicates in Hn as (i & j & y & Hij & Hi & Hj). exists i, j, y.
      split; [done|]. split; by eapply orbit_lookup.
  Qed.
  Lemma iterate_cycle f i j x y :
    i < j -> iterate f i x = Some y -> iterate f j x = Some y -> forall k, is_Some (iterate f k x).
  Proof.
    intros Hij Hi Hj k. induction (lt_wf k) as [k _ IH].
    destruct (decide (k <= j)) as [Hk|Hk]; [by eapply iterate_le; [|rewrite Hj]|].
    replace k with (j + (k - j)) by lia. rewrite iterate_add, Hj. cbn [option_bind mbind].
    change (is_Some (iterate f (k - j) y)).
    destruct (IH (i + (k - j))) as [z Hz]; [lia|]. rewrite iterate_add, Hi in Hz. by exists z.
  Qed.
  Lemma iterate_forever f (X : gset A) (g : A -> A) `{!Inj (=) (=) g} x :
    (forall a b, f a = Some b -> g a ∈ X) -> is_Some (iterate f (S (size X)) x) ->
    forall k, is_Some (iterate f k x).
  Proof. intros HX Hx. destruct (iterate_repeats f X g x HX Hx) as (i & j & y & ? & ? & ?). by eapply iterate_cycle. Qed.
End iterate.

(** ** Reading *)
Lemma get_version_iff d n v : get_version d n = Ret v <-> stored d n v.
Proof.
  unfold get_version, stored, version_file. destruct (decide (47%N ∈ n)) as [Hn|Hn].
  - split; [done|]. by intros [? _].
  - destruct (d !! _) as [[|v'|]|] eqn:E.
    + split; [done|]. by intros [_ [=]].
    + split; [by intros [= ->]|]. by intros [_ [= ->]].
    + split; [done|]. by intros [_ [=]].
    + split; [done|]. by intros [_ [=]].
Qed.
Lemma get_version_cases d n : (exists v, stored d n v /\ get_version d n = Ret v) \/ get_version d n = Raise FileError.
Proof.
  destruct (get_version d n) as [v|e| | |] eqn:E; revert E.
  - intros E. left. exists v. split; [by apply get_version_iff|done].
  - unfold get_version. destruct (decide _); [by intros [= ->]; right|].
    destruct (d !! _) as [[]|]; intros [= <-]; by right.
  - unfold get_version. destruct (decide _); [done|]. by destruct (d !! _) as [[]|].
  - unfold get_version. destruct (decide _); [done|]. by destruct (d !! _) as [[]|].
  - unfold get_version. destruct (decide _); [done|]. by destruct (d !! _) as [[]|].
Qed.
Lemma stored_unique d n v v' : stored d n v -> stored d n v' -> v = v'.
Proof. intros [_ H] [_ H']. congruence. Qed.

(** ** The upward range *)
Definition back (d : hdir) (from x : str) : option str :=
  match get_version d x with
  | Ret v => if decide (x = from) then None else v_previous v
  | _ => None
  end.
Definition named (d : hdir) (n x : str) : Prop := exists v, stored d n v /\ v_name v = x.

Lemma range_hang_iff fuel d from to curr acc :
  range_loop fuel d from to curr acc = Hang <-> is_Some (iterate (back d from) (S fuel) curr).
Proof.
  assert (~ is_Some (@None str)) as Hno by (by intros [? ?]).
  revert curr acc. induction fuel as [|fuel IH]; intros curr acc.
  - cbn [range_loop]. change (iterate (back d from) 1 curr) with (back d from curr ≫= Some). unfold back.
    destruct (get_version_cases d curr) as [(v & _ & ->)| ->]; simpl; [|done].
    destruct (decide (curr = from)); [done|].
    destruct (v_previous v); simpl; [split; [by eexists|done]|done].
  - cbn [range_loop].
    change (iterate (back d from) (S (S fuel)) curr) with (back d from curr ≫= iterate (back d from) (S fuel)).
    unfold back at 2.
    destruct (get_version_cases d curr) as [(v & _ & ->)| ->]; cbn [ebind];
      [|split; [done|intros H; by destruct (Hno H)]].
    destruct (decide (curr = from)); [split; [done|intros H; by destruct (Hno H)]|].
    destruct (v_previous v) as [p|]; [|split; [done|intros H; by destruct (Hno H)]]. apply IH.
Qed.
Lemma range_mono k k' d from to curr acc r :
  range_loop k d from to curr acc = r -> r <> Hang -> k <= k' -> range_loop k' d from to curr acc = r.
Proof.
  revert k' curr acc. induction k as [|k IH]; intros k' curr acc H Hr Hk.
  - destruct k' as [|k']; [done|]. cbn [range_loop] in *.
    destruct (get_version d curr); simpl in *; try done.
    destruct (decide (curr = from)); [done|]. destruct (v_previous a); done.
  - destruct k' as [|k']; [lia|]. cbn [range_loop] in *.
    destruct (get_version d curr); simpl in *; try done.
    destruct (decide (curr = from)); [done|]. destruct (v_previous a); [|done]. apply IH; [done|done|lia].
Qed.


Global Instance version_file_inj : Inj (=) (=) version_file.
Proof. intros a b H. by apply app_inv_tail in H. Qed.
Lemma back_domain d from a b : back d from a = Some b -> version_file a ∈ (dom d : gset str).
Proof.
  unfold back. destruct (get_version d a) eqn:E; try done. intros _.
  apply get_version_iff in E as [_ E]. by apply elem_of_dom_2 in E.
Qed.
Lemma range_hangs d from to curr acc :
  range_loop (S (size d)) d from to curr acc = Hang -> forall fuel, range_loop fuel d from to curr acc = Hang.
Proof.
  rewrite range_hang_iff. intros H fuel. apply range_hang_iff.
  apply (iterate_forever (back d from) (dom d : gset str) version_file); [apply back_domain|].
  rewrite size_dom. eapply iterate_le; [|done]. lia.
Qed.
Lemma range_settled k d from to r :
  range_loop k d from to to [] = r -> r <> Hang -> get_upward_range d from to = r.
Proof.
  intros H Hr. unfold get_upward_range. destruct (decide (k <= S (size d))) as [Hk|Hk].
  - by eapply range_mono.
  - destruct (range_loop (S (size d)) d from to to []) eqn:E;
      try (rewrite <- H; symmetry; eapply range_mono; [done|done|lia]).
    by rewrite (range_hangs _ _ _ _ _ E k) in H.
Qed.

Lemma range_sound fuel d from to curr acc l :
  range_loop fuel d from to curr acc = Ret l ->
  exists ns xs, path d from ns curr /\ from ∉ ns /\ Forall2 (named d) ns xs /\ l = xs ++ acc.
Proof.
  revert curr acc. induction fuel as [|fuel IH]; intros curr acc; cbn [range_loop].
  - destruct (get_version_cases d curr) as [(v & Hv & ->)| ->]; simpl; [|done].
    destruct (decide (curr = from)) as [->|Hne].
    + intros [= ->]. exists [], []. split; [by econstructor|]. split; [by apply not_elem_of_nil|]. by split.
    + by destruct (v_previous v).
  - destruct (get_version_cases d curr) as [(v & Hv & ->)| ->]; simpl; [|done].
    destruct (decide (curr = from)) as [->|Hne].
    + intros [= ->]. exists [], []. split; [by econstructor|]. split; [by apply not_elem_of_nil|]. by split.
    + destruct (v_previous v) as [p|] eqn:Hp; [|done]. intros (ns & xs & H1 & H2 & H3 & ->)%IH.
      exists (ns ++ [curr]), (xs ++ [v_name v]). split; [by econstructor|].
      split. { rewrite elem_of_app, elem_of_list_singleton. by intros [?| ->]. }
      split; [|by rewrite <- (assoc_L (++))]. apply Forall2_app; [done|]. repeat constructor. by exists v.
Qed.
Lemma range_complete d from to ns curr xs acc :
  path d from ns curr -> from ∉ ns -> Forall2 (named d) ns xs ->
  range_loop (length ns) d from to curr acc = Ret (xs ++ acc).
Proof.
  intros H. revert xs acc. induction H as [v Hv|ns b c v H IH Hv Hp]; intros xs acc Hns Hxs.
  - apply Forall2_nil_inv_l in Hxs as ->. simpl. rewrite (proj2 (get_version_iff _ _ _) Hv). simpl.
    by rewrite decide_True.
  - apply Forall2_app_inv_l in Hxs as (xs' & x' & H1 & H2 & ->).
    apply Forall2_cons_inv_l in H2 as (x & ? & (v' & Hv' & <-) & H2%Forall2_nil_inv_l & ->). subst.
    rewrite (stored_unique _ _ _ _ Hv' Hv) in *. apply not_elem_of_app in Hns as [Hns Hc].
    rewrite app_length. replace (length ns + length [c]) with (S (length ns)) by (simpl; lia).
    cbn [range_loop]. rewrite (proj2 (get_version_iff _ _ _) Hv). simpl.
    rewrite decide_False by (intros ->; apply Hc, elem_of_list_here). rewrite Hp.
    rewrite (IH xs') by done. by rewrite <- (assoc_L (++)).
Qed.
Lemma range_iff d from to l :
  get_upward_range d from to = Ret l <->
  exists ns, path d from ns to /\ from ∉ ns /\ Forall2 (named d) ns l.
Proof.
  split.
  - intros (ns & xs & H1 & H2 & H3 & ->)%range_sound. exists ns. by rewrite app_nil_r.
  - intros (ns & H1 & H2 & H3). apply (range_settled (length ns)); [|done].
    rewrite (range_complete _ _ _ _ _ l) by done. by rewrite app_nil_r.
Qed.
Lemma well_named_list d ns xs : well_named d -> Forall2 (named d) ns xs -> xs = ns.
Proof. intros Hd. induction 1 as [|n x ns xs (v & Hv & <-) H IH]; [done|]. by rewrite IH, (Hd n v Hv). Qed.
Lemma path_named d a ns b : well_named d -> path d a ns b -> Forall2 (named d) ns ns.
Proof.
  intros Hd. induction 1 as [|ns b c v H IH Hv Hp]; [constructor|]. apply Forall2_app; [done|].
  repeat constructor. exists v. split; [done|by apply Hd].
Qed.
Lemma range_named_iff d from to l :
  well_named d -> get_upward_range d from to = Ret l <-> path d from l to /\ from ∉ l.
Proof.
  intros Hd. rewrite range_iff. split.
  - intros (ns & H1 & H2 & H3). by rewrite (well_named_list _ _ _ Hd H3).
  - intros [H1 H2]. exists l. split; [done|]. split; [done|]. by eapply path_named.
Qed.

(** A range is computed, refused or never finished; never anything else. *)
Lemma range_outcomes fuel d from to curr acc :
  (exists l, range_loop fuel d from to curr acc = Ret l) \/
  range_loop fuel d from to curr acc = Raise (Unreachable to from) \/
  range_loop fuel d from to curr acc = Raise FileError \/
  range_loop fuel d from to curr acc = Hang.
Proof.
  revert curr acc. induction fuel as [|fuel IH]; intros curr acc; cbn [range_loop];
    (destruct (get_version_cases d curr) as [(v & _ & ->)| ->]; simpl; [|by auto]);
    (destruct (decide (curr = from)); [by eauto|]); destruct (v_previous v); auto.
Qed.

Lemma iterate_path d from i x y :
  iterate (back d from) i x = Some y -> (exists v, stored d y v) ->
  exists ns, path d y ns x /\ from ∉ ns /\ length ns = i.
Proof.
  revert x. induction i as [|i IH]; intros x H [v Hv].
  - injection H as ->. exists []. split; [by econstructor|]. split; [by apply not_elem_of_nil|done].
  - simpl in H. destruct (back d from x) as [z|] eqn:E; [|done]. simpl in H.
    destruct (IH z H) as (ns & H1 & H2 & H3); [by eauto|].
    unfold back in E. destruct (get_version_cases d x) as [(w & Hw & Ew)|Ew]; rewrite Ew in E; [|done].
    destruct (decide (x = from)) as [|Hne]; [done|].
    exists (ns ++ [x]). split; [by econstructor|]. split.
    + rewrite elem_of_app, elem_of_list_singleton. by intros [?| ->].
    + rewrite app_length. simpl. lia.
Qed.
Lemma path_iterate d from a ns b :
  path d a ns b -> from ∉ ns -> iterate (back d from) (length ns) b = Some a.
Proof.
  induction 1 as [|ns b c v H IH Hv Hp]; intros Hns; [done|]. apply not_elem_of_app in Hns as [H1 H2].
  rewrite app_length. replace (length ns + length [c]) with (S (length ns)) by (simpl; lia). simpl.
  unfold back at 2. rewrite (proj2 (get_version_iff _ _ _) Hv).
  rewrite decide_False by (intros ->; apply H2, elem_of_list_here). rewrite Hp. simpl. by apply IH.
Qed.

Lemma range_hang_circles d from to : get_upward_range d from to = Hang <-> circles d from to.
Proof.
  unfold get_upward_range. split.
  - rewrite range_hang_iff. intros H.
    assert (forall k, is_Some (iterate (back d from) k to)) as Hall.
    { apply (iterate_forever (back d from) (dom d : gset str) version_file); [apply back_domain|].
      rewrite size_dom. eapply iterate_le; [|done]. lia. }
    destruct (iterate_repeats (back d from) (dom d : gset str) version_file to) as (i & j & c & Hij & Hi & Hj).
    { apply back_domain. } { apply Hall. }
    assert (iterate (back d from) (j - i) c = Some c) as Hc.
    { replace j with (i + (j - i)) in Hj by lia. by rewrite iterate_add, Hi in Hj. }
    assert (is_Some (back d from c)) as [p Hp].
    { replace (j - i) with (S (j - i - 1)) in Hc by lia. simpl in Hc. destruct (back d from c); [by eexists|done]. }
    assert (exists v, stored d c v) as Hv.
    { unfold back in Hp. destruct (get_version_cases d c) as [(v & ? & _)|E]; [by eexists|]. by rewrite E in Hp. }
    assert (from <> c) as Hne.
    { intros <-. unfold back in Hp. destruct (get_version d from); try done. by rewrite decide_True in Hp. }
    destruct (iterate_path _ _ _ _ _ Hi Hv) as (ns & H1 & H2 & _).
    destruct (iterate_path _ _ _ _ _ Hc Hv) as (ns' & H3 & H4 & H5).
    exists c, ns, ns'. split. { intros ->. simpl in H5. lia. } by split_and!.
  - intros (c & ns & ns' & Hne & H1 & H2 & H3 & H4 & H5). apply range_hang_iff.
    apply (iterate_cycle _ (length ns) (length ns + length ns') _ c).
    + destruct ns'; [done|simpl; lia].
    + by apply path_iterate.
    + rewrite iterate_add, (path_iterate d from c ns to) by done. simpl. by apply path_iterate.
Qed.
