(** Lemmas about loading a history directory. *)
From Verif Require Import Base Text TextLemmas Types Changes SpecSnapshot Sql History SpecHistory HistoryLemmas.

(** ** File names *)
Lemma starts_with_iff p s : starts_with p s = true <-> exists r, s = p ++ r.
Proof.
  revert s. induction p as [|a p IH]; intros s; simpl; [split; [by exists s|done]|].
  destruct s as [|b s]; [split; [done|by intros [? ?]]|]. rewrite andb_true_iff, N.eqb_eq, IH. split.
  - intros [-> [r ->]]. by exists r.
  - intros [r [= -> ->]]. eauto.
Qed.
Lemma is_yaml_iff f : is_yaml f = true <-> exists s, f = s ++ L ".yaml".
Proof.
  unfold is_yaml. rewrite starts_with_iff. split.
  - intros [r Hr]. exists (reverse r). rewrite <- (reverse_involutive f), Hr.
    by rewrite reverse_app, reverse_involutive.
  - intros [s ->]. exists (reverse s). by rewrite reverse_app.
Qed.
Lemma trim_rev_step s : trim_rev (reverse (L ".yaml") ++ s) = trim_rev s.
Proof. reflexivity. Qed.
Lemma trim_rev_stop s : (forall r, s <> reverse (L ".yaml") ++ r) -> trim_rev s = s.
Proof.
  intros H. do 5 (destruct s as [|? s]; [done|]). cbn [trim_rev]. destruct (decide _) as [E|]; [|done].
  destruct (H s). by rewrite <- E.
Qed.
Lemma trim_file n : plain_name n -> trim_yaml (n ++ L ".yaml") = n.
Proof.
  intros [_ Hn]. unfold trim_yaml. rewrite reverse_app, trim_rev_step, trim_rev_stop, reverse_involutive; [done|].
  intros r Hr. apply Hn. exists (reverse r). rewrite <- (reverse_involutive n), Hr.
  by rewrite reverse_app, reverse_involutive.
Qed.

(** ** What an entry contributes *)
Definition considered (d : hdir) (f : str) : bool :=
  match d !! f with None | Some Folder => false | Some _ => is_yaml f end.
Definition contrib (d : hdir) (f : str) : option (list (str * str)) :=
  if considered d f then
    match get_version d (trim_yaml f) with
    | Ret v => Some (match v_previous v with Some p => [(p, v_name v)] | None => [] end)
    | _ => None
    end
  else Some [].
Fixpoint contribs (d : hdir) (fs : list str) : option (list (str * str)) :=
  match fs with
  | [] => Some []
  | f :: fs => match contrib d f, contribs d fs with
               | Some c, Some cs => Some (c ++ cs)
               | _, _ => None
               end
  end.

Lemma read_entries_cons d f fs next :
  read_entries d (f :: fs) next =
  if considered d f then
    ex v <- get_version d (trim_yaml f);
    match v_previous v with
    | Some p => match next !! p with
                | Some existing => Raise (Branched p existing (v_name v))
                | None => read_entries d fs (<[p := v_name v]> next)
                end
    | None => read_entries d fs next
    end
  else read_entries d fs next.
Proof. unfold considered. cbn [read_entries]. by destruct (d !! f) as [[]|]; try destruct (is_yaml f). Qed.

Lemma read_entries_outcomes d fs next :
  (exists m, read_entries d fs next = Ret m) \/ (exists e, read_entries d fs next = Raise e).
Proof.
  revert next. induction fs as [|f fs IH]; intros next; [left; by eexists|]. rewrite read_entries_cons.
  destruct (considered d f); [|done].
  destruct (get_version_cases d (trim_yaml f)) as [(v & _ & ->)| ->]; [|right; by eexists]. cbn [ebind].
  destruct (v_previous v) as [p|]; [|done]. destruct (next !! p); [right; by eexists|done].
Qed.

Lemma read_entries_iff d fs next m :
  read_entries d fs next = Ret m <->
  exists ps, contribs d fs = Some ps /\ NoDup ps.*1 /\ (forall p, p ∈ ps.*1 -> next !! p = None) /\
    m = list_to_map ps ∪ next.
Proof.
  revert next. induction fs as [|f fs IH]; intros next.
  - simpl. split.
    + intros [= ->]. exists []. split; [done|]. split; [constructor|]. split; [intros p []%elem_of_nil|].
      simpl. by rewrite (left_id_L ∅ (∪)).
    + intros (ps & [= <-] & _ & _ & ->). simpl. by rewrite (left_id_L ∅ (∪)).
  - rewrite read_entries_cons. cbn [contribs]. unfold contrib.
    destruct (considered d f).
    2:{ rewrite IH. destruct (contribs d fs); done. }
    destruct (get_version_cases d (trim_yaml f)) as [(v & _ & ->)| ->]; cbn [ebind].
    2:{ split; [done|]. by intros (ps & ? & _). }
    destruct (v_previous v) as [p|].
    2:{ rewrite IH. destruct (contribs d fs); done. }
    destruct (next !! p) as [q|] eqn:Hp.
    + split; [done|]. intros (ps & H1 & _ & H2 & _). destruct (contribs d fs) as [cs|]; [|done].
      injection H1 as <-. rewrite (H2 p) in Hp; [done|]. apply elem_of_list_here.
    + rewrite IH. split.
      * intros (ps & -> & H2 & H3 & ->). eexists. split; [reflexivity|]. simpl. split; [|split].
        -- constructor; [|done]. intros K%H3. by rewrite lookup_insert in K.
        -- intros x [->|Hx]%elem_of_cons; [done|]. specialize (H3 x Hx).
           by apply lookup_insert_None in H3 as [? _].
        -- symmetry. rewrite <- insert_union_l. apply insert_union_r. apply not_elem_of_list_to_map_1.
           intros K%H3. by rewrite lookup_insert in K.
      * intros (ps & H1 & H2 & H3 & ->). destruct (contribs d fs) as [cs|]; [|done]. injection H1 as <-.
        simpl in *. apply NoDup_cons in H2 as [H2 H2']. exists cs. split; [done|]. split; [done|]. split.
        -- intros x Hx. apply lookup_insert_None. split; [apply H3; by right|]. intros ->. done.
        -- rewrite <- insert_union_l. apply insert_union_r. by apply not_elem_of_list_to_map_1.
Qed.

Lemma contribs_perm d fs fs' ps :
  fs ≡ₚ fs' -> contribs d fs = Some ps -> exists ps', contribs d fs' = Some ps' /\ ps ≡ₚ ps'.
Proof.
  intros H. revert ps. induction H as [|f fs fs' H IH|f g fs|fs1 fs2 fs3 H1 IH1 H2 IH2]; intros ps E.
  - by exists ps.
  - cbn [contribs] in *. destruct (contrib d f) as [c|]; [|done]. destruct (contribs d fs) as [cs|]; [|done].
    destruct (IH cs eq_refl) as (cs' & -> & Hp). injection E as <-. eexists. split; [done|]. by rewrite Hp.
  - cbn [contribs] in *. destruct (contrib d f) as [c|], (contrib d g) as [c'|]; try done;
      destruct (contribs d fs) as [cs|]; try done. injection E as <-. eexists. split; [done|].
    rewrite !(assoc_L (++)). apply Permutation_app_tail, Permutation_app_comm.
  - destruct (IH1 ps E) as (ps2 & E2 & P2). destruct (IH2 ps2 E2) as (ps3 & E3 & P3).
    exists ps3. split; [done|]. by etrans.
Qed.

Lemma listings_agree (l l' : listing) d : ls l d ≡ₚ ls l' d.
Proof. by rewrite !ls_perm. Qed.

Lemma read_entries_order l l' d m : read_entries d (ls l d) ∅ = Ret m -> read_entries d (ls l' d) ∅ = Ret m.
Proof.
  rewrite !read_entries_iff. intros (ps & H1 & H2 & H3 & ->).
  destruct (contribs_perm d _ (ls l' d) ps (listings_agree l l' d) H1) as (ps' & H1' & Hp).
  exists ps'. split; [done|]. split; [by rewrite <- Hp|]. split; [intros p; by rewrite <- Hp; apply H3|].
  f_equal. by apply list_to_map_proper.
Qed.

(** ** The walk *)
Lemma walk_hang_iff (fuel : nat) (next : gmap str str) (cur curr : str) :
  walk_next fuel next cur curr = Hang <-> is_Some (iterate (next !!.) (S fuel) curr).
Proof.
  assert (~ is_Some (@None str)) as Hno by (by intros [? ?]).
  revert cur curr. induction fuel as [|fuel IH]; intros cur curr; cbn [walk_next].
  - simpl. destruct (next !! curr); simpl; [|done]. split; [by eexists|done].
  - change (iterate (next !!.) (S (S fuel)) curr) with ((next !! curr) ≫= iterate (next !!.) (S fuel)).
    destruct (next !! curr) as [n|]; [apply IH|]. split; [done|]. intros H. by destruct (Hno H).
Qed.
Lemma walk_hangs (next : gmap str str) (cur curr : str) :
  walk_next (S (size next)) next cur curr = Hang -> forall fuel, walk_next fuel next cur curr = Hang.
Proof.
  rewrite walk_hang_iff. intros H fuel. apply walk_hang_iff.
  apply (iterate_forever (next !!.) (dom next : gset str) id); [intros a b; apply elem_of_dom_2|].
  rewrite size_dom. eapply iterate_le; [|done]. lia.
Qed.
Lemma walk_outcomes fuel next cur curr :
  (exists c, walk_next fuel next cur curr = Ret c) \/ walk_next fuel next cur curr = Hang.
Proof.
  revert cur curr. induction fuel as [|fuel IH]; intros cur curr; cbn [walk_next]; destruct (next !! curr); eauto.
Qed.
Definition next_rel (next : gmap str str) (a b : str) : Prop := next !! a = Some b.
Lemma iterate_rtc (next : gmap str str) (a b : str) : rtc (next_rel next) a b <-> exists k, iterate (next !!.) k a = Some b.
Proof.
  split.
  - induction 1 as [a|a b c H _ [k Hk]]; [by exists 0|]. exists (S k). simpl. unfold next_rel in H. by rewrite H.
  - intros [k Hk]. revert a Hk. induction k as [|k IH]; intros a Hk; [by injection Hk as ->|].
    simpl in Hk. destruct (next !! a) as [x|] eqn:E; [|done]. econstructor; [exact E|]. by apply IH.
Qed.
Definition walk_end (next : gmap str str) (c : str) : Prop :=
  rtc (next_rel next) INIT c /\
  ((exists b, next !! c = Some b /\ next !! b = None) \/ (c = INIT /\ next !! c = None)).
Lemma walk_sound fuel next cur curr c :
  walk_next fuel next cur curr = Ret c ->
  (next !! curr = None /\ c = cur) \/
  (exists b, rtc (next_rel next) curr c /\ next !! c = Some b /\ next !! b = None).
Proof.
  revert cur curr. induction fuel as [|fuel IH]; intros cur curr; cbn [walk_next].
  - destruct (next !! curr); [done|]. intros [= ->]. by left.
  - destruct (next !! curr) as [n|] eqn:E; [|intros [= ->]; by left].
    intros [[H1 ->]|(b & H1 & H2 & H3)]%IH; right; [by exists n|]. exists b. split; [|done].
    by eapply rtc_l.
Qed.
Lemma walk_end_unique next c c' : walk_end next c -> walk_end next c' -> c = c'.
Proof.
  assert (forall c b, next !! c = Some b -> next !! b = None -> rtc (next_rel next) INIT c ->
    exists k, iterate (next !!.) k INIT = Some c /\ iterate (next !!.) (S (S k)) INIT = None /\
      is_Some (iterate (next !!.) (S k) INIT)) as Haux.
  { intros x b H1 H2 [k Hk]%iterate_rtc. exists k. split; [done|]. rewrite !iterate_S, Hk. simpl.
    rewrite H1. simpl. by rewrite H2. }
  intros [H1 [(b & H2 & H3)|[-> H2]]] [H1' [(b' & H2' & H3')|[-> H2']]].
  - destruct (Haux c b H2 H3 H1) as (k & K1 & K2 & K3). destruct (Haux c' b' H2' H3' H1') as (k' & K1' & K2' & K3').
    destruct (decide (k = k')) as [->|Hne]; [congruence|]. exfalso.
    destruct (decide (k < k')).
    + destruct (iterate_le (next !!.) (S (S k)) (S k') INIT) as [y Hy]; [lia|done|]. congruence.
    + destruct (iterate_le (next !!.) (S (S k')) (S k) INIT) as [y Hy]; [lia|done|]. congruence.
  - exfalso. apply iterate_rtc in H1 as [[|k] Hk]; simpl in Hk; [injection Hk as <-; congruence|].
    by rewrite H2' in Hk.
  - exfalso. apply iterate_rtc in H1' as [[|k] Hk]; simpl in Hk; [injection Hk as <-; congruence|].
    by rewrite H2 in Hk.
  - done.
Qed.
Lemma walk_iff next c : walk_next (S (size next)) next INIT INIT = Ret c <-> walk_end next c.
Proof.
  assert (forall c, walk_next (S (size next)) next INIT INIT = Ret c -> walk_end next c) as Hs.
  { intros x [[H1 ->]|(b & H1 & H2 & H3)]%walk_sound; (split; [done|]); [by right|left; by exists b]. }
  split; [apply Hs|]. intros Hc.
  destruct (walk_outcomes (S (size next)) next INIT INIT) as [[x Hx]|Hh].
  - by rewrite (walk_end_unique _ _ _ Hc (Hs _ Hx)).
  - exfalso. assert (forall k, is_Some (iterate (next !!.) k INIT)) as Hall.
    { intros k. eapply iterate_le; [|apply (proj1 (walk_hang_iff k next INIT INIT)), walk_hangs, Hh]. lia. }
    destruct Hc as [H1 [(b & H2 & H3)|[-> H2]]].
    + apply iterate_rtc in H1 as [k Hk]. destruct (Hall (S (S k))) as [y Hy].
      rewrite !iterate_S, Hk in Hy. simpl in Hy. rewrite H2 in Hy. simpl in Hy. congruence.
    + destruct (Hall 1) as [y Hy]. simpl in Hy. by rewrite H2 in Hy.
Qed.

(** ** Loading *)
Lemma from_dir_outcomes l d :
  (exists h, from_dir l d = Ret h) \/ (exists e, from_dir l d = Raise e) \/ from_dir l d = Hang.
Proof.
  unfold from_dir. destruct (read_entries_outcomes d (ls l d) ∅) as [[m ->]|[e ->]]; cbn [ebind]; [|eauto].
  destruct (walk_outcomes (S (size m)) m INIT INIT) as [[c ->]| ->]; cbn [ebind]; eauto.
Qed.
Lemma from_dir_order l l' d :
  (forall h, from_dir l d = Ret h -> from_dir l' d = Ret h) /\ (from_dir l d = Hang -> from_dir l' d = Hang).
Proof.
  unfold from_dir. destruct (read_entries_outcomes d (ls l d) ∅) as [[m E]|[e ->]]; [|done].
  by rewrite E, (read_entries_order l l' d m E).
Qed.

Lemma contribs_elem d fs ps :
  contribs d fs = Some ps -> forall x, x ∈ ps <-> exists f c, f ∈ fs /\ contrib d f = Some c /\ x ∈ c.
Proof.
  revert ps. induction fs as [|f fs IH]; intros ps E x.
  - injection E as <-. split; [by intros ?%elem_of_nil|]. by intros (f & c & ?%elem_of_nil & _).
  - cbn [contribs] in E. destruct (contrib d f) as [c|] eqn:Ec; [|done].
    destruct (contribs d fs) as [cs|]; [|done]. injection E as <-. rewrite elem_of_app, (IH _ eq_refl). split.
    + intros [H|(g & c' & H1 & H2 & H3)]; [exists f, c|exists g, c']; (split; [by constructor|done]).
    + intros (g & c' & [->|H1]%elem_of_cons & H2 & H3); [left; congruence|right; by exists g, c'].
Qed.
Lemma contribs_Some d fs : (forall f, f ∈ fs -> is_Some (contrib d f)) <-> is_Some (contribs d fs).
Proof.
  induction fs as [|f fs IH]; cbn [contribs].
  - split; [by eexists|]. by intros _ f ?%elem_of_nil.
  - split.
    + intros H. destruct (H f) as [c ->]; [by left|]. destruct IH as [IH _].
      destruct IH as [cs ->]; [intros g Hg; apply H; by right|]. by eexists.
    + intros [x Hx]. destruct (contrib d f) as [c|] eqn:E; [|done].
      destruct (contribs d fs) as [cs|] eqn:E'; [|done].
      intros g [->|Hg]%elem_of_cons; [by eexists|]. apply IH; [by eexists|done].
Qed.
Lemma considered_iff d f : considered d f = true <-> version_entry d f.
Proof.
  unfold considered, version_entry. rewrite <- is_yaml_iff. destruct (d !! f) as [[]|].
  - split; [done|]. by intros (_ & e & [= <-] & ?).
  - split; [intros H; split; [done|by eexists]|by intros []].
  - split; [intros H; split; [done|by eexists]|by intros []].
  - split; [done|]. by intros (_ & e & ? & ?).
Qed.
Lemma listed l d f : f ∈ ls l d <-> is_Some (d !! f).
Proof.
  rewrite ls_perm, elem_of_list_fmap. split.
  - intros ([k e] & -> & H%elem_of_map_to_list). by exists e.
  - intros [e He]. exists (f, e). split; [done|]. by apply elem_of_map_to_list.
Qed.
(** What the entries of a directory with plain names contribute. *)
Lemma contrib_plain d n c :
  plain_name n ->
  version_entry d (n ++ L ".yaml") ->
  contrib d (n ++ L ".yaml") = Some c <->
  exists v, stored d n v /\ c = match v_previous v with Some p => [(p, v_name v)] | None => [] end.
Proof.
  intros Hn He. unfold contrib. rewrite (proj2 (considered_iff _ _) He), trim_file by done.
  destruct (get_version_cases d n) as [(v & Hv & ->)|E].
  - split; [intros [= <-]; by exists v|]. intros (v' & Hv' & ->). by rewrite (stored_unique _ _ _ _ Hv Hv').
  - rewrite E. split; [done|]. intros (v' & Hv' & _). apply get_version_iff in Hv'. congruence.
Qed.
Lemma stored_entry d n v : stored d n v -> version_entry d (n ++ L ".yaml").
Proof. intros [_ H]. split; [by eexists|]. by eexists. Qed.

Lemma contribs_nodup d fs ps :
  contribs d fs = Some ps -> NoDup fs ->
  NoDup ps.*1 <->
  (forall f g c c' p, f ∈ fs -> g ∈ fs -> contrib d f = Some c -> contrib d g = Some c' ->
     p ∈ c.*1 -> p ∈ c'.*1 -> f = g).
Proof.
  assert (forall f c, contrib d f = Some c -> c = [] \/ exists x, c = [x]) as Hone.
  { intros f c. unfold contrib. destruct (considered d f); [|intros [= <-]; by left].
    destruct (get_version d _) as [v| | | |]; try done. destruct (v_previous v); intros [= <-]; eauto. }
  revert ps. induction fs as [|f fs IH]; intros ps E Hfs.
  - injection E as <-. split; [by intros _ f g c c' p ?%elem_of_nil|]. intros _. constructor.
  - cbn [contribs] in E. destruct (contrib d f) as [c|] eqn:Ec; [|done].
    destruct (contribs d fs) as [cs|] eqn:Ecs; [|done]. injection E as <-.
    apply NoDup_cons in Hfs as [Hf Hfs]. specialize (IH cs eq_refl Hfs).
    rewrite fmap_app, NoDup_app, IH. split.
    + intros (_ & H1 & H2) g g' a a' p [->|Hg]%elem_of_cons [->|Hg']%elem_of_cons Ha Ha' Hp Hp'; [done| | |by eapply H2].
      * exfalso. apply (H1 p); [congruence|]. apply elem_of_list_fmap in Hp' as ([p' n] & -> & Hp').
        apply elem_of_list_fmap. exists (p', n). split; [done|]. apply (contribs_elem _ _ _ Ecs). by exists g', a'.
      * exfalso. apply (H1 p); [congruence|]. apply elem_of_list_fmap in Hp as ([p' n] & -> & Hp).
        apply elem_of_list_fmap. exists (p', n). split; [done|]. apply (contribs_elem _ _ _ Ecs). by exists g, a.
    + intros H. split; [|split].
      * destruct (Hone f c Ec) as [->|[x ->]]; [constructor|apply NoDup_singleton].
      * intros p Hp ([p' n] & -> & (g & a & Hg & Ha & Hx)%(contribs_elem _ _ _ Ecs))%elem_of_list_fmap.
        assert (f = g) as ->; [|done]. eapply (H f g c a p'); [by left|by right|done|done|done|].
        apply elem_of_list_fmap. by exists (p', n).
      * intros g g' a a' p Hg Hg'. apply H; by right.
Qed.

Lemma plain_stored d f : plain_dir d -> version_entry d f -> is_Some (contrib d f) ->
  exists n v, plain_name n /\ f = n ++ L ".yaml" /\ stored d n v.
Proof.
  intros Hd He [c Hc]. destruct (Hd f He) as (n & Hn & ->).
  apply contrib_plain in Hc as (v & Hv & _); [|done|done]. by exists n, v.
Qed.
Lemma contrib_skip d f : ~ version_entry d f -> contrib d f = Some [].
Proof.
  intros H. unfold contrib. destruct (considered d f) eqn:E; [|done]. by apply considered_iff in E.
Qed.
Lemma plain_stored_name d n v : plain_dir d -> stored d n v -> plain_name n.
Proof.
  intros Hd Hv. destruct (Hd _ (stored_entry _ _ _ Hv)) as (m & Hm & E). by apply app_inv_tail in E as ->.
Qed.

Lemma plain_contrib_elem d f c p x :
  plain_dir d -> contrib d f = Some c -> (p, x) ∈ c ->
  exists n v, f = n ++ L ".yaml" /\ stored d n v /\ v_previous v = Some p /\ v_name v = x.
Proof.
  intros Hd Hc Hp. destruct (decide (considered d f = true)) as [He%considered_iff|He].
  - destruct (Hd f He) as (n & Hn & ->). apply contrib_plain in Hc as (v & Hv & ->); [|done|done].
    exists n, v. split; [done|]. split; [done|]. destruct (v_previous v); [|by apply elem_of_nil in Hp].
    apply elem_of_list_singleton in Hp as [= -> ->]. done.
  - rewrite contrib_skip in Hc; [|by rewrite <- considered_iff]. injection Hc as <-. by apply elem_of_nil in Hp.
Qed.
Lemma stored_contrib d n v : plain_dir d -> stored d n v ->
  contrib d (n ++ L ".yaml") = Some (match v_previous v with Some p => [(p, v_name v)] | None => [] end).
Proof.
  intros Hd Hv. apply contrib_plain; [by eapply plain_stored_name|by eapply stored_entry|]. by exists v.
Qed.
Lemma stored_listed l d n v : stored d n v -> n ++ L ".yaml" ∈ ls l d.
Proof. intros [_ H]. apply listed. by eexists. Qed.
Lemma ls_nodup l d : NoDup (ls l d).
Proof. rewrite ls_perm. apply NoDup_fst_map_to_list. Qed.

Lemma read_entries_plain l d m :
  plain_dir d ->
  read_entries d (ls l d) ∅ = Ret m <->
  (forall f, version_entry d f -> exists v, d !! f = Some (Document v)) /\ ~ branches d /\
  (forall a b, m !! a = Some b <-> follows d a b).
Proof.
  intros Hd. rewrite read_entries_iff. split.
  - intros (ps & H1 & H2 & _ & ->). pose proof (contribs_elem _ _ _ H1) as Hel.
    pose proof (proj1 (contribs_nodup _ _ _ H1 (ls_nodup l d)) H2) as Huniq.
    assert (forall f, f ∈ ls l d -> is_Some (contrib d f)) as Hall by (apply contribs_Some; by eexists).
    split; [|split].
    + intros f He. destruct (plain_stored d f Hd He) as (n & v & Hn & -> & Hv).
      { apply Hall, listed. destruct He as (_ & e & ? & _). by eexists. }
      exists v. by destruct Hv.
    + intros (n & n' & v & v' & p & Hne & Hv & Hv' & Hp & Hp'). apply Hne.
      pose proof (stored_contrib d n v Hd Hv) as K. pose proof (stored_contrib d n' v' Hd Hv') as K'.
      rewrite Hp in K. rewrite Hp' in K'. apply (app_inv_tail (L ".yaml")).
      eapply (Huniq _ _ _ _ p); [by eapply stored_listed|by eapply stored_listed|exact K|exact K'|..];
        apply elem_of_list_here.
    + intros a b. rewrite (right_id_L ∅ (∪)). rewrite <- elem_of_list_to_map by done. rewrite Hel. split.
      * intros (f & c & Hf & Hc & Hx). destruct (plain_contrib_elem _ _ _ _ _ Hd Hc Hx) as (n & v & -> & Hv & Hp & Hx').
        by exists n, v.
      * intros (n & v & Hv & Hp & <-). eexists _, _. split; [by eapply (stored_listed l)|].
        split; [by apply stored_contrib|]. rewrite Hp. apply elem_of_list_here.
  - intros (H1 & H2 & H3).
    assert (forall f, f ∈ ls l d -> is_Some (contrib d f)) as Hall.
    { intros f _. destruct (decide (considered d f = true)) as [He%considered_iff|He].
      - destruct (H1 f He) as [v Hv]. destruct (Hd f He) as (n & Hn & ->).
        eexists. apply stored_contrib; [done|]. split; [apply Hn|done].
      - rewrite contrib_skip; [by eexists|]. by rewrite <- considered_iff. }
    destruct (proj1 (contribs_Some _ _) Hall) as [ps Hps]. pose proof (contribs_elem _ _ _ Hps) as Hel.
    assert (NoDup ps.*1) as Hnd.
    { apply (contribs_nodup _ _ _ Hps (ls_nodup l d)).
      intros f g c c' p _ _ Hc Hc' ([p' x] & Ep & Hx)%elem_of_list_fmap ([p'' x'] & Ep' & Hx')%elem_of_list_fmap.
      simpl in *. subst p' p''.
      destruct (plain_contrib_elem _ _ _ _ _ Hd Hc Hx) as (n & v & -> & Hv & Hpv & _).
      destruct (plain_contrib_elem _ _ _ _ _ Hd Hc' Hx') as (n' & v' & -> & Hv' & Hpv' & _).
      destruct (decide (n = n')) as [->|Hne]; [done|]. destruct H2. exists n, n', v, v', p. done. }
    exists ps. split; [done|]. split; [done|]. split; [by intros; apply lookup_empty|].
    rewrite (right_id_L ∅ (∪)). apply map_eq. intros a. apply option_eq. intros b.
    rewrite H3. rewrite <- elem_of_list_to_map by done. rewrite Hel. split.
    + intros (n & v & Hv & Hp & <-). eexists _, _. split; [by eapply (stored_listed l)|].
      split; [by apply stored_contrib|]. rewrite Hp. apply elem_of_list_here.
    + intros (f & c & Hf & Hc & Hx). destruct (plain_contrib_elem _ _ _ _ _ Hd Hc Hx) as (n & v & -> & Hv & Hp & Hx').
      by exists n, v.
Qed.

Lemma read_entries_defined l d :
  plain_dir d -> (forall f, version_entry d f -> exists v, d !! f = Some (Document v)) -> ~ branches d ->
  exists m, read_entries d (ls l d) ∅ = Ret m.
Proof.
  intros Hd H1 H2.
  assert (forall f, f ∈ ls l d -> is_Some (contrib d f)) as Hall.
  { intros f _. destruct (decide (considered d f = true)) as [He%considered_iff|He].
    - destruct (H1 f He) as [v Hv]. destruct (Hd f He) as (n & Hn & ->).
      eexists. apply stored_contrib; [done|]. split; [apply Hn|done].
    - rewrite contrib_skip; [by eexists|]. by rewrite <- considered_iff. }
  destruct (proj1 (contribs_Some _ _) Hall) as [ps Hps].
  exists (list_to_map ps ∪ ∅). apply read_entries_iff. exists ps. split; [done|]. split; [|split; [|done]].
  - apply (contribs_nodup _ _ _ Hps (ls_nodup l d)).
    intros f g c c' p _ _ Hc Hc' ([p' x] & Ep & Hx)%elem_of_list_fmap ([p'' x'] & Ep' & Hx')%elem_of_list_fmap.
    simpl in *. subst p' p''.
    destruct (plain_contrib_elem _ _ _ _ _ Hd Hc Hx) as (n & v & -> & Hv & Hpv & _).
    destruct (plain_contrib_elem _ _ _ _ _ Hd Hc' Hx') as (n' & v' & -> & Hv' & Hpv' & _).
    destruct (decide (n = n')) as [->|Hne]; [done|]. destruct H2. exists n, n', v, v', p. done.
  - by intros; apply lookup_empty.
Qed.
Lemma walk_end_current m d c :
  (forall a b, m !! a = Some b <-> follows d a b) -> walk_end m c <-> is_current d c.
Proof.
  intros H. unfold walk_end, is_current.
  assert (forall a, m !! a = None <-> forall x, ~ follows d a x) as Hn.
  { intros a. rewrite eq_None_not_Some. split.
    - intros K x Hx. apply K. exists x. by apply H.
    - intros K [x Hx]. by apply (K x), H. }
  assert (forall a b, rtc (next_rel m) a b <-> rtc (follows d) a b) as Hr.
  { intros a b. split; induction 1; try done; (eapply rtc_l; [|done]); by apply H. }
  rewrite Hr. setoid_rewrite H. setoid_rewrite Hn. done.
Qed.

Lemma from_dir_iff l d h :
  plain_dir d ->
  from_dir l d = Ret h <->
  (forall f, version_entry d f -> exists v, d !! f = Some (Document v)) /\ ~ branches d /\
  (forall a b, next_map h !! a = Some b <-> follows d a b) /\ is_current d (current_version h).
Proof.
  intros Hd. unfold from_dir. split.
  - destruct (read_entries_outcomes d (ls l d) ∅) as [[m E]|[e ->]]; [|done]. rewrite E. cbn [ebind].
    destruct (walk_outcomes (S (size m)) m INIT INIT) as [[c Ec]| ->]; [|done]. rewrite Ec. cbn [ebind].
    intros [= <-]. apply (read_entries_plain l d m Hd) in E as (H1 & H2 & H3). split; [done|]. split; [done|].
    split; [done|]. apply (walk_end_current m d c H3). by apply walk_iff.
  - intros (H1 & H2 & H3 & H4).
    rewrite (proj2 (read_entries_plain l d (next_map h) Hd)) by done. cbn [ebind].
    rewrite (proj2 (walk_iff (next_map h) (current_version h))) by (by apply (walk_end_current _ d)).
    by destruct h.
Qed.

Lemma branched_fails l d n n' v v' p :
  plain_name n -> plain_name n' -> n <> n' -> stored d n v -> stored d n' v' ->
  v_previous v = Some p -> v_previous v' = Some p -> exists e, from_dir l d = Raise e.
Proof.
  intros Hn Hn' Hne Hv Hv' Hp Hp'. unfold from_dir.
  destruct (read_entries_outcomes d (ls l d) ∅) as [[m E]|[e ->]]; [|by eexists]. exfalso. apply Hne.
  apply read_entries_iff in E as (ps & H1 & H2 & _ & _).
  pose proof (proj1 (contribs_nodup _ _ _ H1 (ls_nodup l d)) H2) as Huniq.
  apply (app_inv_tail (L ".yaml")).
  eapply (Huniq _ _ _ _ p); [by eapply stored_listed|by eapply stored_listed| | |..].
  - apply contrib_plain; [done|by eapply stored_entry|]. exists v. by rewrite Hp.
  - apply contrib_plain; [done|by eapply stored_entry|]. exists v'. by rewrite Hp'.
  - apply elem_of_list_here.
  - apply elem_of_list_here.
Qed.
