(** Lemmas about several migrations at the same time: the rows stay a chain. *)
From Verif Require Import Base Text Types Changes Sql History SpecHistory HistoryLemmas HistoryLoad Dbh SpecDb DbLemmas DbSteps
  Concurrent SpecConcurrent.
From stdpp Require Import sorting.

Section chain.
  Context (vs : list version) (Hvs : timeline vs).

  Lemma linked_lookup p (l : list version) j v u :
    linked p l -> l !! j = Some u -> l !! S j = Some v -> v_previous v = Some (v_name u).
  Proof.
    revert p j. induction l as [|w l IH]; intros p j; [done|]. intros [_ H]. destruct j as [|j]; simpl.
    - intros [= <-] Hv. destruct l as [|w' l]; [done|]. injection Hv as <-. by destruct H.
    - by eapply IH.
  Qed.
  (** What the version at place [j] of the list follows. *)
  Lemma previous_of j u v : (new_init :: vs) !! j = Some u -> vs !! j = Some v -> v_previous v = Some (v_name u).
  Proof. destruct Hvs as (H & _). intros Hu Hv. by apply (linked_lookup None (new_init :: vs) j). Qed.
  Lemma names_inj i j u v :
    (new_init :: vs) !! i = Some u -> (new_init :: vs) !! j = Some v -> v_name u = v_name v -> i = j.
  Proof.
    destruct Hvs as (_ & H & _). intros Hu Hv E. apply (NoDup_lookup _ i j (v_name u) H).
    - by rewrite list_lookup_fmap, Hu.
    - by rewrite list_lookup_fmap, Hv, E.
  Qed.
  Lemma inj_vs i j u v : vs !! i = Some u -> vs !! j = Some v -> v_name u = v_name v -> i = j.
  Proof. intros Hu Hv E. pose proof (names_inj (S i) (S j) u v Hu Hv E). lia. Qed.
  Lemma name_not_init j v : vs !! j = Some v -> v_name v <> INIT.
  Proof. intros Hv E. pose proof (names_inj 0 (S j) new_init v eq_refl Hv (eq_sym E)). lia. Qed.
  Lemma elem_between v a b : v ∈ drop a (take b vs) <-> exists j, a <= j < b /\ vs !! j = Some v.
  Proof.
    rewrite elem_of_list_lookup. split.
    - intros [j Hj]. rewrite lookup_drop in Hj. apply lookup_take_Some in Hj as [Hj ?]. exists (a + j). split; [lia|done].
    - intros (j & Hj & Hv). exists (j - a). rewrite lookup_drop. replace (a + (j - a)) with j by lia.
      apply lookup_take_Some. split; [done|lia].
  Qed.
  Lemma elem_upto v b : v ∈ take b vs <-> exists j, j < b /\ vs !! j = Some v.
  Proof. pose proof (elem_between v 0 b) as H. rewrite drop_0 in H. rewrite H. split; intros (j & Hj & Hv); exists j; (split; [lia|done]). Qed.
  Lemma name_between n a b : n ∈ v_name <$> drop a (take b vs) <-> exists j v, a <= j < b /\ vs !! j = Some v /\ n = v_name v.
  Proof.
    rewrite elem_of_list_fmap. split.
    - intros (v & -> & (j & Hj & Hv)%elem_between). eauto.
    - intros (j & v & Hj & Hv & ->). exists v. split; [done|]. apply elem_between. eauto.
  Qed.
  Lemma name_upto n b : n ∈ v_name <$> new_init :: take b vs <-> n = INIT \/ exists j v, j < b /\ vs !! j = Some v /\ n = v_name v.
  Proof.
    rewrite fmap_cons, elem_of_cons. apply or_iff_compat_l. rewrite elem_of_list_fmap. split.
    - intros (v & -> & (j & Hj & Hv)%elem_upto). eauto.
    - intros (j & v & Hj & Hv & ->). exists v. split; [done|]. apply elem_upto. eauto.
  Qed.
  (** A version that can be added to the first [b] is the next one. *)
  Lemma next_version v b :
    v ∈ vs -> v_name v ∉ v_name <$> new_init :: take b vs ->
    Forall (fun p => p = v_name v \/ p ∈ v_name <$> new_init :: take b vs) (option_list (v_previous v)) ->
    vs !! b = Some v.
  Proof.
    intros [j Hj]%elem_of_list_lookup Hn Hp.
    assert (is_Some ((new_init :: vs) !! j)) as [u Hu].
    { apply lookup_lt_is_Some. apply lookup_lt_Some in Hj. simpl. lia. }
    rewrite (previous_of j u v Hu Hj) in Hp. simpl in Hp. apply Forall_inv in Hp as [Hp|Hp].
    - pose proof (names_inj j (S j) u v Hu Hj Hp). lia.
    - assert (b <= j) as Hb.
      { destruct (decide (b <= j)); [done|]. exfalso. apply Hn. apply name_upto. right. exists j, v. split; [lia|done]. }
      apply name_upto in Hp as [Hp|(i & w & Hi & Hw & Hp)].
      + pose proof (names_inj j 0 u new_init Hu eq_refl Hp). assert (b = j) as -> by lia. done.
      + pose proof (names_inj j (S i) u w Hu Hw Hp). assert (b = j) as -> by lia. done.
  Qed.

  (** ** Rows *)

  Context (o0 : Z).
  (** Init, numbered [o0], and the first [n] versions, with larger numbers. *)
  Definition good (n : nat) (l : list row) : Prop :=
    n <= length vs /\ exists rest, l = Row new_init o0 :: rest /\ r_version <$> rest = take n vs /\
    Forall (fun r => o0 < r_order r)%Z rest.

  Lemma row_names (l : list row) : row_name <$> l = v_name <$> (r_version <$> l).
  Proof. by rewrite <- list_fmap_compose. Qed.
  Lemma good_versions n l : good n l -> r_version <$> l = new_init :: take n vs.
  Proof. intros (_ & rest & -> & E & _). by rewrite fmap_cons, E. Qed.
  Lemma good_names n l : good n l -> row_name <$> l = v_name <$> new_init :: take n vs.
  Proof. intros H. by rewrite row_names, (good_versions n l H). Qed.

  Lemma take_next n v : vs !! n = Some v -> take (S n) vs = take n vs ++ [v].
  Proof. apply take_S_r. Qed.
  Lemma good_add n l v o : good n l -> vs !! n = Some v -> (o0 < o)%Z -> good (S n) (l ++ [Row v o]).
  Proof.
    intros (Hn & rest & -> & E & Ho) Hv Hlt. split; [by apply lookup_lt_Some in Hv|]. exists (rest ++ [Row v o]).
    split; [done|]. split; [by rewrite fmap_app, E, (take_next n v)|]. apply Forall_app. split; [done|]. by constructor.
  Qed.
  Lemma fmap_filter_name (l : list row) n :
    r_version <$> filter (fun r => row_name r <> n) l = filter (fun v => v_name v <> n) (r_version <$> l).
  Proof.
    induction l as [|r l IH]; [done|]. rewrite fmap_cons, !filter_cons.
    destruct (decide (row_name r <> n)) as [H|H], (decide (v_name (r_version r) <> n)) as [K|K];
      try (unfold row_name in *; contradiction).
    - by rewrite fmap_cons, IH.
    - done.
  Qed.
  (** Dropping the last of some versions in a row. *)
  Lemma filter_last a b v : a <= b -> vs !! b = Some v ->
    filter (fun w => v_name w <> v_name v) (drop a (take (S b) vs)) = drop a (take b vs).
  Proof.
    intros Hab Hv. rewrite (take_next b v Hv).
    assert (b <= length vs) by (apply lookup_lt_Some in Hv; lia).
    rewrite drop_app_le by (rewrite take_length; lia). rewrite filter_app.
    rewrite (filter_all _ (drop a (take b vs))).
    - rewrite filter_cons, decide_False by (intros K; by apply K). by rewrite filter_nil, app_nil_r.
    - intros w (j & Hj & Hw)%elem_between E. pose proof (inj_vs j b w v Hw Hv E). lia.
  Qed.

  (** ** Programs that only add versions of the project, and never delete init *)

  Inductive phase := Plain | HasSchema | HasTable.
  Inductive polite : phase -> program () -> Prop :=
    | polite_stop ph r : polite ph (Stop r)
    | polite_ask k : (forall b, polite Plain (k (Exists_ b))) -> polite Plain (k Failed) -> polite Plain (Ask AskSchema k)
    | polite_schema k : polite HasSchema (k Accepted) -> polite Plain (k Failed) -> polite Plain (Ask MakeSchema k)
    | polite_table k : polite HasTable (k Accepted) -> polite HasSchema (k Failed) -> polite HasSchema (Ask MakeTable k)
    | polite_init k : polite Plain (k Accepted) -> (exists r, k Failed = Stop r) -> polite HasTable (Ask (InsertRow new_init) k)
    | polite_insert v k : v ∈ vs -> polite Plain (k Accepted) -> polite Plain (k Failed) -> polite Plain (Ask (InsertRow v) k)
    | polite_delete n k : n <> INIT -> polite Plain (k Accepted) -> polite Plain (k Failed) -> polite Plain (Ask (DeleteRow n) k)
    | polite_select k : (forall n l, good n l -> polite Plain (k (Rows l))) -> polite Plain (k Failed) -> polite Plain (Ask Select k)
    | polite_execute stmt k : polite Plain (k Accepted) -> polite Plain (k Failed) -> polite Plain (Ask (Execute stmt) k)
    | polite_commit k : polite Plain (k Accepted) -> polite Plain (k Failed) -> polite Plain (Ask Commit k).

  (** A transaction that changed nothing so far. *)
  Definition clean (x : transaction) : Prop := x_new x = None /\ x_rows x = [] /\ x_gone x = [].

  (** The transaction deleted all but the first [a] of the [n] versions, and then added some, up to [b]. *)
  Definition shape (n a b : nat) (x : transaction) : Prop :=
    a <= n /\ a <= b <= length vs /\
    (forall m, m ∈ x_gone x <-> m ∈ v_name <$> drop a (take n vs)) /\
    r_version <$> x_rows x = drop a (take b vs) /\ Forall (fun r => o0 < r_order r)%Z (x_rows x).

  Definition sound (o : option (option vtable)) (ph : phase) (x : transaction) : Prop :=
    match ph with
    | HasSchema => o = None /\ x_new x = Some None /\ x_rows x = [] /\ x_gone x = [] /\ x_number x = None
    | HasTable => o = None /\ x_rows x = [] /\ x_gone x = [] /\ exists z, x_new x = Some (Some z) /\
        ((exists r, x_program x = Stop r) \/ (z = o0 /\ x_number x = None) \/ (z = (o0 + 1)%Z /\ x_number x = Some o0))
    | Plain => (forall z, x_number x = Some z -> o0 < z)%Z /\
        match x_new x, o with
        | None, None => x_rows x = [] /\ x_gone x = [] /\ x_number x = None
        | None, Some (Some t) => exists n a b, good n (t_rows t) /\ shape n a b x
        | Some (Some z), None => x_gone x = [] /\ (o0 < z)%Z /\ exists n, good n (x_rows x)
        | _, _ => False
        end
    end.

  Definition consistent (s : server) : Prop :=
    match s_table s with
    | None => o0 = 1%Z
    | Some None => False
    | Some (Some t) => (exists n, good n (t_rows t)) /\ (o0 < t_next t)%Z
    end /\
    (forall i x, s_running s !! i = Some x -> exists ph, polite ph (x_program x) /\ sound (s_table s) ph x) /\
    (forall i j x y, s_running s !! i = Some x -> s_running s !! j = Some y -> ~ clean x -> ~ clean y -> i = j).

  Lemma good_unique n m l : good n l -> good m l -> n = m.
  Proof.
    intros (Hn & r1 & -> & E1 & _) (Hm & r2 & E & E2 & _). injection E as <-. rewrite E1 in E2.
    apply (f_equal length) in E2. rewrite !take_length in E2. lia.
  Qed.
  Lemma clean_dec x : {clean x} + {~ clean x}.
  Proof.
    unfold clean. destruct (x_new x) as [o|]; [right; naive_solver|]. destruct (x_rows x) as [|]; [|right; naive_solver].
    destruct (x_gone x); [by left|right; naive_solver].
  Qed.
  Lemma elem_others i s y : y ∈ others i s <-> exists j, j <> i /\ s_running s !! j = Some y.
  Proof.
    unfold others. rewrite elem_of_list_fmap. split.
    - intros ([j z] & -> & H%elem_of_map_to_list). apply lookup_delete_Some in H as [??]. exists j. split; [done|done].
    - intros (j & Hj & Hy). exists (j, y). split; [done|]. apply elem_of_map_to_list. by rewrite lookup_delete_ne.
  Qed.

  (** The rows a transaction sees. *)
  Lemma filter_gone n a b x l : good n l -> shape n a b x ->
    good b (filter (fun r => row_name r ∉ x_gone x) l ++ x_rows x).
  Proof.
    intros (Hn & rest & -> & E & Ho) (Ha & Hb & Hg & Er & Hor).
    assert (INIT ∉ x_gone x) as Hi.
    { rewrite Hg. intros (j & v & _ & Hv & Hi)%name_between. by apply (name_not_init j v Hv). }
    split; [lia|]. rewrite filter_cons, decide_True by done.
    assert (exists front, filter (fun r => row_name r ∉ x_gone x) rest = front /\ r_version <$> front = take a vs /\
              Forall (fun r => o0 < r_order r)%Z front) as (front & Ef & Ev & Hf).
    { exists (take a rest).
      assert (length rest = n) as Hlen.
      { apply (f_equal length) in E. rewrite fmap_length, take_length in E. lia. }
      split_and!.
      - rewrite <- (take_drop a rest) at 1. rewrite filter_app.
        rewrite (filter_all _ (take a rest)), (filter_none _ (drop a rest)); [by rewrite app_nil_r|..].
        + intros r Hr K. apply K, Hg. unfold row_name. apply elem_of_list_fmap_1. rewrite <- E, <- fmap_drop. by apply elem_of_list_fmap_1.
        + intros r Hr K%Hg. apply name_between in K as (j & v & Hj & Hv & K).
          assert (r_version r ∈ take a vs) as Hra.
          { replace (take a vs) with (take a (take n vs)) by (rewrite take_take; f_equal; lia).
            rewrite <- E, <- fmap_take. by apply elem_of_list_fmap_1. }
          apply elem_upto in Hra as (i & Hi' & Hw). pose proof (inj_vs i j _ v Hw Hv K). lia.
      - rewrite fmap_take, E, take_take. f_equal. lia.
      - by apply Forall_take. }
    exists (front ++ x_rows x). rewrite Ef. split; [done|]. split; [|by apply Forall_app].
    rewrite fmap_app, Ev, Er.
    rewrite <- (take_drop a (take b vs)) at 2. rewrite take_take. do 2 f_equal. lia.
  Qed.
  Lemma visible_good o tr co en run x rows :
    sound o Plain x -> visible x (Server o run tr co en) = Some rows -> exists b, good b rows.
  Proof.
    intros [_ H] Hv. unfold visible in Hv. simpl in Hv. destruct (x_new x) as [[z|]|]; [|done|].
    - injection Hv as <-. destruct o as [[t|]|]; [done..|]. naive_solver.
    - destruct o as [[t|]|]; [|done..]. injection Hv as <-. destruct H as (n & a & b & Hg & Hs). exists b. by eapply filter_gone.
  Qed.

  (** ** One step *)

  Definition fine (o : option (option vtable)) : Prop :=
    match o with
    | None => o0 = 1%Z
    | Some None => False
    | Some (Some t) => (exists n, good n (t_rows t)) /\ (o0 < t_next t)%Z
    end.
  Definition same_rows (o o' : option (option vtable)) : Prop :=
    option_map (option_map t_rows) o = option_map (option_map t_rows) o'.
  Lemma sound_same o o' ph x : same_rows o o' -> sound o ph x -> sound o' ph x.
  Proof.
    unfold same_rows. destruct o as [[t|]|], o' as [[t'|]|]; intros E; try discriminate E; try done.
    injection E as E. intros H. destruct ph; simpl in *; try (destruct H as [? H]; done).
    destruct H as [H1 H2]. split; [done|]. destruct (x_new x); [done|]. by rewrite <- E.
  Qed.
  Lemma take_drop_nil n : drop n (take n vs) = [].
  Proof. apply nil_length_inv. rewrite drop_length, take_length. lia. Qed.
  Lemma sound_clean o ph x : fine o -> sound o ph x -> forall o', fine o' -> (o' = None -> o = None) -> clean x -> sound o' ph x.
  Proof.
    intros Ho H o' Ho' Hoo (H1 & H2 & H3). destruct ph; simpl in H.
    - destruct H as [H H']. split; [done|]. rewrite H1 in *. destruct o' as [[t|]|]; [|done|by rewrite Hoo in H'].
      destruct Ho' as [[n Hn] _]. exists n, n, n. split; [done|]. pose proof (proj1 Hn). split; [lia|]. split; [lia|].
      rewrite H2, H3, take_drop_nil. done.
    - destruct H as (_ & H & _). congruence.
    - destruct H as (_ & _ & _ & z & H & _). congruence.
  Qed.

  Lemma update s i x x' o tr co en :
    consistent s -> s_running s !! i = Some x -> fine o -> (o = None -> s_table s = None) ->
    (exists ph, polite ph (x_program x') /\ sound o ph x') ->
    (same_rows (s_table s) o \/ forall y, y ∈ others i s -> clean y) ->
    (clean x' \/ ~ clean x \/ forall y, y ∈ others i s -> clean y) ->
    consistent (Server o (<[i := x']> (s_running s)) tr co en).
  Proof.
    intros (Ho & Hr & Hd) Hx Ho' Hoo Hx' Hrows Hclean. split; [done|]. split.
    - simpl. intros j y. destruct (decide (i = j)) as [<-|Hij].
      + rewrite lookup_insert. by intros [= <-].
      + rewrite lookup_insert_ne by done. intros Hy. destruct (Hr j y Hy) as (ph & Hp & Hs). exists ph. split; [done|].
        destruct Hrows as [Hrows|Hrows]; [by apply (sound_same (s_table s))|].
        apply (sound_clean (s_table s)); [done..|]. apply Hrows, elem_others. by exists j.
    - simpl. intros j1 j2 y1 y2 H1 H2 N1 N2.
      destruct (decide (i = j1)) as [<-|Hj1], (decide (i = j2)) as [<-|Hj2]; [done|..].
      + rewrite lookup_insert in H1. injection H1 as <-. rewrite lookup_insert_ne in H2 by done.
        destruct Hclean as [K|[K|K]]; [done|by eapply Hd|]. destruct N2. apply K, elem_others. by exists j2.
      + rewrite lookup_insert in H2. injection H2 as <-. rewrite lookup_insert_ne in H1 by done.
        destruct Hclean as [K|[K|K]]; [done|symmetry; by eapply Hd|]. destruct N1. apply K, elem_others. by exists j1.
      + rewrite lookup_insert_ne in H1, H2 by done. by eapply Hd.
  Qed.
  Lemma others_clean_or s i x : consistent s -> s_running s !! i = Some x ->
    (forall y, y ∈ others i s -> clean y) \/ exists y j, j <> i /\ s_running s !! j = Some y /\ ~ clean y /\ clean x.
  Proof.
    intros (_ & _ & Hd) Hx. destruct (Forall_Exists_dec clean (fun y => ~ clean y) clean_dec (others i s)) as [H|H].
    - left. by apply Forall_forall.
    - right. apply Exists_exists in H as (y & (j & Hj & Hy)%elem_others & Hn). exists y, j. split_and!; [done..|].
      destruct (clean_dec x) as [|Hn']; [done|]. destruct Hj. by eapply Hd.
  Qed.

  Lemma sound_program o x p : sound o Plain x -> sound o Plain (set_program p x).
  Proof. done. Qed.
  Lemma sound_drop o x p : sound o Plain x -> sound o Plain (set_program p (drop_number x)).
  Proof. intros [_ H]. split; [done|]. simpl. destruct (x_new x), o as [[]|]; try done. by destruct H as (? & ? & _). Qed.

  (** What another transaction that changed something leaves possible for one that did not. *)
  Lemma dirty_shape s j y : consistent s -> s_running s !! j = Some y -> ~ clean y ->
    (s_table s = None /\ is_Some (x_new y)) \/
    exists t n a b, s_table s = Some (Some t) /\ good n (t_rows t) /\ shape n a b y /\ (a < n \/ a < b).
  Proof.
    intros (Ho & Hr & _) Hy Hn. destruct (Hr j y Hy) as (ph & _ & Hs). destruct ph; simpl in Hs.
    - destruct Hs as [_ Hs]. destruct (x_new y) as [[z|]|] eqn:E.
      + destruct (s_table s) as [[t|]|]; [done..|]. left. split; [done|by eexists].
      + done.
      + destruct (s_table s) as [[t|]|] eqn:Et.
        * right. destruct Hs as (n & a & b & Hg & Hs). exists t, n, a, b. split_and!; [done..|].
          destruct (decide (a < n \/ a < b)) as [|Hab]; [done|]. destruct Hn.
          destruct Hs as (H1 & H2 & H3 & H4 & H5). assert (n = a) as -> by lia. assert (b = a) as -> by lia.
          rewrite take_drop_nil in H4, H3. split; [done|]. split; [by apply fmap_nil_inv in H4|].
          destruct (x_gone y) as [|m l]; [done|]. specialize (H3 m). destruct H3 as [H3 _]. specialize (H3 ltac:(by left)).
          by apply elem_of_nil in H3.
        * done.
        * destruct Hn. split; [done|]. by destruct Hs as (? & ? & _).
    - left. destruct Hs as (H & H' & _). rewrite H'. split; [done|by eexists].
    - left. destruct Hs as (H & _ & _ & z & H' & _). rewrite H'. split; [done|by eexists].
  Qed.
  Lemma clean_visible x s t : clean x -> s_table s = Some (Some t) -> visible x s = Some (t_rows t).
  Proof.
    intros (H1 & H2 & H3) Ht. unfold visible. rewrite H1, Ht, H2, H3, app_nil_r. f_equal. apply filter_all.
    intros r _ K. by apply elem_of_nil in K.
  Qed.
  (** Nothing can be added then. *)
  Lemma no_insert s i j x y v o rows : consistent s -> s_running s !! j = Some y -> j <> i -> ~ clean y -> clean x ->
    v ∈ vs -> visible x s = Some rows ->
    ~ Exists (fun y => v_name v ∈ (row_name <$> x_rows y) ++ x_gone y \/ o ∈ (r_order <$> x_rows y) \/
                       Exists (fun p => p ∈ x_gone y) (option_list (v_previous v))) (others i s) ->
    v_name v ∉ row_name <$> rows ->
    ~ Forall (fun p => p = v_name v \/ p ∈ row_name <$> rows) (option_list (v_previous v)).
  Proof.
    intros Hc Hy Hj Hny Hx Hv Hvis Hw Hn Hp.
    destruct (dirty_shape s j y Hc Hy Hny) as [[Ht _]|(t & n & a & b & Ht & Hg & (Ha & Hb & Hgone & Hrows & _) & Hab)].
    - unfold visible in Hvis. destruct Hx as (H & _). by rewrite H, Ht in Hvis.
    - rewrite (clean_visible x s t Hx Ht) in Hvis. injection Hvis as <-.
      rewrite (good_names n _ Hg) in Hn, Hp. pose proof (next_version v n Hv Hn Hp) as Hnext.
      apply Hw, Exists_exists. exists y. split; [apply elem_others; by exists j|].
      destruct (decide (a < n)) as [Han|Han].
      + right. right. destruct n as [|n]; [lia|]. assert (is_Some (vs !! n)) as [u Hu].
        { apply lookup_lt_is_Some. apply lookup_lt_Some in Hnext. lia. }
        rewrite (previous_of (S n) u v Hu Hnext). simpl. constructor. apply Hgone, name_between. exists n, u. split; [lia|done].
      + left. apply elem_of_app. left. rewrite row_names, Hrows. apply name_between. exists n, v. split; [lia|done].
  Qed.
  (** Nor can anything be deleted. *)
  Lemma no_delete s i j x y m rows : consistent s -> s_running s !! j = Some y -> j <> i -> ~ clean y -> clean x ->
    m <> INIT -> visible x s = Some rows -> m ∈ row_name <$> rows ->
    ~ Exists (fun y => m ∈ x_gone y \/ Some m ∈ ((fun r => v_previous (r_version r)) <$> x_rows y) \/
        Exists (fun r => row_name r ∈ x_gone y) (filter (fun r => row_name r <> m /\ v_previous (r_version r) = Some m) rows)) (others i s) ->
    filter (fun r => row_name r <> m /\ v_previous (r_version r) = Some m) rows <> [].
  Proof.
    intros Hc Hy Hj Hny Hx Hm Hvis Hin Hw He.
    destruct (dirty_shape s j y Hc Hy Hny) as [[Ht _]|(t & n & a & b & Ht & Hg & (Ha & Hb & Hgone & Hrows & _) & Hab)].
    - unfold visible in Hvis. destruct Hx as (H & _). by rewrite H, Ht in Hvis.
    - rewrite (clean_visible x s t Hx Ht) in Hvis. injection Hvis as <-.
      rewrite (good_names n _ Hg) in Hin. apply name_upto in Hin as [|(c & v & Hcn & Hv & ->)]; [done|].
      assert (S c = n) as <-.
      { destruct (decide (S c = n)) as [|Hne]; [done|]. exfalso. assert (is_Some (vs !! S c)) as [w Hwv].
        { apply lookup_lt_is_Some. pose proof (proj1 Hg). lia. }
        assert (w ∈ r_version <$> t_rows t) as Hwr.
        { rewrite (good_versions n _ Hg). right. apply elem_upto. exists (S c). split; [lia|done]. }
        apply elem_of_list_fmap in Hwr as (r & -> & Hr).
        assert (r ∈ filter (fun r => row_name r <> v_name v /\ v_previous (r_version r) = Some (v_name v)) (t_rows t)) as K.
        { apply elem_of_list_filter. split; [|done]. split.
          - intros E. pose proof (inj_vs (S c) c _ v Hwv Hv E). lia.
          - by apply (previous_of (S c) v). }
        rewrite He in K. by apply elem_of_nil in K. }
      apply Hw, Exists_exists. exists y. split; [apply elem_others; by exists j|].
      destruct (decide (a < S c)) as [Hac|Hac].
      + left. apply Hgone, name_between. exists c, v. split; [lia|done].
      + right. left. assert (a = S c) as -> by lia. assert (is_Some (vs !! S c)) as [w Hwv] by (apply lookup_lt_is_Some; lia).
        assert (w ∈ r_version <$> x_rows y) as Hwr by (rewrite Hrows; apply elem_between; exists (S c); split; [lia|done]).
        apply elem_of_list_fmap in Hwr as (r & -> & Hr). apply elem_of_list_fmap. exists r. split; [|done].
        symmetry. by apply (previous_of (S c) v).
  Qed.

  Lemma fine_now s : consistent s -> fine (s_table s).
  Proof. by intros [H _]. Qed.
  Lemma visible_now s i x rows : consistent s -> s_running s !! i = Some x -> sound (s_table s) Plain x ->
    visible x s = Some rows -> exists b, good b rows.
  Proof. destruct s as [o run tr co en]. intros _ _. apply visible_good. Qed.

  (** The transaction goes on with another program, everything else is as before. *)
  Lemma keep s i x p : consistent s -> s_running s !! i = Some x -> sound (s_table s) Plain x -> polite Plain p ->
    consistent (set_running i (set_program p x) s).
  Proof.
    intros Hc Hx Hs Hp. apply (update s i x); [done|done|by apply fine_now|done|..].
    - by exists Plain.
    - by left.
    - destruct (clean_dec x) as [H|H]; [by left|by right; left].
  Qed.
  Lemma keep_drop s i x p : consistent s -> s_running s !! i = Some x -> sound (s_table s) Plain x -> polite Plain p ->
    consistent (set_running i (set_program p (drop_number x)) s).
  Proof.
    intros Hc Hx Hs Hp. apply (update s i x); [done|done|by apply fine_now|done|..].
    - exists Plain. split; [done|]. by apply sound_drop.
    - by left.
    - destruct (clean_dec x) as [H|H]; [by left|by right; left].
  Qed.

  Lemma place s i x v o rows p : consistent s -> s_running s !! i = Some x -> sound (s_table s) Plain x ->
    x_number x = Some o -> (forall y, y ∈ others i s -> clean y) -> v ∈ vs -> visible x s = Some rows ->
    v_name v ∉ row_name <$> rows ->
    Forall (fun p => p = v_name v \/ p ∈ row_name <$> rows) (option_list (v_previous v)) -> polite Plain p ->
    consistent (set_running i (set_program p (Transaction (x_program x) (x_new x) None (x_rows x ++ [Row v o]) (x_gone x))) s).
  Proof.
    intros Hc Hx Hs Ho Hcl Hv Hvis Hn Hp Hpol. apply (update s i x); [done|done|by apply fine_now|done|..].
    2: by left. 2: by right; right.
    exists Plain. split; [done|]. destruct Hs as [Hnum Hs]. specialize (Hnum o Ho). split; [done|]. simpl.
    unfold visible in Hvis. destruct (x_new x) as [[z|]|].
    - injection Hvis as <-. destruct (s_table s) as [[t|]|]; [done..|]. destruct Hs as (H1 & H2 & b & Hb).
      split; [done|]. split; [done|]. exists (S b). rewrite (good_names b _ Hb) in Hn, Hp.
      apply good_add; [done| |done]. by apply next_version.
    - done.
    - destruct (s_table s) as [[t|]|]; [|done..]. injection Hvis as <-. destruct Hs as (n & a & b & Hg & Hsh).
      exists n, a, (S b). split; [done|]. pose proof (filter_gone _ _ _ _ _ Hg Hsh) as Hb.
      rewrite (good_names b _ Hb) in Hn, Hp. pose proof (next_version v b Hv Hn Hp) as Hnext.
      destruct Hsh as (H1 & H2 & H3 & H4 & H5). pose proof (lookup_lt_Some _ _ _ Hnext). split; [lia|]. split; [lia|].
      split; [done|]. simpl. split.
      + rewrite fmap_app, H4, (take_next b v Hnext), drop_app_le by (rewrite take_length; lia). done.
      + apply Forall_app. split; [done|]. by constructor.
  Qed.

  Lemma last_of n b m rows : good b rows -> m <> INIT -> m ∈ row_name <$> rows ->
    filter (fun r => row_name r <> m /\ v_previous (r_version r) = Some m) rows = [] ->
    n = b -> exists c v, b = S c /\ vs !! c = Some v /\ m = v_name v.
  Proof.
    intros Hg Hm Hin He ->. rewrite (good_names b _ Hg) in Hin. apply name_upto in Hin as [|(c & v & Hcn & Hv & ->)]; [done|].
    exists c, v. split; [|done]. destruct (decide (b = S c)) as [|Hne]; [done|]. exfalso.
    assert (is_Some (vs !! S c)) as [w Hwv].
    { apply lookup_lt_is_Some. pose proof (proj1 Hg). lia. }
    assert (w ∈ r_version <$> rows) as Hwr.
    { rewrite (good_versions b _ Hg). right. apply elem_upto. exists (S c). split; [lia|done]. }
    apply elem_of_list_fmap in Hwr as (r & -> & Hr).
    assert (r ∈ filter (fun r => row_name r <> v_name v /\ v_previous (r_version r) = Some (v_name v)) rows) as K.
    { apply elem_of_list_filter. split; [|done]. split.
      - intros E. pose proof (inj_vs (S c) c _ v Hwv Hv E). lia.
      - by apply (previous_of (S c) v). }
    rewrite He in K. by apply elem_of_nil in K.
  Qed.
  Lemma good_drop c v rows : good (S c) rows -> vs !! c = Some v -> good c (filter (fun r => row_name r <> v_name v) rows).
  Proof.
    intros (Hn & rest & -> & E & Ho) Hv. split; [lia|]. rewrite filter_cons, decide_True.
    2: { intros K. by apply (name_not_init c v Hv). }
    exists (filter (fun r => row_name r <> v_name v) rest). split; [done|]. split.
    - rewrite fmap_filter_name, E. pose proof (filter_last 0 c v) as H. rewrite !drop_0 in H. apply H; [lia|done].
    - apply Forall_forall. intros r [_ Hr]%elem_of_list_filter. by eapply Forall_forall in Ho.
  Qed.

  Lemma drop_row s i x m rows p : consistent s -> s_running s !! i = Some x -> sound (s_table s) Plain x ->
    (forall y, y ∈ others i s -> clean y) -> visible x s = Some rows -> m <> INIT -> m ∈ row_name <$> rows ->
    filter (fun r => row_name r <> m /\ v_previous (r_version r) = Some m) rows = [] ->
    m ∈ row_name <$> x_rows x -> polite Plain p ->
    consistent (set_running i (set_program p
      (Transaction (x_program x) (x_new x) (x_number x) (filter (fun r => row_name r <> m) (x_rows x)) (x_gone x))) s).
  Proof.
    intros Hc Hx Hs Hcl Hvis Hm Hin He Hown Hpol. apply (update s i x); [done|done|by apply fine_now|done|..].
    2: by left. 2: by right; right.
    exists Plain. split; [done|]. destruct Hs as [Hnum Hs]. split; [done|]. simpl.
    unfold visible in Hvis. destruct (x_new x) as [[z|]|].
    - injection Hvis as <-. destruct (s_table s) as [[t|]|]; [done..|]. destruct Hs as (H1 & H2 & b & Hb).
      split; [done|]. split; [done|]. destruct (last_of b b m _ Hb Hm Hin He eq_refl) as (c & v & -> & Hv & ->).
      exists c. by apply good_drop.
    - done.
    - destruct (s_table s) as [[t|]|]; [|done..]. injection Hvis as <-. destruct Hs as (n & a & b & Hg & Hsh).
      pose proof (filter_gone _ _ _ _ _ Hg Hsh) as Hb.
      destruct (last_of b b m _ Hb Hm Hin He eq_refl) as (c & v & -> & Hv & ->).
      exists n, a, c. split; [done|]. destruct Hsh as (H1 & H2 & H3 & H4 & H5).
      rewrite row_names, H4 in Hown. apply name_between in Hown as (c' & v' & Hc' & Hv' & E).
      pose proof (inj_vs c c' v v' Hv Hv' E) as <-.
      split; [done|]. split; [lia|]. split; [done|]. simpl. split.
      + rewrite fmap_filter_name, H4. apply filter_last; [lia|done].
      + apply Forall_forall. intros r [_ Hr]%elem_of_list_filter. by eapply Forall_forall in H5.
  Qed.
  Lemma drop_old s i x m rows p : consistent s -> s_running s !! i = Some x -> sound (s_table s) Plain x ->
    (forall y, y ∈ others i s -> clean y) -> visible x s = Some rows -> m <> INIT -> m ∈ row_name <$> rows ->
    filter (fun r => row_name r <> m /\ v_previous (r_version r) = Some m) rows = [] ->
    m ∉ row_name <$> x_rows x -> polite Plain p ->
    consistent (set_running i (set_program p
      (Transaction (x_program x) (x_new x) (x_number x) (x_rows x) (m :: x_gone x))) s).
  Proof.
    intros Hc Hx Hs Hcl Hvis Hm Hin He Hown Hpol. apply (update s i x); [done|done|by apply fine_now|done|..].
    2: by left. 2: by right; right.
    exists Plain. split; [done|]. destruct Hs as [Hnum Hs]. split; [done|]. simpl.
    unfold visible in Hvis. destruct (x_new x) as [[z|]|].
    - injection Hvis as <-. done.
    - done.
    - destruct (s_table s) as [[t|]|]; [|done..]. injection Hvis as <-. destruct Hs as (n & a & b & Hg & Hsh).
      pose proof (filter_gone _ _ _ _ _ Hg Hsh) as Hb.
      destruct (last_of b b m _ Hb Hm Hin He eq_refl) as (c & v & -> & Hv & ->).
      destruct Hsh as (H1 & H2 & H3 & H4 & H5).
      assert (a = S c) as ->.
      { destruct (decide (a = S c)) as [|Hne]; [done|]. destruct Hown. rewrite row_names, H4. apply name_between.
        exists c, v. split; [lia|done]. }
      exists n, c, c. split; [done|]. split; [lia|]. split; [lia|]. simpl. split_and!.
      + intros m. rewrite elem_of_cons, H3, !name_between. split.
        * intros [->|(j & w & Hj & Hw & ->)]; [exists c, v|exists j, w]; (split; [lia|done]).
        * intros (j & w & Hj & Hw & ->). destruct (decide (j = c)) as [->|]; [left; congruence|].
          right. exists j, w. split; [lia|done].
      + rewrite take_drop_nil in H4. by rewrite take_drop_nil.
      + done.
  Qed.

  Lemma commit_ok s i x p tr co : consistent s -> s_running s !! i = Some x -> sound (s_table s) Plain x -> polite Plain p ->
    consistent (set_running i (set_program p (Transaction (x_program x) None None [] []))
      (Server (outcome_of x s) (s_running s) tr co (s_ended s))).
  Proof.
    intros Hc Hx Hs Hp.
    assert (fine (outcome_of x s)) as Hf.
    { pose proof (fine_now s Hc) as Hf. destruct Hs as [_ Hs]. unfold outcome_of. destruct (x_new x) as [[z|]|].
      - destruct (s_table s) as [[t|]|]; [done..|]. destruct Hs as (_ & Hz & n & Hn). simpl. split; [by exists n|done].
      - done.
      - destruct (s_table s) as [[t|]|]; [|done..]. destruct Hs as (n & a & b & Hg & Hsh). simpl. split; [|apply Hf].
        exists b. by eapply filter_gone. }
    assert (outcome_of x s = None -> s_table s = None) as Hno.
    { unfold outcome_of. destruct (x_new x) as [[z|]|]; [done..|]. by destruct (s_table s) as [[t|]|]. }
    apply (update s i x); [done..| | |].
    - exists Plain. split; [done|]. split; [done|]. simpl.
      destruct (outcome_of x s) as [[t|]|]; [|done|done]. destruct Hf as [[n Hn] _]. exists n, n, n. split; [done|].
      pose proof (proj1 Hn). split; [lia|]. split; [lia|]. simpl. rewrite take_drop_nil. done.
    - destruct (others_clean_or s i x Hc Hx) as [H|(y & j & Hj & Hy & Hny & Hcx)]; [by right|]. left.
      destruct Hcx as (H1 & H2 & H3). unfold outcome_of. rewrite H1, H2, H3. destruct (s_table s) as [[t|]|]; [|done..].
      unfold same_rows. simpl. rewrite app_nil_r, filter_all; [done|]. intros r _ K. by apply elem_of_nil in K.
    - left. done.
  Qed.

  Lemma serve_ok i q k x s : consistent s -> s_running s !! i = Some x -> x_program x = Ask q k ->
    match serve i q x s with
    | Waits => True
    | Proceeds x' s' => consistent (set_running i x' s')
    | Replies r x' s' => consistent (set_running i (set_program (k r) x') s')
    end.
  Proof.
    intros Hc Hx Ep. pose proof Hc as (Ho & Hr & Hd). destruct (Hr i x Hx) as (ph & Hp & Hs). rewrite Ep in Hp.
    inversion Hp; subst; clear Hp; cbn [serve].
    - by apply keep.
    - destruct (decide (is_Some (x_new x) \/ is_Some (s_table s))) as [|Hn]; [by apply keep|].
      destruct (decide (Exists (fun y => is_Some (x_new y)) (others i s))) as [|Hoth]; [done|].
      assert (s_table s = None) as Ht.
      { destruct (s_table s); [|done]. destruct Hn. right. by eexists. }
      assert (x_new x = None) as Hnew.
      { destruct (x_new x); [|done]. destruct Hn. left. by eexists. }
      destruct Hs as [_ Hs]. rewrite Hnew, Ht in Hs. destruct Hs as (J1 & J2 & J3).
      apply (update s i x); [done|done|by apply fine_now|done|..].
      + exists HasSchema. simpl. done.
      + by left.
      + right. right. destruct (others_clean_or s i x Hc Hx) as [|(y & j & Hj & Hy & Hny & Hcx)]; [done|].
        destruct (dirty_shape s j y Hc Hy Hny) as [[_ K]|(t & n & a & b & K & _)]; [|congruence].
        destruct Hoth. apply Exists_exists. exists y. split; [|done]. apply elem_others. by exists j.
    - destruct Hs as (J1 & J2 & J3 & J4 & J5). rewrite J2. rewrite J1 in Ho.
      apply (update s i x); [done|done|by apply fine_now|done|..].
      + exists HasTable. simpl. split; [done|]. split_and!; [done..|]. exists 1%Z. split; [done|]. right. left. done.
      + by left.
      + right. left. intros (K & _). congruence.
    - destruct Hs as (J1 & J2 & J3 & z & J4 & J5).
      assert (~ clean x) as Hnc by (intros (K & _); congruence).
      match goal with H : exists r, k Failed = Stop r |- _ => destruct H as [r' Hfail] end.
      assert (forall x', x_new x' = x_new x -> x_rows x' = x_rows x -> x_gone x' = x_gone x ->
                consistent (set_running i (set_program (k Failed) x') s)) as Hf.
      { intros x' E1 E2 E3. apply (update s i x); [done|done|by apply fine_now|done|..].
        - exists HasTable. simpl. rewrite Hfail. split; [constructor|]. rewrite E1, E2, E3. split_and!; [done..|].
          exists z. split; [done|]. left. by eexists.
        - by left.
        - by right; left. }
      unfold insert_step, visible. rewrite J4, J2.
      destruct J5 as [[r Hstop]|[[-> J5]|[-> J5]]]; [congruence|..]; rewrite J5.
      + destruct (negb _); [by apply Hf|]. destruct (decide _) as [|Hmax]; [by apply Hf|].
        apply (update s i x); [done|done|by apply fine_now|done|..].
        * exists HasTable. simpl. rewrite Ep. split; [constructor; [done|by exists r']|]. split_and!; [done..|]. exists (o0 + 1)%Z.
          split; [done|]. right. right. done.
        * by left.
        * by right; left.
      + destruct (decide _) as [|Hw]; [done|]. rewrite decide_False by apply not_elem_of_nil.
        rewrite decide_False by apply not_elem_of_nil. rewrite decide_True by constructor.
        apply (update s i x); [done|done|by apply fine_now|done|..].
        * exists Plain. split; [done|]. split; [done|]. simpl. rewrite J1, J3. split; [done|]. split; [lia|]. exists 0. split; [lia|].
          exists []. split; [done|]. split; [by rewrite take_0|]. done.
        * by left.
        * by right; left.
    - unfold insert_step. destruct (visible x s) as [rows|] eqn:Hvis; [|by apply keep].
      destruct (x_number x) as [o|] eqn:En.
      + destruct (decide _) as [|Hw]; [done|].
        destruct (decide _) as [|Hn]; [by apply keep_drop|].
        destruct (decide _) as [|Hno]; [by apply keep_drop|].
        destruct (decide _) as [Hprev|]; [|by apply keep_drop].
        destruct (others_clean_or s i x Hc Hx) as [Hcl|(y & j & Hj & Hy & Hny & Hcx)].
        * by eapply place.
        * exfalso. by eapply no_insert.
      + destruct (negb _); [by apply keep|]. destruct Hs as [Hnum Hs]. destruct (x_new x) as [[z|]|] eqn:Enew.
        * destruct (s_table s) as [[t|]|] eqn:Et; [done..|]. destruct Hs as (J1 & J2 & n & Hn).
          destruct (decide _) as [|Hmax].
          { apply keep; [done|done| |done]. split; [done|]. rewrite Enew, Et. split; [done|]. split; [done|]. by exists n. }
          apply (update s i x); [done|done|by rewrite Et|by rewrite Et|..].
          -- exists Plain. simpl. rewrite Ep. split; [by constructor|]. split; [intros ? [= <-]; lia|]. rewrite Et.
             split; [done|]. split; [lia|]. by exists n.
          -- by left.
          -- right. left. intros (K & _). congruence.
        * done.
        * destruct (s_table s) as [[t|]|] eqn:Et; [|done|].
          -- destruct Hs as (n & a & b & Hg & Hsh). destruct (decide _) as [|Hmax].
             { apply keep; [done|done| |done]. split; [done|]. rewrite Enew, Et. by exists n, a, b. }
             unfold set_running, set_table. simpl.
             apply (update s i x); [done|done|..].
             ++ simpl in *. destruct Ho as [Ho1 Ho2]. split; [done|]. simpl. lia.
             ++ done.
             ++ exists Plain. simpl. rewrite Ep. split; [by constructor|]. destruct Ho as [_ Ho]. split; [by intros ? [= <-]|].
                by exists n, a, b.
             ++ left. by rewrite Et.
             ++ destruct (clean_dec x) as [(K1 & K2 & K3)|]; [left; by split|by right; left].
          -- destruct Hs as (J1 & J2 & J3). unfold visible in Hvis. by rewrite Enew, Et in Hvis.
    - unfold delete_step. destruct (visible x s) as [rows|] eqn:Hvis; [|by apply keep].
      destruct (decide (n ∈ row_name <$> rows)) as [Hin|]; [|by apply keep]. cbn zeta.
      destruct (decide _) as [|Hw]; [done|].
      destruct (decide _) as [Hnil|]; [|by apply keep].
      destruct (others_clean_or s i x Hc Hx) as [Hcl|(y & j & Hj & Hy & Hny & Hcx)].
      + destruct (decide _) as [Hown|Hown]; [by eapply drop_row|by eapply drop_old].
      + exfalso. by eapply no_delete.
    - destruct (visible x s) as [rows|] eqn:Hvis; [|by apply keep].
      destruct (visible_now s i x rows Hc Hx Hs Hvis) as [b Hb]. apply keep; [done..|]. eauto.
    - apply (update s i x); [done|done|by apply fine_now|done|..].
      + by exists Plain.
      + by left.
      + destruct (clean_dec x) as [H|H]; [by left|by right; left].
    - by apply commit_ok.
  Qed.

  (** ** Everything that happens *)

  Definition welcome (e : event) : Prop :=
    match e with Start _ c => polite Plain (program_of c) | _ => True end.

  Lemma drop_tx s i r : consistent s -> consistent (ends i r s).
  Proof.
    intros (Ho & Hr & Hd). split; [done|]. split.
    - simpl. intros j y [_ Hy]%lookup_delete_Some. by apply (Hr j).
    - simpl. intros j1 j2 x y [_ H1]%lookup_delete_Some [_ H2]%lookup_delete_Some. by apply Hd.
  Qed.
  Lemma happen_ok e s s' : welcome e -> consistent s -> happen e s = Some s' -> consistent s'.
  Proof.
    intros He Hc H. destruct e as [i c|i|i|i]; simpl in H.
    - destruct (decide _) as [[Hi _]|]; [|done]. injection H as <-. destruct Hc as (Ho & Hr & Hd). split; [done|]. split.
      + simpl. intros j y. destruct (decide (i = j)) as [<-|Hij].
        * rewrite lookup_insert. intros [= <-]. exists Plain. split; [done|]. split; [done|]. simpl.
          destruct (s_table s) as [[t|]|]; [|done|done]. destruct Ho as [[n Hn] _]. exists n, n, n. split; [done|].
          pose proof (proj1 Hn). split; [lia|]. split; [lia|]. simpl. rewrite take_drop_nil. done.
        * rewrite lookup_insert_ne by done. apply Hr.
      + simpl. intros j1 j2 y1 y2 H1 H2 N1 N2.
        apply lookup_insert_Some in H1 as [[<- <-]|[_ H1]]; [by destruct N1|].
        apply lookup_insert_Some in H2 as [[<- <-]|[_ H2]]; [by destruct N2|]. by eapply Hd.
    - destruct (s_running s !! i) as [x|] eqn:Hx; [|done]. destruct (x_program x) as [r|q k] eqn:Ep.
      + injection H as <-. by apply drop_tx.
      + pose proof (serve_ok i q k x s Hc Hx Ep) as K. destruct (serve i q x s); [done|..]; by injection H as <-.
    - destruct (s_running s !! i) as [x|] eqn:Hx; [|done]. destruct (x_program x) as [r|q k] eqn:Ep; [done|].
      injection H as <-. pose proof Hc as (Ho & Hr & _). destruct (Hr i x Hx) as (ph & Hp & Hs). rewrite Ep in Hp.
      destruct ph.
      + assert (polite Plain (k Failed)) as Hf by (inversion Hp; by subst). by apply keep_drop.
      + assert (polite HasSchema (k Failed)) as Hf by (inversion Hp; by subst).
        apply (update s i x); [done|done|by apply fine_now|done|..].
        * exists HasSchema. split; [done|]. by destruct Hs as (? & ? & ? & ? & ?).
        * by left.
        * right. left. intros (K & _). destruct Hs as (_ & K' & _). congruence.
      + assert (exists r, k Failed = Stop r) as [r Hf] by (inversion Hp; by subst).
        apply (update s i x); [done|done|by apply fine_now|done|..].
        * exists HasTable. simpl. rewrite Hf. split; [constructor|]. destruct Hs as (? & ? & ? & z & ? & _). split_and!; [done..|].
          exists z. split; [done|]. left. by eexists.
        * by left.
        * right. left. intros (K & _). destruct Hs as (_ & _ & _ & z & K' & _). congruence.
    - destruct (s_running s !! i); [|done]. injection H as <-. by apply drop_tx.
  Qed.
  Lemma unfolds_ok es s s' : Forall welcome es -> consistent s -> unfolds es s = Some s' -> consistent s'.
  Proof.
    intros He. revert s. induction He as [|e es He Hes IH]; intros s Hc H; simpl in H; [by injection H as <-|].
    destruct (happen e s) as [s1|] eqn:E; [|done]. apply (IH s1); [|done]. by eapply happen_ok.
  Qed.
End chain.
