(** Several [up]s at the same time: every version is applied once, in order. *)
From Verif Require Import Base Text Types Changes Sql History SpecHistory HistoryLemmas HistoryLoad Dbh SpecDb DbLemmas DbSteps
  Concurrent SpecConcurrent ConcurrentLemmas ConcurrentPrograms ConcurrentClaims.
From stdpp Require Import sorting.

(** Where an [up] is: about to look for the schema; about to make it; having made it; having
    made the table; the table is there; about to read it; having found the first [m]
    versions, applied [k] more and executed some statements of the next one; committed, with
    the first [T] versions applied. *)
Inductive stage := Begin | Make | MadeSchema | MadeTable | Ready | Reading | At (m k : nat) (done : list str) | Over (T : nat).

Lemma sorted_app_l {A} (R : relation A) l l' : StronglySorted R (l ++ l') -> StronglySorted R l.
Proof. apply StronglySorted_app_inv_l. Qed.
Lemma sorted_snoc (l : list Z) z : StronglySorted Z.lt l -> Forall (fun o => o < z)%Z l -> StronglySorted Z.lt (l ++ [z]).
Proof.
  intros Hs Hf. induction Hs as [|a l Hs IH Ha]; [repeat constructor|]. apply Forall_cons in Hf as [H1 H2]. simpl. constructor; [by apply IH|].
  apply Forall_app. split; [done|]. by constructor.
Qed.

Section up.
  Context (vs : list version) (Hvs : timeline vs) (o0 : Z) (m0 : nat).

  Definition halts (p : program ()) : Prop := exists r, p = Stop r /\ r <> Ret ().
  (** The programs of [up] that reach one of the goals [G]. *)
  Inductive climb (G : nat -> Prop) : stage -> program () -> Prop :=
    | climb_fail st r : r <> Ret () -> climb G st (Stop r)
    | climb_over T : G T -> climb G (Over T) (Stop (Ret ()))
    | climb_nothing m : G m -> climb G (At m 0 []) (Stop (Ret ()))
    | climb_begin k : climb G Ready (k (Exists_ true)) -> climb G Make (k (Exists_ false)) -> halts (k Failed) ->
        climb G Begin (Ask AskSchema k)
    | climb_make k : climb G MadeSchema (k Accepted) -> halts (k Failed) -> climb G Make (Ask MakeSchema k)
    | climb_table k : climb G MadeTable (k Accepted) -> halts (k Failed) -> climb G MadeSchema (Ask MakeTable k)
    | climb_init k : climb G Ready (k Accepted) -> halts (k Failed) -> climb G MadeTable (Ask (InsertRow new_init) k)
    | climb_ready k : climb G Reading (k (Exists_ true)) -> halts (k Failed) -> climb G Ready (Ask AskSchema k)
    | climb_read k : (forall n l, n <= length vs -> r_version <$> l = new_init :: take n vs ->
          StronglySorted Z.lt (r_order <$> l) -> climb G (At n 0 []) (k (Rows l))) -> halts (k Failed) ->
        climb G Reading (Ask Select k)
    | climb_execute m j done stmt rest v k : vs !! (m + j) = Some v -> v_up v = done ++ stmt :: rest ->
        climb G (At m j (done ++ [stmt])) (k Accepted) -> halts (k Failed) -> climb G (At m j done) (Ask (Execute stmt) k)
    | climb_insert m j v k : vs !! (m + j) = Some v ->
        climb G (At m (S j) []) (k Accepted) -> halts (k Failed) -> climb G (At m j (v_up v)) (Ask (InsertRow v) k)
    | climb_commit m j k : G (m + j) -> 0 < j ->
        climb G (Over (m + j)) (k Accepted) -> halts (k Failed) -> climb G (At m j []) (Ask Commit k).

  Definition entries (i : nat) (tr : list (nat * str)) : list str := snd <$> filter (fun e => e.1 = i) tr.
  Definition effect (co : list nat) (tr : list (nat * str)) : list str := snd <$> filter (fun e => e.1 ∈ co) tr.
  (** The statements of [i] come after those committed. *)
  Definition apart (i : nat) (co : list nat) (tr : list (nat * str)) : Prop := effect (co ++ [i]) tr = effect co tr ++ entries i tr.

  Definition climbing (o : option (option vtable)) (tr : list (nat * str)) (co : list nat) (i : nat) (x : transaction) (st : stage) : Prop :=
    x_gone x = [] /\
    match st with
    | Begin | Make => x_new x = None /\ x_rows x = [] /\ x_number x = None /\ i ∉ co /\ entries i tr = []
    | MadeSchema => o = None /\ x_new x = Some None /\ x_rows x = [] /\ x_number x = None /\ i ∉ co /\ entries i tr = []
    | MadeTable => o = None /\ x_rows x = [] /\ i ∉ co /\ entries i tr = [] /\ exists z, x_new x = Some (Some z) /\
        ((exists r, x_program x = Stop r) \/ (z = 1%Z /\ x_number x = None) \/ (z = 2%Z /\ x_number x = Some 1%Z))
    | Ready | Reading => x_number x = None /\ i ∉ co /\ entries i tr = [] /\
        ((o = None /\ x_new x = Some (Some 2%Z) /\ x_rows x = [Row new_init 1]) \/
         (is_Some o /\ x_new x = None /\ x_rows x = []))
    | At m k done => i ∉ co /\ entries i tr = (drop m (take (m + k) vs) ≫= v_up) ++ done /\ m + k <= length vs /\
        ((exists z, o = None /\ x_new x = Some (Some z) /\ m = 0 /\ r_version <$> x_rows x = new_init :: take k vs /\
            StronglySorted Z.lt ((r_order <$> x_rows x) ++ option_list (x_number x)) /\
            Forall (fun o => o < z)%Z ((r_order <$> x_rows x) ++ option_list (x_number x)) /\ apart i co tr) \/
         (exists t n, o = Some (Some t) /\ x_new x = None /\ records vs n t /\ r_version <$> x_rows x = drop m (take (m + k) vs) /\
            ((m = n /\ StronglySorted Z.lt ((r_order <$> t_rows t ++ x_rows x) ++ option_list (x_number x)) /\
              Forall (fun o => o < t_next t)%Z ((r_order <$> t_rows t ++ x_rows x) ++ option_list (x_number x)) /\ apart i co tr) \/
             (m < n /\ k = 0))))
    | Over T => x_new x = None /\ x_rows x = [] /\ exists t n, o = Some (Some t) /\ records vs n t /\ T <= n
    end.

  Definition in_order (o : option (option vtable)) (tr : list (nat * str)) (co : list nat) : Prop :=
    match o with
    | None => m0 = 0 /\ co = []
    | Some None => False
    | Some (Some t) => numbered_up t /\ exists n, records vs n t /\ m0 <= n /\ effect co tr = drop m0 (take n vs) ≫= v_up
    end.
  Definition reached (o : option (option vtable)) (T : nat) : Prop :=
    match o with None => T = 0 | Some None => False | Some (Some t) => exists n, records vs n t /\ T <= n end.
  Definition aims (c : invocation) (T : nat) : Prop :=
    match c with
    | Up _ d version => exists w, (new_init :: vs) !! T = Some w /\ target d version (v_name w)
    | Down _ => False
    end.

  Record rising (es : list event) (s : server) : Prop := {
    rise_consistent : consistent vs o0 s;
    rise_order : in_order (s_table s) (s_trace s) (s_committed s);
    rise_running : forall i x, s_running s !! i = Some x -> exists c st, Start i c ∈ es /\
      climb (aims c) st (x_program x) /\ climbing (s_table s) (s_trace s) (s_committed s) i x st;
    rise_ended : forall i r, s_ended s !! i = Some r -> exists c, Start i c ∈ es /\
      (r = Ret () -> exists T, aims c T /\ reached (s_table s) T);
    rise_known : forall i, (i ∈ s_committed s \/ i ∈ (s_trace s).*1 \/ exists c, Start i c ∈ es) ->
      is_Some (s_running s !! i) \/ is_Some (s_ended s !! i);
    rise_unique : forall i c c', Start i c ∈ es -> Start i c' ∈ es -> c = c' }.

  Lemma records_unique n n' t : records vs n t -> records vs n' t -> n = n'.
  Proof.
    intros [H1 E1] [H2 E2]. rewrite E1 in E2. injection E2 as E2. apply (f_equal length) in E2. rewrite !take_length in E2. lia.
  Qed.
  Lemma entries_app i tr tr' : entries i (tr ++ tr') = entries i tr ++ entries i tr'.
  Proof. unfold entries. by rewrite filter_app, fmap_app. Qed.
  Lemma effect_app co tr tr' : effect co (tr ++ tr') = effect co tr ++ effect co tr'.
  Proof. unfold effect. by rewrite filter_app, fmap_app. Qed.
  Lemma entries_none i tr : i ∉ tr.*1 -> entries i tr = [].
  Proof.
    intros H. unfold entries. rewrite filter_none; [done|]. intros e He E. apply H. rewrite <- E. by apply elem_of_list_fmap_1.
  Qed.
  Lemma effect_more co i tr : entries i tr = [] -> effect (co ++ [i]) tr = effect co tr.
  Proof.
    unfold entries, effect. induction tr as [|[j s] tr IH]; [done|]. rewrite !filter_cons. simpl.
    destruct (decide (j = i)) as [->|Hj]; [intros H; discriminate H|]. intros H. specialize (IH H).
    destruct (decide (j ∈ co ++ [i])) as [K|K], (decide (j ∈ co)) as [K'|K']; rewrite ?fmap_cons, ?IH; [done| | |done].
    - apply elem_of_app in K as [K|K]; [done|]. by apply elem_of_list_singleton in K.
    - destruct K. apply elem_of_app. by left.
  Qed.
  Lemma apart_none i co tr : entries i tr = [] -> apart i co tr.
  Proof. intros H. unfold apart. by rewrite H, app_nil_r, effect_more. Qed.

  (** A step of [i] leaves the others where they are. *)
  Lemma advance es s i x x' st' c o' tr' co' :
    rising es s -> s_running s !! i = Some x -> Start i c ∈ es ->
    consistent vs o0 (Server o' (<[i := x']> (s_running s)) tr' co' (s_ended s)) ->
    in_order o' tr' co' -> climb (aims c) st' (x_program x') -> climbing o' tr' co' i x' st' ->
    (forall j y st, j <> i -> s_running s !! j = Some y -> climbing (s_table s) (s_trace s) (s_committed s) j y st ->
       climbing o' tr' co' j y st) ->
    (forall T, reached (s_table s) T -> reached o' T) ->
    (forall j, j ∈ co' -> j = i \/ j ∈ s_committed s) -> (forall j, j ∈ tr'.*1 -> j = i \/ j ∈ (s_trace s).*1) ->
    forall e, (forall j c, e <> Start j c) -> rising (es ++ [e]) (Server o' (<[i := x']> (s_running s)) tr' co' (s_ended s)).
  Proof.
    intros [H1 H2 H3 H4 H5 H6] Hx Hc Hcons Hord Hcl Hcg Hoth Hreach Hco Htr e He.
    assert (forall j c, Start j c ∈ es ++ [e] <-> Start j c ∈ es) as Hst.
    { intros j c'. rewrite elem_of_app, elem_of_list_singleton. split; [|by left]. intros [|K]; [done|]. by destruct (He j c'). }
    split; simpl; [done|done|..].
    - intros j y. destruct (decide (i = j)) as [<-|Hij].
      + rewrite lookup_insert. intros [= <-]. exists c, st'. by rewrite Hst.
      + rewrite lookup_insert_ne by done. intros Hy. destruct (H3 j y Hy) as (cj & st & K1 & K2 & K3). exists cj, st. rewrite Hst.
        split; [done|]. split; [done|]. by apply Hoth.
    - intros j r Hr. destruct (H4 j r Hr) as (cj & K1 & K2). exists cj. rewrite Hst. split; [done|]. intros E.
      destruct (K2 E) as (T & K3 & K4). exists T. split; [done|]. by apply Hreach.
    - intros j K. destruct (decide (i = j)) as [<-|Hij]; [left; rewrite lookup_insert; by eexists|]. rewrite lookup_insert_ne by done.
      apply H5. destruct K as [K|[K|(c' & K)]].
      + left. destruct (Hco j K) as [->|]; done.
      + right. left. destruct (Htr j K) as [->|]; done.
      + right. right. exists c'. by apply Hst.
    - intros j c1 c2. rewrite !Hst. apply H6.
  Qed.

  (** Only the program changes. *)
  Lemma advance_self es s i x x' st' c :
    rising es s -> s_running s !! i = Some x -> Start i c ∈ es ->
    consistent vs o0 (set_running i x' s) -> climb (aims c) st' (x_program x') ->
    climbing (s_table s) (s_trace s) (s_committed s) i x' st' ->
    forall e, (forall j c, e <> Start j c) -> rising (es ++ [e]) (set_running i x' s).
  Proof.
    intros H Hx Hc Hcons Hcl Hcg e He. apply (advance es s i x x' st' c); try done; [apply H|..]; intros j; by right.
  Qed.
  Lemma climb_halts G st p : halts p -> climb G st p.
  Proof. intros (r & -> & Hr). by constructor. Qed.
  (** An operation failed; the number drawn may be given up. *)
  Lemma climbing_fails o tr co i x st p : climbing o tr co i x st -> halts p ->
    climbing o tr co i (set_program p x) st /\ climbing o tr co i (set_program p (drop_number x)) st.
  Proof.
    intros [Hg H] (r & -> & _). destruct st; simpl in *.
    1-3: (split; (split; [done|])); naive_solver.
    - split; (split; [done|]); destruct H as (H1 & H2 & H3 & H4 & z & H5 & _); (split_and!; [done..|]); exists z; (split; [done|]); left; by eexists.
    - split; (split; [done|]); naive_solver.
    - split; (split; [done|]); naive_solver.
    - destruct H as (H1 & H2 & H3 & H4). split; (split; [done|]); (split_and!; [done..|]); [done|].
      destruct H4 as [(z & K1 & K2 & K3 & K4 & K5 & K6 & K7)|(t & n & K1 & K2 & K3 & K4 & K5)].
      + left. exists z. simpl. rewrite app_nil_r. apply sorted_app_l in K5. apply Forall_app in K6 as [K6 _]. done.
      + right. exists t, n. split_and!; [done..|]. destruct K5 as [(-> & K5 & K6 & K7)|K5]; [left|by right].
        split; [done|]. simpl. rewrite app_nil_r. apply sorted_app_l in K5. apply Forall_app in K6 as [K6 _]. done.
    - split; (split; [done|]); naive_solver.
  Qed.
  Lemma advance_fails es s i x st c p x' :
    rising es s -> s_running s !! i = Some x -> Start i c ∈ es -> climbing (s_table s) (s_trace s) (s_committed s) i x st ->
    halts p -> x' = x \/ x' = drop_number x -> consistent vs o0 (set_running i (set_program p x') s) ->
    forall e, (forall j c, e <> Start j c) -> rising (es ++ [e]) (set_running i (set_program p x') s).
  Proof.
    intros H Hx Hc Hcg Hp Hx' Hcons. eapply (advance_self es s i x _ st c); try done.
    - simpl. by apply climb_halts.
    - destruct (climbing_fails _ _ _ _ _ _ p Hcg Hp) as [K1 K2]. by destruct Hx' as [->| ->].
  Qed.

  Lemma reached_mono o tr co o' tr' co' t n n' t' :
    o = Some (Some t) -> o' = Some (Some t') -> records vs n t -> records vs n' t' -> n <= n' ->
    in_order o tr co -> in_order o' tr' co' -> forall T, reached o T -> reached o' T.
  Proof.
    intros -> -> Hn Hn' Hle _ _ T (k & Hk & HT). rewrite (records_unique _ _ _ Hk Hn) in HT. exists n'. split; [done|lia].
  Qed.
  Lemma drop_take_snoc m k v : vs !! (m + k) = Some v -> drop m (take (m + S k) vs) = drop m (take (m + k) vs) ++ [v].
  Proof.
    intros H. replace (m + S k) with (S (m + k)) by lia. rewrite (take_S_r _ _ _ H). apply drop_app_le. rewrite take_length.
    apply lookup_lt_Some in H. lia.
  Qed.
  Lemma take_snoc k v : vs !! k = Some v -> take (S k) vs = take k vs ++ [v].
  Proof. apply take_S_r. Qed.
  Lemma filter_nothing (l : list row) : filter (fun r => row_name r ∉ []) l = l.
  Proof.
    induction l as [|r l IH]; [done|]. rewrite filter_cons_True by apply not_elem_of_nil. by rewrite IH.
  Qed.
  Lemma elem_take_name m n v : vs !! m = Some v -> m < n -> v_name v ∈ v_name <$> take n vs.
  Proof. intros H Hn. apply elem_of_list_fmap_1, elem_of_list_lookup. exists m. by rewrite lookup_take. Qed.

  Lemma climbing_next t tr co j y st : climbing (Some (Some t)) tr co j y st ->
    climbing (Some (Some (VTable (t_rows t) (t_next t + 1)))) tr co j y st.
  Proof.
    intros (Hg & H). split; [done|]. destruct st as [| | | | | |m k dn|T]; simpl in *; try naive_solver.
    destruct H as (H1 & H2 & H3 & [(z & ? & _)|(t' & n & [= <-] & K2 & K3 & K4 & K5)]); [done|].
    split_and!; [done..|]. right. eexists _, n. split_and!; try done. simpl. destruct K5 as [(-> & K5 & K6 & K7)|K5]; [left|by right].
    split_and!; try done. eapply Forall_impl; [exact K6|]. simpl. intros. lia.
  Qed.
  Lemma climbing_commit o o' tr co i j y st n' t' : clean y -> j <> i -> o' = Some (Some t') -> records vs n' t' ->
    (forall t n, o = Some (Some t) -> records vs n t -> n < n') ->
    climbing o tr co j y st -> climbing o' tr (co ++ [i]) j y st.
  Proof.
    intros (C1 & C2 & C3) Hij -> Hn' Hlt (Hg & H). split; [done|].
    assert (j ∉ co -> j ∉ co ++ [i]) as Hco.
    { rewrite elem_of_app, elem_of_list_singleton. naive_solver. }
    destruct st as [| | | | | |m k dn|T]; simpl in *; try naive_solver.
    - destruct H as (H1 & H2 & H3 & [(z & _ & ? & _)|(t & n & K1 & K2 & K3 & K4 & K5)]); [congruence|].
      split_and!; [by apply Hco|done..|]. right. exists t', n'. split_and!; try done. right.
      pose proof (Hlt _ _ K1 K3). rewrite C2 in K4. symmetry in K4. apply (f_equal length) in K4. rewrite drop_length, take_length in K4. simpl in K4. split; [|lia]. destruct K5 as [(-> & _)|[? _]]; lia.
    - destruct H as (H1 & H2 & t & n & K1 & K2 & K3). split_and!; try done. exists t', n'. split_and!; try done.
      pose proof (Hlt _ _ K1 K2). lia.
  Qed.

  Lemma step_rises es s i x q k e :
    rising es s -> s_running s !! i = Some x -> x_program x = Ask q k -> (forall j c, e <> Start j c) ->
    match serve i q x s with
    | Waits => True
    | Proceeds x' s' => rising (es ++ [e]) (set_running i x' s')
    | Replies r x' s' => rising (es ++ [e]) (set_running i (set_program (k r) x') s')
    end.
  Proof.
    intros Hr Hx Ep He. pose proof (rise_consistent _ _ Hr) as Hcons. pose proof (rise_order _ _ Hr) as Hord.
    pose proof (serve_ok vs Hvs o0 i q k x s Hcons Hx Ep) as Hok.
    destruct (rise_running _ _ Hr i x Hx) as (c & st & Hc & Hcl & Hcg). rewrite Ep in Hcl.
    assert (forall p x', halts p -> x' = x \/ x' = drop_number x -> consistent vs o0 (set_running i (set_program p x') s) ->
        rising (es ++ [e]) (set_running i (set_program p x') s)) as Hfail.
    { intros p x' Hp Hx' Hco. by eapply advance_fails. }
    inversion Hcl as [|?|?|k' J1 J2 J3|k' J1 J2|k' J1 J2|k' J1 J2|k' J1 J2|k' J1 J2|m j dn stmt rest v k' Jv Ju J1 J2|m j v k' Jv J1 J2|m j k' JG Jj J1 J2];
      subst; clear Hcl; cbn [serve] in *.
    - (* looking for the schema *)
      destruct Hcg as (Hg & Hnew & Hrows & Hnum & Hi & Hen).
      case_bool_decide as Hb.
      + destruct Hb as [[? Hb]|Hb]; [congruence|]. apply (advance_self es s i x _ Ready c); try done.
        split; [done|]. simpl. split_and!; [done..|]. by right.
      + apply (advance_self es s i x _ Make c); try done.
    - (* making it *)
      destruct (decide (is_Some (x_new x) \/ is_Some (s_table s))) as [|Hn]; [apply Hfail; auto|].
      destruct (decide (Exists _ _)); [done|].
      apply (advance_self es s i x _ MadeSchema c); try done.
      destruct Hcg as (Hg & Hnew & Hrows & Hnum & Hi & Hen). split; [done|]. simpl. split_and!; try done.
      destruct (s_table s); [|done]. destruct Hn. right. by eexists.
    - destruct Hcg as (Hg & Ho & Hnew & Hrows & Hnum & Hi & Hen). rewrite Hnew in *.
      apply (advance_self es s i x _ MadeTable c); try done.
      split; [done|]. simpl. split_and!; try done. exists 1%Z. split; [done|]. right. by left.
    - (* the row of init *)
      destruct Hcg as (Hg & Ho & Hrows & Hi & Hen & z & Hnew & Hz). unfold insert_step, visible in *. rewrite Hnew, Hrows, Hg in *.
      destruct Hz as [[r Hz]|[[-> Hz]|[-> Hz]]]; [congruence|..].
      + rewrite Hz in *. destruct (negb _); [apply Hfail; auto|]. destruct (decide (max_order < 1)%Z); [apply Hfail; auto|].
        apply (advance_self es s i x _ MadeTable c); try done; simpl.
        * rewrite Ep. by constructor.
        * split; [done|]. simpl. split_and!; try done. exists 2%Z. split; [done|]. right. by right.
      + rewrite Hz in *. destruct (decide (Exists _ _)); [done|]. destruct (decide _); [apply Hfail; auto|].
        destruct (decide _); [apply Hfail; auto|]. destruct (decide _); [|apply Hfail; auto].
        apply (advance_self es s i x _ Ready c); try done. split; [done|]. simpl. split_and!; try done. by left.
    - destruct Hcg as (Hg & Hnum & Hi & Hen & Hor).
      assert (is_Some (x_new x) \/ is_Some (s_table s)) as Hb.
      { destruct Hor as [(_ & Hnew & _)|(Hs & _)]; [left; rewrite Hnew; by eexists|by right]. }
      rewrite bool_decide_eq_true_2 in * by done. apply (advance_self es s i x _ Reading c); try done.
    - (* reading the table *)
      destruct Hcg as (Hg & Hnum & Hi & Hen & [(Ho & Hnew & Hrows)|(Hs & Hnew & Hrows)]).
      + assert (visible x s = Some (x_rows x)) as Hvis by (unfold visible; by rewrite Hnew). rewrite Hvis in *.
        apply (advance_self es s i x _ (At 0 0 []) c); try done.
        * simpl. apply J1; [lia|by rewrite Hrows|]. rewrite Hrows. simpl. repeat constructor.
        * split; [done|]. simpl. split_and!; [done|by rewrite Hen|lia|]. left. exists 2%Z. rewrite Hrows, Hnum. split_and!; try done.
          -- simpl. repeat constructor.
          -- simpl. repeat constructor. all: lia.
          -- by apply apart_none.
      + unfold in_order in Hord. destruct (s_table s) as [[t|]|] eqn:Et; [|done|by destruct Hs].
        destruct Hord as ([Hup1 Hup2] & n & Hn & Hm0 & Heff).
        assert (visible x s = Some (t_rows t)) as Hvis.
        { unfold visible. rewrite Hnew, Et, Hg, Hrows, filter_nothing, app_nil_r. done. }
        rewrite Hvis in *. apply (advance_self es s i x _ (At n 0 []) c); try done.
        * simpl. apply J1; [apply Hn|apply Hn|done].
        * split; [done|]. simpl. rewrite Nat.add_0_r, take_drop_nil. split_and!; [done|by rewrite Hen|apply Hn|].
          right. exists t, n. rewrite Hrows, Hnum. split_and!; try done. left. rewrite !app_nil_r. split_and!; try done. by apply apart_none.
    - (* executing a statement *)
      destruct Hcg as (Hg & Hi & Hen & Hlen & Hor).
      assert (effect (s_committed s) (s_trace s ++ [(i, stmt)]) = effect (s_committed s) (s_trace s)) as Heff.
      { rewrite effect_app. unfold effect at 2. rewrite filter_cons_False by done. by rewrite app_nil_r. }
      assert (apart i (s_committed s) (s_trace s) -> apart i (s_committed s) (s_trace s ++ [(i, stmt)])) as Hap.
      { unfold apart. rewrite Heff. intros Hap. rewrite effect_app, entries_app, Hap, <- app_assoc. f_equal. f_equal.
        unfold effect, entries. rewrite !filter_cons_True; [done|done|]. apply elem_of_app. right. by apply elem_of_list_singleton. }
      apply (advance es s i x _ (At m j (dn ++ [stmt])) c); try done; cbn [s_table s_trace s_committed s_ended s_running].
      + unfold in_order. rewrite Heff. exact Hord.
      + split; [done|]. simpl. split_and!; [done| |done|].
        * rewrite entries_app, Hen, <- app_assoc. f_equal. f_equal. unfold entries. by rewrite filter_cons_True.
        * naive_solver.
      + intros j' y st' Hj' Hy (Kg & K). split; [done|].
        assert (entries j' (s_trace s ++ [(i, stmt)]) = entries j' (s_trace s)) as Hen'.
        { rewrite entries_app. unfold entries at 2. rewrite filter_cons_False by (simpl; congruence). by rewrite app_nil_r. }
        assert (apart j' (s_committed s) (s_trace s) -> apart j' (s_committed s) (s_trace s ++ [(i, stmt)])) as Hap'.
        { unfold apart. rewrite Heff, Hen'. intros Hap'. rewrite effect_app, Hap'. unfold effect at 2. rewrite filter_cons_False; [by rewrite app_nil_r|].
          simpl. rewrite elem_of_app, elem_of_list_singleton. intros [?|?]; congruence. }
        simpl. rewrite Hen'. destruct st'; try done. naive_solver.
      + intros j'. by right.
      + intros j'. rewrite fmap_app, elem_of_app. intros [?|K%elem_of_list_singleton]; [by right|by left].
    - (* recording a version *)
      destruct Hcg as (Hg & Hi & Hen & Hlen & [(z & Ho & Hnew & -> & Hrows & Hsort & Hlt & Hap)|(t & n & Et & Hnew & Hn & Hrows & Hor)]).
      + assert (visible x s = Some (x_rows x)) as Hvis by (unfold visible; by rewrite Hnew).
        unfold insert_step in *. rewrite Hvis in *. destruct (x_number x) as [o|] eqn:Hnum.
        * destruct (decide (Exists _ _)); [done|]. destruct (decide _); [apply Hfail; auto|].
          destruct (decide _); [apply Hfail; auto|]. destruct (decide _); [|apply Hfail; auto].
          apply (advance_self es s i x _ (At 0 (S j) []) c); try done. split; [done|]. simpl.
          rewrite app_nil_r. pose proof (lookup_lt_Some _ _ _ Jv) as Hlt'. simpl in *. rewrite drop_0 in *.
          rewrite (take_snoc _ _ Jv), bind_app, bind_singleton. split_and!; [done|done|lia|].
          left. exists z. rewrite !fmap_app, Hrows, app_nil_r. simpl. by split_and!.
        * destruct (negb _); [apply Hfail; auto|]. rewrite Hnew in *. destruct (decide _); [apply Hfail; auto|].
          apply (advance_self es s i x _ (At 0 j (v_up v)) c); try done; simpl.
          -- rewrite Ep. by econstructor.
          -- split; [done|]. simpl. split_and!; [done..|]. left. exists (z + 1)%Z. rewrite app_nil_r in *. split_and!; try done.
             ++ by apply sorted_snoc.
             ++ apply Forall_app. split; [eapply Forall_impl; [done|]; simpl; lia|]. constructor; [lia|done].
      + assert (visible x s = Some (t_rows t ++ x_rows x)) as Hvis.
        { unfold visible. by rewrite Hnew, Et, Hg, filter_nothing. }
        unfold insert_step in *. rewrite Hvis in *. destruct (x_number x) as [o|] eqn:Hnum.
        * destruct (decide (Exists _ _)); [done|]. destruct (decide _) as [|Hfree]; [apply Hfail; auto|].
          destruct (decide _); [apply Hfail; auto|]. destruct (decide _); [|apply Hfail; auto].
          apply (advance_self es s i x _ (At m (S j) []) c); try done. split; [done|]. cbn [set_program x_gone x_new x_number x_rows x_program].
          rewrite app_nil_r. pose proof (lookup_lt_Some _ _ _ Jv) as Hlt'.
          rewrite (drop_take_snoc _ _ _ Jv), bind_app, bind_singleton. split_and!; [done|done|lia|].
          right. exists t, n. split_and!; try done.
          -- by rewrite fmap_app, Hrows.
          -- destruct Hor as [(-> & Hsort & Hlt & Hap)|[Hmn ->]].
             ++ left. simpl. rewrite app_nil_r, !fmap_app in *. simpl in *. rewrite <- !app_assoc in *. done.
             ++ destruct Hfree. rewrite Nat.add_0_r in Jv. unfold row_name. rewrite fmap_app, elem_of_app. left.
                change (fun r => v_name (r_version r)) with (v_name ∘ r_version). rewrite list_fmap_compose, (proj2 Hn).
                cbn [fmap list_fmap]. right. by eapply elem_take_name.
        * destruct (negb _); [apply Hfail; auto|]. rewrite Hnew, Et in *. destruct (decide _); [apply Hfail; auto|].
          apply (advance es s i x _ (At m j (v_up v)) c); try done; cbn [s_table s_trace s_committed s_ended s_running set_table].
          -- destruct Hord as ([Hu1 Hu2] & n' & Hn' & Hle & Heff). split.
             ++ split; [done|]. simpl. eapply Forall_impl; [exact Hu2|]. simpl. intros. lia.
             ++ by exists n'.
          -- simpl. rewrite Ep. by econstructor.
          -- split; [done|]. cbn [set_program x_gone x_new x_number x_rows x_program]. split_and!; [done..|]. right. eexists _, n.
             split_and!; try done. destruct Hor as [(-> & Hsort & Hlt & Hap)|Hor]; [left|by right]. cbn [option_list] in *. rewrite app_nil_r in *.
             split_and!; try done; cbn [t_rows t_next].
             ++ by apply sorted_snoc.
             ++ apply Forall_app. split; [eapply Forall_impl; [done|]; simpl; lia|]. constructor; [lia|done].
          -- intros j' y st' _ _. rewrite Et. apply climbing_next.
          -- intros T. rewrite Et. done.
          -- intros j'. by right.
          -- intros j'. by right.
    - (* committing *)
      destruct Hcg as (Hg & Hi & Hen & Hlen & Hor). rewrite app_nil_r in Hen.
      assert (~ clean x) as Hdirty.
      { intros (C1 & C2 & C3). destruct Hor as [(z & Ho & Hnew & _)|(t & n & Et & Hnew & Hn & Hrows & _)]; [congruence|].
        rewrite C2 in Hrows. apply (f_equal length) in Hrows. rewrite drop_length, take_length in Hrows. simpl in Hrows. lia. }
      assert (exists t', outcome_of x s = Some (Some t') /\ records vs (m + j) t' /\ numbered_up t' /\ m0 <= m + j /\
          effect (s_committed s ++ [i]) (s_trace s) = drop m0 (take (m + j) vs) ≫= v_up /\
          (forall t n, s_table s = Some (Some t) -> records vs n t -> n < m + j)) as (t' & Eo & Hrec & Hup & Hle & Heff & Hgrow).
      { destruct Hor as [(z & Ho & Hnew & -> & Hrows & Hsort & Hlt & Hap)|(t & n & Et & Hnew & Hn & Hrows & [(-> & Hsort & Hlt & Hap)|[_ ->]])]; [..|lia].
        - unfold outcome_of. rewrite Hnew. eexists. split; [done|]. rewrite Ho in *. destruct Hord as [Hm0 Hco]. split_and!.
          + split; [done|]. done.
          + apply sorted_app_l in Hsort. apply Forall_app in Hlt as [Hlt _]. done.
          + lia.
          + rewrite Hap, Hen, Hco, Hm0. unfold effect. rewrite filter_none; [done|]. intros e' _. apply not_elem_of_nil.
          + done.
        - unfold outcome_of. rewrite Hnew, Et, Hg, filter_nothing in *. eexists. split; [done|]. destruct Hord as (_ & n' & Hn' & Hm0 & Heff).
          rewrite (records_unique _ _ _ Hn' Hn) in *. clear n' Hn'. split_and!.
          + split; [done|]. simpl. rewrite fmap_app, (proj2 Hn), Hrows. simpl. f_equal.
            rewrite <- (take_drop n (take (n + j) vs)) at 2. f_equal. rewrite take_take. f_equal. lia.
          + apply sorted_app_l in Hsort. apply Forall_app in Hlt as [Hlt _]. done.
          + lia.
          + rewrite Hap, Hen, Heff, <- bind_app. f_equal. rewrite <- (take_drop n (take (n + j) vs)) at 2.
            rewrite take_take. replace (n `min` (n + j)) with n by lia. symmetry. apply drop_app_le. rewrite take_length. pose proof (proj1 Hn). lia.
          + intros t1 n1 [= <-] Hn1. rewrite (records_unique _ _ _ Hn1 Hn). lia. }
      apply (advance es s i x _ (Over (m + j)) c); try done; cbn [s_table s_trace s_committed s_ended s_running]; rewrite ?Eo.
      + split; [done|]. by exists (m + j).
      + split; [done|]. simpl. split_and!; try done. by eexists _, _.
      + intros j' y st' Hj' Hy Hcg'. eapply climbing_commit; [|done|done|done|done|done].
        destruct (clean_dec y) as [|Hd]; [done|]. destruct Hj'. destruct Hcons as (_ & _ & Huniq). by eapply Huniq.
      + intros T HT. unfold reached in *. destruct (s_table s) as [[t|]|]; [|done|].
        * destruct HT as (n & Hn & HT). pose proof (Hgrow _ _ eq_refl Hn). exists (m + j). split; [done|lia].
        * exists (m + j). split; [done|lia].
      + intros j'. rewrite elem_of_app, elem_of_list_singleton. naive_solver.
      + intros j'. by right.
  Qed.

  (** ** The program of [up] *)

  Lemma halts_raise e : halts (Stop (Raise e)).
  Proof. by eexists. Qed.
  Lemma halts_abort : halts (Stop Abort).
  Proof. by eexists. Qed.
  Lemma climb_apply G d names m T f : forall j, Forall2 (stored d) names (drop (m + j) (take T vs)) -> m + j <= T <= length vs ->
    climb G (At m (T - m) []) (f tt) -> climb G (At m j []) (pbind (p_apply_versions d names) f).
  Proof.
    induction names as [|n names IH]; intros j H Hj Hf.
    - apply Forall2_length in H. rewrite drop_length, take_length in H. simpl in H. replace j with (T - m) by lia. done.
    - destruct (decide (m + j = T)) as [E|Hne].
      { rewrite E, take_drop_nil in H. by apply Forall2_cons_nil_inv in H. }
      assert (is_Some (vs !! (m + j))) as [w Hw] by (apply lookup_lt_is_Some; lia).
      rewrite (drop_S _ w) in H by (rewrite lookup_take; [done|lia]). apply Forall2_cons in H as [Hn H].
      cbn [p_apply_versions]. apply get_version_iff in Hn as ->. cbn [pbind].
      assert (forall dn rest, v_up w = dn ++ rest ->
        climb G (At m j dn) (pbind (pbind (p_execute_all rest) (fun _ => pbind (punwrap (tell (InsertRow w))) (fun _ => p_apply_versions d names))) f)) as K.
      { intros dn rest. revert dn. induction rest as [|stmt rest IH']; intros dn E.
        - rewrite app_nil_r in E. subst dn. cbn. apply climb_insert; [done| |apply halts_abort]. cbn.
          apply IH; [|lia|done]. by replace (m + S j) with (S (m + j)) by lia.
        - cbn. apply (climb_execute _ _ _ _ _ rest w); [done|done| |apply halts_abort]. cbn. apply IH'. by rewrite <- app_assoc. }
      by apply (K []).
  Qed.
  Lemma last_of_sorted n (l : list row) : n <= length vs -> r_version <$> l = new_init :: take n vs -> StronglySorted Z.lt (r_order <$> l) ->
    exists r rest, newest_first l = r :: rest /\ (new_init :: vs) !! n = Some (r_version r).
  Proof.
    intros Hn E Hs. rewrite newest_first_increasing by done.
    assert (length l = S n) as Hlen.
    { rewrite <- (fmap_length r_version), E. simpl. rewrite take_length. lia. }
    destruct l as [|r l _] using rev_ind; [done|]. rewrite reverse_snoc. exists r, (reverse l). split; [done|].
    rewrite app_length in Hlen. simpl in Hlen. assert (length l = n) as Hl by lia.
    assert ((r_version <$> l ++ [r]) !! n = Some (r_version r)) as K.
    { rewrite fmap_app, lookup_app_r; rewrite fmap_length, Hl; [|done]. by rewrite Nat.sub_diag. }
    rewrite E in K. destruct n as [|n]; [done|]. simpl in *. by rewrite lookup_take in K by lia.
  Qed.
  Lemma up_climbs l d version : on_timeline vs d -> version <> Some (L "stage") ->
    climb (aims (Up l d version)) Begin (up_program l d version).
  Proof.
    intros Ht Hver. unfold up_program. destruct (from_dir l d) as [h| | | |] eqn:Eh; cbn [pbind]; [|by constructor..].
    assert (climb (aims (Up l d version)) Ready
      (go current <- p_current_version;
       go to <- Stop (match version with Some v => get_version d v | None => get_current_version h d end);
       go versions <- Stop (get_upward_range d (v_name current) (v_name to));
       match versions with [] => Stop (Ret ()) | _ => go _ <- p_apply_versions d versions; tell Commit end)) as K.
    { cbn [pbind p_current_version p_meta_schema_exists select]. constructor; cbn [pbind p_current_version p_meta_schema_exists select]; [|apply halts_raise]. constructor; [|cbn; apply halts_raise]. intros n rows Hn Hrows Hs. cbn [pbind p_current_version p_meta_schema_exists select].
      destruct (last_of_sorted n rows Hn Hrows Hs) as (r & rest & -> & Hr). cbn [pbind p_current_version p_meta_schema_exists select].
      destruct (match version with Some v => get_version d v | None => get_current_version h d end) as [to| | | |] eqn:Eto; cbn [pbind]; [|by constructor..].
      destruct (goal_not_stage vs Hvs l d h version to Ht Hver Eh Eto) as [Htarget Hstage].
      destruct (get_upward_range d (v_name (r_version r)) (v_name to)) as [names| | | |] eqn:Er; cbn [pbind]; [|by constructor..].
      pose proof Ht as (Hw & _ & _). apply (range_named_iff _ _ _ _ Hw) in Er as [Hp _].
      destruct (segment vs Hvs d n _ _ _ _ Ht Hp Hr eq_refl Hstage) as (T & w & HT & HwT & Ew & Hf).
      assert (aims (Up l d version) T) as Haim by (exists w; by rewrite <- Ew).
      destruct names as [|n0 names].
      - apply climb_nothing. apply Forall2_length in Hf. rewrite drop_length, take_length in Hf. simpl in Hf. by replace n with T by lia.
      - apply (climb_apply _ _ _ _ T); [by rewrite Nat.add_0_r|lia|]. apply Forall2_length in Hf. rewrite drop_length, take_length in Hf. simpl in Hf.
        cbn. apply climb_commit; [by replace (n + (T - n)) with T by lia|lia| |apply halts_raise].
        replace (n + (T - n)) with T by lia. by constructor. }
    cbn [pbind p_ensure_initialized p_meta_schema_exists]. constructor; cbn; [exact K| |apply halts_raise].
    constructor; cbn; [|apply halts_raise]. constructor; cbn; [|apply halts_raise]. constructor; cbn; [exact K|apply halts_raise].
  Qed.

  (** ** Whatever happens *)

  Lemma same_starts (es : list event) e j c : (forall j c, e <> Start j c) -> Start j c ∈ es ++ [e] <-> Start j c ∈ es.
  Proof. intros He. rewrite elem_of_app, elem_of_list_singleton. split; [|by left]. intros [|K]; [done|]. by destruct (He j c). Qed.
  Lemma ends_rises es s i x r e c : rising es s -> s_running s !! i = Some x -> (forall j c, e <> Start j c) ->
    consistent vs o0 (ends i r s) -> Start i c ∈ es -> (r = Ret () -> exists T, aims c T /\ reached (s_table s) T) ->
    rising (es ++ [e]) (ends i r s).
  Proof.
    intros [H1 H2 H3 H4 H5 H6] Hx He Hcons Hc Hr. split; simpl; [done|done|..].
    - intros j y [Hj Hy]%lookup_delete_Some. destruct (H3 j y Hy) as (cj & st & K1 & K2 & K3). exists cj, st. by rewrite same_starts.
    - intros j r'. destruct (decide (i = j)) as [<-|Hij].
      + rewrite lookup_insert. intros [= <-]. exists c. by rewrite same_starts.
      + rewrite lookup_insert_ne by done. intros Hj. destruct (H4 j r' Hj) as (cj & K1 & K2). exists cj. by rewrite same_starts.
    - intros j K. destruct (decide (i = j)) as [<-|Hij].
      + right. rewrite lookup_insert. by eexists.
      + rewrite lookup_delete_ne, lookup_insert_ne by done. apply H5. destruct K as [K|[K|[cj K]]]; [by left|by right; left|].
        right. right. exists cj. by rewrite same_starts in K.
    - intros j c1 c2. rewrite !same_starts by done. apply H6.
  Qed.
  Lemma stop_goal o tr co i x c st r : climb (aims c) st (Stop r) -> climbing o tr co i x st -> r = Ret () ->
    exists T, aims c T /\ reached o T.
  Proof.
    intros H Hcg ->. inversion H as [|T HT|m Hm| | | | | | | | |]; subst; [done|..].
    - exists T. split; [done|]. destruct Hcg as (_ & _ & _ & t & n & -> & Hn & Hle). by exists n.
    - exists m. split; [done|]. destruct Hcg as (_ & _ & _ & _ & [(z & -> & _ & -> & _)|(t & n & -> & _ & Hn & _ & K)]); [done|].
      exists n. split; [done|]. destruct K as [(-> & _)|[? _]]; lia.
  Qed.
  Lemma happen_rises es e s s' : sane vs e -> upward e -> rising es s -> happen e s = Some s' -> rising (es ++ [e]) s'.
  Proof.
    intros Hsane Hup Hr H. pose proof (happen_ok vs Hvs o0 e s s' (sane_welcome vs Hvs o0 e Hsane) (rise_consistent _ _ Hr) H) as Hcons.
    destruct e as [i c|i|i|i]; simpl in H.
    - destruct (decide _) as [[Hi Hend]|]; [|done]. injection H as <-. destruct c as [l d version|version]; [|done].
      destruct Hsane as [Hd Hver]. destruct Hr as [H1 H2 H3 H4 H5 H6].
      assert (forall P, (i ∈ s_committed s \/ i ∈ (s_trace s).*1 \/ exists c, Start i c ∈ es) -> P) as Hnew.
      { intros P K. exfalso. apply H5 in K. rewrite Hi, Hend in K. by destruct K as [[? ?]|[? ?]]. }
      split; simpl; [done|done|..].
      + intros j y. destruct (decide (i = j)) as [<-|Hij].
        * rewrite lookup_insert. intros [= <-]. exists (Up l d version), Begin. split; [apply elem_of_app; right; by apply elem_of_list_singleton|].
          split; [by apply up_climbs|]. split; [done|]. simpl. split_and!; try done.
          -- intros K. apply Hnew. by left.
          -- apply entries_none. intros K. apply Hnew. by right; left.
        * rewrite lookup_insert_ne by done. intros Hy. destruct (H3 j y Hy) as (cj & st & K1 & K2 & K3). exists cj, st.
          split; [apply elem_of_app; by left|done].
      + intros j r Hj. destruct (H4 j r Hj) as (cj & K1 & K2). exists cj. split; [apply elem_of_app; by left|done].
      + intros j K. destruct (decide (i = j)) as [<-|Hij]; [left; rewrite lookup_insert; by eexists|]. rewrite lookup_insert_ne by done.
        apply H5. destruct K as [K|[K|[cj K]]]; [by left|by right; left|]. right. right. exists cj.
        apply elem_of_app in K as [K|K%elem_of_list_singleton]; [done|]. by injection K as -> _.
      + intros j c1 c2 [K1|K1%elem_of_list_singleton]%elem_of_app [K2|K2%elem_of_list_singleton]%elem_of_app.
        * by eapply H6.
        * injection K2 as -> ->. apply Hnew. right. right. by exists c1.
        * injection K1 as -> ->. apply Hnew. right. right. by exists c2.
        * congruence.
    - destruct (s_running s !! i) as [x|] eqn:Hx; [|done]. destruct (x_program x) as [r|q k] eqn:Ep.
      + injection H as <-. destruct (rise_running _ _ Hr i x Hx) as (c & st & Hc & Hcl & Hcg). rewrite Ep in Hcl.
        eapply ends_rises; try done. by eapply stop_goal.
      + pose proof (step_rises es s i x q k (Step i) Hr Hx Ep) as K. destruct (serve i q x s); [done|..]; injection H as <-; by apply K.
    - destruct (s_running s !! i) as [x|] eqn:Hx; [|done]. destruct (x_program x) as [r|q k] eqn:Ep; [done|].
      injection H as <-. destruct (rise_running _ _ Hr i x Hx) as (c & st & Hc & Hcl & Hcg). rewrite Ep in Hcl.
      eapply advance_fails; try done; [|by right]. inversion Hcl; done.
    - destruct (s_running s !! i) as [x|] eqn:Hx; [|done]. injection H as <-.
      destruct (rise_running _ _ Hr i x Hx) as (c & st & Hc & Hcl & Hcg). by eapply ends_rises.
  Qed.
  Lemma unfolds_rises es : forall past s s', Forall (sane vs) es -> Forall upward es -> rising past s -> unfolds es s = Some s' ->
    rising (past ++ es) s'.
  Proof.
    induction es as [|e es IH]; intros past s s' Hsane Hup Hr H; simpl in H.
    - injection H as <-. by rewrite app_nil_r.
    - destruct (happen e s) as [s1|] eqn:E; [|done]. apply Forall_cons in Hsane as [? ?]. apply Forall_cons in Hup as [? ?].
      replace (past ++ e :: es) with ((past ++ [e]) ++ es) by (by rewrite <- app_assoc). eapply IH; [done|done| |done]. by eapply happen_rises.
  Qed.
  Lemma idle_rises s : consistent vs o0 s -> idle s -> begins vs m0 (s_table s) -> rising [] s.
  Proof.
    intros Hcons (E1 & E2 & E3 & E4) Hb. split; rewrite ?E1, ?E2, ?E3, ?E4.
    - done.
    - destruct Hb as [[-> Hm]|(t & -> & Ht & Hn)]; [done|]. split; [done|]. exists m0. split_and!; [done|done|].
      rewrite take_drop_nil. done.
    - intros i x ?%lookup_empty_Some. done.
    - intros i r ?%lookup_empty_Some. done.
    - intros i [?%elem_of_nil|[?%elem_of_nil|[c ?%elem_of_nil]]]; done.
    - intros i c c' ?%elem_of_nil. done.
  Qed.
End up.

(** ** The claims *)

Lemma ups_in_order vs m es s s' : timeline vs -> idle s -> begins vs m (s_table s) -> Forall (sane vs) es -> Forall upward es ->
  unfolds es s = Some s' ->
  (s_table s' = None /\ in_effect s' = []) \/
  exists n t, m <= n /\ s_table s' = Some (Some t) /\ records vs n t /\ numbered_up t /\ in_effect s' = drop m (take n vs) ≫= v_up.
Proof.
  intros Hvs Hi Hb Hsane Hup H. destruct (begins_consistent vs m s Hvs Hi Hb) as [o0 Hc].
  pose proof (unfolds_rises vs Hvs o0 m es [] s s' Hsane Hup (idle_rises vs o0 m s Hc Hi Hb) H) as Hr.
  pose proof (rise_order _ _ _ _ _ Hr) as Ho. unfold in_order in Ho. unfold in_effect. destruct (s_table s') as [[t|]|].
  - right. destruct Ho as (Hn & n & Hrec & Hle & Heff). exists n, t. done.
  - done.
  - left. split; [done|]. destruct Ho as [_ ->]. rewrite filter_none; [done|]. intros e' _. apply not_elem_of_nil.
Qed.
Lemma up_arrives vs m es s s' i l d version : timeline vs -> idle s -> begins vs m (s_table s) -> Forall (sane vs) es -> Forall upward es ->
  unfolds es s = Some s' -> Start i (Up l d version) ∈ es -> s_ended s' !! i = Some (Ret ()) ->
  exists to, target d version to /\
    ((s_table s' = None /\ to = INIT) \/ exists t, s_table s' = Some (Some t) /\ to ∈ row_name <$> t_rows t).
Proof.
  intros Hvs Hi Hb Hsane Hup H Hstart Hend. destruct (begins_consistent vs m s Hvs Hi Hb) as [o0 Hc].
  pose proof (unfolds_rises vs Hvs o0 m es [] s s' Hsane Hup (idle_rises vs o0 m s Hc Hi Hb) H) as Hr.
  destruct (rise_ended _ _ _ _ _ Hr i _ Hend) as (c & Hc' & K). destruct (K eq_refl) as (T & Haim & Hreach).
  rewrite (rise_unique _ _ _ _ _ Hr i _ _ Hc' Hstart) in Haim. destruct Haim as (w & Hw & Htarget). exists (v_name w). split; [done|].
  unfold reached in Hreach. destruct (s_table s') as [[t|]|]; [|done|].
  - right. exists t. split; [done|]. destruct Hreach as (n & [Hn E] & HT). rewrite row_names, E. apply elem_of_list_fmap_1.
    apply elem_of_list_lookup. exists T. destruct T as [|T]; [done|]. simpl in *. by rewrite lookup_take by lia.
  - left. subst T. simpl in Hw. injection Hw as <-. done.
Qed.
