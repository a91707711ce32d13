(** Lemmas about directories and about the commands of World.v. *)
From Verif Require Import Base Text Types Changes Diff Sql History Dbh Expand Project World SpecProject ProjectLemmas.

(** ** Invariants *)

(** [I] holds as long as [m] runs. *)
Definition keeps {T A : Type} (I : T -> Prop) (m : io T A) : Prop :=
  forall k fs, I fs -> I (m (k, fs)).2.2.
Lemma keeps_ret {T A : Type} (I : T -> Prop) (a : A) : keeps I (iret a).
Proof. by intros k fs HI. Qed.
Lemma keeps_read {T A : Type} (I : T -> Prop) (f : T -> exec A) : keeps I (iread f).
Proof. by intros k fs HI. Qed.
Lemma keeps_bind {T A B : Type} (I : T -> Prop) (m : io T A) (f : A -> io T B) :
  keeps I m -> (forall a, keeps I (f a)) -> keeps I (ibind m f).
Proof.
  intros Hm Hf k fs HI. unfold ibind. specialize (Hm k fs HI).
  destruct (m (k, fs)) as [[a|e| | |] [k' fs']]; cbn [fst snd] in *; try done. by apply Hf.
Qed.
Lemma keeps_step {T A : Type} (I : T -> Prop) (f : T -> exec A * T) :
  (forall fs, I fs -> I (f fs).2) -> keeps I (istep f).
Proof.
  intros Hf k fs HI. unfold istep. destruct k as [|k]; [done|]. specialize (Hf fs HI).
  by destruct (f fs) as [r fs'].
Qed.

(** ** Directories *)

Lemma strip_spec (p q r : path) : strip p q = Some r <-> q = p ++ r.
Proof.
  revert q. induction p as [|a p IH]; intros q; simpl.
  - split; [by intros [= ->]|by intros ->].
  - destruct q as [|b q]; [done|]. case_decide as Hab.
    + subst b. rewrite IH. split; [by intros ->|by intros [= ->]].
    + split; [done|]. intros [= -> _]. done.
Qed.
Lemma child_spec (p q : path) (f : str) : child p q = Some f <-> q = p ++ [f].
Proof.
  unfold child. rewrite <- strip_spec. destruct (strip p q) as [[|a [|]]|]; split; congruence.
Qed.
Lemma lookup_rekey {K A} `{Countable K} (f : path -> option K) (m : gmap path A) (q : path) (k : K) :
  (forall q', f q' = Some k <-> q' = q) -> rekey f m !! k = m !! q.
Proof.
  intros Hf. unfold rekey.
  set (l := omap _ _).
  assert (Hl : forall k' a, (k', a) ∈ l <-> exists q', f q' = Some k' /\ m !! q' = Some a).
  { intros k' a. unfold l. rewrite elem_of_list_omap. split.
    - intros ([q' a'] & Hin & Heq). apply elem_of_map_to_list in Hin. simpl in Heq.
      destruct (f q') as [k0|] eqn:Hk; [|discriminate]. injection Heq as -> ->. by exists q'.
    - intros (q' & Hk & Ha). exists (q', a). split; [by apply elem_of_map_to_list|]. simpl. by rewrite Hk. }
  destruct (m !! q) as [a|] eqn:Ha.
  - apply elem_of_list_to_map_1'.
    + intros a' Hin. apply Hl in Hin as (q' & Hk & Ha'). apply Hf in Hk as ->. congruence.
    + apply Hl. exists q. split; [by apply Hf|done].
  - apply not_elem_of_list_to_map_1. intros Hin. apply elem_of_list_fmap in Hin as ([k' a] & -> & Hin).
    apply Hl in Hin as (q' & Hk & Ha'). simpl in *. apply Hf in Hk as ->. congruence.
Qed.
Lemma lookup_below (p q : path) (fs : filesystem) : below p fs !! q = fs !! (p ++ q).
Proof. apply lookup_rekey. intros q'. apply strip_spec. Qed.

Section lemmas.
  Context {S : Type} (o : outside S).

  Lemma lookup_history_at (p : path) (fs : filesystem) (f : str) :
    history_at o p fs !! f = entry_of o <$> fs !! (p ++ [f]).
  Proof. unfold history_at. rewrite lookup_fmap. f_equal. apply lookup_rekey. intros q'. apply child_spec. Qed.

  Global Instance snoc_inj (p : path) : Inj (=) (=) (fun f : str => p ++ [f]).
  Proof. intros f f' Heq. apply app_inj_tail in Heq. apply Heq. Qed.
  Lemma lookup_store_out (p q : path) (d d' : hdir) (fs : filesystem) :
    (forall f, q <> p ++ [f]) -> store o p d d' fs !! q = fs !! q.
  Proof.
    intros Hq. unfold store. apply lookup_union_r. apply lookup_kmap_None; [apply _|].
    intros f ->. by destruct (Hq f).
  Qed.
  Lemma lookup_store_in (p : path) (f : str) (d d' : hdir) (fs : filesystem) :
    store o p d d' fs !! (p ++ [f]) =
    match d' !! f with
    | Some e => if decide (d !! f = Some e) then fs !! (p ++ [f]) else Some (node_of o e)
    | None => fs !! (p ++ [f])
    end.
  Proof.
    unfold store. rewrite lookup_union. rewrite (lookup_kmap (fun f => p ++ [f])). rewrite lookup_fmap.
    rewrite map_filter_lookup. destruct (d' !! f) as [e|]; simpl.
    - case_option_guard as Hg.
      + rewrite decide_False by done. simpl. by destruct (fs !! _).
      + destruct (decide (d !! f = Some e)) as [|Hne]; [|by destruct Hg]. simpl. by destruct (fs !! _).
    - by destruct (fs !! _).
  Qed.
  Lemma history_at_store (p : path) (d' : hdir) (fs : filesystem) :
    (forall v, decode_version o (encode_version o v) = Some v) -> decode_version o [] = None ->
    (forall f, is_Some (history_at o p fs !! f) -> is_Some (d' !! f)) ->
    history_at o p (store o p (history_at o p fs) d' fs) = d'.
  Proof.
    intros Hde Hempty Hdom. apply map_eq. intros f.
    rewrite lookup_history_at, lookup_store_in. destruct (d' !! f) as [e|] eqn:He.
    - destruct (decide (history_at o p fs !! f = Some e)) as [Heq|Hne].
      + by rewrite lookup_history_at in Heq.
      + simpl. f_equal. destruct e as [|v|]; simpl; [done|by rewrite Hde|by rewrite Hempty].
    - destruct (fs !! (p ++ [f])) as [n|] eqn:Hn; [|done].
      destruct (Hdom f) as [e He']; [|congruence]. rewrite lookup_history_at, Hn. by eexists.
  Qed.

  Lemma history_at_same (p : path) (fs fs' : filesystem) :
    same_at p fs fs' -> history_at o p fs = history_at o p fs'.
  Proof.
    intros Hs. apply map_eq. intros f. rewrite !lookup_history_at. f_equal. apply Hs. by exists [f].
  Qed.
  Lemma below_same (p : path) (fs fs' : filesystem) : same_at p fs fs' -> below p fs = below p fs'.
  Proof. intros Hs. apply map_eq. intros q. rewrite !lookup_below. apply Hs. by exists q. Qed.
  Lemma is_directory_same (p : path) (fs fs' : filesystem) :
    same_at p fs fs' -> is_directory fs p = is_directory fs' p.
  Proof. intros Hs. unfold is_directory. by rewrite (Hs p). Qed.
  Lemma store_same (p : path) (d d' : hdir) (fs fs' : filesystem) :
    same_at p fs fs' -> same_at p (store o p d d' fs) (store o p d d' fs').
  Proof. intros Hs q Hq. unfold store. rewrite !lookup_union. by rewrite (Hs q Hq). Qed.
  Lemma store_outside (p : path) (d d' : hdir) (fs : filesystem) : same_outside p fs (store o p d d' fs).
  Proof. intros q Hq. symmetry. apply lookup_store_out. intros f ->. apply Hq. by exists [f]. Qed.

  (** ** Commands in a history directory *)

  Lemma in_history_touches {A} (p : path) (m : io hdir A) k fs r k' fs' :
    in_history o p m (k, fs) = (r, (k', fs')) -> same_outside p fs fs'.
  Proof.
    unfold in_history. destruct (is_directory fs p); [|by intros [= <- <- <-]].
    destruct (m (k, history_at o p fs)) as [r0 [k0 d0]]. intros [= <- <- <-]. apply store_outside.
  Qed.
  Lemma in_history_reads {A} (p : path) (m m2 : io hdir A) k fs fs2 r k' fs' :
    same_at p fs fs2 -> m (k, history_at o p fs) = m2 (k, history_at o p fs) ->
    in_history o p m (k, fs) = (r, (k', fs')) ->
    exists fs2', in_history o p m2 (k, fs2) = (r, (k', fs2')) /\ same_at p fs' fs2'.
  Proof.
    intros Hs Hm. unfold in_history. rewrite <- (is_directory_same p fs fs2 Hs).
    rewrite <- (history_at_same p fs fs2 Hs), <- Hm.
    destruct (is_directory fs p); [|by intros [= <- <- <-]; eauto].
    destruct (m (k, history_at o p fs)) as [r0 [k0 d0]]. intros [= <- <- <-].
    eexists. split; [done|]. by apply store_same.
  Qed.
End lemmas.
