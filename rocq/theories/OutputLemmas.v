(** Lemmas about what the commands print. *)
From Verif Require Import Base Text Types Changes Diff Sql History SpecHistory HistoryLemmas HistoryLoad HistoryProofs
  HistoryRun HistoryClaims Dbh SpecDb DbLemmas DbRun DbSteps DbClaims Expand Project Definitions World Output SpecOutput.

(** ** Printing does not matter *)
Section mirror.
  Context {S : Type}.
  (** Nothing happens without budget. *)
  Definition still {A} (m : io S A) : Prop := forall s, exists r, m (0, s) = (r, (0, s)).
  Definition mirrors {A} (t : told S A) (m : io S A) : Prop :=
    still m /\ forall k s r k' s' out, t (k, s) = ((r, (k', s')), out) ->
      (r <> Killed -> exists j, j + k' <= k /\ forall x, m (j + x, s) = (r, (x, s'))) /\
      (r = Killed -> exists j r1, j <= k /\ m (j, s) = (r1, (0, s'))).

  Lemma mirrors_same {A} (t : told S A) m : mirrors t m -> same_effect t m.
  Proof.
    intros [_ H] k s r k' s' out E. destruct (H _ _ _ _ _ _ E) as [H1 H2]. split.
    - intros Hr. destruct (H1 Hr) as (j & Hj & Hm). exists (j + 0). split; [lia|]. exists 0. apply Hm.
    - intros Hr. destruct (H2 Hr) as (j & r1 & Hj & Hm). by exists j, r1, 0.
  Qed.

  (** The budget is used from the front. *)
  Definition uniform {A} (m : io S A) : Prop := mirrors (quietly m) m.
  Lemma uniform_read {A} (f : S -> exec A) : uniform (iread f).
  Proof.
    split; [intros s; by eexists|]. intros k s r k' s' out [= <- <- <- <-]. split.
    - intros _. by exists 0.
    - intros E. exists 0, Killed. split; [lia|]. unfold iread. simpl. by rewrite E.
  Qed.
  Lemma uniform_ret {A} (a : A) : uniform (iret a).
  Proof. apply (uniform_read (fun _ => Ret a)). Qed.
  Lemma uniform_step {A} (f : S -> exec A * S) : uniform (istep f).
  Proof.
    split; [intros s; by eexists|]. intros [|k] s r k' s' out H; unfold quietly, istep in H.
    - injection H as <- <- <- <-. split; [done|]. intros _. by exists 0, Killed.
    - destruct (f s) as [r0 s0] eqn:E. injection H as <- <- <- <-. split.
      + intros _. exists 1. split; [done|]. intros x. simpl. by rewrite E.
      + intros _. exists 1, r0. split; [lia|]. simpl. by rewrite E.
  Qed.
  Lemma mirrors_say line : mirrors (say line) (@iret S () ()).
  Proof.
    split; [intros s; by eexists|]. intros [|k] s r k' s' out [= <- <- <- <-]; (split; [|try done]).
    - done.
    - intros _. exists 0, (Ret ()). split; [lia|done].
    - intros _. exists 0. split; [lia|done].
  Qed.
  Lemma mirrors_bind {A B} (t : told S A) m (f : A -> told S B) g :
    mirrors t m -> (forall a, mirrors (f a) (g a)) -> mirrors (tbind t f) (ibind m g).
  Proof.
    intros [Hs Hm] Hg. split.
    - intros s. destruct (Hs s) as [r E]. unfold ibind. rewrite E. destruct r as [a|e| | |]; try (by eexists).
      destruct (Hg a) as [Hsg _]. apply Hsg.
    - intros k s r k' s' out H. unfold tbind in H. destruct (t (k, s)) as [[r0 [k0 s0]] o0] eqn:E.
      destruct (Hm _ _ _ _ _ _ E) as [H1 H2]. destruct r0 as [a|e| | |].
      2-4: injection H as <- <- <- <-; split; [|done]; intros _; destruct H1 as (j & ? & H1); [done|]; exists j;
        (split; [done|]); intros x; unfold ibind; by rewrite H1.
      2: { injection H as <- <- <- <-. split; [done|]. intros _. destruct H2 as (j & r1 & Hj & H2); [done|].
           unfold ibind. destruct r1 as [a|e| | |].
           2-5: eexists j, _; split; [done|]; by rewrite H2.
           destruct (Hg a) as [Hsg _]. destruct (Hsg s0) as [r2 E2]. exists j, r2. split; [done|]. by rewrite H2. }
      destruct H1 as (j & Hj & H1); [done|]. destruct (f a (k0, s0)) as [[r2 [k2 s2]] o2] eqn:E2.
      injection H as <- <- <- <-. destruct (Hg a) as [_ Hga]. destruct (Hga _ _ _ _ _ _ E2) as [H3 H4]. split.
      + intros Hr. destruct (H3 Hr) as (j' & ? & H5). exists (j + j'). split; [lia|]. intros x.
        unfold ibind. rewrite <- Nat.add_assoc, H1. apply H5.
      + intros Hr. destruct (H4 Hr) as (j' & r1 & ? & H5). exists (j + j'), r1. split; [lia|].
        unfold ibind. rewrite H1. apply H5.
  Qed.
  (** A line more. *)
  Lemma mirrors_say_then {A} line (t : told S A) m : mirrors t m -> mirrors (tbind (say line) (fun _ => t)) m.
  Proof.
    intros H. destruct (mirrors_bind (say line) (iret ()) (fun _ => t) (fun _ => m) (mirrors_say line) (fun _ => H)) as [H1 H2].
    split; [exact H1|exact H2].
  Qed.
  Lemma mirrors_say_all lines : mirrors (say_all lines) (@iret S () ()).
  Proof.
    induction lines as [|line lines IH]; [apply uniform_ret|]. by apply mirrors_say_then.
  Qed.
  Lemma uniform_bind {A B} (m : io S A) (g : A -> io S B) : uniform m -> (forall a, uniform (g a)) -> uniform (ibind m g).
  Proof.
    intros Hm Hg. destruct (mirrors_bind (quietly m) m (fun a => quietly (g a)) g Hm Hg) as [H1 H2]. split; [done|].
    intros k s r k' s' out [= H <-]. apply (H2 k s r k' s' []). rewrite <- H.
    unfold tbind, quietly, ibind. destruct (m (k, s)) as [[a|e| | |] p']; [|done..]. by destruct (g a p').
  Qed.
End mirror.
Lemma uniform_unwrap {S A} (m : io (session S) A) : uniform m -> uniform (iunwrap m).
Proof.
  intros [Hs Hm]. split.
  - intros s. destruct (Hs s) as [r E]. unfold iunwrap. rewrite E. by destruct r; eexists.
  - intros k s r k' s' out [= H <-]. unfold iunwrap in *. destruct (m (k, s)) as [r0 [k0 s0]] eqn:E.
    destruct (Hm k s r0 k0 s0 []) as [H1 H2]; [unfold quietly; by rewrite E|].
    destruct r0 as [a|e| | |]; injection H as <- <- <-; (split; [intros Hr; try done|try done]).
    1-4: destruct H1 as (j & ? & H1); [done|]; exists j; split; [done|]; intros x; by rewrite H1.
    intros _. destruct H2 as (j & r1 & Hj & H2); [done|]. exists j. rewrite H2. destruct r1; by eexists.
Qed.

(** Going through a command. *)
Lemma tbind_inv {S A B} (m : told S A) (f : A -> told S B) p r q out :
  tbind m f p = ((r, q), out) ->
  (exists a p' o1 o2, m p = ((Ret a, p'), o1) /\ f a p' = ((r, q), o2) /\ out = o1 ++ o2) \/
  ((exists r1, m p = ((r1, q), out) /\ forall a, r1 <> Ret a) /\ forall b, r <> Ret b).
Proof.
  unfold tbind. destruct (m p) as [[[a|e| | |] p'] o1].
  - intros H. left. exists a, p', o1. destruct (f a p') as [x o2]. injection H as -> <-. by exists o2.
  - intros [= <- <- <-]. right. split; [by exists (Raise e)|done].
  - intros [= <- <- <-]. right. split; [by exists Abort|done].
  - intros [= <- <- <-]. right. split; [by exists Hang|done].
  - intros [= <- <- <-]. right. split; [by exists Killed|done].
Qed.
Lemma say_inv {S} line k (s : S) r q out :
  say line (k, s) = ((r, q), out) ->
  (r = Killed /\ q.2 = s /\ out = []) \/ (r = Ret () /\ q.2 = s /\ out = [line]).
Proof. destruct k as [|k]; intros [= <- <- <-]; [by left|by right]. Qed.
Lemma say_then_inv {S A} line (t : told S A) k (s : S) r q out :
  tbind (say line) (fun _ => t) (k, s) = ((r, q), out) ->
  (out = [] /\ q.2 = s /\ r = Killed) \/
  (exists k1 o2, t (k1, s) = ((r, q), o2) /\ out = line :: o2).
Proof.
  unfold tbind. destruct k as [|k]; simpl.
  - intros [= <- <- <-]. by left.
  - right. exists k. destruct (t (k, s)) as [x o2]. injection H as -> <-. by exists o2.
Qed.
Lemma quietly_inv {S A B} (m : io S A) (f : A -> told S B) p r q out :
  tbind (quietly m) f p = ((r, q), out) ->
  (exists a p', m p = (Ret a, p') /\ f a p' = ((r, q), out)) \/
  ((exists r1, m p = (r1, q) /\ forall a, r1 <> Ret a) /\ out = [] /\ forall b, r <> Ret b).
Proof.
  intros [(a & p' & o1 & o2 & H1 & H2 & ->)|[(r1 & H1 & H2) H3]]%tbind_inv; injection H1 as H1 <-.
  - left. by exists a, p'.
  - right. split; [by exists r1|done].
Qed.
Lemma quietly_read_inv {S A B} (g : S -> exec A) (f : A -> told S B) k s r q out :
  tbind (quietly (iread g)) f (k, s) = ((r, q), out) ->
  (exists a, g s = Ret a /\ f a (k, s) = ((r, q), out)) \/
  ((forall a, g s <> Ret a) /\ q = (k, s) /\ out = [] /\ forall b, r <> Ret b).
Proof.
  intros [(a & p' & [= H1 <-] & H2)|((r1 & [= <- <-] & H1) & H2 & H3)]%quietly_inv; [left; by exists a|by right].
Qed.
