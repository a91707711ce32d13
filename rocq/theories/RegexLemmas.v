(** The matcher finds a match exactly if there is one. *)
From Verif Require Import Base Regex SpecRegex.

Section matcher.
  Context {X : Type} (total : nat).
  Notation try_match := (@try_match X total).

  (** The repetitions of [r], [n] at most. *)
  Definition repeats (r : regex) (k : str -> captures -> option X) : nat -> str -> captures -> option X :=
    fix repeat (n : nat) (s : str) (c : captures) : option X :=
    match n with
    | 0 => k s c
    | Datatypes.S n =>
        match try_match r (fun s' c' => if (length s' <? length s)%nat then repeat n s' c' else None) s c with
        | Some x => Some x
        | None => k s c
        end
    end.
  Lemma try_star r k s c : try_match (RStar r) k s c = repeats r k (length s) s c.
  Proof. done. Qed.

  (** What is accepted does not depend on the captures. *)
  Definition blind (k : str -> captures -> option X) : Prop := forall s c c', k s c = None -> k s c' = None.

  Lemma try_match_blind r : forall k, blind k -> blind (try_match r k).
  Proof.
    induction r as [| | |p|r1 IH1 r2 IH2|r1 IH1 r2 IH2|r IH|n r IH]; intros k Hk s c c'.
    - cbn. apply Hk.
    - cbn. destruct (length s =? total)%nat; [apply Hk|done].
    - cbn. destruct s; [apply Hk|done].
    - cbn. destruct s as [|x s]; [done|]. destruct (p x); [apply Hk|done].
    - cbn. apply IH1, IH2, Hk.
    - cbn. destruct (try_match r1 k s c) eqn:E; [done|]. rewrite (IH1 k Hk s c c' E). apply IH2, Hk.
    - rewrite !try_star. generalize (length s) as n. intros n. revert s c c'.
      induction n as [|n IHn]; intros s c c'; cbn [repeats]; [apply Hk|].
      destruct (try_match r _ s c) eqn:E; [done|]. eapply (IH _) in E; [rewrite E; apply Hk|].
      intros t d d'. destruct (length t <? length s)%nat; [apply IHn|done].
    - cbn. apply IH. intros t d d'. apply Hk.
  Qed.

  Lemma blind_some k s c c' : blind k -> k s c <> None -> k s c' <> None.
  Proof. intros Hk H H'. apply H. by eapply Hk. Qed.

  Lemma try_match_iff r : forall k b s c,
    blind k -> length b + length s <= total <= length b + length s ->
    try_match r k s c <> None <-> exists w a, s = w ++ a /\ spans r b w a /\ k a c <> None.
  Proof.
    induction r as [| | |p|r1 IH1 r2 IH2|r1 IH1 r2 IH2|r IH|n r IH]; intros k b s c Hk Hl.
    - cbn. split.
      + intros H. exists [], s. split; [done|]. split; [constructor|done].
      + intros (w & a & -> & Hs & H). by inversion Hs; subst.
    - cbn. split.
      + destruct (length s =? total)%nat eqn:E; [|done]. apply Nat.eqb_eq in E. intros H. exists [], s.
        split; [done|]. split; [|done]. destruct b; [constructor|cbn in Hl; lia].
      + intros (w & a & -> & Hs & H). inversion Hs; subst. cbn in Hl |- *.
        by rewrite (proj2 (Nat.eqb_eq _ _)) by lia.
    - cbn. split.
      + destruct s; [|done]. intros H. exists [], []. split; [done|]. split; [constructor|done].
      + intros (w & a & -> & Hs & H). by inversion Hs; subst.
    - cbn. split.
      + destruct s as [|x s]; [done|]. destruct (p x) eqn:E; [|done]. intros H. exists [x], s.
        split; [done|]. split; [by constructor|done].
      + intros (w & a & -> & Hs & H). inversion Hs; subst. cbn. by rewrite H1.
    - cbn. rewrite (IH1 _ b); [|by apply try_match_blind|done]. split.
      + intros (w1 & a1 & -> & H1 & H2).
        rewrite (IH2 k (b ++ w1)) in H2; [|done|rewrite !app_length in *; lia].
        destruct H2 as (w2 & a & -> & H2 & H3). exists (w1 ++ w2), a.
        split; [by rewrite (assoc_L (++))|]. split; [by constructor|done].
      + intros (w & a & -> & Hs & H). inversion Hs as [| | | |? ? ? w1 w2 ? H1 H2| | | | |]; subst.
        exists w1, (w2 ++ a). split; [by rewrite (assoc_L (++))|]. split; [done|].
        rewrite (IH2 k (b ++ w1)); [|done|rewrite !app_length in *; lia]. by exists w2, a.
    - cbn. split.
      + destruct (try_match r1 k s c) eqn:E.
        * intros _. assert (try_match r1 k s c <> None) as H by (by rewrite E).
          apply (IH1 k b) in H as (w & a & -> & H1 & H2); [|done|done]. exists w, a.
          split; [done|]. split; [by apply sp_left|done].
        * intros (w & a & -> & H1 & H2)%(IH2 k b); [|done|done]. exists w, a.
          split; [done|]. split; [by apply sp_right|done].
      + intros (w & a & -> & Hs & H). inversion Hs; subst.
        * assert (try_match r1 k (w ++ a) c <> None) as H1; [|by destruct (try_match r1 k (w ++ a) c)].
          apply (IH1 k b); [done|done|]. by exists w, a.
        * destruct (try_match r1 k (w ++ a) c); [done|]. apply (IH2 k b); [done|done|]. by exists w, a.
    - rewrite try_star. assert (length s <= length s) as Hn by lia. revert Hn.
      generalize (length s) at 2 3 as n. intros n. revert b s c Hl. induction n as [|n IHn]; intros b s c Hl Hn.
      + destruct s; [|cbn in Hn; lia]. cbn. split.
        * intros H. exists [], []. split; [done|]. split; [constructor|done].
        * intros (w & a & Hw & _ & H). symmetry in Hw. apply app_eq_nil in Hw as [-> ->]. done.
      + cbn [repeats]. set (k' := fun (s' : str) (c' : captures) =>
          if (length s' <? length s)%nat then repeats r k n s' c' else None).
        assert (blind (repeats r k n)) as Hb.
        { clear -Hk. induction n as [|n IHn]; [done|]. intros s c c'. cbn [repeats].
          destruct (try_match r _ s c) eqn:E; [done|]. eapply (try_match_blind r) in E; [rewrite E; apply Hk|].
          intros t d d'. destruct (length t <? length s)%nat; [apply IHn|done]. }
        assert (blind k') as Hk'.
        { intros t d d'. unfold k'. destruct (length t <? length s)%nat; [apply Hb|done]. }
        split.
        * destruct (try_match r k' s c) eqn:E.
          -- intros _. assert (try_match r k' s c <> None) as H by (by rewrite E).
             apply (IH k' b) in H as (w1 & a1 & -> & H1 & H2); [|done|done]. unfold k' in H2.
             destruct (length a1 <? length (w1 ++ a1))%nat eqn:El; [|done]. apply Nat.ltb_lt in El.
             rewrite app_length in *. apply (IHn (b ++ w1)) in H2 as (w2 & a & -> & H2 & H3);
               [|rewrite app_length; lia|lia].
             exists (w1 ++ w2), a. split; [by rewrite (assoc_L (++))|]. split; [|done].
             apply sp_more; [|done|done]. intros ->. cbn in El. lia.
          -- intros H. exists [], s. split; [done|]. split; [constructor|done].
        * intros (w & a & -> & Hs & H). inversion Hs as [| | | | | | | |? ? w1 w2 ? Hne H1 H2|]; subst.
          -- cbn [app]. destruct (try_match r k' a c); done.
          -- assert (try_match r k' ((w1 ++ w2) ++ a) c <> None) as H3.
             { rewrite <- (assoc_L (++)). apply (IH k' b); [done|by rewrite (assoc_L (++))|].
               exists w1, (w2 ++ a). split; [done|]. split; [done|]. unfold k'.
               assert (0 < length w1) as Hpos by (destruct w1; [done|cbn; lia]).
               rewrite !app_length in *.
               rewrite (proj2 (Nat.ltb_lt _ _)) by lia.
               apply (IHn (b ++ w1)); [rewrite !app_length; lia|rewrite app_length; lia|]. by exists w2, a. }
             by destruct (try_match r k' ((w1 ++ w2) ++ a) c).
    - cbn. set (k' := fun (s' : str) (c' : captures) => k s' ((n, take (length s - length s') s) :: c')).
      assert (blind k') as Hk' by (intros t d d'; apply Hk). rewrite (IH k' b); [|done|done]. split.
      + intros (w & a & -> & H1 & H2). exists w, a. split; [done|]. split; [by constructor|].
        by eapply blind_some.
      + intros (w & a & -> & Hs & H). inversion Hs; subst. exists w, a. split; [done|]. split; [done|].
        unfold k'. by eapply blind_some.
  Qed.
End matcher.

Lemma match_at_iff r b s :
  match_at (length b + length s) r s <> None <-> exists w a, s = w ++ a /\ spans r b w a.
Proof.
  unfold match_at. rewrite (try_match_iff _ r _ b); [|done|done]. split.
  - intros (w & a & ? & ? & _). by exists w, a.
  - intros (w & a & ? & ?). exists w, a. done.
Qed.

(** There is a match exactly if some part of the text is matched. *)
Lemma regex_captures_iff r s :
  regex_captures r s <> None <-> exists b w a, s = b ++ w ++ a /\ spans r b w a.
Proof.
  unfold regex_captures.
  assert (forall b s, find_from (length b + length s) r s <> None <->
    exists b' w a, s = b' ++ w ++ a /\ spans r (b ++ b') w a) as Hfind.
  { clear s. intros b s. revert b. induction s as [|x s IH]; intros b; cbn [find_from].
    - destruct (match_at _ r []) eqn:E.
      + split; [|done]. intros _. assert (match_at (length b + length (@nil N)) r [] <> None) as H by (by rewrite E).
        apply match_at_iff in H as (w & a & Hs & H). exists [], w, a. split; [done|]. by rewrite app_nil_r.
      + split; [done|]. intros (b' & w & a & Hs & H). symmetry in Hs.
        apply app_eq_nil in Hs as [-> Hs]. rewrite app_nil_r in H. exfalso.
        assert (match_at (length b + length (@nil N)) r [] <> None) as H'; [|by rewrite E in H'].
        apply match_at_iff. by exists w, a.
    - destruct (match_at _ r (x :: s)) eqn:E.
      + split; [|done]. intros _. assert (match_at (length b + length (x :: s)) r (x :: s) <> None) as H by (by rewrite E).
        apply match_at_iff in H as (w & a & Hs & H). exists [], w, a. split; [done|]. by rewrite app_nil_r.
      + replace (length b + length (x :: s)) with (length (b ++ [x]) + length s) by (rewrite app_length; cbn; lia).
        rewrite IH. split.
        * intros (b' & w & a & -> & H). exists (x :: b'), w, a. split; [done|]. by rewrite <- (assoc_L (++)) in H.
        * intros ([|y b'] & w & a & Hs & H).
          -- exfalso. rewrite app_nil_r in H. cbn in Hs.
             assert (match_at (length b + length (x :: s)) r (x :: s) <> None) as H'; [|by rewrite E in H'].
             apply match_at_iff. by exists w, a.
          -- cbn in Hs. injection Hs as -> ->. exists b', w, a. split; [done|]. by rewrite <- (assoc_L (++)). }
  specialize (Hfind [] s). cbn in Hfind. rewrite <-Hfind. by destruct (find_from (length s) r s).
Qed.

(** ** Repeated characters *)
Fixpoint star_set {X} (p : N -> bool) (k : str -> captures -> option X) (s : str) (c : captures) : option X :=
  match s with
  | [] => k [] c
  | x :: s' =>
      if p x then match star_set p k s' c with Some y => Some y | None => k s c end else k s c
  end.
Lemma try_star_set {X} total p (k : str -> captures -> option X) s c :
  try_match total (RStar (RSet p)) k s c = star_set p k s c.
Proof.
  rewrite try_star. assert (length s <= length s) as Hn by lia. revert Hn.
  generalize (length s) at 2 3 as n. intros n. revert s. induction n as [|n IH]; intros s Hn.
  - by destruct s; [|cbn in Hn; lia].
  - cbn [repeats try_match]. destruct s as [|x s]; [done|]. cbn [star_set]. destruct (p x); [|done].
    rewrite (proj2 (Nat.ltb_lt _ _)) by (cbn; lia). rewrite IH by (cbn in Hn; lia). done.
Qed.
Lemma try_plus_set {X} total p (k : str -> captures -> option X) s c :
  try_match total (RPlus (RSet p)) k s c =
  match s with x :: s' => if p x then star_set p k s' c else None | [] => None end.
Proof.
  cbn [RPlus try_match]. destruct s as [|x s]; [done|]. destruct (p x); [|done].
  by rewrite <- (try_star_set total).
Qed.

(** Repetition first goes as far as it can. *)
Lemma star_set_first {X} p (k : str -> captures -> option X) s c w r :
  s = w ++ r -> Forall (fun x => p x = true) w -> (forall x, head r = Some x -> p x = false) ->
  k r c <> None -> star_set p k s c = k r c.
Proof.
  intros -> Hw Hr Hk. induction Hw as [|x w Hx Hw IH]; cbn.
  - destruct r as [|x r]; [done|]. cbn. by rewrite (Hr x eq_refl).
  - rewrite Hx, IH. by destruct (k r c).
Qed.
Lemma star_set_none {X} p (k : str -> captures -> option X) s c :
  (forall w r, s = w ++ r -> Forall (fun x => p x = true) w -> k r c = None) -> star_set p k s c = None.
Proof.
  induction s as [|x s IH]; intros H; cbn; [by apply (H [] [])|].
  destruct (p x) eqn:E; [|by apply (H [] _)]. rewrite IH.
  - by apply (H [] _).
  - intros w r -> Hw. apply (H (x :: w) r); [done|by constructor].
Qed.
Lemma star_set_app {X} p (k : str -> captures -> option X) w s c :
  Forall (fun x => p x = true) w -> star_set p k s c <> None -> star_set p k (w ++ s) c = star_set p k s c.
Proof.
  intros Hw Hk. induction Hw as [|x w Hx Hw IH]; [done|]. cbn. rewrite Hx, IH. by destruct (star_set p k s c).
Qed.
