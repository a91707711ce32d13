(** Lemmas about src/util/expand.rs. *)
From Verif Require Import Base Regex RegexLemmas Expand SpecExpand.

(** ** References, read from left to right without going back *)
Section reader.
  Context (u : N -> bool).
  Notation is_word := (is_word u).

  (** [\w*], taking as much as possible *)
  Fixpoint words (s : str) : str :=
    match s with
    | c :: s' => if is_word c then c :: words s' else []
    | [] => []
    end.
  (** The group of the expression, after the dollar sign. *)
  Definition group (s : str) : option str :=
    match words s with
    | c :: w => Some (c :: w)
    | [] =>
        match s with
        | c :: s' =>
            if decide (c = 123%N) then
              match words s' with
              | [] => None
              | w => match drop (length w) s' with
                     | e :: _ => if decide (e = 125%N) then Some (c :: w ++ [e]) else None
                     | [] => None
                     end
              end
            else None
        | [] => None
        end
    end.
  (** [skip] characters belong to the last match. *)
  Fixpoint replace_all (env : environment) (skip : nat) (s : str) : str :=
    match s with
    | [] => []
    | c :: s' =>
        match skip with
        | S skip => replace_all env skip s'
        | 0 =>
            if decide (c = 36%N) then
              match group s' with
              | Some g => env_var env (trim_braces g) ++ replace_all env (length g) s'
              | None => c :: replace_all env 0 s'
              end
            else c :: replace_all env 0 s'
        end
    end.

  Lemma words_split (s : str) : s = words s ++ drop (length (words s)) s.
  Proof. induction s as [|c s IH]; [done|]. simpl. destruct (is_word c); simpl; [by f_equal|done]. Qed.
  Lemma words_true (s : str) : Forall (fun c => is_word c = true) (words s).
  Proof.
    induction s as [|c s IH]; simpl; [constructor|]. destruct (is_word c) eqn:Hc; constructor; done.
  Qed.
  Lemma words_next (s : str) (c : N) : head (drop (length (words s)) s) = Some c -> is_word c = false.
  Proof.
    induction s as [|d s IH]; simpl; [discriminate|].
    destruct (is_word d) eqn:Hd; simpl; [exact IH|]. by intros [= ->].
  Qed.

  Lemma match_words {X} total (k : str -> captures -> option X) s c :
    (forall x s c, is_word x = true -> k (x :: s) c = None) ->
    try_match total (RPlus (RSet is_word)) k s c =
    match words s with [] => None | w => k (drop (length w) s) c end.
  Proof.
    intros Hk. rewrite try_plus_set. destruct s as [|x s]; [done|]. simpl. destruct (is_word x) eqn:E; [|done].
    simpl. destruct (k (drop (length (words s)) s) c) eqn:Ek.
    - rewrite (star_set_first is_word k s c (words s) (drop (length (words s)) s)).
      + done.
      + apply words_split.
      + apply words_true.
      + intros y. apply words_next.
      + by rewrite Ek.
    - apply star_set_none. intros w r Hr Hw. destruct r as [|y r]; [|destruct (is_word y) eqn:Ey; [by apply Hk|]].
      + rewrite app_nil_r in Hr. subst w. enough (drop (length (words s)) s = []) as E' by (by rewrite E' in Ek).
        pose proof (words_next s) as Hn. pose proof (words_split s) as Hs.
        destruct (drop (length (words s)) s) as [|y r]; [done|]. specialize (Hn y eq_refl).
        rewrite Hs in Hw. apply Forall_app in Hw as [_ Hw]. inversion Hw; subst. congruence.
      + enough (drop (length (words s)) s = y :: r) as E' by (by rewrite E' in Ek).
        rewrite Hr. clear -Hw Ey. induction Hw as [|z w Hz Hw IH]; simpl; [by rewrite Ey|by rewrite Hz].
  Qed.
  Lemma match_words_greedy total (f : str -> captures -> captures) s c :
    try_match total (RPlus (RSet is_word)) (fun s' c' => Some (s', f s' c')) s c =
    match words s with [] => None | w => Some (drop (length w) s, f (drop (length w) s) c) end.
  Proof.
    rewrite try_plus_set. destruct s as [|x s]; [done|]. simpl. destruct (is_word x) eqn:E; [|done]. simpl.
    rewrite (star_set_first is_word _ s c (words s) (drop (length (words s)) s)); [done|..].
    - apply words_split.
    - apply words_true.
    - intros y. apply words_next.
    - done.
  Qed.

  Lemma take_before (s g rest : str) : s = g ++ rest -> take (length s - length rest) s = g.
  Proof.
    intros ->. rewrite app_length. replace (_ - _) with (length g) by lia. by rewrite take_app.
  Qed.

  Lemma group_prefix s g : group s = Some g -> s = g ++ drop (length g) s.
  Proof.
    unfold group. pose proof (words_split s) as Hs. destruct (words s) as [|c w] eqn:Hw.
    - destruct s as [|c s]; [discriminate|]. destruct (decide (c = 123%N)) as [->|]; [|discriminate].
      pose proof (words_split s) as Hs'. destruct (words s) as [|d w'] eqn:Hw'; [discriminate|].
      destruct (drop (length (d :: w')) s) as [|e rest] eqn:Hd; [discriminate|].
      destruct (decide (e = 125%N)) as [->|]; [|discriminate]. intros [= <-].
      assert (123%N :: s = (123%N :: (d :: w') ++ [125%N]) ++ rest) as Hall.
      { cbn [app]. rewrite <- (assoc_L (++)). cbn [app]. f_equal. exact Hs'. }
      rewrite Hall at 1. f_equal.
      change (123%N :: d :: w' ++ [125%N]) with (123%N :: (d :: w') ++ [125%N]).
      rewrite Hall. by rewrite drop_app.
    - intros [= <-]. exact Hs.
  Qed.

  (** A match starts with a dollar sign, and is what the reader finds. *)
  Lemma match_reference total s :
    match_at total (reference_regex u) s =
    match s with
    | c :: s' => if decide (c = 36%N)
                 then match group s' with Some g => Some (drop (length g) s', [(L "1", g)]) | None => None end
                 else None
    | [] => None
    end.
  Proof.
    unfold match_at, reference_regex. destruct s as [|c s]; [done|].
    set (k := fun (s' : str) (c' : captures) => Some (s', (L "1", take (length s - length s') s) :: c')).
    set (k' := fun (s' : str) (c' : captures) =>
      match s' with y :: s' => if (y =? 125)%N then k s' c' else None | [] => None end).
    match goal with |- ?l = _ => change l with
      (if (c =? 36)%N
       then match try_match total (RPlus (RSet is_word)) k s [] with
            | Some x => Some x
            | None => match s with
                      | y :: s' => if (y =? 123)%N then try_match total (RPlus (RSet is_word)) k' s' [] else None
                      | [] => None
                      end
            end
       else None) end.
    destruct (decide (c = 36%N)) as [->|Hc].
    2: { by rewrite (proj2 (N.eqb_neq _ _)). }
    cbn [N.eqb Pos.eqb].
    assert (try_match total (RPlus (RSet is_word)) k s [] =
      match words s with [] => None | w => Some (drop (length w) s, [(L "1", w)]) end) as H1.
    { unfold k. rewrite (match_words_greedy total (fun s' c' => (L "1", take (length s - length s') s) :: c')). cbv beta.
      pose proof (words_split s) as Hs.
      destruct (words s) as [|d w]; [done|]. cbv zeta iota. by rewrite (take_before _ _ _ Hs). }
    pose proof (group_prefix s) as Hp. revert Hp. unfold group. intros Hp.
    destruct (words s) as [|d w] eqn:Hw.
    - rewrite H1.
      destruct s as [|d s]; [done|]. destruct (decide (d = 123%N)) as [->|Hd].
      2: { by rewrite (proj2 (N.eqb_neq _ _)). }
      cbn [N.eqb Pos.eqb]. rewrite match_words.
      2: { intros x t c' Hx. unfold k'. destruct (x =? 125)%N eqn:E; [|done]. apply N.eqb_eq in E as ->. done. }
      destruct (words s) as [|e w] eqn:Hw'; [done|].
      unfold k'. destruct (drop (length (e :: w)) s) as [|y rest] eqn:Hd; [done|].
      destruct (decide (y = 125%N)) as [->|Hy].
      2: { by rewrite (proj2 (N.eqb_neq _ _)). }
      cbn [N.eqb Pos.eqb]. specialize (Hp _ eq_refl). unfold k.
      assert (drop (length (123%N :: (e :: w) ++ [125%N])) (123%N :: s) = rest) as Hrest.
      { cbn [length drop]. rewrite app_length. cbn [length].
        replace (S (length w) + 1) with (length (e :: w) + 1) by done. rewrite <- drop_drop, Hd. done. }
      rewrite Hrest in Hp. rewrite (take_before _ _ _ Hp).
      change (123%N :: e :: w ++ [125%N]) with (123%N :: (e :: w) ++ [125%N]). by rewrite Hrest.
    - by rewrite H1.
  Qed.
  Lemma reference_group total s rest c :
    match_at total (reference_regex u) s = Some (rest, c) -> exists g, capture (L "1") c = Some g.
  Proof.
    rewrite match_reference. destruct s as [|x s]; [done|]. destruct (decide _); [|done].
    destruct (group s) as [g|]; [|done]. intros [= <- <-]. by exists g.
  Qed.

  Lemma expand_envvar_eq env s : expand_envvar u env s = replace_all env 0 s.
  Proof.
    unfold expand_envvar, regex_replace_all. generalize (length s) as total. intros total. generalize 0 as skip.
    induction s as [|x s IH]; intros skip; [done|]. cbn [replace_from replace_all].
    destruct skip as [|skip]; [|done]. rewrite match_reference. destruct (decide (x = 36%N)) as [->|]; [|by rewrite IH].
    destruct (group s) as [g|] eqn:Hg; [|by rewrite IH].
    rewrite (proj2 (Nat.ltb_lt _ _)) by (rewrite drop_length; cbn; lia). rewrite IH.
    apply group_prefix in Hg. apply (f_equal length) in Hg. rewrite app_length in Hg.
    replace (length s - length (drop (length g) s)) with (length g) by lia. done.
  Qed.
End reader.

Section lemmas.
  Context (u : N -> bool).
  Notation is_word := (is_word u).
  Notation words := (words u).
  Notation group := (group u).
  Notation replace_all := (replace_all u).
  Notation word := (word u).
  Notation reads := (reads u).

  Lemma is_word_spec (c : N) : is_word c = true <-> word c.
  Proof.
    unfold Expand.is_word, SpecExpand.word. destruct (decide (c < 128)%N) as [Hc|Hc].
    - rewrite (proj2 (N.ltb_lt _ _) Hc).
      assert (Hall : forallb (fun n => let c := N.of_nat n in
        Bool.eqb (((65 <=? c) && (c <=? 90))%N || ((97 <=? c) && (c <=? 122))%N
          || ((48 <=? c) && (c <=? 57))%N || (c =? 95)%N)
          (bool_decide (c ∈ L "ABCDEFGHIJKLMNOPQRSTUVWXYZabcdefghijklmnopqrstuvwxyz0123456789_")))
        (seq 0 128) = true) by (vm_compute; reflexivity).
      rewrite forallb_forall in Hall. specialize (Hall (N.to_nat c)).
      cbv zeta in Hall. rewrite N2Nat.id in Hall.
      assert (Hin : In (N.to_nat c) (seq 0 128)) by (apply in_seq; lia).
      specialize (Hall Hin). apply Bool.eqb_prop in Hall. rewrite Hall. apply bool_decide_eq_true.
    - assert (Hf : (c <? 128)%N = false) by (apply N.ltb_ge; lia). rewrite Hf. reflexivity.
  Qed.
  Lemma is_word_false (c : N) : is_word c = false <-> ~ word c.
  Proof. rewrite <- is_word_spec. destruct (is_word c); split; congruence. Qed.

  Lemma brace_not_word (c : N) : brace c = true -> ~ word c.
  Proof.
    unfold brace. rewrite orb_true_iff, !bool_decide_eq_true. rewrite <- is_word_false.
    intros [-> | ->]; reflexivity.
  Qed.
  Lemma word_not_brace (c : N) : word c -> brace c = false.
  Proof. intros Hw. destruct (brace c) eqn:Hb; [|done]. by destruct (brace_not_word _ Hb). Qed.

  Lemma words_all (s : str) : Forall word (words s).
  Proof.
    induction s as [|c s IH]; simpl; [constructor|].
    destruct (is_word c) eqn:Hc; constructor; [by apply is_word_spec|done].
  Qed.
  Lemma words_stop (s : str) (c : N) (rest : str) : drop (length (words s)) s = c :: rest -> ~ word c.
  Proof.
    induction s as [|d s IH]; simpl; [discriminate|].
    destruct (is_word d) eqn:Hd; simpl; [exact IH|].
    intros [= -> ->]. by apply is_word_false.
  Qed.
  Lemma words_app (n rest : str) :
    Forall word n -> (forall c r, rest = c :: r -> ~ word c) -> words (n ++ rest) = n.
  Proof.
    intros Hn Hr. induction Hn as [|c n Hc Hn IH]; simpl.
    - destruct rest as [|c r]; [done|]. simpl.
      rewrite (proj2 (is_word_false c) (Hr c r eq_refl)). done.
    - rewrite (proj2 (is_word_spec c) Hc). by f_equal.
  Qed.
  Lemma words_first (n rest : str) : name u n -> words (n ++ rest) <> [].
  Proof.
    intros [Hne Hall]. destruct n as [|c n]; [done|]. inversion Hall; subst. simpl.
    rewrite (proj2 (is_word_spec c)) by done. discriminate.
  Qed.

  Lemma trim_start_name (n rest : str) : name u n -> trim_start (n ++ rest) = n ++ rest.
  Proof.
    intros [Hne Hall]. destruct n as [|c n]; [done|]. inversion Hall; subst. simpl.
    by rewrite (word_not_brace c).
  Qed.
  Lemma trim_start_braces (c : N) (s : str) : brace c = true -> trim_start (c :: s) = trim_start s.
  Proof. intros Hc. simpl. by rewrite Hc. Qed.
  Lemma name_reverse (n : str) : name u n -> name u (reverse n).
  Proof.
    intros [Hne Hall]. split; [|by apply Forall_reverse].
    intros Hr. apply Hne. rewrite <- (reverse_involutive n), Hr. reflexivity.
  Qed.
  Lemma trim_bare (n : str) : name u n -> trim_braces n = n.
  Proof.
    intros Hn. unfold trim_braces.
    pose proof (trim_start_name n [] Hn) as H1. rewrite app_nil_r in H1. rewrite H1.
    pose proof (trim_start_name (reverse n) [] (name_reverse n Hn)) as H2. rewrite app_nil_r in H2. rewrite H2.
    apply reverse_involutive.
  Qed.
  Lemma trim_braced (n : str) : name u n -> trim_braces (123%N :: n ++ [125%N]) = n.
  Proof.
    intros Hn. unfold trim_braces. rewrite trim_start_braces by reflexivity.
    rewrite trim_start_name by done. rewrite reverse_app.
    change (reverse [125%N] ++ reverse n) with (125%N :: reverse n).
    rewrite trim_start_braces by reflexivity.
    pose proof (trim_start_name (reverse n) [] (name_reverse n Hn)) as H2. rewrite app_nil_r in H2. rewrite H2.
    apply reverse_involutive.
  Qed.

  (** A match of the expression after a dollar sign. *)
  Lemma group_some (s g : str) :
    group s = Some g ->
    exists p rest, stands u p rest /\ 36%N :: s = written p ++ rest /\ s = g ++ rest /\
      (p = Bare (trim_braces g) \/ p = Braced (trim_braces g)).
  Proof.
    unfold ExpandLemmas.group. destruct (words s) as [|c w] eqn:Hw.
    - destruct s as [|c s]; [discriminate|]. destruct (decide (c = 123%N)) as [->|]; [|discriminate].
      destruct (words s) as [|d w] eqn:Hs; [discriminate|].
      destruct (drop (length (d :: w)) s) as [|e rest] eqn:Hd; [discriminate|].
      destruct (decide (e = 125%N)) as [->|]; [|discriminate]. intros [= <-].
      assert (Hn : name u (d :: w)) by (split; [discriminate|rewrite <- Hs; apply words_all]).
      exists (Braced (d :: w)), rest.
      assert (Hsplit : s = (d :: w) ++ 125%N :: rest) by (rewrite <- Hd, <- Hs; apply words_split).
      split; [exact Hn|]. split.
      { cbn [written]. change (L "${") with [36%N; 123%N]. change (L "}") with [125%N].
        rewrite Hsplit, <- app_assoc. by rewrite <- app_assoc. }
      split.
      { change (123%N :: d :: w ++ [125%N]) with ((123%N :: d :: w) ++ [125%N]).
        rewrite <- app_assoc. rewrite Hsplit. reflexivity. }
      right. f_equal. symmetry. exact (trim_braced _ Hn).
    - intros [= <-].
      assert (Hn : name u (c :: w)) by (split; [discriminate|rewrite <- Hw; apply words_all]).
      exists (Bare (c :: w)), (drop (length (c :: w)) s).
      split; [split; [exact Hn|]|].
      { intros e rest. rewrite <- Hw. apply words_stop. }
      split.
      { cbn [written]. change (L "$") with [36%N]. rewrite <- app_assoc.
        rewrite <- Hw, <- words_split. reflexivity. }
      split; [rewrite <- Hw; apply words_split|].
      left. f_equal. symmetry. by apply trim_bare.
  Qed.
  Lemma group_none (s : str) : group s = None -> ~ refers u (36%N :: s).
  Proof.
    intros Hg (n & rest & Hn & [Hs|Hs]); revert Hs.
    - change (L "$") with [36%N]. intros [= ->].
      revert Hg. unfold ExpandLemmas.group. pose proof (words_first n rest Hn) as Hw.
      destruct (words (n ++ rest)); [by destruct Hw|discriminate].
    - change (L "${") with [36%N; 123%N]. change (L "}") with [125%N]. intros [= ->].
      revert Hg. unfold ExpandLemmas.group. simpl.
      rewrite (words_app n); [|apply Hn|intros c r [= <- <-]; by apply brace_not_word].
      destruct n as [|c n]; [by destruct Hn|]. match goal with |- context [drop ?k ?l] => change (drop k l) with (drop (length (c :: n)) ((c :: n) ++ 125%N :: rest)) end. rewrite drop_app. simpl. discriminate.
  Qed.

  Lemma replace_skip (env : environment) (g s : str) :
    replace_all env (length g) (g ++ s) = replace_all env 0 s.
  Proof. induction g as [|c g IH]; simpl; [done|exact IH]. Qed.

  (** The text has a reading, and expansion follows it. *)
  Lemma expand_reads (s : str) :
    exists ps, reads s ps /\ forall e, expand_envvar u (fun n => Unicode <$> e n) s = concat (value e <$> ps).
  Proof.
    remember (length s) as k eqn:Hk. revert s Hk.
    induction k as [k IH] using lt_wf_ind. intros s ->. destruct s as [|c s].
    { exists []. split; [constructor|done]. }
    assert (Hplain : ~ refers u (c :: s) ->
      (forall e, expand_envvar u (fun n => Unicode <$> e n) (c :: s)
        = c :: expand_envvar u (fun n => Unicode <$> e n) s) ->
      exists ps, reads (c :: s) ps /\
        forall e, expand_envvar u (fun n => Unicode <$> e n) (c :: s) = concat (value e <$> ps)).
    { intros Hr He. destruct (IH (length s)) with (s := s) as (ps & Hps & Hv); [simpl; lia|done|].
      exists (Plain c :: ps). split; [by apply (reads_cons u (Plain c))|].
      intros e. rewrite He, Hv. reflexivity. }
    destruct (decide (c = 36%N)) as [->|Hc].
    - destruct (group s) as [g|] eqn:Hg.
      + destruct (group_some s g Hg) as (p & rest & Hp & Hw & Hs & Hor).
        destruct (IH (length rest)) with (s := rest) as (ps & Hps & Hv).
        { rewrite Hs. simpl. rewrite app_length. lia. }
        { done. }
        exists (p :: ps). split; [rewrite Hw; by constructor|].
        intros e. rewrite !expand_envvar_eq. cbn [ExpandLemmas.replace_all]. rewrite decide_True by done. rewrite Hg.
        rewrite Hs at 1. rewrite replace_skip. rewrite <- (expand_envvar_eq u (fun n => Unicode <$> e n) rest).
        rewrite Hv. cbn [fmap list_fmap concat]. f_equal. unfold env_var.
        destruct Hor as [-> | ->]; simpl; by destruct (e (trim_braces g)).
      + apply Hplain; [by apply group_none|].
        intros e. rewrite !expand_envvar_eq. cbn [ExpandLemmas.replace_all]. rewrite decide_True by done.
        by rewrite Hg.
    - apply Hplain.
      + intros (n & rest & _ & [Hs|Hs]); apply (f_equal head) in Hs; by injection Hs as ->.
      + intros e. rewrite !expand_envvar_eq. cbn [ExpandLemmas.replace_all]. by rewrite decide_False.
  Qed.

  Lemma longest (n n' next next' : str) :
    Forall word n -> Forall word n' ->
    (forall c r, next = c :: r -> ~ word c) -> (forall c r, next' = c :: r -> ~ word c) ->
    n ++ next = n' ++ next' -> n = n' /\ next = next'.
  Proof.
    intros Hn. revert n'. induction Hn as [|c n Hc Hn IH]; intros n' Hn' Hs Hs' Heq.
    - destruct Hn' as [|c' n' Hc' Hn']; [done|]. simpl in Heq. by destruct (Hs _ _ Heq).
    - destruct Hn' as [|c' n' Hc' Hn']; [simpl in Heq; by destruct (Hs' _ _ (eq_sym Heq))|].
      injection Heq as -> Heq. destruct (IH n' Hn' Hs Hs' Heq) as [-> ->]. done.
  Qed.

  Lemma same_piece (p p' : piece) (next next' : str) :
    stands u p next -> stands u p' next' -> written p ++ next = written p' ++ next' -> p = p' /\ next = next'.
  Proof.
    assert (Hbrace : forall (c : N) (r r' : str), 125%N :: r' = c :: r -> ~ word c)
      by (intros c r r' [= <- _]; by apply brace_not_word).
    assert (Hmix : forall n r n' r', name u n -> n ++ r = 123%N :: n' ++ r' -> False).
    { intros n r n' r' [Hne Hall] Heq. destruct n as [|c n]; [done|]. injection Heq as -> _.
      inversion Hall; subst. by apply (brace_not_word 123%N). }
    intros Hp Hp' Heq. destruct p as [c|n|n], p' as [c'|n'|n']; simpl in Hp, Hp';
      cbn [written] in Heq; change (L "$") with [36%N] in Heq; change (L "${") with [36%N; 123%N] in Heq;
      change (L "}") with [125%N] in Heq.
    - by injection Heq as -> ->.
    - injection Heq as -> ->. destruct Hp. exists n', next'. split; [apply Hp'|]. by left.
    - injection Heq as -> Heq. rewrite <- app_assoc in Heq. subst next.
      destruct Hp. exists n', next'. split; [done|]. by right.
    - injection Heq as <- <-. destruct Hp'. exists n, next. split; [apply Hp|]. by left.
    - injection Heq as Heq. destruct Hp as [Hn Hs], Hp' as [Hn' Hs'].
      destruct (longest n n' next next') as [-> ->]; [apply Hn|apply Hn'|done|done|done|done].
    - injection Heq as Heq. rewrite <- app_assoc in Heq. destruct (Hmix n next n' ([125%N] ++ next')); [apply Hp|done].
    - injection Heq as <- Heq. rewrite <- app_assoc in Heq. subst next'.
      destruct Hp'. exists n, next. split; [done|]. by right.
    - injection Heq as Heq. rewrite <- app_assoc in Heq.
      destruct (Hmix n' next' n ([125%N] ++ next)); [apply Hp'|done].
    - injection Heq as Heq. rewrite <- !app_assoc in Heq.
      destruct (longest n n' ([125%N] ++ next) ([125%N] ++ next')) as [-> Hnext];
        [apply Hp|apply Hp'|intros c r; apply Hbrace|intros c r; apply Hbrace|done|].
      by injection Hnext as ->.
  Qed.
  Lemma reads_unique (s : str) (ps ps' : list piece) : reads s ps -> reads s ps' -> ps = ps'.
  Proof.
    intros H. revert ps'. induction H as [|p next ps Hp Hr IH]; intros ps' H'.
    - inversion H' as [|p' next' ps1 Hp' Hr' Heq]; [done|]. destruct p'; discriminate.
    - inversion H' as [Heq|p' next' ps1 Hp' Hr' Heq]; [destruct p; discriminate|].
      destruct (same_piece p' p next' next) as [-> ->]; [done|done|done|]. f_equal. by apply IH.
  Qed.

  (** ** What can be written *)

  Definition is_plain (p : piece) : bool := match p with Plain _ => true | _ => false end.
  Lemma reads_written (s : str) (ps : list piece) : reads s ps -> s = concat (written <$> ps).
  Proof. induction 1 as [|p next ps Hp Hr IH]; [done|]. cbn [fmap list_fmap concat]. by f_equal. Qed.
  Lemma plain_value (e : str -> option str) (ps : list piece) :
    forallb is_plain ps = true -> concat (value e <$> ps) = concat (written <$> ps).
  Proof.
    induction ps as [|p ps IH]; [done|]. cbn [forallb fmap list_fmap concat]. rewrite andb_true_iff.
    intros [Hp Hps]. destruct p; try discriminate. by rewrite IH.
  Qed.
  Lemma value_length (ps : list piece) :
    length (concat (value (fun _ => None) <$> ps)) + length (filter (fun p => is_plain p = false) ps)
    = length (concat (value (fun _ => Some [0%N]) <$> ps)).
  Proof.
    induction ps as [|p ps IH]; [done|].
    cbn [fmap list_fmap concat]. rewrite !app_length, filter_cons, <- IH.
    destruct p; simpl; lia.
  Qed.
  Lemma constant_plain (s : str) (ps : list piece) (t : str) :
    reads s ps -> (forall e, expand_envvar u (fun n => Unicode <$> e n) s = t) -> forallb is_plain ps = true.
  Proof.
    intros Hr He. destruct (expand_reads s) as (ps' & Hr' & Hv).
    rewrite (reads_unique s ps ps' Hr Hr').
    pose proof (value_length ps') as Hlen. rewrite <- !Hv, !He in Hlen.
    apply forallb_forall. intros p Hp. apply elem_of_list_In in Hp. destruct (is_plain p) eqn:Hpl; [done|].
    assert (Hin : p ∈ filter (fun p => is_plain p = false) ps') by (by apply elem_of_list_filter).
    destruct (filter (fun p => is_plain p = false) ps'); [by apply elem_of_nil in Hin|]. simpl in Hlen. lia.
  Qed.
  (** A text is the expansion of something, whatever the environment, exactly if it has no
      reference in it. *)
  Lemma writable (t : str) :
    (exists s, forall e, expand_envvar u (fun n => Unicode <$> e n) s = t) <->
    forall before after, t = before ++ after -> ~ refers u after.
  Proof.
    split.
    - intros [s He]. destruct (expand_reads s) as (ps & Hr & Hv).
      pose proof (constant_plain s ps t Hr He) as Hpl.
      assert (Hst : t = s).
      { rewrite <- (He (fun _ => None)), Hv, plain_value by done. symmetry. by apply reads_written. }
      subst t. clear He Hv. induction Hr as [|p next ps Hp Hr IH].
      + intros [|] after; [|discriminate]. simpl. intros <- (n & rest & _ & [Hs|Hs]); discriminate.
      + cbn [forallb] in Hpl. apply andb_true_iff in Hpl as [Hpp Hpl]. destruct p as [c| |]; try discriminate.
        intros before after Heq. destruct before as [|b before].
        * simpl in Heq. subst after. exact Hp.
        * injection Heq as -> Heq. by apply (IH Hpl before).
    - intros Hno. exists t. intros e. destruct (expand_reads t) as (ps & Hr & Hv). rewrite Hv.
      transitivity (concat (written <$> ps)); [|symmetry; by apply reads_written]. apply plain_value. clear Hv.
      induction Hr as [|p next ps Hp Hr IH]; [done|]. cbn [forallb]. apply andb_true_iff. split.
      + destruct p as [c|n|n]; [done| |]; destruct (Hno [] _ eq_refl); exists n, next.
        * split; [apply Hp|]. left. by cbn [written]; rewrite <- app_assoc.
        * split; [apply Hp|]. right. by cbn [written]; rewrite <- !app_assoc.
      + apply IH. intros before after ->. apply (Hno (written p ++ before)). by rewrite app_assoc.
  Qed.
End lemmas.

(** Any environment: what is not a text counts as not set. *)
Lemma replace_from_ext total r (f g : captures -> str) skip s :
  (forall c, f c = g c) -> replace_from total r f skip s = replace_from total r g skip s.
Proof.
  intros H. revert skip. induction s as [|x s IH]; intros skip; [done|]. cbn [replace_from].
  destruct skip as [|skip]; [|apply IH]. destruct (match_at total r (x :: s)) as [[rest c]|]; [|by rewrite IH].
  destruct (_ <? _)%nat; [by rewrite H, IH|by rewrite IH].
Qed.
Lemma expand_any u (env : environment) s :
  exists ps, reads u s ps /\
    expand_envvar u env s = concat (value (fun n => match env n with Some (Unicode t) => Some t | _ => None end) <$> ps).
Proof.
  destruct (expand_reads u s) as (ps & Hps & H). exists ps. split; [done|]. rewrite <- H.
  apply replace_from_ext. intros c. unfold env_var. by destruct (env _) as [[]|].
Qed.
