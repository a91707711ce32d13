(** Column expressions: the regular expression, read from left to right without going back. *)
From Verif Require Import Base Text Types Changes Node Yaml Regex Ddl RegexLemmas.

(** The longest prefix without '=' and '!', and the rest. *)
Fixpoint span_type (s : str) : str * str :=
  match s with
  | [] => ([], [])
  | c :: s' => if (c =? 61)%N || (c =? 33)%N then ([], s)
               else let '(a, b) := span_type s' in (c :: a, b)
  end.

(** What follows the '=': [\s*(?P<default>.+)$] and the final [trim].  When everything is white
    space, [\s*] gives back the last character. *)
Definition match_default (r : str) : option str :=
  let s := trim_start r in
  match s with
  | [] => match last r with
          | Some c => if (c =? 10)%N then None else Some []
          | None => None
          end
  | _ => if decide (10%N ∈ s) then None else Some (trim s)
  end.

(** [(?:\s*=\s*(?P<default>.+))?$] after the type and the optional '!'. *)
Definition match_rest (r : str) : option (option str) :=
  match r with
  | [] => Some None
  | _ => match trim_start r with
         | c :: r' => if (c =? 61)%N then Some <$> match_default r' else None
         | [] => None
         end
  end.

Definition read_column_expression (input : str) : dres (str * bool * option str) :=
  let '(ty, rest) := span_type input in
  match ty with
  | [] => Fail (InvalidTypeExpression input)
  | _ =>
      let '(notnull, rest) :=
        match rest with
        | c :: rest' => if (c =? 33)%N then (true, rest') else (false, rest)
        | [] => (false, [])
        end in
      match match_rest rest with
      | Some default => Done (trim ty, notnull, default)
      | None => Fail (InvalidTypeExpression input)
      end
  end.

(** ** The parts of the expression, from the last one *)
Section parts.
  Context (total : nat).
  Notation try_match := (try_match total).
  Definition accept (s : str) (c : captures) : option (str * captures) := Some (s, c).
  Definition at_end : str -> captures -> option (str * captures) := try_match REnd accept.
  Definition dot (c : N) : bool := negb (c =? 10)%N.
  Definition tychar (c : N) : bool := negb ((c =? 61)%N || (c =? 33)%N).

  Lemma star_end (k : str -> captures -> option (str * captures)) s c :
    (forall s c, s <> [] -> k s c = None) ->
    star_set dot k s c = if decide (10%N ∈ s) then None else k [] c.
  Proof.
    intros Hk. induction s as [|x s IH]; cbn [star_set].
    - by rewrite decide_False by apply not_elem_of_nil.
    - unfold dot at 1. destruct (x =? 10)%N eqn:E; cbn.
      + apply N.eqb_eq in E as ->. rewrite decide_True by left. by apply Hk.
      + apply N.eqb_neq in E. rewrite IH, (Hk (x :: s)) by done.
        destruct (decide (10%N ∈ s)) as [H|H].
        * by rewrite decide_True by (by right).
        * rewrite decide_False; [by destruct (k [] c)|]. by intros [?|?]%elem_of_cons.
  Qed.

  Definition default_part : str -> captures -> option (str * captures) :=
    try_match (RGroup (L "default") (RPlus (RSet dot))) at_end.
  Lemma default_part_eq s c :
    default_part s c =
    match s with [] => None | _ => if decide (10%N ∈ s) then None else Some ([], (L "default", s) :: c) end.
  Proof.
    unfold default_part. cbn [Regex.try_match]. fold (RPlus (RSet dot)). rewrite (try_plus_set total).
    destruct s as [|x s]; [done|]. rewrite star_end.
    - unfold dot. destruct (x =? 10)%N eqn:E; cbn [negb].
      + apply N.eqb_eq in E as ->. by rewrite decide_True by left.
      + apply N.eqb_neq in E. destruct (decide (10%N ∈ s)) as [H|H].
        * by rewrite decide_True by (by right).
        * rewrite (decide_False (P := 10%N ∈ x :: s)) by (by intros [?|?]%elem_of_cons).
          unfold at_end, accept. cbn [Regex.try_match length]. rewrite Nat.sub_0_r.
          by rewrite take_ge by (cbn; lia).
    - intros t d Ht. by destruct t.
  Qed.

  Lemma trim_start_split s :
    exists w, s = w ++ trim_start s /\ Forall (fun x => is_ws x = true) w /\
      (forall x, head (trim_start s) = Some x -> is_ws x = false).
  Proof.
    induction s as [|x s (w & IH1 & IH2 & IH3)]; cbn; [by exists []|]. destruct (is_ws x) eqn:E.
    - exists (x :: w). cbn. rewrite <- IH1. split; [done|]. split; [by constructor|done].
    - exists []. split; [done|]. split; [done|]. by intros ? [= <-].
  Qed.
  Lemma trim_start_skip w s : Forall (fun x => is_ws x = true) w -> trim_start (w ++ s) = trim_start s.
  Proof. induction 1 as [|x w Hx Hw IH]; [done|]. cbn. by rewrite Hx. Qed.
  Lemma trim_trim_start s : trim (trim_start s) = trim s.
  Proof.
    unfold trim. f_equal. destruct (trim_start_split s) as (w & _ & _ & H).
    destruct (trim_start s) as [|x t]; [done|]. cbn. by rewrite (H x eq_refl).
  Qed.

  Definition value_part : str -> captures -> option (str * captures) :=
    try_match (RStar (RSet is_ws)) default_part.
  Lemma value_part_eq s c :
    match match_default s with
    | Some v => exists d, value_part s c = Some ([], (L "default", d) :: c) /\ trim d = v
    | None => value_part s c = None
    end.
  Proof.
    unfold value_part. rewrite (try_star_set total). unfold match_default.
    destruct (trim_start_split s) as (w & Hs & Hw & Ht).
    destruct (trim_start s) as [|x t] eqn:Et.
    - rewrite app_nil_r in Hs. subst w. clear Ht Et. destruct s as [|z s _] using rev_ind; [done|].
      rewrite last_snoc. apply Forall_app in Hw as [Hw Hz]. inversion Hz as [|? ? Hz' _]; subst; clear Hz; rename Hz' into Hz.
      destruct (z =? 10)%N eqn:E.
      + apply N.eqb_eq in E as ->. apply star_set_none. intros w r Hwr _. rewrite default_part_eq.
        destruct r as [|y r]; [done|]. rewrite decide_True; [done|].
        assert (last (s ++ [10%N]) = last (w ++ y :: r)) as Hl by (by rewrite Hwr).
        rewrite last_snoc, last_app_cons in Hl. symmetry in Hl. by apply last_Some_elem_of in Hl.
      + apply N.eqb_neq in E. exists [z].
        assert (star_set is_ws default_part [z] c = Some ([], (L "default", [z]) :: c)) as Hd.
        { cbn [star_set]. rewrite Hz. rewrite (default_part_eq [] c), (default_part_eq [z] c).
          rewrite decide_False; [done|].
          by intros ?%elem_of_list_singleton. }
        split; [|by unfold trim; cbn; rewrite Hz]. rewrite star_set_app; [done|done|by rewrite Hd].
    - destruct (decide (10%N ∈ x :: t)) as [Hin|Hin].
      + apply star_set_none. intros w' r Hwr Hw'.
        assert (trim_start r = x :: t) as Hr by (by rewrite <- Et, Hwr, trim_start_skip).
        rewrite default_part_eq. destruct r as [|y r]; [done|]. rewrite decide_True; [done|].
        destruct (trim_start_split (y :: r)) as (v & Hv & _). rewrite Hv, Hr. apply elem_of_app. by right.
      + exists (x :: t). split; [|done].
        assert (default_part (x :: t) c = Some ([], (L "default", x :: t) :: c)) as Hd.
        { rewrite default_part_eq. by rewrite decide_False. }
        rewrite (star_set_first is_ws _ s c w (x :: t)); [done|done|done|done|by rewrite Hd].
  Qed.

  Definition equals_part : str -> captures -> option (str * captures) :=
    try_match (RCat (RChar 61) (RCat (RStar (RSet is_ws)) (RGroup (L "default") (RPlus (RSet dot))))) at_end.
  Lemma equals_part_eq s c :
    equals_part s c = match s with x :: s' => if (x =? 61)%N then value_part s' c else None | [] => None end.
  Proof. done. Qed.

  Definition optional_part : str -> captures -> option (str * captures) :=
    try_match (ROpt (RCat (RStar (RSet is_ws))
      (RCat (RChar 61) (RCat (RStar (RSet is_ws)) (RGroup (L "default") (RPlus (RSet dot)))))) ) at_end.
  Lemma optional_part_eq s c :
    match match_rest s with
    | Some (Some v) => exists d, optional_part s c = Some ([], (L "default", d) :: c) /\ trim d = v
    | Some None => optional_part s c = Some ([], c)
    | None => optional_part s c = None
    end.
  Proof.
    unfold optional_part, ROpt.
    change (try_match _ at_end s c) with
      (match try_match (RStar (RSet is_ws)) equals_part s c with Some x => Some x | None => at_end s c end).
    rewrite (try_star_set total).
    destruct s as [|x0 s0]; [done|].
    change (at_end (x0 :: s0) c) with (@None (str * captures)).
    assert (forall o : option (str * captures), match o with Some x => Some x | None => None end = o) as Ho by (by intros []).
    rewrite !Ho. clear Ho. unfold match_rest.
    destruct (trim_start_split (x0 :: s0)) as (w & Hs & Hw & Ht).
    assert (forall w' r, x0 :: s0 = w' ++ r -> Forall (fun x => is_ws x = true) w' ->
      equals_part r c = None \/ r = trim_start (x0 :: s0)) as Hback.
    { intros w' r Hr Hw'. destruct r as [|y r]; [by left|]. rewrite equals_part_eq.
      destruct (y =? 61)%N eqn:E; [|by left]. right. apply N.eqb_eq in E as ->.
      by rewrite Hr, trim_start_skip. }
    destruct (trim_start (x0 :: s0)) as [|y r] eqn:Et.
    - apply star_set_none. intros w' r Hr Hw'. by destruct (Hback w' r Hr Hw') as [| ->].
    - destruct (y =? 61)%N eqn:E.
      + pose proof (value_part_eq r c) as Hv. destruct (match_default r) as [v|]; cbn [fmap option_fmap option_map].
        * destruct Hv as (d & Hd & Hv). exists d. split; [|done].
          assert (equals_part (y :: r) c = Some ([], (L "default", d) :: c)) as He by (by rewrite equals_part_eq, E).
          rewrite (star_set_first is_ws _ _ c w (y :: r)); [exact He|exact Hs|done|done|by rewrite He].
        * apply star_set_none. intros w' r' Hr Hw'. destruct (Hback w' r' Hr Hw') as [| ->]; [done|].
          by rewrite equals_part_eq, E.
      + apply star_set_none. intros w' r' Hr Hw'. destruct (Hback w' r' Hr Hw') as [| ->]; [done|].
        by rewrite equals_part_eq, E.
  Qed.

  Definition rest_regex : regex :=
    RCat (ROpt (RGroup (L "notnull") (RChar 33)))
      (RCat (ROpt (RCat (RStar (RSet is_ws))
         (RCat (RChar 61) (RCat (RStar (RSet is_ws)) (RGroup (L "default") (RPlus (RSet dot))))))) REnd).
  Definition rest_part : str -> captures -> option (str * captures) := try_match rest_regex accept.
  Definition mark_of (s : str) : bool * str :=
    match s with
    | c :: s' => if (c =? 33)%N then (true, s') else (false, s)
    | [] => (false, [])
    end.
  Lemma rest_part_eq s c :
    match match_rest (mark_of s).2 with
    | Some v => exists d, rest_part s c =
          Some ([], (match d with Some d => [(L "default", d)] | None => [] end)
                    ++ (if (mark_of s).1 then [(L "notnull", L "!")] else []) ++ c) /\ trim <$> d = v
    | None => rest_part s c = None
    end.
  Proof.
    assert (rest_part s c =
      match (match s with x :: s' => if (x =? 33)%N
               then optional_part s' ((L "notnull", take (length s - length s') s) :: c) else None
             | [] => None end)
      with Some x => Some x | None => optional_part s c end) as -> by (by destruct s).
    assert (forall s c, match match_rest s with
      | Some v => exists d, optional_part s c =
          Some ([], (match d with Some d => [(L "default", d)] | None => [] end) ++ c) /\ trim <$> d = v
      | None => optional_part s c = None
      end) as Hopt.
    { clear s c. intros s c. pose proof (optional_part_eq s c) as H. destruct (match_rest s) as [[v|]|].
      - destruct H as (d & H & <-). exists (Some d). by rewrite H.
      - exists None. by rewrite H.
      - done. }
    destruct s as [|x s]; [apply (Hopt [] c)|]. cbn [mark_of]. destruct (x =? 33)%N eqn:E; [|apply Hopt].
    apply N.eqb_eq in E as ->. cbn [fst snd].
    replace (take _ _) with (L "!") by
      (cbn [length]; by replace (S (length s) - length s) with 1 by lia).
    pose proof (Hopt s ((L "notnull", L "!") :: c)) as H. destruct (match_rest s) as [v|].
    - destruct H as (d & H & Hv). exists d. rewrite H. done.
    - rewrite H. apply (Hopt (33%N :: s) c).
  Qed.

  Lemma span_type_split s :
    s = (span_type s).1 ++ (span_type s).2 /\ Forall (fun x => tychar x = true) (span_type s).1 /\
    (forall x, head (span_type s).2 = Some x -> tychar x = false).
  Proof.
    induction s as [|x s (IH1 & IH2 & IH3)]; [split; [done|]; split; [constructor|done]|]. cbn.
    destruct ((x =? 61)%N || (x =? 33)%N) eqn:E; cbn.
    - split; [done|]. split; [constructor|]. intros ? [= <-]. unfold tychar. by rewrite E.
    - destruct (span_type s) as [a b]. cbn in *. split; [by f_equal|]. split; [|done].
      constructor; [|done]. unfold tychar. by rewrite E.
  Qed.

  (** Shortening the type does not help. *)
  Lemma shorter_type v r c c' :
    v <> [] -> Forall (fun x => tychar x = true) v -> (forall x, head r = Some x -> tychar x = false) ->
    rest_part r c = None -> rest_part (v ++ r) c' = None.
  Proof.
    intros Hne Hv Hr Hnone. pose proof (rest_part_eq r c) as Hrest. rewrite Hnone in Hrest.
    assert (match_rest (mark_of r).2 = None) as Hr0.
    { destruct (match_rest _); [|done]. by destruct Hrest as (? & ? & _). }
    clear Hrest. pose proof (rest_part_eq (v ++ r) c') as H.
    assert (match_rest (mark_of (v ++ r)).2 = None) as E; [|by rewrite E in H]. clear H.
    destruct v as [|y v]; [done|]. assert (mark_of ((y :: v) ++ r) = (false, (y :: v) ++ r)) as ->.
    { cbn. inversion Hv as [|? ? Hy _]; subst. unfold tychar in Hy. apply negb_true_iff in Hy.
      apply orb_false_iff in Hy as [_ ->]. done. }
    cbn [snd]. unfold match_rest. cbn [app]. change (y :: v ++ r) with ((y :: v) ++ r).
    destruct (trim_start_split (y :: v)) as (w & Hw & Hws & Hhd).
    rewrite Hw, <- (assoc_L (++)), trim_start_skip by done.
    destruct (trim_start (y :: v)) as [|z t] eqn:Et.
    - cbn [app]. destruct r as [|x r]; [done|]. specialize (Hr x eq_refl). unfold tychar in Hr.
      apply negb_false_iff, orb_true_iff in Hr as [Hx|Hx]; apply N.eqb_eq in Hx as ->; [|done]. exact Hr0.
    - assert (tychar z = true) as Hz.
      { rewrite Forall_forall in Hv. apply Hv. rewrite Hw. apply elem_of_app. right. left. }
      cbn. rewrite (Hhd z eq_refl). unfold tychar in Hz. apply negb_true_iff, orb_false_iff in Hz as [-> _]. done.
  Qed.

  Definition type_part : str -> captures -> option (str * captures) :=
    try_match (RGroup (L "type") (RPlus (RSet tychar))) rest_part.
  Lemma type_part_eq s :
    type_part s [] =
    match (span_type s).1 with [] => None | ty => rest_part (span_type s).2 [(L "type", ty)] end.
  Proof.
    destruct (span_type_split s) as (Hs & Hty & Hrest). destruct (span_type s) as [ty rest]. cbn [fst snd] in *.
    unfold type_part. cbn [Regex.try_match]. fold (RPlus (RSet tychar)). rewrite (try_plus_set total).
    destruct ty as [|x ty].
    - cbn in Hs. subst rest. destruct s as [|x s]; [done|]. by rewrite (Hrest x eq_refl).
    - rewrite Hs. cbn [app]. inversion Hty as [|? ? Hx Hty']; subst. rewrite Hx.
      set (k := fun (s' : str) (c' : captures) => rest_part s'
        ((L "type", take (length (x :: ty ++ rest) - length s') (x :: ty ++ rest)) :: c')).
      assert (k rest [] = rest_part rest [(L "type", x :: ty)]) as Hk.
      { unfold k. do 3 f_equal. change (x :: ty ++ rest) with ((x :: ty) ++ rest).
        rewrite app_length. replace (_ - _) with (length (x :: ty)) by lia. by rewrite take_app. }
      destruct (rest_part rest [(L "type", x :: ty)]) eqn:Er.
      + rewrite (star_set_first tychar k (ty ++ rest) [] ty rest); [done|done|done|done|by rewrite Hk].
      + apply star_set_none. intros w r Hwr Hw. unfold k.
        assert (exists v, ty = w ++ v /\ r = v ++ rest) as (v & -> & ->).
        { clear -Hwr Hw Hrest. revert w Hwr Hw. induction ty as [|y ty IH]; intros w Hwr Hw.
          - cbn in Hwr. destruct w as [|z w]; [by exists []|]. inversion Hw as [|? ? Hz _]; subst.
            specialize (Hrest z eq_refl). by rewrite Hz in Hrest.
          - destruct w as [|z w]; cbn in Hwr; [by exists (y :: ty)|]. injection Hwr as -> Hwr.
            inversion Hw as [|? ? Hz Hw']; subst. destruct (IH w Hwr Hw') as (v & -> & ->). by exists v. }
        destruct v as [|y v].
        * unfold k in Hk. revert Hk. rewrite app_nil_r. cbn [app]. by intros ->.
        * eapply shorter_type; [done| |done|exact Er].
          by apply Forall_app in Hty' as [_ ?].
  Qed.
End parts.

Lemma find_start r s total : length s < total -> find_from total (RCat RStart r) s = None.
Proof.
  induction s as [|x s IH]; intros Hl; cbn [find_from]; unfold match_at; cbn [try_match].
  - by rewrite (proj2 (Nat.eqb_neq _ _)) by lia.
  - rewrite (proj2 (Nat.eqb_neq _ _)) by lia. apply IH. cbn in Hl. lia.
Qed.

Lemma regex_captures_start r s :
  regex_captures (RCat RStart r) s = snd <$> try_match (length s) r (fun s' c => Some (s', c)) s [].
Proof.
  unfold regex_captures. f_equal.
  destruct s as [|x s]; cbn [find_from]; unfold match_at; cbn [try_match]; rewrite Nat.eqb_refl.
  - by destruct (try_match _ r _ _ _).
  - destruct (try_match _ r _ _ _); [done|]. apply find_start. cbn. lia.
Qed.

Lemma parse_column_expression_eq input : parse_column_expression input = read_column_expression input.
Proof.
  unfold parse_column_expression, read_column_expression, column_regex. rewrite regex_captures_start.
  change (try_match (length input) _ _ input []) with (type_part (length input) input []).
  rewrite type_part_eq. destruct (span_type input) as [ty rest]. cbn [fst snd].
  destruct ty as [|x ty]; [done|]. fold (mark_of rest).
  pose proof (rest_part_eq (length input) rest [(L "type", x :: ty)]) as H.
  destruct (mark_of rest) as [nn rest']. cbn [fst snd] in H. destruct (match_rest rest') as [v|].
  - destruct H as (d & -> & <-). destruct d as [d|], nn; done.
  - by rewrite H.
Qed.
