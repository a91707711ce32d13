(** Lemmas about cutting texts into tokens. *)
From Verif Require Import Base Text SpecSql SpecLex.

Lemma lex_from_app m acc (a b : str) :
  lex_from m acc (a ++ b) =
  match lex_from m acc a with Some (m', acc') => lex_from m' acc' b | None => None end.
Proof.
  revert m acc. induction a as [|c a IH]; intros m acc; cbn; [done|].
  destruct (lex_step m acc c) as [[m' acc']|]; [apply IH|done].
Qed.

Lemma begin_base acc b c :
  begin_token (acc ++ b) c = (fun p => (p.1, p.2 ++ b)) <$> begin_token acc c.
Proof. unfold begin_token. repeat case_match; done. Qed.
Lemma end_base m acc b : end_token m (acc ++ b) = (fun a => a ++ b) <$> end_token m acc.
Proof. destruct m as [| | | | [] | | | |]; done. Qed.
Lemma step_base m acc b c :
  lex_step m (acc ++ b) c = (fun p => (p.1, p.2 ++ b)) <$> lex_step m acc c.
Proof.
  unfold lex_step. rewrite end_base.
  destruct (end_token m acc) as [a|]; cbn; rewrite ?begin_base; destruct m; repeat case_match; done.
Qed.
Lemma from_base m acc b s :
  lex_from m (acc ++ b) s = (fun p => (p.1, p.2 ++ b)) <$> lex_from m acc s.
Proof.
  revert m acc. induction s as [|c s IH]; intros m acc; cbn; [done|].
  rewrite step_base. destruct (lex_step m acc c) as [[m' acc']|]; cbn; [apply IH|done].
Qed.

(** The characters after which a new token begins. *)
Definition separator (c : N) : bool := existsb (N.eqb c) [32; 59; 44; 40; 41]%N.
Lemma separator_cases c : separator c = true -> c ∈ [32; 59; 44; 40; 41]%N.
Proof.
  unfold separator. cbn. rewrite !orb_true_iff, !N.eqb_eq.
  intros H. destruct_or! H; try done; subst; set_solver.
Qed.
Lemma step_separator m acc a c :
  separator c = true -> end_token m acc = Some a -> lex_step m acc c = begin_token a c.
Proof.
  intros Hc He. apply separator_cases in Hc.
  unfold lex_step. rewrite He.
  repeat (apply elem_of_cons in Hc as [->|Hc]; [destruct m; cbn in *; try done|]).
  by apply elem_of_nil in Hc.
Qed.

Definition separated (r : str) : Prop := match r with [] => True | c :: _ => separator c = true end.
Lemma lex_app (a r : str) l : lex a = Some l -> separated r -> lex (a ++ r) = app l <$> lex r.
Proof.
  unfold lex. intros Ha Hr. rewrite lex_from_app.
  destruct (lex_from Between [] a) as [[m acc]|]; [|done].
  destruct (end_token m acc) as [acc'|] eqn:He; [|done]. injection Ha as <-.
  destruct r as [|c r]; cbn.
  - rewrite He. cbn. by rewrite app_nil_r.
  - rewrite (step_separator m acc acc' c Hr He).
    change (begin_token acc' c) with (begin_token ([] ++ acc') c). rewrite begin_base.
    destruct (begin_token [] c) as [[m1 a1]|]; cbn; [|done].
    rewrite from_base. destruct (lex_from m1 a1 r) as [[m2 a2]|]; cbn; [|done].
    rewrite end_base. destruct (end_token m2 a2); cbn; [|done]. by rewrite rev_app_distr.
Qed.
Lemma lex_app_some (a r : str) l l' : lex a = Some l -> separated r -> lex r = Some l' -> lex (a ++ r) = Some (l ++ l').
Proof. intros Ha Hr Hl. rewrite (lex_app a r l Ha Hr), Hl. done. Qed.

(** A blank does not matter. *)
Lemma lex_blank r : lex (32%N :: r) = lex r.
Proof. done. Qed.
Lemma lex_symbol c r : is_blank c = false -> ident_start c = false -> is_digit c = false ->
  (c =? 34)%N = false -> (c =? 39)%N = false -> (c =? 45)%N = false -> (c =? 47)%N = false -> is_symbol c = true ->
  lex (c :: r) = cons (Sym c) <$> lex r.
Proof.
  intros H1 H2 H3 H4 H5 H6 H7 H8. unfold lex. cbn. unfold begin_token. rewrite H1, H2, H3, H4, H5, H6, H7, H8.
  change [Sym c] with ([] ++ [Sym c]). rewrite from_base.
  destruct (lex_from Between [] r) as [[m a]|]; cbn; [|done].
  rewrite end_base. destruct (end_token m a); cbn; [|done]. by rewrite rev_app_distr.
Qed.

(** Names between quotes. *)
Lemma in_quoted_run n0 acc n r :
  34%N ∉ n -> lex_from (InQuoted n0) acc (n ++ r) = lex_from (InQuoted (rev n ++ n0)) acc r.
Proof.
  revert n0. induction n as [|c n IH]; intros n0 Hn; [done|].
  apply not_elem_of_cons in Hn as [Hc Hn]. cbn.
  destruct (N.eqb_spec c 34) as [->|_]; [done|].
  rewrite IH by done. by rewrite <- app_assoc.
Qed.
Lemma lex_quoted n r :
  quotable n -> head r <> Some 34%N -> lex (34%N :: n ++ 34%N :: r) = cons (Quoted n) <$> lex r.
Proof.
  intros [Hne Hq] Hr. unfold lex. change (lex_from Between [] (34%N :: n ++ 34%N :: r))
    with (lex_from (InQuoted []) [] (n ++ 34%N :: r)).
  rewrite in_quoted_run by done. rewrite app_nil_r.
  change (lex_from (InQuoted (rev n)) [] (34%N :: r)) with (lex_from (QuotedEnds (rev n)) [] r).
  assert (He : forall acc, end_token (QuotedEnds (rev n)) acc = Some (Quoted n :: acc)).
  { intros acc. cbn. destruct (rev n) as [|c l] eqn:E.
    - apply (f_equal (@rev N)) in E. rewrite rev_involutive in E. done.
    - rewrite <- E, rev_involutive. done. }
  destruct r as [|c r]; [cbn [lex_from]; rewrite He; done|].
  assert (Hs : lex_step (QuotedEnds (rev n)) [] c = begin_token [Quoted n] c).
  { unfold lex_step. rewrite He. destruct (N.eqb_spec c 34) as [->|]; [by destruct Hr|done]. }
  cbn [lex_from]. rewrite Hs. change (lex_step Between [] c) with (begin_token [] c).
  change [Quoted n] with ([] ++ [Quoted n]). rewrite begin_base.
  destruct (begin_token [] c) as [[m1 a1]|]; cbn; [|done].
  rewrite from_base. destruct (lex_from m1 a1 r) as [[m2 a2]|]; cbn; [|done].
  rewrite end_base. destruct (end_token m2 a2); cbn; [|done]. by rewrite rev_app_distr.
Qed.
