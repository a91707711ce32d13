(** Reading generated SQL back. *)
From Coq Require Import DecimalZ.
From Verif Require Import Base Text Types Changes Sql SpecSql TextLemmas.

(** ** Small readers, used only in proofs *)
Fixpoint strip (p s : str) : option str :=
  match p, s with
  | [], _ => Some s
  | a :: p, b :: s => if decide (a = b) then strip p s else None
  | _ :: _, [] => None
  end.
Lemma strip_app p s : strip p (p ++ s) = Some s.
Proof. induction p; simpl; [done|]. by rewrite decide_True. Qed.

Fixpoint cut (c : N) (s : str) : option (str * str) :=
  match s with
  | [] => None
  | a :: s => if decide (a = c) then Some ([], s) else prod_map (cons a) id <$> cut c s
  end.
Lemma cut_app c n s : c ∉ n -> cut c (n ++ c :: s) = Some (n, s).
Proof.
  induction n as [|a n IH]; simpl; intros H; [by rewrite decide_True|].
  apply not_elem_of_cons in H as [H1 H2]. rewrite decide_False by done. by rewrite IH.
Qed.
Lemma cut_None c s : c ∉ s -> cut c s = None.
Proof.
  induction s as [|a s IH]; simpl; intros H; [done|].
  apply not_elem_of_cons in H as [H1 H2]. rewrite decide_False by done. by rewrite IH.
Qed.

Definition drop_last (k : nat) (s : str) : str := take (length s - k) s.
Lemma drop_last_app k s p : length p = k -> drop_last k (s ++ p) = s.
Proof.
  intros <-. unfold drop_last. rewrite app_length.
  replace (length s + length p - length p) with (length s) by lia. apply take_app.
Qed.

Lemma sbind {A B} (a : A) (f : A -> option B) : Some a ≫= f = f a.
Proof. done. Qed.
Ltac sb := rewrite sbind; cbv beta iota.

(** Names. *)
Definition get_qn (s : str) : option (str * str) := strip (L """") s ≫= cut 34.
Lemma get_qn_app n r : 34%N ∉ n -> get_qn (sql_qn n ++ r) = Some (n, r).
Proof. intros H. unfold sql_qn. change (L """") with [34%N]. rewrite <- !(assoc_L (++)).
  unfold get_qn. rewrite strip_app. simpl. by apply cut_app. Qed.
Definition get_qa (s : str) : option (str * str * str) :=
  '(a, s) ← get_qn s; s ← strip (L ".") s; '(b, s) ← get_qn s; Some (a, b, s).
Lemma get_qa_app a b r : 34%N ∉ a -> 34%N ∉ b -> get_qa (sql_qa a b ++ r) = Some (a, b, r).
Proof.
  intros Ha Hb. unfold sql_qa, get_qa. rewrite <- !(assoc_L (++)). rewrite get_qn_app by done. sb.
  rewrite strip_app. sb. rewrite get_qn_app by done. by sb.
Qed.

(** Lists of names, up to the closing bracket. *)
Fixpoint get_ql_from (fuel : nat) (s : str) : option (list str * str) :=
  match fuel with
  | O => None
  | S fuel =>
      '(n, r) ← get_qn s;
      match strip (L ")") r with
      | Some r => Some ([n], r)
      | None => r ← strip (L ", ") r; '(ns, r) ← get_ql_from fuel r; Some (n :: ns, r)
      end
  end.
Definition get_ql (s : str) : option (list str * str) :=
  match strip (L ")") s with
  | Some r => Some ([], r)
  | None => get_ql_from (length s) s
  end.
Lemma sql_ql_cons n m ns : sql_ql (n :: m :: ns) = sql_qn n ++ L ", " ++ sql_ql (m :: ns).
Proof. done. Qed.
Lemma get_ql_from_app n ns r fuel :
  length ns < fuel -> Forall (fun x => 34%N ∉ x) (n :: ns) ->
  get_ql_from fuel (sql_ql (n :: ns) ++ L ")" ++ r) = Some (n :: ns, r).
Proof.
  revert n fuel. induction ns as [|m ns IH]; intros n [|fuel] Hl [Hn Hns]%Forall_cons; simpl in Hl; try lia.
  - cbn [get_ql_from]. unfold sql_ql, sql_l. simpl fmap. cbn [join_with]. rewrite get_qn_app by done.
    sb. by rewrite strip_app.
  - cbn [get_ql_from]. rewrite sql_ql_cons.
    rewrite <- !(assoc_L (++)). rewrite get_qn_app by done.
    assert (forall s, strip (L ")") (L ", " ++ s) = None) as Hs by done.
    sb. rewrite Hs, strip_app. sb.
    rewrite IH; [by sb|lia|done].
Qed.
Lemma sql_ql_length n ns : length ns < length (sql_ql (n :: ns)).
Proof.
  revert n. induction ns as [|m ns IH]; intros n.
  - unfold sql_ql, sql_l, sql_qn. simpl. rewrite app_length. simpl. lia.
  - rewrite sql_ql_cons, !app_length. specialize (IH m). cbn [length].
    assert (length (L ", ") = 2) as -> by done. lia.
Qed.
Lemma get_ql_app ns r : Forall (fun x => 34%N ∉ x) ns -> get_ql (sql_ql ns ++ L ")" ++ r) = Some (ns, r).
Proof.
  intros H. unfold get_ql. destruct ns as [|n ns].
  - change (sql_ql [] ++ L ")" ++ r) with (L ")" ++ r). by rewrite strip_app.
  - assert (strip (L ")") (sql_ql (n :: ns) ++ L ")" ++ r) = None) as ->.
    { unfold sql_ql, sql_l. rewrite fmap_cons. by destruct ns. }
    apply get_ql_from_app; [|done]. rewrite app_length. pose proof (sql_ql_length n ns). lia.
Qed.

(** Words. *)
Lemma split_on_nonempty c s : split_on c s <> [].
Proof. destruct s as [|a s]; simpl; [done|]. destruct (a =? c)%N; [done|]. by destruct (split_on c s). Qed.
Lemma words_app a b : words (a ++ L " " ++ b) = words a ++ words b.
Proof.
  unfold words. change (L " " ++ b) with (32%N :: b).
  induction a as [|c a IH]; [done|]. simpl. destruct (c =? 32)%N; [by rewrite IH|].
  rewrite IH. destruct (split_on 32 a) eqn:E; [by destruct (split_on_nonempty 32 a)|done].
Qed.
Lemma words_join s : join_with (L " ") (words s) = s.
Proof.
  unfold words. induction s as [|c s IH]; [done|]. simpl. destruct (c =? 32)%N eqn:E.
  - apply N.eqb_eq in E as ->. destruct (split_on 32 s) eqn:E; [by destruct (split_on_nonempty 32 s)|].
    rewrite <- IH. done.
  - destruct (split_on 32 s) as [|p ps] eqn:Es; [by destruct (split_on_nonempty 32 s)|].
    rewrite <- IH. by destruct ps.
Qed.
Lemma words_one s : 32%N ∉ s -> words s = [s].
Proof.
  unfold words. induction s as [|c s IH]; [done|]. intros [H1 H2]%not_elem_of_cons. simpl.
  rewrite (proj2 (N.eqb_neq c 32)) by congruence. by rewrite IH.
Qed.
Lemma words_inj a b : words a = words b -> a = b.
Proof. intros H. by rewrite <- (words_join a), H, words_join. Qed.

Definition stop (stops : list str) (w : str) : bool := bool_decide (w ∈ stops).
Fixpoint until (stops : list str) (l : list str) : list str * list str :=
  match l with
  | [] => ([], [])
  | w :: l' => if stop stops w then ([], l) else let '(a, b) := until stops l' in (w :: a, b)
  end.
Lemma until_app stops a b :
  Forall (fun w => w ∉ stops) a -> (forall w, head b = Some w -> w ∈ stops) ->
  until stops (a ++ b) = (a, b).
Proof.
  intros Ha Hb. induction Ha as [|w a Hw _ IH]; simpl.
  - destruct b as [|w b]; [done|]. simpl. unfold stop. by rewrite bool_decide_true by (by apply Hb).
  - unfold stop. rewrite bool_decide_false by done. by rewrite IH.
Qed.

(** Numbers. *)
Fixpoint undigits (s : str) : Decimal.uint :=
  match s with
  | [] => Decimal.Nil
  | c :: s =>
      let u := undigits s in
      if (c =? 48)%N then Decimal.D0 u else if (c =? 49)%N then Decimal.D1 u
      else if (c =? 50)%N then Decimal.D2 u else if (c =? 51)%N then Decimal.D3 u
      else if (c =? 52)%N then Decimal.D4 u else if (c =? 53)%N then Decimal.D5 u
      else if (c =? 54)%N then Decimal.D6 u else if (c =? 55)%N then Decimal.D7 u
      else if (c =? 56)%N then Decimal.D8 u else Decimal.D9 u
  end.
Lemma undigits_digits u : undigits (digits u) = u.
Proof. induction u; simpl; [done|by rewrite IHu..]. Qed.
Lemma digits_head u c : head (digits u) = Some c -> (48 <= c <= 57)%N.
Proof. destruct u; intros [= <-]; lia. Qed.
Lemma digits_range u : Forall (fun c => (48 <= c <= 57)%N) (digits u).
Proof. induction u; simpl; constructor; try done; lia. Qed.
Definition read_int (s : str) : Z :=
  match s with
  | c :: s' => if decide (c = 45%N) then Z.of_int (Decimal.Neg (undigits s'))
               else Z.of_int (Decimal.Pos (undigits s))
  | [] => Z.of_int (Decimal.Pos Decimal.Nil)
  end.
Lemma read_show z : read_int (show_int z) = z.
Proof.
  unfold show_int. rewrite <- (of_to z) at 2. destruct (Z.to_int z) as [u|u].
  - unfold read_int. destruct (digits u) as [|c s] eqn:E.
    + by rewrite <- (undigits_digits u), E.
    + rewrite decide_False.
      * rewrite <- E. by rewrite undigits_digits.
      * assert (head (digits u) = Some c) as H%digits_head by (by rewrite E). lia.
  - simpl. by rewrite undigits_digits.
Qed.
Lemma show_int_no_space z : 32%N ∉ show_int z.
Proof.
  unfold show_int. destruct (Z.to_int z) as [u|u]; intros H.
  - pose proof (proj1 (Forall_forall _ _) (digits_range u) _ H) as K. simpl in K. lia.
  - apply elem_of_cons in H as [H|H]; [done|].
    pose proof (proj1 (Forall_forall _ _) (digits_range u) _ H) as K. simpl in K. lia.
Qed.
