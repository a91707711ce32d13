(** The encoding of node kinds and names as mapping keys. *)
From Verif Require Import Base Text Types Node Yaml SpecDefinition Ddl TextLemmas.

Lemma lower_app a b : lower (a ++ b) = lower a ++ lower b.
Proof. unfold lower. by rewrite bind_app. Qed.

(** [find_keyword] on a text already in lower case. *)
Fixpoint find_in (low : str) (kws : list str) : option str :=
  match kws with
  | [] => None
  | k :: kws => if starts_with k low then Some k else find_in low kws
  end.

Lemma find_keyword_eq key kws : find_keyword key kws = find_in (lower key) kws.
Proof. induction kws as [|k kws IH]; [done|]. simpl. by rewrite IH. Qed.

Lemma starts_with_spec p s : starts_with p s = true <-> exists r, s = p ++ r.
Proof.
  revert s. induction p as [|c p IH]; intros s; simpl.
  - split; [|done]. by exists s.
  - destruct s as [|d s]; [split; [done|by intros []]|].
    rewrite andb_true_iff, N.eqb_eq, IH. split.
    + intros [-> [r ->]]. by exists r.
    + intros [r [= -> ->]]. split; [done|by exists r].
Qed.

Lemma starts_with_begins p s : starts_with p (lower s) = true <-> begins_with p s.
Proof. apply starts_with_spec. Qed.

(** Every keyword is lower case ASCII. *)
Definition ascii_low (t : str) : Prop := lower t = t /\ Forall (fun c => (c < 128)%N) t.

Lemma keywords_ascii : Forall ascii_low KEYWORDS.
Proof.
  unfold KEYWORDS, ascii_low. repeat (constructor; [split; [vm_compute; reflexivity|
    repeat (constructor; [vm_compute; reflexivity|]); constructor]|]). constructor.
Qed.

Lemma slice_from_ascii t r : Forall (fun c => (c < 128)%N) t -> slice_from (length t) (t ++ r) = Some r.
Proof.
  induction 1 as [|c t Hc _ IH]; [by destruct r|]. simpl.
  assert (utf8_len c = 1) as ->.
  { unfold utf8_len. by apply N.ltb_lt in Hc as ->. }
  rewrite decide_True by lia. replace (S (length t) - 1) with (length t) by lia. done.
Qed.

Lemma find_spaced :
  Forall (fun t => t <> L "on" -> forall X, find_in (t ++ 32%N :: X) KEYWORDS = Some t) KEYWORDS.
Proof.
  unfold KEYWORDS at 2. repeat (constructor; [|]); try constructor;
    first [intros _ X; vm_compute; reflexivity | intros []; reflexivity].
Qed.

Lemma find_on X :
  find_in (L "on" ++ 32%N :: X) KEYWORDS =
  Some (if starts_with (L "delete") X then L "on delete"
        else if starts_with (L "update") X then L "on update" else L "on").
Proof.
  change (find_in (L "on" ++ 32%N :: X) KEYWORDS) with
    (if starts_with (L "delete") X then Some (L "on delete")
     else if starts_with (L "update") X then Some (L "on update") else Some (L "on")).
  by destruct (starts_with (L "delete") X), (starts_with (L "update") X).
Qed.

Lemma find_alone : Forall (fun t => find_in t KEYWORDS = Some t) KEYWORDS.
Proof. unfold KEYWORDS at 2. repeat (constructor; [vm_compute; reflexivity|]). constructor. Qed.

Lemma render_key_named t name c : render_node_key (MkNode t (Some name) c) = t ++ 32%N :: name.
Proof. done. Qed.

Lemma name_option name : (match name with [] => None | n :: l => Some (n :: l) end : option str) = Some name <-> name <> [].
Proof. by destruct name. Qed.

Lemma named_key_iff t name c :
  t ∈ KEYWORDS ->
  create_node_from_mapping_key (render_node_key (MkNode t (Some name) c)) = Done (t, Some name) <->
  name_writable t name.
Proof.
  intros Ht. rewrite render_key_named. unfold create_node_from_mapping_key.
  rewrite find_keyword_eq, lower_app.
  destruct (proj1 (Forall_forall _ _) keywords_ascii t Ht) as [Hlow Hascii]. rewrite Hlow.
  change (lower (32%N :: name)) with (32%N :: lower name).
  assert (forall rest, match trim rest with [] => None | n :: l => Some (n :: l) end = Some name <->
    trim rest = name /\ name <> []) as Hopt.
  { intros rest. destruct (trim rest); split.
    - done.
    - by intros [<- ?].
    - by intros [= <-].
    - by intros [-> _]. }
  destruct (decide (t = L "on")) as [->|Hon].
  - rewrite find_on. unfold name_writable.
    destruct (starts_with (L "delete") (lower name)) eqn:Hd.
    { split.
      - by destruct (slice_from _ _).
      - intros (_ & _ & Hn). destruct (Hn eq_refl) as [[] _]. by apply starts_with_begins. }
    destruct (starts_with (L "update") (lower name)) eqn:Hu.
    { split.
      - by destruct (slice_from _ _).
      - intros (_ & _ & Hn). destruct (Hn eq_refl) as [_ []]. by apply starts_with_begins. }
    rewrite slice_from_ascii by done. rewrite <- trim_id_iff. split.
    + intros [= [H1 H2]%Hopt]. rewrite trim_space in H1. split; [done|]. split; [done|].
      intros _. rewrite <- !starts_with_begins, Hd, Hu. done.
    + intros (H1 & H2 & _). do 2 f_equal. apply Hopt. by rewrite trim_space.
  - rewrite (proj1 (Forall_forall _ _) find_spaced t Ht Hon).
    rewrite slice_from_ascii by done. unfold name_writable. rewrite <- trim_id_iff. split.
    + intros [= [H1 H2]%Hopt]. by rewrite trim_space in H1.
    + intros (H1 & H2 & _). do 2 f_equal. apply Hopt. by rewrite trim_space.
Qed.

Lemma plain_key t c :
  t ∈ KEYWORDS ->
  create_node_from_mapping_key (render_node_key (MkNode t None c)) = Done (t, None).
Proof.
  intros Ht. change (render_node_key (MkNode t None c)) with t.
  unfold create_node_from_mapping_key. rewrite find_keyword_eq.
  destruct (proj1 (Forall_forall _ _) keywords_ascii t Ht) as [Hlow Hascii]. rewrite Hlow.
  rewrite (proj1 (Forall_forall _ _) find_alone t Ht).
  replace (slice_from (length t) t) with (Some ([] : str)); [done|].
  rewrite <- (app_nil_r t) at 2. by rewrite slice_from_ascii.
Qed.

Lemma plain_key_iff t c :
  t ∈ plain_kinds ->
  create_node_from_mapping_key (render_node_key (MkNode t None c)) = Done (t, None) <->
  t <> L "using" /\ t <> L "increment".
Proof.
  intros Ht. split.
  - intros H. split; intros ->; vm_compute in H; discriminate.
  - intros [H1 H2]. apply plain_key. unfold plain_kinds in Ht. csimpl in Ht.
    repeat (apply elem_of_cons in Ht as [->|Ht];
      [first [by destruct (H1 eq_refl) | by destruct (H2 eq_refl) |
              apply (bool_decide_unpack _); vm_compute; exact I]|]).
    by apply elem_of_nil in Ht.
Qed.

Lemma named_kinds_keywords t : t ∈ named_kinds -> t ∈ KEYWORDS.
Proof.
  intros Ht. unfold named_kinds in Ht. csimpl in Ht.
  repeat (apply elem_of_cons in Ht as [->|Ht];
      [apply (bool_decide_unpack _); vm_compute; exact I|]).
  by apply elem_of_nil in Ht.
Qed.
