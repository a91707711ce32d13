(** Lemmas about src/project/mod.rs. *)
From Verif Require Import Base History Dbh Expand Project World SpecProject.

Lemma prefix_snoc_inv (d c : path) (x : str) : d `prefix_of` c ++ [x] -> d = c ++ [x] \/ d `prefix_of` c.
Proof.
  intros [k Hk]. destruct k as [|y k _] using rev_ind; [left; by rewrite app_nil_r in Hk|].
  right. rewrite app_assoc in Hk. apply app_inj_tail in Hk as [-> _]. by exists k.
Qed.
Lemma prefix_same (d d' : path) : d `prefix_of` d' -> d' `prefix_of` d -> d = d'.
Proof. apply (anti_symm prefix). Qed.

Section lemmas.
  Context (st : setting).

  Lemma discover_cases (fs : filesystem) (cwd : path) :
    (exists dir, nearest fs cwd dir /\
       discover_project st fs cwd = load_project_from_file st fs dir (config dir)) \/
    ((forall dir, ~ enclosing fs cwd dir) /\ discover_project st fs cwd = Raise (ProjectNotFound [])).
  Proof.
    unfold discover_project. induction cwd as [|x cwd IH] using rev_ind.
    - cbn [reverse rev_append discover]. change (reverse []) with (@nil str). simpl app.
      unfold file_exists. case_bool_decide as Hex.
      + left. exists []. split; [|done]. split.
        * split; [done|exact Hex].
        * intros dir' [Hp _]. exact Hp.
      + right. split; [|done]. intros dir [Hp Hs]. apply prefix_nil_inv in Hp as ->. by destruct Hex.
    - rewrite reverse_app. change (reverse [x] ++ reverse cwd) with (x :: reverse cwd).
      cbn [discover]. rewrite reverse_cons, reverse_involutive.
      unfold file_exists. case_bool_decide as Hex.
      + left. exists (cwd ++ [x]). split; [|done]. split.
        * split; [done|exact Hex].
        * intros dir' [Hp _]. exact Hp.
      + assert (Henc : forall dir, enclosing fs (cwd ++ [x]) dir <-> enclosing fs cwd dir).
        { intros dir. split; intros [Hp Hs].
          - apply prefix_snoc_inv in Hp as [-> | Hp]; [by destruct Hex|]. by split.
          - split; [|done]. by apply prefix_app_r. }
        destruct IH as [(dir & [Hn Hm] & Hd)|[Hn Hd]].
        * left. exists dir. split; [|exact Hd]. split; [by apply Henc|].
          intros dir' H'. apply Hm. by apply Henc.
        * right. split; [|exact Hd]. intros dir Hdir. apply (Hn dir). by apply Henc.
  Qed.
  Lemma nearest_unique (fs : filesystem) (cwd d d' : path) : nearest fs cwd d -> nearest fs cwd d' -> d = d'.
  Proof. intros [H1 M1] [H2 M2]. apply prefix_same; [by apply M2|by apply M1]. Qed.

  Lemma find_profile_some (ps : list profile) (name : str) (p : profile) :
    NoDup (p_name <$> ps) -> p ∈ ps -> p_name p = name -> find_profile ps name = Ret p.
  Proof.
    induction ps as [|q ps IH]; intros Hnd Hin Hname; [by apply elem_of_nil in Hin|].
    cbn [find_profile]. apply NoDup_cons in Hnd as [Hq Hnd]. destruct (decide (p_name q = name)) as [Hqn|Hqn].
    - apply elem_of_cons in Hin as [-> |Hin]; [done|].
      destruct Hq. rewrite Hqn, <- Hname. by apply elem_of_list_fmap_1.
    - apply elem_of_cons in Hin as [-> |Hin]; [done|]. by apply IH.
  Qed.
  Lemma find_profile_none (ps : list profile) (name : str) :
    name ∉ p_name <$> ps -> find_profile ps name = Raise (ProfileNotFound name).
  Proof.
    induction ps as [|q ps IH]; [done|]. cbn [find_profile fmap list_fmap].
    rewrite not_elem_of_cons. intros [Hq Hps]. rewrite decide_False by congruence. by apply IH.
  Qed.

  Definition expanded (dir : path) (name : str) (yp : yaml_profile) : profile := load_profile st dir (name, yp).
  Lemma loaded_profile (dir : path) (y : yaml_project) (name : str) :
    get_profile (Project dir (load_profile st dir <$> st_order st y)) name =
    match y !! name with
    | Some yp => Ret (expanded dir name yp)
    | None => Raise (ProfileNotFound name)
    end.
  Proof.
    unfold get_profile. cbn [profiles].
    assert (Hnames : p_name <$> (load_profile st dir <$> st_order st y) = (st_order st y).*1)
      by (rewrite <- list_fmap_compose; apply list_fmap_ext; by intros).
    assert (Hperm : (st_order st y).*1 ≡ₚ (map_to_list y).*1) by (by rewrite (st_order_perm st y)).
    destruct (y !! name) as [yp|] eqn:Hy.
    - apply find_profile_some; [| |done].
      + rewrite Hnames, Hperm. apply NoDup_fst_map_to_list.
      + unfold expanded. apply elem_of_list_fmap_1. rewrite (st_order_perm st y). by apply elem_of_map_to_list.
    - apply find_profile_none. rewrite Hnames, Hperm. intros Hin.
      apply elem_of_list_fmap in Hin as ([n yp] & -> & Hin). apply elem_of_map_to_list in Hin.
      simpl in Hy. congruence.
  Qed.

  Lemma discover_ret (fs : filesystem) (cwd : path) (proj : project) :
    discover_project st fs cwd = Ret proj <->
    exists dir y, configured st fs cwd dir y /\ proj = Project dir (load_profile st dir <$> st_order st y).
  Proof.
    split.
    - intros Hp. destruct (discover_cases fs cwd) as [(dir & Hn & Hd)|[_ Hd]]; rewrite Hd in Hp; [|discriminate].
      unfold load_project_from_file in Hp. destruct (fs !! config dir) as [[|s]|] eqn:Hs; try discriminate.
      unfold load_project_from_str in Hp. destruct (st_parse st s) as [y|] eqn:Hy; [|discriminate].
      injection Hp as <-. exists dir, y. split; [|done]. split; [done|]. by exists s.
    - intros (dir & y & [Hn (s & Hs & Hy)] & ->).
      destruct (discover_cases fs cwd) as [(dir' & Hn' & Hd)|[Hno _]].
      + rewrite Hd. rewrite <- (nearest_unique fs cwd dir dir' Hn Hn').
        unfold load_project_from_file. rewrite Hs. unfold load_project_from_str. by rewrite Hy.
      + destruct (Hno dir). apply Hn.
  Qed.
  Lemma configured_unique (fs : filesystem) (cwd d d' : path) (y y' : yaml_project) :
    configured st fs cwd d y -> configured st fs cwd d' y' -> d = d' /\ y = y'.
  Proof.
    intros [Hn (s & Hs & Hy)] [Hn' (s' & Hs' & Hy')].
    rewrite <- (nearest_unique fs cwd d d' Hn Hn') in *. split; [done|]. congruence.
  Qed.

  Lemma profile_at_expanded (fs : filesystem) (cwd : path) (name : str) (p : profile) :
    profile_at st fs cwd name p <->
    exists dir y yp, configured st fs cwd dir y /\ y !! name = Some yp /\ p = expanded dir name yp.
  Proof.
    split.
    - intros (dir & y & yp & Hc & Hy & H1 & H2 & H3 & H4 & H5). exists dir, y, yp. split; [done|]. split; [done|].
      destruct p; simpl in *. unfold expanded, load_profile; simpl. congruence.
    - intros (dir & y & yp & Hc & Hy & ->). exists dir, y, yp. repeat (split; [done|]). done.
  Qed.
  (** A profile of the configuration is what the commands resolve. *)
  Lemma profile_at_spec (fs : filesystem) (cwd : path) (name : str) (p : profile) :
    profile_at st fs cwd name p <->
    exists proj, discover_project st fs cwd = Ret proj /\ get_profile proj name = Ret p.
  Proof.
    rewrite profile_at_expanded. split.
    - intros (dir & y & yp & Hc & Hy & ->). eexists. split; [apply discover_ret; by exists dir, y|].
      rewrite loaded_profile, Hy. done.
    - intros (proj & Hd & Hp). apply discover_ret in Hd as (dir & y & Hc & ->).
      rewrite loaded_profile in Hp. destruct (y !! name) as [yp|] eqn:Hy; [|discriminate].
      injection Hp as <-. by exists dir, y, yp.
  Qed.
End lemmas.
