(** Lemmas about the installation. *)
From Coq Require Import List String Bool Ascii Lia.
From Verif Require Import Base Base_P PyStr PyStr_P Writers Config Spec_Config Config_P Config_P2 Interp Interp_P Install.
Import ListNotations.
Open Scope string_scope.

Lemma slash_basename d f : plain_name f -> basename (d +++ "/" +++ f) = f.
Proof.
  intros Hf. unfold basename. set (p := fun c => Nat.eqb (code c) 47).
  assert (Hp : forall c, p c = Ascii.eqb c "/") by (intro c; unfold p; now rewrite code_eqb by lia).
  change ("/" +++ f) with (String "/" f). rewrite split_on_app_sep by now rewrite Hp.
  rewrite (split_on_none p f); [apply last_last|].
  apply Bool.negb_true_iff. rewrite <- sforall_negb_sexists. unfold plain_name in Hf. rewrite <- Hf.
  apply sforall_ext. intro a. now rewrite Hp.
Qed.

Lemma rev_string_inj a b : rev_string a = rev_string b -> a = b.
Proof. intro H. rewrite <- (rev_string_inv a), <- (rev_string_inv b). now rewrite H. Qed.

Lemma sapp_inv_head a b c : a +++ b = a +++ c -> b = c.
Proof. induction a as [|x a IH]; cbn [String.append]; [tauto|]. intro H; injection H as H. auto. Qed.
Lemma sapp_inv_tail a b c : a +++ c = b +++ c -> a = b.
Proof.
  intro H. apply rev_string_inj. apply (f_equal rev_string) in H. rewrite !rev_string_app in H.
  now apply sapp_inv_head in H.
Qed.

(** A path made of a folder ending in a slash and a plain name. *)
Lemma dir_name_inj d e f g : plain_name f -> plain_name g ->
  d +++ "/" +++ f = e +++ "/" +++ g -> d = e /\ f = g.
Proof.
  intros Hf Hg H. assert (E : f = g).
  { rewrite <- (slash_basename d f Hf), <- (slash_basename e g Hg). now rewrite H. }
  subst g. split; [|reflexivity]. now apply sapp_inv_tail in H.
Qed.

Lemma plain_join_slash a f : plain_name f -> path_join (a +++ "/") f = a +++ "/" +++ f.
Proof.
  intro Hf. unfold path_join. rewrite (plain_not_slash _ Hf). rewrite rev_string_app.
  cbn [rev_string list_ascii_of_string string_of_list_ascii rev List.app]. rewrite starts_with_app.
  rewrite orb_true_r. now rewrite sapp_assoc.
Qed.
Lemma plain_join a f : plain_name f -> a <> "" -> starts_with "/" (rev_string a) = false -> path_join a f = a +++ "/" +++ f.
Proof.
  intros Hf Ha Hs. unfold path_join. rewrite (plain_not_slash _ Hf), Hs.
  destruct (String.eqb_spec a "") as [|_]; [contradiction|]. reflexivity.
Qed.
Lemma abs_join a b : starts_with "/" b = true -> path_join a b = b.
Proof. intro H. unfold path_join. now rewrite H. Qed.

Notation file fs p := (dget String.eqb fs p).

Lemma copies_other rl D l : forall fs p, (forall f, In f l -> path_join D (basename f) <> p) ->
  file (fold_left (copy_one rl D) l fs) p = file fs p.
Proof.
  induction l as [|f l IH]; intros fs p H; cbn [fold_left]; [reflexivity|].
  rewrite IH by (intros g Hg; apply H; now right). unfold copy_one.
  rewrite (dget_dset String.eqb String.eqb_eq). destruct (String.eqb_spec p (path_join D (basename f))) as [->|_]; [|reflexivity].
  exfalso. apply (H f); [now left|reflexivity].
Qed.

Lemma copies_in rl D l : forall fs p t, (exists f, In f l /\ path_join D (basename f) = p) ->
  (forall f, In f l -> path_join D (basename f) = p -> rl_text rl f = t) ->
  file (fold_left (copy_one rl D) l fs) p = Some t.
Proof.
  induction l as [|f l IH] using rev_ind; intros fs p t [g [Hg Ep]] Hc; [destruct Hg|].
  rewrite fold_left_app. cbn [fold_left]. unfold copy_one at 1. rewrite (dget_dset String.eqb String.eqb_eq).
  destruct (String.eqb_spec p (path_join D (basename f))) as [E|N].
  - f_equal. apply Hc; [apply in_or_app; right; now left|now symmetry].
  - apply IH.
    + exists g. split; [|exact Ep]. apply in_app_or in Hg as [Hg|[->|[]]]; [exact Hg|]. exfalso. apply N. now symmetry.
    + intros g' Hg'. apply Hc. apply in_or_app. now left.
Qed.

Definition names_ok (rl : release) : Prop :=
  Forall plain_name (rl_templates rl) /\ Forall plain_name (rl_user rl) /\ Forall plain_name (rl_global rl).

Lemma json_files_in t names f : Forall plain_name names -> t <> "" -> starts_with "/" (rev_string t) = false ->
  In f (json_files t names) <-> exists n, In n names /\ ends_with ".json" n = true /\ f = t +++ "/" +++ n /\ basename f = n.
Proof.
  intros Hp Ht Hs. unfold json_files. rewrite in_map_iff. split.
  - intros [n [E H]]. apply filter_In in H as [H1 H2]. exists n.
    assert (Pn : plain_name n) by (rewrite Forall_forall in Hp; auto).
    rewrite plain_join in E by assumption. subst f. rewrite slash_basename by exact Pn. auto.
  - intros [n [H1 [H2 [E _]]]]. exists n. rewrite filter_In. split; [|auto].
    rewrite plain_join; [now symmetry| |assumption..]. rewrite Forall_forall in Hp; auto.
Qed.

Section Install.
  Variables (home prefix : string) (rl : release) (fs : ifs).
  Hypothesis Hhome : starts_with "/" home = true.
  Hypothesis Hn : names_ok rl.

  Let U := user_conf_dir home.
  Let S_ := samples_dir home.

  Lemma U_abs : path_join prefix (user_conf_dir home) = home +++ "/.pyg2p" +++ "/".
  Proof.
    rewrite abs_join; [unfold user_conf_dir; reflexivity|].
    unfold user_conf_dir. apply starts_with_spec in Hhome as [t ->]. apply starts_with_spec. exists (t +++ "/.pyg2p/").
    now rewrite sapp_assoc.
  Qed.
  Lemma U_eq : user_conf_dir home = (home +++ "/.pyg2p") +++ "/".
  Proof. unfold user_conf_dir. rewrite sapp_assoc. reflexivity. Qed.
  Lemma S_eq : samples_dir home = home +++ "/.pyg2p/templates_samples".
  Proof. unfold samples_dir. rewrite U_eq, plain_join_slash by reflexivity. rewrite !sapp_assoc. reflexivity. Qed.
  Lemma S_abs : path_join prefix (samples_dir home) = home +++ "/.pyg2p/templates_samples".
  Proof.
    rewrite S_eq. rewrite abs_join; [reflexivity|].
    apply starts_with_spec in Hhome as [t ->]. apply starts_with_spec. exists (t +++ "/.pyg2p/templates_samples").
    now rewrite sapp_assoc.
  Qed.
  Lemma S_end : starts_with "/" (rev_string (home +++ "/.pyg2p/templates_samples")) = false /\ home +++ "/.pyg2p/templates_samples" <> "".
  Proof.
    split.
    - rewrite rev_string_app. reflexivity.
    - intro E. apply (f_equal rev_string) in E. rewrite rev_string_app in E. discriminate E.
  Qed.

  Definition to_user : list string :=
    filter (fun f => negb (exists_file fs (path_join (user_conf_dir home) (basename f)))) (json_files "./configuration" (rl_user rl)).
  Definition to_samples : list string :=
    filter (fun f => negb (exists_file fs (path_join (path_join (user_conf_dir home) "templates_samples") (basename f)))) (json_files "./templates" (rl_templates rl)).

  Lemma install_steps : install home prefix rl fs =
    fold_left (copy_one rl (path_join prefix (samples_dir home))) to_samples
      (fold_left (copy_one rl (path_join prefix (user_conf_dir home))) to_user
        (fold_left (copy_one rl (path_join prefix "pyg2p/configuration/")) (json_files "./configuration/global" (rl_global rl)) fs)).
  Proof.
    unfold install, setup_data_files. fold to_user. fold to_samples. cbv zeta.
    destruct to_user as [|a la]; destruct to_samples as [|b lb]; reflexivity.
  Qed.
End Install.
