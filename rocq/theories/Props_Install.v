(** C119: installing a release never touches a configuration file the user has. *)
From Coq Require Import List String Bool Ascii Lia.
From Verif Require Import Base Base_P PyStr PyStr_P Writers Config Spec_Config Config_P Config_P2 Interp Interp_P Install Spec_Install Install_P.
Import ListNotations.
Open Scope string_scope.

Lemma absolute_b d : absolute d -> starts_with "/" d = true.
Proof. intros [t ->]. apply starts_with_app. Qed.
Lemma is_json_b n : ends_with ".json" n = true <-> is_json n.
Proof. apply ends_with_spec. Qed.
Lemma no_end_slash_b d : no_end_slash d -> d <> "" /\ starts_with "/" (rev_string d) = false.
Proof.
  intros [H1 H2]. split; [exact H1|]. destruct (starts_with "/" (rev_string d)) eqn:E; [|reflexivity].
  exfalso. apply H2. apply (ends_with_spec "/" d). exact E.
Qed.
Lemma global_dir prefix : no_end_slash prefix -> path_join prefix "pyg2p/configuration/" = (prefix +++ "/pyg2p/configuration") +++ "/".
Proof.
  intro H. destruct (no_end_slash_b _ H) as [H1 H2]. unfold path_join. rewrite H2.
  destruct (String.eqb_spec prefix "") as [|_]; [contradiction|]. cbn [starts_with Ascii.eqb Bool.eqb orb].
  rewrite sapp_assoc. reflexivity.
Qed.

Lemma user_eq home n : user_file home n = (home +++ "/.pyg2p") +++ "/" +++ n.
Proof. unfold user_file. rewrite !sapp_assoc. reflexivity. Qed.
Lemma sample_eq home n : sample_file home n = (home +++ "/.pyg2p/templates_samples") +++ "/" +++ n.
Proof. unfold sample_file. rewrite !sapp_assoc. reflexivity. Qed.
Lemma global_eq prefix n : global_file prefix n = (prefix +++ "/pyg2p/configuration") +++ "/" +++ n.
Proof. unfold global_file. rewrite !sapp_assoc. reflexivity. Qed.

Lemma ends_differ a b c d : rev_string a = c +++ d -> a = b -> rev_string b = c +++ d.
Proof. intros H <-. exact H. Qed.

Lemma user_not_global home prefix n m : plain_name n -> plain_name m -> user_file home n <> global_file prefix m.
Proof.
  intros Hn Hm H. rewrite user_eq, global_eq in H. apply dir_name_inj in H as [H _]; [|assumption..].
  apply (f_equal rev_string) in H. rewrite !rev_string_app in H. discriminate H.
Qed.
Lemma sample_not_global home prefix n m : plain_name n -> plain_name m -> sample_file home n <> global_file prefix m.
Proof.
  intros Hn Hm H. rewrite sample_eq, global_eq in H. apply dir_name_inj in H as [H _]; [|assumption..].
  apply (f_equal rev_string) in H. rewrite !rev_string_app in H. discriminate H.
Qed.
Lemma user_not_sample home home' n m : plain_name n -> plain_name m -> user_file home n <> sample_file home' m.
Proof.
  intros Hn Hm H. rewrite user_eq, sample_eq in H. apply dir_name_inj in H as [H _]; [|assumption..].
  apply (f_equal rev_string) in H. rewrite !rev_string_app in H. discriminate H.
Qed.

Lemma in_user home rl fs f : Forall plain_name (rl_user rl) ->
  In f (to_user home rl fs) <-> exists n, In n (rl_user rl) /\ is_json n /\ f = "./configuration/" +++ n /\ basename f = n /\
    content fs (user_file home n) = None.
Proof.
  intro Hp. unfold to_user. rewrite filter_In, (json_files_in "./configuration" _ f Hp) by (try discriminate; reflexivity).
  split.
  - intros [[n [H1 [H2 [H3 H4]]]] H5]. exists n. rewrite is_json_b in H2. repeat (split; [assumption|]).
    rewrite H4, U_eq, plain_join_slash in H5 by (rewrite Forall_forall in Hp; auto).
    unfold content. rewrite user_eq. unfold exists_file in H5. destruct (dget _ _ _); [discriminate H5|reflexivity].
  - intros [n [H1 [H2 [H3 [H4 H5]]]]]. rewrite <- is_json_b in H2. split; [exists n; auto|].
    rewrite H4, U_eq, plain_join_slash by (rewrite Forall_forall in Hp; auto).
    unfold content in H5. rewrite user_eq in H5. unfold exists_file. now rewrite H5.
Qed.
Lemma in_samples home rl fs f : Forall plain_name (rl_templates rl) ->
  In f (to_samples home rl fs) <-> exists n, In n (rl_templates rl) /\ is_json n /\ f = "./templates/" +++ n /\ basename f = n /\
    content fs (sample_file home n) = None.
Proof.
  intro Hp. unfold to_samples. fold (samples_dir home).
  rewrite filter_In, (json_files_in "./templates" _ f Hp) by (try discriminate; reflexivity).
  destruct (S_end home) as [E1 E2].
  split.
  - intros [[n [H1 [H2 [H3 H4]]]] H5]. exists n. rewrite is_json_b in H2. repeat (split; [assumption|]).
    rewrite H4, S_eq, plain_join in H5 by (try assumption; rewrite Forall_forall in Hp; auto).
    unfold content. rewrite sample_eq. unfold exists_file in H5. destruct (dget _ _ _); [discriminate H5|reflexivity].
  - intros [n [H1 [H2 [H3 [H4 H5]]]]]. rewrite <- is_json_b in H2. split; [exists n; auto|].
    rewrite H4, S_eq, plain_join by (try assumption; rewrite Forall_forall in Hp; auto).
    unfold content in H5. rewrite sample_eq in H5. unfold exists_file. now rewrite H5.
Qed.
Lemma in_global rl f : Forall plain_name (rl_global rl) ->
  In f (json_files "./configuration/global" (rl_global rl)) <-> exists n, In n (rl_global rl) /\ is_json n /\
    f = "./configuration/global/" +++ n /\ basename f = n.
Proof.
  intro Hp. rewrite (json_files_in "./configuration/global" _ f Hp) by (try discriminate; reflexivity).
  split; intros [n [H1 [H2 H3]]]; exists n; rewrite is_json_b in *; auto.
Qed.

Section One.
  Variables (home prefix : string) (rl : release) (fs : ifs).
  Hypothesis Hh : absolute home.
  Hypothesis Hx : no_end_slash prefix.
  Hypothesis Hl : listed rl.

  Lemma dest_user n : plain_name n -> path_join (path_join prefix (user_conf_dir home)) n = user_file home n.
  Proof.
    intro Hn. rewrite (U_abs home prefix (absolute_b _ Hh)), <- sapp_assoc, plain_join_slash by exact Hn. now rewrite user_eq.
  Qed.
  Lemma dest_sample n : plain_name n -> path_join (path_join prefix (samples_dir home)) n = sample_file home n.
  Proof.
    intro Hn. destruct (S_end home) as [E1 E2].
    rewrite (S_abs home prefix (absolute_b _ Hh)), plain_join by assumption. now rewrite sample_eq.
  Qed.
  Lemma dest_global n : plain_name n -> path_join (path_join prefix "pyg2p/configuration/") n = global_file prefix n.
  Proof. intro Hn. rewrite global_dir, plain_join_slash by assumption. now rewrite global_eq. Qed.

  Lemma plain_u n : In n (rl_user rl) -> plain_name n.
  Proof. destruct Hl as [_ [H _]]. rewrite Forall_forall in H. auto. Qed.
  Lemma plain_t n : In n (rl_templates rl) -> plain_name n.
  Proof. destruct Hl as [H _]. rewrite Forall_forall in H. auto. Qed.
  Lemma plain_g n : In n (rl_global rl) -> plain_name n.
  Proof. destruct Hl as [_ [_ H]]. rewrite Forall_forall in H. auto. Qed.

  Lemma same_where p :
    (forall n, In n (rl_global rl) -> is_json n -> p <> global_file prefix n) ->
    (forall n, In n (rl_user rl) -> is_json n -> content fs p = None -> p <> user_file home n) ->
    (forall n, In n (rl_templates rl) -> is_json n -> content fs p = None -> p <> sample_file home n) ->
    content (install home prefix rl fs) p = content fs p.
  Proof.
    intros Hg Hu Ht. destruct Hl as [Lt [Lu Lg]]. unfold content at 1. rewrite install_steps.
    rewrite copies_other; [rewrite copies_other; [apply copies_other|]|].
    - intros f Hf. apply (in_global rl f Lg) in Hf as [n [H1 [H2 [H3 H4]]]]. rewrite H4, dest_global by (now apply plain_g).
      intro E. now apply (Hg n H1 H2).
    - intros f Hf. apply (in_user home rl fs f Lu) in Hf as [n [H1 [H2 [H3 [H4 H5]]]]]. rewrite H4, dest_user by (now apply plain_u).
      intro E. subst p. exact (Hu n H1 H2 H5 eq_refl).
    - intros f Hf. apply (in_samples home rl fs f Lt) in Hf as [n [H1 [H2 [H3 [H4 H5]]]]]. rewrite H4, dest_sample by (now apply plain_t).
      intro E. subst p. exact (Ht n H1 H2 H5 eq_refl).
  Qed.
End One.

(** Whatever release is installed, wherever, every file that exists keeps its
    content, unless it is one of the package's own configuration files under the
    installation prefix. *)
Theorem C119_kept : forall home prefix rl fs p t, absolute home -> no_end_slash prefix -> listed rl ->
  content fs p = Some t -> (forall n, p <> global_file prefix n) ->
  content (install home prefix rl fs) p = Some t.
Proof.
  intros home prefix rl fs p t Hh Hx Hl Hp Hg. rewrite same_where; try assumption.
  - intros n _ _. apply Hg.
  - intros n _ _ H. rewrite H in Hp. discriminate Hp.
  - intros n _ _ H. rewrite H in Hp. discriminate Hp.
Qed.
Print Assumptions C119_kept.

(** No other file appears or changes. *)
Theorem C119_only : forall home prefix rl fs p, absolute home -> no_end_slash prefix -> listed rl ->
  (forall n, In n (rl_global rl) -> is_json n -> p <> global_file prefix n) ->
  (forall n, In n (rl_user rl) -> is_json n -> p <> user_file home n) ->
  (forall n, In n (rl_templates rl) -> is_json n -> p <> sample_file home n) ->
  content (install home prefix rl fs) p = content fs p.
Proof. intros home prefix rl fs p Hh Hx Hl Hg Hu Ht. apply same_where; auto. Qed.
Print Assumptions C119_only.

(** Every configuration file of the release the user does not have arrives with the released text, every
    sample command file too, and the package's own configuration files always
    carry the released text, whatever was there. *)
Theorem C119_delivered : forall home prefix rl fs n, absolute home -> no_end_slash prefix -> listed rl -> is_json n ->
  (In n (rl_user rl) -> content fs (user_file home n) = None ->
   content (install home prefix rl fs) (user_file home n) = Some (rl_text rl ("./configuration/" +++ n))) /\
  (In n (rl_templates rl) -> content fs (sample_file home n) = None ->
   content (install home prefix rl fs) (sample_file home n) = Some (rl_text rl ("./templates/" +++ n))) /\
  (In n (rl_global rl) ->
   content (install home prefix rl fs) (global_file prefix n) = Some (rl_text rl ("./configuration/global/" +++ n))).
Proof.
  intros home prefix rl fs n Hh Hx Hl Hj. pose proof Hl as [Lt [Lu Lg]].
  split; [|split]; intros Hin; try intros Ha; unfold content; rewrite install_steps.
  - assert (Pn : plain_name n) by exact (plain_u rl Hl n Hin).
    rewrite copies_other.
    2:{ intros f Hf. apply (in_samples home rl fs f Lt) in Hf as [m [H1 [_ [_ [H4 _]]]]].
        rewrite H4, dest_sample by (try assumption; now apply (plain_t rl)). intro E. symmetry in E.
        refine (user_not_sample _ _ _ _ Pn _ E). now apply (plain_t rl). }
    apply copies_in.
    + exists ("./configuration/" +++ n). assert (B : basename ("./configuration/" +++ n) = n) by exact (slash_basename "./configuration" n Pn).
      split; [apply (in_user home rl fs _ Lu); exists n; auto|]. rewrite B. now apply dest_user.
    + intros f Hf E. apply (in_user home rl fs f Lu) in Hf as [m [H1 [_ [H3 [H4 _]]]]].
      rewrite H4, dest_user in E by (try assumption; now apply (plain_u rl)). rewrite !user_eq in E.
      apply dir_name_inj in E as [_ <-]; [now rewrite H3| |assumption]. now apply (plain_u rl).
  - assert (Pn : plain_name n) by exact (plain_t rl Hl n Hin).
    apply copies_in.
    + exists ("./templates/" +++ n). assert (B : basename ("./templates/" +++ n) = n) by exact (slash_basename "./templates" n Pn).
      split; [apply (in_samples home rl fs _ Lt); exists n; auto|]. rewrite B. now apply dest_sample.
    + intros f Hf E. apply (in_samples home rl fs f Lt) in Hf as [m [H1 [_ [H3 [H4 _]]]]].
      rewrite H4, dest_sample in E by (try assumption; now apply (plain_t rl)). rewrite !sample_eq in E.
      apply dir_name_inj in E as [_ <-]; [now rewrite H3| |assumption]. now apply (plain_t rl).
  - assert (Pn : plain_name n) by exact (plain_g rl Hl n Hin).
    rewrite copies_other.
    2:{ intros f Hf. apply (in_samples home rl fs f Lt) in Hf as [m [H1 [_ [_ [H4 _]]]]].
        rewrite H4, dest_sample by (try assumption; now apply (plain_t rl)). 
        apply sample_not_global; [|assumption]. now apply (plain_t rl). }
    rewrite copies_other.
    2:{ intros f Hf. apply (in_user home rl fs f Lu) in Hf as [m [H1 [_ [_ [H4 _]]]]].
        rewrite H4, dest_user by (try assumption; now apply (plain_u rl)). 
        apply user_not_global; [|assumption]. now apply (plain_u rl). }
    apply copies_in.
    + exists ("./configuration/global/" +++ n).
      assert (B : basename ("./configuration/global/" +++ n) = n) by exact (slash_basename "./configuration/global" n Pn).
      split; [apply (in_global rl _ Lg); exists n; auto|]. rewrite B. now apply dest_global.
    + intros f Hf E. apply (in_global rl f Lg) in Hf as [m [H1 [_ [H3 H4]]]].
      rewrite H4, dest_global in E by (try assumption; now apply (plain_g rl)). rewrite !global_eq in E.
      apply dir_name_inj in E as [_ <-]; [now rewrite H3| |assumption]. now apply (plain_g rl).
Qed.
Print Assumptions C119_delivered.

(** Over any history of installations (of any releases, in any prefixes) and of
    changes by the user: a configuration file or a sample the user wrote holds
    what the user wrote last. *)
Lemma content_filter fs p q : p <> q -> content (filter (fun kv => negb (String.eqb (fst kv) q)) fs) p = content fs p.
Proof.
  intro N. unfold content. induction fs as [|[k v] fs IH]; [reflexivity|]. cbn [filter fst dget].
  destruct (String.eqb_spec k q) as [->|E]; cbn [negb dget].
  - destruct (String.eqb_spec p q); [contradiction|]. exact IH.
  - rewrite IH. reflexivity.
Qed.

Theorem C119_history : forall home fs before after p t n, absolute home -> plain_name n ->
  p = user_file home n \/ p = sample_file home n ->
  Forall (leaves p) after ->
  content (do_all home fs (before ++ Write p t :: after)%list) p = Some t.
Proof.
  intros home fs bf after p t n Hh Pn Hp Ha. unfold do_all. rewrite fold_left_app. cbn [fold_left do_one].
  set (s0 := dset String.eqb _ p t).
  assert (H0 : content s0 p = Some t).
  { unfold content, s0. rewrite (dget_dset String.eqb String.eqb_eq). now rewrite String.eqb_refl. }
  clearbody s0. revert s0 H0. induction Ha as [|d after Hd _ IH]; intros s0 H0; cbn [fold_left]; [exact H0|].
  apply IH. destruct d as [prefix rl|q t'|q]; cbn [do_one leaves] in *.
  - destruct Hd as [Hx Hl]. rewrite same_where; try assumption.
    + intros m Hm _. destruct Hp as [-> | ->]; [apply user_not_global|apply sample_not_global]; try assumption; now apply (plain_g rl).
    + intros m _ _ H. rewrite H in H0. discriminate H0.
    + intros m _ _ H. rewrite H in H0. discriminate H0.
  - unfold content. rewrite (dget_dset String.eqb String.eqb_eq). destruct (String.eqb_spec p q); [subst; contradiction|exact H0].
  - rewrite content_filter; [exact H0|]. intro E. now apply Hd.
Qed.
Print Assumptions C119_history.

(** A user who changed parameters.json, a first and a second release. *)
Definition setup_rl (v : string) : release :=
  {| rl_templates := ["eue_r24.json"; "README"]; rl_user := ["parameters.json"; "ftp.json"; "global"];
     rl_global := ["parameters.json"; "global_conf.json"]; rl_text := fun f => v +++ " of " +++ f |}.
Example C119_nonvacuous :
  absolute "/home/u" /\ no_end_slash "/usr" /\ listed (setup_rl "v1") /\
  let fs1 := do_all "/home/u" [] [Install "/usr" (setup_rl "v1"); Write "/home/u/.pyg2p/parameters.json" "mine";
                                  Install "/usr" (setup_rl "v2")] in
  content fs1 "/home/u/.pyg2p/parameters.json" = Some "mine" /\
  content fs1 "/home/u/.pyg2p/ftp.json" = Some "v1 of ./configuration/ftp.json" /\
  content fs1 "/home/u/.pyg2p/templates_samples/eue_r24.json" = Some "v1 of ./templates/eue_r24.json" /\
  content fs1 "/usr/pyg2p/configuration/parameters.json" = Some "v2 of ./configuration/global/parameters.json" /\
  content fs1 "/home/u/.pyg2p/global" = None.
Proof.
  split; [now exists "home/u"|]. split.
  { split; [discriminate|]. intros [t H]. apply (f_equal rev_string) in H. rewrite rev_string_app in H. discriminate H. }
  split; [unfold listed; cbn [rl_templates rl_user rl_global setup_rl]; split; [|split]; repeat (apply Forall_cons; [reflexivity|]); apply Forall_nil|].
  cbv zeta. split; [|split; [|split; [|split]]]; vm_compute; reflexivity.
Qed.
