(** * Store_P3: downloads and check_conf *)
From Verif Require Import Base PyStr Writers Config Json Interp Store Spec_Config Spec_Store Base_P PyStr_P Config_P Config_P2 Json_P Store_P.
From Coq Require Import Permutation Lia.
Local Open Scope string_scope.

Lemma no_data_spec f : no_data f = false <-> ~ In f ["."; ".."; "readme.txt"].
Proof.
  unfold no_data. split.
  - intros H Hi. assert (E : existsb (String.eqb f) ["."; ".."; "readme.txt"] = true); [|congruence].
    apply existsb_exists. exists f. split; [exact Hi|apply String.eqb_refl].
  - intro H. destruct (existsb (String.eqb f) ["."; ".."; "readme.txt"]) eqn:E; [|reflexivity].
    apply existsb_exists in E as [x [Hx Ex]]. apply String.eqb_eq in Ex. subst. contradiction.
Qed.

(** what one attempt may do: a path keeps its content, or a new file appears
    with a prefix of the content of a wanted name, the whole of it unless the
    path is in [bad] *)
Definition stored (r : remote) (dir : string) (names : list string) (bad : list string) (fs fs' : fstore) (p : string) : Prop :=
  dget String.eqb fs' p = dget String.eqb fs p \/
  (dget String.eqb fs p = None /\ exists f x, In f names /\ no_data f = false /\ p = path_join dir f /\ dget String.eqb fs' p = Some x /\
    match r_content r f with
    | Some text => prefix_of x text /\ (In p bad \/ x = text)
    | None => x = "" /\ In p bad
    end).
Definition failures (o : res unit) : nat := match o with Ok _ => 0 | Raise _ => 1 end.

Lemma prefix_stake n s : prefix_of (stake n s) s.
Proof. exists (sdrop n s). symmetry. apply stake_sdrop. Qed.
Lemma prefix_refl s : prefix_of s s.
Proof. exists "". now rewrite sapp_nil_r. Qed.

Lemma fetch_inv e r dir st fs f : exists bad, (List.length bad <= failures (snd (fetch e r (Some dir) st fs f)))%nat /\
  (forall p, stored r dir [f] bad fs (fst (fetch e r (Some dir) st fs f)) p) /\
  (snd (fetch e r (Some dir) st fs f) = Ok tt -> no_data f = false -> dmem String.eqb (fst (fetch e r (Some dir) st fs f)) (path_join dir f) = true) /\
  (snd (fetch e r (Some dir) st fs f) = Ok tt -> st = None \/ exists n, st = Some (Written n)).
Proof.
  assert (Same : forall (o : res unit), exists bad : list string, (List.length bad <= failures o)%nat /\ forall p, stored r dir [f] bad fs fs p).
  { intro o. exists []. split; [cbn; lia|]. intro p. now left. }
  unfold fetch.
  assert (Main : (st = None \/ exists n, st = Some (Written n)) -> let R := (if no_data f then (fs, Ok tt)
    else let p := path_join dir f in
      if dmem String.eqb fs p then (fs, Ok tt)
      else match dl_open e p with
      | Some ex => (fs, Raise ex)
      | None =>
          match r_content r f, st with
          | None, _ => (dset String.eqb fs p "", Raise OtherError)
          | Some text, Some (Written n) => (dset String.eqb fs p (stake n text), Raise OtherError)
          | Some text, _ => (dset String.eqb fs p text, Ok tt)
          end
      end) in
    exists bad, (List.length bad <= failures (snd R))%nat /\ (forall p, stored r dir [f] bad fs (fst R) p) /\
    (snd R = Ok tt -> no_data f = false -> dmem String.eqb (fst R) (path_join dir f) = true) /\
    (snd R = Ok tt -> st = None \/ exists n, st = Some (Written n))).
  { intros Hst. cbn zeta. destruct (no_data f) eqn:En.
    { destruct (Same (Ok tt)) as [bad [H1 H2]]. exists bad. cbn [fst snd]. repeat split; auto. discriminate. }
    destruct (dmem String.eqb fs (path_join dir f)) eqn:Em.
    { destruct (Same (Ok tt)) as [bad [H1 H2]]. exists bad. cbn [fst snd]. repeat split; auto. }
    assert (Hnone : dget String.eqb fs (path_join dir f) = None).
    { unfold dmem in Em. destruct (dget String.eqb fs (path_join dir f)); congruence. }
    destruct (dl_open e (path_join dir f)) as [ex|].
    { destruct (Same (Raise ex)) as [bad [H1 H2]]. exists bad. cbn [fst snd]. repeat split; auto; discriminate. }
    assert (New : forall x bad, match r_content r f with
        | Some text => prefix_of x text /\ (In (path_join dir f) bad \/ x = text)
        | None => x = "" /\ In (path_join dir f) bad end ->
      forall p, stored r dir [f] bad fs (dset String.eqb fs (path_join dir f) x) p).
    { intros x bad Hx p. unfold stored. rewrite dget_dset_s. destruct (String.eqb_spec (path_join dir f) p) as [<-|]; [|now left].
      right. split; [exact Hnone|]. exists f, x. repeat split; auto; [now left]. }
    destruct (r_content r f) as [text|] eqn:Ec.
    - destruct st as [[|n]|].
      + destruct Hst as [H|[n H]]; discriminate.
      + exists [path_join dir f]. cbn [fst snd failures List.length]. split; [lia|]. split; [|split; discriminate].
        apply New. split; [apply prefix_stake|]. left. now left.
      + exists []. cbn [fst snd failures List.length]. split; [lia|]. split; [|split].
        * apply New. split; [apply prefix_refl|]. now right.
        * intros _ _. unfold dmem. now rewrite dget_dset_s, String.eqb_refl.
        * auto.
    - exists [path_join dir f]. cbn [fst snd failures List.length]. split; [lia|]. split; [|split; discriminate].
      apply New. split; [reflexivity|now left]. }
  destruct st as [[|n]|].
  - destruct (Same (Raise OtherError)) as [bad [H1 H2]]. exists bad. cbn [fst snd]. repeat split; auto; discriminate.
  - apply Main. eauto.
  - apply Main. auto.
Qed.

Lemma stored_trans r dir n1 n2 b1 b2 fs fs1 fs2 p :
  stored r dir n1 b1 fs fs1 p -> stored r dir n2 b2 fs1 fs2 p -> stored r dir (n1 ++ n2) (b1 ++ b2) fs fs2 p.
Proof.
  unfold stored. intros [H|[H0 [f [x [Hf [Hn [Hp [Hx Hc]]]]]]]] [K|[K0 [g [y [Kf [Kn [Kp [Ky Kc]]]]]]]].
  - left. congruence.
  - right. split; [congruence|]. exists g, y. split; [apply in_or_app; now right|]. split; [exact Kn|]. split; [exact Kp|]. split; [exact Ky|].
    destruct (r_content r g); destruct Kc as [C1 C2]; (split; [exact C1|]); [destruct C2; [left; apply in_or_app; now right|now right]|apply in_or_app; now right].
  - right. split; [exact H0|]. exists f, x. split; [apply in_or_app; now left|]. split; [exact Hn|]. split; [exact Hp|]. split; [congruence|].
    destruct (r_content r f); destruct Hc as [C1 C2]; (split; [exact C1|]); [destruct C2; [left; apply in_or_app; now left|now right]|apply in_or_app; now left].
  - congruence.
Qed.
Lemma stored_kept r dir names bad fs fs' p x : stored r dir names bad fs fs' p -> dget String.eqb fs p = Some x -> dget String.eqb fs' p = Some x.
Proof. intros [H|[H _]]; congruence. Qed.

Lemma fetch_all_inv e r dir : forall names c fs, exists bad,
  (List.length bad <= failures (snd (fetch_all e r (Some dir) c fs names)))%nat /\
  (forall p, stored r dir names bad fs (fst (fetch_all e r (Some dir) c fs names)) p) /\
  (snd (fetch_all e r (Some dir) c fs names) = Ok tt -> forall f, In f names -> no_data f = false ->
     dmem String.eqb (fst (fetch_all e r (Some dir) c fs names)) (path_join dir f) = true).
Proof.
  induction names as [|f names IH]; intros c fs.
  - exists []. cbn. repeat split; auto. intro p. now left.
  - cbn [fetch_all]. set (here := match c with Some (Cut O st) => Some st | _ => None end).
    set (later := match c with Some (Cut (S i) st) => Some (Cut i st) | _ => None end).
    destruct (fetch_inv e r dir here fs f) as [b1 [H1 [H2 [H3 _]]]].
    destruct (fetch e r (Some dir) here fs f) as [fs1 [[]|ex]]; cbn [fst snd failures] in *.
    + destruct (IH later fs1) as [b2 [K1 [K2 K3]]]. destruct b1; [|cbn in H1; lia]. exists b2. split; [exact K1|]. split.
      * intro p. apply (stored_trans r dir [f] names [] b2 fs fs1); auto.
      * intros Ho g [<-|Hg] Hn; [|now apply K3]. specialize (H3 eq_refl Hn). unfold dmem in *.
        destruct (dget String.eqb fs1 (path_join dir f)) as [x|] eqn:E; [|discriminate].
        rewrite (stored_kept _ _ _ _ _ _ _ _ (K2 (path_join dir f)) E). reflexivity.
    + exists b1. split; [exact H1|]. split; [|discriminate]. intro p. assert (G := stored_trans r dir [f] names b1 [] fs fs1 fs1 p (H2 p)).
      rewrite List.app_nil_r in G. apply G. now left.
Qed.

(** ** histories of attempts *)
Definition local_dir (e : download_env) (dataset : string) : option string :=
  if String.eqb dataset "geopotentials" then dl_geopotentials e
  else if String.eqb dataset "intertables" then dl_intertables e else None.
(** the FTP account is set up and its folder has the data set [r] *)
Definition remote_of (e : download_env) (dataset : string) (r : remote) : Prop :=
  exists folder, dl_folder e = Some folder /\ dl_remote e (path_join folder dataset) = Some r.

Lemma download_eq e dataset dir r c fs : local_dir e dataset = Some dir -> remote_of e dataset r ->
  download_data e dataset c fs = fetch_all e r (Some dir) c fs (r_names r).
Proof.
  unfold local_dir, download_data. intros H [folder [E1 E2]]. destruct (String.eqb dataset "geopotentials"); [rewrite H, E1, E2; reflexivity|].
  destruct (String.eqb dataset "intertables"); [rewrite H, E1, E2; reflexivity|discriminate].
Qed.

Definition interruptions (h : list (option cut)) : nat := List.length (filter (fun c => match c with Some _ => true | None => false end) h).

Lemma stored_weaken r dir n1 n2 b1 b2 fs fs' p : incl n1 n2 -> incl b1 b2 -> stored r dir n1 b1 fs fs' p -> stored r dir n2 b2 fs fs' p.
Proof.
  intros Hn Hb [H|[H0 [f [x [Hf [Hd [Hp [Hx Hc]]]]]]]]; [now left|]. right. split; [exact H0|]. exists f, x.
  split; [now apply Hn|]. split; [exact Hd|]. split; [exact Hp|]. split; [exact Hx|].
  destruct (r_content r f); destruct Hc as [C1 C2]; (split; [exact C1|]); [destruct C2; [left; now apply Hb|now right]|now apply Hb].
Qed.

(** attempts that fail, whatever the reason *)
Fixpoint failed (e : download_env) (dataset : string) (fs : fstore) (h : list (option cut)) : nat :=
  match h with
  | [] => 0
  | c :: h' => failures (snd (download_data e dataset c fs)) + failed e dataset (fst (download_data e dataset c fs)) h'
  end.
Lemma downloads_inv e dataset dir r : local_dir e dataset = Some dir -> remote_of e dataset r -> forall h fs, exists bad,
  (List.length bad <= failed e dataset fs h)%nat /\ (forall p, stored r dir (r_names r) bad fs (downloads e dataset fs h) p).
Proof.
  intros Hl Hr. induction h as [|c h IH]; intros fs.
  - exists []. split; [cbn; lia|]. intro p. now left.
  - unfold downloads. cbn [fold_left failed]. fold (downloads e dataset (fst (download_data e dataset c fs)) h).
    destruct (fetch_all_inv e r dir (r_names r) c fs) as [b1 [H1 [H2 _]]]. rewrite <- (download_eq e dataset dir r c fs Hl Hr) in H1, H2.
    destruct (IH (fst (download_data e dataset c fs))) as [b2 [K1 K2]]. exists (b1 ++ b2)%list. split; [rewrite app_length; lia|].
    intro p. eapply stored_weaken; [| |eapply stored_trans; [apply H2|apply K2]]; [|intros y Hy; exact Hy].
    intros x Hx. apply in_app_or in Hx. tauto.
Qed.

(** ** check_conf *)
Lemma keep_existing_inv e dir : forall all user user', NoDup (map fst user) -> keep_existing e (Some dir) all user = Ok user' ->
  NoDup (map fst all) ->
  (forall k i, In (k, i) all -> exists name, jitem i "filename" = Ok (JStr name)) /\ NoDup (map fst user') /\
  forall k, dget String.eqb user' k =
    match dget String.eqb all k with
    | Some i => match jitem i "filename" with
                | Ok (JStr name) => if ck_isfile e (path_join dir name) then dget String.eqb user k else None
                | _ => None
                end
    | None => dget String.eqb user k
    end.
Proof.
  induction all as [|[k0 i0] all IH]; intros user user' Hn H Ha; cbn [keep_existing] in H.
  - injection H as <-. split; [intros ? ? []|]. split; [exact Hn|]. reflexivity.
  - inversion Ha as [|? ? Hx Ha']; subst. destruct (jitem i0 "filename") as [f|] eqn:Ef; [|discriminate]. cbn [rbind] in H.
    destruct f as [| | |name| |]; try discriminate.
    set (u1 := if ck_isfile e (path_join dir name) then user else ddel String.eqb user k0) in *.
    assert (Hn1 : NoDup (map fst u1)) by (unfold u1; destruct (ck_isfile e (path_join dir name)); [exact Hn|apply NoDup_ddel, Hn]).
    destruct (IH u1 user' Hn1 H Ha') as [K1 [K2 K3]]. split; [|split; [exact K2|]].
    + intros k i [E|Hi]; [injection E as <- <-; eauto|eauto].
    + intro k. rewrite K3. cbn [dget]. destruct (String.eqb_spec k k0) as [->|Hk].
      * rewrite Ef. assert (E : dget String.eqb all k0 = None).
        { clear -Hx. induction all as [|[a b] all IH]; cbn in *; [reflexivity|]. destruct (String.eqb_spec k0 a) as [->|]; tauto. }
        rewrite E. unfold u1. destruct (ck_isfile e (path_join dir name)); [reflexivity|]. rewrite dget_ddel_s by exact Hn. now rewrite String.eqb_refl.
      * assert (E : dget String.eqb u1 k = dget String.eqb user k).
        { unfold u1. destruct (ck_isfile e (path_join dir name)); [reflexivity|]. rewrite dget_ddel_s by exact Hn.
          destruct (String.eqb_spec k0 k); [congruence|reflexivity]. }
        rewrite E. reflexivity.
Qed.
Lemma keep_existing_total e dir : forall all user, (forall k i, In (k, i) all -> exists name, jitem i "filename" = Ok (JStr name)) ->
  exists user', keep_existing e (Some dir) all user = Ok user'.
Proof.
  induction all as [|[k i] all IH]; intros user H; cbn [keep_existing]; [eauto|].
  destruct (H k i) as [name E]; [now left|]. rewrite E. cbn [rbind]. apply IH. intros. eapply H. right. eassumption.
Qed.

Lemma ls_spec e path ext l : ls e path ext = Ok l -> forall f, In f l -> exists dir name, path = Some dir /\ f = path_join dir name /\ ends_with ext name = true /\
  exists names, ck_listdir e path = Ok names /\ In name names.
Proof.
  unfold ls. destruct (ck_listdir e path) as [names|] eqn:E; [|discriminate]. cbn [rbind]. destruct path as [dir|].
  - intros H f Hf. injection H as <-. apply in_map_iff in Hf as [name [<- Hn]]. apply filter_In in Hn as [H1 H2].
    apply andb_prop in H2 as [_ H2]. exists dir, name. repeat split; auto. exists names. auto.
  - destruct (filter _ names); [|discriminate]. intros H f Hf. injection H as <-. contradiction.
Qed.
