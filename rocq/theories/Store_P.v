(** * Store_P: proofs about Store.v: configuration files *)
From Verif Require Import Base PyStr Writers Config Json Interp Store Spec_Store Base_P PyStr_P Config_P Config_P2 Json_P.
From Coq Require Import Permutation Lia.
Local Open Scope string_scope.

Lemma distinct_jwf j : distinct_keys j <-> jwf j.
Proof.
  induction j as [| | | |l IH|d IH] using json_ind2; try (split; [intros; exact I|constructor]).
  - rewrite jwf_arr. split.
    + inversion 1; subst. rewrite Forall_forall in *. intros x Hx. apply IH; auto.
    + intro H. constructor. rewrite Forall_forall in *. intros x Hx. apply IH; auto.
  - rewrite jwf_obj. split.
    + inversion 1; subst. split; [assumption|]. rewrite Forall_forall in *. intros x Hx. apply IH; auto.
    + intros [Hn H]. constructor; [assumption|]. rewrite Forall_forall in *. intros x Hx. apply IH; auto.
Qed.

Lemma jsame_jsort j : jwf j -> jsame j (jsort j).
Proof.
  induction j as [| | | |l IH|d IH] using json_ind2; intro Hw; try constructor.
  - apply jwf_arr in Hw. induction Hw; inversion IH; subst; constructor; auto.
  - apply jwf_obj in Hw as [_ Hw]. eapply same_obj; [|symmetry; apply sort_str_perm].
    induction Hw; inversion IH; subst; constructor; auto.
Qed.

Lemma jsort_idem j : jwf j -> jsort (jsort j) = jsort j.
Proof.
  induction j as [| | | |l IH|d IH] using json_ind2; intro Hw; try reflexivity.
  - apply jwf_arr in Hw. cbn [jsort]. f_equal. rewrite map_map. induction Hw; inversion IH; subst; cbn [map]; f_equal; auto.
  - apply jwf_obj in Hw as [Hn Hw]. cbn [jsort]. f_equal. set (f := fun kv : string * json => (fst kv, jsort (snd kv))).
    assert (E : map f (map f d) = map f d).
    { clear Hn. rewrite map_map. unfold f. induction Hw as [|[k v] d Hv Hd IHd]; inversion IH; subst; cbn [map fst snd] in *; f_equal; [f_equal; auto|auto]. }
    etransitivity; [|apply (f_equal (sort_str fst) E)].
    apply sort_str_canonical.
    + eapply Permutation_NoDup; [apply Permutation_map, Permutation_map; symmetry; apply sort_str_perm|].
      rewrite map_map. unfold f at 1. cbn [fst]. rewrite map_map. unfold f. cbn [fst]. exact Hn.
    + apply Permutation_map, sort_str_perm.
Qed.

Definition csame (a b : option json) : Prop := option_map jsort a = option_map jsort b.
Lemma csame_osame a b : (forall x, a = Some x -> jwf x) -> (forall x, b = Some x -> jwf x) -> csame a b -> osame a b.
Proof.
  unfold csame. destruct a as [x|], b as [y|]; cbn [option_map osame]; try discriminate; [|auto].
  intros Ha Hb H. injection H as H. exists (jsort x). split; [apply jsame_jsort, Ha; reflexivity|rewrite H; apply jsame_jsort, Hb; reflexivity].
Qed.

Lemma dget_map_jsort d k : dget String.eqb (map (fun kv => (fst kv, jsort (snd kv))) d) k = option_map jsort (dget String.eqb d k).
Proof. induction d as [|[k' v] d IH]; cbn [map dget fst snd]; [reflexivity|]. destruct (String.eqb k k'); [reflexivity|exact IH]. Qed.

Lemma dget_jwf d k v : jwf (JObj d) -> dget String.eqb d k = Some v -> jwf v.
Proof.
  intro H. apply jwf_obj in H as [_ H]. induction H as [|[k' v'] d Hv Hd IH]; cbn [dget]; [discriminate|].
  destruct (String.eqb k k'); [intro E; injection E as <-; exact Hv|exact IH].
Qed.

(** ** dump and load *)
Lemma dumped d : jwf (JObj d) -> d <> [] -> exists d', loads (conf_text (JObj d)) = Some (JObj d') /\ jwf (JObj d') /\ d' <> [] /\
  forall k, dget String.eqb d' k = option_map jsort (dget String.eqb d k).
Proof.
  intros Hw Hd. unfold conf_text. destruct d as [|kv d]; [congruence|]. cbn [jtruthy]. rewrite loads_dumps by exact Hw.
  set (dd := kv :: d) in *. cbn [jsort]. eexists. split; [reflexivity|]. split; [|split].
  - apply (jwf_jsort (JObj dd)), Hw.
  - intro E. apply (f_equal (@List.length _)) in E. rewrite (Permutation_length (sort_str_perm _ _)) in E. discriminate.
  - intro k. rewrite dget_sorted; [apply dget_map_jsort|]. unfold dkeys. rewrite map_map. cbn [fst].
    apply jwf_obj in Hw as [Hn _]. exact Hn.
Qed.

Lemma In_dkeys_dset {V} (d : list (string * V)) k v x : In x (dkeys (dset String.eqb d k v)) -> In x (dkeys d) \/ x = k.
Proof.
  induction d as [|[k' v'] d IH]; cbn; [intros [<-|[]]; auto|]. destruct (String.eqb k k'); cbn; intros [<-|H]; auto.
  destruct (IH H); auto.
Qed.
Lemma jwf_dset d k v : jwf (JObj d) -> jwf v -> jwf (JObj (dset String.eqb d k v)).
Proof.
  rewrite !jwf_obj. intros [Hn H] Hv. split; [apply (NoDup_dset String.eqb String_eqb_spec'), Hn|].
  clear Hn. induction H as [|[k' v'] d Hx Hd IH]; cbn [dset]; [repeat constructor; exact Hv|].
  destruct (String.eqb k k'); constructor; auto.
Qed.
Lemma jwf_ddel d k : jwf (JObj d) -> jwf (JObj (ddel String.eqb d k)).
Proof.
  rewrite !jwf_obj. intros [Hn H]. split; [apply NoDup_ddel, Hn|].
  clear Hn. induction H as [|[k' v'] d Hx Hd IH]; cbn [ddel]; [constructor|].
  destruct (String.eqb k k'); auto.
Qed.
Lemma dget_dset_s {V} (d : list (string * V)) k v k' : dget String.eqb (dset String.eqb d k v) k' = if String.eqb k k' then Some v else dget String.eqb d k'.
Proof.
  induction d as [|[k2 v2] d IH]; cbn [dset dget].
  - rewrite (String.eqb_sym k' k). reflexivity.
  - destruct (String.eqb_spec k k2) as [<-|Hn]; cbn [dget].
    + rewrite (String.eqb_sym k' k). destruct (String.eqb k k'); reflexivity.
    + rewrite IH. destruct (String.eqb_spec k' k2) as [->|]; [|reflexivity]. destruct (String.eqb_spec k k2); congruence.
Qed.
Lemma dget_ddel_s {V} (d : list (string * V)) k k' : NoDup (map fst d) -> dget String.eqb (ddel String.eqb d k) k' = if String.eqb k k' then None else dget String.eqb d k'.
Proof.
  induction d as [|[k2 v2] d IH]; cbn [ddel dget map fst]; intro Hn.
  - destruct (String.eqb k k'); reflexivity.
  - inversion Hn as [|? ? Hx Hd]; subst. destruct (String.eqb_spec k k2) as [<-|Hk]; cbn [dget].
    + rewrite (String.eqb_sym k' k). destruct (String.eqb_spec k k') as [->|]; [|reflexivity].
      clear -Hx. induction d as [|[a b] d IH]; cbn in *; [reflexivity|]. destruct (String.eqb_spec k' a) as [->|]; tauto.
    + rewrite IH by exact Hd. destruct (String.eqb_spec k' k2) as [->|]; [|reflexivity]. destruct (String.eqb_spec k k2); congruence.
Qed.

(** a dictionary in good order *)
Definition good (d : list (string * json)) : Prop := jwf (JObj d) /\ dget String.eqb d "description" <> None.
Lemma good_nonempty d : good d -> d <> [].
Proof. intros [_ H] ->. now apply H. Qed.
Lemma last_value_csame cs : forall a b k, csame a b -> csame (last_value a cs k) (last_value b cs k).
Proof.
  induction cs as [|[k' v|k'] cs IH]; intros a b k H; cbn [last_value]; [exact H| |]; apply IH; destruct (String.eqb k' k); auto; reflexivity.
Qed.
Lemma last_value_app cs : forall cs' a k, last_value a (cs ++ cs') k = last_value (last_value a cs k) cs' k.
Proof. induction cs as [|[k' v|k'] cs IH]; intros; cbn [last_value app]; auto. Qed.

Lemma change_good d c : good d -> ordinary c -> exists d', apply_change (JObj d) c = Ok (JObj d') /\ good d' /\
  forall k, dget String.eqb d' k = last_value (dget String.eqb d k) [c] k.
Proof.
  intros [Hw Hd] Hc. cbn [apply_change]. eexists. split; [reflexivity|]. destruct c as [k v|k]; cbn [ordinary last_value] in *.
  - destruct Hc as [Hk Hv]. apply distinct_jwf in Hv. split; [split; [now apply jwf_dset|]|].
    + rewrite dget_dset_s. destruct (String.eqb_spec k "description"); congruence.
    + intro k'. rewrite dget_dset_s. reflexivity.
  - assert (Hn : NoDup (map fst d)) by now apply jwf_obj in Hw as [Hn _]. split; [split; [now apply jwf_ddel|]|].
    + rewrite dget_ddel_s by exact Hn. destruct (String.eqb_spec k "description"); congruence.
    + intro k'. rewrite dget_ddel_s by exact Hn. reflexivity.
Qed.

Lemma dumped_good d : good d -> exists d', loads (conf_text (JObj d)) = Some (JObj d') /\ good d' /\
  forall k, csame (dget String.eqb d' k) (dget String.eqb d k).
Proof.
  intros [Hw Hd]. destruct (dumped d Hw) as [d' [H1 [H2 [H3 H4]]]].
  { intros ->. now apply Hd. }
  exists d'. split; [exact H1|]. split; [split; [exact H2|]|].
  - rewrite H4. destruct (dget String.eqb d "description"); [discriminate|congruence].
  - intro k. rewrite H4. unfold csame. destruct (dget String.eqb d k) as [v|] eqn:E; [|reflexivity]. cbn [option_map].
    f_equal. apply jsort_idem. exact (dget_jwf d k v Hw E).
Qed.

(** ** one process at a time *)
Definition whole_kill (kill : option (nat * stage)) : Prop :=
  match kill with Some (_, Written _) => False | _ => True end.
(** the file is absent and nothing was dumped, or it holds the changes [cs] *)
Definition fholds (init : list (string * json)) (file : option string) (cs : list change) : Prop :=
  match file with
  | None => cs = []
  | Some t => exists d, loads t = Some (JObj d) /\ good d /\
      forall k, csame (dget String.eqb d k) (last_value (dget String.eqb init k) cs k)
  end.

Lemma csame_trans a b c : csame a b -> csame b c -> csame a c.
Proof. unfold csame. congruence. Qed.

Lemma do_changes_inv init : forall cs file d kill done,
  good d -> Forall ordinary cs -> whole_kill kill -> fholds init file done -> file <> None ->
  (forall k, csame (dget String.eqb d k) (last_value (dget String.eqb init k) done k)) ->
  exists pre rest, cs = (pre ++ rest)%list /\ (kill = None -> rest = []) /\
    let file' := fst (do_changes file (JObj d) cs kill) in
    file' <> None /\ fholds init file' (done ++ pre).
Proof.
  induction cs as [|c cs IH]; intros file d kill done Hg Hc Hk Hf Hfile Hd.
  - exists [], []. split; [reflexivity|]. split; [reflexivity|]. cbn [do_changes fst]. rewrite List.app_nil_r. auto.
  - inversion Hc as [|? ? Hc1 Hcs]; subst. destruct (change_good d c Hg Hc1) as [d1 [E1 [G1 L1]]].
    cbn [do_changes]. rewrite E1.
    assert (D1 : forall k, csame (dget String.eqb d1 k) (last_value (dget String.eqb init k) (done ++ [c]) k)).
    { intro k. rewrite L1, last_value_app. apply last_value_csame, Hd. }
    assert (F1 : fholds init (Some (conf_text (JObj d1))) (done ++ [c])).
    { destruct (dumped_good d1 G1) as [d2 [R1 [R2 R3]]]. exists d2. split; [exact R1|]. split; [exact R2|].
      intro k. eapply csame_trans; [apply R3|apply D1]. }
    assert (Rec : forall kill', whole_kill kill' -> exists pre rest, cs = (pre ++ rest)%list /\ (kill' = None -> rest = []) /\
      let file' := fst (do_changes (Some (conf_text (JObj d1))) (JObj d1) cs kill') in
      file' <> None /\ fholds init file' ((done ++ [c]) ++ pre)).
    { intros kill' Hk'. apply IH; auto. discriminate. }
    destruct kill as [[[|i] st]|].
    + destruct st; [|contradiction]. exists [], (c :: cs). split; [reflexivity|]. split; [discriminate|].
      cbn [killed_dump fst]. rewrite List.app_nil_r. auto.
    + destruct (Rec (Some (i, st)) Hk) as [pre [rest [E [_ [H1 H2]]]]]. exists (c :: pre), rest.
      split; [cbn; congruence|]. split; [discriminate|]. rewrite <- List.app_assoc in H2. auto.
    + destruct (Rec None I) as [pre [rest [E [Hr [H1 H2]]]]]. exists (c :: pre), rest.
      split; [cbn; congruence|]. split; [auto|]. rewrite <- List.app_assoc in H2. auto.
Qed.

Lemma session_inv init cs file kill done : good init -> Forall ordinary cs -> whole_kill kill -> fholds init file done ->
  exists pre rest, cs = (pre ++ rest)%list /\ (kill = None -> rest = []) /\
    fholds init (fst (session (JObj init) file cs kill)) (done ++ pre) /\
    (file <> None \/ kill = None -> fst (session (JObj init) file cs kill) <> None).
Proof.
  intros Hi Hc Hk Hf. unfold session, conf_start. destruct file as [t|].
  - destruct Hf as [d [E [G L]]]. rewrite E. cbn [conf_load rbind vars_update].
    assert (Hf : fholds init (Some t) done) by (exists d; auto).
    destruct (do_changes_inv init cs (Some t) d kill done G Hc Hk Hf) as [pre [rest [E1 [E2 [E3 E4]]]]]; [discriminate|exact L|].
    exists pre, rest. auto.
  - cbn [fholds] in Hf. subst done.
    assert (F0 : fholds init (Some (conf_text (JObj init))) []).
    { destruct (dumped_good init Hi) as [d2 [R1 [R2 R3]]]. exists d2. auto. }
    assert (Rec : forall kill', whole_kill kill' -> exists pre rest, cs = (pre ++ rest)%list /\ (kill' = None -> rest = []) /\
      let file' := fst (do_changes (Some (conf_text (JObj init))) (JObj init) cs kill') in
      file' <> None /\ fholds init file' ([] ++ pre)).
    { intros kill' Hk'. apply do_changes_inv; auto; [discriminate|reflexivity]. }
    destruct kill as [[[|i] st]|].
    + destruct st; [|contradiction]. exists [], cs. cbn. repeat split; auto; [discriminate|]. intros [H|H]; congruence.
    + destruct (Rec (Some (i, st)) Hk) as [pre [rest [E1 [_ [E3 E4]]]]]. exists pre, rest. repeat split; auto. discriminate.
    + destruct (Rec None I) as [pre [rest [E1 [E2 [E3 E4]]]]]. exists pre, rest. repeat split; auto.
Qed.

Lemma sessions_inv init : good init -> forall h file done, Forall (fun s => Forall ordinary (fst s) /\ whole_kill (snd s)) h ->
  fholds init file done ->
  exists pres, Forall2 (fun s pre => exists rest, fst s = (pre ++ rest)%list /\ (snd s = None -> rest = [])) h pres /\
    fholds init (sessions (JObj init) file h) (done ++ List.concat pres).
Proof.
  intros Hi. induction h as [|[cs kill] h IH]; intros file done Hh Hf.
  - exists []. split; [constructor|]. cbn. rewrite List.app_nil_r. exact Hf.
  - inversion Hh as [|? ? [H1 H2] Hh']; subst. cbn [fst snd] in *.
    destruct (session_inv init cs file kill done Hi H1 H2 Hf) as [pre [rest [E1 [E2 [E3 _]]]]].
    destruct (IH (fst (session (JObj init) file cs kill)) (done ++ pre)%list Hh' E3) as [pres [P1 P2]].
    exists (pre :: pres). split; [constructor; [exists rest; auto|exact P1]|].
    unfold sessions in *. cbn [fold_left fst snd List.concat]. rewrite List.app_assoc. exact P2.
Qed.

(** *** killed while writing *)
Lemma stake_all_or_cut n s : (String.length s <= n)%nat \/ exists t, t <> "" /\ stake n s +++ t = s.
Proof.
  destruct (le_lt_dec (String.length s) n) as [H|H]; [now left|]. right. exists (sdrop n s). split; [|apply stake_sdrop].
  intro E. apply (f_equal String.length) in E. rewrite sdrop_length in E. cbn in E. lia.
Qed.
Lemma conf_text_cut d n : good d -> (String.length (conf_text (JObj d)) <= n)%nat \/ loads (stake n (conf_text (JObj d))) = None.
Proof.
  intro Hg. assert (Hne := good_nonempty d Hg). destruct Hg as [Hw _].
  destruct (stake_all_or_cut n (conf_text (JObj d))) as [H|[t [Ht E]]]; [now left|]. right.
  unfold conf_text in *. destruct d as [|kv d]; [congruence|]. cbn [jtruthy] in *.
  eapply (cut_unreadable (jsort (JObj (kv :: d)))); [apply jwf_jsort, Hw|reflexivity|exact E|exact Ht].
Qed.

Definition torn (file' : option string) (n : nat) : Prop :=
  exists d, good d /\ file' = Some (stake n (conf_text (JObj d))).
Lemma do_changes_torn : forall cs file d i n f, good d -> Forall ordinary cs ->
  do_changes file (JObj d) cs (Some (i, Written n)) = (f, Killed) -> torn f n.
Proof.
  induction cs as [|c cs IH]; intros file d i n f Hg Hc E; [discriminate|].
  inversion Hc as [|? ? Hc1 Hcs]; subst. destruct (change_good d c Hg Hc1) as [d1 [E1 [G1 L1]]].
  cbn [do_changes] in E. rewrite E1 in E. destruct i as [|i].
  - cbn [killed_dump] in E. exists d1. split; [exact G1|congruence].
  - eapply IH; eauto.
Qed.
Lemma session_torn init cs file i n f done : good init -> Forall ordinary cs -> fholds init file done ->
  session (JObj init) file cs (Some (i, Written n)) = (f, Killed) -> torn f n.
Proof.
  intros Hi Hc Hf. unfold session, conf_start. destruct file as [t|].
  - destruct Hf as [d [E [G L]]]. rewrite E. cbn [conf_load rbind vars_update]. intro H. eapply do_changes_torn; eauto.
  - destruct i as [|i]; intro H.
    + cbn [killed_dump] in H. exists init. split; [exact Hi|congruence].
    + eapply do_changes_torn; eauto.
Qed.

Lemma last_value_jwf cs k : Forall ordinary cs -> forall o, (forall x, o = Some x -> jwf x) -> forall x, last_value o cs k = Some x -> jwf x.
Proof.
  induction 1 as [|[k' v|k'] cs Hv Hc IH]; intros o Ho; cbn [last_value]; [exact Ho| |]; apply IH.
  - destruct (String.eqb k' k); [|exact Ho]. intros x E. injection E as <-. apply distinct_jwf, Hv.
  - destruct (String.eqb k' k); [discriminate|exact Ho].
Qed.
