(** * Reader_P2: handles (C59) and the messages of a file that are selected (C57). *)
From Verif Require Import Base Num PyStr Config Context Aggregator Reader Spec_Reader Base_P Num_P PyStr_P Context_P Reader_P.
From Coq Require Import Permutation.
Local Open Scope string_scope.

(** ** w' is w with the handles l opened *)
Definition opened (w w' : world) (l : list (Z * gmsg)) : Prop :=
  w_live w' = (w_live w ++ l)%list /\ w_bad w' = w_bad w /\ w_index w' = w_index w /\ w_files w' = w_files w /\
  (w_next w <= w_next w')%Z /\ Forall (fun gm => (w_next w <= fst gm < w_next w')%Z) l /\ NoDup (map fst l).

Lemma opened_refl w : opened w w [].
Proof. unfold opened. rewrite app_nil_r. repeat split; auto; try lia; constructor. Qed.

Lemma NoDup_app_intro {A} (l1 l2 : list A) : NoDup l1 -> NoDup l2 -> (forall x, In x l1 -> In x l2 -> False) -> NoDup (l1 ++ l2)%list.
Proof.
  induction 1 as [|a l1 Hn Hnd IH]; intros H2 Hd; [exact H2|]. cbn. constructor.
  - intro Hi. apply in_app_or in Hi as [Hi|Hi]; [now apply Hn|]. apply (Hd a); [now left|exact Hi].
  - apply IH; [exact H2|]. intros x H3 H4. apply (Hd x); [now right|exact H4].
Qed.

Lemma opened_trans w1 w2 w3 l1 l2 : opened w1 w2 l1 -> opened w2 w3 l2 -> opened w1 w3 (l1 ++ l2).
Proof.
  intros [A1 [A2 [A3 [A4 [A5 [A6 A7]]]]]] [B1 [B2 [B3 [B4 [B5 [B6 B7]]]]]]. unfold opened.
  rewrite B1, A1, app_assoc. repeat split; try congruence; try lia.
  - apply Forall_app. split; [eapply Forall_impl; [|exact A6]|eapply Forall_impl; [|exact B6]]; cbn; intros; lia.
  - rewrite map_app. apply NoDup_app_intro; [assumption..|]. intros x H1 H2.
    apply in_map_iff in H1 as [g1 [<- H1]]. apply in_map_iff in H2 as [g2 [E H2]].
    rewrite Forall_forall in A6, B6. specialize (A6 _ H1). specialize (B6 _ H2). rewrite E in B6. lia.
Qed.

Lemma opened_good w w' l : good_world w -> opened w w' l -> good_world w'.
Proof.
  intros [H1 H2] [A1 [A2 [A3 [A4 [A5 [A6 A7]]]]]]. split; rewrite A1.
  - rewrite map_app. apply NoDup_app_intro; [assumption..|]. intros x I1 I2.
    apply in_map_iff in I1 as [g1 [<- I1]]. apply in_map_iff in I2 as [g2 [E I2]].
    rewrite Forall_forall in A6, H2. specialize (H2 _ I1). specialize (A6 _ I2). rewrite E in A6. cbn in H2. lia.
  - apply Forall_app. split; [eapply Forall_impl; [|exact H2]; cbn; intros; lia|]. eapply Forall_impl; [|exact A6]; cbn; intros; lia.
Qed.

Lemma opened_one m w : opened w (snd (w_open m w)) [(fst (w_open m w), m)].
Proof. unfold opened, w_open. cbn. repeat split; auto; try lia; repeat constructor; cbn; auto; lia. Qed.

Lemma ddel_last {V} (l : list (Z * V)) g v : ~ In g (map fst l) -> ddel Z.eqb (l ++ [(g, v)])%list g = l.
Proof.
  induction l as [|[k x] l IH]; intro H; cbn; [now rewrite Z.eqb_refl|].
  cbn in H. destruct (Z.eqb_spec g k) as [E|E]; [exfalso; apply H; now left|]. rewrite IH; [reflexivity|]. intro Hi. apply H. now right.
Qed.
Lemma ddel_app_notin {V} (l l2 : list (Z * V)) g : ~ In g (map fst l) -> ddel Z.eqb (l ++ l2)%list g = (l ++ ddel Z.eqb l2 g)%list.
Proof.
  induction l as [|[k x] l IH]; intro H; [reflexivity|]. cbn. cbn in H.
  destruct (Z.eqb_spec g k) as [E|E]; [exfalso; apply H; now left|]. rewrite IH; [reflexivity|]. intro Hi. apply H. now right.
Qed.

Lemma good_fresh w : good_world w -> ~ In (w_next w) (map fst (w_live w)).
Proof. intros [_ H] Hi. apply in_map_iff in Hi as [gm [E Hi]]. rewrite Forall_forall in H. specialize (H _ Hi). cbn in H. lia. Qed.

Lemma open_then_release m w : good_world w -> opened w (w_release (fst (w_open m w)) (snd (w_open m w))) [].
Proof.
  intro Hw. pose proof (good_fresh w Hw) as Hf. unfold w_release. cbn [w_open fst snd w_live].
  assert (Hm : dmem Z.eqb (w_live w ++ [(w_next w, m)])%list (w_next w) = true).
  { unfold dmem. destruct (dget Z.eqb _ _) eqn:E; [reflexivity|]. exfalso.
    apply (dget_None Z.eqb Zeqb_spec') in E. apply E. unfold dkeys. rewrite map_app. apply in_or_app. right. now left. }
  rewrite Hm. unfold opened. cbn [w_live w_bad w_index w_files w_next]. rewrite ddel_last by exact Hf. rewrite app_nil_r.
  repeat split; auto; try lia; constructor.
Qed.

(** ** scan *)
Lemma scan_ok sel ms : forall w gs rest w', good_world w -> scan sel ms w = (Ok gs, rest, w') ->
  rest = [] /\ List.length gs = List.length (filter (accepted sel) ms) /\
  opened w w' (combine gs (filter (accepted sel) ms)) /\ (forall m, In m ms -> exists b, find (gm_keys m) sel = Ok b).
Proof.
  induction ms as [|m ms IH]; intros w gs rest w' Hw H.
  - cbn in H. injection H as <- <- <-. cbn. split; [reflexivity|]. split; [reflexivity|]. split; [apply opened_refl|]. intros m [].
  - cbn [scan] in H. destruct (w_open m w) as [g w1] eqn:Eo.
    pose proof (opened_one m w) as Ho. rewrite Eo in Ho. cbn [fst snd] in Ho.
    cbn [filter]. destruct (find (gm_keys m) sel) as [b|e] eqn:Ef; [|discriminate].
    assert (Ea : accepted sel m = b) by (unfold accepted; now rewrite Ef). rewrite Ea. destruct b.
    + destruct (scan sel ms w1) as [[[gs1|e1] rest1] w2] eqn:Es; [|discriminate]. injection H as <- <- <-.
      destruct (IH w1 gs1 rest1 w2 (opened_good _ _ _ Hw Ho) Es) as [Hr [Hl [Hop Hall]]]. split; [exact Hr|]. split; [cbn; now rewrite Hl|].
      split; [exact (opened_trans _ _ _ _ _ Ho Hop)|]. intros m' [<-|Hin]; eauto.
    + pose proof (open_then_release m w Hw) as Hr1. rewrite Eo in Hr1. cbn [fst snd] in Hr1.
      destruct (IH _ _ _ _ (opened_good _ _ _ Hw Hr1) H) as [Hr [Hl [Hop Hall]]]. split; [exact Hr|]. split; [exact Hl|].
      split; [exact (opened_trans _ _ _ _ _ Hr1 Hop)|]. intros m' [<-|Hin]; eauto.
Qed.

Lemma scan_raise sel ms : forall w e rest w', good_world w -> scan sel ms w = (Raise e, rest, w') ->
  e = TypeError /\ exists l, opened w w' l.
Proof.
  assert (Hf : forall k sel e, find k sel = Raise e -> e = TypeError).
  { clear. intros k sel. induction sel as [|[k' s] sel IH]; intros e; cbn [find]; [discriminate|].
    destruct (dget String.eqb k k') as [v|]; [|discriminate].
    destruct (sel_match s v) as [b|e'] eqn:E; cbn [rbind]; [destruct b; [apply IH|discriminate]|].
    destruct s; cbn in E; try discriminate. destruct v; congruence. }
  induction ms as [|m ms IH]; intros w e rest w' Hw H; [discriminate|].
  cbn [scan] in H. destruct (w_open m w) as [g w1] eqn:Eo.
  pose proof (opened_one m w) as Ho. rewrite Eo in Ho. cbn [fst snd] in Ho.
  destruct (find (gm_keys m) sel) as [[]|e1] eqn:Ef.
  - destruct (scan sel ms w1) as [[[gs1|e1] rest1] w2] eqn:Es; [discriminate|]. injection H as <- <- <-.
    destruct (IH w1 e1 rest1 w2 (opened_good _ _ _ Hw Ho) Es) as [He [l Hop]]. split; [exact He|]. eexists. exact (opened_trans _ _ _ _ _ Ho Hop).
  - pose proof (open_then_release m w Hw) as Hr1. rewrite Eo in Hr1. cbn [fst snd] in Hr1.
    destruct (IH _ _ _ _ (opened_good _ _ _ Hw Hr1) H) as [He [l Hop]]. split; [exact He|]. eexists. exact (opened_trans _ _ _ _ _ Hr1 Hop).
  - injection H as <- <- <-. split; [eapply Hf; exact Ef|eauto].
Qed.

(** exceptions of a scan *)
Definition bad_scan (e : exn) : Prop := e = TypeError \/ e = OtherError \/ e = KeyError.
Definition scan_exn (e : exn) : Prop := e = ValueError \/ bad_scan e.

(** ** names of the index *)
Lemma combine_app {A B} (a1 a2 : list A) (b1 b2 : list B) : List.length a1 = List.length b1 ->
  combine (a1 ++ a2)%list (b1 ++ b2)%list = (combine a1 b1 ++ combine a2 b2)%list.
Proof. revert b1. induction a1; intros [|] H; cbn in *; try discriminate; [reflexivity|]. rewrite IHa1 by lia. reflexivity. Qed.

(** the messages the index yields for these names, filtered *)
Definition by_names (sel : selection) (p : option Z) (names : list string) (ms : list gmsg) : list gmsg :=
  flat_map (fun s => filter (accepted sel) (filter (in_index s p) ms)) names.

Lemma scan_names_ok sel wp ms names : forall w gs w', good_world w -> scan_names sel wp ms names w = (Ok gs, w') ->
  exists snames p, mapM jstr names = Ok snames /\ (names <> [] -> sel_pert sel = Ok p) /\
    List.length gs = List.length (by_names sel p snames ms) /\ opened w w' (combine gs (by_names sel p snames ms)).
Proof.
  induction names as [|v names IH]; intros w gs w' Hw H.
  - injection H as <- <-. exists [], None. cbn. split; [reflexivity|]. split; [contradiction|]. split; [reflexivity|apply opened_refl].
  - cbn [scan_names] in H. destruct (jstr v) as [s|e] eqn:Ev; cbn [rbind] in H; [|discriminate].
    destruct (sel_pert sel) as [p|e] eqn:Ep; cbn [rbind] in H; [|discriminate].
    assert (H' : match scan sel (filter (in_index s p) ms) w with
          | (Raise e, _, w) => (Raise e, w)
          | (Ok gs, _, w) => match scan_names sel wp ms names w with (Ok gs', w) => (Ok (gs ++ gs')%list, w) | x => x end
          end = (Ok gs, w')) by (destruct p; [destruct wp; [exact H|discriminate]|exact H]).
    clear H. destruct (scan sel (filter (in_index s p) ms) w) as [[[g1|e] r1] w1] eqn:Es; [|discriminate].
    destruct (scan_ok _ _ _ _ _ _ Hw Es) as [_ [Hl1 [Ho1 _]]].
    destruct (scan_names sel wp ms names w1) as [[g2|e] w2] eqn:Es2; [|discriminate]. injection H' as <- <-.
    destruct (IH _ _ _ (opened_good _ _ _ Hw Ho1) Es2) as [snames [p' [Hs [Hp [Hl2 Ho2]]]]].
    exists (s :: snames), p. cbn [mapM]. rewrite Ev. cbn [rbind]. rewrite Hs. cbn [rbind]. split; [reflexivity|]. split; [auto|].
    assert (Hb : by_names sel p snames ms = by_names sel p' snames ms).
    { destruct names as [|v2 names]; [cbn in Hs; injection Hs as <-; reflexivity|]. specialize (Hp ltac:(discriminate)). congruence. }
    unfold by_names in *. cbn [flat_map]. rewrite Hb. rewrite !app_length, Hl1, Hl2. split; [reflexivity|].
    rewrite combine_app by exact Hl1. exact (opened_trans _ _ _ _ _ Ho1 Ho2).
Qed.

Lemma jint_exn v e : jint v = Raise e -> e = ValueError \/ e = TypeError.
Proof. destruct v; cbn; try discriminate; try (intro H; injection H as <-; auto). destruct (Z_of_str _); [discriminate|]. intro H. injection H as <-. auto. Qed.

Lemma scan_names_raise sel wp ms names : forall w e w', good_world w -> scan_names sel wp ms names w = (Raise e, w') ->
  (exists l, opened w w' l) /\ (e = ValueError -> w' = w /\ sel_pert sel = Raise ValueError) /\ scan_exn e.
Proof.
  assert (Hsp : forall e, sel_pert sel = Raise e -> scan_exn e).
  { intros c H. unfold sel_pert in H. destruct (dget String.eqb sel "perturbationNumber") as [[v| |]|]; try discriminate; try (injection H as <-; unfold scan_exn, bad_scan; auto).
    destruct (jeq v (JNum (-1))); [discriminate|]. destruct (jint v) as [z|e] eqn:E; [discriminate|]. cbn in H. injection H as ->. unfold scan_exn, bad_scan. destruct (jint_exn _ _ E); auto. }
  induction names as [|v names IH]; intros w e w' Hw H; [discriminate|].
  cbn [scan_names] in H. destruct (jstr v) as [s|e1] eqn:Ev; cbn [rbind] in H.
  2:{ injection H as <- <-. split; [eexists; apply opened_refl|]. split; [intros ->; destruct v; discriminate|]. unfold scan_exn, bad_scan. destruct v; cbn in Ev; try discriminate; injection Ev as <-; auto. }
  destruct (sel_pert sel) as [p|e1] eqn:Ep; cbn [rbind] in H.
  2:{ injection H as <- <-. split; [eexists; apply opened_refl|]. split; [intros ->; auto|]. now apply Hsp. }
  destruct (match p with Some _ => if wp then Ok (s, p) else Raise OtherError | None => Ok (s, p) end) as [[s0 p0]|e1] eqn:E0.
  2:{ injection H as <- <-. split; [eexists; apply opened_refl|]. split; [intros ->; destruct p; [destruct wp|]; discriminate|]. unfold scan_exn, bad_scan. destruct p; [destruct wp|]; try discriminate. injection E0 as <-. auto. }
  destruct (scan sel (filter (in_index s0 p0) ms) w) as [[[g1|e1] r1] w1] eqn:Es.
  - destruct (scan_ok _ _ _ _ _ _ Hw Es) as [_ [_ [Ho1 _]]].
    destruct (scan_names sel wp ms names w1) as [[g2|e2] w2] eqn:Es2; [discriminate|]. injection H as <- <-.
    destruct (IH _ _ _ (opened_good _ _ _ Hw Ho1) Es2) as [[l Hl] [Hv Hc]]. split; [eexists; exact (opened_trans _ _ _ _ _ Ho1 Hl)|].
    split; [|exact Hc]. intro He. destruct (Hv He) as [_ Hp]. congruence.
  - injection H as <- <-. destruct (scan_raise _ _ _ _ _ _ Hw Es) as [-> Hl]. split; [exact Hl|]. split; [discriminate|]. unfold scan_exn, bad_scan. auto.
Qed.

(** ** scan_grib and get_gids *)
(** the messages a scan of the reader goes through and keeps *)
Definition kept (sel : selection) (r : reader) (ms : list gmsg) : Prop :=
  match r_index r, r_file r with
  | Some _, _ => exists names snames p, sel_names sel = Ok names /\ mapM jstr names = Ok snames /\ (names <> [] -> sel_pert sel = Ok p) /\
                 ms = by_names sel p snames (r_msgs r)
  | None, Some file => ms = filter (accepted sel) file
  | None, None => ms = []
  end.
(** the reader after scanning *)
Definition scanned (r r' : reader) : Prop :=
  r_sel r' = r_sel r /\ r_step r' = r_step r /\ r_step2 r' = r_step2 r /\ r_change r' = r_change r /\ r_main r' = r_main r /\
  r_ext r' = r_ext r /\ r_index r' = r_index r /\ r_msgs r' = r_msgs r /\
  (r_index r <> None -> r_file r' = r_file r) /\ (r_file r' = None <-> r_file r = None).
Lemma scanned_refl r : scanned r r.
Proof. unfold scanned. intuition. Qed.
Lemma scanned_trans r1 r2 r3 : scanned r1 r2 -> scanned r2 r3 -> scanned r1 r3.
Proof.
  unfold scanned. intros [A1 [A2 [A3 [A4 [A5 [A6 [A7 [A8 [A9 A10]]]]]]]]] [B1 [B2 [B3 [B4 [B5 [B6 [B7 [B8 [B9 B10]]]]]]]]].
  repeat split; try congruence.
  - intro H. rewrite B9, A9; auto. congruence.
  - intro H. apply A10, B10, H.
  - intro H. apply B10, A10, H.
Qed.
Lemma scanned_set_file r f : r_index r = None -> r_file r <> None -> scanned r (set_file r (Some f)).
Proof. intros H1 H2. unfold scanned, set_file; cbn. repeat split; auto; try congruence; intro; congruence. Qed.

Lemma scan_grib_spec sel r w x r' w' : good_world w -> scan_grib sel r w = (x, (r', w')) ->
  scanned r r' /\
  match x with
  | Ok gs => exists ms, kept sel r ms /\ List.length gs = List.length ms /\ opened w w' (combine gs ms) /\
             (r_index r = None -> r_file r' <> None -> r_file r' = Some [])
  | Raise e => (exists l, opened w w' l) /\ (e = ValueError -> opened w w' []) /\
               scan_exn e
  end.
Proof.
  intros Hw H. unfold scan_grib in H.
  destruct (sel_names sel) as [names|e] eqn:En.
  2:{ injection H as <- <- <-. split; [apply scanned_refl|]. split; [eexists; apply opened_refl|]. split; [intros _; apply opened_refl|]. unfold scan_exn, bad_scan. unfold sel_names in En. destruct (dget String.eqb sel "shortName") as [[]|]; try discriminate; injection En as <-; auto. }
  unfold kept. destruct (r_index r) as [wp|] eqn:Ei; [|destruct (r_file r) as [file|] eqn:Ef].
  - destruct (scan_names sel wp (r_msgs r) names w) as [y w1] eqn:Es. injection H as <- <- <-. split; [apply scanned_refl|].
    destruct y as [gs|e].
    + destruct (scan_names_ok _ _ _ _ _ _ _ Hw Es) as [sn [p [H1 [H2 [H3 H4]]]]]. eexists. split; [exists names, sn, p; eauto|]. split; [exact H3|]. split; [exact H4|]. discriminate.
    + destruct (scan_names_raise _ _ _ _ _ _ _ Hw Es) as [H1 [H2 H3]]. split; [exact H1|]. split; [intro He; destruct (H2 He) as [-> _]; apply opened_refl|]. exact H3.
  - destruct (scan sel file w) as [[y rest] w1] eqn:Es. injection H as <- <- <-.
    split; [apply scanned_set_file; [exact Ei|congruence]|].
    destruct y as [gs|e].
    + destruct (scan_ok _ _ _ _ _ _ Hw Es) as [-> [H1 [H2 _]]]. eexists. split; [reflexivity|]. split; [exact H1|]. split; [exact H2|]. intros _ _. reflexivity.
    + destruct (scan_raise _ _ _ _ _ _ Hw Es) as [-> [l Hl]]. split; [eauto|]. split; [discriminate|]. unfold scan_exn, bad_scan. auto.
  - injection H as <- <- <-. split; [apply scanned_refl|]. exists []. split; [reflexivity|]. split; [reflexivity|]. split; [apply opened_refl|]. intros _ Hc. contradiction.
Qed.

Lemma get_gids_spec sel r w x r' w' : good_world w -> get_gids sel r w = (x, (r', w')) ->
  scanned r r' /\
  match x with
  | Ok gs => exists ms, List.length gs = List.length ms /\ opened w w' (combine gs ms) /\
             (kept sel r ms /\ (ms <> [] \/ retry_sel sel = None) \/
              (kept sel r [] /\ exists sel' r1, retry_sel sel = Some sel' /\ kept sel' r1 ms /\ scanned r r1 /\ (r_index r = None -> r_file r1 <> None -> r_file r1 = Some [])))
  | Raise e => (exists l, opened w w' l) /\ (e = AppExc 3000 -> opened w w' []) /\ (e = AppExc 3000 \/ bad_scan e)
  end.
Proof.
  intros Hw H. unfold get_gids in H.
  destruct (scan_grib sel r w) as [y [r1 w1]] eqn:Es.
  destruct (scan_grib_spec _ _ _ _ _ _ Hw Es) as [Hsc Hy].
  destruct y as [gs|e].
  - destruct Hy as [ms [Hk [Hl [Ho Hf]]]]. destruct gs as [|g gs].
    + assert (ms = []) by (destruct ms; [reflexivity|discriminate]). subst ms. cbn in Ho.
      destruct (retry_sel sel) as [sel'|] eqn:Er.
      * destruct (scan_grib sel' r1 w1) as [z rw] eqn:Es2. injection H as <- ->.
        destruct (scan_grib_spec _ _ _ _ _ _ (opened_good _ _ _ Hw Ho) Es2) as [Hsc2 Hz].
        split; [exact (scanned_trans _ _ _ Hsc Hsc2)|].
        destruct z as [gs2|e].
        -- cbn [no_value_error]. destruct Hz as [ms2 [Hk2 [Hl2 [Ho2 _]]]]. exists ms2. split; [exact Hl2|]. split; [exact (opened_trans _ _ _ _ _ Ho Ho2)|].
           right. split; [exact Hk|]. exists sel', r1. auto.
        -- destruct Hz as [[l Hz] [Hz2 Hz3]]. unfold bad_scan.
           destruct Hz3 as [->|[->|[->| ->]]]; cbn [no_value_error]; (split; [eexists; exact (opened_trans _ _ _ _ _ Ho Hz)|]); (split; [try discriminate|auto]).
           intros _. exact (opened_trans _ _ _ _ _ Ho (Hz2 eq_refl)).
      * injection H as <- <- <-. split; [exact Hsc|]. exists []. split; [reflexivity|]. split; [exact Ho|]. left. auto.
    + injection H as <- <- <-. split; [exact Hsc|]. exists ms. split; [exact Hl|]. split; [exact Ho|]. left. split; [exact Hk|]. left. destruct ms; discriminate.
  - injection H as <- <- <-. split; [exact Hsc|]. destruct Hy as [[l Hl] [Hv Hn]].
    unfold bad_scan. destruct Hn as [->|[->|[->| ->]]]; cbn [no_value_error]; (split; [eauto|]); (split; [try discriminate|auto]).
    intros _; exact (Hv eq_refl).
Qed.

(** ** reading and releasing *)
Lemma derefs_ok w l : Forall (fun gm => dget Z.eqb (w_live w) (fst gm) = Some (snd gm)) l -> w_derefs (map fst l) w = (Ok l, w).
Proof.
  induction 1 as [|[g m] l Hg H IH]; [reflexivity|]. cbn [map fst w_derefs]. unfold w_deref. cbn [fst snd] in Hg. rewrite Hg, IH. reflexivity.
Qed.
Lemma good_dget w g m : good_world w -> In (g, m) (w_live w) -> dget Z.eqb (w_live w) g = Some m.
Proof. intros [H _] Hi. now apply (In_dget Z.eqb Zeqb_spec'). Qed.
Lemma map_fst_combine {A B} (a : list A) (b : list B) : List.length a = List.length b -> map fst (combine a b) = a.
Proof. revert b. induction a; intros [|] H; cbn in *; try discriminate; [reflexivity|]. f_equal. apply IHa. lia. Qed.
Lemma map_snd_combine {A B} (a : list A) (b : list B) : List.length a = List.length b -> map snd (combine a b) = b.
Proof. revert b. induction a; intros [|] H; cbn in *; try discriminate; [reflexivity|]. f_equal. apply IHa. lia. Qed.

Lemma opened_derefs w w' gs ms : good_world w -> List.length gs = List.length ms -> opened w w' (combine gs ms) ->
  w_derefs gs w' = (Ok (combine gs ms), w').
Proof.
  intros Hw Hl Ho. rewrite <- (map_fst_combine gs ms Hl) at 1. apply derefs_ok. apply Forall_forall. intros [g m] Hi. cbn.
  apply good_dget; [exact (opened_good _ _ _ Hw Ho)|]. destruct Ho as [-> _]. apply in_or_app. now right.
Qed.

Definition without (gs : list Z) (l : list (Z * gmsg)) : list (Z * gmsg) := filter (fun gm => negb (zmem (fst gm) gs)) l.
Lemma ddel_filter (l : list (Z * gmsg)) g : NoDup (map fst l) -> ddel Z.eqb l g = without [g] l.
Proof.
  induction l as [|[k x] l IH]; intro H; [reflexivity|]. cbn [map fst] in H. inversion H as [|? ? H1 H2]; subst. unfold without in *. cbn [ddel filter fst zmem existsb].
  rewrite Bool.orb_false_r. rewrite (Z.eqb_sym k g). destruct (Z.eqb_spec g k) as [E|E]; cbn [negb].
  - subst k. symmetry. clear IH H. induction l as [|[k2 x2] l IH]; [reflexivity|]. cbn in H1. cbn [filter fst zmem existsb]. rewrite Bool.orb_false_r.
    destruct (Z.eqb_spec k2 g) as [E|E]; [exfalso; apply H1; now left|]. cbn [negb]. f_equal. apply IH; [intro; apply H1; now right|]. now inversion H2.
  - f_equal. apply IH. exact H2.
Qed.
Lemma without_without gs1 gs2 l : without gs2 (without gs1 l) = without (gs1 ++ gs2) l.
Proof.
  unfold without. induction l as [|gm l IH]; [reflexivity|]. cbn [filter]. unfold zmem in *. rewrite existsb_app.
  destruct (existsb (Z.eqb (fst gm)) gs1) eqn:E1; cbn [negb orb filter]; [exact IH|]. destruct (existsb (Z.eqb (fst gm)) gs2); cbn [negb]; [exact IH|now rewrite IH].
Qed.
Lemma without_keys gs l g : In g (map fst (without gs l)) <-> In g (map fst l) /\ ~ In g gs.
Proof.
  unfold without. rewrite !in_map_iff. split.
  - intros [gm [<- H]]. apply filter_In in H as [H1 H2]. split; [eauto|]. intro Hi. apply zmem_In in Hi. rewrite Hi in H2. discriminate.
  - intros [[gm [<- H]] Hn]. exists gm. split; [reflexivity|]. apply filter_In. split; [exact H|]. apply zmem_nIn in Hn. now rewrite Hn.
Qed.
Lemma NoDup_without gs l : NoDup (map fst l) -> NoDup (map fst (without gs l)).
Proof.
  unfold without. induction l as [|gm l IH]; intro H; [constructor|]. cbn [map fst] in H. inversion H as [|? ? H1 H2]; subst. cbn [filter].
  destruct (negb _); [|now apply IH]. cbn [map]. constructor; [|now apply IH]. intro Hi. apply H1. apply in_map_iff in Hi as [x [E Hi]]. apply filter_In in Hi as [Hi _]. apply in_map_iff. eauto.
Qed.
Lemma Forall_without (P : Z * gmsg -> Prop) gs l : Forall P l -> Forall P (without gs l).
Proof. rewrite !Forall_forall. intros H x Hx. apply filter_In in Hx as [Hx _]. auto. Qed.

Lemma releases_ok gs : forall w, good_world w -> NoDup gs -> (forall g, In g gs -> In g (map fst (w_live w))) ->
  let w' := w_releases gs w in
  w_live w' = without gs (w_live w) /\ w_bad w' = w_bad w /\ w_index w' = w_index w /\ w_files w' = w_files w /\ w_next w' = w_next w /\ good_world w'.
Proof.
  induction gs as [|g gs IH]; intros w Hw Hnd Hin.
  - cbn. repeat split; auto; try apply Hw. unfold without. cbn. symmetry. clear. induction (w_live w) as [|x l IH]; [reflexivity|cbn; now rewrite IH].
  - inversion Hnd as [|? ? Hn Hnd2]; subst. cbn [w_releases fold_left]. fold (w_releases gs (w_release g w)).
    assert (Hr : w_release g w = mkWorld (w_next w) (without [g] (w_live w)) (w_bad w) (w_index w) (w_files w)).
    { unfold w_release. assert (Hm : dmem Z.eqb (w_live w) g = true) by (apply (dmem_In Z.eqb Zeqb_spec'); apply Hin; now left).
      rewrite Hm. rewrite ddel_filter by apply Hw. reflexivity. }
    assert (Hg : good_world (w_release g w)).
    { rewrite Hr. destruct Hw as [Hw1 Hw2]. split; cbn; [now apply NoDup_without|now apply Forall_without]. }
    destruct (IH (w_release g w) Hg Hnd2) as [A [B [C [D [E F]]]]].
    + intros g' Hg'. rewrite Hr. cbn. apply without_keys. split; [apply Hin; now right|]. intros [->|[]]. contradiction.
    + rewrite A, B, C, D, E. rewrite Hr. cbn [w_live w_bad w_index w_files w_next]. rewrite without_without. cbn [List.app]. rewrite Hr in F. repeat split; auto; apply F.
Qed.

Lemma without_none gs L : (forall g, In g (map fst L) -> ~ In g gs) -> without gs L = L.
Proof.
  unfold without. induction L as [|x L IH]; intro H; [reflexivity|]. cbn [filter].
  assert (E : zmem (fst x) gs = false) by (apply zmem_nIn; apply H; now left). rewrite E. cbn [negb]. rewrite IH; [reflexivity|]. intros g Hg. apply H. now right.
Qed.
Lemma without_all gs l : (forall g, In g (map fst l) -> In g gs) -> without gs l = [].
Proof.
  unfold without. induction l as [|x L IH]; intro H; [reflexivity|]. cbn [filter].
  assert (E : zmem (fst x) gs = true) by (apply zmem_In; apply H; now left). rewrite E. cbn [negb]. apply IH. intros g Hg. apply H. now right.
Qed.
Lemma NoDup_app_disj {A} (l1 l2 : list A) x : NoDup (l1 ++ l2)%list -> In x l1 -> In x l2 -> False.
Proof.
  induction l1 as [|a l1 IH]; intros H H1 H2; [exact H1|]. cbn in H. inversion H as [|? ? Hn Hnd]; subst.
  destruct H1 as [->|H1]; [apply Hn; apply in_or_app; now right|]. now apply IH.
Qed.
Lemma without_app L l : NoDup (map fst (L ++ l)%list) -> without (map fst l) (L ++ l)%list = L.
Proof.
  intro H. unfold without at 1. rewrite filter_app. fold (without (map fst l) L) (without (map fst l) l).
  rewrite without_none, without_all, app_nil_r; auto. intros g H1 H2. rewrite map_app in H. exact (NoDup_app_disj _ _ _ H H1 H2).
Qed.
