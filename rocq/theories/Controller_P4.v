(** * Controller_P4: everything is released after an execution (C28) *)
From Verif Require Import Base Num PyStr Strings Config Context Aggregator Converter Reader Controller Spec_Controller Spec_Reader Base_P Reader_P Reader_P2 Reader_P3 Controller_P3.
From Coq Require Import Permutation.
Local Open Scope Z_scope.

Lemma rbind_raise {A B} (x : res A) (k : A -> res B) e : rbind x k = Raise e -> x = Raise e \/ exists a, x = Ok a /\ k a = Raise e.
Proof. destruct x as [a|e0]; cbn; intro H; [right; eauto|left; congruence]. Qed.

Lemma info_of_noapp ms c : ms <> [] -> info_of ms <> Raise (AppExc c).
Proof.
  intros Hne Ei. unfold info_of in Ei. destruct ms as [|[g0 m0] rest]; [congruence|].
  unfold kstr, kdbl, kint in Ei.
  apply rbind_raise in Ei as [Ei|[t [_ Ei]]]; [destruct (dget String.eqb _ _) as [[]|]; discriminate|].
  apply rbind_raise in Ei as [Ei|[mv [_ Ei]]]; [destruct (dget String.eqb _ _); discriminate|].
  apply rbind_raise in Ei as [Ei|[ps [Hps Ei]]].
  - set (l := (g0, m0) :: rest) in Ei. clearbody l. induction l as [|gm l IH]; [discriminate|]. cbn [mapM] in Ei.
    apply rbind_raise in Ei as [Ei|[a [_ Ei]]].
    + apply rbind_raise in Ei as [Ei|[a [_ Ei]]]; [destruct (dget String.eqb _ _) as [[]|]; discriminate|].
      apply rbind_raise in Ei as [Ei|[b [_ Ei]]]; [destruct (dget String.eqb _ _) as [[]|]; discriminate|discriminate].
    + apply rbind_raise in Ei as [Ei|[b [_ Ei]]]; [now apply IH|discriminate].
  - apply rbind_raise in Ei as [Ei|[inf [_ Ei]]]; [|discriminate]. unfold find_steps in Ei.
    apply rbind_raise in Ei as [Ei|[s [_ Ei]]]; [unfold zmin_list in Ei; destruct (map fst ps); discriminate|].
    apply rbind_raise in Ei as [Ei|[e [_ Ei]]]; [unfold zmax_list in Ei; destruct (map snd ps); discriminate|].
    destruct (1 <? _)%nat; [|discriminate]. destruct (fold_left _ _ _); discriminate.
Qed.

(** an application error of an information request is the one for no message *)
Lemma info_app sel r w c r' w' : good_world w -> get_grib_info sel r w = (Raise (AppExc c), (r', w')) -> c = 3000.
Proof.
  intros Hg H. unfold get_grib_info in H. destruct (get_gids sel r w) as [y [r1 w1]] eqn:Eg.
  destruct (get_gids_spec _ _ _ _ _ _ Hg Eg) as [Hsc Hy]. destruct y as [gs|e].
  - destruct Hy as [ms [Hlen [Ho _]]]. destruct gs as [|g gs]; [congruence|].
    rewrite (opened_derefs _ _ _ _ Hg Hlen Ho) in H.
    destruct (info_of (combine (g :: gs) ms)) as [[[inf t] mv]|e] eqn:Ei; [discriminate|]. injection H as -> _ _. exfalso. refine (info_of_noapp _ _ _ Ei). destruct ms; discriminate.
  - destruct Hy as [_ [_ Hc]]. injection H as -> _ _. destruct Hc as [Hc|[Hc|[Hc|Hc]]]; congruence.
Qed.

(** invariant of an execution that started in the world [w0] *)
Definition sinv (w0 : world) (s : cst) : Prop :=
  (exists w1, c_w s = w1 /\ c_r1 s = None /\ c_r2 s = None /\ good_world w1 /\ w_live w1 = w_live w0 /\ w_bad w1 = w_bad w0 /\ w_index w1 = w_index w0 /\ w_files w1 = w_files w0) \/
  (exists r l, c_r1 s = Some r /\ c_r2 s = None /\ rinv (w_live w0) (w_bad w0) (w_index w0) (w_files w0) r (c_w s) l) \/
  (exists r1 r2 l1 l2, c_r1 s = Some r1 /\ c_r2 s = Some r2 /\ r_sel r1 = Some (map fst l1) /\
     (forall g, r_main r1 = Some g \/ r_ext r1 = Some g -> In g (map fst (l1 ++ l2)%list)) /\
     rinv (w_live w0 ++ l1) (w_bad w0) (w_index w0 + (if r_index r1 then 1 else 0))%nat (w_files w0 + (if r_file r1 then 1 else 0))%nat r2 (c_w s) l2).

Definition app_outcome {A} (r : res A) : Prop := match r with Ok _ | Raise (AppExc _) => True | _ => False end.

Lemma without_middle L l1 l2 : NoDup (map fst (L ++ l1 ++ l2)%list) -> without (map fst l1) (L ++ l1 ++ l2)%list = (L ++ l2)%list.
Proof.
  intro H. unfold without at 1. rewrite !filter_app. fold (without (map fst l1) L) (without (map fst l1) l1) (without (map fst l1) l2).
  rewrite !map_app in H. rewrite without_none, without_all, without_none; auto.
  - intros g H1 H2. apply NoDup_app_r in H. exact (NoDup_app_disj _ _ _ H H2 H1).
  - intros g H1 H2. apply (NoDup_app_disj _ _ g H H1). apply in_or_app. now left.
Qed.

(** closing after [sinv]: the world is back as it was *)
Lemma sinv_close w0 s : sinv w0 s ->
  exists s', c_w s' = (let w := match c_r1 s with Some r => snd (snd (close r (c_w s))) | None => c_w s end in
            match c_r2 s with Some r => snd (snd (close r w)) | None => w end) /\
  w_live (c_w s') = w_live w0 /\ w_bad (c_w s') = w_bad w0 /\ w_index (c_w s') = w_index w0 /\ w_files (c_w s') = w_files w0.
Proof.
  intro H. eexists (mkCst None None None false [] _). cbn [c_w]. split; [reflexivity|].
  destruct H as [[w1 [Ew [E1 [E2 H]]]]|[[r [l [E1 [E2 H]]]]|[r1 [r2 [l1 [l2 [E1 [E2 [Hs [Hm H]]]]]]]]]].
  - rewrite E1, E2, Ew. tauto.
  - rewrite E1, E2. destruct (rinv_close _ _ _ _ _ _ _ H) as [r' [Hc _]]. rewrite Hc. cbn. auto.
  - rewrite E1, E2. destruct H as [Hg [Hl [Hs2 [Hb [Hm2 [Hi Hf]]]]]]. rewrite <- app_assoc in Hl.
    assert (Hnd : NoDup (map fst (w_live w0 ++ l1 ++ l2)%list)) by (rewrite <- Hl; apply Hg).
    assert (Hnd1 : NoDup (map fst l1)). { rewrite map_app in Hnd. apply NoDup_app_r in Hnd. rewrite map_app in Hnd. clear -Hnd. induction (map fst l1) as [|a t IH]; [constructor|]. cbn in Hnd. inversion Hnd as [|? ? H1 H2]; subst. constructor; [intro Hi; apply H1; apply in_or_app; now left|auto]. }
    destruct (releases_ok (map fst l1) (c_w s) Hg Hnd1) as [R1 [R2 [R3 [R4 [R5 R6]]]]].
    { intros g Hin. rewrite Hl, !map_app. apply in_or_app. right. apply in_or_app. now left. }
    rewrite Hl, without_middle in R1 by exact Hnd.
    assert (K : rinv (w_live w0) (w_bad w0) (w_index w0) (w_files w0) r2 (snd (snd (close r1 (c_w s)))) l2).
    { unfold close. rewrite Hs. cbn [snd]. destruct (w_releases (map fst l1) (c_w s)) as [n0 l0 b0 i0 f0]. cbn [w_next w_live w_bad w_index w_files] in *.
      unfold rinv. destruct (r_index r1), (r_file r1); cbn [snd w_next w_live w_bad w_index w_files];
        (split; [exact R6|]); (split; [exact R1|]); (split; [exact Hs2|]); (split; [congruence|]); (split; [exact Hm2|]); lia. }
    destruct (rinv_close _ _ _ _ _ _ _ K) as [r' [Hc _]]. rewrite Hc. cbn. auto.
Qed.

Definition world_same (w w0 : world) : Prop :=
  w_live w = w_live w0 /\ w_bad w = w_bad w0 /\ w_index w = w_index w0 /\ w_files w = w_files w0.

Lemma world_eq w w0 : w_live w = w_live w0 -> w_bad w = w_bad w0 -> w_index w = w_index w0 -> w_files w = w_files w0 -> forall r l, rinv (w_live w) (w_bad w) (w_index w) (w_files w) r w l -> rinv (w_live w0) (w_bad w0) (w_index w0) (w_files w0) r w l.
Proof. intros -> -> -> ->. auto. Qed.

Lemma aux_same r w x r' w' : good_world w -> (forall g, r_main r = Some g \/ r_ext r = Some g -> In g (map fst (w_live w))) ->
  intertable_gids r w = (x, (r', w')) -> r' = r /\ w' = w.
Proof.
  intros Hg Hm H. unfold intertable_gids in H.
  assert (Hd : forall g, In g (map fst (w_live w)) -> exists m, w_deref g w = (Ok m, w)).
  { intros g Hin. apply in_map_iff in Hin as [[g' m] [<- Hin]]. exists m. unfold w_deref. cbn. now rewrite (good_dget w g' m Hg). }
  destruct (r_main r) as [g|] eqn:Em; [|injection H as _ <- <-; auto].
  destruct (Hd g (Hm g (or_introl eq_refl))) as [m Ed]. rewrite Ed in H.
  destruct (r_ext r) as [g2|] eqn:Ex; [|injection H as _ <- <-; auto].
  destruct (Hd g2 (Hm g2 (or_intror eq_refl))) as [m2 Ed2]. rewrite Ed2 in H. injection H as _ <- <-. auto.
Qed.

(** the phases of an execution *)
Section Strong.
  Context (o : ext) (x : ctx) (w0 : world).
  Let L := w_live w0. Let bad := w_bad w0. Let ni := w_index w0. Let nf := w_files w0.
  Definition phA (s : cst) : Prop := c_r1 s = None /\ c_r2 s = None /\ good_world (c_w s) /\ world_same (c_w s) w0.
  Definition phB (l0 : bool) (s : cst) : Prop := exists r l, c_r1 s = Some r /\ c_r2 s = None /\ rinv L bad ni nf r (c_w s) l /\ (l0 = true -> l = []).
  Definition phC (l0 : bool) (s : cst) : Prop := exists r1 r2 l1 l2, c_r1 s = Some r1 /\ c_r2 s = Some r2 /\ r_sel r1 = Some (map fst l1) /\
     (forall g, r_main r1 = Some g \/ r_ext r1 = Some g -> In g (map fst (l1 ++ l2)%list)) /\
     rinv (L ++ l1) bad (ni + (if r_index r1 then 1 else 0))%nat (nf + (if r_file r1 then 1 else 0))%nat r2 (c_w s) l2 /\ (l0 = true -> l2 = []).
  Definition post {A} (P : cst -> Prop) (r : res A) (s : cst) : Prop :=
    match r with Ok _ => P s | Raise (AppExc _) => sinv w0 s | Raise _ => True end.
  Lemma phA_sinv s : phA s -> sinv w0 s.
  Proof. intros [H1 [H2 [H3 [H4 [H5 [H6 H7]]]]]]. left. exists (c_w s). auto 10. Qed.
  Lemma phB_sinv b s : phB b s -> sinv w0 s.
  Proof. intros [r [l [H1 [H2 [H3 _]]]]]. right. left. exists r, l. auto. Qed.
  Lemma phC_sinv b s : phC b s -> sinv w0 s.
  Proof. intros [r1 [r2 [l1 [l2 [H1 [H2 [H3 [H4 [H5 _]]]]]]]]]. right. right. exists r1, r2, l1, l2. auto 10. Qed.

  Lemma post_bind {A B} (P R Q : cst -> Prop) (y : M A) (f : A -> M B) : hoare P y (post R) -> (forall a, hoare R (f a) (post Q)) -> hoare P (bind y f) (post Q).
  Proof.
    intros H1 H2. apply (hoare_bind _ (post R)); [exact H1|exact H2|]. intros [] s; cbn; auto.
  Qed.
  Lemma post_lift {A} (P : cst -> Prop) (r : res A) : (forall s, P s -> sinv w0 s) -> hoare P (lift r) (post P).
  Proof. intros H s Hs. unfold lift. cbn. destruct r as [a|[]]; cbn; auto. Qed.
  Lemma post_ret {A} (P : cst -> Prop) (a : A) : hoare P (ret a) (post P).
  Proof. intros s Hs. exact Hs. Qed.

  (** steps on a state with reader 1 only: nothing but the reader and the world changes *)
  Lemma B_open1 f wp : hoare phA (open1 f wp) (post (phB true)).
  Proof.
    intros s [H1 [H2 [H3 [H4 [H5 [H6 H7]]]]]]. unfold open1. destruct (reader_new f wp (c_w s)) as [[r|e] w] eqn:E; cbn.
    - exists r, []. cbn. destruct f as [f|]; [|discriminate]. pose proof (reader_new_inv _ _ _ _ _ H3 E) as K. rewrite H4, H5, H6, H7 in K. auto 10.
    - destruct f; [unfold reader_new in E; destruct (gf_indexable g); discriminate|]. injection E as <- _. exact I.
  Qed.
  Lemma B_info sel : hoare (phB true) (on1 (get_grib_info sel)) (post (phB true)).
  Proof.
    intros s [r [l [H1 [H2 [H3 H4]]]]]. unfold on1. rewrite H1. destruct (get_grib_info sel r (c_w s)) as [y [r' w']] eqn:E. cbn [fst snd].
    destruct y as [a|e].
    - exists r', l. cbn. split; [auto|]. split; [auto|]. split; [|auto]. refine (info_step _ _ _ _ _ _ _ _ _ _ _ H3 E _). now left.
    - destruct e; cbn; auto. pose proof (proj1 H3) as Hg. pose proof (info_app _ _ _ _ _ _ Hg E) as ->. apply (phB_sinv true). exists r', l. cbn. split; [auto|]. split; [auto|]. split; [|auto]. refine (info_step _ _ _ _ _ _ _ _ _ _ _ H3 E _). now right.
  Qed.
  Lemma B_writer b mv : hoare (phB b) (make_writer o x mv) (post (phB b)).
  Proof.
    intros s Hs. unfold make_writer. destruct (xt_writer o x mv) as [u|e]; cbn; [exact Hs|]. destruct e; cbn; auto. exact (phB_sinv _ _ Hs).
  Qed.
  Lemma B_geo b : hoare (phB b) (look_for_geopotential x) (post (phB b)).
  Proof.
    unfold look_for_geopotential. destruct (x_doCorr x); [|apply post_ret]. apply (post_bind _ (phB b)).
    - intros s [r [l [H1 [H2 [H3 H4]]]]]. unfold on1. rewrite H1. destruct (has_geopotential (chosen_member x) r (c_w s)) as [y [r' w']] eqn:E. cbn [fst snd].
      pose proof (geo_step _ _ _ _ _ _ _ _ _ _ _ H3 E) as K.
      assert (G : phB b (mkCst (Some r') (c_r2 s) (c_wr s) (c_geo s) (c_out s) w')) by (exists r', l; cbn; auto).
      destruct y as [a|[]]; cbn; auto. exact (phB_sinv _ _ G).
    - intros a s Hs. exact Hs.
  Qed.
  Lemma B_init : hoare phA (init_execution o x) (post (phB true)).
  Proof.
    unfold init_execution. apply (post_bind _ (phB true)); [apply B_open1|]. intros [].
    apply (post_bind _ (phB true)); [apply post_lift, phB_sinv|]. intro attrs.
    apply (post_bind _ (phB true)); [apply B_info|]. intros [[i t] mv].
    apply (post_bind _ (phB true)); [apply B_writer|]. intros [].
    apply (post_bind _ (phB true)); [apply B_geo|]. intros [].
    apply (post_bind _ (phB true)); [apply post_lift, phB_sinv|]. intros [[s e] g].
    apply (post_bind _ (phB true)); [apply post_lift, phB_sinv|]. intro sel. apply post_ret.
  Qed.
  Lemma B_select sel : hoare (phB true) (on1 (select_messages sel)) (post (phB false)).
  Proof.
    intros s [r [l [H1 [H2 [H3 H4]]]]]. rewrite (H4 eq_refl) in H3. unfold on1. rewrite H1. destruct (select_messages sel r (c_w s)) as [y [r' w']] eqn:E. cbn [fst snd].
    assert (G : app_outcome y -> phB false (mkCst (Some r') (c_r2 s) (c_wr s) (c_geo s) (c_out s) w')).
    { intro Hy. destruct (select_step _ _ _ _ _ _ _ _ _ _ H3 E) as [l1 [K _]].
      - intros e He Hb. destruct y as [a|e']; [discriminate|]. cbn in He. injection He as ->. destruct Hb as [ -> |[ -> | -> ]]; exact Hy.
      - exists r', l1. cbn. split; [auto|]. split; [auto|]. split; [exact K|discriminate]. }
    destruct y as [a|[]]; cbn; auto; [|apply (phB_sinv false)]; apply G; exact I.
  Qed.

  Definition phD (s : cst) : Prop := phB false s \/ phC false s.
  Lemma phD_sinv s : phD s -> sinv w0 s.
  Proof. intros [H|H]; [exact (phB_sinv _ _ H)|exact (phC_sinv _ _ H)]. Qed.

  Lemma C_open2 f wp : hoare (phB false) (open2 f wp) (post (phC true)).
  Proof.
    intros s [r [l [H1 [H2 [H3 H4]]]]]. unfold open2. destruct (reader_new f wp (c_w s)) as [[r2|e] w] eqn:E; cbn.
    - destruct f as [f|]; [|discriminate]. pose proof H3 as [Hg [Hl [Hs [Hb [Hm [Hi Hf]]]]]].
      pose proof (reader_new_inv _ _ _ _ _ Hg E) as K. rewrite Hl, Hb, Hi, Hf in K.
      exists r, r2, l, []. cbn. rewrite app_nil_r. auto 10.
    - destruct f; [unfold reader_new in E; destruct (gf_indexable g); discriminate|]. injection E as <- _. exact I.
  Qed.
  Lemma C_select sel : hoare (phC true) (on2 (select_messages sel)) (post (phC false)).
  Proof.
    intros s [r1 [r [l1 [l [H1 [H2 [H3 [H4 [H5 H6]]]]]]]]]. rewrite (H6 eq_refl) in H5, H4. rewrite app_nil_r in H4. unfold on2. rewrite H2. destruct (select_messages sel r (c_w s)) as [y [r' w']] eqn:E. cbn [fst snd].
    assert (G : app_outcome y -> phC false (mkCst (c_r1 s) (Some r') (c_wr s) (c_geo s) (c_out s) w')).
    { intro Hy. destruct (select_step _ _ _ _ _ _ _ _ _ _ H5 E) as [l2 [K _]].
      - intros e He Hb. destruct y as [a|e']; [discriminate|]. cbn in He. injection He as ->. destruct Hb as [ -> |[ -> | -> ]]; exact Hy.
      - exists r1, r', l1, l2. cbn. split; [auto|]. split; [auto|]. split; [auto|]. split; [|split; [exact K|discriminate]].
        intros g Hg. rewrite map_app. apply in_or_app. left. now apply H4. }
    destruct y as [a|[]]; cbn; auto; [|apply (phC_sinv false)]; apply G; exact I.
  Qed.
  Lemma C_second sel m : hoare (phB false) (second_file o x sel m) (post phD).
  Proof.
    unfold second_file. destruct (jtruthy (x_input2 x)); [|intros s Hs; left; exact Hs].
    apply (post_bind _ (phC true)); [apply C_open2|]. intros []. apply (post_bind _ (phC false)); [apply C_select|]. intro m2.
    intros s Hs. unfold bind, on2, on1, get_main, set_ext, ret.
    destruct Hs as [r1 [r [l1 [l [H1 [H2 [H3 [H4 [H5 H6]]]]]]]]]. rewrite H2. cbn [c_r1]. rewrite H1. cbn [fst snd post]. right.
    eexists _, r, l1, l. cbn. split; [reflexivity|]. split; [reflexivity|]. split; [exact H3|]. split; [|split; [exact H5|discriminate]].
    intros g [Hg|Hg]; [apply H4; now left|]. rewrite map_app. apply in_or_app. right. destruct H5 as [_ [_ [_ [_ [Hm _]]]]]. apply Hm. now left.
  Qed.
  Lemma D_aux : hoare phD (on1 intertable_gids) (post phD).
  Proof.
    intros s Hs. unfold on1.
    assert (G : exists r, c_r1 s = Some r /\ good_world (c_w s) /\ forall g, r_main r = Some g \/ r_ext r = Some g -> In g (map fst (w_live (c_w s)))).
    { destruct Hs as [[r [l [H1 [H2 [H3 H4]]]]]|[r1 [r [l1 [l [H1 [H2 [H3 [H4 [H5 H6]]]]]]]]]].
      - exists r. destruct H3 as [Hg [Hl [Hsl [Hb [Hm [Hi Hf]]]]]]. split; [exact H1|]. split; [exact Hg|]. intros g Hx. rewrite Hl, map_app. apply in_or_app. right. now apply Hm.
      - exists r1. destruct H5 as [Hg [Hl _]]. split; [exact H1|]. split; [exact Hg|]. intros g Hx. rewrite Hl, <- app_assoc, map_app. apply in_or_app. right. now apply H4. }
    destruct G as [r [Hr [Hg Hm]]]. rewrite Hr. destruct (intertable_gids r (c_w s)) as [y [r' w']] eqn:E.
    destruct (aux_same _ _ _ _ _ Hg Hm E) as [-> ->]. cbn [fst snd].
    assert (K : phD (mkCst (Some r) (c_r2 s) (c_wr s) (c_geo s) (c_out s) (c_w s))) by (rewrite <- Hr; exact Hs).
    destruct y as [a|[]]; cbn; auto. exact (phD_sinv _ K).
  Qed.
  Lemma D_write values m change : hoare phD (write_maps o x values m change) (post phD).
  Proof.
    intros s Hs. unfold write_maps. destruct (pcraster x).
    - destruct (pcr_loop o m change false 1 values) as [ws r]. cbn [fst snd]. destruct r as [u|[]]; cbn; auto. exact (phD_sinv _ Hs).
    - destruct (jis (x_format x) "netcdf"); [|exact I]. destruct (nc_loop o m change false 0 values) as [ws|[]]; cbn; auto; [|exact (phD_sinv _ Hs)].
      destruct (xt_nc_open o) as [u|[]]; cbn; auto; [|exact (phD_sinv _ Hs)]. destruct (xt_nc_write o ws) as [u2|[]]; cbn; auto. exact (phD_sinv _ Hs).
  Qed.
  Lemma D_execute b : hoare phA (execute o x b) (post phD).
  Proof.
    unfold execute. apply (post_bind _ (phB true)); [apply B_init|]. intros [[[input sel] e] g].
    apply (post_bind _ (phB false)); [apply B_select|]. intro m.
    apply (post_bind _ phD); [apply C_second|]. intro m'.
    apply (post_bind _ phD); [apply D_aux|]. intro a.
    apply (post_bind _ phD); [apply post_lift, phD_sinv|]. intros [[v m2] ch].
    apply (post_bind _ phD); [destruct b; [apply D_write|apply post_ret]|]. intros []. apply post_ret.
  Qed.
End Strong.

Lemma execute_sinv o x w b r s : good_world w -> execute o x b (cst0 w) = (r, s) -> app_outcome r -> sinv w s.
Proof.
  intros Hg H Hr. assert (K : phA w (cst0 w)) by (unfold phA, world_same; cbn; auto 10).
  pose proof (D_execute o x w b (cst0 w) K) as G. rewrite H in G. cbn [fst snd] in G.
  destruct r as [a|e]; cbn in G; [exact (phD_sinv _ _ G)|]. destruct e; try contradiction. exact G.
Qed.
