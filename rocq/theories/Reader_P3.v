(** * Reader_P3: histories of reader operations (C59); selected messages of a file (C57). *)
From Verif Require Import Base Num PyStr Config Context Aggregator Reader Spec_Reader Base_P Num_P PyStr_P Context_P Context_P2 Reader_P Reader_P2.
From Coq Require Import Permutation.
Local Open Scope string_scope.

(** ** the grid of the second resolution is one of the selected messages *)
Lemma fold_grid2 step2 change main ms : forall st st', foldM (select_body step2 change main) ms st = Ok st' ->
  forall gr, ss_grid2 st' = Some gr -> In (g_gid gr) (map fst ms) \/ ss_grid2 st = Some gr.
Proof.
  induction ms as [|[g m] ms IH]; intros st st' H gr Hg; [injection H as <-; now right|].
  cbn [foldM] in H. apply rbind_ok in H as [s1 [H1 H]]. destruct (IH _ _ H _ Hg) as [Hi|Hs]; [left; now right|].
  destruct (select_body_inv _ _ _ _ _ _ _ H1) as [x [Hx [_ Hr]]]. destruct (other_nj (rd_nj x) main).
  - destruct Hr as [_ [_ [gr' [Hgr' Hs']]]]. apply grid_details_nj in Hgr' as [_ Hgid]. left. left. cbn. congruence.
  - destruct Hr as [Hr _]. right. congruence.
Qed.
Lemma build_grid2 step step2 change ms m gr k : build_messages step step2 change ms = Ok m -> m_grid2 m = Some (gr, k) -> In (g_gid gr) (map fst ms).
Proof.
  intros H Hg. destruct (build_inv _ _ _ _ _ H) as [g0 [m0 [rest [main [st [_ [_ [_ [Hst [_ [_ [H2 _]]]]]]]]]]]].
  destruct (ss_grid2 st) as [x|] eqn:E; [|congruence]. destruct H2 as [k' [_ H2]]. rewrite H2 in Hg. injection Hg as -> _.
  destruct (fold_grid2 _ _ _ _ _ _ Hst _ E) as [Hi|Hc]; [exact Hi|discriminate].
Qed.

(** ** invariant of a reader that has not been closed *)
(** [L]: handles that belong to others; [i], [f]: open indexes and files of the others *)
Definition rinv (L : list (Z * gmsg)) (bad : bool) (i f : nat) (r : reader) (w : world) (l : list (Z * gmsg)) : Prop :=
  good_world w /\ w_live w = (L ++ l)%list /\ r_sel r = Some (map fst l) /\ w_bad w = bad /\
  (forall g, r_main r = Some g \/ r_ext r = Some g -> In g (map fst l)) /\
  w_index w = (i + (if r_index r then 1 else 0))%nat /\ w_files w = (f + (if r_file r then 1 else 0))%nat.

Lemma rinv_scan L bad i f r w l r' w' l2 : rinv L bad i f r w l -> scanned r r' -> opened w w' l2 ->
  good_world w' /\ w_live w' = (L ++ l ++ l2)%list /\ w_bad w' = bad /\ r_sel r' = Some (map fst l) /\
  (forall g, r_main r' = Some g \/ r_ext r' = Some g -> In g (map fst l)) /\
  w_index w' = (i + (if r_index r' then 1 else 0))%nat /\ w_files w' = (f + (if r_file r' then 1 else 0))%nat.
Proof.
  intros [Hg [Hl [Hs [Hb [Hm [Hi Hf]]]]]] [S1 [S2 [S3 [S4 [S5 [S6 [S7 [S8 [S9 S10]]]]]]]]] Ho.
  pose proof (opened_good _ _ _ Hg Ho) as Hg'. destruct Ho as [O1 [O2 [O3 [O4 [O5 [O6 O7]]]]]].
  split; [exact Hg'|]. split; [rewrite O1, Hl, app_assoc; reflexivity|]. split; [congruence|]. split; [congruence|].
  split; [rewrite S5, S6; exact Hm|]. split; [rewrite O3, Hi, S7; reflexivity|]. rewrite O4, Hf.
  destruct (r_file r), (r_file r'); try reflexivity; exfalso; [destruct S10 as [S10 _]; now specialize (S10 eq_refl)|destruct S10 as [_ S10]; now specialize (S10 eq_refl)].
Qed.

Lemma combine_fst_sub {A B} (gs : list A) (ms : list B) g : In g (map fst (combine gs ms)) -> In g gs.
Proof. intro H. apply in_map_iff in H as [[a b] [<- H]]. now apply in_combine_l in H. Qed.

(** has_geopotential leaves no handle *)
Lemma open_release_ok ms : forall w, good_world w -> opened w (open_release ms w) [].
Proof.
  induction ms as [|m ms IH]; intros w Hw; [apply opened_refl|]. cbn [open_release].
  pose proof (open_then_release m w Hw) as H. destruct (w_open m w) as [g w1]. cbn [fst snd] in H.
  exact (opened_trans _ _ _ _ _ H (IH _ (opened_good _ _ _ Hw H))).
Qed.

(** outcomes after which nothing is lost: an information request that succeeds
    or finds no message; a selection that does not fail while scanning *)
Definition clean_outcome (o : rop) (x : res unit) : Prop :=
  match o with
  | OInfo _ => x = Ok tt \/ x = Raise (AppExc 3000)
  | OSelect _ => forall e, x = Raise e -> ~ bad_scan e
  | OGeo _ | OAux => True
  | OClose => False
  end.
Definition is_select (o : rop) : bool := match o with OSelect _ => true | _ => false end.

Lemma info_step L bad i f r w l sel x r' w' : rinv L bad i f r w l -> get_grib_info sel r w = (x, (r', w')) ->
  forget x = Ok tt \/ forget x = Raise (AppExc 3000) -> rinv L bad i f r' w' l.
Proof.
  intros Hinv H Hx. unfold get_grib_info in H. destruct (get_gids sel r w) as [y [r1 w1]] eqn:Eg.
  pose proof Hinv as [Hgood _]. destruct (get_gids_spec _ _ _ _ _ _ Hgood Eg) as [Hsc Hy].
  destruct y as [gs|e].
  - destruct Hy as [ms [Hlen [Ho _]]]. pose proof (rinv_scan _ _ _ _ _ _ _ _ _ _ Hinv Hsc Ho) as [A [B [C [D [E [F G]]]]]].
    destruct gs as [|g gs].
    + injection H as <- <- <-. cbn in B. rewrite app_nil_r in B. unfold rinv. auto 10.
    + rewrite (opened_derefs _ _ _ _ Hgood Hlen Ho) in H.
      destruct (info_of (combine (g :: gs) ms)) as [[[inf t] mv]|e] eqn:Ei.
      * assert (Ew : w' = w_releases (g :: gs) w1) by congruence. assert (Er : r' = set_steps r1 inf) by congruence. clear H. subst w' r'. rewrite app_assoc in B.
        assert (Hnd : NoDup (g :: gs)) by (destruct Ho as [_ [_ [_ [_ [_ [_ Ho]]]]]]; now rewrite map_fst_combine in Ho).
        destruct (releases_ok (g :: gs) w1 A Hnd) as [R1 [R2 [R3 [R4 [R5 R6]]]]].
        { intros g' Hg'. rewrite B, map_app. apply in_or_app. right. now rewrite map_fst_combine. }
        unfold rinv. split; [exact R6|]. split.
        { rewrite R1, B. rewrite <- (map_fst_combine (g :: gs) ms Hlen) at 1. apply without_app. rewrite <- B. apply A. }
        cbn [set_steps r_sel r_main r_ext r_index r_file]. rewrite R2, R3, R4. auto 10.
      * exfalso. injection H as <- _ _. cbn [forget] in Hx.
        assert (Hne : e <> AppExc 3000).
        { intro. subst e. unfold info_of in Ei. destruct (combine (g :: gs) ms) as [|[g0 m0] rest] eqn:Ec; [destruct ms; discriminate|].
          unfold kstr, kdbl, kint in Ei.
          assert (HR : forall (A B : Type) (x : res A) (k : A -> res B) e, rbind x k = Raise e -> x = Raise e \/ exists a, x = Ok a /\ k a = Raise e).
          { intros A0 B0 [a|e0] k e1 Hb; cbn in Hb; [right; eauto|left; congruence]. }
          apply HR in Ei as [Ei|[t [_ Ei]]]; [destruct (dget String.eqb _ _) as [[]|]; discriminate|].
          apply HR in Ei as [Ei|[mv [_ Ei]]]; [destruct (dget String.eqb _ _); discriminate|].
          apply HR in Ei as [Ei|[ps [Hps Ei]]].
          - clear -Ei HR. set (l := (g0, m0) :: rest) in Ei. clearbody l. induction l as [|gm l IH]; [discriminate|]. cbn [mapM] in Ei.
            apply HR in Ei as [Ei|[a [_ Ei]]].
            + apply HR in Ei as [Ei|[a [_ Ei]]]; [destruct (dget String.eqb _ _) as [[]|]; discriminate|].
              apply HR in Ei as [Ei|[b [_ Ei]]]; [destruct (dget String.eqb _ _) as [[]|]; discriminate|discriminate].
            + apply HR in Ei as [Ei|[b [_ Ei]]]; [now apply IH|discriminate].
          - apply HR in Ei as [Ei|[inf [_ Ei]]]; [|discriminate]. unfold find_steps in Ei.
            apply HR in Ei as [Ei|[s [_ Ei]]]; [unfold zmin_list in Ei; destruct (map fst ps); discriminate|].
            apply HR in Ei as [Ei|[e [_ Ei]]]; [unfold zmax_list in Ei; destruct (map snd ps); discriminate|].
            destruct (1 <? _)%nat; [|discriminate]. destruct (fold_left _ _ _); discriminate. }
        destruct Hx; congruence.
  - injection H as <- <- <-. destruct Hy as [_ [Hy _]]. cbn [forget] in Hx. destruct Hx as [Hx|Hx]; [discriminate|]. injection Hx as ->.
    pose proof (rinv_scan _ _ _ _ _ _ _ _ _ _ Hinv Hsc (Hy eq_refl)) as [A [B [C [D [E [F G]]]]]]. rewrite app_nil_r in B. unfold rinv. auto 10.
Qed.

Lemma geo_step L bad i f p r w l x r' w' : rinv L bad i f r w l -> has_geopotential p r w = (x, (r', w')) -> rinv L bad i f r' w' l.
Proof.
  intros Hinv H. pose proof Hinv as [Hg _]. unfold has_geopotential in H. destruct (r_index r) as [wp|] eqn:Ei; [|destruct (r_file r) as [ms|] eqn:Ef].
  - injection H as _ <- <-.
    pose proof (rinv_scan _ _ _ _ _ _ _ _ _ _ Hinv (scanned_refl r) (open_release_ok (flat_map (fun n => filter (in_index n p) (r_msgs r)) geo_names) w Hg)) as [A [B [C [D [E [F G]]]]]].
    rewrite app_nil_r in B. unfold rinv. auto 10.
  - injection H as _ <- <-.
    assert (Hsc : scanned r (set_file r (Some []))) by (apply scanned_set_file; [exact Ei|congruence]).
    pose proof (rinv_scan _ _ _ _ _ _ _ _ _ _ Hinv Hsc (open_release_ok ms w Hg)) as [A [B [C [D [E [F G]]]]]]. rewrite app_nil_r in B. unfold rinv. auto 10.
  - injection H as _ <- <-. exact Hinv.
Qed.

Lemma aux_step L bad i f r w l x r' w' : rinv L bad i f r w l -> intertable_gids r w = (x, (r', w')) -> r' = r /\ w' = w.
Proof.
  intros [Hg [Hl [Hs [Hb [Hm [Hi Hf]]]]]] H. unfold intertable_gids in H.
  assert (Hd : forall g, In g (map fst l) -> exists m, w_deref g w = (Ok m, w)).
  { intros g Hin. apply in_map_iff in Hin as [[g' m] [<- Hin]]. exists m. unfold w_deref. cbn. rewrite (good_dget w g' m Hg); [reflexivity|]. rewrite Hl. apply in_or_app. now right. }
  destruct (r_main r) as [g|] eqn:Em; [|injection H as _ <- <-; auto].
  destruct (Hd g (Hm g (or_introl eq_refl))) as [m Ed]. rewrite Ed in H.
  destruct (r_ext r) as [g2|] eqn:Ex; [|injection H as _ <- <-; auto].
  destruct (Hd g2 (Hm g2 (or_intror eq_refl))) as [m2 Ed2]. rewrite Ed2 in H. injection H as _ <- <-. auto.
Qed.

Lemma select_step L bad i f r w sel x r' w' : rinv L bad i f r w [] -> select_messages sel r w = (x, (r', w')) ->
  (forall e, forget x = Raise e -> ~ bad_scan e) ->
  exists l, rinv L bad i f r' w' l /\ (forall m, x = Ok m -> exists ms, l = ms /\ build_messages (r_step r) (r_step2 r) (r_change r) ms = Ok m).
Proof.
  intros Hinv H Hx. unfold select_messages in H. destruct (get_gids sel r w) as [y [r1 w1]] eqn:Eg.
  pose proof Hinv as [Hgood _]. destruct (get_gids_spec _ _ _ _ _ _ Hgood Eg) as [Hsc Hy].
  destruct y as [gs|e].
  - destruct Hy as [ms [Hlen [Ho _]]]. pose proof (rinv_scan _ _ _ _ _ _ _ _ _ _ Hinv Hsc Ho) as [A [B [C [D [E [F G]]]]]].
    assert (Hnone : r_main r1 = None /\ r_ext r1 = None).
    { split; [destruct (r_main r1) as [g|] eqn:Em|destruct (r_ext r1) as [g|] eqn:Em]; try reflexivity; exfalso; destruct (E g); auto. }
    destruct gs as [|g gs].
    + injection H as <- <- <-. exists []. split; [|discriminate]. destruct ms; [|discriminate]. cbn in B. rewrite app_nil_r in B.
      unfold rinv. cbn. rewrite app_nil_r. auto 10.
    + rewrite (opened_derefs _ _ _ _ Hgood Hlen Ho) in H. cbn [List.app] in B.
      assert (Hgs : map fst (combine (g :: gs) ms) = g :: gs) by (now apply map_fst_combine).
      assert (Hin : forall main ext, (forall z, main = Some z \/ ext = Some z -> In z (g :: gs)) -> rinv L bad i f (set_sel r1 (g :: gs) main ext) w1 (combine (g :: gs) ms)).
      { intros main ext Hme. unfold rinv. cbn [set_sel r_sel r_main r_ext r_index r_file]. rewrite Hgs. auto 10. }
      assert (Hdef : forall z, Some g = Some z \/ r_ext r1 = Some z -> In z (g :: gs)).
      { intros z [Hz|Hz]; [injection Hz as <-; now left|]. destruct Hnone; congruence. }
      destruct Hsc as [_ [S1 [S2 [S3 _]]]]. rewrite S1, S2, S3 in H.
      destruct (build_messages (r_step r) (r_step2 r) (r_change r) (combine (g :: gs) ms)) as [m|e] eqn:Eb.
      * injection H as <- <- <-. eexists. split; [apply Hin|intros m' Hm'; injection Hm' as <-; eauto].
        intros z [Hz|Hz]; [injection Hz as <-; now left|]. destruct (m_grid2 m) as [[gr k]|] eqn:E2; [|destruct Hnone; congruence].
        injection Hz as <-. rewrite <- Hgs. eapply build_grid2; eauto.
      * injection H as <- <- <-. eexists. split; [apply Hin; exact Hdef|discriminate].
  - injection H as <- <- <-. destruct Hy as [_ [Hy Hc]]. cbn [forget] in Hx.
    destruct Hc as [->|Hc]; [|exfalso; exact (Hx e eq_refl Hc)].
    pose proof (rinv_scan _ _ _ _ _ _ _ _ _ _ Hinv Hsc (Hy eq_refl)) as [A [B [C [D [E [F G]]]]]]. cbn in B. rewrite app_nil_r in B.
    exists []. split; [|discriminate]. unfold rinv. rewrite app_nil_r. auto 10.
Qed.

Lemma rops_inv L bad i f os : forall r w l xs r' w', rinv L bad i f r w l -> rops_run os r w = (xs, (r', w')) ->
  Forall2 clean_outcome os xs -> (l = [] \/ existsb is_select os = false) ->
  (List.length (filter is_select os) <= 1)%nat ->
  exists l', rinv L bad i f r' w' l'.
Proof.
  induction os as [|o os IH]; intros r w l xs r' w' Hinv H Hcl Hone Hcount.
  - injection H as <- <- <-. eauto.
  - cbn [rops_run] in H. destruct (rop_run o r w) as [x [r1 w1]] eqn:Eo. destruct (rops_run os r1 w1) as [ys rw] eqn:Eos.
    injection H as <- ->. inversion Hcl as [|? ? ? ? Hc1 Hc2]; subst.
    assert (Hcase : exists l1, rinv L bad i f r1 w1 l1 /\ (l1 = [] \/ existsb is_select os = false) /\ (List.length (filter is_select os) <= 1)%nat).
    { destruct o as [sel|gp|sel| |]; cbn [rop_run] in Eo.
      - destruct (get_grib_info sel r w) as [y rw] eqn:E. injection Eo as <- ->. exists l. split; [|cbn in *; auto]. eapply info_step; eauto.
      - destruct (has_geopotential gp r w) as [y rw] eqn:E. injection Eo as <- ->. exists l. split; [|cbn in *; auto]. eapply geo_step; eauto.
      - destruct (select_messages sel r w) as [y rw] eqn:E. injection Eo as <- ->.
        destruct Hone as [->|Hone]; [|discriminate]. destruct (select_step _ _ _ _ _ _ _ _ _ _ Hinv E Hc1) as [l1 [Hl1 _]].
        exists l1. split; [exact Hl1|]. cbn in Hcount. split; [|lia]. right. destruct (filter is_select os) as [|a t] eqn:Ef; [|cbn in Hcount; lia].
        destruct (existsb is_select os) eqn:Ee; [|reflexivity]. apply existsb_exists in Ee as [o [Ho1 Ho2]].
        assert (Hin : In o (filter is_select os)) by (apply filter_In; auto). rewrite Ef in Hin. destruct Hin.
      - destruct (intertable_gids r w) as [y rw] eqn:E. injection Eo as <- ->. destruct (aux_step _ _ _ _ _ _ _ _ _ _ Hinv E) as [-> ->]. exists l. split; [exact Hinv|]. cbn in *. auto.
      - destruct Hc1. }
    destruct Hcase as [l1 [H1 [H2 H3]]]. eapply IH; eauto.
Qed.

Lemma NoDup_app_r {A} (a b : list A) : NoDup (a ++ b)%list -> NoDup b.
Proof. induction a as [|x a IH]; [auto|]. intro H. cbn in H. apply IH. now inversion H. Qed.
Lemma rinv_close L bad i f r w l : rinv L bad i f r w l ->
  exists r', close r w = (Ok tt, (r', mkWorld (w_next w) L bad i f)) /\ r_sel r' = None.
Proof.
  intros [Hg [Hl [Hs [Hb [Hm [Hi Hf]]]]]]. unfold close. rewrite Hs.
  assert (Hnd : NoDup (map fst l)) by (destruct Hg as [Hg _]; rewrite Hl, map_app in Hg; now apply NoDup_app_r in Hg).
  destruct (releases_ok (map fst l) w Hg Hnd) as [R1 [R2 [R3 [R4 [R5 R6]]]]].
  { intros g Hin. rewrite Hl, map_app. apply in_or_app. now right. }
  assert (RL : without (map fst l) (w_live w) = L) by (rewrite Hl; apply without_app; rewrite <- Hl; apply Hg).
  exists (mkReader None None (r_msgs r) None (r_step r) (r_step2 r) (r_change r) (r_main r) (r_ext r)). split; [|reflexivity]. do 2 f_equal.
  destruct (w_releases (map fst l) w) as [n0 l0 b0 i0 f0]. cbn [w_next w_live w_bad w_index w_files] in *. rewrite R1, R2, R3, R4, R5, RL, Hb, Hi, Hf.
  destruct (r_index r), (r_file r); cbn [w_next w_live w_bad w_index w_files]; f_equal; cbn; lia.
Qed.

Lemma reader_new_inv f wp w r w' : good_world w -> reader_new (Some f) wp w = (Ok r, w') ->
  rinv (w_live w) (w_bad w) (w_index w) (w_files w) r w' [].
Proof.
  intros Hw H. unfold reader_new in H. unfold rinv.
  destruct (gf_indexable f); injection H as <- <-; cbn; rewrite app_nil_r; (split; [exact Hw|]); repeat split; auto; try lia; intros g [Hg|Hg]; discriminate.
Qed.

(** ** C57: the messages taken from an indexed file *)
Lemma find_dget m sel k s : find m sel = Ok true -> dget String.eqb sel k = Some s -> exists v, dget String.eqb m k = Some v /\ sel_match s v = Ok true.
Proof.
  induction sel as [|[k' s'] sel IH]; [discriminate|]. cbn [find dget]. destruct (dget String.eqb m k') as [v|] eqn:E; [|discriminate].
  destruct (sel_match s' v) as [[]|] eqn:Em; cbn [rbind]; try discriminate. intros Hf. destruct (String.eqb_spec k k') as [->|Hne]; [|now apply IH].
  intro H. injection H as ->. eauto.
Qed.

Lemma filter_filter {A} (f g : A -> bool) l : filter f (filter g l) = filter (fun x => f x && g x)%bool l.
Proof. induction l as [|a l IH]; [reflexivity|]. cbn. destruct (g a); cbn; destruct (f a); cbn; rewrite ?IH; reflexivity. Qed.

Lemma partition_perm {A} (f : A -> bool) (g : A -> string -> bool) names l : NoDup names ->
  (forall a, In a l -> f a = true -> exists s, In s names /\ g a s = true) ->
  (forall a s1 s2, In a l -> g a s1 = true -> g a s2 = true -> s1 = s2) ->
  Permutation (flat_map (fun s => filter (fun a => f a && g a s)%bool l) names) (filter f l).
Proof.
  intros Hnd Hex Huq.
  set (F := fun l s => filter (fun a => f a && g a s)%bool l).
  change (Permutation (flat_map (F l) names) (filter f l)).
  assert (Fc : forall a l s, F (a :: l) s = if (f a && g a s)%bool then a :: F l s else F l s) by reflexivity.
  assert (Foff : forall a l ns, (forall s, In s ns -> (f a && g a s)%bool = false) -> flat_map (F (a :: l)) ns = flat_map (F l) ns).
  { intros a l0 ns. induction ns as [|s ns IHn]; intro H; [reflexivity|]. cbn [flat_map]. rewrite Fc, (H s (or_introl eq_refl)), IHn; [reflexivity|]. intros s' Hs'. apply H. now right. }
  assert (Fnil : forall ns, flat_map (F []) ns = []) by (intro ns; induction ns; auto).
  clearbody F. induction l as [|a l IH].
  - rewrite Fnil. constructor.
  - assert (IH' : Permutation (flat_map (F l) names) (filter f l)).
    { apply IH; [intros x Hx; apply Hex; now right|intros x s1 s2 Hx; apply Huq; now right]. }
    cbn [filter]. destruct (f a) eqn:Ef.
    + destruct (Hex a (or_introl eq_refl) Ef) as [s [Hs Hg]]. apply in_split in Hs as [n1 [n2 ->]].
      rewrite flat_map_app in IH' |- *. cbn [flat_map] in IH' |- *. rewrite Fc, Ef, Hg. cbn [andb].
      apply NoDup_remove_2 in Hnd.
      assert (Hoff : forall s', In s' (n1 ++ n2)%list -> (f a && g a s')%bool = false).
      { intros s' Hs'. destruct (g a s') eqn:Eg; [|now rewrite Bool.andb_false_r]. exfalso. apply Hnd.
        rewrite (Huq a s s' (or_introl eq_refl) Hg Eg). exact Hs'. }
      rewrite (Foff a l n1) by (intros; apply Hoff; apply in_or_app; now left).
      rewrite (Foff a l n2) by (intros; apply Hoff; apply in_or_app; now right).
      rewrite <- IH'. apply Permutation_sym. cbn [List.app]. apply Permutation_middle.
    + rewrite Foff by (intros; now rewrite Ef). exact IH'.
Qed.

Lemma filter_ext_in' {A} (f g : A -> bool) l : (forall a, In a l -> f a = g a) -> filter f l = filter g l.
Proof. apply filter_ext_in. Qed.

Lemma jeq_true a b : jeq a b = true -> a = b.
Proof. destruct a, b; cbn; try discriminate; [rewrite Z.eqb_eq|rewrite String.eqb_eq]; congruence. Qed.

Lemma by_names_perm sel names p ms : sel_names sel = Ok (map JStr names) -> NoDup names -> (names <> [] -> sel_pert sel = Ok p) ->
  (forall v, dget String.eqb sel "perturbationNumber" = Some v -> exists z, v = SVal (JNum z)) ->
  Permutation (by_names sel p names ms) (filter (accepted sel) ms).
Proof.
  intros Hn Hnd Hp Hty. unfold by_names.
  assert (Hshort : forall m, accepted sel m = true -> exists s, In s names /\ dget String.eqb (gm_keys m) "shortName" = Some (JStr s)).
  { intros m Ha. unfold accepted in Ha. destruct (find (gm_keys m) sel) as [b|] eqn:Ef; [|discriminate]. subst b.
    unfold sel_names in Hn. destruct (dget String.eqb sel "shortName") as [s|] eqn:Es; [|discriminate].
    destruct (find_dget _ _ _ _ Ef Es) as [v [Hv Hm]]. destruct s as [w|l|fn].
    - injection Hn as Hn. destruct names as [|n0 [|]]; try discriminate. injection Hn as ->. cbn in Hm. injection Hm as Hm. apply jeq_true in Hm. subst v. exists n0. split; [now left|exact Hv].
    - injection Hn as ->. cbn in Hm. injection Hm as Hm. apply existsb_exists in Hm as [w [Hw Hm]]. apply jeq_true in Hm. subst w. apply in_map_iff in Hw as [s [<- Hs]]. eauto.
    - discriminate. }
  assert (Hpert : forall m, accepted sel m = true -> names <> [] ->
     match p with None => true | Some z => match dget String.eqb (gm_keys m) "perturbationNumber" with Some (JNum y) => Z.eqb y z | _ => false end end = true).
  { intros m Ha Hne. destruct p as [z|]; [|reflexivity]. specialize (Hp Hne). unfold accepted in Ha. destruct (find (gm_keys m) sel) as [b|] eqn:Ef; [|discriminate]. subst b.
    unfold sel_pert in Hp. destruct (dget String.eqb sel "perturbationNumber") as [[v| |]|] eqn:Es; try discriminate.
    destruct (jeq v (JNum (-1))); [discriminate|]. apply rbind_ok in Hp as [z' [Hz Hp]]. injection Hp as ->.
    destruct (find_dget _ _ _ _ Ef Es) as [v' [Hv Hm]]. cbn in Hm. injection Hm as Hm. pose proof (jeq_true _ _ Hm) as E. subst v'. rewrite Hv.
    destruct (Hty _ eq_refl) as [y Hy]. injection Hy as ->. cbn in Hz. injection Hz as ->. apply Z.eqb_refl. }
  set (g := fun (m : gmsg) (s : string) => in_index s p m).
  assert (E : flat_map (fun s => filter (accepted sel) (filter (in_index s p) ms)) names = flat_map (fun s => filter (fun a => accepted sel a && g a s)%bool ms) names).
  { clear. induction names as [|s ns IH]; [reflexivity|]. cbn [flat_map]. rewrite filter_filter, IH. reflexivity. }
  rewrite E. apply partition_perm; [exact Hnd| |].
  - intros m _ Ha. destruct (Hshort m Ha) as [s [Hs Hd]]. exists s. split; [exact Hs|]. unfold g, in_index. rewrite Hd, String.eqb_refl. cbn [andb].
    apply Hpert; [exact Ha|]. intro; subst names; destruct Hs.
  - intros m s1 s2 _ H1 H2. unfold g, in_index in H1, H2. destruct (dget String.eqb (gm_keys m) "shortName") as [[]|]; try discriminate.
    apply andb_prop in H1 as [H1 _], H2 as [H2 _]. apply String.eqb_eq in H1, H2. congruence.
Qed.
