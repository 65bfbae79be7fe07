(** * Which cells an accumulation with missing steps combines, for any arithmetic

    The interpolated steps are computed from the two nearest fields, as in
    Aggregator_P8.v for exact numbers. *)
From Verif Require Import Base Num Float64 Aggregator AggregatorWith Spec_Aggregation Spec_Aggregation2 Base_P Num_P Aggregator_P Aggregator_P2 Aggregator_P3 Aggregator_P8 AggregatorWith_P AggregatorWith_P2.
From Coq Require Import ZifyBool ZifyNat Sorting.Permutation Sorting.Sorted.
Ltac Zify.zify_post_hook ::= Z.div_mod_to_equations.
Local Open Scope Z_scope.

Section Gaps.
  Variables add sub mul div : num -> num -> num.
  Variables (values : fields) (n : nat) (first end_ s : Z).
  Hypothesis Hs : 0 < s.
  Hypothesis Hfirst : 0 < first.
  Hypothesis Hone : one_per_step values.
  Hypothesis Hsz : same_size values n.
  Hypothesis Henough : enough_later values first end_ s.
  Let base := by_end_step values.

  (** a field, the zeros put at the start of the forecast, or an interpolation
      between the two nearest fields *)
  Definition right (k : Z) (f : arr) : Prop :=
    asize f = n /\
    ((k = 0 /\ ~ available values 0 /\ f = Nd (zeros n)) \/ has_field values k f \/
     exists lo hi cl ch d, gap values lo k hi /\ has_field values lo cl /\ has_field values hi ch /\
       lin_expr_with add sub mul div (adata cl) (adata ch) k lo hi = Ok d /\ f = masked_where (get_masks [cl; ch]) d).
  Definition added (x : ofields) (a : Z) : Prop :=
    NoDup (map fst x) /\ forall k f, In (k, f) x -> on_grid (first - s) end_ s k /\ k < a /\ ~ available values k /\ right k f.

  Lemma base_right k f : dget Z.eqb base k = Some f -> right k f.
  Proof using Hone Hsz.
    intro H. apply by_end_step_get in H; [|exact Hone]. pose proof H as [st [Hin Est]]. split; [exact (proj1 (Hsz st f Hin))|]. right. left. exact H.
  Qed.

  Lemma get_app (x : ofields) k : ~ In k (dkeys x) -> dget Z.eqb (base ++ x) k = dget Z.eqb base k.
  Proof.
    intro Hn. induction base as [|[k0 f0] b IH]; cbn [app dget].
    - apply (dget_None Z.eqb Zeqb_spec'). exact Hn.
    - destruct (k =? k0); [reflexivity|exact IH].
  Qed.
  Lemma get_right x a k f : added x a -> dget Z.eqb (base ++ x) k = Some f -> right k f.
  Proof using Hone Hsz.
    intros [Hnd Hx] H. apply (dget_In Z.eqb Zeqb_spec') in H. apply in_app_iff in H as [H|H]; [|apply (Hx k f H)].
    apply base_right. apply (In_dget Z.eqb Zeqb_spec'); [apply by_end_step_NoDup|exact H].
  Qed.
  Lemma keys_app (x : ofields) : dkeys (base ++ x) = (dkeys base ++ dkeys x)%list.
  Proof. unfold dkeys. apply map_app. Qed.


  (** splitting the sorted keys around a gap *)

  Lemma fill_iter x t : added x t -> on_grid first end_ s t -> (available values t \/ exists lo hi, gap values lo t hi) ->
    exists x', acc_fill_iter_with add sub mul div (base ++ x) (dkeys (base ++ x)) t = Ok (base ++ x')%list /\ added x' (t + 1) /\
      (exists f, dget Z.eqb (base ++ x') t = Some f) /\ (forall k, k <> t -> dget Z.eqb (base ++ x') k = dget Z.eqb (base ++ x) k) /\
      (In t (dkeys base) -> x' = x).
  Proof using Hs Hfirst Hone Hsz Henough.
    intros Hadd Hg Hcase. pose proof Hadd as [Hnd Hx].
    assert (Hkx : forall k, In k (dkeys x) -> on_grid (first - s) end_ s k /\ k < t /\ ~ available values k).
    { intros k Hk. apply in_map_iff in Hk as [[k' f] [<- Hk]]. destruct (Hx _ _ Hk) as [A [B [C _]]]. auto. }
    assert (Hmono : added x (t + 1)). { split; [exact Hnd|]. intros k f Hk. destruct (Hx _ _ Hk) as [A [B [C D]]]. split; [exact A|]. split; [lia|]. split; assumption. }
    assert (Hntx : ~ In t (dkeys x)) by (intro H; destruct (Hkx _ H) as [_ [? _]]; lia).
    unfold acc_fill_iter_with. destruct Hcase as [Hav|[lo [hi Hgap]]].
    - assert (Hin : In t (dkeys base)) by (apply by_end_step_mem; exact Hav).
      assert (Hin' : In t (dkeys (base ++ x))) by (rewrite keys_app; apply in_or_app; left; exact Hin).
      rewrite (proj2 (zmem_In _ _) Hin'). exists x. split; [reflexivity|]. split; [exact Hmono|]. split; [|split; [reflexivity|intros; reflexivity]].
      apply (dmem_In Z.eqb Zeqb_spec') in Hin'. unfold dmem in Hin'. destruct (dget Z.eqb (base ++ x) t) as [f|]; [exists f; reflexivity|discriminate].
    - pose proof Hgap as [Hlt [[cl Hcl] [[ch Hch] Hbetween]]].
      assert (Hnb : ~ In t (dkeys base)).
      { unfold base. rewrite by_end_step_mem. intro H. destruct (Hbetween _ H); lia. }
      assert (Hnav : ~ available values t) by (intro H; apply Hnb; apply by_end_step_mem; exact H).
      assert (Hnt : ~ In t (dkeys (base ++ x))) by (rewrite keys_app, in_app_iff; tauto).
      rewrite (proj2 (zmem_nIn _ _) Hnt).
      destruct (split_gap (dkeys base) t lo hi) as [b1 [b2 [Eb [Hb1 Hb2]]]].
      { apply by_end_step_keys_sorted. } { apply by_end_step_mem. exists cl. exact Hcl. } { apply by_end_step_mem. exists ch. exact Hch. } { exact Hlt. }
      { intros u Hu. apply Hbetween. apply by_end_step_mem. exact Hu. }
      assert (Hnei : neighbours (dkeys (base ++ x)) t = Ok (hi, lo)).
      { rewrite keys_app, Eb, <- app_assoc. cbn [app].
        destruct (neighbours_appended b1 b2 (dkeys x) t lo hi Hb1 Hb2) as [H|H]; [intros u Hu; apply Hkx; exact Hu| |cbn [app] in H; exact H|contradiction].
        destruct (Henough t (dkeys x) Hg Hnav Hnd) as [later [Hld [Hl Hlen]]]; [intros u Hu; destruct (Hkx _ Hu) as [A [B C]]; auto|].
        assert (Hincl : incl later (hi :: b2)).
        { intros u Hu. destruct (Hl _ Hu) as [Ha Hut]. apply by_end_step_mem in Ha. fold base in Ha. rewrite Eb in Ha.
          apply in_app_iff in Ha as [Ha|Ha]; [|exact Ha]. apply in_app_iff in Ha as [Ha|[<-|[]]]; [specialize (Hb1 _ Ha); lia|lia]. }
        pose proof (NoDup_incl_length Hld Hincl) as Hc. cbn [List.length] in Hc.
        lia. }
      assert (Glo : dget Z.eqb (base ++ x) lo = Some cl).
      { rewrite get_app; [apply by_end_step_get; assumption|]. intro H. destruct (Hkx _ H) as [_ [_ Hc]]. apply Hc. exists cl. exact Hcl. }
      assert (Ghi : dget Z.eqb (base ++ x) hi = Some ch).
      { rewrite get_app; [apply by_end_step_get; assumption|]. intro H. destruct (Hkx _ H) as [_ [_ Hc]]. apply Hc. exists ch. exact Hch. }
      assert (Scl : asize cl = n) by (destruct Hcl as [k [Hin _]]; apply (Hsz k cl Hin)).
      assert (Sch : asize ch = n) by (destruct Hch as [k [Hin _]]; apply (Hsz k ch Hin)).
      assert (Hd : exists d, lin_expr_with add sub mul div (adata cl) (adata ch) t lo hi = Ok d).
      { unfold lin_expr_with. rewrite ew2_ok by (unfold asize in *; congruence). cbn [rbind].
        rewrite ew2_ok; [eauto|]. rewrite map_length, zipw_length. unfold asize in *. lia. }
      destruct Hd as [d Hd].
      assert (Sd : List.length d = n).
      { pose proof Hd as Hd'. unfold lin_expr_with in Hd'. apply rbind_ok in Hd' as [df [D1 D2]]. apply ew2_inv in D1 as [_ ->]. apply ew2_inv in D2 as [_ ->].
        rewrite zipw_length, map_length, zipw_length. unfold asize in *. lia. }
      unfold interp_field_with. rewrite Hnei. cbn [rbind]. unfold dgetx. rewrite Ghi, Glo. cbn [rbind]. rewrite Hd. cbn [rbind].
      set (a := masked_where (get_masks [cl; ch]) d).
      rewrite (dset_new Z.eqb Zeqb_spec') by exact Hnt. rewrite <- app_assoc.
      exists (x ++ [(t, a)])%list. split; [reflexivity|].
      assert (Hnot0 : t <> 0).
      { destruct Hg as [j [Hj [-> _]]]. nia. }
      assert (Hra : right t a).
      { split; [unfold asize, a; rewrite adata_masked_where; exact Sd|]. right. right. exists lo, hi, cl, ch, d. auto. }
      assert (Hgs : on_grid (first - s) end_ s t).
      { destruct Hg as [j [Hj [-> Hle]]]. exists (j + 1). split; [lia|]. split; [lia|exact Hle]. }
      split.
      { split.
        - rewrite map_app. cbn [map fst]. apply NoDup_app_single; assumption.
        - intros k f Hk. apply in_app_iff in Hk as [Hk|[E|[]]].
          + destruct Hmono as [_ Hm]. apply Hm. exact Hk.
          + injection E as <- <-. split; [exact Hgs|]. split; [lia|]. split; assumption. }
      rewrite app_assoc, <- (dset_new Z.eqb Zeqb_spec') by exact Hnt.
      split; [exists a; rewrite (dget_dset Z.eqb Zeqb_spec'), Z.eqb_refl; reflexivity|].
      split; [|intro Hc; contradiction].
      intros k Hk. rewrite (dget_dset Z.eqb Zeqb_spec'). destruct (Z.eqb_spec k t); [contradiction|reflexivity].
  Qed.

  Lemma out_ok u (f p : arr) : asize f = n -> asize p = n -> exists o, acc_out_with add sub mul div n u s f p = Ok o.
  Proof using.
    clear. intros Sf Sp. unfold acc_out_with. rewrite ew2_ok by (rewrite zeros_length; unfold asize in *; congruence). cbn [rbind].
    rewrite ew2_ok; [cbn [rbind]; eauto|]. rewrite zipw_length, zeros_length. unfold asize in *. lia.
  Qed.

  (** what is known of the windows *)
  Definition windows (u : Z) (out : fields) : Prop :=
    forall k a, In (k, a) out -> s_start k = s_end k - s /\ 0 < s_end k <= end_ /\
      exists f p, right (s_end k) f /\ right (s_start k) p /\ acc_out_with add sub mul div n u s f p = Ok a.

  Lemma gap_body g rs lv x z out t : a_step g = s -> a_force g = false -> windows (a_unit g) out -> added x t -> on_grid first end_ s t ->
    (available values t \/ exists lo hi, gap values lo t hi) ->
    ((exists p, dget Z.eqb (base ++ x) (t - s) = Some p) \/ (x = [] /\ t = s /\ ~ available values 0 /\ z = false)) ->
    exists x' z' out', acc_body_with add sub mul div g n rs lv (mkAcc (base ++ x) z out) t = Ok (mkAcc (base ++ x') z' out') /\ added x' (t + 1) /\ windows (a_unit g) out' /\
      exists f, dget Z.eqb (base ++ x') t = Some f.
  Proof using Hs Hfirst Hone Hsz Henough.
    intros Es Ef Hw Hadd Hg Hcase Hprev.
    destruct (fill_iter x t Hadd Hg Hcase) as [x1 [H1 [Hadd1 [[f Hf] [Hkeep Hsame]]]]].
    unfold acc_body_with. cbn [ac_v ac_zero ac_out]. rewrite H1. cbn [rbind]. rewrite Es.
    assert (Hfin : forall x2 z2 p, added x2 (t + 1) -> dget Z.eqb (base ++ x2) t = Some f -> dget Z.eqb (base ++ x2) (t - s) = Some p ->
      exists x' z' out', (do prev <- acc_prev_field n s (a_force g) (base ++ x2) t; do cur <- dgetx Z.eqb (base ++ x2) t;
        (let key := mkStep (t - s) t rs s lv in do out0 <- acc_out_with add sub mul div n (a_unit g) s cur prev; Ok (mkAcc (base ++ x2) z2 (dset step_eqb out key out0))))
        = Ok (mkAcc (base ++ x') z' out') /\ added x' (t + 1) /\ windows (a_unit g) out' /\ exists f, dget Z.eqb (base ++ x') t = Some f).
    { intros x2 z2 p Hadd2 Ht Hp. unfold acc_prev_field. rewrite Ef, andb_false_r. unfold dgetx. rewrite Hp, Ht. cbn [rbind].
      destruct (out_ok (a_unit g) f p) as [o Ho]; [apply (get_right x2 (t + 1) t f Hadd2 Ht)|apply (get_right x2 (t + 1) (t - s) p Hadd2 Hp)|].
      rewrite Ho. cbn [rbind].
      exists x2. eexists. eexists. split; [reflexivity|]. split; [exact Hadd2|]. split; [|exists f; exact Ht].
      intros k a Hk. apply In_dset_step in Hk as [[-> ->]|Hk]; [|apply Hw, Hk]. cbn [s_start s_end]. split; [reflexivity|].
      split; [destruct Hg as [j [Hj [-> Hle]]]; nia|].
      exists f, p. split; [exact (get_right x2 (t + 1) t f Hadd2 Ht)|]. split; [exact (get_right x2 (t + 1) (t - s) p Hadd2 Hp)|exact Ho]. }
    destruct Hprev as [[p Hp]|[-> [Ets [Hn0 ->]]]].
    - assert (Hin : In (t - s) (dkeys (base ++ x))) by (apply (dmem_In Z.eqb Zeqb_spec'); unfold dmem; rewrite Hp; reflexivity).
      unfold acc_fill_prev_with. rewrite (proj2 (zmem_In _ _) Hin). cbn [negb]. rewrite andb_false_r. cbn [andb rbind].
      apply (Hfin x1 z p Hadd1 Hf). rewrite Hkeep by lia. exact Hp.
    - rewrite app_nil_r in *.
      assert (Hnb : ~ In 0 (dkeys base)) by (unfold base; rewrite by_end_step_mem; exact Hn0).
      assert (H0x : ~ In 0 (dkeys x1)).
      { intro Hc. apply in_map_iff in Hc as [[k fk] [Ek Hc]]. cbn [fst] in Ek. subst k.
        assert (Hd : dget Z.eqb (base ++ x1) 0 <> None).
        { intro Hd. apply (dget_None Z.eqb Zeqb_spec') in Hd. apply Hd. rewrite keys_app. apply in_or_app. right. apply in_map_iff. exists (0, fk). auto. }
        apply Hd. rewrite Hkeep by lia. apply (dget_None Z.eqb Zeqb_spec'). exact Hnb. }
      assert (Hnd : ~ In 0 (dkeys (base ++ x1))) by (rewrite keys_app, in_app_iff; tauto).
      assert (HFP : acc_fill_prev_with add sub mul div n s (base ++ x1) (dkeys base) t false = Ok ((base ++ x1 ++ [(0, Nd (zeros n))])%list, true)).
      { unfold acc_fill_prev_with. replace (t - s) with 0 by lia. rewrite (proj2 (zmem_nIn _ _) Hnb). change (0 <=? 0) with true. cbn [negb andb].
        assert (Hlate : exists u, In u (dkeys base) /\ 0 <= u).
        { destruct Hcase as [Hav|[lo [hi [Hlt [_ [Hh _]]]]]]; [exists t|exists hi]; (split; [apply by_end_step_mem; assumption|lia]). }
        destruct (bisect_left_exists (dkeys base) 0 (by_end_step_keys_sorted values) Hlate) as [y Hy].
        rewrite py_index_nat, Hy. cbn [rbind]. change (0 =? 0) with true. cbv iota.
        rewrite (dset_new Z.eqb Zeqb_spec') by exact Hnd. rewrite <- app_assoc. reflexivity. }
      rewrite HFP. cbn [rbind].
      assert (Ej : first = s).
      { destruct Hg as [j [Hj [E _]]]. destruct (Z.eq_dec j 0) as [->|Hj0]; [lia|]. assert (s <= j * s) by nia. lia. }
      assert (Hadd2 : added (x1 ++ [(0, Nd (zeros n))]) (t + 1)).
      { destruct Hadd1 as [Hd1 Hx1]. split; [rewrite map_app; cbn [map fst]; apply NoDup_app_single; assumption|].
        intros k fk Hk. apply in_app_iff in Hk as [Hk|[E|[]]]; [apply Hx1; exact Hk|]. injection E as <- <-.
        split; [exists 0; destruct Hg as [j [_ [_ Hle]]]; lia|]. split; [lia|]. split; [exact Hn0|].
        split; [apply zeros_length|]. left. auto. }
      apply (Hfin (x1 ++ [(0, Nd (zeros n))])%list true (Nd (zeros n)) Hadd2).
      + rewrite app_assoc, <- (dset_new Z.eqb Zeqb_spec') by exact Hnd. rewrite (dget_dset Z.eqb Zeqb_spec').
        destruct (Z.eqb_spec t 0); [lia|exact Hf].
      + rewrite app_assoc, <- (dset_new Z.eqb Zeqb_spec') by exact Hnd. rewrite (dget_dset Z.eqb Zeqb_spec').
        destruct (Z.eqb_spec (t - s) 0); [reflexivity|lia].
  Qed.

  Lemma gap_loop g rs lv l : a_step g = s -> a_force g = false -> forall t, chain s t l -> (forall u, In u l -> on_grid first end_ s u) ->
    (forall u, In u l -> available values u \/ exists lo hi, gap values lo u hi) -> forall x z out, windows (a_unit g) out -> added x t ->
    ((exists p, dget Z.eqb (base ++ x) (t - s) = Some p) \/ (x = [] /\ t = s /\ ~ available values 0 /\ z = false)) ->
    exists x' z' out', foldM (acc_body_with add sub mul div g n rs lv) l (mkAcc (base ++ x) z out) = Ok (mkAcc (base ++ x') z' out') /\ windows (a_unit g) out'.
  Proof using Hs Hfirst Hone Hsz Henough.
    intros Es Ef. induction l as [|b l IH]; intros t Hc Hg Hcase x z out Hw Hadd Hprev; cbn [foldM].
    - exists x, z, out. split; [reflexivity|exact Hw].
    - inversion Hc as [|? ? Hc' E1 E2]; subst b.
      destruct (gap_body g rs lv x z out t Es Ef Hw Hadd (Hg _ (or_introl eq_refl)) (Hcase _ (or_introl eq_refl)) Hprev) as [x1 [z1 [o1 [E [Ha [Hw1 [f Hf]]]]]]].
      rewrite E. cbn [rbind]. apply (IH _ Hc'); [intros; apply Hg; right; assumption|intros; apply Hcase; right; assumption|exact Hw1| |].
      + destruct Ha as [A B]. split; [exact A|]. intros k fk Hk. destruct (B _ _ Hk) as [P [Q R]]. split; [exact P|]. split; [lia|exact R].
      + left. exists f. replace (t + s - s) with t by lia. exact Hf.
  Qed.
End Gaps.

Theorem gap_windows add sub mul div : forall stype input unit s half start end_ sec values n,
  let g := aggr_init stype input unit s "accumulation" half false start end_ sec in
  let first := first_window start s in
  values <> [] -> 0 < s -> 0 <= start -> one_per_step values -> same_size values n ->
  (forall t, on_grid first end_ s t -> available values t \/ exists lo hi, gap values lo t hi) ->
  enough_later values first end_ s ->
  available values (first - s) \/ first = s ->
  exists out, do_manipulation_with add sub mul div g values = Ok out /\ windows add sub mul div values n end_ s unit out.
Proof.
  intros stype input unit s half start end_ sec values n g first Hne Hs Hst Hone Hsz Hav Hen H0.
  destruct values as [|[k0 a0] rest] eqn:Ev; [contradiction|]. rewrite <- Ev in *. clear Hne.
  assert (Hn0 : asize a0 = n) by (apply (Hsz k0 a0); rewrite Ev; left; reflexivity).
  assert (Hf0 : 0 < first) by (unfold first, first_window; destruct (Z.eqb_spec start 0); lia).
  destruct (py_range first (end_ + 1) s) as [iters|e] eqn:Er.
  2:{ rewrite py_range_pos_ok in Er by exact Hs. discriminate. }
  assert (Hgr : forall t, In t iters <-> on_grid first end_ s t) by (intro t; apply (in_grid_range _ _ _ _ t Hs Er)).
  unfold do_manipulation_with. cbn [a_type g aggr_init]. rewrite String.eqb_refl. unfold accumulation_with, accumulation_run_with.
  assert (Hfe : first_entry values = Ok (k0, a0)) by (rewrite Ev; reflexivity).
  rewrite Hfe. cbn [rbind].
  match goal with |- context [py_range ?x ?y ?z] => change (py_range x y z) with (py_range first (end_ + 1) s) end.
  rewrite Er. cbn [rbind]. rewrite Hn0.
  destruct (gap_loop add sub mul div values n first end_ s Hs Hf0 Hone Hsz Hen g (s_res k0) (s_level k0) iters eq_refl eq_refl first
    (py_range_chain _ _ _ _ Hs Er)) with (x := @nil (Z * arr)) (z := false) (out := @nil (step * arr)) as [x' [z' [out' [E Ha]]]].
  - intros u Hu. apply Hgr. exact Hu.
  - intros u Hu. apply Hav, Hgr. exact Hu.
  - intros k a [].
  - split; [constructor|intros k f []].
  - destruct (in_dec Z.eq_dec (first - s) (dkeys (by_end_step values))) as [Hi|Hi].
    + left. rewrite app_nil_r. apply (dmem_In Z.eqb Zeqb_spec') in Hi. unfold dmem in Hi.
      destruct (dget Z.eqb (by_end_step values) (first - s)) as [p|]; [exists p; reflexivity|discriminate].
    + rewrite by_end_step_mem in Hi. destruct H0 as [H0|H0]; [contradiction|]. right. split; [reflexivity|]. split; [exact H0|].
      split; [|reflexivity]. replace (first - s) with 0 in Hi by lia. exact Hi.
  - rewrite app_nil_r in E. fold g. rewrite E. cbn [rbind ac_out]. exists out'. split; [reflexivity|exact Ha].
Qed.
