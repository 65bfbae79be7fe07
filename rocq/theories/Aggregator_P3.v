(** * Proofs about the aggregator: start 0, one gap *)
From Verif Require Import Base Num Base_P Num_P Aggregator Spec_Aggregation Aggregator_P Aggregator_P2.
From Coq Require Import ZifyBool ZifyNat Sorting.Permutation Sorting.Sorted.
Ltac Zify.zify_post_hook ::= Z.div_mod_to_equations.
Local Open Scope Z_scope.

(** ** C03 *)
Lemma accumulation_start0 stype input unit s half force end_ sec values :
  do_manipulation (aggr_init stype input unit s "accumulation" half force 0 end_ sec) values =
  do_manipulation (aggr_init stype input unit s "accumulation" half force s end_ sec) values.
Proof.
  assert (H : forall g g', a_step g = a_step g' -> a_end g = a_end g' -> a_unit g = a_unit g' -> a_force g = a_force g' ->
    (if a_start g =? 0 then a_step g else a_start g) = (if a_start g' =? 0 then a_step g' else a_start g') ->
    accumulation_run g values = accumulation_run g' values).
  { intros g g' E1 E2 E3 E4 E5. unfold accumulation_run.
    destruct (first_entry values) as [[k0 a0]|]; [|reflexivity]. cbn [rbind].
    rewrite E5, E2, E1. destruct (py_range _ _ _) as [l|]; [|reflexivity]. cbn [rbind].
    unfold acc_body. rewrite E1, E3, E4. reflexivity. }
  unfold do_manipulation. cbn. unfold accumulation. erewrite H; try reflexivity.
  cbn. destruct (s =? 0) eqn:E; lia.
Qed.

Lemma start0_window stype input unit s type half force end_ sec : input <> 0 -> 0 <= s ->
  real_start_end (aggr_init stype input unit s type half force 0 end_ sec) =
  real_start_end (aggr_init stype input unit s type half force s end_ sec).
Proof.
  intros Hi Hs. unfold real_start_end, aggr_init. cbn [a_usable a_end].
  rewrite (proj2 (Z.eqb_neq _ _) Hi). cbn [negb]. rewrite Z.sub_diag.
  change (0 <? 0) with false. cbv iota zeta.
  destruct (0 - s <? 0) eqn:E; [reflexivity|]. f_equal. lia.
Qed.

(** ** C04: exactly one missing step *)
Lemma chain_split s : 0 < s -> forall l a t, chain s a l -> In t l ->
  exists l1 l2, l = l1 ++ t :: l2 /\ (forall u, In u l1 -> a <= u < t) /\ (forall u, In u l2 -> t < u).
Proof.
  intros Hs. induction l as [|b l IH]; intros a t Hc Hi; [destruct Hi|].
  inversion Hc; subst.
  assert (Hgt : forall l a, chain s a l -> forall u, In u l -> a <= u).
  { clear -Hs. induction l as [|b l IH]; intros a Hc u Hu; [destruct Hu|]. inversion Hc; subst.
    destruct Hu as [->|Hu]; [lia|]. pose proof (IH _ H1 u Hu). lia. }
  destruct Hi as [->|Hi].
  - exists [], l. split; [reflexivity|]. split; [intros u []|]. intros u Hu. pose proof (Hgt _ _ H1 u Hu). lia.
  - pose proof (Hgt _ _ H1 t Hi). destruct (IH _ _ H1 Hi) as [l1 [l2 [-> [Ha Hb]]]].
    exists (b :: l1), l2. split; [reflexivity|]. split; [|exact Hb].
    intros u [<-|Hu]; [lia|]. pose proof (Ha u Hu). lia.
Qed.

Lemma lin_expr_cell ots nts it og nx d i xo xn : nx <> og -> lin_expr ots nts it og nx = Ok d ->
  nth_error ots i = Some (Fin xo) -> nth_error nts i = Some (Fin xn) ->
  nth_error d i = Some (Fin (lin_interp og nx it xo xn)).
Proof.
  intros Hne H Ho Hn. apply lin_expr_ok in H as [_ ->].
  erewrite nth_error_zipw; [|exact Ho|eapply nth_error_map', nth_error_zipw; [exact Hn|exact Ho]].
  unfold nint. rewrite nsub_fin, ndiv_fin by (apply ZQ_neq0; lia). reflexivity.
Qed.

Lemma acc_body_gap g n rs lv v z out t lo hi cl ch p :
  0 < a_step g -> Zsorted (dkeys v) -> ~ In t (dkeys v) -> lo < t < hi ->
  (forall u, In u (dkeys v) -> u <= lo \/ hi <= u) ->
  dget Z.eqb v lo = Some cl -> dget Z.eqb v hi = Some ch -> dget Z.eqb v (t - a_step g) = Some p ->
  asize cl = n -> asize ch = n -> asize p = n ->
  exists d st', lin_expr (adata cl) (adata ch) t lo hi = Ok d /\
    acc_body g n rs lv (mkAcc v z out) t = Ok st' /\
    ac_v st' = dset Z.eqb v t (masked_where (get_masks [cl; ch]) d).
Proof.
  intros Hs Hsort Hn Hlt Hgap Hcl Hch Hp Sl Sh Sp.
  assert (Hin : forall u a, dget Z.eqb v u = Some a -> In u (dkeys v)).
  { intros u a Hu. apply (dmem_In Z.eqb Zeqb_spec'). unfold dmem. rewrite Hu. reflexivity. }
  assert (Hd : exists d, lin_expr (adata cl) (adata ch) t lo hi = Ok d).
  { unfold lin_expr. rewrite ew2_ok by (unfold asize in *; congruence). cbn [rbind].
    rewrite ew2_ok; [eauto|]. rewrite map_length, zipw_length. unfold asize in *. lia. }
  destruct Hd as [d Hd]. exists d.
  assert (Sd : List.length d = n).
  { apply lin_expr_ok in Hd as [_ ->]. rewrite zipw_length, map_length, zipw_length. unfold asize in *. lia. }
  unfold acc_body. cbn [ac_v ac_zero ac_out]. unfold acc_fill_iter.
  rewrite (proj2 (zmem_nIn _ _) Hn). unfold interp_field.
  rewrite (bisect_gap (dkeys v) t lo hi Hsort Hn (Hin _ _ Hcl) (Hin _ _ Hch) Hlt Hgap). cbn [rbind].
  unfold dgetx at 1 2. rewrite Hch, Hcl. cbn [rbind]. rewrite Hd. cbn [rbind].
  unfold acc_fill_prev. rewrite (proj2 (zmem_In _ _) (Hin _ _ Hp)). cbn [negb]. rewrite andb_false_r. cbn [andb rbind].
  set (a := masked_where (get_masks [cl; ch]) d).
  assert (Sa : asize a = n) by (unfold asize, a; rewrite adata_masked_where; exact Sd).
  assert (G1 : dget Z.eqb (dset Z.eqb v t a) (t - a_step g) = Some p).
  { rewrite (dget_dset Z.eqb Zeqb_spec'). destruct (Z.eqb_spec (t - a_step g) t); [lia|exact Hp]. }
  assert (G2 : dget Z.eqb (dset Z.eqb v t a) t = Some a).
  { rewrite (dget_dset Z.eqb Zeqb_spec'), Z.eqb_refl. reflexivity. }
  unfold acc_prev_field, dgetx. rewrite G1, G2.
  destruct ((t - a_step g =? 0) && a_force g); cbn [rbind].
  - rewrite acc_out_ok; [|exact Sa|apply zeros_length]. cbn [rbind]. eexists. split; [reflexivity|]. split; reflexivity.
  - rewrite acc_out_ok by assumption. cbn [rbind]. eexists. split; [reflexivity|]. split; reflexivity.
Qed.

Theorem accumulation_one_gap : forall stype input unit s half start end_ sec values n t0 lo hi,
  let g := aggr_init stype input unit s "accumulation" half false start end_ sec in
  let first := first_window start s in
  0 < s -> one_per_step values -> same_size values n ->
  on_grid first end_ s t0 -> gap values lo t0 hi ->
  available values (first - s) ->
  (forall t, on_grid first end_ s t -> t <> t0 -> available values t) ->
  exists out k0 a0 rest,
    values = (k0, a0) :: rest /\
    do_manipulation g values = Ok out /\
    NoDup (map fst out) /\
    (forall k, In k (map fst out) <->
       exists t, on_grid first end_ s t /\ k = mkStep (t - s) t (s_res k0) s (s_level k0)) /\
    (forall k a, In (k, a) out -> forall i x y,
       series_value values (s_end k) i x -> series_value values (s_start k) i y ->
       cell a i ((x - y) * ZQ unit / ZQ s)%Qc).
Proof.
  intros stype input unit s half start end_ sec values n t0 lo hi g first Hs Hone Hsz Ht0 Hgap Hav0 Hav.
  assert (Ev : exists k0 a0 rest, values = (k0, a0) :: rest).
  { destruct Hav0 as [c [k [Hin _]]]. destruct values as [|[k0 a0] rest]; [destruct Hin|eauto]. }
  destruct Ev as [k0 [a0 [rest Ev]]].
  assert (Hn0 : asize a0 = n) by (apply (Hsz k0 a0); rewrite Ev; left; reflexivity).
  destruct (py_range first (end_ + 1) s) as [iters|e] eqn:Er.
  2:{ rewrite py_range_pos_ok in Er by exact Hs. discriminate. }
  pose proof Hgap as [Hlt [[cl Hcl] [[ch Hch] Hbetween]]].
  assert (Hsize : forall t c, has_field values t c -> asize c = n).
  { intros t c [k [Hin _]]. apply (Hsz k c Hin). }
  pose proof (proj2 (by_end_step_get values lo cl Hone) Hcl) as Gcl.
  pose proof (proj2 (by_end_step_get values hi ch Hone) Hch) as Gch.
  assert (Hn0k : ~ In t0 (dkeys (by_end_step values))).
  { rewrite by_end_step_mem. intro H. destruct (Hbetween _ H); lia. }
  assert (Hin0 : In t0 iters) by (apply (in_grid_range _ _ _ _ t0 Hs Er); exact Ht0).
  pose proof (py_range_chain _ _ _ _ Hs Er) as Hch'.
  destruct (chain_split s Hs iters first t0 Hch' Hin0) as [l1 [l2 [El [Hl1 Hl2]]]].
  assert (Hprev : forall t, on_grid first end_ s t -> t - s <> t0 -> available values (t - s)).
  { intros t [j [Hj [-> Hle]]] Hne. destruct (Z.eq_dec j 0) as [->|Hj0].
    - replace (first + 0 * s - s) with (first - s) by lia. exact Hav0.
    - apply Hav; [|exact Hne]. exists (j - 1). split; [lia|]. split; [lia|nia]. }
  assert (Hrun : exists st d, accumulation_run g values = Ok st /\
     lin_expr (adata cl) (adata ch) t0 lo hi = Ok d /\
     ac_v st = dset Z.eqb (by_end_step values) t0 (masked_where (get_masks [cl; ch]) d)).
  { unfold accumulation_run.
    assert (Hfe : first_entry values = Ok (k0, a0)) by (rewrite Ev; reflexivity).
    rewrite Hfe. cbn [rbind].
    change (if a_start g =? 0 then a_step g else a_start g) with first.
    change (a_end g) with end_. change (a_step g) with s. rewrite Er. cbn [rbind]. rewrite Hn0.
    rewrite El, foldM_app.
    destruct (acc_loop_complete g n (s_res k0) (s_level k0) l1 (by_end_step values) Hs) with (z := false) (out := @nil (step * arr)) as [st1 [H1 V1]].
    { intros t Ht. assert (Hg : on_grid first end_ s t).
      { apply (in_grid_range _ _ _ _ t Hs Er). rewrite El. apply in_or_app. left. exact Ht. }
      pose proof (Hl1 t Ht).
      destruct (Hav t Hg ltac:(lia)) as [c Hc]. destruct (Hprev t Hg ltac:(lia)) as [p Hp].
      exists c, p. split; [apply by_end_step_get; assumption|]. split; [apply by_end_step_get; assumption|].
      split; eapply Hsize; eassumption. }
    rewrite H1. cbn [rbind foldM]. destruct st1 as [v1 z1 o1]. cbn [ac_v] in V1. subst v1.
    destruct (Hprev t0 Ht0 ltac:(lia)) as [p Hp].
    destruct (acc_body_gap g n (s_res k0) (s_level k0) (by_end_step values) z1 o1 t0 lo hi cl ch p) as [d [st2 [Hd [H2 V2]]]];
      try assumption.
    { apply by_end_step_keys_sorted. }
    { intros u Hu. apply by_end_step_mem in Hu. apply Hbetween. exact Hu. }
    { apply by_end_step_get; assumption. }
    { eapply Hsize; exact Hcl. } { eapply Hsize; exact Hch. } { eapply Hsize; exact Hp. }
    rewrite H2. cbn [rbind]. destruct st2 as [v2 z2 o2]. cbn [ac_v] in V2. subst v2.
    set (a := masked_where (get_masks [cl; ch]) d).
    assert (Sa : asize a = n).
    { unfold asize, a. rewrite adata_masked_where. apply lin_expr_ok in Hd as [Hle ->].
      rewrite zipw_length, map_length, zipw_length. pose proof (Hsize _ _ Hcl) as S. unfold asize in S. lia. }
    assert (Gset : forall t, dget Z.eqb (dset Z.eqb (by_end_step values) t0 a) t =
                             if t =? t0 then Some a else dget Z.eqb (by_end_step values) t).
    { intro t. apply (dget_dset Z.eqb Zeqb_spec'). }
    destruct (acc_loop_complete g n (s_res k0) (s_level k0) l2 (dset Z.eqb (by_end_step values) t0 a) Hs) with (z := z2) (out := o2) as [st3 [H3 V3]].
    { intros t Ht. assert (Hg : on_grid first end_ s t).
      { apply (in_grid_range _ _ _ _ t Hs Er). rewrite El. apply in_or_app. right. right. exact Ht. }
      pose proof (Hl2 t Ht).
      destruct (Hav t Hg ltac:(lia)) as [c Hc]. rewrite !Gset.
      rewrite (proj2 (Z.eqb_neq t t0) ltac:(lia)). change (a_step g) with s.
      destruct (Z.eqb_spec (t - s) t0) as [E|E].
      - exists c, a. split; [apply by_end_step_get; assumption|]. split; [reflexivity|].
        split; [eapply Hsize; exact Hc|exact Sa].
      - destruct (Hprev t Hg E) as [p' Hp']. exists c, p'.
        split; [apply by_end_step_get; assumption|]. split; [apply by_end_step_get; assumption|].
        split; eapply Hsize; eassumption. }
    exists st3, d. split; [exact H3|]. split; [exact Hd|exact V3]. }
  destruct Hrun as [st [d [Hrun [Hd Hv]]]].
  destruct (accumulation_shape g values st Hs Hrun) as [k0' [a0' [rest' [iters' [E [Er' [_ HF]]]]]]].
  rewrite Ev in E. injection E as <- <- <-. change (py_range first (end_ + 1) s = Ok iters') in Er'.
  rewrite Er in Er'. injection Er' as <-.
  exists (ac_out st), k0, a0, rest. split; [exact Ev|]. split.
  { unfold do_manipulation. cbn. unfold accumulation. rewrite Hrun. reflexivity. }
  split; [eapply acc_entries_NoDup; [eapply NoDup_py_range; eassumption|exact HF]|]. split.
  - intro k. split.
    + intro Hi. apply in_map_iff in Hi as [kv [<- Hi]]. destruct (Forall2_In_r _ _ _ _ HF Hi) as [t [Ht [Hk _]]].
      exists t. split; [apply (in_grid_range _ _ _ _ t Hs Er); exact Ht | exact Hk].
    + intros [t [Ht ->]]. apply (in_grid_range _ _ _ _ t Hs Er) in Ht.
      destruct (Forall2_In_l _ _ _ _ HF Ht) as [kv [Hi [Hk _]]]. apply in_map_iff. exists kv. split; [exact Hk|exact Hi].
  - intros k a Hi i x y Hx Hy.
    destruct (Forall2_In_r _ _ _ _ HF Hi) as [t [Ht [Hk [c [p [Hc [Hp [Hnc [Hnp Ha]]]]]]]]].
    cbn [fst snd] in Hk, Ha. rewrite Ha. unfold cell. rewrite adata_masked_where.
    rewrite Hk in Hx, Hy. cbn [s_end s_start] in Hx, Hy.
    assert (Hser : forall u b z, series_value values u i z -> dget Z.eqb (ac_v st) u = Some b -> (u = t \/ u = t - s) ->
                   nth_error (adata b) i = Some (Fin z)).
    { intros u b z Hz Hb Hu. rewrite Hv, (dget_dset Z.eqb Zeqb_spec') in Hb.
      destruct Hz as [[c' [Hc' Hz]]|[lo' [hi' [cl' [ch' [xl [xh [Hg' [Hl' [Hh' [Hxl [Hxh ->]]]]]]]]]]]].
      - destruct (Z.eqb_spec u t0) as [->|Hne].
        + exfalso. apply Hn0k. apply by_end_step_mem. exists c'. exact Hc'.
        + apply by_end_step_get in Hc'; [|exact Hone]. rewrite Hc' in Hb. injection Hb as <-. exact Hz.
      - assert (Hut : u = t0).
        { destruct (Z.eq_dec u t0) as [|Hne]; [assumption|]. exfalso.
          assert (Hau : available values u).
          { apply (in_grid_range _ _ _ _ t Hs Er) in Ht. destruct Hu as [->| ->]; [apply Hav|apply Hprev]; assumption. }
          destruct Hg' as [Hl0 [_ [_ Hb0]]]. destruct (Hb0 _ Hau); lia. }
        subst u. rewrite Z.eqb_refl in Hb. injection Hb as <-. rewrite adata_masked_where.
        destruct Hg' as [Hlt' [Hal [Hah Hb']]].
        assert (lo' = lo).
        { destruct (Hbetween lo' Hal) as [|]; [|lia]. destruct (Hb' lo (ex_intro _ cl Hcl)) as [|]; lia. }
        assert (hi' = hi).
        { destruct (Hbetween hi' Hah) as [|]; [lia|]. destruct (Hb' hi (ex_intro _ ch Hch)) as [|]; lia. }
        subst lo' hi'.
        assert (cl' = cl). { apply by_end_step_get in Hl'; [|exact Hone]. congruence. }
        assert (ch' = ch). { apply by_end_step_get in Hh'; [|exact Hone]. congruence. }
        subst cl' ch'. eapply lin_expr_cell; [lia|exact Hd|exact Hxl|exact Hxh]. }
    rewrite andb_false_r in Hp.
    apply acc_data_cell; [lia| |].
    + eapply Hser; [exact Hx|exact Hc|left; reflexivity].
    + eapply Hser; [exact Hy|exact Hp|right; reflexivity].
Qed.
