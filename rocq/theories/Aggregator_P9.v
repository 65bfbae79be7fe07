(** * Aggregator_P9: accumulation of a series that is complete but for step 0. *)
From Verif Require Import Base Num Aggregator Spec_Aggregation Base_P Num_P Aggregator_P Aggregator_P2.
Local Open Scope Z_scope.

Section FromZero.
  Variables (g : aggr) (n : nat) (rs lv : Z) (V : ofields).
  Hypothesis Hs : 0 < a_step g.
  Hypothesis Sorted_V : Zsorted (dkeys V).

  (** the working fields: the input, with zeros at step 0 once they were made *)
  Definition zero_inv (st : acc_state) : Prop :=
    ac_v st = V /\ ac_zero st = false \/ ~ In 0 (dkeys V) /\ ac_v st = dset Z.eqb V 0 (Nd (zeros n)).

  Lemma zero_inv_get st t c : zero_inv st -> dget Z.eqb V t = Some c -> dget Z.eqb (ac_v st) t = Some c.
  Proof.
    intros [[-> _]|[N ->]] H; [exact H|]. rewrite (dget_dset Z.eqb Zeqb_spec'). destruct (Z.eqb_spec t 0) as [->|_]; [|exact H].
    exfalso. apply N. apply (dmem_In Z.eqb Zeqb_spec'). unfold dmem. now rewrite H.
  Qed.

  Lemma body_zero st t c : zero_inv st -> dget Z.eqb V t = Some c -> asize c = n ->
    (t - a_step g = 0 \/ exists p, dget Z.eqb V (t - a_step g) = Some p) ->
    (forall p, dget Z.eqb V (t - a_step g) = Some p -> asize p = n) ->
    exists st', acc_body g n rs lv st t = Ok st' /\ zero_inv st'.
  Proof.
    intros I Hc Sc Hp Sp. pose proof (zero_inv_get _ _ _ I Hc) as Hc'.
    destruct (dget Z.eqb (ac_v st) (t - a_step g)) as [p|] eqn:Ep.
    - assert (Sp' : asize p = n).
      { destruct I as [[E _]|[N E]]; rewrite E in Ep; [now apply Sp|]. rewrite (dget_dset Z.eqb Zeqb_spec') in Ep.
        destruct (t - a_step g =? 0); [injection Ep as <-; apply zeros_length|now apply Sp]. }
      destruct (acc_body_complete g n rs lv st t c p Hs Hc' Ep Sc Sp') as [a ->]. eexists. split; [reflexivity|].
      destruct I as [I|I]; [left|right]; exact I.
    - destruct Hp as [E0|[p Hp]]; [|rewrite (zero_inv_get _ _ _ I Hp) in Ep; discriminate Ep].
      destruct I as [[Ev Ez]|[_ Ev]]; [|rewrite Ev, E0, (dget_dset Z.eqb Zeqb_spec') in Ep; discriminate Ep].
      rewrite E0 in Ep. unfold acc_body, acc_fill_iter. rewrite Ev in *.
      assert (N0 : ~ In 0 (dkeys V)) by now apply (dget_None Z.eqb Zeqb_spec').
      assert (It : In t (dkeys V)) by (apply (dmem_In Z.eqb Zeqb_spec'); unfold dmem; now rewrite Hc).
      assert (Mt : zmem t (dkeys V) = true) by now apply zmem_In.
      rewrite Mt. cbn [rbind]. unfold acc_fill_prev. rewrite E0, Ez.
      assert (M0 : zmem 0 (dkeys V) = false) by now apply zmem_nIn.
      rewrite M0. change (0 <=? 0) with true. cbn [negb andb]. change (0 =? 0) with true. cbv iota.
      destruct (bisect_left_exists (dkeys V) 0 Sorted_V) as [y Hy]; [exists t; split; [exact It|lia]|].
      rewrite py_index_nat, Hy. cbn [rbind].
      assert (Hg : acc_prev_field n (a_step g) (a_force g) (dset Z.eqb V 0 (Nd (zeros n))) t = Ok (Nd (zeros n))).
      { unfold acc_prev_field. destruct ((t - a_step g =? 0) && a_force g); [reflexivity|]. rewrite E0. unfold dgetx.
        now rewrite (dget_dset Z.eqb Zeqb_spec'). }
      rewrite Hg. cbn [rbind]. unfold dgetx. rewrite (dget_dset Z.eqb Zeqb_spec'). destruct (Z.eqb_spec t 0) as [->|_]; [contradiction|].
      rewrite Hc. cbn [rbind]. rewrite acc_out_ok; [|exact Sc|apply zeros_length]. cbn [rbind].
      eexists. split; [reflexivity|]. right. split; [exact N0|reflexivity].
  Qed.

  Lemma loop_zero l :
    (forall t, In t l -> exists c, dget Z.eqb V t = Some c /\ asize c = n /\
       (t - a_step g = 0 \/ exists p, dget Z.eqb V (t - a_step g) = Some p) /\
       (forall p, dget Z.eqb V (t - a_step g) = Some p -> asize p = n)) ->
    forall st, zero_inv st -> exists st', foldM (acc_body g n rs lv) l st = Ok st' /\ zero_inv st'.
  Proof.
    induction l as [|t l IH]; intros H st I; cbn [foldM]; [eauto|].
    destruct (H t (or_introl eq_refl)) as (c & H1 & H2 & H3 & H4).
    destruct (body_zero st t c I H1 H2 H3 H4) as (st1 & E & I1). rewrite E. cbn [rbind]. apply IH; [|exact I1].
    intros t' Ht'. apply H. now right.
  Qed.
End FromZero.

Theorem accumulation_from_zero : forall stype input unit s half force start end_ sec values n,
  let g := aggr_init stype input unit s "accumulation" half force start end_ sec in
  let first := first_window start s in
  values <> [] -> 0 < s -> one_per_step values -> same_size values n ->
  (forall t, on_grid first end_ s t -> available values t /\ (t - s = 0 \/ available values (t - s))) ->
  exists out k0 a0 rest,
    values = (k0, a0) :: rest /\
    do_manipulation g values = Ok out /\
    NoDup (map fst out) /\
    (forall k, In k (map fst out) <->
       exists t, on_grid first end_ s t /\ k = mkStep (t - s) t (s_res k0) s (s_level k0)) /\
    (forall k a, In (k, a) out ->
       asize a = n /\
       forall ct i x y, has_field values (s_end k) ct -> cell ct i x ->
         s_start k = 0 /\ (force = true \/ ~ available values 0) /\ y = 0%Qc \/
         ~ (s_start k = 0 /\ force = true) /\ (exists cp, has_field values (s_start k) cp /\ cell cp i y) ->
         cell a i ((x - y) * ZQ unit / ZQ s)%Qc).
Proof.
  intros stype input unit s half force start end_ sec values n g first Hne Hs Hone Hsz Hav.
  assert (Ev : exists k0 a0 rest, values = (k0, a0) :: rest).
  { destruct values as [|[k0 a0] rest]; [contradiction|eauto]. }
  destruct Ev as [k0 [a0 [rest Ev]]].
  assert (Hn0 : asize a0 = n) by (apply (Hsz k0 a0); rewrite Ev; left; reflexivity).
  destruct (py_range first (end_ + 1) s) as [iters|e] eqn:Er.
  2:{ rewrite py_range_pos_ok in Er by exact Hs. discriminate. }
  assert (Hrun : exists st, accumulation_run g values = Ok st /\ zero_inv n (by_end_step values) st).
  { unfold accumulation_run.
    assert (Hfe : first_entry values = Ok (k0, a0)) by (rewrite Ev; reflexivity).
    rewrite Hfe. cbn [rbind].
    change (if a_start g =? 0 then a_step g else a_start g) with first.
    change (a_end g) with end_. change (a_step g) with s. rewrite Er. cbn [rbind]. rewrite Hn0.
    apply loop_zero; [exact Hs|apply by_end_step_keys_sorted| |left; split; reflexivity].
    intros t Ht. apply (in_grid_range _ _ _ _ t Hs Er) in Ht. change (a_step g) with s.
    destruct (Hav t Ht) as [[c Hc] Hp]. exists c.
    split; [apply by_end_step_get; assumption|]. split; [destruct Hc as [kc [Hc _]]; exact (proj1 (Hsz kc c Hc))|]. split.
    - destruct Hp as [E|[p Hp]]; [now left|right; exists p; apply by_end_step_get; assumption].
    - intros p Hp'. apply by_end_step_get in Hp' as [kp [Hp' _]]; [exact (proj1 (Hsz kp p Hp'))|exact Hone]. }
  destruct Hrun as [st [Hrun Hv]].
  destruct (accumulation_shape g values st Hs Hrun) as [k0' [a0' [rest' [iters' [E [Er' [Hext HF]]]]]]].
  rewrite Ev in E. injection E as <- <- <-. change (py_range first (end_ + 1) s = Ok iters') in Er'.
  rewrite Er in Er'. injection Er' as <-.
  exists (ac_out st), k0, a0, rest. split; [exact Ev|]. split.
  { unfold do_manipulation. cbn. unfold accumulation. rewrite Hrun. reflexivity. }
  split; [eapply acc_entries_NoDup; [eapply NoDup_py_range; eassumption|exact HF]|]. split.
  - intro k. split.
    + intro Hi. apply in_map_iff in Hi as [kv [<- Hi]]. destruct (Forall2_In_r _ _ _ _ HF Hi) as [t [Ht [Hk _]]].
      exists t. split; [apply (in_grid_range _ _ _ _ t Hs Er); exact Ht | exact Hk].
    + intros [t [Ht ->]]. apply (in_grid_range _ _ _ _ t Hs Er) in Ht.
      destruct (Forall2_In_l _ _ _ _ HF Ht) as [kv [Hi [Hk _]]]. apply in_map_iff. exists kv. split; [exact Hk|exact Hi].
  - intros k a Hi. destruct (Forall2_In_r _ _ _ _ HF Hi) as [t [Ht [Hk [c [p [Hc [Hp [Hnc [Hnp Ha]]]]]]]]].
    cbn [fst snd] in Hk, Ha. rewrite Ha. split.
    + unfold asize. rewrite adata_masked_where, acc_data_length; unfold asize in *; congruence.
    + intros ct i x y Hct Hx Hy. unfold cell. rewrite adata_masked_where.
      rewrite Hk in Hct, Hy. cbn [s_end s_start] in Hct, Hy. change (a_step g) with s in *. change (a_force g) with force in *. change (a_unit g) with unit.
      apply by_end_step_get in Hct; [|exact Hone].
      apply Hext in Hct. rewrite Hct in Hc. injection Hc as <-.
      assert (Cp : nth_error (adata p) i = Some (Fin y)).
      { assert (Li : (i < n)%nat) by (rewrite <- Hn0, <- Hnc; eapply cell_lt; exact Hx).
        destruct Hy as [(E0 & Hf & ->)|(Nf & cp & Hcp & Hy)].
        - rewrite E0 in Hp. change (0 =? 0) with true in Hp. cbn [andb] in Hp. destruct force.
          + subst p. cbn [adata]. apply nth_error_zeros. now rewrite Hn0.
          + destruct Hf as [Hf|Hf]; [discriminate Hf|]. destruct Hv as [[Hv _]|[_ Hv]]; rewrite Hv in Hp.
            * exfalso. apply Hf. apply by_end_step_get in Hp; [|exact Hone]. exists p. exact Hp.
            * rewrite (dget_dset Z.eqb Zeqb_spec') in Hp. injection Hp as <-. cbn [adata]. now apply nth_error_zeros.
        - apply by_end_step_get in Hcp; [|exact Hone]. apply Hext in Hcp.
          destruct (Z.eqb_spec (t - s) 0) as [E0|N0]; [destruct force; [exfalso; auto|]|]; cbn [andb] in Hp; rewrite Hcp in Hp; injection Hp as <-; exact Hy. }
      apply acc_data_cell; [lia|exact Hx|exact Cp].
Qed.
