(** * Property C111, averages with half weights in double precision.
    Vocabulary: Spec_Aggregation.v (half_weight, available_in), Spec_Float.v,
    Spec_Float2.v. *)
From Coq Require Import ZArith QArith Qcanon Qcabs Reals Qreals Lia Lra List Permutation.
From Flocq Require Import Core.
From Verif Require Import Base Num Float64 Aggregator AggregatorWith Spec_Aggregation Spec_Float Spec_Float2 Base_P Num_P Aggregator_P Aggregator_P2 Aggregator_P4 Aggregator_P5 AggregatorWith_P2
  Float64_P Float_Agg_P Float_Agg_P2 Float_Sum Float_Sum_P Float_Sum_P2 Float_Weights_P Float_Weights_P2 Float_Half_P Props_Aggregation Props_Float.
Import ListNotations.
Local Open Scope string_scope.
Local Open Scope Z_scope.

Lemma half_weight_R a s N t : 1 <= s <= 2 ^ 20 -> 1 <= N <= 2 ^ 20 -> (IZR s / IZR N / 2 <= QR (half_weight a s N t))%R /\ (0 < QR (half_weight a s N t) <= bpow radix2 20)%R.
Proof.
  intros Hs HN. assert (Ns : ZQ N <> 0%Qc) by (apply QR_pos_Z; lia). assert (N2 : ZQ 2 <> 0%Qc) by (apply QR_pos_Z; lia).
  assert (Is : (1 <= IZR s <= 1048576)%R) by (split; [apply (IZR_le 1)|apply (IZR_le s 1048576)]; lia). assert (IN : (1 <= IZR N <= 1048576)%R) by (split; [apply (IZR_le 1)|apply (IZR_le N 1048576)]; lia).
  assert (Hq : (0 < IZR s / IZR N <= 1048576)%R).
  { split; [apply Rmult_lt_0_compat; [lra|apply Rinv_0_lt_compat; lra]|].
    apply Rmult_le_reg_r with (IZR N); [lra|]; unfold Rdiv; rewrite Rmult_assoc, Rinv_l by lra; lra. }
  change (bpow radix2 20) with 1048576%R. unfold half_weight. destruct (_ || _).
  - rewrite !QR_div, !QR_ZQ by assumption. split; [lra|]. split; lra.
  - rewrite !QR_div, !QR_ZQ by assumption. split; lra.
Qed.

Lemma half_window values n s iter sm ct l (i : nat) f :
  1 <= s <= 2 ^ 20 -> one_per_step values -> same_size values n -> (i < n)%nat ->
  available_in values iter (iter + s) l -> (2 <= List.length l)%nat -> Z.of_nat (List.length l) <= 2 ^ 20 ->
  (forall t c, In t l -> has_field values t c -> masked_at c i = false /\ cell c i (f t)) ->
  (forall t, In t l -> double 800 (f t)) ->
  avg_half_with fadd fmul fdiv (by_end_step values) n s iter = Ok (sm, ct) ->
  let w := half_weight iter s (Z.of_nat (List.length l) - 1) in
  exists x r, nth_error sm i = Some x /\ fdiv x ct = Fin r /\ ((forall t, In t l -> (0 <= f t)%Qc) -> (0 <= r)%Qc) /\
    (Qcabs (r - Qsum (map (fun t => w t * f t) l) / Qsum (map w l)) <= count l * (half_to 49 * (Qsum (map (fun t => w t * Qcabs (f t)) l) / Qsum (map w l)) + half_to 1072))%Qc.
Proof.
  intros Hs Hone Hsz Hi Hl Hlen Hlen' Hf Hd H1 w. unfold avg_half_with in H1. apply rbind_ok in H1 as [ts [Hts H1]].
  pose proof (half_window_list values iter s l ts ltac:(lia) Hl Hts) as El. rewrite El in H1.
  set (N := Z.of_nat (List.length l) - 1) in *. assert (HN : 1 <= N <= 2 ^ 20) by lia. cbv zeta in H1.
  rewrite (proj2 (Z.ltb_lt 0 N)) in H1 by lia.
  destruct (weights_half s N Hs HN) as [d1 [d2 [e1 [e2 [E1 [E2 [F1 [F2 [B1 [B2 [V1 V2]]]]]]]]]]]. rewrite E1, E2 in H1.
  assert (Hcells : forall t c, In t ts -> dget Z.eqb (by_end_step values) t = Some c -> wf_arr c /\ masked_at c i = false /\ cell c i (f t)).
  { intros t c Ht Hc. apply by_end_step_get in Hc; [|exact Hone].
    assert (Htl : In t l) by (rewrite <- El; apply filter_In; split; [exact Ht|]; apply zmem_In, by_end_step_mem; exists c; exact Hc).
    split; [destruct Hc as [k [Hin _]]; apply (Hsz k c Hin)|]. apply (Hf t c Htl Hc). }
  destruct (half_fold fadd fmul (by_end_step values) i iter (iter + s + 1) (Fin d1) (Fin d2) f ts Hcells (zeros n) (Fin 0) (nint 0) sm ct (nth_error_zeros n i Hi) H1) as [G1 G2].
  rewrite El in G1, G2.
  set (w' := fun t => if (t =? iter) || (t =? iter + s) then d2 else d1).
  assert (Ew : forall t, half_w iter (iter + s + 1) (Fin d1) (Fin d2) t = Fin (w' t)).
  { intro t. unfold half_w, w'. replace (iter + s + 1 - 1) with (iter + s) by lia. now destruct (_ || _). }
  assert (X1 : forall (l : list Z) z, fold_left (fun z t => fadd z (fmul (Fin (f t)) (half_w iter (iter + s + 1) (Fin d1) (Fin d2) t))) l z = fold_left (fun z t => fadd z (fmul (Fin (f t)) (Fin (w' t)))) l z)
    by (induction l0 as [|t l0 IH]; intro z; cbn [fold_left]; [reflexivity|now rewrite Ew, IH]).
  assert (X2 : forall (l : list Z) z, fold_left (fun z t => fadd z (half_w iter (iter + s + 1) (Fin d1) (Fin d2) t)) l z = fold_left (fun z t => fadd z (Fin (w' t))) l z)
    by (induction l0 as [|t l0 IH]; intro z; cbn [fold_left]; [reflexivity|now rewrite Ew, IH]).
  rewrite X1 in G1. rewrite X2 in G2.
  assert (Hc : (2 <= cnt l <= IZR (2 ^ 20))%R) by (unfold cnt; split; [apply (IZR_le 2)|apply IZR_le]; lia).
  assert (HW : (/ 2 <= QR (Qsum (map w l)))%R).
  { rewrite QR_Qsum, map_map. apply Rle_trans with (Rsum (map (fun _ : Z => (IZR s / IZR N / 2)%R) l)).
    - assert (IN : (0 < IZR N)%R) by (apply (IZR_lt 0); lia). assert (Is : (1 <= IZR s)%R) by (apply (IZR_le 1); lia).
      assert (Er : forall (l0 : list Z), Rsum (map (fun _ : Z => (IZR s / IZR N / 2)%R) l0) = (IZR (Z.of_nat (List.length l0)) * (IZR s / IZR N / 2))%R).
      { induction l0 as [|t l0 IH]; [cbn; ring|]. change (Rsum (map (fun _ : Z => (IZR s / IZR N / 2)%R) (t :: l0))) with (IZR s / IZR N / 2 + Rsum (map (fun _ : Z => (IZR s / IZR N / 2)%R) l0))%R.
        rewrite IH. cbn [List.length]. rewrite Nat2Z.inj_succ, succ_IZR. ring. }
      rewrite Er. replace (Z.of_nat (List.length l)) with (N + 1) by (unfold N; lia). rewrite plus_IZR.
      replace ((IZR N + 1) * (IZR s / IZR N / 2))%R with (IZR s / 2 + IZR s / IZR N / 2)%R by (field; lra).
      assert (0 <= IZR s / IZR N / 2)%R by (unfold Rdiv; repeat apply Rmult_le_pos; try lra; left; apply Rinv_0_lt_compat; lra). lra.
    - apply Rsum_le. intros t _. apply half_weight_R; lia. }
  assert (Hok : forall t, In t l -> ok_weight (w t) (w' t)).
  { intros t _. destruct (half_weight_R iter s N t Hs HN) as [_ [P1 P2]]. fold w in P1, P2. unfold ok_weight. split; [unfold w'; destruct (_ || _); assumption|]. split; [exact P1|]. split; [exact P2|].
    unfold w, w', half_weight. destruct (_ || _); [exists e2; auto|exists e1; auto]. }
  destruct (half_mean l w w' f ltac:(lra) ltac:(lra) HW Hok Hd) as [r [Er [R1 R2]]].
  eexists. exists r. split; [exact G1|]. rewrite G2. split; [exact Er|]. split; assumption.
Qed.

(** with half weights: the trapezoidal mean of the steps of the window up to
    (number of steps) * 2^-49 of the mean of the absolute values; it is not
    negative if the values are not *)
Theorem C111_half_weights : forall stype input unit s force start end_ sec values n out,
  let g := aggr_init stype input unit s "average" true force start end_ sec in
  1 <= s < 2 ^ 20 -> one_per_step values -> same_size values n ->
  do_manipulation64 g values = Ok out ->
  forall k a l i f, In (k, a) out -> (i < n)%nat ->
    available_in values (s_start k) (s_end k) l -> (2 <= List.length l)%nat ->
    (forall t c, In t l -> has_field values t c -> masked_at c i = false /\ cell c i (f t)) ->
    (forall t, In t l -> double 800 (f t)) ->
    s_end k = s_start k + s /\
    let w := half_weight (s_start k) s (Z.of_nat (List.length l) - 1) in
    let mean h := (Qsum (map (fun t => w t * h t) l) / Qsum (map w l))%Qc in
    exists r, cell a i r /\ ((forall t, In t l -> (0 <= f t)%Qc) -> (0 <= r)%Qc) /\
      (Qcabs (r - mean f) <= count l * (half_to 49 * mean (fun t => Qcabs (f t)) + half_to 1072))%Qc.
Proof.
  intros stype input unit s force start end_ sec values n out g Hs Hone Hsz H. unfold do_manipulation64, do_manipulation_with in H. cbn [a_type g aggr_init] in H.
  destruct (String.eqb_spec "average" "accumulation") as [E|_]; [discriminate E|]. rewrite String.eqb_refl in H.
  unfold average_with in H. destruct (String.eqb _ _); [discriminate|]. apply rbind_ok in H as [[k0 a0] [H0 H]].
  destruct (avg_bounds g) as [lo hi]. apply rbind_ok in H as [its [Hi H]].
  destruct values as [|kv rest] eqn:Ev; [discriminate|]. rewrite <- Ev in *. assert (Hin0 : In (k0, a0) values) by (rewrite Ev in *; injection H0 as ->; left; reflexivity).
  assert (Hn0 : asize a0 = n) by apply (Hsz k0 a0 Hin0). rewrite Hn0 in H. clear H0 Ev.
  refine (foldM_inv _ (fun out => forall k a l i f, In (k, a) out -> (i < n)%nat -> available_in values (s_start k) (s_end k) l -> (2 <= List.length l)%nat ->
    (forall t c, In t l -> has_field values t c -> masked_at c i = false /\ cell c i (f t)) -> (forall t, In t l -> double 800 (f t)) -> s_end k = s_start k + s /\
    let w := half_weight (s_start k) s (Z.of_nat (List.length l) - 1) in
    let mean h := (Qsum (map (fun t => w t * h t) l) / Qsum (map w l))%Qc in
    exists r, cell a i r /\ ((forall t, In t l -> (0 <= f t)%Qc) -> (0 <= r)%Qc) /\
      (Qcabs (r - mean f) <= count l * (half_to 49 * mean (fun t => Qcabs (f t)) + half_to 1072))%Qc) _ _ _ _ _ H).
  - intros o1 x o2 _ IH Hb k a l i f Hin Hi' Hl Hlen Hf Hd. unfold avg_body_with in Hb. change (a_half g) with true in Hb. cbv iota in Hb.
    apply rbind_ok in Hb as [[sm ct] [Hp Hb]]. injection Hb as <-.
    apply In_dset_step in Hin as [[-> ->]|Hin]; [|now apply (IH k a l i f Hin)]. cbn [s_start s_end] in *. change (a_step g) with s in *. split; [reflexivity|]. cbv zeta.
    assert (Hlen' : Z.of_nat (List.length l) <= 2 ^ 20).
    { assert (Hle : (List.length l <= List.length (map (fun j => (x + Z.of_nat j)%Z) (seq 0 (Z.to_nat (s + 1)))))%nat).
      { apply NoDup_incl_length.
        - destruct Hl as [Hsrt _]. clear -Hsrt. induction Hsrt as [|y l _ IH Hy]; constructor; [|exact IH]. intro Hc. rewrite Forall_forall in Hy. specialize (Hy _ Hc). lia.
        - intros t Ht. apply (proj2 Hl) in Ht as [Ht _]. apply in_map_iff. exists (Z.to_nat (t - x)). split; [lia|]. apply in_seq. lia. }
      rewrite map_length, seq_length in Hle. lia. }
    destruct (half_window values n s x sm ct l i f ltac:(lia) Hone Hsz Hi' Hl Hlen Hlen' Hf Hd Hp) as [y [r [Y1 [Y2 [Y3 Y4]]]]].
    exists r. split; [|split; [exact Y3|exact Y4]]. unfold cell. unfold masked_where. cbn [adata]. erewrite nth_error_map'; [|exact Y1]. now rewrite Y2.
  - intros k a l i f [].
Qed.
Print Assumptions C111_half_weights.

Definition half_series : fields := [(st 0, Nd (tenth 3 :: nil)%list); (st 1, Nd (tenth 1 :: nil)%list); (st 3, Nd (tenth 2 :: nil)%list); (st 4, Nd (tenth 7 :: nil)%list)].
Definition half_f (t : Z) : Qc := round64 (ZQ (if t =? 0 then 3 else if t =? 1 then 1 else if t =? 3 then 2 else 7) / ZQ 10)%Qc.
Example C111_half_nonvacuous : one_per_step half_series /\ same_size half_series 1 /\
  (exists out a, do_manipulation64 (aggr_init "instant" 1 24 4 "average" true false 0 4 false) half_series = Ok out /\ In (mkStep 0 4 1 4 0, a) out) /\
  available_in half_series 0 4 [0; 1; 3; 4] /\
  (forall t c, In t [0; 1; 3; 4] -> has_field half_series t c -> masked_at c 0 = false /\ cell c 0 (half_f t)) /\
  (forall t, In t [0; 1; 3; 4] -> double 800 (half_f t)).
Proof.
  split; [show_nodup|]. split; [show_size|]. split; [eexists; eexists; split; [vm_compute; reflexivity|left; reflexivity]|]. split; [|split].
  - split; [repeat (constructor; [|repeat (constructor; [lia|]); constructor]); constructor|]. intro t. split.
    + intro H. split; [cbn [In] in H; lia|]. apply avail_iff. cbn. cbn [In] in H. lia.
    + intros [_ H]. apply avail_iff in H. cbn in H. cbn [In]. lia.
  - intros t c _ [k [H E]]. in_cases H; cbn [s_end st] in E; subst t; split; reflexivity.
  - intros t H. cbn [In] in H. destruct H as [<-|[<-|[<-|[<-|[]]]]]; split; try apply round64_idem; vm_compute; discriminate.
Qed.
