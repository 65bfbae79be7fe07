(** * Rounding errors of the correction formulas *)
From Coq Require Import ZArith QArith Qcanon Qcabs Reals Qreals Lia Lra List.
From Flocq Require Import Core.
From Verif Require Import Base Num Float64 Float64_P Float_Agg_P Numexpr Spec_Numexpr Numexpr_P.
Import ListNotations.
Local Open Scope Qc_scope.

Lemma inv2 n : (0 <= n)%Z -> QR (/ ZQ (2 ^ n)) = bpow radix2 (- n).
Proof.
  intro Hn. replace (/ ZQ (2 ^ n)) with (1 / ZQ (2 ^ n)) by (unfold Qcdiv; ring). rewrite QR_div by (apply QR_pos_Z; lia).
  rewrite QR_1, QR_ZQ, <- bpow_pow2 by lia. unfold Rdiv. rewrite Rmult_1_l, <- bpow_opp. reflexivity.
Qed.

Lemma small_sum x y n : (n <= 1022)%Z -> (Rabs (QR x) <= bpow radix2 n)%R -> (Rabs (QR y) <= bpow radix2 n)%R ->
  nround (Fin (x + y)) = Fin (round64 (x + y)) /\ (Rabs (QR (x + y)) <= bpow radix2 (n + 1))%R.
Proof.
  intros Hn Hx Hy. assert (B : (Rabs (QR (x + y)) <= bpow radix2 (n + 1))%R).
  { rewrite QR_add. apply Rle_trans with (1 := Rabs_triang _ _). rewrite bpow_plus. change (bpow radix2 1) with 2%R. lra. }
  split; [|exact B]. apply (nround_small _ (n + 1)); [lia|exact B].
Qed.

(** p + gem - dem * k *)
Lemma correction_close p g d k k' : round64 p = p -> round64 g = g -> (Qcabs p <= ZQ (2 ^ 900))%Qc -> (Qcabs g <= ZQ (2 ^ 900))%Qc -> (Qcabs d <= ZQ (2 ^ 900))%Qc ->
  (Qcabs k <= ZQ (2 ^ 10))%Qc -> (Qcabs (k' - k) <= / ZQ (2 ^ 53) * Qcabs k)%Qc ->
  fsub (fadd (Fin p) (Fin g)) (fmul (Fin d) (Fin k')) = Fin (round64 (round64 (p + g) - round64 (d * k'))) /\
  (Qcabs (round64 (round64 (p + g) - round64 (d * k')) - (p + g - d * k)) <= / ZQ (2 ^ 50) * (Qcabs p + Qcabs g + Qcabs (d * k)) + / ZQ (2 ^ 1072))%Qc.
Proof.
  intros Rp Rg Bp Bg Bd Bk Hk.
  destruct (mul_close d k k' Bd Bk Hk) as [t [Et [Ct _]]].
  assert (Et' : t = round64 (d * k')) by (apply fmul_fin in Et as [x [y [E1 [E2 ->]]]]; injection E1 as <-; injection E2 as <-; reflexivity).
  assert (Rt : round64 t = t) by (rewrite Et'; apply round64_idem). rewrite <- Et'.
  assert (St : (Rabs (QR t) <= bpow radix2 912)%R).
  { apply QR_le in Ct. rewrite QR_add, QR_mul, !QR_abs, QR_sub, QR_mul, !inv2 in Ct by lia. apply QR_le in Bd, Bk. rewrite QR_abs, QR_ZQ, <- bpow_pow2 in Bd, Bk by lia.
    assert (P : (Rabs (QR d * QR k) <= bpow radix2 910)%R) by (rewrite Rabs_mult; change 910%Z with (900 + 10)%Z; rewrite bpow_plus; apply Rmult_le_compat; try apply Rabs_pos; assumption).
    replace (QR t) with ((QR t - QR d * QR k) + QR d * QR k)%R by ring. apply Rle_trans with (1 := Rabs_triang _ _).
    assert (Q1 : (bpow radix2 (- (51)) <= 1)%R) by (apply (bpow_le radix2 _ 0); lia). assert (Q2 : (bpow radix2 (- (1073)) <= bpow radix2 910)%R) by (apply bpow_le; lia).
    change 912%Z with (2 + 910)%Z. rewrite bpow_plus. change (bpow radix2 2) with 4%R. pose proof (bpow_gt_0 radix2 (- (51))). pose proof (Rabs_pos (QR d * QR k)). nra. }
  apply QR_le in Bp, Bg. rewrite QR_abs, QR_ZQ, <- bpow_pow2 in Bp, Bg by lia.
  destruct (small_sum p g 900 ltac:(lia) Bp Bg) as [E1 S1].
  assert (Rs : round64 (round64 (p + g)) = round64 (p + g)) by apply round64_idem.
  assert (S2 : (Rabs (QR (round64 (p + g))) <= bpow radix2 912)%R).
  { apply round64_bound; [lia|]. apply Rle_trans with (1 := S1). apply bpow_le. lia. }
  assert (E2 : fsub (Fin (round64 (p + g))) (Fin t) = Fin (round64 (round64 (p + g) - t))).
  { unfold fsub, nsub. cbn [nadd nopp]. apply (small_sum _ (- t) 912); [lia|exact S2|]. rewrite QR_opp, Rabs_Ropp. exact St. }
  split.
  - unfold fadd at 1. cbn [nadd]. rewrite E1, Et. exact E2.
  - apply QR_le. apply QR_le in Ct. rewrite QR_add, QR_mul, !QR_abs, QR_sub, QR_mul, !inv2 in Ct by lia.
    rewrite ?QR_add, ?QR_mul, ?QR_abs, ?QR_sub, ?QR_add, ?QR_mul, !inv2 by lia.
    rewrite ?QR_add, ?QR_abs, ?QR_mul.
    destruct (round64_sub _ _ Rs Rt) as [d2 [Hd2 ->]]. destruct (round64_add _ _ Rp Rg) as [d1 [Hd1 ->]].
    set (A := (Rabs (QR p) + Rabs (QR g))%R). set (K := (QR d * QR k)%R) in *.
    assert (HA : (Rabs (QR p + QR g) <= A)%R) by apply Rabs_triang.
    pose proof u64_pos as Hu. pose proof u64_small as Hus.
    change (bpow radix2 (- (51))) with (bpow radix2 (2 + -53)) in Ct. rewrite bpow_plus in Ct. change (bpow radix2 2) with 4%R in Ct. fold u64 in Ct.
    change (bpow radix2 (- (50))) with (bpow radix2 (3 + -53)). rewrite bpow_plus. change (bpow radix2 3) with 8%R. fold u64.
    change (bpow radix2 (- (1072))) with (bpow radix2 (1 + -(1073))). rewrite bpow_plus. change (bpow radix2 1) with 2%R.
    pose proof (bpow_gt_0 radix2 (-(1073))) as He. set (eta := bpow radix2 (-(1073))) in *.
    replace (((QR p + QR g) * (1 + d1) - QR t) * (1 + d2) - (QR p + QR g - K))%R
      with ((QR p + QR g) * (d1 + d2 + d1 * d2) - (QR t - K) * (1 + d2) - K * d2)%R by ring.
    apply Rabs_le_inv in Hd1. apply Rabs_le_inv in Hd2.
    assert (A1 : (Rabs ((QR p + QR g) * (d1 + d2 + d1 * d2)) <= A * (3 * u64))%R).
    { rewrite Rabs_mult. apply Rmult_le_compat; try apply Rabs_pos; [exact HA|]. apply Rabs_le. split; nra. }
    assert (A2 : (Rabs ((QR t - K) * (1 + d2)) <= (4 * u64 * Rabs K + eta) * (1 + u64))%R).
    { rewrite Rabs_mult. apply Rmult_le_compat; try apply Rabs_pos; [exact Ct|]. apply Rabs_le. lra. }
    assert (A3 : (Rabs (K * d2) <= Rabs K * u64)%R) by (rewrite Rabs_mult; apply Rmult_le_compat_l; [apply Rabs_pos|apply Rabs_le; lra]).
    apply Rle_trans with (1 := Rabs_triang _ _). rewrite Rabs_Ropp.
    apply Rle_trans with (Rabs ((QR p + QR g) * (d1 + d2 + d1 * d2)) + Rabs ((QR t - K) * (1 + d2)) + Rabs (K * d2))%R.
    + apply Rplus_le_compat_r. apply Rle_trans with (1 := Rabs_triang _ _). rewrite Rabs_Ropp. lra.
    + pose proof (Rabs_pos K) as PK. pose proof (Rabs_pos (QR p)). pose proof (Rabs_pos (QR g)). assert (0 <= A)%R by (unfold A; lra).
      assert (0 <= u64 * Rabs K)%R by (apply Rmult_le_pos; lra). assert (0 <= u64 * A)%R by (apply Rmult_le_pos; lra). fold A. nra.
Qed.

Lemma correction_order p p' g d d' k k' : (0 <= k')%Qc -> k = k' -> (p <= p')%Qc -> (d' <= d)%Qc ->
  (round64 (round64 (p + g) - round64 (d * k)) <= round64 (round64 (p' + g) - round64 (d' * k')))%Qc.
Proof.
  intros Hk -> Hp Hd. apply round64_le. unfold Qcminus. apply Qcplus_le_compat.
  - apply round64_le. apply Qcplus_le_compat; [exact Hp|apply Qcle_refl].
  - apply Qcopp_le_compat. apply round64_le. apply Qcmult_le_compat_r; assumption.
Qed.
