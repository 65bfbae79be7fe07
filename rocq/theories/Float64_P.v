(** * Float64: the rounding is that of IEEE binary64 (Flocq) *)
From Coq Require Import ZArith QArith Qcanon Qcabs Reals Qreals Lia Lra.
From Flocq Require Import Core Relative Plus_error.
From Verif Require Import Base Num Float64.

Local Open Scope R_scope.
(** rounding to nearest even of Flocq *)
Definition ieee (prec emin : Z) (x : R) : R := round radix2 (FLT_exp emin prec) ZnearestE x.

Local Instance prec53 : FLX.Prec_gt_0 53 := eq_refl.
Local Instance prec24 : FLX.Prec_gt_0 24 := eq_refl.

Lemma nearest_even_spec n d : (0 < d)%Z -> ZnearestE (IZR n / IZR d) = nearest_even n d.
Proof.
  intro Hd. assert (Hd' : 0 < IZR d) by now apply (IZR_lt 0).
  assert (Ef : Zfloor (IZR n / IZR d) = (n / d)%Z) by (apply Zfloor_div; lia).
  unfold Znearest, nearest_even. rewrite Ef.
  pose proof (Z.div_mod n d ltac:(lia)) as Hm. pose proof (Z.mod_pos_bound n d Hd) as Hb.
  set (f := (n / d)%Z) in *. set (r := (n mod d)%Z) in *.
  assert (Ex : IZR n / IZR d - IZR f = IZR r / IZR d).
  { rewrite Hm, plus_IZR, mult_IZR. field. lra. }
  assert (Ec : Zceil (IZR n / IZR d) = if (r =? 0)%Z then f else (f + 1)%Z).
  { destruct (Z.eqb_spec r 0) as [E|E].
    - replace (IZR n / IZR d) with (IZR f); [apply Zceil_IZR|].
      rewrite E in Ex. replace (IZR 0 / IZR d) with 0 in Ex by (field; lra). lra.
    - rewrite Zceil_floor_neq; [now rewrite Ef|]. rewrite Ef. intro H. apply E.
      assert (IZR r = 0); [|now apply eq_IZR].
      assert (IZR r / IZR d = 0) by lra. apply (Rmult_eq_reg_r (/ IZR d)); [lra|]. apply Rinv_neq_0_compat. lra. }
  rewrite Ec, Ex.
  assert (Eh : / 2 = IZR d / (2 * IZR d)) by (field; lra).
  destruct (Z.compare_spec (2 * r) d) as [E|E|E].
  - rewrite Rcompare_Eq.
    + destruct (Z.eqb_spec r 0) as [E0|E0]; [lia|]. destruct (Z.even f); reflexivity.
    + rewrite <- E, mult_IZR. field. apply not_0_IZR. lia.
  - rewrite Rcompare_Lt; [reflexivity|]. apply IZR_lt in E. rewrite mult_IZR in E.
    apply Rmult_lt_reg_r with (IZR d); [lra|]. unfold Rdiv. rewrite Rmult_assoc, Rinv_l by lra. lra.
  - rewrite Rcompare_Gt.
    + destruct (Z.eqb_spec r 0) as [E0|E0]; [lia|]. reflexivity.
    + apply IZR_lt in E. rewrite mult_IZR in E.
      apply Rmult_lt_reg_r with (IZR d); [lra|]. unfold Rdiv. rewrite Rmult_assoc, Rinv_l by lra. lra.
Qed.

Lemma bpow_pow2 e : (0 <= e)%Z -> bpow radix2 e = IZR (2 ^ e).
Proof. intro H. rewrite <- (IZR_Zpower radix2) by assumption. reflexivity. Qed.

Lemma bpow_neg e : bpow radix2 e * bpow radix2 (- e) = 1.
Proof. rewrite <- bpow_plus, Z.add_opp_diag_r. reflexivity. Qed.

Lemma mag_ratio_spec n d : (n <> 0)%Z -> mag radix2 (IZR n / IZR (Zpos d)) = mag_ratio n d :> Z.
Proof.
  intro Hn. apply mag_unique. unfold mag_ratio.
  assert (Hd : 0 < IZR (Zpos d)) by (apply (IZR_lt 0); lia).
  unfold Rdiv at 1 2. rewrite Rabs_mult, Rabs_inv. fold (Rdiv (Rabs (IZR n)) (Rabs (IZR (Z.pos d)))). rewrite (Rabs_pos_eq (IZR (Z.pos d))) by lra. rewrite <- abs_IZR.
  set (a := Z.abs n) in *. assert (Ha : (0 < a)%Z) by (unfold a; lia).
  pose proof (Z.log2_spec a Ha) as [La La']. pose proof (Z.log2_spec (Zpos d) eq_refl) as [Ld Ld'].
  pose proof (Z.log2_nonneg a) as Na. pose proof (Z.log2_nonneg (Zpos d)) as Nd.
  set (la := Z.log2 a) in *. set (ld := Z.log2 (Zpos d)) in *. set (l := (la - ld)%Z) in *.
  unfold Z.succ in *.
  apply IZR_le in La. apply IZR_lt in La'. apply IZR_le in Ld. apply IZR_lt in Ld'.
  rewrite <- bpow_pow2 in La, La', Ld, Ld' by lia.
  assert (Hhi : IZR a / IZR (Z.pos d) < bpow radix2 (l + 1)).
  { apply Rmult_lt_reg_r with (IZR (Z.pos d)); [lra|]. unfold Rdiv. rewrite Rmult_assoc, Rinv_l by lra. rewrite Rmult_1_r.
    apply Rlt_le_trans with (1 := La'). replace (la + 1)%Z with ((l + 1) + ld)%Z by (unfold l; lia). rewrite bpow_plus.
    apply Rmult_le_compat_l; [apply bpow_ge_0|exact Ld]. }
  assert (Hlo : bpow radix2 (l - 1) <= IZR a / IZR (Z.pos d)).
  { apply Rmult_le_reg_r with (IZR (Z.pos d)); [lra|]. unfold Rdiv. rewrite Rmult_assoc, Rinv_l by lra. rewrite Rmult_1_r.
    apply Rle_trans with (2 := La). replace la with ((l - 1) + (ld + 1))%Z by (unfold l; lia). rewrite bpow_plus.
    apply Rmult_le_compat_l; [apply bpow_ge_0|lra]. }
  assert (Hr : (if (0 <=? l)%Z then (Z.pos d * 2 ^ l <=? a)%Z else (Z.pos d <=? a * 2 ^ (- l))%Z) = true <->
    bpow radix2 l <= IZR a / IZR (Z.pos d)).
  { destruct (Z.leb_spec 0 l) as [H|H]; rewrite Z.leb_le; split; intro G.
    - apply IZR_le in G. rewrite mult_IZR, <- bpow_pow2 in G by lia.
      apply Rmult_le_reg_r with (IZR (Z.pos d)); [lra|]. unfold Rdiv. rewrite Rmult_assoc, Rinv_l by lra. lra.
    - apply le_IZR. rewrite mult_IZR, <- bpow_pow2 by lia.
      apply Rmult_le_compat_r with (r := IZR (Z.pos d)) in G; [|lra]. unfold Rdiv in G. rewrite Rmult_assoc, Rinv_l in G by lra. lra.
    - apply IZR_le in G. rewrite mult_IZR, <- bpow_pow2 in G by lia.
      apply Rmult_le_compat_r with (r := bpow radix2 l) in G; [|apply bpow_ge_0].
      rewrite Rmult_assoc, (Rmult_comm (bpow radix2 (- l))), bpow_neg, Rmult_1_r in G.
      apply Rmult_le_reg_r with (IZR (Z.pos d)); [lra|]. unfold Rdiv. rewrite Rmult_assoc, Rinv_l by lra. lra.
    - apply le_IZR. rewrite mult_IZR, <- bpow_pow2 by lia.
      apply Rmult_le_compat_r with (r := IZR (Z.pos d)) in G; [|lra]. unfold Rdiv in G. rewrite Rmult_assoc, Rinv_l, Rmult_1_r in G by lra.
      apply Rmult_le_compat_r with (r := bpow radix2 (- l)) in G; [|apply bpow_ge_0].
      rewrite (Rmult_comm (bpow radix2 l)), Rmult_assoc, bpow_neg, Rmult_1_r in G. exact G. }
  destruct (if (0 <=? l)%Z then _ else _).
  - split; [|exact Hhi]. replace (l + 1 - 1)%Z with l by lia. now apply Hr.
  - split; [exact Hlo|]. apply Rnot_le_lt. intro G. apply Hr in G. discriminate.
Qed.

(** rationals as reals *)
Definition QR (q : Qc) : R := Q2R (this q).

Lemma round_ratio_spec prec emin n d : Q2R (round_ratio prec emin n d) = ieee prec emin (IZR n / IZR (Zpos d)).
Proof.
  unfold ieee, round_ratio. destruct (Z.eq_dec n 0) as [->|Hn].
  - replace (IZR 0 / IZR (Z.pos d)) with 0 by (unfold Rdiv; lra). rewrite round_0 by apply valid_rnd_N.
    assert (H0 : forall k, (0 < k)%Z -> nearest_even 0 k = 0%Z).
    { intros k Hk. unfold nearest_even. rewrite Z.div_0_l, Z.mod_0_l by lia. destruct k; reflexivity || lia. }
    destruct (Z.leb_spec 0 (Z.max (mag_ratio 0 d - prec) emin)) as [H|H].
    + rewrite H0; [unfold Q2R, inject_Z; cbn [Qnum Qden]; unfold Rdiv; rewrite Z.mul_0_l; lra|]. pose proof (Z.pow_pos_nonneg 2 _ ltac:(lia) H). lia.
    + rewrite Z.mul_0_l, H0 by lia. unfold Q2R. cbn [Qnum Qden]. lra.
  - assert (Hc : cexp radix2 (FLT_exp emin prec) (IZR n / IZR (Z.pos d)) = Z.max (mag_ratio n d - prec) emin).
    { unfold cexp. rewrite mag_ratio_spec by assumption. reflexivity. }
    unfold round, F2R, scaled_mantissa. rewrite Hc. cbn [Fnum Fexp].
    set (e := Z.max (mag_ratio n d - prec) emin).
    assert (Hd : IZR (Zpos d) <> 0) by (apply not_0_IZR; lia).
    destruct (Z.leb_spec 0 e) as [H|H].
    + assert (Hp : (0 < 2 ^ e)%Z) by (apply Z.pow_pos_nonneg; lia).
      rewrite <- nearest_even_spec by lia. unfold Q2R, inject_Z. cbn [Qnum Qden].
      rewrite mult_IZR, (bpow_pow2 e) by lia. rewrite Rinv_1, Rmult_1_r. f_equal. f_equal. f_equal.
      rewrite bpow_opp, (bpow_pow2 e) by lia. rewrite mult_IZR. field. split; [apply not_0_IZR; lia|assumption].
    + assert (Hp : (0 < 2 ^ (- e))%Z) by (apply Z.pow_pos_nonneg; lia).
      rewrite <- nearest_even_spec by lia. unfold Q2R. cbn [Qnum Qden]. rewrite Z2Pos.id by assumption.
      assert (Eb : bpow radix2 e = / IZR (2 ^ (- e))).
      { rewrite <- bpow_pow2 by lia. rewrite bpow_opp, Rinv_inv. reflexivity. }
      rewrite Eb. f_equal. f_equal. f_equal. rewrite mult_IZR, <- bpow_pow2 by lia. unfold Rdiv. ring.
Qed.

Theorem round64_ieee q : QR (round64 q) = ieee 53 (-1074) (QR q).
Proof.
  unfold QR, round64. rewrite (Qreals.Qeq_eqR (this (Q2Qc _)) (round_ratio 53 (-1074) (Qnum (this q)) (Qden (this q)))) by (cbn [this Q2Qc]; apply Qred_correct).
  rewrite round_ratio_spec. reflexivity.
Qed.
Theorem round32_ieee q : QR (round32 q) = ieee 24 (-149) (QR q).
Proof.
  unfold QR, round32. rewrite (Qreals.Qeq_eqR (this (Q2Qc _)) (round_ratio 24 (-149) (Qnum (this q)) (Qden (this q)))) by (cbn [this Q2Qc]; apply Qred_correct).
  rewrite round_ratio_spec. reflexivity.
Qed.

(** ** rationals as reals *)
Lemma QR_red q : QR (Q2Qc q) = Q2R q.
Proof. unfold QR. apply Qreals.Qeq_eqR. cbn [this Q2Qc]. apply Qred_correct. Qed.
Lemma QR_add x y : QR (x + y)%Qc = QR x + QR y.
Proof. unfold Qcplus. rewrite QR_red. apply Q2R_plus. Qed.
Lemma QR_mul x y : QR (x * y)%Qc = QR x * QR y.
Proof. unfold Qcmult. rewrite QR_red. apply Q2R_mult. Qed.
Lemma QR_opp x : QR (- x)%Qc = - QR x.
Proof. unfold Qcopp. rewrite QR_red. apply Q2R_opp. Qed.
Lemma QR_sub x y : QR (x - y)%Qc = QR x - QR y.
Proof. unfold Qcminus. rewrite QR_add, QR_opp. reflexivity. Qed.
Lemma QR_ZQ z : QR (ZQ z) = IZR z.
Proof. unfold ZQ. rewrite QR_red. unfold Q2R, inject_Z. cbn [Qnum Qden]. rewrite Rinv_1. apply Rmult_1_r. Qed.
Lemma QR_le x y : (x <= y)%Qc <-> QR x <= QR y.
Proof. split; [apply Qreals.Qle_Rle|apply Qreals.Rle_Qle]. Qed.
Lemma QR_lt x y : (x < y)%Qc <-> QR x < QR y.
Proof. split; [apply Qreals.Qlt_Rlt|apply Qreals.Rlt_Qlt]. Qed.
Lemma QR_inj x y : QR x = QR y -> x = y.
Proof. intro H. apply Qc_is_canon. now apply Qreals.eqR_Qeq. Qed.
Lemma QR_0 : QR 0 = 0.
Proof. unfold QR, Q2R. cbn. lra. Qed.
Lemma QR_1 : QR 1 = 1.
Proof. unfold QR, Q2R. cbn. lra. Qed.
Lemma QR_div x y : y <> 0%Qc -> QR (x / y)%Qc = QR x / QR y.
Proof.
  intro H. assert (H' : QR y <> 0) by (intro E; apply H, QR_inj; rewrite QR_0; exact E).
  apply Rmult_eq_reg_r with (QR y); [|exact H']. rewrite <- QR_mul.
  replace (x / y * y)%Qc with x by (field; exact H). field. exact H'.
Qed.
Lemma QR_abs x : QR (Qcabs x) = Rabs (QR x).
Proof.
  apply Qcabs_case; intro H; apply QR_le in H; rewrite QR_0 in H.
  - now rewrite Rabs_pos_eq.
  - rewrite QR_opp, Rabs_left1 by assumption. reflexivity.
Qed.

(** ** facts about the rounding *)
Lemma round64_le x y : (x <= y)%Qc -> (round64 x <= round64 y)%Qc.
Proof. intro H. apply QR_le. rewrite !round64_ieee. apply round_le; [now apply FLT_exp_valid|apply valid_rnd_N|now apply QR_le]. Qed.
Lemma round64_idem x : round64 (round64 x) = round64 x.
Proof.
  apply QR_inj. rewrite !round64_ieee. apply round_generic; [apply valid_rnd_N|].
  apply generic_format_round; [now apply FLT_exp_valid|apply valid_rnd_N].
Qed.
Lemma round64_opp x : round64 (- x) = (- round64 x)%Qc.
Proof. apply QR_inj. rewrite QR_opp, !round64_ieee, QR_opp. apply round_NE_opp. Qed.
Lemma round64_format x : round64 x = x -> generic_format radix2 (FLT_exp (-1074) 53) (QR x).
Proof. intro H. rewrite <- H, round64_ieee. apply generic_format_round; [now apply FLT_exp_valid|apply valid_rnd_N]. Qed.

(** half the distance between 1 and the next number; half the smallest number *)
Definition u64 : R := bpow radix2 (-53).
Definition eta64 : R := bpow radix2 (-1075).
Lemma u_small : u_ro radix2 53 / (1 + u_ro radix2 53) <= u64.
Proof.
  assert (E : u_ro radix2 53 = u64).
  { unfold u_ro, u64. change (-53 + 1)%Z with (-52)%Z. change (/ 2) with (bpow radix2 (-1)). rewrite <- bpow_plus. reflexivity. }
  rewrite E. assert (H : 0 < u64) by apply bpow_gt_0. apply Rmult_le_reg_r with (1 + u64); [lra|].
  replace (u64 / (1 + u64) * (1 + u64)) with u64 by (field; lra).
  rewrite Rmult_plus_distr_l, Rmult_1_r. pose proof (Rmult_lt_0_compat _ _ H H). lra.
Qed.
Lemma round64_err x : exists d e, Rabs d <= u64 /\ Rabs e <= eta64 /\ QR (round64 x) = QR x * (1 + d) + e.
Proof.
  rewrite round64_ieee. destruct (relative_error_N_FLT'_ex radix2 (-1074) 53 ltac:(reflexivity) (fun z => negb (Z.even z)) (QR x)) as [d [e [Hd [He [_ H]]]]].
  exists d, e. split; [apply Rle_trans with (1 := Hd), u_small|]. split; [|exact H].
  replace eta64 with (/ 2 * bpow radix2 (-1074)); [exact He|]. unfold eta64. change (/ 2) with (bpow radix2 (-1)). rewrite <- bpow_plus. reflexivity.
Qed.
Lemma round64_add x y : round64 x = x -> round64 y = y -> exists d, Rabs d <= u64 /\ QR (round64 (x + y)) = (QR x + QR y) * (1 + d).
Proof.
  intros Hx Hy. rewrite round64_ieee, QR_add.
  destruct (FLT_plus_error_N_ex radix2 (-1074) 53 (fun z => negb (Z.even z)) (QR x) (QR y) (round64_format x Hx) (round64_format y Hy)) as [d [Hd H]].
  exists d. split; [apply Rle_trans with (1 := Hd), u_small|exact H].
Qed.
Lemma round64_Z z : (Z.abs z <= 2 ^ 53)%Z -> round64 (ZQ z) = ZQ z.
Proof.
  intro H. apply QR_inj. rewrite round64_ieee, QR_ZQ. apply round_generic; [apply valid_rnd_N|].
  assert (E : IZR z = F2R (Float radix2 z 0)) by (unfold F2R; cbn [Fnum Fexp bpow]; ring).
  destruct (Z.eq_dec (Z.abs z) (2 ^ 53)) as [Ez|Ez].
  - assert (Es : z = (2 ^ 53)%Z \/ z = (- 2 ^ 53)%Z) by lia.
    assert (Hb : generic_format radix2 (FLT_exp (-1074) 53) (IZR (2 ^ 53))).
    { rewrite <- bpow_pow2 by lia. apply generic_format_bpow. unfold FLT_exp. lia. }
    destruct Es as [-> | ->]; [exact Hb|]. rewrite opp_IZR. now apply generic_format_opp.
  - apply generic_format_FLT. exists (Float radix2 z 0); [exact E|cbn [Fnum]|cbn [Fexp]; lia].
    change (radix2 ^ 53)%Z with (2 ^ 53)%Z. lia.
Qed.
Lemma round64_0 : round64 0 = 0%Qc.
Proof. exact (round64_Z 0 ltac:(vm_compute; discriminate)). Qed.
