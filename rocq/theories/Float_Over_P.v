From Coq Require Import ZArith QArith Qcanon Qcabs Reals Qreals Lia Lra.
From Flocq Require Import Core.
From Verif Require Import Base Num Float64 Num_P Float64_P Float_Agg_P.
Local Open Scope R_scope.

(** ** overflow *)
Definition fmax : R := bpow radix2 1024 - bpow radix2 971.
Lemma fmax_format : generic_format radix2 (FLT_exp (-1074) 53) fmax.
Proof.
  apply generic_format_FLT. exists (Float radix2 (2 ^ 53 - 1) 971); [|cbn [Fnum]; change (radix2 ^ 53)%Z with (2 ^ 53)%Z; lia|cbn [Fexp]; lia].
  unfold F2R, fmax. cbn [Fnum Fexp]. rewrite minus_IZR, <- bpow_pow2 by lia. rewrite Rmult_minus_distr_r, <- bpow_plus, Rmult_1_l. reflexivity.
Qed.
Lemma b971 : bpow radix2 971 = 2 * bpow radix2 970.
Proof. change 971%Z with (1 + 970)%Z. rewrite bpow_plus. reflexivity. Qed.
Lemma round_over x : bpow radix2 1024 <= ieee 53 (-1074) x <-> bpow radix2 1024 - bpow radix2 970 <= x.
Proof.
  pose proof b971 as E. pose proof (bpow_gt_0 radix2 970) as P. split; intro H.
  - apply Rnot_lt_le. intro L. destruct (Rle_or_lt x fmax) as [G|G].
    + assert (ieee 53 (-1074) x <= fmax) by (apply round_le_generic; [now apply FLT_exp_valid|apply valid_rnd_N|exact fmax_format|exact G]). unfold fmax in *. lra.
    + destruct (@round_N_pt radix2 (FLT_exp (-1074) 53) (FLT_exp_valid (-1074) 53 (prec_gt_0_:=eq_refl)) (fun z => negb (Z.even z)) x) as [_ N]. specialize (N fmax fmax_format).
      change (round radix2 (FLT_exp (-1074) 53) (Znearest (fun z => negb (Z.even z))) x) with (ieee 53 (-1074) x) in N. unfold fmax in *.
      rewrite (Rabs_pos_eq (ieee 53 (-1074) x - x)) in N by lra. rewrite Rabs_left in N by lra. lra.
  - apply Rle_trans with (ieee 53 (-1074) (bpow radix2 1024 - bpow radix2 970)); [|apply round_le; [now apply FLT_exp_valid|apply valid_rnd_N|exact H]].
    right. set (q := (ZQ (2 ^ 1024) - ZQ (2 ^ 970))%Qc).
    replace (bpow radix2 1024 - bpow radix2 970) with (QR q) by (unfold q; rewrite QR_sub, !QR_ZQ, <- !bpow_pow2 by lia; reflexivity).
    rewrite <- round64_ieee. replace (round64 q) with (ZQ (2 ^ 1024)) by (apply Qc_is_canon; vm_compute; reflexivity). rewrite QR_ZQ, <- bpow_pow2 by lia. reflexivity.
Qed.
Lemma over_Qc q : (overflow64 <= round64 q <-> ZQ (2 ^ 1024) - ZQ (2 ^ 970) <= q)%Qc.
Proof.
  rewrite !QR_le. unfold overflow64. rewrite round64_ieee, QR_sub, !QR_ZQ, <- !bpow_pow2 by lia. apply round_over.
Qed.
Lemma nround_inf q : (nround (Fin q) = PInf <-> ZQ (2 ^ 1024) - ZQ (2 ^ 970) <= q)%Qc /\ (nround (Fin q) = MInf <-> q <= - (ZQ (2 ^ 1024) - ZQ (2 ^ 970)))%Qc.
Proof.
  unfold nround. cbv zeta.
  assert (N : (round64 q <= - overflow64 <-> q <= - (ZQ (2 ^ 1024) - ZQ (2 ^ 970)))%Qc).
  { assert (A : forall a b, (a <= - b <-> b <= - a)%Qc).
    { intros a b. rewrite !QR_le, !QR_opp. split; intro; lra. }
    rewrite A, <- round64_opp, over_Qc. apply A. }
  assert (D : forall a b, (a <= b)%Qc \/ ~ (a <= b)%Qc) by (intros a b; destruct (Qclt_le_dec b a) as [G|G]; [right; now apply Qclt_not_le|now left]).
  assert (L : forall a b, (a <= b)%Qc -> Qc_leb a b = true) by (intros; now apply Qc_leb_spec).
  assert (F : forall a b, ~ (a <= b)%Qc -> Qc_leb a b = false) by (intros a b H; destruct (Qc_leb a b) eqn:E; [apply Qc_leb_spec in E; contradiction|reflexivity]).
  assert (X : (overflow64 <= round64 q)%Qc -> (round64 q <= - overflow64)%Qc -> False).
  { intros H1 H2. apply QR_le in H1. apply QR_le in H2. rewrite QR_opp in H2. unfold overflow64 in *. rewrite QR_ZQ, <- bpow_pow2 in * by lia. pose proof (bpow_gt_0 radix2 1024). lra. }
  destruct (D overflow64 (round64 q)) as [H1|H1]; [rewrite (L _ _ H1)|rewrite (F _ _ H1)].
  - split; [split; [intros _; exact (proj1 (over_Qc q) H1)|reflexivity]|]. split; [discriminate|]. intro H. exfalso. exact (X H1 (proj2 N H)).
  - destruct (D (round64 q) (- overflow64)%Qc) as [H2|H2]; [rewrite (L _ _ H2)|rewrite (F _ _ H2)].
    + split; [split; [discriminate|intro H; exact (False_ind _ (H1 (proj2 (over_Qc q) H)))]|]. split; [intros _; exact (proj1 N H2)|reflexivity].
    + split; [split; [discriminate|intro H; exact (False_ind _ (H1 (proj2 (over_Qc q) H)))]|]. split; [discriminate|intro H; exact (False_ind _ (H2 (proj2 N H)))].
Qed.
