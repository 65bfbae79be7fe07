(** * The interpolation between two fields, in double precision *)
From Coq Require Import ZArith QArith Qcanon Qcabs Reals Qreals Lia Lra.
From Flocq Require Import Core Plus_error.
From Verif Require Import Base Num Float64 Float64_P Float_Agg_P.
Local Open Scope R_scope.

Local Instance prec53 : FLX.Prec_gt_0 53 := eq_refl.

(** the value [p/q] of the way from [x] to [y], with four roundings *)
Definition line64 (x y : Qc) (p q : Z) : Qc :=
  round64 (x + round64 (round64 (y - x) * round64 (ZQ p / ZQ q)))%Qc.

Lemma ratio64 p q : (0 < p)%Z -> (p < q)%Z ->
  (0 <= round64 (ZQ p / ZQ q))%Qc /\ (round64 (ZQ p / ZQ q) <= 1)%Qc /\ nround (Fin (ZQ p / ZQ q)) = Fin (round64 (ZQ p / ZQ q)).
Proof.
  intros Hp Hq. assert (Hn : ZQ q <> 0%Qc) by (apply QR_pos_Z; lia).
  assert (P : 0 < IZR p) by now apply (IZR_lt 0). assert (Q : IZR p < IZR q) by now apply IZR_lt.
  assert (R0 : 0 <= QR (ZQ p / ZQ q)).
  { rewrite QR_div, !QR_ZQ by exact Hn. apply Rmult_le_pos; [lra|]. left. apply Rinv_0_lt_compat. lra. }
  assert (R1 : QR (ZQ p / ZQ q) <= 1).
  { rewrite QR_div, !QR_ZQ by exact Hn. apply (Rmult_le_reg_r (IZR q)); [lra|]. unfold Rdiv. rewrite Rmult_assoc, Rinv_l by lra. lra. }
  split; [|split].
  - apply round64_sign, QR_le. now rewrite QR_0.
  - change 1%Qc with (ZQ 1). rewrite <- (round64_Z 1) by (vm_compute; discriminate). apply round64_le, QR_le. rewrite (QR_ZQ 1). exact R1.
  - apply (nround_small _ 0); [lia|]. rewrite Rabs_pos_eq by exact R0. exact R1.
Qed.

Lemma line64_mono x y p p' q : (x <= y)%Qc -> (0 < p)%Z -> (p <= p')%Z -> (p' < q)%Z -> (line64 x y p q <= line64 x y p' q)%Qc.
Proof.
  intros Hxy Hp Hpp Hq. assert (Hn : ZQ q <> 0%Qc) by (apply QR_pos_Z; lia). unfold line64. apply round64_le.
  assert (D : (0 <= round64 (y - x))%Qc) by (apply round64_sign, QR_le; apply QR_le in Hxy; rewrite QR_0, QR_sub; lra).
  assert (F : (round64 (ZQ p / ZQ q) <= round64 (ZQ p' / ZQ q))%Qc).
  { apply round64_le, QR_le. rewrite !QR_div, !QR_ZQ by exact Hn. apply Rmult_le_compat_r; [left; apply Rinv_0_lt_compat, (IZR_lt 0); lia|apply IZR_le; lia]. }
  assert (M : (round64 (round64 (y - x) * round64 (ZQ p / ZQ q)) <= round64 (round64 (y - x) * round64 (ZQ p' / ZQ q)))%Qc).
  { apply round64_le, QR_le. rewrite !QR_mul. apply QR_le in D, F. rewrite QR_0 in D. apply Rmult_le_compat_l; assumption. }
  apply QR_le. rewrite !QR_add. apply QR_le in M. lra.
Qed.

Lemma line64_low x y p q : round64 x = x -> (x <= y)%Qc -> (0 < p)%Z -> (p < q)%Z -> (x <= line64 x y p q)%Qc.
Proof.
  intros Hx Hxy Hp Hq. destruct (ratio64 p q Hp Hq) as [F0 _]. unfold line64. rewrite <- Hx at 1. apply round64_le.
  assert (D : (0 <= round64 (y - x))%Qc) by (apply round64_sign, QR_le; apply QR_le in Hxy; rewrite QR_0, QR_sub; lra).
  assert (M : (0 <= round64 (round64 (y - x) * round64 (ZQ p / ZQ q)))%Qc).
  { apply round64_sign, QR_le. apply QR_le in D, F0. rewrite QR_0 in *. rewrite QR_mul. now apply Rmult_le_pos. }
  apply QR_le in M. rewrite QR_0 in M. apply QR_le. rewrite QR_add. lra.
Qed.

(** a difference of doubles that is not a double is large *)
Lemma inexact_large x y : round64 x = x -> round64 y = y -> round64 (y - x) <> (y - x)%Qc -> bpow radix2 (-1022) < Rabs (QR (y - x)).
Proof.
  intros Hx Hy Hne. destruct (Rlt_or_le (bpow radix2 (-1022)) (Rabs (QR (y - x)))) as [H|H]; [exact H|exfalso]. apply Hne.
  apply QR_inj. rewrite round64_ieee. unfold ieee. apply round_generic; [apply valid_rnd_N|].
  apply round64_format in Hx, Hy. rewrite QR_sub in *. unfold Rminus in *.
  apply (FLT_format_plus_small _ _ _); [exact Hy|apply generic_format_opp; exact Hx|].
  apply Rle_trans with (1 := H). apply bpow_le. lia.
Qed.

Lemma line64_high x y p q : round64 x = x -> round64 y = y -> (x <= y)%Qc -> (0 < p)%Z -> (p < q)%Z -> (q <= 2 ^ 20)%Z -> (line64 x y p q <= y)%Qc.
Proof.
  intros Hx Hy Hxy Hp Hq Hq2. destruct (ratio64 p q Hp Hq) as [F0 [F1 _]].
  assert (Hn : ZQ q <> 0%Qc) by (apply QR_pos_Z; lia).
  set (f := round64 (ZQ p / ZQ q)) in *. set (d := round64 (y - x)) in *.
  assert (G : (round64 (d * f) <= y - x)%Qc).
  2:{ unfold line64. fold f d. rewrite <- Hy. apply round64_le. apply QR_le in G. rewrite QR_sub in G. apply QR_le. rewrite QR_add. lra. }
  assert (D0 : (0 <= d)%Qc) by (apply round64_sign, QR_le; apply QR_le in Hxy; rewrite QR_0, QR_sub; lra).
  destruct (Qclt_le_dec (y - x) d) as [Hlt|Hle].
  - assert (Hne : d <> (y - x)%Qc) by (intro E; rewrite E in Hlt; apply QR_lt in Hlt; lra).
    pose proof (inexact_large x y Hx Hy Hne) as HL.
    apply QR_le in Hxy. assert (X0 : 0 <= QR (y - x)) by (rewrite QR_sub; lra). rewrite Rabs_pos_eq in HL by exact X0.
    destruct (round64_sub y x Hy Hx) as [d1 [H1 E1]]. fold d in E1. rewrite <- QR_sub in E1.
    destruct (round64_err (d * f)) as [d2 [e2 [H2 [G2 E2]]]]. rewrite QR_mul in E2.
    destruct (round64_err (ZQ p / ZQ q)) as [d3 [e3 [H3 [G3 E3]]]]. fold f in E3. rewrite QR_div, !QR_ZQ in E3 by exact Hn.
    assert (Hr : IZR p / IZR q <= 1 - / 1048576).
    { apply (Rmult_le_reg_r (IZR q)); [apply (IZR_lt 0); lia|]. unfold Rdiv. rewrite Rmult_assoc, Rinv_l by (apply not_0_IZR; lia).
      assert (IZR p <= IZR q - 1) by (rewrite <- minus_IZR; apply IZR_le; lia). assert (IZR q <= 1048576) by (apply IZR_le; lia). lra. }
    assert (Hr0 : 0 <= IZR p / IZR q) by (apply Rmult_le_pos; [apply (IZR_le 0); lia|left; apply Rinv_0_lt_compat, (IZR_lt 0); lia]).
    assert (Hu : u64 <= / 1048576 * / 16) by (change (/ 1048576 * / 16) with (bpow radix2 (-20) * bpow radix2 (-4)); rewrite <- bpow_plus; unfold u64; apply bpow_le; lia).
    assert (He : eta64 <= / 1048576 * / 16) by (change (/ 1048576 * / 16) with (bpow radix2 (-20) * bpow radix2 (-4)); rewrite <- bpow_plus; unfold eta64; apply bpow_le; lia).
    assert (He2 : eta64 <= / 1048576 * / 16 * QR (y - x)).
    { apply Rle_trans with (/ 1048576 * / 16 * bpow radix2 (-1022)); [|apply Rmult_le_compat_l; lra].
      change (/ 1048576 * / 16) with (bpow radix2 (-20) * bpow radix2 (-4)). rewrite <- !bpow_plus. unfold eta64. apply bpow_le. lia. }
    apply QR_le. rewrite E2, E1, E3. pose proof u64_pos. pose proof eta64_pos.
    apply Rabs_le_inv in H1, H2, H3, G2, G3. set (w := QR (y - x)) in *. set (r := IZR p / IZR q) in *.
    set (t := / 1048576) in *. assert (T0 : 0 < t <= / 1024) by (unfold t; lra).
    assert (K1 : r * (1 + d3) + e3 <= 1 - t + t / 8) by nra.
    assert (K0 : 0 <= r * (1 + d3) + e3) by (rewrite <- E3; apply QR_le in F0; now rewrite QR_0 in F0).
    set (g := r * (1 + d3) + e3) in *.
    assert (K2 : (1 + d1) * g <= 1 - t + t / 4) by nra.
    assert (K3 : 0 <= (1 + d1) * g) by (apply Rmult_le_pos; [lra|exact K0]).
    set (h := (1 + d1) * g) in *.
    assert (K4 : h * (1 + d2) <= 1 - t + t / 2) by nra.
    replace (w * (1 + d1) * g * (1 + d2)) with (w * (h * (1 + d2))) by (unfold h; ring).
    assert (K5 : w * (h * (1 + d2)) <= w * (1 - t + t / 2)) by (apply Rmult_le_compat_l; assumption). nra.
  - apply Qcle_trans with d; [|exact Hle]. assert (E : round64 d = d) by apply round64_idem. apply Qcle_trans with (round64 d); [|rewrite E; apply Qcle_refl]. apply round64_le, QR_le.
    rewrite QR_mul. apply QR_le in D0, F1. rewrite QR_0, QR_1 in *. rewrite <- (Rmult_1_r (QR d)) at 2. apply Rmult_le_compat_l; assumption.
Qed.
Close Scope R_scope.
Local Open Scope Z_scope.
Lemma line64_num x y p q : round64 x = x -> round64 y = y -> (Qcabs x <= ZQ (2 ^ 900))%Qc -> (Qcabs y <= ZQ (2 ^ 900))%Qc -> (x <= y)%Qc ->
  0 < p -> p < q -> q <= 2 ^ 20 ->
  fadd (Fin x) (fmul (fsub (Fin y) (Fin x)) (fdiv (nint p) (nint q))) = Fin (line64 x y p q) /\ (Qcabs (line64 x y p q) <= ZQ (2 ^ 900))%Qc.
Proof.
  intros Hx Hy Bx By Hxy Hp Hq Hq2.
  pose proof (line64_low x y p q Hx Hxy Hp Hq) as L1. pose proof (line64_high x y p q Hx Hy Hxy Hp Hq Hq2) as L2.
  destruct (ratio64 p q Hp Hq) as [F0 [F1 FE]].
  assert (Hn : ZQ q <> 0%Qc) by (apply QR_pos_Z; lia).
  apply QR_le in Bx. apply QR_le in By. rewrite QR_abs, QR_ZQ, <- bpow_pow2 in Bx, By by lia.
  assert (BL : (Qcabs (line64 x y p q) <= ZQ (2 ^ 900))%Qc).
  { apply QR_le. rewrite QR_abs, QR_ZQ, <- bpow_pow2 by lia. apply QR_le in L1, L2. apply Rabs_le_inv in Bx, By. apply Rabs_le. lra. }
  split; [|exact BL]. unfold fadd, fsub, fmul, fdiv, nint.
  assert (Eq0 : Qc_eqb (ZQ q) 0 = false) by (unfold Qc_eqb; destruct (Qc_eq_dec (ZQ q) 0); [contradiction|reflexivity]).
  assert (Ed : ndiv (Fin (ZQ p)) (Fin (ZQ q)) = Fin (ZQ p / ZQ q)%Qc) by (unfold ndiv; rewrite Eq0; reflexivity). rewrite Ed, FE.
  change (nsub (Fin y) (Fin x)) with (Fin (y - x)%Qc).
  assert (B1 : Rle (Rabs (QR (y - x))) (bpow radix2 901)).
  { rewrite QR_sub. replace (bpow radix2 901) with (bpow radix2 900 + bpow radix2 900)%R by (replace 901%Z with (1 + 900)%Z by lia; rewrite bpow_plus; change (bpow radix2 1) with 2%R; ring).
    apply Rabs_le_inv in Bx. apply Rabs_le_inv in By. apply Rabs_le. lra. }
  rewrite (nround_small (y - x) 901) by (lia || exact B1).
  set (f := round64 (ZQ p / ZQ q)) in *. set (d := round64 (y - x)) in *.
  change (nmul (Fin d) (Fin f)) with (Fin (d * f)%Qc).
  assert (B2 : Rle (Rabs (QR (d * f))) (bpow radix2 901)).
  { rewrite QR_mul, Rabs_mult, <- (Rmult_1_r (bpow radix2 901)). apply Rmult_le_compat; try apply Rabs_pos; [apply round64_bound; [lia|exact B1]|].
    apply QR_le in F0, F1. rewrite QR_0, QR_1 in *. rewrite Rabs_pos_eq; assumption. }
  rewrite (nround_small (d * f) 901) by (lia || exact B2). set (m := round64 (d * f)).
  change (nadd (Fin x) (Fin m)) with (Fin (x + m)%Qc).
  assert (B3 : Rle (Rabs (QR m)) (bpow radix2 901)) by (apply round64_bound; [lia|exact B2]).
  assert (B4 : Rle (Rabs (QR (x + m))) (bpow radix2 902)).
  { rewrite QR_add. replace (bpow radix2 902) with (bpow radix2 901 + bpow radix2 901)%R by (replace 902%Z with (1 + 901)%Z by lia; rewrite bpow_plus; change (bpow radix2 1) with 2%R; ring).
    assert (Rle (bpow radix2 900) (bpow radix2 901)) by (apply bpow_le; lia).
    apply Rabs_le_inv in Bx. apply Rabs_le_inv in B3. apply Rabs_le. lra. }
  rewrite (nround_small (x + m) 902) by (lia || exact B4). reflexivity.
Qed.
