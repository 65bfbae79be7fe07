(** * Rounding errors of the aggregations *)
From Coq Require Import ZArith QArith Qcanon Qcabs Reals Qreals Lia Lra.
From Flocq Require Import Core.
From Verif Require Import Base Num Float64 Float64_P.
Local Open Scope R_scope.

Local Instance prec53 : FLX.Prec_gt_0 53 := eq_refl.

(** a number is kept within the powers of two around it *)
Lemma round64_bound q k : (-1074 <= k)%Z -> Rabs (QR q) <= bpow radix2 k -> Rabs (QR (round64 q)) <= bpow radix2 k.
Proof.
  intros Hk H. rewrite round64_ieee. unfold ieee. apply abs_round_le_generic; [now apply FLT_exp_valid|apply valid_rnd_N| |exact H].
  apply generic_format_bpow. unfold FLT_exp. lia.
Qed.
Lemma nround_small q k : (k <= 1023)%Z -> Rabs (QR q) <= bpow radix2 k -> nround (Fin q) = Fin (round64 q).
Proof.
  intros Hk H. unfold nround.
  assert (B : Rabs (QR (round64 q)) <= bpow radix2 1023).
  { apply round64_bound; [lia|]. apply Rle_trans with (1 := H). apply bpow_le. exact Hk. }
  assert (L : bpow radix2 1023 < QR overflow64).
  { unfold overflow64. rewrite QR_ZQ, <- bpow_pow2 by lia. apply bpow_lt. lia. }
  apply Rabs_le_inv in B. unfold Qc_leb, Qc_ltb.
  destruct (Qclt_le_dec (round64 q) overflow64) as [H1|H1]; cbn [negb].
  - destruct (Qclt_le_dec (- overflow64) (round64 q)) as [H2|H2]; cbn [negb]; [reflexivity|].
    apply QR_le in H2. rewrite QR_opp in H2. lra.
  - apply QR_le in H1. lra.
Qed.

Lemma round64_sign q : (0 <= q)%Qc -> (0 <= round64 q)%Qc.
Proof. intro H. apply round64_le in H. now rewrite round64_0 in H. Qed.
Lemma round64_sign' q : (q <= 0)%Qc -> (round64 q <= 0)%Qc.
Proof. intro H. apply round64_le in H. now rewrite round64_0 in H. Qed.
Lemma round64_sub x y : round64 x = x -> round64 y = y -> exists d, Rabs d <= u64 /\ QR (round64 (x - y)) = (QR x - QR y) * (1 + d).
Proof.
  intros Hx Hy. destruct (round64_add x (- y)%Qc Hx) as [d [Hd H]]; [now rewrite round64_opp, Hy|].
  exists d. split; [exact Hd|]. unfold Qcminus. rewrite H, QR_opp. reflexivity.
Qed.

Lemma u64_pos : 0 < u64.
Proof. apply bpow_gt_0. Qed.
Lemma u64_small : u64 <= / 1024.
Proof. unfold u64. change (/ 1024) with (bpow radix2 (-10)). apply bpow_le. lia. Qed.
Lemma eta64_pos : 0 < eta64.
Proof. apply bpow_gt_0. Qed.

(** three roundings: subtraction, multiplication, division *)
Lemma three_roundings X U S D M P d1 d2 d3 e2 e3 :
  Rabs d1 <= u64 -> Rabs d2 <= u64 -> Rabs d3 <= u64 -> Rabs e2 <= eta64 -> Rabs e3 <= eta64 ->
  1 <= S -> D = X * (1 + d1) -> M = D * U * (1 + d2) + e2 -> P = M / S * (1 + d3) + e3 ->
  Rabs (P - X * U / S) <= 4 * u64 * Rabs (X * U / S) + 3 * eta64.
Proof.
  intros H1 H2 H3 E2 E3 HS -> -> ->.
  set (E := X * U / S). pose proof u64_pos as Hu. pose proof u64_small as Hs. pose proof eta64_pos as He.
  replace ((X * (1 + d1) * U * (1 + d2) + e2) / S * (1 + d3) + e3 - E)
    with (E * ((1 + d1) * (1 + d2) * (1 + d3) - 1) + (e2 / S * (1 + d3) + e3)) by (unfold E; field; lra).
  apply Rle_trans with (1 := Rabs_triang _ _). apply Rplus_le_compat.
  - rewrite Rabs_mult, Rmult_comm. apply Rmult_le_compat_r; [apply Rabs_pos|].
    replace ((1 + d1) * (1 + d2) * (1 + d3) - 1) with (d1 + d2 * (1 + d1) + d3 * ((1 + d1) * (1 + d2))) by ring.
    apply Rabs_le_inv in H1. apply Rabs_le_inv in H2. apply Rabs_le_inv in H3.
    assert (A1 : Rabs (d2 * (1 + d1)) <= u64 * (1 + / 1024)).
    { rewrite Rabs_mult. apply Rmult_le_compat; try apply Rabs_pos; apply Rabs_le; lra. }
    assert (A2 : Rabs ((1 + d1) * (1 + d2)) <= (1 + / 1024) * (1 + / 1024)).
    { rewrite Rabs_mult. apply Rmult_le_compat; try apply Rabs_pos; apply Rabs_le; lra. }
    assert (A3 : Rabs (d3 * ((1 + d1) * (1 + d2))) <= u64 * ((1 + / 1024) * (1 + / 1024))).
    { rewrite Rabs_mult. apply Rmult_le_compat; try apply Rabs_pos; [apply Rabs_le; lra|exact A2]. }
    apply Rabs_le_inv in A1. apply Rabs_le_inv in A3. apply Rabs_le. lra.
  - assert (A1 : Rabs (e2 / S) <= eta64).
    { unfold Rdiv. rewrite Rabs_mult, Rabs_inv, (Rabs_pos_eq S) by lra. rewrite <- (Rmult_1_r eta64).
      apply Rmult_le_compat; try apply Rabs_pos; [|exact E2|]; [left; apply Rinv_0_lt_compat; lra|]. rewrite <- Rinv_1. apply Rinv_le_contravar; lra. }
    assert (A2 : Rabs (e2 / S * (1 + d3)) <= eta64 * (1 + / 1024)).
    { rewrite Rabs_mult. apply Rmult_le_compat; try apply Rabs_pos; [exact A1|]. apply Rabs_le_inv in H3. apply Rabs_le. lra. }
    apply Rabs_le_inv in A2. apply Rabs_le_inv in E3. apply Rabs_le. lra.
Qed.

Lemma QR_pos_Z z : (0 < z)%Z -> ZQ z <> 0%Qc.
Proof. intros H E. apply (f_equal QR) in E. rewrite QR_ZQ, QR_0 in E. apply (eq_IZR z 0) in E. lia. Qed.

Definition c_rel : Qc := (/ ZQ (2 ^ 51))%Qc.
Definition c_abs : Qc := (/ ZQ (2 ^ 1073))%Qc.
Lemma inv_pow k : (0 <= k)%Z -> QR (/ ZQ (2 ^ k))%Qc = bpow radix2 (- k).
Proof.
  intro H. assert (Hp : (0 < 2 ^ k)%Z) by (apply Z.pow_pos_nonneg; lia).
  replace (/ ZQ (2 ^ k))%Qc with (1 / ZQ (2 ^ k))%Qc by (unfold Qcdiv; ring).
  rewrite QR_div by now apply QR_pos_Z. rewrite QR_1, QR_ZQ, bpow_opp, bpow_pow2 by exact H. unfold Rdiv. ring.
Qed.

(** one cell of an accumulation in double precision *)
Lemma acc_cell64 x y u s : round64 x = x -> round64 y = y -> (Qcabs x <= ZQ (2 ^ 900))%Qc -> (Qcabs y <= ZQ (2 ^ 900))%Qc ->
  (0 <= u <= 2 ^ 53)%Z -> (1 <= s <= 2 ^ 53)%Z ->
  exists r, fdiv (fmul (fsub (fadd (Fin 0) (Fin x)) (Fin y)) (nint u)) (nint s) = Fin r /\
    ((y <= x)%Qc -> (0 <= r)%Qc) /\ ((x <= y)%Qc -> (r <= 0)%Qc) /\
    (Qcabs (r - (x - y) * ZQ u / ZQ s) <= c_rel * Qcabs ((x - y) * ZQ u / ZQ s) + c_abs)%Qc.
Proof.
  intros Hx Hy Bx By Hu Hs.
  apply QR_le in Bx. apply QR_le in By. rewrite QR_abs, QR_ZQ, <- bpow_pow2 in Bx, By by lia.
  assert (Hsn : ZQ s <> 0%Qc) by (apply QR_pos_Z; lia).
  assert (Su : Rabs (QR (ZQ u)) <= bpow radix2 53).
  { rewrite QR_ZQ, Rabs_pos_eq by (apply (IZR_le 0); lia). rewrite bpow_pow2 by lia. apply IZR_le. lia. }
  assert (Ss : 1 <= QR (ZQ s)) by (rewrite QR_ZQ; apply (IZR_le 1); lia).
  unfold fadd, fsub, fmul, fdiv, nint. change (nadd (Fin 0) (Fin x)) with (Fin (0 + x)%Qc).
  assert (E0 : nround (Fin (0 + x)) = Fin x).
  { replace (0 + x)%Qc with x by ring. rewrite (nround_small x 900) by (lia || exact Bx). now rewrite Hx. }
  rewrite E0. change (nsub (Fin x) (Fin y)) with (Fin (x - y)%Qc).
  assert (B1 : Rabs (QR (x - y)) <= bpow radix2 901).
  { rewrite QR_sub. replace (bpow radix2 901) with (bpow radix2 900 + bpow radix2 900) by (replace 901%Z with (1 + 900)%Z by lia; rewrite bpow_plus; change (bpow radix2 1) with 2; ring).
    apply Rabs_le_inv in Bx. apply Rabs_le_inv in By. apply Rabs_le. lra. }
  rewrite (nround_small (x - y) 901) by (lia || exact B1). set (D := round64 (x - y)). change (nmul (Fin D) (Fin (ZQ u))) with (Fin (D * ZQ u)%Qc).
  assert (B2 : Rabs (QR (D * ZQ u)) <= bpow radix2 954).
  { rewrite QR_mul, Rabs_mult. replace 954%Z with (901 + 53)%Z by lia. rewrite bpow_plus. apply Rmult_le_compat; try apply Rabs_pos; [|exact Su].
    unfold D. apply round64_bound; [lia|exact B1]. }
  rewrite (nround_small _ 954) by (lia || exact B2). set (M := round64 (D * ZQ u)).
  assert (Eq0 : Qc_eqb (ZQ s) 0 = false) by (unfold Qc_eqb; destruct (Qc_eq_dec (ZQ s) 0); [contradiction|reflexivity]).
  assert (Ed : ndiv (Fin M) (Fin (ZQ s)) = Fin (M / ZQ s)%Qc) by (unfold ndiv; rewrite Eq0; reflexivity). rewrite Ed.
  assert (B3 : Rabs (QR (M / ZQ s)) <= bpow radix2 954).
  { rewrite QR_div by exact Hsn. unfold Rdiv. rewrite Rabs_mult, Rabs_inv, (Rabs_pos_eq (QR (ZQ s))) by lra. rewrite <- (Rmult_1_r (bpow radix2 954)).
    apply Rmult_le_compat; try apply Rabs_pos; [left; apply Rinv_0_lt_compat; lra|apply round64_bound; [lia|exact B2]|].
    rewrite <- Rinv_1. apply Rinv_le_contravar; lra. }
  rewrite (nround_small _ 954) by (lia || exact B3). set (P := round64 (M / ZQ s)).
  exists P. split; [reflexivity|].
  assert (Z0 : (0 <= ZQ u)%Qc) by (apply QR_le; rewrite QR_0, QR_ZQ; apply (IZR_le 0); lia).
  assert (Sg : forall q, ((0 <= q)%Qc -> (0 <= q * ZQ u)%Qc) /\ ((q <= 0)%Qc -> (q * ZQ u <= 0)%Qc)).
  { intro q. split; intro H; apply QR_le; apply QR_le in H; apply QR_le in Z0; rewrite QR_0 in *; rewrite QR_mul; nra. }
  assert (Sd : forall q, ((0 <= q)%Qc -> (0 <= q / ZQ s)%Qc) /\ ((q <= 0)%Qc -> (q / ZQ s <= 0)%Qc)).
  { intro q. assert (0 < / QR (ZQ s)) by (apply Rinv_0_lt_compat; lra).
    split; intro H0; apply QR_le; apply QR_le in H0; rewrite QR_0 in *; rewrite QR_div by exact Hsn; unfold Rdiv; nra. }
  split; [|split].
  - intro H. apply round64_sign, Sd, round64_sign, Sg, round64_sign. apply QR_le in H. apply QR_le. rewrite QR_sub, QR_0. lra.
  - intro H. apply round64_sign', Sd, round64_sign', Sg, round64_sign'. apply QR_le in H. apply QR_le. rewrite QR_sub, QR_0. lra.
  - destruct (round64_sub x y Hx Hy) as [d1 [H1 E1]]. fold D in E1.
    destruct (round64_err (D * ZQ u)) as [d2 [e2 [H2 [F2 E2]]]]. fold M in E2.
    destruct (round64_err (M / ZQ s)) as [d3 [e3 [H3 [F3 E3]]]]. fold P in E3.
    rewrite QR_mul in E2. rewrite QR_div in E3 by exact Hsn.
    pose proof (three_roundings (QR x - QR y) (QR (ZQ u)) (QR (ZQ s)) _ _ _ d1 d2 d3 e2 e3 H1 H2 H3 F2 F3 Ss E1 E2 E3) as G.
    apply QR_le. rewrite QR_add, QR_mul, !QR_abs, QR_sub, QR_div, QR_mul, QR_sub by exact Hsn.
    apply Rle_trans with (1 := G). apply Rplus_le_compat.
    + apply Rmult_le_compat_r; [apply Rabs_pos|]. unfold c_rel. rewrite inv_pow by lia. unfold u64. change 4 with (bpow radix2 2). rewrite <- bpow_plus. apply bpow_le. lia.
    + unfold c_abs. rewrite inv_pow by lia. unfold eta64. apply Rle_trans with (4 * bpow radix2 (-1075)).
      * apply Rmult_le_compat_r; [apply bpow_ge_0|lra].
      * change 4 with (bpow radix2 2). rewrite <- bpow_plus. apply bpow_le. lia.
Qed.
