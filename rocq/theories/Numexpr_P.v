(** * Proofs about formulas in double precision *)
From Coq Require Import ZArith QArith Qcanon Qcabs Reals Qreals Lia Lra List.
From Flocq Require Import Core.
From Verif Require Import Base Num Float64 Float64_P Float_Agg_P Numexpr Spec_Numexpr.
Import ListNotations.
Local Open Scope Qc_scope.

Lemma nround_fin a r : nround a = Fin r -> exists q, a = Fin q /\ r = round64 q.
Proof.
  destruct a as [q| | |]; cbn [nround]; try discriminate.
  destruct (Qc_leb overflow64 (round64 q)); [discriminate|]. destruct (Qc_leb (round64 q) (- overflow64)); [discriminate|].
  intro H. injection H as <-. exists q. auto.
Qed.
Lemma fadd_fin a b r : fadd a b = Fin r -> exists x y, a = Fin x /\ b = Fin y /\ r = round64 (x + y).
Proof.
  intro H. apply nround_fin in H as [q [E ->]]. destruct a as [x| | |], b as [y| | |]; cbn [nadd] in E; try discriminate.
  injection E as <-. exists x, y. auto.
Qed.
Lemma fsub_fin a b r : fsub a b = Fin r -> exists x y, a = Fin x /\ b = Fin y /\ r = round64 (x - y).
Proof.
  intro H. apply nround_fin in H as [q [E ->]]. unfold nsub in E. destruct a as [x| | |], b as [y| | |]; cbn [nadd nopp] in E; try discriminate.
  injection E as <-. exists x, y. auto.
Qed.
Lemma inf_times_fin q p r : inf_times q p = Fin r -> False.
Proof. unfold inf_times. destruct (Qc_eqb q 0); [discriminate|]. destruct (Bool.eqb _ _); discriminate. Qed.
Lemma fmul_fin a b r : fmul a b = Fin r -> exists x y, a = Fin x /\ b = Fin y /\ r = round64 (x * y).
Proof.
  intro H. apply nround_fin in H as [q [E ->]].
  destruct a as [x| | |], b as [y| | |]; cbn [nmul] in E; try discriminate; try (apply inf_times_fin in E; destruct E).
  injection E as <-. exists x, y. auto.
Qed.
Lemma fdiv_fin a b r : fdiv a b = Fin r -> exists x, a = Fin x /\
  ((exists y, b = Fin y /\ y <> 0 /\ r = round64 (x / y)) \/ ((b = PInf \/ b = MInf) /\ r = 0)).
Proof.
  intro H. apply nround_fin in H as [q [E ->]].
  destruct a as [x| | |], b as [y| | |]; cbn [ndiv] in E; try discriminate; try (destruct (Qc_ltb y 0); discriminate).
  - exists x. split; [reflexivity|left]. exists y. unfold Qc_eqb in E. destruct (Qc_eq_dec y 0) as [->|Hy].
    + destruct (Qc_eq_dec x 0); [discriminate|]. destruct (Qc_ltb 0 x); discriminate.
    + injection E as <-. auto.
  - injection E as <-. exists x. split; [reflexivity|right]. split; [auto|apply round64_0].
  - injection E as <-. exists x. split; [reflexivity|right]. split; [auto|apply round64_0].
Qed.
Lemma nopp_fin a r : nopp a = Fin r -> exists x, a = Fin x /\ r = - x.
Proof. destruct a as [x| | |]; cbn [nopp]; try discriminate. intro H. injection H as <-. exists x. auto. Qed.

(** the value of a number has its sign *)
Lemma number_value env e k : number e k -> forall y, eval64 env e = Fin y -> y = round64 k.
Proof.
  induction 1 as [m d p|e k H IH]; intros y Hy; cbn [eval64] in Hy.
  - apply nround_fin in Hy as [q [E ->]]. injection E as <-. reflexivity.
  - apply nopp_fin in Hy as [x [E ->]]. rewrite (IH _ E). symmetry. apply round64_opp.
Qed.

Lemma Qc_mult_sign_le a b k : a <= b -> 0 <= k -> a * k <= b * k.
Proof. intros. apply Qcmult_le_compat_r; assumption. Qed.
Lemma Qc_mult_sign_ge a b k : a <= b -> k <= 0 -> b * k <= a * k.
Proof.
  intros H Hk. apply QR_le in H, Hk. rewrite QR_0 in Hk. apply QR_le. rewrite !QR_mul. nra.
Qed.
Lemma round64_recip_sign y : (0 <= y -> 0 <= round64 (1 / y)) /\ (y <= 0 -> round64 (1 / y) <= 0).
Proof.
  destruct (Qc_eq_dec y 0) as [->|Hy].
  - replace (1 / 0) with 0 by (apply Qc_is_canon; reflexivity). rewrite round64_0. split; intro; apply Qcle_refl.
  - assert (HR : QR y <> 0%R) by (intro E; apply Hy, QR_inj; now rewrite E, QR_0).
    split; intro H; [apply round64_sign|apply round64_sign']; apply QR_le; rewrite QR_div, QR_1, QR_0 by exact Hy; apply QR_le in H; rewrite QR_0 in H; unfold Rdiv; rewrite Rmult_1_l.
    + left. apply Rinv_0_lt_compat. lra.
    + left. apply Rinv_lt_0_compat. lra.
Qed.
Lemma in_order_negb up a b : in_order up a b -> in_order (negb up) (- a) (- b).
Proof. destruct up; cbn [in_order negb]; intro H; apply QR_le in H; apply QR_le; rewrite !QR_opp; lra. Qed.
Lemma in_order_round up a b : in_order up a b -> in_order up (round64 a) (round64 b).
Proof. destruct up; cbn [in_order]; apply round64_le. Qed.
Lemma in_order_add up a b k : in_order up a b -> in_order up (a + k) (b + k).
Proof. destruct up; cbn [in_order]; intro H; apply QR_le in H; apply QR_le; rewrite !QR_add; lra. Qed.
Lemma in_order_pos up a b k : in_order up a b -> 0 <= k -> in_order up (a * k) (b * k).
Proof. destruct up; cbn [in_order]; intros; apply Qc_mult_sign_le; assumption. Qed.
Lemma in_order_neg up a b k : in_order up a b -> k <= 0 -> in_order (negb up) (a * k) (b * k).
Proof. destruct up; cbn [in_order negb]; intros; apply Qc_mult_sign_ge; assumption. Qed.
Lemma in_order_refl up a : in_order up a a.
Proof. destruct up; apply Qcle_refl. Qed.

Lemma recip_sign y : (0 <= y -> 0 <= / y) /\ (y <= 0 -> / y <= 0).
Proof.
  destruct (Qc_eq_dec y 0) as [->|Hy].
  - replace (/ 0) with 0 by (apply Qc_is_canon; reflexivity). split; intro; apply Qcle_refl.
  - assert (HR : QR y <> 0%R) by (intro E; apply Hy, QR_inj; now rewrite E, QR_0).
    replace (/ y) with (1 / y) by (unfold Qcdiv; ring).
    split; intro H; apply QR_le; rewrite QR_div, QR_1, QR_0 by exact Hy; apply QR_le in H; rewrite QR_0 in H; unfold Rdiv; rewrite Rmult_1_l.
    + left. apply Rinv_0_lt_compat. lra.
    + left. apply Rinv_lt_0_compat. lra.
Qed.

Section Mono.
  Variables (x : string) (env env' : string -> num) (a b : Qc).
  Hypothesis Ha : env x = Fin a.
  Hypothesis Hb : env' x = Fin b.
  Hypothesis Hab : a <= b.

  Lemma div_order (up up' : bool) e c k : number c k ->
    (forall r r', eval64 env e = Fin r -> eval64 env' e = Fin r' -> in_order up r r') ->
    ((0 <= k /\ up' = up) \/ (k <= 0 /\ up' = negb up)) ->
    forall r r', eval64 env (EBin Div e c) = Fin r -> eval64 env' (EBin Div e c) = Fin r' -> in_order up' r r'.
  Proof using.
    intros Hc IH Hk r r' Hr Hr'. cbn [eval64] in Hr, Hr'.
    assert (G : forall k', (0 <= k -> 0 <= k') -> (k <= 0 -> k' <= 0) -> forall u u', in_order up u u' -> in_order up' (u * k') (u' * k')).
    { intros k' P N u u' Hu. destruct Hk as [[Hk ->]|[Hk ->]]; [apply in_order_pos; auto|apply in_order_neg; auto]. }
    assert (S1 : 0 <= k -> 0 <= round64 k) by apply round64_sign. assert (S2 : k <= 0 -> round64 k <= 0) by apply round64_sign'.
    destruct (double_literal c).
    - apply fmul_fin in Hr as [u [f [E1 [E2 ->]]]]. apply fmul_fin in Hr' as [u' [f' [E1' [E2' ->]]]].
      assert (Ev : eval64 env c = eval64 env' c).
      { clear -Hc. induction Hc as [m d p|e0 k0 H0 IH0]; cbn [eval64]; [reflexivity|now rewrite IH0]. }
      rewrite Ev in E2. rewrite E2 in E2'. injection E2' as E3. apply in_order_round.
      apply fdiv_fin in E2 as [o [Eo E2]]. injection Eo as Eo. assert (Eo1 : o = 1) by (rewrite <- Eo; apply Qc_is_canon; reflexivity). rewrite Eo1 in E2. clear Eo Eo1.
      subst f'. apply G; [| |now apply IH]; destruct E2 as [[y [Ey [_ ->]]]|[_ ->]]; intro Hs; try apply Qcle_refl;
        pose proof (number_value _ _ _ Hc _ Ey) as Ny; destruct (round64_recip_sign y) as [Q1 Q2]; rewrite Ny in Q1, Q2 |- *; auto.
    - apply fdiv_fin in Hr as [u [E1 E2]]. apply fdiv_fin in Hr' as [u' [E1' E2']].
      assert (Ev : eval64 env c = eval64 env' c).
      { clear -Hc. induction Hc as [m d p|e0 k0 H0 IH0]; cbn [eval64]; [reflexivity|now rewrite IH0]. }
      destruct E2 as [[y [Ey [Hy ->]]]|[Ey ->]], E2' as [[y' [Ey' [Hy' ->]]]|[Ey' ->]].
      + rewrite Ev, Ey' in Ey. injection Ey as ->. apply in_order_round. unfold Qcdiv.
        apply G; [| |now apply IH]; intro Hs; pose proof (number_value _ _ _ Hc _ Ey') as Ny; destruct (recip_sign y) as [Q1 Q2]; rewrite Ny in Q1, Q2 |- *; auto.
      + rewrite <- Ev, Ey in Ey'. exfalso. destruct Ey'; discriminate.
      + rewrite Ev, Ey' in Ey. exfalso. destruct Ey; discriminate.
      + apply in_order_refl.
  Qed.

  Lemma monotone_order up e : monotone x up e -> forall r r', eval64 env e = Fin r -> eval64 env' e = Fin r' -> in_order up r r'.
  Proof using Ha Hb Hab.
    induction 1 as [|up e H IH|up e c k H IH Hc|up e c k H IH Hc|up e c k H IH Hc|up e c k H IH Hc|up e c k H IH Hc Hk|up e c k H IH Hc Hk|up e c k H IH Hc Hk|up e c k H IH Hc Hk|up e c k H IH Hc Hk|up e c k H IH Hc Hk];
      intros r r' Hr Hr'.
    - cbn [eval64] in *. rewrite Ha in Hr. rewrite Hb in Hr'. injection Hr as <-. injection Hr' as <-. exact Hab.
    - cbn [eval64] in *. apply nopp_fin in Hr as [u [E ->]]. apply nopp_fin in Hr' as [u' [E' ->]]. apply in_order_negb. now apply IH.
    - cbn [eval64] in *. apply fadd_fin in Hr as [u [w [E1 [E2 ->]]]]. apply fadd_fin in Hr' as [u' [w' [E1' [E2' ->]]]].
      rewrite (number_value _ _ _ Hc _ E2), (number_value _ _ _ Hc _ E2'). apply in_order_round, in_order_add. now apply IH.
    - cbn [eval64] in *. apply fadd_fin in Hr as [w [u [E2 [E1 ->]]]]. apply fadd_fin in Hr' as [w' [u' [E2' [E1' ->]]]].
      rewrite (number_value _ _ _ Hc _ E2), (number_value _ _ _ Hc _ E2'), !(Qcplus_comm (round64 k)). apply in_order_round, in_order_add. now apply IH.
    - cbn [eval64] in *. apply fsub_fin in Hr as [u [w [E1 [E2 ->]]]]. apply fsub_fin in Hr' as [u' [w' [E1' [E2' ->]]]].
      rewrite (number_value _ _ _ Hc _ E2), (number_value _ _ _ Hc _ E2'). apply in_order_round. unfold Qcminus. apply in_order_add. now apply IH.
    - cbn [eval64] in *. apply fsub_fin in Hr as [w [u [E2 [E1 ->]]]]. apply fsub_fin in Hr' as [w' [u' [E2' [E1' ->]]]].
      rewrite (number_value _ _ _ Hc _ E2), (number_value _ _ _ Hc _ E2'). unfold Qcminus. rewrite !(Qcplus_comm (round64 k)). apply in_order_round, in_order_add, in_order_negb. now apply IH.
    - cbn [eval64] in *. apply fmul_fin in Hr as [u [w [E1 [E2 ->]]]]. apply fmul_fin in Hr' as [u' [w' [E1' [E2' ->]]]].
      rewrite (number_value _ _ _ Hc _ E2), (number_value _ _ _ Hc _ E2'). apply in_order_round, in_order_pos; [now apply IH|now apply round64_sign].
    - cbn [eval64] in *. apply fmul_fin in Hr as [u [w [E1 [E2 ->]]]]. apply fmul_fin in Hr' as [u' [w' [E1' [E2' ->]]]].
      rewrite (number_value _ _ _ Hc _ E2), (number_value _ _ _ Hc _ E2'). apply in_order_round, in_order_neg; [now apply IH|now apply round64_sign'].
    - cbn [eval64] in *. apply fmul_fin in Hr as [w [u [E2 [E1 ->]]]]. apply fmul_fin in Hr' as [w' [u' [E2' [E1' ->]]]].
      rewrite (number_value _ _ _ Hc _ E2), (number_value _ _ _ Hc _ E2'), !(Qcmult_comm (round64 k)). apply in_order_round, in_order_pos; [now apply IH|now apply round64_sign].
    - cbn [eval64] in *. apply fmul_fin in Hr as [w [u [E2 [E1 ->]]]]. apply fmul_fin in Hr' as [w' [u' [E2' [E1' ->]]]].
      rewrite (number_value _ _ _ Hc _ E2), (number_value _ _ _ Hc _ E2'), !(Qcmult_comm (round64 k)). apply in_order_round, in_order_neg; [now apply IH|now apply round64_sign'].
    - eapply (div_order up up e c k Hc IH); [left; split; [now apply Qclt_le_weak|reflexivity]|exact Hr|exact Hr'].
    - eapply (div_order up (negb up) e c k Hc IH); [right; split; [now apply Qclt_le_weak|reflexivity]|exact Hr|exact Hr'].
  Qed.
End Mono.

(** ** rounding errors of the shipped formulas *)
Lemma mul_close q k k' : (Qcabs q <= ZQ (2 ^ 900))%Qc -> (Qcabs k <= ZQ (2 ^ 10))%Qc -> (Qcabs (k' - k) <= / ZQ (2 ^ 53) * Qcabs k)%Qc ->
  exists r, fmul (Fin q) (Fin k') = Fin r /\ (Qcabs (r - q * k) <= / ZQ (2 ^ 51) * Qcabs (q * k) + / ZQ (2 ^ 1073))%Qc /\ (q = 0 -> r = 0).
Proof.
  intros Bq Bk Hk. exists (round64 (q * k')). unfold fmul. cbn [nmul].
  apply QR_le in Bq, Bk, Hk. rewrite QR_mul, !QR_abs, QR_sub in Hk. rewrite QR_abs, QR_ZQ, <- bpow_pow2 in Bq, Bk by lia.
  assert (I53 : QR (/ ZQ (2 ^ 53)) = u64).
  { replace (/ ZQ (2 ^ 53)) with (1 / ZQ (2 ^ 53)) by (unfold Qcdiv; ring). rewrite QR_div by (apply QR_pos_Z; lia). rewrite QR_1, QR_ZQ, <- bpow_pow2 by lia.
    unfold u64, Rdiv. rewrite Rmult_1_l, <- bpow_opp. reflexivity. }
  assert (I51 : QR (/ ZQ (2 ^ 51)) = (4 * u64)%R).
  { replace (/ ZQ (2 ^ 51)) with (1 / ZQ (2 ^ 51)) by (unfold Qcdiv; ring). rewrite QR_div by (apply QR_pos_Z; lia). rewrite QR_1, QR_ZQ, <- bpow_pow2 by lia.
    unfold u64, Rdiv. rewrite Rmult_1_l, <- bpow_opp. change 4%R with (bpow radix2 2). rewrite <- bpow_plus. f_equal. }
  assert (I1073 : QR (/ ZQ (2 ^ 1073)) = (4 * eta64)%R).
  { replace (/ ZQ (2 ^ 1073)) with (1 / ZQ (2 ^ 1073)) by (unfold Qcdiv; ring). rewrite QR_div by (apply QR_pos_Z; lia). rewrite QR_1, QR_ZQ, <- bpow_pow2 by lia.
    unfold eta64, Rdiv. rewrite Rmult_1_l, <- bpow_opp. change 4%R with (bpow radix2 2). rewrite <- bpow_plus. f_equal. }
  rewrite I53 in Hk. pose proof u64_pos as Hu. pose proof u64_small as Hus. pose proof eta64_pos as He.
  assert (Hkk : (Rabs (QR k') <= 2 * bpow radix2 10)%R).
  { replace (QR k') with ((QR k' - QR k) + QR k)%R by ring. apply Rle_trans with (1 := Rabs_triang _ _). pose proof (Rabs_pos (QR k)). nra. }
  split; [|split].
  - apply (nround_small _ 911); [lia|]. rewrite QR_mul, Rabs_mult.
    replace (bpow radix2 911) with (bpow radix2 900 * (2 * bpow radix2 10))%R by (change 2%R with (bpow radix2 1); rewrite <- !bpow_plus; reflexivity).
    apply Rmult_le_compat; try apply Rabs_pos; assumption.
  - apply QR_le. rewrite QR_add, QR_mul, !QR_abs, QR_sub, !QR_mul, I51, I1073.
    destruct (round64_err (q * k')) as [d [e [Hd [He' ->]]]]. rewrite QR_mul.
    replace (QR q * QR k' * (1 + d) + e - QR q * QR k)%R with (QR q * ((QR k' - QR k) * (1 + d) + QR k * d) + e)%R by ring.
    apply Rle_trans with (1 := Rabs_triang _ _). rewrite !Rabs_mult.
    assert (A : (Rabs ((QR k' - QR k) * (1 + d) + QR k * d) <= 4 * u64 * Rabs (QR k))%R).
    { apply Rle_trans with (1 := Rabs_triang _ _). rewrite !Rabs_mult. pose proof (Rabs_pos (QR k)) as P.
      assert ((Rabs (1 + d) <= 1 + u64)%R) by (apply Rabs_le_inv in Hd; apply Rabs_le; lra).
      assert ((Rabs (QR k' - QR k) * Rabs (1 + d) <= (u64 * Rabs (QR k)) * (1 + u64))%R) by (apply Rmult_le_compat; try apply Rabs_pos; assumption).
      assert ((Rabs (QR k) * Rabs d <= Rabs (QR k) * u64)%R) by (apply Rmult_le_compat_l; assumption). assert ((0 <= u64 * Rabs (QR k))%R) by (apply Rmult_le_pos; lra). nra. }
    apply (Rmult_le_compat_l (Rabs (QR q))) in A; [|apply Rabs_pos]. lra.
  - intros ->. replace (0 * k') with 0 by ring. apply round64_0.
Qed.

Lemma add_close q k k' : (Qcabs q <= ZQ (2 ^ 900))%Qc -> (Qcabs k <= ZQ (2 ^ 10))%Qc -> round64 q = q -> round64 k' = k' -> (Qcabs (k' - k) <= / ZQ (2 ^ 53) * Qcabs k)%Qc ->
  nround (Fin (q + k')) = Fin (round64 (q + k')) /\
  (Qcabs (round64 (q + k') - (q + k)) <= / ZQ (2 ^ 51) * (Qcabs q + Qcabs k))%Qc.
Proof.
  intros Bq Bk Hq Hk' Hk.
  apply QR_le in Bq, Bk, Hk. rewrite QR_mul, !QR_abs, QR_sub in Hk. rewrite QR_abs, QR_ZQ, <- bpow_pow2 in Bq, Bk by lia.
  assert (I53 : QR (/ ZQ (2 ^ 53)) = u64).
  { replace (/ ZQ (2 ^ 53)) with (1 / ZQ (2 ^ 53)) by (unfold Qcdiv; ring). rewrite QR_div by (apply QR_pos_Z; lia). rewrite QR_1, QR_ZQ, <- bpow_pow2 by lia.
    unfold u64, Rdiv. rewrite Rmult_1_l, <- bpow_opp. reflexivity. }
  assert (I51 : QR (/ ZQ (2 ^ 51)) = (4 * u64)%R).
  { replace (/ ZQ (2 ^ 51)) with (1 / ZQ (2 ^ 51)) by (unfold Qcdiv; ring). rewrite QR_div by (apply QR_pos_Z; lia). rewrite QR_1, QR_ZQ, <- bpow_pow2 by lia.
    unfold u64, Rdiv. rewrite Rmult_1_l, <- bpow_opp. change 4%R with (bpow radix2 2). rewrite <- bpow_plus. f_equal. }
  rewrite I53 in Hk. pose proof u64_pos as Hu. pose proof u64_small as Hus.
  pose proof (Rabs_pos (QR k)) as Pk. pose proof (Rabs_pos (QR q)) as Pq.
  assert (Hkk : (Rabs (QR k') <= 2 * Rabs (QR k))%R).
  { replace (QR k') with ((QR k' - QR k) + QR k)%R by ring. apply Rle_trans with (1 := Rabs_triang _ _). nra. }
  split.
  - apply (nround_small _ 901); [lia|]. rewrite QR_add. apply Rle_trans with (1 := Rabs_triang _ _).
    apply Rle_trans with (bpow radix2 900 + 2 * bpow radix2 10)%R; [lra|].
    change 2%R with (bpow radix2 1). rewrite <- bpow_plus. apply Rle_trans with (bpow radix2 900 + bpow radix2 900)%R; [apply Rplus_le_compat_l, bpow_le; lia|].
    replace (bpow radix2 901) with (2 * bpow radix2 900)%R by (change 2%R with (bpow radix2 1); rewrite <- bpow_plus; reflexivity). lra.
  - apply QR_le. rewrite QR_mul, QR_add, !QR_abs, QR_sub, QR_add, I51.
    destruct (round64_add q k' Hq Hk') as [d [Hd ->]].
    replace ((QR q + QR k') * (1 + d) - (QR q + QR k))%R with ((QR k' - QR k) + QR q * d + QR k' * d)%R by ring.
    apply Rle_trans with (1 := Rabs_triang _ _). apply Rle_trans with (Rabs (QR k' - QR k) + Rabs (QR q * d) + Rabs (QR k' * d))%R; [apply Rplus_le_compat_r, Rabs_triang|].
    rewrite !Rabs_mult.
    assert (A1 : (Rabs (QR q) * Rabs d <= Rabs (QR q) * u64)%R) by (apply Rmult_le_compat_l; assumption).
    assert (A2 : (Rabs (QR k') * Rabs d <= (2 * Rabs (QR k)) * u64)%R) by (apply Rmult_le_compat; try apply Rabs_pos; assumption).
    assert (0 <= u64 * Rabs (QR k))%R by (apply Rmult_le_pos; lra). assert (0 <= u64 * Rabs (QR q))%R by (apply Rmult_le_pos; lra). lra.
Qed.
