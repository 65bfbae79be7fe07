(** * Rounding errors of sums and averages *)
From Coq Require Import ZArith QArith Qcanon Qcabs Reals Qreals Lia Lra List.
From Flocq Require Import Core.
From Verif Require Import Base Num Float64 Spec_Aggregation Float64_P Float_Agg_P.
Import ListNotations.
Local Open Scope R_scope.

Definition Rsum (l : list R) : R := fold_right Rplus 0 l.
Lemma QR_Qsum l : QR (Qsum l) = Rsum (map QR l).
Proof. induction l as [|x l IH]; cbn [Qsum fold_right map Rsum]; [apply QR_0|]. rewrite QR_add. fold (Qsum l) (Rsum (map QR l)). now rewrite IH. Qed.

Lemma step_err S T A x d j : Rabs (S - T) <= 2 * j * u64 * A -> Rabs T <= A -> 0 <= j -> 2 * j * u64 <= 1 -> Rabs d <= u64 ->
  Rabs ((S + x) * (1 + d) - (T + x)) <= 2 * (j + 1) * u64 * (A + Rabs x).
Proof.
  intros H1 H2 Hj Hs Hd. pose proof u64_pos as Hu. pose proof (Rabs_pos x) as Hx.
  replace ((S + x) * (1 + d) - (T + x)) with ((S - T) * (1 + d) + d * (T + x)) by ring.
  assert (HA : 0 <= A) by (apply Rle_trans with (2 := H2), Rabs_pos).
  apply Rle_trans with (1 := Rabs_triang _ _). rewrite !Rabs_mult.
  assert (B1 : Rabs (1 + d) <= 1 + u64) by (apply Rabs_le_inv in Hd; apply Rabs_le; lra).
  assert (B2 : Rabs (T + x) <= A + Rabs x) by (apply Rle_trans with (1 := Rabs_triang _ _); lra).
  apply Rle_trans with (2 * j * u64 * A * (1 + u64) + u64 * (A + Rabs x)).
  - apply Rplus_le_compat; apply Rmult_le_compat; try apply Rabs_pos; assumption.
  - assert (2 * j * u64 * A * (1 + u64) <= (2 * j + 1) * u64 * A).
    { replace (2 * j * u64 * A * (1 + u64)) with (2 * j * u64 * A + (2 * j * u64) * (u64 * A)) by ring.
      replace ((2 * j + 1) * u64 * A) with (2 * j * u64 * A + 1 * (u64 * A)) by ring.
      apply Rplus_le_compat_l. apply Rmult_le_compat_r; [apply Rmult_le_pos; lra|exact Hs]. }
    assert (0 <= 2 * j * u64 * Rabs x) by (repeat apply Rmult_le_pos; lra).
    assert (0 <= u64 * Rabs x) by (apply Rmult_le_pos; lra).
    replace (2 * (j + 1) * u64 * (A + Rabs x)) with ((2 * j + 1) * u64 * A + u64 * A + (2 * j * u64 * Rabs x + 2 * (u64 * Rabs x))) by ring.
    replace (u64 * (A + Rabs x)) with (u64 * A + u64 * Rabs x) by ring. lra.
Qed.

Lemma u_20 j : 0 <= j -> j <= IZR (2 ^ 20) -> 2 * j * u64 <= 1 /\ 2 * j * u64 <= / 1024.
Proof.
  intros H H1. assert (E : IZR (2 ^ 20) * u64 <= / 4096).
  { rewrite <- bpow_pow2 by lia. unfold u64. rewrite <- bpow_plus. change (/ 4096) with (bpow radix2 (-12)). apply bpow_le. lia. }
  assert (j * u64 <= IZR (2 ^ 20) * u64) by (apply Rmult_le_compat_r; [left; apply u64_pos|exact H1]). lra.
Qed.

(** a sum in the order of the list *)
Lemma sum64 xs : Forall (fun x => round64 x = x /\ Rabs (QR x) <= bpow radix2 900) xs -> forall j b T A,
  round64 b = b -> Rabs (QR b - T) <= 2 * IZR j * u64 * A -> Rabs T <= A -> A <= (IZR j + 1) * bpow radix2 900 -> (0 <= j)%Z ->
  (j + Z.of_nat (List.length xs) <= 2 ^ 20)%Z ->
  exists S, fold_left fadd (map Fin xs) (Fin b) = Fin S /\ round64 S = S /\
    Rabs (QR S - (T + Rsum (map QR xs))) <= 2 * IZR (j + Z.of_nat (List.length xs)) * u64 * (A + Rsum (map (fun x => Rabs (QR x)) xs)) /\
    (Forall (fun x => (0 <= x)%Qc) xs -> (0 <= b)%Qc -> (0 <= S)%Qc).
Proof.
  induction 1 as [|x xs [Hx Bx] Hr IH]; intros j b T A Hb He HT HA Hj Hn; cbn [map fold_left].
  - exists b. split; [reflexivity|]. split; [exact Hb|]. split; [|auto]. cbn [Rsum fold_right List.length Z.of_nat]. rewrite Z.add_0_r, !Rplus_0_r. exact He.
  - cbn [List.length] in Hn. assert (Hj' : 0 <= IZR j) by (apply (IZR_le 0); exact Hj).
    assert (Hj20 : IZR j <= IZR (2 ^ 20)) by (apply IZR_le; lia).
    destruct (u_20 _ Hj' Hj20) as [U1 U2].
    assert (HA0 : 0 <= A) by (apply Rle_trans with (2 := HT), Rabs_pos).
    assert (Bb : Rabs (QR b) <= bpow radix2 922).
    { replace (QR b) with ((QR b - T) + T) by ring. apply Rle_trans with (1 := Rabs_triang _ _).
      apply Rle_trans with (2 * A).
      - assert (2 * IZR j * u64 * A <= 1 * A) by (apply Rmult_le_compat_r; assumption). lra.
      - apply Rle_trans with (2 * (IZR (2 ^ 20 ) * bpow radix2 900 + bpow radix2 900)).
        + assert (IZR j * bpow radix2 900 <= IZR (2 ^ 20) * bpow radix2 900) by (apply Rmult_le_compat_r; [apply bpow_ge_0|exact Hj20]). lra.
        + rewrite <- bpow_pow2 by lia. rewrite <- bpow_plus.
          assert (bpow radix2 900 <= bpow radix2 (20 + 900)) by (apply bpow_le; lia).
          replace (bpow radix2 922) with (4 * bpow radix2 (20 + 900)) by (change 4 with (bpow radix2 2); rewrite <- bpow_plus; reflexivity). lra. }
    assert (Bs : Rabs (QR (b + x)) <= bpow radix2 923).
    { rewrite QR_add. apply Rle_trans with (1 := Rabs_triang _ _).
      replace (bpow radix2 923) with (bpow radix2 922 + bpow radix2 922) by (replace 923%Z with (1 + 922)%Z by lia; rewrite bpow_plus; change (bpow radix2 1) with 2; ring).
      apply Rplus_le_compat; [exact Bb|]. apply Rle_trans with (1 := Bx). apply bpow_le. lia. }
    assert (E : fadd (Fin b) (Fin x) = Fin (round64 (b + x))).
    { unfold fadd. change (nadd (Fin b) (Fin x)) with (Fin (b + x)%Qc). apply (nround_small _ 923); [lia|exact Bs]. }
    rewrite E. destruct (round64_add b x Hb Hx) as [d [Hd Ed]].
    pose proof (step_err (QR b) T A (QR x) d (IZR j) He HT Hj' U1 Hd) as G. rewrite <- Ed in G.
    destruct (IH (j + 1)%Z (round64 (b + x)) (T + QR x) (A + Rabs (QR x))) as [S [HS [FS [ES NS]]]].
    + apply round64_idem.
    + rewrite plus_IZR. exact G.
    + apply Rle_trans with (1 := Rabs_triang _ _). lra.
    + rewrite plus_IZR. lra.
    + lia.
    + lia.
    + exists S. split; [exact HS|]. split; [exact FS|]. split.
      * cbn [Rsum fold_right List.length]. fold (Rsum (map QR xs)). fold (Rsum (map (fun x => Rabs (QR x)) xs)).
        rewrite <- !Rplus_assoc. replace (j + Z.of_nat (Datatypes.S (List.length xs)))%Z with (j + 1 + Z.of_nat (List.length xs))%Z by lia. exact ES.
      * intros Hp Hb0. inversion Hp as [|? ? Hx0 Hp']; subst. apply NS; [exact Hp'|]. apply round64_sign.
        apply QR_le in Hx0. apply QR_le in Hb0. apply QR_le. rewrite QR_0 in *. rewrite QR_add. lra.
Qed.

Lemma count64 {X} (l : list X) : forall j, (0 <= j)%Z -> (j + Z.of_nat (List.length l) <= 2 ^ 53)%Z ->
  fold_left (fun c _ => fadd c (nint 1)) l (nint j) = nint (j + Z.of_nat (List.length l)).
Proof.
  induction l as [|x l IH]; intros j Hj Hn; cbn [fold_left List.length] in *.
  - now rewrite Z.add_0_r.
  - assert (E : fadd (nint j) (nint 1) = nint (j + 1)).
    { unfold fadd, nint. change (nadd (Fin (ZQ j)) (Fin (ZQ 1))) with (Fin (ZQ j + ZQ 1)%Qc).
      replace (ZQ j + ZQ 1)%Qc with (ZQ (j + 1)) by (apply QR_inj; rewrite QR_add, !QR_ZQ, plus_IZR; reflexivity).
      rewrite (nround_small _ 60).
      - rewrite round64_Z by lia. reflexivity.
      - lia.
      - rewrite QR_ZQ, Rabs_pos_eq by (apply (IZR_le 0); lia). rewrite bpow_pow2 by lia. apply IZR_le. lia. }
    rewrite E, IH by lia. f_equal. lia.
Qed.

Definition c52 : Qc := (/ ZQ (2 ^ 52))%Qc.
Definition c1074 : Qc := (/ ZQ (2 ^ 1074))%Qc.

(** the mean of floating point numbers, summed in the order of the list *)
Lemma mean64 {X} (xs : list Qc) (l : list X) : xs <> [] -> List.length l = List.length xs -> (Z.of_nat (List.length xs) <= 2 ^ 20)%Z ->
  Forall (fun x => round64 x = x /\ (Qcabs x <= ZQ (2 ^ 900))%Qc) xs ->
  exists r, fdiv (fold_left fadd (map Fin xs) (Fin 0)) (fold_left (fun c _ => fadd c (nint 1)) l (nint 0)) = Fin r /\
    (Forall (fun x => (0 <= x)%Qc) xs -> (0 <= r)%Qc) /\
    (Qcabs (r - Qsum xs / ZQ (Z.of_nat (List.length xs))) <= c52 * Qsum (map Qcabs xs) + c1074)%Qc.
Proof.
  intros Hne Hl Hk HF.
  rewrite (count64 l 0) by (rewrite ?Hl; lia). rewrite Hl, Z.add_0_l.
  assert (HF' : Forall (fun x => round64 x = x /\ Rabs (QR x) <= bpow radix2 900) xs).
  { eapply Forall_impl; [|exact HF]. intros x [H1 H2]. split; [exact H1|]. apply QR_le in H2. rewrite QR_abs, QR_ZQ, <- bpow_pow2 in H2 by lia. exact H2. }
  clear HF. destruct xs as [|x xs]; [contradiction|]. cbn [map fold_left].
  apply Forall_cons_iff in HF' as [[Hx Bx] HF].
  assert (E0 : fadd (Fin 0) (Fin x) = Fin x).
  { unfold fadd. change (nadd (Fin 0) (Fin x)) with (Fin (0 + x)%Qc). replace (0 + x)%Qc with x by ring. rewrite (nround_small x 900) by (lia || exact Bx). now rewrite Hx. }
  rewrite E0. set (k := Z.of_nat (List.length (x :: xs))) in *.
  assert (Ek : k = (1 + Z.of_nat (List.length xs))%Z) by (unfold k; cbn [List.length]; lia).
  destruct (sum64 xs HF 0 x (QR x) (Rabs (QR x)) Hx) as [S [HS [FS [ES NS]]]].
  { replace (QR x - QR x) with 0 by ring. rewrite Rabs_R0. assert (0 <= Rabs (QR x)) by apply Rabs_pos. pose proof u64_pos. replace (2 * 0 * u64 * Rabs (QR x)) with 0 by ring. lra. }
  { lra. }
  { assert (IZR 0 = 0) by reflexivity. lra. }
  { lia. }
  { lia. }
  rewrite HS.
  set (T := QR x + Rsum (map QR xs)) in *. set (A := Rabs (QR x) + Rsum (map (fun x => Rabs (QR x)) xs)) in *.
  rewrite Z.add_0_l in ES. set (m := Z.of_nat (List.length xs)) in *.
  assert (Hkp : ZQ k <> 0%Qc) by (apply QR_pos_Z; lia).
  assert (Hk1 : 1 <= IZR k) by (apply (IZR_le 1); lia).
  assert (HTA : Rabs T <= A).
  { unfold T, A. apply Rle_trans with (1 := Rabs_triang _ _). apply Rplus_le_compat_l. clear. induction xs as [|z xs IH]; cbn [map Rsum fold_right].
    - rewrite Rabs_R0. lra.
    - apply Rle_trans with (1 := Rabs_triang _ _). apply Rplus_le_compat_l. exact IH. }
  assert (HA : A <= IZR k * bpow radix2 900).
  { unfold A. rewrite Ek, plus_IZR. unfold m. clear -HF Bx. assert (G : Rsum (map (fun x => Rabs (QR x)) xs) <= IZR (Z.of_nat (List.length xs)) * bpow radix2 900).
    { induction HF as [|z xs [_ Bz] _ IH]; cbn [map Rsum fold_right List.length]; [simpl; lra|].
      rewrite Nat2Z.inj_succ, succ_IZR. fold (Rsum (map (fun x => Rabs (QR x)) xs)). lra. }
    lra. }
  assert (Hm0 : 0 <= IZR m) by (apply (IZR_le 0); unfold m; lia).
  destruct (u_20 (IZR m) Hm0) as [U1 U2]; [apply IZR_le; lia|].
  assert (HA0 : 0 <= A) by (apply Rle_trans with (2 := HTA), Rabs_pos).
  assert (BS : Rabs (QR S) <= bpow radix2 922).
  { replace (QR S) with ((QR S - T) + T) by ring. apply Rle_trans with (1 := Rabs_triang _ _).
    apply Rle_trans with (2 * A).
    - assert (2 * IZR m * u64 * A <= 1 * A) by (apply Rmult_le_compat_r; assumption). lra.
    - apply Rle_trans with (2 * (IZR (2 ^ 20) * bpow radix2 900)).
      + assert (IZR k * bpow radix2 900 <= IZR (2 ^ 20) * bpow radix2 900) by (apply Rmult_le_compat_r; [apply bpow_ge_0|apply IZR_le; lia]). lra.
      + rewrite <- bpow_pow2 by lia. rewrite <- bpow_plus. change 2 with (bpow radix2 1) at 1. rewrite <- bpow_plus. apply bpow_le. lia. }
  assert (Bd : Rabs (QR (S / ZQ k)) <= bpow radix2 922).
  { rewrite QR_div, QR_ZQ by exact Hkp. unfold Rdiv. rewrite Rabs_mult, Rabs_inv, (Rabs_pos_eq (IZR k)) by lra. rewrite <- (Rmult_1_r (bpow radix2 922)).
    apply Rmult_le_compat; try apply Rabs_pos; [left; apply Rinv_0_lt_compat; lra|exact BS|]. rewrite <- Rinv_1. apply Rinv_le_contravar; lra. }
  assert (Ed : fdiv (Fin S) (nint k) = Fin (round64 (S / ZQ k))).
  { unfold fdiv, nint, ndiv. unfold Qc_eqb. destruct (Qc_eq_dec (ZQ k) 0); [contradiction|]. apply (nround_small _ 922); [lia|exact Bd]. }
  rewrite Ed. exists (round64 (S / ZQ k)). split; [reflexivity|]. split.
  - intro Hp. apply Forall_cons_iff in Hp as [Hx0 Hp]. apply round64_sign. pose proof (NS Hp Hx0) as H. apply QR_le in H. apply QR_le.
    rewrite QR_0 in *. rewrite QR_div, QR_ZQ by exact Hkp. unfold Rdiv. apply Rmult_le_pos; [exact H|]. left. apply Rinv_0_lt_compat. lra.
  - destruct (round64_err (S / ZQ k)) as [d [e [Hd [He Er]]]]. rewrite QR_div, QR_ZQ in Er by exact Hkp.
    apply QR_le. rewrite QR_add, QR_mul, QR_abs, QR_sub, QR_div, QR_ZQ, !QR_Qsum by exact Hkp. rewrite Er.
    cbn [map]. replace (Rsum (QR x :: map QR xs)) with T by reflexivity.
    assert (EA : Rsum (QR (Qcabs x) :: map QR (map Qcabs xs)) = A).
    { cbn [Rsum fold_right]. rewrite QR_abs. unfold A. f_equal. rewrite map_map. unfold Rsum. f_equal. apply map_ext. intro z. apply QR_abs. }
    rewrite EA. unfold c52, c1074. rewrite !inv_pow by lia.
    replace (QR S / IZR k * (1 + d) + e - T / IZR k) with (((QR S - T) * (1 + d) + d * T) / IZR k + e) by (field; lra).
    apply Rle_trans with (1 := Rabs_triang _ _). apply Rplus_le_compat.
    + pose proof u64_pos as Hu. unfold Rdiv. rewrite Rabs_mult, Rabs_inv, (Rabs_pos_eq (IZR k)) by lra.
      apply Rmult_le_reg_r with (IZR k); [lra|]. rewrite Rmult_assoc, Rinv_l, Rmult_1_r by lra.
      apply Rle_trans with (1 := Rabs_triang _ _). rewrite !Rabs_mult.
      assert (B1 : Rabs (1 + d) <= 1 + u64) by (apply Rabs_le_inv in Hd; apply Rabs_le; lra).
      apply Rle_trans with (2 * IZR m * u64 * A * (1 + u64) + u64 * A).
      * apply Rplus_le_compat; apply Rmult_le_compat; try apply Rabs_pos; assumption.
      * change (- (52))%Z with (-52)%Z. replace (bpow radix2 (-52)) with (2 * u64) by (unfold u64; change 2 with (bpow radix2 1) at 1; rewrite <- bpow_plus; reflexivity).
        rewrite Ek, plus_IZR. replace (2 * IZR m * u64 * A * (1 + u64)) with (2 * IZR m * (u64 * A) + (2 * IZR m * u64) * (u64 * A)) by ring.
        assert (Hp : 0 <= u64 * A) by (apply Rmult_le_pos; lra).
        assert ((2 * IZR m * u64) * (u64 * A) <= 1 * (u64 * A)) by (apply Rmult_le_compat_r; assumption).
        replace (2 * u64 * A * (1 + IZR m)) with (2 * (u64 * A) + 2 * IZR m * (u64 * A)) by ring. lra.
    + unfold eta64 in He. apply Rle_trans with (1 := He). apply bpow_le. lia.
Qed.
