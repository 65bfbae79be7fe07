(** * Property C121: the altitude correction in double precision
    (Numexpr.v, Corrector.v). Vocabulary: Spec_Convert.v, [cell] of
    Spec_Aggregation.v. *)
From Coq Require Import Lia List Qcabs Rdefinitions Reals Lra.
From Flocq Require Import Core.
From Verif Require Import Base Num PyStr Float64 Converter Corrector Aggregator Numexpr Spec_Aggregation Spec_Convert Spec_Numexpr
  Num_P Aggregator_P Float64_P Float_Agg_P Numexpr_P Numexpr_P2 Props_Manip.
Local Open Scope string_scope.
Local Open Scope Z_scope.

(** the lapse rate of the README, 0.0065 K/m, and its gravity *)
Definition lapse : Qc := (ZQ 65 / ZQ 10000)%Qc.
Definition gravity : Qc := (ZQ 981 / ZQ 100)%Qc.

Lemma lapse_formula : ev64_3 "p+gem-dem*0.0065" = Some (fun p dem gem => fsub (fadd p gem) (fmul dem (Fin (round64 lapse)))).
Proof.
  unfold ev64_3. replace (parse_text "p+gem-dem*0.0065") with (Some (EBin Sub (EBin Add (EVar "p") (EVar "gem")) (EBin Mul (EVar "dem") (ENum 65 4 true)))) by (vm_compute; reflexivity).
  cbn [only_names existsb String.eqb Ascii.eqb Bool.eqb orb andb eval64].
  replace (nround (Fin (dec 65 4))) with (Fin (round64 lapse)); [reflexivity|].
  symmetry. apply (nround_small _ 10); [lia|]. assert (B : (Qcabs (dec 65 4) <= ZQ (2 ^ 10))%Qc) by (vm_compute; discriminate).
  apply QR_le in B. rewrite QR_abs, QR_ZQ, <- bpow_pow2 in B by lia. exact B.
Qed.

Lemma lapse_bound : (Qcabs lapse <= ZQ (2 ^ 10))%Qc. Proof. vm_compute. discriminate. Qed.
Lemma lapse_near : (Qcabs (round64 lapse - lapse) <= / ZQ (2 ^ 53) * Qcabs lapse)%Qc. Proof. vm_compute. discriminate. Qed.
Lemma lapse_pos : (0 <= round64 lapse)%Qc. Proof. vm_compute. discriminate. Qed.

(** a cell where all three are present *)
Definition present (dem gem : list num) (dem_mv gem_mv mv : num) (values : arr) (i : nat) (p g d : Qc) : Prop :=
  (cell values i p /\ ~ is_missing mv (Fin p) /\ round64 p = p /\ (Qcabs p <= ZQ (2 ^ 900))%Qc) /\
  (nth_error gem i = Some (Fin g) /\ ~ is_missing gem_mv (Fin g) /\ round64 g = g /\ (Qcabs g <= ZQ (2 ^ 900))%Qc) /\
  (nth_error dem i = Some (Fin d) /\ ~ is_missing dem_mv (Fin d) /\ (Qcabs d <= ZQ (2 ^ 900))%Qc).

Lemma corrected_cell f dem gem dem_mv gem_mv mv values out i p g d : ev64_3 "p+gem-dem*0.0065" = Some f ->
  List.length dem = asize values -> List.length gem = asize values ->
  correct f dem gem dem_mv gem_mv mv values = Ok out -> present dem gem dem_mv gem_mv mv values i p g d ->
  cell out i (round64 (round64 (p + g) - round64 (d * round64 lapse)))%Qc.
Proof.
  intros Hf Ld Lg Hc [[Hp [Mp [Rp Bp]]] [[Hg [Mg [Rg Bg]]] [Hd [Md Bd]]]].
  destruct (C20_correction_partial f dem gem dem_mv gem_mv mv values Ld Lg) as [out' [Ho [_ H]]].
  rewrite Hc in Ho. injection Ho as <-. destruct (H i _ _ _ Hp Hd Hg) as [H1 _]. specialize (H1 Mp Md Mg).
  rewrite lapse_formula in Hf. injection Hf as <-. unfold cell. rewrite H1.
  f_equal. exact (proj1 (correction_close p g d lapse (round64 lapse) Rp Rg Bp Bg Bd lapse_bound lapse_near)).
Qed.

(** ** C121: the corrected value is p + gem - dem * 0.0065 up to 2^-50 of the
    parts (2 * 10^-12 K for temperatures and altitudes of the Earth) *)
Theorem C121_correction : forall f dem gem dem_mv gem_mv mv values out, ev64_3 "p+gem-dem*0.0065" = Some f ->
  List.length dem = asize values -> List.length gem = asize values ->
  correct f dem gem dem_mv gem_mv mv values = Ok out ->
  forall i p g d, present dem gem dem_mv gem_mv mv values i p g d -> exists r, cell out i r /\
    (Qcabs (r - (p + g - d * lapse)) <= / ZQ (2 ^ 50) * (Qcabs p + Qcabs g + Qcabs (d * lapse)) + / ZQ (2 ^ 1072))%Qc.
Proof.
  intros f dem gem dem_mv gem_mv mv values out Hf Ld Lg Hc i p g d Hpr.
  eexists. split; [exact (corrected_cell f dem gem dem_mv gem_mv mv values out i p g d Hf Ld Lg Hc Hpr)|].
  destruct Hpr as [[_ [_ [Rp Bp]]] [[_ [_ [Rg Bg]]] [_ [_ Bd]]]].
  exact (proj2 (correction_close p g d lapse (round64 lapse) Rp Rg Bp Bg Bd lapse_bound lapse_near)).
Qed.
Print Assumptions C121_correction.

(** of two cells with the same temperature and geopotential the higher one is
    never the warmer one, and at the same altitude a warmer cell is never made
    the colder one *)
Theorem C121_order : forall f dem gem dem_mv gem_mv mv values out, ev64_3 "p+gem-dem*0.0065" = Some f ->
  List.length dem = asize values -> List.length gem = asize values ->
  correct f dem gem dem_mv gem_mv mv values = Ok out ->
  forall i j p p' g d d', present dem gem dem_mv gem_mv mv values i p g d -> present dem gem dem_mv gem_mv mv values j p' g d' ->
  (p <= p')%Qc -> (d' <= d)%Qc -> exists r r', cell out i r /\ cell out j r' /\ (r <= r')%Qc.
Proof.
  intros f dem gem dem_mv gem_mv mv values out Hf Ld Lg Hc i j p p' g d d' Hi Hj Hp Hd.
  eexists. eexists. split; [exact (corrected_cell f dem gem dem_mv gem_mv mv values out i p g d Hf Ld Lg Hc Hi)|].
  split; [exact (corrected_cell f dem gem dem_mv gem_mv mv values out j p' g d' Hf Ld Lg Hc Hj)|].
  exact (correction_order p p' g d d' _ _ lapse_pos eq_refl Hp Hd).
Qed.
Print Assumptions C121_order.

(** the geopotential formula: (z / 9.81) * 0.0065, computed with the rounded
    reciprocal of 9.81 *)
Theorem C121_geopotential : forall f z, ev64_z "(z/9.81)*0.0065" = Some f -> (Qcabs z <= ZQ (2 ^ 900))%Qc ->
  exists r, f (Fin z) = Fin r /\ (Qcabs (r - z / gravity * lapse) <= / ZQ (2 ^ 49) * Qcabs (z / gravity * lapse) + / ZQ (2 ^ 1071))%Qc /\
    (z = 0%Qc -> r = 0%Qc).
Proof.
  intros f z Hf Bz.
  assert (Ef : f = fun z => fmul (fmul z (fdiv (nint 1) (nround (Fin (dec 981 2))))) (nround (Fin (dec 65 4)))).
  { unfold ev64_z in Hf. replace (parse_text "(z/9.81)*0.0065") with (Some (EBin Mul (EBin Div (EVar "z") (ENum 981 2 true)) (ENum 65 4 true))) in Hf by (vm_compute; reflexivity).
    cbn [only_names existsb String.eqb Ascii.eqb Bool.eqb orb andb eval64 double_literal] in Hf.
    assert (Sinj : forall (A : Type) (a b : A), Some a = Some b -> a = b) by congruence. apply Sinj in Hf. symmetry. exact Hf. }
  subst f.
  assert (SM : forall q, (Qcabs q <= ZQ (2 ^ 10))%Qc -> nround (Fin q) = Fin (round64 q)).
  { intros q B. apply (nround_small _ 10); [lia|]. apply QR_le in B. rewrite QR_abs, QR_ZQ, <- bpow_pow2 in B by lia. exact B. }
  assert (E1 : fdiv (nint 1) (nround (Fin (dec 981 2))) = Fin (round64 (1 / round64 (dec 981 2)))).
  { rewrite SM by (vm_compute; discriminate). unfold fdiv, nint. cbn [ndiv].
    replace (Qc_eqb (round64 (dec 981 2)) 0) with false by (vm_compute; reflexivity).
    replace (ZQ 1) with 1%Qc by (apply Qc_is_canon; reflexivity). apply SM. vm_compute. discriminate. }
  assert (E2 : nround (Fin (dec 65 4)) = Fin (round64 lapse)).
  { apply (nround_small _ 10); [lia|]. assert (B := lapse_bound). apply QR_le in B. rewrite QR_abs, QR_ZQ, <- bpow_pow2 in B by lia. exact B. }
  cbv beta. rewrite E1, E2.
  destruct (mul_close z (1 / gravity)%Qc (round64 (1 / round64 (dec 981 2))) Bz) as [u [Eu [Cu Zu]]]; [vm_compute; discriminate|vm_compute; discriminate|].
  rewrite Eu.
  assert (Bu : (Qcabs u <= ZQ (2 ^ 900))%Qc).
  { apply QR_le. apply QR_le in Cu, Bz. rewrite QR_add, QR_mul, !QR_abs, QR_sub, QR_mul, !inv2 in Cu by lia. rewrite QR_abs, QR_ZQ, <- bpow_pow2 in * by lia.
    assert (G : (Rabs (QR (1 / gravity)) <= / 8)%R).
    { assert (G0 : (Qcabs (1 / gravity) <= / ZQ (2 ^ 3))%Qc) by (vm_compute; discriminate). apply QR_le in G0. rewrite QR_abs, inv2 in G0 by lia. exact G0. }
    assert (P : (Rabs (QR z * QR (1 / gravity)) <= bpow radix2 900 * / 8)%R) by (rewrite Rabs_mult; apply Rmult_le_compat; try apply Rabs_pos; assumption).
    replace (QR u) with ((QR u - QR z * QR (1 / gravity)) + QR z * QR (1 / gravity))%R by ring. apply Rle_trans with (1 := Rabs_triang _ _).
    assert (Q1 : (bpow radix2 (- (51)) <= 1)%R) by (apply (bpow_le radix2 _ 0); lia). assert (Q2 : (bpow radix2 (- (1073)) <= bpow radix2 900 * / 8)%R).
    { change (/ 8)%R with (bpow radix2 (-3)). rewrite <- bpow_plus. apply bpow_le. lia. }
    pose proof (bpow_gt_0 radix2 (- (51))). pose proof (Rabs_pos (QR z * QR (1 / gravity))). pose proof (bpow_gt_0 radix2 900). nra. }
  destruct (mul_close u lapse (round64 lapse) Bu lapse_bound lapse_near) as [r [Er [Cr Zr]]].
  exists r. split; [exact Er|]. split; [|intro E; apply Zr, Zu, E].
  replace (z / gravity * lapse)%Qc with ((z * (1 / gravity)) * lapse)%Qc by (unfold Qcdiv; ring).
  apply QR_le. apply QR_le in Cu, Cr.
  rewrite QR_add, QR_mul, !QR_abs, QR_sub, !inv2 in Cu by lia. rewrite QR_add, QR_mul, !QR_abs, QR_sub, QR_mul, !inv2 in Cr by lia.
  rewrite QR_add, QR_mul, !QR_abs, QR_sub, QR_mul, !inv2 by lia.
  set (w := QR (z * (1 / gravity))) in *.
  assert (L : (Rabs (QR lapse) <= 1)%R).
  { assert (L0 : (Qcabs lapse <= 1)%Qc) by (vm_compute; discriminate). apply QR_le in L0. now rewrite QR_abs, QR_1 in L0. }
  set (k := QR lapse) in *.
  change (bpow radix2 (- (49))) with (bpow radix2 (2 + -(51))). rewrite bpow_plus. change (bpow radix2 2) with 4%R.
  change (bpow radix2 (- (1071))) with (bpow radix2 (2 + -(1073))). rewrite bpow_plus. change (bpow radix2 2) with 4%R.
  pose proof (bpow_gt_0 radix2 (-(51))) as Hq. assert (Hq1 : (bpow radix2 (-(51)) <= / 4)%R) by (change (/ 4)%R with (bpow radix2 (-2)); apply bpow_le; lia).
  pose proof (bpow_gt_0 radix2 (-(1073))) as He. set (q := bpow radix2 (-(51))) in *. set (eta := bpow radix2 (-(1073))) in *.
  replace (QR r - w * k)%R with ((QR r - QR u * k) + (QR u - w) * k)%R by ring.
  apply Rle_trans with (1 := Rabs_triang _ _). rewrite Rabs_mult with (x := (QR u - w)%R).
  assert (A1 : (Rabs (QR u * k) <= Rabs (w * k) * (1 + q) + eta)%R).
  { replace (QR u * k)%R with ((QR u - w) * k + w * k)%R by ring. apply Rle_trans with (1 := Rabs_triang _ _). rewrite Rabs_mult with (x := (QR u - w)%R).
    assert ((Rabs (QR u - w) * Rabs k <= (q * Rabs w + eta) * Rabs k)%R) by (apply Rmult_le_compat_r; [apply Rabs_pos|exact Cu]).
    rewrite Rabs_mult in *. pose proof (Rabs_pos k). nra. }
  assert (A2 : (Rabs (QR u - w) * Rabs k <= q * Rabs (w * k) + eta)%R).
  { assert ((Rabs (QR u - w) * Rabs k <= (q * Rabs w + eta) * Rabs k)%R) by (apply Rmult_le_compat_r; [apply Rabs_pos|exact Cu]).
    rewrite Rabs_mult. pose proof (Rabs_pos k). nra. }
  pose proof (Rabs_pos (w * k)) as Pw. assert (0 <= q * Rabs (w * k))%R by (apply Rmult_le_pos; lra).
  assert (q * Rabs (QR u * k) <= q * (Rabs (w * k) * (1 + q) + eta))%R by (apply Rmult_le_compat_l; lra). nra.
Qed.
Print Assumptions C121_geopotential.

(** two cells of 280.15 K, one at 500 m and one at 1000 m; a missing cell *)
Definition tk : Qc := round64 (ZQ 28015 / ZQ 100).
Definition c121_dem : list num := [nint (-9999); nint 500; nint 1000].
Definition c121_gem : list num := [Fin tk; nint 2; nint 2].
Definition c121_values : arr := Nd [nint 5; Fin tk; Fin tk].
Example C121_nonvacuous :
  present c121_dem c121_gem (nint (-9999)) (nint 9999) (nint 9997) c121_values 1 tk (ZQ 2) (ZQ 500) /\
  present c121_dem c121_gem (nint (-9999)) (nint 9999) (nint 9997) c121_values 2 tk (ZQ 2) (ZQ 1000) /\
  (exists f, ev64_3 "p+gem-dem*0.0065" = Some f /\ exists out, correct f c121_dem c121_gem (nint (-9999)) (nint 9999) (nint 9997) c121_values = Ok out) /\
  (exists f, ev64_z "(z/9.81)*0.0065" = Some f).
Proof.
  assert (T : round64 tk = tk) by apply round64_idem.
  assert (Z : forall z, Z.abs z <= 2 ^ 53 -> round64 (ZQ z) = ZQ z) by (intros; now apply round64_Z).
  split; [|split; [|split]].
  - unfold present, is_missing, cell. repeat split; try exact T; try (apply Z; lia); try reflexivity; vm_compute; discriminate.
  - unfold present, is_missing, cell. repeat split; try exact T; try (apply Z; lia); try reflexivity; vm_compute; discriminate.
  - rewrite lapse_formula. eexists. split; [reflexivity|]. eexists. reflexivity.
  - unfold ev64_z. replace (parse_text "(z/9.81)*0.0065") with (Some (EBin Mul (EBin Div (EVar "z") (ENum 981 2 true)) (ENum 65 4 true))) by (vm_compute; reflexivity). eexists. reflexivity.
Qed.
