(** * Property C118: bilinear and triangle interpolation in double precision
    (CornersFloat.v). Vocabulary: Spec_Float2.v, Spec_Corners.v. *)
From Coq Require Import ZArith QArith Qcanon Qcabs Reals Qreals Lia Lra List Permutation.
From Flocq Require Import Core.
From Verif Require Import Base Num Float64 Interp Spec_Aggregation Spec_Float2 Spec_Corners Num_P Float64_P Float_Agg_P Float_Agg_P2 Float_Sum Float_Sum_P Float_Sum_P2
  Float_Weights_P Float_Weights_P2 Float_Weights_P3 CornersFloat Corners_P.
From Verif Require Bilinear Xr.
Import ListNotations.
Local Open Scope Z_scope.

(** ** quadrilaterals *)
(** whatever the solver gives, the four weights are between 0 and 1, each is the
    share of its corner up to 2^-51, and together they give 1 up to 2^-50 *)
Theorem C118_quadrilateral_partial : forall a b, round64 a = a -> round64 b = b ->
  exists ca cb ws, nearest01 a ca /\ nearest01 b cb /\ bilinear_weights64 (Fin a, Fin b) = map Fin ws /\
    Forall2 (fun e w => (0 <= w <= 1)%Qc /\ (Qcabs (w - e) <= half_to 51 * e + half_to 1074)%Qc) (corner_shares ca cb) ws /\
    (Qcabs (Qsum ws - 1) <= half_to 50)%Qc.
Proof.
  intros a b Fa Fb. destruct (clip64_spec a) as [ca [Ea [Na [Ba Ha]]]]. destruct (clip64_spec b) as [cb [Eb [Nb [Bb Hb]]]].
  destruct (corners_near ca cb (Ha Fa) (Hb Fb) Ba Bb) as [ws [E F]]. exists ca, cb, ws. split; [exact Na|]. split; [exact Nb|].
  split; [unfold bilinear_weights64; cbn [fst snd]; rewrite Ea, Eb; exact E|]. pose proof u64_pos as Hu. pose proof eta64_pos as Ht.
  assert (E51 : (bpow radix2 (- (51)) = 4 * u64)%R) by (unfold u64; change 4%R with (bpow radix2 2); rewrite <- bpow_plus; reflexivity).
  assert (E50 : (bpow radix2 (- (50)) = 8 * u64)%R) by (unfold u64; change 8%R with (bpow radix2 3); rewrite <- bpow_plus; reflexivity).
  split.
  - clear E. revert F. generalize (corner_shares ca cb). intros es F. induction F as [|x y es ws' [_ [[H1 H2] H3]] _ IH]; constructor; [|exact IH]. split.
    + split; apply QR_le; rewrite ?QR_0, ?QR_1; assumption.
    + apply QR_le. rewrite QR_abs, QR_sub, QR_add, QR_mul, !QR_half, E51, two_eta by lia. unfold Rdiv in H3. rewrite Rinv_1, !Rmult_1_r in H3. lra.
  - pose proof (near_sum 1 1 _ _ Rlt_0_1 F) as G. rewrite shares_sum, QR_1 in G. replace (1 / 1)%R with 1%R in G by field. change (cnt (corner_shares ca cb)) with 4%R in G.
    apply QR_le. rewrite QR_abs, QR_sub, QR_1, QR_half, E50 by lia.
    assert (Htu : (eta64 <= u64)%R) by (unfold u64, eta64; apply bpow_le; lia). lra.
Qed.
Print Assumptions C118_quadrilateral_partial.

(** the interpolated value lies in the range of the values at the corners, up to
    4 * 2^-50 of the largest of them; values that are not negative give none that
    is *)
Theorem C118_between_partial : forall a b v r lo hi M, round64 a = a -> round64 b = b -> List.length v = 4%nat -> Forall (double 450) v ->
  Forall (fun x => lo <= x <= hi)%Qc v -> Forall (fun x => Qcabs x <= M)%Qc v ->
  weighted_row64 (bilinear_weights64 (Fin a, Fin b)) (map Fin v) r ->
  exists q, r = Fin q /\ (lo - ZQ 4 * (half_to 50 * M + half_to 1074) <= q <= hi + ZQ 4 * (half_to 50 * M + half_to 1074))%Qc /\
    (Forall (fun x => 0 <= x)%Qc v -> (0 <= q)%Qc) /\ (Forall (fun x => x <= 0)%Qc v -> (q <= 0)%Qc).
Proof.
  intros a b v r lo hi M Fa Fb Hl Hv Hb HM Hr. destruct (clip64_spec a) as [ca [Ea [Na [Ba Ha]]]]. destruct (clip64_spec b) as [cb [Eb [Nb [Bb Hb']]]].
  destruct (corners_near ca cb (Ha Fa) (Hb' Fb) Ba Bb) as [ws [E F]]. unfold bilinear_weights64 in Hr. cbn [fst snd] in Hr. rewrite Ea, Eb, E in Hr.
  set (es := corner_shares ca cb) in *. assert (Hs : short es) by (vm_compute; split; discriminate).
  assert (HS : QR (Qsum es) = 1%R) by (unfold es; rewrite shares_sum; apply QR_1). pose proof (shares_pos ca cb Ba Bb) as Hp. fold es in Hp.
  assert (F4 : Forall2 (near_share (cnt es) (QR (Qsum es))) es ws).
  { rewrite HS. change (cnt es) with 4%R. clear -F Hp. induction F as [|x y l l' H _ IH]; constructor; [|apply IH; now inversion Hp].
    inversion Hp as [|? ? H0 _]; subst. apply (near_share_mono 1 4 1); [lra|lra|rewrite <- QR_0; now apply QR_le|exact H]. }
  destruct (between_near es ws v r lo hi M ltac:(rewrite HS; lra) F4 Hp Hs Hl Hv Hb HM Hr) as [q [Eq B]].
  exists q. split; [exact Eq|]. change (count es) with (ZQ 4) in B. split; [exact B|].
  pose proof (Forall2_len _ _ _ F) as Hl'. change (List.length es) with 4%nat in Hl'.
  assert (Hws : Forall (double 450) ws).
  { clear -F. induction F as [|x y w ws [H1 [H2 _]] _ IH]; constructor; [|exact IH]. split; [exact H1|]. apply QR_le. rewrite QR_abs, QR_ZQ, <- bpow_pow2 by lia.
    rewrite Rabs_pos_eq by lra. apply Rle_trans with 1%R; [lra|]. change 1%R with (bpow radix2 0). apply bpow_le. lia. }
  assert (Hw0 : Forall (fun y => 0 <= y)%Qc ws).
  { clear -F. induction F as [|x y w ws [H1 [H2 _]] _ IH]; constructor; [|exact IH]. apply QR_le. rewrite QR_0. lra. }
  assert (Hss : short ws) by (unfold short; rewrite <- Hl'; vm_compute; split; discriminate).
  destruct (cell64 ws v r ltac:(congruence) Hss Hws Hv Hr) as [q' [Eq' [_ [_ [P N]]]]]. rewrite Eq in Eq'. injection Eq' as <-. split.
  - intro H. apply P. apply Forall_forall. intros [w x] Hin. cbn [fst snd]. pose proof (in_combine_l _ _ _ _ Hin) as I1. pose proof (in_combine_r _ _ _ _ Hin) as I2.
    rewrite Forall_forall in Hw0, H. specialize (Hw0 _ I1). specialize (H _ I2). apply QR_le in Hw0, H. apply QR_le. rewrite QR_0 in *. rewrite QR_mul. now apply Rmult_le_pos.
  - intro H. apply N. apply Forall_forall. intros [w x] Hin. cbn [fst snd]. pose proof (in_combine_l _ _ _ _ Hin) as I1. pose proof (in_combine_r _ _ _ _ Hin) as I2.
    rewrite Forall_forall in Hw0, H. specialize (Hw0 _ I1). specialize (H _ I2). apply QR_le in Hw0, H. apply QR_le. rewrite QR_0 in *. rewrite QR_mul.
    rewrite <- (Rmult_0_r (QR w)). now apply Rmult_le_compat_l.
Qed.
Print Assumptions C118_between_partial.

(** the shares are the weights of the model in real numbers (Bilinear.v) *)
Theorem C118_shares_of_bilinear : forall solve q lat lon a b ca cb, solve q lat lon = (QR a, QR b) -> nearest01 a ca -> nearest01 b cb ->
  fst (Bilinear.quad_row solve q lat lon) = map (fun x => Xr.XF (QR x)) (corner_shares ca cb).
Proof.
  assert (C : forall x c, nearest01 x c -> Bilinear.clip01 (QR x) = QR c).
  { intros x c [H0 [H1 H2]]. unfold Bilinear.clip01. destruct (Rle_dec (QR x) 0) as [L|L].
    - rewrite H0 by (apply QR_le; now rewrite QR_0). rewrite QR_0. rewrite Rmin_right by lra. now apply Rmax_left.
    - destruct (Rle_dec 1 (QR x)) as [U|U].
      + rewrite H1 by (apply QR_le; now rewrite QR_1). rewrite QR_1. rewrite Rmin_left by lra. apply Rmax_right. lra.
      + rewrite H2 by (split; apply QR_le; rewrite ?QR_0, ?QR_1; lra). rewrite Rmin_right by lra. apply Rmax_right. lra. }
  intros solve [[[p1 p2] p3] p4] lat lon a b ca cb Hs Ha Hb. unfold Bilinear.quad_row. rewrite Hs, (C a ca Ha), (C b cb Hb). cbn [fst map corner_shares].
  rewrite !QR_mul, !QR_sub, QR_1. reflexivity.
Qed.
Print Assumptions C118_shares_of_bilinear.

(** a solver that gives no number gives no weight *)
Theorem C118_no_solution : forall a b, a = NaN \/ b = NaN -> bilinear_weights64 (a, b) = [NaN; NaN; NaN; NaN].
Proof.
  assert (H1 : forall x, fmul NaN x = NaN) by reflexivity. assert (H2 : forall x, fmul x NaN = NaN) by (intros []; reflexivity).
  intros a b [-> | ->]; unfold bilinear_weights64, corner_weights64; cbn [fst snd]; change (clip64 NaN) with NaN; change (fsub (nint 1) NaN) with NaN; now rewrite ?H1, ?H2.
Qed.
Print Assumptions C118_no_solution.

(** ** triangles *)
(** each weight is the one given by the matrix of the triangle up to 2^-50 of the
    products, the third what the two others leave of 1 up to 2^-51 *)
Theorem C118_triangle_partial : forall m00 m01 m10 m11 cx cy x y out,
  Forall (double 400) [m00; m01; m10; m11; cx; cy; x; y] ->
  triangle_weights64 ((Fin m00, Fin m01), (Fin m10, Fin m11), (Fin cx, Fin cy)) (Fin x, Fin y) out ->
  exists w0 w1 w2, out = [Fin w0; Fin w1; Fin w2] /\
    (Qcabs (w0 - (m00 * (x - cx) + m01 * (y - cy))) <= half_to 50 * (Qcabs (m00 * (x - cx)) + Qcabs (m01 * (y - cy))) + half_to 1073)%Qc /\
    (Qcabs (w1 - (m10 * (x - cx) + m11 * (y - cy))) <= half_to 50 * (Qcabs (m10 * (x - cx)) + Qcabs (m11 * (y - cy))) + half_to 1073)%Qc /\
    (Qcabs (w2 - (1 - w0 - w1)) <= half_to 51 * (1 + Qcabs w0 + Qcabs w1))%Qc.
Proof.
  intros m00 m01 m10 m11 cx cy x y out Hd [b0 [b1 [H0 [H1 ->]]]]. cbn [fst snd] in H0, H1.
  assert (D : forall z, In z [m00; m01; m10; m11; cx; cy; x; y] -> double 400 z) by (apply Forall_forall; exact Hd).
  destruct (row64 m00 m01 x y cx cy b0) as [w0 [-> [F0 [S0 B0]]]]; try (apply D; cbn [In]; tauto); [exact H0|].
  destruct (row64 m10 m11 x y cx cy b1) as [w1 [-> [F1 [S1 B1]]]]; try (apply D; cbn [In]; tauto); [exact H1|].
  destruct (third64 w0 w1 F0 F1 S0 S1) as [w2 [-> B2]]. exists w0, w1, w2. split; [reflexivity|].
  assert (E51 : (bpow radix2 (- (51)) = 4 * u64)%R) by (unfold u64; change 4%R with (bpow radix2 2); rewrite <- bpow_plus; reflexivity).
  assert (E50 : (bpow radix2 (- (50)) = 8 * u64)%R) by (unfold u64; change 8%R with (bpow radix2 3); rewrite <- bpow_plus; reflexivity).
  assert (Et : (bpow radix2 (- (1073)) = 4 * eta64)%R) by (unfold eta64; change 4%R with (bpow radix2 2); rewrite <- bpow_plus; reflexivity).
  split; [|split]; apply QR_le; rewrite ?QR_abs, ?QR_sub, ?QR_add, ?QR_mul, ?QR_abs, ?QR_add, ?QR_abs, ?QR_mul, ?QR_sub, ?QR_1, !QR_half, ?E50, ?E51, ?Et by lia; assumption.
Qed.
Print Assumptions C118_triangle_partial.

(** the full statement: values that are not negative never give a negative one,
    in triangles too *)
Definition C118_full : Prop := forall a b c r0 r1 p out v r,
  Forall (double 400) [fst a; snd a; fst b; snd b; fst c; snd c; fst p; snd p] -> nearest_matrix a b c r0 r1 -> in_triangle [a; b; c] p ->
  triangle_weights64 ((Fin (fst r0), Fin (snd r0)), (Fin (fst r1), Fin (snd r1)), (Fin (fst c), Fin (snd c))) (Fin (fst p), Fin (snd p)) out ->
  List.length v = 3%nat -> Forall (double 450) v -> Forall (fun x => 0 <= x)%Qc v -> weighted_row64 out (map Fin v) r ->
  exists q, r = Fin q /\ (0 <= q)%Qc.

(** the point (1,98) on the border of the triangle (15,0), (0,105), (0,0): the two
    first weights add up to more than 1, the third is less than 0 *)
Definition tA : Qc * Qc := (ZQ 15, 0%Qc).
Definition tB : Qc * Qc := (0%Qc, ZQ 105).
Definition tC : Qc * Qc := (0%Qc, 0%Qc).
Definition tP : Qc * Qc := (ZQ 1, ZQ 98).
Definition i15 : Qc := round64 (/ ZQ 15)%Qc.
Definition i105 : Qc := round64 (/ ZQ 105)%Qc.
Definition w_a : num := fadd (fmul (Fin i15) (fsub (nint 1) (Fin 0))) (fmul (Fin 0) (fsub (nint 98) (Fin 0))).
Definition w_b : num := fadd (fmul (Fin 0) (fsub (nint 1) (Fin 0))) (fmul (Fin i105) (fsub (nint 98) (Fin 0))).
Definition t_out : list num := [w_a; w_b; fsub (nint 1) (fadd w_a w_b)].
Definition t_v : list Qc := [0%Qc; 0%Qc; 1%Qc].
Definition t_r : num := fadd (fadd (fmul w_a (Fin 0)) (fmul w_b (Fin 0))) (fmul (fsub (nint 1) (fadd w_a w_b)) (Fin 1)).
Lemma two_products a b c d : einsum_any [(a, b); (c, d)] (fadd (fmul a b) (fmul c d)).
Proof. exact (ea_add _ [(a, b)] [(c, d)] _ _ (Permutation_refl _) (ea_prod _ _) (ea_prod _ _)). Qed.
Lemma inv_15 : (/ ZQ 15 * ZQ 15 = 1)%Qc. Proof. apply Qc_is_canon. vm_compute. reflexivity. Qed.
Lemma inv_105 : (/ ZQ 105 * ZQ 105 = 1)%Qc. Proof. apply Qc_is_canon. vm_compute. reflexivity. Qed.
Lemma t_matrix : nearest_matrix tA tB tC (i15, 0%Qc) (0%Qc, i105).
Proof.
  exists (/ ZQ 15)%Qc, 0%Qc, 0%Qc, (/ ZQ 105)%Qc. unfold tA, tB, tC. cbn [fst snd].
  replace (ZQ 15 - 0)%Qc with (ZQ 15) by ring. replace (ZQ 105 - 0)%Qc with (ZQ 105) by ring. rewrite inv_15, inv_105, round64_0. repeat split; try ring.
Qed.
Lemma t_inside : in_triangle [tA; tB; tC] tP.
Proof.
  exists [(/ ZQ 15)%Qc; (ZQ 98 * / ZQ 105)%Qc; 0%Qc]. split; [reflexivity|]. split; [reflexivity|].
  split; [repeat (constructor; [vm_compute; discriminate|]); constructor|]. split; [apply Qc_is_canon; vm_compute; reflexivity|].
  unfold tP, point_of. apply f_equal2; apply Qc_is_canon; vm_compute; reflexivity.
Qed.
Lemma t_doubles : Forall (double 400) [fst tA; snd tA; fst tB; snd tB; fst tC; snd tC; fst tP; snd tP].
Proof. repeat (constructor; [split; [apply Qc_is_canon; vm_compute; reflexivity|vm_compute; discriminate]|]). constructor. Qed.
Lemma t_weights : triangle_weights64 ((Fin i15, Fin 0), (Fin 0, Fin i105), (Fin (fst tC), Fin (snd tC))) (Fin (fst tP), Fin (snd tP)) t_out.
Proof. exists w_a, w_b. split; [apply two_products|]. split; [apply two_products|reflexivity]. Qed.
Lemma t_row : weighted_row64 t_out (map Fin t_v) t_r.
Proof.
  split; [reflexivity|]. exact (ea_add _ [(w_a, Fin 0); (w_b, Fin 0)] [(fsub (nint 1) (fadd w_a w_b), Fin 1)] _ _ (Permutation_refl _) (two_products _ _ _ _) (ea_prod _ _)).
Qed.
Lemma t_values : List.length t_v = 3%nat /\ Forall (double 450) t_v /\ Forall (fun x => 0 <= x)%Qc t_v.
Proof.
  split; [reflexivity|]. split; [repeat (constructor; [split; [apply Qc_is_canon; vm_compute; reflexivity|vm_compute; discriminate]|]); constructor|].
  repeat (constructor; [vm_compute; discriminate|]). constructor.
Qed.
Theorem C118_negative_refuted : ~ C118_full.
Proof.
  intro F. destruct t_values as [V1 [V2 V3]].
  destruct (F tA tB tC (i15, 0%Qc) (0%Qc, i105) tP t_out t_v t_r t_doubles t_matrix t_inside t_weights V1 V2 V3 t_row) as [q [E H]].
  assert (Hx : nltb t_r (Fin 0) = true) by (vm_compute; reflexivity). rewrite E in Hx. cbn [nltb] in Hx. apply Qc_ltb_spec in Hx. exact (Qclt_not_le _ _ Hx H).
Qed.
Print Assumptions C118_negative_refuted.

(** a position given with an error by the solver, outside [0,1] for one of them *)
Example C118_nonvacuous : exists a b v r, round64 a = a /\ round64 b = b /\ (1 < a)%Qc /\ List.length v = 4%nat /\ Forall (double 450) v /\
  Forall (fun x => 0 <= x <= ZQ 9)%Qc v /\ weighted_row64 (bilinear_weights64 (Fin a, Fin b)) (map Fin v) r.
Proof.
  destruct (einsum_exists (combine (bilinear_weights64 (Fin (round64 (ZQ 11 / ZQ 10)), Fin (round64 (ZQ 3 / ZQ 10)))) (map Fin [ZQ 9; 0%Qc; ZQ 2; ZQ 5]))) as [r Hr].
  exists (round64 (ZQ 11 / ZQ 10)), (round64 (ZQ 3 / ZQ 10)), [ZQ 9; 0%Qc; ZQ 2; ZQ 5], r. split; [apply round64_idem|]. split; [apply round64_idem|]. split; [vm_compute; reflexivity|].
  split; [reflexivity|]. split; [repeat (constructor; [split; [apply Qc_is_canon; vm_compute; reflexivity|vm_compute; discriminate]|]); constructor|].
  split; [repeat (constructor; [split; vm_compute; discriminate|]); constructor|]. split; [reflexivity|exact Hr].
Qed.
Example C118_triangle_nonvacuous : Forall (double 400) [i15; 0%Qc; 0%Qc; i105; 0%Qc; 0%Qc; ZQ 1; ZQ 98] /\
  triangle_weights64 ((Fin i15, Fin 0), (Fin 0, Fin i105), (Fin 0, Fin 0)) (Fin (ZQ 1), Fin (ZQ 98)) t_out.
Proof.
  split; [repeat (constructor; [split; [apply Qc_is_canon; vm_compute; reflexivity|vm_compute; discriminate]|]); constructor|exact t_weights].
Qed.
