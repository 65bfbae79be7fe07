(** * Inverse squares of distances in double precision *)
From Coq Require Import ZArith QArith Qcanon Qcabs Reals Qreals Lia Lra List Permutation.
From Flocq Require Import Core Relative.
From Verif Require Import Base Num Float64 Spec_Aggregation Spec_Float2 Scipy Spec_Interp Spec_Scipy Float64_P Float_Agg_P Float_Agg_P2 Float_Sum Float_Sum_P Float_Sum_P2 Float_Weights_P Float_Weights_P2 Float_Weights_P3 Scipy_P.
Import ListNotations.
Local Open Scope R_scope.

(** distances neither tiny nor huge *)
Definition mid (d : Qc) : Prop := round64 d = d /\ bpow radix2 (-400) <= QR d <= bpow radix2 400.

Lemma round64_bpow_ge q k : (-1074 <= k)%Z -> bpow radix2 k <= QR q -> bpow radix2 k <= QR (round64 q).
Proof.
  intros Hk H. rewrite round64_ieee. unfold ieee. apply round_ge_generic; [now apply FLT_exp_valid|apply valid_rnd_N| |exact H].
  apply generic_format_bpow. unfold FLT_exp. lia.
Qed.

Lemma inv_square_err d : mid d -> exists w, inv_square64 (Fin d) = Fin w /\ double 900 w /\ 0 < QR w /\ Rabs (QR w - / (QR d * QR d)) <= 3 * u64 * / (QR d * QR d).
Proof.
  intros [Fd [L U]]. pose proof (bpow_gt_0 radix2 (-400)) as Hb. set (D := QR d) in *.
  assert (L2 : bpow radix2 (-800) <= D * D) by (change (-800)%Z with (-400 + -400)%Z; rewrite bpow_plus; apply Rmult_le_compat; lra).
  assert (U2 : D * D <= bpow radix2 800) by (change 800%Z with (400 + 400)%Z; rewrite bpow_plus; apply Rmult_le_compat; lra).
  assert (PD : 0 < D * D) by (apply Rmult_lt_0_compat; lra).
  unfold inv_square64, fmul. change (nmul (Fin d) (Fin d)) with (Fin (d * d)%Qc).
  assert (Edd : QR (d * d) = D * D) by apply QR_mul.
  rewrite (nround_small _ 800); [|lia|rewrite Edd, Rabs_pos_eq by lra; exact U2]. set (p := round64 (d * d)).
  assert (Lp : bpow radix2 (-800) <= QR p) by (unfold p; apply round64_bpow_ge; [lia|rewrite Edd; exact L2]).
  assert (Up : QR p <= bpow radix2 800).
  { unfold p. pose proof (round64_bound (d * d)%Qc 800 ltac:(lia)) as G. rewrite Edd, (Rabs_pos_eq (D * D)) in G by lra. specialize (G U2). apply Rle_trans with (2 := G). apply Rle_abs. }
  pose proof (bpow_gt_0 radix2 (-800)) as Hb8. pose proof (bpow_gt_0 radix2 800) as Hb8'.
  assert (Pp : 0 < QR p) by lra. assert (Np : p <> 0%Qc) by (intro E; rewrite E, QR_0 in Pp; lra).
  unfold fdiv, nint. assert (Ed : ndiv (Fin (ZQ 1)) (Fin p) = Fin (ZQ 1 / p)%Qc) by (unfold ndiv, Qc_eqb; destruct (Qc_eq_dec p 0); [contradiction|reflexivity]). rewrite Ed.
  assert (Ei : QR (ZQ 1 / p) = / QR p) by (rewrite QR_div, QR_ZQ by exact Np; unfold Rdiv; ring).
  assert (Pi : 0 < / QR p) by now apply Rinv_0_lt_compat.
  assert (Ui : / QR p <= bpow radix2 800). { change 800%Z with (- (-800))%Z. rewrite bpow_opp. apply Rinv_le_contravar; lra. }
  assert (Li : bpow radix2 (-800) <= / QR p). { change (-800)%Z with (- (800))%Z. rewrite bpow_opp. apply Rinv_le_contravar; lra. }
  rewrite (nround_small _ 800); [|lia|rewrite Ei, Rabs_pos_eq by lra; exact Ui]. set (w := round64 (ZQ 1 / p)).
  assert (Lw : bpow radix2 (-800) <= QR w) by (unfold w; apply round64_bpow_ge; [lia|rewrite Ei; exact Li]).
  exists w. split; [reflexivity|]. split; [|split; [lra|]].
  - split; [apply round64_idem|]. apply QR_le. rewrite QR_abs, QR_ZQ, <- bpow_pow2 by lia. apply Rle_trans with (bpow radix2 800); [|apply bpow_le; lia].
    unfold w. apply round64_bound; [lia|]. rewrite Ei, Rabs_pos_eq by lra. exact Ui.
  - destruct (round64_rel (d * d)%Qc) as [a [Ha Ea]]. { rewrite Edd, Rabs_pos_eq by lra. apply Rle_trans with (2 := L2). apply bpow_le. lia. }
    destruct (round64_rel (ZQ 1 / p)%Qc) as [b [Hb' Eb]]. { rewrite Ei, Rabs_pos_eq by lra. apply Rle_trans with (2 := Li). apply bpow_le. lia. }
    fold p in Ea. fold w in Eb. rewrite Ei in Eb. rewrite Edd in Ea. pose proof u64_small as Us. pose proof u64_pos as Hu.
    assert (Ha' := Ha). assert (Hb'' := Hb'). apply Rabs_le_inv in Ha'. apply Rabs_le_inv in Hb''. assert (H1 : 0 < 1 + a) by lra.
    replace (QR w - / (D * D)) with (/ (D * D) * ((b - a) / (1 + a))) by (rewrite Eb, Ea; field; repeat split; lra).
    assert (PI : 0 < / (D * D)) by now apply Rinv_0_lt_compat.
    rewrite Rabs_mult, (Rabs_pos_eq (/ (D * D))), Rmult_comm by lra. apply Rmult_le_compat_r; [lra|].
    unfold Rdiv. rewrite Rabs_mult, Rabs_inv, (Rabs_pos_eq (1 + a)) by lra. apply Rmult_le_reg_r with (1 + a); [lra|]. rewrite Rmult_assoc, Rinv_l, Rmult_1_r by lra.
    apply Rle_trans with (2 * u64); [apply Rabs_le; lra|].
    assert (3 * u64 * (1 - / 1024) <= 3 * u64 * (1 + a)) by (apply Rmult_le_compat_l; lra). lra.
Qed.

Lemma isq_R d : QR d <> 0 -> QR (isq d) = / (QR d * QR d).
Proof.
  intro H. unfold isq. assert (N : (d * d)%Qc <> 0%Qc). { intro E. apply (f_equal QR) in E. rewrite QR_mul, QR_0 in E. apply Rmult_integral in E. tauto. }
  rewrite QR_div, QR_mul, QR_1 by exact N. unfold Rdiv. ring.
Qed.
Lemma total_Qsum l : total l = Qsum l.
Proof. induction l as [|x l IH]; [reflexivity|]. cbn [total]. rewrite IH. reflexivity. Qed.

(** weights up to 3u: shares up to 7u *)
Lemma share_err x X w W : 0 < x -> 0 < X -> Rabs (w - x) <= 3 * u64 * x -> Rabs (W - X) <= 3 * u64 * X ->
  Rabs (w / W - x / X) <= 7 * u64 * (x / X) /\ 0 <= x / X.
Proof.
  intros Hx HX Hw HW. pose proof u64_pos as Hu. pose proof u64_small as Us.
  assert (Hu7 : 3 * u64 <= / 300) by lra.
  set (t := (w - x) / x). set (T := (W - X) / X).
  assert (Ew : w = x * (1 + t)) by (unfold t; field; lra). assert (EW : W = X * (1 + T)) by (unfold T; field; lra).
  assert (Ht : Rabs t <= 3 * u64). { unfold t, Rdiv. rewrite Rabs_mult, Rabs_inv, (Rabs_pos_eq x) by lra. apply Rmult_le_reg_r with x; [lra|]. rewrite Rmult_assoc, Rinv_l by lra. lra. }
  assert (HT : Rabs T <= 3 * u64). { unfold T, Rdiv. rewrite Rabs_mult, Rabs_inv, (Rabs_pos_eq X) by lra. apply Rmult_le_reg_r with X; [lra|]. rewrite Rmult_assoc, Rinv_l by lra. lra. }
  apply Rabs_le_inv in Ht. apply Rabs_le_inv in HT. assert (H1 : 0 < 1 + T) by lra.
  assert (P : 0 < x / X) by (unfold Rdiv; apply Rmult_lt_0_compat; [exact Hx|now apply Rinv_0_lt_compat]).
  split; [|lra]. replace (w / W - x / X) with (x / X * ((t - T) / (1 + T))) by (rewrite Ew, EW; field; split; lra).
  rewrite Rabs_mult, (Rabs_pos_eq (x / X)), Rmult_comm by lra. apply Rmult_le_compat_r; [lra|].
  unfold Rdiv. rewrite Rabs_mult, Rabs_inv, (Rabs_pos_eq (1 + T)) by lra. apply Rmult_le_reg_r with (1 + T); [lra|]. rewrite Rmult_assoc, Rinv_l, Rmult_1_r by lra.
  apply Rle_trans with (6 * u64); [apply Rabs_le; lra|].
  assert (7 * u64 * (1 - / 300) <= 7 * u64 * (1 + T)) by (apply Rmult_le_compat_l; lra). lra.
Qed.

Lemma squares ds : Forall mid ds -> exists w, map (fun d => inv_square64 (Fin d)) ds = map Fin w /\ Forall (double 900) w /\ Forall (fun x => 0 < x)%Qc w /\
  Forall2 (fun d x => 0 < QR (isq d) /\ Rabs (QR x - QR (isq d)) <= 3 * u64 * QR (isq d)) ds w.
Proof.
  induction 1 as [|d ds Hd _ [w [E [H1 [H2 H3]]]]]; [exists []; repeat constructor|].
  destruct (inv_square_err d Hd) as [x [Ex [Dx [Px Bx]]]]. exists (x :: w). cbn [map]. rewrite Ex, E.
  assert (Pd : 0 < QR d) by (destruct Hd as [_ [L _]]; pose proof (bpow_gt_0 radix2 (-400)); lra).
  split; [reflexivity|]. split; [now constructor|]. split; [constructor; [apply QR_lt; now rewrite QR_0|exact H2]|]. constructor; [|exact H3].
  rewrite isq_R by lra. split; [|exact Bx]. apply Rinv_0_lt_compat. now apply Rmult_lt_0_compat.
Qed.
Lemma squares_sum ds w : Forall2 (fun d x => 0 < QR (isq d) /\ Rabs (QR x - QR (isq d)) <= 3 * u64 * QR (isq d)) ds w ->
  Rabs (QR (Qsum w) - QR (total (map isq ds))) <= 3 * u64 * QR (total (map isq ds)) /\ 0 <= QR (total (map isq ds)) /\ (ds <> [] -> 0 < QR (total (map isq ds))).
Proof.
  induction 1 as [|d x ds w [Hp H] _ [IH [IHp _]]].
  - cbn [map total]. change (Qsum []) with 0%Qc. rewrite QR_0, Rminus_0_r, Rabs_R0. split; [lra|]. split; [lra|congruence].
  - cbn [map total]. rewrite Qsum_cons, !QR_add. split; [|split; [lra|intros _; lra]].
    replace (QR x + QR (Qsum w) - (QR (isq d) + QR (total (map isq ds)))) with ((QR x - QR (isq d)) + (QR (Qsum w) - QR (total (map isq ds)))) by ring.
    apply Rle_trans with (1 := Rabs_triang _ _). lra.
Qed.

Lemma Forall2_chain {A B C} (P : A -> B -> Prop) (Q : B -> C -> Prop) (R' : A -> C -> Prop) (f : A -> C -> Prop) l m r :
  (forall a b c, P a b -> Q b c -> R' a c) -> Forall2 P l m -> Forall2 Q m r -> Forall2 R' l r.
Proof.
  intros H F. revert r. induction F as [|a b l m Hp F IH]; intros r G; inversion G as [|? c ? r' Hq G']; subst; constructor; [now apply (H a b c)|now apply IH].
Qed.

Lemma invdist_err ds out : Forall mid ds -> short ds -> normalised64 (map (fun d => inv_square64 (Fin d)) ds) out ->
  exists ws, out = map Fin ws /\ Forall2 (fun d y => (0 <= y <= 1)%Qc /\
    (Qcabs (y - isq d / total (map isq ds)) <= count ds * half_to 49 * (isq d / total (map isq ds)) + half_to 1074)%Qc) ds ws.
Proof.
  intros Hm Hs Hn. destruct (squares ds Hm) as [w [E [H1 [H2 H3]]]]. rewrite E in Hn.
  pose proof (Forall2_len _ _ _ H3) as Hl. destruct (short_cnt ds Hs) as [C1 C2].
  assert (Hne : ds <> []) by (intros ->; unfold short in Hs; cbn [List.length Z.of_nat] in Hs; lia).
  destruct (weights_near w out H1) as [PW [ws [-> F]]]; [eapply Forall_impl; [|exact H2]; intros x Hx; now apply Qclt_le_weak| |unfold short in *; rewrite <- Hl; exact Hs|exact Hn|].
  { destruct w; [destruct ds; [contradiction|discriminate Hl]|]. inversion H2; subst. now left. }
  exists ws. split; [reflexivity|]. destruct (squares_sum ds w H3) as [B [_ PX]]. specialize (PX Hne).
  assert (Ec : cnt w = cnt ds) by (unfold cnt; now rewrite Hl). rewrite Ec in F. set (n := cnt ds) in *.
  assert (NX : total (map isq ds) <> 0%Qc) by (intro G; rewrite G, QR_0 in PX; lra).
  set (X := QR (total (map isq ds))) in *. set (W := QR (Qsum w)) in *.
  assert (EX : forall d, QR (isq d / total (map isq ds)) = QR (isq d) / X) by (intro d; apply QR_div; exact NX).
  assert (Ecd : QR (count ds) = n) by apply QR_count.
  assert (Key : forall d x y, (0 < QR (isq d) /\ Rabs (QR x - QR (isq d)) <= 3 * u64 * QR (isq d)) -> near_share n W x y ->
    (0 <= y <= 1)%Qc /\ (Qcabs (y - isq d / total (map isq ds)) <= count ds * half_to 49 * (isq d / total (map isq ds)) + half_to 1074)%Qc).
  { intros d x y [Pd Bd] [_ [[Y0 Y1] By]]. split; [split; apply QR_le; rewrite ?QR_0, ?QR_1; assumption|].
    apply QR_le. rewrite QR_abs, QR_sub, QR_add, QR_mul, QR_mul, Ecd, EX, !QR_half, two_eta by lia.
    destruct (share_err (QR (isq d)) X (QR x) W Pd PX Bd B) as [G Gp]. set (s := QR (isq d) / X) in *.
    destruct (u_20 n ltac:(lra) C2) as [U _]. pose proof u64_pos as Hu. pose proof u64_small as Us. pose proof eta64_pos as Ht.
    assert (E49 : bpow radix2 (- (49)) = 16 * u64) by (unfold u64; change 16 with (bpow radix2 4); rewrite <- bpow_plus; reflexivity). rewrite E49.
    assert (Sx : QR x / W <= 2 * s). { apply Rabs_le_inv in G. assert (7 * u64 * s <= 1 * s) by (apply Rmult_le_compat_r; lra). lra. }
    assert (Nu : 0 <= n * u64) by (apply Rmult_le_pos; lra).
    replace (QR y - s) with ((QR y - QR x / W) + (QR x / W - s)) by ring. apply Rle_trans with (1 := Rabs_triang _ _).
    assert (4 * (n * u64) * (QR x / W) <= 4 * (n * u64) * (2 * s)) by (apply Rmult_le_compat_l; lra).
    assert (1 * (u64 * s) <= n * (u64 * s)) by (apply Rmult_le_compat_r; [apply Rmult_le_pos; lra|exact C1]).
    assert (0 <= n * u64 * s) by (apply Rmult_le_pos; assumption).
    replace (4 * n * u64 * (QR x / W)) with (4 * (n * u64) * (QR x / W)) in By by ring. lra. }
  apply (Forall2_chain _ _ _ (fun _ _ => True) ds w ws Key H3 F).
Qed.

Lemma Forall2_imp {A B} (P Q : A -> B -> Prop) l l' : (forall a b, P a b -> Q a b) -> Forall2 P l l' -> Forall2 Q l l'.
Proof. intros H. induction 1; constructor; auto. Qed.
Lemma weights_Qc w out : Forall (double 900) w -> Forall (fun x => 0 <= x)%Qc w -> Exists (fun x => 0 < x)%Qc w -> short w ->
  normalised64 (map Fin w) out ->
  exists ws, out = map Fin ws /\
    Forall2 (fun x y => (0 <= y <= 1)%Qc /\ (Qcabs (y - x / Qsum w) <= count w * half_to 51 * (x / Qsum w) + half_to 1074)%Qc) w ws /\
    (Qcabs (Qsum ws - 1) <= count w * half_to 50)%Qc.
Proof.
  intros Hd Hp He Hs Hn. destruct (weights_near w out Hd Hp He Hs Hn) as [HS [ws [-> F]]]. destruct (short_cnt w Hs) as [C1 C2].
  exists ws. split; [reflexivity|]. pose proof u64_pos as Hu. pose proof eta64_pos as Ht.
  assert (NS : Qsum w <> 0%Qc) by (intro E; rewrite E, QR_0 in HS; lra).
  assert (E51 : bpow radix2 (- (51)) = 4 * u64) by (unfold u64; change 4 with (bpow radix2 2); rewrite <- bpow_plus; reflexivity).
  assert (E50 : bpow radix2 (- (50)) = 8 * u64) by (unfold u64; change 8 with (bpow radix2 3); rewrite <- bpow_plus; reflexivity).
  split.
  - assert (Key : forall x y, near_share (cnt w) (QR (Qsum w)) x y -> (0 <= y <= 1)%Qc /\ (Qcabs (y - x / Qsum w) <= count w * half_to 51 * (x / Qsum w) + half_to 1074)%Qc).
    { intros x y [_ [[Y0 Y1] B]]. split; [split; apply QR_le; rewrite ?QR_0, ?QR_1; assumption|].
      apply QR_le. rewrite QR_abs, QR_sub, QR_add, QR_mul, QR_mul, QR_count, QR_div, !QR_half, two_eta, E51 by (lia || exact NS). lra. }
    exact (Forall2_imp _ _ _ _ Key F).
  - pose proof (near_sum _ _ w ws HS F) as G. replace (QR (Qsum w) / QR (Qsum w)) with 1 in G by (field; lra).
    apply QR_le. rewrite QR_abs, QR_sub, QR_1, QR_mul, QR_count, QR_half, E50 by lia.
    assert (Htu : eta64 <= u64) by (apply bpow_le; lia). assert (cnt w * eta64 <= cnt w * u64) by (apply Rmult_le_compat_l; lra).
    assert (0 <= cnt w * u64) by (apply Rmult_le_pos; lra). lra.
Qed.

Lemma invdist_Qc m c d ds out : map fst c = map Fin (d :: ds) -> short (d :: ds) ->
  Forall (fun x => round64 x = x /\ (half_to 400 <= x <= ZQ (2 ^ 400))%Qc) (d :: ds) ->
  (round64 (1 / ZQ (10 ^ 10)) < d)%Qc /\ (d <= m)%Qc ->
  invdist_weights64 (Fin m) c out ->
  exists es ws, inverse_square (d :: ds) es /\ invdist_weights (Fin m) c = map Fin es /\ out = map Fin ws /\
    Forall2 (fun e y => (0 <= y <= 1)%Qc /\ (Qcabs (y - e) <= count (d :: ds) * half_to 49 * e + half_to 1074)%Qc) es ws.
Proof.
  intros Hc Hs Hm [Hd1 Hd2] H.
  assert (Ef : first_dist c = Fin d). { destruct c as [|[a k] c]; [discriminate Hc|]. cbn [map fst] in Hc. injection Hc as E _. exact E. }
  assert (Ee : eps10_64 = Fin (round64 (1 / ZQ (10 ^ 10)))).
  { unfold eps10_64. replace eps10 with (Fin (1 / ZQ (10 ^ 10))%Qc).
    - apply (nround_small _ 0); [lia|]. rewrite QR_div, QR_1, QR_ZQ by (apply QR_pos_Z; lia). rewrite Rabs_pos_eq; [|unfold Rdiv; rewrite Rmult_1_l; left; apply Rinv_0_lt_compat; apply (IZR_lt 0); lia].
      unfold Rdiv. rewrite Rmult_1_l. change (bpow radix2 0) with 1. rewrite <- Rinv_1. apply Rinv_le_contravar; [lra|]. apply (IZR_le 1). lia.
    - unfold eps10. f_equal; apply Qc_is_canon; vm_compute; reflexivity. }
  assert (H1 : leb_num (first_dist c) eps10_64 = false).
  { rewrite Ef, Ee. unfold leb_num. cbn [nltb neqb]. unfold Qc_ltb, Qc_eqb. destruct (Qclt_le_dec _ _) as [G|G]; [exfalso; exact (Qclt_not_le _ _ G (Qclt_le_weak _ _ Hd1))|].
    destruct (Qc_eq_dec _ _) as [E|E]; [exfalso; rewrite E in Hd1; exact (Qclt_not_le _ _ Hd1 (Qcle_refl _))|reflexivity]. }
  assert (Lt : (1 / ZQ (10 ^ 10) < d)%Qc). { apply Qcle_lt_trans with (2 := Hd1). vm_compute. discriminate. }
  assert (H1' : leb_num (first_dist c) eps10 = false).
  { replace eps10 with (Fin (1 / ZQ (10 ^ 10))%Qc) by (unfold eps10; f_equal; apply Qc_is_canon; vm_compute; reflexivity).
    rewrite Ef. unfold leb_num. cbn [nltb neqb]. unfold Qc_ltb, Qc_eqb. destruct (Qclt_le_dec _ _) as [G|G]; [exfalso; exact (Qclt_not_le _ _ G (Qclt_le_weak _ _ Lt))|].
    destruct (Qc_eq_dec _ _) as [E|E]; [exfalso; rewrite E in Lt; exact (Qclt_not_le _ _ Lt (Qcle_refl _))|reflexivity]. }
  assert (H2 : leb_num (first_dist c) (Fin m) = true).
  { rewrite Ef. unfold leb_num. cbn [nltb neqb]. unfold Qc_ltb, Qc_eqb. destruct (Qclt_le_dec _ _) as [G|G]; [reflexivity|]. destruct (Qc_eq_dec _ _) as [E|E]; [reflexivity|]. exfalso. apply E. now apply Qcle_antisym. }
  assert (Hmid : Forall mid (d :: ds)).
  { eapply Forall_impl; [|exact Hm]. intros x [A [B C]]. split; [exact A|]. apply QR_le in B. apply QR_le in C. rewrite QR_half in B by lia. rewrite QR_ZQ, <- bpow_pow2 in C by lia. split; assumption. }
  assert (Hpos : forall x, In x (d :: ds) -> (0 < x)%Qc).
  { intros x Hx. rewrite Forall_forall in Hmid. destruct (Hmid x Hx) as [_ [L _]]. apply QR_lt. rewrite QR_0. pose proof (bpow_gt_0 radix2 (-400)). lra. }
  unfold invdist_weights64 in H. rewrite H1, H2 in H.
  rewrite <- (map_map fst inv_square64) in H. rewrite Hc in H. rewrite map_map in H.
  destruct (invdist_err (d :: ds) out Hmid Hs H) as [ws [-> F]].
  exists (idw (d :: ds)), ws. split; [apply idw_spec; [discriminate|exact Hpos]|]. split; [now apply invdist_weights_in; [..|discriminate]|]. split; [reflexivity|].
  unfold idw. remember (d :: ds) as l eqn:El. clear -F. revert F. generalize (total (map isq l)) (count l). intros t n F.
  induction F as [|x y l ws Hxy _ IH]; cbn [map]; constructor; assumption.
Qed.
