(** * Normalised weights in double precision, and the values they give *)
From Coq Require Import ZArith QArith Qcanon Qcabs Reals Qreals Lia Lra List Permutation.
From Flocq Require Import Core Relative.
From Verif Require Import Base Num Float64 Spec_Aggregation Spec_Float2 Float64_P Float_Agg_P Float_Agg_P2 Float_Sum Float_Sum_P Float_Sum_P2 Float_Weights_P Float_Weights_P2.
Import ListNotations.
Local Open Scope R_scope.

Lemma Qsum_cons x l : Qsum (x :: l) = (x + Qsum l)%Qc.
Proof. reflexivity. Qed.
Lemma vals_Fin w : map val (map Fin w) = map QR w.
Proof. rewrite map_map. reflexivity. Qed.

Lemma Forall2_Fin {P : Qc -> Qc -> Prop} {Q : num -> num -> Prop} w out : (forall x y, Q (Fin x) y -> exists r, y = Fin r /\ P x r) -> Forall2 Q (map Fin w) out -> exists ws, out = map Fin ws /\ Forall2 P w ws.
Proof.
  intro H. revert out. induction w as [|x w IH]; intros out F; cbn [map] in F; inversion F as [|a y ? out' Hq F' E1 E2]; subst; [exists []; split; [reflexivity|constructor]|].
  destruct (H _ _ Hq) as [r [-> Hr]]. destruct (IH _ F') as [ws [-> Hw]]. exists (r :: ws). split; [reflexivity|]. now constructor.
Qed.

Definition near_share (n : R) (S : R) (x y : Qc) : Prop :=
  round64 y = y /\ 0 <= QR y <= 1 /\ Rabs (QR y - QR x / S) <= 4 * n * u64 * (QR x / S) + eta64.

Lemma weights_near w out : Forall (double 900) w -> Forall (fun x => 0 <= x)%Qc w -> Exists (fun x => 0 < x)%Qc w -> short w ->
  normalised64 (map Fin w) out ->
  0 < QR (Qsum w) /\ exists ws, out = map Fin ws /\ Forall2 (near_share (cnt w) (QR (Qsum w))) w ws.
Proof.
  intros Hd Hp He Hs Hn. destruct (short_cnt w Hs) as [_ Hc].
  assert (P1 : Forall posw (map Fin w)).
  { clear -Hd Hp. induction Hd as [|x w Hx _ IH]; cbn [map]; constructor; inversion Hp as [|? ? H0 Hp']; subst.
    - apply double_R in Hx as [H1 H2]; [|lia]. split; [exists x; auto|]. cbn [val]. rewrite <- QR_0. now apply QR_le.
    - now apply IH. }
  assert (P2 : Exists (fun x => 0 < val x) (map Fin w)).
  { clear -He. induction He as [x w Hx|x w _ IH]; cbn [map]; [left|right; exact IH]. cbn [val]. rewrite <- QR_0. now apply QR_lt. }
  assert (Ec : cnt (map Fin w) = cnt w) by (unfold cnt; now rewrite map_length).
  assert (ES : Rsum (map val (map Fin w)) = QR (Qsum w)) by (rewrite vals_Fin, QR_Qsum; reflexivity).
  split. { rewrite <- ES. apply sum_pos; [|exact P2]. eapply Forall_impl; [|exact P1]. intros x [_ H]. exact H. }
  pose proof (normalised_err _ _ Hn P1 P2 ltac:(rewrite Ec; exact Hc)) as F. rewrite Ec, ES in F.
  refine (Forall2_Fin w out _ F). intros x y [r [-> [H1 [H2 H3]]]]. exists r. split; [reflexivity|]. split; [exact H1|]. split; [exact H2|exact H3].
Qed.

Lemma near_sum n S w ws : 0 < S -> Forall2 (near_share n S) w ws ->
  Rabs (QR (Qsum ws) - QR (Qsum w) / S) <= 4 * n * u64 * (QR (Qsum w) / S) + cnt w * eta64.
Proof.
  intros HS. induction 1 as [|x y w ws [_ [_ H]] _ IH].
  - change (Qsum []) with 0%Qc. rewrite QR_0. unfold cnt. cbn [List.length Z.of_nat]. unfold Rdiv. rewrite Rmult_0_l, Rminus_0_r, Rabs_R0. lra.
  - rewrite !Qsum_cons, !QR_add. replace (cnt (x :: w)) with (1 + cnt w) by (unfold cnt; cbn [List.length]; rewrite Nat2Z.inj_succ, succ_IZR; ring).
    replace (QR y + QR (Qsum ws) - (QR x + QR (Qsum w)) / S) with ((QR y - QR x / S) + (QR (Qsum ws) - QR (Qsum w) / S)) by (field; lra).
    apply Rle_trans with (1 := Rabs_triang _ _).
    replace (4 * n * u64 * ((QR x + QR (Qsum w)) / S)) with (4 * n * u64 * (QR x / S) + 4 * n * u64 * (QR (Qsum w) / S)) by (field; lra). lra.
Qed.

Definition rdot (w : list R) (v : list R) : R := Rsum (map (fun p => fst p * snd p) (combine w v)).
Lemma QR_dot w v : QR (dot w v) = rdot (map QR w) (map QR v).
Proof.
  unfold dot, rdot. rewrite QR_Qsum, map_map. revert v. induction w as [|x w IH]; intros [|y v]; cbn [combine map]; try reflexivity.
  unfold Rsum in *. cbn [fold_right]. rewrite <- IH, QR_mul. reflexivity.
Qed.

Lemma near_dot n S w ws v M : 0 < S -> 0 <= n -> Forall2 (near_share n S) w ws -> Forall (fun x => 0 <= x)%Qc w -> List.length v = List.length w -> Forall (fun x => Rabs (QR x) <= M) v -> 0 <= M ->
  Rabs (rdot (map QR ws) (map QR v) - rdot (map QR w) (map QR v) / S) <= (4 * n * u64 * (QR (Qsum w) / S) + cnt w * eta64) * M.
Proof.
  intros HS Hn F. revert v. induction F as [|x y w ws [_ [_ H]] F IH]; intros v Hp Hl Hv HM.
  - destruct v; [|discriminate Hl]. unfold rdot. cbn [combine map]. change (Rsum []) with 0. change (Qsum []) with 0%Qc. rewrite QR_0. unfold cnt. cbn [List.length Z.of_nat].
    unfold Rdiv. rewrite Rmult_0_l, Rminus_0_r, Rabs_R0. rewrite !Rmult_0_r, Rplus_0_l, !Rmult_0_l. lra.
  - destruct v as [|z v]; [discriminate Hl|]. injection Hl as Hl. inversion Hp as [|? ? Hx Hp']; inversion Hv as [|? ? Hz Hv']; subst.
    specialize (IH v Hp' Hl Hv' HM). cbn [map]. unfold rdot in *. cbn [combine map fst snd].
    set (A := Rsum (map (fun p => fst p * snd p) (combine (map QR ws) (map QR v)))) in *. set (B := Rsum (map (fun p => fst p * snd p) (combine (map QR w) (map QR v)))) in *.
    change (Rsum (QR y * QR z :: map (fun p => fst p * snd p) (combine (map QR ws) (map QR v)))) with (QR y * QR z + A).
    change (Rsum (QR x * QR z :: map (fun p => fst p * snd p) (combine (map QR w) (map QR v)))) with (QR x * QR z + B).
    rewrite Qsum_cons, QR_add. replace (cnt (x :: w)) with (1 + cnt w) by (unfold cnt; cbn [List.length]; rewrite Nat2Z.inj_succ, succ_IZR; ring).
    replace (QR y * QR z + A - (QR x * QR z + B) / S) with ((QR y - QR x / S) * QR z + (A - B / S)) by (field; lra).
    apply Rle_trans with (1 := Rabs_triang _ _). rewrite Rabs_mult.
    assert (Rabs (QR y - QR x / S) * Rabs (QR z) <= (4 * n * u64 * (QR x / S) + eta64) * M) by (apply Rmult_le_compat; try apply Rabs_pos; assumption).
    replace ((4 * n * u64 * ((QR x + QR (Qsum w)) / S) + (1 + cnt w) * eta64) * M)
      with ((4 * n * u64 * (QR x / S) + eta64) * M + (4 * n * u64 * (QR (Qsum w) / S) + cnt w * eta64) * M) by (field; lra). lra.
Qed.

Lemma exact_between w v lo hi : Forall (fun x => 0 <= x)%Qc w -> List.length v = List.length w -> Forall (fun x => lo <= QR x <= hi) v ->
  lo * QR (Qsum w) <= rdot (map QR w) (map QR v) <= hi * QR (Qsum w).
Proof.
  revert v. induction w as [|x w IH]; intros [|z v] Hp Hl Hv; try discriminate Hl.
  - unfold rdot. cbn. change (Qsum []) with 0%Qc. rewrite QR_0. lra.
  - injection Hl as Hl. inversion Hp as [|? ? Hx Hp']; inversion Hv as [|? ? Hz Hv']; subst. specialize (IH v Hp' Hl Hv').
    rewrite Qsum_cons, QR_add. cbn [map]. unfold rdot in *. cbn [combine map fst snd].
    change (Rsum (QR x * QR z :: map (fun p => fst p * snd p) (combine (map QR w) (map QR v)))) with (QR x * QR z + Rsum (map (fun p => fst p * snd p) (combine (map QR w) (map QR v)))).
    apply QR_le in Hx. rewrite QR_0 in Hx. rewrite !Rmult_plus_distr_l.
    assert (lo * QR x <= QR z * QR x) by (apply Rmult_le_compat_r; lra). assert (QR z * QR x <= hi * QR x) by (apply Rmult_le_compat_r; lra). lra.
Qed.

Lemma dot_abs_bound ws v M : Forall (fun y => 0 <= QR y) ws -> List.length v = List.length ws -> Forall (fun x => Rabs (QR x) <= M) v -> QR (dot_abs ws v) <= M * QR (Qsum ws).
Proof.
  revert v. induction ws as [|y ws IH]; intros [|z v] Hp Hl Hv; try discriminate Hl.
  - change (dot_abs [] []) with 0%Qc. change (Qsum []) with 0%Qc. rewrite QR_0. lra.
  - injection Hl as Hl. inversion Hp as [|? ? Hy Hp']; inversion Hv as [|? ? Hz Hv']; subst. specialize (IH v Hp' Hl Hv').
    change (dot_abs (y :: ws) (z :: v)) with (Qcabs (y * z) + dot_abs ws v)%Qc. rewrite Qsum_cons, !QR_add, QR_abs, QR_mul, Rabs_mult, (Rabs_pos_eq (QR y)) by exact Hy.
    assert (QR y * Rabs (QR z) <= QR y * M) by (apply Rmult_le_compat_l; assumption). lra.
Qed.

Lemma Forall2_len {X Y} (P : X -> Y -> Prop) l l' : Forall2 P l l' -> List.length l = List.length l'.
Proof. induction 1; cbn [List.length]; congruence. Qed.

(** values interpolated with weights near given shares *)
Lemma between_near w ws v r lo hi M : 0 < QR (Qsum w) -> Forall2 (near_share (cnt w) (QR (Qsum w))) w ws -> Forall (fun x => 0 <= x)%Qc w -> short w ->
  List.length v = List.length w -> Forall (double 450) v -> Forall (fun x => lo <= x <= hi)%Qc v -> Forall (fun x => Qcabs x <= M)%Qc v ->
  weighted_row64 (map Fin ws) (map Fin v) r ->
  exists q, r = Fin q /\ (lo - count w * (half_to 50 * M + half_to 1074) <= q <= hi + count w * (half_to 50 * M + half_to 1074))%Qc.
Proof.
  intros HS F Hp Hs Hl Hv Hb HM Hr. destruct (short_cnt w Hs) as [Hc1 Hc2].
  pose proof (Forall2_len _ _ _ F) as Hl'.
  assert (Hws : Forall (double 450) ws).
  { clear -F. revert F. generalize (cnt w) (QR (Qsum w)). intros n0 S0 F. induction F as [|x y w ws [H1 [H2 _]] _ IH]; constructor; [|exact IH]. split; [exact H1|]. apply QR_le. rewrite QR_abs, QR_ZQ, <- bpow_pow2 by lia.
    rewrite Rabs_pos_eq by lra. apply Rle_trans with 1; [lra|]. change 1 with (bpow radix2 0). apply bpow_le. lia. }
  assert (Hws0 : Forall (fun y => 0 <= QR y) ws).
  { clear -F. revert F. generalize (cnt w) (QR (Qsum w)). intros n0 S0 F. induction F as [|x y w ws [H1 [H2 _]] _ IH]; constructor; [|exact IH]. lra. }
  assert (Hs' : short ws) by (unfold short in *; rewrite <- Hl'; exact Hs).
  destruct (cell64 ws v r ltac:(congruence) Hs' Hws Hv Hr) as [q [-> [_ [B _]]]]. exists q. split; [reflexivity|].
  apply QR_le in B. rewrite QR_abs, QR_sub, QR_mul, QR_add, QR_mul, QR_count, !QR_half, two_u, two_eta in B by lia.
  assert (Ec : cnt ws = cnt w) by (unfold cnt; now rewrite Hl'). rewrite Ec in B. set (n := cnt w) in *.
  assert (HvM : Forall (fun x => Rabs (QR x) <= QR M) v). { eapply Forall_impl; [|exact HM]. intros x Hx. apply QR_le in Hx. now rewrite QR_abs in Hx. }
  assert (HM0 : 0 <= QR M).
  { destruct v as [|z v']; [destruct w; [unfold short in Hs; cbn [List.length Z.of_nat] in Hs; lia|discriminate Hl]|]. apply Forall_cons_iff in HvM as [Hz _]. apply Rle_trans with (2 := Hz), Rabs_pos. }
  pose proof (near_sum n _ w ws HS F) as Gs. fold n in Gs.
  pose proof (near_dot n _ w ws v (QR M) HS ltac:(lra) F Hp Hl HvM HM0) as Gd. fold n in Gd.
  assert (E1 : QR (Qsum w) / QR (Qsum w) = 1) by (field; lra). rewrite E1, Rmult_1_r in Gs, Gd.
  pose proof (dot_abs_bound ws v (QR M) Hws0 ltac:(congruence) HvM) as Ga.
  assert (Hb' : Forall (fun x => QR lo <= QR x <= QR hi) v) by (eapply Forall_impl; [|exact Hb]; intros x [H1 H2]; split; now apply QR_le).
  pose proof (exact_between w v (QR lo) (QR hi) Hp Hl Hb') as Gb. rewrite <- QR_dot in Gd, Gb. rewrite QR_dot in Gb.
  set (S := QR (Qsum w)) in *. set (D := rdot (map QR w) (map QR v)) in *.
  assert (Gb' : QR lo <= D / S <= QR hi).
  { split; apply Rmult_le_reg_r with S; try exact HS; unfold Rdiv; rewrite Rmult_assoc, Rinv_l by lra; lra. }
  destruct (u_20 n ltac:(lra) Hc2) as [U1 U2]. pose proof u64_pos as Hu. pose proof eta64_pos as Ht.
  assert (Htu : eta64 <= u64 / 4) by (unfold u64; change (bpow radix2 (-53) / 4) with (bpow radix2 (-53) * bpow radix2 (-2)); rewrite <- bpow_plus; apply bpow_le; lia).
  assert (Nu : 0 <= n * u64) by (apply Rmult_le_pos; lra).
  assert (Nt : n * eta64 <= n * (u64 / 4)) by (apply Rmult_le_compat_l; lra).
  assert (W : QR (Qsum ws) <= 1 + / 100). { apply Rabs_le_inv in Gs. lra. }
  assert (Ga' : QR (dot_abs ws v) <= QR M * (1 + / 100)) by (apply Rle_trans with (1 := Ga), Rmult_le_compat_l; assumption).
  assert (B' : Rabs (QR q - QR (dot ws v)) <= n * u64 * QR M * (2 + / 50) + 2 * n * eta64).
  { apply Rle_trans with (1 := B). replace (n * (2 * u64 * QR (dot_abs ws v) + 2 * eta64)) with (2 * (n * u64) * QR (dot_abs ws v) + 2 * n * eta64) by ring.
    assert (2 * (n * u64) * QR (dot_abs ws v) <= 2 * (n * u64) * (QR M * (1 + / 100))) by (apply Rmult_le_compat_l; lra). lra. }
  assert (NM : 0 <= n * u64 * QR M) by (apply Rmult_le_pos; assumption).
  assert (TM : n * eta64 * QR M <= n * (u64 / 4) * QR M) by (apply Rmult_le_compat_r; assumption).
  assert (T : Rabs (QR q - D / S) <= 8 * (n * u64 * QR M) + 2 * n * eta64).
  { replace (QR q - D / S) with ((QR q - QR (dot ws v)) + (QR (dot ws v) - D / S)) by ring. apply Rle_trans with (1 := Rabs_triang _ _).
    replace ((4 * n * u64 + n * eta64) * QR M) with (4 * (n * u64 * QR M) + n * eta64 * QR M) in Gd by ring.
    replace (n * (u64 / 4) * QR M) with (n * u64 * QR M / 4) in TM by field. lra. }
  apply Rabs_le_inv in T.
  assert (E50 : bpow radix2 (- (50)) = 8 * u64) by (unfold u64; change 8 with (bpow radix2 3); rewrite <- bpow_plus; reflexivity).
  split; apply QR_le; rewrite ?QR_sub, ?QR_add, QR_mul, QR_add, QR_mul, QR_count, !QR_half, E50, two_eta by lia; fold n;
    replace (n * (8 * u64 * QR M + 2 * eta64)) with (8 * (n * u64 * QR M) + 2 * n * eta64) by ring; lra.
Qed.

(** values interpolated with normalised weights *)
Lemma between64 w out v r lo hi M : Forall (double 900) w -> Forall (fun x => 0 <= x)%Qc w -> Exists (fun x => 0 < x)%Qc w -> short w ->
  normalised64 (map Fin w) out -> List.length v = List.length w -> Forall (double 450) v -> Forall (fun x => lo <= x <= hi)%Qc v -> Forall (fun x => Qcabs x <= M)%Qc v ->
  weighted_row64 out (map Fin v) r ->
  exists q, r = Fin q /\ (lo - count w * (half_to 50 * M + half_to 1074) <= q <= hi + count w * (half_to 50 * M + half_to 1074))%Qc.
Proof.
  intros Hd Hp He Hs Hn Hl Hv Hb HM Hr.
  destruct (weights_near w out Hd Hp He Hs Hn) as [HS [ws [-> F]]].
  exact (between_near w ws v r lo hi M HS F Hp Hs Hl Hv Hb HM Hr).
Qed.
