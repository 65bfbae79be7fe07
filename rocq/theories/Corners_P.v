(** * Weights of corners in double precision: errors *)
From Coq Require Import ZArith QArith Qcanon Qcabs Reals Qreals Lia Lra List Permutation.
From Flocq Require Import Core Relative.
From Verif Require Import Base Num Float64 Spec_Aggregation Spec_Float2 Spec_Corners Num_P Float64_P Float_Agg_P Float_Agg_P2 Float_Sum Float_Sum_P Float_Sum_P2
  Float_Weights_P Float_Weights_P2 Float_Weights_P3 CornersFloat.
Import ListNotations.
Local Open Scope R_scope.

Lemma clip64_spec x : exists c, clip64 (Fin x) = Fin c /\ nearest01 x c /\ 0 <= QR c <= 1 /\ (round64 x = x -> round64 c = c).
Proof.
  unfold clip64. change (nint 0) with (Fin 0). change (nint 1) with (Fin 1). cbn [nltb].
  destruct (Qc_ltb x 0) eqn:E0; [|destruct (Qc_ltb 1 x) eqn:E1].
  - apply Qc_ltb_spec in E0. exists 0%Qc. split; [reflexivity|]. split; [|rewrite QR_0; split; [lra|intros _; exact round64_0]].
    split; [reflexivity|]. split; [intro H; exfalso; apply (Qclt_not_le _ _ E0); apply Qcle_trans with 1%Qc; [discriminate|exact H]|].
    intros [H _]. exfalso. exact (Qclt_not_le _ _ E0 H).
  - apply Qc_ltb_spec in E1. exists 1%Qc. split; [reflexivity|]. split; [|rewrite QR_1; split; [lra|intros _; apply (round64_Z 1); cbn; lia]].
    split; [intro H; exfalso; apply (Qclt_not_le _ _ E1); apply Qcle_trans with 0%Qc; [exact H|discriminate]|]. split; [reflexivity|].
    intros [_ H]. exfalso. exact (Qclt_not_le _ _ E1 H).
  - assert (H0 : (0 <= x)%Qc). { apply Qcnot_lt_le. intro H. apply Qc_ltb_spec in H. congruence. }
    assert (H1 : (x <= 1)%Qc). { apply Qcnot_lt_le. intro H. apply Qc_ltb_spec in H. congruence. }
    exists x. split; [reflexivity|]. split.
    + split; [intro H; now apply Qcle_antisym|]. split; [intro H; now apply Qcle_antisym|reflexivity].
    + split; [|tauto]. apply QR_le in H0, H1. rewrite QR_0 in H0. rewrite QR_1 in H1. lra.
Qed.

Lemma b0_1 : bpow radix2 0 = 1. Proof. reflexivity. Qed.
(** 1 - a for a in [0,1] *)
Lemma comp64 a : round64 a = a -> 0 <= QR a <= 1 ->
  exists c d, fsub (nint 1) (Fin a) = Fin c /\ round64 c = c /\ 0 <= QR c <= 1 /\ Rabs d <= u64 /\ QR c = (1 - QR a) * (1 + d).
Proof.
  intros Ha Hb. unfold fsub. change (nsub (nint 1) (Fin a)) with (Fin (1 - a)%Qc).
  rewrite (nround_small _ 0) by (try lia; rewrite QR_sub, QR_1, b0_1; apply Rabs_le; lra).
  destruct (round64_sub 1 a (round64_Z 1 ltac:(cbn; lia)) Ha) as [d [Hd E]].
  exists (round64 (1 - a)), d. split; [reflexivity|]. split; [apply round64_idem|]. split; [|split; [exact Hd|rewrite E, QR_1; reflexivity]].
  split.
  - apply nonneg_round. rewrite QR_sub, QR_1. lra.
  - assert (G : Rabs (QR (round64 (1 - a))) <= bpow radix2 0) by (apply round64_bound; [lia|rewrite QR_sub, QR_1, b0_1; apply Rabs_le; lra]). rewrite b0_1 in G. apply Rabs_le_inv in G. lra.
Qed.
Lemma mul01 x y : 0 <= QR x <= 1 -> 0 <= QR y <= 1 ->
  exists w d e, fmul (Fin x) (Fin y) = Fin w /\ round64 w = w /\ 0 <= QR w <= 1 /\ Rabs d <= u64 /\ Rabs e <= eta64 /\ QR w = QR x * QR y * (1 + d) + e.
Proof.
  intros Hx Hy. assert (Hp : 0 <= QR x * QR y <= 1). { split; [apply Rmult_le_pos; lra|]. apply Rle_trans with (1 * 1); [apply Rmult_le_compat; lra|lra]. }
  unfold fmul. change (nmul (Fin x) (Fin y)) with (Fin (x * y)%Qc).
  rewrite (nround_small _ 0) by (try lia; rewrite QR_mul, b0_1; apply Rabs_le; lra).
  destruct (round64_err (x * y)) as [d [e [Hd [He E]]]]. exists (round64 (x * y)), d, e. split; [reflexivity|]. split; [apply round64_idem|].
  split; [|split; [exact Hd|split; [exact He|rewrite E, QR_mul; reflexivity]]]. split.
  - apply nonneg_round. rewrite QR_mul. lra.
  - assert (G : Rabs (QR (round64 (x * y))) <= bpow radix2 0) by (apply round64_bound; [lia|rewrite QR_mul, b0_1; apply Rabs_le; lra]). rewrite b0_1 in G. apply Rabs_le_inv in G. lra.
Qed.
(** at most three roundings *)
Lemma three_d d1 d2 d3 : Rabs d1 <= u64 -> Rabs d2 <= u64 -> Rabs d3 <= u64 -> Rabs ((1 + d1) * (1 + d2) * (1 + d3) - 1) <= 4 * u64.
Proof.
  intros H1 H2 H3. pose proof u64_pos. pose proof u64_small.
  replace ((1 + d1) * (1 + d2) * (1 + d3) - 1) with (d1 + d2 + d3 + (d1 * d2 + d1 * d3 + d2 * d3 + d1 * d2 * d3)) by ring.
  assert (A : forall a b, Rabs a <= u64 -> Rabs b <= u64 -> Rabs (a * b) <= u64 * / 1024). { intros a b Ha Hb. rewrite Rabs_mult. apply Rmult_le_compat; try apply Rabs_pos; lra. }
  pose proof (A _ _ H1 H2) as A12. pose proof (A _ _ H1 H3) as A13. pose proof (A _ _ H2 H3) as A23.
  assert (A123 : Rabs (d1 * d2 * d3) <= u64 * / 1024). { rewrite Rabs_mult. apply Rle_trans with (u64 * / 1024 * 1); [|lra]. apply Rmult_le_compat; try apply Rabs_pos; [exact A12|lra]. }
  apply Rabs_le_inv in A12, A13, A23, A123, H1, H2, H3. apply Rabs_le. lra.
Qed.
Lemma near4 w e d1 d2 d3 e3 : 0 <= e -> Rabs d1 <= u64 -> Rabs d2 <= u64 -> Rabs d3 <= u64 -> Rabs e3 <= eta64 -> w = e * ((1 + d1) * (1 + d2) * (1 + d3)) + e3 ->
  Rabs (w - e) <= 4 * u64 * e + eta64.
Proof.
  intros He H1 H2 H3 H4 ->. replace (e * ((1 + d1) * (1 + d2) * (1 + d3)) + e3 - e) with (e * ((1 + d1) * (1 + d2) * (1 + d3) - 1) + e3) by ring.
  apply Rle_trans with (1 := Rabs_triang _ _). apply Rplus_le_compat; [|exact H4]. rewrite Rabs_mult, (Rabs_pos_eq e He), (Rmult_comm (4 * u64)).
  apply Rmult_le_compat_l; [exact He|]. now apply three_d.
Qed.

Lemma shares_sum a b : Qsum (corner_shares a b) = 1%Qc.
Proof. unfold corner_shares, Qsum. cbn [fold_right]. ring. Qed.
Lemma shares_pos a b : 0 <= QR a <= 1 -> 0 <= QR b <= 1 -> Forall (fun x => 0 <= x)%Qc (corner_shares a b).
Proof.
  intros Ha Hb. repeat (constructor; [apply QR_le; rewrite QR_0, ?QR_mul, ?QR_sub, ?QR_1; apply Rmult_le_pos; lra|]). constructor.
Qed.

Lemma corners_near a b : round64 a = a -> round64 b = b -> 0 <= QR a <= 1 -> 0 <= QR b <= 1 ->
  exists ws, corner_weights64 (Fin a) (Fin b) = map Fin ws /\ Forall2 (near_share 1 1) (corner_shares a b) ws.
Proof.
  intros Fa Fb Ha Hb. destruct (comp64 a Fa Ha) as [ca [da [Ea [Fca [Bca [Hda Va]]]]]]. destruct (comp64 b Fb Hb) as [cb [db [Eb [Fcb [Bcb [Hdb Vb]]]]]].
  unfold corner_weights64. rewrite Ea, Eb.
  destruct (mul01 ca cb Bca Bcb) as [w1 [d1 [e1 [-> [F1 [B1 [D1 [T1 V1]]]]]]]].
  destruct (mul01 a cb Ha Bcb) as [w2 [d2 [e2 [-> [F2 [B2 [D2 [T2 V2]]]]]]]].
  destruct (mul01 a b Ha Hb) as [w3 [d3 [e3 [-> [F3 [B3 [D3 [T3 V3]]]]]]]].
  destruct (mul01 ca b Bca Hb) as [w4 [d4 [e4 [-> [F4 [B4 [D4 [T4 V4]]]]]]]].
  exists [w1; w2; w3; w4]. split; [reflexivity|]. pose proof u64_pos. assert (Z0 : Rabs 0 <= u64) by (rewrite Rabs_R0; lra).
  unfold corner_shares. repeat apply Forall2_cons; [| | | |constructor]; (split; [assumption|split; [assumption|]]); unfold Rdiv; rewrite Rinv_1, !Rmult_1_r, ?QR_mul, ?QR_sub, ?QR_1.
  - apply (near4 _ _ da db d1 e1); try assumption; [apply Rmult_le_pos; lra|]. rewrite V1, Va, Vb. ring.
  - apply (near4 _ _ 0 db d2 e2); try assumption; [apply Rmult_le_pos; lra|]. rewrite V2, Vb. ring.
  - apply (near4 _ _ 0 0 d3 e3); try assumption; [apply Rmult_le_pos; lra|]. rewrite V3. ring.
  - apply (near4 _ _ da 0 d4 e4); try assumption; [apply Rmult_le_pos; lra|]. rewrite V4, Va. ring.
Qed.
Lemma near_share_mono n m S x y : n <= m -> 0 < S -> 0 <= QR x -> near_share n S x y -> near_share m S x y.
Proof.
  intros H HS Hx [H1 [H2 H3]]. split; [exact H1|]. split; [exact H2|]. apply Rle_trans with (1 := H3). apply Rplus_le_compat_r, Rmult_le_compat_r; [|].
  - unfold Rdiv. apply Rmult_le_pos; [exact Hx|]. left. now apply Rinv_0_lt_compat.
  - apply Rmult_le_compat_r; [left; apply u64_pos|lra].
Qed.

(** ** triangles *)
Lemma sub64 x y k : (0 <= k <= 900)%Z -> round64 x = x -> round64 y = y -> Rabs (QR x) <= bpow radix2 k -> Rabs (QR y) <= bpow radix2 k ->
  exists c d, fsub (Fin x) (Fin y) = Fin c /\ round64 c = c /\ Rabs (QR c) <= bpow radix2 (k + 1) /\ Rabs d <= u64 /\ QR c = (QR x - QR y) * (1 + d).
Proof.
  intros Hk Fx Fy Hx Hy. unfold fsub. change (nsub (Fin x) (Fin y)) with (Fin (x - y)%Qc).
  assert (B : Rabs (QR (x - y)) <= bpow radix2 (k + 1)).
  { rewrite QR_sub. unfold Rminus. apply Rle_trans with (1 := Rabs_triang _ _). rewrite Rabs_Ropp, bpow_plus. change (bpow radix2 1) with 2. lra. }
  rewrite (nround_small _ (k + 1)) by (try lia; exact B). destruct (round64_sub x y Fx Fy) as [d [Hd E]].
  exists (round64 (x - y)), d. split; [reflexivity|]. split; [apply round64_idem|]. split; [apply round64_bound; [lia|exact B]|]. split; assumption.
Qed.

Lemma row64 m0 m1 x y cx cy b0 :
  double 400 m0 -> double 400 m1 -> double 400 x -> double 400 y -> double 400 cx -> double 400 cy ->
  einsum_any [(Fin m0, fsub (Fin x) (Fin cx)); (Fin m1, fsub (Fin y) (Fin cy))] b0 ->
  exists q, b0 = Fin q /\ round64 q = q /\ Rabs (QR q) <= bpow radix2 922 /\
    Rabs (QR q - (QR m0 * (QR x - QR cx) + QR m1 * (QR y - QR cy))) <= 8 * u64 * (Rabs (QR m0 * (QR x - QR cx)) + Rabs (QR m1 * (QR y - QR cy))) + 4 * eta64.
Proof.
  intros Hm0 Hm1 Hx Hy Hcx Hcy He.
  apply double_R in Hm0 as [Fm0 Bm0]; [|lia]. apply double_R in Hm1 as [Fm1 Bm1]; [|lia]. apply double_R in Hx as [Fx Bx]; [|lia].
  apply double_R in Hy as [Fy By]; [|lia]. apply double_R in Hcx as [Fcx Bcx]; [|lia]. apply double_R in Hcy as [Fcy Bcy]; [|lia].
  destruct (sub64 x cx 400 ltac:(lia) Fx Fcx Bx Bcx) as [dx [d [E1 [F1 [B1 [D1 V1]]]]]]. destruct (sub64 y cy 400 ltac:(lia) Fy Fcy By Bcy) as [dy [d' [E2 [F2 [B2 [D2 V2]]]]]].
  rewrite E1, E2 in He. set (l := [(Fin m0, Fin dx); (Fin m1, Fin dy)]) in *.
  assert (Hok : Forall okp l).
  { repeat constructor; [exists m0, dx|exists m1, dy]; (split; [reflexivity|]; split; [assumption|]; split; [assumption|]); rewrite Rabs_mult;
    apply Rle_trans with (bpow radix2 400 * bpow radix2 (400 + 1)); try (apply Rmult_le_compat; try apply Rabs_pos; assumption); rewrite <- bpow_plus; apply bpow_le; lia. }
  assert (Hc : cnt l = 2) by reflexivity.
  destruct (einsum_err l b0 He Hok ltac:(rewrite Hc; apply IZR_le; lia) ltac:(discriminate)) as [q [-> [Fq [B _]]]].
  exists q. split; [reflexivity|]. split; [exact Fq|]. split.
  { apply (small_sum _ (Sterm l) (Sabs l) (cnt l) (2 * cnt l - 1)); [exact B|apply Sterm_abs|now apply Sabs_bound|rewrite Hc; lra|rewrite Hc; apply IZR_le; lia|lra]. }
  rewrite Hc in B. change (Sterm l) with (QR m0 * QR dx + (QR m1 * QR dy + 0)) in B. change (Sabs l) with (Rabs (QR m0 * QR dx) + (Rabs (QR m1 * QR dy) + 0)) in B.
  rewrite !Rplus_0_r, V1, V2 in B. set (X := QR m0 * (QR x - QR cx)) in *. set (Y := QR m1 * (QR y - QR cy)) in *.
  replace (QR m0 * ((QR x - QR cx) * (1 + d))) with (X * (1 + d)) in B by (unfold X; ring). replace (QR m1 * ((QR y - QR cy) * (1 + d'))) with (Y * (1 + d')) in B by (unfold Y; ring).
  clearbody X Y. clear -B D1 D2. pose proof u64_pos as Hu. pose proof u64_small as Hus. pose proof eta64_pos as Ht.
  assert (G : forall Z d, Rabs d <= u64 -> Rabs (Z * (1 + d)) <= Rabs Z * (1 + / 1024) /\ Rabs (Z * d) <= u64 * Rabs Z).
  { intros Z e He. rewrite !Rabs_mult. split.
    - apply Rmult_le_compat_l; [apply Rabs_pos|]. apply Rle_trans with (1 := Rabs_triang _ _). rewrite Rabs_R1. lra.
    - rewrite Rmult_comm. apply Rmult_le_compat_r; [apply Rabs_pos|exact He]. }
  destruct (G X d D1) as [GX GX']. destruct (G Y d' D2) as [GY GY'].
  assert (GS : u64 * (Rabs (X * (1 + d)) + Rabs (Y * (1 + d'))) <= u64 * ((Rabs X + Rabs Y) * (1 + / 1024))) by (apply Rmult_le_compat_l; lra).
  assert (US : 0 <= u64 * (Rabs X + Rabs Y)) by (apply Rmult_le_pos; [lra|pose proof (Rabs_pos X); pose proof (Rabs_pos Y); lra]).
  replace (QR q - (X + Y)) with ((QR q - (X * (1 + d) + Y * (1 + d'))) + (X * d + Y * d')) by ring.
  apply Rle_trans with (1 := Rabs_triang _ _). pose proof (Rabs_triang (X * d) (Y * d')).
  replace (2 * 2 * u64 * (Rabs (X * (1 + d)) + Rabs (Y * (1 + d')))) with (4 * (u64 * (Rabs (X * (1 + d)) + Rabs (Y * (1 + d'))))) in B by ring.
  replace (u64 * ((Rabs X + Rabs Y) * (1 + / 1024))) with (u64 * (Rabs X + Rabs Y) * (1 + / 1024)) in GS by ring.
  replace (8 * u64 * (Rabs X + Rabs Y)) with (8 * (u64 * (Rabs X + Rabs Y))) by ring.
  replace (u64 * (Rabs X + Rabs Y)) with (u64 * Rabs X + u64 * Rabs Y) in * by ring. lra.
Qed.

Lemma third64 a b : round64 a = a -> round64 b = b -> Rabs (QR a) <= bpow radix2 922 -> Rabs (QR b) <= bpow radix2 922 ->
  exists w, fsub (nint 1) (fadd (Fin a) (Fin b)) = Fin w /\ Rabs (QR w - (1 - QR a - QR b)) <= 4 * u64 * (1 + Rabs (QR a) + Rabs (QR b)).
Proof.
  intros Fa Fb Ba Bb. rewrite (fadd_small a b Ba Bb). destruct (round64_add a b Fa Fb) as [d [Hd E]]. set (s := round64 (a + b)) in *.
  assert (Bs : Rabs (QR s) <= bpow radix2 923).
  { apply round64_bound; [lia|]. rewrite QR_add. apply Rle_trans with (1 := Rabs_triang _ _). replace 923%Z with (1 + 922)%Z by lia. rewrite bpow_plus. change (bpow radix2 1) with 2. lra. }
  assert (B1 : 1 <= bpow radix2 923) by (change 1 with (bpow radix2 0); apply bpow_le; lia).
  unfold fsub. change (nsub (nint 1) (Fin s)) with (Fin (1 - s)%Qc).
  rewrite (nround_small _ 924); [|lia|].
  2:{ rewrite QR_sub, QR_1. unfold Rminus. apply Rle_trans with (1 := Rabs_triang _ _). rewrite Rabs_Ropp, Rabs_R1. replace 924%Z with (1 + 923)%Z by lia. rewrite bpow_plus. change (bpow radix2 1) with 2. lra. }
  destruct (round64_sub 1 s (round64_Z 1 ltac:(cbn; lia)) (round64_idem _)) as [d' [Hd' E']].
  exists (round64 (1 - s)). split; [reflexivity|]. rewrite E', QR_1, E. clear -Hd Hd'.
  pose proof u64_pos as Hu. pose proof u64_small as Hus. set (S := QR a + QR b).
  replace ((1 - S * (1 + d)) * (1 + d') - (1 - QR a - QR b)) with (d' + - (S * (d + d' + d * d'))) by (unfold S; ring).
  apply Rle_trans with (1 := Rabs_triang _ _). rewrite Rabs_Ropp, Rabs_mult.
  assert (K : Rabs (d + d' + d * d') <= 3 * u64).
  { assert (Rabs (d * d') <= u64 * 1) by (rewrite Rabs_mult; apply Rmult_le_compat; try apply Rabs_pos; lra). pose proof (Rabs_triang (d + d') (d * d')). pose proof (Rabs_triang d d'). lra. }
  assert (KS : Rabs S <= Rabs (QR a) + Rabs (QR b)) by apply Rabs_triang.
  assert (Rabs S * Rabs (d + d' + d * d') <= (Rabs (QR a) + Rabs (QR b)) * (3 * u64)) by (apply Rmult_le_compat; try apply Rabs_pos; assumption).
  assert (0 <= u64 * (Rabs (QR a) + Rabs (QR b))) by (apply Rmult_le_pos; [lra|pose proof (Rabs_pos (QR a)); pose proof (Rabs_pos (QR b)); lra]).
  replace ((Rabs (QR a) + Rabs (QR b)) * (3 * u64)) with (3 * (u64 * (Rabs (QR a) + Rabs (QR b)))) in * by ring.
  replace (4 * u64 * (1 + Rabs (QR a) + Rabs (QR b))) with (4 * u64 + 4 * (u64 * (Rabs (QR a) + Rabs (QR b)))) by ring. lra.
Qed.
