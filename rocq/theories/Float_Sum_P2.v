(** * Rounding errors of the weighted sums of interpolation *)
From Coq Require Import ZArith QArith Qcanon Qcabs Reals Qreals Lia Lra List Permutation.
From Flocq Require Import Core.
From Verif Require Import Base Num Float64 Spec_Aggregation Float64_P Float_Agg_P Float_Agg_P2 Float_Sum Float_Sum_P.
Import ListNotations.
Local Open Scope R_scope.

Definition Sabs (l : list (num * num)) : R := Rsum (map (fun p => Rabs (term p)) l).
Definition Sterm (l : list (num * num)) : R := Rsum (map term l).

Lemma Sterm_abs l : Rabs (Sterm l) <= Sabs l.
Proof. apply Rsum_abs. Qed.
Lemma Sabs_bound l : Forall okp l -> Sabs l <= cnt l * bpow radix2 900.
Proof. intro H. apply Rsum_abs_bound. eapply Forall_impl; [|exact H]. intros p [a [b [-> [_ [_ Hb]]]]]. exact Hb. Qed.

Lemma fma_err a A SA x m k d e :
  Rabs (a - A) <= 2 * m * u64 * SA + k * eta64 -> Rabs A <= SA -> 0 <= m -> m <= IZR (2 ^ 20) -> 0 <= k -> Rabs d <= u64 -> Rabs e <= eta64 ->
  Rabs ((x + a) * (1 + d) + e - (x + A)) <= 2 * (1 + m) * u64 * (Rabs x + SA) + (k * (1 + u64) + 1) * eta64.
Proof.
  intros H HA Hm Hm' Hk Hd He. pose proof u64_pos as Hu. pose proof eta64_pos as Ht. pose proof (Rabs_pos x) as Px.
  assert (PA : 0 <= SA) by (apply Rle_trans with (2 := HA), Rabs_pos).
  assert (Bd : Rabs (1 + d) <= 1 + u64) by (apply Rabs_le_inv in Hd; apply Rabs_le; lra).
  replace ((x + a) * (1 + d) + e - (x + A)) with ((a - A) * (1 + d) + d * (x + A) + e) by ring.
  apply Rle_trans with (1 := Rabs_triang _ _). apply Rle_trans with ((2 * m * u64 * SA + k * eta64) * (1 + u64) + u64 * (Rabs x + SA) + eta64).
  { apply Rplus_le_compat; [|exact He]. apply Rle_trans with (1 := Rabs_triang _ _). rewrite !Rabs_mult.
    apply Rplus_le_compat; apply Rmult_le_compat; try apply Rabs_pos; try assumption. apply Rle_trans with (1 := Rabs_triang _ _). lra. }
  destruct (u_20 m Hm Hm') as [Um _].
  assert (UA : 0 <= u64 * SA) by (apply Rmult_le_pos; lra). assert (UX : 0 <= u64 * Rabs x) by (apply Rmult_le_pos; lra).
  assert (G1 : 2 * m * u64 * (u64 * SA) <= 1 * (u64 * SA)) by (apply Rmult_le_compat_r; assumption).
  assert (G2 : 0 <= m * (u64 * Rabs x)) by (apply Rmult_le_pos; assumption).
  replace ((2 * m * u64 * SA + k * eta64) * (1 + u64) + u64 * (Rabs x + SA) + eta64)
    with (2 * m * (u64 * SA) + 2 * m * u64 * (u64 * SA) + u64 * Rabs x + u64 * SA + (k * (1 + u64) + 1) * eta64) by ring.
  replace (2 * (1 + m) * u64 * (Rabs x + SA)) with (2 * m * (u64 * SA) + 2 * (u64 * SA) + 2 * (u64 * Rabs x) + 2 * (m * (u64 * Rabs x))) by ring.
  lra.
Qed.

Lemma nonneg_round x : 0 <= QR x -> 0 <= QR (round64 x).
Proof. intro H. rewrite <- QR_0. apply QR_le, round64_sign, QR_le. now rewrite QR_0. Qed.
Lemma nonpos_round x : QR x <= 0 -> QR (round64 x) <= 0.
Proof. intro H. rewrite <- QR_0. apply QR_le, round64_sign', QR_le. now rewrite QR_0. Qed.

Lemma k_bound n : 1 <= n -> n <= IZR (2 ^ 20) -> (2 * n - 2) * (1 + u64) <= 2 * n - 1 /\ (2 * (n - 1)) * (1 + u64) + 1 <= 2 * n.
Proof.
  intros H H'. destruct (u_20 (n - 1) ltac:(lra) ltac:(lra)) as [U _].
  replace ((2 * n - 2) * (1 + u64)) with (2 * n - 2 + 2 * (n - 1) * u64) by ring.
  replace (2 * (n - 1) * (1 + u64) + 1) with (2 * n - 1 + 2 * (n - 1) * u64) by ring. lra.
Qed.

(** the terms summed, rounded in any order, fused or not *)
Lemma einsum_err l r : einsum_any l r -> Forall okp l -> cnt l <= IZR (2 ^ 20) -> l <> [] ->
  exists q, r = Fin q /\ round64 q = q /\ Rabs (QR q - Sterm l) <= 2 * cnt l * u64 * Sabs l + (2 * cnt l - 1) * eta64 /\
    (Forall (fun p => 0 <= term p) l -> 0 <= QR q) /\ (Forall (fun p => term p <= 0) l -> QR q <= 0).
Proof.
  induction 1 as [|w v|l l1 l2 a b P H1 IH1 H2 IH2|l l1 w v a P H1 IH1]; intros Hok Hn Hne.
  - contradiction.
  - apply Forall_cons_iff in Hok as [[x [y [E [Fx [Fy B]]]]] _]. injection E as -> ->.
    assert (En : fmul (Fin x) (Fin y) = Fin (round64 (x * y))).
    { unfold fmul. change (nmul (Fin x) (Fin y)) with (Fin (x * y)%Qc). apply (nround_small _ 900); [lia|]. now rewrite QR_mul. }
    rewrite En. exists (round64 (x * y)). split; [reflexivity|]. split; [apply round64_idem|]. split; [|split].
    + destruct (round64_err (x * y)) as [d [e [Hd [He ->]]]]. rewrite QR_mul.
      unfold Sterm, Sabs, Rsum, term, cnt. cbn [map fold_right fst snd val List.length]. change (IZR (Z.of_nat 1)) with 1.
      set (z := QR x * QR y). pose proof u64_pos. pose proof (Rabs_pos z).
      replace (z * (1 + d) + e - (z + 0)) with (d * z + e) by ring. apply Rle_trans with (1 := Rabs_triang _ _). rewrite Rabs_mult.
      assert (Rabs d * Rabs z <= u64 * Rabs z) by (apply Rmult_le_compat_r; assumption). assert (0 <= u64 * Rabs z) by (apply Rmult_le_pos; lra). lra.
    + intro Hp. apply Forall_cons_iff in Hp as [Hp _]. unfold term in Hp. cbn [fst snd val] in Hp. apply nonneg_round. now rewrite QR_mul.
    + intro Hp. apply Forall_cons_iff in Hp as [Hp _]. unfold term in Hp. cbn [fst snd val] in Hp. apply nonpos_round. now rewrite QR_mul.
  - rewrite (cnt_perm _ _ P), cnt_app in Hn |- *. destruct (Forall_perm_app _ _ _ _ P Hok) as [O1 O2].
    assert (ET : Sterm l = Sterm l1 + Sterm l2) by (unfold Sterm; rewrite (Rsum_map_perm _ _ _ P), map_app, Rsum_app; reflexivity).
    assert (EA : Sabs l = Sabs l1 + Sabs l2) by (unfold Sabs; rewrite (Rsum_map_perm _ _ _ P), map_app, Rsum_app; reflexivity).
    assert (C1 : 0 <= cnt l1) by (unfold cnt; apply (IZR_le 0); lia). assert (C2 : 0 <= cnt l2) by (unfold cnt; apply (IZR_le 0); lia).
    rewrite ET, EA.
    assert (Hs : forall l q, Forall okp l -> cnt l <= IZR (2 ^ 20) -> l <> [] -> Rabs (QR q - Sterm l) <= 2 * cnt l * u64 * Sabs l + (2 * cnt l - 1) * eta64 -> Rabs (QR q) <= bpow radix2 922).
    { intros l0 q Ho Hc Hl Hq. pose proof (cnt_pos _ Hl). apply (small_sum _ (Sterm l0) (Sabs l0) (cnt l0) (2 * cnt l0 - 1)); [exact Hq|apply Sterm_abs|now apply Sabs_bound|lra|exact Hc|lra]. }
    assert (Hd : forall l : list (num * num), l = [] \/ l <> []) by (intros [|]; [left; reflexivity|right; discriminate]).
    assert (Sgn : forall f : R -> Prop, Forall (fun p => f (term p)) l -> Forall (fun p => f (term p)) l1 /\ Forall (fun p => f (term p)) l2) by (intros f; apply Forall_perm_app; exact P).
    destruct (Hd l1) as [E1|N1]; [|destruct (Hd l2) as [E2|N2]].
    + apply einsum_any_nil in H1; [|exact E1]. subst a l1. cbn [app] in P.
      assert (N2 : l2 <> []) by (intros ->; apply Permutation_sym, Permutation_nil in P; contradiction).
      destruct (IH2 O2 ltac:(lra) N2) as [q [-> [F2 [B2 [P2 M2]]]]]. rewrite fadd_0_l; [|exact F2|apply (Hs l2); [exact O2|lra|exact N2|exact B2]].
      exists q. split; [reflexivity|]. split; [exact F2|]. change (Sterm []) with 0. change (Sabs []) with 0. change (cnt []) with 0. rewrite !Rplus_0_l. split; [exact B2|].
      split; intro Hp; [apply P2, (Sgn (fun x => 0 <= x)), Hp|apply M2, (Sgn (fun x => x <= 0)), Hp].
    + apply einsum_any_nil in H2; [|exact E2]. subst b l2.
      destruct (IH1 O1 ltac:(lra) N1) as [q [-> [F2 [B2 [P2 M2]]]]]. rewrite fadd_0_r; [|exact F2|apply (Hs l1); [exact O1|lra|exact N1|exact B2]].
      exists q. split; [reflexivity|]. split; [exact F2|]. change (Sterm []) with 0. change (Sabs []) with 0. change (cnt []) with 0. rewrite !Rplus_0_r. split; [exact B2|].
      split; intro Hp; [apply P2, (Sgn (fun x => 0 <= x)), Hp|apply M2, (Sgn (fun x => x <= 0)), Hp].
    + destruct (IH1 O1 ltac:(lra) N1) as [p [-> [F1 [B1 [P1 M1]]]]]. destruct (IH2 O2 ltac:(lra) N2) as [q [-> [F2 [B2 [P2 M2]]]]].
      pose proof (cnt_pos _ N1) as K1. pose proof (cnt_pos _ N2) as K2.
      rewrite fadd_small; [|apply (Hs l1); [exact O1|lra|exact N1|exact B1]|apply (Hs l2); [exact O2|lra|exact N2|exact B2]].
      exists (round64 (p + q)). split; [reflexivity|]. split; [apply round64_idem|]. split; [|split].
      * destruct (round64_add p q F1 F2) as [d [Hdd ->]].
        pose proof (add_err (QR p) (QR q) (Sterm l1) (Sterm l2) (Sabs l1) (Sabs l2) (cnt l1) (cnt l2) (2 * cnt l1 - 1) (2 * cnt l2 - 1) d B1 B2
          (Sterm_abs _) (Sterm_abs _) K1 K2 Hn ltac:(lra) ltac:(lra) ltac:(lra) ltac:(lra) Hdd) as G.
        apply Rle_trans with (1 := G). apply Rplus_le_compat_l. apply Rmult_le_compat_r; [left; apply eta64_pos|].
        destruct (k_bound (cnt l1 + cnt l2) ltac:(lra) Hn) as [Kb _]. replace (2 * cnt l1 - 1 + (2 * cnt l2 - 1)) with (2 * (cnt l1 + cnt l2) - 2) by ring. exact Kb.
      * intro Hp. apply nonneg_round. rewrite QR_add. destruct (Sgn (fun x => 0 <= x) Hp) as [Q1 Q2]. specialize (P1 Q1). specialize (P2 Q2). lra.
      * intro Hp. apply nonpos_round. rewrite QR_add. destruct (Sgn (fun x => x <= 0) Hp) as [Q1 Q2]. specialize (M1 Q1). specialize (M2 Q2). lra.
  - assert (Ec : cnt l = 1 + cnt l1).
    { rewrite (cnt_perm _ _ P). unfold cnt. cbn [List.length]. rewrite Nat2Z.inj_succ, succ_IZR. ring. }
    apply (Permutation_Forall P) in Hok. apply Forall_cons_iff in Hok as [[x [y [E [Fx [Fy B]]]]] O1]. injection E as -> ->.
    assert (ET : Sterm l = QR x * QR y + Sterm l1) by (unfold Sterm; rewrite (Rsum_map_perm _ _ _ P); reflexivity).
    assert (EA : Sabs l = Rabs (QR x * QR y) + Sabs l1) by (unfold Sabs; rewrite (Rsum_map_perm _ _ _ P); reflexivity).
    assert (C1 : 0 <= cnt l1) by (unfold cnt; apply (IZR_le 0); lia).
    assert (Sgn : forall f : R -> Prop, Forall (fun p => f (term p)) l -> f (QR x * QR y) /\ Forall (fun p => f (term p)) l1).
    { intros f Hp. apply (Permutation_Forall P) in Hp. apply Forall_cons_iff in Hp as [Hp Hq]. split; assumption. }
    change (nmul (Fin x) (Fin y)) with (Fin (x * y)%Qc). rewrite ET, EA, Ec in *.
    assert (Hd : l1 = [] \/ l1 <> []) by (destruct l1; [left; reflexivity|right; discriminate]).
    assert (Ha : exists q k, a = Fin q /\ Rabs (QR q) <= bpow radix2 922 /\ Rabs (QR q - Sterm l1) <= 2 * cnt l1 * u64 * Sabs l1 + k * eta64 /\ 0 <= k /\ k * (1 + u64) + 1 <= 2 * (1 + cnt l1) - 1 /\
      (Forall (fun p => 0 <= term p) l1 -> 0 <= QR q) /\ (Forall (fun p => term p <= 0) l1 -> QR q <= 0)).
    { destruct Hd as [E1|N1].
      - apply einsum_any_nil in H1; [|exact E1]. subst a l1. exists 0%Qc, 0. split; [reflexivity|]. rewrite QR_0. split; [rewrite Rabs_R0; apply bpow_ge_0|].
        change (Sterm []) with 0. change (Sabs []) with 0. change (cnt []) with 0. split; [rewrite Rminus_0_r, Rabs_R0; lra|]. split; [lra|]. split; [lra|]. split; intros _; lra.
      - destruct (IH1 O1 ltac:(lra) N1) as [q [-> [F1 [B1 [P1 M1]]]]]. pose proof (cnt_pos _ N1) as K1.
        exists q, (2 * cnt l1 - 1). split; [reflexivity|]. split; [|split; [exact B1|split; [lra|split; [|split; assumption]]]].
        + apply (small_sum _ (Sterm l1) (Sabs l1) (cnt l1) (2 * cnt l1 - 1)); [exact B1|apply Sterm_abs|now apply Sabs_bound|lra|lra|lra].
        + destruct (u_20 (cnt l1) C1 ltac:(lra)) as [U _]. pose proof u64_pos. replace ((2 * cnt l1 - 1) * (1 + u64) + 1) with (2 * cnt l1 + 2 * cnt l1 * u64 - u64) by ring. lra. }
    destruct Ha as [q [k [-> [Sq [Bq [Hk [Kb [P1 M1]]]]]]]].
    change (nadd (Fin (x * y)) (Fin q)) with (Fin (x * y + q)%Qc).
    assert (En : nround (Fin (x * y + q)) = Fin (round64 (x * y + q))).
    { apply (nround_small _ 923); [lia|]. rewrite QR_add, QR_mul. apply Rle_trans with (1 := Rabs_triang _ _). replace 923%Z with (1 + 922)%Z by lia. rewrite bpow_plus. change (bpow radix2 1) with 2.
      assert (bpow radix2 900 <= bpow radix2 922) by (apply bpow_le; lia). lra. }
    rewrite En. exists (round64 (x * y + q)). split; [reflexivity|]. split; [apply round64_idem|]. split; [|split].
    + destruct (round64_err (x * y + q)) as [d [e [Hd' [He ->]]]]. rewrite QR_add, QR_mul.
      apply Rle_trans with (1 := fma_err _ _ _ (QR x * QR y) _ _ d e Bq (Sterm_abs _) C1 ltac:(lra) Hk Hd' He).
      apply Rplus_le_compat_l. apply Rmult_le_compat_r; [left; apply eta64_pos|exact Kb].
    + intro Hp. apply nonneg_round. rewrite QR_add, QR_mul. destruct (Sgn (fun x => 0 <= x) Hp) as [Q1 Q2]. specialize (P1 Q2). lra.
    + intro Hp. apply nonpos_round. rewrite QR_add, QR_mul. destruct (Sgn (fun x => x <= 0) Hp) as [Q1 Q2]. specialize (M1 Q2). lra.
Qed.
