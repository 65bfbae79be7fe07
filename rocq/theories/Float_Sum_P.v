(** * Rounding errors of sums in any order *)
From Coq Require Import ZArith QArith Qcanon Qcabs Reals Qreals Lia Lra List Permutation.
From Flocq Require Import Core.
From Verif Require Import Base Num Float64 Spec_Aggregation Float64_P Float_Agg_P Float_Agg_P2 Float_Sum.
Import ListNotations.
Local Open Scope R_scope.

Definition val (x : num) : R := match x with Fin q => QR q | _ => 0 end.
(** a float far from overflow *)
Definition ok64 (x : num) : Prop := exists q, x = Fin q /\ round64 q = q /\ Rabs (QR q) <= bpow radix2 900.
Definition term (p : num * num) : R := val (fst p) * val (snd p).
Definition okp (p : num * num) : Prop := exists a b, p = (Fin a, Fin b) /\ round64 a = a /\ round64 b = b /\ Rabs (QR a * QR b) <= bpow radix2 900.

Lemma Rsum_app l l' : Rsum (l ++ l') = Rsum l + Rsum l'.
Proof. induction l as [|x l IH]; [change (Rsum ([] ++ l')) with (Rsum l'); change (Rsum []) with 0; lra|]. change (Rsum ((x :: l) ++ l')) with (x + Rsum (l ++ l')). change (Rsum (x :: l)) with (x + Rsum l). lra. Qed.
Lemma Rsum_perm l l' : Permutation l l' -> Rsum l = Rsum l'.
Proof. induction 1; unfold Rsum in *; cbn [fold_right] in *; lra. Qed.
Lemma Rsum_abs {X} (f : X -> R) l : Rabs (Rsum (map f l)) <= Rsum (map (fun x => Rabs (f x)) l).
Proof.
  induction l as [|x l IH]; cbn [map Rsum fold_right]; [rewrite Rabs_R0; lra|].
  apply Rle_trans with (1 := Rabs_triang _ _). apply Rplus_le_compat_l. exact IH.
Qed.
Lemma Rsum_abs_bound {X} (f : X -> R) l k : Forall (fun x => Rabs (f x) <= k) l -> Rsum (map (fun x => Rabs (f x)) l) <= IZR (Z.of_nat (List.length l)) * k.
Proof.
  induction 1 as [|x l Hx _ IH]; cbn [map Rsum fold_right List.length]; [simpl; lra|].
  rewrite Nat2Z.inj_succ, succ_IZR. fold (Rsum (map (fun x => Rabs (f x)) l)). lra.
Qed.
Lemma Rsum_nonneg l : Forall (fun x => 0 <= x) l -> 0 <= Rsum l.
Proof. induction 1; unfold Rsum in *; cbn [fold_right]; lra. Qed.

Definition cnt {X} (l : list X) : R := IZR (Z.of_nat (List.length l)).
Lemma cnt_app {X} (l l' : list X) : cnt (l ++ l') = cnt l + cnt l'.
Proof. unfold cnt. rewrite app_length, Nat2Z.inj_add, plus_IZR. reflexivity. Qed.
Lemma cnt_pos {X} (l : list X) : l <> [] -> 1 <= cnt l.
Proof. intro H. unfold cnt. apply (IZR_le 1). destruct l; [contradiction|]. cbn [List.length]. lia. Qed.

Lemma add_err a b A B SA SB m n k1 k2 d :
  Rabs (a - A) <= 2 * m * u64 * SA + k1 * eta64 -> Rabs (b - B) <= 2 * n * u64 * SB + k2 * eta64 ->
  Rabs A <= SA -> Rabs B <= SB -> 1 <= m -> 1 <= n -> m + n <= IZR (2 ^ 20) -> 0 <= k1 -> 0 <= k2 -> k1 <= 2 * m -> k2 <= 2 * n -> Rabs d <= u64 ->
  Rabs ((a + b) * (1 + d) - (A + B)) <= 2 * (m + n) * u64 * (SA + SB) + (k1 + k2) * (1 + u64) * eta64.
Proof.
  intros H1 H2 HA HB Hm Hn Hs K1 K2 _ _ Hd.
  pose proof u64_pos as Hu. pose proof eta64_pos as He.
  assert (PA : 0 <= SA) by (apply Rle_trans with (2 := HA), Rabs_pos). assert (PB : 0 <= SB) by (apply Rle_trans with (2 := HB), Rabs_pos).
  assert (Bd : Rabs (1 + d) <= 1 + u64) by (apply Rabs_le_inv in Hd; apply Rabs_le; lra).
  replace ((a + b) * (1 + d) - (A + B)) with (((a - A) + (b - B)) * (1 + d) + d * (A + B)) by ring.
  apply Rle_trans with (1 := Rabs_triang _ _). rewrite !Rabs_mult.
  apply Rle_trans with ((2 * m * u64 * SA + k1 * eta64 + (2 * n * u64 * SB + k2 * eta64)) * (1 + u64) + u64 * (SA + SB)).
  { apply Rplus_le_compat; apply Rmult_le_compat; try apply Rabs_pos; try assumption.
    - apply Rle_trans with (1 := Rabs_triang _ _). lra.
    - apply Rle_trans with (1 := Rabs_triang _ _). lra. }
  destruct (u_20 m ltac:(lra) ltac:(lra)) as [Um _]. destruct (u_20 n ltac:(lra) ltac:(lra)) as [Un _].
  assert (G1 : 2 * m * u64 * (u64 * SA) <= 1 * (u64 * SA)) by (apply Rmult_le_compat_r; [apply Rmult_le_pos; lra|exact Um]).
  assert (G2 : 2 * n * u64 * (u64 * SB) <= 1 * (u64 * SB)) by (apply Rmult_le_compat_r; [apply Rmult_le_pos; lra|exact Un]).
  assert (UA : 0 <= u64 * SA) by (apply Rmult_le_pos; lra). assert (UB : 0 <= u64 * SB) by (apply Rmult_le_pos; lra).
  assert (G3 : 1 * (u64 * SA) <= n * (u64 * SA)) by (apply Rmult_le_compat_r; assumption).
  assert (G4 : 1 * (u64 * SB) <= m * (u64 * SB)) by (apply Rmult_le_compat_r; assumption).
  replace ((2 * m * u64 * SA + k1 * eta64 + (2 * n * u64 * SB + k2 * eta64)) * (1 + u64) + u64 * (SA + SB))
    with (2 * m * (u64 * SA) + 2 * m * u64 * (u64 * SA) + 2 * n * (u64 * SB) + 2 * n * u64 * (u64 * SB) + u64 * SA + u64 * SB + (k1 + k2) * (1 + u64) * eta64) by ring.
  replace (2 * (m + n) * u64 * (SA + SB)) with (2 * m * (u64 * SA) + 2 * n * (u64 * SB) + 2 * (n * (u64 * SA)) + 2 * (m * (u64 * SB))) by ring.
  lra.
Qed.

(** a sum of [n] terms of at most 2^900 up to this error stays small *)
Lemma small_sum r T A n k : Rabs (r - T) <= 2 * n * u64 * A + k * eta64 -> Rabs T <= A -> A <= n * bpow radix2 900 -> 0 <= n -> n <= IZR (2 ^ 20) -> k <= 2 * n ->
  Rabs r <= bpow radix2 922.
Proof.
  intros H HT HA Hn Hn' Hk. destruct (u_20 n Hn Hn') as [U _]. pose proof eta64_pos as He.
  assert (PA : 0 <= A) by (apply Rle_trans with (2 := HT), Rabs_pos).
  replace r with ((r - T) + T) by ring. apply Rle_trans with (1 := Rabs_triang _ _).
  assert (2 * n * u64 * A <= 1 * A) by (apply Rmult_le_compat_r; assumption).
  assert (E : eta64 <= bpow radix2 900) by (apply bpow_le; lia).
  assert (k * eta64 <= 2 * n * eta64) by (apply Rmult_le_compat_r; lra).
  assert (n * eta64 <= n * bpow radix2 900) by (apply Rmult_le_compat_l; lra).
  assert (n * bpow radix2 900 <= IZR (2 ^ 20) * bpow radix2 900) by (apply Rmult_le_compat_r; [apply bpow_ge_0|lra]).
  assert (Ee : IZR (2 ^ 20) * bpow radix2 900 = bpow radix2 920) by (rewrite <- bpow_pow2, <- bpow_plus by lia; reflexivity).
  assert (E2 : bpow radix2 922 = 4 * bpow radix2 920) by (replace 922%Z with (2 + 920)%Z by lia; rewrite bpow_plus; reflexivity).
  lra.
Qed.
Lemma fadd_small a b : Rabs (QR a) <= bpow radix2 922 -> Rabs (QR b) <= bpow radix2 922 -> fadd (Fin a) (Fin b) = Fin (round64 (a + b)).
Proof.
  intros Ha Hb. unfold fadd. change (nadd (Fin a) (Fin b)) with (Fin (a + b)%Qc). apply (nround_small _ 923); [lia|].
  rewrite QR_add. apply Rle_trans with (1 := Rabs_triang _ _). replace 923%Z with (1 + 922)%Z by lia. rewrite bpow_plus. change (bpow radix2 1) with 2. lra.
Qed.
Lemma fadd_0_l a : round64 a = a -> Rabs (QR a) <= bpow radix2 922 -> fadd (Fin 0) (Fin a) = Fin a.
Proof. intros H B. rewrite fadd_small; [|rewrite QR_0, Rabs_R0; apply bpow_ge_0|exact B]. replace (0 + a)%Qc with a by ring. now rewrite H. Qed.
Lemma fadd_0_r a : round64 a = a -> Rabs (QR a) <= bpow radix2 922 -> fadd (Fin a) (Fin 0) = Fin a.
Proof. intros H B. rewrite fadd_small; [|exact B|rewrite QR_0, Rabs_R0; apply bpow_ge_0]. replace (a + 0)%Qc with a by ring. now rewrite H. Qed.
Lemma fadd_0_0 : fadd (Fin 0) (Fin 0) = Fin 0.
Proof. apply fadd_0_l; [exact round64_0|rewrite QR_0, Rabs_R0; apply bpow_ge_0]. Qed.

Lemma sum_any_nil l r : sum_any l r -> l = [] -> r = Fin 0.
Proof.
  induction 1 as [|x|l l1 l2 a b P _ IH1 _ IH2]; intro E; [reflexivity|discriminate|]. subst l.
  apply Permutation_nil in P. apply app_eq_nil in P as [E1 E2]. rewrite (IH1 E1), (IH2 E2). exact fadd_0_0.
Qed.
Lemma einsum_any_nil l r : einsum_any l r -> l = [] -> r = Fin 0.
Proof.
  induction 1 as [|w v|l l1 l2 a b P _ IH1 _ IH2|l l1 w v a P _ IH]; intro E; [reflexivity|discriminate| |]; subst l; apply Permutation_nil in P; [|discriminate].
  apply app_eq_nil in P as [E1 E2]. rewrite (IH1 E1), (IH2 E2). exact fadd_0_0.
Qed.

Lemma Forall_perm_app {X} (P : X -> Prop) l l1 l2 : Permutation l (l1 ++ l2) -> Forall P l -> Forall P l1 /\ Forall P l2.
Proof. intros Hp H. apply (Permutation_Forall Hp) in H. now apply Forall_app in H. Qed.

Lemma cnt_perm {X} (l l' : list X) : Permutation l l' -> cnt l = cnt l'.
Proof. intro H. unfold cnt. now rewrite (Permutation_length H). Qed.
Lemma Rsum_map_perm {X} (f : X -> R) l l' : Permutation l l' -> Rsum (map f l) = Rsum (map f l').
Proof. intro H. apply Rsum_perm, Permutation_map, H. Qed.

(** numpy's sum, whatever its order *)
Lemma sum_any_err l r : sum_any l r -> Forall ok64 l -> cnt l <= IZR (2 ^ 20) ->
  exists q, r = Fin q /\ round64 q = q /\ Rabs (QR q - Rsum (map val l)) <= 2 * cnt l * u64 * Rsum (map (fun x => Rabs (val x)) l) /\
    (Forall (fun x => 0 <= val x) l -> 0 <= QR q /\ Forall (fun x => val x <= QR q) l).
Proof.
  induction 1 as [|x|l l1 l2 a b P H1 IH1 H2 IH2]; intros Hok Hn.
  - exists 0%Qc. split; [reflexivity|]. split; [exact round64_0|]. cbn [map Rsum fold_right]. rewrite QR_0. unfold cnt. cbn [List.length Z.of_nat]. split; [rewrite Rminus_0_r, Rabs_R0; lra|].
    intros _. split; [lra|constructor].
  - apply Forall_cons_iff in Hok as [[q [-> [Hq _]]] _]. exists q. split; [reflexivity|]. split; [exact Hq|]. cbn [map Rsum fold_right val]. split.
    + replace (QR q - (QR q + 0)) with 0 by ring. rewrite Rabs_R0. unfold cnt. cbn [List.length]. change (IZR (Z.of_nat 1)) with 1. pose proof u64_pos. pose proof (Rabs_pos (QR q)). rewrite Rplus_0_r. repeat apply Rmult_le_pos; lra.
    + intro H. apply Forall_cons_iff in H as [H _]. cbn [val] in H. split; [exact H|]. constructor; [cbn [val]; lra|constructor].
  - rewrite (cnt_perm _ _ P), cnt_app in Hn |- *.
    destruct (Forall_perm_app _ _ _ _ P Hok) as [O1 O2].
    rewrite (Rsum_map_perm _ _ _ P), (Rsum_map_perm (fun x => Rabs (val x)) _ _ P), !map_app, !Rsum_app.
    assert (C1 : 0 <= cnt l1) by (unfold cnt; apply (IZR_le 0); lia). assert (C2 : 0 <= cnt l2) by (unfold cnt; apply (IZR_le 0); lia).
    destruct (IH1 O1 ltac:(lra)) as [p [-> [F1 [E1 N1]]]]. destruct (IH2 O2 ltac:(lra)) as [q [-> [F2 [E2 N2]]]].
    assert (Hb : forall l, Forall ok64 l -> Rsum (map (fun x => Rabs (val x)) l) <= cnt l * bpow radix2 900).
    { intros l0 H0. apply Rsum_abs_bound. eapply Forall_impl; [|exact H0]. intros x [z [-> [_ Hz]]]. exact Hz. }
    assert (S1 : Rabs (QR p) <= bpow radix2 922).
    { apply (small_sum _ (Rsum (map val l1)) (Rsum (map (fun x => Rabs (val x)) l1)) (cnt l1) 0); [lra|apply Rsum_abs|now apply Hb|lra|lra|lra]. }
    assert (S2 : Rabs (QR q) <= bpow radix2 922).
    { apply (small_sum _ (Rsum (map val l2)) (Rsum (map (fun x => Rabs (val x)) l2)) (cnt l2) 0); [lra|apply Rsum_abs|now apply Hb|lra|lra|lra]. }
    assert (Hmon : Forall (fun x => 0 <= val x) l -> 0 <= QR (round64 (p + q)) /\ Forall (fun x => val x <= QR (round64 (p + q))) l).
    { intro Hp. destruct (Forall_perm_app _ _ _ _ P Hp) as [P1 P2]. destruct (N1 P1) as [Np M1]. destruct (N2 P2) as [Nq M2].
      assert (Lp : QR p <= QR (round64 (p + q))). { rewrite <- F1 at 1. apply QR_le, round64_le, QR_le. rewrite QR_add. lra. }
      assert (Lq : QR q <= QR (round64 (p + q))). { rewrite <- F2 at 1. apply QR_le, round64_le, QR_le. rewrite QR_add. lra. }
      split; [lra|]. apply (Permutation_Forall (Permutation_sym P)). apply Forall_app. split; eapply Forall_impl; [|exact M1| |exact M2]; intros; cbv beta in *; lra. }
    rewrite (fadd_small p q S1 S2). exists (round64 (p + q)). split; [reflexivity|]. split; [apply round64_idem|]. split; [|exact Hmon].
    destruct l1 as [|x1 l1'] eqn:El1; [|destruct l2 as [|x2 l2'] eqn:El2].
    + apply sum_any_nil in H1; [|reflexivity]. injection H1 as ->. replace (0 + q)%Qc with q by ring. rewrite F2. cbn [map Rsum fold_right]. unfold cnt at 1. cbn [List.length Z.of_nat].
      rewrite !Rplus_0_l. exact E2.
    + apply sum_any_nil in H2; [|reflexivity]. injection H2 as ->. replace (p + 0)%Qc with p by ring. rewrite F1. cbn [map Rsum fold_right]. unfold cnt at 2. cbn [List.length Z.of_nat].
      rewrite !Rplus_0_r. exact E1.
    + rewrite <- El1, <- El2 in *. assert (K1 : 1 <= cnt l1) by (apply cnt_pos; subst l1; discriminate). assert (K2 : 1 <= cnt l2) by (apply cnt_pos; subst l2; discriminate).
      destruct (round64_add p q F1 F2) as [d [Hd ->]].
      pose proof (add_err (QR p) (QR q) (Rsum (map val l1)) (Rsum (map val l2)) (Rsum (map (fun x => Rabs (val x)) l1)) (Rsum (map (fun x => Rabs (val x)) l2)) (cnt l1) (cnt l2) 0 0 d) as G.
      assert (G' := G ltac:(lra) ltac:(lra) (Rsum_abs _ _) (Rsum_abs _ _) K1 K2 Hn ltac:(lra) ltac:(lra) ltac:(lra) ltac:(lra) Hd). rewrite !Rplus_0_l in G'. lra.
Qed.
