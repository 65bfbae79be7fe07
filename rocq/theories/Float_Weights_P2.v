(** * Interpolated values in double precision *)
From Coq Require Import ZArith QArith Qcanon Qcabs Reals Qreals Lia Lra List Permutation.
From Flocq Require Import Core Relative.
From Verif Require Import Base Num Float64 Spec_Aggregation Spec_Float2 Float64_P Float_Agg_P Float_Agg_P2 Float_Sum Float_Sum_P Float_Sum_P2 Float_Weights_P.
Import ListNotations.
Local Open Scope R_scope.

Lemma QR_half k : (0 <= k)%Z -> QR (half_to k) = bpow radix2 (- k).
Proof. apply inv_pow. Qed.
Lemma QR_count {X} (l : list X) : QR (count l) = cnt l.
Proof. apply QR_ZQ. Qed.
Lemma double_R k q : (0 <= k)%Z -> double k q -> round64 q = q /\ Rabs (QR q) <= bpow radix2 k.
Proof. intros Hk [H1 H2]. split; [exact H1|]. apply QR_le in H2. rewrite QR_abs, QR_ZQ, <- bpow_pow2 in H2 by exact Hk. exact H2. Qed.
Lemma short_cnt {X} (l : list X) : short l -> 1 <= cnt l <= IZR (2 ^ 20).
Proof. intros [H1 H2]. unfold cnt. split; [now apply (IZR_le 1)|now apply IZR_le]. Qed.
Lemma combine_Fin ws xs : combine (map Fin ws) (map Fin xs) = map (fun p => (Fin (fst p), Fin (snd p))) (combine ws xs).
Proof. revert xs. induction ws as [|w ws IH]; intros [|x xs]; cbn [map combine]; try reflexivity. now rewrite IH. Qed.
Lemma Sterm_dot ws xs : Sterm (combine (map Fin ws) (map Fin xs)) = QR (dot ws xs).
Proof. unfold Sterm, dot. rewrite QR_Qsum, combine_Fin, !map_map. f_equal. apply map_ext. intros [a b]. unfold term. cbn [fst snd val]. now rewrite QR_mul. Qed.
Lemma Sabs_dot ws xs : Sabs (combine (map Fin ws) (map Fin xs)) = QR (dot_abs ws xs).
Proof. unfold Sabs, dot_abs. rewrite QR_Qsum, combine_Fin, !map_map. f_equal. apply map_ext. intros [a b]. unfold term. cbn [fst snd val]. now rewrite QR_abs, QR_mul. Qed.

Lemma two_u : bpow radix2 (- (52)) = 2 * u64.
Proof. unfold u64. change 2 with (bpow radix2 1) at 1. rewrite <- bpow_plus. reflexivity. Qed.
Lemma two_eta : bpow radix2 (- (1074)) = 2 * eta64.
Proof. unfold eta64. change 2 with (bpow radix2 1) at 1. rewrite <- bpow_plus. reflexivity. Qed.

Lemma okp_pairs ws xs : Forall (double 450) ws -> Forall (double 450) xs -> Forall okp (combine (map Fin ws) (map Fin xs)).
Proof.
  intros Hw. revert xs. induction Hw as [|w ws Hw _ IH]; intros [|x xs] Hx; cbn [map combine]; constructor.
  - inversion Hx as [|? ? Hx0 _]; subst. apply double_R in Hw as [W1 W2]; [|lia]. apply double_R in Hx0 as [X1 X2]; [|lia].
    exists w, x. split; [reflexivity|]. split; [exact W1|]. split; [exact X1|]. rewrite Rabs_mult. change 900%Z with (450 + 450)%Z. rewrite bpow_plus.
    apply Rmult_le_compat; try apply Rabs_pos; assumption.
  - apply IH. now inversion Hx.
Qed.
Lemma Forall_pairs (f : R -> Prop) (P : Qc * Qc -> Prop) ws xs : (forall p, P p -> f (QR (fst p * snd p))) -> Forall P (combine ws xs) ->
  Forall (fun p => f (term p)) (combine (map Fin ws) (map Fin xs)).
Proof.
  intros H. rewrite combine_Fin. induction 1 as [|p l Hp _ IH]; cbn [map]; constructor; [|exact IH]. specialize (H p Hp). rewrite QR_mul in H. exact H.
Qed.

Lemma cell64 ws xs r : List.length ws = List.length xs -> short ws -> Forall (double 450) ws -> Forall (double 450) xs ->
  weighted_row64 (map Fin ws) (map Fin xs) r ->
  exists q, r = Fin q /\ round64 q = q /\
    (Qcabs (q - dot ws xs) <= count ws * (half_to 52 * dot_abs ws xs + half_to 1074))%Qc /\
    (Forall (fun p => 0 <= fst p * snd p)%Qc (combine ws xs) -> (0 <= q)%Qc) /\
    (Forall (fun p => fst p * snd p <= 0)%Qc (combine ws xs) -> (q <= 0)%Qc).
Proof.
  intros Hl Hs Hw Hx [_ He]. set (l := combine (map Fin ws) (map Fin xs)) in *.
  assert (Hc : cnt l = cnt ws) by (unfold cnt, l; rewrite combine_length, !map_length, <- Hl, Nat.min_id; reflexivity).
  pose proof (short_cnt ws Hs) as Hn.
  assert (Hne : l <> []). { intro E. unfold cnt in Hc. rewrite E in Hc. cbn [List.length Z.of_nat] in Hc. unfold cnt in Hn. rewrite <- Hc in Hn. lra. }
  destruct (einsum_err l r He (okp_pairs _ _ Hw Hx) ltac:(rewrite Hc; lra) Hne) as [q [-> [Fq [B [P M]]]]].
  exists q. split; [reflexivity|]. split; [exact Fq|]. split; [|split].
  - apply QR_le. rewrite QR_abs, QR_sub, QR_mul, QR_add, QR_mul, QR_count, !QR_half by lia. rewrite two_u, two_eta.
    unfold l in B. rewrite Sterm_dot, Sabs_dot in B. fold l in B. rewrite Hc in B. pose proof eta64_pos. apply Rle_trans with (1 := B).
    replace (cnt ws * (2 * u64 * QR (dot_abs ws xs) + 2 * eta64)) with (2 * cnt ws * u64 * QR (dot_abs ws xs) + 2 * cnt ws * eta64) by ring. lra.
  - intro H. apply QR_le. rewrite QR_0. apply P. apply (Forall_pairs (fun x => 0 <= x) (fun p => 0 <= fst p * snd p)%Qc); [|exact H]. intros p Hp. rewrite <- QR_0. now apply QR_le.
  - intro H. apply QR_le. rewrite QR_0. apply M. apply (Forall_pairs (fun x => x <= 0) (fun p => fst p * snd p <= 0)%Qc); [|exact H]. intros p Hp. rewrite <- QR_0. now apply QR_le.
Qed.

(** NaN among the values gives NaN *)
Lemma fadd_nan_l b : fadd NaN b = NaN.
Proof. destruct b; reflexivity. Qed.
Lemma fadd_nan_r a : fadd a NaN = NaN.
Proof. destruct a; reflexivity. Qed.
Lemma einsum_nan l r : einsum_any l r -> Exists (fun p => snd p = NaN) l -> r = NaN.
Proof.
  induction 1 as [|w v|l l1 l2 a b P _ IH1 _ IH2|l l1 w v a P _ IH1]; intro E.
  - inversion E.
  - inversion E as [? ? E0|? ? E0]; subst; [|inversion E0]. cbn [snd] in E0. subst v. destruct w; reflexivity.
  - assert (E' : Exists (fun p => snd p = NaN) (l1 ++ l2)).
    { apply Exists_exists in E as [p [Hp E]]. apply Exists_exists. exists p. split; [now apply (Permutation_in _ P)|exact E]. }
    apply Exists_app in E' as [E'|E']; [rewrite (IH1 E'); apply fadd_nan_l|rewrite (IH2 E'); apply fadd_nan_r].
  - assert (E' : Exists (fun p => snd p = NaN) ((w, v) :: l1)).
    { apply Exists_exists in E as [p [Hp E]]. apply Exists_exists. exists p. split; [now apply (Permutation_in _ P)|exact E]. }
    inversion E' as [? ? E0|? ? E0]; subst.
    + cbn [snd] in E0. subst v. destruct w; reflexivity.
    + rewrite (IH1 E0). destruct (nmul w v); reflexivity.
Qed.
(** there always is an evaluation *)
Lemma einsum_exists l : exists r, einsum_any l r.
Proof.
  induction l as [|[w v] l [r IH]]; [exists (Fin 0); constructor|]. exists (fadd (fmul w v) r).
  apply (ea_add _ [(w, v)] l); [apply Permutation_refl|constructor|exact IH].
Qed.
