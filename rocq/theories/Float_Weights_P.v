(** * Rounding errors of normalised weights *)
From Coq Require Import ZArith QArith Qcanon Qcabs Reals Qreals Lia Lra List Permutation.
From Flocq Require Import Core Relative.
From Verif Require Import Base Num Float64 Spec_Aggregation Float64_P Float_Agg_P Float_Agg_P2 Float_Sum Float_Sum_P Float_Sum_P2.
Import ListNotations.
Local Open Scope R_scope.
Local Instance prec53 : FLX.Prec_gt_0 53 := eq_refl.

Lemma round64_rel x : bpow radix2 (-1022) <= Rabs (QR x) -> exists d, Rabs d <= u64 /\ QR (round64 x) = QR x * (1 + d).
Proof.
  intro H. rewrite round64_ieee. destruct (relative_error_N_FLT_ex radix2 (-1074) 53 ltac:(reflexivity) (fun z => negb (Z.even z)) (QR x)) as [d [Hd E]]; [exact H|].
  exists d. split; [|exact E]. replace u64 with (/ 2 * bpow radix2 (-53 + 1)); [exact Hd|]. unfold u64. change (/ 2) with (bpow radix2 (-1)). rewrite <- bpow_plus. reflexivity.
Qed.

(** relative error of a quotient *)
Lemma quot_err w s S n d : 0 <= w -> 0 < S -> Rabs (s - S) <= 2 * n * u64 * S -> 1 <= n -> n <= IZR (2 ^ 20) -> Rabs d <= u64 ->
  Rabs (w / s * (1 + d) - w / S) <= 4 * n * u64 * (w / S).
Proof.
  intros Hw HS Hs Hn Hn' Hd. destruct (u_20 n ltac:(lra) Hn') as [_ U]. pose proof u64_pos as Hu.
  set (t := (s - S) / S). assert (Et : s = S * (1 + t)) by (unfold t; field; lra).
  assert (Bt : Rabs t <= 2 * n * u64).
  { unfold t, Rdiv. rewrite Rabs_mult, Rabs_inv, (Rabs_pos_eq S) by lra. apply Rmult_le_reg_r with S; [lra|]. rewrite Rmult_assoc, Rinv_l by lra. lra. }
  assert (Bt' := Bt). apply Rabs_le_inv in Bt'. assert (H1 : 0 < 1 + t) by lra.
  replace (w / s * (1 + d) - w / S) with (w / S * ((d - t) / (1 + t))) by (rewrite Et; field; split; lra).
  assert (PwS : 0 <= w / S) by (unfold Rdiv; apply Rmult_le_pos; [exact Hw|left; now apply Rinv_0_lt_compat]).
  rewrite Rabs_mult, (Rabs_pos_eq (w / S)) by exact PwS. rewrite (Rmult_comm (4 * n * u64)). apply Rmult_le_compat_l; [exact PwS|].
  unfold Rdiv. rewrite Rabs_mult, Rabs_inv, (Rabs_pos_eq (1 + t)) by lra. apply Rmult_le_reg_r with (1 + t); [lra|]. rewrite Rmult_assoc, Rinv_l, Rmult_1_r by lra.
  assert (Rabs (d - t) <= u64 + 2 * n * u64). { apply Rle_trans with (1 := Rabs_triang _ _). rewrite Rabs_Ropp. lra. }
  assert (1 * u64 <= n * u64) by (apply Rmult_le_compat_r; lra).
  assert (4 * n * u64 * (1023 / 1024) <= 4 * n * u64 * (1 + t)) by (apply Rmult_le_compat_l; [repeat apply Rmult_le_pos; lra|lra]). lra.
Qed.

Definition posw (x : num) : Prop := ok64 x /\ 0 <= val x.

(** a normalised weight *)
Lemma norm_cell x s S n : posw x -> (exists q, s = Fin q /\ 0 < QR q /\ val x <= QR q /\ Rabs (QR q - S) <= 2 * n * u64 * S) -> 0 < S -> 1 <= n -> n <= IZR (2 ^ 20) ->
  exists r, fdiv x s = Fin r /\ round64 r = r /\ 0 <= QR r <= 1 /\ Rabs (QR r - val x / S) <= 4 * n * u64 * (val x / S) + eta64.
Proof.
  intros [[p [-> [Fp Bp]]] Hp] [q [-> [Hq [Hle Hs]]]] HS Hn Hn'. cbn [val] in *.
  assert (Hq0 : q <> 0%Qc) by (intros ->; rewrite QR_0 in Hq; lra).
  assert (Ed : ndiv (Fin p) (Fin q) = Fin (p / q)%Qc) by (unfold ndiv, Qc_eqb; destruct (Qc_eq_dec q 0); [contradiction|reflexivity]).
  assert (B01 : 0 <= QR (p / q) <= 1).
  { rewrite QR_div by exact Hq0. split; [unfold Rdiv; apply Rmult_le_pos; [exact Hp|left; now apply Rinv_0_lt_compat]|].
    apply Rmult_le_reg_r with (QR q); [exact Hq|]. unfold Rdiv. rewrite Rmult_assoc, Rinv_l by lra. lra. }
  unfold fdiv. rewrite Ed. rewrite (nround_small _ 0); [|lia|rewrite Rabs_pos_eq by lra; exact (proj2 B01)].
  exists (round64 (p / q)). split; [reflexivity|]. split; [apply round64_idem|]. split.
  - split; [apply nonneg_round; lra|]. replace 1 with (QR (round64 1)).
    + apply QR_le, round64_le, QR_le. rewrite QR_1. exact (proj2 B01).
    + change 1%Qc with (ZQ 1). rewrite round64_Z by lia. rewrite QR_ZQ. reflexivity.
  - destruct (round64_err (p / q)) as [d [e [Hd [He ->]]]]. rewrite QR_div by exact Hq0.
    replace (QR p / QR q * (1 + d) + e - QR p / S) with (QR p / QR q * (1 + d) - QR p / S + e) by ring.
    apply Rle_trans with (1 := Rabs_triang _ _). apply Rplus_le_compat; [|exact He]. now apply quot_err.
Qed.

Lemma sum_pos l : Forall (fun x => 0 <= val x) l -> Exists (fun x => 0 < val x) l -> 0 < Rsum (map val l).
Proof.
  intros H E. induction E as [x l Hx|x l E IH]; apply Forall_cons_iff in H as [H0 H]; change (Rsum (map val (x :: l))) with (val x + Rsum (map val l)).
  - assert (0 <= Rsum (map val l)); [|lra]. apply Rsum_nonneg. clear -H. induction H; cbn [map]; constructor; assumption.
  - specialize (IH H). lra.
Qed.
Lemma abs_sum l : Forall (fun x => 0 <= val x) l -> Rsum (map (fun x => Rabs (val x)) l) = Rsum (map val l).
Proof. intro H. f_equal. apply map_ext_in. intros x Hx. apply Rabs_pos_eq. rewrite Forall_forall in H. now apply H. Qed.

Lemma Rsum_scale k l : Rsum (map (fun x => k * x) l) = k * Rsum l.
Proof. induction l as [|x l IH]; [cbn; ring|]. change (Rsum (map (fun x => k * x) (x :: l))) with (k * x + Rsum (map (fun x => k * x) l)). change (Rsum (x :: l)) with (x + Rsum l). rewrite IH. ring. Qed.

(** normalised weights *)
Lemma normalised_err w out : normalised64 w out -> Forall posw w -> Exists (fun x => 0 < val x) w -> cnt w <= IZR (2 ^ 20) ->
  Forall2 (fun x y => exists r, y = Fin r /\ round64 r = r /\ 0 <= QR r <= 1 /\
    Rabs (QR r - val x / Rsum (map val w)) <= 4 * cnt w * u64 * (val x / Rsum (map val w)) + eta64) w out.
Proof.
  intros [s [Hs ->]] Hw He Hn.
  assert (Hp : Forall (fun x => 0 <= val x) w) by (eapply Forall_impl; [|exact Hw]; intros x [_ H]; exact H).
  assert (Ho : Forall ok64 w) by (eapply Forall_impl; [|exact Hw]; intros x [H _]; exact H).
  destruct (sum_any_err w s Hs Ho Hn) as [q [-> [Fq [Eq Mq]]]]. destruct (Mq Hp) as [Pq Lq].
  rewrite abs_sum in Eq by exact Hp. pose proof (sum_pos w Hp He) as HS.
  assert (Hq : 0 < QR q). { apply Exists_exists in He as [x [Hx Hx0]]. rewrite Forall_forall in Lq. specialize (Lq x Hx). cbv beta in Lq. lra. }
  assert (Hc : 1 <= cnt w) by (apply cnt_pos; intros ->; inversion He).
  set (S := Rsum (map val w)) in *. set (n := cnt w) in *. clearbody S n. clear Hs He Hp Ho Mq.
  induction Hw as [|x w Hx Hw IH]; cbn [map]; constructor.
  - apply (norm_cell x (Fin q) S n Hx); [exists q; repeat split; [exact Hq| |exact Eq]|exact HS|exact Hc|exact Hn]. apply Forall_cons_iff in Lq as [L _]. exact L.
  - apply IH. apply Forall_cons_iff in Lq as [_ L]. exact L.
Qed.
