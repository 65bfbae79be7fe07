(** * Cells_P: errors of packing in double precision (for C116, C117). *)
From Coq Require Import ZArith QArith Qcanon Reals Qreals Lia Lra Psatz.
From Flocq Require Import Core Relative.
From Verif Require Import Base Base_P Num Num_P PyStr Float64 Float64_P Float_Agg_P Float_Weights_P Writers Writers_P2 CellStore.
Local Open Scope R_scope.

Lemma u_val : u64 <= / 1024 /\ 0 < u64 /\ u64 * 9007199254740992 = 1.
Proof.
  assert (E : u64 = / IZR (2 ^ 53)) by (unfold u64; change (-53)%Z with (- (53))%Z; rewrite bpow_opp; f_equal).
  rewrite E. change (2 ^ 53)%Z with 9007199254740992%Z. split; [|split].
  - apply Rinv_le; lra.
  - apply Rinv_0_lt_compat; lra.
  - field.
Qed.
Lemma eta_small k : (-1075 <= k)%Z -> eta64 <= bpow radix2 k.
Proof. intro H. unfold eta64. now apply bpow_le. Qed.
Lemma round64_sub x y : round64 x = x -> round64 y = y -> exists d, Rabs d <= u64 /\ QR (round64 (x - y)) = (QR x - QR y) * (1 + d).
Proof.
  intros Hx Hy. destruct (round64_add x (- y)%Qc Hx) as (d & Hd & E); [rewrite round64_opp, Hy; reflexivity|].
  exists d. split; [exact Hd|]. change (x - y)%Qc with (x + - y)%Qc. rewrite E, QR_opp. ring.
Qed.
Lemma QR_0 : QR 0 = 0. Proof. exact (QR_ZQ 0). Qed.
Lemma QR_neq s : s <> 0%Qc -> QR s <> 0.
Proof. intros H E. apply H. apply QR_inj. now rewrite E, QR_0. Qed.

(** packing of a value: q for (v - o) / s *)
Definition packed (v o s : Qc) : Qc := round64 (round64 (v - o) / s)%Qc.
Lemma packed_err v o s : s <> 0%Qc -> round64 v = v -> round64 o = o ->
  Rabs (QR (packed v o s) * QR s + QR o - QR v) <= Rabs (QR v - QR o) * (3 * u64) + Rabs (QR s) * eta64.
Proof.
  intros Hs Hv Ho. destruct (round64_sub v o Hv Ho) as (d1 & H1 & E1). destruct (round64_err (round64 (v - o) / s)%Qc) as (d2 & e & H2 & He & E2).
  unfold packed. rewrite E2, (QR_div _ s Hs), E1. pose proof (QR_neq s Hs) as Hn.
  replace (((QR v - QR o) * (1 + d1) / QR s * (1 + d2) + e) * QR s + QR o - QR v) with ((QR v - QR o) * (d1 + d2 + d1 * d2) + QR s * e) by (field; exact Hn).
  apply Rle_trans with (1 := Rabs_triang _ _). rewrite !Rabs_mult.
  apply Rplus_le_compat; apply Rmult_le_compat_l; try apply Rabs_pos; [|exact He].
  destruct u_val as (U1 & U2 & _). apply Rle_trans with (Rabs d1 + Rabs d2 + Rabs d1 * Rabs d2).
  - apply Rle_trans with (1 := Rabs_triang _ _). apply Rplus_le_compat; [apply Rabs_triang|rewrite Rabs_mult; lra].
  - pose proof (Rabs_pos d1). pose proof (Rabs_pos d2). assert (Rabs d1 * Rabs d2 <= u64 * 1) by (apply Rmult_le_compat; lra). lra.
Qed.

(** packing of the scaled missing value *)
Definition mscaled (F s o : Qc) : Qc := round64 (round64 (F * s) + o).
Lemma missing_err F s o : s <> 0%Qc -> round64 o = o -> 1 <= Rabs (QR F) -> bpow radix2 (-500) <= Rabs (QR s) ->
  Rabs (QR (packed (mscaled F s o) o s) - QR F) <= 8 * u64 * (Rabs (QR F) + Rabs (QR o) / Rabs (QR s)).
Proof.
  intros Hs Ho HF Hlo. pose proof (QR_neq s Hs) as Hn. destruct u_val as (U1 & U2 & _).
  assert (Hb : bpow radix2 (-1022) <= Rabs (QR (F * s))).
  { rewrite QR_mul, Rabs_mult. apply Rle_trans with (1 * bpow radix2 (-500)); [rewrite Rmult_1_l; apply bpow_le; lia|].
    apply Rmult_le_compat; [lra|apply bpow_ge_0|exact HF|exact Hlo]. }
  destruct (round64_rel (F * s)%Qc Hb) as (d1 & H1 & E1). destruct (round64_add (round64 (F * s)) o (round64_idem _) Ho) as (d2 & H2 & E2).
  destruct (round64_sub (mscaled F s o) o (round64_idem _) Ho) as (d3 & H3 & E3).
  destruct (round64_err (round64 (mscaled F s o - o) / s)%Qc) as (d4 & e & H4 & He & E4).
  unfold packed. rewrite E4, (QR_div _ s Hs), E3. unfold mscaled. rewrite E2, E1, QR_mul. clear E1 E2 E3 E4.
  set (f := QR F) in *. set (t := QR s) in *. set (p := QR o) in *. set (r := p / t).
  set (b := f * d1 + f * (1 + d1) * d2 + r * d2).
  replace (((f * t * (1 + d1) + p) * (1 + d2) - p) * (1 + d3) / t * (1 + d4) + e - f) with (b + (f + b) * (d3 + d4 + d3 * d4) + e) by (unfold b, r; field; exact Hn).
  replace (Rabs p / Rabs t) with (Rabs r) by (unfold r, Rdiv; rewrite Rabs_mult, Rabs_inv; reflexivity).
  assert (Pf := Rabs_pos f). assert (Pr := Rabs_pos r).
  assert (D34 : Rabs (d3 + d4 + d3 * d4) <= 3 * u64).
  { apply Rle_trans with (1 := Rabs_triang _ _). rewrite Rabs_mult. pose proof (Rabs_triang d3 d4). pose proof (Rabs_pos d3). pose proof (Rabs_pos d4).
    assert (Rabs d3 * Rabs d4 <= u64 * 1) by (apply Rmult_le_compat; lra). lra. }
  assert (B : Rabs b <= 3 * u64 * (Rabs f + Rabs r)).
  { unfold b. apply Rle_trans with (1 := Rabs_triang _ _). apply Rle_trans with (Rabs (f * d1) + Rabs (f * (1 + d1) * d2) + Rabs (r * d2)); [apply Rplus_le_compat_r, Rabs_triang|].
    rewrite !Rabs_mult. assert (Q1 : Rabs (1 + d1) <= 2) by (apply Rle_trans with (1 := Rabs_triang _ _); rewrite Rabs_R1; lra).
    assert (A1 : Rabs f * Rabs d1 <= Rabs f * u64) by (apply Rmult_le_compat_l; lra).
    assert (A2 : Rabs f * Rabs (1 + d1) * Rabs d2 <= Rabs f * 2 * u64).
    { apply Rmult_le_compat; [apply Rmult_le_pos; apply Rabs_pos|apply Rabs_pos|apply Rmult_le_compat_l; lra|exact H2]. }
    assert (A3 : Rabs r * Rabs d2 <= Rabs r * u64) by (apply Rmult_le_compat_l; lra).
    pose proof (Rmult_le_pos _ _ Pr (Rlt_le _ _ U2)). lra. }
  assert (Ef : eta64 <= u64 * Rabs f).
  { apply Rle_trans with (u64 * 1); [|apply Rmult_le_compat_l; lra]. rewrite Rmult_1_r. unfold u64. apply eta_small. lia. }
  apply Rle_trans with (1 := Rabs_triang _ _). apply Rle_trans with (Rabs b + Rabs ((f + b) * (d3 + d4 + d3 * d4)) + eta64); [apply Rplus_le_compat; [apply Rabs_triang|exact He]|].
  rewrite Rabs_mult. set (S := Rabs f + Rabs r) in *. assert (PS : 0 <= S) by (unfold S; lra).
  assert (G : Rabs (f + b) <= S * (1 + 3 * u64)) by (apply Rle_trans with (1 := Rabs_triang _ _); unfold S in *; lra).
  assert (H : Rabs (f + b) * Rabs (d3 + d4 + d3 * d4) <= S * (1 + 3 * u64) * (3 * u64)) by (apply Rmult_le_compat; try apply Rabs_pos; assumption).
  assert (K : S * (1 + 3 * u64) * (3 * u64) <= S * u64 * 4).
  { replace (S * (1 + 3 * u64) * (3 * u64)) with (S * u64 * (3 * (1 + 3 * u64))) by ring. apply Rmult_le_compat_l; [apply Rmult_le_pos; lra|lra]. }
  assert (L : u64 * Rabs f <= S * u64) by (rewrite Rmult_comm; apply Rmult_le_compat_r; [lra|unfold S; lra]).
  lra.
Qed.

(** ** the operations do not overflow *)
Lemma fdiv_fsub v o s k : s <> 0%Qc -> round64 v = v -> round64 o = o -> (k <= 1022)%Z -> Rabs (QR v - QR o) <= bpow radix2 k -> Rabs (QR v - QR o) <= bpow radix2 k * Rabs (QR s) ->
  fdiv (fsub (Fin v) (Fin o)) (Fin s) = Fin (packed v o s).
Proof.
  intros Hs Hv Ho Hk H1 H2. unfold fsub. cbn [nsub nadd nopp].
  change (v + - o)%Qc with (v - o)%Qc. rewrite (nround_small (v - o)%Qc k); [|lia|rewrite QR_sub; exact H1].
  unfold fdiv. cbn [ndiv]. destruct (Qc_eqb s 0) eqn:E; [apply Qc_eqb_spec in E; contradiction|].
  destruct (round64_sub v o Hv Ho) as (d & Hd & Ed). destruct u_val as (U1 & U2 & _).
  rewrite (nround_small _ (k + 1)); [reflexivity|lia|]. rewrite (QR_div _ s Hs), Ed. unfold Rdiv. rewrite !Rabs_mult, Rabs_inv.
  pose proof (Rabs_pos_lt _ (QR_neq s Hs)) as P. apply Rmult_le_reg_r with (Rabs (QR s)); [exact P|]. rewrite Rmult_assoc, Rinv_l, Rmult_1_r by lra.
  rewrite bpow_plus. change (bpow radix2 1) with 2. replace (bpow radix2 k * 2 * Rabs (QR s)) with (bpow radix2 k * Rabs (QR s) * 2) by ring.
  apply Rmult_le_compat; try apply Rabs_pos; [exact H2|]. apply Rle_trans with (1 := Rabs_triang _ _). rewrite Rabs_R1. lra.
Qed.

(** the missing value: no overflow on the way *)
Lemma mscaled_ok F s o : s <> 0%Qc -> round64 o = o -> 1 <= Rabs (QR F) -> Rabs (QR F) <= bpow radix2 123 ->
  bpow radix2 (-500) <= Rabs (QR s) -> Rabs (QR s) <= bpow radix2 500 -> Rabs (QR o) <= bpow radix2 100 * Rabs (QR s) ->
  fadd (fmul (Fin F) (Fin s)) (Fin o) = Fin (mscaled F s o) /\
  fdiv (fsub (Fin (mscaled F s o)) (Fin o)) (Fin s) = Fin (packed (mscaled F s o) o s).
Proof.
  intros Hs Ho HF HF2 Hlo Hhi Hob.
  assert (A : Rabs (QR (F * s)) <= bpow radix2 123 * Rabs (QR s)) by (rewrite QR_mul, Rabs_mult; apply Rmult_le_compat_r; [apply Rabs_pos|exact HF2]).
  assert (B : forall k, bpow radix2 k * Rabs (QR s) <= bpow radix2 (k + 500)) by (intro k; rewrite bpow_plus; apply Rmult_le_compat_l; [apply bpow_ge_0|exact Hhi]).
  assert (A' : Rabs (QR (F * s)) <= bpow radix2 623) by (apply Rle_trans with (1 := A), (B 123%Z)).
  assert (Hb : bpow radix2 (-1022) <= Rabs (QR (F * s))).
  { rewrite QR_mul, Rabs_mult. apply Rle_trans with (1 * bpow radix2 (-500)); [rewrite Rmult_1_l; apply bpow_le; lia|].
    apply Rmult_le_compat; [lra|apply bpow_ge_0|exact HF|exact Hlo]. }
  destruct (round64_rel (F * s)%Qc Hb) as (d1 & H1 & E1). destruct u_val as (U1 & U2 & _).
  assert (C : Rabs (QR (round64 (F * s))) <= 2 * (bpow radix2 123 * Rabs (QR s))).
  { rewrite E1, Rabs_mult. rewrite (Rmult_comm 2). apply Rmult_le_compat; try apply Rabs_pos; [exact A|]. apply Rle_trans with (1 := Rabs_triang _ _). rewrite Rabs_R1. lra. }
  assert (Z : bpow radix2 100 <= bpow radix2 123) by (apply bpow_le; lia). assert (Ps := Rabs_pos (QR s)).
  assert (Z' : bpow radix2 100 * Rabs (QR s) <= bpow radix2 123 * Rabs (QR s)) by (apply Rmult_le_compat_r; assumption).
  assert (D : Rabs (QR (round64 (F * s) + o)) <= 3 * (bpow radix2 123 * Rabs (QR s))) by (rewrite QR_add; apply Rle_trans with (1 := Rabs_triang _ _); lra).
  assert (T : 4 * (bpow radix2 123 * Rabs (QR s)) <= bpow radix2 625).
  { apply Rle_trans with (4 * bpow radix2 623); [apply Rmult_le_compat_l; [lra|apply (B 123%Z)]|]. change 625%Z with (2 + 623)%Z. rewrite bpow_plus. change (bpow radix2 2) with 4. lra. }
  assert (P0 : 0 <= bpow radix2 123 * Rabs (QR s)) by (apply Rmult_le_pos; [apply bpow_ge_0|exact Ps]).
  split.
  - unfold fmul. cbn [nmul]. rewrite (nround_small _ 623); [|lia|exact A']. unfold fadd. cbn [nadd].
    rewrite (nround_small _ 625); [reflexivity|lia|lra].
  - assert (M : Rabs (QR (mscaled F s o)) <= 6 * (bpow radix2 123 * Rabs (QR s))).
    { destruct (round64_add (round64 (F * s)) o (round64_idem _) Ho) as (d2 & H2 & E2). unfold mscaled. rewrite E2, <- QR_add, Rabs_mult.
      apply Rle_trans with (3 * (bpow radix2 123 * Rabs (QR s)) * 2); [|lra]. apply Rmult_le_compat; try apply Rabs_pos; [exact D|]. apply Rle_trans with (1 := Rabs_triang _ _). rewrite Rabs_R1. lra. }
    assert (N : Rabs (QR (mscaled F s o) - QR o) <= 8 * (bpow radix2 123 * Rabs (QR s))) by (unfold Rminus; apply Rle_trans with (1 := Rabs_triang _ _); rewrite Rabs_Ropp; lra).
    apply (fdiv_fsub _ _ _ 700); [exact Hs|apply round64_idem|exact Ho|lia| |].
    + apply Rle_trans with (1 := N). assert (X : bpow radix2 625 <= bpow radix2 699) by (apply bpow_le; lia). change 700%Z with (1 + 699)%Z. rewrite bpow_plus. change (bpow radix2 1) with 2. lra.
    + apply Rle_trans with (1 := N). rewrite <- Rmult_assoc. apply Rmult_le_compat_r; [exact Ps|]. change 8 with (bpow radix2 3). rewrite <- bpow_plus. apply bpow_le. lia.
Qed.

(** ** distinct double precision numbers are apart *)
Lemma format_gap_pos x y : 0 <= x -> x < y -> generic_format radix2 (FLT_exp (-1074) 53) x -> generic_format radix2 (FLT_exp (-1074) 53) y ->
  x * u64 <= y - x.
Proof.
  intros Hx Hxy Fx Fy. pose proof (@succ_le_lt radix2 (FLT_exp (-1074) 53) (FLT_exp_valid (-1074) 53 (prec_gt_0_:=eq_refl)) x y Fx Fy Hxy) as S.
  rewrite succ_eq_pos in S by exact Hx. pose proof (@ulp_FLT_gt radix2 (-1074) 53 eq_refl x) as U. rewrite (Rabs_pos_eq x Hx) in U.
  change (bpow radix2 (- (53))) with u64 in U. lra.
Qed.
Lemma format_gap x y e : generic_format radix2 (FLT_exp (-1074) 53) x -> generic_format radix2 (FLT_exp (-1074) 53) y ->
  Rabs (y - x) <= e -> 4 * e < Rabs x * u64 -> y = x.
Proof.
  intros Fx Fy He Hs. assert (Pe : 0 <= e) by (apply Rle_trans with (2 := He), Rabs_pos). destruct u_val as (U1 & U2 & _).
  assert (G : forall a b, 0 < a -> generic_format radix2 (FLT_exp (-1074) 53) a -> generic_format radix2 (FLT_exp (-1074) 53) b -> Rabs (b - a) <= e -> 4 * e < a * u64 -> b = a).
  { intros a b Pa Fa Fb Hd Hsa. apply Rabs_le_inv in Hd. destruct (Rtotal_order a b) as [L|[E|L]]; [|now symmetry|].
    - pose proof (format_gap_pos a b (Rlt_le _ _ Pa) L Fa Fb). lra.
    - assert (Hb : a / 2 <= b). { assert (a * u64 <= a * / 1024) by (apply Rmult_le_compat_l; lra). lra. }
      assert (Q := format_gap_pos b a ltac:(lra) L Fb Fa). assert (a / 2 * u64 <= b * u64) by (apply Rmult_le_compat_r; lra). lra. }
  destruct (Rle_or_lt 0 x) as [Hx|Hx].
  - destruct Hx as [Hx|Hx]; [|rewrite <- Hx, Rabs_R0, Rmult_0_l in Hs; lra]. rewrite Rabs_pos_eq in Hs by lra. now apply G.
  - rewrite Rabs_left in Hs by exact Hx. assert (E : - y = - x); [|lra].
    apply G; [lra|now apply generic_format_opp|now apply generic_format_opp| |exact Hs]. replace (- y - - x) with (- (y - x)) by ring. now rewrite Rabs_Ropp.
Qed.
(** a small term added to a double precision number is lost *)
Lemma absorbed x y : round64 x = x -> 8 * Rabs (QR y) < Rabs (QR x) * u64 -> round64 (x + y) = x.
Proof.
  intros Hx Hy. apply QR_inj. apply (format_gap _ _ (2 * Rabs (QR y))); [now apply round64_format|apply round64_format; apply round64_idem| |lra].
  destruct (@round_N_pt radix2 (FLT_exp (-1074) 53) (FLT_exp_valid (-1074) 53 (prec_gt_0_:=eq_refl)) (fun z => negb (Z.even z)) (QR (x + y))) as [_ N].
  specialize (N (QR x) (round64_format x Hx)). change (round radix2 (FLT_exp (-1074) 53) (Znearest (fun z => negb (Z.even z))) (QR (x + y))) with (ieee 53 (-1074) (QR (x + y))) in N.
  rewrite <- round64_ieee in N. replace (QR (round64 (x + y)) - QR x) with ((QR (round64 (x + y)) - QR (x + y)) + QR y) by (rewrite QR_add; ring).
  apply Rle_trans with (1 := Rabs_triang _ _). replace (QR x - QR (x + y)) with (- QR y) in N by (rewrite QR_add; ring). rewrite Rabs_Ropp in N. lra.
Qed.
(** scaling by a power of two *)
Lemma round64_shift x k : round64 x = x -> (0 <= k)%Z -> round64 (x * ZQ (2 ^ k)) = (x * ZQ (2 ^ k))%Qc.
Proof.
  intros Hx Hk. apply QR_inj. rewrite round64_ieee. apply round_generic; [apply valid_rnd_N|]. rewrite QR_mul, QR_ZQ, <- bpow_pow2 by exact Hk.
  pose proof (round64_format x Hx) as F. apply FLT_format_generic in F; [|reflexivity]. destruct F as [[m e] E Hm He]. cbn [Fnum Fexp] in *.
  apply generic_format_FLT. exists (Float radix2 m (e + k)); cbn [Fnum Fexp]; [|exact Hm|lia]. rewrite E. unfold F2R. cbn [Fnum Fexp]. rewrite bpow_plus. ring.
Qed.
