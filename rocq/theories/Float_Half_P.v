(** * Averages with half weights in double precision *)
From Coq Require Import ZArith QArith Qcanon Qcabs Reals Qreals Lia Lra List Permutation.
From Flocq Require Import Core.
From Verif Require Import Base Num Float64 Aggregator AggregatorWith Spec_Aggregation Spec_Float2 Base_P Num_P Aggregator_P Aggregator_P2 Aggregator_P4 Aggregator_P5 AggregatorWith_P2
  Float64_P Float_Agg_P Float_Agg_P2 Float_Sum Float_Sum_P Float_Sum_P2 Float_Weights_P Float_Weights_P2.
Import ListNotations.
Local Open Scope Z_scope.

(** ** which cells are combined *)
Section With.
  Variables add mul : num -> num -> num.
  Lemma scale_cell a i x w : wf_arr a -> masked_at a i = false -> cell a i x -> nth_error (scale_with mul a w) i = Some (mul (Fin x) w).
  Proof.
    intros Hwf Hm Hx. unfold cell in Hx. destruct a as [d|d [m|]]; cbn [adata scale_with] in *;
      try (erewrite nth_error_map'; [|exact Hx]; reflexivity).
    unfold masked_at in Hm. cbn [amask] in Hm. simpl in Hwf.
    assert (Hi : (i < List.length m)%nat) by (rewrite Hwf; apply nth_error_Some; congruence).
    erewrite nth_error_zipw; [|exact Hx|apply (nth_error_nth' m false Hi)]. cbn beta. rewrite Hm. reflexivity.
  Qed.
  Definition half_w (from to : Z) (dt1 dt2 : num) (t : Z) : num := if (t =? from) || (t =? to - 1) then dt2 else dt1.
  Lemma half_fold v (i : nat) from to dt1 dt2 (f : Z -> Qc) :
    forall ts, (forall t c, In t ts -> dget Z.eqb v t = Some c -> wf_arr c /\ masked_at c i = false /\ cell c i (f t)) ->
    forall s x y s' c', nth_error s i = Some x ->
    foldM (avg_half_body_with add mul v from to dt1 dt2) ts (s, y) = Ok (s', c') ->
    let l := filter (fun t => zmem t (dkeys v)) ts in
    nth_error s' i = Some (fold_left (fun z t => add z (mul (Fin (f t)) (half_w from to dt1 dt2 t))) l x) /\
    c' = fold_left (fun z t => add z (half_w from to dt1 dt2 t)) l y.
  Proof.
    induction ts as [|t ts IH]; intros Hf s x y s' c' Hx H; cbn [foldM] in H.
    - injection H as <- <-. split; [exact Hx|reflexivity].
    - apply rbind_ok in H as [[s1 c1] [H1 H]]. unfold avg_half_body_with in H1. cbn [filter].
      destruct (dget Z.eqb v t) as [a|] eqn:Ea.
      + assert (Hz : zmem t (dkeys v) = true).
        { apply zmem_In, (dmem_In Z.eqb Zeqb_spec'). unfold dmem. rewrite Ea. reflexivity. }
        rewrite Hz. fold (half_w from to dt1 dt2 t) in H1. apply rbind_ok in H1 as [s2 [Hs2 H1]]. injection H1 as <- <-.
        apply ew2_inv in Hs2 as [Hl ->]. destruct (Hf t a (or_introl eq_refl) Ea) as [Hwf [Hm Hc]].
        cbn [fold_left]. eapply IH; [intros; apply Hf; [right|]; assumption| |exact H].
        erewrite nth_error_zipw; [|exact Hx|apply scale_cell; eassumption]. reflexivity.
      + assert (Hz : zmem t (dkeys v) = false).
        { apply zmem_nIn, (dget_None Z.eqb Zeqb_spec'). exact Ea. }
        rewrite Hz. injection H1 as <- <-. eapply IH; [|exact Hx|exact H].
        intros; apply Hf; [right|]; assumption.
  Qed.
End With.

(** ** these loops are sums in the sense of Float_Sum.v *)
Lemma fold_sum_any (w : Z -> num) l : forall l0 z, sum_any l0 z -> sum_any (l0 ++ map w l) (fold_left (fun z t => fadd z (w t)) l z).
Proof.
  induction l as [|t l IH]; intros l0 z H; cbn [map fold_left]; [now rewrite app_nil_r|].
  replace (l0 ++ w t :: map w l) with ((l0 ++ [w t]) ++ map w l) by (rewrite <- app_assoc; reflexivity). apply IH.
  apply (sa_add _ l0 [w t]); [reflexivity|exact H|constructor].
Qed.
Lemma fold_einsum_any (f w : Z -> num) l : forall l0 z, einsum_any l0 z ->
  einsum_any (l0 ++ map (fun t => (f t, w t)) l) (fold_left (fun z t => fadd z (fmul (f t) (w t))) l z).
Proof.
  induction l as [|t l IH]; intros l0 z H; cbn [map fold_left]; [now rewrite app_nil_r|].
  replace (l0 ++ (f t, w t) :: map (fun t => (f t, w t)) l) with ((l0 ++ [(f t, w t)]) ++ map (fun t => (f t, w t)) l) by (rewrite <- app_assoc; reflexivity). apply IH.
  apply (ea_add _ l0 [(f t, w t)]); [reflexivity|exact H|constructor].
Qed.

(** ** the error of a quotient of sums *)
Local Open Scope R_scope.
Lemma ratio_err S C T W A n d e : / 2 <= W -> 2 <= n -> n <= IZR (2 ^ 20) ->
  Rabs (S - T) <= 4 * n * u64 * A + 2 * n * eta64 -> Rabs (C - W) <= 4 * n * u64 * W -> Rabs T <= A -> Rabs d <= u64 -> Rabs e <= eta64 ->
  / 4 <= C /\ Rabs (S / C * (1 + d) + e - T / W) <= 16 * n * u64 * (A / W) + 8 * n * eta64.
Proof.
  intros HW Hn Hn' HS HC HT Hd He. pose proof u64_pos as Hu. pose proof u64_small as Hus. pose proof eta64_pos as Ht.
  destruct (u_20 n ltac:(lra) Hn') as [_ U]. assert (HA : 0 <= A) by (apply Rle_trans with (2 := HT), Rabs_pos).
  assert (HCl : W * (1 - / 500) <= C).
  { assert (4 * n * u64 * W <= / 500 * W) by (apply Rmult_le_compat_r; lra). apply Rabs_le_inv in HC. lra. }
  assert (HC4 : / 4 <= C) by lra. split; [exact HC4|].
  set (B := A / W). assert (EB : A = B * W) by (unfold B; field; lra). assert (HB : 0 <= B) by (unfold B, Rdiv; apply Rmult_le_pos; [exact HA|left; apply Rinv_0_lt_compat; lra]).
  assert (HE : Rabs (T / W) <= B).
  { unfold B, Rdiv. rewrite Rabs_mult, Rabs_inv, (Rabs_pos_eq W) by lra. apply Rmult_le_compat_r; [left; apply Rinv_0_lt_compat; lra|exact HT]. }
  set (E := T / W) in *. assert (ET : T = E * W) by (unfold E; field; lra).
  set (p := 4 * n * u64) in *. assert (Hp : 0 <= p) by (unfold p; repeat apply Rmult_le_pos; lra).
  assert (Hp' : p <= / 500) by (unfold p; lra).
  (* the quotient before its rounding *)
  assert (Q : Rabs (S / C - E) <= p * B * (21 / 10) + 5 * n * eta64).
  { replace (S / C - E) with (((S - T) - E * (C - W)) * / C) by (rewrite ET; field; lra).
    rewrite Rabs_mult, Rabs_inv, (Rabs_pos_eq C) by lra. apply Rmult_le_reg_r with C; [lra|]. rewrite Rmult_assoc, Rinv_l, Rmult_1_r by lra.
    unfold Rminus at 1. apply Rle_trans with (1 := Rabs_triang _ _). rewrite Rabs_Ropp, Rabs_mult.
    assert (G : Rabs E * Rabs (C - W) <= B * (p * W)) by (apply Rmult_le_compat; try apply Rabs_pos; assumption).
    rewrite EB in HS. replace (p * (B * W)) with (p * B * W) in HS by ring. replace (B * (p * W)) with (p * B * W) in G by ring.
    assert (PB : 0 <= p * B) by now apply Rmult_le_pos.
    assert (G2 : p * B * (W * (1 - / 500)) <= p * B * C) by (apply Rmult_le_compat_l; lra).
    assert (PBW : 0 <= p * B * W) by (apply Rmult_le_pos; lra).
    assert (Nt : 0 <= n * eta64) by (apply Rmult_le_pos; lra).
    assert (G3 : n * eta64 * (W * (1 - / 500)) <= n * eta64 * C) by (apply Rmult_le_compat_l; lra).
    assert (G4 : n * eta64 * (/ 2) <= n * eta64 * W) by (apply Rmult_le_compat_l; lra).
    replace ((p * B * (21 / 10) + 5 * n * eta64) * C) with ((21 / 10) * (p * B * C) + 5 * (n * eta64 * C)) by ring. lra. }
  replace (S / C * (1 + d) + e - E) with ((S / C - E) * (1 + d) + d * E + e) by ring.
  apply Rle_trans with (1 := Rabs_triang _ _).
  assert (R1 : Rabs ((S / C - E) * (1 + d) + d * E) <= (p * B * (21 / 10) + 5 * n * eta64) * (1 + / 1024) + u64 * B).
  { apply Rle_trans with (1 := Rabs_triang _ _). rewrite !Rabs_mult. apply Rplus_le_compat; apply Rmult_le_compat; try apply Rabs_pos; try assumption.
    apply Rle_trans with (1 := Rabs_triang _ _). rewrite Rabs_R1. lra. }
  assert (Nt : 2 * eta64 <= n * eta64) by (apply Rmult_le_compat_r; lra).
  assert (UB : 0 <= u64 * B) by (apply Rmult_le_pos; lra). assert (NU : 2 * (u64 * B) <= n * (u64 * B)) by (apply Rmult_le_compat_r; lra).
  replace (p * B) with (4 * (n * (u64 * B))) in R1 by (unfold p; ring).
  replace (16 * n * u64 * B) with (16 * (n * (u64 * B))) by ring. lra.
Qed.

(** ** the weights *)
(** [s/N], then half of it *)
Lemma fdiv_fin a b : b <> 0%Qc -> Rabs (QR a / QR b) <= bpow radix2 1000 -> fdiv (Fin a) (Fin b) = Fin (round64 (a / b)).
Proof.
  intros Hb H. unfold fdiv, ndiv, Qc_eqb. destruct (Qc_eq_dec b 0); [contradiction|]. apply (nround_small _ 1000); [lia|]. now rewrite QR_div.
Qed.
Lemma bp1022 : bpow radix2 (-1022) <= / 4194304.
Proof. change (/ 4194304) with (bpow radix2 (-22)). apply bpow_le. lia. Qed.
Lemma big1000 : 4194304 <= bpow radix2 1000.
Proof. change 4194304 with (bpow radix2 22). apply bpow_le. lia. Qed.
Lemma weights_half s N : (1 <= s <= 2 ^ 20)%Z -> (1 <= N <= 2 ^ 20)%Z ->
  exists d1 d2 e1 e2, fdiv (nint s) (nint N) = Fin d1 /\ fdiv (Fin d1) (nint 2) = Fin d2 /\ round64 d1 = d1 /\ round64 d2 = d2 /\
    Rabs e1 <= 3 * u64 /\ Rabs e2 <= 3 * u64 /\ QR d1 = QR (ZQ s / ZQ N) * (1 + e1) /\ QR d2 = QR (ZQ s / ZQ N / ZQ 2) * (1 + e2).
Proof.
  intros Hs HN. assert (Ns : ZQ N <> 0%Qc) by (apply QR_pos_Z; lia). assert (N2 : ZQ 2 <> 0%Qc) by (apply QR_pos_Z; lia).
  pose proof u64_pos as Hu. pose proof u64_small as Hus. pose proof big1000 as Hb. pose proof bp1022 as Hl.
  assert (Is : 1 <= IZR s <= 1048576) by (split; [apply (IZR_le 1)|apply (IZR_le s 1048576)]; lia). assert (IN : 1 <= IZR N <= 1048576) by (split; [apply (IZR_le 1)|apply (IZR_le N 1048576)]; lia).
  assert (Hq : / 1048576 <= IZR s / IZR N <= 1048576).
  { split; [apply Rmult_le_reg_r with (IZR N); [lra|]; unfold Rdiv; rewrite Rmult_assoc, Rinv_l by lra; lra|].
    apply Rmult_le_reg_r with (IZR N); [lra|]; unfold Rdiv; rewrite Rmult_assoc, Rinv_l by lra; lra. }
  assert (E1 : fdiv (nint s) (nint N) = Fin (round64 (ZQ s / ZQ N))) by (apply fdiv_fin; [exact Ns|rewrite !QR_ZQ, Rabs_pos_eq by lra; lra]).
  destruct (round64_rel (ZQ s / ZQ N)) as [d [Hd V1]]; [rewrite QR_div, !QR_ZQ, Rabs_pos_eq by (exact Ns || lra); lra|].
  set (d1 := round64 (ZQ s / ZQ N)) in *. assert (Eq : QR (ZQ s / ZQ N) = IZR s / IZR N) by (rewrite QR_div, !QR_ZQ by exact Ns; reflexivity).
  assert (Hd' := Hd). apply Rabs_le_inv in Hd'.
  assert (B1 : / 2097152 <= QR d1 <= 2097152).
  { rewrite V1, Eq. split.
    - apply Rle_trans with (/ 1048576 * / 2); [lra|apply Rmult_le_compat; lra].
    - apply Rle_trans with (1048576 * 2); [apply Rmult_le_compat; lra|lra]. }
  assert (E2 : fdiv (Fin d1) (nint 2) = Fin (round64 (d1 / ZQ 2))) by (apply fdiv_fin; [exact N2|rewrite QR_ZQ, Rabs_pos_eq by lra; lra]).
  destruct (round64_rel (d1 / ZQ 2)) as [d' [Hd2 V2]]; [rewrite QR_div, QR_ZQ, Rabs_pos_eq by (exact N2 || lra); lra|].
  exists d1, (round64 (d1 / ZQ 2)), d, (d + d' + d * d'). split; [exact E1|]. split; [exact E2|]. split; [apply round64_idem|]. split; [apply round64_idem|].
  split; [lra|]. split.
  - assert (Rabs (d * d') <= u64 * 1) by (rewrite Rabs_mult; apply Rmult_le_compat; try apply Rabs_pos; lra). pose proof (Rabs_triang (d + d') (d * d')). pose proof (Rabs_triang d d'). lra.
  - split; [exact V1|]. rewrite V2, QR_div by exact N2. rewrite V1. rewrite (QR_div (ZQ s / ZQ N)) by exact N2. unfold Rdiv. ring.
Qed.

(** ** one cell *)
Lemma Rsum_le {X} (f g : X -> R) l : (forall x, In x l -> f x <= g x) -> Rsum (map f l) <= Rsum (map g l).
Proof.
  induction l as [|x l IH]; intro H; [right; reflexivity|]. change (Rsum (map f (x :: l))) with (f x + Rsum (map f l)). change (Rsum (map g (x :: l))) with (g x + Rsum (map g l)).
  apply Rplus_le_compat; [apply H; now left|apply IH; intros; apply H; now right].
Qed.
Lemma Rsum_diff {X} (f g : X -> R) l : Rsum (map f l) - Rsum (map g l) = Rsum (map (fun x => f x - g x) l).
Proof.
  induction l as [|x l IH]; [cbn; ring|]. change (Rsum (map f (x :: l))) with (f x + Rsum (map f l)). change (Rsum (map g (x :: l))) with (g x + Rsum (map g l)).
  change (Rsum (map (fun x => f x - g x) (x :: l))) with ((f x - g x) + Rsum (map (fun x => f x - g x) l)). rewrite <- IH. ring.
Qed.
Lemma Rsum_mul {X} (f : X -> R) k l : Rsum (map (fun x => k * f x) l) = k * Rsum (map f l).
Proof. rewrite <- Rsum_scale, map_map. reflexivity. Qed.
(** perturbed terms *)
Lemma perturbed {X} (f' f : X -> R) (a : X -> R) l : (forall x, In x l -> Rabs (f' x - f x) <= 3 * u64 * a x) -> Rabs (Rsum (map f' l) - Rsum (map f l)) <= 3 * u64 * Rsum (map a l).
Proof.
  intro H. rewrite Rsum_diff. apply Rle_trans with (1 := Rsum_abs _ _). rewrite <- Rsum_mul. now apply Rsum_le.
Qed.

Definition ok_weight (w w' : Qc) : Prop := round64 w' = w' /\ 0 < QR w /\ QR w <= bpow radix2 20 /\ exists e, Rabs e <= 3 * u64 /\ QR w' = QR w * (1 + e).

Lemma half_mean (l : list Z) (w w' f : Z -> Qc) : 2 <= cnt l -> cnt l <= IZR (2 ^ 20) -> / 2 <= QR (Qsum (map w l)) ->
  (forall t, In t l -> ok_weight (w t) (w' t)) -> (forall t, In t l -> double 800 (f t)) ->
  exists r, fdiv (fold_left (fun z t => fadd z (fmul (Fin (f t)) (Fin (w' t)))) l (Fin 0)) (fold_left (fun z t => fadd z (Fin (w' t))) l (nint 0)) = Fin r /\
    ((forall t, In t l -> (0 <= f t)%Qc) -> (0 <= r)%Qc) /\
    (Qcabs (r - Qsum (map (fun t => w t * f t) l) / Qsum (map w l)) <= count l * (half_to 49 * (Qsum (map (fun t => w t * Qcabs (f t)) l) / Qsum (map w l)) + half_to 1072))%Qc.
Proof.
  intros Hn Hn' HW Hw Hf. pose proof u64_pos as Hu. pose proof u64_small as Hus. pose proof eta64_pos as Ht.
  assert (Hne : l <> []) by (intros ->; unfold cnt in Hn; cbn [List.length Z.of_nat] in Hn; lra).
  assert (Hw' : forall t, In t l -> 0 < QR (w' t) <= bpow radix2 21 /\ Rabs (QR (w' t) - QR (w t)) <= 3 * u64 * QR (w t)).
  { intros t H. destruct (Hw t H) as [_ [H1 [H2 [e [He ->]]]]]. assert (He' := He). apply Rabs_le_inv in He'. split; [split|].
    - apply Rmult_lt_0_compat; lra.
    - change 21%Z with (20 + 1)%Z. rewrite bpow_plus. change (bpow radix2 1) with 2. apply Rmult_le_compat; lra.
    - replace (QR (w t) * (1 + e) - QR (w t)) with (e * QR (w t)) by ring. rewrite Rabs_mult, (Rabs_pos_eq (QR (w t))) by lra. apply Rmult_le_compat_r; lra. }
  set (T := Rsum (map (fun t => QR (f t) * QR (w t)) l)). set (A := Rsum (map (fun t => Rabs (QR (f t)) * QR (w t)) l)). set (W := Rsum (map (fun t => QR (w t)) l)).
  assert (EW : QR (Qsum (map w l)) = W) by (rewrite QR_Qsum, map_map; reflexivity).
  assert (ET : QR (Qsum (map (fun t => w t * f t)%Qc l)) = T) by (rewrite QR_Qsum, map_map; unfold T; f_equal; apply map_ext; intro t; rewrite QR_mul; apply Rmult_comm).
  assert (EA : QR (Qsum (map (fun t => w t * Qcabs (f t))%Qc l)) = A) by (rewrite QR_Qsum, map_map; unfold A; f_equal; apply map_ext; intro t; rewrite QR_mul, QR_abs; apply Rmult_comm).
  rewrite EW in HW.
  assert (HTA : Rabs T <= A).
  { unfold T, A. apply Rle_trans with (1 := Rsum_abs _ _). apply Rsum_le. intros t Hin. destruct (Hw t Hin) as [_ [P _]]. rewrite Rabs_mult, (Rabs_pos_eq (QR (w t))) by lra. lra. }
  (* the sum of the products *)
  pose proof (fold_einsum_any (fun t => Fin (f t)) (fun t => Fin (w' t)) l [] (Fin 0) ea_nil) as He. cbn [app] in He.
  set (pairs := map (fun t => (Fin (f t), Fin (w' t))) l) in *.
  assert (Ec : cnt pairs = cnt l) by (unfold cnt, pairs; now rewrite map_length).
  assert (Hok : Forall okp pairs).
  { apply Forall_forall. intros p Hp. apply in_map_iff in Hp as [t [<- Hin]]. destruct (Hw' t Hin) as [[P1 P2] _]. destruct (Hw t Hin) as [F1 _].
    pose proof (Hf t Hin) as D. apply double_R in D as [D1 D2]; [|lia]. exists (f t), (w' t). split; [reflexivity|]. split; [exact D1|]. split; [exact F1|].
    rewrite Rabs_mult, (Rabs_pos_eq (QR (w' t))) by lra. apply Rle_trans with (bpow radix2 800 * bpow radix2 21); [apply Rmult_le_compat; try apply Rabs_pos; lra|]. rewrite <- bpow_plus. apply bpow_le. lia. }
  assert (Hpn : pairs <> []) by (unfold pairs; destruct l; [contradiction|discriminate]).
  destruct (einsum_err pairs _ He Hok ltac:(lra) Hpn) as [S [ES [_ [BS [PS _]]]]].
  assert (ETp : Sterm pairs = Rsum (map (fun t => QR (f t) * QR (w' t)) l)) by (unfold Sterm, pairs; rewrite map_map; reflexivity).
  assert (EAp : Sabs pairs = Rsum (map (fun t => Rabs (QR (f t) * QR (w' t))) l)) by (unfold Sabs, pairs; rewrite map_map; reflexivity).
  assert (SS : Rabs (QR S) <= bpow radix2 922).
  { apply (small_sum _ (Sterm pairs) (Sabs pairs) (cnt pairs) (2 * cnt pairs - 1)); [exact BS|apply Sterm_abs|now apply Sabs_bound|lra|lra|lra]. }
  assert (HA0 : 0 <= A) by (apply Rle_trans with (2 := HTA), Rabs_pos).
  assert (GA : Sabs pairs <= (1 + 3 * u64) * A).
  { rewrite EAp. unfold A. rewrite <- Rsum_mul. apply Rsum_le. intros t Hin. destruct (Hw' t Hin) as [_ P]. destruct (Hw t Hin) as [_ [Q _]].
    rewrite Rabs_mult. apply Rle_trans with (Rabs (QR (f t)) * (QR (w t) * (1 + 3 * u64))); [|right; ring]. apply Rmult_le_compat_l; [apply Rabs_pos|].
    replace (QR (w' t)) with (QR (w t) + (QR (w' t) - QR (w t))) by ring. apply Rle_trans with (1 := Rabs_triang _ _). rewrite (Rabs_pos_eq (QR (w t))) by lra. lra. }
  assert (GT : Rabs (Sterm pairs - T) <= 3 * u64 * A).
  { rewrite ETp. unfold T, A. apply perturbed. intros t Hin. destruct (Hw' t Hin) as [_ P]. rewrite <- Rmult_minus_distr_l, Rabs_mult.
    replace (3 * u64 * (Rabs (QR (f t)) * QR (w t))) with (Rabs (QR (f t)) * (3 * u64 * QR (w t))) by ring. apply Rmult_le_compat_l; [apply Rabs_pos|exact P]. }
  rewrite Ec in BS. set (n := cnt l) in *.
  assert (NU : 0 <= n * u64) by (apply Rmult_le_pos; lra).
  assert (U2 : 2 * u64 <= n * u64) by (apply Rmult_le_compat_r; lra).
  assert (BS' : Rabs (QR S - T) <= 4 * n * u64 * A + 2 * n * eta64).
  { replace (QR S - T) with ((QR S - Sterm pairs) + (Sterm pairs - T)) by ring. apply Rle_trans with (1 := Rabs_triang _ _).
    assert (G1 : n * u64 * Sabs pairs <= n * u64 * ((1 + 3 * u64) * A)) by (apply Rmult_le_compat_l; assumption).
    assert (G2 : n * u64 * ((1 + 3 * u64) * A) <= n * u64 * ((1 + 3 / 1024) * A)) by (apply Rmult_le_compat_l; [exact NU|apply Rmult_le_compat_r; lra]).
    assert (G3 : 2 * u64 * A <= n * u64 * A) by (apply Rmult_le_compat_r; assumption).
    replace (2 * n * u64 * Sabs pairs) with (2 * (n * u64 * Sabs pairs)) in BS by ring.
    assert (G4 : 0 <= n * u64 * A) by (apply Rmult_le_pos; assumption).
    replace (n * u64 * ((1 + 3 / 1024) * A)) with ((1 + 3 / 1024) * (n * u64 * A)) in G2 by ring.
    replace (4 * n * u64 * A) with (4 * (n * u64 * A)) by ring. lra. }
  (* the sum of the weights *)
  pose proof (fold_sum_any (fun t => Fin (w' t)) l [] (Fin 0) sa_nil) as Hs. cbn [app] in Hs. set (ws := map (fun t => Fin (w' t)) l) in *.
  assert (Ecw : cnt ws = n) by (unfold cnt, ws; now rewrite map_length).
  assert (Hokw : Forall ok64 ws).
  { apply Forall_forall. intros p Hp. apply in_map_iff in Hp as [t [<- Hin]]. destruct (Hw' t Hin) as [[P1 P2] _]. destruct (Hw t Hin) as [F1 _]. exists (w' t). split; [reflexivity|]. split; [exact F1|].
    rewrite Rabs_pos_eq by lra. apply Rle_trans with (1 := P2). apply bpow_le. lia. }
  destruct (sum_any_err ws _ Hs Hokw ltac:(lra)) as [C [EC [_ [BC _]]]].
  assert (HWp : Rabs (Rsum (map (fun t => QR (w' t)) l) - W) <= 3 * u64 * W).
  { unfold W. apply perturbed. intros t Hin. exact (proj2 (Hw' t Hin)). }
  assert (EWp : Rsum (map val ws) = Rsum (map (fun t => QR (w' t)) l)) by (unfold ws; rewrite map_map; reflexivity).
  assert (EWa : Rsum (map (fun x => Rabs (val x)) ws) = Rsum (map (fun t => QR (w' t)) l)).
  { unfold ws. rewrite map_map. f_equal. apply map_ext_in. intros t Hin. cbn [val]. apply Rabs_pos_eq. destruct (Hw' t Hin) as [[P _] _]. lra. }
  rewrite EWp, EWa, Ecw in BC. set (W' := Rsum (map (fun t => QR (w' t)) l)) in *.
  assert (BC' : Rabs (QR C - W) <= 4 * n * u64 * W).
  { replace (QR C - W) with ((QR C - W') + (W' - W)) by ring. apply Rle_trans with (1 := Rabs_triang _ _).
    assert (G0 : W' <= (1 + 3 / 1024) * W). { apply Rabs_le_inv in HWp. assert (3 * u64 * W <= 3 / 1024 * W) by (apply Rmult_le_compat_r; lra). lra. }
    assert (G1 : n * u64 * W' <= n * u64 * ((1 + 3 / 1024) * W)) by (apply Rmult_le_compat_l; assumption).
    assert (G3 : 2 * u64 * W <= n * u64 * W) by (apply Rmult_le_compat_r; lra). assert (G4 : 0 <= n * u64 * W) by (apply Rmult_le_pos; lra).
    replace (2 * n * u64 * W') with (2 * (n * u64 * W')) in BC by ring. replace (4 * n * u64 * W) with (4 * (n * u64 * W)) by ring. lra. }
  cbv beta in ES, EC. rewrite ES. change (nint 0) with (Fin 0). rewrite EC.
  destruct (ratio_err (QR S) (QR C) T W A n 0 0 HW Hn Hn' BS' BC' HTA ltac:(rewrite Rabs_R0; lra) ltac:(rewrite Rabs_R0; lra)) as [HC _].
  assert (HC0 : C <> 0%Qc) by (intros ->; rewrite QR_0 in HC; lra).
  rewrite fdiv_fin; [|exact HC0|].
  2:{ unfold Rdiv. rewrite Rabs_mult, Rabs_inv, (Rabs_pos_eq (QR C)) by lra. apply Rle_trans with (bpow radix2 922 * 4).
      - apply Rmult_le_compat; try apply Rabs_pos; [left; apply Rinv_0_lt_compat; lra|exact SS|]. replace 4 with (/ / 4) by lra. apply Rinv_le_contravar; lra.
      - change 4 with (bpow radix2 2). rewrite <- bpow_plus. apply bpow_le. lia. }
  exists (round64 (S / C)). split; [reflexivity|]. split.
  - intro Hp. apply round64_sign, QR_le. rewrite QR_0, QR_div by exact HC0. unfold Rdiv. apply Rmult_le_pos; [|left; apply Rinv_0_lt_compat; lra]. apply PS.
    apply Forall_forall. intros p Hin. apply in_map_iff in Hin as [t [<- Hin]]. unfold term. cbn [fst snd val]. destruct (Hw' t Hin) as [[P _] _]. specialize (Hp t Hin). apply QR_le in Hp. rewrite QR_0 in Hp. apply Rmult_le_pos; lra.
  - assert (HW0 : Qsum (map w l) <> 0%Qc) by (intro E; rewrite E, QR_0 in EW; lra).
    destruct (round64_err (S / C)) as [d [e [Hd [Hee Er]]]]. rewrite QR_div in Er by exact HC0.
    destruct (ratio_err (QR S) (QR C) T W A n d e HW Hn Hn' BS' BC' HTA Hd Hee) as [_ G].
    assert (E49 : bpow radix2 (- (49)) = 16 * u64) by (unfold u64; change 16 with (bpow radix2 4); rewrite <- bpow_plus; reflexivity).
    assert (Et : bpow radix2 (- (1072)) = 8 * eta64) by (unfold eta64; change 8 with (bpow radix2 3); rewrite <- bpow_plus; reflexivity).
    apply QR_le. rewrite QR_abs, QR_sub, Er, QR_mul, QR_add, QR_mul, !QR_div, QR_count, !QR_half, E49, Et, EW, ET, EA by (exact HW0 || lia). fold n.
    apply Rle_trans with (1 := G). right. ring.
Qed.
