(** * Props_Cells: theorems for C115: the precision of PCRaster output follows the
    clone map (writers/pcr.py), C116: cells without value of netCDF files, and
    C117: the precision of netCDF output, both in double precision. Model:
    CellStore.v, Writers.v. *)
From Coq Require Import ZArith QArith Qcanon Reals Qreals Lia Lra Psatz.
From Flocq Require Import Core Relative.
From Verif Require Import Base Base_P Num Num_P PyStr Float64 Float64_P Float_Agg_P Float_Weights_P Writers Writers_P Writers_P2 Spec_Writers CellStore Cells_P.
Local Open Scope R_scope.

Lemma round32_err x : exists d e, Rabs d <= bpow radix2 (-24) /\ Rabs e <= bpow radix2 (-150) /\ QR (round32 x) = QR x * (1 + d) + e.
Proof.
  rewrite round32_ieee. destruct (relative_error_N_FLT'_ex radix2 (-149) 24 ltac:(reflexivity) (fun z => negb (Z.even z)) (QR x)) as [d [e [Hd [He [_ H]]]]].
  exists d, e. split; [|split; [|exact H]].
  - apply Rle_trans with (1 := Hd). assert (E : u_ro radix2 24 = bpow radix2 (-24)).
    { unfold u_ro. change (-24 + 1)%Z with (-23)%Z. change (/ 2) with (bpow radix2 (-1)). rewrite <- bpow_plus. reflexivity. }
    rewrite E. set (u := bpow radix2 (-24)). assert (P : 0 < u) by apply bpow_gt_0. apply Rmult_le_reg_r with (1 + u); [lra|].
    replace (u / (1 + u) * (1 + u)) with u by (field; lra). rewrite Rmult_plus_distr_l, Rmult_1_r. pose proof (Rmult_lt_0_compat _ _ P P). lra.
  - replace (bpow radix2 (-150)) with (/ 2 * bpow radix2 (-149)); [exact He|]. change (/ 2) with (bpow radix2 (-1)). rewrite <- bpow_plus. reflexivity.
Qed.

(** magnitude *)
Definition size (q : Qc) : Qc := if Qc_ltb q 0 then (- q)%Qc else q.
Lemma QR_size q : QR (size q) = Rabs (QR q).
Proof.
  unfold size. destruct (Qc_ltb q 0) eqn:E.
  - apply Qc_ltb_spec in E. apply QR_lt in E. rewrite QR_opp. replace (QR 0) with 0 in E by (symmetry; apply (QR_ZQ 0)). now rewrite Rabs_left.
  - assert (E' : (0 <= q)%Qc) by (destruct (Qclt_le_dec q 0) as [H|H]; [apply Qc_ltb_spec in H; congruence|exact H]).
    apply QR_le in E'. replace (QR 0) with 0 in E' by (symmetry; apply (QR_ZQ 0)). now rewrite Rabs_pos_eq.
Qed.
(** [w] is [v] to single precision: 24 significant bits, or the least spacing of
    single precision numbers *)
Definition single_close (v w : Qc) : Prop := (size (w - v) <= size v * Q2Qc (1 # 16777216) + Q2Qc (1 # 2 ^ 150))%Qc.
Lemma QR_inv2 p : QR (Q2Qc (1 # p)) = / IZR (Zpos p).
Proof.
  unfold QR. rewrite (Qreals.Qeq_eqR (this (Q2Qc (1 # p))) (1 # p)) by (cbn [this Q2Qc]; apply Qred_correct). unfold Q2R. cbn [Qnum Qden]. ring.
Qed.
Lemma round32_close v : single_close v (round32 v).
Proof.
  unfold single_close. apply QR_le. rewrite QR_add, QR_mul, !QR_size, QR_sub, !QR_inv2.
  destruct (round32_err v) as (d & e & Hd & He & ->). replace (QR v * (1 + d) + e - QR v) with (QR v * d + e) by ring.
  apply Rle_trans with (1 := Rabs_triang _ _). rewrite Rabs_mult.
  apply Rplus_le_compat; [apply Rmult_le_compat_l; [apply Rabs_pos|]|].
  - apply Rle_trans with (1 := Hd). right. reflexivity.
  - apply Rle_trans with (1 := He). right. change (-150)%Z with (- (150))%Z. rewrite bpow_opp. f_equal.
Qed.
Lemma round32_small v : (size v <= ZQ (2 ^ 127) -> size (round32 v) <= ZQ (2 ^ 127))%Qc.
Proof.
  rewrite !QR_le, !QR_size, QR_ZQ, <- bpow_pow2, round32_ieee by lia. intro H. apply Rabs_le.
  assert (F : generic_format radix2 (FLT_exp (-149) 24) (bpow radix2 127)) by (apply generic_format_bpow; unfold FLT_exp; lia).
  apply Rabs_le_inv in H. split.
  - apply round_ge_generic; [now apply FLT_exp_valid|apply valid_rnd_N|now apply generic_format_opp|lra].
  - apply round_le_generic; [now apply FLT_exp_valid|apply valid_rnd_N|exact F|lra].
Qed.

Local Open Scope Qc_scope.
Lemma Qc_leb_not a b : b < a -> Qc_leb a b = false.
Proof. intro H. destruct (Qc_leb a b) eqn:E; [|reflexivity]. apply Qc_leb_spec in E. exfalso. exact (Qclt_not_le _ _ H E). Qed.
Lemma ltb_no a b : b <= a -> Qc_ltb a b = false.
Proof. intro H. destruct (Qc_ltb a b) eqn:E; [|reflexivity]. apply Qc_ltb_spec in E. exfalso. exact (Qclt_not_le _ _ E H). Qed.
Lemma to_single_fin v : size v <= ZQ (2 ^ 127) -> to_single (Fin v) = Fin (round32 v).
Proof.
  intro H. assert (G : (QR v <= QR flt_max /\ - QR flt_max <= QR v)%R).
  { apply QR_le in H. rewrite QR_size, QR_ZQ in H. apply Rabs_le_inv in H. unfold flt_max. rewrite QR_ZQ.
    assert (L : (IZR (2 ^ 127) <= IZR (2 ^ 128 - 2 ^ 104))%R) by (apply IZR_le; vm_compute; discriminate). lra. }
  unfold to_single. rewrite (ltb_no flt_max v), (ltb_no v (- flt_max)); [reflexivity| |]; apply QR_le; rewrite ?QR_opp; apply G.
Qed.
Lemma to_single_same m : round32 m = m -> size m <= flt_max -> to_single (Fin m) = Fin m.
Proof.
  intros H G. apply QR_le in G. rewrite QR_size in G. apply Rabs_le_inv in G. unfold to_single.
  rewrite (ltb_no flt_max m), (ltb_no m (- flt_max)), H; [reflexivity| |]; apply QR_le; rewrite ?QR_opp; apply G.
Qed.

Lemma stored_cells b isfloat clone mv field : wf_arr field -> List.length (adata field) = List.length clone ->
  exists out, pcr_file b (clone_mask isfloat clone mv) mv field = Ok out /\ List.length out = List.length clone /\
    forall i c x, nth_error clone i = Some c -> nth_error (adata field) i = Some x ->
      nth_error out i = Some (gdal_cast b (if (field_missing field i x || clone_missing isfloat c mv)%bool then mv else x)).
Proof.
  intros Hw Hl. destruct (pcr_write_spec isfloat clone mv field Hw Hl) as (out & H1 & H2 & H3). exists (map (gdal_cast b) out).
  unfold pcr_file. rewrite H1. cbn [rbind]. split; [reflexivity|]. split; [now rewrite map_length|].
  intros i c x Hc Hx. rewrite nth_error_map, (H3 i c x Hc Hx). reflexivity.
Qed.

(** ** C115 *)
(** Full statement: whatever the clone map, a cell with a value holds it to single
    precision, and the others are missing. [mv] is the missing value of the clone
    map: one of its values, for floating point maps an extreme one. *)
Definition mv_of (b : band) (mv : Qc) : Prop :=
  match b with
  | Byte => exists z, mv = ZQ z /\ (0 <= z <= 255)%Z
  | Int32 => exists z, mv = ZQ z /\ (-2147483648 <= z <= 2147483647)%Z
  | Float32 => round32 mv = mv /\ ZQ (2 ^ 127) < size mv /\ size mv <= flt_max
  end.
Definition C115_full : Prop := forall b clone mv field,
  mv_of b mv -> wf_arr field -> List.length (adata field) = List.length clone ->
  exists out, pcr_file b (clone_mask (float_band b) clone (Fin mv)) (Fin mv) field = Ok out /\ List.length out = List.length clone /\
    forall i c x, nth_error clone i = Some c -> nth_error (adata field) i = Some x ->
      exists y, nth_error out i = Some y /\
        ((field_missing field i x || clone_missing (float_band b) c (Fin mv))%bool = true -> pcr_seen (Fin mv) y = None) /\
        (forall v, x = Fin v -> (field_missing field i x || clone_missing (float_band b) c (Fin mv))%bool = false -> size v <= ZQ (2 ^ 127) ->
           exists w, pcr_seen (Fin mv) y = Some (Fin w) /\ single_close v w).

(** Proved part 1: it holds for a clone map of floating point numbers. *)
Theorem C115_float_partial : forall clone mv field,
  mv_of Float32 mv -> wf_arr field -> List.length (adata field) = List.length clone ->
  exists out, pcr_file Float32 (clone_mask true clone (Fin mv)) (Fin mv) field = Ok out /\ List.length out = List.length clone /\
    forall i c x, nth_error clone i = Some c -> nth_error (adata field) i = Some x ->
      exists y, nth_error out i = Some y /\
        ((field_missing field i x || clone_missing true c (Fin mv))%bool = true -> pcr_seen (Fin mv) y = None) /\
        (forall v, x = Fin v -> (field_missing field i x || clone_missing true c (Fin mv))%bool = false -> size v <= ZQ (2 ^ 127) ->
           exists w, pcr_seen (Fin mv) y = Some (Fin w) /\ single_close v w).
Proof.
  intros clone mv field (M1 & M2 & M3) Hw Hl. destruct (stored_cells Float32 true clone (Fin mv) field Hw Hl) as (out & H1 & H2 & H3).
  exists out. split; [exact H1|]. split; [exact H2|]. intros i c x Hc Hx. eexists. split; [exact (H3 i c x Hc Hx)|]. cbn [gdal_cast]. split.
  - intros ->. rewrite (to_single_same mv M1 M3). unfold pcr_seen. cbn [neqb]. rewrite (proj2 (Qc_eqb_spec mv mv) eq_refl). reflexivity.
  - intros v -> -> Hv. rewrite (to_single_fin v Hv). exists (round32 v). split; [|apply round32_close]. unfold pcr_seen. cbn [neqb].
    rewrite (proj2 (Qc_eqb_false (round32 v) mv)); [reflexivity|]. intro E. apply (Qclt_not_le _ _ M2). rewrite <- E. now apply round32_small.
Qed.
Print Assumptions C115_float_partial.

(** ** integer maps *)
Lemma half_away_close q : q - half <= ZQ (half_away q) /\ ZQ (half_away q) <= q + half.
Proof.
  assert (F : forall r, r - 1 < ZQ (qfloor r) /\ ZQ (qfloor r) <= r).
  { intro r. split; [|apply (proj2 (qfloor_le r (qfloor r)) (Z.le_refl _))]. assert (H : r < ZQ (qfloor r + 1)) by (apply qfloor_lt; lia). rewrite ZQ_add, ZQ_1 in H. qclra. }
  assert (P : half + half = 1) by (apply Qc_is_canon; reflexivity).
  unfold half_away. fold half. destruct (Qc_ltb q 0).
  - fold (qfloor (- q + half)). destruct (F (- q + half)) as [A B]. remember (qfloor (- q + half)) as z eqn:Ez. clear Ez.
    replace (ZQ (- z)) with (- ZQ z) by (apply Qc_is_canon; qc_push; rewrite ?ZQ_this; reflexivity). clear F. remember half as h eqn:Eh. clear Eh. split; qclra.
  - fold (qfloor (q + half)). destruct (F (q + half)) as [A B]. clear F. remember half as h eqn:Eh. clear Eh. split; qclra.
Qed.
Lemma half_away_le q z : ZQ z <= q -> (z <= half_away q)%Z.
Proof.
  intro H. destruct (half_away_close q) as [H1 H2]. assert (P : half < 1) by (vm_compute; reflexivity).
  assert (L : ZQ (z - 1) < ZQ (half_away q)) by (rewrite ZQ_sub, ZQ_1; qclra). apply ZQ_lt in L. lia.
Qed.
Lemma half_away_ge q z : q <= ZQ z -> (half_away q <= z)%Z.
Proof.
  intro H. destruct (half_away_close q) as [H1 H2]. assert (P : half < 1) by (vm_compute; reflexivity).
  assert (L : ZQ (half_away q) < ZQ (z + 1)) by (rewrite ZQ_add, ZQ_1; qclra). apply ZQ_lt in L. lia.
Qed.
Lemma half_away_ZQ z : half_away (ZQ z) = z.
Proof. apply Z.le_antisymm; [apply half_away_ge|apply half_away_le]; apply Qcle_refl. Qed.

(** the range of the whole numbers of a map *)
Definition range_of (b : band) : option (Z * Z) :=
  match b with Byte => Some (0, 255)%Z | Int32 => Some (-2147483648, 2147483647)%Z | Float32 => None end.
(** [n] is what a map of numbers [lo..hi] holds for the value [v] *)
Definition whole_close (lo hi : Z) (v : Qc) (n : Z) : Prop :=
  (lo <= n <= hi)%Z /\
  (ZQ lo <= v -> v <= ZQ hi -> ZQ n - v <= half /\ v - ZQ n <= half) /\
  (v < ZQ lo -> n = lo) /\ (ZQ hi < v -> n = hi) /\
  (forall z, v = ZQ z -> (lo <= z <= hi)%Z -> n = z).
Lemma clamp_close lo hi v : (lo <= hi)%Z -> whole_close lo hi v (clamp lo hi (half_away v)).
Proof.
  intro Hlh. destruct (half_away_close v) as [A B]. unfold whole_close, clamp.
  split; [destruct (Z.ltb_spec (half_away v) lo); [lia|]; destruct (Z.ltb_spec hi (half_away v)); lia|].
  split; [|split; [|split]].
  - intros L H. pose proof (half_away_le _ _ L). pose proof (half_away_ge _ _ H).
    destruct (Z.ltb_spec (half_away v) lo); [lia|]. destruct (Z.ltb_spec hi (half_away v)); [lia|]. remember half as h eqn:Eh. clear Eh. split; qclra.
  - intro L. pose proof (half_away_ge _ _ (Qclt_le_weak _ _ L)). destruct (Z.ltb_spec (half_away v) lo); [reflexivity|]. destruct (Z.ltb_spec hi (half_away v)); lia.
  - intro L. pose proof (half_away_le _ _ (Qclt_le_weak _ _ L)). destruct (Z.ltb_spec (half_away v) lo); [lia|]. destruct (Z.ltb_spec hi (half_away v)); lia.
  - intros z -> Hz. rewrite half_away_ZQ. destruct (Z.ltb_spec z lo); [lia|]. destruct (Z.ltb_spec hi z); lia.
Qed.
(** Proved part 2, exact: with a clone map of whole numbers the cells hold the
    nearest whole number, or the end of the range; a value that becomes the
    missing value is lost. *)
Theorem C115_integer_partial : forall b lo hi clone z field,
  range_of b = Some (lo, hi) -> (lo <= z <= hi)%Z -> wf_arr field -> List.length (adata field) = List.length clone ->
  exists out, pcr_file b (clone_mask false clone (nint z)) (nint z) field = Ok out /\ List.length out = List.length clone /\
    forall i c x, nth_error clone i = Some c -> nth_error (adata field) i = Some x ->
      exists n, nth_error out i = Some (nint n) /\
        ((field_missing field i x || clone_missing false c (nint z))%bool = true -> pcr_seen (nint z) (nint n) = None) /\
        (forall v, x = Fin v -> (field_missing field i x || clone_missing false c (nint z))%bool = false ->
           whole_close lo hi v n /\ pcr_seen (nint z) (nint n) = if (n =? z)%Z then None else Some (nint n)) /\
        ((field_missing field i x || clone_missing false c (nint z))%bool = false -> (x = PInf -> n = hi) /\ (x = MInf -> n = lo)).
Proof.
  intros b lo hi clone z field Hb Hz Hw Hl. destruct (stored_cells b false clone (nint z) field Hw Hl) as (out & H1 & H2 & H3).
  assert (G : forall x, gdal_cast b x = to_int lo hi x) by (intro x; destruct b; cbn in Hb; try discriminate; injection Hb as <- <-; reflexivity).
  assert (S : forall n m, pcr_seen (nint m) (nint n) = if (n =? m)%Z then None else Some (nint n)).
  { intros n m. unfold pcr_seen, nint. cbn [neqb]. destruct (Z.eqb_spec n m) as [->|N]; [now rewrite (proj2 (Qc_eqb_spec _ _) eq_refl)|].
    rewrite (proj2 (Qc_eqb_false (ZQ n) (ZQ m))); [reflexivity|]. intro E. apply N. apply Z.le_antisymm; apply ZQ_le; rewrite E; apply Qcle_refl. }
  exists out. split; [exact H1|]. split; [exact H2|]. intros i c x Hc Hx. pose proof (H3 i c x Hc Hx) as H. rewrite G in H.
  destruct (field_missing field i x || clone_missing false c (nint z))%bool eqn:Em.
  - exists z. split; [|split; [|split]].
    + rewrite H. unfold nint at 1. cbn [to_int]. rewrite half_away_ZQ. unfold clamp. destruct (Z.ltb_spec z lo); [lia|]. destruct (Z.ltb_spec hi z); [lia|reflexivity].
    + intros _. rewrite S, Z.eqb_refl. reflexivity.
    + intros v _ E. discriminate E.
    + discriminate.
  - destruct x as [v| | |]; cbn [to_int] in H.
    + exists (clamp lo hi (half_away v)). split; [exact H|]. split; [discriminate|]. split; [|intros _; split; discriminate].
      intros v' E _. injection E as <-. split; [apply clamp_close; lia|apply S].
    + exists hi. split; [exact H|]. split; [discriminate|]. split; [intros v E; discriminate E|intros _; split; [reflexivity|discriminate]].
    + exists lo. split; [exact H|]. split; [discriminate|]. split; [intros v E; discriminate E|intros _; split; [discriminate|reflexivity]].
    + exists 0%Z. split; [exact H|]. split; [discriminate|]. split; [intros v E; discriminate E|intros _; split; discriminate].
Qed.
Print Assumptions C115_integer_partial.

(** the witness: a mask of nominal cells as clone; 0.4 is written as 0 *)
Definition mask_clone : list num := [nint 1; nint (-2147483648)].
Definition small_field : arr := Nd [Fin (Q2Qc (2 # 5)); Fin (Q2Qc (2 # 5))].
Theorem C115_integer_refuted : ~ C115_full.
Proof.
  intro H. destruct (H Int32 mask_clone (ZQ (-2147483648)) small_field) as (out & E & _ & Hc).
  - exists (-2147483648)%Z. split; [reflexivity|lia].
  - exact I.
  - reflexivity.
  - destruct (Hc 0%nat (nint 1) (Fin (Q2Qc (2 # 5))) eq_refl eq_refl) as (y & Hy & _ & Hv).
    assert (X : field_missing small_field 0 (Fin (Q2Qc (2 # 5))) || clone_missing (float_band Int32) (nint 1) (Fin (ZQ (-2147483648))) = false) by (vm_compute; reflexivity).
    destruct (Hv (Q2Qc (2 # 5)) eq_refl X) as (w & Hw & Hd); [vm_compute; discriminate|].
    assert (Eo : match pcr_file Int32 (clone_mask (float_band Int32) mask_clone (Fin (ZQ (-2147483648)))) (Fin (ZQ (-2147483648))) small_field with Ok (Fin q :: _) => Qc_eqb q 0 | _ => false end = true) by (vm_compute; reflexivity).
    rewrite E in Eo. destruct out as [|a l]; [discriminate|]. cbn in Hy. injection Hy as ->. destruct y as [q| | |]; try discriminate. apply Qc_eqb_spec in Eo. subst q.
    unfold pcr_seen in Hw. destruct (neqb _ _) in Hw; [discriminate|]. injection Hw as <-. vm_compute in Hd. apply Hd. reflexivity.
Qed.
Print Assumptions C115_integer_refuted.
Example C115_nonvacuous : mv_of Float32 (- flt_max) /\ mv_of Byte (ZQ 255) /\
  match pcr_file Float32 (clone_mask true [nint 1; Fin (- flt_max); nint 1] (Fin (- flt_max))) (Fin (- flt_max)) (Nd [Fin (Q2Qc (1 # 10)); nint 5; NaN]) with
  | Ok l => map (pcr_seen (Fin (- flt_max))) l = [Some (Fin (Q2Qc (13421773 # 134217728))); None; None] | Raise _ => False end /\
  match pcr_file Byte (clone_mask false [nint 1; nint 255; nint 1; nint 1] (nint 255)) (nint 255) (Nd [Fin (Q2Qc (5 # 2)); nint 5; nint 300; nint (-4)]) with
  | Ok l => map (pcr_seen (nint 255)) l = [Some (nint 3); None; None; Some (nint 0)] | Raise _ => False end.
Proof.
  split; [split; [|split]; [apply Qc_is_canon; vm_compute; reflexivity|vm_compute; reflexivity|vm_compute; discriminate]|].
  split; [exists 255%Z; split; [reflexivity|lia]|].
  split; vm_compute; repeat f_equal; apply Qc_is_canon; reflexivity.
Qed.

(** ** C116: cells without value of netCDF files, in double precision *)
Definition int_fmts : list vfmt := [VI1; VI2; VI4].
(** a scale factor and an offset in double precision, in a range no file goes beyond *)
Definition sane (s o : Qc) : Prop :=
  s <> 0 /\ round64 s = s /\ round64 o = o /\ Q2Qc (1 # 2 ^ 500) <= size s /\ size s <= ZQ (2 ^ 500) /\ size o <= size s * ZQ (2 ^ 40).
(** Full statement: whatever the format, the scale factor and the offset, a cell
    without value holds the declared fill value. *)
Definition C116_full : Prop := forall f s o, sane s o -> nc_store f s o (nc_missing f s o) = Fin (fillval f).

Lemma sane_R s o : sane s o -> s <> 0 /\ round64 s = s /\ round64 o = o /\
  (bpow radix2 (-500) <= Rabs (QR s) /\ Rabs (QR s) <= bpow radix2 500 /\ Rabs (QR o) <= bpow radix2 40 * Rabs (QR s))%R.
Proof.
  intros (H1 & H2 & H3 & H4 & H5 & H6). split; [exact H1|]. split; [exact H2|]. split; [exact H3|].
  apply QR_le in H4, H5, H6. rewrite QR_size in *. rewrite QR_inv2 in H4. rewrite QR_ZQ, <- bpow_pow2 in H5 by lia. rewrite QR_mul, QR_size, QR_ZQ, <- bpow_pow2 in H6 by lia.
  split; [|split; [exact H5|now rewrite Rmult_comm]]. change (-500)%Z with (- (500))%Z. rewrite bpow_opp, bpow_pow2 by lia. exact H4.
Qed.
Lemma fill_abs f : (1 <= Rabs (QR (fillval f)) /\ Rabs (QR (fillval f)) <= bpow radix2 123)%R.
Proof.
  rewrite <- QR_size. rewrite bpow_pow2 by lia. rewrite <- (QR_ZQ (2 ^ 123)). replace 1%R with (QR (ZQ 1)) by apply QR_ZQ. rewrite <- !QR_le. destruct f; split; vm_compute; discriminate.
Qed.
Lemma store_missing f s o : sane s o -> exists q,
  fdiv (fsub (nc_missing f s o) (Fin o)) (Fin s) = Fin q /\ (Rabs (QR q - QR (fillval f)) <= 8 * u64 * (Rabs (QR (fillval f)) + bpow radix2 40))%R.
Proof.
  intros H. destruct (sane_R s o H) as (H1 & H2 & H3 & H4 & H5 & H6). destruct (fill_abs f) as [F1 F2].
  assert (P : (0 < Rabs (QR s))%R) by (apply Rabs_pos_lt, QR_neq, H1).
  destruct (mscaled_ok (fillval f) s o H1 H3 F1 F2 H4 H5) as [E1 E2].
  { apply Rle_trans with (1 := H6). apply Rmult_le_compat_r; [lra|apply bpow_le; lia]. }
  exists (packed (mscaled (fillval f) s o) o s). split; [unfold nc_missing; rewrite E1; exact E2|].
  apply Rle_trans with (1 := missing_err (fillval f) s o H1 H3 F1 H4). destruct u_val as (_ & U & _). apply Rmult_le_compat_l; [lra|]. apply Rplus_le_compat_l.
  apply Rmult_le_reg_r with (Rabs (QR s)); [exact P|]. unfold Rdiv. rewrite Rmult_assoc, Rinv_l, Rmult_1_r by lra. exact H6.
Qed.
Lemma round32_le x y : x <= y -> round32 x <= round32 y.
Proof. rewrite !QR_le, !round32_ieee. intro H. apply round_le; [now apply FLT_exp_valid|apply valid_rnd_N|exact H]. Qed.
Lemma round32_fill q : (Rabs (QR q - QR (fillval VF4)) <= IZR (2 ^ 97))%R -> to_single (Fin q) = Fin (fillval VF4).
Proof.
  intro H. apply Rabs_le_inv in H. set (e := ZQ (2 ^ 97)). assert (A : fillval VF4 - e <= q) by (apply QR_le; unfold e; rewrite QR_sub, (QR_ZQ (2 ^ 97)); lra).
  assert (B : q <= fillval VF4 + e) by (apply QR_le; unfold e; rewrite QR_add, (QR_ZQ (2 ^ 97)); lra).
  assert (C : fillval VF4 + e <= flt_max) by (vm_compute; discriminate). assert (D : - flt_max <= fillval VF4 - e) by (vm_compute; discriminate).
  unfold to_single. rewrite (ltb_no flt_max q), (ltb_no q (- flt_max)); [|apply Qcle_trans with (1 := D), A|apply Qcle_trans with (1 := B), C]. f_equal.
  apply Qcle_antisym.
  - apply Qcle_trans with (1 := round32_le _ _ B). vm_compute. discriminate.
  - apply Qcle_trans with (2 := round32_le _ _ A). vm_compute. discriminate.
Qed.
(** Proved part 1: it holds for the integer formats and for single precision,
    whatever the scale factor and the offset. *)
Theorem C116_partial : forall f s o, sane s o -> f <> VF8 -> nc_store f s o (nc_missing f s o) = Fin (fillval f).
Proof.
  intros f s o H Hf. destruct (store_missing f s o H) as (q & E & B). unfold nc_store. rewrite E. clear E H. destruct u_val as (U1 & U2 & U3).
  assert (I : forall z, fillval f = ZQ z -> (Z.abs z <= 2 ^ 31)%Z -> Fin (ZQ (around q)) = Fin (fillval f)).
  { intros z Ez Hz. f_equal. rewrite Ez in *. f_equal. rewrite QR_ZQ in B.
    assert (Bz : (Rabs (IZR z) <= 2147483648)%R) by (rewrite <- abs_IZR; apply IZR_le; exact Hz).
    assert (B2 : (Rabs (QR q - IZR z) <= / 4)%R).
    { apply Rle_trans with (1 := B). rewrite (bpow_pow2 40) by lia. change (2 ^ 40)%Z with 1099511627776%Z. apply Rmult_le_reg_r with 9007199254740992%R; [lra|].
      replace (8 * u64 * (Rabs (IZR z) + 1099511627776) * 9007199254740992)%R with (8 * (Rabs (IZR z) + 1099511627776) * (u64 * 9007199254740992))%R by ring. rewrite U3. lra. }
    apply Rabs_le_inv in B2. destruct (around_close q) as [A1 A2]. apply QR_le in A1, A2. rewrite QR_sub, QR_ZQ in A1. rewrite QR_add, QR_ZQ in A2.
    assert (Hh : QR half = (/ 2)%R) by (unfold half; apply QR_inv2). rewrite Hh in *.
    assert (L1 : (IZR (around q) < IZR (z + 1))%R) by (rewrite plus_IZR; lra). assert (L2 : (IZR (z - 1) < IZR (around q))%R) by (rewrite minus_IZR; lra).
    apply lt_IZR in L1. apply lt_IZR in L2. lia. }
  destruct f; [| | | |contradiction].
  - apply (I (-127)%Z); [reflexivity|lia].
  - apply (I (-32767)%Z); [reflexivity|lia].
  - apply (I (-2147483647)%Z); [reflexivity|lia].
  - apply round32_fill. apply Rle_trans with (1 := B). destruct (fill_abs VF4) as [_ F2].
    apply Rle_trans with (8 * u64 * (bpow radix2 123 + bpow radix2 123))%R.
    + apply Rmult_le_compat_l; [lra|]. apply Rplus_le_compat; [exact F2|apply bpow_le; lia].
    + rewrite bpow_pow2 by lia. rewrite <- plus_IZR. apply Rmult_le_reg_r with 9007199254740992%R; [lra|].
      replace (8 * u64 * IZR (2 ^ 123 + 2 ^ 123) * 9007199254740992)%R with (8 * IZR (2 ^ 123 + 2 ^ 123) * (u64 * 9007199254740992))%R by ring. rewrite U3, Rmult_1_r, <- !mult_IZR.
      apply IZR_le. vm_compute. discriminate.
Qed.
Print Assumptions C116_partial.
(** Proved part 2: it holds in double precision, the default format, for scale
    factors with which 15 can be multiplied exactly (the fill value is 15 * 2^119):
    1, whole numbers, halves, quarters ... but not most decimal fractions. *)
Theorem C116_exact_partial : forall s o, sane s o -> round64 (ZQ 15 * s) = ZQ 15 * s ->
  nc_store VF8 s o (nc_missing VF8 s o) = Fin (fillval VF8).
Proof.
  intros s o H H15. destruct (sane_R s o H) as (H1 & H2 & H3 & H4 & H5 & H6). destruct (fill_abs VF8) as [F1 F2].
  assert (P : (0 < Rabs (QR s))%R) by (apply Rabs_pos_lt, QR_neq, H1).
  destruct (mscaled_ok (fillval VF8) s o H1 H3 F1 F2 H4 H5) as [E1 E2].
  { apply Rle_trans with (1 := H6). apply Rmult_le_compat_r; [lra|apply bpow_le; lia]. }
  unfold nc_store, nc_missing. rewrite E1, E2. f_equal. clear E1 E2.
  assert (Ef : fillval VF8 = ZQ 15 * ZQ (2 ^ 119)) by (apply Qc_is_canon; vm_compute; reflexivity).
  assert (Es : fillval VF8 * s = ZQ 15 * s * ZQ (2 ^ 119)) by (rewrite Ef; ring).
  assert (Ex : round64 (fillval VF8 * s) = fillval VF8 * s) by (rewrite Es; apply round64_shift; [exact H15|lia]).
  assert (Sm : (8 * Rabs (QR o) < Rabs (QR (fillval VF8 * s)) * u64)%R).
  { rewrite Es, !QR_mul, !Rabs_mult, !QR_ZQ, (Rabs_pos_eq 15), (Rabs_pos_eq (IZR (2 ^ 119))) by (apply IZR_le; vm_compute; discriminate). destruct u_val as (_ & U2 & U3).
    apply Rle_lt_trans with (8 * (bpow radix2 40 * Rabs (QR s)))%R; [apply Rmult_le_compat_l; [lra|exact H6]|]. rewrite bpow_pow2 by lia.
    apply Rmult_lt_reg_r with 9007199254740992%R; [lra|]. replace (15 * Rabs (QR s) * IZR (2 ^ 119) * u64 * 9007199254740992)%R with (15 * IZR (2 ^ 119) * (u64 * 9007199254740992) * Rabs (QR s))%R by ring.
    rewrite U3, Rmult_1_r. replace (8 * (IZR (2 ^ 40) * Rabs (QR s)) * 9007199254740992)%R with (8 * IZR (2 ^ 40) * 9007199254740992 * Rabs (QR s))%R by ring.
    apply Rmult_lt_compat_r; [exact P|]. rewrite <- !mult_IZR. apply IZR_lt. vm_compute. reflexivity. }
  assert (M : mscaled (fillval VF8) s o = fillval VF8 * s) by (unfold mscaled; rewrite Ex; apply absorbed; assumption).
  assert (D : round64 (fillval VF8 * s - o) = fillval VF8 * s).
  { change (fillval VF8 * s - o) with (fillval VF8 * s + - o). apply absorbed; [exact Ex|]. rewrite QR_opp, Rabs_Ropp. exact Sm. }
  unfold packed. rewrite M, D. replace (fillval VF8 * s / s) with (fillval VF8) by (field; exact H1). apply Qc_is_canon. vm_compute. reflexivity.
Qed.
Print Assumptions C116_exact_partial.
(** with the scale factor 0.03 the cells without value hold the neighbour of the
    fill value: they are no longer missing for a reader of the file *)
Definition s003 : Qc := round64 (Q2Qc (3 # 100)).
Theorem C116_refuted : ~ C116_full.
Proof.
  intro H. specialize (H VF8 s003 0). assert (S : sane s003 0).
  { unfold sane. split; [vm_compute; discriminate|]. split; [apply Qc_is_canon; vm_compute; reflexivity|]. split; [apply Qc_is_canon; vm_compute; reflexivity|]. split; [vm_compute; discriminate|]. split; vm_compute; discriminate. }
  specialize (H S). apply (f_equal (fun x => neqb x (Fin (fillval VF8)))) in H. vm_compute in H. discriminate H.
Qed.
Print Assumptions C116_refuted.
Example C116_nonvacuous : sane (Q2Qc (1 # 4)) (ZQ 273) /\ round64 (ZQ 15 * Q2Qc (1 # 4)) = ZQ 15 * Q2Qc (1 # 4) /\ sane s003 (ZQ 20) /\
  neqb (nc_store VI4 s003 (ZQ 20) (nc_missing VI4 s003 (ZQ 20))) (nint (-2147483647)) = true.
Proof.
  split; [|split; [apply Qc_is_canon; vm_compute; reflexivity|split; [|vm_compute; reflexivity]]];
  (split; [vm_compute; discriminate|]; split; [apply Qc_is_canon; vm_compute; reflexivity|]; split; [apply Qc_is_canon; vm_compute; reflexivity|]; split; [vm_compute; discriminate|]; split; vm_compute; discriminate).
Qed.

(** ** C117: the precision of netCDF output *)
(** what a reader computes (exactly) from the number stored: [p * s + o] *)
Definition unpacked (p s o : Qc) : Qc := p * s + o.
Theorem C117_values : forall f s o v, sane s o -> round64 v = v -> size (v - o) <= size s * ZQ (2 ^ 120) ->
  exists p, nc_store f s o (Fin v) = Fin p /\
    let err := size (unpacked p s o - v) in
    (f = VF8 -> err <= size (v - o) * Q2Qc (1 # 2 ^ 51) + size s * Q2Qc (1 # 2 ^ 1074)) /\
    (f = VF4 -> err <= size (v - o) * (Q2Qc (1 # 2 ^ 24) + Q2Qc (1 # 2 ^ 50)) + size s * Q2Qc (1 # 2 ^ 149)) /\
    (In f int_fmts -> integral p /\ err <= size s * Q2Qc (1 # 2) + size (v - o) * Q2Qc (1 # 2 ^ 51) + size s * Q2Qc (1 # 2 ^ 1074)).
Proof.
  intros f s o v H Hv Hr. destruct (sane_R s o H) as (H1 & H2 & H3 & H4 & H5 & H6). apply QR_le in Hr. rewrite QR_mul, !QR_size, QR_sub, QR_ZQ, <- bpow_pow2 in Hr by lia.
  assert (P : (0 < Rabs (QR s))%R) by (apply Rabs_pos_lt, QR_neq, H1). destruct u_val as (U1 & U2 & U3).
  assert (E : fdiv (fsub (Fin v) (Fin o)) (Fin s) = Fin (packed v o s)).
  { apply (fdiv_fsub _ _ _ 700); [exact H1|exact Hv|exact H3|lia| |].
    - apply Rle_trans with (1 := Hr). apply Rle_trans with (bpow radix2 500 * bpow radix2 120)%R; [apply Rmult_le_compat_r; [apply bpow_ge_0|exact H5]|]. rewrite <- bpow_plus. apply bpow_le. lia.
    - apply Rle_trans with (1 := Hr). rewrite Rmult_comm. apply Rmult_le_compat_r; [lra|apply bpow_le; lia]. }
  pose proof (packed_err v o s H1 Hv H3) as B. set (q := packed v o s) in *. clearbody q.
  assert (U4 : (3 * u64 <= / IZR (2 ^ 51))%R).
  { apply Rmult_le_reg_r with (IZR (2 ^ 51)); [apply IZR_lt; vm_compute; reflexivity|]. rewrite Rinv_l by (apply not_0_IZR; vm_compute; discriminate). apply Rmult_le_reg_r with 4%R; [lra|].
    replace (3 * u64 * IZR (2 ^ 51) * 4)%R with (3 * (u64 * (IZR (2 ^ 51) * 4)))%R by ring. replace (IZR (2 ^ 51) * 4)%R with 9007199254740992%R by (rewrite <- mult_IZR; reflexivity). rewrite U3. lra. }
  assert (Et : (eta64 <= / IZR (2 ^ 1074))%R) by (rewrite <- bpow_pow2, <- bpow_opp by lia; apply eta_small; lia).
  assert (Pv := Rabs_pos (QR v - QR o)).
  assert (B' : (Rabs (QR q * QR s + QR o - QR v) <= Rabs (QR v - QR o) * / IZR (2 ^ 51) + Rabs (QR s) * / IZR (2 ^ 1074))%R).
  { apply Rle_trans with (1 := B). apply Rplus_le_compat; apply Rmult_le_compat_l; lra. }
  assert (Q8 : size (unpacked q s o - v) <= size (v - o) * Q2Qc (1 # 2 ^ 51) + size s * Q2Qc (1 # 2 ^ 1074)).
  { apply QR_le. unfold unpacked. rewrite QR_add, !QR_mul, !QR_size, !QR_sub, QR_add, QR_mul, !QR_inv2. exact B'. }
  (* the size of the packed value *)
  assert (Bq : (Rabs (QR q) <= bpow radix2 121)%R).
  { apply Rmult_le_reg_r with (Rabs (QR s)); [exact P|]. rewrite <- Rabs_mult. replace (QR q * QR s)%R with ((QR q * QR s + QR o - QR v) + (QR v - QR o))%R by ring.
    apply Rle_trans with (1 := Rabs_triang _ _). change 121%Z with (1 + 120)%Z. rewrite bpow_plus. change (bpow radix2 1) with 2%R.
    assert (X1 : (Rabs (QR v - QR o) * / IZR (2 ^ 51) <= Rabs (QR v - QR o) * / 4)%R) by (apply Rmult_le_compat_l; [exact Pv|apply Rinv_le; [lra|apply IZR_le; vm_compute; discriminate]]).
    assert (X2 : (Rabs (QR s) * / IZR (2 ^ 1074) <= Rabs (QR s) * (bpow radix2 120 * / 4))%R).
    { apply Rmult_le_compat_l; [lra|]. rewrite bpow_pow2 by lia. apply Rle_trans with (/ 1)%R; [apply Rinv_le; [lra|apply IZR_le; vm_compute; discriminate]|]. rewrite Rinv_1.
      apply Rmult_le_reg_r with 4%R; [lra|]. rewrite Rmult_assoc, Rinv_l by lra. rewrite Rmult_1_l, Rmult_1_r. apply IZR_le. vm_compute. discriminate. }
    lra. }
  unfold nc_store. rewrite E. clear E.
  assert (HI : Fin (ZQ (around q)) = Fin (ZQ (around q)) -> integral (ZQ (around q)) /\ size (unpacked (ZQ (around q)) s o - v) <= size s * Q2Qc (1 # 2) + size (v - o) * Q2Qc (1 # 2 ^ 51) + size s * Q2Qc (1 # 2 ^ 1074)).
  { intros _. split; [eexists; reflexivity|]. apply QR_le. unfold unpacked. rewrite !QR_add, !QR_mul, !QR_size, !QR_sub, QR_add, QR_mul, !QR_inv2.
    destruct (around_close q) as [A1 A2]. apply QR_le in A1, A2. rewrite QR_sub in A1. rewrite QR_add in A2. assert (Hh : QR half = (/ 2)%R) by (unfold half; apply QR_inv2). rewrite Hh in *.
    replace (QR (ZQ (around q)) * QR s + QR o - QR v)%R with (QR s * (QR (ZQ (around q)) - QR q) + (QR q * QR s + QR o - QR v))%R by ring.
    apply Rle_trans with (1 := Rabs_triang _ _). rewrite Rabs_mult. rewrite Rplus_assoc. apply Rplus_le_compat; [|exact B'].
    apply Rmult_le_compat_l; [lra|]. apply Rabs_le. change (IZR 2) with 2%R. lra. }
  assert (HI' : In VF4 int_fmts -> False) by (intros [X|[X|[X|[]]]]; discriminate X). assert (HI'' : In VF8 int_fmts -> False) by (intros [X|[X|[X|[]]]]; discriminate X).
  destruct f.
  1-3: exists (ZQ (around q)); split; [reflexivity|]; cbv zeta; split; [discriminate|]; split; [discriminate|]; intros _; exact (HI eq_refl).
  - assert (Sq : size q <= ZQ (2 ^ 127)).
    { apply QR_le. rewrite QR_size, QR_ZQ, <- bpow_pow2 by lia. apply Rle_trans with (1 := Bq), bpow_le. lia. }
    rewrite (to_single_fin q Sq). exists (round32 q). split; [reflexivity|]. cbv zeta. split; [discriminate|]. split; [|intro X; destruct (HI' X)]. intros _.
    apply QR_le. unfold unpacked. rewrite QR_add, !QR_mul, !QR_size, !QR_sub, !QR_add, QR_mul, !QR_inv2.
    destruct (round32_err q) as (d & e & Hd & He & ->). set (Y := (QR q * QR s + QR o - QR v)%R) in *.
    replace ((QR q * (1 + d) + e) * QR s + QR o - QR v)%R with (Y + (Y + (QR v - QR o)) * d + QR s * e)%R by (unfold Y; ring).
    apply Rle_trans with (1 := Rabs_triang _ _). rewrite (Rabs_mult (QR s)).
    apply Rle_trans with (Rabs Y + Rabs ((Y + (QR v - QR o)) * d) + Rabs (QR s) * Rabs e)%R; [apply Rplus_le_compat_r, Rabs_triang|]. rewrite Rabs_mult.
    assert (Y1 : (Rabs (Y + (QR v - QR o)) * Rabs d <= (Rabs Y + Rabs (QR v - QR o)) * bpow radix2 (-24))%R) by (apply Rmult_le_compat; try apply Rabs_pos; [apply Rabs_triang|exact Hd]).
    assert (Y2 : (Rabs (QR s) * Rabs e <= Rabs (QR s) * bpow radix2 (-150))%R) by (apply Rmult_le_compat_l; [lra|exact He]).
    assert (C24 : bpow radix2 (-24) = (/ IZR (2 ^ 24))%R) by reflexivity. rewrite C24 in Y1.
    assert (C150 : (bpow radix2 (-150) + 2 * / IZR (2 ^ 1074) <= / IZR (2 ^ 149))%R).
    { rewrite <- !bpow_pow2, <- !bpow_opp by lia. replace (bpow radix2 (- (149))) with (2 * bpow radix2 (-150))%R by (change 2%R with (bpow radix2 1); rewrite <- bpow_plus; reflexivity).
      assert (bpow radix2 (- (1074)) <= bpow radix2 (-151))%R by (apply bpow_le; lia). replace (bpow radix2 (-150)) with (2 * bpow radix2 (-151))%R in * by (change 2%R with (bpow radix2 1); rewrite <- bpow_plus; reflexivity). lra. }
    assert (C50 : (/ IZR (2 ^ 50) = 2 * / IZR (2 ^ 51))%R) by (replace (IZR (2 ^ 51)) with (2 * IZR (2 ^ 50))%R by (rewrite <- mult_IZR; reflexivity); field; apply not_0_IZR; vm_compute; discriminate).
    assert (C1 : (0 < / IZR (2 ^ 24) <= 1)%R) by (split; [apply Rinv_0_lt_compat, IZR_lt; vm_compute; reflexivity|rewrite <- Rinv_1; apply Rinv_le; [lra|apply IZR_le; vm_compute; discriminate]]).
    assert (Y3 : (Rabs Y * / IZR (2 ^ 24) <= Rabs Y * 1)%R) by (apply Rmult_le_compat_l; [apply Rabs_pos|apply C1]).
    assert (Y4 : (Rabs (QR s) * (bpow radix2 (-150) + 2 * / IZR (2 ^ 1074)) <= Rabs (QR s) * / IZR (2 ^ 149))%R) by (apply Rmult_le_compat_l; [lra|exact C150]).
    apply Rle_trans with (Rabs (QR v - QR o) * (/ IZR (2 ^ 24) + 2 * / IZR (2 ^ 51)) + Rabs (QR s) * / IZR (2 ^ 149))%R; [clear - Y1 Y2 Y3 Y4 B'; lra|].
    rewrite <- C50. exact (Rle_refl _).
  - exists q. split; [reflexivity|]. cbv zeta. split; [intros _; exact Q8|]. split; [discriminate|intro X; destruct (HI'' X)].
Qed.
Print Assumptions C117_values.
(** the default, scale factor 1 and offset 0 in double precision: the value
    itself *)
Theorem C117_default : forall v, round64 v = v -> size v <= ZQ (2 ^ 1000) -> nc_store VF8 1 0 (Fin v) = Fin v.
Proof.
  intros v Hv Hs. apply QR_le in Hs. rewrite QR_size, QR_ZQ, <- bpow_pow2 in Hs by lia. unfold nc_store, fsub. cbn [nsub nadd nopp].
  replace (v + - 0) with v by ring. rewrite (nround_small v 1000); [|lia|exact Hs]. rewrite Hv. unfold fdiv. cbn [ndiv]. change (Qc_eqb 1 0) with false.
  replace (v / 1) with v by (field; discriminate). rewrite (nround_small v 1000); [|lia|exact Hs]. now rewrite Hv.
Qed.
Print Assumptions C117_default.
(** with a scale factor double precision is not exact either *)
Theorem C117_exact_refuted : ~ forall s o v p, sane s o -> round64 v = v -> nc_store VF8 s o (Fin v) = Fin p -> unpacked p s o = v.
Proof.
  intro H. specialize (H s003 0 (ZQ 25)).
  assert (X : match nc_store VF8 s003 0 (Fin (ZQ 25)) with Fin p => Qc_eqb (unpacked p s003 0) (ZQ 25) | _ => true end = false) by (vm_compute; reflexivity).
  destruct (nc_store VF8 s003 0 (Fin (ZQ 25))) as [p| | |]; try discriminate X.
  specialize (H p). rewrite H in X; [|split; [vm_compute; discriminate|]; split; [apply Qc_is_canon; vm_compute; reflexivity|]; split; [apply Qc_is_canon; vm_compute; reflexivity|]; split; [vm_compute; discriminate|]; split; vm_compute; discriminate|apply Qc_is_canon; vm_compute; reflexivity|reflexivity].
  rewrite (proj2 (Qc_eqb_spec _ _) eq_refl) in X. discriminate X.
Qed.
Print Assumptions C117_exact_refuted.
Example C117_nonvacuous : sane s003 (ZQ 20) /\ round64 (ZQ 25) = ZQ 25 /\ size (ZQ 25 - ZQ 20) <= size s003 * ZQ (2 ^ 120) /\ neqb (nc_store VI2 s003 (ZQ 20) (nint 25)) (nint 167) = true.
Proof.
  split; [split; [vm_compute; discriminate|]; split; [apply Qc_is_canon; vm_compute; reflexivity|]; split; [apply Qc_is_canon; vm_compute; reflexivity|]; split; [vm_compute; discriminate|]; split; vm_compute; discriminate|].
  split; [apply Qc_is_canon; vm_compute; reflexivity|]. split; vm_compute; [discriminate|reflexivity].
Qed.
