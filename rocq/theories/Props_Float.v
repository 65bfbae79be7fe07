(** * Properties C109-C111: aggregation in double precision
    (Float64.v, AggregatorWith.v). Vocabulary: Spec_Float.v, Spec_Aggregation.v. *)
From Coq Require Import Lia List Qcabs.
From Coq Require Rdefinitions Qreals.
From Flocq Require FLT Round_NE Generic_fmt Zaux.
From Verif Require Import Base Num Float64 Aggregator AggregatorWith Spec_Aggregation Spec_Float
  Base_P Num_P Aggregator_P Aggregator_P4 AggregatorWith_P AggregatorWith_P2 AggregatorWith_P3 Float64_P Float_Agg_P Float_Agg_P2 Float_Over_P Props_Aggregation.
Local Open Scope string_scope.
Local Open Scope Z_scope.

(** the rounding used is that of IEEE 754, as defined in Flocq *)
Theorem C109_ieee : forall q,
  Rdefinitions.Q2R (round64 q) = Generic_fmt.round Zaux.radix2 (FLT.FLT_exp (-1074) 53) Round_NE.ZnearestE (Rdefinitions.Q2R q).
Proof. exact round64_ieee. Qed.
Print Assumptions C109_ieee.

(** results from 2^1024 - 2^970 on are infinite, no others *)
Theorem C109_overflow : forall q, (nround (Fin q) = PInf <-> ZQ (2 ^ 1024) - ZQ (2 ^ 970) <= q)%Qc /\
  (nround (Fin q) = MInf <-> q <= - (ZQ (2 ^ 1024) - ZQ (2 ^ 970)))%Qc.
Proof. exact nround_inf. Qed.
Print Assumptions C109_overflow.

(** ** C109: rounding never changes the windows, the sizes, the masks or the error *)
Theorem C109_form : forall g values, same_outcome same_windows (do_manipulation g values) (do_manipulation64 g values).
Proof. intros. exact (form_with nadd nsub nmul ndiv fadd fsub fmul fdiv g values). Qed.
Print Assumptions C109_form.

Lemma cells_cell values n t c i : same_size values n -> has_field values t c -> (i < n)%nat -> exists x, nth_error (adata c) i = Some x /\ In x (adata c).
Proof.
  intros Hn [k [Hk _]] Hi. destruct (Hn _ _ Hk) as [Hz _]. unfold asize in Hz.
  destruct (nth_error (adata c) i) as [x|] eqn:E; [|apply nth_error_None in E; lia]. exists x. split; [reflexivity|]. now apply nth_error_In in E.
Qed.
Lemma double_cell values t c i x : double_fields values -> has_field values t c -> cell c i x -> round64 x = x /\ (Qcabs x <= ZQ (2 ^ 900))%Qc.
Proof.
  intros Hd [k [Hk _]] Hc. apply nth_error_In in Hc. destruct (Hd _ _ Hk _ Hc) as [q [E H]]. injection E as ->. exact H.
Qed.

(** extraction of steps is exact *)
Theorem C109_extraction : forall stype input unit s half force start end_ sec values,
  let g := aggr_init stype input unit s "instantaneous" half force start end_ sec in
  double_fields values -> do_manipulation64 g values = do_manipulation g values.
Proof.
  intros stype input unit s half force start end_ sec values g Hd. unfold do_manipulation64, do_manipulation_with, do_manipulation.
  change (a_type g) with "instantaneous".
  destruct (String.eqb_spec "instantaneous" "accumulation") as [E|_]; [discriminate E|].
  destruct (String.eqb_spec "instantaneous" "average") as [E|_]; [discriminate E|]. rewrite String.eqb_refl.
  unfold instantaneous_with, instantaneous. destruct (String.eqb _ _); [reflexivity|].
  destruct (first_entry values) as [[k0 a0]|e]; [|reflexivity]. cbn [rbind].
  destruct (py_range _ _ _) as [its|e]; [|reflexivity]. cbn [rbind].
  assert (Hz : forall n t c, dgetx Z.eqb (by_end_step values) t = Ok c -> ew2 fadd (zeros n) (adata c) = ew2 nadd (zeros n) (adata c)).
  { intros n t c Hc. unfold dgetx in Hc. destruct (dget Z.eqb (by_end_step values) t) as [c'|] eqn:E; [|discriminate]. injection Hc as ->.
    apply by_end_step_get_weak in E as [k [Hk _]]. unfold ew2. destruct (Nat.eqb _ _); [|reflexivity]. f_equal.
    pose proof (Hd k c Hk) as Hq. clear -Hq. revert n. induction (adata c) as [|x d IH]; intro n; destruct n as [|n]; cbn [zeros repeat zipw]; try reflexivity.
    f_equal.
    - destruct (Hq x (or_introl eq_refl)) as [q [-> [Hr Hb]]]. unfold fadd. change (nadd (Fin 0) (Fin q)) with (Fin (0 + q)%Qc).
      replace (0 + q)%Qc with q by ring. rewrite (nround_small q 900); [now rewrite Hr|lia|].
      apply QR_le in Hb. rewrite QR_abs, QR_ZQ, <- bpow_pow2 in Hb by lia. exact Hb.
    - apply IH. intros y Hy. apply Hq. right. exact Hy. }
  apply foldM_ext. intros out x. unfold inst_body_with, inst_body.
  destruct (zmem x _); [|destruct (x =? 0); [reflexivity|]].
  - destruct (dgetx Z.eqb (by_end_step values) x) as [c|e] eqn:E; cbn [rbind]; [|reflexivity]. now rewrite (Hz _ _ _ E).
  - destruct (py_index _ _) as [y|e]; cbn [rbind]; [|reflexivity].
    destruct (dgetx Z.eqb (by_end_step values) y) as [c|e] eqn:E; cbn [rbind]; [|reflexivity]. now rewrite (Hz _ _ _ E).
Qed.
Print Assumptions C109_extraction.

(** ** C110: accumulations *)
Theorem C110_accumulation : forall stype input unit s half force start end_ sec values n out,
  let g := aggr_init stype input unit s "accumulation" half force start end_ sec in
  1 <= s <= 2 ^ 53 -> 0 <= unit <= 2 ^ 53 -> 0 <= start -> one_per_step values -> same_size values n -> double_fields values ->
  do_manipulation64 g values = Ok out ->
  forall k a, In (k, a) out -> forall c i x y, has_field values (s_end k) c -> cell c i x -> start_value values force (s_start k) i y ->
  exists r, cell a i r /\
    ((y <= x)%Qc -> (0 <= r)%Qc) /\ ((x <= y)%Qc -> (r <= 0)%Qc) /\
    close_to 51 1073 r ((x - y) * ZQ unit / ZQ s)%Qc.
Proof.
  intros stype input unit s half force start end_ sec values n out g Hs Hu Hst Hone Hn Hd H k a Hin c i x y Hc Hx Hy.
  destruct (accumulation_cells fadd fsub fmul fdiv stype input unit s half force start end_ sec values out ltac:(lia) Hst H) as [k0 [a0 [rest [Ev Hcells]]]].
  destruct (Hcells k a Hin) as [_ Ha].
  assert (Ez : asize a0 = n) by (apply (Hn k0 a0); rewrite Ev; left; reflexivity).
  assert (Hp : exists p, start_field values (asize a0) force (s_start k) p /\ nth_error (adata p) i = Some (Fin y) /\ round64 y = y /\ (Qcabs y <= ZQ (2 ^ 900))%Qc).
  { unfold start_field. destruct Hy as [[E0 [Hz ->]]|[Hn0 [p [Hp Hcp]]]].
    - exists (Nd (zeros (asize a0))). split.
      + rewrite E0. cbn [Z.eqb andb]. assert (Eb : force || negb (zmem 0 (dkeys (by_end_step values))) = true).
        { destruct Hz as [-> |Hz]; [reflexivity|]. apply Bool.orb_true_iff. right. apply Bool.negb_true_iff, zmem_nIn. intro G. apply Hz, by_end_step_mem, G. }
        rewrite Eb. reflexivity.
      + split; [|split; [exact round64_0|vm_compute; discriminate]]. cbn [adata]. unfold zeros. apply nth_error_repeat.
        assert (nth_error (adata c) i <> None) by (unfold cell in Hx; congruence). apply nth_error_Some in H0.
        destruct Hc as [kc [Hkc _]]. destruct (Hn _ _ Hkc) as [Hzc _]. unfold asize in Hzc. unfold asize in Ez |- *. lia.
    - exists p. destruct (double_cell values _ p i y Hd Hp Hcp) as [D1 D2]. split; [|split; [exact Hcp|split; assumption]].
      destruct ((s_start k =? 0) && (force || negb (zmem 0 (dkeys (by_end_step values))))) eqn:E.
      + exfalso. apply Hn0. apply andb_prop in E as [E1 E2]. apply Z.eqb_eq in E1. split; [exact E1|].
        apply Bool.orb_true_iff in E2 as [E2|E2]; [left; exact E2|right]. apply Bool.negb_true_iff, zmem_nIn in E2.
        intro G. apply E2, by_end_step_mem, G.
      + apply by_end_step_get; assumption. }
  destruct Hp as [p [Hp [Hpy [Ry By]]]].
  pose proof (Ha c p (proj2 (by_end_step_get values _ c Hone) Hc) Hp) as Ho.
  destruct (double_cell values _ c i x Hd Hc Hx) as [Rx Bx].
  destruct (acc_cell64 x y unit s Rx Ry Bx By Hu Hs) as [r [Er [S1 [S2 S3]]]].
  exists r. split; [|split; [exact S1|split; [exact S2|exact S3]]].
  unfold acc_out_with in Ho. apply rbind_ok in Ho as [vi [H1 Ho]]. apply rbind_ok in Ho as [df [H2 Ho]]. injection Ho as <-.
  apply ew2_inv in H1 as [L1 ->]. apply ew2_inv in H2 as [L2 ->].
  unfold cell. replace (adata (masked_where _ _)) with (map (fun x => fdiv (fmul x (nint unit)) (nint s)) (zipw fsub (zipw fadd (zeros (asize a0)) (adata c)) (adata p)))
    by (unfold masked_where; destruct (get_masks _) as [l|]; [destruct (existsb _ l)|]; reflexivity).
  rewrite nth_error_map.
  assert (Hz0 : nth_error (zeros (asize a0)) i = Some (Fin 0)).
  { unfold zeros. apply nth_error_repeat. assert (nth_error (adata c) i <> None) by (unfold cell in Hx; congruence). apply nth_error_Some in H0.
    unfold zeros in L1. rewrite repeat_length in L1. lia. }
  rewrite (nth_error_zipw fsub _ _ i (fadd (Fin 0) (Fin x)) (Fin y)); [cbn [option_map]; now rewrite Er|apply (nth_error_zipw fadd _ _ i (Fin 0) (Fin x)); assumption|exact Hpy].
Qed.
Print Assumptions C110_accumulation.

(** six-hourly rain with cells that are not short binary fractions *)
Definition tenth (z : Z) : num := Fin (round64 (ZQ z / ZQ 10)%Qc).
Definition drain : fields :=
  [(st 0, Nd [tenth 1; tenth 0]); (st 6, Nd [tenth 3; tenth 0]); (st 12, Nd [tenth 3; tenth 11]); (st 18, Nd [tenth 7; tenth 13])].
Lemma drain_double : double_fields drain.
Proof.
  intros k a H x Hx. in_cases H; cbn in Hx; repeat (destruct Hx as [<-|Hx]; [eexists; split; [reflexivity|split; [apply round64_idem|vm_compute; discriminate]]|]); destruct Hx.
Qed.
Example C110_nonvacuous : one_per_step drain /\ same_size drain 2 /\ double_fields drain /\
  exists out, do_manipulation64 (aggr_init "accum" 6 24 6 "accumulation" false false 0 18 false) drain = Ok out /\ List.length out = 3%nat /\
  (* the second window of the first cell is exactly zero *)
  nth_error (map (fun kv => nth_error (adata (snd kv)) 0) out) 1 = Some (Some (Fin 0)).
Proof.
  split; [show_nodup|]. split; [show_size|]. split; [exact drain_double|].
  eexists. split; [vm_compute; reflexivity|]. split; [reflexivity|]. vm_compute. do 3 f_equal. apply Qc_is_canon. reflexivity.
Qed.

(** ** C111: averages *)
(** the mean of values lies between them (false: the sum of three times 0.1,
    divided by 3, is more than 0.1) *)
Definition C111_exact : Prop := forall stype input unit s force start end_ sec values n out,
  let g := aggr_init stype input unit s "average" false force start end_ sec in
  0 < s -> one_per_step values -> same_size values n -> double_fields values ->
  do_manipulation64 g values = Ok out ->
  forall k a, In (k, a) out -> forall i xs lo hi, Forall2 (fun t x => backfill values t i x) (unit_steps (s_start k) s) xs ->
    Forall (fun x => (lo <= x <= hi)%Qc) xs -> exists r, cell a i r /\ (lo <= r <= hi)%Qc.

Definition const_series : fields := [(st 1, Nd (tenth 1 :: nil)%list); (st 2, Nd (tenth 1 :: nil)%list); (st 3, Nd (tenth 1 :: nil)%list)].
Theorem C111_exact_refuted : ~ C111_exact.
Proof.
  intro F.
  assert (Hd : double_fields const_series).
  { intros k a H x Hx. in_cases H; cbn in Hx; repeat (destruct Hx as [<-|Hx]; [eexists; split; [reflexivity|split; [apply round64_idem|vm_compute; discriminate]]|]); destruct Hx. }
  assert (Ho : exists out a, do_manipulation64 (aggr_init "instant" 1 24 3 "average" false false 0 3 false) const_series = Ok out /\
    In (mkStep 0 3 1 3 0, a) out /\ adata a = (fdiv (fadd (fadd (fadd (Fin 0) (tenth 1)) (tenth 1)) (tenth 1)) (nint 3) :: nil)%list).
  { eexists. eexists. split; [vm_compute; reflexivity|]. split; [left; reflexivity|]. cbn [adata]. vm_compute. do 2 f_equal. }
  destruct Ho as [out [a [Ho [Hin Ea]]]].
  set (q := round64 (ZQ 1 / ZQ 10)%Qc).
  destruct (F "instant" 1 24 3 false 0 3 false const_series 1%nat out ltac:(lia) ltac:(show_nodup) ltac:(show_size) Hd Ho _ a Hin 0%nat [q; q; q] q q) as [r [Hr [_ Hle]]].
  - change (unit_steps (s_start (mkStep 0 3 1 3 0)) 3) with [1; 2; 3].
    assert (Hb : forall t, t = 1 \/ t = 2 \/ t = 3 -> backfill const_series t 0 q).
    { intros t Ht. exists t, (Nd (tenth 1 :: nil)%list). split; [split; [|split; [lia|auto]]|split; [|reflexivity]].
      - apply avail_iff. cbn. lia.
      - exists (st t). split; [|reflexivity]. destruct Ht as [-> |[-> | ->]]; cbn [const_series In]; [left|right; left|right; right; left]; reflexivity. }
    repeat constructor; apply Hb; lia.
  - repeat constructor; apply Qcle_refl.
  - unfold cell in Hr. rewrite Ea in Hr. cbn [nth_error] in Hr.
    apply (f_equal (fun o => match o with Some x => x | None => NaN end)) in Hr. cbv beta iota in Hr.
    assert (Hx : nltb (Fin q) (fdiv (fadd (fadd (fadd (Fin 0) (tenth 1)) (tenth 1)) (tenth 1)) (nint 3)) = true) by (vm_compute; reflexivity).
    rewrite Hr in Hx. cbn [nltb] in Hx. unfold Qc_ltb in Hx. destruct (Qclt_le_dec q r) as [G|G]; [|discriminate]. exact (Qclt_not_le _ _ G Hle).
Qed.
Print Assumptions C111_exact_refuted.

(** an average is the mean up to 2^-52 of the sum of the absolute values; it is
    not negative if the values are not *)
Theorem C111_average : forall stype input unit s force start end_ sec values n out,
  let g := aggr_init stype input unit s "average" false force start end_ sec in
  1 <= s <= 2 ^ 20 -> one_per_step values -> same_size values n -> double_fields values ->
  do_manipulation64 g values = Ok out ->
  forall k a, In (k, a) out -> forall i xs, Forall2 (fun t x => backfill values t i x) (unit_steps (s_start k) s) xs ->
  exists r, cell a i r /\
    (Forall (fun x => (0 <= x)%Qc) xs -> (0 <= r)%Qc) /\
    (Qcabs (r - Qsum xs / ZQ s) <= / ZQ (2 ^ 52) * Qsum (map Qcabs xs) + / ZQ (2 ^ 1074))%Qc.
Proof.
  intros stype input unit s force start end_ sec values n out g Hs Hone Hn Hd H k a Hin i xs Hxs.
  destruct (average_cells fadd fsub fmul fdiv stype input unit s force start end_ sec values out ltac:(lia) H) as [k0 [a0 [rest [Ev Hcells]]]].
  pose proof (unit_steps_length (s_start k) s ltac:(lia)) as Hl.
  assert (Hlx : List.length (unit_steps (s_start k) s) = List.length xs) by (clear -Hxs; induction Hxs; cbn [List.length]; congruence).
  assert (HF : Forall (fun x => round64 x = x /\ (Qcabs x <= ZQ (2 ^ 900))%Qc) xs).
  { clear -Hxs Hd. induction Hxs as [|t x ts xs [u [c [_ [Hc Hx]]]] _ IH]; constructor; [|exact IH]. now apply (double_cell values u c i). }
  destruct (mean64 xs (unit_steps (s_start k) s)) as [r [Er [R1 R2]]].
  { intro E. subst xs. cbn [List.length] in Hlx. lia. }
  { exact Hlx. }
  { lia. }
  { exact HF. }
  exists r. split; [|split; [exact R1|]].
  - unfold cell. rewrite <- Er. apply (Hcells k a Hin i (map Fin xs)).
    + clear -Hxs Hone. induction Hxs as [|t x ts xs [u [c [Hu [Hc Hx]]]] _ IH]; cbn [map]; constructor; [|exact IH].
      exists c. split; [now apply (avg_pick_ok values t u)|exact Hx].
    + assert (Ez : asize a0 = n) by (apply (Hn k0 a0); rewrite Ev; left; reflexivity). rewrite Ez.
      destruct Hxs as [|t x ts xs [u [c [_ [[kc [Hkc _]] Hx]]]] _]; [cbn [List.length] in Hl; lia|].
      destruct (Hn _ _ Hkc) as [<- _]. unfold asize. apply nth_error_Some. unfold cell in Hx. congruence.
  - replace s with (Z.of_nat (List.length xs)) by lia. exact R2.
Qed.
Print Assumptions C111_average.
Example C111_nonvacuous : one_per_step const_series /\ same_size const_series 1 /\ double_fields const_series /\
  exists out, do_manipulation64 (aggr_init "instant" 1 24 3 "average" false false 0 3 false) const_series = Ok out /\ List.length out = 1%nat.
Proof.
  split; [show_nodup|]. split; [show_size|]. split.
  { intros k a H x Hx. in_cases H; cbn in Hx; repeat (destruct Hx as [<-|Hx]; [eexists; split; [reflexivity|split; [apply round64_idem|vm_compute; discriminate]]|]); destruct Hx. }
  eexists. split; [vm_compute; reflexivity|reflexivity].
Qed.
Example C109_nonvacuous : exists out, do_manipulation64 (aggr_init "accum" 6 24 6 "accumulation" false false 0 24 false) rain_gap = Ok out /\ List.length out = 4%nat.
Proof. eexists. split; [vm_compute; reflexivity|reflexivity]. Qed.
