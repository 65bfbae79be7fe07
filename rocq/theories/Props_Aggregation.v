(** * Properties C01-C16 of aggregation (src/pyg2p/main/manipulation/aggregator.py).
    Vocabulary: Spec_Aggregation.v. Proofs: Aggregator_P*.v. *)
From Verif Require Import Base Num Aggregator Spec_Aggregation
  Base_P Num_P Aggregator_P Aggregator_P2 Aggregator_P3 Aggregator_P4 Aggregator_P5 Aggregator_P6 Aggregator_P7.
Local Open Scope Z_scope.

(** ** sample data for the non-vacuity examples *)
Definition fld (l : list Z) : arr := Nd (map nint l).
Definition mfld (l : list Z) (m : list bool) : arr := Ma (map nint l) (Some m).
Definition st (t : Z) : step := mkStep 0 t 1 6 0.
(** cumulated rain of two cells at steps 0, 6, 12, 18, 24 *)
Definition rain : fields :=
  [(st 0, fld [1; 0]); (st 6, fld [3; 4]); (st 12, fld [3; 10]); (st 18, fld [7; 12]); (st 24, fld [9; 30])].
Definition rain_gap : fields :=
  [(st 0, fld [1; 0]); (st 6, fld [3; 4]); (st 18, fld [7; 12]); (st 24, fld [9; 30])].
Definition rain_no0 : fields := [(st 6, fld [3; 4]); (st 12, fld [3; 10]); (st 18, fld [7; 12])].

Ltac in_cases H := repeat (destruct H as [H|H]; [try (injection H as <- <-)|]); try destruct H.
Ltac show_nodup := repeat constructor; cbn; intuition discriminate.
Ltac show_size := let H := fresh "Hsz" in intros ? ? H; in_cases H; split; try reflexivity; exact I.
Ltac show_finite := let H := fresh "Hfi" in intros ? ? H; in_cases H; intros x Hx; cbn in Hx; intuition (subst; unfold nint; eauto).
Ltac show_available :=
  match goal with |- available ?v ?t => let v' := eval unfold v in v in
    eexists; eexists; split; [|reflexivity]; cbn; intuition reflexivity end.
Ltac show_ok := match goal with |- exists out, ?r = Ok out =>
  let E := fresh in destruct r eqn:E; [eauto|exfalso; vm_compute in E; discriminate] end.
(** [available values t] for a concrete series *)
Lemma avail_iff values t : available values t <-> In t (map (fun kv => s_end (fst kv)) values).
Proof.
  split.
  - intros [a [k [H <-]]]. apply in_map_iff. exists (k, a). auto.
  - intro H. apply in_map_iff in H as [[k a] [<- H]]. exists a, k. auto.
Qed.
Ltac show_field k := exists k; split; [unfold rain, rain_gap, rain_no0; repeat (try (left; reflexivity); right)|reflexivity].
Ltac show_avail := apply avail_iff; cbn; lia.
Lemma rain_one : one_per_step rain. Proof. show_nodup. Qed.
Lemma rain_size : same_size rain 2. Proof. show_size. Qed.
Lemma rain_finite : finite_fields rain. Proof. show_finite. Qed.
Lemma rain_gap_one : one_per_step rain_gap. Proof. show_nodup. Qed.
Lemma rain_gap_size : same_size rain_gap 2. Proof. show_size. Qed.
Lemma rain_gap_finite : finite_fields rain_gap. Proof. show_finite. Qed.
Lemma rain_no0_one : one_per_step rain_no0. Proof. show_nodup. Qed.
Lemma rain_no0_size : same_size rain_no0 2. Proof. show_size. Qed.

(** ** C01 *)
Theorem C01_accumulation_complete : forall stype input unit s half start end_ sec values n,
  let g := aggr_init stype input unit s "accumulation" half false start end_ sec in
  let first := first_window start s in
  values <> [] -> 0 < s -> one_per_step values -> same_size values n ->
  (forall t, on_grid first end_ s t -> available values t /\ available values (t - s)) ->
  exists out k0 a0 rest,
    values = (k0, a0) :: rest /\
    do_manipulation g values = Ok out /\
    NoDup (map fst out) /\
    (forall k, In k (map fst out) <->
       exists t, on_grid first end_ s t /\ k = mkStep (t - s) t (s_res k0) s (s_level k0)) /\
    (forall k a, In (k, a) out ->
       asize a = n /\
       forall ct cp i x y, has_field values (s_end k) ct -> has_field values (s_start k) cp ->
         cell ct i x -> cell cp i y -> cell a i ((x - y) * ZQ unit / ZQ s)%Qc).
Proof. exact accumulation_complete. Qed.
Print Assumptions C01_accumulation_complete.

Lemma rain_grid start t : start = 0 \/ start = 6 \/ start = 12 -> on_grid (first_window start 6) 24 6 t ->
  (t = 6 \/ t = 12 \/ t = 18 \/ t = 24) .
Proof. intros H [i [Hi [Ht Hle]]]. destruct H as [-> | [-> | ->]]; unfold first_window in Ht; cbn [Z.eqb] in Ht; lia. Qed.
Example C01_nonvacuous : rain <> [] /\ one_per_step rain /\ same_size rain 2 /\
  (forall t, on_grid (first_window 0 6) 24 6 t -> available rain t /\ available rain (t - 6)).
Proof.
  split; [discriminate|]. split; [exact rain_one|]. split; [exact rain_size|].
  intros t Ht. apply rain_grid in Ht; [|auto]. destruct Ht as [-> | [-> | [-> | ->]]]; split; show_avail.
Qed.

(** ** C02 *)
Theorem C02_accumulation_conserves : forall stype input unit s half force start end_ sec values n out tl,
  let g := aggr_init stype input unit s "accumulation" half force start end_ sec in
  let first := first_window start s in
  0 < s -> 0 <= start -> one_per_step values -> same_size values n -> finite_fields values ->
  (exists t1 t2, t1 <> t2 /\ available values t1 /\ available values t2) ->
  do_manipulation g values = Ok out ->
  on_grid first end_ s tl -> end_ < tl + s ->
  forall cl i xl x0, has_field values tl cl -> cell cl i xl ->
  (first = s /\ (force = true \/ ~ available values 0) /\ x0 = 0%Qc \/
   ~ (first = s /\ force = true) /\ exists cf, has_field values (first - s) cf /\ cell cf i x0) ->
  exists qs, map (fun kv => nth_error (adata (snd kv)) i) out = map (fun q => Some (Fin q)) qs /\
    (Qsum qs * ZQ s = (xl - x0) * ZQ unit)%Qc.
Proof. exact accumulation_conserves. Qed.
Print Assumptions C02_accumulation_conserves.

(** the hypotheses hold for a series with a missing step *)
Example C02_nonvacuous :
  (exists out, do_manipulation (aggr_init "accum" 6 24 6 "accumulation" false false 0 24 false) rain_gap = Ok out) /\
  on_grid (first_window 0 6) 24 6 24 /\ 24 < 24 + 6 /\
  has_field rain_gap 24 (fld [9; 30]) /\ cell (fld [9; 30]) 1 (ZQ 30) /\
  has_field rain_gap (first_window 0 6 - 6) (fld [1; 0]).
Proof.
  split; [show_ok|]. split; [exists 3; cbn; lia|]. split; [lia|].
  split; [show_field (st 24)|]. split; [reflexivity|]. show_field (st 0).
Qed.

(** ** C03 *)
Theorem C03_start_zero_is_first_window : forall stype input unit s half force end_ sec values,
  do_manipulation (aggr_init stype input unit s "accumulation" half force 0 end_ sec) values =
  do_manipulation (aggr_init stype input unit s "accumulation" half force s end_ sec) values.
Proof. exact accumulation_start0. Qed.
Print Assumptions C03_start_zero_is_first_window.
(** the same fields are read too *)
Theorem C03_same_read_window : forall stype input unit s type half force end_ sec, input <> 0 -> 0 <= s ->
  real_start_end (aggr_init stype input unit s type half force 0 end_ sec) =
  real_start_end (aggr_init stype input unit s type half force s end_ sec).
Proof. exact start0_window. Qed.
Print Assumptions C03_same_read_window.
Example C03_nonvacuous :
  exists out, do_manipulation (aggr_init "accum" 6 24 6 "accumulation" false false 0 24 false) rain = Ok out.
Proof. show_ok. Qed.

(** ** C04: full statement (refuted), and the part that holds *)
Definition C04_full : Prop := forall stype input unit s half start end_ sec values n,
  let g := aggr_init stype input unit s "accumulation" half false start end_ sec in
  let first := first_window start s in
  0 < s -> 0 <= start -> one_per_step values -> same_size values n ->
  (forall t, on_grid (first - s) end_ s t -> available values t \/ exists lo hi, gap values lo t hi) ->
  exists out, do_manipulation g values = Ok out /\
    forall k a, In (k, a) out -> forall i x y,
      series_value values (s_end k) i x -> series_value values (s_start k) i y ->
      cell a i ((x - y) * ZQ unit / ZQ s)%Qc.

(** steps 0 and 24 available, six-hourly windows requested: the second
    reconstruction searches an unsorted list and fails with IndexError *)
Definition rain_two : fields := [(st 0, fld [0]); (st 24, fld [24])].
Lemma rain_two_gap t : t = 6 \/ t = 12 \/ t = 18 -> gap rain_two 0 t 24.
Proof.
  intro H. split; [lia|]. split; [show_avail|]. split; [show_avail|].
  intros u Hu. apply avail_iff in Hu. cbn in Hu. lia.
Qed.
Lemma rain_two_raises :
  do_manipulation (aggr_init "accum" 24 24 6 "accumulation" false false 6 24 false) rain_two = Raise IndexError.
Proof. vm_compute. reflexivity. Qed.
Theorem C04_missing_steps_refuted : ~ C04_full.
Proof.
  intro H. destruct (H "accum"%string 24 24 6 false 6 24 false rain_two 1%nat) as [out [E _]].
  - lia.
  - lia.
  - show_nodup.
  - show_size.
  - intros t [i [Hi [Ht Hle]]]. change (first_window 6 6 - 6) with 0 in Ht.
    assert (Hc : t = 0 \/ t = 24 \/ (t = 6 \/ t = 12 \/ t = 18)) by lia.
    destruct Hc as [-> | [-> | Hc]]; [left; show_avail|left; show_avail|right].
    exists 0, 24. apply rain_two_gap. exact Hc.
  - rewrite rain_two_raises in E. discriminate.
Qed.
Print Assumptions C04_missing_steps_refuted.

(** a single missing step is handled, unless it is the start of the first window *)
Theorem C04_one_missing_step_partial : forall stype input unit s half start end_ sec values n t0 lo hi,
  let g := aggr_init stype input unit s "accumulation" half false start end_ sec in
  let first := first_window start s in
  0 < s -> one_per_step values -> same_size values n ->
  on_grid first end_ s t0 -> gap values lo t0 hi ->
  available values (first - s) ->
  (forall t, on_grid first end_ s t -> t <> t0 -> available values t) ->
  exists out k0 a0 rest,
    values = (k0, a0) :: rest /\
    do_manipulation g values = Ok out /\
    NoDup (map fst out) /\
    (forall k, In k (map fst out) <->
       exists t, on_grid first end_ s t /\ k = mkStep (t - s) t (s_res k0) s (s_level k0)) /\
    (forall k a, In (k, a) out -> forall i x y,
       series_value values (s_end k) i x -> series_value values (s_start k) i y ->
       cell a i ((x - y) * ZQ unit / ZQ s)%Qc).
Proof. exact accumulation_one_gap. Qed.
Print Assumptions C04_one_missing_step_partial.
Example C04_nonvacuous : one_per_step rain_gap /\ same_size rain_gap 2 /\
  on_grid (first_window 0 6) 24 6 12 /\ gap rain_gap 6 12 18 /\ available rain_gap (first_window 0 6 - 6) /\
  (forall t, on_grid (first_window 0 6) 24 6 t -> t <> 12 -> available rain_gap t).
Proof.
  split; [exact rain_gap_one|]. split; [exact rain_gap_size|]. split; [exists 1; cbn; lia|].
  split. { split; [lia|]. split; [show_avail|]. split; [show_avail|]. intros u Hu. apply avail_iff in Hu. cbn in Hu. lia. }
  split; [show_avail|]. intros t Ht Hne. apply rain_grid in Ht; [|auto]. apply avail_iff. cbn. lia.
Qed.

(** the start of the first window missing: interpolation is evaluated at the
    wrong time (aggregator.py:128 uses iter_ instead of iter_ - step) *)
Definition rain_start : fields := [(st 0, fld [0]); (st 12, fld [12]); (st 24, fld [36])].
Theorem C04_first_start_missing_refuted : ~ (forall unit s start end_ values n lo hi k a i x y out,
  let g := aggr_init "accum" 6 unit s "accumulation" false false start end_ false in
  0 < s -> s < start -> one_per_step values -> same_size values n ->
  gap values lo (start - s) hi -> (forall t, on_grid start end_ s t -> available values t) ->
  do_manipulation g values = Ok out -> In (k, a) out ->
  series_value values (s_end k) i x -> series_value values (s_start k) i y ->
  cell a i ((x - y) * ZQ unit / ZQ s)%Qc).
Proof.
  intro H.
  set (g := aggr_init "accum" 6 6 6 "accumulation" false false 24 24 false).
  assert (Hr : exists k a, do_manipulation g rain_start = Ok [(k, a)] /\ s_start k = 18 /\ s_end k = 24 /\
                 match adata a with [x] => num_same x (nint 0) | _ => false end = true).
  { vm_compute. eexists. eexists. split; [reflexivity|]. split; [reflexivity|]. split; reflexivity. }
  destruct Hr as [k [a [Hr [Hs [He Hx]]]]].
  assert (Hg : gap rain_start 12 18 24).
  { split; [lia|]. split; [show_avail|]. split; [show_avail|]. intros u Hu. apply avail_iff in Hu. cbn in Hu. lia. }
  specialize (H 6 6 24 24 rain_start 1%nat 12 24 k a 0%nat (ZQ 36) (lin_interp 12 24 18 (ZQ 12) (ZQ 36)) [(k, a)]).
  cbv zeta in H.
  assert (Hc : cell a 0 ((ZQ 36 - lin_interp 12 24 18 (ZQ 12) (ZQ 36)) * ZQ 6 / ZQ 6)%Qc).
  { apply H; clear H.
    - lia.
    - lia.
    - show_nodup.
    - show_size.
    - exact Hg.
    - intros t [i [Hi [Ht Hle]]]. assert (E : t = 24) by lia. clear Ht Hle. rewrite E. show_avail.
    - exact Hr.
    - left. reflexivity.
    - rewrite He. left. exists (fld [36]). split; [show_field (st 24)|reflexivity].
    - rewrite Hs. right. exists 12, 24, (fld [12]), (fld [36]), (ZQ 12), (ZQ 36). split; [exact Hg|].
      split; [show_field (st 12)|]. split; [show_field (st 24)|]. repeat split. }
  unfold cell in Hc. destruct (adata a) as [|x [|y l]]; try discriminate. cbn [nth_error] in Hc.
  injection Hc as Hc. apply num_same_spec in Hx. rewrite Hx in Hc. apply (f_equal (fun z => num_same z (nint 0))) in Hc.
  vm_compute in Hc. discriminate.
Qed.
Print Assumptions C04_first_start_missing_refuted.

(** ** C05 *)
Theorem C05_zero_first_field : forall stype input unit s half force start end_ sec values n out,
  let g := aggr_init stype input unit s "accumulation" half force start end_ sec in
  0 < s -> s <= end_ -> first_window start s = s ->
  one_per_step values -> same_size values n ->
  force = true \/ ~ available values 0 ->
  do_manipulation g values = Ok out ->
  exists k a, In (k, a) out /\ s_start k = 0 /\ s_end k = s /\
    forall c i x, has_field values s c -> cell c i x -> cell a i (x * ZQ unit / ZQ s)%Qc.
Proof. exact accumulation_zero_start. Qed.
Print Assumptions C05_zero_first_field.
Theorem C05_force_zero_is_local : forall stype input unit s half start end_ sec values out1 out2,
  let g f := aggr_init stype input unit s "accumulation" half f start end_ sec in
  0 < s -> do_manipulation (g true) values = Ok out1 -> do_manipulation (g false) values = Ok out2 ->
  map fst out1 = map fst out2 /\
  forall k a1 a2, In (k, a1) out1 -> In (k, a2) out2 -> s_start k <> 0 -> a1 = a2.
Proof. exact accumulation_force_local. Qed.
Print Assumptions C05_force_zero_is_local.
Example C05_nonvacuous : ~ available rain_no0 0 /\
  (exists out, do_manipulation (aggr_init "accum" 6 24 6 "accumulation" false false 0 18 false) rain_no0 = Ok out) /\
  (exists out, do_manipulation (aggr_init "accum" 6 24 6 "accumulation" false true 0 18 false) rain_no0 = Ok out).
Proof.
  split; [intro H; apply avail_iff in H; cbn in H; lia|]. split; show_ok.
Qed.

(** ** C06 *)
Definition C06_full : Prop := forall stype input unit s half start end_ sec values n out,
  let g := aggr_init stype input unit s "accumulation" half false start end_ sec in
  0 < s -> one_per_step values -> same_size values n -> do_manipulation g values = Ok out ->
  forall k a i c, In (k, a) out -> has_field values (s_end k) c \/ has_field values (s_start k) c ->
    masked_at c i = true -> masked_at a i = true.
(** the mask of the field at the end of the window is lost
    (aggregator.py:142-143 adds it into a plain array) *)
Definition rain_masked : fields := [(st 0, fld [0]); (st 6, mfld [9999] [true])].
Theorem C06_masks_refuted : ~ C06_full.
Proof.
  intro H. specialize (H "accum"%string 6 6 6 false 0 6 false rain_masked 1%nat).
  assert (Hr : exists k a, do_manipulation (aggr_init "accum" 6 6 6 "accumulation" false false 0 6 false) rain_masked = Ok [(k, a)]
               /\ s_end k = 6 /\ masked_at a 0 = false).
  { vm_compute. eexists. eexists. split; [reflexivity|]. split; reflexivity. }
  destruct Hr as [k [a [Hr [He Hm]]]].
  assert (Ht : masked_at a 0 = true).
  { eapply (H [(k, a)]).
    - lia.
    - show_nodup.
    - show_size.
    - exact Hr.
    - left. reflexivity.
    - left. rewrite He. exists (st 6). split; [right; left; reflexivity|reflexivity].
    - reflexivity. }
  congruence.
Qed.
Print Assumptions C06_masks_refuted.
Theorem C06_masks_partial : forall stype input unit s half start end_ sec values n out,
  let g := aggr_init stype input unit s "accumulation" half false start end_ sec in
  0 < s -> one_per_step values -> same_size values n -> do_manipulation g values = Ok out ->
  forall k a cp, In (k, a) out -> has_field values (s_start k) cp ->
  forall i, masked_at a i = masked_at cp i.
Proof. exact accumulation_mask_char. Qed.
Print Assumptions C06_masks_partial.
Example C06_nonvacuous : exists out,
  do_manipulation (aggr_init "accum" 6 6 6 "accumulation" false false 0 6 false) [(st 0, mfld [0; 3] [true; false]); (st 6, fld [1; 2])] = Ok out.
Proof. show_ok. Qed.

(** ** C07 *)
Theorem C07_average_backfilled_mean : forall stype input unit s force start end_ sec values n out,
  let g := aggr_init stype input unit s "average" false force start end_ sec in
  0 < s -> one_per_step values -> same_size values n ->
  do_manipulation g values = Ok out ->
  forall k a, In (k, a) out ->
    s_end k = s_start k + s /\ asize a = n /\
    (forall t, s_start k < t <= s_end k -> exists u, first_at_or_after values t u) /\
    forall i f, (i < n)%nat ->
      (forall t, s_start k < t <= s_end k -> backfill values t i (f t)) ->
      cell a i (Qsum (map f (unit_steps (s_start k) s)) / ZQ s)%Qc.
Proof. exact average_backfilled_mean. Qed.
Print Assumptions C07_average_backfilled_mean.
Theorem C07_average_succeeds : forall stype input unit s force start end_ values n,
  let g := aggr_init stype input unit s "average" false force start end_ false in
  0 < s -> start <> 0 -> stype <> "accum"%string -> values <> [] ->
  one_per_step values -> same_size values n ->
  (exists u, available values u /\ end_ <= u) ->
  exists out, do_manipulation g values = Ok out.
Proof. exact average_succeeds. Qed.
Print Assumptions C07_average_succeeds.
Example C07_nonvacuous : exists out,
  do_manipulation (aggr_init "instant" 6 24 12 "average" false false 12 24 false) rain = Ok out.
Proof. show_ok. Qed.
(** a computed case: cell 0 of the window (0, 12] is (6*3 + 6*3)/12 = 3 *)
Example C07_value : match do_manipulation (aggr_init "instant" 6 24 12 "average" false false 12 24 false) rain with
  | Ok ((_, a) :: _) => match adata a with x :: y :: _ => num_same x (nint 3) && num_same y (nint 7) | _ => false end
  | _ => false end = true.
Proof. vm_compute. reflexivity. Qed.

(** ** C08 *)
Theorem C08_half_weights_trapezoid : forall stype input unit s force start end_ sec values n out,
  let g := aggr_init stype input unit s "average" true force start end_ sec in
  0 < s -> one_per_step values -> same_size values n ->
  do_manipulation g values = Ok out ->
  forall k a l i f, In (k, a) out -> (i < n)%nat ->
    available_in values (s_start k) (s_end k) l -> (2 <= List.length l)%nat ->
    (forall t c, In t l -> has_field values t c -> masked_at c i = false /\ cell c i (f t)) ->
    s_end k = s_start k + s /\
    let w := half_weight (s_start k) s (Z.of_nat (List.length l) - 1) in
    cell a i (Qsum (map (fun t => w t * f t) l) / Qsum (map w l))%Qc.
Proof. exact average_trapezoid. Qed.
Print Assumptions C08_half_weights_trapezoid.
Theorem C08_weights_sum_to_step : forall values a s l, 0 < s -> available_in values a (a + s) l ->
  available values a -> available values (a + s) ->
  (2 <= List.length l)%nat /\
  Qsum (map (half_weight a s (Z.of_nat (List.length l) - 1)) l) = ZQ s.
Proof. exact trapezoid_weights. Qed.
Print Assumptions C08_weights_sum_to_step.
Example C08_nonvacuous :
  (exists out, do_manipulation (aggr_init "instant" 6 24 12 "average" true false 12 24 false) rain = Ok out) /\
  available_in rain 0 12 [0; 6; 12].
Proof.
  split; [show_ok|]. split; [repeat constructor|].
  intro t. rewrite avail_iff. cbn. lia.
Qed.
(** trapezoid of 1, 3, 3 over two intervals: (0.5*1 + 3 + 0.5*3)/2 = 5/2 *)
Example C08_value : match do_manipulation (aggr_init "instant" 6 24 12 "average" true false 12 24 false) rain with
  | Ok ((_, a) :: _) => match adata a with x :: _ => num_same x (Fin (Q2Qc (5 # 2))) | _ => false end
  | _ => false end = true.
Proof. vm_compute. reflexivity. Qed.

(** ** C09 *)
Theorem C09_average_in_range : forall stype input unit s half force start end_ sec values n out,
  let g := aggr_init stype input unit s "average" half force start end_ sec in
  0 < s -> one_per_step values -> same_size values n ->
  do_manipulation g values = Ok out ->
  forall k a i lo hi, In (k, a) out -> (i < n)%nat ->
    (forall t c, has_field values t c ->
       masked_at c i = false /\ exists x, cell c i x /\ (lo <= x <= hi)%Qc) ->
    (half = true -> exists t1 t2, t1 <> t2 /\ s_start k <= t1 <= s_end k /\ s_start k <= t2 <= s_end k /\
                                  available values t1 /\ available values t2) ->
    exists y, cell a i y /\ (lo <= y <= hi)%Qc.
Proof. exact average_in_range. Qed.
Print Assumptions C09_average_in_range.
Theorem C09_constant_kept : forall stype input unit s half force start end_ sec values n out,
  let g := aggr_init stype input unit s "average" half force start end_ sec in
  0 < s -> one_per_step values -> same_size values n ->
  do_manipulation g values = Ok out ->
  forall k a i x, In (k, a) out -> (i < n)%nat ->
    (forall t c, has_field values t c -> masked_at c i = false /\ cell c i x) ->
    (half = true -> exists t1 t2, t1 <> t2 /\ s_start k <= t1 <= s_end k /\ s_start k <= t2 <= s_end k /\
                                  available values t1 /\ available values t2) ->
    cell a i x.
Proof. exact average_constant. Qed.
Print Assumptions C09_constant_kept.
(** with half weights and a single available step in the window the output is
    NaN, not a value in the range *)
Theorem C09_half_weights_single_step_refuted : ~ (forall stype input unit s force start end_ sec values n out,
  let g := aggr_init stype input unit s "average" true force start end_ sec in
  0 < s -> one_per_step values -> same_size values n ->
  do_manipulation g values = Ok out ->
  forall k a i lo hi, In (k, a) out -> (i < n)%nat ->
    (forall t c, has_field values t c ->
       masked_at c i = false /\ exists x, cell c i x /\ (lo <= x <= hi)%Qc) ->
    exists y, cell a i y /\ (lo <= y <= hi)%Qc).
Proof.
  intro H.
  assert (Hr : exists k a, do_manipulation (aggr_init "instant" 6 6 6 "average" true false 6 6 false) [(st 6, fld [5])] = Ok [(k, a)]
               /\ match adata a with [x] => is_nan x | _ => false end = true).
  { vm_compute. eexists. eexists. split; reflexivity. }
  destruct Hr as [k [a [Hr Hn]]].
  destruct (H "instant"%string 6 6 6 false 6 6 false [(st 6, fld [5])] 1%nat _ ltac:(lia) ltac:(show_nodup) ltac:(show_size) Hr
              k a 0%nat (ZQ 5) (ZQ 5)) as [y [Hy _]].
  - left. reflexivity.
  - lia.
  - intros t c [k' [Hin _]]. in_cases Hin. split; [reflexivity|]. exists (ZQ 5). split; [reflexivity|]. split; apply Qcle_refl.
  - unfold cell in Hy. destruct (adata a) as [|x [|z l]]; try discriminate. cbn in Hy. injection Hy as ->. discriminate.
Qed.
Print Assumptions C09_half_weights_single_step_refuted.
Example C09_nonvacuous : exists out,
  do_manipulation (aggr_init "avg" 6 24 6 "average" true false 6 24 false) rain = Ok out.
Proof. show_ok. Qed.

(** ** C10 *)
Theorem C10_average_windows : forall stype input unit s half force start end_ sec values out,
  let g := aggr_init stype input unit s "average" half force start end_ sec in
  0 < s -> do_manipulation g values = Ok out ->
  exists k0 a0 rest, values = (k0, a0) :: rest /\ NoDup (map fst out) /\
  (start <> 0 -> sec = false ->
     forall k, In k (map fst out) <->
       exists a, on_grid (start - s) (end_ - s) s a /\ k = mkStep a (a + s) (s_res k0) s (s_level k0)) /\
  (start = 0 \/ sec = true ->
     forall k, In k (map fst out) <->
       exists a, on_grid start (end_ + 1 - s) s a /\ k = mkStep a (a + s) (s_res k0) s (s_level k0)).
Proof. exact average_windows. Qed.
Print Assumptions C10_average_windows.
(** full statement: no window extends past the requested end *)
Definition C10_full : Prop := forall stype input unit s half force start end_ sec values out,
  let g := aggr_init stype input unit s "average" half force start end_ sec in
  0 < s -> do_manipulation g values = Ok out -> forall k, In k (map fst out) -> s_end k <= end_.
(** second temporal resolution, step 6, request 6..17, data up to 24: a window
    (12, 18] is produced (aggregator.py:170 adds 2 instead of 1) *)
Theorem C10_window_past_end_refuted : ~ C10_full.
Proof.
  intro H. specialize (H "instant"%string 6 24 6 false false 6 17 true rain).
  destruct (do_manipulation (aggr_init "instant" 6 24 6 "average" false false 6 17 true) rain) as [out|] eqn:E;
    [|vm_compute in E; discriminate].
  assert (Hin : existsb (fun k => step_eqb k (mkStep 12 18 1 6 0)) (map fst out) = true).
  { transitivity (match do_manipulation (aggr_init "instant" 6 24 6 "average" false false 6 17 true) rain with
                  | Ok o => existsb (fun k => step_eqb k (mkStep 12 18 1 6 0)) (map fst o) | _ => false end).
    - rewrite E. reflexivity.
    - vm_compute. reflexivity. }
  apply existsb_exists in Hin as [k [Hk Ek]]. apply step_eqb_spec in Ek. subst k.
  specialize (H out ltac:(lia) E _ Hk). cbn in H. lia.
Qed.
Print Assumptions C10_window_past_end_refuted.
(** hourly averages from step 0 always fail, even when every step is available *)
Theorem C10_hourly_from_zero_refuted : ~ (forall values n,
  one_per_step values -> same_size values n -> (forall t, 0 <= t <= 2 -> available values t) ->
  exists out, do_manipulation (aggr_init "instant" 1 1 1 "average" false false 0 2 false) values = Ok out).
Proof.
  intro H. destruct (H [(st 0, fld [1]); (st 1, fld [2]); (st 2, fld [3])] 1%nat) as [out E].
  - show_nodup.
  - show_size.
  - intros t Ht. apply avail_iff. cbn. lia.
  - vm_compute in E. discriminate.
Qed.
Print Assumptions C10_hourly_from_zero_refuted.
Example C10_nonvacuous : exists out,
  do_manipulation (aggr_init "instant" 6 24 12 "average" false false 12 24 false) rain = Ok out.
Proof. show_ok. Qed.

(** ** C11 *)
Definition C11_full : Prop := forall stype input unit s half force start end_ sec values n out,
  let g := aggr_init stype input unit s "average" half force start end_ sec in
  0 < s -> one_per_step values -> same_size values n -> do_manipulation g values = Ok out ->
  forall k a t c i, In (k, a) out -> s_start k < t <= s_end k -> has_field values t c ->
    masked_at c i = true -> masked_at a i = true.
Theorem C11_masks_refuted : ~ C11_full.
Proof.
  intro H.
  assert (Hr : exists k a, do_manipulation (aggr_init "instant" 6 6 6 "average" false false 6 6 false) [(st 6, mfld [9999] [true])] = Ok [(k, a)]
               /\ s_start k = 0 /\ s_end k = 6 /\ masked_at a 0 = false).
  { vm_compute. eexists. eexists. repeat split. }
  destruct Hr as [k [a [Hr [Hs [He Hm]]]]].
  assert (Ht : masked_at a 0 = true).
  { eapply (H "instant"%string 6 6 6 false false 6 6 false [(st 6, mfld [9999] [true])] 1%nat _ ltac:(lia)).
    - show_nodup.
    - show_size.
    - exact Hr.
    - left. reflexivity.
    - rewrite Hs, He. instantiate (1 := 6). lia.
    - exists (st 6). split; [left; reflexivity|reflexivity].
    - reflexivity. }
  congruence.
Qed.
Print Assumptions C11_masks_refuted.
(** what holds instead: an average output never has a missing cell *)
Theorem C11_never_masked_partial : forall stype input unit s half force start end_ sec values out,
  let g := aggr_init stype input unit s "average" half force start end_ sec in
  0 < s -> do_manipulation g values = Ok out ->
  forall k a i, In (k, a) out -> masked_at a i = false.
Proof. exact average_never_masked. Qed.
Print Assumptions C11_never_masked_partial.
(** nor has an extracted step *)
Theorem C11_extracted_never_masked_partial : forall stype input unit s half force start end_ sec values out,
  let g := aggr_init stype input unit s "instantaneous" half force start end_ sec in
  0 < s -> do_manipulation g values = Ok out ->
  forall k a i, In (k, a) out -> masked_at a i = false.
Proof. exact instantaneous_never_masked. Qed.
Print Assumptions C11_extracted_never_masked_partial.

(** ** C12 *)
Theorem C12_instantaneous_copies : forall stype input unit s half force start end_ sec values n out,
  let g := aggr_init stype input unit s "instantaneous" half force start end_ sec in
  let first := inst_first stype input start s in
  0 < s -> one_per_step values -> same_size values n ->
  do_manipulation g values = Ok out ->
  exists k0 a0 rest, values = (k0, a0) :: rest /\ NoDup (map fst out) /\
  (forall k, In k (map fst out) <->
     exists t, on_grid first end_ s t /\ k = mkStep t t (s_res k0) s (s_level k0)) /\
  forall k a, In (k, a) out ->
    (exists c, has_field values (s_end k) c /\ adata a = adata c) \/
    (~ available values (s_end k) /\ s_end k = 0 /\ adata a = zeros n) \/
    (~ available values (s_end k) /\ s_end k <> 0 /\
       exists u c, first_after values (s_end k) u /\ has_field values u c /\ adata a = adata c).
Proof. exact instantaneous_copies. Qed.
Print Assumptions C12_instantaneous_copies.
Theorem C12_instantaneous_succeeds : forall stype input unit s half force start end_ sec values n,
  let g := aggr_init stype input unit s "instantaneous" half force start end_ sec in
  0 < s -> stype <> "accum"%string -> values <> [] ->
  one_per_step values -> same_size values n ->
  (exists u, available values u /\ end_ <= u) ->
  exists out, do_manipulation g values = Ok out.
Proof. exact instantaneous_succeeds. Qed.
Print Assumptions C12_instantaneous_succeeds.
(** the missing cells of the copied field are not missing any more: their
    fill value becomes an ordinary value *)
Theorem C12_masks_refuted : ~ (forall stype input unit s half force start end_ sec values n out,
  let g := aggr_init stype input unit s "instantaneous" half force start end_ sec in
  0 < s -> one_per_step values -> same_size values n -> do_manipulation g values = Ok out ->
  forall k a c i, In (k, a) out -> has_field values (s_end k) c -> masked_at a i = masked_at c i).
Proof.
  intro H.
  assert (Hr : exists k a, do_manipulation (aggr_init "instant" 6 6 6 "instantaneous" false false 6 6 false) [(st 6, mfld [9999] [true])] = Ok [(k, a)]
               /\ s_end k = 6 /\ masked_at a 0 = false).
  { vm_compute. eexists. eexists. repeat split. }
  destruct Hr as [k [a [Hr [He Hm]]]].
  assert (Ht : masked_at a 0 = masked_at (mfld [9999] [true]) 0).
  { eapply (H "instant"%string 6 6 6 false false 6 6 false [(st 6, mfld [9999] [true])] 1%nat _ ltac:(lia)).
    - show_nodup.
    - show_size.
    - exact Hr.
    - left. reflexivity.
    - rewrite He. exists (st 6). split; [left; reflexivity|reflexivity]. }
  rewrite Hm in Ht. discriminate.
Qed.
Print Assumptions C12_masks_refuted.
Example C12_nonvacuous : exists out,
  do_manipulation (aggr_init "instant" 6 24 6 "instantaneous" false false 6 24 false) rain_gap = Ok out.
Proof. show_ok. Qed.

(** ** C13 *)
Theorem C13_refuses_accumulated : forall input unit s type half force start end_ sec values,
  type = "average"%string \/ type = "instantaneous"%string ->
  do_manipulation (aggr_init "accum" input unit s type half force start end_ sec) values = Raise (AppExc 6100).
Proof. exact refuses_accumulated. Qed.
Print Assumptions C13_refuses_accumulated.
Theorem C13_accumulation_never_refused : forall stype input unit s half force start end_ sec values code,
  do_manipulation (aggr_init stype input unit s "accumulation" half force start end_ sec) values <> Raise (AppExc code).
Proof. exact accumulation_never_refused. Qed.
Print Assumptions C13_accumulation_never_refused.

(** ** C14 *)
Theorem C14_read_window : forall stype input unit s type half force start end_ sec,
  input <> 0 -> 0 < s -> 0 <= start ->
  let '(lo, hi) := real_start_end (aggr_init stype input unit s type half force start end_ sec) in
  0 <= lo /\ hi = end_ /\
  (* accumulation windows *)
  (forall t, on_grid (first_window start s) end_ s t -> (lo <= t <= hi) /\ (0 <= t - s -> lo <= t - s <= hi)) /\
  (* average windows *)
  (forall a t, start <> 0 -> on_grid (start - s) (end_ - s) s a -> a <= t <= a + s -> 0 <= t -> lo <= t <= hi).
Proof. exact read_window_contains. Qed.
Print Assumptions C14_read_window.
(** when the GRIB time step is 0 the first window's start is not read *)
Theorem C14_zero_input_step_refuted : ~ (forall unit s start end_ t,
  0 < s -> 0 <= start -> on_grid (first_window start s) end_ s t -> 0 <= t - s ->
  fst (real_start_end (aggr_init "accum" 0 unit s "accumulation" false false start end_ false)) <= t - s).
Proof.
  intro H. specialize (H 24 6 12 24 12 ltac:(lia) ltac:(lia)). cbn in H.
  assert (on_grid 12 24 6 12) by (exists 0; lia). specialize (H H0 ltac:(lia)). lia.
Qed.
Print Assumptions C14_zero_input_step_refuted.
Example C14_nonvacuous : on_grid (first_window 12 6) 24 6 18 /\
  real_start_end (aggr_init "accum" 6 24 6 "accumulation" false false 12 24 false) = (6, 24).
Proof. split; [exists 1; cbn; lia|reflexivity]. Qed.

(** ** C15 *)
Theorem C15_cell_local : forall g values n sel,
  same_size values n -> (forall j, In j sel -> (j < n)%nat) ->
  match do_manipulation g values, do_manipulation g (select_fields sel values) with
  | Ok out, Ok out' => Forall2 (fun kv kv' => fst kv = fst kv' /\ selects sel (snd kv) (snd kv')) out out'
  | Raise e, Raise e' => e = e'
  | _, _ => False
  end.
Proof. exact aggregation_cell_local. Qed.
Print Assumptions C15_cell_local.
Theorem C15_keys_and_errors_independent_of_values : forall g values1 values2 n1 n2,
  same_size values1 n1 -> same_size values2 n2 -> map fst values1 = map fst values2 ->
  match do_manipulation g values1, do_manipulation g values2 with
  | Ok out1, Ok out2 => map fst out1 = map fst out2
  | Raise e, Raise e' => e = e'
  | _, _ => False
  end.
Proof. exact aggregation_keys_only. Qed.
Print Assumptions C15_keys_and_errors_independent_of_values.
Example C15_nonvacuous : same_size rain 2 /\ (forall j, In j [1; 1; 0]%nat -> (j < 2)%nat).
Proof. split; [exact rain_size|]. intros j H. cbn in H. lia. Qed.

(** ** C16 *)
Theorem C16_linear : forall g values n k,
  same_size values n ->
  match do_manipulation g values, do_manipulation g (scale_fields k values) with
  | Ok out, Ok out' =>
      map fst out' = map fst out /\
      map (fun kv => adata (snd kv)) out' = map (fun kv => map (nmul (Fin k)) (adata (snd kv))) out /\
      map (fun kv => amask (snd kv)) out' = map (fun kv => amask (snd kv)) out
  | Raise e, Raise e' => e = e'
  | _, _ => False
  end.
Proof. exact aggregation_linear. Qed.
Print Assumptions C16_linear.
