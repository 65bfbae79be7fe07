(** * Property C110: totals of rounded accumulations (Float64.v,
    AggregatorWith.v). Vocabulary: Spec_Float.v, Spec_Aggregation.v, and
    [rising] of Props_Float4.v. *)
From Coq Require Import Lia List Qcabs.
From Verif Require Import Base Num Float64 Aggregator AggregatorWith Spec_Aggregation Spec_Float
  Base_P Num_P Aggregator_P Aggregator_P2 Float64_P Float_Agg_P Float_Total_P Props_Aggregation Props_Float Props_Float4.
Local Open Scope string_scope.
Local Open Scope Z_scope.

(** Adding up the windows of a cell that never decreases gives its change over
    the whole period, up to a relative error of 2^-51 and an absolute one of
    2^-1073 for each window: the error does not grow with the number of
    windows. *)
Theorem C110_total : forall stype input unit s half force start end_ sec values n out tl,
  let g := aggr_init stype input unit s "accumulation" half force start end_ sec in
  let first := first_window start s in
  1 <= s <= 2 ^ 53 -> 0 <= unit <= 2 ^ 53 -> 0 <= start -> one_per_step values -> same_size values n -> double_fields values ->
  (forall t, on_grid first end_ s t -> available values t) ->
  do_manipulation64 g values = Ok out ->
  on_grid first end_ s tl -> end_ < tl + s ->
  forall cl i xl x0, has_field values tl cl -> cell cl i xl ->
  (first = s /\ (force = true \/ ~ available values 0) /\ x0 = 0%Qc \/
   ~ (first = s /\ force = true) /\ exists cf, has_field values (first - s) cf /\ cell cf i x0) ->
  rising values i -> (force = true -> forall t c x, has_field values t c -> cell c i x -> (0 <= x)%Qc) ->
  exists rs, map (fun kv => nth_error (adata (snd kv)) i) out = map (fun r => Some (Fin r)) rs /\
    (Qcabs (Qsum rs - (xl - x0) * ZQ unit / ZQ s) <=
     / ZQ (2 ^ 51) * ((xl - x0) * ZQ unit / ZQ s) + ZQ (Z.of_nat (List.length out)) * / ZQ (2 ^ 1073))%Qc.
Proof.
  intros stype input unit s half force start end_ sec values n out tl g first Hs Hu Hst Hone Hn Hd Hav Hrun Htl Hend cl i xl x0 Hcl Hxl Hx0 Hr Hf0.
  assert (Hs0 : 0 < s) by lia.
  assert (Hfirst : 0 < first) by (unfold first, first_window; destruct (Z.eqb_spec start 0); lia).
  assert (Hi : (i < n)%nat).
  { destruct Hcl as [k [Hin _]]. destruct (Hn _ _ Hin) as [<- _]. unfold asize. apply nth_error_Some. unfold cell in Hxl. congruence. }
  (* the windows *)
  pose proof (C109_form g values) as Hform. rewrite Hrun in Hform.
  destruct (do_manipulation g values) as [oute|e] eqn:Ee; [|destruct Hform]. cbn [same_outcome] in Hform.
  destruct (window_steps stype input unit s half force start end_ sec values oute Hs0 Ee) as [iters [Er HF0]].
  assert (HF : Forall2 (fun t kv => s_end (fst kv) = t /\ s_start (fst kv) = t - s) iters out).
  { clear -HF0 Hform. revert out Hform. induction HF0 as [|t kv l l' H HF IH]; intros out Hform; inversion Hform as [|? kv' ? out' [Ek _] Hf']; subst; [constructor|].
    constructor; [rewrite <- Ek; exact H|]. now apply IH. }
  destruct (last_in_grid first end_ s iters Hs0 Er tl Htl Hend) as [Hne Hlast].
  pose proof (py_range_chain _ _ _ _ Hs0 Er) as Hch.
  pose proof (fun t => in_grid_range _ _ _ _ t Hs0 Er) as Hgrid.
  (* the values used *)
  set (w := fun t : Z => if t =? first - s then x0 else
    match dget Z.eqb (by_end_step values) t with Some c => match nth_error (adata c) i with Some (Fin q) => q | _ => 0%Qc end | None => 0%Qc end).
  assert (Hw0 : w (first - s) = x0) by (unfold w; now rewrite Z.eqb_refl).
  assert (Hw : forall t c x, t <> first - s -> has_field values t c -> cell c i x -> w t = x).
  { intros t c x Ht Hc Hx. unfold w. destruct (Z.eqb_spec t (first - s)); [contradiction|].
    apply (by_end_step_get _ _ _ Hone) in Hc. rewrite Hc. unfold cell in Hx. now rewrite Hx. }
  assert (Hcell : forall t, on_grid first end_ s t -> exists c, has_field values t c /\ cell c i (w t)).
  { intros t Ht. destruct (Hav t Ht) as [c Hc]. exists c. split; [exact Hc|].
    destruct (cells_cell _ _ _ _ _ Hn Hc Hi) as [x [Hx Hin]]. destruct Hc as [k0 [Hk0 E0]].
    destruct (Hd _ _ Hk0 _ Hin) as [q [-> _]]. rewrite (Hw t c q); [exact Hx| |exists k0; auto|exact Hx].
    destruct Ht as [j [Hj [-> _]]]. nia. }
  assert (Hstep : forall t, on_grid first end_ s t -> start_value values force (t - s) i (w (t - s)) /\ (w (t - s)%Z <= w t)%Qc).
  { intros t Ht. destruct (Hcell t Ht) as [c [Hc Hx]]. destruct (Z.eq_dec t first) as [->|Hnf].
    - rewrite Hw0. destruct Hx0 as [[Ef [Hz E0]]|[Hnz [cf [Hcf Hxf]]]].
      + split; [left; split; [lia|split; [exact Hz|exact E0]]|]. rewrite E0. destruct Hz as [Hz|Hz]; [exact (Hf0 Hz _ _ _ Hc Hx)|].
        destruct (proj2 Hr) as [H|H]; [contradiction|exact (H _ _ _ Hc Hx)].
      + split; [right|apply (proj1 Hr (first - s) first cf c); auto; lia].
        split; [|exists cf; auto]. intros [Ez [Hz|Hz]]; [apply Hnz; split; [lia|exact Hz]|]. apply Hz. rewrite <- Ez. exists cf. exact Hcf.
    - assert (Hp : on_grid first end_ s (t - s)).
      { destruct Ht as [j [Hj [-> Hle]]]. exists (j - 1). assert (j <> 0) by (intros ->; apply Hnf; lia). split; [lia|]. split; lia. }
      destruct (Hcell _ Hp) as [c' [Hc' Hx']]. split; [|apply (proj1 Hr (t - s) t c' c); auto; lia].
      right. split; [|exists c'; auto]. intros [Ez _]. destruct Hp as [j [Hj [Ep _]]]. nia. }
  (* the windows one by one *)
  set (ex := fun t : Z => ((w t - w (t - s)%Z) * (ZQ unit / ZQ s))%Qc).
  assert (Hun : (0 <= ZQ unit / ZQ s)%Qc).
  { unfold Qcdiv. apply Qcle_trans with (0 * / ZQ s)%Qc; [rewrite Qcmult_0_l; apply Qcle_refl|]. apply Qcmult_le_compat_r.
    - unfold ZQ, Qcle. cbn [this Q2Qc]. rewrite !Qred_correct. change 0%Q with (inject_Z 0). rewrite <- Zle_Qle. lia.
    - apply QR_le. rewrite QR_0. replace (/ ZQ s)%Qc with (1 / ZQ s)%Qc by (unfold Qcdiv; ring). rewrite QR_div by (apply QR_pos_Z; lia).
      rewrite QR_1, QR_ZQ. unfold Rdefinitions.Rdiv. rewrite Raxioms.Rmult_1_l. apply RIneq.Rlt_le, RIneq.Rinv_0_lt_compat, (RIneq.IZR_lt 0). lia. }
  assert (Hlist : exists rs, map (fun kv => nth_error (adata (snd kv)) i) out = map (fun r => Some (Fin r)) rs /\
    Forall2 (fun e r => (0 <= e)%Qc /\ (Qcabs (r - e) <= / ZQ (2 ^ 51) * Qcabs e + / ZQ (2 ^ 1073))%Qc) (map ex iters) rs).
  { assert (Hone1 : forall t kv, In kv out -> on_grid first end_ s t -> s_end (fst kv) = t /\ s_start (fst kv) = t - s ->
      exists r, nth_error (adata (snd kv)) i = Some (Fin r) /\ (0 <= ex t)%Qc /\ (Qcabs (r - ex t) <= / ZQ (2 ^ 51) * Qcabs (ex t) + / ZQ (2 ^ 1073))%Qc).
    { intros t [k a] Hin Ht [E1 E2]. cbn [fst snd] in *. destruct (Hcell t Ht) as [c [Hc Hx]]. destruct (Hstep t Ht) as [Hsv Hle].
      rewrite <- E1 in Hc at 1. rewrite <- E2 in Hsv at 1.
      destruct (C110_accumulation stype input unit s half force start end_ sec values n out Hs Hu Hst Hone Hn Hd Hrun k a Hin c i (w t) (w (t - s)) Hc Hx Hsv) as [r [Er' [_ [_ Hr3]]]].
      exists r. split; [exact Er'|]. unfold close_to in Hr3.
      replace ((w t - w (t - s)%Z) * ZQ unit / ZQ s)%Qc with (ex t) in Hr3 by (unfold ex, Qcdiv; ring). split; [|exact Hr3].
      unfold ex. apply Qcle_trans with (0 * (ZQ unit / ZQ s))%Qc; [rewrite Qcmult_0_l; apply Qcle_refl|]. apply Qcmult_le_compat_r; [|exact Hun].
      apply (Qcplus_le_compat _ _ (- w (t - s)%Z)%Qc (- w (t - s)%Z)%Qc) in Hle; [|apply Qcle_refl]. unfold Qcminus. now rewrite Qcplus_opp_r in Hle. }
    assert (Hg2 : forall t, In t iters -> on_grid first end_ s t) by (intros t Ht; apply Hgrid; exact Ht).
    clear -HF Hone1 Hg2.
    assert (G : forall its o, Forall2 (fun t kv => s_end (fst kv) = t /\ s_start (fst kv) = t - s) its o ->
      (forall kv, In kv o -> In kv out) -> (forall t, In t its -> on_grid first end_ s t) ->
      exists rs, map (fun kv : step * arr => nth_error (adata (snd kv)) i) o = map (fun r => Some (Fin r)) rs /\
      Forall2 (fun e r => (0 <= e)%Qc /\ (Qcabs (r - e) <= / ZQ (2 ^ 51) * Qcabs e + / ZQ (2 ^ 1073))%Qc) (map ex its) rs).
    { intros its o H. induction H as [|t kv l l' H0 H IH]; intros Ho Hi; [exists []; split; [reflexivity|constructor]|].
      destruct (IH ltac:(intros; apply Ho; now right) ltac:(intros; apply Hi; now right)) as [rs [R1 R2]].
      destruct (Hone1 t kv (Ho _ (or_introl eq_refl)) (Hi _ (or_introl eq_refl)) H0) as [r [E1 E2]].
      exists (r :: rs). cbn [map]. rewrite E1, R1. split; [reflexivity|]. constructor; assumption. }
    apply G; auto. }
  destruct Hlist as [rs [R1 R2]]. exists rs. split; [exact R1|].
  assert (El : List.length rs = List.length out).
  { transitivity (List.length (map (fun r => Some (Fin r)) rs)); [now rewrite map_length|]. rewrite <- R1. apply map_length. }
  assert (Et : Qsum (map ex iters) = ((xl - x0) * ZQ unit / ZQ s)%Qc).
  { unfold ex. rewrite (Qsum_scale (fun t => w t - w (t - s)%Z)%Qc), (chain_tele s w first iters Hch Hne), Hlast, Hw0.
    rewrite (Hw tl cl xl); [unfold Qcdiv; ring| |exact Hcl|exact Hxl]. destruct Htl as [j [Hj [-> _]]]. nia. }
  pose proof (total_err _ _ _ _ R2) as Hend2. rewrite Et, El in Hend2. exact Hend2.
Qed.
Print Assumptions C110_total.

(** steps 0, 6, 12, 18 in tenths of a millimetre, first cell *)
Lemma drain_cells t c : has_field drain t c -> exists z, In (t, z) [(0, 1); (6, 3); (12, 3); (18, 7)] /\ exists y, c = Nd [tenth z; y].
Proof.
  intros [k [H Ek]]. in_cases H; cbn in Ek; subst t; eexists; (split; [cbn [In]|eexists; reflexivity]); [tauto|tauto|tauto|tauto].
Qed.
Example C110_total_nonvacuous : one_per_step drain /\ same_size drain 2 /\ double_fields drain /\
  (forall t, on_grid (first_window 0 6) 18 6 t -> available drain t) /\ on_grid (first_window 0 6) 18 6 18 /\ rising drain 0 /\
  has_field drain 18 (Nd [tenth 7; tenth 13]) /\ has_field drain (first_window 0 6 - 6) (Nd [tenth 1; tenth 0]) /\
  (exists out, do_manipulation64 (aggr_init "accum" 6 24 6 "accumulation" false false 0 18 false) drain = Ok out /\ List.length out = 3%nat).
Proof.
  split; [show_nodup|]. split; [show_size|]. split; [exact drain_double|]. split.
  { intros t [j [Hj [-> Hle]]]. change (first_window 0 6) with 6 in *. apply avail_iff. assert (j = 0 \/ j = 1 \/ j = 2) as Hj3 by lia; destruct Hj3 as [-> | [-> | ->]]; cbn [In map drain fst s_end st]; cbn; tauto. }
  split; [exists 2; change (first_window 0 6) with 6; lia|]. split.
  { split.
    - intros t t' c c' x x' Hc Hc' Ht Hx Hx'. apply drain_cells in Hc as [z [Hz [y ->]]]. apply drain_cells in Hc' as [z' [Hz' [y' ->]]].
      injection Hx as <-. injection Hx' as <-. apply tenth_le. cbn [In] in Hz, Hz'.
      repeat (destruct Hz as [Hz|Hz]; [injection Hz as <- <-; repeat (destruct Hz' as [Hz'|Hz']; [injection Hz' as <- <-; lia|]); destruct Hz'|]). destruct Hz.
    - left. apply avail_iff. cbn. tauto. }
  split; [exists (st 18); split; [cbn; tauto|reflexivity]|]. split; [exists (st 0); split; [cbn; tauto|reflexivity]|].
  eexists. split; [vm_compute; reflexivity|reflexivity].
Qed.
