(** * Props_Adw: C51, C52, C67-C69, and C48 for the modes adw and cdd *)
From Verif Require Import Base Num Strings Scipy Xr Adw Spec_Adw Base_P Num_P GribInterp_P Scipy_P Props_Scipy Adw_P Adw_P2 Adw_P3 Adw_P4 Adw_P5.
From Coq Require Import Sorting.Sorted Sorting.Permutation.
Local Open Scope R_scope.

(** weights of a cell that can be used *)
Definition usable (row : list xr) : Prop := exists qs, row = map XF qs /\ convex qs.
(** eleven neighbours in order of distance *)
Definition cell11 (ds : list R) (diffs : list (R * R)) : Prop := List.length ds = 11%nat /\ List.length diffs = 11%nat /\ StronglySorted Rle ds /\ 0 <= at_ ds 0.
Definition ex_ds : list R := [1; 2; 3; 4; 5; 6; 7; 8; 9; 10; 11].
Definition ex_diffs : list (R * R) := [(1, 0); (0, 2); (3, 0); (0, 4); (5, 0); (0, 6); (7, 0); (0, 8); (9, 0); (0, 10); (11, 0)].
Lemma ex_cell11 : cell11 ex_ds ex_diffs.
Proof. split; [reflexivity|]. split; [reflexivity|]. split; [|cbn; lra]. unfold ex_ds. repeat (constructor; [|repeat (apply Forall_cons; [lra|]); apply Forall_nil]). constructor. Qed.
Lemma same_cell11 : cell11 (repeat 1 11) (repeat (1, 0) 11).
Proof. split; [reflexivity|]. split; [reflexivity|]. split; [|cbn; lra]. cbn [repeat]. repeat (constructor; [|repeat (apply Forall_cons; [lra|]); apply Forall_nil]). constructor. Qed.

(** ** C51: angular distance weights *)
Definition C51_full : Prop := forall ref ds diffs, cell11 ds diffs -> usable (shepard_row ref (ds, diffs)).
(** the broadcast computation equals the loop, for any number of cells *)
Theorem C51_broadcasting : forall bc ref cells, Forall (fun c => cell11 (fst c) (snd c)) cells -> shepard_rows bc ref cells = map (shepard_row ref) cells.
Proof. intros bc ref cells H. apply shepard_rows_eq. eapply Forall_impl; [|exact H]. intros c [L [L' _]]. split; assumption. Qed.
Print Assumptions C51_broadcasting.
Theorem C51_broadcasting_directional : forall rows m, Forall (fun r => List.length (fst r) = m /\ List.length (snd r) = m) rows ->
  directional_weights true rows m = directional_weights false rows m.
Proof. intros rows m H. unfold directional_weights. now apply broadcast_loop. Qed.
Print Assumptions C51_broadcasting_directional.
(** the weights: distance function squared times one plus the directional
    weight, normalised *)
Theorem C51_partial : forall ref ds diffs, cell11 ds diffs -> / 10000000000 < at_ ds 0 -> at_ ds 0 < at_ ds 3 ->
  exists r ss ts qs c, radius_rule 4 10 ref ds r /\ shepard_row ref (ds, diffs) = map XF qs /\ List.length ss = 11%nat /\ List.length qs = 11%nat /\ 0 < c /\ convex qs /\
    forall i, (i < 11)%nat -> shepard_fun r (at_ ds i) (at_ ss i) /\ directional diffs ss i (at_ ts i) /\ 0 <= at_ ts i <= 2 /\
      at_ qs i = c * (at_ ss i ^ 2 * (1 + at_ ts i)) /\ (r <= at_ ds i -> at_ qs i = 0).
Proof.
  intros ref ds diffs [L [Ld [Hs _]]] He H3. exists (shepard_radius ref ds).
  destruct (shepard_row_ok ref ds diffs L Ld Hs He (radius_above ref ds Hs L H3)) as [ss [ts [qs [c H]]]].
  exists ss, ts, qs, c. split; [now apply shepard_radius_rule|]. exact H.
Qed.
Print Assumptions C51_partial.
(** a target at a source point takes its value *)
Theorem C51_coincident : forall ref ds diffs, cell11 ds diffs -> at_ ds 0 <= / 10000000000 ->
  shepard_row ref (ds, diffs) = XF 1 :: repeat (XF 0) 10.
Proof. intros ref ds diffs [L _] H. rewrite shepard_row_coincident by exact H. rewrite L. reflexivity. Qed.
Print Assumptions C51_coincident.
(** the radius is the smallest distance: all weights of the cell are NaN *)
Theorem C51_equidistant : forall ref ds diffs, cell11 ds diffs -> / 10000000000 < at_ ds 0 ->
  at_ ds 0 = at_ ds 4 -> ref < at_ ds 0 \/ at_ ds 0 = at_ ds 10 -> ref <> at_ ds 0 -> shepard_row ref (ds, diffs) = repeat XNaN 11.
Proof.
  intros ref ds diffs [L [Ld [Hs _]]] He H4 Hr Hn. apply shepard_row_nan; try assumption. unfold shepard_radius. change nthR with at_.
  pose proof (sorted_nth ds 0 3 Hs ltac:(lia)). pose proof (sorted_nth ds 3 4 Hs ltac:(lia)). pose proof (sorted_nth ds 4 9 Hs ltac:(lia)). pose proof (sorted_nth ds 9 10 Hs ltac:(lia)).
  destruct (gtb (at_ ds 3) ref) eqn:E3; [exact H4|]. apply gtb_false in E3. destruct Hr as [Hr|Hr]; [lra|]. destruct (gtb (at_ ds 9) ref) eqn:E9; [|exact Hr]. apply gtb_spec in E9. lra.
Qed.
Print Assumptions C51_equidistant.
Theorem C51_refuted : ~ C51_full.
Proof.
  intro H. destruct (H 2 (repeat 1 11) (repeat (1, 0) 11) same_cell11) as [qs [E _]].
  rewrite C51_equidistant in E by (try exact same_cell11; cbn; lra). destruct qs as [|q qs]; discriminate E.
Qed.
Print Assumptions C51_refuted.
Example C51_nonvacuous : cell11 ex_ds ex_diffs /\ / 10000000000 < at_ ex_ds 0 /\ at_ ex_ds 0 < at_ ex_ds 3 /\ ~ (at_ ex_ds 0 <= / 10000000000).
Proof. split; [exact ex_cell11|]. cbn. repeat split; lra. Qed.

(** ** C67: the radius of the documentation *)
(** Shepard 1968 and the comments of the code: the fifth distance if at most
    four points are within the reference radius, the eleventh if more than ten
    are, the reference radius otherwise. The radius shows in the weights: the
    points at this distance or more have no weight, those nearer have. *)
Definition uses_radius (ref : R) (ds : list R) (diffs : list (R * R)) (r : R) : Prop :=
  exists qs, shepard_row ref (ds, diffs) = map XF qs /\ List.length qs = 11%nat /\ forall i, (i < 11)%nat -> (0 < at_ qs i <-> at_ ds i < r).
Definition C67_full : Prop := forall ref ds diffs, cell11 ds diffs -> / 10000000000 < at_ ds 0 -> at_ ds 0 < at_ ds 3 ->
  exists r, radius_rule 5 11 ref ds r /\ uses_radius ref ds diffs r.
Lemma uses_radius_code ref ds diffs : cell11 ds diffs -> / 10000000000 < at_ ds 0 -> at_ ds 0 < at_ ds 3 -> uses_radius ref ds diffs (shepard_radius ref ds).
Proof.
  intros [L [Ld [Hs _]]] He H3. pose proof (radius_above ref ds Hs L H3) as Hr. destruct (shepard_row_ok ref ds diffs L Ld Hs He Hr) as [ss [ts [qs [c [E [Ls [Lq [Hc [_ H]]]]]]]]].
  assert (P0 : 0 < / 10000000000) by lra.
  exists qs. split; [exact E|]. split; [exact Lq|]. intros i Hi. destruct (H i Hi) as [[S1 [S2 S3]] [_ [B [Eq Hz]]]]. set (r := shepard_radius ref ds) in *. clearbody r.
  pose proof (sorted_nth ds 0 i Hs ltac:(lia)) as H0.
  split.
  - intro P. apply Rnot_le_lt. intro C. rewrite (Hz C) in P. lra.
  - intro Hd. rewrite Eq. apply Rmult_lt_0_compat; [exact Hc|]. apply Rmult_lt_0_compat; [|lra]. apply pow2_pos.
    destruct (Rle_lt_dec (at_ ds i) (r / 3)) as [C|C].
    + rewrite (S1 C). apply Rgt_not_eq. apply Rinv_0_lt_compat. lra.
    + rewrite (S2 ltac:(lra)). apply Rgt_not_eq. apply Rmult_lt_0_compat; [apply Rdiv_pos; lra|]. apply pow2_pos. assert (at_ ds i / r < 1); [|lra].
      apply Rmult_lt_reg_r with r; [lra|]. unfold Rdiv. rewrite Rmult_assoc, Rinv_l; lra.
Qed.
Theorem C67_partial : forall ref ds diffs, cell11 ds diffs -> / 10000000000 < at_ ds 0 -> at_ ds 0 < at_ ds 3 -> within ref ds <> 4%nat -> within ref ds <> 10%nat ->
  exists r, radius_rule 5 11 ref ds r /\ uses_radius ref ds diffs r.
Proof.
  intros ref ds diffs C He H3 N4 N10. exists (shepard_radius ref ds). split; [|now apply uses_radius_code]. destruct C as [L [_ [Hs _]]].
  destruct (shepard_radius_rule ref ds Hs L) as [R1 [R2 R3]]. split; [intro; apply R1; lia|]. split; [intro; apply R2; lia|intro; apply R3; lia].
Qed.
Print Assumptions C67_partial.
(** exactly four, or exactly ten points within the reference radius *)
Theorem C67_refuted : ~ C67_full /\ (forall ref ds diffs, cell11 ds diffs -> / 10000000000 < at_ ds 0 -> at_ ds 0 < at_ ds 3 -> within ref ds = 4%nat -> uses_radius ref ds diffs ref) /\
  (forall ref ds diffs, cell11 ds diffs -> / 10000000000 < at_ ds 0 -> at_ ds 0 < at_ ds 3 -> within ref ds = 10%nat -> uses_radius ref ds diffs (at_ ds 10)).
Proof.
  split; [|split].
  - intro H. destruct (H 4 ex_ds ex_diffs ex_cell11 ltac:(cbn; lra) ltac:(cbn; lra)) as [r [[R1 _] [qs [E [L Hq]]]]].
    assert (W : within 4 ex_ds = 4%nat) by (unfold ex_ds; cbn [within]; repeat (destruct (Rle_dec _ _); [|try lra]); try lra; reflexivity).
    rewrite W in R1. specialize (R1 ltac:(lia)). change (at_ ex_ds 4) with 5 in R1. subst r.
    destruct (uses_radius_code 4 ex_ds ex_diffs ex_cell11 ltac:(cbn; lra) ltac:(cbn; lra)) as [qs' [E' [L' Hq']]].
    assert (Eq : qs = qs') by (rewrite E in E'; clear - E'; revert qs' E'; induction qs as [|q qs IH]; intros [|q' qs'] E'; [reflexivity|discriminate E'..|]; injection E' as E1 E2; subst; f_equal; now apply IH).
    subst qs'. assert (Rd : shepard_radius 4 ex_ds = 4). { unfold shepard_radius. change nthR with at_. destruct (gtb (at_ ex_ds 3) 4) eqn:G; [apply gtb_spec in G; cbn in G; lra|]. destruct (gtb (at_ ex_ds 9) 4) eqn:G9; [reflexivity|apply gtb_false in G9; cbn in G9; lra]. }
    rewrite Rd in Hq'. assert (A : 0 < at_ qs 3) by (apply Hq; [lia|cbn; lra]). apply Hq' in A; [|lia]. cbn in A. lra.
  - intros ref ds diffs C He H3 W. pose proof C as [L [_ [Hs _]]]. destruct (shepard_radius_rule ref ds Hs L) as [_ [R2 _]]. rewrite <- R2 at 2 by lia. now apply uses_radius_code.
  - intros ref ds diffs C He H3 W. pose proof C as [L [_ [Hs _]]]. destruct (shepard_radius_rule ref ds Hs L) as [_ [_ R3]]. rewrite <- R3 by lia. now apply uses_radius_code.
Qed.
Print Assumptions C67_refuted.
Example C67_nonvacuous : cell11 ex_ds ex_diffs /\ within 6 ex_ds = 6%nat /\ at_ ex_ds 0 < at_ ex_ds 3.
Proof. split; [exact ex_cell11|]. split; [unfold ex_ds; cbn [within]; repeat (destruct (Rle_dec _ _); [|try lra]); try lra; reflexivity|cbn; lra]. Qed.
