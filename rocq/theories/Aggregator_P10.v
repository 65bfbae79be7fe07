(** * Aggregator_P10: averages with half weights always succeed. *)
From Verif Require Import Base Num Aggregator Spec_Aggregation Base_P Num_P Aggregator_P Aggregator_P2 Aggregator_P4 Aggregator_P5.
Local Open Scope Z_scope.

Section Half.
  Variables (v : ofields) (n : nat).
  Hypothesis Hv : forall t a, dget Z.eqb v t = Some a -> asize a = n /\ wf_arr a.

  Lemma half_loop_total from to dt1 dt2 ts : forall s c, List.length s = n ->
    exists s' c', foldM (avg_half_body v from to dt1 dt2) ts (s, c) = Ok (s', c') /\ List.length s' = n.
  Proof.
    induction ts as [|t ts IH]; intros s c Hl; cbn [foldM]; [eauto|].
    unfold avg_half_body at 1. destruct (dget Z.eqb v t) as [a|] eqn:E; [|cbn [rbind]; apply IH; exact Hl].
    destruct (Hv t a E) as [Sa Wa]. set (w := if ((t =? from) || (t =? to - 1))%bool then dt2 else dt1).
    assert (Ls : List.length s = List.length (ma_scale_data a w)) by (rewrite ma_scale_length by exact Wa; congruence).
    rewrite ew2_ok by exact Ls. cbn [rbind]. apply IH. rewrite zipw_length, <- Ls, Nat.min_id. exact Hl.
  Qed.

  Lemma half_total step iter : exists s c, avg_half v n step iter = Ok (s, c) /\ List.length s = n.
  Proof.
    unfold avg_half. rewrite py_range_pos_ok by lia. cbn [rbind]. cbv zeta. destruct (0 <? _).
    - apply half_loop_total. apply zeros_length.
    - exists (zeros n), (nint 0). split; [reflexivity|apply zeros_length].
  Qed.
End Half.

Lemma by_end_sizes values n : same_size values n -> forall t a, dget Z.eqb (by_end_step values) t = Some a -> asize a = n /\ wf_arr a.
Proof. intros H t a Ht. apply by_end_step_get_weak in Ht as (k & Hk & _). exact (H k a Hk). Qed.

Theorem average_half_total : forall stype input unit s force start end_ sec values n,
  let g := aggr_init stype input unit s "average" true force start end_ sec in
  0 < s -> stype <> "accum"%string -> values <> [] -> same_size values n ->
  exists out, do_manipulation g values = Ok out.
Proof.
  intros stype input unit s force start end_ sec values n g Hs Ht Hne Hsz.
  change (exists out, average g values = Ok out). unfold average. change (a_step_type g) with stype.
  destruct (String.eqb_spec stype "accum") as [|_]; [contradiction|].
  destruct values as [|[k0 a0] rest] eqn:Ev; [contradiction|]. rewrite <- Ev in *. 
  assert (Hf : first_entry values = Ok (k0, a0)) by (rewrite Ev; reflexivity). rewrite Hf. cbn [rbind].
  assert (Hn0 : asize a0 = n) by (apply (Hsz k0 a0); rewrite Ev; left; reflexivity). rewrite Hn0.
  destruct (avg_bounds g) as [b e]. change (a_step g) with s. rewrite py_range_pos_ok by exact Hs. cbn [rbind].
  destruct (foldM_ok (avg_body g (by_end_step values) n (s_res k0) (s_level k0)) (fun _ => True)
    (map (fun i => b + Z.of_nat i * s) (seq 0 (range_len b e s))) []) as [out [H _]]; [|exact I|exists out; exact H].
  intros o t _ _. unfold avg_body. change (a_half g) with true. cbv iota. 
  destruct (half_total (by_end_step values) n (by_end_sizes values n Hsz) (a_step g) t) as (su & c & E & _). rewrite E. cbn [rbind].
  eexists. split; [reflexivity|exact I].
Qed.

Theorem average_half_size : forall stype input unit s force start end_ sec values n out,
  let g := aggr_init stype input unit s "average" true force start end_ sec in
  0 < s -> same_size values n -> do_manipulation g values = Ok out ->
  forall k a, In (k, a) out -> asize a = n.
Proof.
  intros stype input unit s force start end_ sec values n out g Hs Hsz H k a Hin.
  change (average g values = Ok out) in H.
  destruct (average_shape g values out Hs H) as [k0 [a0 [rest [iters [Ev [Hr HF]]]]]].
  assert (Hn0 : asize a0 = n) by (apply (Hsz k0 a0); rewrite Ev; left; reflexivity).
  destruct (Forall2_In_r _ _ _ _ HF Hin) as [t [Ht [Hk Ha]]]. cbn [fst snd] in Ha. rewrite Hn0 in Ha.
  unfold avg_field in Ha. change (a_half g) with true in Ha. cbv iota in Ha.
  destruct (half_total (by_end_step values) n (by_end_sizes values n Hsz) (a_step g) t) as (su & c & E & L). rewrite E in Ha. cbn [rbind fst snd] in Ha.
  injection Ha as <-. unfold asize. cbn [masked_where adata]. rewrite map_length. exact L.
Qed.

(** plain averages from step 0: enough that every window is covered *)
Theorem average_succeeds_zero : forall stype input unit s force end_ values n,
  let g := aggr_init stype input unit s "average" false force 0 end_ false in
  0 < s -> stype <> "accum"%string -> values <> [] ->
  one_per_step values -> same_size values n ->
  (exists u, available values u /\ forall t, on_grid 0 (end_ + 1 - s) s t -> t + s <= u) ->
  exists out, do_manipulation g values = Ok out.
Proof.
  intros stype input unit s force end_ values n g Hs Hty Hne Hone Hsz [u [Hu Hle]].
  change (exists out, average g values = Ok out). unfold average.
  change (a_step_type g) with stype. rewrite (proj2 (String.eqb_neq stype "accum") Hty).
  destruct values as [|[k0 a0] rest] eqn:Ev; [contradiction|]. rewrite <- Ev in *.
  assert (Hfe : first_entry values = Ok (k0, a0)) by (rewrite Ev; reflexivity). rewrite Hfe. cbn [rbind].
  assert (Hn0 : asize a0 = n) by (apply (Hsz k0 a0); rewrite Ev; left; reflexivity). rewrite Hn0.
  unfold avg_bounds. change (a_start g) with 0. change (a_sec g) with false. change (a_end g) with end_. change (a_step g) with s.
  cbn [Z.eqb orb].
  destruct (py_range 0 (end_ - s + 2) s) as [iters|] eqn:Er; [|rewrite py_range_pos_ok in Er by lia; discriminate].
  cbn [rbind]. erewrite foldM_ext by (intros; apply avg_body_eq).
  apply (dset_loop_ok _ (fun t => mkStep t (t + a_step g) (s_res k0) (a_step g) (s_level k0))).
  intros t Ht. apply (on_grid_range _ _ _ _ t Hs Er) in Ht. replace (end_ - s + 2 - 1) with (end_ + 1 - s) in Ht by lia.
  unfold avg_field. change (a_half g) with false. change (a_step g) with s. cbn match.
  destruct (avg_plain_succeeds values n s t Hone Hsz Hs) as [sc Hsc]; [exists u; split; [exact Hu|now apply Hle]|].
  rewrite Hsc. cbn [rbind]. eauto.
Qed.
