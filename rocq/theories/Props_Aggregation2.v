(** * C04: any number of missing steps *)
From Verif Require Import Base Num Aggregator Spec_Aggregation Spec_Aggregation2 Aggregator_P8 Props_Aggregation.
From Coq Require Import Lia List.
Local Open Scope Z_scope.

(** any number of missing steps, adjacent or not: each is the linear
    interpolation between the nearest fields, as long as at each of them there
    are more fields for later steps than steps reconstructed before. A missing
    start of the forecast counts as zero. *)
Theorem C04_gaps_partial : forall stype input unit s half start end_ sec values n,
  let g := aggr_init stype input unit s "accumulation" half false start end_ sec in
  let first := first_window start s in
  values <> [] -> 0 < s -> 0 <= start -> one_per_step values -> same_size values n ->
  (forall t, on_grid first end_ s t -> available values t \/ exists lo hi, gap values lo t hi) ->
  enough_later values first end_ s ->
  available values (first - s) \/ first = s ->
  exists out k0 a0 rest,
    values = (k0, a0) :: rest /\
    do_manipulation g values = Ok out /\
    NoDup (map fst out) /\
    (forall k, In k (map fst out) <->
       exists t, on_grid first end_ s t /\ k = mkStep (t - s) t (s_res k0) s (s_level k0)) /\
    (forall k a, In (k, a) out -> forall i x y,
       series_value values (s_end k) i x -> accum_value values (s_start k) i y ->
       cell a i ((x - y) * ZQ unit / ZQ s)%Qc).
Proof. exact accumulation_gaps. Qed.
Print Assumptions C04_gaps_partial.

(** three steps missing, two of them adjacent, and the start of the forecast:
    the hypotheses hold, and the run gives 8 windows *)
Definition rain_gaps : fields :=
  [(st 3, fld [1]); (st 18, fld [7]); (st 24, fld [9]); (st 36, fld [15]); (st 42, fld [19]); (st 48, fld [23]);
   (st 54, fld [24]); (st 60, fld [24]); (st 66, fld [30])].
Example C04_gaps_nonvacuous : one_per_step rain_gaps /\ same_size rain_gaps 1 /\
  (forall t, on_grid (first_window 0 6) 48 6 t -> available rain_gaps t \/ exists lo hi, gap rain_gaps lo t hi) /\
  enough_later rain_gaps (first_window 0 6) 48 6 /\ ~ available rain_gaps 0 /\
  (exists out, do_manipulation (aggr_init "accum" 6 24 6 "accumulation" false false 0 48 false) rain_gaps = Ok out /\ List.length out = 8%nat).
Proof.
  assert (Ha : forall t, available rain_gaps t <-> In t [3; 18; 24; 36; 42; 48; 54; 60; 66]) by (intro t; apply avail_iff).
  split; [show_nodup|]. split; [show_size|]. split; [|split; [|split]].
  - intros t [j [Hj [-> Hle]]]. change (first_window 0 6) with 6 in *.
    assert (Hc : In (6 + j * 6) [3; 18; 24; 36; 42; 48; 54; 60; 66] \/ 6 + j * 6 = 6 \/ 6 + j * 6 = 12 \/ 6 + j * 6 = 30) by (cbn [In]; lia).
    destruct Hc as [Hc|[-> |[-> | ->]]]; [left; apply Ha; exact Hc|right; exists 3, 18|right; exists 3, 18|right; exists 24, 36];
      (split; [lia|]; split; [apply Ha; cbn [In]; lia|]; split; [apply Ha; cbn [In]; lia|]; intros u Hu; apply Ha in Hu; cbn [In] in Hu; lia).
  - intros t l [j [Hj [-> Hle]]] Hn Hd Hl. change (first_window 0 6) with 6 in *.
    exists [36; 42; 48; 54; 60]. split; [show_nodup|]. split.
    + assert (Hc : 6 + j * 6 = 6 \/ 6 + j * 6 = 12 \/ 6 + j * 6 = 30) by (rewrite Ha in Hn; cbn [In] in Hn; lia).
      intros u Hu. split; [apply Ha; cbn [In] in Hu |- *; lia|]. cbn [In] in Hu. lia.
    + assert (Hi : incl l [0; 6; 12; 30]).
      { intros u Hu. destruct (Hl u Hu) as [[k [Hk [-> Hk2]]] [_ Hnu]]. rewrite Ha in Hnu. cbn [In] in Hnu |- *. lia. }
      pose proof (NoDup_incl_length Hd Hi). cbn [List.length] in *. lia.
  - rewrite Ha. cbn [In]. lia.
  - vm_compute. eexists. split; reflexivity.
Qed.
