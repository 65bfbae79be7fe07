(** * Property C110: accumulations with missing steps in double precision
    (Float64.v, AggregatorWith.v). Vocabulary: Spec_Float.v, Spec_Aggregation.v,
    Spec_Aggregation2.v. *)
From Coq Require Import Lia List Qcabs.
From Verif Require Import Base Num Float64 Aggregator AggregatorWith Spec_Aggregation Spec_Aggregation2 Spec_Float
  Base_P Num_P Aggregator_P Aggregator_P2 Aggregator_P4 AggregatorWith_P AggregatorWith_P2 AggregatorWith_P4 Float64_P Float_Agg_P Float_Line_P Props_Aggregation Props_Aggregation2 Props_Float.
Local Open Scope string_scope.
Local Open Scope Z_scope.

(** cell [i] of the fields never decreases with the step, and is not negative
    when the forecast has no field for its start *)
Definition rising (values : fields) (i : nat) : Prop :=
  (forall t t' c c' x x', has_field values t c -> has_field values t' c' -> t <= t' -> cell c i x -> cell c' i x' -> (x <= x')%Qc) /\
  (available values 0 \/ forall t c x, has_field values t c -> cell c i x -> (0 <= x)%Qc).
(** cell [i] is the same in all fields, and zero when there is no field for
    the start *)
Definition flat (values : fields) (i : nat) : Prop :=
  exists x0, (forall t c x, has_field values t c -> cell c i x -> x = x0) /\ (available values 0 \/ x0 = 0%Qc).

(** the value used at a step *)
Definition dvalue (values : fields) (k : Z) (i : nat) (v : Qc) : Prop :=
  (k = 0 /\ ~ available values 0 /\ v = 0%Qc) \/
  (exists c, has_field values k c /\ cell c i v) \/
  (exists lo hi cl ch xl xh, gap values lo k hi /\ has_field values lo cl /\ has_field values hi ch /\ cell cl i xl /\ cell ch i xh /\ v = line64 xl xh (k - lo) (hi - lo)).

Lemma field_same values t c c' : one_per_step values -> has_field values t c -> has_field values t c' -> c = c'.
Proof. intros H A B. apply (by_end_step_get _ _ _ H) in A, B. congruence. Qed.

Section Order.
  Variables (values : fields) (i : nat).
  Hypothesis Hone : one_per_step values.
  Hypothesis Hd : double_fields values.
  Hypothesis Hr : rising values i.
  Hypothesis Hb : forall t, available values t -> 0 <= t <= 2 ^ 20.

  Lemma av t c : has_field values t c -> available values t.
  Proof. intro H. exists c. exact H. Qed.
  Lemma line_between k lo hi cl ch xl xh : gap values lo k hi -> has_field values lo cl -> has_field values hi ch -> cell cl i xl -> cell ch i xh ->
    (xl <= xh)%Qc /\ (xl <= line64 xl xh (k - lo) (hi - lo))%Qc /\ (line64 xl xh (k - lo) (hi - lo) <= xh)%Qc.
  Proof using Hone Hd Hr Hb.
    intros [Hlt [_ [_ _]]] Hl Hh Xl Xh. destruct (double_cell _ _ _ _ _ Hd Hl Xl) as [R1 B1]. destruct (double_cell _ _ _ _ _ Hd Hh Xh) as [R2 B2].
    pose proof (Hb _ (av _ _ Hl)) as L1. pose proof (Hb _ (av _ _ Hh)) as L2.
    assert (Hx : (xl <= xh)%Qc) by (apply (proj1 Hr lo hi cl ch); auto; lia).
    split; [exact Hx|]. split; [apply line64_low|apply line64_high]; auto; lia.
  Qed.

  Lemma dvalue_double k v : dvalue values k i v -> round64 v = v /\ (Qcabs v <= ZQ (2 ^ 900))%Qc.
  Proof using Hone Hd Hr Hb.
    intros [[_ [_ ->]]|[[c [Hc Hx]]|[lo [hi [cl [ch [xl [xh [Hg [Hl [Hh [Xl [Xh ->]]]]]]]]]]]]].
    - split; [exact round64_0|vm_compute; discriminate].
    - exact (double_cell _ _ _ _ _ Hd Hc Hx).
    - destruct (line_between k lo hi cl ch xl xh Hg Hl Hh Xl Xh) as [Hx _].
      destruct (double_cell _ _ _ _ _ Hd Hl Xl) as [R1 B1]. destruct (double_cell _ _ _ _ _ Hd Hh Xh) as [R2 B2].
      pose proof (Hb _ (av _ _ Hl)) as L1. pose proof (Hb _ (av _ _ Hh)) as L2. destruct Hg as [Hlt _].
      split; [apply round64_idem|]. apply line64_num; auto; lia.
  Qed.

  Lemma dvalue_order k1 k2 v1 v2 : k1 < k2 -> dvalue values k1 i v1 -> dvalue values k2 i v2 -> (v1 <= v2)%Qc.
  Proof using Hone Hd Hr Hb.
    intros Hk H1 H2.
    destruct H1 as [[-> [N1 ->]]|[[c1 [Hc1 Hx1]]|[lo1 [hi1 [cl1 [ch1 [xl1 [xh1 [Hg1 [Hl1 [Hh1 [Xl1 [Xh1 ->]]]]]]]]]]]]];
    destruct H2 as [[-> [N2 ->]]|[[c2 [Hc2 Hx2]]|[lo2 [hi2 [cl2 [ch2 [xl2 [xh2 [Hg2 [Hl2 [Hh2 [Xl2 [Xh2 ->]]]]]]]]]]]]].
    - lia.
    - destruct (proj2 Hr) as [H|H]; [contradiction|]. exact (H _ _ _ Hc2 Hx2).
    - destruct (line_between _ _ _ _ _ _ _ Hg2 Hl2 Hh2 Xl2 Xh2) as [_ [L _]]. destruct (proj2 Hr) as [H|H]; [contradiction|].
      apply Qcle_trans with xl2; [exact (H _ _ _ Hl2 Xl2)|exact L].
    - pose proof (Hb _ (av _ _ Hc1)). lia.
    - apply (proj1 Hr k1 k2 c1 c2); auto; lia.
    - destruct (line_between _ _ _ _ _ _ _ Hg2 Hl2 Hh2 Xl2 Xh2) as [_ [L _]]. apply Qcle_trans with xl2; [|exact L].
      destruct Hg2 as [Q1 [_ [_ Q2]]]. apply (proj1 Hr k1 lo2 c1 cl2); auto. destruct (Q2 _ (av _ _ Hc1)); lia.
    - pose proof (Hb _ (av _ _ Hl1)). destruct Hg1 as [? _]. lia.
    - destruct (line_between _ _ _ _ _ _ _ Hg1 Hl1 Hh1 Xl1 Xh1) as [_ [_ L]]. apply Qcle_trans with xh1; [exact L|].
      destruct Hg1 as [Q1 [_ [_ Q2]]]. apply (proj1 Hr hi1 k2 ch1 c2); auto. destruct (Q2 _ (av _ _ Hc2)); lia.
    - pose proof Hg1 as [P1 [_ [_ P2]]]. pose proof Hg2 as [Q1 [_ [_ Q2]]].
      destruct (Z_le_dec hi1 lo2) as [Hle|Hle].
      + destruct (line_between _ _ _ _ _ _ _ Hg1 Hl1 Hh1 Xl1 Xh1) as [_ [_ L]]. apply Qcle_trans with xh1; [exact L|].
        destruct (line_between _ _ _ _ _ _ _ Hg2 Hl2 Hh2 Xl2 Xh2) as [_ [L' _]]. apply Qcle_trans with xl2; [|exact L'].
        apply (proj1 Hr hi1 lo2 ch1 cl2); auto.
      + assert (lo2 = lo1) by (destruct (P2 _ (av _ _ Hl2)); destruct (Q2 _ (av _ _ Hl1)); lia). subst lo2.
        assert (hi2 = hi1) by (destruct (P2 _ (av _ _ Hh2)); destruct (Q2 _ (av _ _ Hh1)); lia). subst hi2.
        rewrite (field_same _ _ _ _ Hone Hl2 Hl1) in Xl2. rewrite (field_same _ _ _ _ Hone Hh2 Hh1) in Xh2.
        unfold cell in *. rewrite Xl1 in Xl2. rewrite Xh1 in Xh2. injection Xl2 as <-. injection Xh2 as <-.
        apply line64_mono; try lia. apply (proj1 Hr lo1 hi1 cl1 ch1); auto; lia.
  Qed.
End Order.

Lemma flat_rising values i : flat values i -> rising values i.
Proof.
  intros [x0 [H H0]]. split.
  - intros t t' c c' x x' Hc Hc' _ Hx Hx'. rewrite (H _ _ _ Hc Hx), (H _ _ _ Hc' Hx'). apply Qcle_refl.
  - destruct H0 as [H0| ->]; [left; exact H0|right]. intros t c x Hc Hx. rewrite (H _ _ _ Hc Hx). apply Qcle_refl.
Qed.
Lemma flat_value values i k v : one_per_step values -> double_fields values -> (forall t, available values t -> 0 <= t <= 2 ^ 20) ->
  forall x0, (forall t c x, has_field values t c -> cell c i x -> x = x0) -> (available values 0 \/ x0 = 0%Qc) -> dvalue values k i v -> v = x0.
Proof.
  intros Hone Hd Hb x0 H H0 Hv. assert (Hr : rising values i) by (apply flat_rising; exists x0; auto).
  destruct Hv as [[_ [N ->]]|[[c [Hc Hx]]|[lo [hi [cl [ch [xl [xh [Hg [Hl [Hh [Xl [Xh ->]]]]]]]]]]]]].
  - destruct H0 as [H0|H0]; [contradiction|congruence].
  - exact (H _ _ _ Hc Hx).
  - destruct (line_between values i Hone Hd Hr Hb k lo hi cl ch xl xh Hg Hl Hh Xl Xh) as [_ [L1 L2]].
    rewrite (H _ _ _ Hl Xl), (H _ _ _ Hh Xh) in *. apply Qcle_antisym; assumption.
Qed.

Lemma right_value values n k f i : same_size values n -> one_per_step values -> double_fields values -> rising values i ->
  (forall t, available values t -> 0 <= t <= 2 ^ 20) -> (i < n)%nat ->
  AggregatorWith_P4.right fadd fsub fmul fdiv values n k f -> exists v, nth_error (adata f) i = Some (Fin v) /\ dvalue values k i v.
Proof.
  intros Hn Hone Hd Hr Hb Hi [Sf H].
  assert (Hcell : forall t c, has_field values t c -> exists x, cell c i x).
  { intros t c Hc. destruct (cells_cell _ _ _ _ _ Hn Hc Hi) as [x [Hx Hin]]. destruct Hc as [k0 [Hk0 _]].
    destruct (Hd _ _ Hk0 _ Hin) as [q [-> _]]. exists q. exact Hx. }
  destruct H as [[-> [N ->]]|[H|[lo [hi [cl [ch [d [Hg [Hl [Hh [Ed ->]]]]]]]]]]].
  - exists 0%Qc. split; [|left; auto]. cbn [adata]. unfold zeros. apply nth_error_repeat. exact Hi.
  - destruct (Hcell _ _ H) as [x Hx]. exists x. split; [exact Hx|]. right. left. exists f. auto.
  - destruct (Hcell _ _ Hl) as [xl Xl]. destruct (Hcell _ _ Hh) as [xh Xh]. exists (line64 xl xh (k - lo) (hi - lo)). split.
    + rewrite adata_masked_where. unfold lin_expr_with in Ed. apply rbind_ok in Ed as [df [D1 D2]].
      apply ew2_inv in D1 as [_ ->]. apply ew2_inv in D2 as [_ ->].
      rewrite (nth_error_zipw fadd _ _ i (Fin xl) (fmul (fsub (Fin xh) (Fin xl)) (fdiv (nint (k - lo)) (nint (hi - lo))))).
      * f_equal. destruct (line_between values i Hone Hd Hr Hb k lo hi cl ch xl xh Hg Hl Hh Xl Xh) as [Hx _].
        destruct (double_cell _ _ _ _ _ Hd Hl Xl) as [R1 B1]. destruct (double_cell _ _ _ _ _ Hd Hh Xh) as [R2 B2].
        pose proof (Hb lo ltac:(exists cl; exact Hl)). pose proof (Hb hi ltac:(exists ch; exact Hh)). destruct Hg as [Hlt _].
        apply line64_num; auto; lia.
      * exact Xl.
      * rewrite nth_error_map, (nth_error_zipw fsub _ _ i (Fin xh) (Fin xl)); [reflexivity|exact Xh|exact Xl].
    + right. right. exists lo, hi, cl, ch, xl, xh. auto 10.
Qed.

(** Also at missing steps, interpolated with rounding: the windows of a cell
    that never decreases are not negative, and those of a constant one are
    zero. *)
Theorem C110_gaps : forall stype input unit s half start end_ sec values n,
  let g := aggr_init stype input unit s "accumulation" half false start end_ sec in
  let first := first_window start s in
  values <> [] -> 1 <= s <= 2 ^ 53 -> 0 <= unit <= 2 ^ 53 -> 0 <= start -> one_per_step values -> same_size values n -> double_fields values ->
  (forall t, available values t -> 0 <= t <= 2 ^ 20) ->
  (forall t, on_grid first end_ s t -> available values t \/ exists lo hi, gap values lo t hi) ->
  enough_later values first end_ s ->
  available values (first - s) \/ first = s ->
  exists out, do_manipulation64 g values = Ok out /\
    forall k a, In (k, a) out -> forall i, (i < n)%nat -> rising values i ->
    exists r, cell a i r /\ (0 <= r)%Qc /\ (flat values i -> r = 0%Qc).
Proof.
  intros stype input unit s half start end_ sec values n g first Hne Hs Hu Hst Hone Hn Hd Hb Hav Hen H0.
  destruct (gap_windows fadd fsub fmul fdiv stype input unit s half start end_ sec values n Hne ltac:(lia) Hst Hone Hn Hav Hen H0) as [out [Ho Hw]].
  exists out. split; [exact Ho|]. intros k a Hin i Hi Hr.
  destruct (Hw k a Hin) as [Ek [_ [f [p [Rf [Rp Ha]]]]]].
  destruct (right_value _ _ _ _ _ Hn Hone Hd Hr Hb Hi Rf) as [x [Hx Vx]]. destruct (right_value _ _ _ _ _ Hn Hone Hd Hr Hb Hi Rp) as [y [Hy Vy]].
  destruct (dvalue_double values i Hone Hd Hr Hb _ _ Vx) as [Rx Bx]. destruct (dvalue_double values i Hone Hd Hr Hb _ _ Vy) as [Ry By].
  assert (Hxy : (y <= x)%Qc) by (apply (dvalue_order values i Hone Hd Hr Hb (s_start k) (s_end k)); [lia|exact Vy|exact Vx]).
  destruct (acc_cell64 x y unit s Rx Ry Bx By Hu Hs) as [r [Er [S1 [S2 _]]]].
  exists r. split; [|split; [exact (S1 Hxy)|]].
  - unfold acc_out_with in Ha. apply rbind_ok in Ha as [vi [H1 Ha]]. apply rbind_ok in Ha as [df [H2 Ha]]. injection Ha as <-.
    apply ew2_inv in H1 as [L1 ->]. apply ew2_inv in H2 as [L2 ->].
    unfold cell. rewrite adata_masked_where, nth_error_map.
    rewrite (nth_error_zipw fsub _ _ i (fadd (Fin 0) (Fin x)) (Fin y)); [cbn [option_map]; now rewrite Er| |exact Hy].
    apply (nth_error_zipw fadd _ _ i (Fin 0) (Fin x)); [|exact Hx]. unfold zeros. apply nth_error_repeat. exact Hi.
  - intros [x0 [F1 F2]]. apply Qcle_antisym; [|exact (S1 Hxy)]. apply S2.
    rewrite (flat_value values i _ _ Hone Hd Hb x0 F1 F2 Vx), (flat_value values i _ _ Hone Hd Hb x0 F1 F2 Vy). apply Qcle_refl.
Qed.
Print Assumptions C110_gaps.

(** tenths of a millimetre with three steps and the start missing; the second
    cell is dry *)
Definition dgaps : fields :=
  [(st 3, Nd [tenth 1; tenth 0]); (st 18, Nd [tenth 7; tenth 0]); (st 24, Nd [tenth 9; tenth 0]); (st 36, Nd [tenth 15; tenth 0]); (st 42, Nd [tenth 19; tenth 0]);
   (st 48, Nd [tenth 23; tenth 0]); (st 54, Nd [tenth 24; tenth 0]); (st 60, Nd [tenth 24; tenth 0]); (st 66, Nd [tenth 30; tenth 0])].
Lemma dgaps_available t : available dgaps t <-> In t [3; 18; 24; 36; 42; 48; 54; 60; 66].
Proof. apply avail_iff. Qed.
Lemma dgaps_double : double_fields dgaps.
Proof.
  intros k a H x Hx. in_cases H; cbn in Hx; repeat (destruct Hx as [<-|Hx]; [eexists; split; [reflexivity|split; [apply round64_idem|vm_compute; discriminate]]|]); destruct Hx.
Qed.
Lemma dgaps_cells t c : has_field dgaps t c -> exists z, 0 <= z /\ In (t, z) [(3, 1); (18, 7); (24, 9); (36, 15); (42, 19); (48, 23); (54, 24); (60, 24); (66, 30)] /\ c = Nd [tenth z; tenth 0].
Proof.
  intros [k [H Ek]]. in_cases H; cbn in Ek; subst t; eexists; (split; [|split; [cbn [In]|reflexivity]]); [lia|tauto|lia|tauto|lia|tauto|lia|tauto|lia|tauto|lia|tauto|lia|tauto|lia|tauto|lia|tauto].
Qed.
Lemma tenth_le a b : a <= b -> (round64 (ZQ a / ZQ 10) <= round64 (ZQ b / ZQ 10))%Qc.
Proof.
  intro H. apply round64_le. unfold Qcdiv. apply Qcmult_le_compat_r; [|vm_compute; discriminate].
  unfold ZQ, Qcle. cbn [this Q2Qc]. rewrite !Qred_correct. rewrite <- Zle_Qle. exact H.
Qed.
Lemma dgaps_rising : rising dgaps 0.
Proof.
  split.
  - intros t t' c c' x x' Hc Hc' Ht Hx Hx'. apply dgaps_cells in Hc as [z [_ [Hz ->]]]. apply dgaps_cells in Hc' as [z' [_ [Hz' ->]]].
    injection Hx as <-. injection Hx' as <-. apply tenth_le. cbn [In] in Hz, Hz'.
    repeat (destruct Hz as [Hz|Hz]; [injection Hz as <- <-; repeat (destruct Hz' as [Hz'|Hz']; [injection Hz' as <- <-; lia|]); destruct Hz'|]). destruct Hz.
  - right. intros t c x Hc Hx. apply dgaps_cells in Hc as [z [Hz0 [_ ->]]]. injection Hx as <-.
    apply Qcle_trans with (round64 (ZQ 0 / ZQ 10)); [vm_compute; discriminate|]. apply tenth_le. exact Hz0.
Qed.
Lemma dgaps_flat : flat dgaps 1.
Proof.
  exists 0%Qc. split; [|right; reflexivity]. intros t c x Hc Hx. apply dgaps_cells in Hc as [z [_ [_ ->]]]. injection Hx as <-. apply Qc_is_canon. vm_compute. reflexivity.
Qed.
Example C110_gaps_nonvacuous : one_per_step dgaps /\ same_size dgaps 2 /\ double_fields dgaps /\ (forall t, available dgaps t -> 0 <= t <= 2 ^ 20) /\
  (forall t, on_grid (first_window 0 6) 48 6 t -> available dgaps t \/ exists lo hi, gap dgaps lo t hi) /\
  enough_later dgaps (first_window 0 6) 48 6 /\ ~ available dgaps 0 /\ rising dgaps 0 /\ flat dgaps 1 /\
  (exists out, do_manipulation64 (aggr_init "accum" 6 24 6 "accumulation" false false 0 48 false) dgaps = Ok out /\ List.length out = 8%nat).
Proof.
  pose proof dgaps_available as Ha.
  split; [show_nodup|]. split; [show_size|]. split; [exact dgaps_double|]. split.
  { intros t Ht. apply Ha in Ht. cbn [In] in Ht. lia. }
  split; [|split; [|split; [|split; [exact dgaps_rising|split; [exact dgaps_flat|]]]]].
  - intros t [j [Hj [-> Hle]]]. change (first_window 0 6) with 6 in *.
    assert (Hc : In (6 + j * 6) [3; 18; 24; 36; 42; 48; 54; 60; 66] \/ 6 + j * 6 = 6 \/ 6 + j * 6 = 12 \/ 6 + j * 6 = 30) by (cbn [In]; lia).
    destruct Hc as [Hc|[-> |[-> | ->]]]; [left; apply Ha; exact Hc|right; exists 3, 18|right; exists 3, 18|right; exists 24, 36];
      (split; [lia|]; split; [apply Ha; cbn [In]; lia|]; split; [apply Ha; cbn [In]; lia|]; intros u Hu; apply Ha in Hu; cbn [In] in Hu; lia).
  - intros t l [j [Hj [-> Hle]]] Hn Hd Hl. change (first_window 0 6) with 6 in *.
    exists [36; 42; 48; 54; 60]. split; [show_nodup|]. split.
    + assert (Hc : 6 + j * 6 = 6 \/ 6 + j * 6 = 12 \/ 6 + j * 6 = 30) by (rewrite Ha in Hn; cbn [In] in Hn; lia).
      intros u Hu. split; [apply Ha; cbn [In] in Hu |- *; lia|]. cbn [In] in Hu. lia.
    + assert (Hi : incl l [0; 6; 12; 30]).
      { intros u Hu. destruct (Hl u Hu) as [[k [Hk [-> Hk2]]] [_ Hnu]]. rewrite Ha in Hnu. cbn [In] in Hnu |- *. lia. }
      pose proof (NoDup_incl_length Hd Hi). cbn [List.length] in *. lia.
  - rewrite Ha. cbn [In]. lia.
  - vm_compute. eexists. split; reflexivity.
Qed.
