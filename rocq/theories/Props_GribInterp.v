(** * Props_GribInterp: theorems for C44-C47 *)
From Verif Require Import Base Num Strings GribInterp Spec_GribInterp Base_P Num_P GribInterp_P GribInterp_P2 GribInterp_P3.
Local Open Scope Z_scope.

(** ** C44: applying a table *)
(** any grib_nearest table whose rows name distinct cells of the map and points
    of the field *)
Theorem C44_nearest_table : forall rows cols mv v (rs : list (Z * Z * Z)), wf_arr v ->
  (forall x y k, In (x, y, k) rs -> in_map rows cols x y /\ in_field v k) -> NoDup (map fst rs) ->
  exists out, apply_nearest rows cols mv v (map (fun r => fst (fst r)) rs, map (fun r => snd (fst r)) rs, map snd rs) = Ok out /\
    List.length out = (rows * cols)%nat /\
    (forall x y k, In (x, y, k) rs -> nth_error out (place cols x y) = Some (point v mv k)) /\
    (forall x y, in_map rows cols x y -> ~ In (x, y) (map fst rs) -> nth_error out (place cols x y) = Some mv).
Proof. exact apply_nearest_any. Qed.
Print Assumptions C44_nearest_table.
(** any grib_invdist table *)
Theorem C44_invdist_table : forall rows cols mv v (rs : list trow), wf_arr v ->
  (forall r, In r rs -> in_map rows cols (r_x r) (r_y r) /\ in_field v (r_k1 r) /\ in_field v (r_k2 r) /\ in_field v (r_k3 r) /\ in_field v (r_k4 r)) ->
  NoDup (map (fun r => (r_x r, r_y r)) rs) ->
  exists out, apply_invdist rows cols mv v (table_of rs) = Ok out /\ List.length out = (rows * cols)%nat /\
    (forall r, In r rs -> nth_error out (place cols (r_x r) (r_y r)) = Some (row_value v mv r)) /\
    (forall x y, in_map rows cols x y -> ~ In (x, y) (map (fun r => (r_x r, r_y r)) rs) -> nth_error out (place cols x y) = Some mv).
Proof. exact apply_invdist_any. Qed.
Print Assumptions C44_invdist_table.

(** building a table and applying it, nearest neighbour *)
Theorem C44_nearest_end_to_end : forall f mv rows cols coords v, wf_arr v -> good_api f (asize v) ->
  (forall p, In p coords -> snd p <> NaN) -> (0 < rows)%nat -> (0 < cols)%nat -> List.length coords = (rows * cols)%nat ->
  exists t out, grib_nearest_parallel f rows cols coords mv = Ok t /\ apply_nearest rows cols mv v t = Ok out /\ List.length out = List.length coords /\
    forall i lat lon r, nth_error coords i = Some (lat, lon) -> nth_error out i = Some r ->
      (no_target mv lon -> r = mv) /\ (find1 f lat lon = None -> r = mv) /\
      (~ no_target mv lon -> forall k, find1 f lat lon = Some k -> r = point v mv k).
Proof.
  intros f mv rows cols coords v Hw Hf Hg Hr Hc Hl. eexists _, _.
  split; [apply (near_table_builds f (asize v)); assumption|]. split.
  - apply apply_nearest_ok; [exact Hl|exact Hw|]. intros p k _ Hk. unfold near_row in Hk. destruct (_ || _)%bool; [discriminate|]. exact (proj1 Hf _ _ _ Hk).
  - split; [now rewrite map_length|]. intros i lat lon r Hi Ho. rewrite nth_error_map, Hi in Ho. cbn [option_map] in Ho.
    assert (Er : r = cell_value (near_row f mv) (point v mv) mv (lat, lon)) by congruence. clear Ho. subst r.
    pose proof (no_target_spec mv lon (Hg _ (nth_error_In _ _ Hi))) as Ht. unfold cell_value, near_row. cbn [fst snd] in *.
    destruct (nleb lon low_lon || neqb lon mv)%bool.
    + split; [reflexivity|]. split; [reflexivity|]. intro C. exfalso. apply C. now apply Ht.
    + split; [intro C; apply Ht in C; discriminate C|]. split; [now intros ->|]. intros _ k ->. reflexivity.
Qed.
Print Assumptions C44_nearest_end_to_end.

(** full statement for inverse distance *)
Definition C44_invdist_full : Prop := forall f mv rows cols coords v, wf_arr v -> good_api f (asize v) -> (0 < asize v)%nat ->
  (forall p, In p coords -> snd p <> NaN) -> (0 < rows)%nat -> (0 < cols)%nat -> List.length coords = (rows * cols)%nat ->
  exists t out, grib_invdist_parallel f rows cols coords mv = Ok t /\ apply_invdist rows cols mv v t = Ok out /\ List.length out = List.length coords /\
    forall i lat lon r, nth_error coords i = Some (lat, lon) -> nth_error out i = Some r ->
      (no_target mv lon -> r = mv) /\ (find4 f lat lon = None -> r = mv) /\
      (~ no_target mv lon -> forall l, find4 f lat lon = Some l -> idw_value v mv l r).
(** an exact match uses points 0, 0, 0 with coefficient 0: if point 0 of the
    field is masked the cell is missing although its own point is not *)
Definition ex_exact : grib_api := mkApi (fun _ _ => Some 1) (fun _ _ => Some [(1, nint 0); (0, nint 1); (0, nint 1); (0, nint 1)]).
Definition ex_field : arr := Ma [nint 5; nint 7] (Some [true; false]).
Lemma ex_exact_good : good_api ex_exact (asize ex_field).
Proof.
  split; intros lat lon k H; cbn in H.
  - injection H as <-. cbn. lia.
  - injection H as <-. exists 1, 0, 0, 0, 0%Qc, 1%Qc, 1%Qc, 1%Qc. unfold nint. rewrite ZQ_0, ZQ_1. split; [reflexivity|].
    repeat split; try (vm_compute; congruence); cbn; lia.
Qed.
Theorem C44_masked_first_point_refuted : ~ C44_invdist_full.
Proof.
  intro H. destruct (H ex_exact (nint (-9999)) 1%nat 1%nat [(nint 45, nint 5)] ex_field) as [t [out [H1 [H2 [H3 H4]]]]].
  - reflexivity.
  - exact ex_exact_good.
  - cbn. lia.
  - intros p [<-|[]]. discriminate.
  - lia.
  - lia.
  - reflexivity.
  - assert (Et : (do t <- grib_invdist_parallel ex_exact 1 1 [(nint 45, nint 5)] (nint (-9999)); apply_invdist 1 1 (nint (-9999)) ex_field t) = Ok [nint (-9999)]) by (vm_compute; reflexivity).
    rewrite H1 in Et. cbn [rbind] in Et. rewrite H2 in Et. assert (Eo : out = [nint (-9999)]) by congruence. subst out.
    destruct (H4 0%nat _ _ _ eq_refl eq_refl) as [_ [_ H5]].
    assert (Hn : ~ no_target (nint (-9999)) (nint 5)).
    { intros [C|[C|[q [C1 C2]]]]; [|discriminate C|].
      - apply (f_equal (fun x => num_same x (nint 5))) in C. vm_compute in C. discriminate C.
      - unfold nint in C1. assert (E : q = ZQ 5) by congruence. subst q. vm_compute in C2. congruence. }
    specialize (H5 Hn _ eq_refl). destruct H5 as [k1 [k2 [k3 [k4 [d1 [d2 [d3 [d4 [E [H6 _]]]]]]]]]].
    assert (E1 : k1 = 1) by congruence. assert (E2 : d1 = 0%Qc) by (rewrite <- ZQ_0; unfold nint in E; congruence).
    specialize (H6 E2). subst k1. apply (f_equal (fun x => num_same x (nint 7))) in H6. vm_compute in H6. discriminate H6.
Qed.
Print Assumptions C44_masked_first_point_refuted.
(** a longitude of exactly -1e10 (outside the target area for grib_nearest)
    leaves the table with fewer cells than coefficients: applying it fails *)
Theorem C44_low_longitude : exists f mv rows cols coords v t, wf_arr v /\ good_api f (asize v) /\ List.length coords = (rows * cols)%nat /\
  (forall p, In p coords -> snd p <> NaN) /\
  grib_invdist_parallel f rows cols coords mv = Ok t /\ apply_invdist rows cols mv v t = Raise ValueError.
Proof.
  exists ex_exact, (nint (-9999)), 1%nat, 3%nat, [(nint 45, low_lon); (nint 45, nint 5); (nint 45, nint 6)], ex_field. eexists.
  split; [reflexivity|]. split; [exact ex_exact_good|]. split; [reflexivity|]. split; [intros p [<-|[<-|[<-|[]]]]; discriminate|].
  split; [vm_compute; reflexivity|]. vm_compute. reflexivity.
Qed.
Print Assumptions C44_low_longitude.
(** what holds: longitudes different from -1e10, and point 0 usable if some
    target coincides with a source point *)
Theorem C44_invdist_end_to_end_partial : forall f mv rows cols coords v, wf_arr v -> good_api f (asize v) -> (0 < asize v)%nat ->
  (forall p, In p coords -> good_lon mv (snd p)) -> (0 < rows)%nat -> (0 < cols)%nat -> List.length coords = (rows * cols)%nat ->
  (forall lat lon l k, In (lat, lon) coords -> find4 f lat lon = Some l -> In (k, Fin 0%Qc) l ->
     masked_at v O = false /\ exists q, nth O (adata v) NaN = Fin q) ->
  exists t out, grib_invdist_parallel f rows cols coords mv = Ok t /\ apply_invdist rows cols mv v t = Ok out /\ List.length out = List.length coords /\
    forall i lat lon r, nth_error coords i = Some (lat, lon) -> nth_error out i = Some r ->
      (no_target mv lon -> r = mv) /\ (find4 f lat lon = None -> r = mv) /\
      (~ no_target mv lon -> forall l, find4 f lat lon = Some l -> idw_value v mv l r).
Proof.
  intros f mv rows cols coords v Hw Hf Hn Hg Hr Hc Hl Hz. eexists _, _.
  split; [apply (inv_table_builds f (asize v)); assumption|]. split.
  - rewrite apply_rows; [apply (put_rows (inv_row_of f mv) (inv_val v mv) mv rows cols coords Hl)|exact Hw|].
    intros [j a] Hi. destruct (rows_from_In _ _ _ _ _ Hi) as [p [_ Hp]]. exact (inv_row_ok f (asize v) mv p a Hn Hf Hp).
  - split; [now rewrite map_length|]. intros i lat lon r Hi Ho. rewrite nth_error_map, Hi in Ho. cbn [option_map] in Ho.
    assert (Er : r = cell_value (inv_row_of f mv) (inv_val v mv) mv (lat, lon)) by congruence. clear Ho. subst r.
    pose proof (nth_error_In _ _ Hi) as HIn. pose proof (no_target_spec mv lon (proj1 (Hg _ HIn))) as Ht. unfold cell_value, inv_row_of. cbn [fst snd] in *.
    destruct (nleb lon low_lon || neqb lon mv)%bool.
    + split; [reflexivity|]. split; [reflexivity|]. intro C. exfalso. apply C. now apply Ht.
    + split; [intro C; apply Ht in C; discriminate C|]. split; [now intros ->|]. intros _ l Ef. rewrite Ef.
      destruct (compute_proper (asize v) cols i l Hn (proj2 Hf _ _ _ Ef)) as [a [Ea [_ Pr]]]. rewrite Ea.
      destruct Pr as [k1 [k2 [k3 [k4 [d1 [d2 [d3 [d4 [El [_ [A [B [C [D E]]]]]]]]]]]]]]. exists k1, k2, k3, k4, d1, d2, d3, d4. split; [exact El|].
      assert (Z4 : forall k, In (k, Fin 0%Qc) l -> masked_at v O = false /\ exists q, nth O (adata v) NaN = Fin q) by (intros k Hk; exact (Hz lat lon l k HIn Ef Hk)).
      destruct (compute_four k1 k2 k3 k4 d1 d2 d3 d4) as [F1 [F2 [F3 [F4 _]]]]. rewrite <- El, Ea in F1, F2, F3, F4.
      assert (G : forall k, In (k, Fin 0%Qc) l -> Ok a = Ok ((nint 1, nint 0, nint 0, nint 0), (k, 0, 0, 0)) -> inv_val v mv a = point v mv k).
      { intros k Hk Ek. assert (Ea' : a = ((nint 1, nint 0, nint 0, nint 0), (k, 0, 0, 0))) by congruence. destruct (Z4 k Hk) as [M0 [q0 V0]].
        unfold inv_val, point. rewrite Ea'. unfold inv_sum. cbn [fst snd q1 q2 q3 q4]. change (Z.to_nat 0) with O. rewrite M0, V0, !Bool.orb_false_r.
        destruct (masked_at v (Z.to_nat k)); [reflexivity|]. unfold nint. cbn [nadd].
        assert (Es : (ZQ 1 + ZQ 0 + ZQ 0 + ZQ 0)%Qc = 1%Qc) by (rewrite ZQ_1, ZQ_0; ring). rewrite Es.
        assert (N1 : 1%Qc <> 0%Qc) by discriminate. rewrite !ndiv_fin by exact N1. rewrite ZQ_1, ZQ_0.
        replace (1 / 1)%Qc with 1%Qc by (field; exact N1). replace (0 / 1)%Qc with 0%Qc by (field; exact N1).
        destruct (nth (Z.to_nat k) (adata v) NaN) as [q| | |]; cbn [nmul nadd]; try reflexivity. f_equal. ring. }
      cbv zeta.
      split; [intro Z1; apply G; [rewrite El, Z1; left; reflexivity|exact (F1 Z1)]|].
      split; [intros Z1 Z2; apply G; [rewrite El, Z2; right; left; reflexivity|exact (F2 Z1 Z2)]|].
      split; [intros Z1 Z2 Z3; apply G; [rewrite El, Z3; right; right; left; reflexivity|exact (F3 Z1 Z2 Z3)]|].
      split; [intros Z1 Z2 Z3 Z4'; apply G; [rewrite El, Z4'; right; right; right; left; reflexivity|exact (F4 Z1 Z2 Z3 Z4')]|].
      intros N1 N2 N3 N4. destruct (E N1 N2 N3 N4) as [K1 [K2 [K3 [K4 [C1 [C2 [C3 C4]]]]]]]. unfold trow_of in *. cbn [r_k1 r_k2 r_k3 r_k4 r_c1 r_c2 r_c3 r_c4] in *.
      unfold inv_val. rewrite K1, K2, K3, K4, C1, C2, C3, C4. split; intro M; rewrite M; [reflexivity|].
      apply Bool.orb_false_iff in M as [M M4]. apply Bool.orb_false_iff in M as [M M3]. apply Bool.orb_false_iff in M as [M1 M2].
      unfold point. rewrite M1, M2, M3, M4. reflexivity.
Qed.
Print Assumptions C44_invdist_end_to_end_partial.
Definition ex_four : grib_api :=
  mkApi (fun _ lon => if nltb lon (nint 8) then Some 1 else None)
        (fun _ lon => if nltb lon (nint 8) then Some [(0, nint 1); (1, nint 1); (0, nint 2); (1, nint 2)] else None).
Lemma ex_four_good : good_api ex_four 2.
Proof.
  split; intros lat lon k H; cbn [ex_four find1 find4] in H; destruct (nltb lon (nint 8)); try discriminate H.
  - injection H as <-. lia.
  - injection H as <-. exists 0, 1, 0, 1, (ZQ 1), (ZQ 1), (ZQ 2), (ZQ 2). split; [reflexivity|]. repeat split; try (vm_compute; congruence); lia.
Qed.
Definition ex_coords : list (num * num) := [(nint 45, nint 5); (nint 45, nint (-9999)); (nint 45, nint 9); (nint 45, nint 7)].
Example C44_nonvacuous : good_api ex_four (asize (Nd [nint 4; nint 8])) /\ (forall p, In p ex_coords -> good_lon (nint (-9999)) (snd p)) /\
  (exists out, (do t <- grib_invdist_parallel ex_four 2 2 ex_coords (nint (-9999)); apply_invdist 2 2 (nint (-9999)) (Nd [nint 4; nint 8]) t) = Ok out /\
     zipw num_same out [nint 6; nint (-9999); nint (-9999); nint 6] = [true; true; true; true]) /\
  (do t <- grib_nearest_parallel ex_four 2 2 ex_coords (nint (-9999)); apply_nearest 2 2 (nint (-9999)) (Nd [nint 4; nint 8]) t)
    = Ok [nint 8; nint (-9999); nint (-9999); nint 8].
Proof.
  split; [exact ex_four_good|]. split; [|split; [eexists; split; vm_compute; reflexivity|vm_compute; reflexivity]].
  assert (G : forall z, z <> -10000000000 -> good_lon (nint (-9999)) (nint z)).
  { intros z Hz. split; [discriminate|]. intro C. exfalso. apply Hz. unfold low_lon, nint in C. assert (E : ZQ z = ZQ (-10000000000)) by congruence.
    now apply ZQ_inj in E. }
  intros p [<-|[<-|[<-|[<-|[]]]]]; apply G; lia.
Qed.

(** ** C45: coefficients *)
(** any four neighbours at distances that are not negative *)
Theorem C45_neighbours : forall l n x y, (0 < n)%nat -> four l n -> exists i1 i2 i3 i4 k1 k2 k3 k4,
  compute_coeffs l = Ok ((i1, i2, i3, i4), (k1, k2, k3, k4)) /\
  let s := nadd (nadd (nadd i1 i2) i3) i4 in
  proper_row l (mkRow x y k1 k2 k3 k4 (ndiv i1 s) (ndiv i2 s) (ndiv i3 s) (ndiv i4 s)).
Proof.
  intros l n x y Hn Hl. destruct (compute_proper n 1 O l Hn Hl) as [[[[[i1 i2] i3] i4] [[[k1 k2] k3] k4]] [E [_ P]]].
  exists i1, i2, i3, i4, k1, k2, k3, k4. split; [exact E|]. exact P.
Qed.
Print Assumptions C45_neighbours.
(** the table: one proper row for each target cell eccodes finds neighbours of,
    no other row *)
Theorem C45_table : forall f n mv rows cols coords, (0 < n)%nat -> good_api f n -> (forall p, In p coords -> good_lon mv (snd p)) ->
  (0 < rows)%nat -> (0 < cols)%nat -> List.length coords = (rows * cols)%nat ->
  exists rs, grib_invdist_parallel f rows cols coords mv = Ok (table_of rs) /\ NoDup (map (fun r => (r_x r, r_y r)) rs) /\
    (forall r, In r rs -> exists i lat lon l, nth_error coords i = Some (lat, lon) /\ i = place cols (r_x r) (r_y r) /\ in_map rows cols (r_x r) (r_y r) /\
       ~ no_target mv lon /\ find4 f lat lon = Some l /\ proper_row l r) /\
    (forall i lat lon l, nth_error coords i = Some (lat, lon) -> ~ no_target mv lon -> find4 f lat lon = Some l ->
       exists r, In r rs /\ i = place cols (r_x r) (r_y r)).
Proof.
  intros f n mv rows cols coords Hn Hf Hg Hr Hc Hl.
  exists (map (fun r => trow_of cols (fst r) (snd r)) (rows_from (inv_row_of f mv) O coords)).
  assert (Pl : forall i, (i = place cols (Z.of_nat (i / cols)) (Z.of_nat (i mod cols)))%nat).
  { intro i. unfold place. rewrite !Nat2Z.id. rewrite Nat.mul_comm. apply Nat.div_mod. lia. }
  split; [rewrite <- rows_table_of; now apply (inv_table_builds f n)|].
  split; [rewrite map_map; apply (cells_NoDup cols); [lia|apply rows_from_sorted]|].
  split.
  - intros r Hi. apply in_map_iff in Hi as [[i a] [<- Hi]]. pose proof (rows_from_bound _ _ _ _ Hi) as Hb. cbn [fst] in Hb. destruct (rows_from_In _ _ _ _ _ Hi) as [[lat lon] [Hp Ha]]. rewrite Nat.sub_0_r in Hp.
    unfold inv_row_of in Ha. cbn [fst snd] in *. pose proof (no_target_spec mv lon (proj1 (Hg _ (nth_error_In _ _ Hp)))) as Ht.
    destruct (nleb lon low_lon || neqb lon mv)%bool; [discriminate|]. destruct (find4 f lat lon) as [l|] eqn:Ef; [|discriminate].
    exists i, lat, lon, l. split; [exact Hp|]. split; [exact (Pl i)|]. split.
    { unfold in_map, trow_of. cbn [r_x r_y fst snd]. assert (i / cols < rows)%nat by (apply Nat.div_lt_upper_bound; [lia|]; rewrite Nat.mul_comm, <- Hl; lia). assert (i mod cols < cols)%nat by (apply Nat.mod_upper_bound; intro; subst cols; inversion Hc). split; (split; [apply Nat2Z.is_nonneg|apply inj_lt; assumption]). }
    split; [intro C; apply Ht in C; discriminate C|]. split; [exact Ef|].
    destruct (compute_proper n cols i l Hn (proj2 Hf _ _ _ Ef)) as [b [Eb [_ P]]]. rewrite Eb in Ha. injection Ha as <-. exact P.
  - intros i lat lon l Hp Hnt Ef. pose proof (no_target_spec mv lon (proj1 (Hg _ (nth_error_In _ _ Hp)))) as Ht.
    destruct (compute_proper n cols i l Hn (proj2 Hf _ _ _ Ef)) as [b [Eb _]].
    assert (Hrow : inv_row_of f mv (lat, lon) = Some b).
    { unfold inv_row_of. cbn [fst snd]. destruct (nleb lon low_lon || neqb lon mv)%bool; [exfalso; apply Hnt, Ht; reflexivity|]. now rewrite Ef, Eb. }
    exists (trow_of cols i b). split; [|exact (Pl i)]. apply in_map_iff. exists (i, b). split; [reflexivity|]. exact (rows_from_complete _ _ O _ _ _ Hp Hrow).
Qed.
Print Assumptions C45_table.
Example C45_nonvacuous : four [(0, nint 1); (1, nint 1); (0, nint 2); (1, nint 2)] 2 /\ four [(1, nint 0); (0, nint 1); (0, nint 1); (0, nint 1)] 2 /\
  idw (ZQ 1) (ZQ 1) (ZQ 2) (ZQ 2) (ZQ 2) = Q2Qc (1 # 6) /\ good_lon (nint (-9999)) (nint 5).
Proof.
  split; [exact (proj2 ex_four_good (nint 1) (nint 1) _ eq_refl)|]. split; [exact (proj2 ex_exact_good (nint 1) (nint 1) _ eq_refl)|].
  split; [apply Qc_is_canon; reflexivity|]. split; [discriminate|]. intro C. apply (f_equal (fun x => num_same x (nint 5))) in C. vm_compute in C. discriminate C.
Qed.

(** ** C46: parallel = sequential *)
(** however the cells are cut into chunks *)
Theorem C46_any_chunks : forall f isatty cols coords mv chunks, (250 <= List.length coords)%nat ->
  Forall (fun c => c <> []) chunks -> List.concat chunks = map (initial mv) (cells_of cols coords) ->
  near_chunks f mv chunks = grib_nearest f isatty cols coords mv /\ inv_chunks f mv chunks = grib_invdist f isatty cols coords mv.
Proof.
  intros f isatty cols coords mv chunks Hn Hc E. assert (Hp : progress_step (Z.of_nat (List.length coords)) isatty <> 0) by (apply progress_step_nonzero; lia). split.
  - rewrite near_chunks_ok by exact Hc. rewrite E. unfold grib_nearest. now rewrite near_loop_ok.
  - rewrite inv_chunks_ok by exact Hc. rewrite E. unfold grib_invdist. now rewrite inv_loop_ok.
Qed.
Print Assumptions C46_any_chunks.
(** the functions a user calls: whenever the sequential one gives a table the
    parallel one gives the same, on a terminal or not; and both fail together
    from 250 cells on *)
Theorem C46_parallel_equals_sequential : forall f isatty rows cols coords mv, (0 < rows)%nat -> (0 < cols)%nat -> List.length coords = (rows * cols)%nat ->
  (forall t, grib_nearest f isatty cols coords mv = Ok t -> grib_nearest_parallel f rows cols coords mv = Ok t) /\
  (forall t, grib_invdist f isatty cols coords mv = Ok t -> grib_invdist_parallel f rows cols coords mv = Ok t) /\
  ((250 <= rows * cols)%nat -> grib_nearest_parallel f rows cols coords mv = grib_nearest f isatty cols coords mv /\
                               grib_invdist_parallel f rows cols coords mv = grib_invdist f isatty cols coords mv).
Proof.
  intros f isatty rows cols coords mv Hr Hc Hl. rewrite (parallel_nearest f isatty rows), (parallel_invdist f isatty rows) by assumption.
  destruct (Nat.ltb_spec (rows * cols) 250); repeat split; try discriminate; auto; lia.
Qed.
Print Assumptions C46_parallel_equals_sequential.
Definition ex_many : list (num * num) := List.concat (repeat ex_coords 70).
Example C46_nonvacuous : List.length ex_many = (70 * 4)%nat /\
  exists t, grib_nearest ex_four false 4 ex_many (nint (-9999)) = Ok t /\ List.length (snd t) = 140%nat.
Proof. split; [reflexivity|]. eexists. split; [vm_compute; reflexivity|]. vm_compute. reflexivity. Qed.

(** ** C47: small targets *)
Definition C47_full : Prop := forall f n isatty rows cols coords mv, (0 < n)%nat -> good_api f n -> (forall p, In p coords -> good_lon mv (snd p)) ->
  (0 < rows)%nat -> (0 < cols)%nat -> List.length coords = (rows * cols)%nat ->
  (exists t, grib_nearest f isatty cols coords mv = Ok t) /\ (exists t, grib_invdist f isatty cols coords mv = Ok t) /\
  (exists t, grib_nearest_parallel f rows cols coords mv = Ok t) /\ (exists t, grib_invdist_parallel f rows cols coords mv = Ok t).
(** the sequential construction fails for every map of fewer than 250 cells *)
Theorem C47_small_targets_fail : forall f isatty cols coords mv, (1 <= List.length coords < 250)%nat ->
  grib_nearest f isatty cols coords mv = Raise ZeroDivisionError /\ grib_invdist f isatty cols coords mv = Raise ZeroDivisionError.
Proof.
  intros f isatty cols coords mv H. unfold grib_nearest, grib_invdist. rewrite progress_step_zero by lia. destruct coords as [|p r]; [cbn in H; lia|]. split; reflexivity.
Qed.
Print Assumptions C47_small_targets_fail.
Theorem C47_refuted : ~ C47_full.
Proof.
  intro H. destruct (H ex_four 2%nat false 2%nat 2%nat ex_coords (nint (-9999))) as [[t E] _]; try lia; [exact ex_four_good|exact (proj1 (proj2 C44_nonvacuous))|reflexivity|].
  destruct (C47_small_targets_fail ex_four false 2 ex_coords (nint (-9999)) ltac:(cbn; lia)) as [E2 _]. rewrite E2 in E. discriminate E.
Qed.
Print Assumptions C47_refuted.
Theorem C47_partial : forall f n isatty rows cols coords mv, (0 < n)%nat -> good_api f n -> (forall p, In p coords -> good_lon mv (snd p)) ->
  (0 < rows)%nat -> (0 < cols)%nat -> List.length coords = (rows * cols)%nat ->
  (exists t, grib_nearest_parallel f rows cols coords mv = Ok t) /\ (exists t, grib_invdist_parallel f rows cols coords mv = Ok t) /\
  ((250 <= rows * cols)%nat -> (exists t, grib_nearest f isatty cols coords mv = Ok t) /\ (exists t, grib_invdist f isatty cols coords mv = Ok t)).
Proof.
  intros f n isatty rows cols coords mv Hn Hf Hg Hr Hc Hl.
  assert (H1 : exists t, grib_nearest_parallel f rows cols coords mv = Ok t) by (eexists; apply (near_table_builds f n); auto; intros p Hp; exact (proj1 (Hg p Hp))).
  assert (H2 : exists t, grib_invdist_parallel f rows cols coords mv = Ok t) by (eexists; apply (inv_table_builds f n); auto).
  split; [exact H1|]. split; [exact H2|]. intro H. destruct (C46_parallel_equals_sequential f isatty rows cols coords mv Hr Hc Hl) as [_ [_ E]]. destruct (E H) as [<- <-]. auto.
Qed.
Print Assumptions C47_partial.
Example C47_nonvacuous : (1 <= List.length ex_coords < 250)%nat /\ (250 <= List.length ex_many)%nat.
Proof. split; [cbn; lia|]. assert (E : (250 <=? List.length ex_many)%nat = true) by (vm_compute; reflexivity). now apply Nat.leb_le in E. Qed.
