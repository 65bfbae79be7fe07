(** * Props_Bilinear6: bilinear values within the extent of a source on parallels
    (C105), longitudes beyond 180 (C106) *)
From Verif Require Import Base Base_P Num Strings Xr Adw Bilinear Spec_Bilinear Bilinear_P Bilinear_P2 Bilinear_P3 Bilinear_P4 Bilinear_P5 Bilinear_P6 Props_Bilinear Props_Bilinear2 Props_Bilinear3.
From Coq Require Import Psatz Permutation Sorting.
Local Open Scope R_scope.

(** the points of a row, drawn around the target, surround it *)
Definition surrounds (g : source) (la lo : R) (idx : list Z) : Prop := exists ps : list plane,
  Forall2 (fun i p => exists lat lon, py_index (latgrib g) i = Ok lat /\ py_index (longrib g) i = Ok lon /\ seen_from lo lat lon p) idx ps /\
  in_hull (la, lo) ps.

(** ** C105: a target within the extent of the source *)
(** full statement: with enough retries, a target within the range of the
    latitudes and longitudes of the source (and near enough) gets weights of
    points around it *)
Definition C105_full : Prop := forall g query argsort angle solve global mub t,
  honest g query [t] -> valid_argsort argsort -> is_global g = Ok global ->
  within (latgrib g) (t_lat t) -> within (longrib g) (t_lon t) -> nthR (map fst (t_near t)) 0 <= mub ->
  exists retries fuel ws idx q, bilinear_cell query aim argsort angle solve g global false retries fuel mub None t = Some (Ok (map XF ws, idx, q)) /\
    surrounds g (t_lat t) (t_lon t) idx.

(** a target on the northernmost parallel that is no source point: whatever the
    number of retries, no quadrilateral is found: the row is the one of the
    quadrilateral of the cell before, or there is none *)
Theorem C105_north : forall (Loc : Type) (query : Loc -> nat -> list Z) locate argsort angle solve g global retries fuel mub before (t : @target Loc),
  List.length (t_near t) = 4%nat -> -180 <= t_lon t <= 180 ->
  (forall lon, In lon (longrib g) -> -180 <= lon <= 360 /\ exists k, Rabs (t_lon t - (lon + 360 * IZR k)) < 90) ->
  (forall lat, In lat (latgrib g) -> lat <= t_lat t) -> In (t_lat t) (latgrib g) -> within (longrib g) (t_lon t) ->
  / 10000000000 < nthR (map fst (t_near t)) 0 <= mub ->
  forall r q, bilinear_cell query locate argsort angle solve g global false retries fuel mub before t = Some (Ok (r, q)) ->
  exists q0, before = Some q0 /\ q = before /\ r = quad_row solve q0 (t_lat t) (t_lon t).
Proof.
  intros Loc query locate argsort angle solve g global retries fuel mub before t L Hlo Hn Htop Hin Hw [D1 D2] r q H.
  assert (W : within (latgrib g) (t_lat t)) by (split; exists (t_lat t); split; auto; lra).
  unfold bilinear_cell in H. destruct (leb_spec (nthR (map fst (t_near t)) 0) eps) as [N|_]; [unfold eps in N; lra|].
  destruct (ltb_spec mub (nthR (map fst (t_near t)) 0)) as [N|_]; [lra|].
  destruct (search _ _ _ _ _ _ _ _ _ _ _ _ _) as [[st|e]|] eqn:S; try discriminate.
  destruct (north_search query locate argsort angle solve g global retries (t_loc t) (t_lat t) (t_lon t)
    (fun i c Hc => Htop _ (drawn_lat g (t_lon t) i c Hlo Hn Hc)) (within_not_outside g global _ _ W Hw) (within_not_beyond g _ W)
    fuel (start false before t) st eq_refl eq_refl eq_refl ltac:(cbn [start f_idx]; rewrite map_length; exact L) S) as [A1 [_ A3]].
  cbn [start f_quad] in A3. unfold finish in H. rewrite A1, A3 in H. destruct before as [q0|]; [|discriminate].
  exists q0. split; [reflexivity|]. split; congruence.
Qed.
Print Assumptions C105_north.

(** witness: four points, the target in the middle of the northern side *)
Definition gn : source := mkSource [0; 0; -30; -30] [0; 60; 0; 60].
Definition mid : @target space := near_of gn (tree (points gn)) 0 30.
Lemma c30' : cos (rad 30) = sqrt 3 / 2. Proof. rewrite r30. apply c30. Qed.
Lemma gn_cosine : cosine 0 30 0 0 = sqrt 3 / 2 /\ cosine 0 30 0 60 = sqrt 3 / 2 /\ cosine 0 30 (-30) 0 = 3 / 4 /\ cosine 0 30 (-30) 60 = 3 / 4.
Proof.
  assert (Rm : rad (-30) = - (PI / 6)) by (unfold rad; field).
  unfold cosine. rewrite r0, Rm, r30, r60, sin_0, cos_0, sin_neg, cos_neg, c30. replace (PI / 6 - 0) with (PI / 6) by ring. replace (PI / 6 - PI / 3) with (- (PI / 6)) by field. rewrite cos_neg, c30.
  pose proof s3. repeat split; lra.
Qed.
Lemma mid_far : / 10000000000 < nthR (map fst (t_near mid)) 0 <= 2.
Proof.
  unfold mid, near_of. cbn [t_near].
  destruct (tree_kdtree (points gn) (sphere 0 30) 4%nat) as [o [P [_ ->]]]. change (List.length (points gn)) with 4%nat in *. cbn [Nat.sub repeat]. rewrite app_nil_r.
  assert (Lo : List.length o = 4%nat) by (rewrite <- (Permutation_length P); reflexivity). destruct o as [|i [|j [|k [|l [|]]]]]; try discriminate Lo.
  cbn [firstn map fst]. unfold nthR. cbn [nth]. rewrite Nat2Z.id.
  assert (Hi : In i (seq 0 4)) by (apply (Permutation_in _ (Permutation_sym P)); left; reflexivity).
  destruct gn_cosine as [Q0 [Q1 [Q2 Q3]]]. pose proof s3b.
  assert (B : forall c, c <= 9 / 10 -> 0 <= c -> / 10000000000 < sqrt (2 - 2 * c) <= 2).
  { intros c Hc Hc0. set (s := sqrt (2 - 2 * c)). assert (P0 : 0 <= s) by apply sqrt_pos. assert (E : s * s = 2 - 2 * c) by (apply sqrt_sqrt; lra). split; nra. }
  unfold points, gn. cbn [latgrib longrib zipw].
  destruct Hi as [<-|[<-|[<-|[<-|[]]]]]; cbn [nth]; rewrite chord_sphere; rewrite ?Q0, ?Q1, ?Q2, ?Q3; apply B; lra.
Qed.
Lemma gn_global : is_global gn = Ok false.
Proof. unfold gn. rewrite is_global_cons. unfold ltb. cbn [fold_left rmin]. unfold Rmax, Rmin, Rabs. rdec; reflexivity. Qed.
Lemma mid_near : List.length (t_near mid) = 4%nat.
Proof.
  unfold mid, near_of. cbn [t_near]. rewrite map_length. destruct (tree_kdtree (points gn) (sphere 0 30) 4%nat) as [o [P [_ ->]]].
  change (List.length (points gn)) with 4%nat in *. cbn [Nat.sub repeat]. rewrite app_nil_r, map_length, firstn_length. rewrite <- (Permutation_length P). reflexivity.
Qed.
Lemma gn_lons lon : In lon (longrib gn) -> -180 <= lon <= 360 /\ exists k, Rabs (t_lon mid - (lon + 360 * IZR k)) < 90.
Proof.
  cbn [gn longrib mid near_of t_lon]. intros [<-|[<-|[<-|[<-|[]]]]]; (split; [lra|]); exists 0%Z; unfold Rabs; destruct (Rcase_abs _); lra.
Qed.
Theorem C105_refuted : ~ C105_full.
Proof.
  intro H. destruct (H gn (tree (points gn)) isort (fun _ _ _ => 0) (fun _ _ _ => (0, 0)) false 2 mid) as [retries [fuel [ws [idx [q [E _]]]]]].
  - apply honest_near; [reflexivity|]. intros t [<-|[]]. exists 0, 30. reflexivity.
  - apply isort_ok.
  - exact gn_global.
  - split; exists 0; (split; [now left|]); cbn [mid near_of t_lat]; lra.
  - split; [exists 0; split; [now left|]|exists 60; split; [right; now left|]]; cbn [mid near_of t_lon]; lra.
  - apply mid_far.
  - apply C105_north in E.
    + destruct E as [q0 [E _]]. discriminate E.
    + exact mid_near.
    + cbn [mid near_of t_lon]. lra.
    + exact gn_lons.
    + cbn [gn latgrib mid near_of t_lat]. intros lat [<-|[<-|[<-|[<-|[]]]]]; lra.
    + now left.
    + split; [exists 0; split; [now left|]|exists 60; split; [right; now left|]]; cbn [mid near_of t_lon]; lra.
    + exact mid_far.
Qed.
Print Assumptions C105_refuted.

(** the classical bilinear value in a rectangle *)
Definition bilinear_value (lat0 lat1 lon0 lon1 la lo v00 v01 v10 v11 : R) : R :=
  let a := (lo - lon0) / (lon1 - lon0) in let b := (la - lat0) / (lat1 - lat0) in
  (1 - b) * ((1 - a) * v00 + a * v01) + b * ((1 - a) * v10 + a * v11).
(** a target in the rectangle of its four nearest points (but on its northern
    side), drawn around it: the first round finds it, whatever the cells before,
    and the value is the classical one, if the solver finds the root for the
    corners in their cyclic order (C54) *)
Theorem C105_rectangle_partial : forall (Loc : Type) (query : Loc -> nat -> list Z) locate argsort angle solve g global retries fuel mub before (t : @target Loc) cs lat0 lat1 lon0 lon1,
  valid_argsort argsort -> (0 < retries)%Z -> (0 < fuel)%nat ->
  mapM (corner_of g (t_lon t)) (map snd (t_near t)) = Ok cs ->
  Permutation (map xy cs) [(lat0, lon0); (lat0, lon1); (lat1, lon0); (lat1, lon1)] ->
  lat0 <= t_lat t < lat1 -> lon0 < lon1 -> lon0 <= t_lon t <= lon1 ->
  (global = true \/ within (latgrib g) (t_lat t) /\ within (longrib g) (t_lon t)) ->
  / 10000000000 < nthR (map fst (t_near t)) 0 <= mub ->
  finds_root solve (clockwise argsort cs) (t_lat t) (t_lon t) ->
  exists ws idx q, bilinear_cell query locate argsort angle solve g global false retries fuel mub before t = Some (Ok (map XF ws, idx, q)) /\
    Permutation idx (map snd (t_near t)) /\ convex_weights ws /\
    forall c00 c01 c10 c11, In c00 cs -> In c01 cs -> In c10 cs -> In c11 cs ->
      xy c00 = (lat0, lon0) -> xy c01 = (lat0, lon1) -> xy c10 = (lat1, lon0) -> xy c11 = (lat1, lon1) ->
      forall v : Z -> R, interpolated ws (map v idx) =
        bilinear_value lat0 lat1 lon0 lon1 (t_lat t) (t_lon t) (v (cidx c00)) (v (cidx c01)) (v (cidx c10)) (v (cidx c11)).
Proof.
  intros Loc query locate argsort angle solve g global retries fuel mub before t cs lat0 lat1 lon0 lon1 VA Hr Hf Hcs HR Hla Hlon Hlo Hext [D1 D2] FR.
  assert (Lc : List.length cs = 4%nat) by (apply Permutation_length in HR; rewrite map_length in HR; exact HR).
  destruct (clockwise_rectangle argsort cs lat0 lat1 lon0 lon1 ltac:(lra) Hlon HR (VA (map sort_key cs) (eq_trans (map_length _ _) Lc))) as [p1 [p2 [p3 [p4 [Eq [P [X1 [X3 X24]]]]]]]].
  assert (Out : outside g global (t_lat t) (t_lon t) = false).
  { destruct Hext as [->|[W1 W2]]; [reflexivity|apply within_not_outside; assumption]. }
  assert (V : strictly_convex (xy p1) (xy p2) (xy p3) (xy p4)).
  { unfold strictly_convex, area2. rewrite X1, X3. destruct X24 as [[-> [-> _]]|[-> [-> _]]]; cbn [fst snd]; [right|left]; repeat split; nra. }
  set (a := (t_lon t - lon0) / (lon1 - lon0)). set (b := (t_lat t - lat0) / (lat1 - lat0)).
  assert (Ha : 0 <= a <= 1).
  { unfold a. split; [apply Rmult_le_pos; [lra|apply Rlt_le, Rinv_0_lt_compat; lra]|]. apply Rmult_le_reg_r with (lon1 - lon0); [lra|]. unfold Rdiv. rewrite Rmult_assoc, Rinv_l by lra. lra. }
  assert (Hb : 0 <= b <= 1).
  { unfold b. split; [apply Rmult_le_pos; [lra|apply Rlt_le, Rinv_0_lt_compat; lra]|]. apply Rmult_le_reg_r with (lat1 - lat0); [lra|]. unfold Rdiv. rewrite Rmult_assoc, Rinv_l by lra. lra. }
  assert (Ea : a * (lon1 - lon0) = t_lon t - lon0) by (unfold a; field; lra). assert (Eb : b * (lat1 - lat0) = t_lat t - lat0) by (unfold b; field; lra).
  assert (Root : exists x y, ((x = a /\ y = b /\ xy p2 = (lat0, lon1) /\ xy p4 = (lat1, lon0)) \/ (x = b /\ y = a /\ xy p2 = (lat1, lon0) /\ xy p4 = (lat0, lon1))) /\ combination (weights4 x y) (qxy (p1, p2, p3, p4)) = (t_lat t, t_lon t)).
  { unfold qxy, weights4. cbn [corners map combination]. rewrite X1, X3.
    destruct X24 as [[Y2 [Y4 _]]|[Y2 [Y4 _]]]; [exists a, b|exists b, a]; (split; [auto|]); rewrite Y2, Y4; cbn [fst snd]; f_equal; nra. }
  destruct Root as [x [y [Hxy Root]]].
  assert (Hx : 0 <= x <= 1 /\ 0 <= y <= 1) by (destruct Hxy as [[-> [-> _]]|[-> [-> _]]]; split; assumption). destruct Hx as [Hx Hy].
  assert (Inq : in_quad (t_lat t, t_lon t) (xy p1) (xy p2) (xy p3) (xy p4) = true).
  { apply in_quad_hull; [exact V|]. exists (weights4 x y). split; [reflexivity|]. split; [apply weights4_convex; assumption|exact Root]. }
  assert (S : search query locate argsort angle g global false retries fuel (t_loc t) (t_lat t) (t_lon t) (start false before t) =
              Some (Ok (mkState (map snd (t_near t)) 0 true true (Some (p1, p2, p3, p4)) None))).
  { destruct fuel as [|fuel]; [lia|]. cbn [search]. cbn [start f_ok f_add orb]. destruct (Z.leb_spec retries 0); [lia|].
    assert (Bd : body query locate argsort angle g global false (t_loc t) (t_lat t) (t_lon t) (start false before t) = Ok (mkState (map snd (t_near t)) 0 true true (Some (p1, p2, p3, p4)) None)).
    { unfold body. cbn [start f_idx]. rewrite Hcs. cbn [rbind]. rewrite Out. cbn [f_checks]. unfold parallels_checks.
      rewrite (rect_direction lat0 lat1 lon0 lon1 (t_lat t) (t_lon t) Hla Hlon cs HR), (rect_grid_like lat0 lat1 lon0 lon1 (t_lat t) (t_lon t) Hla Hlon cs HR). cbn [rbind].
      rewrite (rect_best lat0 lat1 lon0 lon1 (t_lat t) (t_lon t) Hla Hlon cs HR). cbn [rbind f_done f_checks f_idx f_add f_quad].
      unfold quad_checks. rewrite Eq. rewrite (proj2 (is_convex_spec _ _ _ _) V). cbn [orb]. rewrite Inq. reflexivity. }
    rewrite Bd. destruct fuel; reflexivity. }
  unfold bilinear_cell. destruct (leb_spec (nthR (map fst (t_near t)) 0) eps) as [N|_]; [unfold eps in N; lra|].
  destruct (ltb_spec mub (nthR (map fst (t_near t)) 0)) as [N|_]; [lra|]. rewrite S. unfold finish. cbn [f_done f_quad].
  destruct (quad_row_weights solve (p1, p2, p3, p4) (t_lat t) (t_lon t)) as [a' [b' [Ha' [Hb' [Ea' [Eb' ->]]]]]].
  exists (weights4 a' b'), (map cidx (corners (p1, p2, p3, p4))), (Some (p1, p2, p3, p4)). split; [reflexivity|].
  destruct (mapM_corners _ _ _ _ Hcs) as [Ei _].
  split; [rewrite <- Ei; apply Permutation_map; symmetry; exact P|]. split; [apply weights4_convex; assumption|].
  rewrite Eq in FR.
  destruct (FR (ex_intro _ x (ex_intro _ y (conj Hx (conj Hy (proj2 (fn_combination _ _ _ _ _) Root)))))) as [R1 [R2 R3]].
  rewrite (clip_id _ R1) in Ea'. rewrite (clip_id _ R2) in Eb'. rewrite <- Ea', <- Eb' in R3. apply fn_combination in R3.
  destruct (root_unique (xy p1) (xy p2) (xy p3) (xy p4) a' b' x y V Ha' Hb' Hx Hy) as [-> ->]; [change (combination (weights4 a' b') (qxy (p1, p2, p3, p4)) = combination (weights4 x y) (qxy (p1, p2, p3, p4))); congruence|].
  intros c00 c01 c10 c11 I00 I01 I10 I11 Y00 Y01 Y10 Y11 v.
  assert (U : forall c, In c cs -> c = p1 \/ c = p2 \/ c = p3 \/ c = p4).
  { intros c Hc. apply (Permutation_in _ P) in Hc. cbn in Hc. intuition. }
  assert (NE : forall u w : plane, u = w -> fst u = fst w /\ snd u = snd w) by (intros u w ->; split; reflexivity).
  assert (F : forall c k, In c cs -> In k [p1; p2; p3; p4] -> xy c = xy k -> c = k).
  { intros c k Hc Hk E. destruct (U c Hc) as [->|[->|[->| ->]]]; destruct Hk as [<-|[<-|[<-|[<-|[]]]]]; try reflexivity; exfalso; apply NE in E; revert E; rewrite ?X1, ?X3;
    destruct X24 as [[Y2 [Y4 _]]|[Y2 [Y4 _]]]; rewrite ?Y2, ?Y4; cbn [fst snd]; lra. }
  rewrite (F c00 p1 I00 ltac:(cbn; tauto) ltac:(congruence)), (F c11 p3 I11 ltac:(cbn; tauto) ltac:(congruence)).
  unfold bilinear_value. fold a b. cbn [corners map]. unfold weights4. cbn [interpolated].
  destruct Hxy as [[-> [-> [Y2 Y4]]]|[-> [-> [Y2 Y4]]]].
  - rewrite (F c01 p2 I01 ltac:(cbn; tauto) ltac:(congruence)), (F c10 p4 I10 ltac:(cbn; tauto) ltac:(congruence)). ring.
  - rewrite (F c01 p4 I01 ltac:(cbn; tauto) ltac:(congruence)), (F c10 p2 I10 ltac:(cbn; tauto) ltac:(congruence)). ring.
Qed.
Print Assumptions C105_rectangle_partial.

(** a target in the middle of a rectangle *)
Definition solve_rect (q : quad) (la lo : R) : R * R := let '(p1, p2, p3, p4) := q in
  ((lo - clon p1) / (clon p3 - clon p1), (la - clat p1) / (clat p3 - clat p1)).
Example C105_nonvacuous :
  let g := mkSource [0; 0; 10; 10] [0; 10; 0; 10] in
  let t := mkTarget tt 5 5 [(1, 0%Z); (1, 1%Z); (1, 2%Z); (1, 3%Z)] in
  let cs := [mkCorner 0 0 0; mkCorner 0 10 1; mkCorner 10 0 2; mkCorner 10 10 3] in
  mapM (corner_of g (t_lon t)) (map snd (t_near t)) = Ok cs /\
  Permutation (map xy cs) [(0, 0); (0, 10); (10, 0); (10, 10)] /\ within (latgrib g) 5 /\ within (longrib g) 5 /\
  finds_root solve_rect (clockwise isort cs) 5 5 /\ bilinear_value 0 10 0 10 5 5 1 2 3 6 = 3 /\
  (-180 <= t_lon mid <= 180 /\ (forall lon, In lon (longrib gn) -> -180 <= lon <= 360 /\ exists k, Rabs (t_lon mid - (lon + 360 * IZR k)) < 90) /\
   (forall lat, In lat (latgrib gn) -> lat <= t_lat mid) /\ In (t_lat mid) (latgrib gn) /\ within (longrib gn) (t_lon mid) /\ / 10000000000 < nthR (map fst (t_near mid)) 0 <= 2).
Proof.
  cbv zeta. split.
  { cbn [t_near t_lon map snd mapM]. unfold corner_of. cbn [latgrib longrib].
    assert (E : forall la lo, 0 <= lo <= 10 -> correct_point 5 la lo = (la, lo)).
    { intros la lo H. unfold correct_point, reference, to180. assert (A : Rabs (5 - lo) <= 90) by (unfold Rabs; destruct (Rcase_abs _); lra).
      destruct (Rlt_dec 180 lo); [lra|]. destruct (Rlt_dec 5 (-90)); [lra|]. destruct (Rlt_dec 90 5); [lra|]. destruct (Rlt_dec 90 (Rabs (5 - lo))); [lra|]. reflexivity. }
    cbv [py_index rbind Z.of_nat Z.ltb Z.compare Z.to_nat nth_error Pos.to_nat Pos.iter_op Init.Nat.add]. rewrite !E by lra. reflexivity. }
  split; [reflexivity|].
  split; [split; [exists 0|exists 10]; split; cbn; try tauto; lra|]. split; [split; [exists 0|exists 10]; split; cbn; try tauto; lra|].
  split.
  { intros _. destruct (clockwise_rectangle isort [mkCorner 0 0 0; mkCorner 0 10 1; mkCorner 10 0 2; mkCorner 10 10 3] 0 10 0 10 ltac:(lra) ltac:(lra) (Permutation_refl _) (isort_valid _)) as [p1 [p2 [p3 [p4 [-> [_ [X1 [X3 X24]]]]]]]].
    assert (Y : forall c (u : plane), xy c = u -> clat c = fst u /\ clon c = snd u) by (intros c u <-; split; reflexivity).
    apply Y in X1, X3. cbn [fst snd] in X1, X3. destruct X1 as [A1 B1], X3 as [A3 B3]. unfold solve_rect. rewrite A1, B1, A3, B3. cbn [fst snd].
    replace ((5 - 0) / (10 - 0)) with (1 / 2) by field. split; [lra|]. split; [lra|]. unfold fn_alpha_beta.
    destruct X24 as [[X2 [X4 _]]|[X2 [X4 _]]]; apply Y in X2, X4; cbn [fst snd] in X2, X4; destruct X2 as [A2 B2], X4 as [A4 B4]; rewrite A1, B1, A2, B2, A3, B3, A4, B4; f_equal; lra. }
  split; [unfold bilinear_value; field|].
  split; [cbn [mid near_of t_lon]; lra|]. split; [exact gn_lons|]. split; [cbn [gn latgrib mid near_of t_lat]; intros lat [<-|[<-|[<-|[<-|[]]]]]; lra|].
  split; [now left|]. split; [split; [exists 0; split; [now left|]|exists 60; split; [right; now left|]]; cbn [mid near_of t_lon]; lra|exact mid_far].
Qed.
