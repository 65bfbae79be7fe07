(** * Props_Bilinear3: witnesses for C53, C71 and C72 *)
From Verif Require Import Base Base_P Num Strings Xr Adw Bilinear Spec_Bilinear Bilinear_P Bilinear_P2 Bilinear_P3 Bilinear_P4 Bilinear_P5 Props_Bilinear Props_Bilinear2.
From Coq Require Import Psatz Permutation Sorting.
Local Open Scope R_scope.

Lemma sincos1 (x : R) : sin x * sin x + cos x * cos x = 1. Proof. pose proof (sin2_cos2 x) as H. unfold Rsqr in H. exact H. Qed.
Definition cosine (la lo la' lo' : R) : R := sin (rad la) * sin (rad la') + cos (rad la) * cos (rad la') * cos (rad lo - rad lo').
Lemma chord_sphere la lo la' lo' : chord (sphere la lo) (sphere la' lo') = sqrt (2 - 2 * cosine la lo la' lo').
Proof.
  unfold chord, sphere, cosine. f_equal. rewrite cos_minus. set (a := rad la). set (b := rad lo). set (c := rad la'). set (d := rad lo').
  pose proof (sincos1 a) as A. pose proof (sincos1 b) as B. pose proof (sincos1 c) as C. pose proof (sincos1 d) as D.
  transitivity ((cos a * cos a) * (sin b * sin b + cos b * cos b) + sin a * sin a + (cos c * cos c) * (sin d * sin d + cos d * cos d) + sin c * sin c - 2 * (sin a * sin c + cos a * cos c * (cos b * cos d + sin b * sin d))); [ring|].
  rewrite B, D. assert (A' : sin a * sin a = 1 - cos a * cos a) by lra. assert (C' : sin c * sin c = 1 - cos c * cos c) by lra. rewrite A', C'. ring.
Qed.
Lemma cosine_le1 la lo la' lo' : cosine la lo la' lo' <= 1.
Proof.
  unfold cosine. set (a := rad la). set (c := rad la'). pose proof (COS_bound (rad lo - rad lo')) as K. set (k := cos (rad lo - rad lo')) in *. clearbody k.
  pose proof (COS_bound (a - c)) as M. pose proof (COS_bound (a + c)) as P. rewrite cos_minus in M. rewrite cos_plus in P. set (u := cos a * cos c) in *. set (v := sin a * sin c) in *. clearbody u v. clear a c.
  destruct (Rle_lt_dec 0 u); [assert (u * k <= u * 1) by (apply Rmult_le_compat_l; lra); lra|]. assert (- u * - k <= - u * 1) by (apply Rmult_le_compat_l; lra). lra.
Qed.
Lemma closer la lo la1 lo1 la2 lo2 : cosine la lo la2 lo2 < cosine la lo la1 lo1 -> chord (sphere la lo) (sphere la1 lo1) < chord (sphere la lo) (sphere la2 lo2).
Proof. intro H. rewrite !chord_sphere. apply sqrt_lt_1; pose proof (cosine_le1 la lo la1 lo1); lra. Qed.
Lemma as_close la lo la1 lo1 la2 lo2 : cosine la lo la2 lo2 = cosine la lo la1 lo1 -> chord (sphere la lo) (sphere la1 lo1) = chord (sphere la lo) (sphere la2 lo2).
Proof. intro H. rewrite !chord_sphere. now rewrite H. Qed.

(** sines and cosines *)
Lemma s2 : sqrt 2 * sqrt 2 = 2. Proof. apply sqrt_sqrt. lra. Qed.
Lemma s3 : sqrt 3 * sqrt 3 = 3. Proof. apply sqrt_sqrt. lra. Qed.
Lemma s2b : 14 / 10 < sqrt 2 < 15 / 10. Proof. pose proof s2. pose proof (sqrt_pos 2). split; nra. Qed.
Lemma s3b : 17 / 10 < sqrt 3 < 18 / 10. Proof. pose proof s3. pose proof (sqrt_pos 3). split; nra. Qed.
Lemma r30 : rad 30 = PI / 6. Proof. unfold rad. field. Qed.
Lemma r45 : rad 45 = PI / 4. Proof. unfold rad. field. Qed.
Lemma r60 : rad 60 = PI / 3. Proof. unfold rad. field. Qed.
Lemma r0 : rad 0 = 0. Proof. unfold rad. field. Qed.
Lemma c45 : cos (PI / 4) = sqrt 2 / 2. Proof. rewrite cos_PI4. pose proof s2b. apply Rmult_eq_reg_r with (2 * sqrt 2); [|lra]. field_simplify; [|lra]. pose proof s2. simpl. lra. Qed.
Lemma c30 : cos (PI / 6) = sqrt 3 / 2. Proof. apply cos_PI6. Qed.
Lemma c60 : cos (PI / 3) = 1 / 2. Proof. apply cos_PI3. Qed.
Lemma si30 : sin (PI / 6) = 1 / 2. Proof. apply sin_PI6. Qed.
Lemma si45 : sin (PI / 4) = sqrt 2 / 2. Proof. rewrite sin_PI4. pose proof s2b. apply Rmult_eq_reg_r with (2 * sqrt 2); [|lra]. field_simplify; [|lra]. pose proof s2. simpl. lra. Qed.
Lemma si60 : sin (PI / 3) = sqrt 3 / 2. Proof. apply sin_PI3. Qed.

Ltac sortdec := repeat (progress (cbn [ins nth]; rdec)).

(** ** C72: four points around the pole, the search never ends *)
Definition g4 : source := mkSource [45; 45; 30; 45] [0; 120; 180; 240].
Definition near_of (g : source) (query : space -> nat -> list Z) (la lo : R) : @target space :=
  mkTarget (sphere la lo) la lo (map (fun i => (chord (sphere la lo) (nth (Z.to_nat i) (points g) (0, 0, 0)), i)) (query (sphere la lo) 4%nat)).
Definition polar : @target space := near_of g4 (tree (points g4)) 60 0.
Lemma polar_opposite : tree (points g4) (aim 0 120) 1 = [2%Z].
Proof.
  unfold tree, points, g4, aim. cbn [latgrib longrib zipw List.length]. cbn [Nat.sub repeat]. rewrite app_nil_r.
  set (k0 := chord (sphere 120 0) (sphere 45 0)). set (k1 := chord (sphere 120 0) (sphere 45 120)). set (k2 := chord (sphere 120 0) (sphere 30 180)). set (k3 := chord (sphere 120 0) (sphere 45 240)).
  cbn [map]. fold k0 k1 k2 k3.
  assert (R120 : rad 120 = PI - PI / 3) by (unfold rad; field). assert (R180 : rad 180 = PI) by (unfold rad; field). assert (R240 : rad 240 = PI / 3 + PI) by (unfold rad; field).
  assert (S120 : sin (rad 120) = sqrt 3 / 2) by (rewrite R120, sin_PI_x; apply si60). assert (C120 : cos (rad 120) = - (1 / 2)) by (rewrite R120; rewrite cos_minus, cos_PI, sin_PI, c60; ring).
  assert (Q0 : cosine 120 0 45 0 = sqrt 3 / 2 * (sqrt 2 / 2) + - (1 / 2) * (sqrt 2 / 2)) by (unfold cosine; rewrite S120, C120, r45, si45, c45, r0; replace (0 - 0) with 0 by ring; rewrite cos_0; ring).
  assert (Q1 : cosine 120 0 45 120 = sqrt 3 / 2 * (sqrt 2 / 2) + - (1 / 2) * (sqrt 2 / 2) * - (1 / 2)) by (unfold cosine; rewrite r45, si45, c45, r0; replace (0 - rad 120) with (- rad 120) by ring; rewrite cos_neg, S120, C120; ring).
  assert (Q2 : cosine 120 0 30 180 = sqrt 3 / 2) by (unfold cosine; rewrite r30, si30, c30, r0, R180; replace (0 - PI) with (- PI) by ring; rewrite cos_neg, cos_PI, S120, C120; field).
  assert (Q3 : cosine 120 0 45 240 = sqrt 3 / 2 * (sqrt 2 / 2) + - (1 / 2) * (sqrt 2 / 2) * - (1 / 2)) by (unfold cosine; rewrite r45, si45, c45, r0, R240; replace (0 - (PI / 3 + PI)) with (- (PI / 3 + PI)) by ring; rewrite cos_neg, neg_cos, c60, S120, C120; field).
  pose proof s2. pose proof s3. pose proof s2b. pose proof s3b.
  assert (K0 : k2 < k0) by (apply closer; rewrite Q2, Q0; nra). assert (K1 : k2 < k1) by (apply closer; rewrite Q2, Q1; nra). assert (K3 : k2 < k3) by (apply closer; rewrite Q2, Q3; nra).
  clearbody k0 k1 k2 k3. unfold isort. cbn [List.length seq fold_right]. sortdec; reflexivity.
Qed.
Lemma polar_four : tree (points g4) (sphere 60 0) 4 = [0; 1; 3; 2]%Z.
Proof.
  unfold tree, points, g4. cbn [latgrib longrib zipw List.length]. cbn [Nat.sub repeat]. rewrite app_nil_r.
  set (k0 := chord (sphere 60 0) (sphere 45 0)). set (k1 := chord (sphere 60 0) (sphere 45 120)). set (k2 := chord (sphere 60 0) (sphere 30 180)). set (k3 := chord (sphere 60 0) (sphere 45 240)).
  cbn [map]. fold k0 k1 k2 k3.
  assert (R120 : rad 120 = PI - PI / 3) by (unfold rad; field). assert (R180 : rad 180 = PI) by (unfold rad; field). assert (R240 : rad 240 = PI / 3 + PI) by (unfold rad; field).
  assert (C120 : cos (rad 120) = - (1 / 2)) by (rewrite R120; rewrite cos_minus, cos_PI, sin_PI, c60; ring).
  assert (Q0 : cosine 60 0 45 0 = sqrt 3 / 2 * (sqrt 2 / 2) + 1 / 2 * (sqrt 2 / 2)) by (unfold cosine; rewrite r60, si60, c60, r45, si45, c45, r0; replace (0 - 0) with 0 by ring; rewrite cos_0; ring).
  assert (Q1 : cosine 60 0 45 120 = sqrt 3 / 2 * (sqrt 2 / 2) - 1 / 2 * (sqrt 2 / 2) * (1 / 2)) by (unfold cosine; rewrite r60, si60, c60, r45, si45, c45, r0; replace (0 - rad 120) with (- rad 120) by ring; rewrite cos_neg, C120; ring).
  assert (Q2 : cosine 60 0 30 180 = 0) by (unfold cosine; rewrite r60, si60, c60, r30, si30, c30, r0, R180; replace (0 - PI) with (- PI) by ring; rewrite cos_neg, cos_PI; field).
  assert (Q3 : cosine 60 0 45 240 = sqrt 3 / 2 * (sqrt 2 / 2) - 1 / 2 * (sqrt 2 / 2) * (1 / 2)) by (unfold cosine; rewrite r60, si60, c60, r45, si45, c45, r0, R240; replace (0 - (PI / 3 + PI)) with (- (PI / 3 + PI)) by ring; rewrite cos_neg, neg_cos, c60; field).
  pose proof s2. pose proof s3. pose proof s2b. pose proof s3b.
  assert (K0 : k0 < k1) by (apply closer; rewrite Q0, Q1; nra). assert (K1 : k1 = k3) by (apply as_close; rewrite Q1, Q3; reflexivity). assert (K3 : k3 < k2) by (apply closer; rewrite Q2, Q3; nra).
  clearbody k0 k1 k2 k3. unfold isort. cbn [List.length seq fold_right]. sortdec; reflexivity.
Qed.
Lemma corner_at g lo i lat lon la' lo' : py_index (latgrib g) i = Ok lat -> py_index (longrib g) i = Ok lon -> correct_point lo lat lon = (la', lo') -> corner_of g lo i = Ok (mkCorner la' lo' i).
Proof. intros H1 H2 H3. unfold corner_of. rewrite H1, H2. cbn [rbind]. rewrite H3. reflexivity. Qed.
Lemma polar_corners : mapM (corner_of g4 0) [0; 1; 3; 2]%Z = Ok [mkCorner 45 0 0; mkCorner 135 (-60) 1; mkCorner 135 60 3; mkCorner 150 0 2].
Proof.
  assert (E0 : correct_point 0 45 0 = (45, 0)) by (unfold correct_point, reference, to180, Rabs, rsign; rdec; f_equal; lra).
  assert (E1 : correct_point 0 45 120 = (135, -60)) by (pose proof (mod360_is (120 + 180) 0 ltac:(lra)) as M; unfold correct_point, reference, to180, Rabs, rsign; rdec; f_equal; lra).
  assert (E3 : correct_point 0 45 240 = (135, 60)) by (pose proof (mod360_is (240 - 360 + 180) 0 ltac:(lra)) as M; unfold correct_point, reference, to180, Rabs, rsign; rdec; f_equal; lra).
  assert (E2 : correct_point 0 30 180 = (150, 0)) by (pose proof (mod360_is (180 + 180) 1 ltac:(lra)) as M; unfold correct_point, reference, to180, Rabs, rsign; rdec; f_equal; lra).
  cbn [mapM]. rewrite (corner_at g4 0 0 45 0 _ _ eq_refl eq_refl E0). rewrite (corner_at g4 0 1 45 120 _ _ eq_refl eq_refl E1). rewrite (corner_at g4 0 3 45 240 _ _ eq_refl eq_refl E3). rewrite (corner_at g4 0 2 30 180 _ _ eq_refl eq_refl E2). reflexivity.
Qed.
Lemma polar_wrong : wrong_direction 60 0 [mkCorner 45 0 0; mkCorner 135 (-60) 1; mkCorner 135 60 3; mkCorner 150 0 2] = [2%Z].
Proof.
  unfold wrong_direction. assert (E : repeated [] [mkCorner 45 0 0; mkCorner 135 (-60) 1; mkCorner 135 60 3; mkCorner 150 0 2] = []).
  { cbn [repeated existsb app]. unfold same_place. cbn [clat clon]. rdec. reflexivity. }
  rewrite E. unfold ups, downs, leb, ltb. cbn [filter clat]. rdec. unfold shifted. cbn [map clat clon cidx drop_far List.length Nat.ltb Nat.leb app].
  unfold argmax. cbn [argmax_from]. unfold Rabs. rdec. unfold nthc. cbn [nth cidx]. reflexivity.
Qed.
Lemma polar_beyond : beyond_latitudes g4 60 = true.
Proof. unfold beyond_latitudes, g4, ltb. cbn [latgrib fold_left nthR nth]. unfold nthR. cbn [nth]. unfold Rmax. rdec; reflexivity. Qed.
Lemma polar_body argsort angle solve : let st := start false None polar in body (tree (points g4)) aim argsort angle g4 true false (t_loc polar) 60 0 st = Ok st /\ solve = solve :> (quad -> R -> R -> R * R).
Proof.
  cbn zeta. split; [|reflexivity]. unfold body, start, polar, near_of. cbn [t_near f_idx t_loc]. rewrite map_map. cbn [snd]. rewrite map_id, polar_four, polar_corners. cbn [rbind].
  unfold outside. cbn [negb andb f_checks]. unfold parallels_checks. rewrite polar_wrong, polar_beyond. unfold replace_close_to. cbn [List.length f_idx]. replace (180 - 60) with 120 by lra. rewrite polar_opposite.
  cbn. reflexivity.
Qed.
Lemma isort_ok : valid_argsort isort. Proof. intros keys _. apply isort_valid. Qed.
Lemma honest_near g cells : List.length (latgrib g) = List.length (longrib g) -> (forall t, In t cells -> exists la lo, t = near_of g (tree (points g)) la lo) -> honest g (tree (points g)) cells.
Proof. intros L H. split; [exact L|]. split; [apply tree_kdtree|]. intros t Ht. destruct (H t Ht) as [la [lo ->]]. split; reflexivity. Qed.
Lemma is_global_cons lats a b l : is_global (mkSource lats (a :: b :: l)) = Ok (ltb (360 - (fold_left Rmax (a :: b :: l) a - rmin (a :: b :: l))) (Rabs (a - b) * (3 / 2))).
Proof. reflexivity. Qed.
Theorem C72_refuted : ~ C72_full.
Proof.
  intro H. destruct (H (tree (points g4)) isort (fun _ _ _ => 0) (fun _ _ _ => (0, 0)) g4 false 1%Z true 10 (repeat polar 250)) as [fuel F].
  - apply honest_near; [reflexivity|]. intros t Ht. apply repeat_spec in Ht. subst t. exists 60, 0. reflexivity.
  - apply isort_ok.
  - apply F. unfold build_bilinear.
    assert (G : is_global g4 = Ok true). { unfold g4. rewrite is_global_cons. unfold ltb. cbn [fold_left rmin]. unfold Rmax, Rmin, Rabs. rdec; reflexivity. }
    rewrite G. rewrite repeat_length. assert (P : ((progress_step (Z.of_nat 250) true =? 0) = false)%Z) by (vm_compute; reflexivity). rewrite P. cbn [andb]. change 250%nat with (S 249). cbn [repeat bilinear_cells].
    assert (C : bilinear_cell (tree (points g4)) aim isort (fun _ _ _ : R * R => 0) (fun _ _ _ => (0, 0)) g4 true false 1 fuel 10 None polar = None); [|rewrite C; reflexivity].
    unfold bilinear_cell. assert (D : nthR (map fst (t_near polar)) 0 = chord (sphere 60 0) (sphere 45 0)).
    { unfold polar, near_of. cbn [t_near]. rewrite polar_four. reflexivity. }
    rewrite D, chord_sphere.
    assert (Q0 : cosine 60 0 45 0 = sqrt 3 / 2 * (sqrt 2 / 2) + 1 / 2 * (sqrt 2 / 2)) by (unfold cosine; rewrite r60, si60, c60, r45, si45, c45, r0; replace (0 - 0) with 0 by ring; rewrite cos_0; ring).
    rewrite Q0. pose proof s2. pose proof s3. pose proof s2b. pose proof s3b.
    assert (B : 1 / 100 < sqrt (2 - 2 * (sqrt 3 / 2 * (sqrt 2 / 2) + 1 / 2 * (sqrt 2 / 2))) < 10).
    { set (s := sqrt (2 - _)). assert (P0 : 0 <= s) by apply sqrt_pos. assert (P1 : 17 / 10 * (sqrt 3 * sqrt 2 / 2) < 17 / 10 * 100) by nra.
      assert (E : s * s = 2 - 2 * (sqrt 3 / 2 * (sqrt 2 / 2) + 1 / 2 * (sqrt 2 / 2))) by (apply sqrt_sqrt; nra). split; nra. }
    destruct (leb_spec (sqrt (2 - 2 * (sqrt 3 / 2 * (sqrt 2 / 2) + 1 / 2 * (sqrt 2 / 2)))) eps) as [L|_]; [unfold eps in L; lra|]. destruct (ltb_spec 10 (sqrt (2 - 2 * (sqrt 3 / 2 * (sqrt 2 / 2) + 1 / 2 * (sqrt 2 / 2))))) as [L|_]; [lra|].
    assert (S : search (tree (points g4)) aim isort (fun _ _ _ : R * R => 0) g4 true false 1 fuel (t_loc polar) (t_lat polar) (t_lon polar) (start false None polar) = None); [|rewrite S; reflexivity].
    clear. change (t_lat polar) with 60. change (t_lon polar) with 0. induction fuel as [|fuel IH]; cbn [search]; [reflexivity|]. destruct (polar_body isort (fun _ _ _ => 0) (fun _ _ _ => (0, 0))) as [E _]. cbn zeta in E. rewrite E. cbn [start f_ok f_add orb]. change (1 <=? 0)%Z with false. cbn iota. exact IH.
Qed.
Print Assumptions C72_refuted.
