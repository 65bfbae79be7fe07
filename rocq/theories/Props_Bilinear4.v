(** * Props_Bilinear4: a cell that takes the quadrilateral of the cell before; C53 and C71 refuted *)
From Verif Require Import Base Base_P Num Strings Xr Adw Bilinear Spec_Bilinear Bilinear_P Bilinear_P2 Bilinear_P3 Bilinear_P4 Bilinear_P5 Props_Bilinear Props_Bilinear2 Props_Bilinear3.
From Coq Require Import Psatz Permutation Sorting.
Local Open Scope R_scope.

(** two parallels of three points, a target between them and one on the equator *)
Definition g6 : source := mkSource [0; 0; 0; 60; 60; 60] [0; 30; 60; 0; 30; 60].
Definition tA : @target space := near_of g6 (tree (points g6)) 30 15.
Definition tB : @target space := near_of g6 (tree (points g6)) 0 45.

Lemma c15 : cos (PI / 12) = sqrt 2 / 2 * (sqrt 3 / 2) + sqrt 2 / 2 * (1 / 2).
Proof. replace (PI / 12) with (PI / 4 - PI / 6) by field. rewrite cos_minus, c45, c30, si45, si30. reflexivity. Qed.
Lemma s2c : 1414 / 1000 < sqrt 2 < 1415 / 1000. Proof. pose proof s2. pose proof s2b. split; nra. Qed.
Lemma s3c : 1732 / 1000 < sqrt 3 < 1733 / 1000. Proof. pose proof s3. pose proof s3b. split; nra. Qed.
Lemma c15b : 965 / 1000 < cos (PI / 12) < 970 / 1000. Proof. rewrite c15. pose proof s2c. pose proof s3c. nra. Qed.
Lemma cosdif la lo la' lo' x : rad lo - rad lo' = x \/ rad lo - rad lo' = - x -> cosine la lo la' lo' = sin (rad la) * sin (rad la') + cos (rad la) * cos (rad la') * cos x.
Proof. intro H. unfold cosine. destruct H as [-> | ->]; [reflexivity|]. now rewrite cos_neg. Qed.

Lemma near_A : tree (points g6) (sphere 30 15) 4 = [3; 4; 0; 1]%Z.
Proof.
  unfold tree, points, g6. cbn [latgrib longrib zipw List.length]. cbn [Nat.sub repeat]. rewrite app_nil_r.
  set (k0 := chord (sphere 30 15) (sphere 0 0)). set (k1 := chord (sphere 30 15) (sphere 0 30)). set (k2 := chord (sphere 30 15) (sphere 0 60)).
  set (k3 := chord (sphere 30 15) (sphere 60 0)). set (k4 := chord (sphere 30 15) (sphere 60 30)). set (k5 := chord (sphere 30 15) (sphere 60 60)).
  cbn [map]. fold k0 k1 k2 k3 k4 k5.
  assert (D0 : rad 15 - rad 0 = PI / 12) by (unfold rad; field). assert (D1 : rad 15 - rad 30 = - (PI / 12)) by (unfold rad; field). assert (D2 : rad 15 - rad 60 = - (PI / 4)) by (unfold rad; field).
  assert (Q0 : cosine 30 15 0 0 = sqrt 3 / 2 * cos (PI / 12)) by (rewrite (cosdif _ _ _ _ (PI / 12) (or_introl D0)), r30, si30, c30, r0, sin_0, cos_0; ring).
  assert (Q1 : cosine 30 15 0 30 = sqrt 3 / 2 * cos (PI / 12)) by (rewrite (cosdif _ _ _ _ (PI / 12) (or_intror D1)), r30, si30, c30, r0, sin_0, cos_0; ring).
  assert (Q2 : cosine 30 15 0 60 = sqrt 3 / 2 * (sqrt 2 / 2)) by (rewrite (cosdif _ _ _ _ (PI / 4) (or_intror D2)), r30, si30, c30, r0, sin_0, cos_0, c45; ring).
  assert (Q3 : cosine 30 15 60 0 = sqrt 3 / 4 * (1 + cos (PI / 12))) by (rewrite (cosdif _ _ _ _ (PI / 12) (or_introl D0)), r30, si30, c30, r60, si60, c60; field).
  assert (Q4 : cosine 30 15 60 30 = sqrt 3 / 4 * (1 + cos (PI / 12))) by (rewrite (cosdif _ _ _ _ (PI / 12) (or_intror D1)), r30, si30, c30, r60, si60, c60; field).
  assert (Q5 : cosine 30 15 60 60 = sqrt 3 / 4 * (1 + sqrt 2 / 2)) by (rewrite (cosdif _ _ _ _ (PI / 4) (or_intror D2)), r30, si30, c30, r60, si60, c60, c45; field).
  pose proof s2c. pose proof s3c. pose proof c15b.
  assert (K34 : k3 = k4) by (apply as_close; rewrite Q3, Q4; reflexivity). assert (K01 : k0 = k1) by (apply as_close; rewrite Q0, Q1; reflexivity).
  assert (K40 : k4 < k0) by (apply closer; rewrite Q4, Q0; nra). assert (K15 : k1 < k5) by (apply closer; rewrite Q1, Q5; nra). assert (K52 : k5 < k2) by (apply closer; rewrite Q2, Q5; nra).
  clearbody k0 k1 k2 k3 k4 k5. unfold isort. cbn [List.length seq fold_right]. sortdec; reflexivity.
Qed.
Lemma near_B k : (4 <= k <= 5)%nat -> tree (points g6) (sphere 0 45) k = firstn k [1; 2; 0; 4; 5]%Z.
Proof.
  intro Hk. unfold tree, points, g6. cbn [latgrib longrib zipw List.length]. replace (k - 6)%nat with O by lia. cbn [repeat]. rewrite app_nil_r.
  set (k0 := chord (sphere 0 45) (sphere 0 0)). set (k1 := chord (sphere 0 45) (sphere 0 30)). set (k2 := chord (sphere 0 45) (sphere 0 60)).
  set (k3 := chord (sphere 0 45) (sphere 60 0)). set (k4 := chord (sphere 0 45) (sphere 60 30)). set (k5 := chord (sphere 0 45) (sphere 60 60)).
  cbn [map]. fold k0 k1 k2 k3 k4 k5.
  assert (D0 : rad 45 - rad 0 = PI / 4) by (unfold rad; field). assert (D1 : rad 45 - rad 30 = PI / 12) by (unfold rad; field). assert (D2 : rad 45 - rad 60 = - (PI / 12)) by (unfold rad; field).
  assert (Q0 : cosine 0 45 0 0 = sqrt 2 / 2) by (rewrite (cosdif _ _ _ _ (PI / 4) (or_introl D0)), r0, sin_0, cos_0, c45; ring).
  assert (Q1 : cosine 0 45 0 30 = cos (PI / 12)) by (rewrite (cosdif _ _ _ _ (PI / 12) (or_introl D1)), r0, sin_0, cos_0; ring).
  assert (Q2 : cosine 0 45 0 60 = cos (PI / 12)) by (rewrite (cosdif _ _ _ _ (PI / 12) (or_intror D2)), r0, sin_0, cos_0; ring).
  assert (Q3 : cosine 0 45 60 0 = sqrt 2 / 4) by (rewrite (cosdif _ _ _ _ (PI / 4) (or_introl D0)), r0, sin_0, cos_0, c45, r60, c60; field).
  assert (Q4 : cosine 0 45 60 30 = cos (PI / 12) / 2) by (rewrite (cosdif _ _ _ _ (PI / 12) (or_introl D1)), r0, sin_0, cos_0, r60, c60; field).
  assert (Q5 : cosine 0 45 60 60 = cos (PI / 12) / 2) by (rewrite (cosdif _ _ _ _ (PI / 12) (or_intror D2)), r0, sin_0, cos_0, r60, c60; field).
  pose proof s2c. pose proof s3c. pose proof c15b.
  assert (K12 : k1 = k2) by (apply as_close; rewrite Q1, Q2; reflexivity). assert (K45 : k4 = k5) by (apply as_close; rewrite Q4, Q5; reflexivity).
  assert (K20 : k2 < k0) by (apply closer; rewrite Q2, Q0; nra). assert (K04 : k0 < k4) by (apply closer; rewrite Q4, Q0; nra). assert (K53 : k5 < k3) by (apply closer; rewrite Q5, Q3; nra).
  clearbody k0 k1 k2 k3 k4 k5. unfold isort. cbn [List.length seq fold_right]. destruct Hk as [Hk1 Hk2]. assert (Hk : k = 4%nat \/ k = 5%nat) by lia. destruct Hk as [-> | ->]; sortdec; reflexivity.
Qed.

Definition cA : list corner := [mkCorner 60 0 3; mkCorner 60 30 4; mkCorner 0 0 0; mkCorner 0 30 1].
Definition qA : quad := (mkCorner 0 0 0, mkCorner 0 30 1, mkCorner 60 30 4, mkCorner 60 0 3).
Definition cB : list corner := [mkCorner 0 30 1; mkCorner 0 60 2; mkCorner 0 0 0; mkCorner 60 30 4].
Ltac cpoint := unfold correct_point, reference, to180, Rabs, rsign; rdec; reflexivity.
Lemma corners_A : mapM (corner_of g6 15) [3; 4; 0; 1]%Z = Ok cA.
Proof.
  assert (E3 : correct_point 15 60 0 = (60, 0)) by cpoint. assert (E4 : correct_point 15 60 30 = (60, 30)) by cpoint. assert (E0 : correct_point 15 0 0 = (0, 0)) by cpoint. assert (E1 : correct_point 15 0 30 = (0, 30)) by cpoint.
  cbn [mapM]. rewrite (corner_at g6 15 3 60 0 _ _ eq_refl eq_refl E3), (corner_at g6 15 4 60 30 _ _ eq_refl eq_refl E4), (corner_at g6 15 0 0 0 _ _ eq_refl eq_refl E0), (corner_at g6 15 1 0 30 _ _ eq_refl eq_refl E1). reflexivity.
Qed.
Lemma corners_B : mapM (corner_of g6 45) [1; 2; 0; 4]%Z = Ok cB.
Proof.
  assert (E1 : correct_point 45 0 30 = (0, 30)) by cpoint. assert (E2 : correct_point 45 0 60 = (0, 60)) by cpoint. assert (E0 : correct_point 45 0 0 = (0, 0)) by cpoint. assert (E4 : correct_point 45 60 30 = (60, 30)) by cpoint.
  cbn [mapM]. rewrite (corner_at g6 45 1 0 30 _ _ eq_refl eq_refl E1), (corner_at g6 45 2 0 60 _ _ eq_refl eq_refl E2), (corner_at g6 45 0 0 0 _ _ eq_refl eq_refl E0), (corner_at g6 45 4 60 30 _ _ eq_refl eq_refl E4). reflexivity.
Qed.
Lemma wrong_A : wrong_direction 30 15 cA = [] /\ wrong_grid_like 30 15 cA = Ok None /\ wrong_best_grid_like 30 15 cA = Ok None.
Proof.
  assert (U : ups 30 cA = [mkCorner 0 0 0; mkCorner 0 30 1]) by (unfold ups, cA, leb; cbn [filter clat]; rdec; reflexivity).
  assert (D : downs 30 cA = [mkCorner 60 0 3; mkCorner 60 30 4]) by (unfold downs, cA, ltb; cbn [filter clat]; rdec; reflexivity).
  split; [|split].
  - unfold wrong_direction. assert (E : repeated [] cA = []) by (unfold cA; cbn [repeated existsb app]; unfold same_place; cbn [clat clon]; rdec; reflexivity). rewrite E, U, D. unfold shifted. cbn [map drop_far List.length Nat.ltb Nat.leb app]. reflexivity.
  - unfold wrong_grid_like. rewrite U, D. unfold shifted. cbn [map clat clon cidx].
    assert (E : argmax [- (0 - 30); - (0 - 30)] = O) by (unfold argmax; cbn [argmax_from]; rdec; reflexivity).
    assert (F : argmax [60 - 30; 60 - 30] = O) by (unfold argmax; cbn [argmax_from]; rdec; reflexivity).
    unfold argmax_row. rewrite E, F. cbn [rbind py_index]. unfold other. cbv [py_index rbind Z.of_nat Z.sub Z.add Z.opp Z.ltb Z.compare Z.to_nat nth_error Z.pos_sub Pos.to_nat Pos.iter_op Init.Nat.add].
    cbn [clat cidx]. unfold cA. cbn [map clat rmin fold_left]. unfold ltb, Rmin, Rabs. rdec; reflexivity.
  - unfold wrong_best_grid_like. rewrite U, D. assert (N : argmin (map (fun c => Rabs (clon c - 15)) cA) = O) by (unfold argmin, cA, argmax; cbn [map clon argmax_from]; unfold Rabs; rdec; reflexivity). rewrite N. unfold nthc, cA. cbn [nth]. cbn [clon]. unfold shifted. cbn [map clat clon cidx].
    assert (E : argmax [- Rabs (0 - 0); - Rabs (30 - 0)] = O) by (unfold argmax; cbn [argmax_from]; unfold Rabs; rdec; reflexivity).
    unfold argmax_row. rewrite E. unfold other. cbv [py_index rbind Z.of_nat Z.sub Z.add Z.opp Z.ltb Z.compare Z.to_nat nth_error Z.pos_sub Pos.to_nat Pos.iter_op Init.Nat.add].
    cbn [clon]. unfold ltb. rdec. reflexivity.
Qed.
Lemma quad_A : clockwise isort cA = qA.
Proof.
  unfold clockwise. assert (E : isort (map sort_key cA) = [2; 0; 3; 1]%nat) by (unfold isort, cA, sort_key; cbn [map clat clon List.length seq fold_right]; sortdec; reflexivity). rewrite E.
  cbn [nth]. unfold nthc, cA, low_high, leb. cbn [nth clat]. rdec. reflexivity.
Qed.
Lemma accepted_A : is_convex (0, 0) (0, 30) (60, 30) (60, 0) = true /\ in_quad (30, 15) (0, 0) (0, 30) (60, 30) (60, 0) = true.
Proof.
  assert (V : strictly_convex (0, 0) (0, 30) (60, 30) (60, 0)) by (unfold strictly_convex, area2; cbn [fst snd]; right; lra). split; [apply is_convex_spec; exact V|]. apply in_quad_hull; [exact V|]. apply hull4.
  exists (1/4), (1/4), (1/4), (1/4). cbn [fst snd]. repeat (split; [lra|]). first [split; lra | f_equal; lra | lra].
Qed.
Lemma range6 : fold_left Rmax (latgrib g6) (nthR (latgrib g6) 0) = 60 /\ rmin (latgrib g6) = 0 /\ fold_left Rmax (longrib g6) (nthR (longrib g6) 0) = 60 /\ rmin (longrib g6) = 0.
Proof.
  unfold g6, nthR. cbn [latgrib longrib fold_left rmin nth].
  assert (M1 : Rmax 0 0 = 0) by (apply Rmax_left; lra). assert (M2 : Rmax 0 60 = 60) by (apply Rmax_right; lra). assert (M3 : Rmax 60 60 = 60) by (apply Rmax_left; lra). assert (M4 : Rmax 0 30 = 30) by (apply Rmax_right; lra). assert (M5 : Rmax 30 60 = 60) by (apply Rmax_right; lra). assert (M6 : Rmax 60 0 = 60) by (apply Rmax_left; lra). assert (M7 : Rmax 60 30 = 60) by (apply Rmax_left; lra).
  assert (N1 : Rmin 0 0 = 0) by (apply Rmin_left; lra). assert (N2 : Rmin 0 60 = 0) by (apply Rmin_left; lra). assert (N3 : Rmin 0 30 = 0) by (apply Rmin_left; lra).
  repeat first [rewrite M1|rewrite M2|rewrite M3|rewrite M4|rewrite M5|rewrite M6|rewrite M7|rewrite N1|rewrite N2|rewrite N3]. repeat split; reflexivity.
Qed.
Lemma inside_g6 la lo : 0 <= la <= 60 -> 0 <= lo <= 60 -> outside g6 false la lo = false.
Proof. intros H1 H2. unfold outside. destruct range6 as [-> [-> [-> ->]]]. unfold ltb. rdec. reflexivity. Qed.
Lemma body_A angle bf : body (tree (points g6)) aim isort angle g6 false false (t_loc tA) 30 15 (start false bf tA) = Ok (mkState [3; 4; 0; 1]%Z 0 true true (Some qA) None).
Proof.
  unfold body, start, tA, near_of. cbn [t_near f_idx t_loc]. rewrite map_map. cbn [snd]. rewrite map_id, near_A, corners_A. cbn [rbind]. rewrite inside_g6 by lra. cbn [f_checks]. unfold parallels_checks. destruct wrong_A as [-> [-> ->]]. cbn [rbind f_done f_checks f_idx f_add f_quad].
  unfold quad_checks. rewrite quad_A. unfold qA. unfold xy. cbn [clat clon]. destruct accepted_A as [-> ->]. reflexivity.
Qed.
Lemma wrong_B : wrong_direction 0 45 cB = [0%Z].
Proof.
  unfold wrong_direction. assert (E : repeated [] cB = []) by (unfold cB; cbn [repeated existsb app]; unfold same_place; cbn [clat clon]; rdec; reflexivity). rewrite E.
  assert (U : ups 0 cB = [mkCorner 0 30 1; mkCorner 0 60 2; mkCorner 0 0 0]) by (unfold ups, cB, leb; cbn [filter clat]; rdec; reflexivity).
  assert (D : downs 0 cB = [mkCorner 60 30 4]) by (unfold downs, cB, ltb; cbn [filter clat]; rdec; reflexivity).
  rewrite U, D. unfold shifted. cbn [map clat clon cidx drop_far List.length Nat.ltb Nat.leb app]. unfold argmax. cbn [argmax_from]. unfold Rabs. rdec. unfold nthc. cbn [nth cidx]. reflexivity.
Qed.
Lemma inside_lat : beyond_latitudes g6 0 = false.
Proof. unfold beyond_latitudes. destruct range6 as [-> [-> _]]. unfold ltb. rdec. reflexivity. Qed.
Lemma body_B angle bf : exists idx, body (tree (points g6)) aim isort angle g6 false false (t_loc tB) 0 45 (start false bf tB) = Ok (mkState idx 1 false false bf None).
Proof.
  unfold body, start, tB, near_of. cbn [t_near f_idx t_loc]. rewrite map_map. cbn [snd]. rewrite map_id. rewrite (near_B 4) by lia. cbn [firstn]. rewrite corners_B. cbn [rbind]. rewrite inside_g6 by lra. cbn [f_checks]. unfold parallels_checks. rewrite wrong_B, inside_lat. unfold replace_index.
  cbn [List.length f_idx f_add]. change (Z.to_nat (4 + (0 + Z.of_nat 1))) with 5%nat. rewrite (near_B 5) by lia. eexists. reflexivity.
Qed.
Lemma far_A : 1 / 10 < nthR (map fst (t_near tA)) 0 < 10.
Proof.
  unfold tA, near_of. cbn [t_near]. rewrite near_A. unfold nthR. cbn [map fst nth]. change (nth (Z.to_nat 3) (points g6) (0, 0, 0)) with (sphere 60 0). rewrite chord_sphere.
  assert (D0 : rad 15 - rad 0 = PI / 12) by (unfold rad; field). rewrite (cosdif _ _ _ _ (PI / 12) (or_introl D0)), r30, si30, c30, r60, si60, c60. pose proof s2c. pose proof s3c. pose proof c15b.
  set (x := 2 - _). assert (B : 1 / 10 < x < 100) by (unfold x; split; nra). clearbody x. pose proof (sqrt_pos x). pose proof (sqrt_sqrt x ltac:(lra)). split; nra.
Qed.
Lemma far_B : 1 / 10 < nthR (map fst (t_near tB)) 0 < 10.
Proof.
  unfold tB, near_of. cbn [t_near]. rewrite (near_B 4) by lia. unfold nthR. cbn [firstn map fst nth]. change (nth (Z.to_nat 1) (points g6) (0, 0, 0)) with (sphere 0 30). rewrite chord_sphere.
  assert (D1 : rad 45 - rad 30 = PI / 12) by (unfold rad; field). rewrite (cosdif _ _ _ _ (PI / 12) (or_introl D1)), r0, sin_0, cos_0. pose proof s2c. pose proof s3c. pose proof c15b.
  set (x := 2 - _). assert (B : 5 / 100 < x < 100) by (unfold x; split; nra). clearbody x. pose proof (sqrt_pos x). pose proof (sqrt_sqrt x ltac:(lra)). split; nra.
Qed.
Lemma search_done {Loc} query (locate : R -> R -> Loc) argsort angle g gl rot retries fuel loc la lo st st' : f_ok st = false -> (f_add st < retries)%Z -> body query locate argsort angle g gl rot loc la lo st = Ok st' -> (f_ok st' || (retries <=? f_add st')%Z)%bool = true ->
  search query locate argsort angle g gl rot retries (S fuel) loc la lo st = Some (Ok st').
Proof. intros O A B E. cbn [search]. rewrite O. destruct (Z.leb_spec retries (f_add st)); [lia|]. cbn [orb]. rewrite B. destruct fuel; cbn [search]; rewrite E; reflexivity. Qed.
Section witness.
  Context (angle : R * R -> R * R -> R * R -> R) (solve : quad -> R -> R -> R * R) (fuel : nat).
  Notation cell := (bilinear_cell (tree (points g6)) aim isort angle solve g6 false false 1 (S fuel) 10).
  Lemma found_A bf : found (tree (points g6)) aim isort angle g6 false false 1 (S fuel) 10 bf tA qA.
  Proof.
    split; [pose proof far_A; unfold eps; lra|]. eexists. split; [eapply search_done; [reflexivity|reflexivity|exact (body_A angle bf)|reflexivity]|]. split; [reflexivity|]. split; reflexivity.
  Qed.
  Lemma near4 t : t = tA \/ t = tB -> List.length (t_near t) = 4%nat.
  Proof. intros [-> | ->]; unfold tA, tB, near_of; cbn [t_near]; rewrite map_length; [rewrite near_A|rewrite (near_B 4) by lia]; reflexivity. Qed.
  Lemma cell_A bf : cell bf tA = Some (Ok (quad_row solve qA 30 15, Some qA)).
  Proof. exact (found_row (tree (points g6)) aim isort angle solve g6 false false 1 (S fuel) 10 bf tA qA (near4 tA (or_introl eq_refl)) (found_A bf)). Qed.
  (** the cell of B takes whatever quadrilateral was there before *)
  Lemma cell_B q : cell (Some q) tB = Some (Ok (quad_row solve q 0 45, Some q)).
  Proof.
    unfold bilinear_cell. pose proof far_B as F. set (d := nthR _ _) in *. clearbody d. destruct (leb_spec d eps) as [L|_]; [unfold eps in L; lra|]. destruct (ltb_spec 10 d); [lra|].
    destruct (body_B angle (Some q)) as [idx B]. rewrite (search_done _ _ _ _ _ _ _ 1 fuel (t_loc tB) (t_lat tB) (t_lon tB) (start false (Some q) tB) _ eq_refl ltac:(reflexivity) B eq_refl). reflexivity.
  Qed.
  Lemma cells_A n bf : bilinear_cells (tree (points g6)) aim isort angle solve g6 false false 1 (S fuel) 10 bf (repeat tA n) = Some (Ok (repeat (quad_row solve qA 30 15) n)).
  Proof. revert bf. induction n as [|n IH]; intro bf; cbn [repeat bilinear_cells]; [reflexivity|]. rewrite cell_A, IH. reflexivity. Qed.
  Lemma table_AB isatty : build_bilinear (tree (points g6)) aim isort angle solve g6 false 1 isatty (S fuel) 10 (tA :: tB :: repeat tA 1000) = Some (Ok (quad_row solve qA 30 15 :: quad_row solve qA 0 45 :: repeat (quad_row solve qA 30 15) 1000)).
  Proof.
    unfold build_bilinear. assert (G : is_global g6 = Ok false) by (destruct range6 as [_ [_ [R3 R4]]]; unfold g6, nthR in R3, R4; cbn [longrib nth] in R3, R4; unfold g6; rewrite is_global_cons, R3, R4; unfold ltb, Rabs; rdec; reflexivity). rewrite G. cbn [List.length]. rewrite repeat_length.
    assert (P : ((progress_step (Z.of_nat 1002) isatty =? 0) = false)%Z) by (destruct isatty; vm_compute; reflexivity). rewrite P. cbn [andb bilinear_cells]. rewrite cell_A, cell_B, cells_A. reflexivity.
  Qed.
End witness.
Lemma honest_AB cells : (forall t, In t cells -> t = tA \/ t = tB) -> honest g6 (tree (points g6)) cells.
Proof. intro H. apply honest_near; [reflexivity|]. intros t Ht. destruct (H t Ht) as [-> | ->]; [exists 30, 15|exists 0, 45]; reflexivity. Qed.

Theorem C71_refuted : ~ C71_full.
Proof.
  intro H. set (q := (mkCorner 0 0 5, mkCorner 0 0 5, mkCorner 0 0 5, mkCorner 0 0 5)).
  pose proof (H (tree (points g6)) isort (fun _ _ _ => 0) (fun _ _ _ => (0, 0)) g6 false false 1%Z 1%nat 10 tB (Some qA) (Some q) _ _ _ _ (honest_AB [tB] ltac:(intros t [<-|[]]; right; reflexivity)) isort_ok
    (cell_B (fun _ _ _ => 0) (fun _ _ _ => (0, 0)) 0 qA) (cell_B (fun _ _ _ => 0) (fun _ _ _ => (0, 0)) 0 q)) as E.
  assert (E2 : snd (quad_row (fun _ _ _ => (0, 0)) qA 0 45) = snd (quad_row (fun _ _ _ => (0, 0)) q 0 45)) by (rewrite E; reflexivity). cbn in E2. discriminate E2.
Qed.
Print Assumptions C71_refuted.

(** the stale row uses points at longitudes 0 and 30 for a target at 45 *)
Lemma seen_west i lat lon p : In i [0; 1; 4; 3]%Z -> py_index (latgrib g6) i = Ok lat -> py_index (longrib g6) i = Ok lon -> seen_from 45 lat lon p -> snd p <= 30.
Proof.
  intros Hi E1 E2 [Near S].
  assert (L : (lon = 0 \/ lon = 30)).
  { clear - Hi E2. destruct Hi as [<-|[<-|[<-|[<-|[]]]]].
    - left. change (@Ok R 0 = Ok lon) in E2. congruence.
    - right. change (@Ok R 30 = Ok lon) in E2. congruence.
    - right. change (@Ok R 30 = Ok lon) in E2. congruence.
    - left. change (@Ok R 0 = Ok lon) in E2. congruence. }
  assert (B : -45 <= snd p <= 135) by (revert Near; unfold Rabs; destruct (Rcase_abs (45 - snd p)); lra). clear E1 E2 Near.
  assert (Zk : forall k, (IZR k <= -1 \/ IZR k = 0 \/ 1 <= IZR k)).
  { intro k. destruct (Z_lt_le_dec k 0) as [K|K]; [left; apply (IZR_le k (-1)); lia|]. destruct (Z.eq_dec k 0) as [->|N]; [right; left; reflexivity|right; right; apply (IZR_le 1 k); lia]. }
  destruct S as [[_ [k E]]|[_ [k E]]]; destruct (Zk k) as [K|[K|K]]; lra.
Qed.
Lemma f2_cons {A B} (P : A -> B -> Prop) x l y l' : Forall2 P (x :: l) (y :: l') -> P x y /\ Forall2 P l l'.
Proof. intro H. inversion H. split; assumption. Qed.
Lemma f2_in {A B} (P : A -> B -> Prop) l l' : Forall2 P l l' -> forall y, In y l' -> exists x, In x l /\ P x y.
Proof. induction 1 as [|a b l l' H F IH]; intros y Hy; [destruct Hy|]. destruct Hy as [<-|Hy]; [exists a; split; [left; reflexivity|exact H]|]. destruct (IH y Hy) as [x [Hx Px]]. exists x. split; [right; exact Hx|exact Px]. Qed.
Lemma f2_length {A B} (P : A -> B -> Prop) l l' : Forall2 P l l' -> List.length l = List.length l'.
Proof. induction 1; cbn [List.length]; congruence. Qed.
Theorem C53_refuted : ~ C53_full.
Proof.
  intros [solve H]. assert (Ho : honest g6 (tree (points g6)) (tA :: tB :: repeat tA 1000)).
  { apply honest_AB. intros t Ht. destruct Ht as [Ht|[Ht|Ht]]; [left; symmetry; exact Ht|right; symmetry; exact Ht|left; apply repeat_spec in Ht; exact Ht]. }
  pose proof (H g6 (tree (points g6)) isort (fun _ _ _ => 0) false 1%Z true 1%nat 10 (tA :: tB :: repeat tA 1000) _ Ho isort_ok (table_AB (fun _ _ _ => 0) solve 0 true)) as F. clear Ho.
  apply f2_cons in F. destruct F as [_ F]. apply f2_cons in F. destruct F as [RB _]. clear H.
  destruct (quad_row_weights solve qA 0 45) as [a [b [Ha [Hb [_ [_ E]]]]]]. rewrite E in RB. cbn [fst snd] in RB.
  destruct (RB ltac:(pose proof far_B; unfold eps; lra) (weights4 a b) eq_refl) as [ps [S I]]. clear RB E.
  change (map cidx (corners qA)) with [0; 1; 4; 3]%Z in S. change (t_lon tB) with 45 in S. change (t_lat tB) with 0 in I. change (t_lon tB) with 45 in I.
  assert (W : forall p, In p ps -> snd p <= 30).
  { intros p Hp. destruct (f2_in _ _ _ S p Hp) as [i [Hi [lat [lon [E1 [E2 E3]]]]]]. exact (seen_west i lat lon p Hi E1 E2 E3). }
  pose proof (f2_length _ _ _ S) as L. destruct ps as [|p1 [|p2 [|p3 [|p4 [|]]]]]; try discriminate L.
  pose proof (W p1 ltac:(cbn; tauto)). pose proof (W p2 ltac:(cbn; tauto)). pose proof (W p3 ltac:(cbn; tauto)). pose proof (W p4 ltac:(cbn; tauto)).
  specialize (I 0 1 0). unfold weights4 in I. cbn [map interpolated] in I. unfold affine in I. cbn [fst snd] in I.
  assert (N1 : 0 <= (1 - a) * (1 - b)) by nra. assert (N2 : 0 <= a * (1 - b)) by nra. assert (N3 : 0 <= a * b) by nra. assert (N4 : 0 <= (1 - a) * b) by nra.
  assert (T : (1 - a) * (1 - b) + a * (1 - b) + a * b + (1 - a) * b = 1) by ring.
  set (w1 := (1 - a) * (1 - b)) in *. set (w2 := a * (1 - b)) in *. set (w3 := a * b) in *. set (w4 := (1 - a) * b) in *. clearbody w1 w2 w3 w4.
  assert (M1 : w1 * snd p1 <= w1 * 30) by (apply Rmult_le_compat_l; lra). assert (M2 : w2 * snd p2 <= w2 * 30) by (apply Rmult_le_compat_l; lra). assert (M3 : w3 * snd p3 <= w3 * 30) by (apply Rmult_le_compat_l; lra). assert (M4 : w4 * snd p4 <= w4 * 30) by (apply Rmult_le_compat_l; lra). lra.
Qed.
Print Assumptions C53_refuted.

(** the hypotheses of the partial theorems are met: the cell of A *)
Definition solveA (q : quad) (la lo : R) : R * R := (lo / 30, la / 60).
Example C53_nonvacuous : exists ws idx q, bilinear_cell (tree (points g6)) aim isort (fun _ _ _ => 0) solveA g6 false false 1 1 10 None tA = Some (Ok (map XF ws, idx, q)) /\ convex_weights ws /\ reproduces g6 30 15 ws idx.
Proof.
  destruct (C53_affine_partial (tree (points g6)) aim isort (fun _ _ _ => 0) solveA g6 false false 1 1 10 None tA qA isort_ok (near4 tA (or_introl eq_refl)) (found_A (fun _ _ _ => 0) 0 None) eq_refl) as [ws [idx [E [C P]]]].
  - intros _. unfold solveA, qA, fn_alpha_beta. cbn [fst snd clat clon]. change (t_lon tA) with 15. change (t_lat tA) with 30. split; [lra|]. split; [lra|]. f_equal; lra.
  - change (t_lon tA) with 15. lra.
  - intros lon H. unfold g6 in H. cbn [longrib In] in H. lra.
  - intros i lat lon E1 E2 Hi _. exists 0%Z. change (t_lon tA) with 15. rewrite Rmult_0_r, Rplus_0_r.
    assert (L : lon = 0 \/ lon = 30 \/ lon = 60) by (apply py_index_In in E2; cbn [g6 longrib In] in E2; lra). unfold Rabs. destruct (Rcase_abs (15 - lon)); lra.
  - exists ws, idx, (Some qA). split; [exact E|]. split; [exact C|exact P].
Qed.
Example C71_nonvacuous : exists r q, bilinear_cell (tree (points g6)) aim isort (fun _ _ _ => 0) solveA g6 false false 1 1 10 None tA = Some (Ok (r, q)) /\ fst r = map XF (weights4 (15 / 30) (30 / 60)).
Proof.
  eexists. eexists. split; [apply (cell_A (fun _ _ _ => 0) solveA 0 None)|]. destruct (quad_row_weights solveA qA 30 15) as [a [b [Ha [Hb [Ea [Eb ->]]]]]]. unfold solveA in Ea, Eb. cbn [fst snd] in *. rewrite clip_id in Ea by lra. rewrite clip_id in Eb by lra. subst a b. reflexivity.
Qed.
(** a rotated source: the same quadrilateral is found at once *)
Lemma body_A_rotated angle bf : body (tree (points g6)) aim isort angle g6 false true (t_loc tA) 30 15 (start true bf tA) = Ok (mkState [3; 4; 0; 1]%Z 0 true true (Some qA) None).
Proof.
  unfold body, start, tA, near_of. cbn [t_near f_idx t_loc]. rewrite map_map. cbn [snd]. rewrite map_id, near_A, corners_A. cbn [rbind]. rewrite inside_g6 by lra. cbn [f_checks f_done rbind].
  unfold quad_checks. rewrite quad_A. unfold qA. unfold xy. cbn [clat clon]. destruct accepted_A as [-> ->]. reflexivity.
Qed.
Example C72_nonvacuous : forall bf, bilinear_cell (tree (points g6)) aim isort (fun _ _ _ => 0) solveA g6 false true 20 20 10 bf tA = Some (Ok (quad_row solveA qA 30 15, Some qA)).
Proof.
  intro bf. unfold bilinear_cell. pose proof far_A as F. set (d := nthR _ _) in *. clearbody d. destruct (leb_spec d eps) as [L|_]; [unfold eps in L; lra|]. destruct (ltb_spec 10 d); [lra|].
  change (t_lat tA) with 30. change (t_lon tA) with 15. rewrite (search_done _ _ _ _ _ _ _ 20 19 (t_loc tA) 30 15 (start true bf tA) _ eq_refl ltac:(reflexivity) (body_A_rotated _ bf) eq_refl). reflexivity.
Qed.
