(** * Props_Triang6: C74, tables for every target, and C75, rows of mode bilinear_delaunay *)
From Verif Require Import Base Base_P Num Num_P Strings Xr Adw Bilinear Triang Spec_Bilinear Spec_Triang Bilinear_P Bilinear_P2 Bilinear_P3 Bilinear_P4 Bilinear_P5 GribInterp_P Triang_P Props_Bilinear Props_Triang Props_Triang2 Props_Triang3 Props_Triang4 Props_Triang5.
From Coq Require Import Psatz Permutation Sorting.
Local Open Scope R_scope.

(** with two source points, 250 cells and latitudes that can be scaled, only the
    triangulation itself may fail *)
Definition C74_for (use_bilinear : bool) : Prop := forall quad_int delaunay argsort angle solve place dist near g rotated isatty mub target e,
  honest_delaunay delaunay -> (forall keys, is_argsort keys (argsort keys)) -> honest_angle angle ->
  List.length (latgrib g) = List.length (longrib g) -> (2 <= List.length (latgrib g))%nat -> (rotated = true \/ northern quad_int g) -> (250 <= List.length (List.concat target))%nat ->
  build_triangulation quad_int delaunay argsort angle solve place dist near g rotated use_bilinear isatty mub target = Raise e -> exists pts, delaunay pts = Raise e.
Definition C74_full : Prop := forall use_bilinear, C74_for use_bilinear.

Lemma py_index_ok {A} (l : list A) n x : nth_error l n = Some x -> py_index l (Z.of_nat n) = Ok x.
Proof. intro E. rewrite py_index_nat, E. reflexivity. Qed.
Lemma scaled_lengths (f : plane -> plane) (ps : list plane) n s : nth_error (map f ps) n = Some s -> exists p, nth_error ps n = Some p.
Proof. rewrite nth_error_map. destruct (nth_error ps n) as [p|]; [exists p; reflexivity|discriminate]. Qed.
Lemma corners_unscaled (f : plane -> plane) ps s a b c : corners_of (map f ps) s a b c -> exists i j k a' b' c', s = [Z.of_nat i; Z.of_nat j; Z.of_nat k] /\ nth_error ps i = Some a' /\ nth_error ps j = Some b' /\ nth_error ps k = Some c'.
Proof.
  intros [i [j [k [-> [A [B C]]]]]]. destruct (scaled_lengths _ _ _ _ A) as [a' A']. destruct (scaled_lengths _ _ _ _ B) as [b' B']. destruct (scaled_lengths _ _ _ _ C) as [c' C']. exists i, j, k, a', b', c'. auto.
Qed.
Section total.
  Context (argsort : list R -> list nat) (angle : plane -> plane -> plane -> R) (solve : quad -> R -> R -> R * R)
          (place : plane -> space3) (dist : space3 -> space3 -> R) (tri : triangulation) (f : plane -> plane) (ps : list plane) (global : bool) (mub : R).
  Context (HD : is_delaunay (map f ps) (simplices tri) (neighbors tri) (find_simplex tri) (transform tri)).
  Lemma simplex_at t : (t = -1)%Z \/ (exists n s, t = Z.of_nat n /\ nth_error (simplices tri) n = Some s) -> exists s, py_index (simplices tri) t = Ok s /\ In s (simplices tri).
  Proof.
    intros [->|[n [s [-> E]]]]; [apply py_index_last; apply HD|]. exists s. split; [apply py_index_ok; exact E|exact (nth_error_In _ _ E)].
  Qed.
  Lemma find_valid p : (find_simplex tri p = -1)%Z \/ (exists n s, find_simplex tri p = Z.of_nat n /\ nth_error (simplices tri) n = Some s).
  Proof. destruct HD as [_ [_ [_ [_ [_ [HF _]]]]]]. destruct (HF p) as [[E _]|[n [s [a [b [c [E [N _]]]]]]]]; [left; exact E|right; exists n, s; auto]. Qed.
  Lemma simplex_corners s : In s (simplices tri) -> exists i j k a b c, s = [Z.of_nat i; Z.of_nat j; Z.of_nat k] /\ nth_error ps i = Some a /\ nth_error ps j = Some b /\ nth_error ps k = Some c.
  Proof. intro I. destruct HD as [_ [_ [_ [HS _]]]]. destruct (HS s I) as [a [b [c [C _]]]]. exact (corners_unscaled _ _ _ _ _ _ C). Qed.
  Lemma tri_cell_total near psc c pairs : exists r, tri_cell argsort angle solve place dist tri ps (map f ps) global false mub near psc c pairs = Ok (r, pairs).
  Proof.
    unfold tri_cell. set (t := match psc with Some p => find_simplex tri p | None => (-1)%Z end).
    assert (V : (t = -1)%Z \/ (exists n s, t = Z.of_nat n /\ nth_error (simplices tri) n = Some s)) by (unfold t; destruct psc; [apply find_valid|left; reflexivity]).
    destruct (simplex_at t V) as [s [Es Hs]]. rewrite Es. cbn [rbind]. destruct psc as [p|]; [|eexists; reflexivity]. destruct (((t =? -1)%Z || _)%bool) eqn:B; [eexists; reflexivity|]. apply orb_false_elim in B. destruct B as [B _]. apply Z.eqb_neq in B.
    destruct (simplex_corners s Hs) as [i [j [k [a [b [c' [-> [A [A2 A3]]]]]]]]]. unfold at_pt. rewrite (@py_index_ok pt ps _ _ A), (@py_index_ok pt ps _ _ A2), (@py_index_ok pt ps _ _ A3). cbn [rbind]. destruct (negb global && _)%bool; [eexists; reflexivity|]. cbn [choose rbind].
    assert (F3 : (List.length (filter (fun x => (0 <=? x)%Z) [Z.of_nat i; Z.of_nat j; Z.of_nat k]) =? 4)%nat = false). { cbn [filter]. destruct (0 <=? Z.of_nat i)%Z, (0 <=? Z.of_nat j)%Z, (0 <=? Z.of_nat k)%Z; reflexivity. }
    rewrite F3. destruct V as [V|[n [s' [V N]]]]; [contradiction|]. destruct HD as [_ [_ [_ [_ [HT _]]]]]. destruct (HT n s' N) as [? [? [? [? [? [_ [M _]]]]]]]. rewrite V. rewrite (@py_index_ok (pt * pt * pt) (transform tri) _ _ M). cbn [rbind]. eexists. reflexivity.
  Qed.
  Lemma tri_cells_total near scaled : forall cells pairs, exists rows, tri_cells argsort angle solve place dist tri ps (map f ps) global false mub near scaled cells pairs = Ok rows.
  Proof.
    induction cells as [|c cells IH]; intro pairs; cbn [tri_cells]; [eexists; reflexivity|]. destruct (tri_cell_total (near c) (scaled c) c pairs) as [r ->]. cbn [rbind]. destruct (IH pairs) as [rows ->]. eexists. reflexivity.
  Qed.
End total.
Lemma resolution_total ps : (2 <= List.length ps)%nat -> exists r, resolution ps = Ok r.
Proof. intro L. destruct ps as [|p [|q l]]; try (cbn [List.length] in L; lia). eexists. reflexivity. Qed.
Lemma points_scaled quad_int g r : List.length (latgrib g) = List.length (longrib g) -> northern quad_int g -> let ps0 := normalized g in ps0 <> [] -> let ps := if covers_globe ps0 r then padded ps0 r else ps0 in exists f, scaled_points quad_int ps = Some (map f ps).
Proof.
  intros Len [G HN] ps0 NE0 ps. assert (NE : ps <> []). { unfold ps. destruct (covers_globe ps0 r); [|exact NE0]. unfold padded. destruct ps0; [congruence|discriminate]. }
  assert (Sub : forall x, In x (map fst ps) -> In x (latgrib g)). { intros x Hx. unfold ps in Hx. destruct (covers_globe ps0 r); [apply padded_lats in Hx|]; apply normalized_lats; exact Hx. }
  assert (Gp : grows_on (map fst ps) (fun x => fst (quad_int x))) by (intros x y Hx Hy; apply G; apply Sub; assumption).
  destruct (lat_max_is ps NE) as [M1 M2]. assert (M3 : forall y, In y (latgrib g) -> y <= lat_max ps).
  { intros y Hy. apply M2. assert (I : In y (map fst ps0)).
    { apply In_nth_error in Hy. destruct Hy as [n Hn]. assert (B : (n < List.length ps0)%nat) by (unfold ps0; rewrite (normalized_length g Len); apply nth_error_Some; congruence). destruct (nth_error ps0 n) as [p|] eqn:Ep; [|apply nth_error_Some in B; congruence]. destruct (normalized_nth g n p Ep) as [la [lo [N1 [_ [N3 _]]]]]. assert (y = fst p) by congruence. subst y. apply in_map. exact (nth_error_In _ _ Ep). }
    unfold ps. destruct (covers_globe ps0 r); [|exact I]. unfold padded. rewrite !map_app. apply in_or_app. left. apply in_or_app. left. exact I. }
  destruct (HN (lat_max ps) (Sub _ M1) M3) as [P1 P2]. eexists. apply (scaled_points_at quad_int ps Gp); [lra|exact NE].
Qed.
Lemma unpad_rows_total ps r rows : Forall (fun row => Forall (fun i => i = (-1)%Z \/ exists n p, i = Z.of_nat n /\ nth_error (padded ps r) n = Some p) (snd row)) rows ->
  exists rows', unpad_rows (Z.of_nat (List.length ps)) (original_indexes ps r) rows = Ok rows' /\
    Forall2 (fun row row' : list xr * list Z => fst row' = fst row /\ Forall2 (fun i i' => (i = -1 /\ i' = -1)%Z \/ (0 <= i /\ 0 <= i' <= Z.of_nat (List.length ps))%Z) (snd row) (snd row')) rows rows'.
Proof.
  induction 1 as [|row rows H F IH]; unfold unpad_rows; cbn [mapM]; [exists []; split; [reflexivity|constructor]|].
  assert (M : exists idx, mapM (unpad (Z.of_nat (List.length ps)) (original_indexes ps r)) (snd row) = Ok idx /\ Forall2 (fun i i' => (i = -1 /\ i' = -1)%Z \/ (0 <= i /\ 0 <= i' <= Z.of_nat (List.length ps))%Z) (snd row) idx).
  { clear IH. induction H as [|i l H Hl IH]; cbn [mapM]; [exists []; split; [reflexivity|constructor]|]. destruct IH as [idx [-> K]]. destruct H as [->|[n [p [-> E]]]].
    - exists ((-1)%Z :: idx). unfold unpad. rewrite Z.gtb_ltb. destruct (Z.ltb_spec (Z.of_nat (List.length ps)) (-1)); [lia|]. split; [reflexivity|]. constructor; [left; split; reflexivity|exact K].
    - destruct (unpad_origin ps r n p E) as [j [-> J]]. exists (j :: idx). split; [reflexivity|]. constructor; [|exact K]. right. split; [lia|]. destruct J as [->|[m [q [k [-> [B _]]]]]]; [lia|]. assert (m < List.length ps)%nat by (apply nth_error_Some; congruence). lia. }
  destruct M as [idx [-> K]]. cbn [rbind]. destruct IH as [rows' [E G]]. unfold unpad_rows in E. rewrite E. cbn [rbind]. eexists. split; [reflexivity|]. constructor; [|exact G]. cbn [fst snd]. split; [reflexivity|exact K].
Qed.
Theorem C74_partial : C74_for false.
Proof.
  intros quad_int delaunay argsort angle solve place dist near g rotated isatty mub target e HD _ _ Len L2 HN L250 H. unfold build_triangulation in H.
  assert (L2' : (2 <= List.length (normalized g))%nat) by (rewrite (normalized_length g Len); exact L2). destruct (resolution_total _ L2') as [r HR]. rewrite HR in H. cbn [rbind] in H.
  assert (NE0 : normalized g <> []) by (intro E; rewrite E in L2'; cbn [List.length] in L2'; lia).
  set (ps := if covers_globe (normalized g) r then padded (normalized g) r else normalized g) in *.
  assert (X : exists f, (if rotated then Ok ps else match scaled_points quad_int ps with Some l => Ok l | None => Raise ValueError end) = Ok (map f ps)).
  { destruct rotated; [exists (fun p => p); rewrite map_id; reflexivity|]. destruct HN as [HN|HN]; [discriminate|]. destruct (points_scaled quad_int g r Len HN NE0) as [f Hf]. exists f. fold ps in Hf. rewrite Hf. reflexivity. }
  destruct X as [f X]. rewrite X in H. cbn [rbind] in H. destruct (delaunay (map f ps)) as [tri|e'] eqn:T; cbn [rbind] in H; [|exists (map f ps); congruence]. exfalso. apply HD in T.
  assert (Lc : List.length (cells_of target) = List.length (List.concat target)) by (rewrite <- cells_concat; rewrite map_length; reflexivity).
  destruct (Z.eqb_spec (progress_step (Z.of_nat (List.length (cells_of target))) isatty) 0) as [Z0|Z0]; [exfalso; revert Z0; apply progress_step_nonzero; lia|]. cbn [andb] in H.
  set (scaled := fun c => if rotated then _ else _) in H. destruct (tri_cells_total argsort angle solve place dist tri f ps (covers_globe (normalized g) r) mub T near scaled (cells_of target) []) as [rows HRows].
  unfold plane in HRows. rewrite HRows in H. cbn [rbind] in H. destruct (covers_globe (normalized g) r) eqn:G; [|discriminate H].
  destruct (unpad_rows_total (normalized g) r rows) as [rows' [E _]]; [|rewrite <- (normalized_length g Len) in H; rewrite E in H; discriminate H].
  pose proof (tri_cells_rows argsort angle solve place dist tri ps (map f ps) true mub T near scaled _ _ _ HRows) as F. clear -F T. induction F as [|c row cs rows H F IH]; constructor; [|exact IH].
  destruct (tri_cell_row _ _ _ _ _ _ _ _ _ _ T _ _ _ _ _ _ H) as [_ [[a [b [c' C]]] _]]. destruct (corners_unscaled _ _ _ _ _ _ C) as [i [j [k [a' [b' [c'' [-> [A [B D]]]]]]]]]. unfold ps in A, B, D.
  constructor; [right; exists i, a'; auto|]. constructor; [right; exists j, b'; auto|]. constructor; [right; exists k, c''; auto|constructor].
Qed.
Print Assumptions C74_partial.
(** one triangle, which has no neighbour: mode bilinear_delaunay looks up its
    pair in an array without elements *)
Section one.
  Context (argsort : list R -> list nat) (angle : plane -> plane -> plane -> R) (solve : quad -> R -> R -> R * R).
  Lemma one_cell c : first_lat c = 2 -> c_lon c = 3 -> tri_cell argsort angle solve (fun _ => (0, 0, 0)) (fun _ _ => 0) tT pT pT false true 1 0 (Some (first_lat c, c_lon c)) c [] = Raise IndexError.
  Proof.
    intros E1 E2. unfold tri_cell. rewrite E1, E2. rewrite find_T by lra. change (py_index (simplices tT) (Z.of_nat 0)) with (@Ok (list Z) [0; 1; 2]%Z). cbn [rbind]. assert (B : ltb 1 0 = false) by (unfold ltb; rdec; reflexivity). rewrite B. clear B. change (Z.of_nat 0 =? -1)%Z with false. cbn [negb andb orb]. unfold at_pt.
    change (py_index pT 0) with (@Ok plane (0, 0)). change (py_index pT 1) with (@Ok plane (10, 0)). change (py_index pT 2) with (@Ok plane (0, 10)). cbn [rbind]. unfold too_far. rewrite !far_W. cbn [orb]. unfold choose, at_pt.
    change (py_index pT 0) with (@Ok plane (0, 0)). change (py_index pT 1) with (@Ok plane (10, 0)). change (py_index pT 2) with (@Ok plane (0, 10)). cbn [rbind]. change (py_index (neighbors tT) (Z.of_nat 0)) with (@Ok (list Z) [-1; -1; -1]%Z). cbn [rbind].
    assert (W : (widest angle (0, 0)%R (10, 0)%R (0, 10)%R < 3)%nat).
    { unfold widest. cbv zeta. destruct (leb _ _); [lia|]. unfold argmax. cbn [argmax_from]. repeat destruct (Rlt_dec _ _); lia. }
    destruct (widest angle (0, 0)%R (10, 0)%R (0, 10)%R) as [|[|[|k]]]; [reflexivity|reflexivity|reflexivity|lia].
  Qed.
End one.
Theorem C74_refuted : ~ C74_full.
Proof.
  intro H. destruct (H true exact_quad (only pT tT) isort acos_angle (fun _ _ _ => (0, 0)) (fun _ => (0, 0, 0)) (fun _ _ => 0) (fun _ => 0) gT true true 1 (repeat [(2, 3)] 1000) IndexError) as [pts E].
  - apply only_honest. exact delaunay_T.
  - exact isort_valid.
  - exact acos_angle_honest.
  - reflexivity.
  - cbn [gT latgrib List.length]. lia.
  - left. reflexivity.
  - rewrite concat_repeat_length. cbn [List.length]. lia.
  - unfold build_triangulation. destruct regional_T as [-> [E2 E3]]. cbn [rbind]. rewrite E2, E3. cbn [rbind]. rewrite only_same. cbn [rbind].
    assert (C : cells_of (repeat [(2, 3)] 1000) = repeat (mkCell 2 2 3) 1000). { rewrite cells_repeat. cbn [map fst snd]. generalize 1000%nat as k. induction k as [|k IH]; [reflexivity|]. cbn [repeat List.concat app]. rewrite IH. reflexivity. }
    rewrite C. assert (NP : no_pairs tT (map (fun c => find_simplex tT (first_lat c, c_lon c)) (repeat (mkCell 2 2 3) 1000)) = Ok []).
    { change 1000%nat with (S 999). generalize 999%nat as k. intro k. unfold no_pairs.
      assert (M : forall n, mapM (py_index (neighbors tT)) (map (fun c => find_simplex tT (first_lat c, c_lon c)) (repeat (mkCell 2 2 3) n)) = Ok (repeat [-1; -1; -1]%Z n)).
      { induction n as [|n IH]; [reflexivity|]. cbn [repeat map mapM first_lat c_lon]. rewrite find_T by lra. change (py_index (neighbors tT) (Z.of_nat 0)) with (@Ok (list Z) [-1; -1; -1]%Z). cbn [rbind]. cbn [first_lat c_lon] in IH. rewrite IH. reflexivity. }
      rewrite M. cbn [rbind repeat List.concat app fold_left]. change (Z.max (-1) (-1))%Z with (-1)%Z. assert (X : forall n, fold_left Z.max (List.concat (repeat [-1; -1; -1]%Z n)) (-1)%Z = (-1)%Z) by (induction n as [|n IH]; [reflexivity|exact IH]). rewrite X. reflexivity. }
    rewrite NP. cbn [rbind]. rewrite repeat_length. assert (P : (progress_step (Z.of_nat 1000) true =? 0)%Z = false) by (vm_compute; reflexivity). rewrite P. cbn [andb].
    change 1000%nat with (S 999). cbn [repeat tri_cells]. rewrite one_cell by reflexivity. reflexivity.
  - unfold only in E. destruct (list_eq_dec _ _ _); discriminate E.
Qed.
Print Assumptions C74_refuted.
Example C74_nonvacuous : exists table, build_triangulation exact_quad (only pT tT) isort acos_angle (fun _ _ _ => (0, 0)) (fun _ => (0, 0, 0)) (fun _ _ => 0) (fun _ => 0) gT true false true 1 (repeat [(2, 3); (2, 4)] 500) = Ok table.
Proof.
  destruct (build_triangulation exact_quad (only pT tT) isort acos_angle (fun _ _ _ => (0, 0)) (fun _ => (0, 0, 0)) (fun _ _ => 0) (fun _ => 0) gT true false true 1 (repeat [(2, 3); (2, 4)] 500)) as [t|e] eqn:E; [exists t; reflexivity|]. exfalso.
  destruct C73_nonvacuous as [t [_ [T _]]]. rewrite T in E. discriminate E.
Qed.

(** ** C75: rows of mode bilinear_delaunay *)
Lemma insert_unique_in x y l : In y (insert_unique x l) <-> y = x \/ In y l.
Proof.
  induction l as [|z l IH]; cbn [insert_unique In]; [split; [intros [<-|[]]; left; reflexivity|intros [->|[]]; left; reflexivity]|]. destruct (Z.eqb_spec x z) as [->|N].
  - cbn [In]. split; [intros [<-|H]; [left; reflexivity|right; right; exact H]|]. intros [->|[<-|H]]; [left; reflexivity|left; reflexivity|right; exact H].
  - destruct (x <? z)%Z; cbn [In]; [split; intros [K|K]; auto|]. rewrite IH. split; [intros [<-|[->|K]]; auto|intros [->|[<-|K]]; auto].
Qed.
Lemma unique_in y l : In y (unique l) <-> In y l.
Proof. unfold unique. induction l as [|x l IH]; cbn [fold_right In]; [reflexivity|]. rewrite insert_unique_in, IH. split; intros [K|K]; auto. Qed.
(** four weights, not negative, with sum one; a place without source has none *)
Definition fair_row (n : nat) (r : list xr * list Z) : Prop := List.length (snd r) = 4%nat /\
  (fst r = [XNaN; XNaN; XNaN; XNaN] \/ exists ws, fst r = map XF ws /\ List.length ws = 4%nat /\ convex_weights ws /\
     forall k i, nth_error (snd r) k = Some i -> (0 <= i <= Z.of_nat n)%Z \/ (i = (-1)%Z /\ nth_error ws k = Some 0)).
Section rows.
  Context (argsort : list R -> list nat) (angle : plane -> plane -> plane -> R) (solve : quad -> R -> R -> R * R)
          (place : plane -> space3) (dist : space3 -> space3 -> R) (tri : triangulation) (f : plane -> plane) (ps : list plane) (global : bool) (mub : R).
  Context (HD : is_delaunay (map f ps) (simplices tri) (neighbors tri) (find_simplex tri) (transform tri)) (HA : forall keys, is_argsort keys (argsort keys)).
  Notation cell := (tri_cell argsort angle solve place dist tri ps (map f ps) global true mub).
  Definition inner_row (r : list xr * list Z) : Prop := List.length (snd r) = 4%nat /\ Forall (fun i => i = (-1)%Z \/ exists n p, i = Z.of_nat n /\ nth_error ps n = Some p) (snd r) /\
    (fst r = [XNaN; XNaN; XNaN; XNaN] \/ exists ws, fst r = map XF ws /\ List.length ws = 4%nat /\ convex_weights ws /\ forall k i, nth_error (snd r) k = Some i -> (0 <= i)%Z \/ (i = (-1)%Z /\ nth_error ws k = Some 0)).
  Lemma simplex_places s : In s (simplices tri) -> List.length s = 3%nat /\ Forall (fun i => exists n p, i = Z.of_nat n /\ nth_error ps n = Some p) s.
  Proof. intro H. destruct (simplex_corners tri f ps HD s H) as [i [j [k [a [b [c [-> [A [B C]]]]]]]]]. split; [reflexivity|]. constructor; [exists i, a; auto|]. constructor; [exists j, b; auto|]. constructor; [exists k, c; auto|constructor]. Qed.
  Lemma wide_row s : In s (simplices tri) -> inner_row (nan_row3 (s ++ [-1]%Z)).
  Proof.
    intro H. destruct (simplex_places s H) as [L F]. unfold inner_row, nan_row3. cbn [fst snd]. rewrite app_length, L. split; [reflexivity|]. split; [|left; reflexivity]. apply Forall_app. split; [|constructor; [left; reflexivity|constructor]]. eapply Forall_impl; [|exact F]. cbn beta. intros i Hi. right. exact Hi.
  Qed.
  Lemma cell_row near psc c pairs r pairs' : cell near psc c pairs = Ok (r, pairs') -> inner_row r.
  Proof.
    unfold tri_cell. set (t := match psc with Some p => find_simplex tri p | None => (-1)%Z end). intro H. apply rbind_ok in H. destruct H as [s [Es H]]. pose proof (py_index_In _ _ _ Es) as Hs.
    destruct psc as [p|]; [|assert (E : r = nan_row3 (s ++ [-1]%Z)) by congruence; subst r; apply wide_row; exact Hs].
    destruct (((t =? -1)%Z || _)%bool) eqn:B; [assert (E : r = nan_row3 (s ++ [-1]%Z)) by congruence; subst r; apply wide_row; exact Hs|]. apply orb_false_elim in B. destruct B as [B _]. apply Z.eqb_neq in B.
    destruct (simplex_places s Hs) as [Ls Fs]. destruct s as [|i [|j [|k [|]]]]; try discriminate Ls.
    apply rbind_ok in H. destruct H as [a [_ H]]. apply rbind_ok in H. destruct H as [b [_ H]]. apply rbind_ok in H. destruct H as [c' [_ H]].
    destruct (negb global && _)%bool; [assert (E : r = nan_row3 ([i; j; k] ++ [-1]%Z)) by congruence; subst r; apply wide_row; exact Hs|].
    apply rbind_ok in H. destruct H as [[idx pairs1] [Hc H]]. cbn [choose] in Hc.
    apply rbind_ok in Hc. destruct Hc as [a1 [_ Hc]]. apply rbind_ok in Hc. destruct Hc as [b1 [_ Hc]]. apply rbind_ok in Hc. destruct Hc as [c1 [_ Hc]]. apply rbind_ok in Hc. destruct Hc as [nbs [_ Hc]]. apply rbind_ok in Hc. destruct Hc as [nb [_ Hc]]. apply rbind_ok in Hc. destruct Hc as [pairs2 [_ Hc]]. apply rbind_ok in Hc. destruct Hc as [other [_ Hc]].
    destruct (other >? -1)%Z.
    - apply rbind_ok in Hc. destruct Hc as [s2 [Es2 Hc]]. destruct (simplex_places s2 (py_index_In _ _ _ Es2)) as [Ls2 Fs2]. cbv zeta in Hc. destruct (Nat.eqb_spec (List.length (unique ([i; j; k] ++ s2))) 4) as [L4|]; [|discriminate Hc].
      assert (E : idx = unique ([i; j; k] ++ s2)) by congruence. rewrite E in H. clear Hc E idx. set (u := unique ([i; j; k] ++ s2)) in *.
      assert (Fu : Forall (fun i => exists n p, i = Z.of_nat n /\ nth_error ps n = Some p) u). { apply Forall_forall. intros x Hx. unfold u in Hx. apply (proj1 (unique_in _ _)) in Hx. apply in_app_or in Hx. destruct Hx as [Hx|Hx]; [exact (proj1 (Forall_forall _ _) Fs x Hx)|exact (proj1 (Forall_forall _ _) Fs2 x Hx)]. }
      clearbody u. assert (Ef : filter (fun x => (0 <=? x)%Z) u = u). { clear -Fu. induction Fu as [|x u [n [p [-> _]]] Fu IH]; [reflexivity|]. cbn [filter]. destruct (Z.leb_spec 0 (Z.of_nat n)); [|lia]. rewrite IH. reflexivity. }
      rewrite Ef, L4 in H. cbn [Nat.eqb] in H. apply rbind_ok in H. destruct H as [cs [Hcs H]]. assert (Er : r = quad_row solve (clockwise argsort cs) (c_lat c) (c_lon c)) by congruence. clear H.
      assert (Lc : List.length cs = 4%nat) by (rewrite (mapM_ok_length _ _ _ Hcs); exact L4).
      assert (Ec : map cidx cs = u). { apply mapM_Forall2 in Hcs. clear -Hcs. induction Hcs as [|x y l l' H F IH]; [reflexivity|]. cbn [map]. rewrite IH. f_equal. unfold corner_at_index in H. apply rbind_ok in H. destruct H as [p [_ H]]. assert (E : y = mkCorner (fst p) (snd p) x) by congruence. subst y. reflexivity. }
      destruct (C54_permutation argsort cs Lc (HA _)) as [p1 [p2 [p3 [p4 [E P]]]]]. rewrite E in Er. destruct (quad_row_weights solve (p1, p2, p3, p4) (c_lat c) (c_lon c)) as [x [y [Hx [Hy [_ [_ Eq]]]]]]. rewrite Eq in Er. subst r.
      assert (Pu : Permutation u (map cidx [p1; p2; p3; p4])) by (rewrite <- Ec; apply Permutation_map; exact P). pose proof (Permutation_Forall Pu Fu) as Fp.
      unfold inner_row. cbn [fst snd]. change (map cidx (corners (p1, p2, p3, p4))) with (map cidx [p1; p2; p3; p4]). split; [reflexivity|]. split; [eapply Forall_impl; [|exact Fp]; cbn beta; intros z Hz; right; exact Hz|]. right. exists (weights4 x y). split; [reflexivity|]. split; [reflexivity|]. split; [apply weights4_convex; assumption|].
      intros q z Hz. left. apply nth_error_In in Hz. destruct (proj1 (Forall_forall _ _) Fp z Hz) as [n [? [-> _]]]. lia.
    - assert (E : idx = ([i; j; k] ++ [-1])%Z) by congruence. subst idx. clear Hc. cbn [app] in H.
      assert (F4 : (List.length (filter (fun x => (0 <=? x)%Z) [i; j; k; -1]%Z) =? 4)%nat = false). { cbn [filter]. change (0 <=? -1)%Z with false. destruct (0 <=? i)%Z, (0 <=? j)%Z, (0 <=? k)%Z; reflexivity. }
      rewrite F4 in H. apply rbind_ok in H. destruct H as [m [HM H]]. destruct HD as [_ [_ [_ [_ [HT [HF _]]]]]].
      destruct (HF p) as [[F _]|[n' [s [a2 [b2 [c2 [F [Hs2 [HC HH]]]]]]]]]; [exfalso; apply B; exact F|].
      unfold t in Es, HM. rewrite F in Es, HM. rewrite py_index_nat in Es. rewrite py_index_nat in HM. rewrite Hs2 in Es. assert (Ess : s = [i; j; k]) by congruence. subst s.
      destruct (HT n' [i; j; k] Hs2) as [a3 [b3 [c3 [r0 [r1 [HC2 [HM2 HV]]]]]]]. unfold plane in HM2. rewrite HM2 in HM. destruct (corners_fun _ _ _ _ _ _ _ _ HC HC2) as [-> [-> ->]].
      assert (Em : m = (r0, r1, c3)) by (injection HM as E; symmetry; exact E). subst m. destruct (hull3 p a3 b3 c3 HH) as [w1 [w2 [w3 [N1 [N2 [N3 [T C]]]]]]].
      assert (Er : r = triangle_row (r0, r1, c3) p [i; j; k; -1]%Z) by congruence. unfold triangle_row in Er. rewrite (barycentric_weights a3 b3 c3 r0 r1 w1 w2 w3 p HV T C) in Er. cbn [List.length Nat.sub repeat app] in Er. subst r.
      unfold inner_row. cbn [fst snd]. split; [reflexivity|]. split.
      + inversion_clear Fs as [|? ? F1 Fs']. inversion_clear Fs' as [|? ? F2 Fs'']. inversion_clear Fs'' as [|? ? F3 _]. constructor; [right; exact F1|]. constructor; [right; exact F2|]. constructor; [right; exact F3|]. constructor; [left; reflexivity|constructor].
      + right. exists [w1; w2; w3; 0]. split; [cbn [map]; replace (1 - (w1 + w2)) with w3 by lra; reflexivity|]. split; [reflexivity|]. split; [split; [repeat (apply Forall_cons; [lra|]); apply Forall_nil|cbn [total]; lra]|].
        inversion_clear Fs as [|? ? [n1 [? [-> _]]] Fs']. inversion_clear Fs' as [|? ? [n2 [? [-> _]]] Fs'']. inversion_clear Fs'' as [|? ? [n3 [? [-> _]]] _].
        intros q z Hz. destruct q as [|[|[|[|q]]]]; cbn [nth_error] in Hz; [left|left|left|right|destruct q; discriminate Hz]; [| | |split; [congruence|reflexivity]]; injection Hz as <-; lia.
  Qed.
  Lemma cells_rows near scaled : forall cells pairs rows, tri_cells argsort angle solve place dist tri ps (map f ps) global true mub near scaled cells pairs = Ok rows -> Forall inner_row rows /\ List.length rows = List.length cells.
  Proof.
    induction cells as [|c cells IH]; intros pairs rows H; cbn [tri_cells] in H; [assert (E : rows = []) by congruence; subst; split; [constructor|reflexivity]|].
    apply rbind_ok in H. destruct H as [[r pairs'] [HC H]]. apply rbind_ok in H. destruct H as [rs [HR H]]. assert (E : rows = r :: rs) by congruence. subst rows. destruct (IH _ _ HR) as [I1 I2]. split; [constructor; [exact (cell_row _ _ _ _ _ _ HC)|exact I1]|cbn [List.length]; rewrite I2; reflexivity].
  Qed.
End rows.
Theorem C75 : forall quad_int delaunay argsort angle solve place dist near g rotated isatty mub target table,
  honest_delaunay delaunay -> (forall keys, is_argsort keys (argsort keys)) -> List.length (latgrib g) = List.length (longrib g) ->
  build_triangulation quad_int delaunay argsort angle solve place dist near g rotated true isatty mub target = Ok table ->
  List.length table = List.length (List.concat target) /\ Forall (fair_row (List.length (latgrib g))) table.
Proof.
  intros quad_int delaunay argsort angle solve place dist near g rotated isatty mub target table HD HA Len H. unfold build_triangulation in H. apply rbind_ok in H. destruct H as [r [HR H]]. set (ps := if covers_globe (normalized g) r then padded (normalized g) r else normalized g) in *.
  apply rbind_ok in H. destruct H as [sps [HS H]].
  assert (X : exists f, sps = map f ps).
  { destruct rotated; [exists (fun p => p); rewrite map_id; injection HS as HS; symmetry; exact HS|]. unfold scaled_points in HS. destruct (map (fun p => fst (quad_int (fst p))) ps) as [|v l] eqn:E; [destruct ps; [|discriminate E]; exists (fun p => p); injection HS as HS; symmetry; exact HS|]. destruct (Req_EM_T _ 0); [discriminate HS|]. eexists. symmetry. injection HS as HS. exact HS. }
  destruct X as [f ->]. apply rbind_ok in H. destruct H as [tri [HT H]]. apply HD in HT. apply rbind_ok in H. destruct H as [pairs [_ H]]. destruct (_ && _)%bool; [discriminate H|]. apply rbind_ok in H. destruct H as [rows [Hrows H]].
  destruct (cells_rows argsort angle solve place dist tri f ps (covers_globe (normalized g) r) mub HT HA near _ _ _ _ Hrows) as [FR LR]. assert (Lc : List.length (cells_of target) = List.length (List.concat target)) by (rewrite <- cells_concat; rewrite map_length; reflexivity). rewrite Lc in LR. clear Hrows HT HS HR.
  destruct (covers_globe (normalized g) r).
  - destruct (unpad_rows_total (normalized g) r rows) as [rows' [E F2]]; [eapply Forall_impl; [|exact FR]; intros row [_ [K _]]; exact K|]. rewrite (normalized_length g Len) in E, F2. assert (table = rows') by congruence. subst table. clear H E. split; [rewrite <- LR; clear -F2; induction F2; cbn [List.length]; congruence|]. clear LR Lc. revert FR. induction F2 as [|row row' rows rows' [E K] F2 IH]; intro FR; [constructor|]. inversion_clear FR as [|? ? [L [_ W]] FR']. constructor; [|apply IH; exact FR'].
    assert (L' : List.length (snd row') = 4%nat) by (rewrite <- L; clear -K; induction K; cbn [List.length]; congruence). split; [exact L'|]. rewrite E. destruct W as [W|[ws [W1 [W2 [W3 W4]]]]]; [left; exact W|right]. exists ws. split; [exact W1|]. split; [exact W2|]. split; [exact W3|].
    intros k i Hi. destruct (f2_app_nth _ _ _ K k i Hi) as [i0 [Hi0 [[-> ->]|[I1 I2]]]]; [|left; exact I2]. destruct (W4 k _ Hi0) as [Z|[_ Z]]; [lia|]. right. split; [reflexivity|exact Z].
  - assert (table = rows) by congruence. subst table. split; [exact LR|]. eapply Forall_impl; [|exact FR]. intros row [L [FI W]]. split; [exact L|]. destruct W as [W|[ws [W1 [W2 [W3 W4]]]]]; [left; exact W|right]. exists ws. split; [exact W1|]. split; [exact W2|]. split; [exact W3|]. intros k i Hi. destruct (W4 k i Hi) as [Z|Z]; [|right; exact Z]. left. split; [exact Z|].
    pose proof (proj1 (Forall_forall _ _) FI i (nth_error_In _ _ Hi)) as [->|[n [p [-> Hn]]]]; [lia|]. unfold ps in Hn. assert (B : (n < List.length (normalized g))%nat) by (apply nth_error_Some; intro K; unfold plane in Hn; rewrite K in Hn; discriminate Hn). rewrite (normalized_length g Len) in B. lia.
Qed.
Print Assumptions C75.
(** the table of the witness above, with pairs of triangles *)
Example C75_nonvacuous : forall solve, exists table, build_triangulation exact_quad (only pW tW) isort acos_angle solve (fun _ => (0, 0, 0)) (fun _ _ => 0) (fun _ => 0) gW true true true 1 target_AB = Ok table /\ List.length table = 1000%nat /\ Forall (fair_row 5) table.
Proof.
  intro solve. pose proof (table_AB isort acos_angle solve acos_angle_honest) as T. eexists. split; [exact T|]. destruct (C75 exact_quad (only pW tW) isort acos_angle solve (fun _ => (0, 0, 0)) (fun _ _ => 0) (fun _ => 0) gW true true 1 target_AB _ (only_honest _ _ delaunay_W) isort_valid eq_refl T) as [L F]. split; [|exact F].
  rewrite L. unfold target_AB. rewrite concat_repeat_length. reflexivity.
Qed.
