(** * Props_Triang5: C73 and C74, rows on their own, and tables for every target *)
From Verif Require Import Base Base_P Num Num_P Strings Xr Adw Bilinear Triang Spec_Bilinear Spec_Triang Bilinear_P Bilinear_P2 Bilinear_P3 Bilinear_P4 Bilinear_P5 GribInterp_P Triang_P Props_Bilinear Props_Triang Props_Triang2 Props_Triang3 Props_Triang4.
From Coq Require Import Psatz Permutation Sorting.
Local Open Scope R_scope.

Lemma f2_nth {A B} (P : A -> B -> Prop) l l' : Forall2 P l l' -> forall n x, nth_error l n = Some x -> exists y, nth_error l' n = Some y /\ P x y.
Proof. induction 1 as [|x y l l' H F IH]; intros [|n] z E; cbn [nth_error] in *; try discriminate; [exists y; split; [reflexivity|congruence]|exact (IH n z E)]. Qed.

(** the row of a place is the same in all tables of the same source *)
Definition C73_for (use_bilinear : bool) (argsort : list R -> list nat) (angle : plane -> plane -> plane -> R) (solve : quad -> R -> R -> R * R) : Prop :=
  forall quad_int delaunay place dist near g rotated isatty isatty' mub target target' table table' n n' p,
  honest_delaunay delaunay -> honest_quad quad_int -> on_parallels target -> on_parallels target' ->
  build_triangulation quad_int delaunay argsort angle solve place dist near g rotated use_bilinear isatty mub target = Ok table ->
  build_triangulation quad_int delaunay argsort angle solve place dist near g rotated use_bilinear isatty' mub target' = Ok table' ->
  nth_error (List.concat target) n = Some p -> nth_error (List.concat target') n' = Some p ->
  nth_error table n = nth_error table' n'.
(** any answers of get_angle that are angles, see [honest_angle] *)
Definition cross (u v : plane) : R := fst u * snd v - snd u * fst v.
(** degrees of the turn from a to c, seen from b *)
Definition honest_angle (angle : plane -> plane -> plane -> R) : Prop := forall a b c, a <> b -> c <> b ->
  0 <= angle a b c < 360 /\ exists m, 0 < m /\ dot (minus a b) (minus c b) = m * cos (rad (angle a b c)) /\ cross (minus a b) (minus c b) = m * sin (rad (angle a b c)).
Definition C73_full : Prop := forall use_bilinear argsort angle solve, (forall keys, is_argsort keys (argsort keys)) -> honest_angle angle -> C73_for use_bilinear argsort angle solve.

Lemma cells_at target n p : on_parallels target -> nth_error (List.concat target) n = Some p -> nth_error (cells_of target) n = Some (mkCell (fst p) (fst p) (snd p)).
Proof.
  intros P H. rewrite <- cells_concat in H. rewrite nth_error_map in H. destruct (nth_error (cells_of target) n) as [c|] eqn:E; [|discriminate H]. cbn [option_map] in H.
  assert (Ep : p = (c_lat c, c_lon c)) by congruence. subst p. cbn [fst snd]. pose proof (cells_first target c P (nth_error_In _ _ E)) as F. destruct c as [f la lo]. cbn [first_lat c_lat c_lon] in *. rewrite F. reflexivity.
Qed.
Theorem C73_partial : forall argsort angle solve, C73_for false argsort angle solve.
Proof.
  intros argsort angle solve quad_int delaunay place dist near g rotated isatty isatty' mub target target' table table' n n' p HD _ P P' H H' E E'.
  pose proof (cells_at _ _ _ P E) as C. pose proof (cells_at _ _ _ P' E') as C'. clear E E' P P'. unfold build_triangulation in H, H'.
  destruct (resolution (normalized g)) as [rs|]; [|discriminate H]. cbn [rbind] in H, H'. set (global := covers_globe (normalized g) rs) in *. set (ps := if global then padded (normalized g) rs else normalized g) in *.
  destruct (if rotated then Ok ps else _) as [sps|]; [|discriminate H]. cbn [rbind] in H, H'. destruct (delaunay sps) as [tri|] eqn:T; [|discriminate H]. cbn [rbind] in H, H'. apply HD in T.
  set (scaled := fun c => if rotated then _ else _) in *. clearbody scaled.
  destruct (_ && _)%bool; [discriminate H|]. destruct (_ && _)%bool; [discriminate H'|].
  apply rbind_ok in H. destruct H as [rows [R H]]. apply rbind_ok in H'. destruct H' as [rows' [R' H']].
  pose proof (tri_cells_rows argsort angle solve place dist tri ps sps global mub T near scaled _ _ _ R) as F. pose proof (tri_cells_rows argsort angle solve place dist tri ps sps global mub T near scaled _ _ _ R') as F'.
  destruct (f2_nth _ _ _ F _ _ C) as [r [N K]]. destruct (f2_nth _ _ _ F' _ _ C') as [r' [N' K']]. assert (r' = r) by congruence. subst r'. clear K K' F F' R R' C C'.
  destruct global; [|congruence]. unfold unpad_rows in H, H'. apply mapM_Forall2 in H. apply mapM_Forall2 in H'. destruct (f2_nth _ _ _ H _ _ N) as [q [-> K]]. destruct (f2_nth _ _ _ H' _ _ N') as [q' [-> K']]. congruence.
Qed.
Print Assumptions C73_partial.

(** ** mode bilinear_delaunay: triangles are paired in the order of the cells *)
Lemma wide_angle angle a b c : honest_angle angle -> a <> b -> c <> b -> dot (minus a b) (minus c b) <= 0 -> leb 90 (fold180 (angle a b c)) = true.
Proof.
  intros HA N1 N2 D. destruct (HA a b c N1 N2) as [B [m [M [E _]]]]. set (t := angle a b c) in *. clearbody t. pose proof PI_RGT_0 as HP.
  assert (C : cos (rad t) <= 0) by nra. assert (L : 90 <= t). { destruct (Rle_lt_dec 90 t); [assumption|]. exfalso. assert (0 < cos (rad t)); [|lra]. apply cos_gt_0; unfold rad; nra. }
  assert (U : t <= 270). { destruct (Rle_lt_dec t 270); [assumption|]. exfalso. assert (0 < cos (rad t)); [|lra]. replace (rad t) with (rad (t - 360) + 2 * INR 1 * PI) by (unfold rad; cbn [INR]; field). rewrite cos_period. apply cos_gt_0; unfold rad; nra. }
  unfold fold180, leb, ltb. rdec; reflexivity.
Qed.
Definition gW : source := mkSource [1; 0; 2; 0; 3] [-1/2; 0; 0; 2; 3].
Definition pW : list plane := [(1, -1/2); (0, 0); (2, 0); (0, 2); (3, 3)].
Definition tW : triangulation := make_tri pW [[0; 1; 2]; [1; 2; 3]; [4; 2; 3]]%Z [[1; -1; -1]; [2; -1; 0]; [1; -1; -1]]%Z.
Lemma delaunay_W : is_delaunay pW (simplices tW) (neighbors tW) (find_simplex tW) (transform tW).
Proof.
  apply make_tri_delaunay; [discriminate|reflexivity| |].
  - intros s [<-|[<-|[<-|[]]]].
    + exists (1, -1/2), (0, 0), (2, 0). split; [corners 0%nat 1%nat 2%nat|]. split; [unfold area2; cbn [fst snd]; lra|]. circ.
    + exists (0, 0), (2, 0), (0, 2). split; [corners 1%nat 2%nat 3%nat|]. split; [unfold area2; cbn [fst snd]; lra|]. circ.
    + exists (3, 3), (2, 0), (0, 2). split; [corners 4%nat 2%nat 3%nat|]. split; [unfold area2; cbn [fst snd]; lra|]. circ.
  - intros n nb3 H. destruct n as [|[|[|n]]]; cbn [nth_error] in H; [| | |destruct n; discriminate H].
    + assert (E : nb3 = [1; -1; -1]%Z) by congruence. subst nb3. split; [reflexivity|]. intros k nb Hk. destruct k as [|[|[|k]]]; cbn [nth_error] in Hk; [right|left; congruence|left; congruence|destruct k; discriminate Hk].
      assert (E : nb = 1%Z) by congruence. subst nb. exists 1%nat, [0; 1; 2]%Z, [1; 2; 3]%Z, 0%Z, 3%Z. split; [reflexivity|]. split; [lia|]. split; [reflexivity|]. split; [reflexivity|]. split; [reflexivity|]. split; [inz|]. split; [inz|]. split; [inz|]. intros x Hx. cbn [In] in *. lia.
    + assert (E : nb3 = [2; -1; 0]%Z) by congruence. subst nb3. split; [reflexivity|]. intros k nb Hk. destruct k as [|[|[|k]]]; cbn [nth_error] in Hk; [right|left; congruence|right|destruct k; discriminate Hk].
      * assert (E : nb = 2%Z) by congruence. subst nb. exists 2%nat, [1; 2; 3]%Z, [4; 2; 3]%Z, 1%Z, 4%Z. split; [reflexivity|]. split; [lia|]. split; [reflexivity|]. split; [reflexivity|]. split; [reflexivity|]. split; [inz|]. split; [inz|]. split; [inz|]. intros x Hx. cbn [In] in *. lia.
      * assert (E : nb = 0%Z) by congruence. subst nb. exists 0%nat, [1; 2; 3]%Z, [0; 1; 2]%Z, 3%Z, 0%Z. split; [reflexivity|]. split; [lia|]. split; [reflexivity|]. split; [reflexivity|]. split; [reflexivity|]. split; [inz|]. split; [inz|]. split; [inz|]. intros x Hx. cbn [In] in *. lia.
    + assert (E : nb3 = [1; -1; -1]%Z) by congruence. subst nb3. split; [reflexivity|]. intros k nb Hk. destruct k as [|[|[|k]]]; cbn [nth_error] in Hk; [right|left; congruence|left; congruence|destruct k; discriminate Hk].
      assert (E : nb = 1%Z) by congruence. subst nb. exists 1%nat, [4; 2; 3]%Z, [1; 2; 3]%Z, 4%Z, 1%Z. split; [reflexivity|]. split; [lia|]. split; [reflexivity|]. split; [reflexivity|]. split; [reflexivity|]. split; [inz|]. split; [inz|]. split; [inz|]. intros x Hx. cbn [In] in *. lia.
Qed.
Lemma find_A : find_simplex tW (1, -1/4) = 0%Z.
Proof.
  unfold tW, make_tri. cbn [find_simplex first_around]. change (tri_points pW [0; 1; 2]%Z) with ((1, -1/2), (0, 0), (2, 0)). cbn iota beta.
  assert (T : in_triangle (1, -1/4) (1, -1/2) (0, 0) (2, 0) = true); [|rewrite T; reflexivity]. unfold in_triangle, sign3, ltb. cbn [fst snd]. rdec; reflexivity.
Qed.
Lemma find_B : find_simplex tW (1, 1/2) = 1%Z.
Proof.
  unfold tW, make_tri. cbn [find_simplex first_around]. change (tri_points pW [0; 1; 2]%Z) with ((1, -1/2), (0, 0), (2, 0)). change (tri_points pW [1; 2; 3]%Z) with ((0, 0), (2, 0), (0, 2)). cbn iota beta.
  assert (T : in_triangle (1, 1/2) (1, -1/2) (0, 0) (2, 0) = false) by (unfold in_triangle, sign3, ltb; cbn [fst snd]; rdec; reflexivity). rewrite T.
  assert (T' : in_triangle (1, 1/2) (0, 0) (2, 0) (0, 2) = true); [|rewrite T'; reflexivity]. unfold in_triangle, sign3, ltb. cbn [fst snd]. rdec; reflexivity.
Qed.
Lemma regional_W : resolution (normalized gW) = Ok (3/4) /\ covers_globe (normalized gW) (3/4) = false /\ normalized gW = pW.
Proof.
  assert (N : normalized gW = pW). { unfold normalized, gW, pW. cbn [latgrib longrib zipw]. unfold to180. rdec. reflexivity. }
  rewrite N. split; [|split; [|reflexivity]].
  - unfold resolution, pW. cbn [map snd]. change (py_index [-1/2; 0; 0; 2; 3] 0) with (@Ok R (-1/2)). change (py_index [-1/2; 0; 0; 2; 3] 1) with (@Ok R 0). cbn [rbind]. f_equal. unfold Rabs. rdec. lra.
  - unfold covers_globe, pW, lon_max, lon_min, ltb. cbn [map snd fold_left]. unfold Rmax, Rmin. rdec; reflexivity.
Qed.
Section wW.
  Context (argsort : list R -> list nat) (angle : plane -> plane -> plane -> R) (solve : quad -> R -> R -> R * R).
  Context (HA : honest_angle angle).
  Notation cell := (tri_cell argsort angle solve (fun _ => (0, 0, 0)) (fun _ _ => 0) tW pW pW false true 1 0).
  Definition cA := mkCell 1 1 (-1/4).
  Definition cB := mkCell 1 1 (1/2).
  Definition corner_of (i : Z) : corner := mkCorner (fst (nth (Z.to_nat i) pW (0, 0))) (snd (nth (Z.to_nat i) pW (0, 0))) i.
  Definition row_of (idx : list Z) (c : tcell) : list xr * list Z := quad_row solve (clockwise argsort (map corner_of idx)) (c_lat c) (c_lon c).
  Lemma far_W : ltb (1 * 10) 0 = false.
  Proof. unfold ltb. rdec; reflexivity. Qed.
  Lemma widest_A : widest angle (1, -1/2) (0, 0) (2, 0) = 0%nat.
  Proof.
    unfold widest. rewrite wide_angle; [reflexivity|exact HA| | |]; [intro E; injection E; intros; lra|intro E; injection E; intros; lra|]. unfold dot, minus. cbn [fst snd]. lra.
  Qed.
  Lemma widest_B : widest angle (0, 0) (2, 0) (0, 2) = 0%nat.
  Proof.
    unfold widest. rewrite wide_angle; [reflexivity|exact HA| | |]; [intro E; injection E; intros; lra|intro E; injection E; intros; lra|]. unfold dot, minus. cbn [fst snd]. lra.
  Qed.
  Lemma cell_A pairs pairs' other idx2 : pair_triangles pairs 0 1 = Ok pairs' -> py_index pairs' 0 = Ok other -> (other >? -1)%Z = true -> py_index (simplices tW) other = Ok idx2 -> unique ([0; 1; 2] ++ idx2)%Z = [0; 1; 2; 3]%Z ->
    cell (Some (1, -1/4)) cA pairs = Ok (row_of [0; 1; 2; 3]%Z cA, pairs').
  Proof.
    intros P O G S U. unfold tri_cell. rewrite find_A. change (py_index (simplices tW) 0) with (@Ok (list Z) [0; 1; 2]%Z). cbn [rbind]. assert (B : ltb 1 0 = false) by (unfold ltb; rdec; reflexivity). rewrite B. clear B. change (0 =? -1)%Z with false. cbn [negb andb orb]. unfold at_pt.
    change (py_index pW 0) with (@Ok plane (1, -1/2)). change (py_index pW 1) with (@Ok plane (0, 0)). change (py_index pW 2) with (@Ok plane (2, 0)). cbn [rbind]. unfold too_far. rewrite !far_W. cbn [orb]. unfold choose, at_pt.
    change (py_index pW 0) with (@Ok plane (1, -1/2)). change (py_index pW 1) with (@Ok plane (0, 0)). change (py_index pW 2) with (@Ok plane (2, 0)). cbn [rbind]. change (py_index (neighbors tW) 0) with (@Ok (list Z) [1; -1; -1]%Z). cbn [rbind]. rewrite widest_A. change (py_index [1; -1; -1]%Z (Z.of_nat 0)) with (@Ok Z 1%Z). cbn [rbind].
    rewrite P. cbn [rbind]. rewrite O. cbn [rbind]. rewrite G, S. cbn [rbind]. cbv zeta. rewrite U. reflexivity.
  Qed.
  Lemma cell_B pairs pairs' other idx2 u : pair_triangles pairs 1 2 = Ok pairs' -> py_index pairs' 1 = Ok other -> (other >? -1)%Z = true -> py_index (simplices tW) other = Ok idx2 -> unique ([1; 2; 3] ++ idx2)%Z = u -> u = [0; 1; 2; 3]%Z \/ u = [1; 2; 3; 4]%Z ->
    cell (Some (1, 1/2)) cB pairs = Ok (row_of u cB, pairs').
  Proof.
    intros P O G S U Hu. unfold tri_cell. rewrite find_B. change (py_index (simplices tW) 1) with (@Ok (list Z) [1; 2; 3]%Z). cbn [rbind]. assert (B : ltb 1 0 = false) by (unfold ltb; rdec; reflexivity). rewrite B. clear B. change (1 =? -1)%Z with false. cbn [negb andb orb]. unfold at_pt.
    change (py_index pW 1) with (@Ok plane (0, 0)). change (py_index pW 2) with (@Ok plane (2, 0)). change (py_index pW 3) with (@Ok plane (0, 2)). cbn [rbind]. unfold too_far. rewrite !far_W. cbn [orb]. unfold choose, at_pt.
    change (py_index pW 1) with (@Ok plane (0, 0)). change (py_index pW 2) with (@Ok plane (2, 0)). change (py_index pW 3) with (@Ok plane (0, 2)). cbn [rbind]. change (py_index (neighbors tW) 1) with (@Ok (list Z) [2; -1; 0]%Z). cbn [rbind]. rewrite widest_B. change (py_index [2; -1; 0]%Z (Z.of_nat 0)) with (@Ok Z 2%Z). cbn [rbind].
    rewrite P. cbn [rbind]. rewrite O. cbn [rbind]. rewrite G, S. cbn [rbind]. cbv zeta. rewrite U. destruct Hu as [-> | ->]; reflexivity.
  Qed.
  Definition target_AB : list (list plane) := repeat [(1, -1/4); (1, 1/2)] 500.
  Definition target_BA : list (list plane) := repeat [(1, 1/2); (1, -1/4)] 500.
  Notation cells := (tri_cells argsort angle solve (fun _ => (0, 0, 0)) (fun _ _ => 0) tW pW pW false true 1 (fun _ => 0) (fun c => Some (first_lat c, c_lon c))).
  Lemma cells_two c1 c2 r1 r2 pairs : cell (Some (first_lat c1, c_lon c1)) c1 pairs = Ok (r1, pairs) -> cell (Some (first_lat c2, c_lon c2)) c2 pairs = Ok (r2, pairs) ->
    forall n, cells (List.concat (repeat [c1; c2] n)) pairs = Ok (List.concat (repeat [r1; r2] n)).
  Proof. intros H1 H2. induction n as [|n IH]; [reflexivity|]. cbn [repeat List.concat app tri_cells]. rewrite H1. cbn [rbind]. rewrite H2. cbn [rbind]. rewrite IH. reflexivity. Qed.
  Notation build := (build_triangulation exact_quad (only pW tW) argsort angle solve (fun _ => (0, 0, 0)) (fun _ _ => 0) (fun _ => 0)).
  Lemma build_W cs target : cells_of target = List.concat (repeat cs 500) -> In 1%Z (map (fun c => find_simplex tW (first_lat c, c_lon c)) (cells_of target)) -> (forall c, In c cs -> find_simplex tW (first_lat c, c_lon c) = 0%Z \/ find_simplex tW (first_lat c, c_lon c) = 1%Z) -> List.length cs = 2%nat ->
    build gW true true true 1 target = cells (List.concat (repeat cs 500)) [-1; -1; -1]%Z.
  Proof.
    intros E I F L. unfold build_triangulation. destruct regional_W as [E1 [E2 E3]]. rewrite E1. cbn [rbind]. rewrite E2. cbn [rbind]. rewrite E3. rewrite only_same. cbn [rbind].
    assert (NP : no_pairs tW (map (fun c => find_simplex tW (first_lat c, c_lon c)) (cells_of target)) = Ok [-1; -1; -1]%Z).
    { assert (B : Forall (fun t => t = 0 \/ t = 1)%Z (map (fun c => find_simplex tW (first_lat c, c_lon c)) (cells_of target))). { apply Forall_forall. intros t Ht. apply in_map_iff in Ht. destruct Ht as [c [<- Hc]]. rewrite E in Hc. apply in_concat_repeat in Hc. apply F. exact Hc. }
      generalize dependent (map (fun c => find_simplex tW (first_lat c, c_lon c)) (cells_of target)). clear. intros l I B. unfold no_pairs.
      assert (M : exists nbs, mapM (py_index (neighbors tW)) l = Ok nbs /\ (forall x, In x (List.concat nbs) -> x <= 2)%Z /\ (In 1%Z l -> In 2%Z (List.concat nbs))).
      { clear I. induction B as [|t l [-> | ->] B IH].
        - exists []. cbn. split; [reflexivity|]. split; [intros x []|intros []].
        - destruct IH as [nbs [M [U W]]]. exists ([1; -1; -1]%Z :: nbs). cbn [mapM]. change (py_index (neighbors tW) 0) with (@Ok (list Z) [1; -1; -1]%Z). rewrite M. cbn [rbind]. split; [reflexivity|]. cbn [List.concat app]. split; [intros x Hx; cbn [In] in Hx; destruct Hx as [<-|[<-|[<-|Hx]]]; [lia|lia|lia|exact (U x Hx)]|]. intros [K|K]; [discriminate K|]. do 3 right. exact (W K).
        - destruct IH as [nbs [M [U W]]]. exists ([2; -1; 0]%Z :: nbs). cbn [mapM]. change (py_index (neighbors tW) 1) with (@Ok (list Z) [2; -1; 0]%Z). rewrite M. cbn [rbind]. split; [reflexivity|]. cbn [List.concat app]. split; [intros x Hx; cbn [In] in Hx; destruct Hx as [<-|[<-|[<-|Hx]]]; [lia|lia|lia|exact (U x Hx)]|]. intros _. left. reflexivity. }
      destruct M as [nbs [-> [U W]]]. cbn [rbind]. specialize (W I). destruct (List.concat nbs) as [|x m] eqn:Em; [destruct W|].
      assert (X : fold_left Z.max m x = 2%Z).
      { clear Em I B nbs. assert (G : forall m x, (forall y, In y (x :: m) -> (y <= 2)%Z) -> In 2%Z (x :: m) -> fold_left Z.max m x = 2%Z).
        { clear. induction m as [|y m IH]; intros x U W; cbn [fold_left]; [destruct W as [->|[]]; reflexivity|]. apply IH.
          - intros z [<-|Hz]; [|apply U; right; right; exact Hz]. pose proof (U x (or_introl eq_refl)). pose proof (U y (or_intror (or_introl eq_refl))). lia.
          - destruct W as [->|[->|W]]; [left; pose proof (U y (or_intror (or_introl eq_refl))); lia|left; pose proof (U x (or_introl eq_refl)); lia|right; exact W]. }
        apply G; assumption. }
      rewrite X. reflexivity. }
    rewrite NP. cbn [rbind]. rewrite E, concat_repeat_length, L. assert (P : (progress_step (Z.of_nat (500 * 2)) true =? 0)%Z = false) by (vm_compute; reflexivity). rewrite P. cbn [andb].
    destruct (cells (List.concat (repeat cs 500)) [-1; -1; -1]%Z); reflexivity.
  Qed.
  Lemma table_AB : build gW true true true 1 target_AB = Ok (List.concat (repeat [row_of [0; 1; 2; 3]%Z cA; row_of [0; 1; 2; 3]%Z cB] 500)).
  Proof.
    assert (E : cells_of target_AB = List.concat (repeat [cA; cB] 500)) by (unfold target_AB; rewrite cells_repeat; reflexivity).
    rewrite (build_W [cA; cB] target_AB E).
    - change 500%nat with (S 499). generalize 499%nat as k. intro k. cbn [repeat List.concat app tri_cells]. cbn [cA cB first_lat c_lon]. fold cA cB. rewrite (cell_A [-1; -1; -1]%Z [1; 0; -1]%Z 1%Z [1; 2; 3]%Z) by reflexivity. cbn [rbind]. rewrite (cell_B [1; 0; -1]%Z [1; 0; -1]%Z 0%Z [0; 1; 2]%Z [0; 1; 2; 3]%Z) by (try reflexivity; left; reflexivity). cbn [rbind].
      rewrite (cells_two cA cB (row_of [0; 1; 2; 3]%Z cA) (row_of [0; 1; 2; 3]%Z cB) [1; 0; -1]%Z); [reflexivity| |]; cbn [cA cB first_lat c_lon]; fold cA cB; [apply (cell_A [1; 0; -1]%Z [1; 0; -1]%Z 1%Z [1; 2; 3]%Z); reflexivity|apply (cell_B [1; 0; -1]%Z [1; 0; -1]%Z 0%Z [0; 1; 2]%Z [0; 1; 2; 3]%Z); try reflexivity; left; reflexivity].
    - rewrite E. change 500%nat with (S 499). cbn [repeat List.concat app map]. right. left. exact find_B.
    - intros c [<-|[<-|[]]]; [left; exact find_A|right; exact find_B].
    - reflexivity.
  Qed.
  (** B first: it takes C, and A stays alone *)
  Lemma alone_A : exists r, cell (Some (1, -1/4)) cA [-1; 2; 1]%Z = Ok (r, [-1; 2; 1]%Z).
  Proof.
    unfold tri_cell. rewrite find_A. change (py_index (simplices tW) 0) with (@Ok (list Z) [0; 1; 2]%Z). cbn [rbind]. assert (B : ltb 1 0 = false) by (unfold ltb; rdec; reflexivity). rewrite B. clear B. change (0 =? -1)%Z with false. cbn [negb andb orb]. unfold at_pt.
    change (py_index pW 0) with (@Ok plane (1, -1/2)). change (py_index pW 1) with (@Ok plane (0, 0)). change (py_index pW 2) with (@Ok plane (2, 0)). cbn [rbind]. unfold too_far. rewrite !far_W. cbn [orb]. unfold choose, at_pt.
    change (py_index pW 0) with (@Ok plane (1, -1/2)). change (py_index pW 1) with (@Ok plane (0, 0)). change (py_index pW 2) with (@Ok plane (2, 0)). cbn [rbind]. change (py_index (neighbors tW) 0) with (@Ok (list Z) [1; -1; -1]%Z). cbn [rbind]. rewrite widest_A. change (py_index [1; -1; -1]%Z (Z.of_nat 0)) with (@Ok Z 1%Z). cbn [rbind].
    eexists. reflexivity.
  Qed.
  Lemma table_BA : exists rest, build gW true true true 1 target_BA = Ok (row_of [1; 2; 3; 4]%Z cB :: rest).
  Proof.
    assert (E : cells_of target_BA = List.concat (repeat [cB; cA] 500)) by (unfold target_BA; rewrite cells_repeat; reflexivity).
    rewrite (build_W [cB; cA] target_BA E).
    - change 500%nat with (S 499). generalize 499%nat as k. intro k. cbn [repeat List.concat app tri_cells]. cbn [cA cB first_lat c_lon]. fold cA cB. rewrite (cell_B [-1; -1; -1]%Z [-1; 2; 1]%Z 2%Z [4; 2; 3]%Z [1; 2; 3; 4]%Z) by (try reflexivity; right; reflexivity). cbn [rbind].
      destruct alone_A as [r HR]. rewrite HR. cbn [rbind].
      rewrite (cells_two cB cA (row_of [1; 2; 3; 4]%Z cB) r [-1; 2; 1]%Z); [eexists; reflexivity| |]; cbn [cA cB first_lat c_lon]; fold cA cB; [apply (cell_B [-1; 2; 1]%Z [-1; 2; 1]%Z 2%Z [4; 2; 3]%Z [1; 2; 3; 4]%Z); try reflexivity; right; reflexivity|exact HR].
    - rewrite E. change 500%nat with (S 499). cbn [repeat List.concat app map]. left. exact find_B.
    - intros c [<-|[<-|[]]]; [right; exact find_B|left; exact find_A].
    - reflexivity.
  Qed.
End wW.
Lemma row_indexes argsort solve idx c : List.length idx = 4%nat -> (forall keys, is_argsort keys (argsort keys)) -> Permutation idx (snd (row_of argsort solve idx c)).
Proof.
  intros L A. unfold row_of. destruct (C54_permutation argsort (map corner_of idx) (eq_trans (map_length _ _) L) (A _)) as [p1 [p2 [p3 [p4 [E P]]]]]. rewrite E. unfold quad_row. destruct (solve _ _ _) as [x y]. cbn [snd]. change [cidx p1; cidx p2; cidx p3; cidx p4] with (map cidx [p1; p2; p3; p4]). rewrite <- P. rewrite map_map. unfold corner_of. cbn [cidx]. rewrite map_id. reflexivity.
Qed.
(** whatever fsolve finds *)
Theorem C73_bilinear_refuted : forall argsort angle solve, (forall keys, is_argsort keys (argsort keys)) -> honest_angle angle -> ~ C73_for true argsort angle solve.
Proof.
  intros argsort angle solve HS HA H. destruct (table_BA argsort angle solve HA) as [rest T']. pose proof (table_AB argsort angle solve HA) as T.
  specialize (H exact_quad (only pW tW) (fun _ => (0, 0, 0)) (fun _ _ => 0) (fun _ => 0) gW true true true 1 target_AB target_BA (List.concat (repeat [row_of argsort solve [0; 1; 2; 3]%Z cA; row_of argsort solve [0; 1; 2; 3]%Z cB] 500)) (row_of argsort solve [1; 2; 3; 4]%Z cB :: rest) 1%nat 0%nat (1, 1/2) (only_honest _ _ delaunay_W) exact_quad_honest).
  assert (P : forall a b c d n, a = c -> on_parallels (repeat [(a, b); (c, d)] n)). { intros a b c d n -> row p q Hr Hp Hq. apply repeat_spec in Hr. subst row. cbn [In] in Hp, Hq. destruct Hp as [<-|[<-|[]]], Hq as [<-|[<-|[]]]; reflexivity. }
  specialize (H (P _ _ _ _ _ eq_refl) (P _ _ _ _ _ eq_refl) T T' eq_refl eq_refl). clear T T' P.
  change 500%nat with (S 499) in H. cbn [repeat List.concat app nth_error] in H. injection H as H.
  pose proof (row_indexes argsort solve [0; 1; 2; 3]%Z cB eq_refl HS) as P1. pose proof (row_indexes argsort solve [1; 2; 3; 4]%Z cB eq_refl HS) as P2. rewrite H in P1. rewrite <- P2 in P1. assert (I : In 0%Z [1; 2; 3; 4]%Z) by (apply (Permutation_in _ P1); left; reflexivity). cbn [In] in I. lia.
Qed.
Print Assumptions C73_bilinear_refuted.
(** honest angles exist: arc cosine, on the side given by the cross product *)
Definition acos_angle (a b c : plane) : R :=
  let u := minus a b in let v := minus c b in
  let t := acos (dot u v / (sqrt (dot u u) * sqrt (dot v v))) * 180 / PI in
  if Rle_dec 0 (cross u v) then t else 360 - t.
Lemma minus_pos a b : a <> b -> 0 < dot (minus a b) (minus a b).
Proof.
  intro N. unfold dot, minus. cbn [fst snd]. destruct a as [a1 a2], b as [b1 b2]. cbn [fst snd]. destruct (Req_dec a1 b1) as [->|N1].
  - assert (a2 <> b2) by congruence. assert (0 < (a2 - b2) * (a2 - b2)) by (apply Rsqr_pos_lt; lra). lra.
  - assert (0 < (a1 - b1) * (a1 - b1)) by (apply Rsqr_pos_lt; lra). assert (0 <= (a2 - b2) * (a2 - b2)) by (apply Rle_0_sqr). lra.
Qed.
Lemma acos_angle_honest : honest_angle acos_angle.
Proof.
  intros a b c N1 N2. unfold acos_angle. pose proof (minus_pos a b N1) as U. pose proof (minus_pos c b N2) as V. set (u := minus a b) in *. set (v := minus c b) in *. clearbody u v. clear a b c N1 N2.
  set (m := sqrt (dot u u) * sqrt (dot v v)). assert (M : 0 < m) by (apply Rmult_lt_0_compat; apply sqrt_lt_R0; assumption).
  assert (M2 : m * m = dot u u * dot v v). { unfold m. replace (sqrt (dot u u) * sqrt (dot v v) * (sqrt (dot u u) * sqrt (dot v v))) with ((sqrt (dot u u) * sqrt (dot u u)) * (sqrt (dot v v) * sqrt (dot v v))) by ring. rewrite !sqrt_sqrt by lra. reflexivity. }
  assert (L : dot u v * dot u v + cross u v * cross u v = m * m) by (rewrite M2; unfold dot, cross; ring).
  set (d := dot u v) in *. set (k := cross u v) in *. clearbody m d k. clear U V M2.
  assert (Dk : 0 <= k * k) by (apply Rle_0_sqr). assert (D1 : d <= m) by (apply Rsqr_incr_0_var; [unfold Rsqr; lra|lra]). assert (D2 : - d <= m) by (apply Rsqr_incr_0_var; [unfold Rsqr; lra|lra]).
  assert (D : -1 <= d / m <= 1). { split; [apply Rmult_le_reg_r with m; [exact M|]; replace (d / m * m) with d by (field; lra)|apply Rmult_le_reg_r with m; [exact M|]; replace (d / m * m) with d by (field; lra)]; lra. }
  pose proof (acos_bound (d / m)) as [B1 B2]. pose proof (cos_acos (d / m) D) as C. pose proof (sin_acos (d / m) D) as S. set (t := acos (d / m)) in *. clearbody t. pose proof PI_RGT_0 as HP.
  assert (S2 : sin t = Rabs k / m). { rewrite S. replace (1 - (d / m)²) with (Rsqr (k / m)) by (unfold Rsqr; replace (k / m * (k / m)) with (k * k / (m * m)) by (field; lra); replace (k * k) with (m * m - d * d) by lra; field; lra). rewrite sqrt_Rsqr_abs. unfold Rdiv. rewrite Rabs_mult. rewrite (Rabs_right (/ m)) by (left; apply Rinv_0_lt_compat; exact M). reflexivity. }
  assert (T : rad (t * 180 / PI) = t) by (unfold rad; field; lra). assert (T0 : 0 <= t * 180 / PI <= 180). { split; [apply Rmult_le_pos; [lra|left; apply Rinv_0_lt_compat; lra]|]. apply Rmult_le_reg_r with PI; [lra|]. replace (t * 180 / PI * PI) with (t * 180) by (field; lra). nra. }
  destruct (Rle_dec 0 k) as [K|K].
  - split; [lra|]. exists m. rewrite T, C, S2, Rabs_right by lra. split; [exact M|]. split; field; lra.
  - assert (T1 : 0 < t). { destruct (Rle_lt_dec t 0) as [Z|]; [|assumption]. assert (Z0 : t = 0) by lra. rewrite Z0, sin_0 in S2. rewrite Rabs_left in S2 by lra. assert (S3 : - k / m * m = 0) by (rewrite <- S2; ring). replace (- k / m * m) with (- k) in S3 by (field; lra). exfalso. lra. }
    assert (T2 : 0 < t * 180 / PI) by (apply Rmult_lt_0_compat; [lra|apply Rinv_0_lt_compat; lra]). split; [lra|]. exists m. replace (rad (360 - t * 180 / PI)) with (- t + 2 * INR 1 * PI) by (unfold rad; cbn [INR]; field; lra).
    rewrite cos_period, sin_period, cos_neg, sin_neg, C, S2, Rabs_left by lra. split; [exact M|]. split; field; lra.
Qed.
Theorem C73_refuted : ~ C73_full.
Proof. intro H. apply (C73_bilinear_refuted isort acos_angle (fun _ _ _ => (0, 0)) isort_valid acos_angle_honest). apply H; [exact isort_valid|exact acos_angle_honest]. Qed.
Print Assumptions C73_refuted.
(** two tables of mode triangulation, with different cells around (2, 3) *)
Example C73_nonvacuous : exists table table', 
  build_triangulation exact_quad (only pT tT) isort acos_angle (fun _ _ _ => (0, 0)) (fun _ => (0, 0, 0)) (fun _ _ => 0) (fun _ => 0) gT true false true 1 (repeat [(2, 3); (2, 4)] 500) = Ok table /\
  build_triangulation exact_quad (only pT tT) isort acos_angle (fun _ _ _ => (0, 0)) (fun _ => (0, 0, 0)) (fun _ _ => 0) (fun _ => 0) gT true false true 1 (repeat [(2, 1); (2, 3)] 500) = Ok table' /\
  nth_error table 0 = Some (rowT 2 3) /\ nth_error table' 1 = Some (rowT 2 3).
Proof.
  assert (B : forall a b, 0 <= a <= 8 -> 0 <= b <= 8 -> build_triangulation exact_quad (only pT tT) isort acos_angle (fun _ _ _ => (0, 0)) (fun _ => (0, 0, 0)) (fun _ _ => 0) (fun _ => 0) gT true false true 1 (repeat [(2, a); (2, b)] 500) = Ok (List.concat (repeat [rowT 2 a; rowT 2 b] 500))).
  { intros a b Ha Hb. rewrite (table_T isort acos_angle (fun _ _ _ => (0, 0)) (fun _ => (0, 0, 0))).
    - apply f_equal. rewrite cells_repeat. generalize 500%nat as k. induction k as [|k IH]; [reflexivity|]. cbn [repeat List.concat]. rewrite map_app, IH. reflexivity.
    - rewrite cells_repeat, concat_repeat_length. cbn [map List.length]. lia.
    - intros c Hc. rewrite cells_repeat in Hc. apply in_concat_repeat in Hc. cbn [map fst snd In] in Hc. destruct Hc as [<-|[<-|[]]]; cbn [first_lat c_lon]; lra. }
  eexists. eexists. split; [apply B; lra|]. split; [apply B; lra|]. split; reflexivity.
Qed.
