(** * Props_Triang4: C55 refuted by a target with two latitudes in a row and by the padding *)
From Verif Require Import Base Base_P Num Num_P Strings Xr Adw Bilinear Triang Spec_Bilinear Spec_Triang Bilinear_P Triang_P Props_Bilinear Props_Triang Props_Triang2 Props_Triang3.
From Coq Require Import Psatz Permutation Sorting.
Local Open Scope R_scope.

Lemma cells_repeat row n : cells_of (repeat row n) = List.concat (repeat (match row with [] => [] | p0 :: _ => map (fun p => mkCell (fst p0) (fst p) (snd p)) row end) n).
Proof. induction n as [|n IH]; [reflexivity|]. cbn [repeat List.concat]. unfold cells_of in *. cbn [flat_map]. rewrite IH. reflexivity. Qed.
Lemma concat_repeat_length {A} (l : list A) n : List.length (List.concat (repeat l n)) = (n * List.length l)%nat.
Proof. induction n as [|n IH]; [reflexivity|]. cbn [repeat List.concat]. rewrite app_length, IH. reflexivity. Qed.
Lemma in_concat_repeat {A} (x : A) l n : In x (List.concat (repeat l n)) -> In x l.
Proof. intro H. apply in_concat in H. destruct H as [l' [H1 H2]]. apply repeat_spec in H1. subst l'. exact H2. Qed.

(** ** the second cell of a row gets the weights of the latitude of the first *)
Definition skewed : list (list plane) := repeat [(1, 1); (2, 2)] 500.
Lemma skewed_cells c : In c (cells_of skewed) -> 0 <= first_lat c /\ 0 <= c_lon c /\ first_lat c + c_lon c <= 10.
Proof. unfold skewed. rewrite cells_repeat. intro H. apply in_concat_repeat in H. cbn [map fst snd In] in H. destruct H as [<-|[<-|[]]]; cbn [first_lat c_lon]; lra. Qed.
Theorem C55_column_refuted : ~ C55_sources_full.
Proof.
  intro H. assert (L : (1000 <= List.length (cells_of skewed))%nat) by (unfold skewed; rewrite cells_repeat, concat_repeat_length; cbn [map List.length]; lia).
  pose proof (table_T (fun _ => []) (fun _ _ _ => 0) (fun _ _ _ => (0, 0)) (fun _ => (0, 0, 0)) skewed L skewed_cells) as T.
  specialize (H exact_quad (only pT tT) (fun _ => []) (fun _ _ _ => 0) (fun _ _ _ => (0, 0)) (fun _ => (0, 0, 0)) (fun _ _ => 0) (fun _ => 0) gT true true 1 skewed _ (only_honest _ _ delaunay_T) exact_quad_honest eq_refl T). clear T L.
  assert (B : forall r i, In r (map (fun c => rowT (first_lat c) (c_lon c)) (cells_of skewed)) -> In i (snd r) -> (i < Z.of_nat (Datatypes.length (latgrib gT)))%Z).
  { intros r i Hr Hi. apply in_map_iff in Hr. destruct Hr as [c [<- _]]. unfold rowT in Hi. cbn [snd In] in Hi. cbn. lia. }
  specialize (H B). clear B. unfold skewed in H. rewrite cells_repeat in H. change 500%nat with (S 499) in H. cbn [repeat List.concat app map fst snd] in H.
  inversion H as [|x1 y1 l1 l1' _ H' E1 E2]. subst. clear H. inversion H' as [|x2 y2 l2 l2' K _ E1 E2]. subst. clear H'. cbn [first_lat c_lon fst snd] in K.
  destruct (K [1 - 1 / 10 - 2 / 10; 1 / 10; 2 / 10] eq_refl) as [_ [_ [ps [F A]]]]. cbn [snd rowT] in F. unfold rowT in F. cbn [snd] in F.
  inversion F as [|i1 p1 li lp P1 F1 E1 E2]. subst. clear F. inversion F1 as [|i2 p2 li2 lp2 P2 F2 E1 E2]. subst. clear F1. inversion F2 as [|i3 p3 li3 lp3 P3 F3 E1 E2]. subst. clear F2. inversion F3. subst. clear F3.
  assert (Lat : forall i p la, (exists n la lo, Z.of_nat i = Z.of_nat n /\ nth_error (latgrib gT) n = Some la /\ nth_error (longrib gT) n = Some lo /\ fst p = ordinate exact_quad true la /\ full_turns lo (snd p)) -> nth_error [0; 10; 0] i = Some la -> fst p = la).
  { intros i p la [n [la' [lo [En [E1 [_ [E3 _]]]]]]] E4. assert (i = n) by lia. subst n. cbn [gT latgrib] in E1. rewrite E3. cbn [ordinate]. congruence. }
  pose proof (Lat 0%nat p1 0 P1 eq_refl) as X1. pose proof (Lat 1%nat p2 10 P2 eq_refl) as X2. pose proof (Lat 2%nat p3 0 P3 eq_refl) as X3.
  specialize (A 1 0 0). cbn [map interpolated] in A. unfold affine in A. cbn [fst snd ordinate] in A. rewrite X1, X2, X3 in A. lra.
Qed.
Print Assumptions C55_column_refuted.

(** ** padding: the first added point is not mapped back *)
Definition gP : source := mkSource [0; 50; 0] [-170; -160; 176].
Definition pP : list plane := [(0, -170); (50, -160); (0, 176); (0, -184); (0, 190); (50, 200)].
Definition tP : triangulation := make_tri pP [[3; 0; 1]; [0; 2; 1]; [2; 4; 5]; [1; 2; 5]]%Z [[1; -1; -1]; [3; 0; -1]; [-1; 3; -1]; [2; -1; 1]]%Z.
Lemma global_P : normalized gP = [(0, -170); (50, -160); (0, 176)] /\ resolution (normalized gP) = Ok 15 /\ covers_globe (normalized gP) 15 = true /\ padded (normalized gP) 15 = pP /\ original_indexes (normalized gP) 15 = [2; 0; 1]%Z.
Proof.
  assert (N : normalized gP = [(0, -170); (50, -160); (0, 176)]). { unfold normalized, gP. cbn [latgrib longrib zipw]. unfold to180. rdec. reflexivity. }
  rewrite N. clear N. assert (Mx : lon_max [(0, -170); (50, -160); (0, 176)] = 176) by (unfold lon_max; cbn [map snd fold_left]; unfold Rmax; rdec; reflexivity). assert (Mn : lon_min [(0, -170); (50, -160); (0, 176)] = -170) by (unfold lon_min; cbn [map snd fold_left]; unfold Rmin; rdec; reflexivity).
  split; [reflexivity|]. split; [|split; [|split]].
  - unfold resolution. cbn [map snd]. change (py_index [-170; -160; 176] 0) with (@Ok R (-170)). change (py_index [-170; -160; 176] 1) with (@Ok R (-160)). cbn [rbind]. f_equal. unfold Rabs. rdec. lra.
  - unfold covers_globe. rewrite Mx, Mn. unfold ltb. rdec. reflexivity.
  - unfold padded, at_right, at_left. rewrite Mx, Mn. unfold ltb. cbn [filter snd]. rdec. unfold shift_lon, pP. cbn [map fst snd app]. repeat f_equal; lra.
  - unfold original_indexes, at_right, at_left. rewrite Mx, Mn. unfold ltb. cbn [where_from snd]. rdec. reflexivity.
Qed.
Ltac inz := cbn [In]; lia.
Lemma delaunay_P : is_delaunay pP (simplices tP) (neighbors tP) (find_simplex tP) (transform tP).
Proof.
  apply make_tri_delaunay; [discriminate|reflexivity| |].
  - intros s [<-|[<-|[<-|[<-|[]]]]].
    + exists (0, -184), (0, -170), (50, -160). split; [corners 3%nat 0%nat 1%nat|]. split; [unfold area2; cbn [fst snd]; lra|]. circ.
    + exists (0, -170), (0, 176), (50, -160). split; [corners 0%nat 2%nat 1%nat|]. split; [unfold area2; cbn [fst snd]; lra|]. circ.
    + exists (0, 176), (0, 190), (50, 200). split; [corners 2%nat 4%nat 5%nat|]. split; [unfold area2; cbn [fst snd]; lra|]. circ.
    + exists (50, -160), (0, 176), (50, 200). split; [corners 1%nat 2%nat 5%nat|]. split; [unfold area2; cbn [fst snd]; lra|]. circ.
  - intros n nb3 H.
    destruct n as [|[|[|[|n]]]]; cbn [nth_error] in H; [| | | |destruct n; discriminate H].
    + assert (E : nb3 = [1; -1; -1]%Z) by congruence. subst nb3. split; [reflexivity|]. intros k nb Hk. destruct k as [|[|[|k]]]; cbn [nth_error] in Hk; [right|left; congruence|left; congruence|destruct k; discriminate Hk].
      assert (E : nb = 1%Z) by congruence. subst nb. exists 1%nat, [3; 0; 1]%Z, [0; 2; 1]%Z, 3%Z, 2%Z. split; [reflexivity|]. split; [lia|]. split; [reflexivity|]. split; [reflexivity|]. split; [reflexivity|]. split; [inz|]. split; [inz|]. split; [inz|]. intros x Hx. cbn [In] in *. lia.
    + assert (E : nb3 = [3; 0; -1]%Z) by congruence. subst nb3. split; [reflexivity|]. intros k nb Hk. destruct k as [|[|[|k]]]; cbn [nth_error] in Hk; [right|right|left; congruence|destruct k; discriminate Hk].
      * assert (E : nb = 3%Z) by congruence. subst nb. exists 3%nat, [0; 2; 1]%Z, [1; 2; 5]%Z, 0%Z, 5%Z. split; [reflexivity|]. split; [lia|]. split; [reflexivity|]. split; [reflexivity|]. split; [reflexivity|]. split; [inz|]. split; [inz|]. split; [inz|]. intros x Hx. cbn [In] in *. lia.
      * assert (E : nb = 0%Z) by congruence. subst nb. exists 0%nat, [0; 2; 1]%Z, [3; 0; 1]%Z, 2%Z, 3%Z. split; [reflexivity|]. split; [lia|]. split; [reflexivity|]. split; [reflexivity|]. split; [reflexivity|]. split; [inz|]. split; [inz|]. split; [inz|]. intros x Hx. cbn [In] in *. lia.
    + assert (E : nb3 = [-1; 3; -1]%Z) by congruence. subst nb3. split; [reflexivity|]. intros k nb Hk. destruct k as [|[|[|k]]]; cbn [nth_error] in Hk; [left; congruence|right|left; congruence|destruct k; discriminate Hk].
      assert (E : nb = 3%Z) by congruence. subst nb. exists 3%nat, [2; 4; 5]%Z, [1; 2; 5]%Z, 4%Z, 1%Z. split; [reflexivity|]. split; [lia|]. split; [reflexivity|]. split; [reflexivity|]. split; [reflexivity|]. split; [inz|]. split; [inz|]. split; [inz|]. intros x Hx. cbn [In] in *. lia.
    + assert (E : nb3 = [2; -1; 1]%Z) by congruence. subst nb3. split; [reflexivity|]. intros k nb Hk. destruct k as [|[|[|k]]]; cbn [nth_error] in Hk; [right|left; congruence|right|destruct k; discriminate Hk].
      * assert (E : nb = 2%Z) by congruence. subst nb. exists 2%nat, [1; 2; 5]%Z, [2; 4; 5]%Z, 1%Z, 4%Z. split; [reflexivity|]. split; [lia|]. split; [reflexivity|]. split; [reflexivity|]. split; [reflexivity|]. split; [inz|]. split; [inz|]. split; [inz|]. intros x Hx. cbn [In] in *. lia.
      * assert (E : nb = 1%Z) by congruence. subst nb. exists 1%nat, [1; 2; 5]%Z, [0; 2; 1]%Z, 5%Z, 0%Z. split; [reflexivity|]. split; [lia|]. split; [reflexivity|]. split; [reflexivity|]. split; [reflexivity|]. split; [inz|]. split; [inz|]. split; [inz|]. intros x Hx. cbn [In] in *. lia.
Qed.
Lemma find_P : find_simplex tP (1, -178) = Z.of_nat 0.
Proof.
  unfold tP, make_tri. cbn [find_simplex first_around]. change (tri_points pP [3; 0; 1]%Z) with ((0, -184), (0, -170), (50, -160)). cbn iota beta.
  assert (T : in_triangle (1, -178) (0, -184) (0, -170) (50, -160) = true); [|rewrite T; reflexivity]. unfold in_triangle, sign3, ltb. cbn [fst snd]. rdec; reflexivity.
Qed.
Section wP.
  Context (argsort : list R -> list nat) (angle : plane -> plane -> plane -> R) (solve : quad -> R -> R -> R * R) (place : plane -> space3).
  Definition targetP : list (list plane) := repeat [(1, -178)] 1000.
  Lemma table_P : exists ws, List.length ws = 3%nat /\ build_triangulation exact_quad (only pP tP) argsort angle solve place (fun _ _ => 0) (fun _ => 0) gP true false true 1 targetP = Ok (repeat (map XF ws, [3; 0; 1]%Z) 1000).
  Proof.
    destruct global_P as [G1 [G2 [G3 [G4 G5]]]]. destruct (inverse_ok (0, -184) (0, -170) (50, -160)) as [r0 [r1 [E I]]]; [unfold area2; cbn [fst snd]; lra|].
    destruct (triangle_row_exact (0, -184) (0, -170) (50, -160) r0 r1 (1, -178) [3; 0; 1]%Z I) as [ws [Er [Lw _]]]; [|reflexivity|].
    { apply in_triangle_hull; [unfold area2; cbn [fst snd]; lra|]. unfold in_triangle, sign3, ltb. cbn [fst snd]. rdec; reflexivity. }
    exists ws. split; [exact Lw|]. unfold build_triangulation. rewrite G2. cbn [rbind]. rewrite G3. rewrite G4, G5. cbn [rbind]. rewrite only_same. cbn [rbind].
    assert (C : cells_of targetP = repeat (mkCell 1 1 (-178)) 1000). { unfold targetP. rewrite cells_repeat. cbn [map fst snd]. generalize 1000%nat as k. induction k as [|k IH]; [reflexivity|]. cbn [repeat List.concat app]. rewrite IH. reflexivity. }
    rewrite C, repeat_length. assert (P : (progress_step (Z.of_nat 1000) true =? 0)%Z = false) by (vm_compute; reflexivity). rewrite P. cbn [andb].
    assert (Cell : tri_cell argsort angle solve place (fun _ _ => 0) tP pP pP true false 1 0 (Some (1, -178)) (mkCell 1 1 (-178)) [] = Ok ((map XF ws, [3; 0; 1]%Z), [])).
    { rewrite <- Er. rewrite <- E. apply (tri_cell_found argsort angle solve place tP pP pP true 1 (1, -178) (mkCell 1 1 (-178)) 0 3 0 1 (0, -184) (0, -170) (50, -160) _ [] ltac:(lra) find_P); reflexivity. }
    assert (Cs : forall n, tri_cells argsort angle solve place (fun _ _ => 0) tP pP pP true false 1 (fun _ => 0) (fun c => Some (first_lat c, c_lon c)) (repeat (mkCell 1 1 (-178)) n) [] = Ok (repeat (map XF ws, [3; 0; 1]%Z) n)).
    { induction n as [|n IH]; cbn [repeat tri_cells]; [reflexivity|]. cbn [first_lat c_lon]. rewrite Cell. cbn [rbind]. rewrite IH. reflexivity. }
    rewrite Cs. cbn [rbind]. unfold unpad_rows. generalize 1000%nat as k. induction k as [|k IH]; cbn [repeat mapM]; [reflexivity|]. rewrite IH. reflexivity.
  Qed.
End wP.
(** the row refers to the place behind the last source point, where a missing
    value is appended *)
Theorem C55_refuted : ~ C55_full.
Proof.
  intro H. destruct (table_P (fun _ => []) (fun _ _ _ => 0) (fun _ _ _ => (0, 0)) (fun _ => (0, 0, 0))) as [ws [Lw T]].
  specialize (H exact_quad (only pP tP) (fun _ => []) (fun _ _ _ => 0) (fun _ _ _ => (0, 0)) (fun _ => (0, 0, 0)) (fun _ _ => 0) (fun _ => 0) gP true true 1 targetP _ (only_honest _ _ delaunay_P) exact_quad_honest eq_refl T). unfold targetP in H. change 1000%nat with (S 999) in H. cbn [repeat List.concat app] in H. inversion H as [|x1 y1 l1 l1' K _ E1 E2]. subst. clear H.
  destruct (K ws eq_refl) as [_ [_ [ps [F _]]]]. cbn [snd] in F. inversion F as [|i1 p1 li lp [n [la [lo [E [N _]]]]] F1 E1 E2]. subst. assert (n = 3%nat) by lia. subst n. discriminate N.
Qed.
Print Assumptions C55_refuted.

(** ** the hypotheses are met *)
Example C55_nonvacuous : Forall2 (fun p r => fst r = [XNaN; XNaN; XNaN] \/ exists ws, fst r = map XF ws /\ convex_weights ws /\
       (~ In 3%Z (snd r) -> exact_row [0; 10; 0] [0; 0; 10] (ordinate exact_quad true) (fst p) (snd p) ws (snd r))) (List.concat (repeat [(2, 3); (2, 4)] 500))
   (List.concat (repeat [rowT 2 3; rowT 2 4] 500)).
Proof.
  apply (C55_partial exact_quad (only pT tT) (fun _ => []) (fun _ _ _ => 0) (fun _ _ _ => (0, 0)) (fun _ => (0, 0, 0)) (fun _ _ => 0) (fun _ => 0) gT true true 1 (repeat [(2, 3); (2, 4)] 500)).
  - apply only_honest. exact delaunay_T.
  - reflexivity.
  - left. reflexivity.
  - intros row p q Hr Hp Hq. apply repeat_spec in Hr. subst row. cbn [In] in Hp, Hq. destruct Hp as [<-|[<-|[]]], Hq as [<-|[<-|[]]]; reflexivity.
  - rewrite (table_T (fun _ => []) (fun _ _ _ => 0) (fun _ _ _ => (0, 0)) (fun _ => (0, 0, 0))).
    + apply f_equal. rewrite cells_repeat. generalize 500%nat as k. induction k as [|k IH]; [reflexivity|]. cbn [repeat List.concat]. rewrite map_app, IH. reflexivity.
    + rewrite cells_repeat, concat_repeat_length. cbn [map List.length]. lia.
    + intros c Hc. rewrite cells_repeat in Hc. apply in_concat_repeat in Hc. cbn [map fst snd In] in Hc. destruct Hc as [<-|[<-|[]]]; cbn [first_lat c_lon]; lra.
Qed.
Example C55_northern_nonvacuous : northern exact_quad gT.
Proof.
  apply honest_northern; [exact exact_quad_honest| | |].
  - intros x Hx. cbn [gT latgrib In] in Hx. lra.
  - exists 10. cbn [gT latgrib In]. split; [right; left; reflexivity|lra].
  - intros x Hx. cbn [exact_quad fst snd]. left. rewrite <- mercator_0. apply mercator_lt; lra.
Qed.
