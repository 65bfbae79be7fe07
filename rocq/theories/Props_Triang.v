(** * Props_Triang: C55, tables of mode triangulation *)
From Verif Require Import Base Base_P Num Num_P Strings Xr Adw Bilinear Triang Spec_Bilinear Spec_Triang Bilinear_P Triang_P.
From Coq Require Import Psatz Permutation Sorting.
Local Open Scope R_scope.

Definition honest_delaunay (delaunay : list plane -> res triangulation) : Prop :=
  forall pts tri, delaunay pts = Ok tri -> is_delaunay pts (simplices tri) (neighbors tri) (find_simplex tri) (transform tri).
(** quad gives the integral of 1/cos, and an error estimate *)
Definition honest_quad (quad_int : R -> R * R) : Prop := forall lat, -90 < lat < 90 -> fst (quad_int lat) = mercator lat /\ 0 <= snd (quad_int lat).
Definition ordinate (quad_int : R -> R * R) (rotated : bool) (lat : R) : R := if rotated then lat else fst (quad_int lat).

Lemma corners_fun pts s a b c a' b' c' : corners_of pts s a b c -> corners_of pts s a' b' c' -> a = a' /\ b = b' /\ c = c'.
Proof.
  intros [i [j [k [E [H1 [H2 H3]]]]]] [i' [j' [k' [E' [H1' [H2' H3']]]]]]. rewrite E in E'. assert (I1 : i = i') by (assert (Z.of_nat i = Z.of_nat i') by congruence; lia). assert (I2 : j = j') by (assert (Z.of_nat j = Z.of_nat j') by congruence; lia). assert (I3 : k = k') by (assert (Z.of_nat k = Z.of_nat k') by congruence; lia).
  subst. rewrite H1 in H1'. rewrite H2 in H2'. rewrite H3 in H3'. split; [congruence|split; congruence].
Qed.
Lemma py_index_at {A} (l : list A) i x : py_index l i = Ok x -> exists n, nth_error l n = Some x /\ (0 <= i -> i = Z.of_nat n)%Z.
Proof.
  unfold py_index. intro H. destruct (Z.ltb_spec i 0) as [L|L].
  - destruct (Z.ltb_spec (i + Z.of_nat (List.length l)) 0); [discriminate|]. destruct (nth_error l (Z.to_nat (i + Z.of_nat (List.length l)))) eqn:N; [|discriminate]. eexists. split; [rewrite N; congruence|lia].
  - destruct (Z.ltb_spec i 0); [lia|]. destruct (nth_error l (Z.to_nat i)) eqn:N; [|discriminate]. exists (Z.to_nat i). split; [rewrite N; congruence|lia].
Qed.
Lemma py_index_last {A} (l : list A) : l <> [] -> exists x, py_index l (-1) = Ok x /\ In x l.
Proof.
  intro N. destruct (nth_error l (Z.to_nat (-1 + Z.of_nat (List.length l)))) as [x|] eqn:E.
  - exists x. split; [|exact (nth_error_In _ _ E)]. unfold py_index. change (-1 <? 0)%Z with true. cbn iota. destruct (Z.ltb_spec (-1 + Z.of_nat (List.length l)) 0); [destruct l; [congruence|cbn [List.length] in *; lia]|]. rewrite E. reflexivity.
  - apply nth_error_None in E. destruct l; [congruence|]. cbn [List.length] in E. lia.
Qed.

Section cell.
  Context (argsort : list R -> list nat) (angle : plane -> plane -> plane -> R) (solve : quad -> R -> R -> R * R)
          (place : plane -> space3) (dist : space3 -> space3 -> R) (tri : triangulation) (ps sps : list plane) (global : bool) (mub : R).
  Context (HD : is_delaunay sps (simplices tri) (neighbors tri) (find_simplex tri) (transform tri)).
  Notation cell := (tri_cell argsort angle solve place dist tri ps sps global false mub).
  (** a row of mode triangulation *)
  Lemma tri_cell_row near psc c pairs r pairs' : cell near psc c pairs = Ok (r, pairs') ->
    pairs' = pairs /\ (exists a b c, corners_of sps (snd r) a b c) /\
    ((fst r = [XNaN; XNaN; XNaN]) \/
     exists p a b c ws, psc = Some p /\ corners_of sps (snd r) a b c /\ fst r = map XF ws /\ List.length ws = 3%nat /\ convex_weights ws /\ combination ws [a; b; c] = p).
  Proof.
    destruct HD as [NE [Ln [Lt [HS [HT [HF _]]]]]]. unfold tri_cell. intro H. apply rbind_ok in H. destruct H as [idx [HI H]].
    destruct (py_index_at _ _ _ HI) as [n [Hn Hz]]. destruct (HS idx (nth_error_In _ _ Hn)) as [a [b [c0 [HC [HA _]]]]].
    assert (L3 : List.length idx = 3%nat) by (destruct HC as [i [j [k [-> _]]]]; reflexivity).
    assert (NaN : forall pairs0, Ok (nan_row3 idx, pairs0) = Ok (r, pairs') -> pairs0 = pairs' /\ snd r = idx /\ fst r = [XNaN; XNaN; XNaN]).
    { intros pairs0 E. assert (E1 : r = nan_row3 idx) by congruence. assert (E2 : pairs0 = pairs') by congruence. subst r. unfold nan_row3. cbn [fst snd]. rewrite L3. split; [exact E2|split; reflexivity]. }
    destruct psc as [p|].
    2: { destruct (NaN _ H) as [-> [E1 E2]]. split; [reflexivity|]. split; [exists a, b, c0; rewrite E1; exact HC|left; exact E2]. }
    destruct (((find_simplex tri p =? -1)%Z || (negb global && ltb mub near))%bool) eqn:B.
    { destruct (NaN _ H) as [-> [E1 E2]]. split; [reflexivity|]. split; [exists a, b, c0; rewrite E1; exact HC|left; exact E2]. }
    apply orb_false_elim in B. destruct B as [B _]. destruct idx as [|i [|j [|k [|]]]]; try discriminate L3.
    apply rbind_ok in H. destruct H as [a' [_ H]]. apply rbind_ok in H. destruct H as [b' [_ H]]. apply rbind_ok in H. destruct H as [c' [_ H]].
    destruct (negb global && _)%bool.
    { destruct (NaN _ H) as [-> [E1 E2]]. split; [reflexivity|]. split; [exists a, b, c0; rewrite E1; exact HC|left; exact E2]. }
    cbn [choose rbind] in H.
    assert (F3 : (List.length (filter (fun x => (0 <=? x)%Z) [i; j; k]) =? 4)%nat = false). { cbn [filter]. destruct (0 <=? i)%Z, (0 <=? j)%Z, (0 <=? k)%Z; reflexivity. }
    rewrite F3 in H. apply rbind_ok in H. destruct H as [m [HM H]].
    destruct (HF p) as [[F _]|[n' [s [a1 [b1 [c1 [F [Hs [HC1 HH]]]]]]]]]; [rewrite F in B; discriminate B|].
    rewrite F in HI, HM. rewrite py_index_nat in HI. rewrite py_index_nat in HM. rewrite Hs in HI. assert (Es : s = [i; j; k]) by congruence. subst s.
    destruct (HT n' [i; j; k] Hs) as [a2 [b2 [c2 [r0 [r1 [HC2 [HM2 HV]]]]]]]. unfold plane in HM2. rewrite HM2 in HM. destruct (corners_fun _ _ _ _ _ _ _ _ HC1 HC2) as [-> [-> ->]].
    assert (Em : m = (r0, r1, c2)) by (injection HM as E; symmetry; exact E). subst m. destruct (triangle_row_exact a2 b2 c2 r0 r1 p [i; j; k] HV HH eq_refl) as [ws [E [L [V C]]]]. rewrite E in H.
    assert (Er : r = (map XF ws, [i; j; k])) by congruence. assert (Ep : pairs' = pairs) by congruence. subst r pairs'. cbn [fst snd].
    split; [reflexivity|]. split; [exists a2, b2, c2; exact HC2|]. right. exists p, a2, b2, c2, ws. split; [reflexivity|]. split; [exact HC2|]. split; [reflexivity|]. split; [exact L|]. split; [exact V|exact C].
  Qed.
  Lemma tri_cells_rows near scaled : forall cells pairs rows, tri_cells argsort angle solve place dist tri ps sps global false mub near scaled cells pairs = Ok rows ->
    Forall2 (fun c r => cell (near c) (scaled c) c pairs = Ok (r, pairs)) cells rows.
  Proof.
    induction cells as [|c cells IH]; intros pairs rows H; cbn [tri_cells] in H; [assert (E : rows = []) by congruence; subst; constructor|].
    apply rbind_ok in H. destruct H as [[r pairs'] [HC H]]. apply rbind_ok in H. destruct H as [rs [HR H]]. assert (E : rows = r :: rs) by congruence. subst rows.
    destruct (tri_cell_row _ _ _ _ _ _ HC) as [-> _]. constructor; [exact HC|]. apply IH. exact HR.
  Qed.
End cell.

Lemma cells_concat target : map (fun c => (c_lat c, c_lon c)) (cells_of target) = List.concat target.
Proof.
  induction target as [|row target IH]; [reflexivity|]. cbn [cells_of flat_map List.concat]. rewrite map_app. unfold cells_of in IH. rewrite IH. f_equal. destruct row as [|p0 row]; [reflexivity|]. rewrite map_map. cbn [c_lat c_lon]. rewrite <- (map_id (p0 :: row)) at 2. apply map_ext. intros [a b]. reflexivity.
Qed.
Lemma cells_first target c : on_parallels target -> In c (cells_of target) -> first_lat c = c_lat c.
Proof.
  intros P H. unfold cells_of in H. apply in_flat_map in H. destruct H as [row [Hr H]]. destruct row as [|p0 row]; [destruct H|]. apply in_map_iff in H. destruct H as [p [<- Hp]]. cbn [first_lat c_lat]. apply (P (p0 :: row)); [exact Hr|left; reflexivity|exact Hp].
Qed.
Lemma f2_map_l {A B C} (f : A -> B) (P : B -> C -> Prop) l l' : Forall2 (fun x y => P (f x) y) l l' -> Forall2 P (map f l) l'.
Proof. induction 1; cbn [map]; constructor; auto. Qed.
Lemma f2_trans {A B C} (P : A -> B -> Prop) (Q : B -> C -> Prop) l l' l'' : Forall2 P l l' -> Forall2 Q l' l'' -> Forall2 (fun x z => exists y, In x l /\ P x y /\ Q y z) l l''.
Proof.
  intro F. revert l''. induction F as [|x y l l' H F IH]; intros l'' G; inversion G as [|y' z l1 l2 G1 G2 E1 E2]; subst; constructor; [exists y; split; [left; reflexivity|split; assumption]|].
  eapply f2_impl; [|apply IH; exact G2]. cbn beta. intros u v [w [Hu [Hp Hq]]]. exists w. split; [right; exact Hu|split; assumption].
Qed.
Lemma lat_max_is ps : ps <> [] -> In (lat_max ps) (map fst ps) /\ forall x, In x (map fst ps) -> x <= lat_max ps.
Proof.
  intro N. destruct ps as [|p l]; [congruence|]. unfold lat_max. split; [apply fold_rmax_in|]. cbn [map]. generalize (map fst l) as L. generalize (fst p). clear.
  intros z L. revert z. induction L as [|w L IH]; intros z x [<-|H]; cbn [fold_left]; [lra|destruct H| |].
  - apply Rle_trans with (Rmax z w); [apply Rmax_l|]. apply IH. left. reflexivity.
  - destruct H as [<-|H]; [apply Rle_trans with (Rmax z w); [apply Rmax_r|]; apply IH; left; reflexivity|]. apply IH. right. exact H.
Qed.

Section table.
  Context (quad_int : R -> R * R) (delaunay : list plane -> res triangulation)
          (argsort : list R -> list nat) (angle : plane -> plane -> plane -> R) (solve : quad -> R -> R -> R * R)
          (place : plane -> space3) (dist : space3 -> space3 -> R) (near : tcell -> R).
  Notation build := (build_triangulation quad_int delaunay argsort angle solve place dist near).
  (** a northern latitude among the sources, integrated with a small error *)
  Definition northern (g : source) : Prop := grows_on (latgrib g) (fun x => fst (quad_int x)) /\
    forall x, In x (latgrib g) -> (forall y, In y (latgrib g) -> y <= x) -> 0 < fst (quad_int x) /\ snd (quad_int x) <= fst (quad_int x).

  Theorem C55_partial : forall g rotated isatty mub target table, honest_delaunay delaunay -> List.length (latgrib g) = List.length (longrib g) ->
    (rotated = true \/ northern g) -> on_parallels target -> build g rotated false isatty mub target = Ok table ->
    Forall2 (fun p r => fst r = [XNaN; XNaN; XNaN] \/ exists ws, fst r = map XF ws /\ convex_weights ws /\
       (~ In (Z.of_nat (List.length (latgrib g))) (snd r) -> exact_row (latgrib g) (longrib g) (ordinate quad_int rotated) (fst p) (snd p) ws (snd r))) (List.concat target) table.
  Proof.
    intros g rotated isatty mub target table HD Len HN HP H. unfold build_triangulation in H. apply rbind_ok in H. destruct H as [rs [HR H]]. set (ps0 := normalized g) in *.
    set (global := covers_globe ps0 rs) in *. set (ps := if global then padded ps0 rs else ps0) in *.
    assert (NE0 : ps0 <> []). { intro E. unfold resolution in HR. rewrite E in HR. discriminate HR. }
    assert (NE : ps <> []). { unfold ps. destruct global; [|exact NE0]. unfold padded. destruct ps0; [congruence|discriminate]. }
    assert (Origin : forall n p, nth_error ps n = Some p -> exists j, (if global then unpad (Z.of_nat (List.length (latgrib g))) (original_indexes ps0 rs) (Z.of_nat n) else Ok (Z.of_nat n)) = Ok j /\
      (j = Z.of_nat (List.length (latgrib g)) \/ exists m la lo, j = Z.of_nat m /\ nth_error (latgrib g) m = Some la /\ nth_error (longrib g) m = Some lo /\ fst p = la /\ full_turns lo (snd p))).
    { intros n p Hn. unfold ps in Hn. rewrite <- (normalized_length g Len). fold ps0. destruct global.
      - destruct (unpad_origin ps0 rs n p Hn) as [j [E [E2|[m [q [k [E2 [E3 E4]]]]]]]]; exists j; (split; [exact E|]); [left; exact E2|]. right. destruct (normalized_nth g m q E3) as [la [lo [N1 [N2 [N3 [k' N4]]]]]]. exists m, la, lo. split; [exact E2|]. split; [exact N1|]. split; [exact N2|]. subst p. unfold shift_lon. cbn [fst snd]. split; [exact N3|]. exists (k' + k)%Z. rewrite plus_IZR, N4. ring.
      - exists (Z.of_nat n). split; [reflexivity|]. right. destruct (normalized_nth g n p Hn) as [la [lo [N1 [N2 [N3 N4]]]]]. exists n, la, lo. split; [reflexivity|]. split; [exact N1|]. split; [exact N2|]. split; [exact N3|exact N4]. }
    apply rbind_ok in H. destruct H as [sps [HS H]]. apply rbind_ok in H. destruct H as [tri [HT H]]. apply HD in HT. cbn [rbind] in H. destruct (_ && _)%bool; [discriminate|]. apply rbind_ok in H. destruct H as [rows [Hrows H]].
    set (scaled := fun c => if rotated then _ else _) in Hrows.
    (* the common factor *)
    assert (K : exists k, k <> 0 /\ sps = map (fun p => (k * ordinate quad_int rotated (fst p), snd p)) ps /\ forall c, scaled c = Some (k * ordinate quad_int rotated (first_lat c), c_lon c)).
    { unfold ordinate. destruct rotated.
      - exists 1. split; [lra|]. split; [assert (E : sps = ps) by congruence; subst sps; rewrite <- (map_id ps) at 1; apply map_ext; intros [u v]; cbn [fst snd]; f_equal; ring|]. intro c. unfold scaled. f_equal. f_equal. ring.
      - destruct HN as [HN|[G HN]]; [discriminate|]. assert (Sub : forall x, In x (map fst ps) -> In x (latgrib g)). { intros x Hx. unfold ps in Hx. destruct global; [apply padded_lats in Hx|]; apply normalized_lats; exact Hx. }
        assert (Gp : grows_on (map fst ps) (fun x => fst (quad_int x))) by (intros x y Hx Hy; apply G; apply Sub; assumption).
        destruct (lat_max_is ps NE) as [M1 M2]. assert (M3 : forall y, In y (latgrib g) -> y <= lat_max ps).
        { intros y Hy. apply M2. assert (I : In y (map fst ps0)).
          { apply In_nth_error in Hy. destruct Hy as [n Hn]. assert (B : (n < List.length ps0)%nat) by (unfold ps0; rewrite (normalized_length g Len); apply nth_error_Some; congruence). destruct (nth_error ps0 n) as [p|] eqn:Ep; [|apply nth_error_Some in B; congruence]. destruct (normalized_nth g n p Ep) as [la [lo [N1 [_ [N3 _]]]]]. assert (y = fst p) by congruence. subst y. apply in_map. exact (nth_error_In _ _ Ep). }
          unfold ps. destruct global; [|exact I]. unfold padded. rewrite !map_app. apply in_or_app. left. apply in_or_app. left. exact I. }
        destruct (HN (lat_max ps) (Sub _ M1) M3) as [P1 P2]. rewrite (scaled_points_at quad_int ps Gp ltac:(lra) NE) in HS.
        exists (900 / fst (quad_int (lat_max ps))). split; [apply Rmult_integral_contrapositive_currified; [lra|apply Rinv_neq_0_compat; lra]|]. split.
        + assert (E : sps = map (fun p => (fst (quad_int (fst p)) * 90 * 10 / fst (quad_int (lat_max ps)), snd p)) ps) by congruence. rewrite E. apply map_ext. intro p. f_equal. field. lra.
        + intro c. unfold scaled. unfold scaled_lat. destruct (quad_int (lat_max ps)) as [v e]. cbn [fst snd] in *. rewrite (Rmax_left v e) by lra. destruct (Req_EM_T v 0); [lra|]. f_equal. f_equal. field. lra. }
    destruct K as [k [K0 [Ks Kt]]].
    pose proof (tri_cells_rows argsort angle solve place dist tri ps sps global mub HT near scaled (cells_of target) [] rows Hrows) as F.
    assert (U : Forall2 (fun r r' => fst r' = fst r /\ mapM (fun i => if global then unpad (Z.of_nat (List.length (latgrib g))) (original_indexes ps0 rs) i else Ok i) (snd r) = Ok (snd r')) rows table).
    { destruct global.
      - unfold unpad_rows in H. apply mapM_Forall2 in H. eapply f2_impl; [|exact H]. cbn beta. intros r r' E. apply rbind_ok in E. destruct E as [idx [E1 E2]]. assert (r' = (fst r, idx)) by congruence. subst r'. split; [reflexivity|exact E1].
      - assert (E : table = rows) by congruence. subst table. clear. induction rows as [|[ws idx] rows IH]; constructor; [|exact IH]. split; [reflexivity|]. cbn [snd]. induction idx as [|i idx IHi]; cbn [mapM]; [reflexivity|]. rewrite IHi. reflexivity. }
    rewrite <- cells_concat. apply f2_map_l. eapply f2_impl; [|exact (f2_trans _ _ _ _ _ F U)]. cbn beta. intros c r' [r [Hc [HCell [E1 E2]]]]. cbn [fst snd].
    destruct (tri_cell_row _ _ _ _ _ _ _ _ _ _ HT _ _ _ _ _ _ HCell) as [_ [_ [X|[p [a [b [c' [ws [Ep [HC [Ew [Lw [HV HM]]]]]]]]]]]]]; [left; congruence|]. right. exists ws. split; [congruence|]. split; [exact HV|]. intro NN.
    assert (L : List.length (snd r') = 3%nat). { rewrite (mapM_ok_length _ _ _ E2). destruct HC as [i [j [l [-> _]]]]. reflexivity. }
    split; [congruence|]. rewrite Kt in Ep. assert (Ep' : p = (k * ordinate quad_int rotated (c_lat c), c_lon c)) by (rewrite <- (cells_first target c HP Hc); congruence). clear Ep. rewrite Ep' in HM. clear Ep'.
    destruct HC as [i1 [i2 [i3 [Es [A [B C]]]]]]. rewrite Es in E2. rewrite Ks in A, B, C.
    assert (Pt : forall n s, nth_error (map (fun p => (k * ordinate quad_int rotated (fst p), snd p)) ps) n = Some s -> exists p, nth_error ps n = Some p /\ s = (k * ordinate quad_int rotated (fst p), snd p)).
    { clear. induction ps as [|q l IH]; intros [|n] s E; cbn [map nth_error] in *; try discriminate E; [exists q; split; [reflexivity|congruence]|exact (IH n s E)]. }
    destruct (Pt _ _ A) as [pa [A1 A2]]. destruct (Pt _ _ B) as [pb [B1 B2]]. destruct (Pt _ _ C) as [pc [C1 C2]]. clear A B C Pt.
    cbn [mapM] in E2. apply rbind_ok in E2. destruct E2 as [j1 [J1 E2]]. apply rbind_ok in E2. destruct E2 as [l1 [E2 Z1]]. apply rbind_ok in E2. destruct E2 as [j2 [J2 E2]]. apply rbind_ok in E2. destruct E2 as [l2 [E2 Z2]]. apply rbind_ok in E2. destruct E2 as [j3 [J3 E2]]. cbn [rbind] in E2.
    assert (Ei : snd r' = [j1; j2; j3]) by congruence. rewrite Ei in NN |- *. clear Z1 Z2 E2 Ei.
    destruct (Origin i1 pa A1) as [x1 [X1 Y1]]. destruct (Origin i2 pb B1) as [x2 [X2 Y2]]. destruct (Origin i3 pc C1) as [x3 [X3 Y3]]. rewrite X1 in J1. rewrite X2 in J2. rewrite X3 in J3. assert (x1 = j1) by congruence. assert (x2 = j2) by congruence. assert (x3 = j3) by congruence. subst x1 x2 x3.
    cbn [In] in NN. destruct Y1 as [Y1|[m1 [la1 [lo1 Y1]]]]; [exfalso; apply NN; left; exact Y1|]. destruct Y2 as [Y2|[m2 [la2 [lo2 Y2]]]]; [exfalso; apply NN; right; left; exact Y2|]. destruct Y3 as [Y3|[m3 [la3 [lo3 Y3]]]]; [exfalso; apply NN; right; right; left; exact Y3|].
    exists [(ordinate quad_int rotated (fst pa), snd pa); (ordinate quad_int rotated (fst pb), snd pb); (ordinate quad_int rotated (fst pc), snd pc)]. split.
    - constructor; [|constructor; [|constructor; [|constructor]]]; [exists m1, la1, lo1|exists m2, la2, lo2|exists m3, la3, lo3]; cbn [fst snd]; [destruct Y1 as [Y [Y' [Y'' [-> Y3']]]]|destruct Y2 as [Y [Y' [Y'' [-> Y3']]]]|destruct Y3 as [Y [Y' [Y'' [-> Y3']]]]]; repeat (split; [assumption || reflexivity|]); exact Y3'.
    - apply (affine_exact k); [exact K0|exact Lw|apply HV|]. cbn [map fst snd]. rewrite <- A2, <- B2, <- C2. exact HM.
  Qed.
End table.
Print Assumptions C55_partial.
