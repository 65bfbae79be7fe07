(** * Props_Triang2: C55, refutations and witnesses *)
From Verif Require Import Base Base_P Num Num_P Strings Xr Adw Bilinear Triang Spec_Bilinear Spec_Triang Bilinear_P Triang_P Props_Bilinear Props_Triang.
From Coq Require Import Psatz Permutation Sorting.
Local Open Scope R_scope.

(** ** the Mercator ordinate *)
Lemma rad_range lat : -90 < lat < 90 -> - (PI / 2) < rad lat < PI / 2.
Proof. intro H. unfold rad. pose proof PI_RGT_0. split; nra. Qed.
Lemma cos_rad_pos lat : -90 < lat < 90 -> 0 < cos (rad lat).
Proof. intro H. apply rad_range in H. apply cos_gt_0; lra. Qed.
Lemma sin_rad_lt x y : -90 < x < 90 -> -90 < y < 90 -> x < y -> sin (rad x) < sin (rad y).
Proof. intros Hx Hy H. apply rad_range in Hx. apply rad_range in Hy. apply sin_increasing_1; try lra. unfold rad. pose proof PI_RGT_0. nra. Qed.
Lemma mercator_lt x y : -90 < x < 90 -> -90 < y < 90 -> x < y -> mercator x < mercator y.
Proof.
  intros Hx Hy H. unfold mercator. pose proof (cos_rad_pos x Hx) as Cx. pose proof (cos_rad_pos y Hy) as Cy. pose proof (sin_rad_lt x y Hx Hy H) as S.
  pose proof (sin2_cos2 (rad x)) as Ex. pose proof (sin2_cos2 (rad y)) as Ey. unfold Rsqr in Ex, Ey. set (s := sin (rad x)) in *. set (c := cos (rad x)) in *. set (s' := sin (rad y)) in *. set (c' := cos (rad y)) in *. clearbody s c s' c'.
  assert (B : -1 < s < 1) by (split; nra). assert (B' : -1 < s' < 1) by (split; nra).
  assert (P1 : 0 < (1 + s) / c) by (apply Rdiv_lt_0_compat; lra). assert (P2 : 0 < (1 + s') / c') by (apply Rdiv_lt_0_compat; lra).
  apply ln_increasing; [exact P1|].
  (* the squares are (1+s)/(1-s) *)
  assert (Q1 : (1 + s) / c * ((1 + s) / c) = (1 + s) / (1 - s)). { transitivity ((1 + s) * (1 + s) / (c * c)); [field; lra|]. assert (Ec : c * c = (1 - s) * (1 + s)) by nra. rewrite Ec. field. lra. }
  assert (Q2 : (1 + s') / c' * ((1 + s') / c') = (1 + s') / (1 - s')). { transitivity ((1 + s') * (1 + s') / (c' * c')); [field; lra|]. assert (Ec : c' * c' = (1 - s') * (1 + s')) by nra. rewrite Ec. field. lra. }
  assert (L : (1 + s) / (1 - s) < (1 + s') / (1 - s')). { apply Rmult_lt_reg_r with ((1 - s) * (1 - s')); [nra|]. replace ((1 + s) / (1 - s) * ((1 - s) * (1 - s'))) with ((1 + s) * (1 - s')) by (field; lra). replace ((1 + s') / (1 - s') * ((1 - s) * (1 - s'))) with ((1 + s') * (1 - s)) by (field; lra). nra. }
  rewrite <- Q1, <- Q2 in L. set (u := (1 + s) / c) in *. set (v := (1 + s') / c') in *. clearbody u v. nra.
Qed.
Lemma mercator_0 : mercator 0 = 0.
Proof. unfold mercator. assert (E : rad 0 = 0) by (unfold rad; field). rewrite E, sin_0, cos_0. replace ((1 + 0) / 1) with 1 by field. apply ln_1. Qed.
Lemma honest_northern quad_int g : honest_quad quad_int -> (forall x, In x (latgrib g) -> -90 < x < 90) -> (exists x, In x (latgrib g) /\ 0 < x) ->
  (forall x, 0 < x < 90 -> snd (quad_int x) <= fst (quad_int x)) -> northern quad_int g.
Proof.
  intros HQ HL [x0 [H0 P0]] HE. split.
  - intros x y Hx Hy H. destruct (HQ x (HL x Hx)) as [-> _]. destruct (HQ y (HL y Hy)) as [-> _]. destruct H as [H|H]; [left; apply mercator_lt; auto|right; congruence].
  - intros x Hx HM. pose proof (HM x0 H0) as G. destruct (HQ x (HL x Hx)) as [E _]. split; [rewrite E; rewrite <- mercator_0; apply mercator_lt; [lra|auto|lra]|]. apply HE. pose proof (HL x Hx). lra.
Qed.

(** ** sources south of the equator: no target gets a value *)
Section south.
  Context (quad_int : R -> R * R) (delaunay : list plane -> res triangulation)
          (argsort : list R -> list nat) (angle : plane -> plane -> plane -> R) (solve : quad -> R -> R -> R * R)
          (place : plane -> space3) (dist : space3 -> space3 -> R) (near : tcell -> R).
  Notation build := (build_triangulation quad_int delaunay argsort angle solve place dist near).
  Lemma hull_positive p a b c : in_hull p [a; b; c] -> 0 < fst a -> 0 < fst b -> 0 < fst c -> 0 < fst p.
  Proof.
    intros H A B C. destruct (hull3 p a b c H) as [w1 [w2 [w3 [N1 [N2 [N3 [T E]]]]]]]. rewrite <- E. cbn [combination fst snd]. 
    assert (P : forall w x, 0 <= w -> 0 < x -> 0 <= w * x) by (intros w x Hw Hx; apply Rmult_le_pos; lra). pose proof (P w1 _ N1 A). pose proof (P w2 _ N2 B). pose proof (P w3 _ N3 C).
    destruct (Req_dec w1 0) as [Z1|Z1]; [|assert (0 < w1 * fst a) by (apply Rmult_lt_0_compat; lra); lra]. destruct (Req_dec w2 0) as [Z2|Z2]; [|assert (0 < w2 * fst b) by (apply Rmult_lt_0_compat; lra); lra]. assert (0 < w3 * fst c) by (apply Rmult_lt_0_compat; lra). lra.
  Qed.
  Lemma f2_forall_r {A B} (P : B -> Prop) (Q : A -> B -> Prop) l l' : Forall2 Q l l' -> (forall x y, In x l -> Q x y -> P y) -> Forall P l'.
  Proof. intro F. induction F as [|x y l l' H F IH]; intro K; constructor; [apply (K x y); [left; reflexivity|exact H]|]. apply IH. intros u v Hu. apply K. right. exact Hu. Qed.
  Theorem C55_south_refuted : forall g isatty mub target table, honest_delaunay delaunay -> honest_quad quad_int ->
    (forall x, In x (latgrib g) -> -90 < x < 0) -> (forall row p, In row target -> In p row -> -90 < fst p < 0) ->
    build g false false isatty mub target = Ok table -> Forall (fun r => fst r = [XNaN; XNaN; XNaN]) table.
  Proof.
    intros g isatty mub target table HD HQ HL HP H. unfold build_triangulation in H. apply rbind_ok in H. destruct H as [rs [HR H]]. set (ps0 := normalized g) in *.
    set (global := covers_globe ps0 rs) in *. set (ps := if global then padded ps0 rs else ps0) in *.
    assert (NE0 : ps0 <> []). { intro E. unfold resolution in HR. rewrite E in HR. discriminate HR. }
    assert (NE : ps <> []). { unfold ps. destruct global; [|exact NE0]. unfold padded. destruct ps0; [congruence|discriminate]. }
    assert (Sub : forall x, In x (map fst ps) -> -90 < x < 0). { intros x Hx. apply HL. unfold ps in Hx. destruct global; [apply padded_lats in Hx|]; apply normalized_lats; exact Hx. }
    assert (Neg : forall x, -90 < x < 0 -> fst (quad_int x) < 0). { intros x Hx. destruct (HQ x ltac:(lra)) as [-> _]. rewrite <- mercator_0. apply mercator_lt; lra. }
    apply rbind_ok in H. destruct H as [sps [HS H]]. apply rbind_ok in H. destruct H as [tri [HT H]]. apply HD in HT. cbn [rbind] in H. destruct (_ && _)%bool; [discriminate|]. apply rbind_ok in H. destruct H as [rows [Hrows H]].
    set (scaled := fun c => match scaled_lat quad_int ps (first_lat c) with None => _ | Some v => _ end) in Hrows.
    assert (Pos : forall p, In p sps -> 0 < fst p).
    { unfold scaled_points in HS. destruct ps as [|p0 l]; [congruence|]. cbn [map] in HS. set (m := fold_left Rmax _ _) in HS.
      assert (M : m < 0). { assert (I : In m (map (fun p => fst (quad_int (fst p))) (p0 :: l))) by (unfold m; apply fold_rmax_in). apply in_map_iff in I. destruct I as [q [<- Hq]]. apply Neg. apply Sub. apply in_map. exact Hq. }
      destruct (Req_EM_T m 0); [lra|]. intros p Hp. assert (E : sps = map (fun p => (fst (quad_int (fst p)) * 90 * 10 / m, snd p)) (p0 :: l)) by (cbn [map]; congruence). rewrite E in Hp. apply in_map_iff in Hp. destruct Hp as [q [<- Hq]]. cbn [fst].
      pose proof (Neg (fst q) (Sub _ (in_map fst _ _ Hq))) as N. assert (I : / m < 0) by (apply Rinv_lt_0_compat; exact M). unfold Rdiv. nra. }
    assert (Tgt : forall c, In c (cells_of target) -> match scaled c with None => True | Some p => fst p < 0 end).
    { intros c Hc. unfold scaled, scaled_lat. destruct (quad_int (lat_max ps)) as [v e] eqn:Q. destruct (lat_max_is ps NE) as [M _]. apply Sub in M. pose proof (Neg _ M) as Nv. rewrite Q in Nv. destruct (HQ (lat_max ps) ltac:(lra)) as [_ Pe]. rewrite Q in Pe. cbn [fst snd] in *. rewrite (Rmax_right v e) by lra.
      destruct (Req_EM_T e 0); [exact I|]. cbn [fst]. assert (Hf : -90 < first_lat c < 0). { unfold cells_of in Hc. apply in_flat_map in Hc. destruct Hc as [row [Hr Hc]]. destruct row as [|q row]; [destruct Hc|]. apply in_map_iff in Hc. destruct Hc as [p [<- Hp]]. cbn [first_lat]. apply (HP (q :: row)); [exact Hr|left; reflexivity]. }
      pose proof (Neg _ Hf) as N. assert (I : 0 < / e) by (apply Rinv_0_lt_compat; lra). unfold Rdiv. nra. }
    pose proof (tri_cells_rows argsort angle solve place dist tri ps sps global mub HT near scaled (cells_of target) [] rows Hrows) as F.
    assert (G : Forall (fun r => fst r = [XNaN; XNaN; XNaN]) rows).
    { apply (f2_forall_r _ _ _ _ F). intros c r Hc HCell. destruct (tri_cell_row _ _ _ _ _ _ _ _ _ _ HT _ _ _ _ _ _ HCell) as [_ [_ [X|[p [a [b [c' [ws [Ep [HC [Ew [Lw [HV HM]]]]]]]]]]]]]; [exact X|].
      exfalso. specialize (Tgt c Hc). rewrite Ep in Tgt. destruct HC as [i [j [k [_ [A [B C]]]]]]. apply nth_error_In in A. apply nth_error_In in B. apply nth_error_In in C.
      assert (0 < fst p); [|lra]. apply (hull_positive p a b c'); [exists ws; split; [exact Lw|]; split; [exact HV|exact HM]| | |]; apply Pos; assumption. }
    destruct global.
    - unfold unpad_rows in H. apply mapM_Forall2 in H. apply (f2_forall_r _ _ _ _ H). intros r r' Hr E. apply rbind_ok in E. destruct E as [idx [_ E]]. assert (r' = (fst r, idx)) by congruence. subst r'. cbn [fst]. rewrite Forall_forall in G. apply G. exact Hr.
    - assert (E : table = rows) by congruence. subst table. exact G.
  Qed.
  (** the northernmost source on the equator: an error *)
  Theorem C55_equator_refuted : forall g rs use_bilinear isatty mub target, honest_quad quad_int -> (forall x, In x (latgrib g) -> -90 < x <= 0) -> List.length (latgrib g) = List.length (longrib g) -> In 0 (latgrib g) ->
    resolution (normalized g) = Ok rs -> build g false use_bilinear isatty mub target = Raise ValueError.
  Proof.
    intros g rs ub isatty mub target HQ HL Len H0 HR. unfold build_triangulation. rewrite HR. cbn [rbind]. set (ps0 := normalized g) in *. set (ps := if covers_globe ps0 rs then padded ps0 rs else ps0) in *.
    assert (Sub : forall x, In x (map fst ps) -> In x (latgrib g)). { intros x Hx. unfold ps in Hx. destruct (covers_globe ps0 rs); [apply padded_lats in Hx|]; apply normalized_lats; exact Hx. }
    assert (I0 : In 0 (map fst ps)).
    { assert (I : In 0 (map fst ps0)).
      { apply In_nth_error in H0. destruct H0 as [n Hn]. assert (B : (n < List.length ps0)%nat) by (unfold ps0; rewrite (normalized_length g Len); apply nth_error_Some; congruence). destruct (nth_error ps0 n) as [p|] eqn:Ep; [|apply nth_error_Some in B; congruence]. destruct (normalized_nth g n p Ep) as [la [lo [N1 [_ [N3 _]]]]]. assert (E : 0 = fst p) by congruence. rewrite E. apply in_map. exact (nth_error_In _ _ Ep). }
      unfold ps. destruct (covers_globe ps0 rs); [|exact I]. unfold padded. rewrite !map_app. apply in_or_app. left. apply in_or_app. left. exact I. }
    assert (S : scaled_points quad_int ps = None); [|rewrite S; reflexivity].
    unfold scaled_points. destruct ps as [|p0 l]; [destruct I0|]. cbn [map]. set (m := fold_left Rmax _ _).
    assert (Ms : In m (map (fun p => fst (quad_int (fst p))) (p0 :: l)) /\ forall x, In x (map (fun p => fst (quad_int (fst p))) (p0 :: l)) -> x <= m).
    { pose proof (lat_max_is (map (fun p => (fst (quad_int (fst p)), 0)) (p0 :: l)) ltac:(discriminate)) as K. cbn [lat_max map fst] in K. rewrite !map_map in K. cbn [fst] in K. exact K. }
    destruct Ms as [M1 M2]. assert (Z : m = 0); [|destruct (Req_EM_T m 0); [reflexivity|contradiction]].
    assert (V0 : fst (quad_int 0) = 0) by (destruct (HQ 0 ltac:(lra)) as [-> _]; apply mercator_0).
    apply Rle_antisym.
    - apply in_map_iff in M1. destruct M1 as [q [<- Hq]]. pose proof (HL _ (Sub _ (in_map fst _ _ Hq))) as B. destruct (HQ (fst q) ltac:(lra)) as [-> _]. destruct B as [B1 [B2|B2]]; [left; rewrite <- mercator_0; apply mercator_lt; lra|right; rewrite B2; apply mercator_0].
    - rewrite <- V0. apply M2. apply in_map_iff in I0. destruct I0 as [q [Eq Hq]]. apply in_map_iff. exists q. split; [rewrite Eq; reflexivity|exact Hq].
  Qed.
End south.
Print Assumptions C55_south_refuted. Print Assumptions C55_equator_refuted.
