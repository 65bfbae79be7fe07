(** * Props_Bilinear7: source longitudes beyond 180 degrees (C106) *)
From Verif Require Import Base Base_P Num Strings Xr Adw Bilinear Spec_Bilinear Bilinear_P Bilinear_P2 Bilinear_P3 Bilinear_P4 Bilinear_P5 Bilinear_P6 Props_Bilinear Props_Bilinear2 Props_Bilinear3 Props_Bilinear6.
From Coq Require Import Psatz Permutation Sorting.
Local Open Scope R_scope.

(** the same source with longitudes 0..360 and -180..180 *)
Definition turned (g g' : source) : Prop := latgrib g' = latgrib g /\
  Forall2 (fun lon lon' => -180 <= lon <= 360 /\ ((lon <= 180 /\ lon' = lon) \/ (180 < lon /\ lon' = lon - 360))) (longrib g) (longrib g').

Lemma f2_length {A B} (P : A -> B -> Prop) l l' : Forall2 P l l' -> List.length l = List.length l'.
Proof. intro F. induction F; cbn [List.length]; congruence. Qed.
Lemma turned_index g g' i : turned g g' -> (exists lon lon', py_index (longrib g) i = Ok lon /\ py_index (longrib g') i = Ok lon' /\ to180 lon = lon' /\ to180 lon' = lon') \/
  (exists e, py_index (longrib g) i = Raise e /\ py_index (longrib g') i = Raise e).
Proof.
  intros [_ F]. unfold py_index. rewrite <- (f2_length _ _ _ F).
  set (j := if (i <? 0)%Z then _ else _). destruct (j <? 0)%Z; [right; exists IndexError; split; reflexivity|].
  generalize (Z.to_nat j) as n. clear j. induction F as [|a b l l' H F IH]; intro n; [destruct n; right; exists IndexError; split; reflexivity|].
  destruct n as [|n]; cbn [nth_error]; [|apply IH]. left. exists a, b. split; [reflexivity|]. split; [reflexivity|].
  unfold to180. destruct (Rlt_dec 180 a), (Rlt_dec 180 b); lra.
Qed.

Lemma turned_corner g g' lo i : turned g g' -> corner_of g' lo i = corner_of g lo i.
Proof.
  intro T. unfold corner_of. rewrite (proj1 T). destruct (py_index (latgrib g) i) as [lat|e]; [|reflexivity]. cbn [rbind].
  destruct (turned_index g g' i T) as [[lon [lon' [-> [-> [E1 E2]]]]]|[e [-> ->]]]; [|reflexivity]. cbn [rbind]. unfold correct_point. rewrite E1, E2. reflexivity.
Qed.
Lemma turned_points g g' : turned g g' -> points g' = points g.
Proof.
  intros [E F]. unfold points. rewrite E. generalize (latgrib g) as ls. induction F as [|a b l l' H F IH]; intros [|x ls]; cbn [zipw]; try reflexivity.
  f_equal; [|apply IH]. destruct H as [_ [[_ ->]|[_ ->]]]; [reflexivity|]. unfold sphere.
  destruct (rad_turns a (a - 360)) as [-> ->]; [exists (-1)%Z; lra|]. reflexivity.
Qed.
(** the tree and the cells are those of the other source *)
Lemma turned_honest g g' query cells : turned g g' -> honest g query cells -> honest g' query cells.
Proof.
  intros T [L [K C]]. pose proof (turned_points g g' T) as E. split; [rewrite (proj1 T), L; exact (f2_length _ _ _ (proj2 T))|]. rewrite E. split; [exact K|exact C].
Qed.

Section same.
  Context {Loc : Type} (query : Loc -> nat -> list Z) (locate : R -> R -> Loc)
          (argsort : list R -> list nat) (angle : R * R -> R * R -> R * R -> R) (solve : quad -> R -> R -> R * R)
          (g g' : source) (global global' rotated : bool) (retries : Z) (loc : Loc) (la lo : R).
  Hypothesis T : turned g g'.
  Hypothesis O : outside g' global' la lo = outside g global la lo.
  Lemma same_beyond : beyond_latitudes g' la = beyond_latitudes g la.
  Proof. unfold beyond_latitudes. rewrite (proj1 T). reflexivity. Qed.
  Lemma same_parallels cs st : parallels_checks query locate g' loc la lo cs st = parallels_checks query locate g loc la lo cs st.
  Proof. unfold parallels_checks. rewrite same_beyond. reflexivity. Qed.
  Lemma same_mapM idx : mapM (corner_of g' lo) idx = mapM (corner_of g lo) idx.
  Proof. induction idx as [|i idx IH]; cbn [mapM]; [reflexivity|]. rewrite (turned_corner g g' lo i T), IH. reflexivity. Qed.
  Lemma same_body st : body query locate argsort angle g' global' rotated loc la lo st = body query locate argsort angle g global rotated loc la lo st.
  Proof.
    unfold body. rewrite same_mapM, O. destruct (mapM (corner_of g lo) (f_idx st)) as [cs|e]; [|reflexivity]. cbn [rbind]. rewrite same_parallels. reflexivity.
  Qed.
  Lemma same_search fuel : forall st, search query locate argsort angle g' global' rotated retries fuel loc la lo st = search query locate argsort angle g global rotated retries fuel loc la lo st.
  Proof.
    induction fuel as [|fuel IH]; intro st; cbn [search]; [reflexivity|]. rewrite same_body. destruct (body _ _ _ _ g _ _ _ _ _ st); [rewrite IH|]; reflexivity.
  Qed.
End same.

(** ** C106 *)
(** full statement: rows do not depend on the convention of the source for its
    longitudes *)
Definition C106_full : Prop := forall g g' global global' query argsort angle solve rotated retries fuel mub before t,
  turned g g' -> honest g query [t] -> valid_argsort argsort -> is_global g = Ok global -> is_global g' = Ok global' -> -180 <= t_lon t <= 180 ->
  bilinear_cell query aim argsort angle solve g global rotated retries fuel mub before t =
  bilinear_cell query aim argsort angle solve g' global' rotated retries fuel mub before t.

(** equal where the target is in the range of the longitudes of both, or both
    are taken for global *)
Theorem C106_partial : forall (Loc : Type) g g' global global' (query : Loc -> nat -> list Z) locate argsort angle solve rotated retries fuel mub before (t : @target Loc),
  turned g g' ->
  (global = true /\ global' = true) \/ (within (latgrib g) (t_lat t) /\ within (longrib g) (t_lon t) /\ within (longrib g') (t_lon t)) ->
  bilinear_cell query locate argsort angle solve g global rotated retries fuel mub before t =
  bilinear_cell query locate argsort angle solve g' global' rotated retries fuel mub before t.
Proof.
  intros Loc g g' global global' query locate argsort angle solve rotated retries fuel mub before t T H.
  assert (O : outside g' global' (t_lat t) (t_lon t) = outside g global (t_lat t) (t_lon t)).
  { destruct H as [[-> ->]|[W1 [W2 W3]]]; [reflexivity|]. rewrite !within_not_outside; try assumption; [reflexivity|]. rewrite (proj1 T). exact W1. }
  unfold bilinear_cell. rewrite (same_search query locate argsort angle g g' global global' rotated retries (t_loc t) (t_lat t) (t_lon t) T O). reflexivity.
Qed.
Print Assumptions C106_partial.

(** a regional source west of Greenwich with longitudes 0..360 and a target with
    longitudes -180..180: every cell that is no source point is missing *)
Theorem C106_west : forall (Loc : Type) g (query : Loc -> nat -> list Z) locate argsort angle solve rotated retries fuel mub before (t : @target Loc) cs,
  longrib g <> [] -> (forall lon, In lon (longrib g) -> 180 < lon) -> t_lon t <= 180 ->
  mapM (corner_of g (t_lon t)) (map snd (t_near t)) = Ok cs -> / 10000000000 < nthR (map fst (t_near t)) 0 -> (0 < retries)%Z -> (0 < fuel)%nat ->
  bilinear_cell query locate argsort angle solve g false rotated retries fuel mub before t = Some (Ok ([XNaN; XF 0; XF 0; XF 0], map snd (t_near t), before)).
Proof.
  intros Loc g query locate argsort angle solve rotated retries fuel mub before t cs Hne Hw Ht Hcs Hd Hr Hf.
  unfold bilinear_cell. destruct (leb_spec (nthR (map fst (t_near t)) 0) eps) as [N|_]; [unfold eps in N; lra|].
  destruct (ltb mub (nthR (map fst (t_near t)) 0)); [reflexivity|]. destruct fuel as [|fuel]; [lia|]. cbn [search]. cbn [start f_ok f_add orb]. destruct (Z.leb_spec retries 0); [lia|].
  assert (O : outside g false (t_lat t) (t_lon t) = true).
  { unfold outside. cbn [negb andb]. assert (M : t_lon t < rmin (longrib g)).
    { clear - Hne Hw Ht. destruct (longrib g) as [|a l]; [congruence|]. unfold rmin. assert (A : 180 < a) by (apply Hw; now left).
      assert (Hl : forall x, In x l -> 180 < x) by (intros x Hx; apply Hw; now right). clear Hne Hw. revert a A. induction l as [|y l IH]; intros a A; cbn [fold_left]; [lra|].
      apply IH; [intros x Hx; apply Hl; now right|]. apply Rmin_glb_lt; [exact A|]. apply Hl. now left. }
    destruct (ltb_spec (t_lon t) (rmin (longrib g))); [|lra]. rewrite !Bool.orb_true_r. reflexivity. }
  unfold body. cbn [start f_idx]. rewrite Hcs. cbn [rbind]. rewrite O. destruct fuel; reflexivity.
Qed.
Print Assumptions C106_west.
(** a source that crosses Greenwich with longitudes 0..360 is taken for a global
    one, however small *)
Theorem C106_greenwich : forall lats lon0 lon1 lons, lon0 <> lon1 ->
  (exists a, In a (lon0 :: lon1 :: lons) /\ a <= 0) -> (exists b, In b (lon0 :: lon1 :: lons) /\ 360 - Rabs (lon0 - lon1) <= b) ->
  is_global (mkSource lats (lon0 :: lon1 :: lons)) = Ok true.
Proof.
  intros lats lon0 lon1 lons Hd [a [Ha La]] [b [Hb Lb]]. rewrite is_global_cons.
  assert (M1 : b <= fold_left Rmax (lon0 :: lon1 :: lons) lon0) by (apply fold_max; now right). pose proof (min_le _ _ Ha) as M2.
  assert (P : 0 < Rabs (lon0 - lon1)) by (apply Rabs_pos_lt; lra). f_equal. destruct (ltb_spec (360 - (fold_left Rmax (lon0 :: lon1 :: lons) lon0 - rmin (lon0 :: lon1 :: lons))) (Rabs (lon0 - lon1) * (3 / 2))) as [_|N]; [reflexivity|].
  exfalso. apply N. lra.
Qed.
Print Assumptions C106_greenwich.

(** witness *)
Definition gw : source := mkSource [0; 0; -30; -30] [240; 300; 240; 300].
Definition ge : source := mkSource [0; 0; -30; -30] [240 - 360; 300 - 360; 240 - 360; 300 - 360].
Lemma gw_turned : turned gw ge.
Proof. split; [reflexivity|]. unfold gw, ge. cbn [longrib]. repeat (apply Forall2_cons; [lra|]). apply Forall2_nil. Qed.
Definition wt : @target space := near_of gw (tree (points gw)) 0 (-90).
Lemma gw_cosine : cosine 0 (-90) 0 240 = sqrt 3 / 2 /\ cosine 0 (-90) 0 300 = sqrt 3 / 2 /\ cosine 0 (-90) (-30) 240 = 3 / 4 /\ cosine 0 (-90) (-30) 300 = 3 / 4.
Proof.
  assert (Rm : rad (-30) = - (PI / 6)) by (unfold rad; field).
  unfold cosine. rewrite r0, Rm, sin_0, cos_0, sin_neg, cos_neg, c30.
  replace (rad (-90) - rad 240) with (PI / 6 + - 2 * PI) by (unfold rad; field). replace (rad (-90) - rad 300) with (- (PI / 6) + - 2 * PI) by (unfold rad; field).
  assert (P : forall x, cos (x + - 2 * PI) = cos x). { intro x. rewrite <- (cos_period (x + - 2 * PI) 1). f_equal. cbn [INR]. ring. }
  rewrite !P, cos_neg, c30. pose proof s3. repeat split; lra.
Qed.
Lemma wt_four : exists i j k l, t_near wt = map (fun i => (chord (sphere 0 (-90)) (nth (Z.to_nat i) (points gw) (0, 0, 0)), i)) [i; j; k; l] /\ Permutation [0; 1; 2; 3]%Z [i; j; k; l].
Proof.
  unfold wt, near_of. cbn [t_near]. destruct (tree_kdtree (points gw) (sphere 0 (-90)) 4%nat) as [o [P [_ ->]]]. change (List.length (points gw)) with 4%nat in *. cbn [Nat.sub repeat]. rewrite app_nil_r.
  assert (Lo : List.length o = 4%nat) by (rewrite <- (Permutation_length P); reflexivity). destruct o as [|i [|j [|k [|l [|]]]]]; try discriminate Lo.
  exists (Z.of_nat i), (Z.of_nat j), (Z.of_nat k), (Z.of_nat l). split; [reflexivity|]. change [0; 1; 2; 3]%Z with (map Z.of_nat (seq 0 4)). apply (Permutation_map Z.of_nat P).
Qed.
Lemma wt_far : / 10000000000 < nthR (map fst (t_near wt)) 0 <= 2.
Proof.
  destruct wt_four as [i [j [k [l [-> P]]]]]. cbn [map fst]. unfold nthR. cbn [nth].
  assert (Hi : In i [0; 1; 2; 3]%Z) by (apply (Permutation_in _ (Permutation_sym P)); now left).
  destruct gw_cosine as [Q0 [Q1 [Q2 Q3]]]. pose proof s3b.
  assert (B : forall c, c <= 9 / 10 -> 0 <= c -> / 10000000000 < sqrt (2 - 2 * c) <= 2).
  { intros c Hc Hc0. set (s := sqrt (2 - 2 * c)). assert (P0 : 0 <= s) by apply sqrt_pos. assert (E : s * s = 2 - 2 * c) by (apply sqrt_sqrt; lra). split; nra. }
  unfold points, gw. cbn [latgrib longrib zipw].
  destruct Hi as [<-|[<-|[<-|[<-|[]]]]]; cbv [Z.to_nat Pos.to_nat Pos.iter_op Init.Nat.add nth]; rewrite chord_sphere; rewrite ?Q0, ?Q1, ?Q2, ?Q3; apply B; lra.
Qed.
Lemma wt_corners : exists cs, mapM (corner_of gw (t_lon wt)) (map snd (t_near wt)) = Ok cs.
Proof.
  destruct wt_four as [i [j [k [l [-> P]]]]]. rewrite map_map. cbn [snd]. rewrite map_id.
  assert (H : forall x, In x [i; j; k; l] -> exists c, corner_of gw (t_lon wt) x = Ok c).
  { intros x Hx. apply (Permutation_in _ (Permutation_sym P)) in Hx. unfold corner_of, gw. cbn [latgrib longrib].
    destruct Hx as [<-|[<-|[<-|[<-|[]]]]]; cbv [py_index rbind Z.of_nat List.length Z.ltb Z.compare Z.to_nat nth_error Pos.to_nat Pos.iter_op Init.Nat.add]; destruct (correct_point _ _ _); eexists; reflexivity. }
  destruct (H i) as [c1 E1]; [cbn; tauto|]. destruct (H j) as [c2 E2]; [cbn; tauto|]. destruct (H k) as [c3 E3]; [cbn; tauto|]. destruct (H l) as [c4 E4]; [cbn; tauto|].
  cbn [mapM]. rewrite E1, E2, E3, E4. eexists. reflexivity.
Qed.
Theorem C106_refuted : ~ C106_full.
Proof.
  intro H.
  assert (G1 : is_global gw = Ok false) by (unfold gw; rewrite is_global_cons; unfold ltb; cbn [fold_left rmin]; unfold Rmax, Rmin, Rabs; rdec; reflexivity).
  assert (G2 : is_global ge = Ok false) by (unfold ge; rewrite is_global_cons; unfold ltb; cbn [fold_left rmin]; unfold Rmax, Rmin, Rabs; rdec; reflexivity).
  assert (Ho : honest gw (tree (points gw)) [wt]) by (apply honest_near; [reflexivity|]; intros t [<-|[]]; exists 0, (-90); reflexivity).
  specialize (H gw ge false false (tree (points gw)) isort (fun _ _ _ => 0) (fun _ _ _ => (0, 0)) false 1%Z 1%nat 2 None wt gw_turned Ho isort_ok G1 G2 ltac:(cbn [wt near_of t_lon]; lra)).
  destruct wt_corners as [cs Hcs].
  rewrite (C106_west space gw (tree (points gw)) aim isort (fun _ _ _ => 0) (fun _ _ _ => (0, 0)) false 1 1 2 None wt cs) in H; [|discriminate| | |exact Hcs|apply wt_far|lia|lia].
  - symmetry in H. apply C105_north in H; [destruct H as [q0 [H _]]; discriminate H|..].
    + destruct wt_four as [i [j [k [l [-> _]]]]]. reflexivity.
    + cbn [wt near_of t_lon]. lra.
    + cbn [ge longrib wt near_of t_lon]. intros lon [<-|[<-|[<-|[<-|[]]]]]; (split; [lra|]); exists 0%Z; unfold Rabs; destruct (Rcase_abs _); lra.
    + cbn [ge latgrib wt near_of t_lat]. intros lat [<-|[<-|[<-|[<-|[]]]]]; lra.
    + now left.
    + split; [exists (240 - 360); split; [now left|]|exists (300 - 360); split; [right; now left|]]; cbn [wt near_of t_lon]; lra.
    + apply wt_far.
  - cbn [gw longrib]. intros lon [<-|[<-|[<-|[<-|[]]]]]; lra.
  - cbn [wt near_of t_lon]. lra.
Qed.
Print Assumptions C106_refuted.
(** an American and a European source *)
Example C106_nonvacuous :
  turned gw ge /\ (forall lon, In lon (longrib gw) -> 180 < lon) /\ -90 <= 180 /\
  is_global (mkSource [50; 50; 50; 50] [359; 0; 1; 2]) = Ok true /\ is_global (mkSource [50; 50; 50; 50] [358; 359; 0; 1]) = Ok true /\ is_global (mkSource [50; 50; 50; 50] [-2; -1; 0; 1]) = Ok false.
Proof.
  split; [exact gw_turned|]. split; [cbn [gw longrib]; intros lon [<-|[<-|[<-|[<-|[]]]]]; lra|]. split; [lra|].
  split; [|split]; rewrite is_global_cons; unfold ltb; cbn [fold_left rmin]; unfold Rmax, Rmin, Rabs; rdec; reflexivity.
Qed.
