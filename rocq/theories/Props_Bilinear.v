(** * Props_Bilinear: C53, C54, C70, C71, C72 *)
From Verif Require Import Base Base_P Num Strings Xr Adw Bilinear Spec_Bilinear Bilinear_P Bilinear_P2 Bilinear_P3 Bilinear_P4 Bilinear_P5.
From Coq Require Import Psatz Permutation Sorting.
Local Open Scope R_scope.

Lemma py_index_In {A} (l : list A) i x : py_index l i = Ok x -> In x l.
Proof. unfold py_index. intro H. destruct ((if (i <? 0)%Z then (i + Z.of_nat (List.length l))%Z else i) <? 0)%Z; [discriminate|]. destruct (nth_error l _) eqn:N; [|discriminate]. apply nth_error_In in N. congruence. Qed.

(** ** C54: order of the corners *)
Theorem C54_permutation : forall argsort cs, List.length cs = 4%nat -> is_argsort (map sort_key cs) (argsort (map sort_key cs)) ->
  exists p1 p2 p3 p4, clockwise argsort cs = (p1, p2, p3, p4) /\ Permutation cs [p1; p2; p3; p4].
Proof. intros argsort cs L A. destruct (clockwise_spec argsort cs L A) as [p1 [p2 [p3 [p4 [E [P _]]]]]]. exists p1, p2, p3, p4. split; [exact E|exact P]. Qed.
Print Assumptions C54_permutation.
(** the four corners of any rectangle, given in any order: neighbours in the
    result are neighbours in the rectangle, first the south-west corner *)
Theorem C54_rectangle : forall argsort cs lat0 lat1 lon0 lon1, lat0 < lat1 -> lon0 < lon1 ->
  Permutation (map xy cs) [(lat0, lon0); (lat0, lon1); (lat1, lon0); (lat1, lon1)] -> is_argsort (map sort_key cs) (argsort (map sort_key cs)) ->
  exists p1 p2 p3 p4, clockwise argsort cs = (p1, p2, p3, p4) /\ Permutation cs [p1; p2; p3; p4] /\
    xy p1 = (lat0, lon0) /\ xy p3 = (lat1, lon1) /\ strictly_convex (xy p1) (xy p2) (xy p3) (xy p4) /\
    (lat1 - lat0 < 1000 * (lon1 - lon0) -> xy p2 = (lat0, lon1) /\ xy p4 = (lat1, lon0)).
Proof.
  intros argsort cs lat0 lat1 lon0 lon1 H1 H2 HR A. destruct (clockwise_rectangle argsort cs lat0 lat1 lon0 lon1 H1 H2 HR A) as [p1 [p2 [p3 [p4 [E [P [X1 [X3 X]]]]]]]]. exists p1, p2, p3, p4. repeat (split; [assumption|]).
  assert (Pr : 0 < (lat1 - lat0) * (lon1 - lon0)) by (apply Rmult_lt_0_compat; lra). rewrite X1, X3. split.
  - unfold strictly_convex, area2. destruct X as [[-> [-> _]]|[-> [-> _]]]; cbn [fst snd]; [right|left]; repeat split; lra.
  - intro L. destruct X as [[-> [-> _]]|[_ [_ G]]]; [split; reflexivity|lra].
Qed.
Print Assumptions C54_rectangle.

(** a stable insertion sort is a valid argsort: the hypotheses are met *)
Fixpoint ins (keys : list R) (i : nat) (l : list nat) : list nat :=
  match l with [] => [i] | j :: l' => if Rle_dec (nth i keys 0) (nth j keys 0) then i :: l else j :: ins keys i l' end.
Definition isort (keys : list R) : list nat := fold_right (ins keys) [] (seq 0 (List.length keys)).
Lemma ins_perm keys i l : Permutation (i :: l) (ins keys i l).
Proof. induction l as [|j l IH]; [reflexivity|]. cbn [ins]. destruct (Rle_dec _ _); [reflexivity|]. rewrite perm_swap. apply perm_skip. exact IH. Qed.
Lemma ins_sorted keys i l : StronglySorted (fun i j => nth i keys 0 <= nth j keys 0) l -> StronglySorted (fun i j => nth i keys 0 <= nth j keys 0) (ins keys i l).
Proof.
  induction l as [|j l IH]; intro S; [repeat constructor|]. cbn [ins]. inversion_clear S as [|? ? S' F]. destruct (Rle_dec (nth i keys 0) (nth j keys 0)) as [H|H].
  - constructor; [constructor; assumption|]. constructor; [exact H|]. eapply Forall_impl; [|exact F]. cbn beta. intros; lra.
  - constructor; [apply IH; exact S'|]. apply (Permutation_Forall (ins_perm keys i l)). constructor; [lra|exact F].
Qed.
Lemma isort_valid keys : is_argsort keys (isort keys).
Proof.
  unfold is_argsort, isort. induction (seq 0 (List.length keys)) as [|i l [IH1 IH2]]; cbn [fold_right]; [split; constructor|]. split; [rewrite <- ins_perm; apply perm_skip; exact IH1|apply ins_sorted; exact IH2].
Qed.
Example C54_nonvacuous : exists p1 p2 p3 p4,
  clockwise isort [mkCorner 10 20 7; mkCorner 0 0 1; mkCorner 10 0 5; mkCorner 0 20 3] = (p1, p2, p3, p4) /\ map cidx [p1; p2; p3; p4] = [1; 3; 7; 5]%Z.
Proof.
  destruct (C54_rectangle isort [mkCorner 10 20 7; mkCorner 0 0 1; mkCorner 10 0 5; mkCorner 0 20 3] 0 10 0 20 ltac:(lra) ltac:(lra)) as [p1 [p2 [p3 [p4 [E [P [X1 [X3 [_ X]]]]]]]]].
  - cbn [map xy clat clon]. apply NoDup_Permutation.
    + repeat constructor; cbn; intro H; repeat destruct H as [H|H]; try contradiction; injection H; intros; lra.
    + repeat constructor; cbn; intro H; repeat destruct H as [H|H]; try contradiction; injection H; intros; lra.
    + intro x. cbn. tauto.
  - apply isort_valid.
  - destruct (X ltac:(lra)) as [X2 X4]. exists p1, p2, p3, p4. split; [exact E|].
    assert (I : forall p, In p [p1; p2; p3; p4] -> p = mkCorner 10 20 7 \/ p = mkCorner 0 0 1 \/ p = mkCorner 10 0 5 \/ p = mkCorner 0 20 3).
    { intros p Hp. apply (Permutation_in _ (Permutation_sym P)) in Hp. cbn in Hp. intuition. }
    pose proof (I p1 ltac:(cbn; tauto)) as I1. pose proof (I p2 ltac:(cbn; tauto)) as I2. pose proof (I p3 ltac:(cbn; tauto)) as I3. pose proof (I p4 ltac:(cbn; tauto)) as I4.
    clear - X1 X2 X3 X4 I1 I2 I3 I4.
    destruct I1 as [-> | [-> | [-> | ->]]]; cbn [xy clat clon] in X1; try (exfalso; injection X1; intros; lra). destruct I2 as [-> | [-> | [-> | ->]]]; cbn [xy clat clon] in X2; try (exfalso; injection X2; intros; lra).
    destruct I3 as [-> | [-> | [-> | ->]]]; cbn [xy clat clon] in X3; try (exfalso; injection X3; intros; lra). destruct I4 as [-> | [-> | [-> | ->]]]; cbn [xy clat clon] in X4; try (exfalso; injection X4; intros; lra). reflexivity.
Qed.

(** ** C70: the corners are drawn at the right place *)
Definition C70_full : Prop := forall lo lat lon lat' lon', -180 <= lo <= 360 -> -180 <= lon <= 360 -> correct_point lo lat lon = (lat', lon') ->
  same_place_on_earth lat lon lat' lon' /\ Rabs (lo - lon') <= 90.
Theorem C70_partial : forall lo lat lon lat' lon', -180 <= lo <= 180 -> -180 <= lon <= 360 ->
  (lat = 0 -> exists k, Rabs (lo - (lon + 360 * IZR k)) < 90) -> correct_point lo lat lon = (lat', lon') ->
  same_place_on_earth lat lon lat' lon' /\ Rabs (lo - lon') <= 90 /\ seen_from lo lat lon (lat', lon').
Proof.
  intros lo lat lon lat' lon' H1 H2 H3 E. assert (K : lat <> 0 \/ Rabs (lo - reference lo (to180 lon)) <= 90).
  { destruct (Req_dec lat 0) as [Z|Z]; [right; apply near_reference; auto|left; exact Z]. }
  split; [exact (correct_point_same _ _ _ _ _ E K)|]. split; [exact (correct_point_near _ _ _ _ _ H1 H2 E)|]. rewrite <- E. apply correct_point_seen; assumption.
Qed.
Print Assumptions C70_partial.
(** the same place for any longitudes, away from the equator *)
Theorem C70_place_partial : forall lo lat lon lat' lon', lat <> 0 -> correct_point lo lat lon = (lat', lon') -> same_place_on_earth lat lon lat' lon'.
Proof. intros lo lat lon lat' lon' N E. exact (correct_point_same _ _ _ _ _ E (or_introl N)). Qed.
Print Assumptions C70_place_partial.
Ltac plain t := lazymatch t with context [Rlt_dec _ _] => fail | context [Rle_dec _ _] => fail | context [Rcase_abs _] => fail | context [Req_EM_T _ _] => fail | _ => idtac end.
Ltac rdec := cbn [fst snd]; repeat (match goal with
  | |- context [Rlt_dec ?a ?b] => plain a; plain b; destruct (Rlt_dec a b); try (exfalso; lra)
  | |- context [Rle_dec ?a ?b] => plain a; plain b; destruct (Rle_dec a b); try (exfalso; lra)
  | |- context [Rcase_abs ?a] => plain a; destruct (Rcase_abs a); try (exfalso; lra)
  | |- context [Req_EM_T ?a ?b] => plain a; plain b; destruct (Req_EM_T a b); try (exfalso; lra)
  end; cbn [fst snd]).
(** a point on the equator, 120 degrees of longitude away: drawn at the other side
    of the earth *)
Theorem C70_equator_refuted : correct_point 0 0 120 = (0, -60) /\ ~ same_place_on_earth 0 120 0 (-60).
Proof.
  split.
  - pose proof (mod360_is (120 + 180) 0 ltac:(lra)) as M. unfold correct_point, reference, to180, Rabs, rsign. rdec. f_equal; lra.
  - intros [_ [H _]]. assert (E0 : rad 0 = 0) by (unfold rad; field). rewrite E0, cos_0, !Rmult_1_l in H.
    assert (E1 : rad 120 = PI - PI / 3) by (unfold rad; field). assert (E2 : rad (-60) = - (PI / 3)) by (unfold rad; field). rewrite E1, E2, sin_neg, sin_PI_x in H.
    assert (P : 0 < sin (PI / 3)) by (apply sin_gt_0; pose proof PI_RGT_0; lra). lra.
Qed.
Print Assumptions C70_equator_refuted.
(** a target at longitude 350 (instead of -10) and a source at longitude 5 *)
Theorem C70_longitude_refuted : correct_point 350 50 5 = (130, 185) /\ Rabs (350 - 185) > 90 /\ Rabs (350 - (5 + 360)) <= 90.
Proof.
  split; [|unfold Rabs; rdec; lra]. pose proof (mod360_is (5 + 180) 0 ltac:(lra)) as M. unfold correct_point, reference, to180, Rabs, rsign. rdec. f_equal; lra.
Qed.
Print Assumptions C70_longitude_refuted.
Theorem C70_refuted : ~ C70_full.
Proof. intro H. destruct C70_equator_refuted as [E N]. apply N. apply (H 0 0 120 0 (-60)); [lra|lra|exact E]. Qed.
Print Assumptions C70_refuted.
(** across the date line and over the pole *)
Example C70_nonvacuous : correct_point (-179) 40 179 = (40, -181) /\ correct_point 10 80 (-170) = (100, 10).
Proof.
  pose proof (mod360_is (-170 + 180) 0 ltac:(lra)) as M. split; unfold correct_point, reference, to180, Rabs, rsign; rdec; f_equal; lra.
Qed.

(** ** C53: the rows of the table *)
Section C53.
  Context {Loc : Type} (query : Loc -> nat -> list Z) (locate : R -> R -> Loc)
          (argsort : list R -> list nat) (angle : R * R -> R * R -> R * R -> R) (solve : quad -> R -> R -> R * R)
          (g : source) (global rotated : bool) (max_retries : Z) (fuel : nat) (mub : R).
  Notation cell := (bilinear_cell query locate argsort angle solve g global rotated max_retries fuel mub).
  Notation cells_ := (bilinear_cells query locate argsort angle solve g global rotated max_retries fuel mub).
  (** a row: no data, or four convex weights *)
  Definition row_ok (r : list xr * list Z) : Prop := List.length (snd r) = 4%nat /\ (fst r = [XNaN; XF 0; XF 0; XF 0] \/ exists ws, fst r = map XF ws /\ List.length ws = 4%nat /\ convex_weights ws).
  Lemma first_ok idx : List.length idx = 4%nat -> row_ok (first_row, idx).
  Proof. intro L. split; [exact L|]. right. exists [1; 0; 0; 0]. split; [reflexivity|]. split; [reflexivity|]. split; [repeat (apply Forall_cons; [lra|]); apply Forall_nil|cbn [total]; lra]. Qed.
  Lemma quad_ok q la lo : row_ok (quad_row solve q la lo).
  Proof.
    destruct (quad_row_weights solve q la lo) as [a [b [Ha [Hb [_ [_ ->]]]]]]. split; [destruct q as [[[? ?] ?] ?]; reflexivity|]. right. exists (weights4 a b). split; [reflexivity|]. split; [reflexivity|]. apply weights4_convex; assumption.
  Qed.
  Theorem C53_weights : forall before t r q, List.length (t_near t) = 4%nat -> cell before t = Some (Ok (r, q)) -> row_ok r.
  Proof.
    intros before t r q L H. unfold bilinear_cell in H. destruct (leb _ _); [assert (E : r = (first_row, map snd (t_near t))) by congruence; subst r; apply first_ok; now rewrite map_length|].
    destruct (ltb _ _); [assert (E : r = (nan_row, map snd (t_near t))) by congruence; subst r; split; [cbn [snd]; now rewrite map_length|left; reflexivity]|].
    destruct (search _ _ _ _ _ _ _ _ _ _ _ _ _) as [[st|e]|] eqn:S; try discriminate.
    assert (End : ending argsort g global rotated max_retries (t_lat t) (t_lon t) before st \/ f_quad st = before /\ f_done st = None).
    { destruct (Z_lt_le_dec 0 max_retries) as [P|P].
      - left. eapply (search_ending query locate argsort angle solve g global rotated max_retries); [| | | |exact S]; try reflexivity; [cbn; now rewrite map_length|]. left. split; [reflexivity|]. right. exact P.
      - right. destruct fuel; cbn [search] in S; cbn [start f_ok f_add] in S; (destruct (Z.leb_spec max_retries 0); [|lia]); cbn [orb] in S; inversion S; subst; split; reflexivity. }
    unfold finish in H. destruct End as [End|[Q D]].
    - inversion End as [idx Out D Li|idx Bey D Li|idx cs D O Li C Q A|idx cs D O G Li C Q|D O G Ck Q]; rewrite D in H.
      + assert (E : r = (nan_row, idx)) by congruence. subst r. split; [exact Li|left; reflexivity].
      + assert (E : r = (first_row, idx)) by congruence. subst r. apply first_ok. exact Li.
      + rewrite Q in H. assert (E : r = quad_row solve (clockwise argsort cs) (t_lat t) (t_lon t)) by congruence. subst r. apply quad_ok.
      + rewrite Q in H. assert (E : r = quad_row solve (clockwise argsort cs) (t_lat t) (t_lon t)) by congruence. subst r. apply quad_ok.
      + destruct (f_quad st) as [q'|]; [|discriminate]. assert (E : r = quad_row solve q' (t_lat t) (t_lon t)) by congruence. subst r. apply quad_ok.
    - rewrite D in H. destruct (f_quad st) as [q'|]; [|discriminate]. assert (E : r = quad_row solve q' (t_lat t) (t_lon t)) by congruence. subst r. apply quad_ok.
  Qed.
  (** the whole table *)
  Theorem C53_table : forall cells before table, (forall t, In t cells -> List.length (t_near t) = 4%nat) -> cells_ before cells = Some (Ok table) -> List.length table = List.length cells /\ Forall row_ok table.
  Proof.
    induction cells as [|t cells IH]; intros before table L H; cbn [bilinear_cells] in H; [assert (table = []) by congruence; subst; split; [reflexivity|constructor]|].
    destruct (cell before t) as [[[r q]|e]|] eqn:C; try discriminate. destruct (cells_ q cells) as [[rs|e]|] eqn:E; try discriminate. assert (table = r :: rs) by congruence. subst table.
    destruct (IH q rs (fun t' H' => L t' (or_intror H')) E) as [Len F]. split; [cbn [List.length]; now rewrite Len|]. constructor; [|exact F]. apply (C53_weights before t r q); [apply L; left; reflexivity|exact C].
  Qed.
  (** on a source point: its value *)
  Theorem C53_coincident : forall before t d i rest, t_near t = (d, i) :: rest -> d <= / 10000000000 -> cell before t = Some (Ok ([XF 1; XF 0; XF 0; XF 0], i :: map snd rest, before)).
  Proof. intros before t d i rest E H. unfold bilinear_cell. rewrite E. cbn [map fst snd nthR nth]. unfold nthR. cbn [nth]. destruct (leb_spec d eps) as [|N]; [reflexivity|]. exfalso. apply N. exact H. Qed.

  (** a quadrilateral was found *)
  Definition found (before : option quad) (t : @target Loc) (q : quad) : Prop :=
    (eps < nthR (map fst (t_near t)) 0 <= mub) /\ exists st, search query locate argsort angle g global rotated max_retries fuel (t_loc t) (t_lat t) (t_lon t) (start rotated before t) = Some (Ok st) /\ f_ok st = true /\ f_done st = None /\ f_quad st = Some q.
  (** the solver finds coordinates in the unit square if there are any *)
  Definition finds_root (q : quad) (la lo : R) : Prop :=
    (exists a b, 0 <= a <= 1 /\ 0 <= b <= 1 /\ fn_alpha_beta q la lo a b = (0, 0)) ->
    0 <= fst (solve q la lo) <= 1 /\ 0 <= snd (solve q la lo) <= 1 /\ fn_alpha_beta q la lo (fst (solve q la lo)) (snd (solve q la lo)) = (0, 0).
  Definition valid_argsort : Prop := forall keys, List.length keys = 4%nat -> is_argsort keys (argsort keys).
  (** the row gives the value at the target of every affine function of latitude
      and longitude; the points are drawn around the target *)
  Definition reproduces (la lo : R) (ws : list R) (idx : list Z) : Prop := exists ps : list plane,
    Forall2 (fun i p => exists lat lon, py_index (latgrib g) i = Ok lat /\ py_index (longrib g) i = Ok lon /\ seen_from lo lat lon p) idx ps /\
    forall a b c, interpolated ws (map (affine a b c) ps) = affine a b c (la, lo).

  Lemma found_facts before t q : List.length (t_near t) = 4%nat -> found before t q -> exists idx cs, List.length idx = 4%nat /\ corners_are g (t_lon t) idx cs /\ q = clockwise argsort cs /\ accepted argsort rotated (t_lat t) (t_lon t) cs.
  Proof.
    intros L [_ [st [S [O [D Q]]]]].
    destruct (Z_lt_le_dec 0 max_retries) as [P|P].
    - assert (End : ending argsort g global rotated max_retries (t_lat t) (t_lon t) before st).
      { eapply (search_ending query locate argsort angle solve g global rotated max_retries); [| | | |exact S]; try reflexivity; [cbn; now rewrite map_length|]. left. split; [reflexivity|]. right. exact P. }
      inversion End as [idx Out D' Li|idx Bey D' Li|idx cs D' O' Li C Q' A|idx cs D' O' G Li C Q'|D' O' G Ck Q']; try congruence. exists idx, cs. repeat (split; [assumption|]). split; [congruence|exact A].
    - exfalso. destruct fuel; cbn [search] in S; cbn [start f_ok f_add] in S; (destruct (Z.leb_spec max_retries 0); [|lia]); cbn [orb] in S; inversion S; subst; discriminate O.
  Qed.
  (** the quadrilateral found: four source points in cyclic order, convex (not
      checked for rotated grids), around the target *)
  Theorem C53_found : forall before t q, valid_argsort -> List.length (t_near t) = 4%nat -> found before t q -> rotated = false ->
    let '(p1, p2, p3, p4) := q in
    (forall c, In c [p1; p2; p3; p4] -> corner_of g (t_lon t) (cidx c) = Ok c) /\ strictly_convex (xy p1) (xy p2) (xy p3) (xy p4) /\ in_hull (t_lat t, t_lon t) (qxy q).
  Proof.
    intros before t q VA L F R. destruct (found_facts before t q L F) as [idx [cs [Li [C [-> A]]]]]. destruct (mapM_corners _ _ _ _ C) as [E1 E2].
    assert (Lc : List.length cs = 4%nat) by (rewrite <- (map_length cidx), E1; exact Li).
    destruct (clockwise_spec argsort cs Lc (VA (map sort_key cs) (eq_trans (map_length _ _) Lc))) as [p1 [p2 [p3 [p4 [Eq [P _]]]]]]. unfold accepted in A. rewrite Eq in A |- *. destruct A as [V I].
    split; [intros c Hc; apply E2; apply (Permutation_in _ (Permutation_sym P)); exact Hc|].
    assert (V' : strictly_convex (xy p1) (xy p2) (xy p3) (xy p4)) by (destruct V as [V|V]; [apply is_convex_spec; exact V|congruence]). split; [exact V'|]. apply in_quad_hull; assumption.
  Qed.
  (** ... so there are coordinates in the unit square, and only one pair *)
  Theorem C53_one_solution : forall before t q, valid_argsort -> List.length (t_near t) = 4%nat -> found before t q -> rotated = false ->
    exists a b, (0 <= a <= 1 /\ 0 <= b <= 1 /\ fn_alpha_beta q (t_lat t) (t_lon t) a b = (0, 0)) /\
      forall a' b', 0 <= a' <= 1 -> 0 <= b' <= 1 -> fn_alpha_beta q (t_lat t) (t_lon t) a' b' = (0, 0) -> a' = a /\ b' = b.
  Proof.
    intros before t q VA L F R. pose proof (C53_found before t q VA L F R) as H. destruct q as [[[p1 p2] p3] p4]. destruct H as [_ [V I]].
    destruct (reached _ _ _ _ _ V I) as [a [b [Ha [Hb E]]]]. exists a, b. split; [split; [exact Ha|split; [exact Hb|]]; apply fn_combination; exact E|].
    intros a' b' Ha' Hb' E'. apply fn_combination in E'. apply (root_unique (xy p1) (xy p2) (xy p3) (xy p4)); try assumption. rewrite E. exact E'.
  Qed.
  Lemma found_row before t q : List.length (t_near t) = 4%nat -> found before t q -> cell before t = Some (Ok (quad_row solve q (t_lat t) (t_lon t), Some q)).
  Proof.
    intros L [[D1 D2] [st [S [O [D Q]]]]]. unfold bilinear_cell. destruct (leb_spec (nthR (map fst (t_near t)) 0) eps); [lra|]. destruct (ltb_spec mub (nthR (map fst (t_near t)) 0)); [lra|]. rewrite S. unfold finish. rewrite D, Q. reflexivity.
  Qed.
  Theorem C53_affine_partial : forall before t q, valid_argsort -> List.length (t_near t) = 4%nat -> found before t q -> rotated = false -> finds_root q (t_lat t) (t_lon t) ->
    -180 <= t_lon t <= 180 -> (forall lon, In lon (longrib g) -> -180 <= lon <= 360) ->
    (forall i lat lon, py_index (latgrib g) i = Ok lat -> py_index (longrib g) i = Ok lon -> In i (map cidx (corners q)) -> lat = 0 -> exists k, Rabs (t_lon t - (lon + 360 * IZR k)) < 90) ->
    exists ws idx, cell before t = Some (Ok (map XF ws, idx, Some q)) /\ convex_weights ws /\ reproduces (t_lat t) (t_lon t) ws idx.
  Proof.
    intros before t q VA L F R FR Hlo Hlons Heq. rewrite (found_row before t q L F). destruct (quad_row_weights solve q (t_lat t) (t_lon t)) as [a [b [Ha [Hb [Ea [Eb ->]]]]]].
    exists (weights4 a b), (map cidx (corners q)). split; [reflexivity|]. split; [apply weights4_convex; assumption|].
    destruct (C53_one_solution before t q VA L F R) as [a0 [b0 [[Ha0 [Hb0 E0]] U]]]. destruct (FR (ex_intro _ a0 (ex_intro _ b0 (conj Ha0 (conj Hb0 E0))))) as [R1 [R2 R3]].
    rewrite (clip_id _ R1) in Ea. rewrite (clip_id _ R2) in Eb. rewrite <- Ea, <- Eb in R3. apply fn_combination in R3. exists (qxy q). split.
    - pose proof (C53_found before t q VA L F R) as H. destruct q as [[[p1 p2] p3] p4]. destruct H as [H _]. unfold qxy. cbn [corners] in *.
      assert (G : forall c, In c [p1; p2; p3; p4] -> exists lat lon, py_index (latgrib g) (cidx c) = Ok lat /\ py_index (longrib g) (cidx c) = Ok lon /\ seen_from (t_lon t) lat lon (xy c)).
      { intros c Hc. destruct (corner_seen _ _ _ _ (H c Hc)) as [lat [lon [E1 [E2 [_ E3]]]]]. exists lat, lon. split; [exact E1|]. split; [exact E2|]. rewrite E3.
        assert (Hlon : -180 <= lon <= 360). { apply Hlons. exact (py_index_In _ _ _ E2). }
        apply correct_point_seen; [exact Hlo|exact Hlon|]. destruct (Req_dec lat 0) as [Z|Z]; [right|left; exact Z]. apply near_reference; [exact Hlo|exact Hlon|]. apply (Heq (cidx c) lat lon E1 E2); [|exact Z]. change (In (cidx c) (map cidx [p1; p2; p3; p4])). apply in_map. exact Hc. }
      revert G. clear. generalize [p1; p2; p3; p4]. induction l as [|c l IH]; intro G; [constructor|]. constructor; [apply G; left; reflexivity|]. apply IH. intros c' Hc'. apply G. right. exact Hc'.
    - intros x y z. rewrite interpolated_affine by (destruct q as [[[? ?] ?] ?]; reflexivity). rewrite R3. assert (T : total (weights4 a b) = 1) by (apply weights4_convex; assumption). rewrite T. unfold affine. cbn [fst snd]. ring.
  Qed.
  (** a target at a corner of the quadrilateral: the value of this corner *)
  Theorem C53_corner_partial : forall before t p1 p2 p3 p4 c, valid_argsort -> List.length (t_near t) = 4%nat -> found before t (p1, p2, p3, p4) -> rotated = false -> finds_root (p1, p2, p3, p4) (t_lat t) (t_lon t) ->
    In c [p1; p2; p3; p4] -> clat c = t_lat t -> clon c = t_lon t ->
    exists ws q, cell before t = Some (Ok (map XF ws, map cidx [p1; p2; p3; p4], q)) /\
      forall values : Z -> R, interpolated ws (map values (map cidx [p1; p2; p3; p4])) = values (cidx c).
  Proof.
    intros before t p1 p2 p3 p4 c VA L F R FR Hc E1 E2. rewrite (found_row before t _ L F). destruct (quad_row_weights solve (p1, p2, p3, p4) (t_lat t) (t_lon t)) as [a [b [Ha [Hb [Ea [Eb ->]]]]]].
    exists (weights4 a b), (Some (p1, p2, p3, p4)). split; [reflexivity|]. destruct (C53_one_solution before t _ VA L F R) as [a0 [b0 [[Ha0 [Hb0 E0]] U]]]. destruct (FR (ex_intro _ a0 (ex_intro _ b0 (conj Ha0 (conj Hb0 E0))))) as [R1 [R2 R3]].
    rewrite (clip_id _ R1) in Ea. rewrite (clip_id _ R2) in Eb. rewrite <- Ea in R3, R1. rewrite <- Eb in R3, R2. destruct (U a b R1 R2 R3) as [-> ->].
    assert (K : forall a' b', (a' = 0 \/ a' = 1) -> (b' = 0 \/ b' = 1) -> fn_alpha_beta (p1, p2, p3, p4) (t_lat t) (t_lon t) a' b' = (0, 0) -> a0 = a' /\ b0 = b').
    { intros a' b' A B E. destruct (U a' b' ltac:(lra) ltac:(lra) E) as [-> ->]. split; reflexivity. }
    unfold weights4. cbn [map interpolated]. intro values. destruct Hc as [<-|[<-|[<-|[<-|[]]]]].
    - destruct (K 0 0 ltac:(lra) ltac:(lra)) as [-> ->]; [unfold fn_alpha_beta; rewrite E1, E2; f_equal; ring|]. ring.
    - destruct (K 1 0 ltac:(lra) ltac:(lra)) as [-> ->]; [unfold fn_alpha_beta; rewrite E1, E2; f_equal; ring|]. ring.
    - destruct (K 1 1 ltac:(lra) ltac:(lra)) as [-> ->]; [unfold fn_alpha_beta; rewrite E1, E2; f_equal; ring|]. ring.
    - destruct (K 0 1 ltac:(lra) ltac:(lra)) as [-> ->]; [unfold fn_alpha_beta; rewrite E1, E2; f_equal; ring|]. ring.
  Qed.

  (** ** C71: a cell has the same row in any place of the target *)
  Theorem C71_partial : forall before t r q, cell None t = Some (Ok (r, q)) -> exists q', cell before t = Some (Ok (r, q')).
  Proof. intros before t r q H. exact (cell_place query locate argsort angle solve g global rotated max_retries fuel mub t r q before H). Qed.
  (** a table whose cells can all be computed alone is the list of their rows *)
  Theorem C71_table_partial : forall cells before rows, Forall2 (fun t r => exists q, cell None t = Some (Ok (r, q))) cells rows -> cells_ before cells = Some (Ok rows).
  Proof.
    intros cells bf rows H. revert bf. induction H as [|t r cells rows [q Hq] H IH]; intro bf; [reflexivity|]. cbn [bilinear_cells]. destruct (C71_partial bf t r q Hq) as [q' ->]. rewrite IH. reflexivity.
  Qed.
End C53.
Print Assumptions C53_weights. Print Assumptions C53_table. Print Assumptions C53_coincident. Print Assumptions C53_found. Print Assumptions C53_one_solution. Print Assumptions C53_affine_partial. Print Assumptions C53_corner_partial. Print Assumptions C71_partial. Print Assumptions C71_table_partial.
