(** * Props_Bilinear8: failures of the bilinear search (C107), the points it
    replaces (C108) *)
From Verif Require Import Base Base_P Num Strings Xr Adw Bilinear Spec_Bilinear Bilinear_P Bilinear_P2 Bilinear_P3 Bilinear_P4 Bilinear_P5 Bilinear_P6 Bilinear_P7 Props_Bilinear Props_Bilinear2 Props_Bilinear3 Props_Bilinear6.
From Coq Require Import Psatz Permutation Sorting.
Local Open Scope R_scope.

(** ** an angle *)
Lemma sum_sq_pos x y : x <> 0 \/ y <> 0 -> 0 < x * x + y * y.
Proof. intros [H|H]; apply Rlt_0_sqr in H; unfold Rsqr in H; [pose proof (Rle_0_sqr y) as Q|pose proof (Rle_0_sqr x) as Q]; unfold Rsqr in Q; lra. Qed.
Definition true_angle (a b c : plane) : R :=
  let d := dotv (minus a b) (minus c b) in let x := crossv (minus a b) (minus c b) in
  let th := acos (d / sqrt (d * d + x * x)) * 180 / PI in if Rle_dec 0 x then th else 360 - th.
Lemma true_angle_ok : is_angle true_angle.
Proof.
  intros a b c Ha Hc. unfold true_angle. cbn zeta. set (d := dotv (minus a b) (minus c b)). set (x := crossv (minus a b) (minus c b)). set (n := sqrt (d * d + x * x)).
  assert (L : 0 < d * d + x * x).
  { assert (E : d * d + x * x = dotv (minus a b) (minus a b) * dotv (minus c b) (minus c b)) by (unfold d, x, dotv, crossv, minus; cbn [fst snd]; ring). rewrite E.
    assert (P : forall p, p <> b -> 0 < dotv (minus p b) (minus p b)).
    { intros p Hp. unfold dotv, minus. cbn [fst snd]. apply sum_sq_pos. destruct (Req_dec (fst p - fst b) 0) as [Z1|Z1]; [destruct (Req_dec (snd p - snd b) 0) as [Z2|Z2]|]; [exfalso; apply Hp; apply plane_eq; lra|now right|now left]. }
    apply Rmult_lt_0_compat; apply P; assumption. }
  assert (Hn : 0 < n) by (apply sqrt_lt_R0; exact L). assert (N2 : n * n = d * d + x * x) by (apply sqrt_sqrt; lra).
  assert (Q : (d / n) * (d / n) + (x / n) * (x / n) = 1) by (field_simplify; [rewrite <- Rsqr_pow2, <- Rsqr_pow2, <- Rsqr_pow2; unfold Rsqr; rewrite N2; field; lra|lra]).
  assert (B : -1 <= d / n <= 1) by nra.
  pose proof (acos_bound (d / n)) as AB. pose proof PI_RGT_0 as PP. pose proof (cos_acos (d / n) B) as CA. pose proof (sin_acos (d / n) B) as SA.
  assert (SX : sqrt (1 - (d / n)²) = Rabs x / n).
  { replace (1 - (d / n)²) with ((x / n)²) by (unfold Rsqr; lra). rewrite sqrt_Rsqr_abs. unfold Rdiv. rewrite Rabs_mult, (Rabs_right (/ n)); [reflexivity|]. apply Rle_ge, Rlt_le, Rinv_0_lt_compat. exact Hn. }
  rewrite SX in SA. set (th := acos (d / n)) in *.
  assert (R1 : rad (th * 180 / PI) = th) by (unfold rad; field; lra).
  assert (T : 0 <= th * 180 / PI <= 180).
  { split; [apply Rmult_le_pos; [lra|apply Rlt_le, Rinv_0_lt_compat; lra]|]. apply Rmult_le_reg_r with PI; [lra|]. unfold Rdiv. rewrite Rmult_assoc, Rinv_l by lra. lra. }
  destruct (Rle_dec 0 x) as [X|X].
  - split; [lra|]. exists n. split; [exact Hn|]. rewrite R1, CA, SA, Rabs_right by lra. split; field; lra.
  - assert (Tp : 0 < th). { destruct AB as [[AB|AB] _]; [exact AB|]. exfalso. rewrite <- AB, sin_0 in SA. assert (0 < Rabs x / n) by (apply Rmult_lt_0_compat; [apply Rabs_pos_lt; lra|apply Rinv_0_lt_compat; exact Hn]). lra. }
    assert (Tp' : 0 < th * 180 / PI) by (apply Rmult_lt_0_compat; [lra|apply Rinv_0_lt_compat; lra]).
    split; [lra|]. exists n. split; [exact Hn|].
    assert (R2 : rad (360 - th * 180 / PI) = - th + 2 * IZR 1 * PI) by (unfold rad; field; lra).
    rewrite R2. replace (- th + 2 * IZR 1 * PI) with (- th + 2 * INR 1 * PI) by (cbn [INR]; reflexivity). rewrite cos_period, sin_period, cos_neg, sin_neg, CA, SA, Rabs_left by lra. split; field; lra.
Qed.

(** ** C107 *)
(** the source has no two points at one place, and those on the equator are less
    than a quarter turn away *)
Definition apart (g : source) (lo : R) : Prop := NoDup (points g) /\ (forall lon, In lon (longrib g) -> -180 <= lon <= 360) /\
  Forall2 (fun lat lon => lat = 0 -> exists k, Rabs (lo - (lon + 360 * IZR k)) < 90) (latgrib g) (longrib g).
(** full statement: every target cell that is not too far gets a row *)
Definition C107_full : Prop := forall g query argsort angle solve global rotated retries mub t,
  honest g query [t] -> valid_argsort argsort -> is_angle angle -> is_global g = Ok global -> -180 <= t_lon t <= 180 -> apart g (t_lon t) ->
  (0 < retries)%Z -> (retries + 6 <= Z.of_nat (List.length (latgrib g)))%Z ->
  exists fuel r, bilinear_cell query aim argsort angle solve g global rotated retries fuel mub None t = Some (Ok r).

Lemma zipw_nth {A B C} (f : A -> B -> C) : forall l l' i a b, nth_error l i = Some a -> nth_error l' i = Some b -> nth_error (zipw f l l') i = Some (f a b).
Proof. induction l as [|x l IH]; intros [|y l'] [|i] a b H H'; try discriminate; cbn in *; [congruence|auto]. Qed.
Lemma zipw_length {A B C} (f : A -> B -> C) : forall l l', List.length l = List.length l' -> List.length (zipw f l l') = List.length l.
Proof. induction l as [|x l IH]; intros [|y l'] H; try discriminate; cbn in *; [reflexivity|]. f_equal. apply IH. congruence. Qed.
Lemma f2_nth {A B} (P : A -> B -> Prop) l l' : Forall2 P l l' -> forall i a b, nth_error l i = Some a -> nth_error l' i = Some b -> P a b.
Proof. induction 1 as [|x y l l' H F IH]; intros [|i] a b Ha Hb; try discriminate; cbn in *; [congruence|eauto]. Qed.
Lemma py_index_at {A} (l : list A) i a : (0 <= i)%Z -> py_index l i = Ok a -> nth_error l (Z.to_nat i) = Some a.
Proof. intros Hi H. rewrite <- (Z2Nat.id i Hi) in H. rewrite py_index_nat in H. destruct (nth_error l (Z.to_nat i)); congruence. Qed.

Section failures.
  Context (query : space -> nat -> list Z) (argsort : list R -> list nat) (angle : plane -> plane -> plane -> R) (g : source) (global rotated : bool) (retries : Z) (la lo : R).
  Hypothesis Hlen : List.length (latgrib g) = List.length (longrib g).
  Hypothesis Htree : kdtree (points g) query.
  Hypothesis Hsort : valid_argsort argsort.
  Hypothesis Hangle : is_angle angle.
  Hypothesis Hlo : -180 <= lo <= 180.
  Hypothesis Hapart : apart g lo.
  Hypothesis Hmany : (retries + 6 <= Z.of_nat (List.length (latgrib g)))%Z.
  Notation size := (List.length (latgrib g)).
  Lemma points_size : List.length (points g) = size. Proof. apply zipw_length. exact Hlen. Qed.
  Definition inside (idx : list Z) : Prop := List.length idx = 4%nat /\ forall i, In i idx -> (0 <= i < Z.of_nat size)%Z.
  Lemma corner_ok i : (0 <= i < Z.of_nat size)%Z -> exists c, corner_of g lo i = Ok c.
  Proof.
    intro H. rewrite <- (Z2Nat.id i) by lia. unfold corner_of. rewrite !py_index_nat.
    destruct (nth_error (latgrib g) (Z.to_nat i)) as [lat|] eqn:E1; [|apply nth_error_None in E1; lia]. destruct (nth_error (longrib g) (Z.to_nat i)) as [lon|] eqn:E2; [|apply nth_error_None in E2; lia].
    cbn [rbind]. destruct (correct_point lo lat lon). eexists. reflexivity.
  Qed.
  Lemma corners_ok idx : (forall i, In i idx -> (0 <= i < Z.of_nat size)%Z) -> exists cs, mapM (corner_of g lo) idx = Ok cs.
  Proof.
    induction idx as [|i idx IH]; intro H; cbn [mapM]; [eexists; reflexivity|]. destruct (corner_ok i (H i (or_introl eq_refl))) as [c ->]. cbn [rbind].
    destruct (IH (fun j Hj => H j (or_intror Hj))) as [cs ->]. cbn [rbind]. eexists. reflexivity.
  Qed.
  Lemma drawn_once i j c : (0 <= i < Z.of_nat size)%Z -> (0 <= j < Z.of_nat size)%Z -> forall c', corner_of g lo i = Ok c -> corner_of g lo j = Ok c' -> xy c = xy c' -> i = j.
  Proof.
    intros Hi Hj c' Ei Ej E. destruct Hapart as [N [Hr He]].
    assert (Place : forall k ck, (0 <= k < Z.of_nat size)%Z -> corner_of g lo k = Ok ck -> exists lat lon, nth_error (points g) (Z.to_nat k) = Some (sphere lat lon) /\ sphere lat lon = sphere (fst (xy ck)) (snd (xy ck))).
    { intros k ck Hk Ek. destruct (corner_seen _ _ _ _ Ek) as [lat [lon [E1 [E2 [_ E3]]]]]. apply py_index_at in E1, E2; try lia. exists lat, lon. split; [apply zipw_nth; assumption|].
      destruct (xy ck) as [lat' lon'] eqn:X. cbn [fst snd]. symmetry in E3.
      destruct (C70_partial lo lat lon lat' lon' Hlo (Hr lon (nth_error_In _ _ E2)) (f2_nth _ _ _ He _ _ _ E1 E2) E3) as [[S1 [S2 S3]] _]. unfold sphere. congruence. }
    destruct (Place i c Hi Ei) as [lat [lon [N1 P1]]]. destruct (Place j c' Hj Ej) as [lat' [lon' [N2 P2]]].
    assert (Q : nth_error (points g) (Z.to_nat i) = nth_error (points g) (Z.to_nat j)) by congruence.
    rewrite NoDup_nth_error in N. apply N in Q; [lia|]. rewrite points_size. lia.
  Qed.
  Lemma drawn_nodup idx cs : (forall i, In i idx -> (0 <= i < Z.of_nat size)%Z) -> NoDup idx -> mapM (corner_of g lo) idx = Ok cs -> NoDup (map xy cs).
  Proof.
    intros Hi N H. destruct (mapM_corners g lo idx cs H) as [E Hc]. rewrite <- E in Hi, N. clear E H. induction cs as [|c cs IH]; [constructor|]. cbn [map] in *. inversion_clear N as [|? ? N1 N2]. constructor.
    - intro Q. apply in_map_iff in Q. destruct Q as [c' [E H']]. apply N1. apply in_map_iff. exists c'. split; [|exact H'].
      symmetry. apply (drawn_once (cidx c) (cidx c') c (Hi _ (or_introl eq_refl)) (Hi _ (or_intror (in_map cidx _ _ H'))) c'); [apply Hc; now left|apply Hc; now right|congruence].
    - apply IH; [intros i Hi'; apply Hi; now right|exact N2|intros c' H'; apply Hc; now right].
  Qed.
  Lemma replace_ok loc wrong idx add : inside idx -> (0 <= add < retries)%Z -> (List.length wrong <= 3)%nat ->
    exists idx', replace_index query loc wrong idx add = Ok (idx', (add + Z.of_nat (List.length wrong))%Z) /\ inside idx' /\ (forall w, wrong = [w] -> NoDup idx -> NoDup idx').
  Proof.
    intros [L Hi] Ha Hw. unfold replace_index. cbn zeta. remember (Z.to_nat (4 + (add + Z.of_nat (List.length wrong)))) as k eqn:Hk.
    destruct (tree_answer (points g) query loc k Htree) as [T1 [T2 T3]]; [rewrite points_size; lia|]. rewrite points_size in T3.
    pose proof (filter_new idx (query loc k) T2) as F. rewrite T1, L in F. set (news := filter (fun j => negb (zmem j idx)) (query loc k)) in *.
    assert (Hn : forall j, In j news -> (0 <= j < Z.of_nat size)%Z /\ ~ In j idx).
    { intros j Hj. apply filter_In in Hj. destruct Hj as [Hj Hz]. split; [apply T3; exact Hj|]. intro Q. apply zmem_In in Q. rewrite Q in Hz. discriminate. }
    destruct (put_ok news wrong idx 0%Z) as [idx' [E I']]; [lia|lia|]. exists idx'. rewrite E. cbn [rbind]. split; [reflexivity|]. split.
    - split; [apply put_from_end_length in E; congruence|]. intros i Q. destruct (I' i Q) as [Q'|Q']; [apply Hi; exact Q'|apply Hn; exact Q'].
    - intros w -> N. cbn [put_from_end] in E. apply rbind_ok in E. destruct E as [x [Ex E]]. assert (E' : idx' = put_index idx w x) by congruence. rewrite E'. apply put_nodup; [exact N|]. apply Hn.
      destruct (py_index_neg news 0) as [y [Ey Ey']]; [cbn [List.length] in Hk; lia|]. change (- (Z.of_nat 0 + 1))%Z with (- (0 + 1))%Z in Ey. assert (x = y) by congruence. subst y. eapply nth_error_In. exact Ey'.
  Qed.
  Lemma close_ok' lat lon wrong idx : inside idx -> (0 < List.length wrong <= 3)%nat -> (0 <= retries)%Z -> exists idx' b, replace_close_to query aim lat lon wrong idx = Ok (idx', b) /\ inside idx'.
  Proof.
    intros [L Hi] Hw Hr. unfold replace_close_to. destruct (tree_answer (points g) query (aim lon lat) (List.length wrong) Htree) as [T1 [T2 T3]]; [rewrite points_size; lia|]. rewrite points_size in T3.
    destruct (put_ok (query (aim lon lat) (List.length wrong)) wrong idx 0%Z) as [idx' [E I']]; [rewrite T1; lia|lia|]. rewrite E. cbn [rbind]. exists idx', (distinct4 idx'). split; [reflexivity|].
    split; [apply put_from_end_length in E; congruence|]. intros i Q. destruct (I' i Q) as [Q'|Q']; [apply Hi; exact Q'|apply T3; exact Q'].
  Qed.
  Record steady (st : state) : Prop := mkSteady { s_done : f_done st = None; s_ok : f_ok st = false; s_in : inside (f_idx st); s_add : (0 <= f_add st)%Z; s_nodup : f_checks st = true -> NoDup (f_idx st) }.
  Lemma quad_never loc cs st : steady st -> f_checks st = true -> (f_add st < retries)%Z -> mapM (corner_of g lo) (f_idx st) = Ok cs ->
    exists st', quad_checks query argsort angle rotated loc la lo cs st = Ok st' /\ (f_ok st' = true \/ steady st').
  Proof.
    intros [D O I A N] C R Hcs. specialize (N C). pose proof (drawn_nodup _ _ (proj2 I) N Hcs) as Nx. assert (L : List.length cs = 4%nat) by (apply mapM_ok_length in Hcs; destruct I; congruence).
    assert (S : is_argsort (map sort_key cs) (argsort (map sort_key cs))) by (apply Hsort; rewrite map_length; exact L). pose proof (vertex_found argsort angle cs Hangle L S Nx) as V.
    unfold quad_checks. destruct (clockwise argsort cs) as [[[p1 p2] p3] p4].
    assert (Rep : forall w, exists st', (do '(idx', a) <- replace_index query loc [w] (f_idx st) (f_add st); Ok (mkState idx' a true false (Some (p1, p2, p3, p4)) None)) = Ok st' /\ (f_ok st' = true \/ steady st')).
    { intro w. destruct (replace_ok loc [w] (f_idx st) (f_add st) I ltac:(lia) ltac:(cbn; lia)) as [idx' [-> [I' N']]]. cbn [rbind]. eexists. split; [reflexivity|]. right.
      constructor; cbn [f_done f_ok f_idx f_add f_checks]; auto; [cbn [List.length]; lia|]. intros _. exact (N' w eq_refl N). }
    destruct (is_convex (xy p1) (xy p2) (xy p3) (xy p4)) eqn:Cv; cbn [orb].
    - destruct (in_quad _ _ _ _ _); [eexists; split; [reflexivity|left; reflexivity]|].
      destruct (py_index_neg (f_idx st) 0) as [w [Ew _]]; [destruct I; lia|]. assert (W : py_index (f_idx st) 3 = Ok w). { destruct I as [I _]. destruct (f_idx st) as [|a [|b [|c [|d [|]]]]]; try discriminate I. exact Ew. }
      rewrite W. cbn [rbind]. apply Rep.
    - destruct rotated.
      + destruct (in_quad _ _ _ _ _); [eexists; split; [reflexivity|left; reflexivity]|].
        destruct (py_index_neg (f_idx st) 0) as [w [Ew _]]; [destruct I; lia|]. assert (W : py_index (f_idx st) 3 = Ok w). { destruct I as [I _]. destruct (f_idx st) as [|a [|b [|c [|d [|]]]]]; try discriminate I. exact Ew. }
        rewrite W. cbn [rbind]. apply Rep.
      + destruct (V eq_refl) as [a [b [c [E _]]]]. rewrite E. apply Rep.
  Qed.
  Lemma body_never loc st : steady st -> (f_add st < retries)%Z -> exists st', body query aim argsort angle g global rotated loc la lo st = Ok st' /\ (f_ok st' = true \/ steady st').
  Proof.
    intros S R. pose proof S as [D O I A N]. unfold body. destruct (corners_ok (f_idx st) (proj2 I)) as [cs Hcs]. rewrite Hcs. cbn [rbind].
    destruct (outside g global la lo); [eexists; split; [reflexivity|left; reflexivity]|].
    destruct (f_checks st) eqn:C; cbn [rbind]; [rewrite D, C; eapply quad_never; eassumption|].
    assert (L : List.length cs = 4%nat) by (apply mapM_ok_length in Hcs; destruct I; congruence).
    unfold parallels_checks. pose proof (wrong_few la lo cs L) as Wf. destruct (wrong_direction la lo cs) as [|w ws] eqn:W.
    - destruct (wrong_none la lo cs L W) as [Nx [U Dn]]. destruct (grid_like_ok la lo cs U Dn) as [[w|] ->]; cbn [rbind].
      + destruct (replace_ok loc [w] (f_idx st) (f_add st) I ltac:(lia) ltac:(cbn; lia)) as [idx' [-> [I' _]]]. cbn [rbind f_done f_checks]. eexists. split; [reflexivity|]. right. constructor; cbn [f_done f_ok f_idx f_add f_checks]; auto; try discriminate. cbn [List.length]. lia.
      + destruct (best_ok la lo cs U Dn) as [[[[w lat] lon]|] ->]; cbn [rbind].
        * destruct (close_ok' lat lon [w] (f_idx st) I ltac:(cbn; lia) ltac:(lia)) as [idx' [b [-> I']]]. cbn [rbind f_done f_checks]. eexists. split; [reflexivity|]. right. constructor; cbn [f_done f_ok f_idx f_add f_checks]; auto; discriminate.
        * cbn [f_done f_checks]. apply quad_never; [|reflexivity|exact R|exact Hcs]. constructor; cbn [f_done f_ok f_idx f_add f_checks]; auto. intros _.
          destruct (mapM_corners g lo _ cs Hcs) as [E _]. rewrite <- E. apply (NoDup_map_inv xy) in Nx. clear - Nx Hcs. 
          assert (Q : forall c c', In c cs -> In c' cs -> cidx c = cidx c' -> c = c') by (destruct (mapM_corners g lo _ cs Hcs) as [_ H]; intros c c' H1 H2 E; apply H in H1, H2; congruence).
          clear Hcs. induction cs as [|c cs IH]; [constructor|]. inversion_clear Nx as [|? ? N1 N2]. cbn [map]. constructor.
          -- intro X. apply in_map_iff in X. destruct X as [c' [E H']]. apply N1. rewrite (Q c c'); [exact H'|now left|now right|congruence].
          -- apply IH; [exact N2|]. intros a b Ha Hb. apply Q; now right.
    - destruct (beyond_latitudes g la).
      + destruct (close_ok' (180 - la) lo (w :: ws) (f_idx st) I ltac:(cbn [List.length] in *; lia) ltac:(lia)) as [idx' [b [-> I']]]. cbn [rbind]. destruct b; cbn [rbind f_done f_checks]; eexists; (split; [reflexivity|]); [right|left; reflexivity]. constructor; cbn [f_done f_ok f_idx f_add f_checks]; auto; discriminate.
      + destruct (replace_ok loc (w :: ws) (f_idx st) (f_add st) I ltac:(lia) Wf) as [idx' [-> [I' _]]]. cbn [rbind f_done f_checks]. eexists. split; [reflexivity|]. right. constructor; cbn [f_done f_ok f_idx f_add f_checks]; auto; try discriminate. lia.
  Qed.
  Lemma search_never loc fuel : forall st e, steady st -> search query aim argsort angle g global rotated retries fuel loc la lo st <> Some (Raise e).
  Proof.
    induction fuel as [|fuel IH]; intros st e S; cbn [search]; destruct (f_ok st || (retries <=? f_add st)%Z)%bool eqn:B; try discriminate.
    apply orb_false_iff in B. destruct B as [_ B]. apply Z.leb_gt in B. destruct (body_never loc st S B) as [st' [-> [E|S']]]; [|apply IH; exact S'].
    destruct fuel; cbn [search]; rewrite E; cbn [orb]; discriminate.
  Qed.
End failures.

(** the only failure: no quadrilateral for the target nor for any before it, with
    a source on parallels *)
Theorem C107_partial : forall g query argsort angle solve global rotated retries fuel mub before t e,
  honest g query [t] -> valid_argsort argsort -> is_angle angle -> -180 <= t_lon t <= 180 -> apart g (t_lon t) ->
  (0 < retries)%Z -> (retries + 6 <= Z.of_nat (List.length (latgrib g)))%Z ->
  bilinear_cell query aim argsort angle solve g global rotated retries fuel mub before t = Some (Raise e) -> e = AttributeError /\ before = None /\ rotated = false.
Proof.
  intros g query argsort angle solve global rotated retries fuel mub before t e [Hlen [Ht Hn]] Hs Ha Hlo Hap Hr Hm H. destruct (Hn t (or_introl eq_refl)) as [_ Near].
  unfold bilinear_cell in H. destruct (leb _ _); [discriminate|]. destruct (ltb _ _); [discriminate|].
  destruct (tree_answer (points g) query (t_loc t) 4 Ht) as [T1 [T2 T3]]; [rewrite (points_size g Hlen); lia|].
  assert (Ei : map snd (t_near t) = query (t_loc t) 4%nat) by (rewrite Near, map_map; apply map_id).
  assert (S0 : steady g (start rotated before t)).
  { constructor; cbn [start f_done f_ok f_idx f_add f_checks]; try reflexivity; rewrite ?Ei; try lia; [split; [exact T1|]; rewrite <- (points_size g Hlen); exact T3|intros _; exact T2]. }
  assert (L4 : List.length (f_idx (start rotated before t)) = 4%nat) by (cbn [start f_idx]; rewrite Ei; exact T1).
  destruct (search _ _ _ _ _ _ _ _ _ _ _ _ _) as [[st|e']|] eqn:S; [| |discriminate].
  - unfold finish in H. destruct (f_done st) eqn:D; [discriminate|]. destruct (f_quad st) eqn:Q; [discriminate|]. split; [congruence|].
    assert (E : ending argsort g global rotated retries (t_lat t) (t_lon t) before st).
    { apply (search_ending query aim argsort angle solve g global rotated retries (t_loc t) (t_lat t) (t_lon t) before fuel (start rotated before t) st); try assumption; try reflexivity. left. split; [reflexivity|]. right. exact Hr. }
    destruct E as [? ? E|? ? E|? ? ? ? ? ? E|? ? ? ? ? ? ? E|E1 E2 E3 E4 E5]; try congruence. split; [congruence|]. destruct rotated; [|reflexivity]. exfalso.
    assert (f_checks st = true) by (exact (checks_stay query aim argsort angle g global retries (t_loc t) (t_lat t) (t_lon t) fuel (start true before t) st eq_refl eq_refl eq_refl S E1 E2)). congruence.
  - exfalso. exact (search_never query argsort angle g global rotated retries (t_lat t) (t_lon t) Hlen Ht Hs Ha Hlo Hap Hm (t_loc t) fuel _ e' S0 S).
Qed.
Print Assumptions C107_partial.
(** the table of a source *)
Theorem C107_table_partial : forall g query argsort angle solve global rotated retries fuel mub cells before e,
  honest g query cells -> valid_argsort argsort -> is_angle angle -> (forall t, In t cells -> -180 <= t_lon t <= 180 /\ apart g (t_lon t)) ->
  (0 < retries)%Z -> (retries + 6 <= Z.of_nat (List.length (latgrib g)))%Z ->
  bilinear_cells query aim argsort angle solve g global rotated retries fuel mub before cells = Some (Raise e) -> e = AttributeError /\ rotated = false.
Proof.
  intros g query argsort angle solve global rotated retries fuel mub cells before e Ho Hs Ha Hc Hr Hm. revert before. induction cells as [|t cells IH]; intros before H; cbn [bilinear_cells] in H; [discriminate|].
  assert (Ho' : honest g query [t] /\ honest g query cells) by (destruct Ho as [A [B C]]; split; (split; [exact A|]; split; [exact B|]); intros t' Ht'; apply C; [destruct Ht' as [<-|[]]; now left|now right]). destruct Ho' as [H1 H2].
  destruct (bilinear_cell query aim argsort angle solve g global rotated retries fuel mub before t) as [[[r q]|e']|] eqn:E; [| |discriminate].
  - destruct (bilinear_cells query aim argsort angle solve g global rotated retries fuel mub q cells) as [[rs|e'']|] eqn:E'; try discriminate. apply (IH H2 (fun t' Ht' => Hc t' (or_intror Ht')) q). congruence.
  - destruct (Hc t (or_introl eq_refl)) as [L A]. destruct (C107_partial g query argsort angle solve global rotated retries fuel mub before t e' H1 Hs Ha L A Hr Hm E) as [-> [_ R]]. split; [congruence|exact R].
Qed.
Print Assumptions C107_table_partial.

(** witness: six points on three parallels and the South Pole; the target is on the
    northernmost parallel *)
Definition g7 : source := mkSource [0; 0; -30; -30; -60; -60; -90] [0; 60; 0; 60; 0; 60; 0].
Definition edge : @target space := near_of g7 (tree (points g7)) 0 30.
Lemma g7_cosine : cosine 0 30 0 0 = sqrt 3 / 2 /\ cosine 0 30 0 60 = sqrt 3 / 2 /\ cosine 0 30 (-30) 0 = 3 / 4 /\ cosine 0 30 (-30) 60 = 3 / 4 /\
  cosine 0 30 (-60) 0 = sqrt 3 / 4 /\ cosine 0 30 (-60) 60 = sqrt 3 / 4 /\ cosine 0 30 (-90) 0 = 0.
Proof.
  destruct gn_cosine as [A [B [C D]]]. do 4 (split; [assumption|]).
  assert (R6 : rad (-60) = - (PI / 3)) by (unfold rad; field). assert (R9 : rad (-90) = - (PI / 2)) by (unfold rad; field).
  unfold cosine. rewrite r0, R6, R9, r30, r60, sin_0, cos_0, cos_neg, cos_neg, cos_PI2, cos_PI3. replace (PI / 6 - 0) with (PI / 6) by ring. replace (PI / 6 - PI / 3) with (- (PI / 6)) by field. rewrite cos_neg, c30. repeat split; lra.
Qed.
Lemma edge_far : / 10000000000 < nthR (map fst (t_near edge)) 0 <= 2.
Proof.
  unfold edge, near_of. cbn [t_near].
  destruct (tree_kdtree (points g7) (sphere 0 30) 4%nat) as [o [P [_ ->]]]. change (List.length (points g7)) with 7%nat in *. cbn [Nat.sub repeat]. rewrite List.app_nil_r.
  assert (Lo : List.length o = 7%nat) by (rewrite <- (Permutation_length P); reflexivity). destruct o as [|i o]; [discriminate Lo|].
  assert (Hi : In i (seq 0 7)) by (apply (Permutation_in _ (Permutation_sym P)); left; reflexivity). cbn [firstn map fst]. unfold nthR. cbn [nth]. rewrite Nat2Z.id.
  destruct g7_cosine as [Q0 [Q1 [Q2 [Q3 [Q4 [Q5 Q6]]]]]]. pose proof s3b. pose proof s3.
  assert (B : forall c, c <= 9 / 10 -> 0 <= c -> / 10000000000 < sqrt (2 - 2 * c) <= 2).
  { intros c Hc Hc0. set (s := sqrt (2 - 2 * c)). assert (P0 : 0 <= s) by apply sqrt_pos. assert (E : s * s = 2 - 2 * c) by (apply sqrt_sqrt; lra). split; nra. }
  unfold points, g7. cbn [latgrib longrib zipw].
  destruct Hi as [<-|[<-|[<-|[<-|[<-|[<-|[<-|[]]]]]]]]; cbn [nth]; rewrite chord_sphere; rewrite ?Q0, ?Q1, ?Q2, ?Q3, ?Q4, ?Q5, ?Q6; apply B; lra.
Qed.
Lemma g7_apart : apart g7 30.
Proof.
  split; [|split].
  - assert (Z : forall a b c a' b' c' : R, (a <> a' \/ b <> b' \/ c <> c') -> (a, b, c) <> (a', b', c')) by (intros a b c a' b' c' H E; injection E; intros; destruct H as [H|[H|H]]; contradiction).
    assert (R3 : rad (-30) = - (PI / 6)) by (unfold rad; field). assert (R6 : rad (-60) = - (PI / 3)) by (unfold rad; field). assert (R9 : rad (-90) = - (PI / 2)) by (unfold rad; field).
    pose proof s3. pose proof s3b.
    assert (S3 : sqrt 3 <> 0) by (intro; nra).
    unfold points, g7, sphere. cbn [latgrib longrib zipw]. rewrite r0, R3, R6, R9, r60, !sin_neg, !cos_neg, sin_0, cos_0, cos_PI3, sin_PI3, cos_PI2, sin_PI2, cos_PI6, sin_PI6.
    repeat (apply NoDup_cons; [cbn [In]; intro Q; repeat (destruct Q as [Q|Q]; [revert Q; apply Z; first [left; nra|right; left; nra|right; right; nra]|]); exact Q|]). apply NoDup_nil.
  - cbn [g7 longrib In]. intros lon H. repeat (destruct H as [<-|H]; [lra|]). destruct H.
  - cbn [g7 latgrib longrib]. repeat (apply Forall2_cons; [intro Z; try lra; exists 0%Z; unfold Rabs; destruct (Rcase_abs _); lra|]). apply Forall2_nil.
Qed.
Lemma g7_honest : honest g7 (tree (points g7)) [edge].
Proof. apply honest_near; [reflexivity|]. intros t [<-|[]]. exists 0, 30. reflexivity. Qed.
Lemma g7_global : is_global g7 = Ok false.
Proof. unfold g7. rewrite is_global_cons. unfold ltb. cbn [fold_left rmin]. unfold Rmax, Rmin, Rabs. rdec; reflexivity. Qed.
Theorem C107_refuted : ~ C107_full.
Proof.
  intro H. destruct (H g7 (tree (points g7)) isort true_angle (fun _ _ _ => (0, 0)) false false 1%Z 2 edge g7_honest isort_ok true_angle_ok g7_global) as [fuel [[r q] E]].
  - cbn [edge near_of t_lon]. lra.
  - exact g7_apart.
  - lia.
  - cbn. lia.
  - apply C105_north in E.
    + destruct E as [q0 [E _]]. discriminate E.
    + unfold edge, near_of. cbn [t_near]. rewrite map_length. destruct (tree_kdtree (points g7) (sphere 0 30) 4%nat) as [o [P [_ ->]]].
      change (List.length (points g7)) with 7%nat in *. cbn [Nat.sub repeat]. rewrite List.app_nil_r, map_length, firstn_length. rewrite <- (Permutation_length P). reflexivity.
    + cbn [edge near_of t_lon]. lra.
    + cbn [g7 longrib edge near_of t_lon]. intros lon Hl. cbn [In] in Hl. repeat (destruct Hl as [<-|Hl]; [split; [lra|]; exists 0%Z; unfold Rabs; destruct (Rcase_abs _); lra|]). destruct Hl.
    + cbn [g7 latgrib edge near_of t_lat In]. intros lat Hl. repeat (destruct Hl as [<-|Hl]; [lra|]). destruct Hl.
    + now left.
    + split; [exists 0; split; [now left|]|exists 60; split; [right; now left|]]; cbn [edge near_of t_lon]; lra.
    + exact edge_far.
Qed.
Print Assumptions C107_refuted.
Example C107_nonvacuous : honest g7 (tree (points g7)) [edge] /\ valid_argsort isort /\ is_angle true_angle /\ apart g7 (t_lon edge) /\ (1 + 6 <= Z.of_nat (List.length (latgrib g7)))%Z.
Proof. split; [exact g7_honest|]. split; [exact isort_ok|]. split; [exact true_angle_ok|]. split; [exact g7_apart|]. cbn. lia. Qed.

(** ** C105: exchanges before the rectangle *)
(** the vertex exchanged in a quadrilateral that is not convex has an angle of
    about 180 degrees or more *)
Theorem C105_vertex : forall argsort angle cs p1 p2 p3 p4, is_angle angle -> List.length cs = 4%nat -> valid_argsort argsort -> NoDup (map xy cs) ->
  clockwise argsort cs = (p1, p2, p3, p4) -> ~ strictly_convex (xy p1) (xy p2) (xy p3) (xy p4) ->
  exists a b c, nonconvex_vertex angle (p1, p2, p3, p4) = Some (cidx b) /\ 1799 / 10 <= angle (xy a) (xy b) (xy c) /\ In (a, b, c) [(p1, p2, p3); (p2, p3, p4); (p3, p4, p1); (p4, p1, p2)].
Proof.
  intros argsort angle cs p1 p2 p3 p4 A L S N E C. pose proof (vertex_found argsort angle cs A L (S (map sort_key cs) (eq_trans (map_length _ _) L)) N) as V. rewrite E in V. apply V.
  destruct (is_convex _ _ _ _) eqn:X; [|reflexivity]. exfalso. apply C. apply is_convex_spec. exact X.
Qed.
Print Assumptions C105_vertex.
