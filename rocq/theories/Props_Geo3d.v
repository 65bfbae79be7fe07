(** * Props_Geo3d: C56 *)
From Verif Require Import Base Geo3d Spec_Geo3d.
From Coq Require Import Reals Lra.
Local Open Scope R_scope.

Lemma pair3 (a b c a' b' c' : R) : a = a' -> b = b' -> c = c' -> (a, b, c) = (a', b', c'). Proof. intros -> -> ->. reflexivity. Qed.
Lemma sc (x : R) : sin x * sin x + cos x * cos x = 1. Proof. pose proof (sin2_cos2 x) as H. unfold Rsqr in H. exact H. Qed.
(** points on the sphere of the radius; distances in the order of great-circle
    distances; rotations keep distances and the sphere *)
Definition C56_sphere : Prop := forall g r lon lat, g_radius g = Some r -> exists p, to_3d g lon lat false false = Ok p /\ on_sphere r p.
Definition keeps_distances (g : geodetic) (rotate to_regular : bool) : Prop := forall r lon lat lon' lat' p q p' q', g_radius g = Some r ->
  to_3d g lon lat false false = Ok p -> to_3d g lon' lat' false false = Ok q -> to_3d g lon lat rotate to_regular = Ok p' -> to_3d g lon' lat' rotate to_regular = Ok q' -> dist3 p' q' = dist3 p q.
Definition C56_full : Prop := C56_sphere /\ (forall g, keeps_distances g true false) /\ (forall g, keeps_distances g false true).

Theorem C56_sphere_partial : forall g r lon lat, g_radius g = Some r -> exists p, to_3d g lon lat false false = Ok p /\ on_sphere r p.
Proof.
  intros g r lon lat E. unfold to_3d. rewrite E. cbn [need rbind]. eexists. split; [reflexivity|]. unfold on_sphere, dot3, fx, fy, fz. set (a := radians lon). set (b := radians lat). pose proof (sc a). pose proof (sc b).
  replace (r * (cos a * cos b) * (r * (cos a * cos b)) + r * (sin a * cos b) * (r * (sin a * cos b)) + r * sin b * (r * sin b)) with (r ^ 2 * ((sin a * sin a + cos a * cos a) * (cos b * cos b) + sin b * sin b)) by ring.
  rewrite H. replace (1 * (cos b * cos b) + sin b * sin b) with (sin b * sin b + cos b * cos b) by ring. rewrite H0. ring.
Qed.
Print Assumptions C56_sphere_partial.
(** the chord: twice the radius times the sine of half the angle *)
Lemma chord g r lon lat lon' lat' p q gamma : g_radius g = Some r -> to_3d g lon lat false false = Ok p -> to_3d g lon' lat' false false = Ok q -> central_angle lon lat lon' lat' gamma ->
  dist3 p q = sqrt (2 * r ^ 2 * (1 - cos gamma)).
Proof.
  intros E Hp Hq [_ Hc]. unfold to_3d in Hp, Hq. rewrite E in Hp, Hq. cbn [need rbind] in Hp, Hq.
  assert (Ep : p = (r * fx (radians lon) (radians lat), r * fy (radians lon) (radians lat), r * fz (radians lon) (radians lat))) by congruence.
  assert (Eq : q = (r * fx (radians lon') (radians lat'), r * fy (radians lon') (radians lat'), r * fz (radians lon') (radians lat'))) by congruence. subst p q. unfold dist3, fx, fy, fz. f_equal. rewrite Hc, cos_minus. change degrees with radians.
  set (a := radians lon). set (b := radians lat). set (c := radians lon'). set (d := radians lat'). pose proof (sc a) as A. pose proof (sc b) as B. pose proof (sc c) as C. pose proof (sc d) as D.
  replace ((r * (cos a * cos b) - r * (cos c * cos d)) ^ 2 + (r * (sin a * cos b) - r * (sin c * cos d)) ^ 2 + (r * sin b - r * sin d) ^ 2)
    with (r ^ 2 * ((sin a * sin a + cos a * cos a) * (cos b * cos b) + sin b * sin b + ((sin c * sin c + cos c * cos c) * (cos d * cos d) + sin d * sin d) - 2 * (sin b * sin d + cos b * cos d * (cos a * cos c + sin a * sin c)))) by ring.
  rewrite A, C. replace (1 * (cos b * cos b) + sin b * sin b) with (sin b * sin b + cos b * cos b) by ring. replace (1 * (cos d * cos d) + sin d * sin d) with (sin d * sin d + cos d * cos d) by ring. rewrite B, D. ring.
Qed.
(** straight-line distances order points like great-circle distances *)
Theorem C56_order : forall g r lon lat lon1 lat1 lon2 lat2 p q1 q2 g1 g2, g_radius g = Some r -> 0 < r ->
  to_3d g lon lat false false = Ok p -> to_3d g lon1 lat1 false false = Ok q1 -> to_3d g lon2 lat2 false false = Ok q2 ->
  central_angle lon lat lon1 lat1 g1 -> central_angle lon lat lon2 lat2 g2 -> (dist3 p q1 <= dist3 p q2 <-> r * g1 <= r * g2).
Proof.
  intros g r lon lat lon1 lat1 lon2 lat2 p q1 q2 g1 g2 E Hr Hp H1 H2 A1 A2. rewrite (chord g r _ _ _ _ p q1 g1 E Hp H1 A1), (chord g r _ _ _ _ p q2 g2 E Hp H2 A2). destruct A1 as [B1 _], A2 as [B2 _].
  pose proof (COS_bound g1). pose proof (COS_bound g2). assert (R2 : 0 < r ^ 2) by (apply pow_lt; exact Hr).
  assert (N1 : 0 <= 2 * r ^ 2 * (1 - cos g1)) by (apply Rmult_le_pos; lra). assert (N2 : 0 <= 2 * r ^ 2 * (1 - cos g2)) by (apply Rmult_le_pos; lra).
  split; intro H'.
  - apply sqrt_le_0 in H'; [|exact N1|exact N2]. assert (C : cos g2 <= cos g1) by (apply Rmult_le_reg_l with (2 * r ^ 2); lra). apply Rmult_le_compat_l; [lra|].
    apply Rnot_lt_le. intro L. pose proof (cos_decreasing_1 g2 g1 ltac:(lra) ltac:(lra) ltac:(lra) ltac:(lra) L). lra.
  - apply sqrt_le_1; [exact N1|exact N2|]. apply Rmult_le_reg_l in H'; [|exact Hr]. assert (cos g2 <= cos g1); [|apply Rmult_le_compat_l; lra].
    destruct H' as [L|L]; [left; apply cos_decreasing_1; lra|rewrite L; lra].
Qed.
Print Assumptions C56_order.
(** longitudes that differ by full turns are the same place *)
Theorem C56_full_turn : forall g lon lat rotate to_regular, to_3d g (lon + 360) lat rotate to_regular = to_3d g lon lat rotate to_regular.
Proof.
  intros. assert (E : radians (lon + 360) = radians lon + 2 * PI) by (unfold radians; field). unfold to_3d. rewrite E. unfold fx, fy, fz.
  rewrite cos_plus, sin_plus, cos_2PI, sin_2PI. replace (cos (radians lon) * 1 - sin (radians lon) * 0) with (cos (radians lon)) by ring. replace (sin (radians lon) * 1 + cos (radians lon) * 0) with (sin (radians lon)) by ring. reflexivity.
Qed.
Print Assumptions C56_full_turn.

(** ** rotations *)
(** both branches are linear maps, given by their columns *)
Definition lin (c1 c2 c3 : R * R * R) (v : R * R * R) : R * R * R :=
  let '(x, y, z) := v in let '(a, b, c) := c1 in let '(d, e, f) := c2 in let '(g, h, i) := c3 in (a * x + d * y + g * z, b * x + e * y + h * z, c * x + f * y + i * z).
Definition orthonormal (c1 c2 c3 : R * R * R) : Prop := dot3 c1 c1 = 1 /\ dot3 c2 c2 = 1 /\ dot3 c3 c3 = 1 /\ dot3 c1 c2 = 0 /\ dot3 c1 c3 = 0 /\ dot3 c2 c3 = 0.
Lemma lin_dist c1 c2 c3 u v : orthonormal c1 c2 c3 -> dist3 (lin c1 c2 c3 u) (lin c1 c2 c3 v) = dist3 u v.
Proof.
  destruct c1 as [[a b] c], c2 as [[d e] f], c3 as [[g h] i], u as [[x y] z], v as [[x' y'] z']. unfold orthonormal, dot3, lin, dist3. intros [H1 [H2 [H3 [H4 [H5 H6]]]]]. f_equal.
  set (X := x - x'). set (Y := y - y'). set (Z := z - z').
  replace (a * x + d * y + g * z - (a * x' + d * y' + g * z')) with (a * X + d * Y + g * Z) by (unfold X, Y, Z; ring).
  replace (b * x + e * y + h * z - (b * x' + e * y' + h * z')) with (b * X + e * Y + h * Z) by (unfold X, Y, Z; ring).
  replace (c * x + f * y + i * z - (c * x' + f * y' + i * z')) with (c * X + f * Y + i * Z) by (unfold X, Y, Z; ring).
  replace ((a * X + d * Y + g * Z) ^ 2 + (b * X + e * Y + h * Z) ^ 2 + (c * X + f * Y + i * Z) ^ 2)
    with ((a * a + b * b + c * c) * X ^ 2 + (d * d + e * e + f * f) * Y ^ 2 + (g * g + h * h + i * i) * Z ^ 2 + 2 * (a * d + b * e + c * f) * (X * Y) + 2 * (a * g + b * h + c * i) * (X * Z) + 2 * (d * g + e * h + f * i) * (Y * Z)) by ring.
  rewrite H1, H2, H3, H4, H5, H6. ring.
Qed.
Definition unit (lon lat : R) : R * R * R := (fx (radians lon) (radians lat), fy (radians lon) (radians lat), fz (radians lon) (radians lat)).
Lemma default_1 g lon lat : g_radius g = Some 1 -> to_3d g lon lat false false = Ok (unit lon lat).
Proof. intro E. unfold to_3d, unit. rewrite E. cbn [need rbind]. now rewrite !Rmult_1_l. Qed.
Lemma rotate_lin g a b lon lat : g_lat_pole g = Some a -> g_lon_pole g = Some b ->
  let t := radians (90 + a) in let f := radians b in
  to_3d g lon lat true false = Ok (lin (cos t * cos f, - sin f, - sin t * cos f) (cos t * sin f, cos f, - (sin t * sin f)) (sin t, 0, cos t) (unit lon lat)).
Proof. intros Ea Eb t f. unfold to_3d. rewrite Ea, Eb. cbn [need rbind]. fold t f. unfold unit, lin. f_equal. apply pair3; ring. Qed.
Lemma regular_lin g a b lon lat : g_lat_pole g = Some a -> g_lon_pole g = Some b ->
  let t := radians (90 + a) in let f := radians b in
  to_3d g lon lat false true = Ok (lin (cos t * cos f, - (cos t * sin f), sin t) (- sin f, cos f, 0) (- (sin t * cos f), - (sin t * sin f), cos t) (unit lon lat)).
Proof. intros Ea Eb t f. unfold to_3d. rewrite Ea, Eb. cbn [need rbind]. fold t f. rewrite !cos_neg, !sin_neg. unfold unit, lin. f_equal. apply pair3; ring. Qed.
Ltac ortho := repeat match goal with |- _ /\ _ => split end.
Lemma rotate_ortho t f : orthonormal (cos t * cos f, - sin f, - sin t * cos f) (cos t * sin f, cos f, - (sin t * sin f)) (sin t, 0, cos t).
Proof. pose proof (sc t) as T. pose proof (sc f) as F. unfold orthonormal, dot3. assert (T' : sin t * sin t = 1 - cos t * cos t) by lra. assert (F' : sin f * sin f = 1 - cos f * cos f) by lra. ortho; ring [T' F']. Qed.
Definition scale (r : R) (v : R * R * R) : R * R * R := let '(x, y, z) := v in (r * x, r * y, r * z).
Lemma default_r g r lon lat : g_radius g = Some r -> to_3d g lon lat false false = Ok (scale r (unit lon lat)).
Proof. intro E. unfold to_3d, unit, scale. rewrite E. reflexivity. Qed.
Lemma dist_scale r u v : 0 <= r -> dist3 (scale r u) (scale r v) = r * dist3 u v.
Proof.
  intro H. destruct u as [[a b] c], v as [[d e] f]. unfold dist3, scale. replace ((r * a - r * d) ^ 2 + (r * b - r * e) ^ 2 + (r * c - r * f) ^ 2) with (r ^ 2 * ((a - d) ^ 2 + (b - e) ^ 2 + (c - f) ^ 2)) by ring.
  rewrite sqrt_mult; [|apply pow2_ge_0|repeat apply Rplus_le_le_0_compat; apply pow2_ge_0]. rewrite sqrt_pow2 by exact H. reflexivity.
Qed.
(** the rotation of a regular point to the rotated grid: keeps all proportions
    of distances, on the sphere of radius one *)
Theorem C56_rotate_partial : forall g r a b lon lat lon' lat', g_radius g = Some r -> 0 <= r -> g_lat_pole g = Some a -> g_lon_pole g = Some b ->
  exists p q p' q', to_3d g lon lat false false = Ok p /\ to_3d g lon' lat' false false = Ok q /\ to_3d g lon lat true false = Ok p' /\ to_3d g lon' lat' true false = Ok q' /\ dist3 p q = r * dist3 p' q'.
Proof.
  intros g r a b lon lat lon' lat' Er Hr Ea Eb. rewrite !(default_r g r _ _ Er). rewrite !(rotate_lin g a b _ _ Ea Eb). do 4 eexists. repeat (split; [reflexivity|]). rewrite dist_scale by exact Hr. f_equal. symmetry. apply lin_dist. apply rotate_ortho.
Qed.
Print Assumptions C56_rotate_partial.
(** the way back keeps distances exactly if the longitude of the southern pole is
    0 or 180, or (its latitude being 0 or -180) the tilt is a quarter turn, or
    there is no tilt and the longitude is a quarter turn *)
Definition good_pole (a b : R) : Prop := let t := radians (90 + a) in let f := radians b in cos t = 0 \/ sin f = 0 \/ (cos f = 0 /\ sin t = 0).
Lemma regular_ortho t f : (cos t = 0 \/ sin f = 0 \/ (cos f = 0 /\ sin t = 0)) ->
  orthonormal (cos t * cos f, - (cos t * sin f), sin t) (- sin f, cos f, 0) (- (sin t * cos f), - (sin t * sin f), cos t).
Proof.
  intro H. pose proof (sc t) as T. pose proof (sc f) as F. unfold orthonormal, dot3. assert (T' : sin t * sin t = 1 - cos t * cos t) by lra. assert (F' : sin f * sin f = 1 - cos f * cos f) by lra.
  assert (D : cos t * (sin f * cos f) = 0 /\ sin t * cos t * (sin f * sin f) = 0) by (destruct H as [->|[->|[-> ->]]]; split; ring). destruct D as [D1 D2].
  ortho; try ring [T' F'].
  - replace (cos t * cos f * - sin f + - (cos t * sin f) * cos f + sin t * 0) with (- 2 * (cos t * (sin f * cos f))) by ring. rewrite D1. ring.
  - replace (cos t * cos f * - (sin t * cos f) + - (cos t * sin f) * - (sin t * sin f) + sin t * cos t) with (sin t * cos t * (1 - cos f * cos f) + sin t * cos t * (sin f * sin f)) by ring. rewrite <- F', D2. ring.
Qed.
Lemma dist_unit u v : dot3 u u = 1 -> dot3 v v = 1 -> dist3 u v = sqrt (2 - 2 * dot3 u v).
Proof. destruct u as [[a b] c], v as [[d e] f]. unfold dot3, dist3. intros H1 H2. f_equal. replace ((a - d) ^ 2 + (b - e) ^ 2 + (c - f) ^ 2) with ((a * a + b * b + c * c) + (d * d + e * e + f * f) - 2 * (a * d + b * e + c * f)) by ring. rewrite H1, H2. ring. Qed.
Theorem C56_regular_exact : forall g a b, g_radius g = Some 1 -> g_lat_pole g = Some a -> g_lon_pole g = Some b -> (keeps_distances g false true <-> good_pole a b).
Proof.
  intros g a b Er Ea Eb. set (t := radians (90 + a)). set (f := radians b). split.
  - intro H. unfold good_pole. fold t f.
    assert (U1 : unit 0 0 = (1, 0, 0)) by (unfold unit, fx, fy, fz; replace (radians 0) with 0 by (unfold radians; field); rewrite cos_0, sin_0; apply pair3; ring).
    assert (U2 : unit 90 0 = (0, 1, 0)) by (unfold unit, fx, fy, fz; replace (radians 0) with 0 by (unfold radians; field); replace (radians 90) with (PI / 2) by (unfold radians; field); rewrite cos_0, sin_0, cos_PI2, sin_PI2; apply pair3; ring).
    assert (U3 : unit 0 90 = (0, 0, 1)) by (unfold unit, fx, fy, fz; replace (radians 0) with 0 by (unfold radians; field); replace (radians 90) with (PI / 2) by (unfold radians; field); rewrite cos_0, sin_0, cos_PI2, sin_PI2; apply pair3; ring).
    pose proof (H 1 0 0 90 0 _ _ _ _ Er (default_1 g 0 0 Er) (default_1 g 90 0 Er) (regular_lin g a b 0 0 Ea Eb) (regular_lin g a b 90 0 Ea Eb)) as H12.
    pose proof (H 1 0 0 0 90 _ _ _ _ Er (default_1 g 0 0 Er) (default_1 g 0 90 Er) (regular_lin g a b 0 0 Ea Eb) (regular_lin g a b 0 90 Ea Eb)) as H13.
    fold t f in H12, H13. rewrite U1, U2 in H12. rewrite U1, U3 in H13. unfold lin in H12, H13. unfold dist3 in H12, H13.
    pose proof (sc t) as T. pose proof (sc f) as F. assert (T' : sin t * sin t = 1 - cos t * cos t) by lra. assert (F' : sin f * sin f = 1 - cos f * cos f) by lra.
    match type of H12 with sqrt ?A = sqrt ?B => assert (E12 : A = B) end. { apply sqrt_inj; [repeat apply Rplus_le_le_0_compat; apply pow2_ge_0|repeat apply Rplus_le_le_0_compat; apply pow2_ge_0|exact H12]. }
    match type of H13 with sqrt ?A = sqrt ?B => assert (E13 : A = B) end. { apply sqrt_inj; [repeat apply Rplus_le_le_0_compat; apply pow2_ge_0|repeat apply Rplus_le_le_0_compat; apply pow2_ge_0|exact H13]. }
    clear H12 H13.
    assert (D1 : cos t * (sin f * cos f) = 0).
    { match type of E12 with ?A = _ => assert (A = 2 + 4 * (cos t * (sin f * cos f))) by ring [T' F'] end. lra. }
    assert (D2 : sin t * cos t * (sin f * sin f) = 0).
    { match type of E13 with ?A = _ => assert (A = 2 - 4 * (sin t * cos t * (sin f * sin f))) by ring [T' F'] end. lra. }
    destruct (Req_EM_T (cos t) 0) as [C|C]; [now left|]. destruct (Req_EM_T (sin f) 0) as [S|S]; [right; now left|]. right. right. split.
    + apply Rmult_integral in D1. destruct D1 as [D1|D1]; [contradiction|]. apply Rmult_integral in D1. tauto.
    + apply Rmult_integral in D2. destruct D2 as [D2|D2]; [apply Rmult_integral in D2; tauto|]. apply Rmult_integral in D2. tauto.
  - intro G. intros r lon lat lon' lat' p q p' q' Er' Hp Hq Hp' Hq'. rewrite (default_1 g _ _ Er) in Hp. rewrite (default_1 g _ _ Er) in Hq. rewrite (regular_lin g a b _ _ Ea Eb) in Hp'. rewrite (regular_lin g a b _ _ Ea Eb) in Hq'. fold t f in Hp', Hq'.
    assert (p = unit lon lat) by congruence. assert (q = unit lon' lat') by congruence. subst p q. match type of Hp' with Ok ?x = _ => assert (Ep : p' = x) by congruence end. match type of Hq' with Ok ?x = _ => assert (Eq : q' = x) by congruence end. rewrite Ep, Eq.
    apply lin_dist. apply regular_ortho. exact G.
Qed.
Print Assumptions C56_regular_exact.
Lemma pole_45 : ~ good_pole (-45) 45.
Proof.
  unfold good_pole. replace (radians (90 + -45)) with (PI / 4) by (unfold radians; field). replace (radians 45) with (PI / 4) by (unfold radians; field).
  assert (0 < sin (PI / 4)) by (rewrite sin_PI4; apply Rdiv_lt_0_compat; [lra|apply sqrt_lt_R0; lra]). assert (0 < cos (PI / 4)) by (rewrite cos_PI4; apply Rdiv_lt_0_compat; [lra|apply sqrt_lt_R0; lra]). lra.
Qed.
(** distances are not kept, even on the unit sphere; and the radius is forgotten,
    so that the rotated target is on another sphere than the source *)
Theorem C56_refuted : ~ C56_full /\ (forall g r a b lon lat lon' lat' p q rotate to_regular, g_radius g = Some r -> 3 <= r -> g_lat_pole g = Some a -> g_lon_pole g = Some b -> (rotate = true \/ to_regular = true) ->
  to_3d g lon lat false false = Ok p -> to_3d g lon' lat' rotate to_regular = Ok q -> r - 3 <= dist3 p q).
Proof.
  split.
  - intros [_ [_ H]]. apply pole_45. apply (C56_regular_exact (mkGeo (Some 1) (Some (-45)) (Some 45))); try reflexivity. apply H.
  - intros g r a b lon lat lon' lat' p q rotate to_regular Er Hr Ea Eb Hor Hp Hq.
    assert (Hq2 : exists x y z, q = (x, y, z) /\ x * x + y * y + z * z <= 9).
    { assert (Hb : forall x, -1 <= sin x <= 1 /\ -1 <= cos x <= 1) by (intro; split; [apply SIN_bound|apply COS_bound]).
      set (t := radians (90 + a)) in *. set (f := radians b) in *. set (lo := radians lon') in *. set (la := radians lat') in *.
      assert (M : forall u v, -1 <= u <= 1 -> -1 <= v <= 1 -> -1 <= u * v <= 1) by (intros u v Hu Hv; nra).
      pose proof (sc t) as T. pose proof (sc f) as F. pose proof (sc lo) as L1. pose proof (sc la) as L2.
      assert (U : dot3 (unit lon' lat') (unit lon' lat') = 1). { unfold dot3, unit, fx, fy, fz. fold lo la. assert (A' : sin lo * sin lo = 1 - cos lo * cos lo) by lra. assert (B' : sin la * sin la = 1 - cos la * cos la) by lra. ring [A' B']. }
      destruct (unit lon' lat') as [[ux uy] uz] eqn:Eu. unfold dot3 in U.
      (* Cauchy inequality for each component *)
      assert (CS : forall k1 k2 k3, k1 * k1 + k2 * k2 + k3 * k3 <= 3 -> (k1 * ux + k2 * uy + k3 * uz) * (k1 * ux + k2 * uy + k3 * uz) <= 3).
      { intros k1 k2 k3 Hk. assert (I : (k1 * ux + k2 * uy + k3 * uz) * (k1 * ux + k2 * uy + k3 * uz) + ((k1 * uy - k2 * ux) ^ 2 + (k1 * uz - k3 * ux) ^ 2 + (k2 * uz - k3 * uy) ^ 2) = (k1 * k1 + k2 * k2 + k3 * k3) * (ux * ux + uy * uy + uz * uz)) by ring.
        rewrite U in I. pose proof (pow2_ge_0 (k1 * uy - k2 * ux)). pose proof (pow2_ge_0 (k1 * uz - k3 * ux)). pose proof (pow2_ge_0 (k2 * uz - k3 * uy)). lra. }
      assert (S3 : forall k1 k2 k3, -1 <= k1 <= 1 -> -1 <= k2 <= 1 -> -1 <= k3 <= 1 -> k1 * k1 + k2 * k2 + k3 * k3 <= 3) by (intros; assert (k1 * k1 <= 1) by nra; assert (k2 * k2 <= 1) by nra; assert (k3 * k3 <= 1) by nra; lra).
      assert (N : forall u, -1 <= u <= 1 -> -1 <= - u <= 1) by (intros; lra). destruct (Hb t) as [St Ct], (Hb f) as [Sf Cf].
      destruct to_regular.
      - assert (Hq' : to_3d g lon' lat' false true = Ok q) by (unfold to_3d in Hq |- *; exact Hq). rewrite (regular_lin g a b lon' lat' Ea Eb) in Hq'. rewrite Eu in Hq'. fold t f in Hq'. unfold lin in Hq'.
        match type of Hq' with Ok (?A, ?B, ?C) = _ => exists A, B, C end. split; [congruence|].
        match goal with |- ?A * ?A + ?B * ?B + ?C * ?C <= 9 => assert (A * A <= 3 /\ B * B <= 3 /\ C * C <= 3); [|lra] end.
        split; [|split]; apply CS; apply S3; auto using M, N; lra.
      - destruct Hor as [->|C]; [|discriminate C]. rewrite (rotate_lin g a b lon' lat' Ea Eb) in Hq. rewrite Eu in Hq. fold t f in Hq. unfold lin in Hq.
        match type of Hq with Ok (?A, ?B, ?C) = _ => exists A, B, C end. split; [congruence|].
        match goal with |- ?A * ?A + ?B * ?B + ?C * ?C <= 9 => assert (A * A <= 3 /\ B * B <= 3 /\ C * C <= 3); [|lra] end.
        split; [|split]; apply CS; apply S3; auto using M, N; lra. }
    destruct Hq2 as [x [y [z [-> Hn]]]]. destruct (C56_sphere_partial g r lon lat Er) as [p' [Ep Sp]]. assert (p' = p) by congruence. subst p'. destruct p as [[u v] w]. unfold on_sphere, dot3 in Sp. unfold dist3.
    rewrite <- (sqrt_pow2 (r - 3)) by lra. apply sqrt_le_1; [apply pow2_ge_0|repeat apply Rplus_le_le_0_compat; apply pow2_ge_0|].
    assert (I : (u * x + v * y + w * z) ^ 2 + ((u * y - v * x) ^ 2 + (u * z - w * x) ^ 2 + (v * z - w * y) ^ 2) = (u * u + v * v + w * w) * (x * x + y * y + z * z)) by ring.
    (* distance squared: r^2 + n^2 - 2 <p,q>, and <p,q> <= r n *)
    set (n := sqrt (x * x + y * y + z * z)). assert (Hn0 : 0 <= x * x + y * y + z * z) by nra. assert (N2 : n * n = x * x + y * y + z * z) by (apply sqrt_sqrt; exact Hn0). assert (Np : 0 <= n) by apply sqrt_pos. assert (N3 : n <= 3) by nra.
    assert (Dt : u * x + v * y + w * z <= r * n). { pose proof (pow2_ge_0 (u * y - v * x)). pose proof (pow2_ge_0 (u * z - w * x)). pose proof (pow2_ge_0 (v * z - w * y)). rewrite Sp, <- N2 in I. apply Rnot_lt_le. intro C. assert (P0 : 0 <= r * n) by (apply Rmult_le_pos; lra). assert (P1 : (r * n) ^ 2 < (u * x + v * y + w * z) ^ 2) by (cbn [pow]; rewrite !Rmult_1_r; apply Rmult_le_0_lt_compat; assumption). replace (r ^ 2 * (n * n)) with ((r * n) ^ 2) in I by ring. lra. }
    replace ((u - x) ^ 2 + (v - y) ^ 2 + (w - z) ^ 2) with ((u * u + v * v + w * w) + (x * x + y * y + z * z) - 2 * (u * x + v * y + w * z)) by ring. rewrite Sp, <- N2. assert (0 <= r * (3 - n)) by (apply Rmult_le_pos; lra). assert (0 <= (3 - n) * (r - n + r - 3)); [|nra]. apply Rmult_le_pos; lra.
Qed.
Print Assumptions C56_refuted.
Example C56_nonvacuous : g_radius (mkGeo (Some 6371229) (Some (-40)) (Some 10)) = Some 6371229 /\ central_angle 0 0 90 0 (PI / 2) /\ good_pole (-40) 180 /\ ~ good_pole (-45) 45.
Proof.
  split; [reflexivity|]. split; [|split; [|exact pole_45]].
  - split; [pose proof PI_RGT_0; lra|]. unfold degrees. replace (0 * PI / 180) with 0 by field. replace (0 - 90 * PI / 180) with (- (PI / 2)) by field. rewrite cos_neg, cos_PI2, sin_0. ring.
  - right. left. replace (radians 180) with PI by (unfold radians; field). apply sin_PI.
Qed.

(** a message without the keys of the pole, or of the radius, is refused *)
Theorem C56_incomplete : forall g lon lat,
  (g_lat_pole g = None \/ g_lon_pole g = None -> forall rotate, to_3d g lon lat rotate true = Raise TypeError /\ to_3d g lon lat true false = Raise TypeError) /\
  (g_radius g = None -> to_3d g lon lat false false = Raise ValueError).
Proof.
  intros g lon lat. split.
  - intros H rotate. unfold to_3d. destruct H as [H|H]; rewrite H; cbn [need rbind].
    + split; reflexivity.
    + destruct (g_lat_pole g); cbn [need rbind]; split; reflexivity.
  - intro H. unfold to_3d. rewrite H. reflexivity.
Qed.
Print Assumptions C56_incomplete.
Example C56_incomplete_nonvacuous : to_3d (mkGeo (Some 1) None (Some 10)) 0 0 true false = Raise TypeError.
Proof. apply (C56_incomplete (mkGeo (Some 1) None (Some 10)) 0 0). now left. exact true. Qed.
