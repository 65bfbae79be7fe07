(** * Bilinear_P: plane geometry of the bilinear map *)
From Verif Require Import Base Num Strings Xr Adw Bilinear Spec_Bilinear.
From Coq Require Import Psatz Permutation Sorting.
Local Open Scope R_scope.

Lemma ltb_spec a b : reflect (a < b) (ltb a b). Proof. unfold ltb. destruct (Rlt_dec a b); constructor; assumption. Qed.
Lemma leb_spec a b : reflect (a <= b) (leb a b). Proof. unfold leb. destruct (Rle_dec a b); constructor; assumption. Qed.

(** ** the four weights *)
Definition weights4 (a b : R) : list R := [(1 - a) * (1 - b); a * (1 - b); a * b; (1 - a) * b].
Lemma clip_range x : 0 <= clip01 x <= 1.
Proof. unfold clip01. split; [apply Rmax_l|]. apply Rmax_lub; [lra|apply Rmin_l]. Qed.
Lemma clip_id x : 0 <= x <= 1 -> clip01 x = x.
Proof. intros [A B]. unfold clip01. rewrite Rmin_right by exact B. apply Rmax_right. exact A. Qed.
Lemma weights4_convex a b : 0 <= a <= 1 -> 0 <= b <= 1 -> convex_weights (weights4 a b).
Proof.
  intros A B. split; [|unfold weights4, total; ring]. unfold weights4. repeat (apply Forall_cons; [apply Rmult_le_pos; lra|]). apply Forall_nil.
Qed.
Lemma interpolated_affine ws ps a b c : List.length ws = List.length ps -> interpolated ws (map (affine a b c) ps) = a * fst (combination ws ps) + b * snd (combination ws ps) + c * total ws.
Proof.
  revert ps. induction ws as [|w ws IH]; intros [|p ps] L; cbn [List.length] in L; try discriminate; cbn [interpolated combination map total]; [cbn [fst snd]; ring|].
  rewrite IH by congruence. unfold affine. cbn [fst snd]. ring.
Qed.

(** ** the point of a strictly convex quadrilateral is reached *)
Section root.
  Variables x1 y1 x2 y2 x3 y3 x4 y4 X Y : R.
  Let ar (a b c d e f : R) : R := (c - a) * (f - b) - (d - b) * (e - a).
  Hypothesis c1 : 0 < ar x1 y1 x2 y2 x3 y3.
  Hypothesis c2 : 0 < ar x2 y2 x3 y3 x4 y4.
  Hypothesis c3 : 0 < ar x3 y3 x4 y4 x1 y1.
  Hypothesis c4 : 0 < ar x4 y4 x1 y1 x2 y2.
  (** within, or on, every side *)
  Hypothesis s1 : 0 <= ar x1 y1 x2 y2 X Y.
  Hypothesis s2 : 0 <= ar x2 y2 x3 y3 X Y.
  Hypothesis s3 : 0 <= ar x3 y3 x4 y4 X Y.
  Hypothesis s4 : 0 <= ar x4 y4 x1 y1 X Y.
  Let ax a := x1 + a * (x2 - x1). Let ay a := y1 + a * (y2 - y1).
  Let bx a := x4 + a * (x3 - x4). Let by_ a := y4 + a * (y3 - y4).
  Let f a := (X - ax a) * (by_ a - ay a) - (Y - ay a) * (bx a - ax a).
  Lemma f_cont : continuity f.
  Proof.
    unfold f, ax, ay, bx, by_. intro x. reg.
  Qed.
  Lemma root_alpha : exists a, 0 <= a <= 1 /\ f a = 0.
  Proof.
    assert (F0 : 0 <= f 0) by (unfold f, ax, ay, bx, by_; unfold ar in *; nra).
    assert (F1 : f 1 <= 0) by (unfold f, ax, ay, bx, by_; unfold ar in *; nra).
    destruct (IVT_cor (fun a => f a) 0 1 f_cont ltac:(lra)) as [a [Ha Hf]]; [nra|]. exists a. split; [exact Ha|exact Hf].
  Qed.
  Lemma root_exists : exists a b, 0 <= a <= 1 /\ 0 <= b <= 1 /\
    (1 - a) * (1 - b) * x1 + a * (1 - b) * x2 + a * b * x3 + (1 - a) * b * x4 = X /\
    (1 - a) * (1 - b) * y1 + a * (1 - b) * y2 + a * b * y3 + (1 - a) * b * y4 = Y.
  Proof.
    destruct root_alpha as [a [Ha Hf]].
    (* the cross products with the bottom and the top side *)
    set (P := ar x1 y1 x2 y2 (bx a) (by_ a)). set (Q := ar x3 y3 x4 y4 (ax a) (ay a)).
    assert (HP : 0 < P).
    { unfold P. replace (ar x1 y1 x2 y2 (bx a) (by_ a)) with ((1 - a) * ar x4 y4 x1 y1 x2 y2 + a * ar x1 y1 x2 y2 x3 y3) by (unfold ar, bx, by_; ring).
      destruct (Req_dec a 0) as [->|N]; [lra|]. assert (0 < a * ar x1 y1 x2 y2 x3 y3) by (apply Rmult_lt_0_compat; lra). assert (0 <= (1 - a) * ar x4 y4 x1 y1 x2 y2) by (apply Rmult_le_pos; lra). lra. }
    assert (HQ : 0 < Q).
    { unfold Q. replace (ar x3 y3 x4 y4 (ax a) (ay a)) with ((1 - a) * ar x3 y3 x4 y4 x1 y1 + a * ar x2 y2 x3 y3 x4 y4) by (unfold ar, ax, ay; ring).
      destruct (Req_dec a 0) as [->|N]; [lra|]. assert (0 < a * ar x2 y2 x3 y3 x4 y4) by (apply Rmult_lt_0_compat; lra). assert (0 <= (1 - a) * ar x3 y3 x4 y4 x1 y1) by (apply Rmult_le_pos; lra). lra. }
    set (S := ar x1 y1 x2 y2 X Y) in *. set (T := ar x3 y3 x4 y4 X Y) in *.
    exists a, (S / P).
    (* coordinates along the connecting segment *)
    assert (EX : (X - ax a) * P = S * (bx a - ax a)).
    { unfold S, P, ar. unfold f in Hf.
      assert (E : (Y - ay a) * (bx a - ax a) = (X - ax a) * (by_ a - ay a)) by lra.
      assert (A1 : (x2 - x1) * (Y - y1) - (y2 - y1) * (X - x1) = (x2 - x1) * (Y - ay a) - (y2 - y1) * (X - ax a)) by (unfold ax, ay; ring).
      assert (A2 : (x2 - x1) * (by_ a - y1) - (y2 - y1) * (bx a - x1) = (x2 - x1) * (by_ a - ay a) - (y2 - y1) * (bx a - ax a)) by (unfold ax, ay; ring).
      rewrite A1, A2.
      transitivity ((x2 - x1) * ((X - ax a) * (by_ a - ay a)) - (y2 - y1) * (X - ax a) * (bx a - ax a)); [ring|]. rewrite <- E. ring. }
    assert (EY : (Y - ay a) * P = S * (by_ a - ay a)).
    { unfold S, P, ar. unfold f in Hf.
      assert (E : (Y - ay a) * (bx a - ax a) = (X - ax a) * (by_ a - ay a)) by lra.
      assert (A1 : (x2 - x1) * (Y - y1) - (y2 - y1) * (X - x1) = (x2 - x1) * (Y - ay a) - (y2 - y1) * (X - ax a)) by (unfold ax, ay; ring).
      assert (A2 : (x2 - x1) * (by_ a - y1) - (y2 - y1) * (bx a - x1) = (x2 - x1) * (by_ a - ay a) - (y2 - y1) * (bx a - ax a)) by (unfold ax, ay; ring).
      rewrite A1, A2.
      transitivity ((x2 - x1) * (Y - ay a) * (by_ a - ay a) - (y2 - y1) * ((Y - ay a) * (bx a - ax a))); [ring|]. rewrite E. ring. }
    assert (Xb : X = ax a + S / P * (bx a - ax a)) by (apply Rmult_eq_reg_r with P; [|lra]; field_simplify; [|lra]; lra).
    assert (Yb : Y = ay a + S / P * (by_ a - ay a)) by (apply Rmult_eq_reg_r with P; [|lra]; field_simplify; [|lra]; lra).
    assert (B0 : 0 <= S / P) by (apply Rmult_le_pos; [exact s1|left; apply Rinv_0_lt_compat; exact HP]).
    assert (B1 : S / P <= 1).
    { assert (ET : T = (1 - S / P) * Q).
      { unfold T, Q, ar. set (b := S / P) in *. rewrite Xb, Yb. unfold ax, ay, bx, by_. ring. }
      apply Rnot_lt_le. intro L. assert ((1 - S / P) * Q < 0); [|lra]. assert (0 < (S / P - 1) * Q) by (apply Rmult_lt_0_compat; lra). lra. }
    split; [exact Ha|]. split; [split; [exact B0|exact B1]|]. set (b := S / P) in *. split; [rewrite Xb|rewrite Yb]; unfold ax, ay, bx, by_; ring.
  Qed.
End root.

(** ** convexity test *)
Lemma is_convex_spec p1 p2 p3 p4 : is_convex p1 p2 p3 p4 = true <-> strictly_convex p1 p2 p3 p4.
Proof.
  unfold is_convex. set (rxs := cross (vsub p3 p1) (vsub p4 p2)). set (u := cross (vsub p2 p1) (vsub p3 p1)). set (t := cross (vsub p2 p1) (vsub p4 p2)).
  assert (A1 : area2 p1 p2 p3 = u) by (unfold u, area2, cross, vsub; cbn [fst snd]; ring).
  assert (A2 : area2 p2 p3 p4 = rxs - t) by (unfold rxs, t, area2, cross, vsub; cbn [fst snd]; ring).
  assert (A3 : area2 p3 p4 p1 = rxs - u) by (unfold rxs, u, area2, cross, vsub; cbn [fst snd]; ring).
  assert (A4 : area2 p4 p1 p2 = t) by (unfold t, area2, cross, vsub; cbn [fst snd]; ring).
  unfold strictly_convex. rewrite A1, A2, A3, A4. clearbody rxs u t. clear.
  assert (Dpos : forall x, 0 < rxs -> (0 < x / rxs <-> 0 < x) /\ (x / rxs < 1 <-> x < rxs)).
  { intros x P. assert (E : x / rxs * rxs = x) by (field; lra). set (y := x / rxs) in *. clearbody y. subst x. split; split; intro; nra. }
  assert (Dneg : forall x, rxs < 0 -> (0 < x / rxs <-> x < 0) /\ (x / rxs < 1 <-> rxs < x)).
  { intros x P. assert (E : x / rxs * rxs = x) by (field; lra). set (y := x / rxs) in *. clearbody y. subst x. split; split; intro; nra. }
  destruct (Req_EM_T rxs 0) as [E|N]; [split; [discriminate|lra]|].
  rewrite !andb_true_iff. destruct (Rtotal_order rxs 0) as [L|[L|L]]; [|lra|].
  - destruct (Dneg t L) as [T1 T2], (Dneg u L) as [U1 U2].
    destruct (ltb_spec 0 (t / rxs)), (ltb_spec (t / rxs) 1), (ltb_spec 0 (u / rxs)), (ltb_spec (u / rxs) 1); split; intuition (try discriminate; try lra).
  - destruct (Dpos t L) as [T1 T2], (Dpos u L) as [U1 U2].
    destruct (ltb_spec 0 (t / rxs)), (ltb_spec (t / rxs) 1), (ltb_spec 0 (u / rxs)), (ltb_spec (u / rxs) 1); split; intuition (try discriminate; try lra).
Qed.

(** ** point in triangle *)
Lemma sign3_area a b c : sign3 a b c = area2 a b c.
Proof. unfold sign3, area2. ring. Qed.
Lemma area_sum p a b c : area2 p a b + area2 p b c + area2 p c a = area2 a b c.
Proof. unfold area2. ring. Qed.
Lemma in_triangle_signs p a b c : in_triangle p a b c = true <->
  (0 <= area2 p a b /\ 0 <= area2 p b c /\ 0 <= area2 p c a) \/ (area2 p a b <= 0 /\ area2 p b c <= 0 /\ area2 p c a <= 0).
Proof.
  unfold in_triangle. rewrite !sign3_area. set (d1 := area2 p a b). set (d2 := area2 p b c). set (d3 := area2 p c a). clearbody d1 d2 d3. clear.
  rewrite negb_true_iff, andb_false_iff, !orb_false_iff.
  destruct (ltb_spec d1 0), (ltb_spec d2 0), (ltb_spec d3 0), (ltb_spec 0 d1), (ltb_spec 0 d2), (ltb_spec 0 d3); split; intuition (try discriminate; try lra).
Qed.
Lemma in_triangle_hull p a b c : area2 a b c <> 0 -> (in_triangle p a b c = true <-> in_hull p [a; b; c]).
Proof.
  intro N. rewrite in_triangle_signs. pose proof (area_sum p a b c) as S. split.
  - intro H. set (A := area2 a b c) in *. set (d1 := area2 p a b) in *. set (d2 := area2 p b c) in *. set (d3 := area2 p c a) in *.
    exists [d2 / A; d3 / A; d1 / A]. split; [reflexivity|]. split.
    + split; [|cbn [total]; rewrite <- S; field; lra].
      assert (Q : forall x, (0 <= x /\ 0 < A) \/ (x <= 0 /\ A < 0) -> 0 <= x / A).
      { intros x [[X P]|[X P]]; [apply Rmult_le_pos; [exact X|left; apply Rinv_0_lt_compat; exact P]|]. replace (x / A) with ((- x) / (- A)) by (field; lra). apply Rmult_le_pos; [lra|left; apply Rinv_0_lt_compat; lra]. }
      repeat (apply Forall_cons; [apply Q; lra|]). apply Forall_nil.
    + destruct p as [px py]. cbn [combination fst snd]. assert (E1 : px * A = d2 * fst a + d3 * fst b + d1 * fst c) by (unfold A, d1, d2, d3, area2; cbn [fst snd]; ring).
      assert (E2 : py * A = d2 * snd a + d3 * snd b + d1 * snd c) by (unfold A, d1, d2, d3, area2; cbn [fst snd]; ring).
      f_equal; apply Rmult_eq_reg_r with A; [|exact N| |exact N]; [rewrite E1|rewrite E2]; field; exact N.
  - intros [ws [L [[F T] C]]]. destruct ws as [|w1 [|w2 [|w3 [|]]]]; try discriminate L. cbn [total] in T.
    inversion_clear F as [|? ? W1 F']. inversion_clear F' as [|? ? W2 F'']. inversion_clear F'' as [|? ? W3 _].
    cbn [combination fst snd] in C. assert (T' : w1 = 1 - w2 - w3) by lra. destruct p as [px py]. injection C as C1 C2.
    assert (D1 : area2 (px, py) a b = w3 * area2 a b c) by (unfold area2; cbn [fst snd]; rewrite <- C1, <- C2, T'; ring).
    assert (D2 : area2 (px, py) b c = w1 * area2 a b c) by (unfold area2; cbn [fst snd]; rewrite <- C1, <- C2, T'; ring).
    assert (D3 : area2 (px, py) c a = w2 * area2 a b c) by (unfold area2; cbn [fst snd]; rewrite <- C1, <- C2, T'; ring).
    rewrite D1, D2, D3. destruct (Rle_lt_dec 0 (area2 a b c)); [left|right]; repeat split; nra.
Qed.

(** ** point in quadrilateral *)
Lemma convex_area p1 p2 p3 p4 : strictly_convex p1 p2 p3 p4 -> area2 p1 p2 p3 <> 0 /\ area2 p1 p4 p3 <> 0.
Proof. assert (E : area2 p1 p4 p3 = - area2 p3 p4 p1) by (unfold area2; ring). unfold strictly_convex. rewrite E. intros [H|H]; split; lra. Qed.
Lemma hull4 p p1 p2 p3 p4 : in_hull p [p1; p2; p3; p4] <-> exists w1 w2 w3 w4, 0 <= w1 /\ 0 <= w2 /\ 0 <= w3 /\ 0 <= w4 /\ w1 + w2 + w3 + w4 = 1 /\
   p = (w1 * fst p1 + w2 * fst p2 + w3 * fst p3 + w4 * fst p4, w1 * snd p1 + w2 * snd p2 + w3 * snd p3 + w4 * snd p4).
Proof.
  split.
  - intros [ws [L [[F T] C]]]. destruct ws as [|w1 [|w2 [|w3 [|w4 [|]]]]]; try discriminate L. cbn [total] in T. exists w1, w2, w3, w4.
    inversion_clear F as [|? ? W1 F']. inversion_clear F' as [|? ? W2 F'']. inversion_clear F'' as [|? ? W3 F3]. inversion_clear F3 as [|? ? W4 _]. repeat (split; [lra|]). rewrite <- C. cbn [combination fst snd]. f_equal; ring.
  - intros [w1 [w2 [w3 [w4 [H1 [H2 [H3 [H4 [T E]]]]]]]]]. exists [w1; w2; w3; w4]. split; [reflexivity|]. split; [split|].
    + repeat (apply Forall_cons; [assumption|]). apply Forall_nil.
    + cbn [total]. lra.
    + rewrite E. cbn [combination fst snd]. f_equal; ring.
Qed.
Lemma in_quad_hull p p1 p2 p3 p4 : strictly_convex p1 p2 p3 p4 -> (in_quad p p1 p2 p3 p4 = true <-> in_hull p [p1; p2; p3; p4]).
Proof.
  intro V. destruct (convex_area _ _ _ _ V) as [N1 N2]. unfold in_quad. rewrite orb_true_iff, (in_triangle_hull _ _ _ _ N1), (in_triangle_hull _ _ _ _ N2). rewrite hull4. split.
  - intros [[ws [L [[F T] C]]]|[ws [L [[F T] C]]]]; destruct ws as [|w1 [|w2 [|w3 [|]]]]; try discriminate L; cbn [total] in T;
    inversion_clear F as [|? ? W1 F']; inversion_clear F' as [|? ? W2 F'']; inversion_clear F'' as [|? ? W3 _]; cbn [combination fst snd] in C.
    + exists w1, w2, w3, 0. repeat (split; [lra|]). rewrite <- C. f_equal; ring.
    + exists w1, 0, w3, w2. repeat (split; [lra|]). rewrite <- C. f_equal; ring.
  - intros [w1 [w2 [w3 [w4 [W1 [W2 [W3 [W4 [T E]]]]]]]]].
    rewrite <- (in_triangle_hull _ _ _ _ N1), <- (in_triangle_hull _ _ _ _ N2), !in_triangle_signs.
    assert (T1 : w1 = 1 - w2 - w3 - w4) by lra.
    set (a := area2 p1 p2 p3). set (b := area2 p2 p3 p4). set (c := area2 p3 p4 p1). set (d := area2 p4 p1 p2).
    assert (D1 : area2 p p1 p2 = w3 * a + w4 * d) by (subst p; unfold a, d, area2; cbn [fst snd]; rewrite T1; ring).
    assert (D2 : area2 p p2 p3 = w1 * a + w4 * b) by (subst p; unfold a, b, area2; cbn [fst snd]; rewrite T1; ring).
    assert (D3 : area2 p p3 p1 = w2 * a - w4 * c) by (subst p; unfold a, c, area2; cbn [fst snd]; rewrite T1; ring).
    assert (E1 : area2 p p1 p4 = - (w2 * d + w3 * c)) by (subst p; unfold c, d, area2; cbn [fst snd]; rewrite T1; ring).
    assert (E2 : area2 p p4 p3 = - (w1 * c + w2 * b)) by (subst p; unfold c, b, area2; cbn [fst snd]; rewrite T1; ring).
    rewrite D1, D2, D3, E1, E2. unfold strictly_convex in V. fold a b c d in V. clearbody a b c d. clear - V W1 W2 W3 W4.
    destruct V as [[A [B [C D]]]|[A [B [C D]]]]; destruct (Rle_lt_dec (w2 * a) (w4 * c)) as [L|L].
    + right. right. repeat split; nra.
    + left. left. repeat split; nra.
    + left. right. repeat split; nra.
    + right. left. repeat split; nra.
Qed.

(** points of a convex quadrilateral are reached by the bilinear map *)
Lemma reached (p1 p2 p3 p4 p : plane) : strictly_convex p1 p2 p3 p4 -> in_hull p [p1; p2; p3; p4] ->
  exists a b, 0 <= a <= 1 /\ 0 <= b <= 1 /\ combination (weights4 a b) [p1; p2; p3; p4] = p.
Proof.
  intros V H. apply hull4 in H. destruct H as [w1 [w2 [w3 [w4 [W1 [W2 [W3 [W4 [T E]]]]]]]]]. assert (T1 : w1 = 1 - w2 - w3 - w4) by lra.
  destruct p1 as [x1 y1], p2 as [x2 y2], p3 as [x3 y3], p4 as [x4 y4], p as [X Y]. unfold strictly_convex, area2 in V. cbn [fst snd] in V, E. injection E as EX EY.
  unfold weights4. cbn [combination fst snd].
  destruct V as [[A [B [C D]]]|[A [B [C D]]]].
  - destruct (root_exists x1 y1 x2 y2 x3 y3 x4 y4 X Y) as [a [b [Ha [Hb [R1 R2]]]]]; try assumption.
    1-4: rewrite EX, EY, T1.
    + replace ((x2 - x1) * ((1 - w2 - w3 - w4) * y1 + w2 * y2 + w3 * y3 + w4 * y4 - y1) - (y2 - y1) * ((1 - w2 - w3 - w4) * x1 + w2 * x2 + w3 * x3 + w4 * x4 - x1))
        with (w3 * ((x2 - x1) * (y3 - y1) - (y2 - y1) * (x3 - x1)) + w4 * ((x1 - x4) * (y2 - y4) - (y1 - y4) * (x2 - x4))) by ring. nra.
    + replace ((x3 - x2) * ((1 - w2 - w3 - w4) * y1 + w2 * y2 + w3 * y3 + w4 * y4 - y2) - (y3 - y2) * ((1 - w2 - w3 - w4) * x1 + w2 * x2 + w3 * x3 + w4 * x4 - x2))
        with (w1 * ((x2 - x1) * (y3 - y1) - (y2 - y1) * (x3 - x1)) + w4 * ((x3 - x2) * (y4 - y2) - (y3 - y2) * (x4 - x2))) by (rewrite T1; ring). nra.
    + replace ((x4 - x3) * ((1 - w2 - w3 - w4) * y1 + w2 * y2 + w3 * y3 + w4 * y4 - y3) - (y4 - y3) * ((1 - w2 - w3 - w4) * x1 + w2 * x2 + w3 * x3 + w4 * x4 - x3))
        with (w1 * ((x4 - x3) * (y1 - y3) - (y4 - y3) * (x1 - x3)) + w2 * ((x3 - x2) * (y4 - y2) - (y3 - y2) * (x4 - x2))) by (rewrite T1; ring). nra.
    + replace ((x1 - x4) * ((1 - w2 - w3 - w4) * y1 + w2 * y2 + w3 * y3 + w4 * y4 - y4) - (y1 - y4) * ((1 - w2 - w3 - w4) * x1 + w2 * x2 + w3 * x3 + w4 * x4 - x4))
        with (w2 * ((x1 - x4) * (y2 - y4) - (y1 - y4) * (x2 - x4)) + w3 * ((x4 - x3) * (y1 - y3) - (y4 - y3) * (x1 - x3))) by ring. nra.
    + exists a, b. split; [exact Ha|]. split; [exact Hb|]. f_equal; lra.
  - (* the other orientation: exchange p2 and p4 *)
    destruct (root_exists x1 y1 x4 y4 x3 y3 x2 y2 X Y) as [a [b [Ha [Hb [R1 R2]]]]].
    5-8: rewrite EX, EY, T1.
    1-4: lra.
    + replace ((x4 - x1) * ((1 - w2 - w3 - w4) * y1 + w2 * y2 + w3 * y3 + w4 * y4 - y1) - (y4 - y1) * ((1 - w2 - w3 - w4) * x1 + w2 * x2 + w3 * x3 + w4 * x4 - x1))
        with (- (w2 * ((x1 - x4) * (y2 - y4) - (y1 - y4) * (x2 - x4)) + w3 * ((x4 - x3) * (y1 - y3) - (y4 - y3) * (x1 - x3)))) by ring. nra.
    + replace ((x3 - x4) * ((1 - w2 - w3 - w4) * y1 + w2 * y2 + w3 * y3 + w4 * y4 - y4) - (y3 - y4) * ((1 - w2 - w3 - w4) * x1 + w2 * x2 + w3 * x3 + w4 * x4 - x4))
        with (- (w1 * ((x4 - x3) * (y1 - y3) - (y4 - y3) * (x1 - x3)) + w2 * ((x3 - x2) * (y4 - y2) - (y3 - y2) * (x4 - x2)))) by (rewrite T1; ring). nra.
    + replace ((x2 - x3) * ((1 - w2 - w3 - w4) * y1 + w2 * y2 + w3 * y3 + w4 * y4 - y3) - (y2 - y3) * ((1 - w2 - w3 - w4) * x1 + w2 * x2 + w3 * x3 + w4 * x4 - x3))
        with (- (w1 * ((x2 - x1) * (y3 - y1) - (y2 - y1) * (x3 - x1)) + w4 * ((x3 - x2) * (y4 - y2) - (y3 - y2) * (x4 - x2)))) by (rewrite T1; ring). nra.
    + replace ((x1 - x2) * ((1 - w2 - w3 - w4) * y1 + w2 * y2 + w3 * y3 + w4 * y4 - y2) - (y1 - y2) * ((1 - w2 - w3 - w4) * x1 + w2 * x2 + w3 * x3 + w4 * x4 - x2))
        with (- (w3 * ((x2 - x1) * (y3 - y1) - (y2 - y1) * (x3 - x1)) + w4 * ((x1 - x4) * (y2 - y4) - (y1 - y4) * (x2 - x4)))) by ring. nra.
    + exists b, a. split; [exact Hb|]. split; [exact Ha|]. f_equal; lra.
Qed.
