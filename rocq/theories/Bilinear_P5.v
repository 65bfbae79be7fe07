(** * Bilinear_P5: uniqueness of the bilinear coordinates, rows of the table *)
From Verif Require Import Base Base_P Num Strings Xr Adw Bilinear Spec_Bilinear Bilinear_P Bilinear_P2 Bilinear_P3 Bilinear_P4.
From Coq Require Import Psatz Permutation.
Local Open Scope R_scope.

(** ** one pair of coordinates only *)
Lemma indep u v x1 y1 x2 y2 : u * x1 + v * x2 = 0 -> u * y1 + v * y2 = 0 -> x1 * y2 - y1 * x2 <> 0 -> u = 0 /\ v = 0.
Proof.
  intros E1 E2 N. split; apply Rmult_eq_reg_r with (x1 * y2 - y1 * x2); try exact N.
  - transitivity (y2 * (u * x1 + v * x2) - x2 * (u * y1 + v * y2)); [ring|]. rewrite E1, E2. ring.
  - transitivity (x1 * (u * y1 + v * y2) - y1 * (u * x1 + v * x2)); [ring|]. rewrite E1, E2. ring.
Qed.
Lemma sum4_pos (a b A B C D : R) : 0 <= a <= 1 -> 0 <= b <= 1 -> 0 < A -> 0 < B -> 0 < C -> 0 < D ->
  0 < (1 - a) * (1 - b) * D + a * (1 - b) * A + a * b * B + (1 - a) * b * C.
Proof.
  intros Ha Hb PA PB PC PD. set (m := Rmin (Rmin A B) (Rmin C D)).
  assert (M1 := Rmin_l (Rmin A B) (Rmin C D)). assert (M2 := Rmin_r (Rmin A B) (Rmin C D)). assert (M3 := Rmin_l A B). assert (M4 := Rmin_r A B). assert (M5 := Rmin_l C D). assert (M6 := Rmin_r C D).
  assert (MP : 0 < m) by (unfold m; repeat apply Rmin_glb_lt; assumption). fold m in M1, M2.
  assert (Q : forall w X, 0 <= w -> m <= X -> w * m <= w * X) by (intros; apply Rmult_le_compat_l; assumption).
  assert (W1 : 0 <= (1 - a) * (1 - b)) by (apply Rmult_le_pos; lra). assert (W2 : 0 <= a * (1 - b)) by (apply Rmult_le_pos; lra). assert (W3 : 0 <= a * b) by (apply Rmult_le_pos; lra). assert (W4 : 0 <= (1 - a) * b) by (apply Rmult_le_pos; lra).
  pose proof (Q _ D W1 ltac:(lra)). pose proof (Q _ A W2 ltac:(lra)). pose proof (Q _ B W3 ltac:(lra)). pose proof (Q _ C W4 ltac:(lra)).
  assert (E : (1 - a) * (1 - b) * m + a * (1 - b) * m + a * b * m + (1 - a) * b * m = m) by ring. lra.
Qed.
Lemma root_unique (p1 p2 p3 p4 : plane) a b a' b' : strictly_convex p1 p2 p3 p4 -> 0 <= a <= 1 -> 0 <= b <= 1 -> 0 <= a' <= 1 -> 0 <= b' <= 1 ->
  combination (weights4 a b) [p1; p2; p3; p4] = combination (weights4 a' b') [p1; p2; p3; p4] -> a = a' /\ b = b'.
Proof.
  intros V Ha Hb Ha' Hb' E. unfold weights4 in E. cbn [combination] in E. destruct p1 as [x1 y1], p2 as [x2 y2], p3 as [x3 y3], p4 as [x4 y4]. cbn [fst snd] in E. injection E as EX EY.
  unfold strictly_convex, area2 in V. cbn [fst snd] in V. set (al := (a + a') / 2). set (be := (b + b') / 2). assert (Hal : 0 <= al <= 1) by (unfold al; lra). assert (Hbe : 0 <= be <= 1) by (unfold be; lra).
  set (ux := (1 - be) * (x2 - x1) + be * (x3 - x4)). set (uy := (1 - be) * (y2 - y1) + be * (y3 - y4)). set (vx := (1 - al) * (x4 - x1) + al * (x3 - x2)). set (vy := (1 - al) * (y4 - y1) + al * (y3 - y2)).
  destruct (indep (a - a') (b - b') ux uy vx vy) as [A B]; [| | |split; lra].
  - match type of EX with ?l = ?r => transitivity (l - r) end; [unfold ux, vx, al, be; field|lra].
  - match type of EY with ?l = ?r => transitivity (l - r) end; [unfold uy, vy, al, be; field|lra].
  - set (A := (x2 - x1) * (y3 - y1) - (y2 - y1) * (x3 - x1)) in *. set (B := (x3 - x2) * (y4 - y2) - (y3 - y2) * (x4 - x2)) in *. set (C := (x4 - x3) * (y1 - y3) - (y4 - y3) * (x1 - x3)) in *. set (D := (x1 - x4) * (y2 - y4) - (y1 - y4) * (x2 - x4)) in *.
    assert (J : ux * vy - uy * vx = (1 - al) * (1 - be) * D + al * (1 - be) * A + al * be * B + (1 - al) * be * C) by (unfold ux, uy, vx, vy, A, B, C, D; ring).
    rewrite J. destruct V as [[P1 [P2 [P3 P4]]]|[P1 [P2 [P3 P4]]]].
    + pose proof (sum4_pos al be A B C D Hal Hbe P1 P2 P3 P4). lra.
    + pose proof (sum4_pos al be (- A) (- B) (- C) (- D) Hal Hbe ltac:(lra) ltac:(lra) ltac:(lra) ltac:(lra)). lra.
Qed.

(** ** rows *)
Definition qxy (q : quad) : list plane := map xy (corners q).
Lemma fn_combination q la lo a b : fn_alpha_beta q la lo a b = (0, 0) <-> combination (weights4 a b) (qxy q) = (la, lo).
Proof.
  destruct q as [[[p1 p2] p3] p4]. unfold fn_alpha_beta, qxy, weights4. cbn [corners map combination xy fst snd]. split; intro E; injection E as E1 E2; f_equal; lra.
Qed.
Lemma quad_row_weights (solve : quad -> R -> R -> R * R) q la lo : exists a b, 0 <= a <= 1 /\ 0 <= b <= 1 /\ a = clip01 (fst (solve q la lo)) /\ b = clip01 (snd (solve q la lo)) /\ quad_row solve q la lo = (map XF (weights4 a b), map cidx (corners q)).
Proof.
  exists (clip01 (fst (solve q la lo))), (clip01 (snd (solve q la lo))). split; [apply clip_range|]. split; [apply clip_range|]. split; [reflexivity|]. split; [reflexivity|].
  unfold quad_row. destruct q as [[[p1 p2] p3] p4]. destruct (solve (p1, p2, p3, p4) la lo). reflexivity.
Qed.

(** corners are source points, drawn around the target *)
Lemma corner_seen g lo i c : corner_of g lo i = Ok c -> exists lat lon, py_index (latgrib g) i = Ok lat /\ py_index (longrib g) i = Ok lon /\ cidx c = i /\ xy c = correct_point lo lat lon.
Proof.
  unfold corner_of. intro H. apply rbind_ok in H. destruct H as [lat [H1 H]]. apply rbind_ok in H. destruct H as [lon [H2 H]]. exists lat, lon. repeat (split; [assumption|]). destruct (correct_point lo lat lon) as [a b] eqn:E. inversion H; subst. split; reflexivity.
Qed.
Lemma mapM_corners g lo : forall idx cs, corners_are g lo idx cs -> map cidx cs = idx /\ (forall c, In c cs -> corner_of g lo (cidx c) = Ok c).
Proof.
  unfold corners_are. induction idx as [|i idx IH]; intros cs H; cbn [mapM] in H; [assert (cs = []) by congruence; subst; split; [reflexivity|contradiction]|].
  apply rbind_ok in H. destruct H as [c [Hc H]]. apply rbind_ok in H. destruct H as [cs' [H E]]. assert (cs = c :: cs') by congruence. subst cs. destruct (IH _ H) as [I1 I2]. destruct (corner_seen _ _ _ _ Hc) as [_ [_ [_ [_ [Ei _]]]]].
  split; [cbn [map]; now rewrite I1, Ei|]. intros c' [<-|H']; [rewrite Ei; exact Hc|apply I2; exact H'].
Qed.
Lemma correct_point_seen lo lat lon : -180 <= lo <= 180 -> -180 <= lon <= 360 -> (lat <> 0 \/ Rabs (lo - reference lo (to180 lon)) <= 90) -> seen_from lo lat lon (correct_point lo lat lon).
Proof.
  intros Hlo Hlon H. destruct (correct_point lo lat lon) as [lat' lon'] eqn:E. split; [exact (correct_point_near _ _ _ _ _ Hlo Hlon E)|]. cbn [fst snd]. unfold correct_point in E. set (lon1 := reference lo (to180 lon)) in *.
  assert (T1 : turns lon lon1) by (eapply turns_trans; [apply to180_turns|apply reference_turns]).
  destruct (Rlt_dec 90 (Rabs (lo - lon1))) as [F|F].
  - right. injection E as E1 E2. subst. split.
    + unfold rsign. destruct (Rlt_dec 0 lat); [left; split; [assumption|lra]|]. destruct (Rlt_dec lat 0); [right; split; [assumption|lra]|]. exfalso. destruct H; lra.
    + assert (T2 : turns (lon + 180) (lon1 + 180)) by (destruct T1 as [k ->]; exists k; lra). eapply turns_trans; [exact T2|]. eapply turns_trans; [apply mod360_turns|]. eapply turns_trans; [apply to180_turns|apply reference_turns].
  - left. injection E as E1 E2. subst. split; [reflexivity|]. eapply turns_trans; [exact T1|apply reference_turns].
Qed.
Lemma near_reference lo lon : -180 <= lo <= 180 -> -180 <= lon <= 360 -> (exists k, Rabs (lo - (lon + 360 * IZR k)) < 90) -> Rabs (lo - reference lo (to180 lon)) <= 90.
Proof.
  intros Hlo Hlon [k Hk].
  assert (T1 : turns (reference lo (to180 lon)) lon).
  { assert (T : turns lon (reference lo (to180 lon))) by (eapply turns_trans; [apply to180_turns|apply reference_turns]). destruct T as [m E]. exists (- m)%Z. rewrite opp_IZR. lra. }
  set (lon1 := reference lo (to180 lon)) in *.
  assert (R1 : (lo < -90 -> -360 <= lon1 <= 0) /\ (90 < lo -> 0 <= lon1 <= 360) /\ (-180 <= lon1 <= 180 \/ lo < -90 \/ 90 < lo)).
  { unfold lon1, reference, to180. destruct (Rlt_dec 180 lon), (Rlt_dec lo (-90)), (Rlt_dec 90 lo);
    repeat match goal with |- context [Rlt_dec ?a ?b] => destruct (Rlt_dec a b) end; lra. }
  destruct T1 as [m T1]. rewrite T1 in Hk. replace (lon1 + 360 * IZR m + 360 * IZR k) with (lon1 + 360 * IZR (m + k)) in Hk by (rewrite plus_IZR; ring). set (n := (m + k)%Z) in *. clearbody n lon1. clear T1 m Hlon k lon.
  assert (N : n = 0%Z \/ (n <= -1)%Z \/ (1 <= n)%Z) by lia. destruct N as [-> |[N|N]].
  - rewrite Rmult_0_r, Rplus_0_r in Hk. lra.
  - apply IZR_le in N. unfold Rabs in *. repeat match goal with |- context [Rcase_abs ?a] => destruct (Rcase_abs a) | H : context [Rcase_abs ?a] |- _ => destruct (Rcase_abs a) end; lra.
  - apply IZR_le in N. unfold Rabs in *. repeat match goal with |- context [Rcase_abs ?a] => destruct (Rcase_abs a) | H : context [Rcase_abs ?a] |- _ => destruct (Rcase_abs a) end; lra.
Qed.
