(** * Triang_P: barycentric coordinates, padding, scaling *)
From Verif Require Import Base Base_P Num Num_P Strings Xr Adw Bilinear Triang Spec_Bilinear Spec_Triang Bilinear_P.
From Coq Require Import Psatz Permutation Sorting.
Local Open Scope R_scope.

(** ** barycentric coordinates *)
Lemma barycentric_weights a b c r0 r1 w1 w2 w3 p : inverse_rows a b c r0 r1 -> w1 + w2 + w3 = 1 -> combination [w1; w2; w3] [a; b; c] = p -> barycentric (r0, r1, c) p = (w1, w2).
Proof.
  intros [H1 [H2 [H3 H4]]] T <-. unfold barycentric, dot, minus in *. cbn [combination fst snd] in *. assert (W : w3 = 1 - w1 - w2) by lra. subst w3. destruct a as [a1 a2], b as [b1 b2], c as [c1 c2], r0 as [x0 y0], r1 as [x1 y1]. cbn [fst snd] in *. f_equal.
  - transitivity (w1 * (x0 * (a1 - c1) + y0 * (a2 - c2)) + w2 * (x0 * (b1 - c1) + y0 * (b2 - c2))); [ring|]. rewrite H1, H2. ring.
  - transitivity (w1 * (x1 * (a1 - c1) + y1 * (a2 - c2)) + w2 * (x1 * (b1 - c1) + y1 * (b2 - c2))); [ring|]. rewrite H3, H4. ring.
Qed.
Lemma hull3 p a b c : in_hull p [a; b; c] -> exists w1 w2 w3, 0 <= w1 /\ 0 <= w2 /\ 0 <= w3 /\ w1 + w2 + w3 = 1 /\ combination [w1; w2; w3] [a; b; c] = p.
Proof.
  intros [ws [L [[F T] C]]]. destruct ws as [|w1 [|w2 [|w3 [|]]]]; try discriminate L. cbn [total] in T. inversion_clear F as [|? ? W1 F']. inversion_clear F' as [|? ? W2 F'']. inversion_clear F'' as [|? ? W3 _]. exists w1, w2, w3. repeat (split; [assumption || lra|]). exact C.
Qed.
Lemma triangle_row_exact a b c r0 r1 p idx : inverse_rows a b c r0 r1 -> in_hull p [a; b; c] -> List.length idx = 3%nat ->
  exists ws, triangle_row (r0, r1, c) p idx = (map XF ws, idx) /\ List.length ws = 3%nat /\ convex_weights ws /\ combination ws [a; b; c] = p.
Proof.
  intros I H L. destruct (hull3 p a b c H) as [w1 [w2 [w3 [N1 [N2 [N3 [T C]]]]]]]. exists [w1; w2; w3]. unfold triangle_row. rewrite (barycentric_weights a b c r0 r1 w1 w2 w3 p I T C). rewrite L. cbn [Nat.sub repeat app map]. split; [f_equal; repeat f_equal; lra|]. split; [reflexivity|]. split; [|exact C].
  split; [repeat (apply Forall_cons; [lra|]); apply Forall_nil|cbn [total]; lra].
Qed.

(** ** padding *)
Lemma f2_impl {A B} (P Q : A -> B -> Prop) l l' : (forall x y, P x y -> Q x y) -> Forall2 P l l' -> Forall2 Q l l'.
Proof. intros H F. induction F; constructor; auto. Qed.
Lemma where_filter f : forall ps n, Forall2 (fun i q => exists m, i = (n + Z.of_nat m)%Z /\ nth_error ps m = Some q) (where_from n f ps) (filter f ps).
Proof.
  induction ps as [|p ps IH]; intro n; cbn [where_from filter]; [constructor|].
  assert (S : Forall2 (fun i q => exists m, i = (n + Z.of_nat m)%Z /\ nth_error (p :: ps) m = Some q) (where_from (n + 1) f ps) (filter f ps)).
  { eapply f2_impl; [|apply (IH (n + 1)%Z)]. cbn beta. intros i q [m [E1 E2]]. exists (S m). split; [lia|exact E2]. }
  destruct (f p); [|exact S]. constructor; [|exact S]. exists O. split; [lia|reflexivity].
Qed.
Lemma f2_app_nth {A B} (P : A -> B -> Prop) l l' : Forall2 P l l' -> forall n y, nth_error l' n = Some y -> exists x, nth_error l n = Some x /\ P x y.
Proof. induction 1 as [|a b l l' H F IH]; intros [|n] y Hy; try discriminate Hy; cbn [nth_error] in *; [exists a; split; [reflexivity|congruence]|]. exact (IH n y Hy). Qed.
Lemma padded_origin ps r n p : nth_error (padded ps r) n = Some p ->
  ((n < List.length ps)%nat /\ nth_error ps n = Some p) \/
  ((List.length ps <= n)%nat /\ exists m q k, nth_error (original_indexes ps r) (n - List.length ps) = Some (Z.of_nat m) /\ nth_error ps m = Some q /\ p = shift_lon (360 * IZR k) q).
Proof.
  intro H. unfold padded in H. rewrite <- app_assoc in H. destruct (Nat.lt_ge_cases n (List.length ps)) as [L|L]; [left; split; [exact L|]; rewrite nth_error_app1 in H by exact L; exact H|]. right. split; [exact L|].
  rewrite nth_error_app2 in H by exact L. set (j := (n - List.length ps)%nat) in *. clearbody j.
  assert (F : Forall2 (fun i p => exists m q k, i = Z.of_nat m /\ nth_error ps m = Some q /\ p = shift_lon (360 * IZR k) q) (original_indexes ps r) (map (shift_lon (-360)) (filter (at_right ps r) ps) ++ map (shift_lon 360) (filter (at_left ps r) ps))).
  { assert (G : forall d k f, d = 360 * IZR k -> Forall2 (fun i p => exists m q k, i = Z.of_nat m /\ nth_error ps m = Some q /\ p = shift_lon (360 * IZR k) q) (where_from 0 f ps) (map (shift_lon d) (filter f ps))).
    { intros d k f ->. pose proof (where_filter f ps 0) as W. induction W as [|i q l l' [m [E1 E2]] W IH]; cbn [map]; constructor; [|exact IH]. exists m, q, k. split; [lia|]. split; [exact E2|reflexivity]. }
    unfold original_indexes. apply Forall2_app; [apply (G (-360) (-1)%Z); lra|apply (G 360 1%Z); lra]. }
  destruct (f2_app_nth _ _ _ F j p H) as [i [E [m [q [k [-> [E2 E3]]]]]]]. exists m, q, k. split; [exact E|]. split; [exact E2|exact E3].
Qed.
Lemma unpad_origin ps r n p : nth_error (padded ps r) n = Some p ->
  exists j, unpad (Z.of_nat (List.length ps)) (original_indexes ps r) (Z.of_nat n) = Ok j /\
    (j = Z.of_nat (List.length ps) \/ exists m q k, j = Z.of_nat m /\ nth_error ps m = Some q /\ p = shift_lon (360 * IZR k) q).
Proof.
  intro H. unfold unpad. rewrite Z.gtb_ltb. destruct (padded_origin ps r n p H) as [[L E]|[L [m [q [k [E [E2 E3]]]]]]].
  - destruct (Z.ltb_spec (Z.of_nat (List.length ps)) (Z.of_nat n)); [lia|]. exists (Z.of_nat n). split; [reflexivity|]. right. exists n, p, 0%Z. split; [reflexivity|]. split; [exact E|]. unfold shift_lon. destruct p as [la lo]. cbn [fst snd]. f_equal. lra.
  - destruct (Z.ltb_spec (Z.of_nat (List.length ps)) (Z.of_nat n)) as [G|G].
    + exists (Z.of_nat m). split; [|right; exists m, q, k; auto]. replace (Z.of_nat n - Z.of_nat (List.length ps))%Z with (Z.of_nat (n - List.length ps)) by lia. rewrite py_index_nat, E. reflexivity.
    + exists (Z.of_nat n). split; [reflexivity|left]. lia.
Qed.

(** ** coordinates of the source *)
Lemma to180_turns lo : full_turns lo (to180 lo).
Proof. unfold to180. destruct (Rlt_dec 180 lo); [exists (-1)%Z|exists 0%Z]; lra. Qed.
Lemma normalized_nth g n p : nth_error (normalized g) n = Some p -> exists la lo, nth_error (latgrib g) n = Some la /\ nth_error (longrib g) n = Some lo /\ fst p = la /\ full_turns lo (snd p).
Proof.
  unfold normalized. revert n. generalize (longrib g). induction (latgrib g) as [|la l IH]; intros [|lo l'] [|n] H; try discriminate H; cbn [zipw nth_error] in *.
  - exists la, lo. assert (E : p = (la, to180 lo)) by congruence. subst p. split; [reflexivity|]. split; [reflexivity|]. split; [reflexivity|]. apply to180_turns.
  - exact (IH l' n H).
Qed.

(** ** scaling *)
(** the value of quad grows with the latitude *)
Definition grows_on (lats : list R) (f : R -> R) : Prop := forall x y, In x lats -> In y lats -> x <= y -> f x <= f y.
Lemma fold_rmax_in : forall l x, In (fold_left Rmax l x) (x :: l).
Proof.
  induction l as [|y l IH]; intro x; cbn [fold_left]; [left; reflexivity|]. destruct (IH (Rmax x y)) as [E|E]; [|right; right; exact E]. rewrite <- E. destruct (Rle_dec x y) as [H|H]; [rewrite (Rmax_right x y H); right; left; reflexivity|rewrite (Rmax_left x y) by lra; left; reflexivity].
Qed.
Lemma fold_rmax_map (f : R -> R) : forall l x, grows_on (x :: l) f -> fold_left Rmax (map f l) (f x) = f (fold_left Rmax l x).
Proof.
  induction l as [|y l IH]; intros x M; cbn [map fold_left]; [reflexivity|].
  assert (E : Rmax (f x) (f y) = f (Rmax x y)).
  { destruct (Rle_dec x y) as [H|H].
    - rewrite (Rmax_right x y H). apply Rmax_right. apply M; [left; reflexivity|right; left; reflexivity|exact H].
    - rewrite (Rmax_left x y) by lra. apply Rmax_left. apply M; [right; left; reflexivity|left; reflexivity|lra]. }
  rewrite E. apply IH. intros u v Hu Hv. apply M.
  - destruct Hu as [<-|Hu]; [|right; right; exact Hu]. unfold Rmax. destruct (Rle_dec x y); [right; left; reflexivity|left; reflexivity].
  - destruct Hv as [<-|Hv]; [|right; right; exact Hv]. unfold Rmax. destruct (Rle_dec x y); [right; left; reflexivity|left; reflexivity].
Qed.
Lemma scaled_points_at qi ps : grows_on (map fst ps) (fun x => fst (qi x)) -> fst (qi (lat_max ps)) <> 0 -> ps <> [] ->
  scaled_points qi ps = Some (map (fun p => (fst (qi (fst p)) * 90 * 10 / fst (qi (lat_max ps)), snd p)) ps).
Proof.
  intros M N E. destruct ps as [|p l]; [congruence|]. unfold scaled_points. cbn [map]. 
  assert (K : fold_left Rmax (map (fun p => fst (qi (fst p))) l) (fst (qi (fst p))) = fst (qi (lat_max (p :: l)))).
  { unfold lat_max. pose proof (fold_rmax_map (fun x => fst (qi x)) (map fst l) (fst p) M) as F. rewrite map_map in F. exact F. }
  rewrite K. destruct (Req_EM_T (fst (qi (lat_max (p :: l)))) 0); [contradiction|]. reflexivity.
Qed.
Lemma padded_lats ps r x : In x (map fst (padded ps r)) -> In x (map fst ps).
Proof.
  intro H. apply in_map_iff in H. destruct H as [p [<- H]]. apply In_nth_error in H. destruct H as [n H]. destruct (padded_origin ps r n p H) as [[_ E]|[_ [m [q [k [_ [E ->]]]]]]]; apply nth_error_In in E; [apply in_map; exact E|]. apply in_map_iff. exists q. split; [reflexivity|exact E].
Qed.
Lemma normalized_lats g x : In x (map fst (normalized g)) -> In x (latgrib g).
Proof. intro H. apply in_map_iff in H. destruct H as [p [<- H]]. apply In_nth_error in H. destruct H as [n H]. destruct (normalized_nth g n p H) as [la [lo [E [_ [-> _]]]]]. exact (nth_error_In _ _ E). Qed.
Lemma normalized_length g : List.length (latgrib g) = List.length (longrib g) -> List.length (normalized g) = List.length (latgrib g).
Proof. unfold normalized. revert g. intros [lats lons]. cbn [latgrib longrib]. revert lons. induction lats as [|la l IH]; intros [|lo l'] H; try discriminate H; cbn [zipw List.length] in *; [reflexivity|]. rewrite IH; congruence. Qed.
Lemma lat_max_padded ps r : ps <> [] -> lat_max (padded ps r) = lat_max ps.
Proof.
  intro N. apply Rle_antisym.
  - assert (I : In (lat_max (padded ps r)) (map fst (padded ps r))). { destruct ps as [|p l]; [congruence|]. unfold padded. cbn [app]. unfold lat_max. cbn [map]. apply fold_rmax_in. }
    apply padded_lats in I. revert I. generalize (lat_max (padded ps r)). intros x I. destruct ps as [|p l]; [destruct I|]. unfold lat_max. cbn [map] in I.
    assert (G : forall l x y, In y (x :: l) -> y <= fold_left Rmax l x).
    { clear. induction l as [|z l IH]; intros x y [<-|H]; cbn [fold_left]; [lra|destruct H| |].
      - apply Rle_trans with (Rmax x z); [apply Rmax_l|]. apply IH. left. reflexivity.
      - destruct H as [<-|H]; [apply Rle_trans with (Rmax x z); [apply Rmax_r|]; apply IH; left; reflexivity|]. apply IH. right. exact H. }
    apply G. exact I.
  - destruct ps as [|p l]; [congruence|]. unfold padded. cbn [app]. unfold lat_max. rewrite !map_app, !fold_left_app.
    assert (G : forall l x, x <= fold_left Rmax l x). { clear. induction l as [|z l IH]; intro x; cbn [fold_left]; [lra|]. apply Rle_trans with (Rmax x z); [apply Rmax_l|apply IH]. }
    eapply Rle_trans; [|apply G]. apply G.
Qed.

(** ** a row is exact *)
Lemma combination_scale k ws ps : combination ws (map (fun p => (k * fst p, snd p)) ps) = (k * fst (combination ws ps), snd (combination ws ps)).
Proof. revert ps. induction ws as [|w ws IH]; intros [|p ps]; cbn [combination map fst snd]; try (f_equal; ring). rewrite IH. cbn [fst snd]. f_equal; ring. Qed.
Lemma affine_exact k ws ps la lo : k <> 0 -> List.length ws = List.length ps -> total ws = 1 -> combination ws (map (fun p => (k * fst p, snd p)) ps) = (k * la, lo) -> forall a b c, interpolated ws (map (affine a b c) ps) = affine a b c (la, lo).
Proof.
  intros K L T C a b c. rewrite interpolated_affine by exact L. rewrite combination_scale in C. assert (E1 : k * fst (combination ws ps) = k * la) by congruence. assert (E2 : snd (combination ws ps) = lo) by congruence.
  apply Rmult_eq_reg_l in E1; [|exact K]. rewrite E1, E2, T. unfold affine. cbn [fst snd]. ring.
Qed.
