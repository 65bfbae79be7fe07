(** * Props_Triang7: C48 for modes triangulation and bilinear_delaunay *)
From Coq Require Import Psatz Permutation Sorting.
From Verif Require Import Base Base_P Num Num_P Strings Xr Adw Scipy Scipy_P Bilinear Triang Spec_Bilinear Spec_Triang Bilinear_P Bilinear_P2 Bilinear_P3 Bilinear_P4 Bilinear_P5 GribInterp_P Triang_P Props_Bilinear Props_Bilinear10 Props_Triang Props_Triang2 Props_Triang3 Props_Triang4 Props_Triang5.
Local Open Scope R_scope.

(** what fails, whatever the exception *)
Definition outcome {A} (r : res A) : option A := match r with Ok a => Some a | Raise _ => None end.
Lemma outcome_bind {A B} (r : res A) (f : A -> res B) : outcome (rbind r f) = match outcome r with Some a => outcome (f a) | None => None end.
Proof. destruct r; reflexivity. Qed.
Lemma foldM_outcome {S X} (f h : S -> X -> res S) l : (forall s x, In x l -> outcome (f s x) = outcome (h s x)) -> forall s, outcome (foldM f l s) = outcome (foldM h l s).
Proof.
  intro H. induction l as [|x l IH]; intro s; [reflexivity|]. cbn [foldM]. rewrite !outcome_bind, (H s x (or_introl eq_refl)). destruct (outcome (h s x)); [|reflexivity]. apply IH. intros s1 x1 Hx1. apply H. now right.
Qed.
(** two passes over a list, or one *)
Lemma two_passes {X Y W} (f : X -> res Y) (h : Y -> res W) l : outcome (do m <- mapM f l; mapM h m) = outcome (mapM (fun x => do y <- f x; h y) l).
Proof.
  induction l as [|x l IH]; [reflexivity|]. cbn [mapM]. destruct (f x) as [y|e]; [|reflexivity]. cbn [rbind]. destruct (mapM f l) as [m|e]; cbn [rbind mapM] in *.
  - destruct (h y) as [w|e]; [|reflexivity]. cbn [rbind]. rewrite !outcome_bind, IH. destruct (outcome _); reflexivity.
  - destruct (h y) as [w|e']; [|reflexivity]. cbn [rbind]. rewrite outcome_bind, <- IH. reflexivity.
Qed.
Lemma cells_rows target cols : Forall (fun r => List.length r = cols) target -> Forall (fun r => List.length r = cols) (map (fun row : list plane => cells_of [row]) target).
Proof.
  intro H. apply Forall_map. revert H. apply Forall_impl. intros r <-. unfold cells_of. cbn [flat_map]. rewrite app_nil_r. destruct r; [reflexivity|]. now rewrite map_length.
Qed.
Lemma cells_of_concat target : cells_of target = List.concat (map (fun row : list plane => cells_of [row]) target).
Proof. induction target as [|r l IH]; [reflexivity|]. cbn [map List.concat]. rewrite <- IH. unfold cells_of. cbn [flat_map]. now rewrite app_nil_r. Qed.

Lemma mapM_ext' {A B} (f h : A -> res B) l : (forall x, f x = h x) -> mapM f l = mapM h l.
Proof. intro H. induction l as [|x l IH]; [reflexivity|]. cbn [mapM]. now rewrite H, IH. Qed.
Lemma map_inj {A B} (f : A -> B) : (forall x y, f x = f y -> x = y) -> forall l l', map f l = map f l' -> l = l'.
Proof. intro H. induction l as [|x l IH]; intros [|y l'] E; try discriminate E; [reflexivity|]. injection E as E1 E2. f_equal; [now apply H|now apply IH]. Qed.
Lemma tri_cell_pairs argsort angle solve place dist tri ps sps global mub near psc c pairs x p :
  tri_cell argsort angle solve place dist tri ps sps global false mub near psc c pairs = Ok (x, p) -> p = pairs.
Proof.
  unfold tri_cell. intro H. apply rbind_ok in H. destruct H as [idx [_ H]]. cbv zeta in H. destruct psc as [q|]; [|congruence].
  destruct (_ || _)%bool; [congruence|]. destruct idx as [|i [|j [|k [|]]]]; try discriminate H.
  apply rbind_ok in H. destruct H as [a' [_ H]]. apply rbind_ok in H. destruct H as [b' [_ H]]. apply rbind_ok in H. destruct H as [c' [_ H]].
  destruct (negb global && _)%bool; [congruence|]. cbn [choose rbind] in H.
  destruct (_ =? 4)%nat; apply rbind_ok in H; destruct H as [m [_ H]]; congruence.
Qed.

Section splits.
  Context (quad_int : R -> R * R) (delaunay : list plane -> res triangulation)
          (argsort : list R -> list nat) (angle : plane -> plane -> plane -> R) (solve : quad -> R -> R -> R * R)
          (place : plane -> space3) (dist : space3 -> space3 -> R) (near : tcell -> R).
  (** lines 653-658: the part of a target, in the modes triangulation and
      bilinear_delaunay; nothing is kept from part to part *)
  Definition part_triangulation (g : source) (rotated use_bilinear isatty : bool) (mub : R) (_ : option R) (target : list (list plane)) : res (table xr) :=
    do rows <- build_triangulation quad_int delaunay argsort angle solve place dist near g rotated use_bilinear isatty mub target; Ok (Mat rows).
End splits.
Definition no_ref (_ : list (list plane)) : option R := None.
Definition same_rows (split : res (list (option (list xr * list Z)))) (whole : res (table xr)) : Prop :=
  forall rows, whole = Ok (Mat rows) <-> split = Ok (map Some rows).

Theorem C48_triangulation : forall quad_int delaunay argsort angle solve place dist near g rotated isatty mub target cols splits,
  Forall (fun r => List.length r = cols) target -> (1 <= splits <= Z.of_nat (List.length target))%Z ->
  (forall k, let s := Z.to_nat (Z.of_nat (List.length target) / splits) in (k * s < List.length target)%nat -> (250 <= List.length (List.concat (part_of s k target)))%nat) ->
  same_rows (interpolate_splits (part_triangulation quad_int delaunay argsort angle solve place dist near g rotated false isatty mub) no_ref splits target cols)
            (interpolate_whole (part_triangulation quad_int delaunay argsort angle solve place dist near g rotated false isatty mub) target).
Proof.
  intros quad_int delaunay argsort angle solve place dist near g rotated isatty mub target cols splits Hr Hs Hbig.
  set (part := part_triangulation quad_int delaunay argsort angle solve place dist near g rotated false isatty mub).
  (** one cell, whatever the target *)
  assert (Hcell : exists cell : tcell -> res (list xr * list Z), forall t, (250 <= List.length (cells_of t))%nat -> outcome (part None t) = outcome (part_loop cell (map (fun row : list plane => cells_of [row]) t))).
  { unfold part, part_triangulation, build_triangulation, part_loop.
    destruct (resolution (normalized g)) as [r|e]; [|exists (fun _ => Raise e); intros t Ht; rewrite <- cells_of_concat; destruct (cells_of t); [cbn in Ht; lia|reflexivity]]. cbn [rbind].
    set (global := covers_globe (normalized g) r). set (ps := if global then padded (normalized g) r else normalized g).
    destruct (if rotated then Ok ps else _) as [sps|e]; [|exists (fun _ => Raise e); intros t Ht; rewrite <- cells_of_concat; destruct (cells_of t); [cbn in Ht; lia|reflexivity]]. cbn [rbind].
    destruct (delaunay sps) as [tri|e]; [|exists (fun _ => Raise e); intros t Ht; rewrite <- cells_of_concat; destruct (cells_of t); [cbn in Ht; lia|reflexivity]]. cbn [rbind].
    set (scaled := fun c : tcell => if rotated then Some (first_lat c, c_lon c) else match scaled_lat quad_int ps (first_lat c) with None => None | Some v => Some (v, c_lon c) end).
    set (one := fun c => do '(x, _) <- tri_cell argsort angle solve place dist tri ps sps global false mub (near c) (scaled c) c []; Ok x).
    assert (Hone : forall cells, tri_cells argsort angle solve place dist tri ps sps global false mub near scaled cells [] = mapM one cells).
    { induction cells as [|c cells IH]; [reflexivity|]. cbn [tri_cells mapM]. rewrite <- IH. unfold one.
      assert (Np : forall x p, tri_cell argsort angle solve place dist tri ps sps global false mub (near c) (scaled c) c [] = Ok (x, p) -> p = []).
      { intros x p H. revert H. apply tri_cell_pairs. }
      destruct (tri_cell _ _ _ _ _ _ _ _ _ _ _ _ _ _ _) as [[x p]|e]; [|reflexivity]. cbn [rbind]. rewrite (Np x p eq_refl). reflexivity. }
    exists (fun c => do x <- one c; if global then (do idx <- mapM (unpad (Z.of_nat (List.length (latgrib g))) (original_indexes (normalized g) r)) (snd x); Ok (fst x, idx)) else Ok x).
    intros t Ht. cbv zeta. rewrite <- cells_of_concat. destruct (Z.eqb_spec (progress_step (Z.of_nat (List.length (cells_of t))) isatty) 0) as [Z0|_]; [exfalso; revert Z0; apply progress_step_nonzero; lia|]. cbn [andb].
    rewrite Hone. destruct global.
    - unfold unpad_rows. pose proof (two_passes one (fun x => do idx <- mapM (unpad (Z.of_nat (List.length (latgrib g))) (original_indexes (normalized g) r)) (snd x); Ok (fst x, idx)) (cells_of t)) as T.
      rewrite !outcome_bind. rewrite outcome_bind in T. rewrite T. reflexivity.
    - rewrite (mapM_ext' (fun c => do x <- one c; Ok x) one) by (intro y; destruct (one y); reflexivity). destruct (mapM one (cells_of t)); reflexivity. }
  destruct Hcell as [cell Hcell].
  set (s := Z.to_nat (Z.of_nat (List.length target) / splits)) in *. cbv zeta in Hbig.
  assert (Hq : (1 <= Z.of_nat (List.length target) / splits)%Z) by (apply Z.div_le_lower_bound; lia).
  assert (Hs' : (0 < s)%nat) by (unfold s; lia).
  set (rows := map (fun row : list plane => cells_of [row]) target).
  assert (Lr : List.length rows = List.length target) by (unfold rows; apply map_length).
  assert (W : outcome (part None target) = outcome (part_loop cell rows)).
  { apply Hcell. rewrite <- (map_length (fun c => (c_lat c, c_lon c))), cells_concat. specialize (Hbig O ltac:(lia)). unfold part_of in Hbig. cbn [Nat.mul skipn] in Hbig.
    apply (Nat.le_trans _ _ _ Hbig). rewrite <- (firstn_skipn s target) at 2. rewrite concat_app, app_length. lia. }
  assert (S : outcome (interpolate_splits part no_ref splits target cols) = outcome (do t <- mapM cell (List.concat rows); Ok (map Some t))).
  { unfold interpolate_splits. destruct (Z.eqb_spec splits 0) as [C|_]; [lia|]. replace (Z.of_nat (List.length target) / splits)%Z with (Z.of_nat s) by (unfold s; lia).
    rewrite py_range_pos_ok by lia. cbn [rbind]. unfold no_ref.
    pose proof (split_loop cell cols rows s (cells_rows target cols Hr) Hs' (List.length rows) O [] _ ltac:(lia) eq_refl (py_range_pos_ok (Z.of_nat 0) (Z.of_nat (List.length rows)) (Z.of_nat s) ltac:(lia))) as L.
    cbn [map app skipn] in L. rewrite Nat.sub_0_r in L. cbn [Z.of_nat] in L. rewrite <- L, Lr.
    apply foldM_outcome. intros a i Hi.
    assert (Hk : exists k, i = Z.of_nat (k * s) /\ (k * s < List.length target)%nat).
    { destruct (in_py_range_pos 0 (Z.of_nat (List.length target)) (Z.of_nat s) _ i ltac:(lia) (py_range_pos_ok 0 (Z.of_nat (List.length target)) (Z.of_nat s) ltac:(lia))) as [HH _]. destruct (HH Hi) as [k0 [HA [HB HC]]]. exists (Z.to_nat k0). nia. }
    destruct Hk as [k [-> Hk]]. rewrite !Nat2Z.id, !outcome_bind. 
    assert (Ep : outcome (part None (firstn s (skipn (k * s) target))) = outcome (part_loop cell (firstn s (skipn (k * s) rows)))).
    { unfold rows. rewrite skipn_map, firstn_map. apply Hcell. rewrite <- (map_length (fun c => (c_lat c, c_lon c))), cells_concat. exact (Hbig k Hk). }
    rewrite Ep. reflexivity. }
  intro l. change (interpolate_whole part target) with (part None target). unfold part_loop in W.
  destruct (mapM cell (List.concat rows)) as [t|e]; cbn [rbind outcome] in W, S.
  - destruct (part None target) as [w|e]; [|discriminate W]. destruct (interpolate_splits part no_ref splits target cols) as [w'|e]; [|discriminate S]. cbn [outcome] in W, S.
    assert (E1 : w = Mat t) by congruence. assert (E2 : w' = map Some t) by congruence. subst w w'. split; intro H.
    + assert (t = l) by congruence. subst. reflexivity.
    + assert (E : map Some t = map Some l) by congruence. f_equal. f_equal. revert E. apply (map_inj Some). intros; congruence.
  - destruct (part None target) as [w|e']; [discriminate W|]. destruct (interpolate_splits part no_ref splits target cols) as [w'|e'']; [discriminate S|]. split; intro H; discriminate H.
Qed.
Print Assumptions C48_triangulation.

(** ** mode bilinear_delaunay: the pairs of triangles are made anew in every part *)
Definition C48_delaunay_full : Prop := forall quad_int delaunay argsort angle solve place dist near g rotated isatty mub target cols splits,
  honest_delaunay delaunay -> honest_quad quad_int -> (forall keys, is_argsort keys (argsort keys)) -> honest_angle angle -> on_parallels target ->
  Forall (fun r => List.length r = cols) target -> (1 <= splits <= Z.of_nat (List.length target))%Z ->
  (forall k, let s := Z.to_nat (Z.of_nat (List.length target) / splits) in (k * s < List.length target)%nat -> (250 <= List.length (List.concat (part_of s k target)))%nat) ->
  same_rows (interpolate_splits (part_triangulation quad_int delaunay argsort angle solve place dist near g rotated true isatty mub) no_ref splits target cols)
            (interpolate_whole (part_triangulation quad_int delaunay argsort angle solve place dist near g rotated true isatty mub) target).
Section wW2.
  Context (argsort : list R -> list nat) (angle : plane -> plane -> plane -> R) (solve : quad -> R -> R -> R * R).
  Context (HA : honest_angle angle).
  Notation cell := (tri_cell argsort angle solve (fun _ => (0, 0, 0)) (fun _ _ => 0) tW pW pW false true 1 0).
  Notation cells := (tri_cells argsort angle solve (fun _ => (0, 0, 0)) (fun _ _ => 0) tW pW pW false true 1 (fun _ => 0) (fun c => Some (first_lat c, c_lon c))).
  Notation build := (build_triangulation exact_quad (only pW tW) argsort angle solve (fun _ => (0, 0, 0)) (fun _ _ => 0) (fun _ => 0)).
  Lemma build_any target : (250 <= List.length (cells_of target))%nat -> In cB (cells_of target) -> (forall c, In c (cells_of target) -> c = cA \/ c = cB) ->
    build gW true true true 1 target = cells (cells_of target) [-1; -1; -1]%Z.
  Proof.
    intros L I0 F0. unfold build_triangulation. destruct regional_W as [E1 [E2 E3]]. rewrite E1. cbn [rbind]. rewrite E2. cbn [rbind]. rewrite E3. rewrite only_same. cbn [rbind].
    assert (NP : no_pairs tW (map (fun c => find_simplex tW (first_lat c, c_lon c)) (cells_of target)) = Ok [-1; -1; -1]%Z).
    { assert (B : Forall (fun t => t = 0 \/ t = 1)%Z (map (fun c => find_simplex tW (first_lat c, c_lon c)) (cells_of target))). { apply Forall_forall. intros t Ht. apply in_map_iff in Ht. destruct Ht as [c [<- Hc]]. destruct (F0 c Hc) as [-> | ->]; [left; exact find_A|right; exact find_B]. }
      assert (I : In 1%Z (map (fun c => find_simplex tW (first_lat c, c_lon c)) (cells_of target))) by (apply in_map_iff; exists cB; split; [exact find_B|exact I0]).
      generalize dependent (map (fun c => find_simplex tW (first_lat c, c_lon c)) (cells_of target)). clear. intros l B I. unfold no_pairs.
      assert (M : exists nbs, mapM (py_index (neighbors tW)) l = Ok nbs /\ (forall x, In x (List.concat nbs) -> x <= 2)%Z /\ (In 1%Z l -> In 2%Z (List.concat nbs))).
      { clear I. induction B as [|t l [-> | ->] B IH].
        - exists []. cbn. split; [reflexivity|]. split; [intros x []|intros []].
        - destruct IH as [nbs [M [U W]]]. exists ([1; -1; -1]%Z :: nbs). cbn [mapM]. change (py_index (neighbors tW) 0) with (@Ok (list Z) [1; -1; -1]%Z). rewrite M. cbn [rbind]. split; [reflexivity|]. cbn [List.concat app]. split; [intros x Hx; cbn [In] in Hx; destruct Hx as [<-|[<-|[<-|Hx]]]; [lia|lia|lia|exact (U x Hx)]|]. intros [K|K]; [discriminate K|]. do 3 right. exact (W K).
        - destruct IH as [nbs [M [U W]]]. exists ([2; -1; 0]%Z :: nbs). cbn [mapM]. change (py_index (neighbors tW) 1) with (@Ok (list Z) [2; -1; 0]%Z). rewrite M. cbn [rbind]. split; [reflexivity|]. cbn [List.concat app]. split; [intros x Hx; cbn [In] in Hx; destruct Hx as [<-|[<-|[<-|Hx]]]; [lia|lia|lia|exact (U x Hx)]|]. intros _. left. reflexivity. }
      destruct M as [nbs [-> [U W]]]. cbn [rbind]. specialize (W I). destruct (List.concat nbs) as [|x m] eqn:Em; [destruct W|].
      assert (X : fold_left Z.max m x = 2%Z).
      { clear Em I B nbs. assert (G : forall m x, (forall y, In y (x :: m) -> (y <= 2)%Z) -> In 2%Z (x :: m) -> fold_left Z.max m x = 2%Z).
        { clear. induction m as [|y m IH]; intros x U W; cbn [fold_left]; [destruct W as [->|[]]; reflexivity|]. apply IH.
          - intros z [<-|Hz]; [|apply U; right; right; exact Hz]. pose proof (U x (or_introl eq_refl)). pose proof (U y (or_intror (or_introl eq_refl))). lia.
          - destruct W as [->|[->|W]]; [left; pose proof (U y (or_intror (or_introl eq_refl))); lia|left; pose proof (U x (or_introl eq_refl)); lia|right; exact W]. }
        apply G; assumption. }
      rewrite X. reflexivity. }
    rewrite NP. cbn [rbind]. cbv zeta. destruct (Z.eqb_spec (progress_step (Z.of_nat (List.length (cells_of target))) true) 0) as [Z0|_]; [exfalso; revert Z0; apply progress_step_nonzero; lia|]. cbn [andb].
    destruct (cells (cells_of target) [-1; -1; -1]%Z); reflexivity.
  Qed.
  Lemma cells_fixed l : (forall c, In c l -> c = cA \/ c = cB) -> cells l [1; 0; -1]%Z = Ok (map (row_of argsort solve [0; 1; 2; 3]%Z) l).
  Proof.
    induction l as [|c l IH]; intro H; [reflexivity|]. cbn [tri_cells map].
    assert (E : cell (Some (first_lat c, c_lon c)) c [1; 0; -1]%Z = Ok (row_of argsort solve [0; 1; 2; 3]%Z c, [1; 0; -1]%Z)).
    { destruct (H c (or_introl eq_refl)) as [-> | ->]; cbn [cA cB first_lat c_lon]; fold cA cB; [apply (cell_A argsort angle solve HA [1; 0; -1]%Z [1; 0; -1]%Z 1%Z [1; 2; 3]%Z); reflexivity|apply (cell_B argsort angle solve HA [1; 0; -1]%Z [1; 0; -1]%Z 0%Z [0; 1; 2]%Z [0; 1; 2; 3]%Z); try reflexivity; left; reflexivity]. }
    rewrite E. cbn [rbind]. rewrite IH by (intros c1 Hc1; apply H; now right). reflexivity.
  Qed.
  Definition target_two : list (list plane) := (target_AB ++ target_BA)%list.
  Lemma cells_of_two : cells_of target_two = (List.concat (repeat [cA; cB] 500) ++ List.concat (repeat [cB; cA] 500))%list.
  Proof. unfold target_two, cells_of. rewrite flat_map_app. fold (cells_of target_AB). fold (cells_of target_BA). unfold target_AB, target_BA. rewrite !cells_repeat. reflexivity. Qed.
  Lemma whole_two : build gW true true true 1 target_two = Ok (map (row_of argsort solve [0; 1; 2; 3]%Z) (cells_of target_two)).
  Proof.
    assert (F : forall c, In c (cells_of target_two) -> c = cA \/ c = cB).
    { intros c Hc. rewrite cells_of_two in Hc. apply in_app_or in Hc. destruct Hc as [Hc|Hc]; apply in_concat_repeat in Hc; cbn [In] in Hc; intuition congruence. }
    assert (H2 : exists rest, cells_of target_two = cA :: cB :: rest).
    { rewrite cells_of_two. generalize (List.concat (repeat [cB; cA] 500)) as tl. intro tl. change 500%nat with (S 499). generalize 499%nat as k. intro k. cbn [repeat List.concat app]. eexists. reflexivity. }
    assert (L2 : (250 <= List.length (cells_of target_two))%nat) by (rewrite cells_of_two, app_length, !concat_repeat_length; cbn [List.length]; lia).
    destruct H2 as [rest H2].
    rewrite (build_any target_two L2); [| |exact F].
    - rewrite H2 in *. clear L2 H2. cbn [tri_cells map].
      change (Some (first_lat cA, c_lon cA)) with (Some (1, -1/4)). rewrite (cell_A argsort angle solve HA [-1; -1; -1]%Z [1; 0; -1]%Z 1%Z [1; 2; 3]%Z) by reflexivity. cbn [rbind].
      change (Some (first_lat cB, c_lon cB)) with (Some (1, 1/2)). rewrite (cell_B argsort angle solve HA [1; 0; -1]%Z [1; 0; -1]%Z 0%Z [0; 1; 2]%Z [0; 1; 2; 3]%Z) by (try reflexivity; left; reflexivity). cbn [rbind].
      rewrite cells_fixed by (intros c Hc; apply F; right; right; exact Hc). reflexivity.
    - rewrite H2. right. left. reflexivity.
  Qed.
End wW2.
(** whatever fsolve finds *)
Theorem C48_delaunay_refuted : ~ C48_delaunay_full.
Proof.
  intro H.
  specialize (H exact_quad (only pW tW) isort acos_angle (fun _ _ _ => (0, 0)) (fun _ => (0, 0, 0)) (fun _ _ => 0) (fun _ => 0) gW true true 1 target_two 2%nat 2%Z (only_honest _ _ delaunay_W) exact_quad_honest isort_valid acos_angle_honest).
  assert (LA : List.length target_AB = 500%nat) by apply repeat_length. assert (LB : List.length target_BA = 500%nat) by apply repeat_length.
  assert (L : List.length target_two = 1000%nat) by (unfold target_two; rewrite app_length, LA, LB; reflexivity).
  assert (Hr : forall row, In row target_two -> row = [(1, -1/4); (1, 1/2)] \/ row = [(1, 1/2); (1, -1/4)]).
  { intros row Hrow. unfold target_two in Hrow. apply in_app_or in Hrow. destruct Hrow as [Hrow|Hrow]; apply repeat_spec in Hrow; [left|right]; exact Hrow. }
  assert (P0 : part_of 500 0 target_two = target_AB). { unfold part_of. change (0 * 500)%nat with 0%nat. cbn [skipn]. unfold target_two. rewrite <- LA at 1. rewrite firstn_app, Nat.sub_diag, firstn_all. cbn [firstn]. apply app_nil_r. }
  assert (P1 : part_of 500 1 target_two = target_BA). { unfold part_of. rewrite Nat.mul_1_l. unfold target_two. rewrite <- LA at 2. rewrite skipn_app, Nat.sub_diag, skipn_all. cbn [skipn app]. rewrite <- LB. apply firstn_all. }
  rewrite L in H. change (Z.of_nat 1000 / 2)%Z with 500%Z in H. change (Z.to_nat 500) with 500%nat in H. cbv zeta in H.
  assert (Hp : on_parallels target_two). { intros row p q Hrow Hp Hq. destruct (Hr row Hrow) as [-> | ->]; cbn [In] in Hp, Hq; destruct Hp as [<-|[<-|[]]], Hq as [<-|[<-|[]]]; reflexivity. }
  specialize (H Hp). clear Hp.
  assert (Hc : Forall (fun r => List.length r = 2%nat) target_two). { apply Forall_forall. intros row Hrow. destruct (Hr row Hrow) as [-> | ->]; reflexivity. }
  specialize (H Hc). clear Hc Hr.
  specialize (H ltac:(lia)).
  assert (Hb : forall k, (k * 500 < 1000)%nat -> (250 <= List.length (List.concat (part_of 500 k target_two)))%nat).
  { intros k Hk. destruct k as [|[|k]]; [rewrite P0; unfold target_AB|rewrite P1; unfold target_BA|exfalso; lia]; rewrite concat_repeat_length; cbn [List.length]; lia. }
  specialize (H Hb). clear Hb.
  pose proof (whole_two isort acos_angle (fun _ _ _ => (0, 0)) acos_angle_honest) as W. pose proof (table_AB isort acos_angle (fun _ _ _ => (0, 0)) acos_angle_honest) as TA. destruct (table_BA isort acos_angle (fun _ _ _ => (0, 0)) acos_angle_honest) as [rest TB].
  set (rows := map (row_of isort (fun _ _ _ => (0, 0)) [0; 1; 2; 3]%Z) (cells_of target_two)) in W.
  specialize (H rows). destruct H as [H _]. 
  match type of H with ?w = _ -> _ => assert (W' : w = Ok (Mat rows)) by exact (f_equal (fun r => do rows <- r; Ok (Mat rows)) W) end. specialize (H W'). clear W W'.
  unfold interpolate_splits in H. rewrite L in H. change (2 =? 0)%Z with false in H. change (Z.of_nat 1000 / 2)%Z with 500%Z in H. cbv iota in H.
  change (py_range 0 (Z.of_nat 1000) 500) with (@Ok (list Z) [0; 500]%Z) in H. cbn [rbind foldM] in H.
  change (Z.to_nat 500) with 500%nat in H. change (Z.to_nat 0) with 0%nat in H. change (firstn 500 (skipn 0 target_two)) with (part_of 500 0 target_two) in H. change (firstn 500 (skipn 500 target_two)) with (part_of 500 1 target_two) in H. rewrite P0, P1 in H.
  match type of H with context [?p (no_ref target_two) target_AB] => assert (QA : p (no_ref target_two) target_AB = _) by exact (f_equal (fun r => do rows <- r; Ok (Mat rows)) TA); assert (QB : p (no_ref target_two) target_BA = _) by exact (f_equal (fun r => do rows <- r; Ok (Mat rows)) TB) end.
  rewrite QA, QB in H. cbn [rbind] in H. clear TA TB QA QB P0 P1.
  match type of H with (do zz <- ?x; _) = _ => destruct x as [a1|e] eqn:E1; [|discriminate H] end. cbn [rbind] in H.
  match type of H with (do zz <- ?x; _) = _ => destruct x as [a'|e] eqn:E2; [|discriminate H] end. cbn [rbind] in H.
  assert (Ea : a' = map Some rows) by congruence. clear H.
  unfold store in E2. cbn [as_rows rbind] in E2. destruct (Nat.eqb _ _) in E2; [|discriminate E2].
  assert (E3 : nth_error a' 1000 = Some (Some (row_of isort (fun _ _ _ => (0, 0)) [1; 2; 3; 4]%Z cB))).
  { assert (La : (1000 <= List.length a1)%nat).
    { unfold store in E1. cbn [as_rows rbind] in E1. destruct (Nat.eqb _ _) in E1; [|discriminate E1]. assert (E : a1 = (firstn (0 * 2) (repeat None (1000 * 2)) ++ map Some (List.concat (repeat [row_of isort (fun _ _ _ => (0, 0)) [0; 1; 2; 3]%Z cA; row_of isort (fun _ _ _ => (0, 0)) [0; 1; 2; 3]%Z cB] 500)) ++ skipn (0 * 2 + List.length (List.concat (repeat [row_of isort (fun _ _ _ => (0, 0)) [0; 1; 2; 3]%Z cA; row_of isort (fun _ _ _ => (0, 0)) [0; 1; 2; 3]%Z cB] 500))) (repeat None (1000 * 2)))%list) by congruence. rewrite E, !app_length, map_length, concat_repeat_length. cbn [List.length]. lia. }
    match type of E2 with Ok ?x = _ => assert (E : a' = x) by congruence end. rewrite E. change (500 * 2)%nat with 1000%nat. rewrite nth_error_app2 by (rewrite firstn_length; lia). rewrite firstn_length, Nat.min_l by exact La. rewrite Nat.sub_diag. reflexivity. }
  assert (E4 : nth_error (cells_of target_two) 1000 = Some cB). { rewrite cells_of_two, nth_error_app2 by (rewrite concat_repeat_length; cbn [List.length]; lia). rewrite concat_repeat_length. reflexivity. }
  rewrite Ea in E3. unfold rows in E3. rewrite nth_error_map, nth_error_map, E4 in E3. cbn [option_map] in E3.
  assert (E5 : row_of isort (fun _ _ _ => (0, 0)) [0; 1; 2; 3]%Z cB = row_of isort (fun _ _ _ => (0, 0)) [1; 2; 3; 4]%Z cB) by congruence. clear - E5.
  pose proof (row_indexes isort (fun _ _ _ => (0, 0)) [0; 1; 2; 3]%Z cB eq_refl isort_valid) as P1. pose proof (row_indexes isort (fun _ _ _ => (0, 0)) [1; 2; 3; 4]%Z cB eq_refl isort_valid) as P2. rewrite E5 in P1. rewrite <- P2 in P1. assert (I : In 0%Z [1; 2; 3; 4]%Z) by (apply (Permutation_in _ P1); left; reflexivity). cbn [In] in I. lia.
Qed.
Print Assumptions C48_delaunay_refuted.
(** a thousand cells in two parts, in mode triangulation *)
Example C48_triangulation_nonvacuous :
  let target := repeat [(2, 3); (2, 4)] 500 in
  Forall (fun r => List.length r = 2%nat) target /\ (1 <= 2 <= Z.of_nat (List.length target))%Z /\
  (forall k, (k * 250 < List.length target)%nat -> (250 <= List.length (List.concat (part_of 250 k target)))%nat) /\
  exists rows, interpolate_whole (part_triangulation exact_quad (only pT tT) isort acos_angle (fun _ _ _ => (0, 0)) (fun _ => (0, 0, 0)) (fun _ _ => 0) (fun _ => 0) gT true false true 1) target = Ok (Mat rows) /\ nth_error rows 500 = Some (rowT 2 3).
Proof.
  intro target. assert (L : List.length target = 500%nat) by apply repeat_length.
  split; [apply Forall_forall; intros r Hr; apply repeat_spec in Hr; subst r; reflexivity|]. split; [rewrite L; lia|].
  split.
  { intros k Hk. unfold part_of. rewrite L in Hk. assert (F : Forall (fun r => List.length r = 2%nat) (firstn 250 (skipn (k * 250) target))).
    { apply Forall_firstn, Forall_skipn, Forall_forall. intros r Hr. apply repeat_spec in Hr. subst r. reflexivity. }
    rewrite (concat_length_rows 2 _ F), firstn_length, skipn_length, L. destruct k as [|[|k]]; lia. }
  assert (T : build_triangulation exact_quad (only pT tT) isort acos_angle (fun _ _ _ => (0, 0)) (fun _ => (0, 0, 0)) (fun _ _ => 0) (fun _ => 0) gT true false true 1 target = Ok (List.concat (repeat [rowT 2 3; rowT 2 4] 500))).
  { unfold target. rewrite (table_T isort acos_angle (fun _ _ _ => (0, 0)) (fun _ => (0, 0, 0))).
    - apply f_equal. rewrite cells_repeat. generalize 500%nat as k. induction k as [|k IH]; [reflexivity|]. cbn [repeat List.concat]. rewrite map_app, IH. reflexivity.
    - rewrite cells_repeat, concat_repeat_length. cbn [map List.length]. lia.
    - intros c Hc. rewrite cells_repeat in Hc. apply in_concat_repeat in Hc. cbn [map fst snd In] in Hc. destruct Hc as [<-|[<-|[]]]; cbn [first_lat c_lon]; lra. }
  eexists. split; [exact (f_equal (fun r => do rows <- r; Ok (Mat rows)) T)|]. reflexivity.
Qed.
