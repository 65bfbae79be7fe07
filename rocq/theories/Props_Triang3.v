(** * Props_Triang3: C55, a triangulation given by its triangles, witnesses *)
From Verif Require Import Base Base_P Num Num_P Strings Xr Adw Bilinear Triang Spec_Bilinear Spec_Triang Bilinear_P Triang_P Props_Bilinear Props_Triang Props_Triang2.
From Coq Require Import Psatz Permutation Sorting.
Local Open Scope R_scope.

(** ** triangle of a point and transformations, from the triangles *)
Definition tri_points (pts : list plane) (s : list Z) : plane * plane * plane :=
  let at_ n := nth (Z.to_nat (nth n s 0%Z)) pts (0, 0) in (at_ 0%nat, at_ 1%nat, at_ 2%nat).
Definition inverse_of (t : plane * plane * plane) : plane * plane * plane :=
  let '(a, b, c) := t in let u := minus a c in let v := minus b c in
  let d := fst u * snd v - snd u * fst v in ((snd v / d, - fst v / d), (- snd u / d, fst u / d), c).
Fixpoint first_around (n : Z) (pts : list plane) (ss : list (list Z)) (p : plane) : Z :=
  match ss with [] => -1 | s :: ss' => let '(a, b, c) := tri_points pts s in if in_triangle p a b c then n else first_around (n + 1) pts ss' p end.
Definition make_tri (pts : list plane) (ss nbs : list (list Z)) : triangulation :=
  mkTri ss nbs (first_around 0 pts ss) (map (fun s => inverse_of (tri_points pts s)) ss).
Lemma tri_points_of pts s a b c : corners_of pts s a b c -> tri_points pts s = (a, b, c).
Proof.
  intros [i [j [k [-> [A [B C]]]]]]. unfold tri_points. cbn [nth]. rewrite !Nat2Z.id. rewrite (nth_error_nth _ _ _ A), (nth_error_nth _ _ _ B), (nth_error_nth _ _ _ C). reflexivity.
Qed.
Lemma inverse_ok a b c : area2 a b c <> 0 -> exists r0 r1, inverse_of (a, b, c) = (r0, r1, c) /\ inverse_rows a b c r0 r1.
Proof.
  intro N. unfold inverse_of. eexists. eexists. split; [reflexivity|]. unfold inverse_rows, dot, minus. unfold area2 in N. destruct a as [a1 a2], b as [b1 b2], c as [c1 c2]. cbn [fst snd] in *.
  assert (D : (a1 - c1) * (b2 - c2) - (a2 - c2) * (b1 - c1) <> 0) by (intro E; apply N; lra). repeat split; field; exact D.
Qed.
Lemma first_around_spec pts : forall ss n p, (forall s, In s ss -> exists a b c, corners_of pts s a b c /\ area2 a b c <> 0) ->
  (first_around n pts ss p = (-1)%Z /\ forall s a b c, In s ss -> corners_of pts s a b c -> ~ in_hull p [a; b; c]) \/
  (exists m s a b c, first_around n pts ss p = (n + Z.of_nat m)%Z /\ nth_error ss m = Some s /\ corners_of pts s a b c /\ in_hull p [a; b; c]).
Proof.
  induction ss as [|s ss IH]; intros n p H; cbn [first_around]; [left; split; [reflexivity|intros s a b c []]|].
  destruct (H s (or_introl eq_refl)) as [a [b [c [HC N]]]]. rewrite (tri_points_of _ _ _ _ _ HC). destruct (in_triangle p a b c) eqn:T.
  - right. exists O, s, a, b, c. split; [lia|]. split; [reflexivity|]. split; [exact HC|]. apply in_triangle_hull; assumption.
  - destruct (IH (n + 1)%Z p (fun s' H' => H s' (or_intror H'))) as [[E K]|[m [s' [a' [b' [c' [E [K1 K2]]]]]]]].
    + left. split; [exact E|]. intros s' a' b' c' [<-|Hs] HC'; [|exact (K s' a' b' c' Hs HC')]. destruct (corners_fun _ _ _ _ _ _ _ _ HC HC') as [-> [-> ->]]. intro Hh. apply (in_triangle_hull _ _ _ _ N) in Hh. congruence.
    + right. exists (S m), s', a', b', c'. split; [lia|]. split; [exact K1|exact K2].
Qed.
Lemma make_tri_delaunay pts ss nbs : ss <> [] -> List.length nbs = List.length ss ->
  (forall s, In s ss -> exists a b c, corners_of pts s a b c /\ area2 a b c <> 0 /\ forall d, In d pts -> ~ in_circle a b c d) ->
  (forall n nb3, nth_error nbs n = Some nb3 -> List.length nb3 = 3%nat /\
     forall k nb, nth_error nb3 k = Some nb -> nb = (-1)%Z \/
       exists m s s' v v', nb = Z.of_nat m /\ m <> n /\ nth_error ss n = Some s /\ nth_error ss m = Some s' /\
         nth_error s k = Some v /\ In v' s' /\ ~ In v' s /\ ~ In v s' /\ (forall x, In x s -> x <> v -> In x s')) ->
  is_delaunay pts (simplices (make_tri pts ss nbs)) (neighbors (make_tri pts ss nbs)) (find_simplex (make_tri pts ss nbs)) (transform (make_tri pts ss nbs)).
Proof.
  intros NE L HS HN. unfold make_tri. cbn [simplices neighbors find_simplex transform]. split; [exact NE|]. split; [exact L|]. split; [apply map_length|]. split; [exact HS|]. split; [|split; [|exact HN]].
  - intros n s Hs. destruct (HS s (nth_error_In _ _ Hs)) as [a [b [c [HC [N _]]]]]. destruct (inverse_ok a b c N) as [r0 [r1 [E I]]]. exists a, b, c, r0, r1. split; [exact HC|]. split; [|exact I]. rewrite nth_error_map, Hs. cbn [option_map]. rewrite (tri_points_of _ _ _ _ _ HC), E. reflexivity.
  - intro p. destruct (first_around_spec pts ss 0 p) as [X|X]; [|left; exact X|right; exact X]. intros s Hs. destruct (HS s Hs) as [a [b [c [HC [N _]]]]]. exists a, b, c. split; assumption.
Qed.
Definition plane_dec (p q : plane) : {p = q} + {p <> q}.
Proof. destruct p as [a b], q as [c d]. destruct (Req_EM_T a c) as [->|N]; [|right; congruence]. destruct (Req_EM_T b d) as [->|N]; [left; reflexivity|right; congruence]. Defined.
(** an oracle that knows one set of points *)
Definition only (pts : list plane) (tri : triangulation) (l : list plane) : res triangulation := if list_eq_dec plane_dec l pts then Ok tri else Raise OtherError.
Lemma only_honest pts tri : is_delaunay pts (simplices tri) (neighbors tri) (find_simplex tri) (transform tri) -> honest_delaunay (only pts tri).
Proof. intros H l t E. unfold only in E. destruct (list_eq_dec plane_dec l pts) as [->|]; [|discriminate]. assert (t = tri) by congruence. subst t. exact H. Qed.
Lemma only_same pts tri : only pts tri pts = Ok tri.
Proof. unfold only. destruct (list_eq_dec plane_dec pts pts); [reflexivity|contradiction]. Qed.

(** all rows with weights are convex and exact *)
Definition C55_full : Prop := forall quad_int delaunay argsort angle solve place dist near g rotated isatty mub target table,
  honest_delaunay delaunay -> honest_quad quad_int -> List.length (latgrib g) = List.length (longrib g) ->
  build_triangulation quad_int delaunay argsort angle solve place dist near g rotated false isatty mub target = Ok table ->
  Forall2 (fun p r => forall ws, fst r = map XF ws -> convex_weights ws /\ exact_row (latgrib g) (longrib g) (ordinate quad_int rotated) (fst p) (snd p) ws (snd r)) (List.concat target) table.
(** ... and tables that use source points only *)
Definition C55_sources_full : Prop := forall quad_int delaunay argsort angle solve place dist near g rotated isatty mub target table,
  honest_delaunay delaunay -> honest_quad quad_int -> List.length (latgrib g) = List.length (longrib g) ->
  build_triangulation quad_int delaunay argsort angle solve place dist near g rotated false isatty mub target = Ok table ->
  (forall r i, In r table -> In i (snd r) -> i < Z.of_nat (List.length (latgrib g)))%Z ->
  Forall2 (fun p r => forall ws, fst r = map XF ws -> convex_weights ws /\ exact_row (latgrib g) (longrib g) (ordinate quad_int rotated) (fst p) (snd p) ws (snd r)) (List.concat target) table.

(** ** witnesses *)
Definition exact_quad (lat : R) : R * R := (mercator lat, 0).
Lemma exact_quad_honest : honest_quad exact_quad. Proof. intros lat H. split; [reflexivity|cbn; lra]. Qed.
Section witness.
  Context (argsort : list R -> list nat) (angle : plane -> plane -> plane -> R) (solve : quad -> R -> R -> R * R) (place : plane -> space3).
  Notation build d := (build_triangulation exact_quad d argsort angle solve place (fun _ _ => 0) (fun _ => 0)).
  (** the row of a cell in a known triangle *)
  Lemma tri_cell_found tri ps sps global mub p c t i j k a b c' m pairs : 0 <= mub -> find_simplex tri p = Z.of_nat t -> nth_error (simplices tri) t = Some [i; j; k] -> py_index ps i = Ok a -> py_index ps j = Ok b -> py_index ps k = Ok c' -> nth_error (transform tri) t = Some m ->
    tri_cell argsort angle solve place (fun _ _ => 0) tri ps sps global false mub 0 (Some p) c pairs = Ok (triangle_row m p [i; j; k], pairs).
  Proof.
    intros M F S A B C T. unfold tri_cell. rewrite F, py_index_nat, S. cbn [rbind]. destruct (Z.eqb_spec (Z.of_nat t) (-1)); [lia|]. destruct (ltb_spec mub 0); [lra|]. cbn [orb]. rewrite andb_false_r. unfold at_pt. rewrite A, B, C. cbn [rbind]. unfold too_far. destruct (ltb_spec (mub * 10) 0); [lra|]. cbn [orb]. rewrite andb_false_r. cbn [choose rbind].
    assert (F3 : (List.length (filter (fun x => (0 <=? x)%Z) [i; j; k]) =? 4)%nat = false). { cbn [filter]. destruct (0 <=? i)%Z, (0 <=? j)%Z, (0 <=? k)%Z; reflexivity. }
    rewrite F3, py_index_nat, T. reflexivity.
  Qed.
End witness.

(** *** one triangle; a row of the target that crosses parallels *)
Definition gT : source := mkSource [0; 10; 0] [0; 0; 10].
Definition pT : list plane := [(0, 0); (10, 0); (0, 10)].
Definition tT : triangulation := make_tri pT [[0; 1; 2]]%Z [[-1; -1; -1]]%Z.
Ltac circ := intros d Hd; cbn [In] in Hd; repeat (destruct Hd as [<-|Hd]; [unfold in_circle, minus, area2; cbn [fst snd]; lra|]); contradiction.
Ltac corners i j k := exists i, j, k; split; [reflexivity|]; split; [reflexivity|]; split; reflexivity.
Lemma delaunay_T : is_delaunay pT (simplices tT) (neighbors tT) (find_simplex tT) (transform tT).
Proof.
  apply make_tri_delaunay; [discriminate|reflexivity| |].
  - intros s [<-|[]]. exists (0, 0), (10, 0), (0, 10). split; [corners 0%nat 1%nat 2%nat|]. split; [unfold area2; cbn [fst snd]; lra|]. circ.
  - intros [|n] nb3 H; [|destruct n; discriminate H]. assert (E : nb3 = [-1; -1; -1]%Z) by (cbn in H; congruence). subst nb3. split; [reflexivity|]. intros k nb Hk. left. destruct k as [|[|[|k]]]; cbn in Hk; try congruence. destruct k; discriminate Hk.
Qed.
Lemma regional_T : resolution (normalized gT) = Ok 0 /\ covers_globe (normalized gT) 0 = false /\ normalized gT = pT.
Proof.
  assert (N : normalized gT = pT). { unfold normalized, gT, pT. cbn [latgrib longrib zipw]. unfold to180. rdec. reflexivity. }
  rewrite N. split; [|split; [|reflexivity]].
  - unfold resolution, pT. cbn [map snd]. change (py_index [0; 0; 10] 0) with (@Ok R 0). change (py_index [0; 0; 10] 1) with (@Ok R 0). cbn [rbind]. rewrite Rminus_0_r, Rabs_R0. f_equal. ring.
  - unfold covers_globe, pT, lon_max, lon_min, ltb. cbn [map snd fold_left]. unfold Rmax, Rmin. rdec; reflexivity.
Qed.
Lemma find_T x y : 0 <= x -> 0 <= y -> x + y <= 10 -> find_simplex tT (x, y) = Z.of_nat 0.
Proof.
  intros Hx Hy H. unfold tT, make_tri. cbn [find_simplex first_around]. change (tri_points pT [0; 1; 2]%Z) with ((0, 0), (10, 0), (0, 10)). cbn iota beta.
  assert (T : in_triangle (x, y) (0, 0) (10, 0) (0, 10) = true); [|rewrite T; reflexivity]. apply in_triangle_hull; [unfold area2; cbn [fst snd]; lra|]. exists [1 - x / 10 - y / 10; x / 10; y / 10]. split; [reflexivity|]. split.
  - split; [repeat (apply Forall_cons; [lra|]); apply Forall_nil|cbn [total]; lra].
  - cbn [combination fst snd]. f_equal; lra.
Qed.
Lemma row_T x y : 0 <= x -> 0 <= y -> x + y <= 10 -> exists m, nth_error (transform tT) 0 = Some m /\ triangle_row m (x, y) [0; 1; 2]%Z = (map XF [1 - x / 10 - y / 10; x / 10; y / 10], [0; 1; 2]%Z).
Proof.
  intros Hx Hy H. exists (inverse_of ((0, 0) : plane, (10, 0) : plane, (0, 10) : plane)). split; [reflexivity|]. destruct (inverse_ok (0, 0) (10, 0) (0, 10)) as [r0 [r1 [E I]]]; [unfold area2; cbn [fst snd]; lra|]. rewrite E. unfold triangle_row.
  rewrite (barycentric_weights _ _ _ _ _ (1 - x / 10 - y / 10) (x / 10) (y / 10) (x, y) I); [|lra|cbn [combination fst snd]; f_equal; lra]. cbn [List.length Nat.sub repeat app map]. replace (1 - (1 - x / 10 - y / 10 + x / 10)) with (y / 10) by lra. reflexivity.
Qed.
Section wT.
  Context (argsort : list R -> list nat) (angle : plane -> plane -> plane -> R) (solve : quad -> R -> R -> R * R) (place : plane -> space3).
  Notation build d := (build_triangulation exact_quad d argsort angle solve place (fun _ _ => 0) (fun _ => 0)).
  Definition rowT (x y : R) : list xr * list Z := (map XF [1 - x / 10 - y / 10; x / 10; y / 10], [0; 1; 2]%Z).
  Lemma cells_T scaled cells : (forall c, In c cells -> scaled c = Some (first_lat c, c_lon c) /\ 0 <= first_lat c /\ 0 <= c_lon c /\ first_lat c + c_lon c <= 10) ->
    tri_cells argsort angle solve place (fun _ _ => 0) tT pT pT false false 1 (fun _ => 0) scaled cells [] = Ok (map (fun c => rowT (first_lat c) (c_lon c)) cells).
  Proof.
    induction cells as [|c cells IH]; intro H; cbn [tri_cells map]; [reflexivity|]. destruct (H c (or_introl eq_refl)) as [E [H1 [H2 H3]]]. rewrite E. destruct (row_T _ _ H1 H2 H3) as [m [Hm Hr]].
    rewrite (tri_cell_found argsort angle solve place tT pT pT false 1 (first_lat c, c_lon c) c 0 0 1 2 _ _ _ m [] ltac:(lra) (find_T _ _ H1 H2 H3) eq_refl eq_refl eq_refl eq_refl Hm). cbn [rbind]. rewrite IH by (intros c' Hc'; apply H; right; exact Hc'). cbn [rbind]. rewrite Hr. reflexivity.
  Qed.
  Lemma table_T target : (1000 <= List.length (cells_of target))%nat -> (forall c, In c (cells_of target) -> 0 <= first_lat c /\ 0 <= c_lon c /\ first_lat c + c_lon c <= 10) ->
    build (only pT tT) gT true false true 1 target = Ok (map (fun c => rowT (first_lat c) (c_lon c)) (cells_of target)).
  Proof.
    intros L H. unfold build_triangulation. destruct regional_T as [-> [E2 E3]]. cbn [rbind]. rewrite E2, E3. cbn [rbind]. rewrite only_same. cbn [rbind].
    assert (P : (progress_step (Z.of_nat (List.length (cells_of target))) true =? 0)%Z = false).
    { apply Z.eqb_neq. unfold progress_step. intro K. assert (Z.of_nat (Datatypes.length (cells_of target)) / 250 <> 0)%Z by (apply Z.neq_sym; apply Z.lt_neq; apply Z.div_str_pos; lia). first [contradiction | lia]. }
    rewrite P. cbn [andb]. apply (f_equal (fun x => rbind x (fun rows => Ok rows))) with (y := Ok _). apply cells_T. intros c Hc. split; [reflexivity|apply H; exact Hc].
  Qed.
End wT.
