(** * Props_Scipy: C48-C50 *)
From Verif Require Import Base Num Strings Scipy Spec_Scipy Interp Spec_Interp Base_P Num_P GribInterp_P Interp_P3 Scipy_P.
From Coq Require Import Sorting.Sorted.
Local Open Scope Qc_scope.

(** ** C48: splitting the target *)
(** a table as rows *)
Definition rows_of {W} (t : table W) : list (list W * list Z) :=
  match t with Flat l => map (fun c => ([fst c], [snd c])) l | Mat rows => rows end.
(** the split computation gives the rows of the table built at once; an error
    is accepted only if there is one without splits *)
Definition same_table {W} (split : res (list (option (list W * list Z)))) (whole : res (table W)) : Prop :=
  forall t, whole = Ok t -> split = Ok (map Some (rows_of t)).
Definition no_radius {Loc} (_ : list (list Loc)) : option num := None.
Definition C48_full : Prop := forall (Loc : Type) (tree : nat -> Loc -> neighbours) mub n isatty rows cols splits,
  Forall (fun r => List.length r = cols) rows -> rows <> [] -> (1 <= splits)%Z ->
  same_table (interpolate_splits (part_nearest tree mub n isatty) no_radius splits rows cols) (interpolate_whole (part_nearest tree mub n isatty) rows) /\
  same_table (interpolate_splits (part_invdist tree mub n) no_radius splits rows cols) (interpolate_whole (part_invdist tree mub n) rows).
(** inverse distance: for every number of splits up to the number of rows, also
    when it does not divide it; the same error if there is one *)
Theorem C48_partial : forall (Loc : Type) (tree : nat -> Loc -> neighbours) mub n rows cols splits,
  Forall (fun r => List.length r = cols) rows -> (1 <= splits <= Z.of_nat (List.length rows))%Z ->
  interpolate_splits (part_invdist tree mub n) no_radius splits rows cols =
  match interpolate_whole (part_invdist tree mub n) rows with Ok t => Ok (map Some (rows_of t)) | Raise e => Raise e end.
Proof.
  intros Loc tree mub n rows cols splits Hr Hs.
  rewrite (splits_same (fun _ p => invdist_cell mub n (tree 4%nat p)) _ no_radius splits rows cols) by (try assumption; reflexivity).
  unfold interpolate_whole, no_radius, part_invdist. destruct (mapM _ _); reflexivity.
Qed.
Print Assumptions C48_partial.
(** any other builder that treats the target cell by cell *)
Theorem C48_cellwise : forall (Loc W Rad : Type) (cell : option Rad -> Loc -> res (list W * list Z)) part radius rows cols splits,
  (forall rs, part (radius rows) rs = do l <- mapM (cell (radius rows)) (List.concat rs); Ok (Mat l)) -> part None rows = part (radius rows) rows ->
  Forall (fun r => List.length r = cols) rows -> (1 <= splits <= Z.of_nat (List.length rows))%Z ->
  interpolate_splits part radius splits rows cols = match interpolate_whole part rows with Ok t => Ok (map Some (rows_of t)) | Raise e => Raise e end.
Proof.
  intros Loc W Rad cell part radius rows cols splits Hp Hn Hr Hs. rewrite (splits_same cell part radius splits rows cols Hp Hr Hs).
  unfold interpolate_whole. rewrite Hn, Hp. destruct (mapM _ _); reflexivity.
Qed.
Print Assumptions C48_cellwise.
Definition line (p : Qc) (i : nat) : Qc := let d := p - ZQ (Z.of_nat i) in if Qc_ltb d 0 then - d else d.
Definition ex_rows : list (list Qc) := [[ZQ 0; Q2Qc (1 # 2)]; [ZQ 2; Q2Qc (7 # 2)]; [ZQ 5; ZQ 9]].
Example C48_nonvacuous : Forall (fun r => List.length r = 2%nat) ex_rows /\
  is_ok (interpolate_whole (part_invdist (exhaustive line 6) (nint 2) 6) ex_rows) = true /\
  match interpolate_splits (part_invdist (exhaustive line 6) (nint 2) 6) no_radius 2 ex_rows 2 with
  | Ok l => map (option_map (fun r => snd r)) l = [Some [0; 1; 2; 3]; Some [0; 1; 2; 3]; Some [2; 1; 3; 0]; Some [3; 4; 2; 5]; Some [5; 4; 3; 2]; Some [6; 6; 6; 6]]%Z
  | Raise _ => False
  end.
Proof. split; [repeat constructor|]. vm_compute. split; reflexivity. Qed.
(** nearest neighbour: with splits there is never a table (parts of fewer than
    250 cells fail anyway; one-dimensional arrays do not fit the columns) *)
Theorem C48_nearest_splits_fail : forall (Loc : Type) (tree : nat -> Loc -> neighbours) mub n isatty rows cols splits,
  Forall (fun r => List.length r = cols) rows -> rows <> [] -> (0 < cols)%nat -> (0 <= splits)%Z ->
  is_ok (interpolate_splits (part_nearest tree mub n isatty) no_radius splits rows cols) = false.
Proof.
  intros Loc tree mub n isatty rows cols splits Hr Hn Hc Hs. unfold interpolate_splits. destruct (Z.eqb_spec splits 0) as [_|Hz]; [reflexivity|].
  set (size := (Z.of_nat (List.length rows) / splits)%Z). assert (Hq : (0 <= size)%Z) by (apply Z.div_pos; lia).
  destruct (Z.eq_dec size 0) as [E0|E0]; [rewrite E0; reflexivity|].
  assert (Hl : (0 < List.length rows)%nat) by (destruct rows; [congruence|cbn; lia]).
  destruct (py_range_cons 0 (Z.of_nat (List.length rows)) size ltac:(lia) ltac:(lia)) as [l [_ El]]. rewrite El. cbn [rbind foldM].
  set (rs := firstn (Z.to_nat size) (skipn (Z.to_nat 0) rows)).
  assert (Hcells : (0 < List.length (List.concat rs))%nat).
  { unfold rs. cbn [Z.to_nat skipn]. destruct rows as [|r rows]; [congruence|]. assert (Z.to_nat size = S (Z.to_nat size - 1))%nat by lia. rewrite H. cbn [firstn List.concat]. inversion Hr; subst. rewrite app_length. lia. }
  unfold part_nearest at 1. destruct (mapM _ (List.concat rs)) as [cells|e] eqn:Ec; cbn [rbind]; [|reflexivity].
  apply mapM_ok_length in Ec. destruct (Nat.lt_ge_cases (List.length cells) 250) as [Hlt|Hge]; [rewrite build_nn_small by lia; reflexivity|].
  rewrite build_nn_ok by exact Hge. destruct (mapM (nn_cell mub n) cells) as [t|e] eqn:Et; cbn [rbind]; [|reflexivity].
  apply mapM_ok_length in Et. destruct t as [|[w i] [|c2 t]]; [cbn in Et; lia|cbn in Et; lia|]. reflexivity.
Qed.
Print Assumptions C48_nearest_splits_fail.
Definition ex_rows250 : list (list Qc) := repeat (repeat (ZQ 1) 50) 10.
Theorem C48_refuted : ~ C48_full /\ is_ok (interpolate_whole (part_nearest (exhaustive line 6) (nint 2) 6 false) ex_rows250) = true.
Proof.
  assert (O : is_ok (interpolate_whole (part_nearest (exhaustive line 6) (nint 2) 6 false) ex_rows250) = true) by (vm_compute; reflexivity).
  split; [|exact O]. intro H.
  assert (Hr : Forall (fun r => List.length r = 50%nat) ex_rows250) by (apply Forall_forall; intros r Hi; apply repeat_spec in Hi; subst; apply repeat_length).
  destruct (H Qc (exhaustive line 6) (nint 2) 6%nat false ex_rows250 50%nat 2%Z Hr ltac:(discriminate) ltac:(lia)) as [H1 _].
  pose proof (C48_nearest_splits_fail Qc (exhaustive line 6) (nint 2) 6%nat false ex_rows250 50%nat 2%Z Hr ltac:(discriminate) ltac:(lia) ltac:(lia)) as F.
  destruct (interpolate_whole _ _) as [t|e] eqn:E in O; [|discriminate O]. rewrite (H1 t E) in F. discriminate F.
Qed.
Print Assumptions C48_refuted.
(** numbers of splits, which the command file gives unchecked: zero and more
    than the rows of the target are errors, a negative number leaves the whole
    table unwritten *)
Theorem C48_other_numbers : forall (Loc W Rad : Type) (part : option Rad -> list (list Loc) -> res (table W)) radius splits rows cols, rows <> [] ->
  (splits = 0%Z -> interpolate_splits part radius splits rows cols = Raise ZeroDivisionError) /\
  ((Z.of_nat (List.length rows) < splits)%Z -> interpolate_splits part radius splits rows cols = Raise ValueError) /\
  ((splits < 0)%Z -> interpolate_splits part radius splits rows cols = Ok (repeat None (List.length rows * cols))).
Proof.
  intros Loc W Rad part radius splits rows cols Hn. assert (Hl : (0 < List.length rows)%nat) by (destruct rows; [congruence|cbn; lia]).
  split; [intros ->; reflexivity|]. split.
  - intro H. unfold interpolate_splits. destruct (Z.eqb_spec splits 0) as [C|_]; [lia|]. rewrite Z.div_small by lia. reflexivity.
  - intro H. unfold interpolate_splits. destruct (Z.eqb_spec splits 0) as [C|_]; [lia|]. set (q := (Z.of_nat (List.length rows) / splits)%Z).
    assert (Hq : (- Z.of_nat (List.length rows) <= q < 0)%Z).
    { pose proof (Z.div_mod (Z.of_nat (List.length rows)) splits ltac:(lia)) as D. pose proof (Z.mod_neg_bound (Z.of_nat (List.length rows)) splits H) as B. fold q in D. nia. }
    unfold py_range. destruct (Z.eqb_spec q 0) as [C|_]; [lia|]. destruct (Z.ltb_spec 0 q) as [C|_]; [lia|].
    assert (E : range_len (Z.of_nat (List.length rows)) 0 (- q) = O).
    { unfold range_len. assert ((0 - Z.of_nat (List.length rows) + - q - 1) / - q < 0)%Z by (apply Z.div_lt_upper_bound; lia). lia. }
    rewrite E. reflexivity.
Qed.
Print Assumptions C48_other_numbers.

(** ** C49: nearest neighbour *)
(** what a cell gets: the value of a closest source point, if it is within the
    bound; otherwise the missing value *)
Definition nearest_value {Loc} (dist : Loc -> nat -> Qc) (n : nat) (mub : Qc) (v : list num) (mv : num) (p : Loc) (x : num) : Prop :=
  exists i, nearest_to dist n p i /\ (dist p i <= mub -> nth_error v i = Some x) /\ (mub < dist p i -> x = mv).
Definition C49_full : Prop := forall (Loc : Type) (dist : Loc -> nat -> Qc) n tree mub isatty rows v mv,
  kdtree dist n tree -> (0 < n)%nat -> asize v = n ->
  exists t out, interpolate_whole (part_nearest tree (Fin mub) n isatty) rows = Ok (Flat t) /\ apply_single v mv (map snd t) = Ok out /\
    Forall2 (nearest_value dist n mub (adata v) mv) (List.concat rows) out.
Theorem C49_table : forall (Loc : Type) (dist : Loc -> nat -> Qc) n tree mub isatty rows v mv,
  kdtree dist n tree -> (0 < n)%nat -> asize v = n -> (250 <= List.length (List.concat rows))%nat ->
  exists t out, interpolate_whole (part_nearest tree (Fin mub) n isatty) rows = Ok (Flat t) /\ apply_single v mv (map snd t) = Ok out /\
    Forall2 (nearest_value dist n mub (adata v) mv) (List.concat rows) out.
Proof.
  intros Loc dist n tree mub isatty rows v mv K Hn Hv Hc. unfold interpolate_whole, part_nearest.
  assert (G : forall ps, exists cells, mapM (fun p => match tree 1%nat p with c :: _ => Ok c | [] => Raise IndexError end) ps = Ok cells /\ List.length cells = List.length ps /\
    exists t, mapM (nn_cell (Fin mub) n) cells = Ok t /\ exists out, apply_single v mv (map snd t) = Ok out /\ Forall2 (nearest_value dist n mub (adata v) mv) ps out).
  { induction ps as [|p ps [cells [E1 [L [t [E2 [out [E3 F]]]]]]]].
    - exists []. split; [reflexivity|]. split; [reflexivity|]. exists []. split; [reflexivity|]. exists []. split; [reflexivity|constructor].
    - destruct (kdtree_first dist n tree 1 p K Hn ltac:(lia)) as [i [r [Et [Hi Hmin]]]].
      exists ((Fin (dist p i), Z.of_nat i) :: cells). cbn [mapM]. rewrite Et, E1. cbn [rbind]. split; [reflexivity|]. split; [cbn; lia|].
      rewrite (nn_cell_ok mub n (dist p i) i Hi), E2. cbn [rbind]. eexists. split; [reflexivity|]. cbn [map snd]. unfold apply_single in *. cbn [mapM]. rewrite E3. unfold append_mv, Qc_leb.
      destruct (Qc_ltb mub (dist p i)) eqn:Eb; cbn [negb]; rewrite py_index_nat.
      + apply Qc_ltb_spec in Eb. rewrite nth_error_app2 by (unfold asize in Hv; lia). unfold asize in Hv. rewrite Hv, Nat.sub_diag. cbn [nth_error rbind].
        eexists. split; [reflexivity|]. constructor; [|exact F]. exists i. split; [split; assumption|]. split; [intro C; exfalso; now apply (Qclt_not_le _ _ Eb)|reflexivity].
      + apply Qc_ltb_false in Eb. unfold asize in Hv. rewrite nth_error_app1 by lia. destruct (nth_error (adata v) i) as [x|] eqn:Ex; [|apply nth_error_None in Ex; lia].
        cbn [rbind]. eexists. split; [reflexivity|]. constructor; [|exact F]. exists i. split; [split; assumption|]. split; [intro; assumption|intro C; exfalso; now apply (Qclt_not_le _ _ C)]. }
  destruct (G (List.concat rows)) as [cells [E1 [L [t [E2 [out [E3 F]]]]]]]. exists t, out. rewrite E1. cbn [rbind]. rewrite build_nn_ok by lia. rewrite E2. cbn [rbind]. auto.
Qed.
Print Assumptions C49_table.
Example C49_nonvacuous : kdtree line 6 (exhaustive line 6) /\ (250 <= List.length (List.concat ex_rows250))%nat /\
  match interpolate_whole (part_nearest (exhaustive line 6) (nint 2) 6 false) (repeat (repeat (Q2Qc (12 # 5)) 50) 5 ++ [[ZQ 9]])%list with
  | Ok (Flat t) => firstn 1 (map snd t) = [2]%Z /\ List.last (map snd t) 0%Z = 6%Z | _ => False end.
Proof. split; [apply exhaustive_kdtree|]. vm_compute. split; [repeat constructor|split; reflexivity]. Qed.
(** a target of fewer than 250 cells: division by zero *)
Theorem C49_small_refuted : ~ C49_full /\ forall (Loc : Type) (dist : Loc -> nat -> Qc) n tree mub isatty rows, kdtree dist n tree -> (0 < n)%nat ->
  (0 < List.length (List.concat rows) < 250)%nat -> interpolate_whole (part_nearest tree mub n isatty) rows = Raise ZeroDivisionError.
Proof.
  assert (G : forall (Loc : Type) (dist : Loc -> nat -> Qc) n tree mub isatty rows, kdtree dist n tree -> (0 < n)%nat ->
    (0 < List.length (List.concat rows) < 250)%nat -> interpolate_whole (part_nearest tree mub n isatty) rows = Raise ZeroDivisionError).
  { intros Loc dist n tree mub isatty rows K Hn Hc. unfold interpolate_whole, part_nearest.
    destruct (mapM _ (List.concat rows)) as [cells|e] eqn:E.
    - cbn [rbind]. apply mapM_ok_length in E. rewrite build_nn_small by lia. reflexivity.
    - exfalso. revert e E. clear Hc. induction (List.concat rows) as [|p ps IH]; intros e E; [discriminate E|]. cbn [mapM] in E. destruct (kdtree_first dist n tree 1 p K Hn ltac:(lia)) as [i [r [Et _]]]. rewrite Et in E. cbn [rbind] in E.
      destruct (mapM _ ps) as [y|e']; cbn [rbind] in E; [discriminate E|]. now apply (IH e'). }
  split; [|exact G]. intro H.
  destruct (H Qc line 6%nat (exhaustive line 6) (ZQ 2) false ex_rows (Nd (map Fin [1; 1; 1; 1; 1; 1])) NaN (exhaustive_kdtree line 6) ltac:(lia) eq_refl) as [t [out [E _]]].
  rewrite (G Qc line 6%nat _ _ _ _ (exhaustive_kdtree line 6)) in E by (try lia; cbn; lia). discriminate E.
Qed.
Print Assumptions C49_small_refuted.
(** the bound: the largest distance between a source point and its closest
    neighbour, increased by 4 / Nj of it; so it is at least the distance of
    every source point to its neighbour *)
Lemma np_max_fold l m : exists r, fold_left (fun a b => if is_nan a then a else if is_nan b then b else if nltb a b then b else a) (map Fin l) (Fin m) = Fin r /\
  In r (m :: l) /\ forall x, In x (m :: l) -> x <= r.
Proof.
  revert m. induction l as [|a l IH]; intro m; cbn [map fold_left is_nan nltb].
  - exists m. split; [reflexivity|]. split; [now left|]. intros x [<-|[]]. apply Qcle_refl.
  - destruct (Qc_ltb m a) eqn:E.
    + apply Qc_ltb_spec in E. destruct (IH a) as [r [H1 [H2 H3]]]. exists r. split; [exact H1|]. split; [now right|]. intros x [<-|Hx]; [|now apply H3]. eapply Qcle_trans; [apply Qclt_le_weak; exact E|apply H3; now left].
    + apply Qc_ltb_false in E. destruct (IH m) as [r [H1 [H2 H3]]]. exists r. split; [exact H1|]. split; [destruct H2 as [->|H2]; [now left|right; now right]|].
      intros x [<-|[<-|Hx]]; [apply H3; now left| |apply H3; now right]. eapply Qcle_trans; [exact E|apply H3; now left].
Qed.
Theorem C49_bound : forall seconds nj, seconds <> [] -> (forall d, In d seconds -> 0 <= d) -> (0 < nj)%Z ->
  exists m, In m seconds /\ (forall d, In d seconds -> d <= m) /\
    min_upper_bound (map Fin seconds) (Some nj) = Ok (Fin (m + m * ZQ 4 / ZQ nj)) /\ m <= m + m * ZQ 4 / ZQ nj.
Proof.
  intros seconds nj Hn Hp Hj. destruct seconds as [|a l]; [congruence|]. destruct (np_max_fold l a) as [m [E [Hin Hmax]]].
  assert (En : np_max (map Fin (a :: l)) = Fin m) by exact E.
  exists m. split; [exact Hin|]. split; [exact Hmax|]. unfold min_upper_bound.
  rewrite En. unfold nint. cbn [nmul]. rewrite ndiv_fin by now apply ZQ_neq0, Z.neq_sym, Z.lt_neq. split; [reflexivity|].
  assert (0 <= m * ZQ 4 / ZQ nj). { apply Qcdiv_nonneg; [|now apply ZQ_pos]. pose proof (Hp m Hin). assert (0 < ZQ 4) by now apply ZQ_pos. qcnra. }
  qclra.
Qed.
Print Assumptions C49_bound.
Example C49_bound_nonvacuous : min_upper_bound (map Fin [ZQ 3; ZQ 5; ZQ 4]) (Some 10%Z) = Ok (nint 7).
Proof. vm_compute. reflexivity. Qed.
(** a grid without Nj (unstructured): TypeError *)
Theorem C49_no_nj_refuted : forall seconds, min_upper_bound seconds None = Raise TypeError. Proof. reflexivity. Qed.
Print Assumptions C49_no_nj_refuted.

(** ** C50: inverse distance *)
(** four closest points; the weights they get and the value of the cell;
    [far]: what is expected of a cell without source point within the bound *)
Definition idw_value {Loc} (dist : Loc -> nat -> Qc) (n : nat) (mub : Qc) (v : list Qc) (far : num -> Prop) (p : Loc) (rx : (list num * list Z) * num) : Prop :=
  let '((ws, is_), x) := rx in
  exists l i0 ds xs, closest dist n 4 p l /\ List.hd O l = i0 /\ ds = map (dist p) l /\ Forall2 (fun i y => nth_error v i = Some y) l xs /\
    (dist p i0 <= Q2Qc (1 # 10000000000) -> ws = [nint 1; nint 0; nint 0; nint 0] /\ is_ = map Z.of_nat l /\ x = Fin (List.hd 0 xs)) /\
    (Q2Qc (1 # 10000000000) < dist p i0 -> dist p i0 <= mub ->
       exists qs, ws = map Fin qs /\ is_ = map Z.of_nat l /\ inverse_square ds qs /\ x = Fin (dot qs xs)) /\
    (Q2Qc (1 # 10000000000) < dist p i0 -> mub < dist p i0 -> far x).
Definition C50_full : Prop := forall (Loc : Type) (dist : Loc -> nat -> Qc) n tree mub rows v mv,
  kdtree dist n tree -> (4 <= n)%nat -> List.length v = n ->
  exists t out, interpolate_whole (part_invdist tree (Fin mub) n) rows = Ok (Mat t) /\ apply_weighted (Nd (map Fin v)) mv t = Ok out /\
    Forall2 (idw_value dist n mub v (fun x => x = mv)) (List.concat rows) (List.combine t out).
Lemma closest_values {Loc} (dist : Loc -> nat -> Qc) n k p l (v : list Qc) : closest dist n k p l -> List.length v = n -> exists xs, Forall2 (fun i y => nth_error v i = Some y) l xs.
Proof.
  intros [_ [_ [H _]]] Hv. revert H. induction l as [|i l IH]; intro H; [exists []; constructor|]. destruct IH as [xs F]; [intros j Hj; apply H; now right|].
  destruct (nth_error v i) as [y|] eqn:E; [exists (y :: xs); now constructor|]. apply nth_error_None in E. specialize (H i (or_introl eq_refl)). lia.
Qed.
Lemma gather_values l v xs mv : Forall2 (fun i y => nth_error v i = Some y) l xs -> mapM (py_index (map Fin v ++ [mv])%list) (map Z.of_nat l) = Ok (map Fin xs).
Proof.
  induction 1 as [|i y l xs H _ IH]; [reflexivity|]. cbn [map mapM]. rewrite py_index_nat. rewrite nth_error_app1 by (rewrite map_length; apply nth_error_Some; congruence).
  rewrite (nth_error_map' Fin v i y H). cbn [rbind]. rewrite IH. reflexivity.
Qed.
Lemma gather_missing k v (mv : num) : mapM (py_index (v ++ [mv])%list) (repeat (Z.of_nat (List.length v)) k) = Ok (repeat mv k).
Proof.
  induction k as [|k IH]; [reflexivity|]. cbn [repeat mapM]. rewrite py_index_nat, nth_error_app2, Nat.sub_diag by lia. cbn [nth_error rbind]. rewrite IH. reflexivity.
Qed.
Lemma invdist_row {Loc} (dist : Loc -> nat -> Qc) n tree mub v mv p : kdtree dist n tree -> (4 <= n)%nat -> List.length v = n ->
  exists row x, invdist_cell (Fin mub) n (tree 4%nat p) = Ok row /\
    (do vals <- mapM (py_index (append_mv (Nd (map Fin v)) mv)) (snd row); weighted_row (fst row) vals) = Ok x /\
    idw_value dist n mub v (fun x => x = NaN) p (row, x).
Proof.
  intros K Hn Hv. destruct (kdtree_four dist n tree 4 p K Hn) as [l [Hc E]]. destruct (closest_values dist n 4 p l v Hc Hv) as [xs Hx].
  pose proof Hc as [Hlen [_ [Hlt [Hs _]]]]. destruct l as [|i0 l]; [discriminate Hlen|]. set (L := i0 :: l) in *.
  assert (Hm : mapM (py_index (repeat tt n)) (map snd (tree 4%nat p)) = Ok (map (fun _ => tt) L)).
  { rewrite E, map_map. cbn [snd]. clear - Hlt. induction L as [|i L IH]; [reflexivity|]. cbn [map mapM]. rewrite py_index_unit by (apply Hlt; now left). cbn [rbind]. rewrite IH; [reflexivity|]. intros j Hj; apply Hlt; now right. }
  unfold invdist_cell. rewrite Hm. cbn [rbind].
  assert (Hf : first_dist (tree 4%nat p) = Fin (dist p i0)) by (rewrite E; reflexivity).
  assert (Hlen4 : List.length (tree 4%nat p) = 4%nat) by (rewrite E, map_length; exact Hlen).
  assert (Hsnd : map snd (tree 4%nat p) = map Z.of_nat L) by (rewrite E, map_map; reflexivity).
  assert (Hfst : map fst (tree 4%nat p) = map Fin (map (dist p) L)) by (rewrite E, !map_map; reflexivity).
  pose proof (gather_values L v xs mv Hx) as Hg. pose proof (Forall2_length _ _ _ Hx) as Lx.
  destruct (leb_num (Fin (dist p i0)) eps10) eqn:E1; [|destruct (leb_num (Fin (dist p i0)) (Fin mub)) eqn:E2].
  - eexists. exists (Fin (List.hd 0 xs)). split; [reflexivity|].
    assert (Ew : invdist_weights (Fin mub) (tree 4%nat p) = [nint 1; nint 0; nint 0; nint 0]) by (unfold invdist_weights; rewrite Hf, E1, Hlen4; reflexivity).
    assert (Ei : invdist_indexes (Fin mub) n (tree 4%nat p) = map Z.of_nat L) by (unfold invdist_indexes; rewrite Hf, E1; exact Hsnd).
    rewrite Ew, Ei. cbn [fst snd]. unfold append_mv, adata. rewrite Hg. cbn [rbind]. split.
    + change [nint 1; nint 0; nint 0; nint 0] with (map Fin [ZQ 1; ZQ 0; ZQ 0; ZQ 0]). rewrite weighted_row_ok by (rewrite <- Lx; symmetry; exact Hlen). do 2 f_equal.
      destruct xs as [|a [|b [|c [|d [|e xs]]]]]; cbn [List.length] in Lx; try (rewrite Hlen in Lx; discriminate Lx). cbn [dot List.hd]. rewrite ZQ_1, ZQ_0. ring.
    + exists L, i0, (map (dist p) L), xs. split; [exact Hc|]. split; [reflexivity|]. split; [reflexivity|]. split; [exact Hx|]. apply leb_num_fin in E1.
      split; [auto|]. split; intros C; exfalso; now apply (Qclt_not_le _ _ C).
  - assert (Hpos : forall d, In d (map (dist p) L) -> 0 < d).
    { apply leb_num_fin_false in E1. assert (P0 : 0 < Q2Qc (1 # 10000000000)) by (vm_compute; reflexivity). intros d Hd. apply in_map_iff in Hd. destruct Hd as [j [<- Hj]].
      apply (Qclt_le_trans _ (dist p i0)); [now apply (Qclt_trans _ _ _ P0)|]. destruct Hj as [<-|Hj]; [apply Qcle_refl|]. inversion Hs as [|? ? _ Hall]; subst. now apply (proj1 (Forall_forall _ _) Hall). }
    pose proof (idw_spec (map (dist p) L) ltac:(discriminate) Hpos) as Hi.
    eexists. exists (Fin (dot (idw (map (dist p) L)) xs)). split; [reflexivity|].
    assert (Ew : invdist_weights (Fin mub) (tree 4%nat p) = map Fin (idw (map (dist p) L))) by (apply invdist_weights_in; rewrite ?Hf; try assumption; discriminate).
    assert (Ei : invdist_indexes (Fin mub) n (tree 4%nat p) = map Z.of_nat L) by (unfold invdist_indexes; rewrite Hf, E1, E2; exact Hsnd).
    rewrite Ew, Ei. cbn [fst snd]. unfold append_mv, adata. rewrite Hg. cbn [rbind]. split.
    + apply weighted_row_ok. destruct Hi as [Hl _]. rewrite Hl, map_length. exact Lx.
    + exists L, i0, (map (dist p) L), xs. split; [exact Hc|]. split; [reflexivity|]. split; [reflexivity|]. split; [exact Hx|]. apply leb_num_fin_false in E1. apply leb_num_fin in E2.
      split; [intros C; exfalso; now apply (Qclt_not_le _ _ E1)|]. split; [intros _ _; exists (idw (map (dist p) L)); auto|intros _ C; exfalso; now apply (Qclt_not_le _ _ C)].
  - eexists. exists NaN. split; [reflexivity|].
    assert (Ew : invdist_weights (Fin mub) (tree 4%nat p) = [NaN; NaN; NaN; NaN]) by (unfold invdist_weights; rewrite Hf, E1, E2, Hlen4; reflexivity).
    assert (Ei : invdist_indexes (Fin mub) n (tree 4%nat p) = repeat (Z.of_nat (List.length (map Fin v))) 4) by (unfold invdist_indexes; rewrite Hf, E1, E2, Hlen4, map_length, Hv; reflexivity).
    rewrite Ew, Ei. cbn [fst snd]. unfold append_mv, adata. rewrite gather_missing. cbn [rbind]. split; [reflexivity|].
    exists L, i0, (map (dist p) L), xs. split; [exact Hc|]. split; [reflexivity|]. split; [reflexivity|]. split; [exact Hx|]. apply leb_num_fin_false in E1. apply leb_num_fin_false in E2.
    split; [intros C; exfalso; now apply (Qclt_not_le _ _ E1)|]. split; [intros _ C; exfalso; now apply (Qclt_not_le _ _ E2)|reflexivity].
Qed.
(** everything but the value of cells without neighbours, which is NaN whatever
    the missing value *)
Theorem C50_table : forall (Loc : Type) (dist : Loc -> nat -> Qc) n tree mub rows v mv,
  kdtree dist n tree -> (4 <= n)%nat -> List.length v = n ->
  exists t out, interpolate_whole (part_invdist tree (Fin mub) n) rows = Ok (Mat t) /\ apply_weighted (Nd (map Fin v)) mv t = Ok out /\
    Forall2 (idw_value dist n mub v (fun x => x = NaN)) (List.concat rows) (List.combine t out).
Proof.
  intros Loc dist n tree mub rows v mv K Hn Hv. unfold interpolate_whole, part_invdist.
  assert (G : forall ps, exists t out, mapM (fun p => invdist_cell (Fin mub) n (tree 4%nat p)) ps = Ok t /\ apply_weighted (Nd (map Fin v)) mv t = Ok out /\ Forall2 (idw_value dist n mub v (fun x => x = NaN)) ps (List.combine t out)).
  { induction ps as [|p ps [t [out [E1 [E2 F]]]]]; [exists [], []; repeat split; constructor|].
    destruct (invdist_row dist n tree mub v mv p K Hn Hv) as [row [x [R1 [R2 R3]]]]. exists (row :: t), (x :: out). cbn [mapM]. rewrite R1, E1. cbn [rbind]. split; [reflexivity|].
    unfold apply_weighted in *. cbn [mapM]. rewrite R2, E2. cbn [rbind List.combine]. split; [reflexivity|]. now constructor. }
  destruct (G (List.concat rows)) as [t [out [E1 [E2 F]]]]. exists t, out. rewrite E1. cbn [rbind]. auto.
Qed.
Print Assumptions C50_table.
Example C50_nonvacuous : kdtree line 6 (exhaustive line 6) /\
  match interpolate_whole (part_invdist (exhaustive line 6) (nint 2) 6) [[ZQ 2; Q2Qc (3 # 2); ZQ 9]] with
  | Ok (Mat t) => match apply_weighted (Nd (map nint [10; 20; 30; 40; 50; 60]%Z)) (nint (-9999)) t with
      | Ok out => zipw num_same out [nint 30; nint 25; NaN] = [true; true; true] | _ => False end
  | _ => False end.
Proof. split; [apply exhaustive_kdtree|]. vm_compute. reflexivity. Qed.
(** the missing value is not used *)
Theorem C50_missing_refuted : ~ C50_full.
Proof.
  intro H. destruct (H Qc line 6%nat (exhaustive line 6) (ZQ 2) [[ZQ 9]] (map ZQ [10; 20; 30; 40; 50; 60]%Z) (nint (-9999)) (exhaustive_kdtree line 6) ltac:(lia) eq_refl) as [t [out [E1 [E2 F]]]].
  assert (N : match interpolate_whole (part_invdist (exhaustive line 6) (nint 2) 6) [[ZQ 9]] with Ok (Mat t) => apply_weighted (Nd (map nint [10; 20; 30; 40; 50; 60]%Z)) (nint (-9999)) t | _ => Raise OtherError end = Ok [NaN]) by (vm_compute; reflexivity).
  change (nint 2) with (Fin (ZQ 2)) in N. rewrite E1 in N. change (map nint [10; 20; 30; 40; 50; 60]%Z) with (map Fin (map ZQ [10; 20; 30; 40; 50; 60]%Z)) in N. rewrite E2 in N. assert (Eo : out = [NaN]) by congruence. subst out.
  cbn [List.concat app] in F. inversion F as [|? [[ws is_] x] ? ? Hv _ Eq1 Eq2]; subst. destruct t as [|r t]; cbn [List.combine] in *; [congruence|]. assert (x = NaN) by congruence. subst x.
  destruct Hv as [l [i0 [ds [xs [Hc [Hh [_ [_ [_ [_ Hfar]]]]]]]]]].
  assert (Hi : (i0 < 6)%nat). { destruct Hc as [Hl [_ [Hlt _]]]. destruct l; [discriminate Hl|]. cbn in Hh. subst. apply Hlt. now left. }
  assert (D : ZQ 3 < line (ZQ 9) i0). { do 6 (destruct i0 as [|i0]; [vm_compute; reflexivity|]). lia. }
  assert (NaN = nint (-9999)); [|discriminate]. apply Hfar; eapply Qclt_trans; [|exact D| |exact D]; vm_compute; reflexivity.
Qed.
Print Assumptions C50_missing_refuted.
(** fewer than four source points: IndexError *)
Theorem C50_few_points_refuted : forall (Loc : Type) (dist : Loc -> nat -> Qc) n tree mub rows, kdtree dist n tree -> (n < 4)%nat -> List.concat rows <> [] ->
  interpolate_whole (part_invdist tree mub n) rows = Raise IndexError.
Proof.
  intros Loc dist n tree mub rows K Hn Hr. unfold interpolate_whole, part_invdist. destruct (List.concat rows) as [|p ps]; [congruence|]. cbn [mapM].
  destruct (K 4%nat p) as [l [[Hlen [_ [Hlt _]]] E]]. unfold invdist_cell. rewrite E, map_app, map_map. cbn [snd].
  assert (M : mapM (py_index (repeat tt n)) (map (fun x => Z.of_nat x) l ++ map snd (repeat (PInf, Z.of_nat n) (4 - n)))%list = Raise IndexError).
  { rewrite mapM_app. rewrite (mapM_fun _ (fun _ => tt)).
    - cbn [rbind]. destruct (4 - n)%nat as [|k] eqn:Ek; [lia|]. cbn [repeat map snd mapM]. rewrite py_index_nat. rewrite (proj2 (nth_error_None _ _)) by (rewrite repeat_length; lia). reflexivity.
    - intros z Hz. apply in_map_iff in Hz. destruct Hz as [i [<- Hi]]. apply py_index_unit. now apply Hlt. }
  rewrite M. reflexivity.
Qed.
Print Assumptions C50_few_points_refuted.
