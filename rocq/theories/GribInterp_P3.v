(** * GribInterp_P3: application of any table, end to end results *)
From Verif Require Import Base Num Strings GribInterp Spec_GribInterp Base_P Num_P GribInterp_P GribInterp_P2.
Local Open Scope Z_scope.

Lemma place_inj rows cols x y x' y' : in_map rows cols x y -> in_map rows cols x' y' -> place cols x y = place cols x' y' -> x = x' /\ y = y'.
Proof. unfold in_map, place. intros [] [] E. assert (Z.to_nat x = Z.to_nat x') by nia. assert (Z.to_nat y = Z.to_nat y') by nia. lia. Qed.
Lemma place_lt rows cols x y : in_map rows cols x y -> (place cols x y < rows * cols)%nat.
Proof. unfold in_map, place. intros []. nia. Qed.
Lemma set_nth_length {A} (l : list A) i a : List.length (set_nth l i a) = List.length l.
Proof. revert i. induction l as [|b l IH]; intros [|i]; cbn [set_nth List.length]; auto. Qed.
Lemma set_nth_same {A} (l : list A) i a : (i < List.length l)%nat -> nth_error (set_nth l i a) i = Some a.
Proof. revert i. induction l as [|b l IH]; intros [|i] H; cbn [set_nth List.length nth_error] in *; try lia; [reflexivity|apply IH; lia]. Qed.
Lemma set_nth_other {A} (l : list A) i j a : i <> j -> nth_error (set_nth l i a) j = nth_error l j.
Proof. revert i j. induction l as [|b l IH]; intros [|i] [|j] H; cbn [set_nth nth_error]; try reflexivity; try lia. apply IH. lia. Qed.

Lemma put_cell_place rows cols acc x y v : in_map rows cols x y -> put_cell rows cols acc (x, y, v) = Ok (set_nth acc (place cols x y) v).
Proof.
  intros [H1 H2]. unfold put_cell, place.
  assert (G : forall a n, 0 <= a < Z.of_nat n -> norm_index a n = Ok (Z.to_nat a)).
  { intros a n H. unfold norm_index. cbv zeta. destruct (Z.ltb_spec a 0); [lia|]. destruct (Z.ltb_spec a 0); [lia|]. destruct (Z.leb_spec (Z.of_nat n) a); [lia|]. reflexivity. }
  rewrite (G _ _ H1). cbn [rbind]. rewrite (G _ _ H2). reflexivity.
Qed.
Lemma put_fold_spec rows cols l : forall acc, List.length acc = (rows * cols)%nat ->
  (forall p, In p l -> in_map rows cols (fst (fst p)) (snd (fst p))) -> NoDup (map fst l) ->
  exists out, foldM (put_cell rows cols) l acc = Ok out /\ List.length out = (rows * cols)%nat /\
    (forall x y v, In (x, y, v) l -> nth_error out (place cols x y) = Some v) /\
    (forall x y, in_map rows cols x y -> ~ In (x, y) (map fst l) -> nth_error out (place cols x y) = nth_error acc (place cols x y)).
Proof.
  induction l as [|[[x y] v] l IH]; intros acc Ha Hr Hd; cbn [foldM].
  - exists acc. repeat split; auto. intros x y v [].
  - pose proof (Hr _ (or_introl eq_refl)) as Hxy. cbn [fst snd] in Hxy. rewrite put_cell_place by exact Hxy. cbn [rbind].
    cbn [map fst] in Hd. inversion Hd as [|? ? Hni Hd']; subst.
    destruct (IH (set_nth acc (place cols x y) v)) as [out [H1 [H2 [H3 H4]]]]; [now rewrite set_nth_length|intros p Hp; apply Hr; now right|exact Hd'|].
    exists out. split; [exact H1|]. split; [exact H2|]. split.
    + intros x' y' v' [E|Hi]; [|exact (H3 _ _ _ Hi)]. injection E as <- <- <-. rewrite H4 by assumption. apply set_nth_same. rewrite Ha. now apply place_lt.
    + intros x' y' Hm Hn. cbn [map fst] in Hn. rewrite H4; [|exact Hm|intro C; apply Hn; now right]. apply set_nth_other. intro E.
      apply (place_inj rows cols x y x' y') in E; [|exact Hxy|exact Hm]. apply Hn. left. destruct E. congruence.
Qed.
Lemma nth_error_repeat {A} (a : A) n i : (i < n)%nat -> nth_error (repeat a n) i = Some a.
Proof. revert i. induction n as [|n IH]; intros [|i] H; cbn [repeat nth_error]; try lia; [reflexivity|apply IH; lia]. Qed.
(** every list of rows with distinct cells *)
Lemma put_spec {R} rows cols mv (rs : list R) (xf yf : R -> Z) (vf : R -> num) :
  (forall r, In r rs -> in_map rows cols (xf r) (yf r)) -> NoDup (map (fun r => (xf r, yf r)) rs) ->
  exists out, put rows cols (repeat mv (rows * cols)) (map xf rs) (map yf rs) (map vf rs) = Ok out /\ List.length out = (rows * cols)%nat /\
    (forall r, In r rs -> nth_error out (place cols (xf r) (yf r)) = Some (vf r)) /\
    (forall x y, in_map rows cols x y -> (forall r, In r rs -> (xf r, yf r) <> (x, y)) -> nth_error out (place cols x y) = Some mv).
Proof.
  intros Hr Hd. unfold put. rewrite !map_length, Nat.eqb_refl. cbn [negb].
  assert (E : match map vf rs with [v] => repeat v (List.length rs) | _ => map vf rs end = map vf rs) by (destruct rs as [|a [|b l]]; reflexivity).
  rewrite E, map_length, Nat.eqb_refl. cbn [negb]. rewrite combine_maps.
  destruct (put_fold_spec rows cols (map (fun r => (xf r, yf r, vf r)) rs) (repeat mv (rows * cols))) as [out [H1 [H2 [H3 H4]]]].
  - apply repeat_length.
  - intros p Hp. apply in_map_iff in Hp as [r [<- Hi]]. exact (Hr r Hi).
  - rewrite map_map. exact Hd.
  - exists out. split; [exact H1|]. split; [exact H2|]. split.
    + intros r Hi. apply H3. apply in_map_iff. exists r. auto.
    + intros x y Hm Hn. rewrite H4; [apply nth_error_repeat; now apply place_lt|exact Hm|].
      rewrite map_map. intro C. apply in_map_iff in C as [r [C Hi]]. exact (Hn r Hi C).
Qed.

Lemma apply_nearest_any rows cols mv v (rs : list (Z * Z * Z)) : wf_arr v ->
  (forall x y k, In (x, y, k) rs -> in_map rows cols x y /\ in_field v k) -> NoDup (map fst rs) ->
  exists out, apply_nearest rows cols mv v (map (fun r => fst (fst r)) rs, map (fun r => snd (fst r)) rs, map snd rs) = Ok out /\
    List.length out = (rows * cols)%nat /\
    (forall x y k, In (x, y, k) rs -> nth_error out (place cols x y) = Some (point v mv k)) /\
    (forall x y, in_map rows cols x y -> ~ In (x, y) (map fst rs) -> nth_error out (place cols x y) = Some mv).
Proof.
  intros Hw Hr Hd. unfold apply_nearest. rewrite gather_ok; [|exact Hw|].
  2:{ intros k Hk. apply in_map_iff in Hk as [[[x y] k'] [<- Hi]]. exact (proj2 (Hr _ _ _ Hi)). }
  cbn [rbind]. rewrite result_gathered, map_map.
  destruct (put_spec rows cols mv rs (fun r => fst (fst r)) (fun r => snd (fst r)) (fun r => point v mv (snd r))) as [out [H1 [H2 [H3 H4]]]].
  - intros [[x y] k] Hi. exact (proj1 (Hr _ _ _ Hi)).
  - rewrite (map_ext _ fst); [exact Hd|]. now intros [[x y] k].
  - exists out. split; [exact H1|]. split; [exact H2|]. split; [intros x y k Hi; exact (H3 _ Hi)|].
    intros x y Hm Hn. apply H4; [exact Hm|]. intros [[x' y'] k] Hi C. cbn [fst snd] in C. apply Hn. apply in_map_iff. exists (x', y', k). cbn [fst]. auto.
Qed.

Lemma apply_invdist_any rows cols mv v (rs : list trow) : wf_arr v ->
  (forall r, In r rs -> in_map rows cols (r_x r) (r_y r) /\ in_field v (r_k1 r) /\ in_field v (r_k2 r) /\ in_field v (r_k3 r) /\ in_field v (r_k4 r)) ->
  NoDup (map (fun r => (r_x r, r_y r)) rs) ->
  exists out, apply_invdist rows cols mv v (table_of rs) = Ok out /\ List.length out = (rows * cols)%nat /\
    (forall r, In r rs -> nth_error out (place cols (r_x r) (r_y r)) = Some (row_value v mv r)) /\
    (forall x y, in_map rows cols x y -> ~ In (x, y) (map (fun r => (r_x r, r_y r)) rs) -> nth_error out (place cols x y) = Some mv).
Proof.
  intros Hw Hr Hd.
  assert (E : apply_invdist rows cols mv v (table_of rs) = put rows cols (repeat mv (rows * cols)) (map r_x rs) (map r_y rs) (map (row_value v mv) rs)).
  { unfold apply_invdist, table_of. cbn [t_i1 t_i2 t_i3 t_i4 t_c1 t_c2 t_c3 t_c4 t_xs t_ys].
    rewrite !gather_ok; try exact Hw; try (intros k Hk; apply in_map_iff in Hk as [r [<- Hi]]; destruct (Hr r Hi) as [_ [A1 [A2 [A3 A4]]]]; assumption).
    destruct v as [d|d [m|]]; cbn [rbind amask]; unfold arr_op2; cbn [adata amask].
    - rewrite !map_map. repeat (rewrite !ew2_map; cbn [rbind adata amask]). reflexivity.
    - unfold gmask. cbn [amask]. rewrite !map_map. repeat (rewrite !ew2_map; cbn [rbind adata amask mask_or]). rewrite !zipw_map.
      unfold result_masked. rewrite zipw_map. reflexivity.
    - unfold gmask. cbn [amask]. rewrite !map_map. repeat (rewrite !ew2_map; cbn [rbind adata amask mask_or]). reflexivity. }
  rewrite E. destruct (put_spec rows cols mv rs r_x r_y (row_value v mv)) as [out [H1 [H2 [H3 H4]]]].
  - intros r Hi. exact (proj1 (Hr r Hi)).
  - exact Hd.
  - exists out. split; [exact H1|]. split; [exact H2|]. split; [exact H3|].
    intros x y Hm Hn. apply H4; [exact Hm|]. intros r Hi C. apply Hn. apply in_map_iff. exists r. auto.
Qed.

(** ** the coefficients *)
Definition trow_of (cols i : nat) (a : quad_inv * quad_idx) : trow :=
  mkRow (Z.of_nat (i / cols)) (Z.of_nat (i mod cols)) (q1 (snd a)) (q2 (snd a)) (q3 (snd a)) (q4 (snd a))
    (ndiv (q1 (fst a)) (inv_sum (fst a))) (ndiv (q2 (fst a)) (inv_sum (fst a))) (ndiv (q3 (fst a)) (inv_sum (fst a))) (ndiv (q4 (fst a)) (inv_sum (fst a))).
Lemma rows_table_of cols rs : rows_table cols rs = table_of (map (fun r => trow_of cols (fst r) (snd r)) rs).
Proof. unfold rows_table, table_of. rewrite !map_map. reflexivity. Qed.
Lemma Qc_pos_of d : (0 <= d)%Qc -> d <> 0%Qc -> (0 < d)%Qc.
Proof. intros H1 H2. destruct (Qcle_lt_or_eq _ _ H1) as [H|H]; [exact H|congruence]. Qed.
Lemma inv_pos d : (0 < d)%Qc -> (0 < 1 / d)%Qc.
Proof. intro H. apply Qcdiv_pos; [|exact H]. rewrite <- ZQ_1. apply ZQ_pos. lia. Qed.
Lemma compute_proper n cols i l : (0 < n)%nat -> four l n -> exists a, compute_coeffs l = Ok a /\ row_ok n a /\ proper_row l (trow_of cols i a).
Proof.
  intros Hn H4. destruct (four_row n l Hn H4) as [a [Ea Ra]]. exists a. split; [exact Ea|]. split; [exact Ra|].
  destruct H4 as [k1 [k2 [k3 [k4 [d1 [d2 [d3 [d4 [-> [P1 [P2 [P3 [P4 _]]]]]]]]]]]]].
  destruct (compute_four k1 k2 k3 k4 d1 d2 d3 d4) as [A [B [C [D E]]]]. rewrite Ea in *. clear Ea.
  exists k1, k2, k3, k4, d1, d2, d3, d4. split; [reflexivity|].
  assert (G : forall k, Ok a = Ok ((nint 1, nint 0, nint 0, nint 0), (k, 0, 0, 0)) -> let r := trow_of cols i a in
            r_k1 r = k /\ r_c1 r = Fin 1 /\ r_c2 r = Fin 0 /\ r_c3 r = Fin 0 /\ r_c4 r = Fin 0).
  { intros k Ek r. assert (Ea : a = ((nint 1, nint 0, nint 0, nint 0), (k, 0, 0, 0))) by congruence. subst r. rewrite Ea. unfold trow_of, inv_sum.
    cbn [fst snd q1 q2 q3 q4 r_k1 r_c1 r_c2 r_c3 r_c4]. unfold nint. cbn [nadd].
    assert (Es : (ZQ 1 + ZQ 0 + ZQ 0 + ZQ 0)%Qc = 1%Qc) by (rewrite ZQ_1, ZQ_0; ring). rewrite Es.
    assert (N1 : 1%Qc <> 0%Qc) by discriminate. rewrite !ndiv_fin by exact N1. rewrite ZQ_1, ZQ_0. repeat split; f_equal; field; exact N1. }
  cbv zeta in G |- *.
  assert (CV : forall k, Ok a = Ok ((nint 1, nint 0, nint 0, nint 0), (k, 0, 0, 0)) -> exists c1 c2 c3 c4,
     r_c1 (trow_of cols i a) = Fin c1 /\ r_c2 (trow_of cols i a) = Fin c2 /\ r_c3 (trow_of cols i a) = Fin c3 /\ r_c4 (trow_of cols i a) = Fin c4 /\
     (0 <= c1 /\ 0 <= c2 /\ 0 <= c3 /\ 0 <= c4 /\ c1 + c2 + c3 + c4 = 1)%Qc).
  { intros k Ek. destruct (G k Ek) as [_ [-> [-> [-> ->]]]]. exists 1%Qc, 0%Qc, 0%Qc, 0%Qc. repeat split; try (vm_compute; discriminate). }
  destruct (Qc_eq_dec d1 0) as [Z1|Z1].
  { split; [exact (CV _ (A Z1))|]. split; [intros _; exact (G _ (A Z1))|]. repeat split; contradiction. }
  destruct (Qc_eq_dec d2 0) as [Z2|Z2].
  { split; [exact (CV _ (B Z1 Z2))|]. split; [contradiction|]. split; [intros _ _; exact (G _ (B Z1 Z2))|]. repeat split; contradiction. }
  destruct (Qc_eq_dec d3 0) as [Z3|Z3].
  { split; [exact (CV _ (C Z1 Z2 Z3))|]. split; [contradiction|]. split; [contradiction|]. split; [intros _ _ _; exact (G _ (C Z1 Z2 Z3))|]. repeat split; contradiction. }
  destruct (Qc_eq_dec d4 0) as [Z4|Z4].
  { split; [exact (CV _ (D Z1 Z2 Z3 Z4))|]. split; [contradiction|]. split; [contradiction|]. split; [contradiction|]. split; [intros _ _ _ _; exact (G _ (D Z1 Z2 Z3 Z4))|]. repeat split; contradiction. }
  specialize (E Z1 Z2 Z3 Z4).
  assert (Ea : a = ((Fin (1 / d1)%Qc, Fin (1 / d2)%Qc, Fin (1 / d3)%Qc, Fin (1 / d4)%Qc), (k1, k2, k3, k4))) by congruence.
  pose proof (inv_pos d1 (Qc_pos_of _ P1 Z1)) as I1. pose proof (inv_pos d2 (Qc_pos_of _ P2 Z2)) as I2.
  pose proof (inv_pos d3 (Qc_pos_of _ P3 Z3)) as I3. pose proof (inv_pos d4 (Qc_pos_of _ P4 Z4)) as I4.
  assert (Hs : (0 < 1 / d1 + 1 / d2 + 1 / d3 + 1 / d4)%Qc).
  { clear - I1 I2 I3 I4. set (a1 := (1 / d1)%Qc) in *. set (a2 := (1 / d2)%Qc) in *. set (a3 := (1 / d3)%Qc) in *. set (a4 := (1 / d4)%Qc) in *. clearbody a1 a2 a3 a4. qclra. }
  assert (Hn0 : (1 / d1 + 1 / d2 + 1 / d3 + 1 / d4)%Qc <> 0%Qc) by (intro C0; rewrite C0 in Hs; exact (Qclt_not_eq _ _ Hs eq_refl)).
  assert (R : r_k1 (trow_of cols i a) = k1 /\ r_k2 (trow_of cols i a) = k2 /\ r_k3 (trow_of cols i a) = k3 /\ r_k4 (trow_of cols i a) = k4 /\
     r_c1 (trow_of cols i a) = Fin (idw d1 d2 d3 d4 d1) /\ r_c2 (trow_of cols i a) = Fin (idw d1 d2 d3 d4 d2) /\
     r_c3 (trow_of cols i a) = Fin (idw d1 d2 d3 d4 d3) /\ r_c4 (trow_of cols i a) = Fin (idw d1 d2 d3 d4 d4)).
  { rewrite Ea. unfold trow_of, inv_sum, idw. cbn [fst snd q1 q2 q3 q4 r_k1 r_k2 r_k3 r_k4 r_c1 r_c2 r_c3 r_c4 nadd]. rewrite !ndiv_fin by exact Hn0. repeat split. }
  split; [|repeat split; try contradiction; intros; apply R].
  destruct R as [_ [_ [_ [_ [-> [-> [-> ->]]]]]]]. unfold idw. eexists _, _, _, _. split; [reflexivity|]. split; [reflexivity|]. split; [reflexivity|]. split; [reflexivity|].
  set (a1 := (1 / d1)%Qc) in *. set (a2 := (1 / d2)%Qc) in *. set (a3 := (1 / d3)%Qc) in *. set (a4 := (1 / d4)%Qc) in *. clearbody a1 a2 a3 a4.
  split; [apply Qclt_le_weak, Qcdiv_pos; assumption|]. split; [apply Qclt_le_weak, Qcdiv_pos; assumption|]. split; [apply Qclt_le_weak, Qcdiv_pos; assumption|]. split; [apply Qclt_le_weak, Qcdiv_pos; assumption|].
  field. exact Hn0.
Qed.

(** ** rows and cells *)
Lemma rows_from_complete {A} (row_of : num * num -> option A) coords : forall i j p a, nth_error coords j = Some p -> row_of p = Some a -> In ((i + j)%nat, a) (rows_from row_of i coords).
Proof.
  induction coords as [|q r IH]; intros i [|j] p a Hp Ha; cbn [nth_error rows_from] in *; try discriminate.
  - injection Hp as ->. rewrite Ha, Nat.add_0_r. now left.
  - replace (i + S j)%nat with (S i + j)%nat by lia. pose proof (IH (S i) j p a Hp Ha) as H. destruct (row_of q); [now right|exact H].
Qed.
Lemma rows_from_sorted {A} (row_of : num * num -> option A) coords : forall i, NoDup (map fst (rows_from row_of i coords)).
Proof.
  induction coords as [|q r IH]; intro i; cbn [rows_from map]; [constructor|]. destruct (row_of q) as [a|]; [|apply IH]. cbn [map fst]. constructor; [|apply IH].
  intro C. apply in_map_iff in C as [[j b] [C Hi]]. apply rows_from_bound in Hi. cbn [fst] in *. lia.
Qed.
Lemma cells_NoDup {A} cols (rs : list (nat * A)) : cols <> O -> NoDup (map fst rs) -> NoDup (map (fun r => (Z.of_nat (fst r / cols), Z.of_nat (fst r mod cols))) rs).
Proof.
  intros Hc H. rewrite <- (map_map fst (fun i => (Z.of_nat (i / cols), Z.of_nat (i mod cols)))). apply FinFun.Injective_map_NoDup; [|exact H].
  intros a b E. injection E as E1 E2. rewrite (Nat.div_mod a cols Hc), (Nat.div_mod b cols Hc). lia.
Qed.
Lemma inv_table_builds f n mv rows cols coords : (0 < n)%nat -> good_api f n -> (forall p, In p coords -> good_lon mv (snd p)) ->
  (0 < rows)%nat -> (0 < cols)%nat -> List.length coords = (rows * cols)%nat ->
  grib_invdist_parallel f rows cols coords mv = Ok (rows_table cols (rows_from (inv_row_of f mv) O coords)).
Proof.
  intros Hn Hf Hg Hr Hc Hl. unfold grib_invdist_parallel.
  destruct (array_split_map rows cols (map (initial mv) (cells_of cols coords)) Hr Hc) as [chunks [E1 [E2 E3]]]; [now rewrite target_cells_length|].
  rewrite E1. cbn [rbind]. rewrite inv_chunks_ok by exact E2. rewrite E3. unfold cells_of. rewrite (inv_steps f n mv cols coords Hn Hf Hg O). cbn [rbind]. exact (inv_finish_ok f n mv cols coords Hn Hf O).
Qed.
Lemma near_table_builds f n mv rows cols coords : good_api f n -> (forall p, In p coords -> snd p <> NaN) ->
  (0 < rows)%nat -> (0 < cols)%nat -> List.length coords = (rows * cols)%nat ->
  let rs := rows_from (near_row f mv) O coords in
  grib_nearest_parallel f rows cols coords mv = Ok (map (fun r => Z.of_nat (fst r / cols)) rs, map (fun r => Z.of_nat (fst r mod cols)) rs, map snd rs).
Proof.
  intros Hf Hg Hr Hc Hl rs. unfold grib_nearest_parallel.
  destruct (array_split_map rows cols (map (initial mv) (cells_of cols coords)) Hr Hc) as [chunks [E1 [E2 E3]]]; [now rewrite target_cells_length|].
  rewrite E1. cbn [rbind]. rewrite near_chunks_ok by exact E2. rewrite E3. f_equal. apply near_table_rows; [exact Hg|].
  intros p k _ Hk. exact (proj1 (proj1 Hf _ _ _ Hk)).
Qed.

(** ** parallel and sequential *)
Lemma parallel_nearest f isatty rows cols coords mv : (0 < rows)%nat -> (0 < cols)%nat -> List.length coords = (rows * cols)%nat ->
  grib_nearest f isatty cols coords mv = (if (rows * cols <? 250)%nat then Raise ZeroDivisionError else grib_nearest_parallel f rows cols coords mv).
Proof.
  intros Hr Hc Hl. unfold grib_nearest, grib_nearest_parallel.
  destruct (array_split_map rows cols (map (initial mv) (cells_of cols coords)) Hr Hc) as [chunks [E1 [E2 E3]]]; [now rewrite target_cells_length|].
  destruct (Nat.ltb_spec (rows * cols) 250) as [L|L].
  - rewrite progress_step_zero by lia. destruct coords as [|p r]; [cbn in Hl; nia|]. reflexivity.
  - rewrite near_loop_ok by (apply progress_step_nonzero; lia). cbn [rbind]. rewrite E1. cbn [rbind]. rewrite near_chunks_ok by exact E2. now rewrite E3.
Qed.
Lemma parallel_invdist f isatty rows cols coords mv : (0 < rows)%nat -> (0 < cols)%nat -> List.length coords = (rows * cols)%nat ->
  grib_invdist f isatty cols coords mv = (if (rows * cols <? 250)%nat then Raise ZeroDivisionError else grib_invdist_parallel f rows cols coords mv).
Proof.
  intros Hr Hc Hl. unfold grib_invdist, grib_invdist_parallel.
  destruct (array_split_map rows cols (map (initial mv) (cells_of cols coords)) Hr Hc) as [chunks [E1 [E2 E3]]]; [now rewrite target_cells_length|].
  destruct (Nat.ltb_spec (rows * cols) 250) as [L|L].
  - rewrite progress_step_zero by lia. destruct coords as [|p r]; [cbn in Hl; nia|]. reflexivity.
  - rewrite inv_loop_ok by (apply progress_step_nonzero; lia). rewrite E1. cbn [rbind]. rewrite inv_chunks_ok by exact E2. now rewrite E3.
Qed.
