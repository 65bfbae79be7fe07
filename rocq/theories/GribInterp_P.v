(** * GribInterp_P: proofs about GRIB interpolation tables *)
From Verif Require Import Base Num Strings GribInterp Spec_GribInterp Base_P Num_P.
Local Open Scope Z_scope.

(** ** splitting into chunks *)
Lemma concat_take_sizes {A} sizes : forall l : list A, fold_right Nat.add O sizes = List.length l -> List.concat (take_sizes sizes l) = l.
Proof.
  induction sizes as [|n r IH]; intros l H; cbn [take_sizes List.concat fold_right] in *; [symmetry; now apply length_zero_iff_nil|].
  rewrite IH; [apply firstn_skipn|]. rewrite skipn_length. lia.
Qed.
Lemma sum_repeat n k : fold_right Nat.add O (repeat n k) = (k * n)%nat.
Proof. induction k as [|k IH]; cbn [repeat fold_right]; [reflexivity|rewrite IH; lia]. Qed.
Lemma array_split_concat {A} n (l : list A) chunks : array_split n l = Ok chunks -> List.concat chunks = l.
Proof.
  unfold array_split. destruct (Nat.eqb_spec n 0) as [|Hn]; [discriminate|]. intro H. injection H as <-. apply concat_take_sizes.
  rewrite fold_right_app, sum_repeat. pose proof (Nat.mod_upper_bound (List.length l) n Hn) as Hm. pose proof (Nat.div_mod (List.length l) n Hn) as Hd.
  assert (G : forall s a, fold_right Nat.add a s = (fold_right Nat.add O s + a)%nat) by (induction s as [|x s IH]; intro a; cbn [fold_right]; [reflexivity|rewrite IH; lia]).
  rewrite G, sum_repeat. nia.
Qed.
Lemma take_sizes_full {A} c k : forall l : list A, List.length l = (k * c)%nat -> (0 < c)%nat -> Forall (fun x => x <> []) (take_sizes (repeat c k) l).
Proof.
  induction k as [|k IH]; intros l Hl Hc; cbn [repeat take_sizes]; constructor.
  - intro E. apply (f_equal (@List.length A)) in E. rewrite firstn_length in E. cbn in E. lia.
  - apply IH; [|exact Hc]. rewrite skipn_length. lia.
Qed.
Lemma array_split_map {A} rows cols (l : list A) : (0 < rows)%nat -> (0 < cols)%nat -> List.length l = (rows * cols)%nat ->
  exists chunks, array_split rows l = Ok chunks /\ Forall (fun x => x <> []) chunks /\ List.concat chunks = l.
Proof.
  intros Hr Hc Hl. assert (E : exists chunks, array_split rows l = Ok chunks) by (unfold array_split; destruct (Nat.eqb_spec rows 0); [lia|eauto]).
  destruct E as [chunks E]. exists chunks. split; [exact E|]. split; [|exact (array_split_concat _ _ _ E)].
  unfold array_split in E. destruct (Nat.eqb_spec rows 0); [lia|]. injection E as <-. rewrite Hl.
  rewrite (Nat.mul_comm rows cols), Nat.div_mul, Nat.mod_mul by lia. cbn [repeat app]. rewrite Nat.sub_0_r. apply take_sizes_full; [lia|exact Hc].
Qed.

(** ** parallel = sequential *)
Lemma mapM_apply_chunk {A B} (step : A -> B) chunks : Forall (fun x => x <> []) chunks ->
  mapM (apply_chunk step) chunks = Ok (map (map step) chunks).
Proof.
  induction 1 as [|c l Hc _ IH]; cbn [mapM map]; [reflexivity|]. destruct c as [|a c]; [congruence|].
  change (apply_chunk step (a :: c)) with (Ok (map step (a :: c))). cbn [rbind]. rewrite IH. reflexivity.
Qed.
Lemma near_chunks_ok f mv chunks : Forall (fun x => x <> []) chunks ->
  near_chunks f mv chunks = Ok (near_table (map (near_step f mv) (List.concat chunks))).
Proof. intro H. unfold near_chunks. rewrite (mapM_apply_chunk _ _ H). cbn [rbind]. now rewrite concat_map. Qed.
Lemma near_loop_ok f mv p l : p <> 0 -> near_loop f mv p l = Ok (map (near_step f mv) l).
Proof.
  intro Hp. induction l as [|c r IH]; cbn [near_loop map]; [reflexivity|]. destruct (Z.eqb_spec p 0); [congruence|]. rewrite IH. reflexivity.
Qed.
Lemma mapM_app {X Y} (g : X -> res Y) l1 l2 : mapM g (l1 ++ l2)%list = (do a <- mapM g l1; do b <- mapM g l2; Ok (a ++ b)%list).
Proof.
  induction l1 as [|x r IH]; cbn [mapM app rbind]; [destruct (mapM g l2); reflexivity|].
  destruct (g x) as [y|]; cbn [rbind]; [|reflexivity]. rewrite IH. destruct (mapM g r) as [ys|]; cbn [rbind]; [|reflexivity].
  destruct (mapM g l2); reflexivity.
Qed.
Lemma inv_chunks_mapM f mv chunks : Forall (fun x => x <> []) chunks ->
  (do rs <- mapM (apply_inv_chunk f mv) chunks; Ok (List.concat rs)) = mapM (inv_step f mv) (List.concat chunks).
Proof.
  induction 1 as [|c l Hc _ IH]; cbn [mapM List.concat rbind]; [reflexivity|]. rewrite mapM_app, <- IH. clear IH.
  destruct c as [|a c]; [congruence|]. change (apply_inv_chunk f mv (a :: c)) with (mapM (inv_step f mv) (a :: c)).
  destruct (mapM (inv_step f mv) (a :: c)) as [rs|]; cbn [rbind]; [|reflexivity]. destruct (mapM (apply_inv_chunk f mv) l); reflexivity.
Qed.
Lemma inv_chunks_ok f mv chunks : Forall (fun x => x <> []) chunks ->
  inv_chunks f mv chunks = (do l <- mapM (inv_step f mv) (List.concat chunks); inv_finish l).
Proof.
  intro H. rewrite <- (inv_chunks_mapM f mv chunks H). unfold inv_chunks. destruct (mapM (apply_inv_chunk f mv) chunks); reflexivity.
Qed.
Lemma inv_loop_ok f mv p l : p <> 0 -> inv_loop f mv p l = mapM (inv_step f mv) l.
Proof.
  intro Hp. induction l as [|c r IH]; cbn [inv_loop mapM]; [reflexivity|]. destruct (Z.eqb_spec p 0); [congruence|]. rewrite IH. reflexivity.
Qed.
Lemma cells_from_length cols coords : forall i, List.length (cells_from cols i coords) = List.length coords.
Proof. induction coords as [|p r IH]; intro i; cbn [cells_from List.length]; [reflexivity|now rewrite IH]. Qed.
Lemma target_cells_length mv cols coords : List.length (map (initial mv) (cells_of cols coords)) = List.length coords.
Proof. rewrite map_length. apply cells_from_length. Qed.
Lemma progress_step_nonzero n b : 250 <= n -> progress_step n b <> 0.
Proof. intro H. unfold progress_step. assert (1 <= n / 250) by (apply Z.div_le_lower_bound; lia). destruct b; lia. Qed.
Lemma progress_step_zero n b : 0 <= n < 250 -> progress_step n b = 0.
Proof. intro H. unfold progress_step. rewrite Z.div_small by lia. now destruct b. Qed.

(** ** which cells are targets *)
Lemma no_target_spec mv lon : lon <> NaN -> (no_target mv lon <-> (nleb lon low_lon || neqb lon mv)%bool = true).
Proof.
  intro Hn. unfold no_target, nleb, low_lon, nint. rewrite !Bool.orb_true_iff. split.
  - intros [->|[->|[q [-> Hq]]]].
    + right. destruct mv; try reflexivity; [apply Qc_eqb_refl|congruence].
    + left. left. reflexivity.
    + left. cbn [nltb neqb]. destruct (Qc_dec q (ZQ (-10000000000))) as [[L|G]|E].
      * left. now apply Qc_ltb_spec.
      * exfalso. exact (Qclt_not_le _ _ G Hq).
      * right. now apply Qc_eqb_spec.
  - intros [[H|H]|H].
    + destruct lon as [q| | |]; cbn [nltb] in H; try discriminate; [|auto]. right. right. exists q. split; [reflexivity|]. apply Qc_ltb_spec in H. now apply Qclt_le_weak.
    + destruct lon as [q| | |]; cbn [neqb] in H; try discriminate. apply Qc_eqb_spec in H. subst. right. right. eexists. split; [reflexivity|]. apply Qcle_refl.
    + left. destruct lon as [q| | |], mv; cbn [neqb] in H; try discriminate; auto. apply Qc_eqb_spec in H. congruence.
Qed.
Lemma valid_lon_spec mv lon : lon <> NaN -> valid_lon mv lon = negb (nleb lon low_lon || neqb lon mv)%bool.
Proof.
  intro Hn. unfold valid_lon, nleb, low_lon, nint. rewrite Bool.negb_orb. f_equal.
  destruct lon as [q| | |]; cbn [nltb neqb orb negb]; try reflexivity; [|congruence].
  destruct (Qc_ltb (ZQ (-10000000000)) q) eqn:E.
  - apply Qc_ltb_spec in E. symmetry. rewrite Bool.negb_true_iff, Bool.orb_false_iff. split; [apply Qc_ltb_false; now apply Qclt_le_weak|].
    apply Qc_eqb_false. intros ->. exact (Qclt_not_eq _ _ E eq_refl).
  - apply Qc_ltb_false in E. symmetry. rewrite Bool.negb_false_iff, Bool.orb_true_iff.
    destruct (Qc_dec q (ZQ (-10000000000))) as [[L|G]|E2]; [left; now apply Qc_ltb_spec|exfalso; exact (Qclt_not_le _ _ G E)|right; now apply Qc_eqb_spec].
Qed.

(** ** rows of a table *)
Section Rows.
  Context {A : Type} (row_of : num * num -> option A).
  Fixpoint rows_from (i : nat) (coords : list (num * num)) : list (nat * A) :=
    match coords with
    | [] => []
    | p :: r => match row_of p with Some a => (i, a) :: rows_from (S i) r | None => rows_from (S i) r end
    end.
  Lemma rows_from_bound coords : forall i p, In p (rows_from i coords) -> (i <= fst p < i + List.length coords)%nat.
  Proof.
    induction coords as [|q r IH]; intros i p H; cbn [rows_from List.length] in *; [destruct H|].
    destruct (row_of q); [destruct H as [<-|H]; [cbn; lia|]|]; apply IH in H; lia.
  Qed.
  Lemma rows_from_In coords : forall i j a, In (j, a) (rows_from i coords) -> exists p, nth_error coords (j - i) = Some p /\ row_of p = Some a.
  Proof.
    induction coords as [|q r IH]; intros i j a H; cbn [rows_from] in *; [destruct H|].
    assert (G : In (j, a) (rows_from (S i) r) -> exists p, nth_error (q :: r) (j - i) = Some p /\ row_of p = Some a).
    { intro Hi. pose proof (rows_from_bound _ _ _ Hi) as Hb. cbn [fst] in Hb. destruct (IH _ _ _ Hi) as [p [H1 H2]]. exists p. split; [|exact H2].
      replace (j - i)%nat with (S (j - S i)) by lia. exact H1. }
    destruct (row_of q) eqn:E; [|auto]. destruct H as [H|H]; [|auto]. injection H as <- <-. exists q. rewrite Nat.sub_diag. auto.
  Qed.
  Context (val : A -> num) (mv : num).
  Definition cell_value (p : num * num) : num := match row_of p with Some a => val a | None => mv end.
  Lemma set_nth_app {B} (l1 : list B) b l2 c : set_nth (l1 ++ b :: l2)%list (List.length l1) c = (l1 ++ c :: l2)%list.
  Proof. induction l1 as [|x l1 IH]; cbn [app List.length set_nth]; [reflexivity|now rewrite IH]. Qed.
  Lemma put_cell_ok rows cols acc i v : (i < rows * cols)%nat ->
    put_cell rows cols acc (Z.of_nat (i / cols), Z.of_nat (i mod cols), v) = Ok (set_nth acc i v).
  Proof.
    intro Hi. assert (Hc : cols <> O) by nia. unfold put_cell.
    assert (H1 : (i / cols < rows)%nat) by (apply Nat.div_lt_upper_bound; nia).
    assert (H2 : (i mod cols < cols)%nat) by (apply Nat.mod_upper_bound; exact Hc).
    assert (G : forall a n, (a < n)%nat -> norm_index (Z.of_nat a) n = Ok a).
    { intros a n H. unfold norm_index. cbv zeta. destruct (Z.ltb_spec (Z.of_nat a) 0); [lia|]. destruct (Z.ltb_spec (Z.of_nat a) 0); [lia|]. destruct (Z.leb_spec (Z.of_nat n) (Z.of_nat a)); [lia|]. cbn [orb]. now rewrite Nat2Z.id. }
    rewrite (G _ _ H1). cbn [rbind]. rewrite (G _ _ H2). cbn [rbind]. f_equal. f_equal. rewrite Nat.mul_comm. symmetry. apply Nat.div_mod. exact Hc.
  Qed.
  Lemma put_fold rows cols coords : forall pre, (List.length pre + List.length coords <= rows * cols)%nat ->
    foldM (put_cell rows cols) (map (fun p => (Z.of_nat (fst p / cols), Z.of_nat (fst p mod cols), val (snd p))) (rows_from (List.length pre) coords))
      (pre ++ repeat mv (List.length coords))%list = Ok (pre ++ map cell_value coords)%list.
  Proof.
    induction coords as [|q r IH]; intros pre H; cbn [rows_from map List.length repeat foldM] in *; [reflexivity|].
    assert (G : forall v, S (List.length pre) = List.length (pre ++ [v])%list) by (intro v; rewrite app_length; cbn; lia).
    unfold cell_value at 1. destruct (row_of q) as [a|].
    - cbn [map foldM fst snd]. rewrite put_cell_ok by lia. cbn [rbind]. rewrite set_nth_app.
      change (val a :: repeat mv (List.length r))%list with ([val a] ++ repeat mv (List.length r))%list. rewrite app_assoc, (G (val a)), IH by (rewrite app_length; cbn; lia).
      rewrite <- app_assoc. reflexivity.
    - change (mv :: repeat mv (List.length r))%list with ([mv] ++ repeat mv (List.length r))%list. rewrite app_assoc, (G mv), IH by (rewrite app_length; cbn; lia).
      rewrite <- app_assoc. reflexivity.
  Qed.
  Lemma combine_maps {X Y Z' W} (g : X -> Y) (h : X -> Z') (k : X -> W) l :
    combine (combine (map g l) (map h l)) (map k l) = map (fun x => (g x, h x, k x)) l.
  Proof. induction l as [|x l IH]; cbn [map combine]; [reflexivity|now rewrite IH]. Qed.
  Lemma put_rows rows cols coords : List.length coords = (rows * cols)%nat ->
    let rs := rows_from O coords in
    put rows cols (repeat mv (rows * cols)) (map (fun p => Z.of_nat (fst p / cols)) rs) (map (fun p => Z.of_nat (fst p mod cols)) rs)
      (map (fun p => val (snd p)) rs) = Ok (map cell_value coords).
  Proof.
    intros H rs. unfold put. rewrite !map_length, Nat.eqb_refl. cbn [negb].
    assert (E : match map (fun p : nat * A => val (snd p)) rs with [v] => repeat v (List.length rs) | _ => map (fun p => val (snd p)) rs end = map (fun p => val (snd p)) rs).
    { destruct rs as [|a [|b l]]; reflexivity. }
    rewrite E, map_length, Nat.eqb_refl. cbn [negb]. rewrite combine_maps. rewrite <- H.
    exact (put_fold rows cols coords [] ltac:(cbn [List.length]; lia)).
  Qed.
End Rows.

Lemma drop_fill_cons x l : x <> int_fill -> drop_fill (x :: l) = x :: drop_fill l.
Proof. intro H. unfold drop_fill. cbn [filter]. destruct (Z.eqb_spec x int_fill); [congruence|reflexivity]. Qed.
Lemma drop_fill_fill l : drop_fill (int_fill :: l) = drop_fill l.
Proof. reflexivity. Qed.
Lemma of_nat_fill n : Z.of_nat n <> int_fill. Proof. unfold int_fill. lia. Qed.

(** ** nearest neighbour *)
Definition near_row (f : grib_api) (mv : num) (p : num * num) : option Z :=
  if (nleb (snd p) low_lon || neqb (snd p) mv)%bool then None else find1 f (fst p) (snd p).
Lemma near_step_cell f mv cols i p : snd p <> NaN -> near_step f mv (initial mv (cell_at cols i p)) =
  match near_row f mv p with Some k => (Z.of_nat (i / cols), Z.of_nat (i mod cols), k) | None => (int_fill, int_fill, int_fill) end.
Proof.
  intro Hn. unfold initial, cell_at, near_row. cbn [c_lon c_lat]. rewrite valid_lon_spec by exact Hn.
  destruct (nleb (snd p) low_lon || neqb (snd p) mv)%bool eqn:E; cbn [negb]; unfold near_step; cbn [c_lon c_lat c_x c_y]; rewrite E; reflexivity.
Qed.
Lemma near_table_rows f mv cols coords : (forall p, In p coords -> snd p <> NaN) ->
  (forall p k, In p coords -> find1 f (fst p) (snd p) = Some k -> 0 <= k) ->
  forall i, near_table (map (near_step f mv) (map (initial mv) (cells_from cols i coords))) =
    (map (fun r => Z.of_nat (fst r / cols)) (rows_from (near_row f mv) i coords), map (fun r => Z.of_nat (fst r mod cols)) (rows_from (near_row f mv) i coords),
     map snd (rows_from (near_row f mv) i coords)).
Proof.
  intros Hn Hk. induction coords as [|p r IH]; intro i; [reflexivity|].
  specialize (IH (fun p H => Hn p (or_intror H)) (fun p k H => Hk p k (or_intror H)) (S i)).
  unfold near_table in *. injection IH as I1 I2 I3. cbn [cells_from map rows_from].
  rewrite near_step_cell by exact (Hn p (or_introl eq_refl)). destruct (near_row f mv p) as [k|] eqn:E; cbn [fst snd].
  - assert (0 <= k) by (apply (Hk p k (or_introl eq_refl)); unfold near_row in E; destruct (nleb (snd p) low_lon || neqb (snd p) mv)%bool; [discriminate|exact E]).
    rewrite !drop_fill_cons; [|unfold int_fill; lia|apply of_nat_fill|apply of_nat_fill]. cbn [map fst snd]. now rewrite I1, I2, I3.
  - rewrite !drop_fill_fill. now rewrite I1, I2, I3.
Qed.

Lemma py_index_nth {B} (l : list B) k d : (0 <= k < Z.of_nat (List.length l)) -> py_index l k = Ok (nth (Z.to_nat k) l d).
Proof.
  intro H. unfold py_index. destruct (Z.ltb_spec k 0); [lia|]. destruct (Z.ltb_spec k 0); [lia|].
  rewrite (nth_error_nth' l d) by lia. reflexivity.
Qed.
Lemma mapM_py_index {B} (l : list B) ks d : (forall k, In k ks -> 0 <= k < Z.of_nat (List.length l)) -> mapM (py_index l) ks = Ok (map (fun k => nth (Z.to_nat k) l d) ks).
Proof.
  induction ks as [|k ks IH]; intro H; cbn [mapM map]; [reflexivity|]. rewrite (py_index_nth l k d) by (apply H; now left). cbn [rbind].
  rewrite IH by (intros k' Hk'; apply H; now right). reflexivity.
Qed.
(** gathered values: data and mask of the points *)
Definition gmask (v : arr) (ks : list Z) : option (list bool) :=
  match amask v with Some _ => Some (map (fun k => masked_at v (Z.to_nat k)) ks) | None => None end.
Lemma gather_ok v ks : wf_arr v -> (forall k, In k ks -> 0 <= k < Z.of_nat (asize v)) ->
  gather v ks = Ok (match v with Nd _ => Nd (map (fun k => nth (Z.to_nat k) (adata v) NaN) ks) | Ma _ _ => Ma (map (fun k => nth (Z.to_nat k) (adata v) NaN) ks) (gmask v ks) end).
Proof.
  intros Hw H. unfold gather. rewrite (mapM_py_index (adata v) ks NaN) by exact H. cbn [rbind]. destruct v as [d|d [m|]]; try reflexivity.
  cbn in Hw. rewrite (mapM_py_index m ks false) by (unfold asize in H; cbn [adata] in H; rewrite Hw; exact H). reflexivity.
Qed.
Lemma result_gathered v mv ks : result_masked (match v with Nd _ => Nd (map (fun k => nth (Z.to_nat k) (adata v) NaN) ks) | Ma _ _ => Ma (map (fun k => nth (Z.to_nat k) (adata v) NaN) ks) (gmask v ks) end) mv
  = map (point v mv) ks.
Proof.
  destruct v as [d|d [m|]]; unfold result_masked, gmask; cbn [amask]; [reflexivity| |reflexivity].
  induction ks as [|k ks IH]; cbn [map zipw]; [reflexivity|]. rewrite IH. reflexivity.
Qed.
Lemma apply_nearest_ok f mv rows cols coords v : List.length coords = (rows * cols)%nat -> wf_arr v ->
  (forall p k, In p coords -> near_row f mv p = Some k -> 0 <= k < Z.of_nat (asize v)) ->
  let rs := rows_from (near_row f mv) O coords in
  apply_nearest rows cols mv v (map (fun r => Z.of_nat (fst r / cols)) rs, map (fun r => Z.of_nat (fst r mod cols)) rs, map snd rs) =
  Ok (map (cell_value (near_row f mv) (point v mv) mv) coords).
Proof.
  intros Hl Hw Hk rs. unfold apply_nearest. rewrite gather_ok; [|exact Hw|].
  - cbn [rbind]. rewrite result_gathered, map_map. apply put_rows. exact Hl.
  - intros k Hi. apply in_map_iff in Hi as [[i a] [<- Hi]]. destruct (rows_from_In _ _ _ _ _ Hi) as [p [H1 H2]]. cbn [snd]. apply (Hk p); [|exact H2]. eapply nth_error_In. exact H1.
Qed.
