(** * Scipy_P: proofs about tables built with a KD-tree *)
From Verif Require Import Base Num Strings Scipy Spec_Scipy Interp Spec_Interp GribInterp Base_P Num_P GribInterp_P GribInterp_P2 GribInterp_P3 Interp_P3.
From Coq Require Import Sorting.Sorted Sorting.Permutation.
Local Open Scope Qc_scope.

(** ** exhaustive search is a KD-tree *)
Lemma insert_q_perm f i l : Permutation (insert_q f i l) (i :: l).
Proof. induction l as [|j l IH]; cbn [insert_q]; [reflexivity|]. destruct (Qc_ltb _ _); [|reflexivity]. rewrite IH. apply perm_swap. Qed.
Lemma sort_q_perm f l : Permutation (sort_q f l) l.
Proof. induction l as [|i l IH]; cbn [sort_q fold_right]; [reflexivity|]. rewrite insert_q_perm. now constructor. Qed.
Lemma insert_q_sorted f i l : StronglySorted (fun a b => f a <= f b) l -> StronglySorted (fun a b => f a <= f b) (insert_q f i l).
Proof.
  induction 1 as [|j l Hs IH Hf]; cbn [insert_q]; [repeat constructor|]. destruct (Qc_ltb (f j) (f i)) eqn:E.
  - constructor; [exact IH|]. apply Qc_ltb_spec in E. apply Forall_forall. intros x Hx. apply (Permutation_in _ (insert_q_perm f i l)) in Hx. destruct Hx as [<-|Hx]; [now apply Qclt_le_weak|]. now apply (proj1 (Forall_forall _ _) Hf).
  - apply Qc_ltb_false in E. constructor; [now constructor|]. constructor; [exact E|]. apply Forall_forall. intros x Hx. eapply Qcle_trans; [exact E|]. now apply (proj1 (Forall_forall _ _) Hf).
Qed.
Lemma sort_q_sorted f l : StronglySorted (fun a b => f a <= f b) (sort_q f l).
Proof. induction l as [|i l IH]; cbn [sort_q fold_right]; [constructor|]. now apply insert_q_sorted. Qed.
Lemma ss_firstn {A} (R : A -> A -> Prop) k l : StronglySorted R l -> StronglySorted R (firstn k l).
Proof.
  intro H. revert k. induction H as [|a l Hs IH Hf]; intros [|k]; cbn [firstn]; try constructor; [apply IH|].
  apply Forall_forall. intros x Hx. apply (proj1 (Forall_forall _ _) Hf). rewrite <- (firstn_skipn k l). apply in_or_app. now left.
Qed.
Lemma ss_split {A} (R : A -> A -> Prop) k l a b : StronglySorted R l -> In a (firstn k l) -> In b (skipn k l) -> R a b.
Proof.
  intro H. revert k. induction H as [|x l Hs IH Hf]; intros [|k]; cbn [firstn skipn]; try (intros []; fail).
  intros [<-|Ha] Hb; [|now apply (IH k)]. apply (proj1 (Forall_forall _ _) Hf). rewrite <- (firstn_skipn k l). apply in_or_app. now right.
Qed.
Lemma exhaustive_kdtree {Loc} (dist : Loc -> nat -> Qc) n : kdtree dist n (exhaustive dist n).
Proof.
  intros k p. set (l := sort_q (dist p) (seq 0 n)). pose proof (sort_q_perm (dist p) (seq 0 n)) as P. fold l in P.
  exists (firstn k l). split; [|reflexivity]. split; [rewrite firstn_length; apply Permutation_length in P; rewrite seq_length in P; congruence|].
  split; [|split; [|split]].
  - assert (N : NoDup l) by (apply (Permutation_NoDup (Permutation_sym P)); apply seq_NoDup). rewrite <- (firstn_skipn k l) in N. clear - N. induction (firstn k l) as [|a r IH]; [constructor|]. cbn [app] in N. inversion N; subst. constructor; [|now apply IH]. intro C. apply H1. apply in_or_app. now left.
  - intros i Hi. assert (In i l) by (rewrite <- (firstn_skipn k l); apply in_or_app; now left). apply (Permutation_in _ P) in H. apply in_seq in H. lia.
  - apply ss_firstn. apply sort_q_sorted.
  - intros i j Hi Hj Hn. apply (ss_split (fun a b => dist p a <= dist p b) k l i j); [apply sort_q_sorted|exact Hi|].
    assert (In j l) by (apply (Permutation_in _ (Permutation_sym P)); apply in_seq; lia). rewrite <- (firstn_skipn k l) in H. apply in_app_or in H. tauto.
Qed.

(** ** comparisons *)
Lemma leb_num_fin a b : leb_num (Fin a) (Fin b) = true <-> a <= b.
Proof.
  unfold leb_num. cbn [nltb neqb]. rewrite orb_true_iff, Qc_ltb_spec, Qc_eqb_spec. split; [intros [H| ->]; [now apply Qclt_le_weak|apply Qcle_refl]|].
  intro H. apply Qcle_lt_or_eq in H. tauto.
Qed.
Lemma leb_num_fin_false a b : leb_num (Fin a) (Fin b) = false <-> b < a.
Proof. rewrite <- not_true_iff_false, leb_num_fin. split; [apply Qcnot_le_lt|intros H C; now apply (Qclt_not_le _ _ H)]. Qed.

(** the first of the k nearest *)
Lemma kdtree_first {Loc} (dist : Loc -> nat -> Qc) n tree k p : kdtree dist n tree -> (0 < n)%nat -> (0 < k)%nat ->
  exists i r, tree k p = (Fin (dist p i), Z.of_nat i) :: r /\ nearest_to dist n p i.
Proof.
  intros K Hn Hk. destruct (K k p) as [l [[Hlen [Hnd [Hlt [Hs Ho]]]] E]]. destruct l as [|i l]; [cbn in Hlen; lia|].
  exists i, (map (fun i => (Fin (dist p i), Z.of_nat i)) l ++ repeat (PInf, Z.of_nat n) (k - n))%list. split; [exact E|]. split; [apply Hlt; now left|].
  intros j Hj. destruct (in_dec Nat.eq_dec j (i :: l)) as [[<-|Hin]|Hin]; [apply Qcle_refl| |].
  - inversion Hs as [|? ? _ Hf]; subst. now apply (proj1 (Forall_forall _ _) Hf).
  - apply Ho; [now left|exact Hj|exact Hin].
Qed.
Lemma kdtree_four {Loc} (dist : Loc -> nat -> Qc) n tree k p : kdtree dist n tree -> (k <= n)%nat ->
  exists l, closest dist n k p l /\ tree k p = map (fun i => (Fin (dist p i), Z.of_nat i)) l.
Proof.
  intros K Hn. destruct (K k p) as [l [Hc E]]. exists l. rewrite Nat.min_l in Hc by exact Hn. split; [exact Hc|].
  replace (k - n)%nat with O in E by lia. cbn [repeat] in E. now rewrite app_nil_r in E.
Qed.

(** ** nearest *)
Lemma build_nn_ok mub zsize isatty cells : (250 <= List.length cells)%nat -> build_nn mub zsize isatty cells = mapM (nn_cell mub zsize) cells.
Proof.
  intro H. unfold build_nn. destruct (_ =? 0)%Z eqn:E; [|reflexivity]. exfalso. apply Z.eqb_eq in E. revert E. apply progress_step_nonzero. lia.
Qed.
Lemma build_nn_small mub zsize isatty cells : (0 < List.length cells < 250)%nat -> build_nn mub zsize isatty cells = Raise ZeroDivisionError.
Proof. intro H. unfold build_nn. rewrite progress_step_zero by lia. destruct cells as [|c r]; [cbn in H; lia|]. reflexivity. Qed.
Lemma py_index_unit n i : (i < n)%nat -> py_index (repeat tt n) (Z.of_nat i) = Ok tt.
Proof. intro H. rewrite py_index_nat. destruct (nth_error (repeat tt n) i) as [[]|] eqn:E; [reflexivity|]. apply nth_error_None in E. rewrite repeat_length in E. lia. Qed.
Lemma nn_cell_ok mub zsize d i : (i < zsize)%nat ->
  nn_cell (Fin mub) zsize (Fin d, Z.of_nat i) = Ok (Fin d, if Qc_leb d mub then Z.of_nat i else Z.of_nat zsize).
Proof.
  intro H. unfold nn_cell. unfold Qc_leb. destruct (leb_num (Fin d) (Fin mub)) eqn:E.
  - apply leb_num_fin in E. rewrite (proj2 (Qc_ltb_false mub d) E). rewrite py_index_unit by exact H. reflexivity.
  - apply leb_num_fin_false in E. now rewrite (proj2 (Qc_ltb_spec mub d) E).
Qed.
Lemma mapM_fun {X Y} (f : X -> res Y) (g : X -> Y) l : (forall x, In x l -> f x = Ok (g x)) -> mapM f l = Ok (map g l).
Proof.
  induction l as [|x l IH]; intro H; [reflexivity|]. cbn [mapM map]. rewrite (H x) by now left. cbn [rbind]. rewrite IH by (intros; apply H; now right). reflexivity.
Qed.

(** ** splitting *)
Lemma skipn_add {A} i s (l : list A) : skipn s (skipn i l) = skipn (i + s) l.
Proof. revert l. induction i as [|i IH]; intros [|a l]; cbn [skipn Nat.add]; try reflexivity; [now destruct s|apply IH]. Qed.
Lemma foldM_ext {S X} (f g : S -> X -> res S) l s : (forall s x, f s x = g s x) -> foldM f l s = foldM g l s.
Proof. intro H. revert s. induction l as [|x l IH]; intro s; [reflexivity|]. cbn [foldM]. rewrite H. destruct (g s x); cbn [rbind]; [apply IH|reflexivity]. Qed.
Section Split.
  Context {Loc W Rad : Type}.
  Variable cell : Loc -> res (list W * list Z).
  Variable cols : nat.
  Lemma concat_length_rows (rows : list (list Loc)) : Forall (fun r => List.length r = cols) rows -> List.length (List.concat rows) = (List.length rows * cols)%nat.
  Proof. induction 1 as [|r l Hr _ IH]; [reflexivity|]. cbn [List.concat List.length]. rewrite app_length, IH, Hr. lia. Qed.
  Definition part_loop (rows : list (list Loc)) : res (table W) := do l <- mapM cell (List.concat rows); Ok (Mat l).
  Lemma Forall_firstn {A} (P : A -> Prop) k l : Forall P l -> Forall P (firstn k l).
  Proof. intro H. rewrite <- (firstn_skipn k l) in H. now apply Forall_app in H. Qed.
  Lemma Forall_skipn {A} (P : A -> Prop) k l : Forall P l -> Forall P (skipn k l).
  Proof. intro H. rewrite <- (firstn_skipn k l) in H. now apply Forall_app in H. Qed.
  Lemma store_end (don rest : list (list W * list Z)) lo hi extra : lo = List.length don -> (hi >= lo)%nat -> List.length rest = (Nat.min hi (lo + List.length rest + extra) - lo)%nat ->
    store (map Some don ++ repeat None (List.length rest + extra))%list lo hi (Mat rest) = Ok (map Some (don ++ rest) ++ repeat None extra)%list.
  Proof.
    intros -> Hh Hl. unfold store. cbn [as_rows rbind]. rewrite app_length, map_length, repeat_length.
    rewrite (Nat.min_l (List.length don)) by lia. rewrite (proj2 (Nat.eqb_eq _ _)) by (rewrite Nat.add_assoc; exact Hl).
    f_equal. rewrite firstn_app, map_length, Nat.sub_diag, firstn_O, app_nil_r, firstn_all2 by (rewrite map_length; lia).
    rewrite map_app, <- app_assoc. f_equal. f_equal. rewrite skipn_app, map_length, skipn_all2 by (rewrite map_length; lia). cbn [app].
    replace (List.length don + List.length rest - List.length don)%nat with (List.length rest) by lia.
    rewrite repeat_app, skipn_app, repeat_length, Nat.sub_diag, skipn_O, skipn_all2 by (rewrite repeat_length; lia). reflexivity.
  Qed.
  Lemma split_loop (rows : list (list Loc)) (s : nat) : Forall (fun r => List.length r = cols) rows -> (0 < s)%nat ->
    forall m i don l, (List.length rows - i <= m)%nat -> List.length don = (Nat.min i (List.length rows) * cols)%nat ->
    py_range (Z.of_nat i) (Z.of_nat (List.length rows)) (Z.of_nat s) = Ok l ->
    foldM (fun a i => do t <- part_loop (firstn s (skipn (Z.to_nat i) rows));
                      store a (Z.to_nat i * cols) (Z.to_nat (i + Z.of_nat s) * cols) t) l
          (map Some don ++ repeat None ((List.length rows - i) * cols))%list
    = (do t <- mapM cell (List.concat (skipn i rows)); Ok (map Some (don ++ t)%list)).
  Proof.
    intros Hr Hs. induction m as [|m IH]; intros i don l Hm Hd Hl.
    - rewrite py_range_nil in Hl by lia. assert (E : l = []) by congruence. subst l. cbn [foldM]. rewrite skipn_all2 by lia. cbn [List.concat mapM rbind].
      replace (List.length rows - i)%nat with O by lia. cbn [Nat.mul repeat]. now rewrite !app_nil_r.
    - destruct (Nat.le_gt_cases (List.length rows) i) as [Hi|Hi].
      + rewrite py_range_nil in Hl by lia. assert (E : l = []) by congruence. subst l. cbn [foldM]. rewrite skipn_all2 by lia. cbn [List.concat mapM rbind].
        replace (List.length rows - i)%nat with O by lia. cbn [Nat.mul repeat]. now rewrite !app_nil_r.
      + destruct (py_range_cons (Z.of_nat i) (Z.of_nat (List.length rows)) (Z.of_nat s) ltac:(lia) ltac:(lia)) as [l' [Hl' Hc]].
        assert (E : l = Z.of_nat i :: l') by congruence. subst l. cbn [foldM]. rewrite !Nat2Z.id. rewrite <- Nat2Z.inj_add, Nat2Z.id.
        assert (Ec : List.concat (skipn i rows) = (List.concat (firstn s (skipn i rows)) ++ List.concat (skipn (i + s) rows))%list).
        { rewrite <- concat_app. f_equal. rewrite <- (firstn_skipn s (skipn i rows)) at 1. now rewrite skipn_add. }
        rewrite Ec, mapM_app. unfold part_loop at 1. destruct (mapM cell (List.concat (firstn s (skipn i rows)))) as [t1|e] eqn:E1; cbn [rbind]; [|reflexivity].
        pose proof (mapM_ok_length _ _ _ E1) as L1. rewrite (concat_length_rows _ (Forall_firstn _ _ _ (Forall_skipn _ _ _ Hr))), firstn_length, skipn_length in L1.
        rewrite Nat.min_l in Hd by lia.
        assert (Er : ((List.length rows - i) * cols)%nat = (List.length t1 + (List.length rows - (i + s)) * cols)%nat) by (rewrite L1; nia).
        rewrite Er, (store_end don t1); [|congruence|nia|].
        * cbn [rbind]. rewrite (IH (i + s)%nat (don ++ t1)%list l'); [|lia| |now rewrite Nat2Z.inj_add].
          { destruct (mapM cell (List.concat (skipn (i + s) rows))) as [t2|e]; cbn [rbind]; [|reflexivity]. now rewrite <- app_assoc. }
          rewrite app_length, Hd, L1. nia.
        * rewrite L1. nia.
  Qed.
End Split.
(** a builder that treats cells one by one, given the reference radius *)
Lemma splits_same {Loc W Rad} (cell : option Rad -> Loc -> res (list W * list Z)) (part : option Rad -> list (list Loc) -> res (table W)) radius splits rows cols :
  (forall rs, part (radius rows) rs = do l <- mapM (cell (radius rows)) (List.concat rs); Ok (Mat l)) ->
  Forall (fun r => List.length r = cols) rows -> (1 <= splits <= Z.of_nat (List.length rows))%Z ->
  interpolate_splits part radius splits rows cols = (do t <- part (radius rows) rows; do r <- as_rows t; Ok (map Some r)).
Proof.
  intros Hp Hr Hs. unfold interpolate_splits. destruct (Z.eqb_spec splits 0) as [C|_]; [lia|].
  assert (Hq : (1 <= Z.of_nat (List.length rows) / splits)%Z) by (apply Z.div_le_lower_bound; lia).
  set (s := Z.to_nat (Z.of_nat (List.length rows) / splits)). replace (Z.of_nat (List.length rows) / splits)%Z with (Z.of_nat s) by (unfold s; lia).
  assert (Hs' : (0 < s)%nat) by (unfold s; lia). rewrite py_range_pos_ok by lia. cbn [rbind].
  pose proof (split_loop (cell (radius rows)) cols rows s Hr Hs' (List.length rows) O [] _ ltac:(lia) eq_refl (py_range_pos_ok (Z.of_nat 0) (Z.of_nat (List.length rows)) (Z.of_nat s) ltac:(lia))) as L.
  cbn [map app skipn] in L. rewrite Nat.sub_0_r in L. rewrite Hp. cbn [Z.of_nat] in L.
  rewrite (foldM_ext _ (fun a i => do t <- part_loop (cell (radius rows)) (firstn s (skipn (Z.to_nat i) rows));
                      store a (Z.to_nat i * cols) (Z.to_nat (i + Z.of_nat s) * cols) t)) by (intros; now rewrite Hp).
  rewrite L. destruct (mapM (cell (radius rows)) (List.concat rows)); reflexivity.
Qed.

(** ** inverse distances *)
Lemma nsum_fin l a : fold_left nadd (map Fin l) (Fin a) = Fin (a + total l).
Proof. revert a. induction l as [|x l IH]; intro a; cbn [map fold_left total]; [f_equal; ring|]. cbn [nadd]. rewrite IH. f_equal. ring. Qed.
Lemma nsum_total l : nsum (map Fin l) = Fin (total l).
Proof. unfold nsum, nint. rewrite nsum_fin, ZQ_0. f_equal. ring. Qed.
Lemma total_pos l : l <> [] -> (forall x, In x l -> 0 < x) -> 0 < total l.
Proof.
  induction l as [|x l IH]; [congruence|]. intros _ H. cbn [total]. destruct l as [|y l]; [cbn [total]; rewrite Qcplus_0_r; apply H; now left|].
  assert (0 < x) by (apply H; now left). assert (0 < total (y :: l)) by (apply IH; [congruence|intros; apply H; now right]). qclra.
Qed.
Lemma total_scale l c : total (map (fun x => x / c) l) = total l / c.
Proof. induction l as [|x l IH]; cbn [map total]; [unfold Qcdiv; ring|]. rewrite IH. unfold Qcdiv. ring. Qed.
Definition isq (d : Qc) : Qc := 1 / (d * d).
Definition idw (ds : list Qc) : list Qc := map (fun d => isq d / total (map isq ds)) ds.
Lemma isq_pos d : 0 < d -> 0 < isq d.
Proof. intro H. apply Qcdiv_pos; [reflexivity|]. now apply Qc_mul_pos. Qed.
Lemma idw_spec ds : ds <> [] -> (forall d, In d ds -> 0 < d) -> inverse_square ds (idw ds).
Proof.
  intros Hn Hp. set (t := total (map isq ds)).
  assert (Ht : 0 < t). { apply total_pos; [destruct ds; cbn [map]; congruence|]. intros x Hx. apply in_map_iff in Hx. destruct Hx as [d [<- Hd]]. now apply isq_pos, Hp. }
  split; [unfold idw; now rewrite map_length|]. split; [|split].
  - unfold idw. fold t. rewrite <- (map_map isq (fun x => x / t)). rewrite total_scale. fold t. apply Qcmult_inv_r. now apply Qc_pos_neq0.
  - intros w Hw. apply in_map_iff in Hw. destruct Hw as [d [<- Hd]]. apply Qcdiv_pos; [now apply isq_pos, Hp|exact Ht].
  - exists (1 / t). unfold idw. fold t. apply Qc_pos_neq0 in Ht. clearbody t. clear Hn. induction ds as [|d ds IH]; cbn [map]; constructor.
    + unfold isq. assert (d <> 0) by (apply Qc_pos_neq0, Hp; now left). field. split; assumption.
    + apply IH. intros; apply Hp; now right.
Qed.
Lemma invdist_weights_in mub c : forall ds, map fst c = map Fin ds -> leb_num (first_dist c) eps10 = false -> leb_num (first_dist c) mub = true ->
  (forall d, In d ds -> 0 < d) -> ds <> [] -> invdist_weights mub c = map Fin (idw ds).
Proof.
  intros ds E H1 H2 Hp Hn. unfold invdist_weights. rewrite H1, H2.
  assert (E1 : map (fun p => ndiv (nint 1) (nmul (fst p) (fst p))) c = map Fin (map isq ds)).
  { rewrite <- (map_map fst (fun x => ndiv (nint 1) (nmul x x))). rewrite E, !map_map. apply map_ext_in. intros d Hd. cbn [nmul]. unfold nint. rewrite ZQ_1, ndiv_fin; [reflexivity|]. apply Qc_pos_neq0, Qc_mul_pos; now apply Hp. }
  rewrite E1, nsum_total, map_map. unfold idw. rewrite !map_map. apply map_ext_in. intros d Hd. rewrite ndiv_fin; [reflexivity|].
  apply Qc_pos_neq0, total_pos; [destruct ds; cbn [map]; congruence|]. intros x Hx. apply in_map_iff in Hx. destruct Hx as [e [<- He]]. now apply isq_pos, Hp.
Qed.
