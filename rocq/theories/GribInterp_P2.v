(** * GribInterp_P2: inverse distance tables *)
From Verif Require Import Base Num Strings GribInterp Spec_GribInterp Base_P Num_P GribInterp_P.
Local Open Scope Z_scope.

Notation quad_inv := (num * num * num * num)%type.
Notation quad_idx := (Z * Z * Z * Z)%type.
Definition inv_row_of (f : grib_api) (mv : num) (p : num * num) : option (quad_inv * quad_idx) :=
  if (nleb (snd p) low_lon || neqb (snd p) mv)%bool then None
  else match find4 f (fst p) (snd p) with
       | Some l => match compute_coeffs l with Ok a => Some a | Raise _ => None end
       | None => None
       end.
(** what is known of a row *)
Definition row_ok (n : nat) (a : quad_inv * quad_idx) : Prop :=
  (is_nan (q1 (fst a)) = false /\ is_nan (q2 (fst a)) = false /\ is_nan (q3 (fst a)) = false /\ is_nan (q4 (fst a)) = false) /\
  (0 <= q1 (snd a) < Z.of_nat n /\ 0 <= q2 (snd a) < Z.of_nat n /\ 0 <= q3 (snd a) < Z.of_nat n /\ 0 <= q4 (snd a) < Z.of_nat n).

Lemma nint_inv_fin d : d <> 0%Qc -> ndiv (nint 1) (Fin d) = Fin (1 / d)%Qc.
Proof. intro H. unfold nint. rewrite ndiv_fin by exact H. now rewrite ZQ_1. Qed.
Lemma exact_none d : neqb (Fin d) (nint 0) = false <-> d <> 0%Qc.
Proof. unfold nint. cbn [neqb]. rewrite ZQ_0. apply Qc_eqb_false. Qed.
Lemma exact_some d : neqb (Fin d) (nint 0) = true <-> d = 0%Qc.
Proof. unfold nint. cbn [neqb]. rewrite ZQ_0. apply Qc_eqb_spec. Qed.

(** the four cases of an exact match, and none *)
Lemma compute_four k1 k2 k3 k4 d1 d2 d3 d4 :
  let l := [(k1, Fin d1); (k2, Fin d2); (k3, Fin d3); (k4, Fin d4)] in
  let one := fun k => Ok ((nint 1, nint 0, nint 0, nint 0), (k, 0, 0, 0)) in
  (d1 = 0%Qc -> compute_coeffs l = one k1) /\ (d1 <> 0%Qc -> d2 = 0%Qc -> compute_coeffs l = one k2) /\
  (d1 <> 0%Qc -> d2 <> 0%Qc -> d3 = 0%Qc -> compute_coeffs l = one k3) /\ (d1 <> 0%Qc -> d2 <> 0%Qc -> d3 <> 0%Qc -> d4 = 0%Qc -> compute_coeffs l = one k4) /\
  (d1 <> 0%Qc -> d2 <> 0%Qc -> d3 <> 0%Qc -> d4 <> 0%Qc ->
     compute_coeffs l = Ok ((Fin (1 / d1)%Qc, Fin (1 / d2)%Qc, Fin (1 / d3)%Qc, Fin (1 / d4)%Qc), (k1, k2, k3, k4))).
Proof.
  cbv zeta. unfold compute_coeffs, exact_at.
  split; [intro E1; rewrite (proj2 (exact_some d1) E1); reflexivity|].
  split; [intros E1 E2; rewrite (proj2 (exact_none d1) E1), (proj2 (exact_some d2) E2); reflexivity|].
  split; [intros E1 E2 E3; rewrite (proj2 (exact_none d1) E1), (proj2 (exact_none d2) E2), (proj2 (exact_some d3) E3); reflexivity|].
  split; [intros E1 E2 E3 E4; rewrite (proj2 (exact_none d1) E1), (proj2 (exact_none d2) E2), (proj2 (exact_none d3) E3), (proj2 (exact_some d4) E4); reflexivity|].
  intros E1 E2 E3 E4. rewrite (proj2 (exact_none d1) E1), (proj2 (exact_none d2) E2), (proj2 (exact_none d3) E3), (proj2 (exact_none d4) E4).
  now rewrite !nint_inv_fin by assumption.
Qed.
Lemma four_row n l : (0 < n)%nat -> four l n -> exists a, compute_coeffs l = Ok a /\ row_ok n a.
Proof.
  intros Hn [k1 [k2 [k3 [k4 [d1 [d2 [d3 [d4 [-> [P1 [P2 [P3 [P4 [K1 [K2 [K3 K4]]]]]]]]]]]]]]]].
  destruct (compute_four k1 k2 k3 k4 d1 d2 d3 d4) as [A [B [C [D E]]]].
  assert (G : forall k, 0 <= k < Z.of_nat n -> row_ok n ((nint 1, nint 0, nint 0, nint 0), (k, 0, 0, 0))).
  { intros k Hk. unfold row_ok. cbn [fst snd q1 q2 q3 q4 is_nan nint]. repeat split; lia. }
  destruct (Qc_eq_dec d1 0); [eexists; split; [now apply A|now apply G]|]. destruct (Qc_eq_dec d2 0); [eexists; split; [now apply B|now apply G]|].
  destruct (Qc_eq_dec d3 0); [eexists; split; [now apply C|now apply G]|]. destruct (Qc_eq_dec d4 0); [eexists; split; [now apply D|now apply G]|].
  eexists. split; [now apply E|]. unfold row_ok. cbn [fst snd q1 q2 q3 q4 is_nan]. repeat split; lia.
Qed.

Lemma inv_skip mv lon : good_lon mv lon -> (nltb lon low_lon || neqb lon mv)%bool = (nleb lon low_lon || neqb lon mv)%bool.
Proof.
  intros [H1 H2]. unfold nleb. destruct (neqb lon low_lon) eqn:E; [|now rewrite Bool.orb_false_r].
  assert (El : lon = low_lon) by (destruct lon; cbn in E; try discriminate; apply Qc_eqb_spec in E; unfold low_lon, nint; congruence).
  rewrite (H2 El), El. assert (G : neqb low_lon low_lon = true) by (unfold low_lon, nint; cbn [neqb]; apply Qc_eqb_refl). rewrite G, !Bool.orb_true_r. reflexivity.
Qed.
Lemma inv_step_cell f n mv cols i p : (0 < n)%nat -> good_api f n -> good_lon mv (snd p) ->
  inv_step f mv (initial mv (cell_at cols i p)) =
  Ok (match inv_row_of f mv p with Some a => mkInv (Z.of_nat (i / cols)) (Z.of_nat (i mod cols)) (snd a) (fst a) | None => no_row int_fill int_fill end).
Proof.
  intros Hn Hf Hg. unfold initial, cell_at, inv_row_of. cbn [c_lon c_lat]. rewrite valid_lon_spec by apply Hg.
  destruct (nleb (snd p) low_lon || neqb (snd p) mv)%bool eqn:E; cbn [negb]; unfold inv_step; cbn [c_lon c_lat c_x c_y]; rewrite (inv_skip _ _ Hg), E; cbn [negb]; [reflexivity|].
  destruct (find4 f (fst p) (snd p)) as [l|] eqn:Ef; [|reflexivity]. destruct (four_row n l Hn (proj2 Hf _ _ _ Ef)) as [[inv idx] [Ea _]]. rewrite Ea. reflexivity.
Qed.
Lemma inv_row_ok f n mv p a : (0 < n)%nat -> good_api f n -> inv_row_of f mv p = Some a -> row_ok n a.
Proof.
  intros Hn Hf H. unfold inv_row_of in H. destruct (nleb (snd p) low_lon || neqb (snd p) mv)%bool; [discriminate|].
  destruct (find4 f (fst p) (snd p)) as [l|] eqn:Ef; [|discriminate]. destruct (four_row n l Hn (proj2 Hf _ _ _ Ef)) as [b [Eb Hb]]. rewrite Eb in H. congruence.
Qed.

Fixpoint inv_list (f : grib_api) (mv : num) (cols i : nat) (coords : list (num * num)) : list inv_row :=
  match coords with
  | [] => []
  | p :: r => (match inv_row_of f mv p with Some a => mkInv (Z.of_nat (i / cols)) (Z.of_nat (i mod cols)) (snd a) (fst a) | None => no_row int_fill int_fill end)
              :: inv_list f mv cols (S i) r
  end.
Lemma inv_steps f n mv cols coords : (0 < n)%nat -> good_api f n -> (forall p, In p coords -> good_lon mv (snd p)) -> forall i,
  mapM (inv_step f mv) (map (initial mv) (cells_from cols i coords)) = Ok (inv_list f mv cols i coords).
Proof.
  intros Hn Hf. induction coords as [|p r IH]; intros Hg i; [reflexivity|]. cbn [cells_from map mapM inv_list].
  rewrite (inv_step_cell f n) by (auto; apply Hg; now left). cbn [rbind]. rewrite IH by (intros q Hq; apply Hg; now right). reflexivity.
Qed.
Lemma drop_fill_rows f n mv cols coords (pr : inv_row -> Z) (g : nat -> quad_idx -> Z) : (0 < n)%nat -> good_api f n ->
  pr (no_row int_fill int_fill) = int_fill -> (forall i a, pr (mkInv (Z.of_nat (i / cols)) (Z.of_nat (i mod cols)) (snd a) (fst a)) = g i (snd a)) ->
  (forall i a, row_ok n a -> g i (snd a) <> int_fill) -> forall i,
  drop_fill (map pr (inv_list f mv cols i coords)) = map (fun r => g (fst r) (snd (snd r))) (rows_from (inv_row_of f mv) i coords).
Proof.
  intros Hn Hf H1 H2 H3. induction coords as [|p r IH]; intro i; [reflexivity|]. cbn [inv_list map rows_from].
  destruct (inv_row_of f mv p) as [a|] eqn:E.
  - rewrite H2, drop_fill_cons by (apply H3; exact (inv_row_ok f n mv p a Hn Hf E)). rewrite IH. reflexivity.
  - rewrite H1, drop_fill_fill. apply IH.
Qed.
Lemma drop_nan_rows f n mv cols coords (pr : inv_row -> num) (g : quad_inv -> num) : (0 < n)%nat -> good_api f n ->
  pr (no_row int_fill int_fill) = NaN -> (forall i a, pr (mkInv (Z.of_nat (i / cols)) (Z.of_nat (i mod cols)) (snd a) (fst a)) = g (fst a)) ->
  (forall a, row_ok n a -> is_nan (g (fst a)) = false) -> forall i,
  drop_nan (map pr (inv_list f mv cols i coords)) = map (fun r => g (fst (snd r))) (rows_from (inv_row_of f mv) i coords).
Proof.
  intros Hn Hf H1 H2 H3. unfold drop_nan. induction coords as [|p r IH]; intro i; [reflexivity|]. cbn [inv_list map rows_from filter].
  destruct (inv_row_of f mv p) as [a|] eqn:E.
  - cbn [filter]. rewrite H2. rewrite (H3 a (inv_row_ok f n mv p a Hn Hf E)). cbn [negb map fst snd]. now rewrite IH.
  - cbn [filter]. rewrite H1. cbn [is_nan negb]. apply IH.
Qed.
Lemma ew2_map {A B C X} (f : A -> B -> C) (a : X -> A) (b : X -> B) l : ew2 f (map a l) (map b l) = Ok (map (fun x => f (a x) (b x)) l).
Proof.
  unfold ew2. rewrite !map_length, Nat.eqb_refl. f_equal. induction l as [|x l IH]; cbn [map zipw]; [reflexivity|now rewrite IH].
Qed.
Lemma zipw_map {A B C X} (f : A -> B -> C) (a : X -> A) (b : X -> B) l : zipw f (map a l) (map b l) = map (fun x => f (a x) (b x)) l.
Proof. induction l as [|x l IH]; cbn [map zipw]; [reflexivity|now rewrite IH]. Qed.

Definition inv_sum (inv : quad_inv) : num := nadd (nadd (nadd (q1 inv) (q2 inv)) (q3 inv)) (q4 inv).
Definition rows_table (cols : nat) (rs : list (nat * (quad_inv * quad_idx))) : inv_table :=
  mkTable (map (fun r => Z.of_nat (fst r / cols)) rs) (map (fun r => Z.of_nat (fst r mod cols)) rs)
    (map (fun r => q1 (snd (snd r))) rs) (map (fun r => q2 (snd (snd r))) rs) (map (fun r => q3 (snd (snd r))) rs) (map (fun r => q4 (snd (snd r))) rs)
    (map (fun r => ndiv (q1 (fst (snd r))) (inv_sum (fst (snd r)))) rs) (map (fun r => ndiv (q2 (fst (snd r))) (inv_sum (fst (snd r)))) rs)
    (map (fun r => ndiv (q3 (fst (snd r))) (inv_sum (fst (snd r)))) rs) (map (fun r => ndiv (q4 (fst (snd r))) (inv_sum (fst (snd r)))) rs).
Lemma inv_finish_ok f n mv cols coords : (0 < n)%nat -> good_api f n -> forall i,
  inv_finish (inv_list f mv cols i coords) = Ok (rows_table cols (rows_from (inv_row_of f mv) i coords)).
Proof.
  intros Hn Hf i. unfold inv_finish, rows_table.
  rewrite (drop_nan_rows f n mv cols coords (fun r => q1 (iv_inv r)) q1), (drop_nan_rows f n mv cols coords (fun r => q2 (iv_inv r)) q2),
          (drop_nan_rows f n mv cols coords (fun r => q3 (iv_inv r)) q3), (drop_nan_rows f n mv cols coords (fun r => q4 (iv_inv r)) q4);
    auto; try (intros a [[A1 [A2 [A3 A4]]] _]; assumption).
  repeat (rewrite !ew2_map; cbn [rbind]).
  rewrite (drop_fill_rows f n mv cols coords iv_x (fun i _ => Z.of_nat (i / cols))), (drop_fill_rows f n mv cols coords iv_y (fun i _ => Z.of_nat (i mod cols))),
    (drop_fill_rows f n mv cols coords (fun r => q1 (iv_idx r)) (fun _ x => q1 x)), (drop_fill_rows f n mv cols coords (fun r => q2 (iv_idx r)) (fun _ x => q2 x)),
    (drop_fill_rows f n mv cols coords (fun r => q3 (iv_idx r)) (fun _ x => q3 x)), (drop_fill_rows f n mv cols coords (fun r => q4 (iv_idx r)) (fun _ x => q4 x));
    auto; try (intros; apply of_nat_fill); intros j a [_ [A1 [A2 [A3 A4]]]]; unfold int_fill; lia.
Qed.

(** ** application *)
Definition inv_val (v : arr) (mv : num) (a : quad_inv * quad_idx) : num :=
  let m := fun k => masked_at v (Z.to_nat k) in
  let d := fun k => nth (Z.to_nat k) (adata v) NaN in
  let c := fun x => ndiv x (inv_sum (fst a)) in
  if (m (q1 (snd a)) || m (q2 (snd a)) || m (q3 (snd a)) || m (q4 (snd a)))%bool then mv
  else nadd (nadd (nadd (nmul (d (q1 (snd a))) (c (q1 (fst a)))) (nmul (d (q2 (snd a))) (c (q2 (fst a))))) (nmul (d (q3 (snd a))) (c (q3 (fst a)))))
            (nmul (d (q4 (snd a))) (c (q4 (fst a)))).
Lemma apply_rows rows cols mv v rs : wf_arr v -> (forall r, In r rs -> row_ok (asize v) (snd r)) ->
  apply_invdist rows cols mv v (rows_table cols rs) =
  put rows cols (repeat mv (rows * cols)) (map (fun r => Z.of_nat (fst r / cols)) rs) (map (fun r => Z.of_nat (fst r mod cols)) rs) (map (fun r => inv_val v mv (snd r)) rs).
Proof.
  intros Hw Hr. unfold apply_invdist, rows_table. cbn [t_i1 t_i2 t_i3 t_i4 t_c1 t_c2 t_c3 t_c4 t_xs t_ys].
  rewrite !gather_ok; try exact Hw; try (intros k Hk; apply in_map_iff in Hk as [r [<- Hi]]; destruct (Hr r Hi) as [_ [A1 [A2 [A3 A4]]]]; assumption).
  destruct v as [d|d [m|]]; cbn [rbind amask]; unfold arr_op2; cbn [adata amask].
  - rewrite !map_map. repeat (rewrite !ew2_map; cbn [rbind adata amask]). reflexivity.
  - unfold gmask. cbn [amask]. rewrite !map_map. repeat (rewrite !ew2_map; cbn [rbind adata amask mask_or]). rewrite !zipw_map.
    unfold result_masked. rewrite zipw_map. reflexivity.
  - unfold gmask. cbn [amask]. rewrite !map_map. repeat (rewrite !ew2_map; cbn [rbind adata amask mask_or]). reflexivity.
Qed.
