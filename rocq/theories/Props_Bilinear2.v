(** * Props_Bilinear2: C53 (refuted), C71, C72 *)
From Verif Require Import Base Base_P Num Strings Xr Adw Bilinear Spec_Bilinear Bilinear_P Bilinear_P2 Bilinear_P3 Bilinear_P4 Bilinear_P5 Props_Bilinear.
From Coq Require Import Psatz Permutation Sorting.
Local Open Scope R_scope.

(** ** an exhaustive search is a KD-tree *)
Definition tree (pts : list space) (p : space) (k : nat) : list Z := map Z.of_nat (firstn k (isort (map (chord p) pts))) ++ repeat (Z.of_nat (List.length pts)) (k - List.length pts).
Lemma ss_impl {A} (P Q : A -> A -> Prop) l : (forall i j, In i l -> In j l -> P i j -> Q i j) -> StronglySorted P l -> StronglySorted Q l.
Proof.
  intros H S. induction S as [|a l S IH F]; [constructor|]. constructor; [apply IH; intros i j Hi Hj; apply H; right; assumption|].
  rewrite Forall_forall in F |- *. intros j Hj. apply H; [left; reflexivity|right; exact Hj|apply F; exact Hj].
Qed.
Lemma tree_kdtree pts : kdtree pts (tree pts).
Proof.
  intros p k. exists (isort (map (chord p) pts)). destruct (isort_valid (map (chord p) pts)) as [P S]. rewrite map_length in P. split; [exact P|]. split; [|reflexivity].
  eapply ss_impl; [|exact S]. cbn beta. intros i j Hi Hj H.
  assert (B : forall x, In x (isort (map (chord p) pts)) -> nth x (map (chord p) pts) 0 = chord p (nth x pts (0, 0, 0))).
  { intros x Hx. apply (Permutation_in _ (Permutation_sym P)) in Hx. apply in_seq in Hx. rewrite (nth_indep _ 0 (chord p (0, 0, 0))) by (rewrite map_length; lia). apply map_nth. }
  rewrite <- (B i Hi), <- (B j Hj). exact H.
Qed.

(** the cells, the tree and the sort of a run *)
Definition points (g : source) : list space := zipw sphere (latgrib g) (longrib g).
Definition honest (g : source) (query : space -> nat -> list Z) (cells : list (@target space)) : Prop :=
  List.length (latgrib g) = List.length (longrib g) /\ kdtree (points g) query /\
  forall t, In t cells -> t_loc t = sphere (t_lat t) (t_lon t) /\ t_near t = map (fun i => (chord (t_loc t) (nth (Z.to_nat i) (points g) (0, 0, 0)), i)) (query (t_loc t) 4%nat).
Definition aim (lon lat : R) : space := sphere lat lon.

(** some solver makes every row with weights exact for affine functions *)
Definition C53_full : Prop := exists solve, forall g query argsort angle rotated rows isatty fuel mub cells table,
  honest g query cells -> valid_argsort argsort -> build_bilinear query aim argsort angle solve g rotated rows isatty fuel mub cells = Some (Ok table) ->
  Forall2 (fun t r => eps < nthR (map fst (t_near t)) 0 -> forall ws, fst r = map XF ws -> reproduces g (t_lat t) (t_lon t) ws (snd r)) cells table.
(** the row of a cell does not depend on the cells before it *)
Definition C71_full : Prop := forall query argsort angle solve g global rotated retries fuel mub t before before' r q r' q',
  honest g query [t] -> valid_argsort argsort ->
  bilinear_cell query aim argsort angle solve g global rotated retries fuel mub before t = Some (Ok (r, q)) ->
  bilinear_cell query aim argsort angle solve g global rotated retries fuel mub before' t = Some (Ok (r', q')) -> r = r'.
(** the construction ends *)
Definition C72_full : Prop := forall query argsort angle solve g rotated rows isatty mub cells, honest g query cells -> valid_argsort argsort ->
  exists fuel, build_bilinear query aim argsort angle solve g rotated rows isatty fuel mub cells <> None.

(** ** rotated sources *)
Section rotated.
  Context {Loc : Type} (query : Loc -> nat -> list Z) (locate : R -> R -> Loc)
          (argsort : list R -> list nat) (angle : R * R -> R * R -> R * R -> R) (solve : quad -> R -> R -> R * R)
          (g : source) (global : bool) (mub : R).
  Theorem C72_rotated_partial : forall fuel before t, (20 <= fuel)%nat -> bilinear_cell query locate argsort angle solve g global true 20 fuel mub before t <> None.
  Proof.
    intros fuel before t H. unfold bilinear_cell. destruct (leb _ _); [discriminate|]. destruct (ltb _ _); [discriminate|].
    assert (S : search query locate argsort angle g global true 20 fuel (t_loc t) (t_lat t) (t_lon t) (start true before t) <> None) by (apply (search_terminates query locate argsort angle solve); try reflexivity; cbn [start f_add]; lia).
    destruct (search _ _ _ _ _ _ _ _ _ _ _ _ _) as [[st|e]|]; [|discriminate|contradiction]. destruct (finish _ _ _ _); discriminate.
  Qed.
  (** the table, with at most 20 rounds for each cell *)
  Theorem C72_rotated_table_partial : forall cells before, bilinear_cells query locate argsort angle solve g global true 20 20 mub before cells <> None.
  Proof.
    induction cells as [|t cells IH]; intros before; cbn [bilinear_cells]; [discriminate|]. pose proof (C72_rotated_partial 20 before t (le_n 20)) as H.
    destruct (bilinear_cell _ _ _ _ _ _ _ _ _ _ _ _ _) as [[[r q]|e]|]; [|discriminate|contradiction]. specialize (IH q). destruct (bilinear_cells _ _ _ _ _ _ _ _ _ _ _ _ _) as [[rs|e]|]; [discriminate|discriminate|contradiction].
  Qed.
  Lemma checks_stay max_retries loc la lo fuel : forall st st', f_done st = None -> f_ok st = false -> f_checks st = true -> search query locate argsort angle g global true max_retries fuel loc la lo st = Some (Ok st') -> f_done st' = None -> f_ok st' = false -> f_checks st' = true.
  Proof.
    induction fuel as [|fuel IH]; intros st st' D O C H D' O'; cbn [search] in H; rewrite O in H; cbn [orb] in H; destruct (max_retries <=? f_add st)%Z; try congruence.
    destruct (body _ _ _ _ _ _ _ _ _ _ st) as [st1|e] eqn:B; [|discriminate]. destruct (body_cases query locate argsort angle g global true loc la lo st st1 D O B) as [_ X].
    assert (Fin : f_ok st1 = true -> st' = st1) by (intro O1; destruct fuel; cbn [search] in H; rewrite O1 in H; cbn [orb] in H; congruence).
    destruct X as [[Out [D1 O1]]|[[D1 [O1 Bey]]|[[D1 [O1 [C1 [Q1 C0]]]]|[[D1 [O1 [C1 [A1 [cs [Hcs Q1]]]]]]|[D1 [O1 [I1 [cs [Hcs [Q1 A1]]]]]]]]]]; try (rewrite (Fin O1) in O'; congruence); [congruence|].
    exact (IH st1 st' D1 O1 C1 H D' O').
  Qed.
  (** any cell of a rotated source has the same row, or fails alike, in any place *)
  Theorem C71_rotated_partial : forall fuel before before' t r q, List.length (t_near t) = 4%nat ->
    bilinear_cell query locate argsort angle solve g global true 20 fuel mub before t = Some (Ok (r, q)) -> exists q', bilinear_cell query locate argsort angle solve g global true 20 fuel mub before' t = Some (Ok (r, q')).
  Proof.
    intros fuel before before' t r q L H.
    assert (N : exists q0, bilinear_cell query locate argsort angle solve g global true 20 fuel mub None t = Some (Ok (r, q0))).
    { revert H. unfold bilinear_cell. destruct (leb _ _); [intro H; exists None; congruence|]. destruct (ltb _ _); [intro H; exists None; congruence|].
      change (start true before t) with (with_quad before (start true None t)). change (start true None t) with (with_quad None (start true None t)) at 2.
      destruct (search_uniform query locate argsort angle g global true 20 (t_loc t) (t_lat t) (t_lon t) fuel (start true None t)) as [N|[f [U N]]]; [rewrite N; discriminate|].
      destruct U as [[e U]|[[st1 U]|[st1 U]]]; pose proof (N None) as N1; pose proof (N before) as N2; rewrite U in N1, N2; rewrite N1, N2; [discriminate| |].
      - destruct (finish solve (t_lat t) (t_lon t) st1); [|discriminate]. intro E. exists (f_quad st1). congruence.
      - destruct (f_done st1) as [d|] eqn:D1.
        + unfold finish. cbn [with_quad f_done]. rewrite D1. intro E. exists None. assert (E2 : d = r) by congruence. rewrite E2. reflexivity.
        + exfalso. change (with_quad None (start true None t)) with (start true None t) in N1.
          assert (End : ending argsort g global true 20 (t_lat t) (t_lon t) None (with_quad None st1)).
          { eapply (search_ending query locate argsort angle solve g global true 20); [| | | |exact N1]; try reflexivity; [cbn; now rewrite map_length|]. left. split; [reflexivity|]. right. reflexivity. }
          inversion End as [idx Out D' Li|idx Bey D' Li|idx cs D' O' Li C Q' A|idx cs D' O' G Li C Q'|D' O' G Ck Q']; cbn [with_quad f_done f_quad f_checks] in *; try congruence.
          pose proof (checks_stay 20 (t_loc t) (t_lat t) (t_lon t) fuel (start true None t) (with_quad None st1) eq_refl eq_refl eq_refl N1 D1 O') as K. cbn [with_quad f_checks] in K. congruence. }
    destruct N as [q0 N]. exact (C71_partial query locate argsort angle solve g global true 20 fuel mub before' t r q0 N).
  Qed.
End rotated.
Print Assumptions C72_rotated_partial. Print Assumptions C72_rotated_table_partial. Print Assumptions C71_rotated_partial.
