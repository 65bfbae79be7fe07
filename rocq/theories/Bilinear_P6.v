(** * Bilinear_P6: sources on parallels: targets on the northernmost parallel,
    and targets in the rectangle of their four nearest points *)
From Verif Require Import Base Base_P Num Strings Xr Adw Bilinear Spec_Bilinear Bilinear_P Bilinear_P2 Bilinear_P3 Bilinear_P4 Bilinear_P5 Props_Bilinear.
From Coq Require Import Psatz Permutation.
Local Open Scope R_scope.

Lemma fold_max l : forall a x, In x (a :: l) -> x <= fold_left Rmax l a.
Proof.
  induction l as [|y l IH]; intros a x H; cbn [fold_left]; [destruct H as [->|[]]; lra|].
  destruct H as [->|[->|H]].
  - apply Rle_trans with (Rmax x y); [apply Rmax_l|apply IH; now left].
  - apply Rle_trans with (Rmax a x); [apply Rmax_r|apply IH; now left].
  - apply IH. now right.
Qed.
Lemma max_ge l x : In x l -> x <= fold_left Rmax l (nthR l 0).
Proof. intro H. apply fold_max. now right. Qed.
Lemma fold_min l : forall a x, In x (a :: l) -> fold_left Rmin l a <= x.
Proof.
  induction l as [|y l IH]; intros a x H; cbn [fold_left]; [destruct H as [->|[]]; lra|].
  destruct H as [->|[->|H]].
  - apply Rle_trans with (Rmin x y); [apply IH; now left|apply Rmin_l].
  - apply Rle_trans with (Rmin a x); [apply IH; now left|apply Rmin_r].
  - apply IH. now right.
Qed.
Lemma min_le l x : In x l -> rmin l <= x.
Proof. unfold rmin. destruct l as [|a l]; [contradiction|]. intro H. apply fold_min. exact H. Qed.
Definition within (l : list R) (x : R) : Prop := (exists a, In a l /\ a <= x) /\ (exists b, In b l /\ x <= b).
Lemma within_not_outside g global la lo : within (latgrib g) la -> within (longrib g) lo -> outside g global la lo = false.
Proof.
  intros [[a [Ha La]] [b [Hb Lb]]] [[c [Hc Lc]] [d [Hd Ld]]]. unfold outside.
  pose proof (max_ge _ _ Hb). pose proof (max_ge _ _ Hd). pose proof (min_le _ _ Ha). pose proof (min_le _ _ Hc).
  destruct global; [reflexivity|]. cbn [negb andb].
  destruct (ltb_spec (fold_left Rmax (latgrib g) (nthR (latgrib g) 0)) la); [lra|].
  destruct (ltb_spec la (rmin (latgrib g))); [lra|].
  destruct (ltb_spec (fold_left Rmax (longrib g) (nthR (longrib g) 0)) lo); [lra|].
  destruct (ltb_spec lo (rmin (longrib g))); [lra|]. reflexivity.
Qed.
Lemma within_not_beyond g la : within (latgrib g) la -> beyond_latitudes g la = false.
Proof.
  intros [[a [Ha La]] [b [Hb Lb]]]. unfold beyond_latitudes. pose proof (max_ge _ _ Hb). pose proof (min_le _ _ Ha).
  destruct (ltb_spec (fold_left Rmax (latgrib g) (nthR (latgrib g) 0)) la); [lra|].
  destruct (ltb_spec la (rmin (latgrib g))); [lra|]. reflexivity.
Qed.

(** ** no point north of the target *)
Lemma all_up_wrong la lo cs : (2 < List.length cs)%nat -> (forall c, In c cs -> clat c <= la) -> wrong_direction la lo cs <> [].
Proof.
  intros L H. unfold wrong_direction. destruct (repeated [] cs) as [|w ws]; [|discriminate].
  assert (E : ups la cs = cs).
  { unfold ups. clear L. induction cs as [|c cs IH]; [reflexivity|]. cbn [filter]. destruct (leb_spec (clat c) la) as [_|N].
    - f_equal. apply IH. intros c' Hc'. apply H. now right.
    - exfalso. apply N. apply H. now left. }
  rewrite E. cbn [drop_far]. unfold shifted. rewrite map_length. destruct (Nat.ltb_spec 2 (List.length cs)); [|lia]. discriminate.
Qed.
Lemma drawn_lat g lo i c : -180 <= lo <= 180 -> (forall lon, In lon (longrib g) -> -180 <= lon <= 360 /\ exists k, Rabs (lo - (lon + 360 * IZR k)) < 90) ->
  corner_of g lo i = Ok c -> In (clat c) (latgrib g).
Proof.
  intros Hlo Hn H. destruct (corner_seen _ _ _ _ H) as [lat [lon [E1 [E2 [_ E3]]]]]. destruct (Hn lon (py_index_In _ _ _ E2)) as [Hr Hk].
  pose proof (near_reference lo lon Hlo Hr Hk) as Hd. unfold correct_point in E3. destruct (Rlt_dec 90 (Rabs (lo - reference lo (to180 lon)))) as [F|F]; [lra|].
  apply (f_equal fst) in E3. cbn [fst] in E3. change (fst (xy c)) with (clat c) in E3. rewrite E3. exact (py_index_In _ _ _ E1).
Qed.

Section north.
  Context {Loc : Type} (query : Loc -> nat -> list Z) (locate : R -> R -> Loc)
          (argsort : list R -> list nat) (angle : R * R -> R * R -> R * R -> R) (solve : quad -> R -> R -> R * R)
          (g : source) (global : bool) (retries : Z) (loc : Loc) (la lo : R).
  Hypothesis Up : forall i c, corner_of g lo i = Ok c -> clat c <= la.
  Hypothesis In1 : outside g global la lo = false.
  Hypothesis In2 : beyond_latitudes g la = false.
  Lemma north_body st st' : f_done st = None -> f_ok st = false -> f_checks st = false -> List.length (f_idx st) = 4%nat ->
    body query locate argsort angle g global false loc la lo st = Ok st' ->
    f_done st' = None /\ f_ok st' = false /\ f_checks st' = false /\ List.length (f_idx st') = 4%nat /\ f_quad st' = f_quad st.
  Proof.
    intros D O C L H. unfold body in H. apply rbind_ok in H as [cs [Hcs H]]. rewrite In1, C in H. apply rbind_ok in H as [st1 [H1 H]].
    destruct (mapM_corners _ _ _ _ Hcs) as [E1 E2].
    assert (W : wrong_direction la lo cs <> []).
    { apply all_up_wrong; [rewrite <- (map_length cidx), E1, L; lia|]. intros c Hc. apply (Up (cidx c)). apply E2. exact Hc. }
    unfold parallels_checks in H1. destruct (wrong_direction la lo cs) as [|w ws]; [congruence|]. rewrite In2 in H1.
    apply rbind_ok in H1 as [[idx' a] [R E]]. apply repl_ok in R as [R _]. assert (E' : st1 = mkState idx' a false false (f_quad st) None) by congruence. subst st1.
    cbn [f_done f_checks] in H. assert (E' : st' = mkState idx' a false false (f_quad st) None) by congruence. subst st'.
    cbn [f_done f_ok f_checks f_idx f_quad]. rewrite <- L. auto.
  Qed.
  Lemma north_search fuel : forall st st', f_done st = None -> f_ok st = false -> f_checks st = false -> List.length (f_idx st) = 4%nat ->
    search query locate argsort angle g global false retries fuel loc la lo st = Some (Ok st') ->
    f_done st' = None /\ f_ok st' = false /\ f_quad st' = f_quad st.
  Proof.
    induction fuel as [|fuel IH]; intros st st' D O C L H; cbn [search] in H; rewrite O in H; cbn [orb] in H; destruct (retries <=? f_add st)%Z.
    - assert (st' = st) by congruence. subst st'. auto.
    - discriminate.
    - assert (st' = st) by congruence. subst st'. auto.
    - destruct (body _ _ _ _ _ _ _ _ _ _ st) as [st1|e] eqn:B; [|discriminate]. destruct (north_body st st1 D O C L B) as [D1 [O1 [C1 [L1 Q1]]]].
      destruct (IH st1 st' D1 O1 C1 L1 H) as [A1 [A2 A3]]. split; [exact A1|]. split; [exact A2|]. congruence.
  Qed.
End north.

(** ** the corners of a rectangle *)
Lemma argmax_from_range l : forall best bv i, (argmax_from best bv i l = best \/ i <= argmax_from best bv i l < i + List.length l)%nat.
Proof.
  induction l as [|x l IH]; intros best bv i; cbn [argmax_from List.length]; [left; reflexivity|].
  destruct (Rlt_dec bv x); [destruct (IH i x (S i)) as [->|H]|destruct (IH best bv (S i)) as [->|H]]; [right; lia|right; lia|left; reflexivity|right; lia].
Qed.
Lemma argmax_range l : l <> [] -> (argmax l < List.length l)%nat.
Proof. destruct l as [|x l]; [congruence|]. intros _. unfold argmax. cbn [List.length]. destruct (argmax_from_range l 0 x 1) as [->|H]; lia. Qed.
Lemma nthc_in cs i : (i < List.length cs)%nat -> In (nthc cs i) cs.
Proof. intro H. unfold nthc. apply nth_In. exact H. Qed.
(** a row of two: where the largest is *)
Lemma argmax2 a b : (argmax [a; b] = 0%nat /\ b <= a) \/ (argmax [a; b] = 1%nat /\ a < b).
Proof. unfold argmax. cbn [argmax_from]. destruct (Rlt_dec a b); [right|left]; split; auto; lra. Qed.
Lemma row2 l a b : (argmax l = 0%nat -> argmax_row l [a; b] = Ok (0%nat, a)) /\ (argmax l = 1%nat -> argmax_row l [a; b] = Ok (1%nat, b)).
Proof. split; intro E; unfold argmax_row; rewrite E; reflexivity. Qed.
Lemma other2 a b : other [a; b] 0 = Ok b /\ other [a; b] 1 = Ok a.
Proof. split; reflexivity. Qed.

Section rect.
  Variables lat0 lat1 lon0 lon1 la lo : R.
  Hypothesis Hlat : lat0 <= la < lat1.
  Hypothesis Hlon : lon0 < lon1.
  (** two corners on a parallel *)
  Definition pair_on (lat : R) (l : list corner) : Prop := exists a b, l = [a; b] /\ clat a = lat /\ clat b = lat /\
    ((clon a = lon0 /\ clon b = lon1) \/ (clon a = lon1 /\ clon b = lon0)).
  Lemma rect_sides cs : rectangle lat0 lat1 lon0 lon1 cs -> pair_on lat0 (ups la cs) /\ pair_on lat1 (downs la cs) /\ repeated [] cs = [] /\
    (forall c, In c cs -> clon c = lon0 \/ clon c = lon1).
  Proof.
    intro H. unfold rectangle in H. assert (L : List.length cs = 4%nat) by (apply Permutation_length in H; rewrite map_length in H; exact H).
    destruct cs as [|[a1 b1 i1] [|[a2 b2 i2] [|[a3 b3 i3] [|[a4 b4 i4] [|]]]]]; try discriminate L. clear L. cbn [map xy clat clon] in H. unfold xy in H. cbn [clat clon] in H.
    assert (ND : NoDup [(a1, b1); (a2, b2); (a3, b3); (a4, b4)]).
    { apply (Permutation_NoDup (Permutation_sym H)). repeat constructor; cbn; intros N; repeat match goal with N : _ \/ _ |- _ => destruct N as [N|N] end; try (injection N; intros; lra); try contradiction. }
    assert (I : forall x, In x [(a1, b1); (a2, b2); (a3, b3); (a4, b4)] -> x = (lat0, lon0) \/ x = (lat0, lon1) \/ x = (lat1, lon0) \/ x = (lat1, lon1)).
    { intros x Hx. apply (Permutation_in _ H) in Hx. cbn in Hx. intuition. }
    assert (I1 := I _ (or_introl eq_refl)). assert (I2 := I _ (or_intror (or_introl eq_refl))). assert (I3 := I _ (or_intror (or_intror (or_introl eq_refl)))). assert (I4 := I _ (or_intror (or_intror (or_intror (or_introl eq_refl))))).
    clear I H. inversion_clear ND as [|? ? N1 ND1]. inversion_clear ND1 as [|? ? N2 ND2]. inversion_clear ND2 as [|? ? N3 _]. cbn in N1, N2, N3.
    destruct I1 as [E|[E|[E|E]]]; injection E as -> ->; (destruct I2 as [E|[E|[E|E]]]; injection E as -> ->); try (exfalso; apply N1; auto; fail);
    (destruct I3 as [E|[E|[E|E]]]; injection E as -> ->); try (exfalso; apply N1; auto; fail); try (exfalso; apply N2; auto; fail);
    (destruct I4 as [E|[E|[E|E]]]; injection E as -> ->); try (exfalso; apply N1; auto; fail); try (exfalso; apply N2; auto; fail); try (exfalso; apply N3; auto; fail); clear N1 N2 N3;
    (split; [unfold pair_on, ups; cbn [filter clat]; (destruct (leb_spec lat0 la); [|lra]); (destruct (leb_spec lat1 la); [lra|]); eexists _, _; (split; [reflexivity|]); cbn [clat clon]; auto
    |split; [unfold pair_on, downs; cbn [filter clat]; (destruct (ltb_spec la lat1); [|lra]); (destruct (ltb_spec la lat0); [lra|]); eexists _, _; (split; [reflexivity|]); cbn [clat clon]; auto
    |split; [cbn [repeated existsb app]; unfold same_place; cbn [clat clon]; repeat (destruct (Req_EM_T _ _); try lra; cbn [orb app]); reflexivity
    |intros c [<-|[<-|[<-|[<-|[]]]]]; cbn [clon]; auto]]]).
  Qed.

  Lemma pair_shift lat la' lo' l : pair_on lat l -> exists a b, shifted la' lo' l = [a; b] /\ clat a = lat - la' /\ clat b = lat - la' /\
    ((clon a = lon0 - lo' /\ clon b = lon1 - lo') \/ (clon a = lon1 - lo' /\ clon b = lon0 - lo')).
  Proof.
    intros [a [b [-> [A [B C]]]]]. unfold shifted. cbn [map]. eexists _, _. split; [reflexivity|]. cbn [clat clon]. rewrite A, B.
    split; [reflexivity|]. split; [reflexivity|]. destruct C as [[-> ->]|[-> ->]]; [left|right]; split; reflexivity.
  Qed.
  Lemma drop_two l : List.length l = 2%nat -> drop_far 4 l = [].
  Proof. intro L. cbn [drop_far]. rewrite L. reflexivity. Qed.
  Lemma rect_direction cs : rectangle lat0 lat1 lon0 lon1 cs -> wrong_direction la lo cs = [].
  Proof.
    intro H. destruct (rect_sides cs H) as [[a [b [U _]]] [[c [d [D _]]] [R _]]]. unfold wrong_direction. rewrite R, U, D.
    unfold shifted. cbn [map]. rewrite !drop_two by reflexivity. reflexivity.
  Qed.
  Lemma rect_grid_like cs : rectangle lat0 lat1 lon0 lon1 cs -> wrong_grid_like la lo cs = Ok None.
  Proof.
    intro H. destruct (rect_sides cs H) as [U [D _]]. unfold wrong_grid_like.
    destruct (pair_shift lat0 la lo _ U) as [a [b [-> [A1 [A2 _]]]]]. destruct (pair_shift lat1 la lo _ D) as [c [d [-> [B1 [B2 _]]]]].
    set (ep := / 10 * _). assert (P : 0 <= ep).
    { unfold ep. apply Rmult_le_pos; [lra|]. unfold rmin. destruct cs as [|c0 cs]; [cbn [map]; lra|]. cbn [map].
      clear. generalize (Rabs (clat c0 - la)) as x, (Rabs_pos (clat c0 - la)). induction cs as [|c1 cs IH]; intros x Hx; cbn [map fold_left]; [exact Hx|].
      apply IH. apply Rmin_glb; [exact Hx|apply Rabs_pos]. }
    clearbody ep.
    assert (Eu : forall x y, Rabs (clat x - clat y) = 0 -> ltb ep (Rabs (clat x - clat y)) = false) by (intros x y E; rewrite E; destruct (ltb_spec ep 0); [lra|reflexivity]).
    cbn [map].
    destruct (argmax2 (- clat a) (- clat b)) as [[E _]|[E _]]; [rewrite (proj1 (row2 _ a b) E)|rewrite (proj2 (row2 _ a b) E)]; cbn [rbind];
    (destruct (argmax2 (clat c) (clat d)) as [[E2 _]|[E2 _]]; [rewrite (proj1 (row2 _ c d) E2)|rewrite (proj2 (row2 _ c d) E2)]); cbn [rbind];
    rewrite ?(proj1 (other2 a b)), ?(proj2 (other2 a b)); cbn [rbind]; (rewrite Eu by (rewrite A1, A2; replace (lat0 - la - (lat0 - la)) with 0 by ring; apply Rabs_R0));
    rewrite ?(proj1 (other2 c d)), ?(proj2 (other2 c d)); cbn [rbind]; (rewrite Eu by (rewrite B1, B2; replace (lat1 - la - (lat1 - la)) with 0 by ring; apply Rabs_R0)); reflexivity.
  Qed.
  Lemma nearer_lon lonc a b : (lonc = lon0 \/ lonc = lon1) -> ((clon a = lon0 - lonc /\ clon b = lon1 - lonc) \/ (clon a = lon1 - lonc /\ clon b = lon0 - lonc)) ->
    exists i u v, argmax_row (map (fun c => - Rabs (clon c)) [a; b]) [a; b] = Ok (i, u) /\ other [a; b] i = Ok v /\
      clon u - clon v = (if Req_EM_T lonc lon0 then lon0 - lon1 else lon1 - lon0).
  Proof.
    intros Hc H. cbn [map].
    assert (E : argmax [- Rabs (clon a); - Rabs (clon b)] = 0%nat /\ clon a = 0 \/ argmax [- Rabs (clon a); - Rabs (clon b)] = 1%nat /\ clon b = 0).
    { destruct (argmax2 (- Rabs (clon a)) (- Rabs (clon b))) as [[E G]|[E G]]; [left|right]; (split; [exact E|]);
      revert G; unfold Rabs; repeat destruct (Rcase_abs _); intro G; destruct Hc as [-> | ->], H as [[A B]|[A B]]; rewrite ?A, ?B in *; lra. }
    destruct E as [[E Z]|[E Z]].
    - exists 0%nat, a, b. rewrite (proj1 (row2 _ a b) E). split; [reflexivity|]. split; [reflexivity|].
      destruct (Req_EM_T lonc lon0), Hc, H as [[A B]|[A B]]; rewrite ?A, ?B in *; lra.
    - exists 1%nat, b, a. rewrite (proj2 (row2 _ a b) E). split; [reflexivity|]. split; [reflexivity|].
      destruct (Req_EM_T lonc lon0), Hc, H as [[A B]|[A B]]; rewrite ?A, ?B in *; lra.
  Qed.
  Lemma rect_best cs : rectangle lat0 lat1 lon0 lon1 cs -> wrong_best_grid_like la lo cs = Ok None.
  Proof.
    intro H. destruct (rect_sides cs H) as [U [D [_ C]]]. unfold wrong_best_grid_like.
    set (closer := nthc cs _). assert (Hc : clon closer = lon0 \/ clon closer = lon1).
    { apply C. apply nthc_in. assert (L : List.length cs = 4%nat) by (apply Permutation_length in H; rewrite map_length in H; exact H).
      unfold argmin. eapply Nat.lt_le_trans; [apply argmax_range|rewrite !map_length; lia]. destruct cs; [discriminate L|discriminate]. }
    clearbody closer. cbv zeta.
    destruct (pair_shift lat1 la (clon closer) _ D) as [c [d [-> [_ [_ B]]]]]. destruct (pair_shift lat0 la (clon closer) _ U) as [a [b [-> [_ [_ A]]]]].
    destruct (nearer_lon (clon closer) c d Hc B) as [i [u [v [E1 [E2 E3]]]]]. destruct (nearer_lon (clon closer) a b Hc A) as [j [w [x [F1 [F2 F3]]]]].
    rewrite E1. cbn [rbind]. rewrite E2. cbn [rbind]. rewrite F1. cbn [rbind]. rewrite F2. cbn [rbind]. rewrite E3, F3.
    destruct (ltb_spec ((if Req_EM_T (clon closer) lon0 then lon0 - lon1 else lon1 - lon0) * (if Req_EM_T (clon closer) lon0 then lon0 - lon1 else lon1 - lon0)) 0) as [N|_]; [|reflexivity].
    exfalso. revert N. set (z := if Req_EM_T _ _ then _ else _). nra.
  Qed.
End rect.
