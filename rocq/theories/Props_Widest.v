(** * Properties C75 (the side across which mode bilinear_delaunay pairs two
    triangles) and C48 (numbers of splits of mode bilinear). *)
From Coq Require Import Psatz.
From Verif Require Import Base Base_P Num Strings GribInterp_P Xr Adw Scipy Scipy_P Bilinear BilinearSplits Triang.
Local Open Scope R_scope.

(** ** the widest angle *)
(** [A], [B] and [C] are the angles of the triangle in its corners [a], [b] and
    [c]; [angle p q r], the angle at [q], is measured on either side *)
Definition angles_of (angle : R * R -> R * R -> R * R -> R) (a b c : R * R) (A B C : R) : Prop :=
  (0 < A < 180 /\ 0 < B < 180 /\ 0 < C < 180) /\ A + B + C = 180 /\
  (angle c a b = A \/ angle c a b = 360 - A) /\ (angle a b c = B \/ angle a b c = 360 - B).
(** the corner number [widest] has the widest angle *)
Theorem C75_widest : forall angle a b c A B C, angles_of angle a b c A B C ->
  (widest angle a b c < 3)%nat /\
  forall w, nth_error [A; B; C] (widest angle a b c) = Some w -> A <= w /\ B <= w /\ C <= w.
Proof.
  intros angle a b c A B C ((HA & HB & HC) & S & Ea & Eb).
  assert (Fa : fold180 (angle c a b) = A).
  { unfold fold180, ltb. destruct Ea as [-> | ->]; destruct (Rlt_dec _ _); lra. }
  assert (Fb : fold180 (angle a b c) = B).
  { unfold fold180, ltb. destruct Eb as [-> | ->]; destruct (Rlt_dec _ _); lra. }
  unfold widest. rewrite Fa, Fb. cbv zeta. replace (180 - A - B) with C by lra. unfold leb.
  destruct (Rle_dec 90 A).
  - split; [lia|]. intros w E. injection E as <-. lra.
  - unfold argmax. cbn [argmax_from]. destruct (Rlt_dec A B); destruct (Rlt_dec _ C); (split; [lia|]); intros w E; injection E as <-; lra.
Qed.
Print Assumptions C75_widest.
Definition ex_angle (p q r : R * R) : R := if Req_EM_T (snd q) 0 then 320 else 60.
Example C75_widest_nonvacuous : angles_of ex_angle (1, 0) (0, 1) (1, 2) 40 60 80.
Proof.
  unfold angles_of, ex_angle. cbn [snd]. repeat split; try lra.
  - right. destruct (Req_EM_T 0 0); lra.
  - left. destruct (Req_EM_T 1 0); lra.
Qed.

(** ** the pairing: a triangle [t] and the one, [nb], across the side opposite
    to its widest angle, both without partner so far, become partners; the
    row of the cell has the corners of both *)
Lemma update_nat l i x : (i < List.length l)%nat -> exists l', py_update l (Z.of_nat i) x = Ok l' /\ List.length l' = List.length l /\
  nth_error l' i = Some x /\ forall s, s <> i -> nth_error l' s = nth_error l s.
Proof.
  intro H. unfold py_update. cbv zeta. destruct (Z.ltb_spec (Z.of_nat i) 0) as [C|_]; [lia|].
  destruct (Z.ltb_spec (Z.of_nat i) 0) as [C|_]; [lia|]. destruct (Z.leb_spec (Z.of_nat (List.length l)) (Z.of_nat i)) as [C|_]; [lia|]. cbn [orb].
  rewrite Nat2Z.id. eexists. split; [reflexivity|].
  assert (L : List.length (firstn i l) = i) by (rewrite firstn_length; lia).
  split; [|split].
  - rewrite app_length, L. cbn [List.length]. rewrite skipn_length. lia.
  - rewrite nth_error_app2, L, Nat.sub_diag by lia. reflexivity.
  - intros s Hs. rewrite <- (firstn_skipn i l) at 3. destruct (Nat.lt_ge_cases s i) as [D|D].
    + rewrite !nth_error_app1 by lia. reflexivity.
    + rewrite !nth_error_app2, L by lia. destruct (s - i)%nat as [|m] eqn:E; [lia|]. cbn [nth_error].
      destruct (skipn i l) as [|y r] eqn:Es.
      * assert (Q : List.length (skipn i l) = 0%nat) by now rewrite Es. rewrite skipn_length in Q. lia.
      * cbn [nth_error]. f_equal. change r with (skipn 1 (y :: r)). rewrite <- Es. clear. revert l. induction i as [|i IH]; intros [|z l]; try reflexivity. apply IH.
Qed.
Lemma index_nat {A} (l : list A) i x : nth_error l i = Some x -> py_index l (Z.of_nat i) = Ok x.
Proof. intro E. now rewrite py_index_nat, E. Qed.

Lemma widest_is angle a b c A B C m w : angles_of angle a b c A B C -> nth_error [A; B; C] m = Some w ->
  (forall m' w', m' <> m -> nth_error [A; B; C] m' = Some w' -> w' < w) -> widest angle a b c = m.
Proof.
  intros Han Hm Hw. destruct (C75_widest angle a b c A B C Han) as [Wl Ww].
  destruct (nth_error [A; B; C] (widest angle a b c)) as [v|] eqn:Ev.
  - destruct (Nat.eq_dec (widest angle a b c) m) as [E|E]; [exact E|]. exfalso.
    pose proof (Hw _ v E Ev) as Lt. specialize (Ww v eq_refl). destruct m as [|[|[|m]]]; cbn in Hm; try discriminate Hm.
    + injection Hm as <-. lra. + injection Hm as <-. lra. + injection Hm as <-. lra. + destruct m; discriminate Hm.
  - apply nth_error_None in Ev. cbn in Ev. lia.
Qed.
(** without partner: when there is no triangle across that side, or when it has
    a partner already, the row has the three corners and -1, and no pair is made *)
Theorem C75_alone : forall angle tri sps t nb i j k a b c A B C m w row pairs,
  let idx := [Z.of_nat i; Z.of_nat j; Z.of_nat k] in
  nth_error sps i = Some a -> nth_error sps j = Some b -> nth_error sps k = Some c -> angles_of angle a b c A B C ->
  nth_error [A; B; C] m = Some w -> (forall m' w', m' <> m -> nth_error [A; B; C] m' = Some w' -> w' < w) ->
  nth_error (neighbors tri) t = Some row -> nth_error row m = Some nb ->
  nth_error pairs t = Some (-1)%Z -> (nb = -1 \/ exists n p, nb = Z.of_nat n /\ nth_error pairs n = Some p /\ p <> -1)%Z ->
  choose angle tri sps true (Z.of_nat t) idx pairs = Ok (idx ++ [-1], pairs)%Z.
Proof.
  intros angle tri sps t nb i j k a b c A B C m w row pairs idx Ha Hb Hc Han Hm Hw Hrow Hnb Hpt Hor.
  pose proof (widest_is angle a b c A B C m w Han Hm Hw) as Em.
  unfold choose, idx, at_pt. rewrite (index_nat _ _ _ Ha), (index_nat _ _ _ Hb), (index_nat _ _ _ Hc). cbn [rbind].
  rewrite (index_nat _ _ _ Hrow). cbn [rbind]. rewrite Em, (index_nat _ _ _ Hnb). cbn [rbind]. unfold pair_triangles.
  assert (P : pair_triangles pairs (Z.of_nat t) nb = Ok pairs).
  { unfold pair_triangles. destruct Hor as [-> |(n & p & -> & Hp & Np)]; [reflexivity|].
    assert (G : (Z.of_nat n >? -1)%Z = true) by (apply Z.gtb_lt; lia).
    rewrite G, (index_nat _ _ _ Hpt). cbn [rbind]. change (-1 =? -1)%Z with true. cbn match. rewrite (index_nat _ _ _ Hp). cbn [rbind].
    now rewrite (proj2 (Z.eqb_neq p (-1)) Np). }
  unfold pair_triangles in P. rewrite P. cbn [rbind]. rewrite (index_nat _ _ _ Hpt). reflexivity.
Qed.
Print Assumptions C75_alone.

(** a partner is kept: the row has the corners of both, and no pair is made *)
Theorem C75_kept : forall angle tri sps t nb i j k a b c A B C m w row p idx2 pairs,
  let idx := [Z.of_nat i; Z.of_nat j; Z.of_nat k] in
  nth_error sps i = Some a -> nth_error sps j = Some b -> nth_error sps k = Some c -> angles_of angle a b c A B C ->
  nth_error [A; B; C] m = Some w -> (forall m' w', m' <> m -> nth_error [A; B; C] m' = Some w' -> w' < w) ->
  nth_error (neighbors tri) t = Some row -> nth_error row m = Some nb ->
  nth_error pairs t = Some (Z.of_nat p) -> nth_error (simplices tri) p = Some idx2 -> List.length (unique (idx ++ idx2)) = 4%nat ->
  choose angle tri sps true (Z.of_nat t) idx pairs = Ok (unique (idx ++ idx2), pairs).
Proof.
  intros angle tri sps t nb i j k a b c A B C m w row p idx2 pairs idx Ha Hb Hc Han Hm Hw Hrow Hnb Hpt Hs Hu.
  pose proof (widest_is angle a b c A B C m w Han Hm Hw) as Em.
  unfold choose, idx, at_pt. rewrite (index_nat _ _ _ Ha), (index_nat _ _ _ Hb), (index_nat _ _ _ Hc). cbn [rbind].
  rewrite (index_nat _ _ _ Hrow). cbn [rbind]. rewrite Em, (index_nat _ _ _ Hnb). cbn [rbind].
  assert (P : pair_triangles pairs (Z.of_nat t) nb = Ok pairs).
  { unfold pair_triangles. rewrite (index_nat _ _ _ Hpt). cbn [rbind]. rewrite (proj2 (Z.eqb_neq (Z.of_nat p) (-1))) by lia. now destruct (nb >? -1)%Z. }
  rewrite P. cbn [rbind]. rewrite (index_nat _ _ _ Hpt). cbn [rbind]. assert (G : (Z.of_nat p >? -1)%Z = true) by (apply Z.gtb_lt; lia).
  rewrite G, (index_nat _ _ _ Hs). cbn [rbind]. fold idx. cbv zeta. rewrite Hu. reflexivity.
Qed.
Print Assumptions C75_kept.

Theorem C75_pairing : forall angle tri sps t nb i j k a b c A B C m w row idx2 pairs,
  let idx := [Z.of_nat i; Z.of_nat j; Z.of_nat k] in
  nth_error sps i = Some a -> nth_error sps j = Some b -> nth_error sps k = Some c -> angles_of angle a b c A B C ->
  nth_error [A; B; C] m = Some w -> (forall m' w', m' <> m -> nth_error [A; B; C] m' = Some w' -> w' < w) ->
  nth_error (neighbors tri) t = Some row -> nth_error row m = Some (Z.of_nat nb) -> nth_error (simplices tri) nb = Some idx2 ->
  t <> nb -> nth_error pairs t = Some (-1)%Z -> nth_error pairs nb = Some (-1)%Z -> List.length (unique (idx ++ idx2)) = 4%nat ->
  exists pairs', choose angle tri sps true (Z.of_nat t) idx pairs = Ok (unique (idx ++ idx2), pairs') /\
    nth_error pairs' t = Some (Z.of_nat nb) /\ nth_error pairs' nb = Some (Z.of_nat t) /\ forall s, s <> t -> s <> nb -> nth_error pairs' s = nth_error pairs s.
Proof.
  intros angle tri sps t nb i j k a b c A B C m w row idx2 pairs idx Ha Hb Hc Han Hm Hw Hrow Hnb Hs Htn Hpt Hpn Hu.
  destruct (C75_widest angle a b c A B C Han) as [Wl Ww].
  assert (Em : widest angle a b c = m).
  { destruct (nth_error [A; B; C] (widest angle a b c)) as [v|] eqn:Ev.
    - destruct (Nat.eq_dec (widest angle a b c) m) as [E|E]; [exact E|]. exfalso.
      pose proof (Hw _ v E Ev) as Lt. specialize (Ww v eq_refl). destruct m as [|[|[|m]]]; cbn in Hm; try discriminate Hm.
      + injection Hm as <-. lra. + injection Hm as <-. lra. + injection Hm as <-. lra. + destruct m; discriminate Hm.
    - apply nth_error_None in Ev. cbn in Ev. lia. }
  unfold choose, idx, at_pt. rewrite (index_nat _ _ _ Ha), (index_nat _ _ _ Hb), (index_nat _ _ _ Hc). cbn [rbind].
  rewrite (index_nat _ _ _ Hrow). cbn [rbind]. rewrite Em, (index_nat _ _ _ Hnb). cbn [rbind]. unfold pair_triangles.
  assert (G : (Z.of_nat nb >? -1)%Z = true) by (apply Z.gtb_lt; lia).
  rewrite G, (index_nat _ _ _ Hpt). cbn [rbind]. change (-1 =? -1)%Z with true. cbn match. rewrite (index_nat _ _ _ Hpn). cbn [rbind]. change (-1 =? -1)%Z with true. cbn match.
  assert (Lt : (t < List.length pairs)%nat) by (apply nth_error_Some; congruence).
  assert (Ln : (nb < List.length pairs)%nat) by (apply nth_error_Some; congruence).
  destruct (update_nat pairs t (Z.of_nat nb) Lt) as (p1 & E1 & L1 & T1 & O1). rewrite E1. cbn [rbind].
  destruct (update_nat p1 nb (Z.of_nat t) ltac:(lia)) as (p2 & E2 & L2 & T2 & O2). rewrite E2. cbn [rbind].
  assert (Ft : nth_error p2 t = Some (Z.of_nat nb)) by now rewrite O2.
  rewrite (index_nat _ _ _ Ft). cbn [rbind]. rewrite G, (index_nat _ _ _ Hs). cbn [rbind]. fold idx. cbv zeta. rewrite Hu. cbn [Nat.eqb].
  exists p2. split; [reflexivity|]. split; [exact Ft|]. split; [exact T2|]. intros s S1 S2. now rewrite O2, O1.
Qed.
Print Assumptions C75_pairing.
Example C75_pairing_nonvacuous :
  let tri := mkTri [[0; 1; 2]; [1; 2; 3]]%Z [[-1; -1; 1]; [-1; 0; -1]]%Z (fun _ => 0%Z) [] in
  nth_error [40; 60; 80] 2 = Some 80 /\ (forall m' w', m' <> 2%nat -> nth_error [40; 60; 80] m' = Some w' -> w' < 80) /\
  nth_error (neighbors tri) 0 = Some [-1; -1; 1]%Z /\ nth_error [-1; -1; 1]%Z 2 = Some (Z.of_nat 1) /\ nth_error (simplices tri) 1 = Some [1; 2; 3]%Z /\
  List.length (unique ([Z.of_nat 0; Z.of_nat 1; Z.of_nat 2] ++ [1; 2; 3]%Z)%list) = 4%nat.
Proof.
  cbn [neighbors simplices nth_error]. repeat split.
  intros m' w' H E. destruct m' as [|[|[|m']]]; cbn in E; [injection E as <-; lra|injection E as <-; lra|congruence|destruct m'; discriminate E].
Qed.

Example C75_alone_nonvacuous :
  let tri := mkTri [[0; 1; 2]; [1; 2; 3]]%Z [[-1; -1; 1]; [-1; 0; -1]]%Z (fun _ => 0%Z) [] in
  nth_error [80; 60; 40] 0 = Some 80 /\ (forall m' w', m' <> 0%nat -> nth_error [80; 60; 40] m' = Some w' -> w' < 80) /\
  nth_error (neighbors tri) 0 = Some [-1; -1; 1]%Z /\ nth_error [-1; -1; 1]%Z 0 = Some (-1)%Z /\ nth_error [-1; -1]%Z 0 = Some (-1)%Z.
Proof.
  cbn [neighbors nth_error]. repeat split.
  intros m' w' H E. destruct m' as [|[|[|m']]]; cbn in E; [congruence|injection E as <-; lra|injection E as <-; lra|destruct m'; discriminate E].
Qed.

(** ** mode bilinear: zero splits and more splits than rows are errors, a
    negative number leaves the whole table unwritten *)
Theorem C48_bilinear_other_numbers : forall (Loc : Type) (query : Loc -> nat -> list Z) locate argsort angle solve g rotated isatty fuel mub (rows : list (list (@target Loc))) cols splits, rows <> [] ->
  let split n := bilinear_splits query locate argsort angle solve g rotated isatty fuel mub n rows cols in
  split 0%Z = Some (Raise ZeroDivisionError) /\
  ((Z.of_nat (List.length rows) < splits)%Z -> split splits = Some (Raise ValueError)) /\
  ((splits < 0)%Z -> split splits = Some (Ok (repeat None (List.length rows * cols)))).
Proof.
  intros Loc query locate argsort angle solve g rotated isatty fuel mub rows cols splits Hr split.
  assert (L : (0 < List.length rows)%nat) by (destruct rows; [congruence|cbn; lia]).
  split; [reflexivity|]. unfold split, bilinear_splits. split.
  - intro H. destruct (Z.eqb_spec splits 0) as [C|_]; [lia|]. rewrite Z.div_small by lia. reflexivity.
  - intro H. destruct (Z.eqb_spec splits 0) as [C|_]; [lia|]. set (q := (Z.of_nat (List.length rows) / splits)%Z).
    assert (Hq : (- Z.of_nat (List.length rows) <= q < 0)%Z).
    { pose proof (Z.div_mod (Z.of_nat (List.length rows)) splits ltac:(lia)) as D. pose proof (Z.mod_neg_bound (Z.of_nat (List.length rows)) splits H) as B. fold q in D. nia. }
    assert (E : py_range 0 (Z.of_nat (List.length rows)) q = Ok []).
    { unfold py_range. destruct (Z.eqb_spec q 0) as [C|_]; [lia|]. destruct (Z.ltb_spec 0 q) as [C|_]; [lia|].
      assert (E : range_len (Z.of_nat (List.length rows)) 0 (- q) = O).
      { unfold range_len. assert ((0 - Z.of_nat (List.length rows) + - q - 1) / - q < 0)%Z by (apply Z.div_lt_upper_bound; lia). lia. }
      rewrite E. reflexivity. }
    rewrite E. reflexivity.
Qed.
Print Assumptions C48_bilinear_other_numbers.
Example C48_bilinear_other_numbers_nonvacuous : [[mkTarget tt 0 0 []]; [mkTarget tt 1 0 []]] <> [] /\ (Z.of_nat 2 < 3)%Z.
Proof. split; [discriminate|reflexivity]. Qed.
