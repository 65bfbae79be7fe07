(** * Props_Bilinear9: exchanges of the bilinear search before it finds a
    rectangle (C105) *)
From Verif Require Import Base Base_P Num Strings Xr Adw Bilinear Spec_Bilinear Bilinear_P Bilinear_P2 Bilinear_P3 Bilinear_P4 Bilinear_P5 Bilinear_P6 Bilinear_P7 Bilinear_P8 Props_Bilinear Props_Bilinear2 Props_Bilinear3 Props_Bilinear6.
From Coq Require Import Psatz Permutation Sorting.
Local Open Scope R_scope.

Section exchange.
  Context {Loc : Type} (query : Loc -> nat -> list Z) (locate : R -> R -> Loc) (g : source) (loc : Loc) (la lo : R).
  Definition replaced (idx : list Z) (w x : Z) : list Z := map (fun j => if (j =? w)%Z then x else j) idx.
  (** one exchange: a point that does not fit for the farthest new one among the
      nearest, one more than the last time; or a point for the nearest one to its
      mirror image *)
  Inductive exchange : nat * list Z -> nat * list Z -> Prop :=
  | exchange_unfit n idx cs c l x : mapM (corner_of g lo) idx = Ok cs -> NoDup (map xy cs) -> unfit la lo cs c ->
      filter (fun j => negb (zmem j idx)) (query loc (5 + n)) = (l ++ [x])%list -> exchange (n, idx) (S n, replaced idx (cidx c) x)
  | exchange_skew n idx cs e i x : mapM (corner_of g lo) idx = Ok cs -> NoDup (map xy cs) -> skew la lo cs e i ->
      query (locate (2 * clon i - clon e) (clat i)) 1%nat = [x] -> exchange (n, idx) (n, replaced idx (cidx e) x).
  Inductive exchanges : nat -> nat * list Z -> nat * list Z -> Prop :=
  | exchanges_none s : exchanges O s s
  | exchanges_more k s s1 s' : exchange s s1 -> exchanges k s1 s' -> exchanges (S k) s s'.

  Context (argsort : list R -> list nat) (angle : R * R -> R * R -> R * R -> R) (global : bool).
  Lemma corners_nodup idx cs : mapM (corner_of g lo) idx = Ok cs -> NoDup (map xy cs) -> NoDup (map cidx cs).
  Proof.
    intros Hcs Nx. apply (NoDup_map_inv xy) in Nx. assert (Q : forall c c', In c cs -> In c' cs -> cidx c = cidx c' -> c = c') by (destruct (mapM_corners g lo _ cs Hcs) as [_ H]; intros c c' H1 H2 E; apply H in H1, H2; congruence).
    clear Hcs. induction cs as [|c cs IH]; [constructor|]. inversion_clear Nx as [|? ? N1 N2]. cbn [map]. constructor.
    - intro X. apply in_map_iff in X. destruct X as [c' [E H']]. apply N1. rewrite (Q c c'); [exact H'|now left|now right|congruence].
    - apply IH; [exact N2|]. intros a b Ha Hb. apply Q; now right.
  Qed.
  Lemma last_new l x : py_index (l ++ [x])%list (- (0 + 1)) = Ok x :> res Z.
  Proof.
    destruct (py_index_neg (l ++ [x])%list 0) as [y [E E']]; [rewrite app_length; cbn; lia|]. change (- (Z.of_nat 0 + 1))%Z with (- (0 + 1))%Z in E. rewrite E. rewrite app_length in E'. cbn [List.length] in E'.
    rewrite nth_error_app2 in E' by lia. replace (List.length l + 1 - 1 - 0 - List.length l)%nat with 0%nat in E' by lia. cbn in E'. congruence.
  Qed.
  Lemma exchange_round n idx n' idx' q : exchange (n, idx) (n', idx') -> outside g global la lo = false -> beyond_latitudes g la = false ->
    body query locate argsort angle g global false loc la lo (mkState idx (Z.of_nat n) false false q None) = Ok (mkState idx' (Z.of_nat n') false false q None).
  Proof.
    intros H Out Bey. unfold body. cbn [f_idx f_checks]. inversion H as [? ? cs c l x Hcs Nx U F|? ? cs e i x Hcs Nx S F]; subst; rewrite Hcs; cbn [rbind]; rewrite Out; pose proof (corners_nodup idx cs Hcs Nx) as Ni; unfold parallels_checks; cbn [f_idx f_add f_quad].
    - assert (R : replace_index query loc [cidx c] idx (Z.of_nat n) = Ok (replaced idx (cidx c) x, Z.of_nat (S n))).
      { unfold replace_index. cbn [List.length]. replace (Z.to_nat (4 + (Z.of_nat n + Z.of_nat 1))) with (5 + n)%nat by lia. cbn zeta. rewrite F. cbn [put_from_end]. rewrite last_new. cbn [rbind]. replace (Z.of_nat n + Z.of_nat 1)%Z with (Z.of_nat (S n)) by lia. reflexivity. }
      destruct (unfit_verdict la lo cs c Nx Ni U) as [->|[-> ->]]; [rewrite Bey|cbn [rbind]]; rewrite R; reflexivity.
    - destruct (skew_verdict la lo cs e i Nx Ni S) as [-> [-> ->]]. cbn [rbind]. unfold replace_close_to. cbn [List.length]. rewrite F. cbn [put_from_end].
      pose proof (last_new [] x) as LN. cbn [app] in LN. rewrite LN. reflexivity.
  Qed.
  Lemma exchange_count n idx n' idx' : exchange (n, idx) (n', idx') -> (n <= n')%nat. Proof. intro H. inversion H; subst; lia. Qed.
  Lemma exchanges_count k s s' : exchanges k s s' -> (fst s <= fst s')%nat.
  Proof. induction 1 as [|k [n idx] [n1 idx1] s' H1 H2 IH]; [lia|]. apply exchange_count in H1. cbn [fst] in *. lia. Qed.
  Lemma exchanges_search k s s' : exchanges k s s' -> outside g global la lo = false -> beyond_latitudes g la = false -> forall retries fuel q, (Z.of_nat (fst s') < retries)%Z ->
    search query locate argsort angle g global false retries (k + fuel) loc la lo (mkState (snd s) (Z.of_nat (fst s)) false false q None) =
    search query locate argsort angle g global false retries fuel loc la lo (mkState (snd s') (Z.of_nat (fst s')) false false q None).
  Proof.
    induction 1 as [|k [n idx] [n1 idx1] s' H1 H2 IH]; intros Out Bey retries fuel q R; [reflexivity|]. pose proof (exchanges_count _ _ _ H2) as C. pose proof (exchange_count _ _ _ _ H1) as C1. cbn [fst] in C, C1.
    cbn [Nat.add search fst snd f_ok f_add orb]. destruct (Z.leb_spec retries (Z.of_nat n)); [lia|]. rewrite (exchange_round _ _ _ _ q H1 Out Bey). exact (IH Out Bey retries fuel q R).
  Qed.
End exchange.

(** a target that finds its rectangle after any number of exchanges *)
Theorem C105_exchanges_partial : forall (Loc : Type) (query : Loc -> nat -> list Z) locate argsort angle solve g global retries fuel mub before (t : @target Loc) k n idx' cs lat0 lat1 lon0 lon1,
  valid_argsort argsort ->
  exchanges query locate g (t_loc t) (t_lat t) (t_lon t) k (O, map snd (t_near t)) (n, idx') -> (Z.of_nat n < retries)%Z -> (k < fuel)%nat ->
  mapM (corner_of g (t_lon t)) idx' = Ok cs ->
  Permutation (map xy cs) [(lat0, lon0); (lat0, lon1); (lat1, lon0); (lat1, lon1)] ->
  lat0 <= t_lat t < lat1 -> lon0 < lon1 -> lon0 <= t_lon t <= lon1 ->
  within (latgrib g) (t_lat t) -> (global = true \/ within (longrib g) (t_lon t)) ->
  / 10000000000 < nthR (map fst (t_near t)) 0 <= mub ->
  finds_root solve (clockwise argsort cs) (t_lat t) (t_lon t) ->
  exists ws idx q, bilinear_cell query locate argsort angle solve g global false retries fuel mub before t = Some (Ok (map XF ws, idx, q)) /\
    Permutation idx idx' /\ convex_weights ws /\
    forall c00 c01 c10 c11, In c00 cs -> In c01 cs -> In c10 cs -> In c11 cs ->
      xy c00 = (lat0, lon0) -> xy c01 = (lat0, lon1) -> xy c10 = (lat1, lon0) -> xy c11 = (lat1, lon1) ->
      forall v : Z -> R, interpolated ws (map v idx) =
        bilinear_value lat0 lat1 lon0 lon1 (t_lat t) (t_lon t) (v (cidx c00)) (v (cidx c01)) (v (cidx c10)) (v (cidx c11)).
Proof.
  intros Loc query locate argsort angle solve g global retries fuel mub before t k n idx' cs lat0 lat1 lon0 lon1 VA HX Hr Hf Hcs HR Hla Hlon Hlo W1 W2 [D1 D2] FR.
  assert (Out : outside g global (t_lat t) (t_lon t) = false) by (destruct W2 as [->|W2]; [reflexivity|apply within_not_outside; assumption]).
  set (t' := mkTarget (t_loc t) (t_lat t) (t_lon t) (map (fun i => (mub, i)) idx')).
  assert (Li : List.length idx' = 4%nat) by (apply mapM_ok_length in Hcs; apply Permutation_length in HR; rewrite map_length in HR; cbn in HR; congruence).
  assert (Ei : map snd (t_near t') = idx') by (cbn [t' t_near]; rewrite map_map; apply map_id).
  assert (Dn : nthR (map fst (t_near t')) 0 = mub) by (cbn [t' t_near]; destruct idx'; [discriminate Li|reflexivity]).
  destruct (C105_rectangle_partial Loc query locate argsort angle solve g global 1 1 mub before t' cs lat0 lat1 lon0 lon1 VA) as [ws [idx [q [E [P [C V]]]]]]; try assumption; try lia.
  { rewrite Ei. exact Hcs. }
  { destruct W2 as [->|W2]; [left; reflexivity|right; split; assumption]. }
  { rewrite Dn. lra. }
  exists ws, idx, q. rewrite Ei in P. split; [|split; [exact P|split; [exact C|exact V]]]. rewrite <- E. clear E P C V ws idx q.
  assert (Lc : List.length cs = 4%nat) by (apply mapM_ok_length in Hcs; congruence).
  assert (Body : forall a q0, (0 <= a)%Z -> body query locate argsort angle g global false (t_loc t) (t_lat t) (t_lon t) (mkState idx' a false false q0 None) = Ok (mkState idx' a true true (Some (clockwise argsort cs)) None)).
  { intros a q0 Ha. destruct (clockwise_rectangle argsort cs lat0 lat1 lon0 lon1 ltac:(lra) Hlon HR (VA (map sort_key cs) (eq_trans (map_length _ _) Lc))) as [p1 [p2 [p3 [p4 [Eq [P [X1 [X3 X24]]]]]]]].
    assert (Vx : strictly_convex (xy p1) (xy p2) (xy p3) (xy p4)).
    { unfold strictly_convex, area2. rewrite X1, X3. destruct X24 as [[-> [-> _]]|[-> [-> _]]]; cbn [fst snd]; [right|left]; repeat split; nra. }
    assert (Inq : in_quad (t_lat t, t_lon t) (xy p1) (xy p2) (xy p3) (xy p4) = true).
    { apply in_quad_hull; [exact Vx|]. set (x := (t_lon t - lon0) / (lon1 - lon0)). set (y := (t_lat t - lat0) / (lat1 - lat0)).
      assert (Hx : 0 <= x <= 1). { unfold x. split; [apply Rmult_le_pos; [lra|apply Rlt_le, Rinv_0_lt_compat; lra]|]. apply Rmult_le_reg_r with (lon1 - lon0); [lra|]. unfold Rdiv. rewrite Rmult_assoc, Rinv_l by lra. lra. }
      assert (Hy : 0 <= y <= 1). { unfold y. split; [apply Rmult_le_pos; [lra|apply Rlt_le, Rinv_0_lt_compat; lra]|]. apply Rmult_le_reg_r with (lat1 - lat0); [lra|]. unfold Rdiv. rewrite Rmult_assoc, Rinv_l by lra. lra. }
      assert (Ex : x * (lon1 - lon0) = t_lon t - lon0) by (unfold x; field; lra). assert (Ey : y * (lat1 - lat0) = t_lat t - lat0) by (unfold y; field; lra).
      destruct X24 as [[Y2 [Y4 _]]|[Y2 [Y4 _]]]; [exists (weights4 x y)|exists (weights4 y x)]; (split; [reflexivity|]); (split; [apply weights4_convex; assumption|]); unfold weights4; cbn [combination]; rewrite X1, X3, Y2, Y4; cbn [fst snd]; f_equal; nra. }
    unfold body. cbn [f_idx]. rewrite Hcs. cbn [rbind]. rewrite Out. cbn [f_checks]. unfold parallels_checks.
    rewrite (rect_direction lat0 lat1 lon0 lon1 (t_lat t) (t_lon t) Hla Hlon cs HR), (rect_grid_like lat0 lat1 lon0 lon1 (t_lat t) (t_lon t) Hla Hlon cs HR). cbn [rbind].
    rewrite (rect_best lat0 lat1 lon0 lon1 (t_lat t) (t_lon t) Hla Hlon cs HR). cbn [rbind f_done f_checks f_idx f_add f_quad].
    unfold quad_checks. rewrite Eq. rewrite (proj2 (is_convex_spec _ _ _ _) Vx). cbn [orb]. rewrite Inq. reflexivity. }
  assert (Fin : forall r f a q0, (0 <= a < r)%Z -> (0 < f)%nat -> search query locate argsort angle g global false r f (t_loc t) (t_lat t) (t_lon t) (mkState idx' a false false q0 None) = Some (Ok (mkState idx' a true true (Some (clockwise argsort cs)) None))).
  { intros r f a q0 Ha Hf'. destruct f as [|f]; [lia|]. cbn [search f_ok f_add orb]. destruct (Z.leb_spec r a); [lia|]. rewrite Body by lia. destruct f; reflexivity. }
  unfold bilinear_cell. rewrite Dn. destruct (leb_spec (nthR (map fst (t_near t)) 0) eps) as [N|_]; [unfold eps in N; lra|]. destruct (leb_spec mub eps) as [N|_]; [unfold eps in N; lra|].
  destruct (ltb_spec mub (nthR (map fst (t_near t)) 0)) as [N|_]; [lra|]. destruct (ltb_spec mub mub) as [N|_]; [lra|].
  unfold start. rewrite Ei. cbn [t' t_loc t_lat t_lon]. rewrite (Fin 1%Z 1%nat 0%Z before ltac:(lia) ltac:(lia)).
  pose proof (exchanges_search query locate g (t_loc t) (t_lat t) (t_lon t) argsort angle global k _ _ HX Out (within_not_beyond g _ W1) retries (fuel - k)%nat before Hr) as Q. cbn [fst snd] in Q.
  replace (k + (fuel - k))%nat with fuel in Q by lia. change (Z.of_nat 0) with 0%Z in Q. rewrite Q, (Fin retries (fuel - k)%nat (Z.of_nat n) before ltac:(lia) ltac:(lia)). reflexivity.
Qed.
Print Assumptions C105_exchanges_partial.

(** three points to the south: the farthest is exchanged *)
Definition g5 : source := mkSource [0; 0; 10; 10; -10] [0; 10; 0; 10; 5].
Definition five (_ : unit) (k : nat) : list Z := firstn k [0; 1; 2; 4; 3]%Z.
Lemma g5_point lat lon : 0 <= lon <= 10 -> correct_point 5 lat lon = (lat, lon).
Proof.
  intro H. unfold correct_point, reference, to180. assert (A : Rabs (5 - lon) <= 90) by (unfold Rabs; destruct (Rcase_abs _); lra).
  destruct (Rlt_dec 180 lon); [lra|]. destruct (Rlt_dec 5 (-90)); [lra|]. destruct (Rlt_dec 90 5); [lra|]. destruct (Rlt_dec 90 (Rabs (5 - lon))); [lra|]. reflexivity.
Qed.
Example C105_exchanges_nonvacuous :
  let t := mkTarget tt 5 5 [(1, 0%Z); (1, 1%Z); (1, 2%Z); (1, 4%Z)] in
  exchanges five (fun _ _ => tt) g5 (t_loc t) 5 5 1 (O, map snd (t_near t)) (1%nat, [0; 1; 2; 3]%Z) /\
  mapM (corner_of g5 5) [0; 1; 2; 3]%Z = Ok [mkCorner 0 0 0; mkCorner 0 10 1; mkCorner 10 0 2; mkCorner 10 10 3] /\
  Permutation (map xy [mkCorner 0 0 0; mkCorner 0 10 1; mkCorner 10 0 2; mkCorner 10 10 3]) [(0, 0); (0, 10); (10, 0); (10, 10)] /\
  within (latgrib g5) 5 /\ within (longrib g5) 5.
Proof.
  cbv zeta. cbn [t_loc t_near map snd].
  assert (C : forall i lat lon, py_index (latgrib g5) i = Ok lat -> py_index (longrib g5) i = Ok lon -> 0 <= lon <= 10 -> corner_of g5 5 i = Ok (mkCorner lat lon i)).
  { intros i lat lon H1 H2 H3. unfold corner_of. rewrite H1, H2. cbn [rbind]. rewrite g5_point by exact H3. reflexivity. }
  assert (C0 : corner_of g5 5 0 = Ok (mkCorner 0 0 0)) by (apply C; [reflexivity|reflexivity|lra]). assert (C1 : corner_of g5 5 1 = Ok (mkCorner 0 10 1)) by (apply C; [reflexivity|reflexivity|lra]).
  assert (C2 : corner_of g5 5 2 = Ok (mkCorner 10 0 2)) by (apply C; [reflexivity|reflexivity|lra]). assert (C3 : corner_of g5 5 3 = Ok (mkCorner 10 10 3)) by (apply C; [reflexivity|reflexivity|lra]).
  assert (C4 : corner_of g5 5 4 = Ok (mkCorner (-10) 5 4)) by (apply C; [reflexivity|reflexivity|lra]).
  split.
  - eapply exchanges_more; [|apply exchanges_none].
    apply (exchange_unfit five (fun _ _ => tt) g5 tt 5 5 0 [0; 1; 2; 4]%Z [mkCorner 0 0 0; mkCorner 0 10 1; mkCorner 10 0 2; mkCorner (-10) 5 4] (mkCorner (-10) 5 4) [] 3%Z).
    + cbn [mapM]. rewrite C0, C1, C2, C4. reflexivity.
    + cbn [map]. unfold xy. cbn [clat clon]. repeat (apply NoDup_cons; [cbn [In]; intro Q; repeat (destruct Q as [Q|Q]; [injection Q; intros; lra|]); exact Q|]). apply NoDup_nil.
    + apply (unfit_south 5 5 _ (mkCorner 0 0 0) (mkCorner 0 10 1) (mkCorner (-10) 5 4) (mkCorner 10 0 2)); unfold south, north, far; cbn [clat clon]; try lra.
      * apply perm_skip, perm_skip, perm_swap.
      * unfold Rabs. repeat destruct (Rcase_abs _); lra.
      * unfold Rabs. repeat destruct (Rcase_abs _); lra.
    + reflexivity.
  - split; [cbn [mapM]; rewrite C0, C1, C2, C3; reflexivity|]. split; [reflexivity|]. split; (split; [exists 0|exists 10]; split; cbn; try tauto; lra).
Qed.
