(** * Properties C80-C83: target coordinates, missing values of maps, missing
    cells of the output and the coordinates of netCDF output.
    Vocabulary: Spec_Target.v. *)
From Verif Require Import Base Num PyStr Strings Writers Interp Target Spec_Target Base_P Num_P PyStr_P Writers_P Writers_P2.
From Verif Require Import Spec_Writers Interp_P3.
Local Open Scope string_scope.

(** ** Lemmas *)
Lemma cell_repeat_row (xs : list num) n i j x : (i < n)%nat -> nth_error xs j = Some x -> cell (repeat xs n) i j x.
Proof. intros Hi Hx. exists xs. split; [now apply nth_error_repeat|exact Hx]. Qed.
Lemma cell_repeat_col (ys : list num) m i j y : (j < m)%nat -> nth_error ys i = Some y -> cell (map (fun x => repeat x m) ys) i j y.
Proof. intros Hj Hy. exists (repeat y m). split; [now rewrite (map_nth_error _ _ _ Hy)|now apply nth_error_repeat]. Qed.

Lemma nfind_spec f v : NoDup (map v_name f) -> In v f -> nfind f (v_name v) = Ok v.
Proof.
  unfold nfind. induction f as [|w f IH]; cbn [map List.find In]; [intros _ []|]. intros Hn Hin. inversion Hn as [|? ? H1 H2]; subst.
  destruct Hin as [->|Hin]; [now rewrite String.eqb_refl|].
  destruct (String.eqb_spec (v_name w) (v_name v)) as [E|E].
  - exfalso. apply H1. rewrite E. now apply in_map.
  - now apply IH.
Qed.
Lemma nmem_spec f k : nmem f k = true <-> In k (map v_name f).
Proof.
  unfold nmem. rewrite existsb_exists, in_map_iff. split; intros [v [H1 H2]]; exists v.
  - apply String.eqb_eq in H2. auto.
  - split; [easy|]. now apply String.eqb_eq.
Qed.
Lemma main_var_only f v : NoDup (map v_name f) -> only_variable f v -> find_main_var f = Ok v.
Proof.
  intros Hn [Hin [Hd Hu]]. unfold find_main_var.
  assert (E : filter (fun v => Nat.leb 2 (List.length (v_dims v))) f = [v]); [|now rewrite E].
  induction f as [|w f IH]; [destruct Hin|]. cbn [filter]. cbn [map] in Hn. inversion Hn as [|? ? H1 H2]; subst.
  destruct (Nat.leb_spec 2 (List.length (v_dims w))) as [Hw|Hw].
  - assert (w = v) by (apply Hu; [now left|exact Hw]). subst w. f_equal.
    clear IH Hn H2 Hin. assert (G : forall u, In u f -> ~ (2 <= List.length (v_dims u))%nat).
    { intros u Hin Hc. assert (u = v) by (apply Hu; [now right|exact Hc]). subst u. apply H1. now apply in_map. }
    clear Hu H1. induction f as [|u f IH]; [reflexivity|]. cbn [filter]. destruct (Nat.leb_spec 2 (List.length (v_dims u))) as [Hc|_].
    + exfalso. apply (G u); [now left|exact Hc].
    + apply IH. intros u' Hu'. apply G. now right.
  - apply IH; [exact H2| |].
    + destruct Hin as [->|Hin]; [lia|exact Hin].
    + intros u Hi Hc. apply Hu; [now right|exact Hc].
Qed.
Lemma coordinate_ok v : (2 <= List.length (v_data v))%nat -> coordinate v = Ok (v_data v).
Proof. unfold coordinate. destruct (v_data v) as [|a [|b l]]; cbn; intro H; try lia. reflexivity. Qed.

Lemma nc_reader_ok f dy dx ys xs v a b n1 n2 : regular_file f dy dx ys xs -> only_variable f v -> v_dims v = [(a, n1); (b, n2)] ->
  nc_reader f = Ok (mkNreader v n1 n2 ys xs (map_mv v)).
Proof.
  intros [Hn [Hc [Hx [[vy [Iy [Ny [Dy Ey]]]] [[vx [Ix [Nx [Dx Ex]]]] [Ly Lx]]]]]] Hv Hd. unfold nc_reader.
  rewrite (main_var_only f v Hn Hv). cbn [rbind]. rewrite Hd. cbn [rbind fst snd].
  assert (Fy : nfind f dy = Ok vy) by (rewrite <- Ny; now apply nfind_spec).
  assert (Fx : nfind f dx = Ok vx) by (rewrite <- Nx; now apply nfind_spec).
  assert (Ek : (if nmem f "lon" then ("lat", "lon") else ("y", "x")) = (dy, dx)).
  { destruct Hc as [[-> ->]|[-> ->]].
    - assert (E : nmem f "lon" = true) by (apply nmem_spec; rewrite <- Nx; now apply in_map). now rewrite E.
    - destruct (nmem f "lon") eqn:E; [|reflexivity]. apply nmem_spec in E. destruct (Hx eq_refl E). }
  rewrite Ek. rewrite Fx. cbn [rbind]. rewrite coordinate_ok by (rewrite Ex; exact Lx). cbn [rbind]. rewrite Fy. cbn [rbind].
  rewrite coordinate_ok by (rewrite Ey; exact Ly). cbn [rbind]. now rewrite Ex, Ey.
Qed.

(** ** C80: target coordinates *)
(** full statement: for a netCDF target with a variable over latitudes and
    longitudes, in either order of the dimensions, the cell of the variable at
    latitude i and longitude j has the i-th latitude and the j-th longitude *)
Definition C80_full : Prop := forall k p f v dy dx ys xs,
  k p = Some (FNc f) -> ends_nc p = true -> regular_file f dy dx ys xs -> In v f ->
  over_lat_lon v dy dx ys xs \/ over_lon_lat v dy dx ys xs ->
  exists t, latlong k p p = Ok t /\
    forall i j y x, nth_error ys i = Some y -> nth_error xs j = Some x ->
      (over_lat_lon v dy dx ys xs -> cell (t_lats t) i j y /\ cell (t_lons t) i j x) /\
      (over_lon_lat v dy dx ys xs -> cell (t_lats t) j i y /\ cell (t_lons t) j i x).

Definition coord (d : string) (xs : list num) : nvar := mkNvar d [(d, List.length xs)] VF8 None None xs.
Definition ex_lat := [nint 20; nint 10].
Definition ex_lon := [nint 1; nint 2].
Definition ex_field (dims : list (string * nat)) : nvar :=
  mkNvar "dem" dims VF8 None (Some (nint (-9999))) [nint 5; nint 6; nint 7; nint (-9999)].
Definition ex_nc (dims : list (string * nat)) (more : nfile) : nfile := (coord "lat" ex_lat :: coord "lon" ex_lon :: ex_field dims :: more)%list.
Definition one_file (p : string) (x : mapfile) : disk := fun q => if String.eqb q p then Some x else None.

Lemma ex_regular dims more : regular_file (ex_nc dims more) "lat" "lon" ex_lat ex_lon <-> NoDup (map v_name (ex_nc dims more)).
Proof.
  split; [intros [H _]; exact H|]. intro H. split; [exact H|]. split; [now left|]. split; [discriminate|].
  split; [exists (coord "lat" ex_lat); repeat split; now left|]. split; [exists (coord "lon" ex_lon); repeat split; right; now left|]. cbn. lia.
Qed.
Ltac nodup := repeat (constructor; [cbn; intuition discriminate|]); constructor.

(** a square variable over (lon, lat): read as if it were over (lat, lon), the
    field is transposed without notice *)
Theorem C80_transposed_refuted : ~ C80_full.
Proof.
  intro H. specialize (H (one_file "a.nc" (FNc (ex_nc [("lon", 2%nat); ("lat", 2%nat)] []))) "a.nc" _ (ex_field [("lon", 2%nat); ("lat", 2%nat)])
    "lat" "lon" ex_lat ex_lon eq_refl eq_refl).
  destruct H as [t [Ht Hc]]; [apply ex_regular; nodup|right; right; left; reflexivity|right; reflexivity|].
  destruct (Hc 0%nat 1%nat _ _ eq_refl eq_refl) as [_ G]. destruct (G eq_refl) as [[r [R1 R2]] _].
  vm_compute in Ht. injection Ht as <-. cbn [t_lats nth_error] in R1. injection R1 as <-. cbn [nth_error] in R2. discriminate.
Qed.
Print Assumptions C80_transposed_refuted.
(** a second variable (the bounds of the latitudes, say) or a time dimension:
    the target cannot be read *)
Theorem C80_two_variables_refuted :
  let bounds := mkNvar "lat_bnds" [("lat", 2%nat); ("nv", 2%nat)] VF8 None None [nint 25; nint 15; nint 15; nint 5] in
  ~ (forall k p f v dy dx ys xs, k p = Some (FNc f) -> ends_nc p = true -> regular_file f dy dx ys xs -> In v f ->
     over_lat_lon v dy dx ys xs -> exists t, latlong k p p = Ok t) /\
  latlong (one_file "a.nc" (FNc (ex_nc [("lat", 2%nat); ("lon", 2%nat)] [bounds]))) "a.nc" "a.nc" = Raise OtherError /\
  latlong (one_file "a.nc" (FNc (ex_nc [("time", 1%nat); ("lat", 2%nat); ("lon", 2%nat)] []))) "a.nc" "a.nc" = Raise ValueError.
Proof.
  intro bounds. split; [|split; reflexivity]. intro H.
  destruct (H (one_file "a.nc" (FNc (ex_nc [("lat", 2%nat); ("lon", 2%nat)] [bounds]))) "a.nc" _ (ex_field [("lat", 2%nat); ("lon", 2%nat)])
    "lat" "lon" ex_lat ex_lon eq_refl eq_refl) as [t Ht]; [apply ex_regular; nodup|right; right; left; reflexivity|reflexivity|].
  vm_compute in Ht. discriminate.
Qed.
Print Assumptions C80_two_variables_refuted.

(** Proved part: the only variable of the file, over (latitude, longitude) *)
Theorem C80_netcdf : forall k p f v dy dx ys xs,
  k p = Some (FNc f) -> ends_nc p = true -> regular_file f dy dx ys xs -> only_variable f v -> over_lat_lon v dy dx ys xs ->
  exists t, latlong k p p = Ok t /\ List.length (t_lats t) = List.length ys /\ List.length (t_lons t) = List.length ys /\
    (forall r, In r (t_lats t) \/ In r (t_lons t) -> List.length r = List.length xs) /\
    (forall i j y x, nth_error ys i = Some y -> nth_error xs j = Some x -> cell (t_lats t) i j y /\ cell (t_lons t) i j x) /\
    t_mv t = f8_fill.
Proof.
  intros k p f v dy dx ys xs Hk Hp Hr Hv Hd. unfold latlong. rewrite Hp, String.eqb_refl. cbn [negb].
  unfold open_nc. rewrite Hk, (nc_reader_ok _ _ _ _ _ _ _ _ _ _ Hr Hv Hd). cbn [rbind]. unfold lat_lon_values, bcast.
  cbn [nr_lat nr_lon nr_rows nr_cols]. rewrite !Nat.eqb_refl. cbn [rbind fst snd]. rewrite !firstn_all.
  eexists. split; [reflexivity|]. cbn [t_lats t_lons t_mv]. rewrite map_length, repeat_length. repeat split.
  - intros r [H|H]; [apply in_map_iff in H as [y [<- _]]; now rewrite repeat_length|apply repeat_spec in H; now subst r].
  - apply cell_repeat_col; [|assumption]. apply nth_error_Some. congruence.
  - apply cell_repeat_row; [|assumption]. apply nth_error_Some. congruence.
Qed.
Print Assumptions C80_netcdf.
(** PCRaster targets: the cells of the two maps as they are *)
Theorem C80_pcraster : forall k lat lon a b, ends_nc lat = false -> k lat = Some (FPcr a) -> k lon = Some (FPcr b) ->
  exists t, latlong k lat lon = Ok t /\ t_mv t = p_mv a /\
    forall i j x, (cell (t_lats t) i j x <-> cell (p_cells a) i j x) /\ (cell (t_lons t) i j x <-> cell (p_cells b) i j x).
Proof.
  intros k lat lon a b Hn Ha Hb. unfold latlong, open_pcr. rewrite Hn, Ha, Hb. cbn [rbind]. eexists. split; [reflexivity|].
  cbn [t_mv t_lats t_lons]. split; [reflexivity|]. intros; split; reflexivity.
Qed.
Print Assumptions C80_pcraster.
(** two different netCDF files: refused *)
Theorem C80_two_files : forall k lat lon, ends_nc lat = true -> lat <> lon -> latlong k lat lon = Raise (AppExc 8400).
Proof. intros k lat lon H Hne. unfold latlong. rewrite H. destruct (String.eqb_spec lat lon); [contradiction|reflexivity]. Qed.
Print Assumptions C80_two_files.
Example C80_nonvacuous :
  let f := ex_nc [("lat", 2%nat); ("lon", 2%nat)] [] in
  regular_file f "lat" "lon" ex_lat ex_lon /\ only_variable f (ex_field [("lat", 2%nat); ("lon", 2%nat)]) /\
  over_lat_lon (ex_field [("lat", 2%nat); ("lon", 2%nat)]) "lat" "lon" ex_lat ex_lon /\
  latlong (one_file "a.nc" (FNc f)) "a.nc" "a.nc" = Ok (mkTarget [[nint 20; nint 20]; [nint 10; nint 10]] [[nint 1; nint 2]; [nint 1; nint 2]] f8_fill).
Proof.
  cbv zeta. split; [apply ex_regular; nodup|]. split; [|split; reflexivity].
  split; [right; right; now left|]. split; [cbn; lia|]. intros w [<-|[<-|[<-|[]]]]; cbn; intro; try lia. reflexivity.
Qed.

(** ** C81: missing values of maps *)
Lemma rows_of_cell c r d i j x : cell (rows_of c r d) i j x <-> (i < r)%nat /\ (j < c)%nat /\ nth_error d (i * c + j) = Some x.
Proof.
  revert d i. induction r as [|r IH]; intros d i.
  - split; [intros [row [H _]]; destruct i; discriminate|lia].
  - cbn [rows_of]. destruct i as [|i].
    + split.
      * intros [row [H1 H2]]. cbn in H1. injection H1 as <-. cbn [Nat.mul Nat.add].
        assert (Hj : (j < c)%nat) by (apply Nat.lt_le_trans with (List.length (firstn c d)); [apply nth_error_Some; congruence|apply firstn_le_length]).
        split; [lia|]. split; [exact Hj|]. rewrite <- (firstn_skipn c d). rewrite nth_error_app1; [exact H2|]. apply nth_error_Some. congruence.
      * intros [_ [Hj H]]. exists (firstn c d). split; [reflexivity|]. cbn [Nat.mul Nat.add] in H.
        rewrite <- (firstn_skipn c d) in H. rewrite nth_error_app1 in H; [exact H|]. rewrite firstn_length. apply Nat.min_glb_lt; [exact Hj|].
        assert (Hl : nth_error (firstn c d ++ skipn c d) j <> None) by congruence. apply nth_error_Some in Hl. now rewrite firstn_skipn in Hl.
    + assert (E : cell (firstn c d :: rows_of c r (skipn c d)) (S i) j x <-> cell (rows_of c r (skipn c d)) i j x) by reflexivity.
      rewrite E, IH. clear E. assert (E : nth_error (skipn c d) (i * c + j) = nth_error d (S i * c + j)).
      { cbn [Nat.mul]. rewrite <- Nat.add_assoc. generalize (i * c + j)%nat. clear. revert d. induction c as [|c IHc]; intros d n; [reflexivity|].
        destruct d as [|y d]; [destruct n; reflexivity|]. cbn [skipn Nat.add nth_error]. apply IHc. }
      rewrite E. intuition lia.
Qed.

(** full statement: the cells of a netCDF map (DEM, clone) that are missing in
    the file are recognised by the missing value reported with the map *)
Definition C81_full : Prop := forall k p f v dy dx ys xs m mv,
  k p = Some (FNc f) -> ends_nc p = true -> regular_file f dy dx ys xs -> only_variable f v -> over_lat_lon v dy dx ys xs ->
  read_map k p = Ok (m, mv) ->
  forall i j x, cell m i j x -> missing_cell v x -> recognised mv x.
(** missing_value and _FillValue differ: cells with the second are taken for
    altitudes *)
Definition ex_dem (mv fill : option num) (d : list num) : nfile :=
  [coord "lat" ex_lat; coord "lon" ex_lon; mkNvar "dem" [("lat", 2%nat); ("lon", 2%nat)] VF4 mv fill d].
Lemma ex_dem_ok mv fill d : regular_file (ex_dem mv fill d) "lat" "lon" ex_lat ex_lon /\
  only_variable (ex_dem mv fill d) (mkNvar "dem" [("lat", 2%nat); ("lon", 2%nat)] VF4 mv fill d).
Proof.
  split.
  - split; [cbn; nodup|]. split; [now left|]. split; [discriminate|].
    split; [exists (coord "lat" ex_lat); repeat split; now left|]. split; [exists (coord "lon" ex_lon); repeat split; right; now left|]. cbn. lia.
  - split; [right; right; now left|]. split; [cbn; lia|]. intros w [<-|[<-|[<-|[]]]]; cbn; intro; try lia. reflexivity.
Qed.
Theorem C81_two_attributes_refuted : ~ C81_full.
Proof.
  intro H. destruct (ex_dem_ok (Some (nint (-9999))) (Some (nint (-1))) [nint 5; nint 6; nint 7; nint (-1)]) as [R O].
  specialize (H (one_file "a.nc" (FNc (ex_dem (Some (nint (-9999))) (Some (nint (-1))) [nint 5; nint 6; nint 7; nint (-1)]))) "a.nc" _ _ _ _ _ _ _ _
    eq_refl eq_refl R O eq_refl eq_refl 1%nat 1%nat (nint (-1))).
  destruct H as [H|H]; [exists [nint 7; nint (-1)]; split; reflexivity|right; left; reflexivity| |]; [vm_compute in H|]; discriminate.
Qed.
Print Assumptions C81_two_attributes_refuted.
(** a float variable without the attributes: cells never written hold the
    default fill value 9.97e36 and count as altitudes *)
Theorem C81_default_fill_refuted : ~ (forall v, v_mv v = None -> forall x, missing_cell v x -> recognised (map_mv v) x).
Proof.
  intro H. specialize (H (mkNvar "dem" [] VF4 None None []) eq_refl f8_fill). destruct H as [H|H]; [right; right; split; reflexivity| |]; [vm_compute in H|]; discriminate.
Qed.
Print Assumptions C81_default_fill_refuted.
(** Proved part: a variable with _FillValue, and either no missing_value or the
    same; or an integer variable with neither *)
Definition consistent (v : nvar) : Prop :=
  (exists x, v_fill v = Some x /\ (v_mv v = None \/ v_mv v = Some x)) \/
  (v_fill v = None /\ v_mv v = None /\ is_int_fmt (v_fmt v) = true).
Lemma neqb_refl x : x <> NaN -> neqb x x = true.
Proof. destruct x; cbn; try congruence. intros _. apply Qc_eqb_refl. Qed.
Lemma neqb_eq x y : neqb x y = true -> x = y.
Proof. destruct x, y; cbn; try congruence. intro H. apply Qc_eqb_spec in H. now subst. Qed.
Theorem C81_partial : forall k p f v dy dx ys xs,
  k p = Some (FNc f) -> ends_nc p = true -> regular_file f dy dx ys xs -> only_variable f v -> over_lat_lon v dy dx ys xs -> consistent v ->
  exists m mv, read_map k p = Ok (m, mv) /\
    (forall i j x, cell m i j x <-> (i < List.length ys)%nat /\ (j < List.length xs)%nat /\ nth_error (v_data v) (i * List.length xs + j) = Some x) /\
    forall x, x <> NaN -> (recognised mv x <-> missing_cell v x).
Proof.
  intros k p f v dy dx ys xs Hk Hp Hr Hv Hd Hc. unfold read_map. rewrite Hp. unfold open_nc.
  rewrite Hk, (nc_reader_ok _ _ _ _ _ _ _ _ _ _ Hr Hv Hd). cbn [rbind]. eexists _, _. split; [reflexivity|].
  unfold nr_values. cbn [nr_cols nr_rows nr_var nr_mv]. split; [intros; apply rows_of_cell|].
  intros x Hx. unfold recognised, missing_cell, map_mv. destruct Hc as [[a [Ef Em]]|[Ef [Em Ei]]].
  - assert (E : match v_mv v with Some x => x | None => match v_fill v with Some x => x | None => if is_int_fmt (v_fmt v) then Fin (fillval (v_fmt v)) else NaN end end = a)
      by (destruct Em as [-> | ->]; [now rewrite Ef|reflexivity]). rewrite E, Ef. clear E. split.
    + intros [H|H]; [|contradiction]. apply neqb_eq in H. subst a. right. now left.
    + intros [H|[H|[H _]]]; [| |discriminate].
      * destruct Em as [Em|Em]; [congruence|]. assert (x = a) by congruence. subst a. left. now apply neqb_refl.
      * assert (x = a) by congruence. subst a. left. now apply neqb_refl.
  - rewrite Em, Ef, Ei. split.
    + intros [H|H]; [|contradiction]. apply neqb_eq in H. right. right. auto.
    + intros [H|[H|[_ H]]]; [discriminate|discriminate|]. subst x. left. apply neqb_refl. discriminate.
Qed.
Print Assumptions C81_partial.
(** PCRaster maps: the cells of the map and its no-data value *)
Theorem C81_pcraster : forall k p m, ends_nc p = false -> k p = Some (FPcr m) -> read_map k p = Ok (p_cells m, p_mv m).
Proof. intros k p m Hp Hk. unfold read_map, open_pcr. now rewrite Hp, Hk. Qed.
Print Assumptions C81_pcraster.
Example C81_nonvacuous :
  let v := ex_dem (Some (nint (-9999))) (Some (nint (-9999))) [nint 5; nint 6; nint 7; nint (-9999)] in
  consistent (mkNvar "dem" [("lat", 2%nat); ("lon", 2%nat)] VF4 (Some (nint (-9999))) (Some (nint (-9999))) [nint 5; nint 6; nint 7; nint (-9999)]) /\
  read_map (one_file "a.nc" (FNc v)) "a.nc" = Ok ([[nint 5; nint 6]; [nint 7; nint (-9999)]], nint (-9999)).
Proof. split; [left; eexists; split; [reflexivity|now right]|reflexivity]. Qed.

(** ** C82: target cells without source value *)
(** Interpolation with one neighbour: a cell whose index is one past the end of
    the field has no source value. Full statement: it is missing in the map
    written (PCRaster) and in the array returned by the API. *)
Definition C82_full : Prop := forall k lat lon clone t c mvc isfloat v ks cells out i,
  latlong k lat lon = Ok t -> read_map k clone = Ok (c, mvc) ->
  apply_single v (t_mv t) ks = Ok cells -> List.length ks = List.length (List.concat c) ->
  pcr_write (clone_mask isfloat (List.concat c) mvc) mvc (Nd cells) = Ok out ->
  nth_error ks i = Some (Z.of_nat (List.length (adata v))) -> nth_error out i = Some mvc.
(** a netCDF target: the cell holds 9.97e36 and not the no-data value of the clone *)
Definition pcr_mv : num := nint (-340282346638528860000000000000000000000).
Definition ex_disk : disk := fun p =>
  if String.eqb p "a.nc" then Some (FNc (ex_nc [("lat", 2%nat); ("lon", 2%nat)] []))
  else if String.eqb p "lat.map" then Some (FPcr (mkPmap [[nint 20; nint 20]; [nint 10; pcr_mv]] pcr_mv))
  else if String.eqb p "lon.map" then Some (FPcr (mkPmap [[nint 1; nint 2]; [nint 1; pcr_mv]] pcr_mv))
  else if String.eqb p "clone.map" then Some (FPcr (mkPmap [[nint 1; nint 1]; [nint 1; pcr_mv]] pcr_mv))
  else if String.eqb p "byte.map" then Some (FPcr (mkPmap [[nint 1; nint 1]; [nint 1; nint 255]] (nint 255)))
  else None.
Lemma num_dec (a b : num) : num_same a b = false -> a <> b.
Proof. intros H E. subst b. assert (num_same a a = true) by now apply num_same_spec. congruence. Qed.
Theorem C82_netcdf_target_refuted : ~ C82_full.
Proof.
  intro H.
  destruct (pcr_write (clone_mask true (List.concat [[nint 1; nint 1]; [nint 1; pcr_mv]]) pcr_mv) pcr_mv (Nd [nint 5; f8_fill; nint 6; nint 5])) as [out|] eqn:E;
    [|vm_compute in E; discriminate].
  specialize (H ex_disk "a.nc" "a.nc" "clone.map" _ _ _ true (Nd [nint 5; nint 6]) [0%Z; 2%Z; 1%Z; 0%Z] _ out 1%nat eq_refl eq_refl eq_refl eq_refl E eq_refl).
  assert (Hb : match pcr_write (clone_mask true (List.concat [[nint 1; nint 1]; [nint 1; pcr_mv]]) pcr_mv) pcr_mv (Nd [nint 5; f8_fill; nint 6; nint 5]) with
    | Ok o => match nth_error o 1 with Some x => num_same x pcr_mv | None => true end | _ => true end = false) by (vm_compute; reflexivity).
  rewrite E, H in Hb. apply num_dec in Hb. now apply Hb.
Qed.
Print Assumptions C82_netcdf_target_refuted.
(** PCRaster coordinates whose no-data value is not that of the clone *)
Theorem C82_other_type_refuted : ~ (forall k lat lon clone t c mvc isfloat v ks cells out i,
  ends_nc lat = false -> latlong k lat lon = Ok t -> read_map k clone = Ok (c, mvc) ->
  apply_single v (t_mv t) ks = Ok cells -> List.length ks = List.length (List.concat c) ->
  pcr_write (clone_mask isfloat (List.concat c) mvc) mvc (Nd cells) = Ok out ->
  nth_error ks i = Some (Z.of_nat (List.length (adata v))) -> nth_error out i = Some mvc).
Proof.
  intro H.
  destruct (pcr_write (clone_mask false (List.concat [[nint 1; nint 1]; [nint 1; nint 255]]) (nint 255)) (nint 255) (Nd [nint 5; pcr_mv; nint 6; nint 5])) as [out|] eqn:E;
    [|vm_compute in E; discriminate].
  specialize (H ex_disk "lat.map" "lon.map" "byte.map" _ _ _ false (Nd [nint 5; nint 6]) [0%Z; 2%Z; 1%Z; 0%Z] _ out 1%nat eq_refl eq_refl eq_refl eq_refl eq_refl E eq_refl).
  assert (Hb : match pcr_write (clone_mask false (List.concat [[nint 1; nint 1]; [nint 1; nint 255]]) (nint 255)) (nint 255) (Nd [nint 5; pcr_mv; nint 6; nint 5]) with
    | Ok o => match nth_error o 1 with Some x => num_same x (nint 255) | None => true end | _ => true end = false) by (vm_compute; reflexivity).
  rewrite E, H in Hb. apply num_dec in Hb. now apply Hb.
Qed.
Print Assumptions C82_other_type_refuted.

Lemma apply_single_past v mv ks cells i : apply_single v mv ks = Ok cells ->
  nth_error ks i = Some (Z.of_nat (List.length (adata v))) -> nth_error cells i = Some mv.
Proof.
  unfold apply_single. revert cells i. induction ks as [|z ks IH]; intros cells i H Hi; [destruct i; discriminate|].
  cbn [mapM] in H. apply rbind_ok in H as [y [Hy H]]. apply rbind_ok in H as [ys [Hys H]]. injection H as <-.
  destruct i as [|i]; cbn [nth_error] in *; [|now apply IH].
  injection Hi as ->. rewrite py_index_nat in Hy. unfold append_mv in Hy. rewrite nth_error_app2 in Hy by lia. rewrite Nat.sub_diag in Hy. cbn in Hy. congruence.
Qed.

(** Proved part: coordinates with the no-data value of the clone, or a cell that
    is missing in the clone; the same for arrays returned by the API *)
Theorem C82_pcraster_partial : forall k lat lon clone t c mvc isfloat v ks cells i x,
  latlong k lat lon = Ok t -> read_map k clone = Ok (c, mvc) ->
  apply_single v (t_mv t) ks = Ok cells -> List.length cells = List.length (List.concat c) ->
  nth_error ks i = Some (Z.of_nat (List.length (adata v))) -> nth_error (List.concat c) i = Some x ->
  t_mv t = mvc \/ clone_missing isfloat x mvc = true ->
  (exists out, pcr_write (clone_mask isfloat (List.concat c) mvc) mvc (Nd cells) = Ok out /\ nth_error out i = Some mvc) /\
  (exists out, pcr_mask_values (clone_mask isfloat (List.concat c) mvc) mvc (Nd cells) = Ok out /\ nth_error out i = Some mvc).
Proof.
  intros k lat lon clone t c mvc isfloat v ks cells i x Ht Hc Ha Hl Hi Hx Hor.
  pose proof (apply_single_past _ _ _ _ _ Ha Hi) as Hcell.
  destruct (pcr_write_spec isfloat (List.concat c) mvc (Nd cells) I Hl) as [out [Ho [_ Hs]]].
  destruct (api_mask_spec isfloat (List.concat c) mvc (Nd cells) I Hl) as [out2 [Ho2 [_ Hs2]]].
  specialize (Hs i x (t_mv t) Hx Hcell). specialize (Hs2 i x (t_mv t) Hx Hcell).
  split; [exists out|exists out2]; (split; [assumption|]).
  - rewrite Hs. destruct Hor as [-> | ->]; [match goal with |- context[if ?b then _ else _] => destruct b end; reflexivity|]. rewrite Bool.orb_true_r. reflexivity.
  - rewrite Hs2. destruct Hor as [-> | ->]; [match goal with |- context[if ?b then _ else _] => destruct b end; reflexivity|]. rewrite Bool.orb_true_r. reflexivity.
Qed.
Print Assumptions C82_pcraster_partial.
(** netCDF output: missing, whatever the target and the clone (one that has a
    missing cell: C38) *)
Theorem C82_netcdf_partial : forall k lat lon clone t c mvc isfloat v ks cells i x f vf s o vmin vmax,
  s <> 0%Qc -> vfmt_of (match vf with Some x => x | None => "f8" end) = Some f ->
  (exists c', In c' (List.concat c) /\ clone_missing isfloat c' mvc = true) ->
  latlong k lat lon = Ok t -> read_map k clone = Ok (c, mvc) -> t_mv t <> NaN ->
  apply_single v (t_mv t) ks = Ok cells -> List.length cells = List.length (List.concat c) ->
  nth_error ks i = Some (Z.of_nat (List.length (adata v))) -> nth_error (List.concat c) i = Some x ->
  exists w row p, nc_write_fields (clone_mask isfloat (List.concat c) mvc) (t_mv t) vf s o vmin vmax [Nd cells] = Ok w /\
    nth_error (nv_cells w) 0 = Some row /\ nth_error row i = Some p /\ nc_read_cell w p = None.
Proof.
  intros k lat lon clone t c mvc isfloat v ks cells i x f vf s o vmin vmax Hs Hf Hm Ht Hc Hnan Ha Hl Hi Hx.
  pose proof (apply_single_past _ _ _ _ _ Ha Hi) as Hcell.
  destruct (nc_fields_spec isfloat (List.concat c) mvc (t_mv t) vf s o vmin vmax [Nd cells] f Hs Hf Hm) as [w [Hw [_ Hspec]]].
  { discriminate. }
  { constructor; [|constructor]. split; [reflexivity|exact Hl]. }
  destruct (Hspec 0%nat (Nd cells) i (t_mv t) x eq_refl Hcell Hx) as [row [p [H1 [H2 [_ [H3 _]]]]]].
  exists w, row, p. split; [exact Hw|]. split; [exact H1|]. split; [exact H2|]. apply H3. rewrite (neqb_refl _ Hnan).
  rewrite Bool.orb_true_r. reflexivity.
Qed.
Print Assumptions C82_netcdf_partial.
Example C82_nonvacuous :
  exists t c out, latlong ex_disk "lat.map" "lon.map" = Ok t /\ read_map ex_disk "clone.map" = Ok (c, pcr_mv) /\ t_mv t = pcr_mv /\
    apply_single (Nd [nint 5; nint 6]) (t_mv t) [0%Z; 2%Z; 1%Z; 0%Z] = Ok [nint 5; pcr_mv; nint 6; nint 5] /\
    pcr_write (clone_mask true (List.concat c) pcr_mv) pcr_mv (Nd [nint 5; pcr_mv; nint 6; nint 5]) = Ok out /\ 
    forallb (fun p => num_same (fst p) (snd p)) (combine out [nint 5; pcr_mv; nint 6; pcr_mv]) = true.
Proof.
  eexists _, _, _. split; [reflexivity|]. split; [reflexivity|]. split; [reflexivity|]. split; [reflexivity|].
  split; [vm_compute; reflexivity|]. vm_compute. reflexivity.
Qed.

(** ** C83: coordinates of a netCDF output *)
(** full statement: cell (i, j) of the output is labelled with the coordinates
    the target has there *)
Definition C83_full : Prop := forall k lat lon clone t lats lons,
  latlong k lat lon = Ok t -> output_coords k lat lon clone = Ok (lats, lons) ->
  forall i j y x, cell (t_lats t) i j y -> cell (t_lons t) i j x -> y <> t_mv t -> x <> t_mv t ->
    nth_error lats i = Some y /\ nth_error lons j = Some x.
(** a target whose rows are not parallels (a projected map, a rotated grid) *)
Definition ex_rotated : disk := fun p =>
  if String.eqb p "lat.map" then Some (FPcr (mkPmap [[nint 20; nint 21]; [nint 10; nint 11]] pcr_mv))
  else if String.eqb p "lon.map" then Some (FPcr (mkPmap [[nint 1; nint 2]; [nint 1; nint 2]] pcr_mv))
  else if String.eqb p "clone.map" then Some (FPcr (mkPmap [[nint 1; nint 1]; [nint 1; pcr_mv]] pcr_mv))
  else None.
Theorem C83_rotated_refuted : ~ C83_full.
Proof.
  intro H. specialize (H ex_rotated "lat.map" "lon.map" "clone.map" _ [nint 20; nint 10] [nint 1; nint 2] eq_refl).
  assert (E : output_coords ex_rotated "lat.map" "lon.map" "clone.map" = Ok ([nint 20; nint 10], [nint 1; nint 2])) by (vm_compute; reflexivity).
  destruct (H E 0%nat 1%nat (nint 21) (nint 2)) as [H1 _].
  - eexists. split; reflexivity.
  - eexists. split; reflexivity.
  - apply num_dec. vm_compute. reflexivity.
  - apply num_dec. vm_compute. reflexivity.
  - cbn [nth_error] in H1. assert (H2 : nint 20 = nint 21) by congruence. revert H2. apply num_dec. vm_compute. reflexivity.
Qed.
Print Assumptions C83_rotated_refuted.
(** a missing coordinate in the first column: the whole row has no latitude *)
Definition ex_corner : disk := fun p =>
  if String.eqb p "lat.map" then Some (FPcr (mkPmap [[pcr_mv; nint 20]; [nint 10; nint 10]] pcr_mv))
  else if String.eqb p "lon.map" then Some (FPcr (mkPmap [[pcr_mv; nint 2]; [nint 1; nint 2]] pcr_mv))
  else if String.eqb p "clone.map" then Some (FPcr (mkPmap [[pcr_mv; nint 1]; [nint 1; nint 1]] pcr_mv))
  else None.
Lemma cell22 a b c d i j y : cell [[a; b]; [c; d]] i j y ->
  (i = 0%nat /\ j = 0%nat /\ y = a) \/ (i = 0%nat /\ j = 1%nat /\ y = b) \/ (i = 1%nat /\ j = 0%nat /\ y = c) \/ (i = 1%nat /\ j = 1%nat /\ y = d).
Proof.
  intros [r [H1 H2]]. destruct i as [|[|[|i]]]; cbn [nth_error] in H1; try discriminate; assert (E := f_equal (fun o => match o with Some x => x | None => r end) H1);
    cbn beta iota in E; subst r; destruct j as [|[|[|j]]]; cbn [nth_error] in H2; try discriminate; assert (E := f_equal (fun o => match o with Some x => x | None => y end) H2);
    cbn beta iota in E; auto 10.
Qed.
Theorem C83_missing_corner_refuted : ~ (forall k lat lon clone t lats lons ys xs,
  latlong k lat lon = Ok t -> output_coords k lat lon clone = Ok (lats, lons) ->
  (forall i j y, cell (t_lats t) i j y -> y = t_mv t \/ nth_error ys i = Some y) ->
  (forall i j x, cell (t_lons t) i j x -> x = t_mv t \/ nth_error xs j = Some x) -> lats = ys /\ lons = xs).
Proof.
  intro H. specialize (H ex_corner "lat.map" "lon.map" "clone.map" _ [NaN; nint 10] [NaN; nint 2] [nint 20; nint 10] [nint 1; nint 2] eq_refl).
  assert (E : output_coords ex_corner "lat.map" "lon.map" "clone.map" = Ok ([NaN; nint 10], [NaN; nint 2])) by (vm_compute; reflexivity).
  destruct (H E) as [H1 _]; [| |discriminate].
  - intros i j y Hc. apply cell22 in Hc as [[-> [-> ->]]|[[-> [-> ->]]|[[-> [-> ->]]|[-> [-> ->]]]]]; (left; reflexivity) || (right; reflexivity).
  - intros i j y Hc. apply cell22 in Hc as [[-> [-> ->]]|[[-> [-> ->]]|[[-> [-> ->]]|[-> [-> ->]]]]]; (left; reflexivity) || (right; reflexivity).
Qed.
Print Assumptions C83_missing_corner_refuted.

Lemma first_column_spec m l : first_column m = Ok l -> List.length l = List.length m /\
  forall i r, nth_error m i = Some r -> exists x, nth_error r 0 = Some x /\ nth_error l i = Some x.
Proof.
  unfold first_column. destruct m as [|r0 m]; [discriminate|]. set (mm := r0 :: m). clearbody mm. revert l. induction mm as [|r mm IH]; intros l H.
  - cbn in H. injection H as <-. split; [reflexivity|]. intros [|i] r E; discriminate.
  - cbn [mapM] in H. apply rbind_ok in H as [x [Hx H]]. apply rbind_ok in H as [xs [Hxs H]]. injection H as <-.
    destruct (IH _ Hxs) as [L N]. split; [cbn; congruence|]. intros [|i] r' E; cbn [nth_error] in *; [|now apply N].
    injection E as <-. destruct r as [|y r]; [discriminate|]. injection Hx as <-. exists y. auto.
Qed.
Lemma output_inv k lat lon clone lats lons : output_coords k lat lon clone = Ok (lats, lons) ->
  exists a b, writer_coords k lat lon = Ok (a, b) /\ first_row b = Ok lons /\ first_column a = Ok lats.
Proof.
  unfold output_coords. intro H. apply rbind_ok in H as [c [_ H]]. apply rbind_ok in H as [[a b] [Hw H]].
  apply rbind_ok in H as [ls [H1 H]]. apply rbind_ok in H as [ls' [F1 H]]. apply rbind_ok in H as [lt [H2 H]]. apply rbind_ok in H as [lt' [F2 H]].
  injection H as <- <-. unfold fits in *. destruct (Nat.eqb _ _) in F1; [|discriminate]. destruct (Nat.eqb _ _) in F2; [|discriminate].
  injection F1 as <-. injection F2 as <-. exists a, b. auto.
Qed.
Lemma nan_where_cell mv m i j x : cell (nan_where mv m) i j x <-> exists y, cell m i j y /\ x = (if neqb y mv then NaN else y).
Proof.
  unfold cell, nan_where. split.
  - intros [r [H1 H2]]. destruct (nth_error m i) as [r0|] eqn:E.
    + rewrite (map_nth_error _ _ _ E) in H1. injection H1 as <-. destruct (nth_error r0 j) as [y|] eqn:E2.
      * rewrite (map_nth_error _ _ _ E2) in H2. injection H2 as <-. exists y. split; [exists r0; auto|reflexivity].
      * apply nth_error_None in E2. assert (nth_error (map (fun x => if neqb x mv then NaN else x) r0) j = None) by (apply nth_error_None; now rewrite map_length). congruence.
    + apply nth_error_None in E. assert (nth_error (map (map (fun x => if neqb x mv then NaN else x)) m) i = None) by (apply nth_error_None; now rewrite map_length). congruence.
  - intros [y [[r [H1 H2]] ->]]. eexists. split; [apply map_nth_error; exact H1|]. rewrite (map_nth_error _ _ _ H2). reflexivity.
Qed.

(** Proved part, PCRaster: a map whose rows are parallels and whose columns are
    meridians, with coordinates in the first row and the first column *)
Theorem C83_pcraster : forall k lat lon clone t lats lons ys xs,
  ends_nc lat = false -> latlong k lat lon = Ok t -> output_coords k lat lon clone = Ok (lats, lons) ->
  (forall i y, nth_error ys i = Some y -> cell (t_lats t) i 0 y /\ neqb y (t_mv t) = false) -> List.length ys = List.length (t_lats t) ->
  (forall j x, nth_error xs j = Some x -> cell (t_lons t) 0 j x /\ neqb x (t_mv t) = false) ->
  (forall r, nth_error (t_lons t) 0 = Some r -> List.length r = List.length xs) ->
  lats = ys /\ lons = xs.
Proof.
  intros k lat lon clone t lats lons ys xs Hn Ht Ho Hy Ly Hx Lx. destruct (output_inv _ _ _ _ _ _ Ho) as [a [b [Hw [Hr Hc]]]].
  unfold writer_coords in Hw. unfold latlong in Ht. rewrite Hn in *. apply rbind_ok in Ht as [pa [Ha Ht]]. apply rbind_ok in Ht as [pb [Hb Ht]].
  rewrite Ha, Hb in Hw. cbn [rbind] in Hw. injection Hw as <- <-. injection Ht as <-. cbn [t_lats t_lons t_mv] in *. split.
  - apply first_column_spec in Hc as [L N].
    assert (G : forall i, nth_error lats i = nth_error ys i).
    { intro i. destruct (nth_error ys i) as [y|] eqn:E.
      - destruct (Hy i y E) as [Hcell Hm]. assert (Hcell' : cell (nan_where (p_mv pa) (p_cells pa)) i 0 y) by (apply nan_where_cell; exists y; rewrite Hm; auto).
        destruct Hcell' as [r [R1 R2]]. destruct (N i r R1) as [x [X1 X2]]. congruence.
      - apply nth_error_None in E. apply nth_error_None. rewrite L. unfold nan_where. rewrite map_length. lia. }
    clear - G. revert ys G. induction lats as [|u l IH]; intros [|w ys] G; [reflexivity|specialize (G 0%nat); discriminate|specialize (G 0%nat); discriminate|].
    pose proof (G 0%nat) as G0. cbn in G0. injection G0 as ->. f_equal. apply IH. intro i. exact (G (S i)).
  - assert (G : forall j, nth_error lons j = nth_error xs j).
    { unfold first_row in Hr. destruct (nan_where (p_mv pa) (p_cells pb)) as [|r0 m0] eqn:Em; [discriminate|]. injection Hr as <-.
      destruct (p_cells pb) as [|q0 qs] eqn:Eq; [discriminate|]. specialize (Lx q0 eq_refl). cbn [nan_where map] in Em. injection Em as <- _.
      intro j. destruct (nth_error xs j) as [x|] eqn:E.
      - destruct (Hx j x E) as [[r [R1 R2]] Hm]. cbn in R1. injection R1 as <-. rewrite (map_nth_error _ _ _ R2), Hm. reflexivity.
      - apply nth_error_None in E. apply nth_error_None. rewrite map_length. lia. }
    clear - G. revert xs G. induction lons as [|u l IH]; intros [|w ys] G; [reflexivity|specialize (G 0%nat); discriminate|specialize (G 0%nat); discriminate|].
    pose proof (G 0%nat) as G0. cbn in G0. injection G0 as ->. f_equal. apply IH. intro i. exact (G (S i)).
Qed.
Print Assumptions C83_pcraster.
(** netCDF targets: the coordinates of the target file *)
Theorem C83_netcdf : forall k p clone f v dy dx ys xs c mvc,
  k p = Some (FNc f) -> ends_nc p = true -> regular_file f dy dx ys xs -> only_variable f v -> over_lat_lon v dy dx ys xs ->
  read_map k clone = Ok (c, mvc) -> List.length c = List.length ys -> List.length (List.hd [] c) = List.length xs ->
  output_coords k p p clone = Ok (ys, xs).
Proof.
  intros k p clone f v dy dx ys xs c mvc Hk Hp Hr Hv Hd Hc Lc Lh. unfold output_coords. rewrite Hc. cbn [rbind fst].
  unfold writer_coords. rewrite Hp, String.eqb_refl. cbn [negb]. unfold open_nc.
  rewrite Hk, (nc_reader_ok _ _ _ _ _ _ _ _ _ _ Hr Hv Hd). cbn [rbind]. unfold lat_lon_values, bcast.
  cbn [nr_lat nr_lon nr_rows nr_cols]. rewrite !Nat.eqb_refl. cbn [rbind fst snd]. rewrite !firstn_all.
  destruct Hr as [_ [_ [_ [_ [_ [Ly Lx]]]]]]. destruct ys as [|y0 ys]; [cbn in Ly; lia|]. cbn [repeat List.length first_row rbind].
  unfold fits. rewrite Lh, Nat.eqb_refl. cbn [rbind].
  destruct xs as [|x0 xs]; [cbn in Lx; lia|].
  assert (E : first_column (map (fun x => repeat x (List.length (x0 :: xs))) (y0 :: ys)) = Ok (y0 :: ys)).
  { unfold first_column. cbn [map]. change (repeat y0 (List.length (x0 :: xs)) :: map (fun x => repeat x (List.length (x0 :: xs))) ys) with (map (fun x => repeat x (List.length (x0 :: xs))) (y0 :: ys)).
    generalize (y0 :: ys). clear. intro l. induction l as [|u l IH]; [reflexivity|]. cbn [map mapM]. cbn [List.length repeat] in *. rewrite IH. reflexivity. }
  rewrite E. cbn [rbind]. rewrite Lc, Nat.eqb_refl. reflexivity.
Qed.
Print Assumptions C83_netcdf.
Example C83_nonvacuous :
  output_coords ex_disk "a.nc" "a.nc" "clone.map" = Ok (ex_lat, ex_lon) /\
  output_coords ex_disk "lat.map" "lon.map" "clone.map" = Ok ([nint 20; nint 10], [nint 1; nint 2]).
Proof. split; vm_compute; reflexivity. Qed.
