(** * Properties C37-C40 (main/writers). Vocabulary: Spec_Writers.v.
    Proofs: Writers_P.v, Writers_P2.v. *)
From Verif Require Import Base PyStr Num Writers Spec_Writers Base_P Num_P PyStr_P Writers_P Writers_P2.
From Coq Require Import Sorted.
Local Open Scope string_scope.

(** ** C37: names of PCRaster maps *)
(** full statement: two different maps of an execution never share a name *)
Definition C37_full : Prop := forall out prefix fmap ext i j,
  (ext <> 0)%Z -> (1 <= i)%Z -> (1 <= j)%Z ->
  name_pcr_map out prefix fmap ext i = name_pcr_map out prefix fmap ext j -> i = j.
(** a prefix of 10 characters leaves room for one digit only: maps 10 to 19
    overwrite each other *)
Theorem C37_distinct_refuted : ~ C37_full.
Proof.
  intro H. specialize (H "./" "tamir_24h_" 1 1 10 11)%Z.
  assert (E : (10 = 11)%Z) by (apply H; [lia|lia|lia|reflexivity]). discriminate E.
Qed.
Print Assumptions C37_distinct_refuted.
(** proved when prefix and numbers fit in the 11 characters *)
Theorem C37_distinct : forall out prefix fmap ext i j,
  let fits k := (String.length prefix + String.length (str_of_Z (fmap + (k - 1) * ext)) <= 11)%nat in
  (ext <> 0)%Z -> fits i -> fits j ->
  name_pcr_map out prefix fmap ext i = name_pcr_map out prefix fmap ext j -> i = j.
Proof. exact name_pcr_inj. Qed.
Print Assumptions C37_distinct.
(** the name: prefix, zeroes, number; 8 characters, a dot, 3 characters *)
Theorem C37_shape : forall out prefix fmap ext i n,
  n = (fmap + (i - 1) * ext)%Z ->
  (String.length prefix + String.length (str_of_Z n) <= 11)%nat ->
  (exists d, out = d +++ "/") -> starts_with "/" prefix = false ->
  exists z a b, prefix +++ srepeat "0"%char z +++ str_of_Z n = a +++ b /\
    String.length a = 8%nat /\ String.length b = 3%nat /\
    name_pcr_map out prefix fmap ext i = out +++ a +++ "." +++ b.
Proof. exact name_pcr_shape. Qed.
Print Assumptions C37_shape.
Example C37_nonvacuous : name_pcr_map "out/" "t2m" 3 2 4 = "out/t2m00000.009" /\
  (String.length "t2m" + String.length (str_of_Z (3 + (4 - 1) * 2)) <= 11)%nat.
Proof. split; [reflexivity|cbn; lia]. Qed.

(** netCDF output goes to one file, whose name is made of the prefix and the kind
    of aggregation; without aggregation the word None stands for it. Executions
    with another prefix or kind write to another file. *)
Definition kinds : list (option string * string) :=
  [(None, "None"); (Some "accumulation", "accumulation"); (Some "average", "average"); (Some "instantaneous", "instantaneous")].
Lemma rev_app p t : rev (list_ascii_of_string (p +++ t)) = (rev (list_ascii_of_string t) ++ rev (list_ascii_of_string p))%list.
Proof.
  rewrite <- rev_app_distr. f_equal. induction p as [|c p IH]; [reflexivity|]. cbn [list_ascii_of_string String.append app]. now rewrite IH.
Qed.
Theorem C37_netcdf : forall out prefix k t, In (k, t) kinds ->
  ((exists d, out = d +++ "/") -> starts_with "/" (prefix +++ "_" +++ t +++ ".nc") = false ->
   name_netcdf_file out prefix k = out +++ prefix +++ "_" +++ t +++ ".nc") /\
  (forall prefix' k' t', In (k', t') kinds -> starts_with "/" (prefix +++ "_" +++ t +++ ".nc") = starts_with "/" (prefix' +++ "_" +++ t' +++ ".nc") ->
   name_netcdf_file out prefix k = name_netcdf_file out prefix' k' -> prefix = prefix' /\ k = k').
Proof.
  intros out prefix k t Hk.
  assert (E : forall k t, In (k, t) kinds -> match k with Some x => x | None => "None" end = t) by (intros k0 t0 [H|[H|[H|[H|[]]]]]; injection H as <- <-; reflexivity).
  split.
  - intros Ho Hp. unfold name_netcdf_file. rewrite (E _ _ Hk). apply path_join_dir; [right; exact Ho|exact Hp].
  - intros prefix' k' t' Hk' Hs H. unfold name_netcdf_file in H. rewrite (E _ _ Hk), (E _ _ Hk') in H. apply path_join_inj in H; [|exact Hs].
    destruct Hk as [Hk|[Hk|[Hk|[Hk|[]]]]]; injection Hk as <- <-; destruct Hk' as [Hk'|[Hk'|[Hk'|[Hk'|[]]]]]; injection Hk' as <- <-;
      try (split; [now apply sapp_inj_r in H|reflexivity]); exfalso;
      apply (f_equal (fun x => rev (list_ascii_of_string x))) in H; rewrite !rev_app in H; cbn in H; discriminate H.
Qed.
Print Assumptions C37_netcdf.
Example C37_netcdf_nonvacuous : name_netcdf_file "out/" "t2m" (Some "average") = "out/t2m_average.nc" /\ name_netcdf_file "out/" "t2m" None = "out/t2m_None.nc".
Proof. split; reflexivity. Qed.

Local Open Scope Qc_scope.
(** ** C38: missing values *)
(** PCRaster maps: proved in full *)
Theorem C38_pcraster : forall isfloat clone mv field,
  wf_arr field -> List.length (adata field) = List.length clone ->
  exists out, pcr_write (clone_mask isfloat clone mv) mv field = Ok out /\ List.length out = List.length clone /\
    forall i c x, nth_error clone i = Some c -> nth_error (adata field) i = Some x ->
      nth_error out i = Some (if (field_missing field i x || clone_missing isfloat c mv)%bool then mv else x).
Proof. exact pcr_write_spec. Qed.
Print Assumptions C38_pcraster.
(** arrays returned by the API: NaN cells stay NaN, the rest as above *)
Theorem C38_api : forall isfloat clone mv field,
  wf_arr field -> List.length (adata field) = List.length clone ->
  exists out, pcr_mask_values (clone_mask isfloat clone mv) mv field = Ok out /\ List.length out = List.length clone /\
    forall i c x, nth_error clone i = Some c -> nth_error (adata field) i = Some x ->
      nth_error out i = Some (if (masked_at field i || clone_missing isfloat c mv)%bool then mv else x).
Proof. exact api_mask_spec. Qed.
Print Assumptions C38_api.
Example C38_nonvacuous :
  let clone := [Fin (ZQ 1); Fin (ZQ (-9999)); Fin (ZQ 1); Fin (ZQ 1)] in
  let field := Ma [Fin (ZQ 5); Fin (ZQ 6); Fin (ZQ 7); NaN] (Some [false; false; true; false]) in
  wf_arr field /\ exists out, pcr_write (clone_mask true clone (Fin (ZQ (-9999)))) (Fin (ZQ (-9999))) field = Ok out /\
    forallb (fun p => num_same (fst p) (snd p)) (combine out [Fin (ZQ 5); Fin (ZQ (-9999)); Fin (ZQ (-9999)); Fin (ZQ (-9999))]) = true.
Proof. split; [reflexivity|]. eexists. split; vm_compute; reflexivity. Qed.
(** NetCDF, full statement *)
Definition C38_netcdf_full : Prop := forall isfloat clone mv mv_out vmin vmax fields,
  fields <> [] -> Forall (fun a => wf_arr a /\ List.length (adata a) = List.length clone) fields ->
  exists v, nc_write_fields (clone_mask isfloat clone mv) mv_out None 1 0 vmin vmax fields = Ok v /\
    forall t a i x c, nth_error fields t = Some a -> nth_error (adata a) i = Some x -> nth_error clone i = Some c ->
      exists row p, nth_error (nv_cells v) t = Some row /\ nth_error row i = Some p /\
        ((field_missing a i x || neqb x mv_out || clone_missing isfloat c mv)%bool = true -> p = Fin (nv_fill v)).
(** a clone map without any missing cell makes the NetCDF writer fail *)
Theorem C38_full_clone_refuted : ~ C38_netcdf_full.
Proof.
  intro H. destruct (H true [Fin 1] (Fin (ZQ (-9999))) (Fin (ZQ (-9999))) None None [Nd [Fin 1]]) as [v [Hv _]];
    [discriminate|constructor; [split; reflexivity|constructor]|].
  vm_compute in Hv. discriminate Hv.
Qed.
Print Assumptions C38_full_clone_refuted.
(** masked cells of a field are written with the data under the mask *)
Theorem C38_netcdf_masks_refuted : ~ (forall isfloat clone mv mv_out vmin vmax fields,
  (exists c, In c clone /\ clone_missing isfloat c mv = true) ->
  fields <> [] -> Forall (fun a => wf_arr a /\ List.length (adata a) = List.length clone) fields ->
  exists v, nc_write_fields (clone_mask isfloat clone mv) mv_out None 1 0 vmin vmax fields = Ok v /\
    forall t a i x c, nth_error fields t = Some a -> nth_error (adata a) i = Some x -> nth_error clone i = Some c ->
      exists row p, nth_error (nv_cells v) t = Some row /\ nth_error row i = Some p /\
        ((field_missing a i x || neqb x mv_out || clone_missing isfloat c mv)%bool = true -> p = Fin (nv_fill v))).
Proof.
  intro H.
  destruct (H true [Fin 1; Fin (ZQ (-9999))] (Fin (ZQ (-9999))) (Fin (ZQ (-9999))) None None
              [Ma [Fin (ZQ 5); Fin (ZQ 6)] (Some [true; false])]) as [v [Hv Hc]].
  { exists (Fin (ZQ (-9999))). split; [right; now left|vm_compute; reflexivity]. }
  { discriminate. }
  { constructor; [|constructor]. split; reflexivity. }
  destruct (Hc O _ O _ _ eq_refl eq_refl eq_refl) as [row [p [H1 [H2 H3]]]].
  specialize (H3 eq_refl). apply nc_write_inv in Hv as [l [f [El [Ef [_ Ev]]]]]; [|discriminate].
  vm_compute in Ef. injection Ef as <-.
  rewrite Ev in H1, H3. cbn [nv_cells nv_fill map] in H1, H3.
  vm_compute in El. injection El as <-. injection H1 as <-. injection H2 as E. rewrite H3 in E.
  apply (f_equal (fun x => num_same x (Fin (ZQ 5)))) in E. vm_compute in E. discriminate E.
Qed.
Print Assumptions C38_netcdf_masks_refuted.
(** proved for plain (unmasked) fields and a clone with a missing cell *)
Theorem C38_netcdf_partial : forall isfloat clone mv mv_out vf s o vmin vmax fields f,
  s <> 0 -> vfmt_of (match vf with Some x => x | None => "f8" end) = Some f ->
  (exists c, In c clone /\ clone_missing isfloat c mv = true) ->
  fields <> [] -> Forall (fun a => amask a = None /\ List.length (adata a) = List.length clone) fields ->
  exists v, nc_write_fields (clone_mask isfloat clone mv) mv_out vf s o vmin vmax fields = Ok v /\
    List.length (nv_cells v) = List.length fields /\
    forall t a i x c, nth_error fields t = Some a -> nth_error (adata a) i = Some x -> nth_error clone i = Some c ->
      exists row p, nth_error (nv_cells v) t = Some row /\ nth_error row i = Some p /\
        p = (if (is_nan x || neqb x mv_out || clone_missing isfloat c mv)%bool then Fin (nv_fill v) else nc_pack f s o x) /\
        ((is_nan x || neqb x mv_out || clone_missing isfloat c mv)%bool = true -> nc_read_cell v p = None) /\
        ((is_nan x || neqb x mv_out || clone_missing isfloat c mv)%bool = false ->
           In (match vf with Some x => x | None => "f8" end) ["f4"; "f8"] -> vmin = None -> vmax = None -> p <> Fin (nv_fill v) -> nc_read_cell v p = Some x).
Proof.
  intros isfloat clone mv mv_out vf s o vmin vmax fields f Hs Hf Hc Hne Hfields.
  destruct (nc_fields_spec isfloat clone mv mv_out vf s o vmin vmax fields f Hs Hf Hc Hne Hfields) as (v & H1 & H2 & H3). exists v. split; [exact H1|]. split; [exact H2|].
  intros t a i x c Ha Hx Hcl. destruct (H3 t a i x c Ha Hx Hcl) as (row & p & A1 & A2 & A3 & A4 & A5). exists row, p. split; [exact A1|]. split; [exact A2|]. split; [exact A3|]. split; [exact A4|].
  intros B1 B2. apply A5; [exact B1|]. destruct B2 as [B2|[B2|[]]]; rewrite <- B2 in Hf; injection Hf as <-; reflexivity.
Qed.
Print Assumptions C38_netcdf_partial.
Example C38_netcdf_nonvacuous :
  exists v, nc_write_fields (clone_mask true [Fin 1; Fin (ZQ (-9999)); Fin 1] (Fin (ZQ (-9999)))) (Fin (ZQ (-1))) None (ZQ 2) (ZQ 3) None None
    [Nd [Fin (ZQ 5); Fin (ZQ 6); NaN]] = Ok v /\
    map (nc_read_cell v) (List.concat (nv_cells v)) = [Some (Fin (ZQ 5)); None; None].
Proof.
  eexists. split; [vm_compute; reflexivity|]. vm_compute. repeat f_equal; apply Qc_is_canon; reflexivity.
Qed.

(** ** C39: the NetCDF time axis *)
(** the time of every map is its end step: value * unit of the axis =
    end step * unit of the GRIB, in seconds *)
Theorem C39_time_axis : forall grib out steps ta s,
  nc_time_axis grib out steps = Ok ta -> unit_seconds grib = Some s ->
  exists t, name_seconds (ta_units ta) = Some t /\ 0 < t /\
    List.length (ta_vals ta) = List.length steps /\
    forall i e v, nth_error steps i = Some e -> nth_error (ta_vals ta) i = Some v -> v * t = ZQ e * s.
Proof. exact C39_time. Qed.
Print Assumptions C39_time_axis.
(** the requested unit is the one used whenever both units are convertible *)
Theorem C39_requested_unit : forall grib o steps s t,
  Forall (fun z => -2147483648 <= z <= 2147483647)%Z steps ->
  unit_seconds grib = Some s -> unit_seconds o = Some t ->
  exists ta, nc_time_axis grib (Some o) steps = Ok ta /\ name_seconds (ta_units ta) = Some t.
Proof. exact C39_unit. Qed.
Print Assumptions C39_requested_unit.
(** otherwise the axis keeps the end steps in the unit of the GRIB *)
Theorem C39_source_unit : forall grib out steps name,
  Forall (fun z => -2147483648 <= z <= 2147483647)%Z steps ->
  dget String.eqb steps_units_netcdf_name grib = Some name ->
  (forall o, out = Some o -> unit_seconds o = None \/ unit_seconds grib = None) ->
  nc_time_axis grib out steps = Ok {| ta_fmt := I4; ta_units := name; ta_vals := map ZQ steps |}.
Proof. exact C39_fallback. Qed.
Print Assumptions C39_source_unit.
Theorem C39_strictly_increasing : forall grib out steps ta,
  nc_time_axis grib out steps = Ok ta -> StronglySorted Z.lt steps -> StronglySorted Qclt (ta_vals ta).
Proof. exact C39_increasing. Qed.
Print Assumptions C39_strictly_increasing.
Theorem C39_integers_exact : forall grib out steps ta,
  nc_time_axis grib out steps = Ok ta -> ta_fmt ta = I4 -> Forall integral (ta_vals ta).
Proof. exact C39_integral. Qed.
Print Assumptions C39_integers_exact.
(** full statement of storage: every time value can be stored *)
Definition C39_full : Prop := forall grib out steps ta v,
  nc_time_axis grib out steps = Ok ta -> In v (ta_vals ta) -> nc_stored_time (ta_fmt ta) v = Some v.
(** 30000 days in seconds do not fit in the 32 bits of the time variable *)
Theorem C39_overflow_refuted : ~ C39_full.
Proof.
  intro H. destruct (C39_requested_unit "D" "s" [30000]%Z (ZQ 86400) (ZQ 1)) as [ta [Hta _]];
    [repeat constructor; lia|reflexivity|reflexivity|].
  specialize (H _ _ _ _ (ZQ 2592000000) Hta).
  assert (Hin : In (ZQ 2592000000) (ta_vals ta)).
  { destruct (time_axis_affine _ _ _ _ Hta) as [c [_ Ec]].
    destruct (C39_time_axis _ _ _ _ _ Hta eq_refl) as [t [_ [_ [_ _]]]].
    vm_compute in Hta. injection Hta as <-. cbn [ta_vals]. left. apply Qc_is_canon. reflexivity. }
  specialize (H Hin). replace (ta_fmt ta) with I4 in H by (vm_compute in Hta; injection Hta as <-; reflexivity).
  vm_compute in H. discriminate H.
Qed.
Print Assumptions C39_overflow_refuted.
Theorem C39_stored : forall grib out steps ta v,
  nc_time_axis grib out steps = Ok ta -> In v (ta_vals ta) ->
  (ta_fmt ta = I4 -> ZQ (-2147483648) <= v <= ZQ 2147483647) -> nc_stored_time (ta_fmt ta) v = Some v.
Proof.
  intros grib out steps ta v H Hin Hr. apply stored_time_ok; [|exact Hr]. intro E.
  exact (proj1 (Forall_forall _ _) (C39_integral _ _ _ _ H E) v Hin).
Qed.
Print Assumptions C39_stored.
Example C39_nonvacuous : (exists ta, nc_time_axis "h" (Some "D") [24; 30; 48]%Z = Ok ta /\ ta_fmt ta = F4 /\ ta_units ta = "days")
  /\ (exists ta, nc_time_axis "h" (Some "m") [24; 30; 48]%Z = Ok ta /\ ta_fmt ta = I4 /\ ta_units ta = "minutes")
  /\ StronglySorted Z.lt [24; 30; 48]%Z.
Proof.
  split; [eexists; split; [vm_compute; reflexivity|split; reflexivity]|].
  split; [eexists; split; [vm_compute; reflexivity|split; reflexivity]|]. repeat constructor; lia.
Qed.

(** ** C40: packing *)
Lemma real_fmt f : In f [VF4; VF8] -> is_int_fmt f = false.
Proof. intros [<-|[<-|[]]]; reflexivity. Qed.
Lemma whole_fmt f : In f [VI1; VI2; VI4] -> is_int_fmt f = true.
Proof. intros [<-|[<-|[<-|[]]]]; reflexivity. Qed.
(** floating point formats: what is stored unpacks to the value *)
Theorem C40_roundtrip_float : forall f s o v, s <> 0 -> In f [VF4; VF8] -> v <> NaN ->
  nadd (nmul (nc_pack f s o v) (Fin s)) (Fin o) = v.
Proof. intros f s o v Hs Hf. apply pack_float; [exact Hs|now apply real_fmt]. Qed.
Print Assumptions C40_roundtrip_float.
(** full statement *)
Definition C40_full : Prop := forall f s o q, s <> 0 ->
  nadd (nmul (nc_pack f s o (Fin q)) (Fin s)) (Fin o) = Fin q.
Theorem C40_integer_refuted : ~ C40_full.
Proof.
  intro H. specialize (H VI2 1 0 (Q2Qc (1 # 4))). assert (E : (1 : Qc) <> 0) by discriminate. specialize (H E).
  apply (f_equal (fun x => num_same x (Fin 0))) in H. vm_compute in H. discriminate H.
Qed.
Print Assumptions C40_integer_refuted.
(** integer formats: the error is at most half the scale factor *)
Theorem C40_roundtrip_integer : forall f s o q, s <> 0 -> In f [VI1; VI2; VI4] ->
  exists p, nc_pack f s o (Fin q) = Fin p /\ integral p /\
    p * s + o - q <= Qcabs s * Q2Qc (1 # 2) /\ q - (p * s + o) <= Qcabs s * Q2Qc (1 # 2).
Proof. intros f s o q Hs Hf. apply pack_int; [exact Hs|now apply whole_fmt]. Qed.
Print Assumptions C40_roundtrip_integer.
(** the scaled missing value is stored as the declared fill value *)
Theorem C40_fill : forall f s o, s <> 0 -> nc_pack f s o (Fin (fillval f * s + o)) = Fin (fillval f).
Proof. exact pack_fill. Qed.
Print Assumptions C40_fill.
(** full statement about the valid range: a value is inside the valid range
    iff its stored form is inside the stored bounds *)
Definition C40_range_full : Prop := forall f s o lo hi q p, s <> 0 -> nc_pack f s o (Fin q) = Fin p ->
  (((lo - o) / s <= p /\ p <= (hi - o) / s) <-> (lo <= q /\ q <= hi)).
(** with a negative scale factor every valid value is out of the stored range *)
Theorem C40_negative_scale_refuted : ~ C40_range_full.
Proof.
  intro H. specialize (H VF8 (ZQ (-1)) 0 0 (ZQ 10) (ZQ 5)).
  destruct (nc_pack VF8 (ZQ (-1)) 0 (Fin (ZQ 5))) as [p| | |] eqn:E; try (vm_compute in E; discriminate E).
  assert (E2 : p = ZQ (-5)).
  { vm_compute in E. injection E as <-. apply Qc_is_canon. reflexivity. }
  subst p. destruct (H (ZQ (-5)) ltac:(discriminate) eq_refl) as [_ H2].
  destruct H2 as [H2 _]; [split; vm_compute; discriminate|]. vm_compute in H2. congruence.
Qed.
Print Assumptions C40_negative_scale_refuted.
Theorem C40_range_float : forall f s o lo hi q, 0 < s -> In f [VF4; VF8] ->
  exists p, nc_pack f s o (Fin q) = Fin p /\
    ((lo - o) / s <= p <-> lo <= q) /\ (p <= (hi - o) / s <-> q <= hi).
Proof. intros f s o lo hi q Hs Hf. apply packed_range_float; [exact Hs|now apply real_fmt]. Qed.
Print Assumptions C40_range_float.
Theorem C40_range_integer : forall f s o lo hi q, 0 < s -> In f [VI1; VI2; VI4] ->
  integral ((lo - o) / s) -> integral ((hi - o) / s) ->
  exists p, nc_pack f s o (Fin q) = Fin p /\ (lo <= q -> (lo - o) / s <= p) /\ (q <= hi -> p <= (hi - o) / s).
Proof. intros f s o lo hi q Hs Hf. apply packed_range_int; [exact Hs|now apply whole_fmt]. Qed.
Print Assumptions C40_range_integer.
Example C40_nonvacuous : nc_pack VI2 (Q2Qc (1 # 10)) (ZQ 20) (Fin (Q2Qc (2346 # 100))) = Fin (ZQ 35) /\
  integral ((ZQ 0 - ZQ 20) / Q2Qc (1 # 10)).
Proof. split; [vm_compute; f_equal; now apply Qc_is_canon|]. exists (-200)%Z. apply Qc_is_canon. reflexivity. Qed.
