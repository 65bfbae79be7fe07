(** * Properties C17-C21: unit conversion, cut-off, correction
    (conversion.py, correction.py, Messages in src/pyg2p/__init__.py).
    Vocabulary: Spec_Convert.v. Proofs: Manip_P.v. *)
From Verif Require Import Base Num PyStr Aggregator Converter Corrector Spec_Convert Base_P Num_P PyStr_P Manip_P.
Local Open Scope Z_scope.

(** ** C17: [x=EXPR] applies EXPR to every present cell *)
Definition C17_full : Prop := forall (ev : numexpr) e g cut mv x,
  e <> "x"%string -> ev e = Some g ->
  exists out, convert ev (set_missing_value (converter_new (Some ("x=" +++ e)%string) cut) mv) x = Ok out /\
    converted g mv x out.
Theorem C17_conversion : forall (ev : numexpr) e g cut mv x,
  contains "x=" e = false -> e <> "x"%string -> ev e = Some g ->
  exists out, convert ev (set_missing_value (converter_new (Some ("x=" +++ e)%string) cut) mv) x = Ok out /\
    converted g mv x out.
Proof. exact convert_spec. Qed.
Print Assumptions C17_conversion.
Theorem C17_identity : forall ev cut mv x,
  convert ev (set_missing_value (converter_new (Some "x=x"%string) cut) mv) x = Ok x.
Proof. exact convert_identity. Qed.
Print Assumptions C17_identity.
(** a valid expression that compares x (x==0) is destroyed, because every
    occurrence of "x=" is removed from the text, not only the leading one *)
Theorem C17_comparison_refuted : ~ C17_full.
Proof.
  intro H.
  destruct (H (fun s => if String.eqb s "where(x==0,1,x)" then Some (fun v => v) else None)
              "where(x==0,1,x)"%string (fun v => v) false (nint 9999) (Nd [nint 3])) as [out [E _]].
  - discriminate.
  - reflexivity.
  - vm_compute in E. discriminate.
Qed.
Print Assumptions C17_comparison_refuted.
(** Kelvin to Celsius on a masked field with one missing-value cell *)
Definition kelvin (s : string) : option (num -> num) :=
  if String.eqb s "x-273" then Some (fun v => nsub v (nint 273)) else None.
Example C17_nonvacuous : contains "x=" "x-273" = false /\ "x-273"%string <> "x"%string /\ kelvin "x-273" <> None /\
  match convert kelvin (set_missing_value (converter_new (Some "x=x-273"%string) false) (nint 9999))
          (Ma [nint 283; nint 9999; nint 300] (Some [false; false; true])) with
  | Ok a => List.forallb (fun p => num_same (fst p) (snd p)) (combine (adata a) [nint 10; nint 9999; nint 27]) && masked_at a 2
  | _ => false end = true.
Proof. repeat split; try discriminate. Qed.

(** ** C18: negative cut-off *)
Theorem C18_cut_off : forall xs,
  map fst (cut_off_fields xs) = map fst xs /\
  forall i k a, nth_error xs i = Some (k, a) -> exists a', nth_error (cut_off_fields xs) i = Some (k, a') /\ asize a' = asize a /\
    forall j v, has_cell a j v -> exists w, has_cell a' j w /\ nltb w (nint 0) = false /\ (nltb v (nint 0) = false -> w = v) /\
                                            (nltb v (nint 0) = true -> w = nint 0).
Proof. exact cut_off_spec. Qed.
Print Assumptions C18_cut_off.
Theorem C18_idempotent : forall xs, cut_off_fields (cut_off_fields xs) = cut_off_fields xs.
Proof. exact cut_off_idem. Qed.
Print Assumptions C18_idempotent.
(** the masks are lost *)
Theorem C18_masks_refuted : ~ (forall a i, masked_at a i = true -> masked_at (cut_off_arr a) i = true).
Proof. intro H. specialize (H (Ma [nint 9999] (Some [true])) 0%nat eq_refl). discriminate. Qed.
Print Assumptions C18_masks_refuted.
(** C11: no field has a missing cell after the cut-off *)
Theorem C11_cut_off_never_masked_partial : forall xs k a i, In (k, a) (cut_off_fields xs) -> masked_at a i = false.
Proof. intros xs k a i H. apply in_map_iff in H as [[k' a'] [E _]]. injection E as _ <-. reflexivity. Qed.
Print Assumptions C11_cut_off_never_masked_partial.
Example C18_nonvacuous : exists a, cut_off_arr (Nd [nint (-3); nint 4; NaN]) = Nd a /\ nth_error a 0 = Some (nint 0) /\ nth_error a 2 = Some NaN.
Proof. eexists. repeat split. Qed.

(** ** C19: every field of both resolutions, once, under its key *)
Theorem C19_conversion_covers : forall (ev : numexpr) e g cut m,
  contains "x=" e = false -> e <> "x"%string -> ev e = Some g ->
  exists m', apply_conversion ev (converter_new (Some ("x=" +++ e)%string) cut) m = Ok m' /\
    Forall2 (fun x y => fst y = fst x /\ converted g (m_mv m) (snd x) (snd y)) (m_first m) (m_first m') /\
    Forall2 (fun x y => fst y = fst x /\ converted g (m_mv m) (snd x) (snd y)) (m_second m) (m_second m') /\
    messages_len m' = messages_len m /\ m_mv m' = m_mv m.
Proof. exact apply_conversion_spec. Qed.
Print Assumptions C19_conversion_covers.
Example C19_nonvacuous :
  let st t := mkStep 0 t 1 6 0 in
  exists m', apply_conversion kelvin (converter_new (Some "x=x-273"%string) false)
    (mkMessages [(st 6, Nd [nint 280])] [(st 12, Nd [nint 281; nint 282])] (nint 9999) "K") = Ok m' /\ messages_len m' = 2%nat.
Proof. eexists. split; reflexivity. Qed.

(** ** C20: the correction formula *)
(** the geopotential as [Corrector] obtains it; the parameter [values] comes
    from the same interpolator, i.e. holds [mv_out] where it is missing *)
Definition C20_full : Prop := forall (f : formula3) dem gem_formula grib_mv z resample dem_mv mv mv_out values out,
  let gem := read_geo gem_formula grib_mv z resample in
  correct f dem (snd gem) dem_mv (fst gem) mv values = Ok out ->
  forall i p d g, has_cell values i p -> nth_error dem i = Some d -> nth_error (snd gem) i = Some g ->
    is_missing mv_out p \/ is_missing dem_mv d \/ is_missing mv_out g ->
    masked_at out i = true \/ has_cell out i mv \/ has_cell out i mv_out.
Theorem C20_correction_partial : forall f dem gem dem_mv gem_mv mv values,
  List.length dem = asize values -> List.length gem = asize values ->
  exists out, correct f dem gem dem_mv gem_mv mv values = Ok out /\ asize out = asize values /\
    forall i p d g, has_cell values i p -> nth_error dem i = Some d -> nth_error gem i = Some g ->
      (~ is_missing mv p -> ~ is_missing dem_mv d -> ~ is_missing gem_mv g -> has_cell out i (f p d g)) /\
      (is_missing mv p \/ is_missing dem_mv d \/ is_missing gem_mv g -> has_cell out i mv) /\
      masked_at out i = masked_at values i.
Proof. exact correct_spec. Qed.
Print Assumptions C20_correction_partial.
(** PCRaster target: [mv_out] is the no-data value of the map, but the
    corrector tests the NetCDF default fill value for the parameter
    (correction.py:78) and the GRIB missing value for the resampled
    geopotential (correction.py:107): a target cell outside the GRIB is
    "corrected" *)
Definition pcr_mv : num := nint (-340282346638528860000000000000000000000).
Definition nc_fill : num := nint (9969209968386869 * 10 ^ 21).
Definition formula_readme : formula3 := fun p dem gem => nsub (nadd p gem) (nmul dem (Fin (Q2Qc (65 # 10000)))).
Theorem C20_missing_cells_refuted : ~ C20_full.
Proof.
  intro H.
  destruct (correct formula_readme [nint 100] [pcr_mv] pcr_mv (nint 9999) nc_fill (Nd [pcr_mv])) as [out|] eqn:E;
    [|vm_compute in E; discriminate].
  specialize (H formula_readme [nint 100] (fun v => v) (nint 9999) [nint 5] (fun _ => [pcr_mv]) pcr_mv nc_fill pcr_mv (Nd [pcr_mv]) out E
                0%nat pcr_mv (nint 100) pcr_mv eq_refl eq_refl eq_refl (or_introl eq_refl)).
  assert (Hb : match correct formula_readme [nint 100] [pcr_mv] pcr_mv (nint 9999) nc_fill (Nd [pcr_mv]) with
               | Ok o => negb (masked_at o 0) && match adata o with [x] => negb (num_same x nc_fill) && negb (num_same x pcr_mv) | _ => false end
               | _ => false end = true) by (vm_compute; reflexivity).
  rewrite E in Hb. apply andb_true_iff in Hb as [Hm Hb]. apply negb_true_iff in Hm.
  destruct (adata out) as [|x [|y l]] eqn:Ed; try discriminate. apply andb_true_iff in Hb as [H1 H2].
  unfold has_cell in H. rewrite Ed in H. cbn [nth_error] in H.
  destruct H as [H|[H|H]]; [congruence| |]; injection H as ->.
  - rewrite (proj2 (num_same_spec nc_fill nc_fill) eq_refl) in H1. discriminate.
  - rewrite (proj2 (num_same_spec pcr_mv pcr_mv) eq_refl) in H2. discriminate.
Qed.
Print Assumptions C20_missing_cells_refuted.
Example C20_nonvacuous :
  match correct formula_readme [nint 100; nint (-1)] [nint 2; nint 3] (nint (-1)) (nint 9999) nc_fill (Nd [nint 10; nint 20]) with
  | Ok o => List.forallb (fun p => num_same (fst p) (snd p)) (combine (adata o) [Fin (Q2Qc (1135 # 100)); nc_fill])
  | _ => false end = true.
Proof. vm_compute. reflexivity. Qed.

(** ** C21: the corrector cache *)
Definition C21_full : Prop := forall h r,
  let inst := fst (get_instance (run_history h) r) in
  cr_formula inst = cr_formula r /\ cr_gem inst = cr_gem r /\ cr_geo inst = cr_geo r.
Theorem C21_stale_corrector_refuted : ~ C21_full.
Proof.
  intro H.
  destruct (H [mkCorr "grid" "dem.map" "p+gem-dem*0.0065" "z*0.0065" "geo.grb" "nearest"]
              (mkCorr "grid" "dem.map" "p-gem" "z*0.0065" "geo.grb" "nearest")) as [E _].
  vm_compute in E. discriminate.
Qed.
Print Assumptions C21_stale_corrector_refuted.
(** holds as long as the requests sharing grid id and DEM name (concatenated)
    are identical *)
Theorem C21_own_corrector_partial : forall h r,
  (forall x, In x h -> (cr_grid x +++ cr_dem x)%string = (cr_grid r +++ cr_dem r)%string -> x = r) ->
  fst (get_instance (run_history h) r) = r.
Proof. exact corrector_own. Qed.
Print Assumptions C21_own_corrector_partial.
Example C21_nonvacuous : let a := mkCorr "g1" "dem" "p" "z" "geo1" "nearest" in let b := mkCorr "g2" "dem" "p-gem" "z" "geo2" "nearest" in
  forall x, In x [a; b; a] -> (cr_grid x +++ cr_dem x)%string = (cr_grid a +++ cr_dem a)%string -> x = a.
Proof. intros a b x [<-|[<-|[<-|[]]]] E; try reflexivity. vm_compute in E. discriminate. Qed.
