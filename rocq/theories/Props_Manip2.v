(** * Props_Manip2: C20, the correction with the geopotential it obtains
    (correction.py). Vocabulary: Spec_Convert.v. *)
From Verif Require Import Base Num PyStr Converter Corrector Spec_Convert Base_P Num_P PyStr_P Manip_P.
Local Open Scope Z_scope.

(** nearest neighbour resampling: target cell [i] takes the value of source
    cell [src i], or [out] if it has none *)
Definition resample_by (src : list (option nat)) (out : num) (z : list num) : list num :=
  map (fun o => match o with Some j => nth j z out | None => out end) src.

(** a target cell with parameter [p], elevation [d] and geopotential [z] of its
    source cell becomes f p d (gemFormula z) if all three are present, and
    missing if one is not *)
Theorem C20_geopotential_partial : forall (f : formula3) dem gem_formula grib_mv z src out_mv dem_mv mv values,
  List.length dem = asize values -> List.length src = asize values ->
  let gem := read_geo gem_formula grib_mv z (resample_by src out_mv) in
  exists out, correct f dem (snd gem) dem_mv (fst gem) mv values = Ok out /\ asize out = asize values /\
    forall i p d j zj, has_cell values i p -> nth_error dem i = Some d ->
      nth_error src i = Some (Some j) -> nth_error z j = Some zj ->
      (~ is_missing mv p -> ~ is_missing dem_mv d -> ~ is_missing grib_mv zj -> ~ is_missing grib_mv (gem_formula zj) ->
         has_cell out i (f p d (gem_formula zj))) /\
      (is_missing mv p \/ is_missing dem_mv d \/ is_missing grib_mv zj -> has_cell out i mv) /\
      masked_at out i = masked_at values i.
Proof.
  intros f dem gem_formula grib_mv z src out_mv dem_mv mv values Hd Hs gem.
  assert (Hg : List.length (snd gem) = asize values).
  { unfold gem, read_geo, resample_by. cbn [snd]. now rewrite map_length. }
  destruct (correct_spec f dem (snd gem) dem_mv (fst gem) mv values Hd Hg) as [out [Ho [Hlen Hcell]]].
  exists out. split; [exact Ho|]. split; [exact Hlen|]. intros i p d j zj Hp Hdi Hsi Hzj.
  set (g := if negb (neqb zj grib_mv) then gem_formula zj else grib_mv).
  assert (Hgi : nth_error (snd gem) i = Some g).
  { unfold gem, read_geo, resample_by. cbn [snd].
    rewrite (map_nth_error _ _ _ Hsi). f_equal.
    apply nth_error_nth. now rewrite (map_nth_error _ _ _ Hzj). }
  destruct (Hcell i p d g Hp Hdi Hgi) as [A [B C]].
  assert (Eg : fst gem = grib_mv) by reflexivity. rewrite Eg in A, B.
  split; [|split; [|exact C]].
  - intros H1 H2 H3 H4. unfold g in A. destruct (neqb zj grib_mv) eqn:E.
    + exfalso. apply H3. exact E.
    + cbn [negb] in A. now apply A.
  - intros [H|[H|H]]; apply B; auto. right. right. unfold g.
    unfold is_missing in *. rewrite H. cbn [negb].
    destruct zj, grib_mv; cbn in *; try discriminate; try reflexivity. now rewrite Qc_eqb_refl.
Qed.
Print Assumptions C20_geopotential_partial.
Example C20_geopotential_nonvacuous :
  let gem := read_geo (fun z => nmul z (nint 2)) (nint 9999) [nint 5; nint 9999] (resample_by [Some 0%nat; Some 1%nat] (nint (-1))) in
  match correct (fun p d g => nadd p (nadd d g)) [nint 100; nint 100] (snd gem) (nint (-9)) (fst gem) (nint 77) (Nd [nint 1; nint 2]) with
  | Ok o => List.forallb (fun p => num_same (fst p) (snd p)) (combine (adata o) [nint 111; nint 77])
  | _ => false end = true.
Proof. vm_compute. reflexivity. Qed.
