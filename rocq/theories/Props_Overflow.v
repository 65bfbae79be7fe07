(** * Property C115: values beyond the range of a map of floating point numbers.
    Vocabulary: Props_Cells.v. *)
From Coq Require Import Psatz.
From Verif Require Import Base Base_P Num Num_P Writers Spec_Writers CellStore Props_Cells.
Local Open Scope Qc_scope.

(** they become infinite, and are not taken as missing *)
Theorem C115_overflow : forall clone mv field,
  wf_arr field -> List.length (adata field) = List.length clone ->
  exists out, pcr_file Float32 (clone_mask true clone (Fin mv)) (Fin mv) field = Ok out /\
    forall i c v, nth_error clone i = Some c -> nth_error (adata field) i = Some (Fin v) ->
      (field_missing field i (Fin v) || clone_missing true c (Fin mv))%bool = false ->
      (flt_max < v -> nth_error out i = Some PInf /\ pcr_seen (Fin mv) PInf = Some PInf) /\
      (v < - flt_max -> nth_error out i = Some MInf /\ pcr_seen (Fin mv) MInf = Some MInf).
Proof.
  intros clone mv field Hw Hl. destruct (stored_cells Float32 true clone (Fin mv) field Hw Hl) as (out & H1 & _ & H3).
  exists out. split; [exact H1|]. intros i c v Hc Hx Hm. pose proof (H3 i c _ Hc Hx) as E. rewrite Hm in E. cbn [gdal_cast] in E. unfold to_single in E.
  assert (P : 0 < flt_max) by (vm_compute; reflexivity).
  split; intro Hv; (split; [|reflexivity]); rewrite E.
  - now rewrite (proj2 (Qc_ltb_spec flt_max v) Hv).
  - rewrite (proj2 (Qc_ltb_false flt_max v)); [now rewrite (proj2 (Qc_ltb_spec v (- flt_max)) Hv)|].
    apply Qclt_le_weak. apply Qclt_trans with (1 := Hv). vm_compute. reflexivity.
Qed.
Print Assumptions C115_overflow.
Example C115_overflow_nonvacuous : flt_max < ZQ (2 ^ 128) /\
  match pcr_file Float32 (clone_mask true [nint 0; Fin (- flt_max)] (Fin (- flt_max))) (Fin (- flt_max)) (Nd [nint (2 ^ 128); nint 1]) with
  | Ok l => map (pcr_seen (Fin (- flt_max))) l = [Some PInf; None] | Raise _ => False end.
Proof. split; vm_compute; reflexivity. Qed.
