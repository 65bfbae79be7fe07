(** * Props_Context2: C30, the output directory and the values of an accepted
    execution (context.py:82-137). *)
From Verif Require Import Base PyStr Strings Config Context Spec_Context Base_P PyStr_P Config_P Context_P Context_P2 Interp_P.
From Verif Require Props_Context.
Local Open Scope string_scope.

(** a path of a directory: ends with a slash *)
Definition dir_path (s : string) : Prop := exists d, s = d +++ "/".
Lemma ends_with_slash_spec s : ends_with_slash s = true <-> dir_path s.
Proof.
  unfold ends_with_slash. rewrite starts_with_spec. split.
  - intros [t E]. exists (rev_string t). rewrite <- (rev_string_inv s), E, rev_string_app. reflexivity.
  - intros [d ->]. exists (rev_string d). rewrite rev_string_app. reflexivity.
Qed.
Lemma isdigit_strip s : isdigit s = true -> strip_ws s = s.
Proof.
  intro H0. assert (H : sforall is_digit s = true) by (revert H0; unfold isdigit; destruct s; [discriminate|auto]). unfold strip_ws. apply strip_id.
  rewrite <- (Bool.negb_involutive (sexists _ s)), <- sforall_negb_sexists. apply Bool.negb_false_iff.
  eapply sforall_impl; [|exact H]. intro c. unfold is_digit, is_space.
  destruct c as [b0 b1 b2 b3 b4 b5 b6 b7]; destruct b0, b1, b2, b3, b4, b5, b6, b7; vm_compute; auto.
Qed.
Ltac step H := let y := fresh "y" in let Hy := fresh "Hy" in apply rbind_ok in H as [y [Hy H]].

(** the directory used is the one requested (with a slash appended if needed)
    and it exists, has just been created, or is the current directory; nothing
    else of the request is changed, except the level, made a number, and the time
    unit, 24 if none is given *)
Theorem C30_accepted : forall fs x x', check_exec_params fs x = Ok x' ->
  dir_path (x_outDir x') /\ (x_outDir x' = x_outDir x \/ x_outDir x' = x_outDir x +++ "/") /\
  (x_outDir x' = "./" \/ fs_dir fs (x_outDir x') = true \/ fs_mkdir fs (x_outDir x') = true) /\
  x_input x' = x_input x /\ x_tstart x' = x_tstart x /\ x_tend x' = x_tend x /\ x_dataTime x' = x_dataTime x /\
  x_dataDate x' = x_dataDate x /\ x_member x' = x_member x /\ x_short x' = x_short x /\
  x_format x' = x_format x /\ x_prefix x' = x_prefix x /\ x_scale x' = x_scale x /\ x_offset x' = x_offset x /\
  x_vmin x' = x_vmin x /\ x_vmax x' = x_vmax x /\ x_mode x' = x_mode x /\ x_clone x' = x_clone x /\
  x_lat x' = x_lat x /\ x_lon x' = x_lon x /\ x_dem x' = x_dem x /\ x_formula x' = x_formula x /\ x_gem x' = x_gem x /\
  (forall s z, x_level x = JStr s -> s <> "" -> Z_of_str s = Some z -> x_level x' = JNum z) /\
  (x_unitTime x = JNull -> x_unitTime x' = JStr "24") /\ (forall z, x_unitTime x = JNum z -> x_unitTime x' = JNum z).
Proof.
  intros fs x x' H. unfold check_exec_params in H.
  do 9 step H. step H. step H. step H. step H. step H. step H. step H. step H. injection H as <-.
  cbn [x_outDir x_input x_tstart x_tend x_dataTime x_dataDate x_member x_short x_format x_prefix x_scale x_offset x_vmin x_vmax x_mode x_clone
       x_lat x_lon x_dem x_formula x_gem x_level x_unitTime].
  assert (Hd : dir_path y8 /\ (y8 = x_outDir x \/ y8 = x_outDir x +++ "/") /\ (y8 = "./" \/ fs_dir fs y8 = true \/ fs_mkdir fs y8 = true)).
  { revert Hy8. unfold check_out_dir. destruct (String.eqb_spec (x_outDir x) "./") as [E|_].
    - intro G. injection G as <-. rewrite E. split; [now exists "."|]. auto.
    - destruct (ends_with_slash (x_outDir x)) eqn:Es; cbv zeta.
      + apply ends_with_slash_spec in Es. destruct (fs_dir fs (x_outDir x)) eqn:Ed; [|destruct (fs_mkdir fs (x_outDir x)) eqn:Em; [|discriminate]];
          intro G; injection G as <-; auto.
      + destruct (fs_dir fs (x_outDir x +++ "/")) eqn:Ed; [|destruct (fs_mkdir fs (x_outDir x +++ "/")) eqn:Em; [|discriminate]];
          intro G; injection G as <-; (split; [now exists (x_outDir x)|auto]). }
  destruct Hd as [H1 [H2 H3]]. split; [exact H1|]. split; [exact H2|]. split; [exact H3|].
  do 20 (split; [reflexivity|]).
  split; [|split].
  - intros s z E Hne Hz. rewrite E in Hy9. unfold check_level in Hy9. cbn [jtruthy] in Hy9.
    destruct (String.eqb_spec s "") as [E2|_]; [easy|]. cbn [negb] in Hy9. destruct (isdigit s) eqn:Ei; [|discriminate].
    cbn [jint] in Hy9. rewrite (isdigit_strip s Ei), Hz in Hy9. cbn [rbind] in Hy9. congruence.
  - intro E. rewrite E in Hy10. cbn [is_null] in Hy10. congruence.
  - intros z E. rewrite E in Hy10. cbn in Hy10. congruence.
Qed.
Print Assumptions C30_accepted.
(** a directory that does not exist and cannot be created: refused *)
Theorem C30_unusable_directory : forall fs x x', check_exec_params fs x = Ok x' -> x_outDir x <> "./" ->
  let d := if ends_with_slash (x_outDir x) then x_outDir x else x_outDir x +++ "/" in
  fs_dir fs d = true \/ fs_mkdir fs d = true.
Proof.
  intros fs x x' H Hne. unfold check_exec_params in H. do 10 step H. cbv zeta. revert Hy8. unfold check_out_dir.
  destruct (String.eqb_spec (x_outDir x) "./") as [E|_]; [easy|]. cbv zeta.
  set (d := if ends_with_slash _ then _ else _). destruct (fs_dir fs d); [now left|]. destruct (fs_mkdir fs d); [now right|discriminate].
Qed.
Print Assumptions C30_unusable_directory.

Example C30_accepted_nonvacuous :
  let fs := mkFs (fs_file Props_Context.ex_fs) (fun _ => false) (String.eqb "/out/") in
  exists x x', define_exec_params Props_Context.ex_env Props_Context.ex_cli (Some (Props_Context.ex_cmd [("@level", JStr "850")] [] [])) = Ok x /\
    x_outDir x = "./" /\ check_exec_params fs x = Ok x' /\ x_level x' = JNum 850 /\
    check_out_dir fs "/out" = Ok "/out/" /\ check_out_dir fs "/other" = Raise (AppExc (-1)).
Proof. cbv zeta. eexists _, _. split; [vm_compute; reflexivity|]. repeat split; vm_compute; reflexivity. Qed.

(** ** C32: the messages asked for when only the attributes matter (context.py:170-175) *)
Theorem C32_attributes : forall x m s sel, x_short x = JStr s -> scalar (x_member x) -> select_cmd_attrs x = Ok sel ->
  (find m sel = Ok true <->
   dget String.eqb m "shortName" = Some (JStr s) /\ opt_matches (x_member x) m "perturbationNumber").
Proof.
  intros x m s sel Hs Hm H. unfold select_cmd_attrs in H. rewrite Hs in H. assert (E : sel = (("shortName", SVal (JStr s)) :: opt_sel "perturbationNumber" (x_member x))%list) by congruence.
  clear H. subst sel. cbn [find]. destruct (dget String.eqb m "shortName") as [v|].
  - cbn [sel_match rbind]. pose proof (find_opt m "perturbationNumber" (x_member x) [] Hm) as F. rewrite app_nil_r in F. cbn [find] in F.
    pose proof (jeq_iff v (JStr s) I ltac:(discriminate)) as J. destruct (jeq v (JStr s)).
    + rewrite F. assert (v = JStr s) by now apply J. subst v. tauto.
    + split; [discriminate|]. intros [E _]. assert (v = JStr s) by congruence. apply J in H. discriminate.
  - split; [discriminate|]. intros [E _]. discriminate.
Qed.
Print Assumptions C32_attributes.
Example C32_attributes_nonvacuous :
  exists x sel, define_exec_params Props_Context.ex_env Props_Context.ex_cli (Some (Props_Context.ex_cmd [] [] [])) = Ok x /\
    select_cmd_attrs x = Ok sel /\ x_short x = JStr "2t" /\ scalar (x_member x) /\
    find [("shortName", JStr "2t")] sel = Ok true /\ find [("shortName", JStr "2T")] sel = Ok false.
Proof. eexists _, _. repeat split. Qed.
