(** * Property C57: the messages handed to the construction of the tables
    (readers/grib.py get_gids_for_grib_intertable). Vocabulary: Spec_Reader.v *)
From Verif Require Import Base Num PyStr Config Context Aggregator Reader Spec_Reader Base_P PyStr_P Context_P2 Reader_P Reader_P2 Reader_P3 Reader_P4 Props_Reader.
From Coq Require Import Permutation Sorted.
Local Open Scope string_scope.

(** after a selection the handle and the values for the table of the first grid
    are those of the first selected message; with one change of grid, the
    handle and the values for the second table are those of one message that
    comes after the change; with one grid there is no second table *)
Theorem C57_tables : forall sel r w wp names m r' w', good_world w -> r_index r = Some wp -> r_ext r = None ->
  sel_names sel = Ok (map JStr names) -> NoDup names -> typed_pert sel ->
  select_messages sel r w = (Ok m, (r', w')) ->
  exists g1 m1 rest sel', let gms := ((g1, m1) :: rest)%list in
   effective_sel sel (r_msgs r) sel' /\ Permutation (map snd gms) (filter (accepted sel') (r_msgs r)) /\
   NoDup (map fst gms) /\
   (forall n, Forall (fun gm => has_int (snd gm) "Nj" n) gms ->
      intertable_gids r' w' = (Ok (g1, gm_values m1, None), (r', w'))) /\
   (forall n gms1 gms2, gms = (gms1 ++ gms2)%list -> gms1 <> [] -> gms2 <> [] ->
      Forall (fun gm => has_int (snd gm) "Nj" n) gms1 ->
      Forall (fun gm => exists n2, has_int (snd gm) "Nj" n2 /\ n2 <> n) gms2 ->
      exists g2 m2, In (g2, m2) gms2 /\ intertable_gids r' w' = (Ok (g1, gm_values m1, Some (g2, gm_values m2)), (r', w'))).
Proof.
  intros sel r w wp names m r' w' Hw Hi Hx Hn Hnd Hty H. unfold select_messages in H. destruct (get_gids sel r w) as [y [r1 w1]] eqn:Eg.
  destruct y as [[|g gs]|e]; [discriminate| |discriminate].
  destruct (gids_selected _ _ _ _ _ _ _ _ Hw Hi Hn Hnd Hty Eg) as [ms [sel' [He [Hp [Hl [Ho Hsc]]]]]].
  rewrite (opened_derefs _ _ _ _ Hw Hl Ho) in H. destruct Hsc as [_ [S1 [S2 [S3 Hrest]]]]. rewrite S1, S2, S3 in H.
  destruct (build_messages (r_step r) (r_step2 r) (r_change r) (combine (g :: gs) ms)) as [m'|e] eqn:Eb; [|discriminate].
  assert (m' = m) by congruence. subst m'.
  destruct ms as [|m1 ms]; [discriminate|]. cbn [combine] in *.
  assert (Hx1 : r_ext r1 = None) by (destruct Hrest as [_ [E _]]; congruence).
  exists g, m1, (combine gs ms), sel'. cbv zeta. split; [exact He|].
  assert (Es : map snd ((g, m1) :: combine gs ms) = m1 :: ms) by (cbn [map snd]; f_equal; apply map_snd_combine; cbn in Hl; lia).
  split; [rewrite Es; exact Hp|]. split; [destruct Ho as [_ [_ [_ [_ [_ [_ Hd]]]]]]; exact Hd|].
  assert (Hw1 : good_world w1) by exact (opened_good _ _ _ Hw Ho).
  assert (Hin : forall g' m', In (g', m') ((g, m1) :: combine gs ms) -> w_deref g' w1 = (Ok m', w1)).
  { intros g' m' Hi'. unfold w_deref. rewrite (good_dget w1 g' m' Hw1); [reflexivity|]. destruct Ho as [-> _]. apply in_or_app. now right. }
  split.
  - intros n Hall. destruct (build_single _ _ _ _ _ n Eb Hall) as [xs [_ [_ [_ Hg]]]]. rewrite Hg, Hx1 in H. injection H as <- <-.
    unfold intertable_gids. cbn [set_sel r_main r_ext]. rewrite (Hin g m1) by now left. reflexivity.
  - intros n g1 g2 E Hne1 Hne2 Ha1 Ha2. rewrite E in Eb.
    destruct (build_change _ _ _ _ _ _ n Eb Hne1 Hne2 Ha1 Ha2) as [xs1 [xs2 [_ [_ [_ [_ [gr [k [Hg [[g' [m' [Hi' Hd]]] _]]]]]]]]]].
    rewrite Hg in H. injection H as <- <-. exists g', m'. split; [exact Hi'|].
    unfold grid_details in Hd. apply rbind_ok in Hd as [i [_ Hd]]. injection Hd as <-.
    unfold intertable_gids. cbn [set_sel r_main r_ext g_gid]. rewrite (Hin g m1) by now left.
    rewrite (Hin g' m'); [reflexivity|]. rewrite E. apply in_or_app. now right.
Qed.
Print Assumptions C57_tables.

(** the series of C57_nonvacuous: the second table is made from a message of the
    second grid *)
Example C57_tables_nonvacuous :
  match read ex_file "2t" 0 36 with
  | (Ok m, (r, w)) =>
      match fst (intertable_gids r w) with
      | Ok (g1, v1, Some (g2, v2)) => (negb (g1 =? g2)%Z && forallb (fun p => neqb (fst p) (snd p)) (combine v2 [nint 10]) && (List.length v1 =? 2)%nat && (List.length v2 =? 1)%nat)%bool
      | _ => false
      end
  | _ => false
  end = true.
Proof. vm_compute. reflexivity. Qed.
