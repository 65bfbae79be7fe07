(** * Sim_P: two executions whose worlds differ only in the numbers of the
    handles do the same (for C98). *)
From Verif Require Import Base Base_P Num PyStr Strings Config Context Aggregator Converter Reader Spec_Reader Reader_P2 Controller.
From Coq Require Import Lia.
Local Open Scope string_scope.

(** ** Pure part: renumbering *)
Definition rmap {A B} (f : A -> B) (x : res A) : res B := match x with Ok a => Ok (f a) | Raise e => Raise e end.
Lemma rmap_bind {A B C} (f : B -> C) (x : res A) (k : A -> res B) : rmap f (rbind x k) = rbind x (fun a => rmap f (k a)).
Proof. destruct x; reflexivity. Qed.
Lemma rbind_rmap {A B C} (f : A -> B) (x : res A) (k : B -> res C) : rbind (rmap f x) k = rbind x (fun a => k (f a)).
Proof. destruct x; reflexivity. Qed.
Lemma rbind_ext {A B} (x : res A) (k k' : A -> res B) : (forall a, k a = k' a) -> rbind x k = rbind x k'.
Proof. intro H. destruct x; cbn; auto. Qed.

Section Shift.
Variable k : Z.
Definition sgrid (g : grid) : grid := mkGrid (g_gid g + k) (g_id g) (g_nj g).
Definition smsg (m : messages) : messages :=
  mkMessages (m_first m) (m_second m) (m_mv m) (m_unit m) (m_level m) (m_type m) (m_step_units m) (m_date m) (m_first_step m)
    (sgrid (m_grid m)) (option_map (fun p => (sgrid (fst p), snd p)) (m_grid2 m)).
Definition spair (gm : Z * gmsg) : Z * gmsg := (fst gm + k, snd gm)%Z.
Definition sst (st : sel_state) : sel_state := mkSel (ss_input st) (ss_first st) (ss_second st) (option_map sgrid (ss_grid2 st)).

Lemma details_shift g m : grid_details (g + k) m = rmap sgrid (grid_details g m).
Proof. unfold grid_details. destruct (build_id m); reflexivity. Qed.
Lemma body_shift step2 change main st gm :
  select_body step2 change (sgrid main) (sst st) (spair gm) = rmap sst (select_body step2 change main st gm).
Proof.
  destruct gm as [g m]. unfold select_body, spair. cbn [fst snd].
  rewrite !rmap_bind. apply rbind_ext. intro s. rewrite !rmap_bind. apply rbind_ext. intro e. rewrite !rmap_bind. apply rbind_ext. intro nj. rewrite !rmap_bind. apply rbind_ext. intro lev.
  cbv zeta. cbn [sst ss_input ss_first ss_second ss_grid2]. change (other_nj nj (sgrid main)) with (other_nj nj main).
  destruct (other_nj nj main).
  - rewrite details_shift. destruct (grid_details g m) as [x|e1]; [|reflexivity]. cbn [rmap rbind]. destruct (msg_field m); reflexivity.
  - cbn [rbind]. destruct (msg_field m); [|reflexivity]. cbn [rbind]. destruct (ss_grid2 st); reflexivity.
Qed.
Lemma fold_shift step2 change main ms : forall st,
  foldM (select_body step2 change (sgrid main)) (map spair ms) (sst st) = rmap sst (foldM (select_body step2 change main) ms st).
Proof.
  induction ms as [|gm ms IH]; intro st; [reflexivity|]. cbn [map foldM]. rewrite body_shift, rmap_bind, rbind_rmap. apply rbind_ext. intro st'. apply IH.
Qed.
Lemma build_shift step step2 change ms : build_messages step step2 change (map spair ms) = rmap smsg (build_messages step step2 change ms).
Proof.
  destruct ms as [|[g0 m0] ms]; [reflexivity|]. unfold build_messages. cbn [map spair fst snd]. rewrite details_shift, rbind_rmap, rmap_bind. apply rbind_ext. intro main.
  cbv zeta. replace (match map spair ms with (_, m1) :: _ => m1 | [] => m0 end) with (match ms with (_, m1) :: _ => m1 | [] => m0 end) by (destruct ms as [|[g1 m1] ms]; reflexivity).
  do 7 (rewrite rmap_bind; apply rbind_ext; intro).
  assert (F := fold_shift step2 change main ((g0, m0) :: ms) (mkSel step [] [] None)). cbn [map spair fst snd sst ss_input ss_first ss_second ss_grid2 option_map] in F.
  unfold sst at 1 in F. cbn [fst snd ss_input ss_first ss_second ss_grid2 option_map] in F. rewrite F, rbind_rmap, rmap_bind. apply rbind_ext. intro st. cbn [sst ss_grid2 ss_first ss_second].
  destruct (ss_grid2 st) as [x|]; cbn [option_map].
  - rewrite rmap_bind. destruct (min_step (dkeys (ss_second st))) as [kk|]; [|reflexivity]. cbn [rbind]. rewrite !rmap_bind. apply rbind_ext. intro d. rewrite rmap_bind. apply rbind_ext. intro fs. reflexivity.
  - cbn [rbind]. rewrite rmap_bind. apply rbind_ext. intro d. rewrite rmap_bind. apply rbind_ext. intro fs. reflexivity.
Qed.
Lemma info_shift ms : info_of (map spair ms) = info_of ms.
Proof.
  destruct ms as [|[g0 m0] ms]; [reflexivity|]. unfold info_of.
  assert (L : snd (List.last (map spair ((g0, m0) :: ms)) (0%Z, m0)) = snd (List.last ((g0, m0) :: ms) (0%Z, m0))).
  { generalize ((g0, m0) :: ms) as l. intro l. induction l as [|a [|b l] IH]; [reflexivity|reflexivity|exact IH]. }
  cbn [map spair fst snd] in L |- *. rewrite L. apply rbind_ext. intro t. apply rbind_ext. intro mv.
  assert (P : forall l, mapM (fun gm : Z * gmsg => do a <- kint (snd gm) "startStep"; do b <- kint (snd gm) "endStep"; Ok (a, b)) (map spair l) =
                        mapM (fun gm : Z * gmsg => do a <- kint (snd gm) "startStep"; do b <- kint (snd gm) "endStep"; Ok (a, b)) l).
  { induction l as [|a l IH]; [reflexivity|]. cbn [map mapM spair snd]. now rewrite IH. }
  specialize (P ((g0, m0) :: ms)). cbn [map] in P. rewrite P. reflexivity.
Qed.
Lemma append_shift m m2 : append_2nd (smsg m) (smsg m2) = smsg (append_2nd m m2).
Proof. reflexivity. Qed.
Lemma values_shift ev x input e g m : exec_values ev x input e g (smsg m) = rmap (fun '(v, m', c) => (v, smsg m', c)) (exec_values ev x input e g m).
Proof.
  unfold exec_values.
  assert (C : convert_messages ev x (smsg m) = rmap (fun '(c, m') => (c, smsg m')) (convert_messages ev x m)).
  { unfold convert_messages. destruct (x_doConv x); [|reflexivity]. cbv zeta. cbn [smsg m_first m_second m_mv].
    set (c := set_missing_value _ _). destruct (convert_fields ev c (m_first m)); [|reflexivity]. cbn [rbind]. destruct (convert_fields ev c (m_second m)); reflexivity. }
  rewrite C, rbind_rmap, rmap_bind. apply rbind_ext. intros [c m'].
  assert (A : aggregate x input e g (smsg m') = aggregate x input e g m').
  { unfold aggregate. cbn [smsg m_grid2 m_first]. destruct (m_grid2 m') as [[gr kk]|]; reflexivity. }
  rewrite A, rmap_bind. apply rbind_ext. intros [values change]. reflexivity.
Qed.
End Shift.
