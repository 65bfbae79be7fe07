(** * Sim_P2: operations of a reader in two worlds that differ in the numbers of
    the handles opened since the start (for C98). *)
From Verif Require Import Base Base_P Num PyStr Strings Config Context Aggregator Converter Reader Spec_Reader Reader_P2 Controller Sim_P.
From Coq Require Import Lia.
Local Open Scope string_scope.

(** the grids are those of messages read *)
Lemma fold_grid2 step2 change main l : forall st st', foldM (select_body step2 change main) l st = Ok st' ->
  forall x, ss_grid2 st' = Some x -> ss_grid2 st = Some x \/ exists g m, In (g, m) l /\ grid_details g m = Ok x.
Proof.
  induction l as [|[g m] l IH]; intros st st' H x Hx; [injection H as <-; auto|]. cbn [foldM] in H. apply rbind_ok in H as (st1 & H1 & H).
  destruct (IH st1 st' H x Hx) as [E|(g' & m' & I & D)]; [|right; exists g', m'; split; [now right|exact D]].
  unfold select_body in H1. do 4 apply rbind_ok in H1 as (? & _ & H1). cbv zeta in H1. apply rbind_ok in H1 as (g2 & Hg & H1). apply rbind_ok in H1 as (v & _ & H1).
  assert (E2 : ss_grid2 st1 = g2). { destruct g2 as [y|]; [destruct (other_nj _ main)|]; injection H1 as <-; reflexivity. }
  rewrite E2 in E. subst g2. destruct (other_nj _ main); [|left; congruence].
  apply rbind_ok in Hg as (y & Hd & Hy). right. exists g, m. split; [now left|]. congruence.
Qed.
Lemma build_grids step step2 change ms m : build_messages step step2 change ms = Ok m ->
  (exists g m0, In (g, m0) ms /\ grid_details g m0 = Ok (m_grid m)) /\
  forall gr kk, m_grid2 m = Some (gr, kk) -> exists g m0, In (g, m0) ms /\ grid_details g m0 = Ok gr.
Proof.
  intro H. unfold build_messages in H. destruct ms as [|[g0 m0] ms]; [discriminate|]. apply rbind_ok in H as (main & Hm & H). cbv zeta in H. do 7 apply rbind_ok in H as (? & _ & H).
  apply rbind_ok in H as (st & Hst & H). apply rbind_ok in H as (g2 & Hg2 & H). apply rbind_ok in H as (d & _ & H). apply rbind_ok in H as (fs & _ & H).
  assert (A1 : m_grid m = main /\ m_grid2 m = g2) by (injection H as <-; split; reflexivity). clear H. destruct A1 as [-> ->]. split; [exists g0, m0; split; [now left|exact Hm]|].
  intros gr kk ->. destruct (ss_grid2 st) as [y|] eqn:Ey; [|discriminate]. apply rbind_ok in Hg2 as (k2 & _ & Hk). assert (y = gr) by congruence. subst y.
  destruct (fold_grid2 _ _ _ _ _ _ Hst gr Ey) as [E|E]; [discriminate|exact E].
Qed.
Lemma details_gid g m x : grid_details g m = Ok x -> g_gid x = g.
Proof. unfold grid_details. intro H. apply rbind_ok in H as (i & _ & H). injection H as <-. reflexivity. Qed.

Section Sim.
(** what was open at the start of the two executions; handles opened since then
    are at least [n], the other execution adds [k] to them *)
Variable n k : Z.
Variable L1 L2 : list (Z * gmsg).
Hypothesis low1 : Forall (fun gm => fst gm < n)%Z L1.
Hypothesis low2 : Forall (fun gm => fst gm < n + k)%Z L2.

Definition rel (w1 w2 : world) : Prop :=
  good_world w1 /\ (n <= w_next w1)%Z /\ w_next w2 = (w_next w1 + k)%Z /\
  exists l, w_live w1 = (L1 ++ l)%list /\ w_live w2 = (L2 ++ map (spair k) l)%list /\ Forall (fun gm => n <= fst gm)%Z l.
Definition hs (gs1 gs2 : list Z) : Prop := gs2 = map (fun g => g + k)%Z gs1 /\ Forall (fun g => n <= g)%Z gs1.
Definition ho (g1 g2 : option Z) : Prop := g2 = option_map (fun g => g + k)%Z g1 /\ forall g, g1 = Some g -> (n <= g)%Z.
Definition rrel (r1 r2 : reader) : Prop :=
  r_index r2 = r_index r1 /\ r_file r2 = r_file r1 /\ r_msgs r2 = r_msgs r1 /\
  (exists gs1 gs2, r_sel r1 = Some gs1 /\ r_sel r2 = Some gs2 /\ hs gs1 gs2) /\
  r_step r2 = r_step r1 /\ r_step2 r2 = r_step2 r1 /\ r_change r2 = r_change r1 /\ ho (r_main r1) (r_main r2) /\ ho (r_ext r1) (r_ext r2).
Definition resr {A B} (R : A -> B -> Prop) (x : res A) (y : res B) : Prop :=
  match x, y with Ok a, Ok b => R a b | Raise e, Raise e' => e = e' | _, _ => False end.
(** the same operation in both *)
Definition opr {A B} (R : A -> B -> Prop) (a : res A * (reader * world)) (b : res B * (reader * world)) : Prop :=
  resr R (fst a) (fst b) /\ rrel (fst (snd a)) (fst (snd b)) /\ rel (snd (snd a)) (snd (snd b)).

(** *** handles *)
Lemma dget_low (l1 l2 : list (Z * gmsg)) b g : Forall (fun gm => fst gm < b)%Z l1 -> (b <= g)%Z -> dget Z.eqb (l1 ++ l2)%list g = dget Z.eqb l2 g.
Proof. intros H Hg. induction H as [|[g' m] l1 H1 _ IH]; [reflexivity|]. cbn [app dget fst] in *. destruct (Z.eqb_spec g g'); [lia|exact IH]. Qed.
Lemma ddel_low (l1 l2 : list (Z * gmsg)) b g : Forall (fun gm => fst gm < b)%Z l1 -> (b <= g)%Z -> ddel Z.eqb (l1 ++ l2)%list g = (l1 ++ ddel Z.eqb l2 g)%list.
Proof. intros H Hg. induction H as [|[g' m] l1 H1 _ IH]; [reflexivity|]. cbn [app ddel fst] in *. destruct (Z.eqb_spec g g'); [lia|]. now rewrite IH. Qed.
Lemma dget_shift l g : dget Z.eqb (map (spair k) l) (g + k)%Z = dget Z.eqb l g.
Proof. induction l as [|[g' m] l IH]; [reflexivity|]. cbn [map spair dget fst snd]. replace (g + k =? g' + k)%Z with (g =? g')%Z by (destruct (Z.eqb_spec g g'), (Z.eqb_spec (g + k) (g' + k)); lia). now rewrite IH. Qed.
Lemma ddel_shift l g : ddel Z.eqb (map (spair k) l) (g + k)%Z = map (spair k) (ddel Z.eqb l g).
Proof. induction l as [|[g' m] l IH]; [reflexivity|]. cbn [map spair ddel fst snd]. replace (g + k =? g' + k)%Z with (g =? g')%Z by (destruct (Z.eqb_spec g g'), (Z.eqb_spec (g + k) (g' + k)); lia). destruct (g =? g')%Z; [reflexivity|]. cbn [map]. now rewrite IH. Qed.
Lemma ddel_sub (l : list (Z * gmsg)) g x : In x (ddel Z.eqb l g) -> In x l.
Proof. induction l as [|[g' m] l IH]; [auto|]. cbn [ddel]. destruct (g =? g')%Z; cbn; intuition. Qed.
Lemma ddel_fst (l : list (Z * gmsg)) g : NoDup (map fst l) -> NoDup (map fst (ddel Z.eqb l g)).
Proof.
  induction l as [|[g' m] l IH]; [auto|]. cbn [ddel map fst]. intro H. inversion H as [|? ? H1 H2]; subst. destruct (g =? g')%Z; [exact H2|].
  cbn [map fst]. constructor; [|auto]. intro I. apply H1. apply in_map_iff in I as (p & E & I). apply in_map_iff. exists p. split; [exact E|]. now apply ddel_sub in I.
Qed.

Lemma rel_live w1 w2 g : rel w1 w2 -> (n <= g)%Z -> dget Z.eqb (w_live w2) (g + k)%Z = dget Z.eqb (w_live w1) g.
Proof.
  intros (_ & _ & _ & l & -> & -> & _) Hg. rewrite (dget_low L1 l n g low1 Hg), (dget_low L2 _ (n + k)%Z (g + k)%Z low2) by lia. apply dget_shift.
Qed.
Lemma sim_open m w1 w2 : rel w1 w2 -> fst (w_open m w2) = (fst (w_open m w1) + k)%Z /\ (n <= fst (w_open m w1))%Z /\ rel (snd (w_open m w1)) (snd (w_open m w2)).
Proof.
  intro H. pose proof H as (G & N & E & l & E1 & E2 & F). cbn [w_open fst snd]. split; [exact E|]. split; [exact N|]. unfold rel. split; [exact (opened_good _ _ _ G (opened_one m w1))|].
  cbn [w_next w_live]. split; [lia|]. split; [lia|]. exists (l ++ [(w_next w1, m)])%list. rewrite E1, E2, map_app, E, <- !app_assoc. split; [reflexivity|]. split; [reflexivity|].
  apply Forall_app. split; [exact F|]. now constructor.
Qed.
Lemma sim_release g w1 w2 : rel w1 w2 -> (n <= g)%Z -> rel (w_release g w1) (w_release (g + k) w2).
Proof.
  intros H Hg. pose proof (rel_live _ _ g H Hg) as D. pose proof H as (G & N & E & l & E1 & E2 & F). unfold w_release, dmem. rewrite D. destruct (dget Z.eqb (w_live w1) g) eqn:Eg.
  - split; [|cbn [w_next w_live]; split; [exact N|]; split; [exact E|]; exists (ddel Z.eqb l g)].
    + destruct G as [G1 G2]. split; cbn [w_live w_next]; [now apply ddel_fst|]. apply Forall_forall. intros x Hx. apply ddel_sub in Hx. rewrite Forall_forall in G2. now apply G2.
    + rewrite E1, E2, (ddel_low L1 l n g low1 Hg), (ddel_low L2 _ (n + k)%Z (g + k)%Z low2), ddel_shift by lia. split; [reflexivity|]. split; [reflexivity|].
      apply Forall_forall. intros x Hx. apply ddel_sub in Hx. rewrite Forall_forall in F. now apply F.
  - split; [destruct G; split; assumption|]. cbn [w_next w_live]. split; [exact N|]. split; [exact E|]. exists l. auto.
Qed.
Lemma sim_releases gs1 : forall w1 w2, rel w1 w2 -> Forall (fun g => n <= g)%Z gs1 -> rel (w_releases gs1 w1) (w_releases (map (fun g => g + k)%Z gs1) w2).
Proof.
  induction gs1 as [|g gs IH]; intros w1 w2 H F; [exact H|]. inversion F as [|? ? F1 F2]; subst. cbn [w_releases fold_left map]. apply IH; [|exact F2]. now apply sim_release.
Qed.
Lemma sim_deref g w1 w2 : rel w1 w2 -> (n <= g)%Z -> fst (w_deref (g + k) w2) = fst (w_deref g w1) /\ rel (snd (w_deref g w1)) (snd (w_deref (g + k) w2)).
Proof.
  intros H Hg. pose proof (rel_live _ _ g H Hg) as D. unfold w_deref. rewrite D. destruct (dget Z.eqb (w_live w1) g); [auto|]. split; [reflexivity|].
  cbn [snd]. destruct H as (G & N & E & l & E1 & E2 & F). split; [destruct G; split; assumption|]. cbn [w_next w_live]. eauto 8.
Qed.
Lemma sim_derefs gs : forall w1 w2, rel w1 w2 -> Forall (fun g => n <= g)%Z gs ->
  resr (fun l1 l2 => l2 = map (spair k) l1 /\ map fst l1 = gs) (fst (w_derefs gs w1)) (fst (w_derefs (map (fun g => g + k)%Z gs) w2)) /\
  rel (snd (w_derefs gs w1)) (snd (w_derefs (map (fun g => g + k)%Z gs) w2)).
Proof.
  induction gs as [|g gs IH]; intros w1 w2 H F; [cbn; auto|]. inversion F as [|? ? F1 F2]; subst. cbn [w_derefs map].
  destruct (sim_deref g w1 w2 H F1) as [D1 D2]. destruct (w_deref g w1) as [[m|e] w1'], (w_deref (g + k) w2) as [[m'|e'] w2']; cbn [fst snd] in *; try discriminate; [|cbn; split; [congruence|exact D2]].
  injection D1 as ->. destruct (IH w1' w2' D2 F2) as [I1 I2].
  destruct (w_derefs gs w1') as [[l1|e] w1''], (w_derefs (map (fun g0 => g0 + k)%Z gs) w2') as [[l2|e'] w2'']; cbn [fst snd resr] in *; try contradiction; [|auto].
  destruct I1 as [-> <-]. auto.
Qed.

(** *** reading *)
Lemma sim_scan sel ms : forall w1 w2, rel w1 w2 ->
  let a := scan sel ms w1 in let b := scan sel ms w2 in
  resr hs (fst (fst a)) (fst (fst b)) /\ snd (fst a) = snd (fst b) /\ rel (snd a) (snd b).
Proof.
  induction ms as [|m ms IH]; intros w1 w2 H; cbv zeta; [cbn; split; [split; [reflexivity|constructor]|auto]|].
  cbn [scan]. destruct (sim_open m w1 w2 H) as (O1 & O2 & O3). destruct (w_open m w1) as [g1 w1'], (w_open m w2) as [g2 w2']. cbn [fst snd] in O1, O2, O3. subst g2.
  destruct (find (gm_keys m) sel) as [[]|e]; [| |cbn; auto].
  - specialize (IH w1' w2' O3). cbv zeta in IH. destruct (scan sel ms w1') as [[[gs1|e1] rest1] w1''], (scan sel ms w2') as [[[gs2|e2] rest2] w2'']; cbn [fst snd resr] in *; try tauto.
    destruct IH as ([-> F] & E & R). split; [split; [reflexivity|now constructor]|auto].
  - apply IH. now apply sim_release.
Qed.
Lemma sim_names sel wp ms names : forall w1 w2, rel w1 w2 ->
  let a := scan_names sel wp ms names w1 in let b := scan_names sel wp ms names w2 in resr hs (fst a) (fst b) /\ rel (snd a) (snd b).
Proof.
  induction names as [|v names IH]; intros w1 w2 H; cbv zeta; [cbn; split; [split; [reflexivity|constructor]|auto]|].
  cbn [scan_names]. destruct (do s <- jstr v; do p <- sel_pert sel; match p with Some _ => if wp then Ok (s, p) else Raise OtherError | None => Ok (s, p) end) as [[s p]|e]; [|cbn; auto].
  pose proof (sim_scan sel (filter (in_index s p) ms) w1 w2 H) as S. cbv zeta in S.
  destruct (scan sel (filter (in_index s p) ms) w1) as [[[gs1|e1] rest1] w1'], (scan sel (filter (in_index s p) ms) w2) as [[[gs2|e2] rest2] w2']; cbn [fst snd resr] in S; try tauto.
  destruct S as (S1 & _ & S3). specialize (IH w1' w2' S3). cbv zeta in IH.
  destruct (scan_names sel wp ms names w1') as [[gs1'|e1] w1''], (scan_names sel wp ms names w2') as [[gs2'|e2] w2'']; cbn [fst snd resr] in *; try tauto.
  destruct IH as [[-> F'] R]. destruct S1 as [-> F]. split; [|exact R]. split; [now rewrite map_app|]. apply Forall_app. auto.
Qed.
Lemma rrel_file r1 r2 f : rrel r1 r2 -> rrel (set_file r1 f) (set_file r2 f).
Proof. unfold rrel, set_file. cbn. intuition. Qed.
Lemma sim_scan_grib sel r1 r2 w1 w2 : rrel r1 r2 -> rel w1 w2 -> opr hs (scan_grib sel r1 w1) (scan_grib sel r2 w2).
Proof.
  intros Hr H. pose proof Hr as (R1 & R2 & R3 & _). unfold scan_grib, opr. rewrite R1, R2, R3.
  destruct (sel_names sel) as [names|e]; [|cbn; auto]. destruct (r_index r1) as [wp|].
  - pose proof (sim_names sel wp (r_msgs r1) names w1 w2 H) as S. cbv zeta in S. destruct (scan_names sel wp (r_msgs r1) names w1) as [x1 w1'], (scan_names sel wp (r_msgs r1) names w2) as [x2 w2']. cbn [fst snd] in *. tauto.
  - destruct (r_file r1) as [ms|]; [|cbn; split; [split; [reflexivity|constructor]|auto]].
    pose proof (sim_scan sel ms w1 w2 H) as S. cbv zeta in S. destruct (scan sel ms w1) as [[x1 rest1] w1'], (scan sel ms w2) as [[x2 rest2] w2']. cbn [fst snd] in *.
    destruct S as (S1 & -> & S3). split; [exact S1|]. split; [now apply rrel_file|exact S3].
Qed.
Lemma resr_nve {A B} (R : A -> B -> Prop) x y : resr R x y -> resr R (no_value_error x) (no_value_error y).
Proof. destruct x as [a|e], y as [b|e']; cbn; try tauto. intros <-. destruct e; reflexivity. Qed.
Lemma sim_gids sel r1 r2 w1 w2 : rrel r1 r2 -> rel w1 w2 -> opr hs (get_gids sel r1 w1) (get_gids sel r2 w2).
Proof.
  intros Hr H. pose proof (sim_scan_grib sel r1 r2 w1 w2 Hr H) as (S1 & S2 & S3). unfold get_gids.
  destruct (scan_grib sel r1 w1) as [x1 [r1' w1']], (scan_grib sel r2 w2) as [x2 [r2' w2']]. cbn [fst snd] in *.
  destruct x1 as [gs1|e1], x2 as [gs2|e2]; cbn [resr] in S1; try tauto; [|subst e2; split; [destruct e1; reflexivity|auto]].
  destruct S1 as [-> F]. destruct gs1 as [|g gs]; cbn [map].
  - destruct (retry_sel sel) as [sel'|]; [|split; [split; [reflexivity|constructor]|auto]].
    pose proof (sim_scan_grib sel' r1' r2' w1' w2' S2 S3) as (T1 & T2 & T3). destruct (scan_grib sel' r1' w1') as [y1 rw1], (scan_grib sel' r2' w2') as [y2 rw2]. cbn [fst snd] in *.
    split; [now apply resr_nve|auto].
  - split; [split; [reflexivity|exact F]|auto].
Qed.
Lemma sim_info sel r1 r2 w1 w2 : rrel r1 r2 -> rel w1 w2 -> opr eq (get_grib_info sel r1 w1) (get_grib_info sel r2 w2).
Proof.
  intros Hr H. pose proof (sim_gids sel r1 r2 w1 w2 Hr H) as (S1 & S2 & S3). unfold get_grib_info.
  destruct (get_gids sel r1 w1) as [x1 [r1' w1']], (get_gids sel r2 w2) as [x2 [r2' w2']]. cbn [fst snd] in *.
  destruct x1 as [gs1|e1], x2 as [gs2|e2]; cbn [resr] in S1; try tauto; [|split; auto].
  destruct S1 as [-> F]. destruct gs1 as [|g gs]; [split; [reflexivity|auto]|].
  pose proof (sim_derefs (g :: gs) w1' w2' S3 F) as (D1 & D2). remember (g :: gs) as G. assert (M : exists g2 gs2, map (fun g0 => g0 + k)%Z G = g2 :: gs2) by (subst G; cbn; eauto). destruct M as (g2 & gs2 & M). rewrite M in *.
  rewrite HeqG. cbv iota. rewrite <- HeqG.
  destruct (w_derefs G w1') as [[l1|e] w1''], (w_derefs (g2 :: gs2) w2') as [[l2|e'] w2'']; cbn [fst snd resr] in *; try tauto; [|split; auto].
  destruct D1 as [-> E]. rewrite info_shift. destruct (info_of l1) as [[[i t] mv]|e]; [|split; [reflexivity|auto]].
  split; [reflexivity|]. cbn [fst snd]. split; [|rewrite <- M; now apply sim_releases]. clear -S2. unfold rrel, set_steps in *. cbn. intuition.
Qed.
Lemma sim_select sel r1 r2 w1 w2 : rrel r1 r2 -> rel w1 w2 ->
  opr (fun m1 m2 => m2 = smsg k m1) (select_messages sel r1 w1) (select_messages sel r2 w2).
Proof.
  intros Hr H. pose proof (sim_gids sel r1 r2 w1 w2 Hr H) as (S1 & S2 & S3). unfold select_messages.
  destruct (get_gids sel r1 w1) as [x1 [r1' w1']], (get_gids sel r2 w2) as [x2 [r2' w2']]. cbn [fst snd] in *.
  destruct x1 as [gs1|e1], x2 as [gs2|e2]; cbn [resr] in S1; try tauto; [|split; auto].
  destruct S1 as [-> F]. pose proof S2 as (Q1 & Q2 & Q3 & Q4 & Q5 & Q6 & Q7 & Q8 & Q9).
  assert (K : forall gs m1 m2 x1 x2, Forall (fun g => n <= g)%Z gs -> ho m1 m2 -> ho x1 x2 -> rrel (set_sel r1' gs m1 x1) (set_sel r2' (map (fun g => g + k)%Z gs) m2 x2)).
  { intros gs m1 m2 y1 y2 Fg A B. unfold rrel, set_sel. cbn [r_index r_file r_msgs r_sel r_step r_step2 r_change r_main r_ext]. split; [exact Q1|]. split; [exact Q2|]. split; [exact Q3|]. split; [exists gs, (map (fun g => g + k)%Z gs); repeat split; exact Fg|]. auto 8. }
  destruct gs1 as [|g gs]; cbn [map]; [split; [reflexivity|]; split; [exact (K [] _ _ _ _ ltac:(constructor) Q8 Q9)|exact S3]|].
  pose proof (sim_derefs (g :: gs) w1' w2' S3 F) as (D1 & D2). cbn [map] in D1, D2.
  destruct (w_derefs (g :: gs) w1') as [[l1|e] w1''], (w_derefs ((g + k)%Z :: map (fun g0 => g0 + k)%Z gs) w2') as [[l2|e'] w2'']; cbn [fst snd resr] in D1, D2; try tauto.
  - destruct D1 as [-> E]. rewrite Q5, Q6, Q7, build_shift. assert (Hg : ho (Some g) (Some (g + k)%Z)). { split; [reflexivity|]. intros g' [= <-]. now inversion F. }
    destruct (build_messages (r_step r1') (r_step2 r1') (r_change r1') l1) as [m|e] eqn:Eb; cbn [rmap].
    + split; [reflexivity|]. split; [|exact D2]. apply (K (g :: gs)); [exact F|exact Hg|]. cbn [smsg m_grid2]. destruct (m_grid2 m) as [[gr kk]|] eqn:Em; cbn [option_map]; [|exact Q9].
      split; [reflexivity|]. intros g' [= <-]. cbn [fst].
      destruct (proj2 (build_grids _ _ _ _ _ Eb) gr kk Em) as (g' & m' & I & Dg). rewrite (details_gid _ _ _ Dg). apply (in_map fst) in I. rewrite E in I. rewrite Forall_forall in F. now apply F.
    + split; [reflexivity|]. split; [|exact D2]. now apply (K (g :: gs)).
  - split; [exact D1|]. split; [|exact D2]. apply (K (g :: gs)); [exact F| |exact Q9]. split; [reflexivity|]. intros g' [= <-]. now inversion F.
Qed.
Lemma sim_open_release ms : forall w1 w2, rel w1 w2 -> rel (open_release ms w1) (open_release ms w2).
Proof.
  induction ms as [|m ms IH]; intros w1 w2 H; [exact H|]. cbn [open_release]. destruct (sim_open m w1 w2 H) as (O1 & O2 & O3).
  destruct (w_open m w1) as [g1 w1'], (w_open m w2) as [g2 w2']. cbn [fst snd] in *. subst g2. apply IH. now apply sim_release.
Qed.
Lemma sim_geo p r1 r2 w1 w2 : rrel r1 r2 -> rel w1 w2 -> opr eq (has_geopotential p r1 w1) (has_geopotential p r2 w2).
Proof.
  intros Hr H. pose proof Hr as (R1 & R2 & R3 & _). unfold has_geopotential, opr. rewrite R1, R2, R3. destruct (r_index r1).
  - cbn [fst snd]. split; [reflexivity|]. split; [exact Hr|]. now apply sim_open_release.
  - destruct (r_file r1); cbn [fst snd]; (split; [reflexivity|]); [|auto]. split; [now apply rrel_file|]. now apply sim_open_release.
Qed.
Lemma sim_aux r1 r2 w1 w2 : rrel r1 r2 -> rel w1 w2 -> opr (fun _ _ => True) (intertable_gids r1 w1) (intertable_gids r2 w2).
Proof.
  intros Hr H. pose proof Hr as (_ & _ & _ & _ & _ & _ & _ & [M1 M2] & [E1 E2]). unfold intertable_gids. rewrite M1, E1. destruct (r_main r1) as [g|]; cbn [option_map]; [|split; [reflexivity|auto]].
  destruct (sim_deref g w1 w2 H (M2 g eq_refl)) as [D1 D2]. destruct (w_deref g w1) as [[m|e] w1'], (w_deref (g + k) w2) as [[m'|e'] w2']; cbn [fst snd] in *; try discriminate; [|split; [cbn; congruence|auto]].
  destruct (r_ext r1) as [g2|]; cbn [option_map]; [|split; [exact I|auto]].
  destruct (sim_deref g2 w1' w2' D2 (E2 g2 eq_refl)) as [D3 D4]. destruct (w_deref g2 w1') as [[m2|e] w1''], (w_deref (g2 + k) w2') as [[m2'|e'] w2'']; cbn [fst snd] in *; try discriminate; split; try exact I; auto. cbn. congruence.
Qed.
Lemma sim_main r1 r2 w1 w2 : rrel r1 r2 -> rel w1 w2 -> opr ho (get_main r1 w1) (get_main r2 w2).
Proof. intros Hr H. pose proof Hr as (_ & _ & _ & _ & _ & _ & _ & M & _). unfold get_main, opr. cbn. auto. Qed.
Lemma sim_ext g1 g2 r1 r2 w1 w2 : ho g1 g2 -> rrel r1 r2 -> rel w1 w2 -> opr eq (set_ext g1 r1 w1) (set_ext g2 r2 w2).
Proof. intros G Hr H. unfold set_ext, opr. cbn. split; [reflexivity|]. split; [|exact H]. unfold rrel in *. cbn. intuition. Qed.
Lemma sim_new f wp w1 w2 : rel w1 w2 -> match reader_new f wp w1, reader_new f wp w2 with
  | (Ok r1, w1'), (Ok r2, w2') => rrel r1 r2 /\ rel w1' w2' | (Raise e, _), (Raise e', _) => e = e' | _, _ => False end.
Proof.
  intro H. unfold reader_new. destruct f as [f|]; [|reflexivity].
  assert (R : forall i f1 m, rrel (mkReader i f1 m (Some []) (-1) (-1) "" None None) (mkReader i f1 m (Some []) (-1) (-1) "" None None)).
  { intros i f1 m. unfold rrel. cbn. repeat (split; [reflexivity|]). split; [exists [], []; repeat split; constructor|]. repeat (split; [reflexivity|]). split; (split; [reflexivity|discriminate]). }
  destruct H as ([G1 G2] & N & E & l & E1 & E2 & F). destruct (gf_indexable f); (split; [apply R|]); (split; [split; assumption|]); cbn [w_next w_live]; eauto 8.
Qed.

(** *** the whole execution *)
(** the handles of the grids are open *)
Definition live (w : world) (g : Z) : Prop := (n <= g)%Z /\ exists m, dget Z.eqb (w_live w) g = Some m.
Definition glive (w : world) (m : messages) : Prop :=
  live w (g_gid (m_grid m)) /\ forall gr kk, m_grid2 m = Some (gr, kk) -> live w (g_gid gr).
Lemma live_grows w w' l g : good_world w' -> w_live w' = (w_live w ++ l)%list -> live w g -> live w' g.
Proof.
  intros G E (N & m & D). split; [exact N|]. exists m. apply good_dget; [exact G|]. rewrite E. apply in_or_app. left. now apply (dget_In Z.eqb Zeqb_spec') in D.
Qed.
Lemma derefs_in gs : forall w l w', w_derefs gs w = (Ok l, w') -> w' = w /\ forall g m, In (g, m) l -> dget Z.eqb (w_live w) g = Some m.
Proof.
  induction gs as [|g gs IH]; intros w l w' H; cbn [w_derefs] in H; [injection H as <- <-; split; [reflexivity|intros ? ? []]|].
  unfold w_deref in H. destruct (dget Z.eqb (w_live w) g) as [m|] eqn:D; [|discriminate]. destruct (w_derefs gs w) as [[l'|e] w1] eqn:E; [|discriminate].
  injection H as <- <-. destruct (IH _ _ _ E) as [-> I]. split; [reflexivity|]. intros g' m' [[= <- <-]|H']; auto.
Qed.
Lemma select_live sel r1 r2 w1 w2 m r1' w1' : rrel r1 r2 -> rel w1 w2 -> select_messages sel r1 w1 = (Ok m, (r1', w1')) ->
  glive w1' m /\ (forall g, live w1 g -> live w1' g).
Proof.
  intros Hr H E. pose proof (sim_gids sel r1 r2 w1 w2 Hr H) as (S1 & S2 & S3). pose proof H as (G & _). unfold select_messages in E. destruct (get_gids sel r1 w1) as [x [r3 w3]] eqn:Eg.
  destruct (get_gids sel r2 w2) as [y [r4 w4]]. destruct x as [[|g gs]|e]; [discriminate| |discriminate]. cbn [fst snd] in S1, S3. destruct y as [gs2|]; cbn [resr] in S1; [|contradiction]. destruct S1 as [_ F].
  destruct (get_gids_spec _ _ _ _ _ _ G Eg) as [_ (ms & _ & Ho & _)].
  destruct (w_derefs (g :: gs) w3) as [[l|e] w5] eqn:Ed; [|discriminate]. destruct (derefs_in _ _ _ _ Ed) as [-> I].
  assert (Fl : map fst l = g :: gs). { pose proof (sim_derefs (g :: gs) w3 w4 S3 F) as (D1 & _). rewrite Ed in D1. cbn [fst] in D1. destruct (fst (w_derefs (map (fun g0 => g0 + k)%Z (g :: gs)) w4)); [exact (proj2 D1)|destruct D1]. }
  destruct (build_messages (r_step r3) (r_step2 r3) (r_change r3) l) as [m'|e] eqn:Eb; [|discriminate]. injection E as <- _ <-.
  destruct (build_grids _ _ _ _ _ Eb) as [B1 B2].
  assert (Q : forall g0 m0 x, In (g0, m0) l -> grid_details g0 m0 = Ok x -> live w3 (g_gid x)).
  { intros g0 m0 x I0 D0. rewrite (details_gid _ _ _ D0). split; [|exists m0; now apply I]. apply (in_map fst) in I0. rewrite Fl in I0. rewrite Forall_forall in F. now apply F. }
  split.
  - split; [destruct B1 as (g0 & m0 & I0 & D0); eauto|]. intros gr kk Em. destruct (B2 gr kk Em) as (g0 & m0 & I0 & D0). eauto.
  - intros g0. apply (live_grows w1 w3 (combine (g :: gs) ms)); [exact (proj1 S3)|]. now destruct Ho.
Qed.

Definition orel (a b : option reader) : Prop := match a, b with Some r1, Some r2 => rrel r1 r2 | None, None => True | _, _ => False end.
Definition srel (s1 s2 : cst) : Prop := rel (c_w s1) (c_w s2) /\ orel (c_r1 s1) (c_r1 s2) /\ orel (c_r2 s1) (c_r2 s2).
Definition mrel {A B} (P : cst -> Prop) (x1 : M A) (x2 : M B) (R : A -> B -> cst -> Prop) : Prop := forall s1 s2, srel s1 s2 -> P s1 ->
  match x1 s1, x2 s2 with (Ok a, s1'), (Ok b, s2') => R a b s1' /\ srel s1' s2' | (Raise e, _), (Raise e', _) => e = e' | _, _ => False end.
Lemma mrel_bind {A B C D} P (x1 : M A) (x2 : M B) R (f1 : A -> M C) (f2 : B -> M D) Q :
  mrel P x1 x2 R -> (forall a b, mrel (R a b) (f1 a) (f2 b) Q) -> mrel P (bind x1 f1) (bind x2 f2) Q.
Proof.
  intros H1 H2 s1 s2 Hs Hp. specialize (H1 s1 s2 Hs Hp). unfold bind. destruct (x1 s1) as [[a|e] s1'], (x2 s2) as [[b|e'] s2']; try contradiction; [|exact H1].
  destruct H1 as [H1 H3]. exact (H2 a b s1' s2' H3 H1).
Qed.
Lemma mrel_post {A B} (P : cst -> Prop) (x1 : M A) (x2 : M B) (R Q : A -> B -> cst -> Prop) : mrel P x1 x2 R -> (forall a b s, R a b s -> Q a b s) -> mrel P x1 x2 Q.
Proof. intros H1 H2 s1 s2 Hs Hp. specialize (H1 s1 s2 Hs Hp). destruct (x1 s1) as [[a|e] s1'], (x2 s2) as [[b|e'] s2']; auto. destruct H1. auto. Qed.
Lemma mrel_lift {A} (P : cst -> Prop) (r : res A) : mrel P (lift r) (lift r) (fun a b s => a = b /\ P s).
Proof. intros s1 s2 Hs Hp. unfold lift. destruct r; auto. Qed.
Lemma mrel_on1 {A B} (P : cst -> Prop) R (op1 : reader -> world -> res A * (reader * world)) (op2 : reader -> world -> res B * (reader * world)) :
  (forall r1 r2 w1 w2, rrel r1 r2 -> rel w1 w2 -> opr R (op1 r1 w1) (op2 r2 w2)) -> mrel P (on1 op1) (on1 op2) (fun a b s => R a b).
Proof.
  intros H s1 s2 (S1 & S2 & S3) _. unfold on1. unfold orel in S2. destruct (c_r1 s1) as [r1|], (c_r1 s2) as [r2|]; try contradiction; [|reflexivity].
  specialize (H r1 r2 _ _ S2 S1). unfold opr in H. destruct (op1 r1 (c_w s1)) as [[a|e] [r1' w1']], (op2 r2 (c_w s2)) as [[b|e'] [r2' w2']]; cbn [fst snd resr] in H; try tauto.
  destruct H as (H1 & H2 & H3). split; [exact H1|]. split; [exact H3|]. split; [exact H2|exact S3].
Qed.
Lemma mrel_on2 {A B} (P : cst -> Prop) R (op1 : reader -> world -> res A * (reader * world)) (op2 : reader -> world -> res B * (reader * world)) :
  (forall r1 r2 w1 w2, rrel r1 r2 -> rel w1 w2 -> opr R (op1 r1 w1) (op2 r2 w2)) -> mrel P (on2 op1) (on2 op2) (fun a b s => R a b).
Proof.
  intros H s1 s2 (S1 & S2 & S3) _. unfold on2. unfold orel in S3. destruct (c_r2 s1) as [r1|], (c_r2 s2) as [r2|]; try contradiction; [|reflexivity].
  specialize (H r1 r2 _ _ S3 S1). unfold opr in H. destruct (op1 r1 (c_w s1)) as [[a|e] [r1' w1']], (op2 r2 (c_w s2)) as [[b|e'] [r2' w2']]; cbn [fst snd resr] in H; try tauto.
  destruct H as (H1 & H2 & H3). split; [exact H1|]. split; [exact H3|]. split; [exact S2|exact H2].
Qed.
Lemma mrel_open1 P f wp : mrel P (open1 f wp) (open1 f wp) (fun _ _ _ => True).
Proof.
  intros s1 s2 (S1 & S2 & S3) _. unfold open1. pose proof (sim_new f wp _ _ S1) as H. destruct (reader_new f wp (c_w s1)) as [[r1|e] w1], (reader_new f wp (c_w s2)) as [[r2|e'] w2]; try contradiction; [|exact H].
  destruct H as [H1 H2]. split; [exact I|]. split; [exact H2|]. split; [exact H1|exact S3].
Qed.
End Sim.
