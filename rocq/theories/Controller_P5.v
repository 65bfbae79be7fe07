(** * Controller_P5: index and files are closed whatever happens (C28); fields of the selection (C34) *)
From Verif Require Import Base Num PyStr Strings Config Context Aggregator Converter Reader Controller Spec_Controller Spec_Reader Spec_Context Base_P PyStr_P Context_P2 Reader_P Reader_P2 Reader_P3 Reader_P4 Controller_P3.
From Coq Require Import Permutation.
Local Open Scope Z_scope.

Definition io (w : world) : nat * nat := (w_index w, w_files w).
Definition same_io {A} (op : reader -> world -> res A * (reader * world)) : Prop := forall r w x r' w', op r w = (x, (r', w')) ->
  io w' = io w /\ r_index r' = r_index r /\ (r_file r' = None <-> r_file r = None).

Lemma io_release g w : io (w_release g w) = io w.
Proof. unfold w_release. destruct (dmem Z.eqb (w_live w) g); reflexivity. Qed.
Lemma io_releases gs : forall w, io (w_releases gs w) = io w.
Proof. induction gs as [|g gs IH]; intro w; [reflexivity|]. unfold w_releases in *. cbn [fold_left]. rewrite IH. apply io_release. Qed.
Lemma io_deref g w x w' : w_deref g w = (x, w') -> io w' = io w.
Proof. unfold w_deref. destruct (dget Z.eqb (w_live w) g); intro H; injection H as _ <-; reflexivity. Qed.
Lemma io_derefs gs : forall w x w', w_derefs gs w = (x, w') -> io w' = io w.
Proof.
  induction gs as [|g gs IH]; intros w x w' H; cbn [w_derefs] in H; [injection H as _ <-; reflexivity|].
  destruct (w_deref g w) as [[m|e] w1] eqn:E; [|injection H as _ <-; exact (io_deref _ _ _ _ E)].
  destruct (w_derefs gs w1) as [[l|e] w2] eqn:E2; injection H as _ <-; rewrite (IH _ _ _ E2); exact (io_deref _ _ _ _ E).
Qed.
Lemma io_scan sel ms : forall w x rest w', scan sel ms w = (x, rest, w') -> io w' = io w.
Proof.
  induction ms as [|m ms IH]; intros w x rest w' H; cbn [scan] in H; [injection H as _ _ <-; reflexivity|].
  destruct (w_open m w) as [g w1] eqn:E. assert (E1 : io w1 = io w) by (injection E as _ <-; reflexivity).
  destruct (find (gm_keys m) sel) as [[]|e].
  - destruct (scan sel ms w1) as [[[gs|e] r1] w2] eqn:E2; injection H as _ _ <-; rewrite (IH _ _ _ _ E2); exact E1.
  - rewrite (IH _ _ _ _ H), io_release. exact E1.
  - injection H as _ _ <-. exact E1.
Qed.
Lemma io_scan_names sel wp ms names : forall w x w', scan_names sel wp ms names w = (x, w') -> io w' = io w.
Proof.
  induction names as [|v names IH]; intros w x w' H; cbn [scan_names] in H; [injection H as _ <-; reflexivity|].
  match type of H with match ?t with _ => _ end = _ => destruct t as [[s p]|e] end; [|injection H as _ <-; reflexivity].
  destruct (scan sel (filter (in_index s p) ms) w) as [[[g1|e] r1] w1] eqn:Es; [|injection H as _ <-; exact (io_scan _ _ _ _ _ _ Es)].
  destruct (scan_names sel wp ms names w1) as [[g2|e] w2] eqn:E2; injection H as _ <-; rewrite (IH _ _ _ E2); exact (io_scan _ _ _ _ _ _ Es).
Qed.
Lemma io_scan_grib sel : same_io (scan_grib sel).
Proof.
  intros r w x r' w' H. unfold scan_grib in H. destruct (sel_names sel) as [ns|e]; [|injection H as _ <- <-; intuition].
  destruct (r_index r) as [wp|] eqn:Ei; [destruct (scan_names sel wp (r_msgs r) ns w) as [y w1] eqn:E; injection H as _ <- <-; rewrite (io_scan_names _ _ _ _ _ _ _ E); intuition|].
  destruct (r_file r) as [ms|] eqn:Ef; [|injection H as _ <- <-; rewrite Ef; intuition]. destruct (scan sel ms w) as [[y z] w2] eqn:E. injection H as _ <- <-.
  rewrite (io_scan _ _ _ _ _ _ E). cbn. split; [reflexivity|]. split; [auto|]. split; discriminate.
Qed.
Lemma io_gids sel : same_io (get_gids sel).
Proof.
  intros r w x r' w' H. unfold get_gids in H. destruct (scan_grib sel r w) as [y [r1 w1]] eqn:E. apply io_scan_grib in E as [A [B C]]. destruct y as [[|g gs]|e].
  - destruct (retry_sel sel); [|injection H as _ <- <-; auto]. destruct (scan_grib s r1 w1) as [z [r2 w2]] eqn:E2. apply io_scan_grib in E2 as [A2 [B2 C2]]. injection H as _ <- <-.
    split; [congruence|]. split; [congruence|]. tauto.
  - injection H as _ <- <-. auto.
  - injection H as _ <- <-. auto.
Qed.
Lemma io_info sel : same_io (get_grib_info sel).
Proof.
  intros r w x r' w' H. unfold get_grib_info in H. destruct (get_gids sel r w) as [y [r1 w1]] eqn:E. apply io_gids in E as [A [B C]].
  destruct y as [[|g gs]|e]; [injection H as _ <- <-; auto| |injection H as _ <- <-; auto].
  destruct (w_derefs (g :: gs) w1) as [[ms|e] w2] eqn:Ed; apply io_derefs in Ed; [|injection H as _ <- <-; split; [congruence|auto]].
  destruct (info_of ms) as [[[i t] mv]|e].
  - assert (E2 : r' = set_steps r1 i) by congruence. assert (E3 : w' = w_releases (g :: gs) w2) by congruence. subst r' w'. rewrite io_releases. cbn. split; [congruence|auto].
  - injection H as _ <- <-. split; [congruence|auto].
Qed.
Lemma io_select sel : same_io (select_messages sel).
Proof.
  intros r w x r' w' H. unfold select_messages in H. destruct (get_gids sel r w) as [y [r1 w1]] eqn:E. apply io_gids in E as [A [B C]].
  destruct y as [[|g gs]|e]; [injection H as _ <- <-; auto| |injection H as _ <- <-; auto].
  destruct (w_derefs (g :: gs) w1) as [[ms|e] w2] eqn:Ed; apply io_derefs in Ed; [|injection H as _ <- <-; cbn; split; [congruence|auto]].
  destruct (build_messages (r_step r1) (r_step2 r1) (r_change r1) ms); injection H as _ <- <-; cbn; (split; [congruence|auto]).
Qed.
Lemma io_open_release ms : forall w, io (open_release ms w) = io w.
Proof. induction ms as [|m ms IH]; intro w; [reflexivity|]. cbn [open_release]. destruct (w_open m w) as [g w1] eqn:E. rewrite IH, io_release. injection E as _ <-. reflexivity. Qed.
Lemma io_geo p : same_io (has_geopotential p).
Proof.
  intros r w x r' w' H. unfold has_geopotential in H.
  set (ms := flat_map (fun n => filter (in_index n p) (r_msgs r)) geo_names) in H. clearbody ms. destruct (r_index r) as [wp|] eqn:Ei.
  - assert (Er : r' = r) by congruence. assert (Ew : w' = open_release ms w) by congruence. subst. rewrite io_open_release. split; [reflexivity|]. split; [exact Ei|tauto].
  - destruct (r_file r) as [l|] eqn:Ef.
    + assert (Er : r' = set_file r (Some [])) by congruence. assert (Ew : w' = open_release l w) by congruence. subst. rewrite io_open_release. cbn. split; [reflexivity|]. split; [exact Ei|]. split; discriminate.
    + assert (Er : r' = r) by congruence. assert (Ew : w' = w) by congruence. subst. split; [reflexivity|]. split; [exact Ei|]. rewrite Ef. tauto.
Qed.
Lemma io_aux : same_io intertable_gids.
Proof.
  intros r w x r' w' H. unfold intertable_gids in H. destruct (r_main r) as [g|]; [|injection H as _ <- <-; intuition].
  destruct (w_deref g w) as [[m|e] w1] eqn:E; apply io_deref in E; [|injection H as _ <- <-; intuition]. destruct (r_ext r) as [g2|]; [|injection H as _ <- <-; intuition].
  destruct (w_deref g2 w1) as [[m2|e] w2] eqn:E2; apply io_deref in E2; injection H as _ <- <-; (split; [congruence|intuition]).
Qed.

(** open indexes and files: those of before and those of the two readers *)
Definition idx (r : option reader) : nat := match r with Some r => if r_index r then 1 else 0 | None => 0 end.
Definition fil (r : option reader) : nat := match r with Some r => if r_file r then 1 else 0 | None => 0 end.
Definition cnt (w0 : world) (s : cst) : Prop :=
  io (c_w s) = (w_index w0 + idx (c_r1 s) + idx (c_r2 s), w_files w0 + fil (c_r1 s) + fil (c_r2 s))%nat.


Ltac wkt := intros; assumption.
Section Count.
  Context (o : ext) (x : ctx) (w0 : world).
  Let W {A} (r : res A) (s : cst) : Prop := cnt w0 s.
  (** the first reader is not open yet *)
  Definition cnt0 (s : cst) : Prop := cnt w0 s /\ c_r1 s = None /\ c_r2 s = None.
  Definition cnt1 (s : cst) : Prop := cnt w0 s /\ c_r2 s = None.
  Let W1 {A} (r : res A) (s : cst) : Prop := cnt1 s.
  Lemma ci_open1 f wp : hoare cnt0 (open1 f wp) W1.
  Proof.
    intros s [H1 [H2 H3]]. unfold W1, cnt1, cnt, open1. unfold cnt in H1. rewrite H2, H3 in H1. destruct (reader_new f wp (c_w s)) as [[r|e] w] eqn:E; cbn [fst snd c_r1 c_r2 c_w].
    - unfold reader_new in E. destruct f as [f|]; [|discriminate]. unfold io in *. destruct (gf_indexable f); injection E as <- <-; injection H1 as A B; rewrite H3; cbn in *; (split; [f_equal; lia|reflexivity]).
    - unfold reader_new in E. destruct f as [f|]; [destruct (gf_indexable f); discriminate|]. injection E as _ <-. rewrite H2, H3. auto.
  Qed.
  Lemma ci_open2 f wp : hoare cnt1 (open2 f wp) W.
  Proof.
    intros s [H1 H3]. unfold W, cnt, open2. unfold cnt in H1. rewrite H3 in H1. destruct (reader_new f wp (c_w s)) as [[r|e] w] eqn:E; cbn [fst snd c_r1 c_r2 c_w].
    - unfold reader_new in E. destruct f as [f|]; [|discriminate]. unfold io in *. destruct (gf_indexable f); injection E as <- <-; injection H1 as A B; cbn in *; f_equal; lia.
    - unfold reader_new in E. destruct f as [f|]; [destruct (gf_indexable f); discriminate|]. injection E as _ <-. rewrite H3. exact H1.
  Qed.
  Lemma ci_op {A} (op : reader -> world -> res A * (reader * world)) r w y r' w' : same_io op -> op r w = (y, (r', w')) -> io w' = io w /\ idx (Some r') = idx (Some r) /\ fil (Some r') = fil (Some r).
  Proof.
    intros Hs E. destruct (Hs _ _ _ _ _ E) as [H1 [H2 H3]]. split; [exact H1|]. cbn. rewrite H2. split; [reflexivity|].
    destruct (r_file r), (r_file r'); try reflexivity; [destruct H3 as [H3 _]; now specialize (H3 eq_refl)|destruct H3 as [_ H3]; now specialize (H3 eq_refl)].
  Qed.
  Lemma ci_on1 {A} (op : reader -> world -> res A * (reader * world)) : same_io op -> hoare (cnt w0) (on1 op) W.
  Proof.
    intros Hs s H1. unfold W, on1. destruct (c_r1 s) as [r|] eqn:E; [|exact H1]. destruct (op r (c_w s)) as [y [r' w']] eqn:Eo. cbn [fst snd].
    destruct (ci_op _ _ _ _ _ _ Hs Eo) as [A1 [A2 A3]]. unfold cnt in *. cbn [c_r1 c_r2 c_w]. rewrite A1, A2, A3, H1, E. reflexivity.
  Qed.
  Lemma ci_on1' {A} (op : reader -> world -> res A * (reader * world)) : same_io op -> hoare cnt1 (on1 op) W1.
  Proof.
    intros Hs s H1. split; [exact (ci_on1 op Hs s (proj1 H1))|]. destruct H1 as [_ H2]. unfold on1. destruct (c_r1 s) as [r|] eqn:E; [|exact H2].
    destruct (op r (c_w s)) as [y [r' w']]. exact H2.
  Qed.
  Lemma ci_on2 {A} (op : reader -> world -> res A * (reader * world)) : same_io op -> hoare (cnt w0) (on2 op) W.
  Proof.
    intros Hs s H1. unfold W, on2. destruct (c_r2 s) as [r|] eqn:E; [|exact H1]. destruct (op r (c_w s)) as [y [r' w']] eqn:Eo. cbn [fst snd].
    destruct (ci_op _ _ _ _ _ _ Hs Eo) as [A1 [A2 A3]]. unfold cnt in *. cbn [c_r1 c_r2 c_w]. rewrite A1, A2, A3, H1, E. reflexivity.
  Qed.
  Lemma ci_init : hoare cnt0 (init_execution o x) W1.
  Proof.
    unfold init_execution. apply (hoare_bind _ W1); [apply ci_open1| |wkt]. intros [].
    apply (hoare_bind _ W1); [apply hoare_lift; wkt| |wkt]. intro attrs.
    apply (hoare_bind _ W1); [apply ci_on1', io_info| |wkt]. intros [[i t] mv].
    apply (hoare_bind _ W1); [intros s Hs; unfold make_writer; destruct (xt_writer o x mv); exact Hs| |wkt]. intros [].
    apply (hoare_bind _ W1).
    { unfold look_for_geopotential. destruct (x_doCorr x); [|apply hoare_ret; wkt]. apply (hoare_bind _ W1); [apply ci_on1', io_geo| |wkt]. intros b s Hs. exact Hs. }
    2: wkt. intros []. apply (hoare_bind _ W1); [apply hoare_lift; wkt| |wkt]. intros [[s e] g].
    apply (hoare_bind _ W1); [apply hoare_lift; wkt| |wkt]. intro sel. apply hoare_ret. wkt.
  Qed.
  Lemma cnt1_cnt s : cnt1 s -> cnt w0 s. Proof. now intros []. Qed.
  Lemma io_main : same_io get_main. Proof. intros r w y r' w' H. injection H as _ <- <-. intuition. Qed.
  Lemma io_ext g : same_io (set_ext g). Proof. intros r w y r' w' H. injection H as _ <- <-. cbn. intuition. Qed.
  Lemma ci_execute b : hoare cnt0 (execute o x b) W.
  Proof.
    unfold execute. apply (hoare_bind _ W1); [apply ci_init| |intros e s; apply cnt1_cnt]. intros [[[input sel] e] g].
    apply (hoare_bind _ W1); [apply ci_on1', io_select| |intros e0 s; apply cnt1_cnt]. intro m.
    apply (hoare_bind _ W).
    { unfold second_file. destruct (jtruthy (x_input2 x)); [|apply hoare_ret; intro s; apply cnt1_cnt].
      apply (hoare_bind _ W); [apply ci_open2| |wkt]. intros []. apply (hoare_bind _ W); [apply ci_on2, io_select| |wkt]. intro m2.
      apply (hoare_bind _ W); [apply ci_on2, io_main| |wkt]. intro g2. apply (hoare_bind _ W); [apply ci_on1, io_ext| |wkt]. intros []. apply hoare_ret. wkt. }
    2: wkt. intro m'.
    apply (hoare_bind _ W); [apply ci_on1, io_aux| |wkt]. intro a.
    apply (hoare_bind _ W); [apply hoare_lift; wkt| |wkt]. intros [[v m2] ch].
    apply (hoare_bind _ W); [|intros []; apply hoare_ret; wkt|wkt].
    destruct b; [|apply hoare_ret; wkt]. intros s Hs. unfold write_maps. destruct (pcraster x).
    - destruct (pcr_loop o m2 ch false 1 v) as [ws r]. exact Hs.
    - destruct (jis (x_format x) "netcdf"); [|exact Hs]. destruct (nc_loop o m2 ch false 0 v) as [ws|]; [|exact Hs].
      destruct (xt_nc_open o); [|exact Hs]. destruct (xt_nc_write o ws); exact Hs.
  Qed.
End Count.

Lemma close_io r w : r_sel r <> None -> (idx (Some r) <= w_index w)%nat -> (fil (Some r) <= w_files w)%nat ->
  io (snd (snd (close r w))) = (w_index w - idx (Some r), w_files w - fil (Some r))%nat.
Proof.
  intros Hs H1 H2. unfold close. destruct (r_sel r) as [gs|]; [|congruence]. pose proof (io_releases gs w) as E. unfold io in E. injection E as E1 E2.
  cbn [idx fil] in *. unfold io. destruct (r_index r), (r_file r); cbn [snd w_index w_files]; f_equal; lia.
Qed.
Lemma cnt_close w0 s : cnt w0 s -> live_reader (c_r1 s) -> live_reader (c_r2 s) ->
  io (let w := match c_r1 s with Some r => snd (snd (close r (c_w s))) | None => c_w s end in
      match c_r2 s with Some r => snd (snd (close r w)) | None => w end) = io w0.
Proof.
  intros H H1 H2. unfold cnt, io in H. pose proof (f_equal fst H) as A. pose proof (f_equal snd H) as B. cbn [fst snd] in A, B. clear H.
  destruct (c_r1 s) as [r1|].
  - pose proof (close_io r1 (c_w s) H1 ltac:(lia) ltac:(lia)) as E. unfold io in E. pose proof (f_equal fst E) as E1. pose proof (f_equal snd E) as E2. cbn [fst snd] in E1, E2.
    destruct (c_r2 s) as [r2|].
    + cbv zeta. rewrite close_io; [|exact H2|lia|lia]. unfold io. f_equal; lia.
    + cbn in *. unfold io. f_equal; lia.
  - destruct (c_r2 s) as [r2|].
    + cbv zeta. cbn [idx fil] in A, B. rewrite close_io; [|exact H2|cbn [idx fil]; lia|cbn [idx fil]; lia]. unfold io. cbn [idx fil]. f_equal; lia.
    + cbn in *. unfold io. f_equal; lia.
Qed.

(** ** the fields of a selection come from the selected messages *)
Lemma fold_keys step2 change main ms : forall st st', foldM (select_body step2 change main) ms st = Ok st' ->
  forall k, In k (map fst (ss_first st')) \/ In k (map fst (ss_second st')) ->
  (In k (map fst (ss_first st)) \/ In k (map fst (ss_second st))) \/
  exists gm, In gm ms /\ has_int (snd gm) "startStep" (s_start k) /\ has_int (snd gm) "endStep" (s_end k) /\ has_int (snd gm) "Nj" (s_res k) /\ has_int (snd gm) "level" (s_level k).
Proof.
  induction ms as [|[g m] ms IH]; intros st st' H k Hk; [injection H as <-; now left|].
  cbn [foldM] in H. apply rbind_ok in H as [s1 [H1 H]]. destruct (IH _ _ H _ Hk) as [Hs|[gm [Hi Hr]]]; [|right; exists gm; split; [now right|exact Hr]].
  destruct (select_body_inv _ _ _ _ _ _ _ H1) as [x [Hx [_ Hr]]].
  assert (G : forall d, In k (map fst (dset step_eqb d (rd_key (if is_change change x then step2 else ss_input st) x) (rd_field x))) ->
     In k (map fst d) \/ exists gm, In gm ((g, m) :: ms) /\ has_int (snd gm) "startStep" (s_start k) /\ has_int (snd gm) "endStep" (s_end k) /\ has_int (snd gm) "Nj" (s_res k) /\ has_int (snd gm) "level" (s_level k)).
  { intros d Hd. change (In k (dkeys (dset step_eqb d (rd_key (if is_change change x then step2 else ss_input st) x) (rd_field x)))) in Hd.
    rewrite (dkeys_dset step_eqb) in Hd. destruct (dmem step_eqb d _); [now left|]. apply in_app_or in Hd as [Hd|[<-|[]]]; [now left|].
    right. exists (g, m). split; [now left|]. destruct Hx as [X1 [X2 [X3 [X4 _]]]]. cbn. auto. }
  destruct (other_nj (rd_nj x) main).
  - destruct Hr as [E1 [E2 _]]. destruct Hs as [Hs|Hs]; [left; left; congruence|]. rewrite E2 in Hs. destruct (G _ Hs); auto.
  - destruct Hr as [_ [E2 E1]]. destruct Hs as [Hs|Hs]; [|left; right; congruence]. destruct (ss_grid2 st); [left; left; congruence|].
    rewrite E1 in Hs. destruct (G _ Hs); auto.
Qed.
Lemma build_keys step step2 change ms m k : build_messages step step2 change ms = Ok m -> In k (map fst (m_first m)) \/ In k (map fst (m_second m)) ->
  exists gm, In gm ms /\ has_int (snd gm) "startStep" (s_start k) /\ has_int (snd gm) "endStep" (s_end k) /\ has_int (snd gm) "Nj" (s_res k) /\ has_int (snd gm) "level" (s_level k).
Proof.
  intros H Hk. destruct (build_inv _ _ _ _ _ H) as [g0 [m0 [rest [main [st [_ [_ [_ [Hst [H1 [H2 _]]]]]]]]]]]. rewrite H1, H2 in Hk.
  destruct (fold_keys _ _ _ _ _ _ Hst k Hk) as [[[]|[]]|G]. exact G.
Qed.
