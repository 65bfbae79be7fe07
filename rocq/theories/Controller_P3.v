(** * Controller_P3: closing after an execution (C28) *)
From Verif Require Import Base Num PyStr Strings Config Context Aggregator Converter Reader Controller Spec_Controller Spec_Reader Base_P Reader_P Reader_P2 Reader_P3.
From Coq Require Import Permutation Sorted.
Local Open Scope Z_scope.

(** ** a small program logic *)
Definition hoare {A} (P : cst -> Prop) (x : M A) (Q : res A -> cst -> Prop) : Prop := forall s, P s -> Q (fst (x s)) (snd (x s)).
Lemma hoare_bind {A B} (P : cst -> Prop) (R : res A -> cst -> Prop) (Q : res B -> cst -> Prop) (x : M A) (f : A -> M B) : hoare P x R -> (forall a, hoare (R (Ok a)) (f a) Q) ->
  (forall e s, R (Raise e) s -> Q (Raise e) s) -> hoare P (bind x f) Q.
Proof.
  intros H1 H2 H3 s Hs. specialize (H1 s Hs). unfold bind. destruct (x s) as [[a|e] s1]; cbn [fst snd] in *; [now apply H2|now apply H3].
Qed.
Lemma hoare_lift {A} (P : cst -> Prop) (r : res A) (Q : res A -> cst -> Prop) : (forall s, P s -> Q r s) -> hoare P (lift r) Q.
Proof. intros H s Hs. exact (H s Hs). Qed.
Lemma hoare_ret {A} (P : cst -> Prop) (a : A) (Q : res A -> cst -> Prop) : (forall s, P s -> Q (Ok a) s) -> hoare P (ret a) Q.
Proof. intros H s Hs. exact (H s Hs). Qed.
Lemma hoare_pre {A} (P P' : cst -> Prop) (x : M A) Q : (forall s, P' s -> P s) -> hoare P x Q -> hoare P' x Q.
Proof. intros H1 H2 s Hs. apply H2. now apply H1. Qed.
Lemma hoare_post {A} (P : cst -> Prop) (x : M A) (Q Q' : res A -> cst -> Prop) : (forall r s, Q r s -> Q' r s) -> hoare P x Q -> hoare P x Q'.
Proof. intros H1 H2 s Hs. apply H1. now apply H2. Qed.

(** ** weak invariant: closing a reader cannot fail *)
Definition live_reader (o : option reader) : Prop := match o with Some r => r_sel r <> None | None => True end.
Definition wk (x : ctx) (s : cst) : Prop :=
  live_reader (c_r1 s) /\ live_reader (c_r2 s) /\ match c_wr s with Some (nc, nf) => nc = negb (pcraster x) /\ (nf = true -> nc = true) | None => True end.

Definition keeps_sel {A} (op : reader -> world -> res A * (reader * world)) : Prop :=
  forall r w x r' w', r_sel r <> None -> op r w = (x, (r', w')) -> r_sel r' <> None.

Lemma scan_grib_sel sel r w x r' w' : scan_grib sel r w = (x, (r', w')) -> r_sel r' = r_sel r.
Proof.
  unfold scan_grib. intro H. destruct (sel_names sel) as [ns|e]; [|injection H as _ <- _; reflexivity].
  destruct (r_index r) as [wp|]; [destruct (scan_names sel wp (r_msgs r) ns w); injection H as _ <- _; reflexivity|].
  destruct (r_file r) as [ms|]; [|injection H as _ <- _; reflexivity]. destruct (scan sel ms w) as [[y z] w2]. injection H as _ <- _. reflexivity.
Qed.
Lemma get_gids_sel sel r w x r' w' : get_gids sel r w = (x, (r', w')) -> r_sel r' = r_sel r.
Proof.
  unfold get_gids. intro H. destruct (scan_grib sel r w) as [y [r1 w1]] eqn:E. apply scan_grib_sel in E. destruct y as [[|g gs]|e].
  - destruct (retry_sel sel); [|injection H as _ <- _; exact E]. destruct (scan_grib s r1 w1) as [z [r2 w2]] eqn:E2. apply scan_grib_sel in E2. injection H as _ <- _. congruence.
  - injection H as _ <- _. exact E.
  - injection H as _ <- _. exact E.
Qed.
Lemma keeps_info sel : keeps_sel (get_grib_info sel).
Proof.
  intros r w x r' w' Hr H. unfold get_grib_info in H. destruct (get_gids sel r w) as [y [r1 w1]] eqn:E. apply get_gids_sel in E.
  destruct y as [[|g gs]|e]; [injection H as _ <- _; congruence| |injection H as _ <- _; congruence].
  destruct (w_derefs (g :: gs) w1) as [[ms|e] w2]; [|injection H as _ <- _; congruence].
  destruct (info_of ms) as [[[i t] mv]|e].
  - assert (E2 : r' = set_steps r1 i) by congruence. subst r'. cbn. congruence.
  - injection H as _ <- _. congruence.
Qed.
Lemma keeps_select sel : keeps_sel (select_messages sel).
Proof.
  intros r w x r' w' Hr H. unfold select_messages in H. destruct (get_gids sel r w) as [y [r1 w1]] eqn:E. apply get_gids_sel in E.
  destruct y as [[|g gs]|e]; [injection H as _ <- _; cbn; congruence| |injection H as _ <- _; congruence].
  destruct (w_derefs (g :: gs) w1) as [[ms|e] w2]; [|injection H as _ <- _; cbn; congruence].
  destruct (build_messages (r_step r1) (r_step2 r1) (r_change r1) ms); injection H as _ <- _; cbn; congruence.
Qed.
Lemma keeps_geo p : keeps_sel (has_geopotential p).
Proof.
  intros r w x r' w' Hr H. unfold has_geopotential in H. destruct (r_index r); [injection H as _ <- _; exact Hr|]. destruct (r_file r); injection H as _ <- _; exact Hr.
Qed.
Lemma keeps_aux : keeps_sel intertable_gids.
Proof.
  intros r w x r' w' Hr H. unfold intertable_gids in H. destruct (r_main r); [|injection H as _ <- _; exact Hr].
  destruct (w_deref z w) as [[m|e] w1]; [|injection H as _ <- _; exact Hr]. destruct (r_ext r); [|injection H as _ <- _; exact Hr].
  destruct (w_deref z0 w1) as [[m2|e] w2]; injection H as _ <- _; exact Hr.
Qed.
Lemma keeps_main : keeps_sel get_main.
Proof. intros r w x r' w' Hr H. injection H as _ <- _. exact Hr. Qed.
Lemma keeps_ext g : keeps_sel (set_ext g).
Proof. intros r w x r' w' Hr H. injection H as _ <- _. exact Hr. Qed.

Lemma reader_new_sel f wp w r w' : reader_new f wp w = (Ok r, w') -> r_sel r <> None.
Proof. unfold reader_new. destruct f as [f|]; [|discriminate]. destruct (gf_indexable f); intro H; injection H as <- _; discriminate. Qed.

Ltac wkt := intros; assumption.
Section Weak.
  Context (o : ext) (x : ctx).
  Let W {A} (r : res A) (s : cst) : Prop := wk x s.
  Lemma wk_open1 f wp : hoare (wk x) (open1 f wp) W.
  Proof.
    intros s [H1 [H2 H3]]. unfold W, open1. destruct (reader_new f wp (c_w s)) as [[r|e] w] eqn:E; cbn; unfold wk; cbn; auto.
    split; [exact (reader_new_sel _ _ _ _ _ E)|auto].
  Qed.
  Lemma wk_open2 f wp : hoare (wk x) (open2 f wp) W.
  Proof.
    intros s [H1 [H2 H3]]. unfold W, open2. destruct (reader_new f wp (c_w s)) as [[r|e] w] eqn:E; cbn; unfold wk; cbn; auto.
    split; [auto|]. split; [exact (reader_new_sel _ _ _ _ _ E)|auto].
  Qed.
  Lemma wk_on1 {A} (op : reader -> world -> res A * (reader * world)) : keeps_sel op -> hoare (wk x) (on1 op) W.
  Proof.
    intros Hk s [H1 [H2 H3]]. unfold W, on1. destruct (c_r1 s) as [r|] eqn:E; [|cbn; unfold wk; rewrite E; auto].
    destruct (op r (c_w s)) as [y [r' w']] eqn:Eo. cbn. unfold wk. cbn. split; [exact (Hk _ _ _ _ _ H1 Eo)|auto].
  Qed.
  Lemma wk_on2 {A} (op : reader -> world -> res A * (reader * world)) : keeps_sel op -> hoare (wk x) (on2 op) W.
  Proof.
    intros Hk s [H1 [H2 H3]]. unfold W, on2. destruct (c_r2 s) as [r|] eqn:E; [|cbn; unfold wk; rewrite E; auto].
    destruct (op r (c_w s)) as [y [r' w']] eqn:Eo. cbn. unfold wk. cbn. split; [auto|]. split; [exact (Hk _ _ _ _ _ H2 Eo)|auto].
  Qed.
  Lemma wk_writer mv : hoare (wk x) (make_writer o x mv) W.
  Proof. intros s [H1 [H2 H3]]. unfold W, make_writer. destruct (xt_writer o x mv); cbn; unfold wk; cbn; repeat split; auto. discriminate. Qed.
  Lemma wk_geo : hoare (wk x) (look_for_geopotential x) W.
  Proof.
    unfold look_for_geopotential. destruct (x_doCorr x); [|apply hoare_ret; wkt].
    apply (hoare_bind _ W); [apply wk_on1, keeps_geo| |wkt]. intros b s [H1 [H2 H3]]. cbn. unfold W, wk. cbn. auto.
  Qed.
  Lemma wk_second sel m : hoare (wk x) (second_file o x sel m) W.
  Proof.
    unfold second_file. destruct (jtruthy (x_input2 x)); [|apply hoare_ret; wkt].
    apply (hoare_bind _ W); [apply wk_open2| |wkt]. intros []. apply (hoare_bind _ W); [apply wk_on2, keeps_select| |wkt]. intro m2.
    apply (hoare_bind _ W); [apply wk_on2, keeps_main| |wkt]. intro g. apply (hoare_bind _ W); [apply wk_on1, keeps_ext| |wkt]. intros []. apply hoare_ret. wkt.
  Qed.
  Lemma wk_init : hoare (wk x) (init_execution o x) W.
  Proof.
    unfold init_execution. apply (hoare_bind _ W); [apply wk_open1| |wkt]. intros [].
    apply (hoare_bind _ W); [apply hoare_lift; wkt| |wkt]. intro attrs.
    apply (hoare_bind _ W); [apply wk_on1, keeps_info| |wkt]. intros [[i t] mv].
    apply (hoare_bind _ W); [apply wk_writer| |wkt]. intros [].
    apply (hoare_bind _ W); [apply wk_geo| |wkt]. intros [].
    apply (hoare_bind _ W); [apply hoare_lift; wkt| |wkt]. intros [[s e] g].
    apply (hoare_bind _ W); [apply hoare_lift; wkt| |wkt]. intro sel. apply hoare_ret. wkt.
  Qed.
  Lemma jis_eq j a : jis j a = true -> j = JStr a.
  Proof. unfold jis. destruct j; try discriminate. intro H. apply String.eqb_eq in H. now subst. Qed.
  Lemma wk_write values m change : hoare (wk x) (write_maps o x values m change) W.
  Proof.
    intros s Hs. pose proof Hs as [H1 [H2 H3]]. unfold W, write_maps. destruct (pcraster x) eqn:Ep.
    - destruct (pcr_loop o m change false 1 values) as [ws r]. cbn. unfold wk. cbn. rewrite ?Ep. auto.
    - destruct (jis (x_format x) "netcdf"); [|exact Hs].
      destruct (nc_loop o m change false 0 values); [|exact Hs]. destruct (xt_nc_open o); [|exact Hs].
      destruct (xt_nc_write o a); cbn; unfold wk; cbn; rewrite Ep; auto.
  Qed.
  Lemma wk_execute b : hoare (wk x) (execute o x b) W.
  Proof.
    unfold execute. apply (hoare_bind _ W); [apply wk_init| |wkt]. intros [[[input sel] e] g].
    apply (hoare_bind _ W); [apply wk_on1, keeps_select| |wkt]. intro m.
    apply (hoare_bind _ W); [apply wk_second| |wkt]. intro m'.
    apply (hoare_bind _ W); [apply wk_on1, keeps_aux| |wkt]. intro a.
    apply (hoare_bind _ W); [apply hoare_lift; wkt| |wkt]. intros [[v m2] ch].
    apply (hoare_bind _ W); [destruct b; [apply wk_write|apply hoare_ret; wkt]| |wkt]. intros []. apply hoare_ret. wkt.
  Qed.
End Weak.

Lemma wk0 x w : wk x (cst0 w). Proof. unfold wk. cbn. auto. Qed.

Lemma close_reader r w : r_sel r <> None -> exists r' w', close r w = (Ok tt, (r', w')).
Proof. unfold close. destruct (r_sel r); [|congruence]. intros _. eauto. Qed.

(** closing: the readers never fail, the writer does when its NetCDF file was
    not created *)
Lemma ctl_close_spec x s : wk x s -> exists s', ctl_close s = (match c_wr s with Some (true, false) => Raise AttributeError | _ => Ok tt end, s') /\
  c_r1 s' = None /\ c_r2 s' = None /\ c_wr s' = c_wr s /\ c_out s' = c_out s /\
  c_w s' = (let w := match c_r1 s with Some r => snd (snd (close r (c_w s))) | None => c_w s end in
            match c_r2 s with Some r => snd (snd (close r w)) | None => w end).
Proof.
  intros [H1 [H2 _]]. unfold ctl_close, bind.
  destruct (c_r1 s) as [r1|] eqn:E1.
  - destruct (close_reader r1 (c_w s) H1) as [r' [w' Hc]]. rewrite Hc. cbn [c_r2].
    destruct (c_r2 s) as [r2|] eqn:E2.
    + destruct (close_reader r2 w' H2) as [r2' [w2' Hc2]]. cbn [c_w snd]. rewrite Hc2. cbn [c_wr c_r1 c_r2 c_geo c_out c_w snd].
      destruct (c_wr s) as [[[] []]|]; eexists; (split; [reflexivity|]); cbn; auto.
    + cbn [c_w snd c_wr]. destruct (c_wr s) as [[[] []]|]; eexists; (split; [reflexivity|]); cbn; rewrite ?E2; auto.
  - destruct (c_r2 s) as [r2|] eqn:E2.
    + destruct (close_reader r2 (c_w s) H2) as [r2' [w2' Hc2]]. rewrite Hc2. cbn [c_wr c_r1 c_r2 c_geo c_out c_w snd].
      destruct (c_wr s) as [[[] []]|]; eexists; (split; [reflexivity|]); cbn; rewrite ?E1; auto.
    + destruct (c_wr s) as [[[] []]|] eqn:E3; eexists; (split; [reflexivity|]); rewrite ?E1, ?E2, ?E3; auto.
Qed.

(** a successful execution has created its NetCDF file *)
Lemma bind_ok {A B} (m : M A) (f : A -> M B) s b s' : bind m f s = (Ok b, s') -> exists a s1, m s = (Ok a, s1) /\ f a s1 = (Ok b, s').
Proof. unfold bind. destruct (m s) as [[a|e] s1] eqn:E; [|discriminate]. eauto. Qed.
Lemma execute_written o x w r s : execute o x true (cst0 w) = (Ok r, s) -> c_wr s <> Some (true, false).
Proof.
  intro H. pose proof (wk_execute o x true (cst0 w) (wk0 x w)) as K. rewrite H in K. cbn in K. destruct K as [_ [_ K]].
  unfold execute in H.
  apply bind_ok in H as [[[[input sel] e] g] [s1 [_ H]]]. apply bind_ok in H as [m [s2 [_ H]]]. apply bind_ok in H as [m' [s3 [_ H]]].
  apply bind_ok in H as [a [s4 [_ H]]]. apply bind_ok in H as [[[v m2] ch] [s5 [_ H]]]. apply bind_ok in H as [[] [s6 [Hw H]]].
  injection H as _ <-. unfold write_maps in Hw. destruct (pcraster x) eqn:Ep.
  - intro E. rewrite E in K. destruct K as [K _]. discriminate K.
  - destruct (jis (x_format x) "netcdf"); [|discriminate]. destruct (nc_loop o m2 ch false 0 v) as [ws|ee]; [|discriminate].
    destruct (xt_nc_open o); [|discriminate]. destruct (xt_nc_write o ws); [|discriminate]. injection Hw as <-. cbn. discriminate.
Qed.
