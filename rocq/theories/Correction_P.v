(** * Correction_P: proofs about the geopotential of a correction. *)
From Verif Require Import Base Base_P Num PyStr PyStr_P Strings Config Context Aggregator Reader Spec_Reader Reader_P Reader_P2 Reader_P3 Reader_P4 Correction Spec_Correction.
From Coq Require Import Lia Permutation Sorted.
Local Open Scope string_scope.

(** ** the first of the smallest *)
Definition fmin {A} (key : A -> Z) (l : list A) (k : A) : Prop :=
  exists a b, l = (a ++ k :: b)%list /\ Forall (fun z => key k < key z)%Z a /\ Forall (fun z => key k <= key z)%Z b.
Lemma sort_head {A} (key : A -> Z) l k r : sort_by key l = k :: r -> fmin key l k.
Proof.
  revert k r. induction l as [|x l IH]; intros k r H; [discriminate|]. cbn [sort_by] in H.
  destruct (sort_by key l) as [|y r'] eqn:E.
  - cbn in H. injection H as <- <-. assert (l = []) by (apply Permutation_nil; rewrite <- E; apply sort_by_perm). subst l. exists [], []. repeat constructor.
  - cbn [insert_by] in H. destruct (Z.leb_spec (key x) (key y)) as [Hle|Hlt].
    + injection H as <- <-. destruct (IH y r' eq_refl) as (a & b & -> & Ha & Hb). exists [], (a ++ y :: b)%list. split; [reflexivity|]. split; [constructor|].
      apply Forall_app. split; [|constructor; [lia|]]; [eapply Forall_impl; [|exact Ha]|eapply Forall_impl; [|exact Hb]]; cbn; intros; lia.
    + injection H as <- <-. destruct (IH y r' eq_refl) as (a & b & -> & Ha & Hb). exists (x :: a), b. split; [reflexivity|]. split; [constructor; assumption|exact Hb].
Qed.
Lemma fmin_fun {A} (key : A -> Z) l k1 k2 : fmin key l k1 -> fmin key l k2 -> k1 = k2.
Proof.
  intros (a1 & b1 & E1 & A1 & B1) (a2 & b2 & E2 & A2 & B2). rewrite E1 in E2. clear E1. revert a2 E2 A2. induction a1 as [|x a1 IH]; intros [|y a2] E2 A2; cbn in E2.
  - congruence.
  - injection E2 as -> ->. exfalso. apply Forall_app in B1 as [_ B1]. inversion B1 as [|? ? H _]; subst. inversion A2 as [|? ? H2 _]; subst. lia.
  - injection E2 as -> <-. exfalso. apply Forall_app in B2 as [_ B2]. inversion B2 as [|? ? H _]; subst. inversion A1 as [|? ? H2 _]; subst. lia.
  - injection E2 as <- E2. inversion A1; subst. inversion A2; subst. eauto.
Qed.
Lemma fmin_snoc {A} (key : A -> Z) l k x : fmin key l k -> (key k <= key x)%Z -> fmin key (l ++ [x])%list k.
Proof. intros (a & b & -> & Ha & Hb) Hx. exists a, (b ++ [x])%list. rewrite <- app_assoc. split; [reflexivity|]. split; [exact Ha|]. apply Forall_app. auto. Qed.
Lemma fmin_snoc_new {A} (key : A -> Z) l k x : fmin key l k -> (key x < key k)%Z -> fmin key (l ++ [x])%list x.
Proof.
  intros (a & b & -> & Ha & Hb) Hx. exists (a ++ k :: b)%list, []. split; [reflexivity|]. split; [|constructor].
  apply Forall_app. split; [eapply Forall_impl; [|exact Ha]; cbn; intros; lia|]. constructor; [exact Hx|]. eapply Forall_impl; [|exact Hb]. cbn; intros; lia.
Qed.
Lemma fmin_ex {A} (key : A -> Z) l : l <> [] -> exists k, fmin key l k.
Proof.
  intro N. destruct (sort_by key l) as [|k r] eqn:E; [|exists k; exact (sort_head _ _ _ _ E)].
  exfalso. apply N, Permutation_nil. rewrite <- E. apply sort_by_perm.
Qed.
Lemma fmin_in {A} (key : A -> Z) l k x : fmin key l k -> In x l -> (key k <= key x)%Z.
Proof. intros (a & b & -> & Ha & Hb) Hx. rewrite Forall_forall in *. apply in_app_or in Hx as [Hx|[<-|Hx]]; [specialize (Ha _ Hx); lia|lia|auto]. Qed.

(** the keys of a dictionary built entry by entry *)
Definition build {K V} (eqb : K -> K -> bool) (es : list (K * V)) : list (K * V) := fold_left (fun d e => dset eqb d (fst e) (snd e)) es [].
Lemma build_snoc {K V} (eqb : K -> K -> bool) (es : list (K * V)) k v : build eqb (es ++ [(k, v)])%list = dset eqb (build eqb es) k v.
Proof. unfold build. rewrite fold_left_app. reflexivity. Qed.
Lemma dset_keys {V} (d : list (step * V)) k v :
  (In k (map fst d) -> map fst (dset step_eqb d k v) = map fst d) /\ (~ In k (map fst d) -> map fst (dset step_eqb d k v) = (map fst d ++ [k])%list).
Proof.
  induction d as [|[k' v'] d [I1 I2]]; [split; [intros []|reflexivity]|]. cbn [dset map fst]. destruct (step_eqb k k') eqn:E.
  - apply step_eqb_iff in E. subst k'. split; [reflexivity|]. intro N. exfalso. apply N. now left.
  - assert (k <> k') by (intro; subst k'; rewrite (proj2 (step_eqb_iff k k) eq_refl) in E; discriminate). cbn [map fst]. split.
    + intros [<-|H1]; [contradiction|]. now rewrite I1.
    + intro N. cbn [app]. rewrite I2; [reflexivity|]. intro. apply N. now right.
Qed.
Lemma build_in {V} (es : list (step * V)) k : In k (map fst (build step_eqb es)) <-> In k (map fst es).
Proof.
  induction es as [|[k' v] es IH] using rev_ind; [reflexivity|]. rewrite build_snoc, map_app, in_app_iff. cbn [map fst In]. destruct (dset_keys (build step_eqb es) k' v) as [K1 K2].
  destruct (in_dec (fun a b => match Bool.bool_dec (step_eqb a b) true with left e => left (proj1 (step_eqb_iff a b) e) | right n => right (fun e => n (proj2 (step_eqb_iff a b) e)) end) k' (map fst (build step_eqb es))) as [I|N].
  - rewrite (K1 I), IH. split; [tauto|]. intros [H|[<-|[]]]; [exact H|]. now apply IH.
  - rewrite (K2 N), in_app_iff, IH. reflexivity.
Qed.
Lemma build_fmin {V} (es : list (step * V)) k : fmin s_end (map fst (build step_eqb es)) k <-> fmin s_end (map fst es) k.
Proof.
  revert k. induction es as [|[k' v] es IH] using rev_ind; intro k; [reflexivity|]. rewrite build_snoc, map_app. cbn [map fst]. destruct (dset_keys (build step_eqb es) k' v) as [K1 K2].
  assert (Ein : In k' (map fst (build step_eqb es)) <-> In k' (map fst es)) by apply build_in.
  destruct (in_dec (fun a b => match Bool.bool_dec (step_eqb a b) true with left e => left (proj1 (step_eqb_iff a b) e) | right n => right (fun e => n (proj2 (step_eqb_iff a b) e)) end) k' (map fst (build step_eqb es))) as [I|N].
  - rewrite (K1 I). apply Ein in I. split.
    + intro H. apply IH in H. apply fmin_snoc; [exact H|]. exact (fmin_in _ _ _ _ H I).
    + intro H. apply IH. destruct (fmin_ex s_end (map fst es)) as (k0 & H0); [intro E; rewrite E in I; exact I|].
      rewrite (fmin_fun _ _ _ _ H (fmin_snoc _ _ _ k' H0 (fmin_in _ _ _ _ H0 I))). exact H0.
  - rewrite (K2 N). destruct es as [|e es]; [reflexivity|]. destruct (fmin_ex s_end (map fst (e :: es))) as (k0 & H0); [discriminate|]. pose proof (proj2 (IH k0) H0) as H1.
    destruct (Z.le_gt_cases (s_end k0) (s_end k')) as [L|L].
    + pose proof (fmin_snoc _ _ _ _ H0 L) as A. pose proof (fmin_snoc _ _ _ _ H1 L) as B. split; intro H; [rewrite (fmin_fun _ _ _ _ H B)|rewrite (fmin_fun _ _ _ _ H A)]; assumption.
    + pose proof (fmin_snoc_new _ _ _ _ H0 L) as A. pose proof (fmin_snoc_new _ _ _ _ H1 L) as B. split; intro H; [rewrite (fmin_fun _ _ _ _ H B)|rewrite (fmin_fun _ _ _ _ H A)]; assumption.
Qed.
Lemma build_last {V} (es : list (step * V)) k v : dget step_eqb (build step_eqb es) k = Some v -> exists a b, es = (a ++ (k, v) :: b)%list /\ ~ In k (map fst b).
Proof.
  revert v. induction es as [|[k' v'] es IH] using rev_ind; intros v H; [discriminate|]. rewrite build_snoc, (dget_dset step_eqb step_eqb_iff) in H.
  destruct (step_eqb k k') eqn:E.
  - apply step_eqb_iff in E. subst k'. injection H as <-. exists es, []. split; [reflexivity|]. intros [].
  - destruct (IH v H) as (a & b & -> & N). exists a, (b ++ [(k', v')])%list. rewrite <- app_assoc. split; [reflexivity|]. rewrite map_app, in_app_iff. cbn [map fst In].
    intros [I|[<-|[]]]; [exact (N I)|]. rewrite (proj2 (step_eqb_iff k' k') eq_refl) in E. discriminate.
Qed.

(** ** the messages of a first selection: the step of the reader is -1 *)
Definition entry (x : reading) : step * arr := (rd_key (-1) x, rd_field x).
Lemma label_not_empty x : is_change "" x = false.
Proof.
  unfold is_change. destruct (String.eqb_spec (str_of_Z (rd_start x) +++ "-" +++ str_of_Z (rd_end x)) "") as [E|]; [|reflexivity].
  apply (f_equal String.length) in E. rewrite !slen_app in E. cbn [String.length] in E. lia.
Qed.
Lemma fold_done main ms : forall st st', foldM (select_body (-1) "" main) ms st = Ok st' -> ss_grid2 st <> None -> ss_first st' = ss_first st.
Proof.
  induction ms as [|[g m] ms IH]; intros st st' H N; [injection H as <-; reflexivity|]. cbn [foldM] in H. apply rbind_ok in H as (s1 & H1 & H).
  destruct (select_body_inv _ _ _ _ _ _ _ H1) as (x & Hx & _ & Hr). destruct (other_nj (rd_nj x) main).
  - destruct Hr as (F & _ & gr & _ & G). rewrite (IH s1 st' H) by congruence. exact F.
  - destruct Hr as (G & _ & F). rewrite (IH s1 st' H) by congruence. destruct (ss_grid2 st); [exact F|contradiction].
Qed.
Lemma fold_first main n ms : g_nj main = Some n -> forall st st', foldM (select_body (-1) "" main) ms st = Ok st' ->
  ss_grid2 st = None -> ss_input st = (-1)%Z ->
  exists xs, Forall2 reads (map snd ms) xs /\
    ss_first st' = fold_left (fun d e => dset step_eqb d (fst e) (snd e)) (map entry (before_change n xs)) (ss_first st).
Proof.
  intro Hn. induction ms as [|[g m] ms IH]; intros st st' H G I; [injection H as <-; exists []; split; [constructor|reflexivity]|].
  cbn [foldM] in H. apply rbind_ok in H as (s1 & H1 & H). destruct (select_body_inv _ _ _ _ _ _ _ H1) as (x & Hx & Hi & Hr).
  rewrite label_not_empty in Hi, Hr. unfold other_nj in Hr. rewrite Hn in Hr. destruct (rd_nj x =? n)%Z eqn:E; cbn [negb] in Hr.
  - destruct Hr as (G1 & _ & F1). rewrite G in F1. destruct (IH s1 st' H) as (xs & X1 & X2); [congruence|congruence|].
    exists (x :: xs). split; [constructor; assumption|]. cbn [before_change]. rewrite E. cbn [map fold_left]. rewrite X2, F1, I. reflexivity.
  - destruct Hr as (F1 & _ & gr & _ & G1). destruct (select_fold_reads _ _ _ _ _ _ H) as (xs & X1). exists (x :: xs). split; [constructor; assumption|].
    cbn [before_change]. rewrite E. cbn [map fold_left]. rewrite (fold_done _ _ _ _ H) by congruence. exact F1.
Qed.

Lemma rd_key_slot x y : rd_key (-1) x = rd_key (-1) y <-> same_slot x y.
Proof.
  unfold rd_key, same_slot. split.
  - intro H. assert (E1 := f_equal s_start H). assert (E2 := f_equal s_end H). assert (E3 := f_equal s_res H). assert (E4 := f_equal s_level H). cbn in *. auto.
  - intros (-> & -> & -> & ->). reflexivity.
Qed.
Lemma map_split {A B} (f : A -> B) l a y b : map f l = (a ++ y :: b)%list -> exists l1 x l2, l = (l1 ++ x :: l2)%list /\ map f l1 = a /\ f x = y /\ map f l2 = b.
Proof.
  revert a. induction l as [|z l IH]; intros [|c a] H; cbn in H; try discriminate.
  - injection H as <- <-. exists [], z, l. auto.
  - injection H as <- H. destruct (IH a H) as (l1 & x & l2 & -> & <- & <- & <-). exists (z :: l1), x, l2. auto.
Qed.

(** what build_messages gives for the geopotential *)
Lemma build_geo gms m v : build_messages (-1) (-1) "" gms = Ok m -> dget step_eqb (m_first m) (m_first_step m) = Some v ->
  exists g0 m0 rest xs x, gms = (g0, m0) :: rest /\ build_id m0 = Ok (g_id (m_grid m)) /\ dget String.eqb (gm_dbl m0) "missingValue" = Some (m_mv m) /\
    Forall2 reads (map snd gms) xs /\ chosen (first_grid xs) x /\ v = rd_field x.
Proof.
  intros H Hv. destruct (build_inv _ _ _ _ _ H) as (g0 & m0 & rest & main & st & E & D & Eg & F & M1 & _ & _ & Fs & _).
  exists g0, m0, rest. assert (Hmv : dget String.eqb (gm_dbl m0) "missingValue" = Some (m_mv m)).
  { subst gms. unfold build_messages in H. do 5 apply rbind_ok in H as (? & _ & H). apply rbind_ok in H as (mv & Hmv & H).
    do 5 apply rbind_ok in H as (? & _ & H). apply rbind_ok in H as (fs & _ & H). assert (Em : m_mv m = mv) by (injection H as <-; reflexivity).
    rewrite Em. unfold kdbl in Hmv. destruct (dget String.eqb (gm_dbl m0) "missingValue"); congruence. }
  assert (Hid : build_id m0 = Ok (g_id (m_grid m))).
  { unfold grid_details in D. apply rbind_ok in D as (i & Hi & D). assert (Em : g_id main = i) by (injection D as <-; reflexivity). rewrite Eg, Em. exact Hi. }
  destruct (select_fold_reads _ _ _ _ _ _ F) as (ys & Hys). destruct (grid_details_nj _ _ _ D) as [Dn _].
  assert (Hn : exists n, g_nj main = Some n /\ has_int m0 "Nj" n).
  { rewrite E in Hys. inversion Hys as [|? y ? ? Hy _]; subst. destruct Hy as (_ & _ & Hy & _). exists (rd_nj y). split; [|exact Hy]. rewrite Dn. unfold opt_int. unfold has_int in Hy. now rewrite Hy. }
  destruct Hn as (n & Hn & Hn0). destruct (fold_first main n gms Hn _ _ F eq_refl eq_refl) as (xs & X1 & X2). cbn [ss_first] in X2.
  assert (Eb : before_change n xs = first_grid xs).
  { rewrite E in X1. inversion X1 as [|? y ? xs' Hy _]; subst. cbn [first_grid]. destruct Hy as (_ & _ & Hy & _). unfold has_int in *. cbn [snd] in Hy. rewrite Hn0 in Hy. injection Hy as ->. reflexivity. }
  rewrite Eb in X2. change (ss_first st = build step_eqb (map entry (first_grid xs))) in X2. rewrite M1, X2 in Hv. rewrite X2 in Fs.
  unfold first_by_end, dkeys in Fs. destruct (sort_by s_end (map fst (build step_eqb (map entry (first_grid xs))))) as [|k r] eqn:Es; [discriminate|].
  assert (k = m_first_step m) by congruence. subst k. apply sort_head in Es. apply (proj1 (build_fmin _ _)) in Es.
  destruct (build_last _ _ _ Hv) as (a & b & E2 & Nb). destruct Es as (a' & b' & E1 & A1 & B1).
  rewrite map_map in E1. destruct (map_split _ _ _ _ _ E1) as (la & y & lb & L1 & La & Ly & Lb). destruct (map_split _ _ _ _ _ E2) as (lc & x & ld & L2 & Lc & Lx & Ld).
  exists xs, x. split; [exact E|]. split; [exact Hid|]. split; [exact Hmv|]. split; [exact X1|]. unfold entry in Lx. split; [|congruence].
  assert (Ky : rd_key (-1) y = m_first_step m) by exact Ly. assert (Kx : rd_key (-1) x = m_first_step m) by congruence.
  exists y, la, lb, lc, ld. split; [exact L1|]. split; [|split; [|split; [exact L2|split; [apply rd_key_slot; congruence|]]]].
  - rewrite <- La, <- Ky in A1. rewrite Forall_forall in *. intros z Hz. exact (A1 _ (in_map (fun x => fst (entry x)) la z Hz)).
  - rewrite <- Lb, <- Ky in B1. rewrite Forall_forall in *. intros z Hz. exact (B1 _ (in_map (fun x => fst (entry x)) lb z Hz)).
  - apply Forall_forall. intros z Hz S. apply Nb. rewrite <- Ld, <- Ky. apply rd_key_slot in S. rewrite <- S. rewrite map_map. change (rd_key (-1) z) with (fst (entry z)). apply (in_map (fun z => fst (entry z)) ld z Hz).
Qed.

(** ** the selection *)
Lemma geo_sel_accepts m : accepted geo_sel m = geopotential m.
Proof.
  unfold accepted, geo_sel, geopotential, named. cbn [find map]. destruct (dget String.eqb (gm_keys m) "shortName") as [v|] eqn:E; [|cbn; destruct (dget String.eqb (gm_keys m) "shortName"); reflexivity].
  cbn [sel_match rbind]. destruct v; cbn; try reflexivity. rewrite ?(String.eqb_sym _ s). destruct (String.eqb s "fis"), (String.eqb s "z"), (String.eqb s "FIS"), (String.eqb s "orog"); reflexivity.
Qed.

Lemma flat_map_eq {A B} (f g : A -> list B) l : (forall a, In a l -> f a = g a) -> flat_map f l = flat_map g l.
Proof. induction l as [|a l IH]; intro H; [reflexivity|]. cbn [flat_map]. rewrite (H a (or_introl eq_refl)), IH; [reflexivity|]. intros; apply H; now right. Qed.
Lemma geo_sel_names : sel_names geo_sel = Ok (map JStr geo_names) /\ retry_sel geo_sel = None /\ sel_pert geo_sel = Ok None.
Proof. split; [reflexivity|]. split; reflexivity. Qed.
Lemma geo_kept f r ms : r_msgs r = gf_msgs f ->
  (gf_indexable f = true /\ (exists wp, r_index r = Some wp) \/ gf_indexable f = false /\ r_index r = None /\ r_file r = Some (gf_msgs f)) ->
  kept geo_sel r ms -> ms = geo_messages f.
Proof.
  intros Hm Hr K. unfold kept in K. unfold geo_messages. destruct Hr as [(Hi & wp & Er)|(Hi & Er & Ef)]; rewrite Hi, Er in *.
  - destruct K as (names & sn & p & N1 & N2 & N3 & ->). destruct geo_sel_names as (S1 & _ & S3). rewrite S1 in N1. assert (E1 : names = map JStr geo_names) by congruence. subst names. rewrite mapM_jstr in N2. assert (E2 : sn = geo_names) by congruence. subst sn.
    rewrite S3 in N3. specialize (N3 ltac:(discriminate)). injection N3 as <-. unfold by_names. rewrite Hm. apply flat_map_eq. intros n Hn. rewrite filter_filter. apply filter_ext. intro a.
    rewrite geo_sel_accepts. unfold in_index. rewrite Bool.andb_true_r. change (match dget String.eqb (gm_keys a) "shortName" with Some (JStr s) => String.eqb s n | _ => false end) with (named n a).
    destruct (named n a) eqn:E; [|apply Bool.andb_false_r]. rewrite Bool.andb_true_r. unfold geopotential. apply existsb_exists. exists n. split; [exact Hn|exact E].
  - rewrite Ef in K. rewrite K. apply filter_ext. exact geo_sel_accepts.
Qed.
Lemma reader_new_shape f wp w r w' : reader_new (Some f) wp w = (Ok r, w') ->
  r_msgs r = gf_msgs f /\ r_step r = (-1)%Z /\ r_step2 r = (-1)%Z /\ r_change r = "" /\
  (gf_indexable f = true /\ (exists wp, r_index r = Some wp) \/ gf_indexable f = false /\ r_index r = None /\ r_file r = Some (gf_msgs f)).
Proof. unfold reader_new. destruct (gf_indexable f) eqn:E; intro H; injection H as <- _; cbn; repeat (split; [reflexivity|]); [left|right]; eauto. Qed.
Lemma select_geo f w r w1 m r2 w2 : good_world w -> reader_new (Some f) false w = (Ok r, w1) -> select_messages geo_sel r w1 = (Ok m, (r2, w2)) ->
  exists gms, map snd gms = geo_messages f /\ build_messages (-1) (-1) "" gms = Ok m.
Proof.
  intros Hw Hn H. destruct (reader_new_shape _ _ _ _ _ Hn) as (S1 & S2 & S3 & S4 & S5). pose proof (reader_new_inv _ _ _ _ _ Hw Hn) as [Hg _].
  unfold select_messages in H. destruct (get_gids geo_sel r w1) as [y [r3 w3]] eqn:Eg. destruct y as [[|g gs]|e]; try discriminate.
  destruct (get_gids_spec _ _ _ _ _ _ Hg Eg) as [Sc (ms & Hl & Ho & K)].
  assert (Ek : ms = geo_messages f). { destruct K as [[K _]|[_ (sel' & r4 & E & _)]]; [exact (geo_kept f r ms S1 S5 K)|]. discriminate. }
  rewrite (opened_derefs _ _ _ _ Hg Hl Ho) in H. destruct Sc as [_ (C1 & C2 & C3 & _)]. rewrite C1, C2, C3, S2, S3, S4 in H.
  destruct (build_messages (-1) (-1) "" (combine (g :: gs) ms)) as [m'|e] eqn:Eb; [|discriminate]. assert (m' = m) by congruence. subst m'.
  exists (combine (g :: gs) ms). split; [|exact Eb]. rewrite (map_snd_combine _ _ Hl). exact Ek.
Qed.

Lemma field_read f q w mv out w' : good_world w -> read_geo_file (Some f) q w = (Ok (mv, out), w') ->
  exists xs x m m0 rest, geo_messages f = m0 :: rest /\ Forall2 reads (geo_messages f) xs /\ chosen (first_grid xs) x /\
    dget String.eqb (gm_dbl m0) "missingValue" = Some mv /\ build_id m0 = Ok (g_id (m_grid m)) /\ m_mv m = mv /\
    (exists u, ca_interp q mv = Ok u) /\ ca_resample q (ca_grid q) m (gem_field (ca_gem q) mv (rd_field x)) = Ok out.
Proof.
  intros Hw H. unfold read_geo_file in H. destruct (reader_new (Some f) false w) as [[r|e] w1] eqn:En; [|discriminate].
  destruct (select_messages geo_sel r w1) as [[m|e] [r2 w2]] eqn:Es; [|discriminate]. destruct (select_geo _ _ _ _ _ _ _ Hw En Es) as (gms & Eg & Hb).
  destruct (dget step_eqb (m_first m) (m_first_step m)) as [v|] eqn:Ev; [|discriminate]. destruct (intertable_gids r2 w2) as [[aux|e] [r3 w3]]; [|discriminate].
  destruct (do _ <- ca_interp q (m_mv m); ca_resample q (ca_grid q) m (gem_field (ca_gem q) (m_mv m) v)) as [o|e] eqn:Eo; [|discriminate].
  destruct (close r3 w3) as [[[]|e] [r4 w4]]; [|discriminate]. assert (E1 : mv = m_mv m) by congruence. assert (E2 : out = o) by congruence. clear H. subst mv out.
  apply rbind_ok in Eo as (u & U1 & U2). destruct (build_geo _ _ _ Hb Ev) as (g0 & m0 & rest & xs & x & E & Hid & Hmv & Hx & Hc & ->).
  exists xs, x, m, m0, (map snd rest). split; [rewrite <- Eg, E; reflexivity|]. split; [now rewrite <- Eg|]. split; [exact Hc|]. split; [exact Hmv|]. split; [exact Hid|]. split; [reflexivity|]. split; [eauto|exact U2].
Qed.

(** ** handles *)
Lemma read_ok_released f q w y w' : good_world w -> read_geo_file f q w = (Ok y, w') ->
  w_live w' = w_live w /\ w_bad w' = w_bad w /\ w_index w' = w_index w /\ w_files w' = w_files w /\ good_world w'.
Proof.
  intros Hw H. unfold read_geo_file in H. destruct f as [f|]; [|discriminate]. destruct (reader_new (Some f) false w) as [[r|e] w1] eqn:En; [|discriminate].
  pose proof (reader_new_inv _ _ _ _ _ Hw En) as I1. destruct (select_messages geo_sel r w1) as [[m|e] [r2 w2]] eqn:Es; [|discriminate].
  destruct (select_step _ _ _ _ _ _ _ _ _ _ I1 Es) as (l & I2 & _); [discriminate|].
  destruct (dget step_eqb (m_first m) (m_first_step m)) as [v|]; [|discriminate]. destruct (intertable_gids r2 w2) as [[aux|e] [r3 w3]] eqn:Ea; [|discriminate].
  destruct (aux_step _ _ _ _ _ _ _ _ _ _ I2 Ea) as [-> ->].
  destruct (do _ <- ca_interp q (m_mv m); ca_resample q (ca_grid q) m (gem_field (ca_gem q) (m_mv m) v)) as [o|e]; [|discriminate].
  destruct (rinv_close _ _ _ _ _ _ _ I2) as (r' & C & _). rewrite C in H. assert (E : w' = mkWorld (w_next w2) (w_live w) (w_bad w) (w_index w) (w_files w)) by congruence. subst w'. cbn.
  split; [reflexivity|]. split; [reflexivity|]. split; [reflexivity|]. split; [reflexivity|]. destruct I2 as [[Gn Gf] [Gl _]]. rewrite Gl, map_app in Gn. rewrite Gl in Gf. apply Forall_app in Gf as [Gf _].
  split; [cbn|exact Gf]. clear -Hw. exact (proj1 Hw).
Qed.
Lemma select_any L bad i f sel r w x r' w' : rinv L bad i f r w [] -> select_messages sel r w = (x, (r', w')) ->
  exists l, w_live w' = (L ++ l)%list /\ w_bad w' = bad /\ w_index w' = w_index w /\ w_files w' = w_files w /\ good_world w'.
Proof.
  intros I H. pose proof I as [Hg [Hl [_ [Hb _]]]]. rewrite app_nil_r in Hl. unfold select_messages in H. destruct (get_gids sel r w) as [y [r1 w1]] eqn:Eg.
  destruct (get_gids_spec _ _ _ _ _ _ Hg Eg) as [_ Hy].
  assert (O : exists l, opened w w1 l) by (destruct y as [gs|e]; [destruct Hy as (ms & _ & Ho & _); eauto|destruct Hy as [Ho _]; exact Ho]). destruct O as (l & O).
  assert (E : w' = w1).
  { destruct y as [[|g gs]|e]; [congruence| |congruence]. destruct Hy as (ms & Hlen & Ho & _). rewrite (opened_derefs _ _ _ _ Hg Hlen Ho) in H.
    destruct (build_messages (r_step r1) (r_step2 r1) (r_change r1) (combine (g :: gs) ms)); congruence. }
  subst w'. exists l. pose proof (opened_good _ _ _ Hg O) as G. destruct O as (O1 & O2 & O3 & O4 & _). rewrite O1, Hl. split; [reflexivity|]. split; [congruence|]. auto.
Qed.
Lemma read_raise_held f q w e w' : good_world w -> read_geo_file f q w = (Raise e, w') ->
  match f with
  | None => w' = w /\ e = FileNotFoundError
  | Some f => exists l, w_live w' = (w_live w ++ l)%list /\ w_bad w' = w_bad w /\ good_world w' /\
      w_index w' = (w_index w + (if gf_indexable f then 1 else 0))%nat /\ w_files w' = (w_files w + (if gf_indexable f then 0 else 1))%nat
  end.
Proof.
  intros Hw H. unfold read_geo_file in H. destruct f as [f|]; [|cbn in H; split; congruence]. destruct (reader_new (Some f) false w) as [[r|e1] w1] eqn:En.
  2:{ unfold reader_new in En. destruct (gf_indexable f); discriminate. }
  pose proof (reader_new_inv _ _ _ _ _ Hw En) as I1.
  assert (C : w_index w1 = (w_index w + (if gf_indexable f then 1 else 0))%nat /\ w_files w1 = (w_files w + (if gf_indexable f then 0 else 1))%nat).
  { clear -En. unfold reader_new in En. destruct (gf_indexable f); injection En as _ <-; cbn; lia. }
  destruct C as [C1 C2]. destruct (select_messages geo_sel r w1) as [x [r2 w2]] eqn:Es. destruct (select_any _ _ _ _ _ _ _ _ _ _ I1 Es) as (l & L1 & L2 & L3 & L4 & L5).
  assert (G : w' = w2 -> exists l, w_live w' = (w_live w ++ l)%list /\ w_bad w' = w_bad w /\ good_world w' /\
      w_index w' = (w_index w + (if gf_indexable f then 1 else 0))%nat /\ w_files w' = (w_files w + (if gf_indexable f then 0 else 1))%nat).
  { intros ->. exists l. split; [exact L1|]. split; [exact L2|]. split; [exact L5|]. split; congruence. }
  apply G. clear G. destruct x as [m|e2]; [|congruence]. destruct (dget step_eqb (m_first m) (m_first_step m)) as [v|]; [|congruence].
  destruct (select_step _ _ _ _ _ _ _ _ _ _ I1 Es) as (l2 & I2 & _); [discriminate|].
  destruct (intertable_gids r2 w2) as [y [r3 w3]] eqn:Ea. destruct (aux_step _ _ _ _ _ _ _ _ _ _ I2 Ea) as [-> ->]. destruct y as [aux|e3]; [|congruence].
  destruct (do _ <- ca_interp q (m_mv m); ca_resample q (ca_grid q) m (gem_field (ca_gem q) (m_mv m) v)) as [o|e4]; [|congruence].
  destruct (rinv_close _ _ _ _ _ _ _ I2) as (r' & C & _). rewrite C in H. discriminate.
Qed.

(** one request, then a history *)
Lemma corr_get_held files q c w x c' w' : good_world w -> corr_get files q c w = (x, (c', w')) ->
  good_world w' /\ w_bad w' = w_bad w /\ held w' = (held w + (if reaches_file files q && failed x then 1 else 0))%nat /\
  exists l, w_live w' = (w_live w ++ l)%list /\ (failed x = false -> l = []).
Proof.
  intros Hw H. unfold corr_get in H. unfold reaches_file. destruct (ca_geo q) as [p|e].
  2:{ assert (E1 : x = Raise e) by congruence. assert (E2 : w' = w) by congruence. subst x w'. cbn. split; [exact Hw|]. split; [reflexivity|]. split; [lia|]. exists []. rewrite app_nil_r. auto. }
  destruct (dget String.eqb c (ca_grid q +++ ca_dem q)) as [i|].
  { assert (E1 : x = Ok i) by congruence. assert (E2 : w' = w) by congruence. subst x w'. cbn [failed]. rewrite Bool.andb_false_r. split; [exact Hw|]. split; [reflexivity|]. split; [lia|]. exists []. rewrite app_nil_r. auto. }
  unfold corr_new in H. destruct (ca_dem_read q) as [d|e].
  2:{ assert (E1 : x = Raise e) by congruence. assert (E2 : w' = w) by congruence. subst x w'. cbn. split; [exact Hw|]. split; [reflexivity|]. split; [lia|]. exists []. rewrite app_nil_r. auto. }
  destruct (read_geo_file (files p) q w) as [[g|e] w1] eqn:E.
  - assert (Ex : x = Ok (mkInst p (ca_grid q) d g)) by congruence. assert (E1 : failed x = false) by (rewrite Ex; reflexivity). assert (E2 : w' = w1) by congruence. subst w'.
    destruct (read_ok_released _ _ _ _ _ Hw E) as (R1 & R2 & R3 & R4 & R5). rewrite E1, Bool.andb_false_r. split; [exact R5|]. split; [exact R2|]. split; [unfold held; lia|]. exists []. rewrite app_nil_r. auto.
  - assert (E1 : x = Raise e) by congruence. assert (E2 : w' = w1) by congruence. subst x w'. pose proof (read_raise_held _ _ _ _ _ Hw E) as R. destruct (files p) as [f|].
    + destruct R as (l & R1 & R2 & R3 & R4 & R5). cbn [failed andb]. split; [exact R3|]. split; [exact R2|]. split; [unfold held; rewrite R4, R5; destruct (gf_indexable f); lia|]. exists l. split; [exact R1|discriminate].
    + destruct R as [-> _]. cbn. split; [exact Hw|]. split; [reflexivity|]. split; [lia|]. exists []. rewrite app_nil_r. auto.
Qed.
Lemma corr_run_held h : forall c w xs c' w', good_world w -> corr_run h c w = (xs, (c', w')) ->
  good_world w' /\ w_bad w' = w_bad w /\ held w' = (held w + failures h xs)%nat /\
  exists l, w_live w' = (w_live w ++ l)%list /\ (forallb (fun x => negb (failed x)) xs = true -> l = []).
Proof.
  induction h as [|[files q] h IH]; intros c w xs c' w' Hw H.
  - injection H as <- <- <-. cbn. split; [exact Hw|]. split; [reflexivity|]. split; [lia|]. exists []. rewrite app_nil_r. auto.
  - cbn [corr_run] in H. destruct (corr_get files q c w) as [x [c1 w1]] eqn:E. destruct (corr_run h c1 w1) as [ys cw] eqn:E2.
    assert (E3 : xs = x :: ys) by congruence. assert (E4 : cw = (c', w')) by congruence. subst xs cw. clear H.
    destruct (corr_get_held _ _ _ _ _ _ _ Hw E) as (A1 & A2 & A3 & l1 & A4 & A5). destruct (IH _ _ _ _ _ A1 E2) as (B1 & B2 & B3 & l2 & B4 & B5).
    split; [exact B1|]. split; [congruence|]. split; [cbn [failures]; lia|]. exists (l1 ++ l2)%list. rewrite B4, A4, app_assoc. split; [reflexivity|].
    cbn [forallb]. intro F. apply andb_prop in F as [F1 F2]. rewrite A5 by (now apply Bool.negb_true_iff). now rewrite B5.
Qed.
