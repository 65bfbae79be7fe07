(** * Reader_P: proofs about the selection of messages (C57). *)
From Verif Require Import Base Num PyStr Config Context Aggregator Reader Spec_Reader Base_P Num_P PyStr_P Context_P Aggregator_P.
From Coq Require Import Permutation.
Local Open Scope string_scope.

Lemma step_eqb_iff a b : step_eqb a b = true <-> a = b.
Proof.
  destruct a, b; unfold step_eqb; cbn. rewrite !Bool.andb_true_iff, !Z.eqb_eq. split; [intros [[[[-> ->] ->] ->] ->]; reflexivity|].
  intro H; injection H; intuition.
Qed.

(** ** dictionaries and last entries *)
Section Holds.
  Context {K V : Type} (eqb : K -> K -> bool) (eqb_spec : forall a b, eqb a b = true <-> a = b).
  Lemma holds_nil : holds ([] : list (K * V)) [].
  Proof. split; [constructor|]. intros k v; split; [intros []|]. intros [l1 [l2 [H _]]]. now destruct l1. Qed.


  Lemma holds_dset (d l : list (K * V)) k v : holds d l -> holds (dset eqb d k v) (l ++ [(k, v)])%list.
  Proof.
    intros [Hnd H]. split.
    - apply (NoDup_dset eqb eqb_spec); assumption.
    - intros k1 v1. pose proof (NoDup_dset eqb eqb_spec d k v Hnd) as Hnd2.
      assert (Hg : In (k1, v1) (dset eqb d k v) <-> dget eqb (dset eqb d k v) k1 = Some v1).
      { split; [apply (In_dget eqb eqb_spec); assumption|apply (dget_In eqb eqb_spec)]. }
      rewrite Hg, (dget_dset eqb eqb_spec).
      destruct (eqb k1 k) eqn:E.
      + apply eqb_spec in E. subst k1. split.
        * intro Hv. injection Hv as <-. exists l, []. split; [reflexivity|]. intros [].
        * intros [a [b [Heq Hn]]]. destruct b as [|x b] using rev_ind.
          -- apply app_inj_tail in Heq as [_ Heq]. congruence.
          -- exfalso. apply Hn. clear IHb. rewrite app_comm_cons, app_assoc in Heq. apply app_inj_tail in Heq as [_ Heq]. subst x.
             rewrite map_app. apply in_or_app. right. now left.
      + assert (Hne : k1 <> k) by (intro; subst; rewrite (proj2 (eqb_spec k k) eq_refl) in E; discriminate).
        assert (Hd : dget eqb d k1 = Some v1 <-> In (k1, v1) d).
        { split; [apply (dget_In eqb eqb_spec)|apply (In_dget eqb eqb_spec); assumption]. }
        rewrite Hd, H. split.
        * intros [a [b [-> Hn]]]. exists a, (b ++ [(k, v)])%list. split; [now rewrite <- app_assoc|].
          rewrite map_app. intro Hi. apply in_app_or in Hi as [Hi|[Hi|[]]]; [now apply Hn|]. cbn in Hi. congruence.
        * intros [a [b [Heq Hn]]]. destruct b as [|x b _] using rev_ind.
          -- apply app_inj_tail in Heq as [_ Heq]. injection Heq as -> _. contradiction.
          -- rewrite app_comm_cons, app_assoc in Heq. apply app_inj_tail in Heq as [Heq Hx]. subst l x.
             exists a, b. split; [reflexivity|]. intro Hi. apply Hn. rewrite map_app. apply in_or_app. now left.
  Qed.

  Lemma holds_NoDup_length (d l : list (K * V)) : holds d l -> NoDup (map fst l) -> Permutation d l.
  Proof.
    intros [Hnd H] Hl. apply NoDup_Permutation.
    - now apply NoDup_map_inv in Hnd.
    - now apply NoDup_map_inv in Hl.
    - intros [k v]. rewrite H. split.
      + intros [a [b [-> _]]]. apply in_or_app. right. now left.
      + intro Hi. apply in_split in Hi as [a [b ->]]. exists a, b. split; [reflexivity|].
        rewrite map_app in Hl. cbn in Hl. apply NoDup_remove_2 in Hl. intro Hb. apply Hl. apply in_or_app. now right.
  Qed.
End Holds.

(** ** fields *)
Lemma kint_ok m k z : kint m k = Ok z <-> has_int m k z.
Proof. unfold kint, has_int. destruct (dget String.eqb (gm_keys m) k) as [[]|]; split; try discriminate; intro H; injection H as <-; reflexivity. Qed.

Lemma masked_where_at l d i : masked_at (masked_where (Some l) d) i = nth i l false.
Proof.
  unfold masked_where. destruct (existsb (fun b => b) l) eqn:E; [reflexivity|].
  unfold masked_at. cbn. destruct (nth_in_or_default i l false) as [Hi|Hi]; [|now rewrite Hi].
  destruct (nth i l false) eqn:En; [|reflexivity]. exfalso.
  assert (existsb (fun b => b) l = true) by (apply existsb_exists; exists true; auto). congruence.
Qed.

Lemma msg_field_spec m v : msg_field m = Ok v -> adata v = gm_values m /\
  exists b, has_int m "bitmapPresent" b /\ (b <> 0%Z -> List.length (gm_bitmap m) = List.length (gm_values m)) /\
    forall i, masked_at v i = (negb (b =? 0)%Z && (nth i (gm_bitmap m) 1%Z =? 0)%Z)%bool.
Proof.
  unfold msg_field. intro H. apply rbind_ok in H as [b [Hb H]]. apply kint_ok in Hb.
  destruct (Z.eqb_spec b 0) as [->|Hb0].
  - injection H as <-. split; [reflexivity|]. exists 0%Z. split; [exact Hb|]. split; [congruence|]. reflexivity.
  - destruct (Nat.eqb_spec (List.length (gm_bitmap m)) (List.length (gm_values m))) as [E|E]; [|discriminate].
    assert (Hv : v = masked_where (Some (map (Z.eqb 0) (gm_bitmap m))) (gm_values m)) by congruence. clear H. subst v. split; [now unfold masked_where; destruct (existsb _ _)|].
    exists b. split; [exact Hb|]. split; [auto|]. intro i. rewrite masked_where_at.
    destruct (Z.eqb_spec b 0); [contradiction|]. cbn [negb andb].
    change false with (Z.eqb 0 1) at 1. rewrite map_nth. apply Z.eqb_sym.
Qed.

(** ** the loop of select_messages *)
Definition rd_key (i : Z) (x : reading) : step := mkStep (rd_start x) (rd_end x) (rd_nj x) i (rd_level x).

Lemma select_body_inv step2 change main st g m st' : select_body step2 change main st (g, m) = Ok st' ->
  exists x, reads m x /\
    let i := if is_change change x then step2 else ss_input st in
    ss_input st' = i /\
    if other_nj (rd_nj x) main then
      ss_first st' = ss_first st /\ ss_second st' = dset step_eqb (ss_second st) (rd_key i x) (rd_field x) /\
      exists gr, grid_details g m = Ok gr /\ ss_grid2 st' = Some gr
    else ss_grid2 st' = ss_grid2 st /\ ss_second st' = ss_second st /\
      ss_first st' = match ss_grid2 st with None => dset step_eqb (ss_first st) (rd_key i x) (rd_field x) | Some _ => ss_first st end.
Proof.
  unfold select_body. intro H.
  apply rbind_ok in H as [s [Hs H]]. apply rbind_ok in H as [e [He H]]. apply rbind_ok in H as [nj [Hnj H]].
  apply rbind_ok in H as [lev [Hlev H]]. apply rbind_ok in H as [g2 [Hg2 H]]. apply rbind_ok in H as [v [Hv H]].
  apply kint_ok in Hs, He, Hnj, Hlev. destruct (msg_field_spec _ _ Hv) as [Hd Hm].
  exists (mkReading s e nj lev v). split; [unfold reads; cbn; auto 10|].
  cbn [rd_nj rd_start rd_end rd_level rd_field]. unfold is_change. cbn [rd_start rd_end].
  change (str_of_Z s +++ "-" +++ str_of_Z e) with (label s e). unfold rd_key; cbn [rd_nj rd_start rd_end rd_level].
  destruct (other_nj nj main) eqn:Eo.
  - apply rbind_ok in Hg2 as [gr [Hgr Hg2]]. injection Hg2 as <-. injection H as <-. cbn [ss_input ss_first ss_second ss_grid2]. repeat split; eauto.
  - injection Hg2 as <-. destruct (ss_grid2 st) eqn:E2; injection H as <-; cbn [ss_input ss_first ss_second ss_grid2]; repeat split; auto.
Qed.

(** general fold: readings of the messages, and the input step so far *)
Lemma select_fold_reads step2 change main ms : forall st st', foldM (select_body step2 change main) ms st = Ok st' ->
  exists xs, Forall2 reads (map snd ms) xs.
Proof.
  induction ms as [|[g m] ms IH]; intros st st' H; [exists []; constructor|].
  cbn [foldM] in H. apply rbind_ok in H as [s1 [H1 H]]. destruct (select_body_inv _ _ _ _ _ _ _ H1) as [x [Hx _]].
  destruct (IH _ _ H) as [xs Hxs]. exists (x :: xs). now constructor.
Qed.

Definition input_upto (step step2 : Z) (change : string) (before : list reading) : Z :=
  if existsb (is_change change) before then step2 else step.

Lemma reads_fun m x y : reads m x -> reads m y -> rd_start x = rd_start y /\ rd_end x = rd_end y /\ rd_nj x = rd_nj y /\ rd_level x = rd_level y.
Proof. unfold reads, has_int. intros H1 H2. intuition congruence. Qed.

(** phase 1: all messages have the grid of the first *)
Lemma select_phase1 step step2 change main ms : forall before d st st',
  foldM (select_body step2 change main) ms st = Ok st' ->
  ss_input st = input_upto step step2 change before -> ss_grid2 st = None -> ss_second st = [] -> holds (ss_first st) d ->
  (forall m x, In m (map snd ms) -> reads m x -> other_nj (rd_nj x) main = false) ->
  exists xs, Forall2 reads (map snd ms) xs /\ ss_input st' = input_upto step step2 change (before ++ xs)%list /\
    ss_grid2 st' = None /\ ss_second st' = [] /\ holds (ss_first st') (d ++ entries step step2 change before xs)%list.
Proof.
  induction ms as [|[g m] ms IH]; intros before d st st' H Hi Hg H2 Hd Hall.
  - injection H as <-. exists []. cbn. rewrite !app_nil_r. auto using Forall2_nil.
  - cbn [foldM] in H. apply rbind_ok in H as [s1 [H1 H]].
    destruct (select_body_inv _ _ _ _ _ _ _ H1) as [x [Hx [Hi1 Hrest]]].
    rewrite (Hall m x (or_introl eq_refl) Hx) in Hrest. destruct Hrest as [Hg1 [H21 Hf1]].
    rewrite Hg in Hg1, Hf1.
    assert (Hin : (if is_change change x then step2 else ss_input st) = input_upto step step2 change (before ++ [x])%list).
    { rewrite Hi. unfold input_upto. rewrite existsb_app. cbn [existsb]. rewrite Bool.orb_false_r. destruct (existsb _ before), (is_change change x); reflexivity. }
    destruct (IH (before ++ [x])%list (d ++ [(rd_key (if is_change change x then step2 else ss_input st) x, rd_field x)])%list s1 st' H) as [xs [Hxs [Hi' [Hg' [H2' Hf']]]]].
    + rewrite Hi1. exact Hin.
    + exact Hg1.
    + now rewrite H21.
    + rewrite Hf1. apply holds_dset; [exact step_eqb_iff|exact Hd].
    + intros m' x' Hm'. apply Hall. now right.
    + exists (x :: xs). split; [now constructor|]. split; [rewrite Hi', <- app_assoc; reflexivity|].
      split; [exact Hg'|]. split; [exact H2'|]. cbn [entries]. rewrite <- app_assoc in Hf'. cbn [List.app] in Hf'.
      rewrite Hin in Hf'. exact Hf'.
Qed.

(** phase 2: all messages have another grid *)
Lemma select_phase2 step step2 change main ms : forall before d st st',
  foldM (select_body step2 change main) ms st = Ok st' ->
  ss_input st = input_upto step step2 change before -> holds (ss_second st) d ->
  (forall m x, In m (map snd ms) -> reads m x -> other_nj (rd_nj x) main = true) ->
  exists xs, Forall2 reads (map snd ms) xs /\
    ss_first st' = ss_first st /\ holds (ss_second st') (d ++ entries step step2 change before xs)%list /\
    (ms <> [] -> exists gr g m, In (g, m) ms /\ grid_details g m = Ok gr /\ ss_grid2 st' = Some gr).
Proof.
  induction ms as [|[g m] ms IH]; intros before d st st' H Hi Hd Hall.
  - injection H as <-. exists []. cbn. rewrite !app_nil_r. repeat split; auto using Forall2_nil; try apply Hd; contradiction.
  - cbn [foldM] in H. apply rbind_ok in H as [s1 [H1 H]].
    destruct (select_body_inv _ _ _ _ _ _ _ H1) as [x [Hx [Hi1 Hrest]]].
    rewrite (Hall m x (or_introl eq_refl) Hx) in Hrest. destruct Hrest as [Hf1 [H21 [gr [Hgr Hg1]]]].
    assert (Hin : (if is_change change x then step2 else ss_input st) = input_upto step step2 change (before ++ [x])%list).
    { rewrite Hi. unfold input_upto. rewrite existsb_app. cbn [existsb]. rewrite Bool.orb_false_r. destruct (existsb _ before), (is_change change x); reflexivity. }
    destruct (IH (before ++ [x])%list (d ++ [(rd_key (if is_change change x then step2 else ss_input st) x, rd_field x)])%list s1 st' H) as [xs [Hxs [Hf' [H2' Hg']]]].
    + rewrite Hi1. exact Hin.
    + rewrite H21. apply holds_dset; [exact step_eqb_iff|exact Hd].
    + intros m' x' Hm'. apply Hall. now right.
    + exists (x :: xs). split; [now constructor|]. split; [congruence|].
      split.
      * cbn [entries]. rewrite <- app_assoc in H2'. cbn [List.app] in H2'. rewrite Hin in H2'. exact H2'.
      * intros _. destruct ms as [|gm ms].
        -- injection H as <-. exists gr, g, m. split; [now left|]. auto.
        -- destruct (Hg' ltac:(discriminate)) as [gr' [g' [m' [Hin' [Hgr' Hs']]]]]. exists gr', g', m'. split; [now right|]. auto.
Qed.

Lemma min_step_spec l k : min_step l = Ok k -> In k l /\ Forall (fun k' => s_start k <= s_start k')%Z l.
Proof.
  destruct l as [|a l]; [discriminate|]. cbn [min_step]. intro H. injection H as <-.
  assert (Hg : forall l b, let r := fold_left (fun best k => if (s_start k <? s_start best)%Z then k else best) l b in
    (r = b \/ In r l) /\ (s_start r <= s_start b)%Z /\ Forall (fun k' => s_start r <= s_start k')%Z l).
  { clear. induction l as [|c l IH]; intro b; cbn; [repeat split; auto; lia|].
    destruct (Z.ltb_spec (s_start c) (s_start b)) as [Hlt|Hge].
    - destruct (IH c) as [Hin [Hle Hall]]. split; [right; destruct Hin as [->|Hin]; auto|]. split; [lia|]. constructor; [lia|exact Hall].
    - destruct (IH b) as [Hin [Hle Hall]]. split; [destruct Hin as [->|Hin]; auto|]. split; [lia|]. constructor; [lia|exact Hall]. }
  destruct (Hg l a) as [Hin [Hle Hall]]. split; [destruct Hin as [->|Hin]; [now left|now right]|]. constructor; [exact Hle|exact Hall].
Qed.

(** ** build_messages *)
Lemma build_inv step step2 change ms m : build_messages step step2 change ms = Ok m ->
  exists g0 m0 rest main st, ms = (g0, m0) :: rest /\ grid_details g0 m0 = Ok main /\ m_grid m = main /\
    foldM (select_body step2 change main) ms (mkSel step [] [] None) = Ok st /\
    m_first m = ss_first st /\ m_second m = ss_second st /\
    match ss_grid2 st with None => m_grid2 m = None
      | Some x => exists k, min_step (dkeys (ss_second st)) = Ok k /\ m_grid2 m = Some (x, k) end /\
    first_by_end (ss_first st) = Ok (m_first_step m) /\
    exists dd dt, has_int m0 "dataDate" dd /\ has_int m0 "dataTime" dt /\ ref_date dd dt = Ok (m_date m).
Proof.
  unfold build_messages. destruct ms as [|[g0 m0] rest]; [discriminate|]. intro H.
  apply rbind_ok in H as [main [Hmain H]]. apply rbind_ok in H as [u [_ H]]. apply rbind_ok in H as [t [_ H]].
  apply rbind_ok in H as [su [_ H]]. apply rbind_ok in H as [lt [_ H]]. apply rbind_ok in H as [mv [_ H]].
  apply rbind_ok in H as [dd [Hdd H]]. apply rbind_ok in H as [dt [Hdt H]]. apply rbind_ok in H as [st [Hst H]].
  apply rbind_ok in H as [g2 [Hg2 H]]. apply rbind_ok in H as [d [Hd H]]. apply rbind_ok in H as [fs [Hfs H]].
  injection H as <-. exists g0, m0, rest, main, st. cbn [m_grid m_first m_second m_grid2 m_first_step m_date].
  apply kint_ok in Hdd, Hdt.
  assert (Hg : match ss_grid2 st with None => g2 = None | Some x => exists k, min_step (dkeys (ss_second st)) = Ok k /\ g2 = Some (x, k) end).
  { destruct (ss_grid2 st); [|now injection Hg2]. apply rbind_ok in Hg2 as [k [Hk Hg2]]. injection Hg2 as <-. eauto. }
  repeat split; auto. exists dd, dt. auto.
Qed.

Lemma grid_details_nj g m gr : grid_details g m = Ok gr -> g_nj gr = opt_int m "Nj" /\ g_gid gr = g.
Proof. unfold grid_details. intro H. apply rbind_ok in H as [i [_ H]]. injection H as <-. auto. Qed.

Lemma other_nj_reads g0 m0 main m1 x1 n : grid_details g0 m0 = Ok main -> has_int m0 "Nj" n -> reads m1 x1 ->
  other_nj (rd_nj x1) main = negb (rd_nj x1 =? n)%Z.
Proof.
  intros Hg Hn _. apply grid_details_nj in Hg as [Hg _]. unfold other_nj. rewrite Hg. unfold opt_int. unfold has_int in Hn. now rewrite Hn.
Qed.

Lemma Forall2_in_l {A B} (R : A -> B -> Prop) l1 l2 x : Forall2 R l1 l2 -> In x l1 -> exists y, In y l2 /\ R x y.
Proof. intro H. induction H; intros []; [subst; eauto using in_eq|]. destruct (IHForall2 H1) as [y' [? ?]]. eauto using in_cons. Qed.

Lemma Forall2_reads_eq ms xs ys : Forall2 reads ms xs -> Forall2 reads ms ys -> map rd_nj xs = map rd_nj ys.
Proof.
  intro H. revert ys. induction H as [|m x ms xs Hx H IH]; intros ys Hy; inversion Hy as [|m' y ms' ys' Hy1 Hy2 E1 E2]; subst; [reflexivity|].
  cbn. rewrite (IH _ Hy2). destruct (reads_fun _ _ _ Hx Hy1) as [_ [_ [-> _]]]. reflexivity.
Qed.

Theorem build_single step step2 change ms m n : build_messages step step2 change ms = Ok m ->
  Forall (fun gm => has_int (snd gm) "Nj" n) ms ->
  exists xs, Forall2 reads (map snd ms) xs /\ holds (m_first m) (entries step step2 change [] xs) /\ m_second m = [] /\ m_grid2 m = None.
Proof.
  intros H Hn. destruct (build_inv _ _ _ _ _ H) as [g0 [m0 [rest [main [st [Hms [Hmain [_ [Hst [Hf [Hs [Hg _]]]]]]]]]]]].
  assert (Hn0 : has_int m0 "Nj" n) by (rewrite Hms in Hn; now inversion Hn).
  destruct (select_phase1 step step2 change main ms [] [] _ _ Hst) as [xs [Hxs [_ [Hg2 [Hs2 Hh]]]]]; try reflexivity.
  - apply holds_nil.
  - intros m' x' Hin Hx. rewrite (other_nj_reads _ _ _ _ _ _ Hmain Hn0 Hx). apply in_map_iff in Hin as [gm [<- Hin]].
    rewrite Forall_forall in Hn. specialize (Hn _ Hin). destruct Hx as [_ [_ [Hx _]]]. unfold has_int in *. rewrite Hn in Hx. injection Hx as Hx. rewrite Hx, Z.eqb_refl. reflexivity.
  - exists xs. split; [exact Hxs|]. rewrite Hf, Hs. split; [exact Hh|]. split; [exact Hs2|]. now rewrite Hg2 in Hg.
Qed.

Theorem build_change step step2 change ms1 ms2 m n : build_messages step step2 change (ms1 ++ ms2)%list = Ok m ->
  ms1 <> [] -> ms2 <> [] ->
  Forall (fun gm => has_int (snd gm) "Nj" n) ms1 ->
  Forall (fun gm => exists n2, has_int (snd gm) "Nj" n2 /\ n2 <> n) ms2 ->
  exists xs1 xs2, Forall2 reads (map snd ms1) xs1 /\ Forall2 reads (map snd ms2) xs2 /\
    holds (m_first m) (entries step step2 change [] xs1) /\
    holds (m_second m) (entries step step2 change xs1 xs2) /\
    exists gr k, m_grid2 m = Some (gr, k) /\ (exists g m', In (g, m') ms2 /\ grid_details g m' = Ok gr) /\
      In k (map fst (m_second m)) /\ Forall (fun k' => s_start k <= s_start k')%Z (map fst (m_second m)).
Proof.
  intros H H1 H2 Hn1 Hn2. destruct (build_inv _ _ _ _ _ H) as [g0 [m0 [rest [main [st [Hms [Hmain [_ [Hst [Hf [Hs [Hg _]]]]]]]]]]]].
  assert (Hn0 : has_int m0 "Nj" n).
  { destruct ms1 as [|gm ms1]; [contradiction|]. cbn in Hms. injection Hms as -> _. now inversion Hn1. }
  rewrite foldM_app in Hst. apply rbind_ok in Hst as [st1 [Hst1 Hst2]].
  destruct (select_phase1 step step2 change main ms1 [] [] _ _ Hst1) as [xs1 [Hxs1 [Hi1 [Hg1 [Hs1 Hh1]]]]]; try reflexivity.
  - apply holds_nil.
  - intros m' x' Hin Hx. rewrite (other_nj_reads _ _ _ _ _ _ Hmain Hn0 Hx). apply in_map_iff in Hin as [gm [<- Hin]].
    rewrite Forall_forall in Hn1. specialize (Hn1 _ Hin). destruct Hx as [_ [_ [Hx _]]]. unfold has_int in *. rewrite Hn1 in Hx. injection Hx as Hx. rewrite Hx, Z.eqb_refl. reflexivity.
  - destruct (select_phase2 step step2 change main ms2 xs1 [] _ _ Hst2) as [xs2 [Hxs2 [Hf2 [Hh2 Hg2]]]].
    + exact Hi1.
    + rewrite Hs1. apply holds_nil.
    + intros m' x' Hin Hx. rewrite (other_nj_reads _ _ _ _ _ _ Hmain Hn0 Hx). apply in_map_iff in Hin as [gm [<- Hin]].
      rewrite Forall_forall in Hn2. destruct (Hn2 _ Hin) as [n2 [Hn2' Hne]]. destruct Hx as [_ [_ [Hx _]]]. unfold has_int in *. rewrite Hn2' in Hx. injection Hx as Hx.
      destruct (Z.eqb_spec (rd_nj x') n); [congruence|reflexivity].
    + destruct (Hg2 H2) as [gr [g [m' [Hin [Hgr Hs2]]]]]. rewrite Hs2 in Hg. destruct Hg as [k [Hk Hg]].
      exists xs1, xs2. split; [exact Hxs1|]. split; [exact Hxs2|]. rewrite Hf, Hs. split; [now rewrite Hf2|]. split; [exact Hh2|].
      exists gr, k. split; [exact Hg|]. split; [eauto|]. apply min_step_spec. exact Hk.
Qed.
