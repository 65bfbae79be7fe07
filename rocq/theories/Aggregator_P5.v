(** * Proofs about the aggregator: half weights, ranges, windows *)
From Verif Require Import Base Num Base_P Num_P Aggregator Spec_Aggregation Aggregator_P Aggregator_P2 Aggregator_P4.
From Coq Require Import ZifyBool ZifyNat Sorting.Permutation Sorting.Sorted.
Ltac Zify.zify_post_hook ::= Z.div_mod_to_equations.
Local Open Scope Z_scope.

Lemma ma_scale_cell a i x w : wf_arr a -> masked_at a i = false -> cell a i x ->
  nth_error (ma_scale_data a (Fin w)) i = Some (Fin (x * w)).
Proof.
  intros Hwf Hm Hx. unfold cell in Hx. destruct a as [d|d [m|]]; cbn [adata ma_scale_data] in *;
    try (erewrite nth_error_map'; [|exact Hx]; reflexivity).
  unfold masked_at in Hm. cbn [amask] in Hm. simpl in Hwf.
  assert (Hi : (i < List.length m)%nat) by (rewrite Hwf; apply nth_error_Some; congruence).
  erewrite nth_error_zipw; [|exact Hx|apply (nth_error_nth' m false Hi)]. cbn beta. rewrite Hm. reflexivity.
Qed.
Lemma ma_scale_length a k : wf_arr a -> List.length (ma_scale_data a k) = asize a.
Proof.
  unfold asize. destruct a as [d|d [m|]]; cbn [ma_scale_data adata wf_arr]; intro H;
    rewrite ?map_length, ?zipw_length, ?H; try lia; reflexivity.
Qed.

Lemma avg_half_loop v n (i : nat) from to dt1 dt2 (w f : Z -> Qc) :
  (i < n)%nat ->
  (forall t, (if (t =? from) || (t =? to - 1) then dt2 else dt1) = Fin (w t)) ->
  forall ts, (forall t c, In t ts -> dget Z.eqb v t = Some c -> wf_arr c /\ masked_at c i = false /\ cell c i (f t)) ->
  forall s x y s' c', nth_error s i = Some (Fin x) ->
  foldM (avg_half_body v from to dt1 dt2) ts (s, Fin y) = Ok (s', c') ->
  let l := filter (fun t => zmem t (dkeys v)) ts in
  nth_error s' i = Some (Fin (x + Qsum (map (fun t => w t * f t) l))%Qc) /\ c' = Fin (y + Qsum (map w l))%Qc.
Proof.
  intros Hi Hw. induction ts as [|t ts IH]; intros Hf s x y s' c' Hx H; cbn [foldM] in H.
  - injection H as <- <-. cbn [filter map Qsum fold_right]. unfold Qsum. cbn [fold_right].
    rewrite Hx. split; [apply f_equal; apply f_equal; ring|apply f_equal; ring].
  - apply rbind_ok in H as [[s1 c1] [H1 H]]. unfold avg_half_body in H1. cbn [filter].
    destruct (dget Z.eqb v t) as [a|] eqn:Ea.
    + assert (Hz : zmem t (dkeys v) = true).
      { apply zmem_In, (dmem_In Z.eqb Zeqb_spec'). unfold dmem. rewrite Ea. reflexivity. }
      rewrite Hz. rewrite Hw in H1. apply rbind_ok in H1 as [s2 [Hs2 H1]]. injection H1 as <- <-.
      apply ew2_inv in Hs2 as [Hl ->].
      destruct (Hf t a (or_introl eq_refl) Ea) as [Hwf [Hm Hc]].
      apply IH with (x := (x + f t * w t)%Qc) in H as [H1 H2].
      * rewrite H1, H2. cbn [map]. unfold Qsum. cbn [fold_right]. split; [apply f_equal; apply f_equal; ring|apply f_equal; ring].
      * intros; apply Hf; [right|]; assumption.
      * erewrite nth_error_zipw; [|exact Hx|apply ma_scale_cell; eassumption]. reflexivity.
    + assert (Hz : zmem t (dkeys v) = false).
      { apply zmem_nIn, (dget_None Z.eqb Zeqb_spec'). exact Ea. }
      rewrite Hz. injection H1 as <- <-. eapply IH; [|exact Hx|exact H].
      intros; apply Hf; [right|]; assumption.
Qed.

Lemma sorted_range a b : Zsorted (map (fun i => a + Z.of_nat i * 1) (seq 0 b)).
Proof.
  unfold Zsorted. generalize 0%nat as k. induction b as [|b IH]; intro k; cbn [seq map]; constructor.
  - apply IH.
  - apply Forall_forall. intros x Hx. apply in_map_iff in Hx as [j [<- Hj]]. apply in_seq in Hj. lia.
Qed.
Lemma sorted_filter f l : Zsorted l -> Zsorted (filter f l).
Proof.
  intro H. induction H as [|x l Hs IH Hx]; cbn [filter]; [constructor|].
  destruct (f x); [|exact IH]. constructor; [exact IH|]. rewrite Forall_forall in *.
  intros y Hy. apply filter_In in Hy as [Hy _]. apply Hx. exact Hy.
Qed.
Lemma sorted_unique l1 : forall l2, Zsorted l1 -> Zsorted l2 -> (forall t, In t l1 <-> In t l2) -> l1 = l2.
Proof.
  induction l1 as [|a l1 IH]; intros [|b l2] H1 H2 H.
  - reflexivity.
  - exfalso. apply (H b). left. reflexivity.
  - exfalso. apply (H a). left. reflexivity.
  - inversion H1 as [|? ? S1 F1]; subst. inversion H2 as [|? ? S2 F2]; subst. rewrite Forall_forall in F1, F2.
    assert (a = b).
    { destruct (proj1 (H a) (or_introl eq_refl)) as [|Ha]; [congruence|].
      destruct (proj2 (H b) (or_introl eq_refl)) as [|Hb]; [congruence|].
      apply F1 in Hb. apply F2 in Ha. lia. }
    subst b. f_equal. apply IH; [exact S1|exact S2|]. intro t. split; intro Ht.
    + destruct (proj1 (H t) (or_intror Ht)) as [->|]; [apply F1 in Ht; lia|assumption].
    + destruct (proj2 (H t) (or_intror Ht)) as [->|]; [apply F2 in Ht; lia|assumption].
Qed.

Lemma half_window_list values a s l ts : 0 < s -> available_in values a (a + s) l ->
  py_range a (a + s + 1) 1 = Ok ts -> filter (fun t => zmem t (dkeys (by_end_step values))) ts = l.
Proof.
  intros Hs [Hl Hin] Hts. apply sorted_unique; [|exact Hl|].
  - apply sorted_filter. rewrite py_range_pos_ok in Hts by lia. injection Hts as <-. apply sorted_range.
  - intro t. rewrite filter_In, zmem_In, by_end_step_mem, Hin, (in_py_range_pos a (a + s + 1) 1 ts t eq_refl Hts).
    split.
    + intros [[i Hi] Ha]. split; [lia|exact Ha].
    + intros [Ht Ha]. split; [|exact Ha]. exists (t - a). lia.
Qed.

Lemma Qsum_nonneg l : (forall x, In x l -> 0 <= x)%Qc -> (0 <= Qsum l)%Qc.
Proof.
  induction l as [|x l IH]; intro H; unfold Qsum; cbn [fold_right]; [apply Qcle_refl|].
  pose proof (H x (or_introl eq_refl)) as Hx. pose proof (IH (fun y Hy => H y (or_intror Hy))) as Hl.
  unfold Qsum in Hl. qclra.
Qed.
Lemma Qsum_pos l : (forall x, In x l -> 0 < x)%Qc -> l <> [] -> (0 < Qsum l)%Qc.
Proof.
  destruct l as [|x l]; intros H Hn; [contradiction|]. unfold Qsum. cbn [fold_right].
  pose proof (H x (or_introl eq_refl)) as Hx.
  pose proof (Qsum_nonneg l (fun y Hy => Qclt_le_weak _ _ (H y (or_intror Hy)))) as Hl. unfold Qsum in Hl. qclra.
Qed.
Lemma half_weight_pos a s n t : 0 < s -> 0 < n -> (0 < half_weight a s n t)%Qc.
Proof.
  intros Hs Hn. unfold half_weight. pose proof (ZQ_pos s Hs). pose proof (ZQ_pos n Hn).
  pose proof (Qcdiv_pos _ _ H H0).
  destruct ((t =? a) || (t =? a + s)); [|assumption]. apply Qcdiv_pos; [assumption|]. apply ZQ_pos. lia.
Qed.

(** one window *)
Lemma avg_field_half_cell values g n iter a l i f :
  a_half g = true -> 0 < a_step g -> one_per_step values -> same_size values n -> (i < n)%nat ->
  available_in values iter (iter + a_step g) l -> (2 <= List.length l)%nat ->
  (forall t c, In t l -> has_field values t c -> masked_at c i = false /\ cell c i (f t)) ->
  avg_field g (by_end_step values) n iter = Ok a ->
  let w := half_weight iter (a_step g) (Z.of_nat (List.length l) - 1) in
  cell a i (Qsum (map (fun t => w t * f t) l) / Qsum (map w l))%Qc.
Proof.
  intros Hh Hs Hone Hsz Hi Hl Hlen Hf H w. unfold avg_field in H. rewrite Hh in H.
  apply rbind_ok in H as [[sm ct] [H1 H]]. injection H as <-. unfold avg_half in H1.
  apply rbind_ok in H1 as [ts [Hts H1]].
  pose proof (half_window_list values iter (a_step g) l ts Hs Hl Hts) as El. rewrite El in H1.
  set (N := Z.of_nat (List.length l) - 1) in *. assert (HN : 0 < N) by lia.
  rewrite (proj2 (Z.ltb_lt 0 N) HN) in H1.
  assert (HN0 : ZQ N <> 0%Qc) by (apply ZQ_neq0; lia).
  unfold nint in H1. rewrite (ndiv_fin (ZQ (a_step g)) (ZQ N) HN0) in H1.
  rewrite ndiv_fin in H1 by (apply ZQ_neq0; lia).
  assert (Hw : forall t, (if (t =? iter) || (t =? iter + a_step g + 1 - 1)
                          then Fin (ZQ (a_step g) / ZQ N / ZQ 2) else Fin (ZQ (a_step g) / ZQ N)) = Fin (w t)).
  { intro t. unfold w, half_weight. replace (iter + a_step g + 1 - 1) with (iter + a_step g) by lia.
    destruct ((t =? iter) || (t =? iter + a_step g)); reflexivity. }
  assert (Hcells : forall t c, In t ts -> dget Z.eqb (by_end_step values) t = Some c ->
                     wf_arr c /\ masked_at c i = false /\ cell c i (f t)).
  { intros t c Ht Hc. apply by_end_step_get in Hc; [|exact Hone].
    assert (Htl : In t l).
    { rewrite <- El. apply filter_In. split; [exact Ht|]. apply zmem_In, by_end_step_mem. exists c. exact Hc. }
    split; [destruct Hc as [k [Hin _]]; apply (Hsz k c Hin)|]. apply (Hf t c Htl Hc). }
  destruct (avg_half_loop (by_end_step values) n i iter (iter + a_step g + 1)
           (Fin (ZQ (a_step g) / ZQ N)) (Fin (ZQ (a_step g) / ZQ N / ZQ 2)) w f Hi Hw ts Hcells
           (zeros n) 0%Qc (ZQ 0) sm ct (nth_error_zeros n i Hi) H1) as [H2 H3].
  rewrite El in H2, H3. unfold cell. cbn [fst snd adata masked_where].
  erewrite nth_error_map'; [|exact H2]. rewrite H3, ZQ_0.
  assert (Hp : (0 < Qsum (map w l))%Qc).
  { apply Qsum_pos.
    - intros x Hx. apply in_map_iff in Hx as [t [<- _]]. apply half_weight_pos; lia.
    - destruct l; simpl in *; [lia|discriminate]. }
  rewrite ndiv_fin.
  - apply f_equal. apply f_equal. rewrite !Qcplus_0_l. reflexivity.
  - apply Qc_pos_neq0. rewrite Qcplus_0_l. exact Hp.
Qed.

(** *** C08 *)
Theorem average_trapezoid : forall stype input unit s force start end_ sec values n out,
  let g := aggr_init stype input unit s "average" true force start end_ sec in
  0 < s -> one_per_step values -> same_size values n ->
  do_manipulation g values = Ok out ->
  forall k a l i f, In (k, a) out -> (i < n)%nat ->
    available_in values (s_start k) (s_end k) l -> (2 <= List.length l)%nat ->
    (forall t c, In t l -> has_field values t c -> masked_at c i = false /\ cell c i (f t)) ->
    s_end k = s_start k + s /\
    let w := half_weight (s_start k) s (Z.of_nat (List.length l) - 1) in
    cell a i (Qsum (map (fun t => w t * f t) l) / Qsum (map w l))%Qc.
Proof.
  intros stype input unit s force start end_ sec values n out g Hs Hone Hsz H k a l i f Hin Hi Hl Hlen Hf.
  change (average g values = Ok out) in H.
  destruct (average_shape g values out Hs H) as [k0 [a0 [rest [iters [Ev [Hr HF]]]]]].
  assert (Hn0 : asize a0 = n) by (apply (Hsz k0 a0); rewrite Ev; left; reflexivity).
  destruct (Forall2_In_r _ _ _ _ HF Hin) as [t [Ht [Hk Ha]]]. cbn [fst snd] in Hk, Ha.
  rewrite Hk in Hl |- *. cbn [s_start s_end] in *. change (a_step g) with s in *. rewrite Hn0 in Ha.
  split; [reflexivity|]. eapply (avg_field_half_cell values g); try eassumption. reflexivity.
Qed.

Lemma Qsum_app l1 l2 : Qsum (l1 ++ l2) = (Qsum l1 + Qsum l2)%Qc.
Proof.
  induction l1 as [|x l1 IH]; cbn [app]; unfold Qsum in *; cbn [fold_right]; [ring|]. rewrite IH. ring.
Qed.
Lemma Qsum_const c l : (forall x, In x l -> x = c) -> Qsum l = (ZQ (Z.of_nat (List.length l)) * c)%Qc.
Proof.
  induction l as [|x l IH]; intro H; unfold Qsum in *; cbn [fold_right List.length].
  - change (Z.of_nat 0) with 0. rewrite ZQ_0. ring.
  - rewrite IH by (intros; apply H; right; assumption). rewrite (H x) by (left; reflexivity).
    rewrite Nat2Z.inj_succ, <- Z.add_1_r, ZQ_add, ZQ_1. ring.
Qed.

(** when both ends of the window are available the weights sum to [s] *)
Lemma trapezoid_weights values a s l : 0 < s -> available_in values a (a + s) l ->
  available values a -> available values (a + s) ->
  (2 <= List.length l)%nat /\
  Qsum (map (half_weight a s (Z.of_nat (List.length l) - 1)) l) = ZQ s.
Proof.
  intros Hs [Hsort Hin] Ha Hb.
  assert (Hia : In a l) by (apply Hin; split; [lia|exact Ha]).
  assert (Hib : In (a + s) l) by (apply Hin; split; [lia|exact Hb]).
  destruct l as [|x l]; [destruct Hia|]. inversion Hsort as [|? ? Hs' Hfa]; subst. rewrite Forall_forall in Hfa.
  assert (x = a).
  { destruct Hia as [|Hia]; [assumption|]. apply Hfa in Hia.
    pose proof (proj1 (Hin x) (or_introl eq_refl)). lia. }
  subst x. destruct Hib as [Hib|Hib]; [lia|].
  assert (Hne : l <> []) by (intro E; subst; destruct Hib).
  destruct (exists_last Hne) as [m [z ->]].
  assert (Hmz : forall t, In t m -> t < z).
  { intros t Ht. clear -Hs' Ht. induction m as [|y m IH]; [destruct Ht|].
    cbn [app] in Hs'. inversion Hs' as [|? ? S F]; subst. rewrite Forall_forall in F.
    destruct Ht as [->|Ht]; [apply F; apply in_or_app; right; left; reflexivity|]. apply IH; assumption. }
  assert (z = a + s).
  { apply in_app_iff in Hib as [Hib|[->|[]]]; [|reflexivity].
    apply Hmz in Hib. assert (In z (a :: m ++ [z])) by (right; apply in_or_app; right; left; reflexivity).
    apply Hin in H. lia. }
  subst z. cbn [List.length]. rewrite app_length. cbn [List.length]. split; [lia|].
  set (N := Z.of_nat (S (List.length m + 1)) - 1). assert (HN : N = Z.of_nat (List.length m) + 1) by lia.
  cbn [map]. rewrite map_app. unfold Qsum. cbn [fold_right]. fold (Qsum (map (half_weight a s N) m ++ map (half_weight a s N) [a + s])).
  rewrite Qsum_app. cbn [map]. rewrite (Qsum_const (ZQ s / ZQ N)%Qc (map _ m)).
  2:{ intros x Hx. apply in_map_iff in Hx as [t [<- Ht]]. unfold half_weight.
      pose proof (Hmz t Ht). pose proof (Hfa t (in_or_app _ _ _ (or_introl Ht))).
      rewrite (proj2 (Z.eqb_neq t a)), (proj2 (Z.eqb_neq t (a + s))) by lia. reflexivity. }
  rewrite map_length. unfold Qsum. cbn [fold_right]. unfold half_weight.
  rewrite !Z.eqb_refl, orb_true_r. cbn [orb].
  assert (HN0 : ZQ N <> 0%Qc) by (apply ZQ_neq0; lia).
  assert (H20 : ZQ 2 <> 0%Qc) by (apply ZQ_neq0; lia).
  assert (Hm : ZQ (Z.of_nat (List.length m)) = (ZQ N - 1)%Qc).
  { rewrite HN, ZQ_add, ZQ_1. ring. }
  rewrite Hm.
  assert (Htwo : ZQ 2 = (1 + 1)%Qc) by (change 2 with (1 + 1); rewrite ZQ_add, ZQ_1; reflexivity).
  rewrite Htwo in *. field. split; assumption.
Qed.

(** *** C09 *)
Lemma convex_bounds (w x : Z -> Qc) l lo hi :
  (forall t, In t l -> 0 <= w t)%Qc -> (0 < Qsum (map w l))%Qc ->
  (forall t, In t l -> lo <= x t <= hi)%Qc ->
  (lo <= Qsum (map (fun t => w t * x t) l) / Qsum (map w l) <= hi)%Qc.
Proof.
  intros Hw Hp Hx.
  assert (H : (lo * Qsum (map w l) <= Qsum (map (fun t => w t * x t) l) <= hi * Qsum (map w l))%Qc).
  { clear Hp. induction l as [|t l IH]; cbn [map]; unfold Qsum in *; cbn [fold_right].
    - split; qclra.
    - pose proof (IH (fun u Hu => Hw u (or_intror Hu)) (fun u Hu => Hx u (or_intror Hu))) as [IH1 IH2].
      pose proof (Hw t (or_introl eq_refl)) as H0. pose proof (Hx t (or_introl eq_refl)) as [H1 H2].
      assert (w t * lo <= w t * x t)%Qc by (clear -H0 H1; qcnra).
      assert (w t * x t <= w t * hi)%Qc by (clear -H0 H2; qcnra).
      set (A := fold_right Qcplus 0%Qc (map (fun t => w t * x t) l)%Qc) in *.
      set (B := fold_right Qcplus 0%Qc (map w l)%Qc) in *.
      clearbody A B. split; qclra. }
  split; [apply Qcdiv_ge|apply Qcdiv_le]; tauto.
Qed.

Theorem average_in_range : forall stype input unit s half force start end_ sec values n out,
  let g := aggr_init stype input unit s "average" half force start end_ sec in
  0 < s -> one_per_step values -> same_size values n ->
  do_manipulation g values = Ok out ->
  forall k a i lo hi, In (k, a) out -> (i < n)%nat ->
    (forall t c, has_field values t c ->
       masked_at c i = false /\ exists x, cell c i x /\ (lo <= x <= hi)%Qc) ->
    (half = true -> exists t1 t2, t1 <> t2 /\ s_start k <= t1 <= s_end k /\ s_start k <= t2 <= s_end k /\
                                  available values t1 /\ available values t2) ->
    exists y, cell a i y /\ (lo <= y <= hi)%Qc.
Proof.
  intros stype input unit s half force start end_ sec values n out g Hs Hone Hsz H k a i lo hi Hin Hi Hrange Htwo.
  change (average g values = Ok out) in H.
  destruct (average_shape g values out Hs H) as [k0 [a0 [rest [iters [Ev [Hr HF]]]]]].
  assert (Hn0 : asize a0 = n) by (apply (Hsz k0 a0); rewrite Ev; left; reflexivity).
  destruct (Forall2_In_r _ _ _ _ HF Hin) as [t [Ht [Hk Ha]]]. cbn [fst snd] in Hk, Ha.
  rewrite Hk in Htwo. cbn [s_start s_end] in Htwo. change (a_step g) with s in *. rewrite Hn0 in Ha.
  destruct half.
  - destruct (py_range t (t + s + 1) 1) as [ts|] eqn:Ets; [|rewrite py_range_pos_ok in Ets by lia; discriminate].
    set (l := filter (fun u => zmem u (dkeys (by_end_step values))) ts).
    assert (Hl : available_in values t (t + s) l).
    { split.
      - apply sorted_filter. rewrite py_range_pos_ok in Ets by lia. injection Ets as <-. apply sorted_range.
      - intro u. unfold l. rewrite filter_In, zmem_In, by_end_step_mem, (in_py_range_pos t (t + s + 1) 1 ts u eq_refl Ets).
        split; [intros [[j Hj] Hu]; split; [lia|exact Hu]|].
        intros [Hu1 Hu2]. split; [exists (u - t); lia|exact Hu2]. }
    assert (Hlen : (2 <= List.length l)%nat).
    { destruct (Htwo eq_refl) as [t1 [t2 [Hne [H1 [H2 [A1 A2]]]]]].
      assert (I1 : In t1 l) by (apply Hl; auto). assert (I2 : In t2 l) by (apply Hl; auto).
      destruct l as [|p [|q l']]; [destruct I1| |simpl; lia].
      destruct I1 as [->|[]], I2 as [->|[]]. contradiction. }
    assert (Hf : exists f, forall u c, has_field values u c -> masked_at c i = false /\ cell c i (f u) /\ (lo <= f u <= hi)%Qc).
    { exists (fun u => match dget Z.eqb (by_end_step values) u with
                       | Some c => match nth_error (adata c) i with Some (Fin q) => q | _ => 0%Qc end
                       | None => 0%Qc end).
      intros u c Hc. destruct (Hrange u c Hc) as [Hm [x [Hx Hb]]].
      apply by_end_step_get in Hc; [|exact Hone]. rewrite Hc. unfold cell in *. rewrite Hx. auto. }
    destruct Hf as [f Hf].
    eexists. split.
    + eapply (avg_field_half_cell values g n t a l i f); try eassumption; [reflexivity|].
      intros u c _ Hc. destruct (Hf u c Hc) as [A [B _]]. auto.
    + apply convex_bounds.
      * intros u _. apply Qclt_le_weak, half_weight_pos; [exact Hs|lia].
      * apply Qsum_pos; [|destruct l; simpl in *; [lia|discriminate]].
        intros x Hx. apply in_map_iff in Hx as [u [<- _]]. apply half_weight_pos; [exact Hs|lia].
      * intros u Hu. apply Hl in Hu as [_ [c Hc]]. apply (Hf u c Hc).
  - (* plain mean: weights 1 *)
    assert (Hf : exists f, forall u c, avg_pick (by_end_step values) u = Ok c -> cell c i (f u) /\ (lo <= f u <= hi)%Qc).
    { exists (fun u => match avg_pick (by_end_step values) u with
                       | Ok c => match nth_error (adata c) i with Some (Fin q) => q | _ => 0%Qc end
                       | _ => 0%Qc end).
      intros u c Hc. rewrite Hc. apply avg_pick_inv in Hc as [w [_ Hc]]; [|exact Hone].
      destruct (Hrange w c Hc) as [_ [x [Hx Hb]]]. unfold cell in *. rewrite Hx. auto. }
    destruct Hf as [f Hf].
    assert (Hpick : forall u, t < u <= t + s -> exists c, avg_pick (by_end_step values) u = Ok c).
    { destruct (average_backfilled_mean stype input unit s force start end_ sec values n out Hs Hone Hsz H k a Hin)
        as [_ [_ [Hav _]]].
      rewrite Hk in Hav. cbn [s_start s_end] in Hav. intros u Hu. destruct (Hav u Hu) as [w Hw].
      destruct Hw as [[c Hc] Hw']. exists c. apply (avg_pick_ok values u w c Hone); [split; [exists c; exact Hc|exact Hw']|exact Hc]. }
    eexists. split.
    + eapply (avg_field_plain_cell g (by_end_step values) n t a i f); try eassumption; [reflexivity|].
      intros u c _ Hc. apply (Hf u c Hc).
    + change (a_step g) with s.
      assert (E1 : ZQ s = Qsum (map (fun _ => 1%Qc) (unit_steps t s))).
      { rewrite (Qsum_const 1%Qc), map_length, unit_steps_length by
          (try lia; intros x Hx; apply in_map_iff in Hx as [? [<- _]]; reflexivity). ring. }
      rewrite E1.
      replace (map f (unit_steps t s)) with (map (fun u => 1 * f u)%Qc (unit_steps t s)) by (apply map_ext; intro; ring).
      apply convex_bounds.
      * intros; discriminate.
      * rewrite <- E1. apply ZQ_pos. exact Hs.
      * intros u Hu. apply unit_steps_In in Hu. destruct (Hpick u Hu) as [c Hc]. apply (Hf u c Hc).
Qed.

(** a cell constant in time keeps its value *)
Theorem average_constant : forall stype input unit s half force start end_ sec values n out,
  let g := aggr_init stype input unit s "average" half force start end_ sec in
  0 < s -> one_per_step values -> same_size values n ->
  do_manipulation g values = Ok out ->
  forall k a i x, In (k, a) out -> (i < n)%nat ->
    (forall t c, has_field values t c -> masked_at c i = false /\ cell c i x) ->
    (half = true -> exists t1 t2, t1 <> t2 /\ s_start k <= t1 <= s_end k /\ s_start k <= t2 <= s_end k /\
                                  available values t1 /\ available values t2) ->
    cell a i x.
Proof.
  intros stype input unit s half force start end_ sec values n out g Hs Hone Hsz H k a i x Hin Hi Hc Htwo.
  destruct (average_in_range stype input unit s half force start end_ sec values n out Hs Hone Hsz H k a i x x Hin Hi) as [y [Hy Hb]].
  - intros t c Ht. destruct (Hc t c Ht) as [Hm Hx]. split; [exact Hm|]. exists x. split; [exact Hx|]. split; apply Qcle_refl.
  - exact Htwo.
  - replace x with y; [exact Hy|]. destruct Hb. apply Qcle_antisym; assumption.
Qed.

(** *** C10 *)
Theorem average_windows : forall stype input unit s half force start end_ sec values out,
  let g := aggr_init stype input unit s "average" half force start end_ sec in
  0 < s -> do_manipulation g values = Ok out ->
  exists k0 a0 rest, values = (k0, a0) :: rest /\ NoDup (map fst out) /\
  (start <> 0 -> sec = false ->
     forall k, In k (map fst out) <->
       exists a, on_grid (start - s) (end_ - s) s a /\ k = mkStep a (a + s) (s_res k0) s (s_level k0)) /\
  (start = 0 \/ sec = true ->
     forall k, In k (map fst out) <->
       exists a, on_grid start (end_ + 1 - s) s a /\ k = mkStep a (a + s) (s_res k0) s (s_level k0)).
Proof.
  intros stype input unit s half force start end_ sec values out g Hs H.
  change (average g values = Ok out) in H.
  destruct (average_shape g values out Hs H) as [k0 [a0 [rest [iters [Ev [Hr HF]]]]]].
  exists k0, a0, rest. split; [exact Ev|]. change (a_step g) with s in *.
  assert (Hk : forall k, In k (map fst out) <-> exists a, In a iters /\ k = mkStep a (a + s) (s_res k0) s (s_level k0)).
  { intro k. split.
    - intro Hi. apply in_map_iff in Hi as [kv [<- Hi]]. destruct (Forall2_In_r _ _ _ _ HF Hi) as [t [Ht [Hkv _]]]. eauto.
    - intros [t [Ht ->]]. destruct (Forall2_In_l _ _ _ _ HF Ht) as [kv [Hi [Hkv _]]]. apply in_map_iff. exists kv. auto. }
  split; [|split].
  - pose proof (NoDup_py_range _ _ _ _ Hs Hr) as Hnd. clear -HF Hnd. induction HF as [|t kv l o [HR _] HF IH]; cbn [map]; [constructor|].
    inversion Hnd; subst. constructor; [|apply IH; assumption].
    intro Hi. apply in_map_iff in Hi as [kv' [E Hi]]. destruct (Forall2_In_r _ _ _ _ HF Hi) as [t' [Ht' [Hk' _]]].
    rewrite HR, Hk' in E. injection E as E _. subst. contradiction.
  - intros Hst Hsec k. rewrite Hk. unfold avg_bounds in Hr. change (a_start g) with start in Hr. change (a_sec g) with sec in Hr.
    rewrite (proj2 (Z.eqb_neq start 0) Hst), Hsec in Hr. cbn [orb fst snd] in Hr.
    change (a_end g) with end_ in Hr. change (a_step g) with s in Hr.
    split; intros [a [Ha ->]]; exists a; (split; [|reflexivity]).
    + apply (on_grid_range _ _ _ _ a Hs Hr) in Ha. replace (end_ - s + 1 - 1) with (end_ - s) in Ha by lia. exact Ha.
    + apply (on_grid_range _ _ _ _ a Hs Hr). replace (end_ - s + 1 - 1) with (end_ - s) by lia. exact Ha.
  - intros Hor k. rewrite Hk. unfold avg_bounds in Hr. change (a_start g) with start in Hr. change (a_sec g) with sec in Hr.
    assert (E : (start =? 0) || sec = true) by (destruct Hor as [-> | ->]; [reflexivity|apply orb_true_r]).
    rewrite E in Hr. cbn [fst snd] in Hr.
    change (a_end g) with end_ in Hr. change (a_step g) with s in Hr.
    split; intros [a [Ha ->]]; exists a; (split; [|reflexivity]).
    + apply (on_grid_range _ _ _ _ a Hs Hr) in Ha. replace (end_ - s + 2 - 1) with (end_ + 1 - s) in Ha by lia. exact Ha.
    + apply (on_grid_range _ _ _ _ a Hs Hr). replace (end_ - s + 2 - 1) with (end_ + 1 - s) by lia. exact Ha.
Qed.

(** success of the plain average: enough that the last window is covered *)
Theorem average_succeeds : forall stype input unit s force start end_ values n,
  let g := aggr_init stype input unit s "average" false force start end_ false in
  0 < s -> start <> 0 -> stype <> "accum"%string -> values <> [] ->
  one_per_step values -> same_size values n ->
  (exists u, available values u /\ end_ <= u) ->
  exists out, do_manipulation g values = Ok out.
Proof.
  intros stype input unit s force start end_ values n g Hs Hst Hty Hne Hone Hsz [u [Hu Hle]].
  change (exists out, average g values = Ok out). unfold average.
  change (a_step_type g) with stype. rewrite (proj2 (String.eqb_neq stype "accum") Hty).
  destruct values as [|[k0 a0] rest] eqn:Ev; [contradiction|]. rewrite <- Ev in *.
  assert (Hfe : first_entry values = Ok (k0, a0)) by (rewrite Ev; reflexivity). rewrite Hfe. cbn [rbind].
  assert (Hn0 : asize a0 = n) by (apply (Hsz k0 a0); rewrite Ev; left; reflexivity). rewrite Hn0.
  unfold avg_bounds. change (a_start g) with start. change (a_sec g) with false. change (a_end g) with end_. change (a_step g) with s.
  rewrite (proj2 (Z.eqb_neq start 0) Hst). cbn [orb].
  destruct (py_range (start - s) (end_ - s + 1) s) as [iters|] eqn:Er; [|rewrite py_range_pos_ok in Er by lia; discriminate].
  cbn [rbind]. erewrite foldM_ext by (intros; apply avg_body_eq).
  apply (dset_loop_ok _ (fun t => mkStep t (t + a_step g) (s_res k0) (a_step g) (s_level k0))).
  intros t Ht. apply (on_grid_range _ _ _ _ t Hs Er) in Ht as [j [Hj [_ Htl]]].
  unfold avg_field. change (a_half g) with false. change (a_step g) with s. cbn match.
  destruct (avg_plain_succeeds values n s t Hone Hsz Hs) as [sc Hsc]; [exists u; split; [exact Hu|lia]|].
  rewrite Hsc. cbn [rbind]. eauto.
Qed.

(** *** C11: no output cell of an average is ever masked *)
Theorem average_never_masked : forall stype input unit s half force start end_ sec values out,
  let g := aggr_init stype input unit s "average" half force start end_ sec in
  0 < s -> do_manipulation g values = Ok out ->
  forall k a i, In (k, a) out -> masked_at a i = false.
Proof.
  intros stype input unit s half force start end_ sec values out g Hs H k a i Hin.
  change (average g values = Ok out) in H.
  destruct (average_shape g values out Hs H) as [k0 [a0 [rest [iters [Ev [Hr HF]]]]]].
  destruct (Forall2_In_r _ _ _ _ HF Hin) as [t [Ht [Hk Ha]]]. cbn [fst snd] in Hk, Ha.
  unfold avg_field in Ha. apply rbind_ok in Ha as [sc [_ Ha]]. injection Ha as <-. reflexivity.
Qed.
