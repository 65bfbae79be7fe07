(** * Proofs about the aggregator: conservation, zero field, gaps *)
From Verif Require Import Base Num Base_P Num_P Aggregator Spec_Aggregation Aggregator_P.
From Coq Require Import ZifyBool ZifyNat Sorting.Permutation Sorting.Sorted.
Ltac Zify.zify_post_hook ::= Z.div_mod_to_equations.
Local Open Scope Z_scope.

(** ** reconstructed fields stay finite *)
Lemma neighbours_distinct keys t nx og : ~ In t keys -> NoDup keys -> (2 <= List.length keys)%nat ->
  neighbours keys t = Ok (nx, og) -> nx <> og /\ In nx keys /\ In og keys.
Proof.
  intros Hn Hd Hl H. unfold neighbours in H.
  apply rbind_ok in H as [a [Ha H]]. rewrite py_index_nat in Ha.
  destruct (nth_error keys (bisect_left keys t)) as [a'|] eqn:E; [|discriminate].
  injection Ha as ->.
  rewrite <- (bisect_agree keys t Hn), Nat.eqb_refl in H.
  set (b := bisect_left keys t) in *.
  apply rbind_ok in H as [c [Hc H]]. injection H as <- <-.
  assert (Hb : (b < List.length keys)%nat) by (apply nth_error_Some; congruence).
  assert (Hc' : exists j, j <> b /\ nth_error keys j = Some c).
  { unfold py_index in Hc.
    destruct (Z.ltb_spec (Z.of_nat b - 1) 0).
    - destruct (Z.ltb_spec (Z.of_nat b - 1 + Z.of_nat (List.length keys)) 0); [discriminate|].
      destruct (nth_error keys (Z.to_nat (Z.of_nat b - 1 + Z.of_nat (List.length keys)))) as [c'|] eqn:Ec; [|discriminate].
      injection Hc as <-. eexists. split; [|exact Ec]. lia.
    - destruct (Z.ltb_spec (Z.of_nat b - 1) 0); [lia|].
      destruct (nth_error keys (Z.to_nat (Z.of_nat b - 1))) as [c'|] eqn:Ec; [|discriminate].
      injection Hc as <-. eexists. split; [|exact Ec]. lia. }
  destruct Hc' as [j [Hj Ec]]. split.
  - intros <-. apply Hj. rewrite NoDup_nth_error in Hd. apply Hd; [|congruence].
    apply nth_error_Some. congruence.
  - split; [eapply nth_error_In; exact E | eapply nth_error_In; exact Ec].
Qed.

Definition finite_data (d : list num) : Prop := forall x, In x d -> exists q, x = Fin q.

Lemma finite_zipw f (x y : list num) : (forall a b, exists q, f (Fin a) (Fin b) = Fin q) ->
  finite_data x -> finite_data y -> finite_data (zipw f x y).
Proof.
  intros Hf. revert y. induction x as [|a x IH]; intros [|b y] Hx Hy c Hc; simpl in Hc; try contradiction.
  destruct Hc as [<-|Hc].
  - destruct (Hx a (or_introl eq_refl)) as [p ->], (Hy b (or_introl eq_refl)) as [q ->]. apply Hf.
  - apply (IH y); [intros z Hz; apply Hx; right; exact Hz|intros z Hz; apply Hy; right; exact Hz|exact Hc].
Qed.
Lemma finite_map f (x : list num) : (forall a, exists q, f (Fin a) = Fin q) ->
  finite_data x -> finite_data (map f x).
Proof.
  intros Hf Hx c Hc. apply in_map_iff in Hc as [a [<- Ha]]. destruct (Hx a Ha) as [q ->]. apply Hf.
Qed.

Lemma lin_expr_ok ots nts it og nx d : lin_expr ots nts it og nx = Ok d ->
  List.length ots = List.length nts /\
  d = zipw nadd ots (map (fun x => nmul x (ndiv (nint (it - og)) (nint (nx - og)))) (zipw nsub nts ots)).
Proof.
  unfold lin_expr. intro H. apply rbind_ok in H as [df [H1 H]]. apply ew2_inv in H1 as [Hl ->].
  apply ew2_inv in H as [_ ->]. split; [congruence|reflexivity].
Qed.

Definition good (n : nat) (v : ofields) : Prop :=
  (forall t a, dget Z.eqb v t = Some a -> finite_arr a /\ asize a = n) /\
  NoDup (dkeys v) /\ (2 <= List.length (dkeys v))%nat.

Lemma interp_field_good n v keys t at_ a : (forall t a, dget Z.eqb v t = Some a -> finite_arr a /\ asize a = n) ->
  ~ In t keys -> NoDup keys -> (2 <= List.length keys)%nat ->
  interp_field v keys t at_ = Ok a -> finite_arr a /\ asize a = n.
Proof.
  intros Hg Hn Hd Hl H. unfold interp_field in H.
  apply rbind_ok in H as [[nx og] [Hnb H]]. apply neighbours_distinct in Hnb as [Hne _]; try assumption.
  apply rbind_ok in H as [nts [Hnts H]]. apply rbind_ok in H as [ots [Hots H]].
  apply rbind_ok in H as [d [Hd' H]]. injection H as <-.
  unfold dgetx in *. destruct (dget Z.eqb v nx) as [b|] eqn:E1; [|discriminate]. injection Hnts as ->.
  destruct (dget Z.eqb v og) as [c|] eqn:E2; [|discriminate]. injection Hots as ->.
  apply Hg in E1 as [F1 S1]. apply Hg in E2 as [F2 S2].
  apply lin_expr_ok in Hd' as [Hle ->]. unfold finite_arr, asize. rewrite adata_masked_where. split.
  - apply finite_zipw; [intros; simpl; eauto|exact F2|]. apply finite_map.
    + intro q. unfold nint. rewrite ndiv_fin by (apply ZQ_neq0; lia). simpl. eauto.
    + apply finite_zipw; [intros; unfold nsub; simpl; eauto|exact F1|exact F2].
  - rewrite zipw_length, map_length, zipw_length. unfold asize in *. lia.
Qed.

Lemma length_dkeys_dset (v : ofields) t a : (List.length (dkeys v) <= List.length (dkeys (dset Z.eqb v t a)))%nat.
Proof.
  rewrite (dkeys_dset Z.eqb) by exact Zeqb_spec'. destruct (dmem Z.eqb v t); [lia|]. rewrite app_length. lia.
Qed.
Lemma good_dset n v t a : good n v -> finite_arr a -> asize a = n -> good n (dset Z.eqb v t a).
Proof.
  intros [H1 [H2 H3]] Hf Hs. split; [|split].
  - intros t' a' H. rewrite (dget_dset Z.eqb Zeqb_spec') in H. destruct (t' =? t); [|eapply H1; exact H].
    injection H as <-. auto.
  - apply NoDup_dset; [exact Zeqb_spec'|exact H2].
  - pose proof (length_dkeys_dset v t a). lia.
Qed.
Lemma finite_zeros n : finite_arr (Nd (zeros n)).
Proof. intros x Hx. simpl in Hx. apply repeat_spec in Hx. subst. eauto. Qed.

Lemma acc_body_good g n rs lv st iter st' : good n (ac_v st) ->
  acc_body g n rs lv st iter = Ok st' -> good n (ac_v st').
Proof.
  intros Hg H. unfold acc_body in H.
  apply rbind_ok in H as [v1 [H1 H]]. apply rbind_ok in H as [[v2 z2] [H2 H]].
  apply rbind_ok in H as [p [Hp H]]. apply rbind_ok in H as [c [Hc H]].
  apply rbind_ok in H as [o [Ho H]]. injection H as <-. cbn [ac_v].
  destruct Hg as [Hf [Hd Hl]].
  assert (Hg1 : good n v1).
  { unfold acc_fill_iter in H1. destruct (zmem iter (dkeys (ac_v st))) eqn:E.
    - injection H1 as <-. split; auto.
    - apply rbind_ok in H1 as [a [Ha H1]]. injection H1 as <-. apply zmem_nIn in E.
      destruct (interp_field_good n _ _ _ _ _ Hf E Hd Hl Ha) as [Fa Sa].
      apply good_dset; [split; auto|exact Fa|exact Sa]. }
  unfold acc_fill_prev in H2.
  destruct ((0 <=? iter - a_step g) && negb (zmem (iter - a_step g) (dkeys (ac_v st))) && negb (ac_zero st)) eqn:E.
  2:{ injection H2 as <- <-. exact Hg1. }
  apply rbind_ok in H2 as [nx [_ H2]]. destruct (iter - a_step g =? 0).
  - injection H2 as <- <-. apply good_dset; [exact Hg1|apply finite_zeros|apply zeros_length].
  - apply rbind_ok in H2 as [a [Ha H2]]. injection H2 as <- <-.
    assert (Hn : ~ In (iter - a_step g) (dkeys (ac_v st))).
    { apply zmem_nIn. destruct (zmem (iter - a_step g) (dkeys (ac_v st))); [|reflexivity].
      simpl in E. rewrite andb_false_r in E. discriminate. }
    destruct (interp_field_good n _ _ _ _ _ (proj1 Hg1) Hn Hd Hl Ha) as [Fa Sa].
    apply good_dset; assumption.
Qed.

(** ** telescoping *)
Inductive chain (s : Z) : Z -> list Z -> Prop :=
| chain_nil a : chain s a []
| chain_cons a l : chain s (a + s) l -> chain s a (a :: l).

Lemma py_range_chain a b s l : 0 < s -> py_range a b s = Ok l -> chain s a l.
Proof.
  intros Hs. rewrite py_range_pos_ok by exact Hs. intro H. injection H as <-.
  generalize (range_len a b s) as m. intro m. revert a. induction m as [|m IH]; intro a; [constructor|].
  cbn [seq map]. replace (a + Z.of_nat 0 * s) with a by lia. constructor.
  rewrite <- seq_shift, map_map.
  erewrite map_ext; [apply IH|]. intro i. cbn beta. lia.
Qed.

Lemma cell_exists a i n : finite_arr a -> asize a = n -> (i < n)%nat -> exists x, cell a i x.
Proof.
  intros Hf Hs Hi. unfold cell. destruct (nth_error (adata a) i) as [x|] eqn:E.
  - destruct (Hf x (nth_error_In _ _ E)) as [q ->]. eauto.
  - apply nth_error_None in E. unfold asize in Hs. lia.
Qed.
Lemma cell_lt a i x : cell a i x -> (i < asize a)%nat.
Proof. intro H. apply nth_error_Some. unfold cell in H. congruence. Qed.

(** value of cell [i] of the working field at [t] *)
Definition wcell (v : ofields) (t : Z) (i : nat) (x : Qc) : Prop :=
  exists a, dget Z.eqb v t = Some a /\ cell a i x.

Lemma telescope g n rs lv v i : 0 < a_step g -> good n v -> (i < n)%nat ->
  forall l a out x0, chain (a_step g) a l -> 0 < a ->
  Forall2 (acc_entry g n rs lv v) l out ->
  (l <> [] -> if (a - a_step g =? 0) && a_force g then x0 = 0%Qc else wcell v (a - a_step g) i x0) ->
  l <> [] -> forall xl, wcell v (last l 0) i xl ->
  exists qs, map (fun kv => nth_error (adata (snd kv)) i) out = map (fun q => Some (Fin q)) qs /\
    (Qsum qs * ZQ (a_step g) = (xl - x0) * ZQ (a_unit g))%Qc.
Proof.
  intros Hs Hg Hi l. induction l as [|t l IH]; intros a out x0 Hch Ha HF Hx0 Hne xl Hxl; [contradiction|].
  inversion Hch as [|? ? Hch']; subst. inversion HF as [|? kv ? out' Hkv HF']; subst.
  specialize (Hx0 Hne).
  destruct Hkv as [_ [c [p [Hc [Hp [Sc [Sp Ho]]]]]]].
  destruct (proj1 Hg _ _ Hc) as [Fc _].
  destruct (cell_exists c i n Fc Sc Hi) as [xc Hxc].
  assert (Hxp : cell p i x0).
  { destruct ((t - a_step g =? 0) && a_force g).
    - subst p x0. unfold cell. simpl. apply nth_error_zeros. exact Hi.
    - destruct Hx0 as [a [Ha' Hca]]. rewrite Ha' in Hp. injection Hp as <-. exact Hca. }
  assert (Hkvi : nth_error (adata (snd kv)) i = Some (Fin ((xc - x0) * ZQ (a_unit g) / ZQ (a_step g))%Qc)).
  { rewrite Ho, adata_masked_where. apply acc_data_cell; [lia|exact Hxc|exact Hxp]. }
  assert (Hs0 : ZQ (a_step g) <> 0%Qc) by (apply ZQ_neq0; lia).
  destruct l as [|t' l'].
  - inversion HF'; subst. destruct Hxl as [c' [Hc' Hxl]]. cbn [last] in Hc'. rewrite Hc' in Hc.
    injection Hc as ->. unfold cell in *. rewrite Hxl in Hxc. injection Hxc as ->.
    eexists [_]. split; [cbn [map]; rewrite Hkvi; reflexivity|].
    cbn [Qsum fold_right]. field. exact Hs0.
  - assert (t' = t + a_step g) by (inversion Hch'; reflexivity). subst t'.
    destruct (IH (t + a_step g) out' xc Hch' ltac:(lia) HF') with (xl := xl) as [qs [Hqs Hsum]].
    + intros _. destruct (Z.eqb_spec (t + a_step g - a_step g) 0); [lia|]. cbn [andb].
      exists c. split; [|exact Hxc]. replace (t + a_step g - a_step g) with t by lia. exact Hc.
    + discriminate.
    + exact Hxl.
    + exists (((xc - x0) * ZQ (a_unit g) / ZQ (a_step g))%Qc :: qs). split.
      * cbn [map]. rewrite Hkvi, Hqs. reflexivity.
      * cbn [Qsum fold_right]. change (fold_right Qcplus 0%Qc qs) with (Qsum qs).
        replace (((xc - x0) * ZQ (a_unit g) / ZQ (a_step g) + Qsum qs) * ZQ (a_step g))%Qc
          with ((xc - x0) * ZQ (a_unit g) + Qsum qs * ZQ (a_step g))%Qc by (field; exact Hs0).
        rewrite Hsum. ring.
Qed.

Lemma chain_last s l : forall a, chain s a l -> l <> [] -> last l 0 = a + (Z.of_nat (List.length l) - 1) * s.
Proof.
  induction l as [|t l IH]; intros a H Hn; [contradiction|]. inversion H; subst.
  destruct l as [|t' l'].
  - simpl. lia.
  - change (last (t :: t' :: l') 0) with (last (t' :: l') 0).
    rewrite (IH (t + s)) by (assumption || discriminate). cbn [List.length]. lia.
Qed.

Lemma last_in_grid first last_ s l : 0 < s -> py_range first (last_ + 1) s = Ok l ->
  forall tl, on_grid first last_ s tl -> last_ < tl + s -> l <> [] /\ last l 0 = tl.
Proof.
  intros Hs H tl [i [Hi [Ht Hle]]] Hlt.
  pose proof (py_range_chain _ _ _ _ Hs H) as Hch.
  assert (Hin : In tl l) by (apply (in_grid_range _ _ _ _ tl Hs H); exists i; auto).
  assert (Hne : l <> []) by (intro E; subst; destruct Hin).
  split; [exact Hne|].
  rewrite (chain_last _ _ _ Hch Hne).
  assert (Hl : In (last l 0) l).
  { apply exists_last in Hne as [l' [a ->]]. rewrite last_last. apply in_or_app. right. left. reflexivity. }
  rewrite (chain_last _ _ _ Hch Hne) in Hl.
  apply (in_grid_range _ _ _ _ _ Hs H) in Hl as [j [Hj [Ej Hjl]]].
  (* tl is the k-th element of the chain *)
  rewrite py_range_pos_ok in H by exact Hs. injection H as H.
  assert (Hlen : Z.of_nat (List.length l) = (last_ + 1 - first + s - 1) / s).
  { rewrite <- H, map_length, seq_length. unfold range_len.
    assert (0 <= (last_ + 1 - first + s - 1) / s) by (apply Z.div_pos; nia). lia. }
  rewrite Hlen.
  assert (Hq : (last_ + 1 - first + s - 1) / s = i + 1).
  { symmetry. apply Z.div_unique with (r := last_ - tl); nia. }
  rewrite Hq. lia.
Qed.

Lemma good_init values n : one_per_step values -> same_size values n -> finite_fields values ->
  (exists t1 t2, t1 <> t2 /\ available values t1 /\ available values t2) -> good n (by_end_step values).
Proof.
  intros Hone Hsz Hfin [t1 [t2 [Hne [H1 H2]]]]. split; [|split].
  - intros t a H. apply by_end_step_get in H; [|exact Hone]. destruct H as [k [Hi _]].
    split; [eapply Hfin; exact Hi|apply (Hsz k a Hi)].
  - apply by_end_step_NoDup.
  - apply by_end_step_mem in H1. apply by_end_step_mem in H2.
    destruct (dkeys (by_end_step values)) as [|a [|b l]]; simpl in *; [destruct H1| |lia].
    destruct H1 as [->|[]], H2 as [->|[]]. contradiction.
Qed.

(** the first window of a request from step [s] uses a zero field when step 0
    is not in the input *)
Lemma first_body_zero g n rs lv v iter st' : 0 < a_step g -> iter = a_step g ->
  ~ In 0 (dkeys v) -> acc_body g n rs lv (mkAcc v false []) iter = Ok st' ->
  dget Z.eqb (ac_v st') 0 = Some (Nd (zeros n)).
Proof.
  intros Hs -> Hn H. unfold acc_body in H. cbn [ac_v ac_zero ac_out] in H.
  apply rbind_ok in H as [v1 [H1 H]]. apply rbind_ok in H as [[v2 z2] [H2 H]].
  apply rbind_ok in H as [p [Hp H]]. apply rbind_ok in H as [c [Hc H]].
  apply rbind_ok in H as [o [Ho H]]. injection H as <-. cbn [ac_v].
  unfold acc_fill_prev in H2. replace (a_step g - a_step g) with 0 in H2 by lia.
  apply zmem_nIn in Hn. rewrite Hn in H2. cbn [negb andb Z.leb] in H2.
  change (0 <=? 0) with true in H2. change (0 =? 0) with true in H2. cbn [andb] in H2.
  apply rbind_ok in H2 as [nx [_ H2]]. injection H2 as <- <-.
  rewrite (dget_dset Z.eqb Zeqb_spec'), Z.eqb_refl. reflexivity.
Qed.

Lemma run_good g values st n : 0 < a_step g -> one_per_step values -> same_size values n -> finite_fields values ->
  (exists t1 t2, t1 <> t2 /\ available values t1 /\ available values t2) ->
  accumulation_run g values = Ok st -> good n (ac_v st).
Proof.
  intros Hs Hone Hsz Hfin Htwo H.
  pose proof (good_init values n Hone Hsz Hfin Htwo) as Hg0. unfold accumulation_run in H.
  apply rbind_ok in H as [[k0 a0] [Hf H]]. apply rbind_ok in H as [iters [Hi H]].
  destruct values as [|kv rest]; [discriminate|]. simpl in Hf. injection Hf as ->.
  assert (Hn : asize a0 = n) by (apply (Hsz k0 a0); left; reflexivity). rewrite Hn in H.
  revert H. apply (foldM_inv _ (fun st => good n (ac_v st))); [|exact Hg0].
  intros s x s' _ Hgs Hb. eapply acc_body_good; eassumption.
Qed.

Lemma run_zero g values st : 0 < a_step g -> ~ available values 0 ->
  (if a_start g =? 0 then a_step g else a_start g) = a_step g -> a_step g <= a_end g ->
  accumulation_run g values = Ok st ->
  exists k0 a0 rest, values = (k0, a0) :: rest /\ dget Z.eqb (ac_v st) 0 = Some (Nd (zeros (asize a0))).
Proof.
  intros Hs Hav Hfirst Hle H. unfold accumulation_run in H.
  apply rbind_ok in H as [[k0 a0] [Hf H]]. apply rbind_ok in H as [iters [Hi H]].
  destruct values as [|kv rest] eqn:Ev; [discriminate|]. simpl in Hf. injection Hf as ->. rewrite <- Ev in *.
  exists k0, a0, rest. split; [exact Ev|].
  rewrite Hfirst in Hi.
  destruct (py_range_cons (a_step g) (a_end g + 1) (a_step g) Hs ltac:(lia)) as [l [Hl Hc]].
  rewrite Hc in Hi. injection Hi as <-. cbn [foldM] in H. apply rbind_ok in H as [st1 [H1 H2]].
  assert (Hz : dget Z.eqb (ac_v st1) 0 = Some (Nd (zeros (asize a0)))).
  { eapply first_body_zero; [exact Hs|reflexivity| |exact H1]. rewrite by_end_step_mem. exact Hav. }
  revert H2. apply (foldM_inv _ (fun st => dget Z.eqb (ac_v st) 0 = Some (Nd (zeros (asize a0))))); [|exact Hz].
  intros s x s' _ Hgs Hb. apply acc_body_inv in Hb as [He _]; [|exact Hs]. apply He. exact Hgs.
Qed.

Theorem accumulation_conserves : forall stype input unit s half force start end_ sec values n out tl,
  let g := aggr_init stype input unit s "accumulation" half force start end_ sec in
  let first := first_window start s in
  0 < s -> 0 <= start -> one_per_step values -> same_size values n -> finite_fields values ->
  (exists t1 t2, t1 <> t2 /\ available values t1 /\ available values t2) ->
  do_manipulation g values = Ok out ->
  on_grid first end_ s tl -> end_ < tl + s ->
  forall cl i xl x0, has_field values tl cl -> cell cl i xl ->
  (* field at the beginning of the first window: zeros if step 0 is forced or
     unavailable, the input field otherwise *)
  (first = s /\ (force = true \/ ~ available values 0) /\ x0 = 0%Qc \/
   ~ (first = s /\ force = true) /\ exists cf, has_field values (first - s) cf /\ cell cf i x0) ->
  exists qs, map (fun kv => nth_error (adata (snd kv)) i) out = map (fun q => Some (Fin q)) qs /\
    (Qsum qs * ZQ s = (xl - x0) * ZQ unit)%Qc.
Proof.
  intros stype input unit s half force start end_ sec values n out tl g first
    Hs Hst Hone Hsz Hfin Htwo Hrun Htl Hend cl i xl x0 Hcl Hxl Hx0.
  unfold do_manipulation in Hrun. cbn in Hrun. unfold accumulation in Hrun.
  apply rbind_ok in Hrun as [st [Hrun Ho]]. injection Ho as <-.
  pose proof (run_good g values st n Hs Hone Hsz Hfin Htwo Hrun) as Hg.
  destruct (accumulation_shape g values st Hs Hrun) as [k0 [a0 [rest [iters [Ev [Er [Hext HF]]]]]]].
  assert (Hn : asize a0 = n) by (apply (Hsz k0 a0); rewrite Ev; left; reflexivity). rewrite Hn in HF.
  change (py_range first (end_ + 1) s = Ok iters) in Er.
  destruct (last_in_grid first end_ s iters Hs Er tl Htl Hend) as [Hne Hlast].
  assert (Hi : (i < n)%nat).
  { destruct Hcl as [k [Hin _]]. rewrite <- (proj1 (Hsz k cl Hin)). eapply cell_lt. exact Hxl. }
  assert (Hfirst : 0 < first) by (unfold first, first_window; destruct (start =? 0) eqn:E; lia).
  eapply (telescope g n _ _ (ac_v st) i Hs Hg Hi iters first (ac_out st) x0);
    [eapply py_range_chain; [exact Hs|exact Er] | exact Hfirst | exact HF | | exact Hne | ].
  - intros _. change (a_step g) with s. change (a_force g) with force.
    destruct Hx0 as [[Hfs [Hz ->]]|[Hnf [cf [Hcf Hxf]]]].
    + rewrite Hfs. destruct force.
      * rewrite Z.sub_diag. reflexivity.
      * rewrite andb_false_r. destruct Hz as [Hz|Hz]; [discriminate|].
        assert (Hle : s <= end_). { destruct Htl as [j [Hj [-> Hle]]]. rewrite Hfs in Hle. nia. }
        destruct (run_zero g values st Hs Hz Hfs Hle Hrun) as [k0' [a0' [rest' [Ev' Hz']]]].
        rewrite Ev in Ev'. injection Ev' as <- <- <-. rewrite Z.sub_diag. eexists. split; [exact Hz'|].
        unfold cell. cbn [adata]. apply nth_error_zeros. rewrite Hn. exact Hi.
    + destruct (Z.eqb_spec (first - s) 0) as [E|E]; destruct force; cbn [andb];
        try (exfalso; apply Hnf; split; [lia|reflexivity]);
        (exists cf; split; [apply Hext; apply by_end_step_get; assumption|exact Hxf]).
  - rewrite Hlast. exists cl. split; [apply Hext; apply by_end_step_get; assumption|exact Hxl].
Qed.

(** ** C05: zero field of the first window *)
Theorem accumulation_zero_start : forall stype input unit s half force start end_ sec values n out,
  let g := aggr_init stype input unit s "accumulation" half force start end_ sec in
  0 < s -> s <= end_ -> first_window start s = s ->
  one_per_step values -> same_size values n ->
  force = true \/ ~ available values 0 ->
  do_manipulation g values = Ok out ->
  exists k a, In (k, a) out /\ s_start k = 0 /\ s_end k = s /\
    forall c i x, has_field values s c -> cell c i x -> cell a i (x * ZQ unit / ZQ s)%Qc.
Proof.
  intros stype input unit s half force start end_ sec values n out g Hs Hle Hfirst Hone Hsz Hz Hrun.
  unfold do_manipulation in Hrun. cbn in Hrun. unfold accumulation in Hrun.
  apply rbind_ok in Hrun as [st [Hrun Ho]]. injection Ho as <-.
  destruct (accumulation_shape g values st Hs Hrun) as [k0 [a0 [rest [iters [Ev [Er [Hext HF]]]]]]].
  assert (Hn : asize a0 = n) by (apply (Hsz k0 a0); rewrite Ev; left; reflexivity). rewrite Hn in HF.
  change (py_range (first_window start s) (end_ + 1) s = Ok iters) in Er. rewrite Hfirst in Er.
  assert (Hin : In s iters).
  { apply (in_grid_range _ _ _ _ s Hs Er). exists 0. lia. }
  destruct (Forall2_In_l _ _ _ _ HF Hin) as [[k a] [Hka [Hk [c [p [Hc [Hp [Sc [Sp Ha]]]]]]]]].
  cbn [fst snd] in *. exists k, a. split; [exact Hka|]. rewrite Hk. cbn [s_start s_end].
  change (a_step g) with s in *. change (a_force g) with force in *.
  split; [lia|]. split; [reflexivity|].
  intros c' i x Hc' Hx. apply by_end_step_get in Hc'; [|exact Hone]. apply Hext in Hc'.
  rewrite Hc' in Hc. injection Hc as <-.
  assert (Hp0 : p = Nd (zeros n)).
  { rewrite Z.sub_diag in Hp. destruct force; [exact Hp|]. rewrite andb_false_r in Hp.
    destruct Hz as [Hz|Hz]; [discriminate|].
    destruct (run_zero g values st Hs Hz Hfirst Hle Hrun) as [k0' [a0' [rest' [Ev' Hz']]]].
    rewrite Ev in Ev'. injection Ev' as <- <- <-. rewrite Hz' in Hp. injection Hp as <-. rewrite Hn. reflexivity. }
  unfold cell. rewrite Ha, adata_masked_where. subst p.
  replace (x * ZQ unit / ZQ s)%Qc with ((x - 0) * ZQ unit / ZQ s)%Qc by (f_equal; ring).
  apply acc_data_cell; [lia|exact Hx|]. cbn [adata]. apply nth_error_zeros. rewrite <- Sc. eapply cell_lt. exact Hx.
Qed.

(** forceZeroArray changes only the window that starts at step 0 *)
Theorem accumulation_force_local : forall stype input unit s half start end_ sec values out1 out2,
  let g f := aggr_init stype input unit s "accumulation" half f start end_ sec in
  0 < s -> do_manipulation (g true) values = Ok out1 -> do_manipulation (g false) values = Ok out2 ->
  map fst out1 = map fst out2 /\
  forall k a1 a2, In (k, a1) out1 -> In (k, a2) out2 -> s_start k <> 0 -> a1 = a2.
Proof.
  intros stype input unit s half start end_ sec values out1 out2 g Hs H1 H2.
  unfold do_manipulation in H1, H2. cbn in H1, H2. unfold accumulation in *.
  apply rbind_ok in H1 as [st1 [H1 E1]]. injection E1 as <-.
  apply rbind_ok in H2 as [st2 [H2 E2]]. injection E2 as <-.
  (* the working fields do not depend on the flag *)
  assert (Hv : ac_v st1 = ac_v st2).
  { unfold accumulation_run in H1, H2.
    apply rbind_ok in H1 as [[k0 a0] [Hf H1]]. apply rbind_ok in H1 as [iters [Hi H1]].
    apply rbind_ok in H2 as [[k0' a0'] [Hf' H2]]. apply rbind_ok in H2 as [iters' [Hi' H2]].
    rewrite Hf in Hf'. injection Hf' as <- <-.
    change (py_range (if start =? 0 then s else start) (end_ + 1) s = Ok iters') in Hi'.
    change (py_range (if start =? 0 then s else start) (end_ + 1) s = Ok iters) in Hi.
    rewrite Hi in Hi'. injection Hi' as <-.
    assert (G : forall l u1 u2 w1 w2, ac_v u1 = ac_v u2 -> ac_zero u1 = ac_zero u2 ->
      foldM (acc_body (g true) (asize a0) (s_res k0) (s_level k0)) l u1 = Ok w1 ->
      foldM (acc_body (g false) (asize a0) (s_res k0) (s_level k0)) l u2 = Ok w2 -> ac_v w1 = ac_v w2).
    { induction l as [|t l IH]; intros u1 u2 w1 w2 Eu Ez F1 F2; cbn [foldM] in F1, F2.
      - injection F1 as <-. injection F2 as <-. exact Eu.
      - apply rbind_ok in F1 as [x1 [B1 F1]]. apply rbind_ok in F2 as [x2 [B2 F2]].
        assert (E : ac_v x1 = ac_v x2 /\ ac_zero x1 = ac_zero x2).
        { unfold acc_body in B1, B2. rewrite Eu, Ez in B1.
          apply rbind_ok in B1 as [v1 [A1 B1]]. apply rbind_ok in B2 as [v2 [A2 B2]].
          rewrite A1 in A2. injection A2 as <-.
          apply rbind_ok in B1 as [[v1' z1] [A1' B1]]. apply rbind_ok in B2 as [[v2' z2] [A2' B2]].
          change (a_step (g true)) with s in *. change (a_step (g false)) with s in *.
          rewrite A1' in A2'. injection A2' as <- <-.
          apply rbind_ok in B1 as [p1 [_ B1]]. apply rbind_ok in B1 as [c1 [_ B1]]. apply rbind_ok in B1 as [o1 [_ B1]].
          apply rbind_ok in B2 as [p2 [_ B2]]. apply rbind_ok in B2 as [c2 [_ B2]]. apply rbind_ok in B2 as [o2 [_ B2]].
          injection B1 as <-. injection B2 as <-. auto. }
        destruct E as [Ev Ez']. exact (IH _ _ _ _ Ev Ez' F1 F2). }
    exact (G iters _ _ _ _ eq_refl eq_refl H1 H2). }
  destruct (accumulation_shape (g true) values st1 Hs H1) as [k0 [a0 [rest [iters [Ev [Er [_ HF1]]]]]]].
  destruct (accumulation_shape (g false) values st2 Hs H2) as [k0' [a0' [rest' [iters' [Ev' [Er' [_ HF2]]]]]]].
  rewrite Ev in Ev'. injection Ev' as <- <- <-.
  change (py_range (if start =? 0 then s else start) (end_ + 1) s = Ok iters') in Er'.
  change (py_range (if start =? 0 then s else start) (end_ + 1) s = Ok iters) in Er.
  rewrite Er in Er'. injection Er' as <-. rewrite <- Hv in HF2. split.
  - clear -HF1 HF2. revert HF2. generalize (ac_out st2). induction HF1 as [|t kv l o1 HR HF IH]; intros o2 HF2.
    + inversion HF2. reflexivity.
    + inversion HF2 as [|? kv2 ? o2' HR2 HF2']; subst. cbn [map]. f_equal; [|apply IH; exact HF2'].
      destruct HR as [-> _], HR2 as [-> _]. reflexivity.
  - intros k b1 b2 Hi1 Hi2 Hk0.
    destruct (Forall2_In_r _ _ _ _ HF1 Hi1) as [t1 [_ [Hk1 [c1 [p1 [Hc1 [Hp1 [_ [_ Ha1]]]]]]]]].
    destruct (Forall2_In_r _ _ _ _ HF2 Hi2) as [t2 [_ [Hk2 [c2 [p2 [Hc2 [Hp2 [_ [_ Ha2]]]]]]]]].
    cbn [fst snd] in *. rewrite Hk1 in Hk2. injection Hk2 as _ Et. subst t2.
    change (a_step (g true)) with s in *. change (a_step (g false)) with s in *.
    rewrite Hk1 in Hk0. cbn [s_start] in Hk0. rewrite (proj2 (Z.eqb_neq _ _) Hk0) in Hp1, Hp2. cbn [andb] in *.
    rewrite Hc1 in Hc2. injection Hc2 as <-. rewrite Hp1 in Hp2. injection Hp2 as <-.
    rewrite Ha1, Ha2. reflexivity.
Qed.

(** ** C06: the mask of an accumulation window is that of its first field *)
Theorem accumulation_mask_char : forall stype input unit s half start end_ sec values n out,
  let g := aggr_init stype input unit s "accumulation" half false start end_ sec in
  0 < s -> one_per_step values -> same_size values n -> do_manipulation g values = Ok out ->
  forall k a cp, In (k, a) out -> has_field values (s_start k) cp ->
  forall i, masked_at a i = masked_at cp i.
Proof.
  intros stype input unit s half start end_ sec values n out g Hs Hone Hsz Hrun k a cp Hin Hcp i.
  unfold do_manipulation in Hrun. cbn in Hrun. unfold accumulation in Hrun.
  apply rbind_ok in Hrun as [st [Hrun Ho]]. injection Ho as <-.
  destruct (accumulation_shape g values st Hs Hrun) as [k0 [a0 [rest [iters [Ev [Er [Hext HF]]]]]]].
  destruct (Forall2_In_r _ _ _ _ HF Hin) as [t [Ht [Hk [c [p [Hc [Hp [_ [_ Ha]]]]]]]]].
  cbn [fst snd] in *. rewrite andb_false_r in Hp. rewrite Hk in Hcp. cbn [s_start] in Hcp.
  apply by_end_step_get in Hcp; [|exact Hone]. apply Hext in Hcp. rewrite Hcp in Hp. injection Hp as <-.
  rewrite Ha, masked_at_masked_where. unfold masked_at. destruct (amask cp); reflexivity.
Qed.

(** ** C04: one missing step is linearly interpolated *)
Lemma bisect_gap keys t lo hi : Zsorted keys -> ~ In t keys -> In lo keys -> In hi keys -> lo < t < hi ->
  (forall z, In z keys -> z <= lo \/ hi <= z) -> neighbours keys t = Ok (hi, lo).
Proof.
  intros Hs Hn Hlo Hhi Hlt Hgap. unfold neighbours.
  pose proof (bisect_left_spec keys t Hs) as [Hle [Hb Ha]].
  rewrite <- (bisect_agree keys t Hn), Nat.eqb_refl.
  set (b := bisect_left keys t) in *.
  destruct (bisect_left_exists keys t Hs) as [y Hy]; [exists hi; split; [exact Hhi|lia]|].
  pose proof (bisect_left_next keys t y Hs Hy) as [Hyin [Hty Hmin]].
  assert (y = hi). { pose proof (Hmin hi Hhi ltac:(lia)). destruct (Hgap y Hyin); lia. } subst y.
  fold b in Hy. rewrite py_index_nat, Hy. cbn [rbind].
  assert (Hb1 : (1 <= b)%nat).
  { destruct b as [|b']; [|lia]. exfalso. apply In_nth with (d := 0) in Hlo as [i [Hi Ei]].
    pose proof (Ha i ltac:(lia) Hi). lia. }
  replace (Z.of_nat b - 1) with (Z.of_nat (b - 1)) by lia. rewrite py_index_nat.
  assert (Hb2 : (b - 1 < List.length keys)%nat) by lia.
  rewrite (nth_error_nth' keys 0 Hb2). cbn [rbind]. f_equal. f_equal.
  pose proof (Hb (b - 1)%nat ltac:(lia)) as Hlt1.
  assert (Hin : In (nth (b - 1) keys 0) keys) by (apply nth_In; exact Hb2).
  destruct (Hgap _ Hin) as [H|H]; [|lia].
  apply In_nth with (d := 0) in Hlo as [i [Hi Ei]].
  destruct (Nat.lt_ge_cases i b) as [Hib|Hib].
  - destruct (Nat.eq_dec i (b - 1)) as [->|Hne]; [exact Ei|].
    pose proof (Zsorted_nth keys i (b - 1) Hs ltac:(lia) Hb2). lia.
  - pose proof (Ha i Hib Hi). lia.
Qed.
