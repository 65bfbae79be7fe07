(** * Proofs about the aggregator: accumulation *)
From Verif Require Import Base Num Base_P Num_P Aggregator Spec_Aggregation.
From Coq Require Import ZifyBool ZifyNat Sorting.Permutation Sorting.Sorted.
Ltac Zify.zify_post_hook ::= Z.div_mod_to_equations.
Local Open Scope Z_scope.

Lemma step_eqb_spec a b : step_eqb a b = true <-> a = b.
Proof.
  unfold step_eqb. rewrite !andb_true_iff, !Z.eqb_eq. destruct a, b; simpl.
  split; [intros [[[[-> ->] ->] ->] ->]; reflexivity | intro H; injection H; auto].
Qed.

(** ** the ordered dictionary by end step *)
Lemma by_end_step_keys_sorted values : Zsorted (dkeys (by_end_step values)).
Proof.
  unfold by_end_step, dkeys.
  set (d := dict_of Z.eqb _).
  assert (Hn : NoDup (map fst d)) by (apply (NoDup_dict_of Z.eqb Zeqb_spec')).
  pose proof (sort_by_strict fst d Hn) as Hs.
  unfold Zsorted. induction Hs as [|x l Hs IH Hx]; simpl; constructor; [exact IH|].
  rewrite Forall_forall in *. intros y Hy. apply in_map_iff in Hy as [z [<- Hz]]. apply Hx. exact Hz.
Qed.
Lemma by_end_step_NoDup values : NoDup (dkeys (by_end_step values)).
Proof.
  unfold by_end_step, dkeys. eapply Permutation_NoDup.
  - apply Permutation_map. symmetry. apply sort_by_perm.
  - apply (NoDup_dict_of Z.eqb Zeqb_spec').
Qed.

Lemma dget_sort_by {V} (d : list (Z * V)) t : NoDup (dkeys d) ->
  dget Z.eqb (sort_by fst d) t = dget Z.eqb d t.
Proof.
  intro Hn.
  assert (Hn' : NoDup (dkeys (sort_by fst d))).
  { eapply Permutation_NoDup; [|exact Hn]. apply Permutation_map. symmetry. apply sort_by_perm. }
  destruct (dget Z.eqb d t) as [a|] eqn:E.
  - apply (dget_In Z.eqb Zeqb_spec') in E. apply (In_dget Z.eqb Zeqb_spec'); [exact Hn'|].
    eapply Permutation_in; [symmetry; apply sort_by_perm | exact E].
  - apply (dget_None Z.eqb Zeqb_spec') in E. apply (dget_None Z.eqb Zeqb_spec'). intro Hi. apply E.
    unfold dkeys in *. eapply Permutation_in; [|exact Hi]. apply Permutation_map. apply sort_by_perm.
Qed.

Lemma by_end_step_get values t a : one_per_step values ->
  (dget Z.eqb (by_end_step values) t = Some a <-> has_field values t a).
Proof.
  intro Hone. unfold by_end_step. rewrite dget_sort_by by apply (NoDup_dict_of Z.eqb Zeqb_spec').
  set (ps := map _ values).
  assert (Hn : NoDup (dkeys ps)).
  { unfold ps, dkeys. rewrite map_map. exact Hone. }
  rewrite (dict_of_NoDup Z.eqb Zeqb_spec' ps Hn). split.
  - intro H. apply (dget_In Z.eqb Zeqb_spec') in H. unfold ps in H. apply in_map_iff in H as [[k a'] [E Hi]].
    injection E as <- <-. exists k. auto.
  - intros [k [Hi <-]]. apply (In_dget Z.eqb Zeqb_spec' _ _ _ Hn). unfold ps. apply in_map_iff. exists (k, a). auto.
Qed.
Lemma by_end_step_get_weak values t a :
  dget Z.eqb (by_end_step values) t = Some a -> has_field values t a.
Proof.
  unfold by_end_step. rewrite dget_sort_by by apply (NoDup_dict_of Z.eqb Zeqb_spec').
  unfold dict_of. rewrite (dget_dupdate Z.eqb Zeqb_spec'). cbn [dget].
  intro H. induction values as [|[k v] values IH]; cbn [map last_binding] in H; [discriminate|].
  cbn [fst snd] in H.
  destruct (last_binding Z.eqb _ t) as [w|] eqn:E.
  - injection H as ->. destruct (IH eq_refl) as [k' [Hi Hk]]. exists k'. split; [right|]; assumption.
  - destruct (Z.eqb_spec t (s_end k)); [|discriminate]. injection H as ->. exists k. split; [left|]; auto.
Qed.
Lemma by_end_step_mem values t : In t (dkeys (by_end_step values)) <-> available values t.
Proof.
  split.
  - intro H. apply (dmem_In Z.eqb Zeqb_spec') in H. unfold dmem in H.
    destruct (dget Z.eqb (by_end_step values) t) as [a|] eqn:E; [|discriminate].
    exists a. apply by_end_step_get_weak. exact E.
  - intros [a [k [Hi <-]]]. unfold by_end_step.
    assert (H : In (s_end k) (dkeys (dict_of Z.eqb (map (fun kv : step * arr => (s_end (fst kv), snd kv)) values)))).
    { apply (dmem_In Z.eqb Zeqb_spec'). unfold dmem, dict_of. rewrite (dget_dupdate Z.eqb Zeqb_spec').
      cbn [dget]. induction values as [|[k0 a0] values IH]; [destruct Hi|].
      cbn [map last_binding fst snd]. destruct Hi as [E|Hi].
      - injection E as -> ->. rewrite Z.eqb_refl. destruct (last_binding Z.eqb _ _); reflexivity.
      - specialize (IH Hi). destruct (last_binding Z.eqb _ _); [reflexivity|discriminate]. }
    unfold dkeys in *. eapply Permutation_in; [|exact H]. apply Permutation_map. symmetry. apply sort_by_perm.
Qed.

(** ** one window of accumulation *)
Definition acc_data (unit step : Z) (cur prev : list num) : list num :=
  map (fun x => ndiv (nmul x (nint unit)) (nint step)) (zipw nsub cur prev).

Lemma acc_out_inv n u s cur prev a : acc_out n u s cur prev = Ok a ->
  asize cur = n /\ asize prev = n /\ a = masked_where (amask prev) (acc_data u s (adata cur) (adata prev)).
Proof.
  unfold acc_out. intro H.
  apply rbind_ok in H as [v [Hv H]]. apply ew2_zeros_inv in Hv as [-> Hl].
  apply rbind_ok in H as [d [Hd H]]. apply ew2_inv in Hd as [Hl2 ->].
  injection H as <-. unfold asize. split; [exact Hl|]. split; [congruence|].
  reflexivity.
Qed.
Lemma acc_out_ok n u s cur prev : asize cur = n -> asize prev = n ->
  acc_out n u s cur prev = Ok (masked_where (amask prev) (acc_data u s (adata cur) (adata prev))).
Proof.
  intros Hc Hp. unfold acc_out. rewrite ew2_zeros by exact Hc. cbn [rbind].
  rewrite ew2_ok by (unfold asize in *; congruence). reflexivity.
Qed.
Lemma acc_data_cell u s c p i x y : s <> 0 ->
  nth_error c i = Some (Fin x) -> nth_error p i = Some (Fin y) ->
  nth_error (acc_data u s c p) i = Some (Fin ((x - y) * ZQ u / ZQ s)%Qc).
Proof.
  intros Hs Hx Hy. unfold acc_data. erewrite nth_error_map'; [|eapply nth_error_zipw; eassumption].
  rewrite nsub_fin. unfold nint. cbn [nmul]. rewrite ndiv_fin by (apply ZQ_neq0; exact Hs). reflexivity.
Qed.
Lemma acc_data_length u s c p : List.length c = List.length p -> List.length (acc_data u s c p) = List.length c.
Proof. intro H. unfold acc_data. rewrite map_length, zipw_length, H. lia. Qed.

(** ** shape of any successful accumulation *)
Definition extends (v w : ofields) : Prop :=
  forall t a, dget Z.eqb v t = Some a -> dget Z.eqb w t = Some a.

Lemma extends_refl v : extends v v.
Proof. intros t a H. exact H. Qed.
Lemma extends_trans u v w : extends u v -> extends v w -> extends u w.
Proof. intros H1 H2 t a H. apply H2, H1, H. Qed.
Lemma extends_dset (v : ofields) t a : ~ In t (dkeys v) -> extends v (dset Z.eqb v t a).
Proof.
  intros Hn t' a' H. rewrite (dget_dset Z.eqb Zeqb_spec'). destruct (Z.eqb_spec t' t); [|exact H].
  subst. exfalso. apply Hn. apply (dget_None Z.eqb Zeqb_spec') in Hn. congruence.
Qed.

Lemma acc_fill_iter_ext v iter v' : acc_fill_iter v (dkeys v) iter = Ok v' -> extends v v'.
Proof.
  unfold acc_fill_iter. destruct (zmem iter (dkeys v)) eqn:E; intro H.
  - injection H as <-. apply extends_refl.
  - apply rbind_ok in H as [a [_ H]]. injection H as <-. apply extends_dset. apply zmem_nIn. exact E.
Qed.

Lemma acc_fill_prev_ext n s (v v0 : ofields) iter z v' z' :
  0 < s -> (forall t, In t (dkeys v) -> In t (dkeys v0) \/ t = iter) ->
  acc_fill_prev n s v (dkeys v0) iter z = Ok (v', z') -> extends v v'.
Proof.
  intros Hs Hk. unfold acc_fill_prev.
  destruct ((0 <=? iter - s) && negb (zmem (iter - s) (dkeys v0)) && negb z) eqn:E; intro H.
  2:{ injection H as <- <-. apply extends_refl. }
  apply rbind_ok in H as [nx [_ H]].
  assert (Hn : ~ In (iter - s) (dkeys v)).
  { intro Hi. apply Hk in Hi as [Hi|Hi]; [|lia].
    apply zmem_In in Hi. rewrite Hi in E. simpl in E. rewrite andb_false_r in E. discriminate. }
  destruct (Z.eqb_spec (iter - s) 0) as [E0|E0].
  - injection H as <- <-. rewrite <- E0. apply extends_dset. exact Hn.
  - apply rbind_ok in H as [a [_ H]]. injection H as <- <-. apply extends_dset. exact Hn.
Qed.

Lemma acc_fill_iter_keys v iter v' : acc_fill_iter v (dkeys v) iter = Ok v' ->
  forall t, In t (dkeys v') -> In t (dkeys v) \/ t = iter.
Proof.
  unfold acc_fill_iter. destruct (zmem iter (dkeys v)) eqn:E; intro H.
  - injection H as <-. auto.
  - apply rbind_ok in H as [a [_ H]]. injection H as <-. intros t Ht.
    rewrite (dkeys_dset Z.eqb) in Ht by exact Zeqb_spec'. destruct (dmem Z.eqb v iter); [auto|].
    apply in_app_iff in Ht as [Ht|[<-|[]]]; auto.
Qed.

(** the relation between an output field and the working fields *)
Definition acc_entry (g : aggr) (n : nat) (rs lv : Z) (v : ofields) (t : Z) (kv : step * arr) : Prop :=
  fst kv = mkStep (t - a_step g) t rs (a_step g) lv /\
  exists c p, dget Z.eqb v t = Some c /\
    (if (t - a_step g =? 0) && a_force g then p = Nd (zeros n) else dget Z.eqb v (t - a_step g) = Some p) /\
    asize c = n /\ asize p = n /\
    snd kv = masked_where (amask p) (acc_data (a_unit g) (a_step g) (adata c) (adata p)).

Lemma acc_entry_ext g n rs lv v w t kv : extends v w -> acc_entry g n rs lv v t kv -> acc_entry g n rs lv w t kv.
Proof.
  intros He [Hk [c [p [Hc [Hp H]]]]]. split; [exact Hk|]. exists c, p.
  split; [apply He; exact Hc|]. split; [|exact H].
  destruct ((t - a_step g =? 0) && a_force g); [exact Hp | apply He; exact Hp].
Qed.

Lemma acc_body_inv g n rs lv st iter st' : 0 < a_step g ->
  acc_body g n rs lv st iter = Ok st' ->
  extends (ac_v st) (ac_v st') /\
  exists a, acc_entry g n rs lv (ac_v st') iter (mkStep (iter - a_step g) iter rs (a_step g) lv, a) /\
    ac_out st' = dset step_eqb (ac_out st) (mkStep (iter - a_step g) iter rs (a_step g) lv) a.
Proof.
  intros Hs H. unfold acc_body in H.
  apply rbind_ok in H as [v1 [H1 H]]. apply rbind_ok in H as [[v2 z2] [H2 H]].
  apply rbind_ok in H as [p [Hp H]]. apply rbind_ok in H as [c [Hc H]].
  apply rbind_ok in H as [o [Ho H]]. injection H as <-. cbn [ac_v ac_out].
  split.
  - eapply extends_trans; [eapply acc_fill_iter_ext; exact H1|].
    eapply acc_fill_prev_ext; [exact Hs| |exact H2]. apply (acc_fill_iter_keys _ _ _ H1).
  - exists o. split; [|reflexivity]. split; [reflexivity|]. cbn [snd].
    apply acc_out_inv in Ho as [Hn1 [Hn2 ->]]. exists c, p.
    split. { unfold dgetx in Hc. destruct (dget Z.eqb v2 iter); [congruence|discriminate]. }
    split; [|auto].
    unfold acc_prev_field in Hp. destruct ((iter - a_step g =? 0) && a_force g); [congruence|].
    unfold dgetx in Hp. destruct (dget Z.eqb v2 (iter - a_step g)); [congruence|discriminate].
Qed.

Lemma acc_loop_inv g n rs lv l : 0 < a_step g -> NoDup l -> forall st st',
  (forall t, In t l -> ~ In (mkStep (t - a_step g) t rs (a_step g) lv) (dkeys (ac_out st))) ->
  foldM (acc_body g n rs lv) l st = Ok st' ->
  extends (ac_v st) (ac_v st') /\
  exists new, ac_out st' = ac_out st ++ new /\ Forall2 (acc_entry g n rs lv (ac_v st')) l new.
Proof.
  intros Hs Hnd. induction Hnd as [|t l Hnt Hnd IH]; intros st st' Hk H; cbn [foldM] in H.
  - injection H as <-. split; [apply extends_refl|]. exists []. rewrite app_nil_r. split; [reflexivity|constructor].
  - apply rbind_ok in H as [st1 [H1 H2]].
    apply acc_body_inv in H1 as [He [a [Ha Ho]]]; [|exact Hs].
    rewrite (dset_new step_eqb step_eqb_spec) in Ho by (apply Hk; left; reflexivity).
    apply IH in H2 as [He2 [new [Hn2 Hf]]].
    + split; [eapply extends_trans; eassumption|]. eexists. split.
      * rewrite Hn2, Ho, <- app_assoc. reflexivity.
      * simpl. constructor; [eapply acc_entry_ext; eassumption | exact Hf].
    + intros t' Ht' Hi. rewrite Ho in Hi. unfold dkeys in Hi. rewrite map_app in Hi.
      apply in_app_iff in Hi as [Hi|[E|[]]].
      * eapply Hk; [right; exact Ht'|exact Hi].
      * simpl in E. injection E as _ E. subst. contradiction.
Qed.

(** Everything one needs to know about a successful accumulation: the working
    fields [v] extend the input, and each output is computed from them. *)
Lemma accumulation_shape g values st : 0 < a_step g -> accumulation_run g values = Ok st ->
  exists k0 a0 rest iters,
    values = (k0, a0) :: rest /\
    py_range (if a_start g =? 0 then a_step g else a_start g) (a_end g + 1) (a_step g) = Ok iters /\
    extends (by_end_step values) (ac_v st) /\
    Forall2 (acc_entry g (asize a0) (s_res k0) (s_level k0) (ac_v st)) iters (ac_out st).
Proof.
  intros Hs H. unfold accumulation_run in H.
  apply rbind_ok in H as [[k0 a0] [Hf H]]. destruct values as [|kv rest]; [discriminate|].
  simpl in Hf. injection Hf as ->.
  apply rbind_ok in H as [iters [Hi H]].
  exists k0, a0, rest, iters. split; [reflexivity|]. split; [exact Hi|].
  apply acc_loop_inv in H as [He [new [Ho Hf]]]; [|exact Hs|eapply NoDup_py_range; eassumption|].
  - simpl in Ho. rewrite Ho. auto.
  - simpl. auto.
Qed.

(** ** success on a complete series *)
Lemma acc_body_complete g n rs lv st iter c p : 0 < a_step g ->
  dget Z.eqb (ac_v st) iter = Some c -> dget Z.eqb (ac_v st) (iter - a_step g) = Some p ->
  asize c = n -> asize p = n ->
  exists a, acc_body g n rs lv st iter =
    Ok (mkAcc (ac_v st) (ac_zero st) (dset step_eqb (ac_out st) (mkStep (iter - a_step g) iter rs (a_step g) lv) a)).
Proof.
  intros Hs Hc Hp Hnc Hnp. unfold acc_body, acc_fill_iter.
  assert (Hm : forall t a, dget Z.eqb (ac_v st) t = Some a -> zmem t (dkeys (ac_v st)) = true).
  { intros t a Ht. apply zmem_In. apply (dmem_In Z.eqb Zeqb_spec'). unfold dmem. rewrite Ht. reflexivity. }
  rewrite (Hm _ _ Hc). cbn [rbind]. unfold acc_fill_prev. rewrite (Hm _ _ Hp). cbn [negb].
  rewrite andb_false_r. cbn [andb rbind].
  unfold acc_prev_field, dgetx. rewrite Hc, Hp.
  destruct ((iter - a_step g =? 0) && a_force g); cbn [rbind].
  - rewrite acc_out_ok; [|exact Hnc|apply zeros_length]. cbn [rbind]. eexists. reflexivity.
  - rewrite acc_out_ok by assumption. cbn [rbind]. eexists. reflexivity.
Qed.

Lemma acc_loop_complete g n rs lv l v : 0 < a_step g ->
  (forall t, In t l -> exists c p, dget Z.eqb v t = Some c /\ dget Z.eqb v (t - a_step g) = Some p /\ asize c = n /\ asize p = n) ->
  forall z out, exists st', foldM (acc_body g n rs lv) l (mkAcc v z out) = Ok st' /\ ac_v st' = v.
Proof.
  intros Hs. induction l as [|t l IH]; intros H z out; cbn [foldM].
  - eexists. split; reflexivity.
  - destruct (H t (or_introl eq_refl)) as [c [p [Hc [Hp [Hnc Hnp]]]]].
    destruct (acc_body_complete g n rs lv (mkAcc v z out) t c p Hs Hc Hp Hnc Hnp) as [a ->].
    cbn [rbind ac_v ac_zero ac_out]. apply IH. intros; apply H; right; assumption.
Qed.

Lemma in_grid_range first last s l t : 0 < s -> py_range first (last + 1) s = Ok l ->
  (In t l <-> on_grid first last s t).
Proof.
  intros Hs H. rewrite (in_py_range_pos _ _ _ _ t Hs H). unfold on_grid.
  split; intros [i [H1 [H2 H3]]]; exists i; repeat split; auto; lia.
Qed.

Lemma Forall2_In_l {A B} (R : A -> B -> Prop) l l' x : Forall2 R l l' -> In x l -> exists y, In y l' /\ R x y.
Proof.
  induction 1 as [|a b l l' HR HF IH]; intros Hi; [destruct Hi|].
  destruct Hi as [<-|Hi]; [exists b; split; [left; reflexivity|exact HR]|].
  destruct (IH Hi) as [y [Hy HR']]. exists y. split; [right; exact Hy|exact HR'].
Qed.
Lemma Forall2_In_r {A B} (R : A -> B -> Prop) l l' y : Forall2 R l l' -> In y l' -> exists x, In x l /\ R x y.
Proof.
  induction 1 as [|a b l l' HR HF IH]; intros Hi; [destruct Hi|].
  destruct Hi as [<-|Hi]; [exists a; split; [left; reflexivity|exact HR]|].
  destruct (IH Hi) as [x [Hx HR']]. exists x. split; [right; exact Hx|exact HR'].
Qed.

Lemma acc_entries_NoDup g n rs lv v l out : NoDup l -> Forall2 (acc_entry g n rs lv v) l out -> NoDup (map fst out).
Proof.
  intros Hn HF. induction HF as [|t kv l out HR HF IH]; simpl; [constructor|].
  inversion Hn as [|? ? Hnt Hn']; subst. constructor; [|apply IH; exact Hn'].
  intro Hi. apply in_map_iff in Hi as [kv' [E Hi]]. destruct (Forall2_In_r _ _ _ _ HF Hi) as [t' [Ht' HR']].
  destruct HR as [Hk _], HR' as [Hk' _]. rewrite Hk, Hk' in E. injection E as _ E. subst. contradiction.
Qed.

Theorem accumulation_complete : forall stype input unit s half start end_ sec values n,
  let g := aggr_init stype input unit s "accumulation" half false start end_ sec in
  let first := first_window start s in
  values <> [] -> 0 < s -> one_per_step values -> same_size values n ->
  (forall t, on_grid first end_ s t -> available values t /\ available values (t - s)) ->
  exists out k0 a0 rest,
    values = (k0, a0) :: rest /\
    do_manipulation g values = Ok out /\
    NoDup (map fst out) /\
    (forall k, In k (map fst out) <->
       exists t, on_grid first end_ s t /\ k = mkStep (t - s) t (s_res k0) s (s_level k0)) /\
    (forall k a, In (k, a) out ->
       asize a = n /\
       forall ct cp i x y, has_field values (s_end k) ct -> has_field values (s_start k) cp ->
         cell ct i x -> cell cp i y -> cell a i ((x - y) * ZQ unit / ZQ s)%Qc).
Proof.
  intros stype input unit s half start end_ sec values n g first Hne Hs Hone Hsz Hav.
  assert (Hg : a_step g = s) by reflexivity.
  assert (Ev : exists k0 a0 rest, values = (k0, a0) :: rest).
  { destruct values as [|[k0 a0] rest]; [contradiction|eauto]. }
  destruct Ev as [k0 [a0 [rest Ev]]].
  assert (Hn0 : asize a0 = n) by (apply (Hsz k0 a0); rewrite Ev; left; reflexivity).
  destruct (py_range first (end_ + 1) s) as [iters|e] eqn:Er.
  2:{ rewrite py_range_pos_ok in Er by exact Hs. discriminate. }
  assert (Hrun : exists st, accumulation_run g values = Ok st /\ ac_v st = by_end_step values).
  { unfold accumulation_run.
    assert (Hfe : first_entry values = Ok (k0, a0)) by (rewrite Ev; reflexivity).
    rewrite Hfe. cbn [rbind].
    change (if a_start g =? 0 then a_step g else a_start g) with first.
    change (a_end g) with end_. change (a_step g) with s. rewrite Er. cbn [rbind].
    apply acc_loop_complete; [exact Hs|]. intros t Ht. apply (in_grid_range _ _ _ _ t Hs Er) in Ht.
    destruct (Hav t Ht) as [[c Hc] [p Hp]]. exists c, p.
    split; [apply by_end_step_get; assumption|]. split; [apply by_end_step_get; assumption|].
    destruct Hc as [kc [Hc _]], Hp as [kp [Hp _]]. rewrite Hn0.
    split; [apply (Hsz kc c Hc) | apply (Hsz kp p Hp)]. }
  destruct Hrun as [st [Hrun Hv]].
  destruct (accumulation_shape g values st Hs Hrun) as [k0' [a0' [rest' [iters' [E [Er' [_ HF]]]]]]].
  rewrite Ev in E. injection E as <- <- <-. change (py_range first (end_ + 1) s = Ok iters') in Er'.
  rewrite Er in Er'. injection Er' as <-.
  exists (ac_out st), k0, a0, rest. split; [exact Ev|]. split.
  { unfold do_manipulation. cbn. unfold accumulation. rewrite Hrun. reflexivity. }
  split; [eapply acc_entries_NoDup; [eapply NoDup_py_range; eassumption|exact HF]|]. split.
  - intro k. split.
    + intro Hi. apply in_map_iff in Hi as [kv [<- Hi]]. destruct (Forall2_In_r _ _ _ _ HF Hi) as [t [Ht [Hk _]]].
      exists t. split; [apply (in_grid_range _ _ _ _ t Hs Er); exact Ht | exact Hk].
    + intros [t [Ht ->]]. apply (in_grid_range _ _ _ _ t Hs Er) in Ht.
      destruct (Forall2_In_l _ _ _ _ HF Ht) as [kv [Hi [Hk _]]]. apply in_map_iff. exists kv. split; [exact Hk|exact Hi].
  - intros k a Hi. destruct (Forall2_In_r _ _ _ _ HF Hi) as [t [Ht [Hk [c [p [Hc [Hp [Hnc [Hnp Ha]]]]]]]]].
    cbn [fst snd] in Hk, Ha. rewrite Ha. split.
    + unfold asize. rewrite adata_masked_where, acc_data_length; unfold asize in *; congruence.
    + intros ct cp i x y Hct Hcp Hx Hy. unfold cell. rewrite adata_masked_where.
      rewrite Hk in Hct, Hcp. cbn [s_end s_start] in Hct, Hcp. rewrite Hv in Hc, Hp.
      apply by_end_step_get in Hct; [|exact Hone]. apply by_end_step_get in Hcp; [|exact Hone].
      rewrite Hct in Hc. injection Hc as <-.
      rewrite andb_false_r in Hp. rewrite Hcp in Hp. injection Hp as <-.
      apply acc_data_cell; [lia|exact Hx|exact Hy].
Qed.
