(** * Proofs about the aggregator: instantaneous, refusals, read window *)
From Verif Require Import Base Num Base_P Num_P Aggregator Spec_Aggregation Aggregator_P Aggregator_P2 Aggregator_P4.
From Coq Require Import ZifyBool ZifyNat Sorting.Permutation Sorting.Sorted.
Ltac Zify.zify_post_hook ::= Z.div_mod_to_equations.
Local Open Scope Z_scope.

(** ** C12 *)
Definition inst_field (v : ofields) (n : nat) (iter : Z) : res arr :=
  do d <- (if zmem iter (dkeys v) then do a <- dgetx Z.eqb v iter; ew2 nadd (zeros n) (adata a)
           else if iter =? 0 then Ok (zeros n)
           else do next <- py_index (dkeys v) (Z.of_nat (bisect_right (dkeys v) iter));
                do a <- dgetx Z.eqb v next; ew2 nadd (zeros n) (adata a));
  Ok (Nd d).
Lemma inst_body_eq g v n rs lv out iter :
  inst_body g v n rs lv out iter =
  do a <- inst_field v n iter; Ok (dset step_eqb out (mkStep iter iter rs (a_step g) lv) a).
Proof. unfold inst_body, inst_field. destruct (if zmem iter (dkeys v) then _ else _); reflexivity. Qed.

Lemma find_start_eq stype input unit s type half force start end_ sec :
  find_start (aggr_init stype input unit s type half force start end_ sec) = inst_first stype input start s.
Proof. reflexivity. Qed.

Lemma dget_in values t : one_per_step values -> available values t -> exists c, dget Z.eqb (by_end_step values) t = Some c /\ has_field values t c.
Proof. intros Hone [c Hc]. exists c. split; [apply by_end_step_get; assumption|exact Hc]. Qed.

(** value of the field extracted at step [t] *)
Lemma inst_field_spec values n t : one_per_step values -> same_size values n ->
  (forall c, has_field values t c -> inst_field (by_end_step values) n t = Ok (Nd (adata c))) /\
  (~ available values t -> t = 0 -> inst_field (by_end_step values) n t = Ok (Nd (zeros n))) /\
  (~ available values t -> t <> 0 -> forall u c, first_after values t u -> has_field values u c ->
      inst_field (by_end_step values) n t = Ok (Nd (adata c))) /\
  (~ available values t -> t <> 0 -> (forall u, available values u -> u < t) ->
      inst_field (by_end_step values) n t = Raise IndexError).
Proof.
  intros Hone Hsz. unfold inst_field. split; [|split; [|split]].
  - intros c Hc.
    rewrite (proj2 (zmem_In _ _) (proj2 (by_end_step_mem values t) (ex_intro _ c Hc))).
    unfold dgetx. rewrite (proj2 (by_end_step_get values t c Hone) Hc). cbn [rbind].
    rewrite ew2_zeros by (eapply is_one_size; eassumption). reflexivity.
  - intros Hn ->. rewrite (proj2 (zmem_nIn _ _)); [reflexivity|]. rewrite by_end_step_mem. exact Hn.
  - intros Hn H0 u c [Hu [Hlt Hmin]] Hc.
    rewrite (proj2 (zmem_nIn _ _)) by (rewrite by_end_step_mem; exact Hn).
    rewrite (proj2 (Z.eqb_neq t 0) H0).
    pose proof (by_end_step_keys_sorted values) as Hs.
    destruct (bisect_right_exists (dkeys (by_end_step values)) t Hs) as [y Hy].
    { exists u. split; [apply by_end_step_mem; exact Hu|exact Hlt]. }
    pose proof (bisect_right_next _ _ _ Hs Hy) as [Hyi [Hty Hym]].
    rewrite py_index_nat, Hy. cbn [rbind].
    assert (y = u).
    { apply by_end_step_mem in Hyi. pose proof (Hmin _ Hyi Hty).
      pose proof (Hym u (proj2 (by_end_step_mem _ _) Hu) Hlt). lia. }
    subst y. unfold dgetx. rewrite (proj2 (by_end_step_get values u c Hone) Hc). cbn [rbind].
    rewrite ew2_zeros by (eapply is_one_size; eassumption). reflexivity.
  - intros Hn H0 Hall.
    rewrite (proj2 (zmem_nIn _ _)) by (rewrite by_end_step_mem; exact Hn).
    rewrite (proj2 (Z.eqb_neq t 0) H0). rewrite py_index_nat.
    destruct (nth_error _ (bisect_right (dkeys (by_end_step values)) t)) as [y|] eqn:Ey; [|reflexivity].
    pose proof (bisect_right_next _ _ _ (by_end_step_keys_sorted values) Ey) as [Hyi [Hty _]].
    apply by_end_step_mem, Hall in Hyi. lia.
Qed.

Lemma instantaneous_shape g values out : 0 < a_step g -> instantaneous g values = Ok out ->
  exists k0 a0 rest iters,
    values = (k0, a0) :: rest /\ py_range (find_start g) (a_end g + 1) (a_step g) = Ok iters /\
    Forall2 (fun t kv => fst kv = mkStep t t (s_res k0) (a_step g) (s_level k0) /\
                         inst_field (by_end_step values) (asize a0) t = Ok (snd kv)) iters out.
Proof.
  intros Hs H. unfold instantaneous in H. destruct (String.eqb (a_step_type g) "accum"); [discriminate|].
  apply rbind_ok in H as [[k0 a0] [Hf H]]. destruct values as [|kv rest]; [discriminate|].
  simpl in Hf. injection Hf as ->.
  apply rbind_ok in H as [iters [Hi H]].
  exists k0, a0, rest, iters. split; [reflexivity|]. split; [exact Hi|].
  erewrite foldM_ext in H by (intros; apply inst_body_eq).
  apply (dset_loop_shape _ (fun t => mkStep t t (s_res k0) (a_step g) (s_level k0))) in H as [new [-> HF]].
  - exact HF.
  - eapply NoDup_py_range; eassumption.
  - intros x y E. congruence.
  - simpl. auto.
Qed.

Theorem instantaneous_never_masked : forall stype input unit s half force start end_ sec values out,
  let g := aggr_init stype input unit s "instantaneous" half force start end_ sec in
  0 < s -> do_manipulation g values = Ok out ->
  forall k a i, In (k, a) out -> masked_at a i = false.
Proof.
  intros stype input unit s half force start end_ sec values out g Hs H k a i Hin.
  change (instantaneous g values = Ok out) in H.
  destruct (instantaneous_shape g values out Hs H) as [k0 [a0 [rest [iters [Ev [Hr HF]]]]]].
  destruct (Forall2_In_r _ _ _ _ HF Hin) as [t [Ht [Hk Ha]]]. cbn [fst snd] in Hk, Ha.
  unfold inst_field in Ha. apply rbind_ok in Ha as [sc [_ Ha]]. injection Ha as <-. reflexivity.
Qed.


Theorem instantaneous_copies : forall stype input unit s half force start end_ sec values n out,
  let g := aggr_init stype input unit s "instantaneous" half force start end_ sec in
  let first := inst_first stype input start s in
  0 < s -> one_per_step values -> same_size values n ->
  do_manipulation g values = Ok out ->
  exists k0 a0 rest, values = (k0, a0) :: rest /\ NoDup (map fst out) /\
  (forall k, In k (map fst out) <->
     exists t, on_grid first end_ s t /\ k = mkStep t t (s_res k0) s (s_level k0)) /\
  forall k a, In (k, a) out ->
    (exists c, has_field values (s_end k) c /\ adata a = adata c) \/
    (~ available values (s_end k) /\ s_end k = 0 /\ adata a = zeros n) \/
    (~ available values (s_end k) /\ s_end k <> 0 /\
       exists u c, first_after values (s_end k) u /\ has_field values u c /\ adata a = adata c).
Proof.
  intros stype input unit s half force start end_ sec values n out g first Hs Hone Hsz H.
  change (instantaneous g values = Ok out) in H.
  destruct (instantaneous_shape g values out Hs H) as [k0 [a0 [rest [iters [Ev [Hr HF]]]]]].
  assert (Hn0 : asize a0 = n) by (apply (Hsz k0 a0); rewrite Ev; left; reflexivity). rewrite Hn0 in HF.
  exists k0, a0, rest. split; [exact Ev|]. change (a_step g) with s in *.
  change (py_range first (end_ + 1) s = Ok iters) in Hr. split; [|split].
  - pose proof (NoDup_py_range _ _ _ _ Hs Hr) as Hnd. clear -HF Hnd. induction HF as [|t kv l o [HR _] HF IH]; cbn [map]; [constructor|].
    inversion Hnd; subst. constructor; [|apply IH; assumption].
    intro Hi. apply in_map_iff in Hi as [kv' [E Hi]]. destruct (Forall2_In_r _ _ _ _ HF Hi) as [t' [Ht' [Hk' _]]].
    rewrite HR, Hk' in E. injection E as E _. subst. contradiction.
  - intro k. split.
    + intro Hi. apply in_map_iff in Hi as [kv [<- Hi]]. destruct (Forall2_In_r _ _ _ _ HF Hi) as [t [Ht [Hk _]]].
      exists t. split; [apply (in_grid_range _ _ _ _ t Hs Hr); exact Ht | exact Hk].
    + intros [t [Ht ->]]. apply (in_grid_range _ _ _ _ t Hs Hr) in Ht.
      destruct (Forall2_In_l _ _ _ _ HF Ht) as [kv [Hi [Hk _]]]. apply in_map_iff. exists kv. split; [exact Hk|exact Hi].
  - intros k a Hin. destruct (Forall2_In_r _ _ _ _ HF Hin) as [t [Ht [Hk Ha]]]. cbn [fst snd] in *.
    rewrite Hk. cbn [s_end].
    destruct (inst_field_spec values n t Hone Hsz) as [P1 [P2 [P3 P4]]].
    destruct (zmem t (dkeys (by_end_step values))) eqn:E.
    + apply zmem_In, by_end_step_mem in E as [c Hc]. left. exists c. split; [exact Hc|].
      rewrite (P1 c Hc) in Ha. injection Ha as <-. reflexivity.
    + apply zmem_nIn in E. rewrite by_end_step_mem in E. right. destruct (Z.eq_dec t 0) as [H0|H0].
      * left. split; [exact E|]. split; [exact H0|]. rewrite (P2 E H0) in Ha. injection Ha as <-. reflexivity.
      * right. split; [exact E|]. split; [exact H0|].
        (* some later step must be available, or the code would have raised *)
        destruct (nth_error (dkeys (by_end_step values)) (bisect_right (dkeys (by_end_step values)) t)) as [u|] eqn:Eu.
        -- pose proof (bisect_right_next _ _ _ (by_end_step_keys_sorted values) Eu) as [Hui [Htu Hum]].
           pose proof (proj1 (by_end_step_mem _ _) Hui) as Hua. destruct Hua as [c Hc].
           assert (Hfa : first_after values t u).
           { split; [exists c; exact Hc|]. split; [exact Htu|]. intros w Hw Hlt. apply Hum; [apply by_end_step_mem; exact Hw|exact Hlt]. }
           exists u, c. split; [exact Hfa|]. split; [exact Hc|].
           rewrite (P3 E H0 u c Hfa Hc) in Ha. injection Ha as <-. reflexivity.
        -- exfalso. rewrite P4 in Ha; [discriminate|exact E|exact H0|].
           intros w Hw. destruct (Z.lt_ge_cases w t) as [|Hge]; [assumption|].
           assert (t < w). { destruct (Z.eq_dec w t); [subst; contradiction|lia]. }
           destruct (bisect_right_exists (dkeys (by_end_step values)) t (by_end_step_keys_sorted values)) as [y Hy].
           { exists w. split; [apply by_end_step_mem; exact Hw|assumption]. }
           congruence.
Qed.

Theorem instantaneous_succeeds : forall stype input unit s half force start end_ sec values n,
  let g := aggr_init stype input unit s "instantaneous" half force start end_ sec in
  0 < s -> stype <> "accum"%string -> values <> [] ->
  one_per_step values -> same_size values n ->
  (exists u, available values u /\ end_ <= u) ->
  exists out, do_manipulation g values = Ok out.
Proof.
  intros stype input unit s half force start end_ sec values n g Hs Hty Hne Hone Hsz [u [Hu Hle]].
  change (exists out, instantaneous g values = Ok out). unfold instantaneous.
  change (a_step_type g) with stype. rewrite (proj2 (String.eqb_neq stype "accum") Hty).
  destruct values as [|[k0 a0] rest] eqn:Ev; [contradiction|]. rewrite <- Ev in *.
  assert (Hfe : first_entry values = Ok (k0, a0)) by (rewrite Ev; reflexivity). rewrite Hfe. cbn [rbind].
  assert (Hn0 : asize a0 = n) by (apply (Hsz k0 a0); rewrite Ev; left; reflexivity). rewrite Hn0.
  change (a_end g) with end_. change (a_step g) with s.
  destruct (py_range (find_start g) (end_ + 1) s) as [iters|] eqn:Er; [|rewrite py_range_pos_ok in Er by lia; discriminate].
  cbn [rbind]. erewrite foldM_ext by (intros; apply inst_body_eq).
  apply (dset_loop_ok _ (fun t => mkStep t t (s_res k0) (a_step g) (s_level k0))).
  intros t Ht. apply (in_grid_range _ _ _ _ t Hs Er) in Ht as [j [Hj [_ Htl]]].
  destruct (inst_field_spec values n t Hone Hsz) as [P1 [P2 [P3 _]]].
  destruct (zmem t (dkeys (by_end_step values))) eqn:E.
  - apply zmem_In, by_end_step_mem in E as [c Hc]. rewrite (P1 c Hc). eauto.
  - apply zmem_nIn in E. rewrite by_end_step_mem in E. destruct (Z.eq_dec t 0) as [H0|H0]; [rewrite (P2 E H0); eauto|].
    assert (Hlt : t < u). { destruct (Z.eq_dec t u) as [->|]; [contradiction|lia]. }
    destruct (bisect_right_exists (dkeys (by_end_step values)) t (by_end_step_keys_sorted values)) as [y Hy].
    { exists u. split; [apply by_end_step_mem; exact Hu|exact Hlt]. }
    pose proof (bisect_right_next _ _ _ (by_end_step_keys_sorted values) Hy) as [Hyi [Hty' Hym]].
    pose proof (proj1 (by_end_step_mem _ _) Hyi) as [c Hc].
    rewrite (P3 E H0 y c); [eauto| |exact Hc].
    split; [exists c; exact Hc|]. split; [exact Hty'|]. intros w Hw Hw2. apply Hym; [apply by_end_step_mem; exact Hw|exact Hw2].
Qed.

(** ** C13 *)
Theorem refuses_accumulated : forall input unit s type half force start end_ sec values,
  type = "average"%string \/ type = "instantaneous"%string ->
  do_manipulation (aggr_init "accum" input unit s type half force start end_ sec) values = Raise (AppExc 6100).
Proof. intros ? ? ? ? ? ? ? ? ? ? [-> | ->]; reflexivity. Qed.

Definition noapp {A} (r : res A) : Prop := forall c, r <> Raise (AppExc c).
Lemma noapp_bind {A B} (x : res A) (f : A -> res B) : noapp x -> (forall a, noapp (f a)) -> noapp (rbind x f).
Proof. intros Hx Hf c. destruct x as [a|e]; cbn [rbind]; [apply Hf|]. intro E. injection E as ->. eapply Hx. reflexivity. Qed.
Lemma noapp_ok {A} (a : A) : noapp (Ok a). Proof. intros c. discriminate. Qed.
Lemma noapp_ew2 {A B C} (f : A -> B -> C) x y : noapp (ew2 f x y).
Proof. intros c. unfold ew2. destruct (Nat.eqb _ _); discriminate. Qed.
Lemma noapp_index {A} (l : list A) i : noapp (py_index l i).
Proof. intros c. unfold py_index. destruct (_ <? 0); [discriminate|]. destruct (nth_error _ _); discriminate. Qed.
Lemma noapp_range a b s : noapp (py_range a b s).
Proof. intros c. unfold py_range. destruct (s =? 0); [discriminate|]. destruct (0 <? s); discriminate. Qed.
Lemma noapp_dgetx {V} (v : list (Z * V)) t : noapp (dgetx Z.eqb v t).
Proof. intros c. unfold dgetx. destruct (dget _ _ _); discriminate. Qed.
Lemma noapp_foldM {S X} (f : S -> X -> res S) l : (forall s x, noapp (f s x)) -> forall s, noapp (foldM f l s).
Proof. intros Hf. induction l as [|x l IH]; intro s; cbn [foldM]; [apply noapp_ok|]. apply noapp_bind; [apply Hf|apply IH]. Qed.

Create HintDb na.
#[global] Hint Resolve noapp_ok noapp_ew2 noapp_index noapp_range noapp_dgetx : na.
Lemma noapp_interp v keys t at_ : noapp (interp_field v keys t at_).
Proof.
  unfold interp_field. apply noapp_bind.
  { unfold neighbours. apply noapp_bind; [auto with na|]. intro. apply noapp_bind; auto with na. }
  intros [nx og]. apply noapp_bind; [auto with na|]. intro. apply noapp_bind; [auto with na|]. intro.
  apply noapp_bind; [|auto with na]. unfold lin_expr. apply noapp_bind; auto with na.
Qed.
#[global] Hint Resolve noapp_interp : na.
Lemma noapp_acc_body g n rs lv st it : noapp (acc_body g n rs lv st it).
Proof.
  unfold acc_body. apply noapp_bind.
  { unfold acc_fill_iter. destruct (zmem _ _); [auto with na|]. apply noapp_bind; auto with na. }
  intro v1. apply noapp_bind.
  { unfold acc_fill_prev. destruct (_ && _); [|auto with na]. apply noapp_bind; [auto with na|]. intro.
    destruct (_ =? 0); [auto with na|]. apply noapp_bind; auto with na. }
  intros [v2 z2]. apply noapp_bind.
  { unfold acc_prev_field. destruct (_ && _); auto with na. }
  intro. apply noapp_bind; [auto with na|]. intro. apply noapp_bind; [|auto with na].
  unfold acc_out. apply noapp_bind; [auto with na|]. intro. apply noapp_bind; auto with na.
Qed.

Theorem accumulation_never_refused : forall stype input unit s half force start end_ sec values code,
  do_manipulation (aggr_init stype input unit s "accumulation" half force start end_ sec) values <> Raise (AppExc code).
Proof.
  intros. unfold do_manipulation. cbn. unfold accumulation, accumulation_run. revert code.
  apply noapp_bind; [|auto with na]. apply noapp_bind.
  { destruct values; [intros c; discriminate|apply noapp_ok]. }
  intros [k0 a0]. apply noapp_bind; [auto with na|]. intro. apply noapp_foldM. intros. apply noapp_acc_body.
Qed.

(** ** C14 *)
Lemma read_window_contains stype input unit s type half force start end_ sec : input <> 0 -> 0 < s -> 0 <= start ->
  let '(lo, hi) := real_start_end (aggr_init stype input unit s type half force start end_ sec) in
  0 <= lo /\ hi = end_ /\
  (forall t, on_grid (first_window start s) end_ s t -> (lo <= t <= hi) /\ (0 <= t - s -> lo <= t - s <= hi)) /\
  (forall a t, start <> 0 -> on_grid (start - s) (end_ - s) s a -> a <= t <= a + s -> 0 <= t -> lo <= t <= hi).
Proof.
  intros Hi Hs Hst. unfold real_start_end, aggr_init. cbn [a_usable a_end].
  rewrite (proj2 (Z.eqb_neq _ _) Hi). cbn [negb].
  unfold first_window, on_grid.
  destruct (start - s <? 0) eqn:E; (split; [lia|split; [reflexivity|split]]).
  - intros t [i [H1 [H2 H3]]]. destruct (start =? 0) eqn:E0; nia.
  - intros a t H0 [i [H1 [H2 H3]]] Ht Ht0. nia.
  - intros t [i [H1 [H2 H3]]]. destruct (start =? 0) eqn:E0; nia.
  - intros a t H0 [i [H1 [H2 H3]]] Ht Ht0. nia.
Qed.
