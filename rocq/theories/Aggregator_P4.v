(** * Proofs about the aggregator: average *)
From Verif Require Import Base Num Base_P Num_P Aggregator Spec_Aggregation Aggregator_P Aggregator_P2.
From Coq Require Import ZifyBool ZifyNat Sorting.Permutation Sorting.Sorted.
Ltac Zify.zify_post_hook ::= Z.div_mod_to_equations.
Local Open Scope Z_scope.

(** ** shape of the outer loop *)
Lemma dset_loop_shape (f : Z -> res arr) (key : Z -> step) l : NoDup l ->
  (forall a b, key a = key b -> a = b) ->
  forall out out', (forall t, In t l -> ~ In (key t) (dkeys out)) ->
  foldM (fun o t => do a <- f t; Ok (dset step_eqb o (key t) a)) l out = Ok out' ->
  exists new, out' = out ++ new /\ Forall2 (fun t kv => fst kv = key t /\ f t = Ok (snd kv)) l new.
Proof.
  intros Hnd Hinj. induction Hnd as [|t l Hnt Hnd IH]; intros out out' Hk H; cbn [foldM] in H.
  - injection H as <-. exists []. rewrite app_nil_r. split; [reflexivity|constructor].
  - apply rbind_ok in H as [o1 [H1 H]]. apply rbind_ok in H1 as [a [Ha H1]]. injection H1 as <-.
    rewrite (dset_new step_eqb step_eqb_spec) in H by (apply Hk; left; reflexivity).
    apply IH in H as [new [-> HF]].
    + exists ((key t, a) :: new). rewrite <- app_assoc. split; [reflexivity|]. constructor; [|exact HF]. auto.
    + intros t' Ht' Hi. unfold dkeys in Hi. rewrite map_app in Hi. apply in_app_iff in Hi as [Hi|[E|[]]].
      * eapply Hk; [right; exact Ht'|exact Hi].
      * simpl in E. apply Hinj in E. subst. contradiction.
Qed.
Lemma dset_loop_ok (f : Z -> res arr) (key : Z -> step) l :
  (forall t, In t l -> exists a, f t = Ok a) -> forall out,
  exists out', foldM (fun o t => do a <- f t; Ok (dset step_eqb o (key t) a)) l out = Ok out'.
Proof.
  induction l as [|t l IH]; intros H out; cbn [foldM]; [eauto|].
  destruct (H t (or_introl eq_refl)) as [a ->]. cbn [rbind]. apply IH. intros; apply H; right; assumption.
Qed.
Lemma dset_loop_err (f : Z -> res arr) (key : Z -> step) l e : forall out,
  foldM (fun o t => do a <- f t; Ok (dset step_eqb o (key t) a)) l out = Raise e ->
  exists t, In t l /\ f t = Raise e.
Proof.
  induction l as [|t l IH]; intros out H; cbn [foldM] in H; [discriminate|].
  destruct (f t) as [a|e'] eqn:E; cbn [rbind] in H.
  - destruct (IH _ H) as [t' [Hi Ht']]. exists t'. split; [right; exact Hi|exact Ht'].
  - injection H as <-. exists t. split; [left; reflexivity|exact E].
Qed.
Lemma foldM_ext {S X} (f f' : S -> X -> res S) l s : (forall s x, f s x = f' s x) -> foldM f l s = foldM f' l s.
Proof.
  intro H. revert s. induction l as [|x l IH]; intro s; cbn [foldM]; [reflexivity|].
  rewrite H. destruct (f' s x); [apply IH|reflexivity].
Qed.

(** the field of the average window that starts at [iter] *)
Definition avg_field (g : aggr) (v : ofields) (n : nat) (iter : Z) : res arr :=
  do sc <- (if a_half g then avg_half v n (a_step g) iter else avg_plain v n (a_step g) iter);
  Ok (masked_where None (map (fun x => ndiv x (snd sc)) (fst sc))).
Lemma avg_body_eq g v n rs lv out iter :
  avg_body g v n rs lv out iter =
  do a <- avg_field g v n iter; Ok (dset step_eqb out (mkStep iter (iter + a_step g) rs (a_step g) lv) a).
Proof.
  unfold avg_body, avg_field. destruct (if a_half g then _ else _) as [[sm ct]|e]; reflexivity.
Qed.

Lemma average_shape g values out : 0 < a_step g -> average g values = Ok out ->
  exists k0 a0 rest iters,
    values = (k0, a0) :: rest /\
    py_range (fst (avg_bounds g)) (snd (avg_bounds g)) (a_step g) = Ok iters /\
    Forall2 (fun t kv => fst kv = mkStep t (t + a_step g) (s_res k0) (a_step g) (s_level k0) /\
                         avg_field g (by_end_step values) (asize a0) t = Ok (snd kv)) iters out.
Proof.
  intros Hs H. unfold average in H. destruct (String.eqb (a_step_type g) "accum"); [discriminate|].
  apply rbind_ok in H as [[k0 a0] [Hf H]]. destruct values as [|kv rest]; [discriminate|].
  simpl in Hf. injection Hf as ->. destruct (avg_bounds g) as [b e] eqn:Eb.
  apply rbind_ok in H as [iters [Hi H]].
  exists k0, a0, rest, iters. split; [reflexivity|]. split; [exact Hi|].
  erewrite foldM_ext in H by (intros; apply avg_body_eq).
  apply (dset_loop_shape _ (fun t => mkStep t (t + a_step g) (s_res k0) (a_step g) (s_level k0))) in H as [new [-> HF]].
  - exact HF.
  - eapply NoDup_py_range; eassumption.
  - intros x y E. congruence.
  - simpl. auto.
Qed.

(** ** the plain sum *)
Definition avg_pick (v : ofields) (t : Z) : res arr :=
  if zmem t (dkeys v) then dgetx Z.eqb v t
  else do next <- py_index (dkeys v) (Z.of_nat (bisect_left (dkeys v) t)); dgetx Z.eqb v next.

Lemma avg_pick_ok values t u c : one_per_step values -> first_at_or_after values t u -> has_field values u c ->
  avg_pick (by_end_step values) t = Ok c.
Proof.
  intros Hone [Hav [Hle Hmin]] Hc. unfold avg_pick.
  pose proof (proj2 (by_end_step_get values u c Hone) Hc) as G.
  destruct (zmem t (dkeys (by_end_step values))) eqn:E.
  - apply zmem_In, by_end_step_mem in E. pose proof (Hmin _ E ltac:(lia)). assert (u = t) by lia. subst u.
    unfold dgetx. rewrite G. reflexivity.
  - pose proof (by_end_step_keys_sorted values) as Hs.
    destruct (bisect_left_exists (dkeys (by_end_step values)) t Hs) as [y Hy].
    { exists u. split; [apply by_end_step_mem; exact Hav|exact Hle]. }
    pose proof (bisect_left_next _ _ _ Hs Hy) as [Hyi [Hty Hym]].
    rewrite py_index_nat, Hy. cbn [rbind].
    assert (y = u).
    { apply by_end_step_mem in Hyi. pose proof (Hmin _ Hyi Hty).
      pose proof (Hym u (proj2 (by_end_step_mem _ _) Hav) Hle). lia. }
    subst y. unfold dgetx. rewrite G. reflexivity.
Qed.
Lemma avg_pick_inv values t c : one_per_step values -> avg_pick (by_end_step values) t = Ok c ->
  exists u, first_at_or_after values t u /\ has_field values u c.
Proof.
  intros Hone H. unfold avg_pick in H. pose proof (by_end_step_keys_sorted values) as Hs.
  destruct (zmem t (dkeys (by_end_step values))) eqn:E.
  - unfold dgetx in H. destruct (dget Z.eqb (by_end_step values) t) as [c'|] eqn:G; [|discriminate].
    injection H as ->. apply by_end_step_get in G; [|exact Hone]. exists t. split; [|exact G].
    split; [exists c; exact G|]. split; [lia|auto].
  - apply rbind_ok in H as [y [Hy H]]. rewrite py_index_nat in Hy.
    destruct (nth_error (dkeys (by_end_step values)) (bisect_left (dkeys (by_end_step values)) t)) as [y'|] eqn:Ey; [|discriminate].
    injection Hy as ->. pose proof (bisect_left_next _ _ _ Hs Ey) as [Hyi [Hty Hym]].
    unfold dgetx in H. destruct (dget Z.eqb (by_end_step values) y) as [c'|] eqn:G; [|discriminate].
    injection H as ->. apply by_end_step_get in G; [|exact Hone]. exists y. split; [|exact G].
    split; [apply by_end_step_mem; exact Hyi|]. split; [exact Hty|].
    intros w Hw Htw. apply Hym; [apply by_end_step_mem; exact Hw|exact Htw].
Qed.
Lemma avg_pick_err values t : one_per_step values ->
  (forall u, available values u -> u < t) -> avg_pick (by_end_step values) t = Raise IndexError.
Proof.
  intros Hone H. unfold avg_pick.
  destruct (zmem t (dkeys (by_end_step values))) eqn:E.
  - apply zmem_In, by_end_step_mem in E. apply H in E. lia.
  - rewrite py_index_nat.
    destruct (nth_error _ (bisect_left (dkeys (by_end_step values)) t)) as [y|] eqn:Ey; [|reflexivity].
    pose proof (bisect_left_next _ _ _ (by_end_step_keys_sorted values) Ey) as [Hyi [Hty _]].
    apply by_end_step_mem, H in Hyi. lia.
Qed.

Lemma avg_plain_body_eq v s c t :
  avg_plain_body v (s, c) t = do a <- avg_pick v t; do s' <- ew2 nadd s (adata a); Ok (s', nadd c (nint 1)).
Proof. reflexivity. Qed.

Lemma avg_plain_loop v n (i : nat) (f : Z -> Qc) ts : (i < n)%nat ->
  (forall t c, In t ts -> avg_pick v t = Ok c -> cell c i (f t)) ->
  forall s x cz s' c', nth_error s i = Some (Fin x) ->
  foldM (avg_plain_body v) ts (s, nint cz) = Ok (s', c') ->
  nth_error s' i = Some (Fin (x + Qsum (map f ts))) /\ c' = nint (cz + Z.of_nat (List.length ts)).
Proof.
  intros Hi. induction ts as [|t ts IH]; intros Hf s x cz s' c' Hx H; cbn [foldM] in H.
  - injection H as <- <-. cbn [map Qsum fold_right List.length]. split; [|f_equal; lia].
    rewrite Hx. f_equal. f_equal. unfold Qsum. simpl. ring.
  - apply rbind_ok in H as [[s1 c1] [H1 H]]. rewrite avg_plain_body_eq in H1.
    apply rbind_ok in H1 as [a [Ha H1]]. apply rbind_ok in H1 as [s2 [Hs2 H1]]. injection H1 as <- <-.
    apply ew2_inv in Hs2 as [Hl ->].
    assert (Hc : nadd (nint cz) (nint 1) = nint (cz + 1)) by (unfold nint; simpl; f_equal; symmetry; apply ZQ_add).
    change (Fin (ZQ cz + ZQ 1)) with (nadd (nint cz) (nint 1)) in H. rewrite Hc in H.
    apply IH with (x := (x + f t)%Qc) in H as [H1 H2].
    + split; [|rewrite H2; f_equal; cbn [List.length]; lia].
      rewrite H1. f_equal. f_equal. cbn [map Qsum fold_right]. unfold Qsum. ring.
    + intros; apply Hf; [right|]; assumption.
    + erewrite nth_error_zipw; [|exact Hx|apply (Hf t a (or_introl eq_refl) Ha)]. reflexivity.
Qed.

Lemma avg_plain_loop_len v n ts : forall s c s' c', List.length s = n ->
  foldM (avg_plain_body v) ts (s, c) = Ok (s', c') -> List.length s' = n.
Proof.
  induction ts as [|t ts IH]; intros s c s' c' Hl H; cbn [foldM] in H.
  - injection H as <- <-. exact Hl.
  - apply rbind_ok in H as [[s1 c1] [H1 H]]. rewrite avg_plain_body_eq in H1.
    apply rbind_ok in H1 as [a [Ha H1]]. apply rbind_ok in H1 as [s2 [Hs2 H1]]. injection H1 as <- <-.
    apply ew2_inv in Hs2 as [Hl' ->]. apply IH in H; [exact H|]. rewrite zipw_length. lia.
Qed.

Lemma unit_steps_range a s : 0 <= s -> py_range (a + 1) (a + s + 1) 1 = Ok (unit_steps a s).
Proof.
  intro Hs. rewrite py_range_pos_ok by lia. unfold unit_steps, range_len. f_equal.
  replace ((a + s + 1 - (a + 1) + 1 - 1) / 1) with s by (rewrite Z.div_1_r; lia).
  apply map_ext. intro i. lia.
Qed.
Lemma unit_steps_length a s : 0 <= s -> Z.of_nat (List.length (unit_steps a s)) = s.
Proof. intro. unfold unit_steps. rewrite map_length, seq_length. lia. Qed.
Lemma unit_steps_In a s t : In t (unit_steps a s) <-> a < t <= a + s.
Proof.
  unfold unit_steps. rewrite in_map_iff. split.
  - intros [i [<- Hi]]. apply in_seq in Hi. lia.
  - intros H. exists (Z.to_nat (t - a - 1)). split; [lia|]. apply in_seq. lia.
Qed.

Lemma avg_field_plain_cell g v n iter a i f : a_half g = false -> 0 < a_step g -> (i < n)%nat ->
  avg_field g v n iter = Ok a ->
  (forall t c, iter < t <= iter + a_step g -> avg_pick v t = Ok c -> cell c i (f t)) ->
  cell a i (Qsum (map f (unit_steps iter (a_step g))) / ZQ (a_step g))%Qc.
Proof.
  intros Hh Hs Hi H Hf. unfold avg_field in H. rewrite Hh in H.
  apply rbind_ok in H as [[sm ct] [H1 H]]. injection H as <-. unfold avg_plain in H1.
  rewrite unit_steps_range in H1 by lia. cbn [rbind] in H1.
  apply (avg_plain_loop v n i f) with (x := 0%Qc) in H1 as [H1 ->].
  - unfold cell. cbn [fst snd adata masked_where]. erewrite nth_error_map'; [|exact H1].
    rewrite unit_steps_length by lia. rewrite Z.add_0_l. unfold nint.
    rewrite ndiv_fin by (apply ZQ_neq0; lia). f_equal. f_equal. f_equal. ring.
  - exact Hi.
  - intros t c Ht. apply Hf. apply unit_steps_In. exact Ht.
  - apply nth_error_zeros. exact Hi.
Qed.

(** spelled-out window starts *)
Lemma on_grid_range b e s l a : 0 < s -> py_range b e s = Ok l -> (In a l <-> on_grid b (e - 1) s a).
Proof.
  intros Hs H. rewrite (in_py_range_pos b e s l a Hs H). unfold on_grid.
  split; intros [i [H1 [H2 H3]]]; exists i; repeat split; try assumption; lia.
Qed.

Lemma is_one_size values n t c : same_size values n -> has_field values t c -> asize c = n.
Proof. intros Hsz [k [Hin _]]. apply (Hsz k c Hin). Qed.

(** *** C07 *)
Theorem average_backfilled_mean : forall stype input unit s force start end_ sec values n out,
  let g := aggr_init stype input unit s "average" false force start end_ sec in
  0 < s -> one_per_step values -> same_size values n ->
  do_manipulation g values = Ok out ->
  forall k a, In (k, a) out ->
    s_end k = s_start k + s /\ asize a = n /\
    (forall t, s_start k < t <= s_end k -> exists u, first_at_or_after values t u) /\
    forall i f, (i < n)%nat ->
      (forall t, s_start k < t <= s_end k -> backfill values t i (f t)) ->
      cell a i (Qsum (map f (unit_steps (s_start k) s)) / ZQ s)%Qc.
Proof.
  intros stype input unit s force start end_ sec values n out g Hs Hone Hsz H k a Hin.
  change (average g values = Ok out) in H.
  destruct (average_shape g values out Hs H) as [k0 [a0 [rest [iters [Ev [Hr HF]]]]]].
  assert (Hn0 : asize a0 = n) by (apply (Hsz k0 a0); rewrite Ev; left; reflexivity).
  destruct (Forall2_In_r _ _ _ _ HF Hin) as [t [Ht [Hk Ha]]]. cbn [fst snd] in Hk, Ha.
  rewrite Hk. cbn [s_start s_end]. change (a_step g) with s in *. rewrite Hn0 in Ha.
  split; [reflexivity|].
  assert (Hpick : forall u, t < u <= t + s -> exists c, avg_pick (by_end_step values) u = Ok c).
  { intros u Hu. unfold avg_field in Ha. change (a_half g) with false in Ha. cbn match in Ha.
    apply rbind_ok in Ha as [sc [Ha _]]. unfold avg_plain in Ha. change (a_step g) with s in Ha.
    rewrite unit_steps_range in Ha by lia. cbn [rbind] in Ha.
    apply unit_steps_In in Hu. revert Ha. generalize (zeros n, nint 0). generalize Hu. generalize (unit_steps t s).
    induction l as [|w l IH]; intros Hw [sm ct] Ha; [destruct Hw|]. cbn [foldM] in Ha.
    apply rbind_ok in Ha as [[s1 c1] [H1 H2]]. rewrite avg_plain_body_eq in H1.
    apply rbind_ok in H1 as [c [Hc _]]. destruct Hw as [->|Hw]; [eauto|]. eapply IH; eassumption. }
  split.
  { unfold avg_field in Ha. change (a_half g) with false in Ha. cbn match in Ha.
    apply rbind_ok in Ha as [[sm ct] [H1 Ha]]. injection Ha as <-. unfold asize. cbn [adata masked_where fst snd]. rewrite map_length. unfold avg_plain in H1. apply rbind_ok in H1 as [ts [_ H1]].
    eapply avg_plain_loop_len; [|exact H1]. apply zeros_length. }
  split.
  { intros u Hu. destruct (Hpick u Hu) as [c Hc]. apply avg_pick_inv in Hc as [w [Hw _]]; [|exact Hone]. eauto. }
  intros i f Hi Hf. change s with (a_step g). eapply avg_field_plain_cell; try eassumption; [reflexivity|].
  intros u c Hu Hc. destruct (Hf u Hu) as [w [c' [Hw [Hc' Hx]]]].
  rewrite (avg_pick_ok values u w c' Hone Hw Hc') in Hc. injection Hc as <-. exact Hx.
Qed.

(** when the plain average succeeds *)
Lemma avg_plain_succeeds values n s iter : one_per_step values -> same_size values n -> 0 < s ->
  (exists u, available values u /\ iter + s <= u) ->
  exists sc, avg_plain (by_end_step values) n s iter = Ok sc.
Proof.
  intros Hone Hsz Hs [u [Hu Hle]]. unfold avg_plain. rewrite unit_steps_range by lia. cbn [rbind].
  assert (Hall : forall t, In t (unit_steps iter s) -> exists c, avg_pick (by_end_step values) t = Ok c /\ asize c = n).
  { intros t Ht. apply unit_steps_In in Ht.
    assert (He : exists c, avg_pick (by_end_step values) t = Ok c).
    { unfold avg_pick. pose proof (by_end_step_keys_sorted values) as Hso.
      assert (Hd : forall y, In y (dkeys (by_end_step values)) -> exists c, dgetx Z.eqb (by_end_step values) y = Ok c).
      { intros y Hy. apply (dmem_In Z.eqb Zeqb_spec') in Hy. unfold dmem in Hy. unfold dgetx.
        destruct (dget Z.eqb (by_end_step values) y); [eauto|discriminate]. }
      destruct (zmem t (dkeys (by_end_step values))) eqn:E; [apply Hd, zmem_In, E|].
      destruct (bisect_left_exists (dkeys (by_end_step values)) t Hso) as [y Hy].
      { exists u. split; [apply by_end_step_mem; exact Hu|lia]. }
      rewrite py_index_nat, Hy. cbn [rbind]. apply Hd. eapply nth_error_In. exact Hy. }
    destruct He as [c Hc]. exists c. split; [exact Hc|].
    apply avg_pick_inv in Hc as [w [_ Hw]]; [|exact Hone]. eapply is_one_size; eassumption. }
  destruct (foldM_ok (avg_plain_body (by_end_step values)) (fun sc => List.length (fst sc) = n) (unit_steps iter s) (zeros n, nint 0)) as [sc [Hsc _]].
  - intros [sm ct] t Ht Hl. destruct (Hall t Ht) as [c [Hc Sc]]. rewrite avg_plain_body_eq, Hc. cbn [rbind fst] in *.
    rewrite ew2_ok by (unfold asize in Sc; congruence). cbn [rbind]. eexists. split; [reflexivity|].
    cbn [fst]. rewrite zipw_length. unfold asize in Sc. lia.
  - apply zeros_length.
  - eauto.
Qed.
