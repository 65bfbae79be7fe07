(** * Adw_P2: proofs about angular distance weights *)
From Verif Require Import Base Num Xr Scipy Adw Spec_Adw Num_P Adw_P Scipy_P.
From Coq Require Import Sorting.Sorted Sorting.Permutation.
Local Open Scope R_scope.

(** ** sums without one element *)
Lemma without_length {A} i (l : list A) : (i < List.length l)%nat -> List.length (without i l) = (List.length l - 1)%nat.
Proof. intro H. unfold without. rewrite app_length, firstn_length, skipn_length. lia. Qed.
Lemma without_map {A B} (f : A -> B) i l : without i (map f l) = map f (without i l).
Proof. unfold without. now rewrite map_app, firstn_map, skipn_map. Qed.
Lemma without_zipw {A B C} (f : A -> B -> C) i l l' : without i (zipw f l l') = zipw f (without i l) (without i l').
Proof.
  unfold without. revert l l'. induction i as [|i IH]; intros [|a l] [|b l']; cbn [firstn skipn app zipw]; try reflexivity.
  - now destruct l.
  - f_equal. apply IH.
Qed.
Lemma In_without {A} i (l : list A) x : In x (without i l) -> In x l.
Proof. unfold without. intro H. apply in_app_or in H. destruct H as [H|H]; [rewrite <- (firstn_skipn i l)|rewrite <- (firstn_skipn (S i) l)]; apply in_or_app; [now left|now right]. Qed.
Lemma rsum_without l i : rsum (without i l) = sum_but i (List.length l) (at_ l).
Proof.
  unfold sum_but, without, at_. revert i. induction l as [|a l IH]; intro i; [now destruct i|]. destruct i as [|i].
  - cbn [firstn skipn app List.length seq map rsum nth Nat.eqb]. rewrite Rplus_0_l. rewrite <- seq_shift, map_map.
    rewrite (map_ext _ (fun j => nth j l 0)) by (intro j; reflexivity). clear IH. f_equal. induction l as [|b l IH]; [reflexivity|]. cbn [List.length seq map nth]. f_equal. rewrite <- seq_shift, map_map. exact IH.
  - cbn [firstn app List.length seq map rsum nth Nat.eqb]. f_equal. change (skipn (S (S i)) (a :: l)) with (skipn (S i) l). rewrite IH. rewrite <- seq_shift, map_map. reflexivity.
Qed.
Lemma sum_but_ext i k f g : (forall j, (j < k)%nat -> f j = g j) -> sum_but i k f = sum_but i k g.
Proof. intro H. unfold sum_but. f_equal. apply map_ext_in. intros j Hj. apply in_seq in Hj. destruct (Nat.eqb j i); [reflexivity|]. apply H. lia. Qed.

(** ** cosines *)
Lemma norm2_len a : norm2 a = len a. Proof. reflexivity. Qed.
Lemma len_nonneg a : 0 <= len a. Proof. apply sqrt_pos. Qed.
Lemma len_sq a : len a * len a = fst a ^ 2 + snd a ^ 2.
Proof. unfold len. apply sqrt_sqrt. nra. Qed.
Lemma len_zero a : len a = 0 -> fst a = 0 /\ snd a = 0.
Proof. intro H. pose proof (len_sq a) as E. rewrite H in E. split; nra. Qed.
Lemma cosine_bounds a b : 0 < len a -> 0 < len b -> -1 <= cosine a b <= 1.
Proof.
  intros Ha Hb. unfold cosine. assert (Hp : 0 < len a * len b) by nra.
  assert (Hs : (fst a * fst b + snd a * snd b) ^ 2 <= (len a * len b) ^ 2).
  { replace ((len a * len b) ^ 2) with ((len a * len a) * (len b * len b)) by ring. rewrite !len_sq. destruct a as [x y], b as [u v]; cbn [fst snd]. assert (0 <= (x * v - y * u) ^ 2) by (apply pow2_ge_0). nra. }
  set (n := fst a * fst b + snd a * snd b) in *. set (q := len a * len b) in *.
  assert (H1 : -q <= n) by (apply Rnot_lt_le; intro C; nra). assert (H2 : n <= q) by (apply Rnot_lt_le; intro C; nra). split; [apply Rmult_le_reg_r with q; [exact Hp|]|apply Rmult_le_reg_r with q; [exact Hp|]]; unfold Rdiv; rewrite Rmult_assoc, Rinv_l by lra; lra.
Qed.
Lemma cos_theta_fin a b : 0 < len a -> 0 < len b -> cos_theta a b = XF (cosine a b).
Proof. intros Ha Hb. unfold cos_theta. rewrite xdiv_fin; [reflexivity|]. change norm2 with len. apply Rgt_not_eq. now apply Rmult_lt_0_compat. Qed.
Lemma cos_theta_nan a b : len a = 0 \/ len b = 0 -> cos_theta a b = XNaN.
Proof.
  intro H. unfold cos_theta. change norm2 with len. assert (E : fst a * fst b + snd a * snd b = 0) by (destruct H as [H|H]; apply len_zero in H; destruct H as [-> ->]; ring).
  rewrite E. assert (E' : len a * len b = 0) by (destruct H as [-> | ->]; ring). rewrite E'. apply xdiv_0_0.
Qed.
Lemma cos_theta_cases a b : cos_theta a b = XNaN \/ exists c, cos_theta a b = XF c.
Proof.
  destruct (Req_EM_T (len a) 0) as [H|H]; [left; apply cos_theta_nan; now left|]. destruct (Req_EM_T (len b) 0) as [H'|H']; [left; apply cos_theta_nan; now right|].
  right. pose proof (len_nonneg a). pose proof (len_nonneg b). exists (cosine a b). apply cos_theta_fin; lra.
Qed.

(** ** directional weights *)
Lemma zipw_terms cs s : List.length cs = List.length s ->
  zipw (fun c s => xmul (xsub (XF 1) c) s) (map XF cs) (map XF s) = map XF (zipw (fun c x => (1 - c) * x) cs s).
Proof. revert s. induction cs as [|c cs IH]; intros [|x s] L; try discriminate L; [reflexivity|]. cbn [map zipw]. f_equal. apply IH. now injection L. Qed.
Lemma In_zipw {A B C} (f : A -> B -> C) l l' z : In z (zipw f l l') -> exists x y, In x l /\ In y l' /\ z = f x y.
Proof. revert l'. induction l as [|a l IH]; intros [|b l'] H; try destruct H as [H|H]; try destruct H; [now exists a, b; repeat split; left|]. destruct (IH l' H) as [x [y [Hx [Hy E]]]]. exists x, y. repeat split; [now right|now right|exact E]. Qed.
Lemma zipw_nan l l' : (forall x, In x l -> x = XNaN \/ exists c, x = XF c) -> (forall y, In y l' -> exists r, y = XF r) -> List.length l = List.length l' -> In XNaN l ->
  xsum (zipw (fun c s => xmul (xsub (XF 1) c) s) l l') = XNaN.
Proof.
  intros Hl Hl' L Hin. apply xsum_nan.
  - intros z Hz. apply In_zipw in Hz. destruct Hz as [x [y [Hx [Hy ->]]]]. destruct (Hl' y Hy) as [r ->]. destruct (Hl x Hx) as [->|[c ->]]; [now left|]. right. eexists. reflexivity.
  - clear Hl. revert l' Hl' L. induction l as [|a l IH]; intros [|b l'] Hl' L; [destruct Hin|destruct Hin|discriminate L|]. cbn [zipw]. destruct Hin as [->|Hin].
    + left. reflexivity.
    + right. apply IH; [exact Hin|intros y Hy; apply Hl'; now right|now injection L].
Qed.
Lemma rsum_zipw_bounds cs s : List.length cs = List.length s -> (forall c, In c cs -> -1 <= c <= 1) -> (forall x, In x s -> 0 <= x) ->
  0 <= rsum (zipw (fun c x => (1 - c) * x) cs s) <= 2 * rsum s.
Proof.
  revert s. induction cs as [|c cs IH]; intros [|x s] L Hc Hs; try discriminate L; cbn [zipw rsum]; [lra|].
  assert (-1 <= c <= 1) by (apply Hc; now left). assert (0 <= x) by (apply Hs; now left).
  assert (0 <= rsum (zipw (fun c x => (1 - c) * x) cs s) <= 2 * rsum s) by (apply IH; [now injection L|intros; apply Hc; now right|intros; apply Hs; now right]). nra.
Qed.
Lemma in_without_nth {A} (l : list A) i j d : (j < List.length l)%nat -> j <> i -> In (nth j l d) (without i l).
Proof.
  intros Hj Hn. unfold without. apply in_or_app. destruct (Nat.lt_ge_cases j i) as [H|H].
  - left. rewrite <- (firstn_skipn i l) at 1. rewrite app_nth1 by (rewrite firstn_length; lia). apply nth_In. rewrite firstn_length. lia.
  - right. rewrite <- (firstn_skipn (S i) l) at 1. rewrite app_nth2 by (rewrite firstn_length; lia). apply nth_In. rewrite firstn_length, skipn_length. lia.
Qed.
Lemma dir_at diffs s i : List.length diffs = List.length s -> (2 <= List.length s)%nat -> (i < List.length s)%nat -> (forall x, In x s -> 0 <= x) ->
  exists t, nan_to_one (dir_loop_at diffs (map XF s) i) = XF t /\ directional diffs s i t /\ 0 <= t <= 2.
Proof.
  intros L Hk Hi Hs. unfold dir_loop_at, dir_ratio. rewrite (without_map XF). set (a := nth i diffs (0, 0)).
  assert (Hden : rsum (without i s) = sum_but i (List.length diffs) (at_ s)) by (rewrite rsum_without, L; reflexivity).
  assert (Hdn : forall x, In x (without i s) -> 0 <= x) by (intros x Hx; apply Hs; now apply In_without in Hx).
  destruct (Forall_Exists_dec (fun d => 0 < len d) (fun d => Rlt_dec 0 (len d)) diffs) as [Hpos|Hz].
  - assert (Hpos' : forall j, (j < List.length diffs)%nat -> 0 < len (nth j diffs (0, 0))) by (intros j Hj; apply (proj1 (Forall_forall _ _) Hpos); now apply nth_In).
    assert (Ha : 0 < len a) by (apply Hpos'; lia).
    assert (Ec : map (cos_theta a) diffs = map XF (map (cosine a) diffs)).
    { rewrite map_map. apply map_ext_in. intros b Hb. apply cos_theta_fin; [exact Ha|]. now apply (proj1 (Forall_forall _ _) Hpos). }
    rewrite Ec, (without_map XF). rewrite zipw_terms by (rewrite !without_length; rewrite ?map_length; lia).
    rewrite !xsum_fin. set (num := rsum _). set (den := rsum _).
    assert (Hb : 0 <= num <= 2 * den).
    { apply rsum_zipw_bounds; [rewrite !without_length; rewrite ?map_length; lia| |exact Hdn]. intros c Hc. apply In_without in Hc. apply in_map_iff in Hc. destruct Hc as [b [<- Hb]]. apply cosine_bounds; [exact Ha|]. now apply (proj1 (Forall_forall _ _) Hpos). }
    assert (Hnum : num = sum_but i (List.length diffs) (fun j => (1 - cosine a (nth j diffs (0, 0))) * at_ s j)).
    { unfold num. rewrite <- without_zipw, rsum_without, zipw_length, map_length. rewrite <- L, Nat.min_id. apply sum_but_ext. intros j Hj. assert (Hj' : (j < List.length s)%nat) by lia. unfold at_ at 1.
      rewrite (nth_error_nth _ _ _ (nth_error_zipw _ _ _ j (cosine a (nth j diffs (0, 0))) (nth j s 0) (map_nth_error _ _ _ (nth_error_nth' _ _ Hj)) (nth_error_nth' _ _ Hj'))). reflexivity. }
    assert (Hd0 : 0 <= den) by now apply rsum_nonneg.
    destruct (Req_EM_T den 0) as [E|E].
    + assert (num = 0) by lra. rewrite H, E, xdiv_0_0. exists 1. split; [reflexivity|]. split; [|lra]. split; [intros _ C; rewrite <- Hden in C; fold den in C; lra|reflexivity].
    + rewrite xdiv_fin by exact E. exists (num / den). split; [reflexivity|]. split.
      * split; [intros _ _; fold a; rewrite <- Hnum, <- Hden; reflexivity|]. intros [[j [Hj C]]|C]; [specialize (Hpos' j Hj); lra|rewrite <- Hden in C; contradiction].
      * split; [apply Rmult_le_reg_r with den|apply Rmult_le_reg_r with den]; try lra; unfold Rdiv; rewrite Rmult_assoc, Rinv_l by exact E; lra.
  - assert (Hz' : exists j, (j < List.length diffs)%nat /\ len (nth j diffs (0, 0)) = 0).
    { apply Exists_exists in Hz. destruct Hz as [b [Hb Hn]]. apply (In_nth _ _ (0, 0)) in Hb. destruct Hb as [j [Hj Eb]]. exists j. split; [exact Hj|]. rewrite Eb. pose proof (len_nonneg b). lra. }
    exists 1. split; [|split; [|lra]].
    + rewrite zipw_nan; [reflexivity| | | |].
      * intros x Hx. apply In_without in Hx. apply in_map_iff in Hx. destruct Hx as [b [<- _]]. apply cos_theta_cases.
      * intros y Hy. apply in_map_iff in Hy. destruct Hy as [r [<- _]]. now exists r.
      * rewrite map_length, !without_length; rewrite ?map_length; lia.
      * destruct Hz' as [j [Hj Ej]]. destruct (Nat.eq_dec j i) as [->|Hn].
        { set (j' := if Nat.eqb i 0 then 1%nat else 0%nat). assert (j' <> i /\ (j' < List.length diffs)%nat) by (unfold j'; destruct (Nat.eqb_spec i 0); lia).
          replace XNaN with (nth j' (map (cos_theta a) diffs) XNaN); [apply in_without_nth; [rewrite map_length; tauto|tauto]|].
          rewrite (nth_map_in _ _ j' (0, 0)) by tauto. apply cos_theta_nan. now left. }
        { replace XNaN with (nth j (map (cos_theta a) diffs) XNaN); [apply in_without_nth; [rewrite map_length; exact Hj|exact Hn]|].
          rewrite (nth_map_in _ _ j (0, 0)) by exact Hj. apply cos_theta_nan. now right. }
    + split; [|reflexivity]. intros C _. destruct Hz' as [j [Hj Ej]]. specialize (C j Hj). lra.
Qed.
