(** * Adw_P4: all cells at once; correlation distance decay *)
From Verif Require Import Base Num Xr Scipy Adw Spec_Adw Base_P Num_P Adw_P Adw_P2 Adw_P3.
From Coq Require Import Sorting.Sorted Sorting.Permutation.
Local Open Scope R_scope.

Lemma zipw_map_r {A B C} (f : A -> B -> C) (g : A -> B) l : zipw f l (map g l) = map (fun x => f x (g x)) l.
Proof. induction l as [|x l IH]; [reflexivity|]. cbn [map zipw]. now rewrite IH. Qed.
Lemma directional_weights_eq bc rows k : Forall (fun r => List.length (fst r) = k /\ List.length (snd r) = k) rows ->
  directional_weights bc rows k = map (fun r => dir_loop (fst r) (snd r)) rows.
Proof. intro H. unfold directional_weights. destruct bc; [now apply broadcast_loop|reflexivity]. Qed.
Lemma shepard_rows_eq bc ref cells : Forall (fun c => List.length (fst c) = 11%nat /\ List.length (snd c) = 11%nat) cells ->
  shepard_rows bc ref cells = map (shepard_row ref) cells.
Proof.
  intro H. unfold shepard_rows. rewrite directional_weights_eq.
  - rewrite map_map, zipw_map_r. reflexivity.
  - apply Forall_forall. intros r Hr. apply in_map_iff in Hr. destruct Hr as [c [<- Hc]]. cbn [fst snd]. rewrite map_length. destruct (proj1 (Forall_forall _ _) H c Hc). split; assumption.
Qed.
Lemma cdd_rows_eq bc cells k : Forall (fun c => List.length (fst c) = k /\ List.length (snd c) = k) cells ->
  cdd_rows bc cells k = map (fun c => cdd_row (snd c) (fst c)) cells.
Proof. intro H. unfold cdd_rows. rewrite directional_weights_eq by exact H. rewrite zipw_map_r. reflexivity. Qed.

(** ** the weights of one cell *)
Lemma sum_but_nonneg i k f : (forall j, (j < k)%nat -> 0 <= f j) -> 0 <= sum_but i k f.
Proof. intro H. unfold sum_but. apply rsum_nonneg. intros x Hx. apply in_map_iff in Hx. destruct Hx as [j [<- Hj]]. apply in_seq in Hj. destruct (Nat.eqb j i); [lra|]. apply H. lia. Qed.
Lemma sum_but_pos i k f j : (forall l, (l < k)%nat -> 0 <= f l) -> (j < k)%nat -> j <> i -> 0 < f j -> 0 < sum_but i k f.
Proof.
  intros H Hj Hn Hp. unfold sum_but. apply rsum_pos with (f j); [| |exact Hp].
  - intros x Hx. apply in_map_iff in Hx. destruct Hx as [l [<- Hl]]. apply in_seq in Hl. destruct (Nat.eqb l i); [lra|]. apply H. lia.
  - apply in_map_iff. exists j. split; [|apply in_seq; lia]. destruct (Nat.eqb_spec j i); [contradiction|reflexivity].
Qed.
Lemma sum_but_zero i k f : (forall j, (j < k)%nat -> j <> i -> f j = 0) -> sum_but i k f = 0.
Proof. intro H. unfold sum_but. apply rsum_zero. intros x Hx. apply in_map_iff in Hx. destruct Hx as [j [<- Hj]]. apply in_seq in Hj. destruct (Nat.eqb_spec j i); [reflexivity|]. apply H; [lia|assumption]. Qed.
Lemma Rdiv_pos a b : 0 < a -> 0 < b -> 0 < a / b.
Proof. intros. apply Rmult_lt_0_compat; [assumption|]. now apply Rinv_0_lt_compat. Qed.
Lemma Rdiv_nonneg a b : 0 <= a -> 0 < b -> 0 <= a / b.
Proof. intros. apply Rmult_le_pos; [assumption|]. left. now apply Rinv_0_lt_compat. Qed.
(** a positive directional weight *)
Lemma spread_pos diffs s ts : List.length diffs = List.length s -> (forall x, In x s -> 0 <= x) -> List.length ts = List.length s ->
  (forall i, (i < List.length s)%nat -> directional diffs s i (at_ ts i) /\ 0 <= at_ ts i <= 2) -> spread diffs s -> 0 < rsum ts.
Proof.
  intros L Hs Lt H Sp.
  assert (N : forall x, In x ts -> 0 <= x). { intros x Hx. apply In_at in Hx. destruct Hx as [i [Hi <-]]. destruct (H i ltac:(lia)) as [_ B]. lra. }
  assert (Hs' : forall j, (j < List.length s)%nat -> 0 <= at_ s j) by (intros; apply Hs; now apply at_In).
  assert (G : forall i, (i < List.length s)%nat -> 0 < at_ ts i -> 0 < rsum ts) by (intros i Hi Hp; apply rsum_pos with (at_ ts i); [exact N|apply at_In; lia|exact Hp]).
  destruct Sp as [[i [j [Hi [Hj [Hn [Hsj [Hl Hc]]]]]]]|[[j [Hj Hz]]|[i [Hi Hz]]]].
  - apply (G i); [lia|]. destruct (H i ltac:(lia)) as [[D _] _]. cbn zeta in D.
    assert (P : 0 < sum_but i (List.length diffs) (at_ s)) by (apply sum_but_pos with j; [intros; apply Hs'; lia|lia|congruence|exact Hsj]).
    rewrite (D Hl P). apply Rdiv_pos; [|exact P]. apply sum_but_pos with j; [|lia|congruence|apply Rmult_lt_0_compat; [lra|exact Hsj]].
    intros l Hll. apply Rmult_le_pos; [|apply Hs'; lia]. pose proof (cosine_bounds (nth i diffs (0, 0)) (nth l diffs (0, 0)) (Hl i Hi) (Hl l Hll)). lra.
  - apply (G O); [lia|]. destruct (H O ltac:(lia)) as [[_ D] _]. rewrite D; [lra|]. left. now exists j.
  - apply (G i); [lia|]. destruct (H i ltac:(lia)) as [[_ D] _]. rewrite D; [lra|]. right. apply sum_but_zero. intros j Hj Hn. apply Hz; assumption.
Qed.

Lemma norm_dirs ts : 0 < rsum ts -> map (fun x => xdiv x (XF (rsum ts))) (map XF ts) = map XF (map (fun t => t / rsum ts) ts).
Proof. intro H. rewrite !map_map. apply map_ext. intro t. apply xdiv_fin. lra. Qed.
Theorem cdd_row_ok s diffs : List.length diffs = List.length s -> (2 <= List.length s)%nat -> (forall x, In x s -> 0 <= x) -> (exists x, In x s /\ 0 < x) -> spread diffs s ->
  exists ts qs c, cdd_row (map XF s) diffs = map XF qs /\ List.length qs = List.length s /\ 0 < c /\ 0 < rsum ts /\ List.length ts = List.length s /\ convex qs /\
    forall i, (i < List.length s)%nat -> directional diffs s i (at_ ts i) /\ 0 <= at_ ts i <= 2 /\ at_ qs i = c * (at_ s i * (1 + at_ ts i / rsum ts)).
Proof.
  intros L Hk Hs [x [Hx Hp]] Sp. destruct (dirs_row diffs s L Hk Hs) as [ts [Et [Lt Hd]]]. pose proof (spread_pos diffs s ts L Hs Lt Hd Sp) as T.
  set (ws := zipw (fun a b => a * (1 + b)) s (map (fun t => t / rsum ts) ts)).
  assert (Lw : List.length ws = List.length s) by (unfold ws; rewrite zipw_length, map_length, Lt; lia).
  assert (Aw : forall i, (i < List.length s)%nat -> at_ ws i = at_ s i * (1 + at_ ts i / rsum ts)).
  { intros i Hi. unfold ws. rewrite at_zipw by (try rewrite map_length; lia). now rewrite at_map by lia. }
  assert (Ht : forall i, (i < List.length s)%nat -> 0 <= at_ ts i / rsum ts) by (intros i Hi; apply Rdiv_nonneg; [destruct (Hd i Hi) as [_ B]; lra|exact T]).
  assert (Nw : forall w, In w ws -> 0 <= w).
  { intros w Hw. apply In_at in Hw. destruct Hw as [i [Hi <-]]. rewrite Aw by lia. pose proof (Ht i ltac:(lia)). assert (0 <= at_ s i) by (apply Hs; apply at_In; lia). apply Rmult_le_pos; lra. }
  assert (Pw : 0 < rsum ws).
  { apply In_at in Hx. destruct Hx as [i [Hi Ei]]. apply rsum_pos with (at_ ws i); [exact Nw|apply at_In; lia|]. rewrite Aw by lia. pose proof (Ht i ltac:(lia)). apply Rmult_lt_0_compat; lra. }
  exists ts, (map (fun w => w / rsum ws) ws), (/ rsum ws). split; [|split; [now rewrite map_length|split; [now apply Rinv_0_lt_compat|split; [exact T|split; [exact Lt|split; [now apply normalised_convex|]]]]]].
  - unfold cdd_row, cdd_weights. rewrite Et, xsum_fin. cbn zeta. rewrite (norm_dirs ts T), combine_fin by (rewrite map_length; lia). now apply normalised_fin.
  - intros i Hi. destruct (Hd i Hi) as [D B]. split; [exact D|]. split; [exact B|]. rewrite at_map by lia. rewrite Aw by lia. unfold Rdiv. ring.
Qed.
(** all neighbours used in one direction, seen from the target *)
Theorem cdd_row_same_direction s diffs : List.length diffs = List.length s -> (forall x, In x s -> 0 <= x) ->
  (exists i j, (i < List.length s)%nat /\ (j < List.length s)%nat /\ i <> j /\ 0 < at_ s i /\ 0 < at_ s j) ->
  (forall i, (i < List.length s)%nat -> 0 < len (nth i diffs (0, 0))) ->
  (forall i j, (i < List.length s)%nat -> (j < List.length s)%nat -> cosine (nth i diffs (0, 0)) (nth j diffs (0, 0)) = 1) ->
  cdd_row (map XF s) diffs = repeat XNaN (List.length s).
Proof.
  intros L Hs [a [b [Ha [Hb [Hab [Pa Pb]]]]]] Hl Hc. destruct (dirs_row diffs s L ltac:(lia) Hs) as [ts [Et [Lt Hd]]].
  assert (Hs' : forall j, (j < List.length s)%nat -> 0 <= at_ s j) by (intros; apply Hs; now apply at_In).
  assert (Z : ts = repeat 0 (List.length s)).
  { apply nth_ext with 0 0; [now rewrite repeat_length|]. intros i Hi. rewrite nth_repeat. change (at_ ts i = 0). destruct (Hd i ltac:(lia)) as [[D _] _]. cbn zeta in D.
    assert (P : 0 < sum_but i (List.length diffs) (at_ s)).
    { destruct (Nat.eq_dec i a) as [->|N]; [apply sum_but_pos with b|apply sum_but_pos with a]; try (intros; apply Hs'; lia); try lia; try congruence; assumption. }
    rewrite D; [|intros; apply Hl; lia|exact P]. rewrite sum_but_zero; [unfold Rdiv; ring|]. intros j Hj Hn. rewrite Hc by lia. ring. }
  assert (E : map (fun x => xdiv x (xsum (map XF ts))) (map XF ts) = repeat XNaN (List.length s)).
  { rewrite xsum_fin, Z. rewrite (rsum_zero (repeat 0 (List.length s))) by (intros x Hx; now apply repeat_spec in Hx).
    clear. induction (List.length s) as [|n IH]; [reflexivity|]. cbn [repeat map]. rewrite IH, xdiv_0_0. reflexivity. }
  unfold cdd_row, cdd_weights. rewrite Et. cbn zeta. rewrite E.
  assert (E2 : zipw (fun x y => xmul x (xadd (XF 1) y)) (map XF s) (repeat XNaN (List.length s)) = repeat XNaN (List.length s)).
  { clear. induction s as [|x s IH]; [reflexivity|]. cbn [List.length repeat map zipw]. f_equal. exact IH. }
  rewrite E2. unfold normalised. assert (X : xsum (repeat XNaN (List.length s)) = XNaN).
  { destruct (List.length s) as [|n] eqn:En; [lia|]. cbn [repeat]. unfold xsum. cbn [fold_left xadd]. apply xsum_nan_acc. }
  rewrite X. clear. induction (List.length s) as [|n IH]; [reflexivity|]. cbn [repeat map]. rewrite IH. reflexivity.
Qed.
(** no neighbour used *)
Lemma map_XF_zero s : (forall x, In x s -> x = 0) -> map XF s = repeat (XF 0) (List.length s).
Proof. induction s as [|x s IH]; intro H; [reflexivity|]. cbn [map List.length repeat]. rewrite (H x (or_introl eq_refl)), IH; [reflexivity|]. intros; apply H; now right. Qed.
Theorem cdd_row_none s diffs : List.length diffs = List.length s -> (2 <= List.length s)%nat -> (forall x, In x s -> x = 0) -> cdd_row (map XF s) diffs = repeat XNaN (List.length s).
Proof.
  intros L Hk Hz. assert (Hs : forall x, In x s -> 0 <= x) by (intros x Hx; rewrite (Hz x Hx); lra). destruct (dirs_row diffs s L Hk Hs) as [ts [Et [Lt Hd]]].
  assert (Sp : spread diffs s). { right. right. exists O. split; [lia|]. intros j Hj _. apply Hz. apply at_In. lia. }
  pose proof (spread_pos diffs s ts L Hs Lt Hd Sp) as T.
  unfold cdd_row, cdd_weights. rewrite Et, xsum_fin. cbn zeta. rewrite (norm_dirs ts T), combine_fin by (rewrite map_length; lia).
  rewrite map_XF_zero.
  - rewrite zipw_length, map_length, Lt, Nat.min_id. apply normalised_zero.
  - intros x Hx. apply In_zipw in Hx. destruct Hx as [a [b [Ha [_ ->]]]]. rewrite (Hz a Ha). ring.
Qed.
