(** * Adw_P3: Shepard's radius and weights; correlation distance decay *)
From Verif Require Import Base Num Xr Scipy Adw Spec_Adw Num_P Adw_P Scipy_P Adw_P2.
From Coq Require Import Sorting.Sorted Sorting.Permutation.
Local Open Scope R_scope.

Lemma gtb_spec a b : gtb a b = true <-> b < a. Proof. unfold gtb. destruct (Rlt_dec b a); split; intro; try reflexivity; try discriminate; tauto. Qed.
Lemma gtb_false a b : gtb a b = false <-> a <= b. Proof. unfold gtb. destruct (Rlt_dec b a); split; intro; try reflexivity; try discriminate; lra. Qed.
Lemma leb_spec a b : leb a b = true <-> a <= b. Proof. unfold leb. destruct (Rle_dec a b); split; intro; try reflexivity; try discriminate; tauto. Qed.
Lemma leb_false a b : leb a b = false <-> b < a. Proof. unfold leb. destruct (Rle_dec a b); split; intro; try reflexivity; try discriminate; lra. Qed.

Lemma pow2_pos x : x <> 0 -> 0 < x ^ 2. Proof. intro H. replace (x ^ 2) with (Rsqr x) by (unfold Rsqr; ring). now apply Rsqr_pos_lt. Qed.
(** ** ascending distances *)
Lemma sorted_nth ds i j : StronglySorted Rle ds -> (i <= j < List.length ds)%nat -> at_ ds i <= at_ ds j.
Proof.
  unfold at_. intro H. revert i j. induction H as [|d ds Hs IH Hf]; intros i j Hij; [cbn in Hij; lia|]. destruct j as [|j]; [replace i with O by lia; lra|]. destruct i as [|i].
  - cbn [nth]. apply (proj1 (Forall_forall _ _) Hf). apply nth_In. cbn in Hij. lia.
  - cbn [nth]. apply IH. cbn in Hij. lia.
Qed.
Lemma within_le r ds : (within r ds <= List.length ds)%nat.
Proof. induction ds as [|d ds IH]; [reflexivity|]. cbn [within List.length]. destruct (Rle_dec d r); lia. Qed.
Lemma within_none r ds : StronglySorted Rle ds -> (forall d, In d ds -> r < d) -> within r ds = O.
Proof. intros _. induction ds as [|d ds IH]; intro H; [reflexivity|]. cbn [within]. destruct (Rle_dec d r) as [C|_]; [specialize (H d (or_introl eq_refl)); lra|]. apply IH. intros; apply H; now right. Qed.
(** the point number i+1 is within the radius iff more than i points are *)
Lemma within_nth r ds i : StronglySorted Rle ds -> (i < List.length ds)%nat -> (at_ ds i <= r <-> (i < within r ds)%nat).
Proof.
  unfold at_. intro H. revert i. induction H as [|d ds Hs IH Hf]; intros i Hi; [cbn in Hi; lia|]. cbn [within]. destruct (Rle_dec d r) as [Hd|Hd].
  - destruct i as [|i]; [cbn [nth]; split; [lia|trivial]|]. cbn [nth]. rewrite IH by (cbn in Hi; lia). lia.
  - rewrite within_none; [|exact Hs|intros x Hx; pose proof (proj1 (Forall_forall _ _) Hf x Hx); lra]. split; [|lia]. destruct i as [|i]; cbn [nth]; [tauto|].
    intro C. assert (d <= nth i ds 0) by (apply (proj1 (Forall_forall _ _) Hf); apply nth_In; cbn in Hi; lia). lra.
Qed.
Lemma shepard_radius_rule ref ds : StronglySorted Rle ds -> List.length ds = 11%nat -> radius_rule 4 10 ref ds (shepard_radius ref ds).
Proof.
  intros Hs L. unfold shepard_radius. change nthR with at_. pose proof (within_nth ref ds 3 Hs ltac:(lia)) as W3. pose proof (within_nth ref ds 9 Hs ltac:(lia)) as W9.
  destruct (gtb (at_ ds 3) ref) eqn:E3; [apply gtb_spec in E3|apply gtb_false in E3; destruct (gtb (at_ ds 9) ref) eqn:E9; [apply gtb_spec in E9|apply gtb_false in E9]].
  - assert (~ (3 < within ref ds)%nat) by (rewrite <- W3; lra). split; [reflexivity|]. split; intro; lia.
  - apply W3 in E3. assert (~ (9 < within ref ds)%nat) by (rewrite <- W9; lra). split; [intro; lia|]. split; [reflexivity|intro; lia].
  - apply W9 in E9. split; [intro; lia|]. split; [intro; lia|reflexivity].
Qed.
Lemma radius_above ref ds : StronglySorted Rle ds -> List.length ds = 11%nat -> at_ ds 0 < at_ ds 3 -> at_ ds 0 < shepard_radius ref ds.
Proof.
  intros Hs L H. unfold shepard_radius. change nthR with at_. destruct (gtb (at_ ds 3) ref) eqn:E3; [|apply gtb_false in E3; destruct (gtb (at_ ds 9) ref); [lra|]].
  - pose proof (sorted_nth ds 3 4 Hs ltac:(lia)). lra.
  - pose proof (sorted_nth ds 3 10 Hs ltac:(lia)). lra.
Qed.

(** ** Shepard's function *)
Definition sh (r d : R) : R := if leb d (r / 3) then / d else if leb d r then 27 / (4 * r) * (d / r - 1) ^ 2 else 0.
Lemma shepard_s_fin r d : 0 < d -> shepard_s r d = XF (sh r d).
Proof. intro H. unfold shepard_s, sh. destruct (leb d (r / 3)); [|destruct (leb d r); reflexivity]. rewrite xdiv_fin by lra. f_equal. unfold Rdiv. ring. Qed.
Lemma sh_fun r d : 0 <= r -> shepard_fun r d (sh r d).
Proof.
  intro Hr. unfold shepard_fun, sh. destruct (leb d (r / 3)) eqn:E1; [apply leb_spec in E1|apply leb_false in E1; destruct (leb d r) eqn:E2; [apply leb_spec in E2|apply leb_false in E2]].
  - split; [reflexivity|]. split; intro; lra.
  - split; [intro; lra|]. split; [reflexivity|intro; lra].
  - split; [intro; lra|]. split; [intro; lra|reflexivity].
Qed.
Lemma sh_nonneg r d : 0 < d -> 0 <= sh r d.
Proof.
  intro H. unfold sh. destruct (leb d (r / 3)) eqn:E1; [left; now apply Rinv_0_lt_compat|]. destruct (leb d r) eqn:E2; [|lra]. apply leb_spec in E2.
  apply Rmult_le_pos; [|apply pow2_ge_0]. apply Rmult_le_pos; [lra|]. left. apply Rinv_0_lt_compat. lra.
Qed.
Lemma sh_pos r d : 0 < d -> d < r -> 0 < sh r d.
Proof.
  intros H Hr. unfold sh. destruct (leb d (r / 3)) eqn:E1; [now apply Rinv_0_lt_compat|]. destruct (leb d r) eqn:E2; [|apply leb_false in E2; lra].
  assert (d / r < 1) by (apply Rmult_lt_reg_r with r; [lra|]; unfold Rdiv; rewrite Rmult_assoc, Rinv_l by lra; lra).
  apply Rmult_lt_0_compat; [|apply pow2_pos; lra]. apply Rmult_lt_0_compat; [lra|]. apply Rinv_0_lt_compat. lra.
Qed.
Lemma sh_zero r d : 0 < r -> r <= d -> sh r d = 0.
Proof.
  intros Hr H. unfold sh. destruct (leb d (r / 3)) eqn:E1; [apply leb_spec in E1; lra|]. destruct (leb d r) eqn:E2; [|reflexivity]. apply leb_spec in E2.
  assert (E : d = r) by lra. rewrite E. unfold Rdiv. rewrite Rinv_r by lra. ring.
Qed.

(** ** normalising *)
Lemma normalised_fin ws : 0 < rsum ws -> normalised (map XF ws) = map XF (map (fun w => w / rsum ws) ws).
Proof. intro H. unfold normalised. rewrite xsum_fin, !map_map. apply map_ext. intro w. apply xdiv_fin. lra. Qed.
Lemma normalised_convex ws : (forall w, In w ws -> 0 <= w) -> 0 < rsum ws -> convex (map (fun w => w / rsum ws) ws).
Proof.
  intros Hw Hs. split.
  - intros w H. apply in_map_iff in H. destruct H as [x [<- Hx]]. apply Rmult_le_pos; [now apply Hw|]. left. now apply Rinv_0_lt_compat.
  - rewrite rsum_div. unfold Rdiv. apply Rinv_r. lra.
Qed.
Lemma normalised_zero k : normalised (repeat (XF 0) k) = repeat XNaN k.
Proof.
  unfold normalised. assert (E : xsum (repeat (XF 0) k) = XF 0).
  { assert (F : forall n, repeat (XF 0) n = map XF (repeat 0 n)) by (induction n as [|n IH]; [reflexivity|cbn [repeat map]; now rewrite IH]). rewrite F, xsum_fin. f_equal. apply rsum_zero. intros x Hx. now apply repeat_spec in Hx. }
  rewrite E. induction k as [|k IH]; [reflexivity|]. assert (E' : xsum (repeat (XF 0) k) = XF 0).
  { assert (F : forall n, repeat (XF 0) n = map XF (repeat 0 n)) by (induction n as [|n IHn]; [reflexivity|cbn [repeat map]; now rewrite IHn]). rewrite F, xsum_fin. f_equal. apply rsum_zero. intros x Hx. now apply repeat_spec in Hx. }
  cbn [repeat map]. rewrite xdiv_0_0. f_equal. apply IH. exact E'.
Qed.
(** the directional weights of a row *)
Lemma dirs_row diffs s : List.length diffs = List.length s -> (2 <= List.length s)%nat -> (forall x, In x s -> 0 <= x) ->
  exists ts, map nan_to_one (dir_loop diffs (map XF s)) = map XF ts /\ List.length ts = List.length s /\
    forall i, (i < List.length s)%nat -> directional diffs s i (at_ ts i) /\ 0 <= at_ ts i <= 2.
Proof.
  intros L Hk Hs. unfold dir_loop. rewrite L, map_map.
  assert (G : forall l, (forall i, In i l -> (i < List.length s)%nat) -> exists ts, map (fun i => nan_to_one (dir_loop_at diffs (map XF s) i)) l = map XF ts /\ List.length ts = List.length l /\
    forall j, (j < List.length l)%nat -> directional diffs s (nth j l O) (at_ ts j) /\ 0 <= at_ ts j <= 2).
  { induction l as [|i l IH]; intro Hl; [exists []; split; [reflexivity|split; [reflexivity|intros j Hj; cbn in Hj; lia]]|].
    destruct IH as [ts [E [Lt F]]]; [intros; apply Hl; now right|]. destruct (dir_at diffs s i L Hk (Hl i (or_introl eq_refl)) Hs) as [t [Et Ht]].
    exists (t :: ts). split; [cbn [map]; now rewrite Et, E|]. split; [cbn; lia|]. intros [|j] Hj; [exact Ht|]. apply F. cbn in Hj. lia. }
  destruct (G (seq 0 (List.length s))) as [ts [E [Lt F]]]; [intros i Hi; apply in_seq in Hi; lia|]. rewrite seq_length in Lt, F. exists ts. split; [exact E|]. split; [exact Lt|].
  intros i Hi. specialize (F i Hi). now rewrite seq_nth in F by exact Hi.
Qed.
Lemma combine_fin a b : List.length a = List.length b -> zipw (fun x y => xmul x (xadd (XF 1) y)) (map XF a) (map XF b) = map XF (zipw (fun x y => x * (1 + y)) a b).
Proof. revert b. induction a as [|x a IH]; intros [|y b] L; try discriminate L; [reflexivity|]. cbn [map zipw]. f_equal. apply IH. now injection L. Qed.
Lemma at_map f l i : (i < List.length l)%nat -> at_ (map f l) i = f (at_ l i).
Proof. intro H. unfold at_. now apply nth_map_in. Qed.
Lemma at_zipw f a b i : (i < List.length a)%nat -> (i < List.length b)%nat -> at_ (zipw f a b) i = f (at_ a i) (at_ b i).
Proof. intros Ha Hb. unfold at_. apply nth_error_nth. apply nth_error_zipw; now apply nth_error_nth'. Qed.
Lemma at_In l i : (i < List.length l)%nat -> In (at_ l i) l. Proof. apply nth_In. Qed.
Lemma In_at l x : In x l -> exists i, (i < List.length l)%nat /\ at_ l i = x. Proof. apply In_nth. Qed.

Theorem shepard_row_ok ref ds diffs : List.length ds = 11%nat -> List.length diffs = 11%nat -> StronglySorted Rle ds -> eps < at_ ds 0 -> at_ ds 0 < shepard_radius ref ds ->
  exists ss ts qs c, shepard_row ref (ds, diffs) = map XF qs /\ List.length ss = 11%nat /\ List.length qs = 11%nat /\ 0 < c /\ convex qs /\
    forall i, (i < 11)%nat -> shepard_fun (shepard_radius ref ds) (at_ ds i) (at_ ss i) /\ directional diffs ss i (at_ ts i) /\ 0 <= at_ ts i <= 2 /\
      at_ qs i = c * (at_ ss i ^ 2 * (1 + at_ ts i)) /\ (shepard_radius ref ds <= at_ ds i -> at_ qs i = 0).
Proof.
  intros L Ld Hs He Hr. set (r := shepard_radius ref ds) in *. set (ss := map (sh r) ds).
  assert (P0 : 0 < eps) by (unfold eps; lra).
  assert (Hpos : forall d, In d ds -> 0 < d). { intros d Hd. apply In_at in Hd. destruct Hd as [i [Hi <-]]. pose proof (sorted_nth ds 0 i Hs ltac:(lia)). lra. }
  assert (Es : map (shepard_s r) ds = map XF ss) by (unfold ss; rewrite map_map; apply map_ext_in; intros d Hd; apply shepard_s_fin; now apply Hpos).
  assert (Lss : List.length ss = 11%nat) by (unfold ss; now rewrite map_length).
  assert (Hss : forall x, In x ss -> 0 <= x) by (intros x Hx; apply in_map_iff in Hx; destruct Hx as [d [<- Hd]]; apply sh_nonneg; now apply Hpos).
  destruct (dirs_row diffs ss ltac:(lia) ltac:(lia) Hss) as [ts [Et [Lt Ht]]].
  set (w := zipw (fun x y => x * (1 + y)) (map (fun x => x * x) ss) ts).
  assert (Lw : List.length w = 11%nat) by (unfold w; rewrite zipw_length, map_length; lia).
  assert (Aw : forall i, (i < 11)%nat -> at_ w i = at_ ss i ^ 2 * (1 + at_ ts i)).
  { intros i Hi. unfold w. rewrite at_zipw by (rewrite ?map_length; lia). rewrite at_map by lia. ring. }
  assert (Hw : forall x, In x w -> 0 <= x). { intros x Hx. apply In_at in Hx. destruct Hx as [i [Hi <-]]. rewrite Aw by lia. destruct (Ht i ltac:(lia)) as [_ B]. apply Rmult_le_pos; [apply pow2_ge_0|lra]. }
  assert (Hw0 : 0 < rsum w).
  { apply (rsum_pos w (at_ w 0) Hw); [apply at_In; lia|]. rewrite Aw by lia. destruct (Ht O ltac:(lia)) as [_ B]. apply Rmult_lt_0_compat; [|lra]. apply pow2_pos. unfold ss. rewrite at_map by lia. apply Rgt_not_eq. apply sh_pos; [|exact Hr]. lra. }
  exists ss, ts, (map (fun x => x / rsum w) w), (/ rsum w).
  assert (E : shepard_row ref (ds, diffs) = map XF (map (fun x => x / rsum w) w)).
  { unfold shepard_row, shepard_weights. cbn [fst snd]. fold r. change nthR with at_. rewrite (proj2 (leb_false _ _) He), Es, Et.
    assert (Ew : map (fun x => xmul x x) (map XF ss) = map XF (map (fun x => x * x) ss)) by (rewrite !map_map; reflexivity). rewrite Ew, combine_fin by (rewrite map_length; lia). fold w. now apply normalised_fin. }
  split; [exact E|]. split; [exact Lss|]. split; [now rewrite map_length|]. split; [now apply Rinv_0_lt_compat|]. split; [now apply normalised_convex|].
  intros i Hi. destruct (Ht i ltac:(lia)) as [H1 H2].
  assert (Hr0 : 0 < r) by lra.
  split; [unfold ss; rewrite at_map by lia; apply sh_fun; lra|]. split; [exact H1|]. split; [exact H2|].
  rewrite at_map by lia. rewrite Aw by exact Hi. split; [unfold Rdiv; ring|]. intro Hd. unfold ss. rewrite at_map by lia. rewrite sh_zero by assumption. unfold Rdiv. ring.
Qed.
(** all neighbours at the distance of the radius or beyond *)
Theorem shepard_row_nan ref ds diffs : List.length ds = 11%nat -> List.length diffs = 11%nat -> StronglySorted Rle ds -> eps < at_ ds 0 -> at_ ds 0 = shepard_radius ref ds ->
  shepard_row ref (ds, diffs) = repeat XNaN 11.
Proof.
  intros L Ld Hs He Hr. set (r := shepard_radius ref ds) in *. assert (P0 : 0 < eps) by (unfold eps; lra).
  assert (Hall : forall d, In d ds -> r <= d). { intros d Hd. apply In_at in Hd. destruct Hd as [i [Hi <-]]. pose proof (sorted_nth ds 0 i Hs ltac:(lia)). lra. }
  assert (Hr0 : 0 < r) by lra.
  assert (Es : map (shepard_s r) ds = map XF (repeat 0 11)).
  { rewrite <- L. clearbody r. clear - Hall Hr0. induction ds as [|d ds IH]; [reflexivity|]. cbn [map List.length repeat]. f_equal; [|apply IH; intros; apply Hall; now right].
    assert (r <= d) by (apply Hall; now left). rewrite shepard_s_fin by lra. now rewrite sh_zero. }
  destruct (dirs_row diffs (repeat 0 11) ltac:(rewrite repeat_length; lia) ltac:(rewrite repeat_length; lia)) as [ts [Et [Lt Ht]]]; [intros x Hx; apply repeat_spec in Hx; lra|].
  rewrite repeat_length in Lt. unfold shepard_row, shepard_weights. cbn [fst snd]. fold r. change nthR with at_. rewrite (proj2 (leb_false _ _) He), Es, Et.
  assert (Ew : map (fun x => xmul x x) (map XF (repeat 0 11)) = map XF (repeat 0 11)) by (cbn; now rewrite Rmult_0_l). rewrite Ew, combine_fin by (rewrite repeat_length; lia).
  do 11 (destruct ts as [|? ts]; [discriminate Lt|]). cbn [repeat zipw map]. rewrite !Rmult_0_l. exact (normalised_zero 11).
Qed.
Lemma shepard_row_coincident ref ds diffs : at_ ds 0 <= eps -> shepard_row ref (ds, diffs) = one_hot (List.length ds).
Proof. intro H. unfold shepard_row, shepard_weights. cbn [fst snd]. change nthR with at_. now rewrite (proj2 (leb_spec _ _) H). Qed.

(** ** exhaustive search over the reals *)
Lemma insert_r_perm f i l : Permutation (insert_r f i l) (i :: l).
Proof. induction l as [|j l IH]; cbn [insert_r]; [reflexivity|]. destruct (Rlt_dec _ _); [|reflexivity]. rewrite IH. apply perm_swap. Qed.
Lemma sort_r_perm f l : Permutation (sort_r f l) l.
Proof. induction l as [|i l IH]; cbn [sort_r fold_right]; [reflexivity|]. rewrite insert_r_perm. now constructor. Qed.
Lemma insert_r_sorted f i l : StronglySorted (fun a b => f a <= f b) l -> StronglySorted (fun a b => f a <= f b) (insert_r f i l).
Proof.
  induction 1 as [|j l Hs IH Hf]; cbn [insert_r]; [repeat constructor|]. destruct (Rlt_dec (f j) (f i)) as [E|E].
  - constructor; [exact IH|]. apply Forall_forall. intros x Hx. apply (Permutation_in _ (insert_r_perm f i l)) in Hx. destruct Hx as [<-|Hx]; [lra|]. now apply (proj1 (Forall_forall _ _) Hf).
  - constructor; [now constructor|]. constructor; [lra|]. apply Forall_forall. intros x Hx. pose proof (proj1 (Forall_forall _ _) Hf x Hx). cbn beta in *. lra.
Qed.
Lemma sort_r_sorted f l : StronglySorted (fun a b => f a <= f b) (sort_r f l).
Proof. induction l as [|i l IH]; cbn [sort_r fold_right]; [constructor|]. now apply insert_r_sorted. Qed.
Lemma exhaustiveR_kdtree {Loc} (dist : Loc -> nat -> R) n : kdtreeR dist n (exhaustiveR dist n).
Proof.
  intros k p Hk. set (l := sort_r (dist p) (seq 0 n)). pose proof (sort_r_perm (dist p) (seq 0 n)) as P. fold l in P.
  exists (firstn k l). split; [|reflexivity]. split; [rewrite firstn_length; apply Permutation_length in P; rewrite seq_length in P; lia|].
  split; [|split; [|split]].
  - assert (N : NoDup l) by (apply (Permutation_NoDup (Permutation_sym P)); apply seq_NoDup). rewrite <- (firstn_skipn k l) in N. clear - N. induction (firstn k l) as [|a r IH]; [constructor|]. cbn [app] in N. inversion N; subst. constructor; [|now apply IH]. intro C. apply H1. apply in_or_app. now left.
  - intros i Hi. assert (In i l) by (rewrite <- (firstn_skipn k l); apply in_or_app; now left). apply (Permutation_in _ P) in H. apply in_seq in H. lia.
  - apply ss_firstn. apply sort_r_sorted.
  - intros i j Hi Hj Hn. apply (ss_split (fun a b => dist p a <= dist p b) k l i j); [apply sort_r_sorted|exact Hi|].
    assert (In j l) by (apply (Permutation_in _ (Permutation_sym P)); apply in_seq; lia). rewrite <- (firstn_skipn k l) in H. apply in_app_or in H. tauto.
Qed.
(** the i-th closest distance does not depend on how many points are asked *)
Lemma closest_nth_le {Loc} (dist : Loc -> nat -> R) n k k' p l l' i : closestR dist n k p l -> closestR dist n k' p l' -> (i < k)%nat -> (i < k')%nat ->
  dist p (nth i l O) <= dist p (nth i l' O).
Proof.
  intros [L [N [B [HS HO]]]] [L' [N' [B' [HS' HO']]]] Hi Hi'. apply Rnot_lt_le. intro C.
  assert (M : forall l x j, StronglySorted (fun i j => dist p i <= dist p j) l -> (j < List.length l)%nat -> In x (skipn j l) -> dist p (nth j l 0%nat) <= dist p x).
  { clear. intros l x j H. revert j. induction H as [|a l Hs IH Hf]; intros j Hj Hx; [cbn in Hj; lia|]. destruct j as [|j]; cbn [skipn nth] in *.
    - destruct Hx as [<-|Hx]; [lra|]. now apply (proj1 (Forall_forall _ _) Hf).
    - apply IH; [cbn in Hj; lia|exact Hx]. }
  assert (Incl : incl (firstn (S i) l') (firstn i l)).
  { intros x Hx.
    assert (Hd : dist p x <= dist p (nth i l' O)).
    { apply (In_nth _ _ 0%nat) in Hx. destruct Hx as [j [Hj <-]]. rewrite firstn_length in Hj. rewrite <- (firstn_skipn (S i) l') at 2. rewrite app_nth1 by (rewrite firstn_length; lia).
      destruct (Nat.eq_dec j i) as [->|Hne]; [lra|]. apply (ss_split (fun a b => dist p a <= dist p b) (S j) (firstn (S i) l')); [now apply ss_firstn| |].
      - rewrite <- (firstn_skipn (S j) (firstn (S i) l')) at 1. rewrite app_nth1 by (rewrite !firstn_length; lia). apply nth_In. rewrite !firstn_length. lia.
      - rewrite <- (firstn_skipn (S j) (firstn (S i) l')) at 1. rewrite app_nth2 by (rewrite !firstn_length; lia). apply nth_In. rewrite skipn_length, !firstn_length. lia. }
    assert (Hxn : (x < n)%nat) by (apply B'; rewrite <- (firstn_skipn (S i) l'); apply in_or_app; now left).
    destruct (in_dec Nat.eq_dec x (firstn i l)) as [Y|Y]; [exact Y|exfalso].
    destruct (in_dec Nat.eq_dec x l) as [Z|Z].
    - rewrite <- (firstn_skipn i l) in Z. apply in_app_or in Z. destruct Z as [Z|Z]; [contradiction|]. pose proof (M l x i HS ltac:(lia) Z). lra.
    - assert (Hin : In (nth i l 0%nat) l) by (apply nth_In; lia). pose proof (HO (nth i l 0%nat) x Hin Hxn Z). lra. }
  apply NoDup_incl_length in Incl.
  - rewrite !firstn_length in Incl. lia.
  - clear - N'. rewrite <- (firstn_skipn (S i) l') in N'. induction (firstn (S i) l') as [|a r IH]; [constructor|]. cbn [app] in N'. inversion N'; subst. constructor; [|now apply IH]. intro D. apply H1. apply in_or_app. now left.
Qed.
Lemma kdtreeR_nth {Loc} (dist : Loc -> nat -> R) n tree k k' p i : kdtreeR dist n tree -> (k <= n)%nat -> (k' <= n)%nat -> (i < k)%nat -> (i < k')%nat ->
  nthR (map fst (tree k p)) i = nthR (map fst (tree k' p)) i.
Proof.
  intros K Hk Hk' Hi Hi'. destruct (K k p Hk) as [l [C E]]. destruct (K k' p Hk') as [l' [C' E']]. unfold nthR. rewrite E, E', !map_map. cbn [fst].
  rewrite !(nth_map_in (dist p) _ i O) by (destruct C as [L _], C' as [L' _]; lia).
  apply Rle_antisym; [apply (closest_nth_le dist n k k' p)|apply (closest_nth_le dist n k' k p)]; assumption.
Qed.
