(** * Props_Cdd: C52, C68, C69, and C48 for the modes adw and cdd *)
From Verif Require Import Base Num Strings Scipy Xr Adw Spec_Adw Base_P Num_P GribInterp_P Scipy_P Props_Scipy Adw_P Adw_P2 Adw_P3 Adw_P4 Adw_P5 Props_Adw.
From Coq Require Import Sorting.Sorted Sorting.Permutation.
Local Open Scope R_scope.

(** ** C52: correlation distance decay *)
(** for all cells with enough neighbours within the cut-off, in each mode *)
Definition C52_full : Prop :=
  (forall cdd ds diffs, cell11 ds diffs -> 0 < cdd -> at_ ds 2 <= cdd -> usable (cdd_row (hofstra_s cdd ds) diffs)) /\
  (forall cdd m ratio minst ds diffs, cell11 ds diffs -> 0 < cdd -> 0 <= m -> 0 < ratio < 1 -> (1 <= minst <= 10)%nat -> 0 < at_ ds 0 -> usable (cdd_row (mix_s cdd 11 minst m ratio ds) diffs)) /\
  (forall cdds ds diffs, cell11 ds diffs -> List.length cdds = 11%nat -> (forall c, In c cdds -> 0 < c) -> at_ ds 0 <= at_ cdds 0 -> usable (cdd_row (newetal_s cdds ds) diffs)).
(** the decays: not negative, decreasing, zero beyond the cut-off *)
Theorem C52_decay : forall cdd d d' s s', 0 < cdd -> decay cdd d s -> decay cdd d' s' -> d < d' ->
  0 <= s /\ (d <= cdd -> 0 < s /\ s' < s) /\ (cdd < d -> s = 0).
Proof.
  intros cdd d d' s s' Hc D D' Hd.
  assert (U : forall x t, decay cdd x t -> t = decayR cdd x).
  { intros x t [A B]. destruct (decayR_spec cdd x) as [A' B']. destruct (Rle_lt_dec x cdd) as [H|H]; [rewrite (A H), (A' H)|rewrite (B H), (B' H)]; reflexivity. }
  rewrite (U d s D), (U d' s' D'). split; [apply decayR_nonneg|]. split; [intro H; split; [now apply decayR_pos|now apply decayR_decreasing]|]. intro H. now apply decayR_spec.
Qed.
Print Assumptions C52_decay.
Theorem C52_mix_decay : forall m ratio r d d' s s', 0 < r -> 0 <= ratio < 1 -> 0 <= m -> 0 <= d <= d' -> mix_decay m ratio r d s -> mix_decay m ratio r d' s' ->
  0 <= s' <= s /\ (d < r -> 0 < s) /\ (r <= d -> s = 0).
Proof.
  intros m ratio r d d' s s' Hr Ht Hm Hd D D'.
  assert (U : forall x t, mix_decay m ratio r x t -> t = mix_s_at m ratio r x).
  { intros x t [A [B C]]. destruct (mix_s_at_spec m ratio r x ltac:(lra) ltac:(lra) Hr) as [A' [B' C']].
    destruct (Rle_lt_dec x (ratio * r)) as [H|H]; [rewrite (A H), (A' H); reflexivity|]. destruct (Rle_lt_dec x r) as [H'|H']; [rewrite (B (conj H H')), (B' (conj H H')); reflexivity|rewrite (C H'), (C' H'); reflexivity]. }
  rewrite (U d s D), (U d' s' D'). split; [split; [apply mix_s_at_nonneg|now apply mix_s_at_decreasing]|]. split; [intro; apply mix_s_at_pos; lra|intro; apply mix_s_at_zero; lra].
Qed.
Print Assumptions C52_mix_decay.
(** weights of a cell from a distance function [f] *)
Definition cell_weights (row : list xr) (ds : list R) (diffs : list (R * R)) (f : nat -> R -> R -> Prop) : Prop :=
  exists ss ts qs c, row = map XF qs /\ List.length qs = 11%nat /\ 0 < c /\ convex qs /\ List.length ts = 11%nat /\
    forall i, (i < 11)%nat -> f i (at_ ds i) (at_ ss i) /\ directional diffs ss i (at_ ts i) /\ 0 <= at_ ts i <= 2 /\
      at_ qs i = c * (at_ ss i * (1 + at_ ts i / rsum ts)) /\ (at_ ss i = 0 -> at_ qs i = 0).
Lemma weights_of ss ds diffs (f : nat -> R -> R -> Prop) : List.length diffs = 11%nat -> List.length ss = 11%nat -> (forall x, In x ss -> 0 <= x) -> (exists x, In x ss /\ 0 < x) -> spread diffs ss ->
  (forall i, (i < 11)%nat -> f i (at_ ds i) (at_ ss i)) -> cell_weights (cdd_row (map XF ss) diffs) ds diffs f.
Proof.
  intros Ld Ls Hn Hp Sp Hf. destruct (cdd_row_ok ss diffs ltac:(lia) ltac:(lia) Hn Hp Sp) as [ts [qs [c [E [Lq [Hc [_ [Lt [Hconv H]]]]]]]]].
  exists ss, ts, qs, c. split; [exact E|]. split; [lia|]. split; [exact Hc|]. split; [exact Hconv|]. split; [lia|]. intros i Hi. destruct (H i ltac:(lia)) as [D [B Eq]].
  split; [now apply Hf|]. split; [exact D|]. split; [exact B|]. split; [exact Eq|]. intro Z. rewrite Eq, Z. ring.
Qed.
(** Hofstra: the third neighbour is within the cdd *)
Theorem C52_hofstra_partial : forall cdd ds diffs ss, cell11 ds diffs -> 0 < cdd -> at_ ds 2 <= cdd ->
  List.length ss = 11%nat -> (forall i, (i < 11)%nat -> decay cdd (at_ ds i) (at_ ss i)) -> spread diffs ss ->
  cell_weights (cdd_row (hofstra_s cdd ds) diffs) ds diffs (fun _ => decay cdd).
Proof.
  intros cdd ds diffs ss [L [Ld [Hs H0]]] Hc H2 Ls Hss Sp. rewrite hofstra_s_near by exact H2.
  assert (E : ss = map (decayR cdd) ds).
  { apply nth_ext with 0 0; [rewrite map_length; lia|]. intros i Hi. change (at_ ss i = at_ (map (decayR cdd) ds) i). rewrite at_map by lia. destruct (Hss i ltac:(lia)) as [A B]. destruct (decayR_spec cdd (at_ ds i)) as [A' B'].
    destruct (Rle_lt_dec (at_ ds i) cdd) as [H|H]; [rewrite (A H), (A' H)|rewrite (B H), (B' H)]; reflexivity. }
  rewrite <- E. apply weights_of; try assumption.
  - rewrite E. intros x Hx. apply in_map_iff in Hx. destruct Hx as [d [<- _]]. apply decayR_nonneg.
  - exists (at_ ss 0). split; [apply at_In; lia|]. rewrite E, at_map by lia. apply decayR_pos. pose proof (sorted_nth ds 0 2 Hs ltac:(lia)). lra.
Qed.
Print Assumptions C52_hofstra_partial.
(** otherwise no weight is a number *)
Theorem C52_hofstra_missing : forall cdd ds diffs, cell11 ds diffs -> cdd < at_ ds 2 -> cdd_row (hofstra_s cdd ds) diffs = repeat XNaN 11.
Proof.
  intros cdd ds diffs [L [Ld _]] H. rewrite hofstra_s_far by exact H. rewrite L. rewrite cdd_row_none; rewrite ?repeat_length; try lia; [reflexivity|]. intros x Hx. now apply repeat_spec in Hx.
Qed.
Print Assumptions C52_hofstra_missing.
(** the mixed method *)
Theorem C52_mix_partial : forall cdd m ratio minst ds diffs r ss, cell11 ds diffs -> 0 < cdd -> 0 <= m -> 0 < ratio < 1 -> (1 <= minst <= 10)%nat -> at_ ds 0 < at_ ds (minst - 1) ->
  mix_radius_rule minst 10 minst 11 cdd ds r -> List.length ss = 11%nat -> (forall i, (i < 11)%nat -> mix_decay m ratio r (at_ ds i) (at_ ss i)) -> spread diffs ss ->
  cell_weights (cdd_row (mix_s cdd 11 minst m ratio ds) diffs) ds diffs (fun _ => mix_decay m ratio r).
Proof.
  intros cdd m ratio minst ds diffs r ss [L [Ld [Hs H0]]] Hc Hm Ht Hk Hd Hr Ls Hss Sp.
  pose proof (mix_radius_above cdd minst ds Hs L Hk Hd) as Ha. pose proof (mix_radius_spec cdd minst ds Hs L Hk) as Hr'.
  assert (Er : r = mix_radius cdd 11 minst ds).
  { destruct Hr as [A [B C]], Hr' as [A' [B' C']]. destruct (Nat.lt_ge_cases (within cdd ds) minst) as [W|W]; [rewrite (A W), (A' W); reflexivity|].
    destruct (Nat.lt_ge_cases (within cdd ds) 10) as [W'|W']; [rewrite (B (conj W W')), (B' (conj W W')); reflexivity|rewrite (C W'), (C' W'); reflexivity]. }
  rewrite <- Er in Ha. assert (Rp : 0 < r) by lra.
  assert (E : ss = map (mix_s_at m ratio r) ds).
  { apply nth_ext with 0 0; [rewrite map_length; lia|]. intros i Hi. change (at_ ss i = at_ (map (mix_s_at m ratio r) ds) i). rewrite at_map by lia. destruct (Hss i ltac:(lia)) as [A [B C]]. destruct (mix_s_at_spec m ratio r (at_ ds i) ltac:(lra) ltac:(lra) Rp) as [A' [B' C']].
    destruct (Rle_lt_dec (at_ ds i) (ratio * r)) as [H|H]; [rewrite (A H), (A' H); reflexivity|]. destruct (Rle_lt_dec (at_ ds i) r) as [H'|H']; [rewrite (B (conj H H')), (B' (conj H H')); reflexivity|rewrite (C H'), (C' H'); reflexivity]. }
  replace (mix_s cdd 11 minst m ratio ds) with (map XF ss) by (rewrite E, map_map; unfold mix_s; rewrite <- Er; reflexivity).
  apply weights_of; try assumption.
  - rewrite E. intros x Hx. apply in_map_iff in Hx. destruct Hx as [d [<- _]]. apply mix_s_at_nonneg.
  - exists (at_ ss 0). split; [apply at_In; lia|]. rewrite E, at_map by lia. apply mix_s_at_pos; lra.
Qed.
Print Assumptions C52_mix_partial.
(** New et al.: every station with its own cdd *)
Theorem C52_newetal_partial : forall cdds ds diffs ss, cell11 ds diffs -> List.length cdds = 11%nat -> (forall c, In c cdds -> 0 < c) -> at_ ds 0 <= at_ cdds 0 ->
  List.length ss = 11%nat -> (forall i, (i < 11)%nat -> decay (at_ cdds i) (at_ ds i) (at_ ss i)) -> spread diffs ss ->
  cell_weights (cdd_row (newetal_s cdds ds) diffs) ds diffs (fun i => decay (at_ cdds i)).
Proof.
  intros cdds ds diffs ss [L [Ld [Hs H0]]] Lc Hc Hd Ls Hss Sp. rewrite newetal_s_fin.
  assert (E : ss = zipw decayR cdds ds).
  { apply nth_ext with 0 0; [rewrite zipw_length; lia|]. intros i Hi. change (at_ ss i = at_ (zipw decayR cdds ds) i). rewrite at_zipw by lia. destruct (Hss i ltac:(lia)) as [A B]. destruct (decayR_spec (at_ cdds i) (at_ ds i)) as [A' B'].
    destruct (Rle_lt_dec (at_ ds i) (at_ cdds i)) as [H|H]; [rewrite (A H), (A' H)|rewrite (B H), (B' H)]; reflexivity. }
  rewrite <- E. apply weights_of; try assumption.
  - rewrite E. intros x Hx. apply In_zipw in Hx. destruct Hx as [c [d [_ [_ ->]]]]. apply decayR_nonneg.
  - exists (at_ ss 0). split; [apply at_In; lia|]. rewrite E, at_zipw by lia. now apply decayR_pos.
Qed.
Print Assumptions C52_newetal_partial.
(** all the neighbours seen in one direction: no weight is a number *)
Lemma len_10 : len (1, 0) = 1. Proof. unfold len. cbn [fst snd]. replace (1 ^ 2 + 0 ^ 2) with 1 by ring. apply sqrt_1. Qed.
Theorem C52_same_direction : forall s diffs, List.length s = 11%nat -> List.length diffs = 11%nat -> (forall x, In x s -> 0 <= x) ->
  (exists i j, (i < 11)%nat /\ (j < 11)%nat /\ i <> j /\ 0 < at_ s i /\ 0 < at_ s j) -> (forall i, (i < 11)%nat -> 0 < len (nth i diffs (0, 0))) ->
  (forall i j, (i < 11)%nat -> (j < 11)%nat -> cosine (nth i diffs (0, 0)) (nth j diffs (0, 0)) = 1) -> cdd_row (map XF s) diffs = repeat XNaN 11.
Proof. intros s diffs L Ld Hs He Hl Hc. pose proof (cdd_row_same_direction s diffs ltac:(lia) Hs) as H. rewrite L in H. now apply H. Qed.
Print Assumptions C52_same_direction.
Theorem C52_refuted : ~ C52_full.
Proof.
  intros [H _]. destruct (H 1 (repeat 1 11) (repeat (1, 0) 11) same_cell11 ltac:(lra) ltac:(cbn; lra)) as [qs [E _]].
  rewrite hofstra_s_near in E by (cbn; lra). rewrite C52_same_direction in E.
  - destruct qs; discriminate E.
  - reflexivity.
  - reflexivity.
  - intros x Hx. apply in_map_iff in Hx. destruct Hx as [d [<- _]]. apply decayR_nonneg.
  - exists 0%nat, 1%nat. split; [lia|]. split; [lia|]. split; [lia|]. split; apply decayR_pos; lra.
  - intros i Hi. rewrite (nth_indep _ (0, 0) (1, 0)) by (rewrite repeat_length; exact Hi). rewrite nth_repeat, len_10. lra.
  - intros i j Hi Hj. rewrite !(nth_indep _ (0, 0) (1, 0)) by (rewrite repeat_length; assumption). rewrite !nth_repeat. unfold cosine. rewrite len_10. cbn [fst snd]. field.
Qed.
Print Assumptions C52_refuted.
Example C52_nonvacuous : cell11 ex_ds ex_diffs /\ at_ ex_ds 2 <= 5 /\ at_ ex_ds 0 < at_ ex_ds 3 /\
  spread ex_diffs (map (decayR 5) ex_ds) /\ (forall i, (i < 11)%nat -> decay 5 (at_ ex_ds i) (at_ (map (decayR 5) ex_ds) i)) /\ ~ spread (repeat (1, 0) 11) (repeat 1 11).
Proof.
  split; [exact ex_cell11|]. split; [cbn; lra|]. split; [cbn; lra|].
  assert (Lp : forall a, (0 < fst a \/ 0 < snd a) -> 0 < len a) by (intros [x y] H; unfold len; cbn [fst snd] in *; apply sqrt_lt_R0; destruct H; pose proof (pow2_ge_0 x); pose proof (pow2_ge_0 y); [pose proof (pow2_pos x ltac:(lra))|pose proof (pow2_pos y ltac:(lra))]; lra).
  split; [|split].
  - left. exists 0%nat, 1%nat. split; [cbn; lia|]. split; [cbn; lia|]. split; [lia|]. split; [rewrite at_map by (cbn; lia); apply decayR_pos; cbn; lra|]. split.
    + intros l Hl. cbn in Hl. do 11 (destruct l as [|l]; [apply Lp; cbn; lra|]). lia.
    + unfold cosine. cbn [nth ex_diffs fst snd]. replace ((1 * 0 + 0 * 2) / (len (1, 0) * len (0, 2))) with 0 by (unfold Rdiv; ring). lra.
  - intros i Hi. rewrite at_map by exact Hi. apply decayR_spec.
  - intros [[i [j [Hi [Hj [_ [_ [_ C]]]]]]]|[[j [Hj C]]|[i [Hi C]]]].
    + rewrite !(nth_indep _ (0, 0) (1, 0)) in C by assumption. rewrite !nth_repeat in C. unfold cosine in C. rewrite len_10 in C. cbn [fst snd] in C. lra.
    + rewrite (nth_indep _ (0, 0) (1, 0)) in C by exact Hj. rewrite nth_repeat, len_10 in C. lra.
    + assert (H : at_ (repeat 1 11) (if Nat.eqb i 0 then 1%nat else 0%nat) = 0) by (apply C; destruct (Nat.eqb_spec i 0); cbn; lia). destruct (Nat.eqb i 0); cbn in H; lra.
Qed.

(** ** C69: only the ten largest weights *)
Definition C69_full : Prop := forall part s, argpartition10 part -> List.length s = 11%nat -> (forall x, In x s -> 0 <= x) ->
  exists out, only_top10 part (map XF s) = map XF out /\ ten_largest s out.
(** what holds for any order numpy may return: exactly one station is dropped,
    and never the only largest *)
Theorem C69_one_dropped : forall part s, argpartition10 part -> List.length s = 11%nat ->
  exists out i j, only_top10 part (map XF s) = map XF out /\ List.length out = 11%nat /\ (i < 11)%nat /\ (j < 11)%nat /\ j <> i /\ at_ s i <= at_ s j /\ at_ out i = 0 /\ forall l, (l < 11)%nat -> l <> i -> at_ out l = at_ s l.
Proof.
  intros part s H L. destruct (only_top10_fin part s H L) as [i [Hi [_ [E [j [Hj [Hn Hle]]]]]]]. eexists. exists i, j. split; [exact E|]. split; [reflexivity|]. split; [exact Hi|]. split; [exact Hj|]. split; [exact Hn|]. split; [exact Hle|].
  assert (A : forall l, (l < 11)%nat -> at_ (map (fun j => if Nat.eqb j i then 0 else at_ s j) (seq 0 11)) l = if Nat.eqb l i then 0 else at_ s l).
  { intros l Hl. unfold at_ at 1. rewrite (nth_map_in _ (seq 0 11) l O) by (rewrite seq_length; lia). now rewrite seq_nth by lia. }
  split; [rewrite A by lia; now rewrite Nat.eqb_refl|]. intros l Hl Hln. rewrite A by lia. destruct (Nat.eqb_spec l i); [contradiction|reflexivity].
Qed.
Print Assumptions C69_one_dropped.
(** with the selection of numpy, and the nearest station strictly ahead: right *)
Theorem C69_partial : forall s, List.length s = 11%nat -> (forall i j, (i <= j < 11)%nat -> at_ s j <= at_ s i) -> at_ s 1 < at_ s 0 ->
  exists out, only_top10 numpy_part (map XF s) = map XF out /\ ten_largest s out.
Proof.
  intros s L Hdec H01. destruct (only_top10_fin numpy_part s numpy_part_ok L) as [i [Hi [E0 [E _]]]]. eexists. split; [exact E|].
  assert (M : last_max s = O).
  { destruct (last_max_spec s) as [Hm Hmax]; [intro C; rewrite C in L; discriminate L|]. destruct (Nat.eq_dec (last_max s) 0) as [Z|Z]; [exact Z|]. exfalso. specialize (Hmax O ltac:(lia)). specialize (Hdec 1%nat (last_max s) ltac:(lia)). lra. }
  unfold numpy_part in E0. rewrite map_map in E0. cbn [real_of] in E0. rewrite map_id, map_length, L, M in E0. cbn [seq map nth_error Nat.eqb] in E0. assert (Ei : i = 10%nat) by congruence.
  exists 10%nat. split; [lia|]. split; [intros j Hj; apply Hdec; lia|]. split; [reflexivity|]. rewrite Ei.
  assert (A : forall l, (l < 11)%nat -> at_ (map (fun j => if Nat.eqb j 10 then 0 else at_ s j) (seq 0 11)) l = if Nat.eqb l 10 then 0 else at_ s l).
  { intros l Hl. unfold at_ at 1. rewrite (nth_map_in _ (seq 0 11) l O) by (rewrite seq_length; lia). now rewrite seq_nth by lia. }
  split; [rewrite A by lia; reflexivity|]. intros l Hl Hln. rewrite A by lia. destruct (Nat.eqb_spec l 10); [contradiction|reflexivity].
Qed.
Print Assumptions C69_partial.
(** two stations at the same smallest distance: the first of them is dropped,
    with its largest weight *)
Theorem C69_refuted : ~ C69_full /\ exists s, List.length s = 11%nat /\ (forall i j, (i <= j < 11)%nat -> at_ s j <= at_ s i) /\ at_ s 10 < at_ s 0 /\
  exists out, only_top10 numpy_part (map XF s) = map XF out /\ at_ out 0 = 0 /\ at_ out 10 = at_ s 10.
Proof.
  set (s := [2; 2; 1; 1; 1; 1; 1; 1; 1; 1; 1]).
  assert (M : last_max s = 1%nat). { unfold s. cbn [last_max last_max_from]. repeat (destruct (Rlt_dec _ _); try lra). reflexivity. }
  assert (E : only_top10 numpy_part (map XF s) = map XF [0; 2; 1; 1; 1; 1; 1; 1; 1; 1; 1]).
  { unfold only_top10, numpy_part. rewrite map_map. cbn [real_of]. rewrite map_id, M. reflexivity. }
  split.
  - intro H. destruct (H numpy_part s numpy_part_ok eq_refl) as [out [E' [i [Hi [Hmin [_ [Hz Hk]]]]]]]; [intros x Hx; unfold s in Hx; cbn [In] in Hx; repeat (destruct Hx as [<-|Hx]; [lra|]); destruct Hx|].
    rewrite E in E'. assert (Eo : out = [0; 2; 1; 1; 1; 1; 1; 1; 1; 1; 1]).
    { clear - E'. revert E'. generalize [0; 2; 1; 1; 1; 1; 1; 1; 1; 1; 1] as l. induction out as [|o out IH]; intros [|x l] E'; [reflexivity|discriminate E'..|]. injection E' as E1 E2. subst. f_equal. now apply IH. }
    destruct (Nat.eq_dec i 0) as [->|N].
    + specialize (Hmin 10%nat ltac:(lia)). cbn in Hmin. lra.
    + specialize (Hk 0%nat ltac:(lia) ltac:(congruence)). rewrite Eo in Hk. cbn in Hk. lra.
  - exists s. split; [reflexivity|]. split; [|split; [unfold s; cbn; lra|]].
    + intros i j Hij. do 11 (destruct i as [|i]; [do 11 (destruct j as [|j]; [first [lia|unfold s; cbn; lra]|]); lia|]). lia.
    + eexists. split; [exact E|]. split; reflexivity.
Qed.
Print Assumptions C69_refuted.
Example C69_nonvacuous : argpartition10 numpy_part /\ List.length (map (decayR 20) ex_ds) = 11%nat /\ at_ (map (decayR 20) ex_ds) 1 < at_ (map (decayR 20) ex_ds) 0.
Proof. split; [exact numpy_part_ok|]. split; [reflexivity|]. rewrite !at_map by (cbn; lia). apply decayR_decreasing; cbn; lra. Qed.

(** ** C68: the parameters of the mixed method *)
Local Open Scope string_scope. Local Open Scope R_scope.
(** the parameters are those the command file gives under their names *)
Definition option_of (d : list (string * optval)) (key : string) (o : optval) : Prop := In (key, o) d.
Definition read_as (d : list (string * optval)) (o : mix_options) : Prop :=
  exists m k q w, option_of d "m_const" m /\ option_of d "min_num_of_station" (OInt k) /\ option_of d "radius_ratio" q /\ option_of d "weights_mode" (OStr w) /\
    opt_real m = Ok (o_m o) /\ Z.of_nat (o_min o) = k /\ opt_real q = Ok (o_ratio o) /\ o_weights o = OStr w.
Definition four_options (d : list (string * optval)) (a : Z) (k : Z) (q : R) (w : string) : Prop :=
  Permutation d [("m_const", OInt a); ("min_num_of_station", OInt k); ("radius_ratio", OFlt q); ("weights_mode", OStr w)].
Definition C68_full : Prop := forall d a k q w, four_options d a k q w -> (1 <= k <= 10)%Z -> exists o, read_options (Some d) = Ok o /\ read_as d o.
Theorem C68_partial : forall a k q w, (1 <= k <= 10)%Z ->
  let d := [("m_const", OInt a); ("min_num_of_station", OInt k); ("radius_ratio", OFlt q); ("weights_mode", OStr w)] in
  exists o, read_options (Some d) = Ok o /\ read_as d o /\ o = mkMix (IZR a) (Z.to_nat k) q (OStr w).
Proof.
  intros a k q w Hk d. exists (mkMix (IZR a) (Z.to_nat k) q (OStr w)). split; [|split; [|reflexivity]].
  - unfold read_options, d. cbn [map snd opt_real opt_index rbind]. destruct (Z.ltb_spec k 1); [lia|]. destruct (Z.leb_spec k 10); [reflexivity|lia].
  - exists (OInt a), k, (OFlt q), w. unfold option_of, d. cbn [In o_m o_min o_ratio o_weights opt_real]. rewrite Z2Nat.id by lia. tauto.
Qed.
Print Assumptions C68_partial.
(** another order of the same options: other parameters, without an error *)
Theorem C68_refuted : ~ C68_full /\ exists d, four_options d 2 5 (1 / 3) "All" /\ read_options (Some d) = Ok (mkMix 5 2 (1 / 3) (OStr "All")).
Proof.
  set (d := [("min_num_of_station", OInt 5); ("m_const", OInt 2); ("radius_ratio", OFlt (1 / 3)); ("weights_mode", OStr "All")]).
  assert (P : four_options d 2 5 (1 / 3) "All") by apply perm_swap.
  assert (E : read_options (Some d) = Ok (mkMix 5 2 (1 / 3) (OStr "All"))) by reflexivity.
  split; [|now exists d]. intro H. destruct (H d 2%Z 5%Z (1 / 3) "All" P ltac:(lia)) as [o [E' [m [k [q [w [_ [Hk [_ [_ [_ [Ek _]]]]]]]]]]]].
  rewrite E in E'. assert (Eo : o = mkMix 5 2 (1 / 3) (OStr "All")) by congruence. rewrite Eo in Ek. cbn [o_min] in Ek. unfold option_of, d in Hk. cbn [In] in Hk.
  destruct Hk as [C|[C|[C|[C|[]]]]]; try discriminate C. assert (k = 5%Z) by congruence. lia.
Qed.
Print Assumptions C68_refuted.
(** fewer or more than four options *)
Theorem C68_number_of_options : forall d, List.length d <> 4%nat -> read_options (Some d) = Raise ValueError.
Proof. intros d H. unfold read_options. destruct d as [|a [|b [|c [|e [|f d]]]]]; cbn in H; try reflexivity. congruence. Qed.
Print Assumptions C68_number_of_options.
(** exactly which option lists are accepted, whatever the names: a number, a whole
    number from 1 to 10, a number and anything, in this order; a text in the place
    of a number is refused with TypeError and never read as a value *)
Definition number (v : optval) (r : R) : Prop := (exists z, v = OInt z /\ r = IZR z) \/ v = OFlt r.
Theorem C68_accepted : forall d m k q e, read_options (Some d) = Ok (mkMix m k q e) <->
  (1 <= k <= 10)%nat /\ exists a c, map snd d = [a; OInt (Z.of_nat k); c; e] /\ number a m /\ number c q.
Proof.
  intros d m k q e. unfold read_options. split.
  - destruct (map snd d) as [|a [|b [|c [|e' [|f r]]]]]; try discriminate. intro H. apply rbind_ok in H as [m' [Hm H]]. apply rbind_ok in H as [k' [Hk H]]. apply rbind_ok in H as [q' [Hq H]].
    injection H as -> -> -> ->. unfold opt_index in Hk. destruct b as [z| |]; try discriminate. destruct (Z.ltb_spec z 1); [discriminate|]. destruct (Z.leb_spec z 10); [|discriminate]. injection Hk as <-.
    split; [lia|]. exists a, c. rewrite Z2Nat.id by lia. split; [reflexivity|].
    unfold number. destruct a as [za|ra|]; [|..]; cbn [opt_real] in Hm; try discriminate; injection Hm as <-; (split; [eauto|]); destruct c as [zc|rc|]; cbn [opt_real] in Hq; try discriminate; injection Hq as <-; eauto.
  - intros (Hk & a & c & -> & Ha & Hc). assert (Na : forall v r, number v r -> opt_real v = Ok r) by (intros v r [(z & -> & ->)| ->]; reflexivity).
    rewrite (Na _ _ Ha), (Na _ _ Hc). unfold opt_index. destruct (Z.ltb_spec (Z.of_nat k) 1); [lia|]. destruct (Z.leb_spec (Z.of_nat k) 10); [|lia]. cbn [rbind]. now rewrite Nat2Z.id.
Qed.
Print Assumptions C68_accepted.
Theorem C68_text : forall d s b c e, map snd d = [OStr s; b; c; e] -> read_options (Some d) = Raise TypeError.
Proof. intros d s b c e E. unfold read_options. now rewrite E. Qed.
Print Assumptions C68_text.
Example C68_nonvacuous : exists o, read_options (Some [("m_const", OInt 4); ("min_num_of_station", OInt 4); ("radius_ratio", OFlt (1 / 3)); ("weights_mode", OStr "OnlyTOP10")]) = Ok o /\ o_min o = 4%nat /\ o_weights o = OStr "OnlyTOP10".
Proof. eexists. split; [reflexivity|]. split; reflexivity. Qed.

(** ** C48: splits *)
Lemma tree11 {Loc} (dist : Loc -> nat -> R) n tree p : kdtreeR dist n tree -> (11 <= n)%nat -> List.length (tree 11%nat p) = 11%nat.
Proof. intros K Hn. destruct (K 11%nat p Hn) as [l [[L _] E]]. now rewrite E, map_length. Qed.
Lemma mapM_map {A B} (f : A -> B) l : mapM (fun x => Ok (f x)) l = Ok (map f l).
Proof. induction l as [|x l IH]; [reflexivity|]. cbn [mapM map]. rewrite IH. reflexivity. Qed.
(** adw: for any number of splits up to the number of rows, the table of the
    whole target, with the reference radius of all its cells *)
Theorem C48_adw : forall (Loc : Type) (dist : Loc -> nat -> R) n tree dif bc rows cols splits, kdtreeR dist n tree -> (11 <= n)%nat ->
  Forall (fun r => List.length r = cols) rows -> (1 <= splits <= Z.of_nat (List.length rows))%Z ->
  exists t, interpolate_whole (part_adw bc tree dif) rows = Ok t /\ interpolate_splits (part_adw bc tree dif) (radius_adw tree) splits rows cols = Ok (map Some (rows_of t)).
Proof.
  intros Loc dist n tree dif bc rows cols splits K Hn Hr Hs.
  assert (L : forall p, List.length (tree 11%nat p) = 11%nat) by (intro; now apply (tree11 dist n)).
  set (cell := fun (ref : option R) p => Ok (shepard_row (match ref with Some r => r | None => 0 end) (cell_of tree dif p), map snd (tree 11%nat p))).
  rewrite (C48_cellwise Loc xr R cell (part_adw bc tree dif) (radius_adw tree) rows cols splits); try assumption.
  - unfold interpolate_whole, part_adw. eexists. split; reflexivity.
  - intro rs. unfold part_adw, radius_adw, cell. rewrite mapM_map. cbn [rbind]. rewrite shepard_rows_eq.
    + rewrite map_map, zipw_map_r. reflexivity.
    + apply Forall_forall. intros c Hc. apply in_map_iff in Hc. destruct Hc as [p [<- _]]. unfold cell_of. cbn [fst snd]. rewrite !map_length. auto.
  - unfold part_adw, radius_adw. f_equal. f_equal. f_equal. f_equal. unfold mean7. f_equal. f_equal. apply map_ext. intro p. apply (kdtreeR_nth dist n tree 11 7 p 6 K); lia.
Qed.
Print Assumptions C48_adw.
(** cdd, modes Hofstra and MixHofstraShepard: with a map of cdd values for the
    target, as documented, splitting never works *)
Theorem C48_cdd_refuted : forall (Loc : Type) tree (lat lon : Loc -> R) slat slon part10 bc mode opts cdd_map rows cols splits,
  (mode = "Hofstra" \/ mode = "MixHofstraShepard" /\ is_ok (read_options opts) = true) -> Forall (fun r => List.length r = cols) rows -> (0 < cols)%nat -> (2 <= splits <= Z.of_nat (List.length rows))%Z ->
  List.length (List.concat cdd_map) = (List.length rows * cols)%nat ->
  is_ok (interpolate_whole (part_cdd tree lat lon slat slon part10 bc mode opts cdd_map) rows) = true /\
  interpolate_splits (part_cdd tree lat lon slat slon part10 bc mode opts cdd_map) (fun _ => None) splits rows cols = Raise ValueError.
Proof.
  intros Loc tree lat lon slat slon part10 bc mode opts cdd_map rows cols splits Hm Hr Hc Hs Hl.
  assert (Lc : forall rs : list (list Loc), Forall (fun r => List.length r = cols) rs -> List.length (List.concat rs) = (List.length rs * cols)%nat).
  { induction 1 as [|r rs Er _ IH]; [reflexivity|]. cbn [List.concat List.length]. rewrite app_length, IH, Er. lia. }
  split.
  - unfold interpolate_whole, part_cdd, cdd_s. rewrite Hl, (Lc rows Hr), Nat.eqb_refl. destruct Hm as [->|[-> Ho]]; [reflexivity|]. cbn [String.eqb Ascii.eqb Bool.eqb].
    destruct (read_options opts); [reflexivity|discriminate Ho].
  - unfold interpolate_splits. destruct (Z.eqb_spec splits 0); [lia|]. set (size := (Z.of_nat (List.length rows) / splits)%Z).
    assert (Hsize : (1 <= size < Z.of_nat (List.length rows))%Z).
    { split; [apply Z.div_le_lower_bound; lia|]. apply Z.div_lt_upper_bound; nia. }
    destruct (py_range_cons 0 (Z.of_nat (List.length rows)) size ltac:(lia) ltac:(lia)) as [l [_ El]]. rewrite El. cbn [rbind foldM Z.to_nat skipn].
    assert (F : part_cdd tree lat lon slat slon part10 bc mode opts cdd_map None (firstn (Z.to_nat size) rows) = Raise ValueError); [|rewrite F; reflexivity].
    assert (Ff : Forall (fun r => List.length r = cols) (firstn (Z.to_nat size) rows)) by (apply Forall_forall; intros r Hi; apply (proj1 (Forall_forall _ _) Hr); rewrite <- (firstn_skipn (Z.to_nat size) rows); apply in_or_app; now left).
    assert (N : Nat.eqb (List.length rows * cols) (List.length (List.concat (firstn (Z.to_nat size) rows))) = false).
    { apply Nat.eqb_neq. rewrite (Lc _ Ff), firstn_length. intro C. apply Nat.mul_cancel_r in C; lia. }
    unfold part_cdd, cdd_s. rewrite Hl, N. destruct Hm as [->|[-> Ho]]; [reflexivity|]. cbn [String.eqb Ascii.eqb Bool.eqb]. destruct (read_options opts); [reflexivity|discriminate Ho].
Qed.
Print Assumptions C48_cdd_refuted.
Example C48_adw_nonvacuous : kdtreeR (fun (p : R) i => Rabs (p - INR i)) 20 (exhaustiveR (fun (p : R) i => Rabs (p - INR i)) 20) /\ Forall (fun r => List.length r = 2%nat) [[1; 2]; [3; 4]; [5; 6]] /\ (1 <= 2 <= 3)%Z.
Proof. split; [apply exhaustiveR_kdtree|]. split; [repeat constructor|lia]. Qed.

(** mode NewEtAl: the stations are looked up in the map relative to the first
    cell of the part, so another cdd is used than without splits, silently *)
Definition C48_newetal_full : Prop := forall (Loc : Type) (dist : Loc -> nat -> R) n tree (lat lon : Loc -> R) slat slon part10 bc opts cdd_map rows cols splits,
  kdtreeR dist n tree -> (11 <= n)%nat -> Forall (fun r => List.length r = cols) rows -> (1 <= splits <= Z.of_nat (List.length rows))%Z ->
  same_table (interpolate_splits (part_cdd tree lat lon slat slon part10 bc "NewEtAl" opts cdd_map) (fun _ => None) splits rows cols)
             (interpolate_whole (part_cdd tree lat lon slat slon part10 bc "NewEtAl" opts cdd_map) rows).
Lemma truncate_IZR z : truncate (IZR z) = z.
Proof.
  assert (I : forall y, Int_part (IZR y) = y) by (intro y; unfold Int_part; rewrite <- (tech_up (IZR y) (y + 1)); [lia|rewrite plus_IZR; lra|rewrite plus_IZR; lra]).
  unfold truncate. destruct (Rle_dec 0 (IZR z)); [apply I|]. rewrite <- opp_IZR, I. lia.
Qed.
Definition nt_dist (_ : R * R) (_ : nat) : R := 1.
Definition nt_tree := exhaustiveR nt_dist 11.
Definition nt_rows : list (list (R * R)) := [[(3, 0); (3, 1)]; [(2, 0); (2, 1)]; [(1, 0); (1, 1)]; [(0, 0); (0, 1)]].
Definition nt_map : list (list R) := [[/ 2; / 2]; [/ 2; / 2]; [2; 2]; [2; 2]].
Definition nt_part := part_cdd nt_tree fst snd (fun _ => 1) IZR numpy_part false "NewEtAl" None nt_map.
Lemma nt_tree_eq p : nt_tree 11%nat p = map (fun i => (1, Z.of_nat i)) (seq 0 11).
Proof.
  unfold nt_tree, exhaustiveR. assert (E : sort_r (nt_dist p) (seq 0 11) = seq 0 11); [|rewrite E; reflexivity].
  generalize (seq 0 11). induction l as [|i l IH]; [reflexivity|]. cbn [sort_r fold_right]. change (insert_r (nt_dist p) i (sort_r (nt_dist p) l) = i :: l). rewrite IH. destruct l as [|j l]; [reflexivity|]. cbn [insert_r]. unfold nt_dist. destruct (Rlt_dec 1 1); [lra|reflexivity].
Qed.
(** the row of weights of a cell, when the origin is at latitude [lat0] *)
Definition nt_cell (lat0 : R) (p : R * R) : list xr :=
  cdd_row (newetal_s (map (fun i => station_cdd nt_map lat0 0 1 (-1) 1 (IZR (Z.of_nat i))) (seq 0 11)) (repeat 1 11)) (map (fun i => (fst p - 1, snd p - IZR (Z.of_nat i))) (seq 0 11)).
Lemma nt_part_eq lat0 rows' p q p' r r' : p = (lat0, 0) -> q = (lat0, 1) -> p' = (lat0 - 1, 0) -> let rows := (p :: q :: r) :: (p' :: r') :: rows' in
  nt_part None rows = Ok (Mat (map (fun c => (nt_cell lat0 c, map Z.of_nat (seq 0 11))) (List.concat rows))).
Proof.
  intros -> -> -> rows. unfold nt_part, part_cdd, cdd_s. cbn [String.eqb Ascii.eqb Bool.eqb]. unfold grid_of, rows at 1. cbn [rbind fst snd].
  replace (lat0 - (lat0 - 1)) with 1 by ring. replace (0 - 1) with (-1) by ring. cbv zeta. f_equal. f_equal.
  generalize (List.concat rows). clear rows. intro cells. rewrite zipw_map_r. unfold cdd_rows, directional_weights. rewrite zipw_map_r, map_map, zipw_map_r. apply map_ext. intro c. cbn [fst snd].
  rewrite nt_tree_eq, map_map. f_equal. unfold nt_cell, cdd_row. cbn [snd]. f_equal. unfold cell_of. rewrite nt_tree_eq. cbn [snd]. rewrite (map_map (fun i => (1, Z.of_nat i))). reflexivity.
Qed.
Lemma nt_station lat0 z i : lat0 = 1 + IZR z -> (0 <= z < 4)%Z -> (i < 11)%nat -> station_cdd nt_map lat0 0 1 (-1) 1 (IZR (Z.of_nat i)) = if (z <? 2)%Z then / 2 else 2.
Proof.
  intros -> Hz Hi. unfold station_cdd. replace ((1 + IZR z - 1) / 1) with (IZR z) by field. replace ((0 - IZR (Z.of_nat i)) / -1) with (IZR (Z.of_nat i)) by field. rewrite !truncate_IZR.
  assert (Z : z = 0%Z \/ z = 1%Z \/ z = 2%Z \/ z = 3%Z) by lia. destruct Z as [-> | [-> | [-> | ->]]]; do 11 (destruct i as [|i]; [reflexivity|]); lia.
Qed.
Theorem C48_newetal_refuted : ~ C48_newetal_full /\ exists a b, interpolate_splits nt_part (fun _ => None) 2 nt_rows 2 = Ok (map Some a) /\ interpolate_whole nt_part nt_rows = Ok (Mat b) /\
  (exists p, nth_error a 6 = Some (repeat XNaN 11, p)) /\ (exists w p, nth_error b 6 = Some (w, p) /\ usable w).
Proof.
  assert (Wl : exists w, nt_cell 3 (0, 0) = w /\ usable w).
  { eexists. split; [reflexivity|]. unfold nt_cell. rewrite (map_ext_in _ (fun _ => 2)) by (intros i Hi; apply in_seq in Hi; apply (nt_station 3 2); [lra|lia|lia]).
    rewrite newetal_s_fin. cbn [map seq zipw repeat fst snd]. set (ss := repeat (decayR 2 1) 11).
    match goal with |- usable (cdd_row _ ?d) => set (diffs := d) end. change (usable (cdd_row (map XF ss) diffs)).
    assert (Pd : 0 < decayR 2 1) by (apply decayR_pos; lra).
    assert (Hpos : forall x, In x ss -> 0 < x) by (intros x Hx; apply repeat_spec in Hx; now subst x).
    assert (Hlen : forall l, (l < 11)%nat -> 0 < len (nth l diffs (0, 0))).
    { intros l Hl. assert (F : fst (nth l diffs (0, 0)) = 0 - 1) by (do 11 (destruct l as [|l]; [reflexivity|]); lia). destruct (nth l diffs (0, 0)) as [x y]. cbn [fst] in F. subst x. unfold len. cbn [fst snd]. apply sqrt_lt_R0. pose proof (pow2_ge_0 y). lra. }
    destruct (cdd_row_ok ss diffs eq_refl ltac:(cbn; lia)) as [ts [qs [c [E [_ [_ [_ [_ [Hc _]]]]]]]]].
    - intros x Hx. left. now apply Hpos.
    - exists (decayR 2 1). split; [now left|exact Pd].
    - left. exists 0%nat, 1%nat. split; [cbn; lia|]. split; [cbn; lia|]. split; [lia|]. split; [exact Pd|]. split; [exact Hlen|]. unfold cosine. cbn [nth diffs fst snd]. change (Z.of_nat 0) with 0%Z. change (Z.of_nat 1) with 1%Z.
      assert (L0 : len (0 - 1, 0 - 0) = 1) by (unfold len; cbn [fst snd]; replace ((0 - 1) ^ 2 + (0 - 0) ^ 2) with 1 by ring; apply sqrt_1).
      assert (L1 : 1 < len (0 - 1, 0 - 1)) by (unfold len; cbn [fst snd]; replace ((0 - 1) ^ 2 + (0 - 1) ^ 2) with 2 by ring; rewrite <- sqrt_1; apply sqrt_lt_1; lra).
      rewrite L0. apply Rmult_lt_reg_r with (1 * len (0 - 1, 0 - 1)); [lra|]. unfold Rdiv. rewrite Rmult_assoc, Rinv_l by lra. lra.
    - exists qs. split; assumption. }
  assert (Sn : nt_cell 1 (0, 0) = repeat XNaN 11).
  { unfold nt_cell. rewrite (map_ext_in _ (fun _ => / 2)) by (intros i Hi; apply in_seq in Hi; apply (nt_station 1 0); [lra|lia|lia]).
    rewrite newetal_s_fin. cbn [map seq zipw repeat]. match goal with |- cdd_row ?x ?d = _ => change x with (map XF (repeat (decayR (/ 2) 1) 11)); set (diffs := d) end.
    rewrite cdd_row_none; [reflexivity|reflexivity|cbn; lia|]. intros x Hx. apply repeat_spec in Hx. subst x. apply decayR_spec. lra. }
  assert (W : interpolate_whole nt_part nt_rows = Ok (Mat (map (fun c => (nt_cell 3 c, map Z.of_nat (seq 0 11))) (List.concat nt_rows)))).
  { unfold interpolate_whole, nt_rows. apply nt_part_eq; [reflexivity|reflexivity|]. f_equal. ring. }
  set (a := (map (fun c => (nt_cell 3 c, map Z.of_nat (seq 0 11))) [(3, 0); (3, 1); (2, 0); (2, 1)] ++ map (fun c => (nt_cell 1 c, map Z.of_nat (seq 0 11))) [(1, 0); (1, 1); (0, 0); (0, 1)])%list).
  assert (Sp : interpolate_splits nt_part (fun _ => None) 2 nt_rows 2 = Ok (map Some a)).
  { unfold interpolate_splits. change (List.length nt_rows) with 4%nat. change (2 =? 0)%Z with false. change (Z.of_nat 4 / 2)%Z with 2%Z. change (py_range 0 (Z.of_nat 4) 2) with (Ok [0; 2]%Z). cbn [rbind foldM].
    change (firstn (Z.to_nat 2) (skipn (Z.to_nat 0) nt_rows)) with ([(3, 0); (3, 1)] :: [(2, 0); (2, 1)] :: @nil (list (R * R))).
    change (firstn (Z.to_nat 2) (skipn (Z.to_nat 2) nt_rows)) with ([(1, 0); (1, 1)] :: [(0, 0); (0, 1)] :: @nil (list (R * R))).
    rewrite (nt_part_eq 3 []) by (try reflexivity; f_equal; ring). cbn [rbind List.concat app map]. unfold store at 1, as_rows. cbn [rbind].
    change (Z.to_nat 0 * 2)%nat with 0%nat. change (Z.to_nat (0 + 2) * 2)%nat with 4%nat. change (Z.to_nat 2 * 2)%nat with 4%nat. change (Z.to_nat (2 + 2) * 2)%nat with 8%nat. change (4 * 2)%nat with 8%nat.
    cbn [List.length repeat Nat.min Nat.sub Nat.eqb firstn app Nat.add skipn map rbind].
    rewrite (nt_part_eq 1 []) by (try reflexivity; f_equal; ring). cbn [rbind List.concat app map]. unfold store, as_rows. cbn [rbind List.length repeat Nat.min Nat.sub Nat.eqb firstn app Nat.add skipn map]. reflexivity. }
  split.
  - intro H. specialize (H (R * R)%type nt_dist 11%nat nt_tree fst snd (fun _ => 1) IZR numpy_part false None nt_map nt_rows 2%nat 2%Z (exhaustiveR_kdtree nt_dist 11) ltac:(lia)).
    assert (Hr : Forall (fun r : list (R * R) => List.length r = 2%nat) nt_rows) by repeat constructor. specialize (H Hr ltac:(cbn; lia) _ W). fold nt_part in H. rewrite Sp in H. cbn [rows_of] in H.
    assert (E : nth_error (map Some a) 6 = nth_error (map Some (map (fun c => (nt_cell 3 c, map Z.of_nat (seq 0 11))) (List.concat nt_rows))) 6) by congruence.
    unfold a in E. cbn [map app nt_rows List.concat nth_error] in E. assert (E' : nt_cell 1 (0, 0) = nt_cell 3 (0, 0)) by congruence. rewrite Sn in E'. destruct Wl as [w [Ew [qs [Eq _]]]]. rewrite Ew, Eq in E'. destruct qs; discriminate E'.
  - exists a. eexists. split; [exact Sp|]. split; [exact W|]. split; [unfold a; cbn [map app nth_error]; rewrite Sn; eexists; reflexivity|]. cbn [map nt_rows List.concat app nth_error]. destruct Wl as [w [Ew Hw]]. rewrite Ew. eexists. eexists. split; [reflexivity|exact Hw].
Qed.
Print Assumptions C48_newetal_refuted.
