(** * Props_Bilinear5: C72 for whole tables of rotated sources; C53, which
    quadrilateral is used there *)
From Verif Require Import Base Base_P Num Strings Xr Adw Bilinear Spec_Bilinear Bilinear_P Bilinear_P2 Bilinear_P3 Bilinear_P4 Bilinear_P5 Props_Bilinear Props_Bilinear2.
From Coq Require Import Psatz Permutation Sorting.
Local Open Scope R_scope.

(** for a rotated source, whatever the size of the target, every cell is done
    after at most 20 rounds *)
Theorem C72_rotated_build : forall (Loc : Type) (query : Loc -> nat -> list Z) locate argsort angle solve g rows isatty mub cells,
  build_bilinear query locate argsort angle solve g true rows isatty 20 mub cells <> None.
Proof.
  intros. unfold build_bilinear. destruct (is_global g) as [global|e]; [|discriminate]. destruct (_ && _)%bool; [discriminate|]. apply C72_rotated_table_partial.
Qed.
Print Assumptions C72_rotated_build.

(** the points tried at round [i]: the three nearest and one more, the one that
    comes next in the order of distance *)
Definition tried (order : list Z) (i : nat) : list Z := [nth 0 order 0; nth 1 order 0; nth 2 order 0; nth (3 + i) order 0]%Z.
(** the target is in one of the two triangles of the quadrilateral *)
Definition holds_target (argsort : list R -> list nat) (la lo : R) (cs : list corner) : Prop :=
  let '(p1, p2, p3, p4) := clockwise argsort cs in in_quad (la, lo) (xy p1) (xy p2) (xy p3) (xy p4) = true.

Section rotated.
  Context {Loc : Type} (query : Loc -> nat -> list Z) (locate : R -> R -> Loc)
          (argsort : list R -> list nat) (angle : R * R -> R * R -> R * R -> R) (solve : quad -> R -> R -> R * R)
          (g : source) (global : bool) (mub : R) (loc : Loc) (la lo : R) (order : list Z).
  Hypothesis Hq : forall k, (k <= 24)%nat -> query loc k = firstn k order.
  Hypothesis Nd : NoDup order.
  Hypothesis Lo : (24 <= List.length order)%nat.
  Hypothesis In_ : forall z, In z order -> exists c, corner_of g lo z = Ok c.
  Hypothesis Hout : outside g global la lo = false.
  Lemma nth_order i : (i < 24)%nat -> In (nth i order 0%Z) order.
  Proof. intro H. apply nth_In. lia. Qed.
  Lemma nth_order_inj i j : (i < 24)%nat -> (j < 24)%nat -> nth i order 0%Z = nth j order 0%Z -> i = j.
  Proof. intros Hi Hj E. apply (proj1 (NoDup_nth order 0%Z) Nd); lia || exact E. Qed.
  Lemma tried_corners i : (i < 20)%nat -> exists cs, corners_are g lo (tried order i) cs.
  Proof.
    intro Hi. unfold tried, corners_are. cbn [mapM].
    destruct (In_ _ (nth_order 0 ltac:(lia))) as [a ->], (In_ _ (nth_order 1 ltac:(lia))) as [b ->], (In_ _ (nth_order 2 ltac:(lia))) as [c ->], (In_ _ (nth_order (3 + i) ltac:(lia))) as [d ->]. eexists. reflexivity.
  Qed.
  (** the candidates not in use: the last of them is the next in the order *)
  Lemma candidates i : (i < 20)%nat -> let news := filter (fun j => negb (zmem j (tried order i))) (firstn (4 + (i + 1)) order) in
    py_index news (-1) = Ok (nth (4 + i) order 0%Z).
  Proof.
    intros Hi.
    replace (4 + (i + 1))%nat with (S (4 + i)) by lia.
    assert (E : firstn (S (4 + i)) order = (firstn (4 + i) order ++ [nth (4 + i) order 0%Z])%list).
    { clear -Lo Hi. assert (Hl : (4 + i < List.length order)%nat) by lia. revert Hl. generalize (4 + i)%nat. clear. induction order as [|x l IH]; intros n H; [cbn in H; lia|]. destruct n; [reflexivity|]. cbn [firstn app nth]. f_equal. apply IH. cbn in H. lia. }
    rewrite E, filter_app. cbn [filter]. set (z := nth (4 + i) order 0%Z).
    assert (Z : zmem z (tried order i) = false).
    { destruct (zmem z (tried order i)) eqn:Ez; [|reflexivity]. apply zmem_In in Ez. unfold tried in Ez. cbn [In] in Ez. unfold z in Ez.
      destruct Ez as [Ez|[Ez|[Ez|[Ez|[]]]]]; apply nth_order_inj in Ez; lia. }
    rewrite Z. cbn [negb]. unfold py_index. change (-1 <? 0)%Z with true. cbv iota. rewrite app_length. cbn [List.length]. set (n := List.length (filter _ _)).
    replace (-1 + Z.of_nat (n + 1))%Z with (Z.of_nat n) by lia. destruct (Z.ltb_spec (Z.of_nat n) 0); [lia|]. rewrite Nat2Z.id, nth_error_app2 by (unfold n; lia). unfold n. rewrite Nat.sub_diag. reflexivity.
  Qed.
  Lemma put_last i x : (i < 20)%nat -> put_index (tried order i) (nth (3 + i) order 0%Z) x = [nth 0 order 0; nth 1 order 0; nth 2 order 0; x]%Z.
  Proof.
    intro Hi. unfold put_index, tried. cbn [map]. rewrite Z.eqb_refl.
    destruct (Z.eqb_spec (nth 0 order 0%Z) (nth (3 + i) order 0%Z)) as [C|_]; [apply nth_order_inj in C; lia|]. destruct (Z.eqb_spec (nth 1 order 0%Z) (nth (3 + i) order 0%Z)) as [C|_]; [apply nth_order_inj in C; lia|]. destruct (Z.eqb_spec (nth 2 order 0%Z) (nth (3 + i) order 0%Z)) as [C|_]; [apply nth_order_inj in C; lia|]. reflexivity.
  Qed.
  Lemma round i q cs : (i < 20)%nat -> corners_are g lo (tried order i) cs ->
    exists st', body query locate argsort angle g global true loc la lo (mkState (tried order i) (Z.of_nat i) true false q None) = Ok st' /\ f_quad st' = Some (clockwise argsort cs) /\ f_done st' = None /\
      ((holds_target argsort la lo cs /\ f_ok st' = true) \/
       (~ holds_target argsort la lo cs /\ f_ok st' = false /\ f_add st' = Z.of_nat (S i) /\ st' = mkState (tried order (S i)) (Z.of_nat (S i)) true false (Some (clockwise argsort cs)) None)).
  Proof.
    intros Hi Hcs. unfold body. cbn [f_idx f_checks]. unfold corners_are in Hcs. rewrite Hcs. cbn [rbind]. rewrite Hout. cbn [rbind f_done f_checks]. unfold quad_checks, holds_target. cbn [f_idx f_add].
    destruct (clockwise argsort cs) as [[[p1 p2] p3] p4]. rewrite orb_true_r. destruct (in_quad (la, lo) (xy p1) (xy p2) (xy p3) (xy p4)).
    - eexists. split; [reflexivity|]. split; [reflexivity|]. split; [reflexivity|]. left. split; reflexivity.
    - change (py_index (tried order i) 3) with (Ok (nth (3 + i) order 0%Z)). cbn [rbind]. unfold replace_index. cbn [List.length]. replace (Z.of_nat i + Z.of_nat 1)%Z with (Z.of_nat (S i)) by lia.
      replace (Z.to_nat (4 + Z.of_nat (S i))) with (4 + (i + 1))%nat by lia. rewrite Hq by lia. cbn [put_from_end]. change (- (0 + 1))%Z with (-1)%Z. pose proof (candidates i Hi) as Cn. cbv zeta in Cn. rewrite Cn. cbn [rbind]. rewrite put_last by exact Hi.
      eexists. split; [reflexivity|]. split; [reflexivity|]. split; [reflexivity|]. right. split; [discriminate|]. split; [reflexivity|]. split; reflexivity.
  Qed.
  Lemma rounds : forall n i q fuel, (i + n = 20)%nat -> (0 < n)%nat -> (n <= fuel)%nat -> (forall j cs, (j < i)%nat -> corners_are g lo (tried order j) cs -> ~ holds_target argsort la lo cs) ->
    exists i' cs st', search query locate argsort angle g global true 20 fuel loc la lo (mkState (tried order i) (Z.of_nat i) true false q None) = Some (Ok st') /\
      (i' < 20)%nat /\ corners_are g lo (tried order i') cs /\ f_quad st' = Some (clockwise argsort cs) /\ f_done st' = None /\
      (forall j csj, (j < i')%nat -> corners_are g lo (tried order j) csj -> ~ holds_target argsort la lo csj) /\ (holds_target argsort la lo cs \/ i' = 19%nat).
  Proof.
    induction n as [|n IH]; intros i q fuel Hn Pn Hf Hb; [lia|]. destruct fuel as [|fuel]; [lia|]. destruct (tried_corners i ltac:(lia)) as [cs Hcs].
    cbn [search f_ok f_add orb]. destruct (Z.leb_spec 20 (Z.of_nat i)); [lia|]. destruct (round i q cs ltac:(lia) Hcs) as [st' [-> [Q [D [[A O]|[A [O [Ad St]]]]]]]].
    - exists i, cs, st'. assert (S0 : search query locate argsort angle g global true 20 fuel loc la lo st' = Some (Ok st')) by (destruct fuel; cbn [search]; rewrite O; reflexivity). rewrite S0. split; [reflexivity|]. split; [lia|]. split; [exact Hcs|]. split; [exact Q|]. split; [exact D|]. split; [exact Hb|]. left. exact A.
    - destruct (Nat.eq_dec i 19) as [E|E].
      + exists i, cs, st'. assert (S0 : search query locate argsort angle g global true 20 fuel loc la lo st' = Some (Ok st')) by (destruct fuel; cbn [search]; rewrite O, Ad, E; reflexivity). rewrite S0. split; [reflexivity|]. split; [lia|]. split; [exact Hcs|]. split; [exact Q|]. split; [exact D|]. split; [exact Hb|]. right. exact E.
      + rewrite St. apply IH; try lia. intros j csj Hj Hc. destruct (Nat.eq_dec j i) as [->|Nj]; [|apply (Hb j csj); [lia|exact Hc]]. unfold corners_are in *. replace csj with cs by congruence. exact A.
  Qed.
End rotated.

(** for a rotated source, at a target that is not outside of it, whose nearest
    point is neither at the target nor too far: the row is that of the first
    quadrilateral that holds the target, among those of the three nearest points
    with each of the next twenty; if there is none the last of them is used all
    the same *)
Theorem C53_rotated_choice : forall (Loc : Type) (query : Loc -> nat -> list Z) locate argsort angle solve g global mub fuel before (t : @target Loc) order,
  (forall k, (k <= 24)%nat -> query (t_loc t) k = firstn k order) -> NoDup order -> (24 <= List.length order)%nat -> map snd (t_near t) = firstn 4 order ->
  (forall z, In z order -> exists c, corner_of g (t_lon t) z = Ok c) -> outside g global (t_lat t) (t_lon t) = false ->
  eps < nthR (map fst (t_near t)) 0 <= mub -> (20 <= fuel)%nat ->
  exists i cs, (i < 20)%nat /\ corners_are g (t_lon t) (tried order i) cs /\
    bilinear_cell query locate argsort angle solve g global true 20 fuel mub before t = Some (Ok (quad_row solve (clockwise argsort cs) (t_lat t) (t_lon t), Some (clockwise argsort cs))) /\
    (forall j csj, (j < i)%nat -> corners_are g (t_lon t) (tried order j) csj -> ~ holds_target argsort (t_lat t) (t_lon t) csj) /\
    (holds_target argsort (t_lat t) (t_lon t) cs \/ i = 19%nat).
Proof.
  intros Loc query locate argsort angle solve g global mub fuel before t order Hq Nd Lo Hn Hin Hout [H1 H2] Hf.
  destruct (rounds query locate argsort angle solve g global (t_loc t) (t_lat t) (t_lon t) order Hq Nd Lo Hin Hout 20 0 before fuel eq_refl ltac:(lia) Hf) as [i [cs [st' [S [Hi [Hcs [Q [D [Hb He]]]]]]]]]; [intros j csj Hj; lia|].
  exists i, cs. split; [exact Hi|]. split; [exact Hcs|]. split; [|split; [exact Hb|exact He]].
  unfold bilinear_cell. unfold leb, ltb. destruct (Rle_dec _ _); [lra|]. destruct (Rlt_dec _ _); [lra|].
  assert (E : start true before t = mkState (tried order 0) (Z.of_nat 0) true false before None).
  { unfold start. rewrite Hn. f_equal. clear - Lo. do 4 (destruct order as [|? order]; [cbn in Lo; lia|]). reflexivity. }
  rewrite E, S. unfold finish. rewrite D, Q. reflexivity.
Qed.
Print Assumptions C53_rotated_choice.
(** twenty-five points on a line of longitude, the target to the east of them *)
Example C53_rotated_nonvacuous : let g := mkSource (map (fun i => INR i) (seq 1 25)) (map (fun _ => 10) (seq 1 25)) in let order := map Z.of_nat (seq 0 25) in
  let t := mkTarget tt 2 10 (map (fun z => (1, z)) (firstn 4 order)) in
  NoDup order /\ (24 <= List.length order)%nat /\ map snd (t_near t) = firstn 4 order /\ (forall z, In z order -> exists c, corner_of g (t_lon t) z = Ok c) /\ outside g true (t_lat t) (t_lon t) = false /\ eps < nthR (map fst (t_near t)) 0 <= 2.
Proof.
  cbv zeta. split; [apply FinFun.Injective_map_NoDup; [exact Nat2Z.inj|apply seq_NoDup]|]. split; [cbn; lia|]. split; [reflexivity|]. split; [|split; [reflexivity|cbn; unfold eps; lra]].
  intros z Hz. apply in_map_iff in Hz. destruct Hz as [i [<- Hi]]. apply in_seq in Hi. unfold corner_of, py_index. cbn [latgrib longrib]. destruct (Z.ltb_spec (Z.of_nat i) 0); [lia|]. destruct (Z.ltb_spec (Z.of_nat i) 0); [lia|]. rewrite Nat2Z.id.
  destruct (nth_error (map _ (seq 1 25)) i) as [a|] eqn:Ea; [|apply nth_error_None in Ea; rewrite map_length, seq_length in Ea; lia]. cbn [rbind].
  destruct (nth_error (map (fun _ : nat => 10) (seq 1 25)) i) as [b|] eqn:Eb; [|apply nth_error_None in Eb; rewrite map_length, seq_length in Eb; lia]. cbn [rbind]. destruct (correct_point _ _ _). eexists. reflexivity.
Qed.
