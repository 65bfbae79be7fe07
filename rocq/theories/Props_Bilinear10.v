(** * Props_Bilinear10: C48 for mode bilinear *)
From Coq Require Import Psatz Permutation Sorting.
From Verif Require Import Base Base_P Num Strings GribInterp_P Xr Adw Scipy Scipy_P Bilinear BilinearSplits Spec_Bilinear Bilinear_P Bilinear_P2 Bilinear_P3 Bilinear_P4 Bilinear_P5 Bilinear_P6 Bilinear_P7 Bilinear_P8 Props_Bilinear Props_Bilinear2 Props_Bilinear3 Props_Bilinear4 Props_Bilinear6 Props_Bilinear9.
Local Open Scope Z_scope.

(** the rows of part [i] of the target, in parts of [size] rows *)
Definition part_of {A} (size i : nat) (rows : list A) : list A := firstn size (skipn (i * size) rows).
(** the table written through the splits is the table [o] made at once *)
Definition same_outcome (split : option (res (list (option brow)))) (o : option (res (list brow))) : Prop :=
  split = match o with None => None | Some (Raise e) => Some (Raise e) | Some (Ok t) => Some (Ok (map Some t)) end.

Section proofs.
  Context {Loc : Type} (query : Loc -> nat -> list Z) (locate : R -> R -> Loc)
          (argsort : list R -> list nat) (angle : R * R -> R * R -> R * R -> R) (solve : quad -> R -> R -> R * R)
          (g : source) (rotated isatty : bool) (fuel : nat) (mub : R).
  Notation cell := (bilinear_cell query locate argsort angle solve g).
  Notation left_ := (cells_left query locate argsort angle solve g rotated fuel mub).
  Notation searching := (search query locate argsort angle g).
  Lemma left_fst global retries cells : forall before, bilinear_cells query locate argsort angle solve g global rotated retries fuel mub before cells =
    match left_ global retries before cells with None => None | Some (Raise e) => Some (Raise e) | Some (Ok (rs, _)) => Some (Ok rs) end.
  Proof.
    induction cells as [|t cells IH]; intro bf; cbn [bilinear_cells cells_left]; [reflexivity|]. destruct (cell _ _ _ _ _ _ _) as [[[r q]|e]|]; [|reflexivity|reflexivity].
    rewrite IH. destruct (left_ global retries q cells) as [[[rs q']|e]|]; reflexivity.
  Qed.
  Lemma left_app global retries l1 l2 : forall before, left_ global retries before (l1 ++ l2)%list =
    match left_ global retries before l1 with
    | Some (Ok (r1, q)) => match left_ global retries q l2 with Some (Ok (r2, q')) => Some (Ok ((r1 ++ r2)%list, q')) | x => x end
    | x => x end.
  Proof.
    induction l1 as [|t l1 IH]; intro bf; cbn [app cells_left].
    - destruct (left_ global retries bf l2) as [[[r q]|e]|]; reflexivity.
    - destruct (cell _ _ _ _ _ _ _) as [[[r q]|e]|]; [|reflexivity|reflexivity]. rewrite IH. destruct (left_ global retries q l1) as [[[rs q']|e]|]; [|reflexivity|reflexivity].
      destruct (left_ global retries q' l2) as [[[r2 q2]|e]|]; reflexivity.
  Qed.
  Lemma left_length global retries cells : forall before rs q, left_ global retries before cells = Some (Ok (rs, q)) -> List.length rs = List.length cells.
  Proof.
    induction cells as [|t cells IH]; intros bf rs q H; cbn [cells_left] in H.
    - injection H as <- _. reflexivity.
    - destruct (cell _ _ _ _ _ _ _) as [[[r q1]|e]|]; [|discriminate|discriminate]. destruct (left_ global retries q1 cells) as [[[rs' q']|e]|] eqn:E; [|discriminate|discriminate].
      injection H as <- _. cbn [List.length]. f_equal. exact (IH _ _ _ E).
  Qed.
  (** the loop over the parts, if each part gives what the whole gives there *)
  Lemma parts_loop_whole global retries (rows : list (list (@target Loc))) cols s : Forall (fun r => List.length r = cols) rows -> (0 < s)%nat ->
    (forall k before, (k * s < List.length rows)%nat -> bilinear_part query locate argsort angle solve g rotated isatty fuel mub before (part_of s k rows) = left_ global retries before (List.concat (part_of s k rows))) ->
    forall m k don before l, (List.length rows - k * s <= m)%nat -> List.length don = (Nat.min (k * s) (List.length rows) * cols)%nat ->
    py_range (Z.of_nat (k * s)) (Z.of_nat (List.length rows)) (Z.of_nat s) = Ok l ->
    parts_loop query locate argsort angle solve g rotated isatty fuel mub (Z.of_nat s) rows cols l before (map Some don ++ repeat None ((List.length rows - k * s) * cols))%list =
    match left_ global retries before (List.concat (skipn (k * s) rows)) with None => None | Some (Raise e) => Some (Raise e) | Some (Ok (t, _)) => Some (Ok (map Some (don ++ t)%list)) end.
  Proof.
    intros Hr Hs Hp. induction m as [|m IH]; intros k don before l Hm Hd Hl.
    - rewrite py_range_nil in Hl by lia. assert (E : l = []) by congruence. subst l. cbn [parts_loop]. rewrite skipn_all2 by lia. cbn [List.concat cells_left].
      replace (List.length rows - k * s)%nat with O by lia. cbn [Nat.mul repeat]. now rewrite !app_nil_r.
    - destruct (Nat.le_gt_cases (List.length rows) (k * s)) as [Hi|Hi].
      + rewrite py_range_nil in Hl by lia. assert (E : l = []) by congruence. subst l. cbn [parts_loop]. rewrite skipn_all2 by lia. cbn [List.concat cells_left].
        replace (List.length rows - k * s)%nat with O by lia. cbn [Nat.mul repeat]. now rewrite !app_nil_r.
      + destruct (py_range_cons (Z.of_nat (k * s)) (Z.of_nat (List.length rows)) (Z.of_nat s) ltac:(lia) ltac:(lia)) as [l' [Hl' Hc]].
        assert (E : l = Z.of_nat (k * s) :: l') by congruence. subst l. cbn [parts_loop]. rewrite !Nat2Z.id. rewrite <- Nat2Z.inj_add, Nat2Z.id.
        assert (Ec : List.concat (skipn (k * s) rows) = (List.concat (part_of s k rows) ++ List.concat (skipn (k * s + s) rows))%list).
        { rewrite <- concat_app. f_equal. unfold part_of. rewrite <- (firstn_skipn s (skipn (k * s) rows)) at 1. now rewrite skipn_add. }
        rewrite Ec, left_app. change (firstn s (skipn (k * s) rows)) with (part_of s k rows). rewrite (Hp k before Hi).
        destruct (left_ global retries before (List.concat (part_of s k rows))) as [[[t1 q]|e]|] eqn:E1; [|reflexivity|reflexivity].
        pose proof (left_length _ _ _ _ _ _ E1) as L1. unfold part_of in L1. rewrite (concat_length_rows cols _ (Forall_firstn _ _ _ (Forall_skipn _ _ _ Hr))), firstn_length, skipn_length in L1.
        rewrite Nat.min_l in Hd by lia.
        assert (Er : ((List.length rows - k * s) * cols)%nat = (List.length t1 + (List.length rows - (k * s + s)) * cols)%nat) by (rewrite L1; nia).
        rewrite Er, (store_end don t1); [|exact (eq_sym Hd)|nia|].
        * replace (k * s + s)%nat with (S k * s)%nat by lia. refine (eq_trans (IH (S k) (don ++ t1)%list q l' _ _ _) _); [lia| | |].
          { rewrite app_length, Hd, L1. nia. }
          { rewrite <- Hl'. f_equal. lia. }
          { destruct (left_ global retries q (List.concat (skipn (S k * s) rows))) as [[[t2 q2]|e]|]; [|reflexivity|reflexivity]. now rewrite <- app_assoc. }
        * rewrite L1. nia.
  Qed.
  Lemma splits_whole global (rows : list (list (@target Loc))) cols splits : is_global g = Ok global -> Forall (fun r => List.length r = cols) rows -> (1 <= splits <= Z.of_nat (List.length rows))%Z ->
    let s := Z.to_nat (Z.of_nat (List.length rows) / splits) in
    (forall k, (k * s < List.length rows)%nat -> (250 <= List.length (List.concat (part_of s k rows)))%nat) ->
    (forall k before, (k * s < List.length rows)%nat -> left_ global (if rotated then 20 else Z.of_nat (List.length (part_of s k rows))) before (List.concat (part_of s k rows)) =
       left_ global (if rotated then 20 else Z.of_nat (List.length rows)) before (List.concat (part_of s k rows))) ->
    same_outcome (bilinear_splits query locate argsort angle solve g rotated isatty fuel mub splits rows cols) (bilinear_whole query locate argsort angle solve g rotated isatty fuel mub rows).
  Proof.
    intros G Hr Hs s H250 Heq. unfold same_outcome, bilinear_splits. destruct (Z.eqb_spec splits 0) as [C|_]; [lia|].
    assert (Hq : 1 <= Z.of_nat (List.length rows) / splits) by (apply Z.div_le_lower_bound; lia).
    assert (Es : Z.of_nat (List.length rows) / splits = Z.of_nat s) by (unfold s; lia). rewrite Es. assert (Hs' : (0 < s)%nat) by lia. clearbody s.
    destruct (py_range 0 (Z.of_nat (List.length rows)) (Z.of_nat s)) as [l|e] eqn:El; [|rewrite py_range_pos_ok in El by lia; discriminate].
    pose proof (parts_loop_whole global (if rotated then 20 else Z.of_nat (List.length rows)) rows cols s Hr Hs') as L.
    assert (Hn : (0 < List.length rows)%nat) by lia.
    specialize (L ltac:(intros k before Hk; unfold bilinear_part; rewrite G; cbv zeta; specialize (H250 k Hk);
      destruct (Z.eqb_spec (progress_step (Z.of_nat (List.length (List.concat (part_of s k rows)))) isatty) 0) as [Z0|_]; [exfalso; revert Z0; apply progress_step_nonzero; lia|cbn [andb]; apply Heq; exact Hk])).
    specialize (L (List.length rows) O [] None l ltac:(lia) eq_refl El). cbn [Nat.mul map app skipn] in L. rewrite Nat.sub_0_r in L. rewrite L.
    unfold bilinear_whole, build_bilinear. rewrite G.
    assert (N : (250 <= List.length (List.concat rows))%nat).
    { specialize (H250 O ltac:(lia)). unfold part_of in H250. cbn [Nat.mul skipn] in H250. rewrite (concat_length_rows cols _ (Forall_firstn _ _ _ Hr)), firstn_length in H250. rewrite (concat_length_rows cols _ Hr). nia. }
    destruct (Z.eqb_spec (progress_step (Z.of_nat (List.length (List.concat rows))) isatty) 0) as [Z0|_]; [exfalso; revert Z0; apply progress_step_nonzero; lia|]. cbn [andb].
    rewrite left_fst. destruct (left_ global _ None (List.concat rows)) as [[[t q]|e]|]; reflexivity.
  Qed.
  (** more retries do not change a search that ended in time *)
  Lemma search_more global r r' loc la lo st' : (r <= r')%Z -> forall f st, searching global rotated r f loc la lo st = Some (Ok st') -> f_ok st' = true -> searching global rotated r' f loc la lo st = Some (Ok st').
  Proof.
    intro Hr. induction f as [|f IH]; intros st H Ok'; cbn [search] in *.
    - destruct (f_ok st) eqn:O; cbn [orb] in *; [exact H|]. destruct (Z.leb_spec r (f_add st)); [|discriminate H]. injection H as <-. congruence.
    - destruct (f_ok st) eqn:O; cbn [orb] in *; [exact H|]. destruct (Z.leb_spec r (f_add st)); [injection H as <-; congruence|]. destruct (Z.leb_spec r' (f_add st)); [lia|].
      destruct (body _ _ _ _ _ _ _ _ _ _ _) as [st1|e]; [|discriminate H]. exact (IH st1 H Ok').
  Qed.
End proofs.

(** ** rotated sources: the number of retries is fixed, so splitting gives the
    same table (or the same failure), if each part has 250 cells at least *)
Theorem C48_bilinear_rotated : forall (Loc : Type) (query : Loc -> nat -> list Z) locate argsort angle solve g isatty fuel mub rows cols splits global,
  is_global g = Ok global -> Forall (fun r => List.length r = cols) rows -> (1 <= splits <= Z.of_nat (List.length rows))%Z ->
  (forall k, let s := Z.to_nat (Z.of_nat (List.length rows) / splits) in (k * s < List.length rows)%nat -> (250 <= List.length (List.concat (part_of s k rows)))%nat) ->
  same_outcome (bilinear_splits query locate argsort angle solve g true isatty fuel mub splits rows cols) (bilinear_whole query locate argsort angle solve g true isatty fuel mub rows).
Proof. intros. eapply splits_whole; try eassumption. intros. reflexivity. Qed.
Print Assumptions C48_bilinear_rotated.

(** ** other sources: the same table if every cell that needs a search is found
    (or left out) before it has used as many retries as its part has rows *)
Definition in_time {Loc} (query : Loc -> nat -> list Z) locate argsort angle g global fuel mub (retries : Z) (t : @target Loc) : Prop :=
  (nthR (map fst (t_near t)) 0 <= eps)%R \/ (mub < nthR (map fst (t_near t)) 0)%R \/
  forall before, exists st, search query locate argsort angle g global false retries fuel (t_loc t) (t_lat t) (t_lon t) (start false before t) = Some (Ok st) /\ f_ok st = true.
Theorem C48_bilinear_partial : forall (Loc : Type) (query : Loc -> nat -> list Z) locate argsort angle solve g isatty fuel mub rows cols splits global,
  is_global g = Ok global -> Forall (fun r => List.length r = cols) rows -> (1 <= splits <= Z.of_nat (List.length rows))%Z ->
  (forall k, let s := Z.to_nat (Z.of_nat (List.length rows) / splits) in (k * s < List.length rows)%nat ->
     (250 <= List.length (List.concat (part_of s k rows)))%nat /\
     forall t, In t (List.concat (part_of s k rows)) -> in_time query locate argsort angle g global fuel mub (Z.of_nat (List.length (part_of s k rows))) t) ->
  same_outcome (bilinear_splits query locate argsort angle solve g false isatty fuel mub splits rows cols) (bilinear_whole query locate argsort angle solve g false isatty fuel mub rows).
Proof.
  intros Loc query locate argsort angle solve g isatty fuel mub rows cols splits global G Hr Hs HP. eapply splits_whole; try eassumption.
  - intros k Hk. exact (proj1 (HP k Hk)).
  - intros k before Hk. destruct (HP k Hk) as [_ T]. set (s := Z.to_nat (Z.of_nat (List.length rows) / splits)) in *.
    assert (Hle : (Z.of_nat (List.length (part_of s k rows)) <= Z.of_nat (List.length rows))%Z).
    { unfold part_of. rewrite firstn_length, skipn_length. lia. }
    set (r := Z.of_nat (List.length (part_of s k rows))) in *. set (r' := Z.of_nat (List.length rows)) in *. clearbody r r'.
    induction (List.concat (part_of s k rows)) as [|t l IH] in before, T |- *; [reflexivity|]. cbn [cells_left].
    assert (E : bilinear_cell query locate argsort angle solve g global false r fuel mub before t = bilinear_cell query locate argsort angle solve g global false r' fuel mub before t).
    { unfold bilinear_cell. destruct (leb_spec (nthR (map fst (t_near t)) 0) eps) as [_|N1]; [reflexivity|]. destruct (ltb_spec mub (nthR (map fst (t_near t)) 0)) as [_|N2]; [reflexivity|].
      destruct (T t (or_introl eq_refl)) as [C|[C|C]]; [lra|lra|]. destruct (C before) as [st [S O]]. rewrite S. pose proof S as S'. eapply (search_more _ _ _ _ solve) in S'; [|exact Hle|exact O]. rewrite S'. reflexivity. }
    rewrite E. clear E. destruct (bilinear_cell query locate argsort angle solve g global false r' fuel mub before t) as [[[x q]|e]|]; [|reflexivity|reflexivity]. rewrite IH; [reflexivity|]. intros t' Ht'. apply T. now right.
Qed.
Print Assumptions C48_bilinear_partial.

(** ** parts of fewer than 250 cells fail (the step of the progress output is 0,
    C47) *)
Theorem C48_bilinear_small : forall (Loc : Type) (query : Loc -> nat -> list Z) locate argsort angle solve g rotated isatty fuel mub (rows : list (list (@target Loc))) cols splits global,
  is_global g = Ok global -> Forall (fun r => List.length r = cols) rows -> (1 <= splits <= Z.of_nat (List.length rows))%Z ->
  (0 < Z.of_nat (List.length rows) / splits * Z.of_nat cols < 250)%Z ->
  bilinear_splits query locate argsort angle solve g rotated isatty fuel mub splits rows cols = Some (Raise ZeroDivisionError).
Proof.
  intros Loc query locate argsort angle solve g rotated isatty fuel mub rows cols splits global G Hr Hs Hc. unfold bilinear_splits. destruct (Z.eqb_spec splits 0) as [C|_]; [lia|].
  assert (Hq : 1 <= Z.of_nat (List.length rows) / splits) by (apply Z.div_le_lower_bound; lia).
  assert (Hq' : Z.of_nat (List.length rows) / splits <= Z.of_nat (List.length rows)) by (apply Z.div_le_upper_bound; nia).
  destruct (py_range_cons 0 (Z.of_nat (List.length rows)) (Z.of_nat (List.length rows) / splits) ltac:(lia) ltac:(lia)) as [l [_ El]]. rewrite El. cbn [parts_loop]. change (Z.to_nat 0) with O. cbn [skipn].
  unfold bilinear_part. rewrite G. cbv zeta.
  assert (L : List.length (List.concat (firstn (Z.to_nat (Z.of_nat (List.length rows) / splits)) rows)) = (Z.to_nat (Z.of_nat (List.length rows) / splits) * cols)%nat).
  { rewrite (concat_length_rows cols _ (Forall_firstn _ _ _ Hr)), firstn_length. f_equal. lia. }
  rewrite L. rewrite progress_step_zero by nia. destruct (List.concat _); [cbn [List.length] in L; nia|reflexivity].
Qed.
Print Assumptions C48_bilinear_small.

(** ** an honest case where the tables differ silently: source with two parallels
    of three points, target of two rows; the first cell of the second row needs
    one exchange, which it has without splits and not with two *)
Definition rowA : list (@target space) := repeat tA 300.
Definition rowB : list (@target space) := tB :: repeat tA 299.
Definition C48_bilinear_full : Prop := forall g query argsort angle solve rotated isatty fuel mub rows cols splits t,
  honest g query (List.concat rows) -> valid_argsort argsort -> Forall (fun r => List.length r = cols) rows -> (1 <= splits <= Z.of_nat (List.length rows))%Z ->
  (forall k, let s := Z.to_nat (Z.of_nat (List.length rows) / splits) in (k * s < List.length rows)%nat -> (250 <= List.length (List.concat (part_of s k rows)))%nat) ->
  bilinear_whole query aim argsort angle solve g rotated isatty fuel mub rows = Some (Ok t) ->
  bilinear_splits query aim argsort angle solve g rotated isatty fuel mub splits rows cols = Some (Ok (map Some t)).

Local Open Scope R_scope.
Lemma global_g6 : is_global g6 = Ok false.
Proof. destruct range6 as [_ [_ [R3 R4]]]; unfold g6, nthR in R3, R4; cbn [longrib nth] in R3, R4; unfold g6; rewrite is_global_cons, R3, R4; unfold ltb, Rabs; rdec; reflexivity. Qed.
Definition cB' : list corner := [mkCorner 0 30 1; mkCorner 0 60 2; mkCorner 60 60 5; mkCorner 60 30 4].
Lemma corners_B' : mapM (corner_of g6 45) [1; 2; 5; 4]%Z = Ok cB'.
Proof.
  assert (E1 : correct_point 45 0 30 = (0, 30)) by cpoint. assert (E2 : correct_point 45 0 60 = (0, 60)) by cpoint. assert (E5 : correct_point 45 60 60 = (60, 60)) by cpoint. assert (E4 : correct_point 45 60 30 = (60, 30)) by cpoint.
  cbn [mapM]. rewrite (corner_at g6 45 1 0 30 _ _ eq_refl eq_refl E1), (corner_at g6 45 2 0 60 _ _ eq_refl eq_refl E2), (corner_at g6 45 5 60 60 _ _ eq_refl eq_refl E5), (corner_at g6 45 4 60 30 _ _ eq_refl eq_refl E4). reflexivity.
Qed.
Lemma exchange_B : exchanges (tree (points g6)) aim g6 (t_loc tB) (t_lat tB) (t_lon tB) 1 (O, map snd (t_near tB)) (1%nat, [1; 2; 5; 4]%Z).
Proof.
  assert (N : map snd (t_near tB) = [1; 2; 0; 4]%Z) by (unfold tB, near_of; cbn [t_near]; rewrite map_map; cbn [snd]; rewrite map_id, (near_B 4) by lia; reflexivity). rewrite N.
  eapply exchanges_more; [|apply exchanges_none].
  apply (exchange_unfit (tree (points g6)) aim g6 (t_loc tB) (t_lat tB) (t_lon tB) 0 [1; 2; 0; 4]%Z cB (mkCorner 0 0 0) [] 5%Z).
  - exact corners_B.
  - unfold cB. cbn [map]. unfold xy. cbn [clat clon]. repeat (apply NoDup_cons; [cbn [In]; intro Q; repeat (destruct Q as [Q|Q]; [injection Q; intros; lra|]); exact Q|]). apply NoDup_nil.
  - change (t_lat tB) with 0. change (t_lon tB) with 45. apply (unfit_south 0 45 _ (mkCorner 0 30 1) (mkCorner 0 60 2) (mkCorner 0 0 0) (mkCorner 60 30 4)); unfold south, north, far; cbn [clat clon]; try lra.
    + reflexivity.
    + unfold Rabs. repeat destruct (Rcase_abs _); lra.
    + unfold Rabs. repeat destruct (Rcase_abs _); lra.
  - change (t_loc tB) with (sphere 0 45). change (5 + 0)%nat with 5%nat. rewrite (near_B 5) by lia. reflexivity.
Qed.
Definition qB : quad := (mkCorner 0 30 1, mkCorner 0 60 2, mkCorner 60 60 5, mkCorner 60 30 4).
Lemma quad_B' : clockwise isort cB' = qB.
Proof.
  unfold clockwise. assert (E : isort (map sort_key cB') = [0; 3; 1; 2]%nat) by (unfold isort, cB', sort_key; cbn [map clat clon List.length seq fold_right]; sortdec; reflexivity). rewrite E.
  cbn [nth]. unfold nthc, cB', low_high, leb. cbn [nth clat]. rdec. reflexivity.
Qed.
(** a solver that is right for the two targets *)
Definition half (_ : quad) (la _ : R) : R * R := if Req_EM_T la 0 then (1 / 2, 0) else (1 / 2, 1 / 2).
Section witness2.
  Context (angle : R * R -> R * R -> R * R -> R).
  Notation cell r := (bilinear_cell (tree (points g6)) aim isort angle half g6 false false r 2 10).
  Lemma cell_A_more r bf : (1 <= r)%Z -> cell r bf tA = Some (Ok (quad_row half qA 30 15, Some qA)).
  Proof.
    intro Hr. assert (F : found (tree (points g6)) aim isort angle g6 false false r 2 10 bf tA qA).
    { split; [pose proof far_A; unfold eps; lra|]. eexists. split; [eapply search_done; [reflexivity|cbn [start f_add]; lia|exact (body_A angle bf)|reflexivity]|]. split; [reflexivity|]. split; reflexivity. }
    exact (found_row (tree (points g6)) aim isort angle half g6 false false r 2 10 bf tA qA (near4 tA (or_introl eq_refl)) F).
  Qed.
  Lemma left_A r n : (1 <= r)%Z -> forall bf, cells_left (tree (points g6)) aim isort angle half g6 false 2 10 false r bf (repeat tA n) = Some (Ok (repeat (quad_row half qA 30 15) n, match n with O => bf | _ => Some qA end)).
  Proof. intro Hr. induction n as [|n IH]; intro bf; cbn [repeat cells_left]; [reflexivity|]. rewrite cell_A_more by exact Hr. rewrite IH. destruct n; reflexivity. Qed.
  Lemma cell_B_two bf : exists ws idx q, cell 2%Z bf tB = Some (Ok (map XF ws, idx, q)) /\ Permutation idx [1; 2; 5; 4]%Z.
  Proof.
    destruct (C105_exchanges_partial space (tree (points g6)) aim isort angle half g6 false 2 2 10 bf tB 1 1 [1; 2; 5; 4]%Z cB' 0 60 30 60) as [ws [idx [q [E [P _]]]]]; try lia; try exact isort_ok; try exact exchange_B; try exact corners_B'.
    - apply (Permutation_trans (l' := [(0, 30); (0, 60); (60, 30); (60, 60)])); [|reflexivity]. unfold cB'. cbn [map]. unfold xy. cbn [clat clon]. apply perm_skip, perm_skip, perm_swap.
    - change (t_lat tB) with 0. lra.
    - lra.
    - change (t_lon tB) with 45. lra.
    - change (t_lat tB) with 0. split; [exists 0|exists 60]; (split; [cbn; tauto|lra]).
    - right. change (t_lon tB) with 45. split; [exists 0|exists 60]; (split; [cbn; tauto|lra]).
    - pose proof far_B. lra.
    - rewrite quad_B'. intros _. change (t_lat tB) with 0. change (t_lon tB) with 45. unfold half. destruct (Req_EM_T 0 0) as [_|N]; [|congruence]. cbn [fst snd]. split; [lra|]. split; [lra|]. unfold qB. cbn [fn_alpha_beta clat clon]. f_equal; lra.
    - exists ws, idx, q. split; [exact E|exact P].
  Qed.
  Lemma whole_AB isatty : exists ws idx, Permutation idx [1; 2; 5; 4]%Z /\ bilinear_whole (tree (points g6)) aim isort angle half g6 false isatty 2 10 [rowA; rowB] =
    Some (Ok (repeat (quad_row half qA 30 15) 300 ++ (map XF ws, idx) :: repeat (quad_row half qA 30 15) 299)%list).
  Proof.
    destruct (cell_B_two (Some qA)) as [ws [idx [q [E P]]]]. exists ws, idx. split; [exact P|]. unfold bilinear_whole, build_bilinear. rewrite global_g6.
    assert (N : List.length (List.concat [rowA; rowB]) = 600%nat) by (unfold rowA, rowB; cbn [List.concat]; rewrite !app_length; cbn [List.length]; rewrite !repeat_length; reflexivity).
    rewrite N. assert (P0 : ((progress_step (Z.of_nat 600) isatty =? 0) = false)%Z) by (destruct isatty; vm_compute; reflexivity). rewrite P0. cbn [andb].
    rewrite left_fst. change (Z.of_nat (List.length [rowA; rowB])) with 2%Z. unfold rowA, rowB. cbn [List.concat]. rewrite app_nil_r, left_app, (left_A 2 300) by lia. cbn [cells_left]. rewrite E, (left_A 2 299) by lia. reflexivity.
  Qed.
  Lemma splits_AB isatty : bilinear_splits (tree (points g6)) aim isort angle half g6 false isatty 2 10 2 [rowA; rowB] 300 =
    Some (Ok (map Some (repeat (quad_row half qA 30 15) 300 ++ quad_row half qA 0 45 :: repeat (quad_row half qA 30 15) 299)%list)).
  Proof.
    unfold bilinear_splits. cbn [Z.eqb]. change (Z.of_nat (List.length [rowA; rowB]) / 2)%Z with 1%Z. change (py_range 0 (Z.of_nat (List.length [rowA; rowB])) 1) with (@Ok (list Z) [0; 1]%Z).
    set (none := repeat None (List.length [rowA; rowB] * 300)).
    assert (PA : forall bf, bilinear_part (tree (points g6)) aim isort angle half g6 false isatty 2 10 bf [rowA] = Some (Ok (repeat (quad_row half qA 30 15) 300, Some qA))).
    { intro bf. unfold bilinear_part. rewrite global_g6. cbv zeta. unfold rowA. cbn [List.concat]. rewrite app_nil_r, repeat_length.
      assert (P0 : ((progress_step (Z.of_nat 300) isatty =? 0) = false)%Z) by (destruct isatty; vm_compute; reflexivity). rewrite P0. cbn [andb]. rewrite left_A by (cbn; lia). reflexivity. }
    assert (PB : bilinear_part (tree (points g6)) aim isort angle half g6 false isatty 2 10 (Some qA) [rowB] = Some (Ok (quad_row half qA 0 45 :: repeat (quad_row half qA 30 15) 299, Some qA))).
    { unfold bilinear_part. rewrite global_g6. cbv zeta. unfold rowB. cbn [List.concat]. rewrite app_nil_r. cbn [List.length]. rewrite repeat_length.
      assert (P0 : ((progress_step (Z.of_nat 300) isatty =? 0) = false)%Z) by (destruct isatty; vm_compute; reflexivity). rewrite P0. cbn [andb cells_left]. change (Z.of_nat 1) with 1%Z.
      rewrite (cell_B angle half 1 qA), left_A by lia. reflexivity. }
    cbn [parts_loop]. change (Z.to_nat 0) with 0%nat. change (Z.to_nat 1) with 1%nat. cbn [skipn firstn]. rewrite PA.
    assert (S1 : store none (0 * 300) (Z.to_nat (0 + 1) * 300) (Mat (repeat (quad_row half qA 30 15) 300)) = Ok (map Some (repeat (quad_row half qA 30 15) 300) ++ repeat None 300)%list).
    { pose proof (store_end (W := xr) [] (repeat (quad_row half qA 30 15) 300) 0 300 300 eq_refl ltac:(lia)) as S. rewrite repeat_length in S. exact (S eq_refl). }
    rewrite S1. rewrite PB.
    pose proof (store_end (W := xr) (repeat (quad_row half qA 30 15) 300) (quad_row half qA 0 45 :: repeat (quad_row half qA 30 15) 299) 300 600 0) as S2.
    rewrite repeat_length in S2. cbn [List.length] in S2. rewrite repeat_length in S2. specialize (S2 eq_refl ltac:(lia) eq_refl). change (1 * 300)%nat with 300%nat. change (Z.to_nat (1 + 1) * 300)%nat with 600%nat.
    change (S 299 + 0)%nat with 300%nat in S2. rewrite S2. cbn [repeat]. rewrite app_nil_r. reflexivity.
  Qed.
End witness2.
Theorem C48_bilinear_refuted : ~ C48_bilinear_full.
Proof.
  intro H. destruct (whole_AB (fun _ _ _ => 0) true) as [ws [idx [P W]]].
  assert (Ho : honest g6 (tree (points g6)) (List.concat [rowA; rowB])).
  { apply honest_AB. intros t Ht. cbn [List.concat] in Ht. rewrite app_nil_r in Ht. apply in_app_or in Ht. destruct Ht as [Ht|Ht].
    - left. unfold rowA in Ht. apply repeat_spec in Ht. exact Ht.
    - unfold rowB in Ht. cbn [In] in Ht. destruct Ht as [<-|Ht]; [right; reflexivity|left; apply repeat_spec in Ht; exact Ht]. }
  assert (F : Forall (fun r : list (@target space) => List.length r = 300%nat) [rowA; rowB]).
  { apply Forall_cons; [apply repeat_length|]. apply Forall_cons; [|apply Forall_nil]. unfold rowB. change (S (List.length (repeat tA 299)) = 300%nat). now rewrite repeat_length. }
  assert (Big : forall k, let s := Z.to_nat (Z.of_nat (List.length [rowA; rowB]) / 2) in (k * s < List.length [rowA; rowB])%nat -> (250 <= List.length (List.concat (part_of s k [rowA; rowB])))%nat).
  { intros k s Hk. change s with 1%nat in *. clear s. unfold part_of. rewrite (concat_length_rows 300 _ (Forall_firstn _ _ _ (Forall_skipn _ _ _ F))). rewrite firstn_length, skipn_length. cbn [List.length] in *. lia. }
  pose proof (H g6 (tree (points g6)) isort (fun _ _ _ => 0) half false true 2%nat 10 [rowA; rowB] 300%nat 2%Z _ Ho isort_ok F ltac:(cbn [List.length]; lia) Big W) as K. clear H Ho F Big W.
  rewrite splits_AB in K. assert (K' : nth_error (map Some (repeat (quad_row half qA 30 15) 300 ++ quad_row half qA 0 45 :: repeat (quad_row half qA 30 15) 299)%list) 300 = nth_error (map Some (repeat (quad_row half qA 30 15) 300 ++ (map XF ws, idx) :: repeat (quad_row half qA 30 15) 299)%list) 300).
  { set (x := map Some _) in *. set (y := map Some _) in *. clearbody x y. congruence. }
  clear K. rewrite !nth_error_map, !nth_error_app2 in K' by (rewrite repeat_length; lia). rewrite repeat_length, Nat.sub_diag in K'. cbn [nth_error option_map] in K'.
  assert (E : idx = [0; 1; 4; 3]%Z) by (assert (E : quad_row half qA 0 45 = (map XF ws, idx)) by congruence; apply (f_equal snd) in E; cbn [snd] in E; rewrite <- E; unfold quad_row, qA; destruct (half _ 0 45); reflexivity).
  subst idx. apply (Permutation_in (l := [0; 1; 4; 3]%Z) 0%Z) in P; [|now left]. cbn [In] in P. lia.
Qed.
Print Assumptions C48_bilinear_refuted.

(** the hypotheses of the other theorems: two rows of cells found at once *)
Example C48_bilinear_nonvacuous : is_global g6 = Ok false /\ Forall (fun r : list (@target space) => List.length r = 300%nat) [rowA; rowA] /\
  (forall k, let s := Z.to_nat (Z.of_nat (List.length [rowA; rowA]) / 2) in (k * s < List.length [rowA; rowA])%nat ->
     (250 <= List.length (List.concat (part_of s k [rowA; rowA])))%nat /\
     forall t, In t (List.concat (part_of s k [rowA; rowA])) -> in_time (tree (points g6)) aim isort (fun _ _ _ => 0) g6 false 2 10 (Z.of_nat (List.length (part_of s k [rowA; rowA]))) t) /\
  (exists t, bilinear_whole (tree (points g6)) aim isort (fun _ _ _ => 0) half g6 false true 2 10 [rowA; rowA] = Some (Ok t) /\ List.length t = 600%nat).
Proof.
  assert (F : Forall (fun r : list (@target space) => List.length r = 300%nat) [rowA; rowA]) by (apply Forall_cons; [apply repeat_length|]; apply Forall_cons; [apply repeat_length|apply Forall_nil]).
  split; [exact global_g6|]. split; [exact F|]. split.
  - intros k s Hk. change s with 1%nat in *. clear s. split.
    + unfold part_of. rewrite (concat_length_rows 300 _ (Forall_firstn _ _ _ (Forall_skipn _ _ _ F))). rewrite firstn_length, skipn_length. cbn [List.length] in *. lia.
    + intros t Ht. assert (E : t = tA).
      { apply in_concat in Ht. destruct Ht as [r [Hr Ht]]. assert (Hr' : In r [rowA; rowA]) by (unfold part_of in Hr; rewrite <- (firstn_skipn (k * 1) [rowA; rowA]); apply in_or_app; right; rewrite <- (firstn_skipn 1 (skipn (k * 1) [rowA; rowA])); apply in_or_app; left; exact Hr).
        assert (Er : r = rowA) by (destruct Hr' as [<-|[<-|[]]]; reflexivity). subst r. unfold rowA in Ht. now apply repeat_spec in Ht. }
      subst t. right. right. intro bf. eexists. split; [eapply search_done; [reflexivity|cbn [start f_add]|exact (body_A (fun _ _ _ => 0) bf)|reflexivity]|reflexivity].
      unfold part_of. rewrite firstn_length, skipn_length. cbn [List.length] in *. lia.
  - eexists. split.
    + unfold bilinear_whole, build_bilinear. rewrite global_g6. change (List.concat [rowA; rowA]) with (rowA ++ rowA ++ [])%list. rewrite app_nil_r. unfold rowA. rewrite <- repeat_app. rewrite repeat_length. change (300 + 300)%nat with 600%nat.
      assert (P0 : ((progress_step (Z.of_nat 600) true =? 0) = false)%Z) by (vm_compute; reflexivity). rewrite P0. cbn [andb]. rewrite left_fst, left_A by (cbn [List.length]; lia). reflexivity.
    + apply repeat_length.
Qed.
