(** * Bilinear_P4: the search for a quadrilateral *)
From Verif Require Import Base Base_P Num Strings Xr Adw Bilinear Spec_Bilinear Bilinear_P Bilinear_P2 Bilinear_P3.
From Coq Require Import Psatz Permutation.
Local Open Scope R_scope.

Lemma put_from_end_length news : forall wrong idx n idx', put_from_end idx wrong n news = Ok idx' -> List.length idx' = List.length idx.
Proof.
  induction wrong as [|w wrong IH]; intros idx n idx' H; cbn [put_from_end] in H; [congruence|]. apply rbind_ok in H. destruct H as [x [_ H]]. apply IH in H. rewrite H. unfold put_index. apply map_length.
Qed.

Section search.
  Context {Loc : Type} (query : Loc -> nat -> list Z) (locate : R -> R -> Loc)
          (argsort : list R -> list nat) (angle : R * R -> R * R -> R * R -> R) (solve : quad -> R -> R -> R * R)
          (g : source) (global rotated : bool) (max_retries : Z).
  Notation body' := (body query locate argsort angle g global rotated).
  Notation search' := (search query locate argsort angle g global rotated max_retries).
  Notation repl := (replace_index query). Notation close := (replace_close_to query locate).

  Lemma repl_ok loc w idx a idx' a' : repl loc w idx a = Ok (idx', a') -> List.length idx' = List.length idx /\ a' = (a + Z.of_nat (List.length w))%Z.
  Proof. unfold replace_index. intro H. apply rbind_ok in H. destruct H as [x [H E]]. apply put_from_end_length in H. inversion E; subst. split; [exact H|reflexivity]. Qed.
  Lemma close_ok la lo w idx idx' b : close la lo w idx = Ok (idx', b) -> List.length idx' = List.length idx.
  Proof. unfold replace_close_to. intro H. apply rbind_ok in H. destruct H as [x [H E]]. apply put_from_end_length in H. inversion E; subst. exact H. Qed.

  (** the quadrilateral of these points contains the target *)
  Definition accepted (la lo : R) (cs : list corner) : Prop :=
    let '(p1, p2, p3, p4) := clockwise argsort cs in
    (is_convex (xy p1) (xy p2) (xy p3) (xy p4) = true \/ rotated = true) /\ in_quad (la, lo) (xy p1) (xy p2) (xy p3) (xy p4) = true.

  Lemma parallels_cases loc la lo cs st st' : parallels_checks query locate g loc la lo cs st = Ok st' ->
    List.length (f_idx st') = List.length (f_idx st) /\ f_quad st' = f_quad st /\
    ((f_done st' = Some (first_row, f_idx st) /\ f_ok st' = true) \/
     (f_done st' = None /\ f_ok st' = false /\ f_checks st' = false) \/
     (f_done st' = None /\ f_ok st' = false /\ f_checks st' = true /\ f_idx st' = f_idx st /\ f_add st' = f_add st)).
  Proof.
    unfold parallels_checks. destruct (wrong_direction la lo cs) as [|w ws].
    - intro H. apply rbind_ok in H. destruct H as [[w|] [_ H]].
      + apply rbind_ok in H. destruct H as [[idx' a] [H E]]. apply repl_ok in H. destruct H as [H _]. inversion E; subst. cbn. split; [exact H|]. split; [reflexivity|]. right. left. repeat split.
      + apply rbind_ok in H. destruct H as [[[[w la'] lo']|] [_ H]].
        * apply rbind_ok in H. destruct H as [[idx' b] [H E]]. apply close_ok in H. inversion E; subst. cbn. split; [exact H|]. split; [reflexivity|]. right. left. repeat split.
        * inversion H; subst. cbn. split; [reflexivity|]. split; [reflexivity|]. right. right. repeat split.
    - destruct (beyond_latitudes g la); intro H; apply rbind_ok in H.
      + destruct H as [[idx' b] [H E]]. apply close_ok in H. destruct b; inversion E; subst; cbn; (split; [exact H|]); (split; [reflexivity|]); [right; left|left]; repeat split.
      + destruct H as [[idx' a] [H E]]. apply repl_ok in H. destruct H as [H _]. inversion E; subst. cbn. split; [exact H|]. split; [reflexivity|]. right. left. repeat split.
  Qed.
  Lemma quad_cases loc la lo cs st st' : quad_checks query argsort angle rotated loc la lo cs st = Ok st' ->
    List.length (f_idx st') = List.length (f_idx st) /\ f_quad st' = Some (clockwise argsort cs) /\ f_done st' = None /\ f_checks st' = true /\
    ((f_ok st' = false /\ f_add st' = (f_add st + 1)%Z) \/ (f_ok st' = true /\ f_idx st' = f_idx st /\ accepted la lo cs)).
  Proof.
    unfold quad_checks, accepted. destruct (clockwise argsort cs) as [[[p1 p2] p3] p4].
    destruct (is_convex (xy p1) (xy p2) (xy p3) (xy p4) || rotated)%bool eqn:C.
    - apply orb_true_iff in C. destruct (in_quad (la, lo) (xy p1) (xy p2) (xy p3) (xy p4)) eqn:Q.
      + intro H. inversion H; subst. cbn. split; [reflexivity|]. split; [reflexivity|]. split; [reflexivity|]. split; [reflexivity|]. right. repeat split. exact C.
      + intro H. apply rbind_ok in H. destruct H as [w [_ H]]. apply rbind_ok in H. destruct H as [[idx' a] [H E]]. apply repl_ok in H. destruct H as [H ->]. inversion E; subst. cbn. split; [exact H|]. repeat (split; [reflexivity|]). left. split; reflexivity.
    - destruct (nonconvex_vertex angle (p1, p2, p3, p4)) as [w|]; [|discriminate]. intro H. apply rbind_ok in H. destruct H as [[idx' a] [H E]]. apply repl_ok in H. destruct H as [H ->]. inversion E; subst. cbn. split; [exact H|]. repeat (split; [reflexivity|]). left. split; reflexivity.
  Qed.

  Definition corners_are (lo : R) (idx : list Z) (cs : list corner) : Prop := mapM (corner_of g lo) idx = Ok cs.
  (** one round *)
  Lemma body_cases loc la lo st st' : f_done st = None -> f_ok st = false -> body' loc la lo st = Ok st' ->
    List.length (f_idx st') = List.length (f_idx st) /\
    ((outside g global la lo = true /\ f_done st' = Some (nan_row, f_idx st) /\ f_ok st' = true) \/
     (f_done st' = Some (first_row, f_idx st) /\ f_ok st' = true /\ beyond_latitudes g la = true) \/
     (f_done st' = None /\ f_ok st' = false /\ f_checks st' = false /\ f_quad st' = f_quad st /\ f_checks st = false) \/
     (f_done st' = None /\ f_ok st' = false /\ f_checks st' = true /\ f_add st' = (f_add st + 1)%Z /\ exists cs, corners_are lo (f_idx st) cs /\ f_quad st' = Some (clockwise argsort cs)) \/
     (f_done st' = None /\ f_ok st' = true /\ f_idx st' = f_idx st /\ exists cs, corners_are lo (f_idx st) cs /\ f_quad st' = Some (clockwise argsort cs) /\ accepted la lo cs)).
  Proof.
    intros D O H. unfold body in H. apply rbind_ok in H. destruct H as [cs [Hcs H]]. destruct (outside g global la lo) eqn:Out.
    - inversion H; subst. cbn. split; [reflexivity|]. left. repeat split.
    - apply rbind_ok in H. destruct H as [st1 [H1 H]].
      assert (C : (st1 = st /\ f_checks st = true) \/ (f_checks st = false /\ parallels_checks query locate g loc la lo cs st = Ok st1)).
      { destruct (f_checks st) eqn:Ck; [left; split; congruence|right; split; [reflexivity|exact H1]]. }
      destruct C as [[-> Ck]|[Ck Hp]].
      + rewrite D, Ck in H. destruct (quad_cases _ _ _ _ _ _ H) as [L [Q [D' [Ck' X]]]]. split; [exact L|]. destruct X as [[O' A]|[O' [I A]]]; [right; right; right; left|right; right; right; right].
        * repeat (split; [assumption|]). exists cs. split; [exact Hcs|exact Q].
        * repeat (split; [assumption|]). exists cs. repeat (split; [assumption|]). assumption.
      + destruct (parallels_cases _ _ _ _ _ _ Hp) as [L [Q X]]. destruct X as [[D1 O1]|[[D1 [O1 C1]]|[D1 [O1 [C1 [I1 A1]]]]]]; rewrite D1 in H.
        * assert (E : st' = st1) by congruence. subst st'. split; [exact L|]. right. left. split; [exact D1|]. split; [exact O1|].
          clear - Hp D1. unfold parallels_checks in Hp. destruct (wrong_direction la lo cs).
          -- apply rbind_ok in Hp. destruct Hp as [[w|] [_ H]]; [apply rbind_ok in H; destruct H as [[? ?] [_ H]]; inversion H; subst; discriminate D1|].
             apply rbind_ok in H. destruct H as [[[[? ?] ?]|] [_ H]]; [apply rbind_ok in H; destruct H as [[? ?] [_ H]]|]; inversion H; subst; discriminate D1.
          -- destruct (beyond_latitudes g la); [reflexivity|]. apply rbind_ok in Hp. destruct Hp as [[? ?] [_ H]]. inversion H; subst; discriminate D1.
        * rewrite C1 in H. assert (E : st' = st1) by congruence. subst st'. split; [exact L|]. right. right. left. repeat (split; [assumption|]). exact Ck.
        * rewrite C1 in H. destruct (quad_cases _ _ _ _ _ _ H) as [L' [Q' [D' [Ck' X]]]]. rewrite I1 in L'. split; [exact L'|]. rewrite A1, I1 in X. destruct X as [[O' A]|[O' [I A]]]; [right; right; right; left|right; right; right; right].
          -- repeat (split; [assumption|]). exists cs. split; [exact Hcs|exact Q'].
          -- repeat (split; [assumption|]). exists cs. repeat (split; [assumption|]). assumption.
  Qed.

  (** the end of the search *)
  Inductive ending (la lo : R) (before : option quad) (st : state) : Prop :=
  | end_outside idx : outside g global la lo = true -> f_done st = Some (nan_row, idx) -> List.length idx = 4%nat -> ending la lo before st
  | end_first idx : beyond_latitudes g la = true -> f_done st = Some (first_row, idx) -> List.length idx = 4%nat -> ending la lo before st
  | end_accepted idx cs : f_done st = None -> f_ok st = true -> List.length idx = 4%nat -> corners_are lo idx cs -> f_quad st = Some (clockwise argsort cs) -> accepted la lo cs -> ending la lo before st
  | end_gave_up idx cs : f_done st = None -> f_ok st = false -> (max_retries <= f_add st)%Z -> List.length idx = 4%nat -> corners_are lo idx cs -> f_quad st = Some (clockwise argsort cs) -> ending la lo before st
  | end_stale : f_done st = None -> f_ok st = false -> (max_retries <= f_add st)%Z -> f_checks st = false -> f_quad st = before -> ending la lo before st.

  Lemma search_ending loc la lo before fuel : forall st st', f_done st = None -> f_ok st = false -> List.length (f_idx st) = 4%nat ->
    ((f_quad st = before /\ (f_checks st = false \/ f_add st < max_retries)%Z) \/ exists idx cs, List.length idx = 4%nat /\ corners_are lo idx cs /\ f_quad st = Some (clockwise argsort cs)) ->
    search' fuel loc la lo st = Some (Ok st') -> ending la lo before st'.
  Proof.
    induction fuel as [|fuel IH]; intros st st' D O L Q H; cbn [search] in H; rewrite O in H; cbn [orb] in H; destruct (Z.leb_spec max_retries (f_add st)) as [G|G].
    - assert (st' = st) by congruence. subst st'. destruct Q as [[Q C]|[idx [cs [L' [Hcs Q]]]]]; [|eapply end_gave_up; eassumption]. destruct C as [C|C]; [apply end_stale; assumption|lia].
    - discriminate.
    - assert (st' = st) by congruence. subst st'. destruct Q as [[Q C]|[idx [cs [L' [Hcs Q]]]]]; [|eapply end_gave_up; eassumption]. destruct C as [C|C]; [apply end_stale; assumption|lia].
    - destruct (body' loc la lo st) as [st1|e] eqn:B; [|discriminate]. destruct (body_cases loc la lo st st1 D O B) as [L1 X]. rewrite L in L1.
      assert (Fin : f_ok st1 = true -> search' fuel loc la lo st1 = Some (Ok st1)) by (intro O1; destruct fuel; cbn [search]; rewrite O1; reflexivity).
      destruct X as [[Out [D1 O1]]|[[D1 [O1 Bey]]|[[D1 [O1 [C1 [Q1 C0]]]]|[[D1 [O1 [C1 [A1 [cs [Hcs Q1]]]]]]|[D1 [O1 [I1 [cs [Hcs [Q1 A1]]]]]]]]]].
      + rewrite (Fin O1) in H. assert (st' = st1) by congruence. subst st'. eapply end_outside; eassumption.
      + rewrite (Fin O1) in H. assert (st' = st1) by congruence. subst st'. eapply end_first; eassumption.
      + eapply (IH st1); try eassumption. destruct Q as [[Q C]|Q]; [left; split; [congruence|left; exact C1]|right]. destruct Q as [idx [cs [L' [Hcs Q]]]]. exists idx, cs. repeat (split; [assumption|]). congruence.
      + eapply (IH st1); try eassumption. right. exists (f_idx st), cs. repeat (split; [assumption|]). assumption.
      + rewrite (Fin O1) in H. assert (st' = st1) by congruence. subst st'. apply (end_accepted _ _ _ _ (f_idx st) cs); assumption.
  Qed.

  (** rounds with all checks done: at most as many as retries *)
  Lemma search_terminates loc la lo fuel : forall st, f_done st = None -> f_ok st = false -> f_checks st = true -> (max_retries <= f_add st + Z.of_nat fuel)%Z -> search' fuel loc la lo st <> None.
  Proof.
    induction fuel as [|fuel IH]; intros st D O C A; cbn [search]; rewrite O; cbn [orb]; destruct (Z.leb_spec max_retries (f_add st)); try discriminate; try lia.
    destruct (body' loc la lo st) as [st1|e] eqn:B; [|discriminate]. destruct (body_cases loc la lo st st1 D O B) as [L1 X].
    assert (Fin : f_ok st1 = true -> search' fuel loc la lo st1 = Some (Ok st1)) by (intro O1; destruct fuel; cbn [search]; rewrite O1; reflexivity).
    destruct X as [[Out [D1 O1]]|[[D1 [O1 Bey]]|[[D1 [O1 [C1 [Q1 C0]]]]|[[D1 [O1 [C1 [A1 [cs [Hcs Q1]]]]]]|[D1 [O1 [I1 [cs [Hcs [Q1 A1]]]]]]]]]]; try (rewrite (Fin O1); discriminate); [congruence|].
    apply IH; try assumption. lia.
  Qed.
  (** the search never looks at p1..p4 of the cell before *)
  Definition with_quad (q : option quad) (st : state) : state := mkState (f_idx st) (f_add st) (f_checks st) (f_ok st) q (f_done st).
  Definition uniform (f : option quad -> res state) : Prop :=
    (exists e, forall q, f q = Raise e) \/ (exists st, forall q, f q = Ok st) \/ (exists st, forall q, f q = Ok (with_quad q st)).
  Lemma uniform_bind {A} (x : res A) (k : A -> option quad -> res state) : (forall a, x = Ok a -> uniform (k a)) -> uniform (fun q => do a <- x; k a q).
  Proof. intro H. destruct x as [a|e]; [exact (H a eq_refl)|left; exists e; reflexivity]. Qed.
  Lemma parallels_uniform loc la lo cs st : (exists e, forall q, parallels_checks query locate g loc la lo cs (with_quad q st) = Raise e) \/ (exists st1, forall q, parallels_checks query locate g loc la lo cs (with_quad q st) = Ok (with_quad q st1)).
  Proof.
    unfold parallels_checks. cbn [with_quad f_idx f_add f_checks f_quad]. destruct (wrong_direction la lo cs) as [|w ws].
    - destruct (wrong_grid_like la lo cs) as [[w|]|e]; cbn [rbind]; [| |left; eexists; reflexivity].
      + destruct (repl loc [w] (f_idx st) (f_add st)) as [[idx' a]|e]; cbn [rbind]; [|left; eexists; reflexivity]. right. exists (mkState idx' a false false None None). reflexivity.
      + destruct (wrong_best_grid_like la lo cs) as [[[[w la'] lo']|]|e]; cbn [rbind]; [| |left; eexists; reflexivity].
        * destruct (close la' lo' [w] (f_idx st)) as [[idx' b]|e]; cbn [rbind]; [|left; eexists; reflexivity]. right. exists (mkState idx' (f_add st) false false None None). reflexivity.
        * right. exists (mkState (f_idx st) (f_add st) true false None None). reflexivity.
    - destruct (beyond_latitudes g la).
      + destruct (close (180 - la) lo (w :: ws) (f_idx st)) as [[idx' b]|e]; cbn [rbind]; [|left; eexists; reflexivity]. right. destruct b; [exists (mkState idx' (f_add st) false false None None)|exists (mkState idx' (f_add st) false true None (Some (first_row, f_idx st)))]; reflexivity.
      + destruct (repl loc (w :: ws) (f_idx st) (f_add st)) as [[idx' a]|e]; cbn [rbind]; [|left; eexists; reflexivity]. right. exists (mkState idx' a false false None None). reflexivity.
  Qed.
  Lemma quad_uniform loc la lo cs st : (exists e, forall q, quad_checks query argsort angle rotated loc la lo cs (with_quad q st) = Raise e) \/ (exists st1, forall q, quad_checks query argsort angle rotated loc la lo cs (with_quad q st) = Ok st1).
  Proof. change (forall q, True -> True) with (forall (q : option quad), True -> True). destruct (quad_checks query argsort angle rotated loc la lo cs (with_quad None st)) as [st1|e] eqn:E; [right; exists st1|left; exists e]; intro q; rewrite <- E; reflexivity. Qed.
  Definition tail loc la lo cs st : res state :=
    do st1 <- (if f_checks st then Ok st else parallels_checks query locate g loc la lo cs st);
    match f_done st1 with Some _ => Ok st1 | None => if f_checks st1 then quad_checks query argsort angle rotated loc la lo cs st1 else Ok st1 end.
  Lemma tail_uniform loc la lo cs st : uniform (fun q => tail loc la lo cs (with_quad q st)).
  Proof.
    unfold tail. destruct (f_checks st) eqn:C.
    - destruct (f_done st) eqn:D.
      + right. right. exists st. intro q. change (f_checks (with_quad q st)) with (f_checks st). rewrite C. cbn [rbind]. change (f_done (with_quad q st)) with (f_done st). rewrite D. reflexivity.
      + destruct (quad_uniform loc la lo cs st) as [[e H]|[st1 H]]; [left; exists e|right; left; exists st1]; intro q; change (f_checks (with_quad q st)) with (f_checks st); rewrite C; cbn [rbind]; change (f_done (with_quad q st)) with (f_done st); change (f_checks (with_quad q st)) with (f_checks st); rewrite D, C; apply H.
    - destruct (parallels_uniform loc la lo cs st) as [[e H]|[st1 H]].
      + left. exists e. intro q. change (f_checks (with_quad q st)) with (f_checks st). rewrite C, (H q). reflexivity.
      + destruct (f_done st1) eqn:D1; [|destruct (f_checks st1) eqn:C1].
        * right. right. exists st1. intro q. change (f_checks (with_quad q st)) with (f_checks st). rewrite C, (H q). cbn [rbind]. change (f_done (with_quad q st1)) with (f_done st1). rewrite D1. reflexivity.
        * destruct (quad_uniform loc la lo cs st1) as [[e G]|[st2 G]]; [left; exists e|right; left; exists st2]; intro q; change (f_checks (with_quad q st)) with (f_checks st); rewrite C, (H q); cbn [rbind]; change (f_done (with_quad q st1)) with (f_done st1); change (f_checks (with_quad q st1)) with (f_checks st1); rewrite D1, C1; apply G.
        * right. right. exists st1. intro q. change (f_checks (with_quad q st)) with (f_checks st). rewrite C, (H q). cbn [rbind]. change (f_done (with_quad q st1)) with (f_done st1). change (f_checks (with_quad q st1)) with (f_checks st1). rewrite D1, C1. reflexivity.
  Qed.
  Lemma body_uniform loc la lo st : uniform (fun q => body' loc la lo (with_quad q st)).
  Proof.
    unfold body. change (uniform (fun q => do cs <- mapM (corner_of g lo) (f_idx st); if outside g global la lo then Ok (mkState (f_idx st) (f_add st) (f_checks st) true q (Some (nan_row, f_idx st))) else tail loc la lo cs (with_quad q st))).
    apply uniform_bind. intros cs _. destruct (outside g global la lo); [|apply tail_uniform].
    right. right. exists (mkState (f_idx st) (f_add st) (f_checks st) true None (Some (nan_row, f_idx st))). reflexivity.
  Qed.
  Lemma search_uniform loc la lo fuel : forall st, (forall q, search' fuel loc la lo (with_quad q st) = None) \/ exists f, uniform f /\ forall q, search' fuel loc la lo (with_quad q st) = Some (f q).
  Proof.
    induction fuel as [|fuel IH]; intro st; cbn [search]; cbn [with_quad f_ok f_add]; destruct (f_ok st || (max_retries <=? f_add st)%Z)%bool.
    - right. exists (fun q => Ok (with_quad q st)). split; [right; right; exists st; reflexivity|reflexivity].
    - left. reflexivity.
    - right. exists (fun q => Ok (with_quad q st)). split; [right; right; exists st; reflexivity|reflexivity].
    - change (mkState (f_idx st) (f_add st) (f_checks st) (f_ok st) ?q (f_done st)) with (with_quad q st).
      destruct (body_uniform loc la lo st) as [[e H]|[[st1 H]|[st1 H]]].
      + right. exists (fun _ => Raise e). split; [left; exists e; reflexivity|]. intro q. cbn beta in H. now rewrite H.
      + destruct (search' fuel loc la lo st1) as [r|] eqn:E; [right; exists (fun _ => r)|left; intro q; now rewrite H].
        split; [|intro q; now rewrite H]. destruct r as [st2|e]; [right; left; exists st2; reflexivity|left; exists e; reflexivity].
      + destruct (IH st1) as [N|[f [U N]]]; [left; intro q; rewrite H; apply N|right; exists f; split; [exact U|]; intro q; rewrite H; apply N].
  Qed.
  Lemma cell_place fuel mub t r q0 before : bilinear_cell query locate argsort angle solve g global rotated max_retries fuel mub None t = Some (Ok (r, q0)) ->
    exists q, bilinear_cell query locate argsort angle solve g global rotated max_retries fuel mub before t = Some (Ok (r, q)).
  Proof.
    unfold bilinear_cell. destruct (leb _ _); [intro H; exists before; congruence|]. destruct (ltb _ _); [intro H; exists before; congruence|].
    change (start rotated before t) with (with_quad before (start rotated None t)). change (start rotated None t) with (with_quad None (start rotated None t)) at 1.
    destruct (search_uniform (t_loc t) (t_lat t) (t_lon t) fuel (start rotated None t)) as [N|[f [U N]]]; [rewrite N; discriminate|]. rewrite (N None), (N before).
    destruct U as [[e H]|[[st1 H]|[st1 H]]]; rewrite (H None), (H before); [discriminate| |].
    - destruct (finish solve (t_lat t) (t_lon t) st1); [|discriminate]. intro E. exists (f_quad st1). congruence.
    - unfold finish. cbn [with_quad f_done f_quad]. destruct (f_done st1); [intro E; exists before; congruence|discriminate].
  Qed.
End search.
