(** * Averages and extraction: which cells are combined, for any arithmetic *)
From Verif Require Import Base Num Float64 Aggregator AggregatorWith Spec_Aggregation Base_P Num_P Aggregator_P Aggregator_P4 AggregatorWith_P2.
From Coq Require Import Lia List.
Local Open Scope Z_scope.

Section With.
  Variables add sub mul div : num -> num -> num.

  Lemma plain_fold v i : forall ts s c s' c', foldM (avg_plain_body_with add v) ts (s, c) = Ok (s', c') ->
    c' = fold_left (fun c _ => add c (nint 1)) ts c /\
    forall xs, Forall2 (fun t x => exists a, avg_pick v t = Ok a /\ nth_error (adata a) i = Some x) ts xs ->
    forall b, nth_error s i = Some b -> nth_error s' i = Some (fold_left add xs b).
  Proof.
    induction ts as [|t ts IH]; intros s c s' c' H; cbn [foldM] in H.
    - injection H as <- <-. split; [reflexivity|]. intros xs Hx b Hb. inversion Hx. exact Hb.
    - apply rbind_ok in H as [[s1 c1] [H1 H]]. unfold avg_plain_body_with in H1.
      apply rbind_ok in H1 as [a [Ha H1]]. change (avg_pick v t = Ok a) in Ha.
      apply rbind_ok in H1 as [s2 [Hs H1]]. injection H1 as <- <-.
      destruct (IH _ _ _ _ H) as [Ec Ev]. split; [exact Ec|].
      intros xs Hx b Hb. inversion Hx as [|t0 x ts0 xs0 [a' [Ha' Hxa]] Hr]; subst. cbn [fold_left].
      apply Ev; [exact Hr|]. assert (a' = a) by congruence. subst a'.
      apply ew2_inv in Hs as [_ ->]. apply nth_error_zipw; assumption.
  Qed.

  Lemma average_cells stype input unit s force start end_ sec values out :
    let g := aggr_init stype input unit s "average" false force start end_ sec in
    0 < s -> do_manipulation_with add sub mul div g values = Ok out ->
    exists k0 a0 rest, values = (k0, a0) :: rest /\ forall k a, In (k, a) out ->
      forall i xs, Forall2 (fun t x => exists a, avg_pick (by_end_step values) t = Ok a /\ nth_error (adata a) i = Some x) (unit_steps (s_start k) s) xs ->
      (i < asize a0)%nat ->
      nth_error (adata a) i = Some (div (fold_left add xs (Fin 0)) (fold_left (fun c _ => add c (nint 1)) (unit_steps (s_start k) s) (nint 0))).
  Proof.
    intros g Hs H. unfold do_manipulation_with in H. cbn [a_type g aggr_init] in H.
    destruct (String.eqb_spec "average" "accumulation") as [E|_]; [discriminate E|]. rewrite String.eqb_refl in H.
    unfold average_with in H. destruct (String.eqb _ _); [discriminate|]. apply rbind_ok in H as [[k0 a0] [H0 H]].
    destruct (avg_bounds g) as [lo hi]. apply rbind_ok in H as [its [Hi H]].
    destruct values as [|kv rest]; [discriminate|]. injection H0 as ->. exists k0, a0, rest. split; [reflexivity|].
    set (values := (k0, a0) :: rest) in *.
    refine (foldM_inv _ (fun out => forall k a, In (k, a) out ->
      forall i xs, Forall2 (fun t x => exists a, avg_pick (by_end_step values) t = Ok a /\ nth_error (adata a) i = Some x) (unit_steps (s_start k) s) xs ->
      (i < asize a0)%nat ->
      nth_error (adata a) i = Some (div (fold_left add xs (Fin 0)) (fold_left (fun c _ => add c (nint 1)) (unit_steps (s_start k) s) (nint 0)))) _ _ _ _ _ H).
    - intros o1 x o2 _ IH Hb k a Hin i xs Hx Hlt. unfold avg_body_with in Hb. change (a_half g) with false in Hb. cbv iota in Hb.
      apply rbind_ok in Hb as [[sm ct] [Hp Hb]]. injection Hb as <-.
      apply In_dset_step in Hin as [[-> ->]|Hin]; [|now apply (IH k a Hin)].
      cbn [s_start] in *. unfold avg_plain_with in Hp. change (a_step g) with s in Hp.
      apply rbind_ok in Hp as [ts [Hts Hp]].
      assert (Et : ts = unit_steps x s).
      { rewrite unit_steps_range in Hts by lia. congruence. }
      subst ts. destruct (plain_fold _ i _ _ _ _ _ Hp) as [-> Hv].
      unfold masked_where. cbn [adata]. rewrite nth_error_map, (Hv xs Hx (Fin 0)); [reflexivity|].
      unfold zeros. apply nth_error_repeat. exact Hlt.
    - intros k a [].
  Qed.
End With.
