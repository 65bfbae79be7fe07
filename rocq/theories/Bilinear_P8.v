(** * Bilinear_P8: the points exchanged by the bilinear search *)
From Verif Require Import Base Base_P Num Strings Xr Adw Bilinear Spec_Bilinear Bilinear_P Bilinear_P2 Bilinear_P3 Bilinear_P4 Bilinear_P5 Bilinear_P6 Bilinear_P7.
From Coq Require Import Psatz Permutation Sorting.
Local Open Scope R_scope.

(** ** which point does not fit *)
Section unfit.
  Variables la lo : R.
  (** distance in latitude, and a little in longitude *)
  Definition far (c : corner) : R := Rabs (clat c - la) + / 100 * Rabs (clon c - lo).
  Definition south (c : corner) : Prop := clat c <= la.
  Definition north (c : corner) : Prop := la < clat c.
  (** a tenth of the distance to the nearest parallel *)
  Definition tenth (cs : list corner) (e : R) : Prop := exists c, In c cs /\ e = / 10 * Rabs (clat c - la) /\ forall c', In c' cs -> Rabs (clat c - la) <= Rabs (clat c' - la).
  (** three on one side of the target: the farthest; two on each side, but not on
      a parallel: the farther one *)
  Inductive unfit (cs : list corner) : corner -> Prop :=
  | unfit_south a b c d : Permutation cs [a; b; c; d] -> south a -> south b -> south c -> north d -> far a < far c -> far b < far c -> unfit cs c
  | unfit_north a b c d : Permutation cs [a; b; c; d] -> north a -> north b -> north c -> south d -> far a < far c -> far b < far c -> unfit cs c
  | unfit_south_pair a c d d' e : Permutation cs [a; c; d; d'] -> south a -> south c -> north d -> north d' -> tenth cs e -> e < clat a - clat c -> unfit cs c
  | unfit_north_pair a a' c d e : Permutation cs [a; a'; c; d] -> south a -> south a' -> north c -> north d -> tenth cs e -> Rabs (clat a - clat a') <= e -> e < clat c - clat d -> unfit cs c.
  (** two on each side, on parallels, the second of each pair to the other side of
      the first: of the two second points the one that is farther from its first,
      unless the target is then outside the other three; [e] out, [i] kept *)
  Definition in_three (u v w : corner) : Prop := in_hull (la, lo) [xy u; xy v; xy w].
  Inductive skew (cs : list corner) : corner -> corner -> Prop :=
  | skewed u u' d d' ep cl e i : Permutation cs [u; u'; d; d'] -> south u -> south u' -> north d -> north d' -> tenth cs ep -> Rabs (clat u - clat u') <= ep -> Rabs (clat d - clat d') <= ep ->
      In cl cs -> (forall c, In c cs -> clon c = clon cl \/ Rabs (clon cl - lo) < Rabs (clon c - lo)) ->
      Rabs (clon u - clon cl) < Rabs (clon u' - clon cl) -> Rabs (clon d - clon cl) < Rabs (clon d' - clon cl) ->
      (clon d - clon d') * (clon u - clon u') < 0 -> area2 (xy u') (xy u) (xy d) <> 0 -> area2 (xy d') (xy u) (xy d) <> 0 ->
      (Rabs (clon u - clon u') <= Rabs (clon d - clon d') /\ ((in_three u' u d /\ e = d' /\ i = d) \/ (~ in_three u' u d /\ e = u' /\ i = u)) \/
       Rabs (clon d - clon d') < Rabs (clon u - clon u') /\ ((in_three d' u d /\ e = u' /\ i = u) \/ (~ in_three d' u d /\ e = d' /\ i = d))) ->
      skew cs e i.
End unfit.

(** ** arg max *)
Lemma argmax_from_spec l : forall best bv i (f : nat -> R), f best = bv -> (forall k x, nth_error l k = Some x -> f (i + k)%nat = x) ->
  bv <= f (argmax_from best bv i l) /\ forall x, In x l -> x <= f (argmax_from best bv i l).
Proof.
  induction l as [|y l IH]; intros best bv i f Hb Hl; cbn [argmax_from]; [split; [lra|contradiction]|].
  assert (Hy : f i = y) by (rewrite <- (Nat.add_0_r i); exact (Hl 0%nat y eq_refl)).
  assert (Hl' : forall k x, nth_error l k = Some x -> f (S i + k)%nat = x) by (intros k x H; rewrite <- (Hl (S k) x H); f_equal; lia).
  destruct (Rlt_dec bv y) as [G|G].
  - destruct (IH i y (S i) f Hy Hl') as [A B]. split; [lra|]. intros x [<-|Hx]; [exact A|apply B; exact Hx].
  - destruct (IH best bv (S i) f Hb Hl') as [A B]. split; [exact A|]. intros x [<-|Hx]; [lra|apply B; exact Hx].
Qed.
Lemma argmax_spec l x : In x l -> x <= nth (argmax l) l 0.
Proof.
  destruct l as [|y l]; [contradiction|]. intro H. unfold argmax. destruct (argmax_from_spec l 0 y 1 (fun k => nth k (y :: l) 0) eq_refl) as [A B].
  - intros k z Hk. cbn [nth]. apply nth_error_nth. exact Hk.
  - destruct H as [<-|H]; [exact A|apply B; exact H].
Qed.
Lemma pick (f : corner -> R) ds c : In c ds -> (forall x, In x ds -> x = c \/ f x < f c) -> nthc ds (argmax (map f ds)) = c.
Proof.
  intros Hc H. assert (L : (argmax (map f ds) < List.length ds)%nat) by (rewrite <- (map_length f ds); apply argmax_range; destruct ds; [destruct Hc|discriminate]).
  assert (G : f c <= f (nthc ds (argmax (map f ds)))).
  { pose proof (argmax_spec (map f ds) (f c) (in_map f _ _ Hc)) as G. rewrite (nth_indep _ 0 (f (mkCorner 0 0 0))) in G by (rewrite map_length; exact L). rewrite map_nth in G. exact G. }
  destruct (H _ (nthc_in ds _ L)) as [E|E]; [exact E|lra].
Qed.
Lemma perm_filter {A} (p : A -> bool) l l' : Permutation l l' -> Permutation (filter p l) (filter p l').
Proof.
  induction 1 as [|x l l' H IH|x y l|l1 l2 l3 H1 IH1 H2 IH2]; cbn [filter].
  - apply perm_nil.
  - destruct (p x); [apply perm_skip; exact IH|exact IH].
  - destruct (p x), (p y); try apply perm_swap; apply Permutation_refl.
  - eapply perm_trans; eassumption.
Qed.
Lemma ups_of la cs l : Permutation cs l -> Permutation (ups la cs) (ups la l). Proof. apply perm_filter. Qed.
Lemma downs_of la cs l : Permutation cs l -> Permutation (downs la cs) (downs la l). Proof. apply perm_filter. Qed.
Ltac sides_of := unfold ups, downs, south, north in *; cbn [filter]; repeat match goal with |- context [leb ?x ?y] => destruct (leb_spec x y); [|try lra]; try lra | |- context [ltb ?x ?y] => destruct (ltb_spec x y); try lra end.
Lemma repeated_nodup cs : forall seen, NoDup (map xy (seen ++ cs)) -> repeated seen cs = [].
Proof.
  induction cs as [|c cs IH]; intros seen N; [reflexivity|]. cbn [repeated]. replace (seen ++ c :: cs)%list with ((seen ++ [c]) ++ cs)%list in N by (rewrite <- app_assoc; reflexivity). rewrite (IH _ N).
  destruct (existsb (same_place c) seen) eqn:E; [|reflexivity]. exfalso. apply existsb_exists in E. destruct E as [s [Hs E]]. apply same_place_spec in E.
  rewrite map_app in N. apply NoDup_app_left in N. rewrite map_app in N. cbn [map] in N. apply (Permutation_NoDup (Permutation_sym (Permutation_cons_append _ _))) in N. inversion_clear N as [|? ? Q _]. apply Q. rewrite E. apply in_map. exact Hs.
Qed.

Section rules.
  Variables la lo : R.
  Let sh (c : corner) : corner := mkCorner (clat c - la) (clon c - lo) (cidx c).
  Lemma drop_three ds a b c : Permutation ds [a; b; c] -> far la lo a < far la lo c -> far la lo b < far la lo c -> cidx a <> cidx c -> cidx b <> cidx c -> drop_far 4 (shifted la lo ds) = [cidx c].
  Proof.
    intros P Fa Fb Na Nb. assert (L : List.length (shifted la lo ds) = 3%nat) by (unfold shifted; rewrite map_length; apply Permutation_length in P; exact P).
    set (ws := shifted la lo ds) in *. assert (Pw : Permutation ws (map sh [a; b; c])) by (apply Permutation_map; exact P).
    assert (E : nthc ws (argmax (map (fun d => Rabs (clat d) + / 100 * Rabs (clon d)) ws)) = sh c).
    { apply (pick (fun d => Rabs (clat d) + / 100 * Rabs (clon d))); [apply (Permutation_in _ (Permutation_sym Pw)); cbn; tauto|]. intros x Hx. apply (Permutation_in _ Pw) in Hx. cbn [map In] in Hx.
      destruct Hx as [<-|[<-|[<-|[]]]]; unfold far in *; cbn [sh clat clon]; auto. }
    cbn [drop_far]. rewrite L. cbn [Nat.ltb Nat.leb]. rewrite E. cbn [sh cidx]. f_equal.
    assert (F : (List.length (filter (fun d => negb (cidx d =? cidx c)%Z) ws) = 2)%nat).
    { rewrite (Permutation_length (perm_filter _ _ _ Pw)). cbn [map filter sh cidx]. destruct (Z.eqb_spec (cidx a) (cidx c)); [contradiction|]. destruct (Z.eqb_spec (cidx b) (cidx c)); [contradiction|]. rewrite Z.eqb_refl. reflexivity. }
    rewrite F. reflexivity.
  Qed.
  Lemma drop_few ds : (List.length ds <= 2)%nat -> drop_far 4 (shifted la lo ds) = [].
  Proof. intro L. cbn [drop_far]. rewrite shifted_length. destruct (Nat.ltb_spec 2 (List.length ds)); [lia|reflexivity]. Qed.
  Lemma rmin_spec l : l <> [] -> In (rmin l) l /\ forall x, In x l -> rmin l <= x.
  Proof.
    intro N. split; [|intros x H; apply min_le; exact H]. destruct l as [|a l]; [congruence|]. unfold rmin. clear N. revert a. induction l as [|b l IH]; intro a; cbn [fold_left]; [now left|].
    destruct (IH (Rmin a b)) as [E|E]; [|right; right; exact E]. rewrite <- E. unfold Rmin. destruct (Rle_dec a b); [now left|right; now left].
  Qed.
  Lemma tenth_spec cs e : tenth la cs e -> / 10 * rmin (map (fun c => Rabs (clat c - la)) cs) = e /\ 0 <= e.
  Proof.
    intros [c [Hc [-> M]]]. pose proof (Rabs_pos (clat c - la)). split; [|lra]. f_equal. destruct (rmin_spec (map (fun c => Rabs (clat c - la)) cs)) as [A B]; [destruct cs; [destruct Hc|discriminate]|].
    apply in_map_iff in A. destruct A as [c' [E Hc']]. apply Rle_antisym; [apply B; apply (in_map (fun c => Rabs (clat c - la))); exact Hc|rewrite <- E; apply M; exact Hc'].
  Qed.
  (** rows of two *)
  Lemma row_pair (f : corner -> R) ds a c : Permutation ds [a; c] -> f a < f c -> exists k, argmax_row (map f ds) ds = Ok (k, c) /\ other ds k = Ok a.
  Proof.
    intros P F. apply Permutation_sym, Permutation_length_2_inv in P. destruct P as [-> | ->]; cbn [map].
    - destruct (argmax2 (f a) (f c)) as [[_ N]|[E _]]; [lra|]. exists 1%nat. rewrite (proj2 (row2 _ a c) E). split; reflexivity.
    - destruct (argmax2 (f c) (f a)) as [[E _]|[_ N]]; [|lra]. exists 0%nat. rewrite (proj1 (row2 _ c a) E). split; reflexivity.
  Qed.
  Lemma row_pair_any (f : corner -> R) ds a c : Permutation ds [a; c] -> exists k x y, argmax_row (map f ds) ds = Ok (k, x) /\ other ds k = Ok y /\ ((x = a /\ y = c) \/ (x = c /\ y = a)).
  Proof.
    intro P. apply Permutation_sym, Permutation_length_2_inv in P. destruct P as [-> | ->]; cbn [map].
    - destruct (argmax2 (f a) (f c)) as [[E _]|[E _]]; [exists 0%nat, a, c; rewrite (proj1 (row2 _ a c) E)|exists 1%nat, c, a; rewrite (proj2 (row2 _ a c) E)]; auto.
    - destruct (argmax2 (f c) (f a)) as [[E _]|[E _]]; [exists 0%nat, c, a; rewrite (proj1 (row2 _ c a) E)|exists 1%nat, a, c; rewrite (proj2 (row2 _ c a) E)]; auto.
  Qed.
  Definition verdict (cs : list corner) (c : corner) : Prop := wrong_direction la lo cs = [cidx c] \/ (wrong_direction la lo cs = [] /\ wrong_grid_like la lo cs = Ok (Some (cidx c))).
  Lemma direction_none cs u u' d d' : NoDup (map xy cs) -> Permutation (ups la cs) [u; u'] -> Permutation (downs la cs) [d; d'] -> wrong_direction la lo cs = [].
  Proof.
    intros N U D. unfold wrong_direction. rewrite (repeated_nodup cs [] N). rewrite !drop_few; [reflexivity|apply Permutation_length in D; rewrite D; apply le_n|apply Permutation_length in U; rewrite U; apply le_n].
  Qed.
  Lemma unfit_verdict cs c : NoDup (map xy cs) -> NoDup (map cidx cs) -> unfit la lo cs c -> verdict cs c.
  Proof.
    intros Nx Ni H. destruct H as [a b c d P Sa Sb Sc Nd Fa Fb|a b c d P Sa Sb Sc Nd Fa Fb|a c d d' e P Sa Sc Nd Nd' T G|a a' c d e P Sa Sa' Nc Nd T Q G].
    - left. unfold wrong_direction. rewrite (repeated_nodup cs [] Nx). pose proof (ups_of la cs _ P) as U. pose proof (downs_of la cs _ P) as D.
      assert (Ni' := Permutation_NoDup (Permutation_map cidx P) Ni). cbn [map] in Ni'.
      rewrite (drop_three (ups la cs) a b c); [| |exact Fa|exact Fb| |].
      + rewrite drop_few; [reflexivity|]. rewrite (Permutation_length D). clear U D. sides_of. cbn; lia.
      + rewrite U. clear U D. sides_of. reflexivity.
      + inversion_clear Ni' as [|? ? X _]. intro E. apply X. rewrite E. cbn. tauto.
      + inversion_clear Ni' as [|? ? _ Y]. inversion_clear Y as [|? ? X _]. intro E. apply X. rewrite E. cbn. tauto.
    - left. unfold wrong_direction. rewrite (repeated_nodup cs [] Nx). pose proof (ups_of la cs _ P) as U. pose proof (downs_of la cs _ P) as D.
      assert (Ni' := Permutation_NoDup (Permutation_map cidx P) Ni). cbn [map] in Ni'.
      rewrite (drop_three (downs la cs) a b c); [| |exact Fa|exact Fb| |].
      + rewrite drop_few; [reflexivity|]. rewrite (Permutation_length U). clear U D. sides_of. cbn; lia.
      + rewrite D. clear U D. sides_of. reflexivity.
      + inversion_clear Ni' as [|? ? X _]. intro E. apply X. rewrite E. cbn. tauto.
      + inversion_clear Ni' as [|? ? _ Y]. inversion_clear Y as [|? ? X _]. intro E. apply X. rewrite E. cbn. tauto.
    - right. pose proof (ups_of la cs _ P) as U. pose proof (downs_of la cs _ P) as D.
      assert (U' : Permutation (ups la cs) [a; c]) by (rewrite U; clear U D; sides_of; reflexivity). assert (D' : Permutation (downs la cs) [d; d']) by (rewrite D; clear U D; sides_of; reflexivity). clear U D.
      split; [eapply direction_none; eassumption|]. destruct (tenth_spec cs e T) as [E Pe]. unfold wrong_grid_like. cbn zeta. rewrite E.
      destruct (row_pair (fun d => - clat d) (shifted la lo (ups la cs)) (sh a) (sh c)) as [k [E1 E2]]; [exact (Permutation_map sh U')|cbn [sh clat]; lra|].
      destruct (row_pair_any clat (shifted la lo (downs la cs)) (sh d) (sh d')) as [k' [x [y [E3 _]]]]; [exact (Permutation_map sh D')|].
      rewrite E1. cbn [rbind]. rewrite E3. cbn [rbind]. rewrite E2. cbn [rbind sh clat cidx]. destruct (ltb_spec e (Rabs (clat c - la - (clat a - la)))) as [_|X]; [reflexivity|]. exfalso. apply X. rewrite Rabs_left by lra. lra.
    - right. pose proof (ups_of la cs _ P) as U. pose proof (downs_of la cs _ P) as D.
      assert (U' : Permutation (ups la cs) [a; a']) by (rewrite U; clear U D; sides_of; reflexivity). assert (D' : Permutation (downs la cs) [d; c]) by (rewrite D; clear U D; sides_of; apply perm_swap). clear U D.
      split; [eapply direction_none; eassumption|]. destruct (tenth_spec cs e T) as [E Pe]. unfold wrong_grid_like. cbn zeta. rewrite E.
      destruct (row_pair_any (fun d => - clat d) (shifted la lo (ups la cs)) (sh a) (sh a')) as [k [x [y [E1 [E2 XY]]]]]; [exact (Permutation_map sh U')|].
      destruct (row_pair clat (shifted la lo (downs la cs)) (sh d) (sh c)) as [k' [E3 E4]]; [exact (Permutation_map sh D')|cbn [sh clat]; lra|].
      rewrite E1. cbn [rbind]. rewrite E3. cbn [rbind]. rewrite E2. cbn [rbind].
      assert (XX : Rabs (clat x - clat y) <= e). { destruct XY as [[-> ->]|[-> ->]]; cbn [sh clat]; [|rewrite Rabs_minus_sym]; replace (clat a - la - (clat a' - la)) with (clat a - clat a') by ring; exact Q. }
      destruct (ltb_spec e (Rabs (clat x - clat y))); [lra|]. rewrite E4. cbn [rbind sh clat cidx]. destruct (ltb_spec e (Rabs (clat c - la - (clat d - la)))) as [_|X]; [reflexivity|]. exfalso. apply X. rewrite Rabs_right by lra. lra.
  Qed.
  Lemma by_index_is cs c : NoDup (map cidx cs) -> In c cs -> by_index cs (cidx c) = Ok c.
  Proof.
    intros N H. destruct (by_index_ok cs c H) as [c' [E [Hc' Ec]]]. rewrite E. f_equal. clear E. induction cs as [|x cs IH]; [destruct H|]. cbn [map] in N. inversion_clear N as [|? ? N1 N2].
    destruct H as [->|H], Hc' as [->|Hc']; auto; exfalso; apply N1; [rewrite <- Ec; apply in_map; exact Hc'|rewrite Ec; apply in_map; exact H].
  Qed.
  Lemma in_three_spec u v w : area2 (xy u) (xy v) (xy w) <> 0 -> (in_triangle (la, lo) (xy u) (xy v) (xy w) = true <-> in_three la lo u v w).
  Proof. intro A. apply in_triangle_hull. exact A. Qed.
  Lemma skew_verdict cs e i : NoDup (map xy cs) -> NoDup (map cidx cs) -> skew la lo cs e i ->
    wrong_direction la lo cs = [] /\ wrong_grid_like la lo cs = Ok None /\ wrong_best_grid_like la lo cs = Ok (Some (cidx e, clat i, 2 * clon i - clon e)).
  Proof.
    intros Nx Ni H. destruct H as [u u' d d' ep cl e i P Su Su' Nd Nd' T Qu Qd Hcl Mcl Lu Ld Opp A1 A2 Ch]. pose proof (ups_of la cs _ P) as U. pose proof (downs_of la cs _ P) as D.
    assert (U' : Permutation (ups la cs) [u'; u]) by (rewrite U; clear U D; sides_of; apply perm_swap). assert (D' : Permutation (downs la cs) [d'; d]) by (rewrite D; clear U D; sides_of; apply perm_swap). clear U D.
    split; [eapply direction_none; eassumption|]. destruct (tenth_spec cs ep T) as [E Pe]. split.
    - unfold wrong_grid_like. cbn zeta. rewrite E.
      destruct (row_pair_any (fun d => - clat d) (shifted la lo (ups la cs)) (sh u') (sh u)) as [k [x [y [E1 [E2 XY]]]]]; [exact (Permutation_map sh U')|].
      destruct (row_pair_any clat (shifted la lo (downs la cs)) (sh d') (sh d)) as [k' [x' [y' [E3 [E4 XY']]]]]; [exact (Permutation_map sh D')|].
      rewrite E1. cbn [rbind]. rewrite E3. cbn [rbind]. rewrite E2. cbn [rbind].
      assert (X1 : Rabs (clat x - clat y) <= ep). { destruct XY as [[-> ->]|[-> ->]]; cbn [sh clat]; [rewrite Rabs_minus_sym|]; replace (clat u - la - (clat u' - la)) with (clat u - clat u') by ring; exact Qu. }
      assert (X2 : Rabs (clat x' - clat y') <= ep). { destruct XY' as [[-> ->]|[-> ->]]; cbn [sh clat]; [rewrite Rabs_minus_sym|]; replace (clat d - la - (clat d' - la)) with (clat d - clat d') by ring; exact Qd. }
      destruct (ltb_spec ep (Rabs (clat x - clat y))); [lra|]. rewrite E4. cbn [rbind]. destruct (ltb_spec ep (Rabs (clat x' - clat y'))); [lra|]. reflexivity.
    - unfold wrong_best_grid_like. set (closer := nthc cs _). assert (C : clon closer = clon cl).
      { assert (Hin : (argmin (map (fun c => Rabs (clon c - lo)) cs) < List.length cs)%nat).
        { unfold argmin. eapply Nat.lt_le_trans; [apply argmax_range|rewrite !map_length; apply le_n]. destruct cs; [destruct Hcl|discriminate]. }
        destruct (Mcl closer (nthc_in cs _ Hin)) as [Q|Q]; [exact Q|]. exfalso.
        pose proof (argmax_spec (map Ropp (map (fun c => Rabs (clon c - lo)) cs)) (- Rabs (clon cl - lo))) as G. rewrite map_map in G. specialize (G (in_map (fun c => - Rabs (clon c - lo)) _ _ Hcl)).
        unfold argmin in closer, Hin. rewrite map_map in Hin. rewrite (nth_indep _ 0 ((fun c => - Rabs (clon c - lo)) (mkCorner 0 0 0))) in G by (rewrite map_length; exact Hin). rewrite (map_nth (fun c => - Rabs (clon c - lo))) in G.
        unfold closer, nthc in Q. rewrite map_map in Q. lra. }
      clearbody closer. cbv zeta. rewrite C. set (sx := fun c => mkCorner (clat c - la) (clon c - clon cl) (cidx c)).
      destruct (row_pair (fun c => - Rabs (clon c)) (shifted la (clon cl) (downs la cs)) (sx d') (sx d)) as [k [E1 E2]]; [exact (Permutation_map sx D')|cbn [sx clon]; lra|].
      destruct (row_pair (fun c => - Rabs (clon c)) (shifted la (clon cl) (ups la cs)) (sx u') (sx u)) as [k' [E3 E4]]; [exact (Permutation_map sx U')|cbn [sx clon]; lra|].
      rewrite E1. cbn [rbind]. rewrite E2. cbn [rbind]. rewrite E3. cbn [rbind]. rewrite E4. cbn [rbind]. unfold sx. cbn [clon cidx].
      replace (clon d - clon cl - (clon d' - clon cl)) with (clon d - clon d') by ring. replace (clon u - clon cl - (clon u' - clon cl)) with (clon u - clon u') by ring.
      destruct (ltb_spec ((clon d - clon d') * (clon u - clon u')) 0) as [_|N]; [|contradiction].
      assert (I : forall c, In c [u; u'; d; d'] -> by_index cs (cidx c) = Ok c) by (intros c Hc; apply by_index_is; [exact Ni|apply (Permutation_in _ (Permutation_sym P)); exact Hc]).
      assert (Iu := I u ltac:(cbn; tauto)). assert (Iu' := I u' ltac:(cbn; tauto)). assert (Id := I d ltac:(cbn; tauto)). assert (Id' := I d' ltac:(cbn; tauto)). clear I.
      destruct (leb_spec (Rabs (clon u - clon u')) (Rabs (clon d - clon d'))) as [Le|Le].
      + rewrite Iu'. cbn [rbind]. rewrite Iu. cbn [rbind]. rewrite Id. cbn [rbind]. destruct Ch as [[_ Ch]|[Ch _]]; [|lra].
        destruct (in_triangle (la, lo) (xy u') (xy u) (xy d)) eqn:Tr.
        * apply in_three_spec in Tr; [|exact A1]. destruct Ch as [[_ [-> ->]]|[N _]]; [|contradiction]. rewrite Id. cbn [rbind]. rewrite Id'. reflexivity.
        * destruct Ch as [[Y _]|[_ [-> ->]]]; [apply in_three_spec in Y; [congruence|exact A1]|]. rewrite Iu. cbn [rbind]. rewrite Iu'. reflexivity.
      + rewrite Id'. cbn [rbind]. rewrite Iu. cbn [rbind]. rewrite Id. cbn [rbind]. destruct Ch as [[Ch _]|[_ Ch]]; [lra|].
        destruct (in_triangle (la, lo) (xy d') (xy u) (xy d)) eqn:Tr.
        * apply in_three_spec in Tr; [|exact A2]. destruct Ch as [[_ [-> ->]]|[N _]]; [|contradiction]. rewrite Iu. cbn [rbind]. rewrite Iu'. reflexivity.
        * destruct Ch as [[Y _]|[_ [-> ->]]]; [apply in_three_spec in Y; [congruence|exact A2]|]. rewrite Id. cbn [rbind]. rewrite Id'. reflexivity.
  Qed.
End rules.
