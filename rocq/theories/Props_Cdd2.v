(** * Props_Cdd2: C85, the table of weights of a whole target with the
    correlation distance decay *)
From Verif Require Import Base Num Strings Scipy Xr Adw Spec_Adw Base_P Num_P GribInterp_P Scipy_P Props_Scipy Adw_P Adw_P2 Adw_P3 Adw_P4 Adw_P5 Props_Adw Props_Cdd.
From Coq Require Import Sorting.Sorted Sorting.Permutation.
Local Open Scope string_scope.
Local Open Scope R_scope.

(** ** Vocabulary *)
(** [row] is the row of the table for the target cell [p]: its indexes are the
    eleven closest of [n] stations, and [Q] holds of their distances, the
    differences of coordinates and the weights *)
Definition row_for {Loc} (dist : Loc -> nat -> R) (n : nat) (lat lon : Loc -> R) (slat slon : Z -> R) (p : Loc) (row : list xr * list Z)
  (Q : list nat -> list R -> list (R * R) -> list xr -> Prop) : Prop :=
  exists ns, closestR dist n 11 p ns /\ snd row = map Z.of_nat ns /\
    Q ns (map (dist p) ns) (map (fun i => (lat p - slat (Z.of_nat i), lon p - slon (Z.of_nat i))) ns) (fst row).
(** the cut-off distance of target cell number [k]: the value of the map at the
    same place *)
Definition cdd_at (cdd_map : list (list R)) (k : nat) (c : R) : Prop := nth_error (List.concat cdd_map) k = Some c.
(** the parameters in use: those given, or the standard ones *)
Definition parameters (opts : option (list (string * optval))) (m : R) (k : nat) (ratio : R) (w : string) : Prop :=
  (opts = None /\ m = 4 /\ k = 4%nat /\ ratio = 1 / 3 /\ w = "All") \/
  exists z, opts = Some [("m_const", OInt z); ("min_num_of_station", OInt (Z.of_nat k)); ("radius_ratio", OFlt ratio); ("weights_mode", OStr w)] /\ m = IZR z /\ (1 <= k <= 10)%nat.
(** first cell and spacing of the target *)
Definition origin {Loc} (lat lon : Loc -> R) (rows : list (list Loc)) (lat0 lon0 latres lonres : R) : Prop :=
  exists p q r0 p' r1 rs, rows = ((p :: q :: r0) :: (p' :: r1) :: rs)%list /\ lat0 = lat p /\ lon0 = lon p /\ latres = lat p - lat p' /\ lonres = lon p - lon q.
(** at [x] spacings from the first of [n] places, the place [i] is used: the
    number of whole spacings, or the border *)
Definition whole_spacings (n : nat) (x : R) (i : nat) : Prop :=
  (i < n)%nat /\ ((0 < i)%nat -> INR i <= x) /\ ((S i < n)%nat -> x < INR (S i)).
(** the value of the map at the place of the station *)
Definition cdd_of_station (place : nat -> R -> nat -> Prop) (cdd_map : list (list R)) (lat0 lon0 latres lonres slat slon : R) (c : R) : Prop :=
  exists i j r, place (List.length cdd_map) ((lat0 - slat) / latres) i /\ nth_error cdd_map i = Some r /\
    place (List.length r) ((lon0 - slon) / lonres) j /\ nth_error r j = Some c.

(** ** The table *)
Lemma nth_some {A} (l : list A) k : (k < List.length l)%nat -> exists x, nth_error l k = Some x.
Proof. intro H. destruct (nth_error l k) eqn:E; [eauto|]. apply nth_error_None in E. lia. Qed.
Section whole.
Context {Loc : Type} (dist : Loc -> nat -> R) (n : nat) (tree : nat -> Loc -> list (R * Z)) (lat lon : Loc -> R) (slat slon : Z -> R) (part10 : list xr -> list nat).
Hypothesis K : kdtreeR dist n tree.
Hypothesis Hn : (11 <= n)%nat.
Hypothesis Hd : forall p i, 0 <= dist p i.
Notation pc := (part_cdd tree lat lon slat slon part10).
Notation cs := (cdd_s tree lat lon slat slon part10).
Lemma whole_rows bc mode opts cdd_map rows t s : interpolate_whole (pc bc mode opts cdd_map) rows = Ok t -> cs mode opts cdd_map rows = Ok s ->
  List.length s = List.length (List.concat rows) -> Forall (fun r => List.length r = 11%nat) s ->
  exists l, t = Mat l /\ List.length l = List.length (List.concat rows) /\ forall k p, nth_error (List.concat rows) k = Some p ->
    exists row sk, nth_error l k = Some row /\ nth_error s k = Some sk /\
      row_for dist n lat lon slat slon p row (fun ns ds diffs w => cell11 ds diffs /\ map fst (tree 11%nat p) = ds /\ map snd (tree 11%nat p) = map Z.of_nat ns /\ w = cdd_row sk diffs).
Proof.
  intros H Hs Ls F. unfold interpolate_whole, part_cdd in H. rewrite Hs in H. cbn [rbind] in H. cbv zeta in H. set (cells := List.concat rows) in *.
  assert (Et : t = Mat (zipw (fun p w => (w, map snd (tree 11%nat p))) cells (cdd_rows bc (zipw (fun p s => (snd (cell_of tree (dif_of lat lon slat slon) p), s)) cells s) 11))) by congruence.
  clear H. rewrite cdd_rows_eq in Et.
  2: { apply Forall_forall. intros c Hc. apply In_zipw in Hc. destruct Hc as [p [r [_ [Hr ->]]]]. cbn [fst snd]. split; [|exact (proj1 (Forall_forall _ _) F r Hr)].
       unfold cell_of. cbn [snd]. rewrite map_length. now apply (tree11 dist n). }
  eexists. split; [exact Et|]. split; [rewrite zipw_length, map_length, zipw_length; lia|].
  intros k p Hp. assert (Hk : (k < List.length s)%nat) by (rewrite Ls; apply nth_error_Some; congruence).
  destruct (nth_error s k) as [sk|] eqn:Esk; [|apply nth_error_None in Esk; lia].
  eexists. exists sk. split; [|split; [reflexivity|]].
  - apply nth_error_zipw; [exact Hp|]. apply map_nth_error. apply nth_error_zipw; [exact Hp|exact Esk].
  - destruct (K 11%nat p Hn) as [ns [C E]]. exists ns. split; [exact C|]. cbn [fst snd].
    assert (Es : map snd (tree 11%nat p) = map Z.of_nat ns) by (rewrite E, map_map; reflexivity).
    assert (Ef : map fst (tree 11%nat p) = map (dist p) ns) by (rewrite E, map_map; reflexivity).
    split; [exact Es|]. split; [|split; [exact Ef|split; [exact Es|]]].
    + destruct C as [L [_ [_ [So _]]]]. split; [now rewrite map_length|]. split; [now rewrite map_length|]. split.
      * clear - So. induction So as [|i l _ IH Fi]; [constructor|]. cbn [map]. constructor; [exact IH|]. apply Forall_forall. intros d Hin. apply in_map_iff in Hin. destruct Hin as [j [<- Hj]]. exact (proj1 (Forall_forall _ _) Fi j Hj).
      * destruct ns as [|i ns]; [discriminate L|]. unfold at_. cbn [map nth]. apply Hd.
    + unfold cell_of. cbn [snd]. rewrite E, map_map. reflexivity.
Qed.
Lemma hofstra_whole bc opts cdd_map rows t : interpolate_whole (pc bc "Hofstra" opts cdd_map) rows = Ok t ->
  exists l, t = Mat l /\ List.length l = List.length (List.concat rows) /\ forall k p, nth_error (List.concat rows) k = Some p -> exists row c, nth_error l k = Some row /\ cdd_at cdd_map k c /\
    row_for dist n lat lon slat slon p row (fun ns ds diffs w => cell11 ds diffs /\ w = cdd_row (hofstra_s c ds) diffs).
Proof.
  intro H. pose proof H as H'. unfold interpolate_whole, part_cdd in H. destruct (cs "Hofstra" opts cdd_map rows) as [s|] eqn:Es; [|discriminate H]. clear H. pose proof Es as Es'.
  unfold cdd_s in Es. cbn [String.eqb Ascii.eqb Bool.eqb] in Es. destruct (Nat.eqb_spec (List.length (List.concat cdd_map)) (List.length (List.concat rows))) as [El|]; [|discriminate Es].
  assert (E : s = zipw (fun p cdd => hofstra_s cdd (map fst (tree 11%nat p))) (List.concat rows) (List.concat cdd_map)) by congruence. clear Es.
  destruct (whole_rows bc _ opts cdd_map rows t s H' Es') as [l [Et [Ll Hc]]].
  - rewrite E, zipw_length. lia.
  - rewrite E. apply Forall_forall. intros r Hr. apply In_zipw in Hr. destruct Hr as [p [c [_ [_ ->]]]]. unfold hofstra_s. rewrite !map_length. now apply (tree11 dist n).
  - exists l. split; [exact Et|]. split; [exact Ll|]. intros k p Hp. destruct (Hc k p Hp) as [row [sk [Er [Esk [ns [C [Ei [C11 [Ed [_ W]]]]]]]]]].
    rewrite E in Esk. destruct (nth_error_zipw_inv _ _ _ _ _ Esk) as [p' [c [Hp' [Hc' Ec]]]]. assert (p' = p) by congruence. subst p'. rewrite Ed in Ec. subst sk. exists row, c. split; [exact Er|]. split; [exact Hc'|]. exists ns. split; [exact C|]. split; [exact Ei|]. split; assumption.
Qed.

Lemma mix_whole bc opts cdd_map rows t o w : read_options opts = Ok o -> o_weights o = OStr w -> argpartition10 part10 -> interpolate_whole (pc bc "MixHofstraShepard" opts cdd_map) rows = Ok t ->
  exists l, t = Mat l /\ List.length l = List.length (List.concat rows) /\ forall k p, nth_error (List.concat rows) k = Some p -> exists row c, nth_error l k = Some row /\ cdd_at cdd_map k c /\
    row_for dist n lat lon slat slon p row (fun ns ds diffs wt => cell11 ds diffs /\
      let s := mix_s c 11 (o_min o) (o_m o) (o_ratio o) ds in wt = cdd_row (if String.eqb w "OnlyTOP10" then only_top10 part10 s else s) diffs).
Proof.
  intros Ho Hw Ha H. pose proof H as H'. unfold interpolate_whole, part_cdd in H. destruct (cs "MixHofstraShepard" opts cdd_map rows) as [s|] eqn:Es; [|discriminate H]. clear H. pose proof Es as Es'.
  unfold cdd_s in Es. cbn [String.eqb Ascii.eqb Bool.eqb] in Es. rewrite Ho in Es. cbn [rbind] in Es. destruct (Nat.eqb_spec (List.length (List.concat cdd_map)) (List.length (List.concat rows))) as [El|]; [|discriminate Es].
  rewrite Hw in Es.
  assert (E : s = zipw (fun p cdd => let s := mix_s cdd 11 (o_min o) (o_m o) (o_ratio o) (map fst (tree 11%nat p)) in if String.eqb w "OnlyTOP10" then only_top10 part10 s else s) (List.concat rows) (List.concat cdd_map)).
  { assert (Z : forall (f g : list xr -> list xr) (h : Loc -> R -> list xr) a b, map f (zipw h a b) = zipw (fun x y => f (h x y)) a b) by (intros f _ h; induction a as [|x a IH]; intros [|y b]; [reflexivity..|]; cbn [zipw map]; now rewrite IH).
    destruct (String.eqb w "OnlyTOP10"); [rewrite (Z (only_top10 part10) (fun x => x)) in Es|]; apply (f_equal (fun r => match r with Ok x => x | Raise _ => s end)) in Es; symmetry; exact Es. }
  assert (L : forall c p, List.length (let s := mix_s c 11 (o_min o) (o_m o) (o_ratio o) (map fst (tree 11%nat p)) in if String.eqb w "OnlyTOP10" then only_top10 part10 s else s) = 11%nat).
  { intros c p. cbv zeta. assert (Lm : List.length (mix_s c 11 (o_min o) (o_m o) (o_ratio o) (map fst (tree 11%nat p))) = 11%nat) by (unfold mix_s; rewrite !map_length; now apply (tree11 dist n)).
    destruct (String.eqb w "OnlyTOP10"); [|exact Lm]. unfold only_top10. now rewrite map_length, seq_length. }
  clear Es. destruct (whole_rows bc _ opts cdd_map rows t s H' Es') as [l [Et [Ll Hc]]].
  - rewrite E, zipw_length. lia.
  - rewrite E. apply Forall_forall. intros r Hr. apply In_zipw in Hr. destruct Hr as [p [c [_ [_ ->]]]]. apply L.
  - exists l. split; [exact Et|]. split; [exact Ll|]. intros k p Hp. destruct (Hc k p Hp) as [row [sk [Er [Esk [ns [C [Ei [C11 [Ed [_ W]]]]]]]]]].
    rewrite E in Esk. destruct (nth_error_zipw_inv _ _ _ _ _ Esk) as [p' [c [Hp' [Hc' Ec]]]]. assert (p' = p) by congruence. subst p'. rewrite Ed in Ec. exists row, c. split; [exact Er|]. split; [exact Hc'|]. exists ns. split; [exact C|]. split; [exact Ei|]. split; [exact C11|]. cbv zeta in Ec |- *. rewrite W, Ec. reflexivity.
Qed.

Lemma newetal_whole bc opts cdd_map rows t lat0 lon0 latres lonres : origin lat lon rows lat0 lon0 latres lonres -> interpolate_whole (pc bc "NewEtAl" opts cdd_map) rows = Ok t ->
  exists l, t = Mat l /\ List.length l = List.length (List.concat rows) /\ forall k p, nth_error (List.concat rows) k = Some p -> exists row, nth_error l k = Some row /\
    row_for dist n lat lon slat slon p row (fun ns ds diffs w => cell11 ds diffs /\ w = cdd_row (newetal_s (map (fun i => station_cdd cdd_map lat0 lon0 latres lonres (slat (Z.of_nat i)) (slon (Z.of_nat i))) ns) ds) diffs).
Proof.
  intros Og H. pose proof H as H'. unfold interpolate_whole, part_cdd in H. destruct (cs "NewEtAl" opts cdd_map rows) as [s|] eqn:Es; [|discriminate H]. clear H. pose proof Es as Es'.
  assert (G : grid_of lat lon rows = Ok (lat0, lon0, latres, lonres)) by (destruct Og as [p [q [r0 [p' [r1 [rs [-> [-> [-> [-> ->]]]]]]]]]]; reflexivity).
  unfold cdd_s in Es. cbn [String.eqb Ascii.eqb Bool.eqb] in Es. rewrite G in Es. cbn [rbind] in Es.
  assert (E : s = map (fun p => newetal_s (map (fun x => station_cdd cdd_map lat0 lon0 latres lonres (slat (snd x)) (slon (snd x))) (tree 11%nat p)) (map fst (tree 11%nat p))) (List.concat rows)) by congruence. clear Es.
  destruct (whole_rows bc _ opts cdd_map rows t s H' Es') as [l [Et [Ll Hc]]].
  - now rewrite E, map_length.
  - rewrite E. apply Forall_forall. intros r Hr. apply in_map_iff in Hr. destruct Hr as [p [<- _]]. unfold newetal_s. rewrite zipw_length, !map_length. rewrite (tree11 dist n tree p K Hn). reflexivity.
  - exists l. split; [exact Et|]. split; [exact Ll|]. intros k p Hp. destruct (Hc k p Hp) as [row [sk [Er [Esk [ns [C [Ei [C11 [Ed [Es2 W]]]]]]]]]]. exists row. split; [exact Er|]. exists ns. split; [exact C|]. split; [exact Ei|]. split; [exact C11|].
    rewrite E, (map_nth_error _ _ _ Hp) in Esk. rewrite W. f_equal. rewrite Ed in Esk.
    assert (Em : map (fun x : R * Z => station_cdd cdd_map lat0 lon0 latres lonres (slat (snd x)) (slon (snd x))) (tree 11%nat p) = map (fun i => station_cdd cdd_map lat0 lon0 latres lonres (slat (Z.of_nat i)) (slon (Z.of_nat i))) ns).
    { transitivity (map (fun z => station_cdd cdd_map lat0 lon0 latres lonres (slat z) (slon z)) (map snd (tree 11%nat p))); [now rewrite map_map|]. rewrite Es2, map_map. reflexivity. }
    rewrite Em in Esk. congruence.
Qed.
End whole.

Lemma clip_spec n x : (0 < n)%nat -> whole_spacings n x (clip n (truncate x)).
Proof.
  intro Hn. unfold whole_spacings, clip, truncate. destruct (Rle_dec 0 x) as [P|P].
  - destruct (base_Int_part x) as [A B]. set (z := Int_part x) in *.
    assert (Hz : (0 <= z)%Z). { assert ((-1 < z)%Z); [|lia]. apply lt_IZR. lra. }
    destruct (Z.le_gt_cases (Z.of_nat n - 1) z) as [C|C].
    + replace (Z.max 0 (Z.min z (Z.of_nat n - 1))) with (Z.of_nat n - 1)%Z by lia. split; [lia|]. split; [|lia]. intros _. rewrite INR_IZR_INZ, Z2Nat.id by lia. apply IZR_le in C. lra.
    + replace (Z.max 0 (Z.min z (Z.of_nat n - 1))) with z by lia. split; [lia|]. split; [intros _; rewrite INR_IZR_INZ, Z2Nat.id by lia; lra|]. intros _. rewrite S_INR, INR_IZR_INZ, Z2Nat.id by lia. lra.
  - assert (Hz : (- Int_part (- x) <= 0)%Z). { destruct (base_Int_part (- x)) as [A B]. assert ((-1 < Int_part (- x))%Z); [|lia]. apply lt_IZR. lra. }
    replace (Z.max 0 (Z.min (- Int_part (- x)) (Z.of_nat n - 1))) with 0%Z by lia. cbn [Z.to_nat]. split; [exact Hn|]. split; [lia|]. intros _. cbn. lra.
Qed.
Lemma station_cdd_spec cdd_map lat0 lon0 latres lonres la lo : cdd_map <> [] -> Forall (fun r => r <> []) cdd_map ->
  cdd_of_station whole_spacings cdd_map lat0 lon0 latres lonres la lo (station_cdd cdd_map lat0 lon0 latres lonres la lo).
Proof.
  intros N F. assert (P : (0 < List.length cdd_map)%nat) by (destruct cdd_map; [contradiction|cbn; lia]).
  unfold station_cdd. set (i := clip (List.length cdd_map) (truncate ((lat0 - la) / latres))). pose proof (clip_spec _ ((lat0 - la) / latres) P) as Hi. fold i in Hi.
  destruct (nth_some cdd_map i (proj1 Hi)) as [r Er]. rewrite (nth_error_nth _ _ _ Er). pose proof (proj1 (Forall_forall _ _) F r (nth_error_In _ _ Er)) as Nr.
  assert (Pr : (0 < List.length r)%nat) by (destruct r; [contradiction|cbn; lia]).
  exists i. eexists. exists r. split; [exact Hi|]. split; [exact Er|]. split; [apply (clip_spec _ ((lon0 - lo) / lonres) Pr)|]. apply nth_error_nth'. apply (clip_spec _ _ Pr).
Qed.

(** ** C85 *)
(** mode Hofstra: the cut-off of a target cell is the value of the map at that
    cell; fewer than three stations within it and no weight is a number *)
Theorem C85_hofstra : forall (Loc : Type) (dist : Loc -> nat -> R) n tree lat lon slat slon part10 bc opts cdd_map rows t,
  kdtreeR dist n tree -> (11 <= n)%nat -> (forall p i, 0 <= dist p i) ->
  interpolate_whole (part_cdd tree lat lon slat slon part10 bc "Hofstra" opts cdd_map) rows = Ok t ->
  exists l, t = Mat l /\ List.length l = List.length (List.concat rows) /\
    forall k p, nth_error (List.concat rows) k = Some p -> exists row c, nth_error l k = Some row /\ cdd_at cdd_map k c /\
      row_for dist n lat lon slat slon p row (fun ns ds diffs w =>
        (c < at_ ds 2 -> w = repeat XNaN 11) /\
        (0 < c -> at_ ds 2 <= c -> forall ss, List.length ss = 11%nat -> (forall i, (i < 11)%nat -> decay c (at_ ds i) (at_ ss i)) -> spread diffs ss ->
          cell_weights w ds diffs (fun _ => decay c))).
Proof.
  intros Loc dist n tree lat lon slat slon part10 bc opts cdd_map rows t K Hn Hd H.
  destruct (hofstra_whole dist n tree lat lon slat slon part10 K Hn Hd bc opts cdd_map rows t H) as [l [Et [Ll Hc]]]. exists l. split; [exact Et|]. split; [exact Ll|].
  intros k p Hp. destruct (Hc k p Hp) as [row [c [Er [Ec [ns [C [Ei [C11 W]]]]]]]]. exists row, c. split; [exact Er|]. split; [exact Ec|]. exists ns. split; [exact C|]. split; [exact Ei|]. rewrite W. split.
  - intro L. now apply C52_hofstra_missing.
  - intros P L ss Ls Hss Sp. now apply (C52_hofstra_partial c _ _ ss).
Qed.
Print Assumptions C85_hofstra.

(** the mixed mode: the parameters are those given or the standard ones, all
    the weights are used, unless only the ten largest are asked for *)
Theorem C85_mix_partial : forall (Loc : Type) (dist : Loc -> nat -> R) n tree lat lon slat slon part10 bc opts cdd_map rows t m k0 ratio wm,
  kdtreeR dist n tree -> (11 <= n)%nat -> (forall p i, 0 <= dist p i) -> argpartition10 part10 -> parameters opts m k0 ratio wm -> 0 <= m -> 0 < ratio < 1 ->
  interpolate_whole (part_cdd tree lat lon slat slon part10 bc "MixHofstraShepard" opts cdd_map) rows = Ok t ->
  exists l, t = Mat l /\ List.length l = List.length (List.concat rows) /\
    forall k p, nth_error (List.concat rows) k = Some p -> exists row c, nth_error l k = Some row /\ cdd_at cdd_map k c /\
      row_for dist n lat lon slat slon p row (fun ns ds diffs w =>
        forall r ss, 0 < c -> at_ ds 0 < at_ ds (k0 - 1) -> mix_radius_rule k0 10 k0 11 c ds r ->
          List.length ss = 11%nat -> (forall i, (i < 11)%nat -> mix_decay m ratio r (at_ ds i) (at_ ss i)) ->
          (wm <> "OnlyTOP10" -> spread diffs ss -> cell_weights w ds diffs (fun _ => mix_decay m ratio r)) /\
          (wm = "OnlyTOP10" -> exists a b, (a < 11)%nat /\ (b < 11)%nat /\ a <> b /\ at_ ss a <= at_ ss b /\
             forall kept, List.length kept = 11%nat -> (forall i, (i < 11)%nat -> at_ kept i = if Nat.eqb i a then 0 else at_ ss i) -> spread diffs kept ->
               cell_weights w ds diffs (fun i d s => if Nat.eqb i a then s = 0 else mix_decay m ratio r d s))).
Proof.
  intros Loc dist n tree lat lon slat slon part10 bc opts cdd_map rows t m k0 ratio wm K Hn Hd Ha Hpar Hm Ht H.
  assert (O : read_options opts = Ok (mkMix m k0 ratio (OStr wm)) /\ (1 <= k0 <= 10)%nat).
  { destruct Hpar as [[-> [-> [-> [-> ->]]]]|[z [-> [-> Hk]]]]; [split; [reflexivity|lia]|]. split; [|exact Hk].
    unfold read_options. cbn [map snd opt_real opt_index rbind]. destruct (Z.ltb_spec (Z.of_nat k0) 1); [lia|]. destruct (Z.leb_spec (Z.of_nat k0) 10); [|lia]. cbn [rbind]. now rewrite Nat2Z.id. }
  destruct O as [Ho Hk].
  destruct (mix_whole dist n tree lat lon slat slon part10 K Hn Hd bc opts cdd_map rows t _ wm Ho eq_refl Ha H) as [l [Et [Ll Hc]]]. exists l. split; [exact Et|]. split; [exact Ll|].
  intros k p Hp. destruct (Hc k p Hp) as [row [c [Er [Ec [ns [C [Ei [C11 W]]]]]]]]. exists row, c. split; [exact Er|]. split; [exact Ec|]. exists ns. split; [exact C|]. split; [exact Ei|]. cbv zeta in W. cbn [o_min o_m o_ratio] in W.
  intros r ss Pc H01 Hr Ls Hss. set (ds := map (dist p) ns) in *. set (diffs := map (fun i => (lat p - slat (Z.of_nat i), lon p - slon (Z.of_nat i))) ns) in *.
  split.
  - intros Nw Sp. revert W. destruct (String.eqb_spec wm "OnlyTOP10") as [|_]; [contradiction|]. intro W. rewrite W. now apply (C52_mix_partial c m ratio k0 ds diffs r ss).
  - intros ->. cbn [String.eqb Ascii.eqb Bool.eqb] in W. destruct C11 as [L [Ld [Hs H0]]].
    pose proof (mix_radius_above c k0 ds Hs L Hk H01) as Hab. pose proof (mix_radius_spec c k0 ds Hs L Hk) as Hr'.
    assert (Err : r = mix_radius c 11 k0 ds).
    { destruct Hr as [A [B D]], Hr' as [A' [B' D']]. destruct (Nat.lt_ge_cases (within c ds) k0) as [W1|W1]; [rewrite (A W1), (A' W1); reflexivity|].
      destruct (Nat.lt_ge_cases (within c ds) 10) as [W2|W2]; [rewrite (B (conj W1 W2)), (B' (conj W1 W2)); reflexivity|rewrite (D W2), (D' W2); reflexivity]. }
    rewrite <- Err in Hab. assert (Rp : 0 < r) by lra.
    assert (E : ss = map (mix_s_at m ratio r) ds).
    { apply nth_ext with 0 0; [rewrite map_length; lia|]. intros i Hi. change (at_ ss i = at_ (map (mix_s_at m ratio r) ds) i). rewrite at_map by lia. destruct (Hss i ltac:(lia)) as [A [B D]]. destruct (mix_s_at_spec m ratio r (at_ ds i) ltac:(lra) ltac:(lra) Rp) as [A' [B' D']].
      destruct (Rle_lt_dec (at_ ds i) (ratio * r)) as [Z|Z]; [rewrite (A Z), (A' Z); reflexivity|]. destruct (Rle_lt_dec (at_ ds i) r) as [Z'|Z']; [rewrite (B (conj Z Z')), (B' (conj Z Z')); reflexivity|rewrite (D Z'), (D' Z'); reflexivity]. }
    assert (Em : mix_s c 11 k0 m ratio ds = map XF ss) by (rewrite E, map_map; unfold mix_s; rewrite <- Err; reflexivity). rewrite Em in W.
    assert (Np : forall x, In x ss -> 0 <= x) by (rewrite E; intros x Hx; apply in_map_iff in Hx; destruct Hx as [d [<- _]]; apply mix_s_at_nonneg).
    assert (P0 : 0 < at_ ss 0) by (rewrite E, at_map by lia; apply mix_s_at_pos; lra).
    destruct (C69_one_dropped part10 ss Ha Ls) as [out [a [b [Eo [Lo [Ha1 [Hb1 [Nab [Hle [Hz Hk1]]]]]]]]]]. exists a, b. split; [exact Ha1|]. split; [exact Hb1|]. split; [congruence|]. split; [exact Hle|].
    intros kept Lk Hkept Sp. rewrite Eo in W.
    assert (Ek : out = kept). { apply nth_ext with 0 0; [lia|]. intros i Hi. change (at_ out i = at_ kept i). rewrite Hkept by lia. destruct (Nat.eqb_spec i a) as [->|N]; [exact Hz|apply Hk1; [lia|exact N]]. }
    rewrite Ek in W. rewrite W. apply weights_of; try assumption.
    + intros x Hx. destruct (In_nth _ _ 0 Hx) as [i [Hi <-]]. change (0 <= at_ kept i). rewrite Hkept by lia. destruct (Nat.eqb i a); [lra|]. apply Np, at_In. lia.
    + destruct (Nat.eq_dec a 0) as [->|N0].
      * exists (at_ kept b). split; [apply at_In; lia|]. rewrite Hkept by lia. destruct (Nat.eqb_spec b 0); [congruence|]. lra.
      * exists (at_ kept 0). split; [apply at_In; lia|]. rewrite Hkept by lia. destruct (Nat.eqb_spec 0 a); [congruence|]. exact P0.
    + intros i Hi. rewrite Hkept by lia. destruct (Nat.eqb i a); [reflexivity|]. now apply Hss.
Qed.
Print Assumptions C85_mix_partial.

(** mode NewEtAl: each station has the cut-off of the place it is reached in
    after whole spacings from the first cell *)
Theorem C85_newetal_partial : forall (Loc : Type) (dist : Loc -> nat -> R) n tree lat lon slat slon part10 bc opts cdd_map rows t lat0 lon0 latres lonres,
  kdtreeR dist n tree -> (11 <= n)%nat -> (forall p i, 0 <= dist p i) -> origin lat lon rows lat0 lon0 latres lonres -> cdd_map <> [] -> Forall (fun r => r <> []) cdd_map ->
  interpolate_whole (part_cdd tree lat lon slat slon part10 bc "NewEtAl" opts cdd_map) rows = Ok t ->
  exists l, t = Mat l /\ List.length l = List.length (List.concat rows) /\
    forall k p, nth_error (List.concat rows) k = Some p -> exists row, nth_error l k = Some row /\
      row_for dist n lat lon slat slon p row (fun ns ds diffs w =>
        exists cs, Forall2 (fun i c => cdd_of_station whole_spacings cdd_map lat0 lon0 latres lonres (slat (Z.of_nat i)) (slon (Z.of_nat i)) c) ns cs /\
          ((forall c, In c cs -> 0 < c) -> at_ ds 0 <= at_ cs 0 -> forall ss, List.length ss = 11%nat -> (forall i, (i < 11)%nat -> decay (at_ cs i) (at_ ds i) (at_ ss i)) -> spread diffs ss ->
            cell_weights w ds diffs (fun i => decay (at_ cs i)))).
Proof.
  intros Loc dist n tree lat lon slat slon part10 bc opts cdd_map rows t lat0 lon0 latres lonres K Hn Hd Og Nm Fm H.
  destruct (newetal_whole dist n tree lat lon slat slon part10 K Hn Hd bc opts cdd_map rows t lat0 lon0 latres lonres Og H) as [l [Et [Ll Hc]]]. exists l. split; [exact Et|]. split; [exact Ll|].
  intros k p Hp. destruct (Hc k p Hp) as [row [Er [ns [C [Ei [C11 W]]]]]]. exists row. split; [exact Er|]. exists ns. split; [exact C|]. split; [exact Ei|].
  eexists. split.
  - instantiate (1 := map (fun i => station_cdd cdd_map lat0 lon0 latres lonres (slat (Z.of_nat i)) (slon (Z.of_nat i))) ns). clear - Nm Fm. induction ns as [|i ns IH]; [constructor|]. cbn [map]. constructor; [now apply station_cdd_spec|exact IH].
  - intros Hp0 H0 ss Ls Hss Sp. rewrite W. apply (C52_newetal_partial _ _ _ ss); try assumption. rewrite map_length. apply C.
Qed.
Print Assumptions C85_newetal_partial.

(** the cell a station lies in: the one whose centre is less than half a
    spacing away. A station further away than the cut-off of its own cell gets
    no weight. *)
Definition own_place (n : nat) (x : R) (i : nat) : Prop := (i < n)%nat /\ Rabs (x - INR i) < 1 / 2.
Definition C85_newetal_full : Prop := forall (Loc : Type) (dist : Loc -> nat -> R) n tree lat lon slat slon part10 bc opts cdd_map rows l lat0 lon0 latres lonres k p w ids j z c x,
  kdtreeR dist n tree -> (11 <= n)%nat -> (forall p i, 0 <= dist p i) -> origin lat lon rows lat0 lon0 latres lonres -> 0 < latres -> lonres < 0 ->
  interpolate_whole (part_cdd tree lat lon slat slon part10 bc "NewEtAl" opts cdd_map) rows = Ok (Mat l) ->
  nth_error (List.concat rows) k = Some p -> nth_error l k = Some (w, ids) -> nth_error ids j = Some z -> nth_error w j = Some (XF x) ->
  cdd_of_station own_place cdd_map lat0 lon0 latres lonres (slat z) (slon z) c -> c < dist p (Z.to_nat z) -> x = 0.

Definition ow_dist (_ : R * R) (i : nat) : R := if Nat.eqb i 0 then 1 else 10.
Definition ow_map : list (list R) := [[2; 2]; [2; 2]; [2; 2]; [/ 2; / 2]].
(** a station at latitude 0.4 lies in the last row (latitude 0), but the cut-off
    of the row above is used *)
Theorem C85_own_cell_refuted : ~ C85_newetal_full.
Proof.
  intro Full. set (tree := exhaustiveR ow_dist 11). set (sla := fun _ : Z => 2 / 5). set (slo := fun _ : Z => 0).
  assert (K : kdtreeR ow_dist 11 tree) by apply exhaustiveR_kdtree. assert (Hd : forall p i, 0 <= ow_dist p i) by (intros p i; unfold ow_dist; destruct (Nat.eqb i 0); lra).
  assert (Og : origin fst snd nt_rows 3 0 1 (-1)). { exists (3, 0), (3, 1), [], (2, 0), [(2, 1)], [[(1, 0); (1, 1)]; [(0, 0); (0, 1)]]. split; [reflexivity|]. cbn [fst snd]. repeat split; ring. }
  destruct (interpolate_whole (part_cdd tree fst snd sla slo numpy_part false "NewEtAl" None ow_map) nt_rows) as [t|e] eqn:Et; [|discriminate Et].
  destruct (C85_newetal_partial _ ow_dist 11 tree fst snd sla slo numpy_part false None ow_map nt_rows t 3 0 1 (-1) K ltac:(lia) Hd Og ltac:(discriminate) ltac:(repeat constructor; discriminate) Et) as [l [-> [Ll Hc]]].
  destruct (Hc 0%nat (3, 0) eq_refl) as [row [Er [ns [C [Ei [cs [Fcs W]]]]]]].
  (* every station has the cut-off 2 *)
  assert (U : forall c, cdd_of_station whole_spacings ow_map 3 0 1 (-1) (2 / 5) 0 c -> c = 2).
  { intros c [i [j [r [Pi [Hi [Pj Hj]]]]]]. destruct Pi as [Li [I1 I2]]. cbn [ow_map List.length] in Li, I2.
    assert (i = 2%nat). { destruct i as [|[|[|[|i]]]]; [specialize (I2 ltac:(lia)); cbn in I2; lra|specialize (I2 ltac:(lia)); cbn in I2; lra|reflexivity|specialize (I1 ltac:(lia)); cbn in I1; lra|lia]. }
    subst i. cbn [ow_map nth_error] in Hi. assert (r = [2; 2]) by congruence. subst r. destruct j as [|[|j]]; cbn [nth_error] in Hj; [congruence|congruence|destruct j; discriminate Hj]. }
  assert (Ecs : cs = repeat 2 11).
  { destruct C as [Ln _]. rewrite <- Ln. clear - Fcs U. induction Fcs as [|i c ns cs Hc _ IH]; [reflexivity|]. cbn [List.length repeat]. f_equal; [now apply U|exact IH]. }
  (* the nearest station is the first *)
  assert (N0 : exists ns', ns = (0 :: ns')%nat /\ forall i, In i ns' -> i <> 0%nat).
  { destruct C as [Ln [Nd [Lt [So Cl]]]]. destruct (in_dec Nat.eq_dec 0%nat ns) as [I0|I0].
    - destruct ns as [|i ns]; [destruct I0|]. inversion Nd as [|a b Ni Nd']; subst. inversion So as [|a b _ Fi]; subst. destruct I0 as [->|I0]; [exists ns; split; [reflexivity|intros j Hj ->; contradiction]|].
      pose proof (proj1 (Forall_forall _ _) Fi 0%nat I0) as Q. unfold ow_dist in Q. cbn in Q. destruct (Nat.eqb_spec i 0) as [->|]; [contradiction|lra].
    - exfalso. assert (L : (List.length ns <= List.length (seq 1 10))%nat). { apply NoDup_incl_length; [exact Nd|]. intros i Hi. apply in_seq. specialize (Lt i Hi). destruct i; [contradiction|lia]. } rewrite seq_length in L. lia. }
  destruct N0 as [ns' [-> Nz]].
  assert (Ln' : List.length ns' = 10%nat) by (destruct C as [Ln _]; cbn in Ln; lia).
  assert (Eds : map (ow_dist (3, 0)) (0%nat :: ns') = 1 :: repeat 10 10).
  { cbn [map]. f_equal. rewrite <- Ln'. clear - Nz. induction ns' as [|i ns IH]; [reflexivity|]. cbn [map List.length repeat]. f_equal; [unfold ow_dist; destruct (Nat.eqb_spec i 0) as [E|]; [destruct (Nz i); [now left|exact E]|reflexivity]|apply IH; intros; apply Nz; now right]. }
  rewrite Eds, Ecs in W. set (diffs := map _ _) in W.
  assert (Wt : cell_weights (fst row) (1 :: repeat 10 10) diffs (fun i => decay (at_ (repeat 2 11) i))).
  { apply (W ltac:(intros c Hin; apply repeat_spec in Hin; subst c; lra) ltac:(cbn; lra) (exp (- (1 / 2)) ^ 4 :: repeat 0 10)%list eq_refl).
    - intros i Hi. assert (A2 : at_ (repeat 2 11) i = 2) by (do 11 (destruct i as [|i]; [reflexivity|]); lia). rewrite A2. destruct i as [|i].
      + split; [reflexivity|]. cbn [at_ nth]. lra.
      + assert (A10 : at_ (1 :: repeat 10 10) (S i) = 10) by (do 10 (destruct i as [|i]; [reflexivity|]); lia). assert (A0 : at_ (exp (- (1 / 2)) ^ 4 :: repeat 0 10) (S i) = 0) by (do 10 (destruct i as [|i]; [reflexivity|]); lia). rewrite A10, A0. split; [lra|reflexivity].
    - right. right. exists 0%nat. unfold diffs. rewrite map_length. split; [cbn; lia|]. intros j Hj N. cbn in Hj. rewrite Ln' in Hj. destruct j as [|j]; [congruence|]. do 10 (destruct j as [|j]; [reflexivity|]). lia. }
  destruct Wt as [ss [ts [qs [c0 [Ew [Lq [_ [[_ Hsum] [_ Hcw]]]]]]]]].
  assert (Q0 : at_ qs 0 = 1).
  { assert (Z : forall i, (1 <= i < 11)%nat -> at_ qs i = 0).
    { intros i Hi. destruct (Hcw i ltac:(lia)) as [[_ D] [_ [_ [_ Hz]]]]. apply Hz, D. do 11 (destruct i as [|i]; [cbn; try lra; lia|]). lia. }
    rewrite <- Hsum. do 12 (destruct qs as [|? qs]; [cbn in Lq; try lia|]). 2: cbn in Lq; lia.
    pose proof (Z 1%nat ltac:(lia)). pose proof (Z 2%nat ltac:(lia)). pose proof (Z 3%nat ltac:(lia)). pose proof (Z 4%nat ltac:(lia)). pose proof (Z 5%nat ltac:(lia)). pose proof (Z 6%nat ltac:(lia)). pose proof (Z 7%nat ltac:(lia)). pose proof (Z 8%nat ltac:(lia)). pose proof (Z 9%nat ltac:(lia)). pose proof (Z 10%nat ltac:(lia)).
    unfold at_ in *. cbn [nth] in *. cbn. lra. }
  destruct row as [w ids]. cbn [fst snd] in Ew, Ei.
  assert (C1 : 1 = 0); [|lra].
  apply (Full _ ow_dist 11%nat tree fst snd sla slo numpy_part false None ow_map nt_rows l 3 0 1 (-1) 0%nat (3, 0) w ids 0%nat 0%Z (/ 2) 1 K ltac:(lia) Hd Og ltac:(lra) ltac:(lra) Et eq_refl Er).
  - rewrite Ei. reflexivity.
  - rewrite Ew. destruct qs as [|q qs]; [discriminate Lq|]. unfold at_ in Q0. cbn [nth] in Q0. rewrite Q0. reflexivity.
  - exists 3%nat, 0%nat, [/ 2; / 2]. unfold own_place, sla, slo. split; [split; [cbn; lia|]|split; [reflexivity|split; [split; [cbn; lia|]|reflexivity]]].
    + apply Rabs_def1; cbn; lra.
    + apply Rabs_def1; cbn; lra.
  - unfold ow_dist. cbn. lra.
Qed.
Print Assumptions C85_own_cell_refuted.
(** a target of eight cells, twenty stations, the standard parameters *)
Example C85_nonvacuous : let dist := fun (p : R * R) i => Rabs (fst p - INR i) in
  kdtreeR dist 20 (exhaustiveR dist 20) /\ (forall p i, 0 <= dist p i) /\ origin fst snd nt_rows 3 0 1 (-1) /\ parameters None 4 4 (1 / 3) "All" /\
  (exists t, interpolate_whole (part_cdd (exhaustiveR dist 20) fst snd IZR IZR numpy_part true "MixHofstraShepard" None nt_map) nt_rows = Ok t) /\
  (exists t, interpolate_whole (part_cdd (exhaustiveR dist 20) fst snd IZR IZR numpy_part true "Hofstra" None nt_map) nt_rows = Ok t).
Proof.
  cbv zeta. split; [apply exhaustiveR_kdtree|]. split; [intros; apply Rabs_pos|]. split; [|split; [|split]].
  - exists (3, 0), (3, 1), [], (2, 0), [(2, 1)], [[(1, 0); (1, 1)]; [(0, 0); (0, 1)]]. split; [reflexivity|]. cbn [fst snd]. repeat split; ring.
  - left. repeat split; reflexivity.
  - eexists. reflexivity.
  - eexists. reflexivity.
Qed.
