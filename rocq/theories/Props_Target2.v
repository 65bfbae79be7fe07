(** * Property C80: netCDF targets without usable coordinates. Vocabulary:
    Spec_Target.v. *)
From Verif Require Import Base Num PyStr Strings Writers Target Spec_Target Base_P PyStr_P Interp_P.
Local Open Scope string_scope.

(** a path is that of a netCDF file when its last three characters say so *)
Theorem C80_suffix : forall p, ends_nc p = true <-> exists q, p = q +++ ".nc".
Proof.
  intro p. unfold ends_nc. split.
  - intro H. exists (rev_string (sdrop 3 (rev_string p))). rewrite <- (rev_string_inv p) at 1.
    destruct (rev_string p) as [|c1 [|c2 [|c3 s]]]; try discriminate H.
    + cbn in H. now rewrite Bool.andb_false_r in H.
    + cbn in H. now rewrite !Bool.andb_false_r in H.
    + cbn [starts_with] in H. apply andb_prop in H as [H1 H]. apply andb_prop in H as [H2 H]. apply andb_prop in H as [H3 _].
      apply Ascii.eqb_eq in H1, H2, H3. subst. change (String "c" (String "n" (String "." s))) with ("cn." +++ s). rewrite rev_string_app. reflexivity.
  - intros [q ->]. rewrite rev_string_app. reflexivity.
Qed.
Print Assumptions C80_suffix.

Section File.
  Variables (k : disk) (p : string) (f : nfile) (v : nvar).
  Hypotheses (Hk : k p = Some (FNc f)) (Hp : exists q, p = q +++ ".nc") (Hn : NoDup (map v_name f)) (Hv : only_variable f v).
  Variables (a b : string) (r c : nat).
  Hypothesis Hd : v_dims v = [(a, r); (b, c)].

  Lemma main_var : find_main_var f = Ok v.
  Proof using Hn Hv.
    clear - Hn Hv. destruct Hv as (Hi & H2 & Hu). unfold find_main_var.
    assert (E : filter (fun w => Nat.leb 2 (List.length (v_dims w))) f = [v]); [|now rewrite E].
    clear Hv. induction f as [|w g IH]; [easy|]. cbn [filter map] in *. inversion Hn as [|? ? N1 N2]; subst.
    destruct (Nat.leb_spec 2 (List.length (v_dims w))) as [L|L].
    - assert (w = v) by (apply Hu; [now left|exact L]). subst w. f_equal.
      assert (G : forall u, In u g -> (List.length (v_dims u) < 2)%nat).
      { intros u Hu2. destruct (Nat.lt_ge_cases (List.length (v_dims u)) 2) as [?|G]; [assumption|].
        exfalso. apply N1. rewrite <- (Hu u (or_intror Hu2) G). now apply in_map. }
      clear - G. induction g as [|u g IH]; [reflexivity|]. cbn [filter]. pose proof (G u (or_introl eq_refl)).
      destruct (Nat.leb_spec 2 (List.length (v_dims u))); [lia|]. apply IH. intros; apply G; now right.
    - destruct Hi as [-> |Hi]; [lia|]. apply IH; try assumption. intros u U1 U2. apply Hu; [now right|exact U2].
  Qed.
  Lemma find_none n : ~ In n (map v_name f) -> nfind f n = Raise KeyError.
  Proof using.
    clear. intro H. unfold nfind. induction f as [|w g IH]; [reflexivity|]. cbn [map List.find] in *.
    destruct (String.eqb_spec (v_name w) n) as [E|_]; [exfalso; apply H; now left|]. apply IH. intro; apply H; now right.
  Qed.
  Lemma find_some n xs : is_coordinate f n xs -> exists w, nfind f n = Ok w /\ v_data w = xs.
  Proof using Hn.
    clear - Hn. intros (w & Hi & E & _ & Ed). exists w. split; [|exact Ed]. unfold nfind.
    induction f as [|u g IH]; [easy|]. cbn [map List.find] in *. inversion Hn as [|? ? N1 N2]; subst.
    destruct (String.eqb_spec (v_name u) (v_name w)) as [En|En].
    - destruct Hi as [-> |Hi]; [reflexivity|]. exfalso. apply N1. rewrite En. now apply in_map.
    - destruct Hi as [-> |Hi]; [easy|]. now apply IH.
  Qed.
  Lemma mem_in n : nmem f n = true <-> In n (map v_name f).
  Proof using.
    clear. unfold nmem. rewrite existsb_exists, in_map_iff. split; intros (w & A & B); exists w.
    - apply String.eqb_eq in B. auto. - split; [exact B|]. now apply String.eqb_eq.
  Qed.
  Lemma coord_in n xs : is_coordinate f n xs -> In n (map v_name f).
  Proof using. clear. intros (w & Hi & <- & _). now apply in_map. Qed.
  Lemma opened : latlong k p p = do x <- nc_reader f; do y <- lat_lon_values x; Ok (mkTarget (fst y) (snd y) f8_fill).
  Proof using Hk Hp. unfold latlong. rewrite (proj2 (C80_suffix p) Hp), String.eqb_refl. unfold open_nc. now rewrite Hk. Qed.

  (** the names of the coordinates of the file *)
  Definition coordinates_of (dy dx : string) : Prop :=
    In "lon" (map v_name f) /\ dy = "lat" /\ dx = "lon" \/ ~ In "lon" (map v_name f) /\ dy = "y" /\ dx = "x".
  Lemma reader dy dx : coordinates_of dy dx -> nc_reader f =
    do vlon <- nfind f dx; do lon <- coordinate vlon; do vlat <- nfind f dy; do lat <- coordinate vlat; Ok (mkNreader v r c lat lon (map_mv v)).
  Proof using Hn Hv Hd.
    intro H. unfold nc_reader. rewrite main_var. cbn [rbind]. rewrite Hd. cbn [rbind].
    assert (E : (if nmem f "lon" then ("lat", "lon") else ("y", "x")) = (dy, dx)).
    { destruct H as [(A & -> & ->)|(A & -> & ->)]; [now rewrite (proj2 (mem_in _) A)|].
      destruct (nmem f "lon") eqn:M; [|reflexivity]. apply mem_in in M. easy. }
    now rewrite E.
  Qed.
  Lemma coordinate_two w : (2 <= List.length (v_data w))%nat -> coordinate w = Ok (v_data w).
  Proof using. clear. unfold coordinate. destruct (v_data w) as [|x [|y l]]; cbn; intro; try lia. reflexivity. Qed.
End File.

Definition nc_target (k : disk) (p : string) (f : nfile) (v : nvar) (a : string) (r : nat) (b : string) (c : nat) : Prop :=
  k p = Some (FNc f) /\ (exists q, p = q +++ ".nc") /\ NoDup (map v_name f) /\ only_variable f v /\ v_dims v = [(a, r); (b, c)].

(** ** a missing coordinate variable, or one with a single value *)
Theorem C80_no_coordinates : forall k p f v a r b c dy dx, nc_target k p f v a r b c -> coordinates_of f dy dx ->
  (~ In dx (map v_name f) -> latlong k p p = Raise KeyError) /\
  (forall x, is_coordinate f dx [x] -> latlong k p p = Raise IndexError) /\
  (forall xs, is_coordinate f dx xs -> (2 <= List.length xs)%nat ->
     (~ In dy (map v_name f) -> latlong k p p = Raise KeyError) /\
     (forall y, is_coordinate f dy [y] -> latlong k p p = Raise IndexError)).
Proof.
  intros k p f v a r b c dy dx (Hk & Hp & Hn & Hv & Hd) Hc. rewrite (opened k p f Hk Hp), (reader f v Hn Hv a b r c Hd dy dx Hc). split; [|split].
  - intro N. now rewrite (find_none f dx N).
  - intros x X. destruct (find_some f Hn dx _ X) as (w & -> & E). cbn [rbind]. unfold coordinate at 1. rewrite E. reflexivity.
  - intros xs X L. destruct (find_some f Hn dx _ X) as (w & -> & E). cbn [rbind]. rewrite coordinate_two by now rewrite E. cbn [rbind]. split.
    + intro N. now rewrite (find_none f dy N).
    + intros y Y. destruct (find_some f Hn dy _ Y) as (u & -> & E2). cbn [rbind]. unfold coordinate at 1. rewrite E2. reflexivity.
Qed.
Print Assumptions C80_no_coordinates.

(** ** coordinates of another size than the variable: refused, except that a
    variable of one row takes all latitudes (and one of one column all
    longitudes) *)
Theorem C80_other_size : forall k p f v a r b c dy dx ys xs, nc_target k p f v a r b c -> coordinates_of f dy dx ->
  is_coordinate f dy ys -> is_coordinate f dx xs -> (2 <= List.length ys)%nat -> (2 <= List.length xs)%nat ->
  ((r <> 1%nat /\ r <> List.length ys) \/ (c <> 1%nat /\ c <> List.length xs) -> latlong k p p = Raise ValueError) /\
  (r = 1%nat -> c = List.length xs -> exists t, latlong k p p = Ok t /\ List.length (t_lats t) = List.length ys /\ List.length (t_lons t) = 1%nat).
Proof.
  intros k p f v a r b c dy dx ys xs (Hk & Hp & Hn & Hv & Hd) Hc Y X Ly Lx.
  rewrite (opened k p f Hk Hp), (reader f v Hn Hv a b r c Hd dy dx Hc).
  destruct (find_some f Hn dx _ X) as (w & -> & Ew). cbn [rbind]. rewrite coordinate_two by now rewrite Ew. cbn [rbind].
  destruct (find_some f Hn dy _ Y) as (u & -> & Eu). cbn [rbind]. rewrite coordinate_two by now rewrite Eu. cbn [rbind].
  rewrite Ew, Eu. unfold lat_lon_values. cbn [nr_lat nr_lon nr_rows nr_cols].
  assert (B : forall n m, (2 <= n)%nat -> (m <> 1%nat /\ m <> n) -> bcast n m = Raise ValueError).
  { intros n m Hnm [H1 H2]. unfold bcast. destruct (Nat.eqb_spec n m); [lia|]. destruct (Nat.eqb_spec n 1); [lia|]. destruct (Nat.eqb_spec m 1); [lia|]. reflexivity. }
  assert (B1 : forall n, (2 <= n)%nat -> bcast n 1 = Ok n).
  { intros n Hnm. unfold bcast. destruct (Nat.eqb_spec n 1); [lia|]. reflexivity. }
  assert (B2 : forall n m, bcast n m = Raise ValueError \/ exists z, bcast n m = Ok z).
  { intros n m. unfold bcast. repeat destruct (Nat.eqb _ _); eauto. }
  split.
  - intros [H|H].
    + now rewrite (B _ _ Ly H).
    + destruct (B2 (List.length ys) r) as [-> |[z ->]]; cbn [rbind]; [reflexivity|]. now rewrite (B _ _ Lx H).
  - intros -> ->. rewrite (B1 _ Ly). cbn [rbind]. unfold bcast. rewrite Nat.eqb_refl. cbn [rbind]. eexists. split; [reflexivity|].
    cbn [t_lats t_lons fst snd]. rewrite map_length, firstn_length, repeat_length. split; [lia|reflexivity].
Qed.
Print Assumptions C80_other_size.

(** latitudes of three rows for a variable of two *)
Definition bad_nc : nfile :=
  [mkNvar "lat" [("lat", 3%nat)] VF8 None None [nint 30; nint 20; nint 10]; mkNvar "lon" [("lon", 2%nat)] VF8 None None [nint 1; nint 2];
   mkNvar "dem" [("r", 2%nat); ("c", 2%nat)] VF8 None None [nint 0; nint 0; nint 0; nint 0]].
Definition bad_disk : disk := fun p => if String.eqb p "a.nc" then Some (FNc bad_nc) else None.
Example C80_other_size_nonvacuous : (exists v, nc_target bad_disk "a.nc" bad_nc v "r" 2 "c" 2) /\ coordinates_of bad_nc "lat" "lon" /\
  is_coordinate bad_nc "lat" [nint 30; nint 20; nint 10] /\ is_coordinate bad_nc "lon" [nint 1; nint 2] /\ latlong bad_disk "a.nc" "a.nc" = Raise ValueError.
Proof.
  split; [|split; [left; repeat split; right; now left|split; [|split; [|reflexivity]]]].
  - exists (mkNvar "dem" [("r", 2%nat); ("c", 2%nat)] VF8 None None [nint 0; nint 0; nint 0; nint 0]). split; [reflexivity|]. split; [now exists "a"|]. split.
    + repeat constructor; cbn; intuition discriminate.
    + split; [|reflexivity]. split; [right; right; left; reflexivity|]. split; [cbn; lia|]. intros w [<-|[<-|[<-|[]]]]; cbn; intros; try lia. reflexivity.
  - eexists. split; [now left|]. repeat split.
  - eexists. split; [right; now left|]. repeat split.
Qed.
