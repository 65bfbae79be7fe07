(** * Props_Writers2: what a reader of a written NetCDF file sees, with packing
    and a valid range (C40). *)
From Verif Require Import Base PyStr Num Writers Spec_Writers Base_P Num_P PyStr_P Writers_P Writers_P2.
From Coq Require Import Lqa.
Local Open Scope Qc_scope.

(** below the lower / above the upper bound of the valid range, if any *)
Definition outside (vmin vmax : option Qc) (q : Qc) : Prop :=
  (exists lo, vmin = Some lo /\ q < lo) \/ (exists hi, vmax = Some hi /\ hi < q).
(** a cell with no value: NaN, equal to the missing value of the output, or missing in the clone map *)
Definition no_value (isfloat : bool) (mv mv_out c x : num) : bool :=
  (is_nan x || neqb x mv_out || clone_missing isfloat c mv)%bool.

Lemma written_var cm vf s o vmin vmax mv_out fields v f : fields <> [] -> nc_write_fields cm mv_out vf s o vmin vmax fields = Ok v ->
  vfmt_of (match vf with Some x => x | None => "f8"%string end) = Some f ->
  nv_scale v = s /\ nv_offset v = o /\ nv_fill v = fillval f /\
  nv_min v = match vmin with Some x => Some ((x - o) / s) | None => None end /\
  nv_max v = match vmax with Some x => Some ((x - o) / s) | None => None end.
Proof.
  intros Hne H Hf. apply nc_write_inv in H as [l [f' [_ [Hf' [_ ->]]]]]; [|destruct fields; [congruence|discriminate]]. assert (f' = f) as -> by congruence.
  cbn [nv_scale nv_offset nv_fill nv_min nv_max]. auto.
Qed.
Lemma ltb_not a b : Qc_ltb a b = false <-> ~ a < b.
Proof.
  rewrite <- (Qc_ltb_spec a b). destruct (Qc_ltb a b); split; intro H; try congruence; now elim H.
Qed.

Lemma float_names k : In k ["f4"; "f8"]%string -> exists f, vfmt_of k = Some f /\ is_int_fmt f = false.
Proof. intros [<-|[<-|[]]]; eexists; split; reflexivity. Qed.
Lemma int_names k : In k ["i1"; "i2"; "i4"]%string -> exists f, vfmt_of k = Some f /\ is_int_fmt f = true.
Proof. intros [<-|[<-|[<-|[]]]]; eexists; split; reflexivity. Qed.
(** ** C40, floating point formats: the reader gets the value back, or nothing
    exactly where there is none or the value is outside the valid range *)
Theorem C40_file_float : forall isfloat clone mv mv_out vf s o vmin vmax fields,
  0 < s -> In (match vf with Some x => x | None => "f8" end)%string ["f4"; "f8"]%string ->
  (exists c, In c clone /\ clone_missing isfloat c mv = true) ->
  fields <> [] -> Forall (fun a => amask a = None /\ List.length (adata a) = List.length clone) fields ->
  exists v, nc_write_fields (clone_mask isfloat clone mv) mv_out vf s o vmin vmax fields = Ok v /\
    List.length (nv_cells v) = List.length fields /\
    forall t a i x c, nth_error fields t = Some a -> nth_error (adata a) i = Some x -> nth_error clone i = Some c ->
      exists row p, nth_error (nv_cells v) t = Some row /\ nth_error row i = Some p /\
        (no_value isfloat mv mv_out c x = true -> nc_read_cell v p = None) /\
        (forall q, x = Fin q -> no_value isfloat mv mv_out c x = false -> q <> nv_fill v * s + o ->
           (outside vmin vmax q -> nc_read_cell v p = None) /\
           (~ outside vmin vmax q -> nc_read_cell v p = Some x)).
Proof.
  intros isfloat clone mv mv_out vf s o vmin vmax fields Hs Hk Hc Hne Hfields. destruct (float_names _ Hk) as (f & Hf & Hi). clear Hk.
  pose proof (Qc_pos_neq0 _ Hs) as Hn.
  destruct (nc_fields_spec isfloat clone mv mv_out vf s o vmin vmax fields f Hn Hf Hc Hne Hfields) as [v [Hv [Hlen Hcell]]].
  exists v. split; [exact Hv|]. split; [exact Hlen|]. intros t a i x c Ha Hx Hcl.
  destruct (Hcell t a i x c Ha Hx Hcl) as [row [p [Hr [Hp [Ep [Hmiss _]]]]]]. exists row, p.
  split; [exact Hr|]. split; [exact Hp|]. split; [exact Hmiss|]. clear Hmiss Hcell Hr Hp.
  intros q -> Hnv Hq. unfold no_value in Hnv. rewrite Hnv in Ep. clear Hnv.
  destruct (written_var _ _ _ _ _ _ _ _ _ _ Hne Hv Hf) as [E1 [E2 [E3 [E4 E5]]]]. rewrite E3 in *.
  assert (Hpk : forall lo hi, exists p', nc_pack f s o (Fin q) = Fin p' /\ ((lo - o) / s <= p' <-> lo <= q) /\ (p' <= (hi - o) / s <-> q <= hi)).
  { intros. now apply packed_range_float. }
  destruct (nc_pack f s o (Fin q)) as [p'| | |] eqn:Epk; try (destruct (Hpk 0 0) as [? [? _]]; discriminate).
  assert (Hrange : forall lo hi, ((lo - o) / s <= p' <-> lo <= q) /\ (p' <= (hi - o) / s <-> q <= hi)).
  { intros lo hi. destruct (Hpk lo hi) as [p2 [E H]]. injection E as ->. exact H. }
  assert (Hb : unpack (Fin p') s o = Fin q) by (rewrite <- Epk; apply pack_float; [exact Hn|exact Hi|discriminate]).
  unfold unpack in Hb.
  assert (Hfill : Qc_eqb p' (fillval f) = false).
  { apply Qc_eqb_false. intros ->. apply Hq. cbn in Hb. injection Hb as Hb. congruence. }
  subst p. unfold nc_read_cell. rewrite E1, E2, E3, E4, E5. cbn [neqb]. rewrite Hfill. clear Hfill.
  rewrite Hb. clear Hpk Hb.
  assert (Hlo : forall lo, Qc_ltb p' ((lo - o) / s) = true <-> q < lo).
  { intro lo. rewrite Qc_ltb_spec. destruct (Hrange lo lo) as [H _]. split; intro G.
    - apply Qcnot_le_lt. intro G2. apply (Qclt_not_le _ _ G). tauto.
    - apply Qcnot_le_lt. intro G2. apply (Qclt_not_le _ _ G). tauto. }
  assert (Hhi : forall hi, Qc_ltb ((hi - o) / s) p' = true <-> hi < q).
  { intro hi. rewrite Qc_ltb_spec. destruct (Hrange hi hi) as [_ H]. split; intro G.
    - apply Qcnot_le_lt. intro G2. apply (Qclt_not_le _ _ G). tauto.
    - apply Qcnot_le_lt. intro G2. apply (Qclt_not_le _ _ G). tauto. }
  split.
  - intros [[lo [-> H]]|[hi [-> H]]]; cbn [nltb].
    + rewrite (proj2 (Hlo lo) H). reflexivity.
    + destruct (match vmin with Some x => Some ((x - o) / s) | None => None end) as [m|]; [destruct (Qc_ltb p' m); [reflexivity|]|];
        rewrite (proj2 (Hhi hi) H); reflexivity.
  - intro Hout.
    assert (A : match match vmin with Some x => Some ((x - o) / s) | None => None end with Some lo => nltb (Fin p') (Fin lo) | None => false end = false).
    { destruct vmin as [lo|]; [|reflexivity]. cbn [nltb]. destruct (Qc_ltb p' ((lo - o) / s)) eqn:E; [|reflexivity].
      exfalso. apply Hout. left. exists lo. split; [reflexivity|]. now apply Hlo. }
    assert (B : match match vmax with Some x => Some ((x - o) / s) | None => None end with Some hi => nltb (Fin hi) (Fin p') | None => false end = false).
    { destruct vmax as [hi|]; [|reflexivity]. cbn [nltb]. destruct (Qc_ltb ((hi - o) / s) p') eqn:E; [|reflexivity].
      exfalso. apply Hout. right. exists hi. split; [reflexivity|]. now apply Hhi. }
    rewrite A, B. reflexivity.
Qed.
Print Assumptions C40_file_float.

(** integer formats, with bounds that are whole packed numbers: a value inside
    the valid range is read back within half the scale factor *)
Theorem C40_file_integer : forall isfloat clone mv mv_out vf s o lo hi fields,
  0 < s -> (exists k, vf = Some k /\ In k ["i1"; "i2"; "i4"]%string) ->
  integral ((lo - o) / s) -> integral ((hi - o) / s) ->
  (exists c, In c clone /\ clone_missing isfloat c mv = true) ->
  fields <> [] -> Forall (fun a => amask a = None /\ List.length (adata a) = List.length clone) fields ->
  exists v, nc_write_fields (clone_mask isfloat clone mv) mv_out vf s o (Some lo) (Some hi) fields = Ok v /\
    forall t a i x c, nth_error fields t = Some a -> nth_error (adata a) i = Some x -> nth_error clone i = Some c ->
      exists row p, nth_error (nv_cells v) t = Some row /\ nth_error row i = Some p /\
        (no_value isfloat mv mv_out c x = true -> nc_read_cell v p = None) /\
        (forall q, x = Fin q -> no_value isfloat mv mv_out c x = false -> lo <= q -> q <= hi -> p <> Fin (nv_fill v) ->
           exists r, nc_read_cell v p = Some (Fin r) /\ r - q <= s * Q2Qc (1 # 2) /\ q - r <= s * Q2Qc (1 # 2)).
Proof.
  intros isfloat clone mv mv_out vf s o lo hi fields Hs Hk Il Ih Hc Hne Hfields. assert (Hk' : exists f, vfmt_of (match vf with Some x => x | None => "f8"%string end) = Some f /\ is_int_fmt f = true) by (destruct Hk as (k & -> & Hk); now apply int_names).
  destruct Hk' as (f & Hf & Hi). clear Hk.
  pose proof (Qc_pos_neq0 _ Hs) as Hn.
  destruct (nc_fields_spec isfloat clone mv mv_out vf s o (Some lo) (Some hi) fields f Hn Hf Hc Hne Hfields) as [v [Hv [_ Hcell]]].
  exists v. split; [exact Hv|]. intros t a i x c Ha Hx Hcl.
  destruct (Hcell t a i x c Ha Hx Hcl) as [row [p [Hr [Hp [Ep [Hmiss _]]]]]]. exists row, p.
  split; [exact Hr|]. split; [exact Hp|]. split; [exact Hmiss|]. clear Hmiss Hcell Hr Hp.
  intros q -> Hnv Hlo Hhi Hfill. unfold no_value in Hnv. rewrite Hnv in Ep. clear Hnv.
  destruct (written_var _ _ _ _ _ _ _ _ _ _ Hne Hv Hf) as [E1 [E2 [E3 [E4 E5]]]]. rewrite E3 in *.
  destruct (packed_range_int f s o lo hi q Hs Hi Il Ih) as [p1 [Ep1 [Gl Gh]]].
  destruct (pack_int f s o q Hn Hi) as [p2 [Ep2 [_ [A B]]]].
  assert (p2 = p1) as -> by congruence. rewrite Ep1 in Ep. subst p.
  assert (Ea : Qcabs s = s).
  { unfold Qcabs. rewrite (proj2 (ltb_not s 0)); [reflexivity|]. apply Qcle_not_lt. now apply Qclt_le_weak. }
  rewrite Ea in A, B. exists (p1 * s + o).
  unfold nc_read_cell. rewrite E1, E2, E3, E4, E5. cbn [neqb].
  rewrite (proj2 (Qc_eqb_false p1 (fillval f))) by congruence.
  cbn [nltb]. rewrite (proj2 (ltb_not _ _)) by (apply Qcle_not_lt; now apply Gl).
  rewrite (proj2 (ltb_not _ _)) by (apply Qcle_not_lt; now apply Gh).
  split; [reflexivity|]. split; assumption.
Qed.
Print Assumptions C40_file_integer.

Example C40_file_nonvacuous :
  exists v, nc_write_fields (clone_mask true [Fin 1; Fin (ZQ (-9999)); Fin 1; Fin 1; Fin 1] (Fin (ZQ (-9999)))) (Fin (ZQ (-1))) None (ZQ 2) (ZQ 3)
      (Some 0) (Some (ZQ 100)) [Nd [Fin (ZQ 5); Fin (ZQ 6); NaN; Fin (ZQ 101); Fin (ZQ 100)]] = Ok v /\
    map (nc_read_cell v) (List.concat (nv_cells v)) = [Some (Fin (ZQ 5)); None; None; None; Some (Fin (ZQ 100))] /\
    outside (Some 0) (Some (ZQ 100)) (ZQ 101) /\ ~ outside (Some 0) (Some (ZQ 100)) (ZQ 100).
Proof.
  eexists. split; [vm_compute; reflexivity|]. split; [vm_compute; repeat f_equal; apply Qc_is_canon; reflexivity|]. split.
  - right. exists (ZQ 100). split; reflexivity.
  - intros [[x [E H]]|[x [E H]]]; injection E as <-; vm_compute in H; discriminate H.
Qed.

(** ** C104: the value formats of the documentation (README, option
    valueFormat; the default is f8) *)
Definition documented_formats : list string :=
  ["i1"; "i2"; "i4"; "i8"; "u1"; "u2"; "u4"; "u8"; "f4"; "f8"]%string.
(** full statement: fields of the size of the clone (one with a missing cell:
    C38) can be written in every documented format *)
Definition C104_full : Prop := forall isfloat clone mv mv_out vf s o vmin vmax fields,
  s <> 0 -> In vf documented_formats ->
  (exists c, In c clone /\ clone_missing isfloat c mv = true) ->
  fields <> [] -> Forall (fun a => amask a = None /\ List.length (adata a) = List.length clone) fields ->
  exists v, nc_write_fields (clone_mask isfloat clone mv) mv_out (Some vf) s o vmin vmax fields = Ok v.
Theorem C104_unsigned_refuted : ~ C104_full.
Proof.
  intro H. destruct (H true [Fin 1; Fin (ZQ (-9999))] (Fin (ZQ (-9999))) (Fin (ZQ (-9999))) "u1"%string 1 0 None None
    [Nd [Fin 1; Fin 1]]) as [v Hv].
  - discriminate.
  - cbn. tauto.
  - exists (Fin (ZQ (-9999))). split; [right; now left|vm_compute; reflexivity].
  - discriminate.
  - constructor; [split; reflexivity|constructor].
  - vm_compute in Hv. discriminate Hv.
Qed.
Print Assumptions C104_unsigned_refuted.
(** exactly the formats of the classic data model work, with the fill value of
    the library for that format; the five others fail in the library, and any
    other name (but S1) is a missing key *)
Theorem C104_partial : forall isfloat clone mv mv_out s o vmin vmax fields,
  s <> 0 -> (exists c, In c clone /\ clone_missing isfloat c mv = true) ->
  fields <> [] -> Forall (fun a => amask a = None /\ List.length (adata a) = List.length clone) fields ->
  forall vf : string, let w := nc_write_fields (clone_mask isfloat clone mv) mv_out (Some vf) s o vmin vmax fields in
  ((exists v, w = Ok v) <-> In vf ["i1"; "i2"; "i4"; "f4"; "f8"]%string) /\
  (In vf ["u1"; "u2"; "u4"; "i8"; "u8"]%string -> w = Raise OtherError) /\
  (~ In vf documented_formats -> vf <> "S1"%string -> w = Raise KeyError) /\
  (forall v, w = Ok v ->
     In (vf, nv_fill v) [("i1", ZQ (-127)); ("i2", ZQ (-32767)); ("i4", ZQ (-2147483647));
       ("f4", ZQ (15 * 2 ^ 119)); ("f8", ZQ (15 * 2 ^ 119))]%string) /\
  (* no format given: f8 *)
  nc_write_fields (clone_mask isfloat clone mv) mv_out None s o vmin vmax fields =
  nc_write_fields (clone_mask isfloat clone mv) mv_out (Some "f8"%string) s o vmin vmax fields.
Proof.
  intros isfloat clone mv mv_out s o vmin vmax fields Hs Hc Hne Hf vf w.
  assert (Hne2 : map (nc_field mv_out) fields <> []) by (destruct fields; [congruence|discriminate]).
  assert (Hok : forall g, vfmt_of vf = Some g -> exists v, w = Ok v).
  { intros g Hg. destruct (nc_fields_spec isfloat clone mv mv_out (Some vf) s o vmin vmax fields g Hs Hg Hc Hne Hf) as [v [Hv _]].
    now exists v. }
  assert (Hbad : forall e, nc_format vf = Raise e -> w = Raise e).
  { intros e He. unfold w, nc_write_fields, nc_write. now rewrite He. }
  split.
  { split.
    - intros [v Hv]. unfold w, nc_write_fields in Hv. destruct (nc_write_inv _ (Some vf) _ _ _ _ _ _ Hne2 Hv) as [l [f [_ [Hvf _]]]].
      unfold vfmt_of in Hvf. apply (dget_In _ String_eqb_spec') in Hvf. cbn in Hvf.
      cbn. destruct Hvf as [E|[E|[E|[E|[E|[]]]]]]; injection E as <- _; tauto.
    - cbn. intros [<-|[<-|[<-|[<-|[<-|[]]]]]]; eapply Hok; reflexivity. }
  split.
  { cbn. intros [<-|[<-|[<-|[<-|[<-|[]]]]]]; apply Hbad; reflexivity. }
  split.
  { intros Hn HS. apply Hbad. unfold nc_format. destruct (vfmt_of vf) as [g|] eqn:E.
    - exfalso. apply Hn. unfold vfmt_of in E. apply (dget_In _ String_eqb_spec') in E. cbn in E. cbn.
      destruct E as [E|[E|[E|[E|[E|[]]]]]]; injection E as <- _; tauto.
    - destruct (existsb (String.eqb vf) refused_formats) eqn:E2.
      + exfalso. apply Hn. apply existsb_exists in E2 as [y [Hy Ey]]. apply String.eqb_eq in Ey. subst y. cbn in Hy. cbn. tauto.
      + destruct (String.eqb_spec vf "S1"); [contradiction|reflexivity]. }
  split; [|reflexivity].
  intros v Hv. unfold w, nc_write_fields in Hv. destruct (nc_write_inv _ (Some vf) _ _ _ _ _ _ Hne2 Hv) as [l [f [_ [Hvf [_ ->]]]]].
  cbn [nv_fill]. unfold vfmt_of in Hvf. apply (dget_In _ String_eqb_spec') in Hvf. cbn in Hvf.
  destruct Hvf as [E|[E|[E|[E|[E|[]]]]]]; injection E as <- <-; unfold fillval.
  - now left.
  - right; now left.
  - do 2 right; now left.
  - do 3 right. left. f_equal.
  - do 4 right. left. f_equal.
Qed.
Print Assumptions C104_partial.
Example C104_nonvacuous :
  let w vf := nc_write_fields (clone_mask true [Fin 1; Fin (ZQ (-9999))] (Fin (ZQ (-9999)))) (Fin (ZQ (-9999))) (Some vf) 1 0 None None [Nd [Fin 1; Fin 1]] in
  (exists v, w "i2"%string = Ok v /\ nv_fill v = ZQ (-32767)) /\ w "u2"%string = Raise OtherError /\ w "f2"%string = Raise KeyError.
Proof. split; [eexists; split; [vm_compute; reflexivity|reflexivity]|]. split; vm_compute; reflexivity. Qed.
