(** * Writers_P2: proofs about the NetCDF writer. *)
From Verif Require Import Base PyStr Num Writers Spec_Writers Base_P Num_P PyStr_P Writers_P.
From Coq Require Import Lqa Sorted.
Local Open Scope Qc_scope.

(** ** floor and around *)
Definition qfloor (q : Qc) : Z := (Qnum (this q) / Zpos (Qden (this q)))%Z.

Lemma ZQ_this z : (this (ZQ z) == inject_Z z)%Q.
Proof. apply Qc_this_Q2Qc. Qed.

Lemma this_num_den q : (this q == inject_Z (Qnum (this q)) / inject_Z (Zpos (Qden (this q))))%Q.
Proof. destruct (this q) as [n d]. cbn [Qnum Qden]. unfold Qeq, Qdiv, Qmult, Qinv, inject_Z. cbn. lia. Qed.

Lemma this_scaled q : (this q * inject_Z (Zpos (Qden (this q))) == inject_Z (Qnum (this q)))%Q.
Proof. destruct (this q) as [n d]. unfold Qeq, Qmult, inject_Z. cbn. lia. Qed.

Lemma qfloor_le q z : ZQ z <= q <-> (z <= qfloor q)%Z.
Proof.
  unfold qfloor. set (n := Qnum (this q)). set (d := Zpos (Qden (this q))).
  assert (Hd : (0 < d)%Z) by reflexivity.
  unfold Qcle. rewrite ZQ_this. unfold Qle, inject_Z. cbn [Qnum Qden].
  fold n d. split; intro H.
  - apply Z.div_le_lower_bound; [exact Hd|]. lia.
  - pose proof (Z.mul_div_le n d Hd). nia.
Qed.

Lemma qfloor_lt q z : q < ZQ z <-> (qfloor q < z)%Z.
Proof.
  split; intro H.
  - destruct (Z.lt_ge_cases (qfloor q) z) as [H1|H1]; [exact H1|]. apply qfloor_le in H1. qclra.
  - destruct (Qclt_le_dec q (ZQ z)) as [H1|H1]; [exact H1|]. apply qfloor_le in H1. lia.
Qed.

Lemma qfloor_ZQ z : qfloor (ZQ z) = z.
Proof.
  apply Z.le_antisymm.
  - apply Z.lt_succ_r. apply qfloor_lt. apply (proj1 (ZQ_lt z (Z.succ z))). lia.
  - apply qfloor_le. apply Qcle_refl.
Qed.

Lemma non_integral_false q : non_integral q = false <-> integral q.
Proof.
  unfold non_integral. fold (qfloor q). rewrite Bool.negb_false_iff, Qc_eqb_spec. split.
  - intro H. now exists (qfloor q).
  - intros [z ->]. now rewrite qfloor_ZQ.
Qed.

Definition half : Qc := Q2Qc (1 # 2).

Lemma around_floor q : (around q = qfloor q /\ q <= ZQ (qfloor q) + half) \/
  (around q = (qfloor q + 1)%Z /\ ZQ (qfloor q) + half <= q).
Proof.
  unfold around. fold (qfloor q). set (n := Qnum (this q)). set (d := Zpos (Qden (this q))).
  assert (Hd : (0 < d)%Z) by reflexivity.
  assert (Hn : (n = d * qfloor q + n mod d)%Z) by (apply Z.div_mod; lia).
  assert (Hle : (2 * (n mod d) <= d)%Z -> q <= ZQ (qfloor q) + half).
  { intro H. unfold Qcle, half. qc_push. rewrite ?ZQ_this. unfold Qle, Qplus, inject_Z. cbn [Qnum Qden]. fold n d. lia. }
  assert (Hge : (d <= 2 * (n mod d))%Z -> ZQ (qfloor q) + half <= q).
  { intro H. unfold Qcle, half. qc_push. rewrite ?ZQ_this. unfold Qle, Qplus, inject_Z. cbn [Qnum Qden]. fold n d. lia. }
  destruct (Z.ltb_spec (2 * (n mod d)) d) as [H1|H1]; [left; split; [reflexivity|apply Hle; lia]|].
  destruct (Z.ltb_spec d (2 * (n mod d))) as [H2|H2]; [right; split; [reflexivity|apply Hge; lia]|].
  destruct (Z.even (qfloor q)); [left; split; [reflexivity|apply Hle; lia]|right; split; [reflexivity|apply Hge; lia]].
Qed.

Lemma around_close q : q - half <= ZQ (around q) <= q + half.
Proof.
  pose proof (proj2 (qfloor_le q (qfloor q)) (Z.le_refl _)) as H1.
  assert (H2 : q < ZQ (qfloor q + 1)) by (apply qfloor_lt; lia).
  rewrite ZQ_add, ZQ_1 in H2. unfold half in *.
  destruct (around_floor q) as [[-> H3]|[-> H3]]; rewrite ?ZQ_add, ?ZQ_1; unfold half in *; split; qclra.
Qed.

Lemma around_ZQ z : around (ZQ z) = z.
Proof.
  destruct (around_close (ZQ z)) as [H1 H2]. unfold half in *.
  assert (ZQ (z - 1) < ZQ (around (ZQ z))) by (rewrite ZQ_sub, ZQ_1; qclra).
  assert (ZQ (around (ZQ z)) < ZQ (z + 1)) by (rewrite ZQ_add, ZQ_1; qclra).
  apply ZQ_lt in H, H0. lia.
Qed.

Lemma around_ge q z : ZQ z <= q -> ZQ z <= ZQ (around q).
Proof.
  intro H. destruct (around_close q) as [H1 H2]. unfold half in *. apply (proj1 (ZQ_le _ _)).
  assert (ZQ (z - 1) < ZQ (around q)) by (rewrite ZQ_sub, ZQ_1; qclra). apply (proj2 (ZQ_lt _ _)) in H0. lia.
Qed.
Lemma around_le q z : q <= ZQ z -> ZQ (around q) <= ZQ z.
Proof.
  intro H. destruct (around_close q) as [H1 H2]. unfold half in *. apply (proj1 (ZQ_le _ _)).
  assert (ZQ (around q) < ZQ (z + 1)) by (rewrite ZQ_add, ZQ_1; qclra). apply (proj2 (ZQ_lt _ _)) in H0. lia.
Qed.

(** ** C39 *)
Lemma str_cases {A} (l : list (string * A)) k v : dget String.eqb l k = Some v -> In (k, v) l.
Proof. apply dget_In. apply String_eqb_spec'. Qed.

Lemma conv_seconds u k : dget String.eqb steps_units_conversion_time u = Some k ->
  unit_seconds u = Some (k * ZQ 3600) /\ 0 < k.
Proof.
  intro H. apply str_cases in H. cbn [steps_units_conversion_time In] in H.
  repeat (destruct H as [H|H]; [injection H as <- <-; split; [vm_compute; f_equal; now apply Qc_is_canon|reflexivity]|]).
  contradiction.
Qed.

Lemma name_of_unit u name s : dget String.eqb steps_units_netcdf_name u = Some name ->
  unit_seconds u = Some s -> name_seconds name = Some s.
Proof.
  intros H. apply str_cases in H. cbn [steps_units_netcdf_name In] in H.
  repeat (destruct H as [H|H]; [injection H as <- <-; intro E; try discriminate E; exact E|]).
  contradiction.
Qed.

Lemma conv_of_seconds u s : unit_seconds u = Some s -> exists k, dget String.eqb steps_units_conversion_time u = Some k /\ s = k * ZQ 3600.
Proof.
  intro H. pose proof H as H0. apply str_cases in H. cbn [In] in H.
  repeat (destruct H as [H|H]; [injection H as <- <-; eexists; split; [reflexivity|apply Qc_is_canon; reflexivity]|]).
  contradiction.
Qed.

Lemma netcdf_name_of_seconds u s : unit_seconds u = Some s -> exists n, dget String.eqb steps_units_netcdf_name u = Some n.
Proof.
  intro H. apply str_cases in H. cbn [In] in H.
  repeat (destruct H as [H|H]; [injection H as <- <-; eexists; reflexivity|]).
  contradiction.
Qed.

Definition fits32 (steps : list Z) : Prop := Forall (fun z => -2147483648 <= z <= 2147483647)%Z steps.
Lemma fits32_b steps : fits32 steps <-> forallb fits_i4 steps = true.
Proof.
  unfold fits32. rewrite forallb_forall, Forall_forall. split; intros H x Hx; specialize (H x Hx); unfold fits_i4 in *; lia.
Qed.

(** the three possible outcomes of the choice of the unit *)
Lemma nc_time_units_cases grib out units conv :
  nc_time_units grib out = (units, conv) ->
  (conv = None /\ units = grib) \/
  (exists o kg ko, out = Some o /\ units = o /\ conv = Some (kg, ko) /\ o <> grib /\
     dget String.eqb steps_units_conversion_time grib = Some kg /\
     dget String.eqb steps_units_conversion_time o = Some ko).
Proof.
  unfold nc_time_units. destruct out as [o|]; [|intros [= <- <-]; now left].
  destruct (dmem _ _ o); [|intros [= <- <-]; now left].
  destruct (String.eqb o grib) eqn:E; cbn [negb].
  - intros [= <- <-]. left. split; [reflexivity|]. now apply String.eqb_eq.
  - destruct (dget _ steps_units_conversion_time o) as [ko|] eqn:Eo; [|intros [= <- <-]; now left].
    destruct (dget _ steps_units_conversion_time grib) as [kg|] eqn:Eg; [|intros [= <- <-]; now left].
    intros [= <- <-]. right. exists o, kg, ko. repeat split; auto. now apply String.eqb_neq.
Qed.

Lemma time_axis_inv grib out steps ta : nc_time_axis grib out steps = Ok ta ->
  fits32 steps /\
  ((dget String.eqb steps_units_netcdf_name grib = Some (ta_units ta) /\ ta_fmt ta = I4 /\ ta_vals ta = map ZQ steps) \/
   (exists o kg ko, out = Some o /\ o <> grib /\
     dget String.eqb steps_units_netcdf_name o = Some (ta_units ta) /\
     dget String.eqb steps_units_conversion_time grib = Some kg /\
     dget String.eqb steps_units_conversion_time o = Some ko /\
     ta_vals ta = map (fun z => ZQ z * kg / ko) steps /\
     ta_fmt ta = (if existsb non_integral (ta_vals ta) then F4 else I4))).
Proof.
  unfold nc_time_axis. destruct (forallb fits_i4 steps) eqn:Ef; cbn [negb]; [|discriminate].
  intro H. split; [now apply fits32_b|]. destruct (nc_time_units grib out) as [units conv] eqn:Eu.
  apply nc_time_units_cases in Eu as [[-> ->]|[o [kg [ko [-> [-> [-> [Hne [Hg Ho]]]]]]]]].
  - left. apply rbind_ok in H as [name [Hn H]]. unfold dgetx in Hn.
    destruct (dget _ _ grib) as [nm|] eqn:En; [|discriminate]. injection Hn as ->. injection H as <-. cbn. auto.
  - right. exists o, kg, ko. apply rbind_ok in H as [name [Hn H]]. unfold dgetx in Hn.
    destruct (dget _ steps_units_netcdf_name o) as [nm|] eqn:En; [|discriminate]. injection Hn as ->.
    injection H as <-. cbn [ta_units ta_vals ta_fmt]. repeat split; auto.
Qed.

Lemma C39_time grib out steps ta s :
  nc_time_axis grib out steps = Ok ta -> unit_seconds grib = Some s ->
  exists t, name_seconds (ta_units ta) = Some t /\ 0 < t /\
    List.length (ta_vals ta) = List.length steps /\
    forall i e v, nth_error steps i = Some e -> nth_error (ta_vals ta) i = Some v -> v * t = ZQ e * s.
Proof.
  intros H Hs. apply time_axis_inv in H as [_ [[Hn [_ Hv]]|[o [kg [ko [_ [_ [Hn [Hg [Ho [Hv _]]]]]]]]]]].
  - exists s. split; [eapply name_of_unit; eauto|]. split.
    { destruct (conv_of_seconds _ _ Hs) as [k [Hk ->]]. destruct (conv_seconds _ _ Hk) as [_ Hp].
      apply Qc_mul_pos; [exact Hp|reflexivity]. }
    rewrite Hv, map_length. split; [reflexivity|]. intros i e v He Hve.
    rewrite (nth_error_map' ZQ _ _ _ He) in Hve. injection Hve as <-. reflexivity.
  - destruct (conv_seconds _ _ Ho) as [Hso Hpo]. destruct (conv_seconds _ _ Hg) as [Hsg Hpg].
    exists (ko * ZQ 3600). split; [eapply name_of_unit; eauto|].
    split; [apply Qc_mul_pos; [exact Hpo|reflexivity]|].
    rewrite Hv, map_length. split; [reflexivity|]. intros i e v He Hve.
    rewrite (nth_error_map' (fun z => ZQ z * kg / ko) _ _ _ He) in Hve. injection Hve as <-.
    rewrite Hs in Hsg. injection Hsg as ->.
    apply Qc_pos_neq0 in Hpo. field. exact Hpo.
Qed.

(** the requested unit is used whenever it is convertible *)
Lemma C39_unit grib o steps s t : fits32 steps -> unit_seconds grib = Some s -> unit_seconds o = Some t ->
  exists ta, nc_time_axis grib (Some o) steps = Ok ta /\ name_seconds (ta_units ta) = Some t.
Proof.
  intros Hf Hs Ht. unfold nc_time_axis. apply fits32_b in Hf. rewrite Hf. cbn [negb].
  destruct (netcdf_name_of_seconds _ _ Ht) as [n Hn]. destruct (conv_of_seconds _ _ Hs) as [kg [Hg _]].
  destruct (conv_of_seconds _ _ Ht) as [ko [Ho _]].
  unfold nc_time_units, dmem. rewrite Hn, Ho, Hg.
  destruct (String.eqb o grib); cbn [negb rbind]; unfold dgetx; rewrite Hn; cbn [rbind];
    (eexists; split; [reflexivity|]; eapply name_of_unit; eauto).
Qed.

(** otherwise the source unit and the end steps are kept *)
Lemma C39_fallback grib out steps name : fits32 steps -> dget String.eqb steps_units_netcdf_name grib = Some name ->
  (forall o, out = Some o -> unit_seconds o = None \/ unit_seconds grib = None) ->
  nc_time_axis grib out steps = Ok {| ta_fmt := I4; ta_units := name; ta_vals := map ZQ steps |}.
Proof.
  intros Hf Hn Hout. unfold nc_time_axis. apply fits32_b in Hf. rewrite Hf. cbn [negb].
  destruct (nc_time_units grib out) as [units conv] eqn:Eu.
  apply nc_time_units_cases in Eu as [[-> ->]|[o [kg [ko [-> [-> [-> [Hne [Hg Ho]]]]]]]]].
  - unfold dgetx. rewrite Hn. reflexivity.
  - destruct (conv_seconds _ _ Ho) as [Ho' _]. destruct (conv_seconds _ _ Hg) as [Hg' _].
    destruct (Hout _ eq_refl); congruence.
Qed.

Lemma time_axis_affine grib out steps ta : nc_time_axis grib out steps = Ok ta ->
  exists c, 0 < c /\ ta_vals ta = map (fun z => ZQ z * c) steps.
Proof.
  intros H. apply time_axis_inv in H as [_ [[_ [_ Hv]]|[o [kg [ko [_ [_ [Hn [Hg [Ho [Hv _]]]]]]]]]]].
  - exists 1. split; [reflexivity|]. rewrite Hv. apply map_ext. intro. ring.
  - destruct (conv_seconds _ _ Ho) as [Hso Hpo]. destruct (conv_seconds _ _ Hg) as [Hsg Hpg].
    exists (kg / ko). split; [now apply Qcdiv_pos|]. rewrite Hv. apply map_ext. intro z. unfold Qcdiv. ring.
Qed.

Lemma C39_increasing grib out steps ta : nc_time_axis grib out steps = Ok ta ->
  StronglySorted Z.lt steps -> StronglySorted Qclt (ta_vals ta).
Proof.
  intros H Hs. destruct (time_axis_affine _ _ _ _ H) as [c [Hc ->]]. clear H.
  induction Hs as [|z l Hs IH Hf]; cbn [map]; constructor; [exact IH|].
  rewrite Forall_map. eapply Forall_impl; [|exact Hf]. cbv beta. intros y Hy.
  apply ZQ_lt in Hy. qcnra.
Qed.

Lemma C39_integral grib out steps ta : nc_time_axis grib out steps = Ok ta -> ta_fmt ta = I4 -> Forall integral (ta_vals ta).
Proof.
  intros H Hf. apply time_axis_inv in H as [_ [[_ [_ Hv]]|[o [kg [ko [_ [_ [Hn [Hg [Ho [Hv Hfmt]]]]]]]]]]].
  - rewrite Hv, Forall_map. apply Forall_forall. intros z _. now exists z.
  - rewrite Hfmt in Hf. destruct (existsb non_integral (ta_vals ta)) eqn:E; [discriminate|].
    apply Forall_forall. intros q Hq. apply non_integral_false.
    destruct (non_integral q) eqn:E2; [|reflexivity]. assert (existsb non_integral (ta_vals ta) = true); [|congruence].
    apply existsb_exists. eauto.
Qed.

Lemma stored_time_ok fmt v : (fmt = I4 -> integral v) -> (fmt = I4 -> ZQ (-2147483648) <= v <= ZQ 2147483647) -> nc_stored_time fmt v = Some v.
Proof.
  intros Hi Hr. destruct fmt; [|reflexivity]. cbn. destruct (Hi eq_refl) as [z ->]. specialize (Hr eq_refl).
  fold (qfloor (ZQ z)). rewrite qfloor_ZQ. unfold fits_i4. destruct Hr as [H1 H2]. apply ZQ_le in H1, H2.
  now replace (_ && _)%bool with true by lia.
Qed.

(** ** C40 *)
Lemma unpack_pack_fin v s o : s <> 0 -> (v - o) / s * s + o = v.
Proof. intro H. field. exact H. Qed.

Definition unpack (x : num) (s o : Qc) : num := nadd (nmul x (Fin s)) (Fin o).

Lemma pack_float f s o v : s <> 0 -> is_int_fmt f = false -> v <> NaN -> unpack (nc_pack f s o v) s o = v.
Proof.
  intros Hs Hf Hv. unfold unpack, nc_pack. destruct v as [q| | |]; [| | |congruence].
  - rewrite nsub_fin, ndiv_fin by exact Hs. rewrite Hf. cbn. f_equal. now apply unpack_pack_fin.
  - cbn. destruct (Qc_ltb s 0) eqn:E; cbn.
    + apply Qc_ltb_spec in E. now rewrite inf_times_neg.
    + apply Qc_ltb_false in E. rewrite inf_times_pos; [reflexivity|].
      destruct (Qc_tri s) as [H|[H|H]]; [congruence|exact H|qclra].
  - cbn. destruct (Qc_ltb s 0) eqn:E; cbn.
    + apply Qc_ltb_spec in E. now rewrite inf_times_neg.
    + apply Qc_ltb_false in E. rewrite inf_times_pos; [reflexivity|].
      destruct (Qc_tri s) as [H|[H|H]]; [congruence|exact H|qclra].
Qed.

Lemma pack_int f s o q : s <> 0 -> is_int_fmt f = true ->
  exists p, nc_pack f s o (Fin q) = Fin p /\ integral p /\
    (p * s + o - q <= Qcabs s * half) /\ (q - (p * s + o) <= Qcabs s * half).
Proof.
  intros Hs Hf. unfold nc_pack. rewrite nsub_fin, ndiv_fin by exact Hs. rewrite Hf.
  eexists. split; [reflexivity|]. split; [eexists; reflexivity|].
  set (p := (q - o) / s). assert (E : q = p * s + o) by (unfold p; field; exact Hs).
  destruct (around_close p) as [H1 H2]. set (a := ZQ (around p)) in *. clearbody a p. subst q.
  unfold Qcabs, half in *. destruct (Qc_ltb s 0) eqn:Es; [apply Qc_ltb_spec in Es|apply Qc_ltb_false in Es];
    split; qcnra.
Qed.

Lemma fillval_integral f : is_int_fmt f = true -> integral (fillval f).
Proof. destruct f; try discriminate; intros _; eexists; reflexivity. Qed.

Lemma pack_fill f s o : s <> 0 -> nc_pack f s o (Fin (fillval f * s + o)) = Fin (fillval f).
Proof.
  intro Hs. unfold nc_pack. rewrite nsub_fin, ndiv_fin by exact Hs.
  replace ((fillval f * s + o - o) / s) with (fillval f) by (field; exact Hs).
  destruct (is_int_fmt f) eqn:E; [|reflexivity]. destruct (fillval_integral f E) as [z ->]. now rewrite around_ZQ.
Qed.

Lemma div_le_mono a b s : 0 < s -> a <= b -> a / s <= b / s.
Proof. intros Hs H. apply Qcdiv_le; [exact Hs|]. rewrite Qcdiv_mul; [exact H|now apply Qc_pos_neq0]. Qed.
Lemma div_le_mono_inv a b s : 0 < s -> a / s <= b / s -> a <= b.
Proof.
  intros Hs H. pose proof (Qc_pos_neq0 _ Hs) as Hn. rewrite <- (Qcdiv_mul a s Hn), <- (Qcdiv_mul b s Hn).
  set (x := a / s) in *. set (y := b / s) in *. clearbody x y. qcnra.
Qed.

(** a value is inside the packed bounds iff it is inside the valid range *)
Lemma packed_range_float f s o lo hi q : 0 < s -> is_int_fmt f = false ->
  exists p, nc_pack f s o (Fin q) = Fin p /\
    ((lo - o) / s <= p <-> lo <= q) /\ (p <= (hi - o) / s <-> q <= hi).
Proof.
  intros Hs Hf. pose proof (Qc_pos_neq0 _ Hs) as Hn. unfold nc_pack. rewrite nsub_fin, ndiv_fin by exact Hn. rewrite Hf.
  eexists. split; [reflexivity|]. split; split; intro H.
  - apply div_le_mono_inv in H; [qclra|exact Hs].
  - apply div_le_mono; [exact Hs|qclra].
  - apply div_le_mono_inv in H; [qclra|exact Hs].
  - apply div_le_mono; [exact Hs|qclra].
Qed.

Lemma packed_range_int f s o lo hi q : 0 < s -> is_int_fmt f = true ->
  integral ((lo - o) / s) -> integral ((hi - o) / s) ->
  exists p, nc_pack f s o (Fin q) = Fin p /\ (lo <= q -> (lo - o) / s <= p) /\ (q <= hi -> p <= (hi - o) / s).
Proof.
  intros Hs Hf [zl Hl] [zh Hh]. pose proof (Qc_pos_neq0 _ Hs) as Hn. unfold nc_pack. rewrite nsub_fin, ndiv_fin by exact Hn. rewrite Hf.
  eexists. split; [reflexivity|]. split; intro H.
  - rewrite Hl. apply around_ge. rewrite <- Hl. apply div_le_mono; [exact Hs|qclra].
  - rewrite Hh. apply around_le. rewrite <- Hh. apply div_le_mono; [exact Hs|qclra].
Qed.

(** ** C38, NetCDF *)
Lemma nth_error_map_inv {A B} (f : A -> B) l i y : nth_error (map f l) i = Some y -> exists x, nth_error l i = Some x /\ y = f x.
Proof.
  revert i. induction l as [|a l IH]; intros [|i] H; try discriminate; [injection H as <-; now exists a|now apply IH].
Qed.

Lemma nc_field_plain mv_out a : amask a = None -> nc_field mv_out a = map (fun x => if neqb x mv_out then NaN else x) (adata a).
Proof. destruct a as [d|d [m|]]; intro H; try discriminate; reflexivity. Qed.

Lemma nc_format_ok s f : nc_format s = Ok f <-> vfmt_of s = Some f.
Proof.
  unfold nc_format. destruct (vfmt_of s) as [g|]; [split; congruence|].
  destruct (existsb _ _); [split; discriminate|]. destruct (String.eqb s "S1"); split; discriminate.
Qed.

Lemma nc_write_inv cmask vf s o vmin vmax values v : values <> [] -> nc_write cmask vf s o vmin vmax values = Ok v ->
  exists l f, cmask = Some l /\ vfmt_of (match vf with Some x => x | None => "f8"%string end) = Some f /\
    Forall (fun d => List.length l = List.length d) values /\
    v = {| nv_fmt := f; nv_scale := s; nv_offset := o; nv_fill := fillval f;
           nv_min := match vmin with Some x => Some ((x - o) / s) | None => None end;
           nv_max := match vmax with Some x => Some ((x - o) / s) | None => None end;
           nv_cells := map (fun d => map (nc_pack f s o) (map (fun x => if is_nan x then Fin (fillval f * s + o) else x)
                         (zipw (fun (b : bool) x => if b then Fin (fillval f * s + o) else x) l d))) values |}.
Proof.
  intros Hne H. unfold nc_write in H. apply rbind_ok in H as [f [Hf H]]. apply nc_format_ok in Hf.
  apply rbind_ok in H as [masked [Hm H]]. unfold nc_mask_values in Hm. destruct values as [|d0 ds]; [congruence|].
  clear Hne. remember (d0 :: ds) as values eqn:Ev. destruct cmask as [l|]; [|discriminate].
  destruct (forallb _ values) eqn:E; [|discriminate]. injection Hm as <-. exists l, f. split; [reflexivity|].
  split; [exact Hf|]. split.
  - rewrite Forall_forall. rewrite forallb_forall in E. intros d Hd. apply Nat.eqb_eq. auto.
  - injection H as <-. f_equal. rewrite !map_map. reflexivity.
Qed.

Lemma nc_write_ok l vf s o vmin vmax values f : vfmt_of (match vf with Some x => x | None => "f8"%string end) = Some f ->
  values <> [] -> Forall (fun d => List.length l = List.length d) values -> exists v, nc_write (Some l) vf s o vmin vmax values = Ok v.
Proof.
  intros Hf Hne Hv. unfold nc_write. rewrite (proj2 (nc_format_ok _ _) Hf). cbn [rbind]. unfold nc_mask_values.
  destruct values as [|d0 ds]; [congruence|]. clear Hne. remember (d0 :: ds) as values eqn:Ev.
  assert (E : forallb (fun d => Nat.eqb (List.length l) (List.length d)) values = true).
  { apply forallb_forall. rewrite Forall_forall in Hv. intros d Hd. apply Nat.eqb_eq. auto. }
  rewrite E. cbn [rbind]. eauto.
Qed.

Lemma nc_cell cmask vf s o vmin vmax values v t d i x : nc_write cmask vf s o vmin vmax values = Ok v ->
  nth_error values t = Some d -> nth_error d i = Some x ->
  exists row, nth_error (nv_cells v) t = Some row /\
    nth_error row i = Some (nc_pack (nv_fmt v) s o
      (if (is_nan x || match cmask with Some m => nth i m false | None => false end)%bool then Fin (nv_fill v * s + o) else x)).
Proof.
  intros H Hd Hx. assert (Hne : values <> []) by (intros ->; destruct t; discriminate).
  apply nc_write_inv in H as [l [f [-> [Hf [Hl ->]]]]]; [|exact Hne]. cbn [nv_cells nv_fmt nv_fill].
  eexists. split; [eapply nth_error_map'; exact Hd|].
  rewrite Forall_forall in Hl. specialize (Hl d (nth_error_In _ _ Hd)).
  destruct (nth_error l i) as [b|] eqn:E.
  2:{ apply nth_error_None in E. assert (i < List.length d)%nat by (apply nth_error_Some; congruence). lia. }
  rewrite (nth_error_nth _ _ _ E).
  erewrite nth_error_map'; [|eapply nth_error_map'; eapply nth_error_zipw; eauto].
  destruct b; [destruct x|destruct x]; reflexivity.
Qed.

Lemma nc_fields_spec isfloat clone mv mv_out vf s o vmin vmax fields f :
  s <> 0 -> vfmt_of (match vf with Some x => x | None => "f8"%string end) = Some f ->
  (exists c, In c clone /\ clone_missing isfloat c mv = true) ->
  fields <> [] -> Forall (fun a => amask a = None /\ List.length (adata a) = List.length clone) fields ->
  exists v, nc_write_fields (clone_mask isfloat clone mv) mv_out vf s o vmin vmax fields = Ok v /\
    List.length (nv_cells v) = List.length fields /\
    forall t a i x c, nth_error fields t = Some a -> nth_error (adata a) i = Some x -> nth_error clone i = Some c ->
      exists row p, nth_error (nv_cells v) t = Some row /\ nth_error row i = Some p /\
        p = (if (is_nan x || neqb x mv_out || clone_missing isfloat c mv)%bool then Fin (nv_fill v) else nc_pack f s o x) /\
        ((is_nan x || neqb x mv_out || clone_missing isfloat c mv)%bool = true -> nc_read_cell v p = None) /\
        ((is_nan x || neqb x mv_out || clone_missing isfloat c mv)%bool = false ->
           is_int_fmt f = false -> vmin = None -> vmax = None -> p <> Fin (nv_fill v) -> nc_read_cell v p = Some x).
Proof.
  intros Hs Hf [c0 [Hin Hc0]] Hne Hfields.
  assert (Hne2 : map (nc_field mv_out) fields <> []) by (destruct fields; [congruence|discriminate]).
  destruct (clone_mask isfloat clone mv) as [l|] eqn:El.
  2:{ exfalso. apply In_nth_error in Hin as [j Hj]. pose proof (clone_mask_at isfloat clone mv j c0 Hj) as E.
      rewrite El in E. congruence. }
  pose proof (clone_mask_length _ _ _ _ El) as Hll.
  unfold nc_write_fields. destruct (nc_write_ok l vf s o vmin vmax (map (nc_field mv_out) fields) f Hf Hne2) as [v Hv].
  { rewrite Forall_map. eapply Forall_impl; [|exact Hfields]. intros a [Ha1 Ha2]. rewrite nc_field_plain, map_length by exact Ha1. congruence. }
  exists v. split; [exact Hv|].
  pose proof Hv as Hinv. apply nc_write_inv in Hinv as [l' [f' [E1 [E2 [Hlen Ev]]]]]; [|exact Hne2].
  injection E1 as <-. rewrite Hf in E2. injection E2 as <-.
  split; [rewrite Ev; cbn [nv_cells]; rewrite !map_length; reflexivity|].
  intros t a i x c Ha Hx Hc.
  pose proof (proj1 (Forall_forall _ _) Hfields a (nth_error_In _ _ Ha)) as [Hm _].
  pose proof (nth_error_map' (nc_field mv_out) _ _ _ Ha) as Ha'. rewrite (nc_field_plain _ _ Hm) in Ha'.
  pose proof (nth_error_map' (fun x => if neqb x mv_out then NaN else x) _ _ _ Hx) as Hx'.
  destruct (nc_cell _ _ _ _ _ _ _ _ _ _ _ _ Hv Ha' Hx') as [row [Hrow Hp]].
  eexists row, _. split; [exact Hrow|]. split; [exact Hp|]. clear Hrow Hp.
  pose proof (clone_mask_at isfloat clone mv i c Hc) as Em. rewrite El in Em. rewrite Em. clear Em.
  assert (Efmt : nv_fmt v = f) by (now rewrite Ev). assert (Efill : nv_fill v = fillval f) by (now rewrite Ev).
  assert (Esc : nv_scale v = s) by (now rewrite Ev). assert (Eof : nv_offset v = o) by (now rewrite Ev).
  rewrite Efmt, Efill.
  set (b := (is_nan x || neqb x mv_out || clone_missing isfloat c mv)%bool).
  assert (Ep : nc_pack f s o (if (is_nan (if neqb x mv_out then NaN else x) || clone_missing isfloat c mv)%bool
                 then Fin (fillval f * s + o) else if neqb x mv_out then NaN else x) =
               if b then Fin (fillval f) else nc_pack f s o x).
  { unfold b. destruct (neqb x mv_out) eqn:En; cbn [is_nan orb].
    - rewrite Bool.orb_true_r. cbn [orb]. now apply pack_fill.
    - rewrite Bool.orb_false_r. destruct (is_nan x || clone_missing isfloat c mv)%bool; [now apply pack_fill|reflexivity]. }
  rewrite Ep. split; [reflexivity|]. split.
  - intro Hb. rewrite Hb. unfold nc_read_cell. rewrite Efill.
    replace (neqb (Fin (fillval f)) (Fin (fillval f))) with true; [reflexivity|]. cbn. now rewrite Qc_eqb_refl.
  - intros Hb Hi H1 H2 Hp. rewrite Hb in *. unfold nc_read_cell. rewrite Efill.
    assert (En : neqb (nc_pack f s o x) (Fin (fillval f)) = false).
    { destruct (nc_pack f s o x) as [q| | |]; try reflexivity. cbn. apply Qc_eqb_false. congruence. }
    rewrite En. subst vmin vmax. rewrite Ev. cbn [nv_min nv_max nv_scale nv_offset]. f_equal.
    apply pack_float; auto. intros ->. unfold b in Hb. discriminate.
Qed.
