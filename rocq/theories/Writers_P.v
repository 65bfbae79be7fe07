(** * Writers_P: proofs about the writers. *)
From Verif Require Import Base PyStr Num Writers Spec_Writers Base_P Num_P PyStr_P.
From Coq Require Import DecimalString DecimalZ DecimalPos.
Local Open Scope string_scope.

(** ** C37 *)
Lemma lstrip_zeros k s : lstrip (Ascii.eqb "0"%char) (srepeat "0"%char k +++ s) = lstrip (Ascii.eqb "0"%char) s.
Proof. induction k as [|k IH]; [reflexivity|exact IH]. Qed.

Lemma to_int_normal z : Decimal.norm (Z.to_int z) = Z.to_int z.
Proof. rewrite <- DecimalZ.to_of. now rewrite DecimalZ.of_to. Qed.

Lemma lstrip_str_of_Z z : lstrip (Ascii.eqb "0"%char) (str_of_Z z) = if (z =? 0)%Z then "" else str_of_Z z.
Proof.
  unfold str_of_Z. destruct (Z.eqb_spec z 0) as [->|Hz]; [reflexivity|].
  pose proof (to_int_normal z) as Hn.
  destruct (Z.to_int z) as [d|d] eqn:E; cbn [Decimal.norm] in Hn.
  - injection Hn as Hd. unfold Decimal.unorm in Hd.
    destruct d as [| d | d | d | d | d | d | d | d | d | d ]; try reflexivity; [discriminate|].
    cbn [Decimal.nzhead] in Hd. exfalso.
    assert (Hnil : Decimal.nzhead d = Decimal.Nil -> False).
    { intro Hnil. rewrite Hnil in Hd. injection Hd as <-.
      apply (f_equal Z.of_int) in E. rewrite DecimalZ.of_to in E. subst z. now apply Hz. }
    destruct (Decimal.nzhead d) eqn:En; try discriminate; [now apply Hnil|].
    exact (DecimalFacts.nzhead_nonzero _ _ En).
  - reflexivity.
Qed.

Lemma zeros_str_inj k1 k2 a b :
  srepeat "0"%char k1 +++ str_of_Z a = srepeat "0"%char k2 +++ str_of_Z b -> a = b.
Proof.
  intro H. apply (f_equal (lstrip (Ascii.eqb "0"%char))) in H.
  rewrite !lstrip_zeros, !lstrip_str_of_Z in H.
  assert (Hne : forall z, str_of_Z z <> "").
  { intros z Hz. pose proof (Z_of_str_of_Z z) as E. rewrite Hz in E. discriminate. }
  destruct (Z.eqb_spec a 0), (Z.eqb_spec b 0); subst; try reflexivity.
  - now exfalso; apply (Hne b).
  - now exfalso; apply (Hne a).
  - now apply str_of_Z_inj.
Qed.

Definition padded (prefix : string) (n : Z) : string :=
  prefix +++ srepeat "0"%char (Z.to_nat (11 - Z.of_nat (String.length prefix) - Z.of_nat (String.length (str_of_Z n)))) +++ str_of_Z n.

Lemma padded_length prefix n : (String.length prefix + String.length (str_of_Z n) <= 11)%nat ->
  String.length (padded prefix n) = 11%nat.
Proof. intro H. unfold padded. rewrite !slen_app, srepeat_length. lia. Qed.

Lemma split83_inj s t : String.length s = 11%nat -> String.length t = 11%nat ->
  stake 8 s +++ "." +++ stake 3 (sdrop 8 s) = stake 8 t +++ "." +++ stake 3 (sdrop 8 t) -> s = t.
Proof.
  intros Hs Ht H. apply sapp_inj_len in H as [H1 H2].
  2:{ rewrite !stake_length, Hs, Ht. reflexivity. }
  apply sapp_inj_l in H2. rewrite !stake_all in H2 by (rewrite sdrop_length; lia).
  rewrite <- (stake_sdrop 8 s), <- (stake_sdrop 8 t). congruence.
Qed.

Lemma path_join_dir out b : out = "./" \/ (exists d, out = d +++ "/") -> starts_with "/" b = false ->
  path_join out b = out +++ b.
Proof.
  intros Ho Hb. unfold path_join. rewrite Hb.
  assert (Hr : starts_with "/" (rev_string out) = true).
  { destruct Ho as [->|[d ->]]; [reflexivity|]. unfold rev_string.
    assert (E : forall a b, list_ascii_of_string (a +++ b) = (list_ascii_of_string a ++ list_ascii_of_string b)%list).
    { induction a as [|c a IH]; intro; [reflexivity|]. cbn. now rewrite IH. }
    rewrite E, rev_app_distr. reflexivity. }
  rewrite Hr, Bool.orb_true_r. reflexivity.
Qed.

Lemma starts_slash_head c s : starts_with "/" (String c s) = Ascii.eqb "/" c.
Proof. cbn. now rewrite Bool.andb_true_r. Qed.

Lemma stake83_head s : String.length s = 11%nat ->
  starts_with "/" (stake 8 s +++ "." +++ stake 3 (sdrop 8 s)) = starts_with "/" s.
Proof. intro H. destruct s as [|c s]; [discriminate|]. cbn [stake sdrop]. reflexivity. Qed.

Lemma name_pcr_shape out prefix fmap ext i n :
  n = (fmap + (i - 1) * ext)%Z ->
  (String.length prefix + String.length (str_of_Z n) <= 11)%nat ->
  (exists d, out = d +++ "/") -> starts_with "/" prefix = false ->
  exists z a b, prefix +++ srepeat "0"%char z +++ str_of_Z n = a +++ b /\
    String.length a = 8%nat /\ String.length b = 3%nat /\
    name_pcr_map out prefix fmap ext i = out +++ a +++ "." +++ b.
Proof.
  intros En Hl Hout Hp. set (s := padded prefix n).
  assert (Hs : String.length s = 11%nat) by now apply padded_length.
  eexists _, (stake 8 s), (sdrop 8 s). split; [rewrite stake_sdrop; reflexivity|].
  rewrite stake_length, sdrop_length, Hs. split; [reflexivity|]. split; [reflexivity|].
  unfold name_pcr_map. rewrite <- En. fold (padded prefix n). fold s.
  rewrite path_join_dir.
  - now rewrite (stake_all 3 (sdrop 8 s)) by (rewrite sdrop_length; lia).
  - now right.
  - rewrite stake83_head by exact Hs. unfold s, padded. destruct prefix as [|c p].
    + cbn [String.append]. set (k := Z.to_nat _). destruct k; [|reflexivity]. cbn [srepeat String.append].
      unfold str_of_Z. destruct (Z.to_int n) as [d|d]; [|reflexivity].
      destruct d; reflexivity.
    + exact Hp.
Qed.

Lemma path_join_inj out b c : starts_with "/" b = starts_with "/" c -> path_join out b = path_join out c -> b = c.
Proof.
  unfold path_join. intros E H. rewrite <- E in H. destruct (starts_with "/" b); [exact H|].
  destruct (_ || _)%bool; apply sapp_inj_l in H; [exact H|]. now apply sapp_inj_l in H.
Qed.

Lemma starts_slash_padded prefix n m : starts_with "/" (padded prefix n) = starts_with "/" (padded prefix m).
Proof.
  assert (Hno : forall n, prefix = "" -> starts_with "/" (padded prefix n) = false).
  { intros k ->. unfold padded. cbn [String.append]. set (z := Z.to_nat _). destruct z; [|reflexivity].
    cbn [srepeat String.append]. unfold str_of_Z. destruct (Z.to_int k) as [d|d]; [|reflexivity]. destruct d; reflexivity. }
  destruct prefix as [|c p]; [now rewrite !Hno|reflexivity].
Qed.

Lemma name_pcr_inj out prefix fmap ext i j :
  let fits k := (String.length prefix + String.length (str_of_Z (fmap + (k - 1) * ext)) <= 11)%nat in
  ext <> 0%Z -> fits i -> fits j ->
  name_pcr_map out prefix fmap ext i = name_pcr_map out prefix fmap ext j -> i = j.
Proof.
  intros fits He Hi Hj H. unfold name_pcr_map in H.
  fold (padded prefix (fmap + (i - 1) * ext)) in H. fold (padded prefix (fmap + (j - 1) * ext)) in H.
  pose proof (padded_length _ _ Hi) as Li. pose proof (padded_length _ _ Hj) as Lj.
  apply path_join_inj in H.
  2:{ rewrite !stake83_head by assumption. apply starts_slash_padded. }
  apply split83_inj in H; [|exact Li|exact Lj]. unfold padded in H. apply sapp_inj_l in H.
  apply zeros_str_inj in H. nia.
Qed.

(** ** C38, PCRaster and API *)
Lemma isclose_spec x mv : isclose x mv = clone_missing true x mv.
Proof.
  destruct x as [a| | |], mv as [b| | |]; try reflexivity. cbn [isclose clone_missing].
  f_equal; [|f_equal].
  - unfold Qcabs. destruct (Qc_ltb a b) eqn:E.
    + apply Qc_ltb_spec in E. assert (E2 : Qc_ltb (a - b) 0 = true) by (apply Qc_ltb_spec; qclra).
      rewrite E2. ring.
    + apply Qc_ltb_false in E. assert (E2 : Qc_ltb (a - b) 0 = false) by (apply Qc_ltb_false; qclra).
      now rewrite E2.
  - unfold Qcabs. destruct (Qc_ltb b 0); apply Qcmult_comm.
Qed.

Lemma clone_mask_at isfloat clone mv i c : nth_error clone i = Some c ->
  match clone_mask isfloat clone mv with Some m => nth i m false | None => false end = clone_missing isfloat c mv.
Proof.
  intro H. unfold clone_mask.
  assert (Hf : (fun x => if isfloat then isclose x mv else neqb x mv) c = clone_missing isfloat c mv).
  { cbv beta. destruct isfloat; [apply isclose_spec|]. now destruct c, mv. }
  set (f := fun x => if isfloat then isclose x mv else neqb x mv) in *.
  destruct (existsb (fun b => b) (map f clone)) eqn:E.
  - apply (nth_error_map' f) in H. rewrite (nth_error_nth _ _ _ H). exact Hf.
  - destruct (clone_missing isfloat c mv) eqn:E2; [|reflexivity].
    assert (existsb (fun b => b) (map f clone) = true); [|congruence].
    apply existsb_exists. exists true. split; [|reflexivity]. rewrite <- Hf. apply in_map. eapply nth_error_In; eauto.
Qed.

Lemma clone_mask_length isfloat clone mv m : clone_mask isfloat clone mv = Some m -> List.length m = List.length clone.
Proof. unfold clone_mask. destruct (existsb _ _); [|discriminate]. intros [= <-]. apply map_length. Qed.

Lemma fill_where_spec m d mv : (forall l, m = Some l -> List.length l = List.length d) ->
  exists out, fill_where m d mv = Ok out /\ List.length out = List.length d /\
    forall i x, nth_error d i = Some x ->
      nth_error out i = Some (if match m with Some l => nth i l false | None => false end then mv else x).
Proof.
  intro Hm. destruct m as [l|]; cbn [fill_where].
  - specialize (Hm _ eq_refl). rewrite Hm, Nat.eqb_refl. eexists. split; [reflexivity|]. split.
    + rewrite zipw_length, Hm. apply Nat.min_id.
    + intros i x Hx. assert (Hi : (i < List.length l)%nat) by (rewrite Hm; apply nth_error_Some; congruence).
      destruct (nth_error l i) as [b|] eqn:E; [|apply nth_error_None in E; lia].
      rewrite (nth_error_zipw _ _ _ _ _ _ E Hx). now rewrite (nth_error_nth _ _ _ E).
  - eexists. split; [reflexivity|]. auto.
Qed.

Lemma nth_zipw_orb a b i : List.length a = List.length b -> nth i (zipw orb a b) false = (nth i a false || nth i b false)%bool.
Proof.
  revert b i. induction a as [|x a IH]; intros [|y b] i H; try discriminate; [now destruct i|].
  destruct i; [reflexivity|]. cbn. apply IH. now injection H.
Qed.

Lemma nan_to_data mv a : adata (nan_to mv a) = map (fun x => if is_nan x then mv else x) (adata a).
Proof. now destruct a. Qed.

Lemma pcr_mask_values_spec cm mv a : wf_arr a -> (forall l, cm = Some l -> List.length l = List.length (adata a)) ->
  exists out, pcr_mask_values cm mv a = Ok out /\ List.length out = List.length (adata a) /\
    forall i x, nth_error (adata a) i = Some x ->
      nth_error out i = Some (if (masked_at a i || match cm with Some l => nth i l false | None => false end)%bool then mv else x).
Proof.
  intros Hwf Hc. destruct a as [d|d m]; cbn [adata] in *.
  - cbn [pcr_mask_values]. destruct (fill_where_spec cm d mv Hc) as [out [H1 [H2 H3]]].
    exists out. split; [exact H1|]. split; [exact H2|]. intros i x Hx. exact (H3 i x Hx).
  - cbn [wf_arr] in Hwf. cbn [pcr_mask_values]. destruct cm as [l|], m as [m|].
    + specialize (Hc _ eq_refl). rewrite Hc, Hwf, Nat.eqb_refl.
      destruct (fill_where_spec (Some (zipw orb l m)) d mv) as [out [H1 [H2 H3]]].
      { intros ? [= <-]. rewrite zipw_length, Hc, Hwf. apply Nat.min_id. }
      exists out. split; [exact H1|]. split; [exact H2|]. intros i x Hx. rewrite (H3 i x Hx).
      rewrite nth_zipw_orb by congruence. unfold masked_at. cbn [amask]. now rewrite Bool.orb_comm.
    + destruct (fill_where_spec (Some l) d mv) as [out [H1 [H2 H3]]]; [exact Hc|]. exists out; repeat split; auto.
    + destruct (fill_where_spec (Some m) d mv) as [out [H1 [H2 H3]]].
      { now intros ? [= <-]. }
      exists out; repeat split; auto. intros i x Hx. rewrite (H3 i x Hx). unfold masked_at. cbn [amask]. now rewrite Bool.orb_false_r.
    + destruct (fill_where_spec None d mv) as [out [H1 [H2 H3]]]; [discriminate|]. exists out; repeat split; auto.
Qed.

Lemma pcr_write_spec isfloat clone mv a : wf_arr a -> List.length (adata a) = List.length clone ->
  exists out, pcr_write (clone_mask isfloat clone mv) mv a = Ok out /\ List.length out = List.length clone /\
    forall i c x, nth_error clone i = Some c -> nth_error (adata a) i = Some x ->
      nth_error out i = Some (if (field_missing a i x || clone_missing isfloat c mv)%bool then mv else x).
Proof.
  intros Hwf Hlen. unfold pcr_write.
  destruct (pcr_mask_values_spec (clone_mask isfloat clone mv) mv (nan_to mv a)) as [out [H1 [H2 H3]]].
  { destruct a as [d|d [m|]]; cbn in *; auto. now rewrite map_length. }
  { intros l Hl. rewrite nan_to_data, map_length, Hlen. eapply clone_mask_length; eauto. }
  exists out. split; [exact H1|]. split; [rewrite H2, nan_to_data, map_length; exact Hlen|].
  intros i c x Hc Hx. pose proof (nth_error_map' (fun x => if is_nan x then mv else x) _ _ _ Hx) as Hx'.
  rewrite <- nan_to_data in Hx'. rewrite (H3 i _ Hx'). rewrite (clone_mask_at _ _ _ _ _ Hc).
  unfold field_missing. replace (masked_at (nan_to mv a) i) with (masked_at a i) by now destruct a.
  destruct (is_nan x), (masked_at a i), (clone_missing isfloat c mv); reflexivity.
Qed.

Lemma api_mask_spec isfloat clone mv a : wf_arr a -> List.length (adata a) = List.length clone ->
  exists out, pcr_mask_values (clone_mask isfloat clone mv) mv a = Ok out /\ List.length out = List.length clone /\
    forall i c x, nth_error clone i = Some c -> nth_error (adata a) i = Some x ->
      nth_error out i = Some (if (masked_at a i || clone_missing isfloat c mv)%bool then mv else x).
Proof.
  intros Hwf Hlen.
  destruct (pcr_mask_values_spec (clone_mask isfloat clone mv) mv a) as [out [H1 [H2 H3]]]; [exact Hwf| |].
  { intros l Hl. rewrite Hlen. eapply clone_mask_length; eauto. }
  exists out. split; [exact H1|]. split; [congruence|]. intros i c x Hc Hx. rewrite (H3 i x Hx).
  now rewrite (clone_mask_at _ _ _ _ _ Hc).
Qed.
