(** Proofs on Converter.v, Corrector.v, Exceptions.v *)
From Verif Require Import Base Num PyStr Aggregator Converter Corrector Exceptions Spec_Convert
  Base_P Num_P PyStr_P.
Local Open Scope Z_scope.

Lemma neqb_true_eq v mv : neqb v mv = true -> v = mv.
Proof. destruct v, mv; cbn; try discriminate; auto. rewrite Qc_eqb_spec. congruence. Qed.

Lemma where_converted g mv x :
  converted g mv x (match x with Nd _ => Nd (map (where_mv g mv) (adata x))
                              | Ma _ m => masked_where m (map (where_mv g mv) (adata x)) end).
Proof.
  split.
  - unfold asize. destruct x as [d|d m]; cbn [adata]; rewrite ?adata_masked_where; apply map_length.
  - intros i v Hv. assert (Hn : nth_error (map (where_mv g mv) (adata x)) i = Some (where_mv g mv v)) by (apply nth_error_map'; exact Hv).
    split; [|split].
    + intro Hm. unfold is_missing in Hm. replace v with (where_mv g mv v).
      2: { unfold where_mv. rewrite Hm. cbn. symmetry. apply neqb_true_eq. exact Hm. }
      destruct x as [d|d m]; rewrite ?adata_masked_where; exact Hn.
    + intro Hm. unfold is_missing in Hm. replace (g v) with (where_mv g mv v).
      2: { unfold where_mv. destruct (neqb v mv); [congruence|reflexivity]. }
      destruct x as [d|d m]; rewrite ?adata_masked_where; exact Hn.
    + destruct x as [d|d m]; [reflexivity|]. rewrite masked_at_masked_where. destruct m; reflexivity.
Qed.

Lemma convert_spec ev e g cut mv x : contains "x=" e = false -> e <> "x"%string -> ev e = Some g ->
  exists out, convert ev (set_missing_value (converter_new (Some ("x=" +++ e)%string) cut) mv) x = Ok out /\ converted g mv x out.
Proof.
  intros Hc Hx Hg. unfold convert, set_missing_value, converter_new. cbn [cv_func cv_cut cv_mv].
  assert (H1 : String.eqb ("x=" +++ e)%string "" = false) by reflexivity. rewrite H1.
  assert (H2 : String.eqb ("x=" +++ e)%string "x=x" = false).
  { apply String.eqb_neq. intro H. apply Hx. apply (sapp_inj_l "x=" e "x"). exact H. }
  rewrite H2. rewrite replace_prefix by discriminate. rewrite replace_absent by exact Hc. cbn [append]. rewrite Hg.
  eexists. split; [reflexivity|]. apply where_converted.
Qed.
Lemma convert_identity ev cut mv x :
  convert ev (set_missing_value (converter_new (Some "x=x"%string) cut) mv) x = Ok x.
Proof. reflexivity. Qed.

Lemma nltb_0_0 : nltb (nint 0) (nint 0) = false.
Proof. reflexivity. Qed.
Lemma cut_cell_nonneg x : nltb (cut_cell x) (nint 0) = false.
Proof. unfold cut_cell. destruct (nltb x (nint 0)) eqn:E; [reflexivity|exact E]. Qed.
Lemma cut_cell_idem x : cut_cell (cut_cell x) = cut_cell x.
Proof. unfold cut_cell at 1. rewrite cut_cell_nonneg. reflexivity. Qed.
Lemma cut_off_nth xs i k a : nth_error xs i = Some (k, a) -> nth_error (cut_off_fields xs) i = Some (k, cut_off_arr a).
Proof. intro H. unfold cut_off_fields. apply (nth_error_map' (fun kv => (fst kv, cut_off_arr (snd kv)))) in H. exact H. Qed.
Lemma cut_off_idem xs : cut_off_fields (cut_off_fields xs) = cut_off_fields xs.
Proof.
  unfold cut_off_fields. rewrite map_map. apply map_ext. intros [k a]. cbn. unfold cut_off_arr. cbn [adata].
  rewrite map_map. f_equal. f_equal. apply map_ext. intro. apply cut_cell_idem.
Qed.
Lemma cut_off_spec xs :
  map fst (cut_off_fields xs) = map fst xs /\
  forall i k a, nth_error xs i = Some (k, a) -> exists a', nth_error (cut_off_fields xs) i = Some (k, a') /\ asize a' = asize a /\
    forall j v, has_cell a j v -> exists w, has_cell a' j w /\ nltb w (nint 0) = false /\ (nltb v (nint 0) = false -> w = v) /\
                                            (nltb v (nint 0) = true -> w = nint 0).
Proof.
  split.
  - unfold cut_off_fields. rewrite map_map. reflexivity.
  - intros i k a H. exists (cut_off_arr a). split; [apply cut_off_nth; exact H|]. split; [unfold asize, cut_off_arr; cbn; apply map_length|].
    intros j v Hv. exists (cut_cell v). split; [apply nth_error_map'; exact Hv|]. split; [apply cut_cell_nonneg|].
    unfold cut_cell. split; intro E; rewrite E; reflexivity.
Qed.

(** conversion of messages *)
Lemma Forall2_len {A B} (P : A -> B -> Prop) xs ys : Forall2 P xs ys -> List.length ys = List.length xs.
Proof. induction 1; cbn; congruence. Qed.
Lemma convert_fields_spec ev e g cut mv xs : contains "x=" e = false -> e <> "x"%string -> ev e = Some g ->
  exists ys, convert_fields ev (set_missing_value (converter_new (Some ("x=" +++ e)%string) cut) mv) xs = Ok ys /\
    Forall2 (fun x y => fst y = fst x /\ converted g mv (snd x) (snd y)) xs ys.
Proof.
  intros H1 H2 H3. unfold convert_fields. induction xs as [|[k a] xs IH].
  - exists []. split; [reflexivity|constructor].
  - destruct (convert_spec ev e g cut mv a H1 H2 H3) as [a' [Ha Hc]]. destruct IH as [ys [Hy HF]].
    exists ((k, a') :: ys). cbn [mapM fst snd]. rewrite Ha. cbn [rbind]. rewrite Hy. cbn [rbind].
    split; [reflexivity|]. constructor; [split; [reflexivity|exact Hc]|exact HF].
Qed.
Lemma apply_conversion_spec ev e g cut m : contains "x=" e = false -> e <> "x"%string -> ev e = Some g ->
  exists m', apply_conversion ev (converter_new (Some ("x=" +++ e)%string) cut) m = Ok m' /\
    Forall2 (fun x y => fst y = fst x /\ converted g (m_mv m) (snd x) (snd y)) (m_first m) (m_first m') /\
    Forall2 (fun x y => fst y = fst x /\ converted g (m_mv m) (snd x) (snd y)) (m_second m) (m_second m') /\
    messages_len m' = messages_len m /\ m_mv m' = m_mv m.
Proof.
  intros H1 H2 H3. unfold apply_conversion.
  destruct (convert_fields_spec ev e g cut (m_mv m) (m_first m) H1 H2 H3) as [f [Hf Ff]].
  destruct (convert_fields_spec ev e g cut (m_mv m) (m_second m) H1 H2 H3) as [s [Hs Fs]].
  rewrite Hf. cbn [rbind]. rewrite Hs. cbn [rbind]. eexists. split; [reflexivity|]. cbn [m_first m_second m_mv].
  split; [exact Ff|]. split; [exact Fs|]. split; [|reflexivity].
  unfold messages_len. cbn [m_first m_second]. rewrite (Forall2_len _ _ _ Ff), (Forall2_len _ _ _ Fs). reflexivity.
Qed.
Lemma Forall2_fst {K A B} (P : A -> B -> Prop) (xs : list (K * A)) (ys : list (K * B)) :
  Forall2 (fun x y => fst y = fst x /\ P (snd x) (snd y)) xs ys -> map fst ys = map fst xs.
Proof. induction 1 as [|x y xs ys [H _] _ IH]; cbn; congruence. Qed.

(** correction *)
Lemma ew3_spec {A B C D} (f : A -> B -> C -> D) x y z :
  List.length x = List.length y -> List.length x = List.length z ->
  exists d, ew3 f x y z = Ok d /\ List.length d = List.length x /\
    forall i a b c, nth_error x i = Some a -> nth_error y i = Some b -> nth_error z i = Some c ->
      nth_error d i = Some (f a b c).
Proof.
  intros H1 H2. unfold ew3. rewrite ew2_ok by exact H1. cbn [rbind].
  assert (Hl : List.length (zipw f x y) = List.length x) by (rewrite zipw_length; lia).
  rewrite ew2_ok by congruence. eexists. split; [reflexivity|]. split; [rewrite zipw_length; lia|].
  intros i a b c Ha Hb Hc. apply (nth_error_zipw (fun g c => g c) (zipw f x y) z i (f a b)); [|exact Hc].
  apply nth_error_zipw; assumption.
Qed.
Lemma get_masks_one a : get_masks [a] = amask a.
Proof. unfold get_masks. cbn. destruct (amask a); reflexivity. Qed.
Lemma correct_spec f dem gem dem_mv gem_mv mv values :
  List.length dem = asize values -> List.length gem = asize values ->
  exists out, correct f dem gem dem_mv gem_mv mv values = Ok out /\ asize out = asize values /\
    forall i p d g, has_cell values i p -> nth_error dem i = Some d -> nth_error gem i = Some g ->
      (~ is_missing mv p -> ~ is_missing dem_mv d -> ~ is_missing gem_mv g -> has_cell out i (f p d g)) /\
      (is_missing mv p \/ is_missing dem_mv d \/ is_missing gem_mv g -> has_cell out i mv) /\
      masked_at out i = masked_at values i.
Proof.
  intros Hd Hg. unfold correct. unfold asize in *.
  destruct (ew3_spec (correct_cell f dem_mv gem_mv mv) (adata values) dem gem) as [d [Hr [Hl Hc]]]; [congruence|congruence|].
  rewrite Hr. cbn [rbind]. eexists. split; [reflexivity|]. rewrite adata_masked_where. split; [exact Hl|].
  intros i p de ge H1 H2 H3. specialize (Hc i p de ge H1 H2 H3). unfold has_cell. rewrite adata_masked_where, Hc.
  unfold correct_cell, is_missing. split; [|split].
  - destruct (neqb p mv), (neqb de dem_mv), (neqb ge gem_mv); cbn; intros; try congruence; reflexivity.
  - destruct (neqb p mv), (neqb de dem_mv), (neqb ge gem_mv); cbn; intros [H|[H|H]]; try discriminate; reflexivity.
  - rewrite masked_at_masked_where, get_masks_one. reflexivity.
Qed.

(** cache *)
Definition ckey (r : corr_request) : string := (cr_grid r +++ cr_dem r)%string.
Lemma get_instance_key c r : forall inst, dget String.eqb (snd (get_instance c r)) inst =
  match dget String.eqb c inst with Some x => Some x | None => if String.eqb inst (ckey r) then Some r else None end.
Proof.
  intro k. unfold get_instance. fold (ckey r). destruct (dget String.eqb c (ckey r)) as [i|] eqn:E; cbn [snd].
  - destruct (dget String.eqb c k) eqn:Ek; [reflexivity|].
    destruct (String.eqb_spec k (ckey r)); [congruence|reflexivity].
  - rewrite (dget_dset String.eqb String_eqb_spec'). destruct (String.eqb_spec k (ckey r)) as [->|].
    + rewrite E. reflexivity.
    + destruct (dget String.eqb c k); reflexivity.
Qed.
Lemma run_history_spec h c k :
  dget String.eqb (fold_left (fun c r => snd (get_instance c r)) h c) k =
  match dget String.eqb c k with
  | Some x => Some x
  | None => find (fun r => String.eqb k (ckey r)) h
  end.
Proof.
  revert c. induction h as [|r h IH]; intro c; cbn [fold_left find].
  - destruct (dget String.eqb c k); reflexivity.
  - rewrite IH, get_instance_key. destruct (dget String.eqb c k); [reflexivity|].
    destruct (String.eqb k (ckey r)); reflexivity.
Qed.
Lemma corrector_first h r :
  fst (get_instance (run_history h) r) = match find (fun x => String.eqb (ckey r) (ckey x)) h with Some x => x | None => r end.
Proof.
  unfold get_instance. fold (ckey r). unfold run_history. rewrite run_history_spec. cbn [dget].
  destruct (find _ h); reflexivity.
Qed.
Lemma corrector_own h r :
  (forall x, In x h -> (cr_grid x +++ cr_dem x)%string = (cr_grid r +++ cr_dem r)%string -> x = r) ->
  fst (get_instance (run_history h) r) = r.
Proof.
  intro H. rewrite corrector_first. destruct (find _ h) as [x|] eqn:E; [|reflexivity].
  apply find_some in E as [Hi He]. apply String.eqb_eq in He. apply H; [exact Hi|]. symmetry. exact He.
Qed.
