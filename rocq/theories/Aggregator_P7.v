(** * Proofs about the aggregator: it is cell-local and linear.
    Both follow from one relational theorem: the aggregator only uses a fixed
    set of array operations, so any relation between arrays preserved by these
    operations is preserved by aggregation. *)
From Verif Require Import Base Num Base_P Num_P Aggregator Spec_Aggregation.
From Coq Require Import ZifyBool ZifyNat.
Local Open Scope Z_scope.

Section Rel.
  Variables (n n' : nat) (RD : list num -> list num -> Prop)
            (RM : option (list bool) -> option (list bool) -> Prop).
  Definition RA (a b : arr) : Prop := RD (adata a) (adata b) /\ RM (amask a) (amask b).
  Hypothesis H_len : forall x y, RD x y -> List.length x = n /\ List.length y = n'.
  Hypothesis H_zero : RD (zeros n) (zeros n').
  Hypothesis H_add : forall x y u w, RD x y -> RD u w -> RD (zipw nadd x u) (zipw nadd y w).
  Hypothesis H_sub : forall x y u w, RD x y -> RD u w -> RD (zipw nsub x u) (zipw nsub y w).
  Hypothesis H_mul : forall f x y, RD x y -> RD (map (fun a => nmul a f) x) (map (fun a => nmul a f) y).
  Hypothesis H_div : forall f x y, RD x y -> RD (map (fun a => ndiv a f) x) (map (fun a => ndiv a f) y).
  Hypothesis H_none : RM None None.
  Hypothesis H_mor : forall a b c d, RM a b -> RM c d -> RM (mask_or a c) (mask_or b d).
  Hypothesis H_mw : forall m m' d d', RM m m' -> RM (amask (masked_where m d)) (amask (masked_where m' d')).
  Hypothesis H_scale : forall a b f, RA a b -> RD (ma_scale_data a f) (ma_scale_data b f).

  Definition RKV {K} (x y : K * arr) : Prop := fst x = fst y /\ RA (snd x) (snd y).
  Definition RF {K} : list (K * arr) -> list (K * arr) -> Prop := Forall2 RKV.
  Definition opt_rel (x y : option arr) : Prop :=
    match x, y with Some a, Some b => RA a b | None, None => True | _, _ => False end.

  Lemma RF_keys {K} (x y : list (K * arr)) : RF x y -> dkeys x = dkeys y.
  Proof. induction 1 as [|a b x y [Hk _] H IH]; [reflexivity|]. unfold dkeys in *. cbn [map]. congruence. Qed.
  Lemma RF_dget {K} (eqb : K -> K -> bool) x y k : RF x y -> opt_rel (dget eqb x k) (dget eqb y k).
  Proof.
    induction 1 as [|[k1 a] [k2 b] x y [Hk Ha] H IH]; [exact I|]. cbn [fst snd] in *. subst k2. cbn [dget].
    destruct (eqb k k1); [exact Ha|exact IH].
  Qed.
  Lemma RF_dset {K} (eqb : K -> K -> bool) x y k a b : RF x y -> RA a b -> RF (dset eqb x k a) (dset eqb y k b).
  Proof.
    intros H Hab. induction H as [|[k1 c] [k2 d] x y [Hk Hc] H IH]; cbn [dset].
    - constructor; [split; [reflexivity|exact Hab]|constructor].
    - cbn [fst snd] in *. subst k2. destruct (eqb k k1); constructor; try assumption; split; auto.
  Qed.
  Lemma RF_dupdate {K} (eqb : K -> K -> bool) e f : RF e f -> forall x y, RF x y ->
    RF (dupdate eqb x e) (dupdate eqb y f).
  Proof.
    unfold dupdate. induction 1 as [|[k1 c] [k2 d] e f [Hk Hc] H IH]; intros x y Hxy; cbn [fold_left]; [exact Hxy|].
    cbn [fst snd] in *. subst k2. apply IH. apply RF_dset; assumption.
  Qed.
  Lemma RF_insert (k : Z * arr) k' x y : RKV k k' -> RF x y -> RF (insert_by fst k x) (insert_by fst k' y).
  Proof.
    intros Hk H. induction H as [|a b x y Ha H IH]; cbn [insert_by].
    - constructor; [exact Hk|constructor].
    - rewrite <- (proj1 Hk), <- (proj1 Ha). destruct (fst k <=? fst a).
      + constructor; [exact Hk|]. constructor; assumption.
      + constructor; assumption.
  Qed.
  Lemma RF_sort (x y : ofields) : RF x y -> RF (sort_by fst x) (sort_by fst y).
  Proof. induction 1; cbn [sort_by]; [constructor|]. apply RF_insert; assumption. Qed.
  Lemma RF_by_end x y : RF x y -> RF (by_end_step x) (by_end_step y).
  Proof.
    intro H. unfold by_end_step. apply RF_sort. unfold dict_of. apply RF_dupdate; [|constructor].
    induction H as [|a b x y [Hk Ha] H IH]; cbn [map]; constructor; [|exact IH].
    split; [cbn [fst]; congruence|exact Ha].
  Qed.

  Lemma rel_ew2 f x y u w : (forall x y u w, RD x y -> RD u w -> RD (zipw f x u) (zipw f y w)) ->
    RD x y -> RD u w -> rel_res RD (ew2 f x u) (ew2 f y w).
  Proof.
    intros Hf H1 H2. destruct (H_len _ _ H1) as [L1 L1'], (H_len _ _ H2) as [L2 L2'].
    rewrite !ew2_ok by congruence. apply Hf; assumption.
  Qed.
  Lemma rel_dgetx (x y : ofields) t : RF x y -> rel_res RA (dgetx Z.eqb x t) (dgetx Z.eqb y t).
  Proof.
    intro H. pose proof (RF_dget Z.eqb x y t H) as Hg. unfold dgetx.
    destruct (dget Z.eqb x t), (dget Z.eqb y t); cbn in *; try contradiction; try exact Hg. reflexivity.
  Qed.
  Lemma rel_refl {A} (x : res A) : rel_res eq x x.
  Proof. destruct x; reflexivity. Qed.

  Lemma RA_mw a b m m' : RD a b -> RM m m' -> RA (masked_where m a) (masked_where m' b).
  Proof. intros Hd Hm. split; [rewrite !adata_masked_where; exact Hd|apply H_mw; exact Hm]. Qed.
  Lemma RM_get2 a a' b b' : RA a a' -> RA b b' -> RM (get_masks [a; b]) (get_masks [a'; b']).
  Proof. intros [_ Ha] [_ Hb]. unfold get_masks. cbn [fold_left]. apply H_mor; [apply H_mor; [exact H_none|exact Ha]|exact Hb]. Qed.

  Lemma rel_lin ots ots' nts nts' it og nx : RD ots ots' -> RD nts nts' ->
    rel_res RD (lin_expr ots nts it og nx) (lin_expr ots' nts' it og nx).
  Proof.
    intros H1 H2. unfold lin_expr. eapply rel_bind; [apply rel_ew2; [exact H_sub|exact H2|exact H1]|].
    intros a a' Ha. apply rel_ew2; [exact H_add|exact H1|]. apply H_mul. exact Ha.
  Qed.
  Lemma rel_interp v v' keys t at_ : RF v v' ->
    rel_res RA (interp_field v keys t at_) (interp_field v' keys t at_).
  Proof.
    intro H. unfold interp_field. eapply rel_bind; [apply rel_refl|]. intros [nx og] q <-.
    eapply rel_bind; [apply rel_dgetx; exact H|]. intros a a' Ha.
    eapply rel_bind; [apply rel_dgetx; exact H|]. intros b b' Hb.
    eapply rel_bind; [apply rel_lin; [apply Hb|apply Ha]|]. intros d d' Hd.
    apply RA_mw; [exact Hd|]. apply RM_get2; assumption.
  Qed.

  Lemma RA_zeros : RA (Nd (zeros n)) (Nd (zeros n')).
  Proof. split; [exact H_zero|exact H_none]. Qed.

  Definition RS (s s' : acc_state) : Prop :=
    RF (ac_v s) (ac_v s') /\ ac_zero s = ac_zero s' /\ RF (ac_out s) (ac_out s').

  Lemma rel_acc_out u s c c' p p' : RA c c' -> RA p p' ->
    rel_res RA (acc_out n u s c p) (acc_out n' u s c' p').
  Proof.
    intros Hc Hp. unfold acc_out. eapply rel_bind; [apply rel_ew2; [exact H_add|exact H_zero|apply Hc]|].
    intros vi vi' Hvi. eapply rel_bind; [apply rel_ew2; [exact H_sub|exact Hvi|apply Hp]|].
    intros d d' Hd. apply RA_mw.
    - pose proof (H_div (nint s) _ _ (H_mul (nint u) _ _ Hd)) as Hm. rewrite !map_map in Hm. exact Hm.
    - apply RM_get2; [split; [exact Hvi|exact H_none]|exact Hp].
  Qed.

  Lemma rel_acc_body g rs lv s s' t : RS s s' -> rel_res RS (acc_body g n rs lv s t) (acc_body g n' rs lv s' t).
  Proof.
    intros [Hv [Hz Ho]]. unfold acc_body. rewrite <- (RF_keys _ _ Hv), <- Hz.
    eapply rel_bind with (R := RF).
    { unfold acc_fill_iter. destruct (zmem t (dkeys (ac_v s))); [exact Hv|].
      eapply rel_bind; [apply rel_interp; exact Hv|]. intros a a' Ha. apply RF_dset; assumption. }
    intros v1 v1' Hv1. eapply rel_bind with (R := fun p q => RF (fst p) (fst q) /\ snd p = snd q).
    { unfold acc_fill_prev. destruct ((0 <=? t - a_step g) && negb (zmem (t - a_step g) (dkeys (ac_v s))) && negb (ac_zero s)).
      2:{ split; [exact Hv1|reflexivity]. }
      eapply rel_bind; [apply rel_refl|]. intros nx nx' <-. destruct (t - a_step g =? 0).
      - split; [|reflexivity]. cbn [fst]. apply RF_dset; [exact Hv1|apply RA_zeros].
      - eapply rel_bind; [apply rel_interp; exact Hv1|]. intros a a' Ha. split; [|reflexivity]. apply RF_dset; assumption. }
    intros [v2 z2] [v2' z2'] [Hv2 Hz2]. cbn [fst snd] in *. subst z2'.
    eapply rel_bind with (R := RA).
    { unfold acc_prev_field. destruct ((t - a_step g =? 0) && a_force g); [apply RA_zeros|apply rel_dgetx; exact Hv2]. }
    intros p p' Hp. eapply rel_bind; [apply rel_dgetx; exact Hv2|]. intros c c' Hc.
    eapply rel_bind; [apply rel_acc_out; [exact Hc|exact Hp]|]. intros o o' Hoo.
    split; [exact Hv2|]. split; [reflexivity|]. cbn [ac_out]. apply RF_dset; assumption.
  Qed.

  Lemma rel_first_entry values values' : RF values values' ->
    rel_res (fun p q => fst p = fst q /\ asize (snd p) = n /\ asize (snd q) = n')
            (first_entry values) (first_entry values').
  Proof.
    intro H. destruct H as [|[k a] [k' a'] x y [Hk Ha] H]; [reflexivity|]. cbn in *. split; [exact Hk|]. apply H_len. apply Ha.
  Qed.

  Lemma rel_accumulation g values values' : RF values values' ->
    rel_res RF (accumulation g values) (accumulation g values').
  Proof.
    intro H. unfold accumulation, accumulation_run.
    eapply rel_bind with (R := RS); [|intros s s' Hs; apply Hs].
    eapply rel_bind; [apply rel_first_entry; exact H|]. intros [k a] [k' a'] [Hk [Ha Ha']]. cbn [fst snd] in *. subst k'.
    rewrite Ha, Ha'. eapply rel_bind; [apply rel_refl|]. intros l l' <-.
    apply rel_foldM; [|intros; apply rel_acc_body; assumption].
    split; [apply RF_by_end; exact H|]. split; [reflexivity|constructor].
  Qed.

  Definition RSC (p q : list num * num) : Prop := RD (fst p) (fst q) /\ snd p = snd q.
  Lemma rel_avg_half v v' s t : RF v v' -> rel_res RSC (avg_half v n s t) (avg_half v' n' s t).
  Proof.
    intro H. unfold avg_half. eapply rel_bind; [apply rel_refl|]. intros ts ts' <-.
    rewrite <- (RF_keys _ _ H). destruct (0 <? _).
    2:{ split; [exact H_zero|reflexivity]. }
    apply rel_foldM; [split; [exact H_zero|reflexivity]|].
    intros [sm ct] [sm' ct'] u [Hs Hc]. cbn [fst snd] in *. subst ct'. unfold avg_half_body.
    pose proof (RF_dget Z.eqb _ _ u H) as Hg. destruct (dget Z.eqb v u), (dget Z.eqb v' u); try contradiction.
    - eapply rel_bind; [apply rel_ew2; [exact H_add|exact Hs|apply H_scale; exact Hg]|].
      intros d d' Hd. split; [exact Hd|reflexivity].
    - split; [exact Hs|reflexivity].
  Qed.
  Lemma rel_avg_plain v v' s t : RF v v' -> rel_res RSC (avg_plain v n s t) (avg_plain v' n' s t).
  Proof.
    intro H. unfold avg_plain. eapply rel_bind; [apply rel_refl|]. intros ts ts' <-.
    apply rel_foldM; [split; [exact H_zero|reflexivity]|].
    intros [sm ct] [sm' ct'] u [Hs Hc]. cbn [fst snd] in *. subst ct'. unfold avg_plain_body.
    rewrite <- (RF_keys _ _ H). eapply rel_bind with (R := RA).
    { destruct (zmem u (dkeys v)); [apply rel_dgetx; exact H|]. eapply rel_bind; [apply rel_refl|].
      intros a a' <-. apply rel_dgetx. exact H. }
    intros a a' Ha. eapply rel_bind; [apply rel_ew2; [exact H_add|exact Hs|apply Ha]|].
    intros d d' Hd. split; [exact Hd|reflexivity].
  Qed.
  Lemma rel_average g values values' : RF values values' ->
    rel_res RF (average g values) (average g values').
  Proof.
    intro H. unfold average. destruct (String.eqb _ _); [reflexivity|].
    eapply rel_bind; [apply rel_first_entry; exact H|]. intros [k a] [k' a'] [Hk [Ha Ha']]. cbn [fst snd] in *. subst k'.
    rewrite Ha, Ha'. destruct (avg_bounds g) as [b e]. eapply rel_bind; [apply rel_refl|]. intros l l' <-.
    apply rel_foldM; [constructor|]. intros o o' t Ho. unfold avg_body.
    eapply rel_bind with (R := RSC).
    { destruct (a_half g); [apply rel_avg_half|apply rel_avg_plain]; apply RF_by_end; exact H. }
    intros [sm ct] [sm' ct'] [Hs Hc]. cbn [fst snd] in *. subst ct'. apply RF_dset; [exact Ho|].
    apply RA_mw; [apply H_div; exact Hs|exact H_none].
  Qed.
  Lemma rel_instantaneous g values values' : RF values values' ->
    rel_res RF (instantaneous g values) (instantaneous g values').
  Proof.
    intro H. unfold instantaneous. destruct (String.eqb _ _); [reflexivity|].
    eapply rel_bind; [apply rel_first_entry; exact H|]. intros [k a] [k' a'] [Hk [Ha Ha']]. cbn [fst snd] in *. subst k'.
    rewrite Ha, Ha'. eapply rel_bind; [apply rel_refl|]. intros l l' <-.
    apply rel_foldM; [constructor|]. intros o o' t Ho. unfold inst_body.
    pose proof (RF_by_end _ _ H) as Hv. rewrite <- (RF_keys _ _ Hv).
    eapply rel_bind with (R := RD).
    { destruct (zmem t (dkeys (by_end_step values))).
      - eapply rel_bind; [apply rel_dgetx; exact Hv|]. intros b b' Hb. apply rel_ew2; [exact H_add|exact H_zero|apply Hb].
      - destruct (t =? 0); [exact H_zero|]. eapply rel_bind; [apply rel_refl|]. intros nx nx' <-.
        eapply rel_bind; [apply rel_dgetx; exact Hv|]. intros b b' Hb. apply rel_ew2; [exact H_add|exact H_zero|apply Hb]. }
    intros d d' Hd. apply RF_dset; [exact Ho|]. split; [exact Hd|exact H_none].
  Qed.
  Lemma rel_do_manipulation g values values' : RF values values' ->
    rel_res RF (do_manipulation g values) (do_manipulation g values').
  Proof.
    intro H. unfold do_manipulation.
    destruct (String.eqb _ _); [apply rel_accumulation; exact H|].
    destruct (String.eqb _ _); [apply rel_average; exact H|].
    destruct (String.eqb _ _); [apply rel_instantaneous; exact H|]. reflexivity.
  Qed.
End Rel.

(** ** C16: scaling *)
Lemma map_zipw {A B C D} (h : C -> D) (f : A -> B -> C) x y : map h (zipw f x y) = zipw (fun a b => h (f a b)) x y.
Proof. revert y. induction x as [|a x IH]; intros [|b y]; cbn [zipw map]; [reflexivity..|]. f_equal. apply IH. Qed.
Lemma zipw_map {A B C A' B'} (f : A -> B -> C) (g : A' -> A) (h : B' -> B) x y :
  zipw f (map g x) (map h y) = zipw (fun a b => f (g a) (h b)) x y.
Proof. revert y. induction x as [|a x IH]; intros [|b y]; cbn [zipw map]; [reflexivity..|]. f_equal. apply IH. Qed.
Lemma zipw_ext {A B C} (f g : A -> B -> C) x y : (forall a b, f a b = g a b) -> zipw f x y = zipw g x y.
Proof. intro H. revert y. induction x as [|a x IH]; intros [|b y]; cbn [zipw]; [reflexivity..|]. rewrite H. f_equal. apply IH. Qed.


Definition mask_wf (n : nat) (m : option (list bool)) : Prop :=
  match m with Some l => List.length l = n | None => True end.
Lemma mask_wf_or n a b : mask_wf n a -> mask_wf n b -> mask_wf n (mask_or a b).
Proof. destruct a, b; cbn; auto. intros H1 H2. rewrite zipw_length. lia. Qed.
Lemma amask_mw m d : amask (masked_where m d) = m \/ amask (masked_where m d) = None.
Proof. unfold masked_where. destruct m as [l|]; [|auto]. destruct (existsb _ l); auto. Qed.
Lemma mask_wf_mw n m d : mask_wf n m -> mask_wf n (amask (masked_where m d)).
Proof. intro H. destruct (amask_mw m d) as [-> | ->]; [exact H|exact I]. Qed.
Lemma wf_arr_mask a n : asize a = n -> wf_arr a -> mask_wf n (amask a).
Proof. unfold asize. destruct a as [d|d [m|]]; cbn; intros; try exact I. congruence. Qed.

Theorem aggregation_linear : forall g values n k,
  same_size values n ->
  match do_manipulation g values, do_manipulation g (scale_fields k values) with
  | Ok out, Ok out' =>
      map fst out' = map fst out /\
      map (fun kv => adata (snd kv)) out' = map (fun kv => map (nmul (Fin k)) (adata (snd kv))) out /\
      map (fun kv => amask (snd kv)) out' = map (fun kv => amask (snd kv)) out
  | Raise e, Raise e' => e = e'
  | _, _ => False
  end.
Proof.
  intros g values n k Hsz. change (nmul (Fin k)) with (nscale k).
  pose (RDs := fun x y : list num => List.length x = n /\ y = map (nscale k) x).
  pose (RMs := fun m m' : option (list bool) => m = m' /\ mask_wf n m).
  assert (HR : rel_res (RF RDs RMs) (do_manipulation g values) (do_manipulation g (scale_fields k values))).
  { apply (rel_do_manipulation n n RDs RMs).
    - intros x y [Hl ->]. rewrite map_length. auto.
    - split; [apply zeros_length|]. unfold zeros. clear. induction n as [|m IH]; cbn [repeat map]; [reflexivity|].
      rewrite nscale_0. f_equal. exact IH.
    - intros x y u w [L1 ->] [L2 ->]. split; [rewrite zipw_length; lia|]. rewrite map_zipw, zipw_map. apply zipw_ext.
      intros. symmetry. apply nscale_add.
    - intros x y u w [L1 ->] [L2 ->]. split; [rewrite zipw_length; lia|]. rewrite map_zipw, zipw_map. apply zipw_ext.
      intros. symmetry. apply nscale_sub.
    - intros f x y [L ->]. split; [rewrite map_length; exact L|]. rewrite !map_map. apply map_ext. intros.
      symmetry. apply nscale_mul.
    - intros f x y [L ->]. split; [rewrite map_length; exact L|]. rewrite !map_map. apply map_ext. intros.
      symmetry. apply nscale_div.
    - split; [reflexivity|exact I].
    - intros a b c d [-> W1] [-> W2]. split; [reflexivity|]. apply mask_wf_or; assumption.
    - intros m m' d d' [<- W]. split; [|apply mask_wf_mw; exact W].
      unfold masked_where. destruct m as [l|]; [|reflexivity]. destruct (existsb _ l); reflexivity.
    - intros a b f [[L Hd] [Hm W]]. destruct a as [d|d [m|]], b as [e|e [m'|]]; cbn [amask adata] in *; try discriminate; subst.
      all: try (split; [cbn [ma_scale_data]; rewrite map_length; reflexivity|];
                cbn [ma_scale_data]; rewrite !map_map; apply map_ext; intros; symmetry; apply nscale_mul).
      injection Hm as <-. cbn [ma_scale_data]. split.
      + cbn in W. rewrite zipw_length. unfold mask_wf in W. lia.
      + rewrite map_zipw. rewrite <- (map_id m) at 1. rewrite zipw_map. apply zipw_ext. intros x [|]; [reflexivity|]. symmetry. apply nscale_mul.
    - unfold RF, scale_fields. induction values as [|[k0 a] values IH]; cbn [map]; constructor.
      + split; [reflexivity|]. cbn [fst snd]. destruct (Hsz k0 a (or_introl eq_refl)) as [Ha Hw].
        pose proof (wf_arr_mask _ _ Ha Hw) as Hwm.
        destruct a; (split; [split; [exact Ha|reflexivity]|split; [reflexivity|exact Hwm]]).
      + apply IH. intros k1 a1 Hi. apply (Hsz k1 a1). right. exact Hi. }
  destruct (do_manipulation g values) as [out|e], (do_manipulation g (scale_fields k values)) as [out'|e']; cbn in HR; try contradiction; [|exact HR].
  induction HR as [|[k1 a] [k2 b] x y [Hk [[L Hd] [Hm W]]] H IH]; cbn [map fst snd] in *; [auto|].
  destruct IH as [I1 [I2 I3]]. rewrite I1, I2, I3, Hk, Hd, Hm. auto.
Qed.

(** ** C15: selecting cells *)
Lemma select_zipw (f : num -> num -> num) sel x u : List.length x = List.length u ->
  (forall j, In j sel -> (j < List.length x)%nat) ->
  map (fun j => nth j (zipw f x u) NaN) sel =
  zipw f (map (fun j => nth j x NaN) sel) (map (fun j => nth j u NaN) sel).
Proof.
  intros Hl Hs. rewrite zipw_map. induction sel as [|j sel IH]; cbn [map zipw]; [reflexivity|].
  f_equal; [|apply IH; intros; apply Hs; right; assumption].
  pose proof (Hs j (or_introl eq_refl)) as Hj.
  assert (E1 : nth_error x j = Some (nth j x NaN)) by (apply nth_error_nth'; exact Hj).
  assert (E2 : nth_error u j = Some (nth j u NaN)) by (apply nth_error_nth'; lia).
  apply nth_error_nth. eapply nth_error_zipw; eassumption.
Qed.
Lemma select_map (f : num -> num) sel x : (forall j, In j sel -> (j < List.length x)%nat) ->
  map (fun j => nth j (map f x) NaN) sel = map f (map (fun j => nth j x NaN) sel).
Proof.
  intro Hs. rewrite map_map. apply map_ext_in. intros j Hj.
  rewrite (nth_indep _ NaN (f NaN)) by (rewrite map_length; apply Hs; exact Hj). apply map_nth.
Qed.

Lemma nth_error_ext {A} (l1 : list A) : forall l2, (forall i, nth_error l1 i = nth_error l2 i) -> l1 = l2.
Proof.
  induction l1 as [|a l1 IH]; intros [|b l2] H; [reflexivity|discriminate (H 0%nat)|discriminate (H 0%nat)|].
  pose proof (H 0%nat) as H0. injection H0 as ->. f_equal. apply IH. intro i. exact (H (S i)).
Qed.
Definition mask_get (m : option (list bool)) (i : nat) : bool := match m with Some l => nth i l false | None => false end.
Lemma mask_get_or n a b i : mask_wf n a -> mask_wf n b -> mask_get (mask_or a b) i = mask_get a i || mask_get b i.
Proof.
  destruct a as [x|], b as [y|]; cbn; intros Ha Hb; rewrite ?orb_false_r; try reflexivity.
  assert (Hl : List.length x = List.length y) by congruence. clear Ha Hb. revert y i Hl.
  induction x as [|p x IH]; intros [|q y] [|i] Hl; cbn in *; try discriminate; try reflexivity. apply IH. congruence.
Qed.
Lemma mask_get_mw m d i : mask_get (amask (masked_where m d)) i = mask_get m i.
Proof. exact (masked_at_masked_where m d i). Qed.

Theorem aggregation_cell_local_rel : forall g values values' n sel,
  same_size values n -> (forall j, In j sel -> (j < n)%nat) ->
  Forall2 (fun kv kv' => fst kv = fst kv' /\ wf_arr (snd kv') /\ selects sel (snd kv) (snd kv')) values values' ->
  match do_manipulation g values, do_manipulation g values' with
  | Ok out, Ok out' => Forall2 (fun kv kv' => fst kv = fst kv' /\ selects sel (snd kv) (snd kv')) out out'
  | Raise e, Raise e' => e = e'
  | _, _ => False
  end.
Proof.
  intros g values values' n sel Hsz Hsel HF.
  pose (n' := List.length sel).
  pose (RDs := fun x y : list num => List.length x = n /\ y = map (fun j => nth j x NaN) sel).
  pose (RMs := fun m m' : option (list bool) => mask_wf n m /\ mask_wf n' m' /\
                 forall i j, nth_error sel i = Some j -> mask_get m' i = mask_get m j).
  assert (HR : rel_res (RF RDs RMs) (do_manipulation g values) (do_manipulation g values')).
  { apply (rel_do_manipulation n n' RDs RMs).
    - intros x y [Hl ->]. rewrite map_length. auto.
    - split; [apply zeros_length|]. unfold n', zeros. clear -Hsel. induction sel as [|j sel IH]; cbn [repeat map List.length]; [reflexivity|].
      f_equal; [|apply IH; intros; apply Hsel; right; assumption].
      pose proof (Hsel j (or_introl eq_refl)). symmetry. apply nth_error_nth. apply (nth_error_zeros n j H).
    - intros x y u w [L1 ->] [L2 ->]. split; [rewrite zipw_length; lia|]. symmetry. apply select_zipw; [congruence|].
      intros j Hj. rewrite L1. apply Hsel. exact Hj.
    - intros x y u w [L1 ->] [L2 ->]. split; [rewrite zipw_length; lia|]. symmetry. apply select_zipw; [congruence|].
      intros j Hj. rewrite L1. apply Hsel. exact Hj.
    - intros f x y [L ->]. split; [rewrite map_length; exact L|]. symmetry. apply (select_map (fun a => nmul a f)).
      intros j Hj. rewrite L. apply Hsel. exact Hj.
    - intros f x y [L ->]. split; [rewrite map_length; exact L|]. symmetry. apply (select_map (fun a => ndiv a f)).
      intros j Hj. rewrite L. apply Hsel. exact Hj.
    - split; [exact I|]. split; [exact I|]. reflexivity.
    - intros a b c d [W1 [W1' E1]] [W2 [W2' E2]]. split; [apply mask_wf_or; assumption|]. split; [apply mask_wf_or; assumption|].
      intros i j Hij. rewrite (mask_get_or n'), (mask_get_or n), (E1 i j Hij), (E2 i j Hij) by assumption. reflexivity.
    - intros m m' d d' [W1 [W2 E]]. split; [apply mask_wf_mw; exact W1|]. split; [apply mask_wf_mw; exact W2|].
      intros i j Hij. rewrite !mask_get_mw. apply E. exact Hij.
    - intros a b f [[L Hd] [W1 [W2 E]]].
      assert (La : List.length (ma_scale_data a f) = n).
      { destruct a as [d|d [m|]]; cbn in *; rewrite ?map_length, ?zipw_length; lia. }
      assert (Lb : List.length (ma_scale_data b f) = n').
      { assert (Lb : List.length (adata b) = n') by (rewrite Hd, map_length; reflexivity).
        destruct b as [d|d [m|]]; cbn in *; rewrite ?map_length, ?zipw_length; lia. }
      split; [exact La|].
      assert (Hcell : forall a i x, List.length (adata a) = List.length (ma_scale_data a f) ->
         mask_wf (List.length (adata a)) (amask a) -> nth_error (adata a) i = Some x ->
         nth_error (ma_scale_data a f) i = Some (if mask_get (amask a) i then x else nmul x f)).
      { clear. intros a i x Hl Hw Hx. destruct a as [d|d [m|]]; cbn [adata amask ma_scale_data mask_get mask_wf] in *.
        - erewrite nth_error_map'; [|exact Hx]. reflexivity.
        - assert (Hi : (i < List.length m)%nat) by (rewrite Hw; apply nth_error_Some; congruence).
          erewrite nth_error_zipw; [|exact Hx|apply (nth_error_nth' m false Hi)]. reflexivity.
        - erewrite nth_error_map'; [|exact Hx]. reflexivity. }
      assert (Lbd : List.length (adata b) = n') by (rewrite Hd, map_length; reflexivity).
      apply nth_error_ext. intro i. destruct (nth_error sel i) as [j|] eqn:Ej.
      + pose proof (Hsel j (nth_error_In _ _ Ej)) as Hj.
        erewrite nth_error_map' by exact Ej. cbn beta.
        rewrite (Hcell b i (nth j (adata a) NaN)).
        * f_equal. symmetry. apply nth_error_nth. rewrite (Hcell a j (nth j (adata a) NaN)).
          -- rewrite (E i j Ej). reflexivity.
          -- lia.
          -- rewrite L. exact W1.
          -- apply nth_error_nth'. lia.
        * lia.
        * rewrite Lbd. exact W2.
        * rewrite Hd. erewrite nth_error_map' by exact Ej. reflexivity.
      + apply nth_error_None in Ej. rewrite (proj2 (nth_error_None _ _)) by (rewrite Lb; exact Ej).
        symmetry. apply nth_error_None. rewrite map_length. exact Ej.
    - unfold RF. induction HF as [|[k0 a] [k1 b] values values' [Hk [Hwb [Hd Hm]]] HF IH]; constructor.
      + cbn [fst snd] in *. destruct (Hsz k0 a (or_introl eq_refl)) as [Ha Hw].
        split; [exact Hk|]. cbn [fst snd]. split; [split; [exact Ha|exact Hd]|].
        split; [apply wf_arr_mask; assumption|]. split; [|exact Hm]. apply wf_arr_mask; [|exact Hwb].
        unfold asize. rewrite Hd, map_length. reflexivity.
      + apply IH. intros k2 a2 Hi. apply (Hsz k2 a2). right. exact Hi. }
  destruct (do_manipulation g values) as [out|e], (do_manipulation g values') as [out'|e']; cbn in HR; try contradiction; [|exact HR].
  induction HR as [|[k1 a] [k2 b] x y [Hk [[L Hd] [_ [_ Hm]]]] H IH]; constructor; [|exact IH].
  split; [exact Hk|]. split; [exact Hd|exact Hm].
Qed.

Lemma select_arr_selects sel a : wf_arr (select_arr sel a) /\ selects sel a (select_arr sel a).
Proof.
  destruct a as [d|d [m|]]; cbn [select_arr wf_arr]; (split; [rewrite ?map_length; try exact I; try reflexivity|]);
    (split; [reflexivity|]); intros i j Hij; unfold masked_at; cbn [amask]; try reflexivity.
  apply nth_error_nth. erewrite nth_error_map' by exact Hij. reflexivity.
Qed.

Theorem aggregation_cell_local : forall g values n sel,
  same_size values n -> (forall j, In j sel -> (j < n)%nat) ->
  match do_manipulation g values, do_manipulation g (select_fields sel values) with
  | Ok out, Ok out' => Forall2 (fun kv kv' => fst kv = fst kv' /\ selects sel (snd kv) (snd kv')) out out'
  | Raise e, Raise e' => e = e'
  | _, _ => False
  end.
Proof.
  intros g values n sel Hsz Hsel. eapply aggregation_cell_local_rel; [exact Hsz|exact Hsel|].
  unfold select_fields. clear. induction values as [|[k a] values IH]; cbn [map]; constructor; [|exact IH].
  split; [reflexivity|]. apply select_arr_selects.
Qed.

(** keys and errors depend on the keys of the input only *)
Theorem aggregation_keys_only : forall g values1 values2 n1 n2,
  same_size values1 n1 -> same_size values2 n2 -> map fst values1 = map fst values2 ->
  match do_manipulation g values1, do_manipulation g values2 with
  | Ok out1, Ok out2 => map fst out1 = map fst out2
  | Raise e, Raise e' => e = e'
  | _, _ => False
  end.
Proof.
  intros g values1 values2 n1 n2 H1 H2 Hk.
  pose proof (aggregation_cell_local_rel g values1 (select_fields [] values1) n1 [] H1 ltac:(intros j [])) as A1.
  pose proof (aggregation_cell_local_rel g values2 (select_fields [] values1) n2 [] H2 ltac:(intros j [])) as A2.
  assert (F1 : Forall2 (fun kv kv' => fst kv = fst kv' /\ wf_arr (snd kv') /\ selects [] (snd kv) (snd kv')) values1 (select_fields [] values1)).
  { unfold select_fields. clear. induction values1 as [|[k a] values IH]; cbn [map]; constructor; [|exact IH].
    split; [reflexivity|]. apply select_arr_selects. }
  assert (F2 : Forall2 (fun kv kv' => fst kv = fst kv' /\ wf_arr (snd kv') /\ selects [] (snd kv) (snd kv')) values2 (select_fields [] values1)).
  { clear -Hk. revert values2 Hk. induction values1 as [|[k a] values IH]; intros [|[k2 a2] values2] Hk; cbn in *; try discriminate; constructor.
    - injection Hk as Hk _. cbn [fst snd]. split; [congruence|]. pose proof (select_arr_selects [] a) as [Hw [Hd _]].
      split; [exact Hw|]. split; [exact Hd|]. intros i j Hij. destruct i; discriminate.
    - injection Hk as _ Hk. apply IH. exact Hk. }
  specialize (A1 F1). specialize (A2 F2).
  assert (Hf : forall o o' : fields, Forall2 (fun kv kv' => fst kv = fst kv' /\ selects [] (snd kv) (snd kv')) o o' -> map fst o = map fst o').
  { clear. induction 1 as [|a b x y [E _] H IH]; cbn [map]; [reflexivity|]. rewrite E, IH. reflexivity. }
  destruct (do_manipulation g values1) as [o1|e1], (do_manipulation g values2) as [o2|e2],
    (do_manipulation g (select_fields [] values1)) as [o3|e3]; try contradiction; try congruence.
  apply Hf in A1. apply Hf in A2. congruence.
Qed.
