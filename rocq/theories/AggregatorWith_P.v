(** * The form of the results does not depend on the arithmetic *)
From Verif Require Import Base Num Float64 Aggregator AggregatorWith Spec_Float Base_P Num_P.
From Coq Require Import Lia List.
Local Open Scope Z_scope.

Lemma so_bind {A B} (R : A -> A -> Prop) (S : B -> B -> Prop) x y f g :
  same_outcome R x y -> (forall a b, R a b -> same_outcome S (f a) (g b)) -> same_outcome S (rbind x f) (rbind y g).
Proof. destruct x, y; cbn [same_outcome rbind]; try contradiction; auto. Qed.
Lemma so_foldM {S X} (R : S -> S -> Prop) (f g : S -> X -> res S) l :
  (forall a b x, R a b -> same_outcome R (f a x) (g b x)) -> forall a b, R a b -> same_outcome R (foldM f l a) (foldM g l b).
Proof. intro H. induction l as [|x l IH]; intros a b Hab; cbn [foldM]; [exact Hab|]. apply (so_bind R); [now apply H|exact IH]. Qed.
Lemma so_refl {A} (R : A -> A -> Prop) x : (forall a, R a a) -> same_outcome R x x.
Proof. destruct x; cbn; auto. Qed.

Lemma form_refl a : same_form a a.
Proof. destruct a; cbn; auto. Qed.
Lemma form_len a b : same_form a b -> List.length (adata a) = List.length (adata b).
Proof. destruct a, b; cbn; intuition. Qed.
Lemma form_mask a b : same_form a b -> amask a = amask b.
Proof. destruct a, b; cbn; intuition. Qed.
Lemma form_masked_where m d d' : List.length d = List.length d' -> same_form (masked_where m d) (masked_where m d').
Proof. intro H. unfold masked_where. destruct m as [l|]; [destruct (existsb _ l)|]; cbn; auto. Qed.

Definition dlike {K} (a b : list (K * arr)) : Prop := Forall2 (fun x y => fst x = fst y /\ same_form (snd x) (snd y)) a b.
Lemma dlike_refl {K} (d : list (K * arr)) : dlike d d.
Proof. induction d; constructor; auto. split; [reflexivity|apply form_refl]. Qed.
Lemma dlike_keys {K} (a b : list (K * arr)) : dlike a b -> dkeys a = dkeys b.
Proof. induction 1 as [|x y a b [H _] _ IH]; [reflexivity|]. unfold dkeys in *. cbn [map]. now rewrite H, IH. Qed.
Lemma dlike_get {K} (eqb : K -> K -> bool) (a b : list (K * arr)) k : dlike a b ->
  match dget eqb a k, dget eqb b k with Some x, Some y => same_form x y | None, None => True | _, _ => False end.
Proof.
  induction 1 as [|[k1 x] [k2 y] a b [H1 H2] _ IH]; cbn [dget]; [exact I|]. cbn [fst snd] in *. subst k2.
  destruct (eqb k k1); [exact H2|exact IH].
Qed.
Lemma dlike_getx {K} (eqb : K -> K -> bool) (a b : list (K * arr)) k : dlike a b -> same_outcome same_form (dgetx eqb a k) (dgetx eqb b k).
Proof. intro H. pose proof (dlike_get eqb a b k H) as G. unfold dgetx. destruct (dget eqb a k), (dget eqb b k); cbn; try contradiction; auto. Qed.
Lemma dlike_set {K} (eqb : K -> K -> bool) (a b : list (K * arr)) k x y : dlike a b -> same_form x y -> dlike (dset eqb a k x) (dset eqb b k y).
Proof.
  intros H Hxy. induction H as [|[k1 u] [k2 w] a b [H1 H2] Hab IH]; cbn [dset]; [constructor; [split; auto|constructor]|].
  cbn [fst snd] in *. subst k2. destruct (eqb k k1); constructor; auto.
Qed.

Definition same_len {A} (x y : list A) : Prop := List.length x = List.length y.
Lemma so_ew2 {A} (f g : num -> A -> num) x y x' y' : same_len x x' -> same_len y y' -> same_outcome same_len (ew2 f x y) (ew2 g x' y').
Proof.
  unfold same_len, ew2. intros H1 H2. rewrite <- H1, <- H2. destruct (Nat.eqb _ _); cbn [same_outcome]; [|reflexivity].
  unfold same_len. rewrite !zipw_length. lia.
Qed.
Lemma len_map {A} (f g : A -> A) x y : same_len x y -> same_len (map f x) (map g y).
Proof. unfold same_len. now rewrite !map_length. Qed.

Section Two.
  Variables add sub mul div add' sub' mul' div' : num -> num -> num.

  Lemma so_lin ots nts ots' nts' i o x : same_len ots ots' -> same_len nts nts' ->
    same_outcome same_len (lin_expr_with add sub mul div ots nts i o x) (lin_expr_with add' sub' mul' div' ots' nts' i o x).
  Proof.
    intros H1 H2. unfold lin_expr_with. apply (so_bind same_len); [now apply so_ew2|]. intros a b Hab.
    apply so_ew2; [exact H1|now apply len_map].
  Qed.
  Lemma so_interp v v' keys t at_ : dlike v v' ->
    same_outcome same_form (interp_field_with add sub mul div v keys t at_) (interp_field_with add' sub' mul' div' v' keys t at_).
  Proof.
    intro H. unfold interp_field_with. apply (so_bind eq); [now apply so_refl|]. intros [nx og] ? <-.
    apply (so_bind same_form); [now apply dlike_getx|]. intros n1 n2 Hn. apply (so_bind same_form); [now apply dlike_getx|]. intros o1 o2 Ho.
    apply (so_bind same_len); [apply so_lin; now apply form_len|]. intros a b Hab. cbn [same_outcome].
    unfold get_masks. cbn [fold_left]. rewrite (form_mask _ _ Hn), (form_mask _ _ Ho). now apply form_masked_where.
  Qed.
  Lemma so_iter v v' keys t : dlike v v' ->
    same_outcome dlike (acc_fill_iter_with add sub mul div v keys t) (acc_fill_iter_with add' sub' mul' div' v' keys t).
  Proof.
    intro H. unfold acc_fill_iter_with. destruct (zmem t keys); [exact H|]. apply (so_bind same_form); [now apply so_interp|].
    intros a b Hab. now apply dlike_set.
  Qed.
  Lemma so_prev n step v v' keys iter z : dlike v v' ->
    same_outcome (fun p q => dlike (fst p) (fst q) /\ snd p = snd q)
      (acc_fill_prev_with add sub mul div n step v keys iter z) (acc_fill_prev_with add' sub' mul' div' n step v' keys iter z).
  Proof.
    intro H. unfold acc_fill_prev_with. destruct (_ && _); [|cbn [same_outcome fst snd]; auto].
    apply (so_bind eq); [now apply so_refl|]. intros ? ? <-. destruct (_ =? _).
    - cbn [same_outcome fst snd]. split; [apply dlike_set; [exact H|apply form_refl]|reflexivity].
    - apply (so_bind same_form); [now apply so_interp|]. intros f1 f2 Hab. cbn [same_outcome fst snd]. split; [now apply dlike_set|reflexivity].
  Qed.
  Lemma so_acc_out n u s c c' p p' : same_form c c' -> same_form p p' ->
    same_outcome same_form (acc_out_with add sub mul div n u s c p) (acc_out_with add' sub' mul' div' n u s c' p').
  Proof.
    intros H1 H2. unfold acc_out_with. apply (so_bind same_len); [apply so_ew2; [reflexivity|now apply form_len]|]. intros a b Hab.
    apply (so_bind same_len); [apply so_ew2; [exact Hab|now apply form_len]|]. intros x y Hxy. cbn [same_outcome].
    unfold get_masks. cbn [fold_left amask]. rewrite (form_mask _ _ H2). apply form_masked_where. now apply len_map.
  Qed.
  Definition slike (a b : acc_state) : Prop := dlike (ac_v a) (ac_v b) /\ ac_zero a = ac_zero b /\ dlike (ac_out a) (ac_out b).
  Lemma so_acc_body g n r l a b x : slike a b ->
    same_outcome slike (acc_body_with add sub mul div g n r l a x) (acc_body_with add' sub' mul' div' g n r l b x).
  Proof.
    intros [H1 [H2 H3]]. unfold acc_body_with. rewrite <- (dlike_keys _ _ H1), <- H2.
    apply (so_bind dlike); [now apply so_iter|]. intros v1 v1' Hv1.
    apply (so_bind (fun p q => dlike (fst p) (fst q) /\ snd p = snd q)); [now apply so_prev|]. intros [v2 z2] [v2' z2'] [Hv2 Hz]. cbn [fst snd] in *. subst z2'.
    apply (so_bind same_form).
    { unfold acc_prev_field. destruct (_ && _); [apply so_refl, form_refl|now apply dlike_getx]. }
    intros p p' Hp. apply (so_bind same_form); [now apply dlike_getx|]. intros c c' Hc.
    apply (so_bind same_form); [now apply so_acc_out|]. intros o o' Ho. cbn [same_outcome]. split; [exact Hv2|]. split; [reflexivity|]. now apply dlike_set.
  Qed.
  Definition sumlike (a b : list num * num) : Prop := same_len (fst a) (fst b).
  Lemma scale_len m m2 (a : arr) k k2 : same_len (scale_with m a k) (scale_with m2 a k2).
  Proof. unfold same_len. destruct a as [d|d [q|]]; cbn [scale_with]; rewrite ?map_length, ?zipw_length; reflexivity. Qed.
  Lemma so_half v n s i : same_outcome sumlike (avg_half_with add mul div v n s i) (avg_half_with add' mul' div' v n s i).
  Proof.
    unfold avg_half_with. apply (so_bind eq); [now apply so_refl|]. intros ts ? <-. destruct (0 <? _); [|reflexivity].
    apply so_foldM; [|reflexivity]. intros [a c] [b c'] t Hab. unfold sumlike in Hab. cbn [fst] in Hab. unfold avg_half_body_with.
    destruct (dget Z.eqb v t) as [x|]; [|exact Hab].
    apply (so_bind same_len); [apply so_ew2; [exact Hab|apply scale_len]|]. intros p q Hpq. exact Hpq.
  Qed.
  Lemma so_plain v n s i : same_outcome sumlike (avg_plain_with add v n s i) (avg_plain_with add' v n s i).
  Proof.
    unfold avg_plain_with. apply (so_bind eq); [now apply so_refl|]. intros ts ? <-.
    apply so_foldM; [|reflexivity]. intros [a c] [b c'] t Hab. unfold sumlike in Hab. cbn [fst] in Hab. unfold avg_plain_body_with.
    apply (so_bind eq); [now apply so_refl|]. intros x ? <-.
    apply (so_bind same_len); [apply so_ew2; [exact Hab|reflexivity]|]. intros p q Hpq. exact Hpq.
  Qed.
  Theorem form_with g values : same_outcome same_windows (do_manipulation_with add sub mul div g values) (do_manipulation_with add' sub' mul' div' g values).
  Proof.
    unfold do_manipulation_with. destruct (String.eqb _ _); [|destruct (String.eqb _ _); [|destruct (String.eqb _ _); [|reflexivity]]].
    - unfold accumulation_with. apply (so_bind slike); [|intros a b [_ [_ H]]; exact H].
      unfold accumulation_run_with. apply (so_bind eq); [now apply so_refl|]. intros [k0 a0] ? <-.
      apply (so_bind eq); [now apply so_refl|]. intros it ? <-. apply so_foldM; [intros; now apply so_acc_body|].
      split; [apply dlike_refl|]. split; [reflexivity|constructor].
    - unfold average_with. destruct (String.eqb _ _); [reflexivity|]. apply (so_bind eq); [now apply so_refl|]. intros [k0 a0] ? <-.
      destruct (avg_bounds g) as [lo hi]. apply (so_bind eq); [now apply so_refl|]. intros it ? <-.
      apply so_foldM; [|constructor]. intros a b x Hab. unfold avg_body_with.
      apply (so_bind sumlike); [destruct (a_half g); [apply so_half|apply so_plain]|].
      intros [p c] [q c'] Hpq. cbn [same_outcome]. apply dlike_set; [exact Hab|]. apply form_masked_where, len_map, Hpq.
    - unfold instantaneous_with. destruct (String.eqb _ _); [reflexivity|]. apply (so_bind eq); [now apply so_refl|]. intros [k0 a0] ? <-.
      apply (so_bind eq); [now apply so_refl|]. intros it ? <-.
      apply so_foldM; [|constructor]. intros a b x Hab. unfold inst_body_with.
      apply (so_bind same_len).
      { destruct (zmem _ _); [|destruct (x =? 0); [reflexivity|]].
        - apply (so_bind eq); [now apply so_refl|]. intros y ? <-. now apply so_ew2.
        - apply (so_bind eq); [now apply so_refl|]. intros j ? <-. apply (so_bind eq); [now apply so_refl|]. intros y ? <-. now apply so_ew2. }
      intros p q Hpq. cbn [same_outcome]. apply dlike_set; [exact Hab|exact Hpq].
  Qed.
End Two.
