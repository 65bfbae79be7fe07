(** Lemmas on PyStr. *)
From Verif Require Import Base Base_P PyStr.
From Coq Require Import DecimalString DecimalZ DecimalPos DecimalFacts Sorted Permutation ZifyBool.
Local Open Scope string_scope.

(** ** append, length *)
Lemma sapp_assoc a b c : (a +++ b) +++ c = a +++ b +++ c.
Proof. induction a as [|x a IH]; cbn; [reflexivity|]. rewrite IH. reflexivity. Qed.
Lemma sapp_nil_r a : a +++ "" = a.
Proof. induction a as [|x a IH]; cbn; [reflexivity|]. rewrite IH. reflexivity. Qed.
Lemma slen_app a b : String.length (a +++ b) = (String.length a + String.length b)%nat.
Proof. induction a as [|x a IH]; cbn; [reflexivity|]. rewrite IH. reflexivity. Qed.
Lemma sapp_inj_l a b c : a +++ b = a +++ c -> b = c.
Proof. induction a as [|x a IH]; cbn; [auto|]. intro H. injection H as H. auto. Qed.
Lemma sapp_inj_len a b c d : String.length a = String.length c -> a +++ b = c +++ d -> a = c /\ b = d.
Proof.
  revert c. induction a as [|x a IH]; intros [|y c] Hl H; cbn in Hl; try discriminate.
  - split; [reflexivity|exact H].
  - cbn in H. injection H as -> H. injection Hl as Hl. destruct (IH c Hl H) as [-> ->]. auto.
Qed.
Lemma sapp_inj_r a b c : a +++ c = b +++ c -> a = b.
Proof.
  intro H. assert (Hl : String.length a = String.length b).
  { apply (f_equal String.length) in H. rewrite !slen_app in H. lia. }
  destruct (sapp_inj_len _ _ _ _ Hl H) as [E _]. exact E.
Qed.
Lemma srepeat_length c n : String.length (srepeat c n) = n.
Proof. induction n; cbn; congruence. Qed.

(** ** sforall, sexists, sfilter *)
Lemma sforall_app p a b : sforall p (a +++ b) = (sforall p a && sforall p b)%bool.
Proof. induction a as [|x a IH]; cbn; [reflexivity|]. rewrite IH, andb_assoc. reflexivity. Qed.
Lemma sexists_app p a b : sexists p (a +++ b) = (sexists p a || sexists p b)%bool.
Proof. induction a as [|x a IH]; cbn; [reflexivity|]. rewrite IH, orb_assoc. reflexivity. Qed.
Lemma sforall_impl p q s : (forall c, p c = true -> q c = true) -> sforall p s = true -> sforall q s = true.
Proof.
  intro H. induction s as [|c s IH]; cbn; [auto|]. rewrite !andb_true_iff. intros [H1 H2]. auto.
Qed.
Lemma sforall_ext p q s : (forall c, p c = q c) -> sforall p s = sforall q s.
Proof. intro H. induction s as [|c s IH]; cbn; [reflexivity|]. rewrite H, IH. reflexivity. Qed.
Lemma sforall_filter p q s : sforall p s = true -> sforall p (sfilter q s) = true.
Proof.
  induction s as [|c s IH]; cbn; [auto|]. rewrite andb_true_iff. intros [H1 H2].
  destruct (q c); cbn; [rewrite H1|]; auto.
Qed.
Lemma sforall_sfilter q s : sforall q (sfilter q s) = true.
Proof. induction s as [|c s IH]; cbn; [reflexivity|]. destruct (q c) eqn:E; cbn; [rewrite E|]; auto. Qed.
Lemma sforall_stake p n s : sforall p s = true -> sforall p (stake n s) = true.
Proof.
  revert s. induction n as [|n IH]; intros [|c s]; cbn; auto.
  rewrite !andb_true_iff. intros [H1 H2]. auto.
Qed.
Lemma sforall_smap p f s : (forall c, p (f c) = true) -> sforall p (smap f s) = true.
Proof. intro H. induction s as [|c s IH]; cbn; [reflexivity|]. rewrite H, IH. reflexivity. Qed.
Lemma sforall_smap_iff p f s : sforall p (smap f s) = sforall (fun c => p (f c)) s.
Proof. induction s as [|c s IH]; cbn; [reflexivity|]. rewrite IH. reflexivity. Qed.
Lemma sforall_negb_sexists p s : sforall (fun c => negb (p c)) s = negb (sexists p s).
Proof. induction s as [|c s IH]; cbn; [reflexivity|]. rewrite IH, negb_orb. reflexivity. Qed.

(** ** take and drop *)
Lemma stake_sdrop n s : stake n s +++ sdrop n s = s.
Proof. revert s. induction n as [|n IH]; intros [|c s]; cbn; try reflexivity. rewrite IH. reflexivity. Qed.
Lemma stake_length n s : String.length (stake n s) = Nat.min n (String.length s).
Proof. revert s. induction n as [|n IH]; intros [|c s]; cbn; try reflexivity. rewrite IH. reflexivity. Qed.
Lemma sdrop_length n s : String.length (sdrop n s) = (String.length s - n)%nat.
Proof. revert s. induction n as [|n IH]; intros [|c s]; cbn; try reflexivity. rewrite IH. reflexivity. Qed.
Lemma sdrop_app a b : sdrop (String.length a) (a +++ b) = b.
Proof. induction a as [|c a IH]; cbn; [destruct b; reflexivity|exact IH]. Qed.
Lemma stake_app a b : stake (String.length a) (a +++ b) = a.
Proof. induction a as [|c a IH]; cbn; [destruct b; reflexivity|]. rewrite IH. reflexivity. Qed.
Lemma stake_all n s : (String.length s <= n)%nat -> stake n s = s.
Proof. revert s. induction n as [|n IH]; intros [|c s] H; cbn in *; try reflexivity; [lia|]. rewrite IH by lia. reflexivity. Qed.

(** ** replacing a single character *)
Lemma replace_char_go c new s :
  replace_go (String c "") new 0 s =
  match s with
  | EmptyString => EmptyString
  | String a s' => if Ascii.eqb c a then new +++ replace_go (String c "") new 0 s' else String a (replace_go (String c "") new 0 s')
  end.
Proof. destruct s as [|a s]; [reflexivity|]. cbn. rewrite andb_true_r. destruct (Ascii.eqb c a); reflexivity. Qed.
Lemma replace_char_del c s : replace (String c "") "" s = sfilter (fun a => negb (Ascii.eqb c a)) s.
Proof.
  unfold replace. induction s as [|a s IH]; [reflexivity|]. rewrite replace_char_go, IH. cbn [sfilter].
  destruct (Ascii.eqb c a); reflexivity.
Qed.
Lemma replace_char_char c d s :
  replace (String c "") (String d "") s = smap (fun a => if Ascii.eqb c a then d else a) s.
Proof.
  unfold replace. induction s as [|a s IH]; [reflexivity|]. rewrite replace_char_go, IH. cbn [smap].
  destruct (Ascii.eqb c a); reflexivity.
Qed.
Lemma starts_with_app p s : starts_with p (p +++ s) = true.
Proof. induction p as [|c p IH]; cbn; [destruct s; reflexivity|]. rewrite Ascii.eqb_refl, IH. reflexivity. Qed.
Lemma starts_with_spec p s : starts_with p s = true <-> exists t, s = p +++ t.
Proof.
  revert s. induction p as [|c p IH]; intros s; cbn.
  - split; [intros _; exists s; reflexivity|auto].
  - destruct s as [|d s]; [split; [discriminate|intros [t H]; discriminate]|].
    rewrite andb_true_iff, Ascii.eqb_eq, IH. split.
    + intros [-> [t ->]]. exists t. reflexivity.
    + intros [t H]. injection H as -> ->. eauto.
Qed.
Lemma contains_spec p s : contains p s = true <-> exists a b, s = a +++ p +++ b.
Proof.
  induction s as [|c s IH].
  - cbn. rewrite orb_false_r, starts_with_spec. split.
    + intros [t H]. exists "", t. exact H.
    + intros [a [b H]]. destruct a; [exists b; exact H|discriminate].
  - cbn [contains]. rewrite orb_true_iff, starts_with_spec, IH. split.
    + intros [[t H]|[a [b H]]]; [exists "", t; exact H|]. exists (String c a), b. cbn. rewrite H. reflexivity.
    + intros [a [b H]]. destruct a as [|d a]; [left; exists b; exact H|]. right. cbn in H. injection H as _ H. eauto.
Qed.
Lemma replace_absent old new s : contains old s = false -> replace old new s = s.
Proof.
  unfold replace. induction s as [|c s IH]; intro H; [reflexivity|].
  cbn [contains] in H. apply orb_false_iff in H as [H1 H2].
  cbn [replace_go]. rewrite H1, IH by exact H2. reflexivity.
Qed.
Lemma replace_go_skip old new p s : replace_go old new (String.length p) (p +++ s) = replace_go old new 0 s.
Proof. induction p as [|c p IH]; [reflexivity|]. cbn. exact IH. Qed.
Lemma replace_prefix old new s : old <> "" -> replace old new (old +++ s) = new +++ replace old new s.
Proof.
  intro Hn. unfold replace. destruct old as [|c old]; [congruence|]. cbn [append replace_go].
  rewrite (starts_with_app (String c old) s : starts_with (String c old) (String c (old +++ s)) = true).
  cbn [String.length]. rewrite Nat.sub_succ, Nat.sub_0_r, replace_go_skip. reflexivity.
Qed.

(** ** order and sorting *)
Lemma code_inj a b : code a = code b -> a = b.
Proof. intro H. rewrite <- (ascii_nat_embedding a), <- (ascii_nat_embedding b). unfold code in H. rewrite H. reflexivity. Qed.
Lemma str_leb_refl a : str_leb a a = true.
Proof. induction a as [|x a IH]; cbn [str_leb]; [reflexivity|]. rewrite Nat.ltb_irrefl. exact IH. Qed.
Lemma str_leb_trans a b c : str_leb a b = true -> str_leb b c = true -> str_leb a c = true.
Proof.
  revert b c. induction a as [|x a IH]; intros [|y b] [|z c]; cbn [str_leb]; try congruence.
  destruct (Nat.ltb_spec (code x) (code y)), (Nat.ltb_spec (code y) (code x)),
    (Nat.ltb_spec (code y) (code z)), (Nat.ltb_spec (code z) (code y)),
    (Nat.ltb_spec (code x) (code z)), (Nat.ltb_spec (code z) (code x)); try lia; try congruence.
  apply IH.
Qed.
Lemma str_leb_antisym a b : str_leb a b = true -> str_leb b a = true -> a = b.
Proof.
  revert b. induction a as [|x a IH]; intros [|y b]; cbn [str_leb]; try congruence.
  destruct (Nat.ltb_spec (code x) (code y)), (Nat.ltb_spec (code y) (code x)); try lia; try congruence.
  intros H1 H2. rewrite (code_inj x y) by lia. f_equal. apply IH; assumption.
Qed.
Lemma str_leb_total a b : str_leb a b = false -> str_leb b a = true.
Proof.
  revert b. induction a as [|x a IH]; intros [|y b]; cbn [str_leb]; try congruence.
  destruct (Nat.ltb_spec (code x) (code y)), (Nat.ltb_spec (code y) (code x)); try lia; try congruence.
  all: apply IH.
Qed.

Section SortStrFacts.
  Context {A : Type} (key : A -> string).
  Definition kle (a b : A) : Prop := str_leb (key a) (key b) = true.
  Lemma insert_str_perm x l : Permutation (insert_str key x l) (x :: l).
  Proof.
    induction l as [|y l IH]; cbn [insert_str]; [reflexivity|].
    destruct (str_leb (key x) (key y)); [reflexivity|]. rewrite IH. apply perm_swap.
  Qed.
  Lemma sort_str_perm l : Permutation (sort_str key l) l.
  Proof.
    induction l as [|x l IH]; cbn [sort_str]; [reflexivity|]. rewrite insert_str_perm. constructor. exact IH.
  Qed.
  Lemma insert_str_sorted x l : StronglySorted kle l -> StronglySorted kle (insert_str key x l).
  Proof.
    induction 1 as [|y l Hs IH Hy]; cbn [insert_str].
    - repeat constructor.
    - destruct (str_leb (key x) (key y)) eqn:E.
      + constructor; [constructor; assumption|]. constructor; [exact E|].
        eapply Forall_impl; [|exact Hy]. intros a Ha. unfold kle in *. eapply str_leb_trans; eassumption.
      + constructor; [exact IH|]. rewrite Forall_forall in *. intros a Ha.
        apply (Permutation_in _ (insert_str_perm x l)) in Ha. destruct Ha as [<-|Ha]; [|apply Hy; exact Ha].
        apply str_leb_total. exact E.
  Qed.
  Lemma sort_str_sorted l : StronglySorted kle (sort_str key l).
  Proof. induction l; cbn [sort_str]; [constructor | apply insert_str_sorted; assumption]. Qed.
  Lemma sorted_perm_eq l l' : NoDup (map key l) -> Permutation l l' ->
    StronglySorted kle l -> StronglySorted kle l' -> l = l'.
  Proof.
    revert l'. induction l as [|x l IH]; intros l' Hn Hp Hs Hs'.
    - apply Permutation_nil in Hp. congruence.
    - destruct l' as [|y l']; [symmetry in Hp; apply Permutation_nil in Hp; discriminate|].
      inversion Hs as [|? ? Hs1 Hx]; inversion Hs' as [|? ? Hs1' Hy]; subst.
      rewrite Forall_forall in *.
      assert (E : x = y).
      { assert (Hxy : In x (y :: l')) by (eapply Permutation_in; [exact Hp|left; reflexivity]).
        destruct Hxy as [->|Hxy]; [reflexivity|].
        assert (Hyx : In y (x :: l)) by (eapply Permutation_in; [symmetry; exact Hp|left; reflexivity]).
        destruct Hyx as [->|Hyx]; [reflexivity|].
        exfalso. inversion Hn as [|? ? Hnx _]; subst. apply Hnx.
        rewrite (str_leb_antisym (key x) (key y) (Hx _ Hyx) (Hy _ Hxy)). apply in_map. exact Hyx. }
      subst y. f_equal. apply IH; try assumption.
      + inversion Hn; assumption.
      + eapply Permutation_cons_inv. exact Hp.
  Qed.
  Lemma sort_str_canonical l l' : NoDup (map key l) -> Permutation l l' -> sort_str key l = sort_str key l'.
  Proof.
    intros Hn Hp. apply sorted_perm_eq.
    - eapply Permutation_NoDup; [|exact Hn]. apply Permutation_map. symmetry. apply sort_str_perm.
    - rewrite !sort_str_perm. exact Hp.
    - apply sort_str_sorted.
    - apply sort_str_sorted.
  Qed.
End SortStrFacts.

Lemma String_eqb_spec' : forall a b, String.eqb a b = true <-> a = b.
Proof. intros. apply String.eqb_eq. Qed.

(** ** splitting and stripping *)
Lemma split_on_cons p c s : split_on p (String c s) =
  if p c then "" :: split_on p s
  else match split_on p s with w :: ws => String c w :: ws | [] => [] end.
Proof. unfold split_on. cbn [split_go]. destruct (split_go p s) as [w ws]. destruct (p c); reflexivity. Qed.
Lemma split_on_nonnil p s : exists w ws, split_on p s = w :: ws.
Proof. unfold split_on. destruct (split_go p s) as [w ws]. eauto. Qed.
Lemma split_on_app_sep p a c b : p c = true -> split_on p (a +++ String c b) = (split_on p a ++ split_on p b)%list.
Proof.
  intro Hc. induction a as [|x a IH]; cbn [append].
  - rewrite split_on_cons, Hc. reflexivity.
  - rewrite !split_on_cons, IH. destruct (p x); [reflexivity|].
    destruct (split_on_nonnil p a) as [w [ws ->]]. reflexivity.
Qed.
Lemma split_on_none p s : sexists p s = false -> split_on p s = [s].
Proof.
  induction s as [|c s IH]; cbn [sexists]; intro H; [reflexivity|].
  apply orb_false_iff in H as [H1 H2]. rewrite split_on_cons, H1, IH by exact H2. reflexivity.
Qed.
Lemma strip_id p s : sexists p s = false -> strip p s = s.
Proof.
  intro H. unfold strip.
  assert (Hl : forall t, sexists p t = false -> lstrip p t = t).
  { intros [|c t]; cbn; [reflexivity|]. intro Ht. apply orb_false_iff in Ht as [-> _]. reflexivity. }
  rewrite Hl by exact H. clear Hl.
  induction s as [|c s IH]; [reflexivity|]. cbn [sexists] in H. apply orb_false_iff in H as [H1 H2].
  cbn [rstrip sforall]. rewrite H1. cbn [andb]. rewrite IH by exact H2. reflexivity.
Qed.
(** stripping removes a prefix and a suffix of characters of the set *)
Lemma lstrip_spec p s : exists a, s = a +++ lstrip p s /\ sforall p a = true.
Proof.
  induction s as [|c s IH]; [exists ""; auto|]. cbn [lstrip]. destruct (p c) eqn:E.
  - destruct IH as [a [H1 H2]]. exists (String c a). cbn. rewrite <- H1, E, H2. auto.
  - exists "". auto.
Qed.
Lemma rstrip_spec p s : exists b, s = rstrip p s +++ b /\ sforall p b = true.
Proof.
  induction s as [|c s IH]; [exists ""; auto|]. cbn [rstrip]. destruct (sforall p (String c s)) eqn:E.
  - exists (String c s). auto.
  - destruct IH as [b [H1 H2]]. exists b. cbn. rewrite <- H1. auto.
Qed.
Lemma strip_spec p s : exists a b, s = a +++ strip p s +++ b /\ sforall p a = true /\ sforall p b = true.
Proof.
  unfold strip. destruct (lstrip_spec p s) as [a [H1 H2]]. destruct (rstrip_spec p (lstrip p s)) as [b [H3 H4]].
  exists a, b. rewrite <- H3, <- H1. auto.
Qed.
Lemma lstrip_head p s c t : lstrip p s = String c t -> p c = false.
Proof. induction s as [|d s IH]; cbn; [discriminate|]. destruct (p d) eqn:E; [exact IH|]. intro H. injection H as <- <-. exact E. Qed.

(** ** decimal numbers *)
Lemma Z_of_str_of_Z z : Z_of_str (str_of_Z z) = Some z.
Proof.
  unfold Z_of_str, str_of_Z. rewrite NilZero.isi.
  - cbn [option_map]. rewrite DecimalZ.of_to. reflexivity.
  - destruct z; cbn; try discriminate.
    all: intro H; injection H as H; pose proof (Unsigned.to_uint_nonnil p); congruence.
  - destruct z; cbn; try discriminate.
    all: intro H; injection H as H; pose proof (Unsigned.to_uint_nonnil p); congruence.
Qed.
Lemma str_of_Z_inj a b : str_of_Z a = str_of_Z b -> a = b.
Proof. intro H. apply (f_equal Z_of_str) in H. rewrite !Z_of_str_of_Z in H. congruence. Qed.
