(** * The characters and texts of the statements about options, configuration
    files and commands: which characters are white, digits, letters, and what
    stripping and changing case do. The specifications of C22, C33, C61, C68
    speak of texts in these terms. *)
From Coq Require Import Lia List.
From Verif Require Import Base PyStr PyStr_P.
Local Open Scope string_scope.

Definition chars (s : string) : list ascii := list_ascii_of_string s.
(** what Python strips: blank, tab to carriage return, and the four separators
    28 to 31 *)
Definition white_chars : list ascii :=
  [" "%char; "009"%char; "010"%char; "011"%char; "012"%char; "013"%char; "028"%char; "029"%char; "030"%char; "031"%char].

Lemma all_ascii (P : ascii -> bool) : forallb P (map ascii_of_nat (seq 0 256)) = true -> forall c, P c = true.
Proof.
  intros H c. rewrite forallb_forall in H. apply H. rewrite <- (ascii_nat_embedding c). apply in_map, in_seq.
  pose proof (nat_ascii_bounded c). lia.
Qed.
Lemma class_In p l : forallb (fun c => Bool.eqb (p c) (existsb (Ascii.eqb c) l)) (map ascii_of_nat (seq 0 256)) = true ->
  forall c, p c = true <-> In c l.
Proof.
  intros H c. pose proof (all_ascii (fun c => Bool.eqb (p c) (existsb (Ascii.eqb c) l)) H c) as E. cbv beta in E. apply Bool.eqb_prop in E.
  rewrite E, existsb_exists. split.
  - intros [x [Hx Hc]]. apply Ascii.eqb_eq in Hc. now subst.
  - intro Hc. exists c. split; [exact Hc|apply Ascii.eqb_refl].
Qed.

Theorem C61_white : forall c, is_space c = true <-> In c white_chars.
Proof. apply class_In. vm_compute. reflexivity. Qed.
Print Assumptions C61_white.
Theorem C68_digits : (forall c, is_digit c = true <-> In c (chars "0123456789")) /\
  forall n c, nth_error (chars "0123456789") n = Some c -> (code c - 48)%nat = n.
Proof.
  split; [apply class_In; vm_compute; reflexivity|]. intros n c H. do 10 (destruct n as [|n]; [injection H as <-; reflexivity|]). destruct n; discriminate.
Qed.
Print Assumptions C68_digits.

(** stripping leaves a text whose first and last characters are not white, and
    removes white characters only *)
Lemma sforall_In p s : sforall p s = true <-> forall c, In c (chars s) -> p c = true.
Proof.
  induction s as [|a s IH]; cbn; [split; [intros _ c []|reflexivity]|]. rewrite Bool.andb_true_iff, IH. split.
  - intros [H1 H2] c [<-|H]; auto.
  - intro H. split; [apply H; auto|intros c Hc; apply H; auto].
Qed.
Lemma lstrip_head p c t s : lstrip p s = String c t -> p c = false.
Proof. induction s as [|a s IH]; cbn [lstrip]; [discriminate|]. destruct (p a) eqn:E; [exact IH|]. intro H. injection H as <- <-. exact E. Qed.
Lemma rstrip_last p : forall s a c, rstrip p s = a +++ String c "" -> p c = false.
Proof.
  induction s as [|x s IH]; intros a c H; cbn [rstrip] in H; [destruct a; discriminate|].
  destruct (sforall p (String x s)) eqn:E; [destruct a; discriminate|]. destruct a as [|y a]; cbn in H.
  - injection H as -> H. cbn [sforall] in E. destruct (p c) eqn:Pc; [|reflexivity]. cbn [andb] in E.
    assert (Hs : sforall p s = true).
    { clear -H. induction s as [|z s IH]; [reflexivity|]. cbn [rstrip] in H. destruct (sforall p (String z s)) eqn:E; [reflexivity|discriminate]. }
    congruence.
  - injection H as -> H. exact (IH a c H).
Qed.
Lemma rstrip_head p c t s : rstrip p s = String c t -> exists u, s = String c u.
Proof. destruct s as [|x s]; cbn [rstrip]; [discriminate|]. destruct (sforall p (String x s)); [discriminate|]. intro H. injection H as <- _. eauto. Qed.

Theorem C22_strip : forall s, exists a b, s = a +++ strip_ws s +++ b /\
  (forall c, In c (chars a) \/ In c (chars b) -> In c white_chars) /\
  (forall c t, strip_ws s = String c t -> ~ In c white_chars) /\
  (forall t c, strip_ws s = t +++ String c "" -> ~ In c white_chars).
Proof.
  intro s. destruct (strip_spec is_space s) as [a [b [E [Ha Hb]]]]. exists a, b. split; [exact E|]. split; [|split].
  - intros c H. apply C61_white. rewrite sforall_In in Ha, Hb. destruct H; auto.
  - intros c t H. rewrite <- C61_white. unfold strip_ws, strip in H. apply rstrip_head in H as [u H]. apply lstrip_head in H. congruence.
  - intros t c H. rewrite <- C61_white. unfold strip_ws, strip in H. apply rstrip_last in H. congruence.
Qed.
Print Assumptions C22_strip.
Example C22_strip_nonvacuous : strip_ws (String "009" " a b " ) = "a b" /\ strip_ws "  " = "".
Proof. split; reflexivity. Qed.

(** changing case replaces each letter by its counterpart and nothing else *)
Definition capitals : string := "ABCDEFGHIJKLMNOPQRSTUVWXYZ".
Definition smalls : string := "abcdefghijklmnopqrstuvwxyz".
Lemma smap_chars f s : chars (smap f s) = map f (chars s).
Proof. induction s as [|c s IH]; cbn; [reflexivity|]. f_equal. exact IH. Qed.
Definition other_case (from to : string) (c d : ascii) : Prop :=
  (exists n, nth_error (chars from) n = Some c /\ nth_error (chars to) n = Some d) \/ (~ In c (chars from) /\ d = c).
Lemma case_ok f from to :
  forallb (fun c => existsb (fun n => match nth_error (chars from) n, nth_error (chars to) n with
                                      | Some x, Some y => (Ascii.eqb c x && Ascii.eqb (f c) y)%bool | _, _ => false end) (seq 0 26)
                    || (negb (existsb (Ascii.eqb c) (chars from)) && Ascii.eqb (f c) c))%bool (map ascii_of_nat (seq 0 256)) = true ->
  forall c, other_case from to c (f c).
Proof.
  intros H c. pose proof (all_ascii _ H c) as E. cbv beta in E. apply Bool.orb_true_iff in E as [E|E].
  - left. apply existsb_exists in E as [n [_ E]]. exists n. destruct (nth_error (chars from) n) as [x|]; [|discriminate].
    destruct (nth_error (chars to) n) as [y|]; [|discriminate]. apply andb_prop in E as [E1 E2]. apply Ascii.eqb_eq in E1, E2. clear H. subst x y. split; reflexivity.
  - right. apply andb_prop in E as [E1 E2]. apply Ascii.eqb_eq in E2. split; [|exact E2]. intro Hc. apply Bool.negb_true_iff in E1.
    assert (existsb (Ascii.eqb c) (chars from) = true); [|congruence]. apply existsb_exists. exists c. split; [exact Hc|apply Ascii.eqb_refl].
Qed.
Lemma map_Forall2 {A B} (R : A -> B -> Prop) f l : (forall x, R x (f x)) -> Forall2 R l (map f l).
Proof. intro H. induction l; cbn; constructor; auto. Qed.
Lemma lower_case : forall c, other_case capitals smalls c (lower_ch c).
Proof. exact (case_ok lower_ch capitals smalls ltac:(vm_compute; reflexivity)). Qed.
Lemma upper_case : forall c, other_case smalls capitals c (upper_ch c).
Proof. exact (case_ok upper_ch smalls capitals ltac:(vm_compute; reflexivity)). Qed.
Theorem C33_lower : forall s, Forall2 (other_case capitals smalls) (chars s) (chars (lower s)).
Proof. intro s. unfold lower. rewrite smap_chars. apply map_Forall2, lower_case. Qed.
Print Assumptions C33_lower.
Theorem C32_upper : forall s, Forall2 (other_case smalls capitals) (chars s) (chars (upper s)).
Proof. intro s. unfold upper. rewrite smap_chars. apply map_Forall2, upper_case. Qed.
Print Assumptions C32_upper.
Example C33_lower_nonvacuous : lower "NO-Fa1se" = "no-fa1se" /\ upper "2t" = "2T".
Proof. split; reflexivity. Qed.
