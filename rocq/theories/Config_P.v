(** * Config_P: proofs about the configuration. *)
From Verif Require Import Base PyStr Writers Config Spec_Config Base_P PyStr_P Writers_P.
From Coq Require Import Permutation.
Local Open Scope string_scope.

(** ** characters *)
Lemma code_eqb c n : (n < 256)%nat -> Nat.eqb (code c) n = Ascii.eqb c (ascii_of_nat n).
Proof.
  intro Hn. destruct (Ascii.eqb_spec c (ascii_of_nat n)) as [->|H].
  - unfold code. rewrite nat_ascii_embedding by exact Hn. apply Nat.eqb_refl.
  - apply Nat.eqb_neq. intro E. apply H. rewrite <- E. unfold code. symmetry. apply ascii_nat_embedding.
Qed.
Lemma is_eq_spec c : is_eq c = Ascii.eqb c "=".
Proof. unfold is_eq. now rewrite code_eqb by lia. Qed.
Lemma is_newline_spec c : is_newline c = (Ascii.eqb c "010" || Ascii.eqb c "013")%bool.
Proof. unfold is_newline. now rewrite !code_eqb by lia. Qed.
Lemma is_vstrip_spec c : is_vstrip c = trimmed c.
Proof. unfold is_vstrip, trimmed. now rewrite !code_eqb by lia. Qed.
Lemma is_brace_open_spec c : is_brace_open c = Ascii.eqb c "{".
Proof. unfold is_brace_open. now rewrite code_eqb by lia. Qed.
Lemma is_brace_close_spec c : is_brace_close c = Ascii.eqb c "}".
Proof. unfold is_brace_close. now rewrite code_eqb by lia. Qed.

Lemma lstrip_ext p q s : (forall c, p c = q c) -> lstrip p s = lstrip q s.
Proof. intro H. induction s as [|c s IH]; cbn; [reflexivity|]. rewrite H, IH. reflexivity. Qed.
Lemma rstrip_ext p q s : (forall c, p c = q c) -> rstrip p s = rstrip q s.
Proof.
  intro H. induction s as [|c s IH]; cbn [rstrip]; [reflexivity|]. rewrite (sforall_ext p q) by exact H. now rewrite IH.
Qed.
Lemma strip_ext p q s : (forall c, p c = q c) -> strip p s = strip q s.
Proof. intro H. unfold strip. rewrite (lstrip_ext p q) by exact H. now apply rstrip_ext. Qed.

(** ** C22 *)
Lemma split_cut s : match cut_eq s with
  | None => split_on is_eq s = [s]
  | Some (a, b) => exists w r, split_on is_eq s = a :: w :: r /\ split_on is_eq b = w :: r
  end.
Proof.
  induction s as [|c s IH]; [reflexivity|]. cbn [cut_eq]. rewrite split_on_cons, is_eq_spec.
  destruct (Ascii.eqb c "=").
  - destruct (split_on_nonnil is_eq s) as [w [r E]]. exists w, r. now rewrite E.
  - destruct (cut_eq s) as [[a b]|].
    + destruct IH as [w [r [E1 E2]]]. exists w, r. now rewrite E1.
    + now rewrite IH.
Qed.

Lemma split_no_eq b : count_eq b = O -> split_on is_eq b = [b].
Proof.
  intro H. apply split_on_none. induction b as [|c b IH]; [reflexivity|]. cbn in *. rewrite is_eq_spec.
  destruct (Ascii.eqb c "="); [discriminate|]. cbn. apply IH. exact H.
Qed.
Lemma cut_count s a b : cut_eq s = Some (a, b) -> count_eq s = S (count_eq b).
Proof.
  revert a b. induction s as [|c s IH]; intros a b H; [discriminate|]. cbn in *. destruct (Ascii.eqb c "=").
  - injection H as <- <-. reflexivity.
  - destruct (cut_eq s) as [[a' b']|]; [|discriminate]. injection H as <- <-. now apply (IH a').
Qed.
Lemma cut_none s : cut_eq s = None <-> count_eq s = O.
Proof.
  induction s as [|c s IH]; [split; reflexivity|]. cbn. destruct (Ascii.eqb c "="); [split; discriminate|].
  rewrite <- IH. destruct (cut_eq s) as [[a b]|]; split; congruence.
Qed.

Lemma load_line_spec props line :
  load_line props line =
    if meaningful line then
      match cut_eq (strip_ws line) with
      | None => Raise IndexError
      | Some (a, b) => Ok (dset String.eqb props (strip_ws a) (strip trimmed (hd "" (split_on is_eq b))))
      end
    else Ok props.
Proof.
  unfold load_line, meaningful. destruct (_ && _)%bool; [|reflexivity].
  pose proof (split_cut (strip_ws line)) as H. destruct (cut_eq (strip_ws line)) as [[a b]|].
  - destruct H as [w [r [E1 E2]]]. rewrite E1, E2. cbn [hd]. f_equal. f_equal. apply strip_ext. apply is_vstrip_spec.
  - now rewrite H.
Qed.

Lemma load_line_one props line k v : count_eq (strip_ws line) = 1%nat -> line_def line = Some (k, v) ->
  load_line props line = Ok (dset String.eqb props k v).
Proof.
  intros Hc H. unfold line_def in H. rewrite load_line_spec. destruct (meaningful line); [|discriminate].
  destruct (cut_eq (strip_ws line)) as [[a b]|] eqn:E; [|discriminate]. injection H as <- <-.
  rewrite (cut_count _ _ _ E) in Hc. rewrite split_no_eq by congruence. reflexivity.
Qed.

Definition line_ok (line : string) : Prop := meaningful line = true -> count_eq (strip_ws line) = 1%nat.

Lemma load_lines lines : Forall line_ok lines -> forall props, exists d,
  foldM load_line lines props = Ok d /\
  forall k, dget String.eqb d k = match last_def lines k with Some v => Some v | None => dget String.eqb props k end.
Proof.
  induction 1 as [|l r Hl Hr IH]; intro props; cbn [foldM].
  - eexists. split; [reflexivity|]. reflexivity.
  - destruct (line_def l) as [[k v]|] eqn:E.
    + assert (Hm : meaningful l = true) by (unfold line_def in E; destruct (meaningful l); [reflexivity|discriminate]).
      rewrite (load_line_one _ _ _ _ (Hl Hm) E). cbn [rbind]. destruct (IH (dset String.eqb props k v)) as [d [Hd Hg]].
      exists d. split; [exact Hd|]. intro k'. rewrite Hg. cbn [last_def]. rewrite E.
      destruct (last_def r k'); [reflexivity|]. rewrite dget_dset by apply String_eqb_spec'. now destruct (String.eqb k' k).
    + assert (Hm : meaningful l = false).
      { destruct (meaningful l) eqn:Em; [|reflexivity]. unfold line_def in E. rewrite Em in E.
        specialize (Hl Em). destruct (cut_eq (strip_ws l)) as [[? ?]|] eqn:Ec; [discriminate|]. apply cut_none in Ec. congruence. }
      rewrite load_line_spec, Hm. cbn [rbind]. destruct (IH props) as [d [Hd Hg]]. exists d. split; [exact Hd|].
      intro k'. rewrite Hg. cbn [last_def]. rewrite E. now destruct (last_def r k').
Qed.

Lemma split_join_lines ls : ls <> [] -> Forall one_line ls -> split_on is_newline (join newline ls) = ls.
Proof.
  intros Hne H. induction H as [|l r Hl Hr IH]; [congruence|].
  assert (Hs : sexists is_newline l = false).
  { apply Bool.negb_true_iff. rewrite <- sforall_negb_sexists. unfold one_line in Hl. rewrite <- Hl.
    apply sforall_ext. intro c. now rewrite is_newline_spec. }
  destruct r as [|l2 r].
  - cbn. now rewrite split_on_none.
  - change (join newline (l :: l2 :: r)) with (l +++ String "010" (join newline (l2 :: r))).
    rewrite split_on_app_sep by reflexivity. rewrite split_on_none by exact Hs. cbn [app]. f_equal. apply IH. discriminate.
Qed.

Lemma load_properties_ok ls : ls <> [] -> Forall one_line ls -> Forall line_ok ls -> exists d,
  load_properties (join newline ls) = Ok d /\ forall k, dget String.eqb d k = last_def ls k.
Proof.
  intros Hne H1 H2. unfold load_properties. rewrite split_join_lines by assumption.
  destruct (load_lines ls H2 []) as [d [Hd Hg]]. exists d. split; [exact Hd|]. intro k. rewrite Hg. now destruct (last_def ls k).
Qed.

Lemma load_lines_total lines props :
  (exists d, foldM load_line lines props = Ok d) /\ Forall (fun l => meaningful l = true -> (1 <= count_eq (strip_ws l))%nat) lines
  \/ foldM load_line lines props = Raise IndexError /\ Exists (fun l => meaningful l = true /\ count_eq (strip_ws l) = O) lines.
Proof.
  revert props. induction lines as [|l r IH]; intro props; cbn [foldM].
  - left. split; [eexists; reflexivity|constructor].
  - rewrite load_line_spec. destruct (meaningful l) eqn:Em.
    + destruct (cut_eq (strip_ws l)) as [[a b]|] eqn:Ec; cbn [rbind].
      * destruct (IH (dset String.eqb props (strip_ws a) (strip trimmed (hd "" (split_on is_eq b))))) as [[H1 H2]|[H1 H2]].
        -- left. split; [exact H1|]. constructor; [|exact H2]. intros _. rewrite (cut_count _ _ _ Ec). lia.
        -- right. split; [exact H1|]. now right.
      * right. split; [reflexivity|]. left. split; [exact Em|]. now apply cut_none.
    + cbn [rbind]. destruct (IH props) as [[H1 H2]|[H1 H2]].
      * left. split; [exact H1|]. constructor; [|exact H2]. congruence.
      * right. split; [exact H1|]. now right.
Qed.

Lemma load_properties_total ls : ls <> [] -> Forall one_line ls ->
  ((exists d, load_properties (join newline ls) = Ok d) <-> Forall (fun l => meaningful l = true -> (1 <= count_eq (strip_ws l))%nat) ls) /\
  (load_properties (join newline ls) = Raise IndexError <-> Exists (fun l => meaningful l = true /\ count_eq (strip_ws l) = O) ls).
Proof.
  intros Hne H1. unfold load_properties. rewrite split_join_lines by assumption.
  destruct (load_lines_total ls []) as [[[d Hd] H2]|[Hd H2]].
  - split; split; intro H; eauto.
    + rewrite Hd in H. discriminate.
    + apply Exists_exists in H as [l [Hl [Hm Hc]]]. rewrite Forall_forall in H2. specialize (H2 l Hl Hm). lia.
  - split; split; intro H; auto.
    + destruct H as [d E]. congruence.
    + apply Exists_exists in H2 as [l [Hl [Hm Hc]]]. rewrite Forall_forall in H. specialize (H l Hl Hm). lia.
Qed.

(** ** C23, C24 *)
Lemma last_binding_NoDup {V} (d : list (string * V)) k : NoDup (dkeys d) -> last_binding String.eqb d k = dget String.eqb d k.
Proof.
  induction d as [|[k' v] d IH]; intro H; [reflexivity|]. inversion H as [|? ? Hn Hd]; subst.
  cbn [last_binding dget]. rewrite (IH Hd). destruct (String.eqb_spec k k') as [->|Hk].
  - destruct (dget String.eqb d k') eqn:E; [|reflexivity]. exfalso. apply Hn. apply dget_In in E; [|apply String_eqb_spec'].
    change k' with (fst (k', v0)). now apply in_map.
  - destruct (dget String.eqb d k); reflexivity.
Qed.

Lemma dget_update {V} (d e : list (string * V)) k : NoDup (dkeys e) ->
  dget String.eqb (dupdate String.eqb d e) k = match dget String.eqb e k with Some v => Some v | None => dget String.eqb d k end.
Proof. intro H. rewrite dget_dupdate by apply String_eqb_spec'. now rewrite last_binding_NoDup. Qed.

Lemma dget_perm {V} (d e : list (string * V)) k : NoDup (dkeys d) -> Permutation d e -> dget String.eqb d k = dget String.eqb e k.
Proof.
  intros Hn Hp. assert (Hn' : NoDup (dkeys e)) by (eapply Permutation_NoDup; [apply Permutation_map; exact Hp|exact Hn]).
  destruct (dget String.eqb d k) as [v|] eqn:E.
  - symmetry. apply In_dget; [apply String_eqb_spec'|exact Hn'|]. eapply Permutation_in; [exact Hp|].
    apply dget_In in E; [exact E|apply String_eqb_spec'].
  - symmetry. apply dget_None; [apply String_eqb_spec'|]. apply dget_None in E; [|apply String_eqb_spec'].
    intro Hi. apply E. eapply Permutation_in; [|exact Hi]. apply Permutation_map. now symmetry.
Qed.
Lemma dget_sorted {V} (d : list (string * V)) k : NoDup (dkeys d) -> dget String.eqb (sort_str fst d) k = dget String.eqb d k.
Proof. intro H. symmetry. apply dget_perm; [exact H|]. symmetry. apply sort_str_perm. Qed.
Lemma NoDup_sorted {V} (d : list (string * V)) : NoDup (dkeys d) -> NoDup (dkeys (sort_str fst d)).
Proof. intro H. eapply Permutation_NoDup; [apply Permutation_map; symmetry; apply sort_str_perm|exact H]. Qed.

Lemma merge_lookup global descr init u c : NoDup (dkeys u) ->
  merge_with_user_conf global descr init (Some (Some (JObj u))) = Ok c ->
  c_user c = JObj u /\ c_file c = Some (JObj u) /\
  forall k, dget String.eqb (c_vars c) k = match dget String.eqb u k with Some v => Some v | None => dget String.eqb global k end.
Proof.
  intros Hn H. cbn in H. injection H as <-. cbn. repeat split. intro k. now apply dget_update.
Qed.

Lemma merge_first_run global descr init : NoDup (dkeys init) -> ~ In "description" (dkeys init) -> exists c,
  merge_with_user_conf global descr init None = Ok c /\
  c_user c = JObj (("description", JStr descr) :: init) /\
  (forall k, dget String.eqb (c_vars c) k =
     match dget String.eqb (("description", JStr descr) :: init) k with Some v => Some v | None => dget String.eqb global k end) /\
  exists d, c_file c = Some (JObj d) /\ Permutation d (("description", JStr descr) :: init).
Proof.
  intros Hn Hd.
  assert (E : dupdate String.eqb [("description", JStr descr)] init = ("description", JStr descr) :: init).
  { rewrite dict_of_NoDup_aux; [reflexivity|apply String_eqb_spec'|]. cbn. now constructor. }
  unfold merge_with_user_conf. rewrite E. cbn [vars_update rbind]. eexists. split; [reflexivity|]. cbn [c_user c_vars c_file].
  split; [reflexivity|]. split.
  - intro k. apply dget_update. cbn. now constructor.
  - eexists. split; [reflexivity|]. apply sort_str_perm.
Qed.

Lemma dump_reload global descr init u : NoDup (dkeys u) -> u <> [] -> exists c d,
  merge_with_user_conf global descr init (Some (conf_dump (JObj u))) = Ok c /\ c_user c = JObj d /\
  (forall k, dget String.eqb d k = dget String.eqb u k) /\
  (forall k, dget String.eqb (c_vars c) k = match dget String.eqb u k with Some v => Some v | None => dget String.eqb global k end) /\
  (forall f, c_file c = f -> exists d', f = Some (JObj d') /\ forall k, In k (dkeys d') <-> In k (dkeys u)).
Proof.
  intros Hn Hu. destruct u as [|e u]; [congruence|].
  unfold conf_dump. cbn [jtruthy]. unfold merge_with_user_conf. cbn [conf_load rbind vars_update].
  set (d := sort_str fst (e :: u)). eexists _, d. split; [reflexivity|]. cbn [c_user c_vars c_file]. split; [reflexivity|].
  split; [intro k; now apply dget_sorted|]. split.
  - intro k. rewrite dget_update by now apply NoDup_sorted. unfold d. now rewrite dget_sorted.
  - intros f <-. exists d. split; [reflexivity|]. intro k. unfold d, dkeys. split; intro Hk.
    + eapply Permutation_in; [apply Permutation_map; apply sort_str_perm|exact Hk].
    + eapply Permutation_in; [apply Permutation_map; symmetry; apply sort_str_perm|exact Hk].
Qed.

(** ** C25 *)
Definition has_id (c : json) (i : string) : Prop := exists d, c = JObj d /\ dget String.eqb d "@id" = Some (JStr i).

Lemma find_conversion_spec l id_ : Forall (fun c => exists i, has_id c i) l ->
  (exists c, find_conversion l id_ = Ok (Some c) /\ exists p q, l = (p ++ c :: q)%list /\ has_id c id_ /\ Forall (fun c' => ~ has_id c' id_) p)
  \/ (find_conversion l id_ = Ok None /\ Forall (fun c' => ~ has_id c' id_) l).
Proof.
  induction 1 as [|c l [i [d [-> Hd]]] Hl IH]; [right; split; [reflexivity|constructor]|].
  cbn [find_conversion jitem]. unfold dgetx. rewrite Hd. cbn [rbind jis]. destruct (String.eqb_spec i id_) as [->|Hne].
  - left. eexists. split; [reflexivity|]. exists [], l. repeat split; [|constructor]. exists d. auto.
  - assert (Hno : ~ has_id (JObj d) id_).
    { intros [d' [E E']]. injection E as <-. congruence. }
    destruct IH as [[c' [H1 [p [q [-> [H2 H3]]]]]]|[H1 H2]].
    + left. exists c'. split; [exact H1|]. exists (JObj d :: p), q. repeat split; auto.
    + right. split; [exact H1|]. now constructor.
Qed.
