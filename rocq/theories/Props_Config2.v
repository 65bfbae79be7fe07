(** * Further properties of main/config.py: several properties files (C22),
    texts without variables (C66). Vocabulary: Spec_Config.v. *)
From Verif Require Import Base PyStr Writers Config Spec_Config Base_P PyStr_P Config_P Config_P2.
Local Open Scope string_scope.

Lemma last_def_app a b k : last_def (a ++ b)%list k = match last_def b k with Some v => Some v | None => last_def a k end.
Proof.
  induction a as [|l a IH]; cbn [app last_def]; [now destruct (last_def b k)|].
  rewrite IH. destruct (last_def b k); reflexivity.
Qed.
Lemma load_line_NoDup d l d' : NoDup (dkeys d) -> load_line d l = Ok d' -> NoDup (dkeys d').
Proof.
  unfold load_line. intros Hn H. destruct (_ && _)%bool; [|injection H as <-; exact Hn].
  destruct (split_on is_eq (strip_ws l)) as [|a [|b r]]; try discriminate. injection H as <-.
  apply NoDup_dset; [apply String_eqb_spec'|exact Hn].
Qed.
Lemma load_properties_NoDup t d : load_properties t = Ok d -> NoDup (dkeys d).
Proof.
  unfold load_properties. intro H. refine (foldM_inv load_line (fun d => NoDup (dkeys d)) _ _ _ _ _ H); [|constructor].
  intros s x s' _ Hs Hx. now apply (load_line_NoDup s x).
Qed.

(** ** C22: all properties files of the user *)
(** the variables are those of all files read one after the other: the last
    definition, in the order of the files, counts *)
Definition file_ok (lines : list string) : Prop := lines <> [] /\ Forall one_line lines /\
  Forall (fun l => meaningful l = true -> count_eq (strip_ws l) = 1%nat) lines.
Theorem C22_files_partial : forall files, Forall file_ok files ->
  exists d, load_all (map (join newline) files) = Ok d /\ forall k, dget String.eqb d k = last_def (List.concat files) k.
Proof.
  intros files. unfold load_all.
  enough (G : forall d0 acc, (forall k, dget String.eqb d0 k = last_def acc k) -> Forall file_ok files ->
    exists d, foldM (fun vars t => do p <- load_properties t; Ok (dupdate String.eqb vars p)) (map (join newline) files) d0 = Ok d /\
      forall k, dget String.eqb d k = last_def (acc ++ List.concat files)%list k).
  { intro H. now apply (G [] []). }
  induction files as [|f files IH]; intros d0 acc H0 H; cbn [map foldM List.concat].
  - exists d0. split; [reflexivity|]. intro k. rewrite app_nil_r. apply H0.
  - inversion H as [|? ? [Hne [Hl Heq]] Hr]; subst. destruct (load_properties_ok f Hne Hl Heq) as [p [Hp Hk]].
    rewrite Hp. cbn [rbind].
    destruct (IH (dupdate String.eqb d0 p) (acc ++ f)%list) as [d [Hd Hdk]]; [|exact Hr|].
    + intro k. rewrite dget_update by now apply (load_properties_NoDup (join newline f)).
      rewrite Hk, H0, last_def_app. reflexivity.
    + exists d. split; [exact Hd|]. intro k. rewrite Hdk. now rewrite <- app_assoc.
Qed.
Print Assumptions C22_files_partial.
Example C22_files_nonvacuous :
  let files := [["MAPS=/a"; "X = 1"]; ["# other"; "MAPS=/b"]] in
  Forall file_ok files /\ last_def (List.concat files) "MAPS" = Some "/b" /\ last_def (List.concat files) "X" = Some "1" /\
  load_all (map (join newline) files) = Ok [("MAPS", "/b"); ("X", "1")].
Proof.
  cbv zeta. split; [|split; [|split]]; try reflexivity.
  repeat constructor; try discriminate; intro H; vm_compute in H; try discriminate H; reflexivity.
Qed.

(** ** C66: texts without variables *)
(** no opening brace, letters or underscores (at least one), closing brace *)
Definition no_variable (s : string) : Prop := forall a v b, s = a +++ "{" +++ v +++ "}" +++ b -> ~ var_name v.
Lemma has_var_split s : forall m, has_var_go m s = true ->
  (exists a v b, s = a +++ "{" +++ v +++ "}" +++ b /\ var_name v) \/
  (exists some, m = Some some /\ exists v b, s = v +++ "}" +++ b /\ (some = true \/ v <> "") /\ sforall is_word1 v = true).
Proof.
  induction s as [|c s IH]; intros m H; [discriminate|]. cbn [has_var_go] in H.
  destruct (is_brace_open c) eqn:Eo.
  - assert (c = "{"%char) as ->.
    { unfold is_brace_open in Eo. apply Nat.eqb_eq in Eo. apply code_inj. exact Eo. }
    left. destruct (IH _ H) as [[a [v [b [E Hv]]]]|[some [E [v [b [Es [Hs Hw]]]]]]].
    + exists (String "{" a), v, b. split; [now rewrite E|exact Hv].
    + injection E as <-. exists "", v, b. cbn [String.append]. rewrite Es. split; [reflexivity|].
      destruct Hs as [Hs|Hs]; [discriminate|]. split; [exact Hs|]. refine (eq_trans _ Hw). apply sforall_ext. intro x. symmetry. apply word1_spec.
  - destruct m as [some|].
    + destruct (is_word1 c) eqn:Ew.
      * destruct (IH _ H) as [[a [v [b [E Hv]]]]|[some' [E [v [b [Es [Hs Hw]]]]]]].
        -- left. exists (String c a), v, b. split; [now rewrite E|exact Hv].
        -- right. exists some. split; [reflexivity|]. exists (String c v), b. cbn [String.append]. rewrite Es. split; [reflexivity|].
           split; [right; discriminate|]. cbn [sforall]. now rewrite Ew, Hw.
      * destruct (is_brace_close c && some)%bool eqn:Ec.
        -- apply andb_prop in Ec as [Ec ->]. right. exists true. split; [reflexivity|]. exists "", s.
           assert (c = "}"%char) as ->.
           { unfold is_brace_close in Ec. apply Nat.eqb_eq in Ec. apply code_inj. exact Ec. }
           split; [reflexivity|]. split; [now left|reflexivity].
        -- destruct (IH _ H) as [[a [v [b [E Hv]]]]|[some' [E _]]]; [|discriminate].
           left. exists (String c a), v, b. split; [now rewrite E|exact Hv].
    + destruct (IH _ H) as [[a [v [b [E Hv]]]]|[some' [E _]]]; [|discriminate].
      left. exists (String c a), v, b. split; [now rewrite E|exact Hv].
Qed.
(** such a text is used as it is, whatever braces it contains *)
Theorem C66_no_variable : forall vars s, no_variable s -> interpolate_string vars s = Ok s.
Proof.
  intros vars s H. unfold interpolate_string. destruct (has_var s) eqn:E; [|reflexivity]. exfalso.
  destruct (has_var_split s None E) as [[a [v [b [Es Hv]]]]|[some [E' _]]]; [|discriminate].
  exact (H a v b Es Hv).
Qed.
Print Assumptions C66_no_variable.
(** the other direction: a text with a variable is recognised *)
Lemma has_var_complete a v b : var_name v -> forall m, has_var_go m (a +++ "{" +++ v +++ "}" +++ b) = true.
Proof.
  intros [Hne Hv]. induction a as [|c a IH]; intro m.
  - cbn [String.append has_var_go]. change (is_brace_open "{") with true. cbn iota. apply has_var_in; [|now right].
    refine (eq_trans _ Hv). apply sforall_ext. apply word1_spec.
  - cbn [String.append has_var_go]. destruct (is_brace_open c); [apply IH|]. destruct m as [some|]; [|apply IH].
    destruct (is_word1 c); [apply IH|]. destruct (is_brace_close c && some)%bool; [reflexivity|apply IH].
Qed.
Lemma no_variable_iff s : no_variable s <-> has_var s = false.
Proof.
  split.
  - intro H. destruct (has_var s) eqn:E; [|reflexivity]. exfalso.
    destruct (has_var_split s None E) as [[a [v [b [Es Hv]]]]|[some [E' _]]]; [|discriminate]. exact (H a v b Es Hv).
  - intros H a v b E Hv. unfold has_var in H. rewrite E, (has_var_complete a v b Hv) in H. discriminate.
Qed.
(** a text that is accepted has no variable left in it *)
Theorem C66_no_variable_left : forall vars s r, interpolate_string vars s = Ok r -> no_variable r.
Proof.
  intros vars s r H. apply no_variable_iff. revert H. unfold interpolate_string.
  destruct (has_var s) eqn:E; [|intro H; injection H as <-; exact E].
  destruct (str_format vars s) as [r'|]; [|discriminate]. cbn [rbind]. destruct (has_var r') eqn:E'; [discriminate|].
  intro H. injection H as <-. exact E'.
Qed.
Print Assumptions C66_no_variable_left.
Example C66_no_variable_nonvacuous : no_variable "/data/{}/x{1}" /\ interpolate_string [] "/data/{}/x{1}" = Ok "/data/{}/x{1}" /\
  interpolate_string [("D", "/d")] "{D}/x" = Ok "/d/x".
Proof. split; [|split; reflexivity]. apply no_variable_iff. reflexivity. Qed.
