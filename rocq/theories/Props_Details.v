(** * Property C91: details of the configured parameters (main/api.py:234-255).
    Vocabulary: Spec_Details.v. *)
From Verif Require Import Base PyStr Strings Config Details Spec_Details PyStr_P Base_P Config_P.
Local Open Scope string_scope.

Lemma jitem_field j k v : jitem j k = Ok v <-> field j k v.
Proof.
  unfold jitem, field, dgetx. split.
  - destruct j as [| | | | |o]; try discriminate. destruct (dget String.eqb o k) eqn:E; [|discriminate]. intros [= <-]. eauto.
  - intros (d & -> & ->). reflexivity.
Qed.
Lemma printed_shown repr j s : printed repr j s <-> s = shown repr j.
Proof. destruct j as [|[|]| | | |]; reflexivity. Qed.
Lemma shows_spec repr j k s : shows repr j k s <-> exists v, jitem j k = Ok v /\ s = shown repr v.
Proof.
  unfold shows. split; intros (v & A & B); exists v; [rewrite jitem_field, <- printed_shown|rewrite printed_shown, <- jitem_field]; auto.
Qed.
Lemma describes_spec repr c line : describes repr c line <-> conversion_line repr c = Ok line.
Proof.
  unfold describes, conversion_line. split.
  - intros (i & u & f & n & I & U & F & N & ->). apply shows_spec in I, U, F, N.
    destruct I as (vi & -> & ->), U as (vu & -> & ->), F as (vf & -> & ->), N as (vn & -> & ->). reflexivity.
  - intro H. apply rbind_ok in H. destruct H as (i & I & H). apply rbind_ok in H. destruct H as (u & U & H).
    apply rbind_ok in H. destruct H as (f & F & H). apply rbind_ok in H. destruct H as (n & N & H). 
    exists (shown repr i), (shown repr u), (shown repr f), (shown repr n).
    rewrite !shows_spec. do 4 (split; [eauto|]). congruence.
Qed.
Lemma lines_spec repr l : forall out s, conversion_lines repr l out = Ok s <->
  exists ls, Forall2 (describes repr) l ls /\ s = text_of_lines (out :: ls).
Proof.
  induction l as [|c l IH]; intros out s; cbn [conversion_lines].
  - split; [intros [= <-]; exists []; split; [constructor|reflexivity]|]. intros (ls & F & ->). inversion F; subst. reflexivity.
  - split.
    + intro H. apply rbind_ok in H. destruct H as (x & C & H). apply IH in H. destruct H as (ls & F & ->). exists (x :: ls).
      split; [constructor; [now apply describes_spec|exact F]|]. cbn [text_of_lines]. destruct ls; rewrite ?sapp_assoc; reflexivity.
    + intros (ls & F & ->). inversion F as [|? x ? ls' D F']; subst. apply describes_spec in D. rewrite D. cbn [rbind]. apply IH. exists ls'.
      split; [exact F'|]. cbn [text_of_lines]. destruct ls'; rewrite ?sapp_assoc; reflexivity.
Qed.
Lemma joined_lines l : joined newline l = text_of_lines l.
Proof. induction l as [|s [|t r] IH]; try reflexivity. cbn [joined text_of_lines] in *. rewrite IH. reflexivity. Qed.

Definition default_user : list (string * json) := [("description", JStr param_description); ("xyz", xyz)].

Lemma field_truthy p k v : field p k v -> jtruthy p = true.
Proof. intros (d & -> & E). destruct d; [discriminate|reflexivity]. Qed.
Lemma param_in_force global user name : NoDup (map fst user) ->
  param_get (dupdate String.eqb global user) name =
  match in_force global user name with Some p => if jtruthy p then Ok p else Raise (AppExc 1100) | None => Raise (AppExc 1100) end.
Proof. intro ND. unfold param_get, in_force. rewrite (dget_update global user name ND). now destruct (dget String.eqb user name). Qed.

Lemma details_loaded repr vars name out : name <> "" ->
  (do param <- param_get vars name; do s <- jitem param "@shortName"; do d <- jitem param "@description"; do u <- jitem param "@unit";
   do c <- jitem param "Conversion";
   conversion_lines repr (match c with JArr l => l | _ => [c] end)
     ("Parameter " +++ shown repr s +++ ": " +++ shown repr d +++ " Unit: " +++ shown repr u)) = Ok out <->
  exists p h l ls, param_get vars name = Ok p /\ headline repr p h /\ conversions p l /\ Forall2 (describes repr) l ls /\ out = text_of_lines (h :: ls).
Proof.
  intro N. split.
  - intro H. apply rbind_ok in H. destruct H as (p & P & H). apply rbind_ok in H. destruct H as (s & S & H).
    apply rbind_ok in H. destruct H as (d & D & H). apply rbind_ok in H. destruct H as (u & U & H).
    apply rbind_ok in H. destruct H as (c & C & H). apply lines_spec in H. destruct H as (ls & F & ->).
    exists p. eexists. exists (match c with JArr l => l | _ => [c] end), ls. split; [exact P|]. split.
    { exists (shown repr s), (shown repr d), (shown repr u). rewrite !shows_spec. do 3 (split; [eauto|]). reflexivity. }
    split; [|auto]. apply jitem_field in C. unfold conversions. destruct c; try (now left); right; eexists; (split; [exact C|split; [reflexivity|discriminate]]).
  - intros (p & h & l & ls & P & (s & d & u & S & D & U & ->) & C & F & ->). apply shows_spec in S, D, U.
    destruct S as (vs & S & ->), D as (vd & D & ->), U as (vu & U & ->). rewrite P. cbn [rbind]. rewrite S. cbn [rbind]. rewrite D. cbn [rbind]. rewrite U. cbn [rbind].
    destruct C as [C|(c & C & -> & A)]; apply jitem_field in C; rewrite C; cbn [rbind]; apply lines_spec; exists ls; (split; [|reflexivity]); [exact F|].
    destruct c; try exact F. now elim (A l).
Qed.

(** C91: with a name, exactly the parameters with all items are shown, by their
    first line and one line for each conversion *)
Theorem C91_exact_partial : forall repr global user name out, name <> "" -> NoDup (map fst user) ->
  parameter_details repr global (Some (Some (JObj user))) (Some name) = Ok out <->
  exists p h l ls, in_force global user name = Some p /\ headline repr p h /\ conversions p l /\ Forall2 (describes repr) l ls /\
    out = text_of_lines (h :: ls).
Proof.
  intros repr global user name out N ND. unfold parameter_details, parameters, merge_with_user_conf, vars_update. cbn [conf_load rbind c_vars c_file].
  destruct name as [|a name]; [now elim N|]. cbv zeta. set (nm := String a name) in *. rewrite (details_loaded repr _ nm out N).
  rewrite (param_in_force global user nm ND). split; intros (p & h & l & ls & P & H); exists p, h, l, ls; (split; [|exact H]).
  - destruct (in_force global user nm) as [q|]; [|discriminate]. destruct (jtruthy q); congruence.
  - rewrite P. destruct H as ((s & _ & _ & (v & Fv & _) & _) & _). now rewrite (field_truthy _ _ _ Fv).
Qed.
Definition tp_example : json :=
  JObj [("@description", JStr "rain"); ("@shortName", JStr "tp"); ("@unit", JStr "m");
        ("Conversion", JArr [JObj [("@id", JStr "a"); ("@unit", JStr "mm"); ("@function", JStr "x=x*1000"); ("@cutOffNegative", JBool true)];
                             JObj [("@id", JStr "b"); ("@unit", JStr "cm"); ("@function", JStr "x=x*100"); ("@cutOffNegative", JBool false)]])].
Example C91_exact_nonvacuous : exists out, parameter_details (fun _ => "") [("tp", tp_example)] (Some (Some (JObj default_user))) (Some "tp") = Ok out /\
  out = text_of_lines ["Parameter tp: rain Unit: m"; "Conversion id: a unit mm x=x*1000 [cut negative: True]"; "Conversion id: b unit cm x=x*100 [cut negative: False]"].
Proof. eexists. split; [vm_compute; reflexivity|]. reflexivity. Qed.

(** the full claim: every parameter of the manual can be shown. Refuted by the
    entry that pyg2p itself writes at the first start, and by parameters without
    conversion *)
Definition C91_full : Prop := forall repr global user name p, name <> "" -> NoDup (map fst user) ->
  in_force global user name = Some p -> is_parameter p -> exists out, parameter_details repr global (Some (Some (JObj user))) (Some name) = Ok out.
Theorem C91_refuted : ~ C91_full.
Proof.
  intro H. destruct (H (fun _ => "") [] default_user "xyz" xyz) as [out E]; [discriminate| |reflexivity| |].
  - repeat constructor; cbn; intuition discriminate.
  - repeat split; eexists; eexists; (split; [reflexivity|reflexivity]).
  - discriminate E.
Qed.
Theorem C91_no_conversion : forall repr global user name p, name <> "" -> NoDup (map fst user) ->
  in_force global user name = Some p -> is_parameter p -> (forall c, ~ field p "Conversion" c) ->
  parameter_details repr global (Some (Some (JObj user))) (Some name) = Raise KeyError.
Proof.
  intros repr global user name p N ND P ((s & S) & (d & D) & (u & U)) C.
  unfold parameter_details, parameters, merge_with_user_conf, vars_update. cbn [conf_load rbind c_vars c_file].
  destruct name as [|a name]; [now elim N|]. cbv zeta. set (nm := String a name) in *. rewrite (param_in_force global user nm ND), P, (field_truthy _ _ _ S).
  apply jitem_field in S, D, U. cbn [rbind]. rewrite S. cbn [rbind]. rewrite D. cbn [rbind]. rewrite U. cbn [rbind].
  destruct (jitem p "Conversion") as [c|e] eqn:E; [apply jitem_field in E; now elim (C c)|]. cbn [rbind]. f_equal.
  unfold jitem in E, S. destruct p as [| | | | |o]; try discriminate. unfold dgetx in E. destruct (dget String.eqb o "Conversion"); congruence.
Qed.

(** without a name, or with an empty one: the names of the user file, whatever they are *)
Theorem C91_list_partial : forall repr global user name, name = None \/ name = Some "" ->
  parameter_details repr global (Some (Some (JObj user))) name =
    Ok ("Available parameters short names: " +++ String (ascii_of_nat 10) (text_of_lines (map fst user))).
Proof.
  intros repr global user name [-> | ->]; unfold parameter_details, parameters, merge_with_user_conf, vars_update; cbn [conf_load rbind c_vars c_file];
    rewrite joined_lines; reflexivity.
Qed.
(** the full claim: all parameters are listed, and all that is listed can be
    shown. Both refuted *)
Definition C91_list_full : Prop := forall repr global user name p out, NoDup (map fst user) -> in_force global user name = Some p -> is_parameter p ->
  parameter_details repr global (Some (Some (JObj user))) None = Ok out -> contains name out = true.
Theorem C91_list_refuted : ~ C91_list_full.
Proof.
  intro H. assert (E := H (fun _ => "") [("tp", tp_example)] default_user "tp" tp_example ("Available parameters short names: " +++ text_of_lines ["";"description";"xyz"])).
  assert (contains "tp" ("Available parameters short names: " +++ text_of_lines ["";"description";"xyz"]) = true); [|discriminate].
  apply E; [|reflexivity| |reflexivity].
  - repeat constructor; cbn; intuition discriminate.
  - repeat split; eexists; eexists; (split; [reflexivity|reflexivity]).
Qed.
(** at the first start neither of the two listed names can be shown *)
Theorem C91_first_start : forall repr global,
  parameter_details repr global None None = Ok ("Available parameters short names: " +++ text_of_lines [""; "description"; "xyz"]) /\
  parameter_details repr global None (Some "description") = Raise TypeError /\
  parameter_details repr global None (Some "xyz") = Raise KeyError.
Proof.
  intros repr global. split; [reflexivity|].
  assert (D : forall name p, in_force global default_user name = Some p -> jtruthy p = true -> param_get (dupdate String.eqb global default_user) name = Ok p).
  { intros name p H T. rewrite param_in_force, H, T; [reflexivity|]. repeat constructor; cbn; intuition discriminate. }
  assert (P1 := D "description" (JStr param_description) eq_refl eq_refl). assert (P2 := D "xyz" xyz eq_refl eq_refl). clear D.
  unfold parameter_details, parameters, merge_with_user_conf, vars_update. change (dupdate String.eqb [("description", JStr param_description)] [("xyz", xyz)]) with default_user.
  cbn [rbind c_vars]. rewrite P1, P2. split; reflexivity.
Qed.
Print Assumptions C91_exact_partial.
Print Assumptions C91_refuted.
Print Assumptions C91_no_conversion.
Print Assumptions C91_list_partial.
Print Assumptions C91_list_refuted.
Print Assumptions C91_first_start.
