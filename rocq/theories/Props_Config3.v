(** * Props_Config3: C66 braces in paths, C23 files that are not JSON, C26 emptied registry. *)
From Verif Require Import Base PyStr Writers Config Spec_Config Base_P PyStr_P Writers_P Config_P Config_P2 Props_Config Props_Config2.
From Coq Require Import Permutation.
Local Open Scope string_scope.

(** ** C66: doubled braces stand for braces *)
Inductive part := PLit (s : string) | PVar (v : string) | POpen | PClose.
Definition part_ok (p : part) : Prop := match p with PLit s => no_braces s | PVar v => var_name v | _ => True end.
Fixpoint written (ps : list part) : string :=
  match ps with
  | [] => ""
  | PLit s :: r => s +++ written r
  | PVar v :: r => "{" +++ v +++ "}" +++ written r
  | POpen :: r => "{{" +++ written r
  | PClose :: r => "}}" +++ written r
  end.
(** the text meant: variables replaced by their values, doubled braces single *)
Fixpoint meant (vars : list (string * string)) (ps : list part) : option string :=
  match ps with
  | [] => Some ""
  | PLit s :: r => option_map (fun t => s +++ t) (meant vars r)
  | PVar v :: r => match dget String.eqb vars v, meant vars r with Some x, Some t => Some (x +++ t) | _, _ => None end
  | POpen :: r => option_map (fun t => "{" +++ t) (meant vars r)
  | PClose :: r => option_map (fun t => "}" +++ t) (meant vars r)
  end.

Lemma format_open vars r : str_format vars ("{{" +++ r) = do x <- str_format vars r; Ok ("{" +++ x).
Proof. reflexivity. Qed.
Lemma format_close vars r : str_format vars ("}}" +++ r) = do x <- str_format vars r; Ok ("}" +++ x).
Proof. reflexivity. Qed.
Lemma format_written vars ps : Forall part_ok ps -> str_format vars (written ps) =
  match meant vars ps with Some t => Ok t | None => Raise KeyError end.
Proof.
  induction 1 as [|p ps Hp _ IH]; [reflexivity|]. destruct p as [s|v| |]; cbn [written meant].
  - rewrite format_lit by exact Hp. rewrite IH. destruct (meant vars ps); reflexivity.
  - rewrite format_var by exact Hp. rewrite IH, (word_value _ _ Hp). destruct (dget String.eqb vars v); [|reflexivity].
    destruct (meant vars ps); reflexivity.
  - rewrite format_open, IH. destruct (meant vars ps); reflexivity.
  - rewrite format_close, IH. destruct (meant vars ps); reflexivity.
Qed.
Lemma written_var ps v : In (PVar v) ps -> exists a b, written ps = a +++ "{" +++ v +++ "}" +++ b.
Proof.
  induction ps as [|p ps IH]; intro H; [contradiction|]. destruct H as [->|H].
  - exists "", (written ps). reflexivity.
  - destruct (IH H) as [a [b E]]. destruct p as [s|w| |]; cbn [written]; rewrite E.
    + exists (s +++ a), b. now rewrite sapp_assoc.
    + exists ("{" +++ w +++ "}" +++ a), b. now rewrite !sapp_assoc.
    + exists ("{{" +++ a), b. now rewrite sapp_assoc.
    + exists ("}}" +++ a), b. now rewrite sapp_assoc.
Qed.
(** a path with a variable: doubled braces become single ones, and the path is
    refused with 8000 when what comes out contains a variable, also one written
    by the user with doubled braces *)
Theorem C66_braces : forall vars ps v, Forall part_ok ps -> In (PVar v) ps ->
  (forall t, meant vars ps = Some t -> no_variable t -> interpolate_string vars (written ps) = Ok t) /\
  (forall t, meant vars ps = Some t -> ~ no_variable t -> interpolate_string vars (written ps) = Raise (AppExc 8000)) /\
  (meant vars ps = None -> interpolate_string vars (written ps) = Raise KeyError).
Proof.
  intros vars ps v F H. assert (V : var_name v) by (rewrite Forall_forall in F; exact (F _ H)).
  assert (E : has_var (written ps) = true).
  { destruct (written_var ps v H) as [a [b ->]]. apply has_var_complete. exact V. }
  unfold interpolate_string. rewrite E, (format_written vars ps F). split; [|split].
  - intros t -> N. cbn [rbind]. rewrite (proj1 (no_variable_iff t) N). reflexivity.
  - intros t -> N. cbn [rbind]. destruct (has_var t) eqn:Et; [reflexivity|]. exfalso. apply N. now apply no_variable_iff.
  - intros ->. reflexivity.
Qed.
Print Assumptions C66_braces.
(** a path with a variable and a single brace is a ValueError *)
Theorem C66_lone_brace : forall vars ps v t s, Forall part_ok ps -> In (PVar v) ps -> meant vars ps = Some t -> no_braces s -> 
  (s <> "" -> interpolate_string vars (written ps +++ "}" +++ s) = Raise ValueError) /\
  interpolate_string vars (written ps +++ "}") = Raise ValueError /\
  interpolate_string vars (written ps +++ "{" +++ s) = Raise ValueError.
Proof.
  intros vars ps v t s F H Hm N. assert (V : var_name v) by (rewrite Forall_forall in F; exact (F _ H)).
  assert (E : forall z, has_var (written ps +++ z) = true).
  { intro z. destruct (written_var ps v H) as [a [b ->]]. rewrite !sapp_assoc. apply has_var_complete. exact V. }
  assert (G : forall z, str_format vars z = Raise ValueError -> str_format vars (written ps +++ z) = Raise ValueError).
  { clear H E. intros z Hz. revert t Hm. induction F as [|p ps Hp _ IH]; intros t Hm; [exact Hz|].
    destruct p as [s0|w| |]; cbn [written meant] in *.
    - rewrite sapp_assoc. rewrite format_lit by exact Hp. destruct (meant vars ps) as [t0|]; [|discriminate]. now rewrite (IH t0 eq_refl).
    - rewrite !sapp_assoc. rewrite format_var by exact Hp. rewrite (word_value _ _ Hp).
      destruct (dget String.eqb vars w); [|discriminate]. destruct (meant vars ps) as [t0|]; [|discriminate]. cbn [rbind]. now rewrite (IH t0 eq_refl).
    - rewrite sapp_assoc, format_open. destruct (meant vars ps) as [t0|]; [|discriminate]. now rewrite (IH t0 eq_refl).
    - rewrite sapp_assoc, format_close. destruct (meant vars ps) as [t0|]; [|discriminate]. now rewrite (IH t0 eq_refl). }
  unfold interpolate_string. rewrite !E. split; [|split].
  - intro Ne. rewrite G; [reflexivity|]. destruct s as [|c s]; [congruence|]. apply nb_head in N as [N1 [N2 N3]].
    unfold str_format. cbn [String.append format_go]. change (is_brace_open "}") with false. change (is_brace_close "}") with true. cbn iota. now rewrite N2.
  - rewrite G; reflexivity.
  - rewrite G; [reflexivity|]. unfold str_format. cbn [String.append format_go]. change (is_brace_open "{") with true. cbn iota.
    destruct s as [|c s]; [reflexivity|]. apply nb_head in N as [N1 [N2 N3]]. cbn [format_go]. rewrite N1, N2.
    generalize (String c ""). induction s as [|c' s IH]; intro acc; [reflexivity|]. apply nb_head in N3 as [M1 [M2 M3]].
    cbn [format_go]. rewrite M1, M2. apply IH. exact M3.
Qed.
Print Assumptions C66_lone_brace.
Example C66_braces_nonvacuous :
  Forall part_ok [PVar "D"; PLit "/x"; POpen; PLit "1"; PClose] /\
  written [PVar "D"; PLit "/x"; POpen; PLit "1"; PClose] = "{D}/x{{1}}" /\
  interpolate_string [("D", "/d")] "{D}/x{{1}}" = Ok "/d/x{1}" /\
  interpolate_string [("D", "/d")] "{D}/{{D}}" = Raise (AppExc 8000) /\
  interpolate_string [("D", "/d")] "{D}/}x" = Raise ValueError.
Proof.
  split; [|repeat split; reflexivity].
  constructor; [split; [discriminate|reflexivity]|]. constructor; [reflexivity|]. constructor; [exact I|]. constructor; [reflexivity|]. constructor; [exact I|constructor].
Qed.

(** ** C23: a user file that is not JSON stops the program with 8200 *)
Theorem C23_not_json : forall global descr init, merge_with_user_conf global descr init (Some None) = Raise (AppExc 8200).
Proof. reflexivity. Qed.
Print Assumptions C23_not_json.
(** the only contents that are accepted: an object, or an empty array or text *)
Theorem C23_accepted : forall global descr init j c, merge_with_user_conf global descr init (Some (Some j)) = Ok c ->
  c_file c = Some j /\ c_user c = j /\
  ((exists d, j = JObj d) \/ ((j = JArr [] \/ j = JStr "") /\ c_vars c = global)).
Proof.
  intros global descr init j c. unfold merge_with_user_conf. cbn [conf_load rbind].
  destruct j as [| | |s|l|d]; cbn [vars_update]; try discriminate.
  - destruct (String.eqb_spec s ""); [|discriminate]. subst s. cbn [rbind]. intros [= <-]. cbn. auto 6.
  - destruct l; [|discriminate]. cbn [rbind]. intros [= <-]. cbn. auto 6.
  - cbn [rbind]. intros [= <-]. cbn. eauto 6.
Qed.
Print Assumptions C23_accepted.
Example C23_accepted_nonvacuous : exists c, merge_with_user_conf [("k", JNull)] "d" [] (Some (Some (JObj [("x", JStr "y")]))) = Ok c.
Proof. eexists. reflexivity. Qed.

(** ** C26: removing the last entry of the user's file *)
(** full statement: after the removal the next process can read the registry *)
Definition C26_removed_full : Prop := forall e g f g2, geo_loaded e g -> g2 = geo_remove g f -> exists g3, geo_reload e g2 = Ok g3.
Theorem C26_last_removed_refuted : ~ C26_removed_full.
Proof.
  intro H. destruct (H ex_env (ex_geo [("/data/a.grb", "G")] [("G", "a.grb")]) "a.grb" (geo_remove (ex_geo [("/data/a.grb", "G")] [("G", "a.grb")]) "a.grb")) as [g3 E]; [|reflexivity|vm_compute in E; discriminate].
  unfold geo_loaded. split; [repeat constructor; cbn; tauto|split; reflexivity].
Qed.
Print Assumptions C26_last_removed_refuted.
(** the exact part: a removal takes out the first entry with that file name and
    no other, and the next process reads what is left, unless nothing is left *)
Theorem C26_removed_partial : forall e g f, geo_loaded e g ->
  ((forall k : string, ~ In (k, f) (g_user g)) -> exists g3 : geo, geo_reload e (geo_remove g f) = Ok g3 /\ g_user g3 = g_user g) /\
  (forall (p : list (string * string)) (k : string) (q : list (string * string)), g_user g = (p ++ (k, f) :: q)%list -> Forall (fun kv => snd kv <> f) p ->
     ((p ++ q)%list = [] -> geo_reload e (geo_remove g f) = Raise ValueError) /\
     ((p ++ q)%list <> [] -> exists g3, geo_reload e (geo_remove g f) = Ok g3 /\ Permutation (g_user g3) (p ++ q)%list)).
Proof.
  intros e g f [Hn [Hf Hv]]. split.
  - intro H. unfold geo_remove. destruct (key_of (g_user g) f) as [k|] eqn:E.
    + exfalso. apply key_of_spec in E as [p [q [E _]]]. apply (H k). rewrite E. apply in_or_app. right. now left.
    + unfold geo_reload. rewrite Hf. eexists. split; reflexivity.
  - intros p k q Hu Fp. unfold geo_remove.
    assert (E : key_of (g_user g) f = Some k).
    { rewrite Hu. clear -Fp. induction Fp as [|[k0 v0] p H _ IH]; cbn [app key_of].
      - now rewrite String.eqb_refl.
      - cbn [snd] in H. apply String.eqb_neq in H. now rewrite H. }
    assert (D : ddel String.eqb (g_user g) k = (p ++ q)%list).
    { rewrite Hu in *. clear -Hn. induction p as [|[k0 v0] p IH]; cbn [app ddel] in *.
      - now rewrite String.eqb_refl.
      - inversion Hn as [|? ? N1 N2]; subst. destruct (String.eqb_spec k k0) as [->|_].
        + exfalso. apply N1. change (In (fst (k0, f)) (map fst (p ++ (k0, f) :: q))). apply in_map. apply in_or_app. right. now left.
        + f_equal. apply IH. exact N2. }
    rewrite E. cbn zeta. rewrite D. split; intro H.
    + rewrite H. reflexivity.
    + unfold geo_reload. cbn [g_file]. rewrite (geo_dump_some _ H). eexists. split; [reflexivity|]. cbn [g_user]. apply sort_str_perm.
Qed.
Print Assumptions C26_removed_partial.
Example C26_removed_nonvacuous : geo_loaded ex_env (ex_geo [("/data/a.grb", "G")] [("description", "d"); ("G", "a.grb")]) /\
  exists g3, geo_reload ex_env (geo_remove (ex_geo [("/data/a.grb", "G")] [("description", "d"); ("G", "a.grb")]) "a.grb") = Ok g3 /\ g_user g3 = [("description", "d")].
Proof.
  split; [unfold geo_loaded; split; [|split; reflexivity]; repeat constructor; cbn; intuition discriminate|].
  eexists. split; reflexivity.
Qed.
