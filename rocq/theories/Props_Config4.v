(** * C22: the exact content read from properties files *)
From Verif Require Import Base PyStr Json Config Spec_Config Spec_Config4 Base_P PyStr_P Config_P Props_Config2.
From Coq Require Import String Ascii List Lia.
Import ListNotations.
Local Open Scope string_scope.

Lemma split_before_eq b : hd "" (split_on is_eq b) = before_eq b.
Proof.
  unfold before_eq. pose proof (split_cut b) as H. destruct (cut_eq b) as [[a r]|]; [|rewrite H; reflexivity].
  destruct H as [w [t [E _]]]. rewrite E. reflexivity.
Qed.

Lemma load_lines_exact lines : Forall (fun l => meaningful l = true -> (1 <= count_eq (strip_ws l))%nat) lines -> forall props,
  exists d, foldM load_line lines props = Ok d /\
  forall k, dget String.eqb d k =
    fold_left (fun acc l => match line_gives l with Some (k', v) => if String.eqb k k' then Some v else acc | None => acc end) lines (dget String.eqb props k).
Proof.
  induction 1 as [|l r Hl Hr IH]; intro props; cbn [foldM fold_left].
  - eexists. split; reflexivity.
  - rewrite load_line_spec. destruct (meaningful l) eqn:Em.
    + destruct (cut_eq (strip_ws l)) as [[a b]|] eqn:E.
      2:{ apply cut_none in E. specialize (Hl eq_refl). lia. }
      cbn [rbind]. rewrite split_before_eq.
      destruct (IH (dset String.eqb props (strip_ws a) (strip trimmed (before_eq b)))) as [d [Hd Hg]].
      exists d. split; [exact Hd|]. intro k. rewrite Hg. rewrite dget_dset by apply String_eqb_spec'.
      unfold line_gives. rewrite Em, E. destruct (String.eqb k (strip_ws a)); reflexivity.
    + cbn [rbind]. destruct (IH props) as [d [Hd Hg]]. exists d. split; [exact Hd|]. intro k. rewrite Hg. unfold line_gives. rewrite Em. reflexivity.
Qed.

Lemma given_from lines k : forall acc,
  fold_left (fun acc l => match line_gives l with Some (k', v) => if String.eqb k k' then Some v else acc | None => acc end) lines acc =
  match last_given lines k with Some v => Some v | None => acc end.
Proof.
  unfold last_given. induction lines as [|l r IH]; intro acc; cbn [fold_left]; [reflexivity|].
  destruct (line_gives l) as [[k' v]|]; [|apply IH].
  destruct (String.eqb k k'); [|apply IH]. rewrite (IH (Some v)). destruct (fold_left _ r None); reflexivity.
Qed.

(** files, read one after the other: every key has what the last line that
    defines it gives *)
Theorem C22_exact : forall files, Forall (fun lines => lines <> [] /\ Forall one_line lines /\
    Forall (fun l => meaningful l = true -> (1 <= count_eq (strip_ws l))%nat) lines) files ->
  exists d, load_all (map (join newline) files) = Ok d /\ forall k, dget String.eqb d k = last_given (List.concat files) k.
Proof.
  intros files H. unfold load_all, last_given.
  enough (G : forall d0, exists d, foldM (fun vars t => do p <- load_properties t; Ok (dupdate String.eqb vars p)) (map (join newline) files) d0 = Ok d /\
    forall k, dget String.eqb d k = fold_left (fun acc l => match line_gives l with Some (k', v) => if String.eqb k k' then Some v else acc | None => acc end)
      (List.concat files) (dget String.eqb d0 k)) by (destruct (G []) as [d [Hd Hg]]; exists d; split; [exact Hd|exact Hg]).
  induction H as [|lines files [Hne [H1 H2]] _ IH]; intro d0; cbn [map foldM List.concat].
  - exists d0. split; reflexivity.
  - destruct (load_lines_exact lines H2 []) as [p [Hp Hk]].
    assert (Hp' : load_properties (join newline lines) = Ok p) by (unfold load_properties; rewrite split_join_lines by assumption; exact Hp).
    rewrite Hp'. cbn [rbind].
    destruct (IH (dupdate String.eqb d0 p)) as [d [Hd Hg]]. exists d. split; [exact Hd|].
    intro k. rewrite Hg, fold_left_app, (given_from lines), (dget_update _ _ _ (load_properties_NoDup _ _ Hp')), Hk.
    reflexivity.
Qed.
Print Assumptions C22_exact.

(** two files: a comment, a value cut at its second equals sign, a definition
    of the second file that wins *)
Example C22_exact_nonvacuous :
  let files := [["# paths"; "A = ""/data"""; ""; "URL=http://x?q=1"; "  # note"]; ["B=two words "; "A=/other"]] in
  Forall (fun lines => lines <> [] /\ Forall one_line lines /\
    Forall (fun l => meaningful l = true -> (1 <= count_eq (strip_ws l))%nat) lines) files /\
  last_given (List.concat files) "A" = Some "/other" /\ last_given (List.concat files) "URL" = Some "http://x?q" /\
  last_given (List.concat files) "B" = Some "two words" /\ last_given (List.concat files) "C" = None.
Proof.
  cbn zeta. split; [|vm_compute; repeat split].
  repeat (apply Forall_cons; [|]); try apply Forall_nil.
  all: split; [discriminate|split]; repeat (apply Forall_cons; [|]); try apply Forall_nil; try (vm_compute; reflexivity); intro H; first [vm_compute; lia|vm_compute in H; discriminate].
Qed.
