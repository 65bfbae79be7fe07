(** Installation of the package: the data files setup.py selects.

    Simplified: the file system is the finite map of the regular files it
    holds (path to content), so that [exists(pathname)] of setup.py:103-104 is
    membership (a folder whose name ends in .json counts as absent, as it does
    in the code); [create_dir(user_conf_dir)] (setup.py:112) makes a folder and
    no file. What setuptools does with [data_files] is not code of the
    repository: it is taken as documented, every listed file is copied under its
    base name into the listed folder, a relative folder being inside the
    installation prefix. *)
From Coq Require Import List String Bool Ascii.
From Verif Require Import Base PyStr Writers Config Interp.
Import ListNotations.
Open Scope string_scope.

Definition ifs := list (string * string).

(** The release being installed: the names [os.listdir] returns for the three
    folders of setup.py:113-116, and the content of the file of a given path. *)
Record release := {
  rl_templates : list string;  (* ./templates *)
  rl_user : list string;       (* ./configuration *)
  rl_global : list string;     (* ./configuration/global *)
  rl_text : string -> string
}.

(** setup.py:103-104 exists, [is_folder=False] *)
Definition exists_file (fs : ifs) (p : string) : bool :=
  match dget String.eqb fs p with Some _ => true | None => false end.

(** setup.py:113-116: the JSON files of one folder *)
Definition json_files (t : string) (names : list string) : list string :=
  map (path_join t) (filter (ends_with ".json") names).

(** setup.py:111 *)
Definition user_conf_dir (home : string) : string := home +++ "/.pyg2p/".
(** setup.py:120, 126 *)
Definition samples_dir (home : string) : string := path_join (user_conf_dir home) "templates_samples".

(** setup.py:110-127 setup_data_files *)
Definition setup_data_files (home : string) (rl : release) (fs : ifs) : list (string * list string) :=
  let for_user_to_copy :=
    filter (fun f => negb (exists_file fs (path_join (user_conf_dir home) (basename f))))
           (json_files "./configuration" (rl_user rl)) in
  let templates_to_copy :=
    filter (fun f => negb (exists_file fs (path_join (path_join (user_conf_dir home) "templates_samples") (basename f))))
           (json_files "./templates" (rl_templates rl)) in
  let data_files := [("pyg2p/configuration/", json_files "./configuration/global" (rl_global rl))] in
  let data_files := match for_user_to_copy with
                    | [] => data_files
                    | _ => (data_files ++ [(user_conf_dir home, for_user_to_copy)])%list
                    end in
  match templates_to_copy with
  | [] => data_files
  | _ => (data_files ++ [(samples_dir home, templates_to_copy)])%list
  end.

(** setup.py:186-188 [setup_data_files(setup_args); setup( **setup_args )]: the
    files put in place *)
Definition copy_one (rl : release) (dir : string) (fs : ifs) (f : string) : ifs :=
  dset String.eqb fs (path_join dir (basename f)) (rl_text rl f).
Definition copy_into (prefix : string) (rl : release) (fs : ifs) (d : string * list string) : ifs :=
  fold_left (copy_one rl (path_join prefix (fst d))) (snd d) fs.
Definition install (home prefix : string) (rl : release) (fs : ifs) : ifs :=
  fold_left (copy_into prefix rl) (setup_data_files home rl fs) fs.

(** What happens to the files over time: releases are installed, and the user
    writes or removes files. *)
Inductive doing := Install (prefix : string) (rl : release) | Write (p text : string) | Remove (p : string).
Definition do_one (home : string) (fs : ifs) (d : doing) : ifs :=
  match d with
  | Install prefix rl => install home prefix rl fs
  | Write p t => dset String.eqb fs p t
  | Remove p => filter (fun kv => negb (String.eqb (fst kv) p)) fs
  end.
Definition do_all (home : string) (fs : ifs) (h : list doing) : ifs := fold_left (do_one home) h fs.
