(** What the installation of a release is expected to do to files. *)
From Coq Require Import List String Bool Ascii.
From Verif Require Import Base PyStr Spec_Config Install.
Import ListNotations.
Open Scope string_scope.

(** The three places files are put in. *)
Definition user_file (home n : string) : string := home +++ "/.pyg2p/" +++ n.
Definition sample_file (home n : string) : string := home +++ "/.pyg2p/templates_samples/" +++ n.
Definition global_file (prefix n : string) : string := prefix +++ "/pyg2p/configuration/" +++ n.

(** An absolute folder (the home of the user). *)
Definition absolute (d : string) : Prop := exists t, d = "/" +++ t.
(** A folder written without slash at its end (the installation prefix). *)
Definition no_end_slash (d : string) : Prop := d <> "" /\ ~ exists t, d = t +++ "/".
(** The release lists names of files, which hold no slash. *)
Definition listed (rl : release) : Prop :=
  Forall plain_name (rl_templates rl) /\ Forall plain_name (rl_user rl) /\ Forall plain_name (rl_global rl).
Definition is_json (n : string) : Prop := exists t, n = t +++ ".json".

(** The user does nothing to [p] in this step, and installed releases are well formed. *)
Definition leaves (p : string) (d : doing) : Prop :=
  match d with
  | Install prefix rl => no_end_slash prefix /\ listed rl
  | Write q _ => q <> p
  | Remove q => q <> p
  end.
Definition content (fs : ifs) (p : string) : option string := dget String.eqb fs p.
