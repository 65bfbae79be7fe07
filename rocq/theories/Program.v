(** * Program: the whole program, from the arguments of the process to its exit
    status: src/pyg2p.py, src/pyg2p/main/__init__.py:13-39
    with the command line of Args.v. *)
From Verif Require Import Base Num PyStr Strings Config Context Args Reader Controller.
Local Open Scope string_scope.

(** [files]: the text of a JSON file, read (context.py:325-333, relative paths being resolved by the system; a file that is
    absent or is no JSON is None). A command line that is refused ends in the
    first handler of pyg2p_exe (lines 17-25); the help ends the process with
    status 0 (SystemExit is not an Exception). *)
Definition program (e : env) (fs : fsys) (o : ext) (files : string -> option json) (argv : list string) (w : world)
  : outcome * list action * cst :=
  match read_argv argv with
  | Raise _ => (Exit 1, [], cst0 w)
  | Ok HelpShown => (Exit 0, [], cst0 w)
  | Ok (Parsed a) => pyg2p_exe e fs o a (match a_commands a with Some p => files p | None => None end) w
  end.
