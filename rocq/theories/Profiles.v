(** Which profiles there are: /repo/zielen/commandbase.py. *)
From Verif Require Export FS Command.
From stdpp Require Import options.

(** commandbase.py 58-63, [Command.__init__]: the profiles directory [d] (paths.py
    42-47) is created if it is missing, and the profiles are the directories in it;
    links are not followed.  The names only; [Profile.__init__] does nothing but
    set attributes. *)
Definition find_profiles (now : Z) (d : path) : M fs (list str) :=
  makedirs now d ;!
  es ←! eval (λ m, scandir m d);
  ret (map fst (List.filter (λ e, is_Dir e.2) es)).

(** commandbase.py 58-63 and 73-95: a command that selects a profile. *)
Definition find_profile (now : Z) (d : path) (exists_input : bool) (input : str) : M fs selection :=
  l ←! find_profiles now d;
  ret (select_profile l exists_input input).

(** profile.py 62 and 99: [init] makes the directory of the profile, after the name
    has been accepted (init.py 77-82).
    Simplification: of what the command does only this directory is in the result;
    the files in it are in Life.v. *)
Definition add_profile (now : Z) (d : path) (s : str) : M fs unit :=
  find_profiles now d ;!
  makedirs now (path_comps (profile_dir (abs_path d) s)).
(** reset.py 37-41 and 109: [reset] selects the profile and removes its directory.
    Simplification: of what the command does only this is in the result.  The two
    errors of [select_profile] are not told apart. *)
Definition remove_profile (now : Z) (d : path) (ex : str → bool) (s : str) : M fs unit :=
  r ←! find_profile now d (ex s) s;
  match r with
  | Selected n => rmtree (path_comps (profile_dir (abs_path d) n))
  | _ => throw InputErr
  end.

(** Commands one after the other, as a user runs them. *)
Inductive pcmd := PAdd (s : str) | PRemove (s : str).
Definition run_pcmd (now : Z) (d : path) (ex : str → bool) (m : fs) (c : pcmd) : fs :=
  (match c with PAdd s => add_profile now d s | PRemove s => remove_profile now d ex s end m).1.2.
Definition run_pcmds (now : Z) (d : path) (ex : str → bool) (m : fs) (cs : list pcmd) : fs := foldl (run_pcmd now d ex) m cs.
