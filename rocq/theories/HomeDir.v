(** The directories that the values of LocalDir and RemoteDir stand for:
    [os.path.expanduser] (posixpath, CPython 3.5/3.6), /repo/zielen/profile.py
    208-218 and /repo/zielen/utils.py 108-117. *)
From Verif Require Export Config PosixPath.
From stdpp Require Import options.

Definition c_tilde : char := 126%N.

(** [os.path.expanduser].  [home] is the environment variable HOME (or the
    entry of the password database when it is not set), [users] the directories
    of the other users. *)
Definition expanduser (home : str) (users : str → option str) (p : str) : str :=
  match p with
  | c :: r =>
      if N.eqb c c_tilde then
        let name := take_while not_slash r in
        match (match name with [] => Some home | _ => users name end) with
        | None => p
        | Some h =>
            match rstrip_by is_slash h ++ drop (length name) r with
            | [] => [c_slash]
            | q => q
            end
        end
      else p
  | [] => []
  end.

(** profile.py 208-212, [local_path], and 214-218, [remote_path]: both do this
    to the value in the configuration file. *)
Definition dir_of_value (home : str) (users : str → option str) (value : str) : str :=
  expanduser home users (normpath value).

(** paths.py 22-24, [get_home_dir] *)
Definition get_home_dir (home : str) (users : str → option str) : str :=
  expanduser home users [c_tilde; c_slash].

(** [os.path.relpath(path, start)] for two absolute path names.
    Simplification: [abspath] only normalizes those; with a relative one the
    result would depend on the working directory. *)
Definition slash_comps (p : str) : list str :=
  List.filter (λ c, negb (bool_decide (c = []))) (split_on c_slash p).
Definition relpath_of (p start : str) : str :=
  let s := slash_comps (normpath start) in
  let q := slash_comps (normpath p) in
  let n := length (common_prefix s q) in
  match replicate (length s - n) dotdot ++ drop n q with
  | [] => dot
  | l => join_on c_slash l
  end.

(** utils.py 108-117, [contract_user] *)
Definition contract_user (home : str) (users : str → option str) (p : str) : str :=
  pjoin [c_tilde] (relpath_of p (get_home_dir home users)).
