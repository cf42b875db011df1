(** Which files the accesses that the daemon sees are counted for:
    /repo/zielen/daemon.py 80-114. *)
From Verif Require Export HomeDir.
From stdpp Require Import options.

(** An event of pyinotify in the queue (daemon.py 85-86, 100): the path name,
    whether it concerns a directory, and the time.
    Simplification: [ev_name] is given; pyinotify makes it of the watched
    directory and the name in it. *)
Record event := Event { ev_name : str; ev_dir : bool; ev_time : Z }.

(** daemon.py 101-105: the loop over [watch_paths].  The outer [None] is the
    ValueError of [commonpath]; the inner one says that there was no [break], so
    that [rel_path] keeps its value. *)
Fixpoint rel_of (watch : list str) (name : str) : option (option str) :=
  match watch with
  | [] => Some None
  | d :: watch' =>
      match commonpath name d with
      | None => None
      | Some c => if bool_decide (c = d) then Some (Some (relpath_of name d)) else rel_of watch' name
      end
  end.

(** daemon.py 97-112: the accesses that are handed on, for the events in the
    queue.  [rel] is the variable [rel_path], which is not reset between events or
    rounds; [None] when it has not been assigned.  [known] says whether
    [get_path_info] finds a row (profile.py, [get_path_info]; a busy database is in
    Daemon.v).  The result [None] is an exception, which ends the daemon. *)
Fixpoint accessed (watch : list str) (known : str → bool) (rel : option str) (evs : list event)
  : option (option str * list (str * Z)) :=
  match evs with
  | [] => Some (rel, [])
  | e :: evs' =>
      match rel_of watch (ev_name e) with
      | None => None
      | Some o =>
          let rel' := match o with Some x => Some x | None => rel end in
          if ev_dir e then accessed watch known rel' evs' else
          match rel' with
          | None => None
          | Some x =>
              match accessed watch known rel' evs' with
              | None => None
              | Some (rel'', l) => Some (rel'', if known x then (x, ev_time e) :: l else l)
              end
          end
      end
  end.
(** daemon.py 88-91: the watched directories of a profile. *)
Definition watch_paths (local_dir remote_dir : str) : list str := [local_dir; remote_dir].
