(** The main loop of the daemon, from the events to the increments:
    /repo/zielen/daemon.py 93-153. *)
From Verif Require Export Watch Daemon.
From stdpp Require Import options.

(** One round of the loop: the events in the queue, which paths have a row in the
    database, the time at which old times are forgotten, and how the database
    answers (Daemon.v). *)
Record turn := Turn { tn_events : list event; tn_known : str → bool; tn_now : Z; tn_answer : answer }.

(** daemon.py 96-114 for each round.  [rel] is the variable [rel_path]; [None] when
    an exception ends the daemon.
    Simplification: paths in the database are lists of components (Path.v). *)
Fixpoint rounds_of (watch : list str) (rel : option str) (ts : list turn) : option (list round) :=
  match ts with
  | [] => Some []
  | t :: ts' =>
      match accessed watch (tn_known t) rel (tn_events t) with
      | None => None
      | Some (rel', l) =>
          match rounds_of watch rel' ts' with
          | None => None
          | Some rs => Some (Round (map (λ a, (split_on c_slash a.1, a.2)) l) (tn_now t) (tn_answer t) :: rs)
          end
      end
  end.
(** daemon.py 93-153: the state after the rounds. *)
Definition daemon_loop (watch : list str) (ts : list turn) : option daemon := daemon_run <$> rounds_of watch None ts.
