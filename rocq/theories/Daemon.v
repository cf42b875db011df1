(** The daemon: /repo/zielen/daemon.py.

    Times are in microseconds.  The clock, the moments at which the threads
    run and the answers of the database are inputs. *)
From Coq Require Export Reals.
From stdpp Require Export gmap.
From Verif Require Export Path.
From stdpp Require Import options.
#[global] Open Scope Z_scope.

(** daemon.py 63: COOLDOWN_PERIOD. *)
Definition cooldown_period : Z := 1000000.

(** daemon.py 116-131: the loop over the accessed paths.  [None] and 0 are
    both false.  Returns the new cooldown times and the accesses that count. *)
Definition count_event (c : gmap path Z) (e : path * Z) : gmap path Z * list (path * Z) :=
  let counts := match c !! e.1 with
                | Some past => (past =? 0) || (past + cooldown_period <? e.2)
                | None => true
                end in
  if counts then (<[e.1 := e.2]> c, [e]) else (c, []).
Fixpoint count_events (c : gmap path Z) (es : list (path * Z)) : gmap path Z * list (path * Z) :=
  match es with
  | [] => (c, [])
  | e :: r =>
      let '(c1, l1) := count_event c e in
      let '(c2, l2) := count_events c1 r in (c2, l1 ++ l2)
  end.
(** daemon.py 133-139: forgetting old times. *)
Definition prune (now : Z) (c : gmap path Z) : gmap path Z :=
  filter (λ kv, now - cooldown_period < kv.2) c.

(** How the database answers in one round of the loop.  SQLite reports a busy
    database when looking up a path (daemon.py 109, outside of the 'try'), at
    the first UPDATE, which takes the write lock (adjusting or incrementing),
    or when committing, if somebody is still reading.  An UPDATE that was
    refused changes nothing; a commit that was refused leaves the transaction
    open. *)
Inductive answer := BusyLookup | BusyUpdate | BusyCommit | Free.

(** One round (daemon.py 96-153): the accesses found in the queue that concern
    files in the database, the time at which old times are forgotten, and
    what the database answers. *)
Record round := Round { rd_events : list (path * Z); rd_now : Z; rd_answer : answer }.

(** [d_open]: increments made in the open transaction.  [d_committed]:
    increments that other connections see.  [d_counted] is not part of the
    program; it records the accesses that passed the cooldown.  Priorities
    are represented by the list of increments made; the multiplication by
    [adjust_all] is below. *)
Record daemon := Daemon {
  d_cool : gmap path Z;
  d_pending : list path;
  d_open : list path;
  d_committed : list path;
  d_alive : bool;
  d_counted : list (path * Z)
}.
Definition daemon0 : daemon := Daemon ∅ [] [] [] true [].

(** daemon.py 96-153, one round.  An exception while looking up a path ends
    the daemon with an uncommitted transaction, which SQLite rolls back. *)
Definition daemon_round (d : daemon) (r : round) : daemon :=
  if negb (d_alive d) then d else
  match rd_answer r with
  | BusyLookup => Daemon (d_cool d) (d_pending d) [] (d_committed d) false (d_counted d)
  | a =>
      let '(c, l) := count_events (d_cool d) (rd_events r) in
      let pend := d_pending d ++ l.*1 in
      let c' := prune (rd_now r) c in
      let log := d_counted d ++ l in
      match a with
      | BusyCommit => Daemon c' pend (d_open d ++ pend) (d_committed d) true log
      | Free => Daemon c' [] [] (d_committed d ++ d_open d ++ pend) true log
      | _ => Daemon c' pend (d_open d) (d_committed d) true log
      end
  end.
Definition daemon_run (rs : list round) : daemon := foldl daemon_round daemon0 rs.

(** daemon.py 155-171, [_adjust], and profile.py 821-830, [adjust_all], on the
    real numbers.  [half_life] is [priority_half_life] (profile.py 255-258);
    [None] is ZeroDivisionError. *)
Definition adjust_interval : R := 600%R.
Definition adjust_constant (half_life : N) : option R :=
  if bool_decide (half_life = 0%N) then None
  else Some (Rpower (1 / 2) (adjust_interval / IZR (Z.of_N half_life))).
Definition adjust_all (c : R) (prios : gmap path R) : gmap path R :=
  (λ p, (p * c)%R) <$> prios.
Fixpoint adjustments (n : nat) (c : R) (prios : gmap path R) : gmap path R :=
  match n with O => prios | S n => adjustments n c (adjust_all c prios) end.

(** The info file (containerbase.py 88-110, profile.py 85-128) and its two
    users, the daemon (daemon.py 145-148, 155-171) and a running sync
    (commandbase.py 97-112 and sync.py 139-141).  Each has its own copy.  [DFail] and [SFail]: a round of
    the daemon or a sync ends with an exception instead of writing. *)
Record info := Info { i_sync : Z; i_adjust : Z }.
Inductive access :=
  | DRead | DAdjust (t : Z) | DWrite | DFail
  | SRead | SSync (t : Z) | SWrite | SFail.
Record shared := Shared { s_disk : info; s_daemon : info; s_sync : info }.
Definition access_step (s : shared) (a : access) : shared :=
  let '(Shared k d y) := s in
  match a with
  | DRead => Shared k k y
  | DAdjust t => Shared k (Info (i_sync d) t) y
  | DWrite => Shared d d y
  | SRead => Shared k d k
  | SSync t => Shared k d (Info t (i_adjust y))
  | SWrite => Shared y d y
  | DFail | SFail => s
  end.
Definition accesses (s : shared) (l : list access) : shared := foldl access_step s l.

(** daemon.py 173-196, [_sync]: wake-ups at [w_now] with the interval that is
    configured then; a sync started then ends at [w_end], failed or not. *)
Record wakeup := Wakeup { w_now : Z; w_interval : Z; w_end : Z }.
Definition sync_wakeup (last : Z) (w : wakeup) : Z * bool :=
  if last + w_interval w <=? w_now w then (w_end w, true) else (last, false).
(** The wake-ups, each with whether a sync was attempted. *)
Fixpoint sync_loop (last : Z) (ws : list wakeup) : list (wakeup * bool) :=
  match ws with
  | [] => []
  | w :: r => let '(last', b) := sync_wakeup last w in (w, b) :: sync_loop last' r
  end.
