(** The checks of the two directories before an initialization:
    /repo/zielen/fstools.py 239-264 and /repo/zielen/commands/init.py 132-145. *)
From Verif Require Export FS.
From stdpp Require Import options.

(** The messages of [check_dir], in the order of the code. *)
Inductive complaint := CNoAccess | CNotEmpty | CNotDir | CNoAccessAbove | CMissing.
Inductive checked := Accepted | Refused (c : complaint) | Raised (e : exn).
Inductive made := Made | MadePerm (* PermissionError *) | MadeErr (e : exn).

Section check.
  (** [may q]: the user may write to the directory [q] (access(2), mkdir(2));
      FS has no permissions.  [now]: the time. *)
  Context (may : path → bool) (now : Z).

  (** mkdir(2) with permissions *)
  Definition mkdir_perm (p : path) (m : fs) : fs * made :=
    match resolve false m p with
    | Err x => (m, MadeErr x)
    | Ok q => match node_at m q with
              | Some _ => (m, MadeErr FileExists)
              | None => if may (parent q) then (<[q := Dir now]> m, Made) else (m, MadePerm)
              end
    end.
  (** [os.makedirs(p)] (os.py 195-230 of CPython 3.5, exist_ok=False); the list is the
      reversed path. *)
  Fixpoint makedirs_new (rp : path) (m : fs) : fs * made :=
    match rp with
    | [] => (m, MadeErr FileExists)
    | _ :: rhead =>
        let '(m1, r) :=
          if exists_ m (rev rhead) then (m, Made)
          else match makedirs_new rhead m with (m1, MadeErr FileExists) => (m1, Made) | x => x end in
        match r with Made => mkdir_perm (rev rp) m1 | _ => (m1, r) end
    end.
  (** fstools.py 239-264 *)
  Definition check_dir (p : path) (expect_empty : bool) (m : fs) : fs * checked :=
    if exists_ m p then
      match resolve true m p with
      | Err x => (m, Raised x)
      | Ok q =>
          if isdir m p then
            if negb (may q) then (m, Refused CNoAccess)
            else if expect_empty && negb (bool_decide (entries m q = [])) then (m, Refused CNotEmpty)
            else (m, Accepted)
          else (m, Refused CNotDir)
      end
    else if expect_empty then
      match makedirs_new (rev p) m with
      | (m', Made) => (m', Accepted)
      | (m', MadePerm) => (m', Refused CNoAccessAbove)
      | (m', MadeErr x) => (m', Raised x)
      end
    else (m, Refused CMissing).
  (** init.py 132-145; the check of overlapping profiles (136-138, [verify_local_dir]
      in Command.v) is left out. *)
  Definition init_checks (local remote : path) (add_remote : bool) (m : fs) : fs * checked :=
    match check_dir local add_remote m with
    | (m1, Accepted) => check_dir remote (negb add_remote) m1
    | x => x
    end.
End check.
