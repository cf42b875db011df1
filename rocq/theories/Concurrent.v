(** Two clients that sync at the same time.  The lock of a command is an abstract
    Unix domain socket named after the user and the profile (commandbase.py
    114-135): it excludes neither other machines nor other profiles of the same
    remote directory. *)
From Coq Require Import QArith Qcanon.
From Verif Require Import Sync.
From stdpp Require Import options.

(** sync.py 59-141: [SyncCommand.main] with something else, [between_], that
    happens when it has looked for changes.  [sync_main] is the case in which
    that is a change of files, see [sync_with_main]. *)
Definition sync_with (C : conf) (between_ : M world unit) : M world unit :=
  d ←! sync_detect C;
  let '(new, del, mod_) := d in
  between_ ;!
  rm_local_files C del.1.1 ;!
  rm_remote_files C del.1.2 ;!
  trash_files C del.2 ;!
  upd ←! handle_conflicts C (mod_.1 ∪ new.1) (mod_.2 ∪ new.2);
  add_both C upd.1 ∅ (upd.1 ∪ upd.2) ∅ ;!
  update_remote C upd.1 ;!
  ex ←! excluded C;
  rs ←! remote_scan C true;
  let remote_excluded := ex ∩ dom rs in
  esize ←! excluded_size C;
  sel ←! prioritize C (c_limit C - esize);
  update_local C (sel.1 ∪ sel.2 ∪ remote_excluded) ;!
  rm_excluded_files C remote_excluded ;!
  sync_cleanup C ;!
  sync_finish C.
Lemma sync_with_main C user : sync_with C (fsm user) = sync_main C user.
Proof. reflexivity. Qed.

(** The state of a client, whose own state is [own], that finds the files and
    the committed remote database of [shared]: what a command of it starts from
    (commandbase.py 97-112). *)
Definition seen_by (shared own : world) : world :=
  reboot (World (w_fs shared) (w_ldb own) (w_rdb shared) (w_last own) ∅ ∅ ∅ ∅ None).
(** sync.py 59-141, run by another client while a command of this one runs, which
    then sees the files and the remote database that the other one leaves.
    Simplification: the whole command is one step, and its intermediate states
    are left out.  Only for a moment at which this client has no uncommitted
    changes of the remote database, as the other one could not commit otherwise
    (userdata.py 272-275). *)
Definition other_sync (B : conf) (own : world) : M world unit := λ w,
  let w' := (sync_main B (ret tt) (seen_by w own)).1.2 in
  ([], World (w_fs w') (w_ldb w) (w_rdb w') (w_last w) (v_ldb w) (w_rdb w') (v_lscan w) (v_rscan w) (v_excl w), Ok tt).
