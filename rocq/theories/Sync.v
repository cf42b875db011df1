(** /repo/zielen/commands/sync.py and emptytrash.py. *)
From Coq Require Import QArith Qcanon.
From Verif Require Export FilesManager.
From stdpp Require Import options.

(** sync.py 81-91, 103-107: adding paths to the databases.  [add_inflated]
    fails on an empty database with a NOT NULL constraint (profile.py 613-645). *)
Definition add_inflated (C : conf) (files dirs : pset) : M world unit :=
  d ←! eval (λ w, match sl_add_inflated (v_ldb w) (c_iter C (elements files)) (c_iter C (elements dirs)) with
                  | Some d => Ok d
                  | None => Err IntegrityErr
                  end);
  mut (set_vldb d).
Definition add_both (C : conf) (inflate_files inflate_dirs files dirs : pset) : M world unit :=
  (if c_inflate C then add_inflated C inflate_files inflate_dirs else ret tt) ;!
  rdb_do (λ d, sr_add d (c_iter C (elements files)) (c_iter C (elements dirs)) (c_now C)) ;!
  ldb_do (λ d, sl_add d (c_iter C (elements files)) (c_iter C (elements dirs)) 0%Qc true).

(** sync.py 61-94: everything up to the first change of a file. *)
Definition sync_detect (C : conf) : M world (pset * pset * (pset * pset * pset) * (pset * pset)) :=
  _ ←! last_sync;
  add_exclude_file C ;!
  ls ←! local_scan C true;
  rs ←! remote_scan C true;
  let file_paths := dom (no_dirs ls) ∪ dom (no_dirs rs) in
  let dir_paths := dom (only_dirs ls) ∪ dom (only_dirs rs) in
  new ←! compute_added C;
  del ←! compute_deleted C;
  mod_ ←! compute_modified C;
  add_both C (new.1 ∖ dir_paths) (new.1 ∖ file_paths)
             ((new.1 ∪ new.2) ∖ dir_paths) ((new.1 ∪ new.2) ∖ file_paths) ;!
  ret (new, del, mod_).
(** sync.py 134-141: the end of a sync.  The information file is truncated
    before it is written (containerbase.py 107-110). *)
Definition sync_finish (C : conf) : M world unit :=
  put commit_r ;! put (set_last None) ;! put (set_last (Some (c_end C))) ;! put commit_l.
(** sync.py 133-135: an absent period and the period 0 are both false. *)
Definition sync_cleanup (C : conf) : M world unit :=
  match c_cleanup C with
  | Some p => if (p =? 0)%Z then ret tt else cleanup_trash C p
  | None => ret tt
  end.
(** sync.py 59-141, [SyncCommand.main].  [user] are changes that somebody makes
    to the files while the command runs, after it has looked for changes. *)
Definition sync_main (C : conf) (user : M fs unit) : M world unit :=
  d ←! sync_detect C;
  let '(new, del, mod_) := d in
  fsm user ;!
  rm_local_files C del.1.1 ;!
  rm_remote_files C del.1.2 ;!
  trash_files C del.2 ;!
  upd ←! handle_conflicts C (mod_.1 ∪ new.1) (mod_.2 ∪ new.2);
  add_both C upd.1 ∅ (upd.1 ∪ upd.2) ∅ ;!
  update_remote C upd.1 ;!
  ex ←! excluded C;
  rs ←! remote_scan C true;
  let remote_excluded := ex ∩ dom rs in
  esize ←! excluded_size C;
  sel ←! prioritize C (c_limit C - esize);
  update_local C (sel.1 ∪ sel.2 ∪ remote_excluded) ;!
  rm_excluded_files C remote_excluded ;!
  sync_cleanup C ;!
  sync_finish C.

(** emptytrash.py 36-51, [EmptyTrashCommand.main]: the number that is printed.
    Simplification: the entries are listed before the first is deleted. *)
Definition empty_one (C : conf) (x : list N) : M fs nat :=
  catch (FS.remove (trash_dir C ++ [x]) ;! ret 1) (λ e,
    match e with
    | IsADir => Some (rmtree (trash_dir C ++ [x]) ;! ret 1)
    | FileNotFound => Some (ret 0)
    | _ => None
    end).
Fixpoint empty_all (C : conf) (l : list (list N)) : M fs nat :=
  match l with
  | [] => ret 0
  | x :: l => a ←! empty_one C x; b ←! empty_all C l; ret (a + b)
  end.
Definition empty_trash (C : conf) : M fs nat :=
  es ←! eval (λ m, scandir m (trash_dir C));
  empty_all C (map fst es).
