(** /repo/zielen/commands/init.py and reset.py as far as they handle the files
    of the two directories, and the [setup] methods of filelogic.py.  The
    checks of the arguments and of the profile are in [Command]. *)
From Coq Require Import QArith Qcanon.
From Verif Require Export Sync.
From stdpp Require Import options.

(** userdata.py 166-176, [RemoteSyncDir.generate].  Simplification: the
    database file is not part of the file tree; creating it changes nothing
    when it exists already. *)
Definition generate (C : conf) : M world unit :=
  fsm (makedirs (c_now C) (exclude_dir C)) ;!
  fsm (makedirs (c_now C) (trash_dir C)).

(** filelogic.py 462-467 and 492-497: the links of a scan that cannot be
    transferred. *)
Definition unsafe_links (m : fs) (root : path) (s : nmap) : pset :=
  filter (λ p, unsafe_link m (root ++ p) root = true) (dom (filter (λ kv, is_Link kv.2 = true) s)).

(** filelogic.py 438-458, [_setup_dir] *)
Definition setup_dir (C : conf) (unsafe : pset) : M world unit :=
  rs ←! remote_scan C true;
  let files := c_iter C (elements (dom (no_dirs rs) ∖ unsafe)) in
  rs ←! remote_scan C true;
  let dirs := c_iter C (elements (dom (only_dirs rs))) in
  ldb_do (λ d, sl_add d files dirs 0%Qc false) ;!
  rdb_do (λ d, sr_add d files dirs (c_now C)) ;!
  ldb ←! get v_ldb;
  fsm (symlink_tree (c_now C) (c_iter C) (c_R C) (c_L C)
         (dom (sl_get ldb None (Some false) None)) (dom (sl_get ldb None (Some true) None)) true) ;!
  ret tt.

(** filelogic.py 460-488, [setup_from_local].  [fits]: the local files need
    no more than the free space of the remote directory; the sizes of file
    systems are not modelled. *)
Definition setup_from_local (C : conf) (fits : bool) : M world unit :=
  ls ←! local_scan C true;
  m ←! get w_fs;
  let unsafe := unsafe_links m (c_L C) ls in
  _ ←! local_scan C true;
  if negb fits then throw AvailableSpaceErr else
  remote_guard C (
    ex ←! excluded C;
    fsm (transfer_tree (c_now C) (c_tty C) (c_L C) (c_R C) None (ex ∪ unsafe) false)) ;!
  setup_dir C unsafe.

(** filelogic.py 490-499, [setup_from_remote] *)
Definition setup_from_remote (C : conf) : M world unit :=
  rs ←! remote_scan C true;
  m ←! get w_fs;
  setup_dir C (unsafe_links m (c_R C) rs).

(** init.py 147-160: the part of [InitCommand.main] that handles the files. *)
Definition init_files (C : conf) (add_remote fits : bool) : M world unit :=
  generate C ;!
  (if add_remote then setup_from_remote C else setup_from_local C fits) ;!
  add_exclude_file C.
(** init.py 147-167: from the first change of a file to the end.  The profile's
    files are written as at the end of a sync ([sync_finish]). *)
Definition init_main (C : conf) (add_remote fits : bool) : M world unit :=
  init_files C add_remote fits ;! sync_finish C.

(** reset.py 98-106: whether a link of the local directory leads to the remote
    directory.  The destination is compared as it is written. *)
Definition leads_into (t : list N) (full remote : list N) : bool :=
  let dest := if isabs t then t else pjoin (dirname full) t in
  bool_decide (commonpath dest remote = Some remote).
Definition unlink_one (C : conf) (p : path) : M fs unit :=
  t ←! eval (λ m, match readlink m (c_L C ++ p) with Some t => Ok t | None => Err EOther end);
  if leads_into t (abs_path (c_L C ++ p)) (abs_path (c_R C)) then FS.remove (c_L C ++ p) else ret tt.
Definition unlink_all (C : conf) : M world unit :=
  ls ←! local_scan C true;
  for_ (c_iter C (elements (dom (filter (λ kv : path * node, is_Link kv.2 = true) ls)))) (λ p, fsm (unlink_one C p)).

(** userdata.py 201-210, [rm_exclude_file] *)
Definition rm_exclude_file (C : conf) : M world unit :=
  fsm (catch (FS.remove (exclude_dir C ++ [c_id C])) (λ e, match e with FileNotFound => Some (ret tt) | _ => None end)).

(** reset.py 85-92: the remote directory is emptied.  [entry.is_dir] is the
    method itself, which is true, so [os.remove] is never reached.
    Simplification: the entries are listed before the first is deleted, and
    the database stays in the model. *)
Definition empty_remote (C : conf) : M world unit :=
  fsm (catch (es ←! eval (λ m, scandir m (c_R C)); for_ (map fst es) (λ x, rmtree (c_R C ++ [x])))
         (λ e, match e with FileNotFound => Some (ret tt) | _ => None end)).

(** reset.py 53-92: getting the files back. *)
Definition retrieve (C : conf) (keep_remote fits : bool) : M world unit :=
  _ ←! remote_scan C true;
  if negb fits then throw AvailableSpaceErr else
  rdb ←! get v_rdb;
  remote_guard C (fsm (transfer_tree (c_now C) (c_tty C) (c_R C) (c_L C)
                         (Some (c_iter C (elements (dom (sr_get rdb None None None))))) ∅ (negb keep_remote))) ;!
  if keep_remote then ret tt else
  rs ←! remote_scan C false;
  if decide (no_dirs rs = ∅) then empty_remote C else throw TransferErr.

(** reset.py 44-109, [ResetCommand.main].  The profile directory, which is
    removed at the end, is not part of the model. *)
Definition reset_main (C : conf) (keep_remote no_retrieve fits : bool) : M world unit :=
  (if no_retrieve then ret tt else retrieve C keep_remote fits) ;!
  unlink_all C ;!
  rm_exclude_file C.
