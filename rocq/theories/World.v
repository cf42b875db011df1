(** The state that a command of the program works on, and the methods of
    [SyncDir] (/repo/zielen/userdata.py) and of [Profile]
    (/repo/zielen/profile.py) that the commands use.

    The databases are the maps of [DBSpec], which the tables refine (C11, C12).
    A change of a database is volatile until [write] commits it (profile.py
    125-128, userdata.py 178-180; only [create] commits by itself). *)
From Coq Require Import QArith Qcanon.
From Verif Require Export Fstools Priority Utils.
From stdpp Require Import options.

Notation pset := (gset path).
Notation lmap := (gmap path ldata).
Notation rmap := (gmap path rdata).
Notation nmap := (gmap path node).

(** What stays the same during a command: the configuration of the profile, the
    clock, the globbing function and the orders in which sets and dicts are
    listed.  [c_glob patterns m start] are the relative paths in the directory
    [start] that the patterns match, with everything below them
    (profile.py 342-404); it is an arbitrary function here, [Glob] is the real
    one.  [c_blocks] is [st_blocks * 512] of an entry, an arbitrary function.
    Simplification: the clock is read as [c_now] everywhere, except for the
    time of the sync that is written at the end, [c_end] (sync.py 140). *)
Record conf := Conf {
  c_L : path; c_R : path;
  c_limit : Z; c_account : bool; c_inflate : bool; c_trash : bool;
  c_cleanup : option Z;
  c_id : list N; c_patterns : list N;
  c_glob : list N → fs → path → pset;
  c_block : Z; c_blocks : path → node → Z;
  c_now : Z; c_end : Z; c_dt : datetime;
  c_iter : list path → list path;
  c_rows : list (path * ldata) → list (path * ldata);
  c_tty : bool
}.

(** Files and committed databases; [w_last] is "LastSync" of info.json, [None]
    for a file that cannot be parsed.  The rest is the memory of the running
    command: the databases with uncommitted changes, the cached scans
    ([_sub_entries]) and the cached matches ([_all_matches]). *)
Record world := World {
  w_fs : fs; w_ldb : lmap; w_rdb : rmap; w_last : option Z;
  v_ldb : lmap; v_rdb : rmap;
  v_lscan : nmap; v_rscan : nmap; v_excl : option pset
}.
Definition set_fs (m : fs) (w : world) : world :=
  World m (w_ldb w) (w_rdb w) (w_last w) (v_ldb w) (v_rdb w) (v_lscan w) (v_rscan w) (v_excl w).
Definition set_last (t : option Z) (w : world) : world :=
  World (w_fs w) (w_ldb w) (w_rdb w) t (v_ldb w) (v_rdb w) (v_lscan w) (v_rscan w) (v_excl w).
Definition set_vldb (d : lmap) (w : world) : world :=
  World (w_fs w) (w_ldb w) (w_rdb w) (w_last w) d (v_rdb w) (v_lscan w) (v_rscan w) (v_excl w).
Definition set_vrdb (d : rmap) (w : world) : world :=
  World (w_fs w) (w_ldb w) (w_rdb w) (w_last w) (v_ldb w) d (v_lscan w) (v_rscan w) (v_excl w).
Definition set_lscan (x : nmap) (w : world) : world :=
  World (w_fs w) (w_ldb w) (w_rdb w) (w_last w) (v_ldb w) (v_rdb w) x (v_rscan w) (v_excl w).
Definition set_rscan (x : nmap) (w : world) : world :=
  World (w_fs w) (w_ldb w) (w_rdb w) (w_last w) (v_ldb w) (v_rdb w) (v_lscan w) x (v_excl w).
Definition set_excl (x : option pset) (w : world) : world :=
  World (w_fs w) (w_ldb w) (w_rdb w) (w_last w) (v_ldb w) (v_rdb w) (v_lscan w) (v_rscan w) x.
Definition commit_l (w : world) : world :=
  World (w_fs w) (v_ldb w) (w_rdb w) (w_last w) (v_ldb w) (v_rdb w) (v_lscan w) (v_rscan w) (v_excl w).
Definition commit_r (w : world) : world :=
  World (w_fs w) (w_ldb w) (v_rdb w) (w_last w) (v_ldb w) (v_rdb w) (v_lscan w) (v_rscan w) (v_excl w).
(** What a crash (or the end of a command) leaves: a new command starts with
    the committed databases and empty caches. *)
Definition reboot (w : world) : world := World (w_fs w) (w_ldb w) (w_rdb w) (w_last w) (w_ldb w) (w_rdb w) ∅ ∅ None.

Definition fsm {A} (m : M fs A) : M world A := lift w_fs set_fs m.
Definition ldb_do (f : lmap → lmap) : M world unit := mut (λ w, set_vldb (f (v_ldb w)) w).
Definition rdb_do (f : rmap → rmap) : M world unit := mut (λ w, set_vrdb (f (v_rdb w)) w).

Definition zielen_dir : path := [lit ".zielen"].
Definition util_dir (C : conf) : path := c_R C ++ zielen_dir.
Definition trash_dir (C : conf) : path := util_dir C ++ [lit "Trash"].
Definition exclude_dir (C : conf) : path := util_dir C ++ [lit "exclude"].

(** userdata.py 47-106: the entries of a directory with their data.
    Simplification: the stat of an entry is taken when the tree is scanned. *)
Definition scan_dir (m : fs) (root : path) : res nmap :=
  match scan_tree m root with
  | Ok l => Ok (list_to_map (omap (λ q, match stat false m q with Ok n => Some (rel_to root q, n) | Err _ => None end) l))
  | Err e => Err e
  end.
(** [LocalSyncDir.scan_paths(memoize=memo)]: an empty cache is not used. *)
Definition local_scan (C : conf) (memo : bool) : M world nmap :=
  c ←! get v_lscan;
  if memo && negb (bool_decide (c = ∅)) then ret c
  else s ←! eval (λ w, scan_dir (w_fs w) (c_L C)); mut (set_lscan s) ;! ret s.
(** userdata.py 238-249: [RemoteSyncDir.scan_paths] leaves out the program's
    own directory. *)
Definition hide_util (s : nmap) : nmap := filter (λ kv, ¬ zielen_dir `prefix_of` kv.1) s.
Definition remote_scan (C : conf) (memo : bool) : M world nmap :=
  c ←! get v_rscan;
  if memo && negb (bool_decide (c = ∅)) then ret (hide_util c)
  else s ←! eval (λ w, scan_dir (w_fs w) (c_R C)); mut (set_rscan s) ;! ret (hide_util s).
(** [scan_paths(dirs=False)] and [scan_paths(files=False, symlinks=False)] *)
Definition no_dirs (s : nmap) : nmap := filter (λ kv, is_Dir kv.2 = false) s.
Definition only_dirs (s : nmap) : nmap := filter (λ kv, is_Dir kv.2 = true) s.

(** profile.py 391-404: the excluded paths of the local directory, cached. *)
Definition excluded (C : conf) : M world pset :=
  c ←! get v_excl;
  match c with
  | Some x => ret x
  | None => x ←! get (λ w, c_glob C (c_patterns C) (w_fs w) (c_L C)); mut (set_excl (Some x)) ;! ret x
  end.

(** [except FileNotFoundError: if not os.path.isdir(util_dir): raise RemoteError] *)
Definition remote_guard {A} (C : conf) (m : M world A) : M world A :=
  catch m (λ e,
    match e with
    | FileNotFound => Some (d ←! get (λ w, isdir (w_fs w) (util_dir C)); if d : bool then throw FileNotFound else throw RemoteErr)
    | _ => None
    end).

(** userdata.py 186-199, [add_exclude_file]: [shutil.copy] of the profile's
    exclude file to one named after the profile. *)
Definition add_exclude_file (C : conf) : M world unit :=
  remote_guard C (fsm (
    q ←! eval (λ m, FS.resolve true m (exclude_dir C ++ [c_id C]));
    n ←! get (λ m, node_at m q);
    match n with
    | Some (Dir _) => throw IsADir
    | _ => write_file (c_now C) q (c_patterns C)
    end)).
