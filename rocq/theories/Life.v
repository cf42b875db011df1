(** The files of a profile from init to reset, and what interruptions leave of
    them: /repo/zielen/commands/init.py, reset.py and sync.py,
    /repo/zielen/commandbase.py, /repo/zielen/profile.py. *)
From stdpp Require Export gmap.
From Verif Require Export Command.
From stdpp Require Import options.

(** A file of the profile directory.  [open(path, "w")] makes the file empty;
    the contents are less than python's buffer and arrive when it is closed, so
    that there is nothing in between (containerbase.py 60-85, 110-113).  An
    empty database file is one without tables: [executescript] runs each CREATE
    TABLE in a transaction of its own (profile.py 459-503, userdata.py
    264-304); that some of the tables may be there is left out. *)
Inductive pfile (A : Type) := Absent | Empty | Whole (a : A).
Global Arguments Absent {_}.
Global Arguments Empty {_}.
Global Arguments Whole {_} _.
(** profile.py 421-438: "Status" and "InitOptions" of info.json. *)
Record info := Info { i_status : istatus; i_add : bool }.
(** The options "LocalDir" and "RemoteDir" of the configuration file. *)
Record dirs := Dirs { d_local : str; d_remote : str }.
(** The profile directory (profile.py 60-70). *)
Record pfiles := PFiles {
  f_dir : bool; f_exclude : bool; f_info : pfile info; f_db : pfile (gset str); f_cfg : pfile dirs }.
Definition no_files : pfiles := PFiles false false Absent Absent Absent.
(** A process: the profile directory, the database in the remote directory, and
    the functions that are registered to run at exit (init.py 58-75). *)
Record proc := Proc { disk : pfiles; rem : pfile unit; on_delete : bool; on_cleanup : bool }.
Definition start_proc (d : pfiles) (r : pfile unit) : proc := Proc d r false false.

Definition set_disk (f : pfiles → pfiles) (s : proc) : proc := Proc (f (disk s)) (rem s) (on_delete s) (on_cleanup s).
Definition set_rem (r : pfile unit) (s : proc) : proc := Proc (disk s) r (on_delete s) (on_cleanup s).
Definition set_dir (b : bool) (d : pfiles) : pfiles := PFiles b (f_exclude d) (f_info d) (f_db d) (f_cfg d).
Definition set_exclude (b : bool) (d : pfiles) : pfiles := PFiles (f_dir d) b (f_info d) (f_db d) (f_cfg d).
Definition set_info (x : pfile info) (d : pfiles) : pfiles := PFiles (f_dir d) (f_exclude d) x (f_db d) (f_cfg d).
Definition set_db (x : pfile (gset str)) (d : pfiles) : pfiles := PFiles (f_dir d) (f_exclude d) (f_info d) x (f_cfg d).
Definition set_cfg (x : pfile dirs) (d : pfiles) : pfiles := PFiles (f_dir d) (f_exclude d) (f_info d) (f_db d) x.
Definition disk_ (f : pfiles → pfiles) : M proc unit := put (set_disk f).

(** profile.py 83-93, [Profile.read]; containerbase.py 46-58 (a missing
    configuration file is a FileParseError, like one without the mandatory
    options) and 104-107 (an empty info.json is a ValueError). *)
Definition read_profile (d : pfiles) : res (info * dirs) :=
  match f_info d with
  | Absent => Err FileNotFound
  | Empty => Err ValueErr
  | Whole i => match f_cfg d with Whole c => Ok (i, c) | _ => Err FileParseErr end
  end.
(** containerbase.py 109-113 *)
Definition write_info (i : info) : M proc unit := disk_ (set_info Empty) ;! disk_ (set_info (Whole i)).
(** profile.py 449-503 and 104-107: a database that is there already is kept. *)
Definition create_db : M proc unit :=
  d ←! get disk;
  match f_db d with
  | Absent => disk_ (set_db Empty) ;! disk_ (set_db (Whole ∅))
  | _ => ret tt
  end.
(** profile.py 95-122, [Profile.generate].  [answers]: the directories that the
    user or the template gives; None if asking for them raises. *)
Definition generate_files (add : bool) (answers : option dirs) : M proc dirs :=
  disk_ (set_dir true) ;! disk_ (set_exclude true) ;! write_info (Info IPartial add) ;! create_db ;!
  match answers with
  | None => throw FileParseErr
  | Some c => disk_ (set_cfg Empty) ;! disk_ (set_cfg (Whole c)) ;! ret c
  end.
(** userdata.py 169-177, [RemoteSyncDir.generate] *)
Definition generate_remote : M proc unit :=
  r ←! get rem;
  match r with
  | Absent => put (set_rem Empty) ;! put (set_rem (Whole tt))
  | _ => ret tt
  end.
(** Adding rows to both databases and committing the remote one; that of the
    profile is committed after info.json is written (profile.py 124-127). *)
Definition use_dbs : M proc (gset str) :=
  s ←! get (λ s, (f_db (disk s), rem s));
  match s with
  | (Whole rows, Whole tt) => ret rows
  | _ => throw OperationalErr
  end.
Definition finish (i : info) (rows : gset str) : M proc unit :=
  write_info i ;! disk_ (set_db (Whole rows)).

(** init.py 52-180 for an accepted name and when no other process has the lock.
    [valid c]: the checks of the directories pass (init.py 133-143).  [work]:
    what comes of handling the files, with the paths it adds to the databases
    (158-163); Some exception if it fails. *)
Definition init_life (add : bool) (answers : option dirs) (valid : dirs → bool) (work : bool → dirs → res (gset str)) : M proc unit :=
  put (λ s, Proc (disk s) (rem s) (on_delete s) true) ;!
  d ←! get disk;
  x ←! match read_profile d with
       | Ok (Info IInitialized _, _) => throw InputErr
       | Ok (Info IPartial add', c) => ret (add', c)
       | Err FileNotFound =>
           put (λ s, Proc (disk s) (rem s) true (on_cleanup s)) ;!
           c ←! generate_files add answers;
           if valid c then put (λ s, Proc (disk s) (rem s) false (on_cleanup s)) ;! ret (add, c)
           else throw InputErr
       | Err e => throw e
       end;
  generate_remote ;!
  rows ←! use_dbs;
  match work x.1 x.2 with
  | Err e => throw e
  | Ok new => finish (Info IInitialized x.1) (rows ∪ new)
  end.

(** commandbase.py 97-112 and 73-83, [setup_profile] for a profile that is given
    by its name, when no other process has the lock. *)
Definition setup_profile : M proc (info * dirs) :=
  d ←! get disk;
  if negb (f_dir d) then throw InputErr
  else match read_profile d with
       | Err e => throw e
       | Ok (Info IPartial _, _) => throw InputErr
       | Ok x => ret x
       end.
(** commands/sync.py 59-141: [work] takes the rows of the profile's database to
    those after the sync. *)
Definition sync_life (work : gset str → res (gset str)) : M proc unit :=
  x ←! setup_profile;
  rows ←! use_dbs;
  match work rows with
  | Err e => throw e
  | Ok rows' => finish x.1 rows'
  end.
(** reset.py 45-109: [work] is what comes of retrieving the files and removing
    the links.  [shutil.rmtree] removes the files in any order and then the
    directory. *)
Inductive fname := NExclude | NInfo | NDb | NCfg.
Definition rm_file (x : fname) : pfiles → pfiles :=
  match x with
  | NExclude => set_exclude false
  | NInfo => set_info Absent
  | NDb => set_db Absent
  | NCfg => set_cfg Absent
  end.
Definition all_names : list fname := [NExclude; NInfo; NDb; NCfg].
Definition reset_life (work : res unit) (order : list fname) : M proc unit :=
  x ←! setup_profile;
  match work with
  | Err e => throw e
  | Ok _ => for_ order (λ x, disk_ (rm_file x)) ;! disk_ (set_dir false)
  end.

(** What a process leaves when it ends by itself, also by an exception: the
    functions registered at exit run in reverse order (init.py 60-75). *)
Definition is_empty (d : pfiles) : bool :=
  negb (f_exclude d) && match f_info d, f_db d, f_cfg d with Absent, Absent, Absent => true | _, _, _ => false end.
Definition at_exit (s : proc) : pfiles :=
  let d := if on_delete s then no_files else disk s in
  if on_cleanup s && is_empty d then set_dir false d else d.
(** A signal raises an exception at any point (cli.py 258-261, 313-315). *)
Inductive ending := Completes | Signalled (n : nat) | Killed (n : nat).
Definition ended (e : ending) (run : list proc * proc * res unit) : pfiles * pfile unit :=
  match e with
  | Completes => (at_exit run.1.2, rem run.1.2)
  | Signalled n => match run.1.1 !! n with Some s => (at_exit s, rem s) | None => (at_exit run.1.2, rem run.1.2) end
  | Killed n => match run.1.1 !! n with Some s => (disk s, rem s) | None => (disk run.1.2, rem run.1.2) end
  end.
